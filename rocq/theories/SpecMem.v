(* Amounts received.                                                            *)
From Verif Require Import Base ModelMsg ModelConn ModelPeer.

Definition zsum (l : list Z) : Z := fold_right Z.add 0 l.
(* the bytes that arrive on a socket *)
Definition arriving (s : list ev) : Z := zsum (map (fun e => match e with Chunk b => zlen b | _ => 0 end) s).
Definition ev_bytes (s : list ev) : Prop := Forall (fun e => match e with Chunk b => Forall is_byte b | _ => True end) s.

(* the bytes of the message bodies read *)
Definition received (es : list event) : Z := zsum (map (fun e => match e with EReadOk b => zlen b | _ => 0 end) es).
(* the pieces the set of a peer has room for, before and after an event: have and piece
   messages make room for the piece they name, a bitfield for whole words of 64 bits  *)
Definition room (n : Z) (e : event) : Z :=
  match e with
  | EReadOk (t :: p) => if t =? 4 then (if 4 <=? zlen p then Z.max n (be_get (sub p 0 4) + 1) else n) else if t =? 5 then 64 * ((zlen p + 7) / 8) else n
  | EPut m => Z.max n (m_index m + 1)
  | _ => n
  end.
