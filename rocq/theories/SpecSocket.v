(* What arrives on a connection, whatever pieces it comes in (C163, C164).      *)
From Verif Require Import Base SpecMsg ModelMsg ModelConn ModelPeer ModelSystem ModelTracker ModelManager ModelClient.

Inductive item := IByte (x : Z) | ITimeout | IEof.
Definition items (s : list ev) : list item :=
  flat_map (fun e => match e with Chunk b => map IByte b | Timeout => [ITimeout] | Eof => [IEof] end) s.
(* the bytes alone *)
Definition stream (s : list ev) : bytes := flat_map (fun e => match e with Chunk b => b | _ => [] end) s.
(* the events but for the pieces in which a handshake came *)
Definition bare (e : cev) : cev := match e with VShake k _ => VShake k [] | _ => e end.
(* the messages that peers send can have their length in four bytes *)
Definition sends_framed (a : cact) : Prop := match a with KPeer _ i => forall b, i_read i = Some b -> is_u32 (zlen b) | _ => True end.
(* Messages with their lengths, one after another; bytes between them are lost. *)
Inductive framed : bytes -> list bytes -> Prop :=
| fr_nil x : framed x []
| fr_cons g b bs x : framed x bs -> framed (g ++ frame b ++ x) (b :: bs).
(* a handshake for the torrent with this hash *)
Definition handshake_for (hash hs : bytes) : Prop :=
  exists res pid, hs = 19 :: str "BitTorrent protocol" ++ res ++ hash ++ pid /\ length res = 8%nat /\ length hash = 20%nat /\ length pid = 20%nat.
Definition bytes_only (ss : list (list ev)) : Prop := Forall (fun s => Forall is_byte (stream s)) ss.
(* the same step, but for what arrives *)
Definition same_act (a a' : cact) : Prop :=
  a' = a \/ (exists j x s, a = KTrk j x /\ a' = KTrk j (mkCin (x_id x) (x_ok x) (x_timer x) s)) \/ (exists k i b, a = KPeer k i /\ a' = KPeer k (mkI (i_due i) (i_ok i) b (ModelPeer.i_timer i))).
