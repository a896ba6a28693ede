(* What a peer receives from us: the bytes of all writes, one after another.    *)
From Verif Require Import Base ModelMsg ModelPeer SpecMsg.

(* c: the bytes an event of Run puts on the connection.  A write that fails may have
   sent some of the message, but not all of it.                                 *)
Definition emits (e : event) (c : bytes) : Prop :=
  match e with
  | ESent m => c = Send m
  | ESendErr m => exists rest, rest <> [] /\ Send m = c ++ rest
  | _ => c = []
  end.
(* the messages written completely *)
Definition sent (es : list event) : list msg := flat_map (fun e => match e with ESent m => [m] | _ => [] end) es.
(* the body of a keep-alive, of interested, and of a request (see C14 for its fields) *)
Definition our_body (b : bytes) : Prop := b = [] \/ b = [2] \/ exists p, b = 6 :: p /\ zlen p = 12.
