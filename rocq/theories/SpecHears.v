(* What a peer hears from us after the handshake (C165).                       *)
From Verif Require Import Base ModelMsg ModelPeer ModelClient SpecPeer.

(* the messages written to the k-th peer in Run, as they are on the wire, in order *)
Definition said (k : nat) (tr : list cev) : list bytes :=
  flat_map (fun e => match e with VSys j (ESent m) => if Nat.eqb j k then [Send m] else [] | _ => [] end) tr.
(* keep-alives and interested (BEP-3), at most one keep-alive before the first interested *)
Definition keepalive : bytes := [0; 0; 0; 0].
Definition interested : bytes := [0; 0; 0; 1; 2].
Definition ours (w : list bytes) : Prop :=
  Forall (fun b => b = keepalive \/ b = interested) w /\ ~ exists w', w = keepalive :: keepalive :: w'.
