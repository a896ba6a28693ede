(* Property C151: interested is said once. *)
From Verif Require Import Base ModelBitset ModelMsg ModelTorrent ModelConn ModelPeer ModelSystem
  SpecPeer SpecInterested ProofSystem ProofWitness ProofInterested.

(* Full claim: a connection carries one interested message.                     *)
Theorem C151_once_refuted :
  forall sha1, ~ (forall w0 l w tr k, Forall (spawns (eq false)) l -> run sha1 l (start w0) = (w, tr) -> (told (events_of k tr) <= 1)%nat).
Proof. exact told_once. Qed.
(* A peer that sends nothing but keep-alives is told as often as one likes.     *)
Theorem C151_unbounded :
  forall sha1 n, exists w tr, run sha1 (ASpawn false 0 :: lulls n) (start (px 131072 2)) = (w, tr) /\ crashed w = false /\
    Forall choking (events_of 0 tr) /\ told (events_of 0 tr) = n /\ forall b, In (EReadOk b) (events_of 0 tr) -> b = [].
Proof. exact told_often. Qed.
(* What holds: it is said while choked only, and not twice without reading (or
   trying to) in between.                                                       *)
Theorem C151_choked_partial :
  forall sha1 w0 l w tr k a e c, Forall (spawns (eq false)) l -> run sha1 l (start w0) = (w, tr) ->
    events_of k tr = a ++ e :: c -> tells e -> last_switch ChokeT UnchokeT a true true.
Proof. exact told_choked. Qed.
Theorem C151_spaced_partial :
  forall sha1 w0 l w tr k a e b e' c, Forall (spawns (eq false)) l -> run sha1 l (start w0) = (w, tr) ->
    events_of k tr = a ++ e :: b ++ e' :: c -> tells e -> tells e' -> Exists reading b.
Proof. exact told_spaced. Qed.
(* How often: a peer that never unchokes is told once for every two messages it
   sends, as long as they arrive.                                               *)
Theorem C151_half_exact :
  forall sha1 w0 l w tr k, Forall (spawns (eq false)) l -> run sha1 l (start w0) = (w, tr) ->
    Forall choking (events_of k tr) -> (heard (events_of k tr) <= 2 * told (events_of k tr) <= heard (events_of k tr) + 2)%nat.
Proof. exact told_half. Qed.

(* a bitfield, a have, an unchoke, a keep-alive, a choke, a keep-alive; after the
   unchoke nothing is said until the choke                                      *)
Definition ix_run : list action :=
  ASpawn false 0 :: repeat (APeer 0 go) 6 ++ [APeer 0 (rd [5; 128]); APeer 0 go; APeer 0 (rd [4; 0; 0; 0; 1])] ++
  repeat (APeer 0 go) 6 ++ [APeer 0 (rd [1]); APeer 0 go; APeer 0 (rd [])] ++
  repeat (APeer 0 go) 5 ++ [APeer 0 (rd [0])] ++ repeat (APeer 0 go) 6 ++ [APeer 0 (rd [])].
Example C151_ex : let es := events_of 0 (snd (run (fun _ => []) ix_run (start (px 131072 2)))) in
  es = [ESent CreateInterestedMessage; EReadOk [5; 128]; EReadOk [4; 0; 0; 0; 1]; ESent CreateInterestedMessage; EReadOk [1]; EReadOk [];
    EReadOk [0]; ESent CreateInterestedMessage; EReadOk []] /\ told es = 3%nat /\ heard es = 6%nat.
Proof. vm_compute. auto. Qed.

Print Assumptions C151_once_refuted.
Print Assumptions C151_unbounded.
Print Assumptions C151_choked_partial.
Print Assumptions C151_spaced_partial.
Print Assumptions C151_half_exact.
