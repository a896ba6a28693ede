(* Theorems about the stream of bytes a peer receives from us (property C100).  *)
From Verif Require Import Base ModelMsg ModelTorrent ModelConn ModelPeer ModelSystem SpecMsg SpecStream ProofConn ProofStream ProofWitness.

(* ---------- C100 ---------- *)
(* cs: what each event of peer k put on its connection.  The full claim:
   concat cs is the messages written, each in its frame, and at most the beginning of one more. *)
Theorem C100_whole_messages_refuted :
  forall sha1, ~ (forall w0 l w tr k cs, run sha1 l (start w0) = (w, tr) -> Forall2 emits (events_of k tr) cs ->
    exists bodies rest, concat cs = concat (map frame bodies) ++ rest /\ Forall2 (fun m b => Send m = frame b) (sent (events_of k tr)) bodies /\
      (rest = [] \/ exists more body, more <> [] /\ is_u32 (zlen body) /\ rest ++ more = frame body)).
Proof.
  intros sha1 H. destruct (run sha1 cut (start (px 16384 2))) as [w tr] eqn:E.
  destruct (cut_stream sha1 w tr E) as [E1 E2].
  destruct (H _ _ _ _ 0%nat [[0; 0; 0; 1]; [0; 0; 0; 1; 2]] E E1) as (bodies & rest & C & F & _).
  rewrite E2 in F. inversion F as [|m b l l' Hb F' X Y]; subst. inversion F'; subst. cbn [map concat] in C. rewrite <- Hb in C. discriminate C.
Qed.
(* in this execution only interested was sent, and a client reading what arrives takes it for choke *)
Theorem C100_reads_choke_refuted :
  forall sha1, exists w0 l w tr cs left, run sha1 l (start w0) = (w, tr) /\ Forall2 emits (events_of 0 tr) cs /\ sent (events_of 0 tr) = [CreateInterestedMessage] /\ ReadPeerMessage [Chunk (concat cs)] = (ROk [0], left).
Proof.
  intros sha1. destruct (run sha1 cut (start (px 16384 2))) as [w tr] eqn:E. destruct (cut_stream sha1 w tr E) as [E1 E2].
  exists (px 16384 2), cut, w, tr, [[0; 0; 0; 1]; [0; 0; 0; 1; 2]], [Chunk [0; 0; 1; 2]].
  split; [exact E|]. split; [exact E1|]. split; [exact E2|reflexivity].
Qed.
Theorem C100_whole_messages_partial :
  forall sha1 w0 l w tr k cs, run sha1 l (start w0) = (w, tr) -> Forall2 emits (events_of k tr) cs ->
    (* a failed write has sent nothing of its message, keep-alives aside *)
    (forall m c, In (ESendErr m, c) (combine (events_of k tr) cs) -> m <> KeepalivePeerMessage -> c = []) ->
    exists bodies rest, concat cs = concat (map frame bodies) ++ rest /\ Forall2 (fun m b => Send m = frame b) (sent (events_of k tr)) bodies /\
      Forall our_body bodies /\ (rest = [] \/ exists more, more <> [] /\ rest ++ more = frame []).
Proof. exact stream_frames. Qed.
(* interested and a request are written, then two bytes of a keep-alive *)
Example C100_ex :
  let tr := snd (run (fun _ => []) (ask_zero ++ [APeer 0 go; APeer 0 go; APeer 0 go; APeer 0 go; APeer 0 (mkI true false None true); APeer 0 go]) (start (px 131072 2))) in
  sent (events_of 0 tr) = [CreateInterestedMessage; CreatePieceMessage 0 0 131072] /\
  Forall2 emits (events_of 0 tr) [[0; 0; 0; 1; 2]; []; []; [0; 0; 0; 13; 6; 0; 2; 0; 0; 0; 0; 0; 0; 0; 0; 0; 0]; []; [0; 0]].
Proof.
  intros tr. assert (V : events_of 0 tr = [ESent CreateInterestedMessage; EReadOk [1]; ECreate (CreatePieceMessage 0 0 131072);
    ESent (CreatePieceMessage 0 0 131072); EReadErr; ESendErr KeepalivePeerMessage]) by (vm_compute; reflexivity).
  rewrite V. split; [reflexivity|]. repeat constructor. exists [0; 0]. split; [discriminate|reflexivity].
Qed.

Print Assumptions C100_whole_messages_refuted.
Print Assumptions C100_reads_choke_refuted.
Print Assumptions C100_whole_messages_partial.
