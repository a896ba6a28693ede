(* Theorems about the end of a download (properties C54-C56).                   *)
From Verif Require Import Base SpecPath ModelPath ModelBitset ModelMsg ModelTorrent ModelConn ModelPeer ModelSystem
  SpecTorrent SpecPeer ProofWrite ProofDisk ProofSystem ProofPeer ProofPeer2 ProofWitness ProofShutdown ProofLost.

(* ---------- C54 ---------- *)
(* Full claim: when all pieces are stored Download returns, without anyone cancelling. *)
Theorem C54_returns_when_done_refuted :
  forall sha1 : bytes -> bytes,
  ~ (forall w0 l w tr, run sha1 l (start w0) = (w, tr) -> crashed w = false -> Done (sh_t (wo_sh w)) = true ->
       exists l2 w2 tr2, ~ In ACancel l2 /\ run sha1 l2 w = (w2, tr2) /\ wo_main w2 = MRet).
Proof. exact return_when_done_refuted. Qed.
(* In no schedule at all does it return before the context is cancelled. *)
Theorem C54_only_when_cancelled :
  forall sha1 w0 l w tr, run sha1 l (start w0) = (w, tr) -> wo_main w = MRet -> In ACancel l.
Proof. exact never_returns. Qed.
(* What holds: once cancelled, it returns under every schedule that gives each
   goroutine its turn again and again and starts no further peers, unless the
   process crashes (C55).                                                      *)
Theorem C54_returns_when_cancelled_partial :
  forall sha1 f w, sh_cancel (wo_sh w) = true -> fair f -> (forall n b g, f n <> ASpawn b g) ->
    exists n, wo_main (after sha1 f n w) = MRet \/ crashed (after sha1 f n w) = true.
Proof. exact returns_when_cancelled. Qed.
(* both pieces arrive and are stored; Download stays in wg.Wait *)
Example C54_ex : forall sha1, exists w tr r, run sha1 both_pieces (wx_start sha1) = (w, tr) /\ crashed w = false /\
  nth_error (wo_peers w) 0 = Some r /\ Done (sh_t (wo_sh w)) = true /\ wo_main w <> MRet.
Proof.
  intros sha1. destruct (both_pieces_run sha1) as (w & tr & r & H1 & H2 & _ & H4 & H5 & _). exists w, tr, r.
  split; [exact H1|]. split; [exact H2|]. split; [exact H5|]. split; [exact H4|].
  intros M. apply (never_returns _ _ _ _ _ H1) in M. unfold both_pieces in M. cbn in M. repeat (destruct M as [M|M]; [discriminate M|]). exact M.
Qed.
(* there are such schedules, and Download returns under one with a running peer *)
Example C54_ex_fair : fair in_turn /\ (forall n b g, in_turn n <> ASpawn b g).
Proof. exact (conj in_turn_fair in_turn_no_spawn). Qed.
Example C54_ex_cancelled : forall sha1,
  let w := fst (run sha1 (ASpawn false 0 :: to_read 0 ++ [ACancel]) (wx_start sha1)) in
  sh_cancel (wo_sh w) = true /\ wg w = 1 /\ exists n, wo_main (after sha1 in_turn n w) = MRet.
Proof. intros sha1. cbv zeta. split; [vm_compute; reflexivity|]. split; [vm_compute; reflexivity|]. exists 130%nat. vm_compute. reflexivity. Qed.

(* ---------- C55 ---------- *)
(* Full claim: cancelling never makes a peer panic.  A peer sending to a closed
   channel panics, so no peer may be about to send once the channel is closed.  *)
Theorem C55_no_panic_after_cancel_refuted :
  forall sha1 : bytes -> bytes,
  ~ (forall w0 l w tr k r u m, run sha1 l (start w0) = (w, tr) -> nth_error (wo_peers w) k = Some r -> r_pc r = PPut u m -> sh_closed (wo_sh w) = false).
Proof. exact send_after_close_refuted. Qed.
Theorem C55_closed_send_panics :
  forall sha1 i s r u m, r_pc r = PPut u m -> sh_closed s = true -> pstep sha1 i s r = Some (s, at_pc r PPanic, []).
Proof. exact closed_send_panics. Qed.
(* What holds: if no peer starts from some moment on at which Download still is in
   wg.Wait, then either it still waits and the channel is open, or all peers
   have ended.  Missing: trackers start peers after wg.Wait has returned.       *)
Theorem C55_all_ended_partial :
  forall sha1 w0 l1 l2 w1 e1 w2 e2, run sha1 l1 (start w0) = (w1, e1) -> wo_main w1 = MWait ->
    run sha1 l2 w1 = (w2, e2) -> (forall b g, ~ In (ASpawn b g) l2) ->
    wo_main w2 = MWait /\ sh_closed (wo_sh w2) = false \/ forall r, In r (wo_peers w2) -> r_pc r = PRet.
Proof. exact all_ended. Qed.
(* wg.Wait returns before the first peer; a verified piece arrives; the context is
   cancelled and the channel closed; the peer sends, and the process crashes     *)
Example C55_ex : forall sha1, exists w tr r u m, run sha1 late_piece (wx_start sha1) = (w, tr) /\ crashed w = false /\ wo_main w = MRet /\
  nth_error (wo_peers w) 0 = Some r /\ r_pc r = PPut u m /\ verified sha1 (wx_t sha1) m /\ sh_closed (wo_sh w) = true /\
  crashed (fst (exec sha1 (APeer 0 go) w)) = true.
Proof. exact late_piece_run. Qed.
Example C55_ex_ended : forall sha1,
  let w1 := fst (run sha1 (ASpawn false 0 :: to_read 0) (wx_start sha1)) in
  let w2 := fst (run sha1 (ACancel :: map in_turn (seq 0 130)) w1) in
  wo_main w1 = MWait /\ wg w1 = 1 /\ sh_closed (wo_sh w2) = true /\ wg w2 = 0 /\ length (wo_peers w2) = 1%nat.
Proof. intros sha1. vm_compute. repeat split; reflexivity. Qed.

(* ---------- C56 ---------- *)
(* Full claim: what the peers handed to the writer is written when Download returns. *)
Theorem C56_written_refuted :
  forall sha1 : bytes -> bytes,
  ~ (forall w0 l w tr, run sha1 l (start w0) = (w, tr) -> crashed w = false -> wo_main w = MRet -> forall m, In m (handed tr) -> In m (wo_taken w)).
Proof. exact written_refuted. Qed.
(* What holds: at any time at most 1025 messages are missing, the latest ones
   (1024 in the channel and one the writer has taken) ... *)
Theorem C56_few_missing_partial :
  forall sha1 w0 l w tr, run sha1 l (start w0) = (w, tr) -> exists missing, handed tr = wo_taken w ++ missing /\ zlen missing <= 1025.
Proof. exact few_missing. Qed.
(* ... not one of these 1025 can be promised: for any number up to it, the peers hand
   over that many messages, none is written and Download returns ... *)
Theorem C56_bound_exact :
  forall sha1 n, 0 <= n <= 1025 -> exists w0 l w tr, run sha1 l (start w0) = (w, tr) /\ crashed w = false /\ wo_main w = MRet /\
    wo_taken w = [] /\ zlen (handed tr) = n.
Proof. exact bound_reached. Qed.
(* ... and the writer writes them all if it is given two turns for each. *)
Theorem C56_drain_partial :
  forall sha1 n w, zlen (held w) + 2 * zlen (sh_ch (wo_sh w)) = Z.of_nat n ->
    exists w' tr, run sha1 (repeat AWriter n) w = (w', tr) /\ tr = [] /\
      (crashed w' = true \/ sh_ch (wo_sh w') = [] /\ wo_taken w' = wo_taken w ++ held w ++ sh_ch (wo_sh w)).
Proof. exact drain. Qed.
(* a verified piece is in the channel, Download has returned, the file is empty *)
Example C56_ex : forall sha1, exists w tr m, run sha1 unwritten (wx_start sha1) = (w, tr) /\ crashed w = false /\ wo_main w = MRet /\
  handed tr = [m] /\ verified sha1 (wx_t sha1) m /\ wo_taken w = [] /\ contents (w_fs (sh_w (wo_sh w))) wx_place = [].
Proof. exact unwritten_run. Qed.

Print Assumptions C54_returns_when_done_refuted.
Print Assumptions C54_only_when_cancelled.
Print Assumptions C54_returns_when_cancelled_partial.
Print Assumptions C55_no_panic_after_cancel_refuted.
Print Assumptions C55_closed_send_panics.
Print Assumptions C55_all_ended_partial.
Print Assumptions C56_written_refuted.
Print Assumptions C56_few_missing_partial.
Print Assumptions C56_bound_exact.
Print Assumptions C56_drain_partial.
