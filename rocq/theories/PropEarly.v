(* A signal before the first announce (property C171).                         *)
From Verif Require Import Base ProofBase Sha1 ModelStats ModelTorrent ModelPeer ModelSystem ModelTracker ModelManager ModelClient
  SpecManager SpecClient SpecCrash ProofWitness ProofClient4 ProofClient5 ProofClient6 ProofCrash ProofEarly PropStats PropCrash.

(* ---------- C171 ---------- *)
(* the first line of the progress can always be printed *)
Lemma fresh_bar cf t : real_bar cf -> cf_bar cf (NewStats (u64 (t_length t))) = false.
Proof.
  intros RB. apply Bool.not_true_is_false. intros B. apply RB in B. assert (0 <= u64 (t_length t) < 2 ^ 64) by (apply Z.mod_pos_bound; lia).
  destruct (C35_print_never_crashes_partial (NewStats (u64 (t_length t)))) as (bar & txt & P & _); cbn; [lia|lia|]. congruence.
Qed.
(* A signal comes before any round of announces has begun: nothing has happened on the
   outside, nothing ever will, the files stay as they were made, and the process does
   not crash, whatever it does from here.                                      *)
Theorem C171_nothing_happens :
  forall cf t f outs urls l1 c1 t1 l2 c2 t2, real_bar cf ->
    crun cf l1 (client_start cf t f outs urls) = (c1, t1) -> (forall j, ~ In (VMgr (GRound j)) t1) -> crun cf (KSignal :: l2) c1 = (c2, t2) ->
    t1 = [] /\ t2 = [] /\ client_status c2 <> Some 2 /\ w_fs (sh_w (wo_sh (c_wo c2))) = f.
Proof. intros cf t f outs urls l1 c1 t1 l2 c2 t2 RB. apply early_end_at. now apply fresh_bar. Qed.
(* and it ends with status 0 under every schedule that gives the goroutines their turns *)
Theorem C171_status :
  forall cf t f outs urls l1 c1 t1 l2 c2 t2 s, real_bar cf ->
    crun cf l1 (client_start cf t f outs urls) = (c1, t1) -> (forall j, ~ In (VMgr (GRound j)) t1) -> crun cf (KSignal :: l2) c1 = (c2, t2) -> cfair s ->
    exists n, client_status (cafter cf s n c2) = Some 0.
Proof. intros cf t f outs urls l1 c1 t1 l2 c2 t2 s RB. apply early_zero_at. now apply fresh_bar. Qed.
(* the trackers are about to be asked *)
Definition ex_early : list cact := [KMain; KTrk 0 well; KPrint true].
Example C171_ex : real_bar cr_conf /\ cfair cturns /\
  let '(c1, t1) := crun cr_conf ex_early cr_start in
  let '(c, t2) := crun cr_conf [KSignal; KPrint true] c1 in
  t1 = [] /\ t2 = [] /\ g_trk (c_mgr c) = [TStart] /\ client_status c = None /\ client_status (cafter cr_conf cturns 60 c) = Some 0.
Proof. split; [exact C117_ex_bar|]. split; [exact cturns_fair|]. vm_compute. repeat split; reflexivity. Qed.
(* the bound is sharp: a signal one step later, while the first announce is made, and the
   process may crash, because the reply still comes and its peer is not reached *)
Definition ex_late : list cact := [KMain; KTrk 0 well; KTrk 0 well; KSignal] ++ announce1 ++ repeat (KTrk 0 well) 2.
Example C171_ex_late : let '(c, tr) := crun cr_conf ex_late cr_start in
  In (VMgr (GRound 0)) tr /\ client_status c = None /\ client_status (cafter cr_conf cturns 60 c) = Some 2.
Proof. vm_compute. split; [now left|]. split; reflexivity. Qed.

Print Assumptions C171_nothing_happens.
Print Assumptions C171_status.
