(* A peer that was never reached and the end of the process: C168.             *)
From Verif Require Import Base ProofBase ModelBitset ModelMsg ModelTorrent ModelConn ModelStats ModelPeer ModelSystem ModelTracker ModelManager ModelClient
  SpecManager SpecClient SpecDoom ProofSystem ProofManager ProofClient ProofClient2 ProofClient3 ProofClient6 ProofCrash ProofClock.

Definition stuck (k : nat) (g : mgr) : Prop := g_pool g <> None /\ exists p, nth_error (g_peers g) k = Some p /\ out_of_reach p.
Lemma close_none g k : conn_of g k = None -> forall m cs, In k (map snd m) -> close_all g m cs = None.
Proof.
  intros H m. induction m as [|[x i] m IH]; intros cs; [intros []|]. cbn. intros [->|HI]; [now rewrite H|]. destruct (conn_of g i); [now apply IH|reflexivity].
Qed.
Lemma upd_stuck (g : mgr) k i p p' : nth_error (g_peers g) i = Some p -> (out_of_reach p -> out_of_reach p') ->
  (exists q, nth_error (g_peers g) k = Some q /\ out_of_reach q) -> exists q, nth_error (upd (g_peers g) i p') k = Some q /\ out_of_reach q.
Proof.
  intros Hp H (q & Hq & D). destruct (Nat.eq_dec i k) as [->|NE].
  - exists p'. rewrite Hp in Hq. injection Hq as <-. split; [eapply nth_upd_same; exact Hp|exact (H D)].
  - exists q. split; [now rewrite nth_upd_other by congruence|exact D].
Qed.
Lemma tstep_stuck g tr j pc i g' es k : ginv g tr -> nth_error (g_trk g) j = Some pc -> tstep g j pc i = Some (g', es) -> stuck k g -> stuck k g'.
Proof.
  intros IV HJ H [HP HD]. pose proof (fun n => iv_own _ _ IV j pc n HJ) as OW.
  assert (FAIL : forall h n, (forall q, owner pc = Some n -> nth_error (g_peers h) n = Some q -> mp_state q = PsNew) -> owner pc = Some n -> stuck k h -> stuck k (peer_failed h n)).
  { intros h n HS HO [A B]. unfold peer_failed. destruct (nth_error (g_peers h) n) as [q|] eqn:E; [|now split]. split; [exact A|]. cbn [set_num set_peers g_peers].
    eapply upd_stuck; [exact E| |exact B]. intros [C [D|D]]; [rewrite (HS q HO eq_refl) in D; discriminate|]. split; [exact C|now left]. }
  assert (AF : forall h n x ips, (forall q, owner pc = Some n -> nth_error (g_peers h) n = Some q -> mp_state q = PsNew) -> owner pc = Some n -> stuck k h -> stuck k (after_failure h j n x ips)).
  { intros h n x ips HS HO S. unfold after_failure. destruct (Nat.eqb x 4); [exact (FAIL h n HS HO S)|exact S]. }
  destruct pc as [| |n|n|[|a ips]|n ips|n x ips|n x ips|n x ips| |]; cbn [tstep] in H.
  - inversion H; subst. now split.
  - destruct (g_cancel g); inversion H; subst; now split.
  - destruct (i_ann i); inversion H; subst; now split.
  - destruct (i_timer i); [|destruct (g_cancel g)]; inversion H; subst; now split.
  - inversion H; subst. now split.
  - unfold AddPeer in H. destruct (g_pool g) as [m|] eqn:Em; [|congruence]. destruct (pool_get m (apString a)); inversion H; subst; (split; [cbn; congruence|]); [exact HD|].
    destruct HD as (q & Hq & D). exists q. cbn. split; [rewrite nth_error_app1; [exact Hq|apply nth_error_Some; congruence]|exact D].
  - destruct (OW n eq_refl) as (p & Hp & Sp). destruct (g_cancel g); inversion H; subst; [|now split].
    apply FAIL; [intros q _ Hq; congruence|reflexivity|now split].
  - destruct (OW n eq_refl) as (p & Hp & Sp). rewrite Hp in H. destruct (mp_addr p) as [b|] eqn:Ea.
    + assert (U : forall c', exists q, nth_error (upd (g_peers g) n (mkMp (Some b) c' (mp_state p))) k = Some q /\ out_of_reach q).
      { intros c'. eapply upd_stuck; [exact Hp| |exact HD]. intros [_ [D|D]]; congruence. }
      destruct (i_dial i && true); inversion H; subst; [split; [exact HP|apply U]|]. apply AF; [|reflexivity|split; [exact HP|apply U]].
      intros q _. cbn [set_peers g_peers]. rewrite (nth_upd_same _ _ _ _ Hp). intros X. injection X as <-. exact Sp.
    + rewrite andb_false_r in H. inversion H; subst. apply AF; [|reflexivity|split; [exact HP|]].
      * intros q _. cbn [set_peers g_peers]. rewrite (nth_upd_same _ _ _ _ Hp). intros X. injection X as <-. exact Sp.
      * cbn [set_peers g_peers]. eapply upd_stuck; [exact Hp| |exact HD]. intros _. split; [reflexivity|now right].
  - destruct (OW n eq_refl) as (p & Hp & Sp). destruct (i_shake i).
    + rewrite Hp in H. inversion H; subst. split; [exact HP|]. cbn [set_trk set_peers g_peers]. eapply upd_stuck; [exact Hp| |exact HD]. intros [C [D|D]]; [congruence|]. split; [exact C|now right].
    + inversion H; subst. apply AF; [intros q _ Hq; congruence|reflexivity|now split].
  - destruct (OW n eq_refl) as (p & Hp & Sp). destruct (i_timer i); [inversion H; subst; now split|]. destruct (g_cancel g); inversion H; subst.
    apply FAIL; [intros q _ Hq; congruence|reflexivity|now split].
  - destruct (i_timer i); [|destruct (g_cancel g)]; inversion H; subst; now split.
  - discriminate.
Qed.
Lemma gexec_stuck g tr a g' es k : ginv g tr -> gexec a g = (g', es) -> stuck k g -> stuck k g'.
Proof.
  intros IV H S. unfold gexec in H. destruct (g_panic g) eqn:EP; [inversion H; subst; exact S|]. destruct a as [n|j i|n| | |].
  - destruct (g_started g); inversion H; subst; exact S.
  - destruct (nth_error (g_trk g) j) as [pc|] eqn:HJ; [|inversion H; subst; exact S]. destruct (tstep g j pc i) as [[g1 e1]|] eqn:T; inversion H; subst; [|exact S]. eapply tstep_stuck; eassumption.
  - destruct (nth_error (g_peers g) n) as [p|] eqn:E; [|inversion H; subst; exact S]. destruct (mp_state p) eqn:SP; inversion H; subst; try exact S.
    destruct S as [A B]. split; [exact A|]. cbn [set_peers g_peers]. eapply upd_stuck; [exact E| |exact B]. intros [C [D|D]]; [congruence|]. split; [exact C|now right].
  - inversion H; subst. exact S.
  - destruct (g_stop g); inversion H; subst; [exact S|]. unfold stop_check. destruct S as [A B]. destruct (g_pool g) eqn:E; [|congruence]. destruct (g_started g); split; cbn; congruence || exact B.
  - destruct (g_stop g); inversion H; subst; [|exact S]. unfold stop_close. destruct S as [A (p & Hp & D)]. destruct (g_pool g) as [m|] eqn:E; [|congruence].
    rewrite (close_none g k); [split; [cbn; congruence|exists p; now split]| |].
    + unfold conn_of. rewrite Hp. apply D.
    + rewrite (proj2 (iv_pool _ _ IV _ E)). apply in_seq. assert (k < length (g_peers g))%nat by (apply nth_error_Some; congruence). lia.
Qed.
Lemma cexec_stuck cf a c c' es k : reach cf c -> cexec cf a c = (c', es) -> c_exit c = false /\ stuck k (c_mgr c) -> c_exit c' = false /\ stuck k (c_mgr c').
Proof.
  intros HR H [HE S]. destruct (reach_iv _ _ HR) as (tr & IV). assert (S' : stuck k (c_mgr c')).
  { destruct (cexec_mgr _ _ _ _ _ H) as [[-> _]|(x & G & _)]; [exact S|]. eapply gexec_stuck; eassumption. }
  split; [|exact S']. apply cexec_move in H. destruct H as [[-> _]|(_ & _ & M)]; [exact HE|].
  inversion M; subst; clear M; cbn [c_exit mgr_step sys_step cnt_step prt_step set_ctr]; try exact HE. destruct S as [A _]. contradiction.
Qed.
Lemma stuck_run cf l : forall c c' es k, reach cf c -> crun cf l c = (c', es) -> c_exit c = false /\ stuck k (c_mgr c) -> c_exit c' = false /\ stuck k (c_mgr c').
Proof.
  induction l as [|a l IH]; intros c c' es k HR H S; cbn [crun] in H; [inversion H; subst; exact S|].
  destruct (cexec cf a c) as [c1 e1] eqn:E1. destruct (crun cf l c1) as [c2 e2] eqn:E2. inversion H; subst. eapply IH; [eapply reach_step; eassumption|exact E2|eapply cexec_stuck; eassumption].
Qed.
Section doom.
  Variables (cf : conf) (t : torrent) (f : fs) (outs : list (option Z)) (urls : list bytes) (l : list cact) (c : client) (tr : list cev).
  Hypotheses (HR : crun cf l (client_start cf t f outs urls) = (c, tr)) (HS : ~ In KSignal l) (HG : given_up c).
  Lemma begins : c_exit c = false /\ exists k, stuck k (c_mgr c).
  Proof.
    assert (N : Forall (fun a => a <> KSignal) l) by (apply Forall_forall; intros a Ha ->; contradiction).
    assert (W : waiting c) by (refine (crun_inv cf (fun c _ => waiting c) (fun a => a <> KSignal) _ _ _ l c tr N HR); [repeat split; now left|intros; eapply waiting_step; eassumption]).
    destruct W as (_ & W2 & _ & W4). split; [exact W4|]. destruct HG as (p & Hp & D). apply In_nth_error in Hp as [k Hk]. exists k. split; [|eauto].
    destruct (crun_mgr _ _ _ _ _ _ _ _ HR) as (lg & RG). intros E. rewrite (nil_cancel _ _ _ _ RG E) in W2. discriminate.
  Qed.
  Lemma doomed l2 c2 tr2 : crun cf l2 c = (c2, tr2) -> client_status c2 <> Some 0.
  Proof.
    intros H. destruct begins as (B & k & S). destruct (stuck_run cf l2 c c2 tr2 k ltac:(repeat eexists; exact HR) H (conj B S)) as [E _].
    unfold client_status. rewrite E. destruct (dead c2); discriminate.
  Qed.
  Lemma doomed_ends l2 c2 tr2 s : crun cf l2 c = (c2, tr2) -> In KSignal l2 -> cfair s -> exists n, client_status (cafter cf s n c2) = Some 2.
  Proof.
    intros H HI HF. destruct (signal_ends cf t f outs urls (l ++ l2) c2 (tr ++ tr2) s) as (n & [X|X]); [rewrite crun_app, HR, H; reflexivity|apply in_or_app; now right|exact HF| |eauto].
    exfalso. unfold cafter in X. destruct (crun cf (map s (seq 0 n)) c2) as [c3 e3] eqn:E. cbn [fst] in X. revert X. apply (doomed (l2 ++ map s (seq 0 n)) c3 (tr2 ++ e3)). now rewrite crun_app, H, E.
  Qed.
End doom.
