(* C116: the process ends after a signal, and not before.                       *)
From Verif Require Import Base ProofBase ModelBitset ModelMsg ModelTorrent ModelConn ModelStats ModelPeer ModelSystem ModelTracker ModelManager ModelClient
  SpecPeer SpecTracker SpecManager SpecClient ProofSystem ProofManager ProofManager2 ProofManager3 ProofManager4 ProofOffer ProofProgress ProofPeer ProofPeer2 ProofWitness ProofShutdown
  ProofClient ProofClient2 ProofClient3 ProofClient5.

(* ---------- reachable states ---------- *)
Definition reach (cf : conf) (c : client) : Prop := exists t f outs urls l tr, crun cf l (client_start cf t f outs urls) = (c, tr).
Lemma reach_step cf a c c' es : reach cf c -> cexec cf a c = (c', es) -> reach cf c'.
Proof. intros (t & f & outs & urls & l & tr & H) E. exists t, f, outs, urls, (l ++ [a]), (tr ++ es). now rewrite crun_snoc, H, E. Qed.
Lemma reach_iv cf c : reach cf c -> exists tr, ginv (c_mgr c) tr.
Proof. intros (t & f & outs & urls & l & tr & H). destruct (crun_mgr _ _ _ _ _ _ _ _ H) as (lg & G). eexists. eapply ginv_run. exact G. Qed.
Lemma reach_wr cf c : reach cf c -> c_wr c <> WIdle -> exists m, wo_hand (c_wo c) = Some m.
Proof.
  intros (t & f & outs & urls & l & tr & H) N.
  destruct (announces_from cf (t_length t) (fun _ => 0%nat) (t_hash t) _ [] (start_cinv cf t f outs urls) (start_plain _ _ _ _ _) eq_refl _ _ _ H) as (I & _).
  pose proof (ci_wr _ _ _ _ I) as W. destruct (c_wr c); [congruence| |exact W]. destruct W as (m & W & _). eauto.
Qed.
Lemma exec_peers sha1 a w w' es : exec sha1 a w = (w', es) -> crashed w = false -> length (wo_peers w') = (length (wo_peers w) + match a with ASpawn _ _ => 1 | _ => 0 end)%nat.
Proof.
  intros H C. unfold exec in H. rewrite C in H. destruct a as [b g|k i| | |].
  - inversion H; subst. cbn. now rewrite app_length.
  - destruct (nth_error (wo_peers w) k); [|inversion H; subst; lia]. destruct (pstep _ _ _ _) as [[[? ?] ?]|]; inversion H; subst; cbn; rewrite ?upd_length; lia.
  - destruct (wo_hand w); [|destruct (sh_ch (wo_sh w))]; inversion H; subst; cbn; lia.
  - inversion H; subst; cbn; lia.
  - destruct (wo_main w); try destruct (wg w =? 0); try destruct (sh_cancel _); inversion H; subst; cbn; lia.
Qed.
Lemma fst_peers sha1 a w : crashed w = false -> length (wo_peers (fst (exec sha1 a w))) = (length (wo_peers w) + match a with ASpawn _ _ => 1 | _ => 0 end)%nat.
Proof. intros C. destruct (exec sha1 a w) as [w' es] eqn:E. eapply exec_peers; eassumption. Qed.
Lemma sync_peers cf g w : wo_peers (sync cf g w) = wo_peers w /\ wo_main (sync cf g w) = wo_main w.
Proof. unfold sync. destruct (g_cancel g); [|auto]. unfold exec. destruct (crashed w); auto. Qed.
Lemma sync_crashed cf g w : crashed (sync cf g w) = crashed w.
Proof. unfold sync. destruct (g_cancel g); [|auto]. unfold exec. destruct (crashed w) eqn:E; cbn [fst]; [exact E|]. unfold crashed in *. cbn. exact E. Qed.
Lemma sync_cancel cf g w : crashed w = false -> g_cancel g = true -> sh_cancel (wo_sh (sync cf g w)) = true.
Proof. intros C H. unfold sync. rewrite H. unfold exec. rewrite C. reflexivity. Qed.
Lemma sync_id cf g w : sh_cancel (wo_sh w) = true -> sync cf g w = w.
Proof.
  intros H. unfold sync. destruct (g_cancel g); [|reflexivity]. unfold exec. destruct (crashed w); [reflexivity|]. cbn.
  destruct w as [[sw sq sc scl sca] ps mn tk hd]. cbn in *. now rewrite H.
Qed.
Lemma exec_cancel_same sha1 a w : a <> ACancel -> sh_cancel (wo_sh (fst (exec sha1 a w))) = sh_cancel (wo_sh w).
Proof.
  intros N. unfold exec. destruct (crashed w); [reflexivity|]. destruct a as [b g|k i| | |].
  - reflexivity.
  - destruct (nth_error (wo_peers w) k); [|reflexivity]. destruct (pstep _ _ _ _) as [[[s' r'] es']|] eqn:E; [|reflexivity]. cbn. exact (proj1 (pstep_cancel _ _ _ _ _ _ _ E)).
  - destruct (wo_hand w); [|destruct (sh_ch (wo_sh w))]; reflexivity.
  - congruence.
  - destruct (wo_main w); [destruct (wg w =? 0)|destruct (sh_cancel (wo_sh w)) eqn:E| |]; cbn; auto.
Qed.
Lemma tstep_cancel_same g j c i g' es : tstep g j c i = Some (g', es) -> g_cancel g' = g_cancel g.
Proof.
  intros E. destruct c as [| |n|n|[|a ips]|k ips|k n ips|k n ips|k n ips| |]; cbn [tstep] in E; try (inversion E; subst; reflexivity).
  - destruct (g_cancel g) eqn:H; inversion E; subst; exact H.
  - destruct (i_ann i); inversion E; subst; reflexivity.
  - destruct (i_timer i); [|destruct (g_cancel g) eqn:H]; inversion E; subst; auto.
  - unfold AddPeer in E. destruct (g_pool g); [destruct (pool_get _ _)|]; inversion E; subst; reflexivity.
  - destruct (g_cancel g) eqn:H; inversion E; subst; cbn; rewrite ?peer_failed_cancel; exact H.
  - destruct (nth_error (g_peers g) k); [|discriminate]. destruct (_ && _); inversion E; subst; [reflexivity|rewrite after_failure_cancel; reflexivity].
  - destruct (i_shake i); [destruct (nth_error (g_peers g) k)|]; inversion E; subst; [reflexivity|rewrite after_failure_cancel; reflexivity].
  - destruct (i_timer i); [|destruct (g_cancel g) eqn:H]; inversion E; subst; cbn; rewrite ?peer_failed_cancel; auto.
  - destruct (i_timer i); [|destruct (g_cancel g) eqn:H]; inversion E; subst; auto.
Qed.
Lemma gexec_cancel_up a g : g_cancel g = true -> g_cancel (fst (gexec a g)) = true.
Proof.
  intros H. unfold gexec. destruct (g_panic g); [exact H|]. destruct a as [n|j i|k| | |].
  - destruct (g_started g); exact H.
  - destruct (nth_error (g_trk g) j) as [c|]; [|exact H]. destruct (tstep g j c i) as [[g' es]|] eqn:E; [|exact H]. cbn.
    now rewrite (tstep_cancel_same _ _ _ _ _ _ E).
  - destruct (nth_error (g_peers g) k) as [p|]; [destruct (mp_state p)|]; exact H.
  - reflexivity.
  - destruct (g_stop g); [exact H|]. unfold stop_check. destruct (g_pool g); [destruct (g_started g)|]; cbn; auto.
  - destruct (g_stop g); [|exact H]. unfold stop_close. destruct (close_all _ _ _); exact H.
Qed.

(* ---------- the two parts agree ---------- *)
Record agree (c : client) : Prop := {
  ag_run : length (c_run c) = length (wo_peers (c_wo c));
  ag_cancel : crashed (c_wo c) = false -> g_cancel (c_mgr c) = true -> sh_cancel (wo_sh (c_wo c)) = true
}.
Lemma exec_crashed_back sha1 a w : crashed w = false -> a <> ACancel -> sh_cancel (wo_sh w) = true -> sh_cancel (wo_sh (fst (exec sha1 a w))) = true.
Proof. intros _ N H. now rewrite exec_cancel_same. Qed.
Lemma runend_cancel p g : g_cancel (fst (gexec (XRunEnd p) g)) = g_cancel g.
Proof. unfold gexec. destruct (g_panic g); [reflexivity|]. destruct (nth_error (g_peers g) p) as [q|]; [|reflexivity]. destruct (mp_state q); reflexivity. Qed.
Lemma agree_step cf a c c' es : agree c -> cexec cf a c = (c', es) -> agree c'.
Proof.
  intros [A1 A2] E. apply cexec_move in E. destruct E as [[-> ->]|(D & _ & M)]; [now constructor|]. apply alive in D. destruct D as [D1 D2].
  assert (MG : forall g ts n cn w p e, agree (mkClient g (sync cf g (c_wo c)) (c_run c) ts n cn w p e)).
  { intros. constructor; cbn [c_run c_wo c_mgr]; [now rewrite (proj1 (sync_peers _ _ _))|]. intros _ H. now apply sync_cancel. }
  assert (SY : forall x ts n cn w p e, x <> ACancel -> match x with ASpawn _ _ => False | _ => True end ->
    agree (mkClient (c_mgr c) (fst (exec (cf_sha1 cf) x (c_wo c))) (c_run c) ts n cn w p e)).
  { intros x ts n cn w p e N S. constructor; cbn [c_run c_wo c_mgr].
    - rewrite fst_peers by exact D1. destruct x; [contradiction|lia..].
    - intros _ H. rewrite exec_cancel_same by exact N. now apply A2. }
  inversion M; subst; clear M; try (apply MG); try (apply SY; [discriminate|exact I]); try (now constructor).
  - constructor; cbn [c_run c_wo c_mgr].
    + rewrite app_length, fst_peers by (now rewrite sync_crashed). rewrite (proj1 (sync_peers _ _ _)), A1. reflexivity.
    + intros _ HG. rewrite exec_cancel_same by discriminate. now apply sync_cancel.
  - pose proof (SY (APeer k (inp_of c p i)) (c_trk c) (c_rounds c) (c_cnt c) (c_wr c) (c_prt c) (c_exit c) ltac:(discriminate) I) as [S1 S2]. cbn in S1, S2.
    constructor; cbn [c_run c_wo c_mgr]; [exact S1|]. intros HC HG. apply S2; [exact HC|]. destruct (returned _ _); [now rewrite runend_cancel in HG|exact HG].
Qed.
Lemma reach_agree cf c : reach cf c -> agree c.
Proof.
  intros (t & f & outs & urls & l & tr & H).
  refine (crun_inv cf (fun c _ => agree c) (fun _ => True) _ _ _ l c tr _ H); [|intros; eapply agree_step; eassumption|apply Forall_forall; auto].
  constructor; cbn; [reflexivity|discriminate].
Qed.

(* ---------- not before ---------- *)
Definition waiting (c : client) : Prop :=
  (wo_main (c_wo c) = MWait \/ wo_main (c_wo c) = MCtx) /\ g_cancel (c_mgr c) = false /\ sh_cancel (wo_sh (c_wo c)) = false /\ c_exit c = false.
Lemma exec_main_kept sha1 a w : (forall b, a <> b -> True) -> a <> AMain -> wo_main (fst (exec sha1 a w)) = wo_main w.
Proof.
  intros _ N. unfold exec. destruct (crashed w); [reflexivity|]. destruct a as [b g|k i| | |]; try reflexivity.
  - destruct (nth_error (wo_peers w) k); [|reflexivity]. destruct (pstep _ _ _ _) as [[[s' r'] es']|]; reflexivity.
  - destruct (wo_hand w); [|destruct (sh_ch (wo_sh w))]; reflexivity.
  - congruence.
Qed.
Lemma xtrk_cancel_same j i g : g_cancel (fst (gexec (XTrk j i) g)) = g_cancel g.
Proof.
  unfold gexec. destruct (g_panic g); [reflexivity|]. destruct (nth_error (g_trk g) j) as [c|]; [|reflexivity].
  destruct (tstep g j c i) as [[g' es]|] eqn:E; [|reflexivity]. eapply tstep_cancel_same; exact E.
Qed.
Lemma waiting_step cf a c c' es : a <> KSignal -> waiting c -> cexec cf a c = (c', es) -> waiting c'.
Proof.
  intros N (W1 & W2 & W3 & W4) E. apply cexec_move in E. destruct E as [[-> ->]|(_ & _ & M)]; [repeat split; assumption|].
  assert (MG : forall g ts n cn w r p, g_cancel g = false -> waiting (mkClient g (sync cf g (c_wo c)) r ts n cn w p (c_exit c))).
  { intros g ts n cn w r p HG. unfold waiting. cbn [c_wo c_mgr c_exit]. unfold sync. rewrite HG. auto. }
  assert (XT : forall j i, g_cancel (fst (gexec (XTrk j i) (c_mgr c))) = false) by (intros; rewrite xtrk_cancel_same; exact W2).
  assert (SY : forall x r ts n cn w g p, g_cancel g = false -> x <> ACancel -> x <> AMain -> waiting (mkClient g (fst (exec (cf_sha1 cf) x (c_wo c))) r ts n cn w p (c_exit c))).
  { intros x r ts n cn w g p HG N1 N2. unfold waiting. cbn [c_wo c_mgr c_exit]. rewrite exec_cancel_same, exec_main_kept by auto. auto. }
  inversion M; subst; clear M; try (apply MG; auto; fail); try (apply SY; auto; discriminate).
  - repeat split; assumption.
  - apply MG. unfold gexec. destruct (g_panic _); [exact W2|]. rewrite H. exact W2.
  - unfold waiting, sys_step. cbn [c_wo c_mgr c_exit]. rewrite exec_cancel_same by discriminate. split; [|auto].
    unfold exec. destruct (crashed (c_wo c)); [exact W1|]. destruct W1 as [W1|W1]; rewrite W1; [destruct (wg (c_wo c) =? 0)|rewrite W3]; cbn; auto.
  - destruct W1 as [W1|W1]; rewrite W1 in H0; discriminate.
  - destruct W1 as [W1|W1]; rewrite W1 in H0; discriminate.
  - destruct W1 as [W1|W1]; rewrite W1 in H0; discriminate.
  - congruence.
  - unfold waiting. cbn [c_wo c_mgr c_exit]. unfold sync. rewrite XT. rewrite exec_cancel_same, exec_main_kept by (auto; discriminate). auto.
  - repeat split; assumption.
  - apply SY; try discriminate. destruct (returned _ _); [rewrite runend_cancel|]; exact W2.
  - repeat split; assumption.
  - repeat split; assumption.
  - repeat split; assumption.
  - repeat split; assumption.
Qed.
Lemma signalled l : In KSignal l \/ Forall (fun a => a <> KSignal) l.
Proof.
  induction l as [|a l [IH|IH]]; [right; constructor|left; now right|]. destruct a; try (right; constructor; [discriminate|exact IH]). left. now left.
Qed.
Lemma ends_after_signal cf t f outs urls l c tr : crun cf l (client_start cf t f outs urls) = (c, tr) -> client_status c = Some 0 -> In KSignal l.
Proof.
  intros HR HS. destruct (signalled l) as [Y|N]; [exact Y|exfalso].
  assert (W : waiting c).
  { refine (crun_inv cf (fun c _ => waiting c) (fun a => a <> KSignal) _ _ _ l c tr N HR); [|intros; eapply waiting_step; eassumption]. repeat split. now left. }
  unfold client_status in HS. destruct (dead c); [discriminate|]. destruct W as (_ & _ & _ & W). rewrite W in HS. discriminate.
Qed.

(* ---------- after it ---------- *)
Fixpoint rr (l : list tpc) : Z := match l with [] => 0 | c :: l' => Z.of_nat (rrun c) + rr l' end.
Lemma rr_nonneg l : 0 <= rr l.
Proof. induction l as [|c l IH]; cbn; lia. Qed.
Lemma rr_upd l j c c' : nth_error l j = Some c -> rr (upd l j c') = rr l - Z.of_nat (rrun c) + Z.of_nat (rrun c').
Proof. revert j. induction l as [|x l IH]; intros [|j] H; cbn in *; try discriminate; [inversion H; subst; lia|]. rewrite (IH _ H). lia. Qed.
Definition wrank (w : wpc) : Z := match w with WIdle => 2 | WAdded _ => 1 | WSubbed => 0 end.
Definition nopool (g : mgr) : bool := match g_pool g with None => true | Some _ => false end.
Definition srank (g : mgr) : Z := if nopool g then 0 else if g_stop g then 1 else 2.
Definition phi (c : client) : Z :=
  3 * weight (c_wo c) + wrank (c_wr c) + 10 * rr (g_trk (c_mgr c)) + (if g_started (c_mgr c) then 0 else 1) + srank (c_mgr c) + (if c_exit c then 0 else 1).
Lemma phi_nonneg c : 0 <= phi c.
Proof.
  unfold phi, srank. pose proof (weight_nonneg (c_wo c)). pose proof (rr_nonneg (g_trk (c_mgr c))).
  destruct (c_wr c); cbn [wrank]; destruct (g_started _); destruct (nopool _); try destruct (g_stop _); destruct (c_exit c); lia.
Qed.
Definition core (c : client) := (c_wo c, c_run c, c_wr c, (g_started (c_mgr c), g_stop (c_mgr c), nopool (c_mgr c), c_exit c)).
(* a step of a tracker goroutine *)
Lemma peer_failed_fields g k : g_started (peer_failed g k) = g_started g /\ g_stop (peer_failed g k) = g_stop g /\ g_pool (peer_failed g k) = g_pool g.
Proof. unfold peer_failed. destruct (nth_error (g_peers g) k); auto. Qed.
Lemma xtrk_frame g tr j i g' es : ginv g tr -> g_cancel g = true -> gexec (XTrk j i) g = (g', es) ->
  g_started g' = g_started g /\ g_stop g' = g_stop g /\ nopool g' = nopool g /\ rr (g_trk g') <= rr (g_trk g).
Proof.
  intros IV HC H. unfold gexec in H. destruct (g_panic g); [inversion H; subst; repeat split; lia|].
  destruct (nth_error (g_trk g) j) as [c|] eqn:EJ; [|inversion H; subst; repeat split; lia].
  destruct (tstep g j c i) as [[g1 e1]|] eqn:ET; inversion H; subst; [|repeat split; lia].
  destruct (tstep_cancelled _ _ _ _ _ _ _ IV EJ HC ET) as (_ & _ & _ & c' & C1 & _ & _ & _ & C2).
  assert (RR : rr (g_trk g') <= rr (g_trk g)).
  { destruct C1 as [->|(-> & _)]; [|lia]. rewrite (rr_upd _ _ _ _ EJ). lia. }
  destruct (tstep_eff _ _ _ _ _ _ _ IV EJ ET); cbn in RR |- *; repeat split; auto. unfold nopool. cbn. match goal with E : g_pool g = Some _ |- _ => now rewrite E end.
Qed.
Lemma shake_frame g tr j x k n ips g' es : ginv g tr -> g_panic g = false -> nth_error (g_trk g) j = Some (TPShake k n ips) -> gexec (XTrk j (tin_of false true x)) g = (g', es) ->
  rr (g_trk g') = rr (g_trk g) - 1.
Proof.
  intros IV HP EJ H. unfold gexec in H. rewrite HP, EJ in H. cbn [tstep tin_of i_shake] in H.
  destruct (iv_own _ _ IV _ _ k EJ eq_refl) as (p & Hp & _). rewrite Hp in H. inversion H; subst. cbn. rewrite (rr_upd _ _ _ _ EJ). cbn. lia.
Qed.
Lemma runend_frame p g : g_started (fst (gexec (XRunEnd p) g)) = g_started g /\ g_stop (fst (gexec (XRunEnd p) g)) = g_stop g /\
  nopool (fst (gexec (XRunEnd p) g)) = nopool g /\ g_trk (fst (gexec (XRunEnd p) g)) = g_trk g.
Proof. unfold gexec. destruct (g_panic g); [auto|]. destruct (nth_error (g_peers g) p) as [q|]; [|auto]. destruct (mp_state q); auto. Qed.
Lemma spawn_weight sha1 b n w : crashed w = false -> weight (fst (exec sha1 (ASpawn b n) w)) = weight w + 3.
Proof.
  intros C. unfold exec. rewrite C. unfold weight, held. cbn [fst wo_peers wo_sh wo_main wo_hand]. 
  assert (E : forall l r, rsum (l ++ [r]) = rsum l + rank (r_pc r)) by (induction l as [|y l IH]; intros r; cbn; [lia|rewrite IH; lia]). rewrite E. cbn [fresh r_pc rank]. lia.
Qed.
Lemma take_weight sha1 w m : crashed w = false -> wo_hand w = Some m -> weight (fst (exec sha1 AWriter w)) = weight w - 1.
Proof. intros C E. unfold exec. rewrite C, E. unfold weight, held. cbn [fst wo_peers wo_sh wo_main sh_ch wo_hand]. rewrite E, zlen_cons. change (zlen (@nil msg)) with 0. lia. Qed.

Ltac phi_open := unfold phi, srank, nopool; cbn [fst c_wo c_wr c_mgr c_exit g_trk g_started g_pool g_stop wrank].
Definition fewer (c c' : client) : Prop := phi c' < phi c \/ core c' = core c /\ phi c' = phi c.
Lemma sig_step cf a c c' es : reach cf c -> g_cancel (c_mgr c) = true -> cexec cf a c = (c', es) -> g_cancel (c_mgr c') = true /\ fewer c c'.
Proof.
  intros HR HC E. destruct (reach_iv _ _ HR) as (gt & IV). pose proof (reach_agree _ _ HR) as [_ A2].
  apply cexec_move in E. destruct E as [[-> ->]|(D & ED & M)]; [split; [exact HC|right; auto]|].
  pose proof (alive _ D) as [D1 D2]. specialize (A2 D1 HC).
  assert (TR : forall j i ts n cn p, g_cancel (fst (gexec (XTrk j i) (c_mgr c))) = true /\
     fewer c (mkClient (fst (gexec (XTrk j i) (c_mgr c))) (sync cf (fst (gexec (XTrk j i) (c_mgr c))) (c_wo c)) (c_run c) ts n cn (c_wr c) p (c_exit c))).
  { intros j i ts n cn p. split; [now apply gexec_cancel_up|]. rewrite sync_id by exact A2. destruct (gexec (XTrk j i) (c_mgr c)) as [g' e'] eqn:G. cbn [fst].
    destruct (xtrk_frame _ _ _ _ _ _ IV HC G) as (F1 & F2 & F3 & F4). unfold fewer, core, phi, srank. cbn [c_wo c_run c_wr c_mgr c_exit]. rewrite F1, F2, F3.
    destruct (Z.eq_dec (rr (g_trk g')) (rr (g_trk (c_mgr c)))) as [->|NE]; [right; split; reflexivity|left; clear -NE F4; lia]. }
  assert (SY : forall x ts n cn p, (forall b g, x <> ASpawn b g) -> fewer c (mkClient (c_mgr c) (fst (exec (cf_sha1 cf) x (c_wo c))) (c_run c) ts n cn (c_wr c) p (c_exit c))).
  { intros x ts n cn p NS. destruct (exec (cf_sha1 cf) x (c_wo c)) as [w' e'] eqn:X. cbn [fst]. unfold fewer, core, phi. cbn [c_wo c_run c_wr c_mgr c_exit].
    destruct (weight_step _ _ _ _ _ NS A2 X) as [->|L]; [right; split; reflexivity|left; clear -L; lia]. }
  inversion M; subst; clear M; unfold mgr_step, sys_step, set_ctr, cnt_step, prt_step, end_step in *; cbn [c_mgr c_wo c_run c_trk c_rounds c_cnt c_wr c_prt c_exit] in *; try apply TR;
    try (split; [exact HC|]; apply SY; discriminate).
  - split; [exact HC|right; auto].
  - split; [now apply gexec_cancel_up|]. rewrite sync_id by exact A2. left. unfold gexec. rewrite D2, H. phi_open. rewrite H, (iv_started _ _ IV H).
    assert (E0 : forall n, rr (repeat TNew n) = 0) by (induction n as [|n IH]; cbn; auto). rewrite E0. cbn [rr]. clear; lia.
  - split; [now apply gexec_cancel_up|]. rewrite sync_id by exact A2. left.
    unfold gexec. rewrite D2, H2. cbn [fst]. unfold stop_check. destruct (g_pool (c_mgr c)) as [m|] eqn:EP; [|congruence]. rewrite H. phi_open. rewrite EP, H, H2. clear; lia.
  - split; [now apply gexec_cancel_up|]. rewrite sync_id by exact A2. unfold gexec. rewrite D2, H2. cbn [fst]. unfold stop_close. destruct (close_all _ _ _) as [cs|]; [left|right; auto].
    phi_open. destruct (g_pool (c_mgr c)) as [m|] eqn:EP; [|congruence]. rewrite H, H2. clear; lia.
  - split; [exact HC|left]. phi_open. rewrite ED. clear; lia.
  - split; [now apply gexec_cancel_up|]. rewrite sync_id by exact A2. right. unfold gexec. rewrite D2. split; reflexivity.
  - split; [now apply gexec_cancel_up|]. rewrite sync_id by exact A2. left. destruct (gexec (XTrk j (tin_of false true x)) (c_mgr c)) as [g' e'] eqn:G. cbn [fst].
    destruct (xtrk_frame _ _ _ _ _ _ IV HC G) as (F1 & F2 & F3 & _). pose proof (shake_frame _ _ _ _ _ _ _ _ _ IV D2 H G) as F4.
    unfold phi, srank. cbn [c_wo c_run c_wr c_mgr c_exit]. rewrite F1, F2, F3, F4, spawn_weight by exact D1. clear; lia.
  - split; [exact HC|right; auto].
  - set (w' := fst (exec (cf_sha1 cf) (APeer k (inp_of c p i)) (c_wo c))).
    split; [destruct (returned w' k); [rewrite runend_cancel|]; exact HC|].
    pose proof (SY (APeer k (inp_of c p i)) (c_trk c) (c_rounds c) (c_cnt c) (c_prt c) ltac:(discriminate)) as S. fold w' in S.
    unfold fewer, core, phi, srank in *. cbn [c_wo c_run c_wr c_mgr c_exit] in *. destruct (returned w' k); [|exact S].
    destruct (runend_frame p (c_mgr c)) as (-> & -> & -> & ->). exact S.
  - split; [exact HC|left]. phi_open. rewrite H0. cbn [wrank]. clear; lia.
  - split; [exact HC|left]. phi_open. rewrite H0. cbn [wrank]. clear; lia.
  - split; [exact HC|left]. unfold phi. cbn [c_wo c_wr c_mgr c_exit]. rewrite (take_weight _ _ _ D1 H1), H0. cbn [wrank]. clear; lia.
  - split; [exact HC|left]. unfold phi. cbn [c_wo c_wr c_mgr c_exit]. rewrite (take_weight _ _ _ D1 H1), H0. cbn [wrank]. clear; lia.
  - split; [exact HC|right; auto].
  - split; [exact HC|right; auto].
Qed.
Lemma exec_absent sha1 k i w : nth_error (wo_peers w) k = None -> fst (exec sha1 (APeer k i) w) = w.
Proof. intros H. unfold exec. destruct (crashed w); [reflexivity|]. now rewrite H. Qed.
Lemma turn_moves cf c : reach cf c -> g_cancel (c_mgr c) = true -> dead c = false -> c_exit c = false ->
  exists q, forall c1, reach cf c1 -> g_cancel (c_mgr c1) = true -> dead c1 = false -> core c1 = core c ->
    forall a, cturn q a -> phi (fst (cexec cf a c1)) < phi c1 \/ dead (fst (cexec cf a c1)) = true.
Proof.
  intros HR HC HD HE. pose proof (reach_agree _ _ HR) as [A1 A2]. pose proof (alive _ HD) as [D1 D2]. specialize (A2 D1 HC).
  assert (EN : forall c1, core c1 = core c -> c_exit c1 = false).
  { intros c1 X. unfold core in X. injection X as X1 X2 X3 X4 X5 X6 X7. congruence. }
  assert (MV : forall c1 a, reach cf c1 -> g_cancel (c_mgr c1) = true -> core (fst (cexec cf a c1)) <> core c1 -> phi (fst (cexec cf a c1)) < phi c1 \/ dead (fst (cexec cf a c1)) = true).
  { intros c1 a R1 C1 N. destruct (cexec cf a c1) as [c2 e2] eqn:X. cbn [fst] in *. destruct (sig_step _ _ _ _ _ R1 C1 X) as (_ & [L|(L & _)]); [now left|contradiction]. }
  destruct (g_started (c_mgr c)) eqn:ES.
  2:{ exists CMain. intros c1 R1 C1 DD X a ->. apply MV; auto. pose proof (EN _ X) as E1. unfold core in X. injection X as X1 X2 X3 X4 X5 X6 X7.
      unfold cexec. rewrite DD, E1. cbn [orb]. unfold main_step. rewrite X4, ES. unfold with_mgr, gexec. pose proof (alive _ DD) as [_ P]. rewrite P, X4, ES.
      cbn [fst]. unfold core. cbn. intros Y. injection Y as _ Y. congruence. }
  destruct (main_dec (wo_main (c_wo c))) as [HM|HM].
  - exists CMain. intros c1 R1 C1 DD X a ->. pose proof (EN _ X) as E1. unfold core in X. injection X as X1 X2 X3 X4 X5 X6 X7. pose proof (alive _ DD) as [Q P].
    unfold cexec. rewrite DD, E1. cbn [orb]. unfold main_step. rewrite X4, ES, X1, HM.
    destruct (g_pool (c_mgr c1)) as [m|] eqn:PO; [|left; phi_open; rewrite X1, E1; clear; lia]. unfold with_mgr, gexec. rewrite P. destruct (g_stop (c_mgr c1)) eqn:EG; cbn [fst].
    + unfold stop_close. destruct (close_all _ _ _) as [cs|]; [left|right; reflexivity].
      phi_open. rewrite PO, EG, X4, ES.
      rewrite sync_id by (rewrite X1; exact A2). clear; lia.
    + left. unfold stop_check. rewrite PO, X4, ES. phi_open. rewrite PO, EG, X4, ES.
      rewrite sync_id by (rewrite X1; exact A2). clear; lia.
  - destruct (someone_moves (cf_sha1 cf) (c_wo c) A2 D1 HM) as (q & HQ). destruct q as [k| |].
    + exists (CPeer k). intros c1 R1 C1 DD X a (i & ->). apply MV; auto. pose proof (EN _ X) as E1. unfold core in X. injection X as X1 X2 X3 X4 X5 X6 X7.
      unfold cexec. rewrite DD, E1. cbn [orb]. unfold peer_step.
      destruct (nth_error (c_run c1) k) as [p|] eqn:EK.
      * fold (inp_of c1 p i). intros Y. specialize (HQ (APeer k (inp_of c1 p i)) (ex_intro _ _ eq_refl)). rewrite <- X1 in HQ.
        destruct (exec (cf_sha1 cf) (APeer k (inp_of c1 p i)) (c_wo c1)) as [w' es'] eqn:EE. cbn [fst] in *. unfold core in Y. cbn [c_wo] in Y. injection Y as Y _. subst w'. exact (Z.lt_irrefl _ HQ).
      * exfalso. apply nth_error_None in EK. rewrite X2, A1 in EK. specialize (HQ (APeer k (mkI true true None true)) (ex_intro _ _ eq_refl)).
        rewrite exec_absent in HQ by (now apply nth_error_None). exact (Z.lt_irrefl _ HQ).
    + exists CWriter. intros c1 R1 C1 DD X a ->. apply MV; auto. pose proof (EN _ X) as E1. unfold core in X. injection X as X1 X2 X3 X4 X5 X6 X7.
      unfold cexec. rewrite DD, E1. cbn [orb]. rewrite X4, ES. unfold writer_step. specialize (HQ AWriter eq_refl). rewrite <- X1 in HQ.
      assert (TK : forall w p e, core (mkClient (c_mgr c1) (fst (exec (cf_sha1 cf) AWriter (c_wo c1))) (c_run c1) (c_trk c1) (c_rounds c1) (c_cnt c1) w p e) <> core c1).
      { intros w p e Y. unfold core in Y. cbn [c_wo] in Y. injection Y as Y _. rewrite Y in HQ. exact (Z.lt_irrefl _ HQ). }
      destruct (wo_hand (c_wo c1)) as [m|]; [|apply TK]. destruct (c_wr c1) eqn:EW; cbn [fst].
      * destruct (data_of m); cbn [fst]; try apply TK. intros Y. unfold core in Y. cbn in Y. rewrite EW in Y. discriminate Y.
      * intros Y. unfold core in Y. cbn in Y. rewrite EW in Y. discriminate Y.
      * apply TK.
    + exists CMain. intros c1 R1 C1 DD X a ->. apply MV; auto. pose proof (EN _ X) as E1. unfold core in X. injection X as X1 X2 X3 X4 X5 X6 X7.
      unfold cexec. rewrite DD, E1. cbn [orb]. unfold main_step. rewrite X4, ES. specialize (HQ AMain eq_refl). rewrite <- X1 in HQ.
      destruct (wo_main (c_wo c1)) eqn:EM; [| | |rewrite X1 in EM; contradiction]; cbn [fst]; intros Y; unfold core in Y; cbn [c_wo] in Y; injection Y as Y; rewrite Y in HQ; exact (Z.lt_irrefl _ HQ).
Qed.
Lemma cafter_S cf f n c : cafter cf f (S n) c = cafter cf (fun m => f (S m)) n (fst (cexec cf (f 0%nat) c)).
Proof.
  unfold cafter. cbn [seq map crun]. destruct (cexec cf (f 0%nat) c) as [w1 e1]. cbn [fst]. rewrite <- seq_shift, map_map.
  destruct (crun cf (map (fun x => f (S x)) (seq 0 n)) w1). reflexivity.
Qed.
Lemma cfair_tail f : cfair f -> cfair (fun m => f (S m)).
Proof. intros H q n. destruct (H q (S n)) as ([|m] & L & T); [lia|]. exists m. split; [lia|exact T]. Qed.
Lemma status_some c : dead c = true \/ c_exit c = true -> client_status c <> None.
Proof. unfold client_status. intros [H|H]; rewrite H; [discriminate|]. destruct (dead c); discriminate. Qed.
Lemma signal_ends_from cf z : forall c f, (Z.to_nat (phi c) < z)%nat -> reach cf c -> g_cancel (c_mgr c) = true -> cfair f -> exists n, client_status (cafter cf f n c) <> None.
Proof.
  induction z as [|z IH]; intros c f Hz HR HC HF; [lia|].
  destruct (dead c) eqn:HD; [exists 0%nat; apply status_some; now left|]. destruct (c_exit c) eqn:HE; [exists 0%nat; apply status_some; now right|].
  destruct (turn_moves cf c HR HC HD HE) as (q & HQ). destruct (HF q 0%nat) as (m & _ & Hm).
  assert (G : forall m c1 f, reach cf c1 -> g_cancel (c_mgr c1) = true -> core c1 = core c -> phi c1 = phi c -> cfair f -> cturn q (f m) ->
    exists n, client_status (cafter cf f n c1) <> None); [|eapply G; eauto].
  clear m f HF Hm. induction m as [|m IHm]; intros c1 f R1 C1 X1 P1 HF Hm;
    (destruct (dead c1) eqn:DD; [exists 0%nat; apply status_some; now left|]); destruct (cexec cf (f 0%nat) c1) as [c2 e2] eqn:E;
    pose proof (reach_step _ _ _ _ _ R1 E) as R2; destruct (sig_step _ _ _ _ _ R1 C1 E) as (C2 & FW); pose proof (phi_nonneg c2) as N2.
  - pose proof (HQ _ R1 C1 DD X1 _ Hm) as L. rewrite E in L. cbn [fst] in L. destruct L as [L|L].
    + destruct (IH c2 (fun m => f (S m))) as (n & Hn); [clear -L N2 Hz P1; lia|exact R2|exact C2|now apply cfair_tail|]. exists (S n). rewrite cafter_S, E. exact Hn.
    + exists 1%nat. rewrite cafter_S, E. apply status_some. now left.
  - destruct FW as [L|(X & P)].
    + destruct (IH c2 (fun m => f (S m))) as (n & Hn); [clear -L N2 Hz P1; lia|exact R2|exact C2|now apply cfair_tail|]. exists (S n). rewrite cafter_S, E. exact Hn.
    + destruct (IHm c2 (fun m => f (S m)) R2 C2) as (n & Hn); [congruence|congruence|now apply cfair_tail|exact Hm|]. exists (S n). rewrite cafter_S, E. exact Hn.
Qed.
Lemma over_stays cf l : forall c, dead c = true \/ c_exit c = true -> fst (crun cf l c) = c.
Proof.
  induction l as [|a l IH]; intros c H; [reflexivity|]. cbn [crun]. assert (E : cexec cf a c = (c, [])).
  { unfold cexec. destruct H as [H|H]; rewrite H; [reflexivity|]. now rewrite orb_true_r. }
  rewrite E. specialize (IH c H). destruct (crun cf l c). exact IH.
Qed.
Lemma signal_cancels cf l : forall c c' tr, reach cf c -> crun cf l c = (c', tr) -> In KSignal l \/ g_cancel (c_mgr c) = true -> g_cancel (c_mgr c') = true \/ dead c' = true \/ c_exit c' = true.
Proof.
  induction l as [|a l IH]; intros c c' tr HR H HI; [inversion H; subst; destruct HI as [[]|HI]; auto|].
  destruct (dead c) eqn:HD; [pose proof (over_stays cf (a :: l) c (or_introl HD)) as E; rewrite H in E; cbn in E; subst; auto|].
  destruct (c_exit c) eqn:HE; [pose proof (over_stays cf (a :: l) c (or_intror HE)) as E; rewrite H in E; cbn in E; subst; auto|].
  cbn [crun] in H. destruct (cexec cf a c) as [c1 e1] eqn:E. destruct (crun cf l c1) as [c2 e2] eqn:E2. inversion H; subst.
  apply (IH c1 c' e2); [eapply reach_step; eassumption|exact E2|].
  destruct HI as [[->|HI]|HI]; [right|left; exact HI|right; exact (proj1 (sig_step _ _ _ _ _ HR HI E))].
  unfold cexec in E. rewrite HD, HE in E. cbn [orb] in E. unfold with_mgr, gexec in E. pose proof (alive _ HD) as [_ P]. rewrite P in E. inversion E; subst. reflexivity.
Qed.
Lemma signal_ends cf t f outs urls l c tr s : crun cf l (client_start cf t f outs urls) = (c, tr) -> In KSignal l -> cfair s ->
  exists n, client_status (cafter cf s n c) = Some 0 \/ client_status (cafter cf s n c) = Some 2.
Proof.
  intros HR HI HF. assert (RC : reach cf c) by (exists t, f, outs, urls, l, tr; exact HR).
  assert (G : exists n, client_status (cafter cf s n c) <> None).
  { assert (R0 : reach cf (client_start cf t f outs urls)) by (exists t, f, outs, urls, [], []; reflexivity).
    destruct (signal_cancels cf l _ _ _ R0 HR (or_introl HI)) as [G|G]; [eapply signal_ends_from; eauto|].
    exists 0%nat. now apply status_some. }
  destruct G as (n & G). exists n. unfold client_status in *. destruct (dead _); [auto|]. destruct (c_exit _); [auto|congruence].
Qed.
(* a schedule in which everyone gets their turn *)
Definition cturns (n : nat) : cact :=
  match (n - Nat.sqrt n * Nat.sqrt n)%nat with O => KWriter | S O => KMain | S (S k) => KPeer k go end.
Lemma cturns_fair : cfair cturns.
Proof.
  intros q n.
  assert (G : forall j, exists m, (n <= m)%nat /\ cturns m = match j with O => KWriter | S O => KMain | S (S k) => KPeer k go end).
  { intros j. exists ((n + j) * (n + j) + j)%nat. split; [nia|]. unfold cturns.
    assert (E : Nat.sqrt ((n + j) * (n + j) + j) = (n + j)%nat) by (apply Nat.sqrt_unique; nia).
    rewrite E. replace ((n + j) * (n + j) + j - (n + j) * (n + j))%nat with j by lia. reflexivity. }
  destruct q as [| |k]; [destruct (G 1%nat) as (m & L & E)|destruct (G 0%nat) as (m & L & E)|destruct (G (S (S k))) as (m & L & E)];
    exists m; (split; [exact L|]); cbn; eauto.
Qed.
