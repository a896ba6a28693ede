(* Proofs for C173.                                                            *)
From Verif Require Import Base ProofBase ModelStats ModelTorrent ModelPeer ModelSystem ModelTracker ModelManager ModelClient
  SpecManager ProofManager SpecClient ProofProgress ProofClient ProofClient3 ProofClient6 SpecGone.

Definition over (p : mpeer) : Prop := mp_state p = PsEnded \/ mp_state p = PsFailed.
Definition at_peer (e : gev) : Prop := match e with GDial _ _ | GRun _ _ => True | _ => False end.

Lemma no_owner g tr j pc k : ginv g tr -> (forall p, In p (g_peers g) -> over p) -> nth_error (g_trk g) j = Some pc -> owner pc = Some k -> False.
Proof.
  intros IV H E O. destruct (iv_own _ _ IV _ _ _ E O) as (p & Ep & Es). apply nth_error_In in Ep. destruct (H p Ep); congruence.
Qed.
Lemma known_old g tr a g' b : ginv g tr -> In a (map mp_addr (g_peers g)) -> AddPeer g a = Ok (g', b) -> b = false /\ g' = g.
Proof.
  intros IV H E. unfold AddPeer in E. destruct (g_pool g) as [m|] eqn:EM; [|discriminate]. destruct (pool_get m (apString a)) eqn:EG; [inversion E; auto|].
  exfalso. apply pool_get_none in EG. apply EG. destruct (iv_pool _ _ IV _ EM) as [-> _]. apply in_map_iff in H. destruct H as (p & <- & Hp).
  apply in_map_iff. exists p. split; [reflexivity|exact Hp].
Qed.
Lemma mgr_lost g tr x g' es : ginv g tr -> (forall p, In p (g_peers g) -> over p) -> gexec x g = (g', es) ->
  (forall j a b, In (GAdd j a b) es -> In a (map mp_addr (g_peers g))) -> g_peers g' = g_peers g /\ (forall e, In e es -> ~ at_peer e).
Proof.
  intros IV HO HE HA. unfold gexec in HE. destruct (g_panic g); [inversion HE; subst; split; [reflexivity|intros e []]|].
  destruct x as [n|j i|k| | |].
  - destruct (g_started g); inversion HE; subst; split; try reflexivity; intros e [].
  - destruct (nth_error (g_trk g) j) as [pc|] eqn:Ej; [|inversion HE; subst; split; [reflexivity|intros e []]].
    destruct (tstep g j pc i) as [r|] eqn:ET; [|inversion HE; subst; split; [reflexivity|intros e []]]. subst r.
    destruct pc as [| |n|n|ips|k ips|k n ips|k n ips|k n ips| |]; try (exfalso; eapply no_owner; [exact IV|exact HO|exact Ej|reflexivity]); cbn in ET.
    + inversion ET; subst. split; [reflexivity|intros e []].
    + destruct (g_cancel g); inversion ET; subst; split; try reflexivity; intros e He; cbn in He; [tauto|]. destruct He as [<-|[]]. cbn. tauto.
    + destruct (i_ann i); inversion ET; subst; split; try reflexivity; intros e [<-|[]]; cbn; tauto.
    + destruct (i_timer i), (g_cancel g); try discriminate; inversion ET; subst; split; try reflexivity; intros e [].
    + destruct ips as [|a ips]; [inversion ET; subst; split; [reflexivity|intros e []]|].
      destruct (AddPeer g a) as [[g1 b]| | |] eqn:EA; try (inversion ET; subst; split; [reflexivity|intros ? []]; fail).
      assert (HI : In a (map mp_addr (g_peers g))).
      { destruct b; inversion ET; subst; eapply HA; left; reflexivity. }
      destruct (known_old _ _ _ _ _ IV HI EA) as [-> ->]. inversion ET; subst. split; [reflexivity|]. intros e [<-|[]]. cbn. tauto.
    + destruct (i_timer i), (g_cancel g); try discriminate; inversion ET; subst; split; try reflexivity; intros e [].
    + discriminate.
  - destruct (nth_error (g_peers g) k) as [p|] eqn:Ek; [|inversion HE; subst; split; [reflexivity|intros e []]].
    pose proof (HO _ (nth_error_In _ _ Ek)) as O. destruct O as [O|O]; rewrite O in HE; inversion HE; subst; split; try reflexivity; intros e [].
  - inversion HE; subst. split; [reflexivity|intros e []].
  - destruct (g_stop g); inversion HE; subst; (split; [|intros e []]); [reflexivity|]. unfold stop_check. repeat match goal with |- context [match ?x with _ => _ end] => destruct x end; reflexivity.
  - destruct (g_stop g); inversion HE; subst; (split; [|intros e []]); [|reflexivity]. unfold stop_close. repeat match goal with |- context [match ?x with _ => _ end] => destruct x end; reflexivity.
Qed.
Lemma sync_peers cf g w : wo_peers (sync cf g w) = wo_peers w.
Proof. unfold sync. destruct (g_cancel g); [|reflexivity]. unfold exec. destruct (crashed w); reflexivity. Qed.
Lemma exec_peers sha1 a w : (a = AMain \/ a = AWriter) -> wo_peers (fst (exec sha1 a w)) = wo_peers w.
Proof.
  intros [-> | ->]; unfold exec; destruct (crashed w); try reflexivity; repeat match goal with |- context [match ?x with _ => _ end] => destruct x end; reflexivity.
Qed.
Lemma ret_still sha1 i k w : (forall r, In r (wo_peers w) -> r_pc r = PRet) -> exec sha1 (APeer k i) w = (w, []).
Proof.
  intros H. unfold exec. destruct (crashed w); [reflexivity|]. destruct (nth_error (wo_peers w) k) as [r|] eqn:E; [|reflexivity].
  apply nth_error_In in E. apply H in E. unfold pstep. rewrite E. reflexivity.
Qed.
Lemma lost_step cf a c tr c' es : ginv (c_mgr c) tr -> none_left c -> cexec cf a c = (c', es) -> named_before c es ->
  g_peers (c_mgr c') = g_peers (c_mgr c) /\ wo_peers (c_wo c') = wo_peers (c_wo c) /\ c_run c' = c_run c /\ forall e, In e es -> ~ with_peer e.
Proof.
  intros IV [HO HR] HE HN.
  assert (HM : g_peers (c_mgr c') = g_peers (c_mgr c) /\ forall e, In e (gevs es) -> ~ at_peer e).
  { destruct (cexec_mgr _ _ _ _ _ HE) as [[-> ->]|(x & Hx & _)]; [split; [reflexivity|intros e []]|].
    eapply mgr_lost; [exact IV|exact HO|exact Hx|]. intros j a0 b Hi. apply (HN j a0 b). unfold gevs in Hi. apply in_flat_map in Hi. destruct Hi as (e & He & Hi). destruct e; cbn in Hi; try tauto. destruct Hi as [->|[]]. exact He. }
  destruct HM as [HP HG].
  assert (G : forall es0, es = map VMgr es0 -> forall e, In e es -> ~ with_peer e).
  { intros es0 -> e He. apply in_map_iff in He. destruct He as (x & <- & Hx). intros W. apply (HG x).
    - unfold gevs. apply in_flat_map. exists (VMgr x). split; [apply in_map; exact Hx|now left].
    - destruct x; cbn in *; tauto. }
  split; [exact HP|]. apply cexec_move in HE. destruct HE as [[-> ->]|(_ & _ & M)]; [repeat split; intros e []|].
  inversion M; subst; cbn [c_wo c_run mgr_step sys_step cnt_step set_ctr prt_step end_step]; rewrite ?sync_peers;
    try (repeat split; [..|eapply G; reflexivity]; reflexivity);
    try (repeat split; [..|intros e []]; first [reflexivity|apply exec_peers; auto]).
  - exfalso. eapply no_owner; [exact IV|exact HO|eassumption|reflexivity].
  - repeat split. intros e0 [<-|He].
    + match goal with H : tracker_announce _ _ _ _ _ _ = Some _ |- _ => rename H into HT end. unfold tracker_announce in HT.
      destruct (ct_trk tr0), rp; try discriminate; [destruct (HttpAnnounce _ _)|destruct (UdpAnnounce _ _ _ _ _ _ _ _ _) as [[? ?] ?]]; inversion HT; subst; intros [].
    + apply in_map_iff in He. destruct He as (x & <- & Hx). intros W. apply (HG x).
      * unfold gevs. apply in_flat_map. exists (VMgr x). split; [right; apply in_map; exact Hx|now left].
      * destruct x; cbn in *; tauto.
  - rewrite (ret_still _ _ _ _ HR). cbn. repeat split. intros e [].
Qed.
Theorem gone_for_good cf t f outs urls l1 c1 tr1 : crun cf l1 (client_start cf t f outs urls) = (c1, tr1) -> none_left c1 ->
  forall l2 c2 tr2, crun cf l2 c1 = (c2, tr2) -> named_before c1 tr2 ->
    none_left c2 /\ g_peers (c_mgr c2) = g_peers (c_mgr c1) /\ forall e, In e tr2 -> ~ with_peer e.
Proof.
  intros H1 HL l2. induction l2 as [|a l2 IH] using rev_ind; intros c2 tr2 H2 HN.
  - inversion H2; subst. split; [exact HL|]. split; [reflexivity|intros e []].
  - rewrite crun_app in H2. destruct (crun cf l2 c1) as [c tr] eqn:E. cbn in H2. destruct (cexec cf a c) as [c' es] eqn:EX. injection H2 as <- <-.
    rewrite app_nil_r in *. destruct (IH c tr eq_refl) as (N & P & W). { intros j x b Hi. apply (HN j x b). apply in_or_app. now left. }
    assert (R : crun cf (l1 ++ l2) (client_start cf t f outs urls) = (c, tr1 ++ tr)) by (rewrite crun_app, H1, E; reflexivity).
    destruct (crun_mgr _ _ _ _ _ _ _ _ R) as [lg HG]. pose proof (ginv_run _ _ _ _ HG) as IV.
    destruct (lost_step _ _ _ _ _ _ IV N EX) as (P' & Q' & _ & W').
    { intros j x b Hi. rewrite P. apply (HN j x b). apply in_or_app. now right. }
    split; [|split; [congruence|]].
    + destruct N as [N1 N2]. split; [rewrite P'; exact N1|rewrite Q'; exact N2].
    + intros e He. apply in_app_or in He. destruct He; auto.
Qed.

(* ---------- nothing is written any more ---------- *)
Definition drained (c : client) : Prop := sh_ch (wo_sh (c_wo c)) = [] /\ wo_hand (c_wo c) = None.
Definition same_data (w w' : world) : Prop := sh_w (wo_sh w') = sh_w (wo_sh w) /\ sh_ch (wo_sh w') = sh_ch (wo_sh w) /\ wo_hand w' = wo_hand w.
Lemma sync_data cf g w : same_data w (sync cf g w).
Proof. unfold sync, same_data. destruct (g_cancel g); [|auto]. unfold exec. destruct (crashed w); auto. Qed.
Lemma main_data sha1 w : same_data w (fst (exec sha1 AMain w)).
Proof. unfold exec, same_data. destruct (crashed w); [auto|]. destruct (wo_main w); [destruct (wg w =? 0)|destruct (sh_cancel _)| |]; auto. Qed.
Lemma writer_data sha1 w : sh_ch (wo_sh w) = [] -> wo_hand w = None -> same_data w (fst (exec sha1 AWriter w)).
Proof. intros H1 H2. unfold exec, same_data. destruct (crashed w); [auto|]. rewrite H1, H2. auto. Qed.
Lemma data_step cf a c tr c' es : ginv (c_mgr c) tr -> none_left c -> drained c -> cexec cf a c = (c', es) -> same_data (c_wo c) (c_wo c').
Proof.
  intros IV [HO HR] [D1 D2] HE. apply cexec_move in HE. destruct HE as [[-> ->]|(_ & _ & M)]; [unfold same_data; auto|].
  inversion M; subst; cbn [c_wo mgr_step sys_step cnt_step set_ctr prt_step end_step];
    first [apply sync_data|apply main_data|now apply writer_data|unfold same_data; tauto|congruence|idtac].
  - exfalso. eapply no_owner; [exact IV|exact HO|eassumption|reflexivity].
  - rewrite (ret_still _ _ _ _ HR). unfold same_data. auto.
Qed.
Theorem gone_data cf t f outs urls l1 c1 tr1 : crun cf l1 (client_start cf t f outs urls) = (c1, tr1) -> none_left c1 ->
  sh_ch (wo_sh (c_wo c1)) = [] -> wo_hand (c_wo c1) = None ->
  forall l2 c2 tr2, crun cf l2 c1 = (c2, tr2) -> named_before c1 tr2 -> sh_w (wo_sh (c_wo c2)) = sh_w (wo_sh (c_wo c1)).
Proof.
  intros H1 HL D1 D2 l2 c2 tr2 H2 HN.
  enough (G : same_data (c_wo c1) (c_wo c2)) by exact (proj1 G). revert c2 tr2 H2 HN.
  induction l2 as [|a l2 IH] using rev_ind; intros c2 tr2 H2 HN.
  - inversion H2; subst. unfold same_data; auto.
  - rewrite crun_app in H2. destruct (crun cf l2 c1) as [c tr] eqn:E. cbn in H2. destruct (cexec cf a c) as [c' es] eqn:EX. injection H2 as <- <-.
    rewrite app_nil_r in *. assert (HN' : named_before c1 tr). { intros j x b Hi. apply (HN j x b). apply in_or_app. now left. }
    destruct (IH c tr eq_refl HN') as (W & C & K). destruct (gone_for_good _ _ _ _ _ _ _ _ H1 HL _ _ _ E HN') as (N & _ & _).
    assert (R : crun cf (l1 ++ l2) (client_start cf t f outs urls) = (c, tr1 ++ tr)) by (rewrite crun_app, H1, E; reflexivity).
    destruct (crun_mgr _ _ _ _ _ _ _ _ R) as [lg HG]. pose proof (ginv_run _ _ _ _ HG) as IV.
    assert (DR : drained c) by (split; congruence).
    destruct (data_step _ _ _ _ _ _ IV N DR EX) as (W' & C' & K'). repeat split; congruence.
Qed.
