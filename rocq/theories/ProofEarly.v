(* A signal before the first announce: C171.                                   *)
From Verif Require Import Base ProofBase ModelTorrent ModelConn ModelStats ModelPeer ModelSystem ModelTracker ModelManager ModelClient
  SpecManager SpecClient SpecCrash SpecOrigin ProofSystem ProofProgress ProofManager ProofClient ProofClient2 ProofClient3 ProofClient6 ProofCrash.

Definition asleep (pc : tpc) : Prop := match pc with TNew | TStart | TEnd => True | _ => False end.
Definition early (g : mgr) : Prop := Forall asleep (g_trk g) /\ g_peers g = [] /\ (g_pool g = None \/ g_pool g = Some []) /\ g_panic g = false.
Definition no_round (es : list gev) : Prop := forall j, ~ In (GRound j) es.
Lemma asleep_upd l j pc : Forall asleep l -> asleep pc -> Forall asleep (upd l j pc).
Proof. intros H HP. apply Forall_forall. intros x Hx. apply In_nth_error in Hx as [n Hn]. apply nth_upd in Hn as [[_ ->]|[_ Hn]]; [exact HP|]. rewrite Forall_forall in H. apply H. eapply nth_error_In; exact Hn. Qed.
Lemma gexec_early a g g' es : early g -> (a = XStop -> g_started g = true) -> gexec a g = (g', es) -> (no_round es \/ g_cancel g = true) -> early g' /\ es = [] /\ (g_cancel g = true -> g_cancel g' = true).
Proof.
  intros (A & B & C & D) ST H N. unfold gexec in H. rewrite D in H. destruct a as [n|j i|n| | |].
  - destruct (g_started g); inversion H; subst; [repeat split; auto|]. split; [|auto]. split; [|auto]. cbn [g_trk]. apply Forall_forall. intros x Hx. apply repeat_spec in Hx. subst. exact I.
  - destruct (nth_error (g_trk g) j) as [pc|] eqn:HJ; [|inversion H; subst; repeat split; auto]. assert (P : asleep pc) by (rewrite Forall_forall in A; apply A; eapply nth_error_In; exact HJ).
    destruct pc; try contradiction; cbn [tstep] in H.
    + inversion H; subst. split; [|auto]. split; [cbn [set_trk g_trk]; apply asleep_upd; [exact A|destruct (i_new i); exact I]|auto].
    + destruct (g_cancel g) eqn:GC; inversion H; subst; [|destruct N as [N|N]; [destruct (N j); now left|discriminate]]. split; [|auto]. split; [cbn [set_trk g_trk]; apply asleep_upd; [exact A|exact I]|auto].
    + inversion H; subst. repeat split; auto.
  - rewrite B in H. destruct n; cbn [nth_error] in H; inversion H; subst; repeat split; auto.
  - inversion H; subst. split; [|auto]. repeat split; auto.
  - destruct (g_stop g); inversion H; subst; [repeat split; auto|]. unfold stop_check. destruct C as [C|C]; rewrite C; [repeat split; auto|]. rewrite (ST eq_refl). repeat split; auto.
  - destruct (g_stop g); inversion H; subst; [|repeat split; auto]. unfold stop_close. destruct C as [C|C]; rewrite C; cbn [close_all]; repeat split; auto.
Qed.

Section early.
  Variables (cf : conf) (t : torrent) (f : fs) (outs : list (option Z)) (urls : list bytes).
  Hypothesis HB : cf_bar cf (NewStats (u64 (t_length t))) = false.
  Definition idle (c : client) : Prop :=
    early (c_mgr c) /\ c_run c = [] /\ wo_peers (c_wo c) = [] /\ wo_hand (c_wo c) = None /\ sh_ch (wo_sh (c_wo c)) = [] /\ sh_w (wo_sh (c_wo c)) = mkW t f outs [] false /\
    c_cnt c = NewStats (u64 (t_length t)) /\ c_wr c = WIdle /\ c_prt c <> PrPanic.
  Lemma idle_live c : idle c -> dead c = false.
  Proof.
    intros ((_ & _ & _ & P) & _ & W & _ & _ & S & _ & _ & N). unfold dead, crashed. rewrite P, W, S. cbn. destruct (c_prt c); [reflexivity|reflexivity|contradiction].
  Qed.
  (* what the world still has to keep *)
  Definition still (w : world) : Prop := wo_peers w = [] /\ wo_hand w = None /\ sh_ch (wo_sh w) = [] /\ sh_w (wo_sh w) = mkW t f outs [] false.
  Lemma still_main w : still w -> still (fst (exec (cf_sha1 cf) AMain w)).
  Proof.
    intros (A & B & C & D). unfold exec. destruct (crashed w); [repeat split; auto|]. destruct (wo_main w); [destruct (wg w =? 0)|destruct (sh_cancel (wo_sh w))| |]; repeat split; auto.
  Qed.
  Lemma still_sync g w : still w -> still (sync cf g w).
  Proof. intros (A & B & C & D). unfold sync. destruct (g_cancel g); [|repeat split; auto]. unfold exec. destruct (crashed w); repeat split; auto. Qed.
  Lemma still_writer w : still w -> still (fst (exec (cf_sha1 cf) AWriter w)).
  Proof. intros (A & B & C & D). unfold exec. destruct (crashed w); [repeat split; auto|]. rewrite B, C. repeat split; auto. Qed.
  Lemma idle_step a c c' es : idle c -> cexec cf a c = (c', es) -> ((forall j, ~ In (VMgr (GRound j)) es) \/ g_cancel (c_mgr c) = true) ->
    idle c' /\ es = [] /\ (g_cancel (c_mgr c) = true -> g_cancel (c_mgr c') = true).
  Proof.
    intros ID H N. destruct (cexec_move _ _ _ _ _ H) as [[-> ->]|(D1 & D2 & M)]; [auto|]. clear H.
    destruct ID as (E & R & W1 & W2 & W3 & W4 & CN & WR & PR). assert (ST : still (c_wo c)) by (repeat split; assumption).
    assert (MG : forall x, (x = XStop -> g_started (c_mgr c) = true) -> ((forall j, ~ In (VMgr (GRound j)) (map VMgr (snd (gexec x (c_mgr c))))) \/ g_cancel (c_mgr c) = true) ->
      early (fst (gexec x (c_mgr c))) /\ snd (gexec x (c_mgr c)) = [] /\ (g_cancel (c_mgr c) = true -> g_cancel (fst (gexec x (c_mgr c))) = true)).
    { intros x HX HN. destruct (gexec x (c_mgr c)) as [g e] eqn:G. apply (gexec_early x (c_mgr c) g e E HX G). destruct HN as [HN|HN]; [left|right; exact HN]. intros j X. apply (HN j). apply in_map_iff. exists (GRound j). auto. }
    assert (PC : forall j pc, nth_error (g_trk (c_mgr c)) j = Some pc -> asleep pc) by (intros j pc X; destruct E as [E _]; rewrite Forall_forall in E; apply E; eapply nth_error_In; exact X).
    assert (MK : forall g trk rd ex w, early g -> still w -> idle (mkClient g w (c_run c) trk rd (c_cnt c) (c_wr c) (c_prt c) ex)).
    { intros g trk rd ex w A (S1 & S2 & S3 & S4). repeat split; try assumption; apply A. }
    assert (STEP : forall x trk rd ex, (x = XStop -> g_started (c_mgr c) = true) -> es = map VMgr (snd (gexec x (c_mgr c))) ->
      let g := fst (gexec x (c_mgr c)) in let d := mkClient g (sync cf g (c_wo c)) (c_run c) trk rd (c_cnt c) (c_wr c) (c_prt c) ex in
      idle d /\ es = [] /\ (g_cancel (c_mgr c) = true -> g_cancel (c_mgr d) = true)).
    { intros x trk rd ex HX HE. rewrite HE in N. destruct (MG x HX N) as (G1 & G2 & G3). cbv zeta. split; [apply MK; [exact G1|apply still_sync; exact ST]|]. split; [rewrite HE, G2; reflexivity|exact G3]. }
    assert (KEEP : forall w trk rd ex, still w -> idle (mkClient (c_mgr c) w (c_run c) trk rd (c_cnt c) (c_wr c) (c_prt c) ex)) by (intros; apply MK; assumption).
    destruct M as [a|r H1 ->|H1 H2|r H1 H2 H3 H4 ->|r H1 H2 H3 H4 ->|H1 H2 H3|r ->|j tr x tk r H1 H2 -> ->|j tr x pc r H1 H2 H3 ->|j tr x k n ips r H1 H2 H3 ->|j tr x k n ips r H1|j n tr H1|j n tr d u l rp tk e a r H1|k i p we H1|H1 H2|m d H1 H2 H3|n m H1 H2 H3|m H1 H2 H3|m H1 H2 H3|H1 H2 H3|H1 H2 H3].
    - repeat split; try assumption; auto; apply E.
    - apply STEP; [discriminate|reflexivity].
    - split; [|auto]. apply KEEP. now apply still_main.
    - apply STEP; [auto|reflexivity].
    - apply STEP; [discriminate|reflexivity].
    - split; [|auto]. apply KEEP. exact ST.
    - apply STEP; [discriminate|reflexivity].
    - apply STEP; [discriminate|reflexivity].
    - apply STEP; [discriminate|reflexivity].
    - apply STEP; [discriminate|reflexivity].
    - destruct (PC _ _ H1).
    - destruct (PC _ _ H1).
    - destruct (PC _ _ H1).
    - rewrite R in H1. destruct k; discriminate.
    - split; [|auto]. unfold sys_step. apply KEEP. now apply still_writer.
    - congruence.
    - congruence.
    - congruence.
    - congruence.
    - congruence.
    - split; [|auto]. repeat split; try assumption; try apply E. discriminate.
  Qed.
  Lemma idle_start : idle (client_start cf t f outs urls).
  Proof. repeat split; cbn; auto; discriminate. Qed.
  (* no round of announces has begun: nothing has happened *)
  Lemma idle_run l : forall c c' tr, idle c -> crun cf l c = (c', tr) -> ((forall j, ~ In (VMgr (GRound j)) tr) \/ g_cancel (c_mgr c) = true) ->
    idle c' /\ tr = [] /\ (g_cancel (c_mgr c) = true -> g_cancel (c_mgr c') = true).
  Proof.
    induction l as [|a l IH]; intros c c' tr ID H N; cbn [crun] in H; [inversion H; subst; auto|].
    destruct (cexec cf a c) as [c1 e1] eqn:E1. destruct (crun cf l c1) as [c2 e2] eqn:E2. inversion H; subst.
    destruct (idle_step _ _ _ _ ID E1) as (I1 & -> & C1); [destruct N as [N|N]; [left; intros j X; apply (N j), in_or_app; now left|now right]|].
    destruct (IH _ _ _ I1 E2) as (I2 & -> & C2); [destruct N as [N|N]; [left; exact N|right; auto]|]. auto.
  Qed.
  Lemma exit_run l : forall c, c_exit c = true -> crun cf l c = (c, []).
  Proof. induction l as [|a l IH]; intros c H; [reflexivity|]. cbn [crun]. unfold cexec. rewrite H, orb_true_r, (IH c H). reflexivity. Qed.
  Lemma early_end l c tr l2 c2 tr2 : crun cf l (client_start cf t f outs urls) = (c, tr) -> (forall j, ~ In (VMgr (GRound j)) tr) -> In KSignal l -> crun cf l2 c = (c2, tr2) ->
    tr = [] /\ tr2 = [] /\ client_status c2 <> Some 2 /\ w_fs (sh_w (wo_sh (c_wo c2))) = f.
  Proof.
    intros H N K H2. destruct (idle_run _ _ _ _ idle_start H (or_introl N)) as (I1 & -> & _).
    assert (CC : idle c2 /\ tr2 = []).
    { destruct (in_split _ _ K) as (la & lb & ->). rewrite crun_app in H. destruct (crun cf la _) as [ca ta] eqn:EA. cbn [crun] in H. destruct (cexec cf KSignal ca) as [cb tb] eqn:EB. destruct (crun cf lb cb) as [cd td] eqn:ED.
      injection H as -> H3. apply app_eq_nil in H3 as [-> H3]. apply app_eq_nil in H3 as [-> ->].
      destruct (idle_run _ _ _ _ idle_start EA (or_introl (fun _ X => X))) as (IA & _). destruct (idle_step _ _ _ _ IA EB (or_introl (fun _ X => X))) as (IB & _).
      assert (D : c_exit ca = true \/ g_cancel (c_mgr cb) = true).
      { unfold cexec in EB. rewrite (idle_live _ IA) in EB. destruct (c_exit ca) eqn:X; [now left|right]. cbn [orb] in EB. unfold with_mgr in EB. injection EB as <- _. cbn [c_mgr]. destruct IA as ((_ & _ & _ & P) & _). unfold gexec. rewrite P. reflexivity. }
      destruct D as [D|D].
      - assert (cb = ca) by (unfold cexec in EB; rewrite D, orb_true_r in EB; congruence). subst cb. assert (c = ca) by (rewrite (exit_run lb ca D) in ED; congruence). subst c. rewrite (exit_run l2 ca D) in H2. injection H2 as <- <-. auto.
      - destruct (idle_run _ _ _ _ IB ED (or_intror D)) as (_ & _ & C1). destruct (idle_run _ _ _ _ I1 H2 (or_intror (C1 D))) as (I2 & -> & _). auto. }
    destruct CC as [I2 ->]. split; [reflexivity|]. split; [reflexivity|]. split; [unfold client_status; rewrite (idle_live _ I2); destruct (c_exit c2); discriminate|].
    destruct I2 as (_ & _ & _ & _ & _ & -> & _). reflexivity.
  Qed.
  Lemma early_zero l c tr s : crun cf l (client_start cf t f outs urls) = (c, tr) -> (forall j, ~ In (VMgr (GRound j)) tr) -> In KSignal l -> cfair s ->
    exists n, client_status (cafter cf s n c) = Some 0.
  Proof.
    intros H N K F. destruct (signal_ends _ _ _ _ _ _ _ _ _ H K F) as (n & [X|X]); [eauto|]. exfalso. unfold cafter in X. destruct (crun cf (map s (seq 0 n)) c) as [c2 tr2] eqn:E.
    destruct (early_end _ _ _ _ _ _ H N K E) as (_ & _ & Y & _). exact (Y X).
  Qed.
  Lemma signal_silent c c' es : cexec cf KSignal c = (c', es) -> es = [].
  Proof. unfold cexec. destruct (dead c || c_exit c); [congruence|]. unfold with_mgr, gexec. destruct (g_panic (c_mgr c)); cbn; congruence. Qed.
  Lemma signalled l1 c1 t1 : crun cf l1 (client_start cf t f outs urls) = (c1, t1) -> exists c, crun cf (l1 ++ [KSignal]) (client_start cf t f outs urls) = (c, t1) /\ cexec cf KSignal c1 = (c, []).
  Proof.
    intros H. destruct (cexec cf KSignal c1) as [c es] eqn:E. pose proof (signal_silent _ _ _ E) as ->. exists c. rewrite crun_app, H. cbn [crun]. rewrite E, !app_nil_r. auto.
  Qed.
  Lemma early_end_at l1 c1 t1 l2 c2 t2 : crun cf l1 (client_start cf t f outs urls) = (c1, t1) -> (forall j, ~ In (VMgr (GRound j)) t1) -> crun cf (KSignal :: l2) c1 = (c2, t2) ->
    t1 = [] /\ t2 = [] /\ client_status c2 <> Some 2 /\ w_fs (sh_w (wo_sh (c_wo c2))) = f.
  Proof.
    intros H N H2. destruct (signalled _ _ _ H) as (c & R & E). cbn [crun] in H2. rewrite E in H2. destruct (crun cf l2 c) as [c3 t3] eqn:E3. cbn in H2. injection H2 as <- <-.
    eapply (early_end (l1 ++ [KSignal])); [exact R|exact N|apply in_or_app; right; now left|exact E3].
  Qed.
  Lemma early_zero_at l1 c1 t1 l2 c2 t2 s : crun cf l1 (client_start cf t f outs urls) = (c1, t1) -> (forall j, ~ In (VMgr (GRound j)) t1) -> crun cf (KSignal :: l2) c1 = (c2, t2) -> cfair s ->
    exists n, client_status (cafter cf s n c2) = Some 0.
  Proof.
    intros H N H2 F. destruct (early_end_at _ _ _ _ _ _ H N H2) as (-> & -> & _). apply (early_zero (l1 ++ KSignal :: l2) c2 []); [rewrite crun_app, H, H2; reflexivity|exact N|apply in_or_app; right; now left|exact F].
  Qed.
End early.
