(* A running download can still be completed: C167.                            *)
From Coq Require Import Permutation.
From Verif Require Import Base ProofBase SpecPath ModelPath ModelBitset ModelMsg ModelTorrent ModelConn ModelStats ModelPeer ModelSystem ModelTracker ModelManager ModelClient
  SpecMsg SpecTorrent SpecFinish SpecManager SpecClient SpecProgram SpecOrigin SpecArrive SpecPossible SpecRescue SpecAgain SpecStill SpecBencode SpecCmd ModelCmd ModelProgram
  ProofSystem ProofNew ProofManager ProofManager2 ProofClient ProofClient2 ProofClient3 ProofClient4 ProofClient6 ProofShutdown ProofCrash ProofProgram ProofProgress ProofClient5 ProofTorrent ProofOffer.
From Verif Require ProofAgain ProofRescue ProofCan ProofSource.
Import ProofAgain ProofRescue.

Lemma none_text a : ap_ok (Some a) -> apString None <> apString (Some a).
Proof. intros H E. apply apString_inj in E; [discriminate|exact I|exact H]. Qed.

Section still.
  Variables (cwd : place) (creat : bytes -> bool) (mk : bool) (f0 : fs) (mi : metainfo) (hash dir : bytes) (f1 : fs) (t : torrent).
  Hypothesis HN : New cwd creat mk f0 mi hash dir = (f1, Ok t).
  Variables (cf : conf) (N : Z) (con : bytes).
  Variables (urls : list bytes) (u : bytes) (j : nat) (r : httpres) (a : addr * Z).
  Hypothesis HJ : nth_error urls j = Some u.
  Hypothesis HU : http_url cf u.
  Hypothesis HH : length (t_hash t) = 20%nat.
  Hypothesis HR : names cf r a.
  Hypothesis HA : ap_ok (Some a).
  Let c0 := client_start cf t f1 [] urls.

  Definition unread (es : list cev) : Prop := forall k b, ~ In (VSys k (EReadOk b)) es.
  Definition fair (x : cact) : Prop := sends_bytes x /\ x <> KSignal.
  Definition alive0 (c : client) : Prop := exists l tr, crun cf l c0 = (c, tr) /\ Forall (fun x => x <> KSignal) l /\ client_status c = None.
  Definition toward (c : client) : Prop := exists l c' e k, Forall fair l /\ crun cf l c = (c', e) /\ unread e /\ client_status c' = None /\ at_run c' k.
  Definition unknown (c : client) : Prop := forall m, g_pool (c_mgr c) = Some m -> pool_get m (apString (Some a)) = None.

  Lemma alive_step x c c' es : alive0 c -> cexec cf x c = (c', es) -> x <> KSignal -> client_status c' = None -> alive0 c'.
  Proof.
    intros (l & tr & R & S & _) E F HS. exists (l ++ [x]), (tr ++ es). split; [rewrite crun_app, R; cbn [crun]; rewrite E, app_nil_r; reflexivity|].
    split; [apply Forall_app; auto|exact HS].
  Qed.
  Lemma mgr_unread es : unread (map VMgr es).
  Proof. intros k b H. apply in_map_iff in H as (y & E & _). discriminate. Qed.
  Lemma toward_step x c c' es : cexec cf x c = (c', es) -> fair x -> unread es -> toward c' -> toward c.
  Proof.
    intros E F U (l & c2 & e & k & A & B & C & D & K). exists (x :: l), c2, (es ++ e), k. split; [now constructor|]. split; [eapply ProofSource.crun_cons; eassumption|].
    split; [|now split]. intros k0 b H. apply in_app_or in H as [H|H]; [exact (U _ _ H)|exact (C _ _ H)].
  Qed.
  Record facts (c : client) : Prop := mkF {
    f_reach : reach cf c;
    f_wait : waiting c;
    f_work : ProofSource.at_work c;
    f_inv : exists gt, ginv (c_mgr c) gt;
    f_pool : exists m, g_pool (c_mgr c) = Some m;
    f_open : forall p, conn_closed (c_mgr c) p = false;
    f_hash : t_hash (sh_t (wo_sh (c_wo c))) = t_hash t;
    f_crash : crashed (c_wo c) = false
  }.
  Lemma known_facts c : alive0 c -> facts c.
  Proof.
    intros (l & tr & R & S & HS). assert (RC : reach cf c) by (repeat eexists; exact R).
    assert (W : waiting c) by (refine (crun_inv cf (fun c _ => waiting c) (fun a => a <> KSignal) _ _ _ l c tr S R); [repeat split; now left|intros; eapply waiting_step; eassumption]).
    pose proof W as (W1 & W2 & W3 & W4). destruct (crun_sys _ _ _ _ _ _ _ _ R) as (ls & RS & _). destruct (crun_mgr _ _ _ _ _ _ _ _ R) as (lg & RG).
    pose proof (proj1 (alive_parts _) HS) as (A1 & A2 & A3 & A4). constructor; auto.
    - split; [|split; assumption]. unfold client_status in HS. destruct (dead c); [discriminate|reflexivity].
    - exists (gevs tr). eapply ginv_run; exact RG.
    - destruct (g_pool (c_mgr c)) eqn:E; [eauto|]. rewrite (nil_cancel _ _ _ _ RG E) in W2. discriminate.
    - intros p. eapply conn_open; eassumption.
    - pose proof (static_run _ _ _ _ _ RS) as E. unfold static in E. cbn in E. congruence.
  Qed.

  (* a step of the goroutine of tracker j that only changes the manager *)
  Definition with_g (c : client) (g : mgr) : client := mkClient g (c_wo c) (c_run c) (c_trk c) (c_rounds c) (c_cnt c) (c_wr c) (c_prt c) (c_exit c).
  Lemma mstep c pc x i g es : alive0 c -> nth_error (g_trk (c_mgr c)) j = Some pc -> nth_error (c_trk c) j = Some x -> ProofSource.plain pc ->
    tstep (c_mgr c) j pc (tin_of false false i) = Some (g, es) -> g_panic g = false -> g_cancel g = false ->
    cexec cf (KTrk j i) c = (with_g c g, map VMgr es) /\ alive0 (with_g c g).
  Proof.
    intros AL H1 H2 HP HT G1 G2. pose proof (f_work _ (known_facts _ AL)) as W.
    assert (E : cexec cf (KTrk j i) c = (with_g c g, map VMgr es)).
    { rewrite (ProofSource.work_exec _ _ _ W). unfold ctrk_step. rewrite H1, H2.
      assert (E : with_mgr cf c (gexec (XTrk j (tin_of false false i)) (c_mgr c)) = (with_g c g, map VMgr es)).
      { unfold gexec. rewrite (ProofSource.work_panic _ W), H1, HT. unfold with_mgr, sync. cbn [fst snd]. now rewrite G2. }
      destruct pc; try contradiction; exact E. }
    split; [exact E|]. eapply alive_step; [exact AL|exact E|discriminate|].
    destruct AL as (l & tr & _ & _ & HS). apply alive_parts in HS. apply alive_parts. cbn [with_g c_mgr c_wo c_prt c_exit]. tauto.
  Qed.
  Lemma step_toward c pc x i g es : alive0 c -> nth_error (g_trk (c_mgr c)) j = Some pc -> nth_error (c_trk c) j = Some x -> ProofSource.plain pc ->
    tstep (c_mgr c) j pc (tin_of false false i) = Some (g, es) -> g_panic g = false -> g_cancel g = false ->
    (alive0 (with_g c g) -> toward (with_g c g)) -> toward c.
  Proof.
    intros AL H1 H2 HP HT G1 G2 K. destruct (mstep _ _ _ _ _ _ AL H1 H2 HP HT G1 G2) as [E A']. eapply toward_step; [exact E|split; [exact I|discriminate]|apply mgr_unread|exact (K A')].
  Qed.

  (* ---------- from an address to Run ---------- *)
  Lemma shake_run c k n ips x : alive0 c -> nth_error (g_trk (c_mgr c)) j = Some (TPShake k n ips) -> nth_error (c_trk c) j = Some x -> toward c.
  Proof.
    intros AL H1 H2. pose proof (known_facts _ AL) as F. pose proof (f_work _ F) as W. destruct (f_inv _ F) as (gt & IV). destruct (iv_own _ _ IV _ _ k H1 eq_refl) as (p & Hp & _).
    assert (SH : shaken cf c k (ProofCan.meet (t_hash t)) = true).
    { unfold shaken. rewrite (f_open _ F), (f_hash _ F). cbn [negb andb ProofCan.meet x_ok x_evs]. now rewrite (ProofCan.greeted _ _ HH). }
    set (g' := set_trk (set_peers (c_mgr c) (upd (g_peers (c_mgr c)) k (mkMp (mp_addr p) (mp_conn p) PsRun))) j (TInit ips)).
    set (w' := mkWorld (wo_sh (c_wo c)) (wo_peers (c_wo c) ++ [ModelSystem.fresh false (sh_t (wo_sh (c_wo c))) (ct_grp x)]) (wo_main (c_wo c)) (wo_taken (c_wo c)) (wo_hand (c_wo c))).
    set (c' := mkClient g' w' (c_run c ++ [k]) (c_trk c) (c_rounds c) (c_cnt c) (c_wr c) (c_prt c) (c_exit c)).
    assert (E : cexec cf (KTrk j (ProofCan.meet (t_hash t))) c = (c', VShake k (ProofCan.greeting (t_hash t)) :: map VMgr [GRun j k])).
    { rewrite (ProofSource.work_exec _ _ _ W). unfold ctrk_step. rewrite H1, H2. rewrite SH. unfold gexec. rewrite (ProofSource.work_panic _ W), H1. cbn [tstep tin_of i_shake]. rewrite Hp.
      unfold with_mgr, sync. cbn [fst snd set_trk set_peers g_cancel c_mgr c_wo c_run c_trk c_rounds c_cnt c_wr c_prt c_exit]. destruct W as (_ & _ & ->).
      unfold exec. rewrite (f_crash _ F). reflexivity. }
    eapply toward_step; [exact E|split; [exact I|discriminate]|intros k0 b [X|X]; [discriminate|exact (mgr_unread _ _ _ X)]|].
    exists [], c', [], (length (wo_peers (c_wo c))). split; [constructor|]. split; [reflexivity|]. split; [intros k0 b []|]. split.
    - destruct AL as (l & tr & _ & _ & HS). apply alive_parts in HS as (A1 & A2 & A3 & A4). apply alive_parts. cbn [c' c_mgr c_wo c_prt c_exit]. split; [exact A1|]. split; [|split; assumption].
      unfold crashed, w' in *. cbn [wo_peers wo_sh]. rewrite existsb_app. apply orb_false_iff in A2 as [A2 A2']. rewrite A2, A2'. reflexivity.
    - eexists. cbn [c' c_wo w' wo_peers]. split; [rewrite nth_error_app2, Nat.sub_diag by lia; reflexivity|]. discriminate.
  Qed.
  Definition ok_in : cin := mkCin [] true true [].
  Lemma dial_run c k n ips x p b : alive0 c -> nth_error (g_trk (c_mgr c)) j = Some (TPDial k n ips) -> nth_error (c_trk c) j = Some x ->
    nth_error (g_peers (c_mgr c)) k = Some p -> mp_addr p = Some b -> toward c.
  Proof.
    intros AL H1 H2 Hp Hb. pose proof (f_work _ (known_facts _ AL)) as W. pose proof (ProofSource.work_panic _ W) as WP. destruct W as (_ & _ & WC).
    eapply (step_toward c _ x ok_in); [exact AL|exact H1|exact H2|exact I|cbn [tstep tin_of i_dial ok_in x_ok andb]; rewrite Hp, Hb; reflexivity|exact WP|exact WC|].
    intros AL'. eapply shake_run; [exact AL'| |exact H2]. cbn [with_g c_mgr g_trk]. eapply nth_upd_same; exact H1.
  Qed.
  Lemma back_run c k n ips x p b : alive0 c -> nth_error (g_trk (c_mgr c)) j = Some (TPBack k n ips) -> nth_error (c_trk c) j = Some x ->
    nth_error (g_peers (c_mgr c)) k = Some p -> mp_addr p = Some b -> toward c.
  Proof.
    intros AL H1 H2 Hp Hb. pose proof (f_work _ (known_facts _ AL)) as W. pose proof (ProofSource.work_panic _ W) as WP. destruct W as (_ & _ & WC).
    eapply (step_toward c _ x ok_in); [exact AL|exact H1|exact H2|exact I|reflexivity|exact WP|exact WC|].
    intros AL'. eapply dial_run; [exact AL'| |exact H2|exact Hp|exact Hb]. eapply set_trk_nth; exact H1.
  Qed.
  Lemma start_run c k ips x p b : alive0 c -> nth_error (g_trk (c_mgr c)) j = Some (TPStart k ips) -> nth_error (c_trk c) j = Some x ->
    nth_error (g_peers (c_mgr c)) k = Some p -> mp_addr p = Some b -> toward c.
  Proof.
    intros AL H1 H2 Hp Hb. pose proof (f_work _ (known_facts _ AL)) as W. pose proof (ProofSource.work_panic _ W) as WP. destruct W as (_ & _ & WC).
    eapply (step_toward c _ x ok_in); [exact AL|exact H1|exact H2|exact I|cbn [tstep]; rewrite WC; reflexivity|exact WP|exact WC|].
    intros AL'. eapply dial_run; [exact AL'| |exact H2|exact Hp|exact Hb]. eapply set_trk_nth; exact H1.
  Qed.
  Lemma add_run c b ips x m : alive0 c -> nth_error (g_trk (c_mgr c)) j = Some (TInit (Some b :: ips)) -> nth_error (c_trk c) j = Some x ->
    g_pool (c_mgr c) = Some m -> pool_get m (apString (Some b)) = None -> toward c.
  Proof.
    intros AL H1 H2 Hm Hg. pose proof (f_work _ (known_facts _ AL)) as W. pose proof (ProofSource.work_panic _ W) as WP. destruct W as (_ & _ & WC).
    eapply (step_toward c _ x ok_in); [exact AL|exact H1|exact H2|exact I|cbn [tstep]; unfold AddPeer; rewrite Hm, Hg; reflexivity|exact WP|exact WC|].
    intros AL'. eapply start_run; [exact AL'| |exact H2| |].
    - cbn [with_g c_mgr set_trk g_trk]. eapply nth_upd_same; exact H1.
    - cbn [with_g c_mgr set_trk g_peers]. rewrite nth_error_app2, Nat.sub_diag by lia. reflexivity.
    - reflexivity.
  Qed.

  (* ---------- on to the announce ---------- *)
  Lemma ann_run c n x : alive0 c -> going cf u c j (TTry n) x -> unknown c -> length (ct_loads x) = 3%nat -> toward c.
  Proof.
    intros AL (H1 & H2 & EU & HL & _ & SV) UK L3. pose proof (known_facts _ AL) as F. pose proof (f_work _ F) as W. specialize (SV ltac:(discriminate)).
    destruct (ct_loads x) as [|v1 [|v2 [|v3 [|]]]] eqn:EL; try discriminate. destruct (ct_trk x) as [|ad id ev i|ud] eqn:ET; [destruct SV| |].
    2: { exfalso. cbn [serves] in SV. unfold udp_url in SV. destruct HU as [X|X]; rewrite X in SV; vm_compute in SV; discriminate. }
    destruct (f_pool _ F) as (m & Hm). assert (EX : exists c' x' es, cexec cf (KAnn j (RHttp r false)) c = (c', es) /\ unread es /\ alive0 c' /\
      nth_error (g_trk (c_mgr c')) j = Some (TInit [Some a]) /\ nth_error (c_trk c') j = Some x' /\ g_pool (c_mgr c') = Some m).
    { assert (E : exists x' q i', cexec cf (KAnn j (RHttp r false)) c =
        (mkClient (set_trk (c_mgr c) j (TInit [Some a])) (c_wo c) (c_run c) (upd (c_trk c) j x') (S (c_rounds c)) (c_cnt c) (c_wr c) (c_prt c) (c_exit c), VHttp j ad q i' :: map VMgr [GAnn j true])).
      { rewrite (ProofSource.work_exec _ _ _ W). unfold ann_step. rewrite H1, H2, EL, ET. cbn [tracker_announce]. unfold names in HR. destruct (HttpAnnounce (cf_ip cf) r) as [i' rs]. cbn [snd] in HR. subst rs.
        unfold gexec. rewrite (ProofSource.work_panic _ W), H1. cbn [ann_of tstep i_ann]. unfold with_mgr, sync. cbn [fst snd set_trk set_ctr g_cancel c_mgr c_wo c_run c_trk c_rounds c_cnt c_wr c_prt c_exit].
        destruct W as (_ & _ & ->). eexists _, _, _. reflexivity. }
      destruct E as (x' & q & i' & E). eexists _, x', _. split; [exact E|]. split; [intros k b [X|X]; [discriminate|exact (mgr_unread _ _ _ X)]|]. split.
      - eapply alive_step; [exact AL|exact E|discriminate|]. destruct AL as (l & tr & _ & _ & HS). apply alive_parts in HS. apply alive_parts. exact HS.
      - cbn [c_mgr c_trk]. split; [eapply set_trk_nth; exact H1|]. split; [eapply nth_upd_same; exact H2|exact Hm]. }
    destruct EX as (c' & x' & es & E & U & AL' & T' & X' & P'). eapply toward_step; [exact E|split; [exact I|discriminate]|exact U|]. eapply add_run; [exact AL'|exact T'|exact X'|exact P'|exact (UK _ Hm)].
  Qed.
  Definition no_in : cin := mkCin [] false true [].
  Lemma none_pool m v : pool_get m (apString (Some a)) = None -> pool_get (m ++ [(apString None, v)]) (apString (Some a)) = None.
  Proof. intros H. apply pool_get_none. apply pool_get_none in H. rewrite map_app, in_app_iff. intros [X|[X|[]]]; [exact (H X)|exact (none_text _ HA X)]. Qed.
  Lemma drive n : forall c pc x, alive0 c -> going cf u c j pc x -> unknown c -> (tm pc (length (ct_loads x)) < n)%nat -> toward c.
  Proof.
    induction n as [|n IH]; intros c pc x AL G UK HM; [lia|]. pose proof (known_facts _ AL) as F. pose proof (f_work _ F) as W. pose proof (ProofSource.work_panic _ W) as WP.
    pose proof W as (_ & _ & WC). destruct (f_inv _ F) as (gt & IV). pose proof G as (H1 & H2 & EU & HL & NE & SV). pose proof (iv_pc _ _ IV _ _ H1) as PO. destruct (f_pool _ F) as (m & Hm).
    assert (LI : (forall q, pc <> TTry q) -> ct_loads x = []).
    { intros NT. destruct (ct_loads x) eqn:EL; [reflexivity|]. exfalso. destruct (f_reach _ F) as (t9 & f9 & outs9 & urls9 & l9 & tr9 & R9).
      destruct (linv_run _ _ _ _ _ _ _ _ R9 j x H2) as (q & X); [congruence|]. apply (NT q). congruence. }
    assert (STD : forall i g es pc', ProofSource.plain pc -> tstep (c_mgr c) j pc (tin_of false false i) = Some (g, es) -> g_panic g = false -> g_cancel g = false ->
      nth_error (g_trk g) j = Some pc' -> pc' <> TEnd -> (forall m', g_pool g = Some m' -> pool_get m' (apString (Some a)) = None) -> (tm pc' 0 < tm pc 0)%nat -> toward c).
    { intros i g es pc' PL T P1 P2 T' NE' UK' LT. eapply step_toward; [exact AL|exact H1|exact H2|exact PL|exact T|exact P1|exact P2|]. intros AL'. 
      assert (LN : ct_loads x = []) by (apply LI; intros q ->; exact PL). rewrite LN in HM. cbn [length] in HM.
      apply (IH _ pc' x AL'); [|exact UK'|rewrite LN; cbn [length]; lia]. split; [exact T'|]. split; [exact H2|]. split; [exact EU|]. split; [exact HL|]. split; [exact NE'|]. intros _. apply SV. intros ->. exact PL. }
    destruct pc as [| |q|q|[|b ips]|k ips|k q ips|k q ips|k q ips| |]; cbn [pcok] in PO.
    - pose proof (ProofSource.go_new cf c j x u no_in W H1 H2 EU HU) as E. eapply toward_step; [exact E|split; [exact I|discriminate]|intros k b []|].
      eapply (IH _ TStart); [eapply alive_step; [exact AL|exact E|discriminate|]| | |].
      + destruct AL as (l & tr & _ & _ & HS). apply alive_parts in HS. apply alive_parts. exact HS.
      + unfold going, ProofSource.moved. cbn [c_mgr c_trk]. split; [eapply set_trk_nth; exact H1|]. split; [eapply nth_upd_same; exact H2|]. cbn [ct_url ct_loads ct_trk length].
        split; [reflexivity|]. split; [lia|]. split; [discriminate|]. intros _. exact HU.
      + exact UK.
      + cbn [tm] in *. lia.
    - eapply (STD no_in _ _ (TTry 0)); [exact I|cbn [tstep]; rewrite WC; reflexivity|exact WP|exact WC|eapply set_trk_nth; exact H1|discriminate|exact UK|cbn [tm]; lia].
    - destruct (Nat.eq_dec (length (ct_loads x)) 3) as [L3|L3]; [eapply ann_run; eassumption|].
      destruct (ProofSource.go_load cf c j q x W H1 H2 ltac:(lia)) as (v & E). eapply toward_step; [exact E|split; [exact I|discriminate]|intros k b []|].
      eapply (IH _ (TTry q) (mkCtr (ct_url x) (ct_trk x) (ct_loads x ++ [v]) (ct_grp x))); [eapply alive_step; [exact AL|exact E|discriminate|]| | |].
      + destruct AL as (l & tr & _ & _ & HS). apply alive_parts in HS. apply alive_parts. exact HS.
      + unfold going, set_ctr. cbn [c_mgr c_trk ct_url ct_loads ct_trk]. split; [exact H1|]. split; [eapply nth_upd_same; exact H2|]. split; [exact EU|]. split; [rewrite app_length; cbn [length]; lia|]. split; [discriminate|exact SV].
      + exact UK.
      + cbn [tm ct_loads] in *. rewrite app_length. cbn [length]. lia.
    - eapply (STD no_in _ _ (TTry (S q))); [exact I|reflexivity|exact WP|exact WC|eapply set_trk_nth; exact H1|discriminate|exact UK|cbn [tm]; lia].
    - eapply (STD no_in _ _ TWait); [exact I|reflexivity|exact WP|exact WC|eapply set_trk_nth; exact H1|discriminate|exact UK|cbn [tm length]; lia].
    - destruct (pool_get m (apString b)) as [v|] eqn:Hg.
      + eapply (STD no_in _ _ (TInit ips)); [exact I|cbn [tstep]; unfold AddPeer; rewrite Hm, Hg; reflexivity|exact WP|exact WC|eapply set_trk_nth; exact H1|discriminate|exact UK|cbn [tm length]; lia].
      + destruct b as [b|]; [eapply add_run; eassumption|].
        eapply (STD no_in _ _ (TPStart (length (g_peers (c_mgr c))) ips)); [exact I|cbn [tstep]; unfold AddPeer; rewrite Hm, Hg; reflexivity|exact WP|exact WC| |discriminate| |cbn [tm length]; lia].
        * cbn [set_trk g_trk]. eapply nth_upd_same; exact H1.
        * cbn [set_trk g_pool]. intros m' X. injection X as <-. apply none_pool. exact (UK _ Hm).
    - destruct (iv_own _ _ IV _ _ k H1 eq_refl) as (p & Hp & _). destruct (mp_addr p) as [b|] eqn:Hb; [eapply start_run; eassumption|].
      eapply (STD no_in _ _ (TPDial k 0 ips)); [exact I|cbn [tstep]; rewrite WC; reflexivity|exact WP|exact WC|eapply set_trk_nth; exact H1|discriminate|exact UK|cbn [tm length]; lia].
    - destruct (iv_own _ _ IV _ _ k H1 eq_refl) as (p & Hp & _). destruct (mp_addr p) as [b|] eqn:Hb; [eapply dial_run; eassumption|].
      set (g1 := set_peers (c_mgr c) (upd (g_peers (c_mgr c)) k (mkMp None None (mp_state p)))).
      destruct (after_failure_need g1 j k q ips (TPDial k q ips) H1 PO) as (pc' & T' & NE' & _ & LT).
      eapply (STD no_in (after_failure g1 j k q ips) [GDial j k] pc'); [exact I|cbn [tstep tin_of i_dial no_in x_ok andb]; rewrite Hp, Hb; reflexivity| | |exact T'|exact NE'| |cbn [tm length] in *; lia].
      + unfold after_failure, peer_failed. destruct (Nat.eqb q 4); [destruct (nth_error (g_peers g1) k)|]; exact WP.
      + unfold after_failure, peer_failed. destruct (Nat.eqb q 4); [destruct (nth_error (g_peers g1) k)|]; exact WC.
      + unfold after_failure, peer_failed. destruct (Nat.eqb q 4); [destruct (nth_error (g_peers g1) k)|]; exact UK.
    - eapply shake_run; eassumption.
    - eapply (STD no_in _ _ (TPDial k (S q) ips)); [exact I|reflexivity|exact WP|exact WC|eapply set_trk_nth; exact H1|discriminate|exact UK|cbn [tm length]; lia].
    - eapply (STD no_in _ _ TStart); [exact I|reflexivity|exact WP|exact WC|eapply set_trk_nth; exact H1|discriminate|exact UK|cbn [tm length]; lia].
    - now contradiction NE.
  Qed.

  (* ---------- every state ---------- *)
  Lemma main_going : exists c', cexec cf KMain c0 = (c', []) /\ going cf u c' j TNew (mkCtr u TrNone [] 0) /\ client_status c' = None /\ g_pool (c_mgr c') = Some [].
  Proof.
    eexists. split; [reflexivity|]. unfold going. cbn. assert (L : (j < length urls)%nat) by (apply nth_error_Some; congruence).
    split; [|split; reflexivity]. split; [rewrite map_length; apply nth_error_repeat; exact L|]. split; [now rewrite nth_error_map, HJ|]. repeat split; try discriminate; [lia|congruence].
  Qed.
  Lemma going_run l c tr : crun cf l c0 = (c, tr) -> Forall (fun x => x <> KSignal) l -> c = c0 \/ exists pc x, going cf u c j pc x.
  Proof.
    intros R S. refine (proj2 (proj2 (crun_inv cf (fun c _ => reach cf c /\ waiting c /\ (c = c0 \/ exists pc x, going cf u c j pc x)) (fun a => a <> KSignal) c0 _ _ l c tr S R))).
    - split; [exists t, f1, [], urls, [], []; reflexivity|]. split; [repeat split; now left|now left].
    - clear c tr l R S. intros c tr x c' es (RC & WC & K) NS E. split; [eapply reach_step; eassumption|]. split; [eapply waiting_step; eassumption|].
      destruct K as [->|(pc & y & G)].
      + destruct (kmain_dec x) as [->|NM]; [destruct main_going as (c1 & E1 & G & _); rewrite E1 in E; injection E as <- _; right; eauto|].
        left. pose proof (ProofAgain.not_started cf t f1 [] urls x NM NS) as X. fold c0 in X. rewrite E in X. exact X.
      + right. destruct (dead c) eqn:D; [rewrite (dead_step cf c x D) in E; injection E as <- _; eauto|].
        destruct (step_from cf u c j pc y x RC WC D G NS) as (pc' & y' & G' & _); [intros; now left|]. rewrite E in G'. eauto.
  Qed.
  Lemma can_run l c tr : crun cf l c0 = (c, tr) -> Forall (fun x => x <> KSignal) l -> client_status c = None -> unused a tr -> toward c.
  Proof.
    intros R S HS UN. assert (AL : alive0 c) by (exists l, tr; auto). destruct (going_run _ _ _ R S) as [E|(pc & x & G)].
    - destruct main_going as (c1 & E1 & G & S1 & P1). subst c. eapply toward_step; [exact E1|split; [exact I|discriminate]|intros k b []|].
      eapply drive; [eapply alive_step; [exact AL|exact E1|discriminate|exact S1]|exact G| |apply Nat.lt_succ_diag_r]. intros m Hm. rewrite P1 in Hm. injection Hm as <-. reflexivity.
    - eapply drive; [exact AL|exact G| |apply Nat.lt_succ_diag_r]. intros m Hm. destruct (crun_mgr _ _ _ _ _ _ _ _ R) as (lg & RG). pose proof (ginv_run _ _ _ _ RG) as IV.
      apply pool_get_none. destruct (iv_pool _ _ IV _ Hm) as [-> _]. intros X. apply in_map_iff in X as (p & Hk & Hp).
      assert (Y : In (mp_addr p) (added (gevs tr))) by (rewrite (iv_added _ _ IV); now apply in_map).
      assert (Z : exists i, In (GAdd i (mp_addr p) true) (gevs tr)).
      { clear -Y. induction (gevs tr) as [|e es IH]; [destruct Y|]. destruct e as [| |i b []| |]; cbn in Y; try (destruct (IH Y) as (i' & H); exists i'; now right).
        destruct Y as [->|Y]; [exists i; now left|]. destruct (IH Y) as (i' & H). exists i'. now right. }
      destruct Z as (i & Z). apply in_flat_map in Z as (e & He & Z). destruct e; cbn in Z; try contradiction. destruct Z as [->|[]]. exact (UN _ _ He Hk).
  Qed.
End still.

Lemma still_prog cf look o f flags out file order d M w c0 ps N c l cl tr u r a :
  (forall us, Permutation (order us) us) -> o_file o file = Some d -> SpecBencode.fits d -> torrent_doc d M w ->
  prog_start cf look o f flags (CDownload out file) [] order = PRun c0 -> out <> [] -> torrent_places (o_cwd o) out M ps -> NoDup ps ->
  Forall (fun n => 0 <= n) (file_lengths M) -> 0 < total (file_lengths M) <= 2 ^ 50 -> 0 < mi_piece_length M < 2 ^ 30 -> N <= 2 ^ 32 ->
  torrent_of (cf_sha1 cf) M N c -> zlen (cf_sha1 cf w) = 20 -> tracker_of M u -> http_url cf u -> names cf r a -> ap_ok (Some a) ->
  Forall sends_bytes l -> ~ In KSignal l -> prog_run cf l (PRun c0) = (PRun cl, tr) -> prog_status (PRun cl) = None ->
  unused a tr -> in_place (cf_sha1 cf) M tr -> no_known_collision (cf_sha1 cf) M N c tr ->
  exists l2 p2 tr2, Forall sends_bytes l2 /\ ~ In KSignal l2 /\ prog_run cf l2 (PRun cl) = (p2, tr2) /\ prog_status p2 = None /\ complete (cf_sha1 cf) M (prog_fs p2) ps N.
Proof.
  intros HO Hd Hf HT HS Ho HPl HD HL HTo HPL HN32 HC H20 Hu Hh Hr Ha HB HSg HR HSt HUn HI HK.
  destruct (download_started _ _ _ _ _ _ _ _ _ _ _ _ _ HS Hd Hf HT) as (f1 & t & HN & E). pose proof (places_of _ _ _ _ _ _ _ _ _ _ HN Ho HPl) as EP. subst ps c0.
  destruct (trackers_new _ _ _ _ _ _ _ _ _ HN) as [_ HTr]. destruct (new_fields _ _ _ _ _ _ _ _ _ HN) as (_ & _ & EH & _).
  assert (H20' : length (t_hash t) = 20%nat) by (rewrite EH; unfold zlen in H20; lia).
  assert (Hin : In u (order (t_trackers t))) by (eapply Permutation_in; [apply Permutation_sym, HO|]; now apply HTr). apply In_nth_error in Hin as [j Hj].
  cbn [prog_run] in HR. destruct (crun cf l _) as [c1 e1] eqn:EC. injection HR as -> ->.
  assert (HS' : Forall (fun x => x <> KSignal) l) by (apply Forall_forall; intros x Hx ->; contradiction).
  destruct (can_run f1 t cf _ u j r a Hj Hh H20' Hr Ha l cl tr EC HS' HSt HUn) as (l1 & c1 & e1 & k & F1 & R1 & U1 & S1 & K1).
  assert (RP : forall i off x, read_piece (tr ++ e1) i off x -> read_piece tr i off x).
  { intros i off x H. apply read_app in H as [H|(k0 & H)]; [exact H|]. now apply U1 in H. }
  destruct (rescued _ _ _ _ _ _ _ _ _ HN HD HL HTo HPL cf N c HN32 HC (order (t_trackers t)) k c1 (tr ++ e1)) as (l2 & c2 & e2 & A & B & R & S & C).
  - exists (l ++ l1). split; [rewrite crun_app, EC, R1; reflexivity|]. split; [apply Forall_app; split; [exact HB|]; eapply Forall_impl; [|exact F1]; intros x X; apply X|].
    split; [apply Forall_app; split; [exact HS'|]; eapply Forall_impl; [|exact F1]; intros x X; apply X|].
    split; [intros i off x Hi Hoff H; apply (HI i off x Hi Hoff); now apply RP|]. split; [|now split].
    intros x y X Y. apply HK; [destruct X as [(i & off & X)|X]; [left; exists i, off; now apply RP|now right]|destruct Y as [(i & off & Y)|Y]; [left; exists i, off; now apply RP|now right]].
  - exists (l1 ++ l2), (PRun c2), (e1 ++ e2). split; [apply Forall_app; split; [|exact A]; eapply Forall_impl; [|exact F1]; intros x X; apply X|].
    split; [intros X; apply in_app_or in X as [X|X]; [rewrite Forall_forall in F1; destruct (F1 _ X); congruence|rewrite Forall_forall in B; exact (B _ X)]|].
    split; [cbn [prog_run]; rewrite crun_app, R1, R; reflexivity|]. split; [exact S|exact C].
Qed.
