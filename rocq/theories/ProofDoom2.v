(* When the process can still end with status 0: C168.                         *)
From Verif Require Import Base ProofBase ModelBitset ModelMsg ModelTorrent ModelConn ModelStats ModelPeer ModelSystem ModelTracker ModelManager ModelClient
  SpecMsg SpecPeer SpecTorrent SpecFinish SpecManager SpecClient SpecCrash SpecOrigin SpecArrive SpecDoom
  ProofTorrent ProofSystem ProofProgress ProofMsg ProofVerified ProofWitness ProofManager ProofClient ProofClient2 ProofClient3 ProofClient4 ProofClient6 ProofClient7 ProofShutdown ProofArrive ProofRescue ProofCrash ProofDoom.
From Verif Require ProofSocket2 ProofSource.

(* ---------- who is without a connection ---------- *)
Definition hinv (g : mgr) : Prop :=
  (forall k p, nth_error (g_peers g) k = Some p -> mp_conn p = None ->
     mp_state p = PsFailed \/ mp_state p = PsNew /\ exists j pc, nth_error (g_trk g) j = Some pc /\ owner pc = Some k) /\
  (forall j k n ips, nth_error (g_trk g) j = Some (TPShake k n ips) -> exists p, nth_error (g_peers g) k = Some p /\ mp_conn p <> None).
Lemma hup g tr g' j pc pc' : ginv g tr -> hinv g -> nth_error (g_trk g) j = Some pc -> g_trk g' = upd (g_trk g) j pc' ->
  owner pc' = owner pc \/ owner pc' = None \/ owner pc' = Some (length (g_peers g)) ->
  (forall k p, owner pc <> Some k -> owner pc' <> Some k -> nth_error (g_peers g') k = Some p <-> nth_error (g_peers g) k = Some p) ->
  (forall k p, owner pc = Some k \/ owner pc' = Some k -> nth_error (g_peers g') k = Some p -> mp_conn p <> None \/ mp_state p = PsFailed \/ mp_state p = PsNew /\ owner pc' = Some k) ->
  (forall k n ips, pc' = TPShake k n ips -> exists p, nth_error (g_peers g') k = Some p /\ mp_conn p <> None) -> hinv g'.
Proof.
  intros IV [H1 H2] HJ ET HD HA HB HC. split.
  - intros k p Hp Hc. rewrite ET. assert (SJ : nth_error (upd (g_trk g) j pc') j = Some pc') by (eapply nth_upd_same; exact HJ).
    assert (D : (owner pc = Some k \/ owner pc' = Some k) \/ owner pc <> Some k /\ owner pc' <> Some k).
    { destruct (owner pc) as [x|], (owner pc') as [y|]; try (destruct (Nat.eq_dec x k) as [->|]); try (destruct (Nat.eq_dec y k) as [->|]); auto; right; split; congruence. }
    destruct D as [D|[D1 D2]].
    + destruct (HB k p D Hp) as [X|[X|[X Y]]]; [contradiction|now left|right]. split; [exact X|]. exists j, pc'. now split.
    + apply (HA k p D1 D2) in Hp. destruct (H1 _ _ Hp Hc) as [X|(X & j0 & pc0 & Y1 & Y2)]; [now left|right]. split; [exact X|]. exists j0, pc0. split; [|exact Y2].
      destruct (Nat.eq_dec j0 j) as [->|NE]; [rewrite HJ in Y1; congruence|]. now rewrite nth_upd_other by congruence.
  - intros j0 k n ips Hj. rewrite ET in Hj. destruct (Nat.eq_dec j0 j) as [->|NE].
    + rewrite (nth_upd_same _ _ _ _ HJ) in Hj. injection Hj as ->. eapply HC. reflexivity.
    + rewrite nth_upd_other in Hj by congruence. destruct (H2 _ _ _ _ Hj) as (p & Hp & Hc). exists p. split; [|exact Hc].
      assert (D1 : owner pc <> Some k). { intros X. apply NE. exact (iv_sole _ _ IV _ _ _ _ k Hj HJ eq_refl X). }
      apply HA; [exact D1| |exact Hp]. destruct HD as [->|[->| ->]]; [exact D1|discriminate|]. intros X. injection X as <-. assert (Y : nth_error (g_peers g) (length (g_peers g)) = None) by (apply nth_error_None; lia). congruence.
Qed.
Lemma tstep_hinv g tr j pc i g' es : ginv g tr -> nth_error (g_trk g) j = Some pc -> tstep g j pc i = Some (g', es) -> hinv g -> hinv g'.
Proof.
  intros IV HJ H HI. pose proof (fun n => iv_own _ _ IV j pc n HJ) as OW.
  (* the peers stay *)
  assert (SAME : forall h pc', g_trk h = upd (g_trk g) j pc' -> g_peers h = g_peers g -> owner pc' = owner pc -> (forall k n ips, pc' <> TPShake k n ips) -> hinv h).
  { intros h pc' E1 E2 E3 E4. eapply (hup g tr h j pc pc'); eauto; rewrite ?E2; [tauto| |intros k n ips X; now apply E4 in X].
    intros k p [X|X] Hp; rewrite ?E3 in *; destruct (OW k ltac:(congruence)) as (q & Hq & Sq); right; right; split; congruence. }
  (* the peer of this goroutine changes *)
  assert (OWN : forall h pc' k p', owner pc = Some k -> g_trk h = upd (g_trk g) j pc' -> g_peers h = upd (g_peers g) k p' -> owner pc' = Some k \/ owner pc' = None ->
    mp_conn p' <> None \/ mp_state p' = PsFailed \/ mp_state p' = PsNew /\ owner pc' = Some k -> (forall k n ips, pc' = TPShake k n ips -> mp_conn p' <> None) -> hinv h).
  { intros h pc' k p' EO E1 E2 E3 E4 E5. destruct (OW k EO) as (q & Hq & Sq). pose proof (nth_upd_same _ _ p' _ Hq) as NS.
    eapply (hup g tr h j pc pc'); eauto; rewrite ?E2.
    - destruct E3 as [E3|E3]; rewrite E3; auto.
    - intros k0 p0 D _. rewrite nth_upd_other by congruence. tauto.
    - intros k0 p0 D Hp. assert (k0 = k) as -> by (destruct E3, D; congruence). rewrite NS in Hp. injection Hp as <-. exact E4.
    - intros k0 n ips ->. exists p'. split; [|now apply (E5 k0 n ips)]. destruct E3 as [E3|E3]; [|discriminate]. injection E3 as ->. exact NS. }
  assert (FAIL : forall h k ips pc', owner pc = Some k -> g_trk h = g_trk g -> (exists p, nth_error (g_peers h) k = Some p /\ forall st, upd (g_peers h) k (mkMp (mp_addr p) (mp_conn p) st) = upd (g_peers g) k (mkMp (mp_addr p) (mp_conn p) st)) ->
     pc' = TInit ips -> hinv (set_trk (peer_failed h k) j pc')).
  { intros h k ips pc' EO E1 (p & E2 & E3) ->. unfold peer_failed. rewrite E2. eapply (OWN _ (TInit ips) k (mkMp (mp_addr p) (mp_conn p) PsFailed) EO); cbn; [now rewrite E1|apply E3|now right|right; now left|discriminate]. }
  destruct pc as [| |n|n|[|a ips]|n ips|n x ips|n x ips|n x ips| |]; cbn [tstep] in H.
  - inversion H; subst. destruct (i_new i); (eapply SAME; [reflexivity|reflexivity|reflexivity|discriminate]).
  - destruct (g_cancel g); inversion H; subst; (eapply SAME; [reflexivity|reflexivity|reflexivity|discriminate]).
  - assert (EQ : exists pc', g' = set_trk g j pc' /\ owner pc' = None \/ hinv g').
    { destruct (i_ann i); inversion H; subst; [eexists; left; split; reflexivity| | |exists TEnd; right; exact HI]; eexists; left; (split; [reflexivity|]); destruct (Nat.eqb n 4); try destruct (g_cancel g); reflexivity. }
    destruct EQ as (pc' & [[-> EO]|EQ]); [|exact EQ]. eapply SAME; [reflexivity|reflexivity|exact EO|intros k n0 ips ->; discriminate].
  - destruct (i_timer i); [|destruct (g_cancel g)]; inversion H; subst; (eapply SAME; [reflexivity|reflexivity|reflexivity|discriminate]).
  - inversion H; subst. eapply SAME; [reflexivity|reflexivity|reflexivity|discriminate].
  - unfold AddPeer in H. destruct (g_pool g) as [m|] eqn:Em; [|inversion H; subst; exact HI]. destruct (pool_get m (apString a)); inversion H; subst; [eapply SAME; [reflexivity|reflexivity|reflexivity|discriminate]|].
    eapply (hup g tr _ j (TInit (a :: ips)) (TPStart (length (g_peers g)) ips)); eauto; cbn; [| |discriminate].
    + intros k p _ D. assert (k <> length (g_peers g)) by congruence. destruct (Nat.lt_ge_cases k (length (g_peers g))); [rewrite nth_error_app1 by lia; tauto|].
      assert (N1 : nth_error (g_peers g) k = None) by (apply nth_error_None; lia).
      assert (N2 : forall x, nth_error (g_peers g ++ [x]) k = None) by (intros; apply nth_error_None; rewrite app_length; cbn; lia). rewrite N1, N2. tauto.
    + intros k p [D|D] Hp; [discriminate|]. injection D as <-. rewrite nth_error_app2, Nat.sub_diag in Hp by lia. injection Hp as <-. right; right. now split.
  - destruct (OW n eq_refl) as (p & Hp & Sp). destruct (g_cancel g); inversion H; subst; [|eapply SAME; [reflexivity|reflexivity|reflexivity|discriminate]].
    eapply FAIL; eauto.
  - destruct (OW n eq_refl) as (p & Hp & Sp). rewrite Hp in H. destruct (i_dial i && _).
    + inversion H; subst. eapply (OWN _ (TPShake n x ips) n (mkMp (mp_addr p) (Some (length (g_conns g))) (mp_state p))); cbn; auto; try (left; discriminate); intros; discriminate.
    + inversion H; subst. unfold after_failure. destruct (Nat.eqb x 4).
      * eapply FAIL; cbn [set_peers g_trk g_peers]; eauto. exists (mkMp (mp_addr p) None (mp_state p)). split; [eapply nth_upd_same; exact Hp|]. cbn. intros st.
        clear. revert n. induction (g_peers g) as [|y l IH]; intros [|n]; cbn; auto. now rewrite IH.
      * eapply (OWN _ (TPBack n x ips) n (mkMp (mp_addr p) None (mp_state p))); cbn; auto. discriminate.
  - destruct (OW n eq_refl) as (p & Hp & Sp). destruct (proj2 HI _ _ _ _ HJ) as (p0 & Hp0 & C0). rewrite Hp in Hp0. injection Hp0 as <-. destruct (i_shake i).
    + rewrite Hp in H. inversion H; subst. eapply (OWN _ (TInit ips) n (mkMp (mp_addr p) (mp_conn p) PsRun)); cbn; auto.
    + inversion H; subst. unfold after_failure. destruct (Nat.eqb x 4); [eapply FAIL; eauto|]. eapply SAME; [reflexivity|reflexivity|reflexivity|discriminate].
  - destruct (OW n eq_refl) as (p & Hp & Sp). destruct (i_timer i); [inversion H; subst; eapply SAME; [reflexivity|reflexivity|reflexivity|discriminate]|]. destruct (g_cancel g); inversion H; subst. eapply FAIL; eauto.
  - destruct (i_timer i); [|destruct (g_cancel g)]; inversion H; subst; (eapply SAME; [reflexivity|reflexivity|reflexivity|discriminate]).
  - discriminate.
Qed.
Lemma gexec_hinv g tr a g' es : ginv g tr -> gexec a g = (g', es) -> hinv g -> hinv g'.
Proof.
  intros IV H HI. unfold gexec in H. destruct (g_panic g) eqn:EP; [inversion H; subst; exact HI|]. destruct a as [n|j i|n| | |].
  - destruct (g_started g) eqn:ES; inversion H; subst; [exact HI|]. destruct HI as [H1 H2]. rewrite (iv_started _ _ IV ES) in H1. split; cbn.
    + intros k p Hp Hc. destruct (H1 k p Hp Hc) as [X|(_ & j & pc & X & _)]; [now left|]. destruct j; discriminate.
    + intros j k x ips X. apply nth_error_In, repeat_spec in X. discriminate.
  - destruct (nth_error (g_trk g) j) as [pc|] eqn:HJ; [|inversion H; subst; exact HI]. destruct (tstep g j pc i) as [[g1 e1]|] eqn:T; inversion H; subst; [|exact HI]. eapply tstep_hinv; eassumption.
  - destruct (nth_error (g_peers g) n) as [p|] eqn:E; [|inversion H; subst; exact HI]. destruct (mp_state p) eqn:SP; inversion H; subst; try exact HI.
    destruct HI as [H1 H2]. assert (C : mp_conn p <> None) by (intros X; destruct (H1 _ _ E X) as [Y|[Y _]]; congruence). split; cbn.
    + intros k q Hq Hc. destruct (nth_upd _ _ _ _ _ Hq) as [[-> ->]|[_ X]]; [contradiction|]. exact (H1 _ _ X Hc).
    + intros j k x ips X. destruct (H2 _ _ _ _ X) as (q & Hq & Hc). destruct (Nat.eq_dec k n) as [->|NE].
      * eexists. split; [eapply nth_upd_same; exact E|exact C].
      * exists q. now rewrite nth_upd_other by congruence.
  - inversion H; subst. exact HI.
  - destruct (g_stop g); inversion H; subst; [exact HI|]. unfold stop_check. destruct (g_pool g); [|exact HI]. destruct (g_started g); exact HI.
  - destruct (g_stop g); inversion H; subst; [|exact HI]. unfold stop_close. destruct (close_all _ _ _); exact HI.
Qed.
Lemma hinv_run cf t f outs urls l c tr : crun cf l (client_start cf t f outs urls) = (c, tr) -> hinv (c_mgr c).
Proof.
  intros HR. refine (proj2 (crun_inv cf (fun c tr => reach cf c /\ hinv (c_mgr c)) (fun _ => True) _ _ _ l c tr _ HR)).
  - split; [exists t, f, outs, urls, [], []; reflexivity|]. split; cbn; intros j k; destruct j; discriminate.
  - intros c1 t1 a c2 es (R1 & I1) _ E. split; [eapply reach_step; eassumption|]. destruct (reach_iv _ _ R1) as (gt & IV).
    destruct (cexec_mgr _ _ _ _ _ E) as [[-> _]|(x & G & _)]; [exact I1|]. eapply gexec_hinv; eassumption.
  - apply Forall_forall. auto.
Qed.

(* ---------- lists ---------- *)
Lemma count_upd {A} (q : A -> bool) l : forall k x y, nth_error l k = Some x -> q x = true -> q y = false -> length (filter q l) = S (length (filter q (upd l k y))).
Proof.
  induction l as [|z l IH]; intros [|k] x y H Hx Hy; cbn in *; try discriminate; [injection H as ->; now rewrite Hx, Hy|]. specialize (IH k x y H Hx Hy). destruct (q z); cbn; lia.
Qed.
Lemma count_zero {A} (q : A -> bool) l : length (filter q l) = 0%nat -> forall x, In x l -> q x = false.
Proof. intros H x Hx. destruct (q x) eqn:E; [|reflexivity]. assert (X : In x (filter q l)) by now apply filter_In. destruct (filter q l); [destruct X|discriminate]. Qed.
Lemma count_some {A} (q : A -> bool) l n : length (filter q l) = S n -> exists k x, nth_error l k = Some x /\ q x = true.
Proof.
  intros H. destruct (filter q l) as [|x r] eqn:E; [discriminate|]. assert (X : In x (filter q l)) by (rewrite E; now left). apply filter_In in X as [X Y]. apply In_nth_error in X as [k K]. eauto.
Qed.

Section zero.
  Variables (cf : conf) (t : torrent) (f : fs) (outs : list (option Z)) (urls : list bytes).
  Hypothesis OR : ordinary t.
  Let c0 := client_start cf t f outs urls.
  Definition goodr (c : client) (tr : list cev) : Prop := exists l, crun cf l c0 = (c, tr) /\ Forall sends_bytes l /\ Forall (fun a => a <> KSignal) l /\ client_status c = None.
  Lemma good_waiting c tr : goodr c tr -> waiting c.
  Proof. intros (l & HR & _ & N & _). refine (crun_inv cf (fun c _ => waiting c) (fun a => a <> KSignal) _ _ _ l c tr N HR); [repeat split; now left|intros; eapply waiting_step; eassumption]. Qed.
  Lemma good_reach c tr : goodr c tr -> reach cf c.
  Proof. intros (l & HR & _). repeat eexists; exact HR. Qed.
  Lemma good_dead c tr : goodr c tr -> dead c = false.
  Proof. intros (l & _ & _ & _ & H). unfold client_status in H. now destruct (dead c). Qed.
  Lemma good_exit c tr : goodr c tr -> c_exit c = false.
  Proof. intros G. exact (proj2 (proj2 (proj2 (good_waiting _ _ G)))). Qed.

  Definition quiet (a : cact) : Prop := match a with KWriter | KTrk _ _ => True | KPeer _ i => i = ProofWitness.go | _ => False end.
  Lemma quiet_step a c tr c' es : goodr c tr -> quiet a -> cexec cf a c = (c', es) -> goodr c' (tr ++ es).
  Proof.
    intros G Q E. pose proof G as (l & HR & HB & HS & _). pose proof (good_waiting _ _ G) as (W1 & W2 & W3 & W4). pose proof (good_reach _ _ G) as RC. pose proof (good_dead _ _ G) as DC.
    assert (NS : a <> KSignal) by (intros ->; exact Q).
    assert (SB : sends_bytes a) by (destruct a as [| | | | |? ?| |]; try exact I; cbn in *; subst; cbn; discriminate).
    assert (HR' : crun cf (l ++ [a]) c0 = (c', tr ++ es)) by now rewrite crun_snoc, HR, E.
    exists (l ++ [a]). split; [exact HR'|]. split; [apply Forall_app; auto|]. split; [apply Forall_app; auto|].
    assert (W' : waiting c') by (eapply waiting_step; [exact NS| |exact E]; repeat split; assumption).
    unfold client_status. rewrite (proj2 (proj2 (proj2 W'))). destruct (dead c') eqn:DD; [exfalso|reflexivity].
    replace c' with (fst (cexec cf a c)) in DD by now rewrite E. apply crash_exact in DD; auto; [|destruct a; exact I || contradiction].
    destruct (crun_mgr _ _ _ _ _ _ _ _ HR) as (lg & G1).
    assert (BT : Forall (cact_if True) l) by (eapply Forall_impl; [|exact HB]; intros b Hb; destruct b; cbn in *; auto).
    destruct (proj2 (crun_parts True _ _ _ _ _ BT HR)) as (ls & S1 & S2). cbn [c0 client_start c_wo] in S1.
    pose proof (static_run _ _ _ _ _ S1) as ST. cbn [w_t] in ST.
    inversion DD; subst; cbn in Q; try contradiction.
    - rewrite (nil_cancel _ _ _ _ G1 H1) in W2. discriminate.
    - subst i. discriminate.
    - pose proof (closed_ret _ _ _ _ _ S1 H2). destruct W1 as [W1|W1]; congruence.
    - assert (FI : Forall (fine (cf_sha1 cf) t) (handed (sevs tr))).
      { apply (all_verified (cf_sha1 cf) (mkW t f outs [] false) ls (c_wo c) (sevs tr)); [|exact S1]. eapply Forall_impl; [|exact S2]. intros b [X _]. auto. }
      destruct (announces_from cf (t_length t) (fun _ => 0%nat) (t_hash t) _ [] (start_cinv cf t f outs urls) (start_plain _ _ _ _ _) eq_refl _ _ _ HR) as (CI & _).
      assert (FM : fine (cf_sha1 cf) t m).
      { rewrite Forall_forall in FI. apply FI. pose proof (ci_hand _ _ _ _ CI) as Y. unfold hand in Y. cbn [app] in Y. rewrite Y. apply in_app_iff. right. rewrite (pend_hand _ _ H1). now left. }
      destruct FM as ((p & d0 & N1 & _) & (WI & WO) & _). change (w_t (sh_w (wo_sh (c_wo c)))) with (sh_t (wo_sh (c_wo c))) in H4.
      rewrite (write_data_static _ _ _ _ _ _ ST), (static_plen _ _ ST) in H4. revert H4. pose proof OR as (_ & _ & O3 & O4 & O5). apply write_ok; [exact OR|].
      assert (IX : 0 <= m_index m < zlen (t_pieces t)). { destruct (Z.le_gt_cases 0 (m_index m)); [|lia]. destruct (Z.lt_ge_cases (m_index m) (zlen (t_pieces t))); [lia|].
        assert (Y : nthZ (t_pieces t) (m_index m) = None) by (apply nthZ_none; lia). congruence. }
      assert (M1 : 0 <= m_index m * t_plen t <= zlen (t_pieces t) * t_plen t) by (split; [apply Z.mul_nonneg_nonneg; lia|apply Z.mul_le_mono_nonneg_r; lia]).
      rewrite (wrap64_small (m_index m * t_plen t)) by lia. rewrite wrap64_small by lia. lia.
  Qed.
  Lemma quiet_run l : forall c tr c' es, goodr c tr -> Forall quiet l -> crun cf l c = (c', es) -> goodr c' (tr ++ es).
  Proof.
    induction l as [|a l IH]; intros c tr c' es G HQ H; cbn [crun] in H; [inversion H; subst; now rewrite app_nil_r|].
    destruct (cexec cf a c) as [c1 e1] eqn:E1. destruct (crun cf l c1) as [c2 e2] eqn:E2. inversion H; subst. inversion HQ; subst. rewrite app_assoc. eapply IH; [eapply quiet_step; eassumption|assumption|exact E2].
  Qed.

  (* ---------- the peers that are being dialled are reached ---------- *)
  Definition unlinked (p : mpeer) : bool := match mp_conn p with None => true | _ => false end.
  Definition wellx : cin := mkCin [] true true [].
  Lemma trk_there c tr j pc : goodr c tr -> nth_error (g_trk (c_mgr c)) j = Some pc -> exists x, nth_error (c_trk c) j = Some x.
  Proof.
    intros (l & HR & _) H. assert (L : (length (g_trk (c_mgr c)) <= length (c_trk c))%nat).
    { refine (crun_inv cf (fun c _ => (length (g_trk (c_mgr c)) <= length (c_trk c))%nat) (fun _ => True) c0 _ _ l c tr _ HR); [cbn; lia|intros; eapply ProofSocket2.cexec_len; eassumption|apply Forall_forall; auto]. }
    destruct (nth_error (c_trk c) j) as [x|] eqn:E; [eauto|]. apply nth_error_None in E. assert (j < length (g_trk (c_mgr c)))%nat by (apply nth_error_Some; congruence). lia.
  Qed.
  Lemma trk_step c tr j pc g es : goodr c tr -> nth_error (g_trk (c_mgr c)) j = Some pc -> ProofSource.plain pc -> tstep (c_mgr c) j pc (tin_of false false wellx) = Some (g, es) ->
    exists c' e, cexec cf (KTrk j wellx) c = (c', e) /\ c_mgr c' = g.
  Proof.
    intros G H1 HP HT. destruct (trk_there _ _ _ _ G H1) as (x & H2).
    assert (P : g_panic (c_mgr c) = false) by (pose proof (good_dead _ _ G) as D; apply live_cases in D; tauto).
    unfold cexec. rewrite (good_dead _ _ G), (good_exit _ _ G). cbn [orb]. unfold ctrk_step. rewrite H1, H2.
    assert (E : fst (gexec (XTrk j (tin_of false false wellx)) (c_mgr c)) = g) by (unfold gexec; rewrite P, H1, HT; reflexivity).
    destruct pc; try contradiction; unfold with_mgr; do 2 eexists; (split; [reflexivity|exact E]).
  Qed.
  Definition linked (k : nat) (g g' : mgr) : Prop := exists p, nth_error (g_peers g) k = Some p /\ exists n, g_peers g' = upd (g_peers g) k (mkMp (mp_addr p) (Some n) (mp_state p)).
  Lemma dial_now c tr j k n ips p b : goodr c tr -> nth_error (g_trk (c_mgr c)) j = Some (TPDial k n ips) -> nth_error (g_peers (c_mgr c)) k = Some p -> mp_addr p = Some b ->
    exists l c' e, Forall quiet l /\ crun cf l c = (c', e) /\ linked k (c_mgr c) (c_mgr c').
  Proof.
    intros G HJ Hp Ha. destruct (trk_step c tr j _ (mkMgr (g_limit (c_mgr c)) (g_started (c_mgr c)) (g_cancel (c_mgr c)) (g_pool (c_mgr c))
                    (upd (g_peers (c_mgr c)) k (mkMp (mp_addr p) (Some (length (g_conns (c_mgr c)))) (mp_state p)))
                    (g_conns (c_mgr c) ++ [true]) (upd (g_trk (c_mgr c)) j (TPShake k n ips)) (g_num (c_mgr c)) (g_stop (c_mgr c)) (g_panic (c_mgr c))) [GDial j k] G HJ I) as (c' & e & E & M).
    - cbn [tstep tin_of i_dial wellx x_ok]. rewrite Hp, Ha. reflexivity.
    - exists [KTrk j wellx], c', (e ++ []). split; [repeat constructor|]. split; [cbn [crun]; now rewrite E|]. exists p. split; [exact Hp|]. rewrite M. cbn. eauto.
  Qed.
  Lemma dial_one c tr k p : goodr c tr -> ~ given_up c -> nth_error (g_peers (c_mgr c)) k = Some p -> mp_conn p = None ->
    exists l c' e, Forall quiet l /\ crun cf l c = (c', e) /\ linked k (c_mgr c) (c_mgr c').
  Proof.
    intros G NG Hp Hc. pose proof G as (l0 & HR & _). pose proof (hinv_run _ _ _ _ _ _ _ _ HR) as [H1 H2]. pose proof (good_waiting _ _ G) as (_ & NC & _ & _).
    assert (NO : mp_state p <> PsFailed /\ mp_addr p <> None). { split; intros X; apply NG; exists p; (split; [eapply nth_error_In; exact Hp|]); split; auto. }
    destruct NO as [N1 N2]. destruct (mp_addr p) as [b|] eqn:Ha; [|contradiction]. destruct (H1 _ _ Hp Hc) as [X|(_ & j & pc & HJ & HO)]; [contradiction|].
    assert (VIA : forall g es n ips, ProofSource.plain pc -> tstep (c_mgr c) j pc (tin_of false false wellx) = Some (g, es) -> g = set_trk (c_mgr c) j (TPDial k n ips) ->
      exists l c' e, Forall quiet l /\ crun cf l c = (c', e) /\ linked k (c_mgr c) (c_mgr c')).
    { intros g es n ips PL T ->. destruct (trk_step _ _ _ _ _ _ G HJ PL T) as (c1 & e1 & E1 & M1). pose proof (quiet_step (KTrk j wellx) _ _ _ _ G I E1) as G1.
      destruct (dial_now c1 _ j k n ips p b G1) as (l & c2 & e2 & Q & E2 & L); [rewrite M1; cbn; eapply nth_upd_same; exact HJ|rewrite M1; exact Hp|exact Ha|].
      exists (KTrk j wellx :: l), c2, (e1 ++ e2). split; [constructor; [exact I|exact Q]|]. split; [cbn [crun]; now rewrite E1, E2|]. rewrite M1 in L. exact L. }
    destruct pc as [| |n|n|ips|n ips|n x ips|n x ips|n x ips| |]; try discriminate; cbn [owner] in HO; injection HO as ->.
    - eapply (VIA _ _ 0%nat ips I); [|reflexivity]. cbn [tstep]. rewrite NC. reflexivity.
    - eapply dial_now; eassumption.
    - destruct (H2 _ _ _ _ HJ) as (q & Hq & C). congruence.
    - eapply (VIA _ _ (S x) ips I); [|reflexivity]. reflexivity.
  Qed.
  Lemma dial_all n : forall c tr, goodr c tr -> ~ given_up c -> length (filter unlinked (g_peers (c_mgr c))) = n ->
    exists l c' e, Forall quiet l /\ crun cf l c = (c', e) /\ forall p, In p (g_peers (c_mgr c')) -> mp_conn p <> None.
  Proof.
    induction n as [|n IH]; intros c tr G NG HN.
    - exists [], c, []. split; [constructor|]. split; [reflexivity|]. intros p Hp X. pose proof (count_zero _ _ HN _ Hp) as Y. unfold unlinked in Y. rewrite X in Y. discriminate.
    - destruct (count_some _ _ _ HN) as (k & p & Hp & U). assert (Hc : mp_conn p = None) by (unfold unlinked in U; destruct (mp_conn p); [discriminate|reflexivity]).
      destruct (dial_one _ _ _ _ G NG Hp Hc) as (l1 & c1 & e1 & Q1 & E1 & (p1 & Hp1 & m & L)). rewrite Hp in Hp1. injection Hp1 as <-.
      pose proof (quiet_run _ _ _ _ _ G Q1 E1) as G1.
      destruct (IH c1 _ G1) as (l2 & c2 & e2 & Q2 & E2 & F).
      + intros (q & Hq & D). rewrite L in Hq. apply In_nth_error in Hq as [i Hi]. destruct (nth_upd _ _ _ _ _ Hi) as [[-> ->]|[_ Hq]]; [destruct D as [D _]; discriminate|].
        apply NG. exists q. split; [eapply nth_error_In; exact Hq|exact D].
      + pose proof (count_upd unlinked _ k p (mkMp (mp_addr p) (Some m) (mp_state p)) Hp U eq_refl) as X. rewrite <- L, HN in X. lia.
      + exists (l1 ++ l2), c2, (e1 ++ e2). split; [apply Forall_app; auto|]. split; [now rewrite crun_app, E1, E2|exact F].
  Qed.

  (* ---------- no peer has a message left ---------- *)
  Definition putting (r : rstate) : bool := match r_pc r with PPut _ _ => true | _ => false end.
  Lemma writer_only c c' es : cexec cf KWriter c = (c', es) -> es = [] /\ c_mgr c' = c_mgr c /\ wo_peers (c_wo c') = wo_peers (c_wo c).
  Proof.
    intros H. assert (X : wo_peers (fst (exec (cf_sha1 cf) AWriter (c_wo c))) = wo_peers (c_wo c)) by (unfold exec; destruct (crashed _); [reflexivity|]; destruct (wo_hand _); [|destruct (sh_ch _)]; reflexivity).
    apply cexec_move in H. destruct H as [[-> ->]|(_ & _ & M)]; [auto|]. inversion M; subst; cbn; auto.
  Qed.
  Lemma writers_only n : forall c c' es, crun cf (repeat KWriter n) c = (c', es) -> es = [] /\ c_mgr c' = c_mgr c /\ wo_peers (c_wo c') = wo_peers (c_wo c).
  Proof.
    induction n as [|n IH]; intros c c' es H; cbn [repeat crun] in H; [inversion H; subst; auto|].
    destruct (cexec cf KWriter c) as [c1 e1] eqn:E1. destruct (crun cf (repeat KWriter n) c1) as [c2 e2] eqn:E2. inversion H; subst.
    destruct (writer_only _ _ _ E1) as (-> & A & B). destruct (IH _ _ _ E2) as (-> & C & D). split; [reflexivity|]. split; congruence.
  Qed.
  Lemma drained2 c tr : goodr c tr -> exists n c', crun cf (repeat KWriter n) c = (c', []) /\ goodr c' tr /\ c_mgr c' = c_mgr c /\ wo_peers (c_wo c') = wo_peers (c_wo c) /\
    sh_ch (wo_sh (c_wo c')) = [] /\ wo_hand (c_wo c') = None.
  Proof.
    intros G. exists (4 * puts tr)%nat. destruct (crun cf (repeat KWriter (4 * puts tr)) c) as [c' es] eqn:E. destruct (writers_only _ _ _ _ E) as (-> & A & B). exists c'. split; [reflexivity|].
    assert (G' : goodr c' tr) by (rewrite <- (app_nil_r tr); eapply quiet_run; [exact G| |exact E]; apply Forall_forall; intros x X; apply repeat_spec in X; subst; exact I).
    split; [exact G'|]. split; [exact A|]. split; [exact B|]. destruct G as (l & HR & _). pose proof G' as (l' & HR' & _ & _ & HA').
    destruct (drains cf t f outs urls (puts tr) (repeat KWriter (4 * puts tr)) _ _ _ _ _ HR (le_n _) E HA') as [D1 D2].
    assert (TR : forall n, turns (repeat KWriter n) = n) by (unfold turns; induction n; cbn; auto). rewrite TR in D2.
    assert (F : (4 * puts tr <= far c')%nat) by (destruct (Nat.lt_ge_cases (far c) (4 * puts tr)) as [Q|Q]; [specialize (D2 Q); lia|lia]).
    destruct (crun_sys _ _ _ _ _ _ _ _ HR') as (ls & RS & _). destruct (writer_run _ _ _ _ _ RS) as [_ HH]. apply (f_equal (@length msg)) in HH. rewrite puts_handed, !app_length in HH.
    unfold far, phase, held in *. destruct (wo_hand (c_wo c')); [destruct (c_wr c'); cbn [length] in HH; exfalso; lia|]. split; [|reflexivity]. destruct (sh_ch (wo_sh (c_wo c'))); [reflexivity|cbn [length] in HH; lia].
  Qed.
  Lemma put_one c tr k r : goodr c tr -> sh_ch (wo_sh (c_wo c)) = [] -> nth_error (wo_peers (c_wo c)) k = Some r -> putting r = true ->
    exists c' e r', cexec cf (KPeer k ProofWitness.go) c = (c', e) /\ c_mgr c' = c_mgr c /\ wo_peers (c_wo c') = upd (wo_peers (c_wo c)) k r' /\ putting r' = false.
  Proof.
    intros G HC HK HP. pose proof (good_waiting _ _ G) as (W1 & _). destruct (reach_agree _ _ (good_reach _ _ G)) as [AG _]. pose proof G as (l & HR & _).
    destruct (crun_sys _ _ _ _ _ _ _ _ HR) as (ls & RS & _).
    assert (CL : sh_closed (wo_sh (c_wo c)) = false). { destruct (sh_closed (wo_sh (c_wo c))) eqn:X; [|reflexivity]. pose proof (closed_ret _ _ _ _ _ RS X). destruct W1; congruence. }
    destruct (nth_error (c_run c) k) as [p|] eqn:EP; [|exfalso; apply nth_error_None in EP; assert (k < length (wo_peers (c_wo c)))%nat by (apply nth_error_Some; congruence); lia].
    assert (CR : crashed (c_wo c) = false) by (pose proof (good_dead _ _ G) as D; apply live_cases in D; tauto).
    unfold putting in HP. destruct (r_pc r) as [ | | | | | | | | | | | | | | |u m| | ] eqn:PC; try discriminate.
    assert (PS : forall i, exists s' r' es, pstep (cf_sha1 cf) i (wo_sh (c_wo c)) r = Some (s', r', es) /\ (r_pc r' = PReq \/ r_pc r' = PTop)).
    { intros i. unfold pstep. rewrite PC, CL, HC. change (zlen (@nil msg) <? chan_cap) with true. cbn iota. do 3 eexists. split; [reflexivity|]. destruct u; cbn; auto. }
    unfold cexec. rewrite (good_dead _ _ G), (good_exit _ _ G). cbn [orb]. unfold peer_step. rewrite EP.
    match goal with |- context [exec _ (APeer k ?i) _] => destruct (PS i) as (s' & r' & es & E & PR) end.
    unfold exec. rewrite CR, HK, E. do 3 eexists. split; [reflexivity|]. cbn [c_mgr c_wo wo_peers]. split; [|split; [reflexivity|unfold putting; destruct PR as [-> | ->]; reflexivity]].
    unfold returned. cbn [wo_peers]. rewrite (nth_upd_same _ _ _ _ HK). destruct PR as [-> | ->]; reflexivity.
  Qed.
  Lemma settle n : forall c tr, goodr c tr -> length (filter putting (wo_peers (c_wo c))) = n ->
    exists l c' e, Forall quiet l /\ crun cf l c = (c', e) /\ c_mgr c' = c_mgr c /\ (forall r, In r (wo_peers (c_wo c')) -> putting r = false) /\ sh_ch (wo_sh (c_wo c')) = [] /\ wo_hand (c_wo c') = None.
  Proof.
    induction n as [|n IH]; intros c tr G HN; destruct (drained2 _ _ G) as (q & c1 & E1 & G1 & M1 & P1 & C1 & H1);
      assert (QW : Forall quiet (repeat KWriter q)) by (apply Forall_forall; intros x X; apply repeat_spec in X; subst; exact I).
    - exists (repeat KWriter q), c1, []. split; [exact QW|]. split; [exact E1|]. split; [exact M1|]. split; [|auto]. rewrite P1. now apply count_zero.
    - destruct (count_some _ _ _ HN) as (k & r & Hr & U). rewrite <- P1 in Hr. destruct (put_one _ _ _ _ G1 C1 Hr U) as (c2 & e2 & r2 & E2 & M2 & P2 & U2).
      pose proof (quiet_step (KPeer k ProofWitness.go) _ _ _ _ G1 eq_refl E2) as G2.
      pose proof (count_upd putting _ k r r2 Hr U U2) as X. rewrite <- P2, P1, HN in X.
      destruct (IH c2 _ G2) as (l3 & c3 & e3 & Q3 & E3 & M3 & F); [lia|].
      exists (repeat KWriter q ++ KPeer k ProofWitness.go :: l3), c3, (e2 ++ e3). split; [apply Forall_app; split; [exact QW|constructor; [reflexivity|exact Q3]]|].
      split; [rewrite crun_app, E1; cbn [crun]; rewrite E2, E3; reflexivity|]. split; [congruence|exact F].
  Qed.

  (* ---------- the end ---------- *)
  Definition calmed (c : client) : Prop := (forall p, In p (g_peers (c_mgr c)) -> mp_conn p <> None) /\ (forall r, In r (wo_peers (c_wo c)) -> putting r = false) /\
    sh_ch (wo_sh (c_wo c)) = [] /\ wo_hand (c_wo c) = None.
  Definition ending (a : cact) : Prop := match a with KMain | KSignal | KWriter => True | KPeer _ i => i = ProofWitness.go | _ => False end.
  Lemma pstep_calm i s r s' r' es : i_read i = None -> putting r = false -> pstep (cf_sha1 cf) i s r = Some (s', r', es) -> putting r' = false /\ sh_ch s' = sh_ch s.
  Proof.
    intros HI HP H. unfold putting in HP. unfold pstep in H. destruct (r_pc r) eqn:PC; try discriminate; rewrite ?HI in H; unfold wait, create, push, set_q, set_t, at_pc, with_peer in H;
      repeat match type of H with context [match ?x with _ => _ end] => destruct x; try discriminate end; inversion H; subst; split; reflexivity.
  Qed.
  Lemma conn_frame (g g' : mgr) : (g_peers g' = g_peers g \/ exists k p st, nth_error (g_peers g) k = Some p /\ g_peers g' = upd (g_peers g) k (mkMp (mp_addr p) (mp_conn p) st)) ->
    (forall p, In p (g_peers g) -> mp_conn p <> None) -> forall p, In p (g_peers g') -> mp_conn p <> None.
  Proof.
    intros [E|(k & q & st & Hq & E)] H p Hp; rewrite E in Hp; [auto|]. apply In_nth_error in Hp as [i Hi]. destruct (nth_upd _ _ _ _ _ Hi) as [[-> ->]|[_ X]]; [|eapply H, nth_error_In; exact X].
    cbn. eapply H, nth_error_In; exact Hq.
  Qed.
  Lemma runend_peers n g : g_peers (fst (gexec (XRunEnd n) g)) = g_peers g \/ exists k p st, nth_error (g_peers g) k = Some p /\ g_peers (fst (gexec (XRunEnd n) g)) = upd (g_peers g) k (mkMp (mp_addr p) (mp_conn p) st).
  Proof. unfold gexec. destruct (g_panic g); [now left|]. destruct (nth_error (g_peers g) n) as [p|] eqn:E; [|now left]. destruct (mp_state p); try now left. right. exists n, p, PsEnded. now split. Qed.
  Lemma calm_step a c c' es : reach cf c -> dead c = false -> calmed c -> ending a -> cexec cf a c = (c', es) -> dead c' = false /\ calmed c'.
  Proof.
    intros HR HD (K1 & K2 & K3 & K4) HA E. split.
    - destruct (c_exit c) eqn:HE; [unfold cexec in E; rewrite HE, orb_true_r in E; inversion E; subst; exact HD|].
      destruct (dead c') eqn:DD; [exfalso|reflexivity]. replace c' with (fst (cexec cf a c)) in DD by now rewrite E. apply crash_exact in DD; auto; [|destruct a; exact I || contradiction].
      inversion DD; subst; cbn in HA; try contradiction.
      + unfold conn_of in H4. destruct (reach_iv _ _ HR) as (gt & IV). destruct (iv_pool _ _ IV _ H2) as [_ SQ].
        assert (X : In k (seq 0 (length (g_peers (c_mgr c))))) by (rewrite <- SQ; apply in_map_iff; exists (a0, k); now split). apply in_seq in X.
        destruct (nth_error (g_peers (c_mgr c)) k) as [p|] eqn:Ep; [|apply nth_error_None in Ep; lia]. exact (K1 p (nth_error_In _ _ Ep) H4).
      + subst i. discriminate.
      + pose proof (K2 r (nth_error_In _ _ H0)) as X. unfold putting in X. rewrite H1 in X. discriminate.
      + congruence.
    - assert (WF : forall w, wo_peers w = wo_peers (c_wo c) -> sh_ch (wo_sh w) = sh_ch (wo_sh (c_wo c)) -> wo_hand w = wo_hand (c_wo c) ->
        (forall r, In r (wo_peers w) -> putting r = false) /\ sh_ch (wo_sh w) = [] /\ wo_hand w = None) by (intros w -> -> ->; auto).
      assert (SY : forall g, (forall r, In r (wo_peers (sync cf g (c_wo c))) -> putting r = false) /\ sh_ch (wo_sh (sync cf g (c_wo c))) = [] /\ wo_hand (sync cf g (c_wo c)) = None).
      { intros g. unfold sync. destruct (g_cancel g); [|auto]. unfold exec. destruct (crashed (c_wo c)); apply WF; reflexivity. }
      assert (MG : forall x, x = XStop \/ x = XStopClose \/ x = XCancel \/ (exists n, x = XDownload n) -> g_peers (fst (gexec x (c_mgr c))) = g_peers (c_mgr c)).
      { intros x X. unfold gexec. destruct (g_panic (c_mgr c)); [reflexivity|]. destruct X as [->|[->|[->|(n & ->)]]]; try reflexivity.
        - destruct (g_stop _); [reflexivity|]. cbn [fst]. unfold stop_check. destruct (g_pool _); [|reflexivity]. destruct (g_started _); reflexivity.
        - destruct (g_stop _); [|reflexivity]. cbn [fst]. unfold stop_close. destruct (close_all _ _ _); reflexivity.
        - destruct (g_started _); reflexivity. }
      assert (WR : fst (exec (cf_sha1 cf) AWriter (c_wo c)) = c_wo c) by (unfold exec; destruct (crashed _); [reflexivity|]; rewrite K3, K4; reflexivity).
      apply cexec_move in E. destruct E as [[-> _]|(_ & _ & M)]; [repeat split; assumption|].
      inversion M; subst; cbn in HA; try contradiction; unfold calmed, mgr_step, sys_step, cnt_step, end_step in *; cbn [c_mgr c_wo] in *; rewrite ?WR; try (repeat split; assumption);
        try (rewrite MG by eauto; split; [exact K1|apply SY]); try congruence.
      + split; [exact K1|]. unfold exec. destruct (crashed _); [auto|]. destruct (wo_main _); [destruct (_ =? _)|destruct (sh_cancel _)|..]; apply WF; reflexivity.
      + subst i. set (w' := fst (exec (cf_sha1 cf) (APeer k (inp_of c p ProofWitness.go)) (c_wo c))). split.
        { destruct (returned w' k); [|exact K1]. eapply conn_frame; [apply runend_peers|exact K1]. }
        assert (IR : i_read (inp_of c p ProofWitness.go) = None) by (unfold inp_of; destruct (conn_closed _ _); reflexivity).
        unfold w', exec. destruct (crashed (c_wo c)); [auto|]. destruct (nth_error (wo_peers (c_wo c)) k) as [r|] eqn:ER; [|auto]. destruct (pstep _ _ _ r) as [[[s' r'] es']|] eqn:PS; [|auto]. cbn.
        destruct (pstep_calm _ _ _ _ _ _ IR (K2 r (nth_error_In _ _ ER)) PS) as [Q1 Q2]. split; [|split; [congruence|exact K4]].
        intros r0 Hr. apply In_nth_error in Hr as [i0 Hi]. destruct (nth_upd _ _ _ _ _ Hi) as [[-> ->]|[_ X]]; [exact Q1|exact (K2 _ (nth_error_In _ _ X))].
  Qed.
  Lemma calm_run l : forall c c' es, reach cf c -> dead c = false -> calmed c -> Forall ending l -> crun cf l c = (c', es) -> dead c' = false.
  Proof.
    induction l as [|a l IH]; intros c c' es HR HD K HQ H; cbn [crun] in H; [inversion H; subst; exact HD|].
    destruct (cexec cf a c) as [c1 e1] eqn:E1. destruct (crun cf l c1) as [c2 e2] eqn:E2. inversion H; subst. inversion HQ; subst.
    destruct (calm_step _ _ _ _ HR HD K H2 E1) as [D1 K1]. eapply IH; [eapply reach_step; eassumption|exact D1|exact K1|assumption|exact E2].
  Qed.
  Lemma zero_possible l c tr : crun cf l c0 = (c, tr) -> Forall sends_bytes l -> ~ In KSignal l -> client_status c = None -> ~ given_up c ->
    exists l2 c2 e2, Forall (fun a => quiet a \/ ending a) l2 /\ crun cf l2 c = (c2, e2) /\ client_status c2 = Some 0.
  Proof.
    intros HR HB HS HA NG. assert (G : goodr c tr) by (exists l; repeat split; auto; apply Forall_forall; intros a Ha ->; contradiction).
    destruct (dial_all _ _ _ G NG eq_refl) as (l1 & c1 & e1 & Q1 & E1 & F1). pose proof (quiet_run _ _ _ _ _ G Q1 E1) as G1.
    destruct (settle _ _ _ G1 eq_refl) as (l2 & c2 & e2 & Q2 & E2 & M2 & F2). pose proof (quiet_run _ _ _ _ _ G1 Q2 E2) as G2.
    assert (K2 : calmed c2) by (split; [rewrite M2; exact F1|exact F2]). destruct (cexec cf KSignal c2) as [c3 e3] eqn:E3.
    pose proof (good_reach _ _ G2) as R2. destruct (calm_step KSignal _ _ _ R2 (good_dead _ _ G2) K2 I E3) as [D3 K3]. pose proof (reach_step _ _ _ _ _ R2 E3) as R3.
    pose proof G2 as (l' & HR2 & _). assert (HR3 : crun cf (l' ++ [KSignal]) c0 = (c3, ((tr ++ e1) ++ e2) ++ e3)) by now rewrite crun_snoc, HR2, E3.
    destruct (signal_ends cf t f outs urls _ _ _ cturns HR3) as (n & X); [apply in_or_app; right; now left|exact cturns_fair|].
    assert (EA : forall m, ending (cturns m)) by (intros m; unfold cturns; destruct (m - _)%nat as [|[|?]]; cbn; auto).
    unfold cafter in X. destruct (crun cf (map cturns (seq 0 n)) c3) as [c4 e4] eqn:E4. cbn [fst] in X.
    assert (D4 : dead c4 = false) by (eapply calm_run; [exact R3|exact D3|exact K3| |exact E4]; apply Forall_forall; intros a Ha; apply in_map_iff in Ha as (m & <- & _); apply EA).
    exists (l1 ++ l2 ++ KSignal :: map cturns (seq 0 n)), c4, (e1 ++ e2 ++ e3 ++ e4). split; [|split].
    - repeat (apply Forall_app; split); [eapply Forall_impl; [|exact Q1]; auto|eapply Forall_impl; [|exact Q2]; auto|]. constructor; [right; exact I|]. apply Forall_forall. intros a Ha. apply in_map_iff in Ha as (m & <- & _). right. apply EA.
    - rewrite crun_app, E1, crun_app, E2. cbn [crun]. rewrite E3, E4. reflexivity.
    - destruct X as [X|X]; [exact X|]. unfold client_status in X. rewrite D4 in X. destruct (c_exit c4); discriminate.
  Qed.
  Lemma mute_sends x : quiet x \/ ending x -> sends_bytes x.
  Proof. destruct x as [| | | | |? ?| |]; cbn; auto; try (intros [[]|[]]; fail). intros [->| ->]; discriminate. Qed.
  Lemma zero_exact l c tr : crun cf l c0 = (c, tr) -> Forall sends_bytes l -> ~ In KSignal l -> client_status c = None ->
    ((exists l2 c2 tr2, Forall sends_bytes l2 /\ crun cf l2 c = (c2, tr2) /\ client_status c2 = Some 0) <-> ~ given_up c).
  Proof.
    intros HR HB HS HA. split; [|intros NG; destruct (zero_possible l c tr HR HB HS HA NG) as (l2 & c2 & e2 & A & B); exists l2, c2, e2; split; [eapply Forall_impl; [apply mute_sends|exact A]|exact B]]. intros (l2 & c2 & tr2 & _ & E & Z) NG. revert Z. eapply doomed; eassumption.
  Qed.
End zero.
