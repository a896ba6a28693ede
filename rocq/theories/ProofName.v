(* Peers given by their names: C170.                                           *)
From Verif Require Import Base ProofBase SpecBencode ModelBencode SpecText ModelUnmarshal ModelBitset ModelMsg ModelTorrent ModelConn ModelStats ModelPeer ModelSystem ModelTracker ModelManager ModelClient
  SpecUnmarshal SpecTracker SpecManager SpecClient SpecCrash SpecOrigin SpecDoom ModelAddr SpecAddr SpecName ProofAddr ProofTracker ProofTracker2 ProofSystem ProofProgress ProofManager ProofClient ProofClient2 ProofClient3 ProofClient6 ProofClient7 ProofCrash ProofDoom.

(* ---------- the text of an invalid address is no other's ---------- *)
Lemma digits_aux_no f : forall n acc, ~ In 105 acc -> ~ In 105 (digits_aux f n acc).
Proof.
  induction f as [|f IH]; intros n acc H; [exact H|]. cbn [digits_aux]. assert (X : ~ In 105 ((48 + n mod 10) :: acc)).
  { intros [E|E]; [|exact (H E)]. pose proof (Z.mod_pos_bound n 10 ltac:(lia)). lia. }
  destruct (n / 10 =? 0); [exact X|apply IH; exact X].
Qed.
Lemma utoa_no_i n : ~ In 105 (utoa n).
Proof. apply digits_aux_no. intros []. Qed.
Lemma none_only a : apString a = apString None -> a = None.
Proof.
  destruct a as [[[b|s] p]|]; [|intros H; vm_compute in H; discriminate|reflexivity]. intros H. exfalso.
  assert (X : In 105 (apString (Some (V4 b, p)))) by (rewrite H; now left). cbn [apString] in X. apply in_app_or in X as [X|[X|X]]; [|discriminate|exact (utoa_no_i _ X)].
  unfold dotted in X. destruct b as [|x [|y [|z [|w [|]]]]]; try contradiction.
  repeat (apply in_app_or in X as [X|[X|X]]; [exact (utoa_no_i _ X)|discriminate|]). exact (utoa_no_i _ X).
Qed.

(* ---------- a peer without an address has no connection ---------- *)
Definition ninv (g : mgr) : Prop := forall p, In p (g_peers g) -> mp_addr p = None -> mp_conn p = None.
Lemma ninv_upd g k p c s : ninv g -> nth_error (g_peers g) k = Some p -> (mp_addr p = None -> c = None) -> forall q, In q (upd (g_peers g) k (mkMp (mp_addr p) c s)) -> mp_addr q = None -> mp_conn q = None.
Proof.
  intros H Hp HC q Hq. apply In_nth_error in Hq as [n Hn]. apply nth_upd in Hn as [[_ ->]|[_ Hn]]; [exact HC|apply H; eapply nth_error_In; exact Hn].
Qed.
Lemma ninv_failed g k : ninv g -> ninv (peer_failed g k).
Proof.
  intros H. unfold peer_failed. destruct (nth_error (g_peers g) k) as [p|] eqn:E; [|exact H]. unfold ninv. cbn [set_num set_peers g_peers].
  apply (ninv_upd g k p _ _ H E). apply H. eapply nth_error_In; exact E.
Qed.
Lemma ninv_after g j k n ips : ninv g -> ninv (after_failure g j k n ips).
Proof. intros H. unfold after_failure. destruct (Nat.eqb n 4); [|exact H]. exact (ninv_failed g k H). Qed.
Lemma tstep_ninv g j pc i g' es : ninv g -> tstep g j pc i = Some (g', es) -> ninv g'.
Proof.
  intros H T. destruct pc as [| |n|n|[|a ips]|n ips|n x ips|n x ips|n x ips| |]; cbn [tstep] in T.
  - inversion T; subst. exact H.
  - destruct (g_cancel g); inversion T; subst; exact H.
  - destruct (i_ann i); inversion T; subst; exact H.
  - destruct (i_timer i); [|destruct (g_cancel g)]; inversion T; subst; exact H.
  - inversion T; subst. exact H.
  - unfold AddPeer in T. destruct (g_pool g) as [m|]; [|inversion T; subst; exact H]. destruct (pool_get m (apString a)); inversion T; subst; [exact H|].
    intros p Hp. cbn [set_trk g_peers] in Hp. apply in_app_or in Hp as [Hp|[<-|[]]]; [exact (H p Hp)|reflexivity].
  - destruct (g_cancel g); inversion T; subst; [exact (ninv_failed g n H)|exact H].
  - destruct (nth_error (g_peers g) n) as [p|] eqn:E; [|discriminate]. destruct (i_dial i && _) eqn:D; inversion T; subst.
    + intros q. cbn [g_peers]. apply (ninv_upd g n p _ _ H E). intros X. rewrite X, andb_false_r in D. discriminate.
    + apply ninv_after. intros q. cbn [set_peers g_peers]. apply (ninv_upd g n p _ _ H E). reflexivity.
  - destruct (i_shake i); [|inversion T; subst; apply ninv_after; exact H]. destruct (nth_error (g_peers g) n) as [p|] eqn:E; inversion T; subst.
    intros q. cbn [set_trk set_peers g_peers]. apply (ninv_upd g n p _ _ H E). apply H. eapply nth_error_In; exact E.
  - destruct (i_timer i); [inversion T; subst; exact H|]. destruct (g_cancel g); inversion T; subst. exact (ninv_failed g n H).
  - destruct (i_timer i); [|destruct (g_cancel g)]; inversion T; subst; exact H.
  - discriminate.
Qed.
Lemma gexec_ninv a g g' es : ninv g -> gexec a g = (g', es) -> ninv g'.
Proof.
  intros H E. unfold gexec in E. destruct (g_panic g); [inversion E; subst; exact H|]. destruct a as [n|j i|n| | |].
  - destruct (g_started g); inversion E; subst; exact H.
  - destruct (nth_error (g_trk g) j) as [pc|]; [|inversion E; subst; exact H]. destruct (tstep g j pc i) as [[g1 e1]|] eqn:T; inversion E; subst; [eapply tstep_ninv; eassumption|exact H].
  - destruct (nth_error (g_peers g) n) as [p|] eqn:N; [|inversion E; subst; exact H]. destruct (mp_state p); inversion E; subst; try exact H.
    intros q. cbn [set_peers g_peers]. apply (ninv_upd g n p _ _ H N). apply H. eapply nth_error_In; exact N.
  - inversion E; subst. exact H.
  - destruct (g_stop g); inversion E; subst; [exact H|]. unfold stop_check. destruct (g_pool g); [destruct (g_started g)|]; exact H.
  - destruct (g_stop g); inversion E; subst; [|exact H]. unfold stop_close. destruct (close_all _ _ _); exact H.
Qed.
Lemma reach_ninv cf c : reach cf c -> ninv (c_mgr c).
Proof.
  intros (t & f & outs & urls & l & tr & R). destruct (crun_mgr _ _ _ _ _ _ _ _ R) as (lg & G).
  refine (grun_inv (fun g _ => ninv g) (fun _ => True) _ _ _ lg _ _ _ G); [intros p []|intros; eapply gexec_ninv; eassumption|apply Forall_forall; auto].
Qed.

(* ---------- the addresses still to be handled ---------- *)
Definition rest (pc : tpc) : list addrport :=
  match pc with TInit ips | TPStart _ ips | TPDial _ _ ips | TPShake _ _ ips | TPBack _ _ ips => ips | _ => [] end.
Definition pend (j : nat) (g : mgr) : Prop := exists pc, nth_error (g_trk g) j = Some pc /\ In None (rest pc).
Definition over (j : nat) (g : mgr) : Prop := pend j g \/ exists k, stuck k g.
Lemma pend_set j g pc h ips : nth_error (g_trk g) j = Some pc -> g_trk h = g_trk g -> In None ips -> forall pc', rest pc' = ips -> pend j (set_trk h j pc').
Proof. intros H E HI pc' ER. exists pc'. split; [|rewrite ER; exact HI]. cbn [set_trk g_trk]. rewrite E. eapply nth_upd_same; exact H. Qed.
Lemma tstep_pend g tr j pc i g' es : ginv g tr -> ninv g -> g_pool g <> None -> nth_error (g_trk g) j = Some pc -> In None (rest pc) -> tstep g j pc i = Some (g', es) -> over j g'.
Proof.
  intros IV NV HP HJ HI T.
  assert (TF : forall h k, g_trk (peer_failed h k) = g_trk h) by (intros h k; unfold peer_failed; destruct (nth_error (g_peers h) k); reflexivity).
  assert (AF : forall h k n ips, g_trk h = g_trk g -> In None ips -> pend j (after_failure h j k n ips)).
  { intros h k n ips E X. unfold after_failure. destruct (Nat.eqb n 4); [eapply (pend_set j g); [exact HJ|now rewrite TF|exact X|reflexivity]|eapply (pend_set j g); [exact HJ|exact E|exact X|reflexivity]]. }
  destruct pc as [| |n|n|[|a ips]|n ips|n x ips|n x ips|n x ips| |]; cbn [rest] in HI; try contradiction; cbn [tstep] in T.
  - unfold AddPeer in T. destruct (g_pool g) as [m|] eqn:Em; [|congruence]. destruct a as [a|].
    + destruct HI as [HI|HI]; [discriminate|]. left. destruct (pool_get m (apString (Some a))); inversion T; subst; (eapply (pend_set j g); [exact HJ|reflexivity|exact HI|reflexivity]).
    + destruct (pool_get m (apString None)) as [v|] eqn:Eg; inversion T; subst; right.
      * assert (X : In (apString None) (map fst m)) by (destruct (in_dec (list_eq_dec Z.eq_dec) (apString None) (map fst m)) as [X|X]; [exact X|]; apply pool_get_none in X; congruence).
        rewrite (proj1 (iv_pool _ _ IV _ Em)) in X. apply in_map_iff in X as (p & Hk & Hp). apply none_only in Hk. pose proof (NV p Hp Hk) as Hc.
        apply In_nth_error in Hp as [k Hk']. exists k. split; [cbn; congruence|]. exists p. split; [exact Hk'|]. split; [exact Hc|now right].
      * exists (length (g_peers g)). split; [cbn; congruence|]. exists (mkMp None None PsNew). cbn [set_trk g_peers]. split; [rewrite nth_error_app2, Nat.sub_diag by lia; reflexivity|]. split; [reflexivity|now right].
  - left. destruct (g_cancel g); inversion T; subst; (eapply (pend_set j g); [exact HJ|rewrite ?TF; reflexivity|exact HI|reflexivity]).
  - left. destruct (nth_error (g_peers g) n) as [p|]; [|discriminate]. destruct (i_dial i && _); inversion T; subst; [|apply AF; [reflexivity|exact HI]].
    eexists. split; [cbn [g_trk]; eapply nth_upd_same; exact HJ|exact HI].
  - left. destruct (i_shake i); [|inversion T; subst; apply AF; [reflexivity|exact HI]]. destruct (nth_error (g_peers g) n); inversion T; subst.
    eapply (pend_set j g); [exact HJ|reflexivity|exact HI|reflexivity].
  - left. destruct (i_timer i); [|destruct (g_cancel g)]; inversion T; subst; (eapply (pend_set j g); [exact HJ|rewrite ?TF; reflexivity|exact HI|reflexivity]).
Qed.
Lemma tstep_other g j pc i g' es j' : nth_error (g_trk g) j = Some pc -> tstep g j pc i = Some (g', es) -> j' <> j -> nth_error (g_trk g') j' = nth_error (g_trk g) j'.
Proof.
  intros HJ T N. assert (U : forall (l : list tpc) x, nth_error (upd l j x) j' = nth_error l j') by (intros l x; apply nth_upd_other; congruence).
  assert (TF : forall h k, g_trk (peer_failed h k) = g_trk h) by (intros h k; unfold peer_failed; destruct (nth_error (g_peers h) k); reflexivity).
  assert (S : forall h x, g_trk h = g_trk g -> nth_error (g_trk (set_trk h j x)) j' = nth_error (g_trk g) j') by (intros h x E; cbn [set_trk g_trk]; rewrite E; apply U).
  assert (AF : forall h k n ips, g_trk h = g_trk g -> nth_error (g_trk (after_failure h j k n ips)) j' = nth_error (g_trk g) j').
  { intros h k n ips E. unfold after_failure. destruct (Nat.eqb n 4); apply S; rewrite ?TF; exact E. }
  destruct pc as [| |n|n|[|a ips]|n ips|n x ips|n x ips|n x ips| |]; cbn [tstep] in T.
  - inversion T; subst. now apply S.
  - destruct (g_cancel g); inversion T; subst; now apply S.
  - destruct (i_ann i); inversion T; subst; try now apply S. reflexivity.
  - destruct (i_timer i); [|destruct (g_cancel g)]; inversion T; subst; now apply S.
  - inversion T; subst. now apply S.
  - unfold AddPeer in T. destruct (g_pool g) as [m|]; [|inversion T; subst; reflexivity]. destruct (pool_get m (apString a)); inversion T; subst; now apply S.
  - destruct (g_cancel g); inversion T; subst; apply S; rewrite ?TF; reflexivity.
  - destruct (nth_error (g_peers g) n) as [p|]; [|discriminate]. destruct (i_dial i && _); inversion T; subst; [cbn [g_trk]; apply U|now apply AF].
  - destruct (i_shake i); [|inversion T; subst; now apply AF]. destruct (nth_error (g_peers g) n); inversion T; subst. now apply S.
  - destruct (i_timer i); [|destruct (g_cancel g)]; inversion T; subst; apply S; rewrite ?TF; reflexivity.
  - destruct (i_timer i); [|destruct (g_cancel g)]; inversion T; subst; now apply S.
  - discriminate.
Qed.
Lemma gexec_over a g tr g' es j : ginv g tr -> ninv g -> g_pool g <> None -> gexec a g = (g', es) -> over j g -> over j g'.
Proof.
  intros IV NV HP E [(pc & HJ & HI)|(k & S)]; [|right; exists k; eapply gexec_stuck; eassumption].
  assert (SAME : forall h, g_trk h = g_trk g -> over j h) by (intros h X; left; exists pc; rewrite X; auto).
  unfold gexec in E. destruct (g_panic g); [inversion E; subst; now apply SAME|]. destruct a as [n|i x|n| | |].
  - destruct (g_started g) eqn:ST; inversion E; subst; [now apply SAME|]. rewrite (iv_started _ _ IV ST) in HJ. destruct j; discriminate.
  - destruct (nth_error (g_trk g) i) as [pc2|] eqn:HI2; [|inversion E; subst; now apply SAME]. destruct (tstep g i pc2 x) as [[g1 e1]|] eqn:T; inversion E; subst; [|now apply SAME].
    destruct (Nat.eq_dec j i) as [->|N]; [assert (pc2 = pc) by congruence; subst; eapply tstep_pend; eassumption|].
    left. exists pc. split; [rewrite (tstep_other _ _ _ _ _ _ j HI2 T N); exact HJ|exact HI].
  - destruct (nth_error (g_peers g) n) as [p|]; [|inversion E; subst; now apply SAME]. destruct (mp_state p); inversion E; subst; now apply SAME.
  - inversion E; subst. now apply SAME.
  - destruct (g_stop g); inversion E; subst; [now apply SAME|]. unfold stop_check. destruct (g_pool g); [destruct (g_started g)|]; now apply SAME.
  - destruct (g_stop g); inversion E; subst; [|now apply SAME]. unfold stop_close. destruct (close_all _ _ _); now apply SAME.
Qed.

(* ---------- the client ---------- *)
Lemma has_pool cf c : reach cf c -> waiting c -> g_pool (c_mgr c) <> None.
Proof.
  intros (t & f & outs & urls & l & tr & R) (_ & W & _) E. destruct (crun_mgr _ _ _ _ _ _ _ _ R) as (lg & RG). rewrite (nil_cancel _ _ _ _ RG E) in W. discriminate.
Qed.
Lemma cexec_over cf a c c' es j : reach cf c -> waiting c -> cexec cf a c = (c', es) -> over j (c_mgr c) -> over j (c_mgr c').
Proof.
  intros HR HW H O. destruct (reach_iv _ _ HR) as (tr & IV). destruct (cexec_mgr _ _ _ _ _ H) as [[-> _]|(x & G & _)]; [exact O|].
  eapply gexec_over; [exact IV|eapply reach_ninv; exact HR|eapply has_pool; eassumption|exact G|exact O].
Qed.
(* an announce: the goroutine was between TTry and TInit *)
Lemma ann_moves cf a c c' es j u q ips : cexec cf a c = (c', es) -> In (VHttp j u q ips) es ->
  (exists n, nth_error (g_trk (c_mgr c)) j = Some (TTry n)) /\ forall l, ips = Some l -> nth_error (g_trk (c_mgr c')) j = Some (TInit l).
Proof.
  intros HE HI. assert (MG : forall gs, ~ In (VHttp j u q ips) (map VMgr gs)) by (intros gs X; apply in_map_iff in X as (y & E & _); discriminate).
  destruct (cexec_move _ _ _ _ _ HE) as [[_ ->]|(D1 & D2 & M)]; [destruct HI|].
  destruct M; try (destruct HI; fail); try (apply MG in HI; contradiction).
  - destruct HI as [HI|HI]; [discriminate|apply MG in HI; contradiction].
  - destruct HI as [HI|HI]; [|apply MG in HI; contradiction]. subst e. unfold tracker_announce in H2. destruct (ct_trk tr) as [|ad id ev iv|ut]; [discriminate| |]; destruct rp as [h cn|tx1 tx2 key ok s]; try discriminate.
    + destruct (HttpAnnounce (cf_ip cf) h) as [i' res] eqn:EH. inversion H2; subst. split; [eauto|]. intros l0 EL. cbn [c_mgr].
      destruct res; inversion EL; subst. unfold gexec. assert (GP : g_panic (c_mgr c) = false) by (unfold dead in D1; destruct (g_panic (c_mgr c)); [rewrite ?orb_true_r in D1; cbn in D1; discriminate|reflexivity]).
      rewrite GP, H. cbn [ann_of ann_in tstep i_ann fst set_trk g_trk]. eapply nth_upd_same; exact H.
    + destruct (UdpAnnounce _ _ _ _ _ _ _ _ _) as [[? ?] ?]. inversion H2.
  - apply in_map_iff in HI as (y & E & _). discriminate.
Qed.
Lemma second_announce cf l : forall c c' tr j u q r, reach cf c -> waiting c -> Forall (fun a => a <> KSignal) l -> over j (c_mgr c) -> crun cf l c = (c', tr) -> In (VHttp j u q r) tr ->
  exists k, stuck k (c_mgr c').
Proof.
  induction l as [|a l IH]; intros c c' tr j u q r HR HW HN O H HI; cbn [crun] in H; [inversion H; subst; destruct HI|].
  destruct (cexec cf a c) as [c1 e1] eqn:E1. destruct (crun cf l c1) as [c2 e2] eqn:E2. inversion H; subst. inversion HN; subst.
  pose proof (reach_step _ _ _ _ _ HR E1) as R1. pose proof (waiting_step _ _ _ _ _ H2 HW E1) as W1. apply in_app_or in HI as [HI|HI].
  - destruct (ann_moves _ _ _ _ _ _ _ _ _ E1 HI) as [(n & T) _]. destruct O as [(pc & HJ & X)|(k & S)]; [rewrite T in HJ; inversion HJ; subst; destruct X|].
    exists k. destruct (reach_iv _ _ HR) as (tr0 & IV). assert (S1 : stuck k (c_mgr c1)) by (destruct (cexec_mgr _ _ _ _ _ E1) as [[-> _]|(x & G & _)]; [exact S|eapply gexec_stuck; eassumption]).
    eapply (stuck_run _ _ _ _ _ _ R1 E2). split; [|exact S1]. revert W1; unfold waiting; tauto.
  - eapply IH; [exact R1|exact W1|assumption| |exact E2|exact HI]. exact (cexec_over _ _ _ _ _ _ HR HW E1 O).
Qed.
Lemma split_at cf l : forall c c' tr t1 j u q ips t2, crun cf l c = (c', tr) -> tr = t1 ++ VHttp j u q (Some ips) :: t2 ->
  exists l1 a l2 c1 c2 e1 e2, l = l1 ++ a :: l2 /\ crun cf l1 c = (c1, t1) /\ cexec cf a c1 = (c2, VHttp j u q (Some ips) :: e1) /\ Forall silent e1 /\ crun cf l2 c2 = (c', e2) /\ t2 = e1 ++ e2.
Proof.
  induction l as [|a l IH]; intros c c' tr t1 j u q ips t2 HR HT; cbn [crun] in HR; [inversion HR; subst; destruct t1; discriminate|].
  destruct (cexec cf a c) as [c1 e1] eqn:E1. destruct (crun cf l c1) as [c2 e2] eqn:E2. inversion HR; subst c2. subst tr. clear HR.
  assert (AFTER : ~ In (VHttp j u q (Some ips)) e1 -> e1 ++ e2 = t1 ++ VHttp j u q (Some ips) :: t2 ->
    exists l1 a0 l2 c3 c2 e3 e4, a :: l = l1 ++ a0 :: l2 /\ crun cf l1 c = (c3, t1) /\ cexec cf a0 c3 = (c2, VHttp j u q (Some ips) :: e3) /\ Forall silent e3 /\ crun cf l2 c2 = (c', e4) /\ t2 = e3 ++ e4).
  { intros N H. destruct (cut_app _ _ _ _ _ H N) as (t1' & -> & E). destruct (IH _ _ _ _ _ _ _ _ _ E2 E) as (l1 & a0 & l2 & c3 & c4 & e3 & e4 & -> & A & B).
    exists (a :: l1), a0, l2, c3, c4, e3, e4. split; [reflexivity|]. split; [|exact B]. cbn [crun]. rewrite E1, A. reflexivity. }
  destruct (step_announce _ _ _ _ _ E1) as [S|(j0 & r & e & es' & -> & -> & S & M)].
  - apply AFTER; [|congruence]. intros X. exact (silent_in _ _ S X).
  - destruct t1 as [|y t1].
    + cbn in H1. inversion H1; subst. exists [], (KAnn j0 r), l, c, c1, es', e2. repeat split; auto.
    + cbn in H1. injection H1 as EY H3. subst y. assert (N : ~ In (VHttp j u q (Some ips)) es') by (intros X; exact (silent_in _ _ S X)).
      destruct (cut_app _ _ _ _ _ H3 N) as (t1' & -> & E). destruct (IH _ _ _ _ _ _ _ _ _ E2 E) as (l1 & a0 & l2 & c3 & c4 & e3 & e4 & -> & A & B).
      exists (KAnn j0 r :: l1), a0, l2, c3, c4, e3, e4. split; [reflexivity|]. split; [|exact B]. cbn [crun]. rewrite E1, A. reflexivity.
Qed.
Lemma name_given cf t f outs urls l c tr t1 j u q ips t2 u' q' r' :
  crun cf l (client_start cf t f outs urls) = (c, tr) -> ~ In KSignal l -> tr = t1 ++ VHttp j u q (Some ips) :: t2 -> In None ips -> In (VHttp j u' q' r') t2 -> given_up c.
Proof.
  intros HR HS HT HI H2. assert (N : Forall (fun a => a <> KSignal) l) by (apply Forall_forall; intros a Ha ->; contradiction).
  destruct (split_at _ _ _ _ _ _ _ _ _ _ _ HR HT) as (l1 & a & l2 & c1 & c2 & e1 & e2 & -> & R1 & E & S & R2 & ->).
  apply Forall_app in N as [N1 N2]. inversion N2; subst.
  assert (W1 : waiting c1) by (refine (crun_inv cf (fun c _ => waiting c) (fun a => a <> KSignal) _ _ _ l1 c1 t1 N1 R1); [repeat split; now left|intros; eapply waiting_step; eassumption]).
  assert (RC : reach cf c1) by (repeat eexists; exact R1). pose proof (reach_step _ _ _ _ _ RC E) as RC2. pose proof (waiting_step _ _ _ _ _ H1 W1 E) as W2.
  destruct (ann_moves _ _ _ _ _ _ _ _ _ E (or_introl eq_refl)) as [_ T]. specialize (T _ eq_refl).
  apply in_app_or in H2 as [H2|H2]; [destruct (silent_in _ _ S H2)|].
  destruct (second_announce cf l2 c2 c e2 j u' q' r' RC2 W2 H3 ltac:(left; eexists; split; [exact T|exact HI]) R2 H2) as (k & _ & p & Hp & O).
  exists p. split; [eapply nth_error_In; exact Hp|exact O].
Qed.
(* ---------- what the tracker sent ---------- *)
Lemma entry_none parse_ip v a : entry_of parse_ip v a -> (a = None <-> no_address parse_ip v).
Proof.
  intros (m & ip & port & [r D] & L1 & N1 & L2 & N2 & H). split.
  - intros ->. destruct H as [(x & n & _ & _ & _ & X)|[H _]]; [discriminate|]. exists m, ip, port. split; [exists r; exact D|]. auto.
  - intros (m' & ip' & port' & [r' D'] & L1' & L2' & X). rewrite D in D'. inversion D'; subst m' r'. rewrite L1 in L1'. rewrite L2 in L2'. inversion L1'; inversion L2'; subst ip' port'.
    destruct H as [(x & n & E & F & G & _)|[_ H]]; [|exact H]. destruct X as [X|X]; [congruence|]. exfalso. apply X. eauto.
Qed.
Lemma in_none parse_ip vs l : Forall2 (entry_of parse_ip) vs l -> (In None l <-> exists e, In e vs /\ no_address parse_ip e).
Proof.
  induction 1 as [|v a vs l H _ IH]; [split; [intros []|intros (e & [] & _)]|]. pose proof (entry_none _ _ _ H) as N. split.
  - intros [->|X]; [exists v; split; [now left|now apply N]|]. apply IH in X as (e & X & Y). exists e. split; [now right|exact Y].
  - intros (e & [->|X] & Y); [left; now apply N|right; apply IH; eauto].
Qed.
Lemma reply_names parse_ip b i l : fits b -> readPeers parse_ip b = (i, Ok l) -> (In None l <-> names parse_ip b).
Proof.
  intros Hf H. apply read_peers_ok in H; [|exact Hf]. destruct H as (m & raw & n & v & vs & Hp & _ & _ & _ & L & _ & [r IL] & F). rewrite (in_none _ _ _ F). split.
  - intros (e & X & Y). exists m, raw, v, vs, e. repeat (split; [assumption|]). split; [exists r; exact IL|auto].
  - intros (m' & raw' & v' & vs' & e & Hp' & L' & [r' IL'] & X & Y). assert (m' = m) by congruence. subst m'. assert (v' = v) by congruence. subst v'. assert (vs' = vs) by congruence. subst vs'. eauto.
Qed.
Lemma name_dooms cf t f outs urls l1 c1 t1 j b cn c2 u q ips e l2 c tr u' q' r' :
  crun cf l1 (client_start cf t f outs urls) = (c1, t1) -> ~ In KSignal l1 ->
  cexec cf (KAnn j (RHttp (HttpBody 200 (Some b)) cn)) c1 = (c2, VHttp j u q (Some ips) :: e) -> fits b -> names (cf_ip cf) b ->
  crun cf l2 c2 = (c, tr) -> ~ In KSignal l2 -> In (VHttp j u' q' r') tr -> given_up c.
Proof.
  intros R1 N1 E Hf HN R2 N2 HI.
  assert (X : In None ips).
  { destruct (step_announce _ _ _ _ _ E) as [S|(j0 & r & e0 & es' & EA & EE & _ & M)]; [inversion S; contradiction|]. injection EA as <- <-. injection EE as <- <-.
    destruct M as (_ & h & cn' & EH & M). injection EH as <- <-. cbn [HttpAnnounce] in M. change (negb (200 =? 200)) with false in M. cbv iota in M.
    destruct (readPeers (cf_ip cf) b) as [i res] eqn:ER. cbn [snd] in M. destruct res; inversion M; subst. exact (proj2 (reply_names _ _ _ _ Hf ER) HN). }
  eapply (name_given cf t f outs urls (l1 ++ KAnn j (RHttp (HttpBody 200 (Some b)) cn) :: l2) c (t1 ++ VHttp j u q (Some ips) :: e ++ tr) t1 j u q ips (e ++ tr)); [|intros Y; apply in_app_or in Y as [Y|[Y|Y]]; [auto|discriminate|auto]|reflexivity|exact X|apply in_or_app; right; exact HI].
  rewrite crun_app, R1. cbn [crun]. rewrite E, R2. reflexivity.
Qed.
Lemma name_run cf t f outs urls l1 c1 t1 a c2 e l2 c tr :
  crun cf l1 (client_start cf t f outs urls) = (c1, t1) -> ~ In KSignal l1 -> a <> KSignal -> cexec cf a c1 = (c2, e) -> crun cf l2 c2 = (c, tr) -> ~ In KSignal l2 ->
  crun cf (l1 ++ a :: l2) (client_start cf t f outs urls) = (c, t1 ++ e ++ tr) /\ ~ In KSignal (l1 ++ a :: l2).
Proof.
  intros R1 N1 NA E R2 N2. split; [rewrite crun_app, R1; cbn [crun]; rewrite E, R2; reflexivity|]. intros Y; apply in_app_or in Y as [Y|[Y|Y]]; auto.
Qed.
Lemma name_never_zero cf t f outs urls l1 c1 t1 j b cn c2 u q ips e l2 c tr u' q' r' l3 c3 tr3 :
  crun cf l1 (client_start cf t f outs urls) = (c1, t1) -> ~ In KSignal l1 ->
  cexec cf (KAnn j (RHttp (HttpBody 200 (Some b)) cn)) c1 = (c2, VHttp j u q (Some ips) :: e) -> fits b -> names (cf_ip cf) b ->
  crun cf l2 c2 = (c, tr) -> ~ In KSignal l2 -> In (VHttp j u' q' r') tr -> crun cf l3 c = (c3, tr3) -> client_status c3 <> Some 0.
Proof.
  intros R1 N1 E Hf HN R2 N2 HI R3. pose proof (name_dooms _ _ _ _ _ _ _ _ _ _ _ _ _ _ _ _ _ _ _ _ _ _ R1 N1 E Hf HN R2 N2 HI) as G.
  assert (NA : KAnn j (RHttp (HttpBody 200 (Some b)) cn) <> KSignal) by discriminate. destruct (name_run _ _ _ _ _ _ _ _ _ _ _ _ _ _ R1 N1 NA E R2 N2) as [R N]. eapply doomed; eassumption.
Qed.
Lemma name_crashes cf t f outs urls l1 c1 t1 j b cn c2 u q ips e l2 c tr u' q' r' l3 c3 tr3 s :
  crun cf l1 (client_start cf t f outs urls) = (c1, t1) -> ~ In KSignal l1 ->
  cexec cf (KAnn j (RHttp (HttpBody 200 (Some b)) cn)) c1 = (c2, VHttp j u q (Some ips) :: e) -> fits b -> names (cf_ip cf) b ->
  crun cf l2 c2 = (c, tr) -> ~ In KSignal l2 -> In (VHttp j u' q' r') tr -> crun cf l3 c = (c3, tr3) -> In KSignal l3 -> cfair s -> exists n, client_status (cafter cf s n c3) = Some 2.
Proof.
  intros R1 N1 E Hf HN R2 N2 HI R3 K F. pose proof (name_dooms _ _ _ _ _ _ _ _ _ _ _ _ _ _ _ _ _ _ _ _ _ _ R1 N1 E Hf HN R2 N2 HI) as G.
  assert (NA : KAnn j (RHttp (HttpBody 200 (Some b)) cn) <> KSignal) by discriminate. destruct (name_run _ _ _ _ _ _ _ _ _ _ _ _ _ _ R1 N1 NA E R2 N2) as [R N]. eapply doomed_ends; eassumption.
Qed.
(* netip.ParseAddr takes no host name *)
Lemma host_no_ip s : host_name s -> parse_ip s = None.
Proof.
  intros H. pose proof (names_exact s (str "1") H) as E. unfold bencode_entry in E. destruct (parse_ip s); [|reflexivity]. change (ParsePort (str "1")) with (Some 1) in E. discriminate.
Qed.
Lemma host_no_address v m i p : is_dict v m -> lookup (str "ip") m = Some i -> lookup (str "port") m = Some p -> host_name (text i) -> no_address parse_ip v.
Proof. intros H1 H2 H3 H4. exists m, i, p. repeat (split; [assumption|]). left. now apply host_no_ip. Qed.
