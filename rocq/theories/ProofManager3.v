(* Lemmas about the pool of peers: limit, Stop, attempts, statistics.           *)
From Verif Require Import Base ProofBase SpecBencode ProofBencodeMore ModelTracker ModelSystem ModelManager SpecManager ProofSystem ProofProgress ProofManager ProofManager2.

(* ---------- C52 ---------- *)
Definition tgo : tin := mkTin true AnnErr true true true.
Definition told (ips : list addrport) : tin := mkTin true (AnnOk ips) true true true.
Lemma take_peers ips : forall g m, g_pool g = Some m -> g_cancel g = false -> g_panic g = false -> g_trk g = [TInit ips] ->
  NoDup (map apString ips) -> (forall a, In a ips -> ~ In (apString a) (map fst m)) -> ~ In None ips ->
  exists g' tr m', grun (repeat (XTrk 0 tgo) (4 * length ips)) g = (g', tr) /\ g_pool g' = Some m' /\ length m' = (length m + length ips)%nat /\
    g_panic g' = false.
Proof.
  induction ips as [|a ips IH]; intros g m Hm Hc Hp Ht ND NI NN.
  - exists g, [], m. cbn. repeat split; auto.
  - replace (4 * length (a :: ips))%nat with (4 + 4 * length ips)%nat by (cbn; lia). rewrite repeat_app, grun_app.
    inversion ND; subst.
    assert (G : pool_get m (apString a) = None) by (apply pool_get_none, NI; now left).
    destruct (grun (repeat (XTrk 0 tgo) 4) g) as [g1 e1] eqn:E1.
    assert (L : nth_error (g_peers g ++ [mkMp a None PsNew]) (length (g_peers g)) = Some (mkMp a None PsNew)) by (rewrite nth_error_app2, Nat.sub_diag by lia; reflexivity).
    destruct a as [ap|]; [|exfalso; apply NN; now left].
    cbn [repeat grun] in E1. unfold gexec at 1 in E1. rewrite Hp, Ht in E1. cbn [nth_error tstep] in E1. unfold AddPeer in E1. rewrite Hm, G in E1.
    unfold set_trk in E1. cbn in E1. rewrite Ht, Hc, Hp in E1. cbn in E1. unfold gexec in E1. cbn in E1. rewrite L in E1. cbn in E1.
    rewrite (nth_upd_same _ _ _ _ L) in E1. cbn in E1. inversion E1; subst g1 e1; clear E1.
    edestruct IH as (g' & tr & m' & R & P1 & P2 & P3); [..|rewrite R]; try reflexivity; try assumption.
    + intros b Hb. rewrite map_app. intros X. apply in_app_iff in X. destruct X as [X|[X|[]]]; [eapply NI; [right; exact Hb|exact X]|].
      apply H1. apply in_map_iff. exists b. split; [symmetry; exact X|exact Hb].
    + intros X. apply NN. now right.
    + eexists _, _, m'. split; [reflexivity|]. split; [exact P1|]. split; [rewrite P2, app_length; cbn; lia|]. auto.
Qed.
Definition many (n : nat) : list addrport := map (fun k => Some (V6 (str "fe80::1%" ++ utoa (Z.of_nat k)), 6881)) (seq 0 n).
Lemma many_ok n : Forall ap_ok (many n) /\ NoDup (map apString (many n)) /\ ~ In None (many n).
Proof.
  assert (F : Forall ap_ok (many n)). { apply Forall_forall. intros a Ha. apply in_map_iff in Ha. destruct Ha as (k & <- & _). cbn. lia. }
  split; [exact F|]. split.
  - unfold many. rewrite map_map. apply FinFun.Injective_map_NoDup; [|apply seq_NoDup]. intros x y E. apply apString_inj in E; [|cbn; lia..].
    inversion E. apply utoa_inj in H0; lia.
  - intros X. apply in_map_iff in X. destruct X as (k & E & _). discriminate.
Qed.
Lemma pool_unbounded limit n : exists l g tr m, Forall act_ok l /\ grun l (NewMng limit) = (g, tr) /\ g_panic g = false /\ g_pool g = Some m /\ length m = n.
Proof.
  destruct (many_ok n) as (M1 & M2 & M3).
  destruct (grun [XDownload 1; XTrk 0 tgo; XTrk 0 tgo; XTrk 0 (told (many n))] (NewMng limit)) as [g0 e0] eqn:E0.
  assert (Q : g_pool g0 = Some [] /\ g_cancel g0 = false /\ g_panic g0 = false /\ g_trk g0 = [TInit (many n)]) by (cbn in E0; inversion E0; auto).
  destruct Q as (Q1 & Q2 & Q3 & Q4). destruct (take_peers (many n) g0 [] Q1 Q2 Q3 Q4 M2) as (g & tr & m & R & P1 & P2 & P3); [intros ? ? []|exact M3|].
  exists ([XDownload 1; XTrk 0 tgo; XTrk 0 tgo; XTrk 0 (told (many n))] ++ repeat (XTrk 0 tgo) (4 * length (many n))).
  exists g, (e0 ++ tr), m. split; [|split; [|split; [|split]]].
  - apply Forall_app. split.
    + repeat constructor; cbn; try discriminate. intros ips E. inversion E; subst. exact M1.
    + apply Forall_forall. intros a Ha. apply repeat_spec in Ha. subst. cbn. discriminate.
  - rewrite grun_app, E0, R. reflexivity.
  - exact P3.
  - exact P1.
  - rewrite P2. cbn. unfold many. now rewrite map_length, seq_length.
Qed.
Lemma limit_refuted : ~ (forall limit l g tr m, 0 < limit -> Forall act_ok l -> grun l (NewMng limit) = (g, tr) -> g_pool g = Some m -> zlen m <= limit).
Proof.
  intros H. destruct (pool_unbounded 30 31) as (l & g & tr & m & A & B & _ & D & E).
  specialize (H 30 l g tr m ltac:(lia) A B D). unfold zlen in H. lia.
Qed.

(* ---------- C53 ---------- *)
Lemma close_all_none g m : forall cs, close_all g m cs = None <-> exists e, In e m /\ conn_of g (snd e) = None.
Proof.
  induction m as [|[ky k] m IH]; intros cs; cbn [close_all]; [split; [discriminate|intros (e & [] & _)]|].
  destruct (conn_of g k) eqn:E.
  - rewrite IH. split; intros (e & A & B); [exists e; split; [now right|exact B]|]. destruct A as [<-|A]; [cbn in B; congruence|eauto].
  - split; [|reflexivity]. intros _. exists (ky, k). split; [now left|exact E].
Qed.
Lemma nth_upd_false l c c' : nth_error l c' = Some false -> nth_error (upd l c false) c' = Some false.
Proof.
  intros H. destruct (Nat.eq_dec c' c) as [->|N]; [eapply nth_upd_same; eassumption|now rewrite nth_upd_other].
Qed.
Lemma close_all_keeps g m : forall cs cs' c, close_all g m cs = Some cs' -> nth_error cs c = Some false -> nth_error cs' c = Some false.
Proof.
  induction m as [|[ky k] m IH]; intros cs cs' c H E; cbn in H; [now inversion H; subst|]. destruct (conn_of g k); [|discriminate]. eapply IH; [exact H|]. now apply nth_upd_false.
Qed.
Lemma close_all_closes g m : forall cs cs' e c, close_all g m cs = Some cs' -> In e m -> conn_of g (snd e) = Some c -> (c < length cs)%nat -> nth_error cs' c = Some false.
Proof.
  induction m as [|[ky k] m IH]; intros cs cs' e c H HI E L; cbn in H; [destruct HI|]. destruct (conn_of g k) eqn:Ek; [|discriminate].
  destruct HI as [<-|HI].
  - cbn in E. rewrite Ek in E. inversion E; subst. eapply close_all_keeps; [exact H|].
    destruct (nth_error cs c) eqn:N; [eapply nth_upd_same; eassumption|]. apply nth_error_None in N. lia.
  - eapply IH; eauto. now rewrite upd_length.
Qed.
(* what the part of Stop under the lock does *)
Lemma stop_exact n l g tr m : grun l (NewMng n) = (g, tr) -> g_panic g = false -> g_stop g = true -> g_pool g = Some m ->
  let g' := fst (gexec XStopClose g) in
  (g_panic g' = true <-> exists e, In e m /\ conn_of g (snd e) = None) /\
  (g_panic g' = false -> g_pool g' = None /\ g_stop g' = false /\
     forall k p c, nth_error (g_peers g) k = Some p -> mp_conn p = Some c -> nth_error (g_conns g') c = Some false).
Proof.
  intros H Hp Hs Hm. cbv zeta. unfold gexec. rewrite Hp, Hs. cbn [fst]. unfold stop_close. rewrite Hm.
  pose proof (close_all_none g m (g_conns g)) as CN. destruct (close_all g m (g_conns g)) as [cs|] eqn:EC; cbn.
  - split; [split; [congruence|]; intros X; apply CN in X; discriminate|]. intros _. split; [reflexivity|]. split; [reflexivity|].
    intros k p c Hk Hc. pose proof (ginv_run _ _ _ _ H) as IV.
    assert (L : In k (map snd m)). { rewrite (proj2 (iv_pool _ _ IV _ Hm)). apply in_seq. split; [lia|]. cbn. apply nth_error_Some. congruence. }
    apply in_map_iff in L. destruct L as (e & <- & L). eapply close_all_closes; [exact EC|exact L| |].
    + unfold conn_of. rewrite Hk. exact Hc.
    + eapply iv_conns; eassumption.
  - split; [split; [intros _; now apply CN|reflexivity]|discriminate].
Qed.
Lemma stop_again g : g_pool g = None -> g_stop g = false -> gexec XStop g = (g, []).
Proof. intros H1 H2. unfold gexec, stop_check. rewrite H1, H2. now destruct (g_panic g). Qed.
Definition tno : tin := mkTin true AnnErr true false false.
Definition tdial : tin := mkTin true AnnErr true true false.
Definition ap1 : addrport := Some (V4 [10; 0; 0; 1], 6881).
Definition ap2 : addrport := Some (V4 [10; 0; 0; 2], 6881).
(* the tracker names one peer, which cannot be reached; then the user stops *)
Definition unreachable : list gact := [XDownload 1; XTrk 0 tgo; XTrk 0 tgo; XTrk 0 (told [ap1])] ++ repeat (XTrk 0 tno) 12 ++ [XCancel].
Lemma stop_refuted : ~ (forall n l g tr, Forall act_ok l -> grun l (NewMng n) = (g, tr) -> g_panic g = false -> g_started g = true ->
  g_panic (fst (grun [XStop; XStopClose] g)) = false).
Proof.
  intros H. destruct (grun unreachable (NewMng 30)) as [g tr] eqn:E.
  specialize (H 30 unreachable g tr). vm_compute in E. inversion E; subst g tr; clear E.
  assert (X : true = false); [|discriminate X]. apply H; try reflexivity.
  unfold unreachable. repeat constructor; cbn; try discriminate. intros ips E. inversion E; subst. repeat constructor; lia.
Qed.
(* an answer that is no valid handshake, then a good connection *)
Definition redialed : list gact := [XDownload 1; XTrk 0 tgo; XTrk 0 tgo; XTrk 0 (told [ap1])] ++ [XTrk 0 tgo; XTrk 0 tgo; XTrk 0 tgo; XTrk 0 tno; XTrk 0 tgo; XTrk 0 tgo; XTrk 0 tgo] ++ [XStop; XStopClose].
Lemma all_closed_refuted : ~ (forall n l g tr, Forall act_ok l -> grun l (NewMng n) = (g, tr) -> g_panic g = false -> g_pool g = None -> forall c, nth_error (g_conns g) c <> Some true).
Proof.
  intros H. destruct (grun redialed (NewMng 30)) as [g tr] eqn:E.
  specialize (H 30 redialed g tr). vm_compute in E. inversion E; subst g tr; clear E.
  assert (HB : Forall act_ok redialed). { unfold redialed. repeat constructor; cbn; try discriminate. intros ips E. inversion E; subst. repeat constructor; lia. }
  specialize (H HB eq_refl eq_refl eq_refl 0%nat). apply H. reflexivity.
Qed.

(* ---------- C71 ---------- *)
Lemma add_after_stop g a : g_pool g = None <-> AddPeer g a = Panic.
Proof. unfold AddPeer. destruct (g_pool g) as [m|]; [destruct (pool_get m (apString a))|]; split; congruence. Qed.
Definition late_reply : list gact := [XDownload 1; XTrk 0 tgo; XTrk 0 tgo; XStop; XStopClose; XTrk 0 (told [ap1])].
Lemma add_after_stop_refuted : ~ (forall n l g tr j i, Forall act_ok l -> i_ann i <> AnnPanic -> grun l (NewMng n) = (g, tr) -> g_panic g = false ->
  g_panic (fst (gexec (XTrk j i) g)) = false).
Proof.
  intros H. destruct (grun late_reply (NewMng 30)) as [g tr] eqn:E.
  specialize (H 30 late_reply g tr 0%nat tgo). vm_compute in E. inversion E; subst g tr; clear E.
  assert (X : true = false); [|discriminate X]. apply H; try reflexivity; [|discriminate].
  unfold late_reply. repeat constructor; cbn; try discriminate. intros ips E. inversion E; subst. repeat constructor; lia.
Qed.
(* the only ways a tracker goroutine can panic *)
Lemma tracker_panics g j i c : g_panic g = false -> nth_error (g_trk g) j = Some c ->
  (g_panic (fst (gexec (XTrk j i) g)) = true <->
   (exists n, c = TTry n) /\ i_ann i = AnnPanic \/ (exists a ips, c = TInit (a :: ips)) /\ g_pool g = None).
Proof.
  intros Hp Hj. unfold gexec. rewrite Hp, Hj.
  assert (PF : forall g k, g_panic (peer_failed g k) = g_panic g) by (intros g0 k0; unfold peer_failed; destruct (nth_error (g_peers g0) k0); reflexivity).
  assert (AF : forall g j k n ips, g_panic (after_failure g j k n ips) = g_panic g) by (intros; unfold after_failure; destruct (Nat.eqb _ _); cbn; now rewrite ?PF).
  destruct c as [| |n|n|[|a ips]|k ips|k n ips|k n ips|k n ips| |]; cbn [tstep].
  3:{ destruct (i_ann i) eqn:E; cbn; rewrite ?Hp; split; intros H; try discriminate; eauto; destruct H as [[_ H]|[(? & ? & H) _]]; discriminate. }
  5:{ unfold AddPeer. destruct (g_pool g) as [m|] eqn:Em.
      - destruct (pool_get m (apString a)); cbn; rewrite Hp; split; intros H; try discriminate; destruct H as [[[? H] _]|[_ H]]; discriminate.
      - cbn. split; [intros _; right; eauto|reflexivity]. }
  all: split; [|intros [[[? H] _]|[(? & ? & H) _]]; discriminate].
  all: intros H; exfalso; revert H.
  all: repeat match goal with |- context [if ?b then _ else _] => destruct b | |- context [match nth_error ?l ?k with _ => _ end] => destruct (nth_error l k) end; cbn; rewrite ?PF, ?AF; cbn; congruence.
Qed.

(* ---------- C59 ---------- *)
Lemma alive_num ps m : map snd m = seq 0 (length ps) ->
  zlen (filter (fun e : bytes * nat => match nth_error ps (snd e) with Some p => negb (announce_failed p) | None => false end) m) = ok_num ps.
Proof.
  unfold ok_num. intros H.
  assert (G : forall (ms : list (bytes * nat)) a qs, map snd ms = seq a (length qs) -> (forall k, nth_error ps (a + k) = nth_error qs k) ->
    zlen (filter (fun e : bytes * nat => match nth_error ps (snd e) with Some p => negb (announce_failed p) | None => false end) ms) = zlen (filter (fun p => negb (announce_failed p)) qs)).
  { induction ms as [|[ky k] ms IH]; intros a qs E N.
    - destruct qs; [reflexivity|discriminate].
    - destruct qs as [|q qs]; [discriminate|]. cbn in E. inversion E; subst. cbn [filter snd]. rewrite <- (Nat.add_0_r a) at 1. rewrite (N 0%nat). cbn [nth_error].
      assert (IH' := IH (S a) qs H2). destruct (negb (announce_failed q)); rewrite ?zlen_cons, IH'; try reflexivity; intros k; change (nth_error qs k) with (nth_error (q :: qs) (S k)); rewrite <- (N (S k)); f_equal; lia. }
  apply (G m 0%nat ps H). reflexivity.
Qed.
Lemma peer_num n l g tr m : grun l (NewMng n) = (g, tr) -> g_pool g = Some m -> g_num g = u64 (zlen (alive g)).
Proof.
  intros H Hm. pose proof (ginv_run _ _ _ _ H) as IV. rewrite (iv_num _ _ IV). unfold alive. rewrite Hm. rewrite alive_num; [reflexivity|]. apply (iv_pool _ _ IV _ Hm).
Qed.
Definition one_peer : list gact := [XDownload 1; XTrk 0 tgo; XTrk 0 tgo; XTrk 0 (told [ap1])] ++ repeat (XTrk 0 tgo) 4.
Lemma one_peer_ok : Forall act_ok one_peer.
Proof. unfold one_peer. repeat constructor; cbn; try discriminate. intros ips E. inversion E; subst. repeat constructor; lia. Qed.
Lemma peer_num_refuted : ~ (forall n l g tr, Forall act_ok l -> grun l (NewMng n) = (g, tr) -> g_panic g = false -> g_num g = u64 (zlen (alive g))).
Proof.
  intros H. destruct (grun (one_peer ++ [XStop; XStopClose]) (NewMng 30)) as [g tr] eqn:E.
  specialize (H 30 (one_peer ++ [XStop; XStopClose]) g tr). vm_compute in E. inversion E; subst g tr; clear E.
  assert (X : 1 = 0); [|discriminate X]. apply H; try reflexivity. apply Forall_app. split; [exact one_peer_ok|repeat constructor].
Qed.

(* ---------- C72: PeerNum and the peers at work ---------- *)
Lemma working_refuted : ~ (forall n l g tr, Forall act_ok l -> grun l (NewMng n) = (g, tr) -> g_panic g = false -> g_stop g = false ->
  (forall j c, nth_error (g_trk g) j = Some c -> owner c = None) -> g_num g = working g).
Proof.
  intros H. destruct (grun (one_peer ++ [XRunEnd 0]) (NewMng 30)) as [g tr] eqn:E.
  specialize (H 30 (one_peer ++ [XRunEnd 0]) g tr). vm_compute in E. inversion E; subst g tr; clear E.
  assert (X : 1 = 0); [|discriminate X]. apply H; try reflexivity.
  - apply Forall_app. split; [exact one_peer_ok|repeat constructor].
  - intros [|[|j]] c X; inversion X; subst; reflexivity.
Qed.
Lemma count_le {A} (f g : A -> bool) l : (forall x, In x l -> f x = true -> g x = true) -> zlen (filter f l) <= zlen (filter g l).
Proof.
  induction l as [|x l IH]; intros H; [reflexivity|]. cbn [filter]. assert (IH' := IH (fun y Hy => H y (or_intror Hy))).
  destruct (f x) eqn:E; [rewrite (H x (or_introl eq_refl) E), !zlen_cons; lia|]. destruct (g x); rewrite ?zlen_cons; lia.
Qed.
(* it counts those, the ended ones, and those still announced to *)
Lemma peer_num_exact n l g tr : grun l (NewMng n) = (g, tr) ->
  g_num g = u64 (working g + zlen (filter (fun p => match mp_state p with PsEnded => true | _ => false end) (g_peers g))
                           + zlen (filter (fun p => match mp_state p with PsNew => true | _ => false end) (g_peers g))).
Proof.
  intros H. pose proof (ginv_run _ _ _ _ H) as IV. rewrite (iv_num _ _ IV). f_equal. unfold ok_num, working, at_work, announce_failed. clear.
  induction (g_peers g) as [|p ps IH]; [reflexivity|]. cbn [filter]. destruct (mp_state p); cbn [negb]; rewrite ?zlen_cons; lia.
Qed.

(* ---------- C57: attempts ---------- *)
Lemma dials_bound n l g tr k : grun l (NewMng n) = (g, tr) -> (dials k tr <= 5)%nat.
Proof. intros H. exact (iv_dials _ _ (ginv_run _ _ _ _ H) k). Qed.
Local Arguments Nat.sub : simpl never.
(* announces left in this round *)
Definition abud (c : tpc) : nat := match c with TTry n => 5 - n | TBack n => 4 - n | _ => 0 end.
Definition abud_at (g : mgr) (j : nat) : nat := match nth_error (g_trk g) j with Some c => abud c | None => 0 end.
Lemma anns_app j t1 t2 : anns j (t1 ++ t2) = (anns j t1 + anns j t2)%nat.
Proof. unfold anns. now rewrite filter_app, app_length. Qed.
Lemma trk_peer_failed g k j c : g_trk (set_trk (peer_failed g k) j c) = upd (g_trk g) j c.
Proof. cbn. now rewrite peer_failed_trk. Qed.
Lemma trk_after g j k n ips : exists c, g_trk (after_failure g j k n ips) = upd (g_trk g) j c /\ abud c = 0%nat.
Proof. unfold after_failure. destruct (Nat.eqb n 4); eexists; (split; [first [apply trk_peer_failed|reflexivity]|reflexivity]). Qed.
(* what a step does to the place and the announces *)
Lemma tstep_abud g j c i g' es tr : ginv g tr -> nth_error (g_trk g) j = Some c -> tstep g j c i = Some (g', es) ->
  g_panic g' = true /\ g_trk g' = g_trk g /\ (es = [] \/ es = [GAnn j false] /\ exists n, c = TTry n) \/
  exists c', g_trk g' = upd (g_trk g) j c' /\ (length es <= 1)%nat /\ (forall j', j' <> j -> anns j' es = 0%nat /\ ~ In (GRound j') es) /\
    (In (GRound j) es -> anns j es = 0%nat /\ abud c' = 5%nat) /\
    (~ In (GRound j) es -> (anns j es + abud c' <= abud c)%nat) /\ (In (GAnn j true) es -> abud c' = 0%nat).
Proof.
  intros IV Hj H. pose proof (iv_pc _ _ IV _ _ Hj) as PC.
  assert (W : forall c' es', g_trk g' = upd (g_trk g) j c' -> es = es' -> (forall e, In e es' -> exists a b, e = GAdd j a b \/ (exists k, e = GDial j k \/ e = GRun j k)) -> (length es' <= 1)%nat -> abud c' = 0%nat ->
     exists c', g_trk g' = upd (g_trk g) j c' /\ (length es <= 1)%nat /\ (forall j', j' <> j -> anns j' es = 0%nat /\ ~ In (GRound j') es) /\
    (In (GRound j) es -> anns j es = 0%nat /\ abud c' = 5%nat) /\
    (~ In (GRound j) es -> (anns j es + abud c' <= abud c)%nat) /\ (In (GAnn j true) es -> abud c' = 0%nat)).
  { intros c' es' E1 -> E3 E4 E5. exists c'. split; [exact E1|]. split; [exact E4|].
    assert (A0 : forall j', anns j' es' = 0%nat /\ ~ In (GRound j') es').
    { intros j'. clear -E3. induction es' as [|e es' IH]; [split; [reflexivity|intros []]|]. destruct IH as [A B]; [intros; apply E3; now right|].
      destruct (E3 e (or_introl eq_refl)) as (a & b & [->|(k & [->| ->])]); (split; [exact A|intros [X|X]; [discriminate|contradiction]]). }
    split; [intros; apply A0|]. split; [intros X; exfalso; eapply A0; exact X|]. split; [intros _; rewrite (proj1 (A0 j)), E5; lia|auto]. }
  destruct c as [| |n|n|[|a ips]|k ips|k n ips|k n ips|k n ips| |]; cbn [tstep] in H.
  - right. inversion H; subst. eapply W; [reflexivity|reflexivity|intros ? []|cbn; lia|destruct (i_new i); reflexivity].
  - right. destruct (g_cancel g); inversion H; subst; [eapply W; [reflexivity|reflexivity|intros ? []|cbn; lia|reflexivity]|].
    exists (TTry 0). cbn. split; [reflexivity|]. split; [lia|]. split; [intros j' N; split; [reflexivity|intros [X|[]]; inversion X; congruence]|]. split; [auto|]. split; [intros N; exfalso; apply N; now left|intros [X|[]]; discriminate].
  - cbn in PC.
    assert (O : forall b j', j' <> j -> anns j' [GAnn j b] = 0%nat /\ ~ In (GRound j') [GAnn j b]).
    { intros b j' N. split; [unfold anns; cbn; apply Nat.eqb_neq in N; rewrite Nat.eqb_sym, N; reflexivity|intros [X|[]]; discriminate]. }
    assert (S1 : forall b, anns j [GAnn j b] = 1%nat) by (intros; unfold anns; cbn; now rewrite Nat.eqb_refl).
    assert (NR : forall b, ~ In (GRound j) [GAnn j b]) by (intros b [X|[]]; discriminate).
    destruct (i_ann i); inversion H; subst.
    + right. exists (TInit ips). cbn [set_trk g_trk]. split; [reflexivity|]. split; [cbn; lia|]. split; [apply O|]. split; [intros X; now apply NR in X|]. split; [intros _; rewrite S1; cbn; lia|reflexivity].
    + right. eexists. split; [reflexivity|]. split; [cbn; lia|]. split; [apply O|]. split; [intros X; now apply NR in X|].
      split; [intros _; rewrite S1; destruct (Nat.eqb n 4) eqn:E; cbn; apply Nat.eqb_eq in E || apply Nat.eqb_neq in E; lia|intros [X|[]]; discriminate].
    + right. eexists. split; [reflexivity|]. split; [cbn; lia|]. split; [apply O|]. split; [intros X; now apply NR in X|].
      split; [intros _; rewrite S1; destruct (Nat.eqb n 4) eqn:E; [destruct (g_cancel g)|]; cbn; apply Nat.eqb_eq in E || apply Nat.eqb_neq in E; lia|intros [X|[]]; discriminate].
    + left. cbn. eauto 10.
  - right. cbn in PC. destruct (i_timer i); [|destruct (g_cancel g); [|discriminate]]; inversion H; subst.
    + exists (TTry (S n)). cbn [set_trk g_trk]. split; [reflexivity|]. split; [cbn; lia|]. split; [intros; split; [reflexivity|intros []]|]. split; [intros []|]. split; [intros _; cbn; lia|intros []].
    + eapply W; [reflexivity|reflexivity|intros ? []|cbn; lia|reflexivity].
  - right. inversion H; subst. eapply W; [reflexivity|reflexivity|intros ? []|cbn; lia|reflexivity].
  - unfold AddPeer in H. destruct (g_pool g) as [m|]; [|inversion H; subst; left; cbn; auto].
    right. destruct (pool_get m (apString a)); inversion H; subst; (eapply W; [reflexivity|reflexivity|intros e [<-|[]]; eauto|cbn; lia|reflexivity]).
  - right. destruct (g_cancel g); inversion H; subst; (eapply W; [first [apply trk_peer_failed|reflexivity]|reflexivity|intros ? []|cbn; lia|reflexivity]).
  - right. destruct (nth_error (g_peers g) k) as [p|]; [|discriminate]. destruct (i_dial i && _); inversion H; subst.
    + eapply W; [reflexivity|reflexivity|intros e [<-|[]]; exists None, true; eauto|cbn; lia|reflexivity].
    + match goal with |- context [after_failure ?x j k n ips] => destruct (trk_after x j k n ips) as (c' & T1 & T2) end.
      eapply W; [exact T1|reflexivity|intros e [<-|[]]; exists None, true; eauto|cbn; lia|exact T2].
  - right. destruct (i_shake i); [destruct (nth_error (g_peers g) k) as [p|]; [|discriminate]|]; inversion H; subst.
    + eapply W; [reflexivity|reflexivity|intros e [<-|[]]; exists None, true; eauto|cbn; lia|reflexivity].
    + destruct (trk_after g j k n ips) as (c' & T1 & T2). eapply W; [exact T1|reflexivity|intros ? []|cbn; lia|exact T2].
  - right. destruct (i_timer i); [|destruct (g_cancel g); [|discriminate]]; inversion H; subst; (eapply W; [first [apply trk_peer_failed|reflexivity]|reflexivity|intros ? []|cbn; lia|reflexivity]).
  - right. destruct (i_timer i); [|destruct (g_cancel g); [|discriminate]]; inversion H; subst; (eapply W; [reflexivity|reflexivity|intros ? []|cbn; lia|reflexivity]).
  - discriminate.
Qed.
