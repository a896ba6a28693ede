(* Lemmas about the pool of peers.                                             *)
From Verif Require Import Base ProofBase ModelTracker ModelSystem ModelManager SpecManager ProofSystem ProofProgress.

(* ---------- runs ---------- *)
Lemma grun_app l1 l2 g : grun (l1 ++ l2) g = let '(g1, e1) := grun l1 g in let '(g2, e2) := grun l2 g1 in (g2, e1 ++ e2).
Proof.
  revert g. induction l1 as [|a l1 IH]; intros g; cbn [app grun].
  - destruct (grun l2 g). reflexivity.
  - destruct (gexec a g) as [g1 e1]. rewrite IH. destruct (grun l1 g1) as [g2 e2]. destruct (grun l2 g2) as [g3 e3]. now rewrite app_assoc.
Qed.
Lemma grun_inv (I : mgr -> list gev -> Prop) (B : gact -> Prop) g0 : I g0 [] ->
  (forall g tr a g' es, I g tr -> B a -> gexec a g = (g', es) -> I g' (tr ++ es)) ->
  forall l g tr, Forall B l -> grun l g0 = (g, tr) -> I g tr.
Proof.
  intros H0 HS l. induction l as [|a l IH] using rev_ind; intros g tr HB HR.
  - inversion HR; subst. exact H0.
  - rewrite grun_app in HR. destruct (grun l g0) as [g1 e1] eqn:E. cbn [grun] in HR. destruct (gexec a g1) as [g2 e2] eqn:E2.
    inversion HR; subst. rewrite app_nil_r. apply Forall_app in HB. destruct HB as [HB1 HB2]. inversion HB2; subst. eapply HS; eauto.
Qed.

(* ---------- the invariant ---------- *)
Definition pcok (c : tpc) : Prop :=
  match c with
  | TTry n | TPDial _ n _ | TPShake _ n _ => (n <= 4)%nat
  | TBack n | TPBack _ n _ => (n <= 3)%nat
  | _ => True
  end.
Definition budget (c : tpc) : nat :=
  match c with TPStart _ _ => 5 | TPDial _ n _ => 5 - n | TPShake _ n _ | TPBack _ n _ => 4 - n | _ => 0 end.
Definition key (p : mpeer) : bytes := apString (mp_addr p).
Definition ok_num (ps : list mpeer) : Z := zlen (filter (fun p => negb (announce_failed p)) ps).

Record ginv (g : mgr) (tr : list gev) : Prop := mkInv {
  iv_started : g_started g = false -> g_trk g = [];
  iv_pool : forall m, g_pool g = Some m -> map fst m = map key (g_peers g) /\ map snd m = seq 0 (length (g_peers g));
  iv_nodup : NoDup (map key (g_peers g));
  iv_added : added tr = map mp_addr (g_peers g);
  iv_pc : forall j c, nth_error (g_trk g) j = Some c -> pcok c;
  iv_own : forall j c k, nth_error (g_trk g) j = Some c -> owner c = Some k ->
             exists p, nth_error (g_peers g) k = Some p /\ mp_state p = PsNew;
  iv_sole : forall j c j' c' k, nth_error (g_trk g) j = Some c -> nth_error (g_trk g) j' = Some c' -> owner c = Some k -> owner c' = Some k -> j = j';
  iv_num : g_num g = u64 (ok_num (g_peers g));
  iv_dials : forall k, (dials k tr <= 5)%nat;
  iv_fresh : forall k, (length (g_peers g) <= k)%nat -> dials k tr = 0%nat;
  iv_budget : forall j c k, nth_error (g_trk g) j = Some c -> owner c = Some k -> (dials k tr + budget c <= 5)%nat;
  iv_conns : forall k p c, nth_error (g_peers g) k = Some p -> mp_conn p = Some c -> (c < length (g_conns g))%nat;
  iv_stop : g_stop g = true -> g_started g = true /\ g_cancel g = true
}.

Lemma added_app t1 t2 : added (t1 ++ t2) = added t1 ++ added t2.
Proof. induction t1 as [|e t1 IH]; [reflexivity|]. cbn. destruct e as [| |? ? []| |]; cbn; now rewrite IH. Qed.
Lemma dials_app k t1 t2 : dials k (t1 ++ t2) = (dials k t1 + dials k t2)%nat.
Proof. unfold dials. now rewrite filter_app, app_length. Qed.
Lemma pool_get_none m k : pool_get m k = None <-> ~ In k (map fst m).
Proof.
  induction m as [|[k' v] m IH]; cbn; [tauto|]. destruct (beq k' k) eqn:E.
  - apply beq_eq in E. split; [discriminate|]. intros H. exfalso. apply H. now left.
  - apply beq_neq in E. rewrite IH. tauto.
Qed.
Lemma nth_upd {A} (l : list A) k x k' y : nth_error (upd l k x) k' = Some y -> k' = k /\ y = x \/ k' <> k /\ nth_error l k' = Some y.
Proof.
  intros H. destruct (Nat.eq_dec k' k) as [->|N].
  - left. split; [reflexivity|]. assert (L : (k < length l)%nat) by (rewrite <- (upd_length l k x); apply nth_error_Some; congruence).
    rewrite upd_nth, Nat.eqb_refl in H by exact L. congruence.
  - right. rewrite nth_upd_other in H by assumption. auto.
Qed.
Lemma map_upd {A B} (f : A -> B) (l : list A) k x y : nth_error l k = Some y -> f x = f y -> map f (upd l k x) = map f l.
Proof. revert k. induction l as [|z l IH]; intros [|k] H E; cbn in *; try discriminate; [inversion H; subst; now rewrite E|]. now rewrite (IH _ H E). Qed.
Lemma ok_num_upd l k x y : nth_error l k = Some y ->
  ok_num (upd l k x) = ok_num l - (if announce_failed y then 0 else 1) + (if announce_failed x then 0 else 1).
Proof.
  unfold ok_num. revert k. induction l as [|z l IH]; intros [|k] H; cbn [upd filter nth_error] in *; try discriminate.
  - inversion H; subst. destruct (announce_failed y), (announce_failed x); cbn [negb]; rewrite ?zlen_cons; lia.
  - specialize (IH _ H). destruct (negb (announce_failed z)); rewrite ?zlen_cons, IH; lia.
Qed.
Lemma u64_sub a b : u64 (u64 a - b) = u64 (a - b).
Proof. unfold u64. apply Zminus_mod_idemp_l. Qed.
Lemma u64_add a b : u64 (u64 a + b) = u64 (a + b).
Proof. unfold u64. apply Zplus_mod_idemp_l. Qed.

(* what a step of a tracker goroutine can be *)
Inductive eff (g : mgr) (j : nat) (c : tpc) : mgr -> list gev -> Prop :=
| E_panic es : (forall e, In e es -> exists b, e = GAnn j b) -> eff g j c (set_panic g) es
| E_pc c' es :                        (* only the place changes *)
    pcok c' -> (owner c' = None \/ owner c' = owner c /\ (budget c' <= budget c)%nat) ->
    (forall e, In e es -> (exists b, e = GAnn j b) \/ e = GRound j \/ (exists a, e = GAdd j a false)) ->
    eff g j c (set_trk g j c') es
| E_add a ips m : c = TInit (a :: ips) -> g_pool g = Some m -> pool_get m (apString a) = None ->
    eff g j c (mkMgr (g_limit g) (g_started g) (g_cancel g) (Some (m ++ [(apString a, length (g_peers g))]))
                (g_peers g ++ [mkMp a None PsNew]) (g_conns g) (upd (g_trk g) j (TPStart (length (g_peers g)) ips)) (u64 (g_num g + 1)) (g_stop g) (g_panic g))
      [GAdd j a true]
| E_peer k p c' p' num conns es :     (* peer k changes *)
    owner c = Some k -> nth_error (g_peers g) k = Some p -> mp_addr p' = mp_addr p -> pcok c' ->
    (owner c' = None \/ owner c' = Some k /\ mp_state p' = mp_state p /\ (budget c' + length es <= budget c)%nat) ->
    (es = [] \/ es = [GDial j k] \/ es = [GRun j k]) -> (dials k es <= budget c)%nat ->
    num = u64 (g_num g - (if announce_failed p then 0 else 1) + (if announce_failed p' then 0 else 1)) ->
    (length (g_conns g) <= length conns)%nat -> (forall x, mp_conn p' = Some x -> mp_conn p = Some x \/ (x < length conns)%nat) ->
    eff g j c (mkMgr (g_limit g) (g_started g) (g_cancel g) (g_pool g) (upd (g_peers g) k p') conns (upd (g_trk g) j c') num (g_stop g) (g_panic g)) es.

Lemma mgr_eta g : g = mkMgr (g_limit g) (g_started g) (g_cancel g) (g_pool g) (g_peers g) (g_conns g) (g_trk g) (g_num g) (g_stop g) (g_panic g).
Proof. destruct g. reflexivity. Qed.
Lemma upd_twice {A} (l : list A) k x y : upd (upd l k x) k y = upd l k y.
Proof. revert k. induction l as [|z l IH]; intros [|k]; cbn; try reflexivity. now rewrite IH. Qed.
Local Arguments Nat.sub : simpl never.
Ltac numtac Sp NU2 := unfold announce_failed; cbn; rewrite ?Sp; first [f_equal; lia | rewrite <- NU2 at 1; f_equal; lia].
Lemma tstep_eff g j c i g' es tr : ginv g tr -> nth_error (g_trk g) j = Some c -> tstep g j c i = Some (g', es) -> eff g j c g' es.
Proof.
  intros IV Hj H. pose proof (iv_pc _ _ IV _ _ Hj) as PC. pose proof (fun k => iv_own _ _ IV j c k) as OW. pose proof (iv_num _ _ IV) as NU.
  assert (NU2 : u64 (g_num g) = g_num g) by (rewrite NU; unfold u64; apply Zmod_mod).
  destruct c as [| |n|n|[|a ips]|k ips|k n ips|k n ips|k n ips| |]; cbn [tstep] in H.
  - inversion H; subst. apply E_pc; [destruct (i_new i); exact I|destruct (i_new i); now left|intros ? []].
  - destruct (g_cancel g); inversion H; subst; (apply E_pc; [cbn; try exact I; lia|now left|intros e []; subst; auto; contradiction]).
  - destruct (i_ann i); inversion H; subst.
    + apply E_pc; [exact I|now left|]. intros e [<-|[]]. eauto.
    + apply E_pc; [destruct (Nat.eqb n 4) eqn:E; cbn in *; [exact I|]; apply Nat.eqb_neq in E; lia|destruct (Nat.eqb n 4); now left|]. intros e [<-|[]]. eauto.
    + apply E_pc; [destruct (Nat.eqb n 4) eqn:E; [destruct (g_cancel g)|]; cbn in *; try exact I; apply Nat.eqb_neq in E; lia|destruct (Nat.eqb n 4); [destruct (g_cancel g)|]; now left|]. intros e [<-|[]]. eauto.
    + apply E_panic. intros e [<-|[]]. eauto.
  - destruct (i_timer i); [|destruct (g_cancel g); [|discriminate]]; inversion H; subst; (apply E_pc; [cbn in *; try exact I; lia|now left|intros ? []]).
  - inversion H; subst. apply E_pc; [exact I|now left|intros ? []].
  - unfold AddPeer in H. destruct (g_pool g) as [m|] eqn:Em.
    + destruct (pool_get m (apString a)) eqn:Ep.
      * inversion H; subst. apply E_pc; [exact I|now left|]. intros e [<-|[]]. eauto.
      * inversion H; subst. unfold set_trk. cbn. eapply E_add; eauto.
    + inversion H; subst. apply E_panic. intros e [].
  - destruct (OW k Hj eq_refl) as (p & Hp & Sp).
    destruct (g_cancel g) eqn:Ec; inversion H; subst.
    + unfold peer_failed. rewrite Hp. unfold set_trk, set_num, set_peers; cbn.
      eapply E_peer; try eassumption; try reflexivity; cbn; auto; try (unfold dials; cbn; lia).
      numtac Sp NU2.
    + apply E_pc; [cbn; lia|right; cbn; split; [reflexivity|lia]|intros ? []].
  - destruct (OW k Hj eq_refl) as (p & Hp & Sp). rewrite Hp in H. cbn in PC.
    destruct (i_dial i && _); inversion H; subst.
    + eapply E_peer; try eassumption; try reflexivity; cbn.
      * right. repeat split; lia.
      * auto.
      * unfold dials; cbn; rewrite Nat.eqb_refl; cbn; lia.
      * numtac Sp NU2.
      * rewrite app_length; lia.
      * intros x X. inversion X; subst. right. rewrite app_length; cbn; lia.
    + unfold after_failure. destruct (Nat.eqb n 4) eqn:E.
      * unfold peer_failed, set_peers at 1. cbn [g_peers]. rewrite (nth_upd_same _ _ _ _ Hp). unfold set_trk, set_num, set_peers; cbn. rewrite upd_twice.
        eapply E_peer; try eassumption; try reflexivity; cbn; auto.
        -- unfold dials; cbn; rewrite Nat.eqb_refl; cbn; lia.
        -- numtac Sp NU2.
        -- intros x X. discriminate.
      * apply Nat.eqb_neq in E. unfold set_trk, set_peers; cbn.
        eapply E_peer; try eassumption; try reflexivity; cbn.
        all: try (right; repeat split; lia).
        all: try (unfold dials; cbn; rewrite Nat.eqb_refl; cbn; lia).
        all: try discriminate.
        all: try (auto; fail).
        all: numtac Sp NU2.
  - destruct (OW k Hj eq_refl) as (p & Hp & Sp). rewrite Hp in H. cbn in PC.
    destruct (i_shake i); inversion H; subst.
    + unfold set_trk, set_peers; cbn. eapply E_peer; try eassumption; try reflexivity; cbn; auto; try (unfold dials; cbn; lia).
      numtac Sp NU2.
    + unfold after_failure. destruct (Nat.eqb n 4) eqn:E.
      * unfold peer_failed. rewrite Hp. unfold set_trk, set_num, set_peers; cbn.
        eapply E_peer; try eassumption; try reflexivity; cbn; auto; try (unfold dials; cbn; lia).
        numtac Sp NU2.
      * apply Nat.eqb_neq in E. apply E_pc; [cbn; lia|right; cbn; split; [reflexivity|lia]|intros ? []].
  - destruct (OW k Hj eq_refl) as (p & Hp & Sp). cbn in PC.
    destruct (i_timer i); [|destruct (g_cancel g) eqn:Ec; [|discriminate]]; inversion H; subst.
    + apply E_pc; [cbn; lia|right; cbn; split; [reflexivity|lia]|intros ? []].
    + unfold peer_failed. rewrite Hp. unfold set_trk, set_num, set_peers; cbn.
      eapply E_peer; try eassumption; try reflexivity; cbn; auto; try (unfold dials; cbn; lia).
      numtac Sp NU2.
  - destruct (i_timer i); [|destruct (g_cancel g); [|discriminate]]; inversion H; subst; (apply E_pc; [exact I|now left|intros ? []]).
  - discriminate.
Qed.

(* ---------- the invariant holds ---------- *)
Lemma no_dial_anns j k es : (forall e, In e es -> exists b, e = GAnn j b) -> dials k es = 0%nat /\ added es = [].
Proof.
  induction es as [|e es IH]; intros H; [split; reflexivity|]. destruct (H e (or_introl eq_refl)) as [b ->].
  destruct IH as [A B]; [intros; apply H; now right|]. split; [exact A|exact B].
Qed.
Lemma no_dial_pc j k es : (forall e, In e es -> (exists b, e = GAnn j b) \/ e = GRound j \/ (exists a, e = GAdd j a false)) -> dials k es = 0%nat /\ added es = [].
Proof.
  induction es as [|e es IH]; intros H; [split; reflexivity|].
  destruct IH as [A B]; [intros; apply H; now right|]. destruct (H e (or_introl eq_refl)) as [[b ->]|[->|[a ->]]]; (split; [exact A|exact B]).
Qed.
Lemma nodup_snoc {A} (l : list A) x : NoDup l -> ~ In x l -> NoDup (l ++ [x]).
Proof.
  intros H N. apply NoDup_rev in H. rewrite <- (rev_involutive (l ++ [x])). apply NoDup_rev. rewrite rev_unit. constructor; [|exact H].
  now rewrite <- in_rev.
Qed.
Lemma eff_inv g j c g' es tr : ginv g tr -> nth_error (g_trk g) j = Some c -> g_started g = true -> eff g j c g' es -> ginv g' (tr ++ es).
Proof.
  intros IV Hj HS HE. destruct IV as [i1 i2 i3 i4 i5 i6 i7 i8 i9 i10 i11 i12 i13]. destruct HE.
  - pose proof (fun k => no_dial_anns _ k _ H) as N. constructor; cbn; try assumption; intros; rewrite ?added_app, ?dials_app, ?(proj1 (N _)), ?(proj2 (N 0%nat)), ?app_nil_r, ?Nat.add_0_r; eauto.
  - pose proof (fun k => no_dial_pc _ k _ H1) as N. constructor; cbn; try assumption; intros; rewrite ?added_app, ?dials_app, ?(proj1 (N _)), ?(proj2 (N 0%nat)), ?app_nil_r, ?Nat.add_0_r; eauto.
    + congruence.
    + apply nth_upd in H2. destruct H2 as [[-> ->]|[_ H2]]; eauto.
    + apply nth_upd in H2. destruct H2 as [[-> ->]|[_ H2]]; [|eauto]. destruct H0 as [H0|[H0 _]]; [congruence|]. rewrite H0 in H3. eauto.
    + apply nth_upd in H2, H3. destruct H2 as [[-> ->]|[E2 H2]], H3 as [[-> ->]|[E3 H3]]; auto; try (eapply i7; eassumption);
        (destruct H0 as [H0|[H0 _]]; [congruence|]); rewrite H0 in *; eauto.
    + apply nth_upd in H2. destruct H2 as [[-> ->]|[_ H2]]; [|eauto]. destruct H0 as [H0|[H0 L]]; [congruence|]. rewrite H0 in H3.
      specialize (i11 _ _ _ Hj H3). lia.
  - assert (N : forall k, dials k [GAdd j a true] = 0%nat) by reflexivity.
    destruct (i2 _ H0) as [P1 P2]. apply pool_get_none in H1. rewrite P1 in H1.
    constructor; cbn; intros; rewrite ?added_app, ?dials_app, ?N, ?Nat.add_0_r.
    + congruence.
    + inversion H2; subst. rewrite !map_app, app_length, seq_app, P1, P2. auto.
    + rewrite map_app. apply nodup_snoc; assumption.
    + rewrite map_app, i4. reflexivity.
    + apply nth_upd in H2. destruct H2 as [[-> ->]|[_ H2]]; [exact I|eauto].
    + apply nth_upd in H2. destruct H2 as [[-> ->]|[_ H2]].
      * inversion H3; subst. exists (mkMp a None PsNew). rewrite nth_error_app2, Nat.sub_diag by lia. auto.
      * destruct (i6 _ _ _ H2 H3) as (p & A & B). exists p. split; [|exact B]. rewrite nth_error_app1; [exact A|]. apply nth_error_Some. congruence.
    + assert (L : forall j c, nth_error (g_trk g) j = Some c -> owner c <> Some (length (g_peers g))).
      { intros jj cc A B. destruct (i6 _ _ _ A B) as (p & C & _). assert (length (g_peers g) < length (g_peers g))%nat by (apply nth_error_Some; congruence). lia. }
      apply nth_upd in H2, H3. destruct H2 as [[-> ->]|[E2 H2]], H3 as [[-> ->]|[E3 H3]]; auto; try (eapply i7; eassumption).
      * inversion H4; subst. exfalso. eapply L; eassumption.
      * inversion H5; subst. exfalso. eapply L; eassumption.
    + rewrite i8, u64_add. f_equal. unfold ok_num. rewrite filter_app, zlen_app. reflexivity.
    + auto.
    + apply i10. rewrite app_length in H2. lia.
    + apply nth_upd in H2. destruct H2 as [[-> ->]|[_ H2]]; [|eauto]. inversion H3; subst. rewrite (i10 _ (le_n _)). cbn. lia.
    + destruct (Nat.lt_ge_cases k (length (g_peers g))) as [L|L].
      * rewrite nth_error_app1 in H2 by exact L. eauto.
      * rewrite nth_error_app2 in H2 by exact L. destruct (k - length (g_peers g))%nat as [|[|]]; cbn in H2; inversion H2; subst. discriminate.
    + auto.
  - assert (LK : (k < length (g_peers g))%nat) by (apply nth_error_Some; congruence).
    assert (AD : added es = []) by (destruct H4 as [->|[->| ->]]; reflexivity).
    assert (OD : forall k', k' <> k -> dials k' es = 0%nat).
    { intros k' N. destruct H4 as [->|[->| ->]]; try reflexivity. unfold dials. cbn. apply Nat.eqb_neq in N. rewrite Nat.eqb_sym, N. reflexivity. }
    assert (LE : (dials k es <= length es)%nat) by (destruct H4 as [->|[->| ->]]; unfold dials; cbn; [lia|rewrite Nat.eqb_refl; cbn; lia|lia]).
    pose proof (i11 _ _ _ Hj H) as BU.
    constructor; cbn; intros; rewrite ?added_app, ?dials_app, ?AD, ?app_nil_r.
    + congruence.
    + destruct (i2 _ H9) as [P1 P2]. rewrite upd_length, P1, P2. split; [|reflexivity]. symmetry. eapply map_upd; [eassumption|]. unfold key. now rewrite H1.
    + erewrite map_upd; [exact i3|eassumption|]. unfold key. now rewrite H1.
    + rewrite i4. symmetry. eapply map_upd; eassumption.
    + apply nth_upd in H9. destruct H9 as [[-> ->]|[_ H9]]; eauto.
    + apply nth_upd in H9. destruct H9 as [[-> ->]|[E9 H9]].
      * destruct H3 as [H3|(H3 & H11 & _)]; [congruence|]. rewrite H3 in H10. inversion H10; subst k0. exists p'. split; [eapply nth_upd_same; eassumption|].
        destruct (i6 _ _ _ Hj H) as (q & A & B). congruence.
      * destruct (Nat.eq_dec k0 k) as [->|N]; [exfalso; apply E9; eapply i7; eassumption|].
        rewrite nth_upd_other by exact N. eauto.
    + apply nth_upd in H9, H10. destruct H9 as [[-> ->]|[E2 H9]], H10 as [[-> ->]|[E3 H10]]; auto; try (eapply i7; eassumption);
        (destruct H3 as [H3|(H3 & _ & _)]; [congruence|]); rewrite H3 in *.
      * inversion H11; subst. eauto.
      * inversion H12; subst. eauto.
    + rewrite (ok_num_upd _ _ _ _ H0). rewrite H6, i8.
      replace (u64 (ok_num (g_peers g)) - (if announce_failed p then 0 else 1) + (if announce_failed p' then 0 else 1))
        with (u64 (ok_num (g_peers g)) + ((if announce_failed p' then 0 else 1) - (if announce_failed p then 0 else 1))) by lia.
      rewrite u64_add. f_equal. lia.
    + destruct (Nat.eq_dec k0 k) as [->|N]; [lia|]. rewrite (OD _ N), Nat.add_0_r. auto.
    + rewrite upd_length in H9. rewrite OD by lia. rewrite Nat.add_0_r. auto.
    + apply nth_upd in H9. destruct H9 as [[-> ->]|[E9 H9]].
      * destruct H3 as [H3|(H3 & H11 & L)]; [congruence|]. rewrite H3 in H10. inversion H10; subst k0. lia.
      * assert (N : k0 <> k) by (intros ->; apply E9; eapply i7; eassumption). rewrite (OD _ N), Nat.add_0_r. eauto.
    + apply nth_upd in H9. destruct H9 as [[-> ->]|[_ H9]].
      * apply H8 in H10. destruct H10 as [H10|H10]; [|exact H10]. specialize (i12 _ _ _ H0 H10). lia.
      * specialize (i12 _ _ _ H9 H10). lia.
    + auto.
Qed.
Lemma started_trk g tr j c : ginv g tr -> nth_error (g_trk g) j = Some c -> g_started g = true.
Proof. intros IV H. destruct (g_started g) eqn:E; [reflexivity|]. rewrite (iv_started _ _ IV E) in H. now destruct j. Qed.
Lemma close_all_length g m : forall cs cs', close_all g m cs = Some cs' -> length cs' = length cs.
Proof. induction m as [|[k v] m IH]; intros cs cs' H; cbn in H; [now inversion H|]. destruct (conn_of g v); [|discriminate]. apply IH in H. now rewrite upd_length in H. Qed.
Lemma gexec_inv g tr a g' es : ginv g tr -> gexec a g = (g', es) -> ginv g' (tr ++ es).
Proof.
  intros IV H. unfold gexec in H. destruct (g_panic g) eqn:EP; [inversion H; subst; now rewrite app_nil_r|].
  destruct a as [n|j i|k| | |].
  - destruct (g_started g) eqn:ES; inversion H; subst; rewrite app_nil_r; [assumption|].
    destruct IV as [i1 i2 i3 i4 i5 i6 i7 i8 i9 i10 i11 i12 i13].
    constructor; cbn; try assumption; try congruence; intros; try (apply nth_error_In, repeat_spec in H0; subst; try exact I; discriminate).
    apply i13 in H0. destruct H0. congruence.
  - destruct (nth_error (g_trk g) j) as [c|] eqn:Ej; [|inversion H; subst; now rewrite app_nil_r].
    destruct (tstep g j c i) as [[g2 e2]|] eqn:Et; [|inversion H; subst; now rewrite app_nil_r].
    inversion H; subst. eapply eff_inv; eauto; [eapply started_trk; eassumption|]. eapply tstep_eff; eassumption.
  - destruct (nth_error (g_peers g) k) as [p|] eqn:Ek; [|inversion H; subst; now rewrite app_nil_r].
    destruct (mp_state p) eqn:Es; inversion H; subst; rewrite app_nil_r; try assumption.
    destruct IV as [i1 i2 i3 i4 i5 i6 i7 i8 i9 i10 i11 i12 i13].
    constructor; cbn; try assumption; intros.
    + destruct (i2 _ H0) as [P1 P2]. rewrite upd_length. split; [|exact P2]. rewrite P1. symmetry. eapply map_upd; [eassumption|reflexivity].
    + erewrite map_upd; [exact i3|eassumption|reflexivity].
    + rewrite i4. symmetry. eapply map_upd; [eassumption|reflexivity].
    + destruct (i6 _ _ _ H0 H1) as (q & A & B). destruct (Nat.eq_dec k0 k) as [->|N]; [congruence|]. exists q. rewrite nth_upd_other by exact N. auto.
    + rewrite (ok_num_upd _ _ _ _ Ek). unfold announce_failed. cbn. rewrite Es, i8. f_equal. lia.
    + rewrite upd_length in H0. auto.
    + apply nth_upd in H0. destruct H0 as [[-> ->]|[_ H0]]; [cbn in H1|]; eauto.
  - inversion H; subst. rewrite app_nil_r. destruct IV as [i1 i2 i3 i4 i5 i6 i7 i8 i9 i10 i11 i12 i13]. constructor; cbn; try assumption. intros E. split; [now apply i13|reflexivity].
  - destruct (g_stop g) eqn:Est; inversion H; subst; rewrite app_nil_r; [assumption|]. unfold stop_check.
    destruct (g_pool g) eqn:Em; [|assumption]. destruct IV as [i1 i2 i3 i4 i5 i6 i7 i8 i9 i10 i11 i12 i13].
    rewrite Em in i2. destruct (g_started g) eqn:ES; constructor; cbn; rewrite ?Em; try assumption; try congruence; auto.
  - destruct (g_stop g) eqn:Est; inversion H; subst; rewrite app_nil_r; [|assumption]. unfold stop_close.
    destruct (close_all _ _ _) as [cs|] eqn:EC; destruct IV as [i1 i2 i3 i4 i5 i6 i7 i8 i9 i10 i11 i12 i13]; constructor; cbn; try assumption; try congruence; intros.
    apply close_all_length in EC. rewrite EC. eauto.
Qed.
Lemma ginv_start n : ginv (NewMng n) [].
Proof. constructor; cbn; try (intros; destruct j; discriminate || discriminate); try reflexivity; try constructor; intros; try (destruct j; discriminate); try (destruct k; discriminate); try discriminate; try reflexivity; try (inversion H; subst; reflexivity); unfold dials; cbn; lia. Qed.
Lemma ginv_run n l g tr : grun l (NewMng n) = (g, tr) -> ginv g tr.
Proof.
  intros H. refine (grun_inv ginv (fun _ => True) (NewMng n) (ginv_start n) _ l g tr _ H).
  - intros. eapply gexec_inv; eassumption.
  - now apply Forall_forall.
Qed.
