(* Whom the client talks to (C113, C114).                                      *)
From Verif Require Import Base ProofBase ModelBitset ModelMsg ModelTorrent ModelConn ModelStats ModelPeer ModelSystem ModelTracker ModelManager ModelClient
  SpecPeer SpecManager SpecClient ProofSystem ProofManager ProofProgress ProofPeer ProofOffer ProofClient ProofClient2.

(* ---------- the addresses of a tracker goroutine ---------- *)
Definition rest (c : tpc) : list addrport := match c with TInit l | TPStart _ l | TPDial _ _ l | TPShake _ _ l | TPBack _ _ l => l | _ => [] end.
Definition holds (N : addrport -> Prop) (tr : list gev) (c : tpc) : Prop :=
  (forall a, In a (rest c) -> N a) /\ (forall k, owner c = Some k -> exists a, nth_error (added tr) k = Some a /\ N a).
Definition speaks (N : addrport -> Prop) (tr : list gev) (j : nat) (e : gev) : Prop :=
  match e with
  | GAdd i a _ => i = j /\ N a
  | GDial i k | GRun i k => i = j /\ exists a, nth_error (added tr) k = Some a /\ N a
  | _ => True
  end.
Lemma added_more tr es k a : nth_error (added tr) k = Some a -> nth_error (added (tr ++ es)) k = Some a.
Proof. intros H. rewrite added_app. rewrite nth_error_app1; [exact H|]. apply nth_error_Some. congruence. Qed.
Lemma tstep_holds (N : addrport -> Prop) g tr j c i g' es : ginv g tr -> nth_error (g_trk g) j = Some c -> tstep g j c i = Some (g', es) ->
  holds N tr c -> (forall n ips, c = TTry n -> i_ann i = AnnOk ips -> forall a, In a ips -> N a) ->
  (exists c', nth_error (g_trk g') j = Some c' /\ holds N (tr ++ es) c') /\ (forall e, In e es -> speaks N tr j e).
Proof.
  intros IV HJ H [HR HO] HA.
  assert (S : forall h x, g_trk h = g_trk g -> nth_error (g_trk (set_trk h j x)) j = Some x).
  { intros h x E. cbn. rewrite E. eapply nth_upd_same. exact HJ. }
  assert (F : forall h k n ips es0, g_trk h = g_trk g -> (forall a, In a ips -> N a) -> (exists a, nth_error (added tr) k = Some a /\ N a) ->
     exists c', nth_error (g_trk (after_failure h j k n ips)) j = Some c' /\ holds N (tr ++ es0) c').
  { intros h k n ips es0 E R (a & A1 & A2). unfold after_failure. destruct (Nat.eqb n 4); eexists; (split; [apply S; rewrite ?peer_failed_trk; exact E|]); split; cbn; try exact R; try discriminate.
    intros k0 X. inversion X; subst. exists a. split; [now apply added_more|exact A2]. }
  assert (OW : forall k es0, (exists a, nth_error (added tr) k = Some a /\ N a) -> exists a, nth_error (added (tr ++ es0)) k = Some a /\ N a).
  { intros k es0 (a & A1 & A2). exists a. split; [now apply added_more|exact A2]. }
  assert (SP : forall e : gev, False -> speaks N tr j e) by (intros ? []).
  destruct c as [| |n|n|[|a ips]|k ips|k n ips|k n ips|k n ips| |]; cbn [tstep rest owner] in *.
  all: try (assert (OK : exists a, nth_error (added tr) k = Some a /\ N a) by (apply HO; reflexivity)).
  all: repeat first
    [ discriminate
    | match type of H with
      | context [match ?x with _ => _ end] => destruct x eqn:?
      end ].
  all: inversion H; subst; clear H.
  all: split; [|intros e0 X; cbn in X; repeat destruct X as [X|X]; try contradiction; subst e0; cbn; auto].
  all: try (eapply F; eauto; fail).
  all: try (eexists; split; [apply S; rewrite ?peer_failed_trk; reflexivity|]; split; cbn; [first [exact HR|intros ? []|eauto]|first [discriminate|intros ? X; inversion X; subst; auto]]; fail).
  all: try (eexists; split; [exact HJ|]; split; cbn; [intros ? []|discriminate]; fail).
  all: try (split; [reflexivity|apply HR; left; reflexivity]).
  - eexists. split; [apply S; eapply AddPeer_trk; eassumption|]. split; cbn; [intros a0 Ha; apply HR; right; exact Ha|].
    intros k X. inversion X; subst. exists a. split; [|apply HR; left; reflexivity]. rewrite added_app, (iv_added _ _ IV), nth_error_app2; rewrite map_length; [|lia].
    rewrite Nat.sub_diag. reflexivity.
  - eexists. split; [apply S; eapply AddPeer_trk; eassumption|]. split; cbn; [intros a0 Ha; apply HR; right; exact Ha|discriminate].
  - eexists. split; [exact HJ|]. split; cbn; [exact HR|discriminate].
  - eexists. split; [exact HJ|]. split; cbn; [exact HR|discriminate].
  - eexists. split; [exact HJ|]. split; cbn; [exact HR|discriminate].
Qed.
Lemma gexec_holds (N : nat -> addrport -> Prop) g tr a g' es : ginv g tr -> gexec a g = (g', es) ->
  (forall j c, nth_error (g_trk g) j = Some c -> holds (N j) tr c) ->
  (forall j i n ips, a = XTrk j i -> nth_error (g_trk g) j = Some (TTry n) -> i_ann i = AnnOk ips -> forall a, In a ips -> N j a) ->
  (forall j c, nth_error (g_trk g') j = Some c -> holds (N j) (tr ++ es) c) /\
  (forall e, In e es -> exists j, speaks (N j) tr j e).
Proof.
  intros IV H HI HA.
  assert (MORE : forall j c es0, holds (N j) tr c -> holds (N j) (tr ++ es0) c).
  { intros j c es0 [R O]. split; [exact R|]. intros k Hk. destruct (O k Hk) as (x & X1 & X2). exists x. split; [now apply added_more|exact X2]. }
  assert (SAME : forall h, g_trk h = g_trk g -> (h, @nil gev) = (g', es) ->
    (forall j c, nth_error (g_trk g') j = Some c -> holds (N j) (tr ++ es) c) /\ (forall e, In e es -> exists j, speaks (N j) tr j e)).
  { intros h E X. inversion X; subst. split; [|intros ? []]. intros j c Hj. rewrite E in Hj. auto. }
  unfold gexec in H. destruct (g_panic g); [eapply SAME; [reflexivity|exact H]|].
  destruct a as [n|j i|k| | |].
  - destruct (g_started g); [eapply SAME; [reflexivity|exact H]|]. inversion H; subst. split; [|intros ? []]. cbn. intros j c Hj.
    apply nth_error_In in Hj. apply repeat_spec in Hj. subst. split; cbn; [intros ? []|discriminate].
  - destruct (nth_error (g_trk g) j) as [c|] eqn:EJ; [|eapply SAME; [reflexivity|exact H]].
    destruct (tstep g j c i) as [[g1 es1]|] eqn:ET; [|eapply SAME; [reflexivity|exact H]]. inversion H; subst; clear H.
    destruct (tstep_holds (N j) _ _ _ _ _ _ _ IV EJ ET (HI _ _ EJ)) as ((c' & C1 & C2) & C3).
    { intros n ips -> A x Hx. eapply HA; eauto. }
    split; [|intros e He; exists j; auto]. intros j0 c0 H0. destruct (Nat.eq_dec j0 j) as [->|NE].
    + assert (c0 = c') by congruence. now subst.
    + destruct (tstep_other _ _ _ _ _ _ _ NE ET) as (E & _ & _). rewrite E in H0. apply MORE. auto.
  - destruct (nth_error (g_peers g) k) as [p|]; [|eapply SAME; [reflexivity|exact H]]. destruct (mp_state p); (eapply SAME; [|exact H]; reflexivity).
  - eapply SAME; [|exact H]; reflexivity.
  - destruct (g_stop g); (eapply SAME; [|exact H]); [reflexivity|]. unfold stop_check. destruct (g_pool g); [destruct (g_started g)|]; reflexivity.
  - destruct (g_stop g); (eapply SAME; [|exact H]); [|reflexivity]. unfold stop_close. destruct (close_all _ _ _); reflexivity.
Qed.

(* every step of the client is at most one of the manager *)
Lemma cexec_mgr cf a c c' es : cexec cf a c = (c', es) ->
  c_mgr c' = c_mgr c /\ gevs es = [] \/ exists x, gexec x (c_mgr c) = (c_mgr c', gevs es) /\
    (forall j i n ips, x = XTrk j i -> nth_error (g_trk (c_mgr c)) j = Some (TTry n) -> i_ann i = AnnOk ips ->
       exists e es', es = e :: es' /\ forall y, In y ips -> names j y e).
Proof.
  intros H. apply cexec_move in H. destruct H as [[-> ->]|(_ & _ & M)]; [auto|].
  inversion M; subst; clear M; cbn [c_mgr mgr_step sys_step cnt_step set_ctr]; auto.
  all: try (right; eexists; split; [rewrite gevs_mgr; apply surjective_pairing|]; intros j0 i0 n0 ips0 X Y Z; try discriminate; inversion X; subst; cbn in *; discriminate).
  - right. eexists. split; [match goal with |- context [gevs (VShake ?k ?e :: ?l)] => change (gevs (VShake k e :: l)) with (gevs l) end; rewrite gevs_mgr; apply surjective_pairing|].
    intros j0 i0 n0 ips0 X Y Z. inversion X; subst. cbn in *. discriminate.
  - right. assert (GE : forall l0, gevs (e :: l0) = gevs l0).
    { intros l0. unfold tracker_announce in *. destruct (ct_trk tr); try discriminate; destruct rp; try discriminate.
      - destruct (HttpAnnounce _ _). match goal with X : Some _ = Some _ |- _ => inversion X end. reflexivity.
      - destruct (UdpAnnounce _ _ _ _ _ _ _ _ _) as [[? ?] ?]. match goal with X : Some _ = Some _ |- _ => inversion X end. reflexivity. }
    eexists. split; [rewrite GE, gevs_mgr; apply surjective_pairing|].
    intros j0 i0 n0 ips0 X Y Z. inversion X; subst. cbn [i_ann] in Z.
    assert (a0 = AnnOk ips0). { unfold ann_in in Z. destruct a0; try discriminate; [exact Z|]. destruct (g_cancel (c_mgr c)); discriminate. }
    subst a0. eexists _, _. split; [reflexivity|]. intros y Hy.
    unfold tracker_announce in *. destruct (ct_trk tr); try discriminate; destruct rp; try discriminate.
    + destruct (HttpAnnounce _ _) as [? res]. match goal with X : Some _ = Some _ |- _ => inversion X; subst end.
      destruct res; cbn in *; try discriminate; [|destruct canceled; discriminate]. match goal with X : AnnOk _ = AnnOk _ |- _ => inversion X; subst end. auto.
    + destruct (UdpAnnounce _ _ _ _ _ _ _ _ _) as [[? ?] res]. match goal with X : Some _ = Some _ |- _ => inversion X; subst end.
      destruct res; cbn in *; try discriminate. match goal with X : AnnOk _ = AnnOk _ |- _ => inversion X; subst end. auto.
  - rewrite gevs_sys. destruct (returned _ k); [|auto]. right. exists (XRunEnd p). split; [|intros; discriminate].
    unfold gexec. destruct (g_panic (c_mgr c)); [reflexivity|]. destruct (nth_error (g_peers (c_mgr c)) p) as [q|]; [|reflexivity]. destruct (mp_state q); reflexivity.
Qed.

(* ---------- the addresses in an execution ---------- *)
Lemma tstep_speaks (N : addrport -> Prop) g tr j c i g' es : ginv g tr -> nth_error (g_trk g) j = Some c -> tstep g j c i = Some (g', es) ->
  holds N tr c -> forall e, In e es -> speaks N tr j e.
Proof.
  intros IV HJ HT HH e He.
  assert (HC : (exists n, c = TTry n) \/ forall n ips, c = TTry n -> i_ann i = AnnOk ips -> forall a, In a ips -> N a).
  { destruct c; try (right; discriminate). left. eauto. }
  destruct HC as [[n ->]|HC]; [|exact (proj2 (tstep_holds N _ _ _ _ _ _ _ IV HJ HT HH HC) e He)].
  cbn in HT. destruct (i_ann i); inversion HT; subst; destruct He as [<-|[]]; exact I.
Qed.
Lemma gexec_speaks (N : nat -> addrport -> Prop) g tr a g' es : ginv g tr -> gexec a g = (g', es) ->
  (forall j c, nth_error (g_trk g) j = Some c -> holds (N j) tr c) -> forall e, In e es -> exists j, speaks (N j) tr j e.
Proof.
  intros IV H HI e He. unfold gexec in H. destruct (g_panic g); [inversion H; subst; contradiction|].
  destruct a as [n|j i|k| | |].
  - destruct (g_started g); inversion H; subst; contradiction.
  - destruct (nth_error (g_trk g) j) as [c|] eqn:EJ; [|inversion H; subst; contradiction].
    destruct (tstep g j c i) as [[g1 es1]|] eqn:ET; inversion H; subst; [|contradiction]. exists j. eapply tstep_speaks; eauto.
  - destruct (nth_error (g_peers g) k) as [p|]; [destruct (mp_state p)|]; inversion H; subst; contradiction.
  - inversion H; subst; contradiction.
  - destruct (g_stop g); inversion H; subst; contradiction.
  - destruct (g_stop g); inversion H; subst; contradiction.
Qed.
Lemma named_more j a t1 t2 : named j a t1 -> named j a (t1 ++ t2).
Proof. intros (e & H1 & H2). exists e. split; [apply in_app_iff; auto|exact H2]. Qed.
Lemma holds_more (N N' : addrport -> Prop) tr es c : (forall a, N a -> N' a) -> holds N tr c -> holds N' (tr ++ es) c.
Proof. intros HN [R O]. split; [auto|]. intros k Hk. destruct (O k Hk) as (x & X1 & X2). exists x. split; [now apply added_more|auto]. Qed.
Lemma speaks_more (N N' : addrport -> Prop) tr es j e : (forall a, N a -> N' a) -> speaks N tr j e -> speaks N' (tr ++ es) j e.
Proof.
  intros HN H. destruct e; cbn in *; auto; [destruct H; auto|..]; destruct H as [H1 (a & X1 & X2)]; (split; [exact H1|]); exists a; (split; [now apply added_more|auto]).
Qed.

Definition known_at (t1 : list cev) (j k : nat) : Prop := exists a, nth_error (added (gevs t1)) k = Some a /\ named j a t1.
Record ninv (c : client) (tr : list cev) : Prop := {
  ni_g : ginv (c_mgr c) (gevs tr);
  ni_holds : forall j pc, nth_error (g_trk (c_mgr c)) j = Some pc -> holds (fun a => named j a tr) (gevs tr) pc;
  ni_tr : forall t1 e t2, tr = t1 ++ VMgr e :: t2 -> exists j, speaks (fun a => named j a t1) (gevs t1) j e;
  ni_shake : forall t1 k evs t2, tr = t1 ++ VShake k evs :: t2 -> exists j, known_at t1 j k
}.
(* the handshakes of a step *)
Lemma cexec_shake cf a c c' es s k evs t : cexec cf a c = (c', es) -> es = s ++ VShake k evs :: t -> s = [] /\ exists j n ips, nth_error (g_trk (c_mgr c)) j = Some (TPShake k n ips).
Proof.
  intros H E. apply cexec_move in H.
  assert (NM : forall l s0, map VMgr l = s0 ++ VShake k evs :: t -> False).
  { intros l s0 X. apply map_eq_app in X. destruct X as (l1 & l2 & _ & _ & X). destruct l2; discriminate. }
  destruct H as [[-> ->]|(_ & _ & M)]; [destruct s; discriminate|].
  inversion M; subst; clear M; try (match goal with X : [] = _ ++ _ |- _ => destruct s; discriminate X end);
    try (match goal with X : map VMgr _ = _ |- _ => exfalso; exact (NM _ _ X) end).
  - destruct s as [|y s]; cbn [app] in *; match goal with X : _ :: _ = _ |- _ => inversion X; subst end; [eauto 6|exfalso; eapply NM; eassumption].
  - exfalso. destruct s as [|y s]; cbn [app] in *; match goal with X : _ :: _ = _ |- _ => inversion X; subst end; [|eapply NM; eassumption].
    unfold tracker_announce in *. destruct (ct_trk tr); try discriminate; destruct rp; try discriminate.
    + destruct (HttpAnnounce _ _). discriminate.
    + destruct (UdpAnnounce _ _ _ _ _ _ _ _ _) as [[? ?] ?]. discriminate.
  - exfalso. unfold sysev in *. match goal with X : map _ _ = _ |- _ => apply map_eq_app in X; destruct X as (l1 & l2 & _ & _ & X); destruct l2; discriminate end.
Qed.
Lemma ninv_run cf t f outs urls l c tr : crun cf l (client_start cf t f outs urls) = (c, tr) -> ninv c tr.
Proof.
  intros HR. refine (crun_inv cf ninv (fun _ => True) _ _ _ l c tr _ HR).
  - constructor; cbn; [apply ginv_start|intros [|j] pc H; discriminate|intros [|? ?] e t2 H; discriminate|intros [|? ?] k evs t2 H; discriminate].
  - clear. intros c tr a c' es [IV HH HT HS] _ HE.
    assert (SH : forall t1 k evs t2, tr ++ es = t1 ++ VShake k evs :: t2 -> exists j, known_at t1 j k).
    { intros t1 k evs t2 X. apply split_app in X. destruct X as [(u & -> & ->)|(s & -> & ->)]; [eapply HS; reflexivity|].
      destruct (cexec_shake _ _ _ _ _ _ _ _ _ HE eq_refl) as (-> & j & n & ips & J). exists j. rewrite app_nil_r. destruct (HH _ _ J) as [_ O]. exact (O k eq_refl). }
    pose proof (cexec_mgr _ _ _ _ _ HE) as [[E1 E2]|(x & X1 & X2)].
    + constructor; rewrite ?gevs_app, ?E1, ?E2, ?app_nil_r; [exact IV| | |exact SH].
      * intros j pc Hj. rewrite <- (app_nil_r (gevs tr)). eapply holds_more; [|exact (HH _ _ Hj)]. intros y. apply named_more.
      * intros t1 e t2 X. apply split_app in X. destruct X as [(u & -> & ->)|(s & -> & ->)]; [eapply HT; reflexivity|].
        exfalso. rewrite gevs_app in E2. apply app_eq_nil in E2. destruct E2 as [_ E2]. discriminate E2.
    + constructor; rewrite ?gevs_app; [eapply gexec_inv; eassumption| | |exact SH].
      * eapply gexec_holds; [exact IV|exact X1| |].
        -- intros j pc Hj. rewrite <- (app_nil_r (gevs tr)). eapply holds_more; [|exact (HH _ _ Hj)]. intros y. apply named_more.
        -- intros j i n ips EX EJ EA y Hy. destruct (X2 _ _ _ _ EX EJ EA) as (e & es' & -> & Z). exists e. split; [apply in_app_iff; right; now left|auto].
      * intros t1 e t2 X. apply split_app in X. destruct X as [(u & -> & ->)|(s & -> & ->)]; [eapply HT; reflexivity|].
        destruct (gexec_speaks (fun j a => named j a tr) _ _ _ _ _ IV X1 HH e) as (j & Hj).
        { rewrite gevs_app. apply in_app_iff. right. now left. }
        exists j. rewrite gevs_app. eapply speaks_more; [|exact Hj]. intros y. apply named_more.
  - apply Forall_forall. auto.
Qed.
Lemma dialled_named cf t f outs urls l c tr t1 j k t2 : crun cf l (client_start cf t f outs urls) = (c, tr) ->
  tr = t1 ++ VMgr (GDial j k) :: t2 -> exists a, nth_error (added (gevs t1)) k = Some a /\ named j a t1.
Proof. intros HR HT. destruct (ni_tr _ _ (ninv_run _ _ _ _ _ _ _ _ HR) _ _ _ HT) as (i & <- & H). exact H. Qed.
Lemma offered_named cf t f outs urls l c tr t1 j a b t2 : crun cf l (client_start cf t f outs urls) = (c, tr) ->
  tr = t1 ++ VMgr (GAdd j a b) :: t2 -> named j a t1.
Proof. intros HR HT. destruct (ni_tr _ _ (ninv_run _ _ _ _ _ _ _ _ HR) _ _ _ HT) as (i & <- & H). exact H. Qed.

(* ---------- handshakes ---------- *)
Lemma shakes_app a b : shakes (a ++ b) = shakes a ++ shakes b.
Proof. apply flat_map_app. Qed.
Lemma chunks evs : exists cs tl, evs = map Chunk cs ++ tl /\ forall b tl', tl <> Chunk b :: tl'.
Proof.
  induction evs as [|e evs (cs & tl & -> & H)]; [exists [], []; split; [reflexivity|discriminate]|].
  destruct e as [b| |]; [exists (b :: cs), tl; auto|exists [], (Timeout :: map Chunk cs ++ tl)|exists [], (Eof :: map Chunk cs ++ tl)]; (split; [reflexivity|discriminate]).
Qed.
Lemma shaken_greets cf c k x : shaken cf c k x = true -> greets (t_hash (sh_t (wo_sh (c_wo c)))) (x_evs x) /\ conn_closed (c_mgr c) k = false.
Proof.
  unfold shaken. intros H. apply andb_true_iff in H. destruct H as [H1 H2]. split; [|destruct (conn_closed _ _); [discriminate|reflexivity]].
  destruct (chunks (x_evs x)) as (cs & tl & E & HT). rewrite E in *.
  destruct (snd (Announce _ _ _ _ _)) eqn:EA; [|discriminate]. apply announce_ok in EA; [|exact HT].
  destruct EA as (_ & _ & res & pid & r & E1 & E2 & E3 & E4). exists cs, tl, res, pid, r. auto.
Qed.
Lemma shakes_mgr es : shakes (map VMgr es) = [].
Proof. unfold shakes. induction es as [|e es IH]; [reflexivity|]. cbn. exact IH. Qed.
Lemma shakes_sys es : shakes (sysev es) = [].
Proof. unfold shakes, sysev. induction es as [|e es IH]; [reflexivity|]. cbn. exact IH. Qed.

(* a peer whose Run has been started *)
Definition in_run (g : mgr) (k : nat) : Prop := exists p, nth_error (g_peers g) k = Some p /\ (mp_state p = PsRun \/ mp_state p = PsEnded).
Lemma gexec_in_run g tr a g' es k : ginv g tr -> gexec a g = (g', es) -> in_run g k -> in_run g' k.
Proof.
  intros IV H (p & Hp & Hs).
  assert (SAME : forall h, g_peers h = g_peers g -> (h, @nil gev) = (g', es) -> in_run g' k).
  { intros h E X. inversion X; subst. exists p. rewrite E. auto. }
  unfold gexec in H. destruct (g_panic g); [eapply SAME; [reflexivity|exact H]|].
  destruct a as [n|j i|k0| | |].
  - destruct (g_started g); (eapply SAME; [|exact H]); reflexivity.
  - destruct (nth_error (g_trk g) j) as [c|] eqn:EJ; [|eapply SAME; [reflexivity|exact H]].
    destruct (tstep g j c i) as [[g1 es1]|] eqn:ET; [|eapply SAME; [reflexivity|exact H]]. inversion H; subst; clear H.
    pose proof (tstep_eff _ _ _ _ _ _ _ IV EJ ET) as EF. inversion EF; subst; try (exists p; cbn; auto; fail).
    + exists p. cbn. rewrite nth_error_app1; [auto|]. apply nth_error_Some. congruence.
    + match goal with X : owner c = Some ?k1 |- _ => destruct (Nat.eq_dec k k1) as [->|NE] end.
      * exfalso. match goal with X : owner c = Some _ |- _ => destruct (iv_own _ _ IV _ _ _ EJ X) as (q & Q1 & Q2) end. assert (q = p) by congruence. subst. destruct Hs; congruence.
      * exists p. cbn. rewrite nth_upd_other by exact NE. auto.
  - destruct (nth_error (g_peers g) k0) as [q|] eqn:E0; [|eapply SAME; [reflexivity|exact H]].
    destruct (mp_state q) eqn:Eq; try (eapply SAME; [reflexivity|exact H]). inversion H; subst.
    destruct (Nat.eq_dec k k0) as [->|NE].
    + exists (mkMp (mp_addr q) (mp_conn q) PsEnded). cbn. split; [eapply nth_upd_same; exact E0|auto].
    + exists p. cbn. rewrite nth_upd_other by exact NE. auto.
  - eapply SAME; [|exact H]; reflexivity.
  - destruct (g_stop g); (eapply SAME; [|exact H]); [reflexivity|]. unfold stop_check. destruct (g_pool g); [destruct (g_started g)|]; reflexivity.
  - destruct (g_stop g); (eapply SAME; [|exact H]); [|reflexivity]. unfold stop_close. destruct (close_all _ _ _); reflexivity.
Qed.
Lemma mgr_in_run cf a c c' es tr k : ginv (c_mgr c) tr -> cexec cf a c = (c', es) -> in_run (c_mgr c) k -> in_run (c_mgr c') k.
Proof. intros IV HE H. apply cexec_mgr in HE. destruct HE as [[-> _]|(x & X & _)]; [exact H|]. eapply gexec_in_run; eassumption. Qed.

Record sinv (h : bytes) (c : client) (tr : list cev) : Prop := {
  si_g : ginv (c_mgr c) (gevs tr);
  si_hash : t_hash (sh_t (wo_sh (c_wo c))) = h;
  si_run : c_run c = map fst (shakes tr);
  si_nodup : NoDup (map fst (shakes tr));
  si_state : forall k, In k (map fst (shakes tr)) -> in_run (c_mgr c) k;
  si_greet : forall k evs, In (k, evs) (shakes tr) -> greets h evs;
  si_sys : forall t1 k e t2, tr = t1 ++ VSys k e :: t2 -> exists p evs, nth_error (shakes t1) k = Some (p, evs)
}.
Lemma sysev_who k es0 s k' e t : sysev (map (pair k) es0) = s ++ VSys k' e :: t -> k' = k.
Proof.
  unfold sysev. rewrite map_map. cbn. intros H. apply map_eq_app in H. destruct H as (l1 & l2 & _ & _ & H). destruct l2; inversion H. reflexivity.
Qed.
Lemma sinv_step cf h c tr a c' es : sinv h c tr -> cexec cf a c = (c', es) -> sinv h c' (tr ++ es).
Proof.
  intros I HE.
  assert (G' : ginv (c_mgr c') (gevs (tr ++ es))).
  { rewrite gevs_app. destruct (cexec_mgr _ _ _ _ _ HE) as [[E1 E2]|(x & X & _)]; [rewrite E1, E2, app_nil_r; apply I|eapply gexec_inv; [apply I|exact X]]. }
  assert (ST : forall k, In k (map fst (shakes tr)) -> in_run (c_mgr c') k).
  { intros k Hk. eapply mgr_in_run; [apply I|exact HE|]. apply (si_state _ _ _ I). exact Hk. }
  assert (PLAIN : shakes es = [] -> c_run c' = c_run c -> (forall s k e t, es = s ++ VSys k e :: t -> exists p, nth_error (c_run c) k = Some p) -> sinv h c' (tr ++ es)).
  { intros E1 E2 E3. constructor; rewrite ?shakes_app, ?E1, ?app_nil_r, ?E2; try apply I; try exact G'; try exact ST.
    - rewrite (cexec_hash _ _ _ _ _ HE). apply I.
    - intros t1 k e t2 X. apply split_app in X. destruct X as [(u & -> & ->)|(s & -> & ->)]; [eapply (si_sys _ _ _ I); reflexivity|].
      destruct (E3 _ _ _ _ eq_refl) as (p & Hp). rewrite (si_run _ _ _ I), nth_error_map in Hp. rewrite shakes_app. destruct (nth_error (shakes tr) k) as [[q evs]|] eqn:Q; [|discriminate].
      exists q, evs. rewrite nth_error_app1; [exact Q|]. apply nth_error_Some. congruence. }
  assert (NS : forall l (s : list cev) k e t, map VMgr l = s ++ VSys k e :: t -> False).
  { intros l s k e t X. apply map_eq_app in X. destruct X as (l1 & l2 & _ & _ & X). destruct l2; discriminate. }
  pose proof HE as HM. apply cexec_move in HM. destruct HM as [[-> ->]|(D & _ & M)]; [rewrite app_nil_r; exact I|].
  inversion M; subst; clear M; cbn [c_run mgr_step sys_step cnt_step set_ctr] in *;
    try (apply PLAIN; [first [reflexivity|apply shakes_mgr]|reflexivity|intros s0 k0 e0 t0 X; exfalso; first [eapply NS; exact X|destruct s0; discriminate]]; fail).
  - (* a handshake *)
    match goal with X : shaken _ _ _ _ = true |- _ => pose proof (shaken_greets _ _ _ _ X) as [GR _] end. rewrite (si_hash _ _ _ I) in GR.
    assert (SE : shakes (VShake k (x_evs x) :: map VMgr (snd (gexec (XTrk j (tin_of false true x)) (c_mgr c)))) = [(k, x_evs x)]).
    { change (shakes (VShake k (x_evs x) :: ?l)) with ((k, x_evs x) :: shakes l). now rewrite shakes_mgr. }
    assert (OWN : exists p, nth_error (g_peers (c_mgr c)) k = Some p /\ mp_state p = PsNew).
    { eapply (iv_own _ _ (si_g _ _ _ I)); [eassumption|reflexivity]. }
    destruct OWN as (p & P1 & P2).
    constructor; rewrite ?shakes_app, ?SE, ?map_app; cbn [map fst].
    + exact G'.
    + rewrite (cexec_hash _ _ _ _ _ HE). apply I.
    + cbn [c_run]. f_equal. apply I.
    + apply nodup_snoc; [apply I|]. intros HI. apply (si_state _ _ _ I) in HI. destruct HI as (q & Q1 & Q2). assert (q = p) by congruence. subst. destruct Q2; congruence.
    + intros k0 Hk. apply in_app_iff in Hk. destruct Hk as [Hk|[<-|[]]]; [apply ST; exact Hk|]. cbn [c_mgr].
      apply alive in D. destruct D as [_ DP]. unfold gexec. rewrite DP. match goal with X : nth_error (g_trk (c_mgr c)) j = Some _ |- _ => rewrite X end.
      cbn [tstep tin_of i_shake]. rewrite P1. cbn. exists (mkMp (mp_addr p) (mp_conn p) PsRun). split; [eapply nth_upd_same; exact P1|auto].
    + intros k0 evs Hk. apply in_app_iff in Hk. destruct Hk as [Hk|[Hk|[]]]; [eapply (si_greet _ _ _ I); exact Hk|]. inversion Hk; subst. exact GR.
    + intros t1 k0 e t2 X. apply split_app in X. destruct X as [(u & -> & ->)|(s & X & ->)]; [eapply (si_sys _ _ _ I); reflexivity|].
      exfalso. destruct s as [|y s]; cbn [app] in X; inversion X. eapply NS. eassumption.
  - apply PLAIN; [|reflexivity|].
    + assert (NA : forall l0, shakes (e :: l0) = shakes l0).
      { intros l0. unfold tracker_announce in *. destruct (ct_trk tr0); try discriminate; destruct rp; try discriminate.
        - destruct (HttpAnnounce _ _). match goal with X : Some _ = Some _ |- _ => inversion X end. reflexivity.
        - destruct (UdpAnnounce _ _ _ _ _ _ _ _ _) as [[? ?] ?]. match goal with X : Some _ = Some _ |- _ => inversion X end. reflexivity. }
      rewrite NA. apply shakes_mgr.
    + intros s k0 e0 t0 X. exfalso. destruct s as [|y s]; cbn [app] in X; inversion X; subst; [|eapply NS; eassumption].
      unfold tracker_announce in *. destruct (ct_trk tr0); try discriminate; destruct rp; try discriminate.
      * destruct (HttpAnnounce _ _). discriminate.
      * destruct (UdpAnnounce _ _ _ _ _ _ _ _ _) as [[? ?] ?]. discriminate.
  - apply PLAIN; [apply shakes_sys|reflexivity|]. intros s k0 e t X.
    assert (EX : exists es0, snd (exec (cf_sha1 cf) (APeer k (inp_of c p i)) (c_wo c)) = map (pair k) es0).
    { unfold exec. destruct (crashed (c_wo c)); [exists []; reflexivity|]. destruct (nth_error (wo_peers (c_wo c)) k) as [r|]; [|exists []; reflexivity].
      destruct (pstep _ _ _ r) as [[[s' r'] es']|]; [eexists; reflexivity|exists []; reflexivity]. }
    destruct EX as (es0 & EX). rewrite EX in X. apply sysev_who in X. subst k0. eauto.
Qed.
Lemma sinv_run cf t f outs urls l c tr : crun cf l (client_start cf t f outs urls) = (c, tr) -> sinv (t_hash t) c tr.
Proof.
  intros HR. refine (crun_inv cf (sinv (t_hash t)) (fun _ => True) _ _ _ l c tr _ HR).
  - constructor; cbn; auto; [apply ginv_start|constructor|contradiction|contradiction|]. intros [|? ?] k e t2 X; discriminate.
  - intros. eapply sinv_step; eassumption.
  - apply Forall_forall. auto.
Qed.
Lemma known_more j k t1 t2 : known_at t1 j k -> known_at (t1 ++ t2) j k.
Proof. intros (a & H1 & H2). exists a. split; [rewrite gevs_app; now apply added_more|now apply named_more]. Qed.
Lemma shakes_in tr k evs : In (k, evs) (shakes tr) -> exists t1 t2, tr = t1 ++ VShake k evs :: t2.
Proof.
  unfold shakes. intros H. apply in_flat_map in H. destruct H as (e & H1 & H2). destruct e; try contradiction. destruct H2 as [H2|[]]. inversion H2; subst. apply in_split. exact H1.
Qed.
Lemma run_after_handshake cf t f outs urls l c tr t1 k e t2 : crun cf l (client_start cf t f outs urls) = (c, tr) ->
  tr = t1 ++ VSys k e :: t2 -> exists p evs j a, nth_error (shakes t1) k = Some (p, evs) /\ greets (t_hash t) evs /\
    nth_error (added (gevs t1)) p = Some a /\ named j a t1.
Proof.
  intros HR HT. pose proof (sinv_run _ _ _ _ _ _ _ _ HR) as SI. destruct (si_sys _ _ _ SI _ _ _ _ HT) as (p & evs & Hk). exists p, evs.
  pose proof (nth_error_In _ _ Hk) as HI. destruct (shakes_in _ _ _ HI) as (u1 & u2 & HU). subst t1.
  destruct (ni_shake _ _ (ninv_run _ _ _ _ _ _ _ _ HR) u1 p evs (u2 ++ VSys k e :: t2)) as (j & Hj); [rewrite HT; now rewrite <- app_assoc|].
  apply known_more with (t2 := VShake p evs :: u2) in Hj. destruct Hj as (a & A1 & A2). exists j, a. split; [exact Hk|]. split; [|auto].
  eapply (si_greet _ _ _ SI p). rewrite HT, shakes_app. apply in_app_iff. left. exact HI.
Qed.
Lemma shaken_once cf t f outs urls l c tr : crun cf l (client_start cf t f outs urls) = (c, tr) -> NoDup (map fst (shakes tr)).
Proof. intros HR. apply (si_nodup _ _ _ (sinv_run _ _ _ _ _ _ _ _ HR)). Qed.
