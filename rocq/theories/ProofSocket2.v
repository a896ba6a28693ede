(* Connections of peers, and what was read from them: C164.                    *)
From Verif Require Import Base ProofBase SpecPath SpecMsg SpecPeer SpecTorrent SpecManager SpecClient SpecCorrupt SpecSocket.
From Verif Require Import ModelBitset ModelMsg ModelTorrent ModelConn ModelStats ModelPeer ModelSystem ModelTracker ModelManager ModelClient ModelSocket.
From Verif Require Import ProofMsg ProofConn ProofSystem ProofProgress ProofManager ProofManager2 ProofManager4 ProofClient ProofClient2 ProofClient3 ProofCorrupt ProofSocket.

(* ---------- which peer has which connection ---------- *)
Definition shaking (c : tpc) : option nat := match c with TPShake k _ _ => Some k | _ => None end.
Lemma conn_upd g ps' k p k' : g_peers g = ps' -> nth_error ps' k = Some p -> forall p', mp_conn p' = mp_conn p ->
  match nth_error (upd ps' k p') k' with Some x => mp_conn x | None => None end = conn_of g k'.
Proof.
  intros E H p' HC. unfold conn_of. rewrite E. destruct (Nat.eq_dec k' k) as [->|NE].
  - rewrite (nth_upd_same _ _ _ _ H), H. exact HC.
  - now rewrite nth_upd_other by exact NE.
Qed.
Inductive tconn (g : mgr) (j : nat) (c : tpc) (g' : mgr) : Prop :=
| tc_same : (forall k, conn_of g' k = conn_of g k \/ owner c = Some k /\ conn_of g' k = None) -> length (g_conns g') = length (g_conns g) ->
    (forall j' pc, nth_error (g_trk g') j' = Some pc -> shaking pc <> None -> j' <> j /\ nth_error (g_trk g) j' = Some pc) -> tconn g j c g'
| tc_dial k n ips : c = TPDial k n ips -> conn_of g' k = Some (length (g_conns g)) -> (forall k', k' <> k -> conn_of g' k' = conn_of g k') ->
    length (g_conns g') = S (length (g_conns g)) -> g_trk g' = upd (g_trk g) j (TPShake k n ips) -> tconn g j c g'.
Lemma trk_upd g j pc' j' pc : nth_error (upd (g_trk g) j pc') j' = Some pc -> shaking pc' = None -> shaking pc <> None -> j' <> j /\ nth_error (g_trk g) j' = Some pc.
Proof. intros H H1 H2. apply nth_upd in H. destruct H as [[-> ->]|[NE H]]; [congruence|auto]. Qed.
Lemma trk_same g j c j' pc : nth_error (g_trk g) j = Some c -> shaking c = None -> nth_error (g_trk g) j' = Some pc -> shaking pc <> None -> j' <> j /\ nth_error (g_trk g) j' = Some pc.
Proof. intros H H1 H2 H3. split; [|exact H2]. intros ->. congruence. Qed.
Lemma failed_conn g k k' : conn_of (peer_failed g k) k' = conn_of g k'.
Proof. unfold peer_failed. destruct (nth_error (g_peers g) k) as [p|] eqn:E; [|reflexivity]. unfold set_num, set_peers, conn_of at 1. cbn [g_peers]. eapply conn_upd; [reflexivity|exact E|reflexivity]. Qed.
Lemma failed_conns g k : g_conns (peer_failed g k) = g_conns g.
Proof. unfold peer_failed. destruct (nth_error (g_peers g) k); reflexivity. Qed.
Lemma failed_trk g k : g_trk (peer_failed g k) = g_trk g.
Proof. unfold peer_failed. destruct (nth_error (g_peers g) k); reflexivity. Qed.
Lemma after_conn g j k n ips k' : conn_of (after_failure g j k n ips) k' = conn_of g k'.
Proof. unfold after_failure. destruct (Nat.eqb n 4); [exact (failed_conn g k k')|reflexivity]. Qed.
Lemma after_conns g j k n ips : g_conns (after_failure g j k n ips) = g_conns g.
Proof. unfold after_failure. destruct (Nat.eqb n 4); [exact (failed_conns g k)|reflexivity]. Qed.
Lemma after_trk g j k n ips : exists pc, g_trk (after_failure g j k n ips) = upd (g_trk g) j pc /\ shaking pc = None.
Proof. unfold after_failure. destruct (Nat.eqb n 4); unfold set_trk; cbn [g_trk]; [rewrite failed_trk|]; eexists; split; reflexivity. Qed.
Lemma tstep_conn g j c i g' es tr : ginv g tr -> nth_error (g_trk g) j = Some c -> tstep g j c i = Some (g', es) -> tconn g j c g'.
Proof.
  intros IV Hj H. pose proof (fun k => iv_own _ _ IV j c k) as OW.
  assert (S : forall pc', shaking pc' = None -> tconn g j c (set_trk g j pc')).
  { intros pc' HP. apply tc_same; [intros k; now left|reflexivity|]. intros j' pc HH. now apply trk_upd with (pc' := pc'). }
  assert (P : shaking c = None -> tconn g j c (set_panic g)).
  { intros HP. apply tc_same; [intros k; now left|reflexivity|]. intros j' pc HH. now apply trk_same with (c := c). }
  destruct c as [| |n|n|[|a ips]|k ips|k n ips|k n ips|k n ips| |]; cbn [tstep] in H.
  - inversion H; subst. apply S. destruct (i_new i); reflexivity.
  - destruct (g_cancel g); inversion H; subst; apply S; reflexivity.
  - destruct (i_ann i); inversion H; subst; first [apply P; reflexivity|apply S; destruct (Nat.eqb n 4); try destruct (g_cancel g); reflexivity].
  - destruct (i_timer i); [|destruct (g_cancel g); [|discriminate]]; inversion H; subst; apply S; reflexivity.
  - inversion H; subst. apply S. reflexivity.
  - unfold AddPeer in H. destruct (g_pool g) as [m|]; [|inversion H; subst; apply P; reflexivity]. destruct (pool_get m (apString a)); inversion H; subst; [apply S; reflexivity|].
    apply tc_same; [|reflexivity|intros j' pc HH; now apply trk_upd with (pc' := TPStart (length (g_peers g)) ips)].
    intros k. left. unfold conn_of. cbn [set_trk g_peers]. destruct (lt_dec k (length (g_peers g))) as [L|L]; [now rewrite nth_error_app1 by exact L|].
    rewrite nth_error_app2 by lia. rewrite (proj2 (nth_error_None (g_peers g) k)) by lia. destruct (k - length (g_peers g))%nat as [|x]; [reflexivity|destruct x; reflexivity].
  - destruct (g_cancel g); inversion H; subst; [|apply S; reflexivity].
    apply tc_same; [intros k'; left; exact (failed_conn g k k')|cbn [set_trk g_conns]; now rewrite failed_conns|].
    intros j' pc HH. cbn [set_trk g_trk] in HH. rewrite failed_trk in HH. now apply trk_upd with (pc' := TInit ips).
  - destruct (OW k Hj eq_refl) as (p & Hp & _). rewrite Hp in H. destruct (i_dial i && _); inversion H; subst.
    + eapply tc_dial; try reflexivity.
      * unfold conn_of. cbn [g_peers]. now rewrite (nth_upd_same _ _ _ _ Hp).
      * intros k' NE. unfold conn_of. cbn [g_peers]. now rewrite nth_upd_other by exact NE.
      * cbn [g_conns]. rewrite app_length. cbn. lia.
    + apply tc_same.
      * intros k'. rewrite after_conn. unfold conn_of, set_peers. cbn [g_peers]. destruct (Nat.eq_dec k' k) as [->|NE].
        -- right. split; [reflexivity|]. now rewrite (nth_upd_same _ _ _ _ Hp).
        -- left. now rewrite nth_upd_other by exact NE.
      * now rewrite after_conns.
      * intros j' pc HH. match type of HH with context [after_failure ?a ?b ?d ?e ?f] => destruct (after_trk a b d e f) as (pc' & E & E') end. rewrite E in HH. cbn [set_peers g_trk] in HH. now apply trk_upd with (pc' := pc').
  - destruct (OW k Hj eq_refl) as (p & Hp & _). rewrite Hp in H. destruct (i_shake i); inversion H; subst.
    + apply tc_same; [|reflexivity|intros j' pc HH; now apply trk_upd with (pc' := TInit ips)]. intros k'. left. unfold conn_of at 1. cbn [set_trk set_peers g_peers]. eapply conn_upd; [reflexivity|exact Hp|reflexivity].
    + apply tc_same; [intros k'; left; apply after_conn|now rewrite after_conns|]. intros j' pc HH. destruct (after_trk g j k n ips) as (pc' & E & E'). rewrite E in HH. now apply trk_upd with (pc' := pc').
  - destruct (i_timer i); [|destruct (g_cancel g); [|discriminate]]; inversion H; subst; [apply S; reflexivity|].
    apply tc_same; [intros k'; left; exact (failed_conn g k k')|cbn [set_trk g_conns]; now rewrite failed_conns|].
    intros j' pc HH. cbn [set_trk g_trk] in HH. rewrite failed_trk in HH. now apply trk_upd with (pc' := TInit ips).
  - destruct (i_timer i); [|destruct (g_cancel g); [|discriminate]]; inversion H; subst; apply S; reflexivity.
  - discriminate.
Qed.
(* what a step of the manager does to connections *)
Inductive gconn (g : mgr) (a : gact) (g' : mgr) : Prop :=
| gc_same : (forall k, conn_of g' k = conn_of g k \/ ~ in_run g k /\ conn_of g' k = None /\ exists j i pc, a = XTrk j i /\ nth_error (g_trk g) j = Some pc /\ owner pc = Some k) -> length (g_conns g') = length (g_conns g) ->
    (forall j pc, nth_error (g_trk g') j = Some pc -> shaking pc <> None -> (forall i, a = XTrk j i -> g_panic g = true) /\ nth_error (g_trk g) j = Some pc) -> gconn g a g'
| gc_dial j i k n ips : a = XTrk j i -> nth_error (g_trk g) j = Some (TPDial k n ips) -> ~ in_run g k -> conn_of g' k = Some (length (g_conns g)) -> (forall k', k' <> k -> conn_of g' k' = conn_of g k') ->
    length (g_conns g') = S (length (g_conns g)) -> g_trk g' = upd (g_trk g) j (TPShake k n ips) -> gconn g a g'.
Lemma owned_new g tr j c k : ginv g tr -> nth_error (g_trk g) j = Some c -> owner c = Some k -> ~ in_run g k.
Proof. intros IV Hj HO (p & Hp & Hs). destruct (iv_own _ _ IV _ _ _ Hj HO) as (q & Q1 & Q2). assert (q = p) by congruence. subst. destruct Hs; congruence. Qed.
Lemma gexec_conn g tr a g' es : ginv g tr -> gexec a g = (g', es) -> gconn g a g'.
Proof.
  intros IV H. unfold gexec in H. destruct (g_panic g) eqn:EP.
  { inversion H; subst. apply gc_same; auto. }
  assert (S : forall h, g_peers h = g_peers g -> length (g_conns h) = length (g_conns g) -> g_trk h = g_trk g -> (forall j i, a = XTrk j i -> nth_error (g_trk g) j = None \/ exists c, nth_error (g_trk g) j = Some c /\ tstep g j c i = None) -> gconn g a h).
  { intros h E1 E2 E3 E4. apply gc_same; [intros k; left; unfold conn_of; now rewrite E1|exact E2|]. intros j pc HH HS. rewrite E3 in HH. split; [|exact HH]. intros i Ei. destruct (E4 _ _ Ei) as [X|(c & X & Y)]; [congruence|].
    exfalso. rewrite HH in X. inversion X; subst c. destruct pc as [| | | | | | |k n ips| | |]; cbn [shaking] in HS; try congruence. cbn [tstep] in Y.
    destruct (iv_own _ _ IV _ _ k HH eq_refl) as (p & Hp & _). rewrite Hp in Y. destruct (i_shake i); discriminate. }
  destruct a as [n|j i|k0| | |].
  - destruct (g_started g) eqn:ES; inversion H; subst; [apply S; try reflexivity; discriminate|]. apply gc_same; [intros k; now left|reflexivity|]. cbn [g_trk]. intros j pc HH HS.
    apply nth_error_In, repeat_spec in HH. subst pc. cbn in HS. congruence.
  - destruct (nth_error (g_trk g) j) as [c|] eqn:EJ; [|inversion H; subst; apply S; try reflexivity; intros ? ? X; inversion X; subst; now left].
    destruct (tstep g j c i) as [[g1 es1]|] eqn:ET; [|inversion H; subst; apply S; try reflexivity; intros ? ? X; inversion X; subst; right; eauto]. inversion H; subst g1 es1.
    destruct (tstep_conn _ _ _ _ _ _ _ IV EJ ET) as [A B C|k n ips -> A B C D].
    + apply gc_same; [|exact B|].
      * intros k. destruct (A k) as [X|[X Y]]; [now left|]. right. split; [eapply owned_new; eassumption|]. split; [exact Y|]. exists j, i, c. auto.
      * intros j' pc HH HS. destruct (C _ _ HH HS) as [X Y]. split; [|exact Y]. intros i' X'. congruence.
    + eapply gc_dial; try eassumption; try reflexivity. eapply owned_new; [exact IV|exact EJ|reflexivity].
  - destruct (nth_error (g_peers g) k0) as [q|] eqn:E0; [|inversion H; subst; apply S; try reflexivity; discriminate].
    destruct (mp_state q) eqn:Eq; inversion H; subst; try (apply S; try reflexivity; discriminate). apply gc_same; [|reflexivity|intros j pc HH HS; split; [discriminate|exact HH]].
    intros k. left. unfold conn_of at 1. cbn [set_peers g_peers]. eapply conn_upd; [reflexivity|exact E0|reflexivity].
  - inversion H; subst. apply S; try reflexivity; discriminate.
  - destruct (g_stop g); inversion H; subst; apply S; try reflexivity; try discriminate; unfold stop_check; destruct (g_pool g); [destruct (g_started g)| |destruct (g_started g)| |destruct (g_started g)|]; reflexivity.
  - destruct (g_stop g); inversion H; subst; [|apply S; try reflexivity; discriminate]. unfold stop_close. destruct (close_all g _ (g_conns g)) as [cs|] eqn:EC; apply S; try reflexivity; try discriminate.
    cbn [g_conns]. apply close_all_length in EC. exact EC.
Qed.

(* ---------- what was read ---------- *)
(* calls of ReadPeerMessage, with the bodies they returned *)
Inductive consumed (s : list ev) : list bytes -> list ev -> Prop :=
| co_nil : consumed s [] s
| co_ok bs s1 b s2 : consumed s bs s1 -> ReadPeerMessage s1 = (ROk b, s2) -> consumed s (bs ++ [b]) s2
| co_err bs s1 e s2 : consumed s bs s1 -> ReadPeerMessage s1 = (RErr e, s2) -> consumed s bs s2.
Definition ebody (es : list event) : list bytes := flat_map (fun e => match e with EReadOk b => [b] | _ => [] end) es.
Lemma pstep_body sha1 i s r s' r' es : pstep sha1 i s r = Some (s', r', es) -> ebody es = if at_read r then match i_read i with Some b => [b] | None => [] end else [].
Proof.
  intros H. unfold at_read. unfold pstep in H. destruct (r_pc r) eqn:EP; unfold wait, create in H;
    repeat match type of H with context [match ?x with _ => _ end] => destruct x eqn:? end; inversion H; subst; reflexivity.
Qed.
Lemma body_sys k es0 k' : bodies_of k' (sevs (sysev (map (pair k) es0))) = if Nat.eqb k k' then ebody es0 else [].
Proof.
  unfold bodies_of, events_of, sysev, sevs, ebody. induction es0 as [|e es0 IH]; cbn [map flat_map filter app fst snd]; [now destruct (Nat.eqb k k')|].
  destruct (Nat.eqb k k'); cbn [map flat_map snd]; [now rewrite IH|exact IH].
Qed.
Lemma body_mgr k es : bodies_of k (sevs (map VMgr es)) = [].
Proof. replace (sevs (map VMgr es)) with (@nil (nat * event)); [reflexivity|]. unfold sevs. induction es as [|e es IH]; [reflexivity|]. cbn. exact IH. Qed.

Record winv (h : bytes) (ss0 : list (list ev)) (c : client) (ss : list (list ev)) (tr : list cev) : Prop := {
  wi_s : sinv h c tr;
  wi_len : (length (g_trk (c_mgr c)) <= length (c_trk c))%nat;
  wi_one : forall k k' q, conn_of (c_mgr c) k = Some q -> conn_of (c_mgr c) k' = Some q -> k = k';
  wi_shaking : forall j pc k, nth_error (g_trk (c_mgr c)) j = Some pc -> shaking pc = Some k -> exists q, conn_of (c_mgr c) k = Some q /\ sock ss q = sock ss0 q;
  wi_fresh : forall q, (length (g_conns (c_mgr c)) <= q)%nat -> sock ss q = sock ss0 q;
  wi_run : forall k p, nth_error (c_run c) k = Some p -> exists q hs s1, conn_of (c_mgr c) p = Some q /\ nth_error (shakes tr) k = Some (p, sock ss0 q) /\
             ReadPeerHandshake (sock ss0 q) = (ROk hs, s1) /\ consumed s1 (bodies_of k (sevs tr)) (sock ss q)
}.
Lemma conn_lt g tr k q : ginv g tr -> conn_of g k = Some q -> (q < length (g_conns g))%nat.
Proof. intros I H. unfold conn_of in H. destruct (nth_error (g_peers g) k) as [p|] eqn:E; [|discriminate]. eapply iv_conns; [apply I|exact E|exact H]. Qed.
Lemma run_in_run h c tr k p : sinv h c tr -> nth_error (c_run c) k = Some p -> in_run (c_mgr c) p.
Proof. intros I H. apply (si_state _ _ _ I). rewrite <- (si_run _ _ _ I). eapply nth_error_In. exact H. Qed.
Lemma shaking_owner pc k : shaking pc = Some k -> owner pc = Some k.
Proof. destruct pc; cbn; congruence. Qed.

(* what stays true whatever the manager does *)
Lemma mgr_keep h ss0 c ss tr x g' e : winv h ss0 c ss tr -> g_panic (c_mgr c) = false -> gexec x (c_mgr c) = (g', e) ->
  (forall k k' q, conn_of g' k = Some q -> conn_of g' k' = Some q -> k = k') /\
  (forall j pc k, nth_error (g_trk g') j = Some pc -> shaking pc = Some k -> exists q, conn_of g' k = Some q /\ sock ss q = sock ss0 q) /\
  (length (g_conns (c_mgr c)) <= length (g_conns g'))%nat /\
  (forall p, in_run (c_mgr c) p -> conn_of g' p = conn_of (c_mgr c) p) /\
  (forall j i n ips k j' pc k', x = XTrk j i -> nth_error (g_trk (c_mgr c)) j = Some (TPShake k n ips) -> nth_error (g_trk g') j' = Some pc -> shaking pc = Some k' -> k' <> k /\ conn_of g' k' = conn_of (c_mgr c) k').
Proof.
  intros I DP HG. pose proof (si_g _ _ _ (wi_s _ _ _ _ _ I)) as IV. pose proof (gexec_conn _ _ _ _ _ IV HG) as G. clear HG e.
  assert (SH : forall A C, (forall k, conn_of g' k = conn_of (c_mgr c) k \/ ~ in_run (c_mgr c) k /\ conn_of g' k = None /\ exists j i pc, x = XTrk j i /\ nth_error (g_trk (c_mgr c)) j = Some pc /\ owner pc = Some k) ->
     nth_error (g_trk (c_mgr c)) A = Some C -> (forall i, x <> XTrk A i) -> forall k, shaking C = Some k -> conn_of g' k = conn_of (c_mgr c) k).
  { intros j C A H1 H2 k H3. destruct (A k) as [Y|(_ & _ & j' & i & pc' & Y1 & Y2 & Y3)]; [exact Y|]. exfalso. assert (j = j').
    { eapply (iv_sole _ _ IV); [exact H1|exact Y2|apply shaking_owner; exact H3|exact Y3]. }
    subst j'. exact (H2 _ Y1). }
  split; [|split; [|split; [|split]]].
  - intros k k' q H1 H2. destruct G as [A _ _|j i k0 n ips _ _ NI X B _ _].
    + destruct (A k) as [Y|(_ & Y & _)]; [|congruence]. destruct (A k') as [Y'|(_ & Y' & _)]; [|congruence]. rewrite Y in H1. rewrite Y' in H2. eapply (wi_one _ _ _ _ _ I); eassumption.
    + destruct (Nat.eq_dec k k0) as [->|NE], (Nat.eq_dec k' k0) as [->|NE']; [reflexivity| | |].
      * rewrite X in H1. rewrite (B _ NE') in H2. apply (conn_lt _ _ _ _ IV) in H2. inversion H1. lia.
      * rewrite X in H2. rewrite (B _ NE) in H1. apply (conn_lt _ _ _ _ IV) in H1. inversion H2. lia.
      * rewrite (B _ NE) in H1. rewrite (B _ NE') in H2. eapply (wi_one _ _ _ _ _ I); eassumption.
  - intros j pc k H1 H2. destruct G as [A _ C|j0 i k0 n ips X1 X2 NI X B _ D].
    + destruct (C _ _ H1 ltac:(congruence)) as [C1 C2]. destruct (wi_shaking _ _ _ _ _ I _ _ _ C2 H2) as (q & Q1 & Q2). exists q. split; [|exact Q2].
      rewrite (SH _ _ A C2); [exact Q1| |exact H2]. intros i Y. specialize (C1 _ Y). congruence.
    + rewrite D in H1. apply nth_upd in H1. destruct H1 as [[-> ->]|[NE H1]].
      * cbn in H2. inversion H2; subst k0. exists (length (g_conns (c_mgr c))). split; [exact X|]. apply (wi_fresh _ _ _ _ _ I). lia.
      * destruct (wi_shaking _ _ _ _ _ I _ _ _ H1 H2) as (q & Q1 & Q2). exists q. split; [|exact Q2]. rewrite B; [exact Q1|]. intros ->. apply NE.
        eapply (iv_sole _ _ IV); [exact H1|exact X2|apply shaking_owner; exact H2|reflexivity].
  - destruct G as [_ L _|j0 i k0 n ips _ _ _ _ _ L _]; lia.
  - intros p IR. destruct G as [A _ _|j i k0 n ips _ _ NI _ B _ _].
    + destruct (A p) as [X|(X & _)]; [exact X|contradiction].
    + apply B. intros ->. contradiction.
  - intros j i n ips k j' pc k' -> HJ H1 H2. destruct G as [A _ C|j0 i0 k0 n0 ips0 X1 X2 NI X B _ D]; [|inversion X1; subst; congruence].
    destruct (C _ _ H1 ltac:(congruence)) as [C1 C2]. assert (NJ : j' <> j) by (intros ->; specialize (C1 _ eq_refl); congruence). split.
    + intros ->. apply NJ. eapply (iv_sole _ _ IV); [exact C2|exact HJ|apply shaking_owner; exact H2|reflexivity].
    + apply (SH _ _ A C2); [|exact H2]. intros i' Y. inversion Y. congruence.
Qed.

(* how many trackers there are *)
Lemma tstep_len g j c i g' es : tstep g j c i = Some (g', es) -> length (g_trk g') = length (g_trk g).
Proof.
  assert (AF : forall g k n ips, length (g_trk (after_failure g j k n ips)) = length (g_trk g)) by (intros; destruct (after_trk g0 j k n ips) as (pc & E & _); rewrite E; apply upd_length).
  intros H. destruct c as [| |n|n|[|a ips]|k ips|k n ips|k n ips|k n ips| |]; cbn [tstep] in H; unfold AddPeer in H;
    try (destruct (g_pool g) as [m|]; [destruct (pool_get m (apString a))|]);
    repeat match type of H with context [match ?x with _ => _ end] => destruct x eqn:? end; inversion H; subst; cbn [set_trk set_peers set_panic g_trk]; rewrite ?AF, ?upd_length, ?failed_trk; reflexivity.
Qed.
Lemma gexec_len a g g' es : gexec a g = (g', es) -> length (g_trk g') = length (g_trk g) \/ exists n, a = XDownload n /\ length (g_trk g') = n.
Proof.
  intros H. unfold gexec in H. destruct (g_panic g); [inversion H; now left|]. destruct a as [n|j i|k0| | |].
  - destruct (g_started g); inversion H; subst; [now left|right]. exists n. split; [reflexivity|apply repeat_length].
  - left. destruct (nth_error (g_trk g) j) as [c|]; [|now inversion H]. destruct (tstep g j c i) as [[g1 e1]|] eqn:E; inversion H; subst; [|reflexivity]. eapply tstep_len. exact E.
  - left. destruct (nth_error (g_peers g) k0) as [p|]; [destruct (mp_state p)|]; inversion H; reflexivity.
  - left. inversion H. reflexivity.
  - left. destruct (g_stop g); inversion H; subst; [reflexivity|]. unfold stop_check. destruct (g_pool g); [destruct (g_started g)|]; reflexivity.
  - left. destruct (g_stop g); inversion H; subst; [|reflexivity]. unfold stop_close. destruct (close_all _ _ _); reflexivity.
Qed.
Lemma cexec_len cf a c c' es : cexec cf a c = (c', es) -> (length (g_trk (c_mgr c)) <= length (c_trk c))%nat -> (length (g_trk (c_mgr c')) <= length (c_trk c'))%nat.
Proof.
  intros HE L. apply cexec_move in HE. destruct HE as [[-> _]|(_ & _ & M)]; [exact L|].
  assert (G : forall x, (forall n, x = XDownload n -> n = length (c_trk c)) -> (length (g_trk (fst (gexec x (c_mgr c)))) <= length (c_trk c))%nat).
  { intros x X. destruct (gexec x (c_mgr c)) as [g' e] eqn:E. cbn [fst]. destruct (gexec_len _ _ _ _ E) as [->|(n & -> & ->)]; [exact L|]. rewrite (X _ eq_refl). lia. }
  inversion M; subst; cbn; rewrite ?upd_length; try exact L; try (apply G; intros ? X; inversion X; reflexivity).
  destruct (returned _ _); [apply G; discriminate|exact L].
Qed.

(* a step that reads nothing *)
Lemma winv_keep cf a h ss0 c ss tr c' es : winv h ss0 c ss tr -> g_panic (c_mgr c) = false -> cexec cf a c = (c', es) -> 
  c_run c' = c_run c -> shakes es = [] -> (forall k, bodies_of k (sevs es) = []) -> winv h ss0 c' ss (tr ++ es).
Proof.
  intros I DP HE HR HS HB.
  assert (K : (forall p, in_run (c_mgr c) p -> conn_of (c_mgr c') p = conn_of (c_mgr c) p) -> forall k p, nth_error (c_run c') k = Some p -> exists q hs s1, conn_of (c_mgr c') p = Some q /\ nth_error (shakes (tr ++ es)) k = Some (p, sock ss0 q) /\
             ReadPeerHandshake (sock ss0 q) = (ROk hs, s1) /\ consumed s1 (bodies_of k (sevs (tr ++ es))) (sock ss q)).
  { intros RN k p Hk. rewrite HR in Hk. destruct (wi_run _ _ _ _ _ I _ _ Hk) as (q & hs & s1 & W1 & W2 & W3 & W4). exists q, hs, s1. rewrite (RN _ (run_in_run _ _ _ _ _ (wi_s _ _ _ _ _ I) Hk)). split; [exact W1|].
    rewrite shakes_app, HS, app_nil_r. split; [exact W2|]. split; [exact W3|]. rewrite sevs_app, bodies_app, HB, app_nil_r. exact W4. }
  destruct (cexec_mgr _ _ _ _ _ HE) as [[E1 E2]|(x & X & _)].
  - constructor; [eapply sinv_step; [apply I|exact HE]|eapply cexec_len; [exact HE|apply I]| | | |apply K]; rewrite ?E1; try apply I. reflexivity.
  - destruct (mgr_keep _ _ _ _ _ _ _ _ I DP X) as (A & B & C & D & _).
    constructor; [eapply sinv_step; [apply I|exact HE]|eapply cexec_len; [exact HE|apply I]|exact A|exact B| |apply K; exact D].
    intros q Hq. apply (wi_fresh _ _ _ _ _ I). lia.
Qed.
Lemma sock_other ss q s q' : q' <> q -> sock (upd ss q s) q' = sock ss q'.
Proof. intros H. revert q q' H. induction ss as [|a ss IH]; intros [|q] [|q'] H; try reflexivity; [congruence|]. unfold sock in *. cbn [upd nth]. apply IH. congruence. Qed.
Lemma sock_same ss q s : (sock ss q = [] -> s = []) -> sock (upd ss q s) q = s.
Proof.
  intros H. destruct (lt_dec q (length ss)) as [L|L]; [apply upd_sock_same; exact L|]. unfold sock in *. rewrite nth_overflow in H by lia. rewrite H by reflexivity. apply nth_overflow. rewrite upd_length. lia.
Qed.
Lemma exec_peer_events sha1 k i w : crashed w = false -> snd (exec sha1 (APeer k i) w) = map (pair k) (match nth_error (wo_peers w) k with Some r => match pstep sha1 i (wo_sh w) r with Some (_, _, es) => es | None => [] end | None => [] end).
Proof. intros HC. unfold exec. rewrite HC. destruct (nth_error (wo_peers w) k) as [r|]; [|reflexivity]. destruct (pstep _ _ _ r) as [[[s' r'] es']|]; reflexivity. Qed.
(* what a step of a peer reads *)
Lemma peer_body cf c k i c' es : dead c = false -> cexec cf (KPeer k i) c = (c', es) -> c_run c' = c_run c /\ shakes es = [] /\
  forall k', bodies_of k' (sevs es) = match nth_error (c_run c) k, nth_error (wo_peers (c_wo c)) k with
    | Some p, Some r => if Nat.eqb k k' && at_read r && negb (conn_closed (c_mgr c) p) then match (if c_exit c then None else i_read i) with Some b => [b] | None => [] end else []
    | _, _ => [] end.
Proof.
  intros D HE. pose proof (alive _ D) as [HC HP]. unfold cexec in HE. rewrite D in HE. cbn [orb] in HE. destruct (c_exit c).
  { inversion HE; subst. split; [reflexivity|]. split; [reflexivity|]. intros k'. destruct (nth_error (c_run c') k), (nth_error (wo_peers (c_wo c')) k); try reflexivity. now destruct (_ && _ && _). }
  unfold peer_step in HE. destruct (nth_error (c_run c) k) as [p|] eqn:EP; [|inversion HE; subst; auto].
  fold (inp_of c p i) in HE. pose proof (exec_peer_events (cf_sha1 cf) k (inp_of c p i) (c_wo c) HC) as EE. destruct (exec (cf_sha1 cf) (APeer k (inp_of c p i)) (c_wo c)) as [w es0] eqn:EX. cbn [snd] in EE.
  inversion HE; subst. split; [reflexivity|]. split; [apply shakes_sys|]. intros k'. rewrite body_sys.
  destruct (nth_error (wo_peers (c_wo c)) k) as [r|] eqn:ER; [|now destruct (Nat.eqb k k')]. destruct (Nat.eqb k k'); [|reflexivity]. cbn [andb].
  destruct (pstep (cf_sha1 cf) (inp_of c p i) (wo_sh (c_wo c)) r) as [[[s' r'] es']|] eqn:PS.
  - rewrite (pstep_body _ _ _ _ _ _ _ PS). unfold inp_of. cbn [i_read]. destruct (at_read r), (conn_closed (c_mgr c) p); reflexivity.
  - cbn [ebody flat_map]. unfold at_read. unfold pstep in PS. destruct (r_pc r) eqn:Epc; try reflexivity; cbn in PS; repeat match type of PS with context [match ?x with _ => _ end] => destruct x eqn:? end; discriminate.
Qed.
Lemma handshake_nil : ReadPeerHandshake [] = (fst (ReadPeerHandshake []), []).
Proof. reflexivity. Qed.
Lemma message_nil : ReadPeerMessage [] = (fst (ReadPeerMessage []), []).
Proof. reflexivity. Qed.
(* steps of others than the peers and the trackers in a handshake *)
Lemma winv_quiet cf a h ss0 c ss tr c' es : winv h ss0 c ss tr -> dead c = false -> cexec cf a c = (c', es) ->
  (forall j x k n ips, a = KTrk j x -> nth_error (g_trk (c_mgr c)) j <> Some (TPShake k n ips)) -> (forall k i, a <> KPeer k i) -> winv h ss0 c' ss (tr ++ es).
Proof.
  intros I D HE H1 H2. pose proof (alive _ D) as [_ DP].
  assert (HH : c_run c' = c_run c /\ shakes es = [] /\ forall k, bodies_of k (sevs es) = []).
  { pose proof HE as HM. apply cexec_move in HM. destruct HM as [[-> ->]|(_ & _ & M)]; [auto|].
    inversion M; subst; clear M; cbn [c_run mgr_step sys_step cnt_step set_ctr prt_step end_step];
      try (split; [reflexivity|split; [first [reflexivity|apply shakes_mgr]|intros; first [reflexivity|apply body_mgr]]]; fail);
      try (exfalso; match goal with X : nth_error (g_trk _) _ = Some (TPShake _ _ _) |- _ => exact (H1 _ _ _ _ _ eq_refl X) end; fail); try (exfalso; eapply H2; reflexivity).
    split; [reflexivity|]. assert (NA : forall l0, shakes (e :: l0) = shakes l0 /\ sevs (e :: l0) = sevs l0).
    { intros l0. unfold tracker_announce in *. destruct (ct_trk tr0); try discriminate; destruct rp; try discriminate.
      - destruct (HttpAnnounce _ _). match goal with X : Some _ = Some _ |- _ => inversion X end. split; reflexivity.
      - destruct (UdpAnnounce _ _ _ _ _ _ _ _ _) as [[? ?] ?]. match goal with X : Some _ = Some _ |- _ => inversion X end. split; reflexivity. }
    destruct (NA (map VMgr (snd (gexec (XTrk j (mkTin false (ann_in c a0) false false false)) (c_mgr c))))) as [N1 N2]. split; [rewrite N1; apply shakes_mgr|]. intros k. rewrite N2. apply body_mgr. }
  destruct HH as (A & B & C). eapply winv_keep; eassumption.
Qed.
(* a running peer reads *)
Lemma winv_read cf k i h ss0 c ss tr c' es p q r m s' : winv h ss0 c ss tr -> dead c = false -> c_exit c = false ->
  nth_error (c_run c) k = Some p -> nth_error (wo_peers (c_wo c)) k = Some r -> conn_of (c_mgr c) p = Some q -> at_read r && negb (conn_closed (c_mgr c) p) = true ->
  ReadPeerMessage (sock ss q) = (m, s') -> cexec cf (KPeer k i) c = (c', es) -> i_read i = body_of m -> winv h ss0 c' (upd ss q s') (tr ++ es).
Proof.
  intros I D DE HK HR HQ HA HM HE HB. pose proof (alive _ D) as [_ DP]. pose proof (si_g _ _ _ (wi_s _ _ _ _ _ I)) as IV.
  destruct (peer_body _ _ _ _ _ _ D HE) as (R1 & R2 & R3). rewrite HK, HR, DE, HB in R3.
  pose proof (run_in_run _ _ _ _ _ (wi_s _ _ _ _ _ I) HK) as IR.
  assert (SI : sinv h c' (tr ++ es)) by (eapply sinv_step; [apply I|exact HE]).
  assert (IR' : in_run (c_mgr c') p) by (eapply run_in_run; [exact SI|rewrite R1; exact HK]).
  assert (G : (forall k k' q, conn_of (c_mgr c') k = Some q -> conn_of (c_mgr c') k' = Some q -> k = k') /\
    (forall j pc k, nth_error (g_trk (c_mgr c')) j = Some pc -> shaking pc = Some k -> exists q, conn_of (c_mgr c') k = Some q /\ sock ss q = sock ss0 q) /\
    (length (g_conns (c_mgr c)) <= length (g_conns (c_mgr c')))%nat /\ (forall p, in_run (c_mgr c) p -> conn_of (c_mgr c') p = conn_of (c_mgr c) p)).
  { destruct (cexec_mgr _ _ _ _ _ HE) as [[-> _]|(x & X & _)]; [|destruct (mgr_keep _ _ _ _ _ _ _ _ I DP X) as (A & B & C & E & _); auto].
    split; [apply I|]. split; [apply I|]. auto. }
  destruct G as (A & B & C & E).
  assert (HS : sock (upd ss q s') q = s').
  { apply sock_same. intros X. rewrite X, message_nil in HM. now inversion HM. }
  constructor; [exact SI|eapply cexec_len; [exact HE|apply I]|exact A| | |].
  - intros j pc k' H1 H2. destruct (B _ _ _ H1 H2) as (q' & Q1 & Q2). exists q'. split; [exact Q1|]. rewrite sock_other; [exact Q2|]. intros ->.
    assert (k' = p) by (apply (A _ _ q); [exact Q1|rewrite (E _ IR); exact HQ]). subst k'. eapply owned_new; [apply (si_g _ _ _ SI)|exact H1|apply shaking_owner; exact H2|exact IR'].
  - intros q' Hq. rewrite sock_other; [apply (wi_fresh _ _ _ _ _ I); lia|]. intros ->. apply (conn_lt _ _ _ _ IV) in HQ. lia.
  - intros k' p' Hk. rewrite R1 in Hk. destruct (wi_run _ _ _ _ _ I _ _ Hk) as (q' & hs & s1 & W1 & W2 & W3 & W4). exists q', hs, s1. rewrite (E _ (run_in_run _ _ _ _ _ (wi_s _ _ _ _ _ I) Hk)). split; [exact W1|].
    rewrite shakes_app, R2, app_nil_r. split; [exact W2|]. split; [exact W3|]. rewrite sevs_app, bodies_app, R3. destruct (Nat.eqb k k') eqn:EK.
    + apply Nat.eqb_eq in EK. subst k'. rewrite HK in Hk. inversion Hk; subst p'. rewrite HQ in W1. inversion W1; subst q'. cbn [andb]. rewrite HA, HS. destruct m as [b|e]; cbn [body_of].
      * eapply co_ok; eassumption.
      * rewrite app_nil_r. eapply co_err; eassumption.
    + cbn [andb]. rewrite app_nil_r, sock_other; [exact W4|]. intros ->. assert (p' = p) by (eapply (wi_one _ _ _ _ _ I); eassumption). subst p'.
      pose proof (si_nodup _ _ _ (wi_s _ _ _ _ _ I)) as ND. rewrite <- (si_run _ _ _ (wi_s _ _ _ _ _ I)) in ND. apply Nat.eqb_neq in EK. apply EK. rewrite NoDup_nth_error in ND. apply ND; [apply nth_error_Some; congruence|congruence].
Qed.
(* a handshake is read *)
Lemma winv_shake cf j x h ss0 c ss tr c' es k n ips q : winv h ss0 c ss tr -> dead c = false -> c_exit c = false ->
  nth_error (g_trk (c_mgr c)) j = Some (TPShake k n ips) -> conn_of (c_mgr c) k = Some q -> x_evs x = sock ss q -> cexec cf (KTrk j x) c = (c', es) ->
  winv h ss0 c' (if x_ok x && negb (conn_closed (c_mgr c) k) then upd ss q (snd (ReadPeerHandshake (sock ss q))) else ss) (tr ++ es).
Proof.
  intros I D DE HJ HQ HX HE. pose proof (alive _ D) as [_ DP]. pose proof (si_g _ _ _ (wi_s _ _ _ _ _ I)) as IV.
  assert (SI : sinv h c' (tr ++ es)) by (eapply sinv_step; [apply I|exact HE]).
  assert (LI : (length (g_trk (c_mgr c')) <= length (c_trk c'))%nat) by (eapply cexec_len; [exact HE|apply I]).
  assert (HT : exists t, nth_error (c_trk c) j = Some t).
  { destruct (nth_error (c_trk c) j) as [t|] eqn:E; [eauto|]. apply nth_error_None in E. assert (j < length (g_trk (c_mgr c)))%nat by (apply nth_error_Some; congruence). pose proof (wi_len _ _ _ _ _ I). lia. }
  destruct HT as (t & HT). destruct (wi_shaking _ _ _ _ _ I _ _ _ HJ eq_refl) as (q0 & Q1 & Q2). rewrite HQ in Q1. inversion Q1; subst q0.
  set (ss' := if _ && _ then _ else _).
  assert (SO : forall q', q' <> q -> sock ss' q' = sock ss q') by (intros q' NE; unfold ss'; destruct (_ && _); [now apply sock_other|reflexivity]).
  assert (NR : ~ in_run (c_mgr c) k) by (eapply owned_new; [exact IV|exact HJ|reflexivity]).
  unfold cexec in HE. rewrite D, DE in HE. cbn [orb] in HE. unfold ctrk_step in HE. rewrite HJ, HT in HE. unfold with_mgr in HE.
  assert (MG : exists x' e, gexec (XTrk j x') (c_mgr c) = (c_mgr c', e)).
  { destruct (shaken cf c k x); (destruct (gexec _ (c_mgr c)) as [g' e] eqn:EG; inversion HE; subst; cbn [c_mgr fst]; eexists _, _; exact EG). }
  destruct MG as (x' & e & MG). destruct (mgr_keep _ _ _ _ _ _ _ _ I DP MG) as (A & B & C & E & F).
  assert (OLD : forall k' p', nth_error (c_run c) k' = Some p' -> exists q hs s1, conn_of (c_mgr c') p' = Some q /\ nth_error (shakes (tr ++ es)) k' = Some (p', sock ss0 q) /\
             ReadPeerHandshake (sock ss0 q) = (ROk hs, s1) /\ consumed s1 (bodies_of k' (sevs tr)) (sock ss' q)).
  { intros k' p' Hk. destruct (wi_run _ _ _ _ _ I _ _ Hk) as (q' & hs & s1 & W1 & W2 & W3 & W4). pose proof (run_in_run _ _ _ _ _ (wi_s _ _ _ _ _ I) Hk) as IR. exists q', hs, s1. rewrite (E _ IR). split; [exact W1|].
    split; [rewrite shakes_app, nth_error_app1; [exact W2|apply nth_error_Some; congruence]|]. split; [exact W3|]. rewrite SO; [exact W4|]. intros ->. assert (p' = k) by (eapply (wi_one _ _ _ _ _ I); eassumption). subst. contradiction. }
  assert (NB : forall k', bodies_of k' (sevs es) = []).
  { intros k'. destruct (shaken cf c k x); (destruct (gexec _ (c_mgr c)) as [g' e'] eqn:EG; inversion HE; subst); [|apply body_mgr]. change (sevs (VShake k (x_evs x) :: map VMgr e')) with (sevs (map VMgr e')). apply body_mgr. }
  constructor; [exact SI|exact LI|exact A| | |].
  - intros j' pc k' H1 H2. destruct (B _ _ _ H1 H2) as (q' & X1 & X2). exists q'. split; [exact X1|]. rewrite SO; [exact X2|]. intros ->. destruct (F _ _ _ _ _ _ _ _ eq_refl HJ H1 H2) as [F1 F2]. apply F1. eapply (wi_one _ _ _ _ _ I); [rewrite <- F2; exact X1|exact HQ].
  - intros q' Hq. rewrite SO; [apply (wi_fresh _ _ _ _ _ I); lia|]. intros ->. apply (conn_lt _ _ _ _ IV) in HQ. lia.
  - intros k' p' Hk. rewrite sevs_app, bodies_app, NB, app_nil_r. destruct (shaken cf c k x) eqn:ES; [|destruct (gexec _ (c_mgr c)) as [g' e'] eqn:EG; cbn [fst snd] in HE; inversion HE; subst; apply OLD; exact Hk].
    assert (RC : c_run c' = c_run c ++ [k]) by (destruct (gexec _ (c_mgr c)) as [g' e'] eqn:EG; inversion HE; subst; reflexivity). rewrite RC in Hk.
    destruct (lt_dec k' (length (c_run c))) as [L|L]; [rewrite nth_error_app1 in Hk by exact L; apply OLD; exact Hk|].
    rewrite nth_error_app2 in Hk by lia. destruct (k' - length (c_run c))%nat as [|y] eqn:EY; [|destruct y; discriminate]. inversion Hk; subst p'. assert (k' = length (c_run c)) by lia. subst k'.
    assert (RD : x_ok x && negb (conn_closed (c_mgr c) k) = true /\ exists hs, fst (ReadPeerHandshake (sock ss q)) = ROk hs).
    { unfold shaken in ES. apply andb_true_iff in ES. destruct ES as [E1 E2]. rewrite E1. unfold Announce in E2. cbn [negb] in E2. rewrite HX in E2. destruct (x_ok x); [|discriminate]. split; [reflexivity|]. cbn [negb] in E2. destruct (fst (ReadPeerHandshake (sock ss q))) as [hs|]; [eauto|discriminate]. }
    destruct RD as (RD & hs & RH). exists q, hs, (snd (ReadPeerHandshake (sock ss q))).
    assert (CK : conn_of (c_mgr c') k = Some q).
    { destruct (iv_own _ _ IV _ _ _ HJ eq_refl) as (p & P1 & _). destruct (gexec (XTrk j (tin_of false true x)) (c_mgr c)) as [g' e'] eqn:EG. inversion HE; subst. cbn [c_mgr]. unfold gexec in EG. rewrite DP, HJ in EG. cbn [tstep tin_of i_shake] in EG. rewrite P1 in EG. inversion EG; subst.
      rewrite <- HQ. unfold conn_of at 1. cbn [set_trk set_peers g_peers]. eapply conn_upd; [reflexivity|exact P1|reflexivity]. }
    split; [exact CK|]. rewrite <- Q2. split.
    + assert (SE : shakes es = [(k, sock ss q)]).
      { destruct (gexec (XTrk j (tin_of false true x)) (c_mgr c)) as [g' e'] eqn:EG. inversion HE; subst. change (shakes (VShake k (x_evs x) :: ?l)) with ((k, x_evs x) :: shakes l). now rewrite shakes_mgr, HX. }
      rewrite shakes_app, SE. assert (LE : length (c_run c) = length (shakes tr)) by (rewrite (si_run _ _ _ (wi_s _ _ _ _ _ I)); apply map_length). rewrite LE, nth_error_app2, Nat.sub_diag by lia. reflexivity.
    + split; [rewrite <- RH; now destruct (ReadPeerHandshake (sock ss q))|].
      assert (BN : bodies_of (length (c_run c)) (sevs tr) = []).
      { destruct (bodies_of (length (c_run c)) (sevs tr)) as [|b bs] eqn:EB; [reflexivity|]. exfalso. assert (IB : In b (bodies_of (length (c_run c)) (sevs tr))) by (rewrite EB; now left).
        apply in_flat_map in IB. destruct IB as (ev & IE & _). unfold events_of in IE. apply in_map_iff in IE. destruct IE as ((k1 & e1) & _ & IE). apply filter_In in IE. destruct IE as [IE EK]. cbn [fst] in EK. apply Nat.eqb_eq in EK. subst k1.
        apply in_flat_map in IE. destruct IE as (ce & IC & IE). destruct ce; cbn in IE; try contradiction. destruct IE as [IE|[]]. inversion IE; subst. apply in_split in IC. destruct IC as (t1 & t2 & ET).
        destruct (si_sys _ _ _ (wi_s _ _ _ _ _ I) _ _ _ _ ET) as (p1 & evs & NK). assert (length (c_run c) < length (shakes t1))%nat by (apply nth_error_Some; congruence).
        assert (length (c_run c) = length (shakes tr)) by (rewrite (si_run _ _ _ (wi_s _ _ _ _ _ I)); apply map_length). rewrite ET, shakes_app, app_length in H0. lia. }
      rewrite BN. assert (SQ : sock ss' q = snd (ReadPeerHandshake (sock ss q))).
      { unfold ss'. rewrite RD. apply sock_same. intros X. now rewrite X. }
      rewrite SQ. constructor.
Qed.
Lemma winv_step cf h ss0 n tr a n' es : winv h ss0 (n_client n) (n_socks n) tr -> nexec cf a n = (n', es) -> winv h ss0 (n_client n') (n_socks n') (tr ++ es).
Proof.
  intros I HE. unfold nexec in HE. set (c := n_client n) in *. set (ss := n_socks n) in *. destruct (dead c || c_exit c) eqn:DD; [inversion HE; subst; rewrite app_nil_r; exact I|].
  apply orb_false_iff in DD. destruct DD as [D DE].
  assert (G : forall ss', (let '(c', es') := cexec cf a c in (mkNet c' ss', es')) = (n', es) -> (forall c' es', cexec cf a c = (c', es') -> winv h ss0 c' ss' (tr ++ es')) -> winv h ss0 (n_client n') (n_socks n') (tr ++ es)).
  { intros ss' X Y. destruct (cexec cf a c) as [c' es'] eqn:E. inversion X; subst. exact (Y _ _ eq_refl). }
  destruct a as [| |j x|j|j r|k i| |b]; try (refine (G _ HE _); intros; eapply winv_quiet; try eassumption; discriminate).
  - assert (GQ : (forall k m ips, nth_error (g_trk (c_mgr c)) j <> Some (TPShake k m ips)) -> forall c' es', cexec cf (KTrk j x) c = (c', es') -> winv h ss0 c' ss (tr ++ es')).
    { intros N c' es' E. eapply winv_quiet; try eassumption; [|discriminate]. intros j0 x0 k m ips X. inversion X; subst. apply N. }
    destruct (nth_error (g_trk (c_mgr c)) j) as [[| | | | | | |k m ips| | |]|] eqn:EJ; try (refine (G _ HE _); apply GQ; discriminate).
    destruct (wi_shaking _ _ _ _ _ I _ _ _ EJ eq_refl) as (q & Q1 & Q2). rewrite Q1 in HE.
    destruct (cexec cf _ c) as [c' es'] eqn:E. inversion HE; subst. cbn [n_client n_socks].
    refine (winv_shake _ _ _ _ _ _ _ _ _ _ _ _ _ _ I D DE EJ Q1 _ E). reflexivity.
  - destruct (nth_error (c_run c) k) as [p|] eqn:EK.
    2:{ refine (G _ HE _). intros c' es' E. destruct (peer_body _ _ _ _ _ _ D E) as (A & B & C). eapply winv_keep; try eassumption; [apply (alive _ D)|]. intros k'. rewrite C, EK. reflexivity. }
    destruct (nth_error (wo_peers (c_wo c)) k) as [r|] eqn:ER.
    2:{ refine (G _ HE _). intros c' es' E. destruct (peer_body _ _ _ _ _ _ D E) as (A & B & C). eapply winv_keep; try eassumption; [apply (alive _ D)|]. intros k'. rewrite C, EK, ER. reflexivity. }
    destruct (wi_run _ _ _ _ _ I _ _ EK) as (q & hs & s1 & W1 & _). rewrite W1 in HE. destruct (at_read r && negb (conn_closed (c_mgr c) p)) eqn:EA.
    + destruct (ReadPeerMessage (sock ss q)) as [m s'] eqn:EM. destruct (cexec cf _ c) as [c' es'] eqn:E. inversion HE; subst. cbn [n_client n_socks]. eapply winv_read; try eassumption. reflexivity.
    + refine (G _ HE _). intros c' es' E. destruct (peer_body _ _ _ _ _ _ D E) as (A & B & C). eapply winv_keep; try eassumption; [apply (alive _ D)|]. intros k'. rewrite C, EK, ER, <- andb_assoc, EA, andb_false_r. reflexivity.
Qed.
