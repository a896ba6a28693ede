(* Proofs about ModelRace. *)
From Verif Require Import Base ModelRace SpecRace.

Lemma gid_eqb_eq : forall a b, gid_eqb a b = true <-> a = b.
Proof.
  intros a b. destruct a as [| | | |j|[[i r] n]], b as [| | | |j'|[[i' r'] n']]; cbn; split; intros H; try discriminate; try reflexivity.
  - apply Nat.eqb_eq in H. congruence.
  - inversion H. apply Nat.eqb_refl.
  - apply andb_prop in H. destruct H as [H H3]. apply andb_prop in H. destruct H as [H1 H2].
    apply Nat.eqb_eq in H1, H2, H3. congruence.
  - inversion H. rewrite !Nat.eqb_refl. reflexivity.
Qed.
Lemma gid_eqb_refl : forall g, gid_eqb g g = true.
Proof. intros g. apply gid_eqb_eq. reflexivity. Qed.
Lemma gid_eqb_neq : forall a b, a <> b -> gid_eqb a b = false.
Proof. intros a b H. destruct (gid_eqb a b) eqn:E; auto. apply gid_eqb_eq in E. contradiction. Qed.
Lemma mutex_eqb_eq : forall a b, mutex_eqb a b = true <-> a = b.
Proof.
  intros a b. destruct a, b; cbn; split; intros H; try discriminate; try reflexivity.
  - apply andb_prop in H. destruct H as [H1 H2]. apply Nat.eqb_eq in H1, H2. congruence.
  - inversion H. rewrite !Nat.eqb_refl. reflexivity.
Qed.
Lemma mutex_eqb_refl : forall m, mutex_eqb m m = true.
Proof. intros m. apply mutex_eqb_eq. reflexivity. Qed.

(* ---------- histories ---------- *)
Lemma own_app : forall g a b, own g (a ++ b) = own g a ++ own g b.
Proof. intros g a b. unfold own. rewrite filter_app, map_app. reflexivity. Qed.

Lemma firstn_S_nth : forall {A} (t : list A) i x, nth_error t i = Some x -> firstn (S i) t = firstn i t ++ [x].
Proof.
  induction t as [|y t IH]; intros [|i] x H; try discriminate H; cbn in *.
  - inversion H. reflexivity.
  - rewrite (IH i x H). reflexivity.
Qed.

Definition past (t : trace) (g : gid) (i : nat) : list act := own g (firstn i t).

Lemma past_S : forall t i g a g', nth_error t i = Some (g, a) ->
  past t g' (S i) = if gid_eqb g' g then past t g' i ++ [a] else past t g' i.
Proof.
  intros t i g a g' H. unfold past. rewrite (firstn_S_nth _ _ _ H), own_app. unfold own at 2. cbn.
  destruct (gid_eqb g' g); cbn; [reflexivity|apply app_nil_r].
Qed.
Lemma past_S_none : forall t i g, nth_error t i = None -> past t g (S i) = past t g i.
Proof.
  intros t i g H. apply nth_error_None in H. unfold past. rewrite !firstn_all2 by lia. reflexivity.
Qed.

Lemma past_in : forall t g a i, In a (past t g i) -> exists k, (k < i)%nat /\ nth_error t k = Some (g, a).
Proof.
  intros t g a i. induction i as [|i IH]; intros H.
  - destruct t; destruct H.
  - destruct (nth_error t i) as [[g' b]|] eqn:E.
    + rewrite (past_S _ _ _ _ g E) in H. destruct (gid_eqb g g') eqn:Eg.
      * apply gid_eqb_eq in Eg. subst g'. apply in_app_or in H. destruct H as [H|[H|[]]].
        -- destruct (IH H) as (k & Hk & Ek). exists k. split; [lia|auto].
        -- subst b. exists i. split; [lia|auto].
      * destruct (IH H) as (k & Hk & Ek). exists k. split; [lia|auto].
    + rewrite past_S_none in H by auto. destruct (IH H) as (k & Hk & Ek). exists k. split; [lia|auto].
Qed.

Lemma past_le : forall t g i k, (i <= k)%nat -> exists r, past t g k = past t g i ++ r.
Proof.
  intros t g i k H. induction H as [|k H IH].
  - exists []. rewrite app_nil_r. reflexivity.
  - destruct IH as [r E]. destruct (nth_error t k) as [[g' b]|] eqn:En.
    + rewrite (past_S _ _ _ _ g En). destruct (gid_eqb g g').
      * exists (r ++ [b]). rewrite E, app_assoc. reflexivity.
      * exists r. exact E.
    + exists r. rewrite past_S_none by auto. exact E.
Qed.
Lemma in_past : forall t g a i k, (i < k)%nat -> nth_error t i = Some (g, a) -> In a (past t g k).
Proof.
  intros t g a i k H E. destruct (past_le t g (S i) k H) as [r Er]. rewrite Er, (past_S _ _ _ _ g E), gid_eqb_refl.
  apply in_or_app. left. apply in_or_app. right. left. reflexivity.
Qed.
Lemma past_own : forall t g i a, nth_error t i = Some (g, a) -> exists r, own g t = past t g i ++ a :: r.
Proof.
  intros t g i a E. destruct (nth_error_split t i E) as (t1 & t2 & Et & El).
  exists (own g t2). unfold past. rewrite Et at 1. rewrite own_app. unfold own at 2. cbn [filter fst]. rewrite gid_eqb_refl. cbn [map snd].
  f_equal. f_equal. rewrite Et, firstn_app, El, Nat.sub_diag, <- El, firstn_all. cbn. rewrite app_nil_r. reflexivity.
Qed.

(* ---------- locks ---------- *)
Lemma holds_snoc : forall m w a, holds m (w ++ [a]) =
  match a with Lock m' => if mutex_eqb m m' then true else holds m w | Unlock m' => if mutex_eqb m m' then false else holds m w | _ => holds m w end.
Proof. intros m w a. unfold holds. rewrite fold_left_app. reflexivity. Qed.

Lemma last_lock : forall t g m k, holds m (past t g k) = true ->
  exists l, (l < k)%nat /\ nth_error t l = Some (g, Lock m) /\ forall x, (l < x <= k)%nat -> holds m (past t g x) = true.
Proof.
  intros t g m k. induction k as [|k IH]; intros H.
  - destruct t; discriminate H.
  - assert (K : holds m (past t g k) = true -> holds m (past t g (S k)) = true ->
      exists l, (l < S k)%nat /\ nth_error t l = Some (g, Lock m) /\ forall x, (l < x <= S k)%nat -> holds m (past t g x) = true).
    { intros H1 H2. destruct (IH H1) as (l & Hl & El & Hx). exists l. split; [lia|split; auto].
      intros x Hx'. destruct (Nat.eq_dec x (S k)) as [->|N]; auto. apply Hx. lia. }
    destruct (nth_error t k) as [[g' b]|] eqn:E; [|apply K; auto; rewrite past_S_none in H by auto; exact H].
    pose proof (past_S _ _ _ _ g E) as P. destruct (gid_eqb g g') eqn:Eg.
    + apply gid_eqb_eq in Eg. subst g'. rewrite P, holds_snoc in H.
      destruct b; try (apply K; [exact H|rewrite P, holds_snoc; exact H]).
      * destruct (mutex_eqb m m0) eqn:Em.
        -- apply mutex_eqb_eq in Em. subst m0. exists k. split; [lia|split; auto].
           intros x Hx. assert (x = S k) by lia. subst x. rewrite P, holds_snoc, mutex_eqb_refl. reflexivity.
        -- apply K; [exact H|rewrite P, holds_snoc, Em; exact H].
      * destruct (mutex_eqb m m0) eqn:Em; [discriminate H|]. apply K; [exact H|rewrite P, holds_snoc, Em; exact H].
    + apply K; rewrite P in H; [exact H|rewrite P; exact H].
Qed.

Lemma lost_lock : forall t g m i k, (i <= k)%nat -> holds m (past t g i) = true -> holds m (past t g k) = false ->
  exists u, (i <= u < k)%nat /\ nth_error t u = Some (g, Unlock m).
Proof.
  intros t g m i k H. induction H as [|k H IH]; intros H1 H2; [congruence|].
  destruct (holds m (past t g k)) eqn:Ek.
  - destruct (nth_error t k) as [[g' b]|] eqn:E; [|rewrite past_S_none in H2 by auto; congruence].
    rewrite (past_S _ _ _ _ g E) in H2. destruct (gid_eqb g g') eqn:Eg; [|congruence].
    apply gid_eqb_eq in Eg. subst g'. rewrite holds_snoc in H2.
    destruct b; try congruence.
    + destruct (mutex_eqb m m0); congruence.
    + destruct (mutex_eqb m m0) eqn:Em; [|congruence]. apply mutex_eqb_eq in Em. subst m0. exists k. split; [lia|auto].
  - destruct (IH H1 eq_refl) as (u & Hu & Eu). exists u. split; [lia|auto].
Qed.

(* What is done under the same mutex is ordered. *)
Lemma locked : forall t i k g g' a b m, possible t -> (i < k)%nat -> g <> g' ->
  nth_error t i = Some (g, a) -> nth_error t k = Some (g', b) -> a <> Unlock m ->
  holds m (past t g i) = true -> holds m (past t g' k) = true -> hb t i k.
Proof.
  intros t i k g g' a b m P Hik Ng Ei Ek Na Hi Hk.
  destruct (last_lock _ _ _ _ Hk) as (l & Hl & El & Sl).
  assert (N1 : holds m (past t g l) = false) by exact (po_lock t P _ _ _ El g).
  assert (Hil : (i < l)%nat).
  { destruct (le_lt_dec l i) as [C|C]; [exfalso|exact C].
    destruct (last_lock _ _ _ _ Hi) as (l2 & Hl2 & El2 & Sl2).
    destruct (lt_eq_lt_dec l l2) as [[C2|C2]|C2].
    - assert (X : holds m (past t g' l2) = true) by (apply Sl; lia).
      pose proof (po_lock t P _ _ _ El2 g') as Y. unfold past in X. congruence.
    - subst l2. rewrite El2 in El. inversion El. congruence.
    - assert (X : holds m (past t g l) = true) by (apply Sl2; lia). congruence. }
  destruct (lost_lock t g m i l ltac:(lia) Hi N1) as (u & Hu & Eu).
  assert (i <> u) by (intros ->; congruence).
  eapply hb_trans; [apply (hb_own t i u g a (Unlock m)); auto; lia|].
  eapply hb_trans; [apply (hb_lock t u l g g' m); auto; lia|].
  apply (hb_own t l k g' (Lock m) b); auto; lia.
Qed.

(* ---------- what each goroutine keeps to ---------- *)
Definition tracker_of (p : pid) : nat := fst (fst p).
Definition queue_of (p : pid) : nat * nat := fst p.

Definition started (u : list act) : Prop := In (Go GPrinter) u.

Definition main_ok (u : list act) (a : act) : Prop :=
  match a with
  | Rd (LConn p) => holds MPool u = true
  | Rd LTorrent | Rd LPoolVar | Rd LCancel | Wr LCancel => True
  | Rd LPool => holds MPool u = true
  | Wr LTorrent | Wr LReq | Wr LDown | Wr LPool => ~ started u
  | Wr LPoolVar => ~ started u \/ holds MPool u = true
  | Rd _ | Wr _ | Put _ _ _ | Take _ _ _ | Enter _ | WgAdd | WgDone | Atom | Send _ | Recv _ => False
  | Go g => match g with GMain | GPeer _ => False | GPrinter => True | GSignal => True | _ => started u end
  | Lock _ | Unlock _ | Seen | Cancel => In WgWait u
  | WgWait => ~ In WgWait u
  end.
Definition writer_ok (u : list act) (a : act) : Prop :=
  match a with
  | Rd LTorrent => True
  | Rd LDown | Wr LDown => holds MDown u = true
  | Rd (LPiece b) => In (Recv b) u
  | Rd _ | Wr _ | Put _ _ _ | Take _ _ _ | Enter _ | Go _ | Send _ | WgAdd | WgDone | WgWait => False
  | _ => True
  end.
Definition tracker_ok (j : nat) (u : list act) (a : act) : Prop :=
  match a with
  | Rd LTorrent => True
  | Rd LPoolVar | Rd LPool => holds MPool u = true
  | Rd (LTracker j') | Wr (LTracker j') => j' = j
  | Rd (LConn p) | Wr (LConn p) | Rd (LPeer p) | Wr (LPeer p) => tracker_of p = j /\ ~ In (Go (GPeer p)) u
  | Rd (LFailed j' r) | Wr (LFailed j' r) => j' = j /\ forall n, ~ In (Go (GPeer (j, r, n))) u
  | Enter p => tracker_of p = j /\ holds MPool u = true
  | Go (GPeer p) => tracker_of p = j
  | Rd _ | Wr _ | Put _ _ _ | Take _ _ _ | Go _ | Send _ | Recv _ | WgDone | WgWait => False
  | _ => True
  end.
Definition has (p : pid) (u : list act) (b : mid) : Prop :=
  In (Wr (LBlock b)) u /\ fst b = p \/ exists j r, In (Take j r b) u.
Definition peer_ok (p : pid) (u : list act) (a : act) : Prop :=
  match a with
  | Rd LTorrent => True
  | Rd LReq | Wr LReq => holds MReq u = true
  | Rd LDown | Wr LDown => holds MDown u = true
  | Rd (LConn p') | Rd (LPeer p') | Wr (LPeer p') => p' = p
  | Rd (LFailed j r) | Wr (LFailed j r) | Take j r _ => (j, r) = queue_of p /\ holds (MFailed j r) u = true
  | Put j r b => (j, r) = queue_of p /\ holds (MFailed j r) u = true /\ has p u b
  | Rd (LBlock b) => has p u b
  | Wr (LBlock b) => fst b = p /\ ~ In a u
  | Rd (LPiece b) => fst b = p
  | Wr (LPiece b) => fst b = p /\ ~ In a u
  | Send b => fst b = p /\ In (Wr (LPiece b)) u
  | Rd _ | Wr _ | Enter _ | Go _ | Recv _ | WgAdd | WgWait => False
  | _ => True
  end.
Definition quiet_ok (a : act) : Prop := match a with Atom | Seen | Cancel => True | _ => False end.

Definition okact (g : gid) (u : list act) (a : act) : Prop :=
  match g with
  | GMain => main_ok u a
  | GSignal | GPrinter => quiet_ok a
  | GWriter => writer_ok u a
  | GTracker j => tracker_ok j u a
  | GPeer p => peer_ok p u a
  end.

Fixpoint okw (g : gid) (u w : list act) : Prop :=
  match w with [] => True | a :: w => okact g u a /\ okw g (u ++ [a]) w end.
Lemma okw_app : forall g w1 u w2, okw g u (w1 ++ w2) <-> okw g u w1 /\ okw g (u ++ w1) w2.
Proof.
  induction w1 as [|a w1 IH]; intros u w2; cbn [app okw].
  - rewrite app_nil_r. tauto.
  - rewrite IH, <- app_assoc. cbn [app]. tauto.
Qed.
Lemma okw_at : forall g w u v a v', okw g u w -> w = v ++ a :: v' -> okact g (u ++ v) a.
Proof. intros g w u v a v' H ->. apply okw_app in H. destruct H as [_ H]. cbn [okw] in H. tauto. Qed.

Ltac hold := rewrite ?holds_snoc, ?mutex_eqb_refl; reflexivity.
Ltac notin := rewrite ?in_app_iff; cbn [In]; intuition (try discriminate; try congruence).

(* main *)
Lemma main_words : forall n ps, okw GMain [] (w_main n ps).
Proof.
  intros n ps. unfold w_main. rewrite !okw_app. cbn [app]. split; [|split].
  - unfold w_make, started. cbn [okw okact main_ok app]. unfold started. repeat split; notin.
  - unfold w_Download. rewrite !okw_app. split; [|split].
    + cbn. unfold started. repeat split; notin.
    + set (u := _ ++ _). assert (S : started u) by (unfold u, started; notin). clearbody u. revert u S.
      induction (seq 0 n) as [|j l IH]; intros u S; cbn [map okw]; [exact I|]. split; [exact S|].
      apply IH. unfold started in *. notin.
    + set (u := _ ++ _). assert (S : started u) by (unfold u, started; notin).
      assert (N : ~ In WgWait u).
      { unfold u. rewrite !in_app_iff, in_map_iff. intros [[H|H]|[x [H _]]]; [| |discriminate H]; cbn in H; intuition discriminate. }
      clearbody u. cbn. repeat split; auto; unfold started in *; notin.
  - set (u := _ ++ _). assert (S : In WgWait u) by (unfold u, w_Download; notin). clearbody u.
    unfold w_Stop. rewrite !okw_app. split; [|split].
    + cbn. repeat split; try hold; notin.
    + set (u2 := u ++ _). assert (L : holds MPool u2 = true).
      { unfold u2. change [Rd LPoolVar; Rd LCancel; Cancel; Lock MPool; Rd LPoolVar; Rd LPool] with
          ((((([Rd LPoolVar] ++ [Rd LCancel]) ++ [Cancel]) ++ [Lock MPool]) ++ [Rd LPoolVar]) ++ [Rd LPool]).
        rewrite !app_assoc. hold. }
      clearbody u2. revert u2 L. induction ps as [|p ps IH]; intros u2 L; cbn [map okw]; [exact I|].
      split; [exact L|]. apply IH. rewrite holds_snoc. exact L.
    + set (u2 := (u ++ _) ++ _). assert (L : holds MPool u2 = true).
      { unfold u2. change [Rd LPoolVar; Rd LCancel; Cancel; Lock MPool; Rd LPoolVar; Rd LPool] with
          ((((([Rd LPoolVar] ++ [Rd LCancel]) ++ [Cancel]) ++ [Lock MPool]) ++ [Rd LPoolVar]) ++ [Rd LPool]).
        rewrite !app_assoc. clear. 
        match goal with |- holds MPool (?x ++ map _ _) = true => assert (L : holds MPool x = true) by hold; generalize dependent x end.
        intros x L. revert x L. induction ps as [|p ps IH]; intros x L; cbn [map]; [rewrite app_nil_r; exact L|].
        change (Rd (LConn p) :: map (fun p => Rd (LConn p)) ps) with ([Rd (LConn p)] ++ map (fun p => Rd (LConn p)) ps).
        rewrite app_assoc. apply IH. rewrite holds_snoc. exact L. }
      assert (W : In WgWait u2) by (unfold u2; notin). clearbody u2. cbn. repeat split; auto. notin.
Qed.

(* a tracker *)
Lemma addpeer_words : forall j p k u, tracker_of p = j -> ~ In (Go (GPeer p)) u -> okw (GTracker j) u (w_AddPeer p k).
Proof.
  intros j p k u Hp N. unfold w_AddPeer. destruct k; cbn; repeat split; try hold; auto; notin.
Qed.
Lemma addpeer_go : forall p k q, ~ In (Go q) (w_AddPeer p k).
Proof. intros p k q. unfold w_AddPeer. destruct k; notin. Qed.

Lemma announce_words : forall j p f u, tracker_of p = j -> ~ In (Go (GPeer p)) u -> okw (GTracker j) u (w_Announce p f).
Proof.
  intros j p f u Hp N. destruct f as [[| |]|]; cbn; repeat split; auto; notin.
Qed.
Lemma announce_go : forall p f q, ~ In (Go q) (w_Announce p f).
Proof. intros p f q. destruct f as [[| |]|]; cbn; intuition discriminate. Qed.

Lemma fails_words : forall j p fs u, tracker_of p = j -> ~ In (Go (GPeer p)) u ->
  okw (GTracker j) u (concat (map (fun f => w_Announce p (Some f) ++ [Rd (LPeer p)]) fs)).
Proof.
  induction fs as [|f fs IH]; intros u Hp N; cbn [map concat]; [exact I|].
  rewrite !okw_app. split; [split|].
  - apply announce_words; auto.
  - cbn. repeat split; auto. pose proof (announce_go p (Some f) (GPeer p)). notin.
  - apply IH; auto. pose proof (announce_go p (Some f) (GPeer p)). notin.
Qed.
Lemma fails_go : forall p fs q, ~ In (Go q) (concat (map (fun f => w_Announce p (Some f) ++ [Rd (LPeer p)]) fs)).
Proof.
  induction fs as [|f fs IH]; intros q; cbn [map concat]; [auto|].
  pose proof (announce_go p (Some f) q). specialize (IH q). notin.
Qed.

Lemma start_words : forall j p fs ok u, tracker_of p = j -> ~ In (Go (GPeer p)) u -> okw (GTracker j) u (w_startPeer p fs ok).
Proof.
  intros j p fs ok u Hp N. unfold w_startPeer. cbn [okw]. split; [exact I|].
  rewrite okw_app. split; [apply fails_words; auto; notin|].
  pose proof (fails_go p fs (GPeer p)). destruct ok.
  - rewrite okw_app. split; [apply announce_words; auto; notin|]. cbn. auto.
  - cbn. repeat split; auto; notin.
Qed.
Lemma start_go : forall p fs ok q, In (Go q) (w_startPeer p fs ok) -> q = GPeer p.
Proof.
  intros p fs ok q H. unfold w_startPeer in H. destruct H as [H|H]; [discriminate H|].
  apply in_app_or in H. destruct H as [H|H]; [exfalso; exact (fails_go _ _ _ H)|].
  destruct ok; [|cbn in H; intuition discriminate].
  apply in_app_or in H. destruct H as [H|H]; [exfalso; exact (announce_go _ _ _ H)|].
  cbn in H. destruct H as [H|[H|[]]]; [discriminate H|]. inversion H. reflexivity.
Qed.

Lemma addr_words : forall j p d u, tracker_of p = j -> ~ In (Go (GPeer p)) u -> okw (GTracker j) u (w_addr p d).
Proof.
  intros j p d u Hp N. unfold w_addr. rewrite okw_app. split.
  - cbn. repeat split; auto; notin.
  - assert (N2 : ~ In (Go (GPeer p)) (u ++ w_NewPeer p)) by (unfold w_NewPeer; notin).
    destruct d as [|fs ok]; [apply addpeer_words; auto|].
    rewrite okw_app. split; [apply addpeer_words; auto|]. apply start_words; auto.
    pose proof (addpeer_go p false (GPeer p)). rewrite in_app_iff. tauto.
Qed.
Lemma addr_go : forall p d q, In (Go q) (w_addr p d) -> q = GPeer p.
Proof.
  intros p d q H. unfold w_addr in H. apply in_app_or in H. destruct H as [H|H]; [cbn in H; intuition discriminate|].
  destruct d as [|fs ok]; [exfalso; exact (addpeer_go _ _ _ H)|].
  apply in_app_or in H. destruct H as [H|H]; [exfalso; exact (addpeer_go _ _ _ H)|]. eapply start_go; eauto.
Qed.

Lemma addrs_words : forall j r ds n u, (forall n', (n <= n')%nat -> ~ In (Go (GPeer (j, r, n'))) u) -> okw (GTracker j) u (w_addrs j r n ds).
Proof.
  induction ds as [|d ds IH]; intros n u N; cbn [w_addrs]; [exact I|].
  rewrite okw_app. split; [apply addr_words; auto|]. apply IH. intros n' Hn H.
  apply in_app_or in H. destruct H as [H|H]; [apply (N n'); [lia|exact H]|].
  apply addr_go in H. inversion H. lia.
Qed.
Lemma addrs_go : forall j r ds n q, In (Go q) (w_addrs j r n ds) -> exists n', q = GPeer (j, r, n').
Proof.
  induction ds as [|d ds IH]; intros n q H; cbn [w_addrs] in H; [destruct H|].
  apply in_app_or in H. destruct H as [H|H]; [apply addr_go in H; eauto|eauto].
Qed.

Lemma ask_words : forall j c u, okw (GTracker j) u (w_ask j c).
Proof.
  intros j c. unfold w_ask. induction c as [|c IH]; intros u; cbn [repeat concat]; [exact I|].
  rewrite okw_app. split; [cbn; repeat split; auto|apply IH].
Qed.
Lemma ask_go : forall j c q, ~ In (Go q) (w_ask j c).
Proof.
  intros j c q. unfold w_ask. induction c as [|c IH]; cbn [repeat concat]; [auto|]. notin.
Qed.

Lemma round_words : forall j r d u, (forall n, ~ In (Go (GPeer (j, r, n))) u) -> okw (GTracker j) u (w_round j r d).
Proof.
  intros j r [c o] u N. unfold w_round. cbn [fst snd]. rewrite !okw_app. split; [apply ask_words|]. split; [|cbn; auto].
  destruct o as [ds|]; [|exact I]. unfold w_initPeers. cbn [okw]. split.
  - split; [reflexivity|]. intros n H. apply in_app_or in H. destruct H as [H|H]; [exact (N n H)|exact (ask_go _ _ _ H)].
  - apply addrs_words. intros n _ H. pose proof (N n). pose proof (ask_go j c (GPeer (j, r, n))). revert H. notin.
Qed.
Lemma round_go : forall j r d q, In (Go q) (w_round j r d) -> exists n, q = GPeer (j, r, n).
Proof.
  intros j r [c o] q H. unfold w_round in H. cbn [fst snd] in H. rewrite !in_app_iff in H.
  destruct H as [H|[H|H]]; [exfalso; exact (ask_go _ _ _ H)| |cbn in H; intuition discriminate].
  destruct o as [ds|]; [|destruct H]. destruct H as [H|H]; [discriminate H|]. eapply addrs_go; eauto.
Qed.
Lemma rounds_words : forall j ds r u, (forall r' n, (r <= r')%nat -> ~ In (Go (GPeer (j, r', n))) u) -> okw (GTracker j) u (w_rounds j r ds).
Proof.
  induction ds as [|d ds IH]; intros r u N; cbn [w_rounds]; [exact I|].
  rewrite okw_app. split; [apply round_words; intros n; apply N; lia|]. apply IH. intros r' n Hr H.
  apply in_app_or in H. destruct H as [H|H]; [apply (N r' n); [lia|exact H]|].
  apply round_go in H. destruct H as [n' H]. inversion H. lia.
Qed.
Lemma tracker_words : forall j ds, okw (GTracker j) [] (w_runTracker j ds).
Proof.
  intros j ds. unfold w_runTracker. cbn [okw]. split; [reflexivity|]. rewrite okw_app. split; [|cbn; auto].
  apply rounds_words. intros r n _. notin.
Qed.

(* a peer *)
Definition vinv (p : pid) (v : pvar) (u : list act) : Prop :=
  (forall c, (v_made v <= c)%nat -> ~ In (Wr (LBlock (p, c))) u) /\
  (forall c, (v_read v <= c)%nat -> ~ In (Wr (LPiece (p, c))) u) /\
  (forall b, v_req v = Some b -> has p u b).

Lemma has_app : forall p u w b, has p u b -> has p (u ++ w) b.
Proof.
  intros p u w b [[H1 H2]|(j & r & H)]; [left; split; auto; apply in_or_app; auto|].
  right. exists j, r. apply in_or_app. auto.
Qed.
Lemma vinv_quiet : forall p v u w, vinv p v u -> (forall b, ~ In (Wr (LBlock b)) w) -> (forall b, ~ In (Wr (LPiece b)) w) -> vinv p v (u ++ w).
Proof.
  intros p v u w (I1 & I2 & I3) N1 N2. split; [|split].
  - intros c Hc H. apply in_app_or in H. destruct H as [H|H]; [exact (I1 c Hc H)|exact (N1 _ H)].
  - intros c Hc H. apply in_app_or in H. destruct H as [H|H]; [exact (I2 c Hc H)|exact (N2 _ H)].
  - intros b Hb. apply has_app. auto.
Qed.

Lemma vinv_new : forall p v u w b s m r, vinv p v u ->
  (v_made v <= m)%nat -> (v_read v <= r)%nat ->
  (forall c, In (Wr (LBlock (p, c))) w -> (c < m)%nat) -> (forall c, In (Wr (LPiece (p, c))) w -> (c < r)%nat) ->
  (forall x, b = Some x -> has p (u ++ w) x) -> vinv p (mkPv m r b s) (u ++ w).
Proof.
  intros p v u w b s m r (I1 & I2 & I3) Hm Hr N1 N2 N3. split; [|split]; cbn [v_made v_read v_req].
  - intros c Hc H. apply in_app_or in H. destruct H as [H|H]; [apply (I1 c); [lia|exact H]|]. apply N1 in H. lia.
  - intros c Hc H. apply in_app_or in H. destruct H as [H|H]; [apply (I2 c); [lia|exact H]|]. apply N2 in H. lia.
  - exact N3.
Qed.

Ltac wr := repeat match goal with
  | H : _ \/ _ |- _ => destruct H
  | H : _ = _ |- _ => discriminate H
  | H : False |- _ => destruct H
  | H : Wr (LBlock _) = Wr (LBlock _) |- _ => inversion H; clear H; subst
  | H : Wr (LPiece _) = Wr (LPiece _) |- _ => inversion H; clear H; subst
  end; try lia.

Lemma call_words : forall p v u d, vinv p v u ->
  okw (GPeer p) u (fst (w_call p v d)) /\ vinv p (snd (w_call p v d)) (u ++ fst (w_call p v d)).
Proof.
  intros [[j r] n] v u d I. pose proof I as (I1 & I2 & I3).
  assert (Q : forall w, (forall b, ~ In (Wr (LBlock b)) w) -> (forall b, ~ In (Wr (LPiece b)) w) -> vinv (j, r, n) v (u ++ w))
    by (intros; apply vinv_quiet; auto).
  unfold w_call. destruct d as [| |[[]|]| |nd ok|[k|]].
  - split; [cbn; auto|]. apply Q; cbn; intros b H; wr.
  - split; [cbn; repeat split; try hold|]. apply Q; cbn; intros b H; wr.
  - split; [cbn; auto|]. apply Q; cbn; intros b H; wr.
  - split; [cbn; auto|]. apply Q; cbn; intros b H; wr.
  - split; [cbn; auto|]. apply Q; cbn; intros b H; wr.
  - split; [cbn; auto|]. apply Q; cbn; intros b H; wr.
  - destruct (v_sent v) eqn:Es.
    { split; [cbn; auto|]. apply Q; cbn; intros b H; wr. }
    destruct nd as [|b| |]; cbn [fst snd].
    + split.
      * destruct ok; cbn; unfold has; repeat split; auto; try hold; try (rewrite ?in_app_iff; cbn; auto 12; fail); try (left; split; [rewrite ?in_app_iff; cbn; auto 12|reflexivity]).
        all: pose proof (I1 (v_made v) ltac:(lia)); notin.
      * apply (vinv_new _ v); auto.
        -- intros c H. destruct ok; cbn in H; wr.
        -- intros c H. destruct ok; cbn in H; wr.
        -- intros x E. inversion E. left. split; [|reflexivity]. destruct ok; rewrite ?in_app_iff; cbn; auto 12.
    + split.
      * destruct ok; cbn; unfold has; repeat split; auto; try hold.
        all: right; exists j, r; rewrite ?in_app_iff; cbn; auto 12.
      * apply (vinv_new _ v); auto.
        -- intros c H. destruct ok; cbn in H; wr.
        -- intros c H. destruct ok; cbn in H; wr.
        -- intros x E. inversion E. right. exists j, r. destruct ok; rewrite ?in_app_iff; cbn; auto 12.
    + split.
      * destruct ok; cbn; unfold has; repeat split; auto; try hold; try (left; split; [rewrite ?in_app_iff; cbn; auto 12|reflexivity]).
        all: pose proof (I1 (v_made v) ltac:(lia)); notin.
      * apply (vinv_new _ v); auto.
        -- intros c H. destruct ok; cbn in H; wr.
        -- intros c H. destruct ok; cbn in H; wr.
        -- intros x E. inversion E. left. split; [|reflexivity]. destruct ok; rewrite ?in_app_iff; cbn; auto 20.
    + split; [cbn; repeat split; auto; hold|].
      apply (vinv_new _ v); auto; try (intros c H; cbn in H; wr).
  - set (b := (j, r, n, v_read v)).
    destruct k as [| | |[]].
    + split; [cbn; auto|]. apply Q; cbn; intros x H; wr.
    + split.
      * cbn. repeat split. pose proof (I2 (v_read v) ltac:(lia)). unfold b. notin.
      * apply (vinv_new _ v); cbn [fst snd]; auto.
        -- intros c H. cbn in H. wr.
        -- intros c H. cbn in H. unfold b in H. wr.
        -- intros x E. apply has_app. auto.
    + split.
      * cbn. repeat split. pose proof (I2 (v_read v) ltac:(lia)). unfold b. notin.
      * apply (vinv_new _ v); cbn [fst snd]; auto.
        -- intros c H. cbn in H. wr.
        -- intros c H. cbn in H. unfold b in H. wr.
        -- intros x E. apply has_app. auto.
    + split.
      * cbn. repeat split; try (rewrite ?in_app_iff; cbn; auto 12; fail). pose proof (I2 (v_read v) ltac:(lia)). unfold b. notin.
      * apply (vinv_new _ v); cbn [fst snd]; auto.
        -- intros c H. cbn in H. wr.
        -- intros c H. cbn in H. unfold b in H. wr.
        -- intros x E. apply has_app. auto.
    + split.
      * cbn. repeat split. pose proof (I2 (v_read v) ltac:(lia)). unfold b. notin.
      * apply (vinv_new _ v); cbn [fst snd]; auto.
        -- intros c H. cbn in H. wr.
        -- intros c H. cbn in H. unfold b in H. wr.
        -- intros x E. apply has_app. auto.
  - destruct (v_sent v) eqn:Es; [destruct (v_req v) as [b|] eqn:Eb|]; cbn [fst snd].
    + split.
      * cbn. repeat split; try hold. apply has_app, has_app. auto.
      * apply (vinv_new _ v); auto; try (intros c H; cbn in H; wr). apply has_app. auto.
    + split; [cbn; auto|]. apply Q; cbn; intros x H; wr.
    + split; [cbn; auto|]. apply Q; cbn; intros x H; wr.
Qed.

Lemma calls_words : forall p ds v u, vinv p v u -> okw (GPeer p) u (w_calls p v ds).
Proof.
  induction ds as [|d ds IH]; intros v u I; cbn [w_calls]; [exact Logic.I|].
  destruct (call_words p v u d I) as [H1 H2]. destruct (w_call p v d) as [w v']. cbn [fst snd] in *.
  rewrite okw_app. split; [exact H1|]. apply IH. exact H2.
Qed.
Lemma run_words : forall p ds, okw (GPeer p) [] (w_run p ds).
Proof.
  intros p ds. unfold w_run. rewrite okw_app. split; [|cbn; auto]. apply calls_words.
  split; [|split]; [intros c _ []|intros c _ []|discriminate].
Qed.

Lemma writer_words : forall ds u, okw GWriter u (w_writer ds).
Proof.
  unfold w_writer. induction ds as [|[b f] ds IH]; intros u; cbn [map concat]; [exact I|].
  rewrite okw_app. split; [|apply IH].
  destruct f; cbn; repeat split; try hold; notin.
Qed.

Lemma does_ok : forall g w, does g w -> okw g [] w.
Proof.
  intros g w H. destruct g as [| | | |j|p]; cbn in H.
  - destruct H as (n & ps & ->). apply main_words.
  - subst w. cbn. auto.
  - destruct H as [n ->]. unfold w_printer. assert (K : forall u, okw GPrinter u (repeat Atom n ++ [Seen])); [|apply K]. induction n as [|n IH]; intros u; cbn [repeat app okw].
    + cbn. auto.
    + split; [cbn; auto|apply IH].
  - destruct H as [ds ->]. apply writer_words.
  - destruct H as [ds ->]. apply tracker_words.
  - destruct H as [ds ->]. apply run_words.
Qed.

Lemma keeps : forall t i g a, possible t -> nth_error t i = Some (g, a) -> okact g (past t g i) a.
Proof.
  intros t i g a P E. destruct (po_does t P g) as (w & rest & D & Ew). destruct (past_own t g i a E) as [r Er].
  pose proof (okw_at g w [] (past t g i) a (r ++ rest) (does_ok g w D)) as K. cbn [app] in K. apply K.
  rewrite Ew, Er, <- app_assoc. reflexivity.
Qed.

(* ---------- what may touch a location ---------- *)
Definition cond (g : gid) (u : list act) (l : loc) (v : bool) : Prop :=
  match l with
  | LTorrent => v = true -> g = GMain /\ ~ started u
  | LReq => (g = GMain /\ ~ started u) \/ ((exists p, g = GPeer p) /\ holds MReq u = true)
  | LDown => (g = GMain /\ ~ started u) \/ ((g = GWriter \/ exists p, g = GPeer p) /\ holds MDown u = true)
  | LPool => (g = GMain /\ ~ started u) \/ ((g = GMain \/ exists j, g = GTracker j) /\ holds MPool u = true)
  | LPoolVar => (g = GMain /\ (v = false \/ ~ started u \/ holds MPool u = true)) \/ ((exists j, g = GTracker j) /\ v = false /\ holds MPool u = true)
  | LCancel => g = GMain
  | LTracker j => g = GTracker j
  | LConn p => (g = GMain /\ v = false /\ holds MPool u = true) \/ (g = GTracker (tracker_of p) /\ ~ In (Go (GPeer p)) u) \/ (g = GPeer p /\ v = false)
  | LPeer p => (g = GTracker (tracker_of p) /\ ~ In (Go (GPeer p)) u) \/ g = GPeer p
  | LFailed j r => (g = GTracker j /\ forall n, ~ In (Go (GPeer (j, r, n))) u) \/ ((exists n, g = GPeer (j, r, n)) /\ holds (MFailed j r) u = true)
  | LBlock b => (v = true /\ g = GPeer (fst b) /\ ~ In (Wr (LBlock b)) u) \/ (v = false /\ exists p, g = GPeer p /\ has p u b)
  | LPiece b => (v = true /\ g = GPeer (fst b) /\ ~ In (Wr (LPiece b)) u) \/ (v = false /\ (g = GPeer (fst b) \/ (g = GWriter /\ In (Recv b) u)))
  end.

Lemma queue_eta : forall j r (p : pid), (j, r) = queue_of p -> exists n, p = (j, r, n).
Proof. intros j r [[j' r'] n] H. inversion H. exists n. reflexivity. Qed.

Lemma touch_ok : forall g u a l v, okact g u a -> touches a = Some (l, v) -> cond g u l v.
Proof.
  intros g u a l v K T. destruct g as [| | | |j|p]; destruct a as [l0|l0| | | | | |j0 r0 b0|j0 r0 b0|p0| | | | | |]; try discriminate T; cbn in T; inversion T; subst; clear T; cbn [okact] in K; try (destruct K; fail);
    try destruct l; cbn in K |- *; try (destruct K; fail); try tauto; try discriminate; eauto 8.
  all: repeat match goal with H : _ /\ _ |- _ => destruct H end; subst.
  all: try match goal with H : _ = queue_of _ |- _ => apply queue_eta in H; destruct H as [n ->] end; eauto 8.
Qed.

(* ---------- order ---------- *)
Lemma go_main : forall t k g, possible t -> nth_error t k = Some (g, Go GMain) -> False.
Proof. intros t k g P E. pose proof (keeps _ _ _ _ P E) as K. destruct g; cbn in K; auto. Qed.

(* Everything but main and the signal handler comes after the first go statement of Download. *)
Lemma after_start : forall t, possible t -> forall k g a, nth_error t k = Some (g, a) -> g <> GMain -> g <> GSignal ->
  exists s, nth_error t s = Some (GMain, Go GPrinter) /\ (s < k)%nat /\ hb t s k.
Proof.
  intros t P k. induction k as [k IH] using lt_wf_ind. intros g a E N1 N2.
  destruct (po_go t P k g a E N1) as (s & g' & Hs & Es).
  assert (Hsk : hb t s k) by (eapply hb_go; eauto).
  pose proof (keeps _ _ _ _ P Es) as K. destruct g' as [| | | |j|p]; cbn in K; try (destruct K; fail).
  - destruct g as [| | | |j'|p']; try congruence.
    + exists s. auto.
    + apply past_in in K. destruct K as (s0 & H0 & E0). exists s0. split; [exact E0|split; [lia|]].
      eapply hb_trans; [eapply hb_own with (i := s0) (k := s); eauto|exact Hsk].
    + apply past_in in K. destruct K as (s0 & H0 & E0). exists s0. split; [exact E0|split; [lia|]].
      eapply hb_trans; [eapply hb_own with (i := s0) (k := s); eauto|exact Hsk].
    + destruct K.
  - destruct (IH s Hs _ _ Es) as (s0 & E0 & H0 & B0); try discriminate.
    exists s0. split; [exact E0|split; [lia|]]. eapply hb_trans; eauto.
Qed.

Lemma early : forall t i k a g b l v, possible t -> nth_error t i = Some (GMain, a) -> touches a = Some (l, v) -> ~ started (past t GMain i) ->
  nth_error t k = Some (g, b) -> g <> GMain -> g <> GSignal -> (i < k)%nat /\ hb t i k.
Proof.
  intros t i k a g b l v P Ei Ta N Ek N1 N2. destruct (after_start t P k g b Ek N1 N2) as (s & Es & Hs & Bs).
  destruct (lt_eq_lt_dec i s) as [[C|C]|C].
  - split; [lia|]. eapply hb_trans; [eapply hb_own with (i := i) (k := s); eauto|exact Bs].
  - subst s. rewrite Ei in Es. inversion Es. subst a. discriminate Ta.
  - exfalso. apply N. unfold started. eapply in_past; eauto.
Qed.

Lemma go_peer : forall t k p b, possible t -> nth_error t k = Some (GPeer p, b) ->
  exists s, nth_error t s = Some (GTracker (tracker_of p), Go (GPeer p)) /\ (s < k)%nat /\ hb t s k.
Proof.
  intros t k p b P E. destruct (po_go t P k _ _ E ltac:(discriminate)) as (s & g' & Hs & Es).
  pose proof (keeps _ _ _ _ P Es) as K. destruct g' as [| | | |j|p']; cbn in K; try (destruct K; fail). subst j.
  exists s. split; [exact Es|split; [exact Hs|]]. eapply hb_go; eauto.
Qed.

Lemma handed : forall t i k p a b l v, possible t -> nth_error t i = Some (GTracker (tracker_of p), a) -> touches a = Some (l, v) -> ~ In (Go (GPeer p)) (past t (GTracker (tracker_of p)) i) ->
  nth_error t k = Some (GPeer p, b) -> (i < k)%nat /\ hb t i k.
Proof.
  intros t i k p a b l v P Ei Ta N Ek. destruct (go_peer t k p b P Ek) as (s & Es & Hs & Bs).
  destruct (lt_eq_lt_dec i s) as [[C|C]|C].
  - split; [lia|]. eapply hb_trans; [eapply hb_own with (i := i) (k := s); eauto|exact Bs].
  - subst s. rewrite Ei in Es. inversion Es. subst a. discriminate Ta.
  - exfalso. apply N. eapply in_past; eauto.
Qed.

(* A message is made before anybody has it. *)
Lemma made : forall t, possible t -> forall k p a b, nth_error t k = Some (GPeer p, a) -> has p (past t (GPeer p) k) b ->
  exists i, nth_error t i = Some (GPeer (fst b), Wr (LBlock b)) /\ (i < k)%nat /\ hb t i k.
Proof.
  intros t P k. induction k as [k IH] using lt_wf_ind. intros p a b E [[H1 H2]|(j & r & H)].
  - subst p. apply past_in in H1. destruct H1 as (i & Hi & Ei). exists i. split; [exact Ei|split; [exact Hi|]]. eapply hb_own; eauto.
  - apply past_in in H. destruct H as (x & Hx & Ex).
    destruct (po_take t P x _ _ _ _ Ex) as (s & g' & Hs & Es).
    pose proof (keeps _ _ _ _ P Es) as K. destruct g' as [| | | |j'|p']; cbn in K; try (destruct K; fail).
    destruct K as (Q & L & K). destruct (IH s ltac:(lia) _ _ _ Es K) as (i & Ei & Hi & Bi).
    pose proof (keeps _ _ _ _ P Ex) as Kx. cbn in Kx. destruct Kx as [_ Lx].
    exists i. split; [exact Ei|split; [lia|]]. eapply hb_trans; [exact Bi|].
    apply (hb_trans t s x k); [|eapply hb_own; eauto].
    destruct (gid_eqb (GPeer p') (GPeer p)) eqn:Eg.
    + apply gid_eqb_eq in Eg. rewrite Eg in Es. eapply hb_own; eauto.
    + eapply locked with (m := MFailed j r); eauto; [|discriminate]. intros C. apply gid_eqb_eq in C. congruence.
Qed.

Lemma once : forall t i k a, possible t -> forall p, nth_error t i = Some (GPeer p, a) -> nth_error t k = Some (GPeer p, a) ->
  (exists b, a = Wr (LBlock b) \/ a = Wr (LPiece b)) -> i = k.
Proof.
  intros t i k a P p Ei Ek (b & H).
  pose proof (keeps _ _ _ _ P Ei) as Ki. pose proof (keeps _ _ _ _ P Ek) as Kk.
  assert (N : ~ In a (past t (GPeer p) i) /\ ~ In a (past t (GPeer p) k)) by (destruct H; subst a; cbn in Ki, Kk; tauto).
  destruct N as [Ni Nk]. destruct (lt_eq_lt_dec i k) as [[C|C]|C]; auto; exfalso.
  - apply Nk. eapply in_past; eauto.
  - apply Ni. eapply in_past; eauto.
Qed.

Lemma sent : forall t k a b, possible t -> nth_error t k = Some (GWriter, a) -> In (Recv b) (past t GWriter k) ->
  exists i, nth_error t i = Some (GPeer (fst b), Wr (LPiece b)) /\ (i < k)%nat /\ hb t i k.
Proof.
  intros t k a b P E H. apply past_in in H. destruct H as (x & Hx & Ex).
  destruct (po_recv t P x _ _ Ex) as (s & g' & Hs & Es).
  pose proof (keeps _ _ _ _ P Es) as K. destruct g' as [| | | |j'|p']; cbn in K; try (destruct K; fail).
  destruct K as [<- K]. apply past_in in K. destruct K as (i & Hi & Ei).
  exists i. split; [exact Ei|split; [lia|]].
  eapply hb_trans; [eapply hb_own with (i := i) (k := s); eauto|].
  eapply hb_trans; [eapply hb_send with (i := s) (k := x); eauto|]. eapply hb_own; eauto.
Qed.

Lemma written : forall a l v, touches a = Some (l, v) -> v = true -> (forall j r, l <> LFailed j r) -> l <> LPool -> a = Wr l.
Proof. intros a l v T -> N1 N2. destruct a; try discriminate T; cbn in T; inversion T; subst; auto; exfalso; try (eapply N1; reflexivity); apply N2; reflexivity. Qed.

(* Two accesses of one location other than conn are ordered. *)
Lemma ordered : forall t l i k g a v g' a' v', possible t -> nth_error t i = Some (g, a) -> touches a = Some (l, v) ->
  nth_error t k = Some (g', a') -> touches a' = Some (l, v') -> (i < k)%nat -> g <> g' -> v || v' = true ->
  (forall p, l <> LConn p) -> hb t i k.
Proof.
  intros t l i k g a v g' a' v' P Ei Ti Ek Tk Hik Ng W NC.
  pose proof (touch_ok _ _ _ _ _ (keeps _ _ _ _ P Ei) Ti) as Ki.
  pose proof (touch_ok _ _ _ _ _ (keeps _ _ _ _ P Ek) Tk) as Kk.
  assert (Ui : forall m, a <> Unlock m) by (intros m ->; discriminate Ti).
  assert (Uk : forall m, a' <> Unlock m) by (intros m ->; discriminate Tk).
  assert (EA : g = GMain -> ~ started (past t GMain i) -> g' <> GSignal -> hb t i k).
  { intros -> N S. eapply early with (i := i) (k := k); eauto. }
  assert (EB : g' = GMain -> ~ started (past t GMain k) -> g <> GSignal -> hb t i k).
  { intros -> N S. destruct (early t k i a' g a l v' P Ek Tk N Ei) as [C _]; auto. lia. }
  assert (LK : forall m, holds m (past t g i) = true -> holds m (past t g' k) = true -> hb t i k).
  { intros m H1 H2. eapply locked with (m := m); eauto. }
  destruct l as [| | | | | |j|p|p|j r|b|b]; cbn [cond] in Ki, Kk.
  - destruct v; [|destruct v'; [|discriminate W]].
    + destruct (Ki eq_refl) as [-> S]. apply EA; auto. intros ->. pose proof (keeps _ _ _ _ P Ek) as K. destruct a'; try discriminate Tk; destruct K.
    + destruct (Kk eq_refl) as [-> S]. apply EB; auto. intros ->. pose proof (keeps _ _ _ _ P Ei) as K. destruct a; try discriminate Ti; destruct K.
  - destruct Ki as [[-> S]|[[p ->] L]].
    + apply EA; auto. destruct Kk as [[-> _]|[[p ->] _]]; discriminate.
    + destruct Kk as [[-> S]|[[p' ->] L']]; [apply EB; auto; discriminate|eauto].
  - destruct Ki as [[-> S]|[Hg L]].
    + apply EA; auto. destruct Kk as [[-> _]|[[->|[p ->]] _]]; discriminate.
    + destruct Kk as [[-> S]|[_ L']]; [|eauto]. apply EB; auto. destruct Hg as [->|[p ->]]; discriminate.
  - destruct Ki as [[-> S]|[Hg L]].
    + apply EA; auto. destruct Kk as [[-> _]|[[->|[p ->]] _]]; discriminate.
    + destruct Kk as [[-> S]|[_ L']]; [|eauto]. apply EB; auto. destruct Hg as [->|[p ->]]; discriminate.
  - destruct Ki as [[-> H]|[[j ->] [-> L]]].
    + destruct Kk as [[-> _]|[[j ->] [-> L']]]; [congruence|]. destruct H as [->|[H|H]]; [discriminate W|apply EA; auto; discriminate|eauto].
    + destruct Kk as [[-> H]|[_ [-> _]]]; [|discriminate W]. destruct H as [->|[H|H]]; [discriminate W|apply EB; auto; discriminate|eauto].
  - congruence.
  - congruence.
  - exfalso. apply (NC p). reflexivity.
  - destruct Ki as [[-> N]| ->].
    + destruct Kk as [[-> _]| ->]; [congruence|]. eapply handed with (i := i) (k := k); eauto.
    + destruct Kk as [[-> N]| ->]; [|congruence]. destruct (handed t k i p a' a _ _ P Ek Tk N Ei). lia.
  - destruct Ki as [[-> N]|[[n ->] L]].
    + destruct Kk as [[-> _]|[[n ->] _]]; [congruence|]. eapply (handed t i k (j, r, n)); eauto.
    + destruct Kk as [[-> N]|[[n' ->] L']]; [|eauto]. destruct (handed t k i (j, r, n) a' a _ _ P Ek Tk (N n) Ei). lia.
  - destruct Ki as [(-> & -> & N)|(-> & p & -> & H)].
    + assert (a = Wr (LBlock b)) by (eapply written; eauto; discriminate). subst a.
      destruct Kk as [(_ & -> & _)|(_ & p' & -> & H)]; [congruence|].
      destruct (made t P k p' a' b Ek H) as (x & Ex & Hx & Bx).
      assert (x = i) by (eapply once with (a := Wr (LBlock b)); eauto). subst x. exact Bx.
    + destruct Kk as [(-> & -> & N)|(-> & _)]; [|discriminate W].
      assert (a' = Wr (LBlock b)) by (eapply written; eauto; discriminate). subst a'.
      destruct (made t P i p a b Ei H) as (x & Ex & Hx & Bx).
      assert (x = k) by (eapply once with (a := Wr (LBlock b)); eauto). lia.
  - destruct Ki as [(-> & -> & N)|(-> & H)].
    + assert (a = Wr (LPiece b)) by (eapply written; eauto; discriminate). subst a.
      destruct Kk as [(_ & -> & _)|(_ & [->|(-> & H)])]; [congruence|congruence|].
      destruct (sent t k a' b P Ek H) as (x & Ex & Hx & Bx).
      assert (x = i) by (eapply once with (a := Wr (LPiece b)); eauto). subst x. exact Bx.
    + destruct Kk as [(-> & -> & N)|(-> & _)]; [|discriminate W].
      assert (a' = Wr (LPiece b)) by (eapply written; eauto; discriminate). subst a'.
      destruct H as [->|(-> & H)]; [congruence|].
      destruct (sent t i a b P Ei H) as (x & Ex & Hx & Bx).
      assert (x = k) by (eapply once with (a := Wr (LPiece b)); eauto). lia.
Qed.

(* On conn: only Stop and a tracker goroutine after AddPeer. *)
Lemma conn_race : forall t p i k, possible t -> race t (LConn p) i k ->
  exists x y e, (x = i /\ y = k \/ x = k /\ y = i) /\
    nth_error t x = Some (GMain, Rd (LConn p)) /\ nth_error t y = Some (GTracker (tracker_of p), Wr (LConn p)) /\
    nth_error t e = Some (GTracker (tracker_of p), Enter p) /\ (e < x)%nat /\ (e < y)%nat.
Proof.
  intros t p i k P (g & a & v & g' & a' & v' & Ei & Ti & Ek & Tk & Hik & Ng & W & NB).
  pose proof (touch_ok _ _ _ _ _ (keeps _ _ _ _ P Ei) Ti) as Ki.
  pose proof (touch_ok _ _ _ _ _ (keeps _ _ _ _ P Ek) Tk) as Kk. cbn [cond] in Ki, Kk.
  assert (EN : forall x y, nth_error t x = Some (GMain, Rd (LConn p)) -> nth_error t y = Some (GTracker (tracker_of p), Wr (LConn p)) ->
    exists e, nth_error t e = Some (GTracker (tracker_of p), Enter p) /\ (e < x)%nat /\ hb t e x).
  { intros x y Ex Ey. destruct (po_close t P x p Ex) as (e & g0 & He & Ee).
    pose proof (keeps _ _ _ _ P Ee) as K. destruct g0 as [| | | |j|p']; cbn in K; try (destruct K; fail). destruct K as [<- L].
    exists e. split; [exact Ee|split; [exact He|]].
    apply (locked t e x (GTracker (tracker_of p)) GMain (Enter p) (Rd (LConn p)) MPool P He); auto; try discriminate.
    exact (keeps _ _ _ _ P Ex). }
  destruct Ki as [(-> & -> & L)|[(-> & N)|(-> & ->)]].
  - destruct Kk as [(-> & _)|[(-> & N')|(-> & ->)]]; [congruence| |discriminate W].
    cbn in W. subst v'. assert (a' = Wr (LConn p)) by (eapply written; eauto; discriminate). subst a'.
    assert (a = Rd (LConn p)) by (destruct a; try discriminate Ti; cbn in Ti; inversion Ti; reflexivity). subst a.
    destruct (EN _ _ Ei Ek) as (e & Ee & He & Be). exists i, k, e. repeat split; auto. lia.
  - destruct Kk as [(-> & -> & L')|[(-> & _)|(-> & ->)]].
    + rewrite orb_false_r in W. subst v. assert (a = Wr (LConn p)) by (eapply written; eauto; discriminate). subst a.
      assert (a' = Rd (LConn p)) by (destruct a'; try discriminate Tk; cbn in Tk; inversion Tk; reflexivity). subst a'.
      destruct (EN _ _ Ek Ei) as (e & Ee & He & Be). exists k, i, e. repeat split; auto.
      destruct (lt_eq_lt_dec e i) as [[C|C]|C]; auto; exfalso.
      * subst e. rewrite Ei in Ee. discriminate Ee.
      * apply NB. eapply hb_trans; [|exact Be]. eapply hb_own; eauto.
    + congruence.
    + exfalso. apply NB. eapply handed with (i := i) (k := k); eauto.
  - destruct Kk as [(-> & -> & L')|[(-> & N')|(-> & ->)]]; [discriminate W| |discriminate W].
    destruct (handed t k i p a' a _ _ P Ek Tk N' Ei). lia.
Qed.

Lemma races : forall t l i k, possible t -> race t l i k ->
  exists p x y e, l = LConn p /\ (x = i /\ y = k \/ x = k /\ y = i) /\
    nth_error t x = Some (GMain, Rd (LConn p)) /\ nth_error t y = Some (GTracker (fst (fst p)), Wr (LConn p)) /\
    nth_error t e = Some (GTracker (fst (fst p)), Enter p) /\ (e < x)%nat /\ (e < y)%nat.
Proof.
  intros t l i k P R. assert (D : (exists p, l = LConn p) \/ forall p, l <> LConn p).
  { destruct l; try (right; discriminate). left. eauto. }
  destruct D as [[p ->]|N].
  - exists p. destruct (conn_race t p i k P R) as (x & y & e & H). exists x, y, e. split; [reflexivity|]. exact H.
  - exfalso. destruct R as (g & a & v & g' & a' & v' & Ei & Ti & Ek & Tk & Hik & Ng & W & NB).
    apply NB. eapply ordered; eauto.
Qed.

(* ---------- the witness ---------- *)
(* One tracker answers with one address.  A signal arrives while the connection is being
   opened; nothing yet runs for Wait to wait for.                                *)
Definition at_main (w : list act) : trace := map (fun a => (GMain, a)) w.
Definition at_tracker (w : list act) : trace := map (fun a => (GTracker 0, a)) w.
Definition the_peer : pid := (0, 0, 0)%nat.
Definition w_found : list act := [Wr (LTracker 0)] ++ w_ask 0 1 ++ [Wr (LFailed 0 0)] ++ w_NewPeer the_peer ++ w_AddPeer the_peer false ++ [Rd LTorrent].
Definition w_before : list act := w_make ++ [Wr LCancel; Go GPrinter; Rd LTorrent; Go (GTracker 0); Go GWriter; WgWait].
Definition racing : trace :=
  at_main w_before ++ [(GSignal, Cancel)] ++ at_tracker (w_found ++ w_connect the_peer false) ++
  at_main [Seen; Rd LPoolVar; Rd LCancel; Cancel; Lock MPool; Rd LPoolVar; Rd LPool; Rd (LConn the_peer)].

Ltac at_each E := repeat lazymatch type of E with
  | nth_error [] ?i = _ => destruct i; discriminate E
  | nth_error _ ?i = _ => destruct i as [|i]; [cbn [nth_error] in E; try discriminate E | cbn [nth_error] in E]
  end.
Ltac pick := match goal with
  | |- exists k g', (k < ?i)%nat /\ nth_error ?t k = Some (g', ?a) =>
      let rec go n rest := lazymatch rest with
        | (?g, a) :: _ => exists n, g; split; [lia|reflexivity]
        | _ :: ?r => go (S n) r
        end in go 0%nat t
  end.

Lemma racing_possible : possible racing.
Proof.
  assert (E : exists t, t = racing) by eauto. destruct E as [t E]. rewrite <- E. vm_compute in E. 
  split.
  - intros g. destruct g as [| | | |[|j]|p]; subst t.
    + exists (w_main 1 [the_peer]), [Wr LPoolVar; Unlock MPool]. split; [exists 1%nat, [the_peer]; reflexivity|reflexivity].
    + exists [Cancel], []. split; reflexivity.
    + exists (w_printer 0), (w_printer 0). split; [exists 0%nat; reflexivity|reflexivity].
    + exists (w_writer []), []. split; [exists []; reflexivity|reflexivity].
    + eexists (w_runTracker 0 [(1%nat, Some [ANew [FDial] false])]), _. split; [eexists; reflexivity|]. reflexivity.
    + exists (w_runTracker (S j) []), (w_runTracker (S j) []). split; [eexists; reflexivity|reflexivity].
    + exists (w_run p []), (w_run p []). split; [eexists; reflexivity|]. destruct p as [[j r] n]. reflexivity.
  - intros i g a H N. subst t. at_each H; inversion H; subst; try (exfalso; apply N; reflexivity); pick.
  - intros i g m H g'. subst t. at_each H; inversion H; subst; destruct g' as [| | | |[|j]|[[j r] n]]; reflexivity.
  - intros i g b H. subst t. at_each H.
  - intros i g j r b H. subst t. at_each H.
  - intros i g H. subst t. at_each H; pick.
  - intros i p H. subst t. at_each H; inversion H; subst; pick.
  - intros i H. subst t. at_each H; reflexivity.
Qed.

(* Nothing leads out of an access after which its goroutine does nothing. *)
Lemma last_access : forall t i k g a x, nth_error t i = Some (g, a) -> touches a = Some x ->
  (forall n b, (i < n)%nat -> nth_error t n <> Some (g, b)) -> ~ hb t i k.
Proof.
  intros t i k g a x E T L H. remember i as i0 eqn:Ei. revert Ei. induction H; intros ->; try (rewrite E in *; match goal with H : Some _ = Some _ |- _ => inversion H; subst end; try discriminate T).
  - eapply L; eauto.
  - apply IHhb1; auto.
Qed.

Lemma racing_race : race racing (LConn the_peer) 36 44.
Proof.
  exists (GTracker 0), (Wr (LConn the_peer)), true, GMain, (Rd (LConn the_peer)), false.
  repeat split; try reflexivity; try discriminate; [lia|].
  eapply last_access; [reflexivity|reflexivity|]. intros n b Hn H.
  do 37 (destruct n as [|n]; [lia|]). do 8 (destruct n as [|n]; [discriminate H|]). destruct n; discriminate H.
Qed.

Lemma race_free_refuted : ~ (forall t l i k, possible t -> ~ race t l i k).
Proof. intros H. exact (H _ _ _ _ racing_possible racing_race). Qed.

(* ---------- the WaitGroup ---------- *)
Definition late_add : trace := at_main w_before ++ at_tracker (w_found ++ w_Announce the_peer None ++ [WgAdd; Go (GPeer the_peer)]).

Lemma late_possible : possible late_add.
Proof.
  assert (E : exists t, t = late_add) by eauto. destruct E as [t E]. rewrite <- E. vm_compute in E. 
  split.
  - intros g. destruct g as [| | | |[|j]|p]; subst t.
    + exists (w_main 1 []), (Seen :: w_Stop []). split; [exists 1%nat, []; reflexivity|reflexivity].
    + exists [Cancel], [Cancel]. split; reflexivity.
    + exists (w_printer 0), (w_printer 0). split; [exists 0%nat; reflexivity|reflexivity].
    + exists (w_writer []), []. split; [exists []; reflexivity|reflexivity].
    + eexists (w_runTracker 0 [(1%nat, Some [ANew [] true])]), _. split; [eexists; reflexivity|]. reflexivity.
    + exists (w_runTracker (S j) []), (w_runTracker (S j) []). split; [eexists; reflexivity|reflexivity].
    + exists (w_run p []), (w_run p []). split; [eexists; reflexivity|]. destruct p as [[j r] n]. reflexivity.
  - intros i g a H N. subst t. at_each H; inversion H; subst; try (exfalso; apply N; reflexivity); pick.
  - intros i g m H g'. subst t. at_each H; inversion H; subst; destruct g' as [| | | |[|j]|[[j r] n]]; reflexivity.
  - intros i g b H. subst t. at_each H.
  - intros i g j r b H. subst t. at_each H.
  - intros i g H. subst t. at_each H.
  - intros i p H. subst t. at_each H.
  - intros i H. subst t. at_each H; reflexivity.
Qed.

Lemma hb_lt : forall t i k, hb t i k -> (i < k)%nat.
Proof. intros t i k H. induction H; lia. Qed.
Lemma hb_dom : forall t i k, hb t i k -> (exists e, nth_error t i = Some e) /\ exists e, nth_error t k = Some e.
Proof. intros t i k H. induction H; try (split; eauto; fail). destruct IHhb1, IHhb2. auto. Qed.

Lemma wait_orders_refuted : ~ (forall t i k g, possible t -> nth_error t i = Some (g, WgAdd) -> nth_error t k = Some (GMain, WgWait) -> hb t i k).
Proof.
  intros H. specialize (H late_add 41%nat 12%nat (GTracker 0) late_possible eq_refl eq_refl). apply hb_lt in H. lia.
Qed.

Lemma into_main : forall t i k, possible t -> hb t i k -> forall g a b, nth_error t i = Some (g, a) -> g <> GMain ->
  nth_error t k = Some (GMain, b) -> ~ In WgWait (past t GMain k) ->
  exists d g', nth_error t d = Some (g', WgDone) /\ (i <= d < k)%nat /\ (i = d \/ hb t i d).
Proof.
  intros t i k P H. induction H as [i k g0 a0 b0 L Ei Ek|i k g0 g' b0 L Ei Ek|i k g0 g' m L Ei Ek|i k g0 g' b0 L Ei Ek|i k g0 g' L Ei Ek|i k g0 g' L Ei Ek|i k g0 g' L Ei Ek|i k l H1 IH1 H2 IH2];
    intros g a b E N E2 W.
  - rewrite E in Ei. rewrite E2 in Ek. inversion Ei. inversion Ek. congruence.
  - rewrite E2 in Ek. inversion Ek. subst g'. exfalso. eapply go_main; eauto.
  - exfalso. rewrite E2 in Ek. inversion Ek. subst. pose proof (keeps _ _ _ _ P E2) as K. cbn in K. contradiction.
  - exfalso. rewrite E2 in Ek. inversion Ek. subst. exact (keeps _ _ _ _ P E2).
  - rewrite E in Ei. inversion Ei. subst. exists i, g0. split; [exact E|]. split; [lia|left; reflexivity].
  - exfalso. rewrite E2 in Ek. inversion Ek. subst. pose proof (keeps _ _ _ _ P E2) as K. cbn in K. contradiction.
  - exfalso. rewrite E2 in Ek. inversion Ek. subst. exact (keeps _ _ _ _ P E2).
  - pose proof (hb_lt _ _ _ H1) as L1. pose proof (hb_lt _ _ _ H2) as L2.
    destruct (hb_dom _ _ _ H1) as [_ [[gm am] Em]].
    destruct (gid_eqb gm GMain) eqn:Eg.
    + apply gid_eqb_eq in Eg. subst gm.
      destruct (IH1 _ _ _ E N Em) as (d & g' & Ed & Hd & Od).
      { intros C. apply W. destruct (past_le t GMain k l) as [r Er]; [lia|]. rewrite Er. apply in_or_app. auto. }
      exists d, g'. split; [exact Ed|]. split; [lia|exact Od].
    + destruct (IH2 gm am b Em) as (d & g' & Ed & Hd & Od); auto.
      { intros ->. rewrite gid_eqb_refl in Eg. discriminate Eg. }
      exists d, g'. split; [exact Ed|]. split; [lia|]. right. destruct Od as [->|Od]; [exact H1|eapply hb_trans; eauto].
Qed.

Lemma wait_order : forall t i k g, possible t -> nth_error t i = Some (g, WgAdd) -> nth_error t k = Some (GMain, WgWait) -> hb t i k ->
  exists d g', nth_error t d = Some (g', WgDone) /\ (i < d < k)%nat /\ hb t i d.
Proof.
  intros t i k g P Ei Ek H.
  assert (N : g <> GMain) by (intros ->; exact (keeps _ _ _ _ P Ei)).
  destruct (into_main t i k P H g _ _ Ei N Ek) as (d & g' & Ed & Hd & Od).
  { exact (keeps _ _ _ _ P Ek). }
  assert (i <> d) by (intros ->; rewrite Ed in Ei; discriminate Ei).
  exists d, g'. split; [exact Ed|]. split; [lia|]. destruct Od as [->|Od]; [congruence|exact Od].
Qed.

(* ---------- two peers, a request that one makes and the other sends, a piece written ---------- *)
Definition peer_a : pid := (0, 0, 0)%nat.
Definition peer_b : pid := (0, 0, 1)%nat.
Definition at_peer (p : pid) (w : list act) : trace := map (fun a => (GPeer p, a)) w.
Definition calls_a : list pdec := [DDone; DKeep None; DInterested; DRead (Some KField); DNext NBlock false].
Definition calls_b : list pdec := [DDone; DKeep None; DNext (NFailed (peer_a, 0%nat)) true; DRead (Some (KPiece true))].
Definition busy : trace :=
  at_main w_before ++
  at_tracker ([Wr (LTracker 0)] ++ w_ask 0 1 ++ w_initPeers 0 0 [ANew [FDial] true; ANew [] true]) ++
  at_peer peer_a (w_calls peer_a v0 calls_a) ++ at_peer peer_b (w_calls peer_b v0 calls_b) ++
  map (fun a => (GWriter, a)) (w_writer [((peer_b, 0%nat), true)]).

Lemma busy_possible : possible busy.
Proof.
  assert (E : exists t, t = busy) by eauto. destruct E as [t E]. rewrite <- E. vm_compute in E. 
  split.
  - intros g. destruct g as [| | | |[|j]|p].
    + subst t. exists (w_main 1 []), (Seen :: w_Stop []). split; [exists 1%nat, []; reflexivity|reflexivity].
    + subst t. exists [Cancel], [Cancel]. split; reflexivity.
    + subst t. exists (w_printer 0), (w_printer 0). split; [exists 0%nat; reflexivity|reflexivity].
    + subst t. exists (w_writer [((peer_b, 0%nat), true)]), []. split; [exists [((peer_b, 0%nat), true)]; reflexivity|reflexivity].
    + subst t. eexists (w_runTracker 0 [(1%nat, Some [ANew [FDial] true; ANew [] true])]), _. split; [eexists; reflexivity|]. reflexivity.
    + subst t. exists (w_runTracker (S j) []), (w_runTracker (S j) []). split; [eexists; reflexivity|reflexivity].
    + destruct p as [[[|j] [|r]] [|[|n]]]; subst t;
        try (match goal with |- exists w r, does (GPeer ?p) w /\ _ => exists (w_run p []), (w_run p []) end; split; [exists []; reflexivity|reflexivity]).
      * exists (w_run peer_a calls_a), [WgDone]. split; [exists calls_a; reflexivity|reflexivity].
      * exists (w_run peer_b calls_b), [WgDone]. split; [exists calls_b; reflexivity|reflexivity].
  - intros i g a H N. subst t. at_each H; inversion H; subst; try (exfalso; apply N; reflexivity); pick.
  - intros i g m H g'. subst t. at_each H; inversion H; subst; destruct g' as [| | | |[|j]|[[[|j] [|r]] [|[|n]]]]; reflexivity.
  - intros i g b H. subst t. at_each H; inversion H; subst; pick.
  - intros i g j r b H. subst t. at_each H; inversion H; subst; pick.
  - intros i g H. subst t. at_each H.
  - intros i p H. subst t. at_each H.
  - intros i H. subst t. at_each H; reflexivity.
Qed.
