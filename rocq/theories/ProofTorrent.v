(* Proofs about ModelTorrent.v: bitsets, pieces, trackers, Next, Done, queue.   *)
From Verif Require Import Base ProofBase ModelBitset ModelMsg ModelFloat SpecPath ModelPath ModelTorrent.

Lemma skipn_add_app {A} (a l : list A) k : skipn (length a + k) (a ++ l) = skipn k l.
Proof. induction a; cbn; auto. Qed.

(* ---------- bitsets ---------- *)
Lemma bs_test_nth b n : bs_test b (Z.of_nat n) = nth n b false.
Proof.
  unfold bs_test, nthZ. replace (Z.of_nat n <? 0) with false by lia. rewrite Nat2Z.id.
  revert n; induction b as [|x b IH]; intros [|n]; cbn; auto.
Qed.
Lemma set_nth_nth b : forall n m, nth m (set_nth b n) false = (Nat.eqb n m || nth m b false)%bool.
Proof.
  assert (H0 : forall n m, nth m (set_nth [] n) false = Nat.eqb n m).
  { induction n as [|n IH]; intros [|m]; cbn; auto. destruct m; reflexivity. }
  induction b as [|x b IH]; intros n m.
  - rewrite H0. destruct m; cbn; now rewrite orb_false_r.
  - destruct n as [|n], m as [|m]; cbn; auto.
Qed.
Lemma set_nth_length b : forall n, length (set_nth b n) = Nat.max (length b) (S n).
Proof.
  assert (H0 : forall n, length (set_nth [] n) = S n) by (induction n as [|n IH]; cbn; auto).
  induction b as [|x b IH]; intros n; [rewrite H0; reflexivity|].
  destruct n as [|n]; cbn; [lia|]. rewrite IH. lia.
Qed.
Lemma bs_test_set b i j : 0 <= i -> 0 <= j -> bs_test (bs_set b i) j = ((i =? j) || bs_test b j)%bool.
Proof.
  intros Hi Hj. rewrite <- (Z2Nat.id j Hj) at 1 3. rewrite !bs_test_nth. unfold bs_set. rewrite set_nth_nth.
  f_equal. destruct (Nat.eqb_spec (Z.to_nat i) (Z.to_nat j)); lia.
Qed.
Lemma bs_set_len b i : 0 <= i -> zlen (bs_set b i) = Z.max (zlen b) (i + 1).
Proof. intros Hi. unfold bs_set, zlen. rewrite set_nth_length. lia. Qed.
Lemma bs_test_out b i : zlen b <= i -> bs_test b i = false.
Proof. intros H. unfold bs_test. rewrite nthZ_none; auto. Qed.
Lemma bs_test_neg b i : i < 0 -> bs_test b i = false.
Proof. intros H. unfold bs_test, nthZ. now replace (i <? 0) with true by lia. Qed.
Lemma bs_new_test n i : bs_test (bs_new n) i = false.
Proof.
  destruct (Z.ltb_spec i 0); [now apply bs_test_neg|]. rewrite <- (Z2Nat.id i) by lia. rewrite bs_test_nth. unfold bs_new. apply nth_repeat.
Qed.
Lemma bs_new_len n : 0 <= n -> zlen (bs_new n) = n.
Proof. intros H. unfold bs_new, zlen. rewrite repeat_length. lia. Qed.

Lemma bs_all_spec b : bs_all b = true <-> forall j, 0 <= j < zlen b -> bs_test b j = true.
Proof.
  unfold bs_all, bs_count, bs_len. rewrite Z.eqb_eq.
  assert (L : forall l : bitset, (length (filter (fun x => x) l) <= length l)%nat).
  { induction l as [|x l IH]; cbn; [lia|]. destruct x; cbn; lia. }
  assert (E : zlen (filter (fun x => x) b) = zlen b <-> Forall (fun x => x = true) b).
  { unfold zlen. induction b as [|x b IH]; cbn.
    - split; auto.
    - destruct x; cbn.
      + split; intros H.
        * constructor; auto. apply IH. lia.
        * inversion H; subst. apply IH in H3. lia.
      + split; intros H; [|inversion H; discriminate]. specialize (L b). lia. }
  rewrite E, Forall_forall. split.
  - intros H j Hj. rewrite <- (Z2Nat.id j) by lia. rewrite bs_test_nth. apply H. apply nth_In. unfold zlen in Hj. lia.
  - intros H x Hx. apply (In_nth b x false) in Hx as (n & Hn & <-). rewrite <- bs_test_nth. apply H. unfold zlen. lia.
Qed.

Lemma first_clear_spec b : forall pos,
  match first_clear b pos with
  | Some j => pos <= j < pos + zlen b /\ bs_test b (j - pos) = false /\ forall k, pos <= k < j -> bs_test b (k - pos) = true
  | None => forall k, pos <= k < pos + zlen b -> bs_test b (k - pos) = true
  end.
Proof.
  induction b as [|x b IH]; intros pos; cbn [first_clear].
  - intros k Hk. rewrite zlen_nil in Hk. lia.
  - assert (T : forall k, pos < k -> bs_test (x :: b) (k - pos) = bs_test b (k - (pos + 1))).
    { intros k Hk. unfold bs_test, nthZ. replace (k - pos <? 0) with false by lia. replace (k - (pos + 1) <? 0) with false by lia.
      replace (Z.to_nat (k - pos)) with (S (Z.to_nat (k - (pos + 1)))) by lia. reflexivity. }
    assert (T0 : bs_test (x :: b) (pos - pos) = x) by (rewrite Z.sub_diag; reflexivity).
    destruct x.
    + specialize (IH (pos + 1)). destruct (first_clear b (pos + 1)) as [j|].
      * rewrite zlen_cons. destruct IH as (H1 & H2 & H3). split; [lia|]. rewrite T by lia. split; [auto|].
        intros k Hk. destruct (Z.eq_dec k pos); [subst; auto|]. rewrite T by lia. apply H3. lia.
      * rewrite zlen_cons. intros k Hk. destruct (Z.eq_dec k pos); [subst; auto|]. rewrite T by lia. apply IH. lia.
    + rewrite zlen_cons. pose proof (zlen_nonneg b). split; [lia|]. split; [auto|]. intros; lia.
Qed.
Lemma bs_test_skipn b n k : bs_test (skipn n b) (Z.of_nat k) = bs_test b (Z.of_nat (n + k)).
Proof. rewrite !bs_test_nth. revert n; induction b as [|x b IH]; intros [|n]; cbn; auto. destruct k; reflexivity. Qed.
Lemma next_clear_spec b i : 0 <= i ->
  match bs_next_clear b i with
  | Some j => i <= j < zlen b /\ bs_test b j = false /\ forall k, i <= k < j -> bs_test b k = true
  | None => forall k, i <= k < zlen b -> bs_test b k = true
  end.
Proof.
  intros Hi. unfold bs_next_clear. pose proof (first_clear_spec (skipn (Z.to_nat i) b) i) as H.
  assert (T : forall k, i <= k -> bs_test (skipn (Z.to_nat i) b) (k - i) = bs_test b k).
  { intros k Hk. rewrite <- (Z2Nat.id (k - i)) by lia. rewrite bs_test_skipn. f_equal. lia. }
  assert (L : zlen (skipn (Z.to_nat i) b) = Z.max 0 (zlen b - i)) by (unfold zlen; rewrite skipn_length; lia).
  rewrite L in H. destruct (first_clear _ i) as [j|].
  - destruct H as (H1 & H2 & H3). split; [lia|]. rewrite T in H2 by lia. split; [auto|]. intros k Hk. rewrite <- T by lia. apply H3; lia.
  - intros k Hk. rewrite <- T by lia. apply H. lia.
Qed.

(* ---------- Next ---------- *)
Lemma next_loop_spec have req : forall fuel i0, 0 <= i0 -> zlen req - i0 < Z.of_nat fuel ->
  match next_loop fuel req have (bs_next_clear req i0) with
  | Some i => i0 <= i < zlen req /\ bs_test req i = false /\ bs_test have i = true /\
              forall k, i0 <= k < i -> bs_test req k = true \/ bs_test have k = false
  | None => forall k, i0 <= k < zlen req -> bs_test req k = true \/ bs_test have k = false
  end.
Proof.
  induction fuel as [|fuel IH]; intros i0 H0 Hf.
  - cbn. intros; lia.
  - cbn [next_loop]. pose proof (next_clear_spec req i0 H0) as Hc. destruct (bs_next_clear req i0) as [j|].
    + destruct Hc as (H1 & H2 & H3). destruct (bs_test have j) eqn:E.
      * split; [lia|]. split; [auto|]. split; [auto|]. intros k Hk. left. apply H3; lia.
      * specialize (IH (j + 1) ltac:(lia) ltac:(lia)). destruct (next_loop fuel req have _) as [i|].
        -- destruct IH as (I1 & I2 & I3 & I4). split; [lia|]. split; [auto|]. split; [auto|].
           intros k Hk. destruct (Z.lt_trichotomy k j) as [L|[->|L]]; [left; apply H3; lia|auto|apply I4; lia].
        -- intros k Hk. destruct (Z.lt_trichotomy k j) as [L|[->|L]]; [left; apply H3; lia|auto|apply IH; lia].
    + intros k Hk. left. apply Hc. lia.
Qed.

Lemma next_spec t have t' r : Next t have = (t', r) ->
  match r with
  | Some i => 0 <= i < zlen (t_requested t) /\ bs_test (t_requested t) i = false /\ bs_test have i = true /\
              (forall k, 0 <= k < i -> bs_test (t_requested t) k = true \/ bs_test have k = false) /\
              t' = set_requested t (bs_set (t_requested t) i)
  | None => (forall k, 0 <= k < zlen (t_requested t) -> bs_test (t_requested t) k = true \/ bs_test have k = false) /\ t' = t
  end.
Proof.
  unfold Next. intros H. pose proof (next_loop_spec have (t_requested t) (S (length (t_requested t))) 0 ltac:(lia)) as Hs.
  specialize (Hs ltac:(unfold zlen; lia)).
  destruct (next_loop _ _ _ _) as [i|]; inversion H; subst.
  - destruct Hs as (H1 & H2 & H3 & H4). auto.
  - auto.
Qed.

(* a run of Next calls, each with the asking peer's set *)
Fixpoint next_run (t : torrent) (haves : list bitset) : torrent * list (option Z) :=
  match haves with
  | [] => (t, [])
  | h :: hs => let '(t1, r) := Next t h in let '(t2, rs) := next_run t1 hs in (t2, r :: rs)
  end.

Lemma next_run_spec haves : forall t t' rs, next_run t haves = (t', rs) ->
  length rs = length haves /\
  forall k have r, nth_error haves k = Some have -> nth_error rs k = Some r ->
    let taken j := bs_test (t_requested t) j = true \/ In (Some j) (firstn k rs) in
    match r with
    | Some i => 0 <= i < zlen (t_requested t) /\ bs_test have i = true /\ ~ taken i /\
                forall j, 0 <= j < i -> bs_test have j = true -> taken j
    | None => forall j, 0 <= j < zlen (t_requested t) -> bs_test have j = true -> taken j
    end.
Proof.
  induction haves as [|h hs IH]; intros t t' rs H; cbn [next_run] in H.
  - inversion H; subst. split; [reflexivity|]. intros [|k]; discriminate.
  - destruct (Next t h) as [t1 r1] eqn:E1. destruct (next_run t1 hs) as [t2 rs2] eqn:E2. inversion H; subst.
    apply next_spec in E1. destruct (IH _ _ _ E2) as [L IH']. split; [cbn; now rewrite L|].
    intros k have r Hk Hr. destruct k as [|k]; cbn [nth_error firstn] in *.
    + inversion Hk; inversion Hr; subst. cbn [In]. destruct r as [i|].
      * destruct E1 as (H1 & H2 & H3 & H4 & _). split; [lia|]. split; [auto|]. split.
        -- intros [C|[]]. congruence.
        -- intros j Hj Hh. destruct (H4 j Hj); [auto|congruence].
      * intros j Hj Hh. destruct E1 as [E1 _]. destruct (E1 j Hj); [auto|congruence].
    + specialize (IH' k have r Hk Hr). cbn [In].
      assert (T : forall j, 0 <= j -> (bs_test (t_requested t1) j = true \/ In (Some j) (firstn k rs2)) <->
                      (bs_test (t_requested t) j = true \/ (r1 = Some j \/ In (Some j) (firstn k rs2)))).
      { intros j Hj. destruct r1 as [i|].
        - destruct E1 as (H1 & _ & _ & _ & ->). cbn [t_requested set_requested]. rewrite bs_test_set by lia.
          rewrite orb_true_iff, Z.eqb_eq. split.
          + intros [[->|]|]; auto.
          + intros [|[E|]]; auto. inversion E; auto.
        - destruct E1 as [_ ->]. split; [intros [|]; auto|intros [|[|]]; auto; discriminate]. }
      assert (Ln : zlen (t_requested t1) = zlen (t_requested t)).
      { destruct r1 as [i|]; [|now destruct E1 as [_ ->]]. destruct E1 as (H1 & _ & _ & _ & ->). cbn. rewrite bs_set_len by lia. lia. }
      rewrite Ln in IH'. destruct r as [i|].
      * destruct IH' as (I1 & I2 & I3 & I4). split; [lia|]. split; [auto|]. split.
        -- rewrite <- T by lia. auto.
        -- intros j Hj Hh. apply T; [lia|]. apply I4; auto.
      * intros j Hj Hh. apply T; [lia|]. apply IH'; auto.
Qed.

(* ---------- Done ---------- *)
Definition mark_all (t : torrent) (is : list Z) : torrent := fold_left SetDownloaded is t.
Lemma mark_all_test is : forall t j, Forall (fun i => 0 <= i) is -> 0 <= j ->
  bs_test (t_downloaded (mark_all t is)) j = true <-> bs_test (t_downloaded t) j = true \/ In j is.
Proof.
  induction is as [|i is IH]; intros t j Hi Hj; cbn [mark_all fold_left In].
  - tauto.
  - inversion Hi; subst. unfold mark_all in IH. rewrite IH by auto. unfold SetDownloaded. cbn [t_downloaded set_downloaded].
    rewrite bs_test_set by lia. rewrite orb_true_iff, Z.eqb_eq. tauto.
Qed.
Lemma mark_all_len is : forall t, Forall (fun i => 0 <= i) is ->
  zlen (t_downloaded (mark_all t is)) = fold_left (fun m i => Z.max m (i + 1)) is (zlen (t_downloaded t)).
Proof.
  induction is as [|i is IH]; intros t Hi; cbn [mark_all fold_left]; [reflexivity|].
  inversion Hi; subst. unfold mark_all in IH. rewrite IH by auto. unfold SetDownloaded. cbn. rewrite bs_set_len by lia. reflexivity.
Qed.
Lemma fold_max_le is : forall m, Forall (fun i => i < m) is -> fold_left (fun m i => Z.max m (i + 1)) is m = m.
Proof.
  induction is as [|i is IH]; intros m H; cbn; [reflexivity|]. inversion H; subst. rewrite Z.max_l by lia. apply IH. auto.
Qed.
Lemma fold_max_spec is : forall m x, x < fold_left (fun m i => Z.max m (i + 1)) is m <-> x < m \/ exists i, In i is /\ x <= i.
Proof.
  induction is as [|i is IH]; intros m x; cbn [fold_left In].
  - split; [auto|intros [|(i & [] & _)]; auto].
  - rewrite IH. split.
    + intros [H|(k & H1 & H2)]; [|right; exists k; auto]. destruct (Z.max_spec m (i + 1)) as [[_ E]|[_ E]]; rewrite E in H.
      * right. exists i. split; [auto|lia].
      * auto.
    + intros [H|(k & [->|H1] & H2)]; [left; lia|left; lia|right; exists k; auto].
Qed.

Lemma done_iff t is : t_downloaded t = bs_new (t_pnum t) -> 0 <= t_pnum t -> Forall (fun i => 0 <= i < t_pnum t) is ->
  (Done (mark_all t is) = true <-> forall j, 0 <= j < t_pnum t -> In j is).
Proof.
  intros Hd Hp Hi. assert (H0 : Forall (fun i => 0 <= i) is) by (eapply Forall_impl; [|exact Hi]; intros; cbn in *; lia).
  unfold Done. rewrite bs_all_spec, mark_all_len by auto. rewrite Hd, bs_new_len by auto.
  rewrite fold_max_le by (eapply Forall_impl; [|exact Hi]; intros; cbn in *; lia).
  split; intros H j Hj.
  - specialize (H j Hj). apply mark_all_test in H; [|auto|lia]. rewrite Hd, bs_new_test in H. destruct H; [discriminate|auto].
  - apply mark_all_test; [auto|lia|]. right. auto.
Qed.
Lemma done_iff_any t is : t_downloaded t = bs_new (t_pnum t) -> 0 <= t_pnum t -> Forall (fun i => 0 <= i) is ->
  (Done (mark_all t is) = true <-> forall j, 0 <= j -> (j < t_pnum t \/ exists i, In i is /\ j <= i) -> In j is).
Proof.
  intros Hd Hp H0. unfold Done. rewrite bs_all_spec, mark_all_len by auto. rewrite Hd, bs_new_len by auto.
  split; intros H j Hj.
  - intros Hm. specialize (H j (conj Hj (proj2 (fold_max_spec _ _ _) Hm))). apply mark_all_test in H; [|auto|lia].
    rewrite Hd, bs_new_test in H. destruct H; [discriminate|auto].
  - apply mark_all_test; [auto|lia|]. right. apply H; [lia|]. apply fold_max_spec. lia.
Qed.

(* ---------- NewPieces ---------- *)
Lemma pieces_loop_spec fuel : forall pre s idx, zlen s mod 20 = 0 -> (length s < fuel)%nat ->
  exists ps, pieces_loop fuel (pre ++ s) (zlen pre) idx = Ok ps /\ concat (map p_sha1 ps) = s /\
    Forall (fun p => zlen (p_sha1 p) = 20) ps /\ forall k p, nth_error ps k = Some p -> p_index p = idx + Z.of_nat k.
Proof.
  induction fuel as [|fuel IH]; intros pre s idx Hm Hf; [lia|].
  cbn [pieces_loop]. rewrite zlen_app. destruct s as [|c s].
  - rewrite zlen_nil. replace (zlen pre <? zlen pre + 0) with false by lia. exists []. split; [reflexivity|]. split; [reflexivity|]. split; [auto|].
    intros [|k] p; discriminate.
  - set (S0 := c :: s) in *. assert (HL : 20 <= zlen S0).
    { assert (0 < zlen S0) by (unfold S0; rewrite zlen_cons; pose proof (zlen_nonneg s); lia).
      destruct (Z.lt_ge_cases (zlen S0) 20); [|auto]. rewrite Z.mod_small in Hm by lia. lia. }
    replace (zlen pre <? zlen pre + zlen S0) with true by lia.
    rewrite <- (firstn_skipn 20 S0). set (h := firstn 20 S0). set (q := skipn 20 S0).
    assert (Lh : zlen h = 20) by (unfold h, zlen in *; rewrite firstn_length; lia).
    assert (Lq : zlen q = zlen S0 - 20) by (unfold q, zlen in *; rewrite skipn_length; lia).
    assert (E : slice (pre ++ h ++ q) (zlen pre) (zlen pre + 20) = Ok h).
    { rewrite <- Lh. apply slice_app. }
    rewrite E. cbn [bind].
    destruct (IH (pre ++ h) q (idx + 1)) as (ps & E1 & E2 & E3 & E4).
    { rewrite Lq. rewrite Zminus_mod, Hm. reflexivity. }
    { unfold zlen in *. lia. }
    rewrite zlen_app, Lh, <- app_assoc in E1. rewrite E1. cbn [bind]. exists (mkPiece idx h :: ps). split; [reflexivity|].
    split; [cbn; now rewrite E2|]. split; [constructor; auto|].
    intros [|k] p Hk; cbn in Hk; [inversion Hk; cbn; lia|]. rewrite (E4 k p Hk). lia.
Qed.
Lemma new_pieces_ok b : zlen b mod 20 = 0 -> exists ps, NewPieces b = Ok ps /\ concat (map p_sha1 ps) = b /\
    Forall (fun p => zlen (p_sha1 p) = 20) ps /\ forall k p, nth_error ps k = Some p -> p_index p = Z.of_nat k.
Proof.
  intros H. unfold NewPieces. rewrite H. cbn [Z.eqb]. destruct (pieces_loop_spec (S (length b)) [] b 0 H ltac:(lia)) as (ps & E & R).
  exists ps. exact (conj E R).
Qed.
Lemma new_pieces_err b : zlen b mod 20 <> 0 -> exists e, NewPieces b = Err e.
Proof. intros H. unfold NewPieces. replace (zlen b mod 20 =? 0) with false by lia. eauto. Qed.
Lemma pieces_hash_at ps : forall b k p, concat (map p_sha1 ps) = b -> Forall (fun p => zlen (p_sha1 p) = 20) ps ->
  nth_error ps k = Some p -> p_sha1 p = sub b (20 * Z.of_nat k) (20 * Z.of_nat k + 20).
Proof.
  induction ps as [|q ps IH]; intros b k p Hb Hl Hk; [destruct k; discriminate|].
  inversion Hl; subst. cbn [map concat]. destruct k as [|k]; cbn in Hk.
  - inversion Hk; subst. unfold sub. cbn [skipn]. change (Z.to_nat (20 * Z.of_nat 0)) with 0%nat. cbn [skipn].
    replace (Z.to_nat _) with (length (p_sha1 p)) by (unfold zlen in *; lia). rewrite firstn_app, firstn_all, Nat.sub_diag. cbn. now rewrite app_nil_r.
  - rewrite (IH _ k p eq_refl H2 Hk). unfold sub. replace (Z.to_nat (20 * Z.of_nat (S k))) with (length (p_sha1 q) + Z.to_nat (20 * Z.of_nat k))%nat by (unfold zlen in *; lia).
    rewrite skipn_add_app. f_equal. lia.
Qed.

(* ---------- trackers ---------- *)
Lemma set_contains_in s x : set_contains s x = true <-> In x s.
Proof.
  unfold set_contains. rewrite existsb_exists. split.
  - intros (y & Hy & E). apply beq_eq in E. subst. auto.
  - intros H. exists x. split; [auto|apply beq_refl].
Qed.
Lemma set_add_in s x y : In y (set_add s x) <-> In y s \/ y = x.
Proof.
  unfold set_add. destruct (set_contains s x) eqn:E.
  - apply set_contains_in in E. split; [auto|intros [| ->]; auto].
  - rewrite in_app_iff. cbn. intuition.
Qed.
Lemma set_add_nodup s x : NoDup s -> NoDup (set_add s x).
Proof.
  unfold set_add. destruct (set_contains s x) eqn:E; [auto|]. intros H.
  assert (N : ~ In x s) by (intros C; apply set_contains_in in C; congruence).
  clear E. induction s as [|y s IH]; cbn; [repeat constructor; auto|]. inversion H; subst. constructor.
  - rewrite in_app_iff. cbn. intros [|[->|[]]]; auto. apply N. now left.
  - apply IH; auto. intros C. apply N. now right.
Qed.
Lemma fold_add_in l : forall s y, In y (fold_left set_add l s) <-> In y s \/ In y l.
Proof. induction l as [|x l IH]; intros s y; cbn; [tauto|]. rewrite IH, set_add_in. intuition. Qed.
Lemma fold_add_nodup l : forall s, NoDup s -> NoDup (fold_left set_add l s).
Proof. induction l as [|x l IH]; intros s H; cbn; auto. apply IH, set_add_nodup, H. Qed.
Lemma fold_fold_in ll : forall s y, In y (fold_left (fun s el => fold_left set_add el s) ll s) <-> In y s \/ exists el, In el ll /\ In y el.
Proof.
  induction ll as [|l ll IH]; intros s y; cbn.
  - split; [auto|intros [|(? & [] & _)]; auto].
  - rewrite IH, fold_add_in. split.
    + intros [[|]|(el & H1 & H2)]; [auto|right; exists l; auto|right; exists el; auto].
    + intros [|(el & [->|H1] & H2)]; [auto|auto|right; exists el; auto].
Qed.
Lemma fold_fold_nodup ll : forall s, NoDup s -> NoDup (fold_left (fun s el => fold_left set_add el s) ll s).
Proof. induction ll as [|x l IH]; intros s H; cbn; auto. apply IH, fold_add_nodup, H. Qed.
Lemma trackers_spec m : NoDup (trackers_of m) /\
  forall u, In u (trackers_of m) <-> u = mi_announce m \/ (exists tier, In tier (mi_announce_list m) /\ In u tier) \/ In u (mi_url_list m).
Proof.
  unfold trackers_of. split.
  - apply fold_add_nodup, fold_fold_nodup, set_add_nodup. constructor.
  - intros u. rewrite fold_add_in, fold_fold_in, set_add_in. cbn. tauto.
Qed.

Lemma new_fields cwd creat mk f m hash dir f' t : New cwd creat mk f m hash dir = (f', Ok t) ->
  NewPieces (mi_pieces m) = Ok (t_pieces t) /\ t_trackers t = trackers_of m /\ t_hash t = hash /\
  t_plen t = mi_piece_length m /\ t_isdir t = (mi_length m =? 0) /\
  t_length t = (if mi_length m =? 0 then complete_length (mi_files m) else mi_length m) /\
  t_files t = (if mi_length m =? 0 then mi_files m else []) /\
  t_pnum t = pieces_num (t_length t) (t_plen t) /\ t_requested t = bs_make (t_pnum t) /\ t_downloaded t = bs_make (t_pnum t) /\
  t_name t = mi_name m /\
  exists paths, download_paths dir (t_isdir t) (t_name t) (t_files t) = Ok paths /\ create_files cwd creat f paths = (f', Ok (t_osfiles t)).
Proof.
  unfold New. destruct (NewPieces (mi_pieces m)) as [ps| | |] eqn:E; try (intros H; inversion H; fail).
  destruct (_ && mk) eqn:Em; [intros H; inversion H|].
  destruct (download_paths _ _ _ _) as [paths| | |] eqn:Ep; try (intros H; inversion H; fail).
  destruct (create_files cwd creat f paths) as [f1 r] eqn:Ec. destruct r as [hs| | |]; cbn [bind]; intros H; inversion H; subst.
  cbn. repeat split; auto. exists paths. auto.
Qed.

(* ---------- failed-request queue ---------- *)
Lemma queue_pop q m : FailedPieceMessage (q ++ [m]) = (q, Some m).
Proof.
  unfold FailedPieceMessage. rewrite zlen_app. change (zlen [m]) with 1. pose proof (zlen_nonneg q).
  replace (zlen q + 1 =? 0) with false by lia. replace (zlen q + 1 - 1) with (zlen q) by lia.
  rewrite nthZ_app. f_equal. unfold zlen. rewrite Nat2Z.id, firstn_app, firstn_all, Nat.sub_diag. cbn. apply app_nil_r.
Qed.
Lemma queue_pop_nil : FailedPieceMessage [] = ([], None).
Proof. reflexivity. Qed.
