(* Lemmas about Base.v *)
From Verif Require Import Base.

Lemma zlen_nil {A} : zlen (@nil A) = 0. Proof. reflexivity. Qed.
Lemma zlen_cons {A} (x : A) l : zlen (x :: l) = 1 + zlen l.
Proof. unfold zlen; cbn [length]; lia. Qed.
Lemma zlen_app {A} (l1 l2 : list A) : zlen (l1 ++ l2) = zlen l1 + zlen l2.
Proof. unfold zlen; rewrite app_length; lia. Qed.
Lemma zlen_nonneg {A} (l : list A) : 0 <= zlen l.
Proof. unfold zlen; lia. Qed.
#[global] Hint Rewrite @zlen_nil @zlen_cons @zlen_app : zlen.

Lemma beq_refl a : beq a a = true.
Proof. induction a; simpl; [reflexivity|rewrite Z.eqb_refl; assumption]. Qed.
Lemma beq_eq a b : beq a b = true <-> a = b.
Proof.
  split; [|intros ->; apply beq_refl].
  revert b; induction a as [|x a IH]; intros [|y b]; simpl; try discriminate; try reflexivity.
  intros H; apply andb_true_iff in H as [H1 H2]. apply Z.eqb_eq in H1.
  f_equal; auto.
Qed.
Lemma beq_neq a b : beq a b = false <-> a <> b.
Proof.
  split.
  - intros H ->. rewrite beq_refl in H; discriminate.
  - intros H. destruct (beq a b) eqn:E; [|reflexivity]. apply beq_eq in E; contradiction.
Qed.
Lemma beq_sym a b : beq a b = beq b a.
Proof.
  destruct (beq a b) eqn:E.
  - apply beq_eq in E; subst; symmetry; apply beq_refl.
  - symmetry; apply beq_neq. apply beq_neq in E. congruence.
Qed.

Lemma wrap64_small z : - 2^63 <= z < 2^63 -> wrap64 z = z.
Proof. intros H; unfold wrap64; rewrite Z.mod_small; lia. Qed.
Lemma wrap64_range z : - 2^63 <= wrap64 z < 2^63.
Proof. unfold wrap64. pose proof (Z.mod_pos_bound (z + 2^63) (2^64)). lia. Qed.

Lemma nthZ_app {A} (pre : list A) c post : nthZ (pre ++ c :: post) (zlen pre) = Some c.
Proof.
  unfold nthZ. pose proof (zlen_nonneg pre).
  destruct (Z.ltb_spec (zlen pre) 0); [lia|].
  unfold zlen; rewrite Nat2Z.id. rewrite nth_error_app2 by lia.
  rewrite Nat.sub_diag; reflexivity.
Qed.
Lemma nthZ_some {A} (l : list A) i : 0 <= i < zlen l -> exists x, nthZ l i = Some x.
Proof.
  intros H. unfold nthZ. destruct (Z.ltb_spec i 0); [lia|].
  destruct (nth_error l (Z.to_nat i)) eqn:E; [eauto|].
  apply nth_error_None in E. unfold zlen in H. lia.
Qed.
Lemma nthZ_none {A} (l : list A) i : (i < 0 \/ zlen l <= i) -> nthZ l i = None.
Proof.
  intros H. unfold nthZ. destruct (Z.ltb_spec i 0); [reflexivity|].
  apply nth_error_None. unfold zlen in H. lia.
Qed.
Lemma nthZ_bounds {A} (l : list A) i x : nthZ l i = Some x -> 0 <= i < zlen l.
Proof.
  intros H. destruct (Z.ltb_spec i 0); [rewrite nthZ_none in H by lia; discriminate|].
  destruct (Z.leb_spec (zlen l) i); [rewrite nthZ_none in H by lia; discriminate|lia].
Qed.

Lemma slice_app {A} (pre w post : list A) :
  slice (pre ++ w ++ post) (zlen pre) (zlen pre + zlen w) = Ok w.
Proof.
  unfold slice, sub. autorewrite with zlen.
  pose proof (zlen_nonneg pre); pose proof (zlen_nonneg w); pose proof (zlen_nonneg post).
  replace ((0 <=? zlen pre) && (zlen pre <=? zlen pre + zlen w)
           && (zlen pre + zlen w <=? zlen pre + (zlen w + zlen post))) with true by lia.
  f_equal. replace (zlen pre + zlen w - zlen pre) with (zlen w) by lia.
  unfold zlen; rewrite !Nat2Z.id.
  rewrite skipn_app, skipn_all, Nat.sub_diag; simpl.
  rewrite firstn_app, firstn_all, Nat.sub_diag; simpl. apply app_nil_r.
Qed.

Lemma lookup_insert {A} k k' (v : A) m :
  lookup k (insert k' v m) = if beq k k' then Some v else lookup k m.
Proof.
  induction m as [|[k1 v1] m IH]; simpl; [reflexivity|].
  destruct (beq k' k1) eqn:E1; simpl.
  - apply beq_eq in E1; subst k1. destruct (beq k k'); reflexivity.
  - rewrite IH. destruct (beq k k1) eqn:E2; [|reflexivity].
    apply beq_eq in E2; subst k1. rewrite beq_sym, E1. reflexivity.
Qed.
Lemma in_insert {A} k (v : A) m x : In x (insert k v m) -> x = (k, v) \/ In x m.
Proof.
  induction m as [|[k1 v1] m IH]; simpl; [intuition|].
  destruct (beq k k1) eqn:E; simpl.
  - apply beq_eq in E; subst. intuition.
  - intuition.
Qed.
Lemma insert_keys {A} k (v : A) m x :
  In x (map fst (insert k v m)) <-> x = k \/ In x (map fst m).
Proof.
  induction m as [|[k1 v1] m IH]; simpl; [intuition|].
  destruct (beq k k1) eqn:E; simpl.
  - apply beq_eq in E; subst. intuition.
  - rewrite IH. intuition.
Qed.
Lemma insert_nodup {A} k (v : A) m : NoDup (map fst m) -> NoDup (map fst (insert k v m)).
Proof.
  induction m as [|[k1 v1] m IH]; simpl; intros H.
  - constructor; [intros []|constructor].
  - inversion H as [|? ? Hn Hd]; subst. destruct (beq k k1) eqn:E; simpl.
    + constructor; assumption.
    + constructor; [|auto]. rewrite insert_keys. intros [->|Hi]; [|contradiction].
      rewrite beq_refl in E; discriminate.
Qed.
Lemma lookup_in {A} k (v : A) m : lookup k m = Some v -> In (k, v) m.
Proof.
  induction m as [|[k1 v1] m IH]; simpl; [discriminate|].
  destruct (beq k k1) eqn:E; intros H.
  - apply beq_eq in E. injection H as ->. subst. auto.
  - auto.
Qed.
Lemma lookup_none {A} k (m : list (bytes * A)) : lookup k m = None <-> ~ In k (map fst m).
Proof.
  induction m as [|[k1 v1] m IH]; simpl; [intuition|].
  destruct (beq k k1) eqn:E.
  - apply beq_eq in E. subst. split; [discriminate|intros H; exfalso; auto].
  - apply beq_neq in E. rewrite IH. intuition.
Qed.
Lemma nodup_lookup {A} k (v : A) m : NoDup (map fst m) -> In (k, v) m -> lookup k m = Some v.
Proof.
  induction m as [|[k1 v1] m IH]; simpl; [intros _ []|].
  intros H [E|Hi]; inversion H as [|? ? Hn Hd]; subst.
  - injection E as -> ->. rewrite beq_refl; reflexivity.
  - destruct (beq k k1) eqn:E; [|auto]. apply beq_eq in E; subst.
    exfalso; apply Hn. change k1 with (fst (k1, v)). apply in_map; assumption.
Qed.

(* ---- big-endian codec ---- *)
Lemma be_put_length n z : length (be_put n z) = n.
Proof. induction n; simpl; congruence. Qed.
Lemma be_put_bytes n z : Forall is_byte (be_put n z).
Proof.
  induction n; simpl; constructor; auto. unfold is_byte.
  apply Z.mod_pos_bound; lia.
Qed.
Lemma be_get_app l1 l2 : be_get (l1 ++ l2) = be_get l1 * 256 ^ zlen l2 + be_get l2.
Proof.
  unfold be_get. rewrite fold_left_app. generalize (fold_left (fun acc b => acc * 256 + b) l1 0).
  induction l2 as [|x l2 IH] using rev_ind; intros a.
  - cbn [fold_left]. change (zlen (@nil Z)) with 0. lia.
  - rewrite !fold_left_app; cbn [fold_left]. rewrite IH. autorewrite with zlen.
    replace (zlen l2 + (1 + 0)) with (1 + zlen l2) by lia.
    rewrite Z.pow_add_r by (pose proof (zlen_nonneg l2); lia). nia.
Qed.
Lemma be_get_cons x l : be_get (x :: l) = x * 256 ^ zlen l + be_get l.
Proof. change (x :: l) with ([x] ++ l). rewrite be_get_app. reflexivity. Qed.
Lemma be_get_range l : Forall is_byte l -> 0 <= be_get l < 256 ^ zlen l.
Proof.
  induction l as [|x l IH]; intros H; [cbn; lia|].
  inversion H as [|? ? Hx Hl]; subst. specialize (IH Hl).
  rewrite be_get_cons, zlen_cons. rewrite Z.pow_add_r by (pose proof (zlen_nonneg l); lia).
  unfold is_byte in Hx. nia.
Qed.
Lemma be_get_put n z : be_get (be_put n z) = z mod 256 ^ Z.of_nat n.
Proof.
  induction n as [|n IH].
  - cbn. rewrite Z.mod_1_r; reflexivity.
  - cbn [be_put]. rewrite be_get_cons, IH. unfold zlen; rewrite be_put_length.
    replace (Z.of_nat (S n)) with (Z.of_nat n + 1) by lia.
    rewrite Z.pow_add_r by lia. change (256 ^ 1) with 256.
    assert (0 < 256 ^ Z.of_nat n) by (apply Z.pow_pos_nonneg; lia).
    rewrite Z.rem_mul_r by lia. lia.
Qed.
Lemma be_put_get l : Forall is_byte l -> be_put (length l) (be_get l) = l.
Proof.
  induction l as [|x l IH]; intros H; [reflexivity|].
  inversion H as [|? ? Hx Hl]; subst. cbn [length be_put].
  assert (Hp : 0 < 256 ^ Z.of_nat (length l)) by (apply Z.pow_pos_nonneg; lia).
  pose proof (be_get_range l Hl) as Hr. unfold zlen in Hr.
  rewrite be_get_cons. unfold zlen.
  f_equal.
  - rewrite Z.div_add_l by lia. rewrite (Z.div_small (be_get l)) by lia.
    rewrite Z.add_0_r. apply Z.mod_small. exact Hx.
  - transitivity (be_put (length l) (be_get l)); [|auto].
    assert (G : forall n a b, (exists k, a = k * 256 ^ Z.of_nat n + b) -> be_put n a = be_put n b).
    { clear. induction n as [|n IHn]; intros a b [k Hk]; [reflexivity|].
      cbn [be_put].
      replace (Z.of_nat (S n)) with (Z.of_nat n + 1) in Hk by lia.
      rewrite Z.pow_add_r in Hk by lia. change (256 ^ 1) with 256 in Hk.
      assert (0 < 256 ^ Z.of_nat n) by (apply Z.pow_pos_nonneg; lia).
      f_equal.
      - subst a. replace (k * (256 ^ Z.of_nat n * 256) + b) with ((k * 256) * 256 ^ Z.of_nat n + b) by ring.
        rewrite Z.div_add_l by lia. rewrite Z.add_comm, Z.mod_add by lia. reflexivity.
      - apply IHn. exists (k * 256). lia. }
    apply G. exists x. reflexivity.
Qed.
