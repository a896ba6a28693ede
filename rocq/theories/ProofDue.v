(* When a keep-alive is due: the float comparison of checkKeepAlive is exact.    *)
From Coq Require Import Reals Lra ZArith Lia Floats.SpecFloat.
From Flocq Require Import Core.Core IEEE754.BinarySingleNaN.
From Verif Require Import Base ModelFloat ProofFloat ModelPeer ModelSystem ModelTimed.
Local Open Scope Z_scope.

Section add.
  Variables (prec emax k : Z).
  Context (Hprec : Prec_gt_0 prec) (Hmax : Prec_lt_emax prec emax).
  Hypothesis (Hk : 0 <= k < emax) (H3 : 3 - emax - prec <= 0).
  Notation fx := (SpecFloat.fexp prec emax).
  Lemma norm_value z e : (Rabs (F2R (Float radix2 z e)) <= bpow radix2 k)%R ->
    has_value (SpecFloat.binary_normalize prec emax z e false) (rnd_in prec emax (F2R (Float radix2 z e))) /\
    valid_binary prec emax (SpecFloat.binary_normalize prec emax z e false) = true.
  Proof.
    intros H. unfold SpecFloat.binary_normalize. destruct z as [|p|p].
    - split; [|reflexivity]. split; [reflexivity|]. cbn. rewrite F2R_0. rewrite rnd_in_0; [reflexivity|assumption..].
    - rewrite round_equiv. pose proof (binary_round_correct prec emax _ _ mode_NE false p e) as C. cbv zeta in C. destruct C as [V C]. split; [|exact V].
      change (round radix2 fx (round_mode mode_NE) (F2R (Float radix2 (cond_Zopp false (Zpos p)) e))) with (rnd_in prec emax (F2R (Float radix2 (Zpos p) e))) in C.
      rewrite (small_no_overflow prec emax k) in C by assumption. destruct C as (C1 & C2 & _). split; auto.
    - rewrite round_equiv. pose proof (binary_round_correct prec emax _ _ mode_NE true p e) as C. cbv zeta in C. destruct C as [V C]. split; [|exact V].
      change (round radix2 fx (round_mode mode_NE) (F2R (Float radix2 (cond_Zopp true (Zpos p)) e))) with (rnd_in prec emax (F2R (Float radix2 (Zneg p) e))) in C.
      rewrite (small_no_overflow prec emax k) in C by assumption. destruct C as (C1 & C2 & _). split; auto.
  Qed.
  Lemma add_value f g x y : has_value f x -> has_value g y -> (x <> 0)%R -> (y <> 0)%R -> (Rabs (x + y) <= bpow radix2 k)%R ->
    has_value (SFadd prec emax f g) (rnd_in prec emax (x + y)) /\ valid_binary prec emax (SFadd prec emax f g) = true.
  Proof.
    intros Hf Hg Hx Hy Hs. destruct (value_nonzero f x Hf Hx) as (sx & mx & ex & -> & Ex). destruct (value_nonzero g y Hg Hy) as (sy & my & ey & -> & Ey).
    unfold SFadd. set (ez := Z.min ex ey).
    assert (S : forall s m e, ez <= e -> F2R (Float radix2 (cond_Zopp s (Zpos (fst (shl_align m e ez)))) ez) = F2R (Float radix2 (cond_Zopp s (Zpos m)) e)).
    { intros s m e He. pose proof (shl_align_correct m e ez) as C. destruct (shl_align m e ez) as [m' e'] eqn:E. destruct C as [C1 C2].
      assert (e' = ez) by (unfold shl_align in E; destruct (ez - e) eqn:Q; inversion E; lia). subst e'. cbn [fst].
      destruct s; cbn [cond_Zopp]; [rewrite !F2R_Zopp; f_equal|]; congruence. }
    assert (Q : F2R (Float radix2 (cond_Zopp sx (Zpos (fst (shl_align mx ex ez))) + cond_Zopp sy (Zpos (fst (shl_align my ey ez)))) ez) = (x + y)%R).
    { rewrite Ex, Ey, <- (S sx mx ex), <- (S sy my ey) by (unfold ez; lia). unfold F2R. cbn [Fnum Fexp]. rewrite plus_IZR. ring. }
    rewrite <- Q. apply norm_value. rewrite Q. exact Hs.
  Qed.
End add.

(* comparison of floats is comparison of their values *)
Lemma leb_value f g x y : has_value f x -> has_value g y -> valid_binary 53 1024 f = true -> valid_binary 53 1024 g = true ->
  SFleb f g = true <-> (x <= y)%R.
Proof.
  intros [F1 F2] [G1 G2] Vf Vg.
  set (bf := SF2B f Vf). set (bg := SF2B g Vg).
  assert (Ef : B2SF bf = f) by apply B2SF_SF2B. assert (Eg : B2SF bg = g) by apply B2SF_SF2B.
  assert (C : SFcompare f g = Some (Rcompare x y)).
  { rewrite <- Ef, <- Eg. change (Bcompare bf bg = Some (Rcompare x y)). rewrite Bcompare_correct.
    - unfold bf, bg. rewrite !B2R_SF2B. now rewrite F2, G2.
    - unfold bf. now rewrite is_finite_SF2B.
    - unfold bg. now rewrite is_finite_SF2B. }
  unfold SFleb. rewrite C. destruct (Rcompare_spec x y); split; intros; try reflexivity; try discriminate; lra.
Qed.

Lemma of_int z : (Z.abs z <= 2 ^ 53)%Z -> has_value (f64_of z) (IZR z) /\ valid_binary 53 1024 (f64_of z) = true.
Proof.
  intros H. split.
  - rewrite <- (rnd_int z H). apply f64_of_value. apply bpow1000. lia.
  - exact (of_fits 53 1024 Hprec64 Hmax64 z).
Qed.
Lemma c1_9_value : has_value c1_9 (rnd (19 / 10)) /\ valid_binary 53 1024 c1_9 = true.
Proof.
  destruct (of_int 19 ltac:(lia)) as [A _]. destruct (of_int 10 ltac:(lia)) as [B _].
  apply (div_value 53 1024 1000 _ _ ltac:(lia) ltac:(lia) _ _ _ _ A B); [lra|].
  apply Rle_trans with (IZR 2); [rewrite Rabs_pos_eq; lra|]. apply Rle_trans with (Rabs (IZR 2)); [rewrite Rabs_pos_eq; lra|]. apply bpow1000. lia.
Qed.
Definition frac (n : Z) : R := rnd (IZR n / IZR minute).
Lemma frac_value n : 0 <= n < minute -> has_value (f64_div (f64_of n) (f64_of minute)) (frac n) /\ valid_binary 53 1024 (f64_div (f64_of n) (f64_of minute)) = true.
Proof.
  intros H. unfold minute, second in *. destruct (of_int n ltac:(lia)) as [A _]. destruct (of_int (60 * 1000000000) ltac:(lia)) as [B _].
  apply (div_value 53 1024 1000 _ _ ltac:(lia) ltac:(lia) _ _ _ _ A B); [apply not_0_IZR; lia|].
  assert (0 <= IZR n / IZR (60 * 1000000000) <= 1)%R.
  { assert (0 <= IZR n)%R by (apply IZR_le; lia). assert (IZR n <= IZR (60 * 1000000000))%R by (apply IZR_le; lia). assert (0 < IZR (60 * 1000000000))%R by (apply IZR_lt; lia).
    split; [apply Rmult_le_pos; [lra|apply Rlt_le, Rinv_0_lt_compat; lra]|]. apply Rmult_le_reg_r with (IZR (60 * 1000000000)); [lra|]. unfold Rdiv. rewrite Rmult_assoc, Rinv_l by lra. lra. }
  rewrite Rabs_pos_eq by lra. apply Rle_trans with (Rabs (IZR 1)); [rewrite Rabs_pos_eq; lra|]. apply bpow1000. lia.
Qed.
Lemma frac_le a b : a <= b -> (frac a <= frac b)%R.
Proof.
  intros H. unfold frac. apply rnd_le. unfold Rdiv. apply Rmult_le_compat_r; [|now apply IZR_le].
  apply Rlt_le, Rinv_0_lt_compat. unfold minute, second. apply IZR_lt. lia.
Qed.
Lemma frac_0 : frac 0 = 0%R.
Proof. unfold frac. unfold Rdiv. rewrite Rmult_0_l. change 0%R with (IZR 0). apply rnd_int. lia. Qed.
Lemma frac_1 : frac minute = 1%R.
Proof. unfold frac. unfold Rdiv. rewrite Rinv_r by (apply not_0_IZR; unfold minute, second; lia). change 1%R with (IZR 1). apply rnd_int. lia. Qed.
Lemma frac_pos n : 0 < n < minute -> (0 < frac n)%R.
Proof.
  intros H. apply Rlt_le_trans with (frac 1); [|apply frac_le; lia].
  destruct (frac_value 1 ltac:(unfold minute, second; lia)) as [[F V] _].
  (* a positive float: its value is not 0 *)
  assert (frac 0 <= frac 1)%R by (apply frac_le; lia). rewrite frac_0 in H0.
  destruct (Req_dec (frac 1) 0) as [E|E]; [|lra]. exfalso.
  rewrite <- V in E. revert E. 
  let f := eval vm_compute in (f64_div (f64_of 1) (f64_of minute)) in change (f64_div (f64_of 1) (f64_of minute)) with f. cbn. intros E. apply eq_0_F2R in E. discriminate.
Qed.
Lemma Minutes_value d : 0 <= d < 2 ^ 63 -> 
  has_value (Minutes d) (if d mod minute =? 0 then IZR (d / minute) else if d / minute =? 0 then frac d else rnd (IZR (d / minute) + frac (d mod minute)))
  /\ valid_binary 53 1024 (Minutes d) = true.
Proof.
  intros H. assert (M : 0 < minute) by reflexivity. assert (R : 0 <= d mod minute < minute) by (apply Z.mod_pos_bound; reflexivity).
  assert (Q : 0 <= d / minute <= 2 ^ 53).
  { split; [apply Z.div_pos; lia|]. apply Z.div_le_upper_bound; [reflexivity|]. unfold minute, second. lia. }
  unfold Minutes. destruct (of_int (d / minute) ltac:(lia)) as [A VA]. destruct (frac_value _ R) as [B VB].
  destruct (Z.eqb_spec (d mod minute) 0) as [E|E].
  - rewrite E in *. assert (F0 : f64_div (f64_of 0) (f64_of minute) = S754_zero false) by (vm_compute; reflexivity). rewrite F0 in *.
    destruct (f64_of (d / minute)) eqn:F; cbn in A; try (destruct A; discriminate); cbn.
    + destruct A as [_ A]. cbn in A. destruct s; (split; [split; [reflexivity|exact A]|reflexivity]).
    + split; assumption.
  - assert (P : (0 < frac (d mod minute))%R) by (apply frac_pos; lia).
    destruct (Z.eqb_spec (d / minute) 0) as [E0|E0].
    + rewrite E0 in *. assert (d mod minute = d) as Ed by (pose proof (Z.div_mod d minute); lia). rewrite Ed in *.
      unfold f64_add, SFadd. change (f64_of 0) with (S754_zero false). destruct (f64_div (f64_of d) (f64_of minute)) eqn:F; try (destruct B; discriminate).
      * exfalso. destruct B as [_ B]. cbn in B. lra.
      * split; assumption.
    + assert (PQ : (1 <= IZR (d / minute))%R) by (apply IZR_le; lia).
      apply (add_value 53 1024 1000 _ _ ltac:(lia) ltac:(lia) _ _ _ _ A B); [lra|lra|].
      assert (F1 : (frac (d mod minute) <= 1)%R) by (rewrite <- frac_1; apply frac_le; lia).
      rewrite Rabs_pos_eq by lra. apply Rle_trans with (Rabs (IZR (2 ^ 64))); [|apply bpow1000; lia].
      assert (IZR (d / minute) <= IZR (2 ^ 53))%R by (apply IZR_le; lia).
      rewrite Rabs_pos_eq by (apply IZR_le; lia).
      assert (IZR (2 ^ 53) + 1 <= IZR (2 ^ 64))%R by (rewrite <- plus_IZR; apply IZR_le; lia). lra.
Qed.

Lemma due_value d : 0 <= d < 2 ^ 63 ->
  due d = true <-> (rnd (19 / 10) <= (if (d mod minute =? 0)%Z then IZR (d / minute) else if (d / minute =? 0)%Z then frac d else rnd (IZR (d / minute) + frac (d mod minute))))%R.
Proof. intros H. destruct (Minutes_value d H) as [A V]. destruct c1_9_value as [B W]. unfold due. now apply leb_value. Qed.
Lemma rnd19 : (1 < rnd (19 / 10) <= 2)%R.
Proof.
  split.
  - destruct (Rle_lt_dec (rnd (19 / 10)) 1) as [L|L]; [|exact L]. exfalso.
    assert (due minute = true) by (apply due_value; [unfold minute, second; lia|exact L]). vm_compute in H. discriminate.
  - rewrite <- (rnd_int 2 ltac:(lia)). apply rnd_le. lra.
Qed.
Lemma due_iff d : 0 <= d < 2 ^ 63 -> due d = (114000000000 <=? d).
Proof.
  intros H. pose proof rnd19 as [L1 L2]. pose proof (due_value d H) as D.
  assert (M : 0 < minute) by reflexivity. assert (R : 0 <= d mod minute < minute) by (apply Z.mod_pos_bound; reflexivity).
  pose proof (Z.div_mod d minute ltac:(lia)) as DM.
  assert (T : forall b, (due d = true <-> b = true) -> due d = b) by (intros b X; destruct (due d), b; auto; [symmetry|]; apply X; reflexivity).
  apply T. rewrite D. clear T D. rewrite Z.leb_le.
  assert (C : d / minute <= 0 \/ d / minute = 1 \/ 2 <= d / minute) by lia. destruct C as [C|[C|C]].
  - assert (Q : d / minute = 0) by (assert (0 <= d / minute) by (apply Z.div_pos; lia); lia). rewrite Q in *.
    assert (d < minute) by lia. split; [|unfold minute, second in *; lia]. intros X. exfalso.
    change (0 =? 0)%Z with true in X. cbv iota in X. destruct (d mod minute =? 0).
    + cbn in X. lra.
    + assert (frac d <= 1)%R by (rewrite <- frac_1; apply frac_le; lia). lra.
  - rewrite C in *. change (1 =? 0)%Z with false. cbv iota.
    assert (K : forall n, 0 < n < minute -> due (minute + n) = true <-> (rnd (19 / 10) <= rnd (1 + frac n))%R).
    { intros n Hn. rewrite due_value by (unfold minute, second in *; lia).
      assert (E1 : (minute + n) / minute = 1) by (symmetry; apply Z.div_unique with n; lia).
      assert (E2 : (minute + n) mod minute = n) by (symmetry; apply Z.mod_unique with 1; lia).
      rewrite E1, E2. destruct (Z.eqb_spec n 0); [lia|]. change (1 =? 0)%Z with false. reflexivity. }
    assert (K0 : (rnd (19 / 10) <= rnd (1 + frac (54 * second)))%R) by (apply K; [unfold minute, second; lia|vm_compute; reflexivity]).
    assert (K1 : ~ (rnd (19 / 10) <= rnd (1 + frac (54 * second - 1)))%R).
    { intros X. apply K in X; [|unfold minute, second; lia]. vm_compute in X. discriminate. }
    destruct (Z.eqb_spec (d mod minute) 0) as [E|E].
    + split; [intros X; exfalso; lra|]. unfold minute, second in *. lia.
    + split; intros X.
      * destruct (Z_le_gt_dec (54 * second) (d mod minute)) as [G|G]; [unfold minute, second in *; lia|]. exfalso. apply K1.
        eapply Rle_trans; [exact X|]. apply rnd_le. apply Rplus_le_compat_l. apply frac_le. lia.
      * eapply Rle_trans; [exact K0|]. apply rnd_le. apply Rplus_le_compat_l. apply frac_le. unfold minute, second in *. lia.
  - assert (2 <= IZR (d / minute))%R by (apply IZR_le; lia). split; [intros _; unfold minute, second in *; lia|]. intros _.
    destruct (Z.eqb_spec (d mod minute) 0) as [E|E]; [lra|]. destruct (Z.eqb_spec (d / minute) 0); [lia|].
    apply Rle_trans with (IZR 2); [exact L2|]. rewrite <- (rnd_int 2 ltac:(lia)). apply rnd_le.
    assert (0 < frac (d mod minute))%R by (apply frac_pos; lia). lra.
Qed.
