(* Proofs about the amounts shown.                                              *)
From Coq Require Import Reals Lra ZArith Lia Floats.SpecFloat.
From Flocq Require Import Core.Core Relative Mult_error IEEE754.BinarySingleNaN.
From Verif Require Import Base ProofBase ProofManager2 ModelFloat ProofFloat ModelStats ProofStats ModelSize SpecSize.

(* ---------- rounding ---------- *)
Local Instance fexp_valid : Valid_exp (SpecFloat.fexp 53 1024) := FLT_exp_valid (3 - 1024 - 53) 53.
Lemma rnd_rel x : (bpow radix2 (-1000) <= Rabs x)%R -> (Rabs (rnd x - x) <= / 2 ^ 53 * Rabs x)%R.
Proof.
  intros H. pose proof (relative_error_N_FLT radix2 (3 - 1024 - 53) 53 eq_refl (fun x => negb (Z.even x)) x) as E.
  assert (B : (bpow radix2 (3 - 1024 - 53 + 53 - 1) <= Rabs x)%R) by (apply Rle_trans with (2 := H); apply bpow_le; lia).
  specialize (E B). change (round radix2 (FLT_exp (3 - 1024 - 53) 53) (Znearest (fun x => negb (Z.even x))) x) with (rnd x) in E.
  replace (/ 2 * bpow radix2 (- (53) + 1))%R with (/ 2 ^ 53)%R in E; [exact E|]. cbn. lra.
Qed.
Lemma rnd_format x : generic_format radix2 (SpecFloat.fexp 53 1024) (rnd x).
Proof. apply generic_format_round; [typeclasses eauto|apply valid_rnd_round_mode]. Qed.
Lemma rnd_id x : generic_format radix2 (SpecFloat.fexp 53 1024) x -> rnd x = x.
Proof. intros H. apply round_generic; [apply valid_rnd_round_mode|exact H]. Qed.
(* dividing by a power of two is exact *)
Lemma rnd_scale x k : (1 <= x)%R -> rnd x = x -> 0 <= k <= 60 -> rnd (x / IZR (2 ^ k)) = (x / IZR (2 ^ k))%R.
Proof.
  intros Hx Hr Hk. apply rnd_id. unfold Rdiv. rewrite <- bpow_int, <- bpow_opp by lia.
  apply (mult_bpow_exact_FLT radix2 (3 - 1024 - 53) 53).
  - rewrite <- Hr. apply rnd_format.
  - assert (1 <= mag radix2 x); [|lia]. apply mag_ge_bpow. cbn. rewrite Rabs_pos_eq; lra.
Qed.

(* ---------- a float with one decimal ---------- *)
Lemma half_even_near a b : 0 < b -> 2 * Z.abs (b * half_even a b - a) <= b.
Proof.
  intros Hb. unfold half_even. pose proof (Z.div_mod a b ltac:(lia)) as E. pose proof (Z.mod_pos_bound a b Hb) as B.
  destruct ((b <? 2 * (a mod b)) || ((2 * (a mod b) =? b) && Z.odd (a / b))) eqn:C.
  - assert (b <= 2 * (a mod b)) by lia. nia.
  - assert (2 * (a mod b) <= b) by lia. nia.
Qed.
Lemma half_even_tie a b : 0 < b -> 2 * Z.abs (b * half_even a b - a) = b -> Z.even (half_even a b) = true.
Proof.
  intros Hb. unfold half_even. pose proof (Z.div_mod a b ltac:(lia)) as E. pose proof (Z.mod_pos_bound a b Hb) as B.
  destruct ((b <? 2 * (a mod b)) || ((2 * (a mod b) =? b) && Z.odd (a / b))) eqn:C; intros T.
  - assert (C2 : 2 * (a mod b) = b) by (assert (b <= 2 * (a mod b)) by lia; nia).
    assert (O : Z.odd (a / b) = true) by (destruct (Z.odd (a / b)); [reflexivity|lia]).
    rewrite Z.add_1_r, Z.even_succ. exact O.
  - assert (C2 : 2 * (a mod b) = b) by (assert (2 * (a mod b) <= b) by lia; nia).
    assert (O : Z.odd (a / b) = false) by (destruct (Z.odd (a / b)); [lia|reflexivity]).
    rewrite <- Z.negb_odd, O. reflexivity.
Qed.

Definition nearest_tenths (x : R) (t : Z) : Prop :=
  0 <= t /\ (Rabs (IZR t - 10 * x) <= / 2)%R /\ (Rabs (IZR t - 10 * x) = / 2 -> Z.even t = true)%R.
Lemma tenths_near m e : nearest_tenths (F2R (Float radix2 (Zpos m) e)) (tenths m e).
Proof.
  unfold nearest_tenths, tenths, F2R. cbn [Fnum Fexp]. destruct (Z.leb_spec 0 e) as [He|He].
  - rewrite bpow_int by lia. split; [nia|]. rewrite !mult_IZR. replace (10 * IZR (Zpos m) * IZR (2 ^ e) - 10 * (IZR (Zpos m) * IZR (2 ^ e)))%R with 0%R by ring.
    rewrite Rabs_R0. split; [lra|]. intros; lra.
  - set (b := 2 ^ (- e)). assert (Hb : 0 < b) by (unfold b; apply Z.pow_pos_nonneg; lia).
    assert (Eb : bpow radix2 e = (/ IZR b)%R). { unfold b. rewrite <- bpow_int by lia. rewrite bpow_opp. now rewrite Rinv_inv. }
    rewrite Eb. pose proof (half_even_near (10 * Zpos m) b Hb) as N. pose proof (half_even_tie (10 * Zpos m) b Hb) as T.
    set (h := half_even (10 * Zpos m) b) in *. assert (Rb : (0 < IZR b)%R) by now apply IZR_lt.
    assert (E : (IZR h - 10 * (IZR (Zpos m) * / IZR b) = IZR (b * h - 10 * Zpos m) * / IZR b)%R) by (rewrite minus_IZR, !mult_IZR; field; lra).
    rewrite E, Rabs_mult, (Rabs_pos_eq (/ IZR b)), <- abs_IZR by (left; now apply Rinv_0_lt_compat).
    split; [nia|]. split.
    + apply Rmult_le_reg_r with (IZR b); [exact Rb|]. rewrite Rmult_assoc, Rinv_l, Rmult_1_r by lra.
      apply IZR_le in N. rewrite mult_IZR in N. lra.
    + intros A. apply T. apply eq_IZR. rewrite mult_IZR. apply (f_equal (fun z => z * IZR b)%R) in A. rewrite Rmult_assoc, Rinv_l, Rmult_1_r in A by lra. lra.
Qed.
Lemma format_near f x : has_value f x -> (0 < x)%R -> exists t, FormatFloat f = one_decimal t /\ nearest_tenths x t.
Proof.
  intros Hf Hx. destruct (value_nonzero f x Hf ltac:(lra)) as (s & m & e & -> & Ex).
  destruct s.
  - exfalso. assert (F2R (Float radix2 (Zneg m) e) < 0)%R by (apply F2R_lt_0; reflexivity). cbn [cond_Zopp Z.opp] in Ex. lra.
  - cbn [cond_Zopp] in Ex. exists (tenths m e). pose proof (tenths_near m e) as N. rewrite <- Ex in N. split; [|exact N].
    destruct N as [N _]. cbn [FormatFloat]. unfold one_decimal, itoa. rewrite (proj2 (Z.ltb_ge (tenths m e / 10) 0)) by (apply Z.div_pos; lia).
    rewrite (proj2 (Z.ltb_ge (tenths m e mod 10) 0)) by (apply Z.mod_pos_bound; lia). reflexivity.
Qed.
Lemma trim_brief t : 0 <= t -> TrimSuffix (one_decimal t) (str ".0") = brief t.
Proof.
  intros Ht. unfold brief, one_decimal. pose proof (Z.mod_pos_bound t 10 ltac:(lia)) as B. set (a := utoa (t / 10)). set (d := t mod 10) in *.
  assert (D : utoa d = [48 + d] /\ (d =? 0) = beq ([46; 48 + d]) [46; 48]).
  { assert (d = 0 \/ d = 1 \/ d = 2 \/ d = 3 \/ d = 4 \/ d = 5 \/ d = 6 \/ d = 7 \/ d = 8 \/ d = 9) as Hd by lia.
    destruct Hd as [Hd|[Hd|[Hd|[Hd|[Hd|[Hd|[Hd|[Hd|[Hd|Hd]]]]]]]]]; rewrite Hd; split; reflexivity. }
  destruct D as [-> D]. unfold TrimSuffix. change (str ".0") with [46; 48]. change (str ".") with [46]. cbn [app].
  rewrite app_length. cbn [length]. replace (length a + 2 - 2)%nat with (length a) by lia. replace (2 <=? length a + 2)%nat with true by (symmetry; apply Nat.leb_le; lia).
  rewrite skipn_app, skipn_all, Nat.sub_diag. cbn [skipn app]. rewrite <- D. destruct (d =? 0); [|reflexivity].
  rewrite firstn_app, firstn_all, Nat.sub_diag. cbn [firstn]. apply app_nil_r.
Qed.

(* ---------- sizes ---------- *)
Lemma ratio_value n k : 1 <= n < 2 ^ 64 -> 0 <= k <= 60 -> has_value (f64_div (f64_of n) (f64_of (2 ^ k))) (rnd (IZR n) / IZR (2 ^ k)).
Proof.
  intros Hn Hk. assert (Hu : 1 <= 2 ^ k <= 2 ^ 60) by (split; [apply (Z.pow_le_mono_r 2 0 k); lia|apply Z.pow_le_mono_r; lia]).
  pose proof (f64_of_value n (bpow1000 n ltac:(lia))) as Vn. pose proof (f64_of_value (2 ^ k) (bpow1000 (2 ^ k) ltac:(lia))) as Vu.
  assert (Eu : rnd (IZR (2 ^ k)) = IZR (2 ^ k)) by (rewrite <- bpow_int by lia; apply rnd_id; apply (format_bpow 53 1024 Hprec64); lia).
  rewrite Eu in Vu. pose proof (rnd_ge1 n ltac:(lia)) as X1. assert (U1 : (1 <= IZR (2 ^ k))%R) by (apply IZR_le; lia).
  assert (Xb : (rnd (IZR n) <= bpow radix2 64)%R).
  { assert (E64 : rnd (bpow radix2 64) = bpow radix2 64) by (apply rnd_id, (format_bpow 53 1024 Hprec64); lia).
    rewrite <- E64. apply rnd_le. rewrite bpow_int by lia. apply IZR_le. lia. }
  rewrite <- (rnd_scale (rnd (IZR n)) k X1 (rnd_id _ (rnd_format _)) Hk).
  apply f64_div_value; [assumption|assumption|lra|]. rewrite Rabs_pos_eq.
  - apply Rle_trans with (rnd (IZR n)).
    + apply Rmult_le_reg_r with (IZR (2 ^ k)); [lra|]. unfold Rdiv. rewrite Rmult_assoc, Rinv_l, Rmult_1_r by lra. nra.
    + apply Rle_trans with (1 := Xb). apply bpow_le. lia.
  - apply Rmult_le_pos; [lra|]. left. apply Rinv_0_lt_compat. lra.
Qed.

Lemma size_unit n : 1 <= n < 2 ^ 64 -> exists k letter, nth_error letters k = Some letter /\ 1024 ^ Z.of_nat k <= n < 1024 ^ Z.of_nat (S k) /\ (k <= 6)%nat /\
  find (fun u => fst u <=? n) units = Some (1024 ^ Z.of_nat k, letter).
Proof.
  intros Hn. unfold units. cbn [find fst].
  destruct (Z.leb_spec (2 ^ 60) n). { exists 6%nat. eexists. split; [reflexivity|]. split; [lia|]. split; [lia|reflexivity]. }
  destruct (Z.leb_spec (2 ^ 50) n). { exists 5%nat. eexists. split; [reflexivity|]. split; [lia|]. split; [lia|reflexivity]. }
  destruct (Z.leb_spec (2 ^ 40) n). { exists 4%nat. eexists. split; [reflexivity|]. split; [lia|]. split; [lia|reflexivity]. }
  destruct (Z.leb_spec (2 ^ 30) n). { exists 3%nat. eexists. split; [reflexivity|]. split; [lia|]. split; [lia|reflexivity]. }
  destruct (Z.leb_spec (2 ^ 20) n). { exists 2%nat. eexists. split; [reflexivity|]. split; [lia|]. split; [lia|reflexivity]. }
  destruct (Z.leb_spec (2 ^ 10) n). { exists 1%nat. eexists. split; [reflexivity|]. split; [lia|]. split; [lia|reflexivity]. }
  destruct (Z.leb_spec 1 n); [|lia]. exists 0%nat. eexists. split; [reflexivity|]. split; [lia|]. split; [lia|reflexivity].
Qed.
Lemma unit_pow k : 1024 ^ Z.of_nat k = 2 ^ (10 * Z.of_nat k).
Proof. rewrite Z.pow_mul_r by lia. reflexivity. Qed.

(* with the tenths themselves *)
Lemma size_tenths n : 1 <= n < 2 ^ 64 -> exists k letter t,
  nth_error letters k = Some letter /\ 1024 ^ Z.of_nat k <= n < 1024 ^ Z.of_nat (S k) /\ ByteSize n = brief t ++ str letter /\
  nearest_tenths (rnd (IZR n) / IZR (1024 ^ Z.of_nat k)) t.
Proof.
  intros Hn. destruct (size_unit n Hn) as (k & letter & E1 & E2 & Hk & E3). pose proof (ratio_value n (10 * Z.of_nat k) Hn ltac:(lia)) as V.
  rewrite <- unit_pow in V. pose proof (rnd_ge1 n ltac:(lia)) as X1.
  assert (U1 : (1 <= IZR (1024 ^ Z.of_nat k))%R) by (apply IZR_le; apply (Z.pow_le_mono_r 1024 0); lia).
  destruct (format_near _ _ V) as (t & Et & Nt). { apply Rmult_lt_0_compat; [lra|]. apply Rinv_0_lt_compat. lra. }
  exists k, letter, t. split; [exact E1|]. split; [exact E2|]. split; [|exact Nt].
  unfold ByteSize. rewrite E3, Et. rewrite trim_brief by apply Nt. reflexivity.
Qed.
Lemma size_right n : 0 <= n < 2 ^ 64 -> size_text n (ByteSize n).
Proof.
  intros Hn. destruct (Z.eq_dec n 0) as [->|Hz]; [left; split; reflexivity|]. right.
  destruct (size_tenths n ltac:(lia)) as (k & letter & t & E1 & E2 & E3 & N1 & N2 & _). exists k, letter, t. split; [exact E1|]. split; [exact E2|]. split; [exact E3|].
  split; [exact N1|].
  assert (U1 : (1 <= IZR (1024 ^ Z.of_nat k))%R) by (apply IZR_le; apply (Z.pow_le_mono_r 1024 0); lia).
  set (u := IZR (1024 ^ Z.of_nat k)) in *. assert (U0 : (0 < / u)%R) by (apply Rinv_0_lt_compat; lra).
  assert (B : (Rabs (rnd (IZR n) - IZR n) <= (if n <? 2 ^ 53 then 0 else IZR n / 2 ^ 53))%R).
  { destruct (Z.ltb_spec n (2 ^ 53)).
    - rewrite rnd_int by lia. rewrite Rminus_diag_eq, Rabs_R0 by reflexivity. lra.
    - assert (N0 : (1 <= IZR n)%R) by (apply IZR_le; lia). pose proof (rnd_rel (IZR n)) as R. rewrite (Rabs_pos_eq (IZR n)) in R by lra.
      assert (bpow radix2 (-1000) <= bpow radix2 0)%R as L by (apply bpow_le; lia). change (bpow radix2 0) with 1%R in L. specialize (R ltac:(lra)). unfold Rdiv. lra. }
  replace (IZR t / 10 - IZR n / u)%R with ((IZR t - 10 * (rnd (IZR n) / u)) / 10 + (rnd (IZR n) - IZR n) / u)%R by (field; lra).
  apply Rle_trans with (1 := Rabs_triang _ _).
  assert (D10 : forall y, Rabs (y / 10) = (Rabs y / 10)%R) by (intros y; unfold Rdiv; rewrite Rabs_mult, (Rabs_pos_eq (/ 10)) by lra; reflexivity).
  assert (Du : forall y, Rabs (y / u) = (Rabs y * / u)%R) by (intros y; unfold Rdiv; rewrite Rabs_mult, (Rabs_pos_eq (/ u)) by lra; reflexivity).
  rewrite D10, Du.
  destruct (n <? 2 ^ 53).
  - nra.
  - assert (Rabs (rnd (IZR n) - IZR n) * / u <= IZR n / 2 ^ 53 * / u)%R by (apply Rmult_le_compat_r; lra).
    replace (IZR n / u / 2 ^ 53)%R with (IZR n / 2 ^ 53 * / u)%R by (field; lra). lra.
Qed.

(* when the number shown reaches 1024 *)
Lemma size_1024 n : 1 <= n < 2 ^ 53 -> exists k letter t,
  nth_error letters k = Some letter /\ 1024 ^ Z.of_nat k <= n < 1024 ^ Z.of_nat (S k) /\ ByteSize n = brief t ++ str letter /\
  10 <= t <= 10240 /\ (t = 10240 <-> 20479 * 1024 ^ Z.of_nat k <= 20 * n).
Proof.
  intros Hn. destruct (size_tenths n ltac:(lia)) as (k & letter & t & E1 & E2 & E3 & N1 & N2 & N3).
  exists k, letter, t. split; [exact E1|]. split; [exact E2|]. split; [exact E3|].
  rewrite rnd_int in * by lia. set (u := 1024 ^ Z.of_nat k) in *. replace (1024 ^ Z.of_nat (S k)) with (1024 * u) in E2 by (unfold u; rewrite Nat2Z.inj_succ, Z.pow_succ_r; lia).
  assert (U1 : 1 <= u) by (apply (Z.pow_le_mono_r 1024 0); lia). assert (Ru : (1 <= IZR u)%R) by now apply IZR_le.
  assert (E : (IZR t - 10 * (IZR n / IZR u) = IZR (t * u - 10 * n) / IZR u)%R) by (rewrite minus_IZR, !mult_IZR; field; lra).
  rewrite E in N2, N3. unfold Rdiv in N2, N3. rewrite Rabs_mult, (Rabs_pos_eq (/ IZR u)), <- abs_IZR in N2, N3 by (left; apply Rinv_0_lt_compat; lra).
  assert (M2 : 2 * Z.abs (t * u - 10 * n) <= u).
  { apply le_IZR. rewrite mult_IZR. apply Rmult_le_compat_r with (r := IZR u) in N2; [|lra]. rewrite Rmult_assoc, Rinv_l, Rmult_1_r in N2 by lra. lra. }
  assert (M3 : 2 * Z.abs (t * u - 10 * n) = u -> Z.even t = true).
  { intros A. apply N3. apply (f_equal IZR) in A. rewrite mult_IZR in A. apply Rmult_eq_reg_r with (IZR u); [|lra]. rewrite Rmult_assoc, Rinv_l, Rmult_1_r by lra. lra. }
  assert (10 <= t) by nia. assert (t <= 10240) by nia. split; [lia|]. split; intros A.
  - subst t. lia.
  - assert (10239 <= t) by nia. destruct (Z.eq_dec t 10239) as [->|]; [|lia].
    assert (Z.even 10239 = true) by (apply M3; lia). discriminate.
Qed.

(* ---------- adding ---------- *)
Lemma norm_value z e : (Rabs (F2R (Float radix2 z e)) <= bpow radix2 1000)%R -> has_value (SpecFloat.binary_normalize 53 1024 z e false) (rnd (F2R (Float radix2 z e))).
Proof.
  intros H. pose proof (small_no_overflow 53 1024 1000 _ ltac:(lia) ltac:(lia) _ H) as B. unfold SpecFloat.binary_normalize. destruct z as [|p|p].
  - split; [reflexivity|]. cbn. rewrite F2R_0. symmetry. apply (rnd_in_0 53 1024).
  - rewrite round_equiv. pose proof (binary_round_correct 53 1024 _ _ mode_NE false p e) as C. cbv zeta in C. destruct C as [_ C]. cbn [cond_Zopp] in C.
    change (round radix2 (SpecFloat.fexp 53 1024) (round_mode mode_NE) (F2R (Float radix2 (Zpos p) e))) with (rnd_in 53 1024 (F2R (Float radix2 (Zpos p) e))) in C.
    rewrite B in C. destruct C as (C1 & C2 & _). split; auto.
  - rewrite round_equiv. pose proof (binary_round_correct 53 1024 _ _ mode_NE true p e) as C. cbv zeta in C. destruct C as [_ C]. cbn [cond_Zopp Z.opp] in C.
    change (round radix2 (SpecFloat.fexp 53 1024) (round_mode mode_NE) (F2R (Float radix2 (Zneg p) e))) with (rnd_in 53 1024 (F2R (Float radix2 (Zneg p) e))) in C.
    rewrite B in C. destruct C as (C1 & C2 & _). split; auto.
Qed.
Lemma add_value f g x y : has_value f x -> has_value g y -> rnd x = x -> rnd y = y -> (Rabs (x + y) <= bpow radix2 1000)%R -> has_value (f64_add f g) (rnd (x + y)).
Proof.
  intros Hf Hg Rx Ry B. destruct (Req_dec x 0) as [->|Hx].
  - rewrite Rplus_0_l, Ry. destruct Hf as [F1 F2]. destruct f as [sf| | |sf mf ef]; try discriminate.
    + destruct (Req_dec y 0) as [->|Hy].
      * destruct Hg as [G1 G2]. destruct g as [sg| | |sg mg eg]; try discriminate.
        -- unfold f64_add, SFadd. destruct (Bool.eqb sf sg); split; reflexivity.
        -- exfalso. cbn in G2. apply eq_0_F2R in G2. cbn in G2. destruct sg; discriminate.
      * destruct (value_nonzero g y Hg Hy) as (sy & my & ey & -> & Ey). exact Hg.
    + exfalso. cbn in F2. apply eq_0_F2R in F2. cbn in F2. destruct sf; discriminate.
  - destruct (value_nonzero f x Hf Hx) as (sx & mx & ex & -> & Ex). destruct (Req_dec y 0) as [->|Hy].
    + rewrite Rplus_0_r, Rx. destruct Hg as [G1 G2]. destruct g as [sg| | |sg mg eg]; try discriminate; [exact Hf|].
      exfalso. cbn in G2. apply eq_0_F2R in G2. cbn in G2. destruct sg; discriminate.
    + destruct (value_nonzero g y Hg Hy) as (sy & my & ey & -> & Ey). unfold f64_add, SFadd.
      set (ez := Z.min ex ey). set (z := _ + _).
      assert (E : F2R (Float radix2 z ez) = (x + y)%R).
      { unfold z. rewrite Ex, Ey.
        pose proof (shl_align_correct' mx ex ez ltac:(lia)) as Ax. pose proof (shl_align_correct' my ey ez ltac:(lia)) as Ay.
        destruct (shl_align mx ex ez) as [m1 e1]. destruct (shl_align my ey ez) as [m2 e2]. destruct Ax as [Ax _]. destruct Ay as [Ay _]. cbn [fst].
        rewrite !F2R_cond_Zopp, <- Ax, <- Ay, <- !F2R_cond_Zopp. unfold F2R. cbn [Fnum Fexp]. rewrite plus_IZR. ring. }
      rewrite <- E. apply norm_value. rewrite E. exact B.
Qed.

(* ---------- speed ---------- *)
Lemma rnd_close x : (bpow radix2 (-1000) <= x)%R -> (x * (1 - / 2 ^ 53) <= rnd x <= x * (1 + / 2 ^ 53))%R.
Proof.
  intros H. assert (0 < x)%R by (apply Rlt_le_trans with (2 := H); apply bpow_gt_0). pose proof (rnd_rel x) as R. rewrite (Rabs_pos_eq x) in R by lra. specialize (R H).
  apply Rabs_le_inv in R. lra.
Qed.
Lemma tiny : (bpow radix2 (-1000) <= / IZR (2 ^ 64))%R.
Proof. rewrite <- bpow_int, <- bpow_opp by lia. apply bpow_le. lia. Qed.
Lemma seconds_value ns : 1 <= ns < 2 ^ 63 -> exists S, has_value (Seconds ns) S /\ (IZR ns / 1000000000 * (1 - 3 / 2 ^ 53) <= S <= IZR ns / 1000000000 * (1 + 3 / 2 ^ 53))%R.
Proof.
  intros Hn. unfold Seconds. pose proof (Z.div_mod ns 1000000000 ltac:(lia)) as E. pose proof (Z.mod_pos_bound ns 1000000000 ltac:(lia)) as Br.
  assert (Bq : 0 <= ns / 1000000000 <= 2 ^ 34) by lia. set (q := ns / 1000000000) in *. set (r := ns mod 1000000000) in *.
  assert (En : (IZR ns / 1000000000 = IZR q + IZR r / 1000000000)%R) by (rewrite E, plus_IZR, mult_IZR; field).
  pose proof (f64_of_value q (bpow1000 q ltac:(lia))) as Vq. rewrite rnd_int in Vq by lia.
  pose proof (f64_of_value r (bpow1000 r ltac:(lia))) as Vr. rewrite rnd_int in Vr by lia.
  pose proof (f64_of_value 1000000000 (bpow1000 1000000000 ltac:(lia))) as V9. rewrite rnd_int in V9 by lia.
  assert (Rr : (0 <= IZR r <= 999999999)%R) by (split; apply IZR_le; lia). assert (Rq : (0 <= IZR q <= IZR (2 ^ 34))%R) by (split; apply IZR_le; lia).
  assert (Big : (IZR (2 ^ 64) <= bpow radix2 1000)%R) by (rewrite <- bpow_int by lia; apply bpow_le; lia).
  pose proof tiny as Ht.
  assert (Vd : has_value (f64_div (f64_of r) (f64_of 1000000000)) (rnd (IZR r / 1000000000))).
  { apply f64_div_value; [assumption|assumption|lra|]. rewrite Rabs_pos_eq by lra. lra. }
  assert (Bd : (IZR r / 1000000000 * (1 - / 2 ^ 53) <= rnd (IZR r / 1000000000) <= IZR r / 1000000000 * (1 + / 2 ^ 53))%R).
  { destruct (Z.eq_dec r 0) as [->|].
    - replace (0 / 1000000000)%R with (IZR 0) by lra. rewrite rnd_int by lia. lra.
    - assert (1 <= IZR r)%R by (apply IZR_le; lia). apply rnd_close. lra. }
  assert (R1 : (1 <= IZR ns)%R) by (apply IZR_le; lia).
  exists (rnd (IZR q + rnd (IZR r / 1000000000))). split.
  - apply add_value; auto; [now apply rnd_int; lia|apply rnd_id, rnd_format|]. rewrite Rabs_pos_eq by lra. lra.
  - rewrite En in *. assert (C := rnd_close (IZR q + rnd (IZR r / 1000000000)) ltac:(lra)). lra.
Qed.
Lemma speed_right n ns : 0 <= n < 2 ^ 64 -> 1 <= ns < 2 ^ 63 -> speed_text n ns (FormatFloat (Speed n ns)).
Proof.
  intros Hn Hs. destruct (seconds_value ns Hs) as (S & VS & BS). unfold Speed, speed_text, speed.
  assert (R1 : (1 <= IZR ns <= IZR (2 ^ 63))%R) by (split; apply IZR_le; lia). set (s := (IZR ns / 1000000000)%R) in *.
  assert (Bs : (/ 1000000000 <= s <= IZR (2 ^ 34))%R) by (unfold s; lra).
  assert (S0 : (/ 2000000000 <= S <= IZR (2 ^ 35))%R) by lra.
  destruct (Z.eq_dec n 0) as [->|Hz].
  - destruct (value_nonzero _ _ VS ltac:(lra)) as (sg & m & e & E & Ev). rewrite E. change (f64_of 0) with (S754_zero false).
    destruct sg. { exfalso. assert (F2R (Float radix2 (Zneg m) e) < 0)%R by (apply F2R_lt_0; reflexivity). cbn [cond_Zopp Z.opp] in Ev. lra. }
    exists 0. split; [reflexivity|]. replace (0 / s / 1048576)%R with 0%R by (field; lra). unfold rounded. split; [lia|].
    replace (0 / 10 - 0)%R with 0%R by lra. rewrite Rabs_R0. lra.
  - pose proof (f64_of_value n (bpow1000 n ltac:(lia))) as Vn. assert (N1 : (1 <= IZR n <= IZR (2 ^ 64))%R) by (split; apply IZR_le; lia).
    pose proof tiny as Ht. assert (Bn := rnd_close (IZR n) ltac:(lra)). pose proof (rnd_ge1 n ltac:(lia)) as X1. set (x := rnd (IZR n)) in *.
    assert (I0 : (0 < / S)%R) by (apply Rinv_0_lt_compat; lra).
    assert (IS : (/ IZR (2 ^ 35) <= / S <= 2000000000)%R).
    { split; [apply Rinv_le; lra|]. replace 2000000000%R with (/ / 2000000000)%R by lra. apply Rinv_le; lra. }
    assert (Qb : (/ IZR (2 ^ 35) <= x / S <= IZR (2 ^ 100))%R) by (unfold Rdiv; split; nra).
    assert (Big : (IZR (2 ^ 100) <= bpow radix2 1000)%R) by (rewrite <- bpow_int by lia; apply bpow_le; lia).
    assert (Vq : has_value (f64_div (f64_of n) (Seconds ns)) (rnd (x / S))).
    { apply f64_div_value; [assumption|assumption|lra|]. rewrite Rabs_pos_eq by lra. lra. }
    assert (Bq := rnd_close (x / S) ltac:(lra)). set (y := rnd (x / S)) in *.
    pose proof (f64_of_value (2 ^ 20) (bpow1000 (2 ^ 20) ltac:(lia))) as Vm. rewrite rnd_int in Vm by lia.
    assert (Vz : has_value (f64_div (f64_div (f64_of n) (Seconds ns)) (f64_of (2 ^ 20))) (rnd (y / IZR (2 ^ 20)))).
    { apply f64_div_value; [assumption|assumption|lra|]. rewrite Rabs_pos_eq by lra. lra. }
    assert (Bz := rnd_close (y / IZR (2 ^ 20)) ltac:(lra)). set (z := rnd (y / IZR (2 ^ 20))) in *.
    destruct (format_near _ _ Vz ltac:(lra)) as (t & Et & T0 & T1 & _). exists t. split; [exact Et|]. split; [exact T0|].
    set (Q := (IZR n / s)%R). assert (Q0 : (0 < Q)%R) by (apply Rmult_lt_0_compat; [lra|apply Rinv_0_lt_compat; lra]).
    assert (Eq : (IZR n = Q * s)%R) by (unfold Q; field; lra).
    assert (Uq : (Q * (1 - 5 / 2 ^ 53) <= x / S <= Q * (1 + 5 / 2 ^ 53))%R).
    { assert (P1 : (Q * S <= Q * (s * (1 + 3 / 2 ^ 53)))%R) by (apply Rmult_le_compat_l; lra).
      assert (P2 : (Q * (s * (1 - 3 / 2 ^ 53)) <= Q * S)%R) by (apply Rmult_le_compat_l; lra).
      rewrite Eq in Bn. set (p := (Q * S)%R) in *. set (w := (Q * s)%R) in *.
      assert (W1 : (w * (1 - 3 / 2 ^ 53) <= p <= w * (1 + 3 / 2 ^ 53))%R) by (unfold w; lra). assert (W0 : (0 < w)%R) by (rewrite <- Eq; lra).
      split; apply Rmult_le_reg_r with S; try lra; [replace (Q * (1 - 5 / 2 ^ 53) * S)%R with (p * (1 - 5 / 2 ^ 53))%R by (unfold p; ring)|
        replace (Q * (1 + 5 / 2 ^ 53) * S)%R with (p * (1 + 5 / 2 ^ 53))%R by (unfold p; ring)];
        replace (x / S * S)%R with x by (field; lra); lra. }
    apply Rabs_le_inv in T1. apply Rabs_le. lra.
Qed.

(* ---------- percent ---------- *)
Lemma percent_right size d0 n : 1 <= size < 2 ^ 64 -> 1 <= d0 -> 1 <= n <= size -> percent_near size n (percent_of size d0 n).
Proof.
  intros Hs Hd0 Hn. pose proof (quot_le1 size n ltac:(lia)) as Hq. assert (H53 : (1 <= IZR (2 ^ 53))%R) by (apply IZR_le; lia).
  destruct (percent_value size d0 n) as [-> _]; [lia..|lra|]. unfold percent_near, ratio.
  pose proof tiny as Ht. assert (N1 : (1 <= IZR n)%R) by (apply IZR_le; lia). assert (S1 : (IZR n <= IZR size <= IZR (2 ^ 64))%R) by (split; apply IZR_le; lia).
  assert (Bx := rnd_close (IZR n) ltac:(lra)). assert (By := rnd_close (IZR size) ltac:(lra)). pose proof (rnd_ge1 n ltac:(lia)) as X1. pose proof (rnd_ge1 size ltac:(lia)) as Y1.
  set (x := rnd (IZR n)) in *. set (y := rnd (IZR size)) in *.
  set (Q := (IZR n / IZR size)%R). assert (Q0 : (0 < Q)%R) by (apply Rmult_lt_0_compat; [lra|apply Rinv_0_lt_compat; lra]).
  assert (Eq : (IZR n = Q * IZR size)%R) by (unfold Q; field; lra).
  assert (Q1 : (Q <= 1)%R) by (apply Rmult_le_reg_r with (IZR size); lra).
  assert (Uq : (Q * (1 - 3 / 2 ^ 53) <= x / y <= Q * (1 + 3 / 2 ^ 53))%R).
  { assert (P1 : (Q * y <= Q * (IZR size * (1 + / 2 ^ 53)))%R) by (apply Rmult_le_compat_l; lra).
    assert (P2 : (Q * (IZR size * (1 - / 2 ^ 53)) <= Q * y)%R) by (apply Rmult_le_compat_l; lra).
    rewrite Eq in Bx. set (p := (Q * y)%R) in *. set (w := (Q * IZR size)%R) in *.
    assert (W1 : (w * (1 - / 2 ^ 53) <= p <= w * (1 + / 2 ^ 53))%R) by (unfold w; lra). assert (W0 : (0 < w)%R) by (rewrite <- Eq; lra).
    split; apply Rmult_le_reg_r with y; try lra; [replace (Q * (1 - 3 / 2 ^ 53) * y)%R with (p * (1 - 3 / 2 ^ 53))%R by (unfold p; ring)|
      replace (Q * (1 + 3 / 2 ^ 53) * y)%R with (p * (1 + 3 / 2 ^ 53))%R by (unfold p; ring)];
      replace (x / y * y)%R with x by (field; lra); lra. }
  assert (Qb : (/ IZR (2 ^ 64) <= Q)%R).
  { unfold Q, Rdiv. assert (/ IZR (2 ^ 64) <= / IZR size)%R by (apply Rinv_le; lra). assert (0 < / IZR size)%R by (apply Rinv_0_lt_compat; lra). nra. }
  assert (T2 : (bpow radix2 (-1000) <= / IZR (2 ^ 66))%R) by (rewrite <- bpow_int, <- bpow_opp by lia; apply bpow_le; lia).
  assert (Bq := rnd_close (x / y) ltac:(lra)). set (q := rnd (x / y)) in *. assert (Br := rnd_close (q * 100) ltac:(lra)). set (r := rnd (q * 100)) in *.
  pose proof (Zfloor_lb (r + / 2)). pose proof (Zfloor_ub (r + / 2)). replace (100 * IZR n / IZR size)%R with (100 * Q)%R by (unfold Q; field; lra).
  apply Rabs_le. lra.
Qed.

(* ---------- the line ---------- *)
Lemma bar_cells p : 0 <= p <= 100 ->
  concat (repeat progressChar (Z.to_nat (Z.quot p 5)) ++ repeat space (Z.to_nat (20 - Z.quot p 5))) =
  flat_map (fun k => if Z.of_nat k <? p / 5 then [226; 150; 136] else [32]) (seq 0 20).
Proof.
  intros Hp. rewrite Z.quot_div_nonneg by lia. assert (B : 0 <= p / 5 <= 20) by (split; [apply Z.div_pos|apply Z.div_le_upper_bound]; lia). set (c := p / 5) in *.
  assert (H : forallb (fun c => beq (concat (repeat progressChar (Z.to_nat c) ++ repeat space (Z.to_nat (20 - c)))) (flat_map (fun k => if Z.of_nat k <? c then [226; 150; 136] else [32]) (seq 0 20))) (map Z.of_nat (seq 0 21)) = true) by (vm_compute; reflexivity).
  rewrite forallb_forall in H. apply beq_eq. apply H. apply in_map_iff. exists (Z.to_nat c). split; [rewrite Z2Nat.id by lia; reflexivity|]. apply in_seq. lia.
Qed.
Lemma line_right s ns : 1 <= st_size s < 2 ^ 64 -> 0 <= st_download s <= st_size s -> 0 <= st_left s < 2 ^ 64 -> 0 <= st_peers s -> 0 <= st_trackers s -> 1 <= ns < 2 ^ 63 ->
  exists p d l v, ProgressLine s ns = Ok (line p d l v (st_peers s) (st_trackers s)) /\
    0 <= p <= 100 /\ percent_near (st_size s) (st_download s) p /\ size_text (st_download s) d /\ size_text (st_left s) l /\ speed_text (st_download s) ns v.
Proof.
  intros Hs Hd Hl Hp Ht Hn. pose proof (percent_range (st_size s) (st_download s) (st_download s) ltac:(lia) ltac:(lia) Hd) as Hr.
  assert (Pn : percent_near (st_size s) (st_download s) (PercentCompleted s)).
  { unfold PercentCompleted. destruct (Z.eq_dec (st_download s) 0) as [->|]; [|apply percent_right; lia].
    unfold percent_of. rewrite orb_true_r. unfold percent_near. replace (0 - 100 * 0 / IZR (st_size s))%R with 0%R; [rewrite Rabs_R0; lra|].
    unfold Rdiv. ring. }
  unfold ProgressLine, PrintBar. fold (PercentCompleted s) in Hr. set (p := PercentCompleted s) in *.
  exists p, (ByteSize (st_download s)), (ByteSize (st_left s)), (FormatFloat (Speed (st_download s) ns)).
  split; [|split; [exact Hr|split; [exact Pn|split; [apply size_right; lia|split; [apply size_right; lia|apply speed_right; lia]]]]].
  destruct (bar_exact p) as [_ H]; [unfold in_range; lia|]. rewrite (H ltac:(lia)). cbn [bind fst snd]. rewrite bar_cells by exact Hr. unfold line, itoa.
  rewrite (proj2 (Z.ltb_ge p 0)), (proj2 (Z.ltb_ge (st_peers s) 0)), (proj2 (Z.ltb_ge (st_trackers s) 0)) by lia. rewrite <- !app_assoc. reflexivity.
Qed.
Lemma brief_1024 t : 0 <= t < 10240 -> brief t <> str "1024".
Proof.
  intros Ht E. unfold brief in E. destruct (t mod 10 =? 0) eqn:M.
  - change (str "1024") with (utoa 1024) in E. pose proof (Z.div_mod t 10 ltac:(lia)). pose proof (Z.mod_pos_bound t 10 ltac:(lia)). apply utoa_inj in E; lia.
  - assert (I : In 46 (one_decimal t)) by (unfold one_decimal; apply in_or_app; right; left; reflexivity). rewrite E in I. cbn in I. lia.
Qed.
