(* The executable float64 operations round correctly (via Flocq).              *)
From Coq Require Import Reals Lra ZArith Lia Floats.SpecFloat.
From Flocq Require Import Core.Core IEEE754.BinarySingleNaN.
From Verif Require Import Base ModelFloat.

(* a finite float with a value *)
Definition has_value (f : spec_float) (x : R) : Prop := is_finite_SF f = true /\ SF2R radix2 f = x.

Lemma value_nonzero f x : has_value f x -> (x <> 0)%R -> exists s m e, f = S754_finite s m e /\ x = F2R (Float radix2 (cond_Zopp s (Zpos m)) e).
Proof.
  intros [Hf Hx] Hn. destruct f; try discriminate.
  - cbn in Hx. congruence.
  - exists s, m, e. split; [reflexivity|]. symmetry. exact Hx.
Qed.

(* any format; k bounds the magnitudes used, so that nothing overflows *)
Section format.
  Variables (prec emax k : Z).
  Context (Hprec : Prec_gt_0 prec) (Hmax : Prec_lt_emax prec emax).
  Hypothesis (Hk : 0 <= k < emax) (H3 : 3 - emax - prec <= 0).
  Notation fx := (SpecFloat.fexp prec emax).
  Definition rnd_in (x : R) : R := round radix2 fx (round_mode mode_NE) x.
  Local Instance fx_valid : Valid_exp fx := FLT_exp_valid (3 - emax - prec) prec.
  Local Instance fx_mono : Monotone_exp fx := FLT_exp_monotone (3 - emax - prec) prec.
  Local Instance ne_valid : Valid_rnd (round_mode mode_NE) := valid_rnd_round_mode mode_NE.

  Lemma rne_equiv s m l : round_nearest_even m l = choice_mode mode_NE s m l.
  Proof. destruct l as [|c]; [reflexivity|]. destruct c; try reflexivity. simpl. unfold Round.cond_incr. now case Z.even. Qed.
  Lemma aux_equiv sx mx ex lx : SpecFloat.binary_round_aux prec emax sx mx ex lx = BinarySingleNaN.binary_round_aux prec emax mode_NE sx mx ex lx.
  Proof.
    unfold SpecFloat.binary_round_aux, BinarySingleNaN.binary_round_aux. destruct (shr_fexp prec emax mx ex lx) as [mrs' e']. now rewrite (rne_equiv sx).
  Qed.
  Lemma round_equiv s m e : SpecFloat.binary_round prec emax s m e = BinarySingleNaN.binary_round prec emax mode_NE s m e.
  Proof.
    unfold SpecFloat.binary_round, BinarySingleNaN.binary_round, shl_align_fexp. destruct (shl_align _ _ _) as [mz ez]. apply aux_equiv.
  Qed.

  Lemma format_bpow j : 0 <= j -> generic_format radix2 fx (bpow radix2 j).
  Proof. intros Hj. apply generic_format_bpow. unfold SpecFloat.fexp, emin. unfold Prec_gt_0 in Hprec. lia. Qed.

  Lemma small_no_overflow x : (Rabs x <= bpow radix2 k)%R -> Rlt_bool (Rabs (rnd_in x)) (bpow radix2 emax) = true.
  Proof.
    intros H. apply Rlt_bool_true. apply Rle_lt_trans with (bpow radix2 k).
    - unfold rnd_in. apply abs_round_le_generic; try typeclasses eauto; auto. apply format_bpow. lia.
    - apply bpow_lt. lia.
  Qed.

  Lemma of_value z : (Rabs (IZR z) <= bpow radix2 k)%R -> has_value (SpecFloat.binary_normalize prec emax z 0 false) (rnd_in (IZR z)).
  Proof.
    intros H. unfold SpecFloat.binary_normalize. destruct z as [|p|p].
    - split; [reflexivity|]. cbn. unfold rnd_in. rewrite round_0; [reflexivity|typeclasses eauto].
    - rewrite round_equiv. pose proof (binary_round_correct prec emax _ _ mode_NE false p 0) as C. cbv zeta in C. destruct C as [_ C].
      unfold F2R in C; simpl in C. rewrite !Rmult_1_r in C.
      change (round radix2 fx (Znearest (fun x => negb (Z.even x))) (IZR (Zpos p))) with (rnd_in (IZR (Zpos p))) in C.
      rewrite small_no_overflow in C by exact H. destruct C as (C1 & C2 & _). split; auto.
    - rewrite round_equiv. pose proof (binary_round_correct prec emax _ _ mode_NE true p 0) as C. cbv zeta in C. destruct C as [_ C].
      unfold F2R in C; simpl in C. rewrite !Rmult_1_r in C.
      change (round radix2 fx (Znearest (fun x => negb (Z.even x))) (IZR (Zneg p))) with (rnd_in (IZR (Zneg p))) in C.
      rewrite small_no_overflow in C by exact H. destruct C as (C1 & C2 & _). split; auto.
  Qed.

  (* the significand fits the format *)
  Definition fits_format (f : spec_float) : Prop := valid_binary prec emax f = true.
  Lemma of_fits z : fits_format (SpecFloat.binary_normalize prec emax z 0 false).
  Proof.
    unfold SpecFloat.binary_normalize. destruct z as [|p|p]; [reflexivity| |]; rewrite round_equiv; unfold fits_format.
    - pose proof (binary_round_correct prec emax _ _ mode_NE false p 0) as C. cbv zeta in C. apply C.
    - pose proof (binary_round_correct prec emax _ _ mode_NE true p 0) as C. cbv zeta in C. apply C.
  Qed.

  Lemma div_value f g x y : has_value f x -> has_value g y -> (y <> 0)%R -> (Rabs (x / y) <= bpow radix2 k)%R ->
    has_value (SFdiv prec emax f g) (rnd_in (x / y)) /\ fits_format (SFdiv prec emax f g).
  Proof.
    intros Hf Hg Hy Hs. destruct (value_nonzero g y Hg Hy) as (sy & my & ey & -> & Ey).
    destruct (Req_dec x 0) as [->|Hx].
    - destruct Hf as [Hf1 Hf2]. destruct f; try discriminate.
      + split; [|reflexivity]. split; [reflexivity|]. cbn. unfold Rdiv. rewrite Rmult_0_l. unfold rnd_in. rewrite round_0; [reflexivity|typeclasses eauto].
      + exfalso. cbn in Hf2. apply eq_0_F2R in Hf2. cbn in Hf2. destruct s; discriminate.
    - destruct (value_nonzero f x Hf Hx) as (sx & mx & ex & -> & Ex).
      pose proof (Bdiv_correct_aux prec emax _ _ mode_NE sx mx ex sy my ey) as C. cbv zeta in C. rewrite <- Ex, <- Ey in C.
      destruct C as [Cv C]. fold (rnd_in (x / y)) in C. rewrite small_no_overflow in C by exact Hs.
      unfold SFdiv, fits_format. destruct (SFdiv_core_binary prec emax (Zpos mx) ex (Zpos my) ey) as [[mz ez] lz].
      rewrite aux_equiv. destruct C as (C1 & C2 & _). split; [split; auto|]. exact Cv.
  Qed.

  Lemma mul_value f g x y : has_value f x -> has_value g y -> fits_format f -> fits_format g -> (Rabs (x * y) <= bpow radix2 k)%R ->
    has_value (SFmul prec emax f g) (rnd_in (x * y)).
  Proof.
    intros Hf Hg Vf Vg Hs. destruct (Req_dec x 0) as [->|Hx].
    - destruct Hf as [Hf1 Hf2]. destruct f; try discriminate.
      + destruct Hg as [Hg1 _]. destruct g; try discriminate; (split; [reflexivity|]; cbn; rewrite Rmult_0_l; unfold rnd_in; rewrite round_0; [reflexivity|typeclasses eauto]).
      + exfalso. cbn in Hf2. apply eq_0_F2R in Hf2. cbn in Hf2. destruct s; discriminate.
    - destruct (value_nonzero f x Hf Hx) as (sx & mx & ex & -> & Ex). destruct (Req_dec y 0) as [->|Hy].
      + destruct Hg as [Hg1 Hg2]. destruct g; try discriminate.
        * split; [reflexivity|]. cbn. rewrite Rmult_0_r. unfold rnd_in. rewrite round_0; [reflexivity|typeclasses eauto].
        * exfalso. cbn in Hg2. apply eq_0_F2R in Hg2. cbn in Hg2. destruct s; discriminate.
      + destruct (value_nonzero g y Hg Hy) as (sy & my & ey & -> & Ey).
        pose proof (Bmult_correct_aux prec emax _ _ mode_NE sx mx ex Vf sy my ey Vg) as C. cbv zeta in C. rewrite <- Ex, <- Ey in C.
        destruct C as [_ C]. fold (rnd_in (x * y)) in C. rewrite small_no_overflow in C by exact Hs.
        unfold SFmul. rewrite aux_equiv. destruct C as (C1 & C2 & _). split; auto.
  Qed.

  Lemma rnd_in_le x y : (x <= y)%R -> (rnd_in x <= rnd_in y)%R.
  Proof. intros H. unfold rnd_in. apply round_le; auto; typeclasses eauto. Qed.
  Lemma rnd_in_int z : (Z.abs z <= 2 ^ prec)%Z -> rnd_in (IZR z) = IZR z.
  Proof.
    intros H. assert (Hp : 0 < prec) by exact Hprec. unfold rnd_in. apply round_generic; [typeclasses eauto|].
    destruct (Z.eq_dec (Z.abs z) (2 ^ prec)) as [E|E].
    - assert (z = 2 ^ prec \/ z = - 2 ^ prec)%Z as [->| ->] by lia.
      + change (2 ^ prec) with (Zpower radix2 prec). rewrite IZR_Zpower by lia. apply format_bpow. lia.
      + rewrite opp_IZR. apply generic_format_opp. change (2 ^ prec) with (Zpower radix2 prec). rewrite IZR_Zpower by lia. apply format_bpow. lia.
    - apply (generic_format_FLT radix2 (3 - emax - prec) prec). exists (Float radix2 z 0).
      + unfold F2R. cbn. now rewrite Rmult_1_r.
      + cbn [Fnum]. change (Zpower radix2 prec) with (2 ^ prec)%Z. lia.
      + exact H3.
  Qed.
  Lemma rnd_in_0 : rnd_in 0 = 0%R.
  Proof. unfold rnd_in. apply round_0. typeclasses eauto. Qed.
End format.

#[global] Instance Hprec64 : Prec_gt_0 53 := eq_refl.
#[global] Instance Hmax64 : Prec_lt_emax 53 1024 := eq_refl.
#[global] Instance Hprec32 : Prec_gt_0 24 := eq_refl.
#[global] Instance Hmax32 : Prec_lt_emax 24 128 := eq_refl.
Notation fexp64 := (SpecFloat.fexp 53 1024).
Definition rnd : R -> R := rnd_in 53 1024.
Definition rnd32 : R -> R := rnd_in 24 128.
Local Instance fexp_valid : Valid_exp fexp64 := FLT_exp_valid (3 - 1024 - 53) 53.
Local Instance fexp_mono : Monotone_exp fexp64 := FLT_exp_monotone (3 - 1024 - 53) 53.
Local Instance rnd_valid : Valid_rnd (round_mode mode_NE) := valid_rnd_round_mode mode_NE.

Lemma f64_of_value z : (Rabs (IZR z) <= bpow radix2 1000)%R -> has_value (f64_of z) (rnd (IZR z)).
Proof. intros H. apply (of_value 53 1024 1000 _ _ ltac:(lia) ltac:(lia) z H). Qed.
Lemma f64_div_value f g x y : has_value f x -> has_value g y -> (y <> 0)%R -> (Rabs (x / y) <= bpow radix2 1000)%R ->
  has_value (f64_div f g) (rnd (x / y)).
Proof. intros. now apply (div_value 53 1024 1000 _ _ ltac:(lia) ltac:(lia)). Qed.

(* ---------- integers from floats ---------- *)
Lemma scale_floor_spec m e : scale_floor m e = Zfloor (F2R (Float radix2 m e)).
Proof.
  unfold scale_floor. destruct (Z.leb_spec 0 e) as [H|H].
  - rewrite <- (Zfloor_IZR (m * 2 ^ e)). f_equal. unfold F2R. cbn [Fnum Fexp]. rewrite mult_IZR. f_equal.
    change 2%Z with (radix_val radix2). now rewrite IZR_Zpower.
  - unfold F2R. cbn [Fnum Fexp]. replace e with (- - e)%Z at 2 by lia. rewrite bpow_opp. change 2%Z with (radix_val radix2).
    rewrite <- IZR_Zpower by lia. symmetry. apply Zfloor_div. apply Z.pow_nonzero; cbn; lia.
Qed.
Lemma f_ceil_spec f x : has_value f x -> f_ceil f = Some (Zceil x).
Proof.
  intros [Hf Hx]. destruct f; try discriminate.
  - cbn in *. subst. now rewrite Zceil_IZR.
  - cbn [f_ceil]. f_equal. unfold Zceil. rewrite scale_floor_spec. f_equal. f_equal. rewrite <- Hx. cbn [SF2R].
    rewrite <- F2R_Zopp. reflexivity.
Qed.

(* ---------- torrent.go:102 ---------- *)
Lemma rnd_int z : (Z.abs z <= 2 ^ 53)%Z -> rnd (IZR z) = IZR z.
Proof. intros H. apply (rnd_in_int 53 1024 Hprec64 ltac:(lia) z H). Qed.
Lemma bpow1000 z : (Z.abs z <= 2 ^ 64)%Z -> (Rabs (IZR z) <= bpow radix2 1000)%R.
Proof.
  intros H. rewrite <- abs_IZR. apply Rle_trans with (IZR (2 ^ 64)); [now apply IZR_le|].
  change (IZR (2 ^ 64)) with (IZR (Zpower radix2 64)). rewrite IZR_Zpower by lia. apply bpow_le. lia.
Qed.

Lemma rnd_le x y : (x <= y)%R -> (rnd x <= rnd y)%R.
Proof. apply (rnd_in_le 53 1024 Hprec64). Qed.

(* an integer below a quotient stays strictly below after rounding *)
Lemma rnd_gt_int L P k : (0 < P <= 2 ^ 53)%Z -> (L <= 2 ^ 53)%Z -> (0 <= k)%Z -> (k * P < L)%Z -> (IZR k < rnd (IZR L / IZR P))%R.
Proof.
  intros HP HL Hk HkP.
  assert (HPr : (0 < IZR P)%R) by (apply IZR_lt; lia).
  assert (HkL : (k < 2 ^ 53)%Z) by nia.
  set (x := (IZR L / IZR P)%R).
  assert (Hx1 : (/ IZR P <= x - IZR k)%R).
  { unfold x. replace (IZR L / IZR P - IZR k)%R with (IZR (L - k * P) / IZR P)%R.
    - unfold Rdiv. rewrite <- (Rmult_1_l (/ IZR P)) at 1. apply Rmult_le_compat_r.
      + left. now apply Rinv_0_lt_compat.
      + apply IZR_le. lia.
    - rewrite minus_IZR, mult_IZR. field. lra. }
  assert (Hinv : (0 < / IZR P)%R) by now apply Rinv_0_lt_compat.
  destruct (Z.eq_dec k 0) as [->|Hk0].
  - apply Rlt_le_trans with (bpow radix2 (-53)); [apply bpow_gt_0|].
    replace (bpow radix2 (-53)) with (rnd (bpow radix2 (-53))).
    + apply rnd_le. apply Rle_trans with (/ IZR P)%R; [|lra].
      change (bpow radix2 (-53)) with (bpow radix2 (Z.opp 53)). rewrite (bpow_opp radix2 53). apply Rinv_le; [auto|]. rewrite <- IZR_Zpower by lia. change (Zpower radix2 53) with (2 ^ 53)%Z. apply IZR_le. lia.
    + unfold rnd. apply round_generic; [typeclasses eauto|]. apply generic_format_bpow. now vm_compute.
  - assert (Hle : (IZR k <= rnd x)%R).
    { rewrite <- (rnd_int k) by lia. apply rnd_le. lra. }
    destruct (Req_dec (rnd x) (IZR k)) as [E|E]; [exfalso|lra].
    pose proof (error_le_half_ulp_round radix2 fexp64 (fun x => negb (Z.even x)) x) as Hu.
    change (round radix2 fexp64 (Znearest (fun x => negb (Z.even x))) x) with (rnd x) in Hu. rewrite E in Hu.
    pose proof (ulp_FLT_le radix2 (3 - 1024 - 53) 53 (IZR k)) as Hk2. change (FLT_exp (3 - 1024 - 53) 53) with fexp64 in Hk2.
    assert (Hk3 : (1 <= IZR k)%R) by (apply IZR_le; lia).
    rewrite (Rabs_pos_eq (IZR k)) in Hk2 by lra.
    assert (Hk4 : (bpow radix2 (3 - 1024 - 53 + 53 - 1) <= IZR k)%R).
    { apply Rle_trans with 1%R; [|auto]. change 1%R with (bpow radix2 0). apply bpow_le. lia. }
    specialize (Hk2 Hk4). rewrite Rabs_minus_sym in Hu. rewrite Rabs_pos_eq in Hu by lra.
    assert (Hb : (/ 2 * (IZR k * bpow radix2 (1 - 53)) = IZR k * bpow radix2 (-53))%R).
    { replace (bpow radix2 (1 - 53)) with (2 * bpow radix2 (-53))%R; [lra|]. change (1 - 53)%Z with (1 + -53)%Z. rewrite bpow_plus. reflexivity. }
    assert (Hfin : (/ IZR P <= IZR k * bpow radix2 (-53))%R) by lra.
    apply Rmult_le_compat_l with (r := IZR P) in Hfin; [|lra]. rewrite Rinv_r in Hfin by lra.
    change (bpow radix2 (-53)) with (bpow radix2 (Z.opp 53)) in Hfin. rewrite (bpow_opp radix2 53) in Hfin. rewrite <- IZR_Zpower in Hfin by lia. change (Zpower radix2 53) with (2 ^ 53)%Z in Hfin.
    assert (Hp53 : (0 < IZR (2 ^ 53))%R) by (apply IZR_lt; lia).
    apply Rmult_le_compat_r with (r := IZR (2 ^ 53)) in Hfin; [|lra].
    replace (IZR P * (IZR k * / IZR (2 ^ 53)) * IZR (2 ^ 53))%R with (IZR k * IZR P)%R in Hfin by (field; lra).
    rewrite Rmult_1_l, <- mult_IZR in Hfin. apply le_IZR in Hfin. lia.
Qed.

Lemma ceil_div_exact L P : (0 <= L <= 2 ^ 53)%Z -> (0 < P <= 2 ^ 53)%Z ->
  f_ceil (f64_div (f64_of L) (f64_of P)) = Some (- ((- L) / P))%Z.
Proof.
  intros HL HP. pose proof (f64_of_value L (bpow1000 L ltac:(lia))) as VL. pose proof (f64_of_value P (bpow1000 P ltac:(lia))) as VP.
  rewrite rnd_int in VL by lia. rewrite rnd_int in VP by lia.
  assert (HPr : (1 <= IZR P)%R) by (apply IZR_le; lia). assert (HLr : (0 <= IZR L)%R) by (apply IZR_le; lia).
  assert (Hq : (0 <= IZR L / IZR P <= IZR L)%R).
  { split; [apply Rmult_le_pos; [auto|left; apply Rinv_0_lt_compat; lra]|]. apply Rmult_le_reg_r with (IZR P); [lra|].
    unfold Rdiv. rewrite Rmult_assoc, Rinv_l, Rmult_1_r by lra. nra. }
  pose proof (f64_div_value _ _ _ _ VL VP ltac:(lra)) as VD.
  assert (Hs : (Rabs (IZR L / IZR P) <= bpow radix2 1000)%R).
  { rewrite Rabs_pos_eq by lra. apply Rle_trans with (IZR L); [lra|]. rewrite <- (Rabs_pos_eq (IZR L)) by lra. apply bpow1000. lia. }
  specialize (VD Hs). rewrite (f_ceil_spec _ _ VD). f_equal.
  set (k := (- (- L / P))%Z).
  assert (K1 : ((k - 1) * P < L <= k * P)%Z).
  { unfold k. pose proof (Z.div_mod (- L) P ltac:(lia)). pose proof (Z.mod_pos_bound (- L) P ltac:(lia)). nia. }
  clearbody k. assert (K0 : (0 <= k)%Z) by nia.
  assert (KL : (k <= L)%Z) by nia.
  apply Zceil_imp. split.
  - destruct (Z.eq_dec k 0) as [->|].
    + apply Rlt_le_trans with 0%R; [apply IZR_lt; lia|]. replace 0%R with (rnd 0) by (unfold rnd, rnd_in; rewrite round_0; [reflexivity|typeclasses eauto]).
      apply rnd_le. lra.
    + apply rnd_gt_int; lia.
  - rewrite <- (rnd_int k) by lia. apply rnd_le. apply Rmult_le_reg_r with (IZR P); [lra|].
    unfold Rdiv. rewrite Rmult_assoc, Rinv_l, Rmult_1_r by lra. rewrite <- mult_IZR. apply IZR_le. lia.
Qed.

Lemma pieces_num_aux L P : (0 <= L <= 2 ^ 53)%Z -> (0 < P <= 2 ^ 53)%Z ->
  int_of (f_ceil (f64_div (f64_of L) (f64_of P))) = (- ((- L) / P))%Z.
Proof.
  intros HL HP. rewrite ceil_div_exact by auto. unfold int_of.
  assert (0 <= - (- L / P) <= 2 ^ 53)%Z.
  { pose proof (Z.div_mod (- L) P ltac:(lia)). pose proof (Z.mod_pos_bound (- L) P ltac:(lia)). nia. }
  destruct ((- 2 ^ 63 <=? - (- L / P)) && (- (- L / P) <? 2 ^ 63))%Z eqn:E; [reflexivity|]. lia.
Qed.

(* ---------- rounding and truncation ---------- *)
Lemma f_round_spec f x : has_value f x -> (0 <= x)%R -> f_round f = Some (Zfloor (x + / 2)).
Proof.
  intros [Hf Hx] H0. destruct f; try discriminate.
  - cbn in Hx |- *. subst. f_equal. symmetry. apply Zfloor_imp. cbn. lra.
  - cbn [f_round]. cbn [SF2R] in Hx. destruct s.
    + exfalso. assert (x < 0)%R; [|lra]. rewrite <- Hx. now apply F2R_lt_0.
    + f_equal. cbn [cond_Zopp] in Hx. unfold F2R in Hx. cbn [Fnum Fexp] in Hx. destruct (Z.leb_spec 0 e) as [H|H].
      * assert (Hi : x = IZR (Zpos m * 2 ^ e)). { rewrite <- Hx, mult_IZR. f_equal. change 2%Z with (radix_val radix2). now rewrite IZR_Zpower. }
        rewrite Hi. symmetry. apply Zfloor_imp. rewrite plus_IZR. lra.
      * replace (1 - e)%Z with (- e + 1)%Z by lia. rewrite Z.pow_add_r by lia. change (2 ^ 1) with 2.
        set (P := 2 ^ (- e)). assert (HP : 0 < P) by (apply Z.pow_pos_nonneg; lia).
        assert (Hb : (bpow radix2 e = / IZR P)%R). { unfold P. replace e with (- - e)%Z at 1 by lia. rewrite bpow_opp. f_equal. change 2%Z with (radix_val radix2). rewrite IZR_Zpower; [reflexivity|lia]. }
        assert (HPr : (0 < IZR P)%R) by (now apply IZR_lt).
        rewrite <- Zfloor_div by lia. f_equal. rewrite <- Hx, Hb, plus_IZR, !mult_IZR. field. lra.
Qed.
Lemma f_trunc_spec f x : has_value f x -> f_trunc f = Some (if Rlt_bool x 0 then (- Zfloor (- x))%Z else Zfloor x).
Proof.
  intros [Hf Hx]. destruct f; try discriminate.
  - cbn in *. subst. rewrite Rlt_bool_false by lra. now rewrite Zfloor_IZR.
  - cbn [f_trunc]. cbn [SF2R] in Hx. rewrite scale_floor_spec. destruct s; cbn [cond_Zopp] in Hx.
    + rewrite Rlt_bool_true; [|rewrite <- Hx; now apply F2R_lt_0]. f_equal. f_equal. f_equal. rewrite <- Hx, <- F2R_Zopp. reflexivity.
    + rewrite Rlt_bool_false; [|rewrite <- Hx; apply F2R_ge_0; cbn; lia]. f_equal. f_equal. exact Hx.
Qed.
