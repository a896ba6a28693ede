(* strconv base-0 parsing = Go integer literals *)
From Verif Require Import Base ProofBase ModelBencode ModelUnmarshal SpecUnmarshal.

Lemma lower_cases c : (lower c = c /\ 32 <= c mod 64) \/ (lower c = c + 32 /\ c mod 64 < 32).
Proof.
  unfold lower. assert (H64 : c mod 64 = Z.b2z (Z.testbit c 5) * 32 + c mod 32).
  { pose proof (Z.testbit_spec' c 5 ltac:(lia)) as T. change (2 ^ 5) with 32 in T. rewrite T.
    pose proof (Z.rem_mul_r c 32 2 ltac:(lia) ltac:(lia)) as R. change (32 * 2) with 64 in R. lia. }
  pose proof (Z.mod_pos_bound c 32 ltac:(lia)).
  destruct (Z.testbit c 5) eqn:E.
  - left. split; [|cbn [Z.b2z] in H64; lia]. apply Z.bits_inj'. intros n Hn. rewrite Z.lor_spec.
    change 32 with (2 ^ 5). rewrite Z.pow2_bits_eqb by lia. destruct (Z.eqb_spec 5 n); [subst; rewrite E; reflexivity|apply orb_false_r].
  - right. split; [|cbn [Z.b2z] in H64; lia].
    assert (L : Z.land c 32 = 0).
    { apply Z.bits_inj'. intros n Hn. rewrite Z.land_spec, Z.bits_0. change 32 with (2 ^ 5).
      rewrite Z.pow2_bits_eqb by lia. destruct (Z.eqb_spec 5 n); [subst; rewrite E; reflexivity|apply andb_false_r]. }
    rewrite Z.add_nocarry_lxor by exact L. symmetry. apply Z.lxor_lor. exact L.
Qed.

Lemma digit_value_model c : c <> 95 ->
  (if (48 <=? c) && (c <=? 57) then Some (c - 48)
   else if (97 <=? lower c) && (lower c <=? 122) then Some (lower c - 97 + 10) else None) = digit_value c.
Proof.
  intros _. unfold digit_value. destruct ((48 <=? c) && (c <=? 57)) eqn:E1; [reflexivity|].
  destruct (lower_cases c) as [[-> Hm]|[-> Hm]].
  - destruct ((97 <=? c) && (c <=? 122)) eqn:E2; [f_equal; lia|].
    destruct ((65 <=? c) && (c <=? 90)) eqn:E3; [|reflexivity].
    exfalso. assert (c = 64 + (c - 64)) as Ec by lia. rewrite Ec in Hm.
    replace (64 + (c - 64)) with (c - 64 + 1 * 64) in Hm by lia. rewrite Z_mod_plus_full in Hm.
    rewrite Z.mod_small in Hm; lia.
  - destruct ((97 <=? c + 32) && (c + 32 <=? 122)) eqn:E2.
    + replace ((97 <=? c) && (c <=? 122)) with false by lia. replace ((65 <=? c) && (c <=? 90)) with true by lia. f_equal; lia.
    + replace ((65 <=? c) && (c <=? 90)) with false by lia.
      destruct ((97 <=? c) && (c <=? 122)) eqn:E3; [|reflexivity].
      exfalso. replace c with (c - 64 + 1 * 64) in Hm by lia. rewrite Z_mod_plus_full in Hm.
      rewrite Z.mod_small in Hm; lia.
Qed.

Lemma digit_value_range c d : digit_value c = Some d -> 0 <= d < 36.
Proof.
  unfold digit_value. destruct ((48 <=? c) && (c <=? 57)) eqn:E1; [intros H; injection H as <-; lia|].
  destruct ((97 <=? c) && (c <=? 122)) eqn:E2; [intros H; injection H as <-; lia|].
  destruct ((65 <=? c) && (c <=? 90)) eqn:E3; [intros H; injection H as <-; lia|discriminate].
Qed.

Lemma digit_not_underscore c d : digit_value c = Some d -> c <> 95.
Proof. intros H ->. vm_compute in H. discriminate. Qed.

Lemma reads_ge base s : 0 < base -> forall n m, 0 <= n -> reads base s n m -> n <= m.
Proof.
  intros Hb n m Hn H. revert Hn. induction H as [n|s n m H IH|c d s n m Hd Hlt H IH]; intros Hn; [lia|auto|].
  apply digit_value_range in Hd. specialize (IH ltac:(nia)). nia.
Qed.

Definition has_us (s : bytes) : bool := existsb is_underscore s.

Lemma pu_loop_ok base maxv : 2 <= base <= 36 -> 0 <= maxv <= 2 ^ 64 - 1 ->
  forall s n us m us', 0 <= n <= maxv ->
  (pu_loop base maxv ((2 ^ 64 - 1) / base + 1) s n us = (NumOk m, us') <->
   reads base s n m /\ m <= maxv /\ us' = us || has_us s).
Proof.
  intros Hb Hm. set (cutoff := (2 ^ 64 - 1) / base + 1).
  assert (Hcut : forall n, cutoff <= n <-> 2 ^ 64 - 1 < n * base).
  { intros n. unfold cutoff. split; intros H.
    - pose proof (Z.div_mod (2 ^ 64 - 1) base ltac:(lia)). pose proof (Z.mod_pos_bound (2 ^ 64 - 1) base ltac:(lia)). nia.
    - assert ((2 ^ 64 - 1) / base < n); [|lia]. apply Z.div_lt_upper_bound; lia. }
  clearbody cutoff.
  induction s as [|c s IH]; intros n us m us' Hn; cbn [pu_loop].
  - split.
    + intros H; injection H as <- <-. split; [constructor|]. split; [lia|]. cbn. rewrite orb_false_r; reflexivity.
    + intros (H & _ & ->). inversion H; subst. cbn. rewrite orb_false_r. reflexivity.
  - unfold is_underscore at 1. destruct (Z.eqb_spec c 95) as [->|Hc].
    { rewrite IH by assumption. cbn [has_us existsb is_underscore]. change (95 =? 95) with true. cbn [orb].
      rewrite orb_true_r. split; intros (H1 & H2 & H3).
      - repeat split; auto. constructor; assumption.
      - repeat split; auto. inversion H1 as [|? ? ? H1'|? ? ? ? ? Hd]; subst; [assumption|].
        exfalso. eapply digit_not_underscore; eauto. }
    cbv zeta. rewrite digit_value_model by assumption.
    cbn [has_us existsb]. unfold is_underscore at 1. replace (c =? 95) with false by lia. cbn [orb]. fold (has_us s).
    destruct (digit_value c) as [d|] eqn:Ed.
    2:{ split; [discriminate|]. intros (H & _). inversion H; subst; congruence. }
    pose proof (digit_value_range _ _ Ed) as Hd.
    destruct (Z.leb_spec base d) as [Hbd|Hbd].
    { split; [discriminate|]. intros (H & _). inversion H; subst; [congruence|]. assert (d0 = d) by congruence. lia. }
    assert (Hinv : forall m', reads base (c :: s) n m' <-> reads base s (n * base + d) m').
    { intros m'. split; intros H.
      - inversion H; subst; [congruence|]. assert (d0 = d) by congruence. subst. assumption.
      - econstructor; eauto. }
    rewrite Hinv.
    destruct (Z.leb_spec cutoff n) as [Hco|Hco].
    { apply Hcut in Hco. split; [discriminate|]. intros (H & H2 & _). apply reads_ge in H; lia. }
    assert (Hnb : n * base <= 2 ^ 64 - 1).
    { destruct (Z.le_gt_cases (n * base) (2 ^ 64 - 1)); [assumption|]. assert (cutoff <= n) by (apply Hcut; lia). lia. }
    unfold u64. rewrite (Z.mod_small (n * base)) by nia.
    destruct (Z.le_gt_cases (n * base + d) (2 ^ 64 - 1)) as [Hov|Hov].
    + rewrite (Z.mod_small (n * base + d)) by nia.
      replace (n * base + d <? n * base) with false by lia. cbn [orb].
      destruct (Z.ltb_spec maxv (n * base + d)) as [Hmx|Hmx].
      * split; [discriminate|]. intros (H & H2 & _). apply reads_ge in H; nia.
      * apply IH. nia.
    + assert (E : (n * base + d) mod 2 ^ 64 = n * base + d - 2 ^ 64).
      { replace (n * base + d) with (n * base + d - 2 ^ 64 + 1 * 2 ^ 64) at 1 by lia.
        rewrite Z_mod_plus_full. apply Z.mod_small. lia. }
      rewrite E. replace (n * base + d - 2 ^ 64 <? n * base) with true by lia. cbn [orb].
      split; [discriminate|]. intros (H & H2 & _). apply reads_ge in H; nia.
Qed.

Lemma pu_loop_range base maxv s : forall cutoff n us m us',
  pu_loop base maxv cutoff s n us = (NumRange m, us') -> m = maxv.
Proof.
  induction s as [|c s IH]; intros cutoff n us m us'; cbn [pu_loop]; [discriminate|].
  destruct (is_underscore c); [apply IH|]. cbv zeta.
  destruct (if (48 <=? c) && (c <=? 57) then Some (c - 48)
     else if (97 <=? lower c) && (lower c <=? 122) then Some (lower c - 97 + 10) else None) as [d|]; [|discriminate].
  destruct (base <=? d); [discriminate|]. destruct (cutoff <=? n); [intros H; injection H as <- <-; reflexivity|].
  match goal with |- context [if ?b then _ else _] => destruct b end; [intros H; injection H as <- <-; reflexivity|apply IH].
Qed.

(* underscore rule *)
Definition plain (hex : bool) (c : Z) : Prop :=
  (48 <= c <= 57) \/ (hex = true /\ exists d, digit_value c = Some d /\ d < 16).

Lemma us_digit hex c : plain hex c -> ((48 <=? c) && (c <=? 57)) || (hex && (97 <=? lower c) && (lower c <=? 102)) = true.
Proof.
  intros [H|(-> & d & Hd & Hlt)]; [replace ((48 <=? c) && (c <=? 57)) with true by lia; reflexivity|].
  cbn [andb]. rewrite <- digit_value_model in Hd by (eapply digit_not_underscore; eauto).
  destruct ((48 <=? c) && (c <=? 57)); [reflexivity|]. cbn [orb].
  destruct ((97 <=? lower c) && (lower c <=? 122)) eqn:E; [|discriminate]. injection Hd as <-. lia.
Qed.

Lemma us_loop_spec hex s : Forall (fun c => c = 95 \/ plain hex c) s -> forall saw, saw = 0 \/ saw = 1 \/ saw = 2 ->
  (us_loop hex s saw = true <->
   (saw <> 1 -> hd 0 s <> 95) /\ (saw = 2 -> s <> []) /\
   (forall a b, s <> a ++ [95; 95] ++ b) /\ (forall a, s <> a ++ [95])).
Proof.
  induction 1 as [|c s Hc Hs IH]; intros saw Hsaw; cbn [us_loop].
  - split.
    + intros H. repeat split; try discriminate; try (intros _; discriminate); try lia; intros [|? ?]; discriminate.
    + intros (_ & H & _). destruct (Z.eqb_spec saw 2); [exfalso; apply H; auto|reflexivity].
  - destruct Hc as [->|Hp].
    + assert (En : ((48 <=? 95) && (95 <=? 57)) || (hex && (97 <=? lower 95) && (lower 95 <=? 102)) = false).
      { change (lower 95) with 127. destruct hex; reflexivity. }
      rewrite En. change (is_underscore 95) with true. cbn iota.
      destruct (Z.eqb_spec saw 1) as [->|Hs1].
      * rewrite IH by auto. split.
        -- intros (H1 & H2 & H3 & H4). repeat split; [congruence|congruence| |].
           ++ intros a b E. destruct a as [|x a]; cbn [app] in E; [injection E as E2|injection E as E1 E2; exact (H3 a b E2)].
              apply H1; [lia|]. rewrite E2. reflexivity.
           ++ intros a E. destruct a as [|x a]; cbn [app] in E; [injection E as E2|injection E as E1 E2; exact (H4 a E2)].
              apply H2; auto.
        -- intros (_ & _ & H3 & H4). repeat split.
           ++ intros _ E. destruct s as [|x s]; [discriminate|]. cbn in E. subst x. exact (H3 [] s eq_refl).
           ++ intros _ E. subst s. exact (H4 [] eq_refl).
           ++ intros a b E. subst s. exact (H3 (95 :: a) b eq_refl).
           ++ intros a E. subst s. exact (H4 (95 :: a) eq_refl).
      * split; [discriminate|]. intros (H1 & _). exfalso. apply (H1 Hs1). reflexivity.
    + rewrite (us_digit _ _ Hp). assert (Hc95 : c <> 95).
      { destruct Hp as [Hp|(_ & d & Hd & _)]; [lia|eapply digit_not_underscore; eauto]. }
      rewrite IH by auto. split.
      * intros (_ & _ & H3 & H4). repeat split; [intros _; exact Hc95|discriminate| |].
        -- intros a b E. destruct a as [|x a]; cbn [app] in E; injection E as E1 E2; [congruence|exact (H3 a b E2)].
        -- intros a E. destruct a as [|x a]; cbn [app] in E; injection E as E1 E2; [congruence|exact (H4 a E2)].
      * intros (_ & _ & H3 & H4). repeat split; [congruence|lia| |].
        -- intros a b E. subst s. exact (H3 (c :: a) b eq_refl).
        -- intros a E. subst s. exact (H4 (c :: a) eq_refl).
Qed.

Lemma reads_plain base hex s : (base <= 10 \/ (base <= 16 /\ hex = true)) -> forall n m, reads base s n m ->
  Forall (fun c => c = 95 \/ plain hex c) s.
Proof.
  intros Hb n m H. induction H as [n|s n m H IH|c d s n m Hd Hlt H IH]; constructor; auto.
  right. unfold plain. destruct Hb as [Hb|[Hb ->]].
  - left. unfold digit_value in Hd. destruct ((48 <=? c) && (c <=? 57)) eqn:E1; [lia|].
    destruct ((97 <=? c) && (c <=? 122)) eqn:E2; [injection Hd as <-; lia|].
    destruct ((65 <=? c) && (c <=? 90)) eqn:E3; [injection Hd as <-; lia|discriminate].
  - right. split; [reflexivity|]. exists d. split; [exact Hd|lia].
Qed.

Lemma lower_letter c k : (k = 98 \/ k = 111 \/ k = 120) -> (lower c = k <-> c = k \/ c = k - 32).
Proof.
  intros Hk. destruct (lower_cases c) as [[-> Hm]|[-> Hm]].
  - split; [auto|]. intros [H|H]; [exact H|]. exfalso. subst c. destruct Hk as [->|[->| ->]]; vm_compute in Hm; apply Hm; reflexivity.
  - split; [lia|]. intros [H|H]; [|lia]. exfalso. subst c. destruct Hk as [->|[->| ->]]; vm_compute in Hm; discriminate.
Qed.

Lemma has_us_false_sep s p : has_us s = false -> sep_ok p s.
Proof.
  intros H. assert (K : ~ In 95 s).
  { intros Hi. assert (has_us s = true); [|congruence]. apply existsb_exists. exists 95. auto. }
  repeat split.
  - intros _ E. destruct s; [discriminate|]. cbn in E. subst. apply K. left; reflexivity.
  - intros a b ->. apply K. apply in_or_app. right. left. reflexivity.
  - intros a ->. apply K. apply in_or_app. right. left. reflexivity.
Qed.

Lemma reads_minus base s n m : ~ reads base (45 :: s) n m.
Proof. intros H; inversion H as [| |? d ? ? ? Hd]; subst. vm_compute in Hd. discriminate. Qed.
Lemma reads_plus base s n m : ~ reads base (43 :: s) n m.
Proof. intros H; inversion H as [| |? d ? ? ? Hd]; subst. vm_compute in Hd. discriminate. Qed.
Lemma reads_letter base c s n m : base <= 10 -> (c = 120 \/ c = 88 \/ c = 111 \/ c = 79 \/ c = 98 \/ c = 66) -> ~ reads base (c :: s) n m.
Proof.
  intros Hb Hc H. inversion H as [| |? d ? ? ? Hd Hlt]; subst; [lia|].
  destruct Hc as [->|[->|[->|[->|[->| ->]]]]]; vm_compute in Hd; injection Hd as <-; lia.
Qed.

(* the finishing underscore check, given how the rest reads *)
Lemma us_check s p base ds m : radix s p base ds -> reads base ds 0 m ->
  (has_us ds && negb (underscoreOK s) = false <-> sep_ok p ds).
Proof.
  intros Hr Hd. destruct (has_us ds) eqn:Eu; cbn [andb].
  2:{ split; [intros _; apply has_us_false_sep; exact Eu|reflexivity]. }
  assert (K : underscoreOK s = true <-> sep_ok p ds).
  { assert (G : forall hex saw, (base <= 10 \/ (base <= 16 /\ hex = true)) -> saw = 0 /\ p = [] \/ saw = 1 /\ p <> [] ->
       (us_loop hex ds saw = true <-> sep_ok p ds)).
    { intros hex saw Hb Hsaw. rewrite us_loop_spec; [|eapply reads_plain; eauto|lia].
      unfold sep_ok. split.
      - intros (H1 & _ & H3 & H4). repeat split; auto. intros Hp. apply H1. destruct Hsaw as [[-> _]|[_ Hne]]; [lia|contradiction].
      - intros (H1 & H3 & H4). repeat split; auto; [|lia]. intros Hs1. apply H1. destruct Hsaw as [[_ Hp]|[-> _]]; [exact Hp|congruence]. }
    inversion Hr as [c r Hc Hne|c r Hc Hne|c r Hc Hne|r|c r Hc]; subst.
    - unfold underscoreOK. change ((48 =? 45) || (48 =? 43)) with false. cbn iota. change (48 =? 48) with true.
      assert (L : lower c = 120) by (apply lower_letter; lia). rewrite L. cbn [andb orb Z.eqb Pos.eqb].
      apply G; [right; split; [lia|reflexivity]|right; split; [reflexivity|discriminate]].
    - unfold underscoreOK. change ((48 =? 45) || (48 =? 43)) with false. cbn iota. change (48 =? 48) with true.
      assert (L : lower c = 111) by (apply lower_letter; lia). rewrite L. cbn [andb orb Z.eqb Pos.eqb].
      apply G; [left; lia|right; split; [reflexivity|discriminate]].
    - unfold underscoreOK. change ((48 =? 45) || (48 =? 43)) with false. cbn iota. change (48 =? 48) with true.
      assert (L : lower c = 98) by (apply lower_letter; lia). rewrite L. cbn [andb orb Z.eqb Pos.eqb].
      apply G; [left; lia|right; split; [reflexivity|discriminate]].
    - assert (E : underscoreOK (48 :: ds) = us_loop false ds 1).
      { unfold underscoreOK. change ((48 =? 45) || (48 =? 43)) with false. cbn iota. destruct ds as [|b ds]; [reflexivity|].
        change (48 =? 48) with true. cbn [andb].
        destruct ((lower b =? 98) || (lower b =? 111) || (lower b =? 120)) eqn:El; [|reflexivity].
        exfalso. assert (Hb : b = 98 \/ b = 66 \/ b = 111 \/ b = 79 \/ b = 120 \/ b = 88).
        { destruct (Z.eqb_spec (lower b) 98) as [e|]; [apply lower_letter in e; lia|].
          destruct (Z.eqb_spec (lower b) 111) as [e|]; [apply lower_letter in e; lia|].
          destruct (Z.eqb_spec (lower b) 120) as [e|]; [apply lower_letter in e; lia|discriminate]. }
        eapply (reads_letter 8 b); [lia| |exact Hd]. lia. }
      rewrite E. apply G; [left; lia|right; split; [reflexivity|discriminate]].
    - assert (E : underscoreOK (c :: r) = us_loop false (c :: r) 0).
      { unfold underscoreOK. destruct (Z.eqb_spec c 45) as [->|H45]; [exfalso; exact (reads_minus _ _ _ _ Hd)|].
        destruct (Z.eqb_spec c 43) as [->|H43]; [exfalso; exact (reads_plus _ _ _ _ Hd)|]. cbn [orb]. cbn iota.
        destruct r as [|b r]; [reflexivity|]. replace (c =? 48) with false by lia. reflexivity. }
      rewrite E. apply G; [left; lia|left; split; reflexivity]. }
  destruct (underscoreOK s); cbn [negb]; split; intros H; try discriminate; try reflexivity.
  - apply K; reflexivity.
  - apply K in H. discriminate.
Qed.

Lemma base_prefix_radix s base rest :
  s <> [] -> base_prefix s = (base, rest) -> 2 <= base <= 36 /\ exists p, radix s p base rest.
Proof.
  intros Hs H. destruct s as [|a rest0]; [congruence|]. unfold base_prefix in H.
  destruct (Z.eq_dec a 48) as [->|Ha].
  2:{ assert (E : (10, a :: rest0) = (base, rest)).
      { destruct a as [|pa|pa]; try exact H. do 6 (destruct pa as [pa|pa|]; try exact H). congruence. }
      injection E as <- <-. split; [lia|]. eexists. apply rx_dec. exact Ha. }
  destruct rest0 as [|b [|x s']].
  - injection H as <- <-. split; [lia|]. eexists; apply rx_zero.
  - injection H as <- <-. split; [lia|]. eexists; apply rx_zero.
  - destruct (Z.eqb_spec (lower b) 98) as [e|_]; [injection H as <- <-; apply lower_letter in e; [|lia]; split; [lia|]; eexists; apply rx_bin; [lia|discriminate]|].
    destruct (Z.eqb_spec (lower b) 111) as [e|_]; [injection H as <- <-; apply lower_letter in e; [|lia]; split; [lia|]; eexists; apply rx_oct; [lia|discriminate]|].
    destruct (Z.eqb_spec (lower b) 120) as [e|_]; [injection H as <- <-; apply lower_letter in e; [|lia]; split; [lia|]; eexists; apply rx_hex; [lia|discriminate]|].
    injection H as <- <-. split; [lia|]. eexists; apply rx_zero.
Qed.

(* a readable literal determines the prefix *)
Lemma radix_base_prefix s p base ds m : radix s p base ds -> reads base ds 0 m -> base_prefix s = (base, ds).
Proof.
  intros Hr Hd. inversion Hr as [c r Hc Hne|c r Hc Hne|c r Hc Hne|r|c r Hc]; subst; unfold base_prefix.
  - destruct ds as [|x ds]; [congruence|]. assert (L : lower c = 120) by (apply lower_letter; lia). rewrite L. reflexivity.
  - destruct ds as [|x ds]; [congruence|]. assert (L : lower c = 111) by (apply lower_letter; lia). rewrite L. reflexivity.
  - destruct ds as [|x ds]; [congruence|]. assert (L : lower c = 98) by (apply lower_letter; lia). rewrite L. reflexivity.
  - destruct ds as [|b [|x s']]; try reflexivity.
    destruct (Z.eqb_spec (lower b) 98) as [e|_]; [apply lower_letter in e; [|lia]; exfalso; eapply (reads_letter 8 b); [lia| |exact Hd]; lia|].
    destruct (Z.eqb_spec (lower b) 111) as [e|_]; [apply lower_letter in e; [|lia]; exfalso; eapply (reads_letter 8 b); [lia| |exact Hd]; lia|].
    destruct (Z.eqb_spec (lower b) 120) as [e|_]; [apply lower_letter in e; [|lia]; exfalso; eapply (reads_letter 8 b); [lia| |exact Hd]; lia|].
    reflexivity.
  - destruct c as [|pa|pa]; try reflexivity. do 6 (destruct pa as [pa|pa|]; try reflexivity). congruence.
Qed.

Lemma radix_nonempty s p base ds : radix s p base ds -> s <> [] /\ 2 <= base <= 36.
Proof. intros H; inversion H; subst; split; try discriminate; lia. Qed.

Lemma pow_bits b : width b -> 0 <= 2 ^ b - 1 <= 2 ^ 64 - 1.
Proof. intros [->|[->|[->| ->]]]; lia. Qed.

Lemma parse_uint_ok s b n : width b -> (ParseUint0 s b = NumOk n <-> magnitude s n /\ 0 <= n < 2 ^ b).
Proof.
  intros Hw. pose proof (pow_bits b Hw) as Hp. unfold ParseUint0. destruct s as [|c s0].
  { split; [discriminate|]. intros ((p & bs & ds & Hr & _) & _). apply radix_nonempty in Hr as [H _]. congruence. }
  set (s := c :: s0). assert (Hne : s <> []) by discriminate. clearbody s. clear c s0.
  destruct (base_prefix s) as [base rest] eqn:Eb.
  destruct (base_prefix_radix s base rest Hne Eb) as (Hbase & p & Hr).
  pose proof (pu_loop_ok base (2 ^ b - 1) Hbase Hp rest 0 false) as L.
  split.
  - destruct (pu_loop base (2 ^ b - 1) ((2 ^ 64 - 1) / base + 1) rest 0 false) as [r us] eqn:E.
    destruct r as [m| |m]; try discriminate.
    destruct (us && negb (underscoreOK s)) eqn:Eu; [discriminate|]. intros H; injection H as <-.
    destruct (proj1 (L m us ltac:(lia)) eq_refl) as (H1 & H2 & H3). cbn [orb] in H3. subst us.
    split; [|apply reads_ge in H1; lia]. exists p, base, rest. repeat split; auto; apply (us_check s p base rest m Hr H1); exact Eu.
  - intros ((p2 & b2 & ds & Hr2 & Hd & Hs) & Hn).
    pose proof (radix_base_prefix _ _ _ _ _ Hr2 Hd) as E2. rewrite Eb in E2. injection E2 as -> ->.
    destruct (L n (has_us ds) ltac:(lia)) as [_ L2]. rewrite L2 by (repeat split; auto; lia).
    apply (us_check s p2 b2 ds n Hr2 Hd) in Hs. rewrite Hs. reflexivity.
Qed.

Lemma parse_uint_range s b n : width b -> ParseUint0 s b = NumRange n -> n = 2 ^ b - 1.
Proof.
  intros Hw. unfold ParseUint0. destruct s as [|c s0]; [discriminate|].
  destruct (base_prefix (c :: s0)) as [base rest].
  destruct (pu_loop base (2 ^ b - 1) ((2 ^ 64 - 1) / base + 1) rest 0 false) as [r us] eqn:E.
  destruct r as [m| |m]; try discriminate.
  - destruct (us && negb (underscoreOK (c :: s0))); discriminate.
  - intros H; injection H as <-. eapply pu_loop_range; exact E.
Qed.

Lemma magnitude_not_sign c r n : c = 45 \/ c = 43 -> ~ magnitude (c :: r) n.
Proof.
  intros Hc (p & b & ds & Hr & Hd & _). inversion Hr; subst; try lia.
  destruct Hc as [->| ->]; [exact (reads_minus _ _ _ _ Hd)|exact (reads_plus _ _ _ _ Hd)].
Qed.

Lemma magnitude_nonneg s n : magnitude s n -> 0 <= n.
Proof.
  intros (p & b & ds & Hr & Hd & _). apply radix_nonempty in Hr as [_ Hb]. apply reads_ge in Hd; lia.
Qed.

Lemma pow_half b : width b -> 2 ^ b = 2 * 2 ^ (b - 1) /\ 2 < 2 ^ (b - 1).
Proof. intros [->|[->|[->| ->]]]; split; reflexivity. Qed.

Lemma parse_int_ok s b n : width b ->
  (ParseInt0 s b = NumOk n <-> int_literal s n /\ - 2 ^ (b - 1) <= n < 2 ^ (b - 1)).
Proof.
  intros Hw. pose proof (pow_half b Hw) as [Hh Hh2]. unfold ParseInt0. destruct s as [|c s'].
  { split; [discriminate|]. intros ([(p & bs & ds & Hr & _)|[(r & E & _)|(r & E & _)]] & _); try discriminate.
    apply radix_nonempty in Hr as [H _]. congruence. }
  cbv zeta. set (H := 2 ^ (b - 1)) in *. clearbody H.
  destruct (Z.eqb_spec c 45) as [->|Hc45]; [|destruct (Z.eqb_spec c 43) as [->|Hc43]]; cbn [orb negb andb].
  - assert (I : int_literal (45 :: s') n <-> magnitude s' (- n)).
    { unfold int_literal. split.
      - intros [H1|[(r & E & _)|(r & E & H1)]]; [apply magnitude_not_sign in H1; [destruct H1|auto]|discriminate|congruence].
      - intros H1. right; right. eauto. }
    rewrite I. clear I. destruct (ParseUint0 s' b) as [un| |un] eqn:E.
    + apply parse_uint_ok in E as [Hm Hr]; [|exact Hw].
      assert (U : forall k, magnitude s' k -> k = un).
      { intros k Hk. assert (Hk0 := magnitude_nonneg _ _ Hk).
        destruct Hm as (p & bs & ds & R1 & R2 & R3). destruct Hk as (p2 & bs2 & ds2 & Q1 & Q2 & Q3).
        pose proof (radix_base_prefix _ _ _ _ _ R1 R2) as E1. pose proof (radix_base_prefix _ _ _ _ _ Q1 Q2) as E2.
        rewrite E1 in E2. injection E2 as <- <-. clear -R2 Q2. revert k Q2. induction R2 as [|s n m R IH|c d s n m Hd Hlt R IH]; intros k Q.
        - inversion Q; reflexivity.
        - inversion Q; subst; [apply IH; assumption|]. exfalso; eapply digit_not_underscore; eauto.
        - inversion Q; subst; [exfalso; eapply digit_not_underscore; eauto|]. assert (d0 = d) by congruence. subst. apply IH; assumption. }
      destruct (Z.ltb_spec H un).
      * split; [discriminate|]. intros (Hk & Hk2). apply U in Hk. lia.
      * split; [intros Q; injection Q as <-; rewrite Z.opp_involutive; split; [exact Hm|lia]|].
        intros (Hk & Hk2). apply U in Hk. f_equal. lia.
    + split; [discriminate|]. intros (Hk & Hk2). assert (Hk0 := magnitude_nonneg _ _ Hk).
      assert (ParseUint0 s' b = NumOk (- n)) by (apply parse_uint_ok; [exact Hw|split; [exact Hk|lia]]). congruence.
    + assert (Hr := parse_uint_range _ _ _ Hw E). replace (H <? un) with true by lia. split; [discriminate|].
      intros (Hk & Hk2). assert (Hk0 := magnitude_nonneg _ _ Hk).
      assert (ParseUint0 s' b = NumOk (- n)) by (apply parse_uint_ok; [exact Hw|split; [exact Hk|lia]]). congruence.
  - assert (I : int_literal (43 :: s') n <-> magnitude s' n).
    { unfold int_literal. split.
      - intros [H1|[(r & E & H1)|(r & E & _)]]; [apply magnitude_not_sign in H1; [destruct H1|auto]|congruence|discriminate].
      - intros H1. right; left. eauto. }
    rewrite I. clear I. assert (K : ParseUint0 s' b = NumOk n <-> magnitude s' n /\ 0 <= n < 2 ^ b) by (apply parse_uint_ok; exact Hw).
    destruct (ParseUint0 s' b) as [un| |un] eqn:E.
    + destruct (Z.leb_spec H un).
      * split; [discriminate|]. intros (Hk & Hk2). assert (Hk0 := magnitude_nonneg _ _ Hk).
        assert (NumOk un = NumOk n) by (apply K; split; [exact Hk|lia]). assert (un = n) by congruence. lia.
      * rewrite K. split; intros (A & B); assert (Hk0 := magnitude_nonneg _ _ A); (split; [exact A|]); [|lia].
        assert (NumOk un = NumOk n) by (apply K; auto). assert (un = n) by congruence. lia.
    + split; [discriminate|]. intros (Hk & Hk2). assert (Hk0 := magnitude_nonneg _ _ Hk).
      apply K. split; [exact Hk|lia].
    + assert (Hr := parse_uint_range _ _ _ Hw E). replace (H <=? un) with true by lia. split; [discriminate|].
      intros (Hk & Hk2). assert (Hk0 := magnitude_nonneg _ _ Hk). assert (NumRange un = NumOk n) by (apply K; split; [exact Hk|lia]). discriminate.
  - assert (I : int_literal (c :: s') n <-> magnitude (c :: s') n).
    { unfold int_literal. split.
      - intros [H1|[(r & E & H1)|(r & E & _)]]; [exact H1|congruence|congruence].
      - intros H1. left; exact H1. }
    rewrite I. clear I. assert (K : ParseUint0 (c :: s') b = NumOk n <-> magnitude (c :: s') n /\ 0 <= n < 2 ^ b) by (apply parse_uint_ok; exact Hw).
    destruct (ParseUint0 (c :: s') b) as [un| |un] eqn:E.
    + destruct (Z.leb_spec H un).
      * split; [discriminate|]. intros (Hk & Hk2). assert (Hk0 := magnitude_nonneg _ _ Hk).
        assert (NumOk un = NumOk n) by (apply K; split; [exact Hk|lia]). assert (un = n) by congruence. lia.
      * rewrite K. split; intros (A & B); assert (Hk0 := magnitude_nonneg _ _ A); (split; [exact A|]); [|lia].
        assert (NumOk un = NumOk n) by (apply K; auto). assert (un = n) by congruence. lia.
    + split; [discriminate|]. intros (Hk & Hk2). assert (Hk0 := magnitude_nonneg _ _ Hk).
      apply K. split; [exact Hk|lia].
    + assert (Hr := parse_uint_range _ _ _ Hw E). replace (H <=? un) with true by lia. split; [discriminate|].
      intros (Hk & Hk2). assert (Hk0 := magnitude_nonneg _ _ Hk). assert (NumRange un = NumOk n) by (apply K; split; [exact Hk|lia]). discriminate.
Qed.
