(* Lemmas about the command line: numbers.                                     *)
From Verif Require Import Base ProofBase ModelArgs SpecArgs.

(* ---------- digits ---------- *)
Lemma lor_cases c : Z.lor c 32 = c \/ Z.lor c 32 = c + 32.
Proof.
  destruct (Z.testbit c 5) eqn:E.
  - left. apply Z.bits_inj'. intros n Hn. rewrite Z.lor_spec. change 32 with (2 ^ 5). rewrite Z.pow2_bits_eqb by lia.
    destruct (Z.eqb_spec 5 n) as [<-|]; [rewrite E; reflexivity|now rewrite orb_false_r].
  - right. symmetry.
    assert (L : Z.land c 32 = 0).
    { apply Z.bits_inj'. intros n Hn. rewrite Z.land_spec, Z.bits_0. change 32 with (2 ^ 5). rewrite Z.pow2_bits_eqb by lia.
      destruct (Z.eqb_spec 5 n) as [<-|]; [now rewrite E|now rewrite andb_false_r]. }
    rewrite <- Z.lxor_lor by exact L. now apply Z.add_nocarry_lxor.
Qed.
Lemma range_check (P : Z -> bool) a n : forallb P (map Z.of_nat (seq a n)) = true -> forall c, Z.of_nat a <= c < Z.of_nat a + Z.of_nat n -> P c = true.
Proof.
  intros H c Hc. rewrite forallb_forall in H. apply H. apply in_map_iff. exists (Z.to_nat c). split; [lia|]. apply in_seq. lia.
Qed.
Lemma lower_low c : 97 <= c <= 122 -> lower c = c.
Proof. intros H. apply Z.eqb_eq. apply (range_check (fun c => lower c =? c) 97 26); [reflexivity|lia]. Qed.
Lemma lower_up c : 65 <= c <= 90 -> lower c = c + 32.
Proof. intros H. apply Z.eqb_eq. apply (range_check (fun c => lower c =? c + 32) 65 26); [reflexivity|lia]. Qed.
Lemma lower_digit c : 48 <= c <= 57 -> lower c = c.
Proof. intros H. apply Z.eqb_eq. apply (range_check (fun c => lower c =? c) 48 10); [reflexivity|lia]. Qed.
Lemma digit_val_dig b c d : digit_val c = Some d /\ d < b <-> dig b c d.
Proof.
  unfold digit_val. split.
  - intros [H L]. destruct ((48 <=? c) && (c <=? 57)) eqn:E1.
    + apply andb_true_iff in E1 as [A B]. inversion H; subst. apply dig_dec; lia.
    + destruct ((97 <=? lower c) && (lower c <=? 122)) eqn:E2; [|discriminate]. apply andb_true_iff in E2 as [A B]. inversion H; subst; clear H.
      destruct (lor_cases c) as [F|F]; unfold lower in *; rewrite F in *.
      * replace (c - 97 + 10) with (c - 87) in * by lia. apply dig_low; lia.
      * replace (c + 32 - 97 + 10) with (c - 55) in * by lia. apply dig_up; lia.
  - intros H. destruct H as [c H L|c H L|c H L].
    + rewrite (proj2 (Z.leb_le 48 c)), (proj2 (Z.leb_le c 57)) by lia. split; [reflexivity|lia].
    + rewrite (proj2 (Z.leb_gt c 57)), andb_false_r by lia. rewrite (lower_low c H), (proj2 (Z.leb_le 97 c)), (proj2 (Z.leb_le c 122)) by lia.
      cbn [andb]. split; [f_equal|]; lia.
    + rewrite (proj2 (Z.leb_gt c 57)), andb_false_r by lia. rewrite (lower_up c H), (proj2 (Z.leb_le 97 _)), (proj2 (Z.leb_le _ 122)) by lia.
      cbn [andb]. split; [f_equal|]; lia.
Qed.
Lemma dig_95 b d : ~ dig b 95 d. Proof. intros H. inversion H; lia. Qed.
Lemma dig_nonneg b c d : dig b c d -> 0 <= d < b. Proof. intros H. destruct H; lia. Qed.
Lemma dig_det b c d d' : dig b c d -> dig b c d' -> d = d'.
Proof. intros H H'. apply digit_val_dig in H as [H _], H' as [H' _]. congruence. Qed.

(* digits with underscores anywhere *)
Inductive loose (b : Z) : bytes -> list Z -> Prop :=
| lo_nil : loose b [] []
| lo_under s l : loose b s l -> loose b (95 :: s) l
| lo_dig c d s l : dig b c d -> loose b s l -> loose b (c :: s) (d :: l).
Lemma amount_nonneg b s l : 0 < b -> loose b s l -> 0 <= amount b l.
Proof.
  intros Hb H. induction H as [|s l _ IH|c d s l D _ IH]; cbn [amount]; [lia|exact IH|].
  apply dig_nonneg in D. pose proof (Z.pow_nonneg b (Z.of_nat (length l))). nia.
Qed.
Lemma uint_some b : 0 < b -> forall s n v, 0 <= n -> uint_digits b n s = Some v ->
  exists l, loose b s l /\ v = n * b ^ Z.of_nat (length l) + amount b l /\ (n < 2 ^ 64 -> v < 2 ^ 64).
Proof.
  intros Hb. induction s as [|c s IH]; intros n v Hn H; cbn [uint_digits] in H.
  - inversion H; subst. exists []. split; [constructor|]. cbn [length amount]. change (Z.of_nat 0) with 0. rewrite Z.pow_0_r. split; [lia|auto].
  - destruct (Z.eqb_spec c 95) as [->|NE].
    + destruct (IH n v Hn H) as (l & A & B). exists l. split; [now constructor|exact B].
    + destruct (digit_val c) as [d|] eqn:E; [|discriminate]. destruct (Z.leb_spec b d); [discriminate|].
      destruct (Z.leb_spec (2 ^ 64) (n * b + d)) as [|L2]; [discriminate|].
      assert (D : dig b c d) by (apply digit_val_dig; auto). pose proof (dig_nonneg _ _ _ D).
      destruct (IH (n * b + d) v) as (l & A & B & C); [nia|exact H|].
      exists (d :: l). split; [now constructor|]. split; [|intros _; apply C; exact L2].
      rewrite B. cbn [amount length]. rewrite Nat2Z.inj_succ, Z.pow_succ_r by lia. ring.
Qed.
Lemma some_uint b : 0 < b -> forall s l, loose b s l -> forall n, 0 <= n -> n * b ^ Z.of_nat (length l) + amount b l < 2 ^ 64 ->
  uint_digits b n s = Some (n * b ^ Z.of_nat (length l) + amount b l).
Proof.
  intros Hb s l H. induction H as [|s l _ IH|c d s l D L IH]; intros n Hn HL; cbn [uint_digits].
  - cbn [length amount]. change (Z.of_nat 0) with 0. rewrite Z.pow_0_r. f_equal. lia.
  - cbn [Z.eqb Pos.eqb]. now apply IH.
  - destruct (Z.eqb_spec c 95) as [->|_]; [destruct (dig_95 _ _ D)|].
    destruct (proj2 (digit_val_dig b c d) D) as [E LT]. rewrite E. rewrite (proj2 (Z.leb_gt b d)) by exact LT.
    pose proof (amount_nonneg b s l Hb L). pose proof (dig_nonneg _ _ _ D) as DN.
    cbn [length amount] in HL |- *. rewrite Nat2Z.inj_succ, Z.pow_succ_r in HL |- * by lia.
    assert (P : 1 <= b ^ Z.of_nat (length l)) by (pose proof (Z.pow_pos_nonneg b (Z.of_nat (length l))); lia).
    assert (0 <= n * b) by nia.
    assert (Q : n * b + d <= (n * b + d) * b ^ Z.of_nat (length l)) by nia.
    rewrite (proj2 (Z.leb_gt (2 ^ 64) _)) by nia. rewrite IH; [f_equal; ring|nia|nia].
Qed.

(* ---------- underscores ---------- *)
Definition tailed (b : Z) (s : bytes) (l : list Z) : Prop := s = [] /\ l = [] \/ digs b s l \/ exists t, s = 95 :: t /\ digs b t l.
Lemma digs_loose b s l : digs b s l -> loose b s l.
Proof. induction 1; repeat (constructor; auto). Qed.
Lemma loose_det b s l : loose b s l -> forall l', loose b s l' -> l = l'.
Proof.
  induction 1 as [|s l _ IH|c d s l D _ IH]; intros l' H'.
  - now inversion H'.
  - inversion H'; subst; [now apply IH|]. exfalso. eapply dig_95; eauto.
  - inversion H'; subst; [exfalso; eapply dig_95; eauto|]. f_equal; [eapply dig_det; eauto|now apply IH].
Qed.
Lemma digs_cons b c d s l : dig b c d -> loose b s l -> digs b (c :: s) (d :: l) <-> tailed b s l.
Proof.
  intros D L. split.
  - intros H. inversion H; subst; unfold tailed; eauto.
  - intros [[-> ->]|[H|(t & -> & H)]]; [now constructor|now apply digs_more|now apply digs_under].
Qed.
Lemma digs_not_under b s l : ~ digs b (95 :: s) l.
Proof. intros H. inversion H; subst; eapply dig_95; eauto. Qed.
Lemma under_digit hex b saw c d s : (b <= 10 /\ hex = false \/ b = 16 /\ hex = true) -> dig b c d -> under_loop hex saw (c :: s) = under_loop hex 1 s.
Proof.
  intros HB D. cbn [under_loop].
  replace (((48 <=? c) && (c <=? 57)) || (hex && ((97 <=? lower c) && (lower c <=? 102)))) with true; [reflexivity|]. symmetry.
  destruct D as [c H L|c H L|c H L].
  - rewrite (proj2 (Z.leb_le 48 c)), (proj2 (Z.leb_le c 57)) by lia. reflexivity.
  - destruct HB as [[B _]|[-> ->]]; [lia|]. rewrite (lower_low c H). rewrite (proj2 (Z.leb_le 97 c)), (proj2 (Z.leb_le c 102)) by lia. apply orb_true_r.
  - destruct HB as [[B _]|[-> ->]]; [lia|]. rewrite (lower_up c H). rewrite (proj2 (Z.leb_le 97 _)), (proj2 (Z.leb_le _ 102)) by lia. apply orb_true_r.
Qed.
Lemma under_95 hex saw s : under_loop hex saw (95 :: s) = if saw =? 1 then under_loop hex 2 s else false.
Proof. cbn [under_loop]. change ((48 <=? 95) && (95 <=? 57)) with false. change ((97 <=? lower 95) && (lower 95 <=? 102)) with false. rewrite andb_false_r. reflexivity. Qed.
Lemma under_spec hex b : (b <= 10 /\ hex = false \/ b = 16 /\ hex = true) -> forall s l, loose b s l ->
  (under_loop hex 1 s = true <-> tailed b s l) /\ (under_loop hex 2 s = true <-> digs b s l) /\ (under_loop hex 0 s = true <-> digs b s l \/ s = []).
Proof.
  intros HB s l H. induction H as [|s l L IH|c d s l D L IH].
  - split; [|split]; cbn; (split; [intros H; try discriminate|intros H]); auto; try solve [left; auto]; inversion H.
  - rewrite !under_95. cbn [Z.eqb Pos.eqb]. destruct IH as (_ & IH & _). split; [|split].
    + rewrite IH. split; [intros H; right; right; eauto|intros [[H _]|[H|(t & H & H')]]; [discriminate|destruct (digs_not_under _ _ _ H)|]]. now inversion H; subst.
    + split; [discriminate|intros H; destruct (digs_not_under _ _ _ H)].
    + split; [discriminate|intros [H|H]; [destruct (digs_not_under _ _ _ H)|discriminate]].
  - rewrite !(under_digit hex b _ c d s HB D). destruct IH as (IH & _). rewrite IH.
    assert (N : c <> 95) by (intros ->; eapply dig_95; eauto).
    rewrite <- (digs_cons b c d s l D L). split; [|split].
    + split; [intros H; right; left; exact H|intros [[H _]|[H|(t & H & _)]]; [discriminate|exact H|congruence]].
    + reflexivity.
    + split; [now left|intros [H|H]; [exact H|discriminate]].
Qed.
Lemma no_under b s l : loose b s l -> existsb (Z.eqb 95) s = false -> s = [] /\ l = [] \/ digs b s l.
Proof.
  intros H. induction H as [|s l L IH|c d s l D L IH]; intros E; [now left|cbn in E; discriminate|].
  cbn [existsb] in E. apply orb_false_iff in E as [_ E]. right. apply (digs_cons b c d s l D L). destruct (IH E) as [K|K]; [left; exact K|right; left; exact K].
Qed.

(* ---------- ParseUint ---------- *)
Lemma under_ok hex b s l w : (b <= 10 /\ hex = false \/ b = 16 /\ hex = true) -> loose b s l -> existsb (Z.eqb 95) s = false -> w = 0 \/ w = 1 -> under_loop hex w s = true.
Proof.
  intros HB L E W. destruct (under_spec hex b HB s l L) as (U1 & _ & U0). destruct (no_under b s l L E) as [K|K], W as [-> | ->].
  - apply U0. now right. - apply U1. now left. - apply U0. now left. - apply U1. right. now left.
Qed.
Lemma unsigned_nonneg s n : unsigned s n -> 0 <= n.
Proof.
  intros H. destruct H as [c s l H _|s l H|p b s l P H|p b s l P H]; apply digs_loose in H; eapply amount_nonneg; try exact H; try lia; destruct P; lia.
Qed.
Lemma uint_of_digs b s l : 0 < b -> loose b s l -> amount b l < 2 ^ 64 -> uint_digits b 0 s = Some (amount b l).
Proof. intros Hb L H. rewrite (some_uint b Hb s l L 0); [f_equal; ring|lia|lia]. Qed.
Lemma letter_lower p b : base_letter p b -> (lower p =? 98) = (b =? 2) /\ (lower p =? 111) = (b =? 8) /\ (lower p =? 120) = (b =? 16).
Proof. intros H. destruct H; repeat split; reflexivity. Qed.
Lemma lower_letter p x : (x = 98 \/ x = 111 \/ x = 120) -> lower p = x -> base_letter p (if x =? 98 then 2 else if x =? 111 then 8 else 16).
Proof.
  intros HX H. unfold lower in H. destruct (lor_cases p) as [F|F]; rewrite F in H.
  - destruct HX as [-> | [-> | ->]]; subst p; constructor.
  - assert (p = x - 32) by lia. subst p. destruct HX as [-> | [-> | ->]]; constructor.
Qed.
Lemma not_octal p b : base_letter p b -> forall d, ~ dig 8 p d.
Proof. intros H d D. destruct H; inversion D; lia. Qed.
Lemma ParseUint_spec s v : ParseUint0 s = Some v <-> unsigned s v /\ v < 2 ^ 64.
Proof.
  split.
  - intros H. unfold ParseUint0 in H. destruct s as [|z s]; [discriminate|].
    destruct (uint_digits (fst (base_of (z :: s))) 0 (snd (base_of (z :: s)))) as [n|] eqn:E; [|discriminate].
    destruct (existsb (Z.eqb 95) (z :: s) && negb (underscoreOK (z :: s))) eqn:U; [discriminate|]. inversion H; subst n; clear H.
    assert (U' : existsb (Z.eqb 95) (z :: s) = false \/ underscoreOK (z :: s) = true).
    { apply andb_false_iff in U as [U|U]; [now left|right]. now apply negb_false_iff in U. }
    clear U. unfold base_of in E. destruct (Z.eqb_spec z 48) as [->|NZ].
    + (* after a 0 *)
      assert (CASE : (exists p b t, s = p :: t /\ t <> [] /\ base_letter p b /\ uint_digits b 0 t = Some v /\ underscoreOK (48 :: s) = under_loop (b =? 16) 1 t) \/
                     uint_digits 8 0 s = Some v /\ (forall p b t, s = p :: t -> ~ base_letter p b)).
      { destruct s as [|p [|x t]].
        - right. split; [exact E|discriminate].
        - cbn [fst snd] in E. right. split; [exact E|]. intros p' b t K BL. inversion K; subst. cbn [uint_digits] in E.
          destruct (p' =? 95) eqn:E95; [apply Z.eqb_eq in E95; subst; inversion BL|].
          destruct (digit_val p') as [d|] eqn:ED; [|discriminate]. destruct (Z.leb_spec 8 d); [discriminate|].
          eapply not_octal; [exact BL|apply digit_val_dig; eauto].
        - unfold underscoreOK. cbn [Z.eqb Pos.eqb andb].
          destruct (Z.eqb_spec (lower p) 98) as [L|L]; [|destruct (Z.eqb_spec (lower p) 111) as [L1|L1]; [|destruct (Z.eqb_spec (lower p) 120) as [L2|L2]]].
          + left. exists p, 2, (x :: t). split; [reflexivity|]. split; [discriminate|]. split; [exact (lower_letter p 98 (or_introl eq_refl) L)|]. split; [exact E|].
            rewrite L. reflexivity.
          + left. exists p, 8, (x :: t). split; [reflexivity|]. split; [discriminate|]. split; [exact (lower_letter p 111 (or_intror (or_introl eq_refl)) L1)|]. split; [exact E|].
            rewrite L1. reflexivity.
          + left. exists p, 16, (x :: t). split; [reflexivity|]. split; [discriminate|]. split; [exact (lower_letter p 120 (or_intror (or_intror eq_refl)) L2)|]. split; [exact E|].
            reflexivity.
          + right. split; [exact E|]. intros p' b t' K BL. inversion K; subst p' t'. apply letter_lower in BL as BL'. destruct BL; cbn in *; congruence. }
      destruct CASE as [(p & b & t & -> & NT & BL & EU & EO)|[EU NP]].
      * assert (HB : b <= 10 /\ (b =? 16) = false \/ b = 16 /\ (b =? 16) = true) by (destruct BL; cbn; lia).
        assert (Hb : 0 < b) by (destruct BL; lia).
        destruct (uint_some b Hb t 0 v) as (l & L & EV & LT); [lia|exact EU|]. split; [|apply LT; reflexivity].
        assert (UT : under_loop (b =? 16) 1 t = true).
        { destruct U' as [U'|U']; [|now rewrite <- EO]. cbn [existsb] in U'. apply orb_false_iff in U' as [_ U']. apply orb_false_iff in U' as [_ U'].
          eapply under_ok; eauto. }
        rewrite Z.mul_0_l, Z.add_0_l in EV. subst v. apply (proj1 (under_spec (b =? 16) b HB t l L)) in UT.
        destruct UT as [[K _]|[K|(t' & -> & K)]]; [contradiction|now apply un_base|now apply un_base_under].
      * destruct (uint_some 8 ltac:(lia) s 0 v) as (l & L & EV & LT); [lia|exact EU|]. split; [|apply LT; reflexivity].
        assert (D0 : dig 8 48 0) by (apply (dig_dec 8 48); lia).
        assert (UT : under_loop false 0 (48 :: s) = true).
        { destruct U' as [U'|U'].
          - eapply (under_ok false 8); [left; lia|apply lo_dig; [exact D0|exact L]|exact U'|now left].
          - unfold underscoreOK in U'. destruct s as [|p t]; [exact U'|]. cbn [Z.eqb Pos.eqb andb] in U'.
            destruct ((lower p =? 98) || (lower p =? 111) || (lower p =? 120)) eqn:EP; [|exact U']. exfalso.
            apply orb_true_iff in EP as [EP|EP]; [apply orb_true_iff in EP as [EP|EP]|]; apply Z.eqb_eq in EP.
            + eapply NP; [reflexivity|exact (lower_letter p 98 (or_introl eq_refl) EP)].
            + eapply NP; [reflexivity|exact (lower_letter p 111 (or_intror (or_introl eq_refl)) EP)].
            + eapply NP; [reflexivity|exact (lower_letter p 120 (or_intror (or_intror eq_refl)) EP)]. }
        apply (proj2 (proj2 (under_spec false 8 ltac:(left; lia) (48 :: s) (0 :: l) (lo_dig 8 48 0 s l D0 L)))) in UT.
        destruct UT as [UT|UT]; [|discriminate]. rewrite Z.mul_0_l, Z.add_0_l in EV. subst v.
        replace (amount 8 l) with (amount 8 (0 :: l)) by (cbn [amount]; ring). now apply un_oct.
    + (* decimal *)
      cbn [fst snd] in E. destruct (uint_some 10 ltac:(lia) (z :: s) 0 v) as (l & L & EV & LT); [lia|exact E|]. split; [|apply LT; reflexivity].
      assert (UT : under_loop false 0 (z :: s) = true).
      { destruct U' as [U'|U']; [eapply (under_ok false 10); [left; lia|exact L|exact U'|now left]|].
        unfold underscoreOK in U'. rewrite (proj2 (Z.eqb_neq z 48) NZ) in U'. destruct s; exact U'. }
      apply (proj2 (proj2 (under_spec false 10 ltac:(left; lia) _ _ L))) in UT. destruct UT as [UT|UT]; [|discriminate].
      rewrite Z.mul_0_l, Z.add_0_l in EV. subst v. now apply un_dec.
  - intros [H LT]. destruct H as [c s l H NZ|s l H|p b s l BL H|p b s l BL H].
    + unfold ParseUint0, base_of. rewrite (proj2 (Z.eqb_neq c 48) NZ). cbn [fst snd]. pose proof (digs_loose _ _ _ H) as L.
      rewrite (uint_of_digs 10 _ l ltac:(lia) L LT).
      replace (underscoreOK (c :: s)) with true; [now rewrite andb_false_r|]. symmetry. unfold underscoreOK. rewrite (proj2 (Z.eqb_neq c 48) NZ). cbn [andb].
      assert (U : under_loop false 0 (c :: s) = true) by (apply (under_spec false 10 ltac:(left; lia) _ _ L); now left). destruct s; exact U.
    + assert (D0 : dig 8 48 0) by (apply (dig_dec 8 48); lia). pose proof (digs_loose _ _ _ H) as L.
      assert (EB : base_of (48 :: s) = (8, s) /\ underscoreOK (48 :: s) = under_loop false 0 (48 :: s)).
      { unfold base_of, underscoreOK. cbn [Z.eqb Pos.eqb andb]. destruct s as [|p t]; [split; reflexivity|].
        assert (NL : (lower p =? 98) = false /\ (lower p =? 111) = false /\ (lower p =? 120) = false).
        { assert (ND : forall bb, ~ base_letter p bb).
          { intros bb BL. inversion L; subst. match goal with K : loose 8 (p :: t) _ |- _ => inversion K; subst end; [inversion BL|]. eapply not_octal; eauto. }
          split; [|split]; apply Z.eqb_neq; intros K; eapply ND.
          - exact (lower_letter p 98 (or_introl eq_refl) K).
          - exact (lower_letter p 111 (or_intror (or_introl eq_refl)) K).
          - exact (lower_letter p 120 (or_intror (or_intror eq_refl)) K). }
        destruct NL as (-> & -> & ->). destruct t; split; reflexivity. }
      destruct EB as [EB EO]. unfold ParseUint0. rewrite EB, EO. cbn [fst snd].
      assert (UT : under_loop false 0 (48 :: s) = true) by (apply (under_spec false 8 ltac:(left; lia) _ _ L); now left).
      rewrite UT. cbn [negb]. rewrite andb_false_r.
      inversion L; subst. match goal with D : dig 8 48 ?d |- _ => pose proof (dig_det 8 48 d 0 D D0); subst d end.
      cbn [amount] in LT |- *. rewrite Z.mul_0_l, Z.add_0_l in LT |- *. erewrite uint_of_digs; [reflexivity|lia|eassumption|exact LT].
    + assert (Hb : 0 < b) by (destruct BL; lia). pose proof (digs_loose _ _ _ H) as L.
      assert (HB : b <= 10 /\ (b =? 16) = false \/ b = 16 /\ (b =? 16) = true) by (destruct BL; cbn; lia).
      assert (NE : s <> []) by (inversion H; discriminate).
      assert (EB : base_of (48 :: p :: s) = (b, s) /\ underscoreOK (48 :: p :: s) = under_loop (b =? 16) 1 s).
      { destruct s as [|x s']; [contradiction|]. destruct BL; split; reflexivity. }
      destruct EB as [EB EO]. unfold ParseUint0. rewrite EB, EO. cbn [fst snd].
      rewrite (uint_of_digs b s l Hb L LT).
      replace (under_loop (b =? 16) 1 s) with true; [now rewrite andb_false_r|]. symmetry. apply (under_spec (b =? 16) b HB s l L). right. now left.
    + assert (Hb : 0 < b) by (destruct BL; lia). pose proof (lo_under _ _ _ (digs_loose _ _ _ H)) as L.
      assert (HB : b <= 10 /\ (b =? 16) = false \/ b = 16 /\ (b =? 16) = true) by (destruct BL; cbn; lia).
      assert (NE : s <> []) by (inversion H; discriminate).
      assert (EB : base_of (48 :: p :: 95 :: s) = (b, 95 :: s) /\ underscoreOK (48 :: p :: 95 :: s) = under_loop (b =? 16) 1 (95 :: s)).
      { destruct BL; split; reflexivity. }
      destruct EB as [EB EO]. unfold ParseUint0. rewrite EB, EO. cbn [fst snd].
      rewrite (uint_of_digs b (95 :: s) l Hb L LT).
      replace (under_loop (b =? 16) 1 (95 :: s)) with true; [now rewrite andb_false_r|]. symmetry. apply (under_spec (b =? 16) b HB _ l L). right. right. eauto.
Qed.
Lemma unsigned_sign s n : ~ unsigned (45 :: s) n /\ ~ unsigned (43 :: s) n.
Proof.
  split; intros H; inversion H; subst; match goal with D : digs _ _ _ |- _ => inversion D; subst end; match goal with D : dig _ _ _ |- _ => inversion D; lia end.
Qed.
Lemma ParseInt_spec s v : ParseInt0 s = Some v <-> written_number s v.
Proof.
  split.
  - intros H. unfold ParseInt0 in H. destruct s as [|c s]; [discriminate|].
    destruct (Z.eqb_spec c 45) as [->|N1].
    + destruct (ParseUint0 s) as [n|] eqn:E; [|discriminate]. destruct (Z.ltb_spec (2 ^ 63) n); [discriminate|]. inversion H; subst. apply ParseUint_spec in E as [E _]. now apply wn_minus.
    + destruct (Z.eqb_spec c 43) as [->|N2].
      * destruct (ParseUint0 s) as [n|] eqn:E; [|discriminate]. destruct (Z.leb_spec (2 ^ 63) n); [discriminate|]. inversion H; subst. apply ParseUint_spec in E as [E _]. now apply wn_plus.
      * destruct (ParseUint0 (c :: s)) as [n|] eqn:E; [|discriminate]. destruct (Z.leb_spec (2 ^ 63) n); [discriminate|]. inversion H; subst. apply ParseUint_spec in E as [E _]. now apply wn_plain.
  - intros H. unfold ParseInt0. destruct H as [s n H L|s n H L|s n H L].
    + destruct s as [|c s]; [inversion H|].
      destruct (Z.eqb_spec c 45) as [->|_]; [destruct (proj1 (unsigned_sign s n) H)|].
      destruct (Z.eqb_spec c 43) as [->|_]; [destruct (proj2 (unsigned_sign s n) H)|].
      rewrite (proj2 (ParseUint_spec _ n)); [|split; [exact H|lia]]. now rewrite (proj2 (Z.leb_gt _ _) L).
    + cbn [Z.eqb Pos.eqb]. rewrite (proj2 (ParseUint_spec _ n)); [|split; [exact H|lia]]. now rewrite (proj2 (Z.leb_gt _ _) L).
    + cbn [Z.eqb Pos.eqb]. rewrite (proj2 (ParseUint_spec _ n)); [|split; [exact H|lia]]. now rewrite (proj2 (Z.ltb_ge _ _) L).
Qed.
