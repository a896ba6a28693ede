(* Reading and writing textual addresses.                                      *)
From Verif Require Import Base ProofBase ModelBencode SpecBencode ProofBencode ModelMsg ModelTracker SpecTracker ModelManager SpecManager ProofManager ProofManager2 ProofManager3 ProofTracker2 ModelAddr SpecAddr.

(* ---------- dotted decimal ---------- *)
Lemma decval_snoc s c : decval (s ++ [c]) = decval s * 10 + (c - 48).
Proof. unfold decval. rewrite fold_left_app. reflexivity. Qed.
Lemma decval_pos s : digits s -> 0 <= decval s.
Proof.
  induction s as [|c s IH] using rev_ind; intros H; [cbn; lia|]. apply Forall_app in H as [H1 H2]. inversion H2; subst. specialize (IH H1). rewrite decval_snoc. unfold digit in *. lia.
Qed.
Lemma decval_prefix s t : digits (s ++ t) -> decval s <= decval (s ++ t).
Proof.
  revert s. induction t as [|c t IH] using rev_ind; intros s H; [rewrite app_nil_r; lia|]. rewrite app_assoc in *. apply Forall_app in H as [H1 H2]. inversion H2; subst.
  specialize (IH s H1). rewrite decval_snoc. pose proof (decval_pos _ H1). unfold digit in *. lia.
Qed.
Lemma dots_inv w ns : dots w ns -> exists h n t ns', number h n /\ ns = n :: ns' /\ ((w = h /\ t = [] /\ ns' = []) \/ (w = h ++ 46 :: t /\ dots t ns')).
Proof. intros H. destruct H; [exists s, n, [], []; auto 10|exists s, n, r, ns; auto 10]. Qed.
Lemma dots_nonempty w ns : dots w ns -> w <> [].
Proof. intros H. destruct H as [s n (_ & H & _)|s n r ns (_ & H & _) _]; [exact H|]. destruct s; [contradiction|discriminate]. Qed.
(* the digits at the front *)
Lemma prefix_digits a b h t : digits a -> digits h -> (t = [] \/ exists t', t = 46 :: t') -> a ++ b = h ++ t -> exists b', h = a ++ b' /\ b = b' ++ t.
Proof.
  revert h. induction a as [|x a IH]; intros h Ha Hh Ht E.
  - exists h. auto.
  - inversion Ha as [|? ? Hx Ha']; subst. destruct h as [|y h].
    + destruct Ht as [->|(t' & ->)]; [discriminate E|]. injection E as -> _. unfold digit in Hx. lia.
    + injection E as -> E. inversion Hh; subst. destruct (IH h Ha' H2 Ht E) as (b' & -> & ->). exists b'. auto.
Qed.
Definition field_ok (cur : bytes) : Prop := cur = [] \/ number cur (decval cur).
Definition prev_ok (cur : bytes) (prev : option Z) : Prop := match prev with None => cur = [] | Some p => (p = 46 /\ cur = []) \/ (p <> 46 /\ cur <> []) end.

Lemma v4_loop_iff : forall s cur prev fields out, field_ok cur -> prev_ok cur prev -> (cur = [] -> s <> []) -> (length fields <= 3)%nat ->
  (v4_loop s prev (decval cur) (zlen cur) fields = Some out <-> exists ns, dots (cur ++ s) ns /\ out = fields ++ ns /\ length out = 4%nat).
Proof.
  induction s as [|c s IH]; intros cur prev fields out Hc Hp Hn Hl; cbn [v4_loop].
  - rewrite app_nil_r. destruct Hc as [->|Hc]; [now destruct Hn|]. split.
    + destruct (Z.ltb_spec (zlen fields) 3); [discriminate|]. intros [= <-]. exists [decval cur]. split; [now constructor|]. split; [reflexivity|]. rewrite app_length. unfold zlen in *. cbn. lia.
    + intros (ns & Hd & -> & L). apply dots_inv in Hd as (h & n & t & ns' & Hh & -> & [(-> & _ & ->)|(E & _)]).
      * rewrite app_length in L. cbn in L. replace (zlen fields <? 3) with false by (unfold zlen; lia). now destruct Hh as (_ & _ & _ & -> & _).
      * exfalso. destruct Hc as (Hd & _). rewrite E in Hd. apply Forall_app in Hd as [_ Hd]. inversion Hd; subst. unfold digit in *. lia.
  - unfold is_dec. assert (Hdc : digits cur) by (destruct Hc as [->|(H & _)]; [constructor|exact H]).
    destruct (Z.leb_spec 48 c); [destruct (Z.leb_spec c 57)|]; cbn [andb].
    + assert (Hdig : digits (cur ++ [c])) by (apply Forall_app; split; [exact Hdc|constructor; [unfold digit; lia|constructor]]).
      (* the first number of any reading begins with cur and c *)
      assert (Pre : forall ns, dots (cur ++ c :: s) ns -> exists h b, number h (decval h) /\ h = (cur ++ [c]) ++ b).
      { intros ns Hd. apply dots_inv in Hd as (h & n & t & ns' & Hh & -> & Ht). replace (cur ++ c :: s) with ((cur ++ [c]) ++ s) in Ht by now rewrite <- app_assoc.
        assert (X : exists t', (t' = [] \/ exists u, t' = 46 :: u) /\ (cur ++ [c]) ++ s = h ++ t').
        { destruct Ht as [(E & -> & _)|(E & _)]; [exists []; rewrite app_nil_r; auto|exists (46 :: t); eauto]. }
        destruct X as (t' & X1 & X2). pose proof Hh as (Hdh & _ & _ & En & _). subst n. destruct (prefix_digits _ _ _ _ Hdig Hdh X1 X2) as (b & E & _). exists h, b. auto. }
      destruct ((zlen cur =? 1) && (decval cur =? 0)) eqn:E1.
      { split; [discriminate|]. intros (ns & Hd & _). exfalso. destruct (Pre ns Hd) as (h & b & (_ & _ & Hz & _) & ->).
        assert (cur = [48]) as ->. { apply andb_prop in E1 as [E1 E2]. apply Z.eqb_eq in E1, E2. destruct cur as [|x [|y cur]].
          - discriminate E1.
          - change (decval [x]) with (0 * 10 + (x - 48)) in E2. f_equal. lia.
          - rewrite !zlen_cons in E1. pose proof (zlen_nonneg cur). lia. }
        cbn in Hz. specialize (Hz eq_refl). discriminate Hz. }
      replace (decval cur * 10 + (c - 48)) with (decval (cur ++ [c])) by apply decval_snoc.
      destruct (Z.ltb_spec 255 (decval (cur ++ [c]))) as [Hb|Hb].
      { split; [discriminate|]. intros (ns & Hd & _). exfalso. destruct (Pre ns Hd) as (h & b & (Hdh & _ & _ & _ & Hlt) & ->). pose proof (decval_prefix (cur ++ [c]) b Hdh). lia. }
      replace (zlen cur + 1) with (zlen (cur ++ [c])) by (autorewrite with zlen; lia).
      replace (cur ++ c :: s) with ((cur ++ [c]) ++ s) by now rewrite <- app_assoc.
      apply IH.
      * right. split; [exact Hdig|]. split; [destruct cur; discriminate|]. split; [|split; [reflexivity|lia]].
        intros Hh. destruct cur as [|x cur]; [cbn in *; now subst|]. cbn in Hh. subst x. destruct Hc as [Hc|(_ & _ & Hz & _)]; [discriminate|]. cbn in Hz. rewrite (Hz eq_refl) in E1. discriminate E1.
      * right. split; [lia|destruct cur; discriminate].
      * destruct cur; discriminate.
      * exact Hl.
    + (* c > 57 *)
      replace (c =? 46) with false by lia. split; [discriminate|]. intros (ns & Hd & _). exfalso. apply dots_inv in Hd as (h & n & t & ns' & (Hh & _) & -> & Ht).
      assert (X : exists t', (t' = [] \/ exists u, t' = 46 :: u) /\ cur ++ c :: s = h ++ t').
      { destruct Ht as [(E & -> & _)|(E & _)]; [exists []; rewrite app_nil_r; auto|exists (46 :: t); eauto]. }
      destruct X as (t' & X1 & X2). destruct (prefix_digits _ _ _ _ Hdc Hh X1 X2) as ([|y b] & -> & E); cbn in E.
      * destruct X1 as [->|(u & ->)]; [discriminate|]. injection E as -> _. lia.
      * injection E as <- _. apply Forall_app in Hh as [_ Hh]. inversion Hh; subst. unfold digit in *. lia.
    + (* c < 48 *)
      assert (After : forall ns, dots (cur ++ c :: s) ns -> c = 46 /\ cur <> [] /\ exists n ns', number cur n /\ ns = n :: ns' /\ dots s ns').
      { intros ns Hd. apply dots_inv in Hd as (h & n & t & ns' & Hh & -> & Ht). pose proof Hh as (Hdh & Hne & _).
        destruct Ht as [(E & -> & ->)|(E & Ht)].
        - exfalso. rewrite <- E in Hdh. apply Forall_app in Hdh as [_ Hdh]. inversion Hdh; subst. unfold digit in *. lia.
        - destruct (prefix_digits cur (c :: s) h (46 :: t) Hdc Hdh (or_intror (ex_intro _ t eq_refl)) E) as ([|y b] & E1 & E2); cbn in E2.
          + rewrite app_nil_r in E1. injection E2 as -> ->. subst h. split; [reflexivity|]. split; [exact Hne|]. exists n, ns'. auto.
          + exfalso. injection E2 as <- _. subst h. apply Forall_app in Hdh as [_ Hdh]. inversion Hdh; subst. unfold digit in *. lia. }
      destruct (Z.eqb_spec c 46) as [->|Hc46].
      2:{ split; [discriminate|]. intros (ns & Hd & _). destruct (After ns Hd) as (E & _). now subst. }
      destruct (match prev with Some p => p =? 46 | None => true end || match s with [] => true | _ => false end) eqn:Eb.
      { split; [discriminate|]. intros (ns & Hd & _). exfalso. destruct (After ns Hd) as (_ & Hne & n & ns' & _ & _ & Hs). apply orb_prop in Eb as [Eb|Eb].
        - destruct prev as [p|]; cbn in Hp; [destruct Hp as [(_ & E)|(E & _)]; [contradiction|lia]|contradiction].
        - destruct s; [|discriminate]. now apply dots_nonempty in Hs. }
      apply orb_false_elim in Eb as [Eb1 Eb2].
      assert (Hcur : number cur (decval cur)).
      { destruct Hc as [->|Hc]; [|exact Hc]. exfalso. destruct prev as [p|]; [|discriminate]. destruct Hp as [(E & _)|(_ & E)]; [lia|now apply E]. }
      destruct (Z.eqb_spec (zlen fields) 3) as [E3|E3].
      { split; [discriminate|]. intros (ns & Hd & -> & L). exfalso. destruct (After ns Hd) as (_ & _ & n & ns' & _ & -> & Hs). destruct Hs; rewrite app_length in L; cbn in L; unfold zlen in E3; lia. }
      change (v4_loop s (Some 46) 0 0 (fields ++ [decval cur])) with (v4_loop s (Some 46) (decval []) (zlen (@nil Z)) (fields ++ [decval cur])).
      rewrite (IH [] (Some 46) (fields ++ [decval cur]) out); cycle 1.
      { now left. } { now left. } { intros _. destruct s; [discriminate|]. discriminate. } { rewrite app_length. cbn. unfold zlen in E3. lia. }
      cbn [app]. split.
      * intros (ns & Hd & -> & L). exists (decval cur :: ns). split; [now apply (do_more cur (decval cur) s ns)|]. rewrite <- app_assoc in *. auto.
      * intros (ns & Hd & -> & L). destruct (After ns Hd) as (_ & _ & n & ns' & (_ & _ & _ & -> & _) & -> & Hs). exists ns'. split; [exact Hs|]. rewrite <- app_assoc. auto.
Qed.
Lemma v4_iff s out : parseIPv4Fields s = Some out <-> exists a b c d, out = [a; b; c; d] /\ quad s a b c d.
Proof.
  unfold parseIPv4Fields, quad. destruct s as [|c0 s0].
  { split; [discriminate|]. intros (a & b & c & d & _ & H). now apply dots_nonempty in H. }
  change (v4_loop (c0 :: s0) None 0 0 []) with (v4_loop (c0 :: s0) None (decval []) (zlen (@nil Z)) []).
  rewrite (v4_loop_iff (c0 :: s0) [] None [] out); [|now left|reflexivity|discriminate|cbn; lia]. cbn [app]. split.
  - intros (ns & Hd & -> & L). destruct ns as [|a [|b [|c [|d [|? ?]]]]]; try discriminate L. exists a, b, c, d. auto.
  - intros (a & b & c & d & -> & Hd). exists [a; b; c; d]. auto.
Qed.

(* ---------- groups ---------- *)
Definition hexval (ds : list Z) : Z := fold_left (fun a x => a * 16 + x) ds 0.
Lemma hex_digit_iff c x : hex_digit c = Some x <-> hexit c x.
Proof.
  unfold hex_digit, is_dec. split.
  - destruct ((48 <=? c) && (c <=? 57)) eqn:E1; [intros [= <-]; apply hx_dec; lia|].
    destruct ((97 <=? c) && (c <=? 102)) eqn:E2; [intros [= <-]; replace (c - 97 + 10) with (c - 87) by lia; apply hx_low; lia|].
    destruct ((65 <=? c) && (c <=? 70)) eqn:E3; [intros [= <-]; replace (c - 65 + 10) with (c - 55) by lia; apply hx_up; lia|discriminate].
  - intros H. destruct H.
    + now replace ((48 <=? c) && (c <=? 57)) with true by lia.
    + replace ((48 <=? c) && (c <=? 57)) with false by lia. replace ((97 <=? c) && (c <=? 102)) with true by lia. f_equal. lia.
    + replace ((48 <=? c) && (c <=? 57)) with false by lia. replace ((97 <=? c) && (c <=? 102)) with false by lia. replace ((65 <=? c) && (c <=? 70)) with true by lia. f_equal. lia.
Qed.
Lemma hexit_range c x : hexit c x -> 0 <= x < 16 /\ c <> 46 /\ c <> 58 /\ c <> 37.
Proof. intros H. destruct H; lia. Qed.
Lemma hexval_snoc ds x : hexval (ds ++ [x]) = hexval ds * 16 + x.
Proof. unfold hexval. now rewrite fold_left_app. Qed.
Lemma hexval_range h ds : Forall2 hexit h ds -> 0 <= hexval ds < 16 ^ zlen h.
Proof.
  revert ds. induction h as [|c h IH] using rev_ind; intros ds H.
  - inversion H; subst. cbn. lia.
  - apply Forall2_app_inv_l in H as (d1 & d2 & H1 & H2 & ->). inversion H2 as [|? y ? ? Hy Hn]; subst. inversion Hn; subst. rewrite hexval_snoc. specialize (IH _ H1). apply hexit_range in Hy as (Hy & _).
    rewrite zlen_app. change (zlen [c]) with 1. rewrite Z.pow_add_r by (pose proof (zlen_nonneg h); lia). lia.
Qed.
Definition stops_hex (r : bytes) : Prop := match r with [] => True | c :: _ => hex_digit c = None end.
Lemma hex_loop_sound : forall s cur ds acc off r, Forall2 hexit cur ds -> (length cur <= 4)%nat -> hex_loop s (zlen cur) (hexval ds) = Some (acc, off, r) ->
  exists h es, cur ++ s = h ++ r /\ Forall2 hexit h es /\ acc = hexval es /\ off = zlen h /\ (length h <= 4)%nat /\ stops_hex r /\ (exists t, h = cur ++ t).
Proof.
  induction s as [|c s IH]; intros cur ds acc off r Hc Hl H; cbn [hex_loop] in H.
  - injection H as <- <- <-. exists cur, ds. repeat split; auto. exists []. now rewrite app_nil_r.
  - destruct (hex_digit c) as [x|] eqn:E.
    + destruct (Z.ltb_spec 3 (zlen cur)); [discriminate|]. destruct (65535 <? hexval ds * 16 + x); [discriminate|].
      rewrite <- hexval_snoc in H. replace (zlen cur + 1) with (zlen (cur ++ [c])) in H by (autorewrite with zlen; lia).
      apply IH in H as (h & es & E1 & E2 & E3 & E4 & E5 & E6 & t & E7).
      * exists h, es. rewrite <- app_assoc in E1. cbn in E1. repeat split; auto. exists ([c] ++ t). now rewrite app_assoc.
      * apply Forall2_app; [exact Hc|]. constructor; [now apply hex_digit_iff|constructor].
      * rewrite app_length. unfold zlen in *. cbn. lia.
    + injection H as <- <- <-. exists cur, ds. repeat split; auto. exists []. now rewrite app_nil_r.
Qed.
Lemma hex_loop_complete : forall s cur ds es r, Forall2 hexit cur ds -> Forall2 hexit s es -> (length cur + length s <= 4)%nat -> stops_hex r ->
  hex_loop (s ++ r) (zlen cur) (hexval ds) = Some (hexval (ds ++ es), zlen (cur ++ s), r).
Proof.
  induction s as [|c s IH]; intros cur ds es r Hc Hs Hl Hr.
  - inversion Hs; subst. rewrite !app_nil_r. cbn [app]. destruct r as [|y r]; [reflexivity|]. cbn [hex_loop]. cbn in Hr. now rewrite Hr.
  - inversion Hs as [|? x ? es' Hx Hs']; subst. cbn [app hex_loop]. rewrite (proj2 (hex_digit_iff c x) Hx). cbn [length] in Hl.
    replace (3 <? zlen cur) with false by (unfold zlen; lia).
    assert (Hcx : Forall2 hexit (cur ++ [c]) (ds ++ [x])) by (apply Forall2_app; [exact Hc|constructor; [exact Hx|constructor]]).
    rewrite <- hexval_snoc. pose proof (hexval_range _ _ Hcx) as R. assert (zlen (cur ++ [c]) <= 4) as L by (unfold zlen; rewrite app_length; cbn; lia).
    assert (16 ^ zlen (cur ++ [c]) <= 16 ^ 4) by (apply Z.pow_le_mono_r; lia).
    replace (65535 <? hexval (ds ++ [x])) with false by lia. replace (zlen cur + 1) with (zlen (cur ++ [c])) by (autorewrite with zlen; lia).
    rewrite (IH (cur ++ [c]) (ds ++ [x]) es' r Hcx Hs'); [|rewrite app_length; cbn; lia|exact Hr]. now rewrite <- !app_assoc.
Qed.
Lemma group_hex s n r : group s n -> stops_hex r -> hex_loop (s ++ r) 0 0 = Some (n, zlen s, r).
Proof.
  intros (ds & H & L & ->) Hr. pose proof (hex_loop_complete s [] [] ds r (Forall2_nil _) H) as G. cbn [app length] in G. apply G; [lia|exact Hr].
Qed.
Lemma hex_group s acc off r : hex_loop s 0 0 = Some (acc, off, r) -> exists h, s = h ++ r /\ off = zlen h /\ stops_hex r /\ (off <> 0 -> group h acc).
Proof.
  intros H. change (hex_loop s 0 0) with (hex_loop s (zlen (@nil Z)) (hexval [])) in H.
  apply hex_loop_sound in H as (h & es & E1 & E2 & E3 & E4 & E5 & E6 & _); [|constructor|cbn; lia]. exists h. cbn [app] in E1. repeat split; auto.
  intros N. exists es. split; [exact E2|]. split; [|exact E3]. rewrite E4 in N. unfold zlen in N. lia.
Qed.
Lemma group_head s n : group s n -> exists c s', s = c :: s' /\ hex_digit c <> None.
Proof.
  intros (ds & H & L & _). destruct H as [|c x s ds Hx H]; [cbn in L; lia|]. exists c, s. split; [reflexivity|]. apply hex_digit_iff in Hx. congruence.
Qed.
Lemma group_range s n : group s n -> 0 <= n < 65536.
Proof.
  intros (ds & H & L & ->). pose proof (hexval_range _ _ H) as R. assert (16 ^ zlen s <= 16 ^ 4) by (apply Z.pow_le_mono_r; unfold zlen; lia). change (16 ^ 4) with 65536 in *. unfold hexval in R. lia.
Qed.
(* the front of a quad looks like a group *)
Lemma digits_hexits s : digits s -> exists es, Forall2 hexit s es.
Proof. induction 1 as [|c s Hc H (es & IH)]; [exists []; constructor|]. exists (c - 48 :: es). constructor; [apply hx_dec; exact Hc|exact IH]. Qed.
Lemma number_short s n : number s n -> (1 <= length s <= 3)%nat.
Proof.
  intros (D & N & Hz & En & Hlt). destruct s as [|a [|b [|c [|e s]]]]; [contradiction|cbn; lia..|]. exfalso.
  inversion D as [|? ? Da D1]; subst. inversion D1 as [|? ? Db D2]; subst. inversion D2 as [|? ? Dc D3]; subst. inversion D3 as [|? ? De D4]; subst.
  pose proof (decval_prefix [a; b; c; e] s D) as P. cbn [app] in P. change (decval [a; b; c; e]) with ((((0 * 10 + (a - 48)) * 10 + (b - 48)) * 10 + (c - 48)) * 10 + (e - 48)) in P.
  unfold digit in *. assert (a <> 48) by (intros ->; specialize (Hz eq_refl); discriminate). lia.
Qed.
Lemma quad_hex s a b c d : quad s a b c d -> exists acc off r, hex_loop s 0 0 = Some (acc, off, 46 :: r) /\ off <> 0.
Proof.
  intros H. apply dots_inv in H as (h & n & t & ns' & Hh & E & [(_ & _ & ->)|(-> & _)]); [discriminate E|].
  pose proof (number_short h n Hh) as L. destruct Hh as (D & _). destruct (digits_hexits h D) as (es & He).
  exists (hexval es), (zlen h), t. split; [|unfold zlen; lia].
  apply (group_hex h (hexval es) (46 :: t)); [|reflexivity]. exists es. split; [exact He|]. split; [lia|reflexivity].
Qed.
Lemma quad_head s a b c d : quad s a b c d -> exists x s', s = x :: s' /\ hex_digit x <> None.
Proof.
  intros H. apply dots_inv in H as (h & n & t & ns' & (D & N & _) & _ & [(-> & _)|(-> & _)]); (destruct h as [|x h]; [contradiction|]); inversion D as [|? ? Dx _]; subst.
  - exists x, h. split; [reflexivity|]. unfold hex_digit, is_dec. unfold digit in Dx. replace ((48 <=? x) && (x <=? 57)) with true by lia. discriminate.
  - exists x, (h ++ 46 :: t). split; [reflexivity|]. unfold hex_digit, is_dec. unfold digit in Dx. replace ((48 <=? x) && (x <=? 57)) with true by lia. discriminate.
Qed.
Lemma plain_head s gs : plain s gs -> exists x s', s = x :: s' /\ hex_digit x <> None.
Proof. intros H. destruct H as [s n H|s n r gs H _]; destruct (group_head _ _ H) as (c & s' & -> & Hc); [exists c, s'|exists c, (s' ++ [58] ++ r)]; auto. Qed.
Lemma full_head s gs : full s gs -> exists x s', s = x :: s' /\ hex_digit x <> None.
Proof.
  intros H. destruct H as [s n H|s a b c d H|s n r gs H _]; [|exact (quad_head _ _ _ _ _ H)|]; destruct (group_head _ _ H) as (c & s' & -> & Hc); [exists c, s'|exists c, (s' ++ [58] ++ r)]; auto.
Qed.
Lemma plain_full s gs : plain s gs -> full s gs.
Proof. induction 1; [now constructor|now constructor]. Qed.
Lemma head_not_colon c : hex_digit c <> None -> (c =? 58) = false /\ (c =? 46) = false /\ (c =? 37) = false.
Proof. destruct (hex_digit c) as [x|] eqn:E; [|congruence]. intros _. apply hex_digit_iff, hexit_range in E. lia. Qed.

(* -- the loop reads what is full -- *)
Lemma loop_full : forall s hs, full s hs -> forall left gs ell, (length gs + left = 8)%nat -> (length gs + length hs <= 8)%nat -> (ell = None -> (length gs + length hs = 8)%nat) ->
  v6_loop left s gs ell = Some (gs ++ hs, ell, []).
Proof.
  induction 1 as [s n H|s a b c d H|s n r hs H Hf IH]; intros left gs ell Hl Hh He; cbn [length] in *; (destruct left as [|left]; [lia|]); cbn [v6_loop].
  - pose proof (group_hex s n [] H I) as G. rewrite app_nil_r in G. rewrite G. destruct (group_head s n H) as (x & s' & -> & _). replace (zlen (x :: s') =? 0) with false by (rewrite zlen_cons; pose proof (zlen_nonneg s'); lia). reflexivity.
  - destruct (quad_hex s a b c d H) as (acc & off & r & -> & Ho). replace (off =? 0) with false by lia. change (46 =? 46) with true. cbn iota.
    replace (match ell with Some _ => false | None => negb (Nat.eqb (length gs) 6) end) with false.
    2:{ destruct ell; [reflexivity|]. specialize (He eq_refl). symmetry. apply negb_false_iff, Nat.eqb_eq. lia. }
    replace (Nat.ltb 6 (length gs)) with false by (symmetry; apply Nat.ltb_ge; lia).
    rewrite (proj2 (v4_iff s [a; b; c; d])); [reflexivity|]. exists a, b, c, d. auto.
  - cbn [app]. rewrite (group_hex s n (58 :: r) H eq_refl). destruct (group_head s n H) as (x & s' & -> & _). replace (zlen (x :: s') =? 0) with false by (rewrite zlen_cons; pose proof (zlen_nonneg s'); lia).
    change (58 =? 46) with false. change (negb (58 =? 58)) with false. cbn iota.
    destruct (full_head r hs Hf) as (y & r' & -> & Hy). destruct (head_not_colon y Hy) as (-> & _).
    rewrite IH; [now rewrite <- app_assoc|rewrite app_length; cbn; lia..|]. intros E. specialize (He E). rewrite app_length. cbn. lia.
Qed.
Lemma loop_short : forall s hs, plain s hs -> forall t ks left gs, none_or full t ks -> (length gs + left = 8)%nat -> (length gs + length hs + length ks <= 7)%nat ->
  v6_loop left (s ++ [58; 58] ++ t) gs None = Some (gs ++ hs ++ ks, Some (length gs + length hs)%nat, []).
Proof.
  induction 1 as [s n H|s n r hs H Hf IH]; intros t ks left gs Ht Hl Hh; cbn [length] in *; (destruct left as [|left]; [lia|]); cbn [v6_loop].
  - cbn [app]. rewrite (group_hex s n (58 :: 58 :: t) H eq_refl). destruct (group_head s n H) as (x & s' & -> & _). replace (zlen (x :: s') =? 0) with false by (rewrite zlen_cons; pose proof (zlen_nonneg s'); lia).
    change (58 =? 46) with false. change (negb (58 =? 58)) with false. change (58 =? 58) with true. cbn iota. rewrite app_length. cbn [length].
    destruct Ht as [[-> ->]|Ht]; [reflexivity|]. destruct (full_head t ks Ht) as (y & t' & -> & Hy).
    rewrite (loop_full (y :: t') ks Ht); [now rewrite <- app_assoc|rewrite app_length; cbn; lia..|discriminate].
  - rewrite <- !app_assoc. cbn [app]. rewrite (group_hex s n (58 :: r ++ 58 :: 58 :: t) H eq_refl). destruct (group_head s n H) as (x & s' & -> & _). replace (zlen (x :: s') =? 0) with false by (rewrite zlen_cons; pose proof (zlen_nonneg s'); lia).
    change (58 =? 46) with false. change (negb (58 =? 58)) with false. cbn iota.
    destruct (plain_head r hs Hf) as (y & r' & -> & Hy). cbn [app]. destruct (head_not_colon y Hy) as (-> & _).
    specialize (IH t ks left (gs ++ [n]) Ht). cbn [app] in IH. rewrite IH; [|rewrite app_length; cbn; lia..]. rewrite app_length. cbn [length]. rewrite <- app_assoc. cbn [app]. replace (length gs + 1 + length hs)%nat with (length gs + S (length hs))%nat by lia. reflexivity.
Qed.

(* -- and nothing else -- *)
Lemma loop_sound : forall left s gs ell gs' ell', (length gs + left = 8)%nat -> s <> [] -> v6_loop left s gs ell = Some (gs', ell', []) ->
  exists hs, gs' = gs ++ hs /\ (length gs' <= 8)%nat /\
    match ell with
    | Some e => ell' = Some e /\ full s hs
    | None => (ell' = None /\ full s hs) \/ exists a b h1 h2, s = a ++ [58; 58] ++ b /\ plain a h1 /\ none_or full b h2 /\ hs = h1 ++ h2 /\ ell' = Some (length gs + length h1)%nat
    end.
Proof.
  induction left as [|left IH]; intros s gs ell gs' ell' Hl Hs H; cbn [v6_loop] in H; [injection H as _ _ ->; contradiction|].
  destruct (hex_loop s 0 0) as [[[acc off] r]|] eqn:Eh; [|discriminate]. destruct (Z.eqb_spec off 0) as [|Ho]; [discriminate|].
  apply hex_group in Eh as (h & Es & -> & Hr & Hg). specialize (Hg Ho).
  destruct r as [|c r'].
  - injection H as <- <-. rewrite app_nil_r in Es. subst s. exists [acc]. split; [reflexivity|]. split; [rewrite app_length; cbn; lia|]. destruct ell; [|left]; (split; [reflexivity|now constructor]).
  - destruct (Z.eqb_spec c 46) as [->|Hc].
    + destruct (match ell with Some _ => false | None => negb (Nat.eqb (length gs) 6) end); [discriminate|].
      destruct (Nat.ltb_spec 6 (length gs)); [discriminate|].
      destruct (parseIPv4Fields s) as [out|] eqn:E4; [|discriminate]. apply v4_iff in E4 as (a & b & x & y & -> & Hq). injection H as <- <-.
      exists [a * 256 + b; x * 256 + y]. split; [reflexivity|]. split; [rewrite app_length; cbn; lia|]. destruct ell; [|left]; (split; [reflexivity|now constructor]).
    + destruct (Z.eqb_spec c 58) as [->|]; [|discriminate]. cbn [negb] in H. destruct r' as [|c2 r2]; [discriminate|].
      destruct (Z.eqb_spec c2 58) as [->|Hc2].
      * destruct ell as [e|]; [discriminate|]. destruct r2 as [|c3 r3].
        -- injection H as <- <-. exists [acc]. split; [reflexivity|]. split; [rewrite app_length; cbn; lia|]. right. exists h, [], [acc], []. split; [exact Es|]. split; [now constructor|].
           split; [now left|]. split; [reflexivity|]. rewrite app_length. reflexivity.
        -- apply IH in H as (hs & -> & L & -> & Hf); [|rewrite app_length; cbn; lia|discriminate].
           exists ([acc] ++ hs). rewrite <- app_assoc in *. split; [reflexivity|]. split; [exact L|]. right. exists h, (c3 :: r3), [acc], hs. split; [exact Es|]. split; [now constructor|].
           split; [now right|]. split; [reflexivity|]. rewrite app_length. reflexivity.
      * apply IH in H as (hs & -> & L & Hf); [|rewrite app_length; cbn; lia|discriminate].
        exists ([acc] ++ hs). rewrite <- app_assoc in *. split; [reflexivity|]. split; [exact L|]. subst s. destruct ell as [e|].
        -- destruct Hf as (-> & Hf). split; [reflexivity|]. now apply (fu_more h acc (c2 :: r2)).
        -- destruct Hf as [(-> & Hf)|(a & b & h1 & h2 & E & Hp & Hn & -> & ->)].
           ++ left. split; [reflexivity|]. now apply (fu_more h acc (c2 :: r2)).
           ++ right. exists (h ++ [58] ++ a), b, (acc :: h1), h2. rewrite E. split; [now rewrite <- !app_assoc|]. split; [now constructor|]. split; [exact Hn|]. split; [reflexivity|].
              rewrite app_length. cbn [length]. f_equal. lia.
Qed.

Lemma plain_length s gs : plain s gs -> (1 <= length gs)%nat.
Proof. intros H. destruct H; cbn; lia. Qed.
Lemma some_inj {A} (a b : A) : Some a = Some b -> a = b.
Proof. congruence. Qed.
Lemma groups_iff s gs : parse_groups s = Some gs <-> spells6 s gs.
Proof.
  assert (Hcases : (exists s', s = 58 :: 58 :: s') \/ (parse_groups s = match v6_loop 8 s [] None with Some x => v6_end x | None => None end /\ forall s', s <> 58 :: 58 :: s')).
  { destruct s as [|a [|b s']].
    - right. split; [reflexivity|discriminate].
    - right. split; [|discriminate]. cbn [parse_groups]. destruct (Z.eq_dec a 58) as [->|]; [reflexivity|]. destruct a as [|p|p]; try reflexivity. repeat (destruct p as [p|p|]; try reflexivity).
    - destruct (Z.eq_dec a 58) as [->|Na]; [destruct (Z.eq_dec b 58) as [->|Nb]|]; [left; eauto| |].
      + right. split; [|congruence]. cbn [parse_groups]. destruct b as [|p|p]; try reflexivity. do 6 (destruct p as [p|p|]; try reflexivity). contradiction.
      + right. split; [|congruence]. unfold parse_groups. destruct a as [|p|p]; try reflexivity. do 6 (destruct p as [p|p|]; try reflexivity). contradiction. }
  split.
  - intros H. destruct Hcases as [(s' & ->)|(E & Hno)].
    + cbn [parse_groups] in H. destruct s' as [|c s'].
      { injection H as <-. apply (sp_short [] [] [] [] 7); [now left|now left|reflexivity]. }
      destruct (v6_loop 8 (c :: s') [] (Some 0%nat)) as [[[gs' ell'] t]|] eqn:EL; [|discriminate]. destruct t; [|discriminate].
      apply loop_sound in EL as (hs & -> & L & -> & Hf); [|reflexivity|discriminate]. cbn [app v6_end] in H. destruct (Nat.ltb_spec (length hs) 8); [|discriminate].
      apply some_inj in H. subst gs. cbn [firstn skipn app]. destruct (8 - length hs)%nat as [|k] eqn:Ek; [lia|].
      apply (sp_short [] (c :: s') [] hs k); [now left|now right|cbn; lia].
    + rewrite E in H. destruct (v6_loop 8 s [] None) as [[[gs' ell'] t]|] eqn:EL; [|discriminate]. destruct t; [|discriminate].
      assert (Hs : s <> []) by (intros ->; discriminate EL).
      apply loop_sound in EL as (hs & -> & L & [(-> & Hf)|(a & b & h1 & h2 & -> & Hp & Hn & -> & ->)]); [| |reflexivity|exact Hs]; cbn [app v6_end] in H.
      * cbn [app] in *. destruct (Nat.ltb_spec (length hs) 8); [discriminate|]. injection H as <-. apply sp_full; [exact Hf|lia].
      * cbn [app length] in *. destruct (Nat.ltb_spec (length (h1 ++ h2)) 8) as [L8|]; [|discriminate]. apply some_inj in H. subst gs. cbn [Nat.add].
        rewrite firstn_app, firstn_all, Nat.sub_diag, firstn_O, app_nil_r, skipn_app, skipn_all, Nat.sub_diag. cbn [skipn app].
        rewrite app_length in *. destruct (8 - (length h1 + length h2))%nat as [|k] eqn:Ek; [lia|].
        apply (sp_short a b h1 h2 k); [now right|exact Hn|lia].
  - intros H. destruct H as [s gs Hf L|s t gs hs k Hs Ht L].
    + destruct Hcases as [(s' & ->)|(E & _)].
      { exfalso. destruct (full_head _ _ Hf) as (x & s2 & [= <- _] & Hx). now apply Hx. }
      rewrite E. rewrite (loop_full s gs Hf 8 [] None) by (cbn; lia). cbn [app v6_end]. rewrite L. reflexivity.
    + destruct Hs as [[-> ->]|Hs].
      * cbn [app parse_groups length] in *. destruct Ht as [[-> ->]|Ht].
        -- cbn in L. assert (k = 7)%nat as -> by lia. reflexivity.
        -- destruct (full_head _ _ Ht) as (x & t' & -> & Hx). rewrite (loop_full (x :: t') hs Ht 8 [] (Some 0%nat)) by (try discriminate; cbn; lia). cbn [app v6_end].
           replace (Nat.ltb (length hs) 8) with true by (symmetry; apply Nat.ltb_lt; lia). cbn [firstn skipn app]. now replace (8 - length hs)%nat with (S k) by lia.
      * destruct Hcases as [(s' & E)|(E & _)].
        { exfalso. destruct (plain_head _ _ Hs) as (x & s2 & -> & Hx). injection E as -> _. now apply Hx. }
        rewrite E. rewrite (loop_short s gs Hs t hs 8 [] Ht) by (cbn; lia). cbn [app length Nat.add v6_end]. rewrite app_length.
        replace (Nat.ltb (length gs + length hs) 8) with true by (symmetry; apply Nat.ltb_lt; lia).
        rewrite firstn_app, firstn_all, Nat.sub_diag, firstn_O, app_nil_r, skipn_app, skipn_all, Nat.sub_diag. cbn [skipn app]. now replace (8 - (length gs + length hs))%nat with (S k) by lia.
Qed.

(* ---------- ParseAddr ---------- *)
Definition hexish (c : Z) : Prop := hex_digit c <> None.
Lemma group_hexish s n : group s n -> Forall hexish s.
Proof. intros (ds & H & _). clear -H. induction H as [|c x s ds Hx H IH]; constructor; [apply hex_digit_iff in Hx; unfold hexish; congruence|exact IH]. Qed.
Lemma digits_hexish s : digits s -> Forall hexish s.
Proof. intros H. eapply Forall_impl; [|exact H]. intros c Hc. unfold hexish, hex_digit, is_dec. unfold digit in Hc. replace ((48 <=? c) && (c <=? 57)) with true by lia. discriminate. Qed.
Lemma first_hexish h r : Forall hexish h -> first_of (h ++ r) = first_of r.
Proof. induction 1 as [|c h Hc H IH]; [reflexivity|]. cbn [app first_of]. destruct (head_not_colon c Hc) as (-> & -> & ->). exact IH. Qed.
Lemma no_percent h : Forall hexish h -> ~ In 37 h.
Proof. intros H HI. rewrite Forall_forall in H. now apply (H _ HI). Qed.
Lemma dots_no_percent s ns : dots s ns -> ~ In 37 s.
Proof.
  induction 1 as [s n (D & _)|s n r ns (D & _) Hd IH]; [exact (no_percent s (digits_hexish s D))|].
  intros HI. apply in_app_iff in HI as [HI|[HI|HI]]; [exact (no_percent s (digits_hexish s D) HI)|discriminate|exact (IH HI)].
Qed.
Lemma full_no_percent s gs : full s gs -> ~ In 37 s.
Proof.
  induction 1 as [s n H|s a b c d H|s n r gs H Hf IH]; [exact (no_percent s (group_hexish s n H))|exact (dots_no_percent _ _ H)|].
  intros HI. apply in_app_iff in HI as [HI|[HI|HI]]; [exact (no_percent s (group_hexish s n H) HI)|discriminate|exact (IH HI)].
Qed.
Lemma spells6_no_percent s gs : spells6 s gs -> ~ In 37 s.
Proof.
  intros H. destruct H as [s gs H _|s t gs hs k Hs Ht _]; [exact (full_no_percent _ _ H)|]. intros HI. apply in_app_iff in HI as [HI|[HI|[HI|HI]]]; try discriminate.
  - destruct Hs as [[-> _]|Hs]; [easy|]. exact (full_no_percent _ _ (plain_full _ _ Hs) HI).
  - destruct Ht as [[-> _]|Ht]; [easy|]. exact (full_no_percent _ _ Ht HI).
Qed.
Lemma plain_first s gs r : plain s gs -> first_of (s ++ 58 :: r) = Some 58.
Proof. intros H. destruct H as [s n H|s n r' gs H _]; rewrite <- ?app_assoc, (first_hexish s _ (group_hexish s n H)); reflexivity. Qed.
Lemma spells6_first s gs r : spells6 s gs -> first_of (s ++ r) = Some 58.
Proof.
  intros H. destruct H as [s gs H L|s t gs hs k Hs Ht _].
  - destruct H as [s n H|s a b c d H|s n r' gs H _]; try discriminate L. rewrite <- !app_assoc, (first_hexish s _ (group_hexish s n H)). reflexivity.
  - rewrite <- !app_assoc. cbn [app]. destruct Hs as [[-> _]|Hs]; [reflexivity|]. exact (plain_first s gs _ Hs).
Qed.
Lemma quad_first s a b c d : quad s a b c d -> first_of s = Some 46.
Proof.
  intros H. apply dots_inv in H as (h & n & t & ns' & (D & _) & E & [(_ & _ & ->)|(-> & _)]); [discriminate E|]. rewrite (first_hexish h _ (digits_hexish h D)). reflexivity.
Qed.
Lemma cut_no c a : ~ In c a -> cut c a = (a, None).
Proof. induction a as [|x a IH]; intros H; [reflexivity|]. cbn [cut]. destruct (Z.eqb_spec x c); [exfalso; apply H; now left|]. rewrite IH; [reflexivity|]. intros HI. apply H. now right. Qed.
Lemma cut_yes c a z : ~ In c a -> cut c (a ++ c :: z) = (a, Some z).
Proof. induction a as [|x a IH]; intros H; cbn [app cut]; [now rewrite Z.eqb_refl|]. destruct (Z.eqb_spec x c); [exfalso; apply H; now left|]. rewrite IH; [reflexivity|]. intros HI. apply H. now right. Qed.
Lemma cut_back c s : forall a z, cut c s = (a, z) -> s = match z with None => a | Some z => a ++ c :: z end.
Proof.
  induction s as [|x s IH]; intros a z H; cbn [cut] in H; [now injection H as <- <-|]. destruct (Z.eqb_spec x c) as [->|]; [now injection H as <- <-|].
  destruct (cut c s) as [a' z'] eqn:E. injection H as <- <-. rewrite (IH _ _ eq_refl). now destruct z'.
Qed.
Lemma parse6_iff s x : parseIPv6 s = Some x <-> exists a gs z, x = IP6 gs z /\ spells6 a gs /\ s = with_zone z a.
Proof.
  unfold parseIPv6. split.
  - destruct (cut 37 s) as [a z] eqn:E. apply cut_back in E. intros H. destruct z as [[|c z]|]; [discriminate| |]; (destruct (parse_groups a) as [gs|] eqn:Eg; [|discriminate]);
      injection H as <-; apply groups_iff in Eg; [exists a, gs, (c :: z)|exists a, gs, []]; auto.
  - intros (a & gs & z & -> & Hs & ->). pose proof (spells6_no_percent a gs Hs) as N. destruct z as [|c z]; cbn [with_zone]; [rewrite (cut_no 37 a N)|rewrite (cut_yes 37 a (c :: z) N)]; rewrite (proj2 (groups_iff a gs) Hs); reflexivity.
Qed.
Theorem parse_addr_iff s x : ParseAddr s = Some x <-> spells s x.
Proof.
  unfold ParseAddr. split.
  - destruct (first_of s) as [c|]; [|discriminate]. destruct (Z.eqb_spec c 46).
    + destruct (parseIPv4Fields s) as [b|] eqn:E; [|discriminate]. intros [= <-]. apply v4_iff in E as (a & b' & c' & d & -> & H). now constructor.
    + destruct (c =? 58); [|discriminate]. intros H. apply parse6_iff in H as (a & gs & z & -> & Hs & ->). destruct z as [|c0 z]; [now constructor|]. apply (sp_zone a gs (c0 :: z)); [exact Hs|discriminate].
  - intros H. destruct H as [s a b c d H|s gs H|s gs z H Hz].
    + rewrite (quad_first s a b c d H). change (46 =? 46) with true. cbn iota. rewrite (proj2 (v4_iff s [a; b; c; d])); [reflexivity|]. exists a, b, c, d. auto.
    + pose proof (spells6_first s gs [] H) as F. rewrite app_nil_r in F. rewrite F. change (58 =? 46) with false. change (58 =? 58) with true. cbn iota. apply parse6_iff. exists s, gs, []. auto.
    + rewrite (spells6_first s gs _ H). change (58 =? 46) with false. change (58 =? 58) with true. cbn iota. apply parse6_iff. exists s, gs, z. split; [reflexivity|]. split; [exact H|]. destruct z; [contradiction|reflexivity].
Qed.

(* ---------- String ---------- *)
Lemma number_octet s n : number s n -> octet n.
Proof. intros (D & _ & _ & -> & H). pose proof (decval_pos s D). unfold octet. lia. Qed.
Lemma dots_octets s ns : dots s ns -> Forall octet ns.
Proof. induction 1 as [s n H|s n r ns H Hd IH]; constructor; try (exact (number_octet _ _ H)); [constructor|exact IH]. Qed.
Lemma full_range s gs : full s gs -> Forall (fun g => 0 <= g < 65536) gs.
Proof.
  induction 1 as [s n H|s a b c d H|s n r gs H Hf IH].
  - constructor; [exact (group_range s n H)|constructor].
  - apply dots_octets in H. inversion H as [|? ? Ha H1]; subst. inversion H1 as [|? ? Hb H2]; subst. inversion H2 as [|? ? Hc H3]; subst. inversion H3 as [|? ? Hd H4]; subst. unfold octet in *. constructor; [lia|]. constructor; [lia|constructor].
  - constructor; [exact (group_range s n H)|exact IH].
Qed.
Theorem spells_address s x : spells s x -> address x.
Proof.
  assert (H6 : forall s gs, spells6 s gs -> length gs = 8%nat /\ Forall (fun g => 0 <= g < 65536) gs).
  { intros t gs H. destruct H as [t gs H L|t t' gs hs k Hs Ht L]; [split; [exact L|exact (full_range _ _ H)]|].
    split; [rewrite !app_length, repeat_length; lia|]. apply Forall_app. split; [|apply Forall_app; split].
    - destruct Hs as [[_ ->]|Hs]; [constructor|exact (full_range _ _ (plain_full _ _ Hs))].
    - apply Forall_forall. intros y Hy. apply repeat_spec in Hy. lia.
    - destruct Ht as [[_ ->]|Ht]; [constructor|exact (full_range _ _ Ht)]. }
  intros H. destruct H as [s a b c d H|s gs H|s gs z H _]; [|exact (H6 _ _ H)..].
  apply dots_octets in H. inversion H as [|? ? Ha H1]; subst. inversion H1 as [|? ? Hb H2]; subst. inversion H2 as [|? ? Hc H3]; subst. inversion H3 as [|? ? Hd H4]; subst.
  exists a, b, c, d. auto 10.
Qed.

Definition number_b (s : bytes) (n : Z) : bool :=
  forallb (fun c => (48 <=? c) && (c <=? 57)) s && negb (zlen s =? 0) && (negb (hd 0 s =? 48) || (zlen s =? 1)) && (n =? decval s) && (n <? 256).
Lemma number_b_ok s n : number_b s n = true -> number s n.
Proof.
  unfold number_b. rewrite !andb_true_iff. intros ((((H1 & H2) & H3) & H4) & H5). split; [|split; [|split; [|split; lia]]].
  - apply Forall_forall. rewrite forallb_forall in H1. intros c Hc. specialize (H1 c Hc). unfold digit. lia.
  - intros ->. discriminate H2.
  - intros E. rewrite E in H3. cbn in H3. destruct s as [|c [|d s]]; [discriminate E|cbn in E; now subst|]. rewrite !zlen_cons in H3. pose proof (zlen_nonneg s). lia.
Qed.
Lemma utoa_number n : octet n -> number (utoa n) n.
Proof.
  intros Hn. apply number_b_ok. assert (G : forallb (fun k => number_b (utoa (Z.of_nat k)) (Z.of_nat k)) (seq 0 256) = true) by (vm_compute; reflexivity).
  rewrite forallb_forall in G. specialize (G (Z.to_nat n)). unfold octet in Hn. rewrite Z2Nat.id in G by lia. apply G. apply in_seq. lia.
Qed.
Lemma dotted_quad a b c d : octet a -> octet b -> octet c -> octet d -> quad (dotted [a; b; c; d]) a b c d.
Proof.
  intros Ha Hb Hc Hd. cbn [dotted]. apply (do_more (utoa a) a); [now apply utoa_number|]. apply (do_more (utoa b) b); [now apply utoa_number|]. apply (do_more (utoa c) c); [now apply utoa_number|].
  constructor. now apply utoa_number.
Qed.
Lemma hex_char_hexit n : 0 <= n < 16 -> hexit (hex_char n) n.
Proof.
  intros H. unfold hex_char. destruct (Z.ltb_spec n 10).
  - replace n with (48 + n - 48) at 2 by lia. apply hx_dec. lia.
  - replace n with (87 + n - 87) at 2 by lia. apply hx_low. lia.
Qed.
Lemma group_b (s ds : list Z) n : Forall2 hexit s ds -> (1 <= length s <= 4)%nat -> n = fold_left (fun a x => a * 16 + x) ds 0 -> group s n.
Proof. intros. exists ds. auto. Qed.
Lemma hex_is_group x : 0 <= x < 65536 -> group (hex x) x.
Proof.
  intros H. unfold hex.
  assert (E1 : 0 <= x mod 16 < 16) by (apply Z.mod_pos_bound; lia). assert (E2 : 0 <= x / 16 mod 16 < 16) by (apply Z.mod_pos_bound; lia). assert (E3 : 0 <= x / 256 mod 16 < 16) by (apply Z.mod_pos_bound; lia).
  assert (D1 : x = 16 * (x / 16) + x mod 16) by (apply Z.div_mod; lia). assert (D2 : x / 16 = 16 * (x / 256) + x / 16 mod 16).
  { replace (x / 256) with (x / 16 / 16) by (rewrite Z.div_div by lia; reflexivity). apply Z.div_mod. lia. }
  assert (D3 : x / 256 = 16 * (x / 4096) + x / 256 mod 16). { replace (x / 4096) with (x / 256 / 16) by (rewrite Z.div_div by lia; reflexivity). apply Z.div_mod. lia. }
  assert (0 <= x / 4096) by (apply Z.div_pos; lia). set (a := x mod 16) in *. set (b := x / 16 mod 16) in *. set (c := x / 256 mod 16) in *. set (d := x / 4096) in *. set (p := x / 16) in *. set (q := x / 256) in *.
  destruct (Z.leb_spec 4096 x); [|destruct (Z.leb_spec 256 x); [|destruct (Z.leb_spec 16 x)]]; cbn [app].
  - replace (256 <=? x) with true by lia. replace (16 <=? x) with true by lia. cbn [app]. apply (group_b _ [d; c; b; a]); [|cbn; lia|cbn [fold_left]; lia].
    repeat (constructor; [apply hex_char_hexit; lia|]). constructor.
  - replace (16 <=? x) with true by lia. cbn [app]. apply (group_b _ [c; b; a]); [|cbn; lia|cbn [fold_left]; lia]. repeat (constructor; [apply hex_char_hexit; lia|]). constructor.
  - apply (group_b _ [b; a]); [|cbn; lia|cbn [fold_left]; lia]. repeat (constructor; [apply hex_char_hexit; lia|]). constructor.
  - apply (group_b _ [a]); [|cbn; lia|cbn [fold_left]; lia]. repeat (constructor; [apply hex_char_hexit; lia|]). constructor.
Qed.
Lemma colons_plain gs : gs <> [] -> Forall (fun g => 0 <= g < 65536) gs -> plain (colons gs) gs.
Proof.
  induction gs as [|g gs IH]; intros N H; [contradiction|]. inversion H; subst. destruct gs as [|g2 gs]; cbn [colons]; [constructor; now apply hex_is_group|].
  apply (pl_more (hex g) g (colons (g2 :: gs))); [now apply hex_is_group|]. apply IH; [discriminate|assumption].
Qed.
Lemma zeros_run gs : firstn (zeros gs) gs = repeat 0 (zeros gs) /\ (zeros gs <= length gs)%nat.
Proof. induction gs as [|g gs [I1 I2]]; [cbn; auto|]. cbn [zeros]. destruct (Z.eqb_spec g 0) as [->|]; cbn [firstn repeat length]; [rewrite I1|]; split; auto; lia. Qed.
Lemma skip_skip {A} (l : list A) : forall n m, skipn n (skipn m l) = skipn (n + m) l.
Proof. induction l as [|a l IH]; intros n m; [now rewrite !skipn_nil|]. destruct m as [|m]; [cbn [skipn]; now rewrite Nat.add_0_r|]. rewrite Nat.add_succ_r. cbn [skipn]. apply IH. Qed.
Definition run_ok (G : list Z) (b : nat * nat) : Prop := snd b = 0%nat \/ (firstn (snd b) (skipn (fst b) G) = repeat 0 (snd b) /\ (fst b + snd b <= length G)%nat).
Lemma longest_ok G : forall gs i best, skipn i G = gs -> run_ok G best -> run_ok G (longest gs i best).
Proof.
  induction gs as [|g gs IH]; intros i best E H; cbn [longest]; [exact H|]. apply IH.
  - replace (S i) with (1 + i)%nat by lia. rewrite <- skip_skip, E. reflexivity.
  - destruct (Nat.leb 2 (zeros (g :: gs)) && Nat.ltb (snd best) (zeros (g :: gs))); [|exact H]. right. cbn [fst snd]. rewrite E. destruct (zeros_run (g :: gs)) as [Z1 Z2]. split; [exact Z1|].
    assert (L : length (g :: gs) = (length G - i)%nat) by (rewrite <- E; apply skipn_length). assert (i <= length G)%nat by (destruct (Nat.le_gt_cases i (length G)); [assumption|]; rewrite skipn_all2 in E by lia; discriminate). lia.
Qed.
Lemma none_or_colons (P : bytes -> list Z -> Prop) gs : (forall s hs, plain s hs -> P s hs) -> Forall (fun g => 0 <= g < 65536) gs -> none_or P (colons gs) gs.
Proof. intros HP H. destruct gs as [|g gs]; [now left|]. right. apply HP, colons_plain; [discriminate|exact H]. Qed.
Lemma Forall_firstn {A} (P : A -> Prop) n l : Forall P l -> Forall P (firstn n l).
Proof. intros H. revert n. induction H; intros [|n]; cbn; constructor; auto. Qed.
Lemma Forall_skipn {A} (P : A -> Prop) n l : Forall P l -> Forall P (skipn n l).
Proof. intros H. revert n. induction H; intros [|n]; cbn; auto. Qed.
Lemma append_spells gs : length gs = 8%nat -> Forall (fun g => 0 <= g < 65536) gs -> spells6 (appendTo6 gs) gs.
Proof.
  intros L H. unfold appendTo6. pose proof (longest_ok gs gs 0 (0, 0)%nat eq_refl (or_introl eq_refl)) as R. destruct (longest gs 0 (0, 0)%nat) as [s l]. destruct (Nat.eqb_spec l 0) as [->|Nl].
  - apply sp_full; [|exact L]. apply plain_full, colons_plain; [destruct gs; discriminate|exact H].
  - destruct R as [R|[R1 R2]]; [contradiction|]. cbn [fst snd] in *. destruct l as [|k]; [contradiction|].
    assert (E : gs = firstn s gs ++ repeat 0 (S k) ++ skipn (s + S k) gs).
    { rewrite <- R1. rewrite (Nat.add_comm s (S k)), <- skip_skip, firstn_skipn, firstn_skipn. reflexivity. }
    pose proof (sp_short (colons (firstn s gs)) (colons (skipn (s + S k) gs)) (firstn s gs) (skipn (s + S k) gs) k) as G. rewrite <- E in G. apply G.
    + apply none_or_colons; [auto|now apply Forall_firstn].
    + apply none_or_colons; [exact plain_full|now apply Forall_skipn].
    + rewrite firstn_length, skipn_length. lia.
Qed.
Theorem string_spells x : address x -> spells (IpString x) x.
Proof.
  destruct x as [b|gs z]; cbn [address IpString].
  - intros (x & y & z & t & -> & H1 & H2 & H3 & H4). constructor. now apply dotted_quad.
  - intros (L & H). assert (G : spells6 (if is4in6 gs then match skipn 6 gs with [x; y] => str "::ffff:" ++ dotted [x / 256; x mod 256; y / 256; y mod 256] | _ => [] end else appendTo6 gs) gs).
    { destruct (is4in6 gs) eqn:E; [|now apply append_spells].
      destruct gs as [|a [|b [|c [|d [|e [|f [|x [|y [|? ?]]]]]]]]]; try discriminate L. cbn [is4in6] in E. rewrite !andb_true_iff in E. destruct E as (((((Ea & Eb) & Ec) & Ed) & Ee) & Ef).
      apply Z.eqb_eq in Ea, Eb, Ec, Ed, Ee, Ef. subst. cbn [skipn].
      do 6 (apply Forall_inv_tail in H). pose proof (Forall_inv H) as Hx. apply Forall_inv_tail in H. pose proof (Forall_inv H) as Hy.
      assert (O : forall v, 0 <= v < 65536 -> octet (v / 256) /\ octet (v mod 256) /\ v = v / 256 * 256 + v mod 256).
      { intros v Hv. split; [split; [apply Z.div_pos; lia|apply Z.div_lt_upper_bound; lia]|]. split; [apply Z.mod_pos_bound; lia|]. rewrite Z.mul_comm. apply Z.div_mod. lia. }
      destruct (O x Hx) as (X1 & X2 & X3). destruct (O y Hy) as (Y1 & Y2 & Y3). rewrite X3 at 3. rewrite Y3 at 3.
      apply (sp_short [] (str "ffff:" ++ dotted [x / 256; x mod 256; y / 256; y mod 256]) [] [65535; x / 256 * 256 + x mod 256; y / 256 * 256 + y mod 256] 4); [now left| |reflexivity].
      right. apply (fu_more (str "ffff") 65535). { apply (group_b _ [15; 15; 15; 15]); [|cbn; lia|reflexivity]. repeat (constructor; [apply (hx_low 102); lia|]). constructor. }
      apply fu_quad. now apply dotted_quad. }
    destruct z as [|c z]; cbn [with_zone]; [now constructor|]. now apply (sp_zone _ gs (c :: z)).
Qed.
Theorem string_parses x : address x -> ParseAddr (IpString x) = Some x.
Proof. intros H. apply parse_addr_iff. now apply string_spells. Qed.

(* ---------- what is in a text ---------- *)
Lemma dots_chars s ns : dots s ns -> Forall (fun c => 48 <= c <= 57 \/ c = 46) s.
Proof.
  assert (N : forall s n, number s n -> Forall (fun c => 48 <= c <= 57 \/ c = 46) s).
  { intros q n (H & _). eapply Forall_impl; [|exact H]. intros c Hc. left. exact Hc. }
  induction 1; [eauto|]. apply Forall_app. split; [eauto|]. constructor; [now right|assumption].
Qed.
Lemma full_colon s gs : full s gs -> In 58 s \/ (length gs <= 2)%nat.
Proof. intros H. destruct H; [right; cbn; lia|right; cbn; lia|left]. apply in_or_app. right. now left. Qed.
Lemma spells6_colon s gs : spells6 s gs -> In 58 s.
Proof. intros [q hs H L|q t gs' hs k _ _ _]; [destruct (full_colon _ _ H); [assumption|lia]|]. apply in_or_app. right. now left. Qed.
Lemma name_chars s : host_name s -> Forall (fun c => letter c \/ 48 <= c <= 57 \/ c = 45 \/ c = 46) s /\ Exists letter s.
Proof.
  assert (L : forall s, label s -> Forall (fun c => letter c \/ 48 <= c <= 57 \/ c = 45 \/ c = 46) s).
  { intros q (_ & H). eapply Forall_impl; [|exact H]. intros c [Hc|[Hc|Hc]]; auto. }
  induction 1 as [s H E|s r H _ (I1 & I2)]; [auto|]. split.
  - apply Forall_app. split; [auto|]. constructor; [auto|exact I1].
  - apply Exists_app. right. now constructor.
Qed.
Theorem name_none s : host_name s -> ParseAddr s = None.
Proof.
  intros H. destruct (name_chars _ H) as (H1 & H2). destruct (ParseAddr s) as [x|] eqn:E; [exfalso|reflexivity]. apply parse_addr_iff in E.
  assert (N : forall c, In c s -> c = 58 \/ c = 37 -> False).
  { intros c Hc Hd. rewrite Forall_forall in H1. specialize (H1 c Hc). unfold letter in H1. lia. }
  destruct E as [q a b c d Q|q gs Q|q gs z Q _].
  - apply dots_chars in Q. apply Exists_exists in H2 as (c0 & Hc & Hl). rewrite Forall_forall in Q. specialize (Q c0 Hc). unfold letter in Hl. lia.
  - apply (N 58); [now apply (spells6_colon _ gs)|now left].
  - apply (N 37); [|now right]. apply in_or_app. right. now left.
Qed.

(* ---------- entries of a reply ---------- *)
Lemma parse_ip_iff s a : parse_ip s = Some a <-> exists x, spells s x /\ a = to_addr x.
Proof.
  unfold parse_ip. destruct (ParseAddr s) as [x|] eqn:E; cbn [option_map].
  - split; [intros [= <-]; exists x; split; [now apply parse_addr_iff|reflexivity]|]. intros (y & Hy & ->). apply parse_addr_iff in Hy. congruence.
  - split; [discriminate|]. intros (y & Hy & _). apply parse_addr_iff in Hy. congruence.
Qed.
Lemma spells_one s x y : spells s x -> spells s y -> x = y.
Proof. intros H1 H2. apply parse_addr_iff in H1, H2. congruence. Qed.
Theorem entry_iff ip port a : bencode_entry parse_ip ip port = a <->
  (exists x n, spells ip x /\ decimal port n /\ n < 65536 /\ a = Some (to_addr x, n)) \/
  ((~ exists x n, spells ip x /\ decimal port n /\ n < 65536) /\ a = None).
Proof.
  rewrite bencode_entry_spec. split.
  - intros [(x & n & H1 & H2 & H3 & H4)|([H|H] & ->)].
    + apply parse_ip_iff in H1 as (y & Hy & ->). left. exists y, n. auto.
    + right. split; [|reflexivity]. intros (x & n & Hx & _). assert (E : parse_ip ip = Some (to_addr x)) by (apply parse_ip_iff; eauto). congruence.
    + right. split; [|reflexivity]. intros (x & n & _ & H2 & H3). apply H. eauto.
  - intros [(x & n & H1 & H2 & H3 & H4)|(H & ->)].
    + left. exists (to_addr x), n. split; [apply parse_ip_iff; eauto|auto].
    + right. split; [|reflexivity]. destruct (parse_ip ip) as [a|] eqn:E; [|now left]. right. intros (n & H2 & H3). apply parse_ip_iff in E as (x & Hx & _). apply H. eauto.
Qed.
Lemma to_addr_inj x y : address x -> address y -> to_addr x = to_addr y -> x = y.
Proof.
  intros Hx Hy E. destruct x as [b|gs z], y as [c|hs t]; cbn [to_addr] in E; try discriminate; [congruence|].
  assert (E2 : IpString (IP6 gs z) = IpString (IP6 hs t)) by congruence. apply string_parses in Hx, Hy. rewrite E2 in Hx. congruence.
Qed.
Lemma to_addr_ok x p : address x -> 0 <= p < 65536 -> ap_ok (Some (to_addr x, p)).
Proof.
  destruct x as [b|gs z]; intros H Hp; cbn [to_addr ap_ok]; [|exact Hp]. destruct H as (a & c & d & e & -> & H1 & H2 & H3 & H4). split; [reflexivity|]. split; [|exact Hp].
  repeat (constructor; [assumption|]). constructor.
Qed.
Lemma decimal_nonneg s n : decimal s n -> 0 <= n.
Proof.
  intros (_ & H & ->). assert (G : forall s a, Forall (fun c => 48 <= c <= 57) s -> 0 <= a -> 0 <= fold_left (fun a c => a * 10 + (c - 48)) s a).
  { clear. induction s as [|c s IH]; intros a H Ha; cbn [fold_left]; [exact Ha|]. inversion H; subst. apply IH; [assumption|lia]. }
  now apply G.
Qed.
Lemma entry_ok ip port : ap_ok (bencode_entry parse_ip ip port).
Proof.
  destruct (proj1 (entry_iff ip port _) eq_refl) as [(x & n & H1 & H2 & H3 & ->)|(_ & ->)]; [|exact I].
  apply to_addr_ok; [now apply (spells_address ip)|]. split; [now apply (decimal_nonneg port)|exact H3].
Qed.
Theorem keys_iff ip1 port1 ip2 port2 :
  apString (bencode_entry parse_ip ip1 port1) = apString (bencode_entry parse_ip ip2 port2) <->
  (forall x n, (spells ip1 x /\ decimal port1 n /\ n < 65536) <-> (spells ip2 x /\ decimal port2 n /\ n < 65536)).
Proof.
  assert (D : forall s n m, decimal s n -> decimal s m -> n = m) by (intros s n m (_ & _ & ->) (_ & _ & ->); reflexivity).
  split.
  - intros E. apply apString_inj in E; try apply entry_ok. apply entry_iff in E.
    destruct (proj1 (entry_iff ip2 port2 _) eq_refl) as [(y & m & G1 & G2 & G3 & G4)|(G & G4)]; rewrite G4 in E.
    + destruct E as [(x & n & H1 & H2 & H3 & H4)|(_ & [=])]. injection H4 as E1 E2. apply to_addr_inj in E1; try (eapply spells_address; eassumption). subst m x.
      intros z k. split; intros (K1 & K2 & K3).
      * rewrite (spells_one _ _ _ K1 H1), (D _ _ _ K2 H2). auto.
      * rewrite (spells_one _ _ _ K1 G1), (D _ _ _ K2 G2). auto.
    + destruct E as [(x & n & _ & _ & _ & [=])|(H & _)]. intros z k. split; intros (K1 & K2 & K3); exfalso; [apply H|apply G]; eauto.
  - intros H. f_equal. apply entry_iff. destruct (proj1 (entry_iff ip2 port2 _) eq_refl) as [(y & m & G1 & G2 & G3 & ->)|(G & ->)].
    + left. exists y, m. destruct (proj2 (H y m) (conj G1 (conj G2 G3))) as (K1 & K2 & K3). auto.
    + right. split; [|reflexivity]. intros (x & n & K). apply G. exists x, n. now apply H.
Qed.

(* ---------- one host, two entries of the pool ---------- *)
Definition mapped (a b c d : Z) : ip := IP6 [0; 0; 0; 0; 0; 65535; a * 256 + b; c * 256 + d] [].
Theorem twice_exact n l g tr i j a b : grun l (NewMng n) = (g, tr) -> nth_error (added tr) i = Some a -> nth_error (added tr) j = Some b -> i <> j -> same_host a b ->
  exists q r s t p, (a = Some (V4 [q; r; s; t], p) /\ b = Some (to_addr (mapped q r s t), p)) \/ (b = Some (V4 [q; r; s; t], p) /\ a = Some (to_addr (mapped q r s t), p)).
Proof.
  intros E Ni Nj D (x & y & h & p & Hx & Hy & Gx & Gy & Hp & -> & ->). destruct (added_once _ _ _ _ E) as (_ & N2).
  assert (Q : x <> y). { intros ->. apply D. rewrite NoDup_nth_error in N2. apply N2; [apply nth_error_Some; congruence|congruence]. }
  inversion Gx; subst; inversion Gy; subst; try congruence.
  - exists a, b, c, d, p. right. split; reflexivity.
  - exists a, b, c, d, p. left. split; reflexivity.
Qed.
Definition named : bytes := str "peer.example".
Lemma named_host : host_name named.
Proof.
  apply (hn_dot (str "peer") (str "example")).
  - split; [discriminate|]. vm_compute. repeat (constructor; [left; left; split; discriminate|]). constructor.
  - apply hn_last; [split; [discriminate|]; vm_compute; repeat (constructor; [left; left; split; discriminate|]); constructor|]. vm_compute. constructor. left. split; discriminate.
Qed.
Lemma port_6881 : decimal (str "6881") 6881.
Proof. split; [discriminate|]. split; [vm_compute; repeat (constructor; [split; discriminate|]); constructor|reflexivity]. Qed.
Theorem names_refuted : ~ forall s port n, host_name s -> decimal port n -> n < 65536 -> bencode_entry parse_ip s port <> None.
Proof. intros H. apply (H named (str "6881") 6881); [exact named_host|exact port_6881|lia|]. vm_compute. reflexivity. Qed.
Theorem names_exact s port : host_name s -> bencode_entry parse_ip s port = None.
Proof. intros H. unfold bencode_entry, parse_ip. now rewrite (name_none _ H). Qed.
Definition one : addrport := bencode_entry parse_ip (str "10.0.0.1") (str "6881").
Definition two : addrport := bencode_entry parse_ip (str "::ffff:10.0.0.1") (str "6881").
Definition both : list gact := [XDownload 1; XTrk 0 tgo; XTrk 0 tgo; XTrk 0 (told [one; two]); XTrk 0 (mkTin true AnnErr false false true); XTrk 0 tgo; XTrk 0 tgo; XTrk 0 tgo; XTrk 0 tgo; XTrk 0 tgo].
Theorem hosts_refuted : ~ forall n l g tr i j a b, Forall act_ok l -> grun l (NewMng n) = (g, tr) ->
  nth_error (added tr) i = Some a -> nth_error (added tr) j = Some b -> same_host a b -> i = j.
Proof.
  intros H. enough (0 = 1)%nat by discriminate. apply (H 30 both (fst (grun both (NewMng 30))) (snd (grun both (NewMng 30))) 0%nat 1%nat one two).
  - repeat (constructor; [intros ips E; try discriminate E; injection E as <-; repeat (constructor; [apply entry_ok|]); constructor|]) || idtac.
    all: try (constructor; [exact I|]). all: repeat (constructor; [intros ips E; try discriminate E; injection E as <-; repeat (constructor; [apply entry_ok|]); constructor|]). constructor.
  - apply surjective_pairing.
  - vm_compute. reflexivity.
  - vm_compute. reflexivity.
  - exists (IP4 [10; 0; 0; 1]), (mapped 10 0 0 1), (IP4 [10; 0; 0; 1]), 6881. split; [exists 10, 0, 0, 1; unfold octet; repeat split; lia|].
    split; [split; [reflexivity|]; repeat (constructor; [lia|]); constructor|]. split; [apply ho_same|]. split; [apply ho_mapped|]. split; [lia|]. split; vm_compute; reflexivity.
Qed.
