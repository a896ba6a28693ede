(* Proofs about the bencode scanner. *)
From Verif Require Import Base ModelBencode SpecBencode ProofBase.

Definition at_ (p : Z) : scanner := mkSc p p.

(* ---- decimal notation ---- *)
Lemma decval_app a b : decval (a ++ b) = decval a * 10 ^ zlen b + decval b.
Proof.
  unfold decval. rewrite fold_left_app. generalize (fold_left (fun a c => a * 10 + (c - 48)) a 0).
  induction b as [|x b IH] using rev_ind; intros z.
  - cbn [fold_left]. change (zlen (@nil Z)) with 0. lia.
  - rewrite !fold_left_app; cbn [fold_left]. rewrite IH. autorewrite with zlen.
    replace (zlen b + (1 + 0)) with (1 + zlen b) by lia.
    rewrite Z.pow_add_r by (pose proof (zlen_nonneg b); lia). nia.
Qed.
Lemma decval_nil : decval [] = 0. Proof. reflexivity. Qed.
Lemma decval_one c : decval [c] = c - 48. Proof. unfold decval; cbn [fold_left]; lia. Qed.
Lemma decval_nonneg ds : digits ds -> 0 <= decval ds.
Proof.
  induction ds as [|x ds IH] using rev_ind; intros H; [cbn; lia|].
  apply Forall_app in H as [H1 H2]. rewrite decval_app, decval_one. autorewrite with zlen.
  specialize (IH H1). inversion H2 as [|? ? Hx _]; subst. unfold digit in Hx.
  change (1 + 0) with 1. rewrite Z.pow_1_r. lia.
Qed.
Lemma decval_prefix_le a b : digits a -> digits b -> decval a <= decval (a ++ b).
Proof.
  intros Ha Hb. rewrite decval_app. pose proof (decval_nonneg a Ha). pose proof (decval_nonneg b Hb).
  assert (0 < 10 ^ zlen b) by (apply Z.pow_pos_nonneg; [lia|apply zlen_nonneg]). nia.
Qed.
Lemma digit_is_digit c : digit c <-> is_digit c = true.
Proof. unfold digit, is_digit, chr_0, chr_9. lia. Qed.

(* first byte, if any, is not a digit *)
Definition stops (t : bytes) : Prop := match t with [] => True | c :: _ => is_digit c = false end.

Fixpoint take_digits (l : bytes) : bytes * bytes :=
  match l with
  | [] => ([], [])
  | c :: l' => if is_digit c then let (a, b) := take_digits l' in (c :: a, b) else ([], c :: l')
  end.
Lemma take_digits_spec l ds t : take_digits l = (ds, t) -> l = ds ++ t /\ digits ds /\ stops t.
Proof.
  revert ds t; induction l as [|c l IH]; intros ds t; cbn [take_digits].
  - intros H; injection H as <- <-. repeat split. constructor.
  - destruct (is_digit c) eqn:E.
    + destruct (take_digits l) as [a b]. intros H; injection H as <- <-.
      destruct (IH a b eq_refl) as (-> & Hd & Hs). repeat split; auto.
      constructor; auto. apply digit_is_digit; assumption.
    + intros H; injection H as <- <-. repeat split; auto. constructor.
Qed.
Lemma digits_unique ds1 t1 ds2 t2 :
  digits ds1 -> digits ds2 -> stops t1 -> stops t2 -> ds1 ++ t1 = ds2 ++ t2 -> ds1 = ds2 /\ t1 = t2.
Proof.
  revert ds2; induction ds1 as [|c ds1 IH]; intros [|c2 ds2] H1 H2 S1 S2 E; simpl in E.
  - auto.
  - subst t1. cbn in S1. inversion H2 as [|? ? Hc _]; subst. apply digit_is_digit in Hc. congruence.
  - subst t2. cbn in S2. inversion H1 as [|? ? Hc _]; subst. apply digit_is_digit in Hc. congruence.
  - injection E as <- E. inversion H1; subst; inversion H2; subst.
    destruct (IH ds2) as [-> ->]; auto.
Qed.

(* ---- primitive scanner operations ---- *)
Lemma peek_app pre c post x : peek (pre ++ c :: post) (mkSc x (zlen pre)) = Ok c.
Proof.
  unfold peek, is_finished; cbn [sc_cur]. autorewrite with zlen.
  pose proof (zlen_nonneg post).
  replace (zlen pre + (1 + zlen post) <=? zlen pre) with false by lia.
  rewrite nthZ_app; reflexivity.
Qed.
Lemma peek_end d x p : zlen d <= p -> peek d (mkSc x p) = Ok 0.
Proof. intros H. unfold peek, is_finished; cbn [sc_cur]. replace (zlen d <=? p) with true by lia. reflexivity. Qed.
Lemma advance_app pre c post x : advance (pre ++ c :: post) (mkSc x (zlen pre)) = Ok (mkSc x (zlen pre + 1)).
Proof. unfold advance; cbn [sc_cur sc_start]. rewrite nthZ_app; reflexivity. Qed.
Lemma match_app pre c post x :
  match_byte (pre ++ c :: post) (mkSc x (zlen pre)) c = Ok (true, at_ (zlen pre + 1)).
Proof.
  unfold match_byte. rewrite peek_app. cbn [bind]. rewrite Z.eqb_refl, advance_app. reflexivity.
Qed.
Lemma match_no pre t x r :
  r <> 0 -> match t with [] => True | c :: _ => c <> r end ->
  match_byte (pre ++ t) (mkSc x (zlen pre)) r = Ok (false, mkSc x (zlen pre)).
Proof.
  intros Hr Ht. unfold match_byte. destruct t as [|c t].
  - rewrite peek_end by (rewrite app_nil_r; lia). cbn [bind].
    replace (0 =? r) with false by lia. reflexivity.
  - rewrite peek_app. cbn [bind]. replace (c =? r) with false by lia. reflexivity.
Qed.

(* ---- number ---- *)
Definition mstep (n c : Z) : Z := wrap64 (wrap64 (n + (c - 48)) * 10).

Lemma number_loop_exact ds : forall pre t x n fuel,
  digits ds -> stops t -> (length ds < fuel)%nat ->
  number_loop fuel (pre ++ ds ++ t) (mkSc x (zlen pre)) n
  = Ok (fold_left mstep ds n, mkSc x (zlen pre + zlen ds)).
Proof.
  induction ds as [|c ds IH]; intros pre t x n fuel Hd Ht Hf.
  - destruct fuel as [|fuel]; [lia|]. cbn [number_loop app].
    assert (G : exists c, peek (pre ++ t) (mkSc x (zlen pre)) = Ok c /\ is_digit c = false).
    { destruct t as [|c t]; [|exists c; split; [apply peek_app|exact Ht]].
      exists 0. split; [apply peek_end; rewrite app_nil_r; lia|reflexivity]. }
    destruct G as (c & -> & Hc). cbn [bind]. rewrite Hc.
    rewrite zlen_nil. cbn [fold_left]. do 2 f_equal. f_equal; lia.
  - destruct fuel as [|fuel]; [lia|]. cbn [number_loop app].
    rewrite peek_app. cbn [bind]. inversion Hd as [|? ? Hc Hd']; subst.
    rewrite (proj1 (digit_is_digit c) Hc). rewrite advance_app. cbn [bind].
    change (wrap64 (wrap64 (n + (c - chr_0)) * 10)) with (mstep n c).
    specialize (IH (pre ++ [c]) t x (mstep n c) fuel Hd' Ht).
    rewrite <- app_assoc in IH. cbn [app] in IH.
    autorewrite with zlen in IH. replace (zlen pre + (1 + 0)) with (zlen pre + 1) in IH by lia.
    rewrite IH by (cbn [length] in Hf; lia). cbn [fold_left]. autorewrite with zlen. do 2 f_equal. f_equal; lia.
Qed.

Lemma number_exact pre ds t x :
  digits ds -> stops t ->
  number (pre ++ ds ++ t) (mkSc x (zlen pre)) = Ok (machine_val ds, at_ (zlen pre + zlen ds)).
Proof.
  intros Hd Ht. unfold number.
  rewrite (number_loop_exact ds pre t x 0); auto; rewrite !app_length; lia.
Qed.

(* The wrapped value is bounded, and exact on representable numbers. *)
Lemma machine_val_range ds : - MAXN <= machine_val ds <= MAXN.
Proof.
  unfold machine_val.
  assert (H : - 2^63 <= fold_left (fun n c => wrap64 (wrap64 (n + (c - 48)) * 10)) ds 0 < 2^63).
  { destruct ds as [|c ds] using rev_ind; [cbn; lia|]. rewrite fold_left_app. cbn [fold_left]. apply wrap64_range. }
  remember (fold_left _ ds 0) as n eqn:E. clear E. unfold MAXN.
  pose proof (Z.quot_rem' n 10). destruct (Z.le_gt_cases 0 n).
  - pose proof (Z.rem_bound_pos n 10 ltac:(lia) ltac:(lia)). lia.
  - pose proof (Z.rem_nonpos n 10 ltac:(lia) ltac:(lia)). pose proof (Z.rem_bound_abs n 10 ltac:(lia)). lia.
Qed.

Lemma machine_fold_exact ds : forall v,
  digits ds -> 0 <= v -> v * 10 ^ zlen ds + decval ds <= MAXN ->
  fold_left mstep ds (10 * v) = 10 * (v * 10 ^ zlen ds + decval ds).
Proof.
  induction ds as [|c ds IH]; intros v Hd Hv Hm.
  - cbn [fold_left]. rewrite zlen_nil, decval_nil. lia.
  - cbn [fold_left]. inversion Hd as [|? ? Hc Hd']; subst.
    assert (Hdv : decval (c :: ds) = (c - 48) * 10 ^ zlen ds + decval ds).
    { change (c :: ds) with ([c] ++ ds). rewrite decval_app, decval_one. reflexivity. }
    rewrite Hdv in *. autorewrite with zlen in *.
    rewrite Z.pow_add_r in * by (try apply zlen_nonneg; lia). rewrite Z.pow_1_r in *.
    pose proof (decval_nonneg ds Hd') as Hn. unfold digit in Hc.
    assert (Hp : 1 <= 10 ^ zlen ds) by (pose proof (Z.pow_pos_nonneg 10 (zlen ds)); pose proof (zlen_nonneg ds); lia).
    assert (Hle : v * 10 + (c - 48) <= MAXN) by nia.
    replace (mstep (10 * v) c) with (10 * (v * 10 + (c - 48))).
    + rewrite IH; auto; try lia; nia.
    + unfold mstep. unfold MAXN in *. rewrite (wrap64_small (10 * v + (c - 48))) by lia.
      rewrite wrap64_small by lia. lia.
Qed.

Lemma machine_val_exact ds : digits ds -> decval ds <= MAXN -> machine_val ds = decval ds.
Proof.
  intros Hd Hm. unfold machine_val.
  change (fold_left (fun n c => wrap64 (wrap64 (n + (c - 48)) * 10)) ds 0) with (fold_left mstep ds (10 * 0)).
  rewrite machine_fold_exact by (auto; lia).
  replace (10 * (0 * 10 ^ zlen ds + decval ds)) with (decval ds * 10) by lia. apply Z.quot_mul; lia.
Qed.

Lemma number_loop_gen fuel : forall d x p n,
  0 <= p <= zlen d -> (length d - Z.to_nat p < fuel)%nat ->
  exists m q, number_loop fuel d (mkSc x p) n = Ok (m, mkSc x q) /\ p <= q <= zlen d.
Proof.
  induction fuel as [|fuel IH]; intros d x p n Hp Hf; [lia|]. cbn [number_loop].
  destruct (Z.eq_dec p (zlen d)) as [->|Hne].
  - rewrite peek_end by lia. cbn [bind]. change (is_digit 0) with false. cbn iota.
    eexists _, _; split; [reflexivity|lia].
  - unfold peek, is_finished; cbn [sc_cur]. replace (zlen d <=? p) with false by lia.
    destruct (nthZ_some d p) as [c Hc]; [lia|]. rewrite Hc. cbn [bind].
    destruct (is_digit c).
    + unfold advance; cbn [sc_cur sc_start]. rewrite Hc. cbn [bind].
      destruct (IH d x (p + 1) (wrap64 (wrap64 (n + (c - chr_0)) * 10))) as (m & q & E & Hq);
        [lia|unfold zlen in *; lia|].
      exists m, q. split; [exact E|lia].
    + eexists _, _; split; [reflexivity|lia].
Qed.
Lemma number_gen d x p :
  0 <= p <= zlen d -> exists n q, number d (mkSc x p) = Ok (n, at_ q) /\ p <= q <= zlen d.
Proof.
  intros Hp. unfold number.
  destruct (number_loop_gen (S (length d)) d x p 0) as (m & q & E & Hq); [lia|lia|].
  rewrite E. cbn [bind]. eexists _, q; split; [reflexivity|lia].
Qed.

Lemma match_gen d x p r :
  0 <= p <= zlen d -> r <> 0 ->
  (match_byte d (mkSc x p) r = Ok (true, at_ (p + 1)) /\ p < zlen d) \/
  match_byte d (mkSc x p) r = Ok (false, mkSc x p).
Proof.
  intros Hp Hr. unfold match_byte. destruct (Z.eq_dec p (zlen d)) as [->|Hne].
  - rewrite peek_end by lia. cbn [bind]. replace (0 =? r) with false by lia. auto.
  - unfold peek, is_finished; cbn [sc_cur]. replace (zlen d <=? p) with false by lia.
    destruct (nthZ_some d p) as [c Hc]; [lia|]. rewrite Hc. cbn [bind].
    destruct (c =? r); [|auto]. left. unfold advance; cbn [sc_cur sc_start]. rewrite Hc.
    split; [reflexivity|lia].
Qed.

Lemma readString_gen d x p :
  0 <= p <= zlen d ->
  match readString d (mkSc x p) with
  | Ok (_, s') => exists q, s' = at_ q /\ p < q <= zlen d
  | Diverge => False
  | _ => True
  end.
Proof.
  intros Hp. unfold readString. destruct (number_gen d x p Hp) as (n & q & E & Hq). rewrite E.
  cbn [bind]. destruct (match_gen d q q chr_colon) as [[E2 Hlt]|E2]; [lia|discriminate| |];
    unfold at_ in *; rewrite E2; cbn [bind negb]; [|trivial].
  cbn [sc_cur sc_start]. destruct (Z.ltb_spec (zlen d) (wrap64 (q + 1 + n))); [trivial|].
  unfold read, slice; cbn [sc_cur sc_start].
  destruct ((0 <=? q + 1) && (q + 1 <=? wrap64 (q + 1 + n)) && (wrap64 (q + 1 + n) <=? zlen d)) eqn:G;
    cbn [bind]; [|trivial].
  exists (wrap64 (q + 1 + n)); split; [reflexivity|]. lia.
Qed.

Lemma readInt_gen d x p :
  0 <= p < zlen d ->
  match readInt d (mkSc x p) with
  | Ok (_, s') => exists q, s' = at_ q /\ p < q <= zlen d
  | Diverge | Panic => False
  | _ => True
  end.
Proof.
  intros Hp. unfold readInt, advance; cbn [sc_cur sc_start].
  destruct (nthZ_some d p) as [c Hc]; [lia|]. rewrite Hc. cbn [bind].
  unfold position; cbn [sc_cur].
  destruct (number_gen d (p + 1) (p + 1)) as (n & q & E & Hq); [lia|]. rewrite E. cbn [bind].
  destruct (match_gen d q q chr_e) as [[E2 Hlt]|E2]; [lia|discriminate| |];
    unfold at_ in *; rewrite E2; cbn [bind]; [|trivial].
  eexists; split; [reflexivity|lia].
Qed.

Lemma slice_gen {A} (d : list A) a b : 0 <= a <= b -> b <= zlen d -> exists v, slice d a b = Ok v.
Proof. intros. unfold slice. replace ((0 <=? a) && (a <=? b) && (b <=? zlen d)) with true by lia. eauto. Qed.

(* progress + termination of the three mutually recursive functions *)
Definition good {A} (d : bytes) (p : Z) (strict : bool) (r : res (A * scanner)) : Prop :=
  match r with
  | Ok (_, s') => exists q, s' = at_ q /\ (if strict then p < q else p <= q) /\ q <= zlen d
  | Diverge => False
  | _ => True
  end.

Lemma next_gen fuel :
  (forall d p, 0 <= p <= zlen d -> (2 * (length d - Z.to_nat p) + 1 <= fuel)%nat ->
     good d p true (next fuel d (at_ p))) /\
  (forall d p acc, 0 <= p <= zlen d -> (2 * (length d - Z.to_nat p) + 2 <= fuel)%nat ->
     good d p false (list_loop fuel d (at_ p) acc)) /\
  (forall d p acc, 0 <= p <= zlen d -> (2 * (length d - Z.to_nat p) + 2 <= fuel)%nat ->
     good d p false (dict_loop fuel d (at_ p) acc)).
Proof.
  induction fuel as [|fuel (IHn & IHl & IHd)]; [repeat split; intros; lia|].
  assert (Hpeek : forall d p, 0 <= p <= zlen d ->
            exists c, peek d (at_ p) = Ok c /\ (zlen d <= p -> c = 0)).
  { intros d p Hp. unfold peek, is_finished, at_; cbn [sc_cur].
    destruct (Z.leb_spec (zlen d) p); [eauto|].
    destruct (nthZ_some d p) as [c Hc]; [lia|]. rewrite Hc. eexists; split; [reflexivity|lia]. }
  repeat split.
  - intros d p Hp Hf. cbn [next]. destruct (Hpeek d p Hp) as (c & -> & Hc). cbn [bind].
    assert (Hadv : c <> 0 -> p < zlen d /\ advance d (at_ p) = Ok (mkSc p (p + 1))).
    { intros Hc0. assert (p < zlen d) by lia. split; [assumption|].
      unfold advance, at_; cbn [sc_cur sc_start]. destruct (nthZ_some d p) as [c' Hc']; [lia|].
      rewrite Hc'; reflexivity. }
    destruct (Z.eqb_spec c chr_l) as [->|Hnl].
    { destruct Hadv as [Hlt ->]; [discriminate|]. cbn [bind]. unfold position; cbn [sc_cur].
      specialize (IHl d (p + 1) []). unfold good, at_ in IHl |- *.
      destruct (list_loop fuel d (mkSc (p + 1) (p + 1)) []) as [[v s2]| | |]; cbn [bind]; trivial;
        [|apply IHl; unfold zlen in *; lia].
      destruct IHl as (q & -> & Hq & Hqe); [lia|unfold zlen in *; lia|].
      destruct (match_gen d q q chr_e) as [[E2 Hlt2]|E2]; [lia|discriminate| |]; rewrite E2;
        cbn [bind negb sc_start at_]; [|trivial].
      destruct (slice_gen d p (q + 1)) as [raw ->]; [lia|lia|]. cbn [bind].
      eexists; split; [reflexivity|lia]. }
    destruct (Z.eqb_spec c chr_d) as [->|Hnd].
    { destruct Hadv as [Hlt ->]; [discriminate|]. cbn [bind]. unfold position; cbn [sc_cur].
      specialize (IHd d (p + 1) []). unfold good, at_ in IHd |- *.
      destruct (dict_loop fuel d (mkSc (p + 1) (p + 1)) []) as [[v s2]| | |]; cbn [bind]; trivial;
        [|apply IHd; unfold zlen in *; lia].
      destruct IHd as (q & -> & Hq & Hqe); [lia|unfold zlen in *; lia|].
      destruct (match_gen d q q chr_e) as [[E2 Hlt2]|E2]; [lia|discriminate| |]; rewrite E2;
        cbn [bind negb sc_start at_]; [|trivial].
      destruct (slice_gen d p (q + 1)) as [raw ->]; [lia|lia|]. cbn [bind].
      eexists; split; [reflexivity|lia]. }
    destruct (Z.eqb_spec c chr_i) as [->|Hni].
    { destruct Hadv as [Hlt _]; [discriminate|].
      pose proof (readInt_gen d p p) as G. unfold good, at_ in *.
      destruct (readInt d (mkSc p p)) as [[n s']| | |]; cbn [bind]; trivial; try (apply G; lia). }
    pose proof (readString_gen d p p Hp) as G. unfold good, at_ in *.
    destruct (readString d (mkSc p p)) as [[n s']| | |]; cbn [bind]; trivial.
  - intros d p acc Hp Hf. cbn [list_loop]. destruct (Hpeek d p Hp) as (c & -> & Hc). cbn [bind].
    unfold is_finished, at_ at 1; cbn [sc_cur].
    destruct (negb (c =? chr_e) && negb (zlen d <=? p)) eqn:G.
    + change (position (at_ p)) with (at_ p). specialize (IHn d p Hp).
      unfold good in IHn.
      destruct (next fuel d (at_ p)) as [[e s']| | |]; cbn [bind]; try exact I; try (apply IHn; lia).
      destruct IHn as (q & -> & Hq & Hqe); [lia|].
      specialize (IHl d q (acc ++ [e])). unfold good in *.
      destruct (list_loop fuel d (at_ q) (acc ++ [e])) as [[v s2]| | |]; trivial;
        [|apply IHl; unfold zlen in *; lia].
      destruct IHl as (q2 & -> & Hq2 & Hqe2); [lia|unfold zlen in *; lia|].
      exists q2; repeat split; lia.
    + cbn. exists p; repeat split; lia.
  - intros d p acc Hp Hf. cbn [dict_loop]. destruct (Hpeek d p Hp) as (c & -> & Hc). cbn [bind].
    unfold is_finished, at_ at 1; cbn [sc_cur].
    destruct (negb (c =? chr_e) && negb (zlen d <=? p)) eqn:G.
    + pose proof (readString_gen d p p Hp) as Gs. unfold at_ at 1.
      destruct (readString d (mkSc p p)) as [[k s1]| | |]; cbn [bind]; try exact I; try contradiction.
      destruct Gs as (q0 & -> & Hq0).
      specialize (IHn d q0). unfold good in IHn.
      destruct (next fuel d (at_ q0)) as [[e s']| | |]; cbn [bind]; try exact I;
        try (apply IHn; unfold zlen in *; lia).
      destruct IHn as (q & -> & Hq & Hqe); [lia|unfold zlen in *; lia|].
      specialize (IHd d q (insert k e acc)). unfold good in *.
      destruct (dict_loop fuel d (at_ q) (insert k e acc)) as [[v s2]| | |]; trivial;
        [|apply IHd; unfold zlen in *; lia].
      destruct IHd as (q2 & -> & Hq2 & Hqe2); [lia|unfold zlen in *; lia|].
      exists q2; repeat split; lia.
    + cbn. exists p; repeat split; lia.
Qed.

Lemma parse_terminates d : Parse d <> Diverge.
Proof.
  unfold Parse. destruct (is_finished d (mkSc 0 0)); [discriminate|].
  pose proof (proj1 (next_gen (parse_fuel d)) d 0) as G.
  unfold good, at_ in G. destruct (next (parse_fuel d) d (mkSc 0 0)) as [[e s]| | |]; cbn [bind]; try discriminate.
  exfalso. apply G; [pose proof (zlen_nonneg d); lia|unfold parse_fuel; lia].
Qed.

(* ---- strings ---- *)
Lemma stops_colon t : stops (58 :: t). Proof. reflexivity. Qed.

Lemma readString_exact pre ds s t x :
  digits ds -> machine_val ds = zlen s -> zlen (pre ++ ds ++ [58] ++ s) < 2^63 ->
  readString (pre ++ (ds ++ [58] ++ s) ++ t) (mkSc x (zlen pre))
  = Ok (s, at_ (zlen pre + zlen (ds ++ [58] ++ s))).
Proof.
  intros Hd Hv Hl. unfold readString.
  replace (pre ++ (ds ++ [58] ++ s) ++ t) with (pre ++ ds ++ 58 :: s ++ t)
    by (rewrite <- !app_assoc; reflexivity).
  rewrite number_exact by (auto using stops_colon; lia). cbn [bind].
  replace (pre ++ ds ++ 58 :: s ++ t) with ((pre ++ ds) ++ 58 :: s ++ t) by (rewrite <- app_assoc; reflexivity).
  unfold at_. rewrite <- zlen_app. change chr_colon with 58. rewrite match_app. cbn [bind negb at_ sc_start sc_cur].
  autorewrite with zlen in *. pose proof (zlen_nonneg pre). pose proof (zlen_nonneg ds).
  pose proof (zlen_nonneg s). pose proof (zlen_nonneg t).
  rewrite wrap64_small by lia. rewrite Hv.
  replace (zlen pre + zlen ds + (1 + (zlen s + zlen t)) <? zlen pre + zlen ds + 1 + zlen s) with false by lia.
  unfold read; cbn [sc_start sc_cur].
  pose proof (slice_app (pre ++ ds ++ [58]) s t) as G. autorewrite with zlen in G.
  rewrite <- !app_assoc in G. cbn [app] in G. rewrite <- app_assoc.
  cbn [app]. replace (zlen pre + zlen ds + 1) with (zlen pre + (zlen ds + (1 + 0))) by lia.
  rewrite G. cbn [bind]. unfold position, at_; cbn [sc_cur]. do 2 f_equal. f_equal; lia.
Qed.

(* readString has exactly three outcomes. *)
Lemma readString_sound pre l x :
  zlen (pre ++ l) <= MAXN ->
  (exists ds s t, l = (ds ++ [58] ++ s) ++ t /\ digits ds /\ machine_val ds = zlen s /\
     readString (pre ++ l) (mkSc x (zlen pre)) = Ok (s, at_ (zlen pre + zlen (ds ++ [58] ++ s)))) \/
  (exists e, readString (pre ++ l) (mkSc x (zlen pre)) = Err e) \/
  (exists ds t, l = ds ++ [58] ++ t /\ digits ds /\ machine_val ds < 0 /\
     readString (pre ++ l) (mkSc x (zlen pre)) = Panic).
Proof.
  intros Hl. unfold MAXN in Hl. destruct (take_digits l) as [ds t] eqn:E.
  apply take_digits_spec in E as (-> & Hd & Ht).
  assert (Hnum := number_exact pre ds t x Hd Ht).
  destruct t as [|c t].
  { right; left. eexists. unfold readString. rewrite Hnum. cbn [bind].
    rewrite app_nil_r. unfold at_. rewrite <- zlen_app.
    pose proof (match_no (pre ++ ds) [] (zlen (pre ++ ds)) chr_colon) as G.
    rewrite app_nil_r in G. rewrite G by (trivial; discriminate). reflexivity. }
  destruct (Z.eq_dec c 58) as [->|Hc].
  2:{ right; left. eexists. unfold readString. rewrite Hnum. cbn [bind]. unfold at_. rewrite <- zlen_app.
      rewrite app_assoc. rewrite match_no by (trivial; discriminate). reflexivity. }
  pose proof (machine_val_range ds) as Hr. unfold MAXN in Hr.
  destruct (Z.ltb_spec (machine_val ds) 0) as [Hneg|Hpos].
  - right; right. exists ds, t. repeat split; auto. unfold readString. rewrite Hnum. cbn [bind].
    replace (pre ++ ds ++ 58 :: t) with ((pre ++ ds) ++ 58 :: t) by (rewrite <- app_assoc; reflexivity).
    unfold at_. rewrite <- zlen_app. change chr_colon with 58. rewrite match_app.
    cbn [bind negb at_ sc_start sc_cur]. autorewrite with zlen in *.
    pose proof (zlen_nonneg pre). pose proof (zlen_nonneg ds). pose proof (zlen_nonneg t).
    rewrite wrap64_small by lia.
    replace (zlen pre + zlen ds + (1 + zlen t) <? zlen pre + zlen ds + 1 + machine_val ds) with false by lia.
    unfold read, slice; cbn [sc_start sc_cur].
    replace (zlen pre + zlen ds + 1 <=? zlen pre + zlen ds + 1 + machine_val ds) with false by lia.
    rewrite andb_false_r. reflexivity.
  - destruct (Z.leb_spec (machine_val ds) (zlen t)) as [Hle|Hgt].
    + left. exists ds, (firstn (Z.to_nat (machine_val ds)) t), (skipn (Z.to_nat (machine_val ds)) t).
      assert (Hlen : machine_val ds = zlen (firstn (Z.to_nat (machine_val ds)) t)).
      { unfold zlen in *. rewrite firstn_length. lia. }
      assert (El : ds ++ 58 :: t = (ds ++ [58] ++ firstn (Z.to_nat (machine_val ds)) t) ++ skipn (Z.to_nat (machine_val ds)) t).
      { rewrite <- !app_assoc. cbn [app]. rewrite firstn_skipn. reflexivity. }
      repeat split; auto.
      rewrite El. apply readString_exact; auto.
      autorewrite with zlen in *. rewrite <- Hlen. pose proof (zlen_nonneg t). lia.
    + right; left. eexists. unfold readString. rewrite Hnum. cbn [bind].
      replace (pre ++ ds ++ 58 :: t) with ((pre ++ ds) ++ 58 :: t) by (rewrite <- app_assoc; reflexivity).
      unfold at_. rewrite <- zlen_app. change chr_colon with 58. rewrite match_app.
      cbn [bind negb at_ sc_start sc_cur]. autorewrite with zlen in *.
      pose proof (zlen_nonneg pre). pose proof (zlen_nonneg ds). pose proof (zlen_nonneg t).
      rewrite wrap64_small by lia.
      replace (zlen pre + zlen ds + (1 + zlen t) <? zlen pre + zlen ds + 1 + machine_val ds) with true by lia.
      reflexivity.
Qed.

Lemma readInt_exact pre ds t :
  digits ds ->
  readInt (pre ++ ([105] ++ ds ++ [101]) ++ t) (at_ (zlen pre))
  = Ok (machine_val ds, at_ (zlen pre + zlen ([105] ++ ds ++ [101]))).
Proof.
  intros Hd. unfold readInt, at_.
  replace (pre ++ ([105] ++ ds ++ [101]) ++ t) with (pre ++ 105 :: ds ++ 101 :: t)
    by (cbn [app]; rewrite <- !app_assoc; reflexivity).
  rewrite advance_app. cbn [bind]. unfold position; cbn [sc_cur].
  replace (pre ++ 105 :: ds ++ 101 :: t) with ((pre ++ [105]) ++ ds ++ 101 :: t) by (rewrite <- app_assoc; reflexivity).
  replace (zlen pre + 1) with (zlen (pre ++ [105])) by (autorewrite with zlen; lia).
  rewrite number_exact; auto; [|reflexivity]. cbn [bind].
  rewrite app_assoc. unfold at_. rewrite <- zlen_app. change chr_e with 101. rewrite match_app. cbn [bind].
  do 2 f_equal. unfold at_. autorewrite with zlen. f_equal; lia.
Qed.

Lemma readInt_sound pre l :
  (exists ds t, 105 :: l = ([105] ++ ds ++ [101]) ++ t /\ digits ds /\
     readInt (pre ++ 105 :: l) (at_ (zlen pre)) = Ok (machine_val ds, at_ (zlen pre + zlen ([105] ++ ds ++ [101])))) \/
  (exists e, readInt (pre ++ 105 :: l) (at_ (zlen pre)) = Err e).
Proof.
  destruct (take_digits l) as [ds t] eqn:E.
  apply take_digits_spec in E as (-> & Hd & Ht).
  destruct t as [|c t]; [|destruct (Z.eq_dec c 101) as [->|Hc]].
  2:{ left. exists ds, t.
      assert (E : 105 :: ds ++ 101 :: t = ([105] ++ ds ++ [101]) ++ t)
        by (cbn [app]; rewrite <- app_assoc; reflexivity).
      repeat split; auto. rewrite E. apply readInt_exact; auto. }
  all: right; eexists; unfold readInt, at_; rewrite advance_app; cbn [bind]; unfold position; cbn [sc_cur].
  - replace (pre ++ 105 :: ds ++ []) with ((pre ++ [105]) ++ ds ++ []) by (rewrite <- app_assoc; reflexivity).
    replace (zlen pre + 1) with (zlen (pre ++ [105])) by (autorewrite with zlen; lia).
    rewrite number_exact; auto. cbn [bind]. rewrite app_assoc. unfold at_. rewrite <- zlen_app.
    rewrite match_no by (trivial; discriminate). reflexivity.
  - replace (pre ++ 105 :: ds ++ c :: t) with ((pre ++ [105]) ++ ds ++ c :: t) by (rewrite <- app_assoc; reflexivity).
    replace (zlen pre + 1) with (zlen (pre ++ [105])) by (autorewrite with zlen; lia).
    rewrite number_exact; auto. cbn [bind]. rewrite app_assoc. unfold at_. rewrite <- zlen_app.
    rewrite match_no by (trivial; discriminate). reflexivity.
Qed.
