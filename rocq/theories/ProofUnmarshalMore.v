(* Literals, parsed documents, untouched fields, panics, info hash. *)
From Verif Require Import Base ProofBase ModelBencode SpecText ProofText SpecBencode ProofBencode ProofBencodeGrammar ProofBencodeMore
  ModelUnmarshal SpecUnmarshal ProofNum ProofUnmarshal.

(* ---- literals denote one number ---- *)
Lemma reads_fun b s n m : reads b s n m -> forall m', reads b s n m' -> m = m'.
Proof.
  induction 1 as [n|s n m H IH|c d s n m Hd Hlt H IH]; intros m' H'; inversion H'; subst; auto.
  - discriminate.
  - discriminate.
  - apply IH. congruence.
Qed.
Lemma prefix_not_octal c r n m : c = 120 \/ c = 88 \/ c = 111 \/ c = 79 \/ c = 98 \/ c = 66 -> ~ reads 8 (c :: r) n m.
Proof.
  intros Hc H. inversion H as [|? ? ? H'|? d ? ? ? Hd Hlt H']; subst; [lia|].
  destruct Hc as [->|[->|[->|[->|[->| ->]]]]]; vm_compute in Hd; injection Hd as <-; lia.
Qed.
Lemma magnitude_fun s n m : magnitude s n -> magnitude s m -> n = m.
Proof.
  intros (p & b & ds & R & D & _) (p' & b' & ds' & R' & D' & _).
  inversion R; subst; inversion R'; subst; try lia; try (eapply reads_fun; eassumption);
    try (exfalso; eapply (prefix_not_octal c); [|eassumption]; lia).
Qed.
Lemma int_literal_fun s n m : int_literal s n -> int_literal s m -> n = m.
Proof.
  intros [H|[(r & -> & H)|(r & -> & H)]] [H'|[(r' & E & H')|(r' & E & H')]]; subst.
  - eapply magnitude_fun; eauto.
  - exfalso. revert H. apply magnitude_not_sign. auto.
  - exfalso. revert H. apply magnitude_not_sign. auto.
  - exfalso. revert H'. apply magnitude_not_sign. auto.
  - injection E as <-. eapply magnitude_fun; eauto.
  - discriminate.
  - exfalso. revert H'. apply magnitude_not_sign. auto.
  - discriminate.
  - injection E as <-. assert (- n = - m) by (eapply magnitude_fun; eauto). lia.
Qed.

Lemma reads_digits ds : digits ds -> forall n, reads 10 ds n (fold_left (fun a c => a * 10 + (c - 48)) ds n).
Proof.
  induction 1 as [|c ds Hc Hds IH]; intros n; [constructor|]. cbn [fold_left]. unfold digit in Hc.
  apply reads_digit with (d := c - 48); [|lia|apply IH].
  unfold digit_value. replace ((48 <=? c) && (c <=? 57)) with true by lia. reflexivity.
Qed.
Lemma digits_aux_head fuel : forall n acc, 0 < n < 2 ^ Z.of_nat fuel -> hd 0 (digits_aux fuel n acc) <> 48.
Proof.
  induction fuel as [|fuel IH]; intros n acc Hn; [cbn in Hn; lia|]. cbn [digits_aux].
  destruct (Z.eqb_spec (n / 10) 0) as [E|E].
  - cbn [hd]. assert (n mod 10 = n) by (apply Z.mod_small; apply Z.div_small_iff in E; lia). lia.
  - assert (0 <= n / 10) by (apply Z.div_pos; lia). apply IH. split; [lia|].
    apply Z.div_lt_upper_bound; [lia|]. rewrite Nat2Z.inj_succ, Z.pow_succ_r in Hn by lia. lia.
Qed.
Lemma digits_no95 ds : digits ds -> ~ In 95 ds.
Proof. intros H Hi. apply (proj1 (Forall_forall _ _) H) in Hi. unfold digit in Hi. lia. Qed.
Lemma magnitude_utoa n : 0 <= n -> magnitude (utoa n) n.
Proof.
  intros Hn. destruct (utoa_spec n Hn) as (Hd & Hv & Hne). pose proof (digits_no95 _ Hd) as H95.
  assert (Hsep : forall p ds, (forall x, In x ds -> In x (utoa n)) -> sep_ok p ds).
  { intros p ds Hs. repeat split.
    - intros _ H. destruct ds as [|x ds]; cbn in H; [lia|]. apply H95, Hs. left; auto.
    - intros a b ->. apply H95, Hs. apply in_or_app; right; left; reflexivity.
    - intros a ->. apply H95, Hs. apply in_or_app; right; left; reflexivity. }
  destruct (Z.eq_dec n 0) as [->|Hnz].
  - exists [48], 8, []. repeat split; try (apply rx_zero); try (apply (Hsep [48] [])); try (intros x []). constructor.
  - assert (Hh : hd 0 (utoa n) <> 48).
    { apply digits_aux_head. split; [lia|]. rewrite Nat2Z.inj_succ, Z2Nat.id by apply Z.log2_nonneg. apply Z.log2_spec; lia. }
    exists [], 10, (utoa n). split; [destruct (utoa n) as [|c r]; [congruence|apply rx_dec; exact Hh]|].
    split; [|apply Hsep; auto]. pose proof (reads_digits _ Hd 0) as R. unfold decval in Hv. rewrite Hv in R. exact R.
Qed.
Lemma int_literal_itoa n m : int_literal (itoa n) m <-> m = n.
Proof.
  assert (G : int_literal (itoa n) n).
  { unfold itoa. destruct (Z.ltb_spec n 0).
    - right; right. eexists; split; [reflexivity|apply magnitude_utoa; lia].
    - left. apply magnitude_utoa; lia. }
  split; [intros H; eapply int_literal_fun; eauto|intros ->; exact G].
Qed.
Lemma magnitude_itoa n m : magnitude (itoa n) m <-> m = n /\ 0 <= n.
Proof.
  unfold itoa. destruct (Z.ltb_spec n 0).
  - split; [|lia]. intros H'. exfalso. revert H'. apply magnitude_not_sign. auto.
  - split; [intros H'; split; [eapply magnitude_fun; eauto using magnitude_utoa|lia]|intros [-> _]; apply magnitude_utoa; lia].
Qed.

(* ---- parsed documents ---- *)
Definition no_nil (v : ben) : Prop := ~ inside BNil v.
Lemma map_from_nodup {A} (es : list (bytes * A)) : forall m, NoDup (map fst m) -> NoDup (map fst (map_from es m)).
Proof.
  induction es as [|[k v] es IH]; intros m H; [exact H|]. cbn [map_from fold_left fst snd]. apply IH. apply insert_nodup; exact H.
Qed.
Lemma parsed_ok d e : fits d -> Parse d = Ok e -> map_keys_ok e /\ no_nil e.
Proof.
  intros Hf Hp. apply parse_iff in Hp as (w & post & -> & Hw); [|exact Hf]. split.
  - intros x Hx. destruct (inside_denotes _ _ _ Hx w Hw) as (a & wx & b & _ & Hd).
    inversion Hd; subst; trivial. apply (map_from_nodup es []). constructor.
  - intros Hx. destruct (inside_denotes _ _ _ Hx w Hw) as (a & wx & b & _ & Hd). inversion Hd.
Qed.
Lemma parsed_here d e : fits d -> Parse d = Ok e -> match e with BDict p _ _ => p = true | _ => True end.
Proof. intros Hf Hp. apply parse_iff in Hp as (w & post & -> & Hw); [|exact Hf]. inversion Hw; subst; trivial. Qed.

(* ---- outcomes other than success ---- *)
Definition fine (r : outcome) : Prop := (exists u, r = Ok u) \/ exists m, r = Err m.
Lemma no_nil_here v : no_nil v -> v <> BNil.
Proof. intros H ->. apply H. constructor. Qed.
Lemma no_nil_item p vs raw e : no_nil (BList p vs raw) -> In e vs -> no_nil e.
Proof. intros H Hi Hx. apply H. eapply in_list; eauto. Qed.
Lemma no_nil_entry p m raw k e : no_nil (BDict p m raw) -> In (k, e) m -> no_nil e.
Proof. intros H Hi Hx. apply H. eapply in_dict; eauto. Qed.
Lemma fine_ok u : fine (Ok u). Proof. left; eauto. Qed.
Lemma fine_err m : fine (Err m). Proof. right; eauto. Qed.
#[local] Hint Resolve fine_ok fine_err : core.

Lemma string_keys_struct fs : string_keys (TStruct fs) -> Forall (fun f => string_keys (snd f)) fs.
Proof. induction fs as [|f fs IH]; [constructor|]. intros [H1 H2]. constructor; [exact H1|exact (IH H2)]. Qed.

Lemma set_list_fine set vs : (forall v, In v vs -> fine (snd (set v))) -> fine (snd (set_list set vs)).
Proof.
  induction vs as [|v vs IH]; intros H; cbn [set_list]; [cbn; auto|].
  pose proof (H v (or_introl eq_refl)) as Hv. specialize (IH (fun x Hx => H x (or_intror Hx))).
  destruct (set v) as [g [u|m| |]]; cbn [snd] in *; auto. destruct (set_list set vs) as [gs o]. exact IH.
Qed.
Lemma set_map_fine set m : (forall k v, In (k, v) m -> fine (snd (set v))) -> forall acc, fine (snd (set_map true set m acc)).
Proof.
  induction m as [|[k v] m IH]; intros H acc; cbn [set_map]; [cbn; auto|].
  pose proof (H k v (or_introl eq_refl)) as Hv.
  destruct (set v) as [g [u|e| |]]; cbn [snd] in *; auto. apply IH. intros k' v' Hi. apply (H k'). right; exact Hi.
Qed.
Lemma set_fields_fine m fs :
  Forall (fun f => forall old k v, In (k, v) m -> fine (snd (set_field (snd f) old v))) fs ->
  forall olds, fine (snd (set_fields m fs olds)).
Proof.
  induction 1 as [|[[tag canset] t] fs Hf Hfs IH]; intros olds; cbn [set_fields]; [cbn; auto|].
  destruct olds as [|o olds]; [cbn; auto|]. specialize (IH olds).
  destruct (negb canset || beq tag []).
  { destruct (set_fields m fs olds); exact IH. }
  destruct (lookup (tag_name tag) m) as [v|] eqn:El.
  - apply lookup_in in El. pose proof (Hf o _ _ El) as Hv. cbn [snd] in Hv.
    destruct v; [destruct (tag_optional tag); [destruct (set_fields m fs olds); exact IH|cbn; auto]|..];
      match goal with |- context [set_field t o ?v] => destruct (set_field t o v) as [g [u|e| |]] end; cbn [snd] in *; auto;
      destruct (set_fields m fs olds); exact IH.
  - destruct (tag_optional tag); [destruct (set_fields m fs olds); exact IH|cbn; auto].
Qed.
Lemma set_field_fine t : string_keys t -> forall old v, no_nil v -> fine (snd (set_field t old v)).
Proof.
  induction t as [|b|b|t IH|fs IH|k t IH|t IH|] using gty_ind'; intros Hs old v Hn;
    pose proof (no_nil_here _ Hn) as Hh; cbn [set_field].
  - destruct v; try congruence; cbn; auto.
  - destruct v; try congruence;
      match goal with |- context [ParseInt0 ?s b] => destruct (ParseInt0 s b) end; cbn; auto.
  - destruct v; try congruence;
      match goal with |- context [ParseUint0 ?s b] => destruct (ParseUint0 s b) end; cbn; auto.
  - destruct (is_u8 t).
    + destruct v; try congruence; cbn; auto.
    + destruct v as [|z|s|[|] vs raw|p m raw]; try congruence; try (cbn; auto; fail).
      assert (X := set_list_fine (set_field t (zero t)) vs ltac:(intros e He; apply IH; [exact Hs|eapply no_nil_item; eauto])).
      destruct (set_list (set_field t (zero t)) vs) as [gs [u|e| |]]; cbn in *; auto.
  - destruct v as [|z|s|p vs raw|[|] m raw]; try congruence; try (cbn; auto; fail).
    destruct old; try (cbn; auto; fail).
    match goal with |- fine (snd ?x) => change x with (set_field (TStruct fs) (VStruct vs) (BDict true m raw)) end.
    rewrite set_struct.
    assert (X : fine (snd (set_fields m fs vs))).
    { apply set_fields_fine. apply string_keys_struct in Hs.
      clear -IH Hs Hn. induction IH as [|f fs Hf Hfs IHf]; constructor; inversion Hs; subst; auto.
      intros old k v Hin. apply Hf; auto. eapply no_nil_entry; eauto. }
    destruct (set_fields m fs vs); exact X.
  - destruct Hs as [-> Hs]. destruct v as [|z|s|p vs raw|[|] m raw]; try congruence; try (cbn; auto; fail).
    assert (X := set_map_fine (set_field t (zero t)) m ltac:(intros k e He; apply IH; [exact Hs|eapply no_nil_entry; eauto]) []).
    destruct (set_map true (set_field t (zero t)) m []) as [gs [u|e| |]]; cbn in *; auto.
  - set (cur := match old with VPtr (Some g) => g | _ => zero t end). specialize (IH Hs cur v Hn).
    destruct t; try (destruct (set_field _ cur v); exact IH). cbn; auto.
  - cbn; auto.
Qed.

(* ---- untouched fields, whatever the outcome ---- *)
Lemma set_fields_untouched m fs : forall olds i tag canset t,
  nth_error fs i = Some (tag, canset, t) ->
  canset = false \/ tag = [] \/ (exists key, tag_means tag key true /\ absent m key) ->
  nth_error (fst (set_fields m fs olds)) i = nth_error olds i.
Proof.
  induction fs as [|[[tag' canset'] t'] fs IH]; intros olds i tag canset t Hi Hc; [destruct i; discriminate|].
  destruct olds as [|o olds]; [reflexivity|]. cbn [set_fields].
  destruct i as [|i].
  - cbn in Hi. injection Hi as -> -> ->.
    destruct Hc as [->|[->|(key & Hm & Ha)]].
    + cbn [negb orb]. destruct (set_fields m fs olds); reflexivity.
    + rewrite beq_refl, orb_true_r. destruct (set_fields m fs olds); reflexivity.
    + destruct (negb canset || beq tag []); [destruct (set_fields m fs olds); reflexivity|].
      apply tag_means_iff in Hm as [-> Ho]. rewrite <- Ho.
      destruct Ha as [-> | ->]; destruct (set_fields m fs olds); reflexivity.
  - cbn in Hi. specialize (IH olds i tag canset t Hi Hc).
    destruct (negb canset' || beq tag' []); [destruct (set_fields m fs olds); exact IH|].
    destruct (lookup (tag_name tag') m) as [v|].
    2:{ destruct (tag_optional tag'); [destruct (set_fields m fs olds); exact IH|reflexivity]. }
    destruct v; [destruct (tag_optional tag'); [destruct (set_fields m fs olds); exact IH|reflexivity]|..];
      match goal with |- context [set_field t' o ?v] => destruct (set_field t' o v) as [g [u|e| |]] end; try reflexivity;
      destruct (set_fields m fs olds); exact IH.
Qed.

Lemma conv_fields_required m fs olds news tag t key : conv_fields m fs olds news ->
  In (tag, true, t) fs -> tag <> [] -> tag_means tag key false -> ~ absent m key.
Proof.
  intros H Hi Hne Hm Ha. apply tag_means_iff in Hm as [-> Ho].
  induction H as [|m tag' canset t' fs o olds news Hs H IH|m tag' t' fs o olds news key Ht Hm Hab H IH|m tag' t' fs o olds news key opt v g Ht Hm Hl Hv Hc H IH];
    [destruct Hi|..]; destruct Hi as [E|Hi]; try (apply IH; assumption); inversion E; subst.
  - destruct Hs; congruence.
  - apply tag_means_iff in Hm as [_ Hm]. congruence.
  - apply tag_means_iff in Hm as [-> _]. destruct Ha; congruence.
Qed.

Lemma conv_fields_nth m fs olds news i tag t key opt v : conv_fields m fs olds news ->
  nth_error fs i = Some (tag, true, t) -> tag <> [] -> tag_means tag key opt -> lookup key m = Some v -> v <> BNil ->
  exists o g, nth_error olds i = Some o /\ nth_error news i = Some g /\ conv t o v g.
Proof.
  intros H. revert i.
  induction H as [|m tag' canset t' fs o olds news Hs H IH|m tag' t' fs o olds news key' Ht Hm' Hab H IH|m tag' t' fs o olds news key' opt' v' g Ht Hm' Hl' Hv' Hc H IH];
    intros i Hi Hne Hm Hl Hv; destruct i as [|i]; try discriminate; cbn in Hi; try (apply IH; assumption); inversion Hi; subst.
  - destruct Hs; congruence.
  - apply tag_means_iff in Hm' as [-> _]. apply tag_means_iff in Hm as [-> _]. destruct Hab; congruence.
  - apply tag_means_iff in Hm' as [-> _]. apply tag_means_iff in Hm as [-> _]. assert (v' = v) as -> by congruence. cbn. eauto.
Qed.

(* ---- Unmarshal ---- *)
Lemma unmarshal_exact d fs vs g : fits d -> widths (TStruct fs) -> typed (TStruct fs) (VStruct vs) -> has_tagged fs = true ->
  (Unmarshal d (TgtStruct fs vs) = (g, Ok tt) <->
   exists m raw news, Parse d = Ok (BDict true m raw) /\ conv_fields m fs vs news /\ g = VStruct news).
Proof.
  intros Hf Hw Ht Hh. unfold Unmarshal. destruct (Parse d) as [e|e| |] eqn:Ep;
    try (split; [discriminate|intros (m & raw & news & E & _); discriminate]).
  destruct (parsed_ok _ _ Hf Ep) as [Hk _]. unfold processTarget.
  destruct e as [|z|s|p l raw|[|] m raw];
    try (rewrite Hh; split; [discriminate|intros (m' & raw' & news & E & _); discriminate]).
  rewrite (set_field_exact (TStruct fs) Hw (VStruct vs) _ Ht Hk g). split.
  - intros H. inversion H as [| | | | |? ? ? m' news [raw' Hd] Hc| | | |]; subst. injection Hd as <- <-. eauto 6.
  - intros (m' & raw' & news & E & Hc & ->). injection E as -> ->. apply cv_struct with (m := m'); [eexists; reflexivity|exact Hc].
Qed.

Lemma has_tagged_in fs tag t : In (tag, true, t) fs -> tag <> [] -> has_tagged fs = true.
Proof.
  intros Hi Ht. apply existsb_exists. exists (tag, true, t). split; [exact Hi|]. apply beq_neq in Ht. rewrite Ht. reflexivity.
Qed.

Lemma unmarshal_fine d fs vs m raw : fits d -> string_keys (TStruct fs) -> Parse d = Ok (BDict true m raw) ->
  fine (snd (Unmarshal d (TgtStruct fs vs))).
Proof.
  intros Hf Hs Hp. unfold Unmarshal. rewrite Hp. cbn [processTarget]. apply set_field_fine; [exact Hs|].
  apply (parsed_ok _ _ Hf Hp).
Qed.

Lemma unmarshal_missing d fs vs m raw tag t key :
  fits d -> widths (TStruct fs) -> typed (TStruct fs) (VStruct vs) -> string_keys (TStruct fs) ->
  Parse d = Ok (BDict true m raw) -> In (tag, true, t) fs -> tag <> [] -> tag_means tag key false -> lookup key m = None ->
  exists e, snd (Unmarshal d (TgtStruct fs vs)) = Err e.
Proof.
  intros Hf Hw Ht Hs Hp Hi Hne Hm Ha.
  destruct (unmarshal_fine d fs vs m raw Hf Hs Hp) as [[[] E]|E]; [|exact E]. exfalso.
  destruct (Unmarshal d (TgtStruct fs vs)) as [g r] eqn:Eu. cbn in E. subst r.
  apply unmarshal_exact in Eu as (m' & raw' & news & Ep & Hc & _); auto; [|eapply has_tagged_in; eauto].
  rewrite Hp in Ep. injection Ep as <- <-. eapply conv_fields_required; eauto. left; exact Ha.
Qed.


Lemma unmarshal_untouched d fs vs i tag canset t :
  nth_error fs i = Some (tag, canset, t) ->
  canset = false \/ tag = [] \/
    (exists key, tag_means tag key true /\ forall m raw, Parse d = Ok (BDict true m raw) -> absent m key) ->
  field_of (fst (Unmarshal d (TgtStruct fs vs))) i = nth_error vs i.
Proof.
  intros Hi Hc. unfold Unmarshal. destruct (Parse d) as [e|e| |] eqn:Ep; try reflexivity.
  destruct e as [|z|s|p l raw|[|] m raw]; try reflexivity.
  cbn [processTarget]. rewrite set_struct.
  assert (X := set_fields_untouched m fs vs i tag canset t Hi).
  destruct (set_fields m fs vs) as [gs r]. apply X.
  destruct Hc as [H|[H|(key & Hm & Ha)]]; auto. right; right. eauto.
Qed.

Lemma unmarshal_field d fs vs g i tag t key opt m raw v :
  fits d -> widths (TStruct fs) -> typed (TStruct fs) (VStruct vs) ->
  Unmarshal d (TgtStruct fs vs) = (g, Ok tt) -> Parse d = Ok (BDict true m raw) ->
  nth_error fs i = Some (tag, true, t) -> tag <> [] -> tag_means tag key opt -> lookup key m = Some v ->
  exists o g', nth_error vs i = Some o /\ field_of g i = Some g' /\ conv t o v g'.
Proof.
  intros Hf Hw Ht Hu Hp Hi Hne Hm Hl.
  apply unmarshal_exact in Hu as (m' & raw' & news & Ep & Hc & ->); auto; [|eapply has_tagged_in; eauto; eapply nth_error_In; eauto].
  rewrite Hp in Ep. injection Ep as <- <-. eapply conv_fields_nth; eauto.
  intros ->. apply (proj2 (parsed_ok _ _ Hf Hp)). eapply in_dict; [apply lookup_in; exact Hl|constructor].
Qed.

Lemma unmarshal_int_field d fs vs g i tag b key opt m raw n :
  fits d -> widths (TStruct fs) -> typed (TStruct fs) (VStruct vs) ->
  Unmarshal d (TgtStruct fs vs) = (g, Ok tt) -> Parse d = Ok (BDict true m raw) ->
  tag <> [] -> tag_means tag key opt -> lookup key m = Some (BInt n) ->
  (nth_error fs i = Some (tag, true, TInt b) -> field_of g i = Some (VInt n) /\ - 2 ^ (b - 1) <= n < 2 ^ (b - 1)) /\
  (nth_error fs i = Some (tag, true, TUint b) -> field_of g i = Some (VInt n) /\ 0 <= n < 2 ^ b).
Proof.
  intros Hf Hw Ht Hu Hp Hne Hm Hl. split; intros Hi.
  - destruct (unmarshal_field _ _ _ _ _ _ _ _ _ _ _ _ Hf Hw Ht Hu Hp Hi Hne Hm Hl) as (o & g' & _ & Hg & Hc).
    inversion Hc; subst. cbn [text] in *.
    match goal with h : int_literal _ _ |- _ => change (int_literal (itoa n) n0) in h; apply int_literal_itoa in h; subst n0 end. auto.
  - destruct (unmarshal_field _ _ _ _ _ _ _ _ _ _ _ _ Hf Hw Ht Hu Hp Hi Hne Hm Hl) as (o & g' & _ & Hg & Hc).
    inversion Hc; subst. cbn [text] in *.
    match goal with h : magnitude _ _ |- _ => change (magnitude (itoa n) n0) in h; apply magnitude_itoa in h as [-> _] end. auto.
Qed.

(* setField on one integer field: total characterisation *)
Lemma set_int_total b old v : width b -> v <> BNil ->
  (exists n, int_literal (text v) n /\ - 2 ^ (b - 1) <= n < 2 ^ (b - 1) /\ set_field (TInt b) old v = (VInt n, Ok tt)) \/
  ((~ exists n, int_literal (text v) n /\ - 2 ^ (b - 1) <= n < 2 ^ (b - 1)) /\ exists e, set_field (TInt b) old v = (old, Err e)).
Proof.
  intros Hw Hv.
  assert (E : set_field (TInt b) old v = match ParseInt0 (text v) b with NumOk n => (VInt n, Ok tt) | _ => (old, Err "TypeError") end)
    by (rewrite <- String_text; destruct v; congruence || reflexivity).
  rewrite E. pose proof (fun n => parse_int_ok (text v) b n Hw) as P. destruct (ParseInt0 (text v) b) as [n| |n].
  - left. exists n. destruct (proj1 (P n) eq_refl). auto.
  - right. split; [|eauto]. intros (n & H). apply P in H. discriminate.
  - right. split; [|eauto]. intros (n' & H). apply P in H. discriminate.
Qed.
Lemma set_uint_total b old v : width b -> v <> BNil ->
  (exists n, magnitude (text v) n /\ 0 <= n < 2 ^ b /\ set_field (TUint b) old v = (VInt n, Ok tt)) \/
  ((~ exists n, magnitude (text v) n /\ 0 <= n < 2 ^ b) /\ exists e, set_field (TUint b) old v = (old, Err e)).
Proof.
  intros Hw Hv.
  assert (E : set_field (TUint b) old v = match ParseUint0 (text v) b with NumOk n => (VInt n, Ok tt) | _ => (old, Err "NumError") end)
    by (rewrite <- String_text; destruct v; congruence || reflexivity).
  rewrite E. pose proof (fun n => parse_uint_ok (text v) b n Hw) as P. destruct (ParseUint0 (text v) b) as [n| |n].
  - left. exists n. destruct (proj1 (P n) eq_refl). auto.
  - right. split; [|eauto]. intros (n & H). apply P in H. discriminate.
  - right. split; [|eauto]. intros (n' & H). apply P in H. discriminate.
Qed.
Lemma set_int_element b old n : width b ->
  (- 2 ^ (b - 1) <= n < 2 ^ (b - 1) -> set_field (TInt b) old (BInt n) = (VInt n, Ok tt)) /\
  (~ - 2 ^ (b - 1) <= n < 2 ^ (b - 1) -> exists e, set_field (TInt b) old (BInt n) = (old, Err e)) /\
  (0 <= n < 2 ^ b -> set_field (TUint b) old (BInt n) = (VInt n, Ok tt)) /\
  (~ 0 <= n < 2 ^ b -> exists e, set_field (TUint b) old (BInt n) = (old, Err e)).
Proof.
  intros Hw.
  destruct (set_int_total b old (BInt n) Hw ltac:(discriminate)) as [(k & Hk & Hr & E)|(Hn & He)];
  destruct (set_uint_total b old (BInt n) Hw ltac:(discriminate)) as [(k' & Hk' & Hr' & E')|(Hn' & He')];
  try (change (int_literal (itoa n) k) in Hk; apply int_literal_itoa in Hk; subst k);
  try (change (magnitude (itoa n) k') in Hk'; apply magnitude_itoa in Hk' as [-> ?]);
  repeat split; intros; auto; try (exfalso; tauto);
  try (exfalso; apply Hn; exists n; split; [apply int_literal_itoa; reflexivity|assumption]);
  try (exfalso; apply Hn'; exists n; split; [apply magnitude_itoa; lia|assumption]).
Qed.

(* ---- top-level panics ---- *)
Lemma unmarshal_panics d fs vs : fits d -> string_keys (TStruct fs) ->
  (snd (Unmarshal d (TgtStruct fs vs)) = Panic <->
   Parse d = Panic \/ (has_tagged fs = true /\ exists e, Parse d = Ok e /\ forall m raw, e <> BDict true m raw)).
Proof.
  intros Hf Hs. unfold Unmarshal. destruct (Parse d) as [e|e| |] eqn:Ep.
  - assert (D : (exists m raw, e = BDict true m raw) \/ forall m raw, e <> BDict true m raw).
    { destruct e as [| | | |[|] m raw]; try (right; intros; discriminate). left; eauto. }
    destruct D as [(m & raw & ->)|D].
    + pose proof (unmarshal_fine d fs vs m raw Hf Hs Ep) as F. unfold Unmarshal in F. rewrite Ep in F. split.
      * intros E. rewrite E in F. destruct F as [[? F]|[? F]]; discriminate.
      * intros [H|(_ & e & E & H)]; [discriminate|]. injection E as <-. exfalso; eapply H; reflexivity.
    + assert (E : snd (processTarget (TgtStruct fs vs) e) = if has_tagged fs then Panic else Ok tt).
      { destruct e as [| | | |[|] m raw]; try reflexivity. exfalso; eapply D; reflexivity. }
      rewrite E. destruct (has_tagged fs); split; try discriminate; auto.
      * intros _. right. split; [reflexivity|eauto].
      * intros [H|[H _]]; discriminate.
  - split; [discriminate|]. intros [H|(_ & e' & H & _)]; discriminate.
  - split; auto.
  - split; [discriminate|]. intros [H|(_ & e' & H & _)]; discriminate.
Qed.

(* ---- info hash ---- *)
Lemma last_binding_split {A} k (v : A) es : last_binding k es = Some v ->
  exists es1 es2, es = es1 ++ (k, v) :: es2 /\ ~ In k (map fst es2).
Proof.
  induction es as [|[k' v'] es IH]; intros H; [discriminate|]. cbn [last_binding] in H.
  destruct (last_binding k es) as [x|] eqn:E.
  - injection H as ->. destruct (IH eq_refl) as (es1 & es2 & -> & Hn). exists ((k', v') :: es1), es2. auto.
  - destruct (beq k k') eqn:Ek; [|discriminate]. injection H as ->. apply beq_eq in Ek as ->. exists [], es. split; [reflexivity|].
    intros Hi. clear IH. induction es as [|[k2 v2] es IH]; [destruct Hi|]. cbn [last_binding] in E.
    destruct (last_binding k' es) eqn:E2; [discriminate|]. destruct (beq k' k2) eqn:E3; [discriminate|]. apply beq_neq in E3.
    destruct Hi as [Hi|Hi]; [cbn in Hi; congruence|auto].
Qed.
Lemma last_binding_app {A} k (v : A) es1 es2 : ~ In k (map fst es2) -> last_binding k (es1 ++ (k, v) :: es2) = Some v.
Proof.
  intros Hn. assert (E : last_binding k es2 = None).
  { induction es2 as [|[k2 v2] es2 IH]; [reflexivity|]. cbn in Hn |- *. rewrite IH by tauto.
    destruct (beq k k2) eqn:Ek; [apply beq_eq in Ek; subst; exfalso; tauto|reflexivity]. }
  induction es1 as [|[k1 v1] es1 IH]; cbn [app last_binding]; [rewrite E, beq_refl; reflexivity|]. rewrite IH. reflexivity.
Qed.
Lemma den_entries_split val body es1 k v es2 : den_entries val body (es1 ++ (k, v) :: es2) ->
  exists b1 kw w b2, body = b1 ++ kw ++ w ++ b2 /\ den_entries val b1 es1 /\ denotes_with val kw (BStr k) /\
    denotes_with val w v /\ den_entries val b2 es2.
Proof.
  revert body. induction es1 as [|[k1 v1] es1 IH]; intros body H; inversion H as [|kw k' w e b es Hk Hw Hb]; subst.
  - exists [], kw, w, b. repeat split; auto. constructor.
  - destruct (IH _ Hb) as (b1 & kw2 & w2 & b2 & -> & H1 & H2 & H3 & H4).
    exists (kw ++ w ++ b1), kw2, w2, b2. repeat split; auto; [rewrite <- !app_assoc; reflexivity|constructor; auto].
Qed.
Lemma den_entries_join val b1 es1 kw k w v b2 es2 : den_entries val b1 es1 -> denotes_with val kw (BStr k) ->
  denotes_with val w v -> den_entries val b2 es2 -> den_entries val (b1 ++ kw ++ w ++ b2) (es1 ++ (k, v) :: es2).
Proof.
  induction 1 as [|kw1 k1 w1 e1 body1 es1' Hk1 Hw1 H1 IH]; intros Hk Hw H2; cbn [app].
  - apply entries_cons; auto.
  - rewrite <- !app_assoc. apply entries_cons; auto.
Qed.

Lemma metainfo_hyps : widths (TStruct Metainfo_fields) /\ typed (TStruct Metainfo_fields) (VStruct Metainfo_zero) /\
  string_keys (TStruct Metainfo_fields) /\ has_tagged Metainfo_fields = true.
Proof. repeat split; cbn; unfold width; auto 10. Qed.

Lemma info_tag : tag_means (str "info") (str "info") false.
Proof. apply tag_means_iff. split; reflexivity. Qed.

Lemma metainfo_raw d g m raw : fits d -> UnmarshalMetainfo d = (g, Ok tt) -> Parse d = Ok (BDict true m raw) ->
  exists im iraw, lookup (str "info") m = Some (BDict true im iraw) /\ InfoDictRaw g = iraw.
Proof.
  intros Hf Hu Hp. destruct metainfo_hyps as (Hw & Ht & _ & Hh).
  apply unmarshal_exact in Hu as (m' & raw' & news & Ep & Hc & ->); auto.
  rewrite Hp in Ep. injection Ep as <- <-.
  assert (Hpres : exists v, lookup (str "info") m = Some v /\ v <> BNil).
  { destruct (absent_or m (str "info")) as [Ha|H]; [|exact H]. exfalso.
    eapply (conv_fields_required m Metainfo_fields); [exact Hc|right; right; right; left; reflexivity|discriminate|apply info_tag|exact Ha]. }
  destruct Hpres as (v & Hl & Hv).
  destruct (conv_fields_nth _ _ _ _ 3 _ _ _ _ _ Hc eq_refl ltac:(discriminate) info_tag Hl Hv) as (o & g' & _ & _ & C3).
  destruct (conv_fields_nth _ _ _ _ 4 _ _ _ _ _ Hc eq_refl ltac:(discriminate) info_tag Hl Hv) as (o4 & g4 & _ & N4 & C4).
  inversion C3 as [| | | | |? ? ? im ? [iraw Hd]| | | |]; subst. exists im, iraw. split; [exact Hl|].
  inversion C4 as [| | |? ? ? ? ?|? ? ? ? ? Hu8| | | | |]; subst; [|discriminate].
  unfold InfoDictRaw. rewrite (nth_error_nth _ _ _ N4). reflexivity.
Qed.

Lemma info_hash_located d g : fits d -> UnmarshalMetainfo d = (g, Ok tt) ->
  exists b1 es1 kw w m b2 es2 post, info_entry d b1 es1 kw w m b2 es2 post /\ forall sha1, Hash sha1 g = sha1 w.
Proof.
  intros Hf Hu. destruct metainfo_hyps as (Hw & Ht & _ & Hh). pose proof Hu as Hu'.
  apply unmarshal_exact in Hu' as (m & raw & news & Hp & _ & _); auto.
  destruct (metainfo_raw d g m raw Hf Hu Hp) as (im & iraw & Hl & Hr).
  apply parse_iff in Hp as (w & post & -> & Hd); [|exact Hf].
  inversion Hd as [| | |body es Hb]; subst. rewrite lookup_dict_of in Hl. apply last_binding_split in Hl as (es1 & es2 & -> & Hn).
  apply den_entries_split in Hb as (b1 & kw & wi & b2 & -> & H1 & H2 & H3 & H4).
  assert (InfoDictRaw g = wi) by (inversion H3; subst; auto).
  exists b1, es1, kw, wi, im, b2, es2, post. split.
  - repeat split; auto.
    + rewrite <- !app_assoc. reflexivity.
    + assert (E : BDict true im (InfoDictRaw g) = BDict true im wi) by congruence. rewrite <- E. exact H3.
  - intros sha1. unfold Hash. congruence.
Qed.

Lemma info_hash_every d g b1 es1 kw w m b2 es2 post sha1 : fits d -> info_entry d b1 es1 kw w m b2 es2 post ->
  UnmarshalMetainfo d = (g, Ok tt) -> Hash sha1 g = sha1 w.
Proof.
  intros Hf (E & H1 & H2 & H3 & H4 & Hn) Hu.
  pose proof (den_entries_join _ _ _ _ _ _ _ _ _ H1 H2 H3 H4) as Hb.
  assert (Hp : Parse d = Ok (BDict true (dict_of (es1 ++ (str "info", BDict true m w) :: es2)) ([100] ++ (b1 ++ kw ++ w ++ b2) ++ [101]))).
  { apply parse_iff; [exact Hf|]. exists ([100] ++ (b1 ++ kw ++ w ++ b2) ++ [101]), post. split; [|constructor; exact Hb].
    rewrite E, <- !app_assoc. reflexivity. }
  destruct (metainfo_raw d g _ _ Hf Hu Hp) as (im & iraw & Hl & Hr).
  rewrite lookup_dict_of, last_binding_app in Hl by exact Hn. injection Hl as -> <-. unfold Hash. congruence.
Qed.
