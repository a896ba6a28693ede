(* set_field computes exactly the specified conversion. *)
From Verif Require Import Base ProofBase ModelBencode SpecText ProofText SpecBencode ProofBencode ProofBencodeGrammar ProofBencodeMore
  ModelUnmarshal SpecUnmarshal ProofNum.

(* induction over types, through struct fields *)
Lemma gty_ind' (P : gty -> Prop) :
  P TString -> (forall b, P (TInt b)) -> (forall b, P (TUint b)) ->
  (forall t, P t -> P (TSlice t)) ->
  (forall fs, Forall (fun f => P (snd f)) fs -> P (TStruct fs)) ->
  (forall k t, P t -> P (TMap k t)) -> (forall t, P t -> P (TPtr t)) -> P TOther ->
  forall t, P t.
Proof.
  intros H1 H2 H3 H4 H5 H6 H7 H8. fix IH 1. intros [ |b|b|t|fs|k t|t| ];
    [exact H1|apply H2|apply H3|apply H4, IH| |apply H6, IH|apply H7, IH|exact H8].
  apply H5. induction fs as [|f fs IHf]; constructor; [apply IH|exact IHf].
Qed.

(* ---- tags ---- *)
Lemma split_comma_spec s : forall cur, no_comma cur ->
  join_comma (split_comma s cur) = rev cur ++ s /\ Forall no_comma (split_comma s cur) /\ split_comma s cur <> [].
Proof.
  assert (R : forall l, no_comma l -> no_comma (rev l)) by (intros l H Hi; apply H; apply in_rev; exact Hi).
  induction s as [|c s IH]; intros cur Hc; cbn [split_comma].
  - rewrite app_nil_r. repeat split; [repeat constructor; auto|discriminate].
  - destruct (Z.eqb_spec c 44) as [->|Hn].
    + destruct (IH [] ltac:(intros [])) as (A & B & C). cbn [rev app] in A. repeat split; [|constructor; auto|discriminate].
      destruct (split_comma s []) as [|x l] eqn:E; [congruence|].
      change (join_comma (rev cur :: x :: l)) with (rev cur ++ 44 :: join_comma (x :: l)). rewrite A. reflexivity.
    + destruct (IH (c :: cur)) as (A & B & C); [intros [H|H]; [congruence|exact (Hc H)]|].
      cbn [rev] in A. rewrite <- app_assoc in A. auto.
Qed.

Lemma join_unique l1 : forall l2, Forall no_comma l1 -> Forall no_comma l2 -> l1 <> [] -> l2 <> [] ->
  join_comma l1 = join_comma l2 -> l1 = l2.
Proof.
  assert (S : forall x y r r', no_comma x -> no_comma y -> x ++ 44 :: r = y ++ 44 :: r' -> x = y /\ r = r').
  { induction x as [|a x IH]; intros [|b y] r r' Hx Hy E; cbn in E; inversion E; subst.
    - auto.
    - exfalso. apply Hy. left; reflexivity.
    - exfalso. apply Hx. left; reflexivity.
    - destruct (IH y r r') as [-> ->]; auto; intros H; [apply Hx|apply Hy]; right; exact H. }
  assert (N : forall x y r, no_comma x -> x <> y ++ 44 :: r).
  { intros x y r H ->. apply H. apply in_or_app. right; left; reflexivity. }
  induction l1 as [|x l1 IH]; intros l2 F1 F2 N1 N2 E; [congruence|].
  destruct l2 as [|y l2]; [congruence|]. inversion F1 as [|? ? Fx F1']; inversion F2 as [|? ? Fy F2']; subst.
  destruct l1 as [|x' l1]; destruct l2 as [|y' l2].
  - cbn in E. subst. reflexivity.
  - change (join_comma (y :: y' :: l2)) with (y ++ 44 :: join_comma (y' :: l2)) in E. change (join_comma [x]) with x in E.
    exfalso. exact (N _ _ _ Fx E).
  - change (join_comma (x :: x' :: l1)) with (x ++ 44 :: join_comma (x' :: l1)) in E.
    change (join_comma [y]) with y in E. exfalso. symmetry in E. exact (N _ _ _ Fy E).
  - change (join_comma (x :: x' :: l1)) with (x ++ 44 :: join_comma (x' :: l1)) in E.
    change (join_comma (y :: y' :: l2)) with (y ++ 44 :: join_comma (y' :: l2)) in E.
    apply S in E as [-> E]; auto. f_equal. apply IH; auto; discriminate.
Qed.

Lemma tag_means_iff tag key opt : tag_means tag key opt <-> key = tag_name tag /\ opt = tag_optional tag.
Proof.
  destruct (split_comma_spec tag [] ltac:(intros [])) as (A & B & C). cbn [rev app] in A.
  unfold tag_name, tag_optional. destruct (split_comma tag []) as [|k os] eqn:E; [congruence|]. cbn [hd tl].
  assert (X : existsb (fun o => beq o (str "optional")) os = true <-> In (str "optional") os).
  { rewrite existsb_exists. split.
    - intros (x & Hx & Hb). apply beq_eq in Hb. subst. exact Hx.
    - intros H. exists (str "optional"). split; [exact H|apply beq_refl]. }
  unfold tag_means. split.
  - intros (opts & Et & Hf & Ho).
    assert (Hk : k :: os = key :: opts) by (apply join_unique; auto; try discriminate; congruence).
    injection Hk as -> ->. split; [reflexivity|]. destruct opt.
    + symmetry. apply X. apply Ho. reflexivity.
    + destruct (existsb _ opts) eqn:Ex; [|reflexivity]. exfalso. assert (false = true) by (apply Ho, X; reflexivity). discriminate.
  - intros [-> ->]. exists os. repeat split; [auto|auto|apply X|apply X].
Qed.

(* ---- struct fields as a function of their own ---- *)
Fixpoint set_fields (m : list (bytes * ben)) (fs : list (bytes * bool * gty)) (olds : list gval) {struct fs} : list gval * outcome :=
  match fs, olds with
  | (tag, canset, ft) :: fs', o :: olds' =>
      if negb canset || beq tag [] then
        let (gs, r) := set_fields m fs' olds' in (o :: gs, r)
      else
        match lookup (tag_name tag) m with
        | None | Some BNil =>
            if tag_optional tag then let (gs, r) := set_fields m fs' olds' in (o :: gs, r)
            else (o :: olds', Err "Required ben field not found")
        | Some value =>
            match set_field ft o value with
            | (g, Ok _) => let (gs, r) := set_fields m fs' olds' in (g :: gs, r)
            | (g, r) => (g :: olds', r)
            end
        end
  | _, _ => (olds, Ok tt)
  end.
Lemma set_struct fs olds m raw :
  set_field (TStruct fs) (VStruct olds) (BDict true m raw) = let (gs, r) := set_fields m fs olds in (VStruct gs, r).
Proof.
  cbn [set_field].
  match goal with |- (let (_, _) := ?go fs olds in _) = _ => assert (E : forall l o, go l o = set_fields m l o) end.
  { clear. induction l as [|[[tag canset] t] l IH]; intros [|o olds]; try reflexivity.
    cbn [set_fields]. rewrite <- IH. destruct (negb canset || beq tag []); [reflexivity|].
      destruct (lookup (tag_name tag) m) as [[]|]; try reflexivity;
        match goal with |- context [set_field t o ?v] => destruct (set_field t o v) as [? []] end; reflexivity. }
  rewrite E. reflexivity.
Qed.

Fixpoint typed_fields (fs : list (bytes * bool * gty)) (vs : list gval) : Prop :=
  match fs, vs with
  | [], [] => True
  | f :: fs', v :: vs' => typed (snd f) v /\ typed_fields fs' vs'
  | _, _ => False
  end.
Lemma typed_struct fs vs : typed (TStruct fs) (VStruct vs) = typed_fields fs vs.
Proof. reflexivity. Qed.

Lemma typed_zero t : typed t (zero t).
Proof.
  induction t as [| | |t IH|fs IH|k t IH|t IH|] using gty_ind'; cbn [zero]; try exact I.
  - rewrite typed_struct. induction IH as [|f fs Hf Hfs IHf]; cbn; auto.
Qed.

Definition map_keys_ok (v : ben) : Prop :=
  forall x, inside x v -> match x with BDict _ m _ => NoDup (map fst m) | _ => True end.
Lemma mko_item p vs raw e : map_keys_ok (BList p vs raw) -> In e vs -> map_keys_ok e.
Proof. intros H Hi x Hx. apply H. eapply in_list; eauto. Qed.
Lemma mko_entry p m raw k e : map_keys_ok (BDict p m raw) -> In (k, e) m -> map_keys_ok e.
Proof. intros H Hi x Hx. apply H. eapply in_dict; eauto. Qed.
Lemma mko_here p m raw : map_keys_ok (BDict p m raw) -> NoDup (map fst m).
Proof. intros H. apply (H (BDict p m raw)). constructor. Qed.

Definition exact_at (t : gty) (old : gval) (v : ben) : Prop :=
  forall new, set_field t old v = (new, Ok tt) <-> conv t old v new.

Lemma ok_unit (r : outcome) : (exists u, r = Ok u) -> r = Ok tt.
Proof. intros ([] & ->). reflexivity. Qed.

Lemma set_list_exact t vs : (forall v, In v vs -> exact_at t (zero t) v) ->
  forall gs, set_list (set_field t (zero t)) vs = (gs, Ok tt) <-> conv_list t vs gs.
Proof.
  induction vs as [|v vs IH]; intros Hv gs; cbn [set_list].
  - split; [intros H; injection H as <-; constructor|intros H; inversion H; reflexivity].
  - specialize (IH ltac:(intros x Hx; apply Hv; right; exact Hx)).
    pose proof (Hv v (or_introl eq_refl)) as Ex. unfold exact_at in Ex.
    destruct (set_field t (zero t) v) as [g [[]| | |]] eqn:E.
    + assert (Hg := proj1 (Ex g) eq_refl).
      destruct (set_list (set_field t (zero t)) vs) as [gs' o] eqn:E2. split.
      * intros H; injection H as <- ->. constructor; [exact Hg|]. apply IH. reflexivity.
      * intros H; inversion H as [|? ? ? g2 gs2 Hg2 Hgs2]; subst. apply Ex in Hg2. injection Hg2 as <-.
        apply IH in Hgs2. injection Hgs2 as -> ->. reflexivity.
    + split; [discriminate|]. intros H; inversion H as [|? ? ? g2 gs2 Hg2 Hgs2]; subst. apply Ex in Hg2. discriminate.
    + split; [discriminate|]. intros H; inversion H as [|? ? ? g2 gs2 Hg2 Hgs2]; subst. apply Ex in Hg2. discriminate.
    + split; [discriminate|]. intros H; inversion H as [|? ? ? g2 gs2 Hg2 Hgs2]; subst. apply Ex in Hg2. discriminate.
Qed.

Lemma insert_fresh {A} k (v : A) m : ~ In k (map fst m) -> insert k v m = m ++ [(k, v)].
Proof.
  induction m as [|[k' v'] m IH]; intros H; [reflexivity|]. cbn [insert]. cbn in H.
  destruct (beq k k') eqn:E; [apply beq_eq in E; subst; exfalso; apply H; auto|]. rewrite IH by auto. reflexivity.
Qed.
Lemma conv_map_keys t m gm : conv_map t m gm -> map fst gm = map fst m.
Proof. induction 1; cbn; congruence. Qed.

Lemma set_map_exact t m : (forall k v, In (k, v) m -> exact_at t (zero t) v) -> NoDup (map fst m) ->
  forall acc res, (forall k, In k (map fst m) -> ~ In k (map fst acc)) ->
  (set_map true (set_field t (zero t)) m acc = (res, Ok tt) <-> exists gm, res = acc ++ gm /\ conv_map t m gm).
Proof.
  induction m as [|[k v] m IH]; intros Hv Hn acc res Hd; cbn [set_map].
  - split.
    + intros H; injection H as <-. exists []. rewrite app_nil_r. split; constructor.
    + intros (gm & -> & H). inversion H; subst. rewrite app_nil_r. reflexivity.
  - inversion Hn as [|? ? Hni Hn']; subst. specialize (IH ltac:(intros k' x Hx; apply (Hv k'); right; exact Hx) Hn').
    pose proof (Hv k v (or_introl eq_refl)) as Ex. unfold exact_at in Ex.
    destruct (set_field t (zero t) v) as [g [[]| | |]] eqn:E.
    + assert (Hg := proj1 (Ex g) eq_refl).
      rewrite insert_fresh by (apply Hd; left; reflexivity).
      rewrite IH.
      2:{ intros k' Hk'. rewrite map_app, in_app_iff. intros [H|[H|[]]]; [exact (Hd k' (or_intror Hk') H)|]. cbn in H. subst. contradiction. }
      split.
      * intros (gm & -> & H). exists ((k, g) :: gm). split; [rewrite <- app_assoc; reflexivity|constructor; assumption].
      * intros (gm & -> & H). inversion H as [|? ? ? ? g2 gm2 Hg2 Hgm2]; subst. apply Ex in Hg2. injection Hg2 as <-.
        exists gm2. split; [rewrite <- app_assoc; reflexivity|exact Hgm2].
    + split; [discriminate|]. intros (gm & -> & H). inversion H as [|? ? ? ? g2 gm2 Hg2 Hgm2]; subst. apply Ex in Hg2. discriminate.
    + split; [discriminate|]. intros (gm & -> & H). inversion H as [|? ? ? ? g2 gm2 Hg2 Hgm2]; subst. apply Ex in Hg2. discriminate.
    + split; [discriminate|]. intros (gm & -> & H). inversion H as [|? ? ? ? g2 gm2 Hg2 Hgm2]; subst. apply Ex in Hg2. discriminate.
Qed.

Lemma absent_or m k : absent m k \/ exists v, lookup k m = Some v /\ v <> BNil.
Proof.
  unfold absent. destruct (lookup k m) as [v|]; [|auto]. destruct v; auto; right; eexists; split; eauto; discriminate.
Qed.

Lemma set_fields_exact m fs :
  Forall (fun f => forall old k v, typed (snd f) old -> In (k, v) m -> exact_at (snd f) old v) fs ->
  forall olds news, typed_fields fs olds ->
  (set_fields m fs olds = (news, Ok tt) <-> conv_fields m fs olds news).
Proof.
  induction 1 as [|[[tag canset] t] fs Hf Hfs IH]; intros olds news Ht; cbn [set_fields].
  - destruct olds; [|destruct Ht]. split; [intros H; injection H as <-; constructor|intros H; inversion H; reflexivity].
  - destruct olds as [|o olds]; [destruct Ht|]. destruct Ht as [Ho Ht]. specialize (IH olds). cbn [snd] in *.
    destruct canset; cbn [negb orb].
    2:{ destruct (set_fields m fs olds) as [gs r] eqn:E. split.
        - intros H; injection H as <- ->. apply cf_skip; [auto|]. apply IH; auto.
        - intros H; inversion H; subst; try (match goal with h : conv_fields _ _ _ _ |- _ => apply IH in h; auto; injection h as -> -> end; reflexivity). }
    destruct (beq tag []) eqn:Et.
    { apply beq_eq in Et as ->. destruct (set_fields m fs olds) as [gs r] eqn:E. split.
      - intros H; injection H as <- ->. apply cf_skip; [auto|]. apply IH; auto.
      - intros H; inversion H; subst; try congruence. match goal with h : conv_fields _ _ _ _ |- _ => apply IH in h; auto; injection h as -> -> end. reflexivity. }
    apply beq_neq in Et.
    destruct (absent_or m (tag_name tag)) as [Ha|(v & Hv & Hnn)].
    + assert (El : match lookup (tag_name tag) m with
                   | None | Some BNil => if tag_optional tag then let (gs, r) := set_fields m fs olds in (o :: gs, r)
                       else (o :: olds, Err "Required ben field not found")
                   | Some value => match set_field t o value with
                       | (g, Ok _) => let (gs, r) := set_fields m fs olds in (g :: gs, r)
                       | (g, r) => (g :: olds, r) end
                   end = if tag_optional tag then let (gs, r) := set_fields m fs olds in (o :: gs, r)
                       else (o :: olds, Err "Required ben field not found")).
      { destruct Ha as [Ha|Ha]; rewrite Ha; reflexivity. }
      rewrite El. clear El.
      assert (NP : forall key opt v, tag_means tag key opt -> lookup key m = Some v -> v <> BNil -> False).
      { intros key opt v Hm Hl Hvn. apply tag_means_iff in Hm as [-> _]. destruct Ha; congruence. }
      destruct (tag_optional tag) eqn:Eo.
      * destruct (set_fields m fs olds) as [gs r] eqn:E. split.
        -- intros H; injection H as <- ->. eapply cf_absent; [exact Et|apply tag_means_iff; eauto|exact Ha|]. apply IH; auto.
        -- intros H; inversion H; subst; try (exfalso; eauto; fail);
             match goal with h : conv_fields _ _ _ _ |- _ => apply IH in h; auto; injection h as -> -> end; reflexivity.
      * split; [discriminate|]. intros H; inversion H as [|? ? ? ? ? ? ? ? Hs|? ? ? ? ? ? ? key H1 Hm H2|]; subst.
        -- destruct Hs; congruence.
        -- apply tag_means_iff in Hm as [_ Hm]. congruence.
        -- exfalso; eauto.
    + rewrite Hv. assert (Ex : exact_at t o v) by (eapply Hf; eauto using lookup_in).
      assert (El : (match v with BNil => if tag_optional tag then let (gs, r) := set_fields m fs olds in (o :: gs, r)
                       else (o :: olds, Err "Required ben field not found")
                   | _ => match set_field t o v with
                       | (g, Ok _) => let (gs, r) := set_fields m fs olds in (g :: gs, r)
                       | (g, r) => (g :: olds, r) end end)
                   = match set_field t o v with
                       | (g, Ok _) => let (gs, r) := set_fields m fs olds in (g :: gs, r)
                       | (g, r) => (g :: olds, r) end) by (destruct v; congruence).
      rewrite El. clear El. unfold exact_at in Ex.
      assert (Inv : conv_fields m ((tag, true, t) :: fs) (o :: olds) news <->
                    exists g gs, news = g :: gs /\ conv t o v g /\ conv_fields m fs olds gs).
      { split.
        - intros H; inversion H as [|? ? ? ? ? ? ? ? Hs|? ? ? ? ? ? ? key H1 Hm Hab|? ? ? ? ? ? ? key opt v' g H1 Hm Hl H2 Hc]; subst.
          + destruct Hs; congruence.
          + exfalso. apply tag_means_iff in Hm as [-> _]. destruct Hab; congruence.
          + apply tag_means_iff in Hm as [-> _]. rewrite Hv in Hl. injection Hl as <-. eauto.
        - intros (g & gs & -> & H1 & H2). eapply cf_present; eauto. apply tag_means_iff; eauto. }
      rewrite Inv. clear Inv.
      destruct (set_field t o v) as [g [[]| | |]] eqn:E.
      * assert (Hg := proj1 (Ex g) eq_refl).
        destruct (set_fields m fs olds) as [gs r] eqn:E2. split.
        -- intros H; injection H as <- ->. exists g, gs. repeat split; auto. apply IH; auto.
        -- intros (g2 & gs2 & -> & Hg2 & Hgs2). apply Ex in Hg2. injection Hg2 as <-. apply IH in Hgs2; auto.
           injection Hgs2 as -> ->. reflexivity.
      * split; [discriminate|]. intros (g2 & gs2 & -> & Hg2 & Hgs2). apply Ex in Hg2. discriminate.
      * split; [discriminate|]. intros (g2 & gs2 & -> & Hg2 & Hgs2). apply Ex in Hg2. discriminate.
      * split; [discriminate|]. intros (g2 & gs2 & -> & Hg2 & Hgs2). apply Ex in Hg2. discriminate.
Qed.

Lemma widths_struct fs : widths (TStruct fs) -> Forall (fun f => widths (snd f)) fs.
Proof. induction fs as [|f fs IH]; [constructor|]. intros [H1 H2]. constructor; [exact H1|exact (IH H2)]. Qed.

Ltac bad_conv := split; [discriminate|intros H; inversion H; subst; try congruence;
                  match goal with
                  | h : is_list _ _ |- _ => destruct h as [? h]; congruence
                  | h : is_dict _ _ |- _ => destruct h as [? h]; congruence
                  end].

Theorem set_field_exact t : widths t -> forall old v, typed t old -> map_keys_ok v -> exact_at t old v.
Proof.
  induction t as [|b|b|t IH|fs IH|k t IH|t IH|] using gty_ind'; intros Hw old v Ht Hk new; cbn [set_field]; rewrite ?String_text.
  - destruct v; try (split; [intros H; injection H as <-; constructor; discriminate|intros H; inversion H; subst; reflexivity]).
    split; [discriminate|intros H; inversion H; congruence].
  - destruct v as [|z|s|p vs raw|p m raw]; [split; [discriminate|intros H; inversion H; congruence]|..].
    all: match goal with |- context [ParseInt0 ?s ?w] =>
           match goal with Hw : widths _ |- _ => pose proof (fun n => parse_int_ok s w n Hw) as P end; destruct (ParseInt0 s w) as [n| |n] end.
    all: split; [first [discriminate|intros H; injection H as <-]; destruct (proj1 (P n) eq_refl); apply cv_int; auto; discriminate
                |intros H; inversion H; subst; idtac; match goal with h : int_literal _ ?k, h2 : _ <= ?k < _ |- _ =>
                   pose proof (proj2 (P k) (conj h h2)); congruence end].
  - destruct v as [|z|s|p vs raw|p m raw]; [split; [discriminate|intros H; inversion H; congruence]|..].
    all: match goal with |- context [ParseUint0 ?s ?w] =>
           match goal with Hw : widths _ |- _ => pose proof (fun n => parse_uint_ok s w n Hw) as P end; destruct (ParseUint0 s w) as [n| |n] end.
    all: split; [first [discriminate|intros H; injection H as <-]; destruct (proj1 (P n) eq_refl); apply cv_uint; auto; discriminate
                |intros H; inversion H; subst; idtac; match goal with h : magnitude _ ?k, h2 : _ <= ?k < _ |- _ =>
                   pose proof (proj2 (P k) (conj h h2)); congruence end].
  - destruct (is_u8 t) eqn:Eu.
    + destruct v; try (split; [intros H; injection H as <-; constructor; [exact Eu|discriminate]|intros H; inversion H; subst; [reflexivity|congruence]]).
      split; [discriminate|intros H; inversion H; subst; congruence].
    + destruct v as [|z|s|[|] vs raw|p m raw]; try bad_conv.
      assert (L := set_list_exact t vs ltac:(intros e He; apply IH; [exact Hw|apply typed_zero|eapply mko_item; eauto])).
      destruct (set_list (set_field t (zero t)) vs) as [gs o]. split.
      * destruct o as [[]| | |]; try discriminate. intros H; injection H as <-. apply cv_slice with (vs := vs); [exact Eu|eexists; reflexivity|apply L; reflexivity].
      * intros H; inversion H as [| | | |? ? ? vs' gs' ? [raw' Hl] Hc| | | | |]; subst; [congruence|].
        injection Hl as -> _. apply L in Hc. injection Hc as -> ->. reflexivity.
  - destruct v as [|z|s|p vs raw|[|] m raw]; try bad_conv.
    cbn [typed] in Ht. destruct old as [| | | |olds| | |]; try destruct Ht.
    change (typed_fields fs olds) in Ht.
    assert (L := set_fields_exact m fs).
    assert (Hall : Forall (fun f => forall old k v, typed (snd f) old -> In (k, v) m -> exact_at (snd f) old v) fs).
    { apply widths_struct in Hw. clear -IH Hw Hk. induction IH as [|f fs Hf Hfs IHf]; constructor; inversion Hw; subst; auto.
      intros old k v Hty Hin. apply Hf; auto. eapply mko_entry; eauto. }
    specialize (L Hall olds).
    change (set_field (TStruct fs) (VStruct olds) (BDict true m raw) = (new, Ok tt) <-> conv (TStruct fs) (VStruct olds) (BDict true m raw) new).
    rewrite set_struct. destruct (set_fields m fs olds) as [gs r]. split.
    + intros H; injection H as <- ->. apply cv_struct with (m := m); [eexists; reflexivity|apply L; auto].
    + intros H; inversion H as [| | | | |? ? ? m' news [raw' Hd] Hc| | | |]; subst. injection Hd as <- _.
      apply L in Hc; auto. injection Hc as -> ->. reflexivity.
  - destruct v as [|z|s|p vs raw|[|] m raw]; try bad_conv.
    destruct k.
    + assert (L := set_map_exact t m ltac:(intros k e He; apply IH; [exact Hw|apply typed_zero|eapply mko_entry; eauto]) (mko_here _ _ _ Hk) []).
      destruct (set_map true (set_field t (zero t)) m []) as [acc o]. split.
      * destruct o as [[]| | |]; try discriminate. intros H; injection H as <-.
        destruct (proj1 (L acc ltac:(intros ? _ [])) eq_refl) as (gm & -> & Hc). eapply cv_map; [eexists; reflexivity|exact Hc].
      * intros H; inversion H as [| | | | | |? ? ? m' gm [raw' Hd] Hc|? ? ? ? [raw' Hd]| |]; subst; injection Hd as -> _.
        -- assert (X : (acc, o) = (gm, Ok tt)) by (apply L; [intros ? _ []|exists gm; auto]). injection X as -> ->. reflexivity.
        -- assert (X : (acc, o) = ([], Ok tt)) by (apply L; [intros ? _ []|exists []; split; [reflexivity|constructor]]). injection X as -> ->. reflexivity.
    + destruct m as [|[k v] m]; cbn [set_map].
      * split; [intros H; injection H as <-; apply cv_map_empty; eexists; reflexivity|intros H; inversion H; reflexivity].
      * destruct (set_field t (zero t) v) as [g [[]| | |]]; try bad_conv.
  - assert (Dp : (exists t', t = TPtr t') \/ forall t', t <> TPtr t').
    { destruct t; try (right; intros; discriminate). left; eauto. }
    destruct Dp as [[t' ->]|Hnp].
    { split; [discriminate|]. intros H; inversion H; subst; exfalso;
        match goal with h : forall t', _ <> _ |- _ => exact (h _ eq_refl) end. }
    change (set_field (TPtr t) old v = (new, Ok tt) <-> conv (TPtr t) old v new).
    assert (Ef : set_field (TPtr t) old v =
                 let (g, o) := set_field t (match old with VPtr (Some g) => g | _ => zero t end) v in (VPtr (Some g), o)).
    { destruct t; try reflexivity. exfalso; eapply Hnp; reflexivity. }
    rewrite Ef. cbn [typed] in Ht. destruct old as [| | | | | |[g|]|]; try (destruct Ht; fail).
    + assert (X := IH Hw g v Ht Hk). unfold exact_at in X. destruct (set_field t g v) as [g2 o2]. split.
      * intros H; injection H as <- ->. apply cv_ptr; auto. apply X; reflexivity.
      * intros H; inversion H; subst. match goal with h : conv t _ _ _ |- _ => apply X in h; injection h as -> -> end. reflexivity.
    + assert (X := IH Hw (zero t) v (typed_zero t) Hk). unfold exact_at in X. destruct (set_field t (zero t) v) as [g2 o2]. split.
      * intros H; injection H as <- ->. apply cv_ptr_nil; auto. apply X; reflexivity.
      * intros H; inversion H; subst. match goal with h : conv t _ _ _ |- _ => apply X in h; injection h as -> -> end. reflexivity.
  - split; [discriminate|intros H; inversion H].
Qed.
