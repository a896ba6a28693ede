(* Sub-elements, truncation, dictionaries, round trip. *)
From Coq Require Import Permutation.
From Verif Require Import Base ModelBencode SpecBencode ProofBase ProofBencode ProofBencodeGrammar.

(* ---- C04: every sub-element is a piece of the document ---- *)
Lemma items_in val body es e : den_items val body es -> In e es ->
  exists a w b, body = a ++ w ++ b /\ denotes_with val w e.
Proof.
  induction 1 as [|w e' body es Hw Hb IH]; intros Hi; [destruct Hi|].
  destruct Hi as [->|Hi].
  - exists [], w, body. auto.
  - destruct (IH Hi) as (a & w' & b & -> & Hw'). exists (w ++ a), w', b.
    split; [rewrite <- !app_assoc; reflexivity|exact Hw'].
Qed.
Lemma entries_in val body es k e : den_entries val body es -> In (k, e) es ->
  exists a w b, body = a ++ w ++ b /\ denotes_with val w e.
Proof.
  induction 1 as [|kw k' w e' body es Hk Hw Hb IH]; intros Hi; [destruct Hi|].
  destruct Hi as [E|Hi].
  - injection E as -> ->. exists kw, w, body. auto.
  - destruct (IH Hi) as (a & w' & b & -> & Hw'). exists (kw ++ w ++ a), w', b.
    split; [rewrite <- !app_assoc; reflexivity|exact Hw'].
Qed.

Lemma in_map_from {A} (es : list (bytes * A)) : forall m x, In x (map_from es m) -> In x es \/ In x m.
Proof.
  induction es as [|[k v] es IH]; intros m x H; [right; exact H|].
  cbn [map_from fold_left fst snd] in H. apply IH in H as [H|H].
  - left; right; exact H.
  - apply in_insert in H as [->|H]; [left; left; reflexivity|right; exact H].
Qed.

Lemma inside_denotes val x e : inside x e -> forall w, denotes_with val w e ->
  exists a wx b, w = a ++ wx ++ b /\ denotes_with val wx x.
Proof.
  induction 1 as [|p v raw e Hi Hx IH|p m raw k e Hi Hx IH]; intros w Hw.
  - exists [], w, []. rewrite app_nil_r. auto.
  - inversion Hw as [| |body es Hb|]; subst.
    destruct (items_in _ _ _ _ Hb Hi) as (a & we & b & -> & He).
    destruct (IH we He) as (a' & wx & b' & -> & Hwx).
    exists ([108] ++ a ++ a'), wx, (b' ++ b ++ [101]). split; [|exact Hwx].
    rewrite <- !app_assoc. reflexivity.
  - inversion Hw as [| | |body es Hb]; subst.
    apply (in_map_from es []) in Hi as [Hi|[]].
    destruct (entries_in _ _ _ _ _ Hb Hi) as (a & we & b & -> & He).
    destruct (IH we He) as (a' & wx & b' & -> & Hwx).
    exists ([100] ++ a ++ a'), wx, (b' ++ b ++ [101]). split; [|exact Hwx].
    rewrite <- !app_assoc. reflexivity.
Qed.

Definition container (x : ben) : Prop :=
  match x with BList _ _ _ | BDict _ _ _ => True | _ => False end.

Lemma container_raw val w x : container x -> denotes_with val w x -> Raw x = w.
Proof. intros Hc H; inversion H; subst; try destruct Hc; reflexivity. Qed.

Lemma raw_exact d e x : fits d -> Parse d = Ok e -> inside x e -> container x ->
  exists a b, d = a ++ Raw x ++ b /\ Parse (Raw x) = Ok x.
Proof.
  intros Hf Hp Hi Hc. apply parse_iff in Hp as (w & post & -> & Hw); [|exact Hf].
  destruct (inside_denotes _ _ _ Hi w Hw) as (a & wx & b & -> & Hx).
  rewrite (container_raw _ _ _ Hc Hx). exists a, (b ++ post). split; [rewrite <- !app_assoc; reflexivity|].
  rewrite <- (app_nil_r wx) at 1. apply parse_complete; [exact Hx|]. rewrite app_nil_r.
  unfold fits in *. autorewrite with zlen in *. pose proof (zlen_nonneg a). pose proof (zlen_nonneg b).
  pose proof (zlen_nonneg post). lia.
Qed.

Lemma raw_top d e : fits d -> Parse d = Ok e -> container e -> exists post, d = Raw e ++ post.
Proof.
  intros Hf Hp Hc. apply parse_iff in Hp as (w & post & -> & Hw); [|exact Hf].
  rewrite (container_raw _ _ _ Hc Hw). eauto.
Qed.

(* ---- C06 ---- *)
Lemma lookup_map_from {A} k (es : list (bytes * A)) : forall m,
  lookup k (map_from es m) = match last_binding k es with Some v => Some v | None => lookup k m end.
Proof.
  induction es as [|[k' v] es IH]; intros m; [reflexivity|].
  cbn [map_from fold_left fst snd]. fold (map_from es (insert k' v m)). rewrite IH. cbn [last_binding].
  destruct (last_binding k es); [reflexivity|]. rewrite lookup_insert. destruct (beq k k'); reflexivity.
Qed.
Lemma lookup_dict_of {A} k (es : list (bytes * A)) : lookup k (dict_of es) = last_binding k es.
Proof. change (dict_of es) with (map_from es []). rewrite lookup_map_from. destruct (last_binding k es); reflexivity. Qed.

Lemma last_wins d body es post : fits d ->
  den_entries wrapped_val body es -> d = [100] ++ body ++ [101] ++ post ->
  exists e, Parse d = Ok e /\
    forall k, Value e k = match last_binding k es with Some v => v | None => BNil end.
Proof.
  intros Hf He ->. eexists. split.
  - replace ([100] ++ body ++ [101] ++ post) with (([100] ++ body ++ [101]) ++ post) in *
      by (rewrite <- !app_assoc; reflexivity).
    apply parse_complete; [apply den_dict; eassumption|exact Hf].
  - intros k. cbn [Value]. rewrite lookup_dict_of. reflexivity.
Qed.

(* ---- C08 ---- *)
Lemma parse_suffix d e post : fits (d ++ post) -> Parse d = Ok e -> Parse (d ++ post) = Ok e.
Proof.
  intros Hf Hp. apply parse_iff in Hp as (w & p & -> & Hw); [|exact (fits_app_l _ _ Hf)].
  rewrite <- app_assoc in *. apply parse_complete; assumption.
Qed.

(* ---- C07: truncation ---- *)
(* what happens on (pre ++ l) when more bytes q follow *)
Lemma readString_ext pre l q : fits (pre ++ l ++ q) ->
  match readString (pre ++ l) (at_ (zlen pre)) with
  | Err _ => True
  | r => readString (pre ++ l ++ q) (at_ (zlen pre)) = r
  end.
Proof.
  intros Hf. assert (Hf' : fits (pre ++ l)) by (rewrite app_assoc in Hf; exact (fits_app_l _ _ Hf)).
  destruct (readString_sound pre l (zlen pre) Hf')
    as [(ds & s & t & -> & Hd & Hv & Er)|[(er & Er)|(ds & t & -> & Hd & Hv & Er)]];
    unfold at_ at 1; rewrite Er; trivial.
  - rewrite <- app_assoc. unfold at_ at 1. apply readString_exact; auto.
    unfold fits, MAXN in Hf'. autorewrite with zlen in *. pose proof (zlen_nonneg t). lia.
  - unfold at_ at 1. destruct (readString_sound pre ((ds ++ [58] ++ t) ++ q) (zlen pre) Hf)
      as [(ds2 & s & t2 & E2 & Hd2 & Hv2 & Er2)|[(er2 & Er2)|(ds2 & t2 & E2 & Hd2 & Hv2 & Er2)]]; [| |exact Er2].
    + rewrite <- !app_assoc in E2. apply digits_unique in E2 as [<- E2]; auto; try apply stops_colon.
      pose proof (zlen_nonneg s). lia.
    + exfalso. revert Er2. unfold readString. rewrite <- !app_assoc.
      rewrite number_exact by (auto; apply stops_colon). cbn [bind].
      replace (pre ++ ds ++ [58] ++ t ++ q) with ((pre ++ ds) ++ 58 :: t ++ q) by (rewrite <- app_assoc; reflexivity).
      unfold at_. rewrite <- zlen_app. change chr_colon with 58. rewrite match_app.
      cbn [bind negb at_ sc_start sc_cur]. unfold fits, MAXN in Hf. pose proof (machine_val_range ds) as Hr. unfold MAXN in Hr.
      autorewrite with zlen in *. pose proof (zlen_nonneg pre). pose proof (zlen_nonneg ds).
      pose proof (zlen_nonneg t). pose proof (zlen_nonneg q). rewrite wrap64_small by lia.
      replace (zlen pre + zlen ds + (1 + (zlen t + zlen q)) <? zlen pre + zlen ds + 1 + machine_val ds) with false by lia.
      unfold read, slice; cbn [sc_start sc_cur].
      replace (zlen pre + zlen ds + 1 <=? zlen pre + zlen ds + 1 + machine_val ds) with false by lia.
      rewrite andb_false_r. discriminate.
Qed.

Lemma readInt_ext pre l q :
  match readInt (pre ++ 105 :: l) (at_ (zlen pre)) with
  | Err _ => True
  | r => readInt (pre ++ 105 :: l ++ q) (at_ (zlen pre)) = r
  end.
Proof.
  destruct (readInt_sound pre l) as [(ds & t & E & Hd & Er)|(e & Er)]; rewrite Er; trivial.
  change (105 :: l ++ q) with ((105 :: l) ++ q). rewrite E. rewrite <- app_assoc. apply readInt_exact; assumption.
Qed.

Lemma peek_at pre c post : peek (pre ++ c :: post) (at_ (zlen pre)) = Ok c.
Proof. apply peek_app. Qed.
Lemma advance_at pre c post : advance (pre ++ c :: post) (at_ (zlen pre)) = Ok (mkSc (zlen pre) (zlen pre + 1)).
Proof. apply advance_app. Qed.
Lemma position_mk a b : position (mkSc a b) = at_ b.
Proof. reflexivity. Qed.
Lemma match_at pre c post : match_byte (pre ++ c :: post) (at_ (zlen pre)) c = Ok (true, at_ (zlen pre + 1)).
Proof. apply match_app. Qed.

Definition ext_next (f : nat) : Prop := forall f' pre l q, (f <= f')%nat -> fits (pre ++ l ++ q) ->
  match next f (pre ++ l) (at_ (zlen pre)) with
  | Err _ | Diverge => True
  | r => next f' (pre ++ l ++ q) (at_ (zlen pre)) = r
  end.
Definition ext_list (f : nat) : Prop := forall f' pre l q acc, (f <= f')%nat -> fits (pre ++ l ++ q) ->
  match list_loop f (pre ++ l) (at_ (zlen pre)) acc with
  | Err _ | Diverge => True
  | Ok (v, s') => sc_cur s' = zlen (pre ++ l) \/
                  list_loop f' (pre ++ l ++ q) (at_ (zlen pre)) acc = Ok (v, s')
  | Panic => list_loop f' (pre ++ l ++ q) (at_ (zlen pre)) acc = Panic
  end.
Definition ext_dict (f : nat) : Prop := forall f' pre l q acc, (f <= f')%nat -> fits (pre ++ l ++ q) ->
  match dict_loop f (pre ++ l) (at_ (zlen pre)) acc with
  | Err _ | Diverge => True
  | Ok (v, s') => sc_cur s' = zlen (pre ++ l) \/
                  dict_loop f' (pre ++ l ++ q) (at_ (zlen pre)) acc = Ok (v, s')
  | Panic => dict_loop f' (pre ++ l ++ q) (at_ (zlen pre)) acc = Panic
  end.

Lemma ext_mutual f : ext_next f /\ ext_list f /\ ext_dict f.
Proof.
  induction f as [|f (IHn & IHl & IHd)].
  { unfold ext_next, ext_list, ext_dict; repeat split; intros; exact I. }
  assert (Hsub : forall a b c : bytes, fits (a ++ b ++ c) -> fits (a ++ b))
    by (intros a b c H; rewrite app_assoc in H; exact (fits_app_l _ _ H)).
  repeat split.
  - intros f' pre l q Hf' Hfit. destruct f' as [|f']; [lia|]. cbn [next].
    destruct l as [|c l].
    { unfold at_ at 1. rewrite peek_end by (rewrite app_nil_r; lia). cbn [bind].
      change (0 =? chr_l) with false; change (0 =? chr_d) with false; change (0 =? chr_i) with false. cbn iota.
      destruct (readString_sound pre [] (zlen pre) (Hsub _ _ _ Hfit))
        as [(ds & s & t & E & Hd & Hv & Er)|[(er & Er)|(ds & t & E & Hd & Hv & Er)]].
      - destruct ds; discriminate.
      - unfold at_ at 1. rewrite Er. exact I.
      - destruct ds; discriminate. }
    cbn [app]. rewrite !peek_at. cbn [bind].
    destruct (Z.eqb_spec c chr_l) as [->|Hnl].
    { rewrite !advance_at. cbn [bind]. rewrite !position_mk.
      specialize (IHl f' (pre ++ [chr_l]) l q []).
      pose proof (proj1 (proj2 (sound_mutual f)) (pre ++ [chr_l]) l []) as Hsnd.
      rewrite <- !app_assoc in *. cbn [app] in *.
      autorewrite with zlen in IHl, Hsnd. replace (zlen pre + (1 + 0)) with (zlen pre + 1) in * by lia.
      specialize (IHl ltac:(lia) Hfit). specialize (Hsnd (Hsub pre (_ :: l) q Hfit)).
      destruct (list_loop f (pre ++ chr_l :: l) (at_ (zlen pre + 1)) []) as [[v s2]| | |]; cbn [bind]; trivial.
      2:{ rewrite IHl. reflexivity. }
      destruct Hsnd as (w & t & es & -> & _ & _ & ->).
      replace (pre ++ chr_l :: w ++ t) with ((pre ++ [chr_l] ++ w) ++ t)
        by (rewrite <- !app_assoc; reflexivity).
      replace (zlen pre + 1 + zlen w) with (zlen (pre ++ [chr_l] ++ w)) in * by (autorewrite with zlen; lia).
      unfold at_ at 1. destruct t as [|c t]; [|destruct (Z.eq_dec c chr_e) as [->|Hc]].
      - rewrite match_no by (trivial; discriminate). cbn [bind negb]. trivial.
      - destruct IHl as [E|E].
        { exfalso. cbn [sc_cur at_] in E. autorewrite with zlen in E. pose proof (zlen_nonneg t). lia. }
        rewrite E. cbn [bind]. fold (at_ (zlen (pre ++ [chr_l] ++ w))). rewrite match_at.
        replace (pre ++ chr_l :: (w ++ chr_e :: t) ++ q) with ((pre ++ [chr_l] ++ w) ++ chr_e :: (t ++ q))
          by (rewrite <- !app_assoc; cbn [app]; rewrite <- ?app_assoc; reflexivity).
        rewrite match_at. cbn [bind negb at_ sc_start].
        pose proof (slice_app pre ([108] ++ w ++ [101]) t) as G.
        replace (pre ++ ([108] ++ w ++ [101]) ++ t) with ((pre ++ [chr_l] ++ w) ++ chr_e :: t) in G
          by (cbn [app]; rewrite <- !app_assoc; cbn [app]; rewrite <- ?app_assoc; reflexivity).
        pose proof (slice_app pre ([108] ++ w ++ [101]) (t ++ q)) as G2.
        replace (pre ++ ([108] ++ w ++ [101]) ++ (t ++ q)) with ((pre ++ [chr_l] ++ w) ++ chr_e :: (t ++ q)) in G2
          by (cbn [app]; rewrite <- !app_assoc; cbn [app]; rewrite <- ?app_assoc; reflexivity).
        replace (zlen (pre ++ [chr_l] ++ w) + 1) with (zlen pre + zlen ([108] ++ w ++ [101]))
          by (autorewrite with zlen; lia).
        rewrite G, G2. reflexivity.
      - rewrite match_no by (trivial; discriminate). cbn [bind negb]. trivial. }
    destruct (Z.eqb_spec c chr_d) as [->|Hnd].
    { rewrite !advance_at. cbn [bind]. rewrite !position_mk.
      specialize (IHd f' (pre ++ [chr_d]) l q []).
      pose proof (proj2 (proj2 (sound_mutual f)) (pre ++ [chr_d]) l []) as Hsnd.
      rewrite <- !app_assoc in *. cbn [app] in *.
      autorewrite with zlen in IHd, Hsnd. replace (zlen pre + (1 + 0)) with (zlen pre + 1) in * by lia.
      specialize (IHd ltac:(lia) Hfit). specialize (Hsnd (Hsub pre (_ :: l) q Hfit)).
      destruct (dict_loop f (pre ++ chr_d :: l) (at_ (zlen pre + 1)) []) as [[v s2]| | |]; cbn [bind]; trivial.
      2:{ rewrite IHd. reflexivity. }
      destruct Hsnd as (w & t & es & -> & _ & _ & ->).
      replace (pre ++ chr_d :: w ++ t) with ((pre ++ [chr_d] ++ w) ++ t)
        by (rewrite <- !app_assoc; reflexivity).
      replace (zlen pre + 1 + zlen w) with (zlen (pre ++ [chr_d] ++ w)) in * by (autorewrite with zlen; lia).
      unfold at_ at 1. destruct t as [|c t]; [|destruct (Z.eq_dec c chr_e) as [->|Hc]].
      - rewrite match_no by (trivial; discriminate). cbn [bind negb]. trivial.
      - destruct IHd as [E|E].
        { exfalso. cbn [sc_cur at_] in E. autorewrite with zlen in E. pose proof (zlen_nonneg t). lia. }
        rewrite E. cbn [bind]. fold (at_ (zlen (pre ++ [chr_d] ++ w))). rewrite match_at.
        replace (pre ++ chr_d :: (w ++ chr_e :: t) ++ q) with ((pre ++ [chr_d] ++ w) ++ chr_e :: (t ++ q))
          by (rewrite <- !app_assoc; cbn [app]; rewrite <- ?app_assoc; reflexivity).
        rewrite match_at. cbn [bind negb at_ sc_start].
        pose proof (slice_app pre ([100] ++ w ++ [101]) t) as G.
        replace (pre ++ ([100] ++ w ++ [101]) ++ t) with ((pre ++ [chr_d] ++ w) ++ chr_e :: t) in G
          by (cbn [app]; rewrite <- !app_assoc; cbn [app]; rewrite <- ?app_assoc; reflexivity).
        pose proof (slice_app pre ([100] ++ w ++ [101]) (t ++ q)) as G2.
        replace (pre ++ ([100] ++ w ++ [101]) ++ (t ++ q)) with ((pre ++ [chr_d] ++ w) ++ chr_e :: (t ++ q)) in G2
          by (cbn [app]; rewrite <- !app_assoc; cbn [app]; rewrite <- ?app_assoc; reflexivity).
        replace (zlen (pre ++ [chr_d] ++ w) + 1) with (zlen pre + zlen ([100] ++ w ++ [101]))
          by (autorewrite with zlen; lia).
        rewrite G, G2. reflexivity.
      - rewrite match_no by (trivial; discriminate). cbn [bind negb]. trivial. }
    destruct (Z.eqb_spec c chr_i) as [->|Hni].
    { change chr_i with 105. pose proof (readInt_ext pre l q) as G.
      destruct (readInt (pre ++ 105 :: l) (at_ (zlen pre))) as [[n s']| | |]; cbn [bind]; trivial; rewrite G; reflexivity. }
    pose proof (readString_ext pre (c :: l) q Hfit) as G. cbn [app] in G.
    destruct (readString (pre ++ c :: l) (at_ (zlen pre))) as [[n s']| | |]; cbn [bind]; trivial; rewrite G; reflexivity.
  - intros f' pre l q acc Hf' Hfit. destruct f' as [|f']; [lia|]. cbn [list_loop].
    destruct l as [|c l].
    { unfold at_ at 1. rewrite peek_end by (rewrite app_nil_r; lia). cbn [bind].
      unfold is_finished at 1, at_ at 1; cbn [sc_cur]. rewrite app_nil_r.
      replace (zlen pre <=? zlen pre) with true by lia. rewrite andb_false_r. left; reflexivity. }
    cbn [app]. replace (peek (pre ++ c :: l) (at_ (zlen pre))) with (@Ok Z c) by (symmetry; apply peek_app).
    replace (peek (pre ++ c :: l ++ q) (at_ (zlen pre))) with (@Ok Z c) by (symmetry; apply peek_app).
    cbn [bind].
    replace (is_finished (pre ++ c :: l) (at_ (zlen pre))) with false by (symmetry; apply not_finished).
    replace (is_finished (pre ++ c :: l ++ q) (at_ (zlen pre))) with false by (symmetry; apply not_finished).
    rewrite andb_true_r. destruct (negb (c =? chr_e)) eqn:Ee; [|right; reflexivity].
    change (position (at_ (zlen pre))) with (at_ (zlen pre)).
    specialize (IHn f' pre (c :: l) q ltac:(lia) Hfit).
    pose proof (proj1 (sound_mutual f) pre (c :: l) (Hsub pre (c :: l) q Hfit)) as Hsnd. cbn [app] in IHn.
    destruct (next f (pre ++ c :: l) (at_ (zlen pre))) as [[e s']| | |]; cbn [bind]; trivial; [|rewrite IHn; reflexivity].
    rewrite IHn. cbn [bind]. destruct Hsnd as (w & t & E & Hw & ->).
    change (c :: l ++ q) with ((c :: l) ++ q) in *. rewrite E in *.
    specialize (IHl f' (pre ++ w) t q (acc ++ [e]) ltac:(lia)). rewrite <- !app_assoc in *. specialize (IHl Hfit).
    rewrite (zlen_app pre w) in IHl. exact IHl.
  - intros f' pre l q acc Hf' Hfit. destruct f' as [|f']; [lia|]. cbn [dict_loop].
    destruct l as [|c l].
    { unfold at_ at 1. rewrite peek_end by (rewrite app_nil_r; lia). cbn [bind].
      unfold is_finished at 1, at_ at 1; cbn [sc_cur]. rewrite app_nil_r.
      replace (zlen pre <=? zlen pre) with true by lia. rewrite andb_false_r. left; reflexivity. }
    cbn [app]. replace (peek (pre ++ c :: l) (at_ (zlen pre))) with (@Ok Z c) by (symmetry; apply peek_app).
    replace (peek (pre ++ c :: l ++ q) (at_ (zlen pre))) with (@Ok Z c) by (symmetry; apply peek_app).
    cbn [bind].
    replace (is_finished (pre ++ c :: l) (at_ (zlen pre))) with false by (symmetry; apply not_finished).
    replace (is_finished (pre ++ c :: l ++ q) (at_ (zlen pre))) with false by (symmetry; apply not_finished).
    rewrite andb_true_r. destruct (negb (c =? chr_e)) eqn:Ee; [|right; reflexivity].
    pose proof (readString_ext pre (c :: l) q Hfit) as Gx.
    pose proof (readString_case pre (c :: l) (Hsub pre (c :: l) q Hfit)) as Gs. cbn [app] in Gx.
    destruct (readString (pre ++ c :: l) (at_ (zlen pre))) as [[k s1]| | |]; cbn [bind]; trivial; [|rewrite Gx; reflexivity].
    rewrite Gx. cbn [bind]. destruct Gs as (kw & t & E & Hkw & ->).
    change (c :: l ++ q) with ((c :: l) ++ q) in *. rewrite E in *.
    specialize (IHn f' (pre ++ kw) t q ltac:(lia)). pose proof (proj1 (sound_mutual f) (pre ++ kw) t) as Hsnd.
    rewrite <- !app_assoc in *. specialize (IHn Hfit). rewrite (app_assoc kw) in Hfit.
    assert (Hfit2 : fits (pre ++ kw ++ t)) by exact (Hsub _ _ _ Hfit). specialize (Hsnd Hfit2).
    rewrite <- app_assoc in Hfit.
    rewrite (zlen_app pre kw) in *.
    destruct (next f (pre ++ kw ++ t) (at_ (zlen pre + zlen kw))) as [[e s']| | |]; cbn [bind]; trivial; [|rewrite IHn; reflexivity].
    rewrite IHn. cbn [bind]. destruct Hsnd as (w & t1 & -> & Hw & ->).
    specialize (IHd f' (pre ++ kw ++ w) t1 q (insert k e acc) ltac:(lia)). rewrite <- !app_assoc in *.
    specialize (IHd Hfit). rewrite !(zlen_app pre), (zlen_app kw w), Z.add_assoc in IHd.
    rewrite (zlen_app pre). exact IHd.
Qed.

Lemma parse_panic_ext d q : fits (d ++ q) -> Parse d = Panic -> Parse (d ++ q) = Panic.
Proof.
  intros Hf H. destruct d as [|c d]; [discriminate|]. cbn [app] in *.
  rewrite parse_next in H by (rewrite zlen_cons; pose proof (zlen_nonneg d); lia).
  rewrite parse_next by (rewrite zlen_cons; pose proof (zlen_nonneg (d ++ q)); lia).
  pose proof (proj1 (ext_mutual (parse_fuel (c :: d))) (parse_fuel (c :: d ++ q)) [] (c :: d) q) as G.
  cbn [app] in G. rewrite zlen_nil in G.
  specialize (G ltac:(unfold parse_fuel; cbn [length]; rewrite app_length; lia) Hf).
  destruct (next (parse_fuel (c :: d)) (c :: d) (at_ 0)) as [[e s]| | |]; try discriminate.
  rewrite G. reflexivity.
Qed.

Lemma truncated w e p q : fits w -> wdenotes w e -> w = p ++ q -> q <> [] -> exists msg, Parse p = Err msg.
Proof.
  intros Hf Hw E Hq. subst w.
  assert (Hp : fits p) by exact (fits_app_l _ _ Hf).
  pose proof (parse_case p Hp) as G. destruct (Parse p) as [e'| | |] eqn:Ep; [| eauto| |destruct G].
  - exfalso. destruct G as (w' & post & -> & Hw'). rewrite <- app_assoc in *.
    destruct (wdenotes_unique w' e' (post ++ q) (w' ++ post ++ q) e [] Hw' Hw) as [E _].
    + rewrite app_nil_r; reflexivity.
    + exact Hf.
    + apply (f_equal (@length Z)) in E. rewrite !app_length in E. destruct q; [congruence|cbn in E; lia].
  - exfalso. apply parse_panic_ext with (q := q) in Ep; [|exact Hf].
    pose proof (parse_complete (p ++ q) e [] Hw) as G2. rewrite app_nil_r in G2. rewrite G2 in Ep by exact Hf. discriminate.
Qed.

(* ---- decimal rendering ---- *)
Lemma digits_aux_spec fuel : forall n acc, 0 <= n < 2 ^ Z.of_nat fuel -> (0 < fuel)%nat ->
  exists ds, digits_aux fuel n acc = ds ++ acc /\ digits ds /\ decval ds = n /\ ds <> [].
Proof.
  induction fuel as [|fuel IH]; intros n acc Hn Hf; [lia|]. cbn [digits_aux].
  assert (Hm : 0 <= n mod 10 < 10) by (apply Z.mod_pos_bound; lia).
  destruct (Z.eqb_spec (n / 10) 0) as [E|E].
  - exists [48 + n mod 10]. repeat split; [constructor; [unfold digit; lia|constructor]| |discriminate].
    rewrite decval_one. pose proof (Z.div_mod n 10). lia.
  - assert (Hd : 0 <= n / 10) by (apply Z.div_pos; lia).
    assert (Hlt : n / 10 < 2 ^ Z.of_nat fuel).
    { apply Z.div_lt_upper_bound; [lia|]. rewrite Nat2Z.inj_succ, Z.pow_succ_r in Hn by lia. lia. }
    destruct fuel as [|fuel']; [cbn in Hlt; lia|].
    destruct (IH (n / 10) ((48 + n mod 10) :: acc)) as (ds & E1 & Hd1 & Hv & Hne); [lia|lia|].
    exists (ds ++ [48 + n mod 10]). rewrite E1. repeat split.
    + rewrite <- app_assoc; reflexivity.
    + apply Forall_app; split; [exact Hd1|constructor; [unfold digit; lia|constructor]].
    + rewrite decval_app, Hv, decval_one. change (zlen [48 + n mod 10]) with 1. pose proof (Z.div_mod n 10). lia.
    + destruct ds; discriminate.
Qed.
Lemma utoa_spec n : 0 <= n -> digits (utoa n) /\ decval (utoa n) = n /\ utoa n <> [].
Proof.
  intros Hn. unfold utoa. destruct (digits_aux_spec (S (Z.to_nat (Z.log2 n))) n []) as (ds & -> & H); [|lia|].
  - split; [lia|]. destruct (Z.eq_dec n 0) as [->|]; [cbn; lia|].
    rewrite Nat2Z.inj_succ, Z2Nat.id by apply Z.log2_nonneg. apply Z.log2_spec; lia.
  - rewrite app_nil_r. exact H.
Qed.
Lemma itoa_spec n : 0 <= n -> digits (itoa n) /\ decval (itoa n) = n.
Proof.
  intros Hn. unfold itoa. replace (n <? 0) with false by lia. destruct (utoa_spec n Hn) as (A & B & _). auto.
Qed.
Lemma exact_itoa n : 0 <= n <= MAXN -> exact_val (itoa n) = Some n.
Proof.
  intros H. unfold exact_val. destruct (itoa_spec n) as [_ ->]; [lia|].
  destruct (Z.leb_spec n MAXN); [reflexivity|lia].
Qed.

(* ---- C05: round trip ---- *)
Scheme encodes_min := Minimality for encodes Sort Prop
  with enc_items_min := Minimality for enc_items Sort Prop
  with enc_pairs_min := Minimality for enc_pairs Sort Prop.
Combined Scheme enc_mutual from encodes_min, enc_items_min, enc_pairs_min.

Definition node_ok (x : ben) : Prop :=
  match x with
  | BInt n => 0 <= n <= MAXN
  | BDict _ m _ => NoDup (map fst m)
  | _ => True
  end.
Lemma encodable_here e : encodable e -> node_ok e.
Proof. intros H. apply (H e). constructor. Qed.
Lemma encodable_item p v raw e : encodable (BList p v raw) -> In e v -> encodable e.
Proof. intros H Hi x Hx. apply H. eapply in_list; eauto. Qed.
Lemma encodable_entry p m raw k e : encodable (BDict p m raw) -> In (k, e) m -> encodable e.
Proof. intros H Hi x Hx. apply H. eapply in_dict; eauto. Qed.

(* entries written for a map and entries parsed back *)
Inductive same_entries : list (bytes * ben) -> list (bytes * ben) -> Prop :=
| se_nil : same_entries [] []
| se_skip k m es : same_entries m es -> same_entries ((k, BNil) :: m) es
| se_cons k a b m es : b <> BNil -> same_value a b -> same_entries m es -> same_entries ((k, a) :: m) ((k, b) :: es).

Lemma same_entries_keys m es k : same_entries m es -> In k (map fst es) -> In k (map fst m).
Proof.
  induction 1 as [|k' m es Hs IH|k' a b m es Hb Hv Hs IH]; simpl; auto. intros [H|H]; auto.
Qed.
Lemma same_entries_nodup m es : same_entries m es -> NoDup (map fst m) -> NoDup (map fst es).
Proof.
  induction 1 as [|k' m es Hs IH|k' a b m es Hb Hv Hs IH]; simpl; intros Hn; auto; inversion Hn; subst; auto.
  constructor; auto. intros Hi. eapply same_entries_keys in Hi; eauto.
Qed.
Lemma same_value_nonnil a b : same_value a b -> a <> BNil /\ b <> BNil.
Proof. intros H; inversion H; subst; split; discriminate. Qed.

Lemma visible_lookup m k a : visible m k = Some a <-> lookup k m = Some a /\ a <> BNil.
Proof.
  unfold visible. destruct (lookup k m) as [x|]; [|split; [discriminate|intros [? _]; discriminate]].
  destruct x; split; intros H; try discriminate; try (injection H as <-; split; [reflexivity|discriminate]);
    try (destruct H as [H1 H2]; injection H1 as <-; congruence).
Qed.
Lemma visible_cons_nil k m k' : ~ In k (map fst m) ->
  visible ((k, BNil) :: m) k' = visible m k'.
Proof.
  intros Hn. unfold visible. cbn [lookup]. destruct (beq k' k) eqn:E; [|reflexivity].
  apply beq_eq in E as ->. apply lookup_none in Hn. rewrite Hn. reflexivity.
Qed.
Lemma visible_cons k a m k' : a <> BNil ->
  visible ((k, a) :: m) k' = if beq k' k then Some a else visible m k'.
Proof. intros Ha. unfold visible. cbn [lookup]. destruct (beq k' k); [|reflexivity]. destruct a; congruence. Qed.

Lemma same_entries_visible m es : same_entries m es -> NoDup (map fst m) -> forall k,
  (visible m k = None <-> visible es k = None) /\
  (forall a b, visible m k = Some a -> visible es k = Some b -> same_value a b).
Proof.
  induction 1 as [|k' m es Hs IH|k' a' b' m es Hb Hv Hs IH]; intros Hn k.
  - split; [reflexivity|discriminate].
  - inversion Hn; subst. rewrite visible_cons_nil by assumption. auto.
  - inversion Hn; subst. pose proof (same_value_nonnil _ _ Hv) as [Ha _].
    rewrite !visible_cons by assumption. destruct (beq k k'); [|auto].
    split; [split; discriminate|]. intros a b E1 E2. injection E1 as <-; injection E2 as <-. exact Hv.
Qed.

Lemma last_binding_nodup {A} k (es : list (bytes * A)) : NoDup (map fst es) -> last_binding k es = lookup k es.
Proof.
  induction es as [|[k' v] es IH]; intros H; [reflexivity|]. inversion H as [|? ? Hn Hd]; subst.
  cbn [last_binding lookup]. rewrite IH by assumption. destruct (beq k k') eqn:E; [|destruct (lookup k es); reflexivity].
  apply beq_eq in E as ->. apply lookup_none in Hn. rewrite Hn. reflexivity.
Qed.

Lemma perm_lookup {A} (m m' : list (bytes * A)) k : Permutation m m' -> NoDup (map fst m) -> lookup k m = lookup k m'.
Proof.
  intros Hp Hn. assert (Hn' : NoDup (map fst m')).
  { eapply Permutation_NoDup; [apply Permutation_map; exact Hp|exact Hn]. }
  destruct (lookup k m) as [v|] eqn:E.
  - symmetry. apply nodup_lookup; [exact Hn'|]. eapply Permutation_in; [exact Hp|]. apply lookup_in; exact E.
  - symmetry. apply lookup_none. apply lookup_none in E. intros Hi. apply E.
    eapply Permutation_in; [apply Permutation_sym, Permutation_map; exact Hp|exact Hi].
Qed.

Lemma encode_denotes_mutual :
  (forall e w, encodes e w -> encodable e -> fits w -> exists r, denotes w r /\ same_value e r /\ r <> BNil) /\
  (forall v w, enc_items v w -> (forall e, In e v -> encodable e) -> fits w ->
     exists rs, den_items exact_val w rs /\ same_items v rs) /\
  (forall m w, enc_pairs m w -> (forall k e, In (k, e) m -> encodable e) -> fits w ->
     exists rs, den_entries exact_val w rs /\ same_entries m rs).
Proof.
  apply enc_mutual.
  - intros n He Hf. apply encodable_here in He. cbn in He. exists (BInt n). split; [|split; [constructor|discriminate]].
    apply (den_int exact_val (itoa n)); [apply itoa_spec; lia|apply exact_itoa; exact He].
  - intros s He Hf. exists (BStr s). split; [|split; [constructor|discriminate]].
    apply (den_str exact_val (itoa (zlen s))); [apply itoa_spec; apply zlen_nonneg|apply exact_itoa].
    pose proof (zlen_nonneg s) as Hz. pose proof (zlen_nonneg (itoa (zlen s))) as Hz2. unfold fits in Hf. autorewrite with zlen in Hf.
    lia.
  - intros p v raw w Hi IH He Hf.
    destruct IH as (rs & Hr & Hs); [intros e Hin; eapply encodable_item; eauto| |].
    { unfold fits in *. autorewrite with zlen in Hf. lia. }
    eexists. split; [apply (den_list exact_val w rs Hr)|]. split; [constructor; exact Hs|discriminate].
  - intros p m m' raw w Hp Hi IH He Hf.
    destruct IH as (rs & Hr & Hs).
    { intros k e Hin. eapply encodable_entry; [exact He|]. eapply Permutation_in; [apply Permutation_sym; exact Hp|exact Hin]. }
    { unfold fits in *. autorewrite with zlen in Hf. lia. }
    pose proof (encodable_here _ He) as Hn. cbn in Hn.
    assert (Hn' : NoDup (map fst m')) by (eapply Permutation_NoDup; [apply Permutation_map; exact Hp|exact Hn]).
    eexists. split; [apply (den_dict exact_val w rs Hr)|]. split; [|discriminate].
    assert (V1 : forall k, visible m k = visible m' k).
    { intros k. unfold visible. rewrite (perm_lookup m m' k Hp Hn). reflexivity. }
    assert (V2 : forall k, visible (dict_of rs) k = visible rs k).
    { intros k. unfold visible. rewrite lookup_dict_of, last_binding_nodup; [reflexivity|].
      eapply same_entries_nodup; eauto. }
    constructor; intros k.
    + rewrite V1, V2. apply (same_entries_visible m' rs Hs Hn' k).
    + intros a b. rewrite V1, V2. apply (same_entries_visible m' rs Hs Hn' k).
  - intros. exists []. split; constructor.
  - intros v w Hi IH He Hf. destruct IH as (rs & Hr & Hs); [intros e Hin; apply He; right; exact Hin|exact Hf|].
    exists rs. split; [exact Hr|constructor; exact Hs].
  - intros b v w1 w2 Hb IHb Hv IHv He Hf.
    destruct IHb as (r & Hr & Hs & Hne); [apply He; left; reflexivity|exact (fits_app_l _ _ Hf)|].
    destruct IHv as (rs & Hrs & Hss); [intros e Hin; apply He; right; exact Hin|exact (fits_app_r _ _ Hf)|].
    exists (r :: rs). split; constructor; assumption.
  - intros. exists []. split; constructor.
  - intros k m w Hi IH He Hf. destruct IH as (rs & Hr & Hs); [intros k' e Hin; apply (He k'); right; exact Hin|exact Hf|].
    exists rs. split; [exact Hr|constructor; exact Hs].
  - intros k b m wk w1 w2 Hk IHk Hb IHb Hm IHm He Hf.
    assert (Hf1 := fits_app_l _ _ Hf). assert (Hf2 := fits_app_r _ _ Hf).
    destruct IHk as (rk & Hrk & Hsk & _); [|exact Hf1|].
    { intros x Hx. inversion Hx; subst. exact I. }
    inversion Hsk; subst.
    destruct IHb as (r & Hr & Hs & Hne); [apply (He k); left; reflexivity|exact (fits_app_l _ _ Hf2)|].
    destruct IHm as (rs & Hrs & Hss); [intros k' e Hin; apply (He k'); right; exact Hin|exact (fits_app_r _ _ Hf2)|].
    exists ((k, r) :: rs). split; constructor; assumption.
Qed.

Lemma round_trip e w : encodable e -> encodes e w -> fits w -> exists r, Parse w = Ok r /\ same_value e r.
Proof.
  intros He Hw Hf. destruct (proj1 encode_denotes_mutual e w Hw He Hf) as (r & Hr & Hs & _).
  exists r. split; [|exact Hs]. rewrite <- (app_nil_r w). apply parse_complete; [apply denotes_wdenotes; exact Hr|].
  rewrite app_nil_r. exact Hf.
Qed.

Lemma digits_aux_len fuel : forall n acc, (length (digits_aux fuel n acc) <= fuel + length acc)%nat.
Proof.
  induction fuel as [|fuel IH]; intros n acc; cbn [digits_aux]; [cbn; lia|].
  destruct (n / 10 =? 0); [cbn [length]; lia|]. pose proof (IH (n / 10) ((48 + n mod 10) :: acc)) as H. cbn [length] in H. lia.
Qed.
Lemma itoa_len n : - 2 ^ 63 <= n < 2 ^ 63 -> zlen (itoa n) <= 66.
Proof.
  intros H. assert (U : forall k, 0 <= k <= 2 ^ 63 -> zlen (utoa k) <= 65).
  { intros k Hk. unfold utoa. pose proof (digits_aux_len (S (Z.to_nat (Z.log2 k))) k []) as L. cbn [length] in L.
    assert (Z.log2 k <= 63) by (change 63 with (Z.log2 (2 ^ 63)); apply Z.log2_le_mono; lia).
    unfold zlen. lia. }
  unfold itoa. destruct (Z.ltb_spec n 0); [rewrite zlen_cons|]; specialize (U (Z.abs n) ltac:(lia)).
  - replace (Z.abs n) with (- n) in U by lia. lia.
  - replace (Z.abs n) with n in U by lia. lia.
Qed.

Lemma int_no_round_trip n w : - 2 ^ 63 <= n < 2 ^ 63 -> ~ 0 <= n <= MAXN -> encodes (BInt n) w -> Parse w <> Ok (BInt n).
Proof.
  intros Hn Hr Hw Hp. inversion Hw; subst. pose proof (itoa_len n Hn) as Hl.
  apply parse_iff in Hp as (w & post & E & Hd).
  - inversion Hd as [ds m Hds Hv Ew| | |]; subst. injection Hv as Hv.
    pose proof (machine_val_range ds) as Hm. destruct (Z.ltb_spec n 0) as [Hneg|Hpos].
    + cbn [app] in E. injection E as E. rewrite <- app_assoc in E.
      unfold itoa in E. replace (n <? 0) with true in E by lia. cbn [app] in E.
      destruct ds as [|c ds]; [discriminate|]. cbn [app] in E. injection E as <- _.
      inversion Hds as [|? ? Hc _]; subst. unfold digit in Hc. lia.
    + lia.
  - unfold fits, MAXN. autorewrite with zlen. lia.
Qed.

(* the association-list order is one possible iteration order *)
Lemma encode_encodes_size : forall n e, (length (encode e) <= n)%nat -> e <> BNil -> encodes e (encode e).
Proof.
  induction n as [n IH] using lt_wf_ind. intros e Hn He.
  assert (Hne : forall b, b <> BNil -> (1 <= length (encode b))%nat).
  { intros b Hb. destruct b; cbn [encode]; try congruence; rewrite ?app_length; cbn [length]; lia. }
  destruct e as [|z|s|p v raw|p m raw]; [congruence|constructor|constructor| |].
  - cbn [encode]. constructor. cbn [encode length] in Hn. rewrite app_length in Hn. cbn [length] in Hn.
    assert (Hl : (length (flat_map encode v) < n)%nat) by lia. clear Hn He.
    induction v as [|b v IHv]; [constructor|]. cbn [flat_map] in *. rewrite app_length in Hl.
    assert (Hb : b = BNil \/ b <> BNil) by (destruct b; auto; right; discriminate).
    destruct Hb as [->|Hb]; [apply (enc_items_skip v (flat_map encode v)), IHv; lia|].
    constructor; [apply (IH (length (encode b))); [lia|lia|exact Hb]|apply IHv; lia].
  - cbn [encode]. apply enc_dict with (m' := m); [apply Permutation_refl|]. cbn [encode length] in Hn.
    rewrite app_length in Hn. cbn [length] in Hn.
    match goal with |- enc_pairs _ ?w => assert (Hl : (length w < n)%nat) by lia end. clear Hn He.
    induction m as [|[k b] m IHm]; [constructor|]. cbn [flat_map fst snd] in *.
    assert (Hb : is_nil b = true /\ b = BNil \/ is_nil b = false /\ b <> BNil)
      by (destruct b; try (left; split; reflexivity); right; split; try reflexivity; discriminate).
    destruct Hb as [[_ ->]|[E Hb]].
    + cbn [is_nil] in *. cbn [app] in *. apply enc_pairs_skip, IHm. exact Hl.
    + rewrite E in *. rewrite !app_length in Hl. rewrite <- app_assoc.
      constructor; [constructor|apply (IH (length (encode b))); [lia|lia|exact Hb]|apply IHm; lia].
Qed.
Lemma encode_encodes e : e <> BNil -> encodes e (encode e).
Proof. apply encode_encodes_size with (n := length (encode e)). lia. Qed.

Lemma parse_panics_head ds t : fits (ds ++ [58] ++ t) -> digits ds -> machine_val ds < 0 -> Parse (ds ++ [58] ++ t) = Panic.
Proof.
  intros Hf Hd Hm. destruct (str_head ds t Hd) as (c & w' & E & Hc).
  assert (Hr : readString (ds ++ [58] ++ t) (at_ 0) = Panic).
  { destruct (readString_sound [] (ds ++ [58] ++ t) 0 Hf)
      as [(ds2 & s & t2 & E2 & Hd2 & Hv2 & _)|[(er2 & Er2)|(_ & _ & _ & _ & _ & Er2)]]; [| |exact Er2].
    - rewrite <- !app_assoc in E2. apply digits_unique in E2 as [<- _]; auto; try apply stops_colon.
      pose proof (zlen_nonneg s). lia.
    - exfalso. revert Er2. unfold readString. rewrite number_exact by (auto; apply stops_colon). cbn [bind].
      change ([] ++ ds ++ [58] ++ t) with (ds ++ 58 :: t). rewrite zlen_nil, Z.add_0_l.
      change chr_colon with 58. rewrite match_at.
      cbn [bind negb at_ sc_start sc_cur]. unfold fits, MAXN in Hf. pose proof (machine_val_range ds) as Hr. unfold MAXN in Hr.
      autorewrite with zlen in *. pose proof (zlen_nonneg ds). pose proof (zlen_nonneg t).
      rewrite wrap64_small by lia.
      replace (zlen ds + (1 + zlen t) <? zlen ds + 1 + machine_val ds) with false by lia.
      unfold read, slice; cbn [sc_start sc_cur].
      replace (zlen ds + 1 <=? zlen ds + 1 + machine_val ds) with false by lia.
      rewrite andb_false_r. discriminate. }
  rewrite parse_next by (rewrite E, zlen_cons; pose proof (zlen_nonneg w'); lia).
  unfold parse_fuel. rewrite Nat.add_comm. cbn [Nat.add next].
  assert (Hp : peek (ds ++ [58] ++ t) (at_ 0) = Ok c) by (rewrite E; apply (peek_at [])).
  rewrite Hp. cbn [bind]. unfold chr_l, chr_d, chr_i.
  replace (c =? 108) with false by lia. replace (c =? 100) with false by lia. replace (c =? 105) with false by lia.
  rewrite Hr. reflexivity.
Qed.
