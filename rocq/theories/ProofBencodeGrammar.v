(* Parser = grammar. *)
From Verif Require Import Base ModelBencode SpecBencode ProofBase ProofBencode.

Scheme denotes_min := Minimality for denotes_with Sort Prop
  with den_items_min := Minimality for den_items Sort Prop
  with den_entries_min := Minimality for den_entries Sort Prop.
Combined Scheme den_mutual from denotes_min, den_items_min, den_entries_min.

Lemma digit_not_letter c : digit c -> c <> 101 /\ c <> 108 /\ c <> 100 /\ c <> 105 /\ c <> 0.
Proof. unfold digit; lia. Qed.

Lemma denotes_head val w e : denotes_with val w e -> exists c w', w = c :: w' /\ c <> 101 /\ c <> 0.
Proof.
  intros H; inversion H; subst; cbn [app].
  - eexists _, _; split; [reflexivity|lia].
  - destruct ds as [|c ds].
    + eexists _, _; split; [reflexivity|lia].
    + inversion H0 as [|? ? Hc _]; subst. apply digit_not_letter in Hc.
      eexists _, _; split; [reflexivity|lia].
  - eexists _, _; split; [reflexivity|lia].
  - eexists _, _; split; [reflexivity|lia].
Qed.

Lemma str_head ds s : digits ds ->
  exists c w', ds ++ [58] ++ s = c :: w' /\ c <> 101 /\ c <> 108 /\ c <> 100 /\ c <> 105 /\ c <> 0.
Proof.
  intros Hd. destruct ds as [|c ds]; cbn [app].
  - eexists _, _; split; [reflexivity|lia].
  - inversion Hd as [|? ? Hc _]; subst. apply digit_not_letter in Hc.
    eexists _, _; split; [reflexivity|lia].
Qed.

Lemma denotes_str_inv val w s : denotes_with val w (BStr s) ->
  exists ds, w = ds ++ [58] ++ s /\ digits ds /\ val ds = Some (zlen s).
Proof. intros H; inversion H; subst. eexists; repeat split; eauto. Qed.

Definition map_from {A} (es : list (bytes * A)) (m : list (bytes * A)) :=
  fold_left (fun m kv => insert (fst kv) (snd kv) m) es m.

Lemma not_finished pre c post x : is_finished (pre ++ c :: post) (mkSc x (zlen pre)) = false.
Proof. unfold is_finished; cbn [sc_cur]. autorewrite with zlen. pose proof (zlen_nonneg post). lia. Qed.

Lemma complete_mutual :
  (forall w e, wdenotes w e -> forall pre post fuel,
     (2 * length w + 1 <= fuel)%nat -> fits (pre ++ w ++ post) ->
     next fuel (pre ++ w ++ post) (at_ (zlen pre)) = Ok (e, at_ (zlen pre + zlen w))) /\
  (forall body es, den_items wrapped_val body es -> forall pre post fuel acc,
     (2 * length body + 2 <= fuel)%nat -> fits (pre ++ body ++ 101 :: post) ->
     list_loop fuel (pre ++ body ++ 101 :: post) (at_ (zlen pre)) acc
     = Ok (acc ++ es, at_ (zlen pre + zlen body))) /\
  (forall body es, den_entries wrapped_val body es -> forall pre post fuel acc,
     (2 * length body + 2 <= fuel)%nat -> fits (pre ++ body ++ 101 :: post) ->
     dict_loop fuel (pre ++ body ++ 101 :: post) (at_ (zlen pre)) acc
     = Ok (map_from es acc, at_ (zlen pre + zlen body))).
Proof.
  apply den_mutual.
  - (* int *)
    intros ds n Hd Hv pre post fuel Hf Hfit. destruct fuel as [|fuel]; [lia|]. cbn [next].
    change (pre ++ ([105] ++ ds ++ [101]) ++ post) with (pre ++ 105 :: (ds ++ [101]) ++ post).
    unfold at_ at 1. rewrite peek_app. cbn [bind]. cbn [Z.eqb Pos.eqb chr_l chr_d chr_i].
    change (pre ++ 105 :: (ds ++ [101]) ++ post) with (pre ++ ([105] ++ ds ++ [101]) ++ post).
    fold (at_ (zlen pre)). rewrite readInt_exact by assumption. injection Hv as ->. reflexivity.
  - (* str *)
    intros ds s Hd Hv pre post fuel Hf Hfit. destruct fuel as [|fuel]; [lia|]. cbn [next].
    destruct (str_head ds s Hd) as (c & w' & E & Hc).
    assert (Hp : peek (pre ++ (ds ++ [58] ++ s) ++ post) (at_ (zlen pre)) = Ok c).
    { rewrite E. cbn [app]. apply peek_app. }
    rewrite Hp. cbn [bind]. unfold chr_l, chr_d, chr_i.
    replace (c =? 108) with false by lia. replace (c =? 100) with false by lia.
    replace (c =? 105) with false by lia.
    unfold at_ at 1. rewrite readString_exact; [reflexivity|auto|injection Hv as ->; reflexivity|].
    unfold fits, MAXN in Hfit. autorewrite with zlen in *. pose proof (zlen_nonneg post). lia.
  - (* list *)
    intros body es Hb IH pre post fuel Hf Hfit. destruct fuel as [|fuel]; [lia|]. cbn [next].
    replace (pre ++ ([108] ++ body ++ [101]) ++ post) with (pre ++ 108 :: body ++ 101 :: post) in *
      by (cbn [app]; rewrite <- app_assoc; reflexivity).
    unfold at_ at 1. rewrite peek_app. cbn [bind]. cbn [Z.eqb Pos.eqb chr_l].
    unfold at_ at 1. rewrite advance_app. cbn [bind]. unfold position; cbn [sc_cur].
    replace (pre ++ 108 :: body ++ 101 :: post) with ((pre ++ [108]) ++ body ++ 101 :: post) in *
      by (rewrite <- app_assoc; reflexivity).
    fold (at_ (zlen pre + 1)). replace (zlen pre + 1) with (zlen (pre ++ [108])) by (autorewrite with zlen; lia).
    rewrite IH; [|cbn [length app] in Hf; rewrite app_length in Hf; cbn [length] in Hf; lia|exact Hfit].
    cbn [bind]. rewrite <- zlen_app. unfold at_ at 1.
    rewrite (app_assoc (pre ++ [108])). change chr_e with 101. rewrite match_app. cbn [bind negb sc_start at_].
    pose proof (slice_app pre ([108] ++ body ++ [101]) post) as G.
    replace (pre ++ ([108] ++ body ++ [101]) ++ post) with (((pre ++ [108]) ++ body) ++ 101 :: post) in G
      by (cbn [app]; rewrite <- !app_assoc; cbn [app]; rewrite <- ?app_assoc; reflexivity).
    replace (zlen ((pre ++ [108]) ++ body) + 1) with (zlen pre + zlen ([108] ++ body ++ [101]))
      by (autorewrite with zlen; lia).
    rewrite G. cbn [bind]. reflexivity.
  - (* dict *)
    intros body es Hb IH pre post fuel Hf Hfit. destruct fuel as [|fuel]; [lia|]. cbn [next].
    replace (pre ++ ([100] ++ body ++ [101]) ++ post) with (pre ++ 100 :: body ++ 101 :: post) in *
      by (cbn [app]; rewrite <- app_assoc; reflexivity).
    unfold at_ at 1. rewrite peek_app. cbn [bind]. cbn [Z.eqb Pos.eqb chr_l chr_d].
    unfold at_ at 1. rewrite advance_app. cbn [bind]. unfold position; cbn [sc_cur].
    replace (pre ++ 100 :: body ++ 101 :: post) with ((pre ++ [100]) ++ body ++ 101 :: post) in *
      by (rewrite <- app_assoc; reflexivity).
    fold (at_ (zlen pre + 1)). replace (zlen pre + 1) with (zlen (pre ++ [100])) by (autorewrite with zlen; lia).
    rewrite IH; [|cbn [length app] in Hf; rewrite app_length in Hf; cbn [length] in Hf; lia|exact Hfit].
    cbn [bind]. rewrite <- zlen_app. unfold at_ at 1.
    rewrite (app_assoc (pre ++ [100])). change chr_e with 101. rewrite match_app. cbn [bind negb sc_start at_].
    pose proof (slice_app pre ([100] ++ body ++ [101]) post) as G.
    replace (pre ++ ([100] ++ body ++ [101]) ++ post) with (((pre ++ [100]) ++ body) ++ 101 :: post) in G
      by (cbn [app]; rewrite <- !app_assoc; cbn [app]; rewrite <- ?app_assoc; reflexivity).
    replace (zlen ((pre ++ [100]) ++ body) + 1) with (zlen pre + zlen ([100] ++ body ++ [101]))
      by (autorewrite with zlen; lia).
    rewrite G. cbn [bind]. reflexivity.
  - (* items nil *)
    intros pre post fuel acc Hf Hfit. destruct fuel as [|fuel]; [lia|]. cbn [list_loop app].
    unfold at_ at 1. rewrite peek_app. cbn [bind]. change (101 =? chr_e) with true. cbn [negb andb].
    rewrite app_nil_r, zlen_nil, Z.add_0_r. reflexivity.
  - (* items cons *)
    intros w e body es Hw IHw Hb IHb pre post fuel acc Hf Hfit.
    destruct fuel as [|fuel]; [lia|]. cbn [list_loop].
    destruct (denotes_head _ w e Hw) as (c & w' & E & Hc & Hc0).
    assert (Hp : peek (pre ++ (w ++ body) ++ 101 :: post) (at_ (zlen pre)) = Ok c).
    { rewrite E. cbn [app]. apply peek_app. }
    assert (Hnf : is_finished (pre ++ (w ++ body) ++ 101 :: post) (at_ (zlen pre)) = false).
    { rewrite E. cbn [app]. apply not_finished. }
    rewrite Hp. cbn [bind]. rewrite Hnf. replace (c =? chr_e) with false by (unfold chr_e; lia).
    cbn [negb andb]. change (position (at_ (zlen pre))) with (at_ (zlen pre)).
    rewrite <- !app_assoc in *. assert (Hl : (1 <= length w)%nat) by (rewrite E; cbn; lia).
    rewrite app_length in Hf. rewrite IHw by (try assumption; lia). cbn [bind].
    rewrite <- zlen_app. rewrite app_assoc in *. rewrite IHb by (try assumption; lia).
    rewrite <- app_assoc. cbn [app]. autorewrite with zlen. do 2 f_equal. f_equal. lia.
  - (* entries nil *)
    intros pre post fuel acc Hf Hfit. destruct fuel as [|fuel]; [lia|]. cbn [dict_loop app].
    unfold at_ at 1. rewrite peek_app. cbn [bind]. change (101 =? chr_e) with true. cbn [negb andb].
    rewrite zlen_nil, Z.add_0_r. reflexivity.
  - (* entries cons *)
    intros kw k w e body es Hk IHk Hw IHw Hb IHb pre post fuel acc Hf Hfit.
    destruct fuel as [|fuel]; [lia|]. cbn [dict_loop].
    destruct (denotes_head _ kw _ Hk) as (c & w' & E & Hc & Hc0).
    assert (Hp : peek (pre ++ (kw ++ w ++ body) ++ 101 :: post) (at_ (zlen pre)) = Ok c).
    { rewrite E. cbn [app]. apply peek_app. }
    assert (Hnf : is_finished (pre ++ (kw ++ w ++ body) ++ 101 :: post) (at_ (zlen pre)) = false).
    { rewrite E. cbn [app]. apply not_finished. }
    rewrite Hp. cbn [bind]. rewrite Hnf. replace (c =? chr_e) with false by (unfold chr_e; lia).
    cbn [negb andb]. rewrite <- !app_assoc in *.
    assert (Hl : (1 <= length kw)%nat) by (rewrite E; cbn; lia).
    rewrite !app_length in Hf.
    destruct (denotes_str_inv _ _ _ Hk) as (ds & Hkw & Hd & Hv).
    assert (Hs : readString (pre ++ kw ++ w ++ body ++ 101 :: post) (at_ (zlen pre))
                 = Ok (k, at_ (zlen pre + zlen kw))).
    { rewrite Hkw in *. unfold at_ at 1. rewrite readString_exact; [reflexivity|auto|injection Hv as ->; reflexivity|]. unfold fits, MAXN in Hfit.
      autorewrite with zlen in *. pose proof (zlen_nonneg w). pose proof (zlen_nonneg body).
      pose proof (zlen_nonneg post). lia. }
    rewrite Hs. cbn [bind]. rewrite <- zlen_app. rewrite (app_assoc pre) in *.
    rewrite IHw by (try assumption; lia). cbn [bind].
    rewrite <- zlen_app. rewrite (app_assoc (pre ++ kw)) in *. rewrite IHb by (try assumption; lia).
    autorewrite with zlen. unfold map_from; cbn [fold_left fst snd]. do 2 f_equal. f_equal. lia.
Qed.

(* soundness: what a run of the parser tells about the input *)
Definition bad_length (d : bytes) : Prop :=
  exists a ds b, d = a ++ ds ++ [58] ++ b /\ digits ds /\ machine_val ds < 0.

Definition snd_next (fuel : nat) : Prop := forall pre l,
  fits (pre ++ l) ->
  match next fuel (pre ++ l) (at_ (zlen pre)) with
  | Ok (e, s') => exists w t, l = w ++ t /\ wdenotes w e /\ s' = at_ (zlen pre + zlen w)
  | Panic => bad_length l
  | _ => True
  end.
Definition snd_list (fuel : nat) : Prop := forall pre l acc,
  fits (pre ++ l) ->
  match list_loop fuel (pre ++ l) (at_ (zlen pre)) acc with
  | Ok (v, s') => exists w t es, l = w ++ t /\ v = acc ++ es /\ den_items wrapped_val w es /\ s' = at_ (zlen pre + zlen w)
  | Panic => bad_length l
  | _ => True
  end.
Definition snd_dict (fuel : nat) : Prop := forall pre l acc,
  fits (pre ++ l) ->
  match dict_loop fuel (pre ++ l) (at_ (zlen pre)) acc with
  | Ok (m, s') => exists w t es, l = w ++ t /\ m = map_from es acc /\ den_entries wrapped_val w es /\ s' = at_ (zlen pre + zlen w)
  | Panic => bad_length l
  | _ => True
  end.

Lemma bad_app a d : bad_length d -> bad_length (a ++ d).
Proof. intros (x & ds & b & -> & H). exists (a ++ x), ds, b. split; [rewrite <- app_assoc; reflexivity|exact H]. Qed.
Lemma bad_cons a d : bad_length d -> bad_length (a :: d).
Proof. apply (bad_app [a]). Qed.

Lemma wden_str ds s : digits ds -> machine_val ds = zlen s -> wdenotes (ds ++ [58] ++ s) (BStr s).
Proof. intros. constructor; auto. unfold wrapped_val. congruence. Qed.

Lemma readString_case pre l : fits (pre ++ l) ->
  match readString (pre ++ l) (at_ (zlen pre)) with
  | Ok (s, s') => exists w t, l = w ++ t /\ wdenotes w (BStr s) /\ s' = at_ (zlen pre + zlen w)
  | Panic => bad_length l
  | Err _ => True
  | Diverge => False
  end.
Proof.
  intros Hfit. destruct (readString_sound pre l (zlen pre) Hfit)
    as [(ds & s & t & E & Hd & Hv & Er)|[(er & Er)|(ds & t & E & Hd & Hv & Er)]];
    unfold at_ at 1; rewrite Er; trivial.
  - exists (ds ++ [58] ++ s), t. split; [exact E|]. split; [|reflexivity]. apply wden_str; auto.
  - exists [], ds, t. auto.
Qed.

Lemma sound_mutual fuel : snd_next fuel /\ snd_list fuel /\ snd_dict fuel.
Proof.
  induction fuel as [|fuel (IHn & IHl & IHd)].
  { unfold snd_next, snd_list, snd_dict; repeat split; intros; exact I. }
  repeat split.
  - intros pre l Hfit. cbn [next].
    destruct l as [|c l].
    { unfold at_ at 1. rewrite peek_end by (rewrite app_nil_r; lia). cbn [bind].
      change (0 =? chr_l) with false; change (0 =? chr_d) with false; change (0 =? chr_i) with false.
      cbn iota. pose proof (readString_case pre [] Hfit) as G.
      destruct (readString (pre ++ []) (at_ (zlen pre))) as [[s s']| | |]; cbn [bind]; trivial. }
    unfold at_ at 1. rewrite peek_app. cbn [bind].
    destruct (Z.eqb_spec c chr_l) as [->|Hnl].
    { unfold at_ at 1. rewrite advance_app. cbn [bind]. unfold position; cbn [sc_cur]. fold (at_ (zlen pre + 1)).
      specialize (IHl (pre ++ [chr_l]) l []). rewrite <- app_assoc in IHl. cbn [app] in IHl.
      specialize (IHl Hfit). autorewrite with zlen in IHl. replace (zlen pre + (1 + 0)) with (zlen pre + 1) in IHl by lia.
      destruct (list_loop fuel (pre ++ chr_l :: l) (at_ (zlen pre + 1)) []) as [[v s2]| | |]; cbn [bind]; trivial; [|apply bad_cons; assumption].
      destruct IHl as (w & t & es & -> & -> & Hw & ->). cbn [app].
      replace (pre ++ chr_l :: w ++ t) with ((pre ++ [chr_l] ++ w) ++ t)
        by (rewrite <- !app_assoc; reflexivity).
      replace (zlen pre + 1 + zlen w) with (zlen (pre ++ [chr_l] ++ w)) by (autorewrite with zlen; lia).
      unfold at_ at 1. destruct t as [|c t]; [|destruct (Z.eq_dec c chr_e) as [->|Hc]].
      - rewrite match_no by (trivial; discriminate). cbn [bind negb]. trivial.
      - rewrite match_app. cbn [bind negb at_ sc_start].
        pose proof (slice_app pre ([108] ++ w ++ [101]) t) as G.
        replace (pre ++ ([108] ++ w ++ [101]) ++ t) with ((pre ++ [chr_l] ++ w) ++ chr_e :: t) in G
          by (cbn [app]; rewrite <- !app_assoc; cbn [app]; rewrite <- ?app_assoc; reflexivity).
        replace (zlen (pre ++ [chr_l] ++ w) + 1) with (zlen pre + zlen ([108] ++ w ++ [101]))
          by (autorewrite with zlen; lia).
        rewrite G. cbn [bind]. exists ([108] ++ w ++ [101]), t. split; [|split; [|reflexivity]].
        + cbn [app]. rewrite <- app_assoc. reflexivity.
        + constructor; assumption.
      - rewrite match_no by (trivial; discriminate). cbn [bind negb]. trivial. }
    destruct (Z.eqb_spec c chr_d) as [->|Hnd].
    { unfold at_ at 1. rewrite advance_app. cbn [bind]. unfold position; cbn [sc_cur]. fold (at_ (zlen pre + 1)).
      specialize (IHd (pre ++ [chr_d]) l []). rewrite <- app_assoc in IHd. cbn [app] in IHd.
      specialize (IHd Hfit). autorewrite with zlen in IHd. replace (zlen pre + (1 + 0)) with (zlen pre + 1) in IHd by lia.
      destruct (dict_loop fuel (pre ++ chr_d :: l) (at_ (zlen pre + 1)) []) as [[v s2]| | |]; cbn [bind]; trivial; [|apply bad_cons; assumption].
      destruct IHd as (w & t & es & -> & -> & Hw & ->). cbn [app].
      replace (pre ++ chr_d :: w ++ t) with ((pre ++ [chr_d] ++ w) ++ t)
        by (rewrite <- !app_assoc; reflexivity).
      replace (zlen pre + 1 + zlen w) with (zlen (pre ++ [chr_d] ++ w)) by (autorewrite with zlen; lia).
      unfold at_ at 1. destruct t as [|c t]; [|destruct (Z.eq_dec c chr_e) as [->|Hc]].
      - rewrite match_no by (trivial; discriminate). cbn [bind negb]. trivial.
      - rewrite match_app. cbn [bind negb at_ sc_start].
        pose proof (slice_app pre ([100] ++ w ++ [101]) t) as G.
        replace (pre ++ ([100] ++ w ++ [101]) ++ t) with ((pre ++ [chr_d] ++ w) ++ chr_e :: t) in G
          by (cbn [app]; rewrite <- !app_assoc; cbn [app]; rewrite <- ?app_assoc; reflexivity).
        replace (zlen (pre ++ [chr_d] ++ w) + 1) with (zlen pre + zlen ([100] ++ w ++ [101]))
          by (autorewrite with zlen; lia).
        rewrite G. cbn [bind]. exists ([100] ++ w ++ [101]), t. split; [|split; [|reflexivity]].
        + cbn [app]. rewrite <- app_assoc. reflexivity.
        + apply den_dict; assumption.
      - rewrite match_no by (trivial; discriminate). cbn [bind negb]. trivial. }
    destruct (Z.eqb_spec c chr_i) as [->|Hni].
    { change chr_i with 105 in *.
      destruct (readInt_sound pre l) as [(ds & t & E & Hd & ->)|(e & ->)]; cbn [bind]; [|trivial].
      exists ([105] ++ ds ++ [101]), t. split; [exact E|]. split; [|reflexivity]. constructor; auto. }
    pose proof (readString_case pre (c :: l) Hfit) as G.
    destruct (readString (pre ++ c :: l) (at_ (zlen pre))) as [[s s']| | |]; cbn [bind]; trivial.
  - intros pre l acc Hfit. cbn [list_loop].
    assert (Hstop : exists w t es, l = w ++ t /\ acc = acc ++ es /\ den_items wrapped_val w es /\
                       at_ (zlen pre) = at_ (zlen pre + zlen w)).
    { exists [], l, []. rewrite app_nil_r, zlen_nil, Z.add_0_r. repeat split. constructor. }
    destruct l as [|c l].
    { unfold at_ at 1. rewrite peek_end by (rewrite app_nil_r; lia). cbn [bind].
      unfold is_finished, at_ at 1; cbn [sc_cur]. rewrite app_nil_r.
      replace (zlen pre <=? zlen pre) with true by lia. rewrite andb_false_r. exact Hstop. }
    unfold at_ at 1. rewrite peek_app. cbn [bind]. unfold at_ at 1. rewrite not_finished.
    rewrite andb_true_r. destruct (negb (c =? chr_e)) eqn:Ee; [|exact Hstop].
    change (position (at_ (zlen pre))) with (at_ (zlen pre)).
    specialize (IHn pre (c :: l) Hfit).
    destruct (next fuel (pre ++ c :: l) (at_ (zlen pre))) as [[e s']| | |]; cbn [bind]; trivial.
    destruct IHn as (w & t & E & Hw & ->). rewrite E in *.
    specialize (IHl (pre ++ w) t (acc ++ [e])). rewrite <- app_assoc in IHl. specialize (IHl Hfit).
    rewrite zlen_app in IHl.
    destruct (list_loop fuel (pre ++ w ++ t) (at_ (zlen pre + zlen w)) (acc ++ [e])) as [[v s2]| | |]; trivial; [|apply bad_app; assumption].
    destruct IHl as (w2 & t2 & es & -> & -> & Hw2 & ->).
    exists (w ++ w2), t2, (e :: es). repeat split.
    + rewrite <- app_assoc; reflexivity.
    + rewrite <- app_assoc; reflexivity.
    + constructor; assumption.
    + autorewrite with zlen. f_equal; lia.
  - intros pre l acc Hfit. cbn [dict_loop].
    assert (Hstop : exists w t es, l = w ++ t /\ acc = map_from es acc /\ den_entries wrapped_val w es /\
                       at_ (zlen pre) = at_ (zlen pre + zlen w)).
    { exists [], l, []. rewrite zlen_nil, Z.add_0_r. repeat split. constructor. }
    destruct l as [|c l].
    { unfold at_ at 1. rewrite peek_end by (rewrite app_nil_r; lia). cbn [bind].
      unfold is_finished, at_ at 1; cbn [sc_cur]. rewrite app_nil_r.
      replace (zlen pre <=? zlen pre) with true by lia. rewrite andb_false_r. exact Hstop. }
    unfold at_ at 1. rewrite peek_app. cbn [bind]. unfold at_ at 1. rewrite not_finished.
    rewrite andb_true_r. destruct (negb (c =? chr_e)) eqn:Ee; [|exact Hstop].
    pose proof (readString_case pre (c :: l) Hfit) as G.
    destruct (readString (pre ++ c :: l) (at_ (zlen pre))) as [[k s']| | |]; cbn [bind]; trivial.
    destruct G as (kw & t & E & Hkw & ->). rewrite E in *.
    specialize (IHn (pre ++ kw) t). rewrite <- app_assoc in IHn. specialize (IHn Hfit).
    rewrite zlen_app in IHn.
    destruct (next fuel (pre ++ kw ++ t) (at_ (zlen pre + zlen kw))) as [[e s']| | |]; cbn [bind]; trivial; [|apply bad_app; assumption].
    destruct IHn as (w & t1 & -> & Hw & ->).
    specialize (IHd (pre ++ kw ++ w) t1 (insert k e acc)). rewrite <- !app_assoc in IHd.
    specialize (IHd Hfit). rewrite !zlen_app in IHd. rewrite Z.add_assoc in IHd.
    destruct (dict_loop fuel (pre ++ kw ++ w ++ t1) (at_ (zlen pre + zlen kw + zlen w)) (insert k e acc))
      as [[v s2]| | |]; trivial; [|do 2 apply bad_app; assumption].
    destruct IHd as (w2 & t2 & es & -> & -> & Hw2 & ->).
    exists (kw ++ w ++ w2), t2, ((k, e) :: es). repeat split.
    + rewrite <- !app_assoc; reflexivity.
    + constructor; auto.
    + autorewrite with zlen. f_equal; lia.
Qed.

(* ---- consequences for Parse ---- *)
Lemma parse_complete w e post : wdenotes w e -> fits (w ++ post) -> Parse (w ++ post) = Ok e.
Proof.
  intros Hw Hfit. unfold Parse. destruct (denotes_head _ w e Hw) as (c & w' & E & _).
  assert (Hnf : is_finished (w ++ post) (mkSc 0 0) = false).
  { rewrite E. apply (not_finished [] c (w' ++ post) 0). }
  rewrite Hnf. pose proof (proj1 complete_mutual w e Hw [] post (parse_fuel (w ++ post))) as G.
  cbn [app] in G. rewrite zlen_nil in G. unfold at_ in G. rewrite G; [reflexivity| |exact Hfit].
  unfold parse_fuel. rewrite app_length. lia.
Qed.

Lemma parse_next d : zlen d > 0 -> Parse d = (do (e, _) <- next (parse_fuel d) d (at_ 0); Ok e).
Proof. intros H. unfold Parse, is_finished; cbn [sc_cur]. replace (zlen d <=? 0) with false by lia. reflexivity. Qed.

Lemma parse_case d : fits d ->
  match Parse d with
  | Ok e => exists w post, d = w ++ post /\ wdenotes w e
  | Err _ => True
  | Panic => bad_length d
  | Diverge => False
  end.
Proof.
  intros Hf. pose proof (parse_terminates d) as Ht. destruct d as [|c d]; [exact I|].
  rewrite parse_next in * by (rewrite zlen_cons; pose proof (zlen_nonneg d); lia).
  pose proof (proj1 (sound_mutual (parse_fuel (c :: d))) [] (c :: d) Hf) as G.
  cbn [app] in G. rewrite zlen_nil in G.
  destruct (next (parse_fuel (c :: d)) (c :: d) (at_ 0)) as [[e' s']| | |]; cbn [bind] in *; auto.
  destruct G as (w & t & E & Hw & _). eauto.
Qed.

Lemma parse_iff d e : fits d -> (Parse d = Ok e <-> exists w post, d = w ++ post /\ wdenotes w e).
Proof.
  intros Hf. split.
  - intros H. pose proof (parse_case d Hf) as G. rewrite H in G. exact G.
  - intros (w & post & -> & Hw). apply parse_complete; assumption.
Qed.

Lemma fits_app_l a b : fits (a ++ b) -> fits a.
Proof. unfold fits. autorewrite with zlen. pose proof (zlen_nonneg b). lia. Qed.
Lemma fits_app_r a b : fits (a ++ b) -> fits b.
Proof. unfold fits. autorewrite with zlen. pose proof (zlen_nonneg a). lia. Qed.

(* unambiguity: the first document of a byte string is unique *)
Lemma wdenotes_unique w1 e1 p1 w2 e2 p2 :
  wdenotes w1 e1 -> wdenotes w2 e2 -> w1 ++ p1 = w2 ++ p2 -> fits (w1 ++ p1) -> w1 = w2 /\ e1 = e2.
Proof.
  intros H1 H2 E Hf.
  pose proof (proj1 complete_mutual w1 e1 H1 [] p1 (2 * length (w1 ++ p1) + 1)%nat) as G1.
  pose proof (proj1 complete_mutual w2 e2 H2 [] p2 (2 * length (w2 ++ p2) + 1)%nat) as G2.
  cbn [app] in *. rewrite zlen_nil in *. rewrite <- E in G2.
  specialize (G1 ltac:(rewrite app_length; lia) Hf).
  specialize (G2 ltac:(rewrite E, app_length; lia) Hf).
  rewrite G1 in G2. injection G2 as -> Hz. split; [|reflexivity].
  assert (Hl : length w1 = length w2) by (unfold zlen in Hz; lia).
  revert E Hl. clear. revert w2; induction w1 as [|x w1 IH]; intros [|y w2] E Hl; cbn in *; try lia; auto.
  injection E as -> E. f_equal. apply IH; auto.
Qed.

(* on representable numbers the two grammars agree *)
Lemma denotes_wdenotes_mutual :
  (forall w e, denotes w e -> wdenotes w e) /\
  (forall b es, den_items exact_val b es -> den_items wrapped_val b es) /\
  (forall b es, den_entries exact_val b es -> den_entries wrapped_val b es).
Proof.
  assert (K : forall ds n, digits ds -> exact_val ds = Some n -> wrapped_val ds = Some n).
  { unfold exact_val, wrapped_val. intros ds n Hd. destruct (Z.leb_spec (decval ds) MAXN); [|discriminate].
    intros E; injection E as <-. rewrite machine_val_exact; auto. }
  apply den_mutual; intros; constructor; auto.
Qed.
Lemma denotes_wdenotes w e : denotes w e -> wdenotes w e.
Proof. apply denotes_wdenotes_mutual. Qed.

Lemma small_sub a d b : small_numbers (a ++ d ++ b) -> small_numbers d.
Proof.
  intros H x ds y E Hd. apply (H (a ++ x) ds (y ++ b)); auto. subst d. rewrite <- !app_assoc. reflexivity.
Qed.
Lemma small_l a b : small_numbers (a ++ b) -> small_numbers a.
Proof. intros H. apply (small_sub [] a b). exact H. Qed.
Lemma small_r a b : small_numbers (a ++ b) -> small_numbers b.
Proof. intros H. apply (small_sub a b []). rewrite app_nil_r. exact H. Qed.

Lemma wdenotes_denotes_mutual :
  (forall w e, wdenotes w e -> small_numbers w -> denotes w e) /\
  (forall b es, den_items wrapped_val b es -> small_numbers b -> den_items exact_val b es) /\
  (forall b es, den_entries wrapped_val b es -> small_numbers b -> den_entries exact_val b es).
Proof.
  assert (K : forall a ds b n, small_numbers (a ++ ds ++ b) -> digits ds -> wrapped_val ds = Some n -> exact_val ds = Some n).
  { unfold exact_val, wrapped_val. intros a ds b n Hs Hd E; injection E as <-.
    specialize (Hs a ds b eq_refl Hd). rewrite machine_val_exact by auto.
    destruct (Z.leb_spec (decval ds) MAXN); [reflexivity|lia]. }
  apply den_mutual.
  - intros ds n Hd Hv Hs. constructor; auto. eapply K; eauto.
  - intros ds s Hd Hv Hs. constructor; auto. eapply (K []); eauto.
  - intros body es Hb IH Hs. constructor. apply IH. exact (small_sub _ _ _ Hs).
  - intros body es Hb IH Hs. constructor. apply IH. exact (small_sub _ _ _ Hs).
  - intros; constructor.
  - intros w e body es Hw IHw Hb IHb Hs. constructor; [apply IHw; exact (small_l _ _ Hs)|apply IHb; exact (small_r _ _ Hs)].
  - intros; constructor.
  - intros kw k w e body es Hk IHk Hw IHw Hb IHb Hs. constructor.
    + apply IHk; exact (small_l _ _ Hs).
    + apply IHw; exact (small_sub _ _ _ Hs).
    + apply IHb; apply small_r in Hs; exact (small_r _ _ Hs).
Qed.

Lemma parse_iff_small d e : small_numbers d -> fits d ->
  (Parse d = Ok e <-> exists w post, d = w ++ post /\ denotes w e).
Proof.
  intros Hs Hf. rewrite parse_iff by assumption. split; intros (w & post & -> & Hw); exists w, post; split; auto.
  - apply wdenotes_denotes_mutual; auto. apply small_l in Hs; auto.
  - apply denotes_wdenotes; auto.
Qed.

Lemma parse_no_panic d : fits d -> (forall a ds b, d = a ++ ds ++ [58] ++ b -> digits ds -> 0 <= machine_val ds) ->
  Parse d <> Panic.
Proof.
  intros Hf Hn E. pose proof (parse_case d Hf) as G. rewrite E in G.
  destruct G as (a & ds & b & Ed & Hd & Hm). specialize (Hn a ds b Ed Hd). lia.
Qed.

Lemma parse_no_panic_small d : fits d -> small_numbers d -> Parse d <> Panic.
Proof.
  intros Hf Hs. apply parse_no_panic; auto. intros a ds b E Hd.
  rewrite machine_val_exact by (auto; apply (Hs a ds ([58] ++ b)); auto). apply decval_nonneg; auto.
Qed.
