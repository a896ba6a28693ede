(* The parser panics on exactly the data that break it. *)
From Verif Require Import Base ProofBase ModelBencode SpecBencode SpecUnmarshal ModelCmd SpecCmd SpecStatus ProofBencode ProofBencodeGrammar ProofBencodeMore.

Lemma breaks_head d : breaks d -> exists c d', d = c :: d' /\ c <> 101.
Proof.
  intros H. destruct H as [ds t Hd _|body es d _ _|body es ds t _ _ _|body es kw k d _ _ _].
  - destruct (str_head ds t Hd) as (c & w & E & Hc). exists c, w. split; [exact E|tauto].
  - exists 108, (body ++ d). split; [reflexivity|discriminate].
  - exists 100, (body ++ ds ++ [58] ++ t). split; [reflexivity|discriminate].
  - exists 100, (body ++ kw ++ d). split; [reflexivity|discriminate].
Qed.

(* -- panics -> breaks -- *)
Lemma readString_panic pre l : fits (pre ++ l) -> readString (pre ++ l) (at_ (zlen pre)) = Panic ->
  exists ds t, l = ds ++ [58] ++ t /\ digits ds /\ machine_val ds < 0.
Proof.
  intros Hfit H. destruct (readString_sound pre l (zlen pre) Hfit)
    as [(ds & s & t & E & Hd & Hv & Er)|[(er & Er)|(ds & t & E & Hd & Hv & Er)]]; unfold at_ in H; rewrite Er in H; try discriminate H.
  exists ds, t. auto.
Qed.
Definition pan_next (fuel : nat) : Prop := forall pre l, fits (pre ++ l) -> next fuel (pre ++ l) (at_ (zlen pre)) = Panic -> breaks l.
Definition pan_list (fuel : nat) : Prop := forall pre l acc, fits (pre ++ l) -> list_loop fuel (pre ++ l) (at_ (zlen pre)) acc = Panic ->
  exists body es d, l = body ++ d /\ den_items wrapped_val body es /\ breaks d.
Definition pan_dict (fuel : nat) : Prop := forall pre l acc, fits (pre ++ l) -> dict_loop fuel (pre ++ l) (at_ (zlen pre)) acc = Panic ->
  exists body es r, l = body ++ r /\ den_entries wrapped_val body es /\
    ((exists ds t, r = ds ++ [58] ++ t /\ digits ds /\ machine_val ds < 0) \/ exists kw k d, r = kw ++ d /\ wdenotes kw (BStr k) /\ breaks d).

Lemma panic_mutual fuel : pan_next fuel /\ pan_list fuel /\ pan_dict fuel.
Proof.
  induction fuel as [|fuel (IHn & IHl & IHd)].
  { unfold pan_next, pan_list, pan_dict. split; [|split]; intros; discriminate. }
  split; [|split].
  - intros pre l Hfit H. cbn [next] in H.
    destruct l as [|c l].
    { unfold at_ at 1 in H. rewrite peek_end in H by (rewrite app_nil_r; lia). cbn [bind] in H.
      change (0 =? chr_l) with false in H; change (0 =? chr_d) with false in H; change (0 =? chr_i) with false in H. cbn iota in H.
      destruct (readString (pre ++ []) (at_ (zlen pre))) as [[s s']| | |] eqn:E; cbn [bind] in H; try discriminate H.
      apply readString_panic in E as (ds & t & E & _); [|exact Hfit]. destruct ds; discriminate E. }
    unfold at_ at 1 in H. rewrite peek_app in H. cbn [bind] in H.
    destruct (Z.eqb_spec c chr_l) as [->|Hnl].
    { unfold at_ at 1 in H. rewrite advance_app in H. cbn [bind] in H. unfold position in H; cbn [sc_cur] in H. fold (at_ (zlen pre + 1)) in H.
      specialize (IHl (pre ++ [chr_l]) l []). rewrite <- app_assoc in IHl. cbn [app] in IHl. specialize (IHl Hfit).
      pose proof (proj1 (proj2 (sound_mutual fuel)) (pre ++ [chr_l]) l []) as S. rewrite <- app_assoc in S. cbn [app] in S. specialize (S Hfit).
      replace (zlen (pre ++ [chr_l])) with (zlen pre + 1) in * by (autorewrite with zlen; lia).
      destruct (list_loop fuel (pre ++ chr_l :: l) (at_ (zlen pre + 1)) []) as [[v s2]| | |]; cbn [bind] in H; try discriminate H.
      2:{ destruct (IHl eq_refl) as (body & es & d & -> & Hb & Hd). exact (br_list body es d Hb Hd). }
      exfalso. destruct S as (w & t & es & -> & -> & Hw & ->). cbn [app] in H.
      replace (pre ++ chr_l :: w ++ t) with ((pre ++ [chr_l] ++ w) ++ t) in H by (rewrite <- !app_assoc; reflexivity).
      replace (zlen pre + 1 + zlen w) with (zlen (pre ++ [chr_l] ++ w)) in H by (autorewrite with zlen; lia).
      unfold at_ at 1 in H. destruct t as [|c t]; [|destruct (Z.eq_dec c chr_e) as [->|Hc]].
      - rewrite match_no in H by (trivial; discriminate). discriminate H.
      - rewrite match_app in H. cbn [bind negb at_ sc_start] in H.
        pose proof (slice_app pre ([108] ++ w ++ [101]) t) as G.
        replace (pre ++ ([108] ++ w ++ [101]) ++ t) with ((pre ++ [chr_l] ++ w) ++ chr_e :: t) in G
          by (cbn [app]; rewrite <- !app_assoc; cbn [app]; rewrite <- ?app_assoc; reflexivity).
        replace (zlen (pre ++ [chr_l] ++ w) + 1) with (zlen pre + zlen ([108] ++ w ++ [101])) in H by (autorewrite with zlen; lia).
        rewrite G in H. discriminate H.
      - rewrite match_no in H by (trivial; discriminate). discriminate H. }
    destruct (Z.eqb_spec c chr_d) as [->|Hnd].
    { unfold at_ at 1 in H. rewrite advance_app in H. cbn [bind] in H. unfold position in H; cbn [sc_cur] in H. fold (at_ (zlen pre + 1)) in H.
      specialize (IHd (pre ++ [chr_d]) l []). rewrite <- app_assoc in IHd. cbn [app] in IHd. specialize (IHd Hfit).
      pose proof (proj2 (proj2 (sound_mutual fuel)) (pre ++ [chr_d]) l []) as S. rewrite <- app_assoc in S. cbn [app] in S. specialize (S Hfit).
      replace (zlen (pre ++ [chr_d])) with (zlen pre + 1) in * by (autorewrite with zlen; lia).
      destruct (dict_loop fuel (pre ++ chr_d :: l) (at_ (zlen pre + 1)) []) as [[v s2]| | |]; cbn [bind] in H; try discriminate H.
      2:{ destruct (IHd eq_refl) as (body & es & r & -> & Hb & [(ds & t & -> & Hds & Hm)|(kw & k & d & -> & Hk & Hd)]);
            [exact (br_key body es ds t Hb Hds Hm)|exact (br_value body es kw k d Hb Hk Hd)]. }
      exfalso. destruct S as (w & t & es & -> & -> & Hw & ->). cbn [app] in H.
      replace (pre ++ chr_d :: w ++ t) with ((pre ++ [chr_d] ++ w) ++ t) in H by (rewrite <- !app_assoc; reflexivity).
      replace (zlen pre + 1 + zlen w) with (zlen (pre ++ [chr_d] ++ w)) in H by (autorewrite with zlen; lia).
      unfold at_ at 1 in H. destruct t as [|c t]; [|destruct (Z.eq_dec c chr_e) as [->|Hc]].
      - rewrite match_no in H by (trivial; discriminate). discriminate H.
      - rewrite match_app in H. cbn [bind negb at_ sc_start] in H.
        pose proof (slice_app pre ([100] ++ w ++ [101]) t) as G.
        replace (pre ++ ([100] ++ w ++ [101]) ++ t) with ((pre ++ [chr_d] ++ w) ++ chr_e :: t) in G
          by (cbn [app]; rewrite <- !app_assoc; cbn [app]; rewrite <- ?app_assoc; reflexivity).
        replace (zlen (pre ++ [chr_d] ++ w) + 1) with (zlen pre + zlen ([100] ++ w ++ [101])) in H by (autorewrite with zlen; lia).
        rewrite G in H. discriminate H.
      - rewrite match_no in H by (trivial; discriminate). discriminate H. }
    destruct (Z.eqb_spec c chr_i) as [->|Hni].
    { change chr_i with 105 in *. destruct (readInt_sound pre l) as [(ds & t & E & Hd & E1)|(e & E1)]; rewrite E1 in H; discriminate H. }
    destruct (readString (pre ++ c :: l) (at_ (zlen pre))) as [[s s']| | |] eqn:E; cbn [bind] in H; try discriminate H.
    apply readString_panic in E as (ds & t & E & Hd & Hm); [|exact Hfit]. rewrite E. exact (br_len ds t Hd Hm).
  - intros pre l acc Hfit H. cbn [list_loop] in H.
    destruct l as [|c l].
    { unfold at_ at 1 in H. rewrite peek_end in H by (rewrite app_nil_r; lia). cbn [bind] in H.
      unfold is_finished, at_ at 1 in H; cbn [sc_cur] in H. rewrite app_nil_r in H. replace (zlen pre <=? zlen pre) with true in H by lia. rewrite andb_false_r in H. discriminate H. }
    unfold at_ at 1 in H. rewrite peek_app in H. cbn [bind] in H. unfold at_ at 1 in H. rewrite not_finished in H.
    rewrite andb_true_r in H. destruct (negb (c =? chr_e)) eqn:Ee; [|discriminate H].
    change (position (at_ (zlen pre))) with (at_ (zlen pre)) in H.
    specialize (IHn pre (c :: l) Hfit). pose proof (proj1 (sound_mutual fuel) pre (c :: l) Hfit) as S.
    destruct (next fuel (pre ++ c :: l) (at_ (zlen pre))) as [[e s']| | |]; cbn [bind] in H; try discriminate H.
    2:{ exists [], [], (c :: l). split; [reflexivity|]. split; [constructor|auto]. }
    destruct S as (w & t & E & Hw & ->). rewrite E in *.
    specialize (IHl (pre ++ w) t (acc ++ [e])). rewrite <- app_assoc in IHl. specialize (IHl Hfit). rewrite zlen_app in IHl.
    destruct (IHl H) as (body & es & d & -> & Hb & Hd).
    exists (w ++ body), (e :: es), d. split; [now rewrite <- app_assoc|]. split; [constructor; assumption|exact Hd].
  - intros pre l acc Hfit H. cbn [dict_loop] in H.
    destruct l as [|c l].
    { unfold at_ at 1 in H. rewrite peek_end in H by (rewrite app_nil_r; lia). cbn [bind] in H.
      unfold is_finished, at_ at 1 in H; cbn [sc_cur] in H. rewrite app_nil_r in H. replace (zlen pre <=? zlen pre) with true in H by lia. rewrite andb_false_r in H. discriminate H. }
    unfold at_ at 1 in H. rewrite peek_app in H. cbn [bind] in H. unfold at_ at 1 in H. rewrite not_finished in H.
    rewrite andb_true_r in H. destruct (negb (c =? chr_e)) eqn:Ee; [|discriminate H].
    pose proof (readString_case pre (c :: l) Hfit) as G.
    destruct (readString (pre ++ c :: l) (at_ (zlen pre))) as [[k s']| | |] eqn:Er; cbn [bind] in H; try discriminate H.
    2:{ apply readString_panic in Er as (ds & t & E & Hd & Hm); [|exact Hfit]. exists [], [], (c :: l). split; [reflexivity|]. split; [constructor|]. left. exists ds, t. auto. }
    destruct G as (kw & t & E & Hkw & ->). rewrite E in *. clear Er.
    specialize (IHn (pre ++ kw) t). rewrite <- app_assoc in IHn. specialize (IHn Hfit). rewrite zlen_app in IHn.
    pose proof (proj1 (sound_mutual fuel) (pre ++ kw) t) as S. rewrite <- app_assoc in S. specialize (S Hfit). rewrite zlen_app in S.
    destruct (next fuel (pre ++ kw ++ t) (at_ (zlen pre + zlen kw))) as [[e s']| | |]; cbn [bind] in H; try discriminate H.
    2:{ exists [], [], (kw ++ t). split; [reflexivity|]. split; [constructor|]. right. exists kw, k, t. split; [reflexivity|]. split; [exact Hkw|auto]. }
    destruct S as (w & t1 & -> & Hw & ->).
    specialize (IHd (pre ++ kw ++ w) t1 (insert k e acc)). rewrite <- !app_assoc in IHd. specialize (IHd Hfit). rewrite !zlen_app in IHd. rewrite Z.add_assoc in IHd.
    destruct (IHd H) as (body & es & r & -> & Hb & Hr).
    exists (kw ++ w ++ body), ((k, e) :: es), r. split; [now rewrite <- !app_assoc|]. split; [constructor; assumption|exact Hr].
Qed.

(* -- breaks -> panics -- *)
Lemma items_skip : forall es body pre rest fuel acc, den_items wrapped_val body es -> fits (pre ++ body ++ rest) -> (2 * length body + 2 <= fuel)%nat ->
  exists fuel', (fuel - length body <= fuel')%nat /\ list_loop fuel (pre ++ body ++ rest) (at_ (zlen pre)) acc = list_loop fuel' ((pre ++ body) ++ rest) (at_ (zlen (pre ++ body))) (acc ++ es).
Proof.
  induction es as [|e es IH]; intros body pre rest fuel acc Hb Hfit Hf; inversion Hb; subst.
  { exists fuel. split; [cbn; lia|]. now rewrite !app_nil_r. }
  rename w into w, body0 into body. destruct fuel as [|fuel]; [lia|]. cbn [list_loop].
  match goal with H : denotes_with _ w e |- _ => rename H into Hw end. match goal with H : den_items _ body es |- _ => rename H into Hb' end.
  destruct (denotes_head _ w e Hw) as (c & w' & E & Hc & Hc0).
  assert (Hp : peek (pre ++ (w ++ body) ++ rest) (at_ (zlen pre)) = Ok c) by (rewrite E; cbn [app]; apply peek_app).
  assert (Hnf : is_finished (pre ++ (w ++ body) ++ rest) (at_ (zlen pre)) = false) by (rewrite E; cbn [app]; apply not_finished).
  rewrite Hp. cbn [bind]. rewrite Hnf. replace (c =? chr_e) with false by (unfold chr_e; lia).
  cbn [negb andb]. change (position (at_ (zlen pre))) with (at_ (zlen pre)).
  assert (Hl : (1 <= length w)%nat) by (rewrite E; cbn; lia). rewrite app_length in *.
  rewrite <- !app_assoc in *. rewrite (proj1 complete_mutual w e Hw pre (body ++ rest) fuel) by (try assumption; lia). cbn [bind].
  rewrite <- zlen_app. rewrite app_assoc in *.
  destruct (IH body (pre ++ w) rest fuel (acc ++ [e]) Hb' Hfit ltac:(lia)) as (f' & Hf' & ->).
  exists f'. split; [lia|]. rewrite <- !app_assoc. reflexivity.
Qed.
Lemma entries_skip : forall es body pre rest fuel acc, den_entries wrapped_val body es -> fits (pre ++ body ++ rest) -> (2 * length body + 2 <= fuel)%nat ->
  exists fuel' acc', (fuel - length body <= fuel')%nat /\ dict_loop fuel (pre ++ body ++ rest) (at_ (zlen pre)) acc = dict_loop fuel' ((pre ++ body) ++ rest) (at_ (zlen (pre ++ body))) acc'.
Proof.
  induction es as [|[k e] es IH]; intros body pre rest fuel acc Hb Hfit Hf; inversion Hb; subst.
  { exists fuel, acc. split; [cbn; lia|]. now rewrite !app_nil_r. }
  destruct fuel as [|fuel]; [lia|]. cbn [dict_loop].
  match goal with H : denotes_with _ kw _ |- _ => rename H into Hk end. match goal with H : denotes_with _ w e |- _ => rename H into Hw end.
  match goal with H : den_entries _ body0 es |- _ => rename H into Hb'; rename body0 into body end.
  destruct (denotes_head _ kw _ Hk) as (c & w' & E & Hc & Hc0).
  assert (Hp : peek (pre ++ (kw ++ w ++ body) ++ rest) (at_ (zlen pre)) = Ok c) by (rewrite E; cbn [app]; apply peek_app).
  assert (Hnf : is_finished (pre ++ (kw ++ w ++ body) ++ rest) (at_ (zlen pre)) = false) by (rewrite E; cbn [app]; apply not_finished).
  rewrite Hp. cbn [bind]. rewrite Hnf. replace (c =? chr_e) with false by (unfold chr_e; lia).
  cbn [negb andb]. rewrite <- !app_assoc in *. assert (Hl : (1 <= length kw)%nat) by (rewrite E; cbn; lia). rewrite !app_length in *.
  destruct (denotes_str_inv _ _ _ Hk) as (ds & Hkw & Hd & Hv).
  assert (Hs : readString (pre ++ kw ++ w ++ body ++ rest) (at_ (zlen pre)) = Ok (k, at_ (zlen pre + zlen kw))).
  { rewrite Hkw in *. unfold at_ at 1. rewrite readString_exact; [reflexivity|auto|injection Hv as ->; reflexivity|]. unfold fits, MAXN in Hfit.
    autorewrite with zlen in *. pose proof (zlen_nonneg w). pose proof (zlen_nonneg body). pose proof (zlen_nonneg rest). lia. }
  rewrite Hs. cbn [bind]. rewrite <- zlen_app. rewrite (app_assoc pre) in *.
  rewrite (proj1 complete_mutual w e Hw (pre ++ kw) (body ++ rest) fuel) by (try assumption; lia). cbn [bind].
  rewrite <- zlen_app. rewrite (app_assoc (pre ++ kw)) in *.
  destruct (IH body ((pre ++ kw) ++ w) rest fuel (insert k e acc) Hb' Hfit ltac:(lia)) as (f' & acc' & Hf' & ->).
  exists f', acc'. split; [lia|]. rewrite <- !app_assoc. reflexivity.
Qed.

Lemma readString_bad pre ds t : fits (pre ++ ds ++ [58] ++ t) -> digits ds -> machine_val ds < 0 -> readString (pre ++ ds ++ [58] ++ t) (at_ (zlen pre)) = Panic.
Proof.
  intros Hf Hd Hm. destruct (readString_sound pre (ds ++ [58] ++ t) (zlen pre) Hf)
      as [(ds2 & s & t2 & E2 & Hd2 & Hv2 & _)|[(er2 & Er2)|(_ & _ & _ & _ & _ & Er2)]]; [| |exact Er2].
  - rewrite <- !app_assoc in E2. apply digits_unique in E2 as [<- _]; auto; try apply stops_colon. pose proof (zlen_nonneg s). lia.
  - exfalso. revert Er2. unfold readString. rewrite number_exact by (auto; apply stops_colon). cbn [bind].
    replace (pre ++ ds ++ [58] ++ t) with ((pre ++ ds) ++ 58 :: t) by (rewrite <- app_assoc; reflexivity). rewrite <- zlen_app.
    change chr_colon with 58. rewrite match_at.
    cbn [bind negb at_ sc_start sc_cur]. unfold fits, MAXN in Hf. pose proof (machine_val_range ds) as Hr. unfold MAXN in Hr.
    autorewrite with zlen in *. pose proof (zlen_nonneg ds). pose proof (zlen_nonneg t). pose proof (zlen_nonneg pre).
    rewrite wrap64_small by lia.
    replace (zlen pre + zlen ds + (1 + zlen t) <? zlen pre + zlen ds + 1 + machine_val ds) with false by lia.
    unfold read, slice; cbn [sc_start sc_cur].
    replace (zlen pre + zlen ds + 1 <=? zlen pre + zlen ds + 1 + machine_val ds) with false by lia.
    rewrite andb_false_r. discriminate.
Qed.
Lemma breaks_next d : breaks d -> forall pre fuel, (2 * length d + 1 <= fuel)%nat -> fits (pre ++ d) -> next fuel (pre ++ d) (at_ (zlen pre)) = Panic.
Proof.
  induction 1 as [ds t Hd Hm|body es d Hb Hd IH|body es ds t Hb Hd Hm|body es kw k d Hb Hk Hd IH]; intros pre fuel Hf Hfit; (destruct fuel as [|fuel]; [lia|]); cbn [next].
  - destruct (str_head ds t Hd) as (c & w' & E & Hc).
    assert (Hp : peek (pre ++ ds ++ [58] ++ t) (at_ (zlen pre)) = Ok c) by (rewrite E; apply peek_at).
    rewrite Hp. cbn [bind]. unfold chr_l, chr_d, chr_i.
    replace (c =? 108) with false by lia. replace (c =? 100) with false by lia. replace (c =? 105) with false by lia.
    rewrite readString_bad by assumption. reflexivity.
  - destruct (breaks_head d Hd) as (c & d' & E & Hc). cbn [app] in *. cbn [length] in Hf. rewrite app_length in Hf.
    unfold at_ at 1. rewrite peek_app. cbn [bind]. change (108 =? chr_l) with true. cbn iota.
    unfold at_ at 1. rewrite advance_app. cbn [bind]. unfold position; cbn [sc_cur]. fold (at_ (zlen pre + 1)).
    replace (pre ++ 108 :: body ++ d) with ((pre ++ [108]) ++ body ++ d) in * by (rewrite <- app_assoc; reflexivity).
    replace (zlen pre + 1) with (zlen (pre ++ [108])) by (autorewrite with zlen; lia).
    destruct (items_skip es body (pre ++ [108]) d fuel [] Hb Hfit ltac:(lia)) as (f' & Hf' & ->).
    destruct f' as [|f']; [lia|]. rewrite app_assoc in Hfit. set (q := (pre ++ [108]) ++ body) in *. cbn [list_loop].
    assert (Hp : peek (q ++ d) (at_ (zlen q)) = Ok c) by (rewrite E; apply peek_app).
    assert (Hnf : is_finished (q ++ d) (at_ (zlen q)) = false) by (rewrite E; apply not_finished).
    rewrite Hp. cbn [bind]. rewrite Hnf. replace (c =? chr_e) with false by (unfold chr_e; lia).
    cbn [negb andb]. change (position (at_ (zlen q))) with (at_ (zlen q)). rewrite IH; [reflexivity|lia|exact Hfit].
  - destruct (str_head ds t Hd) as (c & w' & E & Hc). cbn [app] in *. cbn [length] in Hf. rewrite !app_length in Hf. cbn [length] in Hf.
    unfold at_ at 1. rewrite peek_app. cbn [bind]. change (100 =? chr_l) with false. change (100 =? chr_d) with true. cbn iota.
    unfold at_ at 1. rewrite advance_app. cbn [bind]. unfold position; cbn [sc_cur]. fold (at_ (zlen pre + 1)).
    replace (pre ++ 100 :: body ++ ds ++ 58 :: t) with ((pre ++ [100]) ++ body ++ ds ++ 58 :: t) in * by (rewrite <- app_assoc; reflexivity).
    replace (zlen pre + 1) with (zlen (pre ++ [100])) by (autorewrite with zlen; lia).
    destruct (entries_skip es body (pre ++ [100]) (ds ++ 58 :: t) fuel [] Hb Hfit ltac:(lia)) as (f' & acc' & Hf' & ->).
    destruct f' as [|f']; [lia|]. rewrite app_assoc in Hfit. set (q := (pre ++ [100]) ++ body) in *. cbn [dict_loop].
    assert (Hp : peek (q ++ ds ++ 58 :: t) (at_ (zlen q)) = Ok c) by (rewrite E; apply peek_app).
    assert (Hnf : is_finished (q ++ ds ++ 58 :: t) (at_ (zlen q)) = false) by (rewrite E; apply not_finished).
    rewrite Hp. cbn [bind]. rewrite Hnf. replace (c =? chr_e) with false by (unfold chr_e; lia). cbn [negb andb].
    change (ds ++ 58 :: t) with (ds ++ [58] ++ t) in *. rewrite readString_bad by assumption. reflexivity.
  - destruct (denotes_head _ kw _ Hk) as (c & w' & E & Hc & Hc0). cbn [app] in *. cbn [length] in Hf. rewrite !app_length in Hf.
    unfold at_ at 1. rewrite peek_app. cbn [bind]. change (100 =? chr_l) with false. change (100 =? chr_d) with true. cbn iota.
    unfold at_ at 1. rewrite advance_app. cbn [bind]. unfold position; cbn [sc_cur]. fold (at_ (zlen pre + 1)).
    replace (pre ++ 100 :: body ++ kw ++ d) with ((pre ++ [100]) ++ body ++ kw ++ d) in * by (rewrite <- app_assoc; reflexivity).
    replace (zlen pre + 1) with (zlen (pre ++ [100])) by (autorewrite with zlen; lia).
    destruct (entries_skip es body (pre ++ [100]) (kw ++ d) fuel [] Hb Hfit ltac:(lia)) as (f' & acc' & Hf' & ->).
    destruct f' as [|f']; [lia|]. rewrite app_assoc in Hfit. set (q := (pre ++ [100]) ++ body) in *. cbn [dict_loop].
    assert (Hp : peek (q ++ kw ++ d) (at_ (zlen q)) = Ok c) by (rewrite E; apply peek_app).
    assert (Hnf : is_finished (q ++ kw ++ d) (at_ (zlen q)) = false) by (rewrite E; apply not_finished).
    rewrite Hp. cbn [bind]. rewrite Hnf. replace (c =? chr_e) with false by (unfold chr_e; lia). cbn [negb andb].
    destruct (denotes_str_inv _ _ _ Hk) as (ds & Hkw & Hds & Hv).
    assert (Hs : readString (q ++ kw ++ d) (at_ (zlen q)) = Ok (k, at_ (zlen q + zlen kw))).
    { rewrite Hkw in *. unfold at_ at 1. rewrite readString_exact; [reflexivity|auto|injection Hv as ->; reflexivity|]. unfold fits, MAXN in Hfit.
      autorewrite with zlen in *. pose proof (zlen_nonneg d). lia. }
    rewrite Hs. cbn [bind]. rewrite <- zlen_app. rewrite app_assoc in *. rewrite IH; [reflexivity|lia|exact Hfit].
Qed.

Theorem parse_breaks d : fits d -> (Parse d = Panic <-> breaks d).
Proof.
  intros Hf. split.
  - intros H. destruct d as [|c d]; [discriminate H|]. rewrite parse_next in H by (rewrite zlen_cons; pose proof (zlen_nonneg d); lia).
    apply (proj1 (panic_mutual (parse_fuel (c :: d))) [] (c :: d) Hf). cbn [app]. rewrite zlen_nil.
    destruct (next (parse_fuel (c :: d)) (c :: d) (at_ 0)) as [[e s]| | |]; cbn [bind] in H; congruence.
  - intros H. destruct (breaks_head d H) as (c & d' & E & _).
    rewrite parse_next by (rewrite E, zlen_cons; pose proof (zlen_nonneg d'); lia).
    pose proof (breaks_next d H [] (parse_fuel d)) as G. cbn [app] in G. rewrite zlen_nil in G. rewrite G; [reflexivity|unfold parse_fuel; lia|exact Hf].
Qed.
