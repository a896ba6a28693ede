(* The parser runs out of stack on exactly the data that are too deep. *)
From Verif Require Import Base ProofBase ModelBencode SpecBencode SpecUnmarshal ModelCmd SpecCmd ModelStack SpecStack ProofBencode ProofBencodeGrammar ProofBencodeMore ProofBreaks.

Lemma deep_head n d : deep n d -> exists c d', d = c :: d' /\ (c = 108 \/ c = 100).
Proof. intros H. destruct H; [now exists c, t|exists 108, (body ++ d)|exists 100, (body ++ kw ++ d)]; split; auto. Qed.
Lemma deep_length n d : deep n d -> (n < length d)%nat.
Proof. induction 1; cbn [app length]; rewrite ?app_length; lia. Qed.

(* -- overflow -> deep -- *)
Definition ov_next (fuel : nat) : Prop := forall n pre l, fits (pre ++ l) -> next_over fuel n (pre ++ l) (at_ (zlen pre)) = true -> deep n l.
Definition ov_list (fuel : nat) : Prop := forall n pre l, fits (pre ++ l) -> list_over fuel n (pre ++ l) (at_ (zlen pre)) = true ->
  exists body es d, l = body ++ d /\ den_items wrapped_val body es /\ deep n d.
Definition ov_dict (fuel : nat) : Prop := forall n pre l, fits (pre ++ l) -> dict_over fuel n (pre ++ l) (at_ (zlen pre)) = true ->
  exists body es kw k d, l = body ++ kw ++ d /\ den_entries wrapped_val body es /\ wdenotes kw (BStr k) /\ deep n d.

Lemma over_mutual fuel : ov_next fuel /\ ov_list fuel /\ ov_dict fuel.
Proof.
  induction fuel as [|fuel (IHn & IHl & IHd)].
  { unfold ov_next, ov_list, ov_dict. split; [|split]; intros; discriminate. }
  split; [|split].
  - intros n pre l Hfit H. cbn [next_over] in H.
    destruct l as [|c l].
    { unfold at_ at 1 in H. rewrite peek_end in H by (rewrite app_nil_r; lia). discriminate H. }
    unfold at_ at 1 in H. rewrite peek_app in H. unfold chr_l, chr_d in *.
    destruct ((c =? 108) || (c =? 100)) eqn:Ec; [|discriminate H].
    destruct n as [|n]; [constructor; lia|].
    unfold at_ at 1 in H. rewrite advance_app in H. unfold position in H; cbn [sc_cur] in H. fold (at_ (zlen pre + 1)) in H.
    destruct (Z.eqb_spec c 108) as [->|Hn].
    + specialize (IHl n (pre ++ [108]) l). rewrite <- app_assoc in IHl. cbn [app] in IHl. specialize (IHl Hfit).
      replace (zlen (pre ++ [108])) with (zlen pre + 1) in IHl by (autorewrite with zlen; lia).
      destruct (IHl H) as (body & es & d & -> & Hb & Hd). exact (dp_list n body es d Hb Hd).
    + assert (c = 100) as -> by lia.
      specialize (IHd n (pre ++ [100]) l). rewrite <- app_assoc in IHd. cbn [app] in IHd. specialize (IHd Hfit).
      replace (zlen (pre ++ [100])) with (zlen pre + 1) in IHd by (autorewrite with zlen; lia).
      destruct (IHd H) as (body & es & kw & k & d & -> & Hb & Hk & Hd). exact (dp_dict n body es kw k d Hb Hk Hd).
  - intros n pre l Hfit H. cbn [list_over] in H.
    destruct l as [|c l].
    { unfold at_ at 1 in H. rewrite peek_end in H by (rewrite app_nil_r; lia).
      unfold is_finished, at_ at 1 in H; cbn [sc_cur] in H. rewrite app_nil_r in H. replace (zlen pre <=? zlen pre) with true in H by lia. rewrite andb_false_r in H. discriminate H. }
    unfold at_ at 1 in H. rewrite peek_app in H. unfold at_ at 1 in H. rewrite not_finished in H.
    rewrite andb_true_r in H. destruct (negb (c =? chr_e)) eqn:Ee; [|discriminate H].
    change (position (at_ (zlen pre))) with (at_ (zlen pre)) in H.
    specialize (IHn n pre (c :: l) Hfit). pose proof (proj1 (sound_mutual fuel) pre (c :: l) Hfit) as S.
    apply orb_prop in H as [H|H].
    { exists [], [], (c :: l). split; [reflexivity|]. split; [constructor|auto]. }
    destruct (next fuel (pre ++ c :: l) (at_ (zlen pre))) as [[e s']| | |]; try discriminate H.
    destruct S as (w & t & E & Hw & ->). rewrite E in *.
    specialize (IHl n (pre ++ w) t). rewrite <- app_assoc in IHl. specialize (IHl Hfit). rewrite zlen_app in IHl.
    destruct (IHl H) as (body & es & d & -> & Hb & Hd).
    exists (w ++ body), (e :: es), d. split; [now rewrite <- app_assoc|]. split; [constructor; assumption|exact Hd].
  - intros n pre l Hfit H. cbn [dict_over] in H.
    destruct l as [|c l].
    { unfold at_ at 1 in H. rewrite peek_end in H by (rewrite app_nil_r; lia).
      unfold is_finished, at_ at 1 in H; cbn [sc_cur] in H. rewrite app_nil_r in H. replace (zlen pre <=? zlen pre) with true in H by lia. rewrite andb_false_r in H. discriminate H. }
    unfold at_ at 1 in H. rewrite peek_app in H. unfold at_ at 1 in H. rewrite not_finished in H.
    rewrite andb_true_r in H. destruct (negb (c =? chr_e)) eqn:Ee; [|discriminate H].
    pose proof (readString_case pre (c :: l) Hfit) as G.
    destruct (readString (pre ++ c :: l) (at_ (zlen pre))) as [[k s']| | |] eqn:Er; try discriminate H.
    destruct G as (kw & t & E & Hkw & ->). rewrite E in *. clear Er.
    specialize (IHn n (pre ++ kw) t). rewrite <- app_assoc in IHn. specialize (IHn Hfit). rewrite zlen_app in IHn.
    pose proof (proj1 (sound_mutual fuel) (pre ++ kw) t) as S. rewrite <- app_assoc in S. specialize (S Hfit). rewrite zlen_app in S.
    apply orb_prop in H as [H|H].
    { exists [], [], kw, k, t. split; [reflexivity|]. split; [constructor|]. split; [exact Hkw|auto]. }
    destruct (next fuel (pre ++ kw ++ t) (at_ (zlen pre + zlen kw))) as [[e s']| | |]; try discriminate H.
    destruct S as (w & t1 & -> & Hw & ->).
    specialize (IHd n (pre ++ kw ++ w) t1). rewrite <- !app_assoc in IHd. specialize (IHd Hfit). rewrite !zlen_app in IHd. rewrite Z.add_assoc in IHd.
    destruct (IHd H) as (body & es & kw2 & k2 & d & -> & Hb & Hk2 & Hd).
    exists (kw ++ w ++ body), ((k, e) :: es), kw2, k2, d. split; [now rewrite <- !app_assoc|]. split; [constructor; assumption|]. split; [exact Hk2|exact Hd].
Qed.

(* -- deep -> overflow -- *)
Lemma list_over_skip n : forall es body pre rest fuel, den_items wrapped_val body es -> fits (pre ++ body ++ rest) -> (2 * length body + 2 <= fuel)%nat ->
  exists fuel', (fuel - length body <= fuel')%nat /\ (list_over fuel' n ((pre ++ body) ++ rest) (at_ (zlen (pre ++ body))) = true -> list_over fuel n (pre ++ body ++ rest) (at_ (zlen pre)) = true).
Proof.
  induction es as [|e es IH]; intros body pre rest fuel Hb Hfit Hf; inversion Hb; subst.
  { exists fuel. split; [cbn; lia|]. now rewrite !app_nil_r. }
  rename body0 into body. destruct fuel as [|fuel]; [lia|]. cbn [list_over].
  match goal with H : denotes_with _ w e |- _ => rename H into Hw end. match goal with H : den_items _ body es |- _ => rename H into Hb' end.
  destruct (denotes_head _ w e Hw) as (c & w' & E & Hc & Hc0).
  assert (Hp : peek (pre ++ (w ++ body) ++ rest) (at_ (zlen pre)) = Ok c) by (rewrite E; cbn [app]; apply peek_app).
  assert (Hnf : is_finished (pre ++ (w ++ body) ++ rest) (at_ (zlen pre)) = false) by (rewrite E; cbn [app]; apply not_finished).
  rewrite Hp. rewrite Hnf. replace (c =? chr_e) with false by (unfold chr_e; lia).
  cbn [negb andb]. change (position (at_ (zlen pre))) with (at_ (zlen pre)).
  assert (Hl : (1 <= length w)%nat) by (rewrite E; cbn; lia). rewrite app_length in *.
  rewrite <- !app_assoc in *. rewrite (proj1 complete_mutual w e Hw pre (body ++ rest) fuel) by (try assumption; lia).
  rewrite <- zlen_app. rewrite app_assoc in *.
  destruct (IH body (pre ++ w) rest fuel Hb' Hfit ltac:(lia)) as (f' & Hf' & HH).
  exists f'. split; [lia|]. intros G. apply orb_true_iff. right. apply HH. rewrite <- !app_assoc in *. exact G.
Qed.
Lemma dict_over_skip n : forall es body pre rest fuel, den_entries wrapped_val body es -> fits (pre ++ body ++ rest) -> (2 * length body + 2 <= fuel)%nat ->
  exists fuel', (fuel - length body <= fuel')%nat /\ (dict_over fuel' n ((pre ++ body) ++ rest) (at_ (zlen (pre ++ body))) = true -> dict_over fuel n (pre ++ body ++ rest) (at_ (zlen pre)) = true).
Proof.
  induction es as [|[k e] es IH]; intros body pre rest fuel Hb Hfit Hf; inversion Hb; subst.
  { exists fuel. split; [cbn; lia|]. now rewrite !app_nil_r. }
  destruct fuel as [|fuel]; [lia|]. cbn [dict_over].
  match goal with H : denotes_with _ kw _ |- _ => rename H into Hk end. match goal with H : denotes_with _ w e |- _ => rename H into Hw end.
  match goal with H : den_entries _ body0 es |- _ => rename H into Hb'; rename body0 into body end.
  destruct (denotes_head _ kw _ Hk) as (c & w' & E & Hc & Hc0).
  assert (Hp : peek (pre ++ (kw ++ w ++ body) ++ rest) (at_ (zlen pre)) = Ok c) by (rewrite E; cbn [app]; apply peek_app).
  assert (Hnf : is_finished (pre ++ (kw ++ w ++ body) ++ rest) (at_ (zlen pre)) = false) by (rewrite E; cbn [app]; apply not_finished).
  rewrite Hp. rewrite Hnf. replace (c =? chr_e) with false by (unfold chr_e; lia).
  cbn [negb andb]. rewrite <- !app_assoc in *. assert (Hl : (1 <= length kw)%nat) by (rewrite E; cbn; lia). rewrite !app_length in *.
  destruct (denotes_str_inv _ _ _ Hk) as (ds & Hkw & Hd & Hv).
  assert (Hs : readString (pre ++ kw ++ w ++ body ++ rest) (at_ (zlen pre)) = Ok (k, at_ (zlen pre + zlen kw))).
  { rewrite Hkw in *. unfold at_ at 1. rewrite readString_exact; [reflexivity|auto|injection Hv as ->; reflexivity|]. unfold fits, MAXN in Hfit.
    autorewrite with zlen in *. pose proof (zlen_nonneg w). pose proof (zlen_nonneg body). pose proof (zlen_nonneg rest). lia. }
  rewrite Hs. rewrite <- zlen_app. rewrite (app_assoc pre) in *.
  rewrite (proj1 complete_mutual w e Hw (pre ++ kw) (body ++ rest) fuel) by (try assumption; lia).
  rewrite <- zlen_app. rewrite (app_assoc (pre ++ kw)) in *.
  destruct (IH body ((pre ++ kw) ++ w) rest fuel Hb' Hfit ltac:(lia)) as (f' & Hf' & HH).
  exists f'. split; [lia|]. intros G. apply orb_true_iff. right. apply HH. rewrite <- !app_assoc in *. exact G.
Qed.

Lemma deep_next n d : deep n d -> forall pre fuel, (2 * length d + 1 <= fuel)%nat -> fits (pre ++ d) -> next_over fuel n (pre ++ d) (at_ (zlen pre)) = true.
Proof.
  induction 1 as [c t Hc|n body es d Hb Hd IH|n body es kw k d Hb Hk Hd IH]; intros pre fuel Hf Hfit; (destruct fuel as [|fuel]; [lia|]); cbn [next_over].
  - unfold at_ at 1. rewrite peek_app. unfold chr_l, chr_d. now replace ((c =? 108) || (c =? 100)) with true by lia.
  - destruct (deep_head n d Hd) as (c & d' & E & Hc). cbn [app] in *. cbn [length] in Hf. rewrite app_length in Hf.
    unfold at_ at 1. rewrite peek_app. change (108 =? chr_l) with true. cbn [orb].
    unfold at_ at 1. rewrite advance_app. unfold position; cbn [sc_cur]. fold (at_ (zlen pre + 1)).
    replace (pre ++ 108 :: body ++ d) with ((pre ++ [108]) ++ body ++ d) in * by (rewrite <- app_assoc; reflexivity).
    replace (zlen pre + 1) with (zlen (pre ++ [108])) by (autorewrite with zlen; lia).
    destruct (list_over_skip n es body (pre ++ [108]) d fuel Hb Hfit ltac:(lia)) as (f' & Hf' & HH). apply HH.
    destruct f' as [|f']; [lia|]. rewrite app_assoc in Hfit. set (q := (pre ++ [108]) ++ body) in *. cbn [list_over].
    assert (Hp : peek (q ++ d) (at_ (zlen q)) = Ok c) by (rewrite E; apply peek_app).
    assert (Hnf : is_finished (q ++ d) (at_ (zlen q)) = false) by (rewrite E; apply not_finished).
    rewrite Hp. rewrite Hnf. replace (c =? chr_e) with false by (unfold chr_e; lia).
    cbn [negb andb]. change (position (at_ (zlen q))) with (at_ (zlen q)). rewrite IH; [reflexivity|lia|exact Hfit].
  - destruct (denotes_head _ kw _ Hk) as (c & w' & E & Hc & Hc0). cbn [app] in *. cbn [length] in Hf. rewrite !app_length in Hf.
    unfold at_ at 1. rewrite peek_app. change (100 =? chr_l) with false. change (100 =? chr_d) with true. cbn [orb].
    unfold at_ at 1. rewrite advance_app. unfold position; cbn [sc_cur]. fold (at_ (zlen pre + 1)).
    replace (pre ++ 100 :: body ++ kw ++ d) with ((pre ++ [100]) ++ body ++ kw ++ d) in * by (rewrite <- app_assoc; reflexivity).
    replace (zlen pre + 1) with (zlen (pre ++ [100])) by (autorewrite with zlen; lia).
    destruct (dict_over_skip n es body (pre ++ [100]) (kw ++ d) fuel Hb Hfit ltac:(lia)) as (f' & Hf' & HH). apply HH.
    destruct f' as [|f']; [lia|]. rewrite app_assoc in Hfit. set (q := (pre ++ [100]) ++ body) in *. cbn [dict_over].
    assert (Hp : peek (q ++ kw ++ d) (at_ (zlen q)) = Ok c) by (rewrite E; apply peek_app).
    assert (Hnf : is_finished (q ++ kw ++ d) (at_ (zlen q)) = false) by (rewrite E; apply not_finished).
    rewrite Hp. rewrite Hnf. replace (c =? chr_e) with false by (unfold chr_e; lia). cbn [negb andb].
    destruct (denotes_str_inv _ _ _ Hk) as (ds & Hkw & Hds & Hv).
    assert (Hs : readString (q ++ kw ++ d) (at_ (zlen q)) = Ok (k, at_ (zlen q + zlen kw))).
    { rewrite Hkw in *. unfold at_ at 1. rewrite readString_exact; [reflexivity|auto|injection Hv as ->; reflexivity|]. unfold fits, MAXN in Hfit.
      autorewrite with zlen in *. pose proof (zlen_nonneg d). lia. }
    rewrite Hs. rewrite <- zlen_app. rewrite app_assoc in *. rewrite IH; [reflexivity|lia|exact Hfit].
Qed.

Theorem overflow_exact n d : fits d -> (overflows n d = true <-> deep n d).
Proof.
  intros Hf. unfold overflows, is_finished. cbn [sc_cur]. split.
  - destruct (zlen d <=? 0); [discriminate|]. intros H. exact (proj1 (over_mutual (parse_fuel d)) n [] d Hf H).
  - intros H. pose proof (deep_length n d H). replace (zlen d <=? 0) with false by (unfold zlen; lia).
    apply (deep_next n d H [] (parse_fuel d)); [unfold parse_fuel; lia|exact Hf].
Qed.
Theorem overflow_short n d : fits d -> (length d <= n)%nat -> overflows n d = false.
Proof.
  intros Hf Hl. destruct (overflows n d) eqn:E; [|reflexivity]. apply overflow_exact in E; [|exact Hf]. apply deep_length in E. lia.
Qed.

(* A larger stack helps. *)
Lemma deep_less n d : deep (S n) d -> deep n d.
Proof.
  revert d. induction n as [|n IH]; intros d H.
  - inversion H; subst; cbn [app]; constructor; auto.
  - inversion H; subst; [eapply dp_list|eapply dp_dict]; eauto.
Qed.

(* -- boxes -- *)
Fixpoint box (n : nat) : ben := match n with O => BList true [] (boxes 1) | S k => BList true [box k] (boxes (S (S k))) end.
Lemma boxes_S n : boxes (S n) = [108] ++ boxes n ++ [101].
Proof.
  unfold boxes. cbn [repeat app]. f_equal. rewrite <- app_assoc. f_equal. change [101] with (repeat 101 1). rewrite <- repeat_app. now replace (n + 1)%nat with (S n) by lia.
Qed.
Lemma boxes_denote n : wdenotes (boxes (S n)) (box n) /\ denotes (boxes (S n)) (box n).
Proof.
  induction n as [|n [IH1 IH2]].
  - split; exact (den_list _ [] [] (items_nil _)).
  - cbn [box]. rewrite (boxes_S (S n)).
    split; apply den_list; rewrite <- (app_nil_r (boxes (S n))); (apply items_cons; [assumption|constructor]).
Qed.
Lemma boxes_deep n : deep n (boxes (S n)).
Proof.
  rewrite boxes_S. generalize [101]. induction n as [|n IH]; intros t.
  - cbn [app]. constructor. auto.
  - rewrite (boxes_S n), <- !app_assoc. apply (dp_list n [] []); [constructor|]. cbn [app]. specialize (IH ([101] ++ t)). cbn [app] in IH. exact IH.
Qed.
Lemma open_deep n : deep n (repeat 108 (S n)).
Proof.
  induction n as [|n IH]; [constructor; auto|]. exact (dp_list n [] [] _ (items_nil _) IH).
Qed.
Lemma boxes_length n : zlen (boxes n) = 2 * Z.of_nat n.
Proof. unfold zlen, boxes. rewrite app_length, !repeat_length. lia. Qed.

(* -- what a parsed document holds -- *)
Lemma nesting_item x v : In x v -> (nesting x <= fold_right (fun x k => Nat.max (nesting x) k) 0%nat v)%nat.
Proof. induction v as [|y v IH]; cbn; [easy|]. intros [->|H]; [lia|]. specialize (IH H). lia. Qed.
Lemma nesting_most (v : list ben) k : (k < fold_right (fun x k => Nat.max (nesting x) k) 0%nat v)%nat -> exists x, In x v /\ (k < nesting x)%nat.
Proof. induction v as [|y v IH]; cbn; [lia|]. intros H. destruct (Nat.ltb_spec k (nesting y)); [now exists y; auto|]. destruct IH as (x & Hx & Hk); [lia|]. exists x; auto. Qed.
Lemma nesting_most2 (v : list (bytes * ben)) k : (k < fold_right (fun x k => Nat.max (nesting (snd x)) k) 0%nat v)%nat -> exists x, In x v /\ (k < nesting (snd x))%nat.
Proof. induction v as [|y v IH]; cbn; [lia|]. intros H. destruct (Nat.ltb_spec k (nesting (snd y))); [now exists y; auto|]. destruct IH as (x & Hx & Hk); [lia|]. exists x; auto. Qed.
Lemma deep_app n d t : deep n d -> deep n (d ++ t).
Proof.
  induction 1 as [c t0 Hc|n body es d Hb Hd IH|n body es kw k d Hb Hk Hd IH].
  - cbn [app]. now constructor.
  - rewrite <- !app_assoc. now apply (dp_list n body es).
  - rewrite <- !app_assoc. now apply (dp_dict n body es kw k).
Qed.
Lemma items_split v x body es : den_items v body es -> In x es -> exists b1 e1 w b2, body = b1 ++ w ++ b2 /\ den_items v b1 e1 /\ denotes_with v w x.
Proof.
  revert body. induction es as [|e es IH]; intros body H Hi; [easy|]. inversion H as [|w e' body0 es' Hw Hb]; subst. destruct Hi as [->|Hi].
  - exists [], [], w, body0. split; [reflexivity|]. split; [constructor|assumption].
  - destruct (IH body0 Hb Hi) as (b1 & e1 & w1 & b2 & -> & G1 & G2). exists (w ++ b1), (e :: e1), w1, b2. rewrite <- app_assoc. split; [reflexivity|]. split; [constructor; assumption|assumption].
Qed.
Lemma entries_split v k x body es : den_entries v body es -> In (k, x) es -> exists b1 e1 kw w b2, body = b1 ++ kw ++ w ++ b2 /\ den_entries v b1 e1 /\ denotes_with v kw (BStr k) /\ denotes_with v w x.
Proof.
  revert body. induction es as [|[k0 e0] es IH]; intros body H Hi; [easy|]. inversion H as [|kw k' w e' body0 es' Hk Hw Hb]; subst. destruct Hi as [[= -> ->]|Hi].
  - exists [], [], kw, w, body0. split; [reflexivity|]. split; [constructor|]. split; assumption.
  - destruct (IH body0 Hb Hi) as (b1 & e1 & kw1 & w1 & b2 & -> & G1 & G2 & G3). exists (kw ++ w ++ b1), ((k0, e0) :: e1), kw1, w1, b2. rewrite <- !app_assoc. split; [reflexivity|]. split; [constructor; assumption|]. split; assumption.
Qed.
Lemma nesting_deep n : forall w e, wdenotes w e -> (n < nesting e)%nat -> deep n w.
Proof.
  induction n as [|n IH]; intros w e Hw Hn.
  - destruct Hw; cbn [nesting] in Hn; try lia; cbn [app]; constructor; auto.
  - destruct Hw as [ds z _ _|ds s _ _|body es Hb|body es Hb]; cbn [nesting] in Hn; try lia.
    + apply Nat.succ_lt_mono, nesting_most in Hn as (x & Hx & Hk). destruct (items_split _ x body es Hb Hx) as (b1 & e1 & w & b2 & -> & H1 & H2).
      rewrite <- !app_assoc. apply (dp_list n b1 e1); [exact H1|]. apply deep_app. exact (IH w x H2 Hk).
    + apply Nat.succ_lt_mono, nesting_most2 in Hn as ([k x] & Hx & Hk). apply (in_map_from es []) in Hx as [Hx|[]]. destruct (entries_split _ k x body es Hb Hx) as (b1 & e1 & kw & w & b2 & -> & H1 & H2 & H3).
      rewrite <- !app_assoc. apply (dp_dict n b1 e1 kw k); [exact H1|exact H2|]. apply deep_app. exact (IH w x H3 Hk).
Qed.

Theorem value_deep n d e : fits d -> Parse d = Ok e -> (n < nesting e)%nat -> overflows n d = true.
Proof.
  intros Hf H Hn. apply overflow_exact; [exact Hf|]. apply parse_iff in H as (w & post & -> & Hw); [|exact Hf]. apply deep_app. now apply (nesting_deep n w e).
Qed.
Theorem overflow_some n : Z.of_nat n < MAXN / 2 -> exists d e, zlen d = 2 * (Z.of_nat n + 1) /\ denotes d e /\ Parse d = Ok e /\ overflows n d = true.
Proof.
  intros Hn. assert (Hf : fits (boxes (S n))).
  { unfold fits. rewrite boxes_length. unfold MAXN in *. change (922337203685477580 / 2) with 461168601842738790 in Hn. lia. }
  exists (boxes (S n)), (box n). split; [rewrite boxes_length; lia|]. destruct (boxes_denote n) as [H1 H2]. split; [exact H2|].
  split; [|apply overflow_exact; [exact Hf|apply boxes_deep]]. rewrite <- (app_nil_r (boxes (S n))). apply parse_complete; [exact H1|now rewrite app_nil_r].
Qed.

Lemma entries_snoc v body es kw k w e : den_entries v body es -> denotes_with v kw (BStr k) -> denotes_with v w e -> den_entries v (body ++ kw ++ w) (es ++ [(k, e)]).
Proof.
  intros H. revert body H. induction es as [|[k0 e0] es IH]; intros body H Hk Hw; inversion H as [|kw' k' w' e' body0 es' Gk Gw Gb]; subst.
  - cbn [app]. replace (kw ++ w) with (kw ++ w ++ []) by now rewrite app_nil_r. constructor; [assumption|assumption|constructor].
  - rewrite <- !app_assoc. cbn [app]. constructor; [assumption|assumption|]. auto.
Qed.
(* any document with one more entry *)
Theorem overflow_extra n body m raw k : wdenotes ([100] ++ body ++ [101]) (BDict true m raw) -> let d := [100] ++ body ++ str "1:" ++ [k] ++ boxes (S n) ++ [101] in fits d ->
  overflows n d = true /\ exists x, Parse d = Ok (BDict true (insert [k] x m) d) /\ (n < nesting x)%nat.
Proof.
  intros Hw d Hf. inversion Hw as [| | |body' es Hb E]. apply app_inv_tail in E. subst body'. subst m raw.
  assert (Hk : wdenotes (str "1:" ++ [k]) (BStr [k])) by (exact (wden_str [49] [k] ltac:(repeat constructor; unfold digit; lia) eq_refl)).
  destruct (boxes_denote n) as [Hx _].
  assert (Hd : wdenotes d (BDict true (insert [k] (box n) (dict_of es)) d)).
  { pose proof (den_dict _ _ _ (entries_snoc _ body es _ [k] (boxes (S n)) (box n) Hb Hk Hx)) as G.
    unfold dict_of in G. rewrite fold_left_app in G. cbn [fold_left fst snd] in G. fold (dict_of es) in G.
    replace ([100] ++ (body ++ (str "1:" ++ [k]) ++ boxes (S n)) ++ [101]) with d in G by (unfold d; rewrite <- !app_assoc; reflexivity). exact G. }
  assert (HP : Parse d = Ok (BDict true (insert [k] (box n) (dict_of es)) d)) by (rewrite <- (app_nil_r d) at 1; apply parse_complete; [exact Hd|now rewrite app_nil_r]).
  assert (Hn : (n < nesting (box n))%nat) by (clear; induction n as [|n IH]; cbn; lia).
  split; [|exists (box n); auto].
  apply overflow_exact; [exact Hf|]. apply deep_less. unfold d. rewrite (app_assoc (str "1:")). apply (dp_dict n body es _ [k]); [exact Hb|exact Hk|]. apply deep_app, boxes_deep.
Qed.
Theorem overflow_refuted : ~ exists n, Z.of_nat n < MAXN / 2 /\ forall d e, denotes d e -> fits d -> overflows n d = false.
Proof.
  intros (n & Hn & H). destruct (overflow_some n Hn) as (d & e & Hl & Hd & _ & Ho). rewrite (H d e Hd) in Ho; [discriminate Ho|].
  unfold fits. rewrite Hl. unfold MAXN in *. change (922337203685477580 / 2) with 461168601842738790 in Hn. lia.
Qed.
