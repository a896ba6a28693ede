From Coq Require Import Sorted.
From Verif Require Import Base ProofBase ModelBencode SpecBencode SpecBep ProofBencode ProofBencodeGrammar ProofBencodeMore ProofUnmarshal SpecStatus ProofBreaks.

Scheme bep3_min := Minimality for bep3 Sort Prop
  with bep3_items_min := Minimality for bep3_items Sort Prop
  with bep3_entries_min := Minimality for bep3_entries Sort Prop.
Combined Scheme bep3_mutual from bep3_min, bep3_items_min, bep3_entries_min.

(* ---------- numbers ---------- *)
Lemma machine_val_all ds : digits ds -> machine_val ds = int_read (decval ds).
Proof.
  intros Hd. unfold machine_val, int_read, decval. f_equal.
  assert (G : forall ds a b, a = wrap64 (b * 10) -> fold_left (fun n c => wrap64 (wrap64 (n + (c - 48)) * 10)) ds a = wrap64 (fold_left (fun a c => a * 10 + (c - 48)) ds b * 10)).
  { clear. induction ds as [|c ds IH]; intros a b E; cbn [fold_left]; [exact E|]. apply IH. subst a.
    unfold wrap64.
    pose proof (Z.mod_pos_bound (b * 10 + 2 ^ 63) (2 ^ 64) ltac:(lia)).
    set (x := c - 48).
    assert (E1 : (((b * 10 + 2 ^ 63) mod 2 ^ 64 - 2 ^ 63 + x + 2 ^ 63) mod 2 ^ 64 - 2 ^ 63) mod 2 ^ 64 = (b * 10 + x) mod 2 ^ 64).
    { rewrite Zminus_mod_idemp_l. replace ((b * 10 + 2 ^ 63) mod 2 ^ 64 - 2 ^ 63 + x + 2 ^ 63 - 2 ^ 63) with ((b * 10 + 2 ^ 63) mod 2 ^ 64 + (x - 2 ^ 63)) by lia.
      rewrite Zplus_mod_idemp_l. f_equal. lia. }
    f_equal. rewrite Zplus_mod, Zmult_mod. rewrite E1. rewrite <- Zmult_mod, <- Zplus_mod. reflexivity. }
  apply G. reflexivity.
Qed.
Lemma int_read_small n : 0 <= n <= MAXN -> int_read n = n.
Proof. unfold MAXN, int_read. intros H. assert (wrap64 (n * 10) = n * 10) as ->. { unfold wrap64. rewrite Z.mod_small by lia. lia. } now apply Z.quot_mul. Qed.
Lemma int_read_range n : - MAXN <= int_read n <= MAXN.
Proof.
  unfold int_read, MAXN. pose proof (wrap64_range (n * 10)) as H. remember (wrap64 (n * 10)) as x eqn:E. clear E.
  pose proof (Z.quot_rem' x 10). destruct (Z.le_gt_cases 0 x).
  - pose proof (Z.rem_bound_pos x 10 ltac:(lia) ltac:(lia)). lia.
  - pose proof (Z.rem_nonpos x 10 ltac:(lia) ltac:(lia)). pose proof (Z.rem_bound_abs x 10 ltac:(lia)). lia.
Qed.

(* ---------- keys ---------- *)
Lemma before_neq a b : before a b -> a <> b.
Proof. induction 1; intros E; [discriminate|injection E as -> _; lia|injection E as E; auto]. Qed.
Lemma sorted_nodup ks : StronglySorted before ks -> NoDup ks.
Proof.
  induction 1 as [|k ks H IH F]; constructor; [|exact IH]. intros Hi. rewrite Forall_forall in F. exact (before_neq _ _ (F _ Hi) eq_refl).
Qed.
Lemma map_from_nodup {A} (es : list (bytes * A)) : forall m, NoDup (map fst (m ++ es)) -> map_from es m = m ++ es.
Proof.
  induction es as [|[k v] es IH]; intros m H; [now rewrite app_nil_r|]. cbn [map_from fold_left fst snd]. fold (map_from es (insert k v m)).
  rewrite map_app in H. cbn [map fst] in H. assert (~ In k (map fst m)). { apply NoDup_remove_2 in H. intros K. apply H, in_or_app. now left. }
  rewrite insert_fresh by assumption. rewrite IH; rewrite <- app_assoc; [reflexivity|]. rewrite map_app. exact H.
Qed.
Lemma dict_of_nodup {A} (es : list (bytes * A)) : NoDup (map fst es) -> dict_of es = es.
Proof. intros H. change (dict_of es) with (map_from es []). now rewrite map_from_nodup. Qed.

(* ---------- without negative integers ---------- *)
Definition all_nonneg (e : ben) : Prop := integers e (fun n => 0 <= n).
Lemma integers_list P p l raw : integers (BList p l raw) P <-> Forall (fun e => integers e P) l.
Proof.
  unfold integers. rewrite Forall_forall. split.
  - intros H e Hi n Hn. apply H. econstructor; eassumption.
  - intros H n Hn. inversion Hn as [| ? ? ? e Hi He|]; subst. exact (H e Hi n He).
Qed.
Lemma integers_dict P p m raw : integers (BDict p m raw) P <-> Forall (fun kv => integers (snd kv) P) m.
Proof.
  unfold integers. rewrite Forall_forall. split.
  - intros H [k e] Hi n Hn. apply H. econstructor; eassumption.
  - intros H n Hn. inversion Hn as [| | ? ? ? k e Hi He]; subst. exact (H (k, e) Hi n He).
Qed.
Lemma integers_int P n : integers (BInt n) P <-> P n.
Proof. unfold integers. split; [intros H; apply H; constructor|]. intros H m Hm. inversion Hm; subst; assumption. Qed.
Lemma integers_str P s : integers (BStr s) P.
Proof. intros n Hn. inversion Hn. Qed.

Definition read_entries (es : list (bytes * ben)) := map (fun kv => (fst kv, read_as (snd kv))) es.
Lemma bep3_wdenotes :
  (forall w e, bep3 w e -> fits w -> all_nonneg e -> wdenotes w (read_as e)) /\
  (forall b es, bep3_items b es -> fits b -> Forall all_nonneg es -> den_items wrapped_val b (map read_as es)) /\
  (forall b es, bep3_entries b es -> fits b -> Forall (fun kv => all_nonneg (snd kv)) es -> den_entries wrapped_val b (read_entries es)).
Proof.
  apply bep3_mutual.
  - intros ds n (Hd & _ & _ & <-) _ _. constructor; [exact Hd|]. unfold wrapped_val. now rewrite machine_val_all.
  - intros ds n (Hd & _ & _ & <-) Hn _ H. apply integers_int in H. pose proof (decval_nonneg _ Hd). lia.
  - intros ds s (Hd & _ & _ & E) Hf _. apply wden_str; [exact Hd|]. rewrite machine_val_exact; [exact E|exact Hd|]. rewrite E. unfold fits in Hf. autorewrite with zlen in Hf. pose proof (zlen_nonneg ds). lia.
  - intros body es _ IH Hf H. apply integers_list in H. cbn [read_as]. constructor. apply IH; [|exact H]. unfold fits in *. autorewrite with zlen in Hf. lia.
  - intros body es _ IH Hs Hf H. apply integers_dict in H. cbn [read_as]. fold (read_entries es).
    assert (E : dict_of (read_entries es) = read_entries es). { apply dict_of_nodup. unfold read_entries. rewrite map_map. cbn [fst]. now apply sorted_nodup. }
    rewrite <- E. constructor. apply IH; [|exact H]. unfold fits in *. autorewrite with zlen in Hf. lia.
  - constructor.
  - intros w e body es _ IHw _ IHb Hf H. inversion H; subst. cbn [map]. constructor; [apply IHw|apply IHb]; try assumption; [eapply fits_app_l|eapply fits_app_r]; eassumption.
  - constructor.
  - intros kw k w e body es _ IHk _ IHw _ IHb Hf H. inversion H; subst. unfold read_entries. cbn [map fst snd]. constructor.
    + apply (IHk (fits_app_l _ _ Hf)). apply integers_str.
    + apply IHw; [|assumption]. apply fits_app_r, fits_app_l in Hf. exact Hf.
    + apply IHb; [|assumption]. apply fits_app_r, fits_app_r in Hf. exact Hf.
Qed.

(* ---------- with a negative integer ---------- *)
Lemma bep3_head w e : bep3 w e -> exists c w', w = c :: w' /\ c <> 101.
Proof.
  intros H. inversion H as [| |ds s (Hd & Hn & _)| |]; subst; cbn [app]; try (eexists _, _; split; [reflexivity|lia]).
  destruct ds as [|c ds]; [contradiction|]. inversion Hd as [|? ? Hc]; subst. unfold digit in Hc. exists c, (ds ++ 58 :: s). split; [reflexivity|lia].
Qed.
Lemma wdenotes_head w e : wdenotes w e -> exists c w', w = c :: w' /\ c <> 101.
Proof.
  intros H. inversion H as [|ds s Hd Hv| |]; subst; cbn [app]; try (eexists _, _; split; [reflexivity|lia]).
  destruct ds as [|c ds]; [exists 58, s; split; [reflexivity|lia]|]. inversion Hd as [|? ? Hc]; subst. unfold digit in Hc. exists c, (ds ++ 58 :: s). split; [reflexivity|lia].
Qed.
Definition no_prefix (s : bytes) : Prop := forall w e y, wdenotes w e -> s = w ++ y -> False.
Definition no_items (s : bytes) : Prop := forall b es y, den_items wrapped_val b es -> s = b ++ 101 :: y -> False.
Definition no_entries (s : bytes) : Prop := forall b es y, den_entries wrapped_val b es -> s = b ++ 101 :: y -> False.
Lemma bep3_negative :
  (forall w e, bep3 w e -> forall x, fits (w ++ x) -> all_nonneg e \/ no_prefix (w ++ x)) /\
  (forall b es, bep3_items b es -> forall x, fits (b ++ 101 :: x) -> Forall all_nonneg es \/ no_items (b ++ 101 :: x)) /\
  (forall b es, bep3_entries b es -> forall x, fits (b ++ 101 :: x) -> Forall (fun kv => all_nonneg (snd kv)) es \/ no_entries (b ++ 101 :: x)).
Proof.
  apply bep3_mutual.
  - intros ds n (Hd & _ & _ & <-) x _. left. apply integers_int. now apply decval_nonneg.
  - intros ds n _ _ x _. right. intros w e y Hw E. cbn [app] in E. inversion Hw as [ds' n' Hd'|ds' s' Hd'|body es Hb|body es Hb]; subst; cbn [app] in E.
    + destruct ds' as [|c ds']; cbn [app] in E; injection E as E; [discriminate|]. inversion Hd' as [|? ? Hc]; subst. unfold digit in Hc. lia.
    + destruct ds' as [|c ds']; cbn [app] in E; injection E as E; [discriminate|]. inversion Hd' as [|? ? Hc]; subst. unfold digit in Hc. lia.
    + discriminate.
    + discriminate.
  - intros ds s _ x _. left. apply integers_str.
  - intros body es _ IH x Hf. cbn [app] in *. rewrite <- app_assoc in *. cbn [app] in *. destruct (IH x) as [H|H]; [exact (fits_app_r [108] _ Hf)|left; now apply integers_list|right].
    intros w e y Hw E. inversion Hw as [ds' n' Hd'|ds' s' Hd'|body' es' Hb|body' es' Hb]; subst; cbn [app] in E; try discriminate.
    + destruct ds' as [|c ds']; cbn [app] in E; injection E as E; [discriminate|]. inversion Hd' as [|? ? Hc]; subst. unfold digit in Hc. lia.
    + injection E as E. rewrite <- app_assoc in E. exact (H _ _ _ Hb E).
  - intros body es _ IH _ x Hf. cbn [app] in *. rewrite <- app_assoc in *. cbn [app] in *. destruct (IH x) as [H|H]; [exact (fits_app_r [100] _ Hf)|left; now apply integers_dict|right].
    intros w e y Hw E. inversion Hw as [ds' n' Hd'|ds' s' Hd'|body' es' Hb|body' es' Hb]; subst; cbn [app] in E; try discriminate.
    + destruct ds' as [|c ds']; cbn [app] in E; injection E as E; [discriminate|]. inversion Hd' as [|? ? Hc]; subst. unfold digit in Hc. lia.
    + injection E as E. rewrite <- app_assoc in E. exact (H _ _ _ Hb E).
  - left. constructor.
  - intros w e body es Hw IHw _ IHb x Hf. rewrite <- app_assoc in *. destruct (IHw _ Hf) as [H|H].
    + destruct (IHb x (fits_app_r _ _ Hf)) as [K|K]; [left; now constructor|right]. intros b' es' y Hb E. inversion Hb as [|w' e' body' es'' Hw' Hb']; subst.
      * destruct (bep3_head _ _ Hw) as (c & w1 & -> & Hc). injection E as E. contradiction.
      * rewrite <- app_assoc in E. pose proof (proj1 bep3_wdenotes w e Hw (fits_app_l _ _ Hf) H) as D. destruct (wdenotes_unique _ _ _ _ _ _ D Hw' E Hf) as [<- _].
        apply app_inv_head in E. exact (K _ _ _ Hb' E).
    + right. intros b' es' y Hb E. inversion Hb as [|w' e' body' es'' Hw' Hb']; subst.
      * destruct (bep3_head _ _ Hw) as (c & w1 & -> & Hc). injection E as E. contradiction.
      * rewrite <- app_assoc in E. exact (H _ _ _ Hw' E).
  - left. constructor.
  - intros kw k w e body es Hk _ Hw IHw _ IHb x Hf. rewrite <- !app_assoc in *.
    pose proof (proj1 bep3_wdenotes kw (BStr k) Hk (fits_app_l _ _ Hf) (integers_str _ _)) as Dk.
    assert (Split : forall b' es' y, den_entries wrapped_val b' es' -> kw ++ w ++ body ++ 101 :: x = b' ++ 101 :: y ->
              exists w' e' body' es'', wdenotes w' e' /\ den_entries wrapped_val body' es'' /\ w ++ body ++ 101 :: x = w' ++ body' ++ 101 :: y).
    { intros b' es' y Hb E. inversion Hb as [|kw' k' w' e' body' es'' Hk' Hw' Hb']; subst.
      - destruct (bep3_head _ _ Hk) as (c & w1 & -> & Hc). injection E as E. contradiction.
      - rewrite <- !app_assoc in E. destruct (wdenotes_unique _ _ _ _ _ _ Dk Hk' E Hf) as [<- _]. apply app_inv_head in E. eauto 8. }
    destruct (IHw _ (fits_app_r _ _ Hf)) as [H|H].
    + destruct (IHb x (fits_app_r _ _ (fits_app_r _ _ Hf))) as [K|K]; [left; now constructor|right]. intros b' es' y Hb E. destruct (Split _ _ _ Hb E) as (w' & e' & body' & es'' & Hw' & Hb' & E').
      pose proof (proj1 bep3_wdenotes w e Hw (fits_app_l _ _ (fits_app_r _ _ Hf)) H) as D. destruct (wdenotes_unique _ _ _ _ _ _ D Hw' E' (fits_app_r _ _ Hf)) as [<- _].
      apply app_inv_head in E'. exact (K _ _ _ Hb' E').
    + right. intros b' es' y Hb E. destruct (Split _ _ _ Hb E) as (w' & e' & body' & es'' & Hw' & Hb' & E'). exact (H _ _ _ Hw' E').
Qed.

(* ---------- no panic ---------- *)
Lemma breaks_head d : breaks d -> exists c d', d = c :: d' /\ (c = 58 \/ 48 <= c <= 57 \/ c = 108 \/ c = 100).
Proof.
  intros H. inversion H as [ds t Hd| | |]; subst; cbn [app]; try (eexists _, _; split; [reflexivity|lia]).
  destruct ds as [|c ds]; [exists 58, t; split; [reflexivity|lia]|]. inversion Hd as [|? ? Hc]; subst. unfold digit in Hc. exists c, (ds ++ 58 :: t). split; [reflexivity|lia].
Qed.
Lemma digits_colon ds t ds' t' : digits ds -> digits ds' -> ds ++ 58 :: t = ds' ++ 58 :: t' -> ds = ds'.
Proof.
  revert ds'. induction ds as [|c ds IH]; intros [|c' ds'] H H' E; cbn [app] in E; [reflexivity| | |].
  - inversion H' as [|? ? Hc]; subst. injection E as E _. unfold digit in Hc. lia.
  - inversion H as [|? ? Hc]; subst. injection E as E _. unfold digit in Hc. lia.
  - injection E as -> E. inversion H; inversion H'; subst. f_equal. now apply IH.
Qed.
Lemma bep3_str_safe kw k x ds t : bep3 kw (BStr k) -> fits (kw ++ x) -> kw ++ x = ds ++ 58 :: t -> digits ds -> machine_val ds < 0 -> False.
Proof.
  intros Hk Hf E Hd Hm. inversion Hk as [| |ds' s' (Hd' & Hn & _ & Ev)| |]; subst. rewrite <- app_assoc in E. cbn [app] in E. apply digits_colon in E; [|assumption|assumption]. subst ds'.
  rewrite machine_val_exact in Hm; [pose proof (decval_nonneg _ Hd); lia|exact Hd|]. unfold fits in Hf. autorewrite with zlen in Hf. pose proof (zlen_nonneg ds). pose proof (zlen_nonneg x). lia.
Qed.
Definition no_broken_items (s : bytes) : Prop := forall b es d, den_items wrapped_val b es -> breaks d -> s = b ++ d -> False.
Definition no_broken_entries (s : bytes) : Prop :=
  (forall b es ds t, den_entries wrapped_val b es -> digits ds -> machine_val ds < 0 -> s = b ++ ds ++ 58 :: t -> False) /\
  (forall b es kw k d, den_entries wrapped_val b es -> wdenotes kw (BStr k) -> breaks d -> s = b ++ kw ++ d -> False).
Lemma bep3_safe :
  (forall w e, bep3 w e -> forall x, fits (w ++ x) -> ~ breaks (w ++ x)) /\
  (forall b es, bep3_items b es -> forall x, fits (b ++ 101 :: x) -> no_broken_items (b ++ 101 :: x)) /\
  (forall b es, bep3_entries b es -> forall x, fits (b ++ 101 :: x) -> no_broken_entries (b ++ 101 :: x)).
Proof.
  apply bep3_mutual.
  - intros ds n _ x _ H. apply breaks_head in H as (c & d & E & H). injection E as <- _. lia.
  - intros ds n _ _ x _ H. apply breaks_head in H as (c & d & E & H). injection E as <- _. lia.
  - intros ds s Hs x Hf H. assert (Hk : bep3 (ds ++ [58] ++ s) (BStr s)) by now constructor.
    pose proof Hs as (Hd & Hn & _). destruct ds as [|c ds]; [contradiction|]. inversion Hd as [|? ? Hc]; subst. unfold digit in Hc. cbn [app] in H.
    remember (c :: (ds ++ 58 :: s) ++ x) as z eqn:E. destruct H as [ds' t Hd' Hm|? ? ? _ _|? ? ? ? _ _ _|? ? ? ? ? _ _ _]; cbn [app] in E.
    + cbn [app] in Hf, Hk. exact (bep3_str_safe _ s x ds' t Hk Hf (eq_sym E) Hd' Hm).
    + injection E as E _. lia.
    + injection E as E _. lia.
    + injection E as E _. lia.
  - intros body es _ IH x Hf H. cbn [app] in *. rewrite <- app_assoc in *. cbn [app] in *. apply (fits_app_r [108]) in Hf.
    remember (108 :: body ++ 101 :: x) as z eqn:E. destruct H as [ds' t Hd' Hm|body' es' d' Hb Hd'|? ? ? ? _ _ _|? ? ? ? ? _ _ _]; cbn [app] in E; try discriminate.
    + destruct ds' as [|c ds']; cbn [app] in E; [discriminate|]. injection E as -> _. inversion Hd' as [|? ? Hc]; subst. unfold digit in Hc. lia.
    + injection E as E. exact (IH x Hf _ _ _ Hb Hd' (eq_sym E)).
  - intros body es _ IH _ x Hf H. cbn [app] in *. rewrite <- app_assoc in *. cbn [app] in *. apply (fits_app_r [100]) in Hf.
    remember (100 :: body ++ 101 :: x) as z eqn:E. destruct H as [ds' t Hd' Hm|? ? ? _ _|body' es' ds' t Hb Hd' Hm|body' es' kw k d' Hb Hk Hd']; cbn [app] in E; try discriminate.
    + destruct ds' as [|c ds']; cbn [app] in E; [discriminate|]. injection E as -> _. inversion Hd' as [|? ? Hc]; subst. unfold digit in Hc. lia.
    + injection E as E. exact (proj1 (IH x Hf) _ _ _ _ Hb Hd' Hm (eq_sym E)).
    + injection E as E. exact (proj2 (IH x Hf) _ _ _ _ _ Hb Hk Hd' (eq_sym E)).
  - intros x _ b es d Hb Hd E. inversion Hb as [|w e b' es' Hw Hb']; subst; cbn [app] in E.
    + apply breaks_head in Hd as (c & d' & -> & H). injection E as <- _. lia.
    + destruct (wdenotes_head _ _ Hw) as (c & w' & -> & Hc). injection E as E _. congruence.
  - intros w e body es Hw IHw _ IHb x Hf b es' d Hb Hd E. rewrite <- app_assoc in *. inversion Hb as [|w' e' b' es'' Hw' Hb']; subst; cbn [app] in E.
    + apply (IHw _ Hf). rewrite E. exact Hd.
    + rewrite <- app_assoc in E. destruct (proj1 bep3_negative _ _ Hw _ Hf) as [H|H]; [|exact (H _ _ _ Hw' E)].
      pose proof (proj1 bep3_wdenotes w e Hw (fits_app_l _ _ Hf) H) as D. destruct (wdenotes_unique _ _ _ _ _ _ D Hw' E Hf) as [<- _]. apply app_inv_head in E.
      exact (IHb x (fits_app_r _ _ Hf) _ _ _ Hb' Hd E).
  - intros x _. split.
    + intros b es ds t Hb Hd Hm E. inversion Hb as [|kw k w e b' es' Hk Hw Hb']; subst; cbn [app] in E.
      * destruct ds as [|c ds]; cbn [app] in E; [discriminate|]. injection E as <- _. inversion Hd as [|? ? Hc]; subst. unfold digit in Hc. lia.
      * destruct (wdenotes_head _ _ Hk) as (c & w' & -> & Hc). injection E as E _. congruence.
    + intros b es kw k d Hb Hk Hd E. inversion Hb as [|kw' k' w e b' es' Hk' Hw Hb']; subst; cbn [app] in E.
      * destruct (wdenotes_head _ _ Hk) as (c & w' & -> & Hc). injection E as E _. congruence.
      * destruct (wdenotes_head _ _ Hk') as (c & w' & -> & Hc). injection E as E _. congruence.
  - intros kw k w e body es Hk _ Hw IHw _ IHb x Hf. rewrite <- !app_assoc in *.
    pose proof (proj1 bep3_wdenotes kw (BStr k) Hk (fits_app_l _ _ Hf) (integers_str _ _)) as Dk.
    pose proof (fits_app_r _ _ Hf) as Hf1. pose proof (fits_app_r _ _ Hf1) as Hf2. destruct (IHb x Hf2) as [I1 I2].
    assert (Step : forall kw' k' w' e' s, wdenotes kw' (BStr k') -> wdenotes w' e' -> kw ++ w ++ body ++ 101 :: x = kw' ++ w' ++ s -> body ++ 101 :: x = s).
    { intros kw' k' w' e' s Hk' Hw' E. destruct (wdenotes_unique _ _ _ _ _ _ Dk Hk' E Hf) as [<- _]. apply app_inv_head in E.
      destruct (proj1 bep3_negative _ _ Hw _ Hf1) as [H|H]; [|exfalso; exact (H _ _ _ Hw' E)].
      pose proof (proj1 bep3_wdenotes w e Hw (fits_app_l _ _ Hf1) H) as D. destruct (wdenotes_unique _ _ _ _ _ _ D Hw' E Hf1) as [<- _]. now apply app_inv_head in E. }
    split.
    + intros b es' ds t Hb Hd Hm E. inversion Hb as [|kw' k' w' e' b' es'' Hk' Hw' Hb']; subst; cbn [app] in E.
      * exact (bep3_str_safe kw k _ ds t Hk Hf E Hd Hm).
      * rewrite <- !app_assoc in E. exact (I1 _ _ _ _ Hb' Hd Hm (Step _ _ _ _ _ Hk' Hw' E)).
    + intros b es' kw2 k2 d Hb Hk2 Hd E. inversion Hb as [|kw' k' w' e' b' es'' Hk' Hw' Hb']; subst; cbn [app] in E.
      * destruct (wdenotes_unique _ _ _ _ _ _ Dk Hk2 E Hf) as [<- _]. apply app_inv_head in E. apply (IHw _ Hf1). rewrite E. exact Hd.
      * rewrite <- !app_assoc in E. exact (I2 _ _ _ _ _ Hb' Hk2 Hd (Step _ _ _ _ _ Hk' Hw' E)).
Qed.

(* ---------- the parser ---------- *)
Lemma bep_read w e post : bep3 w e -> fits (w ++ post) -> integers e (fun n => 0 <= n) -> Parse (w ++ post) = Ok (read_as e).
Proof. intros H Hf Hn. apply parse_complete; [|exact Hf]. apply (proj1 bep3_wdenotes); [exact H|exact (fits_app_l _ _ Hf)|exact Hn]. Qed.
Lemma bep_refused w e post : bep3 w e -> fits (w ++ post) -> ((exists s, Parse (w ++ post) = Err s) <-> ~ integers e (fun n => 0 <= n)).
Proof.
  intros H Hf. split; [intros [s E] Hn; rewrite (bep_read _ _ _ H Hf Hn) in E; discriminate|]. intros Hn.
  destruct (proj1 bep3_negative _ _ H _ Hf) as [K|K]; [contradiction|].
  destruct (Parse (w ++ post)) as [e'|s| |] eqn:E; [|eauto| |].
  - apply parse_iff in E as (w' & y & E & Hw); [|exact Hf]. exfalso. exact (K _ _ _ Hw E).
  - exfalso. apply (proj1 bep3_safe _ _ H _ Hf). apply parse_breaks; assumption.
  - exfalso. exact (parse_terminates _ E).
Qed.
Lemma read_as_same : forall e, integers e (fun n => 0 <= n) -> (read_as e = e <-> integers e (fun n => n <= MAXN)).
Proof.
  fix IH 1. intros [|n|s|p l raw|p m raw] Hn; cbn [read_as].
  - split; [intros _ n Hi; inversion Hi|reflexivity].
  - rewrite integers_int in *. split; [intros E; injection E as E; pose proof (int_read_range n); lia|]. intros H. now rewrite int_read_small.
  - split; [intros _; apply integers_str|reflexivity].
  - rewrite integers_list in *. assert (G : map read_as l = l <-> Forall (fun e => integers e (fun n => n <= MAXN)) l); [|rewrite <- G; split; [intros E; now injection E|now intros ->]].
    revert Hn. clear raw p. induction l as [|e l IHl]; intros Hn; [split; [constructor|reflexivity]|]. inversion Hn; subst. cbn [map]. split.
    + intros E. injection E as E1 E2. constructor; [now apply IH|now apply IHl].
    + intros H. inversion H; subst. f_equal; [now apply IH|now apply IHl].
  - rewrite integers_dict in *. assert (G : map (fun kv => (fst kv, read_as (snd kv))) m = m <-> Forall (fun kv => integers (snd kv) (fun n => n <= MAXN)) m); [|rewrite <- G; split; [intros E; now injection E|now intros ->]].
    revert Hn. clear raw p. induction m as [|[k e] m IHm]; intros Hn; [split; [constructor|reflexivity]|]. inversion Hn; subst. cbn [map fst snd] in *. split.
    + intros E. injection E as E1 E2. constructor; [now apply IH|now apply IHm].
    + intros H. inversion H; subst. f_equal; [f_equal; now apply IH|now apply IHm].
Qed.
Lemma bep_right w e post : bep3 w e -> fits (w ++ post) -> (Parse (w ++ post) = Ok e <-> integers e (fun n => 0 <= n <= MAXN)).
Proof.
  intros H Hf. split.
  - intros E. assert (Hn : integers e (fun n => 0 <= n)).
    { destruct (proj1 bep3_negative _ _ H _ Hf) as [K|K]; [exact K|]. exfalso. apply parse_iff in E as (w' & y & E & Hw); [|exact Hf]. exact (K _ _ _ Hw E). }
    rewrite (bep_read _ _ _ H Hf Hn) in E. injection E as E. apply read_as_same in E; [|exact Hn]. intros n Hi. split; [now apply Hn|now apply E].
  - intros Hn. assert (H0 : integers e (fun n => 0 <= n)) by (intros n Hi; now apply Hn). rewrite (bep_read _ _ _ H Hf H0). f_equal. apply read_as_same; [exact H0|]. intros n Hi. now apply Hn.
Qed.

(* ---------- a checker, for examples ---------- *)
Definition naturalb (ds : bytes) (n : Z) : bool :=
  forallb (fun c => (48 <=? c) && (c <=? 57)) ds && negb (beq ds []) && (negb (hd 0 ds =? 48) || beq ds [48]) && (decval ds =? n).
Lemma naturalb_sound ds n : naturalb ds n = true -> natural ds n.
Proof.
  unfold naturalb. intros H. apply andb_true_iff in H as [H H4]. apply andb_true_iff in H as [H H3]. apply andb_true_iff in H as [H1 H2].
  split; [|split; [|split]].
  - apply Forall_forall. intros c Hc. rewrite forallb_forall in H1. specialize (H1 c Hc). unfold digit. lia.
  - intros ->. discriminate H2.
  - intros Hh. rewrite Hh in H3. apply beq_eq. exact H3.
  - lia.
Qed.
Fixpoint beforeb (s t : bytes) : bool :=
  match s, t with
  | [], _ :: _ => true
  | c :: s', d :: t' => (c <? d) || (c =? d) && beforeb s' t'
  | _, [] => false
  end.
Lemma beforeb_sound s : forall t, beforeb s t = true -> before s t.
Proof.
  induction s as [|c s IH]; intros [|d t] H; cbn in H; try discriminate; [constructor|].
  apply orb_true_iff in H as [H|H]; [apply bf_less; lia|]. apply andb_true_iff in H as [H1 H2]. assert (c = d) by lia. subst d. now apply bf_same, IH.
Qed.
Fixpoint sortedb (l : list bytes) : bool := match l with [] => true | s :: l' => forallb (beforeb s) l' && sortedb l' end.
Lemma sortedb_sound l : sortedb l = true -> StronglySorted before l.
Proof.
  induction l as [|s l IH]; intros H; [constructor|]. cbn in H. apply andb_true_iff in H as [H1 H2]. constructor; [now apply IH|].
  apply Forall_forall. intros t Ht. rewrite forallb_forall in H1. now apply beforeb_sound, H1.
Qed.
Definition bstr (s : bytes) : bytes := utoa (zlen s) ++ 58 :: s.
Definition benc (e : ben) : bytes :=
  match e with
  | BNil => []
  | BInt n => [105] ++ (if n <? 0 then 45 :: utoa (- n) else utoa n) ++ [101]
  | BStr s => bstr s
  | BList _ _ raw => raw
  | BDict _ _ raw => raw
  end.
Definition strb (s : bytes) : bool := naturalb (utoa (zlen s)) (zlen s).
Fixpoint bepb (e : ben) : bool :=
  match e with
  | BNil => false
  | BInt n => naturalb (utoa (Z.abs n)) (Z.abs n)
  | BStr s => strb s
  | BList p l raw => p && forallb bepb l && beq raw ([108] ++ flat_map benc l ++ [101])
  | BDict p m raw => p && forallb (fun kv => strb (fst kv) && bepb (snd kv)) m && sortedb (map fst m) && beq raw ([100] ++ flat_map (fun kv => bstr (fst kv) ++ benc (snd kv)) m ++ [101])
  end.
Lemma bepb_sound : forall e, bepb e = true -> bep3 (benc e) e.
Proof.
  fix IH 1. intros [|n|s|p l raw|p m raw] H; cbn [bepb] in H.
  - discriminate.
  - cbn [benc]. apply naturalb_sound in H. destruct (n <? 0) eqn:E.
    + replace (Z.abs n) with (- n) in H by lia. pose proof (b3_neg _ _ H ltac:(lia)) as K. rewrite Z.opp_involutive in K. exact K.
    + replace (Z.abs n) with n in H by lia. now apply b3_int.
  - apply naturalb_sound in H. now apply (b3_str _ s) in H.
  - apply andb_true_iff in H as [H H3]. apply andb_true_iff in H as [H1 H2]. destruct p; [|discriminate]. apply beq_eq in H3. cbn [benc]. rewrite H3. apply b3_list. clear H3 H1.
    induction l as [|e l IHl]; [constructor|]. cbn [forallb] in H2. apply andb_true_iff in H2 as [H2 H3]. cbn [flat_map]. constructor; [now apply IH|now apply IHl].
  - apply andb_true_iff in H as [H H4]. apply andb_true_iff in H as [H H3]. apply andb_true_iff in H as [H1 H2]. destruct p; [|discriminate]. apply beq_eq in H4. cbn [benc]. rewrite H4.
    apply b3_dict; [|now apply sortedb_sound]. clear H4 H3 H1.
    induction m as [|[k e] m IHm]; [constructor|]. cbn [forallb fst snd] in H2. apply andb_true_iff in H2 as [H2 H3]. apply andb_true_iff in H2 as [H1 H2]. cbn [flat_map fst snd]. rewrite <- app_assoc.
    constructor; [apply naturalb_sound in H1; now apply (b3_str _ k) in H1|now apply IH|now apply IHm].
Qed.
