(* Proofs about the text Encode writes: C155.                                  *)
From Coq Require Import Sorted Permutation.
From Verif Require Import Base ProofBase ModelBencode SpecBencode SpecBep SpecEncode ProofBencode ProofBencodeGrammar ProofBencodeMore ProofText ProofBep.

(* ---------- decimal numbers ---------- *)
Lemma digits_aux_hd fuel : forall n acc, 0 < n < 2 ^ Z.of_nat fuel -> hd 0 (digits_aux fuel n acc) <> 48.
Proof.
  induction fuel as [|fuel IH]; intros n acc Hn; [cbn in Hn; lia|]. cbn [digits_aux]. cbv zeta.
  assert (Hm : 0 <= n mod 10 < 10) by (apply Z.mod_pos_bound; lia). pose proof (Z.div_mod n 10 ltac:(lia)) as Dm.
  destruct (Z.eqb_spec (n / 10) 0) as [E|E]; [cbn [hd]; lia|].
  assert (Hd : 0 <= n / 10) by (apply Z.div_pos; lia).
  apply IH. split; [lia|]. apply Z.div_lt_upper_bound; [lia|]. rewrite Nat2Z.inj_succ, Z.pow_succ_r in Hn by lia. lia.
Qed.
Lemma utoa_natural n : 0 <= n -> natural (utoa n) n.
Proof.
  intros Hn. destruct (utoa_spec n Hn) as (H1 & H2 & H3). repeat split; try assumption. intros H.
  destruct (Z.eq_dec n 0) as [->|Hz]; [reflexivity|]. exfalso. revert H. unfold utoa. apply digits_aux_hd.
  split; [lia|]. rewrite Nat2Z.inj_succ, Z2Nat.id by apply Z.log2_nonneg. apply Z.log2_spec; lia.
Qed.
Lemma int_bep n : bep3 (chr_i :: itoa n ++ [chr_e]) (BInt n).
Proof.
  unfold itoa. destruct (Z.ltb_spec n 0).
  - pose proof (b3_neg _ _ (utoa_natural (- n) ltac:(lia)) ltac:(lia)) as K. rewrite Z.opp_involutive in K. exact K.
  - exact (b3_int _ _ (utoa_natural n H)).
Qed.
Lemma str_bep s : bep3 (itoa (zlen s) ++ chr_colon :: s) (BStr s).
Proof.
  pose proof (zlen_nonneg s). unfold itoa. replace (zlen s <? 0) with false by lia. exact (b3_str _ s (utoa_natural _ H)).
Qed.

(* ---------- the order of keys ---------- *)
Lemma before_total a : forall b, a <> b -> before a b \/ before b a.
Proof.
  induction a as [|c a IH]; intros [|d b] H; [congruence|left; constructor|right; constructor|].
  destruct (Z.lt_trichotomy c d) as [L|[->|L]]; [left; now constructor| |right; now constructor].
  destruct (IH b) as [K|K]; [congruence|left; now constructor|right; now constructor].
Qed.
Lemma before_trans a b : before a b -> forall c, before b c -> before a c.
Proof.
  induction 1 as [x s|x y s t L|x s t H IH]; intros c K; inversion K; subst; try (constructor; lia || fail); try constructor; auto; lia.
Qed.
Lemma before_asym a b : before a b -> before b a -> False.
Proof. induction 1 as [x s|x y s t L|x s t H IH]; intros K; inversion K; subst; try lia; auto. Qed.
Lemma sort_entries {A} (m : list (bytes * A)) : NoDup (map fst m) -> exists m', Permutation m m' /\ StronglySorted before (map fst m').
Proof.
  induction m as [|[k v] m IH]; intros Hn; [exists []; split; constructor|]. inversion Hn as [|? ? Hk Hn']; subst.
  destruct (IH Hn') as (m' & Hp & Hs). cbn [fst] in Hk.
  assert (Hk' : ~ In k (map fst m')) by (intros C; apply Hk; eapply Permutation_in; [apply Permutation_sym, Permutation_map; exact Hp|exact C]).
  assert (G : exists m'', Permutation ((k, v) :: m') m'' /\ StronglySorted before (map fst m'')).
  { clear Hp Hk Hn Hn' IH m. induction m' as [|[k' v'] m' IH]; [exists [(k, v)]; split; [apply Permutation_refl|repeat constructor]|].
    inversion Hs as [|? ? Hs' Hf]; subst. cbn [map fst] in *.
    destruct (before_total k k') as [L|L]; [intros ->; apply Hk'; now left| |].
    - exists ((k, v) :: (k', v') :: m'). split; [apply Permutation_refl|]. constructor; [assumption|]. constructor; [exact L|].
      rewrite Forall_forall in *. intros x Hx. exact (before_trans _ _ L _ (Hf x Hx)).
    - destruct (IH Hs') as (m'' & P & S); [intros C; apply Hk'; now right|].
      exists ((k', v') :: m''). split; [etransitivity; [apply perm_swap|now constructor]|]. constructor; [exact S|].
      rewrite Forall_forall in *. intros x Hx. apply (Permutation_in x (Permutation_sym (Permutation_map fst P))) in Hx. destruct Hx as [<-|Hx]; [exact L|exact (Hf x Hx)]. }
  destruct G as (m'' & P & S). exists m''. split; [etransitivity; [apply perm_skip; exact Hp|exact P]|exact S].
Qed.
Lemma same_entries_in m es k : same_entries m es -> In k (map fst es) -> exists v, In (k, v) m /\ v <> BNil.
Proof.
  induction 1 as [|k' m es Hs IH|k' a b m es Hb Hv Hs IH]; cbn [map fst]; [intros []| |].
  - intros H. destruct (IH H) as (v & H1 & H2). exists v. split; [now right|exact H2].
  - intros [<-|H]; [exists a; split; [now left|apply (same_value_nonnil _ _ Hv)]|].
    destruct (IH H) as (v & H1 & H2). exists v. split; [now right|exact H2].
Qed.
Lemma same_entries_sorted m es : same_entries m es -> StronglySorted before (map fst m) -> StronglySorted before (map fst es).
Proof.
  induction 1 as [|k' m es Hs IH|k' a b m es Hb Hv Hs IH]; cbn [map fst]; intros H; [constructor| |]; inversion H as [|? ? H1 H2]; subst; [now apply IH|].
  constructor; [now apply IH|]. rewrite Forall_forall in *. intros x Hx. apply H2. exact (same_entries_keys _ _ _ Hs Hx).
Qed.
Lemma same_entries_single m es : same_entries m es -> NoDup (map fst m) -> (forall k v k' v', In (k, v) m -> In (k', v') m -> v <> BNil -> v' <> BNil -> k = k') ->
  StronglySorted before (map fst es).
Proof.
  intros H Hn Hu. pose proof (same_entries_nodup _ _ H Hn) as Hd. destruct es as [|[k1 v1] [|[k2 v2] es]]; [constructor|repeat constructor|]. exfalso.
  destruct (same_entries_in _ _ k1 H) as (a & A1 & A2); [now left|]. destruct (same_entries_in _ _ k2 H) as (b & B1 & B2); [right; now left|].
  rewrite (Hu _ _ _ _ A1 B1 A2 B2) in Hd. inversion Hd as [|? ? C]; subst. apply C. now left.
Qed.
Lemma dict_same p m m' raw p' es raw' : NoDup (map fst m) -> Permutation m m' -> same_entries m' es -> same_value (BDict p m raw) (BDict p' es raw').
Proof.
  intros Hn Hp Hs. assert (Hn' : NoDup (map fst m')) by (eapply Permutation_NoDup; [apply Permutation_map; exact Hp|exact Hn]).
  assert (V1 : forall k, visible m k = visible m' k) by (intros k; unfold visible; now rewrite (perm_lookup m m' k Hp Hn)).
  constructor; intros k; rewrite V1; [apply (same_entries_visible m' es Hs Hn' k)|]. intros a b. apply (same_entries_visible m' es Hs Hn' k).
Qed.

(* ---------- elements, by parts ---------- *)
Lemma maps_item p v raw e : maps (BList p v raw) -> In e v -> maps e.
Proof. intros H Hi p' m raw' Hx. apply (H p' m raw'). eapply in_list; eauto. Qed.
Lemma maps_entry p m raw k e : maps (BDict p m raw) -> In (k, e) m -> maps e.
Proof. intros H Hi p' m' raw' Hx. apply (H p' m' raw'). eapply in_dict; eauto. Qed.
Lemma maps_here p m raw : maps (BDict p m raw) -> NoDup (map fst m).
Proof. intros H. apply (H p m raw). constructor. Qed.
Lemma single_item p v raw e : single (BList p v raw) -> In e v -> single e.
Proof. intros H Hi p' m raw' k x k' x' Hx. apply (H p' m raw' k x k' x'). eapply in_list; eauto. Qed.
Lemma single_entry p m raw k e : single (BDict p m raw) -> In (k, e) m -> single e.
Proof. intros H Hi p' m' raw' k1 x k' x' Hx. apply (H p' m' raw' k1 x k' x'). eapply in_dict; eauto. Qed.
Lemma single_here p m raw : single (BDict p m raw) -> forall k v k' v', In (k, v) m -> In (k', v') m -> v <> BNil -> v' <> BNil -> k = k'.
Proof. intros H k v k' v'. apply (H p m raw). constructor. Qed.

(* ---------- some order gives bencode ---------- *)
Definition has_text (e : ben) : Prop := e <> BNil -> maps e -> exists w v, encodes e w /\ bep3 w v /\ same_value e v.
Lemma nil_or (e : ben) : e = BNil \/ e <> BNil.
Proof. destruct e; [now left|right; discriminate..]. Qed.
Lemma some_text : forall e, has_text e.
Proof.
  induction e as [|n|s|p v raw IH|p m raw IH] using ben_induct; intros He Hm; [congruence| | | |].
  - exists (chr_i :: itoa n ++ [chr_e]), (BInt n). split; [constructor|]. split; [apply int_bep|constructor].
  - exists (itoa (zlen s) ++ chr_colon :: s), (BStr s). split; [constructor|]. split; [apply str_bep|constructor].
  - assert (G : exists w es, enc_items v w /\ bep3_items w es /\ same_items v es).
    { assert (Hm' : forall e, In e v -> maps e) by (intros e; exact (maps_item _ _ _ _ Hm)). clear Hm He raw p.
      induction IH as [|e v He Hv IHv]; [exists [], []; repeat split; constructor|].
      destruct IHv as (w & es & G1 & G2 & G3); [intros e' Hi; apply Hm'; now right|].
      destruct (nil_or e) as [->|N]; [exists w, es; repeat split; try assumption; now constructor|].
      destruct (He N) as (w' & e' & E1 & E2 & E3); [apply Hm'; now left|]. exists (w' ++ w), (e' :: es). repeat split; now constructor. }
    destruct G as (w & es & G1 & G2 & G3). exists (chr_l :: w ++ [chr_e]). eexists. split; [now constructor|]. split; [exact (b3_list _ _ G2)|now constructor].
  - destruct (sort_entries m (maps_here _ _ _ Hm)) as (m' & Hp & Hs).
    assert (G : exists w es, enc_pairs m' w /\ bep3_entries w es /\ same_entries m' es).
    { assert (Hm' : forall k e, In (k, e) m' -> has_text e /\ maps e).
      { intros k e Hi. apply (Permutation_in _ (Permutation_sym Hp)) in Hi. split; [|exact (maps_entry _ _ _ _ _ Hm Hi)]. rewrite Forall_forall in IH. exact (IH _ Hi). }
      clear Hm He raw p IH Hp Hs m. induction m' as [|[k e] m IHm]; [exists [], []; repeat split; constructor|].
      destruct IHm as (w & es & G1 & G2 & G3); [intros k' e' Hi; apply (Hm' k'); now right|].
      destruct (nil_or e) as [->|N]; [exists w, es; repeat split; try assumption; now constructor|].
      destruct (Hm' k e) as [He Hme]; [now left|]. destruct (He N Hme) as (w' & e' & E1 & E2 & E3).
      exists ((itoa (zlen k) ++ chr_colon :: k) ++ w' ++ w), ((k, e') :: es). repeat split; constructor; try assumption; [constructor|apply str_bep|apply (same_value_nonnil _ _ E3)]. }
    destruct G as (w & es & G1 & G2 & G3). exists (chr_d :: w ++ [chr_e]). eexists. split; [econstructor; eassumption|].
    split; [exact (b3_dict _ _ G2 (same_entries_sorted _ _ G3 Hs))|]. exact (dict_same _ _ _ _ _ _ _ (maps_here _ _ _ Hm) Hp G3).
Qed.

(* ---------- with one key every order does ---------- *)
Lemma single_bep :
  (forall e w, encodes e w -> maps e -> single e -> exists v, bep3 w v /\ same_value e v) /\
  (forall v w, enc_items v w -> (forall e, In e v -> maps e /\ single e) -> exists es, bep3_items w es /\ same_items v es) /\
  (forall m w, enc_pairs m w -> (forall k e, In (k, e) m -> maps e /\ single e) -> exists es, bep3_entries w es /\ same_entries m es).
Proof.
  apply enc_mutual.
  - intros n _ _. exists (BInt n). split; [apply int_bep|constructor].
  - intros s _ _. exists (BStr s). split; [apply str_bep|constructor].
  - intros p v raw w Hi IH Hm Hs. destruct IH as (es & H1 & H2); [intros e He; split; [exact (maps_item _ _ _ _ Hm He)|exact (single_item _ _ _ _ Hs He)]|].
    eexists. split; [exact (b3_list _ _ H1)|now constructor].
  - intros p m m' raw w Hp Hi IH Hm Hs. destruct IH as (es & H1 & H2).
    { intros k e He. apply (Permutation_in _ (Permutation_sym Hp)) in He. split; [exact (maps_entry _ _ _ _ _ Hm He)|exact (single_entry _ _ _ _ _ Hs He)]. }
    pose proof (maps_here _ _ _ Hm) as Hn. eexists. split; [apply (b3_dict _ _ H1)|exact (dict_same _ _ _ _ _ _ _ Hn Hp H2)].
    apply (same_entries_single m'); [exact H2|eapply Permutation_NoDup; [apply Permutation_map; exact Hp|exact Hn]|].
    intros k v k' v' A B. apply (single_here _ _ _ Hs); eapply Permutation_in; try (apply Permutation_sym; exact Hp); eassumption.
  - intros _. exists []. split; constructor.
  - intros v w Hi IH H. destruct IH as (es & H1 & H2); [intros e He; apply H; now right|]. exists es. split; [exact H1|now constructor].
  - intros b v w1 w2 Hb IHb Hv IHv H. destruct IHb as (e & E1 & E2); [apply H; now left..|]. destruct IHv as (es & H1 & H2); [intros x Hx; apply H; now right|].
    exists (e :: es). split; now constructor.
  - intros _. exists []. split; constructor.
  - intros k m w Hi IH H. destruct IH as (es & H1 & H2); [intros k' e He; apply (H k'); now right|]. exists es. split; [exact H1|now constructor].
  - intros k b m wk w1 w2 Hk IHk Hb IHb Hm IHm H. destruct IHb as (e & E1 & E2); [apply (H k); now left..|]. destruct IHm as (es & H1 & H2); [intros k' x Hx; apply (H k'); now right|].
    inversion Hk; subst. exists ((k, e) :: es). split; constructor; try assumption; [apply str_bep|apply (same_value_nonnil _ _ E2)].
Qed.

(* ---------- where an element ends ---------- *)
Inductive loose : bytes -> Prop :=
| l_int sg ds : (sg = [] \/ sg = [45]) -> digits ds -> loose ([105] ++ sg ++ ds ++ [101])
| l_str ds s : digits ds -> ds <> [] -> decval ds = zlen s -> loose (ds ++ [58] ++ s)
| l_seq c body : (c = 108 \/ c = 100) -> looses body -> loose ([c] ++ body ++ [101])
with looses : bytes -> Prop :=
| ls_nil : looses []
| ls_cons w body : loose w -> looses body -> looses (w ++ body).
Scheme loose_min := Minimality for loose Sort Prop with looses_min := Minimality for looses Sort Prop.
Combined Scheme loose_mutual from loose_min, looses_min.
Lemma loose_head w : loose w -> exists c w', w = c :: w' /\ c <> 101.
Proof.
  intros H. inversion H as [sg ds Hg Hd|ds s Hd Hn Hv|c body Hc Hb]; subst; cbn [app]; [eexists _, _; split; [reflexivity|lia]| |eexists _, _; split; [reflexivity|lia]].
  destruct ds as [|c ds]; [contradiction|]. inversion Hd as [|? ? Hc]; subst. unfold digit in Hc. exists c, (ds ++ 58 :: s). split; [reflexivity|lia].
Qed.
Lemma digits_e ds t ds' t' : digits ds -> digits ds' -> ds ++ 101 :: t = ds' ++ 101 :: t' -> ds = ds'.
Proof.
  revert ds'. induction ds as [|c ds IH]; intros [|c' ds'] H H' E; cbn [app] in E; [reflexivity| | |].
  - inversion H' as [|? ? Hc]; subst. injection E as E _. unfold digit in Hc. lia.
  - inversion H as [|? ? Hc]; subst. injection E as E _. unfold digit in Hc. lia.
  - injection E as -> E. inversion H; inversion H'; subst. f_equal. now apply IH.
Qed.
Lemma digit_head ds x c y : digits ds -> ds <> [] -> ds ++ x = c :: y -> 48 <= c <= 57.
Proof. intros H Hn E. destruct ds as [|d ds]; [contradiction|]. inversion H as [|? ? Hc]; subst. injection E as -> _. exact Hc. Qed.
Lemma app_same_len {A} (a b x y : list A) : zlen a = zlen b -> a ++ x = b ++ y -> a = b.
Proof.
  revert b. induction a as [|c a IH]; intros [|d b] L E; [reflexivity|exfalso; unfold zlen in L; cbn [length] in L; lia|exfalso; unfold zlen in L; cbn [length] in L; lia|].
  cbn [app] in E. injection E as -> E. rewrite !zlen_cons in L. f_equal. apply IH; [lia|exact E].
Qed.
Lemma loose_unique :
  (forall w, loose w -> forall w' p p', loose w' -> w ++ p = w' ++ p' -> w = w') /\
  (forall b, looses b -> forall b' p p', looses b' -> b ++ 101 :: p = b' ++ 101 :: p' -> b = b').
Proof.
  apply loose_mutual.
  - intros sg ds Hg Hd w' p p' Hw E. inversion Hw as [sg' ds' Hg' Hd'|ds' s' Hd' Hn' Hv'|c' body' Hc' Hb']; subst; rewrite <- ?app_assoc in E; cbn [app] in E.
    + injection E as E. assert (S : sg = sg' /\ ds = ds'); [|now destruct S; subst].
      assert (N : forall l y z, digits l -> l ++ 101 :: y = 45 :: z -> False).
      { intros l y z Hl C. destruct l as [|c l]; [discriminate C|]. inversion Hl as [|? ? Hc]; subst. injection C as -> _. unfold digit in Hc. lia. }
      destruct Hg as [->| ->], Hg' as [->| ->]; rewrite <- ?app_assoc in E; cbn [app] in E.
      * split; [reflexivity|]. exact (digits_e _ _ _ _ Hd Hd' E).
      * exfalso. exact (N _ _ _ Hd E).
      * exfalso. symmetry in E. exact (N _ _ _ Hd' E).
      * injection E as E. split; [reflexivity|]. exact (digits_e _ _ _ _ Hd Hd' E).
    + symmetry in E. apply digit_head in E; [lia|assumption|assumption].
    + injection E as E _. lia.
  - intros ds s Hd Hn Hv w' p p' Hw E. inversion Hw as [sg' ds' Hg' Hd'|ds' s' Hd' Hn' Hv'|c' body' Hc' Hb']; subst; rewrite <- ?app_assoc in E; cbn [app] in E.
    + apply digit_head in E; [lia|assumption|assumption].
    + assert (D : ds = ds') by exact (digits_colon _ _ _ _ Hd Hd' E). subst ds'. apply app_inv_head in E. injection E as E. f_equal. cbn [app]. f_equal. apply app_same_len in E; [assumption|lia].
    + apply digit_head in E; [lia|assumption|assumption].
  - intros c body Hc Hb IH w' p p' Hw E. inversion Hw as [sg' ds' Hg' Hd'|ds' s' Hd' Hn' Hv'|c' body' Hc' Hb']; subst; rewrite <- ?app_assoc in E; cbn [app] in E.
    + injection E as E _. lia.
    + symmetry in E. apply digit_head in E; [lia|assumption|assumption].
    + injection E as -> E. rewrite <- ?app_assoc in E. cbn [app] in E. now rewrite (IH _ _ _ Hb' E).
  - intros b' p p' Hb E. inversion Hb as [|w body Hw Hb']; subst; [reflexivity|]. destruct (loose_head _ Hw) as (c & w'' & -> & Hc). cbn [app] in E. injection E as E _. congruence.
  - intros w body Hw IHw Hb IHb b' p p' Hb' E. inversion Hb' as [|w' body' Hw' Hb'']; subst.
    + destruct (loose_head _ Hw) as (c & w'' & -> & Hc). cbn [app] in E. injection E as E _. congruence.
    + rewrite <- !app_assoc in E. pose proof (IHw _ _ _ Hw' E) as ->. apply app_inv_head in E. f_equal. exact (IHb _ _ _ Hb'' E).
Qed.
Lemma natural_digits ds n : natural ds n -> digits ds /\ ds <> [] /\ decval ds = n.
Proof. intros (H1 & H2 & _ & H3). auto. Qed.
Scheme bep3_min' := Minimality for bep3 Sort Prop with bep3_items_min' := Minimality for bep3_items Sort Prop with bep3_entries_min' := Minimality for bep3_entries Sort Prop.
Combined Scheme bep3_mutual' from bep3_min', bep3_items_min', bep3_entries_min'.
Lemma bep3_loose : (forall w e, bep3 w e -> loose w) /\ (forall b es, bep3_items b es -> looses b) /\ (forall b es, bep3_entries b es -> looses b).
Proof.
  apply bep3_mutual'.
  - intros ds n (H & _). exact (l_int [] ds (or_introl eq_refl) H).
  - intros ds n (H & _) _. exact (l_int [45] ds (or_intror eq_refl) H).
  - intros ds s H. apply natural_digits in H as (H1 & H2 & H3). now apply l_str.
  - intros. apply l_seq; auto.
  - intros. apply l_seq; auto.
  - constructor.
  - intros. now constructor.
  - constructor.
  - intros. constructor; [assumption|]. now constructor.
Qed.
Lemma bep_loose w e : bep3 w e -> loose w. Proof. apply (proj1 bep3_loose). Qed.
Lemma encodes_loose : (forall e w, encodes e w -> loose w) /\ (forall v w, enc_items v w -> looses w) /\ (forall m w, enc_pairs m w -> looses w).
Proof.
  apply enc_mutual.
  - intros n. exact (bep_loose _ _ (int_bep n)).
  - intros s. exact (bep_loose _ _ (str_bep s)).
  - intros p v raw w _ H. apply (l_seq 108); auto.
  - intros p m m' raw w _ _ H. apply (l_seq 100); auto.
  - constructor.
  - auto.
  - intros. now constructor.
  - constructor.
  - auto.
  - intros. constructor; [assumption|]. now constructor.
Qed.
Lemma enc_loose e w : encodes e w -> loose w. Proof. apply (proj1 encodes_loose). Qed.

(* ---------- bencode, taken apart ---------- *)
Lemma bep_list_inv b v : bep3 (108 :: b ++ [101]) v -> exists es, bep3_items b es.
Proof.
  intros H. inversion H as [| |ds s Hn E| |]; subst.
  - apply natural_digits in Hn as (H1 & H2 & _). apply digit_head in E; [lia|assumption|assumption].
  - match goal with K : _ = b ++ [101] |- _ => apply app_inj_tail in K as [-> _] end. eauto.
Qed.
Lemma bep_dict_inv b v : bep3 (100 :: b ++ [101]) v -> exists es, bep3_entries b es /\ StronglySorted before (map fst es).
Proof.
  intros H. inversion H as [| |ds s Hn E| |]; subst.
  - apply natural_digits in Hn as (H1 & H2 & _). apply digit_head in E; [lia|assumption|assumption].
  - match goal with K : _ = b ++ [101] |- _ => apply app_inj_tail in K as [-> _] end. eauto.
Qed.
Lemma bep_items_inv w b es : loose w -> bep3_items (w ++ b) es -> exists e es', bep3 w e /\ bep3_items b es'.
Proof.
  intros Hw H. inversion H as [E|w' e b' es' He Hb E]; subst.
  - destruct (loose_head _ Hw) as (c & w' & -> & _). discriminate E.
  - pose proof (proj1 loose_unique _ (bep_loose _ _ He) _ _ _ Hw E) as ->. apply app_inv_head in E as ->. eauto.
Qed.
Lemma bep_entries_inv k w b es : loose w -> bep3_entries ((itoa (zlen k) ++ chr_colon :: k) ++ w ++ b) es ->
  exists e es', es = (k, e) :: es' /\ bep3 w e /\ bep3_entries b es'.
Proof.
  intros Hw H. pose proof (bep_loose _ _ (str_bep k)) as Hk. inversion H as [E|kw k' w' e b' es' Hk' He Hb E]; subst.
  - destruct (loose_head _ Hk) as (c & w' & E' & _). rewrite E' in E. discriminate E.
  - pose proof (proj1 loose_unique _ (bep_loose _ _ Hk') _ _ _ Hk E) as ->. apply app_inv_head in E.
    pose proof (proj1 loose_unique _ (bep_loose _ _ He) _ _ _ Hw E) as ->. apply app_inv_head in E as ->.
    assert (k' = k); [|subst; eauto].
    inversion Hk' as [| |ds s Hn E'| |]; subst. apply natural_digits in Hn as (D & _ & _).
    assert (D' : digits (itoa (zlen k))) by (apply itoa_spec, zlen_nonneg).
    pose proof (digits_colon _ _ _ _ D D' E') as ->. apply app_inv_head in E'. now injection E'.
Qed.

(* ---------- encodings, put together ---------- *)
Definition key_text (k : bytes) : bytes := itoa (zlen k) ++ chr_colon :: k.
Lemma enc_key k : encodes (BStr k) (key_text k). Proof. constructor. Qed.
Lemma items_any v : exists w, enc_items v w.
Proof.
  induction v as [|e v [w IH]]; [exists []; constructor|]. destruct (nil_or e) as [->|N]; [exists w; now constructor|].
  exists (encode e ++ w). constructor; [now apply encode_encodes|exact IH].
Qed.
Lemma pairs_any m : exists w, enc_pairs m w.
Proof.
  induction m as [|[k e] m [w IH]]; [exists []; constructor|]. destruct (nil_or e) as [->|N]; [exists w; now constructor|].
  exists (key_text k ++ encode e ++ w). constructor; [apply enc_key|now apply encode_encodes|exact IH].
Qed.
Lemma items_before v1 : forall v2 w2, enc_items v2 w2 -> exists w1, looses w1 /\ forall w3, enc_items v2 w3 -> enc_items (v1 ++ v2) (w1 ++ w3).
Proof.
  induction v1 as [|e v1 IH]; intros v2 w2 H; [exists []; split; [constructor|auto]|]. destruct (IH v2 w2 H) as (w1 & L & K).
  destruct (nil_or e) as [->|N]; [exists w1; split; [exact L|]; intros w3 H3; cbn [app]; apply enc_items_skip; now apply K|].
  exists (encode e ++ w1). split; [constructor; [|exact L]; apply (enc_loose e); now apply encode_encodes|].
  intros w3 H3. rewrite <- app_assoc. cbn [app]. constructor; [now apply encode_encodes|now apply K].
Qed.
Lemma looses_items_inv w1 : looses w1 -> forall b es, bep3_items (w1 ++ b) es -> exists es', bep3_items b es'.
Proof.
  induction 1 as [|w body Hw Hb IH]; intros b es H; [eauto|]. rewrite <- app_assoc in H. destruct (bep_items_inv _ _ _ Hw H) as (e & es' & _ & H'). eauto.
Qed.
Lemma perm_front {A} (x : A) m : In x m -> exists m', Permutation m (x :: m').
Proof. intros H. apply in_split in H as (a & b & ->). exists (a ++ b). apply Permutation_sym, Permutation_middle. Qed.

(* ---------- only with one key does every order do ---------- *)
Lemma two_front {A} (m : list (bytes * A)) k v k' v' : In (k, v) m -> In (k', v') m -> k <> k' ->
  exists m', Permutation m ((k, v) :: (k', v') :: m').
Proof.
  intros H H' N. destruct (perm_front _ _ H) as (m1 & P1). apply (Permutation_in _ P1) in H'. destruct H' as [E|H']; [congruence|].
  destruct (perm_front _ _ H') as (m2 & P2). exists m2. etransitivity; [exact P1|now constructor].
Qed.
Definition of_bytes (a b : bytes) : a = b \/ a <> b := match list_eq_dec Z.eq_dec a b with left E => or_introl E | right N => or_intror N end.
Lemma all_bep_single : forall e, e <> BNil -> (forall w, encodes e w -> exists v, bep3 w v) -> single e.
Proof.
  induction e as [|n|s|p v raw IH|p m raw IH] using ben_induct; intros He HB; [congruence|intros ? ? ? ? ? ? ? C; inversion C|intros ? ? ? ? ? ? ? C; inversion C| |].
  - intros p' m' raw' k x k' x' Hin. inversion Hin as [| ? ? ? e Hi Hx|]; subst. destruct (nil_or e) as [->|N]; [inversion Hx|].
    rewrite Forall_forall in IH. refine (IH e Hi N _ p' m' raw' k x k' x' Hx). intros w Hw. apply in_split in Hi as (v1 & v2 & ->).
    destruct (items_any v2) as (w2 & H2). assert (H12 : enc_items (e :: v2) (w ++ w2)) by now constructor.
    destruct (items_before v1 (e :: v2) _ H12) as (w1 & L & K). destruct (HB (108 :: (w1 ++ w ++ w2) ++ [101])) as (r & Hr); [constructor; now apply K|].
    destruct (bep_list_inv _ _ Hr) as (es & Hes). destruct (looses_items_inv _ L _ _ Hes) as (es' & Hes'). destruct (bep_items_inv _ _ _ (enc_loose _ _ Hw) Hes') as (r' & _ & Hr' & _). eauto.
  - intros p' m' raw' k x k' x' Hin. inversion Hin as [| | ? ? ? k0 e Hi Hx]; subst.
    + intros A B Nx Nx'. destruct (of_bytes k k') as [E|N]; [exact E|exfalso].
      assert (T : forall k x k' x', In (k, x) m -> In (k', x') m -> x <> BNil -> x' <> BNil -> k <> k' -> before k k').
      { clear k x k' x' A B Nx Nx' N. intros k x k' x' A B Nx Nx' N. destruct (two_front _ _ _ _ _ A B N) as (m2 & P). destruct (pairs_any m2) as (w2 & H2).
        destruct (HB (100 :: (key_text k ++ encode x ++ key_text k' ++ encode x' ++ w2) ++ [101])) as (r & Hr).
        { econstructor; [exact P|]. constructor; [apply enc_key|now apply encode_encodes|]. constructor; [apply enc_key|now apply encode_encodes|exact H2]. }
        destruct (bep_dict_inv _ _ Hr) as (es & Hes & Hs). destruct (bep_entries_inv _ _ _ _ (enc_loose _ _ (encode_encodes _ Nx)) Hes) as (r1 & es1 & -> & _ & Hes1).
        destruct (bep_entries_inv _ _ _ _ (enc_loose _ _ (encode_encodes _ Nx')) Hes1) as (r2 & es2 & -> & _ & _).
        cbn [map fst] in Hs. inversion Hs as [|? ? _ F]; subst. now inversion F. }
      exact (before_asym _ _ (T _ _ _ _ A B Nx Nx' N) (T _ _ _ _ B A Nx' Nx (not_eq_sym N))).
    + destruct (nil_or e) as [->|N]; [inversion Hx|]. rewrite Forall_forall in IH. refine (IH (k0, e) Hi N _ p' m' raw' k x k' x' Hx). intros w Hw.
      destruct (perm_front _ _ Hi) as (m2 & P). destruct (pairs_any m2) as (w2 & H2).
      destruct (HB (100 :: (key_text k0 ++ w ++ w2) ++ [101])) as (r & Hr); [econstructor; [exact P|]; constructor; [apply enc_key|exact Hw|exact H2]|].
      destruct (bep_dict_inv _ _ Hr) as (es & Hes & _). destruct (bep_entries_inv _ _ _ _ (enc_loose _ _ Hw) Hes) as (r' & _ & _ & Hr' & _). eauto.
Qed.

(* ---------- one text ---------- *)
Lemma one_text_single : forall e, e <> BNil -> (forall w w', encodes e w -> encodes e w' -> w = w') -> single e.
Proof.
  induction e as [|n|s|p v raw IH|p m raw IH] using ben_induct; intros He HB; [congruence|intros ? ? ? ? ? ? ? C; inversion C|intros ? ? ? ? ? ? ? C; inversion C| |].
  - intros p' m' raw' k x k' x' Hin. inversion Hin as [| ? ? ? e Hi Hx|]; subst. destruct (nil_or e) as [->|N]; [inversion Hx|].
    rewrite Forall_forall in IH. refine (IH e Hi N _ p' m' raw' k x k' x' Hx). intros w w' Hw Hw'. apply in_split in Hi as (v1 & v2 & ->).
    destruct (items_any v2) as (w2 & H2). assert (H12 : enc_items (e :: v2) (w ++ w2)) by now constructor.
    destruct (items_before v1 (e :: v2) _ H12) as (w1 & L & K).
    assert (E : 108 :: (w1 ++ w ++ w2) ++ [101] = 108 :: (w1 ++ w' ++ w2) ++ [101]) by (apply HB; constructor; apply K; now constructor).
    injection E as E. apply app_inj_tail in E as [E _]. apply app_inv_head in E. now apply app_inv_tail in E.
  - intros p' m' raw' k x k' x' Hin. inversion Hin as [| | ? ? ? k0 e Hi Hx]; subst.
    + intros A B Nx Nx'. destruct (of_bytes k k') as [E|N]; [exact E|exfalso].
      assert (T : forall k x k' x', In (k, x) m -> In (k', x') m -> x <> BNil -> x' <> BNil -> k <> k' -> exists y, encodes (BDict p m raw) (100 :: (key_text k ++ y) ++ [101])).
      { clear k x k' x' A B Nx Nx' N. intros k x k' x' A B Nx Nx' N. destruct (perm_front _ _ A) as (m2 & P). destruct (pairs_any m2) as (w2 & H2).
        exists (encode x ++ w2). econstructor; [exact P|]. constructor; [apply enc_key|now apply encode_encodes|exact H2]. }
      destruct (T _ _ _ _ A B Nx Nx' N) as (y & Y). destruct (T _ _ _ _ B A Nx' Nx (not_eq_sym N)) as (y' & Y').
      pose proof (HB _ _ Y Y') as E. injection E as E. apply app_inj_tail in E as [E _].
      pose proof (proj1 loose_unique _ (enc_loose _ _ (enc_key k)) _ _ _ (enc_loose _ _ (enc_key k')) E) as E'. unfold key_text in E'.
      assert (D : digits (itoa (zlen k))) by (apply itoa_spec, zlen_nonneg). assert (D' : digits (itoa (zlen k'))) by (apply itoa_spec, zlen_nonneg).
      pose proof (digits_colon _ _ _ _ D D' E') as I. rewrite I in E'. apply app_inv_head in E'. injection E' as E'. contradiction.
    + destruct (nil_or e) as [->|N]; [inversion Hx|]. rewrite Forall_forall in IH. refine (IH (k0, e) Hi N _ p' m' raw' k x k' x' Hx). intros w w' Hw Hw'.
      destruct (perm_front _ _ Hi) as (m2 & P). destruct (pairs_any m2) as (w2 & H2).
      assert (E : 100 :: (key_text k0 ++ w ++ w2) ++ [101] = 100 :: (key_text k0 ++ w' ++ w2) ++ [101]).
      { apply HB; (econstructor; [exact P|]; constructor; [apply enc_key|assumption|exact H2]). }
      injection E as E. apply app_inj_tail in E as [E _]. apply app_inv_head in E. now apply app_inv_tail in E.
Qed.
Lemma enc_items_det v : (forall e, In e v -> forall w w', encodes e w -> encodes e w' -> w = w') -> forall w w', enc_items v w -> enc_items v w' -> w = w'.
Proof.
  induction v as [|e v IH]; intros H w w' H1 H2; [inversion H1; inversion H2; congruence|].
  assert (Hv : forall w w', enc_items v w -> enc_items v w' -> w = w') by (apply IH; intros x Hx; apply H; now right).
  inversion H1 as [|? ? A1|? ? a1 b1 A1 B1]; subst; inversion H2 as [|? ? A2|? ? a2 b2 A2 B2]; subst; auto; try (now inversion A1); try (now inversion A2).
  f_equal; [apply (H e); auto; now left|auto].
Qed.
Definition written (m : list (bytes * ben)) : list (bytes * ben) := filter (fun kv => negb (is_nil (snd kv))) m.
Lemma enc_pairs_written m w : enc_pairs m w -> enc_pairs (written m) w.
Proof.
  revert w. induction m as [|[k e] m IH]; intros w H; [exact H|]. destruct (nil_or e) as [->|N].
  - change (enc_pairs (written m) w). inversion H as [|? ? ? A|? ? ? ? ? ? A B C]; subst; [now apply IH|inversion B].
  - assert (E : written ((k, e) :: m) = (k, e) :: written m) by (unfold written; cbn [filter snd]; now destruct e). rewrite E.
    inversion H as [|? ? ? A|? ? ? ? ? ? A B C]; subst; [congruence|]. constructor; [assumption..|now apply IH].
Qed.
Lemma written_in m k e : In (k, e) (written m) <-> In (k, e) m /\ e <> BNil.
Proof. unfold written. rewrite filter_In. cbn [snd]. destruct e; cbn; intuition congruence. Qed.
Lemma written_perm m m' : Permutation m m' -> Permutation (written m) (written m').
Proof.
  induction 1 as [|[k e] m m' P IH|[k e] [k' e'] m|m m' m'' P1 IH1 P2 IH2]; unfold written in *; cbn [filter snd].
  - constructor.
  - destruct (negb (is_nil e)); [now constructor|exact IH].
  - destruct (negb (is_nil e)), (negb (is_nil e')); try apply Permutation_refl. apply perm_swap.
  - etransitivity; eassumption.
Qed.
Lemma written_small m : NoDup (map fst m) -> (forall k v k' v', In (k, v) m -> In (k', v') m -> v <> BNil -> v' <> BNil -> k = k') -> written m = [] \/ exists kv, written m = [kv].
Proof.
  intros Hn H. destruct (written m) as [|[k1 v1] [|[k2 v2] l]] eqn:E; [now left|right; eauto|exfalso].
  assert (A : In (k1, v1) m /\ v1 <> BNil) by (apply written_in; rewrite E; now left). assert (B : In (k2, v2) m /\ v2 <> BNil) by (apply written_in; rewrite E; right; now left).
  assert (K : k1 = k2) by (eapply H; [apply A|apply B|apply A|apply B]). subst k2.
  assert (N : NoDup (map fst (written m))).
  { clear - Hn. unfold written. induction m as [|[k v] m IH]; [constructor|]. inversion Hn as [|? ? Hk Hm]; subst. cbn [filter snd]. destruct (negb (is_nil v)); [|auto]. cbn [map fst]. constructor; [|auto].
    intros C. apply Hk. apply in_map_iff in C as ([k' v'] & E & C). apply filter_In in C as [C _]. cbn [fst] in E. apply in_map_iff. exists (k', v'). auto. }
  rewrite E in N. inversion N as [|? ? C]; subst. apply C. now left.
Qed.
Lemma single_one_text : forall e, maps e -> single e -> forall w w', encodes e w -> encodes e w' -> w = w'.
Proof.
  induction e as [|n|s|p v raw IH|p m raw IH] using ben_induct; intros Hm Hs w w' H H'; [inversion H|inversion H; inversion H'; congruence|inversion H; inversion H'; congruence| |].
  - inversion H as [| |? ? ? x X|]; inversion H' as [| |? ? ? x' X'|]; subst. f_equal. f_equal. rewrite Forall_forall in IH.
    eapply enc_items_det; [|exact X|exact X']. intros e He. apply (IH e He); [exact (maps_item _ _ _ _ Hm He)|exact (single_item _ _ _ _ Hs He)].
  - inversion H as [| | |? ? m1 ? x P X]; inversion H' as [| | |? ? m1' ? x' P' X']; subst. f_equal. f_equal. apply enc_pairs_written in X. apply enc_pairs_written in X'.
    pose proof (written_perm _ _ P) as Q. pose proof (written_perm _ _ P') as Q'. rewrite Forall_forall in IH.
    destruct (written_small m (maps_here _ _ _ Hm) (single_here _ _ _ Hs)) as [E|[[k e] E]]; rewrite E in Q, Q'.
    + apply Permutation_nil in Q. apply Permutation_nil in Q'. rewrite Q in X. rewrite Q' in X'. inversion X; inversion X'; congruence.
    + apply Permutation_length_1_inv in Q. apply Permutation_length_1_inv in Q'. rewrite Q in X. rewrite Q' in X'.
      assert (I : In (k, e) m /\ e <> BNil) by (apply written_in; rewrite E; now left). destruct I as [I N].
      inversion X as [|? ? ? A|? ? ? ka a b A B C]; subst; [congruence|]. inversion X' as [|? ? ? A'|? ? ? ka' a' b' A' B' C']; subst; [congruence|].
      inversion A; inversion A'; inversion C; inversion C'; subst. f_equal. f_equal.
      apply (IH (k, e) I); [exact (maps_entry _ _ _ _ _ Hm I)|exact (single_entry _ _ _ _ _ Hs I)|assumption|assumption].
Qed.
Lemma bep_exact e : e <> BNil -> maps e -> ((forall w, encodes e w -> exists v, bep3 w v) <-> single e).
Proof.
  intros N M. split; [now apply all_bep_single|]. intros S w W. destruct (proj1 single_bep e w W M S) as (v & V & _). eauto.
Qed.
Lemma text_exact e : e <> BNil -> maps e -> ((forall w w', encodes e w -> encodes e w' -> w = w') <-> single e).
Proof. intros N M. split; [now apply one_text_single|]. intros S. now apply single_one_text. Qed.

