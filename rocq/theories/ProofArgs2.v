(* Lemmas about the command line: options.                                     *)
From Verif Require Import Base ProofBase ModelArgs SpecArgs ProofArgs.

Definition table (d : bool) : list flag := helpFlag :: (if d then downloadFlags else []) ++ rootFlags.
Definition sort_of (k : kind) : sort := match k with KString => Text | KInt => Number | KBool => Switch end.

Lemma existsb_beq v l : existsb (beq v) l = true <-> In v l.
Proof.
  rewrite existsb_exists. split.
  - intros (x & H & E). apply beq_eq in E. now subst.
  - intros H. exists v. split; [exact H|apply beq_refl].
Qed.
Lemma ParseBool_spec v b : ParseBool v = Some b <-> truth v b.
Proof.
  unfold ParseBool. 
  assert (P : forall w, In w [str "1"; str "t"; str "T"; str "TRUE"; str "true"; str "True"] <-> truth w true) by (intros w; unfold truth; cbn [In]; tauto).
  assert (N : forall w, In w [str "0"; str "f"; str "F"; str "FALSE"; str "false"; str "False"] <-> truth w false) by (intros w; unfold truth; cbn [In]; tauto).
  destruct (existsb (beq v) [str "1"; _; _; _; _; _]) eqn:E1.
  - apply existsb_beq, P in E1. split; [intros H; inversion H; subst; exact E1|]. intros H. destruct b; [reflexivity|]. exfalso.
    unfold truth in E1, H. cbn [In] in E1, H.
    repeat (destruct E1 as [E1|E1]; [subst v; vm_compute in H; intuition discriminate|]). contradiction.
  - destruct (existsb (beq v) [str "0"; _; _; _; _; _]) eqn:E2.
    + apply existsb_beq, N in E2. split; [intros H; inversion H; subst; exact E2|]. intros H. destruct b; [|reflexivity]. exfalso.
      apply P, existsb_beq in H. congruence.
    + split; [discriminate|]. intros H. exfalso. destruct b; [apply P, existsb_beq in H|apply N, existsb_beq in H]; congruence.
Qed.
Lemma accepts_spec k v : accepts k v = true <-> suits (sort_of k) v.
Proof.
  destruct k; cbn [accepts sort_of suits].
  - tauto.
  - destruct (ParseInt0 v) as [z|] eqn:E.
    + apply ParseInt_spec in E. split; [eauto|reflexivity].
    + split; [discriminate|]. intros (n & H). apply ParseInt_spec in H. congruence.
  - destruct (ParseBool v) as [z|] eqn:E.
    + apply ParseBool_spec in E. split; [eauto|reflexivity].
    + split; [discriminate|]. intros (n & H). apply ParseBool_spec in H. congruence.
Qed.
Lemma set_flag_spec f v x : set_flag f v = Some x <-> x = (fl_name f, v) /\ suits (sort_of (fl_kind f)) v.
Proof.
  unfold set_flag. rewrite <- accepts_spec. destruct (accepts (fl_kind f) v).
  - split; [intros H; inversion H; auto|intros [-> _]; reflexivity].
  - split; [discriminate|intros [_ H]; discriminate].
Qed.

(* ---------- tables ---------- *)
Lemma by_name_inv d n f : by_name (table d) n = Some f -> named d n (sort_of (fl_kind f)) /\ fl_name f = n.
Proof.
  unfold by_name. intros H. apply find_some in H as [HI HB]. apply beq_eq in HB. subst n.
  destruct d; cbn in HI; repeat (destruct HI as [HI|HI]; [subst f; split; [now constructor|reflexivity]|]); contradiction.
Qed.
Lemma named_find d n k : named d n k -> exists f, by_name (table d) n = Some f /\ sort_of (fl_kind f) = k /\ fl_name f = n.
Proof. intros H. destruct H; try subst d; try destruct d; (eexists; split; [reflexivity|split; reflexivity]). Qed.
Lemma by_short_inv d c f : by_short (table d) c = Some f -> letter d c (fl_name f) (sort_of (fl_kind f)).
Proof.
  unfold by_short. intros H. apply find_some in H as [HI HB].
  destruct d; cbn in HI; repeat (destruct HI as [HI|HI]; [subst f; cbn [fl_short helpFlag] in HB; try discriminate; apply Z.eqb_eq in HB; subst c; now constructor|]); contradiction.
Qed.
Lemma letter_find d c n k : letter d c n k -> exists f, by_short (table d) c = Some f /\ sort_of (fl_kind f) = k /\ fl_name f = n.
Proof. intros H. destruct H; try subst d; try destruct d; (eexists; split; [reflexivity|split; reflexivity]). Qed.
Lemma no_opt_switch f : no_opt f = true <-> sort_of (fl_kind f) = Switch.
Proof. unfold no_opt. destruct (fl_kind f); cbn; split; congruence. Qed.

(* ---------- splitting at '=' ---------- *)
Lemma split_eq_none s n : split_eq s = (n, None) -> s = n /\ ~ In 61 s.
Proof.
  revert n. induction s as [|c s IH]; intros n H; cbn in H; [inversion H; split; [reflexivity|intros []]|].
  destruct (Z.eqb_spec c 61) as [->|N]; [discriminate|]. destruct (split_eq s) as [a b]. inversion H; subst.
  destruct (IH a eq_refl) as [-> K]. split; [reflexivity|]. intros [E|E]; auto.
Qed.
Lemma split_eq_some s n v : split_eq s = (n, Some v) -> s = n ++ 61 :: v.
Proof.
  revert n. induction s as [|c s IH]; intros n H; cbn in H; [discriminate|].
  destruct (Z.eqb_spec c 61) as [->|N]; [inversion H; reflexivity|]. destruct (split_eq s) as [a b]. inversion H; subst.
  cbn. f_equal. now apply IH.
Qed.
Lemma split_eq_app n v : ~ In 61 n -> split_eq (n ++ 61 :: v) = (n, Some v).
Proof.
  induction n as [|c n IH]; intros H; cbn [app split_eq].
  - reflexivity.
  - destruct (Z.eqb_spec c 61) as [->|_]; [destruct H; now left|]. rewrite IH; [reflexivity|]. intros K. apply H. now right.
Qed.
Lemma split_eq_whole n : ~ In 61 n -> split_eq n = (n, None).
Proof.
  induction n as [|c n IH]; intros H; cbn [split_eq]; [reflexivity|].
  destruct (Z.eqb_spec c 61) as [->|_]; [destruct H; now left|]. rewrite IH; [reflexivity|]. intros K. apply H. now right.
Qed.
Lemma named_text d n k : named d n k -> ~ In 61 n /\ exists c t, n = c :: t /\ c <> 45 /\ c <> 61.
Proof.
  intros H. destruct H; (split; [vm_compute; intuition discriminate|]; eexists _, _; (split; [reflexivity|]); vm_compute; split; discriminate).
Qed.

(* ---------- letters ---------- *)
Lemma HasPrefix_spec p s : HasPrefix p s = true <-> exists t, s = p ++ t.
Proof.
  unfold HasPrefix. rewrite beq_eq. split.
  - intros H. exists (skipn (length p) s). rewrite <- H at 1. now rewrite firstn_skipn.
  - intros (t & ->). rewrite firstn_app, Nat.sub_diag, firstn_all, firstn_O, app_nil_r. reflexivity.
Qed.
Definition next_of (o : option flag) : option (bytes * sort) := match o with Some f => Some (fl_name f, sort_of (fl_kind f)) | None => None end.
Definition eq_form (s : bytes) : bool := match s with e :: _ :: _ => e =? 61 | _ => false end.
Lemma eq_form_spec s : eq_form s = true <-> equals s.
Proof.
  unfold eq_form, equals. destruct s as [|e [|c v]].
  - split; [discriminate|intros (? & ? & H); discriminate].
  - split; [discriminate|intros (? & ? & H); discriminate].
  - rewrite Z.eqb_eq. split; [intros ->; eauto|intros (? & ? & H); congruence].
Qed.
Lemma shorts_inv d s : forall l o, shorts (table d) s = Some (l, o) -> letters d s l (next_of o).
Proof.
  induction s as [|c s IH]; intros l o H; cbn [shorts] in H.
  - change (HasPrefix (str "test.") []) with false in H. inversion H; subst. constructor.
  - destruct (HasPrefix (str "test.") (c :: s)) eqn:ET.
    { inversion H; subst. apply HasPrefix_spec in ET as (t & ->). apply ls_test. }
    destruct (by_short (table d) c) as [f|] eqn:EF; [|discriminate]. pose proof (by_short_inv _ _ _ EF) as L.
    change (match s with e :: _ :: _ => e =? 61 | _ => false end) with (eq_form s) in H.
    destruct (eq_form s) eqn:EE.
    + apply eq_form_spec in EE as (e & v & ->). cbn [tl] in H. destruct (set_flag f (e :: v)) as [x|] eqn:ES; [|discriminate].
      apply set_flag_spec in ES as [-> SU]. inversion H; subst. apply ls_equals with (k := sort_of (fl_kind f)); auto. discriminate.
    + assert (NE : ~ equals s) by (intros K; apply eq_form_spec in K; congruence).
      destruct (no_opt f) eqn:EN.
      * apply no_opt_switch in EN. destruct (set_flag f (str "true")) as [x|] eqn:ES; [|discriminate]. apply set_flag_spec in ES as [-> _].
        destruct (shorts (table d) s) as [[l' o']|]; [|discriminate]. inversion H; subst. rewrite EN in L. apply ls_switch; auto.
      * assert (NS : sort_of (fl_kind f) <> Switch) by (intros K; apply no_opt_switch in K; congruence).
        destruct s as [|e s].
        -- inversion H; subst. cbn [next_of]. apply ls_next; auto.
        -- destruct (set_flag f (e :: s)) as [x|] eqn:ES; [|discriminate]. apply set_flag_spec in ES as [-> SU]. inversion H; subst.
           apply ls_rest with (k := sort_of (fl_kind f)); auto. discriminate.
Qed.
Lemma letter_not_test d c n k s : letter d c n k -> HasPrefix (str "test.") (c :: s) = false.
Proof.
  intros H. destruct (HasPrefix (str "test.") (c :: s)) eqn:E; [|reflexivity]. apply HasPrefix_spec in E as (t & E). 
  vm_compute in E. inversion E; subst. inversion H.
Qed.
Lemma inv_shorts d s l o : letters d s l o -> exists o', shorts (table d) s = Some (l, o') /\ next_of o' = o.
Proof.
  intros H. induction H as [|s|c n k v L NV SU|c n k v L NS NV NE SU|c n k L NS|c n s l o L NE _ IH].
  - exists None. split; reflexivity.
  - exists None. split; [|reflexivity]. 
    assert (E : HasPrefix (str "test.") (str "test." ++ s) = true) by (apply HasPrefix_spec; eauto).
    remember (str "test." ++ s) as x eqn:EX. destruct x as [|c x]; [discriminate EX|]. cbn [shorts]. now rewrite E.
  - destruct (letter_find _ _ _ _ L) as (f & F & <- & <-). cbn [shorts]. rewrite (letter_not_test _ _ _ _ _ L), F.
    destruct v as [|e v]; [contradiction|]. cbn [Z.eqb Pos.eqb tl]. rewrite (proj2 (set_flag_spec f (e :: v) _) (conj eq_refl SU)). exists None. split; reflexivity.
  - destruct (letter_find _ _ _ _ L) as (f & F & <- & <-). cbn [shorts]. rewrite (letter_not_test _ _ _ _ _ L), F.
    change (match v with e :: _ :: _ => e =? 61 | _ => false end) with (eq_form v).
    replace (eq_form v) with false; [|symmetry; destruct (eq_form v) eqn:E; [apply eq_form_spec in E; contradiction|reflexivity]].
    replace (no_opt f) with false; [|symmetry; destruct (no_opt f) eqn:E; [apply no_opt_switch in E; contradiction|reflexivity]].
    destruct v as [|e v]; [contradiction|]. rewrite (proj2 (set_flag_spec f (e :: v) _) (conj eq_refl SU)). exists None. split; reflexivity.
  - destruct (letter_find _ _ _ _ L) as (f & F & <- & <-). cbn [shorts]. rewrite (letter_not_test _ _ _ _ _ L), F.
    replace (no_opt f) with false; [|symmetry; destruct (no_opt f) eqn:E; [apply no_opt_switch in E; contradiction|reflexivity]].
    exists (Some f). split; reflexivity.
  - destruct IH as (o' & IH & <-). destruct (letter_find _ _ _ _ L) as (f & F & K & <-). cbn [shorts]. rewrite (letter_not_test _ _ _ _ _ L), F.
    change (match s with e :: _ :: _ => e =? 61 | _ => false end) with (eq_form s).
    replace (eq_form s) with false; [|symmetry; destruct (eq_form s) eqn:E; [apply eq_form_spec in E; contradiction|reflexivity]].
    rewrite (proj2 (no_opt_switch f) K).
    assert (ST : set_flag f (str "true") = Some (fl_name f, str "true")).
    { apply set_flag_spec. split; [reflexivity|]. rewrite K. exists true. unfold truth. cbn [In]. tauto. }
    rewrite ST, IH. exists o'. split; reflexivity.
Qed.

(* ---------- whole lines ---------- *)
Lemma set_true f : sort_of (fl_kind f) = Switch -> set_flag f (str "true") = Some (fl_name f, str "true").
Proof. intros K. apply set_flag_spec. split; [reflexivity|]. rewrite K. exists true. unfold truth. cbn [In]. tauto. Qed.
Lemma add_set_inv l0 r l a : add_set l0 r = Some (l, a) -> exists l', r = Some (l', a) /\ l = l0 ++ l'.
Proof. destruct r as [[l' a']|]; cbn; [|discriminate]. intros H. inversion H; subst. eauto. Qed.
Lemma long_name_inv d s f v : long_name (table d) s = Some (f, v) -> named d (fl_name f) (sort_of (fl_kind f)) /\
  s = fl_name f ++ match v with Some v => 61 :: v | None => [] end.
Proof.
  unfold long_name. destruct s as [|c s]; [discriminate|]. destruct ((c =? 45) || (c =? 61)); [discriminate|].
  destruct (split_eq (c :: s)) as [n w] eqn:E. destruct (by_name (table d) n) as [g|] eqn:EF; [|discriminate]. intros H. inversion H; subst g w; clear H.
  destruct (by_name_inv _ _ _ EF) as [N <-]. split; [exact N|].
  destruct v as [v|]; [now apply split_eq_some|]. apply split_eq_none in E as [E _]. now rewrite app_nil_r.
Qed.
Lemma inv_long_name d n k v : named d n k -> exists f, fl_name f = n /\ sort_of (fl_kind f) = k /\ long_name (table d) (n ++ 61 :: v) = Some (f, Some v) /\ long_name (table d) n = Some (f, None).
Proof.
  intros H. destruct (named_find _ _ _ H) as (f & F & K & N). exists f. split; [exact N|]. split; [exact K|].
  destruct (named_text _ _ _ H) as (NE & c & t & E & C1 & C2).
  pose proof (split_eq_app n v NE) as S1. pose proof (split_eq_whole n NE) as S2. unfold long_name.
  rewrite E in S1, S2 |- *. cbn [app] in S1 |- *. rewrite S1, S2. rewrite (proj2 (Z.eqb_neq c 45) C1), (proj2 (Z.eqb_neq c 61) C2). cbn [orb].
  rewrite E in F. rewrite F. split; reflexivity.
Qed.
Lemma word_spec s : match s with c :: _ :: _ => negb (c =? 45) | _ => true end = true <-> word s.
Proof.
  unfold word. destruct s as [|c [|e s]]; cbn [hd].
  - split; auto.
  - split; [|reflexivity]. intros _. destruct (Z.eq_dec c 45) as [->|N]; [right; now left|right; now right].
  - rewrite negb_true_iff, Z.eqb_neq. split; [auto|]. intros [H|[H|H]]; [discriminate|discriminate|exact H].
Qed.
Lemma parse_inv d : forall n args, (length args <= n)%nat -> forall l a, parseArgs (table d) args = Some (l, a) -> says d args l a.
Proof.
  induction n as [|n IH]; intros args HL l a H.
  { destruct args; [|cbn in HL; lia]. cbn in H. inversion H; subst. constructor. }
  destruct args as [|s rest]; [cbn in H; inversion H; subst; constructor|]. cbn [length] in HL. cbn [parseArgs] in H.
  destruct (match s with c :: _ :: _ => negb (c =? 45) | _ => true end) eqn:EW.
  { apply word_spec in EW. destruct (parseArgs (table d) rest) as [[l' a']|] eqn:ER; [|discriminate]. inversion H; subst.
    apply sa_word; [exact EW|]. apply IH; [lia|exact ER]. }
  destruct s as [|c [|e s]]; try discriminate EW. apply negb_false_iff, Z.eqb_eq in EW. subst c.
  cbn [nth tl skipn] in H. destruct (Z.eqb_spec e 45) as [->|NE].
  - rewrite !zlen_cons in H. destruct (Z.eqb_spec (1 + (1 + zlen s)) 2) as [Z0|NZ].
    { assert (s = []) by (destruct s; [reflexivity|rewrite zlen_cons in Z0; pose proof (zlen_nonneg s); lia]). subst s. inversion H; subst. apply sa_rest. }
    destruct (long_name (table d) s) as [[f v]|] eqn:EL; [|discriminate]. apply long_name_inv in EL as [N ->].
    destruct v as [v|].
    + destruct (set_flag f v) as [x|] eqn:ES; [|discriminate]. apply set_flag_spec in ES as [-> SU]. apply add_set_inv in H as (l' & ER & ->).
      apply (sa_equals d (fl_name f) _ v rest l' a N SU). apply IH; [lia|exact ER].
    + rewrite app_nil_r. destruct (no_opt f) eqn:EN.
      * apply no_opt_switch in EN. rewrite (set_true f EN) in H. apply add_set_inv in H as (l' & ER & ->). rewrite EN in N.
        apply (sa_switch d (fl_name f) rest l' a N). apply IH; [lia|exact ER].
      * destruct rest as [|v rest]; [discriminate|]. destruct (set_flag f v) as [x|] eqn:ES; [|discriminate].
        apply set_flag_spec in ES as [-> SU]. apply add_set_inv in H as (l' & ER & ->).
        apply (sa_next d (fl_name f) _ v rest l' a N); [|exact SU|apply IH; [cbn [length] in HL; lia|exact ER]].
        intros K. apply no_opt_switch in K. congruence.
  - destruct (shorts (table d) (e :: s)) as [[l0 [f|]]|] eqn:ES; [| |discriminate]; apply shorts_inv in ES; cbn [next_of] in ES.
    + destruct rest as [|v rest]; [discriminate|]. destruct (set_flag f v) as [x|] eqn:EV; [|discriminate].
      apply set_flag_spec in EV as [-> SU]. apply add_set_inv in H as (l' & ER & ->). rewrite <- app_assoc. cbn [app].
      eapply sa_letters_next; [discriminate|exact NE|exact ES|exact SU|apply IH; [cbn [length] in HL; lia|exact ER]].
    + apply add_set_inv in H as (l' & ER & ->). apply sa_letters; [discriminate|exact NE|exact ES|apply IH; [lia|exact ER]].
Qed.
Lemma parse_word d w r : word w -> parseArgs (table d) (w :: r) = match parseArgs (table d) r with Some (l, a) => Some (l, w :: a) | None => None end.
Proof. intros W. cbn [parseArgs]. now rewrite (proj2 (word_spec w) W). Qed.
Lemma parse_long d s r : s <> [] -> parseArgs (table d) ((str "--" ++ s) :: r) =
  match long_name (table d) s with
  | None => None
  | Some (f, v) =>
      match (match v with Some _ => v | None => if no_opt f then Some (str "true") else None end) with
      | Some v => match set_flag f v with Some x => add_set [x] (parseArgs (table d) r) | None => None end
      | None => match r with
                | v :: r' => match set_flag f v with Some x => add_set [x] (parseArgs (table d) r') | None => None end
                | [] => None
                end
      end
  end.
Proof.
  intros N. change (str "--" ++ s) with (45 :: 45 :: s). cbn [parseArgs nth skipn]. cbn [Z.eqb Pos.eqb negb].
  rewrite !zlen_cons. replace (1 + (1 + zlen s) =? 2) with false; [reflexivity|]. symmetry. apply Z.eqb_neq.
  destruct s; [contradiction|]. rewrite zlen_cons. pose proof (zlen_nonneg s). lia.
Qed.
Lemma parse_short d s r : s <> [] -> hd 0 s <> 45 -> parseArgs (table d) ((45 :: s) :: r) =
  match shorts (table d) s with
  | None => None
  | Some (l0, None) => add_set l0 (parseArgs (table d) r)
  | Some (l0, Some f) =>
      match r with
      | v :: r' => match set_flag f v with Some x => add_set (l0 ++ [x]) (parseArgs (table d) r') | None => None end
      | [] => None
      end
  end.
Proof.
  intros N H. destruct s as [|e s]; [contradiction|]. cbn [hd] in H. cbn [parseArgs nth tl]. cbn [Z.eqb Pos.eqb negb].
  rewrite (proj2 (Z.eqb_neq e 45) H). reflexivity.
Qed.
Lemma named_ne d n k : named d n k -> n <> []. Proof. intros H. destruct (named_text _ _ _ H) as (_ & c & t & -> & _). discriminate. Qed.
Lemma inv_parse d args l a : says d args l a -> parseArgs (table d) args = Some (l, a).
Proof.
  intros H. induction H as [|a|w r l a W H IH|n k v r l a N SU H IH|n k v r l a N NS SU H IH|n r l a N H IH|s l0 r l a NE HD L H IH|s l0 n k v r l a NE HD L SU H IH].
  - reflexivity.
  - reflexivity.
  - rewrite (parse_word d w r W), IH. reflexivity.
  - destruct (inv_long_name d n k v N) as (f & <- & <- & E & _). rewrite parse_long by (intros K; apply app_eq_nil in K as [_ K]; discriminate).
    rewrite E. rewrite (proj2 (set_flag_spec f v _) (conj eq_refl SU)), IH. reflexivity.
  - destruct (inv_long_name d n k v N) as (f & <- & <- & _ & E). rewrite parse_long by (eapply named_ne; eauto). rewrite E.
    replace (no_opt f) with false; [|symmetry; destruct (no_opt f) eqn:EN; [apply no_opt_switch in EN; contradiction|reflexivity]].
    rewrite (proj2 (set_flag_spec f v _) (conj eq_refl SU)), IH. reflexivity.
  - destruct (inv_long_name d n Switch [] N) as (f & <- & K & _ & E). rewrite parse_long by (eapply named_ne; eauto). rewrite E.
    rewrite (proj2 (no_opt_switch f) K), (set_true f K), IH. reflexivity.
  - rewrite parse_short by assumption. destruct (inv_shorts _ _ _ _ L) as (o & -> & E). destruct o; [discriminate|]. rewrite IH. reflexivity.
  - rewrite parse_short by assumption. destruct (inv_shorts _ _ _ _ L) as (o & -> & E). destruct o as [f|]; [|discriminate].
    cbn [next_of] in E. inversion E; subst. rewrite (proj2 (set_flag_spec f v _) (conj eq_refl SU)), IH. cbn [add_set]. now rewrite <- app_assoc.
Qed.
Lemma parse_spec d args l a : parseArgs (table d) args = Some (l, a) <-> says d args l a.
Proof. split; [apply (parse_inv d (length args)); lia|apply inv_parse]. Qed.

(* ---------- values ---------- *)
Lemma value_of_app l n x : value_of (l ++ [x]) n = if beq (fst x) n then Some (snd x) else value_of l n.
Proof. unfold value_of. now rewrite fold_left_app. Qed.
Lemma value_of_last l n v : value_of l n = Some v <-> last_given l n v.
Proof.
  revert v. induction l as [|x l IH] using rev_ind; intros v.
  - split; [discriminate|]. intros (l1 & l2 & H & _). destruct l1; discriminate.
  - rewrite value_of_app. destruct (beq (fst x) n) eqn:E.
    + apply beq_eq in E. destruct x as [m w]. cbn [fst snd] in *. subst m. split.
      * intros H. inversion H; subst. exists l, []. split; [reflexivity|intros []].
      * intros (l1 & l2 & H & N). destruct l2 as [|y l2 _] using rev_ind.
        -- apply app_inj_tail in H as [_ H]. congruence.
        -- rewrite app_comm_cons, app_assoc in H. apply app_inj_tail in H as [_ H]. subst y. exfalso. apply N. rewrite map_app. apply in_or_app. right. now left.
    + rewrite IH. assert (NE : fst x <> n) by (intros K; apply beq_eq in K; congruence). split.
      * intros (l1 & l2 & -> & N). exists l1, (l2 ++ [x]). rewrite <- app_assoc. split; [reflexivity|].
        rewrite map_app. intros K. apply in_app_or in K as [K|[K|[]]]; auto.
      * intros (l1 & l2 & H & N). destruct l2 as [|y l2 _] using rev_ind.
        -- apply app_inj_tail in H as [_ H]. subst x. contradiction NE. reflexivity.
        -- rewrite app_comm_cons, app_assoc in H. apply app_inj_tail in H as [H K]. exists l1, l2. split; [exact H|].
           intros I. apply N. rewrite map_app. apply in_or_app. now left.
Qed.
Lemma value_of_none l n : value_of l n = None <-> not_given l n.
Proof.
  unfold not_given. induction l as [|x l IH] using rev_ind; [split; [intros _ []|reflexivity]|].
  rewrite value_of_app, map_app. destruct (beq (fst x) n) eqn:E.
  - apply beq_eq in E. split; [discriminate|]. intros H. exfalso. apply H. apply in_or_app. right. now left.
  - rewrite IH. split.
    + intros H K. apply in_app_or in K as [K|[K|[]]]; [auto|]. apply beq_eq in K. congruence.
    + intros H K. apply H. apply in_or_app. now left.
Qed.
Lemma letters_suit d s l o : letters d s l o -> Forall (fun x => exists k, named d (fst x) k /\ suits k (snd x)) l /\ forall n k, o = Some (n, k) -> named d n k.
Proof.
  assert (LN : forall c n k, letter d c n k -> named d n k) by (intros c n k H; destruct H; now constructor).
  intros H. induction H as [|s|c n k v L NV SU|c n k v L NS NV NE SU|c n k L NS|c n s l o L NE _ IH]; (split; [|intros m j E; try discriminate E]); auto.
  - repeat constructor. exists k. eauto.
  - repeat constructor. exists k. eauto.
  - inversion E; subst. eauto.
  - constructor; [|apply IH]. exists Switch. split; [eapply LN; eauto|]. exists true. unfold truth. cbn [In snd]. tauto.
  - now apply (proj2 IH).
Qed.
Lemma says_suit d args l a : says d args l a -> Forall (fun x => exists k, named d (fst x) k /\ suits k (snd x)) l.
Proof.
  intros H. induction H as [|a|w r l a W H IH|n k v r l a N SU H IH|n k v r l a N NS SU H IH|n r l a N H IH|s l0 r l a NE HD L H IH|s l0 n k v r l a NE HD L SU H IH]; auto.
  - constructor; [exists k; auto|exact IH].
  - constructor; [exists k; auto|exact IH].
  - constructor; [exists Switch; split; [exact N|]|exact IH]. exists true. unfold truth. cbn [In snd]. tauto.
  - apply Forall_app. split; [apply (letters_suit _ _ _ _ L)|exact IH].
  - destruct (letters_suit _ _ _ _ L) as [A B]. apply Forall_app. split; [exact A|]. constructor; [exists k; auto|exact IH].
Qed.
Lemma int_of_spec args l a n dflt z : says true args l a -> In n [str "num-peer"; str "port"] -> int_of l n dflt = z <-> number_given l n dflt z.
Proof.
  intros HS HI. unfold int_of, number_given. destruct (value_of l n) as [v|] eqn:EV.
  - apply value_of_last in EV as EL. destruct EL as (l1 & l2 & E & _).
    pose proof (says_suit _ _ _ _ HS) as F. rewrite Forall_forall in F. destruct (F (n, v)) as (k & N & S); [subst l; apply in_or_app; right; now left|].
    cbn [fst snd] in N, S. assert (K : k = Number).
    { destruct HI as [<-|[<-|[]]]; clear -N; inversion N; try reflexivity; discriminate. }
    subst k. destruct S as (m & W). apply ParseInt_spec in W as P. rewrite P. split.
    + intros ->. right. exists v. split; [now apply value_of_last|exact W].
    + intros [[NG _]|(v' & LG & W')].
      * apply value_of_none in NG. congruence.
      * apply value_of_last in LG. rewrite EV in LG. inversion LG; subst. apply ParseInt_spec in W'. congruence.
  - split.
    + intros ->. left. split; [now apply value_of_none|reflexivity].
    + intros [[_ ->]|(v' & LG & _)]; [reflexivity|]. apply value_of_last in LG. congruence.
Qed.
Lemma helped_spec l : helped l = true <-> asks_help l.
Proof.
  unfold helped, asks_help. split.
  - destruct (value_of l (str "help")) as [v|] eqn:E; [|discriminate]. destruct (ParseBool v) as [[|]|] eqn:EB; try discriminate. intros _.
    exists v. split; [now apply value_of_last|now apply ParseBool_spec].
  - intros (v & L & T). apply value_of_last in L. apply ParseBool_spec in T. now rewrite L, T.
Qed.

(* ---------- the download command ---------- *)
Lemma find_first c n args : findNext n = Some c -> hd 45 n <> 45 -> Find (n :: args) = (c, args).
Proof.
  intros F H. unfold Find. cbn [stripFlags].
  destruct n as [|x n]; [contradiction H; reflexivity|]. cbn [hd] in H.
  assert (P1 : HasPrefix (str "--") (x :: n) = false).
  { destruct (HasPrefix (str "--") (x :: n)) eqn:E; [|reflexivity]. apply HasPrefix_spec in E as (t & E). vm_compute in E. inversion E; subst. contradiction H. reflexivity. }
  assert (P2 : HasPrefix (str "-") (x :: n) = false).
  { destruct (HasPrefix (str "-") (x :: n)) eqn:E; [|reflexivity]. apply HasPrefix_spec in E as (t & E). vm_compute in E. inversion E; subst. contradiction H. reflexivity. }
  assert (P3 : beq (x :: n) (str "--") = false).
  { destruct (beq (x :: n) (str "--")) eqn:E; [|reflexivity]. apply beq_eq in E. vm_compute in E. inversion E; subst. contradiction H. reflexivity. }
  rewrite P1, P2, P3. cbn [andb orb negb]. change (beq (x :: n) []) with false. cbn [negb andb]. rewrite F. cbn [minus_first]. now rewrite beq_refl.
Qed.
Lemma download_spec args out file num port :
  command_line (str "download" :: args) = LDownload out file num port <->
  exists l, says true args l [file] /\ ~ asks_help l /\ last_given l (str "out") out /\ number_given l (str "num-peer") 30 num /\ number_given l (str "port") 6666 port.
Proof.
  unfold command_line. rewrite (find_first SubDownload (str "download") args); [|reflexivity|vm_compute; discriminate].
  change (helpFlag :: downloadFlags ++ rootFlags) with (table true). split.
  - destruct (parseArgs (table true) args) as [[l p]|] eqn:EP; [|discriminate]. apply parse_spec in EP.
    destruct (helped l) eqn:EH; [discriminate|]. destruct p as [|f [|? ?]]; try discriminate. destruct (value_of l (str "out")) as [o|] eqn:EO; [|discriminate].
    intros H. inversion H; subst. exists l. split; [exact EP|]. split; [intros K; apply helped_spec in K; congruence|].
    split; [now apply value_of_last|]. split; eapply int_of_spec; try exact EP; try reflexivity; cbn [In]; auto.
  - intros (l & S & NH & O & N & P). rewrite (proj2 (parse_spec true args l [file]) S).
    destruct (helped l) eqn:EH; [apply helped_spec in EH; contradiction|]. apply value_of_last in O. rewrite O.
    rewrite (proj2 (int_of_spec _ _ _ (str "num-peer") 30 num S ltac:(cbn [In]; auto)) N), (proj2 (int_of_spec _ _ _ (str "port") 6666 port S ltac:(cbn [In]; auto)) P). reflexivity.
Qed.
