From Verif Require Import Base ProofBase ModelLogger SpecLogger.

Lemma is_space_blank c : is_space c = true <-> blank c.
Proof. unfold is_space, blank. cbn [In]. split; intro H; [|destruct H as [<-|[<-|[<-|[<-|[<-|[<-|[]]]]]]]; reflexivity].
  assert (c = 9 \/ c = 10 \/ c = 11 \/ c = 12 \/ c = 13 \/ c = 32) by lia. intuition. Qed.

Lemma trim_left_blanks a s : Forall blank a -> trim_left (a ++ s) = trim_left s.
Proof. induction 1; [reflexivity|]. cbn. apply is_space_blank in H. rewrite H. exact IHForall. Qed.
Lemma trim_left_id s : match s with c :: _ => ~ blank c | [] => True end -> trim_left s = s.
Proof. destruct s; [reflexivity|]. cbn. intro H. destruct (is_space z) eqn:E; [|reflexivity]. apply is_space_blank in E. contradiction. Qed.
Lemma trim_left_split s : exists a, s = a ++ trim_left s /\ Forall blank a /\ match trim_left s with c :: _ => ~ blank c | [] => True end.
Proof. induction s as [|c s IH]; [exists []; repeat split; constructor|]. cbn. destruct (is_space c) eqn:E.
  - destruct IH as (a & E1 & Ha & Hn). exists (c :: a). split; [cbn; f_equal; exact E1|]. split; [constructor; [apply is_space_blank, E|exact Ha]|exact Hn].
  - exists []. split; [reflexivity|]. split; [constructor|]. intro H. apply is_space_blank in H. congruence. Qed.

(* a word that TrimSpace leaves alone *)
Definition tight (w : bytes) : Prop :=
  match w with c :: _ => ~ blank c | [] => True end /\ match rev w with c :: _ => ~ blank c | [] => True end.

Lemma TrimSpace_app a w b : Forall blank a -> Forall blank b -> tight w -> TrimSpace (a ++ w ++ b) = w.
Proof. intros Ha Hb [H1 H2]. unfold TrimSpace. rewrite trim_left_blanks by exact Ha. destruct w as [|c w].
  - cbn [app]. replace b with (b ++ []) by apply app_nil_r. rewrite trim_left_blanks by exact Hb. reflexivity.
  - rewrite (trim_left_id ((c :: w) ++ b)) by exact H1. rewrite rev_app_distr. rewrite trim_left_blanks by (apply Forall_rev, Hb).
    rewrite trim_left_id by exact H2. apply rev_involutive. Qed.
Lemma TrimSpace_split s : exists a b, s = a ++ TrimSpace s ++ b /\ Forall blank a /\ Forall blank b.
Proof. destruct (trim_left_split s) as (a & E & Ha & _). destruct (trim_left_split (rev (trim_left s))) as (b & E2 & Hb & _).
  exists a, (rev b). split; [|split; [exact Ha|apply Forall_rev, Hb]]. unfold TrimSpace. rewrite <- rev_app_distr, <- E2, rev_involutive. exact E. Qed.

Lemma to_lower_blank c : blank (to_lower c) <-> blank c.
Proof. unfold to_lower, blank. cbn [In]. destruct ((65 <=? c) && (c <=? 90)) eqn:E; [|reflexivity]. lia. Qed.
Lemma ToLower_blank a : Forall blank (ToLower a) <-> Forall blank a.
Proof. unfold ToLower. rewrite Forall_map. split; intro H; (eapply Forall_impl; [|exact H]); intros c; apply to_lower_blank. Qed.
(* small: no capital letters *)
Definition small (w : bytes) : Prop := Forall (fun c => ~ 65 <= c <= 90) w.
Lemma to_lower_letter c l : ~ 65 <= l <= 90 -> (to_lower c = l <-> letter c l).
Proof. intro H. unfold to_lower, letter. destruct ((65 <=? c) && (c <=? 90)) eqn:E; lia. Qed.
Lemma ToLower_letters b w : small w -> (ToLower b = w <-> Forall2 letter b w).
Proof. intro H. revert b. induction H as [|l w Hl Hw IH]; intros [|c b].
  - split; [constructor|reflexivity].
  - split; intro H; [discriminate H|inversion H].
  - split; intro H; [discriminate H|inversion H].
  - cbn. split; intro H.
    + injection H as E1 E2. constructor; [apply to_lower_letter; assumption|apply IH, E2].
    + inversion H; subst. f_equal; [apply to_lower_letter; assumption|apply IH; assumption]. Qed.

Theorem spelled_iff w s : small w -> tight w -> (TrimSpace (ToLower s) = w <-> spelled w s).
Proof. intros Hs Ht. split.
  - intro E. destruct (TrimSpace_split (ToLower s)) as (a & b & Es & Ha & Hb). rewrite E in Es.
    unfold ToLower in Es. symmetry in Es. apply eq_sym in Es.
    apply map_eq_app in Es as (s1 & s23 & -> & E1 & E23). apply map_eq_app in E23 as (s2 & s3 & -> & E2 & E3).
    exists s1, s2, s3. split; [reflexivity|]. split; [apply ToLower_blank; unfold ToLower; rewrite E1; exact Ha|].
    split; [apply ToLower_letters; assumption|]. apply ToLower_blank. unfold ToLower. rewrite E3. exact Hb.
  - intros (a & b & c & -> & Ha & Hb & Hc). unfold ToLower. rewrite !map_app. apply ToLower_letters in Hb; [|exact Hs]. unfold ToLower in Hb. rewrite Hb.
    apply TrimSpace_app; [apply ToLower_blank, Ha|apply ToLower_blank, Hc|exact Ht]. Qed.

Ltac word := apply spelled_iff; [unfold small; cbn; repeat (apply Forall_cons; [lia|]); try apply Forall_nil|split; cbn; unfold blank; cbn; try lia; try exact I].
Lemma level_iff l s : getZapLevel s = Ok l <-> one_of (level_names l) s.
Proof.
  assert (H1 : TrimSpace (ToLower s) = str "debug" <-> spelled (str "debug") s) by word.
  assert (H2 : TrimSpace (ToLower s) = str "info" <-> spelled (str "info") s) by word.
  assert (H3 : TrimSpace (ToLower s) = [] <-> spelled [] s) by word.
  assert (H4 : TrimSpace (ToLower s) = str "warn" <-> spelled (str "warn") s) by word.
  assert (H5 : TrimSpace (ToLower s) = str "error" <-> spelled (str "error") s) by word.
  unfold getZapLevel. set (t := TrimSpace (ToLower s)) in *. clearbody t.
  assert (HO : forall w, one_of [w] s <-> spelled w s).
  { intro w. split; [intros (w' & [<-|[]] & H); exact H|intro H; exists w; split; [left; reflexivity|exact H]]. }
  assert (HO2 : forall w v, one_of [w; v] s <-> spelled w s \/ spelled v s).
  { intros w v. split; [intros (w' & [<-|[<-|[]]] & H); auto|intros [H|H]; [exists w|exists v]; (split; [cbn; auto|exact H])]. }
  destruct l; cbn [level_names]; rewrite ?HO, ?HO2, <- ?H1, <- ?H2, <- ?H3, <- ?H4, <- ?H5;
  (destruct (beq t (str "debug")) eqn:E1; [apply beq_eq in E1; subst t; split; intro H; (reflexivity || discriminate H || intuition discriminate)|]);
  (destruct (beq t (str "info")) eqn:E2; [apply beq_eq in E2; subst t; cbn [orb]; split; intro H; (discriminate H || auto || intuition discriminate)|]);
  (destruct (beq t (str "")) eqn:E3; [apply beq_eq in E3; subst t; cbn [orb]; split; intro H; (discriminate H || auto || intuition discriminate)|]);
  (destruct (beq t (str "warn")) eqn:E4; [apply beq_eq in E4; subst t; cbn [orb]; split; intro H; (discriminate H || auto || intuition discriminate)|]);
  (destruct (beq t (str "error")) eqn:E5; [apply beq_eq in E5; subst t; cbn [orb]; split; intro H; (discriminate H || auto || intuition discriminate)|]);
  cbn [orb]; (split; intro H; [discriminate H|exfalso]);
  repeat match goal with H : _ \/ _ |- _ => destruct H end; subst t; discriminate. Qed.

Lemma encoder_iff e s : getZapEncoder s = Ok e <-> one_of (encoder_names e) s.
Proof.
  assert (H1 : TrimSpace (ToLower s) = str "text" <-> spelled (str "text") s) by word.
  assert (H2 : TrimSpace (ToLower s) = str "color" <-> spelled (str "color") s) by word.
  assert (H3 : TrimSpace (ToLower s) = [] <-> spelled [] s) by word.
  assert (H4 : TrimSpace (ToLower s) = str "json" <-> spelled (str "json") s) by word.
  unfold getZapEncoder. set (t := TrimSpace (ToLower s)) in *. clearbody t.
  assert (HO : forall w, one_of [w] s <-> spelled w s).
  { intro w. split; [intros (w' & [<-|[]] & H); exact H|intro H; exists w; split; [left; reflexivity|exact H]]. }
  assert (HO2 : forall w v, one_of [w; v] s <-> spelled w s \/ spelled v s).
  { intros w v. split; [intros (w' & [<-|[<-|[]]] & H); auto|intros [H|H]; [exists w|exists v]; (split; [cbn; auto|exact H])]. }
  destruct e; cbn [encoder_names]; rewrite ?HO, ?HO2, <- ?H1, <- ?H2, <- ?H3, <- ?H4;
  (destruct (beq t (str "text")) eqn:E1; [apply beq_eq in E1; subst t; split; intro H; (reflexivity || discriminate H || intuition discriminate)|]);
  (destruct (beq t (str "color")) eqn:E2; [apply beq_eq in E2; subst t; cbn [orb]; split; intro H; (discriminate H || auto || intuition discriminate)|]);
  (destruct (beq t (str "")) eqn:E3; [apply beq_eq in E3; subst t; cbn [orb]; split; intro H; (discriminate H || auto || intuition discriminate)|]);
  (destruct (beq t (str "json")) eqn:E4; [apply beq_eq in E4; subst t; cbn [orb]; split; intro H; (discriminate H || auto || intuition discriminate)|]);
  cbn [orb]; (split; intro H; [discriminate H|exfalso]);
  repeat match goal with H : _ \/ _ |- _ => destruct H end; subst t; discriminate. Qed.

Lemma not_silent l s : one_of (level_names l) s -> s <> str "silent".
Proof. intros H ->. apply level_iff in H. discriminate H. Qed.
Theorem logger_exact l f x :
  NewCommandLine l f = Ok x <->
  match x with Nop => l = str "silent" | Logger lv e => one_of (level_names lv) l /\ one_of (encoder_names e) f end.
Proof. unfold NewCommandLine. destruct (beq l (str "silent")) eqn:E.
  - apply beq_eq in E. destruct x as [|lv e]; [split; [intros _; exact E|reflexivity]|].
    split; [discriminate|]. intros [H _]. apply not_silent in H. contradiction.
  - assert (Hn : l <> str "silent") by (intros ->; discriminate E). destruct x as [|lv e].
    + split; [|contradiction]. destruct (getZapLevel l); cbn; try discriminate. destruct (getZapEncoder f); cbn; discriminate.
    + rewrite <- level_iff, <- encoder_iff. destruct (getZapLevel l); cbn; try (split; [discriminate|intros [H _]; discriminate H]).
      destruct (getZapEncoder f); cbn; try (split; [discriminate|intros [_ H]; discriminate H]).
      split; [intro H; injection H as -> ->; auto|intros [H1 H2]; congruence]. Qed.
Theorem accepted_exact l f :
  is_ok (NewCommandLine l f) = true <->
  l = str "silent" \/ (one_of [str "debug"; str "info"; str "warn"; str "error"; []] l /\ one_of [str "text"; str "color"; str "json"; []] f).
Proof. split.
  - destruct (NewCommandLine l f) as [x| | |] eqn:E; try discriminate. intros _. apply logger_exact in E. destruct x as [|lv e]; [left; exact E|right].
    destruct E as [(w & Hw & H1) (v & Hv & H2)]. split; [exists w; split; [|exact H1]; destruct lv; cbn in *; intuition|exists v; split; [|exact H2]; destruct e; cbn in *; intuition].
  - intros [->|[(w & Hw & H1) (v & Hv & H2)]]; [reflexivity|].
    assert (HL : exists lv, one_of (level_names lv) l).
    { cbn in Hw. destruct Hw as [<-|[<-|[<-|[<-|[<-|[]]]]]]; [exists DebugLevel|exists InfoLevel|exists WarnLevel|exists ErrorLevel|exists InfoLevel]; eexists; (split; [|exact H1]); cbn; auto. }
    assert (HE : exists e, one_of (encoder_names e) f).
    { cbn in Hv. destruct Hv as [<-|[<-|[<-|[<-|[]]]]]; [exists TextEncoder|exists ColorEncoder|exists JsonEncoder|exists ColorEncoder]; eexists; (split; [|exact H2]); cbn; auto. }
    destruct HL as [lv HL], HE as [e HE]. rewrite (proj2 (logger_exact l f (Logger lv e)) (conj HL HE)). reflexivity. Qed.

Lemma spelled_self w : small w -> tight w -> spelled w w.
Proof. intros H1 H2. exists [], w, []. rewrite app_nil_r. split; [reflexivity|]. split; [constructor|]. split; [|constructor].
  clear. induction w; constructor; [left; reflexivity|assumption]. Qed.
Lemma spelled_refl w : spelled w w.
Proof. exists [], w, []. rewrite app_nil_r. split; [reflexivity|]. split; [constructor|]. split; [|constructor].
  induction w; constructor; [left; reflexivity|assumption]. Qed.

Theorem levels_refuted :
  ~ (forall l f, ascii l -> ascii f ->
       (is_ok (NewCommandLine l f) = true <-> one_of documented_levels l /\ one_of documented_formats f)).
Proof. intro H. specialize (H (str "trace") (str "text")).
  assert (A : is_ok (NewCommandLine (str "trace") (str "text")) = true).
  { apply H; [repeat constructor; lia|repeat constructor; lia|]. split; eexists; (split; [|apply spelled_refl]); cbn; auto. }
  vm_compute in A. discriminate A. Qed.

Lemma spelled_fun w v s : small w -> tight w -> small v -> tight v -> spelled w s -> spelled v s -> w = v.
Proof. intros A1 A2 B1 B2 H1 H2. apply spelled_iff in H1; try assumption. apply spelled_iff in H2; try assumption. congruence. Qed.

(* a documented level none of whose spellings is accepted *)
Theorem trace_warning_rejected l f : one_of [str "trace"; str "warning"] l -> exists e, NewCommandLine l f = Err e.
Proof. intros (w & Hw & H).
  assert (T : TrimSpace (ToLower l) = w) by (cbn in Hw; destruct Hw as [<-|[<-|[]]]; revert H; word).
  unfold NewCommandLine. destruct (beq l (str "silent")) eqn:E.
  - apply beq_eq in E. subst l. cbn in Hw. destruct Hw as [<-|[<-|[]]]; vm_compute in T; discriminate T.
  - unfold getZapLevel. rewrite T. cbn in Hw. destruct Hw as [<-|[<-|[]]]; eexists; reflexivity. Qed.
Theorem documented_formats_ok l f : one_of [str "info"; str "debug"; str "error"] l -> one_of documented_formats f -> is_ok (NewCommandLine l f) = true.
Proof. intros (w & Hw & H1) (v & Hv & H2). apply accepted_exact. right. split; [exists w|exists v]; (split; [|assumption]); cbn in *; intuition. Qed.
