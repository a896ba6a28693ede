(* Proofs about paths: Clean and Join mean what the operating system resolves. *)
From Verif Require Import Base ProofBase SpecPath ModelPath ModelFloat ModelBitset ModelMsg ModelTorrent.

(* ---------- splitting ---------- *)
Lemma split_on_spec s : forall cur, ~ In slash cur -> components (cur ++ s) (split_on s cur).
Proof.
  induction s as [|c s IH]; intros cur Hc; cbn [split_on].
  - rewrite app_nil_r. now apply comp_last.
  - destruct (Z.eqb_spec c slash) as [->|Hn].
    + apply comp_more; [auto|]. apply (IH []). intros [].
    + replace (cur ++ c :: s) with ((cur ++ [c]) ++ s) by now rewrite <- app_assoc. apply IH.
      rewrite in_app_iff. intros [|[|[]]]; auto.
Qed.
Lemma split_path_spec s : components s (split_path s).
Proof. apply (split_on_spec s []). intros []. Qed.
Lemma components_fun s l : components s l -> forall l', components s l' -> l = l'.
Proof.
  assert (Hdet : forall a b s1 s2, ~ In 47 a -> ~ In 47 b -> a ++ 47 :: s1 = b ++ 47 :: s2 -> a = b /\ s1 = s2).
  { induction a as [|x a IH]; intros [|y b] s1 s2 Ha Hb E; cbn in *.
    - inversion E; auto.
    - inversion E; subst. exfalso. apply Hb. auto.
    - inversion E; subst. exfalso. apply Ha. auto.
    - inversion E; subst. destruct (IH b s1 s2) as [-> ->]; auto. }
  intros H; induction H; intros l' H'.
  - inversion H'; subst; [reflexivity|]. exfalso. apply H. rewrite in_app_iff. right. now left.
  - inversion H'; subst.
    + exfalso. apply H1. rewrite in_app_iff. right. now left.
    + apply Hdet in H1 as [-> ->]; auto. f_equal. auto.
Qed.
Lemma split_on_app a : forall cur b, split_on (a ++ slash :: b) cur = split_on a cur ++ split_path b.
Proof.
  induction a as [|c a IH]; intros cur b; cbn [app split_on].
  - rewrite Z.eqb_refl. reflexivity.
  - destruct (c =? slash); cbn [app]; now rewrite IH.
Qed.
Lemma split_path_app a b : split_path (a ++ [slash] ++ b) = split_path a ++ split_path b.
Proof. apply (split_on_app a []). Qed.
Lemma split_on_noslash s : forall cur, ~ In slash s -> split_on s cur = [cur ++ s].
Proof.
  induction s as [|c s IH]; intros cur H; cbn [split_on].
  - now rewrite app_nil_r.
  - destruct (Z.eqb_spec c slash) as [->|]; [exfalso; apply H; now left|]. rewrite IH by (intros C; apply H; now right).
    now rewrite <- app_assoc.
Qed.
Lemma split_join l : l <> [] -> Forall (fun c => ~ In slash c) l -> split_path (join_path l) = l.
Proof.
  intros Hn Hl. induction l as [|c l IH]; [congruence|]. inversion Hl; subst. destruct l as [|d l].
  - cbn. unfold split_path. now rewrite split_on_noslash.
  - change (join_path (c :: d :: l)) with (c ++ [slash] ++ join_path (d :: l)). rewrite split_path_app, IH by (auto; discriminate).
    unfold split_path. now rewrite split_on_noslash.
Qed.
Lemma split_noslash s : Forall (fun c => ~ In slash c) (split_path s).
Proof.
  assert (H : forall s l, components s l -> Forall (fun c => ~ In slash c) l) by (intros s0 l H; induction H; constructor; auto).
  eapply H, split_path_spec.
Qed.

Lemma os_place_resolves cwd s : resolves cwd s (os_place cwd s).
Proof.
  unfold os_place. pose proof (split_path_spec s) as H. destruct s as [|c s]; cbn [is_rooted].
  - apply res_rel; [cbn; lia|exact H].
  - destruct (Z.eqb_spec c slash) as [->|Hn].
    + now apply res_abs.
    + apply res_rel; [exact Hn|exact H].
Qed.
Lemma resolves_os_place cwd s p : resolves cwd s p -> p = os_place cwd s.
Proof.
  intros H. unfold os_place. inversion H; subst.
  - rewrite (components_fun _ _ H0 _ (split_path_spec _)). reflexivity.
  - rewrite (components_fun _ _ H1 _ (split_path_spec _)). destruct s as [|c s]; [reflexivity|]. cbn [is_rooted hd] in *.
    destruct (Z.eqb_spec c slash) as [->|]; [exfalso; apply H0; reflexivity|reflexivity].
Qed.

(* ---------- step ---------- *)
Lemma step_plain p c : plain_name c -> step p c = p ++ [c].
Proof.
  intros (H1 & H2 & H3 & H4). destruct c as [|a [|b [|d c]]]; try congruence; cbn.
  - destruct (Z.eq_dec a 46) as [->|]; [congruence|]. destruct a as [|a|a]; try reflexivity.
    do 6 (destruct a as [a|a|]; try reflexivity). congruence.
  - destruct (Z.eq_dec a 46) as [->|].
    + destruct (Z.eq_dec b 46) as [->|]; [congruence|]. destruct b as [|b|b]; try reflexivity.
      do 6 (destruct b as [b|b|]; try reflexivity). congruence.
    + destruct a as [|a|a]; try reflexivity. do 6 (destruct a as [a|a|]; try reflexivity). congruence.
  - destruct a as [|a|a]; try reflexivity. do 6 (destruct a as [a|a|]; try reflexivity).
    destruct b as [|b|b]; try reflexivity. do 6 (destruct b as [b|b|]; try reflexivity).
Qed.
Lemma step_dotdot p : step p dotdot = removelast p. Proof. reflexivity. Qed.
Lemma comp_cases c : ~ In slash c -> c = [] \/ c = dot \/ c = dotdot \/ plain_name c.
Proof.
  intros H. unfold plain_name. destruct (list_eq_dec Z.eq_dec c []); auto. destruct (list_eq_dec Z.eq_dec c dot); auto.
  destruct (list_eq_dec Z.eq_dec c dotdot); auto. repeat right. repeat split; auto.
Qed.
Lemma plain_not_special c : plain_name c -> beq c [] = false /\ beq c dot = false /\ beq c dotdot = false.
Proof. intros (H1 & H2 & H3 & H4). repeat split; apply beq_neq; auto. Qed.

(* ---------- Clean ---------- *)
(* the accumulator holds plain names, above possible leading ".."s when not rooted *)
Inductive clean_acc (rooted : bool) : list bytes -> Prop :=
| ca_nil : clean_acc rooted []
| ca_plain : forall c l, plain_name c -> clean_acc rooted l -> clean_acc rooted (c :: l)
| ca_dd : forall l, rooted = false -> Forall (fun c => c = dotdot) l -> clean_acc rooted (dotdot :: l).
Lemma dd_acc l : Forall (fun c => c = dotdot) l -> clean_acc false l.
Proof. intros H. destruct H; [constructor|]. subst. now apply ca_dd. Qed.
Lemma clean_acc_noslash r l : clean_acc r l -> Forall (fun c => ~ In slash c /\ c <> []) l.
Proof.
  intros H; induction H; [constructor| |].
  - constructor; auto. destruct H as (? & ? & _); auto.
  - assert (D : ~ In slash dotdot /\ dotdot <> []) by (split; [intros [|[|[]]]; discriminate|discriminate]).
    constructor; auto. eapply Forall_impl; [|exact H0]. intros a ->. auto.
Qed.
Lemma clean_comps_spec base l : forall rooted acc, Forall (fun c => ~ In slash c) l -> clean_acc rooted acc -> (rooted = true -> base = []) ->
  fold_left step (clean_comps rooted acc l) base = fold_left step l (fold_left step (rev acc) base) /\
  Forall (fun c => ~ In slash c /\ c <> []) (clean_comps rooted acc l).
Proof.
  induction l as [|c l IH]; intros rooted acc Hl Ha Hb; cbn [clean_comps fold_left].
  - split; [reflexivity|]. apply Forall_rev. eapply clean_acc_noslash; eauto.
  - inversion Hl; subst. destruct (comp_cases c H1) as [->|[->|[->|Hp]]].
    + cbn. apply IH; auto.
    + cbn. apply IH; auto.
    + cbn [beq orb dotdot dot Z.eqb Pos.eqb andb]. destruct Ha as [|d acc Hd Ha|acc Hr Ha].
      * destruct rooted.
        -- destruct (IH true [] H2 (ca_nil _) Hb) as [E F]. split; [|exact F]. rewrite E. cbn [rev fold_left].
           rewrite (Hb eq_refl). reflexivity.
        -- destruct (IH false [dotdot] H2) as [E F]; auto. now apply ca_dd.
      * destruct (plain_not_special d Hd) as (_ & _ & E3). change [46;46] with dotdot. rewrite E3. destruct (IH rooted acc H2 Ha Hb) as [E F].
        split; [|exact F]. rewrite E. cbn [rev]. rewrite fold_left_app. cbn [fold_left]. rewrite (step_plain _ d Hd).
        rewrite step_dotdot, removelast_last. reflexivity.
      * cbn [beq dotdot Z.eqb Pos.eqb andb]. subst rooted. destruct (IH false (dotdot :: dotdot :: acc) H2) as [E F]; auto.
        { apply ca_dd; auto. }
        split; [|exact F]. fold dotdot in *. rewrite E. cbn [rev]. rewrite !fold_left_app. reflexivity.
    + destruct (plain_not_special c Hp) as (E1 & E2 & E3). rewrite E1, E2, E3. cbn [orb].
      destruct (IH rooted (c :: acc) H2 (ca_plain _ _ _ Hp Ha) Hb) as [E F]. split; [|exact F].
      etransitivity; [exact E|]. cbn [rev]. rewrite fold_left_app. reflexivity.
Qed.

Lemma step_nil p : step p [] = p. Proof. reflexivity. Qed.

Lemma clean_place cwd s : os_place cwd (Clean s) = os_place cwd s.
Proof.
  set (base := if is_rooted s then [] else cwd).
  destruct (clean_comps_spec base (split_path s) (is_rooted s) [] (split_noslash s) (ca_nil _)) as [E F].
  { unfold base. intros ->. reflexivity. }
  cbn [rev fold_left] in E. unfold Clean. set (cs := clean_comps _ _ _) in *. clearbody cs.
  assert (F1 : Forall (fun c => ~ In slash c) cs) by (eapply Forall_impl; [|exact F]; cbn; tauto).
  transitivity (fold_left step cs base); [|exact E].
  destruct (is_rooted s) eqn:Er.
  - unfold os_place. cbn [is_rooted]. rewrite Z.eqb_refl. unfold base. unfold split_path. cbn [split_on]. rewrite Z.eqb_refl. cbn [fold_left]. rewrite step_nil.
    destruct cs as [|c cs]; [reflexivity|]. fold (split_path (join_path (c :: cs))). rewrite split_join by (auto; discriminate). reflexivity.
  - destruct cs as [|c cs]; [reflexivity|].
    assert (Hn : join_path (c :: cs) <> [] /\ is_rooted (join_path (c :: cs)) = false).
    { inversion F as [|? ? [Hs Hn] F']; subst. destruct c as [|x c]; [congruence|].
      assert (Hx : x <> slash) by (intros ->; apply Hs; now left).
      destruct cs; cbn; (split; [discriminate|now apply Z.eqb_neq]). }
    destruct Hn as [Hn Hr]. destruct (join_path (c :: cs)) as [|x j] eqn:Ej; [congruence|].
    unfold os_place. rewrite Hr, <- Ej. rewrite split_join by (auto; discriminate). reflexivity.
Qed.

Lemma join_place cwd a b : a <> [] -> os_place cwd (Join a b) = fold_left step (split_path b) (os_place cwd a).
Proof.
  intros Ha. unfold Join. destruct a as [|x a]; [congruence|]. rewrite clean_place. unfold os_place.
  rewrite split_path_app, fold_left_app. reflexivity.
Qed.
Lemma clean_nonempty s : Clean s <> [].
Proof. unfold Clean. destruct (is_rooted s); [discriminate|]. destruct (join_path _); discriminate. Qed.
Lemma join_nonempty a b : a <> [] -> Join a b <> [].
Proof. intros H. unfold Join. destruct a; [congruence|]. apply clean_nonempty. Qed.

(* walking down plain names and dots never leaves the directory *)
Definition harmless (c : bytes) : Prop := c = [] \/ c = dot \/ plain_name c.
Lemma fold_step_harmless l : forall p, Forall harmless l -> exists q, fold_left step l p = p ++ q /\ (Exists plain_name l -> q <> []).
Proof.
  induction l as [|c l IH]; intros p H.
  - exists []. split; [cbn; now rewrite app_nil_r|]. intros C; inversion C.
  - inversion H as [|? ? [->|[->|Hc]] H']; subst; cbn [fold_left].
    + destruct (IH p H') as (q & E & Q). exists q. split; [exact E|]. intros C. apply Q. inversion C; subst; auto. destruct H1 as [? _]; congruence.
    + destruct (IH p H') as (q & E & Q). exists q. split; [exact E|]. intros C. apply Q. inversion C; subst; auto. destruct H1 as (_ & _ & ? & _); unfold dot in *; congruence.
    + destruct (IH (p ++ [c]) H') as (q & E & Q). exists (c :: q). split; [rewrite step_plain by auto; rewrite E, <- app_assoc; reflexivity|discriminate].
Qed.

(* ---------- the files of a torrent ---------- *)
Lemma file_paths_spec dir files ps : file_paths dir files = Ok ps -> Forall2 (fun f p => exists c r, tf_path f = c :: r /\ p = Join dir c) files ps.
Proof.
  revert ps; induction files as [|f fs IH]; intros ps H; cbn in H.
  - inversion H; constructor.
  - destruct (tf_path f) as [|c r] eqn:E; [discriminate|]. destruct (file_paths dir fs) as [r'| | |]; try discriminate.
    inversion H; subst. constructor; eauto.
Qed.
Lemma file_paths_panic dir files : file_paths dir files = Panic <-> Exists (fun f => tf_path f = []) files.
Proof.
  induction files as [|f fs IH]; cbn.
  - split; [discriminate|intros C; inversion C].
  - destruct (tf_path f) as [|c r] eqn:E.
    + split; auto.
    + assert (Hn : (do r0 <- file_paths dir fs; Ok (Join dir c :: r0)) = Panic <-> file_paths dir fs = Panic).
      { destruct (file_paths dir fs); cbn; split; congruence. }
      rewrite Hn, IH. split; [auto|]. intros C; inversion C; subst; auto. congruence.
Qed.
Lemma file_paths_cases dir files : (exists ps, file_paths dir files = Ok ps) \/ file_paths dir files = Panic.
Proof.
  induction files as [|f fs IH]; cbn; [eauto|]. destruct (tf_path f); [auto|]. destruct IH as [[ps ->]| ->]; cbn; eauto.
Qed.
Lemma create_files_spec cwd creat paths : forall f f' hs, create_files cwd creat f paths = (f', Ok hs) ->
  hs = map (os_place cwd) paths /\ (forall p, In p hs -> f' p = Some []) /\ (forall p, ~ In p hs -> f' p = f p).
Proof.
  induction paths as [|p ps IH]; intros f f' hs H; cbn [create_files] in H.
  - inversion H; subst. repeat split; auto. intros p [].
  - destruct (creat p); [|inversion H]. destruct (create_files cwd creat _ ps) as [f1 r] eqn:E. destruct r as [hs1| | |]; cbn in H; inversion H; subst.
    destruct (IH _ _ _ E) as (-> & A & B). split; [reflexivity|]. split.
    + intros q [<-|Hq]; [|auto]. destruct (in_dec (list_eq_dec (list_eq_dec Z.eq_dec)) (os_place cwd p) (map (os_place cwd) ps)) as [Hi|Hi]; [auto|].
      rewrite B by auto. unfold fs_put. assert (peq (os_place cwd p) (os_place cwd p) = true) as -> by (clear; induction (os_place cwd p); cbn; rewrite ?beq_refl; auto). reflexivity.
    + intros q Hq. cbn in Hq. rewrite B by tauto. unfold fs_put. destruct (peq (os_place cwd p) q) eqn:Ep; [|reflexivity].
      exfalso. apply Hq. left. clear -Ep. revert q Ep; induction (os_place cwd p) as [|x a IH]; intros [|y q] Ep; cbn in Ep; try discriminate; auto.
      apply andb_true_iff in Ep as [E1 E2]. apply beq_eq in E1. subst. f_equal. auto.
Qed.
