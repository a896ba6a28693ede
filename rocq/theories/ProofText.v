(* prettyPrint and its layout.                                                  *)
From Verif Require Import Base ProofBase ModelBencode SpecText.

Lemma tabs_snoc d : addTab (tabs d) = tabs (S d).
Proof. unfold addTab, tabs. induction d as [|d IH]; [reflexivity|]. cbn [repeat app]. now rewrite IH. Qed.
Lemma removelast_snoc {A} (l : list A) x : removelast (l ++ [x]) = l.
Proof. rewrite removelast_app by discriminate. cbn. apply app_nil_r. Qed.
(* items as prettyPrint writes them: the line break after, the last tab cut off *)
Lemma layout o c d (its : list bytes) :
  match flat_map (fun i => i ++ [44] ++ newLine (tabs (S d))) its with
  | [] => [o; c]
  | l => removelast ([o] ++ newLine (tabs (S d)) ++ l) ++ [c]
  end = brackets o c d its.
Proof.
  assert (E : forall l : list bytes, newLine (tabs (S d)) ++ flat_map (fun i => i ++ [44] ++ newLine (tabs (S d))) l =
    flat_map (fun i => [10] ++ tabs (S d) ++ i ++ [44]) l ++ newLine (tabs (S d))).
  { intros l. induction l as [|i l IH]; [now rewrite app_nil_r|]. cbn [flat_map]. rewrite <- (app_assoc ([10] ++ _)), <- IH. unfold newLine. cbn [app]. f_equal. now rewrite <- !app_assoc. }
  destruct its as [|i its]; [reflexivity|]. unfold brackets.
  assert (N : flat_map (fun i => i ++ [44] ++ newLine (tabs (S d))) (i :: its) <> []) by (cbn [flat_map]; destruct i; discriminate).
  destruct (flat_map (fun i => i ++ [44] ++ newLine (tabs (S d))) (i :: its)) as [|x l] eqn:F; [now destruct N|]. rewrite <- F, E. clear F N.
  unfold newLine. rewrite <- tabs_snoc. unfold addTab.
  replace ([o] ++ flat_map (fun i0 => [10] ++ (tabs d ++ [9]) ++ i0 ++ [44]) (i :: its) ++ 10 :: tabs d ++ [9])
    with (([o] ++ flat_map (fun i0 => [10] ++ (tabs d ++ [9]) ++ i0 ++ [44]) (i :: its) ++ 10 :: tabs d) ++ [9]) by (rewrite <- !app_assoc; reflexivity).
  rewrite removelast_snoc. rewrite <- !app_assoc. reflexivity.
Qed.
Lemma ben_induct (P : ben -> Prop) : P BNil -> (forall n, P (BInt n)) -> (forall s, P (BStr s)) ->
  (forall p v raw, Forall P v -> P (BList p v raw)) -> (forall p m raw, Forall (fun kv => P (snd kv)) m -> P (BDict p m raw)) -> forall b, P b.
Proof.
  intros H1 H2 H3 H4 H5. fix IH 1. intros [|n|s|p v raw|p m raw]; [exact H1|apply H2|apply H3|apply H4|apply H5].
  - induction v; constructor; auto.
  - induction m; constructor; auto.
Qed.
Lemma is_nil_present b : is_nil b = negb (present b).
Proof. now destruct b. Qed.
Lemma pretty_show b : forall d, pretty b (tabs d) = restarted d b.
Proof.
  induction b as [|n|s|p v raw IH|p m raw IH] using ben_induct; intros d; try reflexivity.
  - cbn [pretty]. unfold restarted. cbn [show].
    match goal with |- context [addTab ?t] => assert (E : t = tabs (if p then O else d)) by (now destruct p); rewrite !E; clear E end. generalize (if p then O else d). intros e. rewrite !tabs_snoc, <- layout.
    replace (flat_map (fun el => if is_nil el then [] else pretty el (tabs (S e)) ++ [44] ++ newLine (tabs (S e))) v)
      with (flat_map (fun i => i ++ [44] ++ newLine (tabs (S e))) (flat_map (fun x => if present x then [show (fun p0 => p0) (S e) x] else []) v)); [match goal with |- context [flat_map ?f (flat_map ?g v)] => now destruct (flat_map f (flat_map g v)) end|].
    induction IH as [|x v Hx _ IHv]; [reflexivity|]. cbn [flat_map]. rewrite flat_map_app, is_nil_present.
 f_equal; [|exact IHv].
    destruct (present x); cbn [negb flat_map app]; [|reflexivity]. rewrite app_nil_r, Hx. reflexivity.
  - cbn [pretty]. unfold restarted. cbn [show].
    match goal with |- context [addTab ?t] => assert (E : t = tabs (if p then O else d)) by (now destruct p); rewrite !E; clear E end. generalize (if p then O else d). intros e. rewrite !tabs_snoc, <- layout.
    match goal with |- context [flat_map ?f (flat_map ?g m)] => replace (flat_map (fun kv => if is_nil (snd kv) then [] else fst kv ++ str ": " ++ pretty (snd kv) (tabs (S e)) ++ [44] ++ newLine (tabs (S e))) m) with (flat_map f (flat_map g m)); [now destruct (flat_map f (flat_map g m))|] end.
    induction IH as [|x m Hx _ IHm]; [reflexivity|]. cbn [flat_map]. rewrite flat_map_app, is_nil_present. apply f_equal2; [|exact IHm].
    destruct x as [k x]. cbn [fst snd] in *. specialize (Hx (S e)). destruct (present x); [|reflexivity]. cbn [negb flat_map]. rewrite app_nil_r, Hx. unfold restarted. rewrite <- !app_assoc. reflexivity.
Qed.
Lemma String_text b : String_ b = text b.
Proof. exact (pretty_show b 0). Qed.
Lemma built_nested b : built b -> forall d, restarted d b = nested d b.
Proof.
  induction b as [|n|s|p v raw IH|p m raw IH] using ben_induct; intros HB d; try reflexivity.
  - inversion HB as [| | |? ? HF|]; subst. unfold restarted, nested. cbn [show]. f_equal. clear HB. induction IH as [|x v Hx _ IHv]; [reflexivity|].
    inversion HF as [|? ? H1 H2]; subst. cbn [flat_map]. rewrite (IHv H2). specialize (Hx H1 (S d)). unfold restarted, nested in Hx. now rewrite Hx.
  - inversion HB as [| | | |? ? HF]; subst. unfold restarted, nested. cbn [show]. f_equal. clear HB. induction IH as [|x m Hx _ IHm]; [reflexivity|].
    inversion HF as [|? ? H1 H2]; subst. destruct x as [k x]. cbn [flat_map fst snd] in *. apply f_equal2; [|exact (IHm H2)]. specialize (Hx H1 (S d)). unfold restarted, nested in Hx. now rewrite Hx.
Qed.
