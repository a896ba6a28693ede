(* The text Encode writes: C155.                                               *)
From Coq Require Import Sorted Permutation.
From Verif Require Import Base ProofBase ModelBencode SpecBencode SpecBep SpecEncode ProofBencodeMore ProofBep ProofEncode.

(* ---------- C155 ---------- *)
Definition ex_two : ben := Generate (Add (Add NewDictBuilder (str "b") (BInt 1)) (str "a") (BInt (-2))).
Lemma ex_two_maps : maps ex_two.
Proof.
  intros p m raw H. vm_compute in H. inversion H as [| |? ? ? k e Hi He]; subst; [repeat constructor; cbn; intuition discriminate|].
  destruct Hi as [E|[E|[]]]; injection E as _ <-; inversion He.
Qed.
(* Expected: what Encode writes is bencode as BEP 3 has it. *)
Theorem C155_bep_refuted : ~ (forall e w, maps e -> encodes e w -> exists v, bep3 w v).
Proof.
  intros H. assert (S : single ex_two); [apply bep_exact; [discriminate|apply ex_two_maps|]; intros w W; exact (H _ _ ex_two_maps W)|].
  assert (C : str "b" = str "a"); [|discriminate C].
  refine (S _ _ _ (str "b") (BInt 1) (str "a") (BInt (-2)) (in_here _) _ _ _ _); vm_compute; [now left|right; now left|discriminate|discriminate].
Qed.
(* Expected: an element has one text. *)
Theorem C155_one_text_refuted : ~ (forall e w w', maps e -> encodes e w -> encodes e w' -> w = w').
Proof.
  intros H. assert (S : single ex_two); [apply text_exact; [discriminate|apply ex_two_maps|]; intros w w' W W'; exact (H _ _ _ ex_two_maps W W')|].
  assert (C : str "b" = str "a"); [|discriminate C].
  refine (S _ _ _ (str "b") (BInt 1) (str "a") (BInt (-2)) (in_here _) _ _ _ _); vm_compute; [now left|right; now left|discriminate|discriminate].
Qed.
(* It is certain to be bencode, and certain to be one text, exactly if no dictionary has two entries; *)
Theorem C155_bep_exact : forall e, e <> BNil -> maps e -> ((forall w, encodes e w -> exists v, bep3 w v) <-> single e).
Proof. exact bep_exact. Qed.
Theorem C155_one_text_exact : forall e, e <> BNil -> maps e -> ((forall w w', encodes e w -> encodes e w' -> w = w') <-> single e).
Proof. exact text_exact. Qed.
(* then it is bencode of the element, whatever integers are in it; *)
Theorem C155_bep_partial : forall e w, encodes e w -> maps e -> single e -> exists v, bep3 w v /\ same_value e v.
Proof. exact (proj1 single_bep). Qed.
(* and there is always an order of the keys for which it is. *)
Theorem C155_some_order : forall e, e <> BNil -> maps e -> exists w v, encodes e w /\ bep3 w v /\ same_value e v.
Proof. exact some_text. Qed.
Definition ex_one : ben := Generate (Add (Add NewDictBuilder (str "q") BNil) (str "a") (List_ [BInt (-5); BNil; BStr (str "xy")])).
Example C155_ex : maps ex_one /\ single ex_one /\ encodes ex_one (str "d1:ali-5e2:xyee") /\ maps ex_two /\ ~ single ex_two /\ encodes ex_two (str "d1:bi1e1:ai-2ee").
Proof.
  split; [|split; [|split; [|split; [apply ex_two_maps|split]]]].
  - intros p m raw H. vm_compute in H. inversion H as [| |? ? ? k e Hi He]; subst; [repeat constructor; cbn; intuition discriminate|].
    destruct Hi as [E|[E|[]]]; injection E as _ <-; [inversion He|]. inversion He as [|? ? ? e' Hi' He'|]; subst. destruct Hi' as [<-|[<-|[<-|[]]]]; inversion He'.
  - intros p m raw k v k' v' H. vm_compute in H. inversion H as [| |? ? ? k0 e Hi He]; subst.
    + intros [E|[E|[]]] [E'|[E'|[]]] N N'; injection E as <- <-; injection E' as <- <-; congruence.
    + destruct Hi as [E|[E|[]]]; injection E as _ <-; [inversion He|]. inversion He as [|? ? ? e' Hi' He'|]; subst. destruct Hi' as [<-|[<-|[<-|[]]]]; inversion He'.
  - pose proof (encode_encodes ex_one ltac:(discriminate)) as E. vm_compute in E |- *. exact E.
  - intros S. assert (C : str "b" = str "a"); [|discriminate C].
    refine (S _ _ _ (str "b") (BInt 1) (str "a") (BInt (-2)) (in_here _) _ _ _ _); vm_compute; [now left|right; now left|discriminate|discriminate].
  - pose proof (encode_encodes ex_two ltac:(discriminate)) as E. vm_compute in E |- *. exact E.
Qed.

Print Assumptions C155_bep_refuted.
Print Assumptions C155_one_text_refuted.
Print Assumptions C155_bep_exact.
Print Assumptions C155_one_text_exact.
Print Assumptions C155_bep_partial.
Print Assumptions C155_some_order.
