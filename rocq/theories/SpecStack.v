(* Deep nesting (C127).                                                        *)
From Verif Require Import Base ModelBencode SpecBencode SpecCmd.

(* d begins with more than n lists or dictionaries that are not yet closed: before
   each of them complete elements, and a key in a dictionary                    *)
Inductive deep : nat -> bytes -> Prop :=
| dp_here c t : c = 108 \/ c = 100 -> deep 0 (c :: t)
| dp_list n body es d : den_items wrapped_val body es -> deep n d -> deep (S n) ([108] ++ body ++ d)
| dp_dict n body es kw k d : den_entries wrapped_val body es -> wdenotes kw (BStr k) -> deep n d -> deep (S n) ([100] ++ body ++ kw ++ d).
(* how deep an element is *)
Fixpoint nesting (e : ben) : nat :=
  match e with
  | BList _ v _ => S (fold_right (fun x k => Nat.max (nesting x) k) 0%nat v)
  | BDict _ m _ => S (fold_right (fun x k => Nat.max (nesting (snd x)) k) 0%nat m)
  | _ => 0%nat
  end.
(* n lists, each in the one before, and their ends *)
Definition boxes (n : nat) : bytes := repeat 108 n ++ repeat 101 n.
