(* The turns of the writer in a schedule. *)
From Verif Require Import Base ModelSystem.

Fixpoint turns (l : list action) : nat :=
  match l with
  | [] => 0
  | AWriter :: l' => S (turns l')
  | _ :: l' => turns l'
  end.
