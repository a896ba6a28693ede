(* Vocabulary for the statistics and queue theorems.                           *)
From Verif Require Import Base.

Definition sum (l : list Z) : Z := fold_right Z.add 0 l.

(* histories of a collection of pending items: an item is put in, or the most
   recent is asked for with the given answer *)
Inductive qev (A : Type) := Put (m : A) | Get (r : option A).
Arguments Put {A} m.
Arguments Get {A} r.
(* everything put in during the history was also taken out during it, last in
   first out *)
Inductive balanced {A} : list (qev A) -> Prop :=
| bal_nil : balanced []
| bal_pair : forall m h, balanced h -> balanced (Put m :: h ++ [Get (Some m)])
| bal_app : forall h1 h2, balanced h1 -> balanced h2 -> balanced (h1 ++ h2).
Definition puts {A} (h : list (qev A)) : list A := flat_map (fun e => match e with Put m => [m] | _ => [] end) h.
Definition gots {A} (h : list (qev A)) : list A := flat_map (fun e => match e with Get (Some m) => [m] | _ => [] end) h.
