(* What a path means to the operating system (no symbolic links): walking the
   directory tree component by component.                                      *)
From Verif Require Import Base.

(* a place in the tree: the names from the root *)
Definition place := list bytes.

(* one component: "" and "." stay, ".." goes up (the root is its own parent) *)
Definition step (p : place) (c : bytes) : place :=
  match c with
  | [] => p
  | [46] => p
  | [46; 46] => removelast p
  | _ => p ++ [c]
  end.

(* the components of a path string *)
Inductive components : bytes -> list bytes -> Prop :=
| comp_last : forall c, ~ In 47 c -> components c [c]
| comp_more : forall c s l, ~ In 47 c -> components s l -> components (c ++ 47 :: s) (c :: l).

(* resolve path s with working directory cwd *)
Inductive resolves (cwd : place) : bytes -> place -> Prop :=
| res_abs : forall s l, components (47 :: s) l -> resolves cwd (47 :: s) (fold_left step l [])
| res_rel : forall s l, hd 0 s <> 47 -> components s l -> resolves cwd s (fold_left step l cwd).

(* strictly inside the directory d *)
Definition inside (d p : place) : Prop := exists a l, p = d ++ a :: l.

(* an ordinary file name *)
Definition plain_name (c : bytes) : Prop := c <> [] /\ ~ In 47 c /\ c <> [46] /\ c <> [46; 46].
