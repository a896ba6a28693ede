(* How elements are written for people.                                         *)
From Verif Require Import Base ModelBencode.

(* the elements between brackets, one per line, each one tab deeper than the brackets *)
Definition tabs (d : nat) : bytes := repeat 9 d.
Definition brackets (o c : Z) (d : nat) (items : list bytes) : bytes :=
  match items with
  | [] => [o; c]
  | _ => [o] ++ flat_map (fun i => [10] ++ tabs (S d) ++ i ++ [44]) items ++ [10] ++ tabs d ++ [c]
  end.
Definition present (b : ben) : bool := match b with BNil => false | _ => true end.
(* restart: the elements whose indentation begins anew *)
Fixpoint show (restart : bool -> bool) (d : nat) (b : ben) : bytes :=
  match b with
  | BNil => []
  | BInt n => itoa n
  | BStr s => s
  | BList p v _ =>
      let d' := if restart p then O else d in
      brackets 91 93 d' (flat_map (fun x => if present x then [show restart (S d') x] else []) v)
  | BDict p m _ =>
      let d' := if restart p then O else d in
      brackets 123 125 d' (flat_map (fun kv => if present (snd kv) then [fst kv ++ [58; 32] ++ show restart (S d') (snd kv)] else []) m)
  end.
(* every element one tab deeper than the one it is in *)
Definition nested : nat -> ben -> bytes := show (fun _ => false).
(* the same, except that an element made by the parser starts at the margin *)
Definition restarted : nat -> ben -> bytes := show (fun p => p).
Definition text (b : ben) : bytes := restarted 0 b.

(* not made by the parser, at no depth *)
Inductive built : ben -> Prop :=
| bu_nil : built BNil
| bu_int n : built (BInt n)
| bu_str s : built (BStr s)
| bu_list v raw : Forall built v -> built (BList false v raw)
| bu_dict m raw : Forall (fun kv => built (snd kv)) m -> built (BDict false m raw).
