(* The scheme of a URL (RFC 3986, 3.1). *)
From Verif Require Import Base.

Definition is_alpha (c : Z) : Prop := 97 <= c <= 122 \/ 65 <= c <= 90.
Definition is_more (c : Z) : Prop := is_alpha c \/ 48 <= c <= 57 \/ c = 43 \/ c = 45 \/ c = 46.
Inductive scheme_of : bytes -> bytes -> Prop :=
| sch c s rest : is_alpha c -> Forall is_more s -> scheme_of ((c :: s) ++ [58] ++ rest) (c :: s).
(* the same but for upper and lower case *)
Definition any_case (s : bytes) (name : bytes) : Prop := Forall2 (fun c n => c = n \/ (65 <= c <= 90 /\ n = c + 32)) s name.
(* no control characters, at least up to the fragment *)
Definition clean (u : bytes) : Prop := forall a c b, u = a ++ c :: b -> c < 32 \/ c = 127 -> In 35 a.
