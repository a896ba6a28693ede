(* Messages that tell the client nothing: keep-alives, ids BEP 3 does not know,
   requests and cancels (the client serves nobody).                            *)
From Verif Require Import Base.

Definition tells_nothing (b : bytes) : Prop :=
  b = [] \/ exists id payload, b = id :: payload /\ (8 < id \/ (id = 6 \/ id = 8) /\ 12 <= zlen payload).
