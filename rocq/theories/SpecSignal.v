(* Courses with signals (C172).                                                *)
From Verif Require Import Base ModelClient.
Definition no_signal (a : cact) : bool := match a with KSignal => false | _ => true end.
