(* Vocabulary for statements about what becomes of the addresses a tracker names. *)
From Verif Require Import Base ModelTracker ModelManager SpecManager.

(* the addresses tracker goroutine j has offered to the pool, in order *)
Fixpoint offered (j : nat) (tr : list gev) : list addrport :=
  match tr with
  | [] => []
  | GAdd j' a _ :: tr' => if Nat.eqb j' j then a :: offered j tr' else offered j tr'
  | _ :: tr' => offered j tr'
  end.
(* the goroutine is between two rounds, or has ended *)
Definition between (c : tpc) : Prop := match c with TWait | TStart | TEnd => True | _ => False end.
(* the goroutine has been through connecting to peer k, attempts included *)
Definition busy_with (g : mgr) (k : nat) : Prop := exists j c, nth_error (g_trk g) j = Some c /\ owner c = Some k.
