(* Vocabulary for statements about the times of announces and connection attempts. *)
From Verif Require Import Base ModelTracker ModelManager ModelClock SpecTimed.

(* goroutine j has just been started *)
Definition fresh (j : nat) (x : mstate) : Prop := g_started (m_g x) = true /\ nth_error (g_trk (m_g x)) j = Some TNew.

(* ---------- announces ---------- *)
(* one request to the tracker: when it began and ended, if it succeeded, and the
   interval in force after it according to the tracker's answers, not to the program *)
Record call := mkCall { k_start : Z; k_end : Z; k_ok : bool; k_int : Z }.
Definition calls_of (s : mstep) : list call :=
  flat_map (fun e => match e with GAnn _ ok => [mkCall (ms_from s) (ms_to s) ok (mi_int (ms_in s))] | _ => [] end) (ms_es s).
Definition calls (tr : list mstep) : list call := flat_map calls_of tr.
(* how many of the latest requests failed in a row *)
Definition streak (l : list call) : nat := fold_left (fun n k => if k_ok k then 0%nat else S n) l 0%nat.
(* how long to leave the tracker alone after the requests l, the last one being k:
   after the first four failures 1, 2, 4 and 8 seconds, else the interval; five
   failures end a round, and the next ones are counted anew *)
Definition pause (l : list call) (k : call) : Z :=
  let n := Nat.modulo (streak (l ++ [k])) 5 in
  if Nat.eqb n 0 then Z.max 0 (k_int k) else sec * 2 ^ Z.of_nat (n - 1).

(* ---------- addresses ---------- *)
Definition is_add (e : gev) : bool := match e with GAdd _ _ _ => true | _ => false end.
Definition is_dial (e : gev) : bool := match e with GDial _ _ => true | _ => false end.
Definition is_ann (e : gev) : bool := match e with GAnn _ _ => true | _ => false end.
Definition happens (f : gev -> bool) (s : mstep) : bool := existsb f (ms_es s).
(* how often the address taken up last was tried *)
Definition tries (tr : list mstep) : nat :=
  fold_left (fun n s => if happens is_add s then 0%nat else if happens is_dial s then S n else n) tr 0%nat.
(* how many addresses of a reply were taken up in these steps *)
Definition taken (tr : list mstep) : Z := zlen (filter (happens is_add) tr).
(* when connection attempts began *)
Definition dial_starts (tr : list mstep) : list Z := map ms_from (filter (happens is_dial) tr).
(* no announce in these steps *)
Definition no_ann (tr : list mstep) : Prop := forall s, In s tr -> happens is_ann s = false.
(* a download with one tracker has just begun *)
Definition start (limit : Z) : mstate := mkMx (fst (gexec (XDownload 1) (NewMng limit))) 0 (60 * sec).
(* an address that can be dialled *)
Definition dialable (a : addrport) : Prop := a <> None.
