(* Executions of many goroutines, the order that the Go memory model promises, and
   data races.                                                                  *)
From Verif Require Import Base ModelRace.

Definition gid_eqb (a b : gid) : bool :=
  match a, b with
  | GMain, GMain | GSignal, GSignal | GPrinter, GPrinter | GWriter, GWriter => true
  | GTracker i, GTracker j => Nat.eqb i j
  | GPeer (i, r, n), GPeer (i', r', n') => Nat.eqb i i' && Nat.eqb r r' && Nat.eqb n n'
  | _, _ => false
  end.

Definition trace := list (gid * act).
(* what one goroutine does in a trace *)
Definition own (g : gid) (t : trace) : list act := map snd (filter (fun e => gid_eqb g (fst e)) t).

(* the mutex m is locked after these actions of a goroutine *)
Definition mutex_eqb (a b : mutex) : bool :=
  match a, b with
  | MPool, MPool | MReq, MReq | MDown, MDown => true
  | MFailed i r, MFailed i' r' => Nat.eqb i i' && Nat.eqb r r'
  | _, _ => false
  end.
Definition holds (m : mutex) (w : list act) : bool :=
  fold_left (fun h a => match a with Lock m' => if mutex_eqb m m' then true else h | Unlock m' => if mutex_eqb m m' then false else h | _ => h end) w false.

(* Every goroutine has done the beginning of something it may do; it was started by a go
   statement; a mutex is locked by one goroutine at a time; what is received was sent, what is
   taken from a queue was put there; a context seen done was cancelled; Stop closes peers that were put into the pool; Wait
   returns when the counter is zero.                                             *)
Definition is_add (a : act) : bool := match a with WgAdd => true | _ => false end.
Definition is_done (a : act) : bool := match a with WgDone => true | _ => false end.
Definition number (f : act -> bool) (t : trace) : nat := length (filter (fun e => f (snd e)) t).
Record possible (t : trace) : Prop := {
  po_does : forall g, exists w rest, does g w /\ w = own g t ++ rest;
  po_go : forall i g a, nth_error t i = Some (g, a) -> g <> GMain -> exists k g', (k < i)%nat /\ nth_error t k = Some (g', Go g);
  po_lock : forall i g m, nth_error t i = Some (g, Lock m) -> forall g', holds m (own g' (firstn i t)) = false;
  po_recv : forall i g b, nth_error t i = Some (g, Recv b) -> exists k g', (k < i)%nat /\ nth_error t k = Some (g', Send b);
  po_take : forall i g j r b, nth_error t i = Some (g, Take j r b) -> exists k g', (k < i)%nat /\ nth_error t k = Some (g', Put j r b);
  po_seen : forall i g, nth_error t i = Some (g, Seen) -> exists k g', (k < i)%nat /\ nth_error t k = Some (g', Cancel);
  po_close : forall i p, nth_error t i = Some (GMain, Rd (LConn p)) -> exists k g', (k < i)%nat /\ nth_error t k = Some (g', Enter p);
  po_wait : forall i, nth_error t i = Some (GMain, WgWait) -> number is_add (firstn i t) = number is_done (firstn i t)
}.

(* https://go.dev/ref/mem: the order of a goroutine, the go statement, Unlock before a later
   Lock, send before the receive, Done before Wait, cancellation before it is seen,
   operations of sync/atomic in their order; and the transitive closure.         *)
Inductive hb (t : trace) : nat -> nat -> Prop :=
| hb_own : forall i k g a b, (i < k)%nat -> nth_error t i = Some (g, a) -> nth_error t k = Some (g, b) -> hb t i k
| hb_go : forall i k g g' b, (i < k)%nat -> nth_error t i = Some (g, Go g') -> nth_error t k = Some (g', b) -> hb t i k
| hb_lock : forall i k g g' m, (i < k)%nat -> nth_error t i = Some (g, Unlock m) -> nth_error t k = Some (g', Lock m) -> hb t i k
| hb_send : forall i k g g' b, (i < k)%nat -> nth_error t i = Some (g, Send b) -> nth_error t k = Some (g', Recv b) -> hb t i k
| hb_wg : forall i k g g', (i < k)%nat -> nth_error t i = Some (g, WgDone) -> nth_error t k = Some (g', WgWait) -> hb t i k
| hb_ctx : forall i k g g', (i < k)%nat -> nth_error t i = Some (g, Cancel) -> nth_error t k = Some (g', Seen) -> hb t i k
| hb_atom : forall i k g g', (i < k)%nat -> nth_error t i = Some (g, Atom) -> nth_error t k = Some (g', Atom) -> hb t i k
| hb_trans : forall i k l, hb t i k -> hb t k l -> hb t i l.

(* the location an action touches and whether it writes *)
Definition touches (a : act) : option (loc * bool) :=
  match a with
  | Rd l => Some (l, false)
  | Wr l => Some (l, true)
  | Put j r _ | Take j r _ => Some (LFailed j r, true)
  | Enter _ => Some (LPool, true)
  | _ => None
  end.

(* Two goroutines touch l, at least one writes, and nothing orders them. *)
Definition race (t : trace) (l : loc) (i k : nat) : Prop :=
  exists g a v g' a' v', nth_error t i = Some (g, a) /\ touches a = Some (l, v) /\
    nth_error t k = Some (g', a') /\ touches a' = Some (l, v') /\
    (i < k)%nat /\ g <> g' /\ v || v' = true /\ ~ hb t i k.
