(* Vocabulary for statements about the pool of peers.                          *)
From Verif Require Import Base ModelTracker ModelManager.

(* what netip makes of an address: four bytes, a port of 16 bits *)
Definition ap_ok (a : addrport) : Prop :=
  match a with
  | None => True
  | Some (V4 b, p) => length b = 4%nat /\ Forall is_byte b /\ 0 <= p < 65536
  | Some (V6 _, p) => 0 <= p < 65536
  end.
Definition act_ok (a : gact) : Prop :=
  match a with XTrk _ i => forall ips, i_ann i = AnnOk ips -> Forall ap_ok ips | _ => True end.

(* addresses for which AddPeer returned true, in order *)
Fixpoint added (tr : list gev) : list addrport :=
  match tr with
  | [] => []
  | GAdd _ a true :: tr' => a :: added tr'
  | _ :: tr' => added tr'
  end.
(* connection attempts to peer k, announces of tracker j, connection attempts and peers started by tracker goroutine j *)
Definition dials (k : nat) (tr : list gev) : nat := length (filter (fun e => match e with GDial _ k' => Nat.eqb k' k | _ => false end) tr).
Definition anns (j : nat) (tr : list gev) : nat := length (filter (fun e => match e with GAnn j' _ => Nat.eqb j' j | _ => false end) tr).
Definition dials_by (j : nat) (tr : list gev) : nat := length (filter (fun e => match e with GDial j' _ => Nat.eqb j' j | _ => false end) tr).
Definition runs_by (j : nat) (tr : list gev) : nat := length (filter (fun e => match e with GRun j' _ => Nat.eqb j' j | _ => false end) tr).

Definition in_pool (g : mgr) (a : addrport) : Prop :=
  exists m key k p, g_pool g = Some m /\ In (key, k) m /\ nth_error (g_peers g) k = Some p /\ mp_addr p = a.
Definition announce_failed (p : mpeer) : bool := match mp_state p with PsFailed => true | _ => false end.
(* the entries of the pool whose announce did not fail *)
Definition alive (g : mgr) : list (bytes * nat) :=
  match g_pool g with
  | Some m => filter (fun e => match nth_error (g_peers g) (snd e) with Some p => negb (announce_failed p) | None => false end) m
  | None => []
  end.
(* the peer a tracker goroutine is announcing to *)
Definition owner (c : tpc) : option nat :=
  match c with TPStart k _ | TPDial k _ _ | TPShake k _ _ | TPBack k _ _ => Some k | _ => None end.
(* peers whose Run has not returned *)
Definition at_work (p : mpeer) : bool := match mp_state p with PsRun => true | _ => false end.
Definition working (g : mgr) : Z := zlen (filter at_work (g_peers g)).
(* the state after n actions of a schedule; tracker j gets its turn again and again *)
Definition gafter (f : nat -> gact) (n : nat) (g : mgr) : mgr := fst (grun (map f (seq 0 n)) g).
Definition often (j : nat) (f : nat -> gact) : Prop := forall n, exists m i, (n <= m)%nat /\ f m = XTrk j i.
Definition failed_in (g : mgr) (a : addrport) : Prop := exists k p, nth_error (g_peers g) k = Some p /\ mp_addr p = a /\ mp_state p = PsFailed.
