(* Data races: C107 and C108. *)
From Verif Require Import Base ModelRace SpecRace ProofRace.

(* ---------- C107 ---------- *)
(* The full claim: no data race.  Stop reads the connection of a peer that is being connected. *)
Theorem C107_race_free_refuted : ~ (forall t l i k, possible t -> ~ race t l i k).
Proof. exact race_free_refuted. Qed.
(* That is the only one: all others touch a location in an order. *)
Theorem C107_race_free_partial : forall t l i k, possible t -> race t l i k ->
  exists p x y e, l = LConn p /\ (x = i /\ y = k \/ x = k /\ y = i) /\
    nth_error t x = Some (GMain, Rd (LConn p)) /\ nth_error t y = Some (GTracker (fst (fst p)), Wr (LConn p)) /\
    nth_error t e = Some (GTracker (fst (fst p)), Enter p) /\ (e < x)%nat /\ (e < y)%nat.
Proof. exact races. Qed.
Example C107_ex : possible racing /\ race racing (LConn the_peer) 36 44.
Proof. split; [exact racing_possible|exact racing_race]. Qed.

(* A request made by one peer and sent by another, a piece read by one goroutine and written by another. *)
Example C107_busy : possible busy /\
  nth_error busy 80 = Some (GPeer peer_a, Wr (LBlock (peer_a, 0%nat))) /\ nth_error busy 97 = Some (GPeer peer_b, Rd (LBlock (peer_a, 0%nat))) /\
  nth_error busy 99 = Some (GPeer peer_b, Wr (LPiece (peer_b, 0%nat))) /\ nth_error busy 106 = Some (GWriter, Rd (LPiece (peer_b, 0%nat))).
Proof. split; [exact busy_possible|]. repeat split. Qed.

(* ---------- C108 ---------- *)
(* The full claim, as sync.WaitGroup asks for: Add happens before Wait. *)
Theorem C108_add_before_wait_refuted : ~ (forall t i k g, possible t -> nth_error t i = Some (g, WgAdd) -> nth_error t k = Some (GMain, WgWait) -> hb t i k).
Proof. exact wait_orders_refuted. Qed.
(* It does only if a peer that was started later or at that time has ended before Wait returned. *)
Theorem C108_add_before_wait_exact : forall t i k g, possible t -> nth_error t i = Some (g, WgAdd) -> nth_error t k = Some (GMain, WgWait) -> hb t i k ->
  exists d g', nth_error t d = Some (g', WgDone) /\ (i < d < k)%nat /\ hb t i d.
Proof. exact wait_order. Qed.
Example C108_ex : possible late_add /\ nth_error late_add 41 = Some (GTracker 0, WgAdd) /\ nth_error late_add 12 = Some (GMain, WgWait).
Proof. split; [exact late_possible|split; reflexivity]. Qed.

Print Assumptions C107_race_free_refuted.
Print Assumptions C107_race_free_partial.
Print Assumptions C108_add_before_wait_refuted.
Print Assumptions C108_add_before_wait_exact.
