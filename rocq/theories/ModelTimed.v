(* pkg/peer/peer.go:165-275 and 309-323 with a clock.                           *)
From Coq Require Import Floats.SpecFloat.
From Verif Require Import Base ModelFloat ModelPeer ModelSystem.

(* All times are in ns. *)
Definition second : Z := 1000000000.
(* pkg/gotitnet/connection.go:13-17 *)
Definition PeerTimeout : Z := 1 * second.

(* ---------- checkKeepAlive, 309-319 ---------- *)
(* time.Duration.Minutes of Go: whole minutes plus the rest by a float division *)
Definition minute : Z := 60 * second.
Definition f64_add := SFadd 53 1024.
Definition Minutes (d : Z) : spec_float := f64_add (f64_of (d / minute)) (f64_div (f64_of (d mod minute)) (f64_of minute)).
(* the constant 1.9: the float nearest to 19/10 *)
Definition c1_9 : spec_float := f64_div (f64_of 19) (f64_of 10).
Definition due (d : Z) : bool := SFleb c1_9 (Minutes d).
(* time.Since saturates at the largest Duration *)
Definition Since (now t : Z) : Z := Z.min (now - t) (2 ^ 63 - 1).

(* ---------- newDefaultBackoff, 156-163 ---------- *)
(* github.com/jpillora/backoff v1.0.0: Duration of attempt n is rand*(d-Min)+Min with
   d = Min*Factor^n and rand in [0,1), cut to Max.  Modelled: any value in between. *)
Definition bo_min : Z := 100000000.
Definition bo_max : Z := 30 * second.
Definition backoff_at (n d : Z) : Prop := bo_min <= d <= Z.min bo_max (bo_min * 2 ^ n).

(* ---------- Run with a clock ---------- *)
(* x_last: lastMsgSent; x_att: attempts of the Backoff in use (166 or 238) *)
Record tstate := mkX { x_r : rstate; x_now : Z; x_last : Z; x_att : Z }.

(* How long a step may take.  lag: how late the scheduler may be.  Reads and writes
   end by their deadline (connection.go:118-124).  A send to the writer's channel
   takes until there is room.                                                   *)
Definition may_take (lag : Z) (i : inp) (x : tstate) (el : Z) : Prop :=
  match r_pc (x_r x) with
  | PKeep => 0 <= el <= (if i_due i then PeerTimeout else 0) + lag
  | PUSend | PURead | PSend | PRead => 0 <= el <= PeerTimeout + lag
  | PUWait | PSendWait | PReadWait =>
      exists d, backoff_at (x_att x) d /\ el <= d + lag /\ if i_timer i then d <= el else 0 <= el
  | PNil => el <= 2 * second + lag /\ if i_timer i then 2 * second <= el else 0 <= el
  | PPut _ _ => 0 <= el
  | _ => 0 <= el <= lag
  end.
(* b := newDefaultBackoff() in 166 and 238, b.Duration() before each wait, b.Reset() in 262 and 278 *)
Definition next_att (x : tstate) (es : list event) : Z :=
  match r_pc (x_r x) with
  | PChoke | PReq => 0
  | PSend | PRead => match es with [ESent _] | [EReadOk _] => 0 | _ => x_att x end
  | PUWait | PSendWait | PReadWait => x_att x + 1
  | _ => x_att x
  end.
(* 315 updateLastMsgSent after a keep-alive was sent, and nowhere else but in connect *)
Definition next_last (x : tstate) (es : list event) (now : Z) : Z :=
  match r_pc (x_r x), es with PKeep, [ESent _] => now | _, _ => x_last x end.

(* One step; the shared state is whatever the other goroutines made of it. *)
Record tinp := mkTI { ti_sh : shared; ti_i : inp; ti_el : Z }.
Definition txstep (sha1 : bytes -> bytes) (lag : Z) (a : tinp) (x : tstate) (es : list event) (x' : tstate) : Prop :=
  i_due (ti_i a) = due (Since (x_now x) (x_last x)) /\ may_take lag (ti_i a) x (ti_el a) /\
  exists s' r', pstep sha1 (ti_i a) (ti_sh a) (x_r x) = Some (s', r', es) /\
    x' = mkX r' (x_now x + ti_el a) (next_last x es (x_now x + ti_el a)) (next_att x es).
(* an execution: each step with the state before, its input, its events and the state after *)
Record tstep := mkTS { t_from : tstate; t_in : tinp; t_es : list event; t_to : tstate }.
Inductive texec (sha1 : bytes -> bytes) (lag : Z) : tstate -> list tstep -> tstate -> Prop :=
| te_nil x : texec sha1 lag x [] x
| te_snoc x0 tr x a es x' : texec sha1 lag x0 tr x -> txstep sha1 lag a x es x' -> texec sha1 lag x0 (tr ++ [mkTS x a es x']) x'.
