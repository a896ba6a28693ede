(* pkg/download/manager.go:80-177 with a clock: one tracker goroutine.           *)
From Verif Require Import Base ModelTracker ModelSystem ModelTimed ModelManager.

(* All times are in ns.  pkg/gotitnet/connection.go:13-17 *)
Definition DialTimeout : Z := 2 * second.

(* BackOffDelay of retry-go v3.0.0: the delay shifted by the number of the failed
   attempt, counted from 0 and cut so that the shift cannot overflow.  The delay
   type is the only one (140, 160), so there is no jitter.                      *)
Definition maxBackOffN (delay : Z) : Z := 62 - Z.log2 delay.
Definition BackOffDelay (delay n : Z) : Z :=
  let delay := if delay <=? 0 then 1 else delay in
  Z.shiftl delay (Z.min n (maxBackOffN delay)).
(* 139: retry.Delay(time.Second) *)
Definition tracker_delay (n : nat) : Z := BackOffDelay second (Z.of_nat n).
(* 159: retry.Delay(500) *)
Definition peer_delay (n : nat) : Z := BackOffDelay 500 (Z.of_nat n).

(* m_int: the interval of the tracker (tracker.go:14-16), m_now: the clock *)
Record mstate := mkMx { m_g : mgr; m_now : Z; m_int : Z }.

(* a wait of d, cut short (timer = false) when the context is done *)
Definition waits (lag d : Z) (timer : bool) (el : Z) : Prop := el <= d + lag /\ if timer then d <= el else 0 <= el.
(* How long a step may take.  lag: how late the scheduler may be.  An announce takes
   any time (http.DefaultClient has no timeout).  Dialling ends by DialTimeout
   (connection.go:28), the writing and the reading of the handshake by PeerTimeout each. *)
Definition takes (lag : Z) (c : tpc) (i : tin) (interval el : Z) : Prop :=
  match c with
  | TNew => 0 <= el <= DialTimeout + lag
  | TTry _ => 0 <= el
  | TBack n => waits lag (tracker_delay n) (i_timer i) el
  | TPDial _ _ _ => 0 <= el <= DialTimeout + lag
  | TPShake _ _ _ => 0 <= el <= 2 * PeerTimeout + lag
  | TPBack _ n _ => waits lag (peer_delay n) (i_timer i) el
  | TWait => waits lag (Z.max 0 interval) (i_timer i) el
  | _ => 0 <= el <= lag
  end.
(* an announce may set the interval, even one that fails (http_tracker.go:122) *)
Definition next_int (c : tpc) (interval new : Z) : Z := match c with TTry _ => new | _ => interval end.

(* An action of another goroutine or from the outside. *)
Definition foreign (j : nat) (a : gact) : Prop := match a with XTrk j' _ => j' <> j | _ => True end.
(* One step of goroutine j, after what the others have done. *)
Record minp := mkMI { mi_others : list gact; mi_i : tin; mi_el : Z; mi_int : Z }.
Definition mxstep (lag : Z) (j : nat) (a : minp) (x : mstate) (c : tpc) (es : list gev) (x' : mstate) : Prop :=
  Forall (foreign j) (mi_others a) /\
  exists g0 tr0 g', grun (mi_others a) (m_g x) = (g0, tr0) /\ g_panic g0 = false /\
    nth_error (g_trk g0) j = Some c /\ takes lag c (mi_i a) (m_int x) (mi_el a) /\
    tstep g0 j c (mi_i a) = Some (g', es) /\ g_panic g' = false /\
    x' = mkMx g' (m_now x + mi_el a) (next_int c (m_int x) (mi_int a)).
(* an execution: each step with the clock before and after, its events and the interval after it *)
Record mstep := mkMS { ms_from : Z; ms_pc : tpc; ms_in : minp; ms_es : list gev; ms_to : Z; ms_int : Z }.
Inductive mexec (lag : Z) (j : nat) : mstate -> list mstep -> mstate -> Prop :=
| me_nil x : mexec lag j x [] x
| me_snoc x0 tr x a c es x' : mexec lag j x0 tr x -> mxstep lag j a x c es x' ->
    mexec lag j x0 (tr ++ [mkMS (m_now x) c a es (m_now x') (m_int x')]) x'.
