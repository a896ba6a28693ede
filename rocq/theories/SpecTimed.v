(* Vocabulary for statements about a peer's timing.                             *)
From Verif Require Import Base ModelMsg ModelTorrent ModelPeer ModelSystem ModelTimed.

(* in nanoseconds *)
Definition sec : Z := 1000000000.
Definition ms : Z := 1000000.
(* the policy of newDefaultBackoff: the (n+1)-th delay is between 100 ms and 100 ms doubled n times, at most 30 s *)
Definition policy (n d : Z) : Prop := 100 * ms <= d <= Z.min (30 * sec) (100 * ms * 2 ^ n).
(* the goroutine has not ended *)
Definition running (x : tstate) : Prop := r_pc (x_r x) <> PRet /\ r_pc (x_r x) <> PPanic.
(* a write was attempted *)
Definition is_write (e : event) : bool := match e with ESent _ | ESendErr _ => true | _ => false end.
Definition is_failure (e : event) : bool := match e with ESendErr _ | EReadErr => true | _ => false end.
(* the end of the latest write attempt; t0: that of the handshake *)
Fixpoint last_write (t0 : Z) (tr : list tstep) : Z :=
  match tr with
  | [] => t0
  | s :: tr' => last_write (if existsb is_write (t_es s) then x_now (t_to s) else t0) tr'
  end.
(* sends to the writer do not take longer than lag *)
Definition unblocked (lag : Z) (tr : list tstep) : Prop :=
  forall s m, In s tr -> In (EPut m) (t_es s) -> ti_el (t_in s) <= lag.
(* checkKeepAlive has sent a keep-alive; the end of its latest sending *)
Definition keeps (s : tstep) : bool := match r_pc (x_r (t_from s)), t_es s with PKeep, [ESent _] => true | _, _ => false end.
Fixpoint last_keep (t0 : Z) (tr : list tstep) : Z :=
  match tr with
  | [] => t0
  | s :: tr' => last_keep (if keeps s then x_now (t_to s) else t0) tr'
  end.
(* nothing can be sent or received any more *)
Definition dead (s : tstep) : Prop := i_ok (ti_i (t_in s)) = false /\ i_read (ti_i (t_in s)) = None.
(* neither cancelled nor complete *)
Definition open (s : tstep) : Prop := sh_cancel (ti_sh (t_in s)) = false /\ Done (sh_t (ti_sh (t_in s))) = false.
Definition choked (x : tstate) : bool := s_choked (cl_status (r_peer (x_r x))).
Definition failures (tr : list tstep) : Z := zlen (filter is_failure (flat_map t_es tr)).
(* how long the waits after failures in Run and in unchoke took that were not interrupted *)
Definition timed_out (s : tstep) : bool := i_timer (ti_i (t_in s)).
Definition in_run (s : tstep) : bool := match r_pc (x_r (t_from s)) with PSendWait | PReadWait => timed_out s | _ => false end.
Definition in_unchoke (s : tstep) : bool := match r_pc (x_r (t_from s)) with PUWait => timed_out s | _ => false end.
Definition run_waits (tr : list tstep) : list Z := map (fun s => ti_el (t_in s)) (filter in_run tr).
Definition unchoke_waits (tr : list tstep) : list Z := map (fun s => ti_el (t_in s)) (filter in_unchoke tr).
(* one call of unchoke: none of its steps is in the loop of Run *)
Definition inside_unchoke (s : tstep) : Prop := match r_pc (x_r (t_from s)) with PUTop | PUSend | PURead | PUWait => True | _ => False end.
(* Run has just been called: connected (and lastMsgSent set) at most three seconds ago, the handshake sent at t0 *)
Definition begun (x : tstate) (t0 : Z) : Prop := r_pc (x_r x) = PTop /\ x_last x <= t0 <= x_now x /\ x_now x <= x_last x + 3 * sec.
