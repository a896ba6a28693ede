(* pkg/download/manager.go: the pool of peers and the tracker goroutines.       *)
From Verif Require Import Base ModelTracker ModelSystem.

(* ---------- keys of the pool ---------- *)
(* netip.AddrPort.String: "invalid AddrPort", "a.b.c.d:port" or "[text]:port" *)
Definition dotted (b : bytes) : bytes :=
  match b with [x; y; z; t] => utoa x ++ 46 :: utoa y ++ 46 :: utoa z ++ 46 :: utoa t | _ => [] end.
Definition apString (a : addrport) : bytes :=
  match a with
  | None => str "invalid AddrPort"
  | Some (V4 b, p) => dotted b ++ 58 :: utoa p
  | Some (V6 t, p) => 91 :: t ++ 93 :: 58 :: utoa p
  end.

(* ---------- state ---------- *)
(* What became of a peer after AddPeer returned true. *)
Inductive pstate := PsNew | PsFailed | PsRun | PsEnded.
(* mp_conn: Peer.conn (peer.go:38), the number of a connection or nil *)
Record mpeer := mkMp { mp_addr : addrport; mp_conn : option nat; mp_state : pstate }.

(* A tracker goroutine (80-107).  ips are the addresses still to be added.
   retry.Do of retry-go v3.0.0 with Attempts(5), LastErrorOnly and a context, as it
   is called in 121-145 and 149-163: returns ctx.Err() at once if the context is
   done, calls the function, returns nil if it did, and the last error after the
   fifth call; otherwise waits for a timer or ctx.Done, which it returns.       *)
Inductive tpc :=
| TNew                                          (* 81 *)
| TStart                                        (* 121: retry.Do looks at ctx.Err() *)
| TTry (n : nat)                                (* 131: call n of Announce *)
| TBack (n : nat)                               (* retry.Do: timer or ctx.Done *)
| TInit (ips : list addrport)                   (* 111-116: the next AddPeer *)
| TPStart (k : nat) (ips : list addrport)       (* 149: retry.Do looks at ctx.Err() *)
| TPDial (k n : nat) (ips : list addrport)      (* peer.go:124 *)
| TPShake (k n : nat) (ips : list addrport)     (* peer.go:139-154 *)
| TPBack (k n : nat) (ips : list addrport)      (* retry.Do: timer or ctx.Done *)
| TWait                                         (* 103 *)
| TEnd.

(* g_limit: peerNum, g_started: cancelCtx is set (55), g_cancel: the context is
   done, g_pool: peerPool, None once it is nil, with the numbers of the peers;
   g_conns: all connections ever opened, true while open; g_num: PeerNum;
   g_stop: a call of Stop is between line 198 and 200; g_panic: a goroutine has
   panicked.                                                                   *)
Record mgr := mkMgr {
  g_limit : Z;
  g_started : bool;
  g_cancel : bool;
  g_pool : option (list (bytes * nat));
  g_peers : list mpeer;
  g_conns : list bool;
  g_trk : list tpc;
  g_num : Z;
  g_stop : bool;
  g_panic : bool
}.

(* 38-52 NewMng *)
Definition NewMng (peerNum : Z) : mgr := mkMgr peerNum false false (Some []) [] [] [] 0 false false.

Definition set_trk (g : mgr) (k : nat) (c : tpc) : mgr :=
  mkMgr (g_limit g) (g_started g) (g_cancel g) (g_pool g) (g_peers g) (g_conns g) (upd (g_trk g) k c) (g_num g) (g_stop g) (g_panic g).
Definition set_peers (g : mgr) (ps : list mpeer) : mgr :=
  mkMgr (g_limit g) (g_started g) (g_cancel g) (g_pool g) ps (g_conns g) (g_trk g) (g_num g) (g_stop g) (g_panic g).
Definition set_num (g : mgr) (n : Z) : mgr :=
  mkMgr (g_limit g) (g_started g) (g_cancel g) (g_pool g) (g_peers g) (g_conns g) (g_trk g) n (g_stop g) (g_panic g).
Definition set_panic (g : mgr) : mgr :=
  mkMgr (g_limit g) (g_started g) (g_cancel g) (g_pool g) (g_peers g) (g_conns g) (g_trk g) (g_num g) (g_stop g) true.

(* a Go map with string keys *)
Fixpoint pool_get (m : list (bytes * nat)) (k : bytes) : option nat :=
  match m with [] => None | (k', v) :: m' => if beq k' k then Some v else pool_get m' k end.

(* 216-227 AddPeer of a new peer with address a; peers get consecutive numbers.
   Reading a nil map finds nothing, writing to it panics.                      *)
Definition AddPeer (g : mgr) (a : addrport) : res (mgr * bool) :=
  match g_pool g with
  | None => Panic
  | Some m =>
      match pool_get m (apString a) with
      | Some _ => Ok (g, false)
      | None =>
          Ok (mkMgr (g_limit g) (g_started g) (g_cancel g) (Some (m ++ [(apString a, length (g_peers g))]))
                (g_peers g ++ [mkMp a None PsNew]) (g_conns g) (g_trk g) (u64 (g_num g + 1)) (g_stop g) (g_panic g), true)
      end
  end.

(* 165-171: the peer could not be announced to; it stays in the pool *)
Definition peer_failed (g : mgr) (k : nat) : mgr :=
  match nth_error (g_peers g) k with
  | Some p => set_num (set_peers g (upd (g_peers g) k (mkMp (mp_addr p) (mp_conn p) PsFailed))) (u64 (g_num g - 1))
  | None => g
  end.
(* after a failed attempt n: the last one ends retry.Do *)
Definition after_failure (g : mgr) (j k n : nat) (ips : list addrport) : mgr :=
  if Nat.eqb n 4 then set_trk (peer_failed g k) j (TInit ips) else set_trk g j (TPBack k n ips).

(* What the world decides in one step of a tracker goroutine.  i_ann: outcome of
   Announce; an error may be context.Canceled only once the context is done.   *)
Inductive ann := AnnOk (ips : list addrport) | AnnErr | AnnCanceled | AnnPanic.
Record tin := mkTin { i_new : bool; i_ann : ann; i_timer : bool; i_dial : bool; i_shake : bool }.

(* What happens on the outside. *)
Inductive gev :=
| GRound (j : nat)                              (* announceToTracker starts *)
| GAnn (j : nat) (ok : bool)                    (* one Announce to the tracker *)
| GAdd (j : nat) (a : addrport) (added : bool)
| GDial (j k : nat)                             (* one connection attempt to the peer *)
| GRun (j k : nat).                             (* go peer.Run *)

(* One step of tracker goroutine j at c; None: blocked or ended. *)
Definition tstep (g : mgr) (j : nat) (c : tpc) (i : tin) : option (mgr * list gev) :=
  match c with
  | TNew => Some (set_trk g j (if i_new i then TStart else TEnd), [])
  | TStart => if g_cancel g then Some (set_trk g j TEnd, []) else Some (set_trk g j (TTry 0), [GRound j])
  | TTry n =>
      match i_ann i with
      | AnnOk ips => Some (set_trk g j (TInit ips), [GAnn j true])
      | AnnPanic => Some (set_panic g, [GAnn j false])
      | AnnCanceled =>
          Some (set_trk g j (if Nat.eqb n 4 then if g_cancel g then TEnd else TWait else TBack n), [GAnn j false])
      | AnnErr => Some (set_trk g j (if Nat.eqb n 4 then TWait else TBack n), [GAnn j false])
      end
  | TBack n =>
      if i_timer i then Some (set_trk g j (TTry (S n)), [])
      else if g_cancel g then Some (set_trk g j TEnd, []) else None
  | TInit [] => Some (set_trk g j TWait, [])
  | TInit (a :: ips) =>
      match AddPeer g a with
      | Ok (g', true) => Some (set_trk g' j (TPStart (length (g_peers g)) ips), [GAdd j a true])
      | Ok (g', false) => Some (set_trk g' j (TInit ips), [GAdd j a false])
      | _ => Some (set_panic g, [])
      end
  | TPStart k ips => if g_cancel g then Some (set_trk (peer_failed g k) j (TInit ips), []) else Some (set_trk g j (TPDial k 0 ips), [])
  | TPDial k n ips =>
      match nth_error (g_peers g) k with
      | None => None
      | Some p =>
          (* net.Dial rejects the string of an invalid address *)
          if i_dial i && match mp_addr p with None => false | Some _ => true end then
            Some (mkMgr (g_limit g) (g_started g) (g_cancel g) (g_pool g)
                    (upd (g_peers g) k (mkMp (mp_addr p) (Some (length (g_conns g))) (mp_state p)))
                    (g_conns g ++ [true]) (upd (g_trk g) j (TPShake k n ips)) (g_num g) (g_stop g) (g_panic g), [GDial j k])
          else
            Some (after_failure (set_peers g (upd (g_peers g) k (mkMp (mp_addr p) None (mp_state p)))) j k n ips, [GDial j k])
      end
  | TPShake k n ips =>
      if i_shake i then
        match nth_error (g_peers g) k with
        | Some p => Some (set_trk (set_peers g (upd (g_peers g) k (mkMp (mp_addr p) (mp_conn p) PsRun))) j (TInit ips), [GRun j k])
        | None => None
        end
      else Some (after_failure g j k n ips, [])
  | TPBack k n ips =>
      if i_timer i then Some (set_trk g j (TPDial k (S n) ips), [])
      else if g_cancel g then Some (set_trk (peer_failed g k) j (TInit ips), []) else None
  | TWait =>
      if i_timer i then Some (set_trk g j TStart, [])
      else if g_cancel g then Some (set_trk g j TEnd, []) else None
  | TEnd => None
  end.

(* peer.go:305-307 Close: a nil connection panics (connection.go:107
   reads c.c of a nil pointer), closing a closed one is an error that is only logged.             *)
Definition conn_of (g : mgr) (k : nat) : option nat := match nth_error (g_peers g) k with Some p => mp_conn p | None => None end.
Fixpoint close_all (g : mgr) (m : list (bytes * nat)) (cs : list bool) : option (list bool) :=
  match m with
  | [] => Some cs
  | (_, k) :: m' => match conn_of g k with Some c => close_all g m' (upd cs c false) | None => None end
  end.

(* 194-199 Stop: a nil cancelCtx panics.  Simplified: one call of Stop at a time. *)
Definition stop_check (g : mgr) : mgr :=
  match g_pool g with
  | None => g
  | Some _ =>
      if g_started g then mkMgr (g_limit g) true true (g_pool g) (g_peers g) (g_conns g) (g_trk g) (g_num g) true (g_panic g)
      else set_panic g
  end.
(* 200-209, under the lock; Go visits the map in any order, which makes no
   difference to the resulting state unless one Close panics.  Not modelled: the progress printer. *)
Definition stop_close (g : mgr) : mgr :=
  let m := match g_pool g with Some m => m | None => [] end in
  match close_all g m (g_conns g) with
  | None => set_panic g
  | Some cs => mkMgr (g_limit g) (g_started g) (g_cancel g) None (g_peers g) cs (g_trk g) (g_num g) false (g_panic g)
  end.

Inductive gact :=
| XDownload (n : nat)           (* 54-62 with n trackers *)
| XTrk (j : nat) (i : tin)
| XRunEnd (k : nat)             (* peer.Run returns *)
| XCancel                       (* the context given to Download is cancelled *)
| XStop                         (* Stop is called *)
| XStopClose.                   (* ... and gets the lock *)

Definition gexec (a : gact) (g : mgr) : mgr * list gev :=
  if g_panic g then (g, [])
  else
    match a with
    | XDownload n =>
        if g_started g then (g, [])
        else (mkMgr (g_limit g) true (g_cancel g) (g_pool g) (g_peers g) (g_conns g) (repeat TNew n) (g_num g) (g_stop g) false, [])
    | XTrk j i =>
        match nth_error (g_trk g) j with
        | Some c => match tstep g j c i with Some r => r | None => (g, []) end
        | None => (g, [])
        end
    | XRunEnd k =>
        match nth_error (g_peers g) k with
        | Some p => match mp_state p with
                    | PsRun => (set_peers g (upd (g_peers g) k (mkMp (mp_addr p) (mp_conn p) PsEnded)), [])
                    | _ => (g, [])
                    end
        | None => (g, [])
        end
    | XCancel => (mkMgr (g_limit g) (g_started g) true (g_pool g) (g_peers g) (g_conns g) (g_trk g) (g_num g) (g_stop g) false, [])
    | XStop => if g_stop g then (g, []) else (stop_check g, [])
    | XStopClose => if g_stop g then (stop_close g, []) else (g, [])
    end.

Fixpoint grun (l : list gact) (g : mgr) : mgr * list gev :=
  match l with
  | [] => (g, [])
  | a :: l' =>
      let '(g1, e1) := gexec a g in
      let '(g2, e2) := grun l' g1 in
      (g2, e1 ++ e2)
  end.
