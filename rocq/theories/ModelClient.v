(* One download, from NewMng to the end of the process: pkg/download/manager.go
   with the trackers of pkg/tracker, the peers of pkg/peer, the writer and the
   counters.  The machines of ModelManager (mgr) and ModelSystem (world) run side
   by side, the first starts the peers of the second.                          *)
From Verif Require Import Base ModelBitset ModelMsg ModelTorrent ModelConn ModelStats ModelPeer ModelSystem ModelTracker ModelManager.

(* What does not change: SHA-1, ClientId (peer.go:22), --port and --num-peer, the
   schemes url.Parse finds, the addresses netip.ParseAddr does, and for which
   counters printing the progress panics (PrintBar of ModelStats).             *)
Record conf := mkConf {
  cf_sha1 : bytes -> bytes;
  cf_id : bytes;
  cf_port : Z;
  cf_peers : Z;
  cf_scheme : bytes -> option bytes;
  cf_ip : bytes -> option addr;
  cf_bar : stats -> bool
}.

(* http_tracker.go:27-29; the other two have no use *)
Definition startedEvent : bytes := str "started".
Definition stoppedEvent : bytes := str "stopped".
Definition completedEvent : bytes := str "completed".

(* What tracker.New returned: http_tracker.go:32-40 or udp_tracker.go:37-46. *)
Inductive trk :=
| TrNone
| TrHttp (addr trackerId event : bytes) (interval : Z)
| TrUdp (u : udp).
(* http_tracker.go:42-55; id is uuid.NewString() *)
Definition newHttpTracker (addr id : bytes) : trk := TrHttp addr id startedEvent (60 * second).
(* udp_tracker.go:48-62 *)
Definition newUdpTracker : trk := TrUdp (mkUdp [] 0 (60 * second)).

(* One tracker goroutine beside its place in runTracker (g_trk): its URL, its
   tracker, the counters loaded so far for the next announce (124-128), the number of
   its pieces queue (110); every announce gets a new number.                   *)
Record ctr := mkCtr { ct_url : bytes; ct_trk : trk; ct_loads : list Z; ct_grp : nat }.

(* The writer between taking a message and writing it (torrent.go:177-181). *)
Inductive wpc := WIdle | WAdded (n : Z) | WSubbed.
(* The goroutine that prints the progress (181-192). *)
Inductive ppc := PrRun | PrEnd | PrPanic.

(* c_run: for every peer in Run its number in the pool; c_rounds: how many pieces
   queues there are; c_exit: runDownload has returned                          *)
Record client := mkClient {
  c_mgr : mgr;
  c_wo : world;
  c_run : list nat;
  c_trk : list ctr;
  c_rounds : nat;
  c_cnt : stats;
  c_wr : wpc;
  c_prt : ppc;
  c_exit : bool
}.

(* 38-52 NewMng for torrent t; f is what torrent.New made of the files, outs the
   outcomes of the writes to come, urls the trackers in the order Go ranges over
   the set                                                                     *)
Definition client_start (cf : conf) (t : torrent) (f : fs) (outs : list (option Z)) (urls : list bytes) : client :=
  mkClient (NewMng (cf_peers cf)) (start (mkW t f outs [] false)) []
    (map (fun u => mkCtr u TrNone [] 0) urls) 0 (NewStats (u64 (t_length t))) WIdle PrRun false.

(* What the world decides in a step of a tracker goroutine: the uuid, whether a
   dial or a write succeeds, a timer has expired, and what the connection delivers *)
Record cin := mkCin { x_id : bytes; x_ok : bool; x_timer : bool; x_evs : list ev }.
(* ... and in an announce: the reply of the HTTP tracker and whether its error, if
   it is one, is context.Canceled; or random numbers, whether the first write
   succeeds, and what the socket delivers                                      *)
Inductive reply :=
| RHttp (r : httpres) (canceled : bool)
| RUdp (tx1 tx2 key : Z) (ok : bool) (s : list uev).

(* What can be seen from outside. *)
Inductive cev :=
| VSys (k : nat) (e : event)                          (* peer k in Run *)
| VMgr (e : gev)
| VShake (k : nat) (evs : list ev)                    (* a handshake with peer k of the pool succeeded *)
| VHttp (j : nat) (addr : bytes) (q : list (bytes * bytes)) (ips : option (list addrport))  (* an announce, announce_url addr q; None: it failed *)
| VUdp (j : nat) (ds : list bytes) (ips : option (list addrport)).

Definition dead (c : client) : bool := g_panic (c_mgr c) || crashed (c_wo c) || match c_prt c with PrPanic => true | _ => false end.

Definition sysev (es : list (nat * event)) : list cev := map (fun e => VSys (fst e) (snd e)) es.
(* the context is one for all *)
Definition sync (cf : conf) (g : mgr) (w : world) : world := if g_cancel g then fst (exec (cf_sha1 cf) ACancel w) else w.
Definition with_mgr (cf : conf) (c : client) (r : mgr * list gev) : client * list cev :=
  (mkClient (fst r) (sync cf (fst r) (c_wo c)) (c_run c) (c_trk c) (c_rounds c) (c_cnt c) (c_wr c) (c_prt c) (c_exit c), map VMgr (snd r)).
Definition set_ctr (c : client) (j : nat) (x : ctr) : client :=
  mkClient (c_mgr c) (c_wo c) (c_run c) (upd (c_trk c) j x) (c_rounds c) (c_cnt c) (c_wr c) (c_prt c) (c_exit c).
(* the input of tstep for everything but Announce *)
Definition tin_of (new shake : bool) (x : cin) : tin := mkTin new AnnErr (x_timer x) (x_ok x) shake.

(* 81, tracker.go:28-43 *)
Definition new_tracker (cf : conf) (url : bytes) (x : cin) : trk :=
  match NewTracker (cf_scheme cf url) (x_ok x) with
  | Ok KHttp => newHttpTracker url (x_id x)
  | Ok KUdp => newUdpTracker
  | _ => TrNone
  end.

(* The connection of peer k of the pool has been closed. *)
Definition conn_closed (g : mgr) (k : nat) : bool :=
  match conn_of g k with
  | Some n => match nth_error (g_conns g) n with Some b => negb b | None => false end
  | None => false
  end.
(* peer.go:139-154 on the connection just opened *)
Definition shaken (cf : conf) (c : client) (k : nat) (x : cin) : bool :=
  negb (conn_closed (c_mgr c) k) &&
  match snd (Announce true (x_ok x) (x_evs x) (cf_id cf) (t_hash (sh_t (wo_sh (c_wo c))))) with AOk => true | AErr _ => false end.

(* runTracker and what it calls, except Announce of the tracker *)
Definition ctrk_step (cf : conf) (c : client) (j : nat) (x : cin) : client * list cev :=
  match nth_error (g_trk (c_mgr c)) j, nth_error (c_trk c) j with
  | Some TNew, Some tr =>
      let t := new_tracker cf (ct_url tr) x in
      with_mgr cf (set_ctr c j (mkCtr (ct_url tr) t [] (ct_grp tr)))
        (gexec (XTrk j (tin_of (match t with TrNone => false | _ => true end) false x)) (c_mgr c))
  | Some (TTry _), _ => (c, [])
  | Some (TPShake k n ips), Some tr =>
      let b := shaken cf c k x in
      let '(c1, es) := with_mgr cf c (gexec (XTrk j (tin_of false b x)) (c_mgr c)) in
      if b then                                           (* 174-178 *)
        (mkClient (c_mgr c1) (fst (exec (cf_sha1 cf) (ASpawn false (ct_grp tr)) (c_wo c1))) (c_run c1 ++ [k])
           (c_trk c1) (c_rounds c1) (c_cnt c1) (c_wr c1) (c_prt c1) (c_exit c1), VShake k (x_evs x) :: es)
      else (c1, es)
  | Some _, Some _ => with_mgr cf c (gexec (XTrk j (tin_of false false x)) (c_mgr c))
  | _, _ => (c, [])
  end.

(* 124-128: Download(), Upload() and Left() are loaded one after the other *)
Definition load_step (c : client) (j : nat) : client :=
  match nth_error (g_trk (c_mgr c)) j, nth_error (c_trk c) j with
  | Some (TTry _), Some tr =>
      let put v := set_ctr c j (mkCtr (ct_url tr) (ct_trk tr) (ct_loads tr ++ [v]) (ct_grp tr)) in
      match ct_loads tr with
      | [] => put (st_download (c_cnt c))
      | [_] => put (st_upload (c_cnt c))
      | [_; _] => put (st_left (c_cnt c))
      | _ => c
      end
  | _, _ => c
  end.

(* 130: the announce itself.  canceled matters only if it fails.               *)
Definition ann_of (r : res (list addrport)) (canceled : bool) : ann :=
  match r with
  | Ok ips => AnnOk ips
  | Err _ => if canceled then AnnCanceled else AnnErr
  | Panic | Diverge => AnnPanic
  end.
Definition ips_of (r : res (list addrport)) : option (list addrport) := match r with Ok ips => Some ips | _ => None end.
(* the tracker after an announce, what was sent, the result *)
Definition tracker_announce (cf : conf) (hash : bytes) (j : nat) (t : trk) (d : announceData) (r : reply) : option (trk * cev * ann) :=
  match t, r with
  | TrHttp addr id ev i, RHttp h canceled =>
      let '(i', res) := HttpAnnounce (cf_ip cf) h in
      Some (TrHttp addr id ev (match i' with Some n => n | None => i end),
            VHttp j addr (buildQuery (cf_id cf) id ev hash d) (ips_of res), ann_of res canceled)
  | TrUdp u, RUdp tx1 tx2 key ok s =>
      let '(u', ds, res) := UdpAnnounce u tx1 tx2 key ok hash (cf_id cf) d s in
      Some (TrUdp u', VUdp j ds (ips_of res), ann_of res false)
  | _, _ => None
  end.
Definition ann_step (cf : conf) (c : client) (j : nat) (r : reply) : client * list cev :=
  match nth_error (g_trk (c_mgr c)) j, nth_error (c_trk c) j with
  | Some (TTry _), Some tr =>
      match ct_loads tr with
      | [d; u; l] =>
          match tracker_announce cf (t_hash (sh_t (wo_sh (c_wo c)))) j (ct_trk tr) (mkAnn d u l (cf_port cf)) r with
          | Some (t', e, a) =>
              (* context.Canceled only comes from a cancelled context *)
              let a' := match a with AnnCanceled => if g_cancel (c_mgr c) then AnnCanceled else AnnErr | _ => a end in
              let '(c1, es) := with_mgr cf (set_ctr c j (mkCtr (ct_url tr) t' [] (c_rounds c)))
                                 (gexec (XTrk j (mkTin false a' false false false)) (c_mgr c)) in
              (mkClient (c_mgr c1) (c_wo c1) (c_run c1) (c_trk c1) (S (c_rounds c1)) (c_cnt c1) (c_wr c1) (c_prt c1) (c_exit c1), e :: es)
          | None => (c, [])
          end
      | _ => (c, [])
      end
  | _, _ => (c, [])
  end.

(* a step of the k-th peer in Run; its closed connection delivers and takes nothing.
   175-178: wg.Done follows at once when Run returns                           *)
Definition returned (w : world) (k : nat) : bool :=
  match nth_error (wo_peers w) k with Some r => match r_pc r with PRet => true | _ => false end | None => false end.
Definition peer_step (cf : conf) (c : client) (k : nat) (i : inp) : client * list cev :=
  match nth_error (c_run c) k with
  | Some p =>
      let i' := if conn_closed (c_mgr c) p then mkI (i_due i) false None (ModelPeer.i_timer i) else i in
      let '(w', es) := exec (cf_sha1 cf) (APeer k i') (c_wo c) in
      let g' := if returned w' k then fst (gexec (XRunEnd p) (c_mgr c)) else c_mgr c in
      (mkClient g' w' (c_run c) (c_trk c) (c_rounds c) (c_cnt c) (c_wr c) (c_prt c) (c_exit c), sysev es)
  | None => (c, [])
  end.

(* torrent.go:177-192; Data() of a message is looked at first in 179 *)
Definition writer_step (cf : conf) (c : client) : client :=
  let take w := mkClient (c_mgr c) (fst (exec (cf_sha1 cf) AWriter (c_wo c))) (c_run c) (c_trk c) (c_rounds c) (c_cnt c) w (c_prt c) (c_exit c) in
  let count o w := mkClient (c_mgr c) (c_wo c) (c_run c) (c_trk c) (c_rounds c) (aexec (c_cnt c) o) w (c_prt c) (c_exit c) in
  match wo_hand (c_wo c), c_wr c with
  | None, s => take s
  | Some m, WIdle => match data_of m with Ok d => count (AddDl (zlen d)) (WAdded (zlen d)) | _ => take WIdle end
  | Some _, WAdded n => count (SubLeft n) WSubbed
  | Some _, WSubbed => take WIdle
  end.

(* 181-192; both cases of the select may be ready.  Simplified: the counters are
   loaded at one moment; uilive is left out.                                   *)
Definition print_step (cf : conf) (c : client) (timer : bool) : client :=
  let go p := mkClient (c_mgr c) (c_wo c) (c_run c) (c_trk c) (c_rounds c) (c_cnt c) (c_wr c) p (c_exit c) in
  match c_prt c with
  | PrRun =>
      if timer then if cf_bar cf (c_cnt c) then go PrPanic else c
      else if g_cancel (c_mgr c) then go PrEnd else c
  | _ => c
  end.

(* the goroutine of main: Download (54-68), then the deferred Stop (cmd/download.go:81) *)
Definition main_step (cf : conf) (c : client) : client * list cev :=
  if g_started (c_mgr c) then
    match wo_main (c_wo c) with
    | MRet =>
        match g_pool (c_mgr c) with
        | Some _ => if g_stop (c_mgr c) then with_mgr cf c (gexec XStopClose (c_mgr c)) else with_mgr cf c (gexec XStop (c_mgr c))
        | None => (mkClient (c_mgr c) (c_wo c) (c_run c) (c_trk c) (c_rounds c) (c_cnt c) (c_wr c) (c_prt c) true, [])
        end
    | _ => (mkClient (c_mgr c) (fst (exec (cf_sha1 cf) AMain (c_wo c))) (c_run c) (c_trk c) (c_rounds c) (c_cnt c) (c_wr c) (c_prt c) (c_exit c), [])
    end
  else with_mgr cf c (gexec (XDownload (length (c_trk c))) (c_mgr c)).

Inductive cact :=
| KMain
| KSignal                             (* SIGINT or SIGTERM: cmd/app.go:99 *)
| KTrk (j : nat) (x : cin)
| KLoad (j : nat)
| KAnn (j : nat) (r : reply)
| KPeer (k : nat) (i : inp)
| KWriter
| KPrint (timer : bool).

Definition cexec (cf : conf) (a : cact) (c : client) : client * list cev :=
  if dead c || c_exit c then (c, [])
  else
    match a with
    | KMain => main_step cf c
    | KSignal => with_mgr cf c (gexec XCancel (c_mgr c))
    | KTrk j x => ctrk_step cf c j x
    | KLoad j => (load_step c j, [])
    | KAnn j r => ann_step cf c j r
    | KPeer k i => peer_step cf c k i
    | KWriter => if g_started (c_mgr c) then (writer_step cf c, []) else (c, [])
    | KPrint b => if g_started (c_mgr c) then (print_step cf c b, []) else (c, [])
    end.

Fixpoint crun (cf : conf) (l : list cact) (c : client) : client * list cev :=
  match l with
  | [] => (c, [])
  | a :: l' =>
      let '(c1, e1) := cexec cf a c in
      let '(c2, e2) := crun cf l' c1 in
      (c2, e1 ++ e2)
  end.

(* The exit status: 2 after a panic, 0 when runDownload has returned. *)
Definition client_status (c : client) : option Z := if dead c then Some 2 else if c_exit c then Some 0 else None.
