(* What the goroutines of gotit share and in which order each of them reads, writes
   and synchronises.  One word of actions for each goroutine; what a call of a function
   does is given by the outcomes of its conditions (the inductive types below).

   Not modelled: files, sockets, loggers, http.DefaultClient, the uilive writer, math/rand
   and the channel of timers, which synchronise themselves; package variables and
   messages without a sender (KeepalivePeerMessage, ClientId), written before main; close(pieceCh).
   The connection a peer has and the fields of the *TimeoutConn are one location,
   and so are the other fields of a peer, of a tracker, of a message.            *)
From Verif Require Import Base.

(* The n-th address of the r-th reply given to the j-th tracker goroutine
   (manager.go:111-112), and the n-th message such a peer made or read.          *)
Definition pid : Type := (nat * nat * nat)%type.
Definition mid : Type := (pid * nat)%type.

Inductive gid :=
| GMain                    (* main, cmd/app.go:109-112, cmd/download.go:51, Download, Stop *)
| GSignal                  (* signal.NotifyContext, cmd/app.go:99 *)
| GPrinter                 (* manager.go:180-189 *)
| GWriter                  (* manager.go:62, torrent.go:174-193 *)
| GTracker (j : nat)       (* manager.go:77 *)
| GPeer (p : pid).         (* manager.go:173-176 *)

Inductive mutex :=
| MPool                    (* Manager.poolMu *)
| MReq                     (* Torrent.requestedMu *)
| MDown                    (* Torrent.downloadedMu *)
| MFailed (j r : nat).     (* PiecesQueue.failedMu of the queue made for a reply, manager.go:110 *)

Inductive loc :=
| LTorrent                 (* the other fields of Torrent, all set in New *)
| LReq                     (* Torrent.requested *)
| LDown                    (* Torrent.downloaded *)
| LPool                    (* the map of Manager.peerPool *)
| LPoolVar                 (* Manager.peerPool *)
| LCancel                  (* Manager.cancelCtx *)
| LTracker (j : nat)       (* the fields of a tracker *)
| LConn (p : pid)          (* Peer.conn *)
| LPeer (p : pid)          (* the other fields of Peer, its bitset and its statuses *)
| LFailed (j r : nat)      (* PiecesQueue.failedMessages *)
| LBlock (b : mid)         (* a request message, peer.go:76-88 *)
| LPiece (b : mid).        (* a message read, peer.go:285 and 202 *)

Inductive act :=
| Rd (l : loc) | Wr (l : loc)
| Lock (m : mutex) | Unlock (m : mutex)
| Go (g : gid)
| Send (b : mid) | Recv (b : mid)                       (* on pieceCh *)
| Put (j r : nat) (b : mid) | Take (j r : nat) (b : mid) (* a message into and out of failedMessages: both write it *)
| Enter (p : pid)                                       (* a peer into the map of the pool, which it writes *)
| Atom                                                  (* an operation of sync/atomic on Stats *)
| WgAdd | WgDone | WgWait                               (* Manager.wg *)
| Cancel | Seen.                                        (* the context is cancelled, is seen to be *)

(* ---------- the pool: manager.go:216-228 AddPeer ---------- *)
Definition w_AddPeer (p : pid) (known : bool) : list act :=
  [Lock MPool; Rd LPoolVar; Rd (LPeer p); Rd LPool] ++
  (if known then [] else [Rd LPoolVar; Rd (LPeer p); Enter p; Atom]) ++ [Unlock MPool].

(* ---------- a peer before it runs ---------- *)
(* peer.go:94-120 NewPeer *)
Definition w_NewPeer (p : pid) : list act := [Rd LTorrent; Wr (LPeer p); Wr (LConn p)].

(* Where a call of Announce fails. *)
Inductive fail := FDial | FSend | FShake.
(* peer.go:122-131 connect, 133-154 Announce; None: no failure *)
Definition w_connect (p : pid) (ok : bool) : list act :=
  [Rd (LPeer p); Wr (LConn p)] ++ (if ok then [Wr (LPeer p)] else []).
Definition w_Announce (p : pid) (f : option fail) : list act :=
  match f with
  | Some FDial => w_connect p false
  | Some FSend => w_connect p true ++ [Rd LTorrent; Rd (LConn p)]
  | _ => w_connect p true ++ [Rd LTorrent; Rd (LConn p); Rd (LConn p); Rd LTorrent]
  end.

(* manager.go:148-177 startPeerDownload: the failures retry.Do has seen, then success or not
   (the context may be done before the first call).  OnRetry reads AddrPort.     *)
Definition w_startPeer (p : pid) (fs : list fail) (ok : bool) : list act :=
  Rd LTorrent :: concat (map (fun f => w_Announce p (Some f) ++ [Rd (LPeer p)]) fs) ++
  (if ok then w_Announce p None ++ [WgAdd; Go (GPeer p)] else [Rd (LPeer p); Atom]).

(* manager.go:111-117: what became of an address *)
Inductive adec := AKnown | ANew (fs : list fail) (ok : bool).
Definition w_addr (p : pid) (d : adec) : list act :=
  w_NewPeer p ++
  match d with
  | AKnown => w_AddPeer p true
  | ANew fs ok => w_AddPeer p false ++ w_startPeer p fs ok
  end.
Fixpoint w_addrs (j r n : nat) (ds : list adec) : list act :=
  match ds with [] => [] | d :: ds => w_addr (j, r, n) d ++ w_addrs j r (S n) ds end.

(* manager.go:109-118 initPeers *)
Definition w_initPeers (j r : nat) (ds : list adec) : list act := Wr (LFailed j r) :: w_addrs j r 0 ds.

(* manager.go:120-146 announceToTracker, with the number of calls of Announce *)
Definition w_ask (j : nat) (calls : nat) : list act :=
  concat (repeat [Atom; Atom; Atom; Rd LTorrent; Rd (LTracker j); Wr (LTracker j)] calls).

(* manager.go:88-106, one turn of the loop: Some ds after a reply *)
Definition w_round (j r : nat) (d : nat * option (list adec)) : list act :=
  w_ask j (fst d) ++ match snd d with Some ds => w_initPeers j r ds | None => [] end ++ [Rd (LTracker j)].
Fixpoint w_rounds (j r : nat) (ds : list (nat * option (list adec))) : list act :=
  match ds with [] => [] | d :: ds => w_round j r d ++ w_rounds j (S r) ds end.

(* manager.go:80-107 runTracker *)
Definition w_runTracker (j : nat) (ds : list (nat * option (list adec))) : list act :=
  Wr (LTracker j) :: w_rounds j 0 ds ++ [Seen].

(* ---------- a peer that runs ---------- *)
(* torrent.go:120-134 Next, 136-140 Done, 113-118 SetDownloaded *)
Definition w_Next (p : pid) (found : bool) : list act :=
  [Lock MReq; Rd LReq; Rd (LPeer p)] ++ (if found then [Wr LReq] else []) ++ [Unlock MReq].
Definition w_Done : list act := [Lock MDown; Rd LDown; Unlock MDown].
Definition w_SetDownloaded : list act := [Lock MDown; Wr LDown; Unlock MDown].
(* pieces_queue.go:21-25 RequestFailed, 27-37 FailedPieceMessage *)
Definition w_RequestFailed (j r : nat) (b : mid) : list act := [Lock (MFailed j r); Put j r b; Unlock (MFailed j r)].
Definition w_FailedPiece (j r : nat) (b : option mid) : list act :=
  [Lock (MFailed j r)] ++ match b with Some b => [Rd (LFailed j r); Take j r b] | None => [Rd (LFailed j r)] end ++ [Unlock (MFailed j r)].

(* peer.go:76-88 createPieceMessage *)
Definition w_create (p : pid) (c : nat) : list act := [Rd (LPeer p); Wr (LBlock (p, c)); Wr (LPeer p)].

(* How nextRequestMessage ends, peer.go:286-303 *)
Inductive ndec := NBlock | NFailed (b : mid) | NPiece | NNone.
(* What a message read is, peer.go:326-365 and 393-402 *)
Inductive kind := KKeep | KField | KOther | KPiece (valid : bool).
(* The calls Run and unchoke make, peer.go:156-284; any order of them is allowed. *)
Inductive pdec :=
| DCtx                              (* ctx.Err, wait *)
| DDone                             (* 218 *)
| DKeep (sent : option bool)        (* 222, checkKeepAlive 309-319: nothing due, send failed, sent *)
| DInterested                       (* 174 SendInterested *)
| DNext (d : ndec) (sent : bool)    (* 235-258, unless a request is outstanding *)
| DRead (d : option kind).          (* 189-202 and 260-275 *)

(* What Run keeps in variables: messages made, messages read, requestMsg, sentPieceMsg *)
Record pvar := mkPv { v_made : nat; v_read : nat; v_req : option mid; v_sent : bool }.
Definition v0 : pvar := mkPv 0 0 None false.

(* 242-251: sendMessage and RequestFailed *)
Definition w_send (p : pid) (b : mid) (ok : bool) : list act :=
  let '(j, r, _) := p in
  [Rd (LConn p); Rd (LBlock b)] ++ (if ok then [] else w_RequestFailed j r b).

Definition w_call (p : pid) (v : pvar) (d : pdec) : list act * pvar :=
  let '(j, r, _) := p in
  match d with
  | DCtx => ([Seen], v)
  | DDone => (w_Done, v)
  | DKeep None => ([Rd (LPeer p)], v)
  | DKeep (Some false) => ([Rd (LPeer p); Rd (LConn p)], v)
  | DKeep (Some true) => ([Rd (LPeer p); Rd (LConn p); Wr (LPeer p)], v)
  | DInterested => ([Rd (LPeer p); Rd (LConn p)], v)
  | DNext d ok =>
      if v_sent v then ([Rd (LPeer p)], v) else
      match d with
      | NBlock =>
          ([Rd (LPeer p)] ++ w_create p (v_made v) ++ w_send p (p, v_made v) ok,
           mkPv (S (v_made v)) (v_read v) (Some (p, v_made v)) ok)
      | NFailed b =>
          ([Rd (LPeer p)] ++ w_FailedPiece j r (Some b) ++ w_send p b ok, mkPv (v_made v) (v_read v) (Some b) ok)
      | NPiece =>
          ([Rd (LPeer p)] ++ w_FailedPiece j r None ++ w_Next p true ++ [Wr (LPeer p)] ++ w_create p (v_made v) ++ w_send p (p, v_made v) ok,
           mkPv (S (v_made v)) (v_read v) (Some (p, v_made v)) ok)
      | NNone => ([Rd (LPeer p)] ++ w_FailedPiece j r None ++ w_Next p false, mkPv (v_made v) (v_read v) None false)
      end
  | DRead None =>
      match v_sent v, v_req v with
      | true, Some b => ([Rd (LConn p)] ++ w_RequestFailed j r b, mkPv (v_made v) (v_read v) (v_req v) false)
      | _, _ => ([Rd (LConn p)], v)
      end
  | DRead (Some KKeep) => ([Rd (LConn p)], v)
  | DRead (Some k) =>
      let b := (p, v_read v) in
      ([Rd (LConn p); Wr (LPiece b); Rd (LPiece b)] ++
       match k with
       | KField => [Wr (LPeer p)]
       | KPiece false => [Rd LTorrent]
       | KPiece true => [Rd LTorrent; Send b; Rd (LPiece b); Wr (LPeer p)]
       | _ => []
       end,
       mkPv (v_made v) (S (v_read v)) (v_req v) (v_sent v))
  end.
Fixpoint w_calls (p : pid) (v : pvar) (ds : list pdec) : list act :=
  match ds with [] => [] | d :: ds => let '(w, v') := w_call p v d in w ++ w_calls p v' ds end.
(* manager.go:173-176 *)
Definition w_run (p : pid) (ds : list pdec) : list act := w_calls p v0 ds ++ [WgDone].

(* ---------- the others ---------- *)
(* torrent.go:174-193 WritePiece: the messages and whether a piece was completed *)
Definition w_piece (d : mid * bool) : list act :=
  [Recv (fst d); Rd (LPiece (fst d)); Rd LTorrent; Atom; Rd LTorrent] ++ (if snd d then w_SetDownloaded else []).
Definition w_writer (ds : list (mid * bool)) : list act := concat (map w_piece ds).

(* progress_printer.go:25-36 Print, n times *)
Definition w_printer (n : nat) : list act := repeat Atom n ++ [Seen].

(* torrent.go:55-111 New, manager.go:38-52 NewMng *)
Definition w_make : list act := [Go GSignal; Wr LTorrent; Wr LReq; Wr LDown; Rd LTorrent; Wr LPool; Wr LPoolVar].
(* manager.go:54-67 Download with n trackers *)
Definition w_Download (n : nat) : list act :=
  [Wr LCancel; Go GPrinter; Rd LTorrent] ++ map (fun j => Go (GTracker j)) (seq 0 n) ++ [Go GWriter; WgWait; Seen].
(* manager.go:193-210 Stop, with the peers it finds in the pool *)
Definition w_Stop (ps : list pid) : list act :=
  [Rd LPoolVar; Rd LCancel; Cancel; Lock MPool; Rd LPoolVar; Rd LPool] ++ map (fun p => Rd (LConn p)) ps ++ [Wr LPoolVar; Unlock MPool].

(* cmd/download.go:51-87 *)
Definition w_main (n : nat) (ps : list pid) : list act := w_make ++ w_Download n ++ w_Stop ps.

(* What a goroutine may do. *)
Definition does (g : gid) (w : list act) : Prop :=
  match g with
  | GMain => exists n ps, w = w_main n ps
  | GSignal => w = [Cancel]
  | GPrinter => exists n, w = w_printer n
  | GWriter => exists ds, w = w_writer ds
  | GTracker j => exists ds, w = w_runTracker j ds
  | GPeer p => exists ds, w = w_run p ds
  end.
