(* pkg/peer/peer.go: the handshake, the protocol state of one peer, and Run as a
   machine with one step per operation on shared state or on the network.      *)
From Verif Require Import Base ModelBitset ModelMsg ModelTorrent ModelConn.

(* ---------- handshake ---------- *)
(* peer.go:23 bittorrentProto *)
Definition bittorrentProto : bytes := str "BitTorrent protocol".
(* peer.go:24 clientIdPrefix *)
Definition clientIdPrefix : bytes := str "-GO0100-".
(* peer.go:420-426 createClientId: 20 bytes, the prefix copied over the first
   ones and the rest filled by r.Read; random is what r.Read delivers (12 bytes) *)
Definition createClientId (random : bytes) : bytes := clientIdPrefix ++ firstn 12 (random ++ repeat 0 12).

(* peer.go:64-76; the peerId argument is not used by the code *)
Definition isHandshakeValid (handshake hash peerId : bytes) : bool :=
  if zlen handshake <? 68 then false
  else
    match nthZ handshake 0 with
    | Some resCode => (resCode =? 19) && beq (sub handshake 1 20) bittorrentProto && beq (sub handshake 28 48) hash
    | None => false                                     (* unreachable *)
    end.

(* peer.go:404-415 *)
Definition createHandshake (clientId hash : bytes) : bytes :=
  [zlen bittorrentProto] ++ bittorrentProto ++ repeat 0 8 ++ hash ++ clientId.

(* peer.go:122-154 connect and Announce.  dial and write tell whether the dial
   and the write of the handshake succeed; evs is what the connection delivers.
   The result carries the connection left behind: false is a nil p.conn.       *)
Inductive ares := AOk | AErr (e : string).
Definition Announce (dial write : bool) (evs : list ev) (clientId hash : bytes) : bool * ares :=
  if negb dial then (false, AErr "peer connect"%string)
  else if negb write then (true, AErr "peer handshake"%string)
  else match fst (ReadPeerHandshake evs) with
       | ROk response =>
           if isHandshakeValid response hash clientId then (true, AOk) else (true, AErr "peer handshake invalid"%string)
       | RErr _ => (true, AErr "read"%string)
       end.

(* ---------- protocol state ---------- *)
(* peer.go:58-62 *)
Record status := mkStatus { s_choked : bool; s_interested : bool; s_valid : bool }.
(* peer.go:92-94 *)
Definition newPeerStatus : status := mkStatus true false true.

(* peer.go:35-56, the fields that are read by the code modelled here *)
Record peer := mkPeer {
  pr_bits : bitset;
  pr_status : status;          (* PeerStatus *)
  cl_status : status;          (* ClientStatus *)
  pr_block : Z;                (* blockIdx *)
  pr_piece : Z;                (* pieceIdx *)
  pr_bnum : Z                  (* blockNum *)
}.
Definition set_bits (p : peer) (b : bitset) := mkPeer b (pr_status p) (cl_status p) (pr_block p) (pr_piece p) (pr_bnum p).
Definition set_status (p : peer) (s : status) := mkPeer (pr_bits p) s (cl_status p) (pr_block p) (pr_piece p) (pr_bnum p).
Definition set_client (p : peer) (s : status) := mkPeer (pr_bits p) (pr_status p) s (pr_block p) (pr_piece p) (pr_bnum p).
Definition set_place (p : peer) (b i : Z) := mkPeer (pr_bits p) (pr_status p) (cl_status p) b i (pr_bnum p).

(* peer.go:96-120 *)
Definition NewPeer (t : torrent) : peer :=
  mkPeer (EmptyBitset t) newPeerStatus newPeerStatus 0 0 (u64 (t_plen t) / BlockLength).

(* peer.go:78-90 *)
Definition createPieceMessage (p : peer) : peer * msg :=
  let beginOffset := u64 (pr_block p * BlockLength) in
  (set_place p (u64 (pr_block p + 1)) (pr_piece p),
   CreatePieceMessage (u32 (pr_piece p)) (u32 beginOffset) (u32 BlockLength)).

(* peer.go:375-386 SendUnchoke; ok: the write succeeds.  It has no caller.     *)
Definition SendUnchoke (p : peer) (ok : bool) : peer * list msg * bool :=
  if negb (s_interested (pr_status p)) then (p, [], true)
  else if negb ok then (p, [], false)
  else (set_status p (mkStatus false (s_interested (pr_status p)) (s_valid (pr_status p))), [CreateUnchokeMessage], true).

(* peer.go:393-402: the check; the send to writeCh and the Bitset.Set after it
   are the continuation of HPut                                                *)
Inductive hres := HPeer (p : peer) | HPut (m : msg) | HPanic.
Definition handlePieceMessage (sha1 : bytes -> bytes) (t : torrent) (p : peer) (m : msg) : hres :=
  match data_of m with
  | Ok d =>
      match CheckPiece sha1 t d (m_index m) with
      | Ok true => HPut m
      | Ok false => HPeer p
      | _ => HPanic
      end
  | _ => HPanic
  end.
(* peer.go:401 *)
Definition after_put (p : peer) (m : msg) : peer := set_bits p (bs_set (pr_bits p) (m_index m)).

(* peer.go:325-365 *)
Definition handlePeerMessage (sha1 : bytes -> bytes) (t : torrent) (p : peer) (m : msg) : hres :=
  let ty := m_type m in
  if ty =? KeepaliveT then HPeer p
  else if ty =? BitfieldT then
    match Bitfield m with Some b => HPeer (set_bits p b) | None => HPeer p (* unreachable *) end
  else if ty =? HaveT then HPeer (set_bits p (bs_set (pr_bits p) (m_index m)))
  else if ty =? InterestedT then HPeer (set_status p (mkStatus (s_choked (pr_status p)) true (s_valid (pr_status p))))
  else if ty =? NotInterestedT then HPeer (set_status p (mkStatus (s_choked (pr_status p)) false (s_valid (pr_status p))))
  else if ty =? ChokeT then HPeer (set_client p (mkStatus true (s_interested (cl_status p)) (s_valid (cl_status p))))
  else if ty =? UnchokeT then HPeer (set_client p (mkStatus false (s_interested (cl_status p)) (s_valid (cl_status p))))
  else if ty =? PieceT then handlePieceMessage sha1 t p m
  else HPeer p.

(* ---------- the state shared by all goroutines ---------- *)
(* The writer's state holds the torrent (one *Torrent is shared) and the files.
   Each announce round has its own pieces queue (manager.go:110), so queues are
   numbered.  sh_ch is the content of pieceCh, the oldest first.               *)
Record shared := mkSh {
  sh_w : wstate;
  sh_q : nat -> queue;
  sh_ch : list msg;
  sh_closed : bool;
  sh_cancel : bool
}.
Definition sh_t (s : shared) : torrent := w_t (sh_w s).
Definition set_t (s : shared) (t : torrent) : shared :=
  mkSh (mkW t (w_fs (sh_w s)) (w_outs (sh_w s)) (w_added (sh_w s)) (w_panic (sh_w s))) (sh_q s) (sh_ch s) (sh_closed s) (sh_cancel s).
Definition set_q (s : shared) (g : nat) (q : queue) : shared :=
  mkSh (sh_w s) (fun h => if Nat.eqb h g then q else sh_q s h) (sh_ch s) (sh_closed s) (sh_cancel s).
Definition set_ch (s : shared) (c : list msg) : shared := mkSh (sh_w s) (sh_q s) c (sh_closed s) (sh_cancel s).

(* manager.go:57 *)
Definition chan_cap : Z := 1024.

(* ---------- Run ---------- *)
Inductive pc :=
| PTop                          (* 218 ctx.Err() *)
| PDone                         (* 223 torrent.Done() *)
| PKeep                         (* 227 checkKeepAlive *)
| PChoke                        (* 232 ClientStatus.Choked *)
| PUTop | PUSend | PURead | PUWait   (* 168, 172, 183, 177/189 of unchoke *)
| PReq                          (* 240; 285-288 of nextRequestMessage *)
| PNext                         (* 292-302 *)
| PNil                          (* 243 *)
| PSend                         (* 250, 251 *)
| PSendWait                     (* 256 *)
| PRead                         (* 266-271 *)
| PReadWait                     (* 273 *)
| PPut (u : bool) (m : msg)     (* 400; u: called from unchoke *)
| PRet                          (* returned *)
| PPanic.

Record rstate := mkR {
  r_pc : pc;
  r_peer : peer;
  r_req : option msg;           (* requestMsg *)
  r_sent : bool;                (* sentPieceMsg *)
  r_grp : nat                   (* which pieces queue *)
}.
Definition at_pc (r : rstate) (c : pc) : rstate := mkR c (r_peer r) (r_req r) (r_sent r) (r_grp r).
Definition with_peer (r : rstate) (c : pc) (p : peer) : rstate := mkR c p (r_req r) (r_sent r) (r_grp r).

(* What the network and the clock do in one step: a keep-alive is due, a write
   succeeds, a read yields a message body (None: an error), a timer has expired. *)
Record inp := mkI { i_due : bool; i_ok : bool; i_read : option bytes; i_timer : bool }.

Inductive event :=
| ESent (m : msg)               (* written to the peer *)
| ESendErr (m : msg)
| EReadOk (b : bytes)
| EReadErr
| ECreate (m : msg)             (* createPieceMessage *)
| EClaim (i : Z) (have : bitset) (* Next(have) returned i *)
| EPut (m : msg).               (* given to the writer *)

(* handling of a message body read; u: called from unchoke, then Run goes on with
   line 239, else with the next round                                          *)
Definition handle_body (sha1 : bytes -> bytes) (t : torrent) (u : bool) (r : rstate) (b : bytes) : rstate :=
  match NewPeerMessage b with
  | Ok m =>
      match handlePeerMessage sha1 t (r_peer r) m with
      | HPeer p => with_peer r (if u then PReq else PTop) p
      | HPut m => at_pc r (PPut u m)
      | HPanic => at_pc r PPanic
      end
  | _ => at_pc r PPanic
  end.

(* peer.go:202-209: the select returns an error if the context is done, nil if the
   timer expired, either if both, and blocks (None) otherwise                  *)
Definition wait (s : shared) (i : inp) (r : rstate) (c : pc) : option (shared * rstate * list event) :=
  if i_timer i then Some (s, at_pc r c, [])
  else if sh_cancel s then Some (s, at_pc r PRet, [])
  else None.

(* peer.go:297-302 after a piece was chosen, or without choosing one *)
Definition create (s : shared) (r : rstate) (p : peer) (es : list event) : option (shared * rstate * list event) :=
  let '(p', m) := createPieceMessage p in
  Some (s, mkR PSend p' (Some m) (r_sent r) (r_grp r), es ++ [ECreate m]).

Definition push (s : shared) (r : rstate) : shared :=
  match r_req r with Some m => set_q s (r_grp r) (RequestFailed (sh_q s (r_grp r)) m) | None => s end.

(* One step of Run; None: the goroutine is blocked or has ended. *)
Definition pstep (sha1 : bytes -> bytes) (i : inp) (s : shared) (r : rstate) : option (shared * rstate * list event) :=
  let p := r_peer r in
  let cs := cl_status p in
  match r_pc r with
  | PTop => Some (s, at_pc r (if sh_cancel s then PRet else PDone), [])
  | PDone => Some (s, at_pc r (if Done (sh_t s) then PRet else PKeep), [])
  | PKeep =>
      if i_due i then
        if i_ok i then Some (s, at_pc r PChoke, [ESent KeepalivePeerMessage])
        else Some (s, at_pc r PRet, [ESendErr KeepalivePeerMessage])
      else Some (s, at_pc r PChoke, [])
  | PChoke => Some (s, at_pc r (if s_choked cs then PUTop else PReq), [])
  | PUTop => Some (s, at_pc r (if sh_cancel s then PRet else PUSend), [])
  | PUSend =>
      if i_ok i then Some (s, at_pc r PURead, [ESent CreateInterestedMessage])
      else Some (s, at_pc r PUWait, [ESendErr CreateInterestedMessage])
  | PURead =>
      match i_read i with
      | None => Some (s, at_pc r PUWait, [EReadErr])
      | Some b => Some (s, handle_body sha1 (sh_t s) true r b, [EReadOk b])
      end
  | PUWait => wait s i r PUTop
  | PReq =>
      if negb (s_choked cs) && s_interested cs && negb (r_sent r) then
        if pr_bnum p <=? pr_block p then
          match FailedPieceMessage (sh_q s (r_grp r)) with
          | (q, Some m) => Some (set_q s (r_grp r) q, mkR PSend p (Some m) (r_sent r) (r_grp r), [])
          | (_, None) => Some (s, at_pc r PNext, [])
          end
        else create s r p []
      else Some (s, at_pc r PRead, [])
  | PNext =>
      match Next (sh_t s) (pr_bits p) with
      | (t', Some k) => create (set_t s t') r (set_place p 0 k) [EClaim k (pr_bits p)]
      | (_, None) => Some (s, mkR PNil p None (r_sent r) (r_grp r), [])
      end
  | PNil => wait s i r PTop
  | PSend =>
      match r_req r with
      | Some m =>
          if i_ok i then Some (s, mkR PRead p (Some m) true (r_grp r), [ESent m])
          else Some (push s r, at_pc r PSendWait, [ESendErr m])
      | None => Some (s, at_pc r PPanic, [])            (* unreachable *)
      end
  | PSendWait => wait s i r PTop
  | PRead =>
      match i_read i with
      | None =>
          if r_sent r then Some (push s r, mkR PReadWait p (r_req r) false (r_grp r), [EReadErr])
          else Some (s, at_pc r PReadWait, [EReadErr])
      | Some b => Some (s, handle_body sha1 (sh_t s) false r b, [EReadOk b])
      end
  | PReadWait => wait s i r PTop
  | PPut u m =>
      if sh_closed s then Some (s, at_pc r PPanic, [])  (* send on closed channel *)
      else if zlen (sh_ch s) <? chan_cap then
        Some (set_ch s (sh_ch s ++ [m]), with_peer r (if u then PReq else PTop) (after_put p m), [EPut m])
      else None
  | PRet => None
  | PPanic => None
  end.
