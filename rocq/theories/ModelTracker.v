(* pkg/tracker: announcing to HTTP and UDP trackers.                           *)
From Verif Require Import Base ModelBencode ModelUnmarshal ModelMsg ModelConn.

(* A netip.AddrPort; None is the zero (invalid) one.  IPv6 addresses are kept as
   their text.                                                                 *)
Inductive addr := V4 (b : bytes) | V6 (text : bytes).
Definition addrport : Type := option (addr * Z).

(* ---------- http_tracker.go ---------- *)
(* 175-195 parseCompactPeers; an address made by AddrFrom4 is always valid *)
Definition compact_entry (e : bytes) : addrport := Some (V4 (sub e 0 4), be_get (sub e 4 6)).
Definition parseCompactPeers (peers : bytes) : list addrport :=
  let peerCount := zlen peers / 6 in
  map (fun read => compact_entry (sub peers (6 * Z.of_nat read) (6 * Z.of_nat read + 6))) (seq 0 (Z.to_nat peerCount)).

(* strconv.ParseUint(s, 10, 16): one or more digits, the value below 2^16 *)
Fixpoint dec_loop (s : bytes) (n : Z) : option Z :=
  match s with
  | [] => Some n
  | c :: s' => if (48 <=? c) && (c <=? 57) then let n' := n * 10 + (c - 48) in if n' <? 2 ^ 16 then dec_loop s' n' else None else None
  end.
Definition ParsePort (s : bytes) : option Z := match s with [] => None | _ => dec_loop s 0 end.

(* 139-173 parseBencodePeers; parse_ip stands for netip.ParseAddr.  An entry that
   does not parse keeps the zero value of the slice made in line 140.          *)
Definition bencode_entry (parse_ip : bytes -> option addr) (ip port : bytes) : addrport :=
  match parse_ip ip with
  | None => None
  | Some a => match ParsePort port with None => None | Some p => Some (a, p) end
  end.
Definition peer_entry (parse_ip : bytes -> option addr) (g : gval) : addrport :=
  match g with VStruct [VString ip; VString port] => bencode_entry parse_ip ip port | _ => None end.
Definition parseBencodePeers (parse_ip : bytes -> option addr) (ps : list gval) : list addrport := map (peer_entry parse_ip) ps.

(* gotit.go:24-36 *)
Definition AnnouncePeer_ty : gty := TStruct [fld (str "ip") TString; fld (str "port") TString].
Definition peers_tag : bytes := str "peers,optional".
Definition compact_tag : bytes := str "peers,optional".
Definition AnnounceResponse_fields : list (bytes * bool * gty) :=
  [fld (str "failure reason,optional") TString;
   fld (str "interval,optional") (TInt 64);
   fld peers_tag (TSlice AnnouncePeer_ty);
   fld compact_tag (TSlice (TUint 8));
   fld (str "peers6,optional") (TSlice (TUint 8))].
Definition AnnounceResponse_zero : list gval := map (fun f => zero (snd f)) AnnounceResponse_fields.

(* A slice field is not nil after a successful Unmarshal iff its key is there
   (MakeSlice of length 0 is not nil, the raw bytes of an element neither).    *)
Definition nonnil (data tag : bytes) : bool :=
  match Parse data with
  | Ok (BDict _ m _) => match lookup (tag_name tag) m with None | Some BNil => false | _ => true end
  | _ => false
  end.

(* 114-137 readPeers: the new interval in ns (None: left as it was) and the result *)
Definition second : Z := 1000000000.
Definition readPeers (parse_ip : bytes -> option addr) (data : bytes) : option Z * res (list addrport) :=
  let '(response, r) := Unmarshal data (TgtStruct AnnounceResponse_fields AnnounceResponse_zero) in
  match r with
  | Ok _ =>
      match response with
      | VStruct [VString failure; VInt interval; VSlice peers; VBytes compact; VBytes peers6] =>
          if negb (beq failure []) then (None, Err "tracker failure")
          else
            (Some (wrap64 (interval * second)),
             if nonnil data peers_tag then Ok (parseBencodePeers parse_ip peers)
             else if nonnil data compact_tag then Ok (parseCompactPeers compact)
             else Err "successful tracker response without ")
      | _ => (None, Diverge)                           (* unreachable *)
      end
  | Err e => (None, Err e)
  | Panic => (None, Panic)
  | Diverge => (None, Diverge)
  end.

(* 63-96 Announce; what the HTTP client returns *)
Inductive httpres := HttpErr | HttpBody (status : Z) (body : option bytes) (* None: the body cannot be read *).
Definition HttpAnnounce (parse_ip : bytes -> option addr) (r : httpres) : option Z * res (list addrport) :=
  match r with
  | HttpErr => (None, Err "http")
  | HttpBody _ None => (None, Err "read body")
  | HttpBody st (Some b) => if negb (st =? 200) then (None, Err "tracker error response") else readPeers parse_ip b
  end.

(* gotit.go:17-22 *)
Record announceData := mkAnn { a_downloaded : Z; a_uploaded : Z; a_left : Z; a_port : Z }.

(* 98-112 buildQuery, in the order of the keys (url.Values.Encode sorts them);
   trackerId is the random one made by newHttpTracker, event what it set        *)
Definition buildQuery (clientId trackerId event hash : bytes) (d : announceData) : list (bytes * bytes) :=
  [(str "compact", str "1");
   (str "downloaded", utoa (a_downloaded d));
   (str "event", event);
   (str "info_hash", hash);
   (str "left", utoa (a_left d));
   (str "no_peer_id", str "1");
   (str "numwant", str "50");
   (str "peer_id", clientId);
   (str "port", itoa (a_port d));
   (str "trackerid", trackerId);
   (str "uploaded", utoa (a_uploaded d))].

(* net/url QueryEscape and Values.Encode *)
Definition unreserved (c : Z) : bool :=
  ((48 <=? c) && (c <=? 57)) || ((65 <=? c) && (c <=? 90)) || ((97 <=? c) && (c <=? 122)) ||
  (c =? 45) || (c =? 46) || (c =? 95) || (c =? 126).
Definition hex (d : Z) : Z := if d <? 10 then 48 + d else 55 + d.
Definition escape1 (c : Z) : bytes :=
  if unreserved c then [c] else if c =? 32 then [43] else [37; hex (c / 16); hex (c mod 16)].
Definition escape (s : bytes) : bytes := flat_map escape1 s.
Fixpoint encode (kvs : list (bytes * bytes)) : bytes :=
  match kvs with
  | [] => []
  | [(k, v)] => escape k ++ 61 :: escape v
  | (k, v) :: kvs' => escape k ++ 61 :: escape v ++ 38 :: encode kvs'
  end.
(* 65: fmt.Sprintf("%s?%s", t.addr, q.Encode()) *)
Definition announce_url (addr : bytes) (kvs : list (bytes * bytes)) : bytes := addr ++ 63 :: encode kvs.

(* ---------- udp_tracker.go ---------- *)
Definition protocolId : Z := 4497486125440.            (* 0x41727101980 *)
Definition connectA : Z := 0.
Definition announceA : Z := 1.
Definition conError : Z := 2.

(* udp_tracker.go:36-47; interval in ns *)
Record udp := mkUdp { u_ips : list addrport; u_conn : Z; u_interval : Z }.

(* 200-207 checkResponseTransactionId *)
Definition txid_ok (r : bytes) (tx : Z) : bool := be_get (sub r 4 8) =? tx.

(* 152-162 readConnect *)
Definition readConnect (r : bytes) (tx : Z) : res Z :=
  if zlen r <? 16 then Err "udp connect respons size less then 16"
  else if negb (txid_ok r tx) then Err "transaction_id"
  else Ok (be_get (sub r 8 16)).

(* 164-182 readAnnounce: peers and interval *)
Definition readAnnounce (r : bytes) (tx : Z) : res (list addrport * Z) :=
  if zlen r <? 20 then Err "udp tracker invalid announce response size"
  else if negb (txid_ok r tx) then Err "transaction_id"
  else Ok (parseCompactPeers (sub r 20 (zlen r)), be_get (sub r 8 12) * second).

(* 184-194 readError *)
Definition readError (r : bytes) (tx : Z) : res unit :=
  if zlen r <? 8 then Err "udp error respons size less then 8"
  else if negb (txid_ok r tx) then Err "transaction_id"
  else Err "udp error response".

(* 116-132 parseTrackerResponse; response[:4] panics when there are fewer bytes.
   On failure connectionId and ips are overwritten with 0 and nil (the results of
   the failed call); the interval is only set on success.                      *)
Definition parseTrackerResponse (t : udp) (r : bytes) (tx : Z) : udp * res unit :=
  match slice r 0 4 with
  | Ok h =>
      let code := be_get h in
      if code =? connectA then
        match readConnect r tx with
        | Ok c => (mkUdp (u_ips t) c (u_interval t), Ok tt)
        | Err e => (mkUdp (u_ips t) 0 (u_interval t), Err e)
        | _ => (t, Panic)
        end
      else if code =? announceA then
        match readAnnounce r tx with
        | Ok (ips, i) => (mkUdp ips (u_conn t) i, Ok tt)
        | Err e => (mkUdp [] (u_conn t) (u_interval t), Err e)
        | _ => (t, Panic)
        end
      else if code =? conError then (t, readError r tx)
      else (t, Err "unrecognized udp tracker response action code")
  | _ => (t, Panic)
  end.

(* 93-97 of handshake *)
Definition connect_request (tx : Z) : bytes := be_put 8 protocolId ++ be_put 4 connectA ++ be_put 4 tx.

(* 134-150 createAnnounce.  binary.Write cannot encode a Go string: it returns an
   error, which is ignored, and writes nothing for torrentHash.  key is the value
   of rand.Int31().                                                            *)
Definition binary_write_string (s : bytes) : bytes := [].
Definition createAnnounce (connId tx : Z) (hash clientId : bytes) (d : announceData) (key : Z) : bytes :=
  be_put 8 connId ++ be_put 4 announceA ++ be_put 4 tx ++ binary_write_string hash ++ clientId ++
  be_put 8 (a_downloaded d) ++ be_put 8 (a_left d) ++ be_put 8 (a_uploaded d) ++ be_put 4 0 ++ be_put 4 0 ++ be_put 4 key ++
  be_put 4 (-1) ++ be_put 4 (a_port d).

(* 92-114 handshake: ok tells whether the write succeeds; s: what the socket gets *)
Definition handshake (t : udp) (tx : Z) (ok : bool) (s : list uev) : udp * list uev * list bytes * res Z :=
  if negb ok then (t, s, [], Err "write")
  else
    match ReadUdpHandshake s with
    | (RErr _, s') => (t, s', [connect_request tx], Err "read")
    | (ROk r, s') =>
        match parseTrackerResponse t r tx with
        | (t', Ok _) => (t', s', [connect_request tx], Ok (u_conn t'))
        | (t', Err e) => (t', s', [connect_request tx], Err e)
        | (t', Panic) => (t', s', [connect_request tx], Panic)
        | (t', Diverge) => (t', s', [connect_request tx], Diverge)
        end
    end.

(* 72-90 Announce.  The result of writing the announce request is ignored (81).  *)
Definition UdpAnnounce (t : udp) (tx1 tx2 key : Z) (ok : bool) (hash clientId : bytes) (d : announceData) (s : list uev)
  : udp * list bytes * res (list addrport) :=
  match handshake t tx1 ok s with
  | (t1, s1, out, Ok connId) =>
      let out' := out ++ [createAnnounce connId tx2 hash clientId d key] in
      match UdpReadAll s1 with
      | (RErr _, _) => (t1, out', Err "read")
      | (ROk r, _) =>
          match parseTrackerResponse t1 r tx2 with
          | (t2, Ok _) => (t2, out', Ok (u_ips t2))
          | (t2, Err e) => (t2, out', Err e)
          | (t2, Panic) => (t2, out', Panic)
          | (t2, Diverge) => (t2, out', Diverge)
          end
      end
  | (t1, _, out, Err e) => (t1, out, Err e)
  | (t1, _, out, Panic) => (t1, out, Panic)
  | (t1, _, out, Diverge) => (t1, out, Diverge)
  end.

(* ---------- tracker.go ---------- *)
(* 28-43 New; scheme: what url.Parse says, dial: whether the UDP socket opens *)
Inductive kind := KHttp | KUdp.
Definition NewTracker (scheme : option bytes) (dial : bool) : res kind :=
  match scheme with
  | None => Err "url"
  | Some s =>
      if beq s (str "udp") then if dial then Ok KUdp else Err "dial"
      else if beq s (str "http") || beq s (str "https") then Ok KHttp
      else Err "unsupported tracker protocol"
  end.

(* 19-26 WaitInterval: the least time it waits unless the context is cancelled;
   time.After of zero or less fires at once                                    *)
Definition min_wait (interval : Z) : Z := Z.max 0 interval.
