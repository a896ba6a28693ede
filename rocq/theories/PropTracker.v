(* Theorems about trackers (properties C44-C50, C60, C66-C70).                 *)
From Verif Require Import Base ProofBase ModelBencode SpecText SpecBencode ModelUnmarshal SpecUnmarshal ModelMsg ModelConn ModelTracker SpecTracker
  ProofTracker ProofTracker2.

(* ---------- C44 ---------- *)
Theorem C44_compact_peers : forall es t, Forall compact_ok es -> zlen t < 6 -> parseCompactPeers (flat_map compact es ++ t) = map peer_of es.
Proof. exact parse_compact. Qed.
(* every byte string is of that form *)
Theorem C44_every_string : forall b, Forall is_byte b -> exists es t, b = flat_map compact es ++ t /\ Forall compact_ok es /\ zlen t < 6.
Proof. exact compact_split. Qed.
Example C44_ex : parseCompactPeers [10; 0; 0; 1; 26; 225; 10; 0; 0; 2; 0; 80; 9; 9] = [Some (V4 [10; 0; 0; 1], 6881); Some (V4 [10; 0; 0; 2], 80)].
Proof. reflexivity. Qed.

(* ---------- C45 ---------- *)
(* compact=1 is asked for *)
Theorem C45_asks_compact_partial : forall clientId trackerId event hash d, lookup (str "compact") (buildQuery clientId trackerId event hash d) = Some (str "1").
Proof. reflexivity. Qed.
(* The full claim. *)
Theorem C45_compact_reply_accepted_refuted :
  ~ (forall parse_ip d m raw es, fits d -> Parse d = Ok (BDict true m raw) -> no_failure m -> Forall compact_ok es ->
       lookup (str "peers") m = Some (BStr (flat_map compact es)) -> snd (readPeers parse_ip d) = Ok (map peer_of es)).
Proof.
  intros H. specialize (H (fun _ => None) (str "d5:peers6:aaaaaae") [(str "peers", BStr (str "aaaaaa"))] (str "d5:peers6:aaaaaae")
    [(str "aaaa", 24929)]).
  assert (E : snd (readPeers (fun _ => None) (str "d5:peers6:aaaaaae")) = Ok (map peer_of [(str "aaaa", 24929)])).
  { apply H.
    - unfold fits, MAXN, zlen. cbn. lia.
    - vm_compute. reflexivity.
    - left. left. reflexivity.
    - repeat constructor; cbn; lia.
    - reflexivity. }
  vm_compute in E. discriminate E.
Qed.
(* Every reply with a compact list fails. *)
Theorem C45_compact_reply_rejected :
  forall parse_ip d m raw s, fits d -> Parse d = Ok (BDict true m raw) -> lookup (str "peers") m = Some (BStr s) ->
    exists e, readPeers parse_ip d = (None, Err e).
Proof. exact read_peers_compact. Qed.
Example C45_ex : exists e, HttpAnnounce (fun _ => None) (HttpBody 200 (Some (str "d8:intervali1800e5:peers6:aaaaaae"))) = (None, Err e).
Proof. eexists. vm_compute. reflexivity. Qed.

(* ---------- C46 ---------- *)
(* The full claim; None is the invalid address. *)
Theorem C46_valid_addresses_refuted :
  ~ (forall parse_ip d i l, fits d -> readPeers parse_ip d = (i, Ok l) -> ~ In None l).
Proof.
  intros H. apply (H (fun _ => None) (str "d5:peersld2:ip1:x4:port1:1eee") (Some 0) [None]).
  - unfold fits, MAXN, zlen. cbn. lia.
  - vm_compute. reflexivity.
  - left. reflexivity.
Qed.
(* What a reply yields, exactly: one address per entry of the list, invalid where
   ip or port do not parse. *)
Theorem C46_peers_exact :
  forall parse_ip d i l, fits d ->
    (readPeers parse_ip d = (i, Ok l) <->
     exists m raw n v vs, Parse d = Ok (BDict true m raw) /\ no_failure m /\ interval_of m n /\ i = Some (wrap64 (n * 1000000000)) /\
       lookup (str "peers") m = Some v /\ v <> BNil /\ is_list v vs /\ Forall2 (entry_of parse_ip) vs l).
Proof. exact read_peers_ok. Qed.
(* so an address is valid if its entry is *)
Theorem C46_valid_entries_partial :
  forall parse_ip v a m ip port x n, entry_of parse_ip v a -> is_dict v m -> lookup (str "ip") m = Some ip -> lookup (str "port") m = Some port ->
    parse_ip (text ip) = Some x -> decimal (text port) n -> n < 65536 -> a = Some (x, n).
Proof.
  intros parse_ip v a m ip port x n (m' & ip' & port' & [r Hd] & L1 & _ & L2 & _ & H) [r' Hd'] L1' L2' Hx Hn Hl.
  rewrite Hd in Hd'. inversion Hd'; subst m'. rewrite L1 in L1'. rewrite L2 in L2'. inversion L1'; inversion L2'; subst ip' port'.
  destruct H as [(x' & n' & Hx' & Hn' & _ & ->)|([H|H] & _)].
  - rewrite Hx in Hx'. inversion Hx'; subst. now rewrite (decimal_fun _ _ _ Hn Hn').
  - congruence.
  - exfalso. apply H. eauto.
Qed.
Example C46_ex : readPeers (fun s => if beq s (str "::1") then Some (V6 s) else None)
    (str "d8:intervali1800e5:peersld2:ip3:::14:port4:6881ed2:ip3:::14:porti80eed2:ip3:::14:port5:65536eee") =
  (Some 1800000000000, Ok [Some (V6 (str "::1"), 6881); Some (V6 (str "::1"), 80); None]).
Proof. vm_compute. reflexivity. Qed.

(* ---------- C47 ---------- *)
Theorem C47_udp_responses :
  forall t r tx t', Forall is_byte r -> is_u 4 tx ->
    (parseTrackerResponse t r tx = (t', Ok tt) <->
     (exists c rest, r = bep15_connect_reply tx c ++ rest /\ is_u 8 c /\ t' = mkUdp (u_ips t) c (u_interval t)) \/
     (exists i l s es rest, r = bep15_announce_reply tx i l s (flat_map compact es ++ rest) /\ Forall compact_ok es /\ zlen rest < 6 /\ is_u 4 i /\
        t' = mkUdp (map peer_of es) (u_conn t) (i * 1000000000))).
Proof. exact parse_udp_spec. Qed.
Example C47_ex : parseTrackerResponse (mkUdp [] 5 0) ([0; 0; 0; 1; 9; 8; 7; 6; 0; 0; 7; 8; 0; 0; 0; 1; 0; 0; 0; 2; 10; 0; 0; 1; 26; 225]) 151521030 =
  (mkUdp [Some (V4 [10; 0; 0; 1], 6881)] 5 1800000000000, Ok tt).
Proof. reflexivity. Qed.
Example C47_ex_other : exists e, snd (parseTrackerResponse (mkUdp [] 5 0) ([0; 0; 0; 1; 9; 8; 7; 5; 0; 0; 7; 8; 0; 0; 0; 1; 0; 0; 0; 2]) 151521030) = Err e.
Proof. eexists. reflexivity. Qed.

(* ---------- C48 ---------- *)
(* The full claim; event, ip, key and num may be chosen freely. *)
Theorem C48_announce_request_refuted :
  ~ (forall c tx hash id d key, length id = 20%nat -> length hash = 20%nat ->
       exists ev ip k n, createAnnounce c tx hash id d key =
         bep15_announce c tx hash id (a_downloaded d) (a_left d) (a_uploaded d) ev ip k n (a_port d)).
Proof.
  intros H. destruct (H 0 0 (repeat 1 20) (repeat 2 20) (mkAnn 0 0 0 0) 0 eq_refl eq_refl) as (ev & ip & k & n & E).
  revert E. apply announce_not_bep15; reflexivity.
Qed.
(* It never has that layout, ... *)
Theorem C48_never_bep15 :
  forall c tx hash id d key, length id = 20%nat -> length hash = 20%nat ->
    forall ev ip k n port, createAnnounce c tx hash id d key <> bep15_announce c tx hash id (a_downloaded d) (a_left d) (a_uploaded d) ev ip k n port.
Proof. exact announce_not_bep15. Qed.
(* ... but this one: without the info hash, and with a port of four bytes. *)
Theorem C48_announce_request_exact :
  forall c tx hash id d key, length id = 20%nat ->
    createAnnounce c tx hash id d key =
      be_put 8 c ++ be_put 4 1 ++ be_put 4 tx ++ id ++ be_put 8 (a_downloaded d) ++ be_put 8 (a_left d) ++ be_put 8 (a_uploaded d) ++
      be_put 4 0 ++ be_put 4 0 ++ be_put 4 key ++ be_put 4 (-1) ++ be_put 4 (a_port d) /\
    length (createAnnounce c tx hash id d key) = 80%nat.
Proof. exact announce_layout. Qed.
Example C48_ex : createAnnounce 7 9 (repeat 1 20) (repeat 2 20) (mkAnn 3 0 4 6881) 5 =
  [0;0;0;0;0;0;0;7; 0;0;0;1; 0;0;0;9] ++ repeat 2 20 ++ [0;0;0;0;0;0;0;3; 0;0;0;0;0;0;0;4; 0;0;0;0;0;0;0;0; 0;0;0;0; 0;0;0;0; 0;0;0;5; 255;255;255;255; 0;0;26;225].
Proof. reflexivity. Qed.

(* ---------- C49 ---------- *)
(* The full claim: both answers arrive, each in one datagram. *)
Theorem C49_udp_announce_refuted :
  ~ (forall t tx1 tx2 key hash id d c i l s es, is_u 4 tx1 -> is_u 4 tx2 -> is_u 8 c -> is_u 4 i -> Forall compact_ok es ->
       snd (UdpAnnounce t tx1 tx2 key true hash id d
              [Datagram (bep15_connect_reply tx1 c); Datagram (bep15_announce_reply tx2 i l s (flat_map compact es))]) = Ok (map peer_of es)).
Proof.
  intros H. specialize (H (mkUdp [] 0 0) 1 2 3 [] [] (mkAnn 0 0 0 0) 7 1800 0 1 [([10; 0; 0; 1], 6881)]).
  assert (E : snd (UdpAnnounce (mkUdp [] 0 0) 1 2 3 true [] [] (mkAnn 0 0 0 0)
              [Datagram (bep15_connect_reply 1 7); Datagram (bep15_announce_reply 2 1800 0 1 (flat_map compact [([10; 0; 0; 1], 6881)]))])
            = Ok (map peer_of [([10; 0; 0; 1], 6881)])).
  { apply H; try (unfold is_u; cbn; lia). repeat constructor; cbn; lia. }
  vm_compute in E. discriminate E.
Qed.
(* No exchange at all makes it succeed. *)
Theorem C49_udp_announce_always_fails :
  forall t tx1 tx2 key ok hash id d s, exists e, snd (UdpAnnounce t tx1 tx2 key ok hash id d s) = Err e.
Proof. exact udp_announce_fails. Qed.
Example C49_ex : UdpAnnounce (mkUdp [] 0 0) 1 2 3 true [] [] (mkAnn 0 0 0 0) [Datagram (bep15_connect_reply 1 7); Datagram (bep15_announce_reply 2 1800 0 1 [])] =
  (mkUdp [] 7 0, [connect_request 1; createAnnounce 7 2 [] [] (mkAnn 0 0 0 0) 3], Err "read").
Proof. reflexivity. Qed.

(* ---------- C50 ---------- *)
(* The full claim. *)
Theorem C50_no_panic_refuted : ~ (forall t r tx, Forall is_byte r -> snd (parseTrackerResponse t r tx) <> Panic).
Proof. intros H. apply (H (mkUdp [] 0 0) [0; 0; 0] 0); [repeat constructor; unfold is_byte; lia|reflexivity]. Qed.
Theorem C50_panics_exact : forall t r tx, snd (parseTrackerResponse t r tx) = Panic <-> zlen r < 4.
Proof. exact parse_udp_panics. Qed.
(* Announce itself never panics, whatever datagrams arrive: the connect response
   always has 16 bytes and the announce response is never parsed (C49). *)
Theorem C50_announce_no_panic_partial :
  forall t tx1 tx2 key ok hash id d s, snd (UdpAnnounce t tx1 tx2 key ok hash id d s) <> Panic.
Proof. intros t tx1 tx2 key ok hash id d s. destruct (udp_announce_fails t tx1 tx2 key ok hash id d s) as (e & ->). discriminate. Qed.
Example C50_ex : snd (UdpAnnounce (mkUdp [] 0 0) 1 2 3 true [] [] (mkAnn 0 0 0 0) [Datagram [0]; Datagram []; Datagram (repeat 9 400); Datagram [0; 0]]) =
  Err "unrecognized udp tracker response action code".
Proof. reflexivity. Qed.

(* ---------- C60 ---------- *)
(* The full claim for HTTP: after a successful announce the wait is positive. *)
Theorem C60_wait_positive_refuted :
  ~ (forall parse_ip d i l, fits d -> readPeers parse_ip d = (Some i, Ok l) -> 0 < min_wait i).
Proof.
  intros H. specialize (H (fun _ => None) (str "d5:peerslee") 0 []). assert (E : 0 < min_wait 0); [|cbv in E; discriminate].
  apply H; [unfold fits, MAXN, zlen; cbn; lia|vm_compute; reflexivity].
Qed.
(* Exactly when it is: the interval times 10^9, in 64 bits, has to be positive. *)
Theorem C60_wait_positive_exact :
  forall parse_ip d i l, fits d -> readPeers parse_ip d = (Some i, Ok l) ->
    (0 < min_wait i <-> exists m raw n, Parse d = Ok (BDict true m raw) /\ interval_of m n /\ 0 < wrap64 (n * 1000000000)).
Proof. exact http_interval_pos. Qed.
Theorem C60_sane_interval_partial : forall n, 0 < n <= 9223372036 -> wrap64 (n * 1000000000) = n * 1000000000 /\ 0 < wrap64 (n * 1000000000).
Proof.
  intros n H. assert (E : wrap64 (n * 1000000000) = n * 1000000000); [|lia].
  apply wrap64_small. lia.
Qed.
(* a huge interval wraps to a negative one *)
Example C60_ex : readPeers (fun _ => None) (str "d8:intervali9223372037e5:peerslee") = (Some (-9223372036709551616), Ok []) /\
  min_wait (-9223372036709551616) = 0.
Proof. vm_compute. auto. Qed.
(* UDP: the wait is positive unless the tracker says 0 *)
Theorem C60_udp_wait_positive : forall t tx i l s ps, is_u 4 tx -> is_u 4 i ->
  0 < min_wait (u_interval (fst (parseTrackerResponse t (bep15_announce_reply tx i l s ps) tx))) <-> 0 < i.
Proof. intros t tx i l s ps H1 H2. rewrite announce_reply_ok by assumption. rewrite min_wait_pos. cbn [fst u_interval]. unfold second. lia. Qed.

(* ---------- C66 ---------- *)
Theorem C66_announce_query :
  forall addr clientId trackerId event hash d, ~ In 63 addr -> ~ In 35 addr ->
    Forall is_byte clientId -> Forall is_byte trackerId -> Forall is_byte event -> Forall is_byte hash ->
    0 <= a_downloaded d -> 0 <= a_uploaded d -> 0 <= a_left d -> 0 <= a_port d ->
    exists q down up left port, decode_query (query_of (announce_url addr (buildQuery clientId trackerId event hash d))) = Some q /\
      NoDup (map fst q) /\
      lookup (str "info_hash") q = Some hash /\ lookup (str "peer_id") q = Some clientId /\ lookup (str "event") q = Some event /\
      lookup (str "downloaded") q = Some down /\ decimal down (a_downloaded d) /\
      lookup (str "uploaded") q = Some up /\ decimal up (a_uploaded d) /\
      lookup (str "left") q = Some left /\ decimal left (a_left d) /\
      lookup (str "port") q = Some port /\ decimal port (a_port d).
Proof. exact announce_values. Qed.
(* in fact the whole query, whatever it is *)
Theorem C66_query_round_trip :
  forall addr kvs, kvs <> [] -> Forall byte_pair kvs -> ~ In 63 addr -> ~ In 35 addr ->
    decode_query (query_of (announce_url addr kvs)) = Some kvs.
Proof. exact announce_query. Qed.
Example C66_ex : announce_url (str "http://t/a") [(str "info_hash", [0; 255; 65; 32; 43; 37]); (str "left", str "0")] =
  str "http://t/a?info_hash=%00%FFA+%2B%25&left=0".
Proof. vm_compute. reflexivity. Qed.

(* ---------- C67 ---------- *)
(* The full claim: also when the announce URL has a query of its own. *)
Theorem C67_url_with_query_refuted :
  ~ (forall addr kvs, kvs <> [] -> Forall byte_pair kvs -> ~ In 35 addr ->
       exists q, decode_query (query_of (announce_url addr kvs)) = Some q /\ incl kvs q).
Proof.
  intros H. destruct (H (str "http://t/a?k=v") [(str "compact", str "1")]) as (q & E & I).
  - discriminate.
  - constructor; [|constructor]. split; cbn; repeat constructor; unfold is_byte; lia.
  - cbn. intuition discriminate.
  - vm_compute in E. inversion E; subst q. specialize (I _ (or_introl eq_refl)). cbn in I. destruct I as [I|[]]. discriminate I.
Qed.
(* Exactly: a second question mark separates the two queries, so it becomes part of
   the last value given and our first key is lost. *)
Theorem C67_url_with_query_exact :
  forall pre q kvs, kvs <> [] -> Forall byte_pair kvs -> ~ In 63 pre -> ~ In 35 (pre ++ 63 :: q) ->
    exists e, query_of (announce_url (pre ++ 63 :: q) kvs) = q ++ 63 :: e /\ decode_query e = Some kvs.
Proof. exact announce_query_exact. Qed.
Example C67_ex : decode_query (query_of (announce_url (str "http://t/a?passkey=v") (buildQuery (str "me") (str "id") (str "started") (str "h") (mkAnn 1 2 3 4)))) =
  Some ((str "passkey", str "v?compact=1") :: tl (buildQuery (str "me") (str "id") (str "started") (str "h") (mkAnn 1 2 3 4))).
Proof. vm_compute. reflexivity. Qed.

(* ---------- C68 ---------- *)
(* The full claim. *)
Theorem C68_http_no_panic_refuted :
  ~ (forall parse_ip r, (forall st b, r = HttpBody st (Some b) -> fits b) -> snd (HttpAnnounce parse_ip r) <> Panic).
Proof.
  intros H. apply (H (fun _ => None) (HttpBody 200 (Some (str "i5e")))).
  - intros st b E. inversion E. unfold fits, MAXN, zlen. cbn. lia.
  - vm_compute. reflexivity.
Qed.
Theorem C68_http_panics_exact :
  forall parse_ip r, (forall st b, r = HttpBody st (Some b) -> fits b) ->
    (snd (HttpAnnounce parse_ip r) = Panic <->
     exists b, r = HttpBody 200 (Some b) /\ (Parse b = Panic \/ exists e, Parse b = Ok e /\ forall m raw, e <> BDict true m raw)).
Proof. exact http_panics. Qed.
Example C68_ex : snd (HttpAnnounce (fun _ => None) (HttpBody 404 (Some (str "i5e")))) = Err "tracker error response" /\
  snd (HttpAnnounce (fun _ => None) (HttpBody 200 (Some (str "<html>")))) <> Panic.
Proof. split; vm_compute; [reflexivity|discriminate]. Qed.

(* ---------- C69 ---------- *)
Theorem C69_protocols :
  forall scheme dial k, NewTracker scheme dial = Ok k <->
    (scheme = Some (str "udp") /\ dial = true /\ k = KUdp) \/ ((scheme = Some (str "http") \/ scheme = Some (str "https")) /\ k = KHttp).
Proof. exact new_tracker_exact. Qed.
Example C69_ex : NewTracker (Some (str "https")) false = Ok KHttp /\ NewTracker (Some (str "wss")) true = Err "unsupported tracker protocol".
Proof. split; reflexivity. Qed.

(* ---------- C70 ---------- *)
Theorem C70_udp_requests :
  forall t tx1 tx2 key ok hash id d s, Forall (fun e => match e with Datagram b => Forall is_byte b | _ => True end) s -> is_u 4 tx1 ->
    let out := snd (fst (UdpAnnounce t tx1 tx2 key ok hash id d s)) in
    out = [] \/ out = [bep15_connect tx1] \/
    exists c payload, is_u 8 c /\ out = [bep15_connect tx1; be_put 8 c ++ be_put 4 1 ++ be_put 4 tx2 ++ payload] /\
      exists ds rest extra, s = map Datagram ds ++ rest /\ concat ds = bep15_connect_reply tx1 c ++ extra.
Proof. exact udp_requests. Qed.
Example C70_ex : snd (fst (UdpAnnounce (mkUdp [] 0 0) 1 2 3 true [] [] (mkAnn 0 0 0 0) [Datagram (bep15_connect_reply 1 7); UTimeout])) =
  [[0; 0; 4; 23; 39; 16; 25; 128; 0; 0; 0; 0; 0; 0; 0; 1]; createAnnounce 7 2 [] [] (mkAnn 0 0 0 0) 3].
Proof. reflexivity. Qed.

Print Assumptions C44_compact_peers.
Print Assumptions C44_every_string.
Print Assumptions C45_asks_compact_partial.
Print Assumptions C45_compact_reply_accepted_refuted.
Print Assumptions C45_compact_reply_rejected.
Print Assumptions C46_valid_addresses_refuted.
Print Assumptions C46_peers_exact.
Print Assumptions C46_valid_entries_partial.
Print Assumptions C47_udp_responses.
Print Assumptions C48_announce_request_refuted.
Print Assumptions C48_never_bep15.
Print Assumptions C48_announce_request_exact.
Print Assumptions C49_udp_announce_refuted.
Print Assumptions C49_udp_announce_always_fails.
Print Assumptions C50_no_panic_refuted.
Print Assumptions C50_panics_exact.
Print Assumptions C50_announce_no_panic_partial.
Print Assumptions C60_wait_positive_refuted.
Print Assumptions C60_wait_positive_exact.
Print Assumptions C60_sane_interval_partial.
Print Assumptions C60_udp_wait_positive.
Print Assumptions C66_announce_query.
Print Assumptions C66_query_round_trip.
Print Assumptions C67_url_with_query_refuted.
Print Assumptions C67_url_with_query_exact.
Print Assumptions C68_http_no_panic_refuted.
Print Assumptions C68_http_panics_exact.
Print Assumptions C69_protocols.
Print Assumptions C70_udp_requests.
