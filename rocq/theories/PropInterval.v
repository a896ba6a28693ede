(* The pause between announces to a tracker (property C126).                   *)
From Verif Require Import Base ModelBencode ModelConn ModelStats ModelPeer ModelSystem ModelTracker ModelManager ModelClient
  SpecBencode SpecUnmarshal SpecTracker SpecManager SpecClient SpecProgram SpecAgain SpecInterval ProofWitness ProofClient4 ProofAgain ProofInterval.

(* Expected: after a successful announce whose reply names the interval n, the tracker
   is left alone for n seconds.                                                *)
Theorem C126_pause_refuted :
  ~ (forall cf t f outs urls j now since ta t1 h k tb t2 a2 tc addr q ips n e,
       timely cf j now since (ta ++ (t1, KAnn j (RHttp h k)) :: tb ++ (t2, a2) :: tc) (client_start cf t f outs urls) -> (forall st b, h = HttpBody st (Some b) -> SpecBencode.fits b) ->
       let c1 := fst (crun cf (steps ta) (client_start cf t f outs urls)) in
       In (VHttp j addr q (Some ips)) (snd (cexec cf (KAnn j (RHttp h k)) c1)) -> names (cf_ip cf) h n ->
       In e (snd (cexec cf a2 (fst (crun cf (steps tb) (fst (cexec cf (KAnn j (RHttp h k)) c1)))))) -> announce_by j e -> t1 + n * 1000000000 <= t2).
Proof. exact pause_refuted. Qed.
(* It is for intervals up to 292 years. *)
Theorem C126_pause_partial :
  forall cf t f outs urls j now since ta t1 h k tb t2 a2 tc addr q ips n e,
    timely cf j now since (ta ++ (t1, KAnn j (RHttp h k)) :: tb ++ (t2, a2) :: tc) (client_start cf t f outs urls) -> (forall st b, h = HttpBody st (Some b) -> SpecBencode.fits b) ->
    let c1 := fst (crun cf (steps ta) (client_start cf t f outs urls)) in
    In (VHttp j addr q (Some ips)) (snd (cexec cf (KAnn j (RHttp h k)) c1)) -> names (cf_ip cf) h n -> n <= 9223372036 ->
    In e (snd (cexec cf a2 (fst (crun cf (steps tb) (fst (cexec cf (KAnn j (RHttp h k)) c1)))))) -> announce_by j e -> t1 + n * 1000000000 <= t2.
Proof. exact pause_small. Qed.
(* In general n * 10^9 is cut to 64 bits; a reply without an interval counts as 0. *)
Theorem C126_pause_exact :
  forall cf t f outs urls j now since ta t1 h k tb t2 a2 tc addr q ips n e,
    timely cf j now since (ta ++ (t1, KAnn j (RHttp h k)) :: tb ++ (t2, a2) :: tc) (client_start cf t f outs urls) -> (forall st b, h = HttpBody st (Some b) -> SpecBencode.fits b) ->
    let c1 := fst (crun cf (steps ta) (client_start cf t f outs urls)) in
    In (VHttp j addr q (Some ips)) (snd (cexec cf (KAnn j (RHttp h k)) c1)) -> tells (cf_ip cf) h n ->
    In e (snd (cexec cf a2 (fst (crun cf (steps tb) (fst (cexec cf (KAnn j (RHttp h k)) c1)))))) -> announce_by j e -> t1 + Z.max 0 (wrap64 (n * 1000000000)) <= t2.
Proof. exact pause. Qed.
(* an interval of 60: the next announce after exactly a minute; one of 9223372037, and none: at once *)
Example C126_ex : names (fun _ => None) (no_peers (str "60")) 60 /\ twice 60000000000 (no_peers (str "60")) = true /\ twice 59999999999 (no_peers (str "60")) = false.
Proof. split; [apply names_60|]. split; [apply twice_60|vm_compute; reflexivity]. Qed.
Example C126_ex_big : names (fun _ => None) (no_peers (str "9223372037")) 9223372037 /\ twice 0 (no_peers (str "9223372037")) = true /\ twice 0 (HttpBody 200 (Some (str "d5:peerslee"))) = true.
Proof. split; [apply names_big|]. split; [apply twice_big|apply twice_none]. Qed.

(* Expected: a reply without an interval leaves the interval as it was. *)
Theorem C126_default_refuted :
  ~ (forall cf t f outs urls l c tr j i b m raw k, crun cf l (client_start cf t f outs urls) = (c, tr) -> interval_at c j i ->
       Parse b = Ok (BDict true m raw) -> absent m (str "interval") -> interval_at (fst (cexec cf (KAnn j (RHttp (HttpBody 200 (Some b)) k)) c)) j i).
Proof. exact default_refuted. Qed.
(* The interval at any time: a minute, until a reply says otherwise; even the reply of a
   failed announce does if it has no peers at all.                             *)
Theorem C126_interval_exact :
  forall cf t f outs urls l c tr j i, crun cf l (client_start cf t f outs urls) = (c, tr) -> bodies_fit l -> interval_at c j i ->
    last_told (cf_ip cf) (replies cf j l (client_start cf t f outs urls)) i.
Proof. exact interval_told. Qed.
Theorem C126_told_exact :
  forall parse_ip h i, (forall st b, h = HttpBody st (Some b) -> SpecBencode.fits b) ->
    (fst (HttpAnnounce parse_ip h) = Some i <-> exists n, tells parse_ip h n /\ i = wrap64 (n * 1000000000)).
Proof. exact told_exact. Qed.
(* A UDP tracker is never heard. *)
Theorem C126_udp_exact :
  forall cf t f outs urls l c tr j u i, crun cf l (client_start cf t f outs urls) = (c, tr) -> bodies_fit l -> nth_error urls j = Some u -> udp_url cf u ->
    interval_at c j i -> i = 60 * 1000000000.
Proof. exact udp_minute. Qed.
(* after creation, after a reply with 1800, after a failure, and after one without peers *)
Definition after (hs : list httpres) : list cact := steps ta0 ++ flat_map (fun h => [KAnn 0 (RHttp h false); KTrk 0 well; KTrk 0 well; KTrk 0 well; KLoad 0; KLoad 0; KLoad 0]) hs.
Example C126_ex_interval :
  map (fun hs => let c := fst (crun (cx_conf cx_sha1) (after hs) (cx_start cx_sha1)) in (length (replies (cx_conf cx_sha1) 0 (after hs) (cx_start cx_sha1)), interval_b c 0))
    [[]; [no_peers (str "1800")]; [no_peers (str "1800"); HttpErr]; [no_peers (str "1800"); HttpErr; HttpBody 200 (Some (str "d8:intervali900ee"))]] =
  [(0%nat, Some 60000000000); (1%nat, Some 1800000000000); (2%nat, Some 1800000000000); (3%nat, Some 900000000000)].
Proof. vm_compute. reflexivity. Qed.
Example C126_ex_udp : interval_b (fst (crun ux_conf (KMain :: KTrk 0 well :: KTrk 0 well :: repeat (KLoad 0) 3 ++ [KAnn 0 (RUdp 1 2 3 true [Datagram (bep15_connect_reply 1 7); Datagram (bep15_announce_reply 2 1800 0 1 [])])]) ux_start)) 0 = Some 60000000000.
Proof. vm_compute. reflexivity. Qed.

Print Assumptions C126_pause_refuted.
Print Assumptions C126_pause_partial.
Print Assumptions C126_pause_exact.
Print Assumptions C126_default_refuted.
Print Assumptions C126_interval_exact.
Print Assumptions C126_told_exact.
Print Assumptions C126_udp_exact.
