(* Theorems about the pool of peers and the tracker goroutines (properties C51-C53,
   C57, C59, C71-C74).                                                         *)
From Verif Require Import Base ModelTracker ModelManager SpecManager ProofManager ProofManager2 ProofManager3 ProofManager4.

(* ---------- C51 ---------- *)
(* act_ok: addresses are those netip can hold (four bytes, a port of 16 bits). *)
Theorem C51_add_peer :
  forall n l g tr m a, Forall act_ok l -> ap_ok a -> grun l (NewMng n) = (g, tr) -> g_pool g = Some m ->
    exists g' b, AddPeer g a = Ok (g', b) /\ (b = true <-> ~ in_pool g a) /\ (b = false -> g' = g) /\
      in_pool g' a /\ (forall a', in_pool g' a' -> a' = a \/ in_pool g a').
Proof. exact add_peer_iff. Qed.
Theorem C51_one_entry :
  forall n l g tr m, grun l (NewMng n) = (g, tr) -> g_pool g = Some m ->
    NoDup (map fst m) /\ map fst m = map apString (added tr) /\ forall a, in_pool g a <-> In a (added tr).
Proof. exact pool_is_added. Qed.
Theorem C51_added_once :
  forall n l g tr, grun l (NewMng n) = (g, tr) -> NoDup (map apString (added tr)) /\ NoDup (added tr).
Proof. exact added_once. Qed.
(* different addresses have different keys *)
Theorem C51_keys_differ : forall a b, ap_ok a -> ap_ok b -> apString a = apString b -> a = b.
Proof. exact apString_inj. Qed.
(* two trackers name the same peer at the same time *)
Example C51_ex : let '(g, tr) := grun ([XDownload 2; XTrk 0 tgo; XTrk 1 tgo; XTrk 0 tgo; XTrk 1 tgo; XTrk 0 (told [ap1; ap2]); XTrk 1 (told [ap1])] ++ [XTrk 1 tgo; XTrk 0 tgo; XTrk 0 tgo]) (NewMng 30) in exists m,
  g_pool g = Some m /\ map fst m = [str "10.0.0.1:6881"; str "10.0.0.2:6881"] /\ added tr = [ap1; ap2] /\
  tr = [GRound 0; GRound 1; GAnn 0 true; GAnn 1 true; GAdd 1 ap1 true; GAdd 0 ap1 false; GAdd 0 ap2 true].
Proof. vm_compute. eexists. split; [reflexivity|]. repeat split; reflexivity. Qed.
Example C51_ex_keys : apString ap1 = str "10.0.0.1:6881" /\ apString (Some (V6 (str "::1"), 80)) = str "[::1]:80" /\ apString None = str "invalid AddrPort".
Proof. repeat split; vm_compute; reflexivity. Qed.

(* ---------- C52 ---------- *)
(* Full claim: the pool never holds more than num-peer entries. *)
Theorem C52_limit_refuted :
  ~ (forall limit l g tr m, 0 < limit -> Forall act_ok l -> grun l (NewMng limit) = (g, tr) -> g_pool g = Some m -> zlen m <= limit).
Proof. exact limit_refuted. Qed.
(* Whatever the limit, every number of entries is reached. *)
Theorem C52_unbounded :
  forall limit n, exists l g tr m, Forall act_ok l /\ grun l (NewMng limit) = (g, tr) /\ g_panic g = false /\ g_pool g = Some m /\ length m = n.
Proof. exact pool_unbounded. Qed.
Example C52_ex : let '(g, tr) := grun ([XDownload 1; XTrk 0 tgo; XTrk 0 tgo; XTrk 0 (told [ap1; ap2])] ++ repeat (XTrk 0 tgo) 8) (NewMng 1) in exists m, g_pool g = Some m /\ g_limit g = 1 /\ length m = 2%nat /\ map mp_state (g_peers g) = [PsRun; PsRun].
Proof. vm_compute. eexists. split; [reflexivity|]. repeat split; reflexivity. Qed.

(* ---------- C53 ---------- *)
(* Full claim, first part: Stop does not panic once Download has started. *)
Theorem C53_stop_no_panic_refuted :
  ~ (forall n l g tr, Forall act_ok l -> grun l (NewMng n) = (g, tr) -> g_panic g = false -> g_started g = true ->
       g_panic (fst (grun [XStop; XStopClose] g)) = false).
Proof. exact stop_refuted. Qed.
(* Second part: no connection is open afterwards. *)
Theorem C53_all_closed_refuted :
  ~ (forall n l g tr, Forall act_ok l -> grun l (NewMng n) = (g, tr) -> g_panic g = false -> g_pool g = None -> forall c, nth_error (g_conns g) c <> Some true).
Proof. exact all_closed_refuted. Qed.
(* It panics exactly when a peer in the pool has no connection (never dialled, or
   the last attempt failed); otherwise the connections the peers have are closed. *)
Theorem C53_stop_exact :
  forall n l g tr m, grun l (NewMng n) = (g, tr) -> g_panic g = false -> g_stop g = true -> g_pool g = Some m ->
    let g' := fst (gexec XStopClose g) in
    (g_panic g' = true <-> exists e, In e m /\ conn_of g (snd e) = None) /\
    (g_panic g' = false -> g_pool g' = None /\ g_stop g' = false /\
       forall k p c, nth_error (g_peers g) k = Some p -> mp_conn p = Some c -> nth_error (g_conns g') c = Some false).
Proof. exact stop_exact. Qed.
Theorem C53_stop_again_partial : forall g, g_pool g = None -> g_stop g = false -> gexec XStop g = (g, []).
Proof. exact stop_again. Qed.
Example C53_ex_panic : let '(g, tr) := grun unreachable (NewMng 30) in g_panic g = false /\ g_panic (fst (grun [XStop; XStopClose] g)) = true.
Proof. vm_compute. repeat split; reflexivity. Qed.
Example C53_ex_leak : let '(g, tr) := grun redialed (NewMng 30) in g_panic g = false /\ g_pool g = None /\ g_conns g = [true; false].
Proof. vm_compute. repeat split; reflexivity. Qed.
Example C53_ex_good : let '(g, tr) := grun (one_peer ++ [XStop]) (NewMng 30) in g_panic g = false /\ g_stop g = true /\
  g_conns g = [true] /\ g_conns (fst (grun [XStopClose; XStop; XStop] g)) = [false] /\ g_panic (fst (grun [XStopClose; XStop; XStop] g)) = false.
Proof. vm_compute. repeat split; reflexivity. Qed.
(* before Download cancelCtx is nil *)
Example C53_ex_early : g_panic (fst (gexec XStop (NewMng 30))) = true.
Proof. reflexivity. Qed.

(* ---------- C57 ---------- *)
Theorem C57_announces :
  forall n l g tr j t1 t2 t3, grun l (NewMng n) = (g, tr) -> tr = t1 ++ t2 ++ t3 -> ~ In (GRound j) t2 -> (anns j t2 <= 5)%nat.
Proof. exact anns_between. Qed.
Theorem C57_first_success :
  forall n l g tr j t1 t2 t3, grun l (NewMng n) = (g, tr) -> tr = t1 ++ GAnn j true :: t2 ++ t3 -> ~ In (GRound j) t2 -> anns j t2 = 0%nat.
Proof. exact anns_success. Qed.
(* to each peer of the pool, in the whole run *)
Theorem C57_dials : forall n l g tr k, grun l (NewMng n) = (g, tr) -> (dials k tr <= 5)%nat.
Proof. exact dials_bound. Qed.
(* four failures, a success; then the next round *)
Example C57_ex : let '(g, tr) := grun ([XDownload 1; XTrk 0 tgo] ++ repeat (XTrk 0 tgo) 9 ++ [XTrk 0 (told [])] ++ repeat (XTrk 0 tgo) 4) (NewMng 30) in
  tr = [GRound 0; GAnn 0 false; GAnn 0 false; GAnn 0 false; GAnn 0 false; GAnn 0 true; GRound 0; GAnn 0 false].
Proof. vm_compute. reflexivity. Qed.
Example C57_ex_dials : let '(g, tr) := grun unreachable (NewMng 30) in dials 0 tr = 5%nat /\ map mp_state (g_peers g) = [PsFailed].
Proof. vm_compute. repeat split; reflexivity. Qed.

(* ---------- C59 ---------- *)
(* Full claim, at any time: *)
Theorem C59_peer_num_refuted :
  ~ (forall n l g tr, Forall act_ok l -> grun l (NewMng n) = (g, tr) -> g_panic g = false -> g_num g = u64 (zlen (alive g))).
Proof. exact peer_num_refuted. Qed.
(* It holds until Stop drops the pool; PeerNum is a 64 bit counter. *)
Theorem C59_peer_num_partial :
  forall n l g tr m, grun l (NewMng n) = (g, tr) -> g_pool g = Some m -> g_num g = u64 (zlen (alive g)).
Proof. exact peer_num. Qed.
Example C59_ex : let '(g, tr) := grun ([XDownload 1; XTrk 0 tgo; XTrk 0 tgo; XTrk 0 (told [ap1; ap2])] ++ repeat (XTrk 0 tno) 11 ++ repeat (XTrk 0 tgo) 4) (NewMng 30) in
  g_num g = 1 /\ map mp_state (g_peers g) = [PsFailed; PsRun] /\ alive g = [(str "10.0.0.2:6881", 1%nat)].
Proof. vm_compute. repeat split; reflexivity. Qed.

(* ---------- C71 ---------- *)
(* Full claim: a tracker goroutine never panics by itself (a reply that panics in
   Announce is C68).                                                           *)
Theorem C71_no_panic_refuted :
  ~ (forall n l g tr j i, Forall act_ok l -> i_ann i <> AnnPanic -> grun l (NewMng n) = (g, tr) -> g_panic g = false ->
       g_panic (fst (gexec (XTrk j i) g)) = false).
Proof. exact add_after_stop_refuted. Qed.
(* exactly when a peer is to be added after Stop *)
Theorem C71_panics_exact :
  forall g j i c, g_panic g = false -> nth_error (g_trk g) j = Some c ->
    (g_panic (fst (gexec (XTrk j i) g)) = true <->
     (exists n, c = TTry n) /\ i_ann i = AnnPanic \/ (exists a ips, c = TInit (a :: ips)) /\ g_pool g = None).
Proof. exact tracker_panics. Qed.
Example C71_ex : let '(g, tr) := grun late_reply (NewMng 30) in g_panic g = false /\ g_pool g = None /\ g_panic (fst (gexec (XTrk 0 tgo) g)) = true.
Proof. vm_compute. repeat split; reflexivity. Qed.

(* ---------- C72 ---------- *)
(* Full claim: whenever no peer is being announced to, PeerNum is the number of
   peers at work.                                                              *)
Theorem C72_working_refuted :
  ~ (forall n l g tr, Forall act_ok l -> grun l (NewMng n) = (g, tr) -> g_panic g = false -> g_stop g = false ->
       (forall j c, nth_error (g_trk g) j = Some c -> owner c = None) -> g_num g = working g).
Proof. exact working_refuted. Qed.
(* Peers that have ended are counted too. *)
Theorem C72_peer_num_exact :
  forall n l g tr, grun l (NewMng n) = (g, tr) ->
    g_num g = u64 (working g + zlen (filter (fun p => match mp_state p with PsEnded => true | _ => false end) (g_peers g))
                             + zlen (filter (fun p => match mp_state p with PsNew => true | _ => false end) (g_peers g))).
Proof. exact peer_num_exact. Qed.
Example C72_ex : let '(g, tr) := grun (one_peer ++ [XRunEnd 0]) (NewMng 30) in g_num g = 1 /\ working g = 0.
Proof. vm_compute. repeat split; reflexivity. Qed.

(* ---------- C73 ---------- *)
(* Once the context is cancelled a tracker goroutine begins no round, makes at most
   five more announces and five more connection attempts, starts at most one
   peer, ...                                                                   *)
Theorem C73_after_cancel :
  forall n l1 g1 t1 l2 g2 t2 j, grun l1 (NewMng n) = (g1, t1) -> g_cancel g1 = true -> grun l2 g1 = (g2, t2) ->
    ~ In (GRound j) t2 /\ (anns j t2 <= 5)%nat /\ (dials_by j t2 <= 5)%nat /\ (runs_by j t2 <= 1)%nat.
Proof. exact after_cancel. Qed.
(* ... and ends, if it gets its turn again and again (or some goroutine panics). *)
Theorem C73_ends :
  forall n l g tr j f, grun l (NewMng n) = (g, tr) -> g_cancel g = true -> (j < length (g_trk g))%nat -> often j f ->
    exists k, g_panic (gafter f k g) = true \/ nth_error (g_trk (gafter f k g)) j = Some TEnd.
Proof. exact tracker_ends. Qed.
Example C73_ex : let '(g, tr) := grun [XDownload 1; XTrk 0 tgo; XTrk 0 tgo; XTrk 0 (told [ap1; ap2]); XTrk 0 tgo; XTrk 0 tgo; XCancel] (NewMng 30) in
  g_cancel g = true /\ g_trk g = [TPDial 0 0 [ap2]] /\
  let '(g2, tr2) := grun (repeat (XTrk 0 tno) 19) g in
  tr2 = [GDial 0 0; GDial 0 0; GDial 0 0; GDial 0 0; GDial 0 0; GAdd 0 ap2 true] /\ g_trk g2 = [TEnd] /\ g_panic g2 = false.
Proof. vm_compute. repeat split; reflexivity. Qed.
Example C73_ex_often : often 0 (fun _ => XTrk 0 tgo).
Proof. intros n. exists n, tgo. auto. Qed.

(* ---------- C74 ---------- *)
(* Full claim: an address that could not be reached is added again when a tracker
   names it later.                                                             *)
Theorem C74_retried_refuted :
  ~ (forall n l g tr j a ips, Forall act_ok l -> grun l (NewMng n) = (g, tr) -> g_panic g = false -> g_cancel g = false ->
       nth_error (g_trk g) j = Some (TInit (a :: ips)) -> failed_in g a -> forall i, In (GAdd j a true) (snd (gexec (XTrk j i) g))).
Proof. exact retried_refuted. Qed.
(* No address is ever added a second time (so five attempts are all it gets, C57). *)
Theorem C74_never_again :
  forall n l g tr t1 t2 j j' a, grun l (NewMng n) = (g, tr) -> tr = t1 ++ GAdd j a true :: t2 -> ~ In (GAdd j' a true) t2.
Proof. exact never_again. Qed.
Example C74_ex : let '(g, tr) := grun (named_again ++ [XTrk 0 tgo]) (NewMng 30) in In (GAdd 0 ap1 true) tr /\ map mp_state (g_peers g) = [PsFailed] /\
  last tr (GRound 9) = GAdd 0 ap1 false.
Proof. vm_compute. repeat split; auto 10. Qed.

Print Assumptions C51_add_peer.
Print Assumptions C51_one_entry.
Print Assumptions C51_added_once.
Print Assumptions C51_keys_differ.
Print Assumptions C52_limit_refuted.
Print Assumptions C52_unbounded.
Print Assumptions C53_stop_no_panic_refuted.
Print Assumptions C53_all_closed_refuted.
Print Assumptions C53_stop_exact.
Print Assumptions C53_stop_again_partial.
Print Assumptions C57_announces.
Print Assumptions C57_first_success.
Print Assumptions C57_dials.
Print Assumptions C59_peer_num_refuted.
Print Assumptions C59_peer_num_partial.
Print Assumptions C71_no_panic_refuted.
Print Assumptions C71_panics_exact.
Print Assumptions C72_working_refuted.
Print Assumptions C72_peer_num_exact.
Print Assumptions C73_after_cancel.
Print Assumptions C73_ends.
Print Assumptions C74_retried_refuted.
Print Assumptions C74_never_again.
