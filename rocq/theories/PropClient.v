(* The whole client, one download from NewMng to the end of the process
   (properties C111 to C116).                                                  *)
From Verif Require Import Base ProofBase Sha1 ModelBitset ModelMsg ModelTorrent ModelConn ModelStats ModelPeer ModelSystem ModelTracker ModelManager ModelClient
  SpecPeer SpecTracker SpecManager SpecClient ProofWitness ProofClient ProofClient2 ProofClient3 ProofClient4 ProofClient5 ProofClient6 SpecCrash ProofClient7.

(* ---------- C111 ---------- *)
(* Expected: "started" until a tracker has replied, never again. *)
Theorem C111_started_once_refuted :
  ~ (forall cf t f outs urls l c tr t1 j u q ips t2 u' q' ips', crun cf l (client_start cf t f outs urls) = (c, tr) -> tr = t1 ++ VHttp j u q (Some ips) :: t2 ->
       In (VHttp j u' q' ips') t2 -> lookup (str "event") q' <> Some (str "started")).
Proof. exact started_again. Qed.
(* Expected: a tracker that has replied hears "stopped" before the process ends with status 0. *)
Theorem C111_stopped_refuted :
  ~ (forall cf t f outs urls l c tr j u q ips, crun cf l (client_start cf t f outs urls) = (c, tr) -> client_status c = Some 0 -> In (VHttp j u q (Some ips)) tr ->
       exists u' q' ips', In (VHttp j u' q' ips') tr /\ lookup (str "event") q' = Some (str "stopped")).
Proof. exact no_stopped. Qed.
(* Expected: if a tracker is told anything after the last piece came, it is told "completed". *)
Theorem C111_completed_refuted :
  ~ (forall cf t f outs urls l1 c1 tr1 l2 c2 tr2 j u q ips, Done t = false ->
       crun cf l1 (client_start cf t f outs urls) = (c1, tr1) -> Done (sh_t (wo_sh (c_wo c1))) = true ->
       crun cf l2 c1 = (c2, tr2) -> In (VHttp j u q ips) tr2 ->
       exists u' q' ips', In (VHttp j u' q' ips') (tr1 ++ tr2) /\ lookup (str "event") q' = Some (str "completed")).
Proof. exact no_completed. Qed.
(* What holds: it is "started" each time. *)
Theorem C111_always_started_partial :
  forall cf t f outs urls l c tr j u q ips, crun cf l (client_start cf t f outs urls) = (c, tr) -> In (VHttp j u q ips) tr -> lookup (str "event") q = Some (str "started").
Proof. exact announced_event. Qed.
(* two announces and the end of the process, with the real SHA-1 *)
Example C111_ex : let '(c, tr) := crun (cx_conf sha1) (cx_download ++ cx_again ++ cx_end) (cx_start sha1) in
  client_status c = Some 0 /\ Done (sh_t (wo_sh (c_wo c))) = true /\
  flat_map (fun e => match e with VHttp _ _ q _ => [lookup (str "event") q] | _ => [] end) tr = [Some (str "started"); Some (str "started")].
Proof. vm_compute. repeat split; reflexivity. Qed.

(* ---------- C112 ---------- *)
(* Expected: downloaded and left add up to the length of the torrent. *)
Theorem C112_sum_refuted :
  ~ (forall cf t f outs urls l c tr e d n, crun cf l (client_start cf t f outs urls) = (c, tr) -> In e tr ->
       tells (str "downloaded") d e -> tells (str "left") n e -> d + n = t_length t).
Proof. exact sum_wrong. Qed.
(* Expected: nothing is left only if all pieces are there. *)
Theorem C112_left_refuted :
  ~ (forall cf t f outs urls l c tr e, crun cf l (client_start cf t f outs urls) = (c, tr) -> In e tr -> tells (str "left") 0 e -> Done (sh_t (wo_sh (c_wo c))) = true).
Proof. exact left_wrong. Qed.
(* What holds: downloaded is the length of the data of the first a messages handed to
   the writer, left what remains without the first b, modulo 2^64; uploaded is 0. *)
Theorem C112_values_partial :
  forall cf t f outs urls l c tr t1 e t2 j, 0 <= cf_port cf ->
    crun cf l (client_start cf t f outs urls) = (c, tr) -> tr = t1 ++ e :: t2 -> announce_by j e ->
    exists a b, (a <= S b)%nat /\ (a <= length (handed (sevs t1)))%nat /\ (b <= length (handed (sevs t1)))%nat /\
      reports (t_hash t) (cf_id cf) (u64 (total_len (firstn a (handed (sevs t1))))) 0 (u64 (t_length t - total_len (firstn b (handed (sevs t1))))) (cf_port cf) e.
Proof. exact announced_values. Qed.
(* ... where a and b are no less than the number n of messages written when the
   goroutine of the tracker was last not announcing.                           *)
Theorem C112_not_older_partial :
  forall cf t f outs urls l1 c1 tr1 l2 c2 tr2 t1 e t2 j pc, 0 <= cf_port cf ->
    crun cf l1 (client_start cf t f outs urls) = (c1, tr1) -> nth_error (g_trk (c_mgr c1)) j = Some pc -> (forall n, pc <> TTry n) ->
    crun cf l2 c1 = (c2, tr2) -> tr2 = t1 ++ e :: t2 -> announce_by j e ->
    let h := handed (sevs (tr1 ++ t1)) in let n := length (wo_taken (c_wo c1)) in
    exists a b, (a <= S b)%nat /\ (n <= a <= length h)%nat /\ (n <= b <= length h)%nat /\
      reports (t_hash t) (cf_id cf) (u64 (total_len (firstn a h))) 0 (u64 (t_length t - total_len (firstn b h))) (cf_port cf) e.
Proof. exact announces_progress. Qed.
Definition numbers (tr : list cev) : list (list (option bytes)) :=
  flat_map (fun e => match e with VHttp _ _ q _ => [map (fun k => lookup k q) [str "downloaded"; str "uploaded"; str "left"]] | _ => [] end) tr.
(* 4 bytes arrive between the loads of the second announce *)
Example C112_ex : let '(c, tr) := crun (cx_conf sha1) cx_between (cx_start sha1) in
  numbers tr = [[Some (str "0"); Some (str "0"); Some (str "8")]; [Some (str "4"); Some (str "0"); Some (str "0")]].
Proof. vm_compute. reflexivity. Qed.
(* one piece twice *)
Example C112_ex_twice : let '(c, tr) := crun (cx_conf sha1) (cx_twice ++ cx_again) (cx_start sha1) in
  Done (sh_t (wo_sh (c_wo c))) = false /\ nth_error (numbers tr) 1 = Some [Some (str "8"); Some (str "0"); Some (str "0")] /\
  map block_len (handed (sevs tr)) = [4; 4].
Proof. vm_compute. repeat split; reflexivity. Qed.
(* the goroutine is about to start the next round (TStart), two messages are written: a = b = 2 *)
Example C112_ex_wait : let '(c, tr) := crun (cx_conf sha1) (cx_download ++ [KTrk 0 well]) (cx_start sha1) in
  g_trk (c_mgr c) = [TStart] /\ length (wo_taken (c_wo c)) = 2%nat /\ client_status c = None /\
  let '(c2, tr2) := crun (cx_conf sha1) (KTrk 0 well :: announce1) c in numbers tr2 = [[Some (str "8"); Some (str "0"); Some (str "0")]].
Proof. vm_compute. repeat split; reflexivity. Qed.

(* ---------- C113 ---------- *)
(* The k-th peer in Run sent a handshake for this torrent first, and a tracker named its address. *)
Theorem C113_handshake_first :
  forall cf t f outs urls l c tr t1 k e t2, crun cf l (client_start cf t f outs urls) = (c, tr) -> tr = t1 ++ VSys k e :: t2 ->
    exists p evs j a, nth_error (shakes t1) k = Some (p, evs) /\ greets (t_hash t) evs /\ nth_error (added (gevs t1)) p = Some a /\ named j a t1.
Proof. exact run_after_handshake. Qed.
(* No entry of the pool gets into Run twice. *)
Theorem C113_one_run :
  forall cf t f outs urls l c tr, crun cf l (client_start cf t f outs urls) = (c, tr) -> NoDup (map fst (shakes tr)).
Proof. exact shaken_once. Qed.
Example C113_ex : let '(c, tr) := crun (cx_conf sha1) cx_download (cx_start sha1) in
  map fst (shakes tr) = [0%nat] /\ length (sevs tr) = 5%nat /\ map mp_addr (g_peers (c_mgr c)) = [Some (V4 [10; 0; 0; 1], 6881)].
Proof. vm_compute. repeat split; reflexivity. Qed.
(* a handshake with another hash: five attempts, no peer in Run *)
Example C113_ex_hash :
  let x := mkCin [] true true [Chunk (createHandshake (createClientId (repeat 9 12)) (repeat 6 20))] in
  let '(c, tr) := crun (cx_conf sha1) ([KMain; KTrk 0 well; KTrk 0 well] ++ announce1 ++ repeat (KTrk 0 x) 20) (cx_start sha1) in
  shakes tr = [] /\ dials 0 (gevs tr) = 5%nat /\ wo_peers (c_wo c) = [].
Proof. vm_compute. repeat split; reflexivity. Qed.

(* ---------- C114 ---------- *)
(* The goroutine of tracker j connects to, and adds to the pool, only addresses the replies of tracker j named before. *)
Theorem C114_named_dialled :
  forall cf t f outs urls l c tr t1 j k t2, crun cf l (client_start cf t f outs urls) = (c, tr) ->
    tr = t1 ++ VMgr (GDial j k) :: t2 -> exists a, nth_error (added (gevs t1)) k = Some a /\ named j a t1.
Proof. exact dialled_named. Qed.
Theorem C114_named_added :
  forall cf t f outs urls l c tr t1 j a b t2, crun cf l (client_start cf t f outs urls) = (c, tr) ->
    tr = t1 ++ VMgr (GAdd j a b) :: t2 -> named j a t1.
Proof. exact offered_named. Qed.
(* In terms of the bytes of the replies. *)
Theorem C114_replied_dialled :
  forall cf t f outs urls l c tr t1 j k t2, crun cf l (client_start cf t f outs urls) = (c, tr) -> Forall held_reply l ->
    tr = t1 ++ VMgr (GDial j k) :: t2 ->
    exists a, nth_error (added (gevs t1)) k = Some a /\ replied cf (client_start cf t f outs urls) l t1 j a.
Proof. exact dialled_replied. Qed.
Theorem C114_replied_added :
  forall cf t f outs urls l c tr t1 j a b t2, crun cf l (client_start cf t f outs urls) = (c, tr) -> Forall held_reply l ->
    tr = t1 ++ VMgr (GAdd j a b) :: t2 -> replied cf (client_start cf t f outs urls) l t1 j a.
Proof. exact offered_replied. Qed.
Example C114_ex_held : Forall held_reply cx_connect.
Proof. unfold cx_connect, announce1. cbn [repeat app]. repeat (constructor; [first [exact I | vm_compute; discriminate]|]). constructor. Qed.
Example C114_ex : let '(c, tr) := crun (cx_conf sha1) cx_connect (cx_start sha1) in
  gevs tr = [GRound 0; GAnn 0 true; GAdd 0 (Some (V4 [10; 0; 0; 1], 6881)) true; GDial 0 0; GRun 0 0] /\
  flat_map (fun e => match e with VHttp j _ _ r => [(j, r)] | _ => [] end) tr = [(0%nat, Some [Some (V4 [10; 0; 0; 1], 6881)])].
Proof. vm_compute. repeat split; reflexivity. Qed.

(* ---------- C115 ---------- *)
(* Expected: some execution completes the download though peers send pieces only when asked. *)
Theorem C115_download_refuted :
  ~ (exists cf t f outs urls l c tr, Done t = false /\ crun cf l (client_start cf t f outs urls) = (c, tr) /\ answers_only tr /\ Done (sh_t (wo_sh (c_wo c))) = true).
Proof. exact no_download. Qed.
(* In all of them nothing is stored or counted. *)
Theorem C115_nothing_stored :
  forall cf t f outs urls l c tr, crun cf l (client_start cf t f outs urls) = (c, tr) -> answers_only tr ->
    t_downloaded (sh_t (wo_sh (c_wo c))) = t_downloaded t /\ w_fs (sh_w (wo_sh (c_wo c))) = f /\
    st_download (c_cnt c) = 0 /\ st_left (c_cnt c) = u64 (t_length t).
Proof. exact nothing_stored. Qed.
(* a peer that unchokes, has all pieces and waits for requests: only interested is sent *)
Example C115_ex :
  let say b := [KPeer 0 (rd b); KPeer 0 go] in
  let '(c, tr) := crun (cx_conf sha1) (cx_connect ++ repeat (KPeer 0 go) 6 ++ say [1] ++ say [5; 192] ++ repeat (KPeer 0 go) 20) (cx_start sha1) in
  client_status c = None /\ Done (sh_t (wo_sh (c_wo c))) = false /\
  flat_map (fun e => match e with (_, ESent m) => [m_type m] | _ => [] end) (sevs tr) = [2] /\
  flat_map (fun e => match e with (_, EReadOk b) => [b] | _ => [] end) (sevs tr) = [[1]; [5; 192]].
Proof. vm_compute. repeat split; reflexivity. Qed.
(* pieces nobody asked for complete it *)
Example C115_ex_unasked : let '(c, tr) := crun (cx_conf sha1) cx_download (cx_start sha1) in
  Done (cx_t sha1) = false /\ Done (sh_t (wo_sh (c_wo c))) = true.
Proof. vm_compute. split; reflexivity. Qed.

(* ---------- C116 ---------- *)
(* Expected: a signal ends the process with status 0. *)
Theorem C116_status_refuted :
  ~ (forall cf t f outs urls l c tr s, crun cf l (client_start cf t f outs urls) = (c, tr) -> In KSignal l -> client_status c = Some s -> s = 0).
Proof. exact signal_panic. Qed.
(* What holds: it ends, if main, the writer and the peers in Run get their turn again
   and again, whatever the trackers do; a panic gives status 2.                *)
Theorem C116_ends_partial :
  forall cf t f outs urls l c tr s, crun cf l (client_start cf t f outs urls) = (c, tr) -> In KSignal l -> cfair s ->
    exists n, client_status (cafter cf s n c) = Some 0 \/ client_status (cafter cf s n c) = Some 2.
Proof. exact signal_ends. Qed.
(* Without a signal it never ends with status 0. *)
Theorem C116_only_signal :
  forall cf t f outs urls l c tr, crun cf l (client_start cf t f outs urls) = (c, tr) -> client_status c = Some 0 -> In KSignal l.
Proof. exact ends_after_signal. Qed.
Example C116_ex_fair : cfair cturns.
Proof. exact cturns_fair. Qed.
(* the same peer reached and not reached *)
Example C116_ex : let '(c, tr) := crun (cx_conf sha1) (cx_connect ++ [KSignal]) (cx_start sha1) in
  client_status c = None /\ client_status (cafter (cx_conf sha1) cturns 60 c) = Some 0.
Proof. vm_compute. split; reflexivity. Qed.
Example C116_ex_dark : let '(c, tr) := crun (cx_conf sha1) cx_dark (cx_start sha1) in
  client_status c = Some 2 /\ crashed (c_wo c) = false /\ dials 0 (gevs tr) = 5%nat.
Proof. vm_compute. repeat split; reflexivity. Qed.

Print Assumptions C111_started_once_refuted.
Print Assumptions C111_stopped_refuted.
Print Assumptions C111_completed_refuted.
Print Assumptions C111_always_started_partial.
Print Assumptions C112_sum_refuted.
Print Assumptions C112_left_refuted.
Print Assumptions C112_values_partial.
Print Assumptions C112_not_older_partial.
Print Assumptions C113_handshake_first.
Print Assumptions C113_one_run.
Print Assumptions C114_named_dialled.
Print Assumptions C114_named_added.
Print Assumptions C114_replied_dialled.
Print Assumptions C114_replied_added.
Print Assumptions C115_download_refuted.
Print Assumptions C115_nothing_stored.
Print Assumptions C116_status_refuted.
Print Assumptions C116_ends_partial.
Print Assumptions C116_only_signal.
