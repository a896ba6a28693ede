(* Properties C82-C86: requests between peers, the queue and the wire; printing. *)
From Coq Require Import Permutation.
From Verif Require Import Base ModelBitset ModelMsg ModelTorrent ModelConn ModelPeer ModelSystem ModelStats ModelProgress
  SpecPeer SpecStats SpecExchange ProofRequests ProofProgress ProofSystem ProofPeer ProofWitness ProofExchange ProofPrinter.

(* ---------- C82 ---------- *)
Theorem C82_no_request_while_choked :
  forall sha1 w0 l w tr k a m c, run sha1 l (start w0) = (w, tr) -> events_of k tr = a ++ ESent m :: c -> is_request m ->
    last_switch ChokeT UnchokeT a true false.
Proof. exact requests_unchoked. Qed.
(* choke, read again, unchoke: the request goes out after the unchoke only *)
Definition choked_twice : list action :=
  ASpawn true 0 :: to_read 0 ++ [APeer 0 (rd [0]); APeer 0 go; APeer 0 (rd [1])] ++ repeat (APeer 0 go) 6.
Example C82_ex : events_of 0 (snd (run (fun _ => []) choked_twice (start (px 131072 2)))) =
  [ESent CreateInterestedMessage; EReadOk [0]; EReadOk [1]; ECreate (CreatePieceMessage 0 0 131072); ESent (CreatePieceMessage 0 0 131072)].
Proof. reflexivity. Qed.

(* ---------- C83 ---------- *)
Theorem C83_requests_conserved :
  forall sha1 w0 l w tr g, run sha1 l (start w0) = (w, tr) ->
    Permutation (all_created g w tr) (sh_q (wo_sh w) g ++ all_in_flight g w).
Proof. exact requests_conserved. Qed.
(* two peers of round 0: one has a failed request in the queue, one is waiting for
   an answer; a peer of round 1 shares nothing with them                        *)
Definition ask (k : nat) : list action := to_read k ++ [APeer k (rd [1])] ++ repeat (APeer k go) 2.
Example C83_ex :
  let '(w, tr) := run (fun _ => []) ([ASpawn true 0; ASpawn true 0; ASpawn true 1] ++ ask 0 ++ [APeer 0 go] ++ ask 1 ++ ask 2) (start (px 262144 2)) in
  let m := CreatePieceMessage 0 0 131072 in
  all_created 0 w tr = [m; m] /\ sh_q (wo_sh w) 0 = [m] /\ all_in_flight 0 w = [m] /\ all_created 1 w tr = [m] /\ sh_q (wo_sh w) 1 = [].
Proof. vm_compute. repeat split; reflexivity. Qed.

(* ---------- C84 ---------- *)
(* Full claim: a created request is always in the queue of its round or being
   worked on by a peer that still runs.                                         *)
Theorem C84_request_survives_peer_refuted :
  forall sha1, ~ (forall w0 l w tr g m, run sha1 l (start w0) = (w, tr) -> In m (all_created g w tr) ->
    In m (sh_q (wo_sh w) g) \/ exists k r, nth_error (wo_peers w) k = Some r /\ r_grp r = g /\ ~ ended r /\ In m (in_flight r)).
Proof. exact request_lost. Qed.
(* What remains: it is lost only when the peer that last took it ends. *)
Theorem C84_lost_only_with_its_peer_partial :
  forall sha1 w0 l w tr g m, run sha1 l (start w0) = (w, tr) -> In m (all_created g w tr) ->
    In m (sh_q (wo_sh w) g) \/ exists k r, nth_error (wo_peers w) k = Some r /\ r_grp r = g /\ r_req r = Some m /\ (r_sent r = true \/ r_pc r = PSend).
Proof. exact lost_only_with_peer. Qed.
Example C84_ex :
  let '(w, tr) := run (fun _ => []) lost_run (start (px 131072 2)) in
  all_created 0 w tr = [CreatePieceMessage 0 0 131072] /\ sh_q (wo_sh w) 0 = [] /\ map r_pc (wo_peers w) = [PRet].
Proof. vm_compute. repeat split; reflexivity. Qed.

(* ---------- C85 ---------- *)
(* Full claim: a request whose answer was accepted is not sent again. *)
Theorem C85_answered_not_asked_again_refuted :
  forall sha1, ~ (forall w0 l w tr k a b c m p, run sha1 l (start w0) = (w, tr) ->
    events_of k tr = a ++ ESent m :: b ++ ESent m :: c -> is_request m -> In (EPut p) b -> ~ answers p m).
Proof. exact answered_asked_again. Qed.
(* What remains: between two requests to one peer a read failed. *)
Theorem C85_asked_again_after_error_partial :
  forall sha1 w0 l w tr k a b c m1 m2, run sha1 l (start w0) = (w, tr) ->
    events_of k tr = a ++ ESent m1 :: b ++ ESent m2 :: c -> is_request m1 -> is_request m2 -> In EReadErr b.
Proof. exact one_outstanding. Qed.
Example C85_ex : forall sha1, exists w tr a b c, run sha1 asked_again (wx_start sha1) = (w, tr) /\ crashed w = false /\
  events_of 0 tr = a ++ ESent ask_first :: b ++ ESent ask_first :: c /\ In (EPut answer_first) b /\ bs_test (t_downloaded (sh_t (wo_sh w))) 0 = true.
Proof. exact asked_again_run. Qed.

(* ---------- C86 ---------- *)
(* Full claim: printing the progress does not crash a download that has not
   crashed.                                                                     *)
Theorem C86_printing_refuted :
  forall sha1, (forall x, length (sha1 x) = 20%nat) ->
  ~ (forall cwd creat mk f0 mi hash dir f1 t l w tr, New cwd creat mk f0 mi hash dir = (f1, Ok t) -> Forall (spawns (eq false)) l -> Forall reads_bytes l ->
       run sha1 l (start (mkW t f1 [] [] false)) = (w, tr) -> crashed w = false -> ~ printing_crashes w).
Proof. exact printing_refuted. Qed.
(* Peers that know one non-empty piece can force it at any time: they only send
   the same message b.                                                          *)
Theorem C86_repeated_piece_crashes :
  forall sha1 w b m d, crashed w = false -> sh_cancel (wo_sh w) = false -> sh_closed (wo_sh w) = false -> Done (sh_t (wo_sh w)) = false ->
    sh_ch (wo_sh w) = [] -> wo_hand w = None -> NewPeerMessage b = Ok m -> m_type m = PieceT -> verified sha1 (sh_t (wo_sh w)) m -> data_of m = Ok d -> d <> [] ->
    1 <= t_length (sh_t (wo_sh w)) <= 2 ^ 51 -> zlen d <= 2 ^ 51 -> 0 <= sum (w_added (sh_w (wo_sh w))) <= 2 ^ 51 ->
    exists l w' tr, Forall peers_and_writer l /\ (forall k i x, In (APeer k i) l -> i_read i = Some x -> x = b) /\
      run sha1 l w = (w', tr) /\ (crashed w' = true \/ printing_crashes w') /\
      (storable (sh_t (wo_sh w)) m d -> crashed w' = false /\ printing_crashes w').
Proof. exact attack. Qed.
(* While no more bytes were counted than the torrent has, the bar is printed. *)
Theorem C86_printing_safe_partial :
  forall w, let t := sh_t (wo_sh w) in let n := sum (w_added (sh_w (wo_sh w))) in 1 <= t_length t < 2 ^ 63 -> 0 <= n <= t_length t ->
    exists cells txt, Print w = Ok (cells, txt) /\ length cells = 20%nat /\
      cells = repeat progressChar (Z.to_nat (percent_of (t_length t) n n / 5)) ++ repeat space (Z.to_nat (20 - percent_of (t_length t) n n / 5)).
Proof. exact printing_safe. Qed.
(* three times four bytes of eight *)
Definition thrice : list action := gather_peers 3 0 ++ feed (piece_body 0 0 [1; 2; 3; 4]) 3 0.
Example C86_ex : let w n := fst (run (fun _ => []) (firstn n thrice) (wx_start (fun _ => []))) in
  (exists c, Print (w 21%nat) = Ok (c, str "|  0%")) /\ (exists c, Print (w 25%nat) = Ok (c, str "|  50%")) /\ Print (w 29%nat) = Ok (repeat progressChar 20, str "|  100%") /\
  Print (w 33%nat) = Panic /\ crashed (w 33%nat) = false.
Proof. vm_compute. repeat split; try (eexists; reflexivity). Qed.

Print Assumptions C82_no_request_while_choked.
Print Assumptions C83_requests_conserved.
Print Assumptions C84_request_survives_peer_refuted.
Print Assumptions C84_lost_only_with_its_peer_partial.
Print Assumptions C85_answered_not_asked_again_refuted.
Print Assumptions C85_asked_again_after_error_partial.
Print Assumptions C86_printing_refuted.
Print Assumptions C86_repeated_piece_crashes.
Print Assumptions C86_printing_safe_partial.
