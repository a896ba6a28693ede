(* Theorems about peers and the goroutines of one download (properties C27,
   C36-C43, C65).                                                              *)
From Verif Require Import Base SpecPath ModelPath ModelBitset ModelMsg ModelTorrent ModelConn ModelPeer ModelSystem
  SpecTorrent SpecMsg SpecPeer ProofWrite ProofDisk ProofSystem ProofRequests ProofProgress ProofSmall ProofPeer ProofPeer2 ProofVerified ProofWitness.

(* ---------- C27 ---------- *)
(* Full claim: a byte of a file that is not 0 (new files are empty, holes read as 0) is the
   byte of a verified message lying at the same place within the message's piece.
   The offset a peer writes into its message is not checked, so the claim fails
   whatever the hash function is.                                              *)
Theorem C27_stored_in_place_refuted :
  forall sha1 : bytes -> bytes, (forall x, length (sha1 x) = 20%nat) ->
  ~ (forall cwd creat mk f0 mi hash dir f1 t l w tr,
       New cwd creat mk f0 mi hash dir = (f1, Ok t) -> mi_length mi = 0 -> NoDup (t_osfiles t) -> Forall reads_bytes l ->
       run sha1 l (start (mkW t f1 [] [] false)) = (w, tr) ->
       forall k p o q, nth_error (t_osfiles t) k = Some p -> located (map tf_length (mi_files mi)) q k o ->
         byte_at (contents (w_fs (sh_w (wo_sh w))) p) o = 0 \/
         exists m d, In m (handed tr) /\ verified sha1 t m /\ data_of m = Ok d /\
           m_index m * mi_piece_length mi <= q < m_index m * mi_piece_length mi + zlen d /\
           byte_at (contents (w_fs (sh_w (wo_sh w))) p) o = byte_at d (q - m_index m * mi_piece_length mi)).
Proof. exact own_place_refuted. Qed.
(* What holds: with the offset of the message; missing is that the offset is 0. *)
Theorem C27_only_verified_stored_partial :
  forall cwd creat mk f0 mi hash dir f1 t sha1 l w tr,
    New cwd creat mk f0 mi hash dir = (f1, Ok t) -> mi_length mi = 0 -> NoDup (t_osfiles t) ->
    Forall (fun x => 0 <= tf_length x < 2 ^ 63) (mi_files mi) -> 0 <= mi_piece_length mi < 2 ^ 30 ->
    Forall reads_bytes l -> run sha1 l (start (mkW t f1 [] [] false)) = (w, tr) ->
    forall k p o q, nth_error (t_osfiles t) k = Some p -> located (map tf_length (mi_files mi)) q k o ->
      byte_at (contents (w_fs (sh_w (wo_sh w))) p) o = 0 \/
      exists m d, In m (handed tr) /\ verified sha1 t m /\ data_of m = Ok d /\
        m_index m * mi_piece_length mi + m_offset m <= q < m_index m * mi_piece_length mi + m_offset m + zlen d /\
        byte_at (contents (w_fs (sh_w (wo_sh w))) p) o = byte_at d (q - (m_index m * mi_piece_length mi + m_offset m)).
Proof. intros. eapply disk_verified; eassumption. Qed.
Theorem C27_only_verified_stored_single_partial :
  forall cwd creat mk f0 mi hash dir f1 t sha1 l w tr,
    New cwd creat mk f0 mi hash dir = (f1, Ok t) -> mi_length mi <> 0 -> 0 <= mi_piece_length mi < 2 ^ 30 ->
    Forall reads_bytes l -> run sha1 l (start (mkW t f1 [] [] false)) = (w, tr) ->
    exists h, t_osfiles t = [h] /\ forall q, 0 <= q ->
      byte_at (contents (w_fs (sh_w (wo_sh w))) h) q = 0 \/
      exists m d, In m (handed tr) /\ verified sha1 t m /\ data_of m = Ok d /\
        m_index m * mi_piece_length mi + m_offset m <= q < m_index m * mi_piece_length mi + m_offset m + zlen d /\
        byte_at (contents (w_fs (sh_w (wo_sh w))) h) q = byte_at d (q - (m_index m * mi_piece_length mi + m_offset m)).
Proof. exact disk_verified_single. Qed.
(* The files and the torrent are those WritePiece makes of the messages received,
   and it receives what the peers handed over, in that order, without loss.     *)
Theorem C27_writer_in_order :
  forall sha1 w0 l w tr, run sha1 l (start w0) = (w, tr) ->
    w_fs (sh_w (wo_sh w)) = w_fs (WritePiece w0 (wo_taken w)) /\
    t_downloaded (sh_t (wo_sh w)) = t_downloaded (w_t (WritePiece w0 (wo_taken w))) /\
    handed tr = wo_taken w ++ held w ++ sh_ch (wo_sh w).
Proof. exact writer_in_order. Qed.
Example C27_ex : forall sha1, exists w tr, run sha1 misplaced (wx_start sha1) = (w, tr) /\
  contents (w_fs (sh_w (wo_sh w))) wx_place = [0; 0; 0; 0; 1; 2; 3; 4] /\ map m_offset (handed tr) = [4] /\ Forall (verified sha1 (wx_t sha1)) (handed tr).
Proof.
  intros sha1. destruct (misplaced_run sha1) as (w & tr & H1 & H2 & H3). exists w, tr. rewrite H2.
  repeat split; try assumption. constructor; [|constructor]. eexists _, _. repeat split; reflexivity.
Qed.
(* a message whose data has another hash is dropped *)
Example C27_ex_bad : let sha1 b := if beq b [1; 2; 3; 4] then repeat 1 20 else repeat 2 20 in
  let '(w, tr) := run sha1 (ASpawn false 0 :: to_read 0 ++ [APeer 0 (rd (piece_body 0 0 [1; 2; 3; 5])); APeer 0 go; AWriter; AWriter]) (wx_start sha1) in
  handed tr = [] /\ contents (w_fs (sh_w (wo_sh w))) wx_place = [] /\ crashed w = false.
Proof. vm_compute. repeat split; reflexivity. Qed.

(* ---------- C36 ---------- *)
Theorem C36_accepted_iff :
  forall hs hash pid, isHandshakeValid hs hash pid = true <->
    exists rest reserved id, hs = 19 :: str "BitTorrent protocol" ++ reserved ++ hash ++ id ++ rest /\
      length reserved = 8%nat /\ length hash = 20%nat /\ length id = 20%nat.
Proof. exact handshake_valid. Qed.
Theorem C36_own_handshake :
  forall id hash hash' pid, length hash = 20%nat -> length id = 20%nat ->
    length (createHandshake id hash) = 68%nat /\
    (isHandshakeValid (createHandshake id hash) hash' pid = true <-> hash' = hash).
Proof. exact own_handshake. Qed.
Theorem C36_client_id :
  forall random, length (createClientId random) = 20%nat /\ firstn 8 (createClientId random) = str "-GO0100-".
Proof. exact client_id. Qed.
(* cs: the received bytes as they arrive; tl: what follows (the end, an error) *)
Theorem C36_announce :
  forall dial write cs tl id hash, (forall b tl', tl <> Chunk b :: tl') ->
    (snd (Announce dial write (map Chunk cs ++ tl) id hash) = AOk <->
     dial = true /\ write = true /\ exists res pid rest,
       concat cs = 19 :: str "BitTorrent protocol" ++ res ++ hash ++ pid ++ rest /\
       length res = 8%nat /\ length hash = 20%nat /\ length pid = 20%nat).
Proof. exact announce_ok. Qed.
Example C36_ex : let hs := createHandshake (createClientId (repeat 7 12)) (repeat 5 20) in
  isHandshakeValid hs (repeat 5 20) [] = true /\ isHandshakeValid hs (repeat 6 20) [] = false /\
  isHandshakeValid (firstn 67 hs) (repeat 5 20) [] = false /\
  snd (Announce true true (map Chunk [firstn 30 hs; skipn 30 hs; [1; 2]] ++ [Eof]) [] (repeat 5 20)) = AOk /\
  snd (Announce true true (map Chunk [firstn 30 hs] ++ [Eof]) [] (repeat 5 20)) <> AOk.
Proof. vm_compute. repeat split; try reflexivity; discriminate. Qed.

(* ---------- C37 ---------- *)
Theorem C37_state_follows_messages :
  forall sha1 w0 l w tr k r, run sha1 l (start w0) = (w, tr) -> nth_error (wo_peers w) k = Some r ->
    last_switch ChokeT UnchokeT (events_of k tr) true (s_choked (cl_status (r_peer r))) /\
    last_switch InterestedT NotInterestedT (events_of k tr) false (s_interested (pr_status (r_peer r))) /\
    s_choked (pr_status (r_peer r)) = true.
Proof. exact follows_run. Qed.
Definition statuses (w : world) (k : nat) : option (bool * bool) :=
  match nth_error (wo_peers w) k with
  | Some r => Some (s_choked (cl_status (r_peer r)), s_interested (pr_status (r_peer r)))
  | None => None
  end.
Definition reads (k : nat) (bs : list bytes) : list action := map (fun b => APeer k (rd b)) bs.
Example C37_ex : let st bs := statuses (fst (run (fun _ => []) (ASpawn false 0 :: to_read 0 ++ bs) (start (px 4 2)))) 0 in
  st [] = Some (true, false) /\ st (reads 0 [[1]]) = Some (false, false) /\
  st (reads 0 [[2]] ++ [APeer 0 go] ++ reads 0 [[1]]) = Some (false, true) /\
  st (reads 0 [[1]] ++ [APeer 0 go] ++ reads 0 [[0]]) = Some (true, false) /\ st (reads 0 [[9; 9; 9]]) = Some (true, false).
Proof. vm_compute. repeat split; reflexivity. Qed.

(* ---------- C65 ---------- *)
(* the pieces a peer is believed to have: exactly those of its last bitfield and of
   the have messages (and verified pieces from it) since                        *)
Theorem C65_known_pieces :
  forall sha1 w0 l w tr k r, run sha1 l (start w0) = (w, tr) -> nth_error (wo_peers w) k = Some r ->
    (forall b, In (EReadOk b) (events_of k tr) -> Forall is_byte b) ->
    forall i, 0 <= i -> (bs_test (pr_bits (r_peer r)) i = true <-> known (events_of k tr) i).
Proof. exact knows_run. Qed.
Definition believed (w : world) (k : nat) (i : Z) : bool :=
  match nth_error (wo_peers w) k with Some r => bs_test (pr_bits (r_peer r)) i | None => false end.
Example C65_ex : let w := fst (run (fun _ => []) (ASpawn false 0 :: to_read 0 ++ reads 0 [[4; 0; 0; 0; 1]]) (start (px 4 2))) in
  map (believed w 0) [0; 1; 2] = [false; true; false].
Proof. reflexivity. Qed.

(* ---------- C38 ---------- *)
(* Full claim: once a peer has unchoked us there is a continuation in which it is
   sent a request.  The code never sets ClientStatus.Interested.                *)
Theorem C38_unchoked_peer_asked_refuted :
  forall sha1,
  ~ (forall w0 l w tr k r, Forall (spawns (eq false)) l -> run sha1 l (start w0) = (w, tr) ->
       crashed w = false -> nth_error (wo_peers w) k = Some r -> r_pc r <> PRet -> s_choked (cl_status (r_peer r)) = false ->
       exists l2 w2 tr2, Forall (spawns (eq false)) l2 /\ run sha1 l2 w = (w2, tr2) /\ requested (events_of k tr2) <> []).
Proof. exact asked_refuted. Qed.
Theorem C38_nothing_ever_requested :
  forall sha1 w0 l w tr, Forall (spawns (eq false)) l -> run sha1 l (start w0) = (w, tr) ->
    (forall k m, In (k, ESent m) tr -> Send m = frame [] \/ Send m = frame [2]) /\
    (forall k m, ~ In (k, ECreate m) tr) /\ (forall k i h, ~ In (k, EClaim i h) tr).
Proof. exact only_signals. Qed.
(* With the flag set Run does ask; missing is the assignment of the flag. *)
Theorem C38_asked_if_interested_partial :
  forall sha1 i s r, r_pc r = PReq -> s_choked (cl_status (r_peer r)) = false ->
    s_interested (cl_status (r_peer r)) = true -> r_sent r = false -> pr_block (r_peer r) < pr_bnum (r_peer r) ->
    exists r1 m, pstep sha1 i s r = Some (s, r1, [ECreate m]) /\
      m = CreatePieceMessage (u32 (pr_piece (r_peer r))) (u32 (u64 (pr_block (r_peer r) * 131072))) 131072 /\
      forall j, i_ok j = true -> exists r2, pstep sha1 j s r1 = Some (s, r2, [ESent m]) /\ r_sent r2 = true.
Proof. exact asks_if_interested. Qed.
Definition session (b : bool) : list action := ASpawn b 0 :: to_read 0 ++ reads 0 [[1]] ++ repeat (APeer 0 go) 2.
Example C38_ex : let sent b := requested (events_of 0 (snd (run (fun _ => []) (session b) (start (px 131072 2))))) in
  sent false = [] /\ sent true = [CreatePieceMessage 0 0 131072].
Proof. vm_compute. split; reflexivity. Qed.

(* ---------- C39 ---------- *)
Theorem C39_one_outstanding :
  forall sha1 w0 l w tr k a b c m1 m2, run sha1 l (start w0) = (w, tr) ->
    events_of k tr = a ++ ESent m1 :: b ++ ESent m2 :: c -> is_request m1 -> is_request m2 -> In EReadErr b.
Proof. exact one_outstanding. Qed.
Example C39_ex :
  let tr := snd (run (fun _ => []) (session true ++ [APeer 0 go; APeer 0 go] ++ repeat (APeer 0 go) 6) (start (px 262144 2))) in
  map (fun e => match e with ESent m => if m_type m =? RequestT then Some (Some (m_offset m)) else None | EReadErr => Some None | _ => None end) (events_of 0 tr) =
    [None; None; None; Some (Some 0); Some None; None; Some (Some 131072)].
Proof. reflexivity. Qed.

(* ---------- C40 ---------- *)
(* Full claim: for every torrent there is at least one schedule (of any number of
   cooperative peers) in which every piece is requested.                        *)
Theorem C40_all_pieces_requested_refuted :
  forall sha1,
  ~ (forall w0, 0 < zlen (t_pieces (w_t w0)) -> exists l w tr, run sha1 l (start w0) = (w, tr) /\
       forall i, 0 <= i < zlen (t_pieces (w_t w0)) -> exists k m, In (k, ESent m) tr /\ is_request m /\ m_index m = i).
Proof. exact not_all_requested. Qed.
(* pieces of at least 128 KiB: piece 0 only, in every schedule *)
Theorem C40_only_piece_zero :
  forall sha1 w0 l w tr, 131072 <= u64 (t_plen (w_t w0)) -> run sha1 l (start w0) = (w, tr) ->
    (forall k m, In (k, ESent m) tr -> is_request m -> m_index m = 0) /\ (forall k i h, ~ In (k, EClaim i h) tr).
Proof. exact only_piece_zero. Qed.
(* smaller pieces: in each announce round at most as many pieces as peers *)
Theorem C40_one_piece_per_peer :
  forall sha1 w0 l w tr, u64 (t_plen (w_t w0)) < 131072 -> run sha1 l (start w0) = (w, tr) ->
    (forall g, zlen (claims_of g w tr) <= peers_of g w) /\
    (forall k m, In (k, ESent m) tr -> is_request m ->
       exists r i, nth_error (wo_peers w) k = Some r /\ In i (claims_of (r_grp r) w tr) /\ m = CreatePieceMessage (u32 i) 0 131072).
Proof. exact small_claims. Qed.
Definition claim_by (k : nat) (i : Z) : list action :=
  ASpawn true 0 :: to_read k ++ [APeer k (rd [4; 0; 0; 0; i]); APeer k go; APeer k (rd [1])] ++ repeat (APeer k go) 7.
Example C40_ex_small :
  let '(w, tr) := run (fun _ => []) (claim_by 0 1 ++ claim_by 1 0) (start (px 16384 3)) in
  claims_of 0 w tr = [1; 0] /\ peers_of 0 w = 2 /\
  map m_index (requested (events_of 0 tr)) = [1] /\ map m_index (requested (events_of 1 tr)) = [0].
Proof. vm_compute. repeat split; reflexivity. Qed.
Example C40_ex_large :
  let tr := snd (run (fun _ => []) (claim_by 0 1 ++ claim_by 1 0) (start (px 131072 3))) in
  reserved tr = [] /\ map m_index (requested (events_of 0 tr)) = [0] /\ map m_index (requested (events_of 1 tr)) = [0].
Proof. vm_compute. repeat split; reflexivity. Qed.

(* ---------- C41 ---------- *)
Theorem C41_requests_known_refuted :
  forall sha1,
  ~ (forall w0 l w tr k a m c, run sha1 l (start w0) = (w, tr) -> events_of k tr = a ++ ESent m :: c -> is_request m ->
       known a (m_index m)) /\
  ~ (forall w0 l w tr k m, run sha1 l (start w0) = (w, tr) -> In (k, ESent m) tr -> is_request m -> In (m_index m) (reserved tr)).
Proof. exact request_unknown. Qed.
(* What holds for pieces reserved through Next: the peer has advertised them and no
   piece is reserved twice.  Missing: every request is for a reserved piece.    *)
Theorem C41_reserved_known_partial :
  forall sha1 w0 l w tr k, run sha1 l (start w0) = (w, tr) ->
    (forall b, In (EReadOk b) (events_of k tr) -> Forall is_byte b) ->
    forall a i h c, events_of k tr = a ++ EClaim i h :: c -> 0 <= i /\ known a i.
Proof. exact claims_known_run. Qed.
Theorem C41_reserved_once_partial :
  forall sha1 w0 l w tr, run sha1 l (start w0) = (w, tr) ->
    NoDup (reserved tr) /\ forall i, In i (reserved tr) ->
      0 <= i < zlen (t_requested (w_t w0)) /\ bs_test (t_requested (w_t w0)) i = false.
Proof. exact reserved_once. Qed.
Example C41_ex : let tr := snd (run (fun _ => []) (claim_by 0 1 ++ claim_by 1 0) (start (px 16384 3))) in
  reserved tr = [1; 0] /\ claimed (events_of 1 tr) = [0].
Proof. vm_compute. split; reflexivity. Qed.
Example C41_ex_zero : let tr := snd (run (fun _ => []) ask_zero (start (px 131072 2))) in
  requested (events_of 0 tr) = [CreatePieceMessage 0 0 131072] /\ reserved tr = [].
Proof. vm_compute. split; reflexivity. Qed.

(* ---------- C42 ---------- *)
Theorem C42_claimed_piece_covered_refuted :
  forall sha1,
  ~ (forall w0 l w tr k r c x, 0 < t_plen (w_t w0) < 2 ^ 32 -> run sha1 l (start w0) = (w, tr) -> nth_error (wo_peers w) k = Some r ->
       pr_bnum (r_peer r) <= pr_block (r_peer r) -> claimed (events_of k tr) = c ++ [x] ->
       covers (t_plen (w_t w0)) (filter (fun m => m_index m =? x) (created (events_of k tr)))).
Proof. exact claimed_not_covered. Qed.
(* the exact requests a peer creates, in order *)
Theorem C42_requests_exact :
  forall sha1 w0 l w tr k r, 0 <= t_plen (w_t w0) < 2 ^ 32 ->
    run sha1 l (start w0) = (w, tr) -> nth_error (wo_peers w) k = Some r ->
    let bn := t_plen (w_t w0) / 131072 in
    (claimed (events_of k tr) = [] -> exists n, 0 <= n <= bn /\ created (events_of k tr) = blocks 0 n) /\
    (forall c x, claimed (events_of k tr) = c ++ [x] -> exists n, 1 <= n <= Z.max 1 bn /\ created (events_of k tr) =
        blocks 0 bn ++ flat_map (fun i => blocks (u32 i) (Z.max 1 bn)) c ++ blocks (u32 x) n).
Proof. exact created_exact. Qed.
Theorem C42_covered_iff_partial :
  forall i plen, 0 <= plen -> (covers plen (blocks i (Z.max 1 (plen / 131072))) <-> 0 < plen /\ plen mod 131072 = 0).
Proof. exact cover_exact. Qed.
(* with C40 together: a piece that is claimed at all is never covered *)
Theorem C42_claimed_never_covered :
  forall sha1 w0 l w tr k r x c, 0 <= t_plen (w_t w0) < 2 ^ 32 -> run sha1 l (start w0) = (w, tr) ->
    nth_error (wo_peers w) k = Some r -> claimed (events_of k tr) = x :: c ->
    t_plen (w_t w0) < 131072 /\ created (events_of k tr) = flat_map (fun i => blocks (u32 i) 1) (x :: c) /\
    forall i, ~ covers (t_plen (w_t w0)) (blocks (u32 i) 1).
Proof. exact claimed_never_covered. Qed.
Example C42_ex_zero : let w := run (fun _ => []) (session true ++ [APeer 0 go; APeer 0 go] ++ repeat (APeer 0 go) 6) (start (px 300000 2)) in
  created (events_of 0 (snd w)) = blocks 0 2 /\ claimed (events_of 0 (snd w)) = [] /\ ~ covers 300000 (blocks 0 2) /\ covers 262144 (blocks 0 2).
Proof.
  split; [reflexivity|]. split; [reflexivity|]. split.
  - intro H. apply blocks_cover in H; lia.
  - apply blocks_cover; lia.
Qed.
Example C42_ex_claimed : let w := run (fun _ => []) ask_small (start (px 16384 2)) in
  claimed (events_of 0 (snd w)) = [0] /\ created (events_of 0 (snd w)) = [CreatePieceMessage 0 0 131072].
Proof. vm_compute. split; reflexivity. Qed.

(* ---------- C43 ---------- *)
(* On cancellation: nine more steps of the peer and one more request at most; and
   the peer can go on until it returns unless the channel to the writer is full. *)
Theorem C43_cancelled_partial :
  forall sha1 l w k r w' tr, sh_cancel (wo_sh w) = true -> nth_error (wo_peers w) k = Some r -> run sha1 l w = (w', tr) ->
    moves sha1 k l w <= 9 /\ zlen (requested (events_of k tr)) <= 1 /\
    exists r', nth_error (wo_peers w') k = Some r' /\
      forall i, pstep sha1 i (wo_sh w') r' = None ->
        r_pc r' = PRet \/ r_pc r' = PPanic \/ exists u m, r_pc r' = PPut u m /\ sh_closed (wo_sh w') = false /\ 1024 <= zlen (sh_ch (wo_sh w')).
Proof. exact cancelled_peer. Qed.
Theorem C43_no_request_after_cancel_refuted :
  forall sha1,
  ~ (forall w0 l w tr l2 w2 tr2 k, run sha1 l (start w0) = (w, tr) -> sh_cancel (wo_sh w) = true -> run sha1 l2 w = (w2, tr2) ->
       requested (events_of k tr2) = []).
Proof. exact asks_after_cancel. Qed.
(* On completion: one more request at most. *)
Theorem C43_done_partial :
  forall sha1 w0 l1 l2 w1 e1 w2 e2 k, Forall reads_bytes (l1 ++ l2) ->
    zlen (t_pieces (w_t w0)) <= zlen (t_downloaded (w_t w0)) ->
    run sha1 l1 (start w0) = (w1, e1) -> run sha1 l2 w1 = (w2, e2) -> Done (sh_t (wo_sh w1)) = true ->
    (k < length (wo_peers w1))%nat ->
    Done (sh_t (wo_sh w2)) = true /\ zlen (requested (events_of k e2)) <= 1.
Proof. exact done_requests_bound. Qed.
(* But no bound on what a choked peer's goroutine still does: unchoke does not look
   at Done.                                                                     *)
Theorem C43_returns_when_done_refuted :
  forall sha1,
  ~ (exists bound, forall w0 l w tr l2 w2 tr2 k r, run sha1 l (start w0) = (w, tr) -> crashed w = false -> Done (sh_t (wo_sh w)) = true ->
       nth_error (wo_peers w) k = Some r -> run sha1 l2 w = (w2, tr2) -> zlen (events_of k tr2) <= bound).
Proof. exact done_goes_on_refuted. Qed.
Example C43_ex_cancel : let '(w, _) := run (fun _ => []) (session true ++ [ACancel]) (start (px 131072 2)) in
  sh_cancel (wo_sh w) = true /\ moves (fun _ => []) 0 (repeat (APeer 0 go) 20) w = 3 /\
  map r_pc (wo_peers (fst (run (fun _ => []) (repeat (APeer 0 go) 20) w))) = [PRet].
Proof. vm_compute. repeat split; reflexivity. Qed.
(* the nine steps, with a request among them *)
Example C43_ex_nine : let '(w, _) := run (fun _ => []) (ASpawn true 0 :: to_read 0 ++ [APeer 0 (rd [4; 0; 0; 0; 0]); APeer 0 go; APeer 0 (rd [1]); APeer 0 go; ACancel]) (start (px 16384 2)) in
  let '(w', tr) := run (fun _ => []) (repeat (APeer 0 go) 20) w in
  moves (fun _ => []) 0 (repeat (APeer 0 go) 20) w = 9 /\ zlen (requested (events_of 0 tr)) = 1 /\ map r_pc (wo_peers w') = [PRet].
Proof. vm_compute. repeat split; reflexivity. Qed.
Example C43_ex_done : forall sha1, exists w tr r, run sha1 both_pieces (wx_start sha1) = (w, tr) /\
  crashed w = false /\ sh_cancel (wo_sh w) = false /\ Done (sh_t (wo_sh w)) = true /\
  nth_error (wo_peers w) 0 = Some r /\ r_pc r = PUTop.
Proof. exact both_pieces_run. Qed.

Print Assumptions C27_stored_in_place_refuted.
Print Assumptions C27_only_verified_stored_partial.
Print Assumptions C27_only_verified_stored_single_partial.
Print Assumptions C27_writer_in_order.
Print Assumptions C36_accepted_iff.
Print Assumptions C36_own_handshake.
Print Assumptions C36_client_id.
Print Assumptions C36_announce.
Print Assumptions C37_state_follows_messages.
Print Assumptions C65_known_pieces.
Print Assumptions C38_unchoked_peer_asked_refuted.
Print Assumptions C38_nothing_ever_requested.
Print Assumptions C38_asked_if_interested_partial.
Print Assumptions C39_one_outstanding.
Print Assumptions C40_all_pieces_requested_refuted.
Print Assumptions C40_only_piece_zero.
Print Assumptions C40_one_piece_per_peer.
Print Assumptions C41_requests_known_refuted.
Print Assumptions C41_reserved_known_partial.
Print Assumptions C41_reserved_once_partial.
Print Assumptions C42_claimed_piece_covered_refuted.
Print Assumptions C42_requests_exact.
Print Assumptions C42_covered_iff_partial.
Print Assumptions C42_claimed_never_covered.
Print Assumptions C43_cancelled_partial.
Print Assumptions C43_no_request_after_cancel_refuted.
Print Assumptions C43_done_partial.
Print Assumptions C43_returns_when_done_refuted.
