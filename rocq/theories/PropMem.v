(* Theorems about the memory a peer can make the client use (properties C101, C102). *)
From Verif Require Import Base ModelBitset ModelMsg ModelTorrent ModelConn ModelPeer ModelSystem ModelMem SpecMsg SpecMem ProofMem ProofWitness.

(* ---------- C101 ---------- *)
(* The full claim: reading a message allocates no more than what has arrived, up to a constant. *)
Theorem C101_proportional_refuted :
  ~ (exists c, c < 2 ^ 32 - 1 /\ forall s, ev_bytes s -> zsum (allocs s) <= c + arriving s).
Proof.
  intros (c & Hc & H). specialize (H [Chunk [255; 255; 255; 255]]).
  assert (A : zsum (allocs [Chunk [255; 255; 255; 255]]) = 2 ^ 32 + 3) by reflexivity.
  assert (B : arriving [Chunk [255; 255; 255; 255]] = 4) by reflexivity.
  rewrite A, B in H. assert (ev_bytes [Chunk [255; 255; 255; 255]]) by (repeat constructor; unfold is_byte; lia). specialize (H H0). lia.
Qed.
(* the constant it does hold with *)
Theorem C101_bound_exact : forall s, ev_bytes s -> zsum (allocs s) <= 4 + (2 ^ 32 - 1).
Proof. exact allocs_bound. Qed.
(* and a message that is read takes what it has on the wire *)
Theorem C101_complete_partial :
  forall s b s', ev_bytes s -> ReadPeerMessage s = (ROk b, s') -> allocs s = [4; zlen b] /\ arriving s = arriving s' + zsum (allocs s).
Proof. exact allocs_success. Qed.
Example C101_ex : let s := [Chunk [0; 0]; Chunk [0; 2; 9; 8; 7]] in
  ev_bytes s /\ ReadPeerMessage s = (ROk [9; 8], [Chunk [7]]) /\ allocs s = [4; 2] /\ arriving s = 7.
Proof. split; [repeat constructor; unfold is_byte; lia|]. repeat split. Qed.

(* ---------- C102 ---------- *)
(* The full claim: the set of pieces kept for a peer has room for the pieces of the torrent and what the peer has sent. *)
Theorem C102_proportional_refuted :
  forall sha1, ~ (exists c, c < 2 ^ 31 /\ forall w0 l w tr k r, run sha1 l (start w0) = (w, tr) -> nth_error (wo_peers w) k = Some r ->
    0 <= t_pnum (w_t w0) < 2 ^ 51 -> (forall b, In (EReadOk b) (events_of k tr) -> Forall is_byte b) ->
    bs_len (pr_bits (r_peer r)) <= t_pnum (w_t w0) + c + 8 * received (events_of k tr)).
Proof. exact far_have. Qed.
(* how much room there is *)
Theorem C102_room_exact :
  forall sha1 w0 l w tr k r, run sha1 l (start w0) = (w, tr) -> nth_error (wo_peers w) k = Some r ->
    0 <= t_pnum (w_t w0) < 2 ^ 51 -> (forall b, In (EReadOk b) (events_of k tr) -> Forall is_byte b) ->
    bs_len (pr_bits (r_peer r)) = fold_left room (events_of k tr) (t_pnum (w_t w0)).
Proof. exact room_run. Qed.
(* the claim for peers whose messages name pieces of the torrent only *)
Theorem C102_proportional_partial :
  forall sha1 w0 l w tr k r, run sha1 l (start w0) = (w, tr) -> nth_error (wo_peers w) k = Some r ->
    0 <= t_pnum (w_t w0) < 2 ^ 51 -> (forall b, In (EReadOk b) (events_of k tr) -> Forall is_byte b) ->
    (forall p, In (EReadOk (4 :: p)) (events_of k tr) -> 4 <= zlen p -> be_get (sub p 0 4) < t_pnum (w_t w0)) ->
    (forall m, In (EPut m) (events_of k tr) -> m_index m < t_pnum (w_t w0)) ->
    bs_len (pr_bits (r_peer r)) <= t_pnum (w_t w0) + 48 + 8 * received (events_of k tr).
Proof. intros. rewrite (room_run sha1 w0 l w tr k r) by assumption. apply room_bound; try assumption. lia. Qed.
Example C102_ex : let '(w, tr) := run (fun _ => []) (ASpawn false 0 :: to_read 0 ++ [APeer 0 (rd [5; 128; 0; 0; 0; 0; 0; 0; 0; 1])]) (start (px 4 2)) in
  match wo_peers w with r :: _ => bs_len (pr_bits (r_peer r)) | [] => 0 end = 128 /\ received (events_of 0 tr) = 10 /\
  fold_left room (events_of 0 tr) 2 = 128.
Proof. vm_compute. repeat split. Qed.

Print Assumptions C101_proportional_refuted.
Print Assumptions C101_bound_exact.
Print Assumptions C101_complete_partial.
Print Assumptions C102_proportional_refuted.
Print Assumptions C102_room_exact.
Print Assumptions C102_proportional_partial.
