(* Data on the way to the disk (property C159).                                *)
From Verif Require Import Base ProofBase SpecPath ModelBitset ModelMsg ModelTorrent ModelConn ModelPeer ModelSystem ModelTracker ModelManager ModelClient
  SpecPeer SpecOrigin SpecWaiting ProofWitness ProofWaiting.

(* ---------- C159 ---------- *)
(* at most one message for each peer, 1024 in the channel and one at the writer *)
Theorem C159_bounded :
  forall cf t f outs urls l c tr, crun cf l (client_start cf t f outs urls) = (c, tr) -> waiting (c_wo c) <= zlen (wo_peers (c_wo c)) + 1025.
Proof. exact client_waiting. Qed.
(* whatever its connection and the clock do, a goroutine that has not ended waits
   for nobody but the writer, and for it only while 1024 messages are in the channel *)
Theorem C159_waits_exact :
  forall sha1 w r, stuck sha1 w r <-> ended r \/ offering r = true /\ sh_closed (wo_sh w) = false /\ 1024 <= zlen (sh_ch (wo_sh w)).
Proof. exact stuck_iff. Qed.
(* after two steps of the writer it can hand over its message *)
Theorem C159_freed :
  forall sha1 w0 l w tr k r w' tr', run sha1 l (start w0) = (w, tr) -> nth_error (wo_peers w) k = Some r -> crashed w = false ->
    stuck sha1 w r -> ~ ended r -> run sha1 [AWriter; AWriter] w = (w', tr') -> crashed w' = false ->
    nth_error (wo_peers w') k = Some r /\ ~ stuck sha1 w' r /\
    exists m u w2, r_pc r = PPut u m /\ run sha1 [APeer k (mkI false false None false)] w' = (w2, [(k, EPut m)]).
Proof. exact unstuck. Qed.
(* a fast peer and a writer that does not come to its turn *)
Definition tx_quiet : action := APeer 0 (mkI false true None false).
Definition tx_read (b : bytes) : action := APeer 0 (mkI false true (Some b) false).
Definition tx_piece : list action := repeat tx_quiet 6 ++ tx_read (piece_bytes 0 0 [1; 2; 3; 4]) :: repeat tx_quiet 2 ++ [tx_read []].
Definition tx_run (n : nat) (l : list action) : world :=
  let sha1 := fun _ => repeat 0 20 in
  fst (run sha1 l (fst (run sha1 (ASpawn false 0 :: concat (repeat tx_piece n) ++ firstn 7 tx_piece) (start (mkW (wx_t sha1) wx_fs [] [] false))))).
Definition tx_see (w : world) : bool * list bool * Z * Z * Z := (crashed w, map offering (wo_peers w), zlen (sh_ch (wo_sh w)), waiting w, zlen (wo_taken w)).
Example C159_ex :
  tx_see (tx_run 3 []) = (false, [true], 3, 4, 0) /\ tx_see (tx_run 3 [tx_quiet]) = (false, [false], 4, 4, 0) /\
  tx_see (tx_run (Z.to_nat 1024) []) = (false, [true], 1024, 1025, 0) /\ tx_see (tx_run (Z.to_nat 1024) [tx_quiet]) = (false, [true], 1024, 1025, 0) /\
  tx_see (tx_run (Z.to_nat 1024) [AWriter; AWriter; tx_quiet]) = (false, [false], 1024, 1024, 1).
Proof. vm_compute. repeat split; reflexivity. Qed.

Print Assumptions C159_bounded.
Print Assumptions C159_waits_exact.
Print Assumptions C159_freed.
