(* Data that does not match its hash (properties C161, C162).                  *)
From Verif Require Import Base ProofBase Sha1 SpecPath SpecBencode SpecTorrent SpecFinish SpecCmd SpecProgram SpecClient SpecOrigin SpecIdle SpecCorrupt
  ModelPath ModelStats ModelTorrent ModelPeer ModelSystem ModelTracker ModelManager ModelClient ModelCmd ModelProgram ProofWitness ProofClient4 ProofProgram2 ProofCorrupt.

(* ---------- C161 ---------- *)
(* Two courses of the program that differ only in what useless messages the peers
   send (for instance a corrupt piece in one, a keep-alive in the other) end in the
   same state and do the same on the way.                                      *)
Theorem C161_no_effect :
  forall cf look o f flags out file outs order d M w c0 l l' p tr p' tr',
    o_file o file = Some d -> SpecBencode.fits d -> torrent_doc d M w -> prog_start cf look o f flags (CDownload out file) outs order = PRun c0 ->
    Forall2 (swapped (cf_sha1 cf) M) l l' -> prog_run cf l (PRun c0) = (p, tr) -> prog_run cf l' (PRun c0) = (p', tr') ->
    p' = p /\ Forall2 (alike (cf_sha1 cf) M) tr tr'.
Proof. exact swap_prog. Qed.
(* Reading one leaves all as it was but the place in Run of the peer that sent it. *)
Theorem C161_one_message :
  forall cf look o f flags out file outs order d M w c0 l c tr k i c' es b,
    o_file o file = Some d -> SpecBencode.fits d -> torrent_doc d M w -> prog_start cf look o f flags (CDownload out file) outs order = PRun c0 ->
    prog_run cf l (PRun c0) = (PRun c, tr) -> prog_run cf [KPeer k i] (PRun c) = (PRun c', es) -> In (VSys k (EReadOk b)) es -> useless (cf_sha1 cf) M b ->
    wo_sh (c_wo c') = wo_sh (c_wo c) /\ c_mgr c' = c_mgr c /\
    exists r u, nth_error (wo_peers (c_wo c)) k = Some r /\ nth_error (wo_peers (c_wo c')) k = Some (with_peer r (if u : bool then PReq else PTop) (r_peer r)).
Proof. exact goes_on. Qed.
(* the torrent of C119; the peer sends a corrupt piece twice, or a keep-alive
   and a message of id 20, and then the two pieces; the files come out the same *)
Definition honest : list cact := repeat (KPeer 0 go) 6 ++ cx_piece 0 [1; 2; 3; 4] ++ cx_piece 1 [5; 6; 7; 8].
Definition kx (b b' : bytes) : list cact := meets ++ repeat (KPeer 0 go) 6 ++ [KPeer 0 (rd b); KPeer 0 go; KPeer 0 (rd b')] ++ honest.
Example C161_ex_hyps : fits px_doc /\ torrent_doc px_doc px_M px_info /\ (exists c0, px_prog (fun _ => None) = PRun c0) /\
  corrupt sha1 px_M wrong /\ Forall2 (swapped sha1 px_M) (kx wrong wrong) (kx [] [20; 0]).
Proof.
  split; [exact px_fits|]. split; [exact px_torrent|]. split; [exact (px_starts _)|]. split; [exact wrong_corrupt|].
  assert (R : forall l, Forall2 (swapped sha1 px_M) l l) by (induction l; constructor; [now left|assumption]).
  unfold kx. apply Forall2_app; [apply R|]. apply Forall2_app; [apply R|]. apply Forall2_app; [|apply R].
  apply Forall2_cons; [|apply Forall2_cons; [now left|apply Forall2_cons; [|apply Forall2_nil]]]; right; eexists _, _, _, _, _, _;
    (split; [reflexivity|]); (split; [reflexivity|]); (split; [left; exact wrong_corrupt|]); right; [now left|]. right. exists 20, [0]. split; [reflexivity|]. left. lia.
Qed.
Example C161_ex : let go l := prog_run (cx_conf sha1) l (px_prog (fun _ => None)) in
  fst (go (kx wrong wrong)) = fst (go (kx [] [20; 0])) /\ prog_fs (fst (go (kx wrong wrong))) px_place = Some [1; 2; 3; 4; 5; 6; 7; 8] /\
  bodies_of 0 (sevs (snd (go (kx wrong wrong)))) = [wrong; wrong; piece_bytes 0 0 [1; 2; 3; 4]; piece_bytes 1 0 [5; 6; 7; 8]].
Proof. vm_compute. repeat split; reflexivity. Qed.

(* ---------- C162 ---------- *)
(* However many corrupt pieces it has sent, a peer may still be served ... *)
Theorem C162_dropped_refuted : ~ exists n, dropped_after n.
Proof. exact dropped_refuted. Qed.
(* ... for instance this one, after 2 n of them. *)
Theorem C162_goes_on :
  forall n, exists c r tr, prog_run (cx_conf sha1) (meets ++ concat (repeat (sends wrong) n)) (px_prog (fun _ => None)) = (PRun c, tr) /\
    bodies_of 0 (sevs tr) = concat (repeat [wrong; wrong] n) /\ nth_error (wo_peers (c_wo c)) 0 = Some r /\ r_pc r = PTop.
Proof. exact never_dropped. Qed.

Print Assumptions C161_no_effect.
Print Assumptions C161_one_message.
Print Assumptions C162_dropped_refuted.
Print Assumptions C162_goes_on.
