(* When every piece has arrived, the files are the torrent's content (property C124). *)
From Verif Require Import Base ProofBase Sha1 ModelBencode SpecBencode SpecPath ModelMsg ModelStats ModelTorrent ModelConn ModelPeer ModelSystem ModelTracker ModelManager ModelClient ModelCmd ModelProgram
  SpecMsg SpecPeer SpecTorrent SpecFinish SpecCmd SpecManager SpecClient SpecCrash SpecOrigin SpecProgram SpecArrive ProofWrite ProofWitness ProofCmd ProofClient4 ProofClient5 ProofProgram ProofProgram2 ProofArrive2.

(* ---------- C124 ---------- *)
(* Expected: once every piece has been handed to the writer and the writer has had
   four turns for every message, each piece of the files has its hash, if the
   process still runs and the writes succeed.                                  *)
Theorem C124_complete_refuted :
  ~ (forall cf look o f flags out file order d M w ps N l p tr l2 p' tr',
       o_file o file = Some d -> fits d -> torrent_doc d M w -> out <> [] -> torrent_places (o_cwd o) out M ps ->
       NoDup ps -> Forall (fun n => 0 <= n < 2 ^ 63) (file_lengths M) -> 0 < mi_piece_length M < 2 ^ 30 -> pieces_of M N -> Forall sends_bytes (l ++ l2) ->
       prog_run cf l (prog_start cf look o f flags (CDownload out file) [] order) = (p, tr) -> prog_run cf l2 p = (p', tr') ->
       no_collision (cf_sha1 cf) (tr ++ tr') ->
       (forall i, 0 <= i < N -> arrived M tr i) -> (4 * puts tr <= turns l2)%nat -> prog_status p' = None ->
       complete (cf_sha1 cf) M (prog_fs p') ps N).
Proof. exact complete_refuted. Qed.
(* It is so if no peer sends data with the right hash for another place in its piece
   (begin <> 0), also for torrents whose last piece is short.                  *)
Theorem C124_complete_partial :
  forall cf look o f flags out file order d M w ps N l p tr l2 p' tr',
    o_file o file = Some d -> fits d -> torrent_doc d M w -> out <> [] -> torrent_places (o_cwd o) out M ps ->
    NoDup ps -> Forall (fun n => 0 <= n < 2 ^ 63) (file_lengths M) -> 0 < mi_piece_length M < 2 ^ 30 -> pieces_of M N -> Forall sends_bytes (l ++ l2) ->
    prog_run cf l (prog_start cf look o f flags (CDownload out file) [] order) = (p, tr) -> prog_run cf l2 p = (p', tr') ->
    in_place (cf_sha1 cf) M (tr ++ tr') -> no_collision (cf_sha1 cf) (tr ++ tr') ->
    (forall i, 0 <= i < N -> arrived M tr i) -> (4 * puts tr <= turns l2)%nat -> prog_status p' = None ->
    complete (cf_sha1 cf) M (prog_fs p') ps N.
Proof. exact prog_complete. Qed.
(* the data of piece 0, sent for byte 4 of it, over piece 1 *)
Example C124_ex_over : let '(p, tr) := prog_run (cx_conf sha1) px_over (px_prog (fun _ => None)) in let '(p', tr') := prog_run (cx_conf sha1) (repeat KWriter 12) p in
  prog_status p' = None /\ puts tr = 3%nat /\ prog_fs p' px_place = Some [1; 2; 3; 4; 1; 2; 3; 4].
Proof. vm_compute. repeat split; reflexivity. Qed.
(* both pieces handed over before the writer has its first turn, then eight turns; seven are too few *)
Definition px_both : list cact := px_begin ++ filter (fun a => negb (is_writer a)) (cx_piece 0 [1; 2; 3; 4] ++ cx_piece 1 [5; 6; 7; 8]).
Example C124_ex_hyps : fits px_doc /\ torrent_doc px_doc px_M px_info /\ torrent_places [] (str "/o") px_M [px_place] /\ pieces_of px_M 2 /\
  (let '(p, tr) := prog_run (cx_conf sha1) px_both (px_prog (fun _ => None)) in let '(p', tr') := prog_run (cx_conf sha1) (repeat KWriter 8) p in
   (forall i, 0 <= i < 2 -> arrived px_M tr i) /\ in_place sha1 px_M (tr ++ tr') /\ no_collision sha1 (tr ++ tr') /\ puts tr = 2%nat /\ prog_status p' = None).
Proof.
  split; [exact px_fits|]. split; [exact px_torrent|]. split; [exact px_places|]. split; [exact px_pieces|].
  assert (F : let '(p, tr) := prog_run (cx_conf sha1) px_both (px_prog (fun _ => None)) in let '(p', tr') := prog_run (cx_conf sha1) (repeat KWriter 8) p in
    prog_status p' = None /\ reads (tr ++ tr') = [piece_bytes 0 0 [1; 2; 3; 4]; piece_bytes 1 0 [5; 6; 7; 8]] /\ puts tr = 2%nat /\
    put_msgs tr = [px_msg 0 0 [1; 2; 3; 4]; px_msg 1 0 [5; 6; 7; 8]]) by (vm_compute; repeat split; reflexivity).
  destruct (prog_run (cx_conf sha1) px_both (px_prog (fun _ => None))) as [p tr]. destruct (prog_run (cx_conf sha1) (repeat KWriter 8) p) as [p' tr'].
  destruct F as (F1 & F2 & F3 & F4). split; [|split; [|split; [|split; [exact F3|exact F1]]]].
  - intros i Hi. assert (D : i = 0 \/ i = 1) by lia. destruct D as [->| ->].
    + exact (px_arrived _ _ F4 0 [1; 2; 3; 4] (px_msg 0 0 [1; 2; 3; 4]) eq_refl (or_introl eq_refl) eq_refl).
    + exact (px_arrived _ _ F4 1 [5; 6; 7; 8] (px_msg 1 0 [5; 6; 7; 8]) eq_refl (or_intror (or_introl eq_refl)) eq_refl).
  - intros i off d Hi Ho H _. apply read_in in H. rewrite F2 in H. destruct H as [H|[H|[]]]; apply (f_equal (fun b => firstn 4 (skipn 5 b))) in H;
      change (firstn 4 (skipn 5 (piece_bytes i off d))) with (be32 off) in H; apply (ProofMsg.be32_inj off 0); [unfold is_u32; lia|unfold is_u32; lia|now rewrite <- H|unfold is_u32; lia|unfold is_u32; lia|now rewrite <- H].
  - apply px_no_collision. rewrite F2. apply Forall_cons; [left; reflexivity|]. apply Forall_cons; [right; reflexivity|apply Forall_nil].
Qed.
Example C124_ex : let '(p, tr) := prog_run (cx_conf sha1) px_both (px_prog (fun _ => None)) in
  prog_fs p px_place = Some [] /\ prog_fs (fst (prog_run (cx_conf sha1) (repeat KWriter 7) p)) px_place = Some [1; 2; 3; 4] /\
  prog_fs (fst (prog_run (cx_conf sha1) (repeat KWriter 8) p)) px_place = Some [1; 2; 3; 4; 5; 6; 7; 8].
Proof. vm_compute. repeat split; reflexivity. Qed.
(* seven bytes in pieces of four *)
Example C124_ex_short : let M := mkMetainfo [] [] [] [mkTfile 7 [str "a"]] 0 (str "n") 4 (repeat 0 40) in pieces_of M 2 /\ piece_size M 0 = 4 /\ piece_size M 1 = 3.
Proof. unfold pieces_of. cbn -[Z.pow]. split; [split; [lia|]; split; [lia|reflexivity]|]. split; reflexivity. Qed.

Print Assumptions C124_complete_refuted.
Print Assumptions C124_complete_partial.
