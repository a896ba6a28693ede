(* A connected peer can complete a download (property C166).                   *)
From Verif Require Import Base ProofBase Sha1 SpecPath SpecBencode SpecTorrent SpecFinish SpecCmd SpecProgram SpecMsg SpecOrigin SpecArrive SpecPossible SpecRescue
  ModelPath ModelStats ModelTorrent ModelPeer ModelSystem ModelTracker ModelManager ModelClient ModelCmd ModelProgram ProofWitness ProofClient4 ProofProgram2 ProofArrive2 ProofRescue.

(* ---------- C166 ---------- *)
(* Whatever happened, as long as the process runs, no signal came and a peer is in
   Run: that peer alone (with the writer) can bring the download to its end.   *)
Theorem C166_rescue :
  forall cf look o f flags out file order d M w c0 ps N c l cl tr k,
    o_file o file = Some d -> SpecBencode.fits d -> torrent_doc d M w ->
    prog_start cf look o f flags (CDownload out file) [] order = PRun c0 -> out <> [] -> torrent_places (o_cwd o) out M ps -> NoDup ps ->
    Forall (fun n => 0 <= n) (file_lengths M) -> 0 < total (file_lengths M) <= 2 ^ 50 -> 0 < mi_piece_length M < 2 ^ 30 -> N <= 2 ^ 32 ->
    torrent_of (cf_sha1 cf) M N c -> Forall sends_bytes l -> ~ In KSignal l -> prog_run cf l (PRun c0) = (PRun cl, tr) -> prog_status (PRun cl) = None ->
    at_run cl k -> in_place (cf_sha1 cf) M tr -> no_known_collision (cf_sha1 cf) M N c tr ->
    exists l2 p2 tr2, Forall sends_bytes l2 /\ Forall (by_peer k) l2 /\ prog_run cf l2 (PRun cl) = (p2, tr2) /\ prog_status p2 = None /\
      complete (cf_sha1 cf) M (prog_fs p2) ps N.
Proof. exact rescue_prog. Qed.
(* the torrent of C119: corrupt data came for piece 1, then the right data of piece
   0, still on its way to the disk; then reading failed, and the peer waits.  C160_ex_hyps
   has the other hypotheses.                                                   *)
Definition rx_course : list cact :=
  px_begin ++ [KPeer 0 (rd (piece_body 1 0 [9; 9; 9; 9]))] ++ repeat (KPeer 0 go) 1 ++
  [KPeer 0 (rd (piece_body 0 0 [1; 2; 3; 4])); KPeer 0 go] ++ repeat (KPeer 0 go) 6 ++ [KPeer 0 (mkI false true None false)].
Definition rx_end : list cact := repeat (KPeer 0 go) 3 ++ [KPeer 0 (rd (piece_body 1 0 [5; 6; 7; 8])); KPeer 0 go] ++ repeat KWriter 8.
Lemma rx_facts : let '(p, tr) := prog_run (cx_conf sha1) rx_course (px_prog (fun _ => None)) in
  prog_status p = None /\ prog_fs p px_place = Some [] /\ reads tr = [piece_bytes 1 0 [9; 9; 9; 9]; piece_bytes 0 0 [1; 2; 3; 4]] /\
  match p with PRun cl => map r_pc (wo_peers (c_wo cl)) = [PUWait] | _ => False end.
Proof. vm_compute. repeat split; reflexivity. Qed.
Example C166_ex_hyps : let '(p, tr) := prog_run (cx_conf sha1) rx_course (px_prog (fun _ => None)) in
  Forall sends_bytes rx_course /\ ~ In KSignal rx_course /\ (exists cl, p = PRun cl /\ at_run cl 0) /\ prog_status p = None /\ in_place sha1 px_M tr /\
  no_known_collision sha1 px_M 2 [1; 2; 3; 4; 5; 6; 7; 8] tr.
Proof.
  pose proof rx_facts as F. destruct (prog_run _ _ _) as [p tr]. destruct F as (F1 & _ & F2 & F3). split; [|split; [|split; [|split; [exact F1|split]]]].
  - unfold rx_course, px_begin, announce1. cbn [repeat app]. repeat (apply Forall_cons; [first [exact I|vm_compute; discriminate|is_bytes]|]). apply Forall_nil.
  - unfold rx_course, px_begin, announce1. cbn [repeat app In]. intuition discriminate.
  - destruct p as [|cl]; [destruct F3|]. exists cl. split; [reflexivity|]. destruct (wo_peers (c_wo cl)) as [|r l] eqn:E; [discriminate|]. exists r. rewrite E. split; [reflexivity|].
    injection F3 as E1 _. rewrite E1. discriminate.
  - intros i off d Hi Ho H _. apply read_in in H. rewrite F2 in H. destruct H as [H|[H|[]]]; apply (f_equal (fun b => firstn 4 (skipn 5 b))) in H;
      change (firstn 4 (skipn 5 (piece_bytes i off d))) with (be32 off) in H; (apply (ProofMsg.be32_inj off 0); [unfold is_u32; lia|unfold is_u32; lia|now rewrite <- H]).
  - assert (K : forall d, known px_M 2 [1; 2; 3; 4; 5; 6; 7; 8] tr d -> d = [1; 2; 3; 4] \/ d = [5; 6; 7; 8] \/ d = [9; 9; 9; 9]).
    { intros d [(i & off & H)|(i & Hi & ->)].
      - apply read_in in H. rewrite F2 in H. rewrite <- (skip_body i off d). destruct H as [<-|[<-|[]]]; rewrite skip_body; auto.
      - assert (i = 0 \/ i = 1) as [->| ->] by lia; vm_compute; auto. }
    assert (A : sha1 [1; 2; 3; 4] <> sha1 [5; 6; 7; 8]) by (vm_compute; discriminate). assert (B : sha1 [1; 2; 3; 4] <> sha1 [9; 9; 9; 9]) by (vm_compute; discriminate).
    assert (C : sha1 [5; 6; 7; 8] <> sha1 [9; 9; 9; 9]) by (vm_compute; discriminate).
    intros d d' H H' E. apply K in H. apply K in H'. destruct H as [->|[->| ->]], H' as [->|[->| ->]]; congruence.
Qed.
Example C166_ex : let p := fst (prog_run (cx_conf sha1) rx_end (fst (prog_run (cx_conf sha1) rx_course (px_prog (fun _ => None))))) in
  prog_status p = None /\ prog_fs p px_place = Some [1; 2; 3; 4; 5; 6; 7; 8] /\ Forall (by_peer 0) rx_end.
Proof. split; [vm_compute; reflexivity|]. split; [vm_compute; reflexivity|]. unfold rx_end. cbn [repeat app]. repeat (apply Forall_cons; [first [exact I|reflexivity]|]). apply Forall_nil. Qed.

Print Assumptions C166_rescue.
