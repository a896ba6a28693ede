(* What a peer hears from us after the handshake (property C165).              *)
From Coq Require Import Permutation.
From Verif Require Import Base ProofBase Sha1 SpecPath SpecBencode SpecTorrent SpecFinish SpecCmd SpecProgram SpecSource SpecOrigin SpecHears
  ModelPath ModelStats ModelTorrent ModelPeer ModelSystem ModelTracker ModelManager ModelClient ModelCmd ModelProgram ProofWitness ProofClient4 ProofProgram2 ProofSource ProofCan ProofHears.

(* ---------- C165 ---------- *)
(* Whatever the torrent, the trackers, the peers, the files and the clock do.   *)
Theorem C165_only : forall cf t f outs urls l c tr k, crun cf l (client_start cf t f outs urls) = (c, tr) -> ours (said k tr).
Proof. exact only_ours. Qed.
(* And each such sequence can be heard, in a course of the whole process, if there
   is something to download and a tracker whose announces can succeed (C160).   *)
Theorem C165_exact :
  forall cf look o f flags out file order d M w c0 u,
    (forall us, Permutation (order us) us) -> o_file o file = Some d -> SpecBencode.fits d -> torrent_doc d M w ->
    prog_start cf look o f flags (CDownload out file) [] order = PRun c0 ->
    Forall (fun n => 0 <= n) (file_lengths M) -> 0 < total (file_lengths M) <= 2 ^ 50 -> 0 < mi_piece_length M < 2 ^ 30 ->
    zlen (cf_sha1 cf w) = 20 -> cf_ip cf (str "10.0.0.1") = Some (V4 [10; 0; 0; 1]) -> tracker_of M u -> http_url cf u ->
    forall ws, (exists l k c tr, Forall sends_bytes l /\ prog_run cf l (PRun c0) = (PRun c, tr) /\ said k tr = ws) <-> ours ws.
Proof. exact hears_exact. Qed.
(* a word of five messages, in the course the proof takes, with the torrent of C119;
   C160_ex_hyps has the hypotheses                                              *)
Definition hx_word : list bytes := [keepalive; interested; keepalive; keepalive; interested].
Definition hx_course : list cact := [KMain] ++ visit 0 [] one_peer ++ repeat (KTrk 0 (meet (sha1 px_info))) 4 ++ speech hx_word.
Example C165_ex : ours hx_word /\ said 0 (snd (prog_run (cx_conf sha1) hx_course (px_prog (fun _ => None)))) = hx_word /\ length hx_course = 40%nat.
Proof.
  split; [split; [repeat (apply Forall_cons; [auto|]); constructor|intros (w & X); discriminate X]|]. vm_compute. split; reflexivity.
Qed.
Example C165_ex_not : ~ ours [keepalive; keepalive] /\ ~ ours [[0; 0; 0; 13; 6; 0; 0; 0; 0; 0; 0; 0; 0; 0; 2; 0; 0]].
Proof.
  split; intros [A B]; [apply B; now exists []|]. inversion A as [|? ? [X|X]]; discriminate X.
Qed.

Print Assumptions C165_only.
Print Assumptions C165_exact.
