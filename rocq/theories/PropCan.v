(* Which torrents the program can download (property C160).                    *)
From Coq Require Import Permutation.
From Verif Require Import Base ProofBase Sha1 SpecPath SpecBencode SpecTorrent SpecFinish SpecCmd SpecProgram SpecSource SpecOrigin SpecPossible
  ModelPath ModelStats ModelTorrent ModelPeer ModelSystem ModelTracker ModelManager ModelClient ModelCmd ModelProgram ProofWitness ProofClient4 ProofProgram2 ProofSource ProofCan.

(* ---------- C160 ---------- *)
(* There is a course of the whole process that ends with exit status 0 and leaves
   the content in the files exactly if one of the URLs is http or https.       *)
Theorem C160_downloadable :
  forall cf look o f flags out file order d M w c0 ps N c,
    (forall us, Permutation (order us) us) -> o_file o file = Some d -> SpecBencode.fits d -> torrent_doc d M w ->
    prog_start cf look o f flags (CDownload out file) [] order = PRun c0 -> out <> [] -> torrent_places (o_cwd o) out M ps -> NoDup ps ->
    Forall (fun n => 0 <= n) (file_lengths M) -> 0 < total (file_lengths M) <= 2 ^ 50 -> 0 < mi_piece_length M < 2 ^ 30 -> N <= 2 ^ 32 ->
    torrent_of (cf_sha1 cf) M N c -> zlen (cf_sha1 cf w) = 20 -> cf_ip cf (str "10.0.0.1") = Some (V4 [10; 0; 0; 1]) ->
    ((exists l p tr, Forall sends_bytes l /\ prog_run cf l (PRun c0) = (p, tr) /\ prog_status p = Some 0 /\ map (prog_fs p) ps = map Some (cut (file_lengths M) c)) <->
     exists u, tracker_of M u /\ http_url cf u).
Proof. exact can_exact. Qed.
(* the torrent of C119, and the course the proof takes *)
Definition nx_course : list cact :=
  [KMain] ++ visit 0 [] one_peer ++ repeat (KTrk 0 (meet (sha1 px_info))) 4 ++ crounds px_M [1; 2; 3; 4; 5; 6; 7; 8] 2 ++ leave.
Example C160_ex : let p := fst (prog_run (cx_conf sha1) nx_course (px_prog (fun _ => None))) in
  prog_status p = Some 0 /\ map (prog_fs p) [px_place] = map Some (cut (file_lengths px_M) [1; 2; 3; 4; 5; 6; 7; 8]) /\ length nx_course = 47%nat.
Proof. vm_compute. repeat split; reflexivity. Qed.
Example C160_ex_hyps : fits px_doc /\ torrent_doc px_doc px_M px_info /\ torrent_places [] (str "/o") px_M [px_place] /\ (exists c0, px_prog (fun _ => None) = PRun c0) /\
  0 < total (file_lengths px_M) <= 2 ^ 50 /\ torrent_of sha1 px_M 2 [1; 2; 3; 4; 5; 6; 7; 8] /\ zlen (sha1 px_info) = 20 /\
  cf_ip (cx_conf sha1) (str "10.0.0.1") = Some (V4 [10; 0; 0; 1]) /\ tracker_of px_M (str "http://t/a") /\ http_url (cx_conf sha1) (str "http://t/a").
Proof.
  split; [exact px_fits|]. split; [exact px_torrent|]. split; [exact px_places|]. split; [exact (px_starts _)|]. split; [cbn -[Z.pow]; lia|]. split.
  - split; [reflexivity|]. split; [apply bytes_dec; reflexivity|]. split; [vm_compute; reflexivity|]. split; [cbn; lia|].
    intros i Hi. assert (i = 0 \/ i = 1) as [->| ->] by lia; vm_compute; reflexivity.
  - split; [vm_compute; reflexivity|]. split; [reflexivity|]. split; [now left|now left].
Qed.

Print Assumptions C160_downloadable.
