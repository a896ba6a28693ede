(* The whole process, in terms of the torrent file given (properties C119, C120). *)
From Coq Require Import Permutation.
From Verif Require Import Base ProofBase Sha1 ModelBencode SpecBencode SpecPath ModelStats ModelTorrent ModelConn ModelPeer ModelSystem ModelTracker ModelManager ModelClient ModelCmd ModelProgram
  SpecMsg SpecPeer SpecTorrent SpecFinish SpecCmd SpecManager SpecClient SpecCrash SpecOrigin SpecProgram ProofWrite ProofWitness ProofCmd ProofClient4 ProofClient5 ProofProgram ProofProgram2.

(* ---------- C119 ---------- *)
(* Announces go to the http and https trackers of the document, with the hash of the
   bytes of its info dictionary, each tracker served by one goroutine.         *)
Theorem C119_announced :
  forall cf look o f flags out file outs order d M w l p tr, (forall us, Permutation (order us) us) ->
    o_file o file = Some d -> fits d -> torrent_doc d M w ->
    prog_run cf l (prog_start cf look o f flags (CDownload out file) outs order) = (p, tr) ->
    forall j u q r, In (VHttp j u q r) tr -> tracker_of M u /\ http_url cf u /\ lookup (str "info_hash") q = Some (cf_sha1 cf w) /\
      forall j' q' r', In (VHttp j' u q' r') tr -> j' = j.
Proof. exact prog_announced. Qed.
(* Peers are those with this hash, at addresses from the replies of these trackers. *)
Theorem C119_peers :
  forall cf look o f flags out file outs order d M w l p tr,
    o_file o file = Some d -> fits d -> torrent_doc d M w -> Forall held_reply l ->
    prog_run cf l (prog_start cf look o f flags (CDownload out file) outs order) = (p, tr) ->
    (forall t1 k evs t2, tr = t1 ++ VShake k evs :: t2 -> greets (cf_sha1 cf w) evs) /\
    (forall t1 j k t2, tr = t1 ++ VMgr (GDial j k) :: t2 -> exists c0 a, prog_start cf look o f flags (CDownload out file) outs order = PRun c0 /\
       nth_error (added (gevs t1)) k = Some a /\ replied cf c0 l t1 j a).
Proof. exact prog_peers. Qed.
(* Only the files of the torrent change, and what is in them came from such peers
   with the right hash, also if the download cannot start.                     *)
Theorem C119_stored :
  forall cf look o f flags out file outs order d M w ps l p tr,
    o_file o file = Some d -> fits d -> torrent_doc d M w -> out <> [] -> torrent_places (o_cwd o) out M ps ->
    NoDup ps -> Forall (fun n => 0 <= n < 2 ^ 63) (file_lengths M) -> 0 <= mi_piece_length M < 2 ^ 30 -> Forall held_reply l -> Forall sends_bytes l ->
    prog_run cf l (prog_start cf look o f flags (CDownload out file) outs order) = (p, tr) ->
    (forall x, ~ In x ps -> prog_fs p x = f x) /\
    (forall k x o' q, nth_error ps k = Some x -> spot M q k o' ->
       prog_fs p x = f x \/ byte_at (contents (prog_fs p) x) o' = 0 \/
       exists c0 n i off b, prog_start cf look o f flags (CDownload out file) outs order = PRun c0 /\ from_peer cf c0 l (cf_sha1 cf w) tr n (piece_bytes i off b) /\
         0 <= i < 2 ^ 32 /\ 0 <= off < 2 ^ 32 /\ cf_sha1 cf b = hash_of (mi_pieces M) i /\
         0 <= q - (i * mi_piece_length M + off) < zlen b /\ byte_at (contents (prog_fs p) x) o' = byte_at b (q - (i * mi_piece_length M + off))).
Proof. exact prog_stored. Qed.
(* The other commands touch no file and speak to nobody. *)
Theorem C119_other_commands :
  forall cf look o f flags cmd outs order l p tr, (forall out file, cmd <> CDownload out file) ->
    prog_run cf l (prog_start cf look o f flags cmd outs order) = (p, tr) -> prog_fs p = f /\ tr = [] /\ exists s, prog_status p = Some s.
Proof. exact prog_other. Qed.
(* gotit download -o /o t, with the real SHA-1: the document, a whole run, the end *)
Example C119_ex_hyps : fits px_doc /\ torrent_doc px_doc px_M px_info /\ torrent_places [] (str "/o") px_M [px_place] /\ NoDup [px_place] /\
  Forall (fun n => 0 <= n < 2 ^ 63) (file_lengths px_M) /\ 0 <= mi_piece_length px_M < 2 ^ 30 /\ Forall held_reply px_full /\ Forall sends_bytes px_full.
Proof.
  split; [exact px_fits|]. split; [exact px_torrent|]. split; [exact px_places|]. split; [apply NoDup_cons; [intros []|apply NoDup_nil]|].
  split; [apply Forall_cons; [cbn; lia|apply Forall_nil]|]. split; [cbn; lia|].
  unfold px_full, px_download, cx_piece, announce1, cx_end. cbn [repeat app].
  split; repeat (apply Forall_cons; [first [exact I | vm_compute; discriminate | intros b H; vm_compute in H; inversion H; subst; unfold is_byte; repeat (apply Forall_cons; [lia|]); apply Forall_nil]|]); apply Forall_nil.
Qed.
Example C119_ex : let '(p, tr) := prog_run (cx_conf sha1) px_full (px_prog (fun _ => None)) in
  prog_status p = Some 0 /\ prog_fs p px_place = Some [1; 2; 3; 4; 5; 6; 7; 8] /\ prog_fs p [str "o"; str "n"] = None /\
  flat_map (fun e => match e with VHttp j u q _ => [(j, u, lookup (str "info_hash") q)] | _ => [] end) tr = [(0%nat, str "http://t/a", Some (sha1 px_info))] /\
  map (fun e => fst e) (shakes tr) = [0%nat].
Proof. vm_compute. repeat split; reflexivity. Qed.

(* ---------- C120 ---------- *)
(* Expected: a download started again finds what the first process stored. *)
Theorem C120_resume_refuted :
  ~ (forall cf look o f flags out file outs order l p tr outs', prog_run cf l (prog_start cf look o f flags (CDownload out file) outs order) = (p, tr) -> prog_status p = Some 0 ->
       forall x, prog_fs (prog_start cf look o (prog_fs p) flags (CDownload out file) outs' order) x = prog_fs p x).
Proof. exact resume_refuted. Qed.
(* Whatever was there, all its files are empty, and the trackers are told that
   nothing is downloaded and all is left until a piece is handed to the writer. *)
Theorem C120_starts_empty_exact :
  forall cf look o f flags out file outs order d M w ps c0,
    o_file o file = Some d -> fits d -> torrent_doc d M w -> out <> [] -> torrent_places (o_cwd o) out M ps ->
    prog_start cf look o f flags (CDownload out file) outs order = PRun c0 ->
    (forall x, In x ps -> prog_fs (PRun c0) x = Some []) /\
    (0 <= cf_port cf -> Forall (fun n => 0 <= n) (file_lengths M) -> total (file_lengths M) < 2 ^ 63 ->
     forall l c tr t1 j u q r t2, crun cf l c0 = (c, tr) -> tr = t1 ++ VHttp j u q r :: t2 -> handed (sevs t1) = [] ->
       tells (str "downloaded") 0 (VHttp j u q r) /\ tells (str "left") (total (file_lengths M)) (VHttp j u q r)).
Proof. exact starts_empty. Qed.
(* the files of a first run, and the first announce of a second *)
Example C120_ex : let '(p, _) := prog_run (cx_conf sha1) px_full (px_prog (fun _ => None)) in
  let '(p', tr) := prog_run (cx_conf sha1) px_download (px_prog (prog_fs p)) in
  prog_fs p px_place = Some [1; 2; 3; 4; 5; 6; 7; 8] /\ prog_fs (px_prog (prog_fs p)) px_place = Some [] /\
  flat_map (fun e => match e with VHttp _ _ q _ => [(lookup (str "downloaded") q, lookup (str "left") q)] | _ => [] end) tr = [(Some (str "0"), Some (str "8"))].
Proof. vm_compute. repeat split; reflexivity. Qed.

Print Assumptions C119_announced.
Print Assumptions C119_peers.
Print Assumptions C119_stored.
Print Assumptions C119_other_commands.
Print Assumptions C120_resume_refuted.
Print Assumptions C120_starts_empty_exact.
