(* The connections to peers (properties C163, C164).                           *)
From Verif Require Import Base ProofBase Sha1 SpecPath SpecBencode SpecMsg SpecTorrent SpecFinish SpecCmd SpecProgram SpecClient SpecCrash SpecOrigin SpecCorrupt SpecSocket
  ModelPath ModelStats ModelMsg ModelTorrent ModelConn ModelPeer ModelSystem ModelTracker ModelManager ModelClient ModelCmd ModelProgram ModelSocket
  ProofWitness ProofWrite ProofClient4 ProofClient5 ProofProgram2 ProofSocket ProofSocket2 ProofSocket3.

(* ---------- C163 ---------- *)
(* Two courses whose connections deliver the same bytes, cut up in different ways,
   end in the same state and do the same on the way.                           *)
Theorem C163_cuts :
  forall cf l c ss1 ss2 n1 tr1 n2 tr2, Forall2 (fun s1 s2 => items s1 = items s2) ss1 ss2 ->
    nrun cf l (mkNet c ss1) = (n1, tr1) -> nrun cf l (mkNet c ss2) = (n2, tr2) ->
    n_client n1 = n_client n2 /\ Forall2 (fun s1 s2 => items s1 = items s2) (n_socks n1) (n_socks n2) /\ map bare tr1 = map bare tr2.
Proof. exact cut_run. Qed.
(* What the client does with any bytes on its connections it does when it is told
   the right messages ...                                                      *)
Theorem C163_sound :
  forall cf l n n' tr, nrun cf l n = (n', tr) -> exists l', Forall2 same_act l l' /\ crun cf l' (n_client n) = (n_client n', tr).
Proof. exact nrun_sound. Qed.
(* ... and any messages whose lengths fit the four bytes can come over connections. *)
Theorem C163_complete :
  forall cf l c c' tr, Forall sends_framed l -> crun cf l c = (c', tr) ->
    exists ss ss' tr', nrun cf l (mkNet c ss) = (mkNet c' ss', tr') /\ map bare tr' = map bare tr.
Proof. exact every_course. Qed.
(* a whole download, with all a peer sends in one piece, or byte by byte *)
Definition wire : bytes := createHandshake (createClientId (repeat 9 12)) (sha1 px_info) ++ frame (piece_bytes 0 0 [1; 2; 3; 4]) ++ frame (piece_bytes 1 0 [5; 6; 7; 8]).
Example C163_ex_hyps : Forall2 (fun s1 s2 => items s1 = items s2) [[Chunk wire]] [map (fun x => Chunk [x]) wire].
Proof. constructor; [vm_compute; reflexivity|constructor]. Qed.
Definition after (ss : list (list ev)) : option (net * list cev) :=
  match px_prog (fun _ => None) with PRun c0 => Some (nrun (cx_conf sha1) px_full (mkNet c0 ss)) | PExit _ _ => None end.
Definition saved (ss : list (list ev)) : option bytes := match after ss with Some (n, _) => prog_fs (PRun (n_client n)) px_place | None => None end.
Definition came (ss : list (list ev)) : option (list bytes) := match after ss with Some (_, tr) => Some (bodies_of 0 (sevs tr)) | None => None end.
Example C163_ex : saved [[Chunk wire]] = Some [1; 2; 3; 4; 5; 6; 7; 8] /\ saved [map (fun x => Chunk [x]) wire] = Some [1; 2; 3; 4; 5; 6; 7; 8] /\ saved [] = Some [].
Proof. vm_compute. repeat split; reflexivity. Qed.

(* ---------- C164 ---------- *)
(* Each peer in Run has a connection of its own; on it a handshake for the torrent
   arrived, and after it the messages read from the peer, in this order.       *)
Theorem C164_taken :
  forall cf look o f flags out file outs order d M w c0 l ss n tr,
    o_file o file = Some d -> SpecBencode.fits d -> torrent_doc d M w -> prog_start cf look o f flags (CDownload out file) outs order = PRun c0 ->
    bytes_only ss -> nrun cf l (mkNet c0 ss) = (n, tr) ->
    exists qs, NoDup qs /\ length qs = length (shakes tr) /\ forall k q, nth_error qs k = Some q ->
      exists hs x, stream (sock ss q) = hs ++ x /\ handshake_for (cf_sha1 cf w) hs /\ framed x (bodies_of k (sevs tr)) /\
        (* all that arrived, if no deadline passed in between *)
        (~ In Timeout (sock ss q) -> exists z, x = concat (map frame (bodies_of k (sevs tr))) ++ z).
Proof. exact taken. Qed.
(* A byte of a file of the torrent is as before, zero, or came over a connection. *)
Theorem C164_stored :
  forall cf look o f flags out file outs order d M w ps c0 l ss n tr,
    o_file o file = Some d -> SpecBencode.fits d -> torrent_doc d M w -> out <> [] -> torrent_places (o_cwd o) out M ps ->
    NoDup ps -> Forall (fun n => 0 <= n < 2 ^ 63) (file_lengths M) -> 0 <= mi_piece_length M < 2 ^ 30 -> Forall held_reply l ->
    prog_start cf look o f flags (CDownload out file) outs order = PRun c0 -> bytes_only ss -> nrun cf l (mkNet c0 ss) = (n, tr) ->
    forall k x o' q, nth_error ps k = Some x -> spot M q k o' ->
      let g := prog_fs (PRun (n_client n)) in
      g x = f x \/ byte_at (contents g x) o' = 0 \/
      exists s hs y i off b z, In s ss /\ stream s = hs ++ y ++ frame (piece_bytes i off b) ++ z /\ handshake_for (cf_sha1 cf w) hs /\
        0 <= i < 2 ^ 32 /\ 0 <= off < 2 ^ 32 /\ cf_sha1 cf b = hash_of (mi_pieces M) i /\
        0 <= q - (i * mi_piece_length M + off) < zlen b /\ byte_at (contents g x) o' = byte_at b (q - (i * mi_piece_length M + off)).
Proof. exact from_wire. Qed.
Example C164_ex_hyps : SpecBencode.fits px_doc /\ torrent_doc px_doc px_M px_info /\ torrent_places [] (str "/o") px_M [px_place] /\ Forall held_reply px_full /\
  (exists c0, px_prog (fun _ => None) = PRun c0) /\ bytes_only [[Chunk wire]] /\ spot px_M 6 0 6.
Proof.
  split; [exact px_fits|]. split; [exact px_torrent|]. split; [exact px_places|]. split; [|split; [exact (px_starts _)|split]].
  - unfold px_full, px_download, cx_piece, announce1, cx_end. cbn [repeat app].
    repeat (apply Forall_cons; [first [exact Logic.I|vm_compute; discriminate]|]); apply Forall_nil.
  - constructor; [|constructor]. cbn [stream flat_map]. rewrite app_nil_r. apply Forall_forall. intros x Hx.
    assert (B : forallb (fun y => (0 <=? y) && (y <? 256)) wire = true) by (vm_compute; reflexivity). rewrite forallb_forall in B. specialize (B x Hx). apply andb_true_iff in B. unfold is_byte. lia.
  - left. split; [reflexivity|]. apply loc_here; cbn; lia.
Qed.
Example C164_ex : came [[Chunk wire]] = Some [piece_bytes 0 0 [1; 2; 3; 4]; piece_bytes 1 0 [5; 6; 7; 8]].
Proof. vm_compute. reflexivity. Qed.
(* a deadline that passes inside a message: what follows is not understood *)
Example C164_ex_late : came [[Chunk (firstn 70 wire); Timeout; Chunk (skipn 70 wire)]] = Some [] /\ saved [[Chunk (firstn 70 wire); Timeout; Chunk (skipn 70 wire)]] = Some [].
Proof. vm_compute. split; reflexivity. Qed.

Print Assumptions C163_cuts.
Print Assumptions C163_sound.
Print Assumptions C163_complete.
Print Assumptions C164_taken.
Print Assumptions C164_stored.
