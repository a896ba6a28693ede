(* Where the bytes on disk come from (property C118).                          *)
From Verif Require Import Base ProofBase Sha1 ModelPath ModelTorrent ModelConn ModelPeer ModelSystem ModelTracker ModelManager ModelClient
  SpecMsg SpecTorrent SpecFinish SpecManager SpecClient SpecCrash SpecOrigin ProofWrite ProofWitness ProofClient4 ProofClient5 ProofOrigin.

(* Each byte of the torrent's files is 0 or a byte of a piece message with the hash of
   its piece, read from a peer that had sent a handshake for this torrent and whose
   address a tracker had replied; it is where the message puts it.             *)
Theorem C118_origin :
  forall cwd creat mk f0 mi hash dir f1 t cf outs urls l c tr,
    New cwd creat mk f0 mi hash dir = (f1, Ok t) -> NoDup (t_osfiles t) -> Forall (fun n => 0 <= n < 2 ^ 63) (file_lengths mi) ->
    0 <= mi_piece_length mi < 2 ^ 30 -> Forall held_reply l -> Forall sends_bytes l ->
    crun cf l (client_start cf t f1 outs urls) = (c, tr) ->
    forall k p o q, nth_error (t_osfiles t) k = Some p -> spot mi q k o ->
      byte_at (contents (w_fs (sh_w (wo_sh (c_wo c)))) p) o = 0 \/
      exists n i off d, from_peer cf (client_start cf t f1 outs urls) l hash tr n (piece_bytes i off d) /\ 0 <= i < 2 ^ 32 /\ 0 <= off < 2 ^ 32 /\
        cf_sha1 cf d = hash_of (mi_pieces mi) i /\
        0 <= q - (i * mi_piece_length mi + off) < zlen d /\
        byte_at (contents (w_fs (sh_w (wo_sh (c_wo c)))) p) o = byte_at d (q - (i * mi_piece_length mi + off)).
Proof. exact origin. Qed.
(* No other file changes after New. *)
Theorem C118_only_its_files :
  forall cwd creat mk f0 mi hash dir f1 t cf outs urls l c tr,
    New cwd creat mk f0 mi hash dir = (f1, Ok t) -> NoDup (t_osfiles t) -> Forall (fun n => 0 <= n < 2 ^ 63) (file_lengths mi) ->
    0 <= mi_piece_length mi < 2 ^ 30 -> Forall sends_bytes l ->
    crun cf l (client_start cf t f1 outs urls) = (c, tr) ->
    forall p, ~ In p (t_osfiles t) -> w_fs (sh_w (wo_sh (c_wo c))) p = f1 p.
Proof. exact only_its_files. Qed.
(* Two pieces of a torrent with one file in its list, with the real SHA-1; byte 5 of
   the torrent is byte 1 of the second message.                                *)
Example C118_ex_hyps : New [] (fun _ => true) false (fun _ => None) (wx_mi sha1) cx_hash (str "/o") = (wx_fs, Ok (cx_t sha1)) /\
  NoDup (t_osfiles (cx_t sha1)) /\ Forall (fun n => 0 <= n < 2 ^ 63) (file_lengths (wx_mi sha1)) /\ 0 <= mi_piece_length (wx_mi sha1) < 2 ^ 30 /\
  Forall held_reply cx_download /\ Forall sends_bytes cx_download /\ spot (wx_mi sha1) 5 0 5.
Proof.
  split; [vm_compute; reflexivity|]. split; [apply NoDup_cons; [intros []|apply NoDup_nil]|].
  split; [apply Forall_cons; [cbn; lia|apply Forall_nil]|]. split; [cbn; lia|].
  split; [unfold cx_download, cx_connect, cx_piece, announce1; cbn [repeat app]; repeat (apply Forall_cons; [first [exact I | vm_compute; discriminate]|]); apply Forall_nil|].
  split; [|left; split; [reflexivity|apply loc_here; cbn; lia]].
  unfold cx_download, cx_connect, cx_piece, announce1. cbn [repeat app].
  repeat (apply Forall_cons; [first [exact I | intros b H; vm_compute in H; inversion H; subst; unfold is_byte; repeat (apply Forall_cons; [lia|]); apply Forall_nil]|]). apply Forall_nil.
Qed.
Example C118_ex : let '(c, tr) := crun (cx_conf sha1) cx_download (cx_start sha1) in
  contents (w_fs (sh_w (wo_sh (c_wo c)))) wx_place = [1; 2; 3; 4; 5; 6; 7; 8] /\
  flat_map (fun e => match e with VSys n (EReadOk b) => [(n, b)] | _ => [] end) tr = [(0%nat, piece_bytes 0 0 [1; 2; 3; 4]); (0%nat, piece_bytes 1 0 [5; 6; 7; 8])] /\
  sha1 [5; 6; 7; 8] = hash_of (mi_pieces (wx_mi sha1)) 1.
Proof. vm_compute. repeat split; reflexivity. Qed.

Print Assumptions C118_origin.
Print Assumptions C118_only_its_files.
