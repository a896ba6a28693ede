(* What is stored depends on which blocks came, not on the order they came in. *)
From Verif Require Import Base SpecPath ModelPath ModelBitset ModelMsg ModelTorrent ModelConn ModelPeer ModelSystem SpecTorrent SpecPeer SpecFinish ProofHistory ProofSystem ProofVerified.

(* a block: its position in the torrent and its data (BEP-3, message piece) *)
Definition block_of (plen : Z) (m : msg) (d : bytes) : Z * bytes := (m_index m * plen + m_offset m, d).
(* two blocks have the same bytes wherever both have one *)
Definition agree (a b : Z * bytes) : Prop :=
  forall q, fst a <= q < fst a + zlen (snd a) -> fst b <= q < fst b + zlen (snd b) ->
    byte_at (snd a) (q - fst a) = byte_at (snd b) (q - fst b).
(* w is the end of a download of the torrent mi in which every piece came whole:
   the metainfo has one hash for each piece and the pieces fill the files, all
   piece messages start at offset 0, no two different data with one hash came,
   and all pieces are recorded.  File writes may fail (outs).                   *)
Definition whole_pieces (sha1 : bytes -> bytes) (mi : metainfo) (t : torrent) (w : world) : Prop :=
  exists cwd creat mk f0 hash dir f1 outs l tr,
    New cwd creat mk f0 mi hash dir = (f1, Ok t) /\ NoDup (t_osfiles t) /\ Forall (fun n => 0 <= n < 2 ^ 63) (file_lengths mi) /\
    0 < mi_piece_length mi < 2 ^ 30 /\ 0 <= t_pnum t < 2 ^ 51 /\
    zlen (mi_pieces mi) = 20 * t_pnum t /\ total (file_lengths mi) = t_pnum t * mi_piece_length mi /\
    Forall reads_bytes l /\ run sha1 l (start (mkW t f1 outs [] false)) = (w, tr) /\
    (forall m, In m (handed tr) -> wire_sized m /\ m_offset m = 0) /\
    (forall m m' d d', In m (handed tr) -> In m' (handed tr) -> data_of m = Ok d -> data_of m' = Ok d' -> sha1 d = sha1 d' -> d = d') /\
    Done (sh_t (wo_sh w)) = true.
(* the files of a torrent, in order *)
Definition files_of (t : torrent) (w : world) : list bytes :=
  map (fun p => match w_fs (sh_w (wo_sh w)) p with Some c => c | None => [] end) (t_osfiles t).
