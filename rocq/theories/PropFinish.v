(* A finished download has the content of the torrent (property C109).         *)
From Verif Require Import Base ProofBase SpecPath ModelPath ModelBitset ModelMsg ModelTorrent ModelConn ModelPeer ModelSystem
  SpecPeer SpecTorrent SpecFinish ProofHistory ProofWrite ProofWitness ProofFinish Sha1.

(* ---------- C109 ---------- *)
(* Expected: when Done, every piece cut from the files has its SHA-1.  It does not:
   the hash is checked without the offset, so the data of one piece can be stored
   over another that is recorded already.                                      *)
Theorem C109_done_is_the_content_refuted :
  forall sha1 : bytes -> bytes, (forall x, length (sha1 x) = 20%nat) -> sha1 [1; 2; 3; 4] <> sha1 [5; 6; 7; 8] ->
  ~ (forall cwd creat mk f0 mi hash dir f1 t l w tr,
       New cwd creat mk f0 mi hash dir = (f1, Ok t) -> NoDup (t_osfiles t) -> Forall (fun n => 0 <= n < 2 ^ 63) (file_lengths mi) ->
       0 < mi_piece_length mi < 2 ^ 30 -> (mi_length mi <> 0 -> t_pnum t * mi_piece_length mi <= mi_length mi) -> 0 <= t_pnum t < 2 ^ 51 ->
       Forall reads_bytes l -> run sha1 l (start (mkW t f1 [] [] false)) = (w, tr) ->
       (forall m m' d d', In m (handed tr) -> In m' (handed tr) -> data_of m = Ok d -> data_of m' = Ok d' -> sha1 d = sha1 d' -> d = d') ->
       Done (sh_t (wo_sh w)) = true ->
       forall i, 0 <= i < t_pnum t ->
         sha1 (piece_of (stored (w_fs (sh_w (wo_sh w))) (t_osfiles t) (file_lengths mi)) (mi_piece_length mi) i) = hash_of (mi_pieces mi) i).
Proof. exact content_refuted. Qed.
(* What holds, also if file writes fail (outs): with data at offset 0 only.  Missing
   are messages with another offset.  No piece is shorter than the piece length
   (in a single file; with several files Done implies it), and no two pieces of
   data with one hash appear.                                                  *)
Theorem C109_done_is_the_content_partial :
  forall cwd creat mk f0 mi hash dir f1 t,
    New cwd creat mk f0 mi hash dir = (f1, Ok t) -> NoDup (t_osfiles t) -> Forall (fun n => 0 <= n < 2 ^ 63) (file_lengths mi) ->
    0 < mi_piece_length mi < 2 ^ 30 -> (mi_length mi <> 0 -> t_pnum t * mi_piece_length mi <= mi_length mi) ->
    forall sha1 outs l w tr, 0 <= t_pnum t < 2 ^ 51 ->
    Forall reads_bytes l -> run sha1 l (start (mkW t f1 outs [] false)) = (w, tr) ->
    (forall m, In m (handed tr) -> wire_sized m /\ m_offset m = 0) ->
    (forall m m' d d', In m (handed tr) -> In m' (handed tr) -> data_of m = Ok d -> data_of m' = Ok d' -> sha1 d = sha1 d' -> d = d') ->
    Done (sh_t (wo_sh w)) = true ->
    forall i, 0 <= i < t_pnum t ->
      sha1 (piece_of (stored (w_fs (sh_w (wo_sh w))) (t_osfiles t) (file_lengths mi)) (mi_piece_length mi) i) = hash_of (mi_pieces mi) i.
Proof. exact finished. Qed.
(* the overwritten piece, with the real hash *)
Example C109_ex : let '(w, tr) := run sha1 over (wx_start sha1) in
  Done (sh_t (wo_sh w)) = true /\ map (fun m => (m_index m, m_offset m)) (handed tr) = [(1, 0); (0, 4); (0, 0)] /\
  stored (w_fs (sh_w (wo_sh w))) [wx_place] [8] = [1; 2; 3; 4; 1; 2; 3; 4].
Proof. vm_compute. repeat split; reflexivity. Qed.
(* piece 1 comes twice, the first time the file write fails after two bytes *)
Example C109_ex_good :
  let l := seg 0 (piece_body 1 0 [5; 6; 7; 8]) ++ put 0 ++ seg 1 (piece_body 0 0 [1; 2; 3; 4]) ++ put 1 in
  let w0 := mkW (wx_t sha1) wx_fs [Some 2] [] false in
  (let '(w, tr) := run sha1 l (start w0) in
   Done (sh_t (wo_sh w)) = false /\ stored (w_fs (sh_w (wo_sh w))) [wx_place] [8] = [1; 2; 3; 4; 5; 6; 0; 0]) /\
  (let '(w, tr) := run sha1 (l ++ seg 2 (piece_body 1 0 [5; 6; 7; 8]) ++ put 2) (start w0) in
   Done (sh_t (wo_sh w)) = true /\ stored (w_fs (sh_w (wo_sh w))) [wx_place] [8] = [1; 2; 3; 4; 5; 6; 7; 8] /\
   map m_offset (handed tr) = [0; 0; 0]).
Proof. vm_compute. repeat split; reflexivity. Qed.

Print Assumptions C109_done_is_the_content_refuted.
Print Assumptions C109_done_is_the_content_partial.
