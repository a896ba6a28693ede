(* Theorems about torrents: pieces, layout on disk, bookkeeping (properties
   C20-C26, C28-C30, C61, C62).                                               *)
From Verif Require Import Base ProofBase SpecPath ModelPath ModelFloat ModelBitset ModelMsg ModelTorrent SpecTorrent
  ProofTorrent ProofWrite ProofPath ProofHistory ProofFloat ProofDisk ProofNew.

(* ---------- a small torrent used by the examples ---------- *)
(* piece length 4, files a (3 bytes) and b (5 bytes), two pieces *)
Definition ex_meta : metainfo :=
  mkMetainfo (str "http://t/a") [[str "udp://u"; str "http://t/a"]] [str "http://w"]
    [mkTfile 3 [str "a"]; mkTfile 5 [str "b"]] 0 (str "N") 4 (repeat 7 40).
Definition ex_new : fs * res torrent := New [str "home"] (fun _ => true) false (fun _ => None) ex_meta [1] (str "out").
Definition ex_t : torrent := Eval vm_compute in match snd ex_new with Ok t => t | _ => mkTorrent [] [] 0 0 [] 0 [] [] [] false 0 [] [] end.
Example ex_created : exists f', ex_new = (f', Ok ex_t).
Proof. eexists. reflexivity. Qed.
Definition block (i o : Z) (d : bytes) : msg := mkMsg (9 + zlen d) PieceT (be_put 4 i ++ be_put 4 o ++ d) i o 0.

(* ---------- C20 ---------- *)
Theorem C20_new_pieces :
  forall b,
    (zlen b mod 20 <> 0 -> exists e, NewPieces b = Err e) /\
    (zlen b mod 20 = 0 -> exists ps, NewPieces b = Ok ps /\ zlen ps * 20 = zlen b /\ concat (map p_sha1 ps) = b /\
       forall k p, nth_error ps k = Some p -> p_index p = Z.of_nat k /\ p_sha1 p = sub b (20 * Z.of_nat k) (20 * Z.of_nat k + 20)).
Proof. exact new_pieces_full. Qed.
Example C20_ex : exists p q, NewPieces (repeat 1 20 ++ repeat 2 20) = Ok [p; q] /\ p_index q = 1 /\ p_sha1 q = repeat 2 20.
Proof. eexists _, _. split; [reflexivity|]. split; reflexivity. Qed.
Example C20_ex_err : NewPieces (repeat 1 21) = Err "invalid pieces len"%string.
Proof. reflexivity. Qed.

(* ---------- C21 ---------- *)
(* haves: the bitset of the asking peer in each call, in the order in which the
   calls get the lock *)
Theorem C21_next_hands_out_once :
  forall cwd creat mk f m hash dir f' t haves t' rs,
    New cwd creat mk f m hash dir = (f', Ok t) -> 0 <= t_pnum t < 2 ^ 51 -> next_run t haves = (t', rs) ->
    length rs = length haves /\
    (forall k1 k2 i, nth_error rs k1 = Some (Some i) -> nth_error rs k2 = Some (Some i) -> k1 = k2) /\
    forall k have r, nth_error haves k = Some have -> nth_error rs k = Some r ->
      match r with
      | Some i => 0 <= i < t_pnum t /\ bs_test have i = true /\
                  forall j, 0 <= j < i -> bs_test have j = true -> exists k', (k' < k)%nat /\ nth_error rs k' = Some (Some j)
      | None => forall j, 0 <= j < t_pnum t -> bs_test have j = true -> exists k', (k' < k)%nat /\ nth_error rs k' = Some (Some j)
      end.
Proof. intros. eapply next_run_new; eassumption. Qed.
Example C21_ex : snd (next_run ex_t [[false; true]; [true; true; true]; [true; true]; [true]]) = [Some 1; Some 0; None; None].
Proof. reflexivity. Qed.

(* ---------- C22 ---------- *)
Theorem C22_done_iff_all_marked :
  forall cwd creat mk f m hash dir f' t is,
    New cwd creat mk f m hash dir = (f', Ok t) -> 0 <= t_pnum t < 2 ^ 51 -> Forall (fun i => 0 <= i < t_pnum t) is ->
    (Done (fold_left SetDownloaded is t) = true <-> forall j, 0 <= j < t_pnum t -> In j is).
Proof. intros. eapply done_new; eassumption. Qed.
(* an index out of range (a peer can name one) turns into a further piece that
   has to be marked *)
Theorem C22_any_indices :
  forall cwd creat mk f m hash dir f' t is,
    New cwd creat mk f m hash dir = (f', Ok t) -> 0 <= t_pnum t < 2 ^ 51 -> Forall (fun i => 0 <= i) is ->
    (Done (fold_left SetDownloaded is t) = true <-> forall j, 0 <= j -> (j < t_pnum t \/ exists i, In i is /\ j <= i) -> In j is).
Proof. intros. eapply done_new_any; eassumption. Qed.
Example C22_ex : Done (fold_left SetDownloaded [1; 1] ex_t) = false /\ Done (fold_left SetDownloaded [1; 0] ex_t) = true /\
  Done (fold_left SetDownloaded [1; 0; 3] ex_t) = false.
Proof. repeat split; reflexivity. Qed.

(* ---------- C23 ---------- *)
(* One block at absolute position pos of a multi-file torrent. *)
Theorem C23_block_lands_at_its_position :
  forall cwd creat mk f0 m hash dir f1 t f pos data,
    New cwd creat mk f0 m hash dir = (f1, Ok t) -> mi_length m = 0 -> NoDup (t_osfiles t) ->
    Forall (fun x => 0 <= tf_length x < 2 ^ 63) (mi_files m) -> 0 <= pos < 2 ^ 63 ->
    let lens := map tf_length (mi_files m) in
    exists f' outs' st, writePieceData f [] t data pos = (f', outs', st) /\
      (forall p, ~ In p (t_osfiles t) -> f' p = f p) /\
      (forall k p o, nth_error (t_osfiles t) k = Some p -> 0 <= o ->
         (forall q, located lens q k o -> pos <= q < pos + zlen data -> byte_at (contents f' p) o = byte_at data (q - pos)) /\
         ((forall q, located lens q k o -> ~ pos <= q < pos + zlen data) -> byte_at (contents f' p) o = byte_at (contents f p) o)) /\
      (st = WOk <-> pos < total lens /\ pos + zlen data <= total lens) /\ st <> WPanic.
Proof. intros. eapply write_new_exact; eassumption. Qed.
(* with failing file writes: exactly a prefix of the block is stored *)
Theorem C23_failing_writes_store_a_prefix :
  forall cwd creat mk f0 m hash dir f1 t f outs pos data,
    New cwd creat mk f0 m hash dir = (f1, Ok t) -> mi_length m = 0 -> NoDup (t_osfiles t) ->
    Forall (fun x => 0 <= tf_length x < 2 ^ 63) (mi_files m) -> 0 <= pos < 2 ^ 63 ->
    let lens := map tf_length (mi_files m) in
    exists f' outs' st n, writePieceData f outs t data pos = (f', outs', st) /\ 0 <= n <= zlen data /\
      (forall p, ~ In p (t_osfiles t) -> f' p = f p) /\
      (forall k p o, nth_error (t_osfiles t) k = Some p -> 0 <= o ->
         (forall q, located lens q k o -> pos <= q < pos + n -> byte_at (contents f' p) o = byte_at data (q - pos)) /\
         ((forall q, located lens q k o -> ~ pos <= q < pos + n) -> byte_at (contents f' p) o = byte_at (contents f p) o)) /\
      (st = WOk -> n = zlen data) /\ st <> WPanic.
Proof. intros. eapply write_new_failing; eassumption. Qed.
(* a whole run of the writer: each torrent byte is that of the latest block
   covering it, and zero if there was none *)
Theorem C23_disk_after_any_run :
  forall cwd creat mk f0 m hash dir f1 t ms,
    New cwd creat mk f0 m hash dir = (f1, Ok t) -> mi_length m = 0 -> NoDup (t_osfiles t) ->
    Forall (fun x => 0 <= tf_length x < 2 ^ 63) (mi_files m) -> 0 <= mi_piece_length m < 2 ^ 30 ->
    Forall (fun x => wire_msg x /\ exists d, data_of x = Ok d) ms ->
    let w := WritePiece (mkW t f1 [] [] false) ms in
    let writes := map (fun x => (m_index x * mi_piece_length m + m_offset x, match data_of x with Ok d => d | _ => [] end)) ms in
    w_panic w = false /\
    forall k p o q, nth_error (t_osfiles t) k = Some p -> located (map tf_length (mi_files m)) q k o ->
      byte_at (contents (w_fs w) p) o = latest writes q 0.
Proof. intros. eapply run_new_disk; eassumption. Qed.
Theorem C23_single_file_disk_after_any_run :
  forall cwd creat mk f0 m hash dir f1 t ms,
    New cwd creat mk f0 m hash dir = (f1, Ok t) -> mi_length m <> 0 -> 0 <= mi_piece_length m < 2 ^ 30 ->
    Forall (fun x => wire_msg x /\ exists d, data_of x = Ok d) ms ->
    let w := WritePiece (mkW t f1 [] [] false) ms in
    let writes := map (fun x => (m_index x * mi_piece_length m + m_offset x, match data_of x with Ok d => d | _ => [] end)) ms in
    exists h, t_osfiles t = [h] /\ w_panic w = false /\ (forall p, p <> h -> w_fs w p = f1 p) /\
      forall q, 0 <= q -> byte_at (contents (w_fs w) h) q = latest writes q 0.
Proof. intros. eapply run_new_single; eassumption. Qed.
Example C23_ex :
  let '(f', _, st) := writePieceData (fun _ => None) [] ex_t [1; 2; 3; 4] 1 in
  st = WOk /\ map (contents f') (t_osfiles ex_t) = [[0; 1; 2]; [3; 4]].
Proof. split; reflexivity. Qed.
Example C23_ex_past_end :
  let '(f', _, st) := writePieceData (fun _ => None) [] ex_t [1; 2; 3; 4] 6 in
  st = WErr "data extends beyond torrent files"%string /\ map (contents f') (t_osfiles ex_t) = [[]; [0; 0; 0; 1; 2]].
Proof. split; reflexivity. Qed.
Example C23_ex_run :
  map (contents (w_fs (WritePiece (mkW ex_t (fun _ => None) [] [] false) [block 0 0 [1;2;3;4]; block 1 0 [5;6]; block 0 2 [9;9;9]]))) (t_osfiles ex_t)
    = [[1; 2; 9]; [9; 9; 6]].
Proof. reflexivity. Qed.

(* ---------- C24 ---------- *)
(* The full claim covers single-file torrents too, and is false for them. *)
Theorem C24_single_file_bounded_refuted :
  ~ (forall cwd creat mk f0 m hash dir f1 t ms h,
       New cwd creat mk f0 m hash dir = (f1, Ok t) -> mi_length m > 0 -> t_osfiles t = [h] ->
       Forall (fun x => wire_msg x /\ exists d, data_of x = Ok d) ms ->
       zlen (contents (w_fs (WritePiece (mkW t f1 [] [] false) ms)) h) <= mi_length m).
Proof. exact single_bounded_refuted. Qed.
(* exactly: the file ends where the furthest non-empty block ended *)
Theorem C24_single_file_length_exact :
  forall cwd creat mk f0 m hash dir f1 t ms h,
    New cwd creat mk f0 m hash dir = (f1, Ok t) -> mi_length m <> 0 -> 0 <= mi_piece_length m < 2 ^ 30 -> t_osfiles t = [h] ->
    Forall (fun x => wire_msg x /\ exists d, data_of x = Ok d) ms ->
    zlen (contents (w_fs (WritePiece (mkW t f1 [] [] false) ms)) h) =
    fold_left (fun n x => match data_of x with
                          | Ok (c :: r) => Z.max n (m_index x * mi_piece_length m + m_offset x + zlen (c :: r))
                          | _ => n end) ms 0.
Proof. intros. eapply single_length_exact; eassumption. Qed.
(* multi-file torrents keep every file within its length, whatever the peers send
   and whichever writes fail *)
Theorem C24_multi_file_bounded_partial :
  forall cwd creat mk f0 m hash dir f1 t outs ms,
    New cwd creat mk f0 m hash dir = (f1, Ok t) -> mi_length m = 0 -> NoDup (t_osfiles t) ->
    Forall (fun x => 0 <= tf_length x < 2 ^ 63) (mi_files m) ->
    let w := WritePiece (mkW t f1 outs [] false) ms in
    forall k x p, nth_error (mi_files m) k = Some x -> nth_error (t_osfiles t) k = Some p -> zlen (contents (w_fs w) p) <= tf_length x.
Proof. intros. eapply multi_bounded; eassumption. Qed.
Example C24_ex : map (fun p => zlen (contents (w_fs (WritePiece (mkW ex_t (fun _ => None) [] [] false) [block 1 3 (repeat 1 50)])) p)) (t_osfiles ex_t) = [0; 5].
Proof. reflexivity. Qed.

(* ---------- C25 ---------- *)
(* The full claim: an entry is stored at download dir / name / path... *)
Theorem C25_entries_at_their_paths_refuted :
  ~ (forall cwd creat mk f m hash dir f' t,
       New cwd creat mk f m hash dir = (f', Ok t) -> mi_length m = 0 -> dir <> [] -> plain_name (mi_name m) ->
       Forall (fun x => tf_path x <> [] /\ Forall plain_name (tf_path x)) (mi_files m) -> NoDup (map tf_path (mi_files m)) ->
       t_osfiles t = map (fun x => os_place cwd dir ++ mi_name m :: tf_path x) (mi_files m) /\ NoDup (t_osfiles t)).
Proof. exact entries_refuted. Qed.
(* exactly: only the first path component is used *)
Theorem C25_only_first_component_exact :
  forall cwd creat mk f m hash dir f' t,
    New cwd creat mk f m hash dir = (f', Ok t) -> mi_length m = 0 -> dir <> [] -> plain_name (mi_name m) ->
    Forall (fun x => tf_path x <> [] /\ Forall plain_name (tf_path x)) (mi_files m) ->
    t_osfiles t = map (fun x => os_place cwd dir ++ [mi_name m; hd [] (tf_path x)]) (mi_files m).
Proof. intros. eapply entries_exact; eassumption. Qed.
(* hence the full claim for flat torrents *)
Theorem C25_flat_torrents_partial :
  forall cwd creat mk f m hash dir f' t,
    New cwd creat mk f m hash dir = (f', Ok t) -> mi_length m = 0 -> dir <> [] -> plain_name (mi_name m) ->
    Forall (fun x => exists c, tf_path x = [c] /\ plain_name c) (mi_files m) -> NoDup (map tf_path (mi_files m)) ->
    t_osfiles t = map (fun x => os_place cwd dir ++ mi_name m :: tf_path x) (mi_files m) /\ NoDup (t_osfiles t).
Proof. intros. eapply entries_flat; eassumption. Qed.
(* an entry without path components makes New panic *)
Theorem C25_empty_path_panics :
  forall cwd creat f m hash dir, mi_length m = 0 -> zlen (mi_pieces m) mod 20 = 0 -> Exists (fun x => tf_path x = []) (mi_files m) ->
    snd (New cwd creat false f m hash dir) = Panic.
Proof. exact empty_path_panics. Qed.
Example C25_ex : t_osfiles ex_t = [[str "home"; str "out"; str "N"; str "a"]; [str "home"; str "out"; str "N"; str "b"]].
Proof. reflexivity. Qed.
Example C25_ex_collision :
  match snd (New [] (fun _ => true) false (fun _ => None) (mkMetainfo [] [] [] [mkTfile 1 [str "d"; str "x"]; mkTfile 1 [str "d"; str "y"]] 0 (str "N") 4 []) [] (str "/o")) with
  | Ok t => t_osfiles t = [[str "o"; str "N"; str "d"]; [str "o"; str "N"; str "d"]]
  | _ => False
  end.
Proof. reflexivity. Qed.

(* ---------- C26 ---------- *)
(* p is where the operating system ends up for the path string *)
Theorem C26_inside_download_dir_refuted :
  ~ (forall cwd creat mk f m hash dir f' t base,
       New cwd creat mk f m hash dir = (f', Ok t) -> dir <> [] -> resolves cwd dir base -> Forall (inside base) (t_osfiles t)).
Proof. exact inside_refuted. Qed.
(* exactly: names are walked component by component, so ".." goes up *)
Theorem C26_places_exact :
  forall cwd creat mk f m hash dir f' t base ncomps,
    New cwd creat mk f m hash dir = (f', Ok t) -> dir <> [] -> resolves cwd dir base -> components (mi_name m) ncomps ->
    if mi_length m =? 0
    then Forall2 (fun x p => exists c cs, hd_error (tf_path x) = Some c /\ components c cs /\ p = fold_left step cs (fold_left step ncomps base)) (mi_files m) (t_osfiles t)
    else t_osfiles t = [fold_left step ncomps base].
Proof. intros. eapply places_exact; eassumption. Qed.
(* names without ".." components (a name may contain slashes) stay inside *)
Theorem C26_inside_download_dir_partial :
  forall cwd creat mk f m hash dir f' t base,
    New cwd creat mk f m hash dir = (f', Ok t) -> dir <> [] -> resolves cwd dir base ->
    (forall cs, components (mi_name m) cs -> ~ In [46; 46] cs /\ exists c, In c cs /\ plain_name c) ->
    Forall (fun x => forall c cs, hd_error (tf_path x) = Some c -> components c cs -> ~ In [46; 46] cs) (mi_files m) ->
    Forall (inside base) (t_osfiles t).
Proof. intros. eapply inside_ok; eassumption. Qed.
Example C26_ex :
  match snd (New [str "home"] (fun _ => true) false (fun _ => None) (mkMetainfo [] [] [] [] 5 (str "../../etc/x") 4 []) [] (str "out")) with
  | Ok t => t_osfiles t = [[str "etc"; str "x"]]
  | _ => False
  end.
Proof. reflexivity. Qed.

(* ---------- C28 ---------- *)
(* The full claim: a run that stores every byte of the torrent (no failing
   writes) makes it Done. *)
Theorem C28_fully_stored_is_done_refuted :
  ~ (forall cwd creat mk f0 m hash dir f1 t ms,
       New cwd creat mk f0 m hash dir = (f1, Ok t) -> NoDup (t_osfiles t) ->
       Forall (fun x => wire_msg x /\ (exists d, data_of x = Ok d) /\ m_index x < t_pnum t) ms ->
       (forall q, 0 <= q < t_length t -> exists x d, In x ms /\ data_of x = Ok d /\
          m_index x * t_plen t + m_offset x <= q < m_index x * t_plen t + m_offset x + zlen d) ->
       Done (w_t (WritePiece (mkW t f1 [] [] false) ms)) = true).
Proof. exact fully_stored_refuted. Qed.
(* and an incomplete piece can be recorded: its last block is enough *)
Theorem C28_incomplete_not_recorded_refuted :
  ~ (forall cwd creat mk f0 m hash dir f1 t ms i q,
       New cwd creat mk f0 m hash dir = (f1, Ok t) -> NoDup (t_osfiles t) ->
       Forall (fun x => wire_msg x /\ (exists d, data_of x = Ok d) /\ m_index x < t_pnum t) ms ->
       bs_test (t_downloaded (w_t (WritePiece (mkW t f1 [] [] false) ms))) i = true ->
       i * t_plen t <= q < Z.min (t_length t) ((i + 1) * t_plen t) ->
       exists x d, In x ms /\ data_of x = Ok d /\ m_index x * t_plen t + m_offset x <= q < m_index x * t_plen t + m_offset x + zlen d).
Proof. exact incomplete_refuted. Qed.
(* exactly when a message marks a piece *)
Theorem C28_marks_exact :
  forall w m i, 0 <= i -> 0 <= m_index m ->
    bs_test (t_downloaded (w_t (write_one w m))) i = true <->
    bs_test (t_downloaded (w_t w)) i = true \/
    exists d f' outs', data_of m = Ok d /\
      writePieceData (w_fs w) (w_outs w) (w_t w) d (wrap64 (wrap64 (m_index m * t_plen (w_t w)) + m_offset m)) = (f', outs', WOk) /\
      wrap64 (m_offset m + zlen d) = t_plen (w_t w) /\ i = m_index m.
Proof. exact write_one_marks. Qed.
(* a torrent whose length is no multiple of the piece length is never Done *)
Theorem C28_short_last_piece_never_done :
  forall cwd creat mk f0 m hash dir f1 t outs ms,
    New cwd creat mk f0 m hash dir = (f1, Ok t) -> mi_length m = 0 -> NoDup (t_osfiles t) ->
    Forall (fun x => 0 <= tf_length x) (mi_files m) -> 0 < total (map tf_length (mi_files m)) <= 2 ^ 50 -> 0 < mi_piece_length m <= 2 ^ 50 ->
    total (map tf_length (mi_files m)) mod mi_piece_length m <> 0 ->
    Forall wire_sized ms ->
    Done (w_t (WritePiece (mkW t f1 outs [] false) ms)) = false.
Proof. intros. eapply never_done_multi; eassumption. Qed.
Theorem C28_short_last_piece_never_done_single :
  forall cwd creat mk f0 m hash dir f1 t outs ms,
    New cwd creat mk f0 m hash dir = (f1, Ok t) -> 0 < mi_length m <= 2 ^ 50 -> 0 < mi_piece_length m <= 2 ^ 50 ->
    mi_length m mod mi_piece_length m <> 0 ->
    Forall wire_sized ms -> Forall (ends_inside t) ms ->
    Done (w_t (WritePiece (mkW t f1 outs [] false) ms)) = false.
Proof. intros. eapply never_done_single; eassumption. Qed.
(* what does hold: if for each piece a block ending at its piece length is stored
   (so no piece is shorter), the torrent is Done *)
Theorem C28_full_length_pieces_done_partial :
  forall cwd creat mk f0 m hash dir f1 t ms,
    New cwd creat mk f0 m hash dir = (f1, Ok t) -> mi_length m = 0 -> NoDup (t_osfiles t) ->
    Forall (fun x => 0 <= tf_length x < 2 ^ 63) (mi_files m) -> 0 <= mi_piece_length m < 2 ^ 30 -> 0 <= t_pnum t < 2 ^ 51 ->
    Forall (fun x => wire_msg x /\ exists d, data_of x = Ok d /\ zlen d < 2 ^ 32 /\ 0 <= m_index x < t_pnum t /\
      m_index x * mi_piece_length m + m_offset x < total (map tf_length (mi_files m)) /\
      m_index x * mi_piece_length m + m_offset x + zlen d <= total (map tf_length (mi_files m))) ms ->
    (forall i, 0 <= i < t_pnum t -> exists x d, In x ms /\ m_index x = i /\ data_of x = Ok d /\ m_offset x + zlen d = mi_piece_length m) ->
    Done (w_t (WritePiece (mkW t f1 [] [] false) ms)) = true.
Proof. intros. eapply full_pieces_done; eassumption. Qed.
Example C28_ex :
  let run ms := Done (w_t (WritePiece (mkW ex_t (fun _ => None) [] [] false) ms)) in
  run [block 0 0 [1;2;3;4]] = false /\ run [block 0 0 [1;2;3;4]; block 1 0 [1;2]; block 1 2 [3;4]] = true /\
  run [block 0 3 [4]; block 1 3 [4]] = true /\ run [block 0 0 [1;2;3]; block 1 0 [1;2;3]] = false.
Proof. repeat split; reflexivity. Qed.

(* ---------- C29 ---------- *)
(* n is the least number of pieces of length P that hold L bytes *)
Theorem C29_pieces_num_is_ceiling :
  forall cwd creat mk f m hash dir f' t,
    New cwd creat mk f m hash dir = (f', Ok t) -> 0 <= t_length t <= 2 ^ 53 -> 0 < mi_piece_length m <= 2 ^ 53 ->
    (t_pnum t - 1) * mi_piece_length m < t_length t <= t_pnum t * mi_piece_length m.
Proof. intros. eapply pieces_num_new; eassumption. Qed.
(* with the length as announced *)
Theorem C29_length :
  forall cwd creat mk f m hash dir f' t, New cwd creat mk f m hash dir = (f', Ok t) ->
    (mi_length m <> 0 -> t_length t = mi_length m) /\
    (mi_length m = 0 -> Forall (fun x => 0 <= tf_length x) (mi_files m) -> total (map tf_length (mi_files m)) < 2 ^ 63 ->
       t_length t = total (map tf_length (mi_files m))).
Proof. intros. eapply length_new; eassumption. Qed.
(* the bound on the length is needed *)
Theorem C29_beyond_2_53 : pieces_num (2 ^ 53 + 1) 1 = 2 ^ 53.
Proof. reflexivity. Qed.
Example C29_ex : t_pnum ex_t = 2 /\ pieces_num 9007199254740991 9007199254740990 = 2 /\ pieces_num 9 4 = 3.
Proof. repeat split; reflexivity. Qed.

(* ---------- C30 ---------- *)
Theorem C30_trackers :
  forall cwd creat mk f m hash dir f' t, New cwd creat mk f m hash dir = (f', Ok t) ->
    NoDup (t_trackers t) /\
    forall u, In u (t_trackers t) <-> u = mi_announce m \/ (exists tier, In tier (mi_announce_list m) /\ In u tier) \/ In u (mi_url_list m).
Proof. intros. eapply trackers_new; eassumption. Qed.
Example C30_ex : t_trackers ex_t = [str "http://t/a"; str "udp://u"; str "http://w"].
Proof. reflexivity. Qed.

(* ---------- C61 ---------- *)
(* The full claim: a torrent with data is not Done when it is created. *)
Theorem C61_new_torrent_not_done_refuted :
  ~ (forall cwd creat mk f m hash dir f' t,
       New cwd creat mk f m hash dir = (f', Ok t) -> 0 < t_length t -> Done t = false).
Proof. exact fresh_done_refuted. Qed.
Theorem C61_new_torrent_not_done_exact :
  forall cwd creat mk f m hash dir f' t,
    New cwd creat mk f m hash dir = (f', Ok t) -> (Done t = false <-> 0 < t_pnum t < 2 ^ 51).
Proof. intros. eapply fresh_done_iff; eassumption. Qed.
(* any torrent with piece length 0 is Done at once (and nothing is ever requested) *)
Theorem C61_zero_piece_length :
  forall cwd creat mk f m hash dir f' t have,
    New cwd creat mk f m hash dir = (f', Ok t) -> mi_piece_length m = 0 -> - 2 ^ 63 <= mi_length m < 2 ^ 63 -> Done t = true /\ Next t have = (t, None).
Proof. intros. eapply zero_plen_done; eassumption. Qed.
Theorem C61_new_torrent_not_done_partial :
  forall cwd creat mk f m hash dir f' t,
    New cwd creat mk f m hash dir = (f', Ok t) -> 0 < t_length t <= 2 ^ 50 -> 0 < mi_piece_length m <= 2 ^ 53 -> Done t = false.
Proof. intros. eapply fresh_not_done; eassumption. Qed.
Example C61_ex : Done ex_t = false.
Proof. reflexivity. Qed.

(* ---------- C62 ---------- *)
(* The full claim: New accepts only torrents with one hash per piece. *)
Theorem C62_one_hash_per_piece_refuted :
  ~ (forall cwd creat mk f m hash dir f' t,
       New cwd creat mk f m hash dir = (f', Ok t) -> 0 < t_length t <= 2 ^ 50 -> 0 < mi_piece_length m <= 2 ^ 53 -> zlen (t_pieces t) = t_pnum t).
Proof. exact hashes_refuted. Qed.
(* so checking a valid piece index panics when hashes are missing; exactly: *)
Theorem C62_check_panics_exact :
  forall sha1 cwd creat mk f m hash dir f' t data i,
    New cwd creat mk f m hash dir = (f', Ok t) ->
    (CheckPiece sha1 t data i = Panic <-> ~ 0 <= i < zlen (mi_pieces m) / 20) /\
    (0 <= i < zlen (mi_pieces m) / 20 -> CheckPiece sha1 t data i = Ok (beq (sub (mi_pieces m) (20 * i) (20 * i + 20)) (sha1 data))).
Proof. intros. eapply check_exact; eassumption. Qed.
Example C62_ex : CheckPiece (fun _ => repeat 7 20) ex_t [1] 1 = Ok true /\ CheckPiece (fun _ => repeat 8 20) ex_t [1] 1 = Ok false /\
  CheckPiece (fun _ => repeat 7 20) ex_t [1] 2 = Panic.
Proof. repeat split; reflexivity. Qed.

Print Assumptions C20_new_pieces.
Print Assumptions C21_next_hands_out_once.
Print Assumptions C22_done_iff_all_marked.
Print Assumptions C22_any_indices.
Print Assumptions C23_block_lands_at_its_position.
Print Assumptions C23_failing_writes_store_a_prefix.
Print Assumptions C23_disk_after_any_run.
Print Assumptions C23_single_file_disk_after_any_run.
Print Assumptions C24_single_file_bounded_refuted.
Print Assumptions C24_single_file_length_exact.
Print Assumptions C24_multi_file_bounded_partial.
Print Assumptions C25_entries_at_their_paths_refuted.
Print Assumptions C25_only_first_component_exact.
Print Assumptions C25_flat_torrents_partial.
Print Assumptions C25_empty_path_panics.
Print Assumptions C26_inside_download_dir_refuted.
Print Assumptions C26_places_exact.
Print Assumptions C26_inside_download_dir_partial.
Print Assumptions C28_fully_stored_is_done_refuted.
Print Assumptions C28_incomplete_not_recorded_refuted.
Print Assumptions C28_marks_exact.
Print Assumptions C28_short_last_piece_never_done.
Print Assumptions C28_short_last_piece_never_done_single.
Print Assumptions C28_full_length_pieces_done_partial.
Print Assumptions C29_pieces_num_is_ceiling.
Print Assumptions C29_length.
Print Assumptions C29_beyond_2_53.
Print Assumptions C30_trackers.
Print Assumptions C61_new_torrent_not_done_refuted.
Print Assumptions C61_new_torrent_not_done_exact.
Print Assumptions C61_zero_piece_length.
Print Assumptions C61_new_torrent_not_done_partial.
Print Assumptions C62_one_hash_per_piece_refuted.
Print Assumptions C62_check_panics_exact.
