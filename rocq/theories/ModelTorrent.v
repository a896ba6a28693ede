(* pkg/torrent: torrent.go, piece.go, pieces_queue.go; pkg/util/set.go         *)
From Coq Require Import Floats.SpecFloat.
From Verif Require Import Base SpecPath ModelPath ModelFloat ModelBitset ModelMsg.

(* torrent.go:23 *)
Definition BlockLength : Z := 131072.

(* ---------- piece.go ---------- *)
(* piece.go:10-20 *)
Record piece := mkPiece { p_index : Z; p_sha1 : bytes }.

(* piece.go:34-49 NewPieces: the loop over i, index *)
Fixpoint pieces_loop (fuel : nat) (pieces : bytes) (i index : Z) : res (list piece) :=
  match fuel with
  | O => Diverge
  | S fuel' =>
      if i <? zlen pieces then
        do h <- slice pieces i (i + 20) ;
        do rest <- pieces_loop fuel' pieces (i + 20) (index + 1) ;
        Ok (mkPiece index h :: rest)
      else Ok []
  end.
(* piece.go:34-57.  result[index] = piece fills the preallocated slice from the
   front; it is in range because len(result) = len/20 (checkPieceLen).         *)
Definition NewPieces (pieces : bytes) : res (list piece) :=
  if zlen pieces mod 20 =? 0 then pieces_loop (S (length pieces)) pieces 0 0 else Err "invalid pieces len"%string.

(* ---------- util/set.go ---------- *)
(* A StringSet is a map; only membership is observable, iteration order is
   arbitrary.  Kept as a list without duplicates.                              *)
Definition set_contains (s : list bytes) (x : bytes) : bool := existsb (beq x) s.
(* set.go:9-16 Add *)
Definition set_add (s : list bytes) (x : bytes) : list bytes := if set_contains s x then s else s ++ [x].

(* ---------- metainfo (pkg/bencode/tag_parser.go:190-218) ---------- *)
Record tfile := mkTfile { tf_length : Z; tf_path : list bytes }.
Record metainfo := mkMetainfo {
  mi_announce : bytes;
  mi_announce_list : list (list bytes);
  mi_url_list : list bytes;
  mi_files : list tfile;
  mi_length : Z;
  mi_name : bytes;
  mi_piece_length : Z;
  mi_pieces : bytes
}.

(* ---------- file system ---------- *)
(* Regular files by place; None: not created by us. *)
Definition fs := place -> option bytes.
Fixpoint peq (a b : place) : bool :=
  match a, b with
  | [], [] => true
  | x :: a', y :: b' => beq x y && peq a' b'
  | _, _ => false
  end.
Definition fs_put (f : fs) (p : place) (c : bytes) : fs := fun q => if peq p q then Some c else f q.

(* pwrite: bytes between the end of the file and the offset become zero *)
Definition pwrite (c : bytes) (off : Z) (d : bytes) : bytes :=
  match d with
  | [] => c
  | _ => firstn (Z.to_nat off) (c ++ repeat 0 (Z.to_nat off - length c)) ++ d ++ skipn (Z.to_nat off + length d) c
  end.

Inductive wstat := WOk | WErr (e : string) | WPanic.

(* os.File.WriteAt(data, off) on a file at place h.  outs holds the outcomes of
   the coming calls: None succeeds, Some k fails after k bytes; when used up all
   calls succeed.                                                              *)
Definition WriteAt (f : fs) (outs : list (option Z)) (h : place) (data : bytes) (off : Z) : fs * list (option Z) * wstat :=
  if off <? 0 then (f, outs, WErr "negative offset"%string)
  else
    let c := match f h with Some c => c | None => [] end in
    match outs with
    | Some k :: outs' => (fs_put f h (pwrite c off (firstn (Z.to_nat k) data)), outs', WErr "io"%string)
    | None :: outs' => (fs_put f h (pwrite c off data), outs', WOk)
    | [] => (fs_put f h (pwrite c off data), [], WOk)
    end.

(* ---------- Torrent ---------- *)
(* torrent.go:25-53.  OsFiles is kept as the places the handles refer to. *)
Record torrent := mkTorrent {
  t_trackers : list bytes;
  t_hash : bytes;
  t_length : Z;
  t_plen : Z;
  t_pieces : list piece;
  t_pnum : Z;
  t_files : list tfile;
  t_osfiles : list place;
  t_name : bytes;
  t_isdir : bool;
  t_nblocks : Z;
  t_requested : bitset;
  t_downloaded : bitset
}.
Definition set_requested (t : torrent) (b : bitset) : torrent :=
  mkTorrent (t_trackers t) (t_hash t) (t_length t) (t_plen t) (t_pieces t) (t_pnum t) (t_files t) (t_osfiles t) (t_name t) (t_isdir t) (t_nblocks t) b (t_downloaded t).
Definition set_downloaded (t : torrent) (b : bitset) : torrent :=
  mkTorrent (t_trackers t) (t_hash t) (t_length t) (t_plen t) (t_pieces t) (t_pnum t) (t_files t) (t_osfiles t) (t_name t) (t_isdir t) (t_nblocks t) (t_requested t) b.

(* torrent.go:76-87 *)
Definition trackers_of (m : metainfo) : list bytes :=
  let s := set_add [] (mi_announce m) in
  let s := fold_left (fun s el => fold_left set_add el s) (mi_announce_list m) s in
  fold_left set_add (mi_url_list m) s.

(* torrent.go:95-98: int addition wraps *)
Definition complete_length (files : list tfile) : Z :=
  fold_left (fun acc f => wrap64 (acc + tf_length f)) files 0.

(* torrent.go:102 *)
Definition pieces_num (len plen : Z) : Z := int_of (f_ceil (f64_div (f64_of len) (f64_of plen))).

(* bitset.New(uint(n)): an impossible allocation is recovered inside the library
   and gives the empty set.  (Sizes that are possible but exceed the memory are
   not modelled.)                                                              *)
Definition bs_make (n : Z) : bitset := if (0 <=? n) && (n <? 2 ^ 51) then bs_new n else [].

(* torrent.go:142-155 the paths; tf.Path[0] panics on an empty path *)
Fixpoint file_paths (dir : bytes) (files : list tfile) : res (list bytes) :=
  match files with
  | [] => Ok []
  | f :: fs' =>
      match tf_path f with
      | [] => Panic
      | c :: _ => do r <- file_paths dir fs' ; Ok (Join dir c :: r)
      end
  end.
Definition download_paths (root : bytes) (t_isdir : bool) (name : bytes) (files : list tfile) : res (list bytes) :=
  let path := Join root name in
  if t_isdir then file_paths path files else Ok [path].

(* torrent.go:157-163: os.Create truncates; creat p tells whether it succeeds *)
Fixpoint create_files (cwd : place) (creat : bytes -> bool) (f : fs) (paths : list bytes) : fs * res (list place) :=
  match paths with
  | [] => (f, Ok [])
  | p :: ps =>
      if creat p then
        let h := os_place cwd p in
        let '(f', r) := create_files cwd creat (fs_put f h []) ps in
        (f', do hs <- r ; Ok (h :: hs))
      else (f, Err "create"%string)
  end.

(* torrent.go:55-111 New, without logger.  mkdir_missing: os.Mkdir failed because
   the parent does not exist (its other errors are ignored by the code).  The
   hash is computed by Metainfo.Hash (ModelUnmarshal) and passed in.           *)
Definition New (cwd : place) (creat : bytes -> bool) (mkdir_missing : bool) (f : fs)
               (m : metainfo) (hash : bytes) (downloadDir : bytes) : fs * res torrent :=
  match NewPieces (mi_pieces m) with
  | Ok pieces =>
      let isdir := mi_length m =? 0 in
      let len := if isdir then complete_length (mi_files m) else mi_length m in
      let files := if isdir then mi_files m else [] in
      let pnum := pieces_num len (mi_piece_length m) in
      if isdir && mkdir_missing then (f, Err "mkdir"%string)
      else
        match download_paths downloadDir isdir (mi_name m) files with
        | Ok paths =>
            let '(f', r) := create_files cwd creat f paths in
            (f', do hs <- r ;
                 Ok (mkTorrent (trackers_of m) hash len (mi_piece_length m) pieces pnum files hs (mi_name m) isdir
                       (Z.quot (mi_piece_length m) BlockLength) (bs_make pnum) (bs_make pnum)))
        | Panic => (f, Panic)
        | Err e => (f, Err e)
        | Diverge => (f, Diverge)
        end
  | Err e => (f, Err e)
  | Panic => (f, Panic)
  | Diverge => (f, Diverge)
  end.

(* torrent.go:113-118 *)
Definition SetDownloaded (t : torrent) (i : Z) : torrent := set_downloaded t (bs_set (t_downloaded t) i).

(* torrent.go:124-131 the loop over NextClear *)
Fixpoint next_loop (fuel : nat) (requested have : bitset) (cur : option Z) : option Z :=
  match fuel with
  | O => None
  | S fuel' =>
      match cur with
      | None => None
      | Some i => if bs_test have i then Some i else next_loop fuel' requested have (bs_next_clear requested (i + 1))
      end
  end.
(* torrent.go:120-134 Next.  i grows with every round, so length+1 rounds are
   enough (ProofTorrent.next_loop_spec).                                       *)
Definition Next (t : torrent) (have : bitset) : torrent * option Z :=
  match next_loop (S (length (t_requested t))) (t_requested t) have (bs_next_clear (t_requested t) 0) with
  | Some i => (set_requested t (bs_set (t_requested t) i), Some i)
  | None => (t, None)
  end.

(* torrent.go:136-140 *)
Definition Done (t : torrent) : bool := bs_all (t_downloaded t).

(* torrent.go:168-174: t.Pieces[index] panics out of range *)
Definition CheckPiece (sha1 : bytes -> bytes) (t : torrent) (data : bytes) (index : Z) : res bool :=
  match nthZ (t_pieces t) index with
  | Some p => Ok (beq (p_sha1 p) (sha1 data))
  | None => Panic
  end.

(* torrent.go:206-213: the file holding the position, and those after it *)
Fixpoint find_file (files : list (Z * place)) (pos : Z) : option (Z * list (Z * place)) :=
  match files with
  | [] => None
  | (len, h) :: r => if pos <? len then Some (pos, files) else find_file r (wrap64 (pos - len))
  end.
(* torrent.go:219-242 *)
Fixpoint write_loop (f : fs) (outs : list (option Z)) (files : list (Z * place)) (pos : Z) (data : bytes) : fs * list (option Z) * wstat :=
  match data with
  | [] => (f, outs, WOk)
  | _ =>
      match files with
      | [] => (f, outs, WErr "data extends beyond torrent files"%string)
      | (len, h) :: r =>
          let available := wrap64 (len - pos) in
          let toWrite := if available <? zlen data then available else zlen data in
          if toWrite <? 0 then (f, outs, WPanic)      (* data[:toWrite] *)
          else
            let '(f', outs', st) := WriteAt f outs h (sub data 0 toWrite) pos in
            match st with
            | WOk => write_loop f' outs' r 0 (sub data toWrite (zlen data))
            | _ => (f', outs', st)
            end
      end
  end.
(* the entries with their handles; New opens one handle per entry *)
Definition entries (t : torrent) : list (Z * place) := combine (map tf_length (t_files t)) (t_osfiles t).
(* torrent.go:199-245 *)
Definition writePieceData (f : fs) (outs : list (option Z)) (t : torrent) (data : bytes) (pos : Z) : fs * list (option Z) * wstat :=
  if negb (t_isdir t) then
    match t_osfiles t with
    | h :: _ => WriteAt f outs h data pos
    | [] => (f, outs, WPanic)
    end
  else
    match find_file (entries t) pos with
    | None => (f, outs, WErr "piece position beyond all torrent files"%string)
    | Some (pos', files) => write_loop f outs files pos' data
    end.

(* torrent.go:176-192: one message of the loop.  Data() is nil (length 0) for a
   message without data.  dl collects the sizes passed to AddDownload.         *)
Record wstate := mkW { w_t : torrent; w_fs : fs; w_outs : list (option Z); w_added : list Z; w_panic : bool }.
Definition data_of (m : msg) : res bytes :=
  do d <- Data m ; Ok (match d with Some b => b | None => [] end).
Definition write_one (w : wstate) (m : msg) : wstate :=
  match data_of m with
  | Ok d =>
      let t := w_t w in
      let pos := wrap64 (wrap64 (m_index m * t_plen t) + m_offset m) in
      let added := w_added w ++ [zlen d] in
      let '(f', outs', st) := writePieceData (w_fs w) (w_outs w) t d pos in
      match st with
      | WOk => mkW (if wrap64 (m_offset m + zlen d) =? t_plen t then SetDownloaded t (m_index m) else t) f' outs' added (w_panic w)
      | WErr _ => mkW t f' outs' added (w_panic w)
      | WPanic => mkW t f' outs' added true
      end
  | _ => mkW (w_t w) (w_fs w) (w_outs w) (w_added w) true
  end.
(* torrent.go:176-195 WritePiece over the messages received; a panic ends it *)
Fixpoint WritePiece (w : wstate) (ms : list msg) : wstate :=
  match ms with
  | [] => w
  | m :: ms' => if w_panic w then w else WritePiece (write_one w m) ms'
  end.

(* torrent.go:260-262 *)
Definition EmptyBitset (t : torrent) : bitset := bs_make (t_pnum t).

(* ---------- pieces_queue.go ---------- *)
(* pieces_queue.go:9-12: the most recent last *)
Definition queue := list msg.
Definition NewPiecesQueue : queue := [].
(* pieces_queue.go:21-25 *)
Definition RequestFailed (q : queue) (m : msg) : queue := q ++ [m].
(* pieces_queue.go:27-37 *)
Definition FailedPieceMessage (q : queue) : queue * option msg :=
  if zlen q =? 0 then (q, None)
  else match nthZ q (zlen q - 1) with
       | Some m => (firstn (Z.to_nat (zlen q - 1)) q, Some m)
       | None => (q, None)                              (* unreachable *)
       end.
