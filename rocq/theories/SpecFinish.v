(* What a finished download is: the files, one after the other, are cut into
   pieces and each piece has its SHA-1 (BEP-3).                                *)
From Verif Require Import Base SpecPath ModelPath ModelTorrent SpecTorrent.

(* the first n bytes of a file; missing ones read as zero *)
Definition read_file (f : fs) (p : place) (n : Z) : bytes :=
  map (fun k => byte_at (match f p with Some c => c | None => [] end) (Z.of_nat k)) (seq 0 (Z.to_nat n)).
(* the files of the given lengths, one after the other *)
Fixpoint stored (f : fs) (ps : list place) (lens : list Z) : bytes :=
  match ps, lens with
  | p :: ps', n :: lens' => read_file f p n ++ stored f ps' lens'
  | _, _ => []
  end.
(* piece i of the content, and the hash the metainfo gives for it *)
Definition piece_of (content : bytes) (plen i : Z) : bytes := sub content (i * plen) ((i + 1) * plen).
Definition hash_of (pieces : bytes) (i : Z) : bytes := sub pieces (20 * i) (20 * i + 20).
(* the lengths the metainfo gives: a file name, or a list of files *)
Definition file_lengths (mi : metainfo) : list Z :=
  if mi_length mi =? 0 then map tf_length (mi_files mi) else [mi_length mi].
