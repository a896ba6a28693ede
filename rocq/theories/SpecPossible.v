(* A torrent of given content, and its files (C158).                           *)
From Verif Require Import Base SpecPath ModelPath ModelTorrent ModelSystem SpecTorrent SpecFinish.

(* the content, cut into files of the given lengths *)
Fixpoint cut (lens : list Z) (c : bytes) : list bytes :=
  match lens with
  | [] => []
  | n :: lens' => firstn (Z.to_nat n) c :: cut lens' (skipn (Z.to_nat n) c)
  end.
(* mi describes c: as long as the files, one hash for each of the N pieces (BEP-3) *)
Definition torrent_of (sha1 : bytes -> bytes) (mi : metainfo) (N : Z) (c : bytes) : Prop :=
  zlen c = total (file_lengths mi) /\ Forall is_byte c /\ zlen (mi_pieces mi) = 20 * N /\
  (N - 1) * mi_piece_length mi < zlen c <= N * mi_piece_length mi /\
  forall i, 0 <= i < N -> hash_of (mi_pieces mi) i = sha1 (piece_of c (mi_piece_length mi) i).
(* the peers are those of the program: see ModelSystem.fresh *)
Definition real (a : action) : Prop := match a with ASpawn b _ => b = false | _ => True end.
