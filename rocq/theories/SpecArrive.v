(* When every piece has arrived (C124).                                        *)
From Verif Require Import Base ModelMsg ModelTorrent ModelConn ModelPeer ModelSystem ModelManager ModelClient SpecMsg SpecTorrent SpecFinish SpecOrigin.

(* The torrent has N pieces, with one hash each; the last one may be shorter.  *)
Definition pieces_of (M : metainfo) (N : Z) : Prop :=
  0 < N <= 2 ^ 32 /\ (N - 1) * mi_piece_length M < total (file_lengths M) <= N * mi_piece_length M /\ zlen (mi_pieces M) = 20 * N.
Definition piece_size (M : metainfo) (i : Z) : Z := Z.min (mi_piece_length M) (total (file_lengths M) - i * mi_piece_length M).
(* this piece message was read from a peer in Run *)
Definition read_piece (tr : list cev) (i off : Z) (d : bytes) : Prop := exists k, In (VSys k (EReadOk (piece_bytes i off d))) tr.
(* Data with the right hash came for the start of its piece, *)
Definition in_place (sha1 : bytes -> bytes) (M : metainfo) (tr : list cev) : Prop :=
  forall i off d, 0 <= i < 2 ^ 32 -> 0 <= off < 2 ^ 32 -> read_piece tr i off d -> sha1 d = hash_of (mi_pieces M) i -> off = 0.
(* and no two different ones have one hash *)
Definition no_collision (sha1 : bytes -> bytes) (tr : list cev) : Prop :=
  forall i off d i' off' d', read_piece tr i off d -> read_piece tr i' off' d' -> sha1 d = sha1 d' -> d = d'.
(* Some peer in Run put piece i, with data d, into the channel to the writer. *)
Definition accepted (tr : list cev) (i : Z) (d : bytes) : Prop := exists k m, In (VSys k (EPut m)) tr /\ NewPeerMessage (piece_bytes i 0 d) = Ok m.
Definition arrived (M : metainfo) (tr : list cev) (i : Z) : Prop := exists d, accepted tr i d /\ zlen d = piece_size M i.
(* how many messages were put there *)
Definition is_put (e : cev) : bool := match e with VSys _ (EPut _) => true | _ => false end.
Definition puts (tr : list cev) : nat := length (filter is_put tr).
(* turns of the writer *)
Definition is_writer (a : cact) : bool := match a with KWriter => true | _ => false end.
Definition turns (l : list cact) : nat := length (filter is_writer l).
(* the files are what the torrent says *)
Definition complete (sha1 : bytes -> bytes) (M : metainfo) (f : ModelTorrent.fs) (ps : list SpecPath.place) (N : Z) : Prop :=
  forall i, 0 <= i < N -> sha1 (piece_of (stored f ps (file_lengths M)) (mi_piece_length M) i) = hash_of (mi_pieces M) i.
