(* Data that does not match its hash (C161, C162).                             *)
From Verif Require Import Base ModelTorrent ModelStats ModelConn ModelPeer ModelSystem ModelTracker ModelManager ModelClient ModelCmd ModelProgram.
From Verif Require Import SpecBencode SpecTorrent SpecFinish SpecProgram SpecClient SpecOrigin SpecIdle.

(* b is a piece message for a piece of the torrent, and its data has another hash *)
Definition corrupt (sha1 : bytes -> bytes) (mi : metainfo) (b : bytes) : Prop :=
  exists i o d, b = piece_bytes i o d /\ 0 <= i < 2 ^ 32 /\ 0 <= o < 2 ^ 32 /\ 20 * (i + 1) <= zlen (mi_pieces mi) /\ sha1 d <> hash_of (mi_pieces mi) i.
Definition useless (sha1 : bytes -> bytes) (mi : metainfo) (b : bytes) : Prop := corrupt sha1 mi b \/ tells_nothing b.
(* The same step, but what a peer sends is another useless message. *)
Definition swapped (sha1 : bytes -> bytes) (mi : metainfo) (a a' : cact) : Prop :=
  a = a' \/ exists k due ok b b' timer, a = KPeer k (mkI due ok (Some b) timer) /\ a' = KPeer k (mkI due ok (Some b') timer) /\ useless sha1 mi b /\ useless sha1 mi b'.
(* The same event, but for such a message being read. *)
Definition alike (sha1 : bytes -> bytes) (mi : metainfo) (e e' : cev) : Prop :=
  e = e' \/ exists k b b', e = VSys k (EReadOk b) /\ e' = VSys k (EReadOk b') /\ useless sha1 mi b /\ useless sha1 mi b'.
(* the bodies read from peer k *)
Definition bodies_of (k : nat) (tr : list (nat * event)) : list bytes :=
  flat_map (fun e => match e with EReadOk b => [b] | _ => [] end) (events_of k tr).
(* A peer that has sent n messages or more, all of them corrupt pieces, is not
   served any more: its Run has returned.                                      *)
Definition dropped_after (n : nat) : Prop :=
  forall cf look o f flags out file outs order d M w c0 l c tr k r,
    o_file o file = Some d -> SpecBencode.fits d -> torrent_doc d M w -> prog_start cf look o f flags (CDownload out file) outs order = PRun c0 ->
    prog_run cf l (PRun c0) = (PRun c, tr) -> nth_error (wo_peers (c_wo c)) k = Some r -> Forall (corrupt (cf_sha1 cf) M) (bodies_of k (sevs tr)) ->
    (n <= length (bodies_of k (sevs tr)))%nat -> r_pc r = PRet.
