(* A download that can be completed (C166).                                    *)
From Verif Require Import Base ModelTorrent ModelPeer ModelSystem ModelManager ModelClient SpecTorrent SpecFinish SpecArrive.

(* data a peer sent so far, or a piece of the content c *)
Definition known (M : metainfo) (N : Z) (c : bytes) (tr : list cev) (d : bytes) : Prop :=
  (exists i off, read_piece tr i off d) \/ exists i, 0 <= i < N /\ d = piece_of c (mi_piece_length M) i.
Definition no_known_collision (sha1 : bytes -> bytes) (M : metainfo) (N : Z) (c : bytes) (tr : list cev) : Prop :=
  forall d d', known M N c tr d -> known M N c tr d' -> sha1 d = sha1 d' -> d = d'.
(* the k-th peer is in Run *)
Definition at_run (cl : client) (k : nat) : Prop := exists r, nth_error (wo_peers (c_wo cl)) k = Some r /\ r_pc r <> PRet.
(* only that peer and the writer *)
Definition by_peer (k : nat) (a : cact) : Prop := match a with KWriter => True | KPeer j _ => j = k | _ => False end.
