(* Where the bytes on disk come from (C118).                                   *)
From Verif Require Import Base ModelTorrent ModelConn ModelPeer ModelSystem ModelTracker ModelManager ModelClient
  SpecMsg SpecTorrent SpecFinish SpecManager SpecClient SpecCrash.

(* the body of a piece message (BEP-3) *)
Definition piece_bytes (index begin : Z) (d : bytes) : bytes := 7 :: be32 index ++ be32 begin ++ d.
(* Byte o of file k of the torrent is its byte q.  The only file of a torrent
   without a list of files has no end (C24).                                   *)
Definition spot (mi : metainfo) (q : Z) (k : nat) (o : Z) : Prop :=
  (mi_length mi = 0 /\ located (map tf_length (mi_files mi)) q k o) \/ (mi_length mi <> 0 /\ q = o /\ 0 <= o).
(* The body b was read from the n-th peer in Run; before that its connection had
   delivered a handshake for this torrent, and a tracker's reply its address.  *)
Definition from_peer (cf : conf) (c0 : client) (l : list cact) (hash : bytes) (tr : list cev) (n : nat) (b : bytes) : Prop :=
  exists t1 t2, tr = t1 ++ VSys n (EReadOk b) :: t2 /\
    exists p evs j a, nth_error (shakes t1) n = Some (p, evs) /\ greets hash evs /\ nth_error (added (gevs t1)) p = Some a /\ replied cf c0 l t1 j a.
(* what peers send is bytes *)
Definition sends_bytes (a : cact) : Prop := match a with KPeer _ i => forall b, i_read i = Some b -> Forall is_byte b | _ => True end.
