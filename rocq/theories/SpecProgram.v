(* A download in terms of the torrent file given (C119, C120).                 *)
From Coq Require Import Permutation.
From Verif Require Import Base ModelBencode SpecBencode SpecUnmarshal SpecPath ModelStats ModelTorrent ModelConn ModelPeer ModelSystem ModelTracker ModelManager ModelClient ModelCmd ModelProgram
  SpecMsg SpecTorrent SpecFinish SpecCmd SpecManager SpecClient SpecCrash SpecOrigin.

(* The file begins with a bencoded dictionary that says M; w are the bytes of its
   value for info.                                                             *)
Definition torrent_doc (d : bytes) (M : metainfo) (w : bytes) : Prop :=
  exists m raw post info, d = raw ++ post /\ wdenotes raw (BDict true m raw) /\ says m M /\ value_of m "info" (BDict true info w).
(* The places of its files when out is the output directory: only the first
   component of a path counts (C25), and they may be outside of out (C26).     *)
Definition torrent_places (cwd : place) (out : bytes) (M : metainfo) (ps : list place) : Prop :=
  exists base ncomps, resolves cwd out base /\ components (mi_name M) ncomps /\
    if mi_length M =? 0
    then Forall2 (fun x p => exists c cs, hd_error (tf_path x) = Some c /\ components c cs /\ p = fold_left step cs (fold_left step ncomps base)) (mi_files M) ps
    else ps = [fold_left step ncomps base].
Definition tracker_of (M : metainfo) (u : bytes) : Prop :=
  u = mi_announce M \/ (exists tier, In tier (mi_announce_list M) /\ In u tier) \/ In u (mi_url_list M).
Definition http_url (cf : conf) (u : bytes) : Prop := cf_scheme cf u = Some (str "http") \/ cf_scheme cf u = Some (str "https").
