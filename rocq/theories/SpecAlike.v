(* Torrent files that are told apart by nothing the client looks at (C147, C148). *)
From Verif Require Import Base ModelBencode SpecBencode ModelTorrent ModelCmd.

(* The file begins with a dictionary, these are its entries in the order of the file. *)
Definition entries_of (d : bytes) (es : list (bytes * ben)) : Prop :=
  exists body post, d = [100] ++ body ++ [101] ++ post /\ den_entries wrapped_val body es.
(* the keys of BEP 3, 12 and 19 *)
Definition known : list bytes :=
  [str "announce"; str "announce-list"; str "url-list"; str "info"; str "comment"; str "created by"; str "creation date"; str "encoding"].
Definition known_info : list bytes := [str "files"; str "length"; str "name"; str "piece length"; str "pieces"].
(* the entries with keys among ks *)
Definition only (ks : list bytes) (es : list (bytes * ben)) : list (bytes * ben) := filter (fun kv => existsb (beq (fst kv)) ks) es.

(* two file lists that differ in nothing but other keys of the files and the order of keys *)
Definition file_alike (v1 v2 : ben) : Prop :=
  exists m1 r1 m2 r2, v1 = BDict true m1 r1 /\ v2 = BDict true m2 r2 /\
    lookup (str "path") m1 = lookup (str "path") m2 /\ lookup (str "length") m1 = lookup (str "length") m2.
Definition files_alike (v1 v2 : option ben) : Prop :=
  v1 = v2 \/ exists l1 r1 l2 r2, v1 = Some (BList true l1 r1) /\ v2 = Some (BList true l2 r2) /\ Forall2 file_alike l1 l2.
Definition info_alike (i1 i2 : list (bytes * ben)) : Prop :=
  (forall k, In k known_info -> k <> str "files" -> lookup k i1 = lookup k i2) /\
  files_alike (lookup (str "files") i1) (lookup (str "files") i2).

(* the operating system answers the same but for the content of the torrent file *)
Definition same_os (o1 o2 : osenv) : Prop :=
  o_cwd o1 = o_cwd o2 /\ o_stat o1 = o_stat o2 /\ o_creat o1 = o_creat o2 /\ o_mkdir_missing o1 = o_mkdir_missing o2.
(* the torrent with another info hash *)
Definition rehash (t : torrent) (h : bytes) : torrent :=
  mkTorrent (t_trackers t) h (t_length t) (t_plen t) (t_pieces t) (t_pnum t) (t_files t) (t_osfiles t) (t_name t) (t_isdir t) (t_nblocks t) (t_requested t) (t_downloaded t).
(* the same happens, with these two info hashes *)
Inductive same_start (h1 h2 : bytes) : outcome -> outcome -> Prop :=
| ss_exit s out v : same_start h1 h2 (Exit s out v) (Exit s out v)
| ss_crash : same_start h1 h2 Crash Crash
| ss_download l t : same_start h1 h2 (Download l (rehash t h1)) (Download l (rehash t h2)).
