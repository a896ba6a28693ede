(* The exit status before a download begins (C125), and the data that make the
   parser panic.                                                               *)
From Verif Require Import Base ModelBencode SpecBencode SpecUnmarshal ModelPath ModelTorrent ModelCmd SpecCmd.

(* Where an element is expected there is a string whose length is negative, as
   the int64 arithmetic of the parser has it.                                  *)
Inductive breaks : bytes -> Prop :=
| br_len ds t : digits ds -> machine_val ds < 0 -> breaks (ds ++ [58] ++ t)
| br_list body es d : den_items wrapped_val body es -> breaks d -> breaks ([108] ++ body ++ d)
| br_key body es ds t : den_entries wrapped_val body es -> digits ds -> machine_val ds < 0 -> breaks ([100] ++ body ++ ds ++ [58] ++ t)
| br_value body es kw k d : den_entries wrapped_val body es -> wdenotes kw (BStr k) -> breaks d -> breaks ([100] ++ body ++ kw ++ d).

(* The file breaks the parser or begins with something else than a dictionary. *)
Definition crashes (d : bytes) : Prop :=
  breaks d \/ exists w post e, d = w ++ post /\ wdenotes w e /\ forall m raw, e <> BDict true m raw.
(* The file begins with a dictionary that says M. *)
Definition reads_torrent (d : bytes) (M : metainfo) : Prop :=
  exists m raw post n, d = raw ++ post /\ wdenotes raw (BDict true m raw) /\ says m M /\ optional m "creation date" as_number 0 n.

(* the files created, as they are named to the operating system *)
Definition paths (out : bytes) (M : metainfo) : list bytes :=
  if mi_length M =? 0 then map (fun x => Join (Join out (mi_name M)) (hd [] (tf_path x))) (mi_files M) else [Join out (mi_name M)].
Definition whole_hashes (M : metainfo) : Prop := zlen (mi_pieces M) mod 20 = 0.
Definition mkdir_ok (o : osenv) (M : metainfo) : Prop := mi_length M = 0 -> o_mkdir_missing o = false.
Definition have_paths (M : metainfo) : Prop := mi_length M = 0 -> Forall (fun x => tf_path x <> []) (mi_files M).
Definition creatable (o : osenv) (out : bytes) (M : metainfo) : Prop := Forall (fun p => o_creat o p = true) (paths out M).

(* what the file of a command leads to *)
Inductive file_ends (o : osenv) (file : bytes) : Z -> Prop :=
| fe_none : o_file o file = None -> file_ends o file 1
| fe_crash d : o_file o file = Some d -> crashes d -> file_ends o file 2
| fe_other d : o_file o file = Some d -> ~ crashes d -> (forall M, ~ reads_torrent d M) -> file_ends o file 1.
(* torrent.New *)
Inductive new_ends (o : osenv) (out : bytes) : metainfo -> Z -> Prop :=
| ne_hashes M : ~ whole_hashes M -> new_ends o out M 1
| ne_mkdir M : whole_hashes M -> ~ mkdir_ok o M -> new_ends o out M 1
| ne_path M : whole_hashes M -> mkdir_ok o M -> ~ have_paths M -> new_ends o out M 2
| ne_create M : whole_hashes M -> mkdir_ok o M -> have_paths M -> ~ creatable o out M -> new_ends o out M 1.
(* The command ends with this status, without a download. *)
Inductive ends (look : bytes -> cfgres) (o : osenv) : command -> Z -> Prop :=
| en_config c : look [] = CfgError -> ends look o c 1
| en_bad : look [] <> CfgError -> ends look o CBad 1
| en_help : look [] <> CfgError -> ends look o CHelp 0
| en_version : look [] <> CfgError -> ends look o CVersion 0
| en_file file s : look [] <> CfgError -> file_ends o file s -> ends look o (CBencode file) s
| en_bencode file d M : look [] <> CfgError -> o_file o file = Some d -> reads_torrent d M -> ends look o (CBencode file) 0
| en_dir out file : look [] <> CfgError -> o_stat o out <> Some true -> ends look o (CDownload out file) 1
| en_torrent out file s : look [] <> CfgError -> o_stat o out = Some true -> file_ends o file s -> ends look o (CDownload out file) s
| en_new out file d M s : look [] <> CfgError -> o_stat o out = Some true -> o_file o file = Some d -> reads_torrent d M -> new_ends o out M s -> ends look o (CDownload out file) s.
Definition starts (look : bytes -> cfgres) (o : osenv) (c : command) : Prop :=
  exists out file d M, c = CDownload out file /\ look [] <> CfgError /\ o_stat o out = Some true /\ o_file o file = Some d /\ reads_torrent d M /\
    whole_hashes M /\ mkdir_ok o M /\ have_paths M /\ creatable o out M.
(* the file of the command is of representable size *)
Definition file_of (c : command) : option bytes := match c with CBencode f | CDownload _ f => Some f | _ => None end.
Definition file_fits (o : osenv) (c : command) : Prop := forall file d, file_of c = Some file -> o_file o file = Some d -> fits d.
