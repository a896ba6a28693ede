(* Why a download command fails before a download begins (C130). *)
From Verif Require Import Base ModelTorrent ModelCmd SpecStatus.

Inductive reason := NoDirectory | NoFile | NoTorrent | BrokenHashes | NoFolder | NoPlace.
Inductive fails (o : osenv) (out file : bytes) : reason -> Prop :=
| fa_dir : o_stat o out <> Some true -> fails o out file NoDirectory
| fa_file : o_stat o out = Some true -> o_file o file = None -> fails o out file NoFile
| fa_torrent d : o_stat o out = Some true -> o_file o file = Some d -> ~ crashes d -> (forall M, ~ reads_torrent d M) -> fails o out file NoTorrent
| fa_hashes d M : o_stat o out = Some true -> o_file o file = Some d -> reads_torrent d M -> ~ whole_hashes M -> fails o out file BrokenHashes
| fa_folder d M : o_stat o out = Some true -> o_file o file = Some d -> reads_torrent d M -> whole_hashes M -> ~ mkdir_ok o M -> fails o out file NoFolder
| fa_place d M : o_stat o out = Some true -> o_file o file = Some d -> reads_torrent d M -> whole_hashes M -> mkdir_ok o M -> have_paths M -> ~ creatable o out M -> fails o out file NoPlace.
