(* Properties C75-C81: the command line. *)
From Verif Require Import Base ModelBencode SpecBencode ModelUnmarshal SpecUnmarshal SpecPath ModelPath ModelTorrent ModelPeer ModelSystem
  ModelLogger ModelCmd SpecCmd ProofCmd.

(* ---------- C75 ---------- *)
(* The full claim: the logger of a download is the one --log-level and
   --log-format ask for.                                                       *)
Theorem C75_log_flags_refuted :
  forall sha1 : bytes -> bytes,
  ~ (forall look o f flags c f' l t, process sha1 look o f flags c = (f', Download (Some l) t) ->
       NewCommandLine (cf_level flags) (cf_format flags) = Ok l).
Proof. exact log_flags_refuted. Qed.
(* It is always the same, and the flags change nothing at all. *)
Theorem C75_logger_fixed :
  forall sha1 look o f flags c f' l t, process sha1 look o f flags c = (f', Download l t) -> l = Some (Logger InfoLevel ColorEncoder).
Proof. exact logger_fixed. Qed.
Theorem C75_flags_ignored :
  forall sha1 look o f flags flags' c, process sha1 look o f flags c = process sha1 look o f flags' c.
Proof. exact flags_ignored. Qed.
Example C75_ex : forall sha1 f', exists t,
  process sha1 (fun _ => CfgMissing) (cx_os cx_doc (fun _ => true)) f' (mkConfig (str "error") (str "json") []) (CDownload (str "/o") (str "t")) =
    (fs_put f' [str "o"; str "n"] [], Download (Some (Logger InfoLevel ColorEncoder)) t) /\ t_length t = 5.
Proof. intros. eexists. split; [vm_compute; reflexivity|reflexivity]. Qed.

(* ---------- C76 ---------- *)
(* The full claim: with --config only that file matters. *)
Theorem C76_config_refuted :
  forall sha1 : bytes -> bytes,
  ~ (forall look look' o f flags c, cf_path flags <> [] -> look (cf_path flags) = look' (cf_path flags) ->
       process sha1 look o f flags c = process sha1 look' o f flags c).
Proof. exact config_refuted. Qed.
(* Only .gotit in the home or working directory is ever looked at; ... *)
Theorem C76_only_default_exact :
  forall sha1 look look' o f flags c, look [] = look' [] -> process sha1 look o f flags c = process sha1 look' o f flags c.
Proof. exact config_only_default. Qed.
(* ... if it cannot be read every command fails, version and help too, ... *)
Theorem C76_broken_config :
  forall sha1 look o f flags c, look [] = CfgError -> process sha1 look o f flags c = (f, Exit 1 [] false).
Proof. exact broken_config. Qed.
(* ... and otherwise version works. *)
Theorem C76_version_partial :
  forall sha1 look o f flags, look [] <> CfgError -> process sha1 look o f flags CVersion = (f, Exit 0 [] true).
Proof. exact version_works. Qed.
(* initConfig itself would do as asked: with a path that file has to be there and readable. *)
Theorem C76_initConfig_exact :
  forall look p, initConfig look p = Ok tt <-> look p = CfgRead \/ (p = [] /\ look p = CfgMissing).
Proof. exact initConfig_exact. Qed.
Example C76_ex : forall sha1 f, 
  process sha1 (fun p => if beq p [] then CfgError else CfgRead) (cx_os cx_doc (fun _ => true)) f (mkConfig [] [] (str "ok.yaml")) CVersion = (f, Exit 1 [] false) /\
  process sha1 (fun p => if beq p [] then CfgMissing else CfgError) (cx_os cx_doc (fun _ => true)) f (mkConfig [] [] (str "bad.yaml")) CVersion = (f, Exit 0 [] true).
Proof. intros. split; vm_compute; reflexivity. Qed.

(* ---------- C77 ---------- *)
(* The full claim: a download command that fails leaves all files as they were. *)
Theorem C77_failure_changes_nothing_refuted :
  forall sha1 : bytes -> bytes,
  ~ (forall o f out file f' e, runDownload sha1 o f out file = (f', DErr e) -> f' = f).
Proof. exact failed_refuted. Qed.
(* It does if creating files is not what fails (so for a bad directory, an
   unreadable or malformed torrent file), even if the process crashes; ...     *)
Theorem C77_failure_changes_nothing_partial :
  forall sha1 o f out file f' r, runDownload sha1 o f out file = (f', r) -> (forall t, r <> DStart t) -> (forall p, o_creat o p = true) -> f' = f.
Proof. exact failed_no_create_error. Qed.
(* ... otherwise some files of the torrent have been emptied. *)
Theorem C77_left_behind_exact :
  forall sha1 o f out file f' r, runDownload sha1 o f out file = (f', r) -> (forall t, r <> DStart t) ->
    f' = f \/ exists d g paths, o_stat o out = Some true /\ o_file o file = Some d /\ UnmarshalMetainfo d = (g, Ok tt) /\
      download_paths out (mi_length (metainfo_of g) =? 0) (mi_name (metainfo_of g))
        (if mi_length (metainfo_of g) =? 0 then mi_files (metainfo_of g) else []) = Ok paths /\ (exists p, In p paths /\ o_creat o p = false) /\
      forall q, f' q = f q \/ (f' q = Some [] /\ exists p, In p paths /\ o_creat o p = true /\ os_place (o_cwd o) p = q).
Proof. exact failed_leaves. Qed.
Example C77_ex : forall sha1 f, 
  runDownload sha1 (mkOs [] (fun _ => Some false) (fun _ => Some cx_doc) (fun _ => true) false) f (str "/o") (str "t") = (f, DErr "not a directory") /\
  snd (runDownload sha1 (cx_os (str "i5e") (fun _ => true)) f (str "/o") (str "t")) = DPanic /\
  runDownload sha1 (cx_os cx_multi (fun p => beq p (str "/o/n/a"))) f (str "/o") (str "t") = (fs_put f [str "o"; str "n"; str "a"] [], DErr "create").
Proof. intros. split; [vm_compute; reflexivity|]. split; vm_compute; reflexivity. Qed.

(* ---------- C78 ---------- *)
(* The full claim: exit status 0 of a download means that it is complete. *)
Theorem C78_status_refuted :
  forall sha1 : bytes -> bytes,
  ~ (forall look o f flags c f' l t outs sched w tr, process sha1 look o f flags c = (f', Download l t) ->
       run sha1 sched (start (mkW t f' outs [] false)) = (w, tr) -> exit_status w = Some 0 -> Done (w_t (sh_w (wo_sh w))) = true).
Proof. exact status_refuted. Qed.
(* Status 0 means that the download was interrupted, 2 a crash; there is no other. *)
Theorem C78_status_exact :
  forall sha1 w0 sched w tr s, run sha1 sched (start w0) = (w, tr) -> exit_status w = Some s ->
    (s = 0 /\ In ACancel sched) \/ (s = 2 /\ crashed w = true).
Proof. exact status_exact. Qed.
(* A download that does not start, and a command line that is not understood, end with status 1. *)
Theorem C78_not_started :
  forall sha1 look o f flags c f' s out v, process sha1 look o f flags c = (f', Exit s out v) ->
    c = CBad \/ (exists d t, c = CDownload d t) -> s = 1 /\ out = [] /\ v = false.
Proof. exact not_started. Qed.
Example C78_ex_not_started : forall sha1 f,
  process sha1 (fun _ => CfgMissing) (mkOs [] (fun _ => Some false) (fun _ => Some cx_doc) (fun _ => true) false) f defaults (CDownload (str "/o") (str "t")) = (f, Exit 1 [] false).
Proof. intros. vm_compute. reflexivity. Qed.
Example C78_ex : forall sha1 w0, w_panic w0 = false -> exists w tr,
  run sha1 [AMain; ACancel; AMain; AMain] (start w0) = (w, tr) /\ exit_status w = Some 0 /\ sh_w (wo_sh w) = w0.
Proof. intros sha1 w0 H. destruct w0 as [t f outs ad p]. cbn in H. subst p. do 2 eexists. split; [reflexivity|]. split; reflexivity. Qed.

(* ---------- C79 ---------- *)
(* The full claim: the bencode command prints something about a valid file. *)
Theorem C79_prints_refuted :
  ~ (forall l o file, snd (bencodeCmd (Some l) o file) = 0 -> fst (bencodeCmd (Some l) o file) <> []).
Proof. exact bencode_prints_refuted. Qed.
(* It prints nothing, but its status is 0 exactly for torrent documents, 2 (a
   crash) exactly if the document is not a dictionary or makes Parse panic, and
   else 1.                                                                     *)
Theorem C79_status_exact :
  forall look o file l, NewCmdRun look defaults = Some l -> (forall d, o_file o file = Some d -> fits d) ->
    fst (bencodeCmd l o file) = [] /\
    (snd (bencodeCmd l o file) = 0 <-> exists d, o_file o file = Some d /\ valid_torrent d) /\
    (snd (bencodeCmd l o file) = 2 <-> exists d, o_file o file = Some d /\ (Parse d = Panic \/ exists e, Parse d = Ok e /\ forall m raw, e <> BDict true m raw)) /\
    In (snd (bencodeCmd l o file)) [0; 1; 2].
Proof. exact bencode_status. Qed.
Example C79_ex : bencodeCmd (Some Nop) (cx_os cx_multi (fun _ => true)) [] = ([], 0) /\ bencodeCmd (Some Nop) (cx_os (str "de") (fun _ => true)) [] = ([], 1) /\
  bencodeCmd (Some Nop) (cx_os (str "le") (fun _ => true)) [] = ([], 2).
Proof. split; [vm_compute; reflexivity|]. split; vm_compute; reflexivity. Qed.

(* ---------- C80 ---------- *)
Theorem C80_set_add :
  forall s x, NoDup s ->
    (snd (SetAdd s x) = true <-> ~ In x s) /\ NoDup (fst (SetAdd s x)) /\ (forall y, In y (fst (SetAdd s x)) <-> In y s \/ y = x).
Proof. exact set_spec. Qed.
Theorem C80_set_add_all :
  forall s other, NoDup s -> NoDup (SetAddAll s other) /\ forall y, In y (SetAddAll s other) <-> In y s \/ In y other.
Proof. exact set_addall. Qed.
Theorem C80_contains : forall s x, set_contains s x = true <-> In x s.
Proof. exact contains_in. Qed.
Example C80_ex : SetAdd [[1]; [2]] [2] = ([[1]; [2]], false) /\ SetAdd [[1]] [2] = ([[1]; [2]], true) /\ SetAddAll [[1]] [[2]; [1]; [2]] = [[1]; [2]].
Proof. repeat split; reflexivity. Qed.

(* ---------- C81 ---------- *)
(* Unmarshal reads off a torrent document what it says ... *)
Theorem C81_metainfo :
  forall d g m raw, fits d -> UnmarshalMetainfo d = (g, Ok tt) -> Parse d = Ok (BDict true m raw) -> says m (metainfo_of g).
Proof. exact metainfo_says. Qed.
(* ... and the torrent downloaded is made from that. *)
Theorem C81_started :
  forall sha1 o f out file f' t, runDownload sha1 o f out file = (f', DStart t) -> (forall d, o_file o file = Some d -> fits d) ->
    exists d g m raw M, o_stat o out = Some true /\ o_file o file = Some d /\ UnmarshalMetainfo d = (g, Ok tt) /\
      Parse d = Ok (BDict true m raw) /\ says m M /\
      New (o_cwd o) (o_creat o) (o_mkdir_missing o) f M (Hash sha1 g) out = (f', Ok t).
Proof. exact started. Qed.
Example C81_ex : exists g, UnmarshalMetainfo cx_multi = (g, Ok tt) /\
  metainfo_of g = mkMetainfo (str "url") [] [] [mkTfile 5 [str "a"]; mkTfile 5 [str "b"]] 0 (str "n") 4 [].
Proof. eexists. split; [vm_compute; reflexivity|]. reflexivity. Qed.

Print Assumptions C75_log_flags_refuted.
Print Assumptions C75_logger_fixed.
Print Assumptions C75_flags_ignored.
Print Assumptions C76_config_refuted.
Print Assumptions C76_only_default_exact.
Print Assumptions C76_broken_config.
Print Assumptions C76_version_partial.
Print Assumptions C76_initConfig_exact.
Print Assumptions C77_failure_changes_nothing_refuted.
Print Assumptions C77_failure_changes_nothing_partial.
Print Assumptions C77_left_behind_exact.
Print Assumptions C78_status_refuted.
Print Assumptions C78_status_exact.
Print Assumptions C78_not_started.
Print Assumptions C79_prints_refuted.
Print Assumptions C79_status_exact.
Print Assumptions C80_set_add.
Print Assumptions C80_set_add_all.
Print Assumptions C80_contains.
Print Assumptions C81_metainfo.
Print Assumptions C81_started.
