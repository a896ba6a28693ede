(* C130, C131: what the process writes before a download begins. *)
From Verif Require Import Base ModelTorrent ModelCmd SpecStatus ModelOutput SpecOutput ProofCmd ProofOutput.

(* ---------- C130 ---------- *)
(* Full property: a download command that fails says why; failures for different reasons
   can be told apart.  Refuted: *)
Theorem C130_reason_refuted : ~ forall t sha1 look o1 o2 f out file r1 r2, file_fits o1 (CDownload out file) -> file_fits o2 (CDownload out file) -> look [] <> CfgError ->
  fails o1 out file r1 -> fails o2 out file r2 -> r1 <> r2 ->
  writes t sha1 look o1 f (CDownload out file) <> writes t sha1 look o2 f (CDownload out file).
Proof. exact reason_refuted. Qed.
(* whatever the reason, the same words are written; the status is 1. *)
Theorem C130_text_exact t sha1 look o f out file r : file_fits o (CDownload out file) -> look [] <> CfgError -> fails o out file r ->
  writes t sha1 look o f (CDownload out file) = mkWritten [] (str "error with the app") /\ ends look o (CDownload out file) 1.
Proof. intros F L H. split; [exact (fails_text t sha1 look o f out file r F L H)|exact (fails_ends look o out file r L H)]. Qed.
(* The bencode command tells its two reasons apart. *)
Theorem C130_bencode_partial t sha1 look o f file : file_fits o (CBencode file) -> look [] <> CfgError ->
  (o_file o file = None -> writes t sha1 look o f (CBencode file) = mkWritten [] (tx_log t (str "open file"))) /\
  (forall d, o_file o file = Some d -> ~ crashes d -> (forall M, ~ reads_torrent d M) -> writes t sha1 look o f (CBencode file) = mkWritten [] (tx_log t (str "parse torrent file"))) /\
  (forall d M, o_file o file = Some d -> reads_torrent d M -> writes t sha1 look o f (CBencode file) = mkWritten [] []).
Proof. exact (bencode_text t sha1 look o f file). Qed.
Definition ex_texts : texts := mkTexts (str "1.0") (str "abc") (str "today") (str "bad yaml") [] [] (fun m => m ++ [10]) (str "panic").
Example C130_ex : fails (two_os false) (str "/o") (str "t") NoDirectory /\ fails (two_os true) (str "/o") (str "t") NoFile /\
  writes ex_texts (fun x => x) (fun _ => CfgMissing) (two_os true) (fun _ => None) (CDownload (str "/o") (str "t")) = mkWritten [] (str "error with the app") /\
  writes ex_texts (fun x => x) (fun _ => CfgMissing) (cx_os (str "de") (fun _ => true)) (fun _ => None) (CDownload (str "/o") (str "t")) = mkWritten [] (str "error with the app") /\
  writes ex_texts (fun x => x) (fun _ => CfgMissing) (cx_os (str "de") (fun _ => true)) (fun _ => None) (CBencode (str "t")) = mkWritten [] (str "parse torrent file" ++ [10]) /\
  writes ex_texts (fun x => x) (fun _ => CfgMissing) (cx_os (str "le") (fun _ => true)) (fun _ => None) (CDownload (str "/o") (str "t")) = mkWritten [] (str "panic").
Proof.
  split; [apply fa_dir; discriminate|]. split; [now apply fa_file|]. split; [vm_compute; reflexivity|]. split; [vm_compute; reflexivity|]. split; vm_compute; reflexivity.
Qed.

(* ---------- C131 ---------- *)
(* Full property: gotit version prints version, commit and build, whatever the configuration
   files hold.  Refuted: *)
Theorem C131_version_refuted : ~ forall t sha1 look o f, writes t sha1 look o f CVersion = mkWritten (version_text t) [].
Proof. exact version_refuted. Qed.
(* a configuration file that cannot be read stops every command, help and version too, and the
   complaint goes to standard output; *)
Theorem C131_config_exact t sha1 look o f c : look [] = CfgError -> writes t sha1 look o f c = mkWritten (str "could not resolve configuration " ++ tx_config t ++ [10]) [] /\ ends look o c 1.
Proof. exact (config_exact t sha1 look o f c). Qed.
(* otherwise the version is printed. *)
Theorem C131_version_partial t sha1 look o f : look [] <> CfgError -> writes t sha1 look o f CVersion = mkWritten (version_text t) [].
Proof. exact (version_exact t sha1 look o f). Qed.
Example C131_ex : writes ex_texts (fun x => x) (fun _ => CfgMissing) (two_os true) (fun _ => None) CVersion = mkWritten (str "1.0" ++ [10] ++ str "Commit: abc" ++ [10] ++ str "Build: today" ++ [10]) [] /\
  writes ex_texts (fun x => x) (fun _ => CfgError) (two_os true) (fun _ => None) CVersion = mkWritten (str "could not resolve configuration bad yaml" ++ [10]) [].
Proof. split; vm_compute; reflexivity. Qed.

Print Assumptions C130_reason_refuted.
Print Assumptions C130_text_exact.
Print Assumptions C130_bencode_partial.
Print Assumptions C131_version_refuted.
Print Assumptions C131_config_exact.
Print Assumptions C131_version_partial.
