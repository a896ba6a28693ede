(* What the process does before a download begins: C125, and when the parser panics (C02). *)
From Verif Require Import Base ModelBencode SpecBencode SpecUnmarshal ModelPath ModelStats ModelTorrent ModelConn ModelPeer ModelSystem ModelTracker ModelManager ModelClient ModelCmd ModelProgram
  SpecCmd SpecProgram SpecStatus ProofBencodeMore ProofCmd ProofClient4 ProofClient5 ProofProgram ProofProgram2 ProofBreaks ProofStatus.

(* ---------- C02 ---------- *)
(* The data on which Parse panics: where an element, or a key, is expected there is
   a string whose length overflows to a negative number.                       *)
Theorem C02_panics_exact :
  forall d, fits d -> (Parse d = Panic <-> breaks d).
Proof. exact parse_breaks. Qed.
Example C02_ex_breaks : breaks (str "d1:ali7e9223372036854775807:") /\ fits (str "d1:ali7e9223372036854775807:") /\ Parse (str "d1:ali7e9223372036854775807:") = Panic /\
  Parse (str "d1:ai7e9223372036854775807:") = Panic /\ Parse (str "d1:ai9223372036854775807e1:") = Err "string length invalid".
Proof.
  split; [|split; [vm_compute; discriminate|split; [|split]; vm_compute; reflexivity]].
  apply parse_breaks; [vm_compute; discriminate|vm_compute; reflexivity].
Qed.

(* ---------- C125 ---------- *)
(* Expected: the process does not crash before a download begins; its status is 0 or 1. *)
Theorem C125_no_crash_refuted :
  ~ (forall cf look o f flags c outs order s, file_fits o c -> prog_status (prog_start cf look o f flags c outs order) = Some s -> s = 0 \/ s = 1).
Proof. exact crash_refuted. Qed.
(* The status for every command, configuration, file and answer of the operating system; *)
Theorem C125_status_exact :
  forall cf look o f flags c outs order s, file_fits o c -> (prog_status (prog_start cf look o f flags c outs order) = Some s <-> ends look o c s).
Proof. exact status_ends. Qed.
(* when a download begins; *)
Theorem C125_starts_exact :
  forall cf look o f flags c outs order, file_fits o c -> ((exists k, prog_start cf look o f flags c outs order = PRun k) <-> starts look o c).
Proof. exact status_starts. Qed.
(* and what is printed: the version for the version command, else nothing. *)
Theorem C125_printed_exact :
  forall sha1 look o f flags c f' s out v, process sha1 look o f flags c = (f', Exit s out v) -> out = [] /\ (v = true <-> c = CVersion /\ look [] <> CfgError).
Proof. exact printed. Qed.
(* a file without a path crashes, unless the hashes are not whole; a date that is no number is an error *)
Definition st_status (doc : bytes) (creat : bytes -> bool) (c : command) : option Z :=
  prog_status (prog_start (cx_conf (fun x => x)) (fun _ => CfgMissing) (cx_os doc creat) (fun _ => None) defaults c [] (fun x => x)).
Definition st_doc (files pieces more : bytes) : bytes :=
  str "d8:announce3:url" ++ more ++ str "4:infod5:filesl" ++ files ++ str "e4:name1:n12:piece lengthi4e6:pieces" ++ pieces ++ str "ee".
Example C125_ex :
  st_status (st_doc (str "d6:lengthi5e4:pathlee") (str "0:") []) (fun _ => true) (CDownload (str "/o") (str "t")) = Some 2 /\
  st_status (st_doc (str "d6:lengthi5e4:pathlee") (str "1:x") []) (fun _ => true) (CDownload (str "/o") (str "t")) = Some 1 /\
  st_status (st_doc (str "d6:lengthi5e4:pathl1:aee") (str "0:") []) (fun _ => true) (CDownload (str "/o") (str "t")) = None /\
  st_status (st_doc (str "d6:lengthi5e4:pathl1:aee") (str "0:") []) (fun p => negb (beq p (str "/o/n/a"))) (CDownload (str "/o") (str "t")) = Some 1 /\
  st_status (st_doc (str "d6:lengthi5e4:pathl1:aee") (str "0:") (str "13:creation date1:x")) (fun _ => true) (CBencode (str "t")) = Some 1 /\
  st_status (st_doc (str "d6:lengthi5e4:pathl1:aee") (str "0:") (str "13:creation datei7e")) (fun _ => true) (CBencode (str "t")) = Some 0.
Proof. vm_compute. repeat split; reflexivity. Qed.
Definition st_ok : bytes := st_doc (str "d6:lengthi5e4:pathl1:aee") (str "0:") [].
Example C125_ex_starts : file_fits (cx_os st_ok (fun _ => true)) (CDownload (str "/o") (str "t")) /\ starts (fun _ => CfgMissing) (cx_os st_ok (fun _ => true)) (CDownload (str "/o") (str "t")).
Proof.
  assert (H : file_fits (cx_os st_ok (fun _ => true)) (CDownload (str "/o") (str "t"))) by (intros file d _ E; injection E as <-; vm_compute; discriminate).
  split; [exact H|]. apply (status_starts (cx_conf (fun x => x)) (fun _ => CfgMissing) _ (fun _ => None) defaults _ [] (fun x => x) H). vm_compute. eexists. reflexivity.
Qed.
Example C125_ex_printed : forall sha1 f, process sha1 (fun _ => CfgMissing) (cx_os [] (fun _ => true)) f defaults CVersion = (f, Exit 0 [] true) /\
  process sha1 (fun _ => CfgMissing) (cx_os [] (fun _ => true)) f defaults CHelp = (f, Exit 0 [] false).
Proof. intros. split; reflexivity. Qed.

Print Assumptions C02_panics_exact.
Print Assumptions C125_no_crash_refuted.
Print Assumptions C125_status_exact.
Print Assumptions C125_starts_exact.
Print Assumptions C125_printed_exact.
