(* Theorems about the command line (C133-C137).                                *)
From Verif Require Import Base Sha1 ModelStats ModelTorrent ModelPeer ModelSystem ModelTracker ModelManager ModelClient ModelCmd ModelProgram ModelArgs
  SpecTracker SpecPeer SpecClient SpecArgs ProofCmd ProofClient4 ProofProgram2 ProofArgs ProofArgs2 ProofArgs3.

(* ---------- C133 ---------- *)
(* Expected: the line of the usage text, download -out <out_dir> <torrent_file>. *)
Theorem C133_usage_refuted :
  ~ (forall dir file, word dir -> word file -> exists num port, command_line [str "download"; str "-out"; dir; file] = LDownload dir file num port).
Proof. exact usage_refuted. Qed.
(* It never works (-out is -o with the value "ut", so two words are left), the process
   ends with status 1 and touches nothing. *)
Theorem C133_usage_exact :
  forall cf look o f own outs order dir file, word dir -> word file ->
    command_line [str "download"; str "-out"; dir; file] = LBad /\ gotit cf look o f own [str "download"; str "-out"; dir; file] outs order = PExit 1 f.
Proof. intros. split; [now apply usage_fails|now apply usage_process]. Qed.
(* These do work, for any directory. *)
Theorem C133_out_partial :
  forall dir file, word file ->
    command_line [str "download"; str "-o"; dir; file] = LDownload dir file 30 6666 /\
    command_line [str "download"; str "--out"; dir; file] = LDownload dir file 30 6666 /\
    command_line [str "download"; str "--out=" ++ dir; file] = LDownload dir file 30 6666.
Proof. exact out_works. Qed.
Example C133_ex : command_line [str "download"; str "-out"; str "/o"; str "t"] = LBad /\
  command_line [str "download"; str "-out"; str "t"] = LDownload (str "ut") (str "t") 30 6666 /\
  command_line [str "download"; str "--out"; str "-p"; str "t"] = LDownload (str "-p") (str "t") 30 6666 /\
  command_line [str "download"; str "t"] = LBad /\ word (str "/o") /\ word (str "-").
Proof. split; [|split; [|split; [|split; [|split]]]]; try (vm_compute; reflexivity); [right; right; vm_compute; discriminate|right; now left]. Qed.

(* ---------- C134 ---------- *)
(* A download begins exactly if the words can be read as options and one file, the
   directory is given and help is not asked for; of each option the last counts. *)
Theorem C134_download_exact :
  forall args out file num port,
    command_line (str "download" :: args) = LDownload out file num port <->
    exists l, says true args l [file] /\ ~ asks_help l /\ last_given l (str "out") out /\ number_given l (str "num-peer") 30 num /\ number_given l (str "port") 6666 port.
Proof. exact download_spec. Qed.
Theorem C134_bencode_exact :
  forall args file, command_line (str "bencode" :: args) = LBencode file <-> exists l, says false args l [file] /\ ~ asks_help l.
Proof. exact bencode_spec. Qed.
Theorem C134_version_exact :
  forall args, command_line (str "version" :: args) = LVersion <-> exists l a, says false args l a /\ ~ asks_help l.
Proof. exact version_spec. Qed.
Example C134_ex :
  let down l := command_line (str "download" :: l) in
  down [str "-p1"; str "t"; str "--out=a"; str "-n"; str "2"; str "-o=b"; str "--port"; str "0x10"] = LDownload (str "b") (str "t") 2 16 /\
  down [str "--help=false"; str "-ho"; str "d"; str "--help=F"; str "--"; str "--out"] = LDownload (str "d") (str "--out") 30 6666 /\
  down [str "-o"; str "d"; str "t"; str "-h"] = LHelp /\ down [str "-o"; str "d"; str "t"; str "u"] = LBad /\
  down [str "-o"; str "d"; str "t"; str "--prot=1"] = LBad /\ down [str "-o"; str "d"; str "t"; str "-p"; str "http"] = LBad /\
  command_line [str "bencode"; str "-o"; str "d"; str "t"] = LBad /\ command_line [str "version"; str "x"; str "-l"; str "y"] = LVersion.
Proof. vm_compute. repeat split; reflexivity. Qed.
Example C134_ex_says : says true [str "-p1"; str "t"; str "--out=a"] [(str "port", str "1"); (str "out", str "a")] [str "t"].
Proof. apply parse_spec. vm_compute. reflexivity. Qed.

(* ---------- C135 ---------- *)
(* Expected: digits are a decimal number. *)
Theorem C135_decimal_refuted :
  ~ (forall out file s n, word file -> decimal s n -> n < 2 ^ 63 ->
       command_line [str "download"; str "--out=" ++ out; str "--port=" ++ s; file] = LDownload out file 30 n).
Proof. exact decimal_refuted. Qed.
(* It is, unless it starts with a 0 ... *)
Theorem C135_decimal_partial :
  forall out file s n, word file -> decimal s n -> n < 2 ^ 63 -> hd 0 s <> 48 \/ s = [48] ->
    command_line [str "download"; str "--out=" ++ out; str "--port=" ++ s; file] = LDownload out file 30 n.
Proof. exact decimal_line. Qed.
(* ... and in full, numbers are those of Go programs of 64 bits. *)
Theorem C135_numbers_exact :
  forall out file s n, word file ->
    (command_line [str "download"; str "--out=" ++ out; str "--port=" ++ s; file] = LDownload out file 30 n <-> written_number s n).
Proof. intros out file s n. apply port_line. Qed.
Example C135_ex :
  map ParseInt0 [str "010"; str "08"; str "0x_1F"; str "1_000"; str "1__0"; str "-0b11"; str "+7"; str ""; str "0"; str "9223372036854775808"; str "-9223372036854775808"] =
    [Some 8; None; Some 31; Some 1000; None; Some (-3); Some 7; None; Some 0; None; Some (- 2 ^ 63)].
Proof. vm_compute. reflexivity. Qed.
Example C135_ex_written : written_number (str "010") 8 /\ decimal (str "010") 10 /\ written_number (str "-0x1_f") (-31).
Proof.
  split; [|split].
  - apply ParseInt_spec. vm_compute. reflexivity.
  - split; [discriminate|]. split; [vm_compute; repeat constructor; discriminate|reflexivity].
  - apply ParseInt_spec. vm_compute. reflexivity.
Qed.

(* ---------- C136 ---------- *)
(* Expected: trackers are told a port there is. *)
Theorem C136_port_refuted :
  ~ (forall cf look o f own args outs order out file num port c0 l c tr e p, command_line args = LDownload out file num port -> gotit cf look o f own args outs order = PRun c0 ->
       crun (with_flags cf num port) l c0 = (c, tr) -> In e tr -> tells (str "port") p e -> 1 <= p <= 65535).
Proof. exact port_refuted. Qed.
(* They are told whatever number the command line has. *)
Theorem C136_port_exact :
  forall cf look o f own args outs order out file num port c0 l c tr j u q r, command_line args = LDownload out file num port -> 0 <= port ->
    gotit cf look o f own args outs order = PRun c0 -> crun (with_flags cf num port) l c0 = (c, tr) -> In (VHttp j u q r) tr ->
    tells (str "port") port (VHttp j u q r).
Proof. exact port_announced. Qed.
Example C136_ex : exists c0 c tr j u q r,
  gotit (cx_conf sha1) (fun _ => CfgMissing) (cx_os px_doc (fun _ => true)) (fun _ => None) 0 [str "download"; str "--port=70000"; str "-o"; str "/o"; str "t"] [] (fun us => us) = PRun c0 /\
  crun (with_flags (cx_conf sha1) 30 70000) px_download c0 = (c, tr) /\ In (VHttp j u q r) tr /\ lookup (str "port") q = Some (str "70000").
Proof. exact wide_run. Qed.

(* ---------- C137 ---------- *)
(* Expected: options of every command may precede the name of the command. *)
Theorem C137_before_refuted :
  ~ (forall (g : list bytes) (n : bytes) (a : list bytes), global g -> In n [str "bencode"; str "download"; str "version"] -> command_line (g ++ n :: a) = command_line (n :: g ++ a)).
Proof. exact global_refuted. Qed.
(* They may if the name of the command is not among their values. *)
Theorem C137_before_partial :
  forall (g : list bytes) (n : bytes) (a : list bytes), global g -> In n [str "bencode"; str "download"; str "version"] -> ~ In n g -> command_line (g ++ n :: a) = command_line (n :: g ++ a).
Proof. exact global_first. Qed.
(* In any case the line is read as if the first such word, option value or not, stood
   first, the others staying where they are.                                   *)
Theorem C137_before_exact :
  forall (g : list bytes) (n : bytes) (a g1 g2 : list bytes), global g -> In n [str "bencode"; str "download"; str "version"] ->
    g ++ [n] = g1 ++ n :: g2 -> ~ In n g1 -> command_line (g ++ n :: a) = command_line (n :: g1 ++ g2 ++ a).
Proof. exact global_taken. Qed.
Example C137_ex_taken :      (* the value of --config is taken for the command, --config gets "-l" *)
  [str "--config"; str "version"; str "-l"; str "debug"] ++ [str "version"] = [str "--config"] ++ str "version" :: [str "-l"; str "debug"; str "version"] /\
  command_line ([str "--config"; str "version"; str "-l"; str "debug"] ++ [str "version"]) = command_line [str "version"; str "--config"; str "-l"; str "debug"; str "version"].
Proof. vm_compute. split; reflexivity. Qed.
Example C137_ex :
  command_line [str "-l"; str "debug"; str "--config=c"; str "download"; str "-o"; str "d"; str "t"] = LDownload (str "d") (str "t") 30 6666 /\
  command_line [str "--config"; str "download"; str "-l"; str "debug"; str "download"; str "-o"; str "d"; str "t"] = LBad /\
  command_line [str "-o"; str "d"; str "download"; str "t"] = LDownload (str "d") (str "t") 30 6666 /\
  command_line [str "--help"; str "download"] = LHelp /\ command_line [] = LHelp /\ command_line [str "upload"] = LBad.
Proof. vm_compute. repeat split; reflexivity. Qed.
Example C137_ex_global : global [str "-l"; str "debug"; str "--config=c"].
Proof. apply gl_letter. apply (gl_equals (str "config") (str "c")); [cbn [In]; auto|constructor]. Qed.

Print Assumptions C133_usage_refuted.
Print Assumptions C133_usage_exact.
Print Assumptions C133_out_partial.
Print Assumptions C134_download_exact.
Print Assumptions C134_bencode_exact.
Print Assumptions C134_version_exact.
Print Assumptions C135_decimal_refuted.
Print Assumptions C135_decimal_partial.
Print Assumptions C135_numbers_exact.
Print Assumptions C136_port_refuted.
Print Assumptions C136_port_exact.
Print Assumptions C137_before_refuted.
Print Assumptions C137_before_partial.
Print Assumptions C137_before_exact.
