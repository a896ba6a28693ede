(* The command line: pkg/cmd/app.go:38-64, bencode.go:14-24, download.go:18-47,
   version.go:16-27, as read by cobra 1.6.1 and pflag 1.0.10 (go.mod).  The sources
   of these two are not in the repository; what is written here of them is what
   they are known to do.                                                       *)
From Verif Require Import Base ModelTorrent ModelPeer ModelSystem ModelLogger ModelCmd ModelStats ModelTracker ModelManager ModelClient ModelProgram.

(* ---------- strconv ---------- *)
Definition lower (c : Z) : Z := Z.lor c 32.
Definition digit_val (c : Z) : option Z :=
  if (48 <=? c) && (c <=? 57) then Some (c - 48)
  else if (97 <=? lower c) && (lower c <=? 122) then Some (lower c - 97 + 10)
  else None.
(* the loop of ParseUint with base prefix allowed; None is an error (the range error too:
   a number once above 64 bits stays there) *)
Fixpoint uint_digits (base n : Z) (s : bytes) : option Z :=
  match s with
  | [] => Some n
  | c :: s' =>
      if c =? 95 then uint_digits base n s'
      else match digit_val c with
           | Some d => if base <=? d then None
                       else if 2 ^ 64 <=? n * base + d then None else uint_digits base (n * base + d) s'
           | None => None
           end
  end.
(* underscoreOK after the sign; saw: 0 nothing yet, 1 a digit or the prefix, 2 an
   underscore, 3 anything else *)
Fixpoint under_loop (hex : bool) (saw : Z) (s : bytes) : bool :=
  match s with
  | [] => negb (saw =? 2)
  | c :: s' =>
      if ((48 <=? c) && (c <=? 57)) || (hex && ((97 <=? lower c) && (lower c <=? 102))) then under_loop hex 1 s'
      else if c =? 95 then if saw =? 1 then under_loop hex 2 s' else false
      else if saw =? 2 then false else under_loop hex 3 s'
  end.
Definition underscoreOK (s : bytes) : bool :=
  match s with
  | z :: c :: s' =>
      if (z =? 48) && ((lower c =? 98) || (lower c =? 111) || (lower c =? 120)) then under_loop (lower c =? 120) 1 s' else under_loop false 0 s
  | _ => under_loop false 0 s
  end.
(* ParseUint(s, 0, 64): the base, what follows its prefix *)
Definition base_of (s : bytes) : Z * bytes :=
  match s with
  | z :: s' =>
      if z =? 48 then
        match s' with
        | c :: ((_ :: _) as t) => if lower c =? 98 then (2, t) else if lower c =? 111 then (8, t) else if lower c =? 120 then (16, t) else (8, s')
        | _ => (8, s')
        end
      else (10, s)
  | [] => (10, [])
  end.
Definition ParseUint0 (s : bytes) : option Z :=
  match s with
  | [] => None
  | _ => match uint_digits (fst (base_of s)) 0 (snd (base_of s)) with
         | Some n => if existsb (Z.eqb 95) s && negb (underscoreOK s) then None else Some n
         | None => None
         end
  end.
(* ParseInt(s, 0, 64) *)
Definition ParseInt0 (s : bytes) : option Z :=
  match s with
  | [] => None
  | c :: s' =>
      if c =? 45 then match ParseUint0 s' with Some n => if 2 ^ 63 <? n then None else Some (- n) | None => None end
      else match ParseUint0 (if c =? 43 then s' else s) with Some n => if 2 ^ 63 <=? n then None else Some n | None => None end
  end.
(* ParseBool *)
Definition ParseBool (s : bytes) : option bool :=
  if existsb (beq s) [str "1"; str "t"; str "T"; str "TRUE"; str "true"; str "True"] then Some true
  else if existsb (beq s) [str "0"; str "f"; str "F"; str "FALSE"; str "false"; str "False"] then Some false
  else None.

(* ---------- the flags ---------- *)
Inductive kind := KString | KInt | KBool.
Record flag := mkFlag { fl_name : bytes; fl_short : option Z; fl_kind : kind }.
(* app.go:44-46, for every command *)
Definition rootFlags : list flag := [mkFlag (str "log-level") (Some 108) KString; mkFlag (str "log-format") None KString; mkFlag (str "config") None KString].
(* added by cobra when a command is executed *)
Definition helpFlag : flag := mkFlag (str "help") (Some 104) KBool.
(* download.go:41-43 *)
Definition downloadFlags : list flag := [mkFlag (str "out") (Some 111) KString; mkFlag (str "num-peer") (Some 110) KInt; mkFlag (str "port") (Some 112) KInt].
Definition by_name (fs : list flag) (n : bytes) : option flag := find (fun f => beq (fl_name f) n) fs.
Definition by_short (fs : list flag) (c : Z) : option flag := find (fun f => match fl_short f with Some d => d =? c | None => false end) fs.
(* NoOptDefVal <> "" *)
Definition no_opt (f : flag) : bool := match fl_kind f with KBool => true | _ => false end.
Definition accepts (k : kind) (v : bytes) : bool :=
  match k with
  | KString => true
  | KInt => match ParseInt0 v with Some _ => true | None => false end
  | KBool => match ParseBool v with Some _ => true | None => false end
  end.

(* ---------- pflag ---------- *)
(* a flag and the text it is set to *)
Definition setting : Type := bytes * bytes.
Definition set_flag (f : flag) (v : bytes) : option setting := if accepts (fl_kind f) v then Some (fl_name f, v) else None.
(* strings.SplitN(s, "=", 2) *)
Fixpoint split_eq (s : bytes) : bytes * option bytes :=
  match s with
  | [] => ([], None)
  | c :: s' => if c =? 61 then ([], Some s') else let '(a, b) := split_eq s' in (c :: a, b)
  end.
Definition HasPrefix (p s : bytes) : bool := beq (firstn (length p) s) p.
(* parseSingleShortArg until no letter is left: the settings made, and the flag that
   takes its value from the next argument *)
Fixpoint shorts (fs : list flag) (s : bytes) : option (list setting * option flag) :=
  if HasPrefix (str "test.") s then Some ([], None)
  else
  match s with
  | [] => Some ([], None)
  | c :: s' =>
      match by_short fs c with
      | None => None
      | Some f =>
          if match s' with e :: _ :: _ => e =? 61 | _ => false end
          then match set_flag f (tl s') with Some x => Some ([x], None) | None => None end
          else if no_opt f then
            match set_flag f (str "true"), shorts fs s' with Some x, Some (l, n) => Some (x :: l, n) | _, _ => None end
          else match s' with
               | [] => Some ([], Some f)
               | _ => match set_flag f s' with Some x => Some ([x], None) | None => None end
               end
      end
  end.
(* '--name=value', or the name alone *)
Definition long_name (fs : list flag) (name : bytes) : option (flag * option bytes) :=
  match name with
  | [] => None
  | c :: _ =>
      if (c =? 45) || (c =? 61) then None
      else let '(n, v) := split_eq name in match by_name fs n with Some f => Some (f, v) | None => None end
  end.
Definition add_set (l0 : list setting) (r : option (list setting * list bytes)) : option (list setting * list bytes) :=
  match r with Some (l, a) => Some (l0 ++ l, a) | None => None end.
(* parseArgs; the settings in order, and the arguments that are no flags *)
Fixpoint parseArgs (fs : list flag) (args : list bytes) : option (list setting * list bytes) :=
  match args with
  | [] => Some ([], [])
  | s :: rest =>
      if match s with c :: _ :: _ => negb (c =? 45) | _ => true end
      then match parseArgs fs rest with Some (l, a) => Some (l, s :: a) | None => None end
      else if nth 1 s 0 =? 45 then
        if zlen s =? 2 then Some ([], rest)
        else match long_name fs (skipn 2 s) with
             | None => None
             | Some (f, v) =>
                 match (match v with Some _ => v | None => if no_opt f then Some (str "true") else None end) with
                 | Some v => match set_flag f v with Some x => add_set [x] (parseArgs fs rest) | None => None end
                 | None => match rest with
                           | v :: rest' => match set_flag f v with Some x => add_set [x] (parseArgs fs rest') | None => None end
                           | [] => None
                           end
                 end
             end
      else match shorts fs (tl s) with
           | None => None
           | Some (l0, None) => add_set l0 (parseArgs fs rest)
           | Some (l0, Some f) =>
               match rest with
               | v :: rest' => match set_flag f v with Some x => add_set (l0 ++ [x]) (parseArgs fs rest') | None => None end
               | [] => None
               end
           end
  end.

(* ---------- cobra ---------- *)
(* stripFlags; fs are the flags known at that time, help is not among them *)
Fixpoint stripFlags (fs : list flag) (args : list bytes) : list bytes :=
  match args with
  | [] => []
  | s :: rest =>
      let eq := existsb (Z.eqb 61) s in
      if beq s (str "--") then []
      else if HasPrefix (str "--") s && negb eq && negb (match by_name fs (skipn 2 s) with Some f => no_opt f | None => false end)
              || HasPrefix (str "-") s && negb eq && (zlen s =? 2) && negb (match by_short fs (nth 1 s 0) with Some f => no_opt f | None => false end)
      then match rest with
           | [] => []
           | [_] => []
           | _ :: rest' => stripFlags fs rest'
           end
      else if negb (beq s []) && negb (HasPrefix (str "-") s) then s :: stripFlags fs rest
      else stripFlags fs rest
  end.
Fixpoint minus_first (args : list bytes) (x : bytes) : list bytes :=
  match args with [] => [] | y :: l => if beq x y then l else y :: minus_first l x end.

Inductive cmd := NoSub | SubBencode | SubDownload | SubVersion | SubOwn.     (* SubOwn: commands of cobra itself *)
(* app.go:56-58; InitDefaultHelpCmd, InitDefaultCompletionCmd, initCompleteCmd *)
Definition findNext (n : bytes) : option cmd :=
  if beq n (str "bencode") then Some SubBencode
  else if beq n (str "download") then Some SubDownload
  else if beq n (str "version") then Some SubVersion
  else if existsb (beq n) [str "help"; str "completion"; str "__complete"; str "__completeNoDesc"] then Some SubOwn
  else None.
(* Find; the commands below the root that are not cobra's own have none below them *)
Definition Find (args : list bytes) : cmd * list bytes :=
  match stripFlags rootFlags args with
  | [] => (NoSub, args)
  | n :: _ => match findNext n with Some c => (c, minus_first args n) | None => (NoSub, args) end
  end.

(* What the process is asked to do. *)
Inductive line :=
| LBad                              (* a complaint, status 1 *)
| LHelp
| LOwn                              (* a command of cobra itself *)
| LVersion
| LBencode (file : bytes)
| LDownload (out file : bytes) (num port : Z).

(* the value of a flag after the settings: the last one *)
Definition value_of (l : list setting) (n : bytes) : option bytes :=
  fold_left (fun r x => if beq (fst x) n then Some (snd x) else r) l None.
Definition int_of (l : list setting) (n : bytes) (dflt : Z) : Z :=
  match value_of l n with Some v => match ParseInt0 v with Some z => z | None => dflt end | None => dflt end.
Definition helped (l : list setting) : bool :=
  match value_of l (str "help") with Some v => match ParseBool v with Some true => true | _ => false end | None => false end.
(* ExecuteC and execute; args is os.Args[1:] *)
Definition command_line (args : list bytes) : line :=
  match Find args with
  | (SubOwn, _) => LOwn
  | (NoSub, a) =>
      match stripFlags rootFlags a with                        (* legacyArgs *)
      | _ :: _ => LBad
      | [] => match parseArgs (helpFlag :: rootFlags) a with Some _ => LHelp | None => LBad end     (* not Runnable *)
      end
  | (SubVersion, a) => match parseArgs (helpFlag :: rootFlags) a with Some (l, _) => if helped l then LHelp else LVersion | None => LBad end
  | (SubBencode, a) =>
      match parseArgs (helpFlag :: rootFlags) a with
      | Some (l, p) => if helped l then LHelp else match p with [file] => LBencode file | _ => LBad end
      | None => LBad
      end
  | (SubDownload, a) =>
      match parseArgs (helpFlag :: downloadFlags ++ rootFlags) a with
      | Some (l, p) =>
          if helped l then LHelp
          else match p with
               | [file] =>
                   match value_of l (str "out") with           (* ValidateRequiredFlags *)
                   | Some out => LDownload out file (int_of l (str "num-peer") 30) (int_of l (str "port") 6666)
                   | None => LBad
                   end
               | _ => LBad
               end
      | None => LBad
      end
  end.

(* ---------- main.go ---------- *)
(* --num-peer and --port (download.go:80) *)
Definition with_flags (cf : conf) (num port : Z) : conf :=
  mkConf (cf_sha1 cf) (cf_id cf) port num (cf_scheme cf) (cf_ip cf) (cf_bar cf).
(* the process with these arguments; own is the status of cobra's own commands.  The
   settings of rootFlags come too late to have an effect (ModelCmd.process).  *)
Definition gotit (cf : conf) (look : bytes -> cfgres) (o : osenv) (f : fs) (own : Z) (args : list bytes)
                 (outs : list (option Z)) (order : list bytes -> list bytes) : prog :=
  let start cf c := prog_start cf look o f defaults c outs order in
  match command_line args with
  | LBad => start cf CBad
  | LHelp => start cf CHelp
  | LOwn => match NewCmdRun look defaults with Some _ => PExit own f | None => PExit 1 f end
  | LVersion => start cf CVersion
  | LBencode file => start cf (CBencode file)
  | LDownload out file num port => start (with_flags cf num port) (CDownload out file)
  end.
