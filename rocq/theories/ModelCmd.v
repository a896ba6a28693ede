(* pkg/cmd: app.go, download.go, bencode.go; pkg/util/set.go                   *)
From Verif Require Import Base ModelBencode ModelUnmarshal SpecPath ModelTorrent ModelLogger ModelSystem.

(* ---------- pkg/util/set.go ---------- *)
(* 9-16: StringSet.Add also tells whether the element is new (set_add of
   ModelTorrent is the set afterwards)                                         *)
Definition SetAdd (s : list bytes) (x : bytes) : list bytes * bool := (set_add s x, negb (set_contains s x)).
(* 18-22, over one iteration order of the other set *)
Definition SetAddAll (s other : list bytes) : list bytes := fold_left (fun s k => fst (SetAdd s k)) other s.

(* ---------- app.go ---------- *)
(* 19-25 AppConfig, as set by flags *)
Record config := mkConfig { cf_level : bytes; cf_format : bytes; cf_path : bytes }.
(* 44-46: the values the variables have from the moment the flags are defined *)
Definition defaults : config := mkConfig (str "info") (str "color") [].

(* What viper.ReadInConfig says about a file: read, not there
   (ConfigFileNotFoundError), or any other error.                              *)
Inductive cfgres := CfgRead | CfgMissing | CfgError.
(* 66-93; look is what reading gives for a configured path, [] for the search of
   .gotit in $HOME and the working directory                                   *)
Definition initConfig (look : bytes -> cfgres) (cfgPath : bytes) : res unit :=
  match look cfgPath with
  | CfgRead => Ok tt
  | CfgMissing => if negb (beq cfgPath []) then Err "config not found" else Ok tt
  | CfgError => Err "config"
  end.

(* 95-111 NewCmdRun up to the returned function: None is os.Exit(1).  A logger
   that cannot be made is left nil (None inside).                              *)
Definition NewCmdRun (look : bytes -> cfgres) (c : config) : option (option logger) :=
  match initConfig look (cf_path c) with
  | Ok _ => Some (match NewCommandLine (cf_level c) (cf_format c) with Ok l => Some l | _ => None end)
  | _ => None
  end.

(* ---------- download.go ---------- *)
(* Metainfo as torrent.New reads it (tag_parser.go:189-218)                    *)
Definition string_of (g : gval) : bytes := match g with VString s => s | _ => [] end.
Definition strings_of (g : gval) : list bytes := match g with VSlice l => map string_of l | _ => [] end.
Definition int_val (g : gval) : Z := match g with VInt n => n | _ => 0 end.
Definition tfile_of (g : gval) : tfile :=
  match g with VStruct [p; n] => mkTfile (int_val n) (strings_of p) | _ => mkTfile 0 [] end.
Definition tfiles_of (g : gval) : list tfile := match g with VSlice l => map tfile_of l | _ => [] end.
Definition metainfo_of (g : gval) : metainfo :=
  match g with
  | VStruct (ann :: lists :: urls :: VStruct [files; len; name; plen; pieces] :: _) =>
      mkMetainfo (string_of ann) (match lists with VSlice l => map strings_of l | _ => [] end) (strings_of urls)
        (tfiles_of files) (int_val len) (string_of name) (int_val plen) (string_of pieces)
  | _ => mkMetainfo [] [] [] [] 0 [] 0 []
  end.

(* What the operating system answers: os.Stat of the output directory (None: an
   error, else IsDir), the content of the torrent file (None: it cannot be opened
   or read), and the outcomes of creating files (ModelTorrent).                *)
Record osenv := mkOs {
  o_cwd : place;
  o_stat : bytes -> option bool;
  o_file : bytes -> option bytes;
  o_creat : bytes -> bool;
  o_mkdir_missing : bool
}.
(* Start t: torrent.New succeeded and mng.Download runs *)
Inductive dres := DErr (e : string) | DPanic | DStart (t : torrent).
Arguments DErr e%string_scope.

(* download.go:49-84 *)
Definition runDownload (sha1 : bytes -> bytes) (o : osenv) (f : fs) (outDir torrentFile : bytes) : fs * dres :=
  match o_stat o outDir with
  | None => (f, DErr "stat")
  | Some false => (f, DErr "not a directory")
  | Some true =>
      match o_file o torrentFile with
      | None => (f, DErr "open or read")
      | Some data =>
          let '(g, r) := UnmarshalMetainfo data in
          match r with
          | Ok _ =>
              match New (o_cwd o) (o_creat o) (o_mkdir_missing o) f (metainfo_of g) (Hash sha1 g) outDir with
              | (f', Ok t) => (f', DStart t)
              | (f', Err e) => (f', DErr e)
              | (f', _) => (f', DPanic)
              end
          | Err e => (f, DErr e)
          | _ => (f, DPanic)
          end
      end
  end.

(* ---------- bencode.go ---------- *)
(* 26-48 run: every failure is log.Fatal, which exits with status 1 (zap's logger;
   a nil logger would panic, status 2).  The result is what is written to standard
   output and the exit status.                                                 *)
Definition bencodeCmd (l : option logger) (o : osenv) (file : bytes) : bytes * Z :=
  let fatal := match l with Some _ => 1 | None => 2 end in
  match o_file o file with
  | None => ([], fatal)
  | Some data =>
      match snd (UnmarshalMetainfo data) with
      | Ok _ => ([], 0)
      | Err _ => ([], fatal)
      | _ => ([], 2)
      end
  end.

(* ---------- the process (app.go:38-60, 112-117; main.go) ---------- *)
(* The command line as cobra understands it: unknown commands or flags, or a
   wrong number of arguments, are CBad.  With the command comes the configuration
   the flags ask for.                                                          *)
Inductive command := CBad | CHelp | CVersion | CBencode (file : bytes) | CDownload (out file : bytes).
(* What the process does before it ends or Download runs: exit status, standard
   output (help and version texts are not modelled: flag) *)
Inductive outcome :=
| Exit (status : Z) (out : bytes) (version : bool)
| Crash                                           (* a Go panic, exit status 2 *)
| Download (l : option logger) (t : torrent).

(* NewApp runs NewCmdRun for bencode and for download while it builds the
   commands, before any argument is looked at.                                 *)
Definition process (sha1 : bytes -> bytes) (look : bytes -> cfgres) (o : osenv) (f : fs) (flags : config) (c : command) : fs * outcome :=
  match NewCmdRun look defaults, NewCmdRun look defaults with
  | Some l, Some l' =>
      match c with
      | CBad => (f, Exit 1 [] false)
      | CHelp => (f, Exit 0 [] false)
      | CVersion => (f, Exit 0 [] true)
      | CBencode file => let '(out, st) := bencodeCmd l o file in (f, Exit st out false)
      | CDownload out file =>
          match runDownload sha1 o f out file with
          | (f', DStart t) => (f', Download l' t)
          | (f', DErr _) => (f', Exit 1 [] false)      (* printer.Fatal(1, ...) *)
          | (f', DPanic) => (f', Crash)
          end
      end
  | _, _ => (f, Exit 1 [] false)
  end.

(* The exit status once Download runs: 2 after a panic; Download (manager.go:67)
   returns nil whenever it returns, so runDownload returns nil and the process
   ends with 0.  (A panic of the deferred Stop is left out, see C53.)          *)
Definition exit_status (w : world) : option Z :=
  if crashed w then Some 2 else match wo_main w with MRet => Some 0 | _ => None end.
