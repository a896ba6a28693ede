(* What the process writes before it ends or a download begins: pkg/cmd/version.go,
   pkg/printer/printer.go, and the places of pkg/cmd that use it or fmt.        *)
From Verif Require Import Base ModelBencode ModelUnmarshal ModelTorrent ModelLogger ModelSystem ModelCmd.

(* version.go:10-14, and texts of libraries: the error of viper, help and complaints of
   cobra, a line of the log (message, then the error), the trace of a panic     *)
Record texts := mkTexts {
  tx_version : bytes; tx_commit : bytes; tx_build : bytes;
  tx_config : bytes; tx_help : bytes; tx_bad : bytes; tx_log : bytes -> bytes; tx_panic : bytes
}.
(* standard output and standard error *)
Record written := mkWritten { w_out : bytes; w_err : bytes }.
Definition nothing : written := mkWritten [] [].
(* fmt.Println: operands separated by spaces *)
Fixpoint Println (a : list bytes) : bytes :=
  match a with [] => [10] | [x] => x ++ [10] | x :: a' => x ++ 32 :: Println a' end.

(* version.go:20-24 *)
Definition versionCmd (t : texts) : written :=
  mkWritten (Println [tx_version t] ++ Println [str "Commit:"; tx_commit t] ++ Println [str "Build:"; tx_build t]) [].
(* printer.go:47-50 before the exit *)
Definition Fatal (s : bytes) : written := mkWritten [] s.
(* bencode.go:26-47; the logger writes to standard error (logger.go:95) *)
Definition bencodeWritten (t : texts) (l : option logger) (o : osenv) (file : bytes) : written :=
  let fatal m := match l with Some _ => mkWritten [] (tx_log t m) | None => mkWritten [] (tx_panic t) end in
  match o_file o file with
  | None => fatal (str "open file")
  | Some data =>
      match snd (UnmarshalMetainfo data) with
      | Ok _ => nothing
      | Err _ => fatal (str "parse torrent file")
      | _ => mkWritten [] (tx_panic t)
      end
  end.
(* app.go:101-104, 112-116; the cases of ModelCmd.process *)
Definition writes (t : texts) (sha1 : bytes -> bytes) (look : bytes -> cfgres) (o : osenv) (f : fs) (c : command) : written :=
  match NewCmdRun look defaults, NewCmdRun look defaults with
  | Some l, Some _ =>
      match c with
      | CBad => mkWritten [] (tx_bad t)
      | CHelp => mkWritten (tx_help t) []
      | CVersion => versionCmd t
      | CBencode file => bencodeWritten t l o file
      | CDownload out file =>
          match snd (runDownload sha1 o f out file) with
          | DStart _ => nothing
          | DErr _ => Fatal (str "error with the app")
          | DPanic => mkWritten [] (tx_panic t)
          end
      end
  | _, _ => mkWritten (Println [str "could not resolve configuration"; tx_config t]) []
  end.
