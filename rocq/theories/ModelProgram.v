(* The whole process: the command line (ModelCmd) and, if it starts one, the
   download (ModelClient).                                                     *)
From Verif Require Import Base ModelStats ModelTorrent ModelPeer ModelSystem ModelTracker ModelManager ModelClient ModelCmd.

Inductive prog := PExit (status : Z) (f : fs) | PRun (c : client).
(* cmd/gotit/main.go, pkg/cmd/app.go:38-117, pkg/cmd/download.go:49-84.  --port and --num-peer are in cf.
   order is the order in which getIps (manager.go:75) ranges over the set of
   trackers, outs the results of the writes to come.                           *)
Definition prog_start (cf : conf) (look : bytes -> cfgres) (o : osenv) (f : fs) (flags : config) (cmd : command)
                      (outs : list (option Z)) (order : list bytes -> list bytes) : prog :=
  match process (cf_sha1 cf) look o f flags cmd with
  | (f', Exit s _ _) => PExit s f'
  | (f', Crash) => PExit 2 f'
  | (f', Download _ t) => PRun (client_start cf t f' outs (order (t_trackers t)))
  end.
Definition prog_run (cf : conf) (l : list cact) (p : prog) : prog * list cev :=
  match p with PExit _ _ => (p, []) | PRun c => let '(c', tr) := crun cf l c in (PRun c', tr) end.
Definition prog_status (p : prog) : option Z := match p with PExit s _ => Some s | PRun c => client_status c end.
Definition prog_fs (p : prog) : fs := match p with PExit _ f => f | PRun c => w_fs (sh_w (wo_sh (c_wo c))) end.
