(* Vocabulary for statements about connections that are no longer used.        *)
From Verif Require Import Base ModelTracker ModelManager.

Definition open (g : mgr) (c : nat) : Prop := nth_error (g_conns g) c = Some true.
Definition open_num (g : mgr) : Z := zlen (filter (fun b => b) (g_conns g)).
(* c is the connection of a peer that is being announced to or is running *)
Definition used (g : mgr) (c : nat) : Prop :=
  exists k p, nth_error (g_peers g) k = Some p /\ mp_conn p = Some c /\ (mp_state p = PsNew \/ mp_state p = PsRun).
