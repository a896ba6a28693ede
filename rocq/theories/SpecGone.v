(* Peers that were lost (C173).                                                *)
From Verif Require Import Base ModelTorrent ModelPeer ModelSystem ModelTracker ModelManager ModelClient.

(* No peer is left: of every one in the pool Run has returned, or it could not be
   connected to at all. *)
Definition none_left (c : client) : Prop :=
  (forall p, In p (g_peers (c_mgr c)) -> mp_state p = PsEnded \/ mp_state p = PsFailed) /\
  (forall r, In r (wo_peers (c_wo c)) -> r_pc r = PRet).
(* the trackers name only peers that were named before *)
Definition named_before (c : client) (tr : list cev) : Prop :=
  forall j a b, In (VMgr (GAdd j a b)) tr -> In a (map mp_addr (g_peers (c_mgr c))).
(* something is attempted with a peer *)
Definition with_peer (e : cev) : Prop :=
  match e with VSys _ _ | VShake _ _ | VMgr (GDial _ _) | VMgr (GRun _ _) => True | _ => False end.
