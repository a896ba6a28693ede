(* Peers that were never reached (C168).                                       *)
From Verif Require Import Base ModelTracker ModelManager ModelClient.

(* A peer of the pool without a connection, and without hope of one: it was given up
   (manager.go:165-171), or its address cannot be dialled.                     *)
Definition out_of_reach (p : mpeer) : Prop := mp_conn p = None /\ (mp_state p = PsFailed \/ mp_addr p = None).
Definition given_up (c : client) : Prop := exists p, In p (g_peers (c_mgr c)) /\ out_of_reach p.
