(* Where peers come from: which trackers are asked, and when (C140 to C142).   *)
From Verif Require Import Base ModelTorrent ModelTracker ModelManager ModelClient.

(* the HTTP announces: to whom, and the peers of the reply (None: it failed) *)
Definition asked (tr : list cev) : list (bytes * option (list addrport)) :=
  flat_map (fun e => match e with VHttp _ u _ r => [(u, r)] | _ => [] end) tr.
(* nothing is heard from anybody: announces to UDP trackers that fail *)
Definition deaf (e : cev) : Prop :=
  match e with VUdp _ _ r => r = None | VMgr (GRound _) => True | VMgr (GAnn _ ok) => ok = false | _ => False end.
(* BEP 12: a tracker of a tier is asked only when all of the tiers before it were asked and failed *)
Definition tiered (tiers : list (list bytes)) (l : list (bytes * option (list addrport))) : Prop :=
  forall l1 u r l2 t1 tier t2, l = l1 ++ (u, r) :: l2 -> tiers = t1 ++ tier :: t2 -> In u tier -> ~ In u (concat t1) -> forall v, In v (concat t1) -> In (v, None) l1.
