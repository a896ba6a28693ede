(* A download that can still be completed (C167).                              *)
From Verif Require Import Base ModelTracker ModelManager ModelClient.

(* the reply of an HTTP tracker names one peer *)
Definition names (cf : conf) (r : httpres) (a : addr * Z) : Prop := snd (HttpAnnounce (cf_ip cf) r) = Ok [Some a].
(* no address written like that was added to the pool so far *)
Definition unused (a : addr * Z) (tr : list cev) : Prop := forall j b, In (VMgr (GAdd j b true)) tr -> apString b <> apString (Some a).
