(* What can be said of the text of an encoded element before Go chooses an order
   for the keys.                                                               *)
From Verif Require Import Base ModelBencode SpecBencode.

(* dictionaries are maps: one entry per key, at every depth *)
Definition maps (e : ben) : Prop := forall p m raw, inside (BDict p m raw) e -> NoDup (map fst m).
(* no dictionary, at any depth, has two entries that are written *)
Definition single (e : ben) : Prop :=
  forall p m raw k v k' v', inside (BDict p m raw) e -> In (k, v) m -> In (k', v') m -> v <> BNil -> v' <> BNil -> k = k'.
