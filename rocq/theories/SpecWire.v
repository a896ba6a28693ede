(* The messages we can write, as BEP-3 has them.                                *)
From Verif Require Import Base ModelBitset SpecMsg.

Definition be64 (n : Z) : bytes := be32 (n / 2 ^ 32) ++ be32 (n mod 2 ^ 32).
Definition keepalive_frame : bytes := frame [].
Definition choke_frame : bytes := frame [0].
Definition unchoke_frame : bytes := frame [1].
Definition interested_frame : bytes := frame [2].
Definition not_interested_frame : bytes := frame [3].
Definition have_frame (index : Z) : bytes := frame ([4] ++ be32 index).
Definition cancel_frame (index begin length : Z) : bytes := frame ([8] ++ be32 index ++ be32 begin ++ be32 length).
(* the message for the pieces b: one bit for each, in whole bytes, spare bits clear *)
Definition is_bitfield_frame (b : bitset) (w : bytes) : Prop :=
  exists p, w = frame ([5] ++ p) /\ zlen p = (bs_len b + 7) / 8 /\ Forall is_byte p /\ forall i, 0 <= i < 8 * zlen p -> wire_bit p i = bs_test b i.
