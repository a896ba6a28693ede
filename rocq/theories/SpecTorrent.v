(* The torrent as one byte sequence laid over its files (BEP-3).               *)
From Verif Require Import Base.

(* byte o of a file; holes and bytes past the end read as zero *)
Definition byte_at (c : bytes) (o : Z) : Z := nth (Z.to_nat o) c 0.

(* Torrent byte q is byte o of file k, for files of the given lengths. *)
Inductive located : list Z -> Z -> nat -> Z -> Prop :=
| loc_here : forall len ls o, 0 <= o < len -> located (len :: ls) o 0 o
| loc_next : forall len ls q k o, located ls q k o -> located (len :: ls) (len + q) (S k) o.

Definition total (lens : list Z) : Z := fold_right Z.add 0 lens.

(* The value of torrent byte q after the given writes (position, data), starting
   from old: that of the latest write covering it. *)
Fixpoint latest (writes : list (Z * bytes)) (q old : Z) : Z :=
  match writes with
  | [] => old
  | (pos, d) :: ws => latest ws q (if (pos <=? q) && (q <? pos + zlen d) then byte_at d (q - pos) else old)
  end.
