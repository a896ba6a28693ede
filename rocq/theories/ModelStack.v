(* pkg/bencode/parse.go:40-52, 142-190: how deep Next, readList and readDict call each
   other.  The stack of a goroutine is limited (1 GB by default), and going beyond ends
   the process.                                                                 *)
From Verif Require Import Base ModelBencode.

(* A call of Next meets n+1 lists or dictionaries inside each other.  Only the calls of
   readList and readDict are counted, those of other functions do not nest.     *)
Fixpoint next_over (fuel n : nat) (d : bytes) (s : scanner) {struct fuel} : bool :=
  match fuel with
  | O => false
  | S f =>
      match peek d s with
      | Ok c =>
          if (c =? chr_l) || (c =? chr_d) then
            match n with
            | O => true
            | S n' =>
                match advance d s with
                | Ok s1 => if c =? chr_l then list_over f n' d (position s1) else dict_over f n' d (position s1)
                | _ => false
                end
            end
          else false
      | _ => false
      end
  end
with list_over (fuel n : nat) (d : bytes) (s : scanner) {struct fuel} : bool :=
  match fuel with
  | O => false
  | S f =>
      match peek d s with
      | Ok c =>
          if negb (c =? chr_e) && negb (is_finished d s) then
            next_over f n d (position s) ||
            match next f d (position s) with Ok (_, s') => list_over f n d s' | _ => false end
          else false
      | _ => false
      end
  end
with dict_over (fuel n : nat) (d : bytes) (s : scanner) {struct fuel} : bool :=
  match fuel with
  | O => false
  | S f =>
      match peek d s with
      | Ok c =>
          if negb (c =? chr_e) && negb (is_finished d s) then
            match readString d s with
            | Ok (_, s1) =>
                next_over f n d s1 ||
                match next f d s1 with Ok (_, s2) => dict_over f n d s2 | _ => false end
            | _ => false
            end
          else false
      | _ => false
      end
  end.
(* 14-17, 25-38 with a stack that has room for n calls of readList and readDict *)
Definition overflows (n : nat) (d : bytes) : bool := if is_finished d (mkSc 0 0) then false else next_over (parse_fuel d) n d (mkSc 0 0).
