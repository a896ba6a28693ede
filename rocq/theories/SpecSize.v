(* How amounts are shown: a number of tenths, and the units of 1024.            *)
From Coq Require Import Reals.
From Verif Require Import Base.

(* t tenths with the decimal written out, and with a zero decimal left out *)
Definition one_decimal (t : Z) : bytes := utoa (t / 10) ++ str "." ++ utoa (t mod 10).
Definition brief (t : Z) : bytes := if t mod 10 =? 0 then utoa (t / 10) else one_decimal t.
Definition letters : list string := ["B"; "K"; "M"; "G"; "T"; "P"; "E"]%string.

(* t is x in tenths, rounded to nearest; slack: by how much it may be off beyond that *)
Definition rounded (x : R) (slack : R) (t : Z) : Prop := 0 <= t /\ (Rabs (IZR t / 10 - x) <= / 20 + slack)%R.
(* a size in bytes, written in its unit; exact below 2^53 *)
Definition size_text (n : Z) (w : bytes) : Prop :=
  (n = 0 /\ w = str "0B") \/
  exists k letter t,
    nth_error letters k = Some letter /\ 1024 ^ Z.of_nat k <= n < 1024 ^ Z.of_nat (S k) /\ w = brief t ++ str letter /\
    rounded (IZR n / IZR (1024 ^ Z.of_nat k)) (if n <? 2 ^ 53 then 0 else IZR n / IZR (1024 ^ Z.of_nat k) / 2 ^ 53) t.
(* bytes in ns, in MB/s with one decimal *)
Definition speed (n ns : Z) : R := (IZR n / (IZR ns / 1000000000) / 1048576)%R.
Definition speed_text (n ns : Z) (w : bytes) : Prop := exists t, w = one_decimal t /\ rounded (speed n ns) (speed n ns / 2 ^ 50) t.
(* p percent of size are n *)
Definition percent_near (size n p : Z) : Prop := (Rabs (IZR p - 100 * IZR n / IZR size) <= / 2 + / 2 ^ 44)%R.
(* the line shown: a bar of 20 cells, one for every 5 percent *)
Definition line (p : Z) (d l v : bytes) (peers trackers : Z) : bytes :=
  str "|" ++ flat_map (fun k => if Z.of_nat k <? p / 5 then [226; 150; 136] else [32]) (seq 0 20) ++ str "|  " ++ utoa p ++ str "% downloaded (" ++ d ++
  str "), left (" ++ l ++ str "), speed (" ++ v ++ str " MB/s), peers (" ++ utoa peers ++ str "), trackers (" ++ utoa trackers ++ str ")" ++ [10].
