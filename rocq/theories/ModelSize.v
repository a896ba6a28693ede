(* Numbers for people: code.cloudfoundry.org/bytefmt ByteSize, strconv.FormatFloat
   with one decimal, Stats.Speed (pkg/stats/stats.go:55-58) and the whole line of
   pkg/stats/progress_printer.go:25-37.                                        *)
From Coq Require Import Floats.SpecFloat.
From Verif Require Import Base ModelFloat ModelStats.

Definition f64_add := SFadd 53 1024.
(* strconv.FormatFloat(f, 'f', 1, 64) and %.1f: the exact value to one decimal,
   halves to even *)
Definition half_even (a b : Z) : Z :=                   (* a/b, 0 < b *)
  let q := a / b in
  let r := 2 * (a mod b) in
  if (b <? r) || ((r =? b) && Z.odd q) then q + 1 else q.
Definition tenths (m : positive) (e : Z) : Z := if 0 <=? e then 10 * Zpos m * 2 ^ e else half_even (10 * Zpos m) (2 ^ (- e)).
Definition FormatFloat (f : spec_float) : bytes :=
  match f with
  | S754_nan => str "NaN"
  | S754_infinity s => str (if s then "-Inf" else "+Inf")
  | S754_zero s => str (if s then "-0.0" else "0.0")
  | S754_finite s m e => str (if s then "-" else "") ++ itoa (tenths m e / 10) ++ str "." ++ itoa (tenths m e mod 10)
  end.

(* bytefmt, bytes.go: the largest unit not above the number *)
Definition units : list (Z * string) :=
  [(2 ^ 60, "E"); (2 ^ 50, "P"); (2 ^ 40, "T"); (2 ^ 30, "G"); (2 ^ 20, "M"); (2 ^ 10, "K"); (1, "B")]%string.
(* strings.TrimSuffix *)
Definition TrimSuffix (s suf : bytes) : bytes :=
  let k := (length s - length suf)%nat in
  if (length suf <=? length s)%nat && beq (skipn k s) suf then firstn k s else s.
Definition ByteSize (n : Z) : bytes :=
  match find (fun u => fst u <=? n) units with
  | Some (u, name) => TrimSuffix (FormatFloat (f64_div (f64_of n) (f64_of u))) (str ".0") ++ str name
  | None => str "0B"
  end.

(* time.Duration.Seconds of a duration in ns, not negative *)
Definition Seconds (d : Z) : spec_float := f64_add (f64_of (d / 1000000000)) (f64_div (f64_of (d mod 1000000000)) (f64_of 1000000000)).
(* stats.go:55-58 *)
Definition Speed (download dur : Z) : spec_float := f64_div (f64_div (f64_of download) (Seconds dur)) (f64_of (2 ^ 20)).

(* progress_printer.go:25-37 without uilive: what is written for these counters at
   dur ns after NewStats.  Simplified: the counters are read at one time.       *)
Definition ProgressLine (s : stats) (dur : Z) : res bytes :=
  do bar <- PrintBar s ;
  Ok (str "|" ++ concat (fst bar) ++ snd bar ++
      str " downloaded (" ++ ByteSize (st_download s) ++ str "), left (" ++ ByteSize (st_left s) ++
      str "), speed (" ++ FormatFloat (Speed (st_download s) dur) ++ str " MB/s), peers (" ++ itoa (st_peers s) ++
      str "), trackers (" ++ itoa (st_trackers s) ++ str ")" ++ [10]).
