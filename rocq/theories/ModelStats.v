(* pkg/stats: stats.go, progress_bar.go.  (progress_printer.go only formats these
   numbers; Speed and the printed sizes are in ModelSize.)                               *)
From Coq Require Import Floats.SpecFloat.
From Verif Require Import Base ModelFloat.

(* stats.go:11-20; the counters are uint64 *)
Record stats := mkStats { st_size : Z; st_download : Z; st_upload : Z; st_left : Z; st_peers : Z; st_trackers : Z }.
(* stats.go:22-32 *)
Definition NewStats (size : Z) : stats := mkStats size 0 0 size 0 0.

(* the atomic operations (sync/atomic.AddUint64) *)
Inductive aop :=
| AddDl (n : Z)      (* &ts.download += n *)
| SubLeft (n : Z)    (* &ts.left += -n *)
| AddUp (n : Z)
| IncPeer | DecPeer  (* += 1, += ^uint64(0) *)
| IncTracker | DecTracker.
Definition aexec (s : stats) (o : aop) : stats :=
  let '(mkStats z d u l p t) := s in
  match o with
  | AddDl n => mkStats z (u64 (d + n)) u l p t
  | SubLeft n => mkStats z d u (u64 (l + u64 (- n))) p t
  | AddUp n => mkStats z d (u64 (u + n)) l p t
  | IncPeer => mkStats z d u l (u64 (p + 1)) t
  | DecPeer => mkStats z d u l (u64 (p + (2 ^ 64 - 1))) t
  | IncTracker => mkStats z d u l p (u64 (t + 1))
  | DecTracker => mkStats z d u l p (u64 (t + (2 ^ 64 - 1)))
  end.
(* stats.go:34-37 *)
Definition AddDownload (n : Z) : list aop := [AddDl n; SubLeft n].

(* goroutines: what each still has to execute; a step executes the next operation
   of any one of them                                                          *)
Definition world := (stats * list (list aop))%type.
Inductive wstep : world -> world -> Prop :=
| ws : forall s pre o rest post, wstep (s, pre ++ (o :: rest) :: post) (aexec s o, pre ++ rest :: post).
Inductive wreach (w0 : world) : world -> Prop :=
| wr_refl : wreach w0 w0
| wr_step : forall w w', wreach w0 w -> wstep w w' -> wreach w0 w'.

(* stats.go:84-90 PercentCompleted.  (Download() is loaded twice; it only grows
   between the loads when writers run, see PercentLoads.)                      *)
Definition percent_of (size first second : Z) : Z :=
  if (size =? 0) || (first =? 0) then 0
  else int_of (f_round (f64_mul (f64_div (f64_of second) (f64_of size)) (f64_of 100))).
Definition PercentCompleted (s : stats) : Z := percent_of (st_size s) (st_download s) (st_download s).

(* strings.Repeat(c, n) panics for negative n; a cell is one character *)
Definition Repeat (c : bytes) (n : Z) : res (list bytes) := if n <? 0 then Panic else Ok (repeat c (Z.to_nat n)).
(* progress_bar.go:8: U+2588 in UTF-8 *)
Definition progressChar : bytes := [226; 150; 136].
Definition space : bytes := [32].
(* progress_bar.go:10-19: int(float32(barSize) * (float32(percent)/100)) *)
Definition repeat_chars (percent barSize : Z) : Z :=
  int_of (f_trunc (f32_mul (f32_of barSize) (f32_div (f32_of percent) (f32_of 100)))).
(* the cells of the bar and the text after it *)
Definition progressBar (percent barSize : Z) : res (list bytes * bytes) :=
  let n := repeat_chars percent barSize in
  do full <- Repeat progressChar n ;
  do empty <- Repeat space (wrap64 (barSize - n)) ;
  Ok (full ++ empty, str "|  " ++ itoa percent ++ str "%").
(* progress_printer.go:45 *)
Definition PrintBar (s : stats) : res (list bytes * bytes) := progressBar (PercentCompleted s) 20.
