(* How a word may be spelled in a setting: any mixture of capital and small
   letters, with blanks around it.                                             *)
From Verif Require Import Base ModelLogger.

Definition ascii (s : bytes) : Prop := Forall (fun c => 0 <= c < 128) s.
Definition blank (c : Z) : Prop := In c [9; 10; 11; 12; 13; 32].
(* c is the small letter l or its capital; other characters stand for themselves *)
Definition letter (c l : Z) : Prop := c = l \/ (97 <= l <= 122 /\ c = l - 32).
Definition spelled (w s : bytes) : Prop :=
  exists a b c, s = a ++ b ++ c /\ Forall blank a /\ Forall2 letter b w /\ Forall blank c.
Definition one_of (ws : list bytes) (s : bytes) : Prop := exists w, In w ws /\ spelled w s.

(* what --help says (pkg/cmd/app.go:44-45) *)
Definition documented_levels : list bytes :=
  [str "info"; str "debug"; str "trace"; str "warning"; str "error"; str "silent"].
Definition documented_formats : list bytes := [str "text"; str "color"; str "json"].

(* the names of a level and of a format; [] is the empty setting *)
Definition level_names (l : level) : list bytes :=
  match l with DebugLevel => [str "debug"] | InfoLevel => [str "info"; []] | WarnLevel => [str "warn"] | ErrorLevel => [str "error"] end.
Definition encoder_names (e : encoder) : list bytes :=
  match e with TextEncoder => [str "text"] | ColorEncoder => [str "color"; []] | JsonEncoder => [str "json"] end.
