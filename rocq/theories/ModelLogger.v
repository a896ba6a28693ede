(* pkg/logger/logger.go                                                        *)
From Verif Require Import Base.

(* strings.ToLower and strings.TrimSpace for ASCII text.  Simplified: other
   characters are neither letters nor blanks here (Go maps U+0130 and U+212A to
   ASCII letters and trims the Unicode blanks); the theorems are about ASCII.   *)
Definition to_lower (c : Z) : Z := if (65 <=? c) && (c <=? 90) then c + 32 else c.
Definition ToLower (s : bytes) : bytes := map to_lower s.
Definition is_space (c : Z) : bool := ((9 <=? c) && (c <=? 13)) || (c =? 32).
Fixpoint trim_left (s : bytes) : bytes :=
  match s with c :: s' => if is_space c then trim_left s' else s | [] => [] end.
Definition TrimSpace (s : bytes) : bytes := rev (trim_left (rev (trim_left s))).

Inductive level := DebugLevel | InfoLevel | WarnLevel | ErrorLevel.
Inductive encoder := TextEncoder | ColorEncoder | JsonEncoder.
(* zap.NewNop or newLogger(level, encoder) *)
Inductive logger := Nop | Logger (l : level) (e : encoder).

(* logger.go:12-26 *)
Definition getZapLevel (l : bytes) : res level :=
  let l := TrimSpace (ToLower l) in
  if beq l (str "debug") then Ok DebugLevel
  else if beq l (str "info") || beq l (str "") then Ok InfoLevel
  else if beq l (str "warn") then Ok WarnLevel
  else if beq l (str "error") then Ok ErrorLevel
  else Err "unknown log level".

(* logger.go:28-40 *)
Definition getZapEncoder (f : bytes) : res encoder :=
  let f := TrimSpace (ToLower f) in
  if beq f (str "text") then Ok TextEncoder
  else if beq f (str "color") || beq f (str "") then Ok ColorEncoder
  else if beq f (str "json") then Ok JsonEncoder
  else Err "unknown log format".

(* logger.go:99-113 *)
Definition NewCommandLine (l f : bytes) : res logger :=
  if beq l (str "silent") then Ok Nop
  else do zapLevel <- getZapLevel l ; do enc <- getZapEncoder f ; Ok (Logger zapLevel enc).
