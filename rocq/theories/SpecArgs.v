(* What a command line says. *)
From Verif Require Import Base.

(* ---------- numbers ---------- *)
(* a digit of a base and its value *)
Inductive dig (b : Z) : Z -> Z -> Prop :=
| dig_dec c : 48 <= c <= 57 -> c - 48 < b -> dig b c (c - 48)
| dig_low c : 97 <= c <= 122 -> c - 87 < b -> dig b c (c - 87)
| dig_up c : 65 <= c <= 90 -> c - 55 < b -> dig b c (c - 55).
(* digits, two of them perhaps separated by an underscore *)
Inductive digs (b : Z) : bytes -> list Z -> Prop :=
| digs_one c d : dig b c d -> digs b [c] [d]
| digs_more c d s l : dig b c d -> digs b s l -> digs b (c :: s) (d :: l)
| digs_under c d s l : dig b c d -> digs b s l -> digs b (c :: 95 :: s) (d :: l).
(* positional value *)
Fixpoint amount (b : Z) (l : list Z) : Z := match l with [] => 0 | d :: l' => d * b ^ Z.of_nat (length l') + amount b l' end.
(* the letters after a 0 that name a base *)
Inductive base_letter : Z -> Z -> Prop :=
| bl_b : base_letter 98 2 | bl_B : base_letter 66 2 | bl_o : base_letter 111 8 | bl_O : base_letter 79 8 | bl_x : base_letter 120 16 | bl_X : base_letter 88 16.
(* numbers as in a Go program *)
Inductive unsigned : bytes -> Z -> Prop :=
| un_dec c s l : digs 10 (c :: s) l -> c <> 48 -> unsigned (c :: s) (amount 10 l)
| un_oct s l : digs 8 (48 :: s) l -> unsigned (48 :: s) (amount 8 l)
| un_base p b s l : base_letter p b -> digs b s l -> unsigned (48 :: p :: s) (amount b l)
| un_base_under p b s l : base_letter p b -> digs b s l -> unsigned (48 :: p :: 95 :: s) (amount b l).
Inductive written_number : bytes -> Z -> Prop :=
| wn_plain s n : unsigned s n -> n < 2 ^ 63 -> written_number s n
| wn_plus s n : unsigned s n -> n < 2 ^ 63 -> written_number (43 :: s) n
| wn_minus s n : unsigned s n -> n <= 2 ^ 63 -> written_number (45 :: s) (- n).

(* ---------- options ---------- *)
Inductive sort := Text | Number | Switch.
Definition truth (v : bytes) (b : bool) : Prop :=
  In v (if b then [str "1"; str "t"; str "T"; str "true"; str "TRUE"; str "True"] else [str "0"; str "f"; str "F"; str "false"; str "FALSE"; str "False"]).
Definition suits (k : sort) (v : bytes) : Prop :=
  match k with Text => True | Number => exists n, written_number v n | Switch => exists b, truth v b end.
(* those of every command, and those of download (d) *)
Inductive named (d : bool) : bytes -> sort -> Prop :=
| nm_help : named d (str "help") Switch
| nm_level : named d (str "log-level") Text
| nm_format : named d (str "log-format") Text
| nm_config : named d (str "config") Text
| nm_out : d = true -> named d (str "out") Text
| nm_num : d = true -> named d (str "num-peer") Number
| nm_port : d = true -> named d (str "port") Number.
Inductive letter (d : bool) : Z -> bytes -> sort -> Prop :=
| lt_help : letter d 104 (str "help") Switch
| lt_level : letter d 108 (str "log-level") Text
| lt_out : d = true -> letter d 111 (str "out") Text
| lt_num : d = true -> letter d 110 (str "num-peer") Number
| lt_port : d = true -> letter d 112 (str "port") Number.

(* what follows one '-': options set, and one that has its value in the next word *)
Definition equals (s : bytes) : Prop := exists c v, s = 61 :: c :: v.
Inductive letters (d : bool) : bytes -> list (bytes * bytes) -> option (bytes * sort) -> Prop :=
| ls_none : letters d [] [] None
| ls_test s : letters d (str "test." ++ s) [] None              (* for go test *)
| ls_equals c n k v : letter d c n k -> v <> [] -> suits k v -> letters d (c :: 61 :: v) [(n, v)] None
| ls_rest c n k v : letter d c n k -> k <> Switch -> v <> [] -> ~ equals v -> suits k v -> letters d (c :: v) [(n, v)] None
| ls_next c n k : letter d c n k -> k <> Switch -> letters d [c] [] (Some (n, k))
| ls_switch c n s l o : letter d c n Switch -> ~ equals s -> letters d s l o -> letters d (c :: s) ((n, str "true") :: l) o.
Definition word (w : bytes) : Prop := w = [] \/ w = [45] \/ hd 0 w <> 45.
(* the words of a command line: options in their order, and the other words *)
Inductive says (d : bool) : list bytes -> list (bytes * bytes) -> list bytes -> Prop :=
| sa_end : says d [] [] []
| sa_rest a : says d (str "--" :: a) [] a
| sa_word w r l a : word w -> says d r l a -> says d (w :: r) l (w :: a)
| sa_equals n k v r l a : named d n k -> suits k v -> says d r l a -> says d ((str "--" ++ n ++ 61 :: v) :: r) ((n, v) :: l) a
| sa_next n k v r l a : named d n k -> k <> Switch -> suits k v -> says d r l a -> says d ((str "--" ++ n) :: v :: r) ((n, v) :: l) a
| sa_switch n r l a : named d n Switch -> says d r l a -> says d ((str "--" ++ n) :: r) ((n, str "true") :: l) a
| sa_letters s l0 r l a : s <> [] -> hd 0 s <> 45 -> letters d s l0 None -> says d r l a -> says d ((45 :: s) :: r) (l0 ++ l) a
| sa_letters_next s l0 n k v r l a : s <> [] -> hd 0 s <> 45 -> letters d s l0 (Some (n, k)) -> suits k v -> says d r l a ->
    says d ((45 :: s) :: v :: r) (l0 ++ (n, v) :: l) a.

(* the last value given to an option *)
Definition last_given (l : list (bytes * bytes)) (n v : bytes) : Prop := exists l1 l2, l = l1 ++ (n, v) :: l2 /\ ~ In n (map fst l2).
Definition not_given (l : list (bytes * bytes)) (n : bytes) : Prop := ~ In n (map fst l).
Definition number_given (l : list (bytes * bytes)) (n : bytes) (dflt z : Z) : Prop :=
  not_given l n /\ z = dflt \/ exists v, last_given l n v /\ written_number v z.
Definition asks_help (l : list (bytes * bytes)) : Prop := exists v, last_given l (str "help") v /\ truth v true.

(* options of every command *)
Inductive global : list bytes -> Prop :=
| gl_nil : global []
| gl_equals n v g : In n [str "log-level"; str "log-format"; str "config"] -> global g -> global ((str "--" ++ n ++ 61 :: v) :: g)
| gl_next n v g : In n [str "log-level"; str "log-format"; str "config"] -> global g -> global ((str "--" ++ n) :: v :: g)
| gl_letter v g : global g -> global (str "-l" :: v :: g)
| gl_rest v g : v <> [] -> global g -> global ((str "-l" ++ v) :: g).
