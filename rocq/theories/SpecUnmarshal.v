(* Independent specification of Unmarshal: what number a text denotes, what a
   "ben" tag means, and which Go value a bencode element converts to.          *)
From Verif Require Import Base ModelBencode SpecText SpecBencode ModelUnmarshal.

(* ---- Go integer literals (base prefix, '_' as digit separator) ---- *)
Definition digit_value (c : Z) : option Z :=
  if (48 <=? c) && (c <=? 57) then Some (c - 48)            (* 0-9 *)
  else if (97 <=? c) && (c <=? 122) then Some (c - 87)      (* a-z *)
  else if (65 <=? c) && (c <=? 90) then Some (c - 55)       (* A-Z *)
  else None.

(* [radix s p b r]: s is the prefix p followed by r, to be read in base b *)
Inductive radix : bytes -> bytes -> Z -> bytes -> Prop :=
| rx_hex c r : c = 120 \/ c = 88 -> r <> [] -> radix (48 :: c :: r) [48; c] 16 r    (* 0x *)
| rx_oct c r : c = 111 \/ c = 79 -> r <> [] -> radix (48 :: c :: r) [48; c] 8 r     (* 0o *)
| rx_bin c r : c = 98 \/ c = 66 -> r <> [] -> radix (48 :: c :: r) [48; c] 2 r      (* 0b *)
| rx_zero r : radix (48 :: r) [48] 8 r                                              (* 0 *)
| rx_dec c r : c <> 48 -> radix (c :: r) [] 10 (c :: r).

(* [reads b s n m]: appending the digits s (separators ignored) to n gives m *)
Inductive reads (base : Z) : bytes -> Z -> Z -> Prop :=
| reads_nil n : reads base [] n n
| reads_sep s n m : reads base s n m -> reads base (95 :: s) n m
| reads_digit c d s n m :
    digit_value c = Some d -> d < base -> reads base s (n * base + d) m -> reads base (c :: s) n m.

(* separators stand between digits (a prefix counts as one) *)
Definition sep_ok (p ds : bytes) : Prop :=
  (p = [] -> hd 0 ds <> 95) /\ (forall a b, ds <> a ++ [95; 95] ++ b) /\ (forall a, ds <> a ++ [95]).

Definition magnitude (s : bytes) (n : Z) : Prop :=
  exists p b ds, radix s p b ds /\ reads b ds 0 n /\ sep_ok p ds.

Definition int_literal (s : bytes) (z : Z) : Prop :=
  magnitude s z \/ (exists r, s = 43 :: r /\ magnitude r z) \/ (exists r, s = 45 :: r /\ magnitude r (- z)).

(* ---- tags: key[,option...] ---- *)
Definition no_comma (s : bytes) : Prop := ~ In 44 s.
Fixpoint join_comma (l : list bytes) : bytes :=
  match l with [] => [] | [x] => x | x :: l' => x ++ 44 :: join_comma l' end.
Definition tag_means (tag key : bytes) (optional : bool) : Prop :=
  exists opts, tag = join_comma (key :: opts) /\ Forall no_comma (key :: opts) /\
               (optional = true <-> In (str "optional") opts).

(* ---- conversion ----
   [conv t old v new]: storing element v into a variable of type t holding
   [old] leaves it holding [new]. *)
Definition is_dict (v : ben) (m : list (bytes * ben)) : Prop := exists raw, v = BDict true m raw.
Definition is_list (v : ben) (vs : list ben) : Prop := exists raw, v = BList true vs raw.
Definition absent (m : list (bytes * ben)) (k : bytes) : Prop := lookup k m = None \/ lookup k m = Some BNil.

Inductive conv : gty -> gval -> ben -> gval -> Prop :=
| cv_string old v : v <> BNil -> conv TString old v (VString (text v))
| cv_int b old v n :
    v <> BNil -> int_literal (text v) n -> - 2 ^ (b - 1) <= n < 2 ^ (b - 1) ->
    conv (TInt b) old v (VInt n)
| cv_uint b old v n :
    v <> BNil -> magnitude (text v) n -> 0 <= n < 2 ^ b ->
    conv (TUint b) old v (VInt n)
| cv_bytes t old v : is_u8 t = true -> v <> BNil -> conv (TSlice t) old v (VBytes (Raw v))
| cv_slice t old v vs gs :
    is_u8 t = false -> is_list v vs -> conv_list t vs gs -> conv (TSlice t) old v (VSlice gs)
| cv_struct fs olds v m news :
    is_dict v m -> conv_fields m fs olds news -> conv (TStruct fs) (VStruct olds) v (VStruct news)
| cv_map t old v m gm :
    is_dict v m -> conv_map t m gm -> conv (TMap true t) old v (VMap gm)
| cv_map_empty t k old v : is_dict v [] -> conv (TMap k t) old v (VMap [])
| cv_ptr t g v g' :
    (forall t', t <> TPtr t') -> conv t g v g' -> conv (TPtr t) (VPtr (Some g)) v (VPtr (Some g'))
| cv_ptr_nil t v g' :
    (forall t', t <> TPtr t') -> conv t (zero t) v g' -> conv (TPtr t) (VPtr None) v (VPtr (Some g'))
with conv_list : gty -> list ben -> list gval -> Prop :=
| cl_nil t : conv_list t [] []
| cl_cons t v vs g gs : conv t (zero t) v g -> conv_list t vs gs -> conv_list t (v :: vs) (g :: gs)
with conv_map : gty -> list (bytes * ben) -> list (bytes * gval) -> Prop :=
| cm_nil t : conv_map t [] []
| cm_cons t k v m g gm : conv t (zero t) v g -> conv_map t m gm -> conv_map t ((k, v) :: m) ((k, g) :: gm)
with conv_fields : list (bytes * ben) -> list (bytes * bool * gty) -> list gval -> list gval -> Prop :=
| cf_nil m : conv_fields m [] [] []
| cf_skip m tag canset t fs o olds news :
    canset = false \/ tag = [] ->
    conv_fields m fs olds news -> conv_fields m ((tag, canset, t) :: fs) (o :: olds) (o :: news)
| cf_absent m tag t fs o olds news key :
    tag <> [] -> tag_means tag key true -> absent m key ->
    conv_fields m fs olds news -> conv_fields m ((tag, true, t) :: fs) (o :: olds) (o :: news)
| cf_present m tag t fs o olds news key opt v g :
    tag <> [] -> tag_means tag key opt -> lookup key m = Some v -> v <> BNil -> conv t o v g ->
    conv_fields m fs olds news -> conv_fields m ((tag, true, t) :: fs) (o :: olds) (g :: news).

(* ---- well-formedness ---- *)
(* the value has the shape of the type (structs have one value per field) *)
Fixpoint typed (t : gty) (g : gval) {struct t} : Prop :=
  match t with
  | TStruct fs =>
      match g with
      | VStruct vs =>
          (fix go (fs : list (bytes * bool * gty)) (vs : list gval) : Prop :=
             match fs, vs with
             | [], [] => True
             | f :: fs', v :: vs' => typed (snd f) v /\ go fs' vs'
             | _, _ => False
             end) fs vs
      | _ => False
      end
  | TPtr t' => match g with VPtr (Some g') => typed t' g' | VPtr None => True | _ => False end
  | _ => True
  end.
(* integer widths are Go's *)
Definition width (b : Z) : Prop := b = 8 \/ b = 16 \/ b = 32 \/ b = 64.
Fixpoint widths (t : gty) : Prop :=
  match t with
  | TInt b | TUint b => width b
  | TSlice t' | TMap _ t' | TPtr t' => widths t'
  | TStruct fs => (fix go (fs : list (bytes * bool * gty)) : Prop :=
                     match fs with [] => True | f :: fs' => widths (snd f) /\ go fs' end) fs
  | _ => True
  end.
(* every map type is keyed by strings *)
Fixpoint string_keys (t : gty) : Prop :=
  match t with
  | TMap k t' => k = true /\ string_keys t'
  | TSlice t' | TPtr t' => string_keys t'
  | TStruct fs => (fix go (fs : list (bytes * bool * gty)) : Prop :=
                     match fs with [] => True | f :: fs' => string_keys (snd f) /\ go fs' end) fs
  | _ => True
  end.

(* i-th field of a struct value *)
Definition field_of (g : gval) (i : nat) : option gval := match g with VStruct vs => nth_error vs i | _ => None end.

(* d is a dictionary document (plus anything) whose last "info" entry has the
   dictionary document w as its value, between the entries b1 and b2            *)
Definition info_entry (d b1 : bytes) es1 (kw w : bytes) m (b2 : bytes) es2 (post : bytes) : Prop :=
  d = [100] ++ (b1 ++ kw ++ w ++ b2) ++ [101] ++ post /\
  den_entries wrapped_val b1 es1 /\ wdenotes kw (BStr (str "info")) /\ wdenotes w (BDict true m w) /\
  den_entries wrapped_val b2 es2 /\ ~ In (str "info") (map fst es2).

