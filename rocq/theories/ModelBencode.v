(* Model of pkg/bencode/parse.go and pkg/bencode/elements.go.                 *)
From Coq Require Import Permutation.
From Verif Require Import Base.

(* elements.go:7-24.  The Go interface value Bencode.  BNil is the nil
   interface.  [ptr] tells *ListElement (built by the parser) from ListElement
   (built by List/NewDictBuilder), which only prettyPrint and setField can
   distinguish.  A Go map is an association list; its order is irrelevant to
   lookups and stands for one possible iteration order.                       *)
Inductive ben : Type :=
| BNil
| BInt (n : Z)
| BStr (s : bytes)
| BList (ptr : bool) (v : list ben) (raw : bytes)
| BDict (ptr : bool) (m : list (bytes * ben)) (raw : bytes).

Definition is_nil (b : ben) : bool := match b with BNil => true | _ => false end.

(* parse.go:19-23 (the buffer is passed separately).                          *)
Record scanner := mkSc { sc_start : Z; sc_cur : Z }.

Definition chr_0 := 48.   Definition chr_9 := 57.   Definition chr_colon := 58.
Definition chr_d := 100.  Definition chr_e := 101.
Definition chr_i := 105.  Definition chr_l := 108.

(* parse.go:54-56 *)
Definition is_finished (d : bytes) (s : scanner) : bool := zlen d <=? sc_cur s.

(* parse.go:63-68 *)
Definition peek (d : bytes) (s : scanner) : res Z :=
  if is_finished d s then Ok 0
  else match nthZ d (sc_cur s) with Some b => Ok b | None => Panic end.

(* parse.go:58-61 (returned rune unused by all callers)                       *)
Definition advance (d : bytes) (s : scanner) : res scanner :=
  match nthZ d (sc_cur s) with
  | Some _ => Ok (mkSc (sc_start s) (sc_cur s + 1))
  | None => Panic
  end.

(* parse.go:84-86 *)
Definition position (s : scanner) : scanner := mkSc (sc_cur s) (sc_cur s).

(* parse.go:70-78 *)
Definition match_byte (d : bytes) (s : scanner) (r : Z) : res (bool * scanner) :=
  do c <- peek d s;
  if c =? r then do s' <- advance d s; Ok (true, position s') else Ok (false, s).

(* parse.go:80-82 *)
Definition read (d : bytes) (s : scanner) : res bytes := slice d (sc_start s) (sc_cur s).

(* parse.go:88-90 *)
Definition is_digit (c : Z) : bool := (chr_0 <=? c) && (c <=? chr_9).

(* parse.go:94-99: the digit loop, int64 arithmetic wraps around.             *)
Fixpoint number_loop (fuel : nat) (d : bytes) (s : scanner) (n : Z) : res (Z * scanner) :=
  match fuel with
  | O => Diverge
  | S f =>
    do c <- peek d s;
    if is_digit c then
      do s' <- advance d s;
      number_loop f d s' (wrap64 (wrap64 (n + (c - chr_0)) * 10))
    else Ok (n, s)
  end.

(* parse.go:92-104 (Go's / truncates towards zero)                            *)
Definition number (d : bytes) (s : scanner) : res (Z * scanner) :=
  do (n, s') <- number_loop (S (length d)) d s 0;
  Ok (Z.quot n 10, position s').

(* parse.go:106-119 *)
Definition readInt (d : bytes) (s : scanner) : res (Z * scanner) :=
  do s1 <- advance d s;
  do (n, s2) <- number d (position s1);
  do (ok, s3) <- match_byte d s2 chr_e;
  if (ok : bool) then Ok (n, s3) else Err "element not ended with 'e'"%string.

(* parse.go:121-140 *)
Definition readString (d : bytes) (s : scanner) : res (bytes * scanner) :=
  do (len, s1) <- number d s;
  do (ok, s2) <- match_byte d s1 chr_colon;
  if negb ok then Err "missing ':' in string element"%string
  else
    let s3 := mkSc (sc_start s2) (wrap64 (sc_cur s2 + len)) in
    if zlen d <? sc_cur s3 then Err "string length invalid"%string
    else do v <- read d s3; Ok (v, position s3).

(* parse.go:40-52 (Next), 142-163 (readList), 165-190 (readDict); the two for
   loops are [list_loop] and [dict_loop].  Fuel bounds the recursion.         *)
Fixpoint next (fuel : nat) (d : bytes) (s : scanner) {struct fuel} : res (ben * scanner) :=
  match fuel with
  | O => Diverge
  | S f =>
    do c <- peek d s;
    if c =? chr_l then
      let start := sc_start s in
      do s1 <- advance d s;
      do (v, s2) <- list_loop f d (position s1) [];
      do (ok, s3) <- match_byte d s2 chr_e;
      if negb ok then Err "element not ended with 'e'"%string
      else do raw <- slice d start (sc_start s3); Ok (BList true v raw, s3)
    else if c =? chr_d then
      let start := sc_start s in
      do s1 <- advance d s;
      do (m, s2) <- dict_loop f d (position s1) [];
      do (ok, s3) <- match_byte d s2 chr_e;
      if negb ok then Err "element not ended with 'e'"%string
      else do raw <- slice d start (sc_start s3); Ok (BDict true m raw, s3)
    else if c =? chr_i then
      do (n, s') <- readInt d s; Ok (BInt n, s')
    else
      do (v, s') <- readString d s; Ok (BStr v, s')
  end
with list_loop (fuel : nat) (d : bytes) (s : scanner) (acc : list ben) {struct fuel}
  : res (list ben * scanner) :=
  match fuel with
  | O => Diverge
  | S f =>
    do c <- peek d s;
    if negb (c =? chr_e) && negb (is_finished d s) then
      do (e, s') <- next f d (position s);
      list_loop f d s' (acc ++ [e])
    else Ok (acc, s)
  end
with dict_loop (fuel : nat) (d : bytes) (s : scanner) (acc : list (bytes * ben)) {struct fuel}
  : res (list (bytes * ben) * scanner) :=
  match fuel with
  | O => Diverge
  | S f =>
    do c <- peek d s;
    if negb (c =? chr_e) && negb (is_finished d s) then
      do (k, s1) <- readString d s;
      do (v, s2) <- next f d s1;
      dict_loop f d s2 (insert k v acc)
    else Ok (acc, s)
  end.

Definition parse_fuel (d : bytes) : nat := 2 * length d + 3.

(* parse.go:14-17, 25-38 *)
Definition Parse (d : bytes) : res ben :=
  let s := mkSc 0 0 in
  if is_finished d s then Err "bencode: no data"%string
  else do (e, _) <- next (parse_fuel d) d s; Ok e.

(* elements.go:30-32, 42-44, 54-63, 73-84.  [encodes b w]: b.Encode() may
   return w.  A dictionary is written in any order of its entries (Go's map
   iteration order is unspecified); nil children are skipped.                 *)
Inductive encodes : ben -> bytes -> Prop :=
| enc_int n : encodes (BInt n) (chr_i :: itoa n ++ [chr_e])
| enc_str s : encodes (BStr s) (itoa (zlen s) ++ chr_colon :: s)
| enc_list p v raw w : enc_items v w -> encodes (BList p v raw) (chr_l :: w ++ [chr_e])
| enc_dict p m m' raw w :
    Permutation m m' -> enc_pairs m' w -> encodes (BDict p m raw) (chr_d :: w ++ [chr_e])
with enc_items : list ben -> bytes -> Prop :=
| enc_items_nil : enc_items [] []
| enc_items_skip v w : enc_items v w -> enc_items (BNil :: v) w
| enc_items_cons b v w1 w2 : encodes b w1 -> enc_items v w2 -> enc_items (b :: v) (w1 ++ w2)
with enc_pairs : list (bytes * ben) -> bytes -> Prop :=
| enc_pairs_nil : enc_pairs [] []
| enc_pairs_skip k m w : enc_pairs m w -> enc_pairs ((k, BNil) :: m) w
| enc_pairs_cons k b m wk w1 w2 :
    encodes (BStr k) wk -> encodes b w1 -> enc_pairs m w2 ->
    enc_pairs ((k, b) :: m) (wk ++ w1 ++ w2).

(* The same for one iteration order, the order of the association lists.
   Encode of the nil interface is a nil dereference.                          *)
Fixpoint encode (b : ben) : bytes :=
  match b with
  | BNil => []
  | BInt n => chr_i :: itoa n ++ [chr_e]
  | BStr s => itoa (zlen s) ++ chr_colon :: s
  | BList _ v _ => chr_l :: flat_map encode v ++ [chr_e]
  | BDict _ m _ =>
      chr_d :: flat_map (fun kv => if is_nil (snd kv) then []
                                   else (itoa (zlen (fst kv)) ++ chr_colon :: fst kv) ++ encode (snd kv)) m ++ [chr_e]
  end.

(* elements.go:54-84 called on an interface value *)
Definition Encode (b : ben) : res bytes :=
  match b with BNil => Panic | _ => Ok (encode b) end.

(* elements.go:34-36, 46-48, 65-67, 90-92 *)
Definition Raw (b : ben) : bytes :=
  match b with
  | BNil => []
  | BInt n => itoa n
  | BStr s => s
  | BList _ _ raw => raw
  | BDict _ _ raw => raw
  end.

(* elements.go:86-88 (Value of a missing key is the nil interface)            *)
Definition Value (b : ben) (k : bytes) : ben :=
  match b with
  | BDict _ m _ => match lookup k m with Some v => v | None => BNil end
  | _ => BNil
  end.

(* elements.go:132-138 *)
Definition newLine (tabs : bytes) : bytes := 10 :: tabs.
Definition addTab (tabs : bytes) : bytes := tabs ++ [9].

(* elements.go:94-130.  Only value elements (ptr = false) are matched by the
   type switch; a nested pointer element falls into the default case, whose
   String method restarts with no indentation.                                *)
Fixpoint pretty (b : ben) (tabs : bytes) : bytes :=
  match b with
  | BNil => []
  | BInt n => itoa n
  | BStr s => s
  | BList p v _ =>
      let tabs' := addTab (if p then [] else tabs) in
      let items := flat_map (fun el => if is_nil el then []
                                       else pretty el tabs' ++ [44] ++ newLine tabs') v in
      match items with
      | [] => str "[]"
      | _ => removelast ([91] ++ newLine tabs' ++ items) ++ [93]
      end
  | BDict p m _ =>
      let tabs' := addTab (if p then [] else tabs) in
      let items := flat_map (fun kv => if is_nil (snd kv) then []
                                       else fst kv ++ str ": " ++ pretty (snd kv) tabs' ++ [44] ++ newLine tabs') m in
      match items with
      | [] => str "{}"
      | _ => removelast ([123] ++ newLine tabs' ++ items) ++ [125]
      end
  end.

(* elements.go:26-28, 38-40, 50-52, 69-71 *)
Definition String_ (b : ben) : bytes := pretty b [].

(* elements.go:140-173: the builder.  Add overwrites like a map assignment.   *)
Definition NewDictBuilder : list (bytes * ben) := [].
Definition Add (d : list (bytes * ben)) (k : bytes) (v : ben) := insert k v d.
Definition Generate (d : list (bytes * ben)) : ben := BDict false d [].
Definition List_ (vs : list ben) : ben := BList false vs [].
