(* pkg/bencode/tag_parser.go:194-200 and 220-285: Metainfo for people.
   bytefmt.ByteSize, time.Format (in the local time zone) and sha1 are parameters. *)
From Verif Require Import Base ModelBencode ModelUnmarshal ModelTorrent ModelCmd.

(* encoding/base64, URLEncoding: RFC 4648 section 5, padded *)
Definition b64_char (n : Z) : Z :=
  if n <? 26 then 65 + n else if n <? 52 then 71 + n else if n <? 62 then n - 4 else if n =? 62 then 45 else 95.
Fixpoint EncodeToString (s : bytes) : bytes :=
  match s with
  | [] => []
  | [a] => [b64_char (a / 4); b64_char (a mod 4 * 16); 61; 61]
  | [a; b] => [b64_char (a / 4); b64_char (a mod 4 * 16 + b / 16); b64_char (b mod 16 * 4); 61]
  | a :: b :: c :: s' =>
      [b64_char (a / 4); b64_char (a mod 4 * 16 + b / 16); b64_char (b mod 16 * 4 + c / 64); b64_char (c mod 64)] ++ EncodeToString s'
  end.

(* strings.Join *)
Fixpoint Join (l : list bytes) (sep : bytes) : bytes :=
  match l with
  | [] => []
  | [s] => s
  | s :: l' => s ++ sep ++ Join l' sep
  end.
Definition Repeat (s : bytes) (n : nat) : bytes := concat (repeat s n).

(* 198-200 *)
Definition FilePath (f : tfile) : bytes := Join (tf_path f) (str "/").
(* 194-196 *)
Definition FileString (byte_size : Z -> bytes) (f : tfile) : bytes :=
  str "[path: " ++ FilePath f ++ str ", size: " ++ byte_size (u64 (tf_length f)) ++ str "]".

(* 243-279 *)
Inductive printed :=
| PString (s : bytes)
| PInt64 (n : Z)
| PStrings (l : list bytes)
| PLists (l : list (list bytes))
| PFiles (l : list tfile).
Definition tab : bytes := [9].
Definition nl : bytes := [10].
Definition printValue (byte_size : Z -> bytes) (name : bytes) (v : printed) (ident : nat) (b : bytes) : bytes :=
  match v with
  | PString s => if zlen s =? 0 then b else b ++ Repeat tab ident ++ name ++ str ": " ++ s ++ nl
  | PInt64 n => if n =? 0 then b else b ++ Repeat tab ident ++ name ++ str ": " ++ itoa n ++ nl
  | PStrings l =>
      if zlen l =? 0 then b
      else fold_left (fun b s => b ++ Repeat tab (ident + 1) ++ s ++ str "," ++ nl) l (b ++ Repeat tab ident ++ name ++ str ": [" ++ nl) ++ Repeat tab ident ++ str "]" ++ nl
  | PLists l =>                                          (* %s of a []string: [a b c] *)
      if zlen l =? 0 then b
      else fold_left (fun b s => b ++ Repeat tab (ident + 1) ++ str "[" ++ Join s (str " ") ++ str "]" ++ nl) l (b ++ Repeat tab ident ++ name ++ str ": [" ++ nl)
        ++ Repeat tab ident ++ str "]" ++ nl
  | PFiles l =>
      if zlen l =? 0 then b
      else fold_left (fun b f => b ++ Repeat tab (ident + 1) ++ FileString byte_size f ++ str "," ++ nl) l (b ++ Repeat tab ident ++ name ++ str ": [" ++ nl)
        ++ Repeat tab ident ++ str "]" ++ nl
  end.

(* the fields after InfoDictRaw *)
Definition field (g : gval) (k : nat) : gval := match g with VStruct vs => nth k vs VOther | _ => VOther end.
Definition mi_comment (g : gval) : bytes := string_of (field g 5).
Definition mi_created_by (g : gval) : bytes := string_of (field g 6).
Definition mi_creation_date (g : gval) : Z := int_val (field g 7).
(* 220-241 *)
Definition MetainfoString (byte_size datetime : Z -> bytes) (sha1 : bytes -> bytes) (g : gval) : bytes :=
  let m := metainfo_of g in
  let pv := printValue byte_size in
  let b := str "{" ++ nl ++ tab ++ str "info: {" ++ nl in
  let b := pv (str "name") (PString (mi_name m)) 2%nat b in
  let b := pv (str "length") (PString (byte_size (u64 (mi_length m)))) 2%nat b in
  let b := pv (str "piece-length") (PInt64 (mi_piece_length m)) 2%nat b in
  let b := pv (str "files") (PFiles (mi_files m)) 2%nat b in
  let b := b ++ tab ++ str "}" ++ nl in
  let b := pv (str "comment") (PString (mi_comment g)) 1%nat b in
  let b := pv (str "created-by") (PString (mi_created_by g)) 1%nat b in
  let b := pv (str "creation-date") (PString (datetime (mi_creation_date g))) 1%nat b in
  let b := pv (str "announce") (PString (mi_announce m)) 1%nat b in
  let b := pv (str "announce-list") (PLists (mi_announce_list m)) 1%nat b in
  let b := pv (str "url-list") (PStrings (mi_url_list m)) 1%nat b in
  let b := pv (str "(calculated) info-hash") (PString (EncodeToString (Hash sha1 g))) 1%nat b in
  b ++ str "}" ++ nl.
