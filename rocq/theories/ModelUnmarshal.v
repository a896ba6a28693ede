(* Model of pkg/bencode/tag_parser.go: reflection driven decoding.            *)
From Verif Require Import Base ModelBencode.

(* The Go types setField distinguishes (tag_parser.go:91-187).  TMap's flag
   says whether the key type accepts a string key (otherwise SetMapIndex
   panics); TOther is any other kind (bool, float, pointer to pointer, ...).
   A slice whose element kind is uint8 is TSlice (TUint 8).                   *)
Inductive gty : Type :=
| TString
| TInt (bits : Z)
| TUint (bits : Z)
| TSlice (t : gty)
| TStruct (fs : list (bytes * bool * gty))   (* "ben" tag, CanSet, type *)
| TMap (keyok : bool) (t : gty)
| TPtr (t : gty)
| TOther.

(* Go values.  nil and empty slices/maps are identified.                      *)
Inductive gval : Type :=
| VString (s : bytes)
| VInt (n : Z)
| VBytes (s : bytes)
| VSlice (vs : list gval)
| VStruct (vs : list gval)
| VMap (m : list (bytes * gval))
| VPtr (p : option gval)
| VOther.

Definition is_u8 (t : gty) : bool := match t with TUint b => b =? 8 | _ => false end.

(* reflect.Zero / reflect.New *)
Fixpoint zero (t : gty) : gval :=
  match t with
  | TString => VString []
  | TInt _ => VInt 0
  | TUint _ => VInt 0
  | TSlice t' => if is_u8 t' then VBytes [] else VSlice []
  | TStruct fs => VStruct (map (fun f => zero (snd f)) fs)
  | TMap _ _ => VMap []
  | TPtr _ => VPtr None
  | TOther => VOther
  end.

(* ---- strconv.ParseUint / ParseInt with base 0 (Go standard library) ---- *)
Definition lower (c : Z) : Z := Z.lor c 32.

Inductive num := NumOk (n : Z) | NumSyntax | NumRange (n : Z).

Definition is_underscore (c : Z) : bool := c =? 95.

(* strconv/atoi.go: the digit loop of ParseUint; [us] = underscores seen       *)
Fixpoint pu_loop (base maxv cutoff : Z) (s : bytes) (n : Z) (us : bool) : num * bool :=
  match s with
  | [] => (NumOk n, us)
  | c :: s' =>
    if is_underscore c then pu_loop base maxv cutoff s' n true
    else
      let d := if (48 <=? c) && (c <=? 57) then Some (c - 48)
               else if (97 <=? lower c) && (lower c <=? 122) then Some (lower c - 97 + 10)
               else None in
      match d with
      | None => (NumSyntax, us)
      | Some d =>
        if base <=? d then (NumSyntax, us)
        else if cutoff <=? n then (NumRange maxv, us)
        else
          let n0 := u64 (n * base) in
          let n1 := u64 (n0 + d) in
          if (n1 <? n0) || (maxv <? n1) then (NumRange maxv, us)
          else pu_loop base maxv cutoff s' n1 us
      end
  end.

(* strconv/atoi.go underscoreOK.  saw: 0 = '^', 1 = digit/prefix, 2 = '_', 3 = '!' *)
Fixpoint us_loop (hex : bool) (s : bytes) (saw : Z) : bool :=
  match s with
  | [] => negb (saw =? 2)
  | c :: s' =>
    if ((48 <=? c) && (c <=? 57)) || (hex && (97 <=? lower c) && (lower c <=? 102)) then us_loop hex s' 1
    else if is_underscore c then (if saw =? 1 then us_loop hex s' 2 else false)
    else if saw =? 2 then false
    else us_loop hex s' 3
  end.
Definition underscoreOK (s : bytes) : bool :=
  let s1 := match s with c :: s' => if (c =? 45) || (c =? 43) then s' else s | [] => s end in
  match s1 with
  | a :: b :: s' =>
      if (a =? 48) && ((lower b =? 98) || (lower b =? 111) || (lower b =? 120))
      then us_loop (lower b =? 120) s' 1
      else us_loop false s1 0
  | _ => us_loop false s1 0
  end.

(* base prefix handling of ParseUint: (base, rest)                            *)
Definition base_prefix (s : bytes) : Z * bytes :=
  match s with
  | 48 :: rest =>
      match rest with
      | b :: ((_ :: _) as s') =>
          if lower b =? 98 then (2, s')
          else if lower b =? 111 then (8, s')
          else if lower b =? 120 then (16, s')
          else (8, rest)
      | _ => (8, rest)
      end
  | _ => (10, s)
  end.

Definition ParseUint0 (s : bytes) (bits : Z) : num :=
  match s with
  | [] => NumSyntax
  | _ =>
    let (base, rest) := base_prefix s in
    let maxv := 2 ^ bits - 1 in
    let cutoff := (2 ^ 64 - 1) / base + 1 in
    match pu_loop base maxv cutoff rest 0 false with
    | (NumOk n, us) => if us && negb (underscoreOK s) then NumSyntax else NumOk n
    | (r, _) => r
    end
  end.

Definition ParseInt0 (s : bytes) (bits : Z) : num :=
  match s with
  | [] => NumSyntax
  | c :: s' =>
    let neg := c =? 45 in
    let s1 := if neg || (c =? 43) then s' else s in
    let cutoff := 2 ^ (bits - 1) in
    match ParseUint0 s1 bits with
    | NumSyntax => NumSyntax
    | NumOk un | NumRange un =>
        if negb neg && (cutoff <=? un) then NumRange (cutoff - 1)
        else if neg && (cutoff <? un) then NumRange (- cutoff)
        else NumOk (if neg then - un else un)
    end
  end.

(* ---- tags (tag_parser.go:58-70) ---- *)
(* strings.Split(s, ",") *)
Fixpoint split_comma (s : bytes) (cur : bytes) : list bytes :=
  match s with
  | [] => [rev cur]
  | c :: s' => if c =? 44 then rev cur :: split_comma s' [] else split_comma s' (c :: cur)
  end.
Definition tag_name (tag : bytes) : bytes := hd [] (split_comma tag []).
Definition tag_optional (tag : bytes) : bool :=
  existsb (fun o => beq o (str "optional")) (tl (split_comma tag [])).

(* ---- setField / processTarget ----
   Both return the updated value of the target and the outcome; on an error or
   panic the target keeps whatever was already assigned.                      *)
Definition outcome := res unit.

(* tag_parser.go:139-146: a freshly made slice, assigned only on success      *)
Fixpoint set_list (set : ben -> gval * outcome) (vs : list ben) : list gval * outcome :=
  match vs with
  | [] => ([], Ok tt)
  | v :: vs' =>
      match set v with
      | (g, Ok _) => let (gs, o) := set_list set vs' in (g :: gs, o)
      | (g, o) => ([g], o)
      end
  end.

(* tag_parser.go:170-181, in the order of the association list                *)
Fixpoint set_map (keyok : bool) (set : ben -> gval * outcome) (m : list (bytes * ben)) (acc : list (bytes * gval))
  : list (bytes * gval) * outcome :=
  match m with
  | [] => (acc, Ok tt)
  | (k, v) :: m' =>
      match set v with
      | (g, Ok _) => if keyok then set_map keyok set m' (insert k g acc) else (acc, Panic)
      | (_, o) => (acc, o)
      end
  end.

(* tag_parser.go:91-187 (setField, after the pointer prologue) and 44-89 (the
   field loop of processTarget, reached with a struct value).                  *)
Fixpoint set_field (t : gty) (old : gval) (v : ben) {struct t} : gval * outcome :=
  match t with
  | TPtr t' =>
      let cur := match old with VPtr (Some g) => g | _ => zero t' end in
      match t' with
      | TPtr _ => (VPtr (Some cur), Err "unsupported bencode type")
      | _ => let (g, o) := set_field t' cur v in (VPtr (Some g), o)
      end
  | TString =>
      match v with BNil => (old, Panic) | _ => (VString (String_ v), Ok tt) end
  | TInt bits =>
      match v with
      | BNil => (old, Panic)
      | _ => match ParseInt0 (String_ v) bits with
             | NumOk n => (VInt n, Ok tt)
             | _ => (old, Err "TypeError")
             end
      end
  | TUint bits =>
      match v with
      | BNil => (old, Panic)
      | _ => match ParseUint0 (String_ v) bits with
             | NumOk n => (VInt n, Ok tt)
             | _ => (old, Err "NumError")
             end
      end
  | TSlice t' =>
      if is_u8 t' then
        match v with BNil => (old, Panic) | _ => (VBytes (Raw v), Ok tt) end
      else
        match v with
        | BNil => (old, Panic)
        | BList true vs _ =>
            match set_list (set_field t' (zero t')) vs with
            | (gs, Ok _) => (VSlice gs, Ok tt)
            | (_, o) => (old, o)
            end
        | _ => (old, Err "TypeError")
        end
  | TStruct fs =>
      match v with
      | BNil => (old, Panic)
      | BDict true m _ =>
          let go := fix go (fs : list (bytes * bool * gty)) (olds : list gval) : list gval * outcome :=
            match fs, olds with
            | (tag, canset, ft) :: fs', o :: olds' =>
                if negb canset || beq tag [] then
                  let (gs, r) := go fs' olds' in (o :: gs, r)
                else
                  match lookup (tag_name tag) m with
                  | None | Some BNil =>
                      if tag_optional tag then let (gs, r) := go fs' olds' in (o :: gs, r)
                      else (o :: olds', Err "Required ben field not found")
                  | Some value =>
                      match set_field ft o value with
                      | (g, Ok _) => let (gs, r) := go fs' olds' in (g :: gs, r)
                      | (g, r) => (g :: olds', r)
                      end
                  end
            | _, _ => (olds, Ok tt)
            end in
          match old with
          | VStruct olds => let (gs, r) := go fs olds in (VStruct gs, r)
          | _ => (old, Ok tt)          (* ill-typed value, excluded by typing *)
          end
      | _ => (old, Err "TypeError")
      end
  | TMap keyok t' =>
      match v with
      | BNil => (old, Panic)
      | BDict true m _ =>
          match set_map keyok (set_field t' (zero t')) m [] with
          | (acc, Ok _) => (VMap acc, Ok tt)
          | (_, o) => (old, o)
          end
      | _ => (old, Err "TypeError")
      end
  | TOther => (old, Err "unsupported bencode type")
  end.

(* tag_parser.go:44-89.  A target is a pointer to a struct (fields and current
   value) or anything else.  With a non-dictionary element the first settable
   tagged field panics.                                                        *)
Inductive target := TgtStruct (fs : list (bytes * bool * gty)) (vs : list gval) | TgtOther.

Definition has_tagged (fs : list (bytes * bool * gty)) : bool :=
  existsb (fun f => let '(tag, canset, _) := f in canset && negb (beq tag [])) fs.

Definition processTarget (t : target) (v : ben) : gval * outcome :=
  match t with
  | TgtOther => (VOther, Err "bencode: pointer to struct expected as target")
  | TgtStruct fs vs =>
      match v with
      | BDict true _ _ => set_field (TStruct fs) (VStruct vs) v
      | _ => (VStruct vs, if has_tagged fs then Panic else Ok tt)
      end
  end.

(* tag_parser.go:35-42 *)
Definition Unmarshal (data : bytes) (t : target) : gval * outcome :=
  let unchanged := match t with TgtStruct _ vs => VStruct vs | _ => VOther end in
  match Parse data with
  | Ok e => processTarget t e
  | Err m => (unchanged, Err m)
  | Panic => (unchanged, Panic)
  | Diverge => (unchanged, Diverge)
  end.

(* ---- Metainfo (tag_parser.go:189-192, 202-218) ---- *)
Definition fld (tag : bytes) (t : gty) : bytes * bool * gty := (tag, true, t).
Definition TorrentFile_ty : gty :=
  TStruct [fld (str "path") (TSlice TString); fld (str "length") (TInt 64)].
Definition Info_ty : gty :=
  TStruct [fld (str "files,optional") (TSlice TorrentFile_ty);
           fld (str "length,optional") (TInt 64);
           fld (str "name") TString;
           fld (str "piece length") (TInt 64);
           fld (str "pieces") TString].
Definition Metainfo_fields : list (bytes * bool * gty) :=
  [fld (str "announce") TString;
   fld (str "announce-list,optional") (TSlice (TSlice TString));
   fld (str "url-list,optional") (TSlice TString);
   fld (str "info") Info_ty;
   fld (str "info") (TSlice (TUint 8));
   fld (str "comment,optional") TString;
   fld (str "created by,optional") TString;
   fld (str "creation date,optional") (TInt 64);
   fld (str "encoding,optional") TString].

(* a fresh Metainfo, and its InfoDictRaw field                                 *)
Definition Metainfo_zero : list gval := map (fun f => zero (snd f)) Metainfo_fields.
Definition UnmarshalMetainfo (data : bytes) : gval * outcome :=
  Unmarshal data (TgtStruct Metainfo_fields Metainfo_zero).
Definition InfoDictRaw (g : gval) : bytes :=
  match g with VStruct vs => match nth 4 vs VOther with VBytes b => b | _ => [] end | _ => [] end.

(* tag_parser.go:281-285; sha1 is any function                                 *)
Definition Hash (sha1 : bytes -> bytes) (g : gval) : bytes := sha1 (InfoDictRaw g).
