(* Theorems about bencode.Unmarshal and Metainfo (properties C09-C12). *)
From Verif Require Import Base ModelBencode SpecText SpecBencode ModelUnmarshal SpecUnmarshal ProofBase ProofBencode
  ProofBencodeGrammar ProofBencodeMore ProofNum ProofUnmarshal ProofUnmarshalMore.

(* ---------- C09 ---------- *)
(* After a successful Unmarshal an integer field holds the number of the
   document, and that number fits the field's type. *)
Theorem C09_unmarshal_int_field :
  forall d fs vs g i tag b key opt m raw n,
    fits d -> widths (TStruct fs) -> typed (TStruct fs) (VStruct vs) ->
    Unmarshal d (TgtStruct fs vs) = (g, Ok tt) -> Parse d = Ok (BDict true m raw) ->
    tag <> [] -> tag_means tag key opt -> lookup key m = Some (BInt n) ->
    (nth_error fs i = Some (tag, true, TInt b) -> field_of g i = Some (VInt n) /\ - 2 ^ (b - 1) <= n < 2 ^ (b - 1)) /\
    (nth_error fs i = Some (tag, true, TUint b) -> field_of g i = Some (VInt n) /\ 0 <= n < 2 ^ b).
Proof. exact unmarshal_int_field. Qed.

(* One field, an integer element: stored exactly when it fits, else an error and
   the field keeps its value. *)
Theorem C09_int_element_stored_iff_fits :
  forall b old n, width b ->
    (- 2 ^ (b - 1) <= n < 2 ^ (b - 1) -> set_field (TInt b) old (BInt n) = (VInt n, Ok tt)) /\
    (~ - 2 ^ (b - 1) <= n < 2 ^ (b - 1) -> exists e, set_field (TInt b) old (BInt n) = (old, Err e)) /\
    (0 <= n < 2 ^ b -> set_field (TUint b) old (BInt n) = (VInt n, Ok tt)) /\
    (~ 0 <= n < 2 ^ b -> exists e, set_field (TUint b) old (BInt n) = (old, Err e)).
Proof. exact set_int_element. Qed.

(* One field, any element: its text is read as a Go integer literal. *)
Theorem C09_signed_field_exact :
  forall b old v, width b -> v <> BNil ->
    (exists n, int_literal (text v) n /\ - 2 ^ (b - 1) <= n < 2 ^ (b - 1) /\ set_field (TInt b) old v = (VInt n, Ok tt)) \/
    ((~ exists n, int_literal (text v) n /\ - 2 ^ (b - 1) <= n < 2 ^ (b - 1)) /\ exists e, set_field (TInt b) old v = (old, Err e)).
Proof. exact set_int_total. Qed.

Theorem C09_unsigned_field_exact :
  forall b old v, width b -> v <> BNil ->
    (exists n, magnitude (text v) n /\ 0 <= n < 2 ^ b /\ set_field (TUint b) old v = (VInt n, Ok tt)) \/
    ((~ exists n, magnitude (text v) n /\ 0 <= n < 2 ^ b) /\ exists e, set_field (TUint b) old v = (old, Err e)).
Proof. exact set_uint_total. Qed.

(* a literal denotes at most one number *)
Theorem C09_literal_unique : forall s n m, int_literal s n -> int_literal s m -> n = m.
Proof. exact int_literal_fun. Qed.

Example C09_ex :
  set_field (TInt 8) (VInt 7) (BInt 127) = (VInt 127, Ok tt) /\
  set_field (TInt 8) (VInt 7) (BInt 128) = (VInt 7, Err "TypeError") /\
  set_field (TUint 16) (VInt 7) (BStr (str "0xFF_ff")) = (VInt 65535, Ok tt) /\
  set_field (TUint 16) (VInt 7) (BStr (str "65536")) = (VInt 7, Err "NumError") /\
  Unmarshal (str "d1:ni300ee") (TgtStruct [fld (str "n") (TInt 16)] [VInt 7]) = (VStruct [VInt 300], Ok tt) /\
  Unmarshal (str "d1:ni300ee") (TgtStruct [fld (str "n") (TInt 8)] [VInt 7]) = (VStruct [VInt 7], Err "TypeError").
Proof. vm_compute. repeat split. Qed.

(* ---------- C10 ---------- *)
(* Success, and its result, are exactly those of the specified conversion. *)
Theorem C10_unmarshal_exact :
  forall d fs vs g, fits d -> widths (TStruct fs) -> typed (TStruct fs) (VStruct vs) -> has_tagged fs = true ->
    (Unmarshal d (TgtStruct fs vs) = (g, Ok tt) <->
     exists m raw news, Parse d = Ok (BDict true m raw) /\ conv_fields m fs vs news /\ g = VStruct news).
Proof. exact unmarshal_exact. Qed.

Theorem C10_missing_required_key_fails :
  forall d fs vs m raw tag t key,
    fits d -> widths (TStruct fs) -> typed (TStruct fs) (VStruct vs) -> string_keys (TStruct fs) ->
    Parse d = Ok (BDict true m raw) -> In (tag, true, t) fs -> tag <> [] -> tag_means tag key false -> lookup key m = None ->
    exists e, snd (Unmarshal d (TgtStruct fs vs)) = Err e.
Proof. exact unmarshal_missing. Qed.

(* whatever the outcome: fields that cannot be set, have no tag, or whose
   optional key is missing keep their value *)
Theorem C10_untouched_fields :
  forall d fs vs i tag canset t,
    nth_error fs i = Some (tag, canset, t) ->
    canset = false \/ tag = [] \/
      (exists key, tag_means tag key true /\ forall m raw, Parse d = Ok (BDict true m raw) -> absent m key) ->
    field_of (fst (Unmarshal d (TgtStruct fs vs))) i = nth_error vs i.
Proof. exact unmarshal_untouched. Qed.

(* on success every present field holds the converted value *)
Theorem C10_present_field_converted :
  forall d fs vs g i tag t key opt m raw v,
    fits d -> widths (TStruct fs) -> typed (TStruct fs) (VStruct vs) ->
    Unmarshal d (TgtStruct fs vs) = (g, Ok tt) -> Parse d = Ok (BDict true m raw) ->
    nth_error fs i = Some (tag, true, t) -> tag <> [] -> tag_means tag key opt -> lookup key m = Some v ->
    exists o g', nth_error vs i = Some o /\ field_of g i = Some g' /\ conv t o v g'.
Proof. exact unmarshal_field. Qed.

Example C10_ex :
  let fs := [fld (str "a") TString; fld (str "b,optional") (TInt 64); ([], true, TString); (str "a", false, TString);
             fld (str "l") (TSlice (TPtr (TInt 8)))] in
  let vs := [VString []; VInt 5; VString (str "keep"); VString (str "keep2"); VSlice []] in
  widths (TStruct fs) /\ typed (TStruct fs) (VStruct vs) /\ string_keys (TStruct fs) /\ has_tagged fs = true /\
  Unmarshal (str "d1:a2:xy1:lli1ei2eee") (TgtStruct fs vs) =
    (VStruct [VString (str "xy"); VInt 5; VString (str "keep"); VString (str "keep2"); VSlice [VPtr (Some (VInt 1)); VPtr (Some (VInt 2))]], Ok tt) /\
  Unmarshal (str "d1:a2:xye") (TgtStruct fs vs) =
    (VStruct [VString (str "xy"); VInt 5; VString (str "keep"); VString (str "keep2"); VSlice []], Err "Required ben field not found").
Proof. cbv zeta. repeat split; try (cbn; unfold width; auto; fail); vm_compute; reflexivity. Qed.
Example C10_ex_tag : tag_means (str "b,omitempty,optional") (str "b") true /\ tag_means (str "b") (str "b") false.
Proof. split; apply tag_means_iff; split; reflexivity. Qed.

(* ---------- C11 ---------- *)
(* The full claim "Parse d = Ok e -> snd (Unmarshal d t) <> Panic" is false: *)
Theorem C11_unmarshal_no_panic_refuted :
  ~ (forall d e fs vs, Parse d = Ok e -> string_keys (TStruct fs) -> snd (Unmarshal d (TgtStruct fs vs)) <> Panic).
Proof.
  intros H. apply (H (str "i5e") (BInt 5) Metainfo_fields Metainfo_zero); [reflexivity| |reflexivity].
  apply metainfo_hyps.
Qed.

(* Exactly when it panics: the data makes Parse panic, or it is not a dictionary
   and the struct has a settable tagged field. *)
Theorem C11_unmarshal_panics_exact :
  forall d fs vs, fits d -> string_keys (TStruct fs) ->
    (snd (Unmarshal d (TgtStruct fs vs)) = Panic <->
     Parse d = Panic \/ (has_tagged fs = true /\ exists e, Parse d = Ok e /\ forall m raw, e <> BDict true m raw)).
Proof. exact unmarshal_panics. Qed.

Theorem C11_unmarshal_no_panic_partial :
  forall d fs vs m raw, fits d -> string_keys (TStruct fs) -> Parse d = Ok (BDict true m raw) ->
    snd (Unmarshal d (TgtStruct fs vs)) = Ok tt \/ exists e, snd (Unmarshal d (TgtStruct fs vs)) = Err e.
Proof.
  intros d fs vs m raw Hf Hs Hp. destruct (unmarshal_fine d fs vs m raw Hf Hs Hp) as [[[] E]|E]; auto.
Qed.

Example C11_ex :
  snd (UnmarshalMetainfo (str "le")) = Panic /\ snd (UnmarshalMetainfo (str "de")) = Err "Required ben field not found".
Proof. vm_compute. auto. Qed.

(* ---------- C12 ---------- *)
(* The info entry that counts exists in the file, and the hash is the hash of its bytes *)
Theorem C12_info_hash_is_hash_of_file_bytes :
  forall d g, fits d -> UnmarshalMetainfo d = (g, Ok tt) ->
    exists b1 es1 kw w m b2 es2 post, info_entry d b1 es1 kw w m b2 es2 post /\ forall sha1, Hash sha1 g = sha1 w.
Proof. exact info_hash_located. Qed.

(* however the file is laid out around it *)
Theorem C12_info_hash_for_every_layout :
  forall d g b1 es1 kw w m b2 es2 post sha1, fits d -> info_entry d b1 es1 kw w m b2 es2 post ->
    UnmarshalMetainfo d = (g, Ok tt) -> Hash sha1 g = sha1 w.
Proof. exact info_hash_every. Qed.

Example C12_ex :
  let d := str "d8:announce3:url4:infod4:name1:n12:piece lengthi16384e6:pieces0:1:xi1ee4:zzzzi9ee" in
  snd (UnmarshalMetainfo d) = Ok tt /\
  Hash (fun x => x) (fst (UnmarshalMetainfo d)) = str "d4:name1:n12:piece lengthi16384e6:pieces0:1:xi1ee".
Proof. vm_compute. auto. Qed.

Print Assumptions C09_unmarshal_int_field.
Print Assumptions C09_int_element_stored_iff_fits.
Print Assumptions C09_signed_field_exact.
Print Assumptions C09_unsigned_field_exact.
Print Assumptions C09_literal_unique.
Print Assumptions C10_unmarshal_exact.
Print Assumptions C10_missing_required_key_fails.
Print Assumptions C10_untouched_fields.
Print Assumptions C10_present_field_converted.
Print Assumptions C11_unmarshal_no_panic_refuted.
Print Assumptions C11_unmarshal_panics_exact.
Print Assumptions C11_unmarshal_no_panic_partial.
Print Assumptions C12_info_hash_is_hash_of_file_bytes.
Print Assumptions C12_info_hash_for_every_layout.
