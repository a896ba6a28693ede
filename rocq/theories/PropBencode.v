(* Theorems about bencode.Parse / Encode (properties C01-C08). *)
From Coq Require Import Permutation.
From Verif Require Import Base ModelBencode SpecBencode ProofBase ProofBencode ProofBencodeGrammar ProofBencodeMore.

(* ---------- C01 ---------- *)
(* The parser's fuel is never exhausted: recursion and loops end by themselves. *)
Theorem C01_parse_terminates : forall d, Parse d <> Diverge.
Proof. exact parse_terminates. Qed.

Example C01_ex : Parse (str "lllli1eee") = Err "element not ended with 'e'".
Proof. vm_compute. reflexivity. Qed.

(* ---------- C02 ---------- *)
(* The full claim "for every d, Parse d <> Panic" is false. *)
Theorem C02_parse_no_panic_refuted : ~ (forall d, Parse d <> Panic).
Proof. intros H. apply (H (str "9223372036854775807:")). vm_compute. reflexivity. Qed.

(* What holds: a panic needs a string length whose digits overflow to a
   negative number; data without numbers above 922337203685477580 never panics. *)
Theorem C02_parse_no_panic_partial :
  forall d, fits d ->
    (Parse d = Panic -> exists a ds b, d = a ++ ds ++ [58] ++ b /\ digits ds /\ machine_val ds < 0) /\
    (small_numbers d -> Parse d <> Panic).
Proof.
  intros d Hf. split.
  - intros H. pose proof (parse_case d Hf) as G. rewrite H in G. exact G.
  - intros Hs. apply parse_no_panic_small; assumption.
Qed.

(* and every such length at the start of the data does panic *)
Theorem C02_parse_panics_exact :
  forall ds t, fits (ds ++ [58] ++ t) -> digits ds -> machine_val ds < 0 -> Parse (ds ++ [58] ++ t) = Panic.
Proof. exact parse_panics_head. Qed.

Example C02_ex : machine_val (str "9223372036854775807") = -1 /\ Parse (str "d3:key5:val") = Err "string length invalid".
Proof. vm_compute. auto. Qed.

(* ---------- C03 ---------- *)
Theorem C03_parse_accepts_exactly_bencode :
  forall d e, small_numbers d -> fits d ->
    (Parse d = Ok e <-> exists w post, d = w ++ post /\ denotes w e).
Proof. intros d e Hs Hf. apply parse_iff_small; assumption. Qed.

(* Without the restriction on numbers: the same grammar with wrapped numbers. *)
Theorem C03_parse_accepts_exactly_wrapped :
  forall d e, fits d -> (Parse d = Ok e <-> exists w post, d = w ++ post /\ wdenotes w e).
Proof. intros d e Hf. apply parse_iff; assumption. Qed.

(* The grammar is unambiguous: the denoted value is unique. *)
Theorem C03_grammar_unambiguous :
  forall w1 e1 p1 w2 e2 p2, fits (w1 ++ p1) -> denotes w1 e1 -> denotes w2 e2 -> w1 ++ p1 = w2 ++ p2 -> w1 = w2 /\ e1 = e2.
Proof. intros. eapply wdenotes_unique; eauto using denotes_wdenotes. Qed.

Example C03_ex :
  Parse (str "d1:ali7e2:xye1:b0:eTAIL") =
  Ok (BDict true [(str "a", BList true [BInt 7; BStr (str "xy")] (str "li7e2:xye")); (str "b", BStr [])]
                 (str "d1:ali7e2:xye1:b0:e")).
Proof. vm_compute. reflexivity. Qed.

(* ---------- C04 ---------- *)
Theorem C04_raw_is_own_bytes :
  forall d e x, fits d -> Parse d = Ok e -> inside x e ->
    match x with BList _ _ _ | BDict _ _ _ => True | _ => False end ->
    exists a b, d = a ++ Raw x ++ b /\ Parse (Raw x) = Ok x.
Proof. exact raw_exact. Qed.

Theorem C04_raw_top_level :
  forall d e, fits d -> Parse d = Ok e -> match e with BList _ _ _ | BDict _ _ _ => True | _ => False end ->
    exists post, d = Raw e ++ post.
Proof. exact raw_top. Qed.

Example C04_ex :
  let x := BList true [BInt 7] (str "li7ee") in
  exists e, Parse (str "d1:ali7eee") = Ok e /\ inside x e /\ Raw x = str "li7ee".
Proof.
  eexists. split; [vm_compute; reflexivity|]. split; [|reflexivity].
  eapply in_dict; [left; reflexivity|]. apply in_here.
Qed.

(* ---------- C05 ---------- *)
Theorem C05_encode_parse_round_trip :
  forall e w, encodable e -> encodes e w -> fits w -> exists r, Parse w = Ok r /\ same_value e r.
Proof. exact round_trip. Qed.

Theorem C05_round_trip_fails_outside_range :
  forall n w, - 2 ^ 63 <= n < 2 ^ 63 -> ~ 0 <= n <= MAXN -> encodes (BInt n) w -> Parse w <> Ok (BInt n).
Proof. exact int_no_round_trip. Qed.

(* every non-nil element has an encoding *)
Theorem C05_encode_total : forall e, e <> BNil -> exists w, Encode e = Ok w /\ encodes e w.
Proof.
  intros e He. exists (encode e). split; [destruct e; congruence || reflexivity|apply encode_encodes; assumption].
Qed.

Example C05_ex :
  let e := Generate (Add (Add (Add NewDictBuilder (str "b") (BInt 42)) (str "a") (List_ [BStr (str "x"); BNil])) (str "z") BNil) in
  encodes e (str "d1:al1:xe1:bi42ee") /\ encodes e (str "d1:bi42e1:al1:xee") /\
  Parse (str "d1:bi42e1:al1:xee") = Ok (BDict true [(str "b", BInt 42); (str "a", BList true [BStr (str "x")] (str "l1:xe"))] (str "d1:bi42e1:al1:xee")).
Proof.
  cbv zeta. split; [|split; [|vm_compute; reflexivity]].
  - change (str "d1:al1:xe1:bi42ee") with (100 :: str "1:al1:xe1:bi42e" ++ [101]).
    apply enc_dict with (m' := [(str "a", List_ [BStr (str "x"); BNil]); (str "b", BInt 42); (str "z", BNil)]).
    + vm_compute. apply perm_swap.
    + change (str "1:al1:xe1:bi42e") with (str "1:a" ++ str "l1:xe" ++ str "1:b" ++ str "i42e" ++ []).
      constructor; [constructor| |constructor; [constructor|constructor|repeat constructor]].
      apply enc_list with (w := str "1:x" ++ []). constructor; [constructor|repeat constructor].
  - match goal with |- encodes ?e _ => pose proof (encode_encodes e) as G end.
    vm_compute in G |- *. apply G. discriminate.
Qed.

(* ---------- C06 ---------- *)
Theorem C06_last_duplicate_wins :
  forall d body es post, fits d -> den_entries wrapped_val body es -> d = [100] ++ body ++ [101] ++ post ->
    exists e, Parse d = Ok e /\
      forall k, Value e k = match last_binding k es with Some v => v | None => BNil end.
Proof. exact last_wins. Qed.

Example C06_ex :
  exists e, Parse (str "d1:ai1e1:bi2e1:ai3ee") = Ok e /\ Value e (str "a") = BInt 3 /\ Value e (str "c") = BNil.
Proof. eexists. split; [vm_compute; reflexivity|]. split; vm_compute; reflexivity. Qed.

(* ---------- C07 ---------- *)
Theorem C07_truncation_detected :
  forall w e p q, fits w -> denotes w e -> w = p ++ q -> q <> [] -> exists msg, Parse p = Err msg.
Proof. intros. eapply truncated; eauto using denotes_wdenotes. Qed.

Example C07_ex :
  denotes (str "li12ee") (BList true [BInt 12] (str "li12ee")) /\ Parse (str "li12e") = Err "element not ended with 'e'".
Proof.
  split; [|vm_compute; reflexivity].
  change (str "li12ee") with ([108] ++ (str "i12e" ++ []) ++ [101]). constructor. constructor; [|constructor].
  change (str "i12e") with ([105] ++ str "12" ++ [101]). constructor; [|reflexivity].
  repeat constructor; unfold digit; cbn; lia.
Qed.

(* ---------- C08 ---------- *)
Theorem C08_only_first_element :
  forall d e post, fits (d ++ post) -> Parse d = Ok e -> Parse (d ++ post) = Ok e.
Proof. exact parse_suffix. Qed.

Example C08_ex : Parse (str "i5e") = Ok (BInt 5) /\ Parse (str "i5e" ++ str "garbage") = Ok (BInt 5).
Proof. vm_compute. auto. Qed.

Print Assumptions C01_parse_terminates.
Print Assumptions C02_parse_no_panic_refuted.
Print Assumptions C02_parse_no_panic_partial.
Print Assumptions C02_parse_panics_exact.
Print Assumptions C03_parse_accepts_exactly_bencode.
Print Assumptions C03_parse_accepts_exactly_wrapped.
Print Assumptions C03_grammar_unambiguous.
Print Assumptions C04_raw_is_own_bytes.
Print Assumptions C04_raw_top_level.
Print Assumptions C05_encode_parse_round_trip.
Print Assumptions C05_round_trip_fails_outside_range.
Print Assumptions C05_encode_total.
Print Assumptions C06_last_duplicate_wins.
Print Assumptions C07_truncation_detected.
Print Assumptions C08_only_first_element.
