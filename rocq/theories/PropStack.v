(* C127: deeply nested data (the stack of the parser). *)
From Verif Require Import Base ModelBencode SpecBencode SpecCmd ModelStack SpecStack ProofBencode ProofStack.

(* Full property: there is a size of the stack with which the parser reads every document.
   Refuted: for every size a document of 2(n+1) bytes exceeds it, though it is bencode and
   has a value.                                                                 *)
Theorem C127_stack_refuted : ~ exists n, Z.of_nat n < MAXN / 2 /\ forall d e, denotes d e -> fits d -> overflows n d = false.
Proof. exact overflow_refuted. Qed.
Theorem C127_size_exact n : Z.of_nat n < MAXN / 2 -> exists d e, zlen d = 2 * (Z.of_nat n + 1) /\ denotes d e /\ Parse d = Ok e /\ overflows n d = true.
Proof. exact (overflow_some n). Qed.
(* What holds: data no longer than the stack is deep are read. *)
Theorem C127_stack_partial n d : fits d -> (length d <= n)%nat -> overflows n d = false.
Proof. exact (overflow_short n d). Qed.
(* Exactly the data on which n nested calls do not suffice; they need not be bencode. *)
Theorem C127_overflow_exact n d : fits d -> (overflows n d = true <-> deep n d).
Proof. exact (overflow_exact n d). Qed.
(* Every element that is deep needs the stack, and any dictionary becomes so by one entry
   that its reader does not look at.                                            *)
Theorem C127_value_exact n d e : fits d -> Parse d = Ok e -> (n < nesting e)%nat -> overflows n d = true.
Proof. exact (value_deep n d e). Qed.
Theorem C127_entry_exact n body m raw k : wdenotes ([100] ++ body ++ [101]) (BDict true m raw) -> let d := [100] ++ body ++ str "1:" ++ [k] ++ boxes (S n) ++ [101] in fits d ->
  overflows n d = true /\ exists x, Parse d = Ok (BDict true (insert [k] x m) d) /\ (n < nesting x)%nat.
Proof. exact (overflow_extra n body m raw k). Qed.

Example C127_ex : overflows 2 (str "d1:alli1eeee") = true /\ overflows 3 (str "d1:alli1eeee") = false /\ overflows 3 (str "li1elelll") = true /\ overflows 3 (str "li1exlll") = false /\
  overflows 2 (str "d1:ad1:bd1:c") = true /\ overflows 1 (str "lelll") = false.
Proof. repeat split. Qed.
Example C127_ex_deep : deep 2 (str "li1elelll").
Proof.
  apply (dp_list 1 (str "i1ele") [BInt 1; BList true [] (str "le")] (str "lll")); [|apply (dp_list 0 [] [] (str "ll")); [constructor|constructor; auto]].
  apply (items_cons _ (str "i1e") (BInt 1) (str "le")); [apply (den_int _ (str "1")); [repeat constructor; unfold digit; cbn; Lia.lia|reflexivity]|].
  apply (items_cons _ (str "le") _ []); [exact (den_list _ [] [] (items_nil _))|constructor].
Qed.
Example C127_ex_entry : exists d x, fits d /\ overflows 40 d = true /\ Parse d = Ok (BDict true (insert (str "x") x [(str "a", BInt 7)]) d).
Proof.
  destruct (overflow_extra 40 (str "1:ai7e") [(str "a", BInt 7)] (str "d1:ai7ee") 120) as (H1 & x & H2 & _).
  - apply (den_dict _ (str "1:ai7e") [(str "a", BInt 7)]). apply (entries_cons _ (str "1:a") (str "a") (str "i7e") (BInt 7) []); [| |constructor].
    + apply (den_str _ (str "1") (str "a")); [repeat constructor; unfold digit; cbn; Lia.lia|reflexivity].
    + apply (den_int _ (str "7")); [repeat constructor; unfold digit; cbn; Lia.lia|reflexivity].
  - vm_compute. discriminate.
  - eexists _, x. split; [|split; [exact H1|exact H2]]. vm_compute. discriminate.
Qed.

Print Assumptions C127_stack_refuted.
Print Assumptions C127_size_exact.
Print Assumptions C127_stack_partial.
Print Assumptions C127_overflow_exact.
Print Assumptions C127_value_exact.
Print Assumptions C127_entry_exact.
