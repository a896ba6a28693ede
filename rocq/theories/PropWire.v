(* Theorems about the bytes of the messages we can write (property C99; requests: C14). *)
From Verif Require Import Base ModelBitset ModelMsg SpecMsg SpecWire ProofMsg ProofWire.

(* ---------- C99 ---------- *)
Theorem C99_signals :
  Send KeepalivePeerMessage = keepalive_frame /\ Send CreateChokeMessage = choke_frame /\ Send CreateUnchokeMessage = unchoke_frame /\
  Send CreateInterestedMessage = interested_frame /\ Send createNotInterestedMessage = not_interested_frame.
Proof. repeat split. Qed.
Theorem C99_have : forall index, is_u32 index -> Send (createHaveMessage index) = have_frame index.
Proof. intros index _. apply have_wire. Qed.
(* The full claim for cancel: the bytes of cancel_frame; it holds for one cancel only. *)
Theorem C99_cancel_refuted :
  ~ (forall index begin length, is_u32 index -> is_u32 begin -> is_u32 length -> Send (createCancelMessage index begin length) = cancel_frame index begin length).
Proof. intros H. specialize (H 1 2 3). unfold is_u32 in H. specialize (H ltac:(lia) ltac:(lia) ltac:(lia)). vm_compute in H. discriminate. Qed.
Theorem C99_cancel_exact :
  forall index begin length, is_u32 index -> is_u32 begin -> is_u32 length ->
    Send (createCancelMessage index begin length) = be32 13 ++ [8] ++ be32 length ++ repeat 0 8 /\
    (Send (createCancelMessage index begin length) = cancel_frame index begin length <-> index = 0 /\ begin = 0 /\ length = 0).
Proof. intros i o b Hi Ho Hb. split; [apply cancel_wire|now apply cancel_right_iff]. Qed.
(* The full claim for bitfield: is_bitfield_frame b (Send (createBitfieldMessage b)); it never holds. *)
Theorem C99_bitfield_refuted : forall b, is_u32 (bs_len b + 1) -> ~ is_bitfield_frame b (Send (createBitfieldMessage b)).
Proof. exact bitfield_never. Qed.
(* the header is written twice, the length counts bits, and the pieces are in words with the first piece last *)
Theorem C99_bitfield_exact :
  forall b, is_u32 (bs_len b + 1) -> exists ws,
    Send (createBitfieldMessage b) = be32 (bs_len b + 1) ++ [5] ++ be32 (bs_len b + 1) ++ [5] ++ flat_map be64 ws /\
    zlen ws = (bs_len b + 63) / 64 /\ forall i, 0 <= i < bs_len b -> Z.testbit (nth (Z.to_nat (i / 64)) ws 0) (i mod 64) = bs_test b i.
Proof. intros b H. exists (bs_words b). split; [now apply bitfield_wire|]. split; [apply words_zlen|apply words_bit]. Qed.
(* so the length announced is the number of bytes that follow for 13 pieces only *)
Theorem C99_bitfield_in_step_exact :
  forall b, is_u32 (bs_len b + 1) -> (zlen (Send (createBitfieldMessage b)) = 4 + (bs_len b + 1) <-> bs_len b = 13).
Proof. exact bitfield_13. Qed.
Example C99_ex :
  Send (createHaveMessage 258) = [0; 0; 0; 5; 4; 0; 0; 1; 2] /\ Send CreateUnchokeMessage = [0; 0; 0; 1; 1] /\
  Send (createBitfieldMessage [true; false; true]) = [0; 0; 0; 4; 5; 0; 0; 0; 4; 5; 0; 0; 0; 0; 0; 0; 0; 5] /\
  is_bitfield_frame [true; false; true] [0; 0; 0; 2; 5; 160] /\ is_u32 (bs_len [true; false; true] + 1).
Proof.
  split; [reflexivity|]. split; [reflexivity|]. split; [vm_compute; reflexivity|]. split; [|unfold is_u32, bs_len, zlen; cbn [length]; lia].
  exists [160]. split; [reflexivity|]. split; [reflexivity|]. split; [repeat constructor; unfold is_byte; lia|].
  intros i Hi. change (8 * zlen [160]) with 8 in Hi.
  assert (i = 0 \/ i = 1 \/ i = 2 \/ i = 3 \/ i = 4 \/ i = 5 \/ i = 6 \/ i = 7) as [->|[->|[->|[->|[->|[->|[->| ->]]]]]]] by lia; reflexivity.
Qed.

Print Assumptions C99_signals.
Print Assumptions C99_have.
Print Assumptions C99_cancel_refuted.
Print Assumptions C99_cancel_exact.
Print Assumptions C99_bitfield_refuted.
Print Assumptions C99_bitfield_exact.
Print Assumptions C99_bitfield_in_step_exact.
