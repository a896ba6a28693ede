(* Theorems about peer messages (properties C13-C17). *)
From Verif Require Import Base ProofBase ModelBitset ModelMsg SpecMsg ProofMsg.

(* ---------- C13 ---------- *)
(* The full claim
     forall body m, is_u32 (zlen body) -> NewPeerMessage body = Ok m -> Send m = frame body
   is false for bodies of the unassigned type 99: *)
Theorem C13_frame_round_trip_refuted :
  ~ (forall body m, is_u32 (zlen body) -> NewPeerMessage body = Ok m -> Send m = frame body).
Proof.
  intros H. assert (Hu : is_u32 (zlen [99; 1])) by (unfold is_u32, zlen; cbn [length]; lia).
  destruct (NewPeerMessage [99; 1]) as [m| | |] eqn:E; try discriminate.
  specialize (H [99; 1] m Hu E). vm_compute in E. inversion E; subst. vm_compute in H. discriminate.
Qed.

(* every other decoded message is written back byte for byte *)
Theorem C13_frame_round_trip_partial :
  forall body m, is_u32 (zlen body) -> NewPeerMessage body = Ok m -> hd 0 body <> 99 -> Send m = frame body.
Proof. exact send_new. Qed.

(* and type 99 loses its whole body *)
Theorem C13_type_99_exact :
  forall r m, is_u32 (zlen (99 :: r)) -> NewPeerMessage (99 :: r) = Ok m -> Send m = be32 (1 + zlen r).
Proof. exact send_new_99. Qed.

Example C13_ex :
  exists m, NewPeerMessage [4; 0; 0; 1; 2] = Ok m /\ Send m = [0; 0; 0; 5; 4; 0; 0; 1; 2].
Proof. eexists. split; reflexivity. Qed.

(* ---------- C14 ---------- *)
(* The full claim is false: the payload holds the block length followed by zeros. *)
Theorem C14_request_bytes_refuted :
  ~ (forall index offset blen, is_u32 index -> is_u32 offset -> is_u32 blen ->
       Send (CreatePieceMessage index offset blen) = request_frame index offset blen).
Proof.
  intros H. specialize (H 1 2 3). unfold is_u32 in H.
  specialize (H ltac:(lia) ltac:(lia) ltac:(lia)). vm_compute in H. discriminate.
Qed.

Theorem C14_request_bytes_exact :
  forall index offset blen, Send (CreatePieceMessage index offset blen) = be32 13 ++ [6] ++ be32 blen ++ repeat 0 8.
Proof. exact request_wire. Qed.

(* so it is the right request only for the meaningless all-zero one *)
Theorem C14_request_right_only_for_zeros :
  forall index offset blen, is_u32 index -> is_u32 offset -> is_u32 blen ->
    (Send (CreatePieceMessage index offset blen) = request_frame index offset blen <-> index = blen /\ offset = 0 /\ blen = 0).
Proof. exact request_right_iff. Qed.

(* what does hold: the accessors *)
Theorem C14_request_accessors_partial :
  forall index offset blen, let m := CreatePieceMessage index offset blen in
    m_index m = index /\ m_offset m = offset /\ m_blen m = blen /\ m_type m = 6 /\ zlen (Send m) = 17.
Proof. intros. repeat split. Qed.

Example C14_ex : Send (CreatePieceMessage 7 131072 131072) = [0;0;0;13; 6; 0;2;0;0; 0;0;0;0; 0;0;0;0].
Proof. vm_compute. reflexivity. Qed.

(* ---------- C15 ---------- *)
Theorem C15_decode_no_panic_refuted : ~ (forall body, NewPeerMessage body <> Panic).
Proof. intros H. apply (H [4; 0]). reflexivity. Qed.

(* It panics exactly on have/request/cancel/piece bodies that are too short. *)
Theorem C15_decode_panics_exact :
  forall body, NewPeerMessage body = Panic <-> exists t r, body = t :: r /\ zlen body < min_body t.
Proof. exact new_panics. Qed.

Theorem C15_decode_no_panic_partial :
  forall body, (forall t r, body = t :: r -> min_body t <= zlen body) -> exists m, NewPeerMessage body = Ok m.
Proof.
  intros body H. destruct (new_ok_or_panic body) as [E|E]; [exact E|].
  apply new_panics in E as (t & r & E & Hl). specialize (H t r E). lia.
Qed.

Example C15_ex : NewPeerMessage [7;0;0;0;1;0;0;0] = Panic /\ min_body 7 = 9 /\ exists m, NewPeerMessage [200] = Ok m.
Proof. repeat split. eexists; reflexivity. Qed.

(* ---------- C16 ---------- *)
Theorem C16_have_fields :
  forall i r, is_u32 i ->
    exists m, NewPeerMessage (4 :: be32 i ++ r) = Ok m /\ m_index m = i /\ m_offset m = 0 /\ m_blen m = 0 /\ Data m = Ok None /\ Bitfield m = None.
Proof. exact decode_have. Qed.

Theorem C16_request_cancel_fields :
  forall t i o b r, t = 6 \/ t = 8 -> is_u32 i -> is_u32 o -> is_u32 b ->
    exists m, NewPeerMessage (t :: be32 i ++ be32 o ++ be32 b ++ r) = Ok m /\
      m_type m = t /\ m_index m = i /\ m_offset m = o /\ m_blen m = b /\ Data m = Ok None /\ Bitfield m = None.
Proof. exact decode_request. Qed.

Theorem C16_piece_fields :
  forall i o d, is_u32 i -> is_u32 o ->
    exists m, NewPeerMessage (7 :: be32 i ++ be32 o ++ d) = Ok m /\
      m_type m = 7 /\ m_index m = i /\ m_offset m = o /\ m_blen m = 0 /\ Data m = Ok (Some d) /\ Bitfield m = None.
Proof. exact decode_piece. Qed.

Theorem C16_other_fields :
  forall t r, t <> 4 -> t <> 6 -> t <> 7 -> t <> 8 ->
    exists m, NewPeerMessage (t :: r) = Ok m /\ m_type m = t /\ m_index m = 0 /\ m_offset m = 0 /\ m_blen m = 0 /\ Data m = Ok None /\
      (t <> 5 -> Bitfield m = None) /\ (t = 5 -> Bitfield m = Some (createBitset r)).
Proof. exact decode_other. Qed.

Example C16_ex : exists m, NewPeerMessage [7; 0;0;1;0; 0;2;0;0; 65;66] = Ok m /\ m_index m = 256 /\ m_offset m = 131072 /\ Data m = Ok (Some [65;66]).
Proof. eexists. split; [reflexivity|]. vm_compute. auto. Qed.

(* ---------- C17 ---------- *)
(* expected: Test i is wire bit i *)
Theorem C17_bit_order_refuted :
  ~ (forall p i, Forall is_byte p -> 0 <= i < 8 * zlen p -> bs_test (createBitset p) i = wire_bit p i).
Proof.
  intros H. assert (Hb : Forall is_byte [128]) by (constructor; [unfold is_byte; lia|constructor]).
  specialize (H [128] 0 Hb ltac:(unfold zlen; cbn [length]; lia)). vm_compute in H. discriminate.
Qed.

(* exactly: the bits are reversed within every group of 64 *)
Theorem C17_bit_order_exact :
  forall p i, Forall is_byte p -> 0 <= i ->
    bs_test (createBitset p) i =
      if i <? 64 * ((zlen p + 7) / 8) then wire_bit p (64 * (i / 64) + (63 - i mod 64)) else false.
Proof. exact bitset_order. Qed.

(* so it is right exactly for the payloads that are symmetric in that sense, e.g.
   a seed whose payload fills whole 64-bit words *)
Theorem C17_bit_order_partial :
  forall p, Forall is_byte p -> (exists k, zlen p = 8 * k) ->
    (forall i, 0 <= i < 8 * zlen p -> wire_bit p i = true) ->
    forall i, 0 <= i < 8 * zlen p -> bs_test (createBitset p) i = wire_bit p i.
Proof.
  intros p Hb [k Hk] Hall i Hi. rewrite bitset_order by (auto; lia).
  assert (E : (zlen p + 7) / 8 = k) by (rewrite Hk; symmetry; apply Z.div_unique with (r := 7); lia).
  rewrite E. replace (i <? 64 * k) with true by lia. rewrite !Hall; auto.
  pose proof (Z.mod_pos_bound i 64). pose proof (Z.div_mod i 64). pose proof (Z.div_pos i 64).
  assert (i / 64 < k) by (apply Z.div_lt_upper_bound; lia). lia.
Qed.

Example C17_ex :
  wire_bit [128; 1] 0 = true /\ wire_bit [128; 1] 15 = true /\ wire_bit [128; 1] 1 = false /\
  filter (bs_test (createBitset [128; 1])) (map Z.of_nat (seq 0 64)) = [48; 63].
Proof. vm_compute. auto. Qed.

Print Assumptions C13_frame_round_trip_refuted.
Print Assumptions C13_frame_round_trip_partial.
Print Assumptions C13_type_99_exact.
Print Assumptions C14_request_bytes_refuted.
Print Assumptions C14_request_bytes_exact.
Print Assumptions C14_request_right_only_for_zeros.
Print Assumptions C14_request_accessors_partial.
Print Assumptions C15_decode_no_panic_refuted.
Print Assumptions C15_decode_panics_exact.
Print Assumptions C15_decode_no_panic_partial.
Print Assumptions C16_have_fields.
Print Assumptions C16_request_cancel_fields.
Print Assumptions C16_piece_fields.
Print Assumptions C16_other_fields.
Print Assumptions C17_bit_order_refuted.
Print Assumptions C17_bit_order_exact.
Print Assumptions C17_bit_order_partial.
