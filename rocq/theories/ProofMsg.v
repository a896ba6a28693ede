(* Peer messages and bitsets. *)
From Verif Require Import Base ProofBase ModelBitset ModelMsg SpecMsg.

(* ---- bytes and numbers ---- *)
Lemma be32_put n : be_put 4 n = be32 n.
Proof. unfold be32. cbn [be_put]. rewrite Z.pow_0_r, Z.div_1_r. reflexivity. Qed.
Lemma be32_length n : zlen (be32 n) = 4. Proof. reflexivity. Qed.
Lemma be_get_be32 n : is_u32 n -> be_get (be32 n) = n.
Proof.
  intros H. rewrite <- be32_put, be_get_put. change (256 ^ Z.of_nat 4) with (2 ^ 32). apply Z.mod_small; exact H.
Qed.
Lemma is_u32_get l : Forall is_byte l -> zlen l = 4 -> is_u32 (be_get l).
Proof. intros Hb Hl. pose proof (be_get_range l Hb) as H. rewrite Hl in H. exact H. Qed.

Lemma slice_mid {A} (a b c : list A) lo hi : lo = zlen a -> hi = zlen a + zlen b -> slice (a ++ b ++ c) lo hi = Ok b.
Proof. intros -> ->. apply slice_app. Qed.
Lemma sub_all {A} (l : list A) : sub l 0 (zlen l) = l.
Proof. unfold sub, zlen. rewrite Z.sub_0_r, Nat2Z.id. cbn [skipn Z.to_nat]. apply firstn_all. Qed.
Lemma slice_panic {A} (l : list A) lo hi : zlen l < hi -> slice l lo hi = Panic.
Proof. intros H. unfold slice. destruct (Z.leb_spec hi (zlen l)); [lia|]. rewrite andb_false_r. reflexivity. Qed.
Lemma slice_ok {A} (l : list A) lo hi : 0 <= lo <= hi -> hi <= zlen l -> slice l lo hi = Ok (sub l lo hi).
Proof. intros H1 H2. unfold slice. replace ((0 <=? lo) && (lo <=? hi) && (hi <=? zlen l)) with true by lia. reflexivity. Qed.

Lemma uint32_at_mid a n c lo : is_u32 n -> lo = zlen a -> uint32_at (a ++ be32 n ++ c) lo = Ok n.
Proof.
  intros Hn ->. unfold uint32_at. rewrite (slice_mid a (be32 n) c) by (rewrite ?be32_length; lia). cbn [bind].
  rewrite be_get_be32 by exact Hn. reflexivity.
Qed.
Lemma uint32_at_head n c : is_u32 n -> uint32_at (be32 n ++ c) 0 = Ok n.
Proof. intros Hn. exact (uint32_at_mid [] n c 0 Hn eq_refl). Qed.
Lemma uint32_at_panic b lo : zlen b < lo + 4 -> uint32_at b lo = Panic.
Proof. intros H. unfold uint32_at. rewrite slice_panic by exact H. reflexivity. Qed.
Lemma uint32_at_ok b lo : 0 <= lo -> lo + 4 <= zlen b -> uint32_at b lo = Ok (be_get (sub b lo (lo + 4))).
Proof. intros H1 H2. unfold uint32_at. rewrite slice_ok by lia. reflexivity. Qed.

(* ---- NewPeerMessage ---- *)
Lemma new_panics body : NewPeerMessage body = Panic <-> exists t r, body = t :: r /\ zlen body < min_body t.
Proof.
  destruct body as [|t r]; [split; [discriminate|intros (t & r & E & _); discriminate]|].
  unfold NewPeerMessage, HaveT, RequestT, CancelT, PieceT.
  assert (E : (exists t0 r0, t :: r = t0 :: r0 /\ zlen (t :: r) < min_body t0) <-> 1 + zlen r < min_body t).
  { rewrite zlen_cons. split; [intros (t0 & r0 & E & H); injection E as <- <-; exact H|eauto]. }
  rewrite E. clear E. unfold min_body. pose proof (zlen_nonneg r) as Hr.
  destruct (Z.eqb_spec t 4) as [->|N4].
  { destruct (Z.ltb_spec (zlen r) 4).
    - rewrite uint32_at_panic by lia. split; auto; lia.
    - rewrite uint32_at_ok by lia. split; [discriminate|lia]. }
  destruct (Z.eqb_spec t 6) as [->|N6]; [|destruct (Z.eqb_spec t 8) as [->|N8]]; cbn [orb].
  3: destruct (Z.eqb_spec t 7) as [->|N7].
  4: split; [discriminate|lia].
  3: destruct (Z.ltb_spec (zlen r) 4); [rewrite uint32_at_panic by lia; split; auto; lia|rewrite uint32_at_ok by lia; cbn [bind]];
     destruct (Z.ltb_spec (zlen r) 8); [rewrite uint32_at_panic by lia; split; auto; lia|rewrite uint32_at_ok by lia; cbn [bind]];
     split; [discriminate|lia].
  all: destruct (Z.ltb_spec (zlen r) 4); [rewrite uint32_at_panic by lia; split; auto; lia|rewrite uint32_at_ok by lia; cbn [bind]];
     destruct (Z.ltb_spec (zlen r) 8); [rewrite uint32_at_panic by lia; split; auto; lia|rewrite uint32_at_ok by lia; cbn [bind]];
     destruct (Z.ltb_spec (zlen r) 12); [rewrite uint32_at_panic by lia; split; auto; lia|rewrite uint32_at_ok by lia; cbn [bind]];
     split; [discriminate|lia].
Qed.

Lemma new_ok_or_panic body : (exists m, NewPeerMessage body = Ok m) \/ NewPeerMessage body = Panic.
Proof.
  assert (U : forall b lo, (exists n, uint32_at b lo = Ok n) \/ uint32_at b lo = Panic).
  { intros b lo. unfold uint32_at, slice. destruct (_ && _); cbn; eauto. }
  destruct body as [|t r]; [left; eexists; reflexivity|]. unfold NewPeerMessage.
  destruct (t =? HaveT); [destruct (U r 0) as [[n ->]| ->]; cbn; eauto|].
  destruct ((t =? RequestT) || (t =? CancelT)).
  { destruct (U r 0) as [[n ->]| ->]; cbn [bind]; eauto. destruct (U r 4) as [[n' ->]| ->]; cbn [bind]; eauto.
    destruct (U r 8) as [[n2 ->]| ->]; cbn; eauto. }
  destruct (t =? PieceT); [|eauto].
  destruct (U r 0) as [[n ->]| ->]; cbn [bind]; eauto. destruct (U r 4) as [[n' ->]| ->]; cbn [bind]; eauto.
Qed.

(* the fields of a decoded message that do not depend on its type *)
Lemma new_basic t r m : NewPeerMessage (t :: r) = Ok m -> m_len m = u32 (zlen (t :: r)) /\ m_type m = t /\ m_payload m = r.
Proof.
  unfold NewPeerMessage.
  assert (B : forall A B (x : res A) (f : A -> res B) y, bind x f = Ok y -> exists a, x = Ok a /\ f a = Ok y).
  { intros A B [a| | |] f y E; try discriminate. eauto. }
  destruct (t =? HaveT); [intros H; apply B in H as (n & _ & H); injection H as <-; auto|].
  destruct ((t =? RequestT) || (t =? CancelT)).
  { intros H. apply B in H as (n & _ & H). apply B in H as (n' & _ & H). apply B in H as (n2 & _ & H). injection H as <-; auto. }
  destruct (t =? PieceT).
  { intros H. apply B in H as (n & _ & H). apply B in H as (n' & _ & H). injection H as <-; auto. }
  intros H; injection H as <-; auto.
Qed.

Lemma send_new body m : is_u32 (zlen body) -> NewPeerMessage body = Ok m -> hd 0 body <> 99 -> Send m = frame body.
Proof.
  intros Hl H Ht. destruct body as [|t r]; [injection H as <-; reflexivity|].
  apply new_basic in H as (H1 & H2 & H3). unfold Send, frame, KeepaliveT. cbn [hd] in Ht.
  rewrite H1, H2, H3. replace (t =? 99) with false by lia. unfold u32. rewrite Z.mod_small by exact Hl.
  rewrite be32_put. reflexivity.
Qed.
Lemma send_new_99 r m : is_u32 (zlen (99 :: r)) -> NewPeerMessage (99 :: r) = Ok m -> Send m = be32 (1 + zlen r).
Proof.
  intros Hl H. apply new_basic in H as (H1 & H2 & H3). unfold Send, KeepaliveT. rewrite H1, H2. cbn [Z.eqb Pos.eqb].
  unfold u32. rewrite Z.mod_small by exact Hl. rewrite be32_put, zlen_cons. reflexivity.
Qed.

(* ---- requests on the wire ---- *)
Lemma request_wire i o b : Send (CreatePieceMessage i o b) = be32 13 ++ [6] ++ be32 b ++ repeat 0 8.
Proof. unfold Send, CreatePieceMessage, request_payload, PutUint32. cbn [m_type m_len m_payload]. rewrite !be32_put. reflexivity. Qed.
Lemma cancel_wire i o b : Send (createCancelMessage i o b) = be32 13 ++ [8] ++ be32 b ++ repeat 0 8.
Proof. unfold Send, createCancelMessage, request_payload, PutUint32. cbn [m_type m_len m_payload]. rewrite !be32_put. reflexivity. Qed.

Lemma be32_inj a b : is_u32 a -> is_u32 b -> be32 a = be32 b -> a = b.
Proof. intros Ha Hb E. rewrite <- (be_get_be32 a Ha), <- (be_get_be32 b Hb), E. reflexivity. Qed.

Lemma request_right_iff i o b : is_u32 i -> is_u32 o -> is_u32 b ->
  (Send (CreatePieceMessage i o b) = request_frame i o b <-> i = b /\ o = 0 /\ b = 0).
Proof.
  intros Hi Ho Hb. rewrite request_wire. unfold request_frame. split.
  - intros E. apply app_inv_head in E. apply app_inv_head in E.
    assert (E1 : be32 b = be32 i /\ repeat 0 8 = be32 o ++ be32 b).
    { change (repeat 0 8) with ([0;0;0;0] ++ [0;0;0;0]) in *. unfold be32 in E |- *. cbn in E |- *. injection E. intros. split; congruence. }
    destruct E1 as [E1 E2]. change (repeat 0 8) with (be32 0 ++ be32 0) in E2.
    assert (E3 : be32 0 = be32 o /\ be32 0 = be32 b) by (unfold be32 in E2 |- *; cbn in E2 |- *; injection E2; intros; split; congruence).
    destruct E3 as [E3 E4]. assert (H0 : is_u32 0) by (unfold is_u32; lia).
    apply (be32_inj _ _ Hb Hi) in E1. apply (be32_inj _ _ H0 Ho) in E3. apply (be32_inj _ _ H0 Hb) in E4. lia.
  - intros (-> & -> & ->). reflexivity.
Qed.

(* ---- decoded fields ---- *)
Lemma decode_have i r : is_u32 i ->
  exists m, NewPeerMessage (4 :: be32 i ++ r) = Ok m /\ m_index m = i /\ m_offset m = 0 /\ m_blen m = 0 /\ Data m = Ok None /\ Bitfield m = None.
Proof.
  intros Hi. unfold NewPeerMessage. cbn [Z.eqb HaveT Pos.eqb]. rewrite uint32_at_head by exact Hi. cbn [bind].
  eexists. split; [reflexivity|]. repeat split.
Qed.
Lemma decode_request t i o b r : t = 6 \/ t = 8 -> is_u32 i -> is_u32 o -> is_u32 b ->
  exists m, NewPeerMessage (t :: be32 i ++ be32 o ++ be32 b ++ r) = Ok m /\
    m_type m = t /\ m_index m = i /\ m_offset m = o /\ m_blen m = b /\ Data m = Ok None /\ Bitfield m = None.
Proof.
  intros Ht Hi Ho Hb. unfold NewPeerMessage.
  replace (t =? HaveT) with false by (unfold HaveT; lia).
  replace ((t =? RequestT) || (t =? CancelT)) with true by (unfold RequestT, CancelT; lia).
  rewrite uint32_at_head by exact Hi. cbn [bind].
  rewrite (uint32_at_mid (be32 i) o (be32 b ++ r) 4 Ho eq_refl). cbn [bind].
  change (be32 i ++ be32 o ++ be32 b ++ r) with ((be32 i ++ be32 o) ++ be32 b ++ r).
  rewrite (uint32_at_mid (be32 i ++ be32 o) b r 8 Hb eq_refl). cbn [bind].
  eexists. split; [reflexivity|]. cbn. unfold Data, Bitfield, PieceT, BitfieldT. cbn [m_type].
  replace (t =? 7) with false by lia. replace (t =? 5) with false by lia. repeat split.
Qed.
Lemma decode_piece i o d : is_u32 i -> is_u32 o ->
  exists m, NewPeerMessage (7 :: be32 i ++ be32 o ++ d) = Ok m /\
    m_type m = 7 /\ m_index m = i /\ m_offset m = o /\ m_blen m = 0 /\ Data m = Ok (Some d) /\ Bitfield m = None.
Proof.
  intros Hi Ho. unfold NewPeerMessage. cbn [Z.eqb HaveT RequestT CancelT PieceT Pos.eqb orb].
  rewrite uint32_at_head by exact Hi. cbn [bind].
  rewrite (uint32_at_mid (be32 i) o d 4 Ho eq_refl). cbn [bind].
  eexists. split; [reflexivity|]. cbn [m_type m_index m_offset m_blen]. do 4 (split; [reflexivity|]).
  unfold Data, Bitfield. cbn [m_type m_payload PieceT BitfieldT Z.eqb Pos.eqb negb]. split; [|reflexivity].
  assert (E : slice (be32 i ++ be32 o ++ d) 8 (zlen (be32 i ++ be32 o ++ d)) = Ok d).
  { replace (be32 i ++ be32 o ++ d) with ((be32 i ++ be32 o) ++ d ++ []) by (rewrite app_nil_r; reflexivity).
    apply slice_mid; [reflexivity|]. rewrite app_nil_r, zlen_app. reflexivity. }
  rewrite E. reflexivity.
Qed.
Lemma decode_other t r : t <> 4 -> t <> 6 -> t <> 7 -> t <> 8 ->
  exists m, NewPeerMessage (t :: r) = Ok m /\ m_type m = t /\ m_index m = 0 /\ m_offset m = 0 /\ m_blen m = 0 /\ Data m = Ok None /\
    (t <> 5 -> Bitfield m = None) /\ (t = 5 -> Bitfield m = Some (createBitset r)).
Proof.
  intros. unfold NewPeerMessage, HaveT, RequestT, CancelT, PieceT.
  replace (t =? 4) with false by lia. replace (t =? 6) with false by lia. replace (t =? 8) with false by lia. replace (t =? 7) with false by lia.
  cbn [orb]. eexists. split; [reflexivity|]. cbn. do 4 (split; [reflexivity|]). unfold Data, Bitfield, PieceT, BitfieldT. cbn [m_type m_payload].
  replace (t =? 7) with false by lia. split; [reflexivity|]. split.
  - intros. replace (t =? 5) with false by lia. reflexivity.
  - intros ->. reflexivity.
Qed.

(* ---- bit order of bitfields ---- *)
Lemma testbit_be_get l k : Forall is_byte l -> 0 <= k < 8 * zlen l ->
  Z.testbit (be_get l) k = Z.testbit (nth (Z.to_nat (zlen l - 1 - k / 8)) l 0) (k mod 8).
Proof.
  revert k. induction l as [|x l IH] using rev_ind; intros k Hb Hk; [unfold zlen in Hk; cbn [length] in Hk; lia|].
  apply Forall_app in Hb as [Hb Hx]. inversion Hx as [|? ? Hx1 _]; subst.
  rewrite zlen_app in *. change (zlen [x]) with 1 in *. pose proof (zlen_nonneg l) as Hl.
  rewrite be_get_app. change (zlen [x]) with 1. change (be_get [x]) with x.
  replace (be_get l * 256 ^ 1 + x) with (x + be_get l * 2 ^ 8) by (change (256 ^ 1) with (2 ^ 8); ring).
  unfold is_byte in Hx1.
  destruct (Z.ltb_spec k 8) as [Hs|Hs].
  - rewrite (Z.div_small k 8) by lia. rewrite (Z.mod_small k 8) by lia.
    replace (zlen l + 1 - 1 - 0) with (zlen l) by lia.
    unfold zlen. rewrite Nat2Z.id, app_nth2 by lia. rewrite Nat.sub_diag. cbn [nth].
    rewrite <- (Z.mod_pow2_bits_low (x + be_get l * 2 ^ 8) 8) by lia.
    rewrite Z.mod_add by lia. rewrite Z.mod_small by (change (2^8) with 256; lia). reflexivity.
  - replace k with ((k - 8) + 8) at 1 by lia.
    rewrite <- Z.div_pow2_bits by lia. rewrite Z.div_add by lia. rewrite (Z.div_small x) by (change (2^8) with 256; lia). rewrite Z.add_0_l.
    rewrite IH by (auto; lia).
    assert (E1 : (k - 8) / 8 = k / 8 - 1) by (replace (k - 8) with (k + (-1) * 8) by lia; rewrite Z.div_add by lia; lia).
    assert (E2 : (k - 8) mod 8 = k mod 8) by (replace (k - 8) with (k + (-1) * 8) by lia; apply Z.mod_add; lia).
    rewrite E1, E2. assert (1 <= k / 8) by (apply Z.div_le_lower_bound; lia).
    assert (k / 8 < zlen l + 1) by (apply Z.div_lt_upper_bound; lia).
    replace (zlen l - 1 - (k / 8 - 1)) with (zlen l + 1 - 1 - k / 8) by lia.
    rewrite app_nth1; [reflexivity|]. unfold zlen in *. lia.
Qed.

Lemma word_bits_length w : length (word_bits w) = 64%nat.
Proof. unfold word_bits. rewrite map_length, seq_length. reflexivity. Qed.
Lemma bs_from_length ws : length (bs_from ws) = (64 * length ws)%nat.
Proof. induction ws as [|w ws IH]; [reflexivity|]. cbn [bs_from flat_map length]. rewrite app_length, word_bits_length. unfold bs_from in IH. lia. Qed.
Lemma bs_test_cons_word w ws i : 0 <= i ->
  bs_test (bs_from (w :: ws)) i = if i <? 64 then Z.testbit w i else bs_test (bs_from ws) (i - 64).
Proof.
  intros Hi. unfold bs_test, nthZ, bs_from. cbn [flat_map]. replace (i <? 0) with false by lia.
  destruct (Z.ltb_spec i 64).
  - rewrite nth_error_app1 by (rewrite word_bits_length; lia). unfold word_bits.
    rewrite nth_error_map. replace (nth_error (seq 0 64) (Z.to_nat i)) with (Some (Z.to_nat i)).
    + cbn [option_map]. rewrite Z2Nat.id by lia. reflexivity.
    + symmetry. rewrite (nth_error_nth' _ 0%nat) by (rewrite seq_length; lia). rewrite seq_nth by lia. reflexivity.
  - rewrite nth_error_app2 by (rewrite word_bits_length; lia). rewrite word_bits_length.
    replace (i - 64 <? 0) with false by lia. replace (Z.to_nat (i - 64)) with (Z.to_nat i - 64)%nat by lia. reflexivity.
Qed.
Lemma bs_test_nil i : bs_test [] i = false.
Proof. unfold bs_test, nthZ. destruct (i <? 0); [reflexivity|]. destruct (Z.to_nat i); reflexivity. Qed.

Lemma words_test n : forall p i, Forall is_byte p -> length p = (8 * n)%nat -> 0 <= i ->
  bs_test (bs_from (words_of n p)) i = if i <? 64 * Z.of_nat n then wire_bit p (64 * (i / 64) + (63 - i mod 64)) else false.
Proof.
  induction n as [|n IH]; intros p i Hb Hl Hi.
  - cbn [words_of]. rewrite bs_test_nil. replace (i <? 64 * Z.of_nat 0) with false by lia. reflexivity.
  - cbn [words_of]. rewrite bs_test_cons_word by exact Hi.
    assert (Hsplit : Forall is_byte (firstn 8 p) /\ Forall is_byte (skipn 8 p)) by (apply Forall_app; rewrite firstn_skipn; exact Hb).
    destruct Hsplit as [Hb1 Hb2].
    assert (Hl1 : length (firstn 8 p) = 8%nat) by (rewrite firstn_length; lia).
    assert (Hl2 : length (skipn 8 p) = (8 * n)%nat) by (rewrite skipn_length; lia).
    destruct (Z.ltb_spec i 64) as [Hs|Hs].
    + replace (i <? 64 * Z.of_nat (S n)) with true by lia.
      assert (Hz : zlen (firstn 8 p) = 8) by (unfold zlen; lia).
      rewrite testbit_be_get by (auto; lia). rewrite Hz.
      rewrite (Z.div_small i 64) by lia. rewrite (Z.mod_small i 64) by lia. unfold wire_bit.
      replace (64 * 0 + (63 - i)) with (63 - i) by lia.
      assert (E1 : (63 - i) / 8 = 8 - 1 - i / 8).
      { symmetry. apply Z.div_unique with (r := 7 - i mod 8).
        - left. pose proof (Z.mod_pos_bound i 8). lia.
        - pose proof (Z.div_mod i 8). lia. }
      assert (E2 : (63 - i) mod 8 = 7 - i mod 8).
      { symmetry. apply Z.mod_unique with (q := 7 - i / 8).
        - left. pose proof (Z.mod_pos_bound i 8). lia.
        - pose proof (Z.div_mod i 8). lia. }
      rewrite E1, E2. replace (7 - (7 - i mod 8)) with (i mod 8) by lia.
      assert (0 <= i / 8 < 8) by (split; [apply Z.div_pos; lia|apply Z.div_lt_upper_bound; lia]).
      f_equal. rewrite <- (firstn_skipn 8 p) at 2. rewrite app_nth1; [reflexivity|lia].
    + rewrite IH by (auto; lia). replace (i - 64 <? 64 * Z.of_nat n) with (i <? 64 * Z.of_nat (S n)) by lia.
      destruct (i <? 64 * Z.of_nat (S n)); [|reflexivity].
      assert (E1 : (i - 64) / 64 = i / 64 - 1) by (replace (i - 64) with (i + (-1) * 64) by lia; rewrite Z.div_add by lia; lia).
      assert (E2 : (i - 64) mod 64 = i mod 64) by (replace (i - 64) with (i + (-1) * 64) by lia; apply Z.mod_add; lia).
      rewrite E1, E2. unfold wire_bit.
      set (j := 64 * (i / 64) + (63 - i mod 64)).
      assert (Hj : 64 <= j).
      { unfold j. assert (1 <= i / 64) by (apply Z.div_le_lower_bound; lia). pose proof (Z.mod_pos_bound i 64). lia. }
      replace (64 * (i / 64 - 1) + (63 - i mod 64)) with (j + (-8) * 8) by (unfold j; lia).
      rewrite Z.div_add, Z.mod_add by lia. f_equal.
      assert (8 <= j / 8) by (apply Z.div_le_lower_bound; lia).
      rewrite <- (firstn_skipn 8 p) at 2. rewrite app_nth2 by lia. rewrite Hl1. f_equal. lia.
Qed.

Lemma pad8_spec p : exists k, pad8 p = p ++ repeat 0 k /\ (k < 8)%nat /\ exists n, length (pad8 p) = (8 * n)%nat /\ Z.of_nat n = (zlen p + 7) / 8.
Proof.
  unfold pad8. pose proof (Z.mod_pos_bound (zlen p) 8) as Hm. pose proof (Z.div_mod (zlen p) 8) as Hd. pose proof (zlen_nonneg p) as Hp.
  assert (0 <= zlen p / 8) by (apply Z.div_pos; lia).
  destruct (Z.eqb_spec (zlen p mod 8) 0) as [E|E]; cbn [negb].
  - exists 0%nat. rewrite app_nil_r. split; [reflexivity|]. split; [lia|]. exists (Z.to_nat (zlen p / 8)). split.
    + unfold zlen in *. lia.
    + rewrite Z2Nat.id by lia. apply Z.div_unique with (r := 7); lia.
  - exists (Z.to_nat (8 - zlen p mod 8)). split; [reflexivity|]. split; [lia|]. exists (Z.to_nat (zlen p / 8 + 1)). split.
    + rewrite app_length, repeat_length. unfold zlen in *. lia.
    + rewrite Z2Nat.id by lia. apply Z.div_unique with (r := zlen p mod 8 - 1); lia.
Qed.

Lemma wire_bit_pad p k j : 0 <= j -> wire_bit (p ++ repeat 0 k) j = wire_bit p j.
Proof.
  intros Hj. unfold wire_bit. f_equal.
  destruct (Nat.lt_ge_cases (Z.to_nat (j / 8)) (length p)) as [H|H]; [apply app_nth1; exact H|].
  rewrite app_nth2 by exact H. rewrite (nth_overflow p) by exact H.
  destruct (nth_in_or_default (Z.to_nat (j / 8) - length p) (repeat 0 k) 0) as [Hi|Hd]; [apply repeat_spec in Hi; exact Hi|exact Hd].
Qed.

Lemma bitset_order p i : Forall is_byte p -> 0 <= i ->
  bs_test (createBitset p) i =
    if i <? 64 * ((zlen p + 7) / 8) then wire_bit p (64 * (i / 64) + (63 - i mod 64)) else false.
Proof.
  intros Hb Hi. unfold createBitset. destruct (pad8_spec p) as (k & Ek & Hk & n & Hn & En).
  replace (Z.to_nat (zlen (pad8 p) / 8)) with n.
  2:{ unfold zlen. rewrite Hn, Nat2Z.inj_mul, Z.mul_comm, Z.div_mul by lia. rewrite Nat2Z.id. reflexivity. }
  rewrite words_test; auto.
  - rewrite En. destruct (_ <? _); [|reflexivity]. rewrite Ek. apply wire_bit_pad.
    pose proof (Z.mod_pos_bound i 64). pose proof (Z.div_pos i 64). lia.
  - rewrite Ek. apply Forall_app. split; [exact Hb|]. apply Forall_forall. intros x Hx. apply repeat_spec in Hx. subst. unfold is_byte; lia.
Qed.
