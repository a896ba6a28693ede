(* Proofs about the bytes of the messages we can write.                         *)
From Verif Require Import Base ProofBase ModelBitset ModelMsg SpecMsg ProofMsg SpecWire.

Lemma bits_val_range l : 0 <= bits_val l < 2 ^ zlen l.
Proof.
  induction l as [|x l IH]; [cbn; lia|]. cbn [bits_val]. rewrite zlen_cons, Z.add_comm, Z.pow_add_r by (pose proof (zlen_nonneg l); lia).
  destruct x; cbn [Z.b2z]; lia.
Qed.
Lemma bits_val_test l : forall i, Z.testbit (bits_val l) (Z.of_nat i) = nth i l false.
Proof.
  induction l as [|x l IH]; intros i; [destruct i; apply Z.testbit_0_l|]. cbn [bits_val]. rewrite Z.add_comm. destruct i.
  - apply Z.testbit_0_r.
  - rewrite Nat2Z.inj_succ. cbn [nth]. rewrite Z.testbit_succ_r by lia. apply IH.
Qed.
Lemma nth_skipn {A} (l : list A) d k : forall i, nth i (skipn k l) d = nth (k + i) l d.
Proof. revert l. induction k; intros l i; [reflexivity|]. destruct l; cbn; [destruct i; reflexivity|apply IHk]. Qed.
Lemma nth_firstn {A} (l : list A) d k : forall i, (i < k)%nat -> nth i (firstn k l) d = nth i l d.
Proof. revert l. induction k; intros l i H; [lia|]. destruct l; [reflexivity|]. destruct i; cbn; [reflexivity|apply IHk; lia]. Qed.
Lemma skipn_add {A} (l : list A) j : forall k, skipn k (skipn j l) = skipn (j + k) l.
Proof. revert l. induction j; intros l k; [reflexivity|]. destruct l; cbn; [destruct k; reflexivity|apply IHj]. Qed.
Lemma words_n_len n : forall b, length (words_n n b) = n.
Proof. induction n; intros b; cbn; auto. Qed.
Lemma words_n_nth n : forall b k, (k < n)%nat -> nth k (words_n n b) 0 = bits_val (firstn 64 (skipn (64 * k) b)).
Proof.
  induction n; intros b k H; [lia|]. cbn [words_n]. destruct k; [reflexivity|]. cbn [nth]. rewrite IHn by lia. do 2 f_equal.
  rewrite skipn_add. f_equal. lia.
Qed.
Lemma bs_test_nth b i : 0 <= i -> bs_test b i = nth (Z.to_nat i) b false.
Proof.
  intros H. unfold bs_test, nthZ. destruct (i <? 0) eqn:E; [lia|]. destruct (nth_error b (Z.to_nat i)) eqn:N.
  - symmetry. now apply nth_error_nth.
  - apply nth_error_None in N. symmetry. now apply nth_overflow.
Qed.
Lemma words_bit b i : 0 <= i < bs_len b -> Z.testbit (nth (Z.to_nat (i / 64)) (bs_words b) 0) (i mod 64) = bs_test b i.
Proof.
  intros H. unfold bs_words. pose proof (Z.div_mod i 64 ltac:(lia)) as D. pose proof (Z.mod_pos_bound i 64 ltac:(lia)) as M.
  pose proof (Z.div_pos i 64 ltac:(lia) ltac:(lia)) as P.
  assert (i / 64 < (bs_len b + 63) / 64) by (apply Z.div_lt_upper_bound; [lia|]; pose proof (Z.div_mod (bs_len b + 63) 64 ltac:(lia)); pose proof (Z.mod_pos_bound (bs_len b + 63) 64 ltac:(lia)); lia).
  rewrite words_n_nth by lia. rewrite <- (Z2Nat.id (i mod 64)) by lia. rewrite bits_val_test, nth_firstn, nth_skipn, bs_test_nth by lia. f_equal. lia.
Qed.
Lemma words_range b : Forall (fun w => 0 <= w < 2 ^ 64) (bs_words b).
Proof.
  unfold bs_words. generalize (Z.to_nat ((bs_len b + 63) / 64)). intros n. revert b. induction n; intros b; constructor; auto.
  pose proof (bits_val_range (firstn 64 b)) as [H1 H2]. split; [exact H1|]. apply Z.lt_le_trans with (1 := H2). apply Z.pow_le_mono_r; [lia|].
  unfold zlen. rewrite firstn_length. lia.
Qed.
Lemma be64_put n : 0 <= n < 2 ^ 64 -> be_put 8 n = be64 n.
Proof.
  intros _. pose proof (Z.div_mod n (2 ^ 32) ltac:(lia)) as E. unfold be64, be32. set (h := n / 2 ^ 32) in *. set (l := n mod 2 ^ 32) in *.
  assert (Hi : forall k, 0 <= k <= 32 -> n / 2 ^ (32 + k) = h / 2 ^ k).
  { intros k Hk. unfold h. rewrite Z.div_div by lia. rewrite Z.pow_add_r by lia. reflexivity. }
  assert (Lo : forall k, 0 <= k <= 24 -> n / 2 ^ k mod 256 = l / 2 ^ k mod 256).
  { intros k Hk. rewrite E. replace (2 ^ 32) with (2 ^ k * (2 ^ (24 - k) * 256)) by (change 256 with (2 ^ 8); rewrite <- !Z.pow_add_r by lia; f_equal; lia).
    replace (2 ^ k * (2 ^ (24 - k) * 256) * h + l) with ((2 ^ (24 - k) * 256 * h) * 2 ^ k + l) by ring.
    rewrite Z.div_add_l by lia. replace (2 ^ (24 - k) * 256 * h + l / 2 ^ k) with (l / 2 ^ k + (2 ^ (24 - k) * h) * 256) by ring. apply Z_mod_plus_full. }
  pose proof (Hi 24 ltac:(lia)) as H1. pose proof (Hi 16 ltac:(lia)) as H2. pose proof (Hi 8 ltac:(lia)) as H3. pose proof (Hi 0 ltac:(lia)) as H4.
  pose proof (Lo 24 ltac:(lia)) as L1. pose proof (Lo 16 ltac:(lia)) as L2. pose proof (Lo 8 ltac:(lia)) as L3. pose proof (Lo 0 ltac:(lia)) as L4.
  cbn [be_put app]. change (256 ^ Z.of_nat 7) with (2 ^ (32 + 24)). change (256 ^ Z.of_nat 6) with (2 ^ (32 + 16)). change (256 ^ Z.of_nat 5) with (2 ^ (32 + 8)).
  change (256 ^ Z.of_nat 4) with (2 ^ (32 + 0)). change (256 ^ Z.of_nat 3) with (2 ^ 24). change (256 ^ Z.of_nat 2) with (2 ^ 16). change (256 ^ Z.of_nat 1) with (2 ^ 8). change (256 ^ Z.of_nat 0) with (2 ^ 0).
  rewrite H1, H2, H3, H4, L1, L2, L3, L4. rewrite Z.pow_0_r, !Z.div_1_r. reflexivity.
Qed.
Lemma bitfield_wire b : is_u32 (bs_len b + 1) ->
  Send (createBitfieldMessage b) = be32 (bs_len b + 1) ++ [5] ++ be32 (bs_len b + 1) ++ [5] ++ flat_map be64 (bs_words b).
Proof.
  intros H. unfold createBitfieldMessage, Send. cbn [m_type m_len m_payload]. change (BitfieldT =? KeepaliveT) with false. cbv iota.
  assert (E : flat_map (be_put 8) (bs_words b) = flat_map be64 (bs_words b)).
  { induction (words_range b) as [|w l Hw _ IH]; [reflexivity|]. cbn [flat_map]. rewrite IH, be64_put by exact Hw. reflexivity. }
  rewrite E. unfold u32. rewrite (Z.mod_small (bs_len b + 1)) by exact H. rewrite be32_put. reflexivity.
Qed.
Lemma flat_be64_len l : zlen (flat_map be64 l) = 8 * zlen l.
Proof. induction l as [|x l IH]; [reflexivity|]. cbn [flat_map]. rewrite zlen_app, IH, zlen_cons. change (zlen (be64 x)) with 8. lia. Qed.
Lemma words_zlen b : zlen (bs_words b) = (bs_len b + 63) / 64.
Proof. unfold bs_words. unfold zlen at 1. rewrite words_n_len. rewrite Z2Nat.id; [reflexivity|]. apply Z.div_pos; [|lia]. unfold bs_len. pose proof (zlen_nonneg b). lia. Qed.
Lemma bitfield_len b : is_u32 (bs_len b + 1) -> zlen (Send (createBitfieldMessage b)) = 10 + 8 * ((bs_len b + 63) / 64).
Proof. intros H. rewrite bitfield_wire, !zlen_app, flat_be64_len, words_zlen by exact H. rewrite !be32_length. change (zlen [5]) with 1. lia. Qed.
Lemma bitfield_never b : is_u32 (bs_len b + 1) -> ~ is_bitfield_frame b (Send (createBitfieldMessage b)).
Proof.
  intros H (p & E & L & _). apply (f_equal zlen) in E. rewrite bitfield_len in E by exact H. unfold frame in E. rewrite !zlen_app, be32_length, L in E. change (zlen [5]) with 1 in E.
  pose proof (Z.div_mod (bs_len b + 63) 64 ltac:(lia)). pose proof (Z.mod_pos_bound (bs_len b + 63) 64 ltac:(lia)).
  pose proof (Z.div_mod (bs_len b + 7) 8 ltac:(lia)). pose proof (Z.mod_pos_bound (bs_len b + 7) 8 ltac:(lia)). lia.
Qed.
Lemma bitfield_13 b : is_u32 (bs_len b + 1) -> (zlen (Send (createBitfieldMessage b)) = 4 + (bs_len b + 1) <-> bs_len b = 13).
Proof.
  intros H. rewrite bitfield_len by exact H. pose proof (Z.div_mod (bs_len b + 63) 64 ltac:(lia)). pose proof (Z.mod_pos_bound (bs_len b + 63) 64 ltac:(lia)). lia.
Qed.
Lemma have_wire i : Send (createHaveMessage i) = have_frame i.
Proof. unfold createHaveMessage, Send. cbn [m_type m_len m_payload]. rewrite !be32_put. reflexivity. Qed.
Lemma cancel_right_iff i o b : is_u32 i -> is_u32 o -> is_u32 b -> (Send (createCancelMessage i o b) = cancel_frame i o b <-> i = 0 /\ o = 0 /\ b = 0).
Proof.
  intros Hi Ho Hb. rewrite cancel_wire. unfold cancel_frame, frame. change (zlen ([8] ++ be32 i ++ be32 o ++ be32 b)) with 13.
  change (repeat 0 8) with (be32 0 ++ be32 0). split.
  - intros E. apply app_inv_head in E. apply app_inv_head in E.
    assert (L : forall x y r r', be32 x ++ r = be32 y ++ r' -> be32 x = be32 y /\ r = r').
    { intros x y r r' H. split; [exact (f_equal (firstn 4) H)|exact (f_equal (skipn 4) H)]. }
    apply L in E as [E1 E]. apply L in E as [E2 E3].
    apply be32_inj in E1, E2, E3; unfold is_u32 in *; try lia.
  - intros (-> & -> & ->). reflexivity.
Qed.
