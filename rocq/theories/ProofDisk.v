(* What is on disk, and which pieces are marked, after a whole run of WritePiece. *)
From Verif Require Import Base ProofBase SpecPath ModelPath ModelBitset ModelMsg ModelTorrent SpecTorrent ProofTorrent ProofWrite ProofPath ProofHistory ProofFloat.

(* ---------- the data ---------- *)
Lemma located_fun ls q k o : located ls q k o -> forall q', located ls q' k o -> q = q'.
Proof. induction 1; intros q' H'; inversion H'; subst; auto. f_equal. eauto. Qed.

Definition block_write (plen : Z) (m : msg) : Z * bytes :=
  (m_index m * plen + m_offset m, match data_of m with Ok d => d | _ => [] end).
Definition good_msg (m : msg) : Prop := wire_msg m /\ exists d, data_of m = Ok d.

Lemma pos_nowrap plen m : 0 <= plen < 2 ^ 30 -> wire_msg m ->
  wrap64 (wrap64 (m_index m * plen) + m_offset m) = m_index m * plen + m_offset m /\ 0 <= m_index m * plen + m_offset m < 2 ^ 63.
Proof.
  intros Hp [Hi Ho]. assert (0 <= m_index m * plen < 2 ^ 62) by nia.
  unfold wrap64. rewrite (Z.mod_small (m_index m * plen + 2 ^ 63)) by lia.
  replace (m_index m * plen + 2 ^ 63 - 2 ^ 63 + m_offset m + 2 ^ 63) with (m_index m * plen + m_offset m + 2 ^ 63) by lia.
  rewrite Z.mod_small by lia. lia.
Qed.

Lemma write_one_data w m : multi_ok (w_t w) -> w_outs w = [] -> w_panic w = false -> 0 <= t_plen (w_t w) < 2 ^ 30 -> good_msg m ->
  let w' := write_one w m in
  w_outs w' = [] /\ w_panic w' = false /\
  forall k len p o q, nth_error (entries (w_t w)) k = Some (len, p) -> 0 <= o -> located (map fst (entries (w_t w))) q k o ->
    byte_at (contents (w_fs w') p) o = latest [block_write (t_plen (w_t w)) m] q (byte_at (contents (w_fs w) p) o).
Proof.
  intros Hm Ho Hp Hl [Hw [d Hd]]. unfold block_write. rewrite Hd. cbn [latest]. unfold write_one. rewrite Hd, Ho, Hp.
  destruct (pos_nowrap _ _ Hl Hw) as [-> Hr]. set (pos := m_index m * t_plen (w_t w) + m_offset m) in *.
  destruct (write_piece_spec (w_t w) (w_fs w) [] pos d Hm Hr) as (f' & outs' & st & k0 & E & Hk0 & Hwr & _ & Hst & _ & Hnil).
  destruct (Hnil eq_refl) as [-> _]. rewrite E.
  assert (Eo : outs' = []).
  { clear - E. unfold writePieceData in E.
    assert (W : forall h da off f1 o1 s1, WriteAt (w_fs w) [] h da off = (f1, o1, s1) -> o1 = []).
    { intros. unfold WriteAt in H. destruct (off <? 0); inversion H; auto. }
    destruct (negb (t_isdir (w_t w))).
    - destruct (t_osfiles (w_t w)); [inversion E; auto|eauto].
    - destruct (find_file (entries (w_t w)) pos) as [[pos' files]|]; [|inversion E; auto].
      revert E. generalize (w_fs w) pos' d. clear. induction files as [|[len h] r IH]; intros f pos' d E; destruct d as [|b d]; cbn [write_loop] in E.
      + inversion E; auto.
      + inversion E; auto.
      + inversion E; auto.
      + destruct (_ <? 0); [inversion E; auto|].
        unfold WriteAt in E. destruct (pos' <? 0); [inversion E; auto|]. eapply IH, E. }
  subst outs'.
  assert (sub d 0 (zlen d) = d) as Es. { unfold sub. rewrite Z.sub_0_r. cbn. unfold zlen. rewrite Nat2Z.id. apply firstn_all. }
  rewrite Es in Hwr. destruct Hwr as [_ Hwr].
  assert (Hb : forall k len p o q, nth_error (entries (w_t w)) k = Some (len, p) -> 0 <= o -> located (map fst (entries (w_t w))) q k o ->
    byte_at (contents f' p) o = if (pos <=? q) && (q <? pos + zlen d) then byte_at d (q - pos) else byte_at (contents (w_fs w) p) o).
  { intros k len p o q Hk Ho' Hloc. destruct (Hwr k len p o Hk Ho') as [H1 H2].
    destruct ((pos <=? q) && (q <? pos + zlen d)) eqn:Eq.
    - apply H1; auto. lia.
    - apply H2. intros q' Hq'. rewrite <- (located_fun _ _ _ _ Hloc _ Hq'). lia. }
  destruct st; cbn [w_outs w_panic w_fs]; try (repeat split; auto; fail). now destruct Hst.
Qed.

Lemma latest_app ws ws' q : forall old, latest (ws ++ ws') q old = latest ws' q (latest ws q old).
Proof. induction ws as [|[p d] ws IH]; intros old; cbn; auto. Qed.

Lemma WritePiece_data ms : forall w, multi_ok (w_t w) -> w_outs w = [] -> w_panic w = false -> 0 <= t_plen (w_t w) < 2 ^ 30 -> Forall good_msg ms ->
  let w' := WritePiece w ms in
  w_panic w' = false /\
  forall k len p o q, nth_error (entries (w_t w)) k = Some (len, p) -> 0 <= o -> located (map fst (entries (w_t w))) q k o ->
    byte_at (contents (w_fs w') p) o = latest (map (block_write (t_plen (w_t w))) ms) q (byte_at (contents (w_fs w) p) o).
Proof.
  induction ms as [|m ms IH]; intros w Hm Ho Hp Hl Hg; cbn [WritePiece map].
  - split; auto.
  - rewrite Hp. inversion Hg as [|x y Hg1 Hg2]; subst. destruct (write_one_data w m Hm Ho Hp Hl Hg1) as (O1 & P1 & B1).
    pose proof (write_one_layout w m) as SL. pose proof (same_entries _ _ SL) as Ee. pose proof (proj1 SL) as SP.
    assert (Hm1 : multi_ok (w_t (write_one w m))) by (eapply same_multi; [apply write_one_layout|auto]).
    destruct (IH (write_one w m) Hm1 O1 P1 ltac:(rewrite SP; auto) Hg2) as (P2 & B2). split; [exact P2|].
    intros k len p o q Hk Ho' Hloc. change (block_write (t_plen (w_t w)) m :: map (block_write (t_plen (w_t w))) ms) with ([block_write (t_plen (w_t w)) m] ++ map (block_write (t_plen (w_t w))) ms).
    rewrite latest_app, <- (B1 k len p o q) by auto. rewrite (B2 k len p o q); rewrite ?Ee, ?SP; auto.
Qed.

(* the single-file case *)
Lemma single_data ms : forall w h hs, t_isdir (w_t w) = false -> t_osfiles (w_t w) = h :: hs -> w_outs w = [] -> w_panic w = false ->
  0 <= t_plen (w_t w) < 2 ^ 30 -> Forall good_msg ms ->
  let w' := WritePiece w ms in
  w_panic w' = false /\ (forall p, p <> h -> w_fs w' p = w_fs w p) /\
  (forall q, 0 <= q -> byte_at (contents (w_fs w') h) q = latest (map (block_write (t_plen (w_t w))) ms) q (byte_at (contents (w_fs w) h) q)) /\
  zlen (contents (w_fs w') h) = fold_left (fun n wr => match snd wr with [] => n | _ => Z.max n (fst wr + zlen (snd wr)) end) (map (block_write (t_plen (w_t w))) ms) (zlen (contents (w_fs w) h)).
Proof.
  induction ms as [|m ms IH]; intros w h hs Hd Hh Ho Hp Hl Hg; cbn [WritePiece map].
  - repeat split; auto.
  - rewrite Hp. inversion Hg as [|x y Hg1 Hg2]; subst.
    pose proof (write_one_layout w m) as (SP & SF & SO & SI & _).
    assert (H1 : w_outs (write_one w m) = [] /\ w_panic (write_one w m) = false /\
      w_fs (write_one w m) = fs_put (w_fs w) h (pwrite (contents (w_fs w) h) (fst (block_write (t_plen (w_t w)) m)) (snd (block_write (t_plen (w_t w)) m))) /\
      0 <= fst (block_write (t_plen (w_t w)) m)).
    { destruct Hg1 as [Hw [d Hdm]]. unfold block_write. cbn [fst snd]. rewrite Hdm. unfold write_one. rewrite Hdm, Ho, Hp. destruct (pos_nowrap _ _ Hl Hw) as [-> Hr].
      unfold writePieceData. rewrite Hd, Hh. cbn [negb]. unfold WriteAt. replace (_ <? 0) with false by lia. cbn. repeat split; auto; lia. }
    destruct H1 as (O1 & P1 & F1 & Hpos). destruct (IH (write_one w m) h hs) as (P2 & N2 & B2 & L2); try congruence.
    rewrite SP in B2, L2. split; [exact P2|]. split; [|split].
    + intros p Hne. rewrite N2 by auto. rewrite F1. unfold fs_put. now rewrite peq_neq by congruence.
    + intros q Hq. rewrite B2 by auto. cbn [latest]. rewrite F1, contents_put, peq_refl.
      destruct (block_write (t_plen (w_t w)) m) as [pos d] eqn:Eb. cbn [fst snd] in *. cbn [latest]. now rewrite byte_pwrite.
    + cbn [fold_left]. rewrite L2. f_equal. rewrite F1, contents_put, peq_refl. rewrite pwrite_len by auto. reflexivity.
Qed.

(* ---------- marks ---------- *)
Definition completes (plen : Z) (m : msg) (i : Z) : Prop :=
  m_index m = i /\ m_offset m + zlen (snd (block_write plen m)) = plen.
Definition inside_torrent (t : torrent) (m : msg) : Prop :=
  0 <= m_index m < t_pnum t /\ m_index m * t_plen t + m_offset m < total (map fst (entries t)) /\
  m_index m * t_plen t + m_offset m + zlen (snd (block_write (t_plen t) m)) <= total (map fst (entries t)).

Lemma write_one_done w m : multi_ok (w_t w) -> w_outs w = [] -> w_panic w = false -> 0 <= t_plen (w_t w) < 2 ^ 30 -> good_msg m -> inside_torrent (w_t w) m ->
  zlen (snd (block_write (t_plen (w_t w)) m)) < 2 ^ 32 ->
  forall i, 0 <= i -> bs_test (t_downloaded (w_t w)) i = true \/ completes (t_plen (w_t w)) m i -> bs_test (t_downloaded (w_t (write_one w m))) i = true.
Proof.
  intros Hm Ho Hp Hl [Hw [d Hd]] (Hi & Hpos & Hend) Hlen i Hi0 H. apply write_one_marks; [auto|lia|]. destruct H as [H|[Hc1 Hc2]]; [auto|]. right.
  unfold block_write in *. cbn [snd] in *. rewrite Hd in *. exists d. destruct (pos_nowrap _ _ Hl Hw) as [-> Hr].
  destruct (write_exact (w_t w) (w_fs w) _ d Hm Hr) as (f' & o' & st & E & _ & Hst & _). rewrite Ho, E. exists f', o'. repeat split; auto.
  - f_equal. apply Hst. auto.
  - unfold wire_msg in Hw. unfold wrap64. rewrite Z.mod_small; lia.
Qed.

Lemma write_one_dl_len w m : 0 <= m_index m < zlen (t_downloaded (w_t w)) -> zlen (t_downloaded (w_t (write_one w m))) = zlen (t_downloaded (w_t w)).
Proof.
  intros Hi. unfold write_one. destruct (data_of m); cbn; auto. destruct (writePieceData _ _ _ _ _) as [[f' o'] st]. destruct st; cbn; auto.
  destruct (_ =? _); auto. cbn. rewrite bs_set_len by lia. lia.
Qed.

Lemma WritePiece_done ms : forall w, multi_ok (w_t w) -> w_outs w = [] -> w_panic w = false -> 0 <= t_plen (w_t w) < 2 ^ 30 ->
  zlen (t_downloaded (w_t w)) = t_pnum (w_t w) ->
  Forall good_msg ms -> Forall (inside_torrent (w_t w)) ms -> Forall (fun m => zlen (snd (block_write (t_plen (w_t w)) m)) < 2 ^ 32) ms ->
  (forall i, 0 <= i < t_pnum (w_t w) -> bs_test (t_downloaded (w_t w)) i = true \/ exists m, In m ms /\ completes (t_plen (w_t w)) m i) ->
  Done (w_t (WritePiece w ms)) = true.
Proof.
  induction ms as [|m ms IH]; intros w Hm Ho Hp Hl Hz Hg Hin Hs Hall; cbn [WritePiece].
  - unfold Done. apply bs_all_spec. intros j Hj. rewrite Hz in Hj. destruct (Hall j Hj) as [H|(m & [] & _)]. auto.
  - rewrite Hp. inversion Hg as [|? ? G1 G2]; subst. inversion Hin as [|? ? I1 I2]; subst. inversion Hs as [|? ? S1 S2]; subst.
    destruct (write_one_data w m Hm Ho Hp Hl G1) as (O1 & P1 & _).
    pose proof (write_one_layout w m) as SL. pose proof (same_entries _ _ SL) as Ee. pose proof SL as (SP & _ & _ & _ & SN & _).
    apply IH; try assumption.
    + eapply same_multi; eauto.
    + rewrite SP. auto.
    + rewrite write_one_dl_len by (destruct I1; lia). now rewrite SN.
    + unfold inside_torrent in *. rewrite SP, SN, Ee. exact I2.
    + intros i Hi. rewrite SP, SN in *. destruct (Hall i Hi) as [H|(m' & [->|Hm'] & Hc)].
      * left. eapply write_one_done; eauto; lia.
      * left. eapply write_one_done; eauto; lia.
      * right. eauto.
Qed.

(* ---------- lengths ---------- *)
Lemma fold_wrap_total files : forall acc, Forall (fun x => 0 <= tf_length x) files -> 0 <= acc -> acc + total (map tf_length files) < 2 ^ 63 ->
  fold_left (fun acc f => wrap64 (acc + tf_length f)) files acc = acc + total (map tf_length files).
Proof.
  induction files as [|x files IH]; intros acc Hf Ha Ht; cbn [fold_left map total fold_right] in *.
  - lia.
  - inversion Hf; subst. fold (total (map tf_length files)) in *.
    assert (0 <= total (map tf_length files)). { apply total_nonneg. rewrite Forall_map. auto. }
    rewrite IH; auto; unfold wrap64; rewrite ?Z.mod_small; lia.
Qed.
Lemma complete_length_total files : Forall (fun x => 0 <= tf_length x) files -> total (map tf_length files) < 2 ^ 63 ->
  complete_length files = total (map tf_length files).
Proof. intros. unfold complete_length. rewrite fold_wrap_total; auto; lia. Qed.

Lemma pieces_num_ceil L P : 0 <= L <= 2 ^ 53 -> 0 < P <= 2 ^ 53 -> pieces_num L P = - ((- L) / P).
Proof. apply pieces_num_aux. Qed.
Lemma ceil_bounds L P : 0 <= L -> 0 < P -> (- ((- L) / P) - 1) * P < L <= - ((- L) / P) * P.
Proof. intros. pose proof (Z.div_mod (- L) P ltac:(lia)). pose proof (Z.mod_pos_bound (- L) P ltac:(lia)). nia. Qed.

Lemma not_done t i : 0 <= i < zlen (t_downloaded t) -> bs_test (t_downloaded t) i = false -> Done t = false.
Proof.
  intros Hi Ht. destruct (Done t) eqn:E; auto. unfold Done in E. rewrite bs_all_spec in E. rewrite E in Ht by auto. discriminate.
Qed.

Lemma bs_make_len n : 0 <= n < 2 ^ 51 -> zlen (bs_make n) = n.
Proof. intros H. unfold bs_make. replace ((0 <=? n) && (n <? 2 ^ 51)) with true by lia. apply bs_new_len. lia. Qed.
Lemma bs_make_test n i : bs_test (bs_make n) i = false.
Proof. unfold bs_make. destruct (_ && _); [apply bs_new_test|]. unfold bs_test, nthZ. destruct (i <? 0); auto. now destruct (Z.to_nat i). Qed.
Lemma bs_make_new n : 0 <= n < 2 ^ 51 -> bs_make n = bs_new n.
Proof. intros H. unfold bs_make. replace ((0 <=? n) && (n <? 2 ^ 51)) with true by lia. reflexivity. Qed.
