(* A finished download has the content of the torrent: C109.                   *)
From Verif Require Import Base ProofBase SpecPath ModelPath ModelBitset ModelMsg ModelTorrent ModelConn ModelPeer ModelSystem
  SpecPeer SpecTorrent SpecFinish ProofTorrent ProofSystem ProofRequests ProofProgress ProofMsg ProofWrite ProofHistory ProofDisk ProofNew ProofPeer ProofPeer2 ProofVerified ProofWitness.

(* ---------- reading the files ---------- *)
Lemma read_len f p n : 0 <= n -> zlen (read_file f p n) = n.
Proof. intros H. unfold read_file, zlen. rewrite map_length, seq_length. lia. Qed.
Lemma read_byte f p n o : 0 <= o < n -> byte_at (read_file f p n) o = byte_at (contents f p) o.
Proof.
  intros H. unfold byte_at at 1. unfold read_file. fold (contents f p).
  rewrite nth_indep with (d' := byte_at (contents f p) (Z.of_nat 0)) by (rewrite map_length, seq_length; lia).
  rewrite map_nth with (f := fun k => byte_at (contents f p) (Z.of_nat k)), seq_nth by lia. f_equal. lia.
Qed.
Lemma stored_len f : forall lens ps, length ps = length lens -> Forall (fun n => 0 <= n) lens -> zlen (stored f ps lens) = total lens.
Proof.
  induction lens as [|n lens IH]; intros [|p ps] HL HF; try discriminate; [reflexivity|]. inversion HF; subst.
  cbn [stored total fold_right]. rewrite zlen_app, read_len by auto. fold (total lens). rewrite IH; auto.
Qed.
Lemma stored_byte f : forall lens ps q, length ps = length lens -> Forall (fun n => 0 <= n) lens -> 0 <= q < total lens ->
  exists k p o, nth_error ps k = Some p /\ located lens q k o /\ byte_at (stored f ps lens) q = byte_at (contents f p) o.
Proof.
  induction lens as [|n lens IH]; intros [|p ps] q HL HF Hq; try discriminate; [cbn in Hq; lia|]. inversion HF; subst.
  cbn [total fold_right] in Hq. fold (total lens) in Hq. cbn [stored]. destruct (Z.lt_ge_cases q n) as [H|H].
  - exists 0%nat, p, q. split; [reflexivity|]. split; [apply loc_here; lia|]. rewrite nth_app_z by lia.
    rewrite read_len by lia. replace (q <? n) with true by lia. apply read_byte. lia.
  - destruct (IH ps (q - n)) as (k & p' & o & H3 & H4 & H5); auto; [lia|]. exists (S k), p', o. split; [exact H3|]. split.
    + replace q with (n + (q - n)) by lia. now apply loc_next.
    + rewrite nth_app_z by lia. rewrite read_len by lia. replace (q <? n) with false by lia. exact H5.
Qed.
Lemma slice_eq f lens ps a d : length ps = length lens -> Forall (fun n => 0 <= n) lens -> 0 <= a -> a + zlen d <= total lens ->
  (forall k p o q, nth_error ps k = Some p -> located lens q k o -> a <= q < a + zlen d -> byte_at (contents f p) o = byte_at d (q - a)) ->
  sub (stored f ps lens) a (a + zlen d) = d.
Proof.
  intros HL HF Ha Ht H. pose proof (stored_len f lens ps HL HF) as HS. pose proof (zlen_nonneg d) as Hd.
  assert (Hl : zlen (sub (stored f ps lens) a (a + zlen d)) = zlen d).
  { unfold sub, zlen in *. rewrite firstn_length, skipn_length. lia. }
  apply nth_ext with (d := 0) (d' := 0); [unfold zlen in *; lia|].
  intros n Hn. assert (Hn' : 0 <= Z.of_nat n < zlen d) by (unfold zlen in *; lia).
  replace n with (Z.to_nat (Z.of_nat n)) by lia. fold (byte_at d (Z.of_nat n)).
  change (byte_at (sub (stored f ps lens) a (a + zlen d)) (Z.of_nat n) = byte_at d (Z.of_nat n)).
  rewrite byte_sub by lia. destruct (stored_byte f lens ps (a + Z.of_nat n) HL HF) as (k & p & o & H1 & H2 & H3); [lia|].
  rewrite H3, (H k p o _ H1 H2) by lia. f_equal. lia.
Qed.

(* ---------- one message ---------- *)
Section finish.
  Variables (cwd : place) (creat : bytes -> bool) (mk : bool) (f0 : fs) (mi : metainfo) (hash dir : bytes) (f1 : fs) (t : torrent).
  Hypothesis HN : New cwd creat mk f0 mi hash dir = (f1, Ok t).
  Hypothesis HD : NoDup (t_osfiles t).
  Hypothesis HL : Forall (fun n => 0 <= n < 2 ^ 63) (file_lengths mi).
  Hypothesis HP : 0 < mi_piece_length mi < 2 ^ 30.
  Hypothesis HM : mi_length mi <> 0 -> t_pnum t * mi_piece_length mi <= mi_length mi.
  Let lens := file_lengths mi.
  Let plen := mi_piece_length mi.

  Lemma lens_len : length (t_osfiles t) = length lens.
  Proof.
    unfold lens, file_lengths. destruct (mi_length mi =? 0) eqn:E.
    - destruct (new_entries _ _ _ _ _ _ _ _ _ HN ltac:(lia)) as [E1 E2]. rewrite <- E1, <- E2, !map_length. reflexivity.
    - destruct (new_single _ _ _ _ _ _ _ _ _ HN ltac:(lia)) as (h & -> & _). reflexivity.
  Qed.

  Lemma write_any fx outs pos data : 0 <= pos < 2 ^ 63 ->
    exists f' outs' st n, writePieceData fx outs t data pos = (f', outs', st) /\ 0 <= n <= zlen data /\
      (forall k p o q, nth_error (t_osfiles t) k = Some p -> located lens q k o ->
         (pos <= q < pos + n -> byte_at (contents f' p) o = byte_at data (q - pos)) /\
         (~ pos <= q < pos + n -> byte_at (contents f' p) o = byte_at (contents fx p) o)) /\
      (st = WOk -> n = zlen data /\ (mi_length mi = 0 -> pos + zlen data <= total lens)).
  Proof.
    intros Hp. unfold lens, file_lengths in *. destruct (mi_length mi =? 0) eqn:E0.
    - assert (HF : Forall (fun x => 0 <= tf_length x < 2 ^ 63) (mi_files mi)) by (rewrite Forall_map in HL; exact HL).
      destruct (new_multi_ok _ _ _ _ _ _ _ _ _ HN ltac:(lia) HD HF) as [Hm _].
      destruct (new_entries _ _ _ _ _ _ _ _ _ HN ltac:(lia)) as [E1 E2].
      destruct (write_piece_spec t fx outs pos data Hm Hp) as (f' & o' & st & n & E & Hn & [_ W] & _ & _ & K & _).
      exists f', o', st, n. split; [exact E|]. split; [exact Hn|]. split.
      + intros k p o q Hk Hq. destruct (entry_at _ _ _ _ _ _ _ _ _ HN ltac:(lia) k p Hk) as [len He].
        assert (Ho : 0 <= o) by (clear - Hq; induction Hq; lia).
        assert (Hz : zlen (sub data 0 n) = n). { unfold sub, zlen in *. cbn [Z.to_nat skipn]. rewrite firstn_length. lia. }
        destruct (W k len p o He Ho) as [A B]. rewrite E1, Hz in *. split.
        * intros Hr. rewrite (A q Hq Hr). apply byte_sub; lia.
        * intros Hr. apply B. intros q' Hq' Hr'. apply Hr. replace q with q'; [exact Hr'|]. clear - Hq Hq'.
          revert q' Hq'. induction Hq; intros q' Hq'; inversion Hq'; subst; [reflexivity|]. f_equal. auto.
      + intros Hs. destruct (K Hs) as (K1 & _ & K2). rewrite E1 in K2. auto.
    - destruct (new_single _ _ _ _ _ _ _ _ _ HN ltac:(lia)) as (h & Eh & Hd & _).
      unfold writePieceData. rewrite Hd, Eh. cbn [negb].
      destruct (writeat_cases fx outs h data pos ltac:(lia)) as (n & o' & st & E & Hn & Hst & _).
      rewrite E. exists (fs_put fx h (pwrite (contents fx h) pos (sub data 0 n))), o', st, n. split; [reflexivity|]. split; [exact Hn|]. split.
      + intros k p o q Hk Hq. destruct k as [|k]; [|destruct k; discriminate]. cbn in Hk. inversion Hk; subst p.
        inversion Hq; subst. rewrite contents_put, peq_refl, byte_pwrite by lia.
        assert (Hz : zlen (sub data 0 n) = n). { unfold sub, zlen in *. cbn [Z.to_nat skipn]. rewrite firstn_length. lia. }
        rewrite Hz. split; intros Hr.
        * replace ((pos <=? o) && (o <? pos + n)) with true by lia. apply byte_sub; lia.
        * replace ((pos <=? o) && (o <? pos + n)) with false by lia. reflexivity.
      + intros Hs. destruct Hst as [[_ ->]|[e He]]; [|congruence]. split; [auto|lia].
  Qed.

  (* what a message stores does not depend on the marks *)
  Lemma write_layout fx outs t' d pos : same_layout t t' -> writePieceData fx outs t' d pos = writePieceData fx outs t d pos.
  Proof. intros (_ & A & B & C & _). unfold writePieceData, entries. now rewrite A, B, C. Qed.

  Lemma store_one w m d : same_layout t (w_t w) -> wire_sized m -> m_offset m = 0 -> data_of m = Ok d ->
    exists n, 0 <= n <= zlen d /\
      (forall k p o q, nth_error (t_osfiles t) k = Some p -> located lens q k o ->
         (m_index m * plen <= q < m_index m * plen + n -> byte_at (contents (w_fs (write_one w m)) p) o = byte_at d (q - m_index m * plen)) /\
         (~ m_index m * plen <= q < m_index m * plen + n -> byte_at (contents (w_fs (write_one w m)) p) o = byte_at (contents (w_fs w) p) o)) /\
      (forall i, 0 <= i -> bs_test (t_downloaded (w_t (write_one w m))) i = true -> bs_test (t_downloaded (w_t w)) i = true \/
         i = m_index m /\ n = zlen d /\ zlen d = plen /\ (mi_length mi = 0 -> m_index m * plen + plen <= total lens)).
  Proof.
    intros HS (W1 & W2 & W3) Ho Hd. specialize (W3 d Hd). pose proof (zlen_nonneg d) as Hz.
    assert (Ep : t_plen (w_t w) = plen).
    { destruct HS as (-> & _). destruct (fresh_sets _ _ _ _ _ _ _ _ _ HN) as (_ & _ & _ & ->). reflexivity. }
    destruct (pos_nowrap plen m ltac:(unfold plen; lia) (conj W1 W2)) as [Epos Hpos].
    destruct (write_any (w_fs w) (w_outs w) (m_index m * plen + m_offset m) d Hpos) as (f' & o' & st & n & E & Hn & HB & HK).
    rewrite Ho in *. rewrite Z.add_0_r in E, HB, HK.
    assert (Ew : w_fs (write_one w m) = f' /\
      (t_downloaded (w_t (write_one w m)) = t_downloaded (w_t w) \/
       st = WOk /\ zlen d = plen /\ t_downloaded (w_t (write_one w m)) = bs_set (t_downloaded (w_t w)) (m_index m))).
    { unfold write_one. rewrite Hd, Ho, Ep, Epos. rewrite write_layout by exact HS. rewrite Z.add_0_r, E, Z.add_0_l.
      rewrite (wrap64_small (zlen d)) by lia.
      destruct st; cbn; [|auto..]. destruct (zlen d =? plen) eqn:El; cbn; [|auto]. split; [reflexivity|]. right. repeat split; lia. }
    destruct Ew as [-> Ed]. exists n. split; [exact Hn|]. split; [exact HB|].
    intros i Hi Hb. destruct Ed as [Ed|(Es & El & Ed)]; rewrite Ed in Hb; [auto|].
    rewrite bs_test_set in Hb by lia. apply orb_true_iff in Hb as [Hb|Hb]; [|auto]. right. destruct (HK Es) as [K1 K2].
    split; [lia|]. split; [exact K1|]. split; [exact El|]. intros H0. specialize (K2 H0). lia.
  Qed.

  (* a marked piece had a message with all of it *)
  Lemma marked_had ms : forall w, same_layout t (w_t w) ->
    Forall (fun m => wire_sized m /\ m_offset m = 0 /\ exists d, data_of m = Ok d) ms ->
    forall i, 0 <= i -> bs_test (t_downloaded (w_t (WritePiece w ms))) i = true ->
      bs_test (t_downloaded (w_t w)) i = true \/ exists m d, In m ms /\ m_index m = i /\ data_of m = Ok d /\ zlen d = plen.
  Proof.
    induction ms as [|m ms IH]; intros w HS HF i Hi Hb; cbn [WritePiece] in Hb; [auto|].
    destruct (w_panic w); [auto|]. inversion HF as [|? ? (A & B & d & C) HF']; subst.
    destruct (store_one w m d HS A B C) as (n & Hn & _ & HK).
    destruct (IH (write_one w m) (same_layout_trans _ _ _ HS (write_one_layout w m)) HF' i Hi Hb) as [H|(m' & d' & H1 & H2)].
    - destruct (HK i Hi H) as [H'|(H1 & H2 & H3 & _)]; [auto|]. right. exists m, d. cbn. auto.
    - right. exists m', d'. cbn. tauto.
  Qed.

  (* the marked pieces are as their messages had them *)
  Definition kept (ms : list msg) (w : wstate) : Prop :=
    forall i, 0 <= i < t_pnum t -> bs_test (t_downloaded (w_t w)) i = true ->
      exists m d, In m ms /\ m_index m = i /\ data_of m = Ok d /\ zlen d = plen /\ (mi_length mi = 0 -> i * plen + plen <= total lens) /\
        forall k p o q, nth_error (t_osfiles t) k = Some p -> located lens q k o -> i * plen <= q < i * plen + plen ->
          byte_at (contents (w_fs w) p) o = byte_at d (q - i * plen).
  Lemma kept_run all : (forall m d, In m all -> m_index m < t_pnum t -> data_of m = Ok d -> zlen d = plen) ->
    (forall m m' d, In m all -> In m' all -> m_index m = m_index m' -> data_of m = Ok d -> data_of m' = Ok d) ->
    forall ms w, incl ms all -> same_layout t (w_t w) ->
    Forall (fun m => wire_sized m /\ m_offset m = 0 /\ exists d, data_of m = Ok d) ms -> kept all w -> kept all (WritePiece w ms).
  Proof.
    intros Hlen Hsame. induction ms as [|m ms IH]; intros w Hin HS HF HK; cbn [WritePiece]; [exact HK|].
    destruct (w_panic w); [exact HK|]. inversion HF as [|? ? (A & B & d & C) HF']; subst.
    apply IH; [intros x Hx; apply Hin; now right|exact (same_layout_trans _ _ _ HS (write_one_layout w m))|exact HF'|].
    destruct (store_one w m d HS A B C) as (n & Hn & HB & HM'). assert (Hm : In m all) by (apply Hin; now left).
    intros i Hi Hb. destruct (HM' i ltac:(lia) Hb) as [Hold|(-> & Hn' & Hd & Ht)].
    - destruct (HK i Hi Hold) as (x & dx & X1 & X2 & X3 & X4 & X5 & X6). exists x, dx. repeat (split; [assumption|]).
      intros k p o q Hk Hq Hr. destruct (HB k p o q Hk Hq) as [B1 B2].
      assert (Dec : m_index m * plen <= q < m_index m * plen + n \/ ~ m_index m * plen <= q < m_index m * plen + n) by lia.
      destruct Dec as [Dec|Dec]; [|rewrite B2 by exact Dec; eauto].
      assert (Ei : m_index m = i).
      { assert (Hp : 0 < plen) by (unfold plen; lia). destruct (Z.lt_trichotomy (m_index m) i) as [Hlt|[He|Hgt]]; [|exact He|].
        - assert (zlen d = plen) by (apply (Hlen m d Hm); [lia|exact C]). nia.
        - nia. }
      rewrite B1 by exact Dec. rewrite Ei. f_equal. assert (data_of m = Ok dx) by (apply (Hsame x m dx); congruence). congruence.
    - exists m, d. repeat (split; [first [assumption|reflexivity]|]). intros k p o q Hk Hq Hr.
      destruct (HB k p o q Hk Hq) as [B1 _]. apply B1. lia.
  Qed.

  Lemma pieces_are i p : nthZ (t_pieces t) i = Some p -> p_sha1 p = hash_of (mi_pieces mi) i.
  Proof.
    intros H. destruct (new_fields _ _ _ _ _ _ _ _ _ HN) as (HPc & _).
    assert (Hb := nthZ_bounds _ _ _ H).
    destruct (Z.eq_dec (zlen (mi_pieces mi) mod 20) 0) as [E|E].
    - destruct (new_pieces_ok _ E) as (ps & E1 & E2 & E3). rewrite HPc in E1. inversion E1; subst ps.
      unfold hash_of. replace i with (Z.of_nat (Z.to_nat i)) by lia. eapply pieces_hash_at; [exact E2|tauto|].
      unfold nthZ in H. destruct (i <? 0); [discriminate|exact H].
    - destruct (new_pieces_err _ E) as [e E1]. congruence.
  Qed.

  Lemma finished sha1 outs l w tr : 0 <= t_pnum t < 2 ^ 51 ->
    Forall reads_bytes l -> run sha1 l (start (mkW t f1 outs [] false)) = (w, tr) ->
    (forall m, In m (handed tr) -> wire_sized m /\ m_offset m = 0) ->
    (forall m m' d d', In m (handed tr) -> In m' (handed tr) -> data_of m = Ok d -> data_of m' = Ok d' -> sha1 d = sha1 d' -> d = d') ->
    Done (sh_t (wo_sh w)) = true ->
    forall i, 0 <= i < t_pnum t ->
      sha1 (piece_of (stored (w_fs (sh_w (wo_sh w))) (t_osfiles t) lens) plen i) = hash_of (mi_pieces mi) i.
  Proof.
    intros Hpn HB HR Hoff Hcol HDn i Hi.
    destruct (writer_run _ _ _ _ _ HR) as [HS HH].
    assert (HV := all_verified _ _ _ _ _ HB HR). cbn [w_t] in HV.
    set (ms := wo_taken w) in *. set (w0 := mkW t f1 outs [] false) in *.
    assert (Hin : incl ms (handed tr)) by (rewrite HH; apply incl_appl, incl_refl).
    assert (HVm : forall m, In m (handed tr) -> verified sha1 t m). { intros m Hm. rewrite Forall_forall in HV. apply HV. exact Hm. }
    assert (HF : Forall (fun m => wire_sized m /\ m_offset m = 0 /\ exists d, data_of m = Ok d) ms).
    { apply Forall_forall. intros m Hm. apply Hin in Hm. destruct (Hoff m Hm). destruct (HVm m Hm) as (p & d & _ & E & _). eauto. }
    assert (Hlay : same_layout t (w_t w0)) by apply same_layout_refl.
    assert (HW : Forall wire_sized ms) by (eapply Forall_impl; [|exact HF]; cbn; tauto).
    destruct (fresh_sets _ _ _ _ _ _ _ _ _ HN) as (_ & Edl & _).
    assert (Hall : forall j, 0 <= j < t_pnum t -> bs_test (t_downloaded (w_t (WritePiece w0 ms))) j = true).
    { intros j Hj. destruct HS as (_ & HSd & _). unfold Done, sh_t in HDn. rewrite HSd in HDn.
      eapply bs_all_spec; [exact HDn|]. pose proof (WritePiece_dl_len ms w0 HW) as Hl. unfold w0 in Hl at 1. cbn [w_t] in Hl.
      rewrite Edl, bs_make_len in Hl by lia. fold w0 in Hl. lia. }
    assert (Hno : forall j, bs_test (t_downloaded (w_t w0)) j = false) by (intros j; unfold w0; cbn [w_t]; rewrite Edl; apply bs_make_test).
    assert (Hsame : forall m m' d, In m ms -> In m' ms -> m_index m = m_index m' -> data_of m = Ok d -> data_of m' = Ok d).
    { intros m m' d Hm Hm' Ei Ed. apply Hin in Hm. apply Hin in Hm'.
      destruct (HVm m Hm) as (p & x & V1 & V2 & V3), (HVm m' Hm') as (p' & x' & V1' & V2' & V3').
      assert (x = d) by congruence. subst x. rewrite V2'. f_equal. symmetry.
      eapply Hcol; [exact Hm|exact Hm'|exact V2|exact V2'|]. rewrite Ei in V1. congruence. }
    assert (Hlen : forall m d, In m ms -> m_index m < t_pnum t -> data_of m = Ok d -> zlen d = plen).
    { intros m d Hm Hj Ed. assert (Hw : 0 <= m_index m) by (rewrite Forall_forall in HW; destruct (HW m Hm); lia).
      destruct (marked_had ms w0 Hlay HF (m_index m) Hw) as [C|(m' & d' & H1 & H2 & H3 & H4)]; [apply Hall; lia|rewrite Hno in C; discriminate|].
      assert (data_of m = Ok d') by (eapply Hsame; [exact H1|exact Hm|exact H2|exact H3]). congruence. }
    assert (HK : kept ms (WritePiece w0 ms)).
    { apply kept_run; auto; [apply incl_refl|]. intros j _ C. rewrite Hno in C. discriminate. }
    destruct (HK i Hi (Hall i Hi)) as (m & d & K1 & K2 & K3 & K4 & K5 & K6).
    destruct (HVm m (Hin m K1)) as (p & x & V1 & V2 & V3). assert (x = d) by congruence. subst x.
    rewrite <- (pieces_are i p) by congruence. rewrite V3. f_equal.
    assert (EF : w_fs (sh_w (wo_sh w)) = w_fs (WritePiece w0 ms)) by apply HS. rewrite EF.
    unfold piece_of. replace ((i + 1) * plen) with (i * plen + zlen d) by lia. apply slice_eq.
    - exact lens_len.
    - eapply Forall_impl; [|exact HL]. cbn. lia.
    - unfold plen. nia.
    - rewrite K4. destruct (Z.eq_dec (mi_length mi) 0) as [E|E]; [auto|]. unfold lens, file_lengths. replace (mi_length mi =? 0) with false by lia.
      cbn [total fold_right]. specialize (HM E). fold plen in HM. assert (0 < plen) by (unfold plen; lia). nia.
    - intros k pl o q Hk Hq Hr. rewrite K4 in Hr. eapply K6; eassumption.
  Qed.
End finish.

(* ---------- the data of one piece stored over another ---------- *)
Definition seg (k : nat) (b : bytes) : list action := ASpawn false 0 :: to_read k ++ [APeer k (rd b)].
Definition put (k : nat) : list action := [APeer k go; AWriter; AWriter].
Definition over : list action :=
  seg 0 (piece_body 1 0 [5; 6; 7; 8]) ++ put 0 ++ seg 1 (piece_body 0 4 [1; 2; 3; 4]) ++ put 1 ++ seg 2 (piece_body 0 0 [1; 2; 3; 4]) ++ put 2.
Lemma over_run sha1 : exists w tr, run sha1 over (wx_start sha1) = (w, tr) /\
  map (fun m => (m_index m, m_offset m, data_of m)) (handed tr) = [(1, 0, Ok [5; 6; 7; 8]); (0, 4, Ok [1; 2; 3; 4]); (0, 0, Ok [1; 2; 3; 4])] /\
  Done (sh_t (wo_sh w)) = true /\ contents (w_fs (sh_w (wo_sh w))) wx_place = [1; 2; 3; 4; 1; 2; 3; 4].
Proof.
  unfold over, seg, put.
  change (run sha1 _ (wx_start sha1)) with (run sha1 ((ASpawn false 0 :: to_read 0) ++ APeer 0 (rd (piece_body 1 0 [5; 6; 7; 8])) ::
    ([APeer 0 go; AWriter; AWriter] ++ ASpawn false 0 :: to_read 1) ++ APeer 1 (rd (piece_body 0 4 [1; 2; 3; 4])) ::
    ([APeer 1 go; AWriter; AWriter] ++ ASpawn false 0 :: to_read 2) ++ APeer 2 (rd (piece_body 0 0 [1; 2; 3; 4])) :: [APeer 2 go; AWriter; AWriter]) (wx_start sha1)).
  rewrite run_app. destruct (run sha1 (ASpawn false 0 :: to_read 0) (wx_start sha1)) as [w1 e1] eqn:E1.
  vm_compute in E1. inversion E1; subst w1 e1; clear E1.
  cbn [run]. unfold exec at 1. cbn [wo_peers nth_error wo_sh].
  match goal with |- context [crashed ?w] => change (crashed w) with false end. cbv iota.
  erewrite read_good with (u := true) (d := [5; 6; 7; 8]); [|reflexivity..].
  rewrite run_app. match goal with |- context [run sha1 ([APeer 0 go; AWriter; AWriter] ++ ?l) ?w] => destruct (run sha1 ([APeer 0 go; AWriter; AWriter] ++ l) w) as [w1 e1] eqn:E1 end.
  vm_compute in E1. inversion E1; subst w1 e1; clear E1.
  cbn [run]. unfold exec at 1. cbn [wo_peers nth_error wo_sh].
  match goal with |- context [crashed ?w] => change (crashed w) with false end. cbv iota.
  erewrite read_good with (u := true) (d := [1; 2; 3; 4]); [|reflexivity..].
  rewrite run_app. match goal with |- context [run sha1 ([APeer 1 go; AWriter; AWriter] ++ ?l) ?w] => destruct (run sha1 ([APeer 1 go; AWriter; AWriter] ++ l) w) as [w1 e1] eqn:E1 end.
  vm_compute in E1. inversion E1; subst w1 e1; clear E1.
  cbn [run]. unfold exec at 1. cbn [wo_peers nth_error wo_sh].
  match goal with |- context [crashed ?w] => change (crashed w) with false end. cbv iota.
  erewrite read_good with (u := true) (d := [1; 2; 3; 4]); [|reflexivity..].
  vm_compute. eexists _, _. split; [reflexivity|]. repeat split; reflexivity.
Qed.

Lemma content_refuted sha1 : (forall x, length (sha1 x) = 20%nat) -> sha1 [1; 2; 3; 4] <> sha1 [5; 6; 7; 8] ->
  ~ (forall cwd creat mk f0 mi hash dir f1 t l w tr,
       New cwd creat mk f0 mi hash dir = (f1, Ok t) -> NoDup (t_osfiles t) -> Forall (fun n => 0 <= n < 2 ^ 63) (file_lengths mi) ->
       0 < mi_piece_length mi < 2 ^ 30 -> (mi_length mi <> 0 -> t_pnum t * mi_piece_length mi <= mi_length mi) -> 0 <= t_pnum t < 2 ^ 51 ->
       Forall reads_bytes l -> run sha1 l (start (mkW t f1 [] [] false)) = (w, tr) ->
       (forall m m' d d', In m (handed tr) -> In m' (handed tr) -> data_of m = Ok d -> data_of m' = Ok d' -> sha1 d = sha1 d' -> d = d') ->
       Done (sh_t (wo_sh w)) = true ->
       forall i, 0 <= i < t_pnum t ->
         sha1 (piece_of (stored (w_fs (sh_w (wo_sh w))) (t_osfiles t) (file_lengths mi)) (mi_piece_length mi) i) = hash_of (mi_pieces mi) i).
Proof.
  intros H20 Hne H. destruct (over_run sha1) as (w & tr & HR & Hh & Hd & Hc).
  assert (E : sha1 (piece_of (stored (w_fs (sh_w (wo_sh w))) (t_osfiles (wx_t sha1)) (file_lengths (wx_mi sha1))) (mi_piece_length (wx_mi sha1)) 1) = hash_of (mi_pieces (wx_mi sha1)) 1).
  { apply (H _ _ _ _ _ _ _ _ _ over w tr (wx_new sha1 H20)).
    - constructor; [intros []|constructor].
    - constructor; [split; [discriminate|reflexivity]|constructor].
    - split; reflexivity.
    - intros C. exfalso. apply C. reflexivity.
    - split; [discriminate|reflexivity].
    - unfold over, seg, put, to_read. repeat (apply Forall_app; split); repeat constructor; cbn; try discriminate; intros b E; injection E as <-; apply bytes_dec; reflexivity.
    - exact HR.
    - assert (HA : forall m d, In m (handed tr) -> data_of m = Ok d -> d = [1; 2; 3; 4] \/ d = [5; 6; 7; 8]).
      { intros m d Hm Ed. apply (in_map (fun m => (m_index m, m_offset m, data_of m))) in Hm. rewrite Hh, Ed in Hm. cbn in Hm.
        destruct Hm as [E|[E|[E|[]]]]; inversion E; auto. }
      intros m m' d d' Hm Hm' Ed Ed' Es. destruct (HA m d Hm Ed), (HA m' d' Hm' Ed'); subst; congruence.
    - exact Hd.
    - split; [discriminate|reflexivity]. }
  assert (E1 : piece_of (stored (w_fs (sh_w (wo_sh w))) (t_osfiles (wx_t sha1)) (file_lengths (wx_mi sha1))) (mi_piece_length (wx_mi sha1)) 1 = [1; 2; 3; 4]).
  { cbn [wx_t t_osfiles wx_mi file_lengths mi_length Z.eqb mi_files map tf_length stored mi_piece_length]. unfold read_file. fold (contents (w_fs (sh_w (wo_sh w))) wx_place). rewrite Hc. reflexivity. }
  rewrite E1 in E.
  assert (E2 : hash_of (mi_pieces (wx_mi sha1)) 1 = sha1 [5; 6; 7; 8]).
  { unfold hash_of, wx_mi. cbn [mi_pieces]. pose proof (H20 [1; 2; 3; 4]) as L1. pose proof (H20 [5; 6; 7; 8]) as L2.
    unfold sub. change (Z.to_nat (20 * 1)) with 20%nat. change (Z.to_nat (20 * 1 + 20 - 20 * 1)) with 20%nat.
    rewrite skipn_app, skipn_all2 by lia. rewrite L1. cbn [app Nat.sub skipn]. apply firstn_all2. lia. }
  congruence.
Qed.
