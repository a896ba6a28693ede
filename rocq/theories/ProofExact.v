(* The files of a finished download have their declared lengths: C109.         *)
From Verif Require Import Base ProofBase SpecPath SpecTorrent SpecOrder SpecFinish SpecPeer ModelPath ModelBitset ModelMsg ModelTorrent ModelConn ModelPeer ModelSystem.
From Verif Require Import ProofConn ProofTorrent ProofPath ProofWrite ProofHistory ProofDisk ProofNew ProofLength ProofSystem ProofRequests ProofProgress ProofMsg ProofPeer ProofPeer2 ProofVerified ProofOrder ProofFinish.

Lemma chunks_len ps : Forall (fun p => zlen (p_sha1 p) = 20) ps -> zlen (concat (map p_sha1 ps)) = 20 * zlen ps.
Proof. induction 1; cbn [map concat]; [reflexivity|]. rewrite zlen_app, zlen_cons. lia. Qed.

Section exact.
  Variables (cwd : place) (creat : bytes -> bool) (mk : bool) (f0 : fs) (mi : metainfo) (hash dir : bytes) (f1 : fs) (t : torrent).
  Hypothesis HN : New cwd creat mk f0 mi hash dir = (f1, Ok t).
  Hypothesis HD : NoDup (t_osfiles t).
  Hypothesis HL : Forall (fun n => 0 <= n < 2 ^ 63) (file_lengths mi).
  Hypothesis HP : 0 < mi_piece_length mi < 2 ^ 30.
  Hypothesis HM : mi_length mi <> 0 -> t_pnum t * mi_piece_length mi <= mi_length mi.
  Let lens := file_lengths mi.
  Let plen := mi_piece_length mi.

  Lemma grow_any fx outs pos data : 0 <= pos < 2 ^ 63 ->
    exists f' outs' st, writePieceData fx outs t data pos = (f', outs', st) /\
      (forall k p, nth_error (t_osfiles t) k = Some p -> zlen (contents fx p) <= zlen (contents f' p)) /\
      (forall k p o q, st = WOk -> nth_error (t_osfiles t) k = Some p -> located lens q k o -> pos <= q < pos + zlen data -> o < zlen (contents f' p)) /\
      (mi_length mi <> 0 -> forall p, zlen (contents f' p) <= Z.max (zlen (contents fx p)) (pos + zlen data)).
  Proof.
    intros Hp. unfold lens, file_lengths in *. destruct (mi_length mi =? 0) eqn:E0.
    - assert (HF : Forall (fun x => 0 <= tf_length x < 2 ^ 63) (mi_files mi)) by (rewrite Forall_map in HL; exact HL).
      destruct (new_multi_ok _ _ _ _ _ _ _ _ _ HN ltac:(lia) HD HF) as [(Hd & Hnd & Hs) _].
      destruct (new_entries _ _ _ _ _ _ _ _ _ HN ltac:(lia)) as [E1 E2].
      destruct (multi_len (entries t) fx outs pos data Hnd Hs Hp) as (f' & o' & st & n & E & Hn & _ & X & K & _).
      exists f', o', st. split; [unfold writePieceData; rewrite Hd; exact E|]. split; [|split; [|lia]].
      + intros k p Hk. destruct (entry_at _ _ _ _ _ _ _ _ _ HN ltac:(lia) k p Hk) as [len He].
        destruct (Z.le_gt_cases (zlen (contents fx p)) (zlen (contents f' p))) as [C|C]; [exact C|exfalso].
        pose proof (zlen_nonneg (contents f' p)) as Hz.
        destruct (X k len p (zlen (contents f' p)) He Hz) as [_ C']. specialize (C' (or_introl C)). lia.
      + intros k p o q Hs' Hk Hq Hr. destruct (K Hs') as [Kn _]. destruct (entry_at _ _ _ _ _ _ _ _ _ HN ltac:(lia) k p Hk) as [len He].
        assert (Ho : 0 <= o) by (clear - Hq; induction Hq; lia). apply (X k len p o He Ho). right. exists o, q. rewrite E1. split; [lia|]. split; [exact Hq|lia].
    - destruct (new_single _ _ _ _ _ _ _ _ _ HN ltac:(lia)) as (h & Eh & Hd & _).
      unfold writePieceData. rewrite Hd, Eh. cbn [negb].
      destruct (writeat_cases fx outs h data pos ltac:(lia)) as (n & o' & st & E & Hn & Hst & _).
      rewrite E. exists (fs_put fx h (pwrite (contents fx h) pos (sub data 0 n))), o', st. split; [reflexivity|].
      assert (Hz : zlen (sub data 0 n) = n). { unfold sub, zlen in *. cbn [Z.to_nat skipn]. rewrite firstn_length. lia. }
      split; [|split].
      + intros k p Hk. destruct k as [|k]; [|destruct k; discriminate]. cbn in Hk. inversion Hk; subst p.
        rewrite contents_put, peq_refl, pwrite_len by lia. destruct (sub data 0 n); lia.
      + intros k p o q Hs' Hk Hq Hr. destruct k as [|k]; [|destruct k; discriminate]. cbn in Hk. inversion Hk; subst p. inversion Hq; subst.
        destruct Hst as [[_ ->]|[e He]]; [|congruence]. rewrite contents_put, peq_refl, pwrite_len by lia. rewrite Hz.
        destruct (sub data 0 (zlen data)) eqn:Es; [cbn in Hz; lia|lia].
      + intros _ p. rewrite contents_put. destruct (peq h p) eqn:Ep; [|lia]. apply peq_eq in Ep. subst p. rewrite pwrite_len by lia. rewrite Hz.
        destruct (sub data 0 n); lia.
  Qed.

  Lemma grow_one w m d : same_layout t (w_t w) -> wire_sized m -> m_offset m = 0 -> data_of m = Ok d ->
    (forall k p, nth_error (t_osfiles t) k = Some p -> zlen (contents (w_fs w) p) <= zlen (contents (w_fs (write_one w m)) p)) /\
    (forall i, 0 <= i -> bs_test (t_downloaded (w_t (write_one w m))) i = true -> bs_test (t_downloaded (w_t w)) i = true \/
       forall k p o q, nth_error (t_osfiles t) k = Some p -> located lens q k o -> i * plen <= q < i * plen + plen -> o < zlen (contents (w_fs (write_one w m)) p)) /\
    (mi_length mi <> 0 -> forall p, zlen (contents (w_fs (write_one w m)) p) <= Z.max (zlen (contents (w_fs w) p)) (m_index m * plen + zlen d)).
  Proof.
    intros HS (W1 & W2 & W3) Ho Hd. specialize (W3 d Hd). pose proof (zlen_nonneg d) as Hz.
    assert (Ep : t_plen (w_t w) = plen).
    { destruct HS as (-> & _). destruct (fresh_sets _ _ _ _ _ _ _ _ _ HN) as (_ & _ & _ & ->). reflexivity. }
    destruct (pos_nowrap plen m ltac:(unfold plen; lia) (conj W1 W2)) as [Epos Hpos].
    destruct (grow_any (w_fs w) (w_outs w) (m_index m * plen + m_offset m) d Hpos) as (f' & o' & st & E & G1 & G2 & G3).
    rewrite Ho in *. rewrite Z.add_0_r in E, G2, G3.
    assert (Ew : w_fs (write_one w m) = f' /\
      (t_downloaded (w_t (write_one w m)) = t_downloaded (w_t w) \/
       st = WOk /\ zlen d = plen /\ t_downloaded (w_t (write_one w m)) = bs_set (t_downloaded (w_t w)) (m_index m))).
    { unfold write_one. rewrite Hd, Ho, Ep, Epos. rewrite (write_layout t) by exact HS. rewrite Z.add_0_r, E, Z.add_0_l.
      rewrite (wrap64_small (zlen d)) by lia.
      destruct st; cbn; [|auto..]. destruct (zlen d =? plen) eqn:El; cbn; [|auto]. split; [reflexivity|]. right. repeat split; lia. }
    destruct Ew as [-> Ed]. split; [exact G1|]. split; [|exact G3].
    intros i Hi Hb. destruct Ed as [Ed|(Es & El & Ed)]; rewrite Ed in Hb; [auto|].
    rewrite bs_test_set in Hb by lia. apply orb_true_iff in Hb as [Hb|Hb]; [|auto]. right. intros k p o q Hk Hq Hr.
    apply (G2 k p o q Es Hk Hq). lia.
  Qed.

  Definition reached (w : wstate) : Prop :=
    forall i, 0 <= i -> bs_test (t_downloaded (w_t w)) i = true ->
      forall k p o q, nth_error (t_osfiles t) k = Some p -> located lens q k o -> i * plen <= q < i * plen + plen -> o < zlen (contents (w_fs w) p).
  Lemma reached_run N ms : forall w, same_layout t (w_t w) ->
    Forall (fun m => wire_sized m /\ m_offset m = 0 /\ exists d, data_of m = Ok d /\ m_index m * plen + zlen d <= N) ms -> reached w ->
    reached (WritePiece w ms) /\
    (mi_length mi <> 0 -> (forall p, In p (t_osfiles t) -> zlen (contents (w_fs w) p) <= N) ->
       forall p, In p (t_osfiles t) -> zlen (contents (w_fs (WritePiece w ms)) p) <= N).
  Proof.
    induction ms as [|m ms IH]; intros w HS HF HR; cbn [WritePiece]; [auto|]. destruct (w_panic w); [auto|].
    inversion HF as [|? ? (A & B & d & C & C') HF']; subst. destruct (grow_one w m d HS A B C) as (G1 & G2 & G3).
    destruct (IH (write_one w m)) as [R1 R2]; [eapply same_layout_trans; [exact HS|apply write_one_layout]|exact HF'| |].
    - intros i Hi Hb k p o q Hk Hq Hr. destruct (G2 i Hi Hb) as [H|H]; [|eauto]. specialize (HR i Hi H k p o q Hk Hq Hr). specialize (G1 k p Hk). lia.
    - split; [exact R1|]. intros H0 HB. apply R2; [exact H0|]. intros p Hp. specialize (G3 H0 p). specialize (HB p Hp). lia.
  Qed.

  Lemma located_all ls q : Forall (fun n => 0 <= n) ls -> 0 <= q < total ls -> exists k o, located ls q k o.
  Proof.
    revert q. induction ls as [|n ls IH]; intros q HF Hq; cbn in Hq; [lia|]. inversion HF; subst. fold (total ls) in Hq.
    destruct (Z.lt_ge_cases q n); [exists 0%nat, q; apply loc_here; lia|]. destruct (IH (q - n)) as (k & o & H'); auto; [lia|].
    exists (S k), o. replace q with (n + (q - n)) by lia. now apply loc_next.
  Qed.

  Lemma finished_lengths sha1 outs l w tr : 0 <= t_pnum t < 2 ^ 51 ->
    zlen (mi_pieces mi) = 20 * t_pnum t -> total lens <= t_pnum t * plen ->
    Forall reads_bytes l -> run sha1 l (start (mkW t f1 outs [] false)) = (w, tr) ->
    (forall m, In m (handed tr) -> wire_sized m /\ m_offset m = 0) ->
    (forall m m' d d', In m (handed tr) -> In m' (handed tr) -> data_of m = Ok d -> data_of m' = Ok d' -> sha1 d = sha1 d' -> d = d') ->
    Done (sh_t (wo_sh w)) = true ->
    map (fun p => zlen (contents (w_fs (sh_w (wo_sh w))) p)) (t_osfiles t) = lens.
  Proof.
    intros Hpn Hhs Htot HB HR Hoff Hcol HDn.
    destruct (writer_run _ _ _ _ _ HR) as [HS HH].
    assert (HV := all_verified _ _ _ _ _ HB HR). cbn [w_t] in HV.
    set (ms := wo_taken w) in *. set (w0 := mkW t f1 outs [] false) in *.
    assert (Hin : incl ms (handed tr)) by (rewrite HH; apply incl_appl, incl_refl).
    assert (HVm : forall m, In m (handed tr) -> verified sha1 t m). { intros m Hm. rewrite Forall_forall in HV. apply HV. exact Hm. }
    assert (HF : Forall (fun m => wire_sized m /\ m_offset m = 0 /\ exists d, data_of m = Ok d) ms).
    { apply Forall_forall. intros m Hm. apply Hin in Hm. destruct (Hoff m Hm). destruct (HVm m Hm) as (p & d & _ & E & _). eauto. }
    assert (Hlay : same_layout t (w_t w0)) by apply same_layout_refl.
    assert (HW : Forall wire_sized ms) by (eapply Forall_impl; [|exact HF]; cbn; tauto).
    destruct (fresh_sets _ _ _ _ _ _ _ _ _ HN) as (_ & Edl & _).
    assert (Hall : forall j, 0 <= j < t_pnum t -> bs_test (t_downloaded (w_t (WritePiece w0 ms))) j = true).
    { intros j Hj. destruct HS as (_ & HSd & _). unfold Done, sh_t in HDn. rewrite HSd in HDn.
      eapply bs_all_spec; [exact HDn|]. pose proof (WritePiece_dl_len ms w0 HW) as Hl. unfold w0 in Hl at 1. cbn [w_t] in Hl.
      rewrite Edl, bs_make_len in Hl by lia. fold w0 in Hl. lia. }
    assert (Hno : forall j, bs_test (t_downloaded (w_t w0)) j = false) by (intros j; unfold w0; cbn [w_t]; rewrite Edl; apply bs_make_test).
    assert (Hsame : forall m m' d, In m ms -> In m' ms -> m_index m = m_index m' -> data_of m = Ok d -> data_of m' = Ok d).
    { intros m m' d Hm Hm' Ei Ed. apply Hin in Hm. apply Hin in Hm'.
      destruct (HVm m Hm) as (p & x & V1 & V2 & V3), (HVm m' Hm') as (p' & x' & V1' & V2' & V3').
      assert (x = d) by congruence. subst x. rewrite V2'. f_equal. symmetry.
      eapply Hcol; [exact Hm|exact Hm'|exact V2|exact V2'|]. rewrite Ei in V1. congruence. }
    assert (Hidx : forall m, In m ms -> m_index m < t_pnum t).
    { intros m Hm. destruct (HVm m (Hin m Hm)) as (p & x & V1 & _). apply nthZ_bounds in V1.
      assert (Ep : zlen (t_pieces t) = t_pnum t); [|lia].
      destruct (new_fields _ _ _ _ _ _ _ _ _ HN) as (HPc & _).
      destruct (new_pieces_ok (mi_pieces mi)) as (ps & E1 & E2 & E3); [rewrite Hhs; rewrite Z.mul_comm; apply Z.mod_mul; lia|].
      rewrite HPc in E1. inversion E1. subst ps. pose proof (chunks_len _ (proj1 E3)) as Ec. rewrite E2 in Ec. lia. }
    assert (Hlen : forall m d, In m ms -> data_of m = Ok d -> zlen d = plen).
    { intros m d Hm Ed. pose proof (Hidx m Hm) as Hj. assert (Hw : 0 <= m_index m) by (rewrite Forall_forall in HW; destruct (HW m Hm); lia).
      destruct (marked_had cwd creat mk f0 mi hash dir f1 t HN HD HL HP ms w0 Hlay HF (m_index m) Hw) as [C|(m' & d' & H1 & H2 & H3 & H4)]; [apply Hall; lia|rewrite Hno in C; discriminate|].
      assert (data_of m = Ok d') by (eapply Hsame; [exact H1|exact Hm|exact H2|exact H3]). unfold plen. congruence. }
    assert (Hpl : 0 < plen) by (unfold plen; lia).
    assert (HF2 : Forall (fun m => wire_sized m /\ m_offset m = 0 /\ exists d, data_of m = Ok d /\ m_index m * plen + zlen d <= t_pnum t * plen) ms).
    { rewrite Forall_forall in *. intros m Hm. destruct (HF m Hm) as (A & B & d & C). split; [exact A|]. split; [exact B|]. exists d. split; [exact C|].
      rewrite (Hlen m d Hm C). specialize (Hidx m Hm). nia. }
    destruct (reached_run (t_pnum t * plen) ms w0 Hlay HF2) as [R1 R2].
    { intros j _ C. rewrite Hno in C. discriminate. }
    assert (EF : w_fs (sh_w (wo_sh w)) = w_fs (WritePiece w0 ms)) by apply HS. rewrite EF.
    assert (HLn : Forall (fun n => 0 <= n) lens) by (eapply Forall_impl; [|exact HL]; cbn; lia).
    assert (Low : forall k p n, nth_error (t_osfiles t) k = Some p -> nth_error lens k = Some n -> n <= zlen (contents (w_fs (WritePiece w0 ms)) p)).
    { intros k p n Hk Hn. pose proof (zlen_nonneg (contents (w_fs (WritePiece w0 ms)) p)). destruct (Z.le_gt_cases n 0); [lia|].
      destruct (located_ex lens k n (n - 1) Hn ltac:(lia)) as [q Hq]. pose proof (located_nonneg _ _ _ _ HLn Hq) as Hb.
      pose proof (Z.div_mod q plen ltac:(lia)). pose proof (Z.mod_pos_bound q plen ltac:(lia)).
      assert (Hj : 0 <= q / plen < t_pnum t). { split; [apply Z.div_pos; lia|]. apply Z.div_lt_upper_bound; [lia|]. rewrite Z.mul_comm. lia. }
      assert (n - 1 < zlen (contents (w_fs (WritePiece w0 ms)) p)); [|lia].
      eapply (R1 (q / plen) ltac:(lia) (Hall _ Hj) k p (n - 1) q Hk Hq). nia. }
    assert (Up : forall k p n, nth_error (t_osfiles t) k = Some p -> nth_error lens k = Some n -> zlen (contents (w_fs (WritePiece w0 ms)) p) <= n).
    { intros k p n Hk Hn. pose proof HL as HL'. unfold lens, file_lengths in Hn. unfold file_lengths in HL'. destruct (mi_length mi =? 0) eqn:E0.
      - assert (HFl : Forall (fun x => 0 <= tf_length x < 2 ^ 63) (mi_files mi)) by (rewrite Forall_map in HL'; exact HL').
        destruct (new_multi_ok _ _ _ _ _ _ _ _ _ HN ltac:(lia) HD HFl) as [Hm Hf].
        destruct (new_entries _ _ _ _ _ _ _ _ _ HN ltac:(lia)) as [E1 E2].
        pose proof (WritePiece_fits ms w0 Hm Hf) as Hfit.
        destruct (entry_at _ _ _ _ _ _ _ _ _ HN ltac:(lia) k p Hk) as [len He].
        assert (len = n). { rewrite <- E1, nth_error_map, He in Hn. cbn in Hn. congruence. } subst len.
        apply Hfit. assert (Ee : entries (w_t (WritePiece w0 ms)) = entries t) by exact (same_entries _ _ (WritePiece_layout ms w0)).
        rewrite Ee. eapply nth_error_In, He.
      - destruct (new_single _ _ _ _ _ _ _ _ _ HN ltac:(lia)) as (h & Eh & _ & Hc & _).
        rewrite Eh in Hk. destruct k as [|k]; [|destruct k; discriminate]. cbn in Hk, Hn. inversion Hk; subst p. inversion Hn; subst n.
        pose proof (R2 ltac:(lia)) as R3. assert (In h (t_osfiles t)) by (rewrite Eh; now left).
        specialize (HM ltac:(lia)). fold plen in HM.
        assert (zlen (contents (w_fs (WritePiece w0 ms)) h) <= t_pnum t * plen); [|lia]. apply R3; [|assumption].
        intros p Hp. rewrite Eh in Hp. destruct Hp as [<-|[]]. unfold w0. cbn [w_fs]. rewrite Hc. cbn. nia. }
    pose proof (lens_len cwd creat mk f0 mi hash dir f1 t HN) as Hll. fold lens in Hll.
    apply nth_ext with (d := 0) (d' := 0); [rewrite map_length; exact Hll|]. rewrite map_length. intros n Hn.
    destruct (nth_error (t_osfiles t) n) as [p|] eqn:Ek; [|apply nth_error_None in Ek; lia].
    destruct (nth_error lens n) as [x|] eqn:Ex; [|apply nth_error_None in Ex; lia].
    rewrite (nth_error_nth lens n 0 Ex). rewrite nth_error_nth with (x := zlen (contents (w_fs (WritePiece w0 ms)) p)) by (rewrite nth_error_map, Ek; reflexivity).
    specialize (Low n p x Ek Ex). specialize (Up n p x Ek Ex). lia.
  Qed.
End exact.

Lemma read_whole f p : read_file f p (zlen (contents f p)) = contents f p.
Proof.
  apply same_bytes.
  - intros o Ho. rewrite read_len by apply zlen_nonneg. tauto.
  - intros o Ho. rewrite read_len in Ho by apply zlen_nonneg. now apply read_byte.
Qed.
Lemma stored_whole f : forall ps lens, map (fun p => zlen (contents f p)) ps = lens -> stored f ps lens = concat (map (contents f) ps).
Proof. induction ps as [|p ps IH]; intros lens <-; cbn [map stored concat]; [reflexivity|]. rewrite read_whole. f_equal. now apply IH. Qed.
Lemma split_same {A} : forall (xs ys : list (list A)), map zlen xs = map zlen ys -> concat xs = concat ys -> xs = ys.
Proof.
  induction xs as [|x xs IH]; intros [|y ys] HL HC; cbn in *; try discriminate; [reflexivity|]. inversion HL as [[E1 E2]].
  assert (length x = length y) by (unfold zlen in E1; lia).
  assert (x = y /\ concat xs = concat ys) as [-> E].
  { split.
    - apply (f_equal (firstn (length x))) in HC. rewrite firstn_app, Nat.sub_diag, firstn_all, H, firstn_app, Nat.sub_diag, firstn_all in HC. cbn in HC. now rewrite !app_nil_r in HC.
    - apply (f_equal (skipn (length x))) in HC. rewrite skipn_app, skipn_all, Nat.sub_diag, H, skipn_app, skipn_all, Nat.sub_diag in HC. exact HC. }
  f_equal. auto.
Qed.
(* contents that agree piece by piece *)
Lemma pieces_same (a b : bytes) plen n : 0 < plen -> zlen a = zlen b -> zlen a <= n * plen ->
  (forall i, 0 <= i < n -> piece_of a plen i = piece_of b plen i) -> a = b.
Proof.
  intros Hp HL Hn H. apply same_bytes; [intros; lia|]. intros o Ho.
  pose proof (Z.div_mod o plen ltac:(lia)) as E. pose proof (Z.mod_pos_bound o plen ltac:(lia)) as M.
  assert (Hj : 0 <= o / plen < n). { split; [apply Z.div_pos; lia|]. apply Z.div_lt_upper_bound; [lia|]. rewrite Z.mul_comm. lia. }
  specialize (H _ Hj). unfold piece_of in H.
  assert (G : forall c, byte_at (sub c (o / plen * plen) ((o / plen + 1) * plen)) (o mod plen) = byte_at c o).
  { intros c. rewrite byte_sub by nia. f_equal. lia. }
  rewrite <- (G a), <- (G b), H. reflexivity.
Qed.


Lemma finished_files cwd creat mk f0 mi hash dir f1 t : New cwd creat mk f0 mi hash dir = (f1, Ok t) -> NoDup (t_osfiles t) ->
  Forall (fun n => 0 <= n < 2 ^ 63) (file_lengths mi) -> 0 < mi_piece_length mi < 2 ^ 30 ->
  (mi_length mi <> 0 -> t_pnum t * mi_piece_length mi <= mi_length mi) ->
  forall sha1 outs l w tr, 0 <= t_pnum t < 2 ^ 51 ->
  zlen (mi_pieces mi) = 20 * t_pnum t -> total (file_lengths mi) <= t_pnum t * mi_piece_length mi ->
  Forall reads_bytes l -> run sha1 l (start (mkW t f1 outs [] false)) = (w, tr) ->
  (forall m, In m (handed tr) -> wire_sized m /\ m_offset m = 0) ->
  (forall m m' d d', In m (handed tr) -> In m' (handed tr) -> data_of m = Ok d -> data_of m' = Ok d' -> sha1 d = sha1 d' -> d = d') ->
  Done (sh_t (wo_sh w)) = true ->
  let files := map (contents (w_fs (sh_w (wo_sh w)))) (t_osfiles t) in
  map zlen files = file_lengths mi /\
  forall i, 0 <= i < t_pnum t -> sha1 (piece_of (concat files) (mi_piece_length mi) i) = hash_of (mi_pieces mi) i.
Proof.
  intros HN HD HL HP HM sha1 outs l w tr Hpn Hhs Htot HB HR Hoff Hcol HDn files.
  pose proof (finished_lengths _ _ _ _ _ _ _ _ _ HN HD HL HP HM _ _ _ _ _ Hpn Hhs Htot HB HR Hoff Hcol HDn) as HLen.
  split; [unfold files; rewrite map_map; exact HLen|]. intros i Hi. unfold files. rewrite <- (stored_whole _ _ _ HLen).
  exact (finished _ _ _ _ _ _ _ _ _ HN HD HL HP HM _ _ _ _ _ Hpn HB HR Hoff Hcol HDn i Hi).
Qed.

Lemma whole_files sha1 mi t w : whole_pieces sha1 mi t w ->
  map zlen (files_of t w) = file_lengths mi /\ 0 < mi_piece_length mi /\ total (file_lengths mi) = zlen (mi_pieces mi) / 20 * mi_piece_length mi /\
  forall i, 0 <= i < zlen (mi_pieces mi) / 20 -> sha1 (piece_of (concat (files_of t w)) (mi_piece_length mi) i) = hash_of (mi_pieces mi) i.
Proof.
  intros (cwd & creat & mk & f0 & hash & dir & f1 & outs & l & tr & HN & HD & HL & HP & Hpn & Hhs & Htot & HB & HR & Hoff & Hcol & HDn).
  assert (En : zlen (mi_pieces mi) / 20 = t_pnum t) by (rewrite Hhs, Z.mul_comm; apply Z.div_mul; lia). rewrite En.
  destruct (finished_files _ _ _ _ _ _ _ _ _ HN HD HL HP) with (sha1 := sha1) (outs := outs) (l := l) (w := w) (tr := tr) as [A B]; auto; [|lia|].
  - intros H0. unfold file_lengths in Htot. replace (mi_length mi =? 0) with false in Htot by lia. cbn in Htot. lia.
  - split; [exact A|]. split; [lia|]. split; [exact Htot|exact B].
Qed.
Lemma total_concat (xs : list bytes) : zlen (concat xs) = total (map zlen xs).
Proof. induction xs; cbn [concat map total fold_right]; [reflexivity|]. rewrite zlen_app. unfold total in IHxs. lia. Qed.
Lemma whole_same sha1 mi t t' w w' : whole_pieces sha1 mi t w -> whole_pieces sha1 mi t' w' ->
  (forall i, sha1 (piece_of (concat (files_of t w)) (mi_piece_length mi) i) = sha1 (piece_of (concat (files_of t' w')) (mi_piece_length mi) i) ->
     piece_of (concat (files_of t w)) (mi_piece_length mi) i = piece_of (concat (files_of t' w')) (mi_piece_length mi) i) ->
  files_of t w = files_of t' w'.
Proof.
  intros H H' HC. destruct (whole_files _ _ _ _ H) as (A & P & T & B), (whole_files _ _ _ _ H') as (A' & _ & _ & B').
  apply split_same; [congruence|]. apply pieces_same with (plen := mi_piece_length mi) (n := zlen (mi_pieces mi) / 20); [exact P|rewrite !total_concat; congruence| |].
  - rewrite total_concat, A. lia.
  - intros i Hi. apply HC. rewrite B, B' by exact Hi. reflexivity.
Qed.
