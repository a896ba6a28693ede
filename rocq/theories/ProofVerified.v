(* What reaches the writer and the disk: C27.                                  *)
From Verif Require Import Base ProofBase SpecPath ModelPath ModelBitset ModelMsg ModelTorrent ModelConn ModelPeer ModelSystem
  SpecPeer SpecTorrent ProofTorrent ProofSystem ProofRequests ProofProgress ProofMsg ProofWrite ProofDisk ProofNew ProofPeer ProofPeer2.

Lemma handed_app a b : handed (a ++ b) = handed a ++ handed b.
Proof. induction a as [|[k e] a IH]; cbn; [reflexivity|]. destruct e; rewrite ?IH; reflexivity. Qed.

(* ---------- the writer inside the system is WritePiece ---------- *)
Definition sim (w1 w2 : wstate) : Prop :=
  static (w_t w1) = static (w_t w2) /\ t_downloaded (w_t w1) = t_downloaded (w_t w2) /\
  w_fs w1 = w_fs w2 /\ w_outs w1 = w_outs w2 /\ w_added w1 = w_added w2 /\ w_panic w1 = w_panic w2.
Lemma write_data_static f o t1 t2 d pos : static t1 = static t2 -> writePieceData f o t1 d pos = writePieceData f o t2 d pos.
Proof.
  unfold static. intro H. inversion H as [[E1 E2 E3 E4 E5 E6 E7 E8 E9 E10 E11]].
  unfold writePieceData, entries. now rewrite E7, E8, E10.
Qed.
Lemma sim_write w1 w2 m : sim w1 w2 -> sim (write_one w1 m) (write_one w2 m).
Proof.
  intros (H1 & H2 & H3 & H4 & H5 & H6). unfold write_one. destruct (data_of m) as [d| | |].
  2-4: unfold sim; cbn; auto 10.
  rewrite (write_data_static _ _ _ _ _ _ H1), (static_plen _ _ H1), H3, H4, H5, H6.
  destruct (writePieceData _ _ _ _ _) as [[f' o'] st]. destruct st; unfold sim; cbn; auto 10.
  split; [destruct (_ =? _); exact H1|]. split; [|auto 10].
  destruct (_ =? _); [cbn; now rewrite H2|exact H2].
Qed.
Lemma WritePiece_snoc ms m : forall w, WritePiece w (ms ++ [m]) =
  let w' := WritePiece w ms in if w_panic w' then w' else write_one w' m.
Proof.
  induction ms as [|x ms IH]; intro w; cbn.
  - now destruct (w_panic w).
  - destruct (w_panic w) eqn:E; [now rewrite E|]. apply IH.
Qed.

Lemma writer_run sha1 w0 l w tr : run sha1 l (start w0) = (w, tr) ->
  sim (sh_w (wo_sh w)) (WritePiece w0 (wo_taken w)) /\ handed tr = wo_taken w ++ held w ++ sh_ch (wo_sh w).
Proof.
  intro HR.
  apply (run_inv sha1 (fun w tr => sim (sh_w (wo_sh w)) (WritePiece w0 (wo_taken w)) /\ handed tr = wo_taken w ++ held w ++ sh_ch (wo_sh w)) (fun _ => True) (start w0)) with (l := l); auto.
  - cbn. split; [|reflexivity]. unfold sim. auto 10.
  - clear. intros w tr a w' es [HS HH] _ HE. unfold exec in HE.
    destruct (crashed w) eqn:Ec; [inversion HE; subst; rewrite app_nil_r; auto|].
    destruct a as [b g|k i| | |].
    + inversion HE; subst. rewrite app_nil_r. auto.
    + destruct (nth_error (wo_peers w) k) as [r|]; [|inversion HE; subst; rewrite app_nil_r; auto].
      destruct (pstep sha1 i (wo_sh w) r) as [[[s' r'] es']|] eqn:Es; inversion HE; subst; [|rewrite app_nil_r; auto].
      cbn [wo_sh wo_taken]. rewrite handed_app. clear HE Ec.
      assert (X : sim (sh_w s') (sh_w (wo_sh w)) /\ handed (map (pair k) es') = given es' /\ sh_ch s' = sh_ch (wo_sh w) ++ given es').
      { clear HS HH. assert (R : forall x, sim x x) by (intro; unfold sim; auto 10).
        step_cases Es; try (split; [apply R|split; [reflexivity|rewrite ?app_nil_r; reflexivity]]).
        - split; [|split; [reflexivity|cbn; now rewrite app_nil_r]]. unfold sim. cbn.
          match goal with H : Next _ _ = _ |- _ => assert (E1 := static_next _ _ _ _ H); apply next_spec in H; destruct H as (_ & _ & _ & _ & E2) end.
          split; [exact E1|]. rewrite E2. cbn. auto 10.
        - unfold push. destruct (r_req r); (split; [apply R|split; [reflexivity|cbn; now rewrite ?app_nil_r]]).
        - unfold push. destruct (r_req r); (split; [apply R|split; [reflexivity|cbn; now rewrite ?app_nil_r]]). }
      destruct X as (X1 & X2 & X3). split.
      * unfold sim in *. destruct X1 as (-> & -> & -> & -> & -> & ->). exact HS.
      * rewrite HH, X2, X3. unfold held. cbn [wo_hand]. now rewrite !app_assoc.
    + destruct (wo_hand w) as [m|] eqn:Ew;
        [|destruct (sh_ch (wo_sh w)) as [|m ch] eqn:Eh; inversion HE; subst; rewrite app_nil_r; [rewrite Eh; auto|];
          unfold held in *; rewrite Ew in HH; cbn; cbn in HH; auto].
      inversion HE; subst. unfold held in *. rewrite Ew in HH. cbn [wo_sh wo_taken wo_hand sh_w sh_ch]. rewrite app_nil_r. split.
      * rewrite WritePiece_snoc. cbv zeta. 
        assert (P : w_panic (WritePiece w0 (wo_taken w)) = false).
        { destruct HS as (_ & _ & _ & _ & _ & <-). unfold crashed in Ec. apply orb_false_iff in Ec. apply Ec. }
        rewrite P. now apply sim_write.
      * rewrite HH. now rewrite <- app_assoc.
    + inversion HE; subst. rewrite app_nil_r. auto.
    + destruct (wo_main w); [destruct (wg w =? 0)|destruct (sh_cancel (wo_sh w))| |]; inversion HE; subst; rewrite app_nil_r; auto.
  - apply Forall_forall. auto.
Qed.

(* ---------- only verified messages are handed over ---------- *)
Definition fine (sha1 : bytes -> bytes) (t : torrent) (m : msg) : Prop := verified sha1 t m /\ wire_msg m /\ m_type m = PieceT.
Lemma body_fine sha1 t b m : Forall is_byte b -> NewPeerMessage b = Ok m ->
  handlePieceMessage sha1 t (NewPeer t) m = HPut m -> m_type m = PieceT -> fine sha1 t m.
Proof.
  intros Hb HN HH HT. unfold handlePieceMessage in HH. destruct (data_of m) as [d| | |] eqn:Ed; try discriminate.
  unfold CheckPiece in HH. destruct (nthZ (t_pieces t) (m_index m)) as [p|] eqn:Ep; [|discriminate].
  destruct (beq (p_sha1 p) (sha1 d)) eqn:E; [|discriminate]. apply beq_eq in E.
  split; [exists p, d; auto|]. split; [|exact HT].
  destruct b as [|t0 pl]; [inversion HN; subst; discriminate|].
  destruct (new_basic _ _ _ HN) as (_ & Ht & _). rewrite HT in Ht. subst t0.
  inversion Hb as [|? ? _ Hpl]; subst.
  unfold NewPeerMessage in HN. cbn [PieceT HaveT RequestT CancelT Z.eqb Pos.eqb orb] in HN.
  assert (U : forall lo x, uint32_at pl lo = Ok x -> 0 <= x < 2 ^ 32).
  { intros lo x Hx. unfold uint32_at, slice in Hx. destruct (_ && _) eqn:Eb; [|discriminate]. cbn in Hx. inversion Hx; subst.
    apply is_u32_get.
    - apply Forall_forall. intros y Hy. eapply Forall_forall; [exact Hpl|]. eapply sub_in. exact Hy.
    - repeat rewrite andb_true_iff in Eb. unfold sub, zlen. rewrite firstn_length, skipn_length. unfold zlen in Eb. lia. }
  destruct (uint32_at pl 0) as [x| | |] eqn:E0; try discriminate. cbn [bind] in HN.
  destruct (uint32_at pl 4) as [y| | |] eqn:E4; try discriminate. cbn [bind] in HN. inversion HN; subst.
  split; cbn; eauto.
Qed.
Lemma verified_static sha1 t1 t2 m : static t1 = static t2 -> verified sha1 t1 m -> verified sha1 t2 m.
Proof.
  unfold static. intros H (p & d & H1 & H2 & H3). inversion H as [[E1 E2 E3 E4 E5 E6 E7 E8 E9 E10 E11]].
  exists p, d. rewrite <- E5. auto.
Qed.
Lemma handle_body_put sha1 t u r b u' m : Forall is_byte b -> r_pc (handle_body sha1 t u r b) = PPut u' m -> fine sha1 t m.
Proof.
  intros Hb H. unfold handle_body in H. destruct (NewPeerMessage b) as [m0| | |] eqn:HN; try discriminate.
  destruct (handlePeerMessage sha1 t (r_peer r) m0) as [p|m1|] eqn:HH; try discriminate; [destruct u; discriminate|].
  cbn in H. inversion H; subst.
  assert (HT : m_type m0 = PieceT /\ m0 = m).
  { unfold handlePeerMessage in HH. destruct (m_type m0 =? KeepaliveT); [discriminate|].
    destruct (m_type m0 =? BitfieldT); [destruct (Bitfield m0); discriminate|].
    repeat match type of HH with (if ?x then _ else _) = _ => destruct x eqn:?; [try discriminate|] end; try discriminate.
    split; [lia|]. unfold handlePieceMessage in HH. destruct (data_of m0); try discriminate.
    destruct (CheckPiece _ _ _ _) as [[]| | |]; try discriminate. now inversion HH. }
  destruct HT as [HT ->]. eapply body_fine; eauto.
  unfold handlePeerMessage in HH. rewrite HT in HH. cbn in HH.
  unfold handlePieceMessage in *. destruct (data_of m); try discriminate. destruct (CheckPiece _ _ _ _) as [[]| | |]; try discriminate. reflexivity.
Qed.

Lemma all_verified sha1 w0 l w tr : Forall reads_bytes l -> run sha1 l (start w0) = (w, tr) ->
  Forall (fine sha1 (w_t w0)) (handed tr).
Proof.
  intros HB HR.
  cut (Forall (fine sha1 (w_t w0)) (handed tr) /\ (forall k r u m, nth_error (wo_peers w) k = Some r -> r_pc r = PPut u m -> fine sha1 (w_t w0) m) /\
       static (sh_t (wo_sh w)) = static (w_t w0)); [tauto|].
  apply (run_inv sha1 (fun w tr => Forall (fine sha1 (w_t w0)) (handed tr) /\ (forall k r u m, nth_error (wo_peers w) k = Some r -> r_pc r = PPut u m -> fine sha1 (w_t w0) m) /\
       static (sh_t (wo_sh w)) = static (w_t w0)) reads_bytes (start w0)) with (l := l); auto.
  - split; [constructor|]. split; [intros [|k]; discriminate|reflexivity].
  - clear. intros w tr a w' es (H1 & H2 & H3) HB HE.
    assert (HST : static (sh_t (wo_sh w')) = static (w_t w0)).
    { rewrite <- H3. unfold exec in HE. destruct (crashed w); [inversion HE; subst; auto|].
      destruct a as [b g|k i| | |].
      - inversion HE; subst; auto.
      - destruct (nth_error (wo_peers w) k); [|inversion HE; subst; auto].
        destruct (pstep sha1 i (wo_sh w) r) as [[[s' r'] es']|] eqn:Es; inversion HE; subst; auto. eapply static_pstep; eassumption.
      - destruct (wo_hand w); [|destruct (sh_ch (wo_sh w))]; inversion HE; subst; auto. apply static_write.
      - inversion HE; subst; auto.
      - destruct (wo_main w); [destruct (wg w =? 0)|destruct (sh_cancel (wo_sh w))| |]; inversion HE; subst; auto. }
    rewrite handed_app. unfold exec in HE. destruct (crashed w); [inversion HE; subst; rewrite app_nil_r; auto|].
    destruct a as [b g|k i| | |].
    + inversion HE; subst. rewrite app_nil_r. split; [exact H1|]. split; [|exact HST]. cbn.
      intros k r u m Hk Hp. destruct (Nat.lt_ge_cases k (length (wo_peers w))) as [Hl|Hl].
      * rewrite nth_error_app1 in Hk by exact Hl. eauto.
      * rewrite nth_error_app2 in Hk by exact Hl. destruct (k - length (wo_peers w))%nat as [|[|?]]; cbn in Hk; inversion Hk; subst. discriminate.
    + destruct (nth_error (wo_peers w) k) as [r|] eqn:Ek; [|inversion HE; subst; rewrite app_nil_r; auto].
      destruct (pstep sha1 i (wo_sh w) r) as [[[s' r'] es']|] eqn:Es; inversion HE; subst; [|rewrite app_nil_r; auto].
      cbn [wo_sh wo_peers] in *. clear HE.
      assert (X : Forall (fine sha1 (w_t w0)) (handed (map (pair k) es')) /\ (forall u m, r_pc r' = PPut u m -> fine sha1 (w_t w0) m)).
      { cbn in HB. assert (FS : forall m, fine sha1 (sh_t (wo_sh w)) m -> fine sha1 (w_t w0) m).
        { intros m [F1 F2]. split; [|exact F2]. exact (verified_static _ _ _ _ H3 F1). }
        specialize (H2 k r). clear HST.
        step_cases Es; try (split; [constructor|cbn; discriminate]).
        all: try (match goal with |- context [handle_body ?s1 ?t ?u ?r ?b] =>
            split; [constructor|intros u' m' Hp; apply FS; eapply handle_body_put; [|exact Hp]; apply HB; first [assumption|reflexivity]] end).
        all: first [solve [constructor]|eapply H2; first [assumption|reflexivity]]. }
      destruct X as [X1 X2]. split; [apply Forall_app; auto|]. split; [|exact HST].
      intros k' r0 u m Hk Hp. destruct (Nat.eq_dec k' k) as [->|Hne].
      * rewrite (nth_upd_same _ _ _ _ Ek) in Hk. inversion Hk; subst. eauto.
      * rewrite nth_upd_other in Hk by exact Hne. eauto.
    + destruct (wo_hand w); [|destruct (sh_ch (wo_sh w)) as [|m ch]]; inversion HE; subst; rewrite app_nil_r; auto.
    + inversion HE; subst. rewrite app_nil_r. auto.
    + destruct (wo_main w); [destruct (wg w =? 0)|destruct (sh_cancel (wo_sh w))| |]; inversion HE; subst; rewrite app_nil_r; auto.
Qed.

Lemma latest_from writes q old : latest writes q old = old \/
  exists pos d, In (pos, d) writes /\ pos <= q < pos + zlen d /\ latest writes q old = byte_at d (q - pos).
Proof.
  revert old. induction writes as [|[pos d] ws IH]; intro old; cbn; [auto|].
  destruct (IH (if (pos <=? q) && (q <? pos + zlen d) then byte_at d (q - pos) else old)) as [E|(p & x & H1 & H2 & H3)].
  - destruct ((pos <=? q) && (q <? pos + zlen d)) eqn:C; [|auto]. right. exists pos, d. split; [auto|]. split; [lia|exact E].
  - right. exists p, x. auto.
Qed.

(* ---------- C27 ---------- *)
Section disk.
  Variables (cwd : place) (creat : bytes -> bool) (mk : bool) (f0 : fs) (mi : metainfo) (hash dir : bytes) (f1 : fs) (t : torrent).
  Hypothesis HN : New cwd creat mk f0 mi hash dir = (f1, Ok t).
  Hypothesis H0 : mi_length mi = 0.
  Hypothesis HD : NoDup (t_osfiles t).
  Hypothesis HL : Forall (fun x => 0 <= tf_length x < 2 ^ 63) (mi_files mi).
  Hypothesis HP : 0 <= mi_piece_length mi < 2 ^ 30.

  Lemma disk_verified sha1 l w tr : Forall reads_bytes l -> run sha1 l (start (mkW t f1 [] [] false)) = (w, tr) ->
    forall k p o q, nth_error (t_osfiles t) k = Some p -> located (map tf_length (mi_files mi)) q k o ->
      byte_at (contents (w_fs (sh_w (wo_sh w))) p) o = 0 \/
      exists m d, In m (handed tr) /\ verified sha1 t m /\ data_of m = Ok d /\
        m_index m * mi_piece_length mi + m_offset m <= q < m_index m * mi_piece_length mi + m_offset m + zlen d /\
        byte_at (contents (w_fs (sh_w (wo_sh w))) p) o = byte_at d (q - (m_index m * mi_piece_length mi + m_offset m)).
  Proof.
    intros HB HR k p o q Hk Hq.
    destruct (writer_run _ _ _ _ _ HR) as [HS HH].
    assert (HV := all_verified _ _ _ _ _ HB HR). cbn [w_t] in HV.
    assert (HV' : Forall (fine sha1 t) (wo_taken w)) by (rewrite HH in HV; apply Forall_app in HV; apply HV).
    assert (HG : Forall (fun x => wire_msg x /\ exists d, data_of x = Ok d) (wo_taken w)).
    { eapply Forall_impl; [|exact HV']. intros m ((pp & d & _ & E & _) & W & _). split; [exact W|eauto]. }
    destruct (run_new_disk _ _ _ _ _ _ _ _ _ HN (wo_taken w) H0 HD HL HP HG) as [_ HW]. cbv zeta in HW.
    specialize (HW k p o q Hk Hq).
    assert (EF : w_fs (sh_w (wo_sh w)) = w_fs (WritePiece (mkW t f1 [] [] false) (wo_taken w))) by apply HS.
    rewrite EF, HW.
    match goal with |- latest ?ws q 0 = 0 \/ _ => destruct (latest_from ws q 0) as [E|(pos & d & Hi & Hc & E)]; [auto|] end.
    right. apply in_map_iff in Hi. destruct Hi as (m & Em & Hm). inversion Em; subst.
    assert (Hf : fine sha1 t m) by (eapply Forall_forall; eassumption). destruct Hf as ((pp & d & A & B & C) & W & _).
    rewrite B in *. exists m, d. split; [rewrite HH; apply in_app_iff; auto|]. split; [exists pp, d; auto|]. split; [exact B|]. auto.
  Qed.
End disk.

(* single-file torrents *)
Lemma disk_verified_single cwd creat mk f0 mi hash dir f1 t sha1 l w tr :
  New cwd creat mk f0 mi hash dir = (f1, Ok t) -> mi_length mi <> 0 -> 0 <= mi_piece_length mi < 2 ^ 30 ->
  Forall reads_bytes l -> run sha1 l (start (mkW t f1 [] [] false)) = (w, tr) ->
  exists h, t_osfiles t = [h] /\ forall q, 0 <= q ->
      byte_at (contents (w_fs (sh_w (wo_sh w))) h) q = 0 \/
      exists m d, In m (handed tr) /\ verified sha1 t m /\ data_of m = Ok d /\
        m_index m * mi_piece_length mi + m_offset m <= q < m_index m * mi_piece_length mi + m_offset m + zlen d /\
        byte_at (contents (w_fs (sh_w (wo_sh w))) h) q = byte_at d (q - (m_index m * mi_piece_length mi + m_offset m)).
Proof.
  intros HN H0 HP HB HR.
  destruct (writer_run _ _ _ _ _ HR) as [HS HH].
  assert (HV := all_verified _ _ _ _ _ HB HR). cbn [w_t] in HV.
  assert (HV' : Forall (fine sha1 t) (wo_taken w)) by (rewrite HH in HV; apply Forall_app in HV; apply HV).
  assert (HG : Forall (fun x => wire_msg x /\ exists d, data_of x = Ok d) (wo_taken w)).
  { eapply Forall_impl; [|exact HV']. intros m ((pp & d & _ & E & _) & W & _). split; [exact W|eauto]. }
  destruct (run_new_single _ _ _ _ _ _ _ _ _ HN (wo_taken w) H0 HP HG) as (h & Eh & _ & _ & HW). cbv zeta in HW.
  exists h. split; [exact Eh|]. intros q Hq. specialize (HW q Hq).
  assert (EF : w_fs (sh_w (wo_sh w)) = w_fs (WritePiece (mkW t f1 [] [] false) (wo_taken w))) by apply HS.
  rewrite EF, HW.
  match goal with |- latest ?ws q 0 = 0 \/ _ => destruct (latest_from ws q 0) as [E|(pos & d & Hi & Hc & E)]; [auto|] end.
  right. apply in_map_iff in Hi. destruct Hi as (m & Em & Hm). inversion Em; subst.
  assert (Hf : fine sha1 t m) by (eapply Forall_forall; eassumption). destruct Hf as ((pp & d & A & B & C) & W & _).
  rewrite B in *. exists m, d. split; [rewrite HH; apply in_app_iff; auto|]. split; [exists pp, d; auto|]. split; [exact B|]. auto.
Qed.

(* ---------- completion is permanent ---------- *)
Lemma write_done sha1 w m : fine sha1 (w_t w) m -> zlen (t_pieces (w_t w)) <= zlen (t_downloaded (w_t w)) ->
  zlen (t_downloaded (w_t (write_one w m))) = zlen (t_downloaded (w_t w)) /\
  (Done (w_t w) = true -> Done (w_t (write_one w m)) = true).
Proof.
  intros ((p & d & H1 & H2 & H3) & W & _) HL. unfold write_one. rewrite H2.
  destruct (writePieceData _ _ _ _ _) as [[f' o'] st]. destruct st; cbn; try (split; [reflexivity|auto]; fail).
  destruct (_ =? _); [|split; [reflexivity|auto]].
  apply nthZ_bounds in H1. unfold SetDownloaded. cbn [t_downloaded set_downloaded].
  assert (L : zlen (bs_set (t_downloaded (w_t w)) (m_index m)) = zlen (t_downloaded (w_t w))).
  { unfold bs_set, zlen. rewrite set_nth_length. unfold zlen in *. lia. }
  split; [exact L|]. unfold Done. rewrite !bs_all_spec. cbn [t_downloaded set_downloaded]. rewrite L.
  intros H j Hj. rewrite bs_test_set by lia. rewrite H by exact Hj. apply orb_true_r.
Qed.
Lemma static_pieces t1 t2 : static t1 = static t2 -> t_pieces t1 = t_pieces t2.
Proof. unfold static. intro H. now inversion H. Qed.
Lemma done_step sha1 w0 l w tr a w' es : Forall reads_bytes l -> run sha1 l (start w0) = (w, tr) ->
  zlen (t_pieces (w_t w0)) <= zlen (t_downloaded (w_t w0)) -> exec sha1 a w = (w', es) ->
  zlen (t_downloaded (sh_t (wo_sh w))) = zlen (t_downloaded (w_t w0)) ->
  zlen (t_downloaded (sh_t (wo_sh w'))) = zlen (t_downloaded (w_t w0)) /\
  (Done (sh_t (wo_sh w)) = true -> Done (sh_t (wo_sh w')) = true).
Proof.
  intros HB HR HL HE HW.
  assert (Same : t_downloaded (sh_t (wo_sh w')) = t_downloaded (sh_t (wo_sh w)) ->
    zlen (t_downloaded (sh_t (wo_sh w'))) = zlen (t_downloaded (w_t w0)) /\ (Done (sh_t (wo_sh w)) = true -> Done (sh_t (wo_sh w')) = true)).
  { intro E. unfold Done. rewrite E. auto. }
  unfold exec in HE. destruct (crashed w); [inversion HE; subst; now apply Same|].
  destruct a as [b g|k i| | |].
  - inversion HE; subst. now apply Same.
  - destruct (nth_error (wo_peers w) k) as [r|]; [|inversion HE; subst; now apply Same].
    destruct (pstep sha1 i (wo_sh w) r) as [[[s' r'] es']|] eqn:Es; inversion HE; subst; [|now apply Same].
    apply Same. cbn [wo_sh]. clear - Es. step_cases Es; try reflexivity.
    + match goal with H : Next _ _ = _ |- _ => apply next_spec in H; destruct H as (_ & _ & _ & _ & ->) end. reflexivity.
    + unfold push. now destruct (r_req r).
    + unfold push. now destruct (r_req r).
  - destruct (wo_hand w) as [m|] eqn:Eh; [|destruct (sh_ch (wo_sh w)); inversion HE; subst; now apply Same]. inversion HE; subst. cbn [wo_sh].
    assert (HS := static_run _ _ _ _ _ HR).
    assert (HF : fine sha1 (w_t w0) m).
    { assert (HV := all_verified _ _ _ _ _ HB HR). destruct (writer_run _ _ _ _ _ HR) as [_ HH]. unfold held in HH. rewrite HH, Eh in HV.
      apply Forall_app in HV. destruct HV as [_ HV]. now inversion HV. }
    assert (HF' : fine sha1 (w_t (sh_w (wo_sh w))) m).
    { destruct HF as [V F]. split; [|exact F]. exact (verified_static _ _ _ _ (eq_sym HS) V). }
    destruct (write_done sha1 (sh_w (wo_sh w)) m HF') as [A B].
    + change (w_t (sh_w (wo_sh w))) with (sh_t (wo_sh w)). rewrite (static_pieces _ _ HS), HW. exact HL.
    + change (sh_t (mkSh (write_one (sh_w (wo_sh w)) m) (sh_q (wo_sh w)) (sh_ch (wo_sh w)) (sh_closed (wo_sh w)) (sh_cancel (wo_sh w)))) with (w_t (write_one (sh_w (wo_sh w)) m)).
      split; [rewrite A; exact HW|exact B].
  - inversion HE; subst. now apply Same.
  - destruct (wo_main w); [destruct (wg w =? 0)|destruct (sh_cancel (wo_sh w))| |]; inversion HE; subst; now apply Same.
Qed.
Lemma dl_len_run sha1 w0 l w tr : Forall reads_bytes l -> run sha1 l (start w0) = (w, tr) ->
  zlen (t_pieces (w_t w0)) <= zlen (t_downloaded (w_t w0)) ->
  zlen (t_downloaded (sh_t (wo_sh w))) = zlen (t_downloaded (w_t w0)).
Proof.
  revert w tr. induction l as [|a l IH] using rev_ind; intros w tr HB HR HL.
  - cbn in HR. inversion HR. reflexivity.
  - apply Forall_app in HB. destruct HB as [HB1 HB2]. rewrite run_app in HR. destruct (run sha1 l (start w0)) as [w1 e1] eqn:E1.
    cbn [run] in HR. destruct (exec sha1 a w1) as [w2 e2] eqn:E2. inversion HR; subst.
    exact (proj1 (done_step _ _ _ _ _ _ _ _ HB1 E1 HL E2 (IH _ _ HB1 eq_refl HL))).
Qed.

(* ---------- C43, completion ---------- *)
Definition ask2 (c : pc) : Z :=
  match c with
  | PKeep | PChoke | PUTop | PUSend | PURead | PUWait | PPut true _ | PReq | PNext | PSend => 1
  | _ => 0
  end.
Lemma ask2_step sha1 i s r s' r' es : Done (sh_t s) = true -> pstep sha1 i s r = Some (s', r', es) ->
  zlen (requested es) + ask2 (r_pc r') <= ask2 (r_pc r).
Proof.
  intros HD HS.
  step_cases HS; try (match goal with E : Done _ = false |- _ => congruence end);
    try match goal with |- context [handle_body sha1 ?t ?u r ?b] =>
      assert (P' : r_pc (handle_body sha1 t u r b) = (if u then PReq else PTop) \/ r_pc (handle_body sha1 t u r b) = PPanic \/ exists m, r_pc (handle_body sha1 t u r b) = PPut u m);
      [unfold handle_body; destruct (NewPeerMessage b); try (right; left; reflexivity);
       destruct (handlePeerMessage _ _ _ _); [left; reflexivity|right; right; eexists; reflexivity|right; left; reflexivity]|];
      destruct P' as [-> |[-> |[? ->]]]; cbn; lia end.
  all: try match goal with |- context [PPut ?u _] => is_var u; destruct u end.
  all: cbn [r_pc at_pc with_peer ask2 requested].
  all: try (match goal with |- context [if m_type ?m =? RequestT then _ else _] => destruct (m_type m =? RequestT) eqn:Ty; try discriminate Ty end).
  all: unfold zlen; cbn; lia.
Qed.
Lemma done_requests sha1 w0 l1 l2 w1 e1 w2 e2 k r : Forall reads_bytes (l1 ++ l2) ->
  zlen (t_pieces (w_t w0)) <= zlen (t_downloaded (w_t w0)) ->
  run sha1 l1 (start w0) = (w1, e1) -> run sha1 l2 w1 = (w2, e2) -> Done (sh_t (wo_sh w1)) = true ->
  nth_error (wo_peers w1) k = Some r ->
  Done (sh_t (wo_sh w2)) = true /\ exists r', nth_error (wo_peers w2) k = Some r' /\
    zlen (requested (events_of k e2)) + ask2 (r_pc r') <= ask2 (r_pc r).
Proof.
  intros HB HL H1 H2 HD Hk. revert w2 e2 H2. induction l2 as [|a l2 IH] using rev_ind; intros w2 e2 H2.
  - cbn in H2. inversion H2; subst. split; [exact HD|]. exists r. split; [exact Hk|]. cbn. lia.
  - rewrite app_assoc in HB. apply Forall_app in HB. destruct HB as [HB _].
    rewrite run_app in H2. destruct (run sha1 l2 w1) as [w e] eqn:E1. cbn [run] in H2. destruct (exec sha1 a w) as [w' es] eqn:E2.
    inversion H2; subst. destruct (IH HB w e eq_refl) as (D & r' & A & B).
    assert (HR : run sha1 (l1 ++ l2) (start w0) = (w, e1 ++ e)) by (rewrite run_app, H1, E1; reflexivity).
    split; [exact (proj2 (done_step _ _ _ _ _ _ _ _ HB HR HL E2 (dl_len_run _ _ _ _ _ HB HR HL)) D)|].
    rewrite app_nil_r, events_app, requested_app, zlen_app.
    destruct (exec_peer _ _ _ _ _ _ _ E2 A) as [(C1 & C2 & _)|(i & r2 & s2 & es2 & _ & _ & Es & C1 & C2 & _)].
    + exists r'. split; [exact C1|]. rewrite C2. change (zlen (requested [])) with 0. lia.
    + exists r2. split; [exact C1|]. rewrite C2. pose proof (ask2_step _ _ _ _ _ _ _ D Es). lia.
Qed.
Lemma done_requests_bound sha1 w0 l1 l2 w1 e1 w2 e2 k : Forall reads_bytes (l1 ++ l2) ->
  zlen (t_pieces (w_t w0)) <= zlen (t_downloaded (w_t w0)) ->
  run sha1 l1 (start w0) = (w1, e1) -> run sha1 l2 w1 = (w2, e2) -> Done (sh_t (wo_sh w1)) = true ->
  (k < length (wo_peers w1))%nat ->
  Done (sh_t (wo_sh w2)) = true /\ zlen (requested (events_of k e2)) <= 1.
Proof.
  intros HB HL H1 H2 HD Hk. destruct (nth_error (wo_peers w1) k) as [r|] eqn:Ek; [|apply nth_error_None in Ek; lia].
  destruct (done_requests _ _ _ _ _ _ _ _ _ _ HB HL H1 H2 HD Ek) as (D & r' & A & B). split; [exact D|].
  assert (Q : forall c, 0 <= ask2 c <= 1) by (intros []; cbn; try destruct u; lia).
  pose proof (Q (r_pc r)). pose proof (Q (r_pc r')). lia.
Qed.
Lemma writer_in_order sha1 w0 l w tr : run sha1 l (start w0) = (w, tr) ->
  w_fs (sh_w (wo_sh w)) = w_fs (WritePiece w0 (wo_taken w)) /\
  t_downloaded (sh_t (wo_sh w)) = t_downloaded (w_t (WritePiece w0 (wo_taken w))) /\
  handed tr = wo_taken w ++ held w ++ sh_ch (wo_sh w).
Proof. intros HR. destruct (writer_run _ _ _ _ _ HR) as [HS HH]. unfold sim in HS. split; [apply HS|]. split; [apply HS|exact HH]. Qed.
