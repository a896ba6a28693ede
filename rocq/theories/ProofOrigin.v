(* Where the bytes on disk come from: C118.                                    *)
From Verif Require Import Base ProofBase SpecPath ModelPath ModelBitset ModelMsg ModelTorrent ModelConn ModelPeer ModelSystem ModelTracker ModelManager ModelClient
  SpecMsg SpecPeer SpecTorrent SpecFinish SpecManager SpecClient SpecCrash SpecOrigin
  ProofTorrent ProofSystem ProofRequests ProofProgress ProofMsg ProofWrite ProofHistory ProofDisk ProofNew ProofPeer ProofPeer2 ProofVerified ProofFinish
  ProofClient ProofClient2 ProofClient3 ProofClient7.

(* ---------- a message given to the writer was read just before ---------- *)
Lemma put_of_body sha1 t u r b u' m : r_pc (handle_body sha1 t u r b) = PPut u' m -> NewPeerMessage b = Ok m /\ m_type m = PieceT.
Proof.
  intros H. unfold handle_body in H. destruct (NewPeerMessage b) as [m0| | |] eqn:HN; try discriminate.
  destruct (handlePeerMessage sha1 t (r_peer r) m0) as [p|m1|] eqn:HH; try discriminate; [destruct u; discriminate|].
  cbn in H. inversion H; subst.
  unfold handlePeerMessage in HH. destruct (m_type m0 =? KeepaliveT); [discriminate|].
  destruct (m_type m0 =? BitfieldT); [destruct (Bitfield m0); discriminate|].
  repeat match type of HH with (if ?x then _ else _) = _ => destruct x eqn:?; [try discriminate|] end; try discriminate.
  unfold handlePieceMessage in HH. destruct (data_of m0); try discriminate.
  destruct (CheckPiece _ _ _ _) as [[]| | |]; try discriminate. inversion HH; subst. split; [reflexivity|lia].
Qed.
Definition just_read (k : nat) (m : msg) (tr : list (nat * event)) : Prop :=
  exists ta b tb, tr = ta ++ (k, EReadOk b) :: tb /\ (forall e, ~ In (k, e) tb) /\ NewPeerMessage b = Ok m /\ m_type m = PieceT.
Lemma just_read_other k k' m tr es : k <> k' -> just_read k m tr -> just_read k m (tr ++ map (pair k') es).
Proof.
  intros N (ta & b & tb & -> & H & R). exists ta, b, (tb ++ map (pair k') es). split; [now rewrite <- app_assoc|]. split; [|exact R].
  intros e X. apply in_app_or in X. destruct X as [X|X]; [exact (H e X)|]. apply in_map_iff in X. destruct X as (y & X & _). inversion X. congruence.
Qed.
Lemma put_read sha1 w0 l w tr : run sha1 l (start w0) = (w, tr) ->
  (forall t1 k m t2, tr = t1 ++ (k, EPut m) :: t2 -> just_read k m t1) /\
  (forall k r u m, nth_error (wo_peers w) k = Some r -> r_pc r = PPut u m -> just_read k m tr).
Proof.
  intros HR. apply (run_inv sha1 (fun w tr => (forall t1 k m t2, tr = t1 ++ (k, EPut m) :: t2 -> just_read k m t1) /\
    (forall k r u m, nth_error (wo_peers w) k = Some r -> r_pc r = PPut u m -> just_read k m tr)) (fun _ => True) (start w0)) with (l := l); auto.
  - split; [intros [|] ? ? ?; discriminate|intros [|k]; discriminate].
  - clear. intros w tr a w' es (H1 & H2) _ HE. unfold exec in HE. destruct (crashed w); [inversion HE; subst; rewrite app_nil_r; auto|].
    destruct a as [b g|k i| | |].
    + inversion HE; subst. rewrite app_nil_r. split; [exact H1|]. cbn.
      intros k r u m Hk Hp. destruct (Nat.lt_ge_cases k (length (wo_peers w))) as [Hl|Hl].
      * rewrite nth_error_app1 in Hk by exact Hl. eauto.
      * rewrite nth_error_app2 in Hk by exact Hl. destruct (k - length (wo_peers w))%nat as [|[|?]]; cbn in Hk; inversion Hk; subst. discriminate.
    + destruct (nth_error (wo_peers w) k) as [r|] eqn:Ek; [|inversion HE; subst; rewrite app_nil_r; auto].
      destruct (pstep sha1 i (wo_sh w) r) as [[[s' r'] es']|] eqn:Es; inversion HE; subst; [|rewrite app_nil_r; auto].
      cbn [wo_peers]. clear HE.
      assert (X : (forall m, In (EPut m) es' -> es' = [EPut m] /\ exists u, r_pc r = PPut u m) /\
                  (forall u m, r_pc r' = PPut u m -> exists b, es' = [EReadOk b] /\ NewPeerMessage b = Ok m /\ m_type m = PieceT)).
      { clear H1 H2 Ek. step_cases Es; split; try (cbn; intros ? HI; repeat (destruct HI as [HI|HI]; [discriminate HI|]); now destruct HI).
        all: try (intros u' m' Hp; cbn in Hp; discriminate Hp).
        all: try (intros u' m' Hp; eexists; split; [reflexivity|]; eapply put_of_body; exact Hp).
        all: try (intros m' [HI|[]]; inversion HI; subst; split; [reflexivity|]; eexists; first [reflexivity|eassumption]).
        all: try (intros u' m' Hp; cbn in Hp; repeat match type of Hp with context [if ?x then _ else _] => destruct x end; discriminate Hp). }
      destruct X as [X1 X2]. split.
      * intros t1 k0 m t2 HT.
        assert (C : (exists t2', tr = t1 ++ (k0, EPut m) :: t2') \/ (exists e1 e2, t1 = tr ++ e1 /\ map (pair k) es' = e1 ++ (k0, EPut m) :: e2)).
        { clear - HT. revert t1 HT. induction tr as [|x tr IH]; intros t1 HT; [right; exists t1, t2; auto|].
          destruct t1 as [|y t1]; cbn in HT; inversion HT; subst; [left; exists tr; reflexivity|].
          destruct (IH _ H1) as [(t2' & ->)|(e1 & e2 & -> & E)]; [left; exists t2'; reflexivity|right; exists e1, e2; auto]. }
        destruct C as [(t2' & E)|(e1 & e2 & -> & E)]; [exact (H1 _ _ _ _ E)|].
        assert (HI : In (k0, EPut m) (map (pair k) es')) by (rewrite E; apply in_or_app; right; now left).
        apply in_map_iff in HI. destruct HI as (e & HI1 & HI2). inversion HI1; subst k0 e. destruct (X1 _ HI2) as (-> & u & Hp).
        cbn in E. destruct e1 as [|? [|? ?]]; try discriminate. rewrite app_nil_r. exact (H2 _ _ _ _ Ek Hp).
      * intros k' r0 u m Hk Hp. destruct (Nat.eq_dec k' k) as [->|Hne].
        -- rewrite (nth_upd_same _ _ _ _ Ek) in Hk. inversion Hk; subst r0. destruct (X2 _ _ Hp) as (b & -> & R). exists tr, b, []. cbn. auto.
        -- rewrite nth_upd_other in Hk by exact Hne. apply just_read_other; [exact Hne|]. eauto.
    + destruct (wo_hand w); [|destruct (sh_ch (wo_sh w)) as [|m ch]]; inversion HE; subst; rewrite app_nil_r; auto.
    + inversion HE; subst. rewrite app_nil_r. auto.
    + destruct (wo_main w); [destruct (wg w =? 0)|destruct (sh_cancel (wo_sh w))| |]; inversion HE; subst; rewrite app_nil_r; auto.
  - apply Forall_forall. auto.
Qed.
Lemma handed_split tr : forall m, In m (handed tr) -> exists t1 k t2, tr = t1 ++ (k, EPut m) :: t2.
Proof.
  induction tr as [|[k e] tr IH]; intros m H; [destruct H|].
  assert (R : In m (handed tr) -> exists t1 k0 t2, (k, e) :: tr = t1 ++ (k0, EPut m) :: t2).
  { intros X. destruct (IH _ X) as (t1 & k0 & t2 & ->). exists ((k, e) :: t1), k0, t2. reflexivity. }
  destruct e; cbn in H; auto. destruct H as [->|H]; auto. exists [], k, tr. reflexivity.
Qed.
(* the bytes of that message *)
Lemma piece_body_bytes b m d : Forall is_byte b -> NewPeerMessage b = Ok m -> m_type m = PieceT -> data_of m = Ok d ->
  b = piece_bytes (m_index m) (m_offset m) d.
Proof.
  intros Hb HN HT HD. destruct b as [|t0 pl]; [inversion HN; subst; discriminate|].
  destruct (new_basic _ _ _ HN) as (_ & Ht & HPL). rewrite HT in Ht. subst t0. inversion Hb as [|? ? _ Hpl]; subst.
  unfold NewPeerMessage in HN. cbn [PieceT HaveT RequestT CancelT Z.eqb Pos.eqb orb] in HN.
  destruct (uint32_at (m_payload m) 0) as [x| | |] eqn:E0; try discriminate. cbn [bind] in HN.
  destruct (uint32_at (m_payload m) 4) as [y| | |] eqn:E4; try discriminate. cbn [bind] in HN. 
  assert (EI : m_index m = x /\ m_offset m = y) by (inversion HN as [HH]; rewrite <- HH; cbn; auto). destruct EI as [-> ->]. clear HN.
  unfold data_of, Data in HD. rewrite HT in HD. cbn [PieceT Z.eqb Pos.eqb negb] in HD.
  destruct (slice (m_payload m) 8 (zlen (m_payload m))) as [d'| | |] eqn:E8; try discriminate. cbn [bind] in HD. inversion HD; subst d'. clear HD.
  set (pl := m_payload m) in *. clearbody pl.
  destruct pl as [|a0 [|a1 [|a2 [|a3 [|a4 [|a5 [|a6 [|a7 pl]]]]]]]]; try discriminate.
  assert (B4 : forall u v w z, is_byte u -> is_byte v -> is_byte w -> is_byte z -> be32 (be_get [u; v; w; z]) = [u; v; w; z]).
  { intros u v w z Hu Hv Hw Hz. rewrite <- be32_put. change 4%nat with (length [u; v; w; z]). apply be_put_get. repeat (apply Forall_cons; [assumption|]). apply Forall_nil. }
  repeat match goal with H : Forall is_byte (_ :: _) |- _ => inversion H; subst; clear H end.
  unfold uint32_at, slice in E0, E4. 
  match type of E0 with context [if ?x then _ else _] => destruct x; [|discriminate] end.
  match type of E4 with context [if ?x then _ else _] => destruct x; [|discriminate] end.
  unfold slice in E8. match type of E8 with context [if ?x then _ else _] => destruct x; [|discriminate] end.
  cbn [bind] in E0, E4. 
  change (sub (a0 :: a1 :: a2 :: a3 :: a4 :: a5 :: a6 :: a7 :: pl) 0 (0 + 4)) with [a0; a1; a2; a3] in E0.
  change (sub (a0 :: a1 :: a2 :: a3 :: a4 :: a5 :: a6 :: a7 :: pl) 4 (4 + 4)) with [a4; a5; a6; a7] in E4.
  assert (ED : sub (a0 :: a1 :: a2 :: a3 :: a4 :: a5 :: a6 :: a7 :: pl) 8 (zlen (a0 :: a1 :: a2 :: a3 :: a4 :: a5 :: a6 :: a7 :: pl)) = pl).
  { unfold sub. change (Z.to_nat 8) with 8%nat. cbn [skipn]. apply firstn_all2. unfold zlen. cbn [length]. lia. }
  rewrite ED in E8. inversion E0; subst x. inversion E4; subst y. inversion E8; subst d. unfold piece_bytes. rewrite !B4 by assumption. reflexivity.
Qed.

(* ---------- the disk ---------- *)
Section origin.
  Variables (cwd : place) (creat : bytes -> bool) (mk : bool) (f0 : fs) (mi : metainfo) (hash dir : bytes) (f1 : fs) (t : torrent).
  Hypothesis HN : New cwd creat mk f0 mi hash dir = (f1, Ok t).
  Hypothesis HD : NoDup (t_osfiles t).
  Hypothesis HL : Forall (fun n => 0 <= n < 2 ^ 63) (file_lengths mi).
  Hypothesis HP : 0 <= mi_piece_length mi < 2 ^ 30.

  Lemma write_spot fx outs pos data : 0 <= pos < 2 ^ 63 ->
    exists f' outs' st n, writePieceData fx outs t data pos = (f', outs', st) /\ 0 <= n <= zlen data /\
      (forall k p o q, nth_error (t_osfiles t) k = Some p -> spot mi q k o ->
         (pos <= q < pos + n -> byte_at (contents f' p) o = byte_at data (q - pos)) /\
         (~ pos <= q < pos + n -> byte_at (contents f' p) o = byte_at (contents fx p) o)) /\
      (forall p, ~ In p (t_osfiles t) -> f' p = fx p).
  Proof.
    intros Hp. unfold file_lengths in HL. destruct (Z.eq_dec (mi_length mi) 0) as [E0|E0].
    - replace (mi_length mi =? 0) with true in HL by lia.
      assert (HF : Forall (fun x => 0 <= tf_length x < 2 ^ 63) (mi_files mi)) by (rewrite Forall_map in HL; exact HL).
      destruct (new_multi_ok _ _ _ _ _ _ _ _ _ HN E0 HD HF) as [Hm _].
      destruct (new_entries _ _ _ _ _ _ _ _ _ HN E0) as [E1 E2].
      destruct (write_piece_spec t fx outs pos data Hm Hp) as (f' & o' & st & n & E & Hn & [W0 W] & _).
      exists f', o', st, n. split; [exact E|]. split; [exact Hn|]. split; [|rewrite E2 in W0; exact W0].
      intros k p o q Hk [[_ Hq]|[Hq _]]; [|lia]. destruct (entry_at _ _ _ _ _ _ _ _ _ HN E0 k p Hk) as [len He].
      assert (Ho : 0 <= o) by (clear - Hq; induction Hq; lia).
      assert (Hz : zlen (sub data 0 n) = n). { unfold sub, zlen in *. cbn [Z.to_nat skipn]. rewrite firstn_length. lia. }
      destruct (W k len p o He Ho) as [A B]. rewrite E1, Hz in *. split.
      + intros Hr. rewrite (A q Hq Hr). apply byte_sub; lia.
      + intros Hr. apply B. intros q' Hq' Hr'. apply Hr. replace q with q'; [exact Hr'|]. clear - Hq Hq'.
        revert q' Hq'. induction Hq; intros q' Hq'; inversion Hq'; subst; [reflexivity|]. f_equal. auto.
    - destruct (new_single _ _ _ _ _ _ _ _ _ HN E0) as (h & Eh & Hd & _).
      unfold writePieceData. rewrite Hd, Eh. cbn [negb].
      destruct (writeat_cases fx outs h data pos ltac:(lia)) as (n & o' & st & E & Hn & Hst & _).
      rewrite E. exists (fs_put fx h (pwrite (contents fx h) pos (sub data 0 n))), o', st, n. split; [reflexivity|]. split; [exact Hn|]. split.
      + intros k p o q Hk [[Hq _]|(_ & -> & Ho)]; [lia|]. destruct k as [|k]; [|destruct k; discriminate]. cbn in Hk. inversion Hk; subst p.
        rewrite contents_put, peq_refl, byte_pwrite by lia.
        assert (Hz : zlen (sub data 0 n) = n). { unfold sub, zlen in *. cbn [Z.to_nat skipn]. rewrite firstn_length. lia. }
        rewrite Hz. split; intros Hr.
        * replace ((pos <=? o) && (o <? pos + n)) with true by lia. apply byte_sub; lia.
        * replace ((pos <=? o) && (o <? pos + n)) with false by lia. reflexivity.
      + intros p Hp'. unfold fs_put. destruct (peq h p) eqn:EP; [|reflexivity]. apply peq_eq in EP. subst. exfalso. apply Hp'. now left.
  Qed.
  Lemma spot_run ms : forall w, same_layout t (w_t w) -> Forall (fun m => wire_msg m /\ exists d, data_of m = Ok d) ms ->
    (forall k p o q, nth_error (t_osfiles t) k = Some p -> spot mi q k o ->
      byte_at (contents (w_fs (WritePiece w ms)) p) o = byte_at (contents (w_fs w) p) o \/
      exists m d, In m ms /\ data_of m = Ok d /\ 0 <= q - (m_index m * mi_piece_length mi + m_offset m) < zlen d /\
        byte_at (contents (w_fs (WritePiece w ms)) p) o = byte_at d (q - (m_index m * mi_piece_length mi + m_offset m))) /\
    (forall p, ~ In p (t_osfiles t) -> w_fs (WritePiece w ms) p = w_fs w p).
  Proof.
    induction ms as [|m ms IH]; intros w HS HF; cbn [WritePiece]; [auto|].
    destruct (w_panic w); [auto|]. inversion HF as [|? ? (A & d & C) HF']; subst.
    destruct (IH (write_one w m) (same_layout_trans _ _ _ HS (write_one_layout w m)) HF') as [I1 I2].
    assert (Ep : t_plen (w_t w) = mi_piece_length mi).
    { destruct HS as (-> & _). destruct (fresh_sets _ _ _ _ _ _ _ _ _ HN) as (_ & _ & _ & ->). reflexivity. }
    destruct (pos_nowrap (mi_piece_length mi) m HP A) as [Epos Hpos].
    destruct (write_spot (w_fs w) (w_outs w) _ d Hpos) as (f' & o' & st & n & E & Hn & HB & HO).
    assert (Ew : w_fs (write_one w m) = f').
    { unfold write_one. rewrite C, Ep, Epos. rewrite (write_layout t) by exact HS. rewrite E. destruct st; reflexivity. }
    split.
    - intros k p o q Hk Hq. destruct (I1 k p o q Hk Hq) as [H|(m' & d' & H1 & H2 & H3)]; [|right; exists m', d'; cbn; tauto].
      destruct (HB k p o q Hk Hq) as [B1 B2]. rewrite H, Ew.
      destruct (Z_le_dec (m_index m * mi_piece_length mi + m_offset m) q) as [L1|L1]; [destruct (Z_lt_dec q (m_index m * mi_piece_length mi + m_offset m + n)) as [L2|L2]|].
      + right. exists m, d. split; [now left|]. split; [exact C|]. split; [lia|]. apply B1. lia.
      + left. apply B2. lia.
      + left. apply B2. lia.
    - intros p Hp. rewrite I2 by exact Hp. rewrite Ew. apply HO. exact Hp.
  Qed.
  Lemma spot_system sha1 outs l w tr : Forall reads_bytes l -> run sha1 l (start (mkW t f1 outs [] false)) = (w, tr) ->
    (forall k p o q, nth_error (t_osfiles t) k = Some p -> spot mi q k o ->
      byte_at (contents (w_fs (sh_w (wo_sh w))) p) o = 0 \/
      exists m d, In m (handed tr) /\ data_of m = Ok d /\ verified sha1 t m /\ 0 <= q - (m_index m * mi_piece_length mi + m_offset m) < zlen d /\
        byte_at (contents (w_fs (sh_w (wo_sh w))) p) o = byte_at d (q - (m_index m * mi_piece_length mi + m_offset m))) /\
    (forall p, ~ In p (t_osfiles t) -> w_fs (sh_w (wo_sh w)) p = f1 p).
  Proof.
    intros HB HR. destruct (writer_run _ _ _ _ _ HR) as [HS HH].
    assert (HV := all_verified _ _ _ _ _ HB HR). cbn [w_t] in HV. rewrite Forall_forall in HV.
    assert (HT : forall m, In m (wo_taken w) -> In m (handed tr)) by (intros m X; rewrite HH; apply in_app_iff; auto).
    assert (HG : Forall (fun x => wire_msg x /\ exists d, data_of x = Ok d) (wo_taken w)).
    { apply Forall_forall. intros m X. destruct (HV m (HT m X)) as ((pp & d & _ & E & _) & W & _). split; [exact W|eauto]. }
    destruct (spot_run (wo_taken w) (mkW t f1 outs [] false) (same_layout_refl t) HG) as [R1 R2]. cbn [w_fs] in R1, R2.
    assert (EF : w_fs (sh_w (wo_sh w)) = w_fs (WritePiece (mkW t f1 outs [] false) (wo_taken w))) by apply HS.
    rewrite EF. split; [|exact R2].
    intros k p o q Hk Hq. destruct (R1 k p o q Hk Hq) as [H|(m & d & H1 & H2 & H3 & H4)].
    - left. rewrite H. erewrite (new_files_empty _ _ _ _ _ _ _ _ _ HN) by (eapply nth_error_In; eauto). unfold byte_at. now destruct (Z.to_nat o).
    - right. exists m, d. split; [auto|]. split; [exact H2|]. split; [apply HV; auto|]. auto.
  Qed.
  Lemma hash_at sha1 m d : verified sha1 t m -> data_of m = Ok d -> wire_msg m -> sha1 d = hash_of (mi_pieces mi) (m_index m).
  Proof.
    intros (p & d' & H1 & H2 & H3) HD' [W _]. assert (d' = d) by congruence. subst d'. rewrite <- H3. unfold hash_of.
    destruct (new_fields _ _ _ _ _ _ _ _ _ HN) as (Hps & _). destruct (new_pieces_full (mi_pieces mi)) as [He Hok].
    destruct (Z.eq_dec (zlen (mi_pieces mi) mod 20) 0) as [E|E]; [|destruct (He E) as [e Hx]; congruence].
    destruct (Hok E) as (ps & Hps' & _ & _ & Hk). assert (ps = t_pieces t) by congruence. subst ps.
    unfold nthZ in H1. replace (m_index m <? 0) with false in H1 by lia. apply Hk in H1. destruct H1 as [_ ->]. now rewrite Z2Nat.id by lia.
  Qed.
End origin.

(* ---------- the whole client ---------- *)
Lemma sevs_split tr : forall ta x tb, sevs tr = ta ++ x :: tb -> exists t1 t2, tr = t1 ++ VSys (fst x) (snd x) :: t2 /\ sevs t1 = ta.
Proof.
  induction tr as [|e tr IH]; intros ta x tb H; [destruct ta; discriminate|].
  assert (R : sevs tr = ta ++ x :: tb -> sevs (e :: []) = [] -> exists t1 t2, e :: tr = t1 ++ VSys (fst x) (snd x) :: t2 /\ sevs t1 = ta).
  { intros X E. destruct (IH _ _ _ X) as (t1 & t2 & -> & S). exists (e :: t1), t2. split; [reflexivity|]. change (e :: t1) with ([e] ++ t1). rewrite sevs_app, E. exact S. }
  destruct e as [k e| | | |]; try (apply R; [exact H|reflexivity]). change (sevs (VSys k e :: tr)) with ((k, e) :: sevs tr) in H.
  destruct ta as [|y ta]; cbn in H; inversion H; subst; [exists [], tr; auto|].
  destruct (IH _ _ _ H2) as (t1 & t2 & -> & S). exists (VSys k e :: t1), t2. split; [reflexivity|]. change (sevs (VSys k e :: t1)) with ((k, e) :: sevs t1). now rewrite S.
Qed.
Lemma origin cwd creat mk f0 mi hash dir f1 t cf outs urls l c tr :
  New cwd creat mk f0 mi hash dir = (f1, Ok t) -> NoDup (t_osfiles t) -> Forall (fun n => 0 <= n < 2 ^ 63) (file_lengths mi) ->
  0 <= mi_piece_length mi < 2 ^ 30 -> Forall held_reply l -> Forall sends_bytes l ->
  crun cf l (client_start cf t f1 outs urls) = (c, tr) ->
  forall k p o q, nth_error (t_osfiles t) k = Some p -> spot mi q k o ->
    byte_at (contents (w_fs (sh_w (wo_sh (c_wo c)))) p) o = 0 \/
    exists n i off d, from_peer cf (client_start cf t f1 outs urls) l hash tr n (piece_bytes i off d) /\ 0 <= i < 2 ^ 32 /\ 0 <= off < 2 ^ 32 /\
      cf_sha1 cf d = hash_of (mi_pieces mi) i /\
      0 <= q - (i * mi_piece_length mi + off) < zlen d /\
      byte_at (contents (w_fs (sh_w (wo_sh (c_wo c)))) p) o = byte_at d (q - (i * mi_piece_length mi + off)).
Proof.
  intros HN HD HL HP HH HB HR k p o q Hk Hq.
  assert (HB' : Forall (cact_if True) l) by (eapply Forall_impl; [|exact HB]; intros []; cbn; auto).
  destruct (crun_parts True _ _ _ _ _ HB' HR) as (_ & ls & RS & OK).
  assert (RB : Forall reads_bytes ls) by (eapply Forall_impl; [|exact OK]; intros a [X _]; auto).
  destruct (spot_system _ _ _ _ _ _ _ _ _ HN HD HL HP _ _ _ _ _ RB RS) as [SP _].
  destruct (SP k p o q Hk Hq) as [H|(m & d & H1 & H2 & H3 & H4 & H5)]; [left; exact H|right].
  pose proof (all_verified _ _ _ _ _ RB RS) as HV. rewrite Forall_forall in HV. destruct (HV m H1) as (_ & W & TY). cbn [w_t] in HV.
  destruct (handed_split _ _ H1) as (t1 & n & t2 & ET). destruct (put_read _ _ _ _ _ RS) as [PR _].
  destruct (PR _ _ _ _ ET) as (ta & b & tb & -> & _ & NB & _).
  rewrite <- app_assoc in ET. destruct (sevs_split _ _ _ _ ET) as (s1 & s2 & E & _). cbn [fst snd] in E.
  assert (BB : Forall is_byte b).
  { assert (X : forall w0 l w tr, Forall reads_bytes l -> run (cf_sha1 cf) l (start w0) = (w, tr) -> forall k b, In (k, EReadOk b) tr -> Forall is_byte b).
    { clear. intros w0 l w tr HB HR. apply (run_inv (cf_sha1 cf) (fun w tr => forall k b, In (k, EReadOk b) tr -> Forall is_byte b) reads_bytes (start w0)) with (l := l) (w' := w); auto.
      - intros k b [].
      - clear. intros w tr a w' es H HB HE k b X. apply in_app_or in X. destruct X as [X|X]; [exact (H _ _ X)|].
        unfold exec in HE. destruct (crashed w); [inversion HE; subst; destruct X|]. destruct a as [b0 g|k0 i| | |].
        + inversion HE; subst; destruct X.
        + destruct (nth_error (wo_peers w) k0) as [r|]; [|inversion HE; subst; destruct X].
          destruct (pstep (cf_sha1 cf) i (wo_sh w) r) as [[[s' r'] es']|] eqn:Es; inversion HE; subst; [|destruct X].
          apply in_map_iff in X. destruct X as (e & X1 & X2). inversion X1; subst. cbn in HB.
          step_cases Es; cbn in X2; repeat (destruct X2 as [X2|X2]; [try discriminate X2; inversion X2; subst; apply HB; first [assumption|reflexivity]|]); destruct X2.
        + destruct (wo_hand w); [|destruct (sh_ch (wo_sh w)) as [|m ch]]; inversion HE; subst; destruct X.
        + inversion HE; subst; destruct X.
        + destruct (wo_main w); [destruct (wg w =? 0)|destruct (sh_cancel (wo_sh w))| |]; inversion HE; subst; destruct X. }
    apply (X _ _ _ _ RB RS n b). rewrite ET. apply in_or_app. right. now left. }
  pose proof (piece_body_bytes _ _ _ BB NB TY H2) as EB.
  exists n, (m_index m), (m_offset m), d. split; [|split; [apply W|split; [apply W|split; [exact (hash_at _ _ _ _ _ _ _ _ _ HN _ _ _ H3 H2 W)|auto]]]].
  rewrite <- EB. exists s1, s2. split; [exact E|].
  destruct (run_after_handshake _ _ _ _ _ _ _ _ _ _ _ _ HR E) as (pp & evs & j & a & S1 & S2 & S3 & S4).
  assert (EHs : t_hash t = hash) by (destruct (new_fields _ _ _ _ _ _ _ _ _ HN) as (_ & _ & X & _); exact X). rewrite EHs in S2.
  exists pp, evs, j, a. split; [exact S1|]. split; [exact S2|]. split; [exact S3|]. exact (in_reply _ _ _ _ _ _ _ _ _ HR HH E S4).
Qed.
Lemma only_its_files cwd creat mk f0 mi hash dir f1 t cf outs urls l c tr :
  New cwd creat mk f0 mi hash dir = (f1, Ok t) -> NoDup (t_osfiles t) -> Forall (fun n => 0 <= n < 2 ^ 63) (file_lengths mi) ->
  0 <= mi_piece_length mi < 2 ^ 30 -> Forall sends_bytes l ->
  crun cf l (client_start cf t f1 outs urls) = (c, tr) ->
  forall p, ~ In p (t_osfiles t) -> w_fs (sh_w (wo_sh (c_wo c))) p = f1 p.
Proof.
  intros HN HD HL HP HB HR.
  assert (HB' : Forall (cact_if True) l) by (eapply Forall_impl; [|exact HB]; intros []; cbn; auto).
  destruct (crun_parts True _ _ _ _ _ HB' HR) as (_ & ls & RS & OK).
  assert (RB : Forall reads_bytes ls) by (eapply Forall_impl; [|exact OK]; intros a [X _]; auto).
  exact (proj2 (spot_system _ _ _ _ _ _ _ _ _ HN HD HL HP _ _ _ _ _ RB RS)).
Qed.
