(* When every piece has arrived: C124.                                         *)
From Verif Require Import Base ProofBase SpecPath ModelPath ModelBitset ModelMsg ModelTorrent ModelConn ModelPeer ModelSystem ModelTracker ModelManager ModelClient
  SpecMsg SpecPeer SpecTorrent SpecFinish SpecManager SpecClient SpecCrash SpecOrigin SpecArrive
  ProofTorrent ProofSystem ProofRequests ProofProgress ProofMsg ProofWrite ProofHistory ProofDisk ProofNew ProofPeer ProofPeer2 ProofVerified ProofFinish
  ProofClient ProofClient2 ProofClient3 ProofClient4 ProofClient6 ProofClient7 ProofOrigin.
From Verif Require ProofClock ProofManager.

(* ---------- what the writer has was read ---------- *)
Lemma reads_are_bytes sha1 w0 l w tr : Forall reads_bytes l -> run sha1 l (start w0) = (w, tr) -> forall k b, In (k, EReadOk b) tr -> Forall is_byte b.
Proof.
  intros HB HR. apply (run_inv sha1 (fun w tr => forall k b, In (k, EReadOk b) tr -> Forall is_byte b) reads_bytes (start w0)) with (l := l) (w' := w); auto.
  - intros k b [].
  - clear. intros w tr a w' es H HB HE k b X. apply in_app_or in X. destruct X as [X|X]; [exact (H _ _ X)|].
    unfold exec in HE. destruct (crashed w); [inversion HE; subst; destruct X|]. destruct a as [b0 g|k0 i| | |].
    + inversion HE; subst; destruct X.
    + destruct (nth_error (wo_peers w) k0) as [r|]; [|inversion HE; subst; destruct X].
      destruct (pstep sha1 i (wo_sh w) r) as [[[s' r'] es']|] eqn:Es; inversion HE; subst; [|destruct X].
      apply in_map_iff in X. destruct X as (e & X1 & X2). inversion X1; subst. cbn in HB.
      step_cases Es; cbn in X2; repeat (destruct X2 as [X2|X2]; [try discriminate X2; inversion X2; subst; apply HB; first [assumption|reflexivity]|]); destruct X2.
    + destruct (wo_hand w); [|destruct (sh_ch (wo_sh w)) as [|m ch]]; inversion HE; subst; destruct X.
    + inversion HE; subst; destruct X.
    + destruct (wo_main w); [destruct (wg w =? 0)|destruct (sh_cancel (wo_sh w))| |]; inversion HE; subst; destruct X.
Qed.
Lemma client_run cf t f outs urls l c tr : Forall sends_bytes l -> crun cf l (client_start cf t f outs urls) = (c, tr) ->
  exists ls, run (cf_sha1 cf) ls (start (mkW t f outs [] false)) = (c_wo c, sevs tr) /\ Forall reads_bytes ls.
Proof.
  intros HB HR. assert (HB' : Forall (cact_if True) l) by (eapply Forall_impl; [|exact HB]; intros []; cbn; auto).
  destruct (crun_parts True _ _ _ _ _ HB' HR) as (_ & ls & RS & OK). exists ls. split; [exact RS|]. eapply Forall_impl; [|exact OK]. intros a [X _]; auto.
Qed.
Lemma handed_read cf t f outs urls l c tr m : Forall sends_bytes l -> crun cf l (client_start cf t f outs urls) = (c, tr) -> In m (handed (sevs tr)) ->
  fine (cf_sha1 cf) t m /\ forall d, data_of m = Ok d -> read_piece tr (m_index m) (m_offset m) d.
Proof.
  intros HB HR HI. destruct (client_run _ _ _ _ _ _ _ _ HB HR) as (ls & RS & RB).
  pose proof (all_verified _ _ _ _ _ RB RS) as HV. cbn [w_t] in HV. rewrite Forall_forall in HV. pose proof (HV m HI) as HF. split; [exact HF|].
  intros d Hd. destruct HF as (_ & _ & TY).
  destruct (handed_split _ _ HI) as (t1 & n & t2 & ET). destruct (put_read _ _ _ _ _ RS) as [PR _].
  destruct (PR _ _ _ _ ET) as (ta & b & tb & -> & _ & NB & _). exists n.
  assert (X : In (n, EReadOk b) (sevs tr)) by (rewrite ET, <- app_assoc; apply in_or_app; right; now left).
  rewrite <- (piece_body_bytes _ _ _ (reads_are_bytes _ _ _ _ _ RB RS _ _ X) NB TY Hd). apply sevs_in. exact X.
Qed.

(* ---------- what it writes stays ---------- *)
Lemma no_outs fx tt d pos f' o' st : writePieceData fx [] tt d pos = (f', o', st) -> o' = [].
Proof.
  intros E. unfold writePieceData in E.
  assert (W : forall h da off f1 o1 s1, WriteAt fx [] h da off = (f1, o1, s1) -> o1 = []).
  { intros. unfold WriteAt in H. destruct (off <? 0); inversion H; auto. }
  destruct (negb (t_isdir tt)).
  - destruct (t_osfiles tt); [inversion E; auto|eauto].
  - destruct (find_file (entries tt) pos) as [[pos' files]|]; [|inversion E; auto].
    clear W. revert E. generalize fx pos' d. induction files as [|[len h] r IH]; intros f pos1 d1 E; destruct d1 as [|b d1]; cbn [write_loop] in E.
    + inversion E; auto.
    + inversion E; auto.
    + inversion E; auto.
    + destruct (_ <? 0); [inversion E; auto|].
      unfold WriteAt in E. destruct (pos1 <? 0); [inversion E; auto|]. eapply IH, E.
Qed.
Section stays.
  Variables (cwd : place) (creat : bytes -> bool) (mk : bool) (f0 : fs) (mi : metainfo) (hash dir : bytes) (f1 : fs) (t : torrent).
  Hypothesis HN : New cwd creat mk f0 mi hash dir = (f1, Ok t).
  Hypothesis HD : NoDup (t_osfiles t).
  Hypothesis HL : Forall (fun n => 0 <= n < 2 ^ 63) (file_lengths mi).
  Hypothesis HP : 0 < mi_piece_length mi < 2 ^ 30.
  Let plen := mi_piece_length mi.
  Let lens := file_lengths mi.

  Lemma put_all fx pos data : 0 <= pos < 2 ^ 63 ->
    exists f' st, writePieceData fx [] t data pos = (f', [], st) /\ st <> WPanic /\
      forall k p o q, nth_error (t_osfiles t) k = Some p -> located lens q k o ->
        (pos <= q < pos + zlen data -> byte_at (contents f' p) o = byte_at data (q - pos)) /\
        (~ pos <= q < pos + zlen data -> byte_at (contents f' p) o = byte_at (contents fx p) o).
  Proof.
    intros Hp. destruct (writePieceData fx [] t data pos) as [[f' o'] st] eqn:E. pose proof (no_outs _ _ _ _ _ _ _ E) as ->.
    exists f', st. split; [reflexivity|]. unfold lens, file_lengths in *. destruct (mi_length mi =? 0) eqn:E0.
    - assert (HF : Forall (fun x => 0 <= tf_length x < 2 ^ 63) (mi_files mi)) by (rewrite Forall_map in HL; exact HL).
      destruct (write_new_exact _ _ _ _ _ _ _ _ _ HN fx pos data ltac:(lia) HD HF Hp) as (f2 & o2 & st2 & X & _ & W & _ & Z).
      rewrite E in X. inversion X; subst. split; [exact Z|]. intros k p o q Hk Hq.
      assert (Ho : 0 <= o) by (clear - Hq; induction Hq; lia). destruct (W k p o Hk Ho) as [A B]. split; [intros Hr; exact (A q Hq Hr)|].
      intros Hr. apply B. intros q' Hq' Hr'. apply Hr. replace q with q'; [exact Hr'|]. exact (located_fun _ _ _ _ Hq' _ Hq).
    - destruct (new_single _ _ _ _ _ _ _ _ _ HN ltac:(lia)) as (h & Eh & Hd & _). unfold writePieceData in E. rewrite Hd, Eh in E. cbn [negb] in E.
      unfold WriteAt in E. replace (pos <? 0) with false in E by lia. inversion E; subst. split; [discriminate|].
      intros k p o q Hk Hq. rewrite Eh in Hk. destruct k as [|k]; [|destruct k; discriminate]. cbn in Hk. inversion Hk; subst p.
      inversion Hq; subst. rewrite contents_put, peq_refl, byte_pwrite by lia. split; intros Hr.
      + replace ((pos <=? o) && (o <? pos + zlen data)) with true by lia. reflexivity.
      + replace ((pos <=? o) && (o <? pos + zlen data)) with false by lia. reflexivity.
  Qed.
  Definition placed (m : msg) : Prop := wire_msg m /\ m_offset m = 0 /\ exists d, data_of m = Ok d /\ zlen d <= plen.
  Definition has (ms : list msg) (w : wstate) : Prop :=
    forall m d k p o q, In m ms -> data_of m = Ok d -> nth_error (t_osfiles t) k = Some p -> located lens q k o ->
      m_index m * plen <= q < m_index m * plen + zlen d -> byte_at (contents (w_fs w) p) o = byte_at d (q - m_index m * plen).
  Lemma has_run all : Forall placed all -> (forall m m' d, In m all -> In m' all -> m_index m = m_index m' -> data_of m = Ok d -> data_of m' = Ok d) ->
    forall ms old w, incl ms all -> incl old all -> same_layout t (w_t w) -> w_outs w = [] -> w_panic w = false -> has old w ->
      has (old ++ ms) (WritePiece w ms).
  Proof.
    intros HA HS. rewrite Forall_forall in HA. induction ms as [|m ms IH]; intros old w Hin Hold HY HO HPn HH; cbn [WritePiece]; [rewrite app_nil_r; exact HH|].
    rewrite HPn. assert (Hm : In m all) by (apply Hin; now left). destruct (HA m Hm) as (W & Hoff & d & Hd & Hlen).
    assert (Ep : t_plen (w_t w) = plen).
    { destruct HY as (-> & _). destruct (fresh_sets _ _ _ _ _ _ _ _ _ HN) as (_ & _ & _ & ->). reflexivity. }
    destruct (pos_nowrap plen m ltac:(unfold plen; lia) W) as [Epos Hpos]. rewrite Hoff, Z.add_0_r in Hpos.
    destruct (put_all (w_fs w) (m_index m * plen) d Hpos) as (f' & st & E & Hst & HB).
    assert (Ew : w_fs (write_one w m) = f' /\ w_outs (write_one w m) = [] /\ w_panic (write_one w m) = false).
    { unfold write_one. rewrite Hd, Ep, Epos, Hoff, Z.add_0_r, HO. rewrite (write_layout t) by exact HY. rewrite E. destruct st; [cbn; auto..|congruence]. }
    destruct Ew as (E1 & E2 & E3).
    replace (old ++ m :: ms) with ((old ++ [m]) ++ ms) by (rewrite <- app_assoc; reflexivity).
    apply IH; [intros x Hx; apply Hin; now right| |exact (same_layout_trans _ _ _ HY (write_one_layout w m))|exact E2|exact E3|].
    - intros x Hx. apply in_app_or in Hx. destruct Hx as [Hx|[<-|[]]]; auto.
    - intros x dx k p o q Hx Hdx Hk Hq Hr. rewrite E1. destruct (HB k p o q Hk Hq) as [B1 B2].
      assert (Hxa : In x all) by (apply in_app_or in Hx; destruct Hx as [Hx|[<-|[]]]; auto).
      assert (Dec : m_index m * plen <= q < m_index m * plen + zlen d \/ ~ m_index m * plen <= q < m_index m * plen + zlen d) by lia.
      destruct Dec as [Dec|Dec].
      + assert (Ei : m_index x = m_index m).
        { destruct (HA x Hxa) as (_ & _ & dx' & Hdx' & Hl'). assert (dx' = dx) by congruence. subst dx'. assert (0 < plen) by (unfold plen; lia). nia. }
        rewrite B1 by exact Dec. assert (X : data_of m = Ok dx) by (apply (HS x m dx); auto). assert (dx = d) by congruence. subst dx. now rewrite Ei.
      + rewrite B2 by exact Dec. apply in_app_or in Hx. destruct Hx as [Hx|[<-|[]]]; [exact (HH x dx k p o q Hx Hdx Hk Hq Hr)|].
        exfalso. apply Dec. assert (dx = d) by congruence. subst. exact Hr.
  Qed.
  Lemma hashed_below sha1 m N : zlen (mi_pieces mi) = 20 * N -> fine sha1 t m -> m_index m < N.
  Proof.
    intros HZ ((p & d & H1 & _) & (W & _) & _).
    destruct (new_fields _ _ _ _ _ _ _ _ _ HN) as (Hps & _). destruct (new_pieces_full (mi_pieces mi)) as [He Hok].
    destruct (Hok ltac:(rewrite HZ, Z.mul_comm; apply Z.mod_mul; lia)) as (ps & Hps' & HLn & _).
    assert (ps = t_pieces t) by congruence. subst ps. unfold nthZ in H1. replace (m_index m <? 0) with false in H1 by lia.
    assert (X : nth_error (t_pieces t) (Z.to_nat (m_index m)) <> None) by congruence. apply nth_error_Some in X. unfold zlen in *. lia.
  Qed.

  (* every piece taken: complete *)
  Lemma taken_complete cf urls l c tr N : Forall sends_bytes l -> crun cf l (client_start cf t f1 [] urls) = (c, tr) ->
    pieces_of mi N -> in_place (cf_sha1 cf) mi tr -> no_collision (cf_sha1 cf) tr ->
    (forall i, 0 <= i < N -> exists m d, In m (wo_taken (c_wo c)) /\ m_index m = i /\ data_of m = Ok d /\ zlen d = piece_size mi i) ->
    complete (cf_sha1 cf) mi (w_fs (sh_w (wo_sh (c_wo c)))) (t_osfiles t) N.
  Proof.
    intros HB HR (N1 & N2 & N3) HI HC HT. fold plen lens in N2.
    destruct (client_run _ _ _ _ _ _ _ _ HB HR) as (ls & RS & RB). destruct (writer_run _ _ _ _ _ RS) as [SM HH].
    assert (Hin : forall m, In m (wo_taken (c_wo c)) -> In m (handed (sevs tr))) by (intros m X; rewrite HH; apply in_or_app; now left).
    assert (HA : forall m, In m (wo_taken (c_wo c)) -> exists d, wire_msg m /\ data_of m = Ok d /\ read_piece tr (m_index m) (m_offset m) d /\
      cf_sha1 cf d = hash_of (mi_pieces mi) (m_index m) /\ m_offset m = 0 /\ m_index m < N).
    { intros m Hm. destruct (handed_read _ _ _ _ _ _ _ _ _ HB HR (Hin m Hm)) as [HF HRd]. pose proof (hashed_below _ _ _ N3 HF) as Hlt.
      destruct HF as (HV & W & _). pose proof HV as (p & d & _ & Hd & _). exists d. pose proof (hash_at _ _ _ _ _ _ _ _ _ HN _ _ _ HV Hd W) as Hh.
      split; [exact W|]. split; [exact Hd|]. split; [auto|]. split; [exact Hh|]. split; [|exact Hlt]. exact (HI _ _ _ (proj1 W) (proj2 W) (HRd d Hd) Hh). }
    assert (HS : forall m m' d, In m (wo_taken (c_wo c)) -> In m' (wo_taken (c_wo c)) -> m_index m = m_index m' -> data_of m = Ok d -> data_of m' = Ok d).
    { intros m m' d Hm Hm' Ei Hd. destruct (HA m Hm) as (x & _ & X2 & X3 & X4 & _). destruct (HA m' Hm') as (y & _ & Y2 & Y3 & Y4 & _).
      assert (x = d) by congruence. subst x. rewrite Y2. f_equal. symmetry. eapply HC; [exact X3|exact Y3|congruence]. }
    assert (HPl : Forall placed (wo_taken (c_wo c))).
    { apply Forall_forall. intros m Hm. destruct (HA m Hm) as (d & A1 & A2 & _ & _ & A5 & A6). split; [exact A1|]. split; [exact A5|]. exists d. split; [exact A2|].
      destruct (HT (m_index m) ltac:(destruct A1; lia)) as (m' & d' & T1 & T2 & T3 & T4). assert (data_of m = Ok d') by (eapply HS; [exact T1|exact Hm|exact T2|exact T3]).
      assert (d' = d) by congruence. subst. rewrite T4. unfold piece_size. fold plen. lia. }
    pose proof (has_run _ HPl HS (wo_taken (c_wo c)) [] (mkW t f1 [] [] false) (incl_refl _) (fun x (H : In x []) => match H with end) (same_layout_refl t) eq_refl eq_refl
      (fun m d k p o q (H : In m []) => match H with end)) as HH2. cbn [app] in HH2.
    assert (EF : w_fs (sh_w (wo_sh (c_wo c))) = w_fs (WritePiece (mkW t f1 [] [] false) (wo_taken (c_wo c)))) by apply SM.
    intros i Hi. destruct (HT i Hi) as (m & d & T1 & T2 & T3 & T4). destruct (HA m T1) as (d' & _ & A2 & _ & A4 & _). assert (d' = d) by congruence. subst d'.
    rewrite <- T2 at 2. rewrite <- A4. f_equal. rewrite EF. unfold piece_of. fold lens plen.
    assert (HL0 : Forall (fun n => 0 <= n) lens) by (eapply Forall_impl; [|exact HL]; cbn; lia).
    assert (HLn : length (t_osfiles t) = length lens) by exact (lens_len _ _ _ _ _ _ _ _ _ HN).
    assert (Hsz : zlen d = Z.min plen (total lens - i * plen)) by exact T4. assert (Hp0 : 0 < plen) by (unfold plen; lia).
    assert (ES : forall g, sub (stored g (t_osfiles t) lens) (i * plen) ((i + 1) * plen) = sub (stored g (t_osfiles t) lens) (i * plen) (i * plen + zlen d)).
    { intros g. pose proof (stored_len g lens (t_osfiles t) HLn HL0) as SL. destruct (Z.le_gt_cases plen (total lens - i * plen)) as [Q|Q]; [f_equal; nia|].
      unfold sub. rewrite !firstn_all2; [reflexivity|..]; rewrite skipn_length; unfold zlen in *; nia. }
    rewrite ES. apply slice_eq; [exact HLn|exact HL0|nia|lia|].
    intros k p o q Hk Hq Hr. rewrite <- T2 in Hr |- *. eapply HH2; eassumption.
  Qed.
End stays.

(* ---------- the writer gets on ---------- *)
(* how far it is: four turns for one message *)
Definition phase (c : client) : nat := match wo_hand (c_wo c) with None => 0 | Some _ => match c_wr c with WIdle => 1 | WAdded _ => 2 | WSubbed => 3 end end.
Definition far (c : client) : nat := (4 * length (wo_taken (c_wo c)) + phase c)%nat.
Definition waits (c : client) : Prop := wo_hand (c_wo c) = None -> c_wr c = WIdle.
Lemma exec_frame sha1 a w : a <> AWriter -> wo_taken (fst (exec sha1 a w)) = wo_taken w /\ wo_hand (fst (exec sha1 a w)) = wo_hand w.
Proof.
  intros NA. unfold exec. destruct (crashed w); [auto|]. destruct a as [b g|k i| | |]; try (cbn; auto; fail); [|congruence|].
  - destruct (nth_error (wo_peers w) k); [|auto]. destruct (pstep _ _ _ _) as [[[? ?] ?]|]; auto.
  - destruct (wo_main w); [destruct (wg w =? 0)|destruct (sh_cancel (wo_sh w))| |]; auto.
Qed.
Lemma sync_frame cf g w : wo_taken (sync cf g w) = wo_taken w /\ wo_hand (sync cf g w) = wo_hand w.
Proof. unfold sync. destruct (g_cancel g); [|auto]. apply exec_frame. discriminate. Qed.
Lemma other_frame cf a c c' es : cexec cf a c = (c', es) -> a <> KWriter ->
  wo_taken (c_wo c') = wo_taken (c_wo c) /\ wo_hand (c_wo c') = wo_hand (c_wo c) /\ c_wr c' = c_wr c.
Proof.
  intros HE NA. destruct (cexec_move _ _ _ _ _ HE) as [[-> _]|(_ & _ & M)]; [auto|].
  destruct M; try congruence; cbn [c_wo c_wr mgr_step sys_step end_step prt_step set_ctr cnt_step]; auto;
    try (destruct (sync_frame cf (fst r) (c_wo c)) as [-> ->]; auto; fail).
  - destruct (exec_frame (cf_sha1 cf) AMain (c_wo c) ltac:(discriminate)) as [-> ->]. auto.
  - destruct (exec_frame (cf_sha1 cf) (ASpawn false (ct_grp tr)) (sync cf (fst r) (c_wo c)) ltac:(discriminate)) as [-> ->].
    destruct (sync_frame cf (fst r) (c_wo c)) as [-> ->]. auto.
  - subst we. destruct (exec_frame (cf_sha1 cf) (APeer k (inp_of c p i)) (c_wo c) ltac:(discriminate)) as [-> ->]. auto.
Qed.
Lemma writer_frame cf c c' es : cexec cf KWriter c = (c', es) -> waits c -> waits c' /\ (far c <= far c')%nat /\
  (client_status c = None -> g_started (c_mgr c) = true -> (wo_hand (c_wo c) <> None \/ sh_ch (wo_sh (c_wo c)) <> []) -> (far c < far c')%nat).
Proof.
  intros HE HW. destruct (client_status c) eqn:ES.
  - unfold client_status in ES. unfold cexec in HE. destruct (dead c); [|destruct (c_exit c); [|discriminate]]; cbn in HE; inversion HE; subst; split; auto; split; auto; discriminate.
  - assert (L : dead c = false /\ c_exit c = false) by (unfold client_status in ES; destruct (dead c); [discriminate|]; destruct (c_exit c); [discriminate|auto]).
    destruct L as [L1 L2]. unfold cexec in HE. rewrite L1, L2 in HE. cbn [orb] in HE.
    destruct (g_started (c_mgr c)) eqn:G; [|inversion HE; subst; split; auto; split; auto; congruence].
    assert (CR : crashed (c_wo c) = false) by (unfold dead in L1; destruct (g_panic (c_mgr c)), (crashed (c_wo c)); auto; discriminate).
    inversion HE; subst; clear HE. unfold writer_step, exec. rewrite CR. unfold waits, far, phase in *.
    destruct (wo_hand (c_wo c)) as [m|] eqn:Hh; [destruct (c_wr c) eqn:Hw|].
    + destruct (data_of m); cbn; rewrite ?Hh; try (split; [congruence|]; rewrite ?app_length; cbn [length]; lia); (split; [reflexivity|rewrite app_length; cbn [length]; lia]).
    + cbn. rewrite Hh. split; [congruence|lia].
    + cbn. split; [reflexivity|rewrite app_length; cbn [length]; lia].
    + rewrite (HW eq_refl). destruct (sh_ch (wo_sh (c_wo c))) eqn:Hc; cbn; rewrite ?Hh.
      * split; [auto|]. split; [lia|]. intros _ _ [X|X]; congruence.
      * split; [congruence|lia].
Qed.
Lemma gexec_started a g : g_started g = true -> g_started (fst (gexec a g)) = true.
Proof.
  intros H. unfold gexec. destruct (g_panic g); [exact H|]. destruct a as [n|j i|k| | |]; try (cbn; exact H).
  - now rewrite H.
  - destruct (nth_error (g_trk g) j) as [c|]; [|exact H]. destruct (tstep g j c i) as [[g' es]|] eqn:E; [|exact H].
    destruct (ProofClock.tstep_local _ _ _ _ _ _ E) as [X _]. cbn. now rewrite X.
  - destruct (nth_error (g_peers g) k) as [p|]; [|exact H]. destruct (mp_state p); exact H.
  - destruct (g_stop g); [exact H|]. unfold stop_check. destruct (g_pool g); [destruct (g_started g) eqn:X|]; cbn; rewrite ?X; auto; exact H.
  - destruct (g_stop g); [|exact H]. unfold stop_close. destruct (close_all _ _ _); exact H.
Qed.
Lemma cexec_started cf a c c' es : cexec cf a c = (c', es) -> g_started (c_mgr c) = true -> g_started (c_mgr c') = true.
Proof.
  intros HE H. destruct (cexec_move _ _ _ _ _ HE) as [[-> _]|(_ & _ & M)]; [exact H|].
  destruct M; try subst r; cbn [c_mgr mgr_step sys_step end_step prt_step set_ctr cnt_step]; try (apply gexec_started; exact H); try exact H.
  destruct (returned (fst we) k); [apply gexec_started; exact H|exact H].
Qed.
Lemma not_started cf t f outs urls l : forall c tr, crun cf l (client_start cf t f outs urls) = (c, tr) -> g_started (c_mgr c) = false -> c_run c = [] /\ sevs tr = [].
Proof.
  induction l as [|a l IH] using rev_ind; intros c tr HR HG; [inversion HR; subst; auto|].
  rewrite crun_snoc in HR. destruct (crun cf l (client_start cf t f outs urls)) as [c1 e1] eqn:E. destruct (cexec cf a c1) as [c2 e2] eqn:E2. inversion HR; subst.
  assert (G1 : g_started (c_mgr c1) = false) by (destruct (g_started (c_mgr c1)) eqn:X; [rewrite (cexec_started _ _ _ _ _ E2 X) in HG; discriminate|reflexivity]).
  destruct (IH _ _ eq_refl G1) as [I1 I2]. rewrite sevs_app, I2. cbn [app].
  destruct (crun_mgr _ _ _ _ _ _ _ _ E) as (lg & GR). pose proof (ProofManager.iv_started _ _ (ProofManager.ginv_run _ _ _ _ GR) G1) as TK.
  assert (NT : forall j x, nth_error (g_trk (c_mgr c1)) j = Some x -> False) by (intros j x; rewrite TK; destruct j; discriminate).
  destruct (cexec_move _ _ _ _ _ E2) as [[-> ->]|(_ & _ & M)]; [auto|].
  destruct M; try congruence; try (exfalso; eapply NT; eassumption); cbn [c_run mgr_step]; try (rewrite sevs_mgr; auto; fail); auto.
  rewrite I1 in H. destruct k; discriminate.
Qed.
Lemma put_handed tr : forall m, In m (handed tr) <-> exists k, In (k, EPut m) tr.
Proof.
  intros m. split.
  - intros H. destruct (handed_split _ _ H) as (t1 & k & t2 & ->). exists k. apply in_or_app. right. now left.
  - intros (k & H). induction tr as [|[k' e] tr IH]; [destruct H|]. destruct H as [H|H]; [inversion H; subst; cbn; auto|]. destruct e; cbn; auto.
Qed.
Lemma puts_handed tr : length (handed (sevs tr)) = puts tr.
Proof.
  unfold puts. induction tr as [|e tr IH]; [reflexivity|]. destruct e as [k e| | | |]; try exact IH.
  change (sevs (VSys k e :: tr)) with ((k, e) :: sevs tr). destruct e; cbn; try exact IH. now rewrite <- IH.
Qed.

Section drain.
  Variables (cf : conf) (t : torrent) (f : fs) (outs : list (option Z)) (urls : list bytes).
  Let c0 := client_start cf t f outs urls.
  Lemma waits_run l c tr : crun cf l c0 = (c, tr) -> waits c.
  Proof.
    intros HR. apply (crun_inv cf (fun c _ => waits c) (fun _ => True) c0) with (l := l) (tr := tr); [intros _; reflexivity| |apply Forall_forall; auto|exact HR].
    intros c1 t1 a c2 es HW _ HE.
    assert (D : a = KWriter \/ a <> KWriter) by (destruct a; auto; right; discriminate). destruct D as [->|D]; [exact (proj1 (writer_frame _ _ _ _ HE HW))|].
    destruct (other_frame _ _ _ _ _ HE D) as (_ & E1 & E2). unfold waits. rewrite E1, E2. exact HW.
  Qed.
  Lemma drains K l2 : forall l c tr c' tr', crun cf l c0 = (c, tr) -> (K <= puts tr)%nat -> crun cf l2 c = (c', tr') -> client_status c' = None ->
    (far c <= far c')%nat /\ (far c < 4 * K -> 4 * K <= far c' \/ far c + turns l2 <= far c')%nat.
  Proof.
    induction l2 as [|a l2 IH]; intros l c tr c' tr' HR HK HR2 HS; [inversion HR2; subst; cbn; lia|].
    cbn [crun] in HR2. destruct (cexec cf a c) as [c1 e1] eqn:E1. destruct (crun cf l2 c1) as [c2 e2] eqn:E2. inversion HR2; subst c2 tr'.
    assert (HR' : crun cf (l ++ [a]) c0 = (c1, tr ++ e1)) by (rewrite crun_snoc, HR, E1; reflexivity).
    assert (HK' : (K <= puts (tr ++ e1))%nat) by (unfold puts; rewrite filter_app, app_length; unfold puts in HK; lia).
    destruct (IH _ _ _ _ _ HR' HK' E2 HS) as [I1 I2].
    assert (D : a = KWriter \/ a <> KWriter) by (destruct a; auto; right; discriminate). destruct D as [->|D].
    - destruct (writer_frame _ _ _ _ E1 (waits_run _ _ _ HR)) as (_ & W2 & W3). split; [lia|]. intros HF.
      assert (LT : (far c < far c1)%nat).
      { apply W3.
        - destruct (client_status c) eqn:SC; [|reflexivity]. exfalso.
          assert (OV : dead c = true \/ c_exit c = true) by (unfold client_status in SC; destruct (dead c); [auto|]; destruct (c_exit c); [auto|discriminate]).
          pose proof (over_stays cf (KWriter :: l2) c OV) as X. cbn [crun] in X. rewrite E1, E2 in X. cbn in X. subst. congruence.
        - destruct (g_started (c_mgr c)) eqn:G; [reflexivity|]. destruct (not_started _ _ _ _ _ _ _ _ HR G) as [_ X].
          rewrite <- puts_handed, X in HK. cbn in HK. lia.
        - destruct (crun_parts False _ _ _ _ _ (no_if l) HR) as (_ & ls & RS & _). destruct (writer_run _ _ _ _ _ RS) as [_ HH].
          rewrite <- puts_handed, HH, !app_length in HK. unfold held in HK. unfold far, phase in HF. destruct (wo_hand (c_wo c)); [left; discriminate|right].
          destruct (sh_ch (wo_sh (c_wo c))); [cbn in HK; lia|discriminate]. }
      unfold turns in *. cbn [filter is_writer length]. destruct (Nat.lt_ge_cases (far c1) (4 * K)) as [Q|Q]; [specialize (I2 Q); lia|lia].
    - destruct (other_frame _ _ _ _ _ E1 D) as (F1 & F2 & F3). assert (EF : far c1 = far c) by (unfold far, phase; now rewrite F1, F2, F3). rewrite EF in *.
      assert (ET : turns (a :: l2) = turns l2) by (unfold turns; destruct a; try reflexivity; congruence). rewrite ET. auto.
  Qed.
  (* what was put is taken *)
  Lemma taken_after l l2 c tr c' tr' m : crun cf l c0 = (c, tr) -> crun cf l2 c = (c', tr') -> client_status c' = None ->
    (4 * puts tr <= turns l2)%nat -> In m (handed (sevs tr)) -> In m (wo_taken (c_wo c')).
  Proof.
    intros HR HR2 HS HT HI. destruct (drains (puts tr) l2 _ _ _ _ _ HR (le_n _) HR2 HS) as [D1 D2].
    assert (F : (4 * puts tr <= far c')%nat) by (destruct (Nat.lt_ge_cases (far c) (4 * puts tr)) as [Q|Q]; [specialize (D2 Q); lia|lia]).
    assert (L : (puts tr <= length (wo_taken (c_wo c')))%nat).
    { unfold far, phase in F. destruct (wo_hand (c_wo c')); [destruct (c_wr c')|]; lia. }
    assert (HR' : crun cf (l ++ l2) c0 = (c', tr ++ tr')) by (rewrite crun_app, HR, HR2; reflexivity).
    destruct (crun_parts False _ _ _ _ _ (no_if (l ++ l2)) HR') as (_ & ls & RS & _). destruct (writer_run _ _ _ _ _ RS) as [_ HH].
    rewrite sevs_app, handed_app in HH. rewrite <- puts_handed in L.
    apply (f_equal (firstn (length (handed (sevs tr))))) in HH. rewrite firstn_app, firstn_all, Nat.sub_diag, firstn_O, app_nil_r in HH.
    rewrite firstn_app in HH. replace (length (handed (sevs tr)) - length (wo_taken (c_wo c')))%nat with 0%nat in HH by lia. rewrite firstn_O, app_nil_r in HH.
    rewrite HH in HI. rewrite <- (firstn_skipn (length (handed (sevs tr))) (wo_taken (c_wo c'))). apply in_or_app. now left.
  Qed.
End drain.

(* ---------- together ---------- *)
Lemma piece_fields i d m : 0 <= i < 2 ^ 32 -> NewPeerMessage (piece_bytes i 0 d) = Ok m -> m_index m = i /\ data_of m = Ok d.
Proof.
  intros Hi HN. unfold piece_bytes in HN. destruct (new_basic _ _ _ HN) as (_ & Ht & HPL).
  unfold NewPeerMessage in HN. cbn [PieceT HaveT RequestT CancelT Z.eqb Pos.eqb orb] in HN.
  rewrite uint32_at_head in HN by (unfold is_u32; lia). cbn [bind] in HN.
  rewrite uint32_at_mid in HN by (first [reflexivity|unfold is_u32; lia]). cbn [bind] in HN.
  assert (EI : m_index m = i) by (clear - HN; injection HN as <-; reflexivity). clear HN. split; [exact EI|].
  unfold data_of, Data. rewrite Ht, HPL. cbn [PieceT Z.eqb Pos.eqb negb]. unfold slice.
  pose proof (zlen_nonneg d). rewrite !zlen_app, !be32_length.
  match goal with |- context [if ?x then _ else _] => replace x with true by lia end. cbn [bind]. f_equal.
  unfold sub. change (Z.to_nat 8) with 8%nat. cbn [skipn be32 app]. apply firstn_all2. unfold zlen in *. lia.
Qed.
Lemma complete_client cwd creat mk f0 mi hash dir f1 t cf urls l c tr l2 c' tr' N :
  New cwd creat mk f0 mi hash dir = (f1, Ok t) -> NoDup (t_osfiles t) -> Forall (fun n => 0 <= n < 2 ^ 63) (file_lengths mi) ->
  0 < mi_piece_length mi < 2 ^ 30 -> pieces_of mi N -> Forall sends_bytes (l ++ l2) ->
  crun cf l (client_start cf t f1 [] urls) = (c, tr) -> crun cf l2 c = (c', tr') ->
  in_place (cf_sha1 cf) mi (tr ++ tr') -> no_collision (cf_sha1 cf) (tr ++ tr') ->
  (forall i, 0 <= i < N -> arrived mi tr i) -> (4 * puts tr <= turns l2)%nat -> client_status c' = None ->
  complete (cf_sha1 cf) mi (w_fs (sh_w (wo_sh (c_wo c')))) (t_osfiles t) N.
Proof.
  intros HN HD HL HP HPc HB HR HR2 HI HC HA HT HS.
  assert (HR' : crun cf (l ++ l2) (client_start cf t f1 [] urls) = (c', tr ++ tr')) by (rewrite crun_app, HR, HR2; reflexivity).
  apply (taken_complete _ _ _ _ _ _ _ _ _ HN HD HL HP cf urls _ _ _ N HB HR' HPc HI HC).
  intros i Hi. destruct (HA i Hi) as (d & (k & m & X1 & X2) & X3). destruct HPc as (N1 & _).
  destruct (piece_fields i d m ltac:(lia) X2) as [F1 F2]. exists m, d. split; [|auto].
  eapply taken_after; [exact HR|exact HR2|exact HS|exact HT|]. apply put_handed. exists k. apply sevs_in. exact X1.
Qed.
