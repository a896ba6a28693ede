(* Crashes of the whole client (C117). *)
From Verif Require Import Base ProofBase ModelBencode ModelUnmarshal ModelBitset ModelMsg ModelTorrent ModelConn ModelStats ModelPeer ModelSystem ModelTracker ModelManager ModelClient
  SpecMsg SpecBencode SpecPeer SpecTorrent SpecManager SpecClient SpecCrash ProofBencode ProofUnmarshalMore ProofTracker ProofTracker2 ProofMsg ProofSystem ProofManager ProofManager3 ProofProgress ProofPeer
  ProofVerified ProofWitness ProofClient ProofClient2 ProofClient3 ProofClient4 ProofClient6 ProofShutdown ProofLeak.

(* ---------- replies ---------- *)
Lemma http_no_diverge parse_ip r : (forall st b, r = HttpBody st (Some b) -> fits b) -> snd (HttpAnnounce parse_ip r) <> Diverge.
Proof.
  intros Hf. destruct r as [|st [b|]]; cbn [HttpAnnounce]; try discriminate.
  destruct (negb (st =? 200)); [discriminate|]. specialize (Hf st b eq_refl).
  assert (ND : snd (Unmarshal b (TgtStruct AnnounceResponse_fields AnnounceResponse_zero)) <> Diverge).
  { intros E. pose proof (parse_terminates b) as HT. destruct (Parse b) as [e|e| |] eqn:Ep; [|unfold Unmarshal in E; rewrite Ep in E; discriminate E..|contradiction].
    destruct e as [| | | |[|] m raw]; try (unfold Unmarshal in E; rewrite Ep in E; discriminate E).
    destruct (unmarshal_fine b AnnounceResponse_fields AnnounceResponse_zero m raw Hf (proj1 (proj2 (proj2 response_hyps))) Ep) as [[x F]|[x F]]; rewrite E in F; discriminate F. }
  destruct (read_peers_cases parse_ip b Hf) as [(f & n & ps & c & c6 & m & _ & E)|(_ & [(e & _ & E)|[(_ & E)|E]])].
  - rewrite E. destruct (negb (beq f [])); [discriminate|]. cbn [snd]. destruct (nonnil b peers_tag); [discriminate|]. destruct (nonnil b compact_tag); discriminate.
  - rewrite E. discriminate.
  - rewrite E. discriminate.
  - contradiction.
Qed.

(* ---------- messages ---------- *)
Lemma firstn_sub {A} (l : list A) n : firstn n l = sub l 0 (Z.of_nat n).
Proof. unfold sub. cbn [skipn Z.to_nat]. now rewrite Z.sub_0_r, Nat2Z.id. Qed.
Lemma nthZ_none {A} (l : list A) i : nthZ l i = None <-> ~ 0 <= i < zlen l.
Proof.
  unfold nthZ, zlen. destruct (Z.ltb_spec i 0); [split; [lia|reflexivity]|]. rewrite nth_error_None. lia.
Qed.
Lemma piece_data r : 8 <= zlen r -> exists m, NewPeerMessage (7 :: r) = Ok m /\ m_type m = 7 /\ m_index m = be_get (firstn 4 r) /\ exists d, data_of m = Ok d.
Proof.
  intros H. unfold NewPeerMessage. cbn [HaveT RequestT CancelT PieceT Z.eqb Pos.eqb orb].
  rewrite !uint32_at_ok by lia. cbn [bind]. eexists. split; [reflexivity|]. cbn [m_type m_index]. split; [reflexivity|]. split; [now rewrite firstn_sub|].
  unfold data_of, Data. cbn [m_type m_payload Z.eqb Pos.eqb PieceT negb]. rewrite slice_ok by lia. cbn [bind]. eauto.
Qed.
Lemma body_panics sha1 t u r b : r_pc (handle_body sha1 t u r b) = PPanic <-> bad_body (zlen (t_pieces t)) b.
Proof.
  unfold handle_body. destruct (new_ok_or_panic b) as [[m E]|E]; rewrite E.
  2:{ cbn. split; [intros _|reflexivity]. apply new_panics in E. destruct E as (ty & r0 & -> & L). exists ty, r0. auto. }
  assert (NP : forall ty r0, b = ty :: r0 -> min_body ty <= zlen b).
  { intros ty r0 ->. destruct (Z.le_gt_cases (min_body ty) (zlen (ty :: r0))) as [L|L]; [exact L|].
    assert (X : NewPeerMessage (ty :: r0) = Panic) by (apply new_panics; eauto). congruence. }
  destruct (Z.eq_dec (m_type m) 7) as [T|T].
  - destruct b as [|ty r0]; [inversion E; subst; discriminate|]. pose proof (new_basic _ _ _ E) as (_ & T' & _). rewrite T in T'. subst ty.
    specialize (NP 7 r0 eq_refl). assert (L : 8 <= zlen r0) by (rewrite zlen_cons in NP; change (min_body 7) with 9 in NP; lia).
    destruct (piece_data r0 L) as (m' & E' & _ & IX & d & D). rewrite E in E'. inversion E'; subst m'.
    unfold handlePeerMessage. rewrite T. cbn [Z.eqb Pos.eqb KeepaliveT BitfieldT HaveT InterestedT NotInterestedT ChokeT UnchokeT PieceT].
    unfold handlePieceMessage, CheckPiece. rewrite D, IX. destruct (nthZ (t_pieces t) (be_get (firstn 4 r0))) as [p|] eqn:N.
    + split.
      * destruct (beq (p_sha1 p) (sha1 d)); cbn; [discriminate|]. destruct u; discriminate.
      * intros (ty & r1 & X & [Y|[_ Y]]); inversion X; subst; [change (min_body 7) with 9 in *; lia|]. apply nthZ_none in Y. congruence.
    + cbn. split; [intros _|reflexivity]. apply nthZ_none in N. exists 7, r0. auto.
  - assert (H : exists p, handlePeerMessage sha1 t (r_peer r) m = HPeer p).
    { unfold handlePeerMessage. repeat match goal with |- context [if ?x then _ else _] => destruct x eqn:? end; eauto; [destruct (Bitfield m); eauto|].
      match goal with X : (m_type m =? PieceT) = true |- _ => apply Z.eqb_eq in X; contradiction end. }
    destruct H as (p & ->). split; [cbn; destruct u; discriminate|]. intros (ty & r0 & -> & [Y|[Y _]]).
    + specialize (NP ty r0 eq_refl). lia.
    + pose proof (new_basic _ _ _ E) as (_ & T' & _). congruence.
Qed.

(* ---------- what is handed to the writer has data ---------- *)
Definition has_data (m : msg) : Prop := exists d, data_of m = Ok d.
Definition gives (r : rstate) (es : list event) : Prop :=
  (forall u m, r_pc r = PPut u m -> has_data m) /\ (forall m, In (EPut m) es -> has_data m).
Lemma handle_put_data sha1 t u r b v m : r_pc (handle_body sha1 t u r b) = PPut v m -> has_data m.
Proof.
  unfold handle_body. destruct (NewPeerMessage b) as [m0| | |] eqn:E; try (cbn; discriminate).
  destruct (handlePeerMessage sha1 t (r_peer r) m0) eqn:EH; cbn; intros H; [destruct u; discriminate| |discriminate]. inversion H; subst; clear H.
  unfold handlePeerMessage in EH. repeat match type of EH with (if ?c then _ else _) = _ => destruct c eqn:? end; try discriminate; [destruct (Bitfield m0); discriminate|].
  unfold handlePieceMessage in EH. destruct (data_of m0) eqn:D; try discriminate. destruct (CheckPiece _ _ _ _) as [[]| | |]; try discriminate. inversion EH; subst. eexists. exact D.
Qed.
Lemma gives_step sha1 i s r s' r' es es' : gives r es -> pstep sha1 i s r = Some (s', r', es') -> gives r' (es ++ es').
Proof.
  intros [H1 H2] H.
  assert (KEEP : forall es0, (forall m, ~ In (EPut m) es0) -> forall m, In (EPut m) (es ++ es0) -> has_data m).
  { intros es0 N m Hm. apply in_app_iff in Hm. destruct Hm as [Hm|Hm]; [auto|exfalso; eapply N; exact Hm]. }
  assert (RD : forall u b, r' = handle_body sha1 (sh_t s') u r b -> es' = [EReadOk b] -> gives r' (es ++ es')).
  { intros u b -> ->. split; [|apply KEEP; intros m [X|[]]; discriminate]. intros v m X. eapply handle_put_data; exact X. }
  step_cases H; try (eapply RD; reflexivity);
    try (split; [cbn; intros u0 m0 X; discriminate X|apply KEEP; cbn; intros m0 X; repeat destruct X as [X|X]; try contradiction; discriminate X]; fail).
  all: try (split; [cbn; intros u0 m0 X; exfalso; revert X; match goal with |- context [if ?c then _ else _] => destruct c end; discriminate|apply KEEP; cbn; intros m0 X; repeat destruct X as [X|X]; try contradiction; discriminate X]; fail).
  all: split; [cbn; intros u0 m0 X; try (destruct u; discriminate X); discriminate X|]; intros m0 X; apply in_app_iff in X; (destruct X as [X|[X|[]]]; [auto|]); inversion X; subst; eauto.
Qed.
Lemma hand_data cf c m : reach cf c -> wo_hand (c_wo c) = Some m -> has_data m.
Proof.
  intros (t & f & outs & urls & l & tr & HR) HH. destruct (crun_sys _ _ _ _ _ _ _ _ HR) as (ls & R & B).
  destruct (announces_from cf (t_length t) (fun _ => 0%nat) (t_hash t) _ [] (start_cinv cf t f outs urls) (start_plain _ _ _ _ _) eq_refl _ _ _ HR) as (I & _).
  assert (HI : In m (handed (sevs tr))).
  { pose proof (ci_hand _ _ _ _ I) as X. unfold hand in X. cbn [app] in X. rewrite X. apply in_app_iff. right. rewrite (pend_hand _ _ HH). now left. }
  apply handed_in in HI. destruct HI as (k & HI).
  destruct (local_inv (cf_sha1 cf) (eq false) gives) with (w0 := mkW t f outs [] false) (l := ls) (w := c_wo c) (tr := sevs tr) as [HJ HL]; auto.
  { intros b t0 g _. split; cbn; [discriminate|contradiction]. }
  { intros. eapply gives_step; eauto. }
  assert (HK := HL _ _ HI). destruct (nth_error (wo_peers (c_wo c)) k) as [r|] eqn:Er; [|apply nth_error_None in Er; lia].
  destruct (HJ k r Er) as [_ J]. apply in_events in HI. auto.
Qed.
Lemma not_sending cf c k r : reach cf c -> nth_error (wo_peers (c_wo c)) k = Some r -> r_pc r <> PSend.
Proof.
  intros (t & f & outs & urls & l & tr & HR) Er. destruct (crun_sys _ _ _ _ _ _ _ _ HR) as (ls & R & B).
  destruct (local_inv (cf_sha1 cf) (eq false) quiet) with (w0 := mkW t f outs [] false) (l := ls) (w := c_wo c) (tr := sevs tr) as [HJ HL]; auto.
  - intros b t0 g <-. unfold quiet. cbn. repeat split; try discriminate; tauto.
  - intros; eapply quiet_step; eauto.
  - apply (HJ k r Er).
Qed.

(* ---------- one step ---------- *)
Lemma crashed_peer w k r' s' mn tk hd : crashed w = false -> (k < length (wo_peers w))%nat -> w_panic (sh_w s') = w_panic (sh_w (wo_sh w)) ->
  crashed (mkWorld s' (upd (wo_peers w) k r') mn tk hd) = panicked r'.
Proof.
  intros C L P. unfold crashed in *. cbn [wo_peers wo_sh]. apply orb_false_iff in C. destruct C as [C1 C2]. rewrite P, C2, orb_false_r.
  revert k L C1. generalize (wo_peers w). induction l as [|x l IH]; intros [|k] L C; cbn [upd existsb length] in *; try lia; apply orb_false_iff in C; destruct C as [D1 D2].
  rewrite D1. cbn [orb]. apply IH; [lia|exact D2].
Qed.
Lemma pstep_wpanic sha1 i s r s' r' es : pstep sha1 i s r = Some (s', r', es) -> w_panic (sh_w s') = w_panic (sh_w s).
Proof. intros H. step_cases H; try reflexivity; unfold push; destruct (r_req r); reflexivity. Qed.
Lemma peer_crash cf c k i r : reach cf c -> crashed (c_wo c) = false -> nth_error (wo_peers (c_wo c)) k = Some r ->
  (crashed (fst (exec (cf_sha1 cf) (APeer k i) (c_wo c))) = true <->
   (r_pc r = PURead \/ r_pc r = PRead) /\ (exists b, i_read i = Some b /\ bad_body (zlen (t_pieces (sh_t (wo_sh (c_wo c))))) b) \/
   (exists u m, r_pc r = PPut u m) /\ sh_closed (wo_sh (c_wo c)) = true).
Proof.
  intros HR C Er. pose proof (not_sending _ _ _ _ HR Er) as NS. unfold exec. rewrite C, Er.
  assert (L : (k < length (wo_peers (c_wo c)))%nat) by (apply nth_error_Some; congruence).
  assert (NP : r_pc r <> PPanic).
  { intros E. unfold crashed in C. apply orb_false_iff in C. destruct C as [C _].
    assert (X : existsb panicked (wo_peers (c_wo c)) = true) by (apply existsb_exists; exists r; split; [eapply nth_error_In; exact Er|unfold panicked; now rewrite E]). congruence. }
  set (s := wo_sh (c_wo c)) in *.
  assert (OT : forall s' r' es (Q : Prop), pstep (cf_sha1 cf) i s r = Some (s', r', es) -> (r_pc r' = PPanic <-> Q) ->
    (crashed (fst (let '(s', r', es) := (s', r', es) in (mkWorld s' (upd (wo_peers (c_wo c)) k r') (wo_main (c_wo c)) (wo_taken (c_wo c)) (wo_hand (c_wo c)), map (pair k) es))) = true <-> Q)).
  { intros s' r' es Q E HQ. cbn [fst]. rewrite crashed_peer by (auto; eapply pstep_wpanic; exact E). rewrite <- HQ. unfold panicked. destruct (r_pc r'); split; congruence. }
  destruct (pstep (cf_sha1 cf) i s r) as [[[s' r'] es]|] eqn:E.
  - apply (OT s' r' es _ eq_refl). clear OT. unfold pstep in E. destruct (r_pc r) eqn:EP; try congruence.
    all: try (split; [|intros [[[X|X] _]|[(? & ? & X) _]]; discriminate]; intros X; exfalso).
    all: try (inversion E; subst; cbn in X;
      repeat match type of X with context [if ?b then _ else _] => destruct b end; discriminate X).
    all: try (unfold wait in E; repeat match type of E with (if ?b then _ else _) = _ => destruct b end; inversion E; subst; discriminate X).
    + destruct (i_read i) as [b|] eqn:EI; inversion E; subst.
      * rewrite body_panics. split; [intros X; left; split; [auto|exists b; auto]|intros [[_ (b' & X & Y)]|[(? & ? & X) _]]; [|discriminate]]. inversion X; subst; exact Y.
      * cbn. split; [discriminate|]. intros [[_ (b' & X & Y)]|[(? & ? & X) _]]; discriminate.
    + destruct (negb _ && _ && _); [|inversion E; subst; discriminate X]. destruct (pr_bnum (r_peer r) <=? pr_block (r_peer r)).
      * destruct (FailedPieceMessage _) as [q [m|]]; inversion E; subst; discriminate X.
      * unfold create, createPieceMessage in E. inversion E; subst; discriminate X.
    + destruct (Next _ _) as [t' [n|]]; [unfold create, createPieceMessage in E|]; inversion E; subst; discriminate X.
    + destruct (i_read i) as [b|] eqn:EI.
      * inversion E; subst. rewrite body_panics. split; [intros X; left; split; [auto|exists b; auto]|intros [[_ (b' & X & Y)]|[(? & ? & X) _]]; [|discriminate]]. inversion X; subst; exact Y.
      * destruct (r_sent r); inversion E; subst; cbn; (split; [discriminate|]); intros [[_ (b' & X & Y)]|[(? & ? & X) _]]; discriminate.
    + destruct (sh_closed s) eqn:CL.
      * inversion E; subst. cbn. split; [intros _; right; eauto|reflexivity].
      * destruct (zlen (sh_ch s) <? chan_cap); inversion E; subst. split; [cbn; destruct u; discriminate|]. intros [[[X|X] _]|[_ X]]; discriminate X.
  - cbn [fst]. rewrite C. split; [discriminate|]. intros [[P (b & B & _)]|[(u & m & P) CL]]; exfalso; unfold pstep in E.
    + destruct P as [P|P]; rewrite P, B in E; discriminate.
    + rewrite P, CL in E. discriminate.
Qed.
Lemma dead_cases c : dead c = true <-> g_panic (c_mgr c) = true \/ crashed (c_wo c) = true \/ c_prt c = PrPanic.
Proof. unfold dead. rewrite !orb_true_iff. destruct (c_prt c); intuition congruence. Qed.
Lemma live_cases c : dead c = false -> g_panic (c_mgr c) = false /\ crashed (c_wo c) = false /\ c_prt c <> PrPanic.
Proof. unfold dead. rewrite !orb_false_iff. destruct (c_prt c); intuition congruence. Qed.
Lemma close_none g m : forall cs, close_all g m cs = None <-> exists a k, In (a, k) m /\ conn_of g k = None.
Proof.
  induction m as [|[a k] m IH]; intros cs; cbn.
  - split; [discriminate|]. intros (? & ? & [] & _).
  - destruct (conn_of g k) as [n|] eqn:E.
    + rewrite IH. split; [intros (a' & k' & H1 & H2); eauto 6|]. intros (a' & k' & [H|H] & H2); [inversion H; subst; congruence|eauto].
    + split; [eauto 6|reflexivity].
Qed.
Lemma crashed_spawn sha1 b g w : crashed w = false -> crashed (fst (exec sha1 (ASpawn b g) w)) = false.
Proof.
  intros C. unfold exec. rewrite C. cbn [fst]. unfold crashed in *. cbn [wo_peers wo_sh]. rewrite existsb_app. cbn. now rewrite orb_false_r.
Qed.
Lemma crashed_main sha1 w : crashed w = false -> crashed (fst (exec sha1 AMain w)) = false.
Proof. intros C. unfold exec. rewrite C. destruct (wo_main w); try destruct (wg w =? 0); try destruct (sh_cancel _); try exact C; unfold crashed in *; cbn; exact C. Qed.
Lemma runend_panic p g : g_panic g = false -> g_panic (fst (gexec (XRunEnd p) g)) = false.
Proof. intros H. unfold gexec. rewrite H. destruct (nth_error (g_peers g) p) as [q|]; [destruct (mp_state q)|]; exact H. Qed.
Lemma write_crash cf c m d : crashed (c_wo c) = false -> wo_hand (c_wo c) = Some m -> data_of m = Ok d ->
  let w := sh_w (wo_sh (c_wo c)) in
  (crashed (fst (exec (cf_sha1 cf) AWriter (c_wo c))) = true <->
   snd (writePieceData (w_fs w) (w_outs w) (w_t w) d (wrap64 (wrap64 (m_index m * t_plen (w_t w)) + m_offset m))) = WPanic).
Proof.
  intros C H D w. unfold exec. rewrite C, H. cbn [fst]. unfold crashed in *. cbn [wo_peers wo_sh sh_w]. apply orb_false_iff in C. destruct C as [C1 C2].
  rewrite C1. cbn [orb]. fold w in C2 |- *. unfold write_one. rewrite D.
  destruct (writePieceData _ _ _ _ _) as [[f' o'] [|e|]]; cbn; rewrite ?C2; split; congruence.
Qed.

Lemma crash_exact cf c a : reach cf c -> dead c = false -> c_exit c = false -> held_reply a ->
  (dead (fst (cexec cf a c)) = true <-> culprit cf c a).
Proof.
  intros HR D X HF. destruct (live_cases _ D) as (P1 & P2 & P3). unfold cexec. rewrite D, X. cbn [orb].
  assert (MG : forall c1 r (Q : Prop), c_wo c1 = c_wo c -> c_prt c1 = c_prt c -> (g_panic (fst r) = true <-> Q) -> (dead (fst (with_mgr cf c1 r)) = true <-> Q)).
  { intros c1 r Q E1 E2 HQ. rewrite dead_cases. unfold with_mgr. cbn [fst c_mgr c_wo c_prt]. rewrite sync_crashed, E1, E2, P2. rewrite HQ. intuition congruence. }
  assert (NO : forall (Q : Prop), ~ Q -> (dead c = true <-> Q)) by (intros Q HQ; rewrite D; intuition congruence).
  destruct a as [| |j x|j|j r|k i| |b].
  - unfold main_step. destruct (g_started (c_mgr c)) eqn:S.
    + assert (MN : wo_main (c_wo c) <> MRet ->
        (dead (fst (mkClient (c_mgr c) (fst (exec (cf_sha1 cf) AMain (c_wo c))) (c_run c) (c_trk c) (c_rounds c) (c_cnt c) (c_wr c) (c_prt c) (c_exit c), @nil cev)) = true <-> culprit cf c KMain)).
      { intros N. rewrite dead_cases. cbn [fst c_mgr c_wo c_prt]. rewrite crashed_main by exact P2. split; [intuition congruence|]. intros H. inversion H; subst. congruence. }
      destruct (wo_main (c_wo c)) eqn:EM; try (apply MN; discriminate).
      destruct (g_pool (c_mgr c)) as [m|] eqn:EP.
      * destruct (g_stop (c_mgr c)) eqn:ES; apply MG; try reflexivity.
        -- unfold gexec. rewrite P1, ES. cbn [fst]. unfold stop_close. rewrite EP. destruct (close_all (c_mgr c) m (g_conns (c_mgr c))) as [cs|] eqn:EC; cbn.
           ++ rewrite P1. split; [discriminate|]. intros H. inversion H; subst. rewrite EP in *. match goal with Y : Some _ = Some _ |- _ => inversion Y; subst end.
              assert (Y : close_all (c_mgr c) m0 (g_conns (c_mgr c)) = None) by (apply close_none; eauto). congruence.
           ++ split; [intros _|reflexivity]. apply close_none in EC. destruct EC as (a & k & I1 & I2). eapply cu_stop; eauto.
        -- unfold gexec. rewrite P1, ES. cbn [fst]. unfold stop_check. rewrite EP, S. cbn. rewrite P1. split; [discriminate|]. intros H. inversion H; subst. congruence.
      * rewrite dead_cases. cbn [fst c_mgr c_wo c_prt]. split; [intuition congruence|]. intros H. inversion H; subst. congruence.
    + apply MG; try reflexivity. unfold gexec. rewrite P1, S. cbn. split; [discriminate|]. intros H. inversion H; subst. congruence.
  - apply MG; try reflexivity. unfold gexec. rewrite P1. cbn. split; [discriminate|]. intros H. inversion H.
  - unfold ctrk_step. destruct (nth_error (g_trk (c_mgr c)) j) as [pc|] eqn:EP; [|apply NO; intros H; inversion H; subst; congruence].
    destruct (nth_error (c_trk c) j) as [tr|] eqn:ET.
    2:{ destruct pc; apply NO; intros H; inversion H; subst; congruence. }
    assert (TP : forall y, i_ann y = AnnErr -> (g_panic (fst (gexec (XTrk j y) (c_mgr c))) = true <-> culprit cf c (KTrk j x))).
    { intros y Hy. rewrite (tracker_panics _ _ _ _ P1 EP). rewrite Hy. split.
      - intros [[_ H]|[(a & ips & ->) H]]; [discriminate|]. eapply cu_nil; eauto.
      - intros H. inversion H; subst. right. split; [|assumption]. assert (Y : Some pc = Some (TInit (a :: ips))) by congruence. inversion Y; subst; eauto. }
    destruct pc; try (apply MG; [reflexivity|reflexivity|apply TP; reflexivity]); [apply NO; intros H; inversion H; subst; congruence|].
    assert (NC : ~ culprit cf c (KTrk j x)) by (intros H; inversion H; subst; congruence).
    destruct (with_mgr cf c (gexec (XTrk j (tin_of false (shaken cf c k x) x)) (c_mgr c))) as [c1 es] eqn:EW.
    assert (L1 : dead c1 <> true). { pose proof (MG c (gexec (XTrk j (tin_of false (shaken cf c k x) x)) (c_mgr c)) _ eq_refl eq_refl (TP (tin_of false (shaken cf c k x) x) eq_refl)) as Y. rewrite EW in Y. cbn [fst] in Y. tauto. }
    destruct (shaken cf c k x); [|tauto]. rewrite dead_cases. cbn [fst c_mgr c_wo c_prt].
    apply Bool.not_true_is_false in L1. destruct (live_cases _ L1) as (Q1 & Q2 & Q3). rewrite crashed_spawn by exact Q2. intuition congruence.
  - cbn [fst]. assert (E : dead (load_step c j) = dead c).
    { unfold load_step. destruct (nth_error (g_trk (c_mgr c)) j) as [[]|]; try reflexivity. destruct (nth_error (c_trk c) j) as [tr|]; try reflexivity. destruct (ct_loads tr) as [|? [|? [|? ?]]]; reflexivity. }
    rewrite E. apply NO. intros H. inversion H.
  - unfold ann_step. destruct (nth_error (g_trk (c_mgr c)) j) as [pc|] eqn:EP; [|apply NO; intros H; inversion H; subst; congruence].
    destruct pc; try (apply NO; intros H; inversion H; subst; congruence).
    destruct (nth_error (c_trk c) j) as [tr|] eqn:ET; [|apply NO; intros H; inversion H; subst; congruence].
    destruct (ct_loads tr) as [|d [|u [|l [|? ?]]]] eqn:EL; try (apply NO; intros H; inversion H; subst; rewrite ET in *; match goal with Y : Some _ = Some _ |- _ => inversion Y; subst end; congruence).
    destruct (tracker_announce _ _ _ _ _ _) as [[[t' e] a]|] eqn:EA.
    2:{ apply NO. intros H. inversion H; subst. rewrite ET in *. match goal with Y : Some tr = Some _ |- _ => inversion Y; subst end. unfold tracker_announce in EA.
        match goal with Y : ct_trk _ = _ |- _ => rewrite Y in EA end. destruct (HttpAnnounce _ _); discriminate. }
    match goal with |- context [with_mgr cf ?c0 ?r] => destruct (with_mgr cf c0 r) as [c1 es] eqn:EW end.
    assert (Y : dead c1 = true <-> culprit cf c (KAnn j r)).
    { match type of EW with with_mgr cf ?c0 ?r0 = _ => pose proof (MG c0 r0 (culprit cf c (KAnn j r)) eq_refl eq_refl) as Y end. rewrite EW in Y. cbn [fst] in Y. apply Y. clear Y EW.
      rewrite (tracker_panics _ _ _ _ P1 EP). cbn [i_ann]. transitivity (a = AnnPanic).
      - split.
        + intros [[_ H]|[(? & ? & H) _]]; [|discriminate]. destruct a; try congruence. destruct (g_cancel (c_mgr c)); discriminate.
        + intros ->. left. eauto.
      - unfold tracker_announce in EA. destruct (ct_trk tr) as [|id ev iv|u0] eqn:EK; try discriminate; destruct r as [h cn|tx1 tx2 key ok s]; try discriminate.
        + pose proof (http_panics (cf_ip cf) h) as HP. pose proof (http_no_diverge (cf_ip cf) h) as HD. 
          assert (HF' : forall st b, h = HttpBody st (Some b) -> fits b) by (intros st b ->; exact HF). specialize (HP HF'). specialize (HD HF').
          destruct (HttpAnnounce (cf_ip cf) h) as [i' res]. inversion EA; subst; clear EA. cbn [snd] in *. transitivity (res = Panic).
          * destruct res; cbn; try (destruct cn); split; congruence.
          * rewrite HP. split.
            -- intros (b & -> & B). eapply cu_reply; eauto.
            -- intros H. inversion H; subst. eauto.
        + destruct (UdpAnnounce u0 tx1 tx2 key ok (t_hash (sh_t (wo_sh (c_wo c)))) (cf_id cf) (mkAnn d u l (cf_port cf)) s) as [[u' ds] res] eqn:EU. inversion EA; subst.
          destruct (udp_announce_fails u0 tx1 tx2 key ok (t_hash (sh_t (wo_sh (c_wo c)))) (cf_id cf) (mkAnn d u l (cf_port cf)) s) as (e0 & E0). rewrite EU in E0. cbn in E0. subst res. cbn.
          split; [discriminate|]. intros H. inversion H. }
    rewrite <- Y. rewrite !dead_cases. cbn [fst c_mgr c_wo c_prt]. tauto.
  - unfold peer_step. destruct (nth_error (c_run c) k) as [p|] eqn:EK; [|apply NO; intros H; inversion H; subst; congruence].
    fold (inp_of c p i). destruct (exec (cf_sha1 cf) (APeer k (inp_of c p i)) (c_wo c)) as [w' es] eqn:EE.
    rewrite dead_cases. cbn [fst c_mgr c_wo c_prt].
    assert (GP : g_panic (if returned w' k then fst (gexec (XRunEnd p) (c_mgr c)) else c_mgr c) = false) by (destruct (returned w' k); [now apply runend_panic|exact P1]).
    rewrite GP. transitivity (crashed w' = true); [intuition congruence|].
    destruct (nth_error (wo_peers (c_wo c)) k) as [r|] eqn:Er.
    + replace w' with (fst (exec (cf_sha1 cf) (APeer k (inp_of c p i)) (c_wo c))) by now rewrite EE. rewrite (peer_crash cf c k (inp_of c p i) r HR P2 Er). split.
      * intros [[P (b & B & BB)]|[(u & m & P) CL]]; [|eapply cu_closed; eauto]. unfold inp_of in B. destruct (conn_closed (c_mgr c) p) eqn:CC; [discriminate|]. eapply cu_message; eauto.
      * intros H. inversion H; subst.
        -- left. assert (p0 = p) by congruence. assert (r0 = r) by congruence. subst. split; [assumption|]. exists b. unfold inp_of. rewrite H3. auto.
        -- right. assert (r0 = r) by congruence. subst. eauto.
    + unfold exec in EE. rewrite P2, Er in EE. inversion EE; subst. rewrite P2. split; [discriminate|]. intros H. inversion H; subst; congruence.
  - destruct (g_started (c_mgr c)) eqn:S; [|apply NO; intros H; inversion H; subst; congruence]. cbn [fst]. unfold writer_step.
    destruct (wo_hand (c_wo c)) as [m|] eqn:EH.
    + destruct (hand_data _ _ _ HR EH) as (d & Hd). destruct (c_wr c) eqn:EW.
      * rewrite Hd. rewrite dead_cases. cbn [c_mgr c_wo c_prt]. split; [intuition congruence|]. intros H. inversion H; subst. congruence.
      * rewrite dead_cases. cbn [c_mgr c_wo c_prt]. split; [intuition congruence|]. intros H. inversion H; subst. congruence.
      * rewrite dead_cases. cbn [c_mgr c_wo c_prt]. rewrite (write_crash cf c m d P2 EH Hd). split.
        -- intros [H|[H|H]]; [congruence| |congruence]. eapply cu_write; eauto.
        -- intros H. inversion H; subst. right. left. assert (m0 = m) by congruence. subst. assert (d0 = d) by congruence. subst. assumption.
    + rewrite dead_cases. cbn [c_mgr c_wo c_prt]. unfold exec. rewrite P2, EH.
      assert (Y : crashed (fst (match sh_ch (wo_sh (c_wo c)) with [] => (c_wo c, @nil (nat * event)) | m :: ch => (mkWorld (set_ch (wo_sh (c_wo c)) ch) (wo_peers (c_wo c)) (wo_main (c_wo c)) (wo_taken (c_wo c)) (Some m), []) end)) = false).
      { destruct (sh_ch (wo_sh (c_wo c))); cbn [fst]; [exact P2|]. unfold crashed in *. cbn. exact P2. }
      rewrite Y. split; [intuition congruence|]. intros H. inversion H; subst. congruence.
  - destruct (g_started (c_mgr c)) eqn:S; [|apply NO; intros H; inversion H; subst; congruence]. cbn [fst]. unfold print_step.
    destruct (c_prt c) eqn:EP; try (apply NO; intros H; inversion H; subst; congruence).
    destruct b.
    + destruct (cf_bar cf (c_cnt c)) eqn:EB; [|apply NO; intros H; inversion H; subst; congruence].
      rewrite dead_cases. cbn [c_mgr c_wo c_prt]. split; [intros _; now apply cu_print|auto].
    + destruct (g_cancel (c_mgr c)); [|apply NO; intros H; inversion H].
      rewrite dead_cases. cbn [c_mgr c_wo c_prt]. split; [intuition congruence|]. intros H. inversion H.
Qed.

(* ---------- downloads without a crash ---------- *)
Lemma closed_ret sha1 w0 l w tr : run sha1 l (start w0) = (w, tr) -> sh_closed (wo_sh w) = true -> wo_main w = MRet.
Proof.
  intros H1. refine (run_inv sha1 (fun w _ => sh_closed (wo_sh w) = true -> wo_main w = MRet) (fun _ => True) (start w0) _ _ l w tr _ H1); [discriminate| |now apply Forall_forall].
  clear. intros w tr a w' es I _ HE. unfold exec in HE. destruct (crashed w); [inversion HE; subst; auto|].
  destruct a as [b g|j i| | |].
  - inversion HE; subst. auto.
  - destruct (nth_error (wo_peers w) j) as [q|]; [|inversion HE; subst; auto].
    destruct (pstep sha1 i (wo_sh w) q) as [[[s' r'] es']|] eqn:Es; inversion HE; subst; [|auto]. cbn. now rewrite (proj2 (pstep_cancel _ _ _ _ _ _ _ Es)).
  - destruct (wo_hand w); [|destruct (sh_ch (wo_sh w))]; inversion HE; subst; auto.
  - inversion HE; subst. auto.
  - destruct (wo_main w) eqn:Em; [destruct (wg w =? 0)|destruct (sh_cancel (wo_sh w))| |]; inversion HE; subst; cbn; auto;
      intros X; apply I in X; congruence.
Qed.
Lemma nil_cancel n l g tr : grun l (NewMng n) = (g, tr) -> g_pool g = None -> g_cancel g = true.
Proof.
  intros H. refine (proj2 (grun_inv (fun g tr => ginv g tr /\ (g_pool g = None -> g_cancel g = true)) (fun _ => True) (NewMng n) _ _ l g tr _ H)).
  - split; [apply ginv_start|discriminate].
  - clear. intros g tr a g' es [I H] _ E. split; [eapply gexec_inv; eassumption|]. pose proof (iv_stop _ _ I) as ST. destruct a as [m|j i|k| | |].
    + unfold gexec in E. destruct (g_panic g); [inversion E; subst; exact H|]. destruct (g_started g); inversion E; subst; exact H.
    + pose proof (xtrk_cancel_same j i g) as C. rewrite E in C. cbn in C. rewrite C. intros P. apply H. clear -E P. unfold gexec in E. destruct (g_panic g); [inversion E; subst; exact P|].
      destruct (nth_error (g_trk g) j) as [c|]; [|inversion E; subst; exact P]. destruct (tstep g j c i) as [[g1 e1]|] eqn:T; inversion E; subst; [|exact P].
      now apply (proj1 (tstep_conns _ _ _ _ _ _ T)).
    + unfold gexec in E. destruct (g_panic g); [inversion E; subst; exact H|]. destruct (nth_error (g_peers g) k) as [p|]; [destruct (mp_state p)|]; inversion E; subst; exact H.
    + unfold gexec in E. destruct (g_panic g); inversion E; subst; [exact H|reflexivity].
    + unfold gexec in E. destruct (g_panic g); [inversion E; subst; exact H|]. destruct (g_stop g); inversion E; subst; [exact H|].
      unfold stop_check. destruct (g_pool g) eqn:P; [|rewrite P; exact H]. destruct (g_started g); cbn; [reflexivity|]. rewrite P. discriminate.
    + unfold gexec in E. destruct (g_panic g); [inversion E; subst; exact H|]. destruct (g_stop g) eqn:S; inversion E; subst; [|exact H].
      destruct (ST eq_refl) as [_ C]. unfold stop_close. destruct (close_all _ _ _); cbn; auto.
  - now apply Forall_forall.
Qed.

Lemma find_ok files : Forall (fun e => 0 <= fst e < 2 ^ 63) files -> forall pos p fl, 0 <= pos < 2 ^ 63 -> find_file files pos = Some (p, fl) ->
  0 <= p /\ Forall (fun e => 0 <= fst e < 2 ^ 63) fl /\ match fl with [] => True | (len, _) :: _ => p < len end.
Proof.
  induction 1 as [|[len h] r H1 H2 IH]; intros pos p fl HP E; [discriminate|]. cbn [find_file] in E. cbn [fst] in H1. destruct (Z.ltb_spec pos len).
  - inversion E; subst. split; [lia|]. split; [constructor; assumption|exact H].
  - rewrite wrap64_small in E by lia. eapply IH; [|exact E]. lia.
Qed.
Lemma loop_ok : forall files f outs pos data, Forall (fun e => 0 <= fst e < 2 ^ 63) files -> 0 <= pos -> match files with [] => True | (len, _) :: _ => pos <= len end ->
  snd (write_loop f outs files pos data) <> WPanic.
Proof.
  induction files as [|[len h] r IH]; intros f outs pos data HF HP HL; [destruct data; discriminate|].
  inversion HF as [|? ? H1 H2]; subst. cbn [fst] in H1. destruct data as [|x d]; [discriminate|]. cbn [write_loop]. set (data := x :: d) in *.
  rewrite wrap64_small by lia. set (n := if len - pos <? zlen data then len - pos else zlen data).
  assert (HN : 0 <= n) by (unfold n; destruct (len - pos <? zlen data); [lia|apply zlen_nonneg]). replace (n <? 0) with false by lia.
  destruct (WriteAt f outs h (sub data 0 n) pos) as [[f' o'] st] eqn:E.
  assert (ST : st <> WPanic). { unfold WriteAt in E. destruct (pos <? 0); [inversion E; discriminate|]. destruct outs as [|[k|] outs]; inversion E; discriminate. }
  destruct st; [|discriminate|contradiction]. apply IH; [exact H2|lia|]. destruct r as [|[len' h'] r']; [exact I|]. inversion H2; subst. cbn [fst] in *. lia.
Qed.
Lemma write_ok f outs t d pos : ordinary t -> 0 <= pos < 2 ^ 63 -> snd (writePieceData f outs t d pos) <> WPanic.
Proof.
  intros (O1 & O2 & _) HP. unfold writePieceData. destruct (t_isdir t); cbn [negb].
  - assert (HE : Forall (fun e => 0 <= fst e < 2 ^ 63) (entries t)).
    { unfold entries. apply Forall_forall. intros [n h] HI. apply in_combine_l in HI. apply in_map_iff in HI. destruct HI as (x & <- & HI). rewrite Forall_forall in O2. exact (O2 x HI). }
    destruct (find_file (entries t) pos) as [[p fl]|] eqn:E; [|discriminate]. destruct (find_ok _ HE _ _ _ HP E) as (A & B & C). apply loop_ok; auto. destruct fl as [|[len h] fl]; [exact I|lia].
  - destruct (t_osfiles t) as [|h hs]; [now contradiction O1|]. unfold WriteAt. destruct (pos <? 0); [discriminate|]. destruct outs as [|[k|] o]; discriminate.
Qed.
Lemma cexec_size cf a c : st_size (c_cnt (fst (cexec cf a c))) = st_size (c_cnt c).
Proof.
  destruct (cexec cf a c) as [c' es] eqn:E. cbn [fst]. apply cexec_move in E. destruct E as [[-> _]|(_ & _ & M)]; [reflexivity|].
  assert (A : forall s o, st_size (aexec s o) = st_size s) by (intros [] []; reflexivity).
  inversion M; subst; try reflexivity; cbn; apply A.
Qed.
Lemma crun_size cf l : forall c, st_size (c_cnt (fst (crun cf l c))) = st_size (c_cnt c).
Proof.
  induction l as [|a l IH]; intros c; [reflexivity|]. cbn [crun]. pose proof (cexec_size cf a c) as S. destruct (cexec cf a c) as [c1 e1]. specialize (IH c1). destruct (crun cf l c1) as [c2 e2].
  cbn [fst] in *. congruence.
Qed.
Lemma u64_small z : 0 <= z < 2 ^ 64 -> u64 z = z.
Proof. intros H. unfold u64. now apply Z.mod_small. Qed.
Lemma total_first n l : total_len (firstn n l) <= total_len l.
Proof. rewrite <- (firstn_skipn n l) at 2. rewrite total_app. pose proof (total_nonneg (skipn n l)). lia. Qed.

Lemma no_crash cf t f outs urls l c tr : ordinary t -> Forall (calm (zlen (t_pieces t))) l ->
  (forall s, 0 <= st_size s < 2 ^ 64 -> 0 <= st_download s <= st_size s -> cf_bar cf s = false) ->
  crun cf l (client_start cf t f outs urls) = (c, tr) -> total_len (handed (sevs tr)) <= t_length t -> dead c = false.
Proof.
  intros OR HC HB. pose proof OR as (_ & _ & O3 & O4 & O5). revert c tr. induction l as [|a l IH] using rev_ind; intros c tr HR HT.
  { inversion HR; subst. reflexivity. }
  apply Forall_app in HC. destruct HC as [HC Ha]. inversion Ha as [|? ? Ha' _]; subst; clear Ha.
  rewrite crun_snoc in HR. destruct (crun cf l (client_start cf t f outs urls)) as [c1 tr1] eqn:E1. destruct (cexec cf a c1) as [c2 e2] eqn:E2. inversion HR; subst; clear HR.
  assert (HT1 : total_len (handed (sevs tr1)) <= t_length t).
  { rewrite sevs_app, handed_app, total_app in HT. pose proof (total_nonneg (handed (sevs e2))). lia. }
  specialize (IH HC _ _ eq_refl HT1).
  assert (NS : Forall (fun a => a <> KSignal) l) by (eapply Forall_impl; [|exact HC]; intros []; cbn; congruence || tauto).
  assert (W : waiting c1).
  { refine (crun_inv cf (fun c _ => waiting c) (fun a => a <> KSignal) (client_start cf t f outs urls) _ _ l c1 tr1 NS E1).
    - unfold waiting. cbn. auto.
    - intros c0 t0 b c' es' W0 Nb E. eapply waiting_step; eassumption. }
  destruct W as (W1 & W2 & W3 & W4).
  assert (R1 : reach cf c1) by (do 6 eexists; exact E1).
  destruct (Bool.not_true_is_false (dead c)); [|reflexivity]. intros DD.
  replace c with (fst (cexec cf a c1)) in DD by now rewrite E2.
  apply crash_exact in DD; auto; [|destruct a as [| | | |? [[|? [|]]|]| | |]; cbn in *; tauto].
  destruct (crun_mgr _ _ _ _ _ _ _ _ E1) as (lg & G1).
  assert (BT : Forall (cact_if True) l). { eapply Forall_impl; [|exact HC]. intros b Hb. destruct b; cbn in *; auto. intros _ b0 B0. apply (Hb b0 B0). }
  destruct (proj2 (crun_parts True _ _ _ _ _ BT E1)) as (ls & S1 & S2). cbn [client_start c_wo] in S1.
  pose proof (static_run _ _ _ _ _ S1) as ST. cbn [w_t] in ST.
  inversion DD; subst; clear DD; cbn in Ha'.
  - tauto.
  - rewrite (nil_cancel _ _ _ _ G1 H1) in W2. discriminate.
  - destruct W1 as [W1|W1]; congruence.
  - destruct (Ha' b H3) as [_ N]. apply N. replace (t_pieces t) with (t_pieces (sh_t (wo_sh (c_wo c1)))); [assumption|]. unfold static in ST. inversion ST; congruence.
  - pose proof (closed_ret _ _ _ _ _ S1 H2). destruct W1 as [W1|W1]; congruence.
  - assert (FI : Forall (fine (cf_sha1 cf) t) (handed (sevs tr1))).
    { apply (all_verified (cf_sha1 cf) (mkW t f outs [] false) ls (c_wo c1) (sevs tr1)); [|exact S1]. eapply Forall_impl; [|exact S2]. intros b [X _]. auto. }
    destruct (announces_from cf (t_length t) (fun _ => 0%nat) (t_hash t) _ [] (start_cinv cf t f outs urls) (start_plain _ _ _ _ _) eq_refl _ _ _ E1) as (CI & _).
    assert (FM : fine (cf_sha1 cf) t m).
    { rewrite Forall_forall in FI. apply FI. pose proof (ci_hand _ _ _ _ CI) as Y. unfold hand in Y. cbn [app] in Y. rewrite Y. apply in_app_iff. right. rewrite (pend_hand _ _ H1). now left. }
    destruct FM as ((p & d0 & N1 & _) & (WI & WO) & _). change (w_t (sh_w (wo_sh (c_wo c1)))) with (sh_t (wo_sh (c_wo c1))) in H4.
    rewrite (write_data_static _ _ _ _ _ _ ST), (static_plen _ _ ST) in H4. revert H4. apply write_ok; [exact OR|].
    assert (IX : 0 <= m_index m < zlen (t_pieces t)). { destruct (Z.le_gt_cases 0 (m_index m)); [|lia]. destruct (Z.lt_ge_cases (m_index m) (zlen (t_pieces t))); [lia|].
      assert (Y : nthZ (t_pieces t) (m_index m) = None) by (apply nthZ_none; lia). congruence. }
    assert (M1 : 0 <= m_index m * t_plen t <= zlen (t_pieces t) * t_plen t) by (split; [apply Z.mul_nonneg_nonneg; lia|apply Z.mul_le_mono_nonneg_r; lia]).
    rewrite (wrap64_small (m_index m * t_plen t)) by lia. rewrite wrap64_small by lia. lia.
  - pose proof (crun_size cf l (client_start cf t f outs urls)) as SZ. rewrite E1 in SZ. cbn [fst client_start c_cnt NewStats st_size] in SZ. rewrite u64_small in SZ by lia.
    destruct (announces_from cf (t_length t) (fun _ => 0%nat) (t_hash t) _ [] (start_cinv cf t f outs urls) (start_plain _ _ _ _ _) eq_refl _ _ _ E1) as (CI & _).
    pose proof (ci_dl _ _ _ _ CI) as DL. cbn [app] in DL. unfold dl in DL. unfold hand in DL.
    pose proof (total_first (nadd c1) (handed (sevs tr1))) as T1. pose proof (total_nonneg (firstn (nadd c1) (handed (sevs tr1)))) as T2. rewrite u64_small in DL by lia.
    rewrite HB in H1; [discriminate| |]; lia.
Qed.
