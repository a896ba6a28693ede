(* Complete files and status 0: C169.                                          *)
From Verif Require Import Base ProofBase SpecPath ModelPath ModelBitset ModelMsg ModelTorrent ModelConn ModelStats ModelPeer ModelSystem ModelTracker ModelManager ModelClient
  SpecMsg SpecPeer SpecTorrent SpecFinish SpecManager SpecClient SpecCrash SpecOrigin SpecArrive SpecPossible SpecInterested SpecRescue SpecDoom
  ProofTorrent ProofSystem ProofProgress ProofMsg ProofHistory ProofDisk ProofNew ProofFinish ProofManager ProofClient ProofClient2 ProofClient3 ProofOrigin ProofArrive
  SpecBencode ModelCmd ModelProgram SpecCmd SpecProgram ProofProgram ProofRescue ProofDoom ProofDoom2.
From Verif Require ProofPossible ProofWitness.

(* a peer's return and the writer give nobody up *)
Lemma peer_given cf k a c c' es : by_peer k a -> cexec cf a c = (c', es) -> given_up c' -> given_up c.
Proof.
  intros HA HE (p & Hp & HO). destruct (cexec_move _ _ _ _ _ HE) as [[-> _]|(_ & _ & M)]; [exists p; auto|].
  destruct M; try contradiction; cbn [c_mgr sys_step cnt_step] in Hp; try (exists p; auto; fail).
  destruct (returned (fst we) k0); [|exists p; auto]. unfold gexec in Hp. destruct (g_panic (c_mgr c)); [exists p; auto|].
  destruct (nth_error (g_peers (c_mgr c)) p0) as [q|] eqn:E; [|exists p; auto]. destruct (mp_state q) eqn:S; try (exists p; auto; fail). cbn in Hp.
  apply In_nth_error in Hp as [n Hn]. destruct (Nat.eq_dec n p0) as [->|D].
  - rewrite (nth_upd_same _ _ _ _ E) in Hn. inversion Hn; subst p. destruct HO as [O1 [O2|O2]]; cbn in O1, O2; [discriminate|]. exists q. split; [eapply nth_error_In; exact E|]. split; auto.
  - rewrite nth_upd_other in Hn by auto. exists p. split; [eapply nth_error_In; exact Hn|exact HO].
Qed.
Lemma peer_given_run cf k l : forall c c' es, Forall (by_peer k) l -> crun cf l c = (c', es) -> given_up c' -> given_up c.
Proof.
  induction l as [|a l IH]; intros c c' es HA H G; cbn [crun] in H; [inversion H; subst; exact G|].
  destruct (cexec cf a c) as [c1 e1] eqn:E1. destruct (crun cf l c1) as [c2 e2] eqn:E2. inversion H; subst. inversion HA; subst. eapply peer_given; [eassumption|exact E1|]. eapply IH; eassumption.
Qed.

(* what was taken stays taken *)
Lemma taken_step cf a c c' es : cexec cf a c = (c', es) -> incl (wo_taken (c_wo c)) (wo_taken (c_wo c')).
Proof.
  intros HE. assert (D : a = KWriter \/ a <> KWriter) by (destruct a; auto; right; discriminate). destruct D as [->|D]; [|destruct (other_frame _ _ _ _ _ HE D) as (-> & _); apply incl_refl].
  assert (X : incl (wo_taken (c_wo c)) (wo_taken (fst (exec (cf_sha1 cf) AWriter (c_wo c))))).
  { unfold exec. destruct (crashed _); [apply incl_refl|]. destruct (wo_hand _); [cbn; apply incl_appl, incl_refl|]. destruct (sh_ch _); apply incl_refl. }
  destruct (cexec_move _ _ _ _ _ HE) as [[-> _]|(_ & _ & M)]; [apply incl_refl|]. inversion M; subst; cbn [c_wo sys_step cnt_step]; try exact X; apply incl_refl.
Qed.
Lemma taken_run cf l : forall c c' es, crun cf l c = (c', es) -> incl (wo_taken (c_wo c)) (wo_taken (c_wo c')).
Proof.
  induction l as [|a l IH]; intros c c' es H; cbn [crun] in H; [inversion H; subst; apply incl_refl|].
  destruct (cexec cf a c) as [c1 e1] eqn:E1. destruct (crun cf l c1) as [c2 e2] eqn:E2. inversion H; subst. eapply incl_tran; [eapply taken_step; exact E1|eapply IH; exact E2].
Qed.

(* nothing is read *)
Definition mute (a : cact) : Prop := quiet a \/ ending a.
Lemma pstep_mute sha1 i s r s' r' es b : i_read i = None -> pstep sha1 i s r = Some (s', r', es) -> ~ In (EReadOk b) es.
Proof.
  intros HI H. unfold pstep in H. destruct (r_pc r); try discriminate; rewrite ?HI in H; unfold wait, create, push, set_q, set_t, at_pc, with_peer in H;
    repeat match type of H with context [match ?x with _ => _ end] => destruct x end; inversion H; subst; cbn; intuition discriminate.
Qed.
Lemma mute_step cf a c c' es k b : mute a -> cexec cf a c = (c', es) -> ~ In (VSys k (EReadOk b)) es.
Proof.
  intros HA HE. destruct (cexec_move _ _ _ _ _ HE) as [[_ ->]|(_ & _ & M)]; [intros []|].
  assert (MG : forall gs, ~ In (VSys k (EReadOk b)) (map VMgr gs)) by (intros gs X; apply in_map_iff in X as (y & E & _); discriminate).
  destruct M; try (intros []; fail); try apply MG.
  - intros [X|X]; [discriminate|exact (MG _ X)].
  - destruct HA as [[]|[]].
  - assert (i = ProofWitness.go) by (destruct HA as [X|X]; exact X). subst i we. intros X. apply in_map_iff in X as ([n e] & X & Y). cbn in X. inversion X; subst. clear X.
    unfold exec in Y. destruct (crashed _); [contradiction|]. destruct (nth_error (wo_peers _) _) as [r|]; [|contradiction]. destruct (pstep _ _ _ _) as [[[s' r'] es']|] eqn:P; [|contradiction].
    cbn [snd] in Y. apply in_map_iff in Y as (e & Y & Z). inversion Y; subst. revert Z. eapply pstep_mute; [|exact P]. unfold inp_of. destruct (conn_closed _ _); reflexivity.
Qed.
Lemma mute_run cf l : forall c c' es, Forall mute l -> crun cf l c = (c', es) -> forall k b, ~ In (VSys k (EReadOk b)) es.
Proof.
  induction l as [|a l IH]; intros c c' es HA H k b; cbn [crun] in H; [inversion H; intros []|].
  destruct (cexec cf a c) as [c1 e1] eqn:E1. destruct (crun cf l c1) as [c2 e2] eqn:E2. inversion H; subst. inversion HA; subst. intros X. apply in_app_or in X as [X|X]; revert X; [eapply mute_step; eassumption|eapply IH; eassumption].
Qed.

(* ---------- the numbers of a real torrent ---------- *)
Lemma real_ordinary cwd creat mk f0 mi hash dir f1 t N : New cwd creat mk f0 mi hash dir = (f1, Ok t) -> Forall (fun n => 0 <= n) (file_lengths mi) ->
  0 < total (file_lengths mi) <= 2 ^ 50 -> 0 < mi_piece_length mi < 2 ^ 30 -> N <= 2 ^ 32 -> zlen (mi_pieces mi) = 20 * N -> ordinary t.
Proof.
  intros HN HL HT HP H32 HZ. pose proof (ProofPossible.HL' _ HL HT) as HL'. destruct (new_fields _ _ _ _ _ _ _ _ _ HN) as (HPc & _ & _ & E1 & E2 & E3 & E4 & _).
  assert (Hm : zlen (mi_pieces mi) mod 20 = 0) by (rewrite HZ, Z.mul_comm; apply Z_mod_mult). destruct (new_pieces_ok _ Hm) as (ps & F1 & F2 & F3 & _). rewrite HPc in F1. inversion F1; subst ps.
  assert (Hlen : zlen (t_pieces t) = N).
  { assert (X : forall ps, Forall (fun p => zlen (p_sha1 p) = 20) ps -> zlen (concat (map p_sha1 ps)) = 20 * zlen ps).
    { induction 1; cbn [map concat]; [reflexivity|]. rewrite zlen_app, zlen_cons. lia. }
    specialize (X _ F3). rewrite F2 in X. lia. }
  pose proof (lens_len _ _ _ _ _ _ _ _ _ HN) as HLn. unfold ordinary. rewrite E1, E2, E3, E4, Hlen. unfold file_lengths in *.
  destruct (mi_length mi =? 0) eqn:EL.
  - split; [discriminate|]. rewrite Forall_map in HL, HL'. split; [exact HL'|]. split; [lia|]. split; [nia|]. rewrite complete_length_total; [lia|exact HL|lia].
  - split; [intros _ X; rewrite X in HLn; discriminate|]. split; [constructor|]. inversion HL'; subst. split; [lia|]. split; [nia|assumption].
Qed.

Lemma both_prog cf look o f flags out file order d M w c0 ps N c l cl tr k :
  o_file o file = Some d -> SpecBencode.fits d -> torrent_doc d M w ->
  prog_start cf look o f flags (CDownload out file) [] order = PRun c0 -> out <> [] -> torrent_places (o_cwd o) out M ps -> NoDup ps ->
  Forall (fun n => 0 <= n) (file_lengths M) -> 0 < total (file_lengths M) <= 2 ^ 50 -> 0 < mi_piece_length M < 2 ^ 30 -> N <= 2 ^ 32 ->
  torrent_of (cf_sha1 cf) M N c -> Forall sends_bytes l -> ~ In KSignal l -> prog_run cf l (PRun c0) = (PRun cl, tr) -> prog_status (PRun cl) = None ->
  at_run cl k -> in_place (cf_sha1 cf) M tr -> no_known_collision (cf_sha1 cf) M N c tr ->
  ((exists l2 p2 tr2, Forall sends_bytes l2 /\ prog_run cf l2 (PRun cl) = (p2, tr2) /\ prog_status p2 = Some 0 /\ complete (cf_sha1 cf) M (prog_fs p2) ps N) <-> ~ given_up cl).
Proof.
  intros Hd Hf HT HS Ho HPl HD HL HTo HPL HN32 HC HB HSg HR HSt HRn HI HK.
  destruct (download_started _ _ _ _ _ _ _ _ _ _ _ _ _ HS Hd Hf HT) as (f1 & t & HN & E). pose proof (places_of _ _ _ _ _ _ _ _ _ _ HN Ho HPl) as EP. subst ps c0.
  cbn [prog_run] in HR. destruct (crun cf l _) as [c1 e1] eqn:EC. injection HR as -> ->.
  assert (OR : ordinary t) by (eapply real_ordinary; try eassumption; apply HC). split.
  - intros (l2 & p2 & tr2 & _ & R & Z & _) NG. cbn [prog_run] in R. destruct (crun cf l2 cl) as [c2 e2] eqn:E2. inversion R; subst. revert Z. change (client_status c2 <> Some 0). eapply doomed; eassumption.
  - intros NG. destruct (rescued_taken _ _ _ _ _ _ _ _ _ HN HD HL HTo HPL cf N c HN32 HC (order (t_trackers t)) k cl tr) as (l2 & c2 & e2 & A & B & R & (tr2 & l' & HR' & HB' & HS' & HI' & HK' & X & _) & F).
    { exists l. split; [exact EC|]. split; [exact HB|]. split; [apply Forall_forall; intros a Ha ->; contradiction|]. auto. }
    destruct (zero_possible _ _ _ _ _ OR _ _ _ HR' HB') as (l3 & c3 & e3 & A3 & R3 & Z3); [|exact X|intros G; apply NG; eapply peer_given_run; eassumption|].
    { intros Y. rewrite Forall_forall in HS'. exact (HS' _ Y eq_refl). }
    assert (A4 : Forall sends_bytes l3) by (eapply Forall_impl; [apply mute_sends|exact A3]). pose proof (mute_run _ _ _ _ _ A3 R3) as NR.
    assert (RP : forall i off x, read_piece (tr2 ++ e3) i off x -> read_piece tr2 i off x) by (intros i off x H; apply read_app in H as [H|(k0 & H)]; [exact H|now apply NR in H]).
    exists (l2 ++ l3), (PRun c3), (e2 ++ e3). split; [apply Forall_app; auto|]. split; [cbn [prog_run]; rewrite crun_app, R, R3; reflexivity|]. split; [exact Z3|].
    refine (taken_complete _ _ _ _ _ _ _ _ _ HN HD (ProofPossible.HL' _ HL HTo) HPL cf (order (t_trackers t)) (l' ++ l3) c3 (tr2 ++ e3) N _ _ _ _ _ _).
    + apply Forall_app; auto.
    + rewrite crun_app, HR', R3. reflexivity.
    + eapply pieces; eassumption.
    + intros i off x Hi Hoff H. apply (HI' i off x Hi Hoff). now apply RP.
    + intros i off x i' off' x' Y Y'. apply HK'; left; [exists i, off|exists i', off']; now apply RP.
    + intros i Hi. destruct (F i Hi) as (m & x & F1 & F2). exists m, x. split; [|exact F2]. eapply taken_run; eassumption.
Qed.
