(* One peer can complete a download: C166.                                     *)
From Verif Require Import Base ProofBase SpecPath ModelPath ModelBitset ModelMsg ModelTorrent ModelConn ModelStats ModelPeer ModelSystem ModelTracker ModelManager ModelClient
  SpecMsg SpecPeer SpecTorrent SpecFinish SpecManager SpecClient SpecCrash SpecOrigin SpecArrive SpecPossible SpecInterested SpecRescue
  ProofTorrent ProofSystem ProofRequests ProofProgress ProofMsg ProofWrite ProofHistory ProofDisk ProofNew ProofPeer ProofPeer2 ProofVerified ProofFinish ProofOrder
  ProofWitness ProofInterested ProofManager ProofManager3 ProofClient ProofClient2 ProofClient3 ProofClient4 ProofClient6 ProofClient7 ProofOrigin ProofShutdown ProofLeak ProofCrash ProofArrive
  SpecBencode ModelCmd ModelProgram SpecCmd SpecProgram ProofProgram.
From Verif Require ProofPossible.

(* connections stay open until the context is cancelled *)
Lemma open_conns n l g tr : grun l (NewMng n) = (g, tr) -> g_cancel g = false -> Forall (eq true) (g_conns g).
Proof.
  intros H. refine (proj2 (grun_inv (fun g tr => ginv g tr /\ (g_cancel g = false -> Forall (eq true) (g_conns g))) (fun _ => True) (NewMng n) _ _ l g tr _ H)).
  - split; [apply ginv_start|constructor].
  - clear. intros g tr a g' es [I H] _ E. split; [eapply gexec_inv; eassumption|]. pose proof (iv_stop _ _ I) as ST. destruct a as [m|j i|k| | |].
    + unfold gexec in E. destruct (g_panic g); [inversion E; subst; exact H|]. destruct (g_started g); inversion E; subst; exact H.
    + pose proof (xtrk_cancel_same j i g) as C. rewrite E in C. cbn in C. rewrite C. intros P. specialize (H P). clear -E H. unfold gexec in E. destruct (g_panic g); [inversion E; subst; exact H|].
      destruct (nth_error (g_trk g) j) as [c|]; [|inversion E; subst; exact H]. destruct (tstep g j c i) as [[g1 e1]|] eqn:T; inversion E; subst; [|exact H].
      destruct (proj2 (tstep_conns _ _ _ _ _ _ T)) as [-> |[-> _]]; [exact H|]. apply Forall_app. split; [exact H|]. repeat constructor.
    + unfold gexec in E. destruct (g_panic g); [inversion E; subst; exact H|]. destruct (nth_error (g_peers g) k) as [p|]; [destruct (mp_state p)|]; inversion E; subst; exact H.
    + unfold gexec in E. destruct (g_panic g); inversion E; subst; [exact H|discriminate].
    + unfold gexec in E. destruct (g_panic g); [inversion E; subst; exact H|]. destruct (g_stop g); inversion E; subst; [exact H|].
      unfold stop_check. destruct (g_pool g) eqn:P; [|exact H]. destruct (g_started g); cbn; [discriminate|]. exact H.
    + unfold gexec in E. destruct (g_panic g); [inversion E; subst; exact H|]. destruct (g_stop g) eqn:S; inversion E; subst; [|exact H].
      destruct (ST eq_refl) as [_ C]. unfold stop_close. destruct (close_all _ _ _); cbn; congruence.
  - now apply Forall_forall.
Qed.

Lemma conn_open cf t f outs urls l c tr p : crun cf l (client_start cf t f outs urls) = (c, tr) -> g_cancel (c_mgr c) = false -> conn_closed (c_mgr c) p = false.
Proof.
  intros HR HC. destruct (crun_mgr _ _ _ _ _ _ _ _ HR) as (lg & GR). pose proof (open_conns _ _ _ _ GR HC) as HO. unfold conn_closed. destruct (conn_of (c_mgr c) p) as [n|]; [|reflexivity].
  destruct (nth_error (g_conns (c_mgr c)) n) as [b|] eqn:E; [|reflexivity]. apply nth_error_In in E. rewrite Forall_forall in HO. now rewrite <- (HO _ E).
Qed.
Lemma body_parts i off d i' off' d' : piece_bytes i off d = piece_bytes i' off' d' -> be32 i = be32 i' /\ be32 off = be32 off' /\ d = d'.
Proof.
  intros H. assert (E : be32 i ++ be32 off ++ d = be32 i' ++ be32 off' ++ d') by (unfold piece_bytes in H; congruence). clear H.
  assert (L : forall x y, length (be32 x) = length (be32 y)) by reflexivity.
  assert (A : forall (x y u v : bytes), length x = length y -> x ++ u = y ++ v -> x = y /\ u = v).
  { induction x as [|z x IH]; intros [|z' y] u v HL HE; cbn in HL, HE; try discriminate; [auto|]. injection HE as -> HE. destruct (IH y u v ltac:(lia) HE). subst. auto. }
  destruct (A _ _ _ _ (L i i') E) as [A1 E2]. destruct (A _ _ _ _ (L off off') E2) as [A2 A3]. auto.
Qed.
Lemma read_app tr tr' i off d : read_piece (tr ++ tr') i off d <-> read_piece tr i off d \/ read_piece tr' i off d.
Proof. unfold read_piece. split; [intros (k & H); apply in_app_or in H as [H|H]; eauto|intros [(k & H)|(k & H)]; exists k; apply in_or_app; auto]. Qed.
Lemma count_panicked l : existsb panicked l = false <-> forall k r, nth_error l k = Some r -> panicked r = false.
Proof.
  split.
  - intros H k r Hk. destruct (panicked r) eqn:E; [|reflexivity]. assert (X : existsb panicked l = true) by (apply existsb_exists; exists r; split; [eapply nth_error_In; eassumption|exact E]). congruence.
  - intros H. destruct (existsb panicked l) eqn:E; [|reflexivity]. apply existsb_exists in E as (r & Hr & E). apply In_nth_error in Hr as [k Hk]. rewrite (H _ _ Hk) in E. discriminate.
Qed.
Lemma alive_parts c : client_status c = None <-> g_panic (c_mgr c) = false /\ crashed (c_wo c) = false /\ c_prt c <> PrPanic /\ c_exit c = false.
Proof.
  unfold client_status, dead. destruct (g_panic _), (crashed _), (c_prt c), (c_exit c); cbn; split; intros H; try discriminate; repeat split; try discriminate; try reflexivity;
    destruct H as (A & B & C & D); congruence.
Qed.

Section rescue.
  Variables (cwd : place) (creat : bytes -> bool) (mk : bool) (f0 : fs) (mi : metainfo) (hash dir : bytes) (f1 : fs) (t : torrent).
  Hypothesis HN : New cwd creat mk f0 mi hash dir = (f1, Ok t).
  Hypothesis HD : NoDup (t_osfiles t).
  Hypothesis HL : Forall (fun n => 0 <= n) (file_lengths mi).
  Hypothesis HT : 0 < total (file_lengths mi) <= 2 ^ 50.
  Hypothesis HP : 0 < mi_piece_length mi < 2 ^ 30.
  Variables (cf : conf) (N : Z) (con : bytes).
  Hypothesis HN32 : N <= 2 ^ 32.
  Hypothesis HC : torrent_of (cf_sha1 cf) mi N con.
  Variables (urls : list bytes) (k : nat).
  Let c0 := client_start cf t f1 [] urls.
  Notation part := (ProofPossible.part mi con).
  Notation body := (ProofPossible.body mi con).
  Notation pmsg := (ProofPossible.pmsg mi con).
  Let plen := mi_piece_length mi.

  Lemma HLb : Forall (fun n => 0 <= n < 2 ^ 63) (file_lengths mi).
  Proof. exact (ProofPossible.HL' _ HL HT). Qed.
  Lemma pieces : pieces_of mi N.
  Proof.
    pose proof (ProofPossible.N_pos _ HT HP _ _ _ HC) as Hp. destruct HC as (A & _ & B & D & _). split; [lia|]. split; [rewrite <- A; exact D|exact B].
  Qed.


  Definition good (c : client) (tr : list cev) : Prop :=
    exists l, crun cf l c0 = (c, tr) /\ Forall sends_bytes l /\ Forall (fun a => a <> KSignal) l /\ in_place (cf_sha1 cf) mi tr /\
      no_known_collision (cf_sha1 cf) mi N con tr /\ client_status c = None /\ at_run c k.

  Lemma taken_good l c tr m : crun cf l c0 = (c, tr) -> Forall sends_bytes l -> In m (wo_taken (c_wo c)) -> In m (handed (sevs tr)) /\ good_msg m.
  Proof.
    intros HR HB Hm. destruct (client_run _ _ _ _ _ _ _ _ HB HR) as (ls & RS & RB). destruct (writer_run _ _ _ _ _ RS) as [_ HH].
    assert (Hin : In m (handed (sevs tr))) by (rewrite HH; apply in_or_app; now left). split; [exact Hin|].
    destruct (handed_read _ _ _ _ _ _ _ _ _ HB HR Hin) as [((p & d & _ & Hd & _) & W & _) _]. split; [exact W|eauto].
  Qed.
  Lemma state_is l c tr : crun cf l c0 = (c, tr) -> Forall sends_bytes l ->
    w_panic (sh_w (wo_sh (c_wo c))) = false /\ t_downloaded (sh_t (wo_sh (c_wo c))) = marks t (wo_taken (c_wo c)) (bs_make N).
  Proof.
    intros HR HB. destruct (client_run _ _ _ _ _ _ _ _ HB HR) as (ls & RS & RB). destruct (writer_run _ _ _ _ _ RS) as [(_ & S1 & _ & _ & _ & S2) _].
    assert (HG : Forall good_msg (wo_taken (c_wo c))) by (apply Forall_forall; intros m Hm; eapply taken_good; eassumption).
    destruct (ProofPossible.dl_is _ _ _ _ _ _ _ _ _ HN HD HL HT HP _ _ _ HC _ HG) as [D1 D2]. rewrite S2. split; [exact D2|]. unfold sh_t. rewrite S1. exact D1.
  Qed.
  Lemma place_no tr : no_known_collision (cf_sha1 cf) mi N con tr -> no_collision (cf_sha1 cf) tr.
  Proof. intros H i off d i' off' d' A B E. apply H; [left; eauto|left; eauto|exact E]. Qed.

  (* every piece was taken; so it is in a state that a test of Done sees as done *)
  Definition all_taken (c : client) : Prop := forall i, 0 <= i < N -> exists m d, In m (wo_taken (c_wo c)) /\ m_index m = i /\ data_of m = Ok d /\ zlen d = piece_size mi i.
  Lemma done_taken c tr : good c tr -> Done (sh_t (wo_sh (c_wo c))) = true -> all_taken c.
  Proof.
    intros (l & HR & HB & _ & HI & HK & _) HDn. destruct (state_is _ _ _ HR HB) as [_ ED].
    assert (HG : Forall good_msg (wo_taken (c_wo c))) by (apply Forall_forall; intros m Hm; eapply taken_good; eassumption).
    intros i Hi. unfold Done in HDn. rewrite ED, bs_all_spec in HDn.
    assert (X : i < zlen (marks t (wo_taken (c_wo c)) (bs_make N))) by (apply marks_len; [lia|exact HG|left; rewrite bs_make_len; lia]).
    specialize (HDn i ltac:(lia)). apply marks_test in HDn; [|lia|exact HG]. rewrite bs_make_test in HDn. destruct HDn as [E|(m & H1 & _ & H3)]; [discriminate|].
    destruct (taken_good _ _ _ _ HR HB H1) as [Hin [W [d Hd]]]. exists m, d. split; [exact H1|]. split; [exact H3|]. split; [exact Hd|].
    destruct (handed_read _ _ _ _ _ _ _ _ _ HB HR Hin) as [(HV & _) HRd]. pose proof (hash_at _ _ _ _ _ _ _ _ _ HN _ _ _ HV Hd W) as Hh.
    assert (d = part i).
    { apply HK; [left; eauto|right; eauto|]. destruct HC as (_ & _ & _ & _ & D). rewrite Hh, H3. apply D. exact Hi. }
    subst d. exact (ProofPossible.part_len _ HT HP _ _ _ HC i Hi).
  Qed.

  Record at_peer (c : client) (r : rstate) : Prop := mkAt {
    ap_r : nth_error (wo_peers (c_wo c)) k = Some r;
    ap_p : exists p, nth_error (c_run c) k = Some p /\ conn_closed (c_mgr c) p = false;
    ap_ret : r_pc r <> PRet;
    ap_panic : r_pc r <> PPanic;
    ap_int : s_interested (cl_status (r_peer r)) = false;
    ap_pc : match r_pc r with PNext | PSend | PNil | PSendWait => False | _ => True end;
    ap_cancel : sh_cancel (wo_sh (c_wo c)) = false;
    ap_closed : sh_closed (wo_sh (c_wo c)) = false;
    ap_started : g_started (c_mgr c) = true;
    ap_dead : dead c = false;
    ap_exit : c_exit c = false;
    ap_crash : crashed (c_wo c) = false;
    ap_static : static (sh_t (wo_sh (c_wo c))) = static t
  }.
  Lemma here c tr : good c tr -> exists r, at_peer c r.
  Proof.
    intros (l & HR & HB & HS & _ & _ & HA & (r & Hr & Hpc)). exists r.
    assert (W : waiting c) by (refine (crun_inv cf (fun c _ => waiting c) (fun a => a <> KSignal) _ _ _ l c tr HS HR); [repeat split; now left|intros; eapply waiting_step; eassumption]).
    destruct W as (W1 & W2 & W3 & W4).
    destruct (crun_sys _ _ _ _ _ _ _ _ HR) as (ls & RS & SP). destruct (J1_run _ _ _ _ _ _ _ SP RS Hr) as (J1 & J2 & _).
    pose proof (ag_run _ (reach_agree cf c ltac:(repeat eexists; exact HR))) as AG.
    apply alive_parts in HA as HA'. destruct HA' as (A1 & A2 & A3 & A4).
    assert (HP' : exists p, nth_error (c_run c) k = Some p).
    { destruct (nth_error (c_run c) k) eqn:E; [eauto|]. apply nth_error_None in E. assert (X : nth_error (wo_peers (c_wo c)) k <> None) by congruence. apply nth_error_Some in X. lia. }
    destruct HP' as (p & Hp).
    constructor; auto.
    - exists p. split; [exact Hp|]. eapply conn_open; eassumption.
    - intros E. assert (X : existsb panicked (wo_peers (c_wo c)) = false) by (unfold crashed in A2; destruct (existsb _ _); [discriminate|reflexivity]).
      pose proof (proj1 (count_panicked _) X _ _ Hr) as Y. unfold panicked in Y. rewrite E in Y. discriminate.
    - destruct (sh_closed (wo_sh (c_wo c))) eqn:E; [|reflexivity]. pose proof (closed_ret _ _ _ _ _ RS E). destruct W1; congruence.
    - destruct (g_started (c_mgr c)) eqn:E; [reflexivity|]. destruct (not_started _ _ _ _ _ _ _ _ HR E) as [X _]. rewrite X in Hp. destruct k; discriminate.
    - unfold client_status in HA. destruct (dead c); [discriminate|reflexivity].
    - exact (static_run _ _ _ _ _ RS).
  Qed.

  (* ---------- one step of the peer ---------- *)
  Definition okin (i : inp) : Prop := forall b, i_read i = Some b -> exists j, 0 <= j < N /\ b = body j.
  Lemma pstep_reads i s r s' r' es b : pstep (cf_sha1 cf) i s r = Some (s', r', es) -> In (EReadOk b) es -> i_read i = Some b.
  Proof.
    intros E X. step_cases E; cbn in X; repeat (destruct X as [X|X]; [try discriminate X; inversion X; subst; first [assumption|reflexivity]|]); destruct X.
  Qed.
  Lemma body_bytes j : Forall is_byte (body j).
  Proof.
    unfold ProofPossible.body, piece_bytes. constructor; [unfold is_byte; lia|].
    rewrite !Forall_app. split; [|split; [|exact (ProofPossible.part_bytes _ _ _ _ HC j)]]; unfold be32; repeat (apply Forall_cons; [unfold is_byte; apply Z.mod_pos_bound; lia|]); apply Forall_nil.
  Qed.
  Definition evs (es : list event) : list cev := map (VSys k) es.
  Lemma more_reads tr es : (forall b, In (EReadOk b) es -> exists j, 0 <= j < N /\ b = body j) -> forall i off d, read_piece (tr ++ evs es) i off d ->
    read_piece tr i off d \/ exists j, 0 <= j < N /\ be32 i = be32 j /\ be32 off = be32 0 /\ d = part j.
  Proof.
    intros H i off d X. apply read_app in X as [X|(q & X)]; [auto|]. right. apply in_map_iff in X as (e & E & X). inversion E; subst. destruct (H _ X) as (j & Hj & Eb).
    apply body_parts in Eb as (B1 & B2 & B3). exists j. auto.
  Qed.
  Lemma good_more tr es : (forall b, In (EReadOk b) es -> exists j, 0 <= j < N /\ b = body j) -> in_place (cf_sha1 cf) mi tr -> no_known_collision (cf_sha1 cf) mi N con tr ->
    in_place (cf_sha1 cf) mi (tr ++ evs es) /\ no_known_collision (cf_sha1 cf) mi N con (tr ++ evs es).
  Proof.
    intros H HI HK. split.
    - intros i off d Hi Ho X Hh. destruct (more_reads _ _ H _ _ _ X) as [Y|(j & _ & _ & E & _)]; [exact (HI _ _ _ Hi Ho Y Hh)|].
      apply (be32_inj off 0); [exact Ho|split; [lia|reflexivity]|exact E].
    - assert (G : forall d, known mi N con (tr ++ evs es) d -> known mi N con tr d).
      { intros d [(i & off & X)|X]; [|now right]. destruct (more_reads _ _ H _ _ _ X) as [Y|(j & Hj & _ & _ & ->)]; [left; eauto|right; exists j; split; [exact Hj|reflexivity]]. }
      intros d d' A B. apply HK; auto.
  Qed.
  Lemma peer_moves c tr r i s' r' es : good c tr -> at_peer c r -> okin i -> pstep (cf_sha1 cf) i (wo_sh (c_wo c)) r = Some (s', r', es) -> r_pc r' <> PRet -> r_pc r' <> PPanic ->
    exists c', crun cf [KPeer k i] c = (c', evs es) /\ good c' (tr ++ evs es) /\ at_peer c' r'.
  Proof.
    intros (l & HR & HB & HS & HI & HK & HA & _) AP OI E N1 N2. destruct (ap_p _ _ AP) as (p & Hp & Hc).
    set (w' := mkWorld s' (upd (wo_peers (c_wo c)) k r') (wo_main (c_wo c)) (wo_taken (c_wo c)) (wo_hand (c_wo c))).
    assert (Er : nth_error (wo_peers w') k = Some r') by (cbn; eapply ProofClock.nth_upd_same; exact (ap_r _ _ AP)).
    set (c' := mkClient (c_mgr c) w' (c_run c) (c_trk c) (c_rounds c) (c_cnt c) (c_wr c) (c_prt c) (c_exit c)).
    assert (E1 : cexec cf (KPeer k i) c = (c', evs es)).
    { unfold cexec. rewrite (ap_dead _ _ AP), (ap_exit _ _ AP). cbn [orb]. unfold peer_step. rewrite Hp, Hc. unfold exec. rewrite (ap_crash _ _ AP), (ap_r _ _ AP), E.
      change (mkWorld s' (upd (wo_peers (c_wo c)) k r') (wo_main (c_wo c)) (wo_taken (c_wo c)) (wo_hand (c_wo c))) with w'.
      assert (RT : returned w' k = false) by (unfold returned; rewrite Er; destruct (r_pc r'); auto; congruence). rewrite RT. unfold c', sysev, evs. rewrite map_map. reflexivity. }
    assert (HR' : crun cf (l ++ [KPeer k i]) c0 = (c', tr ++ evs es)) by (rewrite crun_snoc, HR, E1; reflexivity).
    assert (SB : Forall sends_bytes (l ++ [KPeer k i])).
    { apply Forall_app. split; [exact HB|]. constructor; [|constructor]. cbn. intros b Eb. destruct (OI _ Eb) as (j & _ & ->). apply body_bytes. }
    assert (G : good c' (tr ++ evs es)).
    { exists (l ++ [KPeer k i]). split; [exact HR'|]. split; [exact SB|]. split; [apply Forall_app; split; [exact HS|repeat constructor; discriminate]|].
      destruct (good_more tr es (fun b X => OI b (pstep_reads _ _ _ _ _ _ _ E X)) HI HK) as [G1 G2]. split; [exact G1|]. split; [exact G2|]. split; [|exists r'; auto].
      apply alive_parts in HA as (A1 & A2 & A3 & A4). apply alive_parts. split; [exact A1|]. split; [|split; [exact A3|exact A4]].
      unfold crashed. destruct (state_is _ _ _ HR' SB) as [-> _]. rewrite orb_false_r. apply count_panicked. intros j x Hx. cbn in Hx. apply nth_upd in Hx as [[-> ->]|[Hj Hx]].
      - unfold panicked. destruct (r_pc r'); auto. congruence.
      - eapply count_panicked; [|exact Hx]. unfold crashed in A2. now apply orb_false_elim in A2. }
    exists c'. split; [cbn [crun]; now rewrite E1, app_nil_r|]. split; [exact G|].
    destruct (here _ _ G) as (r2 & A2). replace r' with r2; [exact A2|]. pose proof (ap_r _ _ A2) as X. cbn in X, Er. congruence.
  Qed.

  (* ---------- the writer gets everything ---------- *)
  Lemma writer_moves c tr : good c tr -> exists c', cexec cf KWriter c = (c', []) /\ good c' tr /\ wo_peers (c_wo c') = wo_peers (c_wo c).
  Proof.
    intros G. destruct (here _ _ G) as (r & AP). destruct G as (l & HR & HB & HS & HI & HK & HA & HIn).
    assert (E1 : cexec cf KWriter c = (writer_step cf c, [])) by (unfold cexec; rewrite (ap_dead _ _ AP), (ap_exit _ _ AP), (ap_started _ _ AP); reflexivity).
    assert (F : wo_peers (c_wo (writer_step cf c)) = wo_peers (c_wo c) /\ c_mgr (writer_step cf c) = c_mgr c /\ c_prt (writer_step cf c) = c_prt c /\ c_exit (writer_step cf c) = c_exit c).
    { assert (X : wo_peers (fst (exec (cf_sha1 cf) AWriter (c_wo c))) = wo_peers (c_wo c)) by (unfold exec; rewrite (ap_crash _ _ AP); destruct (wo_hand _); [|destruct (sh_ch _)]; reflexivity).
      unfold writer_step. destruct (wo_hand (c_wo c)); [destruct (c_wr c); [destruct (data_of m)|..]|]; cbn [c_wo c_mgr c_prt c_exit]; rewrite ?X; auto. }
    destruct F as (F1 & F2 & F3 & F4). exists (writer_step cf c). split; [exact E1|]. split; [|exact F1].
    assert (HR' : crun cf (l ++ [KWriter]) c0 = (writer_step cf c, tr)) by (rewrite crun_snoc, HR, E1, app_nil_r; reflexivity).
    assert (SB : Forall sends_bytes (l ++ [KWriter])) by (apply Forall_app; split; [exact HB|repeat constructor]).
    exists (l ++ [KWriter]). split; [exact HR'|]. split; [exact SB|]. split; [apply Forall_app; split; [exact HS|repeat constructor; discriminate]|].
    split; [exact HI|]. split; [exact HK|]. split; [|unfold at_run; rewrite F1; exact HIn].
    apply alive_parts in HA as (A1 & A2 & A3 & A4). apply alive_parts. rewrite F2, F3, F4. split; [exact A1|]. split; [|auto].
    unfold crashed. destruct (state_is _ _ _ HR' SB) as [-> _]. rewrite F1, orb_false_r. unfold crashed in A2. now apply orb_false_elim in A2.
  Qed.
  Lemma writer_many n : forall c tr, good c tr -> exists c', crun cf (repeat KWriter n) c = (c', []) /\ good c' tr /\ wo_peers (c_wo c') = wo_peers (c_wo c).
  Proof.
    induction n as [|n IH]; intros c tr G; [exists c; auto|]. destruct (writer_moves _ _ G) as (c1 & E1 & G1 & P1). destruct (IH _ _ G1) as (c2 & E2 & G2 & P2).
    exists c2. split; [cbn [repeat crun]; now rewrite E1, E2|]. split; [exact G2|congruence].
  Qed.
  Lemma turns_repeat n : turns (repeat KWriter n) = n.
  Proof. unfold turns. induction n; cbn; auto. Qed.
  Lemma drained c tr r : good c tr -> at_peer c r -> exists c', crun cf (repeat KWriter (4 * puts tr)) c = (c', []) /\ good c' tr /\ at_peer c' r /\ sh_ch (wo_sh (c_wo c')) = [].
  Proof.
    intros G AP. destruct (writer_many (4 * puts tr) _ _ G) as (c' & E & G' & P). exists c'. split; [exact E|]. split; [exact G'|]. split.
    { destruct (here _ _ G') as (r2 & A2). replace r with r2; [exact A2|]. pose proof (ap_r _ _ A2) as X. rewrite P in X. pose proof (ap_r _ _ AP). congruence. }
    destruct G as (l & HR & _). pose proof G' as (l' & HR' & _ & _ & _ & _ & HA' & _).
    destruct (drains cf t f1 [] urls (puts tr) (repeat KWriter (4 * puts tr)) _ _ _ _ _ HR (le_n _) E HA') as [D1 D2]. rewrite turns_repeat in D2.
    assert (F : (4 * puts tr <= far c')%nat) by (destruct (Nat.lt_ge_cases (far c) (4 * puts tr)) as [Q|Q]; [specialize (D2 Q); lia|lia]).
    destruct (crun_sys _ _ _ _ _ _ _ _ HR') as (ls & RS & _). destruct (writer_run _ _ _ _ _ RS) as [_ HH]. apply (f_equal (@length msg)) in HH. rewrite puts_handed, !app_length in HH.
    unfold far, phase, held in *. destruct (wo_hand (c_wo c')); [destruct (c_wr c'); cbn [length] in HH|]; (destruct (sh_ch (wo_sh (c_wo c'))); [reflexivity|cbn [length] in HH; lia]).
  Qed.

  (* ---------- the goal ---------- *)
  Definition fin (c : client) : Prop :=
    exists l2 c2 e2, Forall sends_bytes l2 /\ Forall (by_peer k) l2 /\ crun cf l2 c = (c2, e2) /\ (exists tr2, good c2 tr2) /\ all_taken c2.
  Lemma fin_after l1 c c1 e1 : Forall sends_bytes l1 -> Forall (by_peer k) l1 -> crun cf l1 c = (c1, e1) -> fin c1 -> fin c.
  Proof.
    intros A B E (l2 & c2 & e2 & A2 & B2 & E2 & F). exists (l1 ++ l2), c2, (e1 ++ e2). split; [apply Forall_app; auto|]. split; [apply Forall_app; auto|].
    split; [rewrite crun_app, E, E2; reflexivity|exact F].
  Qed.
  Lemma fin_now c tr : good c tr -> all_taken c -> fin c.
  Proof. intros G F. exists [], c, []. split; [constructor|]. split; [constructor|]. split; [reflexivity|]. split; [exists tr; exact G|exact F]. Qed.
  Lemma writers_ok n : Forall sends_bytes (repeat KWriter n) /\ Forall (by_peer k) (repeat KWriter n).
  Proof. split; apply Forall_forall; intros a Ha; apply repeat_spec in Ha; subst; exact I. Qed.
  Lemma fin_drain c tr r : good c tr -> at_peer c r -> (forall c', good c' tr -> at_peer c' r -> sh_ch (wo_sh (c_wo c')) = [] -> fin c') -> fin c.
  Proof.
    intros G AP H. destruct (drained _ _ _ G AP) as (c' & E & G' & A' & D). destruct (writers_ok (4 * puts tr)) as [W1 W2]. eapply fin_after; [exact W1|exact W2|exact E|]. now apply H.
  Qed.
  Lemma fin_step c tr r i s' r' es : good c tr -> at_peer c r -> okin i -> pstep (cf_sha1 cf) i (wo_sh (c_wo c)) r = Some (s', r', es) -> r_pc r' <> PRet -> r_pc r' <> PPanic ->
    (forall c', good c' (tr ++ evs es) -> at_peer c' r' -> fin c') -> fin c.
  Proof.
    intros G AP OI E N1 N2 H. destruct (peer_moves _ _ _ _ _ _ _ G AP OI E N1 N2) as (c' & E' & G' & A').
    eapply fin_after; [| |exact E'|now apply H]; constructor; try constructor.
    - intros b Eb. destruct (OI _ Eb) as (j & _ & ->). apply body_bytes.
  Qed.
  Lemma go_ok : okin go. Proof. intros b X. discriminate. Qed.
  Definition rank (x : pc) : nat :=
    match x with
    | PReadWait => 12 | PPut false _ => 11 | PTop => 10 | PDone => 9 | PKeep => 8 | PChoke => 7 | PUWait => 6 | PUTop => 5 | PUSend => 4 | PPut true _ => 4 | PReq => 3 | _ => 0
    end.
  Definition upto (n : nat) (tr : list cev) : Prop := forall i, 0 <= i < Z.of_nat n -> arrived mi tr i.
  Lemma upto_more n tr e : upto n tr -> upto n (tr ++ e).
  Proof. intros H i Hi. destruct (H i Hi) as (d & (q & m & A & B) & C). exists d. split; [|exact C]. exists q, m. split; [apply in_or_app; auto|exact B]. Qed.

  Lemma all_here c tr : good c tr -> upto (Z.to_nat N) tr -> fin c.
  Proof.
    intros G U. pose proof G as (l & HR & HB & _ & HI & HK & HA & _). destruct (writer_many (4 * puts tr) _ _ G) as (c' & E & G' & _). destruct (writers_ok (4 * puts tr)) as [W1 W2].
    exists (repeat KWriter (4 * puts tr)), c', []. split; [exact W1|]. split; [exact W2|]. split; [exact E|]. split; [exists tr; exact G'|].
    intros i Hi. destruct (U i ltac:(lia)) as (d & (q & m & X1 & X2) & X3). destruct (piece_fields i d m ltac:(lia) X2) as [F1 F2]. exists m, d. split; [|auto].
    destruct G' as (l' & _ & _ & _ & _ & _ & X & _). eapply taken_after; [exact HR|exact E|exact X|rewrite turns_repeat; lia|]. apply put_handed. exists q. apply sevs_in. exact X1.
  Qed.

  (* reading piece n, and putting it *)
  Lemma read_gives c r u n : at_peer c r -> 0 <= n < N -> handle_body (cf_sha1 cf) (sh_t (wo_sh (c_wo c))) u r (body n) = at_pc r (PPut u (pmsg n)).
  Proof.
    intros AP Hn. destruct (ProofPossible.pmsg_ok mi N con HN32 n Hn) as (A1 & A2 & A3 & A4 & A5).
    unfold handle_body. rewrite A1. unfold handlePeerMessage. rewrite A2. cbn [PieceT KeepaliveT BitfieldT HaveT InterestedT NotInterestedT ChokeT UnchokeT Z.eqb Pos.eqb].
    unfold handlePieceMessage. rewrite A5, A3. unfold sh_t. rewrite (ProofPossible.check_ok _ _ _ _ _ _ _ _ _ HN HP _ _ _ HC (sh_w (wo_sh (c_wo c))) n (ap_static _ _ AP) Hn). reflexivity.
  Qed.
  Lemma put_step (c : client) u m : sh_closed (wo_sh (c_wo c)) = false -> sh_ch (wo_sh (c_wo c)) = [] -> forall r, r_pc r = PPut u m ->
    pstep (cf_sha1 cf) go (wo_sh (c_wo c)) r = Some (set_ch (wo_sh (c_wo c)) [m], with_peer r (if u then PReq else PTop) (after_put (r_peer r) m), [EPut m]).
  Proof. intros A B r E. unfold pstep. rewrite E, A, B. reflexivity. Qed.
  Lemma upto_put n tr es : 0 <= Z.of_nat n < N -> upto n tr -> In (EPut (pmsg (Z.of_nat n))) es -> upto (S n) (tr ++ evs es).
  Proof.
    intros Hn U X i Hi. destruct (Z.eq_dec i (Z.of_nat n)) as [->|D]; [|apply (upto_more n _ _ U); lia].
    destruct (ProofPossible.pmsg_ok mi N con HN32 _ Hn) as (A1 & _). exists (part (Z.of_nat n)). split; [|exact (ProofPossible.part_len _ HT HP _ _ _ HC _ Hn)].
    exists k, (pmsg (Z.of_nat n)). split; [|exact A1]. apply in_or_app. right. apply in_map. exact X.
  Qed.
  Lemma goes_on : forall d n q, (d = Z.to_nat N - n)%nat -> forall c tr r, good c tr -> at_peer c r -> upto n tr -> rank (r_pc r) = q -> fin c.
  Proof.
    induction d as [|d IHd]; intros n q Ed; [intros c tr r G _ U _; apply (all_here c tr G); intros i Hi; apply U; lia|].
    assert (Hn : 0 <= Z.of_nat n < N) by lia.
    induction q as [q IHq] using lt_wf_ind. intros c tr r G AP U Eq.
    assert (DEL : forall u : bool, r_pc r = (if u then PURead else PRead) -> fin c).
    { intros u Eu. assert (Hb : okin (mkI false true (Some (body (Z.of_nat n))) true)) by (intros b X; cbn in X; inversion X; subst; eauto).
      eapply (fin_step c tr r (mkI false true (Some (body (Z.of_nat n))) true) (wo_sh (c_wo c)) (at_pc r (PPut u (pmsg (Z.of_nat n)))) [EReadOk (body (Z.of_nat n))] G AP Hb).
      - unfold pstep. rewrite Eu. destruct u; cbn [i_read]; rewrite read_gives by assumption; reflexivity.
      - discriminate.
      - discriminate.
      - intros c1 G1 A1. apply (upto_more _ _ (evs [EReadOk (body (Z.of_nat n))])) in U. eapply fin_drain; [exact G1|exact A1|]. clear c1 G1 A1. intros c1 G1 A1 D1.
        eapply (fin_step _ _ _ go _ _ _ G1 A1 go_ok (put_step c1 u (pmsg (Z.of_nat n)) (ap_closed _ _ A1) D1 (at_pc r (PPut u (pmsg (Z.of_nat n)))) eq_refl)); [destruct u; discriminate..|].
        intros c2 G2 A2. eapply (IHd (S n) _ ltac:(lia) _ _ _ G2 A2); [|reflexivity]. apply upto_put; [exact Hn|exact U|now left]. }
    assert (STEP : forall s' r' es, pstep (cf_sha1 cf) go (wo_sh (c_wo c)) r = Some (s', r', es) -> r_pc r' <> PRet -> r_pc r' <> PPanic -> (rank (r_pc r') < q)%nat -> fin c).
    { intros s' r' es E N1 N2 Hr. eapply (fin_step _ _ _ _ _ _ _ G AP go_ok E N1 N2). intros c' G' A'. eapply (IHq _ Hr _ _ _ G' A'); [apply upto_more; exact U|reflexivity]. }
    assert (PUT : forall u m, r_pc r = PPut u m -> fin c).
    { intros u m Em. eapply fin_drain; [exact G|exact AP|]. intros c1 G1 A1 D1. eapply (fin_step _ _ _ go _ _ _ G1 A1 go_ok (put_step _ u m (ap_closed _ _ A1) D1 _ Em)); [destruct u; discriminate..|].
      intros c2 G2 A2. eapply (IHq (rank (if u then PReq else PTop))); [rewrite <- Eq, Em; destruct u; cbn; lia|exact G2|exact A2|apply upto_more; exact U|destruct u; reflexivity]. }
    pose proof (ap_ret _ _ AP) as N1. pose proof (ap_panic _ _ AP) as N2. pose proof (ap_pc _ _ AP) as N3. pose proof (ap_cancel _ _ AP) as HCn. pose proof (ap_int _ _ AP) as HIn.
    destruct (r_pc r) eqn:Epc; try contradiction; try congruence; cbn [rank] in Eq.
    all: try (eapply STEP; [unfold pstep; rewrite Epc; cbn [go i_due i_ok i_read ModelPeer.i_timer wait]; rewrite ?HCn; try reflexivity|..]; cbn [at_pc r_pc]; try discriminate; cbn [rank]; lia).
    - destruct (Done (sh_t (wo_sh (c_wo c)))) eqn:DN; [eapply fin_now; [exact G|eapply done_taken; eassumption]|].
      eapply STEP; [unfold pstep; rewrite Epc, DN; reflexivity|discriminate|discriminate|cbn; lia].
    - eapply STEP; [unfold pstep; rewrite Epc; reflexivity|..]; cbn [at_pc r_pc]; destruct (s_choked _); try discriminate; cbn; lia.
    - exact (DEL true eq_refl).
    - eapply STEP; [unfold pstep; rewrite Epc, HIn, andb_false_r; reflexivity|discriminate|discriminate|cbn; lia].
    - exact (DEL false eq_refl).
    - eapply PUT; reflexivity.
  Qed.
  Lemma rescued_taken c tr : good c tr -> fin c.
  Proof. intros G. destruct (here _ _ G) as (r & AP). eapply (goes_on _ 0%nat _ eq_refl _ _ _ G AP); [|reflexivity]. intros i Hi. lia. Qed.
  (* the state in which every piece was taken is complete *)
  Lemma rescued c tr : good c tr ->
    exists l2 c2 e2, Forall sends_bytes l2 /\ Forall (by_peer k) l2 /\ crun cf l2 c = (c2, e2) /\ client_status c2 = None /\ complete (cf_sha1 cf) mi (w_fs (sh_w (wo_sh (c_wo c2)))) (t_osfiles t) N.
  Proof.
    intros G. destruct (rescued_taken _ _ G) as (l2 & c2 & e2 & A & B & E & (tr2 & l' & HR & HB & _ & HI & HK & X & _) & F). exists l2, c2, e2. split; [exact A|]. split; [exact B|]. split; [exact E|].
    split; [exact X|]. apply (taken_complete _ _ _ _ _ _ _ _ _ HN HD HLb HP cf urls _ _ _ N HB HR pieces HI (place_no _ HK) F).
  Qed.
End rescue.

Lemma rescue_prog cf look o f flags out file order d M w c0 ps N c l cl tr k :
  o_file o file = Some d -> SpecBencode.fits d -> torrent_doc d M w ->
  prog_start cf look o f flags (CDownload out file) [] order = PRun c0 -> out <> [] -> torrent_places (o_cwd o) out M ps -> NoDup ps ->
  Forall (fun n => 0 <= n) (file_lengths M) -> 0 < total (file_lengths M) <= 2 ^ 50 -> 0 < mi_piece_length M < 2 ^ 30 -> N <= 2 ^ 32 ->
  torrent_of (cf_sha1 cf) M N c -> Forall sends_bytes l -> ~ In KSignal l -> prog_run cf l (PRun c0) = (PRun cl, tr) -> prog_status (PRun cl) = None ->
  at_run cl k -> in_place (cf_sha1 cf) M tr -> no_known_collision (cf_sha1 cf) M N c tr ->
  exists l2 p2 tr2, Forall sends_bytes l2 /\ Forall (by_peer k) l2 /\ prog_run cf l2 (PRun cl) = (p2, tr2) /\ prog_status p2 = None /\ complete (cf_sha1 cf) M (prog_fs p2) ps N.
Proof.
  intros Hd Hf HT HS Ho HPl HD HL HTo HPL HN32 HC HB HSg HR HSt HRn HI HK.
  destruct (download_started _ _ _ _ _ _ _ _ _ _ _ _ _ HS Hd Hf HT) as (f1 & t & HN & E). pose proof (places_of _ _ _ _ _ _ _ _ _ _ HN Ho HPl) as EP. subst ps c0.
  cbn [prog_run] in HR. destruct (crun cf l _) as [c1 e1] eqn:EC. injection HR as -> ->.
  destruct (rescued _ _ _ _ _ _ _ _ _ HN HD HL HTo HPL cf N c HN32 HC (order (t_trackers t)) k cl tr) as (l2 & c2 & e2 & A & B & R & S & C).
  - exists l. split; [exact EC|]. split; [exact HB|]. split; [apply Forall_forall; intros a Ha ->; contradiction|]. auto.
  - exists l2, (PRun c2), e2. split; [exact A|]. split; [exact B|]. split; [cbn [prog_run]; now rewrite R|]. split; [exact S|exact C].
Qed.
