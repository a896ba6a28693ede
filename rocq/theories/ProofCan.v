(* Which torrents the program can download: C160.                              *)
From Verif Require Import Base ProofBase SpecPath SpecBencode SpecTorrent SpecFinish SpecPeer SpecMsg SpecProgram SpecCmd SpecClient SpecSource SpecOrigin SpecPossible.
From Verif Require Import ModelPath ModelBitset ModelMsg ModelTorrent ModelConn ModelStats ModelPeer ModelSystem ModelTracker ModelManager ModelClient ModelCmd ModelProgram.
From Verif Require Import ProofConn ProofPeer ProofPath ProofTorrent ProofHistory ProofNew ProofSystem ProofClient ProofProgram ProofClient4 ProofPossible ProofSource.
From Coq Require Import Permutation.

(* ---------- the connection ---------- *)
Definition greeting (hash : bytes) : list ev := [Chunk (createHandshake (repeat 0 20) hash)].
Lemma greeted id hash : length hash = 20%nat -> snd (Announce true true (greeting hash) id hash) = AOk.
Proof.
  intros HL. destruct (own_handshake (repeat 0 20) hash hash id HL eq_refl) as [L V].
  unfold Announce, greeting, ReadPeerHandshake, readExactly. cbn [negb].
  assert (E : fst (read_full [] 68 [Chunk (createHandshake (repeat 0 20) hash)]) = ROk (createHandshake (repeat 0 20) hash)).
  { cbn [read_full]. change (68 <=? 0) with false. cbn iota. assert (Z : zlen (createHandshake (repeat 0 20) hash) = 68) by (unfold zlen; lia). rewrite Z. reflexivity. }
  rewrite E. rewrite (proj2 V eq_refl). reflexivity.
Qed.
Definition meet (hash : bytes) : cin := mkCin [] true true (greeting hash).
Definition held_mgr (lim : Z) (a : addrport) (trk : list tpc) (num : Z) (st : pstate) : mgr :=
  mkMgr lim true false (Some [(apString a, 0%nat)]) [mkMp a (Some 0%nat) st] [true] trk num false false.
Definition with_peer_at (g : mgr) (w : world) (tks : list ctr) (rd : nat) (cnt : stats) (wr : wpc) : client := mkClient g w [0%nat] tks rd cnt wr PrRun false.
Lemma connected cf w0 lim trk num tks rd cnt j x (a : addrport) : a <> None ->
  nth_error trk j = Some (TInit [a]) -> nth_error tks j = Some x -> w_panic w0 = false -> length (t_hash (w_t w0)) = 20%nat ->
  exists trk' num' tr, crun cf (repeat (KTrk j (meet (t_hash (w_t w0)))) 4)
      (mkClient (mkMgr lim true false (Some []) [] [] trk num false false) (start w0) [] tks rd cnt WIdle PrRun false) =
    (with_peer_at (held_mgr lim a trk' num' PsRun) (mkWorld (mkSh w0 (fun _ => NewPiecesQueue) [] false false) [ModelSystem.fresh false (w_t w0) (ct_grp x)] MWait [] None)
       tks rd cnt WIdle, tr).
Proof.
  intros HA HT HX HP HH. assert (HM : match a with Some _ => true | None => false end = true) by (destruct a; [reflexivity|contradiction]).
  assert (T1 : nth_error (upd trk j (TPStart 0 [])) j = Some (TPStart 0 [])) by (eapply upd_same; exact HT).
  assert (T2 : nth_error (upd (upd trk j (TPStart 0 [])) j (TPDial 0 0 [])) j = Some (TPDial 0 0 [])) by (eapply upd_same; exact T1).
  assert (T3 : nth_error (upd (upd (upd trk j (TPStart 0 [])) j (TPDial 0 0 [])) j (TPShake 0 0 [])) j = Some (TPShake 0 0 [])) by (eapply upd_same; exact T2).
  cbn [repeat]. eexists _, _, _.
  eapply crun_cons.
  { unfold cexec, dead, crashed. cbn [c_mgr g_panic c_wo start wo_peers wo_sh existsb sh_w c_prt c_exit]. rewrite HP. cbn [orb]. unfold ctrk_step. cbn [c_mgr g_trk c_trk]. rewrite HT, HX.
    unfold gexec. cbn [g_panic g_trk]. rewrite HT. cbn [tstep AddPeer g_pool pool_get g_peers length]. unfold with_mgr, sync, set_peers, set_trk. cbn [fst snd set_trk g_cancel g_limit g_started g_pool g_peers g_conns g_trk g_num g_stop g_panic c_wo c_run c_trk c_rounds c_cnt c_wr c_prt c_exit]. reflexivity. }
  eapply crun_cons.
  { unfold cexec, dead, crashed. cbn [c_mgr g_panic c_wo start wo_peers wo_sh existsb sh_w c_prt c_exit]. rewrite HP. cbn [orb]. unfold ctrk_step. cbn [c_mgr g_trk c_trk]. 
    rewrite T1, HX.
    unfold gexec. cbn [g_panic g_trk]. rewrite T1. cbn [tstep g_cancel]. unfold with_mgr, sync, set_peers, set_trk. cbn [fst snd set_trk g_cancel g_limit g_started g_pool g_peers g_conns g_trk g_num g_stop g_panic c_wo c_run c_trk c_rounds c_cnt c_wr c_prt c_exit]. reflexivity. }
  eapply crun_cons.
  { unfold cexec, dead, crashed. cbn [c_mgr g_panic c_wo start wo_peers wo_sh existsb sh_w c_prt c_exit]. rewrite HP. cbn [orb]. unfold ctrk_step. cbn [c_mgr g_trk c_trk]. rewrite T2, HX.
    unfold gexec. cbn [g_panic g_trk]. rewrite T2. cbn [tstep g_cancel g_peers app nth_error mp_addr mp_state tin_of i_dial meet x_ok andb length g_conns upd]. rewrite HM.
    unfold with_mgr, sync, set_peers, set_trk. cbn [fst snd set_trk g_cancel g_limit g_started g_pool g_peers g_conns g_trk g_num g_stop g_panic c_wo c_run c_trk c_rounds c_cnt c_wr c_prt c_exit]. reflexivity. }
  eapply crun_cons; [|reflexivity].
  unfold cexec, dead, crashed. cbn [c_mgr g_panic c_wo start wo_peers wo_sh existsb sh_w c_prt c_exit]. rewrite HP. cbn [orb]. unfold ctrk_step. cbn [c_mgr g_trk c_trk]. rewrite T3, HX.
  unfold shaken. unfold conn_closed, conn_of. cbn [c_mgr g_peers nth_error mp_conn g_conns negb andb meet x_ok x_evs c_wo start wo_sh]. unfold sh_t. cbn [sh_w]. rewrite (greeted _ _ HH).
  unfold gexec. cbn [g_panic g_trk]. rewrite T3. cbn [tstep tin_of i_shake g_peers nth_error mp_addr mp_conn upd].
  unfold with_mgr, sync, set_peers, set_trk. cbn [fst snd set_peers set_trk g_cancel g_limit g_started g_pool g_peers g_conns g_trk g_num g_stop g_panic c_mgr c_wo c_run c_trk c_rounds c_cnt c_wr c_prt c_exit app].
  unfold start, exec, crashed. cbn [wo_peers wo_sh existsb sh_w orb].
  rewrite HP. cbn [fst app]. reflexivity.
Qed.

(* ---------- a round with an unasked piece ---------- *)
Section rounds.
  Variables (cf : conf) (g : mgr).
  Hypotheses (GP : g_panic g = false) (GC : conn_closed g 0 = false) (GS : g_started g = true).
  Lemma cstep s r mn tk hd tks rd cnt wr i s' r' es : panicked r = false -> w_panic (sh_w s) = false -> pstep (cf_sha1 cf) i s r = Some (s', r', es) -> live r' = true ->
    cexec cf (KPeer 0 i) (with_peer_at g (mkWorld s [r] mn tk hd) tks rd cnt wr) = (with_peer_at g (mkWorld s' [r'] mn tk hd) tks rd cnt wr, sysev (map (pair 0%nat) es)).
  Proof.
    intros A B C D. unfold cexec, dead, with_peer_at. cbn [c_mgr c_wo c_prt c_exit]. rewrite GP. unfold crashed at 1. cbn [wo_peers existsb wo_sh]. rewrite A, B. cbn [orb].
    unfold peer_step. cbn [c_run nth_error c_mgr]. rewrite GC. cbn [c_wo]. rewrite (exec0 _ _ _ _ _ _ _ _ _ _ A B C). unfold returned. cbn [wo_peers nth_error c_trk c_rounds c_cnt c_wr c_prt c_exit].
    unfold live in D. destruct (r_pc r'); first [discriminate D|reflexivity].
  Qed.
  Lemma wstep w tks rd cnt wr : crashed w = false -> cexec cf KWriter (with_peer_at g w tks rd cnt wr) = (writer_step cf (with_peer_at g w tks rd cnt wr), []).
  Proof. intros A. unfold cexec, dead, with_peer_at. cbn [c_mgr c_wo c_prt c_exit]. rewrite GP, A, GS. reflexivity. Qed.
  Definition cround (b : bytes) : list cact := repeat (KPeer 0 ProofPossible.quiet) 6 ++ [KPeer 0 (reading b)] ++ repeat (KPeer 0 ProofPossible.quiet) 2 ++ [KPeer 0 (reading [])] ++ repeat KWriter 4.
  Definition crest (c : client) (ws : wstate) : Prop :=
    exists p q tk gr tks rd cnt, c = with_peer_at g (mkWorld (mkSh ws q [] false false) [mkR PTop p None false gr] MWait tk None) tks rd cnt WIdle /\ s_choked (cl_status p) = true.
  Lemma cround_run c ws b m d : crest c ws -> w_panic ws = false -> Done (w_t ws) = false ->
    NewPeerMessage b = Ok m -> m_type m = PieceT -> data_of m = Ok d -> CheckPiece (cf_sha1 cf) (w_t ws) d (m_index m) = Ok true ->
    exists c' tr, crun cf (cround b) c = (c', tr) /\ crest c' (write_one ws m).
  Proof.
    intros (p & q & tk & gr & tks & rd & cnt & -> & HC) HP HD HB HT HDa HCk.
    assert (HH : handle_body (cf_sha1 cf) (w_t ws) true (mkR PURead p None false gr) b = mkR (PPut true m) p None false gr).
    { unfold handle_body. rewrite HB. unfold handlePeerMessage. rewrite HT. cbn [PieceT KeepaliveT BitfieldT HaveT InterestedT NotInterestedT ChokeT UnchokeT Z.eqb Pos.eqb].
      unfold handlePieceMessage. cbn [r_peer]. rewrite HDa, HCk. reflexivity. }
    eexists _, _. split.
    - unfold cround. cbn [repeat app].
      eapply crun_cons; [apply cstep; [reflexivity|exact HP|reflexivity|reflexivity]|].
      eapply crun_cons; [apply cstep; [reflexivity|exact HP|unfold pstep; cbn [r_pc at_pc sh_cancel]; unfold sh_t; cbn [sh_w]; rewrite HD; reflexivity|reflexivity]|].
      eapply crun_cons; [apply cstep; [reflexivity|exact HP|reflexivity|reflexivity]|].
      eapply crun_cons; [apply cstep; [reflexivity|exact HP|unfold pstep; cbn [r_pc at_pc r_peer]; rewrite HC; reflexivity|reflexivity]|].
      eapply crun_cons; [apply cstep; [reflexivity|exact HP|reflexivity|reflexivity]|].
      eapply crun_cons; [apply cstep; [reflexivity|exact HP|reflexivity|reflexivity]|].
      eapply crun_cons; [apply cstep; [reflexivity|exact HP| |]|].
      { unfold pstep. cbn [r_pc at_pc i_read reading r_peer r_req r_sent r_grp]. unfold sh_t. cbn [sh_w].
        match goal with |- context [handle_body _ _ _ ?r _] => change r with (mkR PURead p None false gr) end. rewrite HH. reflexivity. }
      { reflexivity. }
      eapply crun_cons; [apply cstep; [reflexivity|exact HP|reflexivity|reflexivity]|].
      eapply crun_cons; [apply cstep; [reflexivity|exact HP| |]|].
      { unfold pstep. cbn [r_pc with_peer r_peer r_sent after_put set_bits cl_status]. rewrite HC. cbn [negb andb]. reflexivity. }
      { reflexivity. }
      eapply crun_cons; [apply (cstep _ _ _ _ _ _ _ _ _ _ (mkSh ws q [m] false false) (mkR PTop (after_put p m) None false gr) [EReadOk []]); [reflexivity|exact HP|reflexivity|reflexivity]|].
      eapply crun_cons.
      { rewrite wstep; [|unfold crashed; cbn [wo_peers wo_sh existsb panicked r_pc sh_w set_ch]; exact HP].
        unfold writer_step, with_peer_at. cbn [c_wo wo_hand c_wr c_mgr c_run c_trk c_rounds c_cnt c_prt c_exit].
        unfold exec, crashed. cbn [wo_peers wo_sh existsb panicked r_pc sh_w set_ch wo_hand sh_ch app]. rewrite HP. cbn [orb fst]. reflexivity. }
      eapply crun_cons.
      { unfold cexec, dead, writer_step. cbn [c_mgr c_wo c_prt c_exit wo_hand c_wr c_run c_trk c_rounds c_cnt]. rewrite GP, GS, HDa. unfold crashed. cbn [wo_peers wo_sh existsb panicked r_pc sh_w set_ch]. rewrite HP. cbn [orb]. reflexivity. }
      eapply crun_cons.
      { unfold cexec, dead. cbn [c_mgr c_wo c_prt c_exit]. rewrite GP, GS. unfold crashed. cbn [wo_peers wo_sh existsb panicked r_pc sh_w set_ch]. rewrite HP. cbn [orb]. reflexivity. }
      eapply crun_cons.
      { unfold cexec, dead, writer_step. cbn [c_mgr c_wo c_prt c_exit wo_hand c_wr c_run c_trk c_rounds c_cnt]. rewrite GP, GS. unfold exec, crashed. cbn [wo_peers wo_sh existsb panicked r_pc sh_w set_ch wo_hand]. rewrite HP. cbn [orb fst]. reflexivity. }
      reflexivity.
    - eexists _, _, _, _, _, _, _. split; [reflexivity|]. exact HC.
  Qed.
End rounds.

(* ---------- a signal, and the end ---------- *)
Definition leave : list cact := KSignal :: KPeer 0 ProofPossible.quiet :: repeat KMain 6.
Lemma left_ok cf lim a trk num c ws : crest (held_mgr lim a trk num PsRun) c ws -> w_panic ws = false ->
  client_status (fst (crun cf leave c)) = Some 0 /\ sh_w (wo_sh (c_wo (fst (crun cf leave c)))) = ws.
Proof.
  intros (p & q & tk & gr & tks & rd & cnt & -> & HC) HP. destruct ws as [t f outs ? pn]. cbn in HP. subst pn. split; reflexivity.
Qed.

Section can.
  Variables (cwd : place) (creat : bytes -> bool) (mk : bool) (f0 : fs) (mi : metainfo) (hash dir : bytes) (f1 : fs) (t : torrent).
  Hypothesis HN : New cwd creat mk f0 mi hash dir = (f1, Ok t).
  Hypothesis HD : NoDup (t_osfiles t).
  Hypothesis HL : Forall (fun n => 0 <= n) (file_lengths mi).
  Hypothesis HT : 0 < total (file_lengths mi) <= 2 ^ 50.
  Hypothesis HP : 0 < mi_piece_length mi < 2 ^ 30.
  Variables (cf : conf) (N : Z) (c : bytes).
  Hypothesis HN32 : N <= 2 ^ 32.
  Hypothesis HC : torrent_of (cf_sha1 cf) mi N c.
  Let w0 := mkW t f1 [] [] false.
  Variable g : mgr.
  Hypotheses (GP : g_panic g = false) (GC : conn_closed g 0 = false) (GS : g_started g = true).
  Definition crounds (n : nat) : list cact := flat_map (fun k => cround (body mi c (Z.of_nat k))) (seq 0 n).
  Lemma crounds_run cl n : crest g cl w0 -> (n <= Z.to_nat N)%nat -> exists cl' tr, crun cf (crounds n) cl = (cl', tr) /\ crest g cl' (WritePiece w0 (msgs mi c n)).
  Proof.
    intros H0. induction n as [|n IH]; intros Hn; [eexists _, _; split; [reflexivity|exact H0]|].
    destruct IH as (cl1 & tr & HR & HI); [lia|]. unfold crounds. rewrite seq_S, flat_map_app. fold (crounds n). cbn [flat_map Nat.add]. rewrite app_nil_r.
    assert (Hi : 0 <= Z.of_nat n < N) by lia.
    destruct (pmsg_ok mi N c HN32 _ Hi) as (A1 & A2 & A3 & A4 & A5). pose proof (msgs_good mi N c HN32 n ltac:(lia)) as HG.
    destruct (dl_is _ _ _ _ _ _ _ _ _ HN HD HL HT HP _ _ _ HC _ HG) as [_ HPn]. fold w0 in HPn.
    destruct (cround_run cf g GP GC GS cl1 _ (body mi c (Z.of_nat n)) (pmsg mi c (Z.of_nat n)) (part mi c (Z.of_nat n)) HI HPn
      (not_done _ _ _ _ _ _ _ _ _ HN HD HL HT HP _ _ _ HN32 HC n ltac:(lia)) A1 A2 A5) as (cl2 & tr' & HR' & HI').
    { rewrite A3. apply (check_ok _ _ _ _ _ _ _ _ _ HN HP _ _ _ HC); [|exact Hi]. rewrite WritePiece_static. reflexivity. }
    exists cl2, (tr ++ tr'). split; [rewrite crun_app, HR, HR'; reflexivity|].
    unfold msgs. rewrite seq_S, map_app. fold (msgs mi c n). rewrite WritePiece_app by exact HPn. cbn [map Nat.add WritePiece]. rewrite HPn. exact HI'.
  Qed.
  Lemma crounds_bytes n : (n <= Z.to_nat N)%nat -> Forall sends_bytes (crounds n).
  Proof.
    clear g GP GC GS. intros Hn. apply Forall_forall. intros a Ha. apply in_flat_map in Ha as (k & Hk & Ha). apply in_seq in Hk. unfold cround in Ha. cbn [repeat app] in Ha.
    assert (Hq : sends_bytes (KPeer 0 ProofPossible.quiet)) by (intros b Hb; discriminate).
    assert (Hb : sends_bytes (KPeer 0 (reading (body mi c (Z.of_nat k))))).
    { intros b Hb. cbn in Hb. inversion Hb; subst b. unfold body, piece_bytes. constructor; [unfold is_byte; lia|].
      rewrite !Forall_app. split; [|split; [|exact (part_bytes mi _ N c HC _)]]; unfold be32; repeat (apply Forall_cons; [unfold is_byte; apply Z.mod_pos_bound; lia|]); apply Forall_nil. }
    assert (He : sends_bytes (KPeer 0 (reading []))) by (intros b Hb'; cbn in Hb'; inversion Hb'; constructor).
    repeat (destruct Ha as [<-|Ha]; [assumption || exact I|]). destruct Ha.
  Qed.
End can.

Section download.
  Variables (cwd : place) (creat : bytes -> bool) (mk : bool) (f0 : fs) (mi : metainfo) (hash dir : bytes) (f1 : fs) (t : torrent).
  Hypothesis HN : New cwd creat mk f0 mi hash dir = (f1, Ok t).
  Hypothesis HD : NoDup (t_osfiles t).
  Hypothesis HL : Forall (fun n => 0 <= n) (file_lengths mi).
  Hypothesis HT : 0 < total (file_lengths mi) <= 2 ^ 50.
  Hypothesis HP : 0 < mi_piece_length mi < 2 ^ 30.
  Variables (cf : conf) (N : Z) (c : bytes).
  Hypothesis HN32 : N <= 2 ^ 32.
  Hypothesis HC : torrent_of (cf_sha1 cf) mi N c.
  Hypothesis HH : length (t_hash t) = 20%nat.
  Variables (urls : list bytes) (u : bytes).
  Hypothesis HU : In u urls.
  Hypothesis HHttp : http_url cf u.
  Hypothesis HIp : cf_ip cf (str "10.0.0.1") = Some (V4 [10; 0; 0; 1]).
  Lemma peer_sent : next_of (snd (HttpAnnounce (cf_ip cf) one_peer)) = TInit [Some (V4 [10; 0; 0; 1], 6881)].
  Proof.
    assert (E : next_of (snd (HttpAnnounce (cf_ip cf) one_peer)) = TInit [match cf_ip cf (str "10.0.0.1") with Some a => Some (a, 6881) | None => None end]) by (vm_compute; reflexivity).
    now rewrite E, HIp.
  Qed.
  Lemma downloads : exists l, Forall sends_bytes l /\ let cl := fst (crun cf l (client_start cf t f1 [] urls)) in
    client_status cl = Some 0 /\ map (w_fs (sh_w (wo_sh (c_wo cl)))) (t_osfiles t) = map Some (cut (file_lengths mi) c).
  Proof.
    apply In_nth_error in HU as [j Hj].
    destruct (visited cf (fst (crun cf [KMain] (client_start cf t f1 [] urls))) j u [] one_peer (mkCtr u TrNone [] 0)) as (c1 & t1 & R1 & W1 & _ & T1 & P1 & O1 & _ & (x & X1 & E1)).
    - repeat split; reflexivity.
    - cbn. rewrite map_length. apply nth_error_repeat, nth_error_Some. congruence.
    - exact (map_nth_error (fun u => mkCtr u TrNone [] 0) _ _ Hj).
    - reflexivity.
    - exact HHttp.
    - split; vm_compute; discriminate.
    - rewrite peer_sent in T1. cbn in P1, O1. destruct W1 as (W1 & W2 & W3). destruct c1 as [[lim st can pool peers conns trk num stop pan] wo rn tks rd cnt wr prt ex].
      unfold rest in E1. cbn in T1, X1, P1, O1, W1, W2, W3, E1. injection E1 as E1 E2 E3 E4 E5 E6 E7. subst. cbn in W1. destruct pan; [discriminate|].
      destruct (connected cf (mkW t f1 [] [] false) lim trk num tks rd cnt j x (Some (V4 [10; 0; 0; 1], 6881)) ltac:(discriminate) T1 X1 eq_refl HH) as (trk' & num' & t2 & R2).
      set (g := held_mgr lim (Some (V4 [10; 0; 0; 1], 6881)) trk' num' PsRun) in *.
      cbn [w_t] in R2. match type of R2 with _ = (?cl, _) => assert (I2 : crest g cl (mkW t f1 [] [] false)) end.
      { eexists _, _, _, _, _, _, _. split; reflexivity. }
      destruct (crounds_run _ _ _ _ _ _ _ _ _ HN HD HL HT HP cf N c HN32 HC g eq_refl eq_refl eq_refl _ (Z.to_nat N) I2 (le_n _)) as (c3 & t3 & R3 & I3).
      pose proof (msgs_good mi N c HN32 (Z.to_nat N) (le_n _)) as HG. destruct (dl_is _ _ _ _ _ _ _ _ _ HN HD HL HT HP _ _ _ HC _ HG) as [_ HPn].
      destruct (left_ok cf _ _ _ _ _ _ I3 HPn) as [S1 S2].
      exists ([KMain] ++ visit j [] one_peer ++ repeat (KTrk j (meet (t_hash t))) 4 ++ crounds mi c (Z.to_nat N) ++ leave). split.
      + apply Forall_app. split; [repeat constructor|]. apply Forall_app. split; [repeat constructor|]. apply Forall_app. split; [repeat constructor|].
        apply Forall_app. split; [exact (crounds_bytes mi cf N c HC _ (le_n _))|]. repeat constructor. intros b Hb. discriminate.
      + rewrite crun_app. destruct (crun cf [KMain] (client_start cf t f1 [] urls)) as [c0 t0]. cbn [fst] in R1. rewrite crun_app, R1.
        rewrite crun_app, R2. rewrite crun_app, R3.
        destruct (crun cf leave c3) as [c4 t4]. cbn [fst] in *. split; [exact S1|]. rewrite S2. exact (files_some _ _ _ _ _ _ _ _ _ HN HD HL HT HP _ _ _ HN32 HC).
  Qed.
End download.

Section program.
Variables (cf : conf) (look : bytes -> cfgres) (o : osenv) (f : fs) (flags : config) (out file : bytes) (order : list bytes -> list bytes) (d : bytes) (M : metainfo) (w : bytes) (c0 : client)
  (ps : list place) (N : Z) (c : bytes).
Hypotheses (HO : forall us, Permutation (order us) us) (Hd : o_file o file = Some d) (Hf : SpecBencode.fits d) (HT : torrent_doc d M w)
  (HS : prog_start cf look o f flags (CDownload out file) [] order = PRun c0) (Ho : out <> []) (HPl : torrent_places (o_cwd o) out M ps) (HD : NoDup ps)
  (HL : Forall (fun n => 0 <= n) (file_lengths M)) (HTo : 0 < total (file_lengths M) <= 2 ^ 50) (HPL : 0 < mi_piece_length M < 2 ^ 30) (HN32 : N <= 2 ^ 32)
  (HC : torrent_of (cf_sha1 cf) M N c) (H20 : zlen (cf_sha1 cf w) = 20) (HIp : cf_ip cf (str "10.0.0.1") = Some (V4 [10; 0; 0; 1])).
Lemma can_exact : (exists l p tr, Forall sends_bytes l /\ prog_run cf l (PRun c0) = (p, tr) /\ prog_status p = Some 0 /\ map (prog_fs p) ps = map Some (cut (file_lengths M) c)) <->
  exists u, tracker_of M u /\ http_url cf u.
Proof.
  destruct (download_started _ _ _ _ _ _ _ _ _ _ _ _ _ HS Hd Hf HT) as (f1 & t & HN & E). pose proof (places_of _ _ _ _ _ _ _ _ _ _ HN Ho HPl) as EP. subst ps.
  destruct (trackers_new _ _ _ _ _ _ _ _ _ HN) as [_ HTr]. destruct (new_fields _ _ _ _ _ _ _ _ _ HN) as (_ & _ & EH & _ & _ & _ & _ & _ & _ & _ & _ & paths & _ & HCr). split.
  - intros (l & p & tr & _ & HR & _ & HF).
    assert (X : exists u, In u (order (t_trackers t)) /\ http_url cf u).
    { destruct (Exists_dec (fun u => http_url cf u) (order (t_trackers t))) as [X|X].
      - intros u. unfold http_url. destruct (cf_scheme cf u) as [s|]; [|right; intros [Y|Y]; discriminate].
        destruct (list_eq_dec Z.eq_dec s (str "http")) as [->|N1]; [left; now left|]. destruct (list_eq_dec Z.eq_dec s (str "https")) as [->|N2]; [left; now right|]. right. intros [Y|Y]; congruence.
      - apply Exists_exists in X. exact X.
      - exfalso. destruct (no_http_deaf _ _ _ _ _ _ _ _ _ _ _ _ _ HO Hd Hf HT HS l p tr) as [_ EF]; [|exact HR|].
        + intros u Hu Hh. apply X. apply Exists_exists. exists u. split; [|exact Hh]. eapply Permutation_in; [apply Permutation_sym, HO|]. now apply HTr.
        + rewrite EF, E in HF. cbn in HF. apply create_files_spec in HCr as (_ & HCr & _).
          assert (Z0 : Forall (fun b => b = []) (cut (file_lengths M) c)).
          { apply Forall_forall. intros b Hb. assert (Hs : In (Some b) (map f1 (t_osfiles t))) by (rewrite HF; now apply in_map). apply in_map_iff in Hs as (q & Hq & Hi). rewrite (HCr q Hi) in Hq. congruence. }
          assert (T0 : forall n, In n (file_lengths M) -> n = 0).
          { intros n Hn. apply In_nth_error in Hn as [k Hk]. rewrite <- (cut_len (file_lengths M) c k n HL (proj1 HC) Hk).
            assert (B : nth k (cut (file_lengths M) c) [] = []); [|rewrite B; reflexivity]. destruct (nth_in_or_default k (cut (file_lengths M) c) []) as [Hi| ->]; [|reflexivity]. rewrite Forall_forall in Z0. now apply Z0. }
          assert (TT : total (file_lengths M) = 0); [|lia]. clear - T0. induction (file_lengths M) as [|n l IH]; [reflexivity|]. cbn [total fold_right]. fold (total l). rewrite (T0 n (or_introl eq_refl)), IH; [reflexivity|]. intros m Hm. apply T0. now right. }
    destruct X as (u & Hu & Hh). exists u. split; [|exact Hh]. apply HTr. eapply Permutation_in; [apply HO|exact Hu].
  - intros (u & Hu & Hh). assert (H20' : length (t_hash t) = 20%nat) by (rewrite EH; unfold zlen in H20; lia).
    destruct (downloads _ _ _ _ _ _ _ _ _ HN HD HL HTo HPL cf N c HN32 HC H20' (order (t_trackers t)) u) as (l & Hl & A & B).
    + eapply Permutation_in; [apply Permutation_sym, HO|]. now apply HTr.
    + exact Hh.
    + exact HIp.
    + destruct (crun cf l c0) as [cl tr] eqn:EC. exists l, (PRun cl), tr. subst c0. rewrite EC in A, B. cbn [fst] in A, B. split; [exact Hl|]. split; [cbn [prog_run]; now rewrite EC|]. split; [exact A|exact B].
Qed.
End program.
