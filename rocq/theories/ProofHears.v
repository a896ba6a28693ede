(* What a peer hears from us after the handshake: C165.                        *)
From Verif Require Import Base ProofBase SpecPath SpecBencode SpecTorrent SpecFinish SpecPeer SpecMsg SpecProgram SpecCmd SpecClient SpecSource SpecOrigin SpecPossible SpecHears.
From Verif Require Import ModelPath ModelBitset ModelMsg ModelTorrent ModelConn ModelStats ModelPeer ModelSystem ModelTracker ModelManager ModelClient ModelCmd ModelProgram.
From Verif Require Import ProofConn ProofPeer ProofPath ProofTorrent ProofRequests ProofWitness ProofInterested ProofNew ProofSystem ProofClient ProofProgram ProofClient4 ProofSource ProofCan.
From Coq Require Import Permutation.

Definition words (es : list event) : list bytes := flat_map (fun e => match e with ESent m => [Send m] | _ => [] end) es.
Lemma words_app a b : words (a ++ b) = words a ++ words b.
Proof. apply flat_map_app. Qed.
Lemma said_app k a b : said k (a ++ b) = said k a ++ said k b.
Proof. apply flat_map_app. Qed.
Lemma said_words k tr : said k tr = words (events_of k (sevs tr)).
Proof.
  induction tr as [|e tr IH]; [reflexivity|]. change (e :: tr) with ([e] ++ tr). rewrite said_app, sevs_app, events_app, words_app, <- IH. f_equal.
  destruct e as [j x| | | |]; try reflexivity. unfold events_of. cbn [said flat_map sevs app filter fst]. destruct (Nat.eqb j k); [|destruct x; reflexivity]. cbn [map snd words flat_map]. now rewrite !app_nil_r.
Qed.
Lemma said_mgr k es : said k (map VMgr es) = [].
Proof. induction es; [reflexivity|exact IHes]. Qed.
Lemma said_sys es : said 0 (sysev (map (pair 0%nat) es)) = words es.
Proof. rewrite said_words, sevs_sys, events_same. reflexivity. Qed.

(* ---------- nothing else ---------- *)
Definition J (r : rstate) (es : list event) : Prop :=
  s_interested (cl_status (r_peer r)) = false /\ (match r_pc r with PNext | PSend | PNil | PSendWait => False | _ => True end) /\ ours (words es) /\
  (words es = [] -> s_choked (cl_status (r_peer r)) = true /\ match r_pc r with PTop | PDone | PKeep | PChoke | PUTop | PUSend | PUWait | PRet => True | _ => False end) /\
  (words es = [keepalive] -> s_choked (cl_status (r_peer r)) = true /\ match r_pc r with PChoke | PUTop | PUSend | PUWait | PRet => True | _ => False end).
Lemma ours_snoc w b : ours w -> b = keepalive \/ b = interested -> (w = [keepalive] -> b = interested) -> ours (w ++ [b]).
Proof.
  intros [A B] HB HK. split; [apply Forall_app; auto|]. intros (w' & E). destruct w as [|x [|y w]]; cbn in E.
  - discriminate.
  - injection E as -> -> <-. specialize (HK eq_refl). discriminate.
  - injection E as -> -> E. apply B. now exists w.
Qed.
Lemma J_step sha1 i s r s' r' es es' : J r es -> pstep sha1 i s r = Some (s', r', es') -> J r' (es ++ es').
Proof.
  intros (HI & HA & HO & H0 & H1) HS. unfold J. split; [|split].
  - clear -HI HS. step_cases HS; try exact HI; cbn;
    try (match goal with |- context [handle_body sha1 ?t ?u r ?b] => destruct (handle_body_spec sha1 t u r b _ eq_refl) as (_ & _ & _ & _ & _ & _ & -> & _); exact HI end);
    try (match goal with H : createPieceMessage _ = _ |- _ => inversion H; subst; cbn; exact HI end); exact HI.
  - clear -HI HS HA. step_cases HS; cbn in *; try rewrite HI in *; try discriminate; try exact I; try contradiction;
    repeat match goal with |- context [if ?c then _ else _] => destruct c end; try exact I;
    try (match goal with |- context [handle_body sha1 ?t ?u r ?b] => destruct (body_next sha1 t u r b) as [E|[E|[m E]]]; rewrite E; exact I end);
    try (rewrite andb_false_r in *; discriminate).
  - rewrite words_app. unfold pstep, wait, create in HS. destruct (r_pc r) eqn:PC; try contradiction; dmatch HS; inversion HS; subst; clear HS;
      try (rewrite HI in *; rewrite andb_false_r in *; discriminate);
      cbn [words flat_map app r_pc r_peer at_pc with_peer]; rewrite ?app_nil_r;
      change (Send KeepalivePeerMessage) with keepalive; change (Send CreateInterestedMessage) with interested;
      try (split; [exact HO|split; intros X; [specialize (H0 X)|specialize (H1 X)]; repeat match goal with Q : _ /\ _ |- _ => destruct Q end; try contradiction; try congruence; auto; fail]);
      try (split; [apply ours_snoc; [exact HO|auto|intros X; try reflexivity; destruct (H1 X); contradiction]|
        split; intros X; [destruct (words es); discriminate|
          destruct (words es) as [|x [|? ?]] eqn:EW; try discriminate; cbn in X; try discriminate X; destruct (H0 eq_refl); split; auto]]; fail).
Qed.
Lemma ours_nil : ours [].
Proof. split; [constructor|]. intros (w & X). discriminate. Qed.
Lemma only_ours cf t f outs urls l c tr k : crun cf l (client_start cf t f outs urls) = (c, tr) -> ours (said k tr).
Proof.
  intros HR. destruct (crun_sys _ _ _ _ _ _ _ _ HR) as (ls & R & B). rewrite said_words. destruct (nth_error (wo_peers (c_wo c)) k) as [r|] eqn:Hk.
  - refine (proj1 (proj2 (proj2 (_ : J r _)))). eapply (local_inv (cf_sha1 cf) (eq false) J); [| |exact B|exact R|exact Hk].
    + intros b t0 g <-. unfold J. cbn. repeat split; try discriminate; try constructor. intros (w & X). discriminate.
    + intros; eapply J_step; eauto.
  - rewrite (no_peer _ _ _ _ _ _ R Hk). exact ours_nil.
Qed.

(* ---------- and all of it ---------- *)
Definition due : inp := mkI true true None false.
Notation quiet := ProofPossible.quiet.
Notation reading := ProofPossible.reading.
Section tell.
  Variables (cf : conf) (g : mgr) (ws : wstate).
  Hypotheses (GP : g_panic g = false) (GC : conn_closed g 0 = false) (HP : w_panic ws = false) (HD : Done (w_t ws) = false).
  Definition ready (c : client) : Prop :=
    exists p q tk gr tks rd cnt, c = with_peer_at g (mkWorld (mkSh ws q [] false false) [mkR PRead p None false gr] MWait tk None) tks rd cnt WIdle /\
      s_choked (cl_status p) = false /\ s_interested (cl_status p) = false.
  Definition say (b : bytes) : list cact :=
    map (KPeer 0) (if beq b keepalive then [reading []; quiet; quiet; due; quiet; quiet] else [reading [0]; quiet; quiet; quiet; quiet; quiet; quiet; reading [1]; quiet]).
  Definition first (b : list bytes) : list cact := map (KPeer 0) ([quiet; quiet] ++ (match b with [] => [quiet] | _ => [due] end) ++ [quiet; quiet; quiet; reading [1]; quiet]).
  Ltac top := unfold pstep; cbn [r_pc at_pc sh_cancel with_peer r_peer r_req r_sent r_grp cl_status s_choked s_interested]; unfold sh_t; cbn [sh_w]; rewrite ?HD; reflexivity.
  Ltac one := eapply crun_cons; [apply (cstep cf g GP GC); [reflexivity|exact HP|top|reflexivity]|].
  Lemma say_run c b : ready c -> b = keepalive \/ b = interested -> exists c' tr, crun cf (say b) c = (c', tr) /\ ready c' /\ said 0 tr = [b].
  Proof.
    intros (p & q & tk & gr & tks & rd & cnt & -> & HC & HI) [->| ->]; unfold say; destruct p as [a ps [ch it] bi bn bk]; cbn in HC, HI; subst ch it.
    - eexists _, _. split; [|split].
      + change (beq keepalive keepalive) with true. cbn [map]. do 6 one. reflexivity.
      + eexists _, _, _, _, _, _, _. split; [reflexivity|]. split; reflexivity.
      + rewrite !said_app, !said_sys. reflexivity.
    - eexists _, _. split; [|split].
      + change (beq interested keepalive) with false. cbn [map]. do 9 one. reflexivity.
      + eexists _, _, _, _, _, _, _. split; [reflexivity|]. split; reflexivity.
      + rewrite !said_app, !said_sys. reflexivity.
  Qed.
  Lemma says_run w : Forall (fun b => b = keepalive \/ b = interested) w -> forall c, ready c -> exists c' tr, crun cf (flat_map say w) c = (c', tr) /\ said 0 tr = w.
  Proof.
    induction 1 as [|b w Hb _ IH]; intros c HR; [exists c, []; split; reflexivity|]. destruct (say_run c b HR Hb) as (c1 & t1 & R1 & HR1 & S1). destruct (IH c1 HR1) as (c2 & t2 & R2 & S2).
    exists c2, (t1 ++ t2). split; [cbn [flat_map]; rewrite crun_app, R1, R2; reflexivity|]. now rewrite said_app, S1, S2.
  Qed.
  Definition begun (c : client) : Prop :=
    exists p q tk gr tks rd cnt, c = with_peer_at g (mkWorld (mkSh ws q [] false false) [mkR PTop p None false gr] MWait tk None) tks rd cnt WIdle /\
      s_choked (cl_status p) = true /\ s_interested (cl_status p) = false.
  Lemma first_run c b : begun c -> exists c' tr, crun cf (first b) c = (c', tr) /\ ready c' /\ said 0 tr = match b with [] => [interested] | _ => [keepalive; interested] end.
  Proof.
    intros (p & q & tk & gr & tks & rd & cnt & -> & HC & HI); unfold first; destruct p as [a ps [ch it] bi bn bk]; cbn in HC, HI; subst ch it. destruct b.
    - eexists _, _. split; [|split].
      + cbn [map app]. do 8 one. reflexivity.
      + eexists _, _, _, _, _, _, _. split; [reflexivity|]. split; reflexivity.
      + rewrite !said_app, !said_sys. reflexivity.
    - eexists _, _. split; [|split].
      + cbn [map app]. do 8 one. reflexivity.
      + eexists _, _, _, _, _, _, _. split; [reflexivity|]. split; reflexivity.
      + rewrite !said_app, !said_sys. reflexivity.
  Qed.
  Lemma alone_run c : begun c -> exists c' tr, crun cf (map (KPeer 0) [quiet; quiet; due]) c = (c', tr) /\ said 0 tr = [keepalive].
  Proof.
    intros (p & q & tk & gr & tks & rd & cnt & -> & HC & HI). eexists _, _. split; [cbn [map]; do 3 one; reflexivity|]. rewrite !said_app, !said_sys. reflexivity.
  Qed.
  Definition speech (w : list bytes) : list cact :=
    match w with
    | [] => []
    | b :: w1 =>
        if beq b keepalive then match w1 with [] => map (KPeer 0) [quiet; quiet; due] | _ :: w2 => first [b] ++ flat_map say w2 end
        else first [] ++ flat_map say w1
    end.
  Lemma speech_run c w : begun c -> ours w -> exists c' tr, crun cf (speech w) c = (c', tr) /\ said 0 tr = w.
  Proof.
    intros HB [HF HN]. destruct w as [|b w]; [exists c, []; split; reflexivity|]. inversion HF as [|? ? Hb HF1]; subst. unfold speech. destruct Hb as [->| ->].
    - change (beq keepalive keepalive) with true. cbn iota. destruct w as [|b w]; [exact (alone_run c HB)|]. inversion HF1 as [|? ? Hb HF2]; subst.
      destruct Hb as [->| ->]; [exfalso; apply HN; now exists w|].
      destruct (first_run c [keepalive] HB) as (c1 & t1 & R1 & HR & S1). destruct (says_run w HF2 c1 HR) as (c2 & t2 & R2 & S2).
      exists c2, (t1 ++ t2). split; [rewrite crun_app, R1, R2; reflexivity|]. now rewrite said_app, S1, S2.
    - change (beq interested keepalive) with false. cbn iota.
      destruct (first_run c [] HB) as (c1 & t1 & R1 & HR & S1). destruct (says_run w HF1 c1 HR) as (c2 & t2 & R2 & S2).
      exists c2, (t1 ++ t2). split; [rewrite crun_app, R1, R2; reflexivity|]. now rewrite said_app, S1, S2.
  Qed.
End tell.
Lemma say_bytes b : Forall sends_bytes (say b).
Proof. unfold say. destruct (beq _ _); cbn [map]; repeat (apply Forall_cons; [intros x X; cbn in X; first [discriminate X|injection X as <-; apply bytes_dec; reflexivity]|]); constructor. Qed.
Lemma first_bytes b : Forall sends_bytes (first b).
Proof. unfold first. destruct b; cbn [map app]; repeat (apply Forall_cons; [intros x X; cbn in X; first [discriminate X|injection X as <-; apply bytes_dec; reflexivity]|]); constructor. Qed.
Lemma speech_bytes w : Forall sends_bytes (speech w).
Proof.
  assert (S : forall w, Forall sends_bytes (flat_map say w)) by (intros v; induction v as [|b v IH]; [constructor|cbn [flat_map]; apply Forall_app; split; [apply say_bytes|exact IH]]).
  unfold speech. destruct w as [|b [|b' w]]; [constructor| |]; destruct (beq b keepalive); try (apply Forall_app; split; [apply first_bytes|apply S]).
  cbn [map]. repeat (apply Forall_cons; [intros x X; discriminate X|]). constructor.
Qed.

(* steps of others *)
Lemma silent cf a c c' es : (forall k i, a <> KPeer k i) -> cexec cf a c = (c', es) -> forall k, said k es = [].
Proof.
  intros HA HE k. apply cexec_move in HE as [[_ ->]|(_ & _ & M)]; [reflexivity|].
  destruct M; subst; try reflexivity; try apply said_mgr; try (exfalso; eapply HA; reflexivity).
  - change (said k ([e] ++ map VMgr (snd (gexec (XTrk j (mkTin false (ann_in c a) false false false)) (c_mgr c)))) = []). rewrite said_app, said_mgr, app_nil_r.
    match goal with H : tracker_announce _ _ _ _ _ _ = _ |- _ => unfold tracker_announce in H; destruct (ct_trk tr); try discriminate H; destruct rp; try discriminate H end.
    + destruct (HttpAnnounce _ _) as [? ?]. injection H2 as _ <- _. reflexivity.
    + destruct (UdpAnnounce _ _ _ _ _ _ _ _ _) as [[? ?] ?]. injection H2 as _ <- _. reflexivity.
Qed.
Lemma silent_run cf l : Forall (fun a => forall k i, a <> KPeer k i) l -> forall c c' tr, crun cf l c = (c', tr) -> forall k, said k tr = [].
Proof.
  induction 1 as [|a l Ha _ IH]; intros c c' tr HR k; cbn [crun] in HR; [inversion HR; reflexivity|].
  destruct (cexec cf a c) as [c1 e1] eqn:E1. destruct (crun cf l c1) as [c2 e2] eqn:E2. inversion HR; subst. rewrite said_app, (silent _ _ _ _ _ Ha E1 k), (IH _ _ _ E2 k). reflexivity.
Qed.

Section program.
Variables (cf : conf) (look : bytes -> cfgres) (o : osenv) (f : fs) (flags : config) (out file : bytes) (order : list bytes -> list bytes) (d : bytes) (M : metainfo) (w : bytes) (c0 : client) (u : bytes).
Hypotheses (HO : forall us, Permutation (order us) us) (Hd : o_file o file = Some d) (Hf : SpecBencode.fits d) (HT : torrent_doc d M w)
  (HS : prog_start cf look o f flags (CDownload out file) [] order = PRun c0)
  (HL : Forall (fun n => 0 <= n) (file_lengths M)) (HTo : 0 < total (file_lengths M) <= 2 ^ 50) (HPL : 0 < mi_piece_length M < 2 ^ 30)
  (H20 : zlen (cf_sha1 cf w) = 20) (HIp : cf_ip cf (str "10.0.0.1") = Some (V4 [10; 0; 0; 1])) (Hu : tracker_of M u) (Hh : http_url cf u).
Lemma hears_exact ws : (exists l k c tr, Forall sends_bytes l /\ prog_run cf l (PRun c0) = (PRun c, tr) /\ said k tr = ws) <-> ours ws.
Proof.
  destruct (download_started _ _ _ _ _ _ _ _ _ _ _ _ _ HS Hd Hf HT) as (f1 & t & HN & E).
  destruct (trackers_new _ _ _ _ _ _ _ _ _ HN) as [_ HTr]. pose proof (new_fields _ _ _ _ _ _ _ _ _ HN) as NF. split.
  - intros (l & k & c & tr & _ & HR & <-). subst c0. cbn [prog_run] in HR. destruct (crun _ _ _) as [c1 t1] eqn:EC in HR. injection HR as -> ->. eapply only_ours. exact EC.
  - intros HW. assert (ND : Done t = false). { eapply fresh_not_done; [exact HN| |lia]. rewrite (ProofPossible.length_is _ _ _ _ _ _ _ _ _ HN HL HTo). exact HTo. }
    assert (EH : length (t_hash t) = 20%nat). { destruct NF as (_ & _ & -> & _). unfold zlen in H20. lia. }
    assert (Hi : In u (order (t_trackers t))) by (eapply Permutation_in; [apply Permutation_sym, HO|]; now apply HTr). apply In_nth_error in Hi as [j Hj].
    set (urls := order (t_trackers t)) in *. subst c0.
    destruct (crun cf [KMain] (client_start cf t f1 [] urls)) as [c1 t1] eqn:R0.
    destruct (visited cf c1 j u [] one_peer (mkCtr u TrNone [] 0)) as (c2 & t2 & R1 & W1 & _ & T1 & P1 & O1 & _ & (x & X1 & E1)).
    1: { injection R0 as <- _. repeat split; reflexivity. }
    1: { injection R0 as <- _. cbn. rewrite map_length. apply nth_error_repeat, nth_error_Some. congruence. }
    1: { injection R0 as <- _. exact (map_nth_error (fun u => mkCtr u TrNone [] 0) _ _ Hj). }
    1: reflexivity. 1: exact Hh. 1: { split; vm_compute; discriminate. }
    pose proof R0 as R0'. injection R0' as <- _.
    rewrite (peer_sent cf HIp) in T1. cbn in P1, O1. destruct W1 as (W1 & W2 & W3). destruct c2 as [[lim st can pool peers conns trk num stop pan] wo rn tks rd cnt wr prt ex].
    unfold rest in E1. cbn in T1, X1, P1, O1, W1, W2, W3, E1. injection E1 as E1 E2 E3 E4 E5 E6 E7. subst. cbn in W1. destruct pan; [discriminate|].
    destruct (connected cf (mkW t f1 [] [] false) lim trk num tks rd cnt j x (Some (V4 [10; 0; 0; 1], 6881)) ltac:(discriminate) T1 X1 eq_refl EH) as (trk' & num' & t3 & R2).
    set (g := held_mgr lim (Some (V4 [10; 0; 0; 1], 6881)) trk' num' PsRun) in *.
    cbn [w_t] in R2. match type of R2 with _ = (?cl, _) => assert (I2 : begun g (mkW t f1 [] [] false) cl) end.
    { eexists _, _, _, _, _, _, _. split; [reflexivity|]. split; reflexivity. }
    destruct (speech_run cf g (mkW t f1 [] [] false) eq_refl eq_refl eq_refl ND _ ws I2 HW) as (c3 & t4 & R3 & S3).
    exists ([KMain] ++ visit j [] one_peer ++ repeat (KTrk j (meet (t_hash t))) 4 ++ speech ws), 0%nat, c3, (t1 ++ t2 ++ t3 ++ t4). split; [|split].
    + apply Forall_app. split; [repeat constructor|]. apply Forall_app. split; [repeat constructor|]. apply Forall_app. split; [repeat constructor|]. apply speech_bytes.
    + cbn [prog_run]. rewrite crun_app, R0, crun_app, R1, crun_app, R2, R3. reflexivity.
    + rewrite !said_app, S3. erewrite (silent_run cf _ _ _ _ _ R0), (silent_run cf _ _ _ _ _ R1), (silent_run cf _ _ _ _ _ R2). reflexivity.
      Unshelve. all: unfold visit; cbn [repeat app]; repeat (apply Forall_cons; [intros k i X; discriminate X|]); constructor.
Qed.
End program.
