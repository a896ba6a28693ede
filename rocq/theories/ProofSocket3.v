(* The bytes of the connections and the messages taken from them: C164.        *)
From Verif Require Import Base ProofBase SpecBencode SpecPath SpecMsg SpecPeer SpecTorrent SpecFinish SpecManager SpecClient SpecCrash SpecOrigin SpecProgram SpecCorrupt SpecSocket.
From Verif Require Import ModelStats ModelBitset ModelMsg ModelTorrent ModelConn ModelPeer ModelSystem ModelTracker ModelManager ModelClient ModelCmd ModelProgram ModelSocket.
From Verif Require Import ProofWrite ProofTorrent ProofMsg ProofConn ProofSystem ProofProgress ProofManager ProofManager2 ProofManager4 ProofClient ProofClient2 ProofClient3 ProofOrigin ProofProgram ProofCorrupt ProofSocket ProofSocket2.

(* ---------- reading ---------- *)
Lemma stream_app a b : stream (a ++ b) = stream a ++ stream b.
Proof. apply flat_map_app. Qed.
Lemma stream_chunks cs : stream (map Chunk cs) = concat cs.
Proof. induction cs as [|c cs IH]; [reflexivity|]. cbn. now rewrite <- IH. Qed.
Lemma read_stream s : forall acc n r s', read_full acc n s = (r, s') ->
  exists pre, stream s = pre ++ stream s' /\ match r with ROk b => b = acc ++ pre /\ zlen pre = Z.max 0 n | RErr _ => ~ In Timeout s -> stream s' = [] \/ exists t, s' = Eof :: t end.
Proof.
  induction s as [|e s IH]; intros acc n r s' H; cbn [read_full] in H.
  - destruct (n <=? 0) eqn:E; inversion H; subst; exists []; (split; [reflexivity|]); [split; [now rewrite app_nil_r|unfold zlen; cbn; lia]|intros _; now left].
  - destruct (n <=? 0) eqn:E; [inversion H; subst; exists []; split; [reflexivity|split; [now rewrite app_nil_r|unfold zlen; cbn; lia]]|]. destruct e as [b| |].
    + destruct (zlen b <=? n) eqn:L.
      * destruct (IH _ _ _ _ H) as (pre & E1 & E2). exists (b ++ pre). split; [cbn [stream flat_map]; fold (stream s); now rewrite E1, app_assoc|]. destruct r as [b'|e'].
        -- destruct E2 as [-> E2]. split; [now rewrite app_assoc|]. rewrite zlen_app. pose proof (zlen_nonneg b). lia.
        -- intros NT. apply E2. intros X. apply NT. now right.
      * inversion H; subst. exists (sub b 0 n). pose proof (zlen_nonneg b).
        assert (EB : b = sub b 0 n ++ sub b n (zlen b)).
        { unfold sub. rewrite Z.sub_0_r. change (Z.to_nat 0) with 0%nat. cbn [skipn]. rewrite (firstn_all2 (skipn _ _)); [now rewrite firstn_skipn|]. rewrite skipn_length. unfold zlen in *. lia. }
        assert (LB : zlen (sub b 0 n) = n) by (unfold sub, zlen in *; rewrite Z.sub_0_r; change (Z.to_nat 0) with 0%nat; cbn [skipn]; rewrite firstn_length; lia).
        split; [cbn [stream flat_map]; fold (stream s); now rewrite app_assoc, <- EB|]. split; [reflexivity|lia].
    + inversion H; subst. exists []. split; [reflexivity|]. intros NT. exfalso. apply NT. now left.
    + inversion H; subst. exists []. split; [reflexivity|]. intros _. right. eauto.
Qed.
Lemma read_suffix s : forall acc n r s', read_full acc n s = (r, s') -> ~ In Timeout s -> ~ In Timeout s'.
Proof.
  induction s as [|e s IH]; intros acc n r s' H NT; cbn [read_full] in H; (destruct (n <=? 0); [inversion H; subst; exact NT|]); [inversion H; subst; exact NT|].
  assert (NS : ~ In Timeout s) by (intros X; apply NT; now right). destruct e as [b| |].
  - destruct (zlen b <=? n); [eapply IH; eassumption|]. inversion H; subst. intros [X|X]; [discriminate|contradiction].
  - exfalso. apply NT. now left.
  - inversion H; subst. exact NT.
Qed.
Lemma message_stream s r s' : Forall is_byte (stream s) -> ReadPeerMessage s = (r, s') ->
  exists pre, stream s = pre ++ stream s' /\ match r with ROk b => pre = frame b | RErr _ => ~ In Timeout s -> stream s' = [] \/ exists t, s' = Eof :: t end.
Proof.
  intros HB H. unfold ReadPeerMessage, readExactly in H. destruct (read_full [] 4 s) as [r1 s1] eqn:E1. destruct (read_stream _ _ _ _ _ E1) as (p1 & A1 & B1). destruct r1 as [h|e].
  - destruct B1 as [-> L1]. cbn [app] in H. destruct (read_stream _ _ _ _ _ H) as (p2 & A2 & B2). exists (p1 ++ p2). split; [now rewrite A1, A2, app_assoc|].
    assert (BP : Forall is_byte p1) by (rewrite A1 in HB; apply Forall_app in HB; apply HB). destruct r as [b|e].
    + destruct B2 as [-> L2]. cbn [app]. unfold frame. f_equal. rewrite L2. pose proof (be_get_range _ BP) as R. rewrite Z.max_r by lia. rewrite <- be32_put. rewrite <- (be_put_get p1 BP) at 1. f_equal. unfold zlen in L1. lia.
    + intros NT. apply B2. eapply read_suffix; eassumption.
  - inversion H; subst. exists p1. split; [exact A1|exact B1].
Qed.

Lemma framed_app x bs y : framed x bs -> framed (x ++ y) bs.
Proof. induction 1 as [x|g b bs x F IH]; [constructor|]. rewrite <- !app_assoc. constructor. exact IH. Qed.
Lemma framed_snoc x bs b : framed x bs -> framed (x ++ frame b) (bs ++ [b]).
Proof.
  induction 1 as [x|g b0 bs x F IH]; cbn [app].
  - rewrite <- (app_nil_r (frame b)). apply fr_cons. constructor.
  - rewrite <- !app_assoc. apply fr_cons. exact IH.
Qed.
Lemma framed_in x bs b : framed x bs -> In b bs -> exists g y, x = g ++ frame b ++ y.
Proof.
  induction 1 as [x|g b0 bs x F IH]; intros H; [destruct H|]. destruct H as [->|H]; [eauto|]. destruct (IH H) as (g' & y & ->). exists (g ++ frame b0 ++ g'), y. now rewrite <- !app_assoc.
Qed.
Lemma consumed_framed s bs s' : Forall is_byte (stream s) -> consumed s bs s' -> exists pre, stream s = pre ++ stream s' /\ framed pre bs.
Proof.
  intros HB H. induction H as [|bs s1 b s2 C IH R|bs s1 e s2 C IH R].
  - exists []. split; [reflexivity|constructor].
  - destruct IH as (pre & E & F). rewrite E in HB. apply Forall_app in HB. destruct HB as [_ HB]. destruct (message_stream _ _ _ HB R) as (p & E2 & ->). exists (pre ++ frame b). split; [now rewrite E, E2, app_assoc|now apply framed_snoc].
  - destruct IH as (pre & E & F). rewrite E in HB. apply Forall_app in HB. destruct HB as [_ HB]. destruct (message_stream _ _ _ HB R) as (p & E2 & _). exists (pre ++ p). split; [now rewrite E, E2, app_assoc|now apply framed_app].
Qed.
Lemma frame_cons b : exists x y, frame b = x :: y.
Proof. unfold frame, be32. cbn. eauto. Qed.
Lemma message_timeout s r s' : ReadPeerMessage s = (r, s') -> ~ In Timeout s -> ~ In Timeout s'.
Proof.
  intros H NT. unfold ReadPeerMessage, readExactly in H. destruct (read_full [] 4 s) as [r1 s1] eqn:E1. pose proof (read_suffix _ _ _ _ _ E1 NT) as N1. destruct r1 as [h|e]; [eapply read_suffix; eassumption|]. inversion H; subst. exact N1.
Qed.
Definition stuck (s : list ev) : Prop := stream s = [] \/ exists t, s = Eof :: t.
Lemma stuck_read s r s' : Forall is_byte (stream s) -> stuck s -> ReadPeerMessage s = (r, s') -> (exists e, r = RErr e) /\ stuck s'.
Proof.
  intros HB [H|(t & ->)] R.
  - destruct (message_stream _ _ _ HB R) as (p & E & M). rewrite H in E. destruct p; [|discriminate]. cbn in E. split; [|left; now symmetry]. destruct r as [b|e]; [|eauto]. destruct (frame_cons b) as (x & y & X). rewrite X in M. discriminate.
  - cbn in R. inversion R; subst. split; [eauto|right; eauto].
Qed.
Lemma consumed_gapless s bs s' : Forall is_byte (stream s) -> ~ In Timeout s -> consumed s bs s' -> 
  exists z, stream s = concat (map frame bs) ++ z.
Proof.
  intros HB NT H.
  assert (G : ~ In Timeout s' /\ Forall is_byte (stream s') /\ exists z, stream s = concat (map frame bs) ++ z /\ (z = stream s' \/ stuck s')).
  { induction H as [|bs s1 b s2 C IH R|bs s1 e s2 C IH R].
    - split; [exact NT|]. split; [exact HB|]. exists (stream s). split; [reflexivity|now left].
    - destruct IH as (N1 & B1 & z & E & Z). destruct (message_stream _ _ _ B1 R) as (p & E2 & P2). split; [eapply message_timeout; eassumption|]. split; [rewrite E2 in B1; apply Forall_app in B1; apply B1|].
      destruct Z as [->|Z]; [|exfalso; destruct (stuck_read _ _ _ B1 Z R) as [(e & X) _]; discriminate]. exists (stream s2). split; [|now left]. rewrite E, E2, P2, map_app, concat_app. cbn [map concat]. now rewrite app_nil_r, app_assoc.
    - destruct IH as (N1 & B1 & z & E & Z). destruct (message_stream _ _ _ B1 R) as (p & E2 & P2). split; [eapply message_timeout; eassumption|]. split; [rewrite E2 in B1; apply Forall_app in B1; apply B1|].
      exists z. split; [exact E|]. right. exact (P2 N1). }
  destruct G as (_ & _ & z & E & _). eauto.
Qed.
Lemma sock_bytes ss q : bytes_only ss -> Forall is_byte (stream (sock ss q)).
Proof. intros H. unfold sock. destruct (lt_dec q (length ss)) as [L|L]; [apply (proj1 (Forall_forall _ _) H), nth_In; exact L|rewrite nth_overflow by lia; constructor]. Qed.
Lemma greets_handshake hash evs hs s1 : greets hash evs -> ReadPeerHandshake evs = (ROk hs, s1) -> handshake_for hash hs /\ stream evs = hs ++ stream s1.
Proof.
  intros (cs & tl & res & pid & rest & -> & EC & L1 & L2 & L3) HR. unfold ReadPeerHandshake, readExactly in HR. destruct (read_stream _ _ _ _ _ HR) as (pre & E & EH & LP). cbn [app] in EH. subst pre. split; [|exact E].
  exists res, pid. split; [|auto]. rewrite stream_app, stream_chunks, EC in E.
  assert (A : (19 :: str "BitTorrent protocol" ++ res ++ hash ++ pid) ++ (rest ++ stream tl) = hs ++ stream s1) by (rewrite <- E; cbn [app]; now rewrite <- !app_assoc).
  assert (LL : length (19 :: str "BitTorrent protocol" ++ res ++ hash ++ pid) = length hs).
  { cbn [length]. rewrite !app_length, L1, L2, L3. change (length (str "BitTorrent protocol")) with 19%nat. unfold zlen in LP. lia. }
  symmetry. assert (AI : forall (a b c d : bytes), length a = length b -> a ++ c = b ++ d -> a = b).
  { intros a. induction a as [|x a IH]; intros [|y b] c0 d0 HL HX; cbn in HL; try lia; [reflexivity|]. cbn in HX. inversion HX. f_equal. eapply IH; [lia|eassumption]. }
  eapply AI; [exact LL|exact A].
Qed.
Lemma winv_start cf t f outs urls ss : winv (t_hash t) ss (client_start cf t f outs urls) ss [].
Proof.
  constructor; try (cbn; auto; fail).
  - eapply (sinv_run cf t f outs urls []). reflexivity.
  - cbn. lia.
  - intros k k' q H. destruct k; discriminate.
  - intros j pc k H. destruct j; discriminate.
  - intros k p H. destruct k; discriminate.
Qed.
Lemma winv_run cf h ss0 l : forall n tr0 n' tr, winv h ss0 (n_client n) (n_socks n) tr0 -> nrun cf l n = (n', tr) -> winv h ss0 (n_client n') (n_socks n') (tr0 ++ tr).
Proof.
  induction l as [|a l IH]; intros n tr0 n' tr I H; cbn [nrun] in H; [inversion H; subst; rewrite app_nil_r; exact I|].
  destruct (nexec cf a n) as [n1 e1] eqn:E1. destruct (nrun cf l n1) as [n2 e2] eqn:E2. inversion H; subst. rewrite app_assoc. eapply IH; [|exact E2]. eapply winv_step; eassumption.
Qed.
Lemma taken_client cf t f outs urls l ss n tr : bytes_only ss -> nrun cf l (mkNet (client_start cf t f outs urls) ss) = (n, tr) ->
  exists qs, NoDup qs /\ length qs = length (shakes tr) /\ forall k q, nth_error qs k = Some q ->
    exists hs x, stream (sock ss q) = hs ++ x /\ handshake_for (t_hash t) hs /\ framed x (bodies_of k (sevs tr)) /\
      (~ In Timeout (sock ss q) -> exists z, x = concat (map frame (bodies_of k (sevs tr))) ++ z).
Proof.
  intros HB HR. pose proof (winv_run cf (t_hash t) ss l (mkNet (client_start cf t f outs urls) ss) [] n tr (winv_start cf t f outs urls ss) HR) as I. cbn [app] in I. set (c := n_client n) in *.
  pose proof (wi_s _ _ _ _ _ I) as SI. exists (map (fun p => match conn_of (c_mgr c) p with Some q => q | None => 0%nat end) (c_run c)). split; [|split].
  - assert (G : forall rs, NoDup rs -> incl rs (c_run c) -> NoDup (map (fun p => match conn_of (c_mgr c) p with Some q => q | None => 0%nat end) rs)).
    { induction rs as [|p rs IH]; intros ND IN; cbn [map]; [constructor|]. inversion ND; subst. constructor; [|apply IH; [assumption|intros y Y; apply IN; now right]].
      intros X. apply in_map_iff in X. destruct X as (p' & X1 & X2). 
      assert (C : forall p0, In p0 (c_run c) -> exists q, conn_of (c_mgr c) p0 = Some q) by (intros p0 H; apply In_nth_error in H; destruct H as (k0 & H); destruct (wi_run _ _ _ _ _ I _ _ H) as (q & _ & _ & Y & _); eauto).
      destruct (C p (IN _ (or_introl eq_refl))) as (q & Q). destruct (C p' (IN _ (or_intror X2))) as (q' & Q'). rewrite Q, Q' in X1. subst q'. assert (p' = p) by (eapply (wi_one _ _ _ _ _ I); eassumption). subst. contradiction. }
    apply G; [rewrite (si_run _ _ _ SI); apply SI|apply incl_refl].
  - rewrite map_length, (si_run _ _ _ SI). apply map_length.
  - intros k q H. rewrite nth_error_map in H. destruct (nth_error (c_run c) k) as [p|] eqn:E; [|discriminate]. destruct (wi_run _ _ _ _ _ I _ _ E) as (q0 & hs & s1 & W1 & W2 & W3 & W4). cbn [option_map] in H. rewrite W1 in H. inversion H; subst q0.
    destruct (greets_handshake _ _ _ _ (si_greet _ _ _ SI _ _ (nth_error_In _ _ W2)) W3) as [G1 G2]. exists hs, (stream s1). split; [exact G2|]. split; [exact G1|].
    pose proof (sock_bytes _ q HB) as BQ. rewrite G2 in BQ. apply Forall_app in BQ. destruct BQ as [_ BQ]. split.
    + destruct (consumed_framed _ _ _ BQ W4) as (pre & -> & F). now apply framed_app.
    + intros NT. eapply consumed_gapless; [exact BQ| |exact W4]. unfold ReadPeerHandshake, readExactly in W3. eapply read_suffix; eassumption.
Qed.

(* ---------- the steps of the client that go with them ---------- *)
Definition scrub (a : cact) : cact := match a with KPeer k i => KPeer k (mkI (i_due i) (i_ok i) None (ModelPeer.i_timer i)) | _ => a end.
Lemma pstep_unread sha1 d o b b' t s r : at_read r = false -> pstep sha1 (mkI d o b t) s r = pstep sha1 (mkI d o b' t) s r.
Proof. unfold at_read, pstep. destruct (r_pc r); intros H; try discriminate; reflexivity. Qed.
Lemma exec_unread sha1 k d o b b' t w : (forall r, nth_error (wo_peers w) k = Some r -> at_read r = false) -> exec sha1 (APeer k (mkI d o b t)) w = exec sha1 (APeer k (mkI d o b' t)) w.
Proof. intros H. unfold exec. destruct (crashed w); [reflexivity|]. destruct (nth_error (wo_peers w) k) as [r|]; [|reflexivity]. now rewrite (pstep_unread sha1 d o b b') by (apply H; reflexivity). Qed.
Lemma nexec_scrub cf h ss0 n tr a : winv h ss0 (n_client n) (n_socks n) tr -> nexec cf (scrub a) n = nexec cf a n.
Proof.
  intros I. destruct a as [| |j x|j|j r|k i| |b]; try reflexivity. cbn [scrub]. unfold nexec. destruct (dead (n_client n) || c_exit (n_client n)) eqn:D; [reflexivity|].
  assert (E0 : (forall p, nth_error (c_run (n_client n)) k = Some p -> conn_closed (c_mgr (n_client n)) p = false -> forall r, nth_error (wo_peers (c_wo (n_client n))) k = Some r -> at_read r = false) ->
     cexec cf (KPeer k (mkI (i_due i) (i_ok i) None (ModelPeer.i_timer i))) (n_client n) = cexec cf (KPeer k i) (n_client n)).
  { intros HN. unfold cexec. rewrite D. unfold peer_step. destruct (nth_error (c_run (n_client n)) k) as [p|]; [|reflexivity]. destruct (conn_closed (c_mgr (n_client n)) p) eqn:EC; [reflexivity|].
    specialize (HN _ eq_refl EC). destruct i as [id io ir it]. cbn [i_due i_ok i_read ModelPeer.i_timer]. now rewrite (exec_unread _ _ _ _ None ir _ _ HN). }
  destruct (nth_error (c_run (n_client n)) k) as [p|] eqn:EK; [|rewrite E0 by discriminate; reflexivity].
  destruct (nth_error (wo_peers (c_wo (n_client n))) k) as [r|] eqn:ER; [|rewrite E0 by discriminate; reflexivity].
  destruct (wi_run _ _ _ _ _ I _ _ EK) as (q & _ & _ & W & _). rewrite W. destruct (at_read r && negb (conn_closed (c_mgr (n_client n)) p)) eqn:EA; [reflexivity|].
  rewrite E0; [reflexivity|]. intros p' X HC r' Y. inversion X; inversion Y; subst. rewrite HC, andb_true_r in EA. exact EA.
Qed.
Lemma bytes_upd ss q s : bytes_only ss -> Forall is_byte (stream s) -> bytes_only (upd ss q s).
Proof. intros H Hs. revert q. unfold bytes_only in *. induction H as [|a ss Ha H IH]; intros [|q]; cbn [upd]; constructor; auto. Qed.
Lemma nexec_bytes cf a n n' es : nexec cf a n = (n', es) -> bytes_only (n_socks n) -> sends_bytes a ->
  exists a', same_act a a' /\ cexec cf a' (n_client n) = (n_client n', es) /\ sends_bytes a' /\ bytes_only (n_socks n').
Proof.
  unfold nexec. set (c := n_client n). intros H HB HA.
  assert (G : forall a' ss', same_act a a' -> sends_bytes a' -> bytes_only ss' -> (let '(c', es') := cexec cf a' c in (mkNet c' ss', es')) = (n', es) -> exists a', same_act a a' /\ cexec cf a' c = (n_client n', es) /\ sends_bytes a' /\ bytes_only (n_socks n')).
  { intros a' ss' S A B E. exists a'. split; [exact S|]. destruct (cexec cf a' c) as [c' es']. inversion E; subst. auto. }
  destruct (dead c || c_exit c) eqn:D; [inversion H; subst; exists a; split; [now left|]; unfold cexec; fold c; rewrite D; auto|].
  assert (G0 : (let '(c', es') := cexec cf a c in (mkNet c' (n_socks n), es')) = (n', es) -> exists a', same_act a a' /\ cexec cf a' c = (n_client n', es) /\ sends_bytes a' /\ bytes_only (n_socks n')) by (apply G; [now left|exact HA|exact HB]).
  destruct a as [| |j x|j|j r|k i| |b]; try (exact (G0 H)).
  - destruct (nth_error (g_trk (c_mgr c)) j) as [[| | | | | | |k m ips| | |]|]; try (exact (G0 H)). destruct (conn_of (c_mgr c) k) as [q|]; [|exact (G0 H)].
    refine (G _ _ _ _ _ H); [right; left; eexists _, _, _; split; reflexivity|exact Logic.I|]. destruct (_ && _); [|exact HB]. apply bytes_upd; [exact HB|].
    pose proof (sock_bytes _ q HB) as B. unfold ReadPeerHandshake, readExactly. destruct (read_full [] 68 (sock (n_socks n) q)) as [r s'] eqn:E. destruct (read_stream _ _ _ _ _ E) as (pre & X & _). rewrite X in B. apply Forall_app in B. apply B.
  - destruct (nth_error (c_run c) k) as [p|]; [|exact (G0 H)]. destruct (nth_error (wo_peers (c_wo c)) k) as [r|]; [|exact (G0 H)]. destruct (conn_of (c_mgr c) p) as [q|]; [|exact (G0 H)].
    destruct (at_read r && negb (conn_closed (c_mgr c) p)); [|exact (G0 H)]. destruct (ReadPeerMessage (sock (n_socks n) q)) as [m s'] eqn:E.
    pose proof (sock_bytes _ q HB) as B. destruct (message_stream _ _ _ B E) as (pre & X & Y). rewrite X in B. apply Forall_app in B. destruct B as [B1 B2].
    refine (G _ _ _ _ _ H); [right; right; eexists _, _, _; split; reflexivity| |now apply bytes_upd]. cbn. intros b Hb. destruct m as [b'|e]; [|discriminate]. inversion Hb; subst. unfold frame in B1. apply Forall_app in B1. apply B1.
Qed.
Lemma nrun_bytes cf h ss0 l : forall n tr0 n' tr, winv h ss0 (n_client n) (n_socks n) tr0 -> bytes_only (n_socks n) -> nrun cf l n = (n', tr) ->
  exists l', Forall2 same_act l l' /\ crun cf l' (n_client n) = (n_client n', tr) /\ Forall sends_bytes l'.
Proof.
  induction l as [|a l IH]; intros n tr0 n' tr I HB H; cbn [nrun] in H.
  - inversion H; subst. exists []. split; [constructor|]. split; [reflexivity|constructor].
  - destruct (nexec cf a n) as [n1 e1] eqn:E1. destruct (nrun cf l n1) as [n2 e2] eqn:E2. inversion H; subst. pose proof (winv_step _ _ _ _ _ _ _ _ I E1) as I1. rewrite <- (nexec_scrub _ _ _ _ _ a I) in E1.
    destruct (nexec_bytes _ _ _ _ _ E1 HB) as (a' & S & C & SB & B1); [destruct a; cbn; auto; discriminate|]. destruct (IH _ _ _ _ I1 B1 E2) as (l' & S' & C' & SB'). exists (a' :: l'). split; [constructor; [|exact S']|].
    + destruct a as [| |j x|j|j r|k i| |b]; try exact S. cbn [scrub] in S. right. right. destruct S as [->|[(j & x & s & X & _)|(k' & i' & b & X & ->)]]; [eexists _, _, _; split; reflexivity|discriminate|]. inversion X; subst. cbn. eexists _, _, _. split; reflexivity.
    + cbn [crun]. rewrite C, C'. split; [reflexivity|now constructor].
Qed.
Lemma same_held l l' : Forall2 same_act l l' -> Forall held_reply l -> Forall held_reply l'.
Proof.
  induction 1 as [|a a' l l' S F IH]; intros H; [constructor|]. inversion H; subst. constructor; [|auto]. destruct S as [->|[(j & x & s & -> & ->)|(k & i & b & -> & ->)]]; [assumption|exact Logic.I|exact Logic.I].
Qed.

(* ---------- the program ---------- *)
Lemma taken cf look o f flags out file outs order d M w c0 l ss n tr :
  o_file o file = Some d -> SpecBencode.fits d -> torrent_doc d M w -> prog_start cf look o f flags (CDownload out file) outs order = PRun c0 ->
  bytes_only ss -> nrun cf l (mkNet c0 ss) = (n, tr) ->
  exists qs, NoDup qs /\ length qs = length (shakes tr) /\ forall k q, nth_error qs k = Some q ->
    exists hs x, stream (sock ss q) = hs ++ x /\ handshake_for (cf_sha1 cf w) hs /\ framed x (bodies_of k (sevs tr)) /\
      (~ In Timeout (sock ss q) -> exists z, x = concat (map frame (bodies_of k (sevs tr))) ++ z).
Proof.
  intros Hd Hf HT HS HB HR. destruct (download_started _ _ _ _ _ _ _ _ _ _ _ _ _ HS Hd Hf HT) as (f1 & t & HN & ->).
  assert (EH : t_hash t = cf_sha1 cf w) by (destruct (new_fields _ _ _ _ _ _ _ _ _ HN) as (_ & _ & X & _); exact X). rewrite <- EH. eapply taken_client; eassumption.
Qed.
Lemma from_wire cf look o f flags out file outs order d M w ps c0 l ss n tr :
  o_file o file = Some d -> SpecBencode.fits d -> torrent_doc d M w -> out <> [] -> torrent_places (o_cwd o) out M ps ->
  NoDup ps -> Forall (fun n => 0 <= n < 2 ^ 63) (file_lengths M) -> 0 <= mi_piece_length M < 2 ^ 30 -> Forall held_reply l ->
  prog_start cf look o f flags (CDownload out file) outs order = PRun c0 -> bytes_only ss -> nrun cf l (mkNet c0 ss) = (n, tr) ->
  forall k x o' q, nth_error ps k = Some x -> spot M q k o' ->
    let g := prog_fs (PRun (n_client n)) in
    g x = f x \/ byte_at (contents g x) o' = 0 \/
    exists s hs y i off b z, In s ss /\ stream s = hs ++ y ++ frame (piece_bytes i off b) ++ z /\ handshake_for (cf_sha1 cf w) hs /\
      0 <= i < 2 ^ 32 /\ 0 <= off < 2 ^ 32 /\ cf_sha1 cf b = hash_of (mi_pieces M) i /\
      0 <= q - (i * mi_piece_length M + off) < zlen b /\ byte_at (contents g x) o' = byte_at b (q - (i * mi_piece_length M + off)).
Proof.
  intros Hd Hf HT Ho HP HND HL HPL HH HS HB HR k x o' q Hk Hq. cbn zeta.
  assert (W : exists l', Forall2 same_act l l' /\ crun cf l' c0 = (n_client n, tr) /\ Forall sends_bytes l').
  { destruct (download_started _ _ _ _ _ _ _ _ _ _ _ _ _ HS Hd Hf HT) as (f1 & t & HN & ->). exact (nrun_bytes cf (t_hash t) ss l (mkNet _ ss) [] n tr (winv_start cf t f1 outs _ ss) HB HR). }
  destruct W as (l' & S & C & SB).
  assert (PR : prog_run cf l' (prog_start cf look o f flags (CDownload out file) outs order) = (PRun (n_client n), tr)) by (rewrite HS; cbn [prog_run]; now rewrite C).
  destruct (prog_stored _ _ _ _ _ _ _ _ _ _ _ _ _ _ _ _ Hd Hf HT Ho HP HND HL HPL (same_held _ _ S HH) SB PR) as [_ P]. destruct (P _ _ _ _ Hk Hq) as [X|[X|(c1 & m & i & off & b & E1 & FP & R)]]; [auto|auto|].
  right. right. destruct (taken _ _ _ _ _ _ _ _ _ _ _ _ _ _ _ _ _ Hd Hf HT HS HB HR) as (qs & _ & LQ & TK). destruct FP as (t1 & t2 & ET & p & evs & j & a & NS & _).
  assert (LM : (m < length qs)%nat). { rewrite LQ, ET, shakes_app, app_length. assert (m < length (shakes t1))%nat by (apply nth_error_Some; congruence). lia. }
  destruct (nth_error qs m) as [qq|] eqn:EQ; [|apply nth_error_None in EQ; lia]. destruct (TK _ _ EQ) as (hs & y & ST & HS' & FR & _).
  assert (IN : In (piece_bytes i off b) (bodies_of m (sevs tr))).
  { unfold bodies_of, events_of. apply in_flat_map. exists (EReadOk (piece_bytes i off b)). split; [|now left]. apply in_map_iff. exists (m, EReadOk (piece_bytes i off b)). split; [reflexivity|]. apply filter_In. cbn [fst]. split; [|apply Nat.eqb_refl].
    rewrite ET. unfold sevs. apply in_flat_map. exists (VSys m (EReadOk (piece_bytes i off b))). split; [apply in_app_iff; right; now left|now left]. }
  destruct (framed_in _ _ _ FR IN) as (g & z & ->). exists (sock ss qq), hs, g, i, off, b, z. split; [|split; [exact ST|split; [exact HS'|exact R]]].
  unfold sock. destruct (lt_dec qq (length ss)) as [L|L]; [apply nth_In; exact L|]. exfalso. unfold sock in ST. rewrite nth_overflow in ST by lia. destruct HS' as (res & pid & -> & _). discriminate.
Qed.
