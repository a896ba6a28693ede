(* The printer of the progress bar during a download (C85).                    *)
From Coq Require Import Reals Lra.
From Flocq Require Import Core.Core.
From Verif Require Import Base ProofBase ModelBitset ModelMsg ModelTorrent ModelConn ModelPeer ModelSystem ModelFloat ProofFloat ModelStats SpecStats ModelProgress
  SpecPeer SpecExchange SpecTorrent ProofTorrent ProofWrite ProofDisk ProofNew ProofStats ProofSystem ProofRequests ProofProgress ProofPeer ProofPeer2 ProofWitness.
Open Scope Z_scope.
Local Arguments Nat.sub : simpl never.

Lemma percent_twice s : 1 <= s <= 2 ^ 52 -> percent_of s (2 * s) (2 * s) = 200.
Proof.
  intros Hs.
  assert (Q : (rnd (IZR (2 * s)) / rnd (IZR s))%R = 2%R).
  { rewrite (rnd_int (2 * s)), (rnd_int s) by lia. rewrite mult_IZR. field. apply IZR_neq. lia. }
  destruct (percent_value s (2 * s) (2 * s)) as [-> _]; [lia..| |].
  - rewrite Q. apply IZR_le. lia.
  - unfold ratio. rewrite Q, (rnd_int 2) by lia. rewrite <- mult_IZR, (rnd_int (2 * 100)) by lia. change (2 * 100) with 200. apply Zfloor_imp. rewrite plus_IZR. lra.
Qed.
Lemma print_exact w : let t := sh_t (wo_sh w) in let n := sum (w_added (sh_w (wo_sh w))) in 0 <= t_length t < 2 ^ 63 -> 0 <= n < 2 ^ 64 ->
  Print w = progressBar (percent_of (t_length t) n n) 20.
Proof.
  intros t n Ht Hn. unfold Print, PrintBar, PercentCompleted, download_stats.
  assert (E : u64 (t_length t) = t_length t) by (unfold u64; apply Z.mod_small; lia). fold t. rewrite E.
  destruct (run_stats_exact (t_length t) (sh_w (wo_sh w)) ltac:(lia)) as (_ & H1 & H2).
  unfold run_stats in H1, H2. rewrite H1, H2. fold n. replace (u64 n) with n; [reflexivity|]. unfold u64. rewrite Z.mod_small; lia.
Qed.
(* twice the length of the torrent is too much for the bar *)
Lemma print_twice w : 1 <= t_length (sh_t (wo_sh w)) <= 2 ^ 51 -> 2 * t_length (sh_t (wo_sh w)) <= sum (w_added (sh_w (wo_sh w))) <= 2 ^ 53 -> Print w = Panic.
Proof.
  intros Ht Hn. rewrite print_exact by lia. set (s := t_length _) in *. set (n := sum _) in *.
  pose proof (percent_twice s ltac:(lia)) as H2. pose proof (percent_mono s (2 * s) n ltac:(lia) ltac:(lia) ltac:(lia)) as HM.
  apply bar_exact; [|right; lia]. unfold in_range. split; [lia|].
  destruct (percent_value s n n) as [-> [_ B]]; [lia..| |].
  - pose proof (rnd_ge1 s ltac:(lia)). rewrite (rnd_int n) by lia. assert (1 <= IZR n)%R by (apply IZR_le; lia).
    apply Rle_trans with (IZR n); [|apply IZR_le; lia].
    apply Rmult_le_reg_r with (rnd (IZR s)); [lra|]. unfold Rdiv. rewrite Rmult_assoc, Rinv_l, Rmult_1_r by lra. nra.
  - apply Z.le_lt_trans with (Zfloor (IZR (2 ^ 60) + / 2)); [apply Zfloor_le; lra|].
    replace (Zfloor (IZR (2 ^ 60) + / 2)) with (2 ^ 60); [lia|]. symmetry. apply Zfloor_imp. rewrite plus_IZR. lra.
Qed.

(* ---------- peers that wait for a message in unchoke ---------- *)
Lemma new_peer sha1 w : crashed w = false -> sh_cancel (wo_sh w) = false -> Done (sh_t (wo_sh w)) = false ->
  exists r e, r_pc r = PURead /\
    run sha1 (ASpawn false 0 :: to_read (length (wo_peers w))) w = (mkWorld (wo_sh w) (wo_peers w ++ [r]) (wo_main w) (wo_taken w) (wo_hand w), e).
Proof.
  intros Hc Hx Hd. destruct w as [s ps ma ta ha]. cbn [wo_sh wo_peers wo_main wo_taken wo_hand] in *.
  assert (N : forall r, nth_error (ps ++ [r]) (length ps) = Some r) by (intro r; rewrite nth_error_app2, Nat.sub_diag by lia; reflexivity).
  assert (U : forall r r', upd (ps ++ [r]) (length ps) r' = ps ++ [r']).
  { intros r r'. clear. induction ps as [|x ps IH]; cbn; [reflexivity|now rewrite IH]. }
  assert (C : forall r, r_pc r <> PPanic -> crashed (mkWorld s (ps ++ [r]) ma ta ha) = false).
  { intros r Hr. unfold crashed in *. cbn in *. rewrite existsb_app. apply orb_false_iff in Hc. destruct Hc as [-> ->]. cbn.
    unfold panicked. now destruct (r_pc r). }
  set (r0 := fresh false (sh_t s) 0).
  assert (St : forall r r' es l w' e, r_pc r <> PPanic -> pstep sha1 go s r = Some (s, r', es) ->
    run sha1 l (mkWorld s (ps ++ [r']) ma ta ha) = (w', e) ->
    run sha1 (APeer (length ps) go :: l) (mkWorld s (ps ++ [r]) ma ta ha) = (w', map (pair (length ps)) es ++ e)).
  { intros r r' es l w' e Hr Hs Hl. cbn [run]. unfold exec. rewrite (C r Hr). cbn [wo_peers wo_sh wo_main wo_taken wo_hand]. rewrite N, Hs, U, Hl. reflexivity. }
  assert (E0 : exec sha1 (ASpawn false 0) (mkWorld s ps ma ta ha) = (mkWorld s (ps ++ [r0]) ma ta ha, [])).
  { unfold exec. rewrite Hc. reflexivity. }
  set (l6 := [APeer (length ps) go; APeer (length ps) go; APeer (length ps) go; APeer (length ps) go; APeer (length ps) go; APeer (length ps) go]).
  assert (E6 : exists e, run sha1 l6 (mkWorld s (ps ++ [r0]) ma ta ha) = (mkWorld s (ps ++ [at_pc r0 PURead]) ma ta ha, e)).
  { unfold l6. eexists.
    eapply St; [discriminate|cbn; rewrite Hx; reflexivity|].
    eapply St; [discriminate|cbn; rewrite Hd; reflexivity|].
    eapply St; [discriminate|reflexivity|].
    eapply St; [discriminate|reflexivity|].
    eapply St; [discriminate|cbn; rewrite Hx; reflexivity|].
    eapply St; [discriminate|reflexivity|]. reflexivity. }
  destruct E6 as [e E6]. exists (at_pc r0 PURead), e. split; [reflexivity|].
  cbn [run]. rewrite E0. unfold to_read. cbn [repeat]. fold l6. rewrite E6. reflexivity.
Qed.

Fixpoint gather_peers (n base : nat) : list action :=
  match n with O => [] | S n' => ASpawn false 0 :: to_read base ++ gather_peers n' (S base) end.
Lemma many_peers sha1 n : forall w, crashed w = false -> sh_cancel (wo_sh w) = false -> Done (sh_t (wo_sh w)) = false ->
  exists rs e, length rs = n /\ Forall (fun r => r_pc r = PURead) rs /\
    run sha1 (gather_peers n (length (wo_peers w))) w = (mkWorld (wo_sh w) (wo_peers w ++ rs) (wo_main w) (wo_taken w) (wo_hand w), e).
Proof.
  induction n as [|n IH]; intros w Hc Hx Hd.
  - exists [], []. destruct w. cbn. rewrite app_nil_r. auto.
  - destruct (new_peer sha1 w Hc Hx Hd) as (r & e & Hr & E). set (w1 := mkWorld _ _ _ _ _) in E.
    assert (Hc1 : crashed w1 = false).
    { unfold crashed in *. cbn. rewrite existsb_app. apply orb_false_iff in Hc. destruct Hc as [-> ->]. cbn. unfold panicked. now rewrite Hr. }
    destruct (IH w1 Hc1 Hx Hd) as (rs & e2 & H1 & H2 & H3). exists (r :: rs), (e ++ e2). split; [cbn; congruence|]. split; [constructor; auto|].
    cbn [gather_peers]. change (ASpawn false 0 :: ?a ++ ?b) with ((ASpawn false 0 :: a) ++ b). rewrite run_app, E.
    replace (S (length (wo_peers w))) with (length (wo_peers w1)) by (unfold w1; cbn; rewrite app_length; cbn; lia).
    rewrite H3. unfold w1. cbn. now rewrite <- app_assoc.
Qed.

(* each of them reads the message and hands it to the writer *)
Fixpoint feed (b : bytes) (n base : nat) : list action :=
  match n with O => [] | S n' => APeer base (rd b) :: APeer base go :: AWriter :: AWriter :: feed b n' (S base) end.
Lemma run_crashed sha1 l w : crashed w = true -> run sha1 l w = (w, []).
Proof. intro H. induction l as [|a l IH]; cbn [run]; [reflexivity|]. unfold exec. now rewrite H, IH. Qed.
Lemma storable_static t t' m d : static t' = static t -> storable t m d -> storable t' m d.
Proof.
  unfold static, storable, writePieceData, entries. intros E H f outs. specialize (H f outs).
  assert (t_plen t' = t_plen t /\ t_isdir t' = t_isdir t /\ t_files t' = t_files t /\ t_osfiles t' = t_osfiles t) as (-> & -> & -> & ->) by (repeat split; congruence).
  exact H.
Qed.
Lemma feed_all sha1 b m d : NewPeerMessage b = Ok m -> m_type m = 7 -> data_of m = Ok d ->
  forall n w, (forall j, (j < n)%nat -> exists r, nth_error (wo_peers w) (length (wo_peers w) - n + j) = Some r /\ r_pc r = PURead) -> (n <= length (wo_peers w))%nat ->
  sh_closed (wo_sh w) = false -> sh_ch (wo_sh w) = [] -> wo_hand w = None ->
  (exists p, nthZ (t_pieces (sh_t (wo_sh w))) (m_index m) = Some p /\ p_sha1 p = sha1 d) ->
  exists w' e, run sha1 (feed b n (length (wo_peers w) - n)) w = (w', e) /\ static (sh_t (wo_sh w')) = static (sh_t (wo_sh w)) /\
    (crashed w' = true \/ sum (w_added (sh_w (wo_sh w'))) = sum (w_added (sh_w (wo_sh w))) + Z.of_nat n * zlen d) /\
    (crashed w = false -> storable (sh_t (wo_sh w)) m d -> crashed w' = false).
Proof.
  intros Hb Hty Hd. induction n as [|n IH]; intros w Hr Hn Hcl Hch Hha Hp.
  - exists w, []. split; [reflexivity|]. split; [reflexivity|]. split; [right; cbn; lia|auto].
  - set (k := (length (wo_peers w) - S n)%nat).
    destruct (crashed w) eqn:Hc; [exists w, []; rewrite run_crashed by exact Hc; repeat split; auto; congruence|].
    destruct (Hr O ltac:(lia)) as (r & Ek & Epc). rewrite Nat.add_0_r in Ek. fold k in Ek.
    destruct Hp as (p & Hp1 & Hp2).
    cbn [feed run]. unfold exec at 1. rewrite Hc, Ek, (read_good sha1 (wo_sh w) r true b m d p) by assumption.
    set (w1 := mkWorld _ _ _ _ _).
    assert (Hk : (k < length (wo_peers w))%nat) by (unfold k; lia).
    assert (Hc1 : forall (s : shared) (r' : rstate) ma ta ha, r_pc r' <> PPanic -> w_panic (sh_w s) = false ->
       crashed (mkWorld s (upd (wo_peers w) k r') ma ta ha) = false).
    { intros s r' ma ta ha Hr' Hw. unfold crashed in *. apply orb_false_iff in Hc. destruct Hc as [Hc _]. cbn. rewrite Hw, orb_false_r.
      clear - Hc Hr'. revert Hc. generalize k as q. clear k. induction (wo_peers w) as [|x ps IHp]; intros [|q] Hc; cbn in *; auto.
      - apply orb_false_iff in Hc. destruct Hc as [_ ->]. unfold panicked. now destruct (r_pc r').
      - apply orb_false_iff in Hc. destruct Hc as [-> Hc]. now apply IHp. }
    assert (Hw0 : w_panic (sh_w (wo_sh w)) = false) by (unfold crashed in Hc; apply orb_false_iff in Hc; tauto).
    assert (E1 : exec sha1 (APeer k go) w1 = (mkWorld (set_ch (wo_sh w) [m]) (upd (wo_peers w) k (with_peer r PReq (after_put (r_peer r) m))) (wo_main w) (wo_taken w) (wo_hand w), [(k, EPut m)])).
    { unfold exec. unfold w1 at 1. rewrite Hc1 by (try discriminate; assumption). cbn [w1 wo_peers wo_sh].
      rewrite (nth_upd_same _ _ _ r Ek). unfold pstep. cbn [r_pc at_pc r_peer]. rewrite Hcl, Hch. cbn.
      f_equal. f_equal. clear. generalize k as q. clear k. induction (wo_peers w) as [|x ps IHp]; intros [|q]; cbn; f_equal; auto. }
    rewrite E1. set (w2 := mkWorld (set_ch _ _) _ _ _ _).
    assert (Hc2 : crashed w2 = false) by (unfold w2; apply Hc1; [discriminate|exact Hw0]).
    assert (E2 : exec sha1 AWriter w2 = (mkWorld (set_ch (wo_sh w) []) (wo_peers w2) (wo_main w) (wo_taken w) (Some m), [])).
    { unfold exec. rewrite Hc2. cbn [w2 wo_sh set_ch sh_ch wo_hand]. rewrite Hha. reflexivity. }
    rewrite E2. set (w2' := mkWorld (set_ch _ []) _ _ _ _).
    assert (Hc2' : crashed w2' = false) by (unfold w2', w2; cbn [wo_peers]; apply Hc1; [discriminate|exact Hw0]).
    unfold exec at 1. rewrite Hc2'. cbn [w2' w2 wo_sh wo_hand wo_peers wo_main wo_taken set_ch sh_ch]. set (w3 := mkWorld _ _ _ _ _).
    assert (L3 : length (wo_peers w3) = length (wo_peers w)) by (unfold w3; cbn; apply upd_length).
    assert (S3 : static (sh_t (wo_sh w3)) = static (sh_t (wo_sh w))) by (unfold w3; cbn; apply static_write).
    destruct (crashed w3) eqn:Hc3.
    + rewrite run_crashed by exact Hc3. eexists w3, _. split; [reflexivity|]. split; [exact S3|]. split; [now left|]. intros _ Hst. exfalso.
      assert (P3 : w_panic (sh_w (wo_sh w3)) = false).
      { unfold w3. cbn. unfold write_one. rewrite Hd. specialize (Hst (w_fs (sh_w (wo_sh w))) (w_outs (sh_w (wo_sh w)))). unfold sh_t in Hst.
        destruct (writePieceData _ _ _ _ _) as [[f' o'] st]. cbn in Hst. destruct st; cbn; try exact Hw0. now contradiction Hst. }
      assert (crashed w3 = false) by (unfold w3; apply Hc1; [discriminate|exact P3]). congruence.
    + destruct (IH w3) as (w' & e & HR & HS & HA & HC).
      * intros j Hj. rewrite L3. destruct (Hr (S j) ltac:(lia)) as (r' & E' & P'). exists r'. split; [|exact P'].
        unfold w3. cbn. rewrite nth_upd_other by (unfold k; lia). rewrite <- E'. f_equal. lia.
      * lia.
      * exact Hcl.
      * reflexivity.
      * reflexivity.
      * assert (E : t_pieces (sh_t (wo_sh w3)) = t_pieces (sh_t (wo_sh w))) by (unfold static in S3; congruence). rewrite E. eauto.
      * replace (length (wo_peers w3) - n)%nat with (S k) in HR by (unfold k; lia). rewrite HR.
        eexists w', _. split; [reflexivity|]. split; [congruence|].
        split; [|intros _ Hst; apply HC; [exact Hc3|]; eapply storable_static; eauto]. destruct HA as [HA|HA]; [now left|right]. rewrite HA.
        assert (E : w_added (sh_w (wo_sh w3)) = w_added (sh_w (wo_sh w)) ++ [zlen d]).
        { unfold w3. cbn. unfold write_one. rewrite Hd. destruct (writePieceData _ _ _ _ _) as [[f' o'] st]. destruct st; reflexivity. }
        rewrite E, sum_app, Nat2Z.inj_succ. change (sum [zlen d]) with (zlen d + 0). ring.
Qed.
Definition answer0 : msg := mkMsg 13 7 (be_put 4 0 ++ be_put 4 0 ++ [1; 2; 3; 4]) 0 0 0.
Theorem attack sha1 w b m d : crashed w = false -> sh_cancel (wo_sh w) = false -> sh_closed (wo_sh w) = false -> Done (sh_t (wo_sh w)) = false ->
  sh_ch (wo_sh w) = [] -> wo_hand w = None -> NewPeerMessage b = Ok m -> m_type m = PieceT -> verified sha1 (sh_t (wo_sh w)) m -> data_of m = Ok d -> d <> [] ->
  1 <= t_length (sh_t (wo_sh w)) <= 2 ^ 51 -> zlen d <= 2 ^ 51 -> 0 <= sum (w_added (sh_w (wo_sh w))) <= 2 ^ 51 ->
  exists l w' tr, Forall peers_and_writer l /\ (forall k i x, In (APeer k i) l -> i_read i = Some x -> x = b) /\ run sha1 l w = (w', tr) /\ (crashed w' = true \/ printing_crashes w') /\
    (storable (sh_t (wo_sh w)) m d -> crashed w' = false /\ printing_crashes w').
Proof.
  intros Hc Hx Hcl Hd Hch Hha Hb Hty (p & d' & Hp & Hdd & Hs) Hdata Hne HL Hz Ha.
  assert (d' = d) as -> by congruence.
  assert (Hz1 : 1 <= zlen d) by (unfold zlen; destruct d; [contradiction|cbn; lia]).
  set (L := t_length (sh_t (wo_sh w))) in *. set (n := Z.to_nat ((2 * L + zlen d - 1) / zlen d)).
  assert (Hn : 2 * L <= Z.of_nat n * zlen d <= 2 * L + zlen d).
  { unfold n. rewrite Z2Nat.id by (apply Z.div_pos; lia). pose proof (Z.div_mod (2 * L + zlen d - 1) (zlen d) ltac:(lia)).
    pose proof (Z.mod_pos_bound (2 * L + zlen d - 1) (zlen d) ltac:(lia)). nia. }
  destruct (many_peers sha1 n w Hc Hx Hd) as (rs & e1 & Hl & HF & HR1). set (w1 := mkWorld _ _ _ _ _) in HR1.
  assert (L1 : length (wo_peers w1) = (length (wo_peers w) + n)%nat) by (unfold w1; cbn; rewrite app_length; lia).
  destruct (feed_all sha1 b m d Hb Hty Hdata n w1) as (w2 & e2 & HR2 & HS2 & HA2 & HC2).
  - intros j Hj. rewrite L1. unfold w1. cbn. replace (length (wo_peers w) + n - n + j)%nat with (length (wo_peers w) + j)%nat by lia.
    rewrite nth_error_app2 by lia. replace (length (wo_peers w) + j - length (wo_peers w))%nat with j by lia.
    destruct (nth_error rs j) as [r|] eqn:E; [|apply nth_error_None in E; lia]. exists r. split; [reflexivity|].
    rewrite Forall_forall in HF. apply HF. eapply nth_error_In; eauto.
  - lia.
  - exact Hcl.
  - exact Hch.
  - exact Hha.
  - exists p. auto.
  - exists (gather_peers n (length (wo_peers w)) ++ feed b n (length (wo_peers w))), w2, (e1 ++ e2). split; [|split; [|split]].
    + apply Forall_app. split.
      * generalize (length (wo_peers w)). clear. induction n as [|n IH]; intro k; cbn; [constructor|]. constructor; [reflexivity|].
        repeat (constructor; [exact I|]). apply IH.
      * generalize (length (wo_peers w)). clear. induction n as [|n IH]; intro k; cbn; [constructor|]. repeat (constructor; [exact I|]). apply IH.
    + intros k i x HI Hx'. apply in_app_iff in HI. destruct HI as [HI|HI].
      * exfalso. revert HI. generalize (length (wo_peers w)). clear - Hx'. induction n as [|n IH]; intros q HI; [destruct HI|].
        cbn in HI. repeat (destruct HI as [HI|HI]; [try discriminate HI; inversion HI; subst; discriminate Hx'|]). eapply IH; eauto.
      * revert HI. generalize (length (wo_peers w)). clear - Hx'. induction n as [|n IH]; intros q HI; [destruct HI|].
        cbn in HI. destruct HI as [HI|[HI|[HI|[HI|HI]]]].
        -- inversion HI; subst. cbn in Hx'. congruence.
        -- inversion HI; subst. discriminate Hx'.
        -- discriminate HI.
        -- discriminate HI.
        -- eapply IH; eauto.
    + rewrite run_app, HR1. replace (length (wo_peers w1) - n)%nat with (length (wo_peers w)) in HR2 by lia. now rewrite HR2.
    + assert (X : crashed w2 = true \/ printing_crashes w2).
      { destruct HA2 as [HA2|HA2]; [now left|right]. unfold printing_crashes.
        assert (EL : t_length (sh_t (wo_sh w2)) = L) by (unfold static in HS2; unfold L; unfold w1 in HS2; cbn in HS2; congruence).
        change (wo_sh w1) with (wo_sh w) in HA2.
        apply print_twice; rewrite EL; [lia|]. rewrite HA2. lia. }
      split; [exact X|]. intro Hst.
      assert (Hc1 : crashed w1 = false).
      { unfold w1, crashed in *. cbn. rewrite existsb_app. apply orb_false_iff in Hc. destruct Hc as [-> ->]. rewrite orb_false_r. cbn.
        clear - HF. induction HF as [|r rs Hr _ IH]; [reflexivity|]. cbn. unfold panicked at 1. now rewrite Hr, IH. }
      specialize (HC2 Hc1 Hst). split; [exact HC2|]. destruct X; [congruence|assumption].
Qed.
Lemma wx_storable sha1 : storable (wx_t sha1) answer0 [1; 2; 3; 4].
Proof.
  intros f outs.
  destruct (write_piece_spec (wx_t sha1) f outs 0 [1; 2; 3; 4]) as (f' & o' & st & m & E & _ & _ & _ & H & _).
  - split; [reflexivity|]. split; [cbn; repeat constructor; intros []|]. unfold sizes_ok. cbn. constructor; [cbn; lia|constructor].
  - lia.
  - change (wrap64 (wrap64 (m_index answer0 * t_plen (wx_t sha1)) + m_offset answer0)) with 0. rewrite E. exact H.
Qed.
Theorem printing_refuted sha1 : (forall x, length (sha1 x) = 20%nat) ->
  ~ (forall cwd creat mk f0 mi hash dir f1 t l w tr, New cwd creat mk f0 mi hash dir = (f1, Ok t) -> Forall (spawns (eq false)) l -> Forall reads_bytes l ->
       run sha1 l (start (mkW t f1 [] [] false)) = (w, tr) -> crashed w = false -> ~ printing_crashes w).
Proof.
  intros H20 H.
  destruct (attack sha1 (wx_start sha1) (piece_body 0 0 [1; 2; 3; 4]) answer0 [1; 2; 3; 4]) as (l & w & tr & HL & HB & HR & _ & HS); try reflexivity.
  - exists (mkPiece 0 (sha1 [1; 2; 3; 4])), [1; 2; 3; 4]. repeat split; reflexivity.
  - discriminate.
  - cbn. lia.
  - cbn. lia.
  - cbn. lia.
  - destruct (HS (wx_storable sha1)) as [HC HP].
    refine (H _ _ _ _ _ _ _ _ _ _ _ _ (wx_new sha1 H20) _ _ HR HC HP).
    + apply Forall_forall. intros a Ha. rewrite Forall_forall in HL. specialize (HL a Ha). destruct a; cbn in *; auto.
    + apply Forall_forall. intros [|k i| | |] Ha; cbn; auto. intros x Hx. rewrite (HB k i x Ha Hx). apply bytes_dec. reflexivity.
Qed.
Theorem printing_safe w : let t := sh_t (wo_sh w) in let n := sum (w_added (sh_w (wo_sh w))) in 1 <= t_length t < 2 ^ 63 -> 0 <= n <= t_length t ->
  exists cells txt, Print w = Ok (cells, txt) /\ length cells = 20%nat /\
    cells = repeat progressChar (Z.to_nat (percent_of (t_length t) n n / 5)) ++ repeat space (Z.to_nat (20 - percent_of (t_length t) n n / 5)).
Proof.
  intros t n Ht Hn. rewrite print_exact by (fold t n; lia). fold t n.
  pose proof (percent_range (t_length t) n n ltac:(lia) ltac:(lia) ltac:(lia)) as Hp. set (p := percent_of _ _ _) in *.
  destruct (bar_exact p) as [_ H]; [unfold in_range; lia|]. rewrite (H ltac:(lia)).
  rewrite Z.quot_div_nonneg by lia. eexists _, _. split; [reflexivity|]. split; [|reflexivity].
  rewrite app_length, !repeat_length. pose proof (Z.div_pos p 5 ltac:(lia) ltac:(lia)). pose proof (Z.div_le_upper_bound p 5 20 ltac:(lia) ltac:(lia)). lia.
Qed.
