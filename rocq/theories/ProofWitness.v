(* Counterexamples about peers: concrete downloads, for every hash function.   *)
From Verif Require Import Base ProofBase SpecPath ModelPath ModelBitset ModelMsg ModelTorrent ModelConn ModelPeer ModelSystem
  SpecMsg SpecPeer SpecTorrent ProofTorrent ProofSystem ProofRequests ProofProgress ProofMsg ProofWrite ProofDisk ProofNew ProofPeer ProofPeer2 ProofVerified.

Definition go : inp := mkI false true None true.
Definition rd (b : bytes) : inp := mkI false true (Some b) true.
(* from the start of Run of a new peer to the read in unchoke *)
Definition to_read (k : nat) : list action := repeat (APeer k go) 6.
Definition piece_body (i o : Z) (d : bytes) : bytes := 7 :: be_put 4 i ++ be_put 4 o ++ d.

(* two pieces of four bytes in one file *)
Definition wx_mi (sha1 : bytes -> bytes) : metainfo :=
  mkMetainfo [] [] [] [mkTfile 8 [str "a"]] 0 (str "n") 4 (sha1 [1; 2; 3; 4] ++ sha1 [5; 6; 7; 8]).
Definition wx_place : place := [str "o"; str "n"; str "a"].
Definition wx_fs : fs := fst (New [] (fun _ => true) false (fun _ => None) (wx_mi (fun _ => repeat 0 20)) [] (str "/o")).
Definition wx_t (sha1 : bytes -> bytes) : torrent :=
  mkTorrent [[]] [] 8 4 [mkPiece 0 (sha1 [1; 2; 3; 4]); mkPiece 1 (sha1 [5; 6; 7; 8])] 2 [mkTfile 8 [str "a"]] [wx_place] (str "n") true
    0 [false; false] [false; false].
Lemma wx_new sha1 : (forall x, length (sha1 x) = 20%nat) ->
  New [] (fun _ => true) false (fun _ => None) (wx_mi sha1) [] (str "/o") = (wx_fs, Ok (wx_t sha1)).
Proof.
  intros H. unfold wx_mi, wx_t. pose proof (H [1; 2; 3; 4]) as H1. pose proof (H [5; 6; 7; 8]) as H2.
  destruct (sha1 [1; 2; 3; 4]) as [|a0 h]; [discriminate|]. do 19 (destruct h as [|? h]; [discriminate|]). destruct h; [|discriminate].
  destruct (sha1 [5; 6; 7; 8]) as [|b0 h]; [discriminate|]. do 19 (destruct h as [|? h]; [discriminate|]). destruct h; [|discriminate].
  vm_compute. reflexivity.
Qed.

Definition wx_start (sha1 : bytes -> bytes) : world := start (mkW (wx_t sha1) wx_fs [] [] false).

(* a piece with the right hash, read by a choked peer, goes to the writer *)
Lemma read_good sha1 s r (u : bool) b m d p : r_pc r = (if u then PURead else PRead) -> NewPeerMessage b = Ok m -> m_type m = 7 ->
  data_of m = Ok d -> nthZ (t_pieces (sh_t s)) (m_index m) = Some p -> p_sha1 p = sha1 d ->
  pstep sha1 (rd b) s r = Some (s, at_pc r (PPut u m), [EReadOk b]).
Proof.
  intros H1 H2 H3 H4 H5 H6.
  assert (HB : handle_body sha1 (sh_t s) u r b = at_pc r (PPut u m)).
  { unfold handle_body. rewrite H2. unfold handlePeerMessage. rewrite H3. cbn [Z.eqb Pos.eqb KeepaliveT BitfieldT HaveT InterestedT NotInterestedT ChokeT UnchokeT PieceT].
    unfold handlePieceMessage, CheckPiece. rewrite H4, H5, H6. replace (beq (sha1 d) (sha1 d)) with true; [reflexivity|].
    symmetry. now apply beq_eq. }
  unfold pstep. rewrite H1. destruct u; cbn [rd i_read]; now rewrite HB.
Qed.

(* peer 0 gets the data of piece 0 under offset 4 and the writer stores it *)
Definition misplaced : list action :=
  ASpawn false 0 :: to_read 0 ++ [APeer 0 (rd (piece_body 0 4 [1; 2; 3; 4])); APeer 0 go; AWriter; AWriter].
Lemma misplaced_run sha1 : exists w tr, run sha1 misplaced (wx_start sha1) = (w, tr) /\
  handed tr = [mkMsg 13 7 (be_put 4 0 ++ be_put 4 4 ++ [1; 2; 3; 4]) 0 4 0] /\
  contents (w_fs (sh_w (wo_sh w))) wx_place = [0; 0; 0; 0; 1; 2; 3; 4].
Proof.
  unfold misplaced. 
  change (ASpawn false 0 :: to_read 0 ++ [APeer 0 (rd (piece_body 0 4 [1; 2; 3; 4])); APeer 0 go; AWriter; AWriter])
    with ((ASpawn false 0 :: to_read 0) ++ APeer 0 (rd (piece_body 0 4 [1; 2; 3; 4])) :: [APeer 0 go; AWriter; AWriter]).
  rewrite run_app. destruct (run sha1 (ASpawn false 0 :: to_read 0) (wx_start sha1)) as [w1 e1] eqn:E1.
  vm_compute in E1. inversion E1; subst w1 e1; clear E1.
  cbn [run]. unfold exec at 1. cbn [wo_peers nth_error wo_sh].
  match goal with |- context [crashed ?w] => change (crashed w) with false end. cbv iota.
  erewrite read_good with (u := true) (d := [1; 2; 3; 4]); [|reflexivity..].
  vm_compute. eexists _, _. split; [reflexivity|]. split; reflexivity.
Qed.

Lemma bytes_dec b : forallb (fun x => (0 <=? x) && (x <? 256)) b = true -> Forall is_byte b.
Proof. intros H. apply Forall_forall. intros x Hx. rewrite forallb_forall in H. specialize (H x Hx). unfold is_byte. lia. Qed.
Lemma own_place_refuted sha1 : (forall x, length (sha1 x) = 20%nat) ->
  ~ (forall cwd creat mk f0 mi hash dir f1 t l w tr,
       New cwd creat mk f0 mi hash dir = (f1, Ok t) -> mi_length mi = 0 -> NoDup (t_osfiles t) -> Forall reads_bytes l ->
       run sha1 l (start (mkW t f1 [] [] false)) = (w, tr) ->
       forall k p o q, nth_error (t_osfiles t) k = Some p -> located (map tf_length (mi_files mi)) q k o ->
         byte_at (contents (w_fs (sh_w (wo_sh w))) p) o = 0 \/
         exists m d, In m (handed tr) /\ verified sha1 t m /\ data_of m = Ok d /\
           m_index m * mi_piece_length mi <= q < m_index m * mi_piece_length mi + zlen d /\
           byte_at (contents (w_fs (sh_w (wo_sh w))) p) o = byte_at d (q - m_index m * mi_piece_length mi)).
Proof.
  intros H20 H. destruct (misplaced_run sha1) as (w & tr & HR & Hh & Hc).
  destruct (H _ _ _ _ _ _ _ _ _ misplaced w tr (wx_new sha1 H20)) with (k := 0%nat) (p := wx_place) (o := 5) (q := 5) as [E|(m & d & Hm & _ & Hd & Hq & _)].
  - reflexivity.
  - constructor; [intros []|constructor].
  - unfold misplaced, to_read. repeat constructor; cbn; try discriminate. intros b E. injection E as <-. apply bytes_dec. reflexivity.
  - exact HR.
  - reflexivity.
  - apply loc_here. vm_compute. split; [discriminate|reflexivity].
  - rewrite Hc in E. discriminate E.
  - rewrite Hh in Hm. destruct Hm as [<-|[]]. vm_compute in Hd. inversion Hd; subst. vm_compute in Hq. destruct Hq as [_ Hq]. discriminate Hq.
Qed.

(* ---------- C38 ---------- *)
Lemma asked_refuted sha1 :
  ~ (forall w0 l w tr k r, Forall (spawns (eq false)) l -> run sha1 l (start w0) = (w, tr) ->
       crashed w = false -> nth_error (wo_peers w) k = Some r -> r_pc r <> PRet -> s_choked (cl_status (r_peer r)) = false ->
       exists l2 w2 tr2, Forall (spawns (eq false)) l2 /\ run sha1 l2 w = (w2, tr2) /\ requested (events_of k tr2) <> []).
Proof.
  intros H. set (l := ASpawn false 0 :: to_read 0 ++ [APeer 0 (rd [1])]).
  assert (HL : Forall (spawns (eq false)) l) by (unfold l, to_read; repeat constructor).
  set (x := run sha1 l (wx_start (fun _ => []))).
  destruct (H (mkW (wx_t (fun _ => [])) wx_fs [] [] false) l (fst x) (snd x) 0%nat (nth 0 (wo_peers (fst x)) (fresh false (wx_t (fun _ => [])) 0)) HL)
    as (l2 & w2 & tr2 & HL2 & HR2 & Hreq);
    [apply surjective_pairing|reflexivity|reflexivity|discriminate|reflexivity|].
  set (tr := snd x) in *.
  assert (HR : run sha1 (l ++ l2) (wx_start (fun _ => [])) = (w2, tr ++ tr2)).
  { rewrite run_app. fold x. rewrite (surjective_pairing x), HR2. reflexivity. }
  destruct (local_inv sha1 (eq false) quiet) with (w0 := mkW (wx_t (fun _ => [])) wx_fs [] [] false) (l := l ++ l2) (w := w2) (tr := tr ++ tr2) as [HJ HI].
  - intros b t g <-. unfold quiet. cbn. repeat split; try discriminate; tauto.
  - intros; eapply quiet_step; eauto.
  - apply Forall_app. auto.
  - exact HR.
  - destruct (requested (events_of 0 tr2)) as [|m ms] eqn:Em; [now apply Hreq|].
    assert (Hi : In m (requested (events_of 0 tr2))) by (rewrite Em; now left).
    apply requested_in in Hi. destruct Hi as [Hi Ht].
    assert (Hi' : In (0%nat, ESent m) (tr ++ tr2)) by (apply in_app_iff; right; now apply in_events).
    assert (Hl := HI _ _ Hi'). destruct (nth_error (wo_peers w2) 0) as [r|] eqn:Er; [|apply nth_error_None in Er; lia].
    destruct (HJ 0%nat r Er) as (_ & _ & _ & Q & _).
    apply in_events in Hi'. destruct (Q m Hi') as [-> | ->]; discriminate Ht.
Qed.
Lemma never_asks sha1 w0 l w tr : Forall (spawns (eq false)) l -> run sha1 l (start w0) = (w, tr) ->
  (forall k m, In (k, ESent m) tr -> m = KeepalivePeerMessage \/ m = CreateInterestedMessage) /\
  (forall k m, ~ In (k, ECreate m) tr) /\ (forall k i h, ~ In (k, EClaim i h) tr).
Proof.
  intros HL HR.
  destruct (local_inv sha1 (eq false) quiet) with (w0 := w0) (l := l) (w := w) (tr := tr) as [HJ HI]; auto.
  - intros b t g <-. unfold quiet. cbn. repeat split; try discriminate; tauto.
  - intros; eapply quiet_step; eauto.
  - assert (X : forall k e, In (k, e) tr -> exists r, nth_error (wo_peers w) k = Some r /\ In e (events_of k tr)).
    { intros k e Hi. assert (Hl := HI _ _ Hi). destruct (nth_error (wo_peers w) k) as [r|] eqn:Er; [|apply nth_error_None in Er; lia].
      exists r. split; [reflexivity|]. now apply in_events. }
    split; [|split].
    + intros k m Hi. destruct (X _ _ Hi) as (r & Hr & He). destruct (HJ k r Hr) as (_ & _ & _ & Q & _). auto.
    + intros k m Hi. destruct (X _ _ Hi) as (r & Hr & He). destruct (HJ k r Hr) as (_ & _ & _ & _ & Q & _). eapply Q; eauto.
    + intros k i h Hi. destruct (X _ _ Hi) as (r & Hr & He). destruct (HJ k r Hr) as (_ & _ & _ & _ & _ & Q). eapply Q; eauto.
Qed.
Lemma only_signals sha1 w0 l w tr : Forall (spawns (eq false)) l -> run sha1 l (start w0) = (w, tr) ->
  (forall k m, In (k, ESent m) tr -> Send m = frame [] \/ Send m = frame [2]) /\
  (forall k m, ~ In (k, ECreate m) tr) /\ (forall k i h, ~ In (k, EClaim i h) tr).
Proof.
  intros HL HR. destruct (never_asks _ _ _ _ _ HL HR) as (H1 & H2). split; [|exact H2].
  intros k m Hi. destruct (H1 k m Hi) as [->| ->]; [left|right]; reflexivity.
Qed.
(* the code after the missing assignment works: an unchoked peer in which we are
   interested is asked in two steps *)
Lemma asks_if_interested sha1 i s r : r_pc r = PReq -> s_choked (cl_status (r_peer r)) = false ->
  s_interested (cl_status (r_peer r)) = true -> r_sent r = false -> pr_block (r_peer r) < pr_bnum (r_peer r) ->
  exists r1 m, pstep sha1 i s r = Some (s, r1, [ECreate m]) /\
    m = CreatePieceMessage (u32 (pr_piece (r_peer r))) (u32 (u64 (pr_block (r_peer r) * 131072))) 131072 /\
    forall j, i_ok j = true -> exists r2, pstep sha1 j s r1 = Some (s, r2, [ESent m]) /\ r_sent r2 = true.
Proof.
  intros H1 H2 H3 H4 H5. unfold pstep at 1. rewrite H1, H2, H3, H4. cbn [negb andb].
  replace (pr_bnum (r_peer r) <=? pr_block (r_peer r)) with false by lia.
  unfold create, createPieceMessage. eexists _, _. split; [reflexivity|]. split; [reflexivity|].
  intros j Hj. unfold pstep. cbn [r_pc r_req]. rewrite Hj. eexists. split; reflexivity.
Qed.

(* ---------- C39 ---------- *)
Lemma one_outstanding sha1 w0 l w tr k a b c m1 m2 : run sha1 l (start w0) = (w, tr) ->
  events_of k tr = a ++ ESent m1 :: b ++ ESent m2 :: c -> is_request m1 -> is_request m2 -> In EReadErr b.
Proof.
  intros HR E T1 T2.
  destruct (local_inv sha1 (fun _ => True) mon_ok) with (w0 := w0) (l := l) (w := w) (tr := tr) as [HJ HI]; auto.
  - intros b' t g _. exists false. split; [reflexivity|]. split; [discriminate|]. intros [?|?]; discriminate.
  - intros; eapply mon_step; eauto.
  - apply any_spawn.
  - assert (Hi : In (k, ESent m1) tr) by (apply in_events; rewrite E; apply in_app_iff; right; now left).
    assert (Hl := HI _ _ Hi). destruct (nth_error (wo_peers w) k) as [r|] eqn:Er; [|apply nth_error_None in Er; lia].
    destruct (HJ k r Er) as (o & Ho & _). eapply mon_spaced; eauto.
Qed.

(* ---------- C43 ---------- *)
Lemma upd_self {A} (l : list A) k x : nth_error l k = Some x -> upd l k x = l.
Proof. revert k. induction l as [|y l IH]; intros [|k] H; cbn in *; try discriminate; [now inversion H|]. now rewrite IH. Qed.
Lemma upd_upd {A} (l : list A) k x y : upd (upd l k x) k y = upd l k y.
Proof. revert k. induction l as [|z l IH]; intros [|k]; cbn; try reflexivity. now rewrite IH. Qed.
Definition unchoke_round (k : nat) : list action := repeat (APeer k go) 4.
Lemma unchoke_round_run sha1 w k r : crashed w = false -> sh_cancel (wo_sh w) = false -> nth_error (wo_peers w) k = Some r -> r_pc r = PUTop ->
  run sha1 (unchoke_round k) w = (w, [(k, ESent CreateInterestedMessage); (k, EReadErr)]).
Proof.
  intros Hc Hn Hk Hp.
  destruct w as [s ps mn tk hd]. cbn [wo_peers wo_sh] in *.
  assert (E : forall c ps' e c', nth_error ps' k = Some (at_pc r c) -> existsb panicked ps' = false -> w_panic (sh_w s) = false ->
     pstep sha1 go s (at_pc r c) = Some (s, at_pc r c', e) ->
     exec sha1 (APeer k go) (mkWorld s ps' mn tk hd) = (mkWorld s (upd ps' k (at_pc r c')) mn tk hd, map (pair k) e)).
  { intros c ps' e c' H1 H2 H3 H4. unfold exec, crashed. cbn [wo_peers wo_sh]. rewrite H2, H3. cbn [orb]. rewrite H1, H4. reflexivity. }
  unfold crashed in Hc. apply orb_false_iff in Hc. destruct Hc as [Hc1 Hc2]. cbn [wo_peers wo_sh] in *.
  assert (P : forall c ps', existsb panicked ps' = false -> panicked (at_pc r c) = false -> existsb panicked (upd ps' k (at_pc r c)) = false).
  { clear. intros c ps'. revert k. induction ps' as [|x ps' IH]; intros k H1 H2; [reflexivity|]. cbn in H1. apply orb_false_iff in H1. destruct H1 as [H1 H3].
    destruct k; cbn; apply orb_false_iff; auto. }
  assert (R0 : at_pc r PUTop = r) by (destruct r; cbn in *; now subst).
  assert (N : forall (ps' : list rstate) x, nth_error ps' k <> None -> nth_error (upd ps' k x) k = Some x).
  { clear. intros ps' x. revert k. induction ps' as [|y ps' IH]; intros [|k] H; cbn in *; try congruence. auto. }
  assert (N' : forall (ps' : list rstate) x, nth_error ps' k <> None -> nth_error (upd ps' k x) k <> None) by (intros; rewrite N by assumption; discriminate).
  unfold unchoke_round. cbn [repeat run].
  rewrite (E PUTop ps [] PUSend); [|rewrite R0; exact Hk|assumption|assumption|unfold pstep; cbn; rewrite Hn; reflexivity].
  rewrite (E PUSend _ [ESent CreateInterestedMessage] PURead); [|apply N; repeat apply N'; congruence|apply P; auto|assumption|reflexivity].
  rewrite (E PURead _ [EReadErr] PUWait); [|apply N; repeat apply N'; congruence|repeat apply P; auto|assumption|reflexivity].
  rewrite (E PUWait _ [] PUTop); [|apply N; repeat apply N'; congruence|repeat apply P; auto|assumption|reflexivity].
  rewrite !upd_upd, R0, upd_self by exact Hk. reflexivity.
Qed.
Lemma unchoke_forever sha1 w k r n : crashed w = false -> sh_cancel (wo_sh w) = false -> nth_error (wo_peers w) k = Some r -> r_pc r = PUTop ->
  run sha1 (concat (repeat (unchoke_round k) n)) w = (w, concat (repeat [(k, ESent CreateInterestedMessage); (k, EReadErr)] n)).
Proof.
  intros H1 H2 H3 H4. induction n as [|n IH]; [reflexivity|]. cbn [repeat concat]. rewrite run_app, (unchoke_round_run _ _ _ _ H1 H2 H3 H4), IH. reflexivity.
Qed.

(* peer 0 waits in unchoke while peer 1 delivers both pieces *)
Definition both_pieces : list action :=
  (ASpawn false 0 :: repeat (APeer 0 go) 4 ++ ASpawn false 0 :: to_read 1) ++
  APeer 1 (rd (piece_body 0 0 [1; 2; 3; 4])) :: [APeer 1 go; APeer 1 go] ++
  APeer 1 (rd (piece_body 1 0 [5; 6; 7; 8])) :: [APeer 1 go; AWriter; AWriter; AWriter; AWriter].
Lemma both_pieces_run sha1 : exists w tr r, run sha1 both_pieces (wx_start sha1) = (w, tr) /\
  crashed w = false /\ sh_cancel (wo_sh w) = false /\ Done (sh_t (wo_sh w)) = true /\
  nth_error (wo_peers w) 0 = Some r /\ r_pc r = PUTop.
Proof.
  unfold both_pieces. rewrite run_app.
  destruct (run sha1 (ASpawn false 0 :: repeat (APeer 0 go) 4 ++ ASpawn false 0 :: to_read 1) (wx_start sha1)) as [w1 e1] eqn:E1.
  vm_compute in E1. inversion E1; subst w1 e1; clear E1.
  cbn [run]. unfold exec at 1. cbn [wo_peers nth_error wo_sh].
  match goal with |- context [crashed ?w] => change (crashed w) with false end. cbv iota.
  erewrite read_good with (u := true) (d := [1; 2; 3; 4]); [|reflexivity..].
  cbv beta iota. rewrite run_app.
  match goal with |- context [run sha1 [APeer 1 go; APeer 1 go] ?w] => destruct (run sha1 [APeer 1 go; APeer 1 go] w) as [w2 e2] eqn:E2 end.
  vm_compute in E2. inversion E2; subst w2 e2; clear E2.
  cbn [run]. unfold exec at 1. cbn [wo_peers nth_error wo_sh].
  match goal with |- context [crashed ?w] => change (crashed w) with false end. cbv iota.
  erewrite read_good with (u := false) (d := [5; 6; 7; 8]); [|reflexivity..].
  vm_compute. eexists _, _, _. repeat split; reflexivity.
Qed.
Lemma done_goes_on_refuted sha1 :
  ~ (exists bound, forall w0 l w tr l2 w2 tr2 k r, run sha1 l (start w0) = (w, tr) -> crashed w = false -> Done (sh_t (wo_sh w)) = true ->
       nth_error (wo_peers w) k = Some r -> run sha1 l2 w = (w2, tr2) -> zlen (events_of k tr2) <= bound).
Proof.
  intros [N H]. destruct (both_pieces_run sha1) as (w & tr & r & H1 & H2 & H3 & H4 & H5 & H6).
  pose proof (unchoke_forever sha1 w 0 r (S (Z.to_nat N)) H2 H3 H5 H6) as HF.
  specialize (H _ _ _ _ _ _ _ 0%nat r H1 H2 H4 H5 HF).
  assert (E : forall n, zlen (events_of 0 (concat (repeat [(0%nat, ESent CreateInterestedMessage); (0%nat, EReadErr)] n))) = 2 * Z.of_nat n).
  { induction n as [|n IH]; [reflexivity|]. cbn [repeat concat]. rewrite events_app, zlen_app, IH.
    change (zlen (events_of 0 [(0%nat, ESent CreateInterestedMessage); (0%nat, EReadErr)])) with 2. lia. }
  rewrite E in H. lia.
Qed.

(* ---------- torrents without files, for the requests ---------- *)
Definition px_t (plen n : Z) : torrent :=
  mkTorrent [[]] [] (plen * n) plen (map (fun i => mkPiece (Z.of_nat i) []) (seq 0 (Z.to_nat n))) n [] [] [] true 0
    (repeat false (Z.to_nat n)) (repeat false (Z.to_nat n)).
Definition px (plen n : Z) : wstate := mkW (px_t plen n) (fun _ => None) [] [] false.

(* C41 *)
Definition ask_zero : list action := ASpawn true 0 :: to_read 0 ++ [APeer 0 (rd [1]); APeer 0 go; APeer 0 go].
Lemma request_unknown sha1 :
  ~ (forall w0 l w tr k a m c, run sha1 l (start w0) = (w, tr) -> events_of k tr = a ++ ESent m :: c -> is_request m ->
       known a (m_index m)) /\
  ~ (forall w0 l w tr k m, run sha1 l (start w0) = (w, tr) -> In (k, ESent m) tr -> is_request m -> In (m_index m) (reserved tr)).
Proof.
  split; intros H.
  - destruct (run sha1 ask_zero (start (px 131072 2))) as [w tr] eqn:E.
    specialize (H _ _ _ _ 0%nat [ESent CreateInterestedMessage; EReadOk [1]; ECreate (CreatePieceMessage 0 0 131072)] (CreatePieceMessage 0 0 131072) [] E).
    vm_compute in E. inversion E; subst. destruct (H eq_refl eq_refl) as (e1 & e & e2 & E1 & A & _).
    assert (Hi : In e [ESent CreateInterestedMessage; EReadOk [1]; ECreate (CreatePieceMessage 0 0 131072)])
      by (rewrite E1; apply in_app_iff; right; now left).
    destruct Hi as [<-|[<-|[<-|[]]]]; cbn in A; try contradiction. destruct A as [(A & _)|(A & _)]; discriminate.
  - destruct (run sha1 ask_zero (start (px 131072 2))) as [w tr] eqn:E.
    specialize (H _ _ _ _ 0%nat (CreatePieceMessage 0 0 131072) E).
    vm_compute in E. inversion E; subst. apply H; [|reflexivity]. vm_compute. auto.
Qed.

(* C42 *)
Definition ask_small : list action :=
  ASpawn true 0 :: to_read 0 ++ [APeer 0 (rd [4; 0; 0; 0; 0]); APeer 0 go; APeer 0 (rd [1])] ++ repeat (APeer 0 go) 7.
Lemma claimed_not_covered sha1 :
  ~ (forall w0 l w tr k r c x, 0 < t_plen (w_t w0) < 2 ^ 32 -> run sha1 l (start w0) = (w, tr) -> nth_error (wo_peers w) k = Some r ->
       pr_bnum (r_peer r) <= pr_block (r_peer r) -> claimed (events_of k tr) = c ++ [x] ->
       covers (t_plen (w_t w0)) (filter (fun m => m_index m =? x) (created (events_of k tr)))).
Proof.
  intros H. set (z := run sha1 ask_small (start (px 16384 2))).
  assert (HC : covers 16384 (filter (fun m => m_index m =? 0) (created (events_of 0 (snd z))))).
  { apply (H (px 16384 2) ask_small (fst z) (snd z) 0%nat (nth 0 (wo_peers (fst z)) (fresh true (px_t 1 1) 0)) [] 0).
    - cbn. lia.
    - apply surjective_pairing.
    - reflexivity.
    - vm_compute. discriminate.
    - reflexivity. }
  specialize (HC 20000). destruct HC as [_ HC].
  assert (0 <= 20000 < 16384); [|lia]. apply HC. exists (CreatePieceMessage 0 0 131072). split.
  - vm_compute. now left.
  - cbn. lia.
Qed.
Lemma claimed_never_covered sha1 w0 l w tr k r x c : 0 <= t_plen (w_t w0) < 2 ^ 32 -> run sha1 l (start w0) = (w, tr) ->
  nth_error (wo_peers w) k = Some r -> claimed (events_of k tr) = x :: c ->
  t_plen (w_t w0) < 131072 /\ created (events_of k tr) = flat_map (fun i => blocks (u32 i) 1) (x :: c) /\
  forall i, ~ covers (t_plen (w_t w0)) (blocks (u32 i) 1).
Proof.
  intros HP HR Hk Hc.
  assert (U : u64 (t_plen (w_t w0)) = t_plen (w_t w0)) by (unfold u64; rewrite Z.mod_small; lia).
  assert (L : t_plen (w_t w0) < 131072).
  { destruct (Z_lt_ge_dec (t_plen (w_t w0)) 131072) as [|G]; [assumption|exfalso].
    destruct (only_piece_zero sha1 w0 l w tr ltac:(lia) HR) as [_ N].
    assert (Hi : In x (claimed (events_of k tr))) by (rewrite Hc; now left).
    assert (Hi' : exists h, In (EClaim x h) (events_of k tr)).
    { clear -Hi. induction (events_of k tr) as [|e es IH]; [destruct Hi|]. destruct e; cbn in Hi;
        try (destruct (IH Hi) as [h0 ?]; exists h0; now right). destruct Hi as [-> |Hi]; [eexists; now left|]. destruct (IH Hi) as [h0 ?]. exists h0. now right. }
    destruct Hi' as [h Hi']. apply in_events in Hi'. eapply N; eauto. }
  split; [exact L|].
  assert (B : t_plen (w_t w0) / 131072 = 0) by (apply Z.div_small; lia).
  split.
  - destruct (created_exact _ _ _ _ _ _ _ HP HR Hk) as [_ C]. rewrite B in C.
    destruct (exists_last (l := x :: c) ltac:(discriminate)) as (c' & y & E). rewrite E in *.
    destruct (C _ _ Hc) as (n & Hn & ->). replace n with 1 by lia. rewrite flat_map_app. cbn. reflexivity.
  - intros i HC. apply blocks_cover in HC; lia.
Qed.

(* C40 *)
Lemma not_all_requested sha1 :
  ~ (forall w0, 0 < zlen (t_pieces (w_t w0)) -> exists l w tr, run sha1 l (start w0) = (w, tr) /\
       forall i, 0 <= i < zlen (t_pieces (w_t w0)) -> exists k m, In (k, ESent m) tr /\ is_request m /\ m_index m = i).
Proof.
  intros H. destruct (H (px 131072 2)) as (l & w & tr & HR & HA); [reflexivity|].
  destruct (HA 1) as (k & m & Hi & Hm & E); [vm_compute; split; [discriminate|reflexivity]|].
  assert (HP : 131072 <= u64 (t_plen (w_t (px 131072 2)))) by (vm_compute; discriminate). destruct (only_piece_zero sha1 _ _ _ _ HP HR) as [Z0 _].
  rewrite (Z0 k m Hi Hm) in E. discriminate E.
Qed.

(* C43 *)
Lemma cancelled_peer sha1 l w k r w' tr : sh_cancel (wo_sh w) = true -> nth_error (wo_peers w) k = Some r -> run sha1 l w = (w', tr) ->
  moves sha1 k l w <= 9 /\ zlen (requested (events_of k tr)) <= 1 /\
  exists r', nth_error (wo_peers w') k = Some r' /\
    forall i, pstep sha1 i (wo_sh w') r' = None ->
      r_pc r' = PRet \/ r_pc r' = PPanic \/ exists u m, r_pc r' = PPut u m /\ sh_closed (wo_sh w') = false /\ 1024 <= zlen (sh_ch (wo_sh w')).
Proof.
  intros HC Hk HR. destruct (stops_bound _ _ _ _ _ _ _ HC Hk HR) as [A B]. split; [exact A|]. split; [exact B|].
  destruct (stops_soon _ _ _ _ _ _ _ HC Hk HR) as (r' & E & _). exists r'. split; [exact E|]. intros i Hi.
  apply (free_unless_full sha1 i); [|exact Hi].
  clear -HC HR. revert w HC w' tr HR. induction l as [|a l IH]; intros w HC w' tr HR; cbn in HR; [inversion HR; subst; exact HC|].
  destruct (exec sha1 a w) as [w1 e1] eqn:E1. destruct (run sha1 l w1) as [w2 e2] eqn:E2. inversion HR; subst.
  eapply IH; [|exact E2]. eapply cancel_kept; eauto.
Qed.
Definition ask_cancelled : list action := ASpawn true 0 :: to_read 0 ++ [APeer 0 (rd [1]); APeer 0 go].
Lemma asks_after_cancel sha1 :
  ~ (forall w0 l w tr l2 w2 tr2 k, run sha1 l (start w0) = (w, tr) -> sh_cancel (wo_sh w) = true -> run sha1 l2 w = (w2, tr2) ->
       requested (events_of k tr2) = []).
Proof.
  intros H. set (z := run sha1 (ask_cancelled ++ [ACancel]) (start (px 131072 2))). set (z2 := run sha1 [APeer 0 go] (fst z)).
  specialize (H (px 131072 2) _ (fst z) (snd z) [APeer 0 go] (fst z2) (snd z2) 0%nat (surjective_pairing _) eq_refl (surjective_pairing _)).
  vm_compute in H. discriminate H.
Qed.
