(* When every piece has arrived, for the whole process: C124.                  *)
From Verif Require Import Base ProofBase Sha1 ModelBencode SpecBencode SpecPath ModelMsg ModelStats ModelTorrent ModelConn ModelPeer ModelSystem ModelTracker ModelManager ModelClient ModelCmd ModelProgram
  SpecMsg SpecPeer SpecTorrent SpecFinish SpecCmd SpecManager SpecClient SpecCrash SpecOrigin SpecProgram SpecArrive ProofWrite ProofWitness ProofCmd ProofClient4 ProofClient5 ProofProgram ProofProgram2 ProofArrive.

Lemma prog_complete cf look o f flags out file order d M w ps N l p tr l2 p' tr' :
  o_file o file = Some d -> SpecBencode.fits d -> torrent_doc d M w -> out <> [] -> torrent_places (o_cwd o) out M ps ->
  NoDup ps -> Forall (fun n => 0 <= n < 2 ^ 63) (file_lengths M) -> 0 < mi_piece_length M < 2 ^ 30 -> pieces_of M N -> Forall sends_bytes (l ++ l2) ->
  prog_run cf l (prog_start cf look o f flags (CDownload out file) [] order) = (p, tr) -> prog_run cf l2 p = (p', tr') ->
  in_place (cf_sha1 cf) M (tr ++ tr') -> no_collision (cf_sha1 cf) (tr ++ tr') ->
  (forall i, 0 <= i < N -> arrived M tr i) -> (4 * puts tr <= turns l2)%nat -> prog_status p' = None ->
  complete (cf_sha1 cf) M (prog_fs p') ps N.
Proof.
  intros Hd Hf HT Ho HP HND HL HPL HN HB HR HR2 HI HC HA HTn HS.
  destruct (prog_start cf look o f flags (CDownload out file) [] order) as [s f1|c0] eqn:ES; cbn in HR.
  { inversion HR; subst. cbn in HR2. inversion HR2; subst. discriminate. }
  destruct (crun cf l c0) as [c1 e1] eqn:E1. inversion HR; subst. cbn in HR2. destruct (crun cf l2 c1) as [c2 e2] eqn:E2. inversion HR2; subst.
  destruct (download_started _ _ _ _ _ _ _ _ _ _ _ _ _ ES Hd Hf HT) as (f1 & t & HNw & ->).
  pose proof (places_of _ _ _ _ _ _ _ _ _ _ HNw Ho HP) as EP. subst ps.
  exact (complete_client _ _ _ _ _ _ _ _ _ _ _ _ _ _ _ _ _ _ HNw HND HL HPL HN HB E1 E2 HI HC HA HTn HS).
Qed.

(* ---------- a piece stored over another ---------- *)
Definition px_part (i off : Z) (d : bytes) : list cact := [KPeer 0 (rd (piece_body i off d)); KPeer 0 go; KPeer 0 go; KWriter; KWriter; KWriter; KWriter].
Definition px_begin : list cact := [KMain; KTrk 0 px_well; KTrk 0 px_well] ++ announce1 ++ repeat (KTrk 0 px_well) 5 ++ repeat (KPeer 0 go) 6.
Definition px_over : list cact := px_begin ++ px_part 1 0 [5; 6; 7; 8] ++ px_part 0 4 [1; 2; 3; 4] ++ repeat (KPeer 0 go) 5 ++ px_part 0 0 [1; 2; 3; 4].
Definition reads (tr : list cev) : list bytes := flat_map (fun e => match e with VSys _ (EReadOk b) => [b] | _ => [] end) tr.
Definition put_msgs (tr : list cev) : list msg := flat_map (fun e => match e with VSys _ (EPut m) => [m] | _ => [] end) tr.
Lemma read_in tr i off d : read_piece tr i off d -> In (piece_bytes i off d) (reads tr).
Proof. intros (k & H). unfold reads. apply in_flat_map. eexists. split; [exact H|now left]. Qed.
Lemma put_in tr m : In m (put_msgs tr) -> exists k, In (VSys k (EPut m)) tr.
Proof.
  intros H. apply in_flat_map in H. destruct H as (e & H1 & H2). destruct e as [k e| | | |]; try destruct H2. destruct e; try destruct H2. subst. eauto. destruct H.
Qed.
Definition px_msg (i off : Z) (d : bytes) : msg := match NewPeerMessage (piece_bytes i off d) with Ok m => m | _ => KeepalivePeerMessage end.
Lemma px_over_facts : let '(p, tr) := prog_run (cx_conf sha1) px_over (px_prog (fun _ => None)) in let '(p', tr') := prog_run (cx_conf sha1) (repeat KWriter 12) p in
  prog_status p' = None /\ prog_fs p' px_place = Some [1; 2; 3; 4; 1; 2; 3; 4] /\
  reads (tr ++ tr') = [piece_bytes 1 0 [5; 6; 7; 8]; piece_bytes 0 4 [1; 2; 3; 4]; piece_bytes 0 0 [1; 2; 3; 4]] /\ puts tr = 3%nat /\
  put_msgs tr = [px_msg 1 0 [5; 6; 7; 8]; px_msg 0 4 [1; 2; 3; 4]; px_msg 0 0 [1; 2; 3; 4]].
Proof. vm_compute. repeat split; reflexivity. Qed.
Lemma skip_body i off d : skipn 9 (piece_bytes i off d) = d.
Proof. reflexivity. Qed.
Lemma px_pieces : pieces_of px_M 2.
Proof. split; [lia|]. split; [vm_compute; split; [reflexivity|discriminate]|]. vm_compute. reflexivity. Qed.
Lemma px_hashes : sha1 [1; 2; 3; 4] <> sha1 [5; 6; 7; 8].
Proof. vm_compute. discriminate. Qed.
(* data of pieces read, if all of these *)
Lemma px_no_collision tr : Forall (fun b => skipn 9 b = [1; 2; 3; 4] \/ skipn 9 b = [5; 6; 7; 8]) (reads tr) -> no_collision sha1 tr.
Proof.
  intros H i off d i' off' d' H1 H2 E. rewrite Forall_forall in H. apply read_in, H in H1. apply read_in, H in H2. rewrite skip_body in H1, H2.
  pose proof px_hashes. destruct H1 as [->| ->], H2 as [->| ->]; congruence.
Qed.
Lemma px_arrived tr l : put_msgs tr = l -> forall i d m, NewPeerMessage (piece_bytes i 0 d) = Ok m -> In m l -> zlen d = piece_size px_M i -> arrived px_M tr i.
Proof. intros <- i d m HM HI HZ. exists d. split; [|exact HZ]. destruct (put_in _ _ HI) as (k & HK). exists k, m. auto. Qed.
Ltac is_bytes := intros b H; vm_compute in H; inversion H; subst; unfold is_byte; repeat (apply Forall_cons; [lia|]); apply Forall_nil.
Lemma px_over_bytes : Forall sends_bytes (px_over ++ repeat KWriter 12).
Proof.
  unfold px_over, px_begin, px_part, announce1. cbn [repeat app]. repeat (apply Forall_cons; [first [exact I|vm_compute; discriminate|is_bytes]|]). apply Forall_nil.
Qed.
Lemma px_wrong f : f px_place = Some [1; 2; 3; 4; 1; 2; 3; 4] -> sha1 (piece_of (stored f [px_place] (file_lengths px_M)) 4 1) <> hash_of (mi_pieces px_M) 1.
Proof.
  intros H. assert (E : stored f [px_place] (file_lengths px_M) = [1; 2; 3; 4; 1; 2; 3; 4]) by (unfold stored, read_file; rewrite H; reflexivity).
  rewrite E. vm_compute. discriminate.
Qed.
Lemma complete_refuted :
  ~ (forall cf look o f flags out file order d M w ps N l p tr l2 p' tr',
       o_file o file = Some d -> SpecBencode.fits d -> torrent_doc d M w -> out <> [] -> torrent_places (o_cwd o) out M ps ->
       NoDup ps -> Forall (fun n => 0 <= n < 2 ^ 63) (file_lengths M) -> 0 < mi_piece_length M < 2 ^ 30 -> pieces_of M N -> Forall sends_bytes (l ++ l2) ->
       prog_run cf l (prog_start cf look o f flags (CDownload out file) [] order) = (p, tr) -> prog_run cf l2 p = (p', tr') ->
       no_collision (cf_sha1 cf) (tr ++ tr') ->
       (forall i, 0 <= i < N -> arrived M tr i) -> (4 * puts tr <= turns l2)%nat -> prog_status p' = None ->
       complete (cf_sha1 cf) M (prog_fs p') ps N).
Proof.
  intros H. pose proof px_over_facts as F. destruct (prog_run (cx_conf sha1) px_over (px_prog (fun _ => None))) as [p tr] eqn:E.
  destruct (prog_run (cx_conf sha1) (repeat KWriter 12) p) as [p' tr'] eqn:E'. destruct F as (F1 & F2 & F3 & F4 & F5).
  assert (X : complete sha1 px_M (prog_fs p') [px_place] 2).
  { refine (H (cx_conf sha1) _ _ _ _ _ _ _ _ px_M _ [px_place] 2 px_over p tr (repeat KWriter 12) p' tr' px_file px_fits px_torrent px_out px_places _ _ _ _ _ E E' _ _ _ _).
    - apply NoDup_cons; [intros []|apply NoDup_nil].
    - apply Forall_cons; [cbn; lia|apply Forall_nil].
    - cbn. lia.
    - exact px_pieces.
    - exact px_over_bytes.
    - apply px_no_collision. rewrite F3. repeat apply Forall_cons; [right; reflexivity|left; reflexivity|left; reflexivity|apply Forall_nil].
    - intros i Hi. assert (D : i = 0 \/ i = 1) by lia. destruct D as [->| ->].
      + exact (px_arrived _ _ F5 0 [1; 2; 3; 4] (px_msg 0 0 [1; 2; 3; 4]) eq_refl (or_intror (or_intror (or_introl eq_refl))) eq_refl).
      + exact (px_arrived _ _ F5 1 [5; 6; 7; 8] (px_msg 1 0 [5; 6; 7; 8]) eq_refl (or_introl eq_refl) eq_refl).
    - rewrite F4. vm_compute. lia.
    - exact F1. }
  specialize (X 1 ltac:(lia)). apply (px_wrong (prog_fs p') F2). exact X.
Qed.
