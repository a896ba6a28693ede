(* The whole process: C119, C120.                                              *)
From Coq Require Import Permutation.
From Verif Require Import Base ProofBase ModelBencode SpecBencode ProofBencode ProofBencodeGrammar ProofBencodeMore ModelUnmarshal SpecUnmarshal ProofUnmarshal ProofUnmarshalMore SpecPath ModelPath ProofPath ModelStats ModelTorrent ModelConn ModelPeer ModelSystem ModelTracker ModelManager ModelClient ModelCmd ModelProgram
  SpecMsg SpecPeer SpecTorrent SpecFinish SpecText SpecCmd SpecManager SpecClient SpecCrash SpecOrigin SpecProgram
  ProofTorrent ProofWrite ProofNew ProofCmd ProofClient ProofClient2 ProofClient3 ProofClient7 ProofOrigin.

(* ---------- what a document says is unique ---------- *)
Lemma value_fun m k v v' : value_of m k v -> value_of m k v' -> v = v'.
Proof. intros [H _] [H' _]. congruence. Qed.
Definition functional {A} (P : ben -> A -> Prop) : Prop := forall v x y, P v x -> P v y -> x = y.
Lemma list_fun {A} (P : ben -> A -> Prop) : functional P -> functional (as_list P).
Proof.
  intros HP v x y (vs & raw & -> & H) (vs' & raw' & E & H'). inversion E; subst vs' raw'. clear E. revert y H'.
  induction H as [|v x vs l Hv H IH]; intros y H'; inversion H'; subst; [reflexivity|]. f_equal; eauto.
Qed.
Lemma text_fun : functional as_text. Proof. intros v x y [_ ->] [_ ->]. reflexivity. Qed.
Lemma number_fun : functional as_number. Proof. intros v x y [H _] [H' _]. eapply int_literal_fun; eassumption. Qed.
Lemma file_fun : functional as_file.
Proof.
  intros v [n p] [n' p'] (m & raw & vp & vn & E & H1 & H2 & H3 & H4) (m' & raw' & vp' & vn' & E' & H1' & H2' & H3' & H4'). subst v. inversion E'; subst m' raw'.
  pose proof (value_fun _ _ _ _ H1 H1'). pose proof (value_fun _ _ _ _ H3 H3'). subst vp' vn'. cbn in *.
  f_equal; [exact (number_fun _ _ _ H4 H4')|exact (list_fun _ text_fun _ _ _ H2 H2')].
Qed.
Lemma req_fun {A} m k (P : ben -> A -> Prop) x y : functional P -> required m k P x -> required m k P y -> x = y.
Proof. intros HP (v & H & K) (v' & H' & K'). pose proof (value_fun _ _ _ _ H H'). subst v'. exact (HP _ _ _ K K'). Qed.
Lemma opt_fun {A} m k (P : ben -> A -> Prop) d x y : functional P -> optional m k P d x -> optional m k P d y -> x = y.
Proof.
  intros HP [[Ha ->]|H] [[Ha' ->]|H']; [reflexivity| | |exact (req_fun _ _ _ _ _ HP H H')].
  - destruct H' as (v & [H1 H2] & _). exfalso. unfold absent in Ha. rewrite H1 in Ha. intuition congruence.
  - destruct H as (v & [H1 H2] & _). exfalso. unfold absent in Ha'. rewrite H1 in Ha'. intuition congruence.
Qed.
Lemma says_fun m M M' : says m M -> says m M' -> M = M'.
Proof.
  intros (i & r & I & A1 & A2 & A3 & A4 & A5 & A6 & A7 & A8) (i' & r' & I' & B1 & B2 & B3 & B4 & B5 & B6 & B7 & B8).
  pose proof (value_fun _ _ _ _ I I') as E. inversion E; subst i' r'. destruct M, M'; cbn in *.
  f_equal; eauto using req_fun, opt_fun, list_fun, text_fun, number_fun, file_fun.
Qed.

(* ---------- the torrent downloaded ---------- *)
Lemma doc_started sha1 o f out file f' t d M w : runDownload sha1 o f out file = (f', DStart t) -> o_file o file = Some d -> SpecBencode.fits d -> torrent_doc d M w ->
  New (o_cwd o) (o_creat o) (o_mkdir_missing o) f M (sha1 w) out = (f', Ok t).
Proof.
  intros HS Hd Hf (m & raw & post & info & E & HW & HM & HI).
  destruct (started _ _ _ _ _ _ _ HS) as (d' & g & m' & raw' & M' & _ & Hd' & HU & HP & HM' & HN); [intros x Hx; congruence|].
  assert (d' = d) by congruence. subst d'.
  assert (HP' : Parse d = Ok (BDict true m raw)) by (apply parse_iff; [exact Hf|]; exists raw, post; auto).
  assert (X : m' = m /\ raw' = raw) by (split; congruence). destruct X as [-> ->].
  rewrite (says_fun _ _ _ HM HM'). destruct (metainfo_raw d g m raw Hf HU HP') as (im & iraw & Hl & Hr).
  assert (EW : InfoDictRaw g = w). { destruct HI as [HI _]. rewrite Hl in HI. congruence. }
  unfold Hash in HN. rewrite EW in HN. exact HN.
Qed.
Lemma places_of cwd creat mk f M hash out f' t ps : New cwd creat mk f M hash out = (f', Ok t) -> out <> [] -> torrent_places cwd out M ps -> ps = t_osfiles t.
Proof.
  intros HN Ho (base & nc & Hr & Hc & HP). pose proof (places_exact _ _ _ _ _ _ _ _ _ HN base nc Ho Hr Hc) as H.
  destruct (mi_length M =? 0); [|congruence]. clear - H HP. revert ps HP.
  induction H as [|x p l l' (c & cs & E1 & E2 & E3) H IH]; intros ps HP; inversion HP as [|? ? ? ? (c' & cs' & E1' & E2' & E3') H']; subst; [reflexivity|].
  assert (c' = c) by congruence. subst c'. apply comp_split in E2. apply comp_split in E2'. subst. f_equal. auto.
Qed.
(* New leaves all other files alone, and its own empty, also when it fails *)
Lemma new_touches cwd creat mk f M hash out f' r ps : New cwd creat mk f M hash out = (f', r) -> out <> [] -> torrent_places cwd out M ps ->
  forall q, f' q = f q \/ (f' q = Some [] /\ In q ps).
Proof.
  intros HN Ho HP q. unfold New in HN. destruct (NewPieces (mi_pieces M)) as [pcs| | |] eqn:E1; try (inversion HN; auto; fail).
  destruct ((mi_length M =? 0) && mk) eqn:E2; [inversion HN; auto|].
  destruct (download_paths _ _ _ _) as [paths| | |] eqn:E3; try (inversion HN; auto; fail).
  destruct (create_files cwd creat f paths) as [f1 r1] eqn:E4. inversion HN; subst f1. clear HN.
  destruct (create_files_partial _ _ _ _ _ _ E4 q) as [H|(H & p & Hp1 & _ & Hp2)]; [auto|right]. split; [exact H|].
  destruct (create_files cwd (fun _ => true) f paths) as [f2 r2] eqn:E5.
  assert (X : exists t2, New cwd (fun _ => true) mk f M hash out = (f2, Ok t2) /\ t_osfiles t2 = map (os_place cwd) paths).
  { destruct (create_files_total _ _ _ _ _ _ E5) as [(hs & ->)|(e & p' & _ & _ & ?)]; [|discriminate].
    destruct (create_files_spec _ _ _ _ _ _ E5) as (-> & _). unfold New. rewrite E1, E2, E3, E5. cbn [bind]. eexists. split; [reflexivity|reflexivity]. }
  destruct X as (t2 & HN2 & E6). rewrite (places_of _ _ _ _ _ _ _ _ _ _ HN2 Ho HP), E6, <- Hp2. now apply in_map.
Qed.
Lemma download_started cf look o f flags out file outs order d M w c0 : prog_start cf look o f flags (CDownload out file) outs order = PRun c0 ->
  o_file o file = Some d -> SpecBencode.fits d -> torrent_doc d M w ->
  exists f1 t, New (o_cwd o) (o_creat o) (o_mkdir_missing o) f M (cf_sha1 cf w) out = (f1, Ok t) /\ c0 = client_start cf t f1 outs (order (t_trackers t)).
Proof.
  unfold prog_start, process. intros H Hd Hf HT. destruct (NewCmdRun look defaults) as [lg|]; [|discriminate].
  destruct (runDownload (cf_sha1 cf) o f out file) as [f1 [e| |t]] eqn:E; try discriminate. inversion H; subst. exists f1, t. split; [|reflexivity].
  eapply doc_started; eassumption.
Qed.
(* ... or it has not started *)
Lemma download_not_started cf look o f flags out file outs order d M w ps s f1 : prog_start cf look o f flags (CDownload out file) outs order = PExit s f1 ->
  o_file o file = Some d -> SpecBencode.fits d -> torrent_doc d M w -> out <> [] -> torrent_places (o_cwd o) out M ps ->
  forall q, f1 q = f q \/ (f1 q = Some [] /\ In q ps).
Proof.
  unfold prog_start, process. intros H Hd Hf (m & raw & post & info & E & HW & HM & HI) Ho HP q. destruct (NewCmdRun look defaults) as [lg|]; [|inversion H; auto].
  assert (X : forall r, runDownload (cf_sha1 cf) o f out file = (f1, r) -> f1 q = f q \/ (f1 q = Some [] /\ In q ps)).
  { intros r. unfold runDownload. destruct (o_stat o out) as [[|]|]; try (intros X; inversion X; auto; fail). rewrite Hd.
    destruct (UnmarshalMetainfo d) as [g [[]| | |]] eqn:EU; try (intros X; inversion X; auto; fail).
    assert (HP' : Parse d = Ok (BDict true m raw)) by (apply parse_iff; [exact Hf|]; exists raw, post; auto).
    rewrite <- (says_fun _ _ _ HM (metainfo_says _ _ _ _ Hf EU HP')).
    destruct (New _ _ _ _ _ _ _) as [f2 r2] eqn:EN. intros X. assert (f2 = f1) by (destruct r2; inversion X; reflexivity). subst f2.
    exact (new_touches _ _ _ _ _ _ _ _ _ _ EN Ho HP q). }
  destruct (runDownload (cf_sha1 cf) o f out file) as [f2 [e| |t]]; inversion H; subst; eapply X; reflexivity.
Qed.

(* ---------- C119 ---------- *)
Lemma prog_stored cf look o f flags out file outs order d M w ps l p tr :
  o_file o file = Some d -> SpecBencode.fits d -> torrent_doc d M w -> out <> [] -> torrent_places (o_cwd o) out M ps ->
  NoDup ps -> Forall (fun n => 0 <= n < 2 ^ 63) (file_lengths M) -> 0 <= mi_piece_length M < 2 ^ 30 -> Forall held_reply l -> Forall sends_bytes l ->
  prog_run cf l (prog_start cf look o f flags (CDownload out file) outs order) = (p, tr) ->
  (forall x, ~ In x ps -> prog_fs p x = f x) /\
  (forall k x o' q, nth_error ps k = Some x -> spot M q k o' ->
     prog_fs p x = f x \/ byte_at (contents (prog_fs p) x) o' = 0 \/
     exists c0 n i off b, prog_start cf look o f flags (CDownload out file) outs order = PRun c0 /\ from_peer cf c0 l (cf_sha1 cf w) tr n (piece_bytes i off b) /\
       0 <= i < 2 ^ 32 /\ 0 <= off < 2 ^ 32 /\ cf_sha1 cf b = hash_of (mi_pieces M) i /\
       0 <= q - (i * mi_piece_length M + off) < zlen b /\ byte_at (contents (prog_fs p) x) o' = byte_at b (q - (i * mi_piece_length M + off))).
Proof.
  intros Hd Hf HT Ho HP HND HL HPL HH HB HR. destruct (prog_start cf look o f flags (CDownload out file) outs order) as [s f1|c0] eqn:ES.
  - cbn in HR. inversion HR; subst p tr. cbn [prog_fs]. pose proof (download_not_started _ _ _ _ _ _ _ _ _ _ _ _ _ _ _ ES Hd Hf HT Ho HP) as HQ. split.
    + intros x Hx. destruct (HQ x) as [H|[_ H]]; [exact H|contradiction].
    + intros k x o' q Hk _. destruct (HQ x) as [H|[H _]]; [auto|]. right; left. unfold contents. rewrite H. unfold byte_at. now destruct (Z.to_nat o').
  - cbn in HR. destruct (crun cf l c0) as [c tr'] eqn:EC. inversion HR; subst p tr'. cbn [prog_fs].
    destruct (download_started _ _ _ _ _ _ _ _ _ _ _ _ _ ES Hd Hf HT) as (f1 & t & HN & ->).
    pose proof (places_of _ _ _ _ _ _ _ _ _ _ HN Ho HP) as EP. subst ps. split.
    + intros x Hx. rewrite (only_its_files _ _ _ _ _ _ _ _ _ _ _ _ _ _ _ HN HND HL HPL HB EC x Hx).
      destruct (new_touches _ _ _ _ _ _ _ _ _ _ HN Ho HP x) as [H|[_ H]]; [exact H|contradiction].
    + intros k x o' q Hk Hq. right.
      destruct (origin _ _ _ _ _ _ _ _ _ _ _ _ _ _ _ HN HND HL HPL HH HB EC k x o' q Hk Hq) as [H|(n & i & off & b & H)]; [left; exact H|right].
      eexists _, n, i, off, b. split; [reflexivity|]. exact H.
Qed.
Definition own (cf : conf) (x : ctr) : Prop := match ct_trk x with TrHttp addr _ _ _ => addr = ct_url x /\ http_url cf addr | _ => True end.
Lemma new_own cf url t x g : t = new_tracker cf url x -> own cf (mkCtr url t [] g).
Proof.
  intros ->. unfold own, new_tracker, NewTracker. cbn [ct_trk ct_url]. destruct (cf_scheme cf url) as [s|] eqn:E; [|exact I].
  destruct (beq s (str "udp")); [destruct (x_ok x); exact I|]. destruct (beq s (str "http")) eqn:E1; [|destruct (beq s (str "https")) eqn:E2; [|exact I]].
  - apply beq_eq in E1. subst. cbn. split; [reflexivity|]. left. exact E.
  - apply beq_eq in E2. subst. cbn. split; [reflexivity|]. right. exact E.
Qed.
Lemma map_upd {A B} (f : A -> B) l k x y : nth_error l k = Some x -> f y = f x -> map f (upd l k y) = map f l.
Proof. revert k. induction l as [|z l IH]; intros [|k] H E; cbn in *; try discriminate; [inversion H; subst; now rewrite E|f_equal; auto]. Qed.
Lemma Forall_upd {A} (P : A -> Prop) l k x : Forall P l -> P x -> Forall P (upd l k x).
Proof. intros F Hx. revert k. induction F as [|y l Hy F IH]; intros k; [constructor|]. destruct k; cbn [upd]; constructor; auto. Qed.
Lemma announce_addr cf t f outs urls l c tr : crun cf l (client_start cf t f outs urls) = (c, tr) ->
  map ct_url (c_trk c) = urls /\ Forall (own cf) (c_trk c) /\ forall j u q r, In (VHttp j u q r) tr -> nth_error urls j = Some u /\ http_url cf u.
Proof.
  intros HR. apply (crun_inv cf (fun c tr => map ct_url (c_trk c) = urls /\ Forall (own cf) (c_trk c) /\ forall j u q r, In (VHttp j u q r) tr -> nth_error urls j = Some u /\ http_url cf u)
    (fun _ => True) (client_start cf t f outs urls)) with (l := l); auto.
  - cbn. rewrite map_map. cbn. rewrite map_id. split; [reflexivity|]. split; [|intros ? ? ? ? []]. apply Forall_forall. intros x Hx. apply in_map_iff in Hx. destruct Hx as (u & <- & _). exact I.
  - clear. intros c tr a c' es (I1 & I2 & I3) _ HE. apply cexec_move in HE. destruct HE as [[-> ->]|(_ & _ & M)]; [rewrite app_nil_r; auto|].
    assert (AT : forall j x, nth_error (c_trk c) j = Some x -> own cf x) by (intros j x Hj; rewrite Forall_forall in I2; apply I2; eapply nth_error_In; exact Hj).
    assert (NM : forall es, (forall j u q r, ~ In (VHttp j u q r) es) -> forall j u q r, In (VHttp j u q r) (tr ++ es) -> nth_error urls j = Some u /\ http_url cf u).
    { intros es' N j u q r X. apply in_app_or in X. destruct X as [X|X]; [eapply I3; exact X|exfalso; eapply N; exact X]. }
    assert (VM : forall l j u q r, ~ In (VHttp j u q r) (map VMgr l)) by (intros l0 j u q r X; apply in_map_iff in X; destruct X as (y & X & _); discriminate X).
    inversion M; subst; cbn [c_trk mgr_step sys_step cnt_step set_ctr prt_step end_step];
      try (split; [first [reflexivity|eassumption]|]; split; [exact I2|]; apply NM; first [apply VM|intros ? ? ? ? []|idtac]; fail).
    + split; [erewrite map_upd; [reflexivity|eassumption|reflexivity]|]. split; [apply Forall_upd; [exact I2|eapply new_own; reflexivity]|]. apply NM, VM.
    + split; [reflexivity|]. split; [exact I2|]. apply NM. intros j0 u0 q0 r0 [X|X]; [discriminate X|exact (VM _ _ _ _ _ X)].
    + split; [erewrite map_upd; [reflexivity|eassumption|reflexivity]|]. split; [apply Forall_upd; [exact I2|]|apply NM; intros ? ? ? ? []].
      match goal with H : nth_error (c_trk c) _ = Some ?x |- _ => specialize (AT _ _ H); destruct x; exact AT end.
    + split; [erewrite map_upd; [reflexivity|eassumption|reflexivity]|].
      match goal with H : nth_error (c_trk c) _ = Some ?x |- _ => pose proof (AT _ _ H) as O; pose proof H as HJ end.
      match goal with H : tracker_announce _ _ _ _ _ _ = _ |- _ => rename H into HA end.
      unfold own in O. unfold tracker_announce in HA. destruct (ct_trk tr0) as [|addr id ev i|ud] eqn:ET; try discriminate.
      * destruct rp as [h cn|]; [|discriminate]. destruct (HttpAnnounce _ _) as [i' res]. inversion HA; subst. split; [apply Forall_upd; [exact I2|exact O]|].
        intros j0 u0 q0 r0 X. apply in_app_or in X. destruct X as [X|[X|X]]; [eapply I3; exact X| |exfalso; exact (VM _ _ _ _ _ X)].
        inversion X; subst. split; [|apply O]. rewrite nth_error_map, HJ. destruct O as [-> _]. reflexivity.
      * destruct rp as [|tx1 tx2 key ok s]; [discriminate|]. destruct (UdpAnnounce _ _ _ _ _ _ _ _ _) as [[u' ds] res]. inversion HA; subst.
        split; [apply Forall_upd; [exact I2|exact I]|]. apply NM. intros j0 u0 q0 r0 [X|X]; [discriminate X|exact (VM _ _ _ _ _ X)].
    + split; [reflexivity|]. split; [exact I2|]. apply NM. intros j0 u0 q0 r0 X. unfold sysev in X. apply in_map_iff in X. destruct X as (y & X & _). discriminate X.
  - apply Forall_forall. auto.
Qed.
Lemma announce_hash cf t f outs urls l c tr j u q r : crun cf l (client_start cf t f outs urls) = (c, tr) -> In (VHttp j u q r) tr ->
  lookup (str "info_hash") q = Some (t_hash t).
Proof.
  intros HR HI. apply in_split in HI. destruct HI as (t1 & t2 & HT).
  destruct (announces_from cf (t_length t) (fun _ => 0%nat) (t_hash t) _ [] (start_cinv cf t f outs urls) (start_plain _ _ _ _ _) eq_refl _ _ _ HR) as (_ & _ & _ & H).
  destruct (H _ _ _ j HT eq_refl) as (a & b & _ & _ & _ & _ & id & ->). reflexivity.
Qed.
Lemma prog_announced cf look o f flags out file outs order d M w l p tr : (forall us, Permutation (order us) us) ->
  o_file o file = Some d -> SpecBencode.fits d -> torrent_doc d M w ->
  prog_run cf l (prog_start cf look o f flags (CDownload out file) outs order) = (p, tr) ->
  forall j u q r, In (VHttp j u q r) tr -> tracker_of M u /\ http_url cf u /\ lookup (str "info_hash") q = Some (cf_sha1 cf w) /\
    forall j' q' r', In (VHttp j' u q' r') tr -> j' = j.
Proof.
  intros HO Hd Hf HT HR j u q r HI. destruct (prog_start cf look o f flags (CDownload out file) outs order) as [s f1|c0] eqn:ES; [cbn in HR; inversion HR; subst; destruct HI|].
  cbn in HR. destruct (crun cf l c0) as [c tr'] eqn:EC. inversion HR; subst p tr'.
  destruct (download_started _ _ _ _ _ _ _ _ _ _ _ _ _ ES Hd Hf HT) as (f1 & t & HN & ->).
  destruct (announce_addr _ _ _ _ _ _ _ _ EC) as (_ & _ & HA). destruct (HA _ _ _ _ HI) as [H1 H2].
  destruct (trackers_new _ _ _ _ _ _ _ _ _ HN) as [ND HU].
  assert (EH : t_hash t = cf_sha1 cf w) by (destruct (new_fields _ _ _ _ _ _ _ _ _ HN) as (_ & _ & X & _); exact X).
  split; [|split; [exact H2|split]].
  - apply HU. eapply Permutation_in; [apply HO|]. eapply nth_error_In; exact H1.
  - rewrite <- EH. eapply announce_hash; eassumption.
  - intros j' q' r' HI'. destruct (HA _ _ _ _ HI') as [H3 _].
    assert (NO : NoDup (order (t_trackers t))) by (eapply Permutation_NoDup; [apply Permutation_sym, HO|exact ND]).
    rewrite NoDup_nth_error in NO. symmetry. apply NO; [|congruence]. apply nth_error_Some. congruence.
Qed.
(* every peer spoken to after the handshake, and every address dialled *)
Lemma prog_peers cf look o f flags out file outs order d M w l p tr :
  o_file o file = Some d -> SpecBencode.fits d -> torrent_doc d M w -> Forall held_reply l ->
  prog_run cf l (prog_start cf look o f flags (CDownload out file) outs order) = (p, tr) ->
  (forall t1 k evs t2, tr = t1 ++ VShake k evs :: t2 -> greets (cf_sha1 cf w) evs) /\
  (forall t1 j k t2, tr = t1 ++ VMgr (GDial j k) :: t2 -> exists c0 a, prog_start cf look o f flags (CDownload out file) outs order = PRun c0 /\
     nth_error (added (gevs t1)) k = Some a /\ replied cf c0 l t1 j a).
Proof.
  intros Hd Hf HT HH HR. destruct (prog_start cf look o f flags (CDownload out file) outs order) as [s f1|c0] eqn:ES.
  - cbn in HR; inversion HR; subst. split; intros [|] ? ? ? X; discriminate X.
  - cbn in HR. destruct (crun cf l c0) as [c tr'] eqn:EC. inversion HR; subst p tr'.
    destruct (download_started _ _ _ _ _ _ _ _ _ _ _ _ _ ES Hd Hf HT) as (f1 & t & HN & ->).
    assert (EH : t_hash t = cf_sha1 cf w) by (destruct (new_fields _ _ _ _ _ _ _ _ _ HN) as (_ & _ & X & _); exact X). split.
    + intros t1 k evs t2 X. rewrite <- EH. eapply (si_greet _ _ _ (sinv_run _ _ _ _ _ _ _ _ EC) k). rewrite X, shakes_app. apply in_or_app. right. now left.
    + intros t1 j k t2 X. destruct (dialled_replied _ _ _ _ _ _ _ _ _ _ _ _ EC HH X) as (a & A1 & A2). eexists _, a. split; [reflexivity|]. auto.
Qed.
(* the other commands *)
Lemma prog_other cf look o f flags cmd outs order l p tr : (forall out file, cmd <> CDownload out file) ->
  prog_run cf l (prog_start cf look o f flags cmd outs order) = (p, tr) -> prog_fs p = f /\ tr = [] /\ exists s, prog_status p = Some s.
Proof.
  intros HC HR. assert (X : exists s, prog_start cf look o f flags cmd outs order = PExit s f).
  { unfold prog_start, process. destruct (NewCmdRun look defaults) as [lg|]; [|eexists; reflexivity].
    destruct cmd; try (eexists; reflexivity). - destruct (bencodeCmd _ _ _) as [ou st]. eexists; reflexivity. - exfalso. eapply HC. reflexivity. }
  destruct X as (s & X). rewrite X in HR. cbn in HR. inversion HR; subst. cbn. eauto.
Qed.

(* ---------- C120 ---------- *)
Lemma starts_empty cf look o f flags out file outs order d M w ps c0 :
  o_file o file = Some d -> SpecBencode.fits d -> torrent_doc d M w -> out <> [] -> torrent_places (o_cwd o) out M ps ->
  prog_start cf look o f flags (CDownload out file) outs order = PRun c0 ->
  (forall x, In x ps -> prog_fs (PRun c0) x = Some []) /\
  (0 <= cf_port cf -> Forall (fun n => 0 <= n) (file_lengths M) -> total (file_lengths M) < 2 ^ 63 ->
   forall l c tr t1 j u q r t2, crun cf l c0 = (c, tr) -> tr = t1 ++ VHttp j u q r :: t2 -> handed (sevs t1) = [] ->
     tells (str "downloaded") 0 (VHttp j u q r) /\ tells (str "left") (total (file_lengths M)) (VHttp j u q r)).
Proof.
  intros Hd Hf HT Ho HP ES. destruct (download_started _ _ _ _ _ _ _ _ _ _ _ _ _ ES Hd Hf HT) as (f1 & t & HN & ->). split.
  - intros x Hx. rewrite (places_of _ _ _ _ _ _ _ _ _ _ HN Ho HP) in Hx. cbn.
    destruct (new_fields _ _ _ _ _ _ _ _ _ HN) as (_ & _ & _ & _ & _ & _ & _ & _ & _ & _ & _ & paths & _ & Hc).
    apply create_files_spec in Hc. destruct Hc as (_ & Hc & _). auto.
  - intros Hport HL HT63 l c tr t1 j u q r t2 HR HTR H0.
    destruct (announced_values _ _ _ _ _ _ _ _ _ _ _ j Hport HR HTR eq_refl) as (a & b & _ & Ha & Hb & HV). rewrite H0 in *. cbn [length] in Ha, Hb.
    assert (a = 0%nat /\ b = 0%nat) by lia. destruct H as [-> ->]. cbn [firstn total_len map fold_right] in HV.
    change (total_len []) with 0 in HV. rewrite Z.sub_0_r in HV.
    assert (EL : u64 (t_length t) = total (file_lengths M)).
    { destruct (length_new _ _ _ _ _ _ _ _ _ HN) as [L1 L2]. unfold file_lengths in *. destruct (mi_length M =? 0) eqn:E0.
      - apply Z.eqb_eq in E0. rewrite L2; auto; [|rewrite Forall_map in HL; exact HL]. unfold u64. apply Z.mod_small.
        assert (0 <= total (map tf_length (mi_files M))) by (clear - HL; unfold total; induction HL; cbn in *; lia). lia.
      - apply Z.eqb_neq in E0. rewrite L1 by exact E0. cbn in *. inversion HL; subst. unfold u64. rewrite Z.mod_small; lia. }
    rewrite EL in HV. change (u64 0) with 0 in HV. cbn in HV. cbn. tauto.
Qed.
