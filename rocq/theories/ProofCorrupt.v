(* Data that does not match its hash: C161, C162.                              *)
From Verif Require Import Base ProofBase SpecPath SpecMsg SpecPeer SpecTorrent SpecFinish SpecCmd SpecProgram SpecOrigin SpecIdle SpecBencode SpecClient SpecCorrupt Sha1.
From Verif Require Import ModelPath ModelBitset ModelMsg ModelTorrent ModelConn ModelStats ModelPeer ModelSystem ModelTracker ModelManager ModelClient ModelCmd ModelProgram.
From Verif Require Import ProofMsg ProofTorrent ProofNew ProofFinish ProofWrite ProofHistory ProofProgress ProofSystem ProofClient ProofProgram ProofPeer ProofArrive ProofIdle ProofWitness ProofClient4 ProofProgram2.

(* a message as far as it is decoded *)
Lemma piece_decodes i o d : 0 <= i < 2 ^ 32 -> 0 <= o < 2 ^ 32 -> exists m, NewPeerMessage (piece_bytes i o d) = Ok m /\ m_type m = PieceT /\ m_index m = i /\ data_of m = Ok d.
Proof.
  intros Hi Ho. destruct (new_ok_or_panic (piece_bytes i o d)) as [[m E]|E].
  - exists m. split; [exact E|]. unfold piece_bytes in E. destruct (new_basic _ _ _ E) as (_ & Ht & HPL). split; [exact Ht|].
    unfold NewPeerMessage in E. cbn [PieceT HaveT RequestT CancelT Z.eqb Pos.eqb orb] in E. rewrite uint32_at_head in E by (unfold is_u32; lia). cbn [bind] in E.
    rewrite uint32_at_mid in E by (first [reflexivity|unfold is_u32; lia]). cbn [bind] in E.
    assert (EI : m_index m = i) by (clear - E; injection E as <-; reflexivity). clear E. split; [exact EI|].
    unfold data_of, Data. rewrite Ht, HPL. cbn [PieceT Z.eqb Pos.eqb negb]. unfold slice. pose proof (zlen_nonneg d). rewrite !zlen_app, !be32_length.
    match goal with |- context [if ?x then _ else _] => replace x with true by lia end. cbn [bind]. f_equal.
    unfold sub. change (Z.to_nat 8) with 8%nat. cbn [skipn be32 app]. apply firstn_all2. unfold zlen in *. lia.
  - exfalso. apply new_panics in E as (ty & r & E & Hl). assert (ty = 7) as -> by (unfold piece_bytes in E; congruence).
    unfold piece_bytes in Hl. rewrite zlen_cons, !zlen_app, !be32_length in Hl. pose proof (zlen_nonneg d). change (min_body 7) with 9 in Hl. lia.
Qed.

Section corrupt.
  Variables (cwd : place) (creat : bytes -> bool) (mk : bool) (f0 : fs) (mi : metainfo) (hash dir : bytes) (f1 : fs) (t : torrent).
  Hypothesis HN : New cwd creat mk f0 mi hash dir = (f1, Ok t).
  Variable sha1 : bytes -> bytes.
  Lemma corrupt_check t' i d : static t' = static t -> 0 <= i -> 20 * (i + 1) <= zlen (mi_pieces mi) -> sha1 d <> hash_of (mi_pieces mi) i -> CheckPiece sha1 t' d i = Ok false.
  Proof.
    intros HS Hi Hl HH. assert (E : t_pieces t' = t_pieces t) by (unfold static in HS; congruence). unfold CheckPiece. rewrite E.
    destruct (new_fields _ _ _ _ _ _ _ _ _ HN) as (HPc & _).
    destruct (Z.eq_dec (zlen (mi_pieces mi) mod 20) 0) as [Hm|Hm]; [|destruct (new_pieces_err _ Hm) as [e E1]; congruence].
    destruct (new_pieces_ok _ Hm) as (ps & E1 & E2 & E3 & _). rewrite HPc in E1. inversion E1; subst ps.
    assert (Hlen : 20 * zlen (t_pieces t) = zlen (mi_pieces mi)).
    { assert (X : forall ps, Forall (fun p => zlen (p_sha1 p) = 20) ps -> zlen (concat (map p_sha1 ps)) = 20 * zlen ps).
      { induction 1; cbn [map concat]; [reflexivity|]. rewrite zlen_app, zlen_cons. lia. }
      specialize (X _ E3). rewrite E2 in X. lia. }
    destruct (nthZ (t_pieces t) i) as [p|] eqn:Ep.
    - assert (Eh : p_sha1 p = hash_of (mi_pieces mi) i).
      { unfold hash_of. replace i with (Z.of_nat (Z.to_nat i)) by lia. eapply pieces_hash_at; [exact E2|tauto|]. unfold nthZ in Ep. replace (i <? 0) with false in Ep by lia. exact Ep. }
      rewrite Eh. f_equal. apply beq_neq. congruence.
    - exfalso. unfold nthZ in Ep. replace (i <? 0) with false in Ep by lia. apply nth_error_None in Ep. unfold zlen in *. lia.
  Qed.
  Lemma useless_body t' u r b : static t' = static t -> useless sha1 mi b -> handle_body sha1 t' u r b = with_peer r (if u then PReq else PTop) (r_peer r).
  Proof.
    intros HS [(i & o & d & -> & Hi & Ho & Hl & HH)|H]; [|now apply idle_body]. destruct (piece_decodes i o d Hi Ho) as (m & E & Ht & EI & ED).
    unfold handle_body. rewrite E. unfold handlePeerMessage. rewrite Ht. cbn [PieceT KeepaliveT BitfieldT HaveT InterestedT NotInterestedT ChokeT UnchokeT Z.eqb Pos.eqb].
    unfold handlePieceMessage. rewrite ED, EI, (corrupt_check _ _ _ HS (proj1 Hi) Hl HH). reflexivity.
  Qed.
  Lemma swap_pstep due ok tm b b' s r : static (sh_t s) = static t -> useless sha1 mi b -> useless sha1 mi b' ->
    match pstep sha1 (mkI due ok (Some b) tm) s r, pstep sha1 (mkI due ok (Some b') tm) s r with
    | Some (s1, r1, e1), Some (s2, r2, e2) => s1 = s2 /\ r1 = r2 /\ (e1 = e2 \/ e1 = [EReadOk b] /\ e2 = [EReadOk b'])
    | None, None => True
    | _, _ => False
    end.
  Proof.
    intros HS HB HB'.
    assert (X : forall x y : option (shared * rstate * list event), x = y -> match x, y with Some (s1, r1, e1), Some (s2, r2, e2) => s1 = s2 /\ r1 = r2 /\ (e1 = e2 \/ e1 = [EReadOk b] /\ e2 = [EReadOk b']) | None, None => True | _, _ => False end)
      by (intros [[[? ?] ?]|] y <-; auto).
    unfold pstep, wait. destruct (r_pc r) eqn:EP; cbn [i_due i_ok i_read ModelPeer.i_timer]; try (apply X; reflexivity); try (rewrite !useless_body by assumption; auto; fail); auto.
  Qed.
  Lemma swap_exec k due ok tm b b' w : static (sh_t (wo_sh w)) = static t -> useless sha1 mi b -> useless sha1 mi b' ->
    fst (exec sha1 (APeer k (mkI due ok (Some b) tm)) w) = fst (exec sha1 (APeer k (mkI due ok (Some b') tm)) w) /\
    (snd (exec sha1 (APeer k (mkI due ok (Some b) tm)) w) = snd (exec sha1 (APeer k (mkI due ok (Some b') tm)) w) \/
     snd (exec sha1 (APeer k (mkI due ok (Some b) tm)) w) = [(k, EReadOk b)] /\ snd (exec sha1 (APeer k (mkI due ok (Some b') tm)) w) = [(k, EReadOk b')]).
  Proof.
    intros HS HB HB'. unfold exec. destruct (crashed w); [auto|]. destruct (nth_error (wo_peers w) k) as [r|]; [|auto].
    pose proof (swap_pstep due ok tm b b' (wo_sh w) r HS HB HB') as X.
    destruct (pstep sha1 (mkI due ok (Some b) tm) (wo_sh w) r) as [[[s1 r1] e1]|], (pstep sha1 (mkI due ok (Some b') tm) (wo_sh w) r) as [[[s2 r2] e2]|]; try contradiction; [|auto].
    destruct X as (-> & -> & [->|[-> ->]]); cbn [fst snd map]; auto.
  Qed.
End corrupt.
Lemma alike_refl sha1 mi es : Forall2 (alike sha1 mi) es es.
Proof. induction es; constructor; [now left|assumption]. Qed.

Section client.
  Variables (cwd : place) (creat : bytes -> bool) (mk : bool) (f0 : fs) (mi : metainfo) (hash dir : bytes) (f1 : fs) (t : torrent).
  Hypothesis HN : New cwd creat mk f0 mi hash dir = (f1, Ok t).
  Variables (cf : conf) (outs : list (option Z)) (urls : list bytes).
  Lemma swap_step a a' c : static (sh_t (wo_sh (c_wo c))) = static t -> swapped (cf_sha1 cf) mi a a' ->
    fst (cexec cf a c) = fst (cexec cf a' c) /\ Forall2 (alike (cf_sha1 cf) mi) (snd (cexec cf a c)) (snd (cexec cf a' c)).
  Proof.
    intros HS [->|(k & due & ok & b & b' & tm & -> & -> & HB & HB')]; [split; [reflexivity|apply alike_refl]|].
    unfold cexec. destruct (dead c || c_exit c); [split; [reflexivity|apply alike_refl]|]. unfold peer_step. destruct (nth_error (c_run c) k) as [p|]; [|split; [reflexivity|apply alike_refl]].
    cbn [i_due ModelPeer.i_timer]. destruct (conn_closed (c_mgr c) p); [split; [reflexivity|apply alike_refl]|].
    destruct (swap_exec _ _ _ _ _ _ _ _ _ HN (cf_sha1 cf) k due ok tm b b' (c_wo c) HS HB HB') as [E1 E2].
    destruct (exec (cf_sha1 cf) (APeer k (mkI due ok (Some b) tm)) (c_wo c)) as [w1 e1], (exec (cf_sha1 cf) (APeer k (mkI due ok (Some b') tm)) (c_wo c)) as [w2 e2].
    cbn [fst snd] in *. subst w2. split; [reflexivity|]. destruct E2 as [->|[-> ->]]; [apply alike_refl|]. constructor; [|constructor]. right. exists k, b, b'. auto.
  Qed.
  Lemma swap_run l l' c tr c' tr' : Forall2 (swapped (cf_sha1 cf) mi) l l' -> crun cf l (client_start cf t f1 outs urls) = (c, tr) -> crun cf l' (client_start cf t f1 outs urls) = (c', tr') ->
    c' = c /\ Forall2 (alike (cf_sha1 cf) mi) tr tr'.
  Proof.
    revert l' c tr c' tr'. induction l as [|a l IH] using rev_ind; intros l' c tr c' tr' H R R'.
    - inversion H; subst. rewrite R in R'. inversion R'; subst. split; [reflexivity|apply alike_refl].
    - apply Forall2_app_inv_l in H as (l1 & l2 & H1 & H2 & ->). inversion H2 as [|? a' ? ? HA H3]; subst. inversion H3; subst.
      rewrite crun_app in R, R'. destruct (crun cf l (client_start cf t f1 outs urls)) as [c1 t1] eqn:E1. destruct (crun cf l1 (client_start cf t f1 outs urls)) as [c2 t2] eqn:E2.
      destruct (IH l1 c1 t1 c2 t2 H1 eq_refl E2) as [-> HT]. destruct (crun_sys _ _ _ _ _ _ _ _ E1) as (ls & RS & _). apply static_run in RS. cbn [w_t] in RS.
      destruct (swap_step a a' c1 RS HA) as [X Y]. cbn [crun] in R, R'. destruct (cexec cf a c1) as [c3 e3], (cexec cf a' c1) as [c4 e4]. cbn [fst snd] in *. subst c4.
      inversion R; inversion R'; subst. split; [reflexivity|]. rewrite !app_nil_r. now apply Forall2_app.
  Qed.
End client.
Lemma swap_prog cf look o f flags out file outs order d M w c0 l l' p tr p' tr' :
  o_file o file = Some d -> SpecBencode.fits d -> torrent_doc d M w -> prog_start cf look o f flags (CDownload out file) outs order = PRun c0 ->
  Forall2 (swapped (cf_sha1 cf) M) l l' -> prog_run cf l (PRun c0) = (p, tr) -> prog_run cf l' (PRun c0) = (p', tr') -> p' = p /\ Forall2 (alike (cf_sha1 cf) M) tr tr'.
Proof.
  intros Hd Hf HT HS HF R R'. destruct (download_started _ _ _ _ _ _ _ _ _ _ _ _ _ HS Hd Hf HT) as (f1 & t & HN & ->). cbn [prog_run] in R, R'.
  destruct (crun cf l _) as [c1 t1] eqn:E1. destruct (crun cf l' _) as [c2 t2] eqn:E2. inversion R; inversion R'; subst. destruct (swap_run _ _ _ _ _ _ _ _ _ HN cf outs _ l l' _ _ _ _ HF E1 E2) as [-> HA]. auto.
Qed.

(* ---------- the peer goes on ---------- *)
Section goes_on.
  Variables (cwd : place) (creat : bytes -> bool) (mk : bool) (f0 : fs) (mi : metainfo) (hash dir : bytes) (f1 : fs) (t : torrent).
  Hypothesis HN : New cwd creat mk f0 mi hash dir = (f1, Ok t).
  Variable sha1 : bytes -> bytes.
  Lemma useless_step i s r s' r' es b : static (sh_t s) = static t -> useless sha1 mi b -> pstep sha1 i s r = Some (s', r', es) -> In (EReadOk b) es ->
    s' = s /\ exists u : bool, r' = with_peer r (if u then PReq else PTop) (r_peer r).
  Proof.
    intros HS HB Es Hin. step_cases Es; repeat (destruct Hin as [Hin|Hin]); try contradiction; try discriminate;
      try (apply in_app_iff in Hin; destruct Hin as [Hin|Hin]; repeat (destruct Hin as [Hin|Hin]); try contradiction; discriminate).
    all: injection Hin as <-; rewrite (useless_body _ _ _ _ _ _ _ _ _ HN sha1 _ _ _ _ HS HB); split; [reflexivity|].
    - exists true. reflexivity.
    - exists false. reflexivity.
  Qed.
End goes_on.
Lemma goes_on cf look o f flags out file outs order d M w c0 l c tr k i c' es b :
  o_file o file = Some d -> SpecBencode.fits d -> torrent_doc d M w -> prog_start cf look o f flags (CDownload out file) outs order = PRun c0 ->
  prog_run cf l (PRun c0) = (PRun c, tr) -> prog_run cf [KPeer k i] (PRun c) = (PRun c', es) -> In (VSys k (EReadOk b)) es -> useless (cf_sha1 cf) M b ->
  wo_sh (c_wo c') = wo_sh (c_wo c) /\ c_mgr c' = c_mgr c /\
  exists r u, nth_error (wo_peers (c_wo c)) k = Some r /\ nth_error (wo_peers (c_wo c')) k = Some (with_peer r (if u : bool then PReq else PTop) (r_peer r)).
Proof.
  intros Hd Hf HT HS R R' Hin HB. destruct (download_started _ _ _ _ _ _ _ _ _ _ _ _ _ HS Hd Hf HT) as (f1 & t & HN & ->). cbn [prog_run] in R, R'.
  destruct (crun cf l _) as [c1 t1] eqn:E1. inversion R; subst c1 t1. clear R. destruct (crun_sys _ _ _ _ _ _ _ _ E1) as (ls & RS & _). apply static_run in RS. cbn [w_t] in RS.
  cbn [crun] in R'. destruct (cexec cf (KPeer k i) c) as [c2 e2] eqn:E2. inversion R'; subst c2 es. clear R'. rewrite app_nil_r in Hin.
  unfold cexec in E2. destruct (dead c || c_exit c); [inversion E2; subst; destruct Hin|]. unfold peer_step in E2. destruct (nth_error (c_run c) k) as [p|]; [|inversion E2; subst; destruct Hin].
  set (i' := if conn_closed (c_mgr c) p then _ else i) in E2. destruct (exec (cf_sha1 cf) (APeer k i') (c_wo c)) as [w' es] eqn:E3. inversion E2; subst c' e2. clear E2.
  unfold exec in E3. destruct (crashed (c_wo c)); [inversion E3; subst; destruct Hin|]. destruct (nth_error (wo_peers (c_wo c)) k) as [r|] eqn:Hk; [|inversion E3; subst; destruct Hin].
  destruct (pstep (cf_sha1 cf) i' (wo_sh (c_wo c)) r) as [[[s' r'] es']|] eqn:Es; [|inversion E3; subst; destruct Hin]. inversion E3; subst w' es. clear E3.
  assert (Hin' : In (EReadOk b) es').
  { unfold sysev in Hin. apply in_map_iff in Hin as ([k' e] & EE & Hin). apply in_map_iff in Hin as (e' & EE' & Hin). inversion EE'; subst. inversion EE; subst. exact Hin. }
  destruct (useless_step _ _ _ _ _ _ _ _ _ HN _ _ _ _ _ _ _ _ RS HB Es Hin') as (-> & u & ->). cbn [c_wo wo_sh c_mgr wo_peers].
  split; [reflexivity|]. split.
  - unfold returned. cbn [wo_peers]. rewrite ProofIdle.upd_same, Hk. destruct u; reflexivity.
  - exists r, u. rewrite ProofIdle.upd_same, Hk. auto.
Qed.

(* ---------- as long as it likes ---------- *)
Lemma loop cf l c es n : crun cf l c = (c, es) -> crun cf (concat (repeat l n)) c = (c, concat (repeat es n)).
Proof. intros H. induction n as [|n IH]; [reflexivity|]. cbn [repeat concat]. rewrite crun_app, H, IH. reflexivity. Qed.
Lemma bodies_app k a b : bodies_of k (a ++ b) = bodies_of k a ++ bodies_of k b.
Proof. unfold bodies_of, events_of. now rewrite filter_app, map_app, flat_map_app. Qed.
Lemma sevs_app a b : sevs (a ++ b) = sevs a ++ sevs b.
Proof. unfold sevs. now rewrite flat_map_app. Qed.
Lemma bodies_loop k es bs n : bodies_of k (sevs es) = bs -> bodies_of k (sevs (concat (repeat es n))) = concat (repeat bs n).
Proof. intros <-. induction n as [|n IH]; [reflexivity|]. cbn [repeat concat]. now rewrite sevs_app, bodies_app, IH. Qed.
Definition wrong : bytes := piece_bytes 0 0 [9; 9; 9; 9].
Definition meets : list cact := [KMain; KTrk 0 px_well; KTrk 0 px_well] ++ announce1 ++ repeat (KTrk 0 px_well) 5.
Definition sends (b : bytes) : list cact := repeat (KPeer 0 go) 6 ++ [KPeer 0 (rd b); KPeer 0 go; KPeer 0 (rd b)].
Definition met : prog := fst (prog_run (cx_conf sha1) meets (px_prog (fun _ => None))).
Lemma prog_loop cf l p es n : prog_run cf l p = (p, es) -> prog_run cf (concat (repeat l n)) p = (p, concat (repeat es n)).
Proof.
  destruct p as [s f|c]; cbn [prog_run].
  - intros H. assert (es = []) as -> by congruence. f_equal. induction n; auto.
  - destruct (crun cf l c) as [c1 e1] eqn:E. intros H. inversion H; subst. now rewrite (loop _ _ _ _ n E).
Qed.
Lemma prog_app cf l1 l2 p p1 e1 p2 e2 : prog_run cf l1 p = (p1, e1) -> prog_run cf l2 p1 = (p2, e2) -> prog_run cf (l1 ++ l2) p = (p2, e1 ++ e2).
Proof.
  destruct p as [s f|c]; cbn [prog_run].
  - intros H. inversion H; subst. cbn [prog_run]. intros H2. inversion H2; subst. reflexivity.
  - destruct (crun cf l1 c) as [c1 t1] eqn:E. intros H. inversion H; subst. cbn [prog_run]. destruct (crun cf l2 c1) as [c2 t2] eqn:E2. intros H2. inversion H2; subst. now rewrite crun_app, E, E2.
Qed.
Lemma wrong_corrupt : corrupt sha1 px_M wrong.
Proof. exists 0, 0, [9; 9; 9; 9]. split; [reflexivity|]. split; [lia|]. split; [lia|]. split; [vm_compute; discriminate|]. refine (proj1 (beq_neq _ _) _). vm_compute. reflexivity. Qed.
Definition sent_events (b : bytes) : list cev := [VSys 0 (ESent CreateInterestedMessage); VSys 0 (EReadOk b); VSys 0 (EReadOk b)].
Lemma met_loops : prog_run (cx_conf sha1) (sends wrong) met = (met, sent_events wrong).
Proof. vm_compute. reflexivity. Qed.
Lemma met_peer : exists c r, met = PRun c /\ nth_error (wo_peers (c_wo c)) 0 = Some r /\ r_pc r = PTop.
Proof. eexists _, _. split; [vm_compute; reflexivity|]. split; reflexivity. Qed.
Lemma met_silent : bodies_of 0 (sevs (snd (prog_run (cx_conf sha1) meets (px_prog (fun _ => None))))) = [].
Proof. vm_compute. reflexivity. Qed.
Lemma never_dropped n : exists c r tr, prog_run (cx_conf sha1) (meets ++ concat (repeat (sends wrong) n)) (px_prog (fun _ => None)) = (PRun c, tr) /\
  bodies_of 0 (sevs tr) = concat (repeat [wrong; wrong] n) /\ nth_error (wo_peers (c_wo c)) 0 = Some r /\ r_pc r = PTop.
Proof.
  destruct met_peer as (c & r & E & Hr & Hp). pose proof met_silent as HS. destruct (prog_run (cx_conf sha1) meets (px_prog (fun _ => None))) as [p0 t0] eqn:E0. cbn [snd] in HS.
  assert (p0 = met) as -> by (unfold met; now rewrite E0). exists c, r, (t0 ++ concat (repeat (sent_events wrong) n)). rewrite <- E. split; [|split; [|auto]].
  - eapply prog_app; [exact E0|]. apply prog_loop, met_loops.
  - rewrite sevs_app, bodies_app, HS. cbn [app]. apply bodies_loop. reflexivity.
Qed.
Lemma dropped_refuted : ~ exists n, dropped_after n.
Proof.
  intros [n H]. destruct (never_dropped n) as (c & r & tr & R & HB & Hr & Hp). destruct (px_starts (fun _ => None)) as [c0 ES].
  assert (X : r_pc r = PRet); [|congruence]. rewrite ES in R.
  apply (H _ _ _ _ _ _ _ _ _ _ _ _ _ _ _ _ _ _ px_file px_fits px_torrent ES R Hr); rewrite HB.
  - apply Forall_concat, Forall_forall. intros x Hx. apply repeat_spec in Hx. subst x. repeat (apply Forall_cons; [exact wrong_corrupt|]). apply Forall_nil.
  - clear. induction n as [|n IH]; [apply Nat.le_0_l|]. cbn [repeat concat app length]. lia.
Qed.
