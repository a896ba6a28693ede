(* Executions of the whole client (ModelClient) are executions of its two parts. *)
From Verif Require Import Base ProofBase ModelBitset ModelMsg ModelTorrent ModelConn ModelStats ModelPeer ModelSystem ModelTracker ModelManager ModelClient
  SpecPeer SpecClient ProofSystem ProofManager ProofProgress.

Lemma gevs_app a b : gevs (a ++ b) = gevs a ++ gevs b.
Proof. apply flat_map_app. Qed.
Lemma sevs_app a b : sevs (a ++ b) = sevs a ++ sevs b.
Proof. apply flat_map_app. Qed.
Lemma gevs_mgr es : gevs (map VMgr es) = es.
Proof. unfold gevs. induction es as [|e es IH]; [reflexivity|]. cbn. now rewrite IH. Qed.
Lemma sevs_mgr es : sevs (map VMgr es) = [].
Proof. unfold sevs. induction es as [|e es IH]; [reflexivity|]. cbn. exact IH. Qed.
Lemma gevs_sys es : gevs (sysev es) = [].
Proof. unfold gevs, sysev. induction es as [|e es IH]; [reflexivity|]. cbn. exact IH. Qed.
Lemma sevs_sys es : sevs (sysev es) = es.
Proof. unfold sevs, sysev. induction es as [|[k e] es IH]; [reflexivity|]. cbn. now rewrite IH. Qed.

Lemma crun_app cf l1 l2 c : crun cf (l1 ++ l2) c = let '(c1, e1) := crun cf l1 c in let '(c2, e2) := crun cf l2 c1 in (c2, e1 ++ e2).
Proof.
  revert c. induction l1 as [|a l1 IH]; intros c; cbn [app crun].
  - destruct (crun cf l2 c). reflexivity.
  - destruct (cexec cf a c) as [c1 e1]. rewrite IH. destruct (crun cf l1 c1) as [c2 e2]. destruct (crun cf l2 c2) as [c3 e3]. now rewrite app_assoc.
Qed.
Lemma crun_snoc cf l a c : crun cf (l ++ [a]) c = let '(c1, e1) := crun cf l c in let '(c2, e2) := cexec cf a c1 in (c2, e1 ++ e2).
Proof. rewrite crun_app. destruct (crun cf l c) as [c1 e1]. cbn [crun]. destruct (cexec cf a c1) as [c2 e2]. now rewrite app_nil_r. Qed.
Lemma crun_inv cf (I : client -> list cev -> Prop) (B : cact -> Prop) c0 : I c0 [] ->
  (forall c tr a c' es, I c tr -> B a -> cexec cf a c = (c', es) -> I c' (tr ++ es)) ->
  forall l c tr, Forall B l -> crun cf l c0 = (c, tr) -> I c tr.
Proof.
  intros H0 HS l. induction l as [|a l IH] using rev_ind; intros c tr HB HR.
  - inversion HR; subst. exact H0.
  - rewrite crun_snoc in HR. destruct (crun cf l c0) as [c1 e1] eqn:E. destruct (cexec cf a c1) as [c2 e2] eqn:E2.
    inversion HR; subst. apply Forall_app in HB. destruct HB as [HB1 HB2]. inversion HB2; subst. eapply HS; eauto.
Qed.

(* ---------- one step ---------- *)
(* what the parts see of a step *)
Definition part (cf : conf) (B : action -> Prop) (c c' : client) (es : list cev) : Prop :=
  (exists lg, grun lg (c_mgr c) = (c_mgr c', gevs es)) /\
  (exists ls, run (cf_sha1 cf) ls (c_wo c) = (c_wo c', sevs es) /\ Forall B ls).

Lemma run_one sha1 a w : run sha1 [a] w = (fst (exec sha1 a w), snd (exec sha1 a w)).
Proof. cbn [run]. destruct (exec sha1 a w). cbn. now rewrite app_nil_r. Qed.
Lemma grun_one a g : grun [a] g = (fst (gexec a g), snd (gexec a g)).
Proof. cbn [grun]. destruct (gexec a g). cbn. now rewrite app_nil_r. Qed.
Lemma exec_cancel_silent sha1 w : snd (exec sha1 ACancel w) = [].
Proof. unfold exec. destruct (crashed w); reflexivity. Qed.
Lemma exec_spawn_silent sha1 b g w : snd (exec sha1 (ASpawn b g) w) = [].
Proof. unfold exec. destruct (crashed w); reflexivity. Qed.
Lemma exec_writer_silent sha1 w : snd (exec sha1 AWriter w) = [].
Proof. unfold exec. destruct (crashed w); [reflexivity|]. destruct (wo_hand w); [|destruct (sh_ch (wo_sh w))]; reflexivity. Qed.
Lemma exec_main_silent sha1 w : snd (exec sha1 AMain w) = [].
Proof. unfold exec. destruct (crashed w); [reflexivity|]. destruct (wo_main w); try reflexivity; [destruct (wg w =? 0)|destruct (sh_cancel (wo_sh w))]; reflexivity. Qed.

(* if R, peers send bytes *)
Definition cact_if (R : Prop) (a : cact) : Prop := match a with KPeer _ i => R -> forall b, i_read i = Some b -> Forall is_byte b | _ => True end.
Definition okact (R : Prop) (a : action) : Prop := (R -> reads_bytes a) /\ spawns (eq false) a.

Lemma part_refl cf B c : part cf B c c [].
Proof. split; exists []; cbn; auto. Qed.
Lemma part_counts cf B c c' : c_mgr c' = c_mgr c -> c_wo c' = c_wo c -> part cf B c c' [].
Proof. intros H1 H2. split; exists []; cbn; rewrite ?H1, ?H2; auto. Qed.
Lemma part_with_mgr R cf c c0 a c' es : c_wo c0 = c_wo c -> with_mgr cf c0 (gexec a (c_mgr c)) = (c', es) -> part cf (okact R) c c' es.
Proof.
  intros E H. unfold with_mgr in H. inversion H; subst; clear H. unfold part. cbn [c_mgr c_wo]. rewrite gevs_mgr, sevs_mgr. split.
  - exists [a]. now rewrite grun_one.
  - rewrite E. unfold sync. destruct (g_cancel (fst (gexec a (c_mgr c)))).
    + exists [ACancel]. split; [|constructor; [split; [intros _; exact I|exact I]|constructor]]. rewrite run_one. now rewrite exec_cancel_silent.
    + exists []. cbn. auto.
Qed.
Lemma cexec_part R cf a c c' es : cact_if R a -> cexec cf a c = (c', es) -> part cf (okact R) c c' es.
Proof.
  intros HB H. unfold cexec in H. destruct (dead c || c_exit c) eqn:D; [inversion H; subst; apply part_refl|].
  destruct a as [| |j x|j|j r|k i| |b].
  - unfold main_step in H. destruct (g_started (c_mgr c)); [|eapply part_with_mgr; [reflexivity|exact H]].
    assert (M : forall c', (mkClient (c_mgr c) (fst (exec (cf_sha1 cf) AMain (c_wo c))) (c_run c) (c_trk c) (c_rounds c) (c_cnt c) (c_wr c) (c_prt c) (c_exit c), @nil cev) = (c', es) ->
                part cf (okact R) c c' es).
    { intros c0 E. inversion E; subst; clear E. split; [exists []; reflexivity|]. exists [AMain]. cbn [c_wo]. rewrite run_one, exec_main_silent.
      split; [reflexivity|]. constructor; [split; [intros _; exact I|exact I]|constructor]. }
    destruct (wo_main (c_wo c)); try (now apply M).
    destruct (g_pool (c_mgr c)); [|inversion H; subst; apply part_counts; reflexivity]. destruct (g_stop (c_mgr c)); eapply part_with_mgr; try exact H; reflexivity.
  - eapply part_with_mgr; [reflexivity|exact H].
  - unfold ctrk_step in H. destruct (nth_error (g_trk (c_mgr c)) j) as [pc|] eqn:EP; [|inversion H; subst; apply part_refl].
    destruct (nth_error (c_trk c) j) as [tr|] eqn:ET; [|destruct pc; inversion H; subst; apply part_refl].
    destruct pc; try (eapply part_with_mgr; [|exact H]; reflexivity); [inversion H; subst; apply part_refl|].
    destruct (with_mgr cf c (gexec (XTrk j (tin_of false (shaken cf c k x) x)) (c_mgr c))) as [c1 es1] eqn:E1.
    pose proof (part_with_mgr R _ _ _ _ _ _ eq_refl E1) as ((lg & G1) & (ls & S1 & S2)).
    destruct (shaken cf c k x); inversion H; subst; clear H.
    + split; cbn [c_mgr c_wo].
      * exists lg. exact G1.
      * exists (ls ++ [ASpawn false (ct_grp tr)]). split.
        -- rewrite run_app, S1. rewrite run_one, exec_spawn_silent. now rewrite app_nil_r.
        -- apply Forall_app. split; [exact S2|]. constructor; [split; [intros _; exact I|reflexivity]|constructor].
    + split; eauto.
  - inversion H; subst. apply part_counts; unfold load_step; destruct (nth_error (g_trk (c_mgr c)) j) as [[]|]; try reflexivity;
      destruct (nth_error (c_trk c) j) as [tr|]; try reflexivity; destruct (ct_loads tr) as [|? [|? [|? ?]]]; reflexivity.
  - unfold ann_step in H. destruct (nth_error (g_trk (c_mgr c)) j) as [pc|] eqn:EP; [|inversion H; subst; apply part_refl].
    destruct pc; try (inversion H; subst; apply part_refl).
    destruct (nth_error (c_trk c) j) as [tr|] eqn:ET; [|inversion H; subst; apply part_refl].
    destruct (ct_loads tr) as [|d [|u [|l [|? ?]]]]; try (inversion H; subst; apply part_refl).
    destruct (tracker_announce _ _ _ _ _ _) as [[[t' e] a]|] eqn:EA; [|inversion H; subst; apply part_refl].
    match type of H with context [with_mgr ?cf ?c0 (gexec ?a ?g)] => destruct (with_mgr cf c0 (gexec a g)) as [c1 es1] eqn:E1 end.
    assert (PG : part cf (okact R) c c1 es1) by (eapply part_with_mgr; [|exact E1]; reflexivity).
    destruct PG as ((lg & G1) & (ls & S1 & S2)). inversion H; subst; clear H.
    assert (EV : gevs (e :: es1) = gevs es1 /\ sevs (e :: es1) = sevs es1).
    { unfold tracker_announce in EA. destruct (ct_trk tr); try discriminate; destruct r; try discriminate.
      - destruct (HttpAnnounce _ _). inversion EA. split; reflexivity.
      - destruct (UdpAnnounce _ _ _ _ _ _ _ _ _) as [[? ?] ?]. inversion EA. split; reflexivity. }
    destruct EV as [EV1 EV2]. unfold part. cbn [c_mgr c_wo]. rewrite EV1, EV2. split; eauto.
  - unfold peer_step in H. destruct (nth_error (c_run c) k) as [p|]; [|inversion H; subst; apply part_refl].
    set (i' := if conn_closed (c_mgr c) p then mkI (i_due i) false None (ModelPeer.i_timer i) else i) in *.
    destruct (exec (cf_sha1 cf) (APeer k i') (c_wo c)) as [w' es'] eqn:EE. inversion H; subst; clear H.
    unfold part. cbn [c_mgr c_wo]. rewrite gevs_sys, sevs_sys. split.
    + destruct (returned w' k).
      * exists [XRunEnd p]. rewrite grun_one. f_equal. unfold gexec. destruct (g_panic (c_mgr c)); [reflexivity|].
        destruct (nth_error (g_peers (c_mgr c)) p) as [q|]; [|reflexivity]. destruct (mp_state q); reflexivity.
      * exists []. reflexivity.
    + exists [APeer k i']. rewrite run_one, EE. split; [reflexivity|]. constructor; [|constructor]. split; [|exact I].
      intros HR b Hb. unfold i' in Hb. destruct (conn_closed (c_mgr c) p); [discriminate|]. exact (HB HR b Hb).
  - destruct (g_started (c_mgr c)); [|inversion H; subst; apply part_refl]. inversion H; subst; clear H. unfold writer_step.
    assert (TK : forall w0, part cf (okact R) c (mkClient (c_mgr c) (fst (exec (cf_sha1 cf) AWriter (c_wo c))) (c_run c) (c_trk c) (c_rounds c) (c_cnt c) w0 (c_prt c) (c_exit c)) []).
    { intros w0. split; [exists []; reflexivity|]. exists [AWriter]. cbn [c_wo]. rewrite run_one, exec_writer_silent. split; [reflexivity|].
      constructor; [split; [intros _; exact I|exact I]|constructor]. }
    destruct (wo_hand (c_wo c)) as [m|]; [|apply TK]. destruct (c_wr c); [destruct (data_of m)| |]; try apply TK; apply part_counts; reflexivity.
  - destruct (g_started (c_mgr c)); [|inversion H; subst; apply part_refl]. inversion H; subst; clear H. unfold print_step.
    destruct (c_prt c); [destruct b; [destruct (cf_bar cf (c_cnt c))|destruct (g_cancel (c_mgr c))]| |]; try apply part_refl; apply part_counts; reflexivity.
Qed.

(* ---------- executions ---------- *)
Lemma crun_parts R cf l c0 c tr : Forall (cact_if R) l -> crun cf l c0 = (c, tr) -> part cf (okact R) c0 c tr.
Proof.
  intros HB HR. refine (crun_inv cf (fun c tr => part cf (okact R) c0 c tr) (cact_if R) c0 (part_refl _ _ _) _ l c tr HB HR).
  intros c1 t1 a c2 es ((lg & G1) & (ls & S1 & S2)) Ha E. destruct (cexec_part R _ _ _ _ _ Ha E) as ((lg' & G1') & (ls' & S1' & S2')).
  unfold part. rewrite gevs_app, sevs_app. split.
  - exists (lg ++ lg'). now rewrite grun_app, G1, G1'.
  - exists (ls ++ ls'). split; [now rewrite run_app, S1, S1'|apply Forall_app; auto].
Qed.
Lemma no_if l : Forall (cact_if False) l.
Proof. apply Forall_forall. intros [] _; cbn; tauto. Qed.
Lemma crun_mgr cf t f outs urls l c tr : crun cf l (client_start cf t f outs urls) = (c, tr) ->
  exists lg, grun lg (NewMng (cf_peers cf)) = (c_mgr c, gevs tr).
Proof. intros H. exact (proj1 (crun_parts False _ _ _ _ _ (no_if l) H)). Qed.
Lemma crun_sys cf t f outs urls l c tr : crun cf l (client_start cf t f outs urls) = (c, tr) ->
  exists ls, run (cf_sha1 cf) ls (start (mkW t f outs [] false)) = (c_wo c, sevs tr) /\ Forall (spawns (eq false)) ls.
Proof.
  intros H. destruct (crun_parts False _ _ _ _ _ (no_if l) H) as (_ & ls & R & B). exists ls. split; [exact R|]. eapply Forall_impl; [|exact B]. intros a [_ X]. exact X.
Qed.

(* ---------- the kinds of steps ---------- *)
Definition mgr_step (cf : conf) (c : client) (g : mgr) : client :=
  mkClient g (sync cf g (c_wo c)) (c_run c) (c_trk c) (c_rounds c) (c_cnt c) (c_wr c) (c_prt c) (c_exit c).
Definition sys_step (cf : conf) (c : client) (a : action) (w : wpc) : client :=
  mkClient (c_mgr c) (fst (exec (cf_sha1 cf) a (c_wo c))) (c_run c) (c_trk c) (c_rounds c) (c_cnt c) w (c_prt c) (c_exit c).
Definition cnt_step (c : client) (o : aop) (w : wpc) : client :=
  mkClient (c_mgr c) (c_wo c) (c_run c) (c_trk c) (c_rounds c) (aexec (c_cnt c) o) w (c_prt c) (c_exit c).
Definition prt_step (c : client) (p : ppc) : client :=
  mkClient (c_mgr c) (c_wo c) (c_run c) (c_trk c) (c_rounds c) (c_cnt c) (c_wr c) p (c_exit c).
Definition end_step (c : client) : client :=
  mkClient (c_mgr c) (c_wo c) (c_run c) (c_trk c) (c_rounds c) (c_cnt c) (c_wr c) (c_prt c) true.
Definition load_of (s : stats) (n : nat) : Z := match n with O => st_download s | S O => st_upload s | _ => st_left s end.
Definition plain (pc : tpc) : Prop := match pc with TNew | TTry _ | TPShake _ _ _ => False | _ => True end.
Definition inp_of (c : client) (p : nat) (i : inp) : inp :=
  if conn_closed (c_mgr c) p then mkI (i_due i) false None (ModelPeer.i_timer i) else i.
Definition ann_in (c : client) (a : ann) : ann := match a with AnnCanceled => if g_cancel (c_mgr c) then AnnCanceled else AnnErr | _ => a end.

Inductive cmove (cf : conf) (c : client) : cact -> client -> list cev -> Prop :=
| cm_none a : cmove cf c a c []
| cm_start r : g_started (c_mgr c) = false -> r = gexec (XDownload (length (c_trk c))) (c_mgr c) ->
    cmove cf c KMain (mgr_step cf c (fst r)) (map VMgr (snd r))
| cm_main : g_started (c_mgr c) = true -> wo_main (c_wo c) <> MRet -> cmove cf c KMain (sys_step cf c AMain (c_wr c)) []
| cm_stop r : g_started (c_mgr c) = true -> wo_main (c_wo c) = MRet -> g_pool (c_mgr c) <> None -> g_stop (c_mgr c) = false -> r = gexec XStop (c_mgr c) ->
    cmove cf c KMain (mgr_step cf c (fst r)) (map VMgr (snd r))
| cm_close r : g_started (c_mgr c) = true -> wo_main (c_wo c) = MRet -> g_pool (c_mgr c) <> None -> g_stop (c_mgr c) = true -> r = gexec XStopClose (c_mgr c) ->
    cmove cf c KMain (mgr_step cf c (fst r)) (map VMgr (snd r))
| cm_exit : g_started (c_mgr c) = true -> wo_main (c_wo c) = MRet -> g_pool (c_mgr c) = None -> cmove cf c KMain (end_step c) []
| cm_signal r : r = gexec XCancel (c_mgr c) -> cmove cf c KSignal (mgr_step cf c (fst r)) (map VMgr (snd r))
| cm_new j tr x t r : nth_error (g_trk (c_mgr c)) j = Some TNew -> nth_error (c_trk c) j = Some tr -> t = new_tracker cf (ct_url tr) x ->
    r = gexec (XTrk j (tin_of (match t with TrNone => false | _ => true end) false x)) (c_mgr c) ->
    cmove cf c (KTrk j x) (mgr_step cf (set_ctr c j (mkCtr (ct_url tr) t [] (ct_grp tr))) (fst r)) (map VMgr (snd r))
| cm_trk j tr x pc r : nth_error (g_trk (c_mgr c)) j = Some pc -> nth_error (c_trk c) j = Some tr -> plain pc ->
    r = gexec (XTrk j (tin_of false false x)) (c_mgr c) -> cmove cf c (KTrk j x) (mgr_step cf c (fst r)) (map VMgr (snd r))
| cm_noshake j tr x k n ips r : nth_error (g_trk (c_mgr c)) j = Some (TPShake k n ips) -> nth_error (c_trk c) j = Some tr -> shaken cf c k x = false ->
    r = gexec (XTrk j (tin_of false false x)) (c_mgr c) -> cmove cf c (KTrk j x) (mgr_step cf c (fst r)) (map VMgr (snd r))
| cm_shake j tr x k n ips r : nth_error (g_trk (c_mgr c)) j = Some (TPShake k n ips) -> nth_error (c_trk c) j = Some tr -> shaken cf c k x = true ->
    r = gexec (XTrk j (tin_of false true x)) (c_mgr c) ->
    cmove cf c (KTrk j x)
      (mkClient (fst r) (fst (exec (cf_sha1 cf) (ASpawn false (ct_grp tr)) (sync cf (fst r) (c_wo c)))) (c_run c ++ [k]) (c_trk c) (c_rounds c) (c_cnt c) (c_wr c) (c_prt c) (c_exit c))
      (VShake k (x_evs x) :: map VMgr (snd r))
| cm_load j n tr : nth_error (g_trk (c_mgr c)) j = Some (TTry n) -> nth_error (c_trk c) j = Some tr -> (length (ct_loads tr) < 3)%nat ->
    cmove cf c (KLoad j) (set_ctr c j (mkCtr (ct_url tr) (ct_trk tr) (ct_loads tr ++ [load_of (c_cnt c) (length (ct_loads tr))]) (ct_grp tr))) []
| cm_ann j n tr d u l rp t e a r : nth_error (g_trk (c_mgr c)) j = Some (TTry n) -> nth_error (c_trk c) j = Some tr -> ct_loads tr = [d; u; l] ->
    tracker_announce cf (t_hash (sh_t (wo_sh (c_wo c)))) j (ct_trk tr) (mkAnn d u l (cf_port cf)) rp = Some (t, e, a) ->
    r = gexec (XTrk j (mkTin false (ann_in c a) false false false)) (c_mgr c) ->
    cmove cf c (KAnn j rp)
      (mkClient (fst r) (sync cf (fst r) (c_wo c)) (c_run c) (upd (c_trk c) j (mkCtr (ct_url tr) t [] (c_rounds c))) (S (c_rounds c)) (c_cnt c) (c_wr c) (c_prt c) (c_exit c))
      (e :: map VMgr (snd r))
| cm_peer k i p we : nth_error (c_run c) k = Some p -> we = exec (cf_sha1 cf) (APeer k (inp_of c p i)) (c_wo c) ->
    cmove cf c (KPeer k i)
      (mkClient (if returned (fst we) k then fst (gexec (XRunEnd p) (c_mgr c)) else c_mgr c) (fst we) (c_run c) (c_trk c) (c_rounds c) (c_cnt c) (c_wr c) (c_prt c) (c_exit c))
      (sysev (snd we))
| cm_take : g_started (c_mgr c) = true -> wo_hand (c_wo c) = None -> cmove cf c KWriter (sys_step cf c AWriter (c_wr c)) []
| cm_add m d : g_started (c_mgr c) = true -> c_wr c = WIdle -> wo_hand (c_wo c) = Some m -> data_of m = Ok d ->
    cmove cf c KWriter (cnt_step c (AddDl (zlen d)) (WAdded (zlen d))) []
| cm_sub n m : g_started (c_mgr c) = true -> c_wr c = WAdded n -> wo_hand (c_wo c) = Some m -> cmove cf c KWriter (cnt_step c (SubLeft n) WSubbed) []
| cm_write m : g_started (c_mgr c) = true -> c_wr c = WSubbed -> wo_hand (c_wo c) = Some m -> cmove cf c KWriter (sys_step cf c AWriter WIdle) []
| cm_bad m : g_started (c_mgr c) = true -> c_wr c = WIdle -> wo_hand (c_wo c) = Some m -> (forall d, data_of m <> Ok d) ->
    cmove cf c KWriter (sys_step cf c AWriter WIdle) []
| cm_print : g_started (c_mgr c) = true -> c_prt c = PrRun -> cf_bar cf (c_cnt c) = true -> cmove cf c (KPrint true) (prt_step c PrPanic) []
| cm_noprint : g_started (c_mgr c) = true -> c_prt c = PrRun -> g_cancel (c_mgr c) = true -> cmove cf c (KPrint false) (prt_step c PrEnd) [].

Lemma cexec_move cf a c c' es : cexec cf a c = (c', es) -> c' = c /\ es = [] \/ dead c = false /\ c_exit c = false /\ cmove cf c a c' es.
Proof.
  intros H. unfold cexec in H. destruct (dead c || c_exit c) eqn:D; [inversion H; subst; auto|]. right. apply orb_false_iff in D. destruct D as [D1 D2].
  split; [exact D1|]. split; [exact D2|]. clear D1 D2.
  destruct a as [| |j x|j|j r|k i| |b].
  - unfold main_step, with_mgr in H. destruct (g_started (c_mgr c)) eqn:S; [|inversion H; subst; now eapply cm_start].
    destruct (wo_main (c_wo c)) eqn:M; try (inversion H; subst; apply cm_main; congruence).
    destruct (g_pool (c_mgr c)) as [pl|] eqn:PL; [|inversion H; subst; now apply cm_exit].
    destruct (g_stop (c_mgr c)) eqn:T; inversion H; subst; [eapply cm_close; congruence|eapply cm_stop; congruence].
  - inversion H; subst. now eapply cm_signal.
  - unfold ctrk_step in H. destruct (nth_error (g_trk (c_mgr c)) j) as [pc|] eqn:EP; [|inversion H; subst; apply cm_none].
    destruct (nth_error (c_trk c) j) as [tr|] eqn:ET; [|destruct pc; inversion H; subst; apply cm_none].
    destruct pc; try (inversion H; subst; eapply cm_trk; [exact EP|exact ET|exact I|reflexivity]); [inversion H; subst; eapply cm_new; eauto|inversion H; subst; apply cm_none|].
    destruct (shaken cf c k x) eqn:SH; inversion H; subst; [eapply cm_shake; eauto|eapply cm_noshake; eauto].
  - inversion H; subst; clear H. unfold load_step. destruct (nth_error (g_trk (c_mgr c)) j) as [pc|] eqn:EP; [|apply cm_none].
    destruct pc; try apply cm_none. destruct (nth_error (c_trk c) j) as [tr|] eqn:ET; [|apply cm_none].
    assert (P : (length (ct_loads tr) < 3)%nat ->
      cmove cf c (KLoad j) (set_ctr c j (mkCtr (ct_url tr) (ct_trk tr) (ct_loads tr ++ [load_of (c_cnt c) (length (ct_loads tr))]) (ct_grp tr))) [])
      by (intros L; eapply cm_load; eauto).
    destruct (ct_loads tr) as [|d [|u [|l [|? ?]]]] eqn:EL; try apply cm_none; apply P; cbn; lia.
  - unfold ann_step in H. destruct (nth_error (g_trk (c_mgr c)) j) as [pc|] eqn:EP; [|inversion H; subst; apply cm_none].
    destruct pc; try (inversion H; subst; apply cm_none).
    destruct (nth_error (c_trk c) j) as [tr|] eqn:ET; [|inversion H; subst; apply cm_none].
    destruct (ct_loads tr) as [|d [|u [|l [|? ?]]]] eqn:EL; try (inversion H; subst; apply cm_none).
    destruct (tracker_announce _ _ _ _ _ _) as [[[t' e] a]|] eqn:EA; [|inversion H; subst; apply cm_none].
    inversion H; subst. eapply cm_ann; eauto.
  - unfold peer_step in H. destruct (nth_error (c_run c) k) as [p|] eqn:EK; [|inversion H; subst; apply cm_none].
    fold (inp_of c p i) in H. destruct (exec (cf_sha1 cf) (APeer k (inp_of c p i)) (c_wo c)) as [w' es'] eqn:EE. inversion H; subst; clear H.
    pose proof (cm_peer cf c k i p _ EK eq_refl) as M. rewrite EE in M. exact M.
  - destruct (g_started (c_mgr c)) eqn:S; inversion H; subst; [|apply cm_none]. unfold writer_step.
    destruct (wo_hand (c_wo c)) as [m|] eqn:C; [|now apply cm_take]. destruct (c_wr c) eqn:W.
    + destruct (data_of m) eqn:D; [eapply cm_add; eauto|eapply cm_bad; eauto; congruence..].
    + eapply cm_sub; eauto.
    + eapply cm_write; eauto.
  - destruct (g_started (c_mgr c)) eqn:S; inversion H; subst; [|apply cm_none]. unfold print_step.
    destruct (c_prt c) eqn:P; try apply cm_none. destruct b.
    + destruct (cf_bar cf (c_cnt c)) eqn:B; [now apply cm_print|apply cm_none].
    + destruct (g_cancel (c_mgr c)) eqn:G; [now apply cm_noprint|apply cm_none].
Qed.
