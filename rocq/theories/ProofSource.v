(* Where peers come from. *)
From Coq Require Import Permutation.
From Verif Require Import Base ProofBase ModelBencode SpecBencode ModelStats ModelTorrent SpecTorrent ProofTorrent ProofNew ModelConn ModelPeer ModelSystem ModelTracker ModelManager ModelClient ModelCmd ModelProgram
  SpecCmd SpecManager SpecClient SpecCrash SpecOrigin SpecProgram SpecSource SpecFinish ProofClient ProofClient2 ProofClient3 ProofClient4 ProofClient7 ProofTracker ProofTracker2 ProofOrigin ProofProgram.

Definition fine (cf : conf) (r : httpres) : Prop := snd (HttpAnnounce (cf_ip cf) r) <> Panic /\ snd (HttpAnnounce (cf_ip cf) r) <> Diverge.
Record fresh (c : client) (js : list (nat * bytes)) : Prop := mkFresh {
  f_dead : dead c = false;
  f_exit : c_exit c = false;
  f_cancel : g_cancel (c_mgr c) = false;
  f_at : forall j u, In (j, u) js -> nth_error (g_trk (c_mgr c)) j = Some TNew /\ exists x, nth_error (c_trk c) j = Some x /\ ct_url x = u
}.
Definition visit (j : nat) (id : bytes) (r : httpres) : list cact :=
  [KTrk j (mkCin id true true []); KTrk j (mkCin id true true []); KLoad j; KLoad j; KLoad j; KAnn j (RHttp r false)].

Lemma upd_same {A} (l : list A) j x y : nth_error l j = Some y -> nth_error (upd l j x) j = Some x.
Proof. revert j. induction l as [|z l IH]; intros [|j] H; cbn in *; try discriminate; [reflexivity|now apply IH]. Qed.
Lemma upd_other {A} (l : list A) j k x : j <> k -> nth_error (upd l j x) k = nth_error l k.
Proof. revert j k. induction l as [|z l IH]; intros [|j] [|k] H; cbn; try reflexivity; [contradiction|]. apply IH. congruence. Qed.

Lemma new_http cf u x : http_url cf u -> new_tracker cf u x = newHttpTracker u (x_id x).
Proof. intros [H|H]; unfold new_tracker; rewrite H; reflexivity. Qed.
(* the fields of a client that does not panic *)
Definition at_work (c : client) : Prop := dead c = false /\ c_exit c = false /\ g_cancel (c_mgr c) = false.
Lemma work_exec cf a c : at_work c -> cexec cf a c =
  match a with
  | KMain => main_step cf c
  | KSignal => with_mgr cf c (gexec XCancel (c_mgr c))
  | KTrk j x => ctrk_step cf c j x
  | KLoad j => (load_step c j, [])
  | KAnn j r => ann_step cf c j r
  | KPeer k i => peer_step cf c k i
  | KWriter => if g_started (c_mgr c) then (writer_step cf c, []) else (c, [])
  | KPrint b => if g_started (c_mgr c) then (print_step cf c b, []) else (c, [])
  end.
Proof. intros (H1 & H2 & _). unfold cexec. now rewrite H1, H2. Qed.
Lemma work_panic c : at_work c -> g_panic (c_mgr c) = false.
Proof. intros (H & _). unfold dead in H. now destruct (g_panic (c_mgr c)). Qed.
(* a step of the manager that only moves tracker j *)
Definition moved (c : client) (j : nat) (pc : tpc) (x : ctr) : client :=
  mkClient (set_trk (c_mgr c) j pc) (c_wo c) (c_run c) (upd (c_trk c) j x) (c_rounds c) (c_cnt c) (c_wr c) (c_prt c) (c_exit c).
Lemma work_moved c j pc x : at_work c -> at_work (moved c j pc x).
Proof. intros H. exact H. Qed.
Lemma work_load c j x : at_work c -> at_work (set_ctr c j x).
Proof. intros H. exact H. Qed.
Lemma with_moved cf c j pc x es : at_work c -> with_mgr cf (set_ctr c j x) (set_trk (c_mgr c) j pc, es) = (moved c j pc x, map VMgr es).
Proof. intros (_ & _ & H). unfold with_mgr, moved, sync, set_ctr. cbn [fst snd set_trk g_cancel c_mgr c_wo c_run c_trk c_rounds c_cnt c_wr c_prt c_exit]. now rewrite H. Qed.
Lemma set_self c j x : nth_error (c_trk c) j = Some x -> set_ctr c j x = c.
Proof.
  intros H. destruct c. unfold set_ctr. cbn in *. f_equal. revert j H. induction c_trk as [|y l IH]; intros [|j] H; cbn in *; try reflexivity; [now injection H as ->|]. f_equal. now apply IH.
Qed.

Lemma go_new cf c j x u i : at_work c -> nth_error (g_trk (c_mgr c)) j = Some TNew -> nth_error (c_trk c) j = Some x -> ct_url x = u -> http_url cf u ->
  cexec cf (KTrk j i) c = (moved c j TStart (mkCtr u (newHttpTracker u (x_id i)) [] (ct_grp x)), []).
Proof.
  intros W H1 H2 Hu Hh. rewrite (work_exec _ _ _ W). unfold ctrk_step. rewrite H1, H2. rewrite Hu, (new_http _ _ _ Hh). cbn [newHttpTracker].
  unfold gexec. rewrite (work_panic _ W), H1. cbn [tstep tin_of i_new]. change (TrHttp u (x_id i) startedEvent (60 * second)) with (newHttpTracker u (x_id i)). now rewrite with_moved.
Qed.
Lemma go_start cf c j x i : at_work c -> nth_error (g_trk (c_mgr c)) j = Some TStart -> nth_error (c_trk c) j = Some x ->
  cexec cf (KTrk j i) c = (moved c j (TTry 0) x, [VMgr (GRound j)]).
Proof.
  intros W H1 H2. rewrite (work_exec _ _ _ W). unfold ctrk_step. rewrite H1, H2. unfold gexec. rewrite (work_panic _ W), H1. cbn [tstep]. destruct W as (W1 & W2 & W3). rewrite W3.
  rewrite <- (set_self _ _ _ H2) at 1. now rewrite with_moved.
Qed.
Lemma go_load cf c j n x : at_work c -> nth_error (g_trk (c_mgr c)) j = Some (TTry n) -> nth_error (c_trk c) j = Some x -> (length (ct_loads x) < 3)%nat ->
  exists v, cexec cf (KLoad j) c = (set_ctr c j (mkCtr (ct_url x) (ct_trk x) (ct_loads x ++ [v]) (ct_grp x)), []).
Proof.
  intros W H1 H2 H3. rewrite (work_exec _ _ _ W). unfold load_step. rewrite H1, H2. destruct (ct_loads x) as [|a [|b [|c0 l]]]; cbn in H3; [eauto|eauto|eauto|lia].
Qed.
Definition next_of (r : res (list addrport)) : tpc := match r with Ok ips => TInit ips | _ => TBack 0 end.
(* the fields that announcing leaves alone *)
Definition rest (c : client) := ((c_wo c, c_run c, c_wr c, c_prt c), (g_conns (c_mgr c), g_started (c_mgr c), g_stop (c_mgr c))).
Lemma go_ann cf c j x u id e i a b d r : at_work c -> nth_error (g_trk (c_mgr c)) j = Some (TTry 0) -> nth_error (c_trk c) j = Some x -> ct_trk x = TrHttp u id e i -> ct_loads x = [a; b; d] -> fine cf r ->
  exists c' x' q es, cexec cf (KAnn j (RHttp r false)) c = (c', VHttp j u q (ips_of (snd (HttpAnnounce (cf_ip cf) r))) :: map VMgr es) /\
    c_mgr c' = set_trk (c_mgr c) j (next_of (snd (HttpAnnounce (cf_ip cf) r))) /\ c_trk c' = upd (c_trk c) j x' /\ at_work c' /\ ct_url x' = ct_url x /\ rest c' = rest c.
Proof.
  intros W H1 H2 H3 H4 [F1 F2]. rewrite (work_exec _ _ _ W). unfold ann_step. rewrite H1, H2, H4, H3. cbn [tracker_announce].
  destruct (HttpAnnounce (cf_ip cf) r) as [i' rs] eqn:E. cbn [snd] in *. unfold gexec. rewrite (work_panic _ W), H1.
  destruct rs as [ips|s| |]; [| |now contradiction F1|now contradiction F2]; cbn [ann_of tstep i_ann Nat.eqb].
  - rewrite (with_moved cf c j (TInit ips) _ _ W). eexists _, _, _, _. split; [reflexivity|]. unfold moved. cbn [c_mgr c_trk next_of]. split; [reflexivity|]. split; [reflexivity|]. split; [exact W|split; reflexivity].
  - rewrite (with_moved cf c j (TBack 0) _ _ W). eexists _, _, _, _. split; [reflexivity|]. unfold moved. cbn [c_mgr c_trk next_of]. split; [reflexivity|]. split; [reflexivity|]. split; [exact W|split; reflexivity].
Qed.

Lemma asked_mgr es : asked (map VMgr es) = [].
Proof. induction es; [reflexivity|assumption]. Qed.
Lemma crun_cons cf a l c c1 e1 c2 e2 : cexec cf a c = (c1, e1) -> crun cf l c1 = (c2, e2) -> crun cf (a :: l) c = (c2, e1 ++ e2).
Proof. intros H1 H2. cbn [crun]. now rewrite H1, H2. Qed.
Lemma visited cf c j u id r x : at_work c -> nth_error (g_trk (c_mgr c)) j = Some TNew -> nth_error (c_trk c) j = Some x -> ct_url x = u -> http_url cf u -> fine cf r ->
  exists c' tr, crun cf (visit j id r) c = (c', tr) /\ at_work c' /\ asked tr = [(u, ips_of (snd (HttpAnnounce (cf_ip cf) r)))] /\
    nth_error (g_trk (c_mgr c')) j = Some (next_of (snd (HttpAnnounce (cf_ip cf) r))) /\ g_peers (c_mgr c') = g_peers (c_mgr c) /\ g_pool (c_mgr c') = g_pool (c_mgr c) /\
    (forall k, k <> j -> nth_error (g_trk (c_mgr c')) k = nth_error (g_trk (c_mgr c)) k /\ nth_error (c_trk c') k = nth_error (c_trk c) k) /\
    exists x', nth_error (c_trk c') j = Some x' /\ rest c' = rest c.
Proof.
  intros W H1 H2 Hu Hh Hr. unfold visit. set (i := mkCin id true true []).
  pose proof (go_new cf c j x u i W H1 H2 Hu Hh) as S1. set (x1 := mkCtr u (newHttpTracker u (x_id i)) [] (ct_grp x)) in *. set (c1 := moved c j TStart x1) in *.
  assert (W1 : at_work c1) by exact W. assert (T1 : nth_error (g_trk (c_mgr c1)) j = Some TStart) by (eapply upd_same; exact H1). assert (X1 : nth_error (c_trk c1) j = Some x1) by (eapply upd_same; exact H2).
  pose proof (go_start cf c1 j x1 i W1 T1 X1) as S2. set (c2 := moved c1 j (TTry 0) x1) in *.
  assert (W2 : at_work c2) by exact W. assert (T2 : nth_error (g_trk (c_mgr c2)) j = Some (TTry 0)) by (eapply upd_same; exact T1). assert (X2 : nth_error (c_trk c2) j = Some x1) by (eapply upd_same; exact X1).
  destruct (go_load cf c2 j 0 x1 W2 T2 X2 ltac:(cbn; lia)) as [v1 S3]. set (x3 := mkCtr (ct_url x1) (ct_trk x1) (ct_loads x1 ++ [v1]) (ct_grp x1)) in *. set (c3 := set_ctr c2 j x3) in *.
  assert (W3 : at_work c3) by exact W. assert (T3 : nth_error (g_trk (c_mgr c3)) j = Some (TTry 0)) by exact T2. assert (X3 : nth_error (c_trk c3) j = Some x3) by (eapply upd_same; exact X2).
  destruct (go_load cf c3 j 0 x3 W3 T3 X3 ltac:(cbn; lia)) as [v2 S4]. set (x4 := mkCtr (ct_url x3) (ct_trk x3) (ct_loads x3 ++ [v2]) (ct_grp x3)) in *. set (c4 := set_ctr c3 j x4) in *.
  assert (W4 : at_work c4) by exact W. assert (T4 : nth_error (g_trk (c_mgr c4)) j = Some (TTry 0)) by exact T2. assert (X4 : nth_error (c_trk c4) j = Some x4) by (eapply upd_same; exact X3).
  destruct (go_load cf c4 j 0 x4 W4 T4 X4 ltac:(cbn; lia)) as [v3 S5]. set (x5 := mkCtr (ct_url x4) (ct_trk x4) (ct_loads x4 ++ [v3]) (ct_grp x4)) in *. set (c5 := set_ctr c4 j x5) in *.
  assert (W5 : at_work c5) by exact W. assert (T5 : nth_error (g_trk (c_mgr c5)) j = Some (TTry 0)) by exact T2. assert (X5 : nth_error (c_trk c5) j = Some x5) by (eapply upd_same; exact X4).
  destruct (go_ann cf c5 j x5 u (x_id i) startedEvent (60 * second) v1 v2 v3 r W5 T5 X5 eq_refl eq_refl Hr) as (c6 & x6 & q & es & S6 & M6 & X6 & W6 & _ & R6).
  eexists c6, _. split.
  { eapply crun_cons; [exact S1|]. eapply crun_cons; [exact S2|]. eapply crun_cons; [exact S3|]. eapply crun_cons; [exact S4|]. eapply crun_cons; [exact S5|]. eapply crun_cons; [exact S6|]. reflexivity. }
  split; [exact W6|]. split.
  { change (asked ((VHttp j u q (ips_of (snd (HttpAnnounce (cf_ip cf) r))) :: map VMgr es) ++ []) = [(u, ips_of (snd (HttpAnnounce (cf_ip cf) r)))]).
    rewrite app_nil_r. change ((u, ips_of (snd (HttpAnnounce (cf_ip cf) r))) :: asked (map VMgr es) = [(u, ips_of (snd (HttpAnnounce (cf_ip cf) r)))]). now rewrite asked_mgr. }
  rewrite M6, X6. split; [cbn [set_trk g_trk]; eapply upd_same; exact T5|]. split; [reflexivity|]. split; [reflexivity|]. split.
  { intros k Hk. assert (Hk' : j <> k) by congruence. cbn [set_trk g_trk]. subst c5 c4 c3 c2 c1. unfold moved, set_ctr. cbn [c_mgr c_trk set_trk g_trk].
    rewrite !upd_other by exact Hk'. split; reflexivity. }
  eexists. split; [eapply upd_same; exact X5|]. exact R6.
Qed.

Lemma asked_app a b : asked (a ++ b) = asked a ++ asked b.
Proof. apply flat_map_app. Qed.
(* any trackers, in any order, whatever they reply *)
Lemma visits cf rs : forall js c, at_work c -> NoDup (map fst js) ->
  (forall j u, In (j, u) js -> nth_error (g_trk (c_mgr c)) j = Some TNew /\ (exists x, nth_error (c_trk c) j = Some x /\ ct_url x = u) /\ http_url cf u /\ fine cf (rs u)) ->
  exists l c' tr, crun cf l c = (c', tr) /\ at_work c' /\ asked tr = map (fun x => (snd x, ips_of (snd (HttpAnnounce (cf_ip cf) (rs (snd x)))))) js.
Proof.
  induction js as [|[j u] js IH]; intros c W ND HA; [exists [], c, []; auto|]. cbn [map fst] in ND. inversion ND as [|? ? NI ND']; subst.
  destruct (HA j u (or_introl eq_refl)) as (H1 & (x & H2 & H3) & H4 & H5).
  destruct (visited cf c j u [] (rs u) x W H1 H2 H3 H4 H5) as (c1 & t1 & R1 & W1 & A1 & _ & _ & _ & O1 & _).
  destruct (IH c1 W1 ND') as (l & c2 & t2 & R2 & W2 & A2).
  - intros k v Hk. destruct (HA k v (or_intror Hk)) as (K1 & K2 & K3). assert (k <> j) by (intros ->; apply NI; change j with (fst (j, v)); now apply in_map).
    destruct (O1 k H) as [E1 E2]. rewrite E1, E2. auto.
  - exists (visit j [] (rs u) ++ l), c2, (t1 ++ t2). split; [rewrite crun_app, R1, R2; reflexivity|]. split; [exact W2|]. rewrite asked_app, A1, A2. reflexivity.
Qed.
Lemma main_first cf t f outs urls : exists c, crun cf [KMain] (client_start cf t f outs urls) = (c, []) /\ at_work c /\ g_peers (c_mgr c) = [] /\ g_pool (c_mgr c) = Some [] /\
  g_trk (c_mgr c) = repeat TNew (length urls) /\ c_trk c = map (fun u => mkCtr u TrNone [] 0) urls.
Proof.
  eexists. split; [reflexivity|]. cbn. rewrite map_length. repeat split; reflexivity.
Qed.
Lemma indexed (urls us : list bytes) : NoDup us -> (forall u, In u us -> In u urls) ->
  exists js, map snd js = us /\ NoDup (map fst js) /\ forall j u, In (j, u) js -> nth_error urls j = Some u.
Proof.
  intros ND. induction ND as [|u us NI ND IH]; intros H; [exists []; repeat split; [constructor|intros ? ? []]|].
  destruct IH as (js & E & N & A); [intros v Hv; apply H; now right|]. destruct (In_nth_error urls u (H u (or_introl eq_refl))) as [j Hj].
  exists ((j, u) :: js). cbn [map fst snd]. split; [now f_equal|]. split.
  - constructor; [|exact N]. intros Hi. apply in_map_iff in Hi as ((j' & v) & Ej & Hi). cbn in Ej. subst j'. apply NI. rewrite <- E. replace u with v; [change v with (snd (j, v)); now apply in_map|].
    specialize (A _ _ Hi). congruence.
  - intros k v [Hk|Hk]; [injection Hk as <- <-; exact Hj|now apply A].
Qed.
Lemma nth_repeat {A} (x : A) n j : (j < n)%nat -> nth_error (repeat x n) j = Some x.
Proof. revert j. induction n as [|n IH]; intros j H; [lia|]. destruct j; [reflexivity|]. cbn. apply IH. lia. Qed.
Lemma client_order cf rs t f outs urls us : NoDup us -> (forall u, In u us -> In u urls /\ http_url cf u /\ fine cf (rs u)) ->
  exists l c tr, crun cf l (client_start cf t f outs urls) = (c, tr) /\ asked tr = map (fun u => (u, ips_of (snd (HttpAnnounce (cf_ip cf) (rs u))))) us.
Proof.
  intros ND H. destruct (indexed urls us ND (fun u Hu => proj1 (H u Hu))) as (js & E & N & A).
  destruct (main_first cf t f outs urls) as (c0 & R0 & W0 & _ & _ & T0 & X0).
  destruct (visits cf rs js c0 W0 N) as (l & c & tr & R & _ & As).
  - intros j u Hj. pose proof (A _ _ Hj) as Hn. assert (Hu : In u us) by (rewrite <- E; change u with (snd (j, u)); now apply in_map).
    destruct (H u Hu) as (_ & K1 & K2). rewrite T0, X0. split; [apply nth_repeat, nth_error_Some; congruence|]. split; [|now split]. exists (mkCtr u TrNone [] 0). split; [|reflexivity]. exact (map_nth_error (fun u => mkCtr u TrNone [] 0) _ _ Hn).
  - exists ([KMain] ++ l), c, ([] ++ tr). split; [rewrite crun_app, R0, R; reflexivity|]. rewrite <- E, map_map. exact As.
Qed.

(* ---------- in terms of the torrent ---------- *)
Section P.
Variables (cf : conf) (look : bytes -> cfgres) (o : osenv) (f : fs) (flags : config) (out file : bytes) (outs : list (option Z)) (order : list bytes -> list bytes) (d : bytes) (M : metainfo) (w : bytes) (c0 : client).
Hypotheses (HO : forall us, Permutation (order us) us) (Hd : o_file o file = Some d) (Hf : SpecBencode.fits d) (HT : torrent_doc d M w)
  (HS : prog_start cf look o f flags (CDownload out file) outs order = PRun c0).

Lemma any_order rs us : NoDup us -> Forall (fun u => tracker_of M u /\ http_url cf u) us -> (forall u, fine cf (rs u)) ->
  exists l p tr, prog_run cf l (PRun c0) = (p, tr) /\ asked tr = map (fun u => (u, ips_of (snd (HttpAnnounce (cf_ip cf) (rs u))))) us.
Proof.
  intros ND HU HR. destruct (download_started _ _ _ _ _ _ _ _ _ _ _ _ _ HS Hd Hf HT) as (f1 & t & HN & E).
  destruct (trackers_new _ _ _ _ _ _ _ _ _ HN) as [_ HTr].
  destruct (client_order cf rs t f1 outs (order (t_trackers t)) us ND) as (l & c & tr & R & A).
  - intros u Hu. rewrite Forall_forall in HU. destruct (HU u Hu) as [H1 H2]. split; [|split; [exact H2|apply HR]]. eapply Permutation_in; [apply Permutation_sym, HO|]. now apply HTr.
  - exists l, (PRun c), tr. split; [cbn [prog_run]; rewrite E, R; reflexivity|exact A].
Qed.
Lemma asked_in u r tr : In (u, r) (asked tr) <-> exists j q, In (VHttp j u q r) tr.
Proof.
  unfold asked. rewrite in_flat_map. split.
  - intros (e & He & Hi). destruct e as [| | |j a q ips|]; cbn in Hi; try contradiction. destruct Hi as [Hi|[]]. injection Hi as <- <-. eauto.
  - intros (j & q & H). eexists. split; [exact H|]. now left.
Qed.
Lemma asked_exact u : (exists l p tr r, prog_run cf l (PRun c0) = (p, tr) /\ In (u, r) (asked tr)) <-> tracker_of M u /\ http_url cf u.
Proof.
  split.
  - intros (l & p & tr & r & R & Hi). apply asked_in in Hi as (j & q & Hi). rewrite <- HS in R. destruct (prog_announced _ _ _ _ _ _ _ _ _ _ _ _ _ _ _ HO Hd Hf HT R _ _ _ _ Hi) as (H1 & H2 & _). auto.
  - intros H. destruct (any_order (fun _ => HttpErr) [u]) as (l & p & tr & R & A).
    + constructor; [intros []|constructor].
    + constructor; [exact H|constructor].
    + intros v. split; discriminate.
    + exists l, p, tr, None. split; [exact R|]. rewrite A. left. reflexivity.
Qed.
End P.

(* ---------- no HTTP tracker ---------- *)
Definition lone (pc : tpc) : Prop := match pc with TNew | TStart | TTry _ | TBack _ | TWait | TEnd => True | _ => False end.
Definition unheard (cf : conf) (x : ctr) : Prop := ~ http_url cf (ct_url x) /\ match ct_trk x with TrHttp _ _ _ _ => False | _ => True end.
Definition quiet (cf : conf) (c : client) : Prop := Forall lone (g_trk (c_mgr c)) /\ Forall (unheard cf) (c_trk c) /\ c_run c = [].
Lemma Forall_upd' {A} (P : A -> Prop) l k x : Forall P l -> P x -> Forall P (upd l k x).
Proof. intros F Hx. revert k. induction F as [|y l Hy F IH]; intros k; [constructor|]. destruct k; cbn [upd]; constructor; auto. Qed.
Lemma gexec_trk a g : (forall n, a <> XDownload n) -> (forall j i, a <> XTrk j i) -> g_trk (fst (gexec a g)) = g_trk g /\ snd (gexec a g) = [].
Proof.
  intros H1 H2. unfold gexec. destruct (g_panic g); [split; reflexivity|]. destruct a as [n|j i|k| | |]; [now contradiction (H1 n)|now contradiction (H2 j i)| | | |].
  - destruct (nth_error (g_peers g) k) as [p|]; [destruct (mp_state p)|]; split; reflexivity.
  - split; reflexivity.
  - destruct (g_stop g); [split; reflexivity|]. unfold stop_check. destruct (g_pool g); [destruct (g_started g)|]; split; reflexivity.
  - destruct (g_stop g); [|split; reflexivity]. unfold stop_close. destruct (close_all _ _ _); split; reflexivity.
Qed.
Lemma tstep_lone g j pc i r : lone pc -> (forall n, pc <> TTry n) -> Forall lone (g_trk g) -> tstep g j pc i = Some r -> Forall lone (g_trk (fst r)) /\ Forall deaf (map VMgr (snd r)).
Proof.
  intros L N F H. destruct pc as [| |n|n|ips|k ips|k n ips|k n ips|k n ips| |]; try contradiction; [| |now contradiction (N n)| | |]; cbn [tstep] in H.
  - injection H as <-. cbn. split; [apply Forall_upd'; [exact F|destruct (i_new i); exact I]|constructor].
  - destruct (g_cancel g); injection H as <-; cbn; (split; [apply Forall_upd'; [exact F|exact I]|repeat constructor]).
  - destruct (i_timer i); [|destruct (g_cancel g); [|discriminate]]; injection H as <-; cbn; (split; [apply Forall_upd'; [exact F|exact I]|repeat constructor]).
  - destruct (i_timer i); [|destruct (g_cancel g); [|discriminate]]; injection H as <-; cbn; (split; [apply Forall_upd'; [exact F|exact I]|repeat constructor]).
  - discriminate.
Qed.
Lemma gexec_lone g j i pc : nth_error (g_trk g) j = Some pc -> lone pc -> (forall n, pc <> TTry n) -> Forall lone (g_trk g) ->
  Forall lone (g_trk (fst (gexec (XTrk j i) g))) /\ Forall deaf (map VMgr (snd (gexec (XTrk j i) g))).
Proof.
  intros H L N F. unfold gexec. destruct (g_panic g); [split; [exact F|constructor]|]. rewrite H. destruct (tstep g j pc i) as [r|] eqn:E; [|split; [exact F|constructor]].
  eapply tstep_lone; eassumption.
Qed.
Lemma quiet_step cf a c c' es : quiet cf c -> cexec cf a c = (c', es) -> quiet cf c' /\ Forall deaf es.
Proof.
  intros (Q1 & Q2 & Q3) H. unfold cexec in H. destruct (dead c || c_exit c); [injection H as <- <-; split; [now split|constructor]|].
  assert (AT : forall j pc, nth_error (g_trk (c_mgr c)) j = Some pc -> lone pc) by (intros j pc Hj; rewrite Forall_forall in Q1; apply Q1; eapply nth_error_In; exact Hj).
  assert (AX : forall j x, nth_error (c_trk c) j = Some x -> unheard cf x) by (intros j x Hj; rewrite Forall_forall in Q2; apply Q2; eapply nth_error_In; exact Hj).
  destruct a as [| |j x|j|j r|k i| |b].
  - unfold main_step in H. destruct (g_started (c_mgr c)).
    + destruct (wo_main (c_wo c)); try (injection H as <- <-; split; [now split|constructor]).
      destruct (g_pool (c_mgr c)); [destruct (g_stop (c_mgr c))|]; [| |injection H as <- <-; split; [now split|constructor]].
      * destruct (gexec_trk XStopClose (c_mgr c)) as [E1 E2]; [discriminate|discriminate|]. unfold with_mgr in H. rewrite E2 in H. injection H as <- <-. split; [|constructor]. split; [cbn [c_mgr]; now rewrite E1|now split].
      * destruct (gexec_trk XStop (c_mgr c)) as [E1 E2]; [discriminate|discriminate|]. unfold with_mgr in H. rewrite E2 in H. injection H as <- <-. split; [|constructor]. split; [cbn [c_mgr]; now rewrite E1|now split].
    + unfold with_mgr in H. injection H as <- <-. unfold gexec. destruct (g_panic (c_mgr c)); [split; [now split|constructor]|]. destruct (g_started (c_mgr c)); [split; [now split|constructor]|].
      split; [|constructor]. split; [|now split]. cbn. clear. induction (length (c_trk c)); constructor; [exact I|assumption].
  - destruct (gexec_trk XCancel (c_mgr c)) as [E1 E2]; [discriminate|discriminate|]. unfold with_mgr in H. rewrite E2 in H. injection H as <- <-. split; [|constructor]. split; [cbn [c_mgr]; now rewrite E1|now split].
  - unfold ctrk_step in H. destruct (nth_error (g_trk (c_mgr c)) j) as [pc|] eqn:Ej; [|injection H as <- <-; split; [now split|constructor]]. pose proof (AT _ _ Ej) as L.
    destruct (nth_error (c_trk c) j) as [t|] eqn:Et.
    + destruct pc as [| |n|n|ips|k ips|k n ips|k n ips|k n ips| |]; try contradiction; try (injection H as <- <-; split; [now split|constructor]);
        unfold with_mgr in H; injection H as <- <-.
      * match goal with |- context [gexec ?A ?g] => destruct (gexec_lone g j (tin_of (match new_tracker cf (ct_url t) x with TrNone => false | _ => true end) false x) _ Ej I ltac:(discriminate) Q1) as [G1 G2] end.
        split; [|exact G2]. split; [exact G1|]. split; [|exact Q3]. cbn [c_trk set_ctr]. apply Forall_upd'; [exact Q2|]. destruct (AX _ _ Et) as [U _]. split; [exact U|]. cbn [ct_trk].
        pose proof (new_own cf (ct_url t) _ x (ct_grp t) eq_refl) as O. unfold own in O. cbn [ct_trk ct_url] in O. destruct (new_tracker cf (ct_url t) x) as [|ad id ev i|ud]; [exact I| |exact I]. apply U. destruct O as [-> O]. exact O.
      * destruct (gexec_lone (c_mgr c) j (tin_of false false x) _ Ej I ltac:(discriminate) Q1) as [G1 G2]. split; [|exact G2]. split; [exact G1|now split].
      * destruct (gexec_lone (c_mgr c) j (tin_of false false x) _ Ej I ltac:(discriminate) Q1) as [G1 G2]. split; [|exact G2]. split; [exact G1|now split].
      * destruct (gexec_lone (c_mgr c) j (tin_of false false x) _ Ej I ltac:(discriminate) Q1) as [G1 G2]. split; [|exact G2]. split; [exact G1|now split].
      * destruct (gexec_lone (c_mgr c) j (tin_of false false x) _ Ej I ltac:(discriminate) Q1) as [G1 G2]. split; [|exact G2]. split; [exact G1|now split].
    + destruct pc as [| |n|n|ips|k ips|k n ips|k n ips|k n ips| |]; try contradiction; injection H as <- <-; (split; [now split|constructor]).
  - injection H as <- <-. split; [|constructor]. unfold load_step. destruct (nth_error (g_trk (c_mgr c)) j) as [pc|]; [|now split]. destruct pc; try (now split). destruct (nth_error (c_trk c) j) as [t|] eqn:Et; [|now split].
    destruct (AX _ _ Et) as [U1 U2]. destruct (ct_loads t) as [|a [|b0 [|d l]]]; try (now split); (split; [exact Q1|]; split; [|exact Q3]; apply Forall_upd'; [exact Q2|]; split; [exact U1|exact U2]).
  - unfold ann_step in H. destruct (nth_error (g_trk (c_mgr c)) j) as [pc|] eqn:Ej; [|injection H as <- <-; split; [now split|constructor]]. destruct pc as [| |n|n|ips|k ips|k n ips|k n ips|k n ips| |]; try (injection H as <- <-; split; [now split|constructor]).
    destruct (nth_error (c_trk c) j) as [t|] eqn:Et; [|injection H as <- <-; split; [now split|constructor]]. destruct (AX _ _ Et) as [U1 U2].
    destruct (ct_loads t) as [|x1 [|x2 [|x3 [|? ?]]]]; try (injection H as <- <-; split; [now split|constructor]).
    destruct (tracker_announce _ _ _ _ _ _) as [[[t' e] an]|] eqn:ET; [|injection H as <- <-; split; [now split|constructor]].
    unfold tracker_announce in ET. destruct (ct_trk t) as [|ad id ev i|ud] eqn:EK; [discriminate|contradiction|]. destruct r as [h cn|tx1 tx2 key ok s]; [discriminate|].
    match type of ET with context [UdpAnnounce ?a ?b ?c ?d ?e ?f ?g ?h ?i] => destruct (udp_announce_fails a b c d e f g h i) as (er & EU); destruct (UdpAnnounce a b c d e f g h i) as [[u' ds] res] end.
    cbn [snd] in EU. subst res. cbn [ips_of ann_of] in ET. injection ET as <- <- <-. unfold with_mgr in H. injection H as <- <-.
    assert (G : Forall lone (g_trk (fst (gexec (XTrk j (mkTin false AnnErr false false false)) (c_mgr c)))) /\ Forall deaf (map VMgr (snd (gexec (XTrk j (mkTin false AnnErr false false false)) (c_mgr c))))).
    { unfold gexec. destruct (g_panic (c_mgr c)); [split; [exact Q1|constructor]|]. rewrite Ej. cbn [tstep i_ann fst snd set_trk g_trk map]. split; [apply Forall_upd'; [exact Q1|destruct (Nat.eqb n 4); exact I]|repeat constructor]. }
    destruct G as [G1 G2]. split; [|constructor; [reflexivity|exact G2]]. split; [exact G1|]. split; [|exact Q3]. cbn [c_trk set_ctr]. apply Forall_upd'; [exact Q2|]. split; [exact U1|exact I].
  - unfold peer_step in H. rewrite Q3 in H. destruct k; injection H as <- <-; (split; [now split|constructor]).
  - destruct (g_started (c_mgr c)); injection H as <- <-; [|split; [now split|constructor]]. split; [|constructor].
    unfold writer_step. destruct (wo_hand (c_wo c)) as [m|]; [destruct (c_wr c); [destruct (data_of m)| |]|]; (split; [exact Q1|now split]).
  - destruct (g_started (c_mgr c)); injection H as <- <-; [|split; [now split|constructor]]. split; [|constructor].
    unfold print_step. destruct (c_prt c); [destruct b; [destruct (cf_bar cf (c_cnt c))|destruct (g_cancel (c_mgr c))]| |]; (split; [exact Q1|now split]).
Qed.
Lemma quiet_run cf t f outs urls l c tr : (forall u, In u urls -> ~ http_url cf u) -> crun cf l (client_start cf t f outs urls) = (c, tr) -> Forall deaf tr.
Proof.
  intros HU HR. apply (crun_inv cf (fun c tr => quiet cf c /\ Forall deaf tr) (fun _ => True) (client_start cf t f outs urls)) with (l := l) in HR; [apply HR| | |].
  - split; [|constructor]. split; [constructor|]. split; [|reflexivity]. apply Forall_forall. intros x Hx. apply in_map_iff in Hx as (u & <- & Hu). split; [now apply HU|exact I].
  - intros c' tr' a c'' es [Q D] _ HE. destruct (quiet_step _ _ _ _ _ Q HE) as [Q' D']. split; [exact Q'|]. now apply Forall_app.
  - apply Forall_forall. intros; exact I.
Qed.
Lemma deaf_answers tr : Forall deaf tr -> answers_only tr.
Proof. intros H t1 k b t2 -> _. exfalso. apply Forall_app in H as [_ H]. inversion H as [|? ? X]. exact X. Qed.

(* a peer of an HTTP tracker is dialled *)
Definition plain (pc : tpc) : Prop := match pc with TNew | TTry _ | TPShake _ _ _ => False | _ => True end.
Lemma go_any cf c j pc x i g es : at_work c -> nth_error (g_trk (c_mgr c)) j = Some pc -> nth_error (c_trk c) j = Some x -> plain pc ->
  tstep (c_mgr c) j pc (tin_of false false i) = Some (g, es) -> g_panic g = false -> g_cancel g = false ->
  exists c', cexec cf (KTrk j i) c = (c', map VMgr es) /\ c_mgr c' = g /\ c_trk c' = c_trk c /\ at_work c'.
Proof.
  intros W H1 H2 HP HT G1 G2. rewrite (work_exec _ _ _ W). unfold ctrk_step. rewrite H1, H2.
  exists (mkClient g (c_wo c) (c_run c) (c_trk c) (c_rounds c) (c_cnt c) (c_wr c) (c_prt c) (c_exit c)). split; [|split; [reflexivity|split; [reflexivity|]]].
  - assert (E : with_mgr cf c (gexec (XTrk j (tin_of false false i)) (c_mgr c)) = (mkClient g (c_wo c) (c_run c) (c_trk c) (c_rounds c) (c_cnt c) (c_wr c) (c_prt c) (c_exit c), map VMgr es)).
    { unfold gexec. rewrite (work_panic _ W), H1, HT. unfold with_mgr, sync. cbn [fst snd]. now rewrite G2. }
    destruct pc; try contradiction; exact E.
  - destruct W as (W1 & W2 & W3). split; [|now split]. unfold dead in *. cbn [c_mgr c_wo c_prt]. rewrite G1. now destruct (g_panic (c_mgr c)).
Qed.
Lemma dials cf t f outs urls u : In u urls -> http_url cf u -> exists l c tr j k, crun cf l (client_start cf t f outs urls) = (c, tr) /\ In (VMgr (GDial j k)) tr.
Proof.
  intros Hu Hh. apply In_nth_error in Hu as [j Hj]. destruct (main_first cf t f outs urls) as (c0 & R0 & W0 & P0 & O0 & T0 & X0).
  destruct (visited cf c0 j u [] one_peer (mkCtr u TrNone [] 0) W0) as (c1 & t1 & R1 & W1 & _ & T1 & P1 & O1 & _ & (x & X1 & _)).
  - rewrite T0. apply nth_repeat, nth_error_Some. congruence.
  - rewrite X0. exact (map_nth_error (fun u => mkCtr u TrNone [] 0) _ _ Hj).
  - reflexivity.
  - exact Hh.
  - split; vm_compute; discriminate.
  - assert (EN : exists a, next_of (snd (HttpAnnounce (cf_ip cf) one_peer)) = TInit [a]) by (eexists; vm_compute; reflexivity). destruct EN as [a EN]. rewrite EN in T1. clear EN.
    rewrite P0 in P1. rewrite O0 in O1.
    set (i := mkCin [] false true []).
    destruct (go_any cf c1 j (TInit [a]) x i
      (set_trk (mkMgr (g_limit (c_mgr c1)) (g_started (c_mgr c1)) (g_cancel (c_mgr c1)) (Some [(apString a, 0%nat)]) [mkMp a None PsNew] (g_conns (c_mgr c1)) (g_trk (c_mgr c1))
         (u64 (g_num (c_mgr c1) + 1)) (g_stop (c_mgr c1)) (g_panic (c_mgr c1))) j (TPStart 0 [])) [GAdd j a true] W1 T1 X1 I) as (c2 & E2 & M2 & X2 & W2).
    { cbn [tstep]. unfold AddPeer. rewrite O1. cbn [pool_get]. rewrite P1. reflexivity. }
    { exact (work_panic _ W1). }
    { apply W1. }
    assert (T2 : nth_error (g_trk (c_mgr c2)) j = Some (TPStart 0 [])) by (rewrite M2; eapply upd_same; exact T1). rewrite <- X2 in X1.
    destruct (go_any cf c2 j (TPStart 0 []) x i (set_trk (c_mgr c2) j (TPDial 0 0 [])) [] W2 T2 X1 I) as (c3 & E3 & M3 & X3 & W3).
    { cbn [tstep]. destruct W2 as (_ & _ & ->). reflexivity. }
    { exact (work_panic _ W2). }
    { apply W2. }
    assert (T3 : nth_error (g_trk (c_mgr c3)) j = Some (TPDial 0 0 [])) by (rewrite M3; eapply upd_same; exact T2). rewrite <- X3 in X1.
    assert (P3 : g_peers (c_mgr c3) = [mkMp a None PsNew]) by (rewrite M3, M2; reflexivity).
    destruct (go_any cf c3 j (TPDial 0 0 []) x i (set_trk (set_peers (c_mgr c3) [mkMp a None PsNew]) j (TPBack 0 0 [])) [GDial j 0] W3 T3 X1 I) as (c4 & E4 & _).
    { cbn [tstep]. rewrite P3. reflexivity. }
    { exact (work_panic _ W3). }
    { apply W3. }
    exists ([KMain] ++ visit j [] one_peer ++ [KTrk j i; KTrk j i; KTrk j i]), c4, ([] ++ t1 ++ [VMgr (GAdd j a true); VMgr (GDial j 0)]), j, 0%nat.
    split; [rewrite crun_app, R0, crun_app, R1; cbn [crun]; rewrite E2, E3, E4; reflexivity|].
    cbn [app]. apply in_or_app. right. right. now left.
Qed.

Section P2.
Variables (cf : conf) (look : bytes -> cfgres) (o : osenv) (f : fs) (flags : config) (out file : bytes) (outs : list (option Z)) (order : list bytes -> list bytes) (d : bytes) (M : metainfo) (w : bytes) (c0 : client).
Hypotheses (HO : forall us, Permutation (order us) us) (Hd : o_file o file = Some d) (Hf : SpecBencode.fits d) (HT : torrent_doc d M w)
  (HS : prog_start cf look o f flags (CDownload out file) outs order = PRun c0).
Lemma no_http_deaf l p tr : (forall u, tracker_of M u -> ~ http_url cf u) -> prog_run cf l (PRun c0) = (p, tr) -> Forall deaf tr /\ prog_fs p = prog_fs (PRun c0).
Proof.
  intros HU HR. destruct (download_started _ _ _ _ _ _ _ _ _ _ _ _ _ HS Hd Hf HT) as (f1 & t & HN & E). destruct (trackers_new _ _ _ _ _ _ _ _ _ HN) as [_ HTr].
  cbn [prog_run] in HR. destruct (crun cf l c0) as [c tr'] eqn:EC. injection HR as <- <-. subst c0.
  assert (D : Forall deaf tr') by (eapply quiet_run; [|exact EC]; intros u Hu; apply HU, HTr; eapply Permutation_in; [apply HO|exact Hu]).
  split; [exact D|]. destruct (nothing_stored _ _ _ _ _ _ _ _ EC (deaf_answers _ D)) as (_ & H & _). cbn [prog_fs]. exact H.
Qed.
Lemma dial_exact : (exists l p tr j k, prog_run cf l (PRun c0) = (p, tr) /\ In (VMgr (GDial j k)) tr) <-> exists u, tracker_of M u /\ http_url cf u.
Proof.
  destruct (download_started _ _ _ _ _ _ _ _ _ _ _ _ _ HS Hd Hf HT) as (f1 & t & HN & E). destruct (trackers_new _ _ _ _ _ _ _ _ _ HN) as [_ HTr]. split.
  - intros (l & p & tr & j & k & HR & Hi). cbn [prog_run] in HR. destruct (crun cf l c0) as [c tr'] eqn:EC. injection HR as <- <-. rewrite E in EC. apply in_split in Hi as (a & b & Hi).
    destruct (dialled_named _ _ _ _ _ _ _ _ _ _ _ _ EC Hi) as (ad & _ & e & He & Hn).
    assert (He' : In e tr') by (rewrite Hi; apply in_or_app; now left).
    destruct e as [| | |j' u q r|j' ds r]; try contradiction.
    + destruct (announce_addr _ _ _ _ _ _ _ _ EC) as (_ & _ & HA). destruct (HA _ _ _ _ He') as [H1 H2]. exists u. split; [|exact H2]. apply HTr. eapply Permutation_in; [apply HO|]. eapply nth_error_In; exact H1.
    + exfalso. assert (r = None); [|subst r; exact Hn]. clear - EC He'. remember (client_start cf t f1 outs (order (t_trackers t))) as c1 eqn:X. clear X. revert c1 tr' EC He'. induction l as [|a l IH]; intros c1 tr' EC He'; cbn [crun] in EC; [injection EC as <- <-; destruct He'|].
      destruct (cexec cf a c1) as [c2 e2] eqn:E2. destruct (crun cf l c2) as [c3 e3] eqn:E3. injection EC as -> <-. apply in_app_or in He' as [H|H]; [|eapply IH; eassumption].
      destruct (ProofClient7.step_announce _ _ _ _ _ E2) as [S|(j0 & r0 & e & es' & _ & -> & S & K)]; [exact (False_rect _ (ProofClient7.silent_in _ _ S H))|].
      destruct H as [->|H]; [apply K|exact (False_rect _ (ProofClient7.silent_in _ _ S H))].
  - intros (u & Hu & Hh). destruct (dials cf t f1 outs (order (t_trackers t)) u) as (l & c & tr & j & k & R & Hi); [|exact Hh|].
    + eapply Permutation_in; [apply Permutation_sym, HO|]. now apply HTr.
    + exists l, (PRun c), tr, j, k. split; [cbn [prog_run]; rewrite E, R; reflexivity|exact Hi].
Qed.
End P2.

(* ---------- a torrent without files ---------- *)
Lemma new_empty cwd creat mk f m h dir f1 t : mi_length m = 0 -> mi_files m = [] -> New cwd creat mk f m h dir = (f1, Ok t) -> f1 = f /\ t_osfiles t = [].
Proof.
  intros H1 H2 HN. unfold New in HN. destruct (NewPieces (mi_pieces m)); try discriminate. rewrite H1, H2 in HN. cbn [Z.eqb andb] in HN.
  destruct mk; [discriminate|]. destruct (download_paths dir true (mi_name m) []) as [ps| | |] eqn:E; try discriminate. cbn in E. injection E as <-. cbn in HN. injection HN as <- <-. split; reflexivity.
Qed.
Lemma nothing_created cf look o f flags out file outs order d M w c0 l p tr :
  o_file o file = Some d -> SpecBencode.fits d -> torrent_doc d M w -> mi_length M = 0 -> mi_files M = [] -> 0 <= mi_piece_length M < 2 ^ 30 -> Forall sends_bytes l ->
  prog_start cf look o f flags (CDownload out file) outs order = PRun c0 -> prog_run cf l (PRun c0) = (p, tr) -> forall x, prog_fs p x = f x.
Proof.
  intros Hd Hf HT H1 H2 HPL HB HS HR x. destruct (download_started _ _ _ _ _ _ _ _ _ _ _ _ _ HS Hd Hf HT) as (f1 & t & HN & E).
  destruct (new_empty _ _ _ _ _ _ _ _ _ H1 H2 HN) as [-> E2]. cbn [prog_run] in HR. destruct (crun cf l c0) as [c tr'] eqn:EC. injection HR as <- <-. subst c0. cbn [prog_fs].
  eapply only_its_files; try eassumption.
  - rewrite E2. constructor.
  - unfold file_lengths. rewrite H1, H2. constructor.
  - rewrite E2. intros [].
Qed.
