(* C111, C112, C116: executions that are not as expected.                       *)
From Verif Require Import Base ProofBase Sha1 SpecPath ModelPath ModelBitset ModelMsg ModelTorrent ModelConn ModelStats ModelPeer ModelSystem ModelTracker ModelManager ModelClient
  SpecPeer SpecTracker SpecTorrent SpecManager SpecClient ProofSystem ProofManager ProofManager2 ProofManager3 ProofManager4 ProofOffer ProofProgress ProofPeer ProofVerified ProofRequests ProofWitness ProofClient ProofClient2 ProofClient3 ProofClient4.

(* the signal, the peer returns, then the wait group, the context, the channel, Stop *)
Definition cx_end : list cact := [KSignal] ++ repeat (KPeer 0 go) 4 ++ repeat KMain 6.
(* the duplicate *)
Definition cx_twice : list cact := cx_connect ++ repeat (KPeer 0 go) 6 ++ cx_piece 0 [1; 2; 3; 4] ++ cx_piece 0 [1; 2; 3; 4].
Definition cx_between : list cact := cx_connect ++ repeat (KPeer 0 go) 6 ++ cx_piece 0 [1; 2; 3; 4] ++
  repeat (KTrk 0 well) 2 ++ [KLoad 0] ++ cx_piece 1 [5; 6; 7; 8] ++ [KLoad 0; KLoad 0; KAnn 0 (RHttp one_peer false)].
Definition ill : cin := mkCin [] false true [].
Definition cx_dark : list cact := [KMain; KTrk 0 well; KTrk 0 well] ++ announce1 ++ repeat (KTrk 0 ill) 12 ++ [KSignal] ++ repeat KMain 5.

(* ---------- C111 ---------- *)
Lemma client_split cf l s c tr : crun cf l s = (c, tr) -> c = fst (crun cf l s) /\ tr = snd (crun cf l s).
Proof. intros H. rewrite H. auto. Qed.

Lemma started_again :
  ~ (forall cf t f outs urls l c tr t1 j u q ips t2 u' q' ips', crun cf l (client_start cf t f outs urls) = (c, tr) -> tr = t1 ++ VHttp j u q (Some ips) :: t2 ->
       In (VHttp j u' q' ips') t2 -> lookup (str "event") q' <> Some (str "started")).
Proof.
  intros H. destruct (crun (cx_conf sha1) (cx_download ++ cx_again) (cx_start sha1)) as [c tr] eqn:E.
  assert (X : exists t1 u q ips t2 u' q' ips', tr = t1 ++ VHttp 0 u q (Some ips) :: t2 /\ In (VHttp 0 u' q' ips') t2 /\ lookup (str "event") q' = Some (str "started")).
  { vm_compute in E. injection E as _ <-. eexists [_], _, _, _, _, _, _, _. split; [reflexivity|]. split; [|shelve]. do 11 right. left. reflexivity. Unshelve. reflexivity. }
  destruct X as (t1 & u & q & ips & t2 & u' & q' & ips' & X1 & X2 & X3). exact (H _ _ _ _ _ _ _ _ _ _ _ _ _ _ _ _ _ E X1 X2 X3).
Qed.
Lemma no_stopped :
  ~ (forall cf t f outs urls l c tr j u q ips, crun cf l (client_start cf t f outs urls) = (c, tr) -> client_status c = Some 0 -> In (VHttp j u q (Some ips)) tr ->
       exists u' q' ips', In (VHttp j u' q' ips') tr /\ lookup (str "event") q' = Some (str "stopped")).
Proof.
  intros H. destruct (crun (cx_conf sha1) (cx_download ++ cx_again ++ cx_end) (cx_start sha1)) as [c tr] eqn:E.
  assert (X : client_status c = Some 0 /\ exists u q ips, In (VHttp 0 u q (Some ips)) tr).
  { vm_compute in E. injection E as <- <-. split; [reflexivity|]. eexists _, _, _. right. left. reflexivity. }
  destruct X as (X1 & u & q & ips & X2). destruct (H _ _ _ _ _ _ _ _ _ _ _ _ E X1 X2) as (u' & q' & ips' & Y1 & Y2).
  pose proof (announced_event _ _ _ _ _ _ _ _ _ _ _ _ E Y1) as Y3. rewrite Y3 in Y2. discriminate Y2.
Qed.
Lemma no_completed :
  ~ (forall cf t f outs urls l1 c1 tr1 l2 c2 tr2 j u q ips, Done t = false ->
       crun cf l1 (client_start cf t f outs urls) = (c1, tr1) -> Done (sh_t (wo_sh (c_wo c1))) = true ->
       crun cf l2 c1 = (c2, tr2) -> In (VHttp j u q ips) tr2 ->
       exists u' q' ips', In (VHttp j u' q' ips') (tr1 ++ tr2) /\ lookup (str "event") q' = Some (str "completed")).
Proof.
  intros H. destruct (crun (cx_conf sha1) cx_download (cx_start sha1)) as [c1 tr1] eqn:E1. destruct (crun (cx_conf sha1) cx_again c1) as [c2 tr2] eqn:E2.
  assert (E : crun (cx_conf sha1) (cx_download ++ cx_again) (cx_start sha1) = (c2, tr1 ++ tr2)) by (rewrite crun_app, E1, E2; reflexivity).
  assert (X : Done (cx_t sha1) = false /\ Done (sh_t (wo_sh (c_wo c1))) = true /\ exists u q ips, In (VHttp 0 u q ips) tr2).
  { vm_compute in E1. injection E1 as <- <-. vm_compute in E2. injection E2 as <- <-. split; [reflexivity|]. split; [reflexivity|]. eexists _, _, _. right. left. reflexivity. }
  destruct X as (X0 & X1 & u & q & ips & X2). destruct (H _ _ _ _ _ _ _ _ _ _ _ _ _ _ _ X0 E1 X1 E2 X2) as (u' & q' & ips' & Y1 & Y2).
  pose proof (announced_event _ _ _ _ _ _ _ _ _ _ _ _ E Y1) as Y3. rewrite Y3 in Y2. discriminate Y2.
Qed.

(* ---------- C112 ---------- *)
Lemma sum_wrong :
  ~ (forall cf t f outs urls l c tr e d n, crun cf l (client_start cf t f outs urls) = (c, tr) -> In e tr ->
       tells (str "downloaded") d e -> tells (str "left") n e -> d + n = t_length t).
Proof.
  intros H. destruct (crun (cx_conf sha1) cx_between (cx_start sha1)) as [c tr] eqn:E.
  assert (X : exists e, In e tr /\ tells (str "downloaded") 4 e /\ tells (str "left") 0 e).
  { vm_compute in E. injection E as _ <-. eexists. split; [do 13 right; left; reflexivity|].
    split; (eexists; split; [reflexivity|]; split; [discriminate|]; split; [repeat constructor; discriminate|reflexivity]). }
  destruct X as (e & X1 & X2 & X3). specialize (H _ _ _ _ _ _ _ _ _ _ _ E X1 X2 X3). discriminate H.
Qed.
Lemma left_wrong :
  ~ (forall cf t f outs urls l c tr e, crun cf l (client_start cf t f outs urls) = (c, tr) -> In e tr -> tells (str "left") 0 e -> Done (sh_t (wo_sh (c_wo c))) = true).
Proof.
  intros H. destruct (crun (cx_conf sha1) (cx_twice ++ cx_again) (cx_start sha1)) as [c tr] eqn:E.
  assert (X : Done (sh_t (wo_sh (c_wo c))) = false /\ exists e, In e tr /\ tells (str "left") 0 e).
  { vm_compute in E. injection E as <- <-. split; [reflexivity|]. eexists. split; [do 13 right; left; reflexivity|].
    eexists; split; [reflexivity|]; split; [discriminate|]; split; [repeat constructor; discriminate|reflexivity]. }
  destruct X as (X0 & e & X1 & X2). rewrite (H _ _ _ _ _ _ _ _ _ E X1 X2) in X0. discriminate X0.
Qed.

(* between announces nothing is loaded *)
Definition linv (c : client) : Prop :=
  forall j x, nth_error (c_trk c) j = Some x -> ct_loads x <> [] -> exists n, nth_error (g_trk (c_mgr c)) j = Some (TTry n).
Lemma gexec_keep g tr a g' es j c : ginv g tr -> gexec a g = (g', es) -> nth_error (g_trk g) j = Some c -> (forall i, a <> XTrk j i) -> nth_error (g_trk g') j = Some c.
Proof.
  intros IV H HJ HA. unfold gexec in H. destruct (g_panic g); [now inversion H; subst|].
  destruct a as [n|j' i|k| | |].
  - rewrite (started_trk _ _ _ _ IV HJ) in H. now inversion H; subst.
  - destruct (nth_error (g_trk g) j') as [c'|] eqn:EJ; [|now inversion H; subst].
    destruct (tstep g j' c' i) as [[g1 es1]|] eqn:ET; inversion H; subst; [|exact HJ].
    assert (NE : j <> j') by (intros ->; exact (HA i eq_refl)).
    destruct (tstep_other _ _ _ _ _ _ _ NE ET) as (E & _ & _). now rewrite E.
  - destruct (nth_error (g_peers g) k) as [p|]; [destruct (mp_state p)|]; now inversion H; subst.
  - now inversion H; subst.
  - destruct (g_stop g); inversion H; subst; [exact HJ|]. unfold stop_check. destruct (g_pool g); [destruct (g_started g)|]; exact HJ.
  - destruct (g_stop g); inversion H; subst; [|exact HJ]. unfold stop_close. destruct (close_all _ _ _); exact HJ.
Qed.
Lemma linv_step cf c tr a c' es : ginv (c_mgr c) (gevs tr) -> linv c -> cexec cf a c = (c', es) -> linv c'.
Proof.
  intros IV HI HE. apply cexec_move in HE. destruct HE as [[-> ->]|(D & _ & M)]; [exact HI|].
  assert (MG : forall ga g0, g0 = fst (gexec ga (c_mgr c)) -> (forall j i, ga = XTrk j i -> forall n, nth_error (g_trk (c_mgr c)) j <> Some (TTry n)) ->
    forall j x, nth_error (c_trk c) j = Some x -> ct_loads x <> [] -> exists n, nth_error (g_trk g0) j = Some (TTry n)).
  { intros ga g0 -> HA j x HX HL. destruct (HI j x HX HL) as (n & HN). exists n. destruct (gexec ga (c_mgr c)) as [g1 e1] eqn:G. cbn [fst].
    eapply gexec_keep; eauto. intros i ->. exact (HA j i eq_refl n HN). }
  inversion M; subst; clear M; try exact HI; unfold linv, mgr_step, set_ctr; cbn [c_trk c_mgr]; try (eapply MG; [reflexivity|intros; try discriminate]).
  - intros j0 x0 HX HL. destruct (Nat.eq_dec j0 j) as [->|NE].
    + rewrite (nth_upd_same _ _ _ _ H0) in HX. injection HX as <-. now contradiction HL.
    + rewrite nth_upd_other in HX by congruence. eapply MG; [reflexivity| |exact HX|exact HL]. intros j1 i1 X. injection X as <- _. intros n. congruence.
  - injection H2 as <- _. rewrite H. intros X. injection X as ->. contradiction.
  - injection H2 as <- _. congruence.
  - injection H2 as <- _. congruence.
  - intros j0 x0 HX HL. destruct (Nat.eq_dec j0 j) as [->|NE]; [eauto|]. rewrite nth_upd_other in HX by congruence. eauto.
  - intros j0 x0 HX HL. destruct (Nat.eq_dec j0 j) as [->|NE].
    + rewrite (nth_upd_same _ _ _ _ H0) in HX. injection HX as <-. now contradiction HL.
    + rewrite nth_upd_other in HX by congruence. destruct (HI j0 x0 HX HL) as (n0 & HN). exists n0. 
      match goal with |- context [fst (gexec ?ga ?g)] => destruct (gexec ga g) as [g1 e1] eqn:G end. cbn [fst]. eapply gexec_keep; eauto. intros i X. injection X as <- _. congruence.
  - intros j0 x0 HX HL. destruct (HI j0 x0 HX HL) as (n0 & HN). exists n0.
    destruct (returned _ _); [|exact HN]. destruct (gexec (XRunEnd p) (c_mgr c)) as [g1 e1] eqn:G. cbn [fst]. eapply gexec_keep; eauto. discriminate.
Qed.
Lemma linv_run cf t f outs urls l c tr : crun cf l (client_start cf t f outs urls) = (c, tr) -> linv c.
Proof.
  intros HR. refine (proj2 (crun_inv cf (fun c tr => (exists l, crun cf l (client_start cf t f outs urls) = (c, tr)) /\ linv c) (fun _ => True) _ _ _ l c tr _ HR)).
  - split; [exists []; reflexivity|]. intros j x HX HL. cbn in HX. apply nth_error_In, in_map_iff in HX. destruct HX as (u & <- & _). now contradiction HL.
  - intros c1 t1 a c2 es ((l1 & R1) & I1) _ E. split; [exists (l1 ++ [a]); now rewrite crun_snoc, R1, E|].
    destruct (crun_mgr _ _ _ _ _ _ _ _ R1) as (lg & G). eapply linv_step; [eapply ginv_run; exact G|exact I1|exact E].
  - apply Forall_forall. auto.
Qed.
(* a goroutine that is not announcing announces what the writer has written by now, or more *)
Lemma announces_progress cf t f outs urls l1 c1 tr1 l2 c2 tr2 t1 e t2 j pc : 0 <= cf_port cf ->
  crun cf l1 (client_start cf t f outs urls) = (c1, tr1) -> nth_error (g_trk (c_mgr c1)) j = Some pc -> (forall n, pc <> TTry n) ->
  crun cf l2 c1 = (c2, tr2) -> tr2 = t1 ++ e :: t2 -> announce_by j e ->
  let h := handed (sevs (tr1 ++ t1)) in let n := length (wo_taken (c_wo c1)) in
  exists a b, (a <= S b)%nat /\ (n <= a <= length h)%nat /\ (n <= b <= length h)%nat /\
    reports (t_hash t) (cf_id cf) (u64 (total_len (firstn a h))) 0 (u64 (t_length t - total_len (firstn b h))) (cf_port cf) e.
Proof.
  intros HP HR HG HPC HR2 HT HB. destruct (nth_error (c_trk c1) j) as [x|] eqn:HX.
  - eapply fresh_values; try eassumption. destruct (ct_loads x) as [|v vs] eqn:EL; [reflexivity|]. exfalso.
    destruct (linv_run _ _ _ _ _ _ _ _ HR j x HX) as (n & HN); [congruence|]. apply (HPC n). congruence.
  - exfalso. assert (L : forall l c c' tr', length (c_trk c) = length (c_trk c1) -> crun cf l c = (c', tr') -> forall e, In e tr' -> ~ announce_by j e).
    { clear -HX. induction l as [|a l IH]; intros c c' tr' LE H e HI; cbn [crun] in H; [inversion H; subst; contradiction|].
      destruct (cexec cf a c) as [c2 e2] eqn:E. destruct (crun cf l c2) as [c3 e3] eqn:E3. inversion H; subst; clear H.
      assert (LE2 : length (c_trk c2) = length (c_trk c1)).
      { apply cexec_move in E. destruct E as [[-> ->]|(_ & _ & M)]; [exact LE|]. inversion M; subst; cbn; rewrite ?upd_length; exact LE. }
      apply in_app_iff in HI. destruct HI as [HI|HI]; [|eapply IH; eauto]. apply nth_error_None in HX.
      apply cexec_move in E. destruct E as [[-> ->]|(_ & _ & M)]; [contradiction|].
      inversion M; subst; clear M; try contradiction; try (apply in_map_iff in HI; destruct HI as (v & <- & _); intros []);
        try (destruct HI as [<-|HI]; [intros []|]; apply in_map_iff in HI; destruct HI as (v & <- & _); intros []).
      - destruct HI as [<-|HI]; [|apply in_map_iff in HI; destruct HI as (v & <- & _); intros []].
        assert (j0 < length (c_trk c))%nat by (apply nth_error_Some; congruence).
        unfold tracker_announce in H2. destruct (ct_trk tr); try discriminate; destruct rp; try discriminate.
        + destruct (HttpAnnounce _ _). injection H2 as _ <- _. cbn. lia.
        + destruct (UdpAnnounce _ _ _ _ _ _ _ _ _) as [[? ?] ?]. injection H2 as _ <- _. cbn. lia. }
    refine (L _ _ _ _ eq_refl HR2 e _ HB). rewrite HT. apply in_app_iff. right. now left.
Qed.

(* ---------- C116 ---------- *)
Lemma signal_panic :
  ~ (forall cf t f outs urls l c tr s, crun cf l (client_start cf t f outs urls) = (c, tr) -> In KSignal l -> client_status c = Some s -> s = 0).
Proof.
  intros H. destruct (crun (cx_conf sha1) cx_dark (cx_start sha1)) as [c tr] eqn:E.
  assert (X : client_status c = Some 2) by (vm_compute in E; injection E as <- _; reflexivity).
  assert (K : In KSignal cx_dark) by (do 19 right; now left).
  specialize (H _ _ _ _ _ _ _ _ _ E K X). discriminate H.
Qed.
