(* Lemmas for C122 and C123.                                                   *)
From Verif Require Import Base ProofBase Sha1 ModelBitset ModelMsg ModelTorrent ModelConn ModelStats ModelPeer ModelSystem ModelTracker ModelManager ModelClient
  SpecMsg SpecPeer SpecTracker SpecManager SpecClient SpecProgram SpecAgain ProofSystem ProofManager ProofProgress ProofWitness ProofPeer ProofPeer2
  ProofClient ProofClient2 ProofClient3 ProofClient4 ProofClient5 ProofClient6 ProofAgain.

(* ---------- C122 ---------- *)
Definition told (l : list cact) (tr : list cev) (j : nat) (t : trk) : Prop :=
  match t with
  | TrHttp _ id _ _ => (exists x, In (KTrk j x) l /\ x_id x = id) /\ forall u q r, In (VHttp j u q r) tr -> lookup (str "trackerid") q = Some id
  | _ => forall u q r, ~ In (VHttp j u q r) tr
  end.
Definition tinv (l : list cact) (c : client) (tr : list cev) : Prop :=
  forall j, match nth_error (c_trk c) j with Some y => told l tr j (ct_trk y) | None => forall u q r, ~ In (VHttp j u q r) tr end.
Lemma told_more l tr j t a es : told l tr j t -> (forall u q r, ~ In (VHttp j u q r) es) -> told (l ++ [a]) (tr ++ es) j t.
Proof.
  unfold told. intros H HN. destruct t.
  - intros u q r X. apply in_app_iff in X. destruct X as [X|X]; [exact (H _ _ _ X)|exact (HN _ _ _ X)].
  - destruct H as ((x & H1 & H2) & H3). split; [exists x; split; [apply in_or_app; now left|exact H2]|].
    intros u q r X. apply in_app_iff in X. destruct X as [X|X]; [eauto|exfalso; exact (HN _ _ _ X)].
  - intros u' q r X. apply in_app_iff in X. destruct X as [X|X]; [exact (H _ _ _ X)|exact (HN _ _ _ X)].
Qed.
Lemma tinv_run cf t f outs urls l c tr : crun cf l (client_start cf t f outs urls) = (c, tr) -> tinv l c tr.
Proof.
  revert c tr. induction l as [|a l IH] using rev_ind; intros c tr H.
  - inversion H; subst. intros j. destruct (nth_error _ j) as [y|] eqn:E; [|intros u q r []]. cbn in E. apply nth_error_In, in_map_iff in E. destruct E as (u & <- & _). intros u' q r [].
  - rewrite crun_snoc in H. destruct (crun cf l _) as [c1 e1] eqn:E1. destruct (cexec cf a c1) as [c2 e2] eqn:E2. inversion H; subst. specialize (IH _ _ eq_refl). clear H.
    assert (NV : (forall j u q r, ~ In (VHttp j u q r) e2) -> c_trk c = c_trk c1 -> tinv (l ++ [a]) c (e1 ++ e2)).
    { intros N EQ j. specialize (IH j). rewrite EQ. destruct (nth_error (c_trk c1) j) as [y|]; [apply told_more; [exact IH|intros; apply N]|].
      intros u q r X. apply in_app_iff in X. destruct X as [X|X]; [exact (IH _ _ _ X)|exact (N _ _ _ _ X)]. }
    assert (NM : forall es j u q r, ~ In (VHttp j u q r) (map VMgr es)) by (intros es j u q r X; apply in_map_iff in X; destruct X as (y & Y & _); discriminate Y).
    pose proof E2 as E2'. apply cexec_move in E2. destruct E2 as [[-> ->]|(_ & _ & M)]; [apply NV; [intros j u q r []|reflexivity]|].
    inversion M; subst; clear M; try solve [apply NV; [intros ? ? ? ? []|reflexivity]]; try solve [apply NV; [apply NM|reflexivity]].
    + (* a tracker is created *)
      intros i. cbn [c_trk mgr_step set_ctr]. destruct (Nat.eq_dec i j) as [->|NE].
      * rewrite (nth_upd_same _ _ _ _ H0). cbn [ct_trk]. assert (NO : forall u q r, ~ In (VHttp j u q r) (e1 ++ map VMgr (snd (gexec (XTrk j (tin_of match new_tracker cf (ct_url tr) x with TrNone => false | _ => true end false x)) (c_mgr c1))))).
        { intros u q r X. apply in_app_iff in X. destruct X as [X|X]; [|exact (NM _ _ _ _ _ X)]. destruct (created_before _ _ _ _ _ _ _ _ j _ E1 X eq_refl) as (pc & P1 & P2). congruence. }
        unfold told. destruct (new_tracker cf (ct_url tr) x) as [|ad id ev iv|ud] eqn:EN; try exact NO. split.
        -- exists x. split; [apply in_or_app; right; now left|]. unfold new_tracker in EN. destruct (NewTracker _ _) as [[]| | |]; try discriminate. inversion EN. reflexivity.
        -- intros u q r X. exfalso. exact (NO _ _ _ X).
      * rewrite nth_upd_other by exact NE. specialize (IH i). destruct (nth_error (c_trk c1) i) as [y|]; [apply told_more; [exact IH|intros; apply NM]|].
        intros u q r X. apply in_app_iff in X. destruct X as [X|X]; [exact (IH _ _ _ X)|exact (NM _ _ _ _ _ X)].
    + apply NV; [|reflexivity]. intros i u q r [X|X]; [discriminate X|exact (NM _ _ _ _ _ X)].
    + (* the counters are loaded *)
      intros i. cbn [c_trk set_ctr]. destruct (Nat.eq_dec i j) as [->|NE].
      * rewrite (nth_upd_same _ _ _ _ H0). cbn [ct_trk]. specialize (IH j). rewrite H0 in IH. apply told_more; [exact IH|intros u q r []].
      * rewrite nth_upd_other by exact NE. specialize (IH i). destruct (nth_error (c_trk c1) i) as [y|]; [apply told_more; [exact IH|intros u q r []]|].
        rewrite app_nil_r. exact IH.
    + (* an announce *)
      intros i. cbn [c_trk]. destruct (Nat.eq_dec i j) as [->|NE].
      * rewrite (nth_upd_same _ _ _ _ H0). cbn [ct_trk]. specialize (IH j). rewrite H0 in IH. unfold tracker_announce in H2. destruct (ct_trk tr) as [|ad id ev iv|ud] eqn:ET; [discriminate| |]; destruct rp; try discriminate.
        -- destruct (HttpAnnounce _ _) as [i' res]. inversion H2; subst. unfold told in *. destruct IH as ((x & X1 & X2) & X3). split; [exists x; split; [apply in_or_app; now left|exact X2]|].
           intros u' q r0 X. apply in_app_iff in X. destruct X as [X|[X|X]]; [eauto| |exfalso; exact (NM _ _ _ _ _ X)]. inversion X; subst. reflexivity.
        -- destruct (UdpAnnounce _ _ _ _ _ _ _ _ _) as [[u' ds] res]. inversion H2; subst. unfold told in *. intros u0 q r0 X. apply in_app_iff in X.
           destruct X as [X|[X|X]]; [exact (IH _ _ _ X)|discriminate X|exact (NM _ _ _ _ _ X)].
      * rewrite nth_upd_other by exact NE. assert (NE' : forall u q r, ~ In (VHttp i u q r) (e :: map VMgr (snd (gexec (XTrk j (mkTin false (ann_in c1 a0) false false false)) (c_mgr c1))))).
        { intros u' q r0 [X|X]; [|exact (NM _ _ _ _ _ X)]. subst e. unfold tracker_announce in H2. destruct (ct_trk tr) as [|ad id ev iv|ud] eqn:ET; [discriminate| |]; destruct rp; try discriminate.
          - destruct (HttpAnnounce _ _) as [i' res]. inversion H2. congruence.
          - destruct (UdpAnnounce _ _ _ _ _ _ _ _ _) as [[? ?] ?]. discriminate. }
        specialize (IH i). destruct (nth_error (c_trk c1) i) as [y|]; [apply told_more; [exact IH|exact NE']|].
        intros u' q r0 X. apply in_app_iff in X. destruct X as [X|X]; [exact (IH _ _ _ X)|exact (NE' _ _ _ X)].
    + apply NV; [|reflexivity]. intros i' u q r X. unfold sysev in X. apply in_map_iff in X. destruct X as (y & Y & _). discriminate Y.
Qed.
Lemma own_id cf t f outs urls l c tr j : crun cf l (client_start cf t f outs urls) = (c, tr) ->
  exists id, forall u q r, In (VHttp j u q r) tr -> lookup (str "trackerid") q = Some id /\ exists x, In (KTrk j x) l /\ x_id x = id.
Proof.
  intros H. pose proof (tinv_run _ _ _ _ _ _ _ _ H j) as I. destruct (nth_error (c_trk c) j) as [y|]; [|exists []; intros u q r X; exfalso; exact (I _ _ _ X)].
  unfold told in I. destruct (ct_trk y) as [|ad id ev iv|ud]; try (exists []; intros u q r X; exfalso; exact (I _ _ _ X)).
  destruct I as (I1 & I2). exists id. intros u q r X. split; [exact (I2 _ _ _ X)|exact I1].
Qed.
Definition id_peer : httpres := HttpBody 200 (Some (str "d8:intervali60e5:peersld2:ip8:10.0.0.14:port4:6881ee10:tracker id2:xye")).
Definition id_until : list cact := [KMain; KTrk 0 well; KTrk 0 well] ++ repeat (KLoad 0) 3.
Definition id_after : list cact := repeat (KTrk 0 well) 7 ++ announce1.
Definition ids (tr : list cev) : list (nat * option bytes) := flat_map (fun e => match e with VHttp j _ q _ => [(j, lookup (str "trackerid") q)] | _ => [] end) tr.
Lemma id_gives : gives_id id_peer (str "xy").
Proof. eexists _, _, _. split; [reflexivity|]. split; [vm_compute; reflexivity|reflexivity]. Qed.
Lemma id_run : let '(c0, _) := crun (cx_conf cx_sha1) id_until (cx_start cx_sha1) in
  let '(c1, es) := cexec (cx_conf cx_sha1) (KAnn 0 (RHttp id_peer false)) c0 in
  (exists u q ips es', es = VHttp 0 u q (Some ips) :: es') /\ exists u q r, In (VHttp 0 u q r) (snd (crun (cx_conf cx_sha1) id_after c1)) /\ lookup (str "trackerid") q = Some (str "uuid").
Proof. vm_compute. split; [do 4 eexists; reflexivity|]. do 3 eexists. split; [auto 20|reflexivity]. Qed.
Lemma id_refuted :
  ~ (forall cf t f outs urls l1 c0 tr0 j h canc c1 u q ips es l2 c2 tr2 v u' q' r', crun cf l1 (client_start cf t f outs urls) = (c0, tr0) ->
       cexec cf (KAnn j (RHttp h canc)) c0 = (c1, VHttp j u q (Some ips) :: es) -> gives_id h v ->
       crun cf l2 c1 = (c2, tr2) -> In (VHttp j u' q' r') tr2 -> lookup (str "trackerid") q' = Some v).
Proof.
  intros H. generalize id_run. destruct (crun (cx_conf cx_sha1) id_until (cx_start cx_sha1)) as [c0 tr0] eqn:E0.
  destruct (cexec (cx_conf cx_sha1) (KAnn 0 (RHttp id_peer false)) c0) as [c1 es] eqn:E1. intros ((u & q & ips & es' & ->) & u' & q' & r' & I & L).
  destruct (crun (cx_conf cx_sha1) id_after c1) as [c2 tr2] eqn:E2.
  pose proof (H _ _ _ _ _ _ _ _ _ _ _ _ _ _ _ _ _ _ _ _ _ _ _ E0 E1 id_gives E2 I) as X. rewrite L in X. discriminate X.
Qed.

(* ---------- C123 ---------- *)
Lemma sent_only cf t f outs urls l c tr k m : crun cf l (client_start cf t f outs urls) = (c, tr) -> In (VSys k (ESent m)) tr -> Send m = frame [] \/ Send m = frame [2].
Proof.
  intros HR HI. destruct (crun_sys _ _ _ _ _ _ _ _ HR) as (ls & R & B). destruct (only_signals _ _ _ _ _ B R) as (N & _).
  apply (N k m). now apply sevs_in.
Qed.
Lemma never_served cf t f outs urls l c tr k i off d e : crun cf l (client_start cf t f outs urls) = (c, tr) -> In e tr -> ~ served k i off d e.
Proof.
  intros HR HI (m & -> & S). destruct (sent_only _ _ _ _ _ _ _ _ _ _ HR HI) as [X|X]; rewrite X in S; unfold frame in S; apply (f_equal (fun l => skipn 4 l)) in S;
  cbn [skipn app be32] in S; discriminate S.
Qed.
(* a piece is stored; the peer sends interested, then a request for the piece *)
Definition ask_until : list cact := cx_connect ++ repeat (KPeer 0 go) 6 ++ cx_piece 0 [1; 2; 3; 4] ++ [KPeer 0 (rd [2])] ++ repeat (KPeer 0 go) 6.
Definition ask : inp := rd (6 :: be_put 4 0 ++ be_put 4 0 ++ be_put 4 4).
Definition ask_after : list cact := repeat (KPeer 0 go) 40 ++ cx_end.
Lemma ask_run : let '(c0, _) := crun (cx_conf cx_sha1) ask_until (cx_start cx_sha1) in
  let '(c1, es) := cexec (cx_conf cx_sha1) (KPeer 0 ask) c0 in
  nth_error (t_downloaded (sh_t (wo_sh (c_wo c0)))) 0 = Some true /\ es = [VSys 0 (EReadOk (6 :: be_put 4 0 ++ be_put 4 0 ++ be_put 4 4))] /\ client_status (fst (crun (cx_conf cx_sha1) ask_after c1)) = Some 0.
Proof. vm_compute. repeat split; reflexivity. Qed.
Lemma serve_refuted :
  ~ (forall cf t f outs urls l1 c0 tr0 k x i off n e c1 es l2 c2 tr2, crun cf l1 (client_start cf t f outs urls) = (c0, tr0) ->
       nth_error (t_downloaded (sh_t (wo_sh (c_wo c0)))) (Z.to_nat i) = Some true -> cexec cf (KPeer k x) c0 = (c1, es) -> In e es -> asked k i off n e ->
       crun cf l2 c1 = (c2, tr2) -> client_status c2 = Some 0 -> exists d e', zlen d = n /\ In e' tr2 /\ served k i off d e').
Proof.
  intros H. generalize ask_run. destruct (crun (cx_conf cx_sha1) ask_until (cx_start cx_sha1)) as [c0 tr0] eqn:E0.
  destruct (cexec (cx_conf cx_sha1) (KPeer 0 ask) c0) as [c1 es] eqn:E1. destruct (crun (cx_conf cx_sha1) ask_after c1) as [c2 tr2] eqn:E2. intros (B & E & S).
  destruct (H _ _ _ _ _ _ _ _ 0%nat ask 0 0 4 _ _ _ _ _ _ E0 B E1 ltac:(rewrite E; left; reflexivity) eq_refl E2 S) as (d & e' & _ & I & X).
  assert (R : crun (cx_conf cx_sha1) (ask_until ++ KPeer 0 ask :: ask_after) (cx_start cx_sha1) = (c2, tr0 ++ es ++ tr2)).
  { rewrite crun_app, E0. cbn [crun]. rewrite E1, E2. reflexivity. }
  refine (never_served _ _ _ _ _ _ _ _ _ _ _ _ e' R _ X). apply in_app_iff. right. apply in_app_iff. now right.
Qed.
