(* Addresses in the bytes of replies (C114).                                   *)
From Verif Require Import Base ProofBase ModelBencode SpecBencode ModelMsg ModelTorrent ModelConn ModelPeer ModelSystem ModelTracker ModelManager ModelClient
  SpecUnmarshal SpecPeer SpecTracker SpecManager SpecClient ProofTracker ProofTracker2 ProofClient ProofClient2 ProofClient3 SpecCrash.

(* no announce among these events *)
Definition silent (e : cev) : Prop := match e with VHttp _ _ _ _ | VUdp _ _ _ => False | _ => True end.
Lemma silent_mgr es : Forall silent (map VMgr es).
Proof. induction es; constructor; cbn; auto. Qed.
Lemma silent_sys es : Forall silent (sysev es).
Proof. induction es; constructor; cbn; auto. Qed.

(* every announce comes from the reply in the schedule *)
Lemma step_announce cf a c c' es : cexec cf a c = (c', es) ->
  Forall silent es \/
  exists j r e es', a = KAnn j r /\ es = e :: es' /\ Forall silent es' /\
    match e with
    | VHttp i _ _ ips => i = j /\ exists h cn, r = RHttp h cn /\ ips = ips_of (snd (HttpAnnounce (cf_ip cf) h))
    | VUdp i _ ips => i = j /\ ips = None
    | _ => False
    end.
Proof.
  unfold cexec. destruct (dead c || c_exit c); [intros X; inversion X; left; constructor|].
  destruct a as [| |j x|j|j r|k i| |b].
  - unfold main_step. intros X. left. destruct (g_started _); [destruct (wo_main _); try (inversion X; constructor); destruct (g_pool _); [destruct (g_stop _)|]|];
      unfold with_mgr in X; inversion X; try constructor; apply silent_mgr.
  - unfold with_mgr. intros X. inversion X. left. apply silent_mgr.
  - unfold ctrk_step. intros X. left. destruct (nth_error (g_trk _) j) as [[| | | | | | | | | |]|]; destruct (nth_error (c_trk c) j); unfold with_mgr in X; try (inversion X; first [constructor|apply silent_mgr]; fail).
    destruct (shaken _ _ _ _); inversion X; [constructor; [exact I|]|]; apply silent_mgr.
  - intros X. inversion X. left. constructor.
  - unfold ann_step. intros X. destruct (nth_error (g_trk _) j) as [[| | | | | | | | | |]|]; try (inversion X; left; constructor; fail).
    destruct (nth_error (c_trk c) j) as [tr|]; [|inversion X; left; constructor].
    destruct (ct_loads tr) as [|d [|u [|l [|? ?]]]]; try (inversion X; left; constructor; fail).
    destruct (tracker_announce _ _ _ _ _ _) as [[[t' e] an]|] eqn:ET; [|inversion X; left; constructor].
    right. unfold with_mgr in X. inversion X. exists j, r, e. eexists. split; [reflexivity|]. split; [reflexivity|]. split; [apply silent_mgr|].
    unfold tracker_announce in ET. destruct (ct_trk tr) as [|id ev i|u0]; [discriminate| |]; destruct r as [h cn|tx1 tx2 key ok s]; try discriminate.
    + destruct (HttpAnnounce (cf_ip cf) h) as [i' res] eqn:EH. inversion ET. split; [reflexivity|]. exists h, cn. rewrite EH. split; reflexivity.
    + match type of ET with context [UdpAnnounce ?a ?b ?c ?d ?e ?f ?g ?h ?i] => destruct (udp_announce_fails a b c d e f g h i) as (er & EU); destruct (UdpAnnounce a b c d e f g h i) as [[u' ds] res] end.
      cbn [snd] in EU. subst res. inversion ET. split; reflexivity.
  - unfold peer_step. intros X. left. destruct (nth_error (c_run c) k); [|inversion X; constructor]. destruct (exec _ _ _). inversion X. apply silent_sys.
  - intros X. left. destruct (g_started _); inversion X; constructor.
  - intros X. left. destruct (g_started _); inversion X; constructor.
Qed.
Lemma silent_in es e : Forall silent es -> In e es -> silent e.
Proof. intros H. rewrite Forall_forall in H. apply H. Qed.
(* where two lists joined are cut by an element the first does not have *)
Lemma cut_app {A} (a b t1 t2 : list A) e : a ++ b = t1 ++ e :: t2 -> ~ In e a -> exists t1', t1 = a ++ t1' /\ b = t1' ++ e :: t2.
Proof.
  revert t1. induction a as [|x a IH]; intros t1 H N; [exists t1; auto|].
  destruct t1 as [|y t1]; cbn in H; [inversion H; subst; exfalso; apply N; now left|].
  inversion H; subst. destruct (IH t1 ltac:(assumption)) as (t1' & -> & E); [intros X; apply N; now right|]. exists t1'. auto.
Qed.
Lemma reply_of cf l : forall c0 c tr t1 j u q ips t2, crun cf l c0 = (c, tr) -> tr = t1 ++ VHttp j u q (Some ips) :: t2 ->
  exists l1 h cn l2, l = l1 ++ KAnn j (RHttp h cn) :: l2 /\ snd (crun cf l1 c0) = t1 /\ snd (HttpAnnounce (cf_ip cf) h) = Ok ips.
Proof.
  induction l as [|a l IH]; intros c0 c tr t1 j u q ips t2 HR HT; cbn [crun] in HR; [inversion HR; subst; destruct t1; discriminate|].
  destruct (cexec cf a c0) as [c1 e1] eqn:E1. destruct (crun cf l c1) as [c2 e2] eqn:E2. inversion HR; subst c2. subst tr. clear HR.
  assert (AFTER : ~ In (VHttp j u q (Some ips)) e1 -> e1 ++ e2 = t1 ++ VHttp j u q (Some ips) :: t2 ->
    exists l1 h cn l2, a :: l = l1 ++ KAnn j (RHttp h cn) :: l2 /\ snd (crun cf l1 c0) = t1 /\ snd (HttpAnnounce (cf_ip cf) h) = Ok ips).
  { intros N H. destruct (cut_app _ _ _ _ _ H N) as (t1' & -> & E). destruct (IH _ _ _ _ _ _ _ _ _ E2 E) as (l1 & h & cn & l2 & -> & S & R).
    exists (a :: l1), h, cn, l2. split; [reflexivity|]. split; [|exact R]. cbn [crun]. rewrite E1. destruct (crun cf l1 c1). cbn [snd] in *. now subst. }
  destruct (step_announce _ _ _ _ _ E1) as [S|(j0 & r & e & es' & -> & -> & S & M)].
  - apply AFTER; [|assumption]. intros X. exact (silent_in _ _ S X).
  - destruct t1 as [|y t1].
    + match goal with H : _ = [] ++ _ |- _ => cbn in H; inversion H; subst e end. destruct M as (-> & h & cn & -> & M).
      exists [], h, cn, l. split; [reflexivity|]. split; [reflexivity|]. destruct (snd (HttpAnnounce (cf_ip cf) h)); try discriminate. now inversion M.
    + match goal with H : _ = (y :: t1) ++ _ |- _ => cbn in H; inversion H; subst y; rename H into HH end.
      match goal with H : es' ++ e2 = _ |- _ => rename H into HC end.
      assert (N : ~ In (VHttp j u q (Some ips)) es') by (intros X; exact (silent_in _ _ S X)).
      destruct (cut_app _ _ _ _ _ HC N) as (t1' & -> & E). destruct (IH _ _ _ _ _ _ _ _ _ E2 E) as (l1 & h & cn & l2 & -> & SS & R).
      exists (KAnn j0 r :: l1), h, cn, l2. split; [reflexivity|]. split; [|exact R]. cbn [crun]. rewrite E1. destruct (crun cf l1 c1). cbn [snd] in *. now subst.
Qed.
Lemma no_udp cf l : forall c0 c tr j ds ips, crun cf l c0 = (c, tr) -> ~ In (VUdp j ds (Some ips)) tr.
Proof.
  induction l as [|a l IH]; intros c0 c tr j ds ips HR; cbn [crun] in HR; [inversion HR; auto|].
  destruct (cexec cf a c0) as [c1 e1] eqn:E1. destruct (crun cf l c1) as [c2 e2] eqn:E2. inversion HR; subst. intros X. apply in_app_or in X.
  destruct X as [X|X]; [|exact (IH _ _ _ _ _ _ E2 X)].
  destruct (step_announce _ _ _ _ _ E1) as [S|(j0 & r & e & es' & -> & -> & S & M)]; [exact (silent_in _ _ S X)|].
  destruct X as [->|X]; [destruct M; discriminate|exact (silent_in _ _ S X)].
Qed.
Lemma in_reply cf l c0 c tr t1 j a t2 : crun cf l c0 = (c, tr) -> Forall held_reply l -> tr = t1 ++ t2 -> named j a t1 ->
  replied cf c0 l t1 j a.
Proof.
  intros HR HF HT (e & HI & HN). destruct e as [| | |i u q [ips|]|i ds [ips|]]; cbn in HN; try tauto; destruct HN as [-> HA].
  - apply in_split in HI. destruct HI as (ta & tb & ->). rewrite <- app_assoc in HT. cbn in HT.
    destruct (reply_of _ _ _ _ _ _ _ _ _ _ _ HR HT) as (l1 & h & cn & l2 & -> & S & R).
    apply Forall_app in HF. destruct HF as [_ HF]. inversion HF as [|x y HB _]; subst x y.
    destruct h as [|st [b|]]; cbn in R; try discriminate. destruct (st =? 200) eqn:E2; cbn in R; [|discriminate]. apply Z.eqb_eq in E2. subst st.
    exists l1, b, cn, l2. split; [reflexivity|]. split; [rewrite S; eexists _, _; reflexivity|].
    destruct (readPeers (cf_ip cf) b) as [i' res] eqn:ER. cbn in R. subst res. apply read_peers_ok in ER; [|exact HB].
    destruct ER as (m & raw & n & v & vs & P & _ & _ & _ & L & _ & IL & F).
    destruct (In_nth_error _ _ HA) as (k & Hk). 
    assert (X : exists x, In x vs /\ entry_of (cf_ip cf) x a).
    { clear - F Hk. revert k Hk. induction F as [|x y xs ys H F IH]; intros [|k] Hk; cbn in Hk; try discriminate.
      - inversion Hk; subst. exists x. split; [now left|assumption].
      - destruct (IH _ Hk) as (z & Hz & E). exists z. split; [now right|assumption]. }
    destruct X as (x & HX & EX). exists m, raw, v, vs, x. auto.
  - exfalso. refine (no_udp _ _ _ _ _ j ds ips HR _). rewrite HT. apply in_or_app. now left.
Qed.
Lemma dialled_replied cf t f outs urls l c tr t1 j k t2 : crun cf l (client_start cf t f outs urls) = (c, tr) -> Forall held_reply l ->
  tr = t1 ++ VMgr (GDial j k) :: t2 -> exists a, nth_error (added (gevs t1)) k = Some a /\ replied cf (client_start cf t f outs urls) l t1 j a.
Proof. intros HR HF HT. destruct (dialled_named _ _ _ _ _ _ _ _ _ _ _ _ HR HT) as (a & H1 & H2). exists a. split; [exact H1|]. exact (in_reply _ _ _ _ _ _ _ _ _ HR HF HT H2). Qed.
Lemma offered_replied cf t f outs urls l c tr t1 j a b t2 : crun cf l (client_start cf t f outs urls) = (c, tr) -> Forall held_reply l ->
  tr = t1 ++ VMgr (GAdd j a b) :: t2 -> replied cf (client_start cf t f outs urls) l t1 j a.
Proof. intros HR HF HT. exact (in_reply _ _ _ _ _ _ _ _ _ HR HF HT (offered_named _ _ _ _ _ _ _ _ _ _ _ _ _ HR HT)). Qed.
