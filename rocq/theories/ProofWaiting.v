(* Data on the way to the disk: C159.                                          *)
From Verif Require Import Base ProofBase SpecPath ModelBitset ModelMsg ModelTorrent ModelConn ModelPeer ModelSystem ModelTracker ModelManager ModelClient
  SpecPeer SpecWaiting ProofSystem ProofClient.

Lemma pstep_room sha1 i s r s' r' es : pstep sha1 i s r = Some (s', r', es) -> zlen (sh_ch s) <= 1024 -> zlen (sh_ch s') <= 1024.
Proof.
  intros H Hs. unfold pstep, wait, create, push, set_q, set_t in H.
  repeat match type of H with context [match ?x with _ => _ end] => destruct x eqn:? end; inversion H; subst; clear H; try exact Hs.
  all: cbn [sh_ch set_ch]; rewrite zlen_app, zlen_cons; unfold chan_cap in *; change (zlen (@nil msg)) with 0; lia.
Qed.
Lemma room sha1 w0 l w tr : run sha1 l (start w0) = (w, tr) -> zlen (sh_ch (wo_sh w)) <= 1024.
Proof.
  intros HR. refine (run_inv sha1 (fun w _ => zlen (sh_ch (wo_sh w)) <= 1024) (fun _ => True) (start w0) _ _ l w tr _ HR).
  - cbn. discriminate.
  - intros w1 t1 a w2 es HI _ E. unfold exec in E. destruct (crashed w1); [inversion E; subst; exact HI|].
    destruct a as [b g|k i| | |].
    + inversion E; subst. exact HI.
    + destruct (nth_error (wo_peers w1) k) as [r|]; [|inversion E; subst; exact HI]. destruct (pstep sha1 i (wo_sh w1) r) as [[[s' r'] es']|] eqn:Ep; inversion E; subst; [|exact HI].
      cbn [wo_sh]. eapply pstep_room; eauto.
    + destruct (wo_hand w1); [inversion E; subst; exact HI|]. destruct (sh_ch (wo_sh w1)) eqn:Ec; inversion E; subst; cbn [wo_sh sh_ch set_ch]; [now rewrite Ec|]. rewrite zlen_cons in HI. lia.
    + inversion E; subst. exact HI.
    + destruct (wo_main w1); [destruct (wg w1 =? 0)|destruct (sh_cancel (wo_sh w1))| |]; inversion E; subst; exact HI.
  - apply Forall_forall. auto.
Qed.
Lemma filter_le {A} (f : A -> bool) l : zlen (filter f l) <= zlen l.
Proof. induction l as [|x l IH]; cbn [filter]; [lia|]. destruct (f x); rewrite !zlen_cons; lia. Qed.
Lemma waiting_le sha1 w0 l w tr : run sha1 l (start w0) = (w, tr) -> waiting w <= zlen (wo_peers w) + 1025.
Proof.
  intros HR. pose proof (room _ _ _ _ _ HR). unfold waiting. pose proof (filter_le offering (wo_peers w)).
  assert (zlen (held w) <= 1) by (unfold held; destruct (wo_hand w); cbn; lia). lia.
Qed.
Lemma stuck_iff sha1 w r : stuck sha1 w r <-> ended r \/ offering r = true /\ sh_closed (wo_sh w) = false /\ 1024 <= zlen (sh_ch (wo_sh w)).
Proof.
  unfold stuck, ended, offering. split.
  - intros H. specialize (H (mkI false true None true)). unfold pstep, wait, create in H. destruct (r_pc r) eqn:E; auto;
      repeat match type of H with context [match ?x with _ => _ end] => destruct x eqn:? end; try discriminate H; try discriminate.
    right. unfold chan_cap in *. split; [reflexivity|]. split; [reflexivity|lia].
  - intros [[E|E]|(E & C & F)] i; unfold pstep; [rewrite E; reflexivity..|]. destruct (r_pc r); try discriminate. rewrite C. replace (zlen (sh_ch (wo_sh w)) <? chan_cap) with false by (unfold chan_cap; lia). reflexivity.
Qed.
Lemma unstuck sha1 w0 l w tr k r w' tr' : run sha1 l (start w0) = (w, tr) -> nth_error (wo_peers w) k = Some r -> crashed w = false ->
  stuck sha1 w r -> ~ ended r -> run sha1 [AWriter; AWriter] w = (w', tr') -> crashed w' = false ->
  nth_error (wo_peers w') k = Some r /\ ~ stuck sha1 w' r /\
  exists m u w2, r_pc r = PPut u m /\ run sha1 [APeer k (mkI false false None false)] w' = (w2, [(k, EPut m)]).
Proof.
  intros HR Hk HC HS HE R HC'. apply stuck_iff in HS as [HS|(HO & HCl & HF)]; [contradiction|]. pose proof (room _ _ _ _ _ HR) as Hroom.
  destruct (sh_ch (wo_sh w)) as [|m0 ch] eqn:Ech; [cbn in HF; lia|].
  assert (G : wo_peers w' = wo_peers w /\ sh_closed (wo_sh w') = false /\ zlen (sh_ch (wo_sh w')) < 1024).
  { cbn [run] in R. destruct (exec sha1 AWriter w) as [w1 e1] eqn:E1. destruct (exec sha1 AWriter w1) as [w2 e2] eqn:E2. inversion R; subst w2 tr'; clear R.
    unfold exec in E1. rewrite HC in E1. rewrite zlen_cons in *. destruct (wo_hand w) as [mh|] eqn:Eh.
    - inversion E1; subst w1 e1; clear E1. unfold exec in E2.
      match type of E2 with context [crashed ?x] => destruct (crashed x) eqn:Ec end; [inversion E2; subst; congruence|].
      cbn [wo_hand wo_sh sh_ch] in E2. rewrite Ech in E2. inversion E2; subst. cbn [wo_peers wo_sh sh_closed set_ch sh_ch]. repeat split; auto; lia.
    - rewrite Ech in E1. inversion E1; subst w1 e1; clear E1. unfold exec in E2.
      match type of E2 with context [crashed ?x] => destruct (crashed x) eqn:Ec end; [inversion E2; subst; congruence|].
      cbn [wo_hand wo_sh sh_ch set_ch] in E2. inversion E2; subst. cbn [wo_peers wo_sh sh_closed set_ch sh_ch]. repeat split; auto; lia. }
  destruct G as (G1 & G2 & G3). rewrite G1. split; [exact Hk|]. split.
  - intros H. apply stuck_iff in H as [H|(_ & _ & H)]; [contradiction|lia].
  - unfold offering in HO. destruct (r_pc r) eqn:Ep; try discriminate. eexists _, _.
    cbn [run]. unfold exec. rewrite HC', G1, Hk. unfold pstep. rewrite Ep, G2. replace (zlen (sh_ch (wo_sh w')) <? chan_cap) with true by (unfold chan_cap; lia).
    eexists. split; [exact Ep || reflexivity|reflexivity].
Qed.
Lemma client_waiting cf t f outs urls l c tr : crun cf l (client_start cf t f outs urls) = (c, tr) -> waiting (c_wo c) <= zlen (wo_peers (c_wo c)) + 1025.
Proof. intros H. destruct (crun_sys _ _ _ _ _ _ _ _ H) as (ls & R & _). exact (waiting_le _ _ _ _ _ R). Qed.
