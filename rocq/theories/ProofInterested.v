(* Interested is sent while choked, once for each one or two reads: C151.      *)
From Verif Require Import Base ProofBase ModelBitset ModelMsg ModelTorrent ModelConn ModelPeer ModelSystem
  SpecPeer SpecInterested ProofTorrent ProofSystem ProofRequests ProofPeer ProofWitness.

Lemma told_app a b : told (a ++ b) = (told a + told b)%nat.
Proof. induction a as [|[] a IH]; cbn; try exact IH; [reflexivity|]. destruct (_ =? _); cbn; rewrite IH; reflexivity. Qed.
Lemma heard_app a b : heard (a ++ b) = (heard a + heard b)%nat.
Proof. induction a as [|[] a IH]; cbn; try exact IH; try reflexivity; rewrite IH; reflexivity. Qed.


Lemma choked_body sha1 t u r b : ~ has_type 1 b -> s_choked (cl_status (r_peer r)) = true ->
  s_choked (cl_status (r_peer (handle_body sha1 t u r b))) = true.
Proof.
  intros HN HC. destruct (handle_body_status sha1 t u r b) as (A & _ & _). rewrite A. unfold switch.
  destruct b as [|ty pl]; [exact HC|]. destruct (ty =? ChokeT); [reflexivity|]. destruct (Z.eqb_spec ty UnchokeT) as [->|]; [|exact HC].
  exfalso. apply HN. eexists. reflexivity.
Qed.
(* where Run goes on after a message *)
Lemma body_next sha1 t u r b : let r' := handle_body sha1 t u r b in
  r_pc r' = (if u then PReq else PTop) \/ r_pc r' = PPanic \/ exists m, r_pc r' = PPut u m.
Proof.
  unfold handle_body. destruct (NewPeerMessage b) as [m| | |]; try (cbn; auto).
  destruct (handlePeerMessage _ _ _ _); cbn; eauto.
Qed.

(* ---------- while choked only, and not twice without a read ---------- *)
Definition pending (es : list event) : Prop := exists a e b, es = a ++ e :: b /\ tells e /\ ~ Exists reading b.
Definition polite (es : list event) : Prop :=
  (forall a e c, es = a ++ e :: c -> tells e -> last_switch ChokeT UnchokeT a true true) /\
  (forall a e b e' c, es = a ++ e :: b ++ e' :: c -> tells e -> tells e' -> Exists reading b).
Definition in_unchoke (c : pc) : Prop := match c with PUTop | PUSend | PUWait | PURead => True | _ => False end.
Definition J1 (r : rstate) (es : list event) : Prop :=
  s_interested (cl_status (r_peer r)) = false /\ (match r_pc r with PNext | PSend | PNil | PSendWait => False | _ => True end) /\
  follows r es /\ (in_unchoke (r_pc r) -> s_choked (cl_status (r_peer r)) = true) /\ (r_pc r <> PURead -> ~ pending es) /\ polite es.

Lemma last_event (es : list event) x a e c : es ++ [x] = a ++ e :: c -> (c = [] /\ es = a /\ x = e) \/ exists c', c = c' ++ [x] /\ es = a ++ e :: c'.
Proof.
  induction c as [|z c _] using rev_ind; intro H.
  - left. apply app_inj_tail in H. destruct H; auto.
  - right. exists c. rewrite app_comm_cons, app_assoc in H. apply app_inj_tail in H. destruct H as [H ->]. auto.
Qed.
Lemma quiet_pending es x : ~ tells x -> ~ pending es -> ~ pending (es ++ [x]).
Proof.
  intros HT HP (a & e & b & E & He & Hb). destruct (last_event _ _ _ _ _ E) as [(-> & -> & ->)|(c & -> & ->)]; [contradiction|].
  apply HP. exists a, e, c. split; [reflexivity|]. split; [exact He|]. intro H. apply Hb. apply Exists_app. auto.
Qed.
Lemma read_pending es x : reading x -> ~ pending (es ++ [x]).
Proof.
  intros HR (a & e & b & E & He & Hb). destruct (last_event _ _ _ _ _ E) as [(-> & -> & ->)|(c & -> & ->)].
  - destruct e; contradiction.
  - apply Hb. apply Exists_app. auto.
Qed.
Lemma quiet_polite es x : ~ tells x -> polite es -> polite (es ++ [x]).
Proof.
  intros HT [H1 H2]. split.
  - intros a e c E He. destruct (last_event _ _ _ _ _ E) as [(-> & -> & ->)|(c' & -> & ->)]; [contradiction|]. eapply H1; eauto.
  - intros a e b e' c E He He'. replace (a ++ e :: b ++ e' :: c) with ((a ++ e :: b) ++ e' :: c) in E by (rewrite <- app_assoc; reflexivity).
    destruct (last_event _ _ _ _ _ E) as [(-> & -> & ->)|(c' & -> & ->)]; [contradiction|].
    eapply (H2 a e b e' c'); auto. rewrite <- app_assoc. reflexivity.
Qed.
Lemma tell_polite es x : last_switch ChokeT UnchokeT es true true -> ~ pending es -> polite es -> polite (es ++ [x]).
Proof.
  intros HS HP [H1 H2]. split.
  - intros a e c E He. destruct (last_event _ _ _ _ _ E) as [(-> & -> & ->)|(c' & -> & ->)]; [exact HS|]. eapply H1; eauto.
  - intros a e b e' c E He He'. replace (a ++ e :: b ++ e' :: c) with ((a ++ e :: b) ++ e' :: c) in E by (rewrite <- app_assoc; reflexivity).
    destruct (last_event _ _ _ _ _ E) as [(-> & -> & ->)|(c' & -> & ->)].
    + destruct (Exists_dec reading b) as [HE|HE]; [intros []; cbn; auto|exact HE|]. exfalso. apply HP. exists a, e, b. auto.
    + eapply (H2 a e b e' c'); auto. rewrite <- app_assoc. reflexivity.
Qed.

Lemma J1_step sha1 i s r s' r' es es' : J1 r es -> pstep sha1 i s r = Some (s', r', es') -> J1 r' (es ++ es').
Proof.
  intros (HI & HA & HF & HU & HP & HL) HS. pose proof (follows_step _ _ _ _ _ _ _ _ HF HS) as HF'.
  unfold J1. split; [|split; [|split; [exact HF'|]]]; clear HF'.
  - clear -HI HS. step_cases HS; try exact HI; cbn;
    try (match goal with |- context [handle_body sha1 ?t ?u r ?b] => destruct (handle_body_spec sha1 t u r b _ eq_refl) as (_ & _ & _ & _ & _ & _ & -> & _); exact HI end);
    try (match goal with H : createPieceMessage _ = _ |- _ => inversion H; subst; cbn; exact HI end); exact HI.
  - clear -HI HS HA. step_cases HS; cbn in *; try rewrite HI in *; try discriminate; try exact I; try contradiction;
    repeat match goal with |- context [if ?c then _ else _] => destruct c end; try exact I;
    try (match goal with |- context [handle_body sha1 ?t ?u r ?b] => destruct (body_next sha1 t u r b) as [E|[E|[m E]]]; rewrite E; exact I end);
    try (rewrite andb_false_r in *; discriminate).
  - destruct HF as (HF & _).
    assert (Q : r_pc r <> PURead -> ~ pending (es ++ [])) by (rewrite app_nil_r; exact HP).
    assert (Q' : polite (es ++ [])) by (rewrite app_nil_r; exact HL).
    assert (K : ~ tells (ESent KeepalivePeerMessage)) by (cbn; unfold KeepaliveT; lia).
    assert (B : forall t u b, in_unchoke (r_pc (handle_body sha1 t u r b)) -> False).
    { intros t u b. destruct (body_next sha1 t u r b) as [E|[E|[m E]]]; rewrite E; destruct u; cbn; auto. }
    unfold pstep, wait, create in HS. destruct (r_pc r) eqn:PC; dmatch HS; inversion HS; subst; clear HS; try contradiction;
      try (rewrite HI in *; rewrite andb_false_r in *; discriminate);
      cbn [in_unchoke r_pc r_peer at_pc with_peer];
      (split; [|split]; [ try (intros []; fail); try (intro H; apply HU; exact I); try (intro; exfalso; eapply B; eassumption); auto
      | try (intros _; apply Q; discriminate); try (intros _; apply read_pending; exact I);
        try (intros _; apply quiet_pending; [exact K || exact (fun f => f)|apply HP; discriminate]); try (intro X; exfalso; apply X; reflexivity)
      | try first [exact Q'|apply tell_polite; [rewrite (HU I) in HF; exact HF|apply HP; discriminate|exact HL]|apply quiet_polite; [exact K || exact (fun f => f)|exact HL]] ]).
Qed.

Lemma J1_run sha1 w0 l w tr k r : Forall (spawns (eq false)) l -> run sha1 l (start w0) = (w, tr) -> nth_error (wo_peers w) k = Some r -> J1 r (events_of k tr).
Proof.
  intros HB HR Hk. eapply (local_inv sha1 (eq false) J1); [| |exact HB|exact HR|exact Hk].
  - intros b t g <-. unfold J1. cbn. split; [reflexivity|]. split; [exact I|]. split; [|split; [tauto|split]].
    + unfold follows. split; [|split]; [left; split; [reflexivity|intros ? []]..|reflexivity].
    + intros _ (a & e & b & E & _). destruct a; discriminate.
    + split; intros a e; intros; destruct a; discriminate.
  - intros; eapply J1_step; eauto.
Qed.
Lemma no_peer sha1 w0 l w tr k : run sha1 l (start w0) = (w, tr) -> nth_error (wo_peers w) k = None -> events_of k tr = [].
Proof.
  intros HR Hk. destruct (local_inv sha1 (fun _ => True) (fun _ _ => True)) with (w0 := w0) (l := l) (w := w) (tr := tr) as [_ H]; auto.
  { apply Forall_forall. intros [] _; cbn; auto. }
  apply nth_error_None in Hk. assert (HN : forall e, ~ In (k, e) tr) by (intros e He; apply H in He; lia).
  clear -HN. induction tr as [|[j e] tr IH]; [reflexivity|]. unfold events_of in *. cbn.
  destruct (Nat.eqb_spec j k) as [->|].
  - exfalso. apply (HN e). now left.
  - apply IH. intros e' He. apply (HN e'). now right.
Qed.

Theorem told_choked sha1 w0 l w tr k a e c : Forall (spawns (eq false)) l -> run sha1 l (start w0) = (w, tr) ->
  events_of k tr = a ++ e :: c -> tells e -> last_switch ChokeT UnchokeT a true true.
Proof.
  intros HB HR E He. destruct (nth_error (wo_peers w) k) as [r|] eqn:Hk.
  - destruct (J1_run _ _ _ _ _ _ _ HB HR Hk) as (_ & _ & _ & _ & _ & H & _). eapply H; eauto.
  - rewrite (no_peer _ _ _ _ _ _ HR Hk) in E. destruct a; discriminate.
Qed.
Theorem told_spaced sha1 w0 l w tr k a e b e' c : Forall (spawns (eq false)) l -> run sha1 l (start w0) = (w, tr) ->
  events_of k tr = a ++ e :: b ++ e' :: c -> tells e -> tells e' -> Exists reading b.
Proof.
  intros HB HR E He. destruct (nth_error (wo_peers w) k) as [r|] eqn:Hk.
  - destruct (J1_run _ _ _ _ _ _ _ HB HR Hk) as (_ & _ & _ & _ & _ & _ & H). eapply H; eauto.
  - rewrite (no_peer _ _ _ _ _ _ HR Hk) in E. destruct a; discriminate.
Qed.

(* ---------- one for every two messages ---------- *)
Definition J2 (r : rstate) (es : list event) : Prop :=
  s_interested (cl_status (r_peer r)) = false /\
  (Forall choking es -> s_choked (cl_status (r_peer r)) = true /\
   match r_pc r with
   | PTop | PDone | PKeep | PChoke | PUTop | PUSend | PUWait | PPut false _ | PRet => heard es = (2 * told es)%nat
   | PURead => (heard es + 2 = 2 * told es)%nat
   | PReq | PRead | PPut true _ => (heard es + 1 = 2 * told es)%nat
   | PPanic => heard es = (2 * told es)%nat \/ (heard es + 1 = 2 * told es)%nat
   | _ => False
   end).
Lemma J2_step sha1 i s r s' r' es es' : J2 r es -> pstep sha1 i s r = Some (s', r', es') -> J2 r' (es ++ es').
Proof.
  intros [HI HC] HS. split.
  { clear -HI HS. step_cases HS; try exact HI; cbn;
    try (match goal with |- context [handle_body sha1 ?t ?u r ?b] => destruct (handle_body_spec sha1 t u r b _ eq_refl) as (_ & _ & _ & _ & _ & _ & -> & _); exact HI end);
    try (match goal with H : createPieceMessage _ = _ |- _ => inversion H; subst; cbn; exact HI end); exact HI. }
  intro HA. apply Forall_app in HA. destruct HA as [HA HA']. destruct (HC HA) as [HC1 HC2]. clear HC HA.
  unfold pstep, wait, create in HS. destruct (r_pc r) eqn:PC; dmatch HS; inversion HS; subst; clear HS; try contradiction;
    try (rewrite HI in *; rewrite andb_false_r in *; discriminate);
    try (apply Forall_inv in HA'; cbn in HA'; contradiction);
    try (rewrite told_app, heard_app);
    try (match goal with |- context [handle_body sha1 ?t ?u r ?b] =>
      apply Forall_inv in HA'; cbn in HA'; split; [apply choked_body; assumption|];
      destruct (body_next sha1 t u r b) as [E|[E|[m E]]]; rewrite E; cbn; lia end);
    cbn; (split; [try assumption; try congruence|]); try lia; try congruence.
  destruct u; lia.
Qed.
Theorem told_half sha1 w0 l w tr k : Forall (spawns (eq false)) l -> run sha1 l (start w0) = (w, tr) ->
  Forall choking (events_of k tr) -> (heard (events_of k tr) <= 2 * told (events_of k tr) <= heard (events_of k tr) + 2)%nat.
Proof.
  intros HB HR HC. destruct (nth_error (wo_peers w) k) as [r|] eqn:Hk.
  - assert (H : J2 r (events_of k tr)).
    { eapply (local_inv sha1 (eq false) J2); [| |exact HB|exact HR|exact Hk].
      - intros b t g <-. split; [reflexivity|]. intros _. split; reflexivity.
      - intros; eapply J2_step; eauto. }
    destruct H as [_ H]. destruct (H HC) as [_ H']. destruct (r_pc r); try lia. destruct u; lia.
  - rewrite (no_peer _ _ _ _ _ _ HR Hk). cbn. lia.
Qed.

(* ---------- as often as one likes ---------- *)
Definition lull : list action := repeat (APeer 0 go) 6 ++ [APeer 0 (rd []); APeer 0 go; APeer 0 (rd [])].
Fixpoint lulls (n : nat) : list action := match n with O => [] | S n' => lull ++ lulls n' end.
Definition ix_w : world := fst (run (fun _ => []) [ASpawn false 0] (start (px 131072 2))).
Lemma told_often sha1 n : exists w tr, run sha1 (ASpawn false 0 :: lulls n) (start (px 131072 2)) = (w, tr) /\ crashed w = false /\
  Forall choking (events_of 0 tr) /\ told (events_of 0 tr) = n /\ forall b, In (EReadOk b) (events_of 0 tr) -> b = [].
Proof.
  assert (HL : forall n, exists tr, run sha1 (lulls n) ix_w = (ix_w, tr) /\ Forall choking (events_of 0 tr) /\ told (events_of 0 tr) = n /\
    forall b, In (EReadOk b) (events_of 0 tr) -> b = []).
  { clear n. induction n as [|n (tr & IH & IH1 & IH2 & IH3)].
    - exists []. split; [reflexivity|]. split; [constructor|]. split; [reflexivity|intros b []].
    - set (t := [(0%nat, ESent CreateInterestedMessage); (0%nat, EReadOk []); (0%nat, EReadOk [])]).
      assert (HB : forall b : bytes, ~ has_type 1 b \/ b <> []) by (intros [|]; [left; intros [? ?]; discriminate|right; discriminate]).
      exists (t ++ tr). split; [|split; [|split]].
      + cbn [lulls]. rewrite run_app. replace (run sha1 lull ix_w) with (ix_w, t) by reflexivity. cbn beta iota. rewrite IH. reflexivity.
      + cbn. constructor; [exact I|]. constructor; [intros [? ?]; discriminate|]. constructor; [intros [? ?]; discriminate|]. exact IH1.
      + cbn. f_equal. exact IH2.
      + cbn. intros b [H|[H|[H|H]]]; [discriminate|now inversion H|now inversion H|auto]. }
  destruct (HL n) as (tr & H & H1 & H2 & H3). exists ix_w, tr. split; [|split; [reflexivity|auto]].
  change (ASpawn false 0 :: lulls n) with ([ASpawn false 0] ++ lulls n). rewrite run_app.
  change (run sha1 [ASpawn false 0] (start (px 131072 2))) with (ix_w, @nil (nat * event)). cbn beta iota. rewrite H. reflexivity.
Qed.
Theorem told_once sha1 : ~ (forall w0 l w tr k, Forall (spawns (eq false)) l -> run sha1 l (start w0) = (w, tr) -> (told (events_of k tr) <= 1)%nat).
Proof.
  intro H. destruct (told_often sha1 2) as (w & tr & HR & _ & _ & HT & _). 
  assert (HF : Forall (spawns (eq false)) (ASpawn false 0 :: lulls 2)) by (repeat constructor).
  pose proof (H _ _ _ _ 0%nat HF HR) as HN. rewrite HT in HN. lia.
Qed.
