From Verif Require Import Base ModelBitset ModelMsg ModelTorrent ModelConn ModelPeer ModelSystem SpecMsg SpecStream ProofBase ProofConn ProofMsg ProofSystem ProofProgress ProofWitness.

Definition created (m : msg) : Prop := exists i o b, m = CreatePieceMessage i o b.
Definition ours (m : msg) : Prop := m = KeepalivePeerMessage \/ m = CreateInterestedMessage \/ created m.

Lemma pstep_create sha1 i s r s' r' es m : pstep sha1 i s r = Some (s', r', es) -> In (ECreate m) es -> created m.
Proof.
  intros HS Hi. step_cases HS; cbn in Hi; repeat (destruct Hi as [Hi|Hi]); try contradiction; try discriminate Hi; inversion Hi; subst;
  match goal with E : createPieceMessage _ = _ |- _ => unfold createPieceMessage in E; inversion E; subst; unfold created; eauto end.
Qed.
Lemma pstep_sent sha1 i s r s' r' es m : pstep sha1 i s r = Some (s', r', es) -> In (ESent m) es ->
  m = KeepalivePeerMessage \/ m = CreateInterestedMessage \/ r_req r = Some m.
Proof.
  intros HS Hi. step_cases HS; cbn in Hi; repeat (destruct Hi as [Hi|Hi]); try contradiction; try discriminate Hi; inversion Hi; subst; auto.
Qed.

(* after a keep-alive that could not be written nothing happens any more *)
Definition ended (r : rstate) (es : list event) : Prop :=
  forall a c, es = a ++ ESendErr KeepalivePeerMessage :: c -> r_pc r = PRet /\ c = [].
Lemma created_not_ka m : created m -> m <> KeepalivePeerMessage.
Proof. intros (i & o & b & ->) H. discriminate H. Qed.
Lemma in_mid {A} (a : list A) x c : In x (a ++ x :: c).
Proof. apply in_app_iff. right. now left. Qed.
Lemma pstep_live sha1 i s r s' r' es : pstep sha1 i s r = Some (s', r', es) -> r_pc r <> PRet.
Proof. intros HS E. unfold pstep in HS. rewrite E in HS. discriminate. Qed.
Lemma pstep_cut sha1 i s r s' r' es : pstep sha1 i s r = Some (s', r', es) -> (forall m, r_req r = Some m -> created m) ->
  In (ESendErr KeepalivePeerMessage) es -> r_pc r' = PRet /\ es = [ESendErr KeepalivePeerMessage].
Proof.
  intros HS HC Hi. step_cases HS; cbn in Hi; repeat (destruct Hi as [Hi|Hi]); try contradiction; try discriminate Hi; auto.
  inversion Hi; subst. exfalso. eapply created_not_ka; [apply HC; reflexivity|reflexivity].
Qed.
Lemma split_or {A} (x : A) : forall es es' a c, es ++ es' = a ++ x :: c -> (exists c', es = a ++ x :: c' /\ c = c' ++ es') \/ In x es'.
Proof.
  induction es as [|e es IH]; intros es' a c H.
  - right. cbn in H. subst. apply in_mid.
  - destruct a as [|y a]; cbn in H; inversion H; subst.
    + left. exists es. auto.
    + destruct (IH _ _ _ H2) as [(c' & -> & ->)|Hi]; [left; exists c'; auto|right; exact Hi].
Qed.
Lemma ended_step sha1 i s r s' r' es es' : ended r es -> pstep sha1 i s r = Some (s', r', es') -> (forall m, r_req r = Some m -> created m) ->
  ended r' (es ++ es').
Proof.
  intros HE HS HC a c H. destruct (split_or _ _ _ _ _ H) as [(c' & E & _)|Hi].
  - exfalso. destruct (HE _ _ E) as [Hr _]. eapply pstep_live; eauto.
  - destruct (pstep_cut _ _ _ _ _ _ _ HS HC Hi) as [Hr ->]. split; [exact Hr|].
    destruct c as [|x c] using rev_ind; [reflexivity|]. clear IHc.
    rewrite app_comm_cons, app_assoc in H. apply app_inj_tail in H. destruct H as [-> _].
    exfalso. destruct (HE _ _ eq_refl) as [Hr' _]. eapply pstep_live; eauto.
Qed.

Lemma split_out w tr : (forall g m, In m (sh_q (wo_sh w) g) -> created m) /\
     (forall k r m, nth_error (wo_peers w) k = Some r -> r_req r = Some m -> created m) /\
     (forall k m, In (k, ESent m) tr -> ours m) /\
     (forall k r, nth_error (wo_peers w) k = Some r -> ended r (events_of k tr)) /\
     (forall k, (length (wo_peers w) <= k)%nat -> events_of k tr = []) ->
  (forall k m, In (k, ESent m) tr -> ours m) /\ (forall k a c, events_of k tr = a ++ ESendErr KeepalivePeerMessage :: c -> c = []).
Proof.
  intros (_ & _ & H3 & H4 & H5). split; [exact H3|]. intros k a c H.
  destruct (nth_error (wo_peers w) k) as [r|] eqn:E.
  - eapply H4; eauto.
  - apply nth_error_None in E. rewrite (H5 k E) in H. now destruct a.
Qed.
Lemma sent_ours sha1 w0 l w tr : run sha1 l (start w0) = (w, tr) -> (forall k m, In (k, ESent m) tr -> ours m) /\
  (forall k a c, events_of k tr = a ++ ESendErr KeepalivePeerMessage :: c -> c = []).
Proof.
  intro HR. apply (split_out w tr).
  apply (run_inv sha1 (fun w tr => (forall g m, In m (sh_q (wo_sh w) g) -> created m) /\
     (forall k r m, nth_error (wo_peers w) k = Some r -> r_req r = Some m -> created m) /\
     (forall k m, In (k, ESent m) tr -> ours m) /\
     (forall k r, nth_error (wo_peers w) k = Some r -> ended r (events_of k tr)) /\
     (forall k, (length (wo_peers w) <= k)%nat -> events_of k tr = [])) (fun _ => True) (start w0)) with (l := l); auto.
  - cbn. repeat split; intros; try contradiction; destruct k; discriminate.
  - clear l w tr HR. intros w tr a w' es (H1 & H2 & H3 & H4 & H5) _ HE.
    destruct (exec_kind _ _ _ _ _ HE) as [(P & Qs & _ & ->)|[(b & g & _ & S & P & ->)|(k & i & r & r' & es' & _ & Ek & E & P & ->)]].
    + rewrite app_nil_r in *. rewrite P. split; [|split; [|split; [|split]]]; auto.
      intros g m. rewrite Qs. apply H1.
    + rewrite app_nil_r in *. split; [|split; [|split; [|split]]]; auto.
      * intros g0 m. rewrite S. apply H1.
      * intros k r m. rewrite P. intros Hk Hr. destruct (Nat.lt_ge_cases k (length (wo_peers w))) as [Hl|Hl].
        -- rewrite nth_error_app1 in Hk by exact Hl. eauto.
        -- rewrite nth_error_app2 in Hk by exact Hl. destruct (k - length (wo_peers w))%nat as [|[|?]]; cbn in Hk; inversion Hk; subst. discriminate.
      * intros k r. rewrite P. intros Hk. destruct (Nat.lt_ge_cases k (length (wo_peers w))) as [Hl|Hl].
        -- rewrite nth_error_app1 in Hk by exact Hl. auto.
        -- rewrite (H5 k Hl). intros a0 c H. now destruct a0.
      * intros k. rewrite P, app_length. intros Hk. apply H5. lia.
    + destruct (pstep_req _ _ _ _ _ _ _ E) as (G & Q1 & Q2 & _).
      assert (Ek' : nth_error (wo_peers w') k = Some r') by (rewrite P; eapply nth_upd_same; eauto).
      assert (Hlen : (k < length (wo_peers w))%nat) by (apply nth_error_Some; congruence).
      split; [|split; [|split; [|split]]].
      * intros g m Hm. destruct (Q1 g m Hm) as [Hi|[-> Hr]]; eauto.
      * intros k0 r0 m Hk Hr. destruct (Nat.eq_dec k0 k) as [->|Hne].
        -- rewrite Ek' in Hk. inversion Hk; subst r0. destruct (Q2 m Hr) as [Hi|[Hi|Hi]]; eauto. eapply pstep_create; eauto.
        -- rewrite P, nth_upd_other in Hk by exact Hne. eauto.
      * intros k0 m Hi. apply in_app_iff in Hi. destruct Hi as [Hi|Hi]; [eauto|].
        apply in_map_iff in Hi. destruct Hi as [e [He Hi]]. inversion He; subst. unfold ours.
        destruct (pstep_sent _ _ _ _ _ _ _ _ E Hi) as [->|[->|Hr]]; eauto.
      * intros k0 r0 Hk. rewrite events_app. destruct (Nat.eq_dec k0 k) as [->|Hne].
        -- rewrite Ek' in Hk. inversion Hk; subst r0. rewrite events_same. eapply ended_step; eauto.
        -- rewrite events_other, app_nil_r by exact Hne. rewrite P, nth_upd_other in Hk by exact Hne. auto.
      * intros k0 Hk. rewrite P, upd_length in Hk. rewrite events_app, (H5 k0 Hk), events_other by lia. reflexivity.
  - apply Forall_forall. auto.
Qed.


Lemma ours_frame m : ours m -> exists b, Send m = frame b /\ our_body b.
Proof.
  unfold our_body. intros [->|[->|(i & o & n & ->)]].
  - exists []. auto.
  - exists [2]. auto.
  - exists (6 :: request_payload i o n). split; [reflexivity|]. right; right. eexists. split; reflexivity.
Qed.
Lemma our_body_u32 b : our_body b -> is_u32 (zlen b).
Proof.
  unfold is_u32. intros [->|[->|(p & -> & H)]]; [cbn; lia|cbn; lia|]. unfold zlen in *. cbn [length]. lia.
Qed.

Lemma stream_whole es cs : Forall2 emits es cs -> (forall m, In (ESent m) es -> ours m) ->
  (forall a c, es = a ++ ESendErr KeepalivePeerMessage :: c -> c = []) ->
  (forall m c, In (ESendErr m, c) (combine es cs) -> m <> KeepalivePeerMessage -> c = []) ->
  exists bodies rest, concat cs = concat (map frame bodies) ++ rest /\ Forall2 (fun m b => Send m = frame b) (sent es) bodies /\
    Forall our_body bodies /\ (rest = [] \/ exists more, more <> [] /\ rest ++ more = frame []).
Proof.
  intros HF. induction HF as [|e c es cs He HF IH]; intros H1 H2 H3.
  - exists [], []. cbn. auto.
  - destruct IH as (bodies & rest & E & F & O & R).
    + intros m Hm. apply H1. now right.
    + intros a c' ->. apply (H2 (e :: a) c'). reflexivity.
    + intros m c' Hi. apply H3. now right.
    + destruct e; cbn [emits] in He; cbn [concat]; try (subst c; exists bodies, rest; cbn; auto; fail).
      * destruct (ours_frame m (H1 m (or_introl eq_refl))) as (b & Eb & Ob).
        exists (b :: bodies), rest. rewrite He, E. cbn [map concat sent flat_map]. rewrite <- app_assoc, <- Eb. repeat split; auto.
        cbn. constructor; auto.
      * assert (D : {m = KeepalivePeerMessage} + {m <> KeepalivePeerMessage}) by (repeat decide equality).
        destruct D as [->|Hne].
        -- assert (es = []) by (apply (H2 [] es); reflexivity). subst es. inversion HF; subst. cbn. exists [], c. cbn. rewrite app_nil_r. repeat split; auto.
           right. destruct He as (more & Hm & Em). exists more. auto.
        -- rewrite (H3 m c (or_introl eq_refl) Hne). exists bodies, rest. cbn. auto.
Qed.
Theorem stream_frames sha1 w0 l w tr k cs : run sha1 l (start w0) = (w, tr) -> Forall2 emits (events_of k tr) cs ->
  (forall m c, In (ESendErr m, c) (combine (events_of k tr) cs) -> m <> KeepalivePeerMessage -> c = []) ->
  exists bodies rest, concat cs = concat (map frame bodies) ++ rest /\ Forall2 (fun m b => Send m = frame b) (sent (events_of k tr)) bodies /\
    Forall our_body bodies /\ (rest = [] \/ exists more, more <> [] /\ rest ++ more = frame []).
Proof.
  intros HR HF HC. destruct (sent_ours _ _ _ _ _ HR) as [H1 H2]. apply stream_whole; auto.
  - intros m Hm. apply (H1 k). apply in_events. exact Hm.
  - intros a c. apply H2.
Qed.

(* half of interested is written, then interested *)
Definition cut : list action := ASpawn false 0 :: repeat (APeer 0 go) 5 ++ [APeer 0 (mkI false false None true); APeer 0 go; APeer 0 go; APeer 0 go].
Lemma cut_stream sha1 w tr : run sha1 cut (start (px 16384 2)) = (w, tr) ->
  Forall2 emits (events_of 0 tr) [[0; 0; 0; 1]; [0; 0; 0; 1; 2]] /\ sent (events_of 0 tr) = [CreateInterestedMessage].
Proof.
  intro E. assert (V : snd (run sha1 cut (start (px 16384 2))) = [(0%nat, ESendErr CreateInterestedMessage); (0%nat, ESent CreateInterestedMessage)]) by (vm_compute; reflexivity).
  rewrite E in V. cbn [snd] in V. subst tr. split; [|reflexivity]. repeat constructor. exists [2]. split; [discriminate|reflexivity].
Qed.
