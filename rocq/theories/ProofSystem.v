(* Invariants of the whole system (ModelSystem).                               *)
From Verif Require Import Base ProofBase ModelBitset ModelMsg ModelTorrent ModelConn ModelPeer ModelSystem.

(* ---------- runs ---------- *)
Lemma run_app sha1 l1 l2 w : run sha1 (l1 ++ l2) w =
  let '(w1, e1) := run sha1 l1 w in let '(w2, e2) := run sha1 l2 w1 in (w2, e1 ++ e2).
Proof.
  revert w. induction l1 as [|a l1 IH]; intro w; cbn [run app].
  - destruct (run sha1 l2 w). reflexivity.
  - destruct (exec sha1 a w) as [w1 e1]. rewrite IH.
    destruct (run sha1 l1 w1) as [w2 e2]. destruct (run sha1 l2 w2). now rewrite app_assoc.
Qed.

Lemma run_inv sha1 (I : world -> list (nat * event) -> Prop) (B : action -> Prop) w0 :
  I w0 [] ->
  (forall w tr a w' es, I w tr -> B a -> exec sha1 a w = (w', es) -> I w' (tr ++ es)) ->
  forall l w' tr, Forall B l -> run sha1 l w0 = (w', tr) -> I w' tr.
Proof.
  intros H0 HS. induction l as [|a l IH] using rev_ind; intros w' tr HB HR.
  - cbn in HR. inversion HR; subst. exact H0.
  - apply Forall_app in HB. destruct HB as [HB1 HB2]. inversion HB2; subst.
    rewrite run_app in HR. destruct (run sha1 l w0) as [w1 e1] eqn:E1.
    cbn [run] in HR. destruct (exec sha1 a w1) as [w2 e2] eqn:E2. inversion HR; subst.
    rewrite app_nil_r. eapply HS; eauto.
Qed.

(* ---------- steps of one peer ---------- *)
Ltac dmatch H :=
  repeat match type of H with
         | context [match ?x with _ => _ end] => destruct x eqn:?
         end.
Ltac step_cases H := unfold pstep, wait, create in H; dmatch H; inversion H; subst; clear H.

Lemma handle_body_spec sha1 t u r b r' : handle_body sha1 t u r b = r' ->
  r_req r' = r_req r /\ r_sent r' = r_sent r /\ r_grp r' = r_grp r /\
  pr_block (r_peer r') = pr_block (r_peer r) /\ pr_piece (r_peer r') = pr_piece (r_peer r) /\
  pr_bnum (r_peer r') = pr_bnum (r_peer r) /\
  s_interested (cl_status (r_peer r')) = s_interested (cl_status (r_peer r)) /\
  (r_pc r' = PReq \/ r_pc r' = PTop \/ r_pc r' = PPanic \/ exists m, r_pc r' = PPut u m).
Proof.
  intros <-. unfold handle_body. destruct (NewPeerMessage b) as [m| | |]; try (cbn; tauto).
  unfold handlePeerMessage, handlePieceMessage.
  repeat match goal with |- context [match ?x with _ => _ end] =>
    lazymatch x with context [match _ with _ => _ end] => fail | _ => destruct x eqn:? end end;
    cbn; repeat split; eauto; eauto 6.
Qed.

Lemma upd_nth {A} (l : list A) k x k' : (k < length l)%nat ->
  nth_error (upd l k x) k' = if Nat.eqb k' k then Some x else nth_error l k'.
Proof.
  revert k k'. induction l as [|y l IH]; intros [|k] [|k'] H; cbn in *; try lia; try reflexivity.
  apply IH. lia.
Qed.
Lemma upd_length {A} (l : list A) k x : length (upd l k x) = length l.
Proof. revert k. induction l as [|y l IH]; intros [|k]; cbn; auto. Qed.

Lemma events_app k tr tr' : events_of k (tr ++ tr') = events_of k tr ++ events_of k tr'.
Proof. unfold events_of. now rewrite filter_app, map_app. Qed.
Lemma events_same k es : events_of k (map (pair k) es) = es.
Proof. unfold events_of. induction es; cbn; [reflexivity|]. rewrite Nat.eqb_refl. cbn. now f_equal. Qed.
Lemma events_other k k' es : k <> k' -> events_of k (map (pair k') es) = [].
Proof.
  intro H. unfold events_of. induction es as [|e es IH]; cbn; [reflexivity|].
  destruct (Nat.eqb_spec k' k); [congruence|]. exact IH.
Qed.

(* an invariant of single peers and their events holds in every world *)
Definition spawns (B : bool -> Prop) (a : action) : Prop := match a with ASpawn b _ => B b | _ => True end.
Lemma local_inv sha1 (B : bool -> Prop) (J : rstate -> list event -> Prop) :
  (forall b t g, B b -> J (fresh b t g) []) ->
  (forall i s r s' r' es es', J r es -> pstep sha1 i s r = Some (s', r', es') -> J r' (es ++ es')) ->
  forall w0 l w tr, Forall (spawns B) l -> run sha1 l (start w0) = (w, tr) ->
    (forall k r, nth_error (wo_peers w) k = Some r -> J r (events_of k tr)) /\
    (forall k e, In (k, e) tr -> (k < length (wo_peers w))%nat).
Proof.
  intros HF HS w0 l w tr HB HR.
  revert HR. revert HB. revert w tr. revert l.
  cut (forall l w tr, Forall (spawns B) l -> run sha1 l (start w0) = (w, tr) ->
    ((forall k r, nth_error (wo_peers w) k = Some r -> J r (events_of k tr)) /\
     (forall k, (length (wo_peers w) <= k)%nat -> events_of k tr = [])) /\ (forall k e, In (k, e) tr -> (k < length (wo_peers w))%nat)).
  { intros H l w tr HB HR. destruct (H l w tr HB HR) as [[? ?] ?]. auto. }
  intros l w tr HB HR.
  apply (run_inv sha1 (fun w tr => ((forall k r, nth_error (wo_peers w) k = Some r -> J r (events_of k tr)) /\
     (forall k, (length (wo_peers w) <= k)%nat -> events_of k tr = [])) /\ (forall k e, In (k, e) tr -> (k < length (wo_peers w))%nat))
     (spawns B) (start w0)) with (l := l); auto.
  - split; [split|]; cbn.
    + intros [|k] r H; discriminate H.
    + reflexivity.
    + tauto.
  - clear l w tr HB HR. intros w tr a w' es [[H1 H2] H3] HB HE.
    unfold exec in HE. destruct (crashed w).
    { inversion HE; subst. rewrite app_nil_r. auto. }
    destruct a as [b g|k i| | |].
    + inversion HE; subst; clear HE. cbn [wo_peers]. rewrite app_nil_r. split; [split|].
      * intros k r Hk. destruct (Nat.lt_ge_cases k (length (wo_peers w))) as [Hl|Hl].
        -- rewrite nth_error_app1 in Hk by exact Hl. auto.
        -- rewrite H2 by exact Hl. rewrite nth_error_app2 in Hk by exact Hl.
           destruct (k - length (wo_peers w))%nat as [|[|?]]; cbn in Hk; inversion Hk; subst. apply HF. exact HB.
      * intros k Hk. rewrite app_length in Hk. cbn in Hk. apply H2. lia.
      * intros k e Hk. rewrite app_length. specialize (H3 _ _ Hk). cbn. lia.
    + destruct (nth_error (wo_peers w) k) as [r|] eqn:Ek; [|inversion HE; subst; rewrite app_nil_r; auto].
      destruct (pstep sha1 i (wo_sh w) r) as [[[s' r'] es']|] eqn:Es; inversion HE; subst; clear HE.
      2:{ rewrite app_nil_r; auto. }
      cbn [wo_peers]. assert (Hlen : (k < length (wo_peers w))%nat) by (apply nth_error_Some; congruence).
      split; [split|].
      * intros k' r'' Hk'. rewrite upd_nth in Hk' by exact Hlen. rewrite events_app.
        destruct (Nat.eqb_spec k' k) as [->|Hne].
        -- inversion Hk'; subst. rewrite events_same. eapply HS; eauto.
        -- rewrite events_other by exact Hne. rewrite app_nil_r. auto.
      * intros k' Hk'. rewrite upd_length in Hk'. rewrite events_app, H2 by exact Hk'.
        rewrite events_other by lia. reflexivity.
      * intros k' e Hk'. rewrite upd_length. apply in_app_iff in Hk'. destruct Hk' as [Hk'|Hk']; [eauto|].
        apply in_map_iff in Hk'. destruct Hk' as [? [Hx _]]. inversion Hx; subst. exact Hlen.
    + destruct (wo_hand w); [|destruct (sh_ch (wo_sh w))]; inversion HE; subst; rewrite app_nil_r; auto.
    + inversion HE; subst; rewrite app_nil_r; auto.
    + destruct (wo_main w); [destruct (wg w =? 0)|destruct (sh_cancel (wo_sh w))| |];
        inversion HE; subst; rewrite app_nil_r; auto.
Qed.

(* ---------- C38: interest is never declared, so nothing is requested ---------- *)
Definition quiet (r : rstate) (es : list event) : Prop :=
  s_interested (cl_status (r_peer r)) = false /\ r_pc r <> PNext /\ r_pc r <> PSend /\
  (forall m, In (ESent m) es -> m = KeepalivePeerMessage \/ m = CreateInterestedMessage) /\
  (forall m, ~ In (ECreate m) es) /\ (forall i h, ~ In (EClaim i h) es).
Lemma quiet_step sha1 i s r s' r' es es' : quiet r es -> pstep sha1 i s r = Some (s', r', es') -> quiet r' (es ++ es').
Proof.
  intros (H1 & H2 & H3 & H4 & H5 & H6) HS.
  assert (E : forall es' (b : bytes), es' = [] \/ es' = [ESent KeepalivePeerMessage] \/ es' = [ESent CreateInterestedMessage] \/
     (exists m, es' = [ESendErr m]) \/ es' = [EReadErr] \/ (exists b, es' = [EReadOk b]) \/ (exists m, es' = [EPut m]) ->
     (forall m, In (ESent m) (es ++ es') -> m = KeepalivePeerMessage \/ m = CreateInterestedMessage) /\
     (forall m, ~ In (ECreate m) (es ++ es')) /\ (forall i h, ~ In (EClaim i h) (es ++ es'))).
  { intros x _ Hx. split; [intros m H|split; [intros m|intros j h]; rewrite in_app_iff].
    - apply in_app_iff in H. destruct H as [H|H]; [auto|].
      destruct Hx as [->|[->|[->|[[? ->]|[->|[[? ->]|[? ->]]]]]]]; cbn in H; repeat (destruct H as [H|H]); try contradiction; inversion H; subst; auto.
    - intros [H|H]; [eapply H5; eauto|].
      destruct Hx as [->|[->|[->|[[? ->]|[->|[[? ->]|[? ->]]]]]]]; cbn in H; repeat (destruct H as [H|H]); try contradiction; discriminate H.
    - intros [H|H]; [eapply H6; eauto|].
      destruct Hx as [->|[->|[->|[[? ->]|[->|[[? ->]|[? ->]]]]]]]; cbn in H; repeat (destruct H as [H|H]); try contradiction; discriminate H. }
  step_cases HS; cbn [r_pc] in *; try congruence;
    try (unfold quiet; split; [|split; [|split]]; [cbn; auto; fail|cbn; congruence|cbn; congruence|apply (E _ []); eauto 10]).
  all: try (destruct (handle_body_spec sha1 (sh_t s') true r b _ eq_refl) as (? & ? & ? & ? & ? & ? & A & P);
    unfold quiet; split; [|split; [|split]]; [congruence| | |apply (E _ []); eauto 10];
    destruct P as [-> |[-> |[-> |[? ->]]]]; congruence).
  all: try (destruct (handle_body_spec sha1 (sh_t s') false r b _ eq_refl) as (? & ? & ? & ? & ? & ? & A & P);
    unfold quiet; split; [|split; [|split]]; [congruence| | |apply (E _ []); eauto 10];
    destruct P as [-> |[-> |[-> |[? ->]]]]; congruence).
  all: rewrite H1 in *; cbn in *; rewrite ?andb_false_r in *; try discriminate.
Qed.
