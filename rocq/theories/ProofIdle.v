(* Messages that tell nothing change nothing: C153.                            *)
From Verif Require Import Base ProofBase ModelBitset ModelMsg ModelTorrent ModelConn ModelPeer ModelSystem
  SpecPeer SpecIdle ProofTorrent ProofSystem ProofRequests ProofMsg ProofPeer ProofWitness.

Lemma slice_ok {A} (l : list A) a b : 0 <= a -> a <= b -> b <= zlen l -> exists x, slice l a b = Ok x.
Proof. intros. unfold slice. replace ((0 <=? a) && (a <=? b) && (b <=? zlen l)) with true by lia. eauto. Qed.
Lemma idle_handle sha1 t p b : tells_nothing b -> exists m, NewPeerMessage b = Ok m /\ handlePeerMessage sha1 t p m = HPeer p.
Proof.
  intros [->|(id & pl & -> & H)].
  - eexists. split; [reflexivity|]. reflexivity.
  - destruct H as [H|[H HL]].
    + destruct (decode_other id pl) as (m & -> & Ht & _); try lia. exists m. split; [reflexivity|].
      unfold handlePeerMessage. rewrite Ht. unfold KeepaliveT, BitfieldT, HaveT, InterestedT, NotInterestedT, ChokeT, UnchokeT, PieceT.
      destruct (id =? 99); [reflexivity|].
      replace (id =? 5) with false by lia. replace (id =? 4) with false by lia. replace (id =? 2) with false by lia. replace (id =? 3) with false by lia.
      replace (id =? 0) with false by lia. replace (id =? 1) with false by lia. replace (id =? 7) with false by lia. reflexivity.
    + assert (E : exists m, NewPeerMessage (id :: pl) = Ok m).
      { destruct H as [->| ->]; unfold NewPeerMessage, uint32_at; cbn [RequestT CancelT HaveT PieceT Z.eqb Pos.eqb orb];
          destruct (slice_ok pl 0 (0 + 4)) as [? ->]; try lia; destruct (slice_ok pl 4 (4 + 4)) as [? ->]; try lia;
          destruct (slice_ok pl 8 (8 + 4)) as [? ->]; try lia; cbn; eauto. }
      destruct E as [m E]. exists m. split; [exact E|]. destruct (new_basic _ _ _ E) as (_ & Ht & _).
      unfold handlePeerMessage. rewrite Ht. destruct H as [->| ->]; reflexivity.
Qed.
Lemma idle_body sha1 t u r b : tells_nothing b -> handle_body sha1 t u r b = with_peer r (if u then PReq else PTop) (r_peer r).
Proof. intros H. unfold handle_body. destruct (idle_handle sha1 t (r_peer r) b H) as (m & -> & ->). reflexivity. Qed.

Lemma upd_same {A} (l : list A) k x : nth_error (upd l k x) k = match nth_error l k with Some _ => Some x | None => None end.
Proof. revert k. induction l as [|y l IH]; intros [|k]; cbn; auto. Qed.
Lemma upd_other {A} (l : list A) k j x : k <> j -> nth_error (upd l k x) j = nth_error l j.
Proof. revert k j. induction l as [|y l IH]; intros [|k] [|j] H; cbn; auto; try contradiction. Qed.
Lemma upd_panics l k r r' : nth_error l k = Some r -> panicked r' = panicked r -> existsb panicked (upd l k r') = existsb panicked l.
Proof.
  revert k. induction l as [|y l IH]; intros [|k] H HP; cbn in *; auto; try discriminate.
  - inversion H; subst. now rewrite HP.
  - rewrite (IH k); auto.
Qed.

(* one message *)
Theorem idle_changes_nothing sha1 w k i w' es b : exec sha1 (APeer k i) w = (w', es) -> In (k, EReadOk b) es -> tells_nothing b ->
  wo_sh w' = wo_sh w /\ wo_main w' = wo_main w /\ wo_taken w' = wo_taken w /\ wo_hand w' = wo_hand w /\ crashed w' = false /\
  (forall j, j <> k -> nth_error (wo_peers w') j = nth_error (wo_peers w) j) /\
  exists r r', nth_error (wo_peers w) k = Some r /\ nth_error (wo_peers w') k = Some r' /\
    r_peer r' = r_peer r /\ r_req r' = r_req r /\ r_sent r' = r_sent r /\ r_grp r' = r_grp r.
Proof.
  intros HE Hin HB. unfold exec in HE. destruct (crashed w) eqn:HC; [inversion HE; subst; destruct Hin|].
  destruct (nth_error (wo_peers w) k) as [r|] eqn:Hk; [|inversion HE; subst; destruct Hin].
  destruct (pstep sha1 i (wo_sh w) r) as [[[s' r'] es']|] eqn:Es; inversion HE; subst; [|destruct Hin].
  apply in_map_iff in Hin. destruct Hin as (e & Ee & Hin). inversion Ee; subst e. clear Ee.
  assert (HP : panicked r = false).
  { unfold crashed in HC. apply orb_false_iff in HC. destruct HC as [HC _]. destruct (panicked r) eqn:E; [|reflexivity].
    assert (existsb panicked (wo_peers w) = true); [|congruence]. apply existsb_exists. exists r. split; [|exact E]. eapply nth_error_In; eauto. }
  assert (K : s' = wo_sh w /\ r_peer r' = r_peer r /\ r_req r' = r_req r /\ r_sent r' = r_sent r /\ r_grp r' = r_grp r /\ panicked r' = false).
  { clear -Es Hin HB. step_cases Es; repeat (destruct Hin as [Hin|Hin]); try contradiction; try discriminate;
      try (match goal with Q : _ ++ _ = _ |- _ => idtac end);
      try (apply in_app_iff in Hin; destruct Hin as [Hin|Hin]; repeat (destruct Hin as [Hin|Hin]); try contradiction; discriminate).
    all: injection Hin as <-; rewrite (idle_body _ _ _ _ _ HB); cbn; repeat split; reflexivity. }
  destruct K as (-> & K1 & K2 & K3 & K4 & K5). cbn [wo_sh wo_main wo_taken wo_hand wo_peers].
  repeat split; auto.
  - unfold crashed in *. cbn [wo_peers wo_sh]. rewrite (upd_panics _ _ _ _ Hk) by congruence. exact HC.
  - intros j Hj. apply upd_other. congruence.
  - exists r, r'. rewrite upd_same, Hk.
    auto 10.
Qed.

(* whole executions *)
Definition calm_pc (c : pc) : Prop := match c with PPut _ _ | PPanic | PSend | PNext | PNil | PSendWait => False | _ => True end.
Definition calm (r : rstate) : Prop := calm_pc (r_pc r) /\ s_interested (cl_status (r_peer r)) = false.
Definition idle_inv (w0 : wstate) (w : world) (tr : list (nat * event)) : Prop :=
  (forall k b, In (k, EReadOk b) tr -> tells_nothing b) ->
  sh_w (wo_sh w) = w0 /\ sh_ch (wo_sh w) = [] /\ wo_hand w = None /\ wo_taken w = [] /\ Forall calm (wo_peers w).
Lemma upd_forall {A} (P : A -> Prop) l k x : Forall P l -> P x -> Forall P (upd l k x).
Proof. intros H. revert k. induction H as [|y l Hy H IH]; intros k Hx; [constructor|]. destruct k; cbn; constructor; auto. Qed.
Lemma idle_step sha1 i s r s' r' es : calm r -> pstep sha1 i s r = Some (s', r', es) -> (forall b, In (EReadOk b) es -> tells_nothing b) ->
  sh_w s' = sh_w s /\ sh_ch s' = sh_ch s /\ calm r'.
Proof.
  intros [HP HI] HS HB. unfold calm. unfold pstep, wait, create in HS.
  destruct (r_pc r) eqn:PC; cbn in HP; try contradiction; dmatch HS; inversion HS; subst; clear HS;
    try (rewrite HI in *; rewrite andb_false_r in *; discriminate);
    try (rewrite (idle_body _ _ _ _ _ (HB _ (or_introl eq_refl))));
    try (repeat split; cbn; auto; try (match goal with |- context [if ?c then _ else _] => destruct c end; exact I); fail).
  all: unfold push; destruct (r_req r); cbn; repeat split; auto.
Qed.
Theorem idle_peers sha1 w0 l w tr : w_panic w0 = false -> Forall (spawns (eq false)) l -> run sha1 l (start w0) = (w, tr) ->
  (forall k b, In (k, EReadOk b) tr -> tells_nothing b) ->
  crashed w = false /\ sh_w (wo_sh w) = w0 /\ sh_ch (wo_sh w) = [].
Proof.
  intros H0 HB HR.
  assert (K : idle_inv w0 w tr).
  { apply (run_inv sha1 (idle_inv w0) (spawns (eq false)) (start w0)) with (l := l); auto.
    - intros _. cbn. auto.
    - clear. intros w tr a w' es HI HB HE HT. assert (HT' : forall k b, In (k, EReadOk b) tr -> tells_nothing b) by (intros; eapply HT; apply in_app_iff; eauto).
      destruct (HI HT') as (I1 & I2 & I3 & I4 & I5). clear HI. unfold exec in HE. destruct (crashed w); [inversion HE; subst; auto|].
      destruct a as [b g|k i| | |].
      + inversion HE; subst. cbn. repeat split; auto. apply Forall_app. split; [exact I5|]. constructor; [|constructor]. cbn in HB. subst b. split; reflexivity.
      + destruct (nth_error (wo_peers w) k) as [r|] eqn:Hk; [|inversion HE; subst; auto].
        destruct (pstep sha1 i (wo_sh w) r) as [[[s' r'] es']|] eqn:Es; inversion HE; subst; [|auto].
        assert (Hr : calm r) by (eapply Forall_forall; [exact I5|]; eapply nth_error_In; eauto).
        destruct (idle_step _ _ _ _ _ _ _ Hr Es) as (A & B & C).
        { intros b Hb. apply (HT k). apply in_app_iff. right. apply in_map_iff. eauto. }
        cbn. rewrite A, B. repeat split; auto. apply upd_forall; auto.
      + rewrite I3, I2 in HE. inversion HE; subst. auto.
      + inversion HE; subst. cbn. auto.
      + destruct (wo_main w); [destruct (wg w =? 0)|destruct (sh_cancel (wo_sh w))| |]; inversion HE; subst; cbn; auto. }
  intro HT. destruct (K HT) as (I1 & I2 & I3 & I4 & I5). split; [|auto]. unfold crashed. rewrite I1, H0, orb_false_r.
  clear -I5. induction I5 as [|r rs [Hr _] H IH]; [reflexivity|]. cbn. rewrite IH, orb_false_r. unfold panicked. destruct (r_pc r); cbn in *; auto; contradiction.
Qed.
