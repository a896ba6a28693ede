(* Accepted pieces are written once the writer has had two turns for each: C154. *)
From Verif Require Import Base ProofBase ModelBitset ModelMsg ModelTorrent ModelConn ModelPeer ModelSystem
  SpecPeer SpecTurns ProofTorrent ProofSystem ProofRequests ProofProgress ProofVerified.

Lemma turns_app a b : turns (a ++ b) = (turns a + turns b)%nat.
Proof. induction a as [|[] a IH]; cbn; auto. Qed.

Definition phase (w : world) : nat := 2 * length (wo_taken w) + match wo_hand w with Some _ => 1 | None => 0 end.

Lemma crashed_stays sha1 l : forall w w' tr, run sha1 l w = (w', tr) -> crashed w = true -> w' = w.
Proof.
  induction l as [|a l IH]; intros w w' tr HR HC; cbn in HR; [now inversion HR|].
  unfold exec in HR. rewrite HC in HR. destruct (run sha1 l w) as [w2 e2] eqn:E. inversion HR; subst. eapply IH; eauto.
Qed.
Lemma phase_other sha1 a w w' es : exec sha1 a w = (w', es) -> (phase w <= phase w')%nat.
Proof.
  intros HE. unfold exec in HE. destruct (crashed w); [inversion HE; subst; auto|]. unfold phase.
  destruct a as [b g|k i| | |].
  - inversion HE; subst. cbn. lia.
  - destruct (nth_error (wo_peers w) k) as [r|]; [|inversion HE; subst; lia].
    destruct (pstep sha1 i (wo_sh w) r) as [[[s' r'] es']|]; inversion HE; subst; cbn; lia.
  - destruct (wo_hand w) eqn:Eh; [inversion HE; subst; cbn; rewrite app_length; cbn; lia|].
    destruct (sh_ch (wo_sh w)); inversion HE; subst; cbn; try rewrite Eh; lia.
  - inversion HE; subst. cbn. lia.
  - destruct (wo_main w); [destruct (wg w =? 0)|destruct (sh_cancel (wo_sh w))| |]; inversion HE; subst; cbn; lia.
Qed.
Lemma phase_writer sha1 w w' es n : exec sha1 AWriter w = (w', es) -> crashed w = false ->
  (n < length (wo_taken w ++ held w ++ sh_ch (wo_sh w)))%nat -> (phase w < 2 * S n)%nat -> (S (phase w) <= phase w')%nat.
Proof.
  intros HE HC HL HP. unfold exec in HE. rewrite HC in HE. unfold phase, held in *. rewrite !app_length in HL.
  destruct (wo_hand w) eqn:Eh.
  - inversion HE; subst. cbn. rewrite app_length. cbn. lia.
  - cbn in HL. destruct (sh_ch (wo_sh w)) as [|m ch].
    + cbn in HL. lia.
    + inversion HE; subst. cbn. lia.
Qed.
Lemma handed_grows (a b : list (nat * event)) n m : nth_error (handed a) n = Some m -> nth_error (handed (a ++ b)) n = Some m.
Proof. intros H. rewrite handed_app. rewrite nth_error_app1; [exact H|]. apply nth_error_Some. congruence. Qed.

Lemma turns_phase sha1 w0 n m l2 : forall l1 w1 tr1 w2 tr2, run sha1 l1 (start w0) = (w1, tr1) -> nth_error (handed tr1) n = Some m ->
  run sha1 l2 w1 = (w2, tr2) -> crashed w2 = false -> (Nat.min (2 * S n) (phase w1 + turns l2) <= phase w2)%nat.
Proof.
  induction l2 as [|a l2 IH]; intros l1 w1 tr1 w2 tr2 HR1 Hn HR2 HC; cbn in HR2.
  - inversion HR2; subst. cbn [turns]. lia.
  - destruct (exec sha1 a w1) as [w3 e3] eqn:E3. destruct (run sha1 l2 w3) as [w4 e4] eqn:E4. inversion HR2; subst w4 tr2. clear HR2.
    assert (HR3 : run sha1 (l1 ++ [a]) (start w0) = (w3, tr1 ++ e3)) by (rewrite run_app, HR1; cbn; rewrite E3, app_nil_r; reflexivity).
    specialize (IH _ _ _ _ _ HR3 (handed_grows _ _ _ _ Hn) E4 HC). pose proof (phase_other _ _ _ _ _ E3) as HM.
    destruct (Nat.lt_ge_cases (phase w1) (2 * S n)) as [HL|HL]; [|lia].
    destruct a; cbn [turns]; try lia.
    assert (HC1 : crashed w1 = false).
    { destruct (crashed w1) eqn:X; [|reflexivity]. unfold exec in E3. rewrite X in E3. inversion E3; subst w3 e3.
      rewrite (crashed_stays _ _ _ _ _ E4 X) in HC. congruence. }
    destruct (writer_run _ _ _ _ _ HR1) as [_ HH].
    assert (HN : (n < length (wo_taken w1 ++ held w1 ++ sh_ch (wo_sh w1)))%nat) by (rewrite <- HH; apply nth_error_Some; congruence).
    pose proof (phase_writer _ _ _ _ _ E3 HC1 HN HL). lia.
Qed.
Theorem written_in_turn sha1 w0 l1 w1 tr1 n m l2 w2 tr2 :
  run sha1 l1 (start w0) = (w1, tr1) -> nth_error (handed tr1) n = Some m ->
  run sha1 l2 w1 = (w2, tr2) -> crashed w2 = false -> (2 * S n <= 2 * length (wo_taken w1) + turns l2)%nat ->
  nth_error (wo_taken w2) n = Some m.
Proof.
  intros HR1 Hn HR2 HC HT. pose proof (turns_phase _ _ _ _ _ _ _ _ _ _ HR1 Hn HR2 HC) as HP.
  assert (HL : (n < length (wo_taken w2))%nat) by (unfold phase in *; destruct (wo_hand w2), (wo_hand w1); lia).
  assert (HR : run sha1 (l1 ++ l2) (start w0) = (w2, tr1 ++ tr2)) by (rewrite run_app, HR1, HR2; reflexivity).
  destruct (writer_run _ _ _ _ _ HR) as [_ HH]. pose proof (handed_grows tr1 tr2 _ _ Hn) as Hn'. rewrite HH in Hn'.
  rewrite nth_error_app1 in Hn'; auto.
Qed.
(* never out of order, never twice: the messages written are the first of those accepted *)
Theorem written_in_order sha1 w0 l w tr : run sha1 l (start w0) = (w, tr) ->
  wo_taken w = firstn (length (wo_taken w)) (handed tr) /\ w_fs (sh_w (wo_sh w)) = w_fs (WritePiece w0 (wo_taken w)).
Proof.
  intros HR. destruct (writer_run _ _ _ _ _ HR) as [HS HH]. split; [|apply HS].
  rewrite HH, firstn_app, Nat.sub_diag, firstn_all, app_nil_r. reflexivity.
Qed.
