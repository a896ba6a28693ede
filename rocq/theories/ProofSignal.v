(* Signals after the first: C172.                                              *)
From Verif Require Import Base ProofBase ModelTorrent ModelConn ModelStats ModelPeer ModelSystem ModelTracker ModelManager ModelClient
  SpecManager SpecClient SpecOrigin SpecSignal ProofSystem ProofManager ProofClient ProofClient2 ProofClient3 ProofClient6.

Lemma again_same cf c : reach cf c -> g_cancel (c_mgr c) = true \/ dead c = true \/ c_exit c = true -> cexec cf KSignal c = (c, []).
Proof.
  intros HR H. unfold cexec. destruct (dead c) eqn:D; [reflexivity|]. destruct (c_exit c) eqn:X; [reflexivity|]. destruct H as [H|[H|H]]; try discriminate. cbn [orb].
  destruct (alive _ D) as [D1 D2]. pose proof (reach_agree _ _ HR) as [_ A]. specialize (A D1 H). unfold with_mgr, gexec. rewrite D2. cbn [fst snd map]. f_equal.
  rewrite sync_id by exact A. destruct c as [g w rn tk rd cn wr pr ex]. cbn in *. destruct g. cbn in *. subst. reflexivity.
Qed.
Lemma second_same cf t f outs urls l c tr : crun cf l (client_start cf t f outs urls) = (c, tr) -> In KSignal l -> cexec cf KSignal c = (c, []).
Proof.
  intros H HI. apply again_same; [repeat eexists; exact H|]. eapply (signal_cancels cf l); [|exact H|now left]. exists t, f, outs, urls, [], []. reflexivity.
Qed.
Lemma reach_run cf l : forall c c' tr, reach cf c -> crun cf l c = (c', tr) -> reach cf c'.
Proof.
  induction l as [|a l IH]; intros c c' tr HR H; cbn [crun] in H; [inversion H; subst; exact HR|]. destruct (cexec cf a c) as [c1 e1] eqn:E1. destruct (crun cf l c1) as [c2 e2] eqn:E2.
  inversion H; subst. eapply IH; [eapply reach_step; eassumption|exact E2].
Qed.
Lemma only_first_from cf l : forall c, reach cf c -> g_cancel (c_mgr c) = true \/ dead c = true \/ c_exit c = true -> crun cf l c = crun cf (filter no_signal l) c.
Proof.
  induction l as [|a l IH]; intros c HR H; [reflexivity|]. destruct (no_signal a) eqn:N; cbn [filter]; rewrite N; cbn [crun].
  - destruct (cexec cf a c) as [c1 e1] eqn:E. rewrite (IH c1); [reflexivity|eapply reach_step; eassumption|].
    assert (R : crun cf [a] c = (c1, e1)) by (cbn [crun]; rewrite E, app_nil_r; reflexivity). destruct H as [H|H]; [exact (signal_cancels cf [a] c c1 e1 HR R (or_intror H))|].
    pose proof (over_stays cf [a] c H) as S. rewrite R in S. cbn in S. subst. right. exact H.
  - assert (a = KSignal) by (destruct a; discriminate || reflexivity). subst a. rewrite (again_same _ _ HR H). rewrite (IH c HR H). destruct (crun cf (filter no_signal l) c). reflexivity.
Qed.
Lemma only_first cf t f outs urls l1 l2 : crun cf (l1 ++ KSignal :: l2) (client_start cf t f outs urls) = crun cf (l1 ++ KSignal :: filter no_signal l2) (client_start cf t f outs urls).
Proof.
  rewrite !crun_app. destruct (crun cf l1 (client_start cf t f outs urls)) as [c1 e1] eqn:E1. cbn [crun]. destruct (cexec cf KSignal c1) as [c2 e2] eqn:E2.
  assert (R1 : reach cf c1) by (repeat eexists; exact E1). assert (R : crun cf [KSignal] c1 = (c2, e2)) by (cbn [crun]; rewrite E2, app_nil_r; reflexivity).
  rewrite (only_first_from cf l2 c2); [reflexivity|eapply reach_step; eassumption|]. exact (signal_cancels cf [KSignal] c1 c2 e2 R1 R (or_introl (or_introl eq_refl))).
Qed.
