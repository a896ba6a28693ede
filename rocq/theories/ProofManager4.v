(* Lemmas about the tracker goroutines: announces per round, cancellation.      *)
From Verif Require Import Base ProofBase ModelTracker ModelSystem ModelManager SpecManager ProofSystem ProofProgress ProofManager ProofManager2 ProofManager3.
Local Arguments Nat.sub : simpl never.

(* the announces of tracker j since its round began *)
Fixpoint since (j : nat) (tr : list gev) (acc : nat) : nat :=
  match tr with
  | [] => acc
  | GRound j' :: tr' => since j tr' (if Nat.eqb j' j then 0 else acc)
  | GAnn j' _ :: tr' => since j tr' (if Nat.eqb j' j then S acc else acc)
  | _ :: tr' => since j tr' acc
  end.
Lemma since_app j t1 t2 a : since j (t1 ++ t2) a = since j t2 (since j t1 a).
Proof. revert a. induction t1 as [|e t1 IH]; intros a; [reflexivity|]. destruct e; cbn; apply IH. Qed.
Lemma since_none j t a : ~ In (GRound j) t -> since j t a = (a + anns j t)%nat.
Proof.
  revert a. induction t as [|e t IH]; intros a N; [cbn; lia|]. assert (N' : ~ In (GRound j) t) by (intros X; apply N; now right).
  unfold anns in *. destruct e as [j'|j' ?|? ? ?|? ?|? ?]; cbn; rewrite IH by exact N'; try reflexivity.
  - destruct (Nat.eqb j' j) eqn:E; [|reflexivity]. apply Nat.eqb_eq in E. subst. exfalso. apply N. now left.
  - destruct (Nat.eqb j' j); cbn; lia.
Qed.
Definition round_inv (j : nat) (g : mgr) (tr : list gev) : Prop :=
  (since j tr 0 + (if g_panic g then 0 else abud_at g j) <= 5)%nat /\
  (forall t1 t2, tr = t1 ++ GAnn j true :: t2 -> ~ In (GRound j) t2 -> anns j t2 = 0%nat /\ (g_panic g = true \/ abud_at g j = 0%nat)).
Lemma snoc_split {A} (t : list A) e t1 x t2 : t ++ [e] = t1 ++ x :: t2 -> (t2 = [] /\ x = e /\ t = t1) \/ exists t2', t2 = t2' ++ [e] /\ t = t1 ++ x :: t2'.
Proof.
  intros H. induction t2 as [|y t2' _] using rev_ind.
  - left. apply app_inj_tail in H. destruct H as [-> ->]. auto.
  - right. exists t2'. change (t1 ++ x :: t2' ++ [y]) with (t1 ++ (x :: t2') ++ [y]) in H. rewrite app_assoc in H. apply app_inj_tail in H. destruct H as [-> ->]. auto.
Qed.
Lemma abud5 g tr j : ginv g tr -> (abud_at g j <= 5)%nat.
Proof. intros _. unfold abud_at. destruct (nth_error _ _) as [[]|]; cbn; lia. Qed.
Lemma round_step j g tr a g' es : ginv g tr -> round_inv j g tr -> gexec a g = (g', es) -> round_inv j g' (tr ++ es).
Proof.
  intros IV [R1 R2] H.
  (* steps that emit nothing and do not raise the budget *)
  assert (Q : forall g2, (g_panic g2 = true \/ (g_panic g = false -> abud_at g2 j <= abud_at g j)%nat) -> g_panic g = false -> round_inv j g2 (tr ++ [])).
  { intros g2 HB Hp. rewrite app_nil_r. rewrite Hp in R1. split.
    - destruct (g_panic g2); [lia|]. destruct HB as [HB|HB]; [discriminate|]. specialize (HB Hp). lia.
    - intros t1 t2 E N. destruct (R2 _ _ E N) as [A B]. split; [exact A|]. destruct B as [B|B]; [congruence|]. destruct HB as [HB|HB]; [now left|right]. specialize (HB Hp). lia. }
  unfold gexec in H. destruct (g_panic g) eqn:Hp; [inversion H; subst; rewrite app_nil_r; unfold round_inv; now rewrite Hp|].
  destruct a as [n|j0 i|k| | |].
  - destruct (g_started g) eqn:Es; inversion H; subst; apply Q; auto. right. intros _. unfold abud_at. cbn.
    destruct (nth_error (repeat TNew n) j) eqn:E; [apply nth_error_In, repeat_spec in E; subst; cbn; lia|lia].
  - destruct (nth_error (g_trk g) j0) as [c|] eqn:Ej; [|inversion H; subst; apply Q; auto].
    destruct (tstep g j0 c i) as [[g2 e2]|] eqn:Et; [|inversion H; subst; apply Q; auto]. inversion H; subst g2 e2; clear H.
    destruct (tstep_abud _ _ _ _ _ _ _ IV Ej Et) as [(P & T & E)|(c' & T & L & O & X1 & X2 & X3)].
    + destruct E as [->|[-> [n ->]]]; [apply Q; auto|]. split.
      * rewrite P, since_app. cbn [since]. destruct (Nat.eqb j0 j) eqn:Ee; [|lia]. apply Nat.eqb_eq in Ee. subst j0.
        unfold abud_at in R1. rewrite Ej in R1. cbn [abud] in R1. pose proof (iv_pc _ _ IV _ _ Ej) as PC. cbn in PC. lia.
      * intros t1 t2 E N. split; [|now left]. apply snoc_split in E. destruct E as [(-> & X & _)|(t2' & -> & E)]; [reflexivity|].
        destruct (R2 _ _ E) as [A B]; [intros Y; apply N, in_app_iff; now left|]. rewrite anns_app, A. cbn.
        destruct (Nat.eqb j0 j) eqn:Ee; [|reflexivity]. apply Nat.eqb_eq in Ee. subst j0.
        destruct B as [B|B]; [congruence|]. unfold abud_at in B. rewrite Ej in B. cbn in B. pose proof (iv_pc _ _ IV _ _ Ej) as PC. cbn in PC. lia.
    + destruct (Nat.eq_dec j0 j) as [->|Nj].
      * assert (AB : abud_at g' j = abud c') by (unfold abud_at; rewrite T, (nth_upd_same _ _ _ _ Ej); reflexivity).
        assert (AG : abud_at g j = abud c) by (unfold abud_at; now rewrite Ej).
        unfold round_inv. rewrite AB. rewrite AG in *. assert (R1' : (since j tr 0 + abud c <= 5)%nat) by exact R1.
        destruct es as [|e [|? ?]]; [| |cbn in L; lia].
        -- specialize (X2 (fun x => x)). cbn in X2. rewrite app_nil_r. split; [destruct (g_panic g'); lia|].
           intros t1 t2 E N. destruct (R2 _ _ E N) as [A [B|B]]; [congruence|]. split; [exact A|right; lia].
        -- destruct (in_dec (fun a b : gev => ltac:(repeat decide equality)) (GRound j) [e]) as [Y|Y].
           ++ destruct Y as [->|[]]. destruct (X1 (or_introl eq_refl)) as [_ E5]. split.
              ** rewrite since_app. cbn. rewrite Nat.eqb_refl. destruct (g_panic g'); lia.
              ** intros t1 t2 E N. exfalso. apply snoc_split in E. destruct E as [(_ & E & _)|(t2' & -> & _)]; [discriminate|]. apply N, in_app_iff. right. now left.
           ++ specialize (X2 Y). split.
              ** rewrite since_app, (since_none _ [e]) by exact Y. destruct (g_panic g'); lia.
              ** intros t1 t2 E N. apply snoc_split in E. destruct E as [(-> & E & _)|(t2' & -> & E)].
                 --- subst e. split; [reflexivity|right]. apply X3. now left.
                 --- destruct (R2 _ _ E) as [A [B|B]]; [intros Z; apply N, in_app_iff; now left|congruence|]. rewrite anns_app, A. split; [lia|right; lia].
      * assert (AB : abud_at g' j = abud_at g j) by (unfold abud_at; rewrite T, nth_upd_other by auto; reflexivity).
        destruct (O j (fun e => Nj (eq_sym e))) as [O1 O2]. unfold round_inv. rewrite AB.
        split; [rewrite since_app, since_none by exact O2; destruct (g_panic g'); lia|].
        intros t1 t2 E N. destruct es as [|e [|? ?]]; [| |cbn in L; lia].
        -- rewrite app_nil_r in E. destruct (R2 _ _ E N) as [A [B|B]]; [congruence|]. auto.
        -- apply snoc_split in E. destruct E as [(-> & E & _)|(t2' & -> & E)].
           ++ subst e. unfold anns in O1. cbn in O1. rewrite Nat.eqb_refl in O1. discriminate.
           ++ destruct (R2 _ _ E) as [A [B|B]]; [intros Z; apply N, in_app_iff; now left|congruence|]. rewrite anns_app, A, O1. auto.
  - destruct (nth_error (g_peers g) k) as [p|]; [|inversion H; subst; apply Q; auto]. destruct (mp_state p); inversion H; subst; apply Q; auto.
  - inversion H; subst. apply Q; auto.
  - destruct (g_stop g); inversion H; subst; apply Q; auto. unfold stop_check. destruct (g_pool g); [destruct (g_started g)|]; auto.
  - destruct (g_stop g); inversion H; subst; apply Q; auto. unfold stop_close. destruct (close_all _ _ _); auto.
Qed.
Lemma round_run n l g tr j : grun l (NewMng n) = (g, tr) -> round_inv j g tr.
Proof.
  intros H. refine (proj2 (grun_inv (fun g tr => ginv g tr /\ round_inv j g tr) (fun _ => True) (NewMng n) _ _ l g tr _ H)).
  - split; [apply ginv_start|]. split; [unfold abud_at; cbn; destruct j; cbn; lia|]. intros [|? ?] t2 E; discriminate.
  - intros g1 t1 a g2 e2 [A B] _ E. split; [eapply gexec_inv; eassumption|eapply round_step; eassumption].
  - now apply Forall_forall.
Qed.
(* a prefix of a trace is the trace of a prefix *)
Lemma gexec_one a g g' es : gexec a g = (g', es) -> (length es <= 1)%nat.
Proof.
  unfold gexec. destruct (g_panic g); [intros H; inversion H; cbn; lia|]. destruct a as [n|j i|k| | |].
  - destruct (g_started g); intros H; inversion H; cbn; lia.
  - destruct (nth_error (g_trk g) j) as [c|]; [|intros H; inversion H; cbn; lia]. destruct (tstep g j c i) as [[g2 e2]|] eqn:E; intros H; inversion H; subst; [|cbn; lia].
    destruct c as [| |n|n|[|a ips]|k ips|k n ips|k n ips|k n ips| |]; cbn [tstep] in E; unfold AddPeer in E;
      repeat match type of E with
      | context [match i_ann i with _ => _ end] => destruct (i_ann i)
      | context [match g_pool g with _ => _ end] => destruct (g_pool g)
      | context [match pool_get ?m ?x with _ => _ end] => destruct (pool_get m x)
      | context [match nth_error ?l ?x with _ => _ end] => destruct (nth_error l x)
      | context [if ?b then _ else _] => destruct b
      end; inversion E; subst; cbn; lia.
  - destruct (nth_error (g_peers g) k) as [p|]; [destruct (mp_state p)|]; intros H; inversion H; cbn; lia.
  - intros H; inversion H; cbn; lia.
  - destruct (g_stop g); intros H; inversion H; cbn; lia.
  - destruct (g_stop g); intros H; inversion H; cbn; lia.
Qed.
Lemma prefix_run l : forall g0 g t1 t2, grun l g0 = (g, t1 ++ t2) -> exists l1 l2 g1, l = l1 ++ l2 /\ grun l1 g0 = (g1, t1) /\ grun l2 g1 = (g, t2).
Proof.
  induction l as [|a l IH]; intros g0 g t1 t2 H.
  - cbn in H. inversion H. symmetry in H2. apply app_eq_nil in H2. destruct H2 as [-> ->]. exists [], [], g. auto.
  - destruct t1 as [|e t1]; [exists [], (a :: l), g0; auto|].
    cbn [grun] in H. destruct (gexec a g0) as [g1 e1] eqn:E1. destruct (grun l g1) as [g2 e2] eqn:E2. inversion H; subst g2.
    pose proof (gexec_one _ _ _ _ E1) as L. destruct e1 as [|x [|]]; [| |cbn in L; lia].
    + cbn in H2. subst e2. destruct (IH g1 g (e :: t1) t2 E2) as (l1 & l2 & g3 & -> & A & B). exists (a :: l1), l2, g3. cbn [grun]. rewrite E1, A. auto.
    + cbn in H2. inversion H2; subst x e2. destruct (IH g1 g t1 t2 E2) as (l1 & l2 & g3 & -> & A & B). exists (a :: l1), l2, g3. cbn [grun]. rewrite E1, A. auto.
Qed.
(* between two starts of announceToTracker there are at most five announces, ... *)
Lemma anns_between n l g tr j t1 t2 t3 : grun l (NewMng n) = (g, tr) -> tr = t1 ++ t2 ++ t3 -> ~ In (GRound j) t2 -> (anns j t2 <= 5)%nat.
Proof.
  intros H -> N. rewrite app_assoc in H. destruct (prefix_run _ _ _ _ _ H) as (l1 & l2 & g1 & _ & H1 & _).
  destruct (round_run _ _ _ _ j H1) as [R _]. rewrite since_app, since_none in R by exact N. lia.
Qed.
(* ... and none after the first success *)
Lemma anns_success n l g tr j t1 t2 t3 : grun l (NewMng n) = (g, tr) -> tr = t1 ++ GAnn j true :: t2 ++ t3 -> ~ In (GRound j) t2 -> anns j t2 = 0%nat.
Proof.
  intros H -> N. replace (t1 ++ GAnn j true :: t2 ++ t3) with ((t1 ++ GAnn j true :: t2) ++ t3) in H by (now rewrite <- app_assoc).
  destruct (prefix_run _ _ _ _ _ H) as (l1 & l2 & g1 & _ & H1 & _).
  destruct (round_run _ _ _ _ j H1) as [_ R]. exact (proj1 (R _ _ eq_refl N)).
Qed.

(* ---------- C73: after cancellation ---------- *)
Definition rdial (c : tpc) : nat := match c with TPDial _ n _ => 5 - n | TPShake _ n _ | TPBack _ n _ => 4 - n | _ => 0 end.
Definition rrun (c : tpc) : nat := match c with TPDial _ _ _ | TPShake _ _ _ | TPBack _ _ _ => 1 | _ => 0 end.
Definition at_trk (f : tpc -> nat) (g : mgr) (j : nat) : nat := match nth_error (g_trk g) j with Some c => f c | None => 0 end.
Lemma dials_by_app j t1 t2 : dials_by j (t1 ++ t2) = (dials_by j t1 + dials_by j t2)%nat.
Proof. unfold dials_by. now rewrite filter_app, app_length. Qed.
Lemma runs_by_app j t1 t2 : runs_by j (t1 ++ t2) = (runs_by j t1 + runs_by j t2)%nat.
Proof. unfold runs_by. now rewrite filter_app, app_length. Qed.
Definition mine (j : nat) (e : gev) : Prop := match e with GRound j' | GAnn j' _ | GAdd j' _ _ | GDial j' _ | GRun j' _ => j' = j end.
Lemma not_mine j j' es : j' <> j -> Forall (mine j) es -> anns j' es = 0%nat /\ dials_by j' es = 0%nat /\ runs_by j' es = 0%nat /\ ~ In (GRound j') es.
Proof.
  intros N H. assert (E : Nat.eqb j j' = false) by (apply Nat.eqb_neq; auto).
  induction H as [|e es M _ (A & B & C & D)]; [repeat split; auto|].
  unfold anns, dials_by, runs_by in *. destruct e; cbn in M |- *; subst; rewrite ?E; (repeat split; try assumption; intros [X|X]; [inversion X; congruence|contradiction]).
Qed.
Lemma after_failure_cancel g j k n ips : g_cancel (after_failure g j k n ips) = g_cancel g.
Proof. unfold after_failure, peer_failed. destruct (Nat.eqb n 4); [destruct (nth_error (g_peers g) k)|]; reflexivity. Qed.
Lemma peer_failed_cancel g k : g_cancel (peer_failed g k) = g_cancel g.
Proof. unfold peer_failed. destruct (nth_error (g_peers g) k); reflexivity. Qed.
Lemma after_failure_trk g j k n ips : g_trk (after_failure g j k n ips) = upd (g_trk g) j (if Nat.eqb n 4 then TInit ips else TPBack k n ips).
Proof. unfold after_failure. destruct (Nat.eqb n 4); [apply trk_peer_failed|reflexivity]. Qed.
Lemma one_ann j b : anns j [GAnn j b] = 1%nat.
Proof. unfold anns. cbn. now rewrite Nat.eqb_refl. Qed.
Lemma one_dial j k : dials_by j [GDial j k] = 1%nat.
Proof. unfold dials_by. cbn. now rewrite Nat.eqb_refl. Qed.
Lemma one_run j k : runs_by j [GRun j k] = 1%nat.
Proof. unfold runs_by. cbn. now rewrite Nat.eqb_refl. Qed.
Lemma tstep_cancelled g j c i g' es tr : ginv g tr -> nth_error (g_trk g) j = Some c -> g_cancel g = true -> tstep g j c i = Some (g', es) ->
  g_cancel g' = true /\ Forall (mine j) es /\ ~ In (GRound j) es /\
  exists c', (g_trk g' = upd (g_trk g) j c' \/ g_trk g' = g_trk g /\ c' = c /\ g_panic g' = true /\ (es = [] \/ abud c = 5 - match c with TTry n => n | _ => 0 end /\ es = [GAnn j false])%nat) /\
    (g_panic g' = true \/ anns j es + abud c' <= abud c)%nat /\ (anns j es <= abud c)%nat /\ (dials_by j es + rdial c' <= rdial c)%nat /\ (runs_by j es + rrun c' <= rrun c)%nat.
Proof.
  intros IV Hj HC H. pose proof (iv_pc _ _ IV _ _ Hj) as PC.
  assert (S0 : forall c', g_cancel g' = true -> es = [] -> g_trk g' = upd (g_trk g) j c' -> (abud c' <= abud c)%nat -> (rdial c' <= rdial c)%nat -> (rrun c' <= rrun c)%nat ->
    g_cancel g' = true /\ Forall (mine j) es /\ ~ In (GRound j) es /\
  exists c', (g_trk g' = upd (g_trk g) j c' \/ g_trk g' = g_trk g /\ c' = c /\ g_panic g' = true /\ (es = [] \/ abud c = 5 - match c with TTry n => n | _ => 0 end /\ es = [GAnn j false])%nat) /\
    (g_panic g' = true \/ anns j es + abud c' <= abud c)%nat /\ (anns j es <= abud c)%nat /\ (dials_by j es + rdial c' <= rdial c)%nat /\ (runs_by j es + rrun c' <= rrun c)%nat).
  { intros c' E1 -> E3 E4 E5 E6. split; [exact E1|]. split; [constructor|]. split; [intros []|]. exists c'. split; [now left|]. cbn. split; [right; lia|]. repeat split; lia. }
  destruct c as [| |n|n|[|a ips]|k ips|k n ips|k n ips|k n ips| |]; cbn [tstep] in H; rewrite ?HC in H; cbn in PC.
  - inversion H; subst. eapply S0; [exact HC|reflexivity|reflexivity|..]; destruct (i_new i); cbn; lia.
  - inversion H; subst. eapply S0; [exact HC|reflexivity|reflexivity|..]; cbn; lia.
  - destruct (i_ann i); inversion H; subst; (split; [exact HC|]); (split; [repeat constructor|]); (split; [intros [X|[]]; discriminate|]);
      try (eexists; split; [left; reflexivity|]; rewrite one_ann; destruct (Nat.eqb n 4) eqn:E; cbn; first [apply Nat.eqb_eq in E|apply Nat.eqb_neq in E]; (split; [right; lia|]); repeat split; lia).
    exists (TTry n). rewrite one_ann. split; [right; cbn; split; [reflexivity|]; split; [reflexivity|]; split; [reflexivity|]; right; split; reflexivity|]. cbn. split; [now left|]. repeat split; lia.
  - destruct (i_timer i); inversion H; subst; (eapply S0; [exact HC|reflexivity|reflexivity|..]; cbn; lia).
  - inversion H; subst. eapply S0; [exact HC|reflexivity|reflexivity|..]; cbn; lia.
  - unfold AddPeer in H. destruct (g_pool g) as [m|].
    + destruct (pool_get m (apString a)); inversion H; subst; (split; [exact HC|]); (split; [repeat constructor|]); (split; [intros [X|[]]; discriminate|]);
        (eexists; split; [left; reflexivity|]; cbn; split; [right; lia|]; repeat split; lia).
    + inversion H; subst. split; [exact HC|]. split; [constructor|]. split; [intros []|]. exists (TInit (a :: ips)). cbn. split; [right; auto|]. split; [now left|]. repeat split; lia.
  - inversion H; subst. eapply S0; [cbn; now rewrite peer_failed_cancel|reflexivity|apply trk_peer_failed|..]; cbn; lia.
  - destruct (nth_error (g_peers g) k) as [p|]; [|discriminate]. destruct (i_dial i && _); inversion H; subst; (split; [rewrite ?after_failure_cancel; cbn; first [exact HC|reflexivity]|]); (split; [repeat constructor|]); (split; [intros [X|[]]; discriminate|]).
    + eexists. split; [left; reflexivity|]. rewrite one_dial. cbn. split; [right; lia|]. repeat split; lia.
    + eexists. split; [left; rewrite after_failure_trk; reflexivity|]. rewrite one_dial. destruct (Nat.eqb n 4) eqn:E; cbn; first [apply Nat.eqb_eq in E|apply Nat.eqb_neq in E]; (split; [right; lia|]); repeat split; lia.
  - destruct (i_shake i).
    + destruct (nth_error (g_peers g) k) as [p|]; inversion H; subst. split; [exact HC|]. split; [repeat constructor|]. split; [intros [X|[]]; discriminate|].
      eexists. split; [left; reflexivity|]. rewrite one_run. cbn. split; [right; lia|]. repeat split; lia.
    + inversion H; subst. eapply S0; [rewrite after_failure_cancel; exact HC|reflexivity|apply after_failure_trk|..]; destruct (Nat.eqb n 4) eqn:E; cbn; first [apply Nat.eqb_eq in E|apply Nat.eqb_neq in E]; lia.
  - destruct (i_timer i); inversion H; subst; (eapply S0; [cbn; rewrite ?peer_failed_cancel; exact HC|reflexivity|first [apply trk_peer_failed|reflexivity]|..]; cbn; lia).
  - destruct (i_timer i); inversion H; subst; (eapply S0; [exact HC|reflexivity|reflexivity|..]; cbn; lia).
  - discriminate.
Qed.

Lemma cancel_bounds j l : forall g tr0 g' tr, ginv g tr0 -> g_cancel g = true -> grun l g = (g', tr) ->
  ~ In (GRound j) tr /\ (anns j tr <= at_trk abud g j)%nat /\ (dials_by j tr <= at_trk rdial g j)%nat /\ (runs_by j tr <= at_trk rrun g j)%nat.
Proof.
  induction l as [|a l IH]; intros g tr0 g' tr IV HC H; cbn [grun] in H.
  - inversion H; subst. split; [intros []|]. cbn. repeat split; lia.
  - destruct (gexec a g) as [g1 e1] eqn:E1. destruct (grun l g1) as [g2 e2] eqn:E2. inversion H; subst g2 tr; clear H.
    pose proof (gexec_inv _ _ _ _ _ IV E1) as IV1.
    (* quiet steps *)
    assert (Q : e1 = [] -> g_cancel g1 = true -> (at_trk abud g1 j <= at_trk abud g j)%nat -> (at_trk rdial g1 j <= at_trk rdial g j)%nat -> (at_trk rrun g1 j <= at_trk rrun g j)%nat ->
      ~ In (GRound j) (e1 ++ e2) /\ (anns j (e1 ++ e2) <= at_trk abud g j)%nat /\ (dials_by j (e1 ++ e2) <= at_trk rdial g j)%nat /\ (runs_by j (e1 ++ e2) <= at_trk rrun g j)%nat).
    { intros -> C1 L1 L2 L3. destruct (IH _ _ _ _ IV1 C1 E2) as (A & B & C & D). cbn [app]. split; [exact A|]. repeat split; lia. }
    unfold gexec in E1. destruct (g_panic g) eqn:Hp.
    { inversion E1; subst. apply Q; auto. }
    destruct a as [n|j0 i|k| | |].
    + destruct (g_started g) eqn:Es; inversion E1; subst; [apply Q; auto|].
      assert (X : forall f, f TNew = 0%nat -> (at_trk f (mkMgr (g_limit g) true (g_cancel g) (g_pool g) (g_peers g) (g_conns g) (repeat TNew n) (g_num g) (g_stop g) false) j <= at_trk f g j)%nat).
      { intros f Hf. unfold at_trk at 1. cbn [g_trk]. destruct (nth_error (repeat TNew n) j) eqn:E; [apply nth_error_In, repeat_spec in E; subst; rewrite Hf; lia|lia]. }
      apply Q; auto; apply X; reflexivity.
    + destruct (nth_error (g_trk g) j0) as [c|] eqn:Ej; [|inversion E1; subst; apply Q; auto].
      destruct (tstep g j0 c i) as [[g3 e3]|] eqn:Et; [|inversion E1; subst; apply Q; auto]. inversion E1; subst g3 e3; clear E1.
      destruct (tstep_cancelled _ _ _ _ _ _ _ IV Ej HC Et) as (C1 & MI & NR & c' & T & X1 & X1' & X2 & X3).
      destruct (IH _ _ _ _ IV1 C1 E2) as (A & B & C & D).
      assert (PN : g_panic g1 = true -> e2 = []).
      { intros P. clear -P E2. revert g1 P g' e2 E2. induction l as [|a l IH]; intros g1 P g' e2 E2; cbn in E2; [now inversion E2|].
        unfold gexec in E2. rewrite P in E2. destruct (grun l g1) as [g2 e] eqn:E. inversion E2; subst. eauto. }
      rewrite anns_app, dials_by_app, runs_by_app.
      destruct (Nat.eq_dec j0 j) as [->|N].
      * assert (AT : forall f, at_trk f g j = f c) by (intros; unfold at_trk; now rewrite Ej).
        assert (AT1 : forall f, at_trk f g1 j = f c').
        { intros f. unfold at_trk. destruct T as [-> |(-> & -> & _)]; [rewrite (nth_upd_same _ _ _ _ Ej)|rewrite Ej]; reflexivity. }
        rewrite !AT. rewrite !AT1 in *. split; [rewrite in_app_iff; tauto|]. split; [|lia].
        destruct X1 as [X1|X1]; [rewrite (PN X1); cbn; lia|lia].
      * destruct (not_mine _ j _ (fun e => N (eq_sym e)) MI) as (M1 & M2 & M3 & M4).
        assert (AT1 : forall f, at_trk f g1 j = at_trk f g j).
        { intros f. unfold at_trk. destruct T as [-> |(-> & _)]; [rewrite nth_upd_other by auto|]; reflexivity. }
        rewrite !AT1 in *. split; [rewrite in_app_iff; tauto|]. lia.
    + destruct (nth_error (g_peers g) k) as [p|]; [|inversion E1; subst; apply Q; auto]. destruct (mp_state p); inversion E1; subst; apply Q; auto.
    + inversion E1; subst. apply Q; auto.
    + destruct (g_stop g); inversion E1; subst; apply Q; auto; unfold stop_check; destruct (g_pool g); try (destruct (g_started g)); auto.
    + destruct (g_stop g); inversion E1; subst; apply Q; auto; unfold stop_close; destruct (close_all _ _ _); auto.
Qed.
Lemma after_cancel n l1 g1 t1 l2 g2 t2 j : grun l1 (NewMng n) = (g1, t1) -> g_cancel g1 = true -> grun l2 g1 = (g2, t2) ->
  ~ In (GRound j) t2 /\ (anns j t2 <= 5)%nat /\ (dials_by j t2 <= 5)%nat /\ (runs_by j t2 <= 1)%nat.
Proof.
  intros H1 HC H2. destruct (cancel_bounds j _ _ _ _ _ (ginv_run _ _ _ _ H1) HC H2) as (A & B & C & D). split; [exact A|].
  assert (at_trk abud g1 j <= 5 /\ at_trk rdial g1 j <= 5 /\ at_trk rrun g1 j <= 1)%nat; [|lia].
  unfold at_trk. destruct (nth_error (g_trk g1) j) as [[]|]; cbn; lia.
Qed.

(* ... and it ends *)
Definition left_of (c : tpc) : nat :=
  match c with
  | TEnd => 0 | TStart => 1 | TNew | TWait => 2
  | TInit l => 3 + 20 * length l
  | TPStart _ l => 4 + 20 * length l
  | TPDial _ n l => 4 + 20 * length l + 3 * (5 - n)
  | TPShake _ n l => 3 + 20 * length l + 3 * (5 - n)
  | TPBack _ n l => 2 + 20 * length l + 3 * (5 - n)
  | TTry _ | TBack _ => 0
  end%nat.
Definition trying (c : tpc) : option nat := match c with TTry n => Some (2 * (5 - n)) | TBack n => Some (2 * (5 - n) - 1) | _ => None end%nat.
Lemma tstep_progress g j c i tr : ginv g tr -> nth_error (g_trk g) j = Some c -> g_cancel g = true -> c <> TEnd ->
  exists g' es, tstep g j c i = Some (g', es) /\ g_cancel g' = true /\
    (g_panic g' = true \/ exists c', g_trk g' = upd (g_trk g) j c' /\
       match trying c with
       | None => trying c' = None /\ (left_of c' < left_of c)%nat
       | Some r => match trying c' with None => True | Some r' => (r' < r)%nat end
       end).
Proof.
  intros IV Hj HC NE. pose proof (iv_pc _ _ IV _ _ Hj) as PC. pose proof (fun k => iv_own _ _ IV j c k) as OW.
  destruct c as [| |n|n|[|a ips]|k ips|k n ips|k n ips|k n ips| |]; cbn [tstep]; rewrite ?HC; cbn in PC.
  - eexists _, _. split; [reflexivity|]. split; [exact HC|]. right. eexists. split; [reflexivity|]. destruct (i_new i); cbn; auto.
  - eexists _, _. split; [reflexivity|]. split; [exact HC|]. right. eexists. split; [reflexivity|]. cbn; auto.
  - destruct (i_ann i); (eexists _, _; split; [reflexivity|]; split; [exact HC|]); try (right; eexists; split; [reflexivity|]; destruct (Nat.eqb n 4) eqn:E; cbn; first [apply Nat.eqb_eq in E|apply Nat.eqb_neq in E]; try exact I; lia). left; reflexivity.
  - destruct (i_timer i); (eexists _, _; split; [reflexivity|]; split; [exact HC|]; right; eexists; split; [reflexivity|]; cbn; try exact I; lia).
  - eexists _, _. split; [reflexivity|]. split; [exact HC|]. right. eexists. split; [reflexivity|]. cbn. split; [reflexivity|lia].
  - unfold AddPeer. destruct (g_pool g) as [m|]; [destruct (pool_get m (apString a))|]; (eexists _, _; split; [reflexivity|]; split; [exact HC|]);
      try (right; eexists; split; [reflexivity|]; cbn; split; [reflexivity|lia]). left; reflexivity.
  - eexists _, _. split; [reflexivity|]. split; [cbn; rewrite peer_failed_cancel; exact HC|]. right. eexists. split; [apply trk_peer_failed|]. cbn. split; [reflexivity|lia].
  - destruct (OW k Hj eq_refl) as (p & -> & _). destruct (i_dial i && _); (eexists _, _; split; [reflexivity|]; split; [rewrite ?after_failure_cancel; cbn; first [exact HC|reflexivity]|]; right; eexists).
    + split; [reflexivity|]. cbn. split; [reflexivity|lia].
    + split; [rewrite after_failure_trk; reflexivity|]. destruct (Nat.eqb n 4); cbn; (split; [reflexivity|lia]).
  - destruct (OW k Hj eq_refl) as (p & -> & _). destruct (i_shake i); (eexists _, _; split; [reflexivity|]; split; [rewrite ?after_failure_cancel; cbn; first [exact HC|reflexivity]|]; right; eexists).
    + split; [reflexivity|]. cbn. split; [reflexivity|lia].
    + split; [rewrite after_failure_trk; reflexivity|]. destruct (Nat.eqb n 4); cbn; (split; [reflexivity|lia]).
  - destruct (i_timer i); (eexists _, _; split; [reflexivity|]; split; [cbn; rewrite ?peer_failed_cancel; exact HC|]; right; eexists).
    + split; [reflexivity|]. cbn. split; [reflexivity|lia].
    + split; [apply trk_peer_failed|]. cbn. split; [reflexivity|lia].
  - destruct (i_timer i); (eexists _, _; split; [reflexivity|]; split; [exact HC|]; right; eexists; split; [reflexivity|]; cbn; split; [reflexivity|lia]).
  - contradiction.
Qed.
Lemma gafter_S f n g : gafter f (S n) g = gafter (fun m => f (S m)) n (fst (gexec (f 0%nat) g)).
Proof.
  unfold gafter. cbn [seq map grun]. destruct (gexec (f 0%nat) g) as [g1 e1]. cbn [fst]. rewrite <- seq_shift, map_map.
  destruct (grun (map (fun x => f (S x)) (seq 0 n)) g1). reflexivity.
Qed.
Lemma often_tail j f : often j f -> often j (fun m => f (S m)).
Proof. intros H n. destruct (H (S n)) as ([|m] & i & L & E); [lia|]. exists m, i. split; [lia|exact E]. Qed.
Definition over (g : mgr) (j : nat) : Prop := g_panic g = true \/ nth_error (g_trk g) j = Some TEnd.
(* steps of others leave the place of j *)
Lemma other_step g tr j a c g' es : ginv g tr -> nth_error (g_trk g) j = Some c -> g_cancel g = true -> (forall i, a <> XTrk j i) -> gexec a g = (g', es) ->
  nth_error (g_trk g') j = Some c /\ g_cancel g' = true.
Proof.
  intros IV Hj HC NA H. unfold gexec in H. destruct (g_panic g); [inversion H; subst; auto|]. destruct a as [n|j0 i|k| | |].
  - rewrite (started_trk _ _ _ _ IV Hj) in H. inversion H; subst. auto.
  - destruct (nth_error (g_trk g) j0) as [c0|] eqn:E0; [|inversion H; subst; auto]. destruct (tstep g j0 c0 i) as [[g3 e3]|] eqn:Et; inversion H; subst; [|auto].
    assert (N : j <> j0) by (intros ->; eapply NA; reflexivity).
    destruct (tstep_cancelled _ _ _ _ _ _ _ IV E0 HC Et) as (C1 & _ & _ & c' & T & _). split; [|exact C1]. destruct T as [->|(-> & _)]; [now rewrite nth_upd_other|exact Hj].
  - destruct (nth_error (g_peers g) k) as [p|]; [|inversion H; subst; auto]. destruct (mp_state p); inversion H; subst; auto.
  - inversion H; subst. auto.
  - destruct (g_stop g); inversion H; subst; auto; unfold stop_check; destruct (g_pool g); try (destruct (g_started g)); auto.
  - destruct (g_stop g); inversion H; subst; auto; unfold stop_close; destruct (close_all _ _ _); auto.
Qed.
Lemma gact_is_trk j (a : gact) : (exists i, a = XTrk j i) \/ forall i, a <> XTrk j i.
Proof. destruct a as [n|j0 i|k| | |]; try (right; discriminate). destruct (Nat.eq_dec j0 j) as [->|N]; [left; eauto|right; intros i' E; inversion E; congruence]. Qed.
(* the next own step, whenever it comes *)
Lemma next_turn j f : often j f -> forall g tr c, ginv g tr -> nth_error (g_trk g) j = Some c -> g_cancel g = true -> 
  (exists n, over (gafter f n g) j) \/
  exists n g1 tr1 i, g1 = gafter f n g /\ ginv g1 tr1 /\ nth_error (g_trk g1) j = Some c /\ g_cancel g1 = true /\ g_panic g1 = false /\ f n = XTrk j i.
Proof.
  intros HO. destruct (HO 0%nat) as (m & i0 & _ & Hm). revert f HO i0 Hm. induction m as [|m IH]; intros f HO i0 Hm g tr c IV Hj HC.
  - destruct (g_panic g) eqn:Hp; [left; exists 0%nat; left; exact Hp|]. right. exists 0%nat, g, tr, i0. split; [reflexivity|]. auto 10.
  - destruct (g_panic g) eqn:Hp; [left; exists 0%nat; left; exact Hp|].
    destruct (gact_is_trk j (f 0%nat)) as [[i E]|N].
    + right. exists 0%nat, g, tr, i. split; [reflexivity|]. auto 10.
    + destruct (gexec (f 0%nat) g) as [g1 e1] eqn:E1. destruct (other_step _ _ _ _ _ _ _ IV Hj HC N E1) as [Hj1 HC1].
      destruct (IH (fun k => f (S k)) (often_tail _ _ HO) i0 Hm g1 (tr ++ e1) c (gexec_inv _ _ _ _ _ IV E1) Hj1 HC1) as [(n & O)|(n & g2 & tr2 & i & -> & A & B & C & D & E)].
      * left. exists (S n). rewrite gafter_S, E1. exact O.
      * right. exists (S n), (gafter f (S n) g), tr2, i. rewrite gafter_S, E1. cbn [fst]. auto 10.
Qed.
Lemma gafter_add f n m g : gafter f (n + m) g = gafter (fun k => f (n + k)%nat) m (gafter f n g).
Proof.
  revert f g. induction n as [|n IH]; intros f g; [reflexivity|]. cbn [plus]. rewrite !gafter_S, IH. reflexivity.
Qed.
Lemma often_shift j f n : often j f -> often j (fun k => f (n + k)%nat).
Proof. intros H m. destruct (H (n + m)%nat) as (q & i & L & E). exists (q - n)%nat, i. split; [lia|]. now replace (n + (q - n))%nat with q by lia. Qed.
Lemma tend_dec c : c = TEnd \/ c <> TEnd.
Proof. destruct c; first [left; reflexivity|right; discriminate]. Qed.
Lemma ends_untrying j z : forall g tr c f, (left_of c < z)%nat -> trying c = None -> ginv g tr -> nth_error (g_trk g) j = Some c -> g_cancel g = true -> often j f ->
  exists n, over (gafter f n g) j.
Proof.
  induction z as [|z IH]; intros g tr c f Hz HT IV Hj HC HO; [lia|].
  destruct (tend_dec c) as [->|NE]; [exists 0%nat; right; exact Hj|].
  destruct (next_turn j f HO _ _ _ IV Hj HC) as [X|(n & g1 & tr1 & i & E & A & B & C & D & F)]; [exact X|].
  destruct (tstep_progress _ _ _ i _ A B C NE) as (g2 & es & Et & C2 & P).
  assert (E2 : gexec (f n) g1 = (g2, es)) by (unfold gexec; rewrite D, F, B, Et; reflexivity).
  assert (G2 : gafter f (n + 1) g = g2) by (rewrite gafter_add, <- E, gafter_S; unfold gafter; cbn; rewrite Nat.add_0_r, E2; reflexivity).
  destruct P as [P|(c' & T & P)]; [exists (n + 1)%nat; left; now rewrite G2|]. rewrite HT in P. destruct P as [P1 P2].
  destruct (IH g2 (tr1 ++ es) c' (fun k => f (n + 1 + k)%nat)) as (m & O); try assumption; [lia|eapply gexec_inv; eassumption|rewrite T; eapply nth_upd_same; eassumption|now apply often_shift|].
  exists (n + 1 + m)%nat. now rewrite gafter_add, G2.
Qed.
Lemma ends_trying j z : forall g tr c r f, (r < z)%nat -> trying c = Some r -> ginv g tr -> nth_error (g_trk g) j = Some c -> g_cancel g = true -> often j f ->
  exists n, over (gafter f n g) j.
Proof.
  induction z as [|z IH]; intros g tr c r f Hz HT IV Hj HC HO; [lia|].
  assert (NE : c <> TEnd) by (intros ->; discriminate).
  destruct (next_turn j f HO _ _ _ IV Hj HC) as [X|(n & g1 & tr1 & i & E & A & B & C & D & F)]; [exact X|].
  destruct (tstep_progress _ _ _ i _ A B C NE) as (g2 & es & Et & C2 & P).
  assert (E2 : gexec (f n) g1 = (g2, es)) by (unfold gexec; rewrite D, F, B, Et; reflexivity).
  assert (G2 : gafter f (n + 1) g = g2) by (rewrite gafter_add, <- E, gafter_S; unfold gafter; cbn; rewrite Nat.add_0_r, E2; reflexivity).
  destruct P as [P|(c' & T & P)]; [exists (n + 1)%nat; left; now rewrite G2|]. rewrite HT in P.
  assert (IV2 : ginv g2 (tr1 ++ es)) by (eapply gexec_inv; eassumption).
  assert (Hj2 : nth_error (g_trk g2) j = Some c') by (rewrite T; eapply nth_upd_same; eassumption).
  assert (X : exists m, over (gafter (fun k => f (n + 1 + k)%nat) m g2) j).
  { destruct (trying c') as [r'|] eqn:T'.
    - eapply IH; [|exact T'|eassumption..|now apply often_shift]. lia.
    - eapply (ends_untrying j (S (left_of c'))); [|exact T'|eassumption..|now apply often_shift]. lia. }
  destruct X as (m & O). exists (n + 1 + m)%nat. now rewrite gafter_add, G2.
Qed.
Lemma tracker_ends n l g tr j f : grun l (NewMng n) = (g, tr) -> g_cancel g = true -> (j < length (g_trk g))%nat -> often j f ->
  exists k, g_panic (gafter f k g) = true \/ nth_error (g_trk (gafter f k g)) j = Some TEnd.
Proof.
  intros H HC L HO. pose proof (ginv_run _ _ _ _ H) as IV. destruct (nth_error (g_trk g) j) as [c|] eqn:E; [|apply nth_error_None in E; lia].
  destruct (trying c) as [r|] eqn:T; [eapply (ends_trying j (S r))|eapply (ends_untrying j (S (left_of c)))]; eauto.
Qed.

(* ---------- C74: failed addresses ---------- *)
Definition named_again : list gact :=
  [XDownload 1; XTrk 0 tgo; XTrk 0 tgo; XTrk 0 (told [ap1])] ++ repeat (XTrk 0 tno) 12 ++ [XTrk 0 tgo; XTrk 0 tgo; XTrk 0 (told [ap1])].
Lemma named_again_ok : Forall act_ok named_again.
Proof. unfold named_again. repeat constructor; cbn; try discriminate; intros ips E; inversion E; subst; repeat constructor; lia. Qed.
Lemma retried_refuted : ~ (forall n l g tr j a ips, Forall act_ok l -> grun l (NewMng n) = (g, tr) -> g_panic g = false -> g_cancel g = false ->
  nth_error (g_trk g) j = Some (TInit (a :: ips)) -> failed_in g a -> forall i, In (GAdd j a true) (snd (gexec (XTrk j i) g))).
Proof.
  intros H. destruct (grun named_again (NewMng 30)) as [g tr] eqn:E.
  specialize (H 30 named_again g tr 0%nat ap1 [] named_again_ok E). vm_compute in E. inversion E; subst g tr; clear E.
  assert (F : failed_in (fst (grun named_again (NewMng 30))) ap1) by (eexists 0%nat, _; split; [vm_compute; reflexivity|]; split; reflexivity).
  vm_compute in F. destruct (H eq_refl eq_refl eq_refl F tgo) as [X|[]]. discriminate X.
Qed.
Lemma never_again n l g tr t1 t2 j j' a : grun l (NewMng n) = (g, tr) -> tr = t1 ++ GAdd j a true :: t2 -> ~ In (GAdd j' a true) t2.
Proof.
  intros H -> X. destruct (added_once _ _ _ _ H) as [_ N]. rewrite added_app in N. cbn [added] in N. apply NoDup_remove_2 in N. apply N, in_app_iff. right.
  apply in_split in X. destruct X as (u & v & ->). rewrite added_app. apply in_app_iff. right. left. reflexivity.
Qed.
