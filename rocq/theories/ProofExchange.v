(* Choking, conservation of requests (C82-C84), the printer (C85).             *)
From Coq Require Import Permutation.
From Verif Require Import Base ProofBase ModelBitset ModelMsg ModelTorrent ModelConn ModelPeer ModelSystem
  SpecPeer SpecExchange ProofTorrent ProofSystem ProofRequests ProofProgress ProofPeer ProofPeer2 ProofWitness.

(* ---------- no request while choked ---------- *)
Definition choke_ok (r : rstate) (es : list event) : Prop :=
  follows r es /\ (r_pc r = PSend \/ r_pc r = PNext -> s_choked (cl_status (r_peer r)) = false) /\
  forall a m c, es = a ++ ESent m :: c -> is_request m -> last_switch ChokeT UnchokeT a true false.
Lemma snoc_sent es m a c (l : list event) : es ++ l = a ++ ESent m :: c ->
  (exists c', es = a ++ ESent m :: c') \/ (exists l', a = es ++ l' /\ l = l' ++ ESent m :: c).
Proof.
  revert a. induction es as [|e es IH]; intros a E.
  - right. exists a. auto.
  - destruct a as [|x a]; cbn in E; inversion E; subst.
    + left. exists es. reflexivity.
    + destruct (IH a H1) as [[c' ->]|[l' [-> ->]]]; [left; exists c'; reflexivity|right; exists l'; split; reflexivity].
Qed.
Lemma choke_step sha1 i s r s' r' es es' : choke_ok r es -> pstep sha1 i s r = Some (s', r', es') -> choke_ok r' (es ++ es').
Proof.
  intros (HF & H1 & H2) HS. split; [eapply follows_step; eauto|]. split.
  - clear H2 HF. step_cases HS;
    try match goal with |- context [handle_body sha1 ?t ?u r ?b] =>
      destruct (handle_body_spec sha1 t u r b _ eq_refl) as (A1 & A2 & A3 & A4 & A5 & A6 & A7 & P);
      destruct P as [-> |[-> |[-> |[? ->]]]]; intros [?|?]; discriminate end.
    all: cbn; intros [E|E]; try discriminate E; auto.
    all: repeat match goal with H : _ && _ = true |- _ => apply andb_true_iff in H; destruct H end.
    all: try (destruct (s_choked (cl_status (r_peer r))); [discriminate|reflexivity]).
    all: match goal with H : createPieceMessage _ = (_, _) |- _ => unfold createPieceMessage in H; cbv zeta in H; inversion H; subst end; cbn.
    all: first [apply H1; now right|destruct (s_choked (cl_status (r_peer r))); [discriminate|reflexivity]].
  - intros a m c E Hm. destruct (snoc_sent _ _ _ _ _ E) as [[c' E']|[l' [-> E']]]; [eapply H2; eauto|].
    assert (X : l' = [] /\ r_pc r = PSend).
    { clear - HS E' Hm. revert E' Hm. step_cases HS; intros E' Hm;
        try (destruct l' as [|x1 [|x2 [|x3 l']]]; cbn in E'; try discriminate; inversion E'; subst; try discriminate Hm; auto; fail). }
    destruct X as [-> X]. rewrite app_nil_r. specialize (H1 (or_introl X)). destruct HF as (F & _). now rewrite H1 in F.
Qed.
Theorem requests_unchoked sha1 w0 l w tr k a m c : run sha1 l (start w0) = (w, tr) -> events_of k tr = a ++ ESent m :: c -> is_request m ->
  last_switch ChokeT UnchokeT a true false.
Proof.
  intros HR E Hm.
  destruct (local_inv sha1 (fun _ => True) choke_ok) with (w0 := w0) (l := l) (w := w) (tr := tr) as [HJ HI]; auto.
  - intros b t g _. split; [|split].
    + unfold follows. split; [|split]; [left; split; [reflexivity|intros ? []]..|reflexivity].
    + intros [?|?]; discriminate.
    + intros a' m' c' E'. destruct a'; discriminate.
  - intros; eapply choke_step; eauto.
  - apply any_spawn.
  - assert (HI' : In (k, ESent m) tr) by (apply in_events; rewrite E; apply in_app_iff; right; now left).
    apply HI in HI'. destruct (nth_error (wo_peers w) k) as [r|] eqn:Ek; [|apply nth_error_None in Ek; lia].
    destruct (HJ k r Ek) as (_ & _ & H). eapply H; eauto.
Qed.

(* ---------- requests are conserved ---------- *)
Lemma gather_ext F F' g ps : forall n, (forall k r, nth_error ps k = Some r -> F (n + k)%nat r = F' (n + k)%nat r) -> gather F g n ps = gather F' g n ps.
Proof.
  induction ps as [|r ps IH]; intros n H; cbn; [reflexivity|]. f_equal.
  - specialize (H O r eq_refl). rewrite Nat.add_0_r in H. now rewrite H.
  - apply IH. intros k r' Hk. specialize (H (S k) r' Hk). now rewrite Nat.add_succ_r in H.
Qed.
Lemma gather_snoc F g ps r : forall n, gather F g n (ps ++ [r]) = gather F g n ps ++ (if Nat.eqb (r_grp r) g then F (n + length ps)%nat r else []).
Proof.
  induction ps as [|x ps IH]; intro n; cbn.
  - now rewrite Nat.add_0_r, app_nil_r.
  - rewrite IH, <- app_assoc. now rewrite Nat.add_succ_r.
Qed.
Lemma gather_upd F F' g ps r r' : forall k n, nth_error ps k = Some r -> r_grp r' = r_grp r ->
  (forall j x, j <> k -> nth_error ps j = Some x -> F' (n + j)%nat x = F (n + j)%nat x) ->
  Permutation (gather F' g n (upd ps k r') ++ (if Nat.eqb (r_grp r) g then F (n + k)%nat r else []))
              (gather F g n ps ++ (if Nat.eqb (r_grp r) g then F' (n + k)%nat r' else [])).
Proof.
  induction ps as [|x ps IH]; intros [|k] n Hk G H; cbn in Hk; try discriminate; cbn [upd gather].
  - injection Hk as <-. rewrite Nat.add_0_r, G.
    rewrite (gather_ext F' F g ps (S n)).
    2:{ intros j y Hj. specialize (H (S j) y ltac:(lia) Hj). now rewrite Nat.add_succ_r in H. }
    destruct (Nat.eqb (r_grp x) g); [|now rewrite !app_nil_r].
    rewrite <- !app_assoc. rewrite (Permutation_app_comm (F' n r')). rewrite <- app_assoc.
    rewrite (Permutation_app_comm (gather F g (S n) ps) (F n x ++ F' n r')), <- app_assoc.
    apply Permutation_app_head, Permutation_app_comm.
  - rewrite <- !app_assoc. specialize (H O x ltac:(lia) eq_refl) as H0. rewrite Nat.add_0_r in H0. rewrite H0.
    apply Permutation_app_head. replace (n + S k)%nat with (S n + k)%nat by lia. apply IH; auto.
    intros j y Hj Hy. specialize (H (S j) y ltac:(lia) Hy). now rewrite Nat.add_succ_r in H.
Qed.

Lemma pstep_conserves sha1 i s r s' r' es : wf r -> pstep sha1 i s r = Some (s', r', es) ->
  Permutation (sh_q s (r_grp r) ++ in_flight r ++ created es) (sh_q s' (r_grp r) ++ in_flight r').
Proof.
  intros (W1 & W2 & W3) HS. step_cases HS;
  try match goal with |- context [handle_body sha1 ?t ?u r ?b] =>
      destruct (handle_body_spec sha1 t u r b _ eq_refl) as (A1 & A2 & A3 & A4 & A5 & A6 & A7 & P);
      unfold in_flight; rewrite A1, A2; cbn [created]; rewrite app_nil_r;
      match goal with E : r_pc r = _ |- _ => rewrite E end;
      destruct P as [-> |[-> |[-> |[? ->]]]]; reflexivity end.
  all: unfold in_flight; cbn [created app at_pc with_peer r_pc r_sent r_req sh_q set_ch set_t set_q];
      match goal with E : r_pc ?r = _ |- _ => rewrite E in * end; rewrite ?app_nil_r;
      try reflexivity.
  all: try (repeat match goal with H : _ && _ = true |- _ => apply andb_true_iff in H; destruct H end;
      destruct (r_sent r) eqn:Esent; try discriminate).
  all: try (specialize (W3 eq_refl); discriminate W3).
  all: try (destruct (W1 eq_refl) as [W4 W5]; discriminate W5).
  all: try (destruct W1 as [W4 W5]; [reflexivity|]).
  all: try match goal with E : FailedPieceMessage _ = _ |- _ => pose proof (pop_spec (sh_q s (r_grp r))) as HP; rewrite E in HP; rewrite HP end.
  all: try match goal with E : r_req _ = _ |- _ => rewrite E in * end.
  all: try match goal with H : None <> None |- _ => now contradiction H end.
  all: unfold push, RequestFailed; cbn; rewrite ?Nat.eqb_refl, ?app_nil_r; try reflexivity.
  all: destruct (r_req r) as [m'|] eqn:Er; try discriminate; try (exfalso; now apply W2).
  all: try match goal with H : Some _ = Some _ |- _ => inversion H; subst; clear H end.
  all: cbn; rewrite Nat.eqb_refl; reflexivity.
Qed.

Definition conserved (w : world) (tr : list (nat * event)) : Prop :=
  (forall k, (length (wo_peers w) <= k)%nat -> events_of k tr = []) /\ (forall k r, nth_error (wo_peers w) k = Some r -> wf r) /\
  forall g, Permutation (all_created g w tr) (sh_q (wo_sh w) g ++ all_in_flight g w).
Lemma conserved_step sha1 a w tr w' es : conserved w tr -> exec sha1 a w = (w', es) -> conserved w' (tr ++ es).
Proof.
  intros (Z0 & W & Q) HE. apply exec_kind in HE.
  destruct HE as [(P & Qs & _ & ->)|[(b & g & -> & S & P & ->)|(k & i & r & r' & es' & -> & Ek & Es & P & ->)]].
  - unfold conserved, all_created, all_in_flight. rewrite P, app_nil_r. split; [exact Z0|]. split; [exact W|]. intro g. rewrite Qs. apply Q.
  - unfold conserved, all_created, all_in_flight. rewrite P, app_nil_r, S. split; [|split].
    + intros k Hk. rewrite app_length in Hk. apply Z0. lia.
    + intros k r Hk. destruct (Nat.lt_ge_cases k (length (wo_peers w))) as [Hl|Hl].
      * rewrite nth_error_app1 in Hk by exact Hl. eauto.
      * rewrite nth_error_app2 in Hk by exact Hl. destruct (k - length (wo_peers w))%nat as [|[|?]]; cbn in Hk; inversion Hk; subst.
        unfold wf. cbn. repeat split; discriminate.
    + intro h. rewrite !gather_snoc. cbn [Nat.add]. rewrite Z0 by lia.
      replace (if Nat.eqb (r_grp (fresh b (sh_t (wo_sh w)) g)) h then created [] else []) with (@nil msg) by now destruct (Nat.eqb _ _).
      replace (if Nat.eqb (r_grp (fresh b (sh_t (wo_sh w)) g)) h then in_flight (fresh b (sh_t (wo_sh w)) g) else []) with (@nil msg) by now destruct (Nat.eqb _ _).
      rewrite !app_nil_r. apply Q.
  - assert (Hl : (k < length (wo_peers w))%nat) by (apply nth_error_Some; congruence).
    destruct (pstep_account sha1 i (wo_sh w) r (wo_sh w') r' es' (W k r Ek) Es) as (W' & G & _ & Qo & _).
    pose proof (pstep_conserves sha1 i (wo_sh w) r (wo_sh w') r' es' (W k r Ek) Es) as C.
    unfold conserved, all_created, all_in_flight. rewrite P. split; [|split].
    + intros k' Hk'. rewrite upd_length in Hk'. rewrite events_app, Z0 by exact Hk'. rewrite events_other by lia. reflexivity.
    + intros k' r2 H1. destruct (Nat.eq_dec k' k) as [->|Hne].
      * rewrite (nth_upd_same _ _ _ r Ek) in H1. now inversion H1; subst.
      * rewrite nth_upd_other in H1 by exact Hne. eauto.
    + intro g.
      pose proof (gather_upd (fun k _ => created (events_of k tr)) (fun k' _ => created (events_of k' (tr ++ map (pair k) es'))) g (wo_peers w) r r' k 0 Ek G) as G1.
      cbv beta in G1. cbn [Nat.add] in G1.
      pose proof (gather_upd (fun _ r => in_flight r) (fun _ r => in_flight r) g (wo_peers w) r r' k 0 Ek G ltac:(reflexivity)) as G2.
      cbv beta in G2.
      assert (G1' : Permutation (gather (fun k' _ => created (events_of k' (tr ++ map (pair k) es'))) g 0 (upd (wo_peers w) k r'))
                      (all_created g w tr ++ (if Nat.eqb (r_grp r) g then created es' else []))).
      { apply (Permutation_app_inv_r (if Nat.eqb (r_grp r) g then created (events_of k tr) else [])).
        rewrite G1.
        - unfold all_created. destruct (Nat.eqb (r_grp r) g); [|now rewrite !app_nil_r].
          rewrite events_app, events_same, created_app, <- app_assoc. apply Permutation_app_head, Permutation_app_comm.
        - intros j x Hj Hx. rewrite events_app, events_other by exact Hj. now rewrite app_nil_r. }
      rewrite G1', (Q g). unfold all_in_flight.
      clear G1 G1'. revert G2. destruct (Nat.eqb_spec (r_grp r) g) as [E|Hne]; intro G2; [subst g|].
      * apply (Permutation_app_inv_r (in_flight r)). rewrite <- !app_assoc. rewrite G2.
        rewrite (Permutation_app_comm (gather _ _ _ _) (in_flight r')). rewrite (app_assoc (sh_q (wo_sh w') (r_grp r))), <- C.
        rewrite <- !app_assoc. apply Permutation_app_head.
        rewrite (Permutation_app_comm (created es')), app_assoc, (Permutation_app_comm (_ ++ in_flight r)).
        rewrite (Permutation_app_comm _ (in_flight r)), app_assoc, (Permutation_app_comm (created es')), <- app_assoc. reflexivity.
      * rewrite Qo by congruence. rewrite !app_nil_r in *. now rewrite G2.
Qed.
Theorem requests_conserved sha1 w0 l w tr g : run sha1 l (start w0) = (w, tr) ->
  Permutation (all_created g w tr) (sh_q (wo_sh w) g ++ all_in_flight g w).
Proof.
  intro HR. cut (conserved w tr); [intros (_ & _ & H); apply H|].
  apply (run_inv sha1 conserved (fun _ => True) (start w0)) with (l := l); auto.
  - unfold conserved. cbn. split; [reflexivity|]. split; [intros [|k]; discriminate|reflexivity].
  - intros. eapply conserved_step; eauto.
  - apply Forall_forall. auto.
Qed.

(* a request is in the queue, or some peer of the round works on it *)
Lemma gather_in F g ps m : forall n, In m (gather F g n ps) -> exists k r, nth_error ps k = Some r /\ r_grp r = g /\ In m (F (n + k)%nat r).
Proof.
  induction ps as [|x ps IH]; intros n H; cbn in H; [contradiction|]. apply in_app_iff in H. destruct H as [H|H].
  - destruct (Nat.eqb_spec (r_grp x) g); [|contradiction]. exists O, x. rewrite Nat.add_0_r. auto.
  - destruct (IH _ H) as (k & r & H1 & H2 & H3). exists (S k), r. rewrite Nat.add_succ_r. auto.
Qed.
Theorem lost_only_with_peer sha1 w0 l w tr g m : run sha1 l (start w0) = (w, tr) -> In m (all_created g w tr) ->
  In m (sh_q (wo_sh w) g) \/ exists k r, nth_error (wo_peers w) k = Some r /\ r_grp r = g /\ r_req r = Some m /\ (r_sent r = true \/ r_pc r = PSend).
Proof.
  intros HR Hm. eapply Permutation_in in Hm; [|eapply requests_conserved; eauto]. apply in_app_iff in Hm. destruct Hm as [Hm|Hm]; [now left|].
  right. destruct (gather_in _ _ _ _ _ Hm) as (k & r & H1 & H2 & H3). exists k, r. unfold in_flight in H3.
  destruct (r_pc r) eqn:Epc; destruct (r_sent r) eqn:Es; try contradiction; destruct (r_req r) as [m'|]; try contradiction;
  destruct H3 as [<-|[]]; auto.
Qed.
Definition fail_keepalive : inp := mkI true false None true.
Definition lost_run : list action :=
  ASpawn true 0 :: to_read 0 ++ [APeer 0 (rd [1])] ++ repeat (APeer 0 go) 2 ++ [APeer 0 (rd [1]); APeer 0 go; APeer 0 go; APeer 0 fail_keepalive].
Theorem request_lost sha1 : ~ (forall w0 l w tr g m, run sha1 l (start w0) = (w, tr) -> In m (all_created g w tr) ->
  In m (sh_q (wo_sh w) g) \/ exists k r, nth_error (wo_peers w) k = Some r /\ r_grp r = g /\ ~ ended r /\ In m (in_flight r)).
Proof.
  intro H. destruct (run sha1 lost_run (start (px 131072 2))) as [w tr] eqn:E.
  specialize (H _ _ _ _ 0%nat (CreatePieceMessage 0 0 131072) E).
  vm_compute in E. inversion E; subst w tr; clear E.
  destruct H as [H|(k & r & H1 & _ & H2 & _)].
  - now left.
  - exact H.
  - destruct k as [|[|k]]; [inversion H1; subst r; now apply H2|discriminate H1..].
Qed.

(* ---------- an answered request is sent again ---------- *)
Definition asked_again : list action :=
  (ASpawn true 0 :: to_read 0 ++ [APeer 0 (rd [4; 0; 0; 0; 0]); APeer 0 go; APeer 0 (rd [1])] ++ repeat (APeer 0 go) 7) ++
  APeer 0 (rd (piece_body 0 0 [1; 2; 3; 4])) :: APeer 0 go :: AWriter :: AWriter :: repeat (APeer 0 go) 13.
Definition ask_first : msg := CreatePieceMessage 0 0 131072.
Definition answer_first : msg := mkMsg 13 7 (be_put 4 0 ++ be_put 4 0 ++ [1; 2; 3; 4]) 0 0 0.
Lemma asked_again_run sha1 : exists w tr a b c, run sha1 asked_again (wx_start sha1) = (w, tr) /\ crashed w = false /\
  events_of 0 tr = a ++ ESent ask_first :: b ++ ESent ask_first :: c /\ In (EPut answer_first) b /\ bs_test (t_downloaded (sh_t (wo_sh w))) 0 = true.
Proof.
  unfold asked_again. rewrite run_app.
  match goal with |- context [run sha1 ?l (wx_start sha1)] => destruct (run sha1 l (wx_start sha1)) as [w1 e1] eqn:E1 end.
  vm_compute in E1. inversion E1; subst w1 e1; clear E1.
  cbn [run]. unfold exec at 1. cbn [wo_peers nth_error wo_sh].
  match goal with |- context [crashed ?w] => change (crashed w) with false end. cbv iota.
  erewrite read_good with (u := false) (d := [1; 2; 3; 4]); [|reflexivity..].
  vm_compute. eexists _, _, (_ :: _ :: _ :: _ :: _ :: []), (_ :: _ :: _ :: []), []. split; [reflexivity|]. split; [reflexivity|].
  split; [reflexivity|]. split; [right; left; reflexivity|reflexivity].
Qed.

Theorem answered_asked_again sha1 : ~ (forall w0 l w tr k a b c m p, run sha1 l (start w0) = (w, tr) ->
  events_of k tr = a ++ ESent m :: b ++ ESent m :: c -> is_request m -> In (EPut p) b -> ~ answers p m).
Proof.
  intro H. destruct (asked_again_run sha1) as (w & tr & a & b & c & H1 & _ & H2 & H3 & _).
  refine (H _ _ _ _ _ _ _ _ _ _ H1 H2 _ H3 _); [reflexivity|]. unfold answers. auto.
Qed.
