From Coq Require Import Reals Lra Permutation Floats.SpecFloat.
From Flocq Require Import Core.Core IEEE754.BinarySingleNaN.
From Verif Require Import Base ProofBase ModelFloat ProofFloat ModelMsg ModelTorrent ProofTorrent ModelStats SpecStats.
Open Scope Z_scope.

(* ---------- the failed-request queue ---------- *)
Inductive qop := QFail (m : msg) | QPop.
Fixpoint qrun (q : queue) (ops : list qop) : queue * list (qev msg) :=
  match ops with
  | [] => (q, [])
  | QFail m :: r => let '(q', h) := qrun (RequestFailed q m) r in (q', Put m :: h)
  | QPop :: r => let '(q1, a) := FailedPieceMessage q in let '(q', h) := qrun q1 r in (q', Get a :: h)
  end.
Lemma qrun_app a : forall q b, qrun q (a ++ b) = (let '(q1, h1) := qrun q a in let '(q2, h2) := qrun q1 b in (q2, h1 ++ h2)).
Proof.
  induction a as [|o a IH]; intros q b; cbn [app qrun].
  - now destruct (qrun q b).
  - destruct o as [m|].
    + rewrite IH. destruct (qrun (RequestFailed q m) a) as [q1 h1]. destruct (qrun q1 b). reflexivity.
    + destruct (FailedPieceMessage q) as [q1 r]. rewrite IH. destruct (qrun q1 a) as [q2 h1]. destruct (qrun q2 b). reflexivity.
Qed.
Lemma qrun_perm ops : forall q q' h, qrun q ops = (q', h) -> Permutation (q ++ puts h) (q' ++ gots h).
Proof.
  induction ops as [|o ops IH]; intros q q' h H; cbn [qrun] in H.
  - inversion H; subst. reflexivity.
  - destruct o as [m|].
    + destruct (qrun (RequestFailed q m) ops) as [q1 h1] eqn:E. inversion H; subst. apply IH in E. unfold RequestFailed in E. cbn. rewrite <- app_assoc in E. exact E.
    + destruct (FailedPieceMessage q) as [q0 r] eqn:Ef. destruct (qrun q0 ops) as [q1 h1] eqn:E. inversion H; subst. apply IH in E. cbn.
      destruct q as [|x q] using rev_ind.
      * rewrite queue_pop_nil in Ef. inversion Ef; subst. exact E.
      * rewrite queue_pop in Ef. inversion Ef; subst. cbn [app]. rewrite <- app_assoc. cbn [app]. rewrite <- !Permutation_middle. now constructor.
Qed.
(* the pending items are those put in and not balanced since *)
Inductive pending : list (qev msg) -> queue -> Prop :=
| pend_nil : pending [] []
| pend_put : forall h q m, pending h q -> pending (h ++ [Put m]) (q ++ [m])
| pend_bal : forall h q b, pending h q -> balanced b -> pending (h ++ b) q
| pend_none : forall h, pending h [] -> pending (h ++ [Get None]) [].
Lemma pending_top h q m : pending h (q ++ [m]) -> exists a b, h = a ++ [Put m] ++ b /\ balanced b /\ pending a q.
Proof.
  remember (q ++ [m]) as q1. intros H. revert q m Heqq1. induction H; intros q0 m0 E.
  - now destruct q0.
  - apply app_inj_tail in E as [-> ->]. exists h, []. split; [now rewrite app_nil_r|]. split; [constructor|auto].
  - destruct (IHpending _ _ E) as (a & b' & -> & Hb & Hp). exists a, (b' ++ b). rewrite <- !app_assoc. split; [reflexivity|]. split; [now constructor|auto].
  - now destruct q0.
Qed.
Lemma qrun_pending ops : forall q h0 q' h, pending h0 q -> qrun q ops = (q', h) -> pending (h0 ++ h) q'.
Proof.
  induction ops as [|o ops IH]; intros q h0 q' h Hp H; cbn [qrun] in H.
  - inversion H; subst. now rewrite app_nil_r.
  - destruct o as [m|].
    + destruct (qrun (RequestFailed q m) ops) as [q1 h1] eqn:E. inversion H; subst. change (Put m :: h1) with ([Put m] ++ h1). rewrite app_assoc.
      eapply IH; [|exact E]. now constructor.
    + destruct (FailedPieceMessage q) as [q0 r] eqn:Ef. destruct (qrun q0 ops) as [q1 h1] eqn:E. inversion H; subst. change (Get r :: h1) with ([Get r] ++ h1). rewrite app_assoc.
      eapply IH; [|exact E]. destruct q as [|x q _] using rev_ind.
      * rewrite queue_pop_nil in Ef. inversion Ef; subst. now constructor.
      * rewrite queue_pop in Ef. inversion Ef; subst. destruct (pending_top _ _ _ Hp) as (a & b & -> & Hb & Ha).
        rewrite <- app_assoc. constructor; [exact Ha|]. cbn [app]. now constructor.
Qed.
Lemma queue_lifo ops q' h1 r h2 : qrun NewPiecesQueue ops = (q', h1 ++ Get r :: h2) ->
  match r with
  | Some m => exists a b, h1 = a ++ [Put m] ++ b /\ balanced b
  | None => Permutation (puts h1) (gots h1)
  end.
Proof.
  intros H.
  assert (exists ops1 ops2 q1, ops = ops1 ++ QPop :: ops2 /\ qrun NewPiecesQueue ops1 = (q1, h1) /\ snd (FailedPieceMessage q1) = r) as (ops1 & ops2 & q1 & -> & E1 & E2).
  { revert H. generalize NewPiecesQueue. revert h1. induction ops as [|o ops IH]; intros h1 q H; cbn [qrun] in H.
    - inversion H. now destruct h1.
    - destruct o as [m|].
      + destruct (qrun (RequestFailed q m) ops) as [q2 h] eqn:E. inversion H as [[H1 H2]]. destruct h1 as [|e h1]; [discriminate|]. inversion H2; subst.
        destruct (IH h1 _ E) as (o1 & o2 & q3 & -> & E3 & E4). exists (QFail m :: o1), o2, q3. split; [reflexivity|]. split; [|exact E4]. cbn. now rewrite E3.
      + destruct (FailedPieceMessage q) as [q0 r0] eqn:Ef. destruct (qrun q0 ops) as [q2 h] eqn:E. inversion H as [[H1 H2]]. destruct h1 as [|e h1].
        * inversion H2; subst. exists [], ops, q. split; [reflexivity|]. split; [reflexivity|]. now rewrite Ef.
        * inversion H2; subst. destruct (IH h1 _ E) as (o1 & o2 & q3 & -> & E3 & E4). exists (QPop :: o1), o2, q3. split; [reflexivity|]. split; [|exact E4].
          cbn. now rewrite Ef, E3. }
  pose proof (qrun_pending ops1 [] [] q1 h1 pend_nil E1) as Hp. cbn [app] in Hp. pose proof (qrun_perm _ _ _ _ E1) as Hperm. cbn in Hperm.
  destruct q1 as [|x q1 _] using rev_ind.
  - rewrite queue_pop_nil in E2. cbn in E2. subst r. exact Hperm.
  - rewrite queue_pop in E2. cbn in E2. subst r. destruct (pending_top _ _ _ Hp) as (a & b & Ha & Hb & _). eauto.
Qed.
Lemma queue_conserved ops q' h : qrun NewPiecesQueue ops = (q', h) -> Permutation (puts h) (q' ++ gots h).
Proof. intros H. apply qrun_perm in H. exact H. Qed.

(* ---------- counters ---------- *)
Inductive call := CDl (n : Z) | CUp (n : Z) | CPeerAdd | CPeerRemove | CTrackerAdd | CTrackerRemove.
Definition prog (c : call) : list aop :=
  match c with
  | CDl n => AddDownload n
  | CUp n => [AddUp n]
  | CPeerAdd => [IncPeer]
  | CPeerRemove => [DecPeer]
  | CTrackerAdd => [IncTracker]
  | CTrackerRemove => [DecTracker]
  end.
Definition program (cs : list call) : list aop := flat_map prog cs.
(* contribution of an operation to each counter *)
Definition dl_of o := match o with AddDl n => n | _ => 0 end.
Definition left_of o := match o with SubLeft n => n | _ => 0 end.
Definition up_of o := match o with AddUp n => n | _ => 0 end.
Definition peer_of o := match o with IncPeer => 1 | DecPeer => -1 | _ => 0 end.
Definition tr_of o := match o with IncTracker => 1 | DecTracker => -1 | _ => 0 end.
Definition sumf (g : aop -> Z) (ts : list (list aop)) : Z := sum (map (fun t => sum (map g t)) ts).

Lemma sum_app a b : sum (a ++ b) = sum a + sum b.
Proof. induction a; cbn; unfold sum in *; cbn in *; lia. Qed.
Lemma sumf_mid g pre t post : sumf g (pre ++ t :: post) = sumf g pre + sum (map g t) + sumf g post.
Proof. unfold sumf. rewrite map_app, sum_app. cbn [map]. change (sum (?a :: ?l)) with (a + sum l). lia. Qed.
Lemma sum_cons a l : sum (a :: l) = a + sum l.
Proof. reflexivity. Qed.

Lemma u64_add_l a b : u64 (u64 a + b) = u64 (a + b).
Proof. unfold u64. apply Zplus_mod_idemp_l. Qed.
Lemma u64_add_r a b : u64 (a + u64 b) = u64 (a + b).
Proof. unfold u64. apply Zplus_mod_idemp_r. Qed.
Lemma u64_shift a : u64 (a + (2 ^ 64 - 1)) = u64 (a - 1).
Proof. unfold u64. replace (a + (2 ^ 64 - 1)) with (a - 1 + 1 * 2 ^ 64) by lia. now rewrite Z_mod_plus_full. Qed.
Lemma u64_idem a : u64 (u64 a) = u64 a.
Proof. unfold u64. now rewrite Zmod_mod. Qed.

Definition cinv (size : Z) (ts0 : list (list aop)) (w : world) : Prop :=
  let '(s, ts) := w in
  st_size s = size /\
  u64 (st_download s) = u64 (sumf dl_of ts0 - sumf dl_of ts) /\ st_download s = u64 (st_download s) /\
  u64 (st_left s) = u64 (size - (sumf left_of ts0 - sumf left_of ts)) /\ st_left s = u64 (st_left s) /\
  u64 (st_upload s) = u64 (sumf up_of ts0 - sumf up_of ts) /\ st_upload s = u64 (st_upload s) /\
  u64 (st_peers s) = u64 (sumf peer_of ts0 - sumf peer_of ts) /\ st_peers s = u64 (st_peers s) /\
  u64 (st_trackers s) = u64 (sumf tr_of ts0 - sumf tr_of ts) /\ st_trackers s = u64 (st_trackers s).
Lemma u64_step a b c d : u64 a = u64 b -> b + c = d -> u64 (a + c) = u64 d.
Proof. intros H <-. now rewrite <- u64_add_l, H, u64_add_l. Qed.
Lemma u64_eq a b : u64 a = u64 b -> forall c, b = c -> u64 a = u64 c.
Proof. now intros H c ->. Qed.

Lemma cinv_step size ts0 w w' : cinv size ts0 w -> wstep w w' -> cinv size ts0 w'.
Proof.
  intros H St. destruct St as [s pre o rest post]. destruct s as [z d u l p t]. cbn [cinv st_size st_download st_upload st_left st_peers st_trackers] in H.
  rewrite !sumf_mid in H. cbn [map] in H. rewrite !sum_cons in H.
  destruct H as (Hz & Hd & Hd' & Hl & Hl' & Hu & Hu' & Hp & Hp' & Ht & Ht').
  destruct o; cbn [aexec cinv st_size st_download st_upload st_left st_peers st_trackers dl_of left_of up_of peer_of tr_of] in *;
    rewrite !sumf_mid; rewrite ?u64_shift, ?u64_idem, ?u64_add_r; repeat split; auto;
    try (eapply u64_eq; [eassumption|lia]);
    try (eapply u64_step; [eassumption|lia]).
Qed.
Lemma cinv_reach size ts0 w : 0 <= size < 2 ^ 64 -> wreach (NewStats size, ts0) w -> cinv size ts0 w.
Proof.
  intros Hs H. induction H as [|w w' _ IH St].
  - cbn. unfold u64. rewrite !Z.sub_diag, Z.sub_0_r. cbn. rewrite (Z.mod_small size) by auto. repeat split; reflexivity.
  - eapply cinv_step; eauto.
Qed.

(* threads are always at a call boundary or between the two halves of one *)
Definition at_call (t : list aop) : Prop := (exists cs, t = program cs) \/ exists n cs, t = SubLeft n :: program cs.
Lemma at_call_step o rest : at_call (o :: rest) -> at_call rest.
Proof.
  intros [[cs E]|(n & cs & E)].
  - destruct cs as [|c cs]; [discriminate|]. destruct c; cbn in E; inversion E; subst; try (left; exists cs; reflexivity). right. eauto.
  - inversion E; subst. left. eauto.
Qed.
Lemma at_call_reach css s0 w : wreach (s0, map program css) w -> Forall at_call (snd w).
Proof.
  induction 1 as [|w w' _ IH St].
  - cbn [snd]. rewrite Forall_map, Forall_forall. intros cs _. left. eauto.
  - destruct St as [s pre o rest post]. cbn [snd] in *. apply Forall_app in IH as [I1 I2]. inversion I2; subst. apply Forall_app. split; auto.
    constructor; auto. eapply at_call_step; eauto.
Qed.
Definition in_flight (ts : list (list aop)) : Z := sum (map (fun t => match t with SubLeft n :: _ => n | _ => 0 end) ts).
Lemma program_balance cs : sum (map left_of (program cs)) = sum (map dl_of (program cs)).
Proof. induction cs as [|c cs IH]; [reflexivity|]. unfold program in *. cbn [flat_map]. rewrite !map_app, !sum_app, IH. destruct c; cbn; lia. Qed.
Lemma flight_balance ts : Forall at_call ts -> sumf left_of ts - sumf dl_of ts = in_flight ts.
Proof.
  induction 1 as [|t ts Ht _ IH]; [reflexivity|]. unfold sumf, in_flight in *. cbn [map]. rewrite !sum_cons.
  assert (sum (map left_of t) - sum (map dl_of t) = match t with SubLeft n :: _ => n | _ => 0 end); [|lia].
  destruct Ht as [[cs ->]|(n & cs & ->)].
  - rewrite program_balance. destruct cs as [|c cs]; [reflexivity|]. destruct c; cbn; lia.
  - cbn [map dl_of left_of]. rewrite !sum_cons, program_balance. lia.
Qed.

Definition downloads (cs : list call) : Z := sum (map (fun c => match c with CDl n => n | _ => 0 end) cs).
Definition uploads (cs : list call) : Z := sum (map (fun c => match c with CUp n => n | _ => 0 end) cs).
Definition peers_in (cs : list call) : Z := sum (map (fun c => match c with CPeerAdd => 1 | CPeerRemove => -1 | _ => 0 end) cs).
Definition trackers_in (cs : list call) : Z := sum (map (fun c => match c with CTrackerAdd => 1 | CTrackerRemove => -1 | _ => 0 end) cs).
Lemma sumf_calls g h css : (forall c, sum (map g (prog c)) = h c) -> sumf g (map program css) = sum (map h (concat css)).
Proof.
  intros H. unfold sumf. induction css as [|cs css IH]; [reflexivity|]. cbn [map concat]. rewrite sum_cons, map_app, sum_app, IH. f_equal.
  unfold program. induction cs as [|c cs IHc]; [reflexivity|]. cbn [flat_map map]. rewrite map_app, sum_app, sum_cons, H, IHc. reflexivity.
Qed.
Lemma sumf_done g ts : Forall (fun t => t = []) ts -> sumf g ts = 0.
Proof. induction 1 as [|t ts -> _ IH]; [reflexivity|]. unfold sumf in *. cbn [map]. rewrite sum_cons, IH. reflexivity. Qed.

Lemma stats_conserved size css s ts : 0 <= size < 2 ^ 64 -> wreach (NewStats size, map program css) (s, ts) ->
  u64 (st_download s + st_left s) = u64 (size + in_flight ts) /\
  (Forall (fun t => t = []) ts ->
     st_download s = u64 (downloads (concat css)) /\ st_left s = u64 (size - downloads (concat css)) /\
     st_upload s = u64 (uploads (concat css)) /\ st_peers s = u64 (peers_in (concat css)) /\ st_trackers s = u64 (trackers_in (concat css))).
Proof.
  intros Hs H. pose proof (at_call_reach _ _ _ H) as Ha. cbn [snd] in Ha. apply cinv_reach in H; [|auto]. cbn in H.
  destruct H as (_ & Hd & Hd' & Hl & Hl' & Hu & Hu' & Hp & Hp' & Ht & Ht').
  assert (E0 : sumf left_of (map program css) = sumf dl_of (map program css)).
  { rewrite (sumf_calls dl_of (fun c => sum (map dl_of (prog c)))) by reflexivity. apply (sumf_calls left_of (fun c => sum (map dl_of (prog c)))).
    intros c. destruct c; cbn; lia. }
  split.
  - rewrite <- u64_add_l, Hd, u64_add_l, <- u64_add_r, Hl, u64_add_r. f_equal. rewrite <- flight_balance by auto. lia.
  - intros Hdone. rewrite !(sumf_done _ ts), ?Z.sub_0_r in * by auto.
    repeat split.
    + rewrite Hd', Hd. f_equal. apply sumf_calls. intros []; cbn; lia.
    + rewrite Hl', Hl, E0. do 2 f_equal. apply sumf_calls. intros []; cbn; lia.
    + rewrite Hu', Hu. f_equal. apply sumf_calls. intros []; cbn; lia.
    + rewrite Hp', Hp. f_equal. apply sumf_calls. intros []; cbn; lia.
    + rewrite Ht', Ht. f_equal. apply sumf_calls. intros []; cbn; lia.
Qed.

(* ---------- percent ---------- *)
Lemma rnd_ge1 z : 1 <= z -> (1 <= rnd (IZR z))%R.
Proof. intros H. rewrite <- (rnd_int 1) by lia. apply rnd_le. now apply IZR_le. Qed.
Lemma bpow_int j : 0 <= j -> bpow radix2 j = IZR (2 ^ j).
Proof. intros H. change 2 with (radix_val radix2). now rewrite IZR_Zpower. Qed.

Lemma floor_half x a b : (IZR a <= x <= IZR b)%R -> a <= Zfloor (x + / 2) <= b.
Proof.
  intros [Ha Hb]. assert (E : forall n, Zfloor (IZR n + / 2) = n) by (intros n; apply Zfloor_imp; rewrite plus_IZR; lra).
  split; [rewrite <- (E a)|rewrite <- (E b)]; apply Zfloor_le; lra.
Qed.
(* the real number that is rounded to the percentage *)
Definition ratio (s d : Z) : R := rnd (rnd (rnd (IZR d) / rnd (IZR s)) * 100).
Lemma percent_value s d0 d : 1 <= s < 2 ^ 64 -> 1 <= d0 -> 1 <= d < 2 ^ 64 -> (rnd (IZR d) / rnd (IZR s) <= IZR (2 ^ 53))%R ->
  percent_of s d0 d = Zfloor (ratio s d + / 2) /\ (0 <= ratio s d <= IZR (2 ^ 60))%R.
Proof.
  intros Hs Hd0 Hd Hq. pose proof (rnd_ge1 d ltac:(lia)) as Xd. pose proof (rnd_ge1 s ltac:(lia)) as Xs.
  pose proof (f64_of_value d (bpow1000 d ltac:(lia))) as Vd. pose proof (f64_of_value s (bpow1000 s ltac:(lia))) as Vs.
  set (x := rnd (IZR d)) in *. set (y := rnd (IZR s)) in *.
  assert (Q0 : (0 <= x / y)%R). { apply Rmult_le_pos; [lra|]. left. apply Rinv_0_lt_compat. lra. }
  assert (B1000 : (IZR (2 ^ 60) <= bpow radix2 1000)%R) by (rewrite <- bpow_int by lia; apply bpow_le; lia).
  assert (B53 : (IZR (2 ^ 53) <= IZR (2 ^ 60))%R) by (apply IZR_le; lia).
  destruct (div_value 53 1024 1000 _ _ ltac:(lia) ltac:(lia) (f64_of d) (f64_of s) x y Vd Vs ltac:(lra)) as [Vq Fq].
  { rewrite Rabs_pos_eq by lra. lra. }
  change (rnd_in 53 1024 (x / y)) with (rnd (x / y)) in Vq. set (q := rnd (x / y)) in *.
  assert (R0 : (0 <= q)%R) by (unfold q; rewrite <- (rnd_int 0) by lia; apply rnd_le; exact Q0).
  assert (R1 : (q <= IZR (2 ^ 53))%R) by (unfold q; rewrite <- (rnd_int (2 ^ 53)) by lia; apply rnd_le; exact Hq).
  assert (V100 : has_value (f64_of 100) 100).
  { pose proof (f64_of_value 100 (bpow1000 100 ltac:(lia))) as H. rewrite rnd_int in H by lia. exact H. }
  assert (M1 : (0 <= q * 100 <= IZR (2 ^ 60))%R).
  { split; [lra|]. apply Rle_trans with (IZR (2 ^ 53) * 100)%R; [lra|]. rewrite <- mult_IZR. apply IZR_le. lia. }
  pose proof (mul_value 53 1024 1000 _ _ ltac:(lia) ltac:(lia) _ _ q 100 Vq V100 Fq (of_fits 53 1024 Hprec64 Hmax64 100)) as Vm.
  specialize (Vm ltac:(rewrite Rabs_pos_eq by lra; lra)). change (rnd_in 53 1024 (q * 100)) with (rnd (q * 100)) in Vm.
  assert (Er : ratio s d = rnd (q * 100)) by reflexivity. rewrite <- Er in Vm.
  assert (B : (0 <= ratio s d <= IZR (2 ^ 60))%R).
  { rewrite Er. split.
    - rewrite <- (rnd_int 0) by lia. apply rnd_le. lra.
    - apply Rle_trans with (rnd (bpow radix2 60)); [apply rnd_le; rewrite bpow_int by lia; lra|]. unfold rnd, rnd_in. rewrite round_generic; [rewrite bpow_int by lia; lra|apply valid_rnd_round_mode|].
      apply (format_bpow 53 1024 Hprec64); lia. }
  split; [|exact B]. unfold percent_of. replace ((s =? 0) || (d0 =? 0)) with false by lia.
  unfold f64_mul, f64_div. rewrite (f_round_spec _ _ Vm) by lra. unfold int_of.
  pose proof (floor_half (ratio s d) 0 (2 ^ 60) B) as Hb.
  replace ((- 2 ^ 63 <=? Zfloor (ratio s d + / 2)) && (Zfloor (ratio s d + / 2) <? 2 ^ 63)) with true by lia. reflexivity.
Qed.

Lemma quot_le1 s d : 1 <= d <= s -> (rnd (IZR d) / rnd (IZR s) <= 1)%R.
Proof.
  intros H. pose proof (rnd_ge1 s ltac:(lia)). assert (rnd (IZR d) <= rnd (IZR s))%R by (apply rnd_le, IZR_le; lia).
  apply Rmult_le_reg_r with (rnd (IZR s)); [lra|]. unfold Rdiv. rewrite Rmult_assoc, Rinv_l, Rmult_1_r by lra. lra.
Qed.
Lemma percent_range s d0 d : 0 <= s < 2 ^ 64 -> 0 <= d0 -> 0 <= d <= s -> 0 <= percent_of s d0 d <= 100.
Proof.
  intros Hs Hd0 Hd. destruct (Z.eq_dec s 0) as [->|]; [cbn; lia|]. destruct (Z.eq_dec d0 0) as [->|]; [unfold percent_of; rewrite orb_true_r; lia|].
  destruct (Z.eq_dec d 0) as [->|].
  - (* only the second load can be zero when nothing was counted *)
    unfold percent_of. replace ((s =? 0) || (d0 =? 0)) with false by lia. change (f64_of 0) with (S754_zero false).
    pose proof (f64_of_value s (bpow1000 s ltac:(lia))) as Vs. pose proof (rnd_ge1 s ltac:(lia)) as H1.
    destruct (value_nonzero _ _ Vs ltac:(lra)) as (sg & m & e & -> & _). destruct sg; vm_compute; split; discriminate.
  - pose proof (quot_le1 s d ltac:(lia)) as Hq. assert (H53 : (1 <= IZR (2 ^ 53))%R) by (apply IZR_le; lia).
    destruct (percent_value s d0 d) as [-> [B0 _]]; [lia..|lra|].
    apply (floor_half (ratio s d) 0 100). split; [exact B0|]. unfold ratio. apply Rle_trans with (rnd (IZR 100)); [|rewrite rnd_int by lia; lra]. apply rnd_le.
    assert (rnd (rnd (IZR d) / rnd (IZR s)) <= rnd (IZR 1))%R; [apply rnd_le; exact Hq|]. rewrite (rnd_int 1) in * by lia. lra.
Qed.
Lemma percent_full s : 1 <= s < 2 ^ 64 -> percent_of s s s = 100.
Proof.
  intros Hs. pose proof (quot_le1 s s ltac:(lia)) as Hq. assert (H53 : (1 <= IZR (2 ^ 53))%R) by (apply IZR_le; lia).
  destruct (percent_value s s s) as [-> _]; [lia..|lra|]. pose proof (rnd_ge1 s ltac:(lia)). unfold ratio.
  replace (rnd (IZR s) / rnd (IZR s))%R with 1%R by (field; lra). rewrite (rnd_int 1) by lia. rewrite Rmult_1_l, (rnd_int 100) by lia.
  apply Zfloor_imp. rewrite plus_IZR. lra.
Qed.
Lemma percent_mono s d1 d2 : 1 <= s < 2 ^ 64 -> 0 <= d1 <= d2 -> d2 <= 2 ^ 53 -> percent_of s d1 d1 <= percent_of s d2 d2.
Proof.
  intros Hs Hd H53. assert (Hb : forall d, 1 <= d <= 2 ^ 53 -> (rnd (IZR d) / rnd (IZR s) <= IZR (2 ^ 53))%R).
  { intros d Hd'. pose proof (rnd_ge1 s ltac:(lia)). rewrite (rnd_int d) by lia. apply Rle_trans with (IZR d); [|apply IZR_le; lia].
    assert (1 <= IZR d)%R by (apply IZR_le; lia). apply Rmult_le_reg_r with (rnd (IZR s)); [lra|]. unfold Rdiv. rewrite Rmult_assoc, Rinv_l, Rmult_1_r by lra. nra. }
  destruct (Z.eq_dec d2 0) as [->|]; [assert (d1 = 0) as -> by lia; reflexivity|].
  destruct (percent_value s d2 d2) as [E2 [B0 _]]; [lia..|apply Hb; lia|].
  destruct (Z.eq_dec d1 0) as [->|].
  - unfold percent_of at 1. rewrite orb_true_r. rewrite E2. rewrite <- (Zfloor_IZR 0). apply Zfloor_le. lra.
  - destruct (percent_value s d1 d1) as [E1 _]; [lia..|apply Hb; lia|]. rewrite E1, E2. apply Zfloor_le. apply Rplus_le_compat_r.
    unfold ratio. apply rnd_le. apply Rmult_le_compat_r; [lra|]. apply rnd_le. unfold Rdiv. apply Rmult_le_compat_r.
    + left. apply Rinv_0_lt_compat. pose proof (rnd_ge1 s ltac:(lia)). lra.
    + apply rnd_le, IZR_le. lia.
Qed.

(* ---------- the progress bar ---------- *)
Lemma rnd32_le x y : (x <= y)%R -> (rnd32 x <= rnd32 y)%R.
Proof. apply (rnd_in_le 24 128 Hprec32). Qed.
Lemma bpow100 z : (Z.abs z <= 2 ^ 64)%Z -> (Rabs (IZR z) <= bpow radix2 100)%R.
Proof.
  intros H. rewrite <- abs_IZR. apply Rle_trans with (IZR (2 ^ 64)); [now apply IZR_le|]. rewrite <- bpow_int by lia. apply bpow_le. lia.
Qed.
(* the real number truncated to the number of filled cells *)
Definition cells (p : Z) : R := rnd32 (20 * rnd32 (rnd32 (IZR p) / 100)).
Lemma rnd32_bound x j : 0 <= j -> (Rabs x <= bpow radix2 j)%R -> (Rabs (rnd32 x) <= bpow radix2 j)%R.
Proof.
  intros Hj H. unfold rnd32, rnd_in. apply abs_round_le_generic; auto; try typeclasses eauto.
  apply (format_bpow 24 128 Hprec32); lia.
Qed.
Lemma bar_value p : - 2 ^ 63 <= p < 2 ^ 63 -> repeat_chars p 20 = (if Rlt_bool (cells p) 0 then - Zfloor (- cells p) else Zfloor (cells p)).
Proof.
  intros Hp. unfold repeat_chars.
  assert (Bp : (Rabs (IZR p) <= bpow radix2 63)%R). { rewrite <- abs_IZR, bpow_int by lia. apply IZR_le. lia. }
  pose proof (rnd32_bound _ 63 ltac:(lia) Bp) as Bx.
  assert (L : (bpow radix2 63 <= bpow radix2 100)%R) by (apply bpow_le; lia).
  pose proof (of_value 24 128 100 _ _ ltac:(lia) ltac:(lia) p ltac:(lra)) as Vp. fold (f32_of p) in Vp. fold rnd32 in Vp.
  assert (V100 : has_value (f32_of 100) 100). { split; [reflexivity|]. cbn. unfold F2R. cbn. lra. }
  assert (V20 : has_value (f32_of 20) 20). { split; [reflexivity|]. cbn. unfold F2R. cbn. lra. }
  set (x := rnd32 (IZR p)) in *.
  assert (Bq : (Rabs (x / 100) <= bpow radix2 57)%R).
  { unfold Rdiv. rewrite Rabs_mult, (Rabs_pos_eq (/ 100)) by lra. change 63 with (57 + 6) in Bx. rewrite bpow_plus in Bx. pose proof (bpow_gt_0 radix2 57).
    replace (bpow radix2 6) with 64%R in Bx by (rewrite bpow_int by lia; reflexivity). pose proof (Rabs_pos x). lra. }
  assert (L2 : (bpow radix2 57 <= bpow radix2 100)%R) by (apply bpow_le; lia).
  destruct (div_value 24 128 100 _ _ ltac:(lia) ltac:(lia) (f32_of p) (f32_of 100) x 100 Vp V100 ltac:(lra) ltac:(lra)) as [Vq Fq].
  change (rnd_in 24 128 (x / 100)) with (rnd32 (x / 100)) in Vq. pose proof (rnd32_bound _ 57 ltac:(lia) Bq) as Bq2. set (q := rnd32 (x / 100)) in *.
  assert (Bm : (Rabs (20 * q) <= bpow radix2 62)%R).
  { rewrite Rabs_mult, (Rabs_pos_eq 20) by lra. change 62 with (57 + 5). rewrite bpow_plus. replace (bpow radix2 5) with 32%R by (rewrite bpow_int by lia; reflexivity).
    pose proof (bpow_gt_0 radix2 57). lra. }
  assert (L3 : (bpow radix2 62 <= bpow radix2 100)%R) by (apply bpow_le; lia).
  pose proof (mul_value 24 128 100 _ _ ltac:(lia) ltac:(lia) (f32_of 20) _ 20 q V20 Vq (of_fits 24 128 Hprec32 Hmax32 20) Fq ltac:(lra)) as Vm.
  change (rnd_in 24 128 (20 * q)) with (cells p) in Vm.
  assert (Bc : (Rabs (cells p) <= bpow radix2 62)%R) by (apply rnd32_bound; [lia|exact Bm]).
  unfold f32_mul, f32_div. rewrite (f_trunc_spec _ _ Vm). unfold int_of. rewrite bpow_int in Bc by lia. apply Rabs_le_inv in Bc.
  assert (H1 : - 2 ^ 62 <= Zfloor (cells p) <= 2 ^ 62).
  { rewrite <- (Zfloor_IZR (- 2 ^ 62)) at 1. rewrite <- (Zfloor_IZR (2 ^ 62)) at 2. split; apply Zfloor_le; rewrite ?opp_IZR; lra. }
  assert (H2 : - 2 ^ 62 <= Zfloor (- cells p) <= 2 ^ 62).
  { rewrite <- (Zfloor_IZR (- 2 ^ 62)) at 1. rewrite <- (Zfloor_IZR (2 ^ 62)) at 2. split; apply Zfloor_le; rewrite ?opp_IZR; lra. }
  destruct (Rlt_bool (cells p) 0).
  - replace ((- 2 ^ 63 <=? - Zfloor (- cells p)) && (- Zfloor (- cells p) <? 2 ^ 63)) with true by lia. reflexivity.
  - replace ((- 2 ^ 63 <=? Zfloor (cells p)) && (Zfloor (cells p) <? 2 ^ 63)) with true by lia. reflexivity.
Qed.
Lemma cells_mono p1 p2 : p1 <= p2 -> (cells p1 <= cells p2)%R.
Proof.
  intros H. unfold cells. apply rnd32_le. apply Rmult_le_compat_l; [lra|]. apply rnd32_le. unfold Rdiv. apply Rmult_le_compat_r; [lra|].
  apply rnd32_le. now apply IZR_le.
Qed.
Lemma trunc_mono x y : (x <= y)%R ->
  (if Rlt_bool x 0 then - Zfloor (- x) else Zfloor x) <= (if Rlt_bool y 0 then - Zfloor (- y) else Zfloor y).
Proof.
  intros H. destruct (Rlt_bool_spec x 0); destruct (Rlt_bool_spec y 0).
  - assert (Zfloor (- y) <= Zfloor (- x)) by (apply Zfloor_le; lra). lia.
  - assert (Zfloor 0 <= Zfloor (- x)) by (apply Zfloor_le; lra). assert (Zfloor 0 <= Zfloor y) by (apply Zfloor_le; lra). rewrite Zfloor_IZR in *. lia.
  - lra.
  - apply Zfloor_le. lra.
Qed.
Lemma bar_mono p1 p2 : - 2 ^ 63 <= p1 -> p1 <= p2 -> p2 < 2 ^ 63 -> repeat_chars p1 20 <= repeat_chars p2 20.
Proof. intros H1 H H2. rewrite !bar_value by lia. apply trunc_mono, cells_mono, H. Qed.

Definition in_range (p : Z) : Prop := - 2 ^ 63 <= p < 2 ^ 63.
Lemma bar_exact p : in_range p ->
  (progressBar p 20 = Panic <-> p <= -5 \/ 105 <= p) /\ (-5 < p < 105 -> progressBar p 20 = Ok (repeat progressChar (Z.to_nat (Z.quot p 5)) ++ repeat space (Z.to_nat (20 - Z.quot p 5)), str "|  " ++ itoa p ++ str "%")).
Proof.
  unfold in_range. intros Hp.
  assert (Hlo : p <= -5 -> repeat_chars p 20 <= -1) by (intros H; change (-1) with (repeat_chars (-5) 20); apply bar_mono; lia).
  assert (Hhi : 105 <= p -> 21 <= repeat_chars p 20) by (intros H; change 21 with (repeat_chars 105 20); apply bar_mono; lia).
  assert (Hr : - 2 ^ 62 <= repeat_chars p 20 <= 2 ^ 62).
  { pose proof (bar_mono (- 2 ^ 63) p ltac:(lia) ltac:(lia) ltac:(lia)) as H1. pose proof (bar_mono p (2 ^ 63 - 1) ltac:(lia) ltac:(lia) ltac:(lia)) as H2.
    replace (repeat_chars (- 2 ^ 63) 20) with (-1844674297419792384) in H1 by (vm_compute; reflexivity).
    replace (repeat_chars (2 ^ 63 - 1) 20) with 1844674297419792384 in H2 by (vm_compute; reflexivity). lia. }
  assert (Hmid : -5 < p < 105 -> repeat_chars p 20 = Z.quot p 5).
  { intros H. assert (Hin : In p (map (fun k => Z.of_nat k - 4) (seq 0 109))).
    { apply in_map_iff. exists (Z.to_nat (p + 4)). split; [lia|]. apply in_seq. lia. }
    assert (Hall : forallb (fun p => repeat_chars p 20 =? Z.quot p 5) (map (fun k => Z.of_nat k - 4) (seq 0 109)) = true) by (vm_compute; reflexivity).
    rewrite forallb_forall in Hall. specialize (Hall p Hin). lia. }
  assert (Hq : -5 < p < 105 -> 0 <= Z.quot p 5 <= 20).
  { intros H. rewrite <- (Hmid H). split; [change 0 with (repeat_chars (-4) 20)|change 20 with (repeat_chars 104 20) at 2]; apply bar_mono; lia. }
  assert (Hok : -5 < p < 105 -> progressBar p 20 = Ok (repeat progressChar (Z.to_nat (Z.quot p 5)) ++ repeat space (Z.to_nat (20 - Z.quot p 5)), str "|  " ++ itoa p ++ str "%")).
  { intros H. specialize (Hq H). unfold progressBar. rewrite (Hmid H). unfold Repeat.
    assert (Ew : wrap64 (20 - Z.quot p 5) = 20 - Z.quot p 5) by (unfold wrap64; rewrite Z.mod_small; lia). rewrite Ew.
    replace (Z.quot p 5 <? 0) with false by lia. replace (20 - Z.quot p 5 <? 0) with false by lia. cbn [bind]. reflexivity. }
  split; [|exact Hok]. split.
  - intros H. destruct (Z_le_dec p (-5)); [auto|]. destruct (Z_le_dec 105 p); [auto|]. rewrite Hok in H by lia. discriminate.
  - intros [H|H]; unfold progressBar, Repeat.
    + specialize (Hlo H). replace (repeat_chars p 20 <? 0) with true by lia. reflexivity.
    + specialize (Hhi H). replace (repeat_chars p 20 <? 0) with false by lia. cbn [bind].
      assert (Ew : wrap64 (20 - repeat_chars p 20) = 20 - repeat_chars p 20) by (unfold wrap64; rewrite Z.mod_small; lia). rewrite Ew.
      replace (20 - repeat_chars p 20 <? 0) with true by lia. reflexivity.
Qed.

(* ---------- the writer's statistics ---------- *)
Lemma aexec_downloads l : forall s,
  let s' := fold_left aexec (flat_map AddDownload l) s in
  u64 (st_download s') = u64 (st_download s + sum l) /\ u64 (st_left s') = u64 (st_left s - sum l) /\ st_size s' = st_size s /\
  (l <> [] -> st_left s' = u64 (st_left s') /\ st_download s' = u64 (st_download s')).
Proof.
  induction l as [|n l IH]; intros s s'.
  - subst s'. cbn. rewrite Z.add_0_r, Z.sub_0_r. repeat split; auto; congruence.
  - subst s'. cbn [flat_map AddDownload app fold_left]. set (s1 := aexec (aexec s (AddDl n)) (SubLeft n)).
    assert (E : st_download s1 = u64 (st_download s + n) /\ st_left s1 = u64 (st_left s - n) /\ st_size s1 = st_size s).
    { subst s1. destruct s. cbn. rewrite u64_add_r. repeat split; f_equal; lia. }
    destruct E as (E1 & E2 & E3). destruct (IH s1) as (H1 & H2 & H3 & H4). rewrite E1, E2, E3 in *. rewrite sum_cons.
    split; [|split; [|split; [exact H3|]]].
    + rewrite H1, u64_add_l. f_equal. lia.
    + rewrite H2. unfold Z.sub at 1. rewrite u64_add_l. f_equal. lia.
    + intros _. destruct l as [|x l]; [|apply H4; discriminate]. cbn. rewrite E1, E2, !u64_idem. auto.
Qed.
Definition run_stats (size : Z) (w : wstate) : stats := fold_left aexec (flat_map AddDownload (w_added w)) (NewStats size).
Lemma run_stats_exact size w : 0 <= size < 2 ^ 64 ->
  st_left (run_stats size w) = u64 (size - sum (w_added w)) /\ st_download (run_stats size w) = u64 (sum (w_added w)) /\ st_size (run_stats size w) = size.
Proof.
  intros Hs. unfold run_stats. destruct (aexec_downloads (w_added w) (NewStats size)) as (H1 & H2 & H3 & H4). cbn [NewStats st_download st_left st_size] in *.
  destruct (w_added w) as [|x l] eqn:E.
  - cbn. unfold u64. rewrite Z.sub_0_r, Z.mod_small by auto. auto.
  - destruct (H4 ltac:(discriminate)) as [-> ->]. rewrite H1, H2. cbn [Z.add]. auto.
Qed.
Lemma added_exact ms : forall w, w_panic (WritePiece w ms) = false ->
  Forall (fun m => exists d, data_of m = Ok d) ms /\
  w_added (WritePiece w ms) = w_added w ++ map (fun m => match data_of m with Ok d => zlen d | _ => 0 end) ms.
Proof.
  assert (Hp : forall ms w, w_panic w = true -> WritePiece w ms = w).
  { intros l w H. destruct l; cbn; [reflexivity|]. now rewrite H. }
  induction ms as [|m ms IH]; intros w H; cbn [WritePiece map] in *.
  - split; [constructor|]. now rewrite app_nil_r.
  - destruct (w_panic w) eqn:Ew; [congruence|]. destruct (w_panic (write_one w m)) eqn:E1; [rewrite Hp in H by auto; congruence|].
    destruct (IH _ H) as [I1 I2]. rewrite I2. unfold write_one in *. destruct (data_of m) as [d| | |] eqn:Ed; cbn [w_panic] in E1; try discriminate.
    split; [constructor; eauto|]. destruct (writePieceData _ _ _ _ _) as [[f' o'] st]. destruct st; cbn [w_added]; rewrite <- app_assoc; reflexivity.
Qed.
