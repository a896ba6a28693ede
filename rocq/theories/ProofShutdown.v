(* The end of a download (manager.go:64-67).                                    *)
From Verif Require Import Base ProofBase SpecPath ModelPath ModelBitset ModelMsg ModelTorrent ModelConn ModelPeer ModelSystem SpecTorrent SpecPeer ProofWrite ProofDisk
  ProofSystem ProofRequests ProofProgress ProofPeer ProofPeer2 ProofVerified ProofWitness.

(* ---------- C54: without cancellation Download does not return ---------- *)
Lemma pstep_cancel sha1 i s r s' r' es : pstep sha1 i s r = Some (s', r', es) -> sh_cancel s' = sh_cancel s /\ sh_closed s' = sh_closed s.
Proof. intros H. step_cases H; unfold push; try match goal with |- context [match r_req ?x with _ => _ end] => destruct (r_req x) end; cbn; split; congruence. Qed.
Lemma main_needs_cancel sha1 w0 l w tr : run sha1 l (start w0) = (w, tr) -> ~ In ACancel l ->
  sh_cancel (wo_sh w) = false /\ (wo_main w = MWait \/ wo_main w = MCtx).
Proof.
  intros HR HC.
  refine (run_inv sha1 (fun w _ => sh_cancel (wo_sh w) = false /\ (wo_main w = MWait \/ wo_main w = MCtx)) (fun a => a <> ACancel) (start w0) _ _ l w tr _ HR).
  - split; [reflexivity|left; reflexivity].
  - clear. intros w tr a w' es [H1 H2] HA HE. unfold exec in HE. destruct (crashed w); [inversion HE; subst; auto|].
    destruct a as [b g|j i| | |]; try congruence.
    + inversion HE; subst. auto.
    + destruct (nth_error (wo_peers w) j) as [q|]; [|inversion HE; subst; auto].
      destruct (pstep sha1 i (wo_sh w) q) as [[[s' r'] es']|] eqn:Es; inversion HE; subst; [|auto].
      split; [|exact H2]. cbn. now rewrite (proj1 (pstep_cancel _ _ _ _ _ _ _ Es)).
    + destruct (wo_hand w); [|destruct (sh_ch (wo_sh w))]; inversion HE; subst; auto.
    + destruct H2 as [H2|H2]; rewrite H2 in HE; [destruct (wg w =? 0)|rewrite H1 in HE]; inversion HE; subst; auto.
  - apply Forall_forall. intros a Ha ->. auto.
Qed.
Lemma cancel_dec l : In ACancel l \/ ~ In ACancel l.
Proof.
  induction l as [|a l [IH|IH]]; [right; intros []|left; now right|].
  destruct a; try (right; intros [E|E]; [discriminate|auto]; fail). left; now left.
Qed.
Lemma never_returns sha1 w0 l w tr : run sha1 l (start w0) = (w, tr) -> wo_main w = MRet -> In ACancel l.
Proof.
  intros HR HM. destruct (cancel_dec l) as [?|n]; [assumption|]. exfalso. destruct (main_needs_cancel _ _ _ _ _ HR n) as [_ [E|E]]; congruence.
Qed.
Lemma return_when_done_refuted sha1 :
  ~ (forall w0 l w tr, run sha1 l (start w0) = (w, tr) -> crashed w = false -> Done (sh_t (wo_sh w)) = true ->
       exists l2 w2 tr2, ~ In ACancel l2 /\ run sha1 l2 w = (w2, tr2) /\ wo_main w2 = MRet).
Proof.
  intros H. destruct (both_pieces_run sha1) as (w & tr & r & H1 & H2 & H3 & H4 & _).
  destruct (H _ _ _ _ H1 H2 H4) as (l2 & w2 & tr2 & N & R & M).
  assert (HR : run sha1 (both_pieces ++ l2) (wx_start sha1) = (w2, tr ++ tr2)) by (rewrite run_app, H1, R; reflexivity).
  apply (never_returns _ _ _ _ _ HR) in M. apply in_app_iff in M. destruct M as [M|M]; [|auto].
  unfold both_pieces in M. cbn in M. repeat (destruct M as [M|M]; [discriminate M|]). exact M.
Qed.

(* ---------- C54: after cancellation it does ---------- *)
Definition mrank (c : mpc) : Z := match c with MWait => 3 | MCtx => 2 | MClose => 1 | MRet => 0 end.
Fixpoint rsum (l : list rstate) : Z := match l with [] => 0 | r :: l' => rank (r_pc r) + rsum l' end.
Definition weight (w : world) : Z := 3 * rsum (wo_peers w) + 2 * zlen (sh_ch (wo_sh w)) + zlen (held w) + mrank (wo_main w).
Lemma rank_nonneg c : 0 <= rank c.
Proof. destruct c; cbn; try destruct u; lia. Qed.
Lemma rsum_nonneg l : 0 <= rsum l.
Proof. induction l as [|r l IH]; cbn; [lia|]. pose proof (rank_nonneg (r_pc r)). lia. Qed.
Lemma weight_nonneg w : 0 <= weight w.
Proof. unfold weight. pose proof (rsum_nonneg (wo_peers w)). pose proof (zlen_nonneg (sh_ch (wo_sh w))). pose proof (zlen_nonneg (held w)). destruct (wo_main w); cbn [mrank]; lia. Qed.
Lemma rsum_upd l k r r' : nth_error l k = Some r -> rsum (upd l k r') = rsum l - rank (r_pc r) + rank (r_pc r').
Proof. revert k. induction l as [|x l IH]; intros [|k] H; cbn in *; try discriminate; [inversion H; subst; lia|]. rewrite (IH _ H). lia. Qed.
Lemma pstep_ch sha1 i s r s' r' es : pstep sha1 i s r = Some (s', r', es) -> zlen (sh_ch s') <= zlen (sh_ch s) + 1.
Proof.
  intros H. step_cases H; unfold push; try match goal with |- context [match r_req ?x with _ => _ end] => destruct (r_req x) end; cbn [sh_ch set_t set_q set_ch];
    rewrite ?zlen_app, ?zlen_cons; try lia; change (zlen (@nil msg)) with 0; lia.
Qed.
(* what the action does not block *)
Lemma weight_step sha1 a w w' es : (forall b g, a <> ASpawn b g) -> sh_cancel (wo_sh w) = true -> exec sha1 a w = (w', es) ->
  w' = w \/ weight w' < weight w.
Proof.
  intros HA HC HE. unfold exec in HE. destruct (crashed w); [inversion HE; subst; auto|].
  destruct a as [b g|j i| | |].
  - exfalso. eapply HA; reflexivity.
  - destruct (nth_error (wo_peers w) j) as [q|] eqn:Ej; [|inversion HE; subst; auto].
    destruct (pstep sha1 i (wo_sh w) q) as [[[s' r'] es']|] eqn:Es; inversion HE; subst; [|auto]. right.
    unfold weight, held. cbn [wo_peers wo_sh wo_main wo_hand]. rewrite (rsum_upd _ _ _ _ Ej). pose proof (pstep_ch _ _ _ _ _ _ _ Es) as PC.
    destruct (rank_step _ _ _ _ _ _ _ HC Es) as (RS & _). lia.
  - destruct (wo_hand w) as [m|] eqn:E1; [|destruct (sh_ch (wo_sh w)) as [|m ch] eqn:E]; inversion HE; subst; [right| |right]; auto;
      unfold weight, held; cbn [wo_peers wo_sh wo_main wo_hand sh_ch set_ch]; rewrite E1, ?E, ?zlen_cons; change (zlen (@nil msg)) with 0; lia.
  - left. inversion HE; subst. destruct w as [[sw sq sc scl sca] ps mn tk hd]. cbn in *. now rewrite HC.
  - destruct (wo_main w) eqn:Em; [destruct (wg w =? 0)|rewrite HC in HE| |]; inversion HE; subst; auto; right; unfold weight, held; cbn [wo_peers wo_sh wo_main wo_hand sh_ch]; rewrite Em; cbn [mrank]; lia.
Qed.

(* who has to get its turn *)
Inductive proc := QPeer (k : nat) | QWriter | QMain.
Definition is_turn (q : proc) (a : action) : Prop :=
  match q with QPeer k => exists i, a = APeer k i | QWriter => a = AWriter | QMain => a = AMain end.
Lemma someone_moves sha1 w : sh_cancel (wo_sh w) = true -> crashed w = false -> wo_main w <> MRet ->
  exists q, forall a, is_turn q a -> weight (fst (exec sha1 a w)) < weight w.
Proof.
  intros HC Hcr HM.
  assert (HN : forall a, (forall b g, a <> ASpawn b g) -> fst (exec sha1 a w) <> w -> weight (fst (exec sha1 a w)) < weight w).
  { intros a HA Hne. destruct (exec sha1 a w) as [w' es] eqn:E. cbn [fst] in *. destruct (weight_step _ _ _ _ _ HA HC E); [contradiction|assumption]. }
  destruct (wo_hand w) as [m|] eqn:Eh; [|destruct (sh_ch (wo_sh w)) as [|m ch] eqn:Ech].
  2:{ destruct (wg w =? 0) eqn:Ew.
    + exists QMain. intros a ->. apply HN; [discriminate|]. unfold exec. rewrite Hcr.
      destruct (wo_main w) eqn:Em; [rewrite Ew|rewrite HC| |congruence]; cbn [fst]; intros E; apply (f_equal wo_main) in E; cbn in E; congruence.
    + assert (X : exists k r, nth_error (wo_peers w) k = Some r /\ live r = true).
      { unfold wg in Ew. clear -Ew. induction (wo_peers w) as [|r l IH]; [discriminate|]. cbn [filter] in Ew.
        destruct (live r) eqn:El; [exists 0%nat, r; auto|]. destruct (IH Ew) as (k & r' & A & B). exists (S k), r'. auto. }
      destruct X as (k & r & Hk & Hl). exists (QPeer k). intros a [i ->]. apply HN; [discriminate|].
      unfold exec. rewrite Hcr, Hk. destruct (pstep sha1 i (wo_sh w) r) as [[[s' r'] es']|] eqn:Es.
      * cbn [fst]. intros E. apply (f_equal wo_peers) in E. cbn in E. pose proof (nth_upd_same _ _ r' _ Hk) as N. rewrite E, Hk in N. inversion N; subst.
        destruct (rank_step _ _ _ _ _ _ _ HC Es) as (? & _). lia.
      * exfalso. destruct (free_unless_full _ _ _ _ HC Es) as [P|[P|(u & m & P & _ & F)]].
        -- unfold live in Hl. rewrite P in Hl. discriminate.
        -- unfold crashed in Hcr. apply orb_false_iff in Hcr. destruct Hcr as [Hcr _].
           assert (existsb panicked (wo_peers w) = true); [|congruence]. apply existsb_exists. exists r. split; [eapply nth_error_In; eassumption|]. unfold panicked. now rewrite P.
        -- rewrite Ech in F. cbn in F. discriminate F || (unfold chan_cap in F; cbv in F; congruence). }
  all: exists QWriter; intros a ->; apply HN; [discriminate|]; unfold exec; rewrite Hcr, Eh, ?Ech; cbn [fst]; intros E; apply (f_equal wo_hand) in E; cbn in E; congruence.
Qed.
Definition fair (f : nat -> action) : Prop := forall q n, exists m, (n <= m)%nat /\ is_turn q (f m).
Definition after (sha1 : bytes -> bytes) (f : nat -> action) (n : nat) (w : world) : world := fst (run sha1 (map f (seq 0 n)) w).
Lemma after_S sha1 f n w : after sha1 f (S n) w = after sha1 (fun m => f (S m)) n (fst (exec sha1 (f 0%nat) w)).
Proof.
  unfold after. cbn [seq map run]. destruct (exec sha1 (f 0%nat) w) as [w1 e1]. cbn [fst]. rewrite <- seq_shift, map_map.
  destruct (run sha1 (map (fun x => f (S x)) (seq 0 n)) w1). reflexivity.
Qed.
Lemma fair_tail f : fair f -> fair (fun m => f (S m)).
Proof. intros H q n. destruct (H q (S n)) as ([|m] & L & T); [lia|]. exists m. split; [lia|exact T]. Qed.
Lemma main_dec c : c = MRet \/ c <> MRet.
Proof. destruct c; [right; discriminate..|left; reflexivity]. Qed.
Lemma returns_when_cancelled sha1 f w : sh_cancel (wo_sh w) = true -> fair f -> (forall n b g, f n <> ASpawn b g) ->
  exists n, wo_main (after sha1 f n w) = MRet \/ crashed (after sha1 f n w) = true.
Proof.
  intros HC HF HS.
  assert (G : forall z w f, (Z.to_nat (weight w) < z)%nat -> sh_cancel (wo_sh w) = true -> fair f -> (forall n b g, f n <> ASpawn b g) ->
     exists n, wo_main (after sha1 f n w) = MRet \/ crashed (after sha1 f n w) = true); [|eapply G; eauto].
  clear. induction z as [|z IH]; intros w f Hz HC HF HS; [lia|].
  destruct (crashed w) eqn:Hcr; [exists 0%nat; right; exact Hcr|].
  destruct (main_dec (wo_main w)) as [HM|HM]; [exists 0%nat; left; exact HM|].
  destruct (someone_moves sha1 w HC Hcr HM) as (q & Hq).
  destruct (HF q 0%nat) as (m & _ & Hm). revert f HF HS Hm. induction m as [|m IHm]; intros f HF HS Hm.
  - specialize (Hq _ Hm). pose proof (weight_nonneg (fst (exec sha1 (f 0%nat) w))).
    destruct (IH (fst (exec sha1 (f 0%nat) w)) (fun m => f (S m))) as (n & Hn); [lia| |now apply fair_tail|intros; apply HS|].
    + destruct (exec sha1 (f 0%nat) w) as [w1 e1] eqn:E. eapply cancel_kept; eassumption.
    + exists (S n). rewrite after_S. exact Hn.
  - destruct (exec sha1 (f 0%nat) w) as [w1 e1] eqn:E.
    destruct (weight_step _ _ _ _ _ (HS 0%nat) HC E) as [->|L].
    + destruct (IHm (fun m => f (S m))) as (n & Hn); [now apply fair_tail|intros; apply HS|exact Hm|].
      exists (S n). rewrite after_S, E. exact Hn.
    + pose proof (weight_nonneg w1).
      destruct (IH w1 (fun m => f (S m))) as (n & Hn); [lia|eapply cancel_kept; eassumption|now apply fair_tail|intros; apply HS|].
      exists (S n). rewrite after_S, E. exact Hn.
Qed.
(* ---------- C55 ---------- *)
(* the piece arrives, the context is cancelled, Download closes the channel, then
   the peer sends *)
Definition late_piece : list action :=
  (AMain :: ASpawn false 0 :: to_read 0) ++ APeer 0 (rd (piece_body 0 0 [1; 2; 3; 4])) :: [ACancel; AMain; AMain].
Lemma late_piece_run sha1 : exists w tr r u m, run sha1 late_piece (wx_start sha1) = (w, tr) /\ crashed w = false /\ wo_main w = MRet /\
  nth_error (wo_peers w) 0 = Some r /\ r_pc r = PPut u m /\ verified sha1 (wx_t sha1) m /\ sh_closed (wo_sh w) = true /\
  crashed (fst (exec sha1 (APeer 0 go) w)) = true.
Proof.
  unfold late_piece. rewrite run_app.
  destruct (run sha1 (AMain :: ASpawn false 0 :: to_read 0) (wx_start sha1)) as [w1 e1] eqn:E1.
  vm_compute in E1. inversion E1; subst w1 e1; clear E1.
  cbn [run]. unfold exec at 1. cbn [wo_peers nth_error wo_sh].
  match goal with |- context [crashed ?w] => change (crashed w) with false end. cbv iota.
  erewrite read_good with (u := true) (d := [1; 2; 3; 4]); [|reflexivity..].
  eexists _, _, _, _, _. split; [vm_compute; reflexivity|]. repeat split; try reflexivity. eexists _, _. repeat split; reflexivity.
Qed.
Lemma closed_send_panics sha1 i s r u m : r_pc r = PPut u m -> sh_closed s = true -> pstep sha1 i s r = Some (s, at_pc r PPanic, []).
Proof. intros H1 H2. unfold pstep. now rewrite H1, H2. Qed.
Lemma send_after_close_refuted sha1 :
  ~ (forall w0 l w tr k r u m, run sha1 l (start w0) = (w, tr) -> nth_error (wo_peers w) k = Some r -> r_pc r = PPut u m -> sh_closed (wo_sh w) = false).
Proof.
  intros H. destruct (late_piece_run sha1) as (w & tr & r & u & m & H1 & _ & _ & H2 & H3 & _ & H4 & _).
  specialize (H _ _ _ _ _ _ _ _ H1 H2 H3). congruence.
Qed.
(* if no peer starts once wg.Wait has returned, all have ended by then *)
Lemma wg_zero w : wg w = 0 -> forall r, In r (wo_peers w) -> r_pc r = PRet.
Proof.
  unfold wg. intros H r Hr. destruct (live r) eqn:E; [|unfold live in E; destruct (r_pc r); congruence].
  assert (In r (filter live (wo_peers w))) by (apply filter_In; auto). destruct (filter live (wo_peers w)); [contradiction|]. rewrite zlen_cons in H.
  pose proof (zlen_nonneg l). lia.
Qed.
Lemma all_ended sha1 w0 l1 l2 w1 e1 w2 e2 : run sha1 l1 (start w0) = (w1, e1) -> wo_main w1 = MWait ->
  run sha1 l2 w1 = (w2, e2) -> (forall b g, ~ In (ASpawn b g) l2) ->
  wo_main w2 = MWait /\ sh_closed (wo_sh w2) = false \/ forall r, In r (wo_peers w2) -> r_pc r = PRet.
Proof.
  intros H1 HM H2 HS.
  assert (C1 : sh_closed (wo_sh w1) = false).
  { assert (I : sh_closed (wo_sh w1) = true -> wo_main w1 = MRet).
    { refine (run_inv sha1 (fun w _ => sh_closed (wo_sh w) = true -> wo_main w = MRet) (fun _ => True) (start w0) _ _ l1 w1 e1 _ H1); [discriminate| |now apply Forall_forall].
      clear. intros w tr a w' es I _ HE. unfold exec in HE. destruct (crashed w); [inversion HE; subst; auto|].
      destruct a as [b g|j i| | |].
      - inversion HE; subst. auto.
      - destruct (nth_error (wo_peers w) j) as [q|]; [|inversion HE; subst; auto].
        destruct (pstep sha1 i (wo_sh w) q) as [[[s' r'] es']|] eqn:Es; inversion HE; subst; [|auto]. cbn. now rewrite (proj2 (pstep_cancel _ _ _ _ _ _ _ Es)).
      - destruct (wo_hand w); [|destruct (sh_ch (wo_sh w))]; inversion HE; subst; auto.
      - inversion HE; subst. auto.
      - destruct (wo_main w) eqn:Em; [destruct (wg w =? 0)|destruct (sh_cancel (wo_sh w))| |]; inversion HE; subst; cbn; auto;
          intros X; apply I in X; congruence. }
    destruct (sh_closed (wo_sh w1)); [|reflexivity]. specialize (I eq_refl). congruence. }
  refine (run_inv sha1 (fun w _ => wo_main w = MWait /\ sh_closed (wo_sh w) = false \/ forall r, In r (wo_peers w) -> r_pc r = PRet)
            (fun a => forall b g, a <> ASpawn b g) w1 _ _ l2 w2 e2 _ H2).
  - left. auto.
  - clear. intros w tr a w' es I HA HE. unfold exec in HE. destruct (crashed w); [inversion HE; subst; auto|].
    destruct a as [b g|j i| | |].
    + exfalso. eapply HA; reflexivity.
    + destruct (nth_error (wo_peers w) j) as [q|] eqn:Ej; [|inversion HE; subst; auto].
      destruct (pstep sha1 i (wo_sh w) q) as [[[s' r'] es']|] eqn:Es; inversion HE; subst; [|auto].
      destruct I as [[I1 I2]|I]; [left; cbn; split; [exact I1|now rewrite (proj2 (pstep_cancel _ _ _ _ _ _ _ Es))]|].
      exfalso. apply nth_error_In in Ej. apply I in Ej. unfold pstep in Es. rewrite Ej in Es. discriminate.
    + destruct (wo_hand w); [|destruct (sh_ch (wo_sh w))]; inversion HE; subst; auto.
    + inversion HE; subst. auto.
    + destruct I as [[I1 I2]|I].
      * rewrite I1 in HE. destruct (wg w =? 0) eqn:Ew; inversion HE; subst; [|auto]. right. cbn. apply wg_zero. lia.
      * right. destruct (wo_main w); [destruct (wg w =? 0)|destruct (sh_cancel (wo_sh w))| |]; inversion HE; subst; exact I.
  - apply Forall_forall. intros a Ha b g ->. eapply HS; exact Ha.
Qed.

(* ---------- C56 ---------- *)
Definition unwritten : list action :=
  (AMain :: ASpawn false 0 :: to_read 0) ++ APeer 0 (rd (piece_body 0 0 [1; 2; 3; 4])) :: [APeer 0 go; ACancel; AMain; AMain].
Lemma unwritten_run sha1 : exists w tr m, run sha1 unwritten (wx_start sha1) = (w, tr) /\ crashed w = false /\ wo_main w = MRet /\
  handed tr = [m] /\ verified sha1 (wx_t sha1) m /\ wo_taken w = [] /\ contents (w_fs (sh_w (wo_sh w))) wx_place = [].
Proof.
  unfold unwritten. rewrite run_app.
  destruct (run sha1 (AMain :: ASpawn false 0 :: to_read 0) (wx_start sha1)) as [w1 e1] eqn:E1.
  vm_compute in E1. inversion E1; subst w1 e1; clear E1.
  cbn [run]. unfold exec at 1. cbn [wo_peers nth_error wo_sh].
  match goal with |- context [crashed ?w] => change (crashed w) with false end. cbv iota.
  erewrite read_good with (u := true) (d := [1; 2; 3; 4]); [|reflexivity..].
  eexists _, _, _. split; [vm_compute; reflexivity|]. repeat split; try reflexivity. eexists _, _. repeat split; reflexivity.
Qed.
Lemma written_refuted sha1 : ~ (forall w0 l w tr, run sha1 l (start w0) = (w, tr) -> crashed w = false -> wo_main w = MRet -> forall m, In m (handed tr) -> In m (wo_taken w)).
Proof.
  intros H. destruct (unwritten_run sha1) as (w & tr & m & H1 & H2 & H3 & H4 & _ & H5 & _).
  specialize (H _ _ _ _ H1 H2 H3 m). rewrite H4, H5 in H. apply H. left. reflexivity.
Qed.
Lemma chan_bound sha1 w0 l w tr : run sha1 l (start w0) = (w, tr) -> zlen (sh_ch (wo_sh w)) <= 1024.
Proof.
  intros HR. refine (run_inv sha1 (fun w _ => zlen (sh_ch (wo_sh w)) <= 1024) (fun _ => True) (start w0) _ _ l w tr _ HR); [cbn; unfold zlen; cbn; lia| |now apply Forall_forall].
  clear. intros w tr a w' es I _ HE. unfold exec in HE. destruct (crashed w); [inversion HE; subst; auto|].
  destruct a as [b g|j i| | |].
  - inversion HE; subst. auto.
  - destruct (nth_error (wo_peers w) j) as [q|]; [|inversion HE; subst; auto].
    destruct (pstep sha1 i (wo_sh w) q) as [[[s' r'] es']|] eqn:Es; inversion HE; subst; [|auto]. cbn.
    step_cases Es; unfold push; try match goal with |- context [match r_req ?x with _ => _ end] => destruct (r_req x) end; cbn [sh_ch set_t set_q set_ch];
      try exact I; rewrite zlen_app, zlen_cons; change (zlen (@nil msg)) with 0; unfold chan_cap in *; lia.
  - destruct (wo_hand w); [inversion HE; subst; exact I|].
    destruct (sh_ch (wo_sh w)) as [|m ch] eqn:Ech; inversion HE; subst; [rewrite Ech; exact I|]. cbn [wo_sh sh_ch set_ch]. rewrite zlen_cons in I. lia.
  - inversion HE; subst. auto.
  - destruct (wo_main w); [destruct (wg w =? 0)|destruct (sh_cancel (wo_sh w))| |]; inversion HE; subst; exact I.
Qed.
Lemma few_missing sha1 w0 l w tr : run sha1 l (start w0) = (w, tr) -> exists missing, handed tr = wo_taken w ++ missing /\ zlen missing <= 1025.
Proof.
  intros HR. exists (held w ++ sh_ch (wo_sh w)). split; [apply (writer_in_order _ _ _ _ _ HR)|]. pose proof (chan_bound _ _ _ _ _ HR). rewrite zlen_app.
  assert (zlen (held w) <= 1) by (unfold held; destruct (wo_hand w); cbv; discriminate). lia.
Qed.
(* the writer can still take them after Download has returned *)
Lemma drain sha1 n : forall w, zlen (held w) + 2 * zlen (sh_ch (wo_sh w)) = Z.of_nat n ->
  exists w' tr, run sha1 (repeat AWriter n) w = (w', tr) /\ tr = [] /\ (crashed w' = true \/ sh_ch (wo_sh w') = [] /\ wo_taken w' = wo_taken w ++ held w ++ sh_ch (wo_sh w)).
Proof.
  induction n as [|n IH]; intros w H.
  - exists w, []. split; [reflexivity|]. split; [reflexivity|]. right. unfold held in *.
    destruct (wo_hand w) as [x|]; destruct (sh_ch (wo_sh w)) as [|m c]; rewrite ?zlen_cons in H; change (zlen (@nil msg)) with 0 in H; try (pose proof (zlen_nonneg c); lia); try lia.
    split; [reflexivity|]. symmetry. apply app_nil_r.
  - cbn [repeat run]. unfold exec. destruct (crashed w) eqn:Hc.
    + assert (S : forall n, run sha1 (repeat AWriter n) w = (w, [])).
      { clear -Hc. induction n as [|n IH]; [reflexivity|]. cbn [repeat run]. unfold exec. rewrite Hc, IH. reflexivity. }
      rewrite S. exists w, []. auto.
    + unfold held in H. destruct (wo_hand w) as [x|] eqn:E1; [|destruct (sh_ch (wo_sh w)) as [|m c] eqn:E; [discriminate|]]; rewrite ?zlen_cons in H; change (zlen (@nil msg)) with 0 in H.
      * match goal with |- context [run sha1 (repeat AWriter n) ?w1] => destruct (IH w1) as (w' & tr & R & -> & D);
           [unfold held; cbn [wo_hand wo_sh sh_ch set_ch]; rewrite ?zlen_cons; change (zlen (@nil msg)) with 0; lia|]; exists w', []; rewrite R end.
         split; [reflexivity|]. split; [reflexivity|]. destruct D as [D|(D1 & D2)]; [left; exact D|right]. split; [exact D1|]. rewrite D2. unfold held. cbn. rewrite E1. cbn. now rewrite <- ?app_assoc.
      * match goal with |- context [run sha1 (repeat AWriter n) ?w1] => destruct (IH w1) as (w' & tr & R & -> & D);
           [unfold held; cbn [wo_hand wo_sh sh_ch set_ch]; rewrite ?zlen_cons; change (zlen (@nil msg)) with 0; lia|]; exists w', []; rewrite R end.
         split; [reflexivity|]. split; [reflexivity|]. destruct D as [D|(D1 & D2)]; [left; exact D|right]. split; [exact D1|]. rewrite D2. unfold held. cbn. rewrite E1. cbn. now rewrite <- ?app_assoc.
Qed.

(* a fair schedule: the distance to the square below is every number, again and again *)
Definition in_turn (n : nat) : action :=
  match (n - Nat.sqrt n * Nat.sqrt n)%nat with O => AWriter | S O => AMain | S (S k) => APeer k go end.
Lemma in_turn_at m j : (j <= 2 * m)%nat -> in_turn (m * m + j) = match j with O => AWriter | S O => AMain | S (S k) => APeer k go end.
Proof.
  intros H. unfold in_turn. assert (E : Nat.sqrt (m * m + j) = m) by (apply Nat.sqrt_unique; nia).
  rewrite E. replace (m * m + j - m * m)%nat with j by lia. reflexivity.
Qed.
Lemma in_turn_fair : fair in_turn.
Proof.
  intros q n.
  assert (G : forall j, exists m, (n <= m)%nat /\ in_turn m = match j with O => AWriter | S O => AMain | S (S k) => APeer k go end).
  { intros j. exists ((n + j) * (n + j) + j)%nat. split; [nia|]. apply in_turn_at. lia. }
  destruct q as [k| |]; [destruct (G (S (S k))) as (m & L & E)|destruct (G 0%nat) as (m & L & E)|destruct (G 1%nat) as (m & L & E)];
    exists m; (split; [exact L|]); cbn; eauto.
Qed.
Lemma in_turn_no_spawn n b g : in_turn n <> ASpawn b g.
Proof. unfold in_turn. destruct (_ - _)%nat as [|[|k]]; discriminate. Qed.
