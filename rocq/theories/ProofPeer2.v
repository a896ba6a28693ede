(* Pieces reserved, blocks requested, termination of Run: C41-C43.             *)
From Verif Require Import Base ProofBase ModelBitset ModelMsg ModelTorrent ModelConn ModelPeer ModelSystem
  SpecPeer ProofTorrent ProofSystem ProofRequests ProofProgress ProofPeer.

Lemma any_spawn l : Forall (spawns (fun _ => True)) l.
Proof. apply Forall_forall. intros [] _; cbn; auto. Qed.

(* ---------- C41 ---------- *)
(* a piece is reserved only if the peer asked about told that it has it *)
Definition claims_known (r : rstate) (es : list event) : Prop :=
  (forall b, In (EReadOk b) es -> Forall is_byte b) ->
  forall a i h c, es = a ++ EClaim i h :: c -> 0 <= i /\ known a i.
Lemma snoc_claim es i h a c (l : list event) : es ++ l = a ++ EClaim i h :: c ->
  (exists c', es = a ++ EClaim i h :: c') \/ (exists l', a = es ++ l' /\ l = l' ++ EClaim i h :: c).
Proof.
  revert a. induction es as [|e es IH]; intros a E.
  - right. exists a. auto.
  - destruct a as [|x a]; cbn in E; inversion E; subst.
    + left. exists es. reflexivity.
    + destruct (IH a H1) as [[c' ->]|[l' [-> ->]]]; [left; exists c'; reflexivity|right; exists l'; split; reflexivity].
Qed.
Lemma claims_known_step sha1 i s r s' r' es es' : knows r es /\ claims_known r es ->
  pstep sha1 i s r = Some (s', r', es') -> knows r' (es ++ es') /\ claims_known r' (es ++ es').
Proof.
  intros [HK HC] HS. split; [eapply knows_step; eauto|]. intros HB a j h c E.
  assert (HB' : forall b, In (EReadOk b) es -> Forall is_byte b) by (intros b Hb; apply HB, in_app_iff; auto).
  destruct (snoc_claim _ _ _ _ _ _ E) as [[c' E']|[l' [-> E']]]; [eapply HC; eauto|].
  assert (X : l' = [] /\ exists t', Next (sh_t s) (pr_bits (r_peer r)) = (t', Some j)).
  { clear - HS E'. revert E'. step_cases HS; intro E';
      try (destruct l' as [|x1 [|x2 [|x3 l']]]; cbn in E'; try discriminate; inversion E'; subst; fail).
    destruct l' as [|x1 [|x2 [|x3 l']]]; cbn in E'; try discriminate; inversion E'; subst; eauto. }
  destruct X as [-> [t' HN]]. rewrite app_nil_r. apply next_spec in HN. destruct HN as (H1 & _ & H3 & _).
  split; [lia|]. apply (proj1 (HK HB')); [lia|exact H3].
Qed.
Lemma claims_known_run sha1 w0 l w tr k : run sha1 l (start w0) = (w, tr) ->
  (forall b, In (EReadOk b) (events_of k tr) -> Forall is_byte b) ->
  forall a i h c, events_of k tr = a ++ EClaim i h :: c -> 0 <= i /\ known a i.
Proof.
  intros HR HB a i h c E.
  destruct (local_inv sha1 (fun _ => True) (fun r es => knows r es /\ claims_known r es)) with (w0 := w0) (l := l) (w := w) (tr := tr) as [HJ HI]; auto.
  - intros b t g _. split.
    + intros _. split; [|discriminate]. intros j _. cbn. unfold EmptyBitset. rewrite bs_make_false.
      split; [discriminate|intro H; now apply known_nil in H].
    + intros _ a' i' h' c' E'. destruct a'; discriminate.
  - intros; eapply claims_known_step; eauto.
  - apply any_spawn.
  - assert (HI' : In (k, EClaim i h) tr) by (apply in_events; rewrite E; apply in_app_iff; right; now left).
    apply HI in HI'. destruct (nth_error (wo_peers w) k) as [r|] eqn:Ek; [|apply nth_error_None in Ek; lia].
    exact (proj2 (HJ k r Ek) HB a i h c E).
Qed.

Lemma NoDup_app_snoc {A} (l : list A) x : NoDup l -> ~ In x l -> NoDup (l ++ [x]).
Proof.
  intros H1 H2. apply NoDup_rev in H1. rewrite <- (rev_involutive (l ++ [x])). apply NoDup_rev.
  rewrite rev_app_distr. cbn. constructor; [rewrite <- in_rev; exact H2|exact H1].
Qed.
(* no piece is reserved twice, by whichever peers *)
Fixpoint reserved (tr : list (nat * event)) : list Z :=
  match tr with
  | [] => []
  | (_, EClaim i _) :: tr' => i :: reserved tr'
  | _ :: tr' => reserved tr'
  end.
Lemma reserved_app a b : reserved (a ++ b) = reserved a ++ reserved b.
Proof. induction a as [|[k e] a IH]; cbn; [reflexivity|]. destruct e; rewrite ?IH; reflexivity. Qed.
Lemma reserved_once sha1 w0 l w tr : run sha1 l (start w0) = (w, tr) ->
  NoDup (reserved tr) /\ forall i, In i (reserved tr) ->
    0 <= i < zlen (t_requested (w_t w0)) /\ bs_test (t_requested (w_t w0)) i = false.
Proof.
  intros HR.
  cut (zlen (t_requested (sh_t (wo_sh w))) = zlen (t_requested (w_t w0)) /\
       (forall i, 0 <= i -> (bs_test (t_requested (sh_t (wo_sh w))) i = true <-> bs_test (t_requested (w_t w0)) i = true \/ In i (reserved tr))) /\
       NoDup (reserved tr) /\ (forall i, In i (reserved tr) -> 0 <= i < zlen (t_requested (w_t w0)) /\ bs_test (t_requested (w_t w0)) i = false)).
  { intros (_ & _ & H1 & H2). auto. }
  revert HR. intro HR.
  apply (run_inv sha1 (fun w tr => zlen (t_requested (sh_t (wo_sh w))) = zlen (t_requested (w_t w0)) /\
       (forall i, 0 <= i -> (bs_test (t_requested (sh_t (wo_sh w))) i = true <-> bs_test (t_requested (w_t w0)) i = true \/ In i (reserved tr))) /\
       NoDup (reserved tr) /\ (forall i, In i (reserved tr) -> 0 <= i < zlen (t_requested (w_t w0)) /\ bs_test (t_requested (w_t w0)) i = false))
       (fun _ => True) (start w0)) with (l := l); auto.
  - cbn. split; [reflexivity|]. split; [intros; tauto|]. split; [constructor|tauto].
  - clear l w tr HR. intros w tr a w' es (HL & HI & HN & HR) _ HE.
    assert (Same : t_requested (sh_t (wo_sh w')) = t_requested (sh_t (wo_sh w)) -> reserved es = [] ->
      zlen (t_requested (sh_t (wo_sh w'))) = zlen (t_requested (w_t w0)) /\
       (forall i, 0 <= i -> (bs_test (t_requested (sh_t (wo_sh w'))) i = true <-> bs_test (t_requested (w_t w0)) i = true \/ In i (reserved (tr ++ es)))) /\
       NoDup (reserved (tr ++ es)) /\ (forall i, In i (reserved (tr ++ es)) -> 0 <= i < zlen (t_requested (w_t w0)) /\ bs_test (t_requested (w_t w0)) i = false)).
    { intros E1 E2. rewrite reserved_app, E1, E2, app_nil_r. auto. }
    unfold exec in HE. destruct (crashed w); [inversion HE; subst; now apply Same|].
    destruct a as [b g|k i| | |].
    + inversion HE; subst. now apply Same.
    + destruct (nth_error (wo_peers w) k) as [r|]; [|inversion HE; subst; now apply Same].
      destruct (pstep sha1 i (wo_sh w) r) as [[[s' r'] es']|] eqn:Es; inversion HE; subst; [|now apply Same].
      cbn [wo_sh] in *. clear HE.
      step_cases Es; try (apply Same; reflexivity).
      all: try (apply Same; [unfold push; destruct (r_req r); reflexivity|reflexivity]).
      (* a piece is reserved *)
      match goal with H : Next _ _ = _ |- _ => apply next_spec in H; destruct H as (B1 & B2 & B3 & _ & ->) end.
      change (sh_t (set_t (wo_sh w) ?t)) with t. cbn [t_requested set_requested].
      rewrite reserved_app. cbn [map app reserved].
      match goal with |- context [bs_set _ ?z] => rename z into x end.
      split; [|split; [|split]].
      * rewrite <- HL. unfold zlen, bs_set. rewrite set_nth_length. unfold zlen in B1. lia.
      * intros j Hj. rewrite bs_test_set by lia. rewrite orb_true_iff, Z.eqb_eq, HI, in_app_iff by exact Hj. cbn. tauto.
      * apply NoDup_app_snoc; [exact HN|]. intro Hin. assert (T := proj2 (HI x ltac:(lia)) (or_intror Hin)). congruence.
      * intros j Hj. apply in_app_iff in Hj. destruct Hj as [Hj|[<-|[]]]; [auto|]. split; [lia|].
        destruct (bs_test (t_requested (w_t w0)) x) eqn:Ex; [|reflexivity].
        assert (T := proj2 (HI x ltac:(lia)) (or_introl Ex)). congruence.
    + destruct (wo_hand w) as [m|]; [|destruct (sh_ch (wo_sh w)); inversion HE; subst; now apply Same]. inversion HE; subst.
      apply Same; [|reflexivity]. cbn. unfold write_one. destruct (data_of m); try reflexivity.
      destruct (writePieceData _ _ _ _ _) as [[f' o'] st]. destruct st; cbn; try reflexivity. now destruct (_ =? _).
    + inversion HE; subst. now apply Same.
    + destruct (wo_main w); [destruct (wg w =? 0)|destruct (sh_cancel (wo_sh w))| |]; inversion HE; subst; now apply Same.
  - apply Forall_forall. auto.
Qed.

(* ---------- C42 ---------- *)
(* what a peer has created: blocks of piece 0 (never reserved), then the blocks of
   each piece reserved *)
Definition plan (bn : Z) (cl : list Z) (n : Z) : list msg :=
  match rev cl with
  | [] => blocks 0 n
  | x :: c => blocks 0 bn ++ flat_map (fun i => blocks (u32 i) (Z.max 1 bn)) (rev c) ++ blocks (u32 x) n
  end.
Lemma plan_nil bn n : plan bn [] n = blocks 0 n.
Proof. reflexivity. Qed.
Lemma plan_snoc bn c x n : plan bn (c ++ [x]) n = blocks 0 bn ++ flat_map (fun i => blocks (u32 i) (Z.max 1 bn)) c ++ blocks (u32 x) n.
Proof. unfold plan. rewrite rev_app_distr. cbn. now rewrite rev_involutive. Qed.

Lemma blocks_snoc i n : 0 <= n -> blocks i (n + 1) = blocks i n ++ [CreatePieceMessage i (n * 131072) 131072].
Proof.
  intros H. unfold blocks. replace (Z.to_nat (n + 1)) with (Z.to_nat n + 1)%nat by lia.
  rewrite seq_app, map_app. cbn. now rewrite Z2Nat.id.
Qed.

Definition planned (r : rstate) (es : list event) : Prop :=
  let p := r_peer r in
  0 <= pr_bnum p <= 2 ^ 15 ->
  created es = plan (pr_bnum p) (claimed es) (pr_block p) /\
  (claimed es = [] -> pr_piece p = 0 /\ 0 <= pr_block p <= pr_bnum p) /\
  (forall c x, claimed es = c ++ [x] -> pr_piece p = x /\ 1 <= pr_block p <= Z.max 1 (pr_bnum p)) /\
  (r_pc r = PNext -> pr_bnum p <= pr_block p).

Lemma planned_more r es bn b : pr_bnum (r_peer r) = bn -> pr_block (r_peer r) = b -> b < bn -> 0 <= bn <= 2 ^ 15 ->
  planned r es ->
  u32 (u64 (b * 131072)) = b * 131072 /\ u64 (b + 1) = b + 1 /\
  created es ++ [CreatePieceMessage (u32 (pr_piece (r_peer r))) (b * 131072) 131072] = plan bn (claimed es) (b + 1) /\
  (claimed es = [] -> pr_piece (r_peer r) = 0 /\ 0 <= b + 1 <= bn) /\
  (forall c x, claimed es = c ++ [x] -> pr_piece (r_peer r) = x /\ 1 <= b + 1 <= Z.max 1 bn).
Proof.
  intros <- <- Hb Hn HP. destruct (HP Hn) as (H1 & H2 & H3 & _).
  assert (B : 0 <= pr_block (r_peer r)).
  { destruct (claimed es) as [|x c _] using rev_ind; [apply H2; reflexivity|]. destruct (H3 c x eq_refl). lia. }
  split; [|split; [|split; [|split]]].
  - unfold u32, u64. rewrite !Z.mod_small; [reflexivity| |]; rewrite ?Z.mod_small; lia.
  - unfold u64. apply Z.mod_small. lia.
  - rewrite H1. destruct (claimed es) as [|x c _] using rev_ind.
    + rewrite !plan_nil. rewrite blocks_snoc by exact B. destruct (H2 eq_refl) as [-> _]. reflexivity.
    + destruct (H3 c x eq_refl) as [-> _]. rewrite !plan_snoc, blocks_snoc by exact B. now rewrite <- !app_assoc.
  - intro E. destruct (H2 E). split; [assumption|lia].
  - intros c x E. destruct (H3 c x E). split; [assumption|lia].
Qed.

Lemma planned_step sha1 i s r s' r' es es' : planned r es -> pstep sha1 i s r = Some (s', r', es') -> planned r' (es ++ es').
Proof.
  intros HP HS.
  assert (Keep : forall r1 es1, pr_bnum (r_peer r1) = pr_bnum (r_peer r) -> pr_block (r_peer r1) = pr_block (r_peer r) ->
    pr_piece (r_peer r1) = pr_piece (r_peer r) -> created es1 = [] -> claimed es1 = [] ->
    (r_pc r1 = PNext -> pr_bnum (r_peer r) <= pr_block (r_peer r)) -> planned r1 (es ++ es1)).
  { intros r1 es1 E1 E2 E3 E4 E5 E6. unfold planned in *. rewrite E1, E2, E3, created_app, claimed_app, E4, E5, !app_nil_r.
    intros Hn. destruct (HP Hn) as (H1 & H2 & H3 & _). auto. }
  step_cases HS;
    try match goal with |- context [handle_body sha1 ?t ?u r ?b] =>
      destruct (handle_body_spec sha1 t u r b _ eq_refl) as (A1 & A2 & A3 & A4 & A5 & A6 & A7 & P);
      apply Keep; auto; destruct P as [-> |[-> |[-> |[? ->]]]]; discriminate end;
    try (apply Keep; try reflexivity; cbn; discriminate).
  all: try (apply Keep; try reflexivity; cbn; intros _; lia).
  - (* a block of the current piece *)
    cbv [createPieceMessage] in *. match goal with H : (_, _) = _ |- _ => inversion H; subst; clear H end.
    intro Hn. cbn [r_peer set_place pr_bnum pr_block pr_piece] in *.
    destruct (planned_more r es _ _ eq_refl eq_refl ltac:(lia) Hn HP) as (U1 & U2 & C1 & C2 & C3).
    rewrite created_app, claimed_app. cbn [app created claimed r_pc]. rewrite app_nil_r. unfold BlockLength in *. rewrite U1, U2.
    split; [exact C1|]. split; [exact C2|]. split; [exact C3|discriminate].
  - (* a new piece *)
    cbv [createPieceMessage] in *. match goal with H : (_, _) = _ |- _ => inversion H; subst; clear H end.
    intro Hn. cbn [r_peer set_place pr_bnum pr_block pr_piece] in *.
    destruct (HP Hn) as (H1 & H2 & H3 & H4). specialize (H4 ltac:(assumption)).
    rewrite created_app, claimed_app. cbn [app created claimed r_pc]. rewrite plan_snoc.
    change (u64 1) with 1. change (blocks (u32 z) 1) with [CreatePieceMessage (u32 z) 0 131072].
    change (CreatePieceMessage (u32 z) (u32 (u64 0)) (u32 BlockLength)) with (CreatePieceMessage (u32 z) 0 131072).
    split; [|split; [intro E; now destruct (claimed es)|split; [|discriminate]]].
    + rewrite H1. destruct (claimed es) as [|x c _] using rev_ind.
      * destruct (H2 eq_refl) as [_ B]. rewrite plan_nil. replace (pr_block (r_peer r)) with (pr_bnum (r_peer r)) by lia. reflexivity.
      * destruct (H3 c x eq_refl) as [_ B]. rewrite plan_snoc. replace (pr_block (r_peer r)) with (Z.max 1 (pr_bnum (r_peer r))) by lia.
        rewrite flat_map_app. cbn [flat_map]. rewrite app_nil_r, <- !app_assoc. reflexivity.
    + intros c x E. apply app_inj_tail in E. destruct E as [_ ->]. split; [reflexivity|lia].
Qed.

Lemma bnum_run sha1 w0 l w tr k r : run sha1 l (start w0) = (w, tr) -> nth_error (wo_peers w) k = Some r ->
  pr_bnum (r_peer r) = u64 (t_plen (w_t w0)) / 131072.
Proof.
  intros HR. revert k r.
  cut ((forall k r, nth_error (wo_peers w) k = Some r -> pr_bnum (r_peer r) = u64 (t_plen (w_t w0)) / 131072) /\ t_plen (sh_t (wo_sh w)) = t_plen (w_t w0)); [tauto|].
  apply (run_inv sha1 (fun w _ => (forall k r, nth_error (wo_peers w) k = Some r -> pr_bnum (r_peer r) = u64 (t_plen (w_t w0)) / 131072) /\ t_plen (sh_t (wo_sh w)) = t_plen (w_t w0))
    (fun _ => True) (start w0)) with (l := l) (tr := tr); auto.
  - split; [intros [|k] r; discriminate|reflexivity].
  - clear. intros w tr a w' es [H1 H2] _ HE.
    destruct (exec_kind _ _ _ _ _ HE) as [(P & _ & E & _)|[(b & g & _ & E & P & _)|(k & i & r & r' & es' & _ & Ek & E & P & _)]].
    + rewrite P. split; [exact H1|congruence].
    + rewrite P, E. split; [|exact H2]. intros k r Hk.
      destruct (Nat.lt_ge_cases k (length (wo_peers w))) as [Hl|Hl].
      * rewrite nth_error_app1 in Hk by exact Hl. eauto.
      * rewrite nth_error_app2 in Hk by exact Hl. destruct (k - length (wo_peers w))%nat as [|[|?]]; cbn in Hk; inversion Hk; subst.
        cbn. unfold BlockLength. now rewrite H2.
    + rewrite P. split.
      * intros k' r0 Hk. destruct (Nat.eq_dec k' k) as [->|Hne].
        -- rewrite (nth_upd_same _ _ _ _ Ek) in Hk. inversion Hk; subst.
           assert (B : pr_bnum (r_peer r0) = pr_bnum (r_peer r)).
           { clear - E. step_cases E;
               try match goal with |- context [handle_body sha1 ?t ?u r ?b] =>
                 destruct (handle_body_spec sha1 t u r b _ eq_refl) as (A1 & A2 & A3 & A4 & A5 & A6 & A7 & P); exact A6 end; try reflexivity;
               match goal with H : createPieceMessage _ = _ |- _ => inversion H; reflexivity end. }
           rewrite B. eauto.
        -- rewrite nth_upd_other in Hk by exact Hne. eauto.
      * rewrite (static_plen _ _ (static_pstep _ _ _ _ _ _ _ E)). exact H2.
  - apply Forall_forall. auto.
Qed.

Lemma created_plan sha1 w0 l w tr k r : 0 <= t_plen (w_t w0) < 2 ^ 32 ->
  run sha1 l (start w0) = (w, tr) -> nth_error (wo_peers w) k = Some r ->
  let bn := t_plen (w_t w0) / 131072 in
  match rev (claimed (events_of k tr)) with
  | [] => exists n, 0 <= n <= bn /\ created (events_of k tr) = blocks 0 n
  | x :: c => exists n, 1 <= n <= Z.max 1 bn /\ created (events_of k tr) =
      blocks 0 bn ++ flat_map (fun i => blocks (u32 i) (Z.max 1 bn)) (rev c) ++ blocks (u32 x) n
  end.
Proof.
  intros Hp HR Hk bn. assert (Hb := bnum_run _ _ _ _ _ _ _ HR Hk).
  replace (u64 (t_plen (w_t w0))) with (t_plen (w_t w0)) in Hb by (symmetry; unfold u64; apply Z.mod_small; lia). fold bn in Hb.
  assert (HJ : planned r (events_of k tr)).
  { eapply (local_inv sha1 (fun _ => True) planned); [| |clear; instantiate (1 := l)| |]; eauto.
    - intros b t g _ Hn. cbn in *. split; [reflexivity|]. split; [intros _; lia|]. split; [intros [|? ?] x; discriminate|discriminate].
    - intros; eapply planned_step; eauto.
    - apply any_spawn. }
  destruct HJ as (H1 & H2 & H3 & _).
  { rewrite Hb. unfold bn. split; [apply Z.div_pos; lia|]. apply Z.div_le_upper_bound; lia. }
  rewrite Hb in *. unfold plan in H1. destruct (rev (claimed (events_of k tr))) as [|x c] eqn:E.
  - apply (f_equal (@rev Z)) in E. rewrite rev_involutive in E. destruct (H2 E) as [_ B]. eauto.
  - apply (f_equal (@rev Z)) in E. rewrite rev_involutive in E. cbn in E. destruct (H3 _ _ E) as [_ B]. eauto.
Qed.

(* exactly which lengths are covered *)
Lemma blocks_in i n m : In m (blocks i n) <-> exists k, 0 <= k < n /\ m = CreatePieceMessage i (k * 131072) 131072.
Proof.
  unfold blocks. rewrite in_map_iff. split.
  - intros (k & <- & Hk). apply in_seq in Hk. exists (Z.of_nat k). split; [lia|reflexivity].
  - intros (k & Hk & ->). exists (Z.to_nat k). split; [now rewrite Z2Nat.id by lia|]. apply in_seq. lia.
Qed.
Lemma blocks_cover i n plen : 0 <= n -> 0 <= plen -> (covers plen (blocks i n) <-> plen = n * 131072).
Proof.
  intros Hn Hp.
  assert (C : forall x, (exists m, In m (blocks i n) /\ m_offset m <= x < m_offset m + m_blen m) <-> 0 <= x < n * 131072).
  { intros x. split.
    - intros (m & Hm & Hx). apply blocks_in in Hm. destruct Hm as (k & Hk & ->). cbn in Hx. lia.
    - intros Hx. assert (0 <= x / 131072 < n) by (split; [apply Z.div_pos; lia|apply Z.div_lt_upper_bound; lia]).
      exists (CreatePieceMessage i (x / 131072 * 131072) 131072). split; [apply blocks_in; eauto|]. cbn.
      pose proof (Z.div_mod x 131072). pose proof (Z.mod_pos_bound x 131072). lia. }
  unfold covers. split.
  - intros H. assert (H' : forall x, 0 <= x < plen <-> 0 <= x < n * 131072) by (intros x; rewrite H; apply C).
    pose proof (H' plen). pose proof (H' (n * 131072)). lia.
  - intros -> x. rewrite C. reflexivity.
Qed.
Lemma cover_exact i plen : 0 <= plen -> (covers plen (blocks i (Z.max 1 (plen / 131072))) <-> 0 < plen /\ plen mod 131072 = 0).
Proof.
  intros Hp. pose proof (Z.div_mod plen 131072). pose proof (Z.mod_pos_bound plen 131072).
  assert (0 <= plen / 131072) by (apply Z.div_pos; lia).
  rewrite blocks_cover by lia. lia.
Qed.
Lemma created_exact sha1 w0 l w tr k r : 0 <= t_plen (w_t w0) < 2 ^ 32 ->
  run sha1 l (start w0) = (w, tr) -> nth_error (wo_peers w) k = Some r ->
  let bn := t_plen (w_t w0) / 131072 in
  (claimed (events_of k tr) = [] -> exists n, 0 <= n <= bn /\ created (events_of k tr) = blocks 0 n) /\
  (forall c x, claimed (events_of k tr) = c ++ [x] -> exists n, 1 <= n <= Z.max 1 bn /\ created (events_of k tr) =
      blocks 0 bn ++ flat_map (fun i => blocks (u32 i) (Z.max 1 bn)) c ++ blocks (u32 x) n).
Proof.
  intros Hp HR Hk bn. pose proof (created_plan _ _ _ _ _ _ _ Hp HR Hk) as H. cbv zeta in H. fold bn in H. split.
  - intro E. rewrite E in H. exact H.
  - intros c x E. rewrite E, rev_app_distr in H. cbn in H. rewrite rev_involutive in H. exact H.
Qed.

(* ---------- C43 ---------- *)
Definition rank (c : pc) : Z :=
  match c with
  | PRet | PPanic => 0
  | PTop | PUTop => 1
  | PUWait | PNil | PSendWait | PReadWait | PPut false _ => 2
  | PRead => 3
  | PSend => 4
  | PNext => 5
  | PReq => 6
  | PPut true _ | PChoke => 7
  | PURead | PKeep => 8
  | PUSend | PDone => 9
  end.
Definition may_ask (c : pc) : Z := if 4 <=? rank c then 1 else 0.
Lemma rank_step sha1 i s r s' r' es : sh_cancel s = true -> pstep sha1 i s r = Some (s', r', es) ->
  0 <= rank (r_pc r') < rank (r_pc r) /\ zlen (requested es) + may_ask (r_pc r') <= may_ask (r_pc r) /\ sh_cancel s' = true.
Proof.
  intros HC HS. unfold may_ask.
  step_cases HS; try (match goal with E : sh_cancel _ = false |- _ => congruence end);
    try match goal with |- context [handle_body sha1 ?t ?u r ?b] =>
      assert (P' : r_pc (handle_body sha1 t u r b) = (if u then PReq else PTop) \/ r_pc (handle_body sha1 t u r b) = PPanic \/ exists m, r_pc (handle_body sha1 t u r b) = PPut u m);
      [unfold handle_body; destruct (NewPeerMessage b); try (right; left; reflexivity);
       destruct (handlePeerMessage _ _ _ _); [left; reflexivity|right; right; eexists; reflexivity|right; left; reflexivity]|];
      destruct P' as [-> |[-> |[? ->]]]; cbn; split; [lia|split; [lia|assumption]|lia|split; [lia|assumption]|lia|split; [lia|assumption]] end.
  all: try match goal with |- context [PPut ?u _] => is_var u; destruct u end.
  all: cbn [r_pc at_pc with_peer rank requested Z.leb Z.compare Pos.compare Pos.compare_cont].
  all: try (match goal with |- context [if m_type ?m =? RequestT then _ else _] => destruct (m_type m =? RequestT) eqn:Ty; try discriminate Ty end).
  all: unfold push; try match goal with |- context [match r_req ?x with _ => _ end] => destruct (r_req x) end.
  all: split; [lia|]; split; [unfold zlen; cbn; lia|cbn; assumption].
Qed.
Lemma free_unless_full sha1 i s r : sh_cancel s = true -> pstep sha1 i s r = None ->
  r_pc r = PRet \/ r_pc r = PPanic \/ exists u m, r_pc r = PPut u m /\ sh_closed s = false /\ chan_cap <= zlen (sh_ch s).
Proof.
  intros HC HS. unfold pstep, wait, create in HS. rewrite HC in HS. dmatch HS; try discriminate; auto.
  right; right. eexists _, _. split; [reflexivity|]. split; [reflexivity|]. lia.
Qed.

(* the steps peer k really makes in a run *)
Fixpoint moves (sha1 : bytes -> bytes) (k : nat) (l : list action) (w : world) : Z :=
  match l with
  | [] => 0
  | a :: l' =>
      (match a with
       | APeer j i =>
           if Nat.eqb j k && negb (crashed w) then
             match nth_error (wo_peers w) k with
             | Some r => match pstep sha1 i (wo_sh w) r with Some _ => 1 | None => 0 end
             | None => 0
             end
           else 0
       | _ => 0
       end) + moves sha1 k l' (fst (exec sha1 a w))
  end.
Lemma exec_peer sha1 a w w' es k r : exec sha1 a w = (w', es) -> nth_error (wo_peers w) k = Some r ->
  (nth_error (wo_peers w') k = Some r /\ events_of k es = [] /\ (forall i, a = APeer k i -> crashed w = true \/ pstep sha1 i (wo_sh w) r = None)) \/
  (exists i r' s' es', a = APeer k i /\ crashed w = false /\ pstep sha1 i (wo_sh w) r = Some (s', r', es') /\
     nth_error (wo_peers w') k = Some r' /\ events_of k es = es' /\ wo_sh w' = s').
Proof.
  intros HE Hk. unfold exec in HE. destruct (crashed w) eqn:Ec; [inversion HE; subst; left; auto|].
  destruct a as [b g|j i| | |].
  - inversion HE; subst. left. cbn. split; [|split; [reflexivity|discriminate]].
    rewrite nth_error_app1; [exact Hk|]. apply nth_error_Some. congruence.
  - destruct (Nat.eq_dec j k) as [->|Hne].
    + rewrite Hk in HE. destruct (pstep sha1 i (wo_sh w) r) as [[[s' r'] es']|] eqn:Es; inversion HE; subst.
      * right. exists i, r', s', es'. cbn. rewrite (nth_upd_same _ _ _ _ Hk), events_same.
        split; [reflexivity|]. split; [reflexivity|]. split; [exact Es|]. auto.
      * left. split; [exact Hk|]. split; [reflexivity|]. intros i' E. inversion E; subst. auto.
    + left. destruct (nth_error (wo_peers w) j) as [q|]; [|inversion HE; subst; split; [exact Hk|split; [reflexivity|congruence]]].
      destruct (pstep sha1 i (wo_sh w) q) as [[[s' r'] es']|]; inversion HE; subst; (split; [|split; [|congruence]]).
      * cbn. now rewrite nth_upd_other by congruence.
      * apply events_other. congruence.
      * exact Hk.
      * reflexivity.
  - left. destruct (wo_hand w); [|destruct (sh_ch (wo_sh w))]; inversion HE; subst; (split; [exact Hk|split; [reflexivity|discriminate]]).
  - left. inversion HE; subst; (split; [exact Hk|split; [reflexivity|discriminate]]).
  - left. destruct (wo_main w); [destruct (wg w =? 0)|destruct (sh_cancel (wo_sh w))| |]; inversion HE; subst;
      (split; [exact Hk|split; [reflexivity|discriminate]]).
Qed.
Lemma cancel_kept sha1 a w w' es : exec sha1 a w = (w', es) -> sh_cancel (wo_sh w) = true -> sh_cancel (wo_sh w') = true.
Proof.
  intros HE HC. unfold exec in HE. destruct (crashed w); [inversion HE; subst; auto|].
  destruct a as [b g|j i| | |].
  - inversion HE; subst. exact HC.
  - destruct (nth_error (wo_peers w) j) as [q|]; [|inversion HE; subst; auto].
    destruct (pstep sha1 i (wo_sh w) q) as [[[s' r'] es']|] eqn:Es; inversion HE; subst; [|exact HC].
    exact (proj2 (proj2 (rank_step _ _ _ _ _ _ _ HC Es))).
  - destruct (wo_hand w); [|destruct (sh_ch (wo_sh w))]; inversion HE; subst; exact HC.
  - inversion HE; subst. reflexivity.
  - destruct (wo_main w); [destruct (wg w =? 0)|rewrite HC in HE| |]; inversion HE; subst; auto.
Qed.
Lemma stops_soon sha1 l : forall w k r w' tr, sh_cancel (wo_sh w) = true -> nth_error (wo_peers w) k = Some r ->
  run sha1 l w = (w', tr) ->
  exists r', nth_error (wo_peers w') k = Some r' /\
    moves sha1 k l w + rank (r_pc r') <= rank (r_pc r) /\
    zlen (requested (events_of k tr)) + may_ask (r_pc r') <= may_ask (r_pc r).
Proof.
  induction l as [|a l IH]; intros w k r w' tr HC Hk HR.
  - cbn in HR. inversion HR; subst. exists r. split; [exact Hk|]. cbn. lia.
  - cbn [run] in HR. destruct (exec sha1 a w) as [w1 e1] eqn:E1. destruct (run sha1 l w1) as [w2 e2] eqn:E2.
    inversion HR; subst. assert (HC1 := cancel_kept _ _ _ _ _ E1 HC). cbn [moves]. rewrite E1. cbn [fst].
    rewrite events_app, requested_app, zlen_app.
    destruct (exec_peer _ _ _ _ _ _ _ E1 Hk) as [(H1 & H2 & H3)|(i & r1 & s1 & es1 & -> & Ec & Es & H1 & H2 & _)].
    + destruct (IH w1 k r w' e2 HC1 H1 E2) as (r' & A & B & C). exists r'. split; [exact A|].
      rewrite H2. change (zlen (requested [])) with 0.
      assert (M : match a with
       | APeer j i =>
           if Nat.eqb j k && negb (crashed w) then
             match nth_error (wo_peers w) k with
             | Some r => match pstep sha1 i (wo_sh w) r with Some _ => 1 | None => 0 end
             | None => 0
             end
           else 0
       | _ => 0
       end = 0); [|rewrite M; lia].
      destruct a as [b g|j i| | |]; try reflexivity.
      destruct (Nat.eqb_spec j k) as [->|]; [|reflexivity]. destruct (H3 i eq_refl) as [-> | E]; [reflexivity|].
      rewrite Hk, E. now destruct (true && negb (crashed w)).
    + destruct (IH w1 k r1 w' e2 HC1 H1 E2) as (r' & A & B & C). exists r'. split; [exact A|].
      destruct (rank_step _ _ _ _ _ _ _ HC Es) as (D1 & D2 & _).
      rewrite H2, Nat.eqb_refl, Ec, Hk, Es. cbn [andb negb]. lia.
Qed.
Lemma stops_bound sha1 l w k r w' tr : sh_cancel (wo_sh w) = true -> nth_error (wo_peers w) k = Some r ->
  run sha1 l w = (w', tr) -> moves sha1 k l w <= 9 /\ zlen (requested (events_of k tr)) <= 1.
Proof.
  intros HC Hk HR. destruct (stops_soon _ _ _ _ _ _ _ HC Hk HR) as (r' & _ & A & B).
  assert (Q : forall c, 0 <= rank c <= 9) by (intros []; cbn; try destruct u; lia).
  assert (Q' : forall c, 0 <= may_ask c <= 1) by (intros c; unfold may_ask; destruct (4 <=? rank c); lia).
  pose proof (Q (r_pc r)). pose proof (Q (r_pc r')). pose proof (Q' (r_pc r)). pose proof (Q' (r_pc r')). lia.
Qed.
