(* Pieces smaller than one block: every peer reserves at most one piece (C40),
   and the requests created for a piece (C42).                                 *)
From Verif Require Import Base ProofBase ModelBitset ModelMsg ModelTorrent ModelConn ModelPeer ModelSystem
  SpecPeer ProofTorrent ProofSystem ProofRequests ProofProgress.

Definition small (r : rstate) (es : list event) : Prop :=
  pr_bnum (r_peer r) = 0 /\ 0 <= pr_block (r_peer r) /\ created es = map (fun i => CreatePieceMessage (u32 i) 0 131072) (claimed es).
Lemma small_step sha1 i s r s' r' es es' : small r es -> pstep sha1 i s r = Some (s', r', es') -> small r' (es ++ es').
Proof.
  intros (H1 & H2 & H3) HS. unfold small. rewrite created_app, claimed_app, map_app, H3.
  step_cases HS;
  try match goal with |- context [handle_body sha1 ?t ?u r ?b] =>
      destruct (handle_body_spec sha1 t u r b _ eq_refl) as (A1 & A2 & A3 & A4 & A5 & A6 & A7 & P);
      rewrite A4, A6; cbn; rewrite ?app_nil_r; auto end.
  all: cbn [created claimed app r_peer at_pc with_peer map]; rewrite ?app_nil_r; auto.
  - lia.
  - unfold createPieceMessage in Heqp1. inversion Heqp1; subst. cbn. split; [exact H1|]. split; [|reflexivity].
    change (0 <= 1). lia.
Qed.
Lemma next_delta sha1 i s r s' r' es es' : wf r -> small r es -> pstep sha1 i s r = Some (s', r', es') ->
  ncreated es' + at_next r' <= at_next r \/
  (r_pc r = PReq /\ r_sent r = false /\ at_next r' = 1 /\ ncreated es' = 0 /\ sh_q s (r_grp r) = []).
Proof.
  intros (W1 & W2 & W3) (H1 & H2 & H3) HS.
  step_cases HS; unfold at_next;
  try match goal with |- context [handle_body sha1 ?t ?u r ?b] =>
      destruct (handle_body_spec sha1 t u r b _ eq_refl) as (A1 & A2 & A3 & A4 & A5 & A6 & A7 & P);
      match goal with E : r_pc r = _ |- _ => rewrite E end;
      destruct P as [-> |[-> |[-> |[? ->]]]]; left; cbn; lia end.
  all: try (left; match goal with E : r_pc _ = _ |- _ => rewrite E end; cbn; lia).
  - pose proof (pop_spec (sh_q s' (r_grp r))) as HP. rewrite Heqp0 in HP.
    apply andb_true_iff in Heqb. destruct Heqb as [_ Heqb]. apply negb_true_iff in Heqb.
    right. cbn. auto.
Qed.

Lemma holds_next r : wf r -> 0 <= 1 - holds r - at_next r.
Proof.
  intros (W1 & W2 & W3). unfold holds, at_next. destruct (r_pc r) eqn:E; destruct (r_sent r) eqn:Es; try lia.
  specialize (W3 eq_refl). discriminate.
Qed.
Definition room (w : world) (cs : list Z) : Prop :=
  forall g, 0 <= gsum (fun r c => 1 - c - at_next r) g (wo_peers w) cs.

Lemma small_run sha1 w0 l w tr : u64 (t_plen (w_t w0)) < 131072 -> run sha1 l (start w0) = (w, tr) ->
  exists cs, accounts small w tr cs /\ room w cs.
Proof.
  intros Hp HR.
  assert (Hu : 0 <= u64 (t_plen (w_t w0))) by (unfold u64; apply Z.mod_pos_bound; lia).
  cut (exists cs, accounts small w tr cs /\ room w cs /\ t_plen (sh_t (wo_sh w)) = t_plen (w_t w0)); [intros (cs & H & ? & _); eauto|].
  apply (run_inv sha1 (fun w tr => exists cs, accounts small w tr cs /\ room w cs /\ t_plen (sh_t (wo_sh w)) = t_plen (w_t w0))
           (fun _ => True) (start w0)) with (l := l); auto.
  - exists []. split; [|split; [intro g; cbn; lia|reflexivity]].
    unfold accounts. cbn. split; [reflexivity|]. split; [reflexivity|]. split; [|reflexivity]. intros [|k]; discriminate.
  - clear l w tr HR. intros w tr a w' es (cs & HA & HM & HP) _ HE.
    assert (HP' : t_plen (sh_t (wo_sh w')) = t_plen (w_t w0)).
    { destruct (exec_kind _ _ _ _ _ HE) as [(_ & _ & E & _)|[(b & g & _ & E & _)|(k & i & r & r' & es' & _ & _ & E & _)]].
      - congruence.
      - rewrite E. exact HP.
      - rewrite (static_plen _ _ (static_pstep _ _ _ _ _ _ _ E)). exact HP. }
    destruct (accounts_step sha1 small a w tr cs w' es) as (cs' & HA' & HD); auto.
    + intros b t g Ht. unfold small, fresh, NewPeer. cbn. rewrite Ht, HP. split; [|split; [lia|reflexivity]].
      apply Z.div_small. unfold BlockLength. lia.
    + intros k i r c s' r' es' Ek Ec _ HX Wr Es. eapply small_step; eauto.
    + exists cs'. split; [exact HA'|]. split; [|exact HP']. intro g.
      destruct HA as (L & Z0 & A & Q).
      destruct HD as [(-> & ->)|[(b & g' & -> & ->)|(k & i & r & c & r' & es' & Ek & Ec & Es & -> & -> & G)]].
      * apply HM.
      * rewrite gsum_snoc by exact L. specialize (HM g). unfold fresh at 1, at_next at 2. cbn [r_grp r_pc fresh]. destruct (Nat.eqb g' g); lia.
      * rewrite (gsum_upd _ _ _ _ _ r c) by assumption. specialize (HM g).
        destruct (Nat.eqb_spec (r_grp r) g) as [Eg|_]; [|lia].
        destruct (A k r c Ek Ec) as (-> & Wr & HX).
        destruct (next_delta _ _ _ _ _ _ _ _ Wr HX Es) as [D|(D1 & D2 & D3 & D4 & D5)]; [lia|].
        (* the queue is empty: everything created is held *)
        assert (N0 : at_next r = 0) by (unfold at_next; now rewrite D1).
        assert (H0 : holds r = 0) by (unfold holds; now rewrite D1, D2).
        pose proof (gsum_ge (fun r c => (1 - c - at_next r) - (- (c - holds r))) g (wo_peers w) cs k r (ncreated (events_of k tr))) as GE.
        cbv beta in GE. rewrite (gsum_sub (fun r c => 1 - c - at_next r) (fun r c => - (c - holds r))) in GE.
        assert (GN : gsum (fun r c => - (c - holds r)) g (wo_peers w) cs = - gsum (fun r c => c - holds r) g (wo_peers w) cs).
        { clear. generalize (wo_peers w) cs. induction l as [|x l IH]; intros [|y c]; cbn; try lia. rewrite IH. destruct (Nat.eqb (r_grp x) g); lia. }
        rewrite GN, Q, <- Eg, D5 in GE. change (zlen (@nil msg)) with 0 in GE. rewrite <- Eg in HM |- *.
        assert (1 <= gsum (fun r c => 1 - c - at_next r) (r_grp r) (wo_peers w) cs); [|lia].
        assert (GE' := GE ltac:(intros k0 r0 c0 E1 E2; destruct (A k0 r0 c0 E1 E2) as (_ & W0 & _); pose proof (holds_next r0 W0); lia) Ek Ec eq_refl).
        lia.
  - apply Forall_forall. auto.
Qed.

(* the pieces reserved by the peers of round g *)
Definition peers_of (g : nat) (w : world) : Z := zlen (filter (fun r => Nat.eqb (r_grp r) g) (wo_peers w)).
Definition claims_of (g : nat) (w : world) (tr : list (nat * event)) : list Z :=
  flat_map (fun kr => if Nat.eqb (r_grp (snd kr)) g then claimed (events_of (fst kr) tr) else [])
           (combine (seq 0 (length (wo_peers w))) (wo_peers w)).

Lemma claims_sum g tr ps cs n : length cs = length ps ->
  (forall k r c, nth_error ps k = Some r -> nth_error cs k = Some c -> c = zlen (claimed (events_of (n + k) tr))) ->
  zlen (flat_map (fun kr => if Nat.eqb (r_grp (snd kr)) g then claimed (events_of (fst kr) tr) else []) (combine (seq n (length ps)) ps))
  + gsum (fun r c => 1 - c - at_next r) g ps cs + gsum (fun r _ => at_next r) g ps cs = zlen (filter (fun r => Nat.eqb (r_grp r) g) ps).
Proof.
  revert cs n. induction ps as [|r ps IH]; intros [|c cs] n L H; cbn in L; try discriminate; [reflexivity|].
  cbn [length seq combine flat_map filter gsum fst snd]. rewrite zlen_app.
  specialize (IH cs (S n) ltac:(lia) (fun k r c A B => ltac:(rewrite Nat.add_succ_comm; exact (H (S k) r c A B)))).
  specialize (H O r c eq_refl eq_refl). rewrite Nat.add_0_r in H.
  destruct (Nat.eqb (r_grp r) g); [|change (zlen (@nil Z)) with 0; lia].
  rewrite H. unfold zlen in *. cbn [length]. lia.
Qed.

(* C40, pieces smaller than one block *)
Lemma small_claims sha1 w0 l w tr : u64 (t_plen (w_t w0)) < 131072 -> run sha1 l (start w0) = (w, tr) ->
  (forall g, zlen (claims_of g w tr) <= peers_of g w) /\
  (forall k m, In (k, ESent m) tr -> is_request m ->
     exists r i, nth_error (wo_peers w) k = Some r /\ In i (claims_of (r_grp r) w tr) /\ m = CreatePieceMessage (u32 i) 0 131072).
Proof.
  intros Hp HR. destruct (small_run _ _ _ _ _ Hp HR) as (cs & (L & Z0 & A & _) & HM).
  assert (C : forall k r c, nth_error (wo_peers w) k = Some r -> nth_error cs k = Some c -> c = zlen (claimed (events_of k tr))).
  { intros k r c H1 H2. destruct (A k r c H1 H2) as (-> & _ & (_ & _ & E)). unfold ncreated. rewrite E. unfold zlen. now rewrite map_length. }
  split.
  - intro g. pose proof (claims_sum g tr (wo_peers w) cs 0 L C) as S. unfold peers_of, claims_of. rewrite <- S.
    specialize (HM g). assert (0 <= gsum (fun r _ => at_next r) g (wo_peers w) cs); [|lia].
    apply gsum_nonneg. intros k r c _ _. unfold at_next. destruct (r_pc r); lia.
  - intros k m Hi Hm. destruct (requests_created _ _ _ _ _ HR) as (_ & _ & RC).
    destruct (RC k m Hi Hm) as (r & Hk & k' & r' & Hk' & G & Hc). exists r.
    assert (Hl : (k' < length (wo_peers w))%nat) by (apply nth_error_Some; congruence).
    destruct (nth_error cs k') as [c|] eqn:Ec; [|apply nth_error_None in Ec; lia].
    destruct (A k' r' c Hk' Ec) as (_ & _ & (_ & _ & E)).
    apply in_events, created_in in Hc. rewrite E in Hc. apply in_map_iff in Hc. destruct Hc as (i & <- & Hi').
    exists i. split; [exact Hk|]. split; [|reflexivity].
    unfold claims_of. apply in_flat_map. exists (k', r'). cbn [fst snd]. split.
    + apply (nth_error_In _ k'). clear - Hk' Hl. 
      assert (N : forall n (ps : list rstate) k, nth_error ps k = Some r' -> nth_error (combine (seq n (length ps)) ps) k = Some ((n + k)%nat, r')).
      { intros n ps. revert n. induction ps as [|x ps IH]; intros n [|k] H; cbn in *; try discriminate.
        - inversion H. now rewrite Nat.add_0_r.
        - rewrite (IH (S n) k H). f_equal. f_equal. lia. }
      exact (N O (wo_peers w) k' Hk').
    + rewrite G, Nat.eqb_refl. exact Hi'.
Qed.
