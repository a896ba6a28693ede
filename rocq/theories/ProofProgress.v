(* Which pieces are ever requested: C40-C42.                                   *)
From Verif Require Import Base ProofBase ModelBitset ModelMsg ModelTorrent ModelConn ModelPeer ModelSystem
  SpecPeer ProofTorrent ProofSystem ProofRequests.

(* ---------- what no step changes ---------- *)
Definition static (t : torrent) :=
  (t_trackers t, t_hash t, t_length t, t_plen t, t_pieces t, t_pnum t, t_files t, t_osfiles t, t_name t, t_isdir t, t_nblocks t).
Lemma static_next t have t' o : Next t have = (t', o) -> static t' = static t.
Proof. unfold Next. destruct (next_loop _ _ _ _); intro H; inversion H; reflexivity. Qed.
Lemma static_write w m : static (w_t (write_one w m)) = static (w_t w).
Proof.
  unfold write_one. destruct (data_of m) as [d| | |]; try reflexivity.
  destruct (writePieceData _ _ _ _ _) as [[f' o'] st]. destruct st; cbn; try reflexivity.
  now destruct (_ =? _).
Qed.
Lemma static_pstep sha1 i s r s' r' es : pstep sha1 i s r = Some (s', r', es) -> static (sh_t s') = static (sh_t s).
Proof.
  intro HS. step_cases HS; try reflexivity; cbn.
  - eapply static_next; eassumption.
  - unfold push. now destruct (r_req r).
  - unfold push. now destruct (r_req r).
Qed.
Lemma static_run sha1 w0 l w tr : run sha1 l (start w0) = (w, tr) -> static (sh_t (wo_sh w)) = static (w_t w0).
Proof.
  intro HR. apply (run_inv sha1 (fun w _ => static (sh_t (wo_sh w)) = static (w_t w0)) (fun _ => True) (start w0)) with (l := l) (tr := tr); auto.
  - clear. intros w tr a w' es H _ HE. unfold exec in HE. destruct (crashed w); [inversion HE; subst; auto|].
    destruct a as [b g|k i| | |].
    + inversion HE; subst; auto.
    + destruct (nth_error (wo_peers w) k); [|inversion HE; subst; auto].
      destruct (pstep sha1 i (wo_sh w) r) as [[[s' r'] es']|] eqn:Es; inversion HE; subst; auto.
      cbn. rewrite (static_pstep _ _ _ _ _ _ _ Es). exact H.
    + destruct (wo_hand w); [|destruct (sh_ch (wo_sh w))]; inversion HE; subst; auto.
      etransitivity; [apply static_write|exact H].
    + inversion HE; subst; auto.
    + destruct (wo_main w); [destruct (wg w =? 0)|destruct (sh_cancel (wo_sh w))| |]; inversion HE; subst; auto.
  - apply Forall_forall. auto.
Qed.
Lemma static_plen t t' : static t = static t' -> t_plen t = t_plen t'.
Proof. unfold static. congruence. Qed.

(* ---------- sums over the peers of one round ---------- *)
Fixpoint gsum (f : rstate -> Z -> Z) (g : nat) (ps : list rstate) (cs : list Z) : Z :=
  match ps, cs with
  | r :: ps', c :: cs' => (if Nat.eqb (r_grp r) g then f r c else 0) + gsum f g ps' cs'
  | _, _ => 0
  end.
Lemma gsum_upd f g ps cs k r c r' c' : nth_error ps k = Some r -> nth_error cs k = Some c -> r_grp r' = r_grp r ->
  gsum f g (upd ps k r') (upd cs k c') = gsum f g ps cs + (if Nat.eqb (r_grp r) g then f r' c' - f r c else 0).
Proof.
  revert cs k. induction ps as [|x ps IH]; intros [|y cs] [|k] H1 H2 H3; cbn in *; try discriminate.
  - inversion H1; inversion H2; subst. rewrite H3. destruct (Nat.eqb (r_grp r) g); lia.
  - rewrite (IH cs k) by assumption. lia.
Qed.
Lemma gsum_snoc f g ps cs r c : length cs = length ps ->
  gsum f g (ps ++ [r]) (cs ++ [c]) = gsum f g ps cs + (if Nat.eqb (r_grp r) g then f r c else 0).
Proof.
  revert cs. induction ps as [|x ps IH]; intros [|y cs] H; cbn in *; try discriminate; [lia|].
  rewrite IH by lia. lia.
Qed.
Lemma gsum_nonneg f g ps cs : (forall k r c, nth_error ps k = Some r -> nth_error cs k = Some c -> 0 <= f r c) ->
  0 <= gsum f g ps cs.
Proof.
  revert cs. induction ps as [|x ps IH]; intros [|y cs] H; cbn; try lia.
  specialize (IH cs (fun k r c A B => H (S k) r c A B)). specialize (H O x y eq_refl eq_refl).
  destruct (Nat.eqb (r_grp x) g); lia.
Qed.
Lemma gsum_ge f g ps cs k r c : (forall k r c, nth_error ps k = Some r -> nth_error cs k = Some c -> 0 <= f r c) ->
  nth_error ps k = Some r -> nth_error cs k = Some c -> r_grp r = g -> f r c <= gsum f g ps cs.
Proof.
  revert cs k. induction ps as [|x ps IH]; intros [|y cs] [|k] H H1 H2 H3; cbn in *; try discriminate.
  - inversion H1; inversion H2; subst. rewrite Nat.eqb_refl.
    pose proof (gsum_nonneg f (r_grp r) ps cs (fun k r c A B => H (S k) r c A B)). lia.
  - specialize (IH cs k (fun k r c A B => H (S k) r c A B) H1 H2 H3).
    specialize (H O x y eq_refl eq_refl). destruct (Nat.eqb (r_grp x) g); lia.
Qed.
Lemma gsum_sub f1 f2 g ps cs : gsum (fun r c => f1 r c - f2 r c) g ps cs = gsum f1 g ps cs - gsum f2 g ps cs.
Proof. revert cs. induction ps as [|x ps IH]; intros [|y cs]; cbn; try lia. rewrite IH. destruct (Nat.eqb (r_grp x) g); lia. Qed.

(* ---------- accounting of request messages ---------- *)
(* a message created is held by a peer (until it fails) or waits in the queue *)
Definition holds (r : rstate) : Z := match r_pc r with PSend => 1 | _ => if r_sent r then 1 else 0 end.
Definition at_next (r : rstate) : Z := match r_pc r with PNext => 1 | _ => 0 end.
Definition wf (r : rstate) : Prop :=
  (r_pc r = PSend -> r_req r <> None /\ r_sent r = false) /\ (r_sent r = true -> r_req r <> None) /\ (r_pc r = PNext -> r_sent r = false).
Definition ncreated (es : list event) : Z := zlen (created es).

Lemma pop_spec q : match FailedPieceMessage q with
  | (q', Some m) => q = q' ++ [m]
  | (_, None) => q = []
  end.
Proof.
  unfold FailedPieceMessage. destruct (Z.eqb_spec (zlen q) 0) as [E|E].
  - destruct q; [reflexivity|unfold zlen in E; cbn in E; lia].
  - destruct q as [|x q'] using rev_ind; [unfold zlen in E; cbn in E; lia|]. clear IHq'.
    unfold nthZ, zlen. rewrite app_length. cbn [length].
    destruct (_ <? 0) eqn:L; [lia|].
    replace (Z.to_nat (Z.of_nat (length q' + 1) - 1)) with (length q') by lia.
    rewrite nth_error_app2, Nat.sub_diag by lia. cbn. rewrite firstn_app, Nat.sub_diag, firstn_all.
    cbn. now rewrite app_nil_r.
Qed.
Lemma zlen_app {A} (a b : list A) : zlen (a ++ b) = zlen a + zlen b.
Proof. unfold zlen. rewrite app_length. lia. Qed.

Lemma pstep_account sha1 i s r s' r' es : wf r -> pstep sha1 i s r = Some (s', r', es) ->
  wf r' /\ r_grp r' = r_grp r /\ pr_bnum (r_peer r') = pr_bnum (r_peer r) /\
  (forall h, h <> r_grp r -> sh_q s' h = sh_q s h) /\
  zlen (sh_q s' (r_grp r)) - zlen (sh_q s (r_grp r)) = (ncreated es - holds r') + holds r.
Proof.
  intros (W1 & W2 & W3) HS. step_cases HS;
  try match goal with |- context [handle_body sha1 ?t ?u r ?b] =>
      destruct (handle_body_spec sha1 t u r b _ eq_refl) as (A1 & A2 & A3 & A4 & A5 & A6 & A7 & P); unfold wf, holds, ncreated;
      rewrite A1, A2, A3, A6; cbn;
      match goal with E : r_pc r = _ |- _ => rewrite E in * end;
      destruct P as [-> |[-> |[-> |[? ->]]]]; repeat split; auto; intros; try discriminate; try (apply W2; assumption); try lia
      end.
  all: unfold wf, holds, ncreated, wait in *; cbn;
      match goal with E : r_pc ?r = _ |- _ => rewrite E in * end;
      try (repeat split; auto; intros; try discriminate; try apply W1; try apply W2; auto; cbn; try lia; fail).
  all: try (match goal with E : FailedPieceMessage _ = _ |- _ => pose proof (pop_spec (sh_q s (r_grp r))) as HP; rewrite E in HP end;
      repeat match goal with H : _ && _ = true |- _ => apply andb_true_iff in H; destruct H end;
      rewrite ?HP, ?Nat.eqb_refl, ?zlen_app; destruct (r_sent r) eqn:Esent; try discriminate;
      repeat split; auto; intros; try discriminate; auto; try (destruct (Nat.eqb_spec h (r_grp r)); [contradiction|reflexivity]);
      unfold zlen; cbn; try lia; fail).
  all: try match goal with E : createPieceMessage _ = _ |- _ => unfold createPieceMessage in E; inversion E; subst; clear E end.
  all: try (repeat match goal with H : _ && _ = true |- _ => apply andb_true_iff in H; destruct H end;
      try specialize (W3 eq_refl); destruct (r_sent r) eqn:Esent; try discriminate; try (destruct W1 as [? W1']; [reflexivity|]; try discriminate W1');
      repeat split; auto; intros; try discriminate; auto; unfold zlen; cbn; try lia; fail).
  all: unfold push.
  - (* failed send *)
    destruct (r_req r) as [m'|] eqn:Er; [|discriminate]. destruct W1 as [_ W1]; [reflexivity|]. rewrite W1 in *.
    cbn. rewrite Nat.eqb_refl. repeat split; auto; intros; try discriminate.
    + destruct (Nat.eqb_spec h (r_grp r)); [contradiction|reflexivity].
    + unfold RequestFailed. rewrite zlen_app. unfold zlen; cbn; lia.
  - destruct W1 as [W1 _]; [reflexivity|]. now contradiction W1.
  - (* failed read *)
    try match goal with E : r_sent r = true |- _ => rewrite E in * end.
    destruct (r_req r) as [m'|] eqn:Er; [|exfalso; now apply W2].
    cbn. rewrite Nat.eqb_refl. repeat split; auto; intros; try discriminate.
    + destruct (Nat.eqb_spec h (r_grp r)); [contradiction|reflexivity].
    + unfold RequestFailed. rewrite zlen_app. unfold zlen; cbn; lia.
Qed.

(* ---------- every world: the accounts balance ---------- *)
Definition step_kind (w : world) (a : action) (w' : world) (es : list (nat * event)) (sha1 : bytes -> bytes) : Prop :=
  (* nothing that concerns peers or queues *)
  (wo_peers w' = wo_peers w /\ (forall g, sh_q (wo_sh w') g = sh_q (wo_sh w) g) /\ t_plen (sh_t (wo_sh w')) = t_plen (sh_t (wo_sh w)) /\ es = []) \/
  (* a new peer *)
  (exists b g, a = ASpawn b g /\ wo_sh w' = wo_sh w /\ wo_peers w' = wo_peers w ++ [fresh b (sh_t (wo_sh w)) g] /\ es = []) \/
  (* a step of a peer *)
  (exists k i r r' es', a = APeer k i /\ nth_error (wo_peers w) k = Some r /\ pstep sha1 i (wo_sh w) r = Some (wo_sh w', r', es') /\
     wo_peers w' = upd (wo_peers w) k r' /\ es = map (pair k) es').
Lemma exec_kind sha1 a w w' es : exec sha1 a w = (w', es) -> step_kind w a w' es sha1.
Proof.
  intro HE. unfold step_kind. unfold exec in HE. destruct (crashed w); [inversion HE; subst; left; auto|].
  destruct a as [b g|k i| | |].
  - inversion HE; subst. right; left. exists b, g. auto.
  - destruct (nth_error (wo_peers w) k) as [r|] eqn:Ek; [|inversion HE; subst; left; auto].
    destruct (pstep sha1 i (wo_sh w) r) as [[[s' r'] es']|] eqn:Es; inversion HE; subst; [|left; auto].
    right; right. exists k, i, r, r', es'. auto.
  - destruct (wo_hand w); [|destruct (sh_ch (wo_sh w))]; inversion HE; subst; left; auto. repeat split; auto.
    cbn. apply static_plen. apply static_write.
  - inversion HE; subst. left; auto.
  - destruct (wo_main w); [destruct (wg w =? 0)|destruct (sh_cancel (wo_sh w))| |]; inversion HE; subst; left; auto.
Qed.

Lemma nth_upd_other {A} (l : list A) k x k' : k' <> k -> nth_error (upd l k x) k' = nth_error l k'.
Proof.
  revert k k'. induction l as [|y l IH]; intros [|k] [|k'] H; cbn; try reflexivity; try contradiction.
  apply IH. lia.
Qed.
Lemma nth_upd_same {A} (l : list A) k x y : nth_error l k = Some y -> nth_error (upd l k x) k = Some x.
Proof. revert k. induction l as [|z l IH]; intros [|k] H; cbn in *; try discriminate; auto. Qed.

(* the accounts: cs counts the messages each peer created *)
Definition accounts (X : rstate -> list event -> Prop) (w : world) (tr : list (nat * event)) (cs : list Z) : Prop :=
  length cs = length (wo_peers w) /\
  (forall k, (length (wo_peers w) <= k)%nat -> events_of k tr = []) /\
  (forall k r c, nth_error (wo_peers w) k = Some r -> nth_error cs k = Some c ->
     c = ncreated (events_of k tr) /\ wf r /\ X r (events_of k tr)) /\
  (forall g, gsum (fun r c => c - holds r) g (wo_peers w) cs = zlen (sh_q (wo_sh w) g)).

(* X is kept by the steps that can happen when the accounts balance; D is what is
   known about the queue at that moment *)
Lemma accounts_step sha1 (X : rstate -> list event -> Prop) a w tr cs w' es :
  (forall b t g, t_plen t = t_plen (sh_t (wo_sh w)) -> X (fresh b t g) []) ->
  (forall k i r c s' r' es', nth_error (wo_peers w) k = Some r -> nth_error cs k = Some c ->
     c = ncreated (events_of k tr) -> X r (events_of k tr) -> wf r ->
     pstep sha1 i (wo_sh w) r = Some (s', r', es') -> X r' (events_of k tr ++ es')) ->
  accounts X w tr cs -> exec sha1 a w = (w', es) ->
  exists cs', accounts X w' (tr ++ es) cs' /\
    (cs' = cs /\ wo_peers w' = wo_peers w \/
     (exists b g, cs' = cs ++ [0] /\ wo_peers w' = wo_peers w ++ [fresh b (sh_t (wo_sh w)) g]) \/
     (exists k i r c r' es', nth_error (wo_peers w) k = Some r /\ nth_error cs k = Some c /\
        pstep sha1 i (wo_sh w) r = Some (wo_sh w', r', es') /\ cs' = upd cs k (c + ncreated es') /\ wo_peers w' = upd (wo_peers w) k r' /\
        r_grp r' = r_grp r)).
Proof.
  intros HF HX (L & Z0 & A & Q) HE. apply exec_kind in HE.
  destruct HE as [(P & Qs & _ & ->)|[(b & g & -> & S & P & ->)|(k & i & r & r' & es' & -> & Ek & Es & P & ->)]].
  - exists cs. split; [|auto]. unfold accounts. rewrite P, app_nil_r. split; [exact L|]. split; [exact Z0|]. split; [exact A|].
    intro g. rewrite Q. now rewrite Qs.
  - exists (cs ++ [0]). split; [|right; left; eauto]. unfold accounts. rewrite P, app_nil_r. split; [|split; [|split]].
    + rewrite !app_length. cbn. lia.
    + intros k Hk. rewrite app_length in Hk. cbn in Hk. apply Z0. lia.
    + intros k r c H1 H2. destruct (Nat.lt_ge_cases k (length (wo_peers w))) as [Hl|Hl].
      * rewrite nth_error_app1 in H1 by exact Hl. rewrite nth_error_app1 in H2 by lia. auto.
      * rewrite nth_error_app2 in H1 by exact Hl. rewrite nth_error_app2 in H2 by lia.
        destruct (k - length (wo_peers w))%nat as [|[|?]] eqn:Ek; cbn in H1; inversion H1; subst.
        rewrite L, Ek in H2. cbn in H2. inversion H2; subst.
        split; [rewrite Z0 by exact Hl; reflexivity|]. split; [|rewrite Z0 by exact Hl; apply HF; reflexivity].
        unfold wf. cbn. repeat split; discriminate.
    + intro h. rewrite gsum_snoc by exact L. rewrite Q, S. unfold holds. cbn. destruct (Nat.eqb g h); lia.
  - assert (Hl : (k < length (wo_peers w))%nat) by (apply nth_error_Some; congruence).
    destruct (nth_error cs k) as [c|] eqn:Ec; [|apply nth_error_None in Ec; lia].
    destruct (A k r c Ek Ec) as (Ac & Wr & Xr).
    destruct (pstep_account sha1 i (wo_sh w) r (wo_sh w') r' es' Wr Es) as (W' & G & B & Qo & Qs).
    exists (upd cs k (c + ncreated es')). split.
    + unfold accounts. rewrite P. split; [now rewrite !upd_length|]. split; [|split].
      * intros k' Hk'. rewrite upd_length in Hk'. rewrite events_app, Z0 by exact Hk'. rewrite events_other by lia. reflexivity.
      * intros k' r2 c2 H1 H2. destruct (Nat.eq_dec k' k) as [->|Hne].
        -- rewrite (nth_upd_same _ _ _ r Ek) in H1. rewrite (nth_upd_same _ _ _ c Ec) in H2. inversion H1; inversion H2; subst.
           rewrite events_app, events_same. unfold ncreated. rewrite created_app, zlen_app. fold (ncreated es').
           split; [reflexivity|]. split; [exact W'|]. eapply HX; eauto.
        -- rewrite nth_upd_other in H1 by exact Hne. rewrite nth_upd_other in H2 by exact Hne. rewrite events_app, events_other by exact Hne. rewrite app_nil_r. auto.
      * intro g. rewrite (gsum_upd _ _ _ _ _ r c) by assumption. rewrite Q.
        destruct (Nat.eqb_spec (r_grp r) g) as [<-|Hne]; [lia|]. rewrite Qo by congruence. lia.
    + right; right. exists k, i, r, c, r', es'. auto 10.
Qed.

(* ---------- pieces of at least one block: nothing but piece 0 ---------- *)
Definition first_only (bn : Z) (r : rstate) (es : list event) : Prop :=
  pr_bnum (r_peer r) = bn /\ holds r <= ncreated es /\ (bn <= pr_block (r_peer r) -> 1 <= ncreated es) /\
  r_pc r <> PNext /\ pr_piece (r_peer r) = 0 /\ claimed es = [] /\ Forall (fun m => m_index m = 0) (created es).
Lemma holds_le1 r : 0 <= holds r <= 1.
Proof. unfold holds. destruct (r_pc r); destruct (r_sent r); lia. Qed.

Lemma first_only_step sha1 bn i s r s' r' es es' : 1 <= bn ->
  (r_pc r = PReq -> r_sent r = false -> bn <= pr_block (r_peer r) -> sh_q s (r_grp r) <> []) -> wf r ->
  first_only bn r es -> pstep sha1 i s r = Some (s', r', es') -> first_only bn r' (es ++ es').
Proof.
  intros Hbn HQ (W1 & W2 & W3) (H1 & H2 & H3 & H4 & H5 & H6 & H7) HS.
  unfold first_only, ncreated in *. rewrite created_app, claimed_app, zlen_app, H6.
  assert (Z1 : 0 <= zlen (created es)) by (unfold zlen; lia).
  step_cases HS;
  try match goal with |- context [handle_body sha1 ?t ?u r ?b] =>
      destruct (handle_body_spec sha1 t u r b _ eq_refl) as (A1 & A2 & A3 & A4 & A5 & A6 & A7 & P);
      unfold holds in *; rewrite A2, A4, A5, A6; cbn [created claimed app]; rewrite ?app_nil_r;
      match goal with E : r_pc r = _ |- _ => rewrite E in * end;
      destruct P as [-> |[-> |[-> |[? ->]]]]; repeat split; auto; try discriminate; unfold zlen; cbn; try lia; auto
      end.
  all: unfold holds in *; cbn [created claimed app r_pc r_peer r_sent at_pc with_peer]; rewrite ?app_nil_r;
      try match goal with E : r_pc ?r = _ |- _ => rewrite E in * end; try congruence.
  all: try (repeat split; auto; try discriminate; cbn in *; unfold zlen in *; cbn; try lia; fail).
  - exfalso. apply andb_true_iff in Heqb. destruct Heqb as [_ Heqb]. apply negb_true_iff in Heqb.
    pose proof (pop_spec (sh_q s' (r_grp r))) as HP. rewrite Heqp0 in HP. apply HQ; auto. lia.
  - unfold createPieceMessage in Heqp0. inversion Heqp0; subst. cbn. rewrite H5. cbn.
    repeat split; auto; try discriminate; unfold zlen in *; cbn; try lia. apply Forall_app. split; auto.
Qed.

(* sum argument: a peer that may ask the queue finds a message there *)
Lemma queue_not_empty bn w tr cs k r : 1 <= bn -> accounts (first_only bn) w tr cs -> nth_error (wo_peers w) k = Some r ->
  r_pc r = PReq -> r_sent r = false -> bn <= pr_block (r_peer r) -> sh_q (wo_sh w) (r_grp r) <> [].
Proof.
  intros Hbn (L & Z0 & A & Q) Ek Epc Esent Hb Hq.
  assert (Hl : (k < length (wo_peers w))%nat) by (apply nth_error_Some; congruence).
  destruct (nth_error cs k) as [c|] eqn:Ec; [|apply nth_error_None in Ec; lia].
  destruct (A k r c Ek Ec) as (-> & Wr & (X1 & X2 & X3 & _)). specialize (X3 Hb).
  pose proof (gsum_ge (fun r c => c - holds r) (r_grp r) (wo_peers w) cs k r (ncreated (events_of k tr))) as G. cbv beta in G.
  rewrite (Q (r_grp r)), Hq in G. change (zlen (@nil msg)) with 0 in G.
  assert (Hh : holds r = 0) by (unfold holds; now rewrite Epc, Esent).
  enough (ncreated (events_of k tr) - holds r <= 0) by lia.
  apply G; auto.
  intros k' r' c' H1 H2. destruct (A k' r' c' H1 H2) as (-> & _ & (_ & Y & _)). lia.
Qed.

Lemma first_only_run sha1 w0 l w tr : 131072 <= u64 (t_plen (w_t w0)) -> run sha1 l (start w0) = (w, tr) ->
  exists cs, accounts (first_only (u64 (t_plen (w_t w0)) / BlockLength)) w tr cs.
Proof.
  intros Hp HR. set (bn := u64 (t_plen (w_t w0)) / BlockLength).
  assert (Hbn : 1 <= bn) by (unfold bn, BlockLength; apply Z.div_le_lower_bound; lia).
  cut (exists cs, accounts (first_only bn) w tr cs /\ t_plen (sh_t (wo_sh w)) = t_plen (w_t w0)); [intros (cs & H & _); eauto|].
  apply (run_inv sha1 (fun w tr => exists cs, accounts (first_only bn) w tr cs /\ t_plen (sh_t (wo_sh w)) = t_plen (w_t w0))
           (fun _ => True) (start w0)) with (l := l); auto.
  - exists []. split; [|reflexivity]. unfold accounts. cbn. split; [reflexivity|]. split; [reflexivity|]. split; [|reflexivity]. intros [|k]; discriminate.
  - clear l w tr HR. intros w tr a w' es (cs & HA & HP) _ HE.
    assert (HP' : t_plen (sh_t (wo_sh w')) = t_plen (w_t w0)).
    { destruct (exec_kind _ _ _ _ _ HE) as [(_ & _ & E & _)|[(b & g & _ & E & _)|(k & i & r & r' & es' & _ & _ & E & _)]].
      - congruence.
      - rewrite E. exact HP.
      - rewrite (static_plen _ _ (static_pstep _ _ _ _ _ _ _ E)). exact HP. }
    destruct (accounts_step sha1 (first_only bn) a w tr cs w' es) as (cs' & HA' & _); auto.
    + intros b t g Ht. unfold first_only, fresh, NewPeer. cbn. rewrite Ht, HP. fold bn. unfold holds, ncreated, zlen. cbn.
      repeat split; auto; try lia; try discriminate.
    + intros k i r c s' r' es' Ek Ec _ HX Wr Es.
      eapply first_only_step; eauto. intros. eapply queue_not_empty; eauto.
    + exists cs'. auto.
  - apply Forall_forall. auto.
Qed.

(* ---------- the messages sent were created in the same round ---------- *)
Definition from_round (w : world) (tr : list (nat * event)) (g : nat) (m : msg) : Prop :=
  exists k r, nth_error (wo_peers w) k = Some r /\ r_grp r = g /\ In (k, ECreate m) tr.
Lemma from_round_mono w tr w' es g m : from_round w tr g m ->
  (forall k r, nth_error (wo_peers w) k = Some r -> exists r', nth_error (wo_peers w') k = Some r' /\ r_grp r' = r_grp r) ->
  from_round w' (tr ++ es) g m.
Proof.
  intros (k & r & H1 & H2 & H3) H. destruct (H k r H1) as (r' & E1 & E2). exists k, r'. split; [exact E1|]. split; [congruence|].
  apply in_app_iff. now left.
Qed.
Lemma pstep_req sha1 i s r s' r' es : pstep sha1 i s r = Some (s', r', es) ->
  r_grp r' = r_grp r /\
  (forall g m, In m (sh_q s' g) -> In m (sh_q s g) \/ (g = r_grp r /\ r_req r = Some m)) /\
  (forall m, r_req r' = Some m -> r_req r = Some m \/ In m (sh_q s (r_grp r)) \/ In (ECreate m) es) /\
  (forall m, In (ESent m) es -> is_request m -> r_req r = Some m).
Proof.
  intro HS. assert (K : ~ is_request KeepalivePeerMessage) by discriminate.
  assert (K2 : ~ is_request CreateInterestedMessage) by discriminate.
  step_cases HS;
  try match goal with |- context [handle_body sha1 ?t ?u r ?b] =>
      destruct (handle_body_spec sha1 t u r b _ eq_refl) as (A1 & A2 & A3 & A4 & A5 & A6 & A7 & P);
      rewrite A1, A3; repeat split; auto; intros m [H|[]] _; discriminate H end.
  all: unfold push; cbn [r_grp at_pc with_peer r_req].
  all: try (repeat split; auto; intros m' Hm; cbn in Hm; try (intros; exfalso; tauto); try discriminate;
            repeat (destruct Hm as [Hm|Hm]); try contradiction; try discriminate Hm; inversion Hm; subst; try contradiction; auto; fail).
  - (* from the queue *)
    pose proof (pop_spec (sh_q s (r_grp r))) as HP. rewrite Heqp0 in HP. repeat split; auto.
    + intros g x Hx. cbn in Hx. destruct (Nat.eqb_spec g (r_grp r)) as [->|_]; [|auto]. left. rewrite HP. apply in_app_iff. auto.
    + intros x Hx. inversion Hx; subst. right; left. rewrite HP. apply in_app_iff. right. now left.
    + intros x [].
  - repeat split; auto.
    + intros x Hx. inversion Hx; subst. right; right. now left.
    + intros x [H|[]]; discriminate H.
  - repeat split; auto.
    + intros x Hx. inversion Hx; subst. right; right. right. now left.
    + intros x [H|[H|[]]]; discriminate H.
  - split; [reflexivity|]. split; [|split].
    + intros g x Hx. rewrite Heqo in Hx. cbn in Hx. destruct (Nat.eqb_spec g (r_grp r)) as [->|_]; [|auto].
      apply in_app_iff in Hx. destruct Hx as [Hx|[->|[]]]; auto.
    + intros x Hx. left. congruence.
    + intros x [H|[]]; discriminate H.
  - split; [reflexivity|]. split; [|split].
    + intros g x Hx. destruct (r_req r) as [m'|]; [|auto]. cbn in Hx. destruct (Nat.eqb_spec g (r_grp r)) as [->|_]; [|auto].
      apply in_app_iff in Hx. destruct Hx as [Hx|[->|[]]]; auto.
    + auto.
    + intros x [H|[]]; discriminate H.
Qed.
Lemma kept_peers sha1 a w w' es : exec sha1 a w = (w', es) ->
  forall k r, nth_error (wo_peers w) k = Some r -> exists r', nth_error (wo_peers w') k = Some r' /\ r_grp r' = r_grp r.
Proof.
  intros HE k0 r0 H0. destruct (exec_kind _ _ _ _ _ HE) as [(P & _)|[(b & g & _ & _ & P & _)|(k & i & r & r' & es' & _ & Ek & E & P & _)]]; rewrite P.
  - eauto.
  - exists r0. split; [|reflexivity]. rewrite nth_error_app1; [exact H0|]. apply nth_error_Some. congruence.
  - destruct (Nat.eq_dec k0 k) as [->|Hne].
    + rewrite (nth_upd_same _ _ _ r Ek). exists r'. split; [reflexivity|]. destruct (pstep_req _ _ _ _ _ _ _ E) as [-> _]. congruence.
    + rewrite nth_upd_other by exact Hne. eauto.
Qed.
Lemma requests_created sha1 w0 l w tr : run sha1 l (start w0) = (w, tr) ->
  (forall g m, In m (sh_q (wo_sh w) g) -> from_round w tr g m) /\
  (forall k r m, nth_error (wo_peers w) k = Some r -> r_req r = Some m -> from_round w tr (r_grp r) m) /\
  (forall k m, In (k, ESent m) tr -> is_request m -> exists r, nth_error (wo_peers w) k = Some r /\ from_round w tr (r_grp r) m).
Proof.
  intro HR.
  apply (run_inv sha1 (fun w tr => (forall g m, In m (sh_q (wo_sh w) g) -> from_round w tr g m) /\
     (forall k r m, nth_error (wo_peers w) k = Some r -> r_req r = Some m -> from_round w tr (r_grp r) m) /\
     (forall k m, In (k, ESent m) tr -> is_request m -> exists r, nth_error (wo_peers w) k = Some r /\ from_round w tr (r_grp r) m))
           (fun _ => True) (start w0)) with (l := l); auto.
  - cbn. split; [|split]; intros; try contradiction. destruct k; discriminate.
  - clear l w tr HR. intros w tr a w' es (H1 & H2 & H3) _ HE.
    pose proof (kept_peers _ _ _ _ _ HE) as KP.
    assert (M : forall g m, from_round w tr g m -> from_round w' (tr ++ es) g m) by (intros; eapply from_round_mono; eauto).
    destruct (exec_kind _ _ _ _ _ HE) as [(P & Qs & _ & ->)|[(b & g & _ & S & P & ->)|(k & i & r & r' & es' & _ & Ek & E & P & ->)]].
    + rewrite app_nil_r in *. split; [|split].
      * intros g m. rewrite Qs. auto.
      * intros k r m. rewrite P. eauto.
      * intros k m Hi Hm. destruct (H3 k m Hi Hm) as (r & A & B). exists r. rewrite P. auto.
    + rewrite app_nil_r in *. split; [|split].
      * intros g0 m. rewrite S. auto.
      * intros k r m. rewrite P. intros Hk Hr. destruct (Nat.lt_ge_cases k (length (wo_peers w))) as [Hl|Hl].
        -- rewrite nth_error_app1 in Hk by exact Hl. eauto.
        -- rewrite nth_error_app2 in Hk by exact Hl. destruct (k - length (wo_peers w))%nat as [|[|?]]; cbn in Hk; inversion Hk; subst. discriminate.
      * intros k m Hi Hm. destruct (H3 k m Hi Hm) as (r & A & B). exists r. rewrite P. split; [|auto].
        rewrite nth_error_app1; [exact A|]. apply nth_error_Some. congruence.
    + destruct (pstep_req _ _ _ _ _ _ _ E) as (G & Q1 & Q2 & Q3).
      assert (Ek' : nth_error (wo_peers w') k = Some r') by (rewrite P; eapply nth_upd_same; eauto).
      split; [|split].
      * intros g m Hm. destruct (Q1 g m Hm) as [Hi|[-> Hr]]; eauto.
      * intros k0 r0 m Hk Hr. destruct (Nat.eq_dec k0 k) as [->|Hne].
        -- rewrite Ek' in Hk. inversion Hk; subst r0. rewrite G. destruct (Q2 m Hr) as [Hi|[Hi|Hi]]; eauto.
           exists k, r'. split; [exact Ek'|]. split; [exact G|]. apply in_app_iff. right. apply in_map. exact Hi.
        -- rewrite P, nth_upd_other in Hk by exact Hne. eauto.
      * intros k0 m Hi Hm. apply in_app_iff in Hi. destruct Hi as [Hi|Hi].
        -- destruct (H3 k0 m Hi Hm) as (r0 & A & B). destruct (KP k0 r0 A) as (r1 & A1 & A2). exists r1. split; [exact A1|]. rewrite A2. auto.
        -- apply in_map_iff in Hi. destruct Hi as [e [He Hi]]. inversion He; subst.
           exists r'. split; [exact Ek'|]. rewrite G. apply M. eapply H2; eauto.
  - apply Forall_forall. auto.
Qed.
Lemma in_events k e tr : In (k, e) tr <-> In e (events_of k tr).
Proof.
  unfold events_of. rewrite in_map_iff. split.
  - intro H. exists (k, e). split; [reflexivity|]. apply filter_In. split; [exact H|]. apply Nat.eqb_refl.
  - intros [[k' e'] [E H]]. apply filter_In in H. destruct H as [H1 H2]. cbn in *. apply Nat.eqb_eq in H2. now subst.
Qed.

(* C40, pieces of at least one block *)
Lemma only_piece_zero sha1 w0 l w tr : 131072 <= u64 (t_plen (w_t w0)) -> run sha1 l (start w0) = (w, tr) ->
  (forall k m, In (k, ESent m) tr -> is_request m -> m_index m = 0) /\ (forall k i h, ~ In (k, EClaim i h) tr).
Proof.
  intros Hp HR. destruct (first_only_run _ _ _ _ _ Hp HR) as (cs & L & Z0 & A & _).
  assert (X : forall k r, nth_error (wo_peers w) k = Some r -> first_only (u64 (t_plen (w_t w0)) / BlockLength) r (events_of k tr)).
  { intros k r Hk. destruct (nth_error cs k) as [c|] eqn:Ec; [eapply A; eauto|].
    apply nth_error_None in Ec. assert ((k < length (wo_peers w))%nat) by (apply nth_error_Some; congruence). lia. }
  split.
  - intros k m Hi Hm. destruct (requests_created _ _ _ _ _ HR) as (_ & _ & RC). destruct (RC k m Hi Hm) as (_ & _ & k' & r' & Hk' & _ & Hc).
    destruct (X k' r' Hk') as (_ & _ & _ & _ & _ & _ & HF). rewrite Forall_forall in HF. apply HF.
    apply created_in. apply in_events. exact Hc.
  - intros k i h Hi. destruct (nth_error (wo_peers w) k) as [r|] eqn:Ek.
    + destruct (X k r Ek) as (_ & _ & _ & _ & _ & HC & _).
      assert (In i (claimed (events_of k tr))) by (apply claimed_in; exists h; apply in_events; exact Hi).
      rewrite HC in H. contradiction.
    + apply nth_error_None in Ek. apply in_events in Hi. rewrite Z0 in Hi by exact Ek. contradiction.
Qed.
