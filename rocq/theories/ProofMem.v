From Verif Require Import Base ProofBase ModelBitset ModelMsg ModelTorrent ModelConn ModelPeer ModelSystem ModelMem SpecMsg SpecMem
  ProofMsg ProofConn ProofSystem ProofPeer ProofProgress ProofDisk ProofWitness.

Lemma zsum_app a b : zsum (a ++ b) = zsum a + zsum b.
Proof. unfold zsum. induction a as [|x a IH]; cbn; [reflexivity|]. rewrite IH. lia. Qed.

(* ---------- buffers ---------- *)
Lemma read_full_arriving s : forall acc n b s', 0 <= n -> read_full acc n s = (ROk b, s') ->
  zlen b = zlen acc + n /\ arriving s = arriving s' + n.
Proof.
  induction s as [|e s IH]; intros acc n b s' Hn H; cbn [read_full] in H.
  - destruct (Z.leb_spec n 0); inversion H; subst. lia.
  - destruct (Z.leb_spec n 0); [inversion H; subst; lia|].
    destruct e as [c| |]; try discriminate H. destruct (Z.leb_spec (zlen c) n).
    + apply IH in H; [|lia]. destruct H as [E1 E2]. rewrite zlen_app in E1. unfold arriving in *. cbn [map]. unfold zsum in *. cbn [fold_right]. lia.
    + inversion H; subst. rewrite zlen_app. unfold arriving. cbn [map zsum fold_right].
      pose proof (zlen_nonneg c). rewrite !sub_length by lia. unfold zsum; cbn [fold_right]. lia.
Qed.
Lemma read_full_bytes s : ev_bytes s -> forall acc n b s', Forall is_byte acc -> read_full acc n s = (ROk b, s') -> Forall is_byte b.
Proof.
  intros HB. induction HB as [|e s He HB IH]; intros acc n b s' Ha H; cbn [read_full] in H.
  - destruct (n <=? 0); inversion H; subst; auto.
  - destruct (n <=? 0); [inversion H; subst; auto|]. destruct e as [c| |]; try discriminate H. destruct (zlen c <=? n).
    + eapply IH; [|exact H]. apply Forall_app. auto.
    + inversion H; subst. apply Forall_app. split; [exact Ha|]. apply Forall_forall. intros x Hx. eapply Forall_forall; [exact He|]. eapply sub_in. exact Hx.
Qed.
Lemma allocs_bound s : ev_bytes s -> zsum (allocs s) <= 4 + (2 ^ 32 - 1).
Proof.
  intros HB. unfold allocs. destruct (readExactly 4 s) as [[hdr|e] s1] eqn:E; [|cbn; lia].
  unfold readExactly in E. destruct (read_full_arriving s [] 4 hdr s1 ltac:(lia) E) as [L _]. change (zlen (@nil Z) + 4) with 4 in L.
  assert (F : Forall is_byte hdr) by (eapply read_full_bytes; [exact HB| |exact E]; auto).
  pose proof (be_get_range _ F) as R. rewrite L in R. change (256 ^ 4) with (2 ^ 32) in R. unfold zsum. cbn [fold_right]. lia.
Qed.
Lemma allocs_success s b s' : ev_bytes s -> ReadPeerMessage s = (ROk b, s') -> allocs s = [4; zlen b] /\ arriving s = arriving s' + zsum (allocs s).
Proof.
  intros HB H. unfold allocs. unfold ReadPeerMessage in H. destruct (readExactly 4 s) as [[hdr|e] s1] eqn:E; [|discriminate H].
  unfold readExactly in *. destruct (read_full_arriving s [] 4 hdr s1 ltac:(lia) E) as [L1 A1].
  assert (F : Forall is_byte hdr) by (eapply read_full_bytes; [exact HB| |exact E]; auto).
  pose proof (be_get_range _ F) as R.
  destruct (read_full_arriving s1 [] (be_get hdr) b s' ltac:(lia) H) as [L2 A2]. change (zlen (@nil Z)) with 0 in *. rewrite L2. unfold zsum. cbn [fold_right]. split; [reflexivity|lia].
Qed.

(* ---------- the set of pieces ---------- *)
Lemma bs_set_len b i : 0 <= i -> bs_len (bs_set b i) = Z.max (bs_len b) (i + 1).
Proof.
  intros Hi. unfold bs_set. rewrite <- (Z2Nat.id i) at 2 by lia. generalize (Z.to_nat i) as n. clear. unfold bs_len, zlen.
  intros n. revert b. induction n as [|n IH]; intros [|x b]; cbn [set_nth length]; try lia.
  - specialize (IH []). cbn [length] in IH. lia.
  - specialize (IH b). lia.
Qed.
Lemma bs_from_len ws : bs_len (bs_from ws) = 64 * zlen ws.
Proof.
  unfold bs_len, bs_from. induction ws as [|w ws IH]; [reflexivity|]. cbn [flat_map]. rewrite zlen_app, IH, zlen_cons.
  unfold word_bits, zlen. rewrite map_length, seq_length. lia.
Qed.
Lemma words_of_len n : forall p, zlen (words_of n p) = Z.of_nat n.
Proof. induction n as [|n IH]; intros p; cbn [words_of]; [reflexivity|]. rewrite zlen_cons, IH. lia. Qed.
Lemma createBitset_len p : bs_len (createBitset p) = 64 * ((zlen p + 7) / 8).
Proof.
  unfold createBitset. rewrite bs_from_len, words_of_len. pose proof (zlen_nonneg p).
  pose proof (Z.div_mod (zlen p) 8 ltac:(lia)). pose proof (Z.mod_pos_bound (zlen p) 8 ltac:(lia)).
  assert (E : zlen (pad8 p) = 8 * ((zlen p + 7) / 8)).
  { unfold pad8. destruct (Z.eqb_spec (zlen p mod 8) 0) as [E0|E0]; cbn [negb].
    - rewrite E0 in *. replace ((zlen p + 7) / 8) with (zlen p / 8); [lia|]. apply (Z.div_unique _ _ _ 7); lia.
    - rewrite zlen_app. unfold zlen at 2. rewrite repeat_length, Z2Nat.id by lia.
      replace ((zlen p + 7) / 8) with (zlen p / 8 + 1); [lia|]. apply (Z.div_unique _ _ _ (zlen p mod 8 - 1)); lia. }
  rewrite E. replace (8 * ((zlen p + 7) / 8) / 8) with ((zlen p + 7) / 8) by (rewrite (Z.mul_comm 8), Z.div_mul by lia; reflexivity). rewrite Z2Nat.id; [reflexivity|]. apply Z.div_pos; lia.
Qed.
Lemma handle_body_room sha1 t u r b : Forall is_byte b ->
  bs_len (pr_bits (r_peer (handle_body sha1 t u r b))) = room (bs_len (pr_bits (r_peer r))) (EReadOk b) /\
  (forall u' m, r_pc (handle_body sha1 t u r b) = PPut u' m -> 0 <= m_index m).
Proof.
  intros Hb. split; [|apply (handle_body_bits sha1 t u r b Hb)]. unfold handle_body. destruct b as [|ty pl]; [reflexivity|].
  inversion Hb as [|? ? Hty Hpl]; subst. cbn [room].
  destruct (Z.eqb_spec ty 4) as [->|N4]; [|destruct (Z.eqb_spec ty 5) as [->|N5]].
  - unfold NewPeerMessage. cbn [Z.eqb Pos.eqb HaveT]. destruct (Z.leb_spec 4 (zlen pl)) as [L|L].
    + rewrite uint32_at_ok by lia. change (0 + 4) with 4. cbn [bind handlePeerMessage m_type Z.eqb Pos.eqb KeepaliveT BitfieldT HaveT with_peer r_peer r_pc set_bits pr_bits m_index].
      apply bs_set_len. assert (F : Forall is_byte (sub pl 0 4)) by (apply Forall_forall; intros x Hx; eapply Forall_forall; [exact Hpl|]; eapply sub_in; exact Hx).
      pose proof (be_get_range _ F). lia.
    + rewrite uint32_at_panic by lia. reflexivity.
  - destruct (decode_other 5 pl) as (m & -> & Ht & _ & _ & _ & _ & _ & HB); [lia..|].
    unfold handlePeerMessage. rewrite Ht, HB by reflexivity. cbn [Z.eqb Pos.eqb KeepaliveT BitfieldT with_peer r_peer set_bits pr_bits r_pc].
    apply createBitset_len.
  - destruct (NewPeerMessage (ty :: pl)) as [m| | |] eqn:E; try reflexivity.
    destruct (new_basic _ _ _ E) as (_ & Ht & _). unfold handlePeerMessage, handlePieceMessage. rewrite Ht. unfold BitfieldT, HaveT.
    replace (ty =? 5) with false by lia. replace (ty =? 4) with false by lia.
    repeat match goal with |- context [match ?x with _ => _ end] =>
      lazymatch x with context [match _ with _ => _ end] => fail | _ => destruct x end end; reflexivity.
Qed.

Definition roomy (n0 : Z) (r : rstate) (es : list event) : Prop :=
  (forall b, In (EReadOk b) es -> Forall is_byte b) ->
  bs_len (pr_bits (r_peer r)) = fold_left room es n0 /\ (forall u m, r_pc r = PPut u m -> 0 <= m_index m).
Lemma roomy_step n0 sha1 i s r s' r' es es' : roomy n0 r es -> pstep sha1 i s r = Some (s', r', es') -> roomy n0 r' (es ++ es').
Proof.
  intros HK HS HB. destruct HK as [H1 H2]; [intros b Hb; apply HB, in_app_iff; auto|]. rewrite fold_left_app, <- H1.
  step_cases HS;
    try (match goal with |- context [handle_body sha1 ?t ?u r ?b] =>
      destruct (handle_body_room sha1 t u r b) as [A B]; [apply HB, in_app_iff; right; now left|]; split; [exact A|exact B] end);
    try (split; [reflexivity|]; cbn; try discriminate; try exact H2; repeat match goal with |- context [if ?x then _ else _] => destruct x end; discriminate).
  all: try match goal with H : createPieceMessage _ = _ |- _ => inversion H; subst; clear H end.
  all: try (split; [reflexivity|cbn; discriminate]).
  all: specialize (H2 _ _ eq_refl); split; [|discriminate]; cbn [with_peer r_peer after_put set_bits pr_bits fold_left room]; now apply bs_set_len.
Qed.
Lemma room_run sha1 w0 l w tr k r : run sha1 l (start w0) = (w, tr) -> nth_error (wo_peers w) k = Some r ->
  0 <= t_pnum (w_t w0) < 2 ^ 51 -> (forall b, In (EReadOk b) (events_of k tr) -> Forall is_byte b) ->
  bs_len (pr_bits (r_peer r)) = fold_left room (events_of k tr) (t_pnum (w_t w0)).
Proof.
  intros HR Hk HN HB. revert HB. intros HB. cut (roomy (t_pnum (w_t w0)) r (events_of k tr)); [intros C; apply (C HB)|].
  revert k r Hk HB. cut ((exists l, run sha1 l (start w0) = (w, tr)) /\ (forall k r, nth_error (wo_peers w) k = Some r -> roomy (t_pnum (w_t w0)) r (events_of k tr)) /\
    (forall k, (length (wo_peers w) <= k)%nat -> events_of k tr = [])); [intros (_ & C & _) k r Hk _; auto|].
  apply (run_inv sha1 (fun w tr => (exists l, run sha1 l (start w0) = (w, tr)) /\ (forall k r, nth_error (wo_peers w) k = Some r -> roomy (t_pnum (w_t w0)) r (events_of k tr)) /\
    (forall k, (length (wo_peers w) <= k)%nat -> events_of k tr = [])) (fun _ => True) (start w0)) with (l := l); auto.
  - split; [exists []; reflexivity|]. split; [intros [|k] r H; discriminate H|reflexivity].
  - clear l w tr HR. intros w tr a w' es ((l & HR) & H4 & H5) _ HE. split.
    { exists (l ++ [a]). rewrite run_app, HR. cbn [run]. rewrite HE. now rewrite app_nil_r. }
    pose proof (static_run _ _ _ _ _ HR) as ST.
    destruct (exec_kind _ _ _ _ _ HE) as [(P & Qs & _ & ->)|[(b & g & _ & S & P & ->)|(k & i & r & r' & es' & _ & Ek & E & P & ->)]].
    + rewrite app_nil_r in *. rewrite P. auto.
    + rewrite app_nil_r in *. split.
      * intros k r. rewrite P. intros Hk. destruct (Nat.lt_ge_cases k (length (wo_peers w))) as [Hl|Hl].
        -- rewrite nth_error_app1 in Hk by exact Hl. auto.
        -- rewrite (H5 k Hl). rewrite nth_error_app2 in Hk by exact Hl. destruct (k - length (wo_peers w))%nat as [|[|?]]; cbn in Hk; inversion Hk; subst.
           intros _. split; [|discriminate]. cbn. unfold EmptyBitset. replace (t_pnum (sh_t (wo_sh w))) with (t_pnum (w_t w0)) by (unfold static in ST; congruence).
           unfold bs_len. now apply bs_make_len.
      * intros k. rewrite P, app_length. intros Hk. apply H5. lia.
    + assert (Ek' : nth_error (wo_peers w') k = Some r') by (rewrite P; eapply nth_upd_same; eauto).
      assert (Hlen : (k < length (wo_peers w))%nat) by (apply nth_error_Some; congruence). split.
      * intros k0 r0 Hk. rewrite events_app. destruct (Nat.eq_dec k0 k) as [->|Hne].
        -- rewrite Ek' in Hk. inversion Hk; subst r0. rewrite events_same. eapply roomy_step; eauto.
        -- rewrite events_other, app_nil_r by exact Hne. rewrite P, nth_upd_other in Hk by exact Hne. auto.
      * intros k0 Hk. rewrite P, upd_length in Hk. rewrite events_app, (H5 k0 Hk), events_other by lia. reflexivity.
  - apply Forall_forall. auto.
Qed.
(* if no message names a piece beyond n, the set grows by bitfields only *)
Lemma received_nonneg es : 0 <= received es.
Proof. unfold received, zsum. induction es as [|e es IH]; cbn; [lia|]. destruct e; cbn; try lia. pose proof (zlen_nonneg b). lia. Qed.
Lemma room_bound n es : 0 <= n ->
  (forall p, In (EReadOk (4 :: p)) es -> 4 <= zlen p -> be_get (sub p 0 4) < n) -> (forall m, In (EPut m) es -> m_index m < n) ->
  0 <= fold_left room es n <= n + 48 + 8 * received es.
Proof.
  intros Hn. induction es as [|e es IH] using rev_ind; intros H1 H2; [cbn; lia|].
  destruct IH as [L U]; [intros; apply H1; [apply in_app_iff; auto|auto]|intros; apply H2; apply in_app_iff; auto|].
  rewrite fold_left_app. cbn [fold_left]. pose proof (received_nonneg es).
  replace (received (es ++ [e])) with (received es + match e with EReadOk b => zlen b | _ => 0 end) by (unfold received; rewrite map_app, zsum_app; cbn; lia).
  assert (Hi : In e (es ++ [e])) by (apply in_app_iff; right; now left).
  destruct e as [ | |b| | | |m]; cbn [room]; try lia.
  - destruct b as [|t p]; [change (zlen (@nil Z)) with 0 in *; cbn [room]; lia|]. rewrite zlen_cons. pose proof (zlen_nonneg p).
    destruct (Z.eqb_spec t 4) as [->|]; [destruct (Z.leb_spec 4 (zlen p)); [specialize (H1 p Hi); lia|lia]|].
    destruct (Z.eqb_spec t 5); [|lia]. pose proof (Z.div_mod (zlen p + 7) 8 ltac:(lia)). pose proof (Z.mod_pos_bound (zlen p + 7) 8 ltac:(lia)). lia.
  - specialize (H2 m Hi). lia.
Qed.

Definition far : list action := ASpawn false 0 :: to_read 0 ++ [APeer 0 (rd [4; 255; 255; 255; 255])].
Lemma far_events sha1 : snd (run sha1 far (start (px 4 2))) = [(0%nat, ESent CreateInterestedMessage); (0%nat, EReadOk [4; 255; 255; 255; 255])] /\
  length (wo_peers (fst (run sha1 far (start (px 4 2))))) = 1%nat.
Proof. split; lazy; reflexivity. Qed.
Lemma far_have sha1 : ~ (exists c, c < 2 ^ 31 /\ forall w0 l w tr k r, run sha1 l (start w0) = (w, tr) -> nth_error (wo_peers w) k = Some r ->
    0 <= t_pnum (w_t w0) < 2 ^ 51 -> (forall b, In (EReadOk b) (events_of k tr) -> Forall is_byte b) ->
    bs_len (pr_bits (r_peer r)) <= t_pnum (w_t w0) + c + 8 * received (events_of k tr)).
Proof.
  intros (c & Hc & H). destruct (far_events sha1) as [E1 E2]. destruct (run sha1 far (start (px 4 2))) as [w tr] eqn:E. cbn [fst snd] in E1, E2.
  destruct (wo_peers w) as [|r ps] eqn:Ew; [discriminate E2|].
  assert (Hk : nth_error (wo_peers w) 0 = Some r) by now rewrite Ew.
  assert (Ht : t_pnum (w_t (px 4 2)) = 2) by reflexivity.
  assert (Hb : forall b, In (EReadOk b) (events_of 0 tr) -> Forall is_byte b).
  { subst tr. intros b [Hb|[Hb|[]]]; [discriminate Hb|]. injection Hb as <-. repeat constructor; unfold is_byte; lia. }
  specialize (H _ _ _ _ 0%nat r E Hk ltac:(lia) Hb). rewrite (room_run _ _ _ _ _ 0%nat r E Hk ltac:(lia) Hb) in H. rewrite Ht in H. subst tr.
  change (fold_left room _ 2) with (2 ^ 32) in H. change (received _) with 5 in H. lia.
Qed.
