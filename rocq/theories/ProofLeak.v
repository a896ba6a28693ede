(* Connections to peers are not closed before Stop: C110.                      *)
From Verif Require Import Base ProofBase ModelTracker ModelSystem ProofSystem ProofProgress ModelManager SpecManager SpecLeak ProofManager ProofManager2 ProofManager3 ProofManager4.

(* ---------- who opens and closes ---------- *)
Lemma peer_failed_conns g k : g_conns (peer_failed g k) = g_conns g /\ g_pool (peer_failed g k) = g_pool g.
Proof. unfold peer_failed. destruct (nth_error _ _); auto. Qed.
Lemma after_failure_conns g j k n ips : g_conns (after_failure g j k n ips) = g_conns g /\ g_pool (after_failure g j k n ips) = g_pool g.
Proof. unfold after_failure. destruct (Nat.eqb n 4); [apply peer_failed_conns|auto]. Qed.
Lemma tstep_conns g j c i g' es : tstep g j c i = Some (g', es) ->
  (g_pool g' = None <-> g_pool g = None) /\
  (g_conns g' = g_conns g \/ g_conns g' = g_conns g ++ [true] /\ exists k, es = [GDial j k]).
Proof.
  intros H. destruct c as [| |n|n|[|a ips]|k ips|k n ips|k n ips|k n ips| |]; cbn [tstep] in H.
  - inversion H; subst. split; [tauto|auto].
  - destruct (g_cancel g); inversion H; subst; (split; [tauto|auto]).
  - destruct (i_ann i); inversion H; subst; (split; [tauto|auto]).
  - destruct (i_timer i); [|destruct (g_cancel g); [|discriminate]]; inversion H; subst; (split; [tauto|auto]).
  - inversion H; subst. split; [tauto|auto].
  - unfold AddPeer in H. destruct (g_pool g) as [m|] eqn:Em.
    + destruct (pool_get m (apString a)); inversion H; subst; cbn; rewrite ?Em; (split; [split; discriminate|auto]).
    + inversion H; subst. cbn. rewrite Em. split; [tauto|auto].
  - destruct (g_cancel g); inversion H; subst; [|split; [tauto|auto]].
    destruct (peer_failed_conns g k) as [A B]. cbn. rewrite A, B. split; [tauto|auto].
  - destruct (nth_error (g_peers g) k) as [p|]; [|discriminate]. destruct (i_dial i && _); inversion H; subst.
    + cbn. split; [tauto|]. right. split; [reflexivity|eauto].
    + match goal with |- context [after_failure ?x j k n ips] => destruct (after_failure_conns x j k n ips) as [A B]; rewrite A, B end. cbn. split; [tauto|auto].
  - destruct (i_shake i).
    + destruct (nth_error (g_peers g) k); [|discriminate]. inversion H; subst. split; [tauto|auto].
    + inversion H; subst. destruct (after_failure_conns g j k n ips) as [A B]. rewrite A, B. split; [tauto|auto].
  - destruct (i_timer i); [|destruct (g_cancel g); [|discriminate]]; inversion H; subst; [split; [tauto|auto]|].
    destruct (peer_failed_conns g k) as [A B]. cbn. rewrite A, B. split; [tauto|auto].
  - destruct (i_timer i); [|destruct (g_cancel g); [|discriminate]]; inversion H; subst; (split; [tauto|auto]).
  - discriminate.
Qed.

Definition is_dial (e : gev) : bool := match e with GDial _ _ => true | _ => false end.
Lemma conns_step g a g' es : gexec a g = (g', es) ->
  (g_pool g = None -> g_pool g' = None) /\
  (g_pool g' <> None -> g_conns g' = g_conns g \/ g_conns g' = g_conns g ++ [true]) /\
  (length (g_conns g') <= length (g_conns g) + length (filter is_dial es))%nat.
Proof.
  intros H. unfold gexec in H. destruct (g_panic g); [inversion H; subst; split; [auto|split; [auto|lia]]|].
  destruct a as [n|j i|k| | |].
  - destruct (g_started g); inversion H; subst; (split; [auto|split; [auto|cbn; lia]]).
  - destruct (nth_error (g_trk g) j) as [c|]; [|inversion H; subst; split; [auto|split; [auto|lia]]].
    destruct (tstep g j c i) as [[g2 e2]|] eqn:Et; [|inversion H; subst; split; [auto|split; [auto|lia]]].
    inversion H; subst. destruct (tstep_conns _ _ _ _ _ _ Et) as [A [B|[B [k C]]]].
    + split; [tauto|]. split; [auto|]. rewrite B. lia.
    + split; [tauto|]. split; [auto|]. rewrite B, C, app_length. cbn. lia.
  - destruct (nth_error (g_peers g) k) as [p|]; [|inversion H; subst; split; [auto|split; [auto|lia]]].
    destruct (mp_state p); inversion H; subst; (split; [auto|split; [auto|cbn; lia]]).
  - inversion H; subst. split; [auto|split; [auto|cbn; lia]].
  - destruct (g_stop g); inversion H; subst; [split; [auto|split; [auto|lia]]|]. unfold stop_check.
    destruct (g_pool g) eqn:E; [destruct (g_started g)|]; cbn; rewrite ?E; (split; [auto|split; [auto|lia]]).
  - destruct (g_stop g); inversion H; subst; [|split; [auto|split; [auto|lia]]]. unfold stop_close.
    destruct (close_all _ _ _) as [cs|] eqn:E; cbn; [|split; [auto|split; [auto|lia]]].
    split; [auto|]. split; [congruence|]. rewrite (close_all_length _ _ _ _ E). lia.
Qed.

Lemma all_true_nth (l : list bool) : Forall (eq true) l <-> forall c, (c < length l)%nat -> nth_error l c = Some true.
Proof.
  split.
  - intros H c Hc. destruct (nth_error l c) as [b|] eqn:E; [|apply nth_error_None in E; lia].
    apply nth_error_In in E. rewrite Forall_forall in H. now rewrite <- (H b E).
  - intros H. apply Forall_forall. intros b Hb. apply In_nth_error in Hb as [c Hc]. assert (c < length l)%nat by (apply nth_error_Some; congruence).
    rewrite H in Hc by assumption. congruence.
Qed.
Lemma conns_true n l g tr : grun l (NewMng n) = (g, tr) -> g_pool g <> None -> Forall (eq true) (g_conns g).
Proof.
  intros H. refine (grun_inv (fun g _ => g_pool g <> None -> Forall (eq true) (g_conns g)) (fun _ => True) (NewMng n) _ _ l g tr _ H).
  - constructor.
  - clear. intros g tr a g' es IH _ HE Hp. destruct (conns_step _ _ _ _ HE) as (A & B & _).
    assert (Hg : g_pool g <> None) by tauto. destruct (B Hp) as [->| ->]; [auto|]. apply Forall_app. auto.
  - now apply Forall_forall.
Qed.
Lemma never_closed n l g tr m : grun l (NewMng n) = (g, tr) -> g_pool g = Some m -> forall c, (c < length (g_conns g))%nat -> open g c.
Proof. intros H Hm. apply all_true_nth. eapply conns_true; [exact H|congruence]. Qed.

(* ---------- how many ---------- *)
Definition below (n : nat) (e : gev) : bool := match e with GDial _ k => Nat.ltb k n | _ => false end.
Lemma below_S n tr : length (filter (below (S n)) tr) = (length (filter (below n) tr) + dials n tr)%nat.
Proof.
  unfold dials. induction tr as [|e tr IH]; [reflexivity|]. cbn [filter]. destruct e as [| | |j k|]; cbn [below]; try exact IH.
  destruct (Nat.ltb_spec k (S n)), (Nat.ltb_spec k n), (Nat.eqb_spec k n); cbn [length]; lia.
Qed.
Lemma below_le tr n : (forall k, (dials k tr <= 5)%nat) -> (length (filter (below n) tr) <= 5 * n)%nat.
Proof.
  intros H. induction n as [|n IH].
  - clear. induction tr as [|e tr IH]; [reflexivity|]. cbn [filter]. destruct e; cbn [below]; auto.
  - rewrite below_S. specialize (H n). lia.
Qed.
Lemma dial_all tr n : (forall k, (n <= k)%nat -> dials k tr = 0%nat) -> filter is_dial tr = filter (below n) tr.
Proof.
  intros H. induction tr as [|e tr IH]; [reflexivity|]. cbn [filter].
  assert (H' : forall k, (n <= k)%nat -> dials k tr = 0%nat).
  { intros k Hk. specialize (H k Hk). unfold dials in *. cbn [filter] in H. destruct e; cbn in H; try exact H. destruct (Nat.eqb _ _); cbn in H; lia. }
  rewrite IH by exact H'. destruct e as [| | |j k|]; cbn [is_dial below]; try reflexivity.
  destruct (Nat.ltb_spec k n) as [|G]; [reflexivity|]. specialize (H k G). unfold dials in H. cbn [filter] in H. rewrite Nat.eqb_refl in H. discriminate.
Qed.
Lemma conns_dials n l g tr : grun l (NewMng n) = (g, tr) -> (length (g_conns g) <= length (filter is_dial tr))%nat.
Proof.
  intros H. refine (grun_inv (fun g tr => (length (g_conns g) <= length (filter is_dial tr))%nat) (fun _ => True) (NewMng n) _ _ l g tr _ H).
  - cbn. lia.
  - clear. intros g tr a g' es IH _ HE. destruct (conns_step _ _ _ _ HE) as (_ & _ & C). rewrite filter_app, app_length. lia.
  - now apply Forall_forall.
Qed.
Lemma five_per_peer n l g tr : grun l (NewMng n) = (g, tr) -> open_num g <= zlen (g_conns g) <= 5 * zlen (g_peers g).
Proof.
  intros H. pose proof (ginv_run _ _ _ _ H) as IV. pose proof (conns_dials _ _ _ _ H) as C.
  rewrite (dial_all tr (length (g_peers g)) (iv_fresh _ _ IV)) in C. pose proof (below_le tr (length (g_peers g)) (iv_dials _ _ IV)) as D.
  unfold open_num, zlen. split; [|lia]. apply inj_le. clear. induction (g_conns g) as [|b l IH]; cbn; [lia|]. destruct b; cbn; lia.
Qed.

(* ---------- what Stop leaves ---------- *)
Lemma close_all_spec g m : forall cs cs', close_all g m cs = Some cs' -> forall c, nth_error cs' c = Some true <->
  nth_error cs c = Some true /\ forall e, In e m -> conn_of g (snd e) <> Some c.
Proof.
  induction m as [|[ky k] m IH]; intros cs cs' H c; cbn in H; [inversion H; subst; split; [intros E; split; [exact E|intros e []]|tauto]|].
  destruct (conn_of g k) as [x|] eqn:Ek; [|discriminate]. rewrite (IH _ _ H c). clear IH H. split.
  - intros [A B]. apply nth_upd in A. destruct A as [[_ A]|[A1 A2]]; [discriminate|]. split; [exact A2|]. intros e [<-|He]; [cbn; congruence|auto].
  - intros [A B]. split; [|intros e He; apply B; now right]. rewrite nth_upd_other; [exact A|]. intros ->. apply (B (ky, k)); [now left|exact Ek].
Qed.
Lemma stop_leaves n l g tr : grun l (NewMng n) = (g, tr) -> g_panic g = false -> g_stop g = true -> g_pool g <> None ->
  let g' := fst (gexec XStopClose g) in g_panic g' = false ->
  forall c, open g' c <-> (c < length (g_conns g))%nat /\ forall k p, nth_error (g_peers g) k = Some p -> mp_conn p <> Some c.
Proof.
  intros H Hp Hs Hm g' Hp' c. pose proof (ginv_run _ _ _ _ H) as IV. destruct (g_pool g) as [m|] eqn:Em; [|congruence].
  unfold g' in *. unfold gexec in *. rewrite Hp, Hs in *. cbn [fst] in *. unfold stop_close in *. rewrite Em in *.
  destruct (close_all g m (g_conns g)) as [cs|] eqn:EC; [|discriminate]. unfold open. cbn [g_conns].
  rewrite (close_all_spec _ _ _ _ EC c). pose proof (never_closed _ _ _ _ _ H Em c) as NC. unfold open in NC.
  destruct (iv_pool _ _ IV _ Em) as [_ P2]. split.
  - intros [A B]. split; [apply nth_error_Some; congruence|]. intros k p Hk Hc.
    assert (L : In k (map snd m)). { rewrite P2. apply in_seq. split; [lia|]. cbn. apply nth_error_Some. congruence. }
    apply in_map_iff in L. destruct L as (e & <- & L). apply (B e L). unfold conn_of. now rewrite Hk.
  - intros [A B]. split; [auto|]. intros e He Hc. unfold conn_of in Hc. destruct (nth_error (g_peers g) (snd e)) as [p|] eqn:Ek; [|discriminate]. exact (B _ _ Ek Hc).
Qed.

(* ---------- five of each ---------- *)
(* every attempt reaches the peer, but its answer is no handshake *)
Lemma keeps_failing ips : forall g m, g_pool g = Some m -> g_cancel g = false -> g_panic g = false -> g_trk g = [TInit ips] ->
  NoDup (map apString ips) -> (forall a, In a ips -> ~ In (apString a) (map fst m)) -> ~ In None ips ->
  exists g' tr, grun (repeat (XTrk 0 tdial) (16 * length ips)) g = (g', tr) /\ g_panic g' = false /\ g_pool g' <> None /\
    length (g_conns g') = (length (g_conns g) + 5 * length ips)%nat /\ length (g_peers g') = (length (g_peers g) + length ips)%nat /\
    working g' = working g.
Proof.
  induction ips as [|a ips IH]; intros g m Hm Hc Hp Ht ND NI NN.
  - exists g, []. cbn. repeat split; auto; try lia; congruence.
  - replace (16 * length (a :: ips))%nat with (16 + 16 * length ips)%nat by (cbn; lia). rewrite repeat_app, grun_app.
    inversion ND; subst.
    assert (G : pool_get m (apString a) = None) by (apply pool_get_none, NI; now left).
    destruct (grun (repeat (XTrk 0 tdial) 16) g) as [g1 e1] eqn:E1.
    destruct a as [ap|]; [|exfalso; apply NN; now left].
    set (K := length (g_peers g)) in *. set (ps := g_peers g ++ [mkMp (Some ap) None PsNew]) in *.
    assert (L : nth_error ps K = Some (mkMp (Some ap) None PsNew)) by (unfold ps, K; rewrite nth_error_app2, Nat.sub_diag by lia; reflexivity).
    assert (L2 : forall x, nth_error (upd ps K x) K = Some x) by (intros x; exact (nth_upd_same _ _ _ _ L)).
    assert (R : exists g1 e1 x, grun (repeat (XTrk 0 tdial) 16) g = (g1, e1) /\ g_pool g1 = Some (m ++ [(apString (Some ap), K)]) /\ g_cancel g1 = false /\ g_panic g1 = false /\
      g_trk g1 = [TInit ips] /\ g_peers g1 = upd ps K x /\ mp_state x = PsFailed /\ length (g_conns g1) = (length (g_conns g) + 5)%nat).
    { clear E1 g1 e1 IH. cbn [repeat grun].
      unfold gexec at 1. rewrite Hp, Ht. cbn [nth_error tstep]. unfold AddPeer. rewrite Hm, G. unfold set_trk. cbn [g_limit g_started g_cancel g_pool g_peers g_conns g_trk g_num g_stop g_panic]. rewrite Ht. cbn [upd]. fold K. fold ps.
      do 16 (try unfold gexec at 1; cbn [g_limit g_started g_cancel g_pool g_peers g_conns g_trk g_num g_stop g_panic nth_error tstep]; rewrite ?Hp, ?Hc, ?L, ?L2;
        cbn [g_limit g_started g_cancel g_pool g_peers g_conns g_trk g_num g_stop g_panic tdial i_dial i_shake i_timer andb mp_addr mp_conn mp_state after_failure Nat.eqb set_trk upd];
        unfold after_failure, peer_failed; cbn [Nat.eqb g_limit g_started g_cancel g_pool g_peers g_conns g_trk g_num g_stop g_panic set_trk set_peers set_num]; rewrite ?L, ?L2, ?upd_twice;
        cbn [g_limit g_started g_cancel g_pool g_peers g_conns g_trk g_num g_stop g_panic set_trk set_peers set_num upd mp_addr mp_conn mp_state]; rewrite ?upd_twice).
      eexists _, _, _. split; [reflexivity|]. unfold set_trk, set_num, set_peers. cbn [upd g_limit g_started g_cancel g_pool g_peers g_conns g_trk g_num g_stop g_panic].
      repeat (split; [first [assumption|reflexivity]|]). rewrite !app_length. cbn [length]. lia. }
    destruct R as (g2 & e2 & x & R0 & R1 & R2 & R3 & R4 & R5 & R6 & R7). rewrite R0 in E1. inversion E1; subst g2 e2. clear E1.
    destruct (IH g1 _ R1 R2 R3 R4) as (g' & tr & S1 & S2 & S3 & S4 & S5 & S6); [assumption| |intros X; apply NN; now right|].
    + intros b Hb. rewrite map_app. intros X. apply in_app_iff in X. destruct X as [X|[X|[]]]; [eapply NI; [right; exact Hb|exact X]|].
      apply H1. apply in_map_iff. exists b. split; [symmetry; exact X|exact Hb].
    + rewrite S1. eexists _, _. split; [reflexivity|]. split; [exact S2|]. split; [exact S3|]. split; [rewrite S4, R7; cbn; lia|]. split.
      * rewrite S5, R5, upd_length. unfold ps. rewrite app_length. cbn. lia.
      * rewrite S6. unfold working. rewrite R5. unfold ps, K. clear - R6. f_equal.
        assert (E : upd (g_peers g ++ [mkMp (Some ap) None PsNew]) (length (g_peers g)) x = g_peers g ++ [x]) by (induction (g_peers g) as [|y l IH]; cbn; [reflexivity|now rewrite IH]).
        rewrite E, filter_app. cbn. unfold at_work at 2. rewrite R6. now rewrite app_nil_r.
Qed.
Lemma five_reached limit n : exists l g tr, Forall act_ok l /\ grun l (NewMng limit) = (g, tr) /\ g_panic g = false /\
  zlen (g_peers g) = Z.of_nat n /\ open_num g = 5 * Z.of_nat n /\ working g = 0.
Proof.
  destruct (many_ok n) as (M1 & M2 & M3).
  destruct (grun [XDownload 1; XTrk 0 tgo; XTrk 0 tgo; XTrk 0 (told (many n))] (NewMng limit)) as [g0 e0] eqn:E0.
  assert (Q : g_pool g0 = Some [] /\ g_cancel g0 = false /\ g_panic g0 = false /\ g_trk g0 = [TInit (many n)] /\ g_conns g0 = [] /\ g_peers g0 = []) by (cbn in E0; inversion E0; auto 10).
  destruct Q as (Q1 & Q2 & Q3 & Q4 & Q5 & Q6). destruct (keeps_failing (many n) g0 [] Q1 Q2 Q3 Q4 M2) as (g & tr & R & P1 & P2 & P3 & P4 & P5); [intros ? ? []|exact M3|].
  assert (HR : grun ([XDownload 1; XTrk 0 tgo; XTrk 0 tgo; XTrk 0 (told (many n))] ++ repeat (XTrk 0 tdial) (16 * length (many n))) (NewMng limit) = (g, e0 ++ tr)).
  { rewrite grun_app, E0, R. reflexivity. }
  assert (Lm : length (many n) = n) by (unfold many; now rewrite map_length, seq_length).
  exists ([XDownload 1; XTrk 0 tgo; XTrk 0 tgo; XTrk 0 (told (many n))] ++ repeat (XTrk 0 tdial) (16 * length (many n))), g, (e0 ++ tr).
  split; [|split; [exact HR|split; [exact P1|split; [|split]]]].
  - apply Forall_app. split.
    + repeat constructor; cbn; try discriminate. intros ips E. inversion E; subst. exact M1.
    + apply Forall_forall. intros a Ha. apply repeat_spec in Ha. subst. cbn. discriminate.
  - unfold zlen. rewrite P4, Q6, Lm. reflexivity.
  - pose proof (conns_true _ _ _ _ HR P2) as F. unfold open_num.
    assert (E : filter (fun b : bool => b) (g_conns g) = g_conns g). { clear - F. induction (g_conns g) as [|b l IH]; [reflexivity|]. inversion F; subst. cbn. now rewrite IH. }
    rewrite E. unfold zlen. rewrite P3, Q5, Lm. cbn [length Nat.add]. lia.
  - rewrite P5. unfold working. rewrite Q6. reflexivity.
Qed.

Lemma one_each_refuted : ~ (forall n l g tr, Forall act_ok l -> grun l (NewMng n) = (g, tr) -> g_panic g = false -> open_num g <= zlen (g_peers g)).
Proof.
  intros H. destruct (five_reached 30 1) as (l & g & tr & A & B & C & D & E & _). specialize (H 30 l g tr A B C). lia.
Qed.
(* a peer whose Run has ended keeps its connection *)
Lemma only_used_refuted : ~ (forall n l g tr, Forall act_ok l -> grun l (NewMng n) = (g, tr) -> g_panic g = false -> forall c, open g c -> used g c).
Proof.
  intros H. destruct (grun (one_peer ++ [XRunEnd 0]) (NewMng 30)) as [g tr] eqn:E.
  specialize (H 30 (one_peer ++ [XRunEnd 0]) g tr).
  assert (HB : Forall act_ok (one_peer ++ [XRunEnd 0])) by (apply Forall_app; split; [exact one_peer_ok|repeat constructor]).
  vm_compute in E. inversion E; subst g tr; clear E.
  destruct (H HB eq_refl eq_refl 0%nat eq_refl) as (k & p & H1 & _ & H2). destruct k as [|[|?]]; inversion H1; subst. destruct H2; discriminate.
Qed.
