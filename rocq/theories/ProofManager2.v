(* Lemmas about the pool of peers, continued.                                  *)
From Verif Require Import Base ProofBase SpecBencode ProofBencodeMore ModelTracker ModelSystem ModelManager SpecManager ProofSystem ProofProgress ProofManager.

(* ---------- the string of an address tells the address ---------- *)
Lemma utoa_inj a b : 0 <= a -> 0 <= b -> utoa a = utoa b -> a = b.
Proof. intros Ha Hb H. destruct (utoa_spec a Ha) as (_ & A & _). destruct (utoa_spec b Hb) as (_ & B & _). congruence. Qed.
Lemma utoa_no n c : 0 <= n -> ~ (48 <= c <= 57) -> ~ In c (utoa n).
Proof. intros Hn Hc HI. destruct (utoa_spec n Hn) as (D & _). unfold digits in D. rewrite Forall_forall in D. apply D in HI. unfold digit in HI. lia. Qed.
Lemma cut_first (c : Z) a b a' b' : ~ In c a -> ~ In c a' -> a ++ c :: b = a' ++ c :: b' -> a = a' /\ b = b'.
Proof.
  revert a'. induction a as [|x a IH]; intros [|y a'] N N' H; cbn in *; inversion H; subst; auto; try (exfalso; auto; fail).
  destruct (IH a') as [-> ->]; auto.
Qed.
Lemma cut_last (c : Z) a b a' b' : ~ In c b -> ~ In c b' -> a ++ c :: b = a' ++ c :: b' -> a = a' /\ b = b'.
Proof.
  intros N N' H. apply (f_equal (@rev Z)) in H. rewrite !rev_app_distr in H. cbn in H. rewrite <- !app_assoc in H. cbn in H.
  destruct (cut_first c (rev b) (rev a) (rev b') (rev a')) as [A B]; [now rewrite <- in_rev..|exact H|].
  apply (f_equal (@rev Z)) in A, B. rewrite !rev_involutive in *. auto.
Qed.
Lemma dotted_inj b b' : length b = 4%nat -> length b' = 4%nat -> Forall is_byte b -> Forall is_byte b' -> dotted b = dotted b' -> b = b'.
Proof.
  destruct b as [|x [|y [|z [|t [|]]]]]; try discriminate. destruct b' as [|x' [|y' [|z' [|t' [|]]]]]; try discriminate.
  intros _ _ H H' E. cbn [dotted] in E. unfold is_byte in *.
  repeat match goal with H : Forall _ (_ :: _) |- _ => inversion H; subst; clear H end.
  apply cut_first in E; [|apply utoa_no; lia..]. destruct E as [E1 E].
  apply cut_first in E; [|apply utoa_no; lia..]. destruct E as [E2 E].
  apply cut_first in E; [|apply utoa_no; lia..]. destruct E as [E3 E4].
  apply utoa_inj in E1, E2, E3, E4; try lia. now subst.
Qed.
Lemma dotted_head b p c s : length b = 4%nat -> Forall is_byte b -> dotted b ++ p = c :: s -> 48 <= c <= 57.
Proof.
  destruct b as [|x [|y [|z [|t [|]]]]]; try discriminate. intros _ H E. inversion H; subst. cbn [dotted] in E. unfold is_byte in *.
  destruct (utoa_spec x) as (D & _ & N); [lia|]. destruct (utoa x) as [|d l]; [contradiction|]. inversion D; subst. cbn in E. inversion E; subst. unfold digit in *. lia.
Qed.
Lemma apString_inj a b : ap_ok a -> ap_ok b -> apString a = apString b -> a = b.
Proof.
  destruct a as [[[x|x] p]|], b as [[[y|y] q]|]; cbn [ap_ok apString]; intros Ha Hb E; try reflexivity.
  - destruct Ha as (L1 & B1 & P1), Hb as (L2 & B2 & P2).
    assert (N : forall z, length z = 4%nat -> Forall is_byte z -> ~ In 58 (dotted z)).
    { intros z L B. destruct z as [|z1 [|z2 [|z3 [|z4 [|]]]]]; try discriminate. cbn [dotted]. unfold is_byte in B.
      repeat match goal with H : Forall _ (_ :: _) |- _ => inversion H; subst; clear H end.
      rewrite !in_app_iff. cbn. rewrite !in_app_iff. cbn. rewrite !in_app_iff. cbn.
      intros X. repeat (destruct X as [X|X]; try lia); revert X; apply utoa_no; lia. }
    apply cut_first in E; [|apply N; assumption..]. destruct E as [E1 E2]. apply utoa_inj in E2; [|lia..]. apply dotted_inj in E1; try assumption. now subst.
  - exfalso. apply dotted_head in E; [lia|tauto|tauto].
  - exfalso. destruct Ha as (L & B & _). change (str "invalid AddrPort") with (105 :: str "nvalid AddrPort") in E. apply dotted_head in E; [lia|assumption..].
  - exfalso. symmetry in E. apply dotted_head in E; [lia|tauto|tauto].
  - assert (R : forall (t : bytes) n, 91 :: t ++ 93 :: 58 :: utoa n = (91 :: t ++ [93]) ++ 58 :: utoa n) by (intros; cbn; now rewrite <- app_assoc).
    rewrite !R in E. apply cut_last in E; [|apply utoa_no; lia..]. destruct E as [E1 E2].
    apply utoa_inj in E2; [|lia..]. inversion E1. apply app_inj_tail in H0. destruct H0 as [-> _]. now subst.
  - discriminate.
  - exfalso. destruct Hb as (L & B & _). change (str "invalid AddrPort") with (105 :: str "nvalid AddrPort") in E. symmetry in E. apply dotted_head in E; [lia|assumption..].
  - discriminate.
Qed.

(* ---------- C51 ---------- *)
(* all addresses are well formed *)
Definition pc_ips (c : tpc) : list addrport := match c with TInit l | TPStart _ l | TPDial _ _ l | TPShake _ _ l | TPBack _ _ l => l | _ => [] end.
Definition addrs_ok (g : mgr) : Prop :=
  Forall (fun p => ap_ok (mp_addr p)) (g_peers g) /\ forall j c, nth_error (g_trk g) j = Some c -> Forall ap_ok (pc_ips c).
Lemma upd_forall {A} (P : A -> Prop) l k x : Forall P l -> P x -> Forall P (upd l k x).
Proof. revert k. induction l as [|y l IH]; intros [|k] H Hx; cbn; inversion H; subst; auto. Qed.
Lemma forall_nth {A} (P : A -> Prop) l k x : Forall P l -> nth_error l k = Some x -> P x.
Proof. intros H E. rewrite Forall_forall in H. apply H. eapply nth_error_In; eassumption. Qed.
Lemma peer_failed_shape g k : g_peers (peer_failed g k) = g_peers g \/
  exists p, nth_error (g_peers g) k = Some p /\ g_peers (peer_failed g k) = upd (g_peers g) k (mkMp (mp_addr p) (mp_conn p) PsFailed).
Proof. unfold peer_failed. destruct (nth_error (g_peers g) k) eqn:E; [right; eauto|now left]. Qed.
Lemma peer_failed_trk g k : g_trk (peer_failed g k) = g_trk g.
Proof. unfold peer_failed. destruct (nth_error _ _); reflexivity. Qed.
Lemma tstep_addrs g j c i g' es : addrs_ok g -> nth_error (g_trk g) j = Some c -> act_ok (XTrk j i) -> tstep g j c i = Some (g', es) -> addrs_ok g'.
Proof.
  intros [A1 A2] Hj HA H. pose proof (A2 _ _ Hj) as AC. cbn in HA.
  assert (Q : forall g2 c', Forall (fun p => ap_ok (mp_addr p)) (g_peers g2) -> g_trk g2 = g_trk g -> Forall ap_ok (pc_ips c') -> addrs_ok (set_trk g2 j c')).
  { intros g2 c' B1 B2 B3. split; [exact B1|]. cbn. intros j0 c0 X. rewrite B2 in X. apply nth_upd in X. destruct X as [[-> ->]|[_ X]]; eauto. }
  assert (PF : forall g2 k, Forall (fun p => ap_ok (mp_addr p)) (g_peers g2) -> Forall (fun p => ap_ok (mp_addr p)) (g_peers (peer_failed g2 k))).
  { intros g2 k B. destruct (peer_failed_shape g2 k) as [->|(p & E & ->)]; [exact B|]. apply upd_forall; [exact B|]. cbn. eapply (forall_nth (fun p => ap_ok (mp_addr p))); eassumption. }
  assert (AF : forall g2 k n ips, Forall (fun p => ap_ok (mp_addr p)) (g_peers g2) -> g_trk g2 = g_trk g -> Forall ap_ok ips -> addrs_ok (after_failure g2 j k n ips)).
  { intros. unfold after_failure. destruct (Nat.eqb n 4); apply Q; auto. now rewrite peer_failed_trk. }
  assert (UP : forall k p x s, nth_error (g_peers g) k = Some p -> Forall (fun p => ap_ok (mp_addr p)) (upd (g_peers g) k (mkMp (mp_addr p) x s))).
  { intros k p x s E. apply upd_forall; [exact A1|]. cbn. eapply (forall_nth (fun p => ap_ok (mp_addr p))); eassumption. }
  destruct c as [| |n|n|[|a ips]|k ips|k n ips|k n ips|k n ips| |]; cbn [tstep pc_ips] in *.
  - inversion H; subst. apply Q; auto. destruct (i_new i); constructor.
  - destruct (g_cancel g); inversion H; subst; apply Q; auto; constructor.
  - destruct (i_ann i) eqn:Ei; inversion H; subst; try (apply Q; auto).
    + destruct (Nat.eqb n 4); constructor.
    + destruct (Nat.eqb n 4); [destruct (g_cancel g)|]; constructor.
    + split; [exact A1|exact A2].
  - destruct (i_timer i); [|destruct (g_cancel g); [|discriminate]]; inversion H; subst; apply Q; auto; constructor.
  - inversion H; subst. apply Q; auto; constructor.
  - inversion AC; subst. unfold AddPeer in H. destruct (g_pool g) as [m|].
    + destruct (pool_get m (apString a)); inversion H; subst; apply Q; cbn; auto. apply Forall_app. split; [exact A1|]. constructor; [assumption|constructor].
    + inversion H; subst. split; [exact A1|exact A2].
  - destruct (g_cancel g); inversion H; subst; apply Q; auto. now rewrite peer_failed_trk.
  - destruct (nth_error (g_peers g) k) as [p|] eqn:Ek; [|discriminate]. destruct (i_dial i && _); inversion H; subst.
    + split; cbn; [eauto|]. intros j0 c0 X. apply nth_upd in X. destruct X as [[-> ->]|[_ X]]; eauto.
    + apply AF; cbn; auto.
  - destruct (i_shake i); [destruct (nth_error (g_peers g) k) as [p|] eqn:Ek; [|discriminate]|]; inversion H; subst; [apply Q; cbn; auto|apply AF; auto].
  - destruct (i_timer i); [|destruct (g_cancel g); [|discriminate]]; inversion H; subst; apply Q; auto. now rewrite peer_failed_trk.
  - destruct (i_timer i); [|destruct (g_cancel g); [|discriminate]]; inversion H; subst; apply Q; auto; constructor.
  - discriminate.
Qed.
Lemma addrs_run n l g tr : Forall act_ok l -> grun l (NewMng n) = (g, tr) -> addrs_ok g.
Proof.
  intros HB. refine (grun_inv (fun g _ => addrs_ok g) act_ok (NewMng n) _ _ l g tr HB); [split; [constructor|intros [|] ? X; discriminate X]|].
  clear. intros g tr a g' es A HA H. unfold gexec in H. destruct (g_panic g); [inversion H; subst; assumption|].
  destruct a as [n|j i|k| | |].
  - destruct (g_started g); inversion H; subst; [assumption|]. destruct A as [A1 A2]. split; [exact A1|]. cbn. intros j c X. apply nth_error_In, repeat_spec in X. subst. constructor.
  - destruct (nth_error (g_trk g) j) as [c|] eqn:Ej; [|inversion H; subst; assumption]. destruct (tstep g j c i) as [[g2 e2]|] eqn:Et; inversion H; subst; [|assumption].
    eapply tstep_addrs; eassumption.
  - destruct (nth_error (g_peers g) k) as [p|] eqn:Ek; [|inversion H; subst; assumption]. destruct (mp_state p); inversion H; subst; try assumption.
    destruct A as [A1 A2]. split; [|exact A2]. cbn. apply upd_forall; [exact A1|]. cbn. eapply (forall_nth (fun p => ap_ok (mp_addr p))); eassumption.
  - inversion H; subst. exact A.
  - destruct (g_stop g); inversion H; subst; [assumption|]. unfold stop_check. destruct (g_pool g); [destruct (g_started g)|]; exact A.
  - destruct (g_stop g); inversion H; subst; [|assumption]. unfold stop_close. destruct (close_all _ _ _); exact A.
Qed.
(* no address is added twice in a whole run, and no key *)
Lemma added_once n l g tr : grun l (NewMng n) = (g, tr) -> NoDup (map apString (added tr)) /\ NoDup (added tr).
Proof.
  intros H. pose proof (ginv_run _ _ _ _ H) as IV. rewrite (iv_added _ _ IV), map_map. split; [exact (iv_nodup _ _ IV)|].
  apply (NoDup_map_inv apString). rewrite map_map. exact (iv_nodup _ _ IV).
Qed.
(* the pool holds exactly the added addresses, each once *)
Lemma pool_is_added n l g tr m : grun l (NewMng n) = (g, tr) -> g_pool g = Some m ->
  NoDup (map fst m) /\ map fst m = map apString (added tr) /\ forall a, in_pool g a <-> In a (added tr).
Proof.
  intros H Hm. pose proof (ginv_run _ _ _ _ H) as IV. destruct (iv_pool _ _ IV _ Hm) as [P1 P2]. pose proof (iv_nodup _ _ IV) as N. pose proof (iv_added _ _ IV) as A.
  split; [now rewrite P1|]. split; [rewrite P1, A, map_map; reflexivity|]. intros a. rewrite A. split.
  - intros (m' & key & k & p & _ & _ & E & <-). apply in_map. eapply nth_error_In; eassumption.
  - intros X. apply in_map_iff in X. destruct X as (p & <- & X). apply In_nth_error in X. destruct X as [k X].
    assert (L : In k (map snd m)). { rewrite P2. apply in_seq. split; [lia|]. cbn. apply nth_error_Some. congruence. }
    apply in_map_iff in L. destruct L as ([ky k'] & E & L). cbn in E. subst k'. exists m, ky, k, p. auto.
Qed.
(* AddPeer's answer *)
Lemma add_peer_iff n l g tr m a : Forall act_ok l -> ap_ok a -> grun l (NewMng n) = (g, tr) -> g_pool g = Some m ->
  exists g' b, AddPeer g a = Ok (g', b) /\ (b = true <-> ~ in_pool g a) /\ (b = false -> g' = g) /\ in_pool g' a /\ (forall a', in_pool g' a' -> a' = a \/ in_pool g a').
Proof.
  intros HB Ha H Hm. pose proof (ginv_run _ _ _ _ H) as IV. pose proof (addrs_run _ _ _ _ HB H) as [AO _].
  destruct (iv_pool _ _ IV _ Hm) as [P1 P2].
  assert (K : pool_get m (apString a) = None <-> ~ in_pool g a).
  { rewrite pool_get_none, P1. split.
    - intros N (m' & key & k & p & _ & _ & E & <-). apply N. apply in_map_iff. exists p. split; [reflexivity|]. eapply nth_error_In; eassumption.
    - intros N X. apply N. apply in_map_iff in X. destruct X as (p & E & X). apply (pool_is_added _ _ _ _ _ H Hm). rewrite (iv_added _ _ IV).
      unfold key in E. apply apString_inj in E; [subst; now apply in_map| |exact Ha]. rewrite Forall_forall in AO. now apply AO. }
  unfold AddPeer. rewrite Hm. destruct (pool_get m (apString a)) as [v|] eqn:E.
  - exists g, false. split; [reflexivity|]. split; [split; [discriminate|intros X; apply K in X; discriminate]|]. split; [reflexivity|]. split; [|auto].
    apply (pool_is_added _ _ _ _ _ H Hm).
    assert (X : ~ ~ In (apString a) (map fst m)) by (rewrite <- pool_get_none; congruence).
    destruct (in_dec (list_eq_dec Z.eq_dec) (apString a) (map fst m)) as [Y|Y]; [|contradiction]. rewrite P1 in Y. apply in_map_iff in Y. destruct Y as (p & E2 & Y).
    rewrite (iv_added _ _ IV). unfold key in E2. apply apString_inj in E2; [subst; now apply in_map| |exact Ha]. rewrite Forall_forall in AO. now apply AO.
  - eexists _, true. split; [reflexivity|]. split; [split; [intros _; now apply K|reflexivity]|]. split; [discriminate|]. split.
    + eexists _, (apString a), (length (g_peers g)), (mkMp a None PsNew). cbn. split; [reflexivity|]. split; [apply in_app_iff; right; now left|].
      rewrite nth_error_app2, Nat.sub_diag by lia. auto.
    + intros a' (m' & ky & k & p & E1 & E2 & E3 & E4). cbn in *. inversion E1; subst m'. apply in_app_iff in E2. destruct E2 as [E2|[E2|[]]].
      * right. exists m, ky, k, p. repeat split; try assumption. rewrite nth_error_app1 in E3; [exact E3|].
        assert (In k (map snd m)) by (apply in_map_iff; exists (ky, k); auto). rewrite P2 in H0. apply in_seq in H0. lia.
      * inversion E2; subst k. rewrite nth_error_app2, Nat.sub_diag in E3 by lia. cbn in E3. inversion E3; subst. left. reflexivity.
Qed.
