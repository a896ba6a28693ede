(* Lemmas for C121.                                                            *)
From Verif Require Import Base ProofBase ModelBitset ModelMsg ModelTorrent ModelConn ModelStats ModelPeer ModelSystem ModelTracker ModelManager ModelClient
  SpecPeer SpecTracker SpecManager SpecClient SpecProgram SpecAgain ProofSystem ProofManager ProofManager2 ProofOffer ProofProgress ProofWitness
  ProofClient ProofClient2 ProofClient3 ProofClient4 ProofClient5 ProofClient6.

(* ---------- how far it is to the next announce ---------- *)
Definition tm (c : tpc) (L : nat) : nat :=
  match c with
  | TNew => 6 | TStart => 5 | TTry _ => 4 - L | TBack _ => 5 | TWait => 6 | TEnd => 0
  | TInit ips => 7 + 20 * length ips
  | TPStart _ ips => 7 + 20 * length ips + 17
  | TPDial _ n ips => 7 + 20 * length ips + (16 - 3 * n)
  | TPShake _ n ips => 7 + 20 * length ips + (15 - 3 * n)
  | TPBack _ n ips => 7 + 20 * length ips + (14 - 3 * n)
  end.
Definition over (c : tpc) : Prop := match c with TNew | TTry _ | TEnd => True | _ => False end.
Lemma peer_failed_trk g k : g_trk (peer_failed g k) = g_trk g.
Proof. unfold peer_failed. destruct (nth_error (g_peers g) k); reflexivity. Qed.
Lemma after_failure_need g j k n ips c : nth_error (g_trk g) j = Some c -> (n <= 4)%nat ->
  exists c', nth_error (g_trk (after_failure g j k n ips)) j = Some c' /\ c' <> TEnd /\ c' <> TNew /\ (tm c' 0 <= 7 + 20 * length ips + (14 - 3 * n))%nat.
Proof.
  intros H Hn. unfold after_failure. destruct (Nat.eqb_spec n 4).
  - exists (TInit ips). split; [eapply set_trk_nth; rewrite peer_failed_trk; exact H|]. repeat split; try discriminate. cbn [tm length]. lia.
  - exists (TPBack k n ips). split; [eapply set_trk_nth; exact H|]. repeat split; try discriminate. cbn [tm length]. lia.
Qed.
Lemma tstep_need g tr j c i g' es : ginv g tr -> g_cancel g = false -> nth_error (g_trk g) j = Some c -> ~ over c -> tstep g j c i = Some (g', es) ->
  (g_panic g' = true /\ nth_error (g_trk g') j = Some c) \/ exists c', nth_error (g_trk g') j = Some c' /\ c' <> TEnd /\ c' <> TNew /\ (tm c' 0 < tm c 0)%nat.
Proof.
  intros IV HC HJ HO H. pose proof (iv_pc _ _ IV _ _ HJ) as HP. destruct c as [| |n|n|[|a ips]|k ips|k n ips|k n ips|k n ips| |]; cbn [over] in HO; try tauto; cbn [tstep] in H; cbn [pcok] in HP.
  - rewrite HC in H. inversion H; subst. right. exists (TTry 0). split; [eapply set_trk_nth; exact HJ|]. repeat split; try discriminate. cbn [tm length]. lia.
  - destruct (i_timer i); [|rewrite HC in H; discriminate]. inversion H; subst. right. exists (TTry (S n)). split; [eapply set_trk_nth; exact HJ|]. repeat split; try discriminate. cbn [tm length]. lia.
  - inversion H; subst. right. exists TWait. split; [eapply set_trk_nth; exact HJ|]. repeat split; try discriminate. cbn [tm length]. lia.
  - destruct (AddPeer g a) as [[g1 [|]]| | |] eqn:EA; inversion H; subst.
    + right. exists (TPStart (length (g_peers g)) ips). split; [|repeat split; try discriminate; cbn [tm length]; lia].
      unfold AddPeer in EA. destruct (g_pool g) as [m|]; [|discriminate]. destruct (pool_get m (apString a)); inversion EA; subst. cbn. eapply nth_upd_same; exact HJ.
    + right. exists (TInit ips). split; [|repeat split; try discriminate; cbn [tm length]; lia].
      unfold AddPeer in EA. destruct (g_pool g) as [m|]; [|discriminate]. destruct (pool_get m (apString a)); inversion EA; subst. eapply set_trk_nth; exact HJ.
    + now left. + now left. + now left.
  - rewrite HC in H. inversion H; subst. right. exists (TPDial k 0 ips). split; [eapply set_trk_nth; exact HJ|]. repeat split; try discriminate. cbn [tm length]. lia.
  - destruct (nth_error (g_peers g) k) as [p|]; [|discriminate]. destruct (i_dial i && _); inversion H; subst; right.
    + exists (TPShake k n ips). split; [cbn; eapply nth_upd_same; exact HJ|]. repeat split; try discriminate. cbn [tm length]. lia.
    + destruct (after_failure_need (set_peers g (upd (g_peers g) k (mkMp (mp_addr p) None (mp_state p)))) j k n ips _ HJ HP) as (c' & X1 & X2 & X3 & X4).
      exists c'. repeat split; try assumption. cbn [tm]. lia.
  - destruct (i_shake i).
    + destruct (nth_error (g_peers g) k) as [p|]; [|discriminate]. inversion H; subst. right. exists (TInit ips). split; [eapply set_trk_nth; exact HJ|]. repeat split; try discriminate. cbn [tm length]. lia.
    + inversion H; subst. right. destruct (after_failure_need g j k n ips _ HJ HP) as (c' & X1 & X2 & X3 & X4). exists c'. repeat split; try assumption. cbn [tm]. lia.
  - destruct (i_timer i); [|rewrite HC in H; discriminate]. inversion H; subst. right. exists (TPDial k (S n) ips). split; [eapply set_trk_nth; exact HJ|]. repeat split; try discriminate. cbn [tm length]. lia.
  - destruct (i_timer i); [|rewrite HC in H; discriminate]. inversion H; subst. right. exists TStart. split; [eapply set_trk_nth; exact HJ|]. repeat split; try discriminate. cbn [tm length]. lia.
Qed.
Lemma tstep_some g tr j c i : ginv g tr -> nth_error (g_trk g) j = Some c -> c <> TEnd -> i_timer i = true -> tstep g j c i <> None.
Proof.
  intros IV HJ HE HT. destruct c as [| |n|n|[|a ips]|k ips|k n ips|k n ips|k n ips| |]; cbn [tstep]; try discriminate; try congruence; try (rewrite HT; discriminate).
  - destruct (g_cancel g); discriminate.
  - destruct (i_ann i); discriminate.
  - destruct (AddPeer g a) as [[g1 [|]]| | |]; discriminate.
  - destruct (g_cancel g); discriminate.
  - destruct (iv_own _ _ IV j _ k HJ eq_refl) as (p & -> & _). destruct (i_dial i && _); discriminate.
  - destruct (iv_own _ _ IV j _ k HJ eq_refl) as (p & -> & _). destruct (i_shake i); discriminate.
Qed.

(* ---------- one tracker of the client ---------- *)
Definition serves (cf : conf) (u : bytes) (t : trk) : Prop := match t with TrHttp _ _ _ _ => http_url cf u | TrUdp _ => udp_url cf u | TrNone => False end.
Definition going (cf : conf) (u : bytes) (c : client) (j : nat) (pc : tpc) (x : ctr) : Prop :=
  nth_error (g_trk (c_mgr c)) j = Some pc /\ nth_error (c_trk c) j = Some x /\ ct_url x = u /\ (length (ct_loads x) <= 3)%nat /\ pc <> TEnd /\ (pc <> TNew -> serves cf u (ct_trk x)).
Definition of_trk (j : nat) (a : cact) : Prop := match a with KTrk i _ | KLoad i | KAnn i _ => i = j | _ => False end.
Lemma other_step cf a c c' es tr j pc x : ginv (c_mgr c) tr -> cexec cf a c = (c', es) -> ~ of_trk j a ->
  nth_error (g_trk (c_mgr c)) j = Some pc -> nth_error (c_trk c) j = Some x -> nth_error (g_trk (c_mgr c')) j = Some pc /\ nth_error (c_trk c') j = Some x.
Proof.
  intros IV HE HN HP HX. apply cexec_move in HE. destruct HE as [[-> ->]|(_ & _ & M)]; [now split|].
  assert (MG : forall ga, (forall i, ga <> XTrk j i) -> nth_error (g_trk (fst (gexec ga (c_mgr c)))) j = Some pc).
  { intros ga HA. destruct (gexec ga (c_mgr c)) as [g1 e1] eqn:G. eapply gexec_keep; eauto. }
  inversion M; subst; clear M; cbn [of_trk] in HN; cbn [c_mgr c_trk mgr_step sys_step cnt_step prt_step end_step set_ctr];
    try (split; [apply MG; intros i X; congruence|]); try (split; [exact HP|]); try exact HX; try (rewrite nth_upd_other by congruence; exact HX).
  destruct (returned _ _); [split; [apply MG; discriminate|exact HX]|split; [exact HP|exact HX]].
Qed.
Lemma new_serves cf u x : http_url cf u \/ udp_url cf u /\ x_ok x = true -> serves cf u (new_tracker cf u x).
Proof.
  unfold new_tracker, NewTracker, http_url, udp_url. intros [[H|H]|[H H']]; rewrite H; [left; exact H|right; exact H|rewrite H'; exact H].
Qed.
Lemma announce_serves cf u h j t d r t' e a : tracker_announce cf h j t d r = Some (t', e, a) -> serves cf u t -> serves cf u t' /\ announce_by j e.
Proof.
  unfold tracker_announce. destruct t as [|addr id ev i|ud]; [discriminate| |]; (destruct r; [|]); try discriminate; intros H HS.
  - destruct (HttpAnnounce _ _) as [i' res]. inversion H; subst. now split.
  - destruct (UdpAnnounce _ _ _ _ _ _ _ _ _) as [[u' ds] res]. inversion H; subst. now split.
Qed.
Lemma announce_some cf u h j t d r : serves cf u t -> answers cf u r -> tracker_announce cf h j t d r <> None.
Proof.
  assert (NU : http_url cf u -> udp_url cf u -> False) by (unfold http_url, udp_url; intros [H|H] H'; rewrite H in H'; vm_compute in H'; discriminate).
  unfold tracker_announce. destruct t as [|addr id ev i|ud]; [intros []| |]; (destruct r; [|]); cbn [serves answers]; intros H1 H2; try tauto.
  - destruct (HttpAnnounce _ _). discriminate.
  - destruct (UdpAnnounce _ _ _ _ _ _ _ _ _) as [[u' ds] res]. discriminate.
Qed.

Definition enabled (cf : conf) (u : bytes) (j : nat) (pc : tpc) (x : ctr) (a : cact) : Prop :=
  match pc with
  | TTry _ => if (length (ct_loads x) <? 3)%nat then a = KLoad j else exists r, a = KAnn j r /\ answers cf u r
  | _ => exists y, a = KTrk j y /\ x_timer y = true
  end.
Definition closer (j : nat) (pc : tpc) (x : ctr) (es : list cev) (c' : client) (pc' : tpc) (x' : ctr) : Prop :=
  (exists e, announce_by j e /\ In e es) \/ dead c' = true \/ (tm pc' (length (ct_loads x')) < tm pc (length (ct_loads x)))%nat.
Lemma dead_panic c : g_panic (c_mgr c) = true -> dead c = true.
Proof. unfold dead. now intros ->. Qed.
Lemma own_trk cf u c j pc x y c' es : reach cf c -> waiting c -> dead c = false -> going cf u c j pc x ->
  (pc = TNew -> http_url cf u \/ udp_url cf u /\ x_ok y = true) -> cexec cf (KTrk j y) c = (c', es) ->
  exists pc' x', going cf u c' j pc' x' /\ (closer j pc x es c' pc' x' \/ pc' = pc /\ x' = x /\ ((exists n, pc = TTry n) \/ x_timer y = false)).
Proof.
  intros HR (_ & HC & _ & HX) HD (HP & HT & HU & HL & HE & HS) HN H. destruct (reach_iv _ _ HR) as (tr & IV). pose proof (alive _ HD) as [_ NP].
  assert (LI : ct_loads x <> [] -> exists n, pc = TTry n).
  { destruct HR as (t & f & outs & urls & l & tr0 & R). intros NL. destruct (linv_run _ _ _ _ _ _ _ _ R j x HT NL) as (n & X). exists n. congruence. }
  unfold cexec in H. rewrite HD, HX in H. cbn [orb] in H. unfold ctrk_step in H. rewrite HP, HT in H.
  assert (G : forall i, gexec (XTrk j i) (c_mgr c) = match tstep (c_mgr c) j pc i with Some r => r | None => (c_mgr c, []) end) by (intros i; unfold gexec; now rewrite NP, HP).
  assert (STD : forall i c2 es2, ~ over pc -> i_timer i = x_timer y -> c_mgr c2 = fst (gexec (XTrk j i) (c_mgr c)) -> c_trk c2 = c_trk c ->
    exists pc' x', going cf u c2 j pc' x' /\ (closer j pc x es2 c2 pc' x' \/ pc' = pc /\ x' = x /\ ((exists n, pc = TTry n) \/ x_timer y = false))).
  { intros i c2 es2 HO HTI EM ET. assert (LN : ct_loads x = []) by (destruct (ct_loads x) eqn:EL; [reflexivity|]; destruct LI as (n & ->); [discriminate|]; now contradiction HO).
    rewrite G in EM. destruct (tstep (c_mgr c) j pc i) as [[g1 e1]|] eqn:TS.
    - cbn [fst] in EM. destruct (tstep_need _ _ _ _ _ _ _ IV HC HP HO TS) as [(P1 & P2)|(pc' & P1 & P2 & P3 & P4)].
      + exists pc, x. split; [unfold going; rewrite EM, ET; repeat split; assumption|]. left. right. left. apply dead_panic. now rewrite EM.
      + exists pc', x. split; [unfold going; rewrite EM, ET; repeat split; try assumption|left; right; right; rewrite LN; exact P4].
        intros _. apply HS. intros ->. apply HO. exact I.
    - exists pc, x. split; [unfold going; rewrite EM, ET; repeat split; assumption|]. right. repeat split; try reflexivity. right.
      destruct (x_timer y) eqn:XT; [|reflexivity]. exfalso. apply (tstep_some _ _ _ _ i IV HP HE); [congruence|exact TS]. }
  destruct pc as [| |n|n|ips|k ips|k n ips|k n ips|k n ips| |]; unfold with_mgr in H;
    try (inversion H; subst c' es; (eapply STD; [cbn; tauto| |cbn [c_mgr fst]; reflexivity|reflexivity]; reflexivity)).
  - specialize (HN eq_refl). pose proof (new_serves _ _ _ HN) as SV. rewrite HU in H. rewrite G in H. cbn [tstep tin_of i_new] in H.
    assert (B : (match new_tracker cf u y with TrNone => false | _ => true end) = true) by (destruct (new_tracker cf u y); [destruct SV|reflexivity|reflexivity]).
    rewrite B in H. inversion H; subst c' es. exists TStart, (mkCtr u (new_tracker cf u y) [] (ct_grp x)). split.
    + unfold going. cbn [c_mgr c_trk fst set_ctr ct_url ct_loads length ct_trk]. split; [eapply set_trk_nth; exact HP|]. split; [eapply nth_upd_same; exact HT|].
      split; [reflexivity|]. split; [lia|]. split; [discriminate|]. intros _. exact SV.
    + left. right. right. cbn [tm]. lia.
  - inversion H; subst c' es. exists (TTry n), x. split; [repeat split; assumption|]. right. repeat split; eauto.
  - destruct (shaken cf c k y); inversion H; subst c' es; (eapply STD; [cbn; tauto| |cbn [c_mgr fst]; reflexivity|reflexivity]; reflexivity).
Qed.
Lemma own_load cf u c j pc x c' es : reach cf c -> waiting c -> dead c = false -> going cf u c j pc x -> cexec cf (KLoad j) c = (c', es) ->
  exists pc' x', going cf u c' j pc' x' /\ (closer j pc x es c' pc' x' \/ pc' = pc /\ x' = x /\ forall n, pc = TTry n -> length (ct_loads x) = 3%nat).
Proof.
  intros HR (_ & HC & _ & HX) HD (HP & HT & HU & HL & HE & HS) H. unfold cexec in H. rewrite HD, HX in H. cbn [orb] in H. unfold load_step in H. rewrite HP, HT in H.
  destruct pc as [| |n|n|ips|k ips|k n ips|k n ips|k n ips| |];
    try (inversion H; subst c' es; eexists; exists x; (split; [repeat split; eassumption|]); right; (split; [reflexivity|]); (split; [reflexivity|]); intros; discriminate).
  assert (PUT : forall v, (length (ct_loads x) < 3)%nat -> (c', es) = (set_ctr c j (mkCtr (ct_url x) (ct_trk x) (ct_loads x ++ [v]) (ct_grp x)), []) ->
    exists pc' x', going cf u c' j pc' x' /\ (closer j (TTry n) x es c' pc' x' \/ pc' = TTry n /\ x' = x /\ forall n0, TTry n = TTry n0 -> length (ct_loads x) = 3%nat)).
  { intros v HL3 E. inversion E; subst c' es. exists (TTry n), (mkCtr (ct_url x) (ct_trk x) (ct_loads x ++ [v]) (ct_grp x)). split.
    - unfold going. cbn [c_mgr c_trk set_ctr ct_url ct_loads ct_trk]. split; [exact HP|]. split; [eapply nth_upd_same; exact HT|]. split; [exact HU|].
      split; [rewrite app_length; cbn; lia|]. split; [exact HE|exact HS].
    - left. right. right. cbn [tm ct_loads]. rewrite app_length. cbn [length]. lia. }
  destruct (ct_loads x) as [|v1 [|v2 [|v3 [|v4 r]]]] eqn:EL;
    try (eapply PUT; [cbn; lia|symmetry; exact H]; fail); cbn [length] in HL; [|lia].
  inversion H; subst c' es. exists (TTry n), x. split; [|right; repeat split; try reflexivity]. unfold going. rewrite EL. repeat split; try assumption.
Qed.
Lemma own_ann cf u c j pc x r c' es : reach cf c -> waiting c -> dead c = false -> going cf u c j pc x -> cexec cf (KAnn j r) c = (c', es) ->
  exists pc' x', going cf u c' j pc' x' /\ (closer j pc x es c' pc' x' \/ pc' = pc /\ x' = x /\ forall n, pc = TTry n -> answers cf u r -> length (ct_loads x) <> 3%nat).
Proof.
  intros HR (_ & HC & _ & HX) HD (HP & HT & HU & HL & HE & HS) H. pose proof (alive _ HD) as [_ NP]. unfold cexec in H. rewrite HD, HX in H. cbn [orb] in H. unfold ann_step in H. rewrite HP, HT in H.
  destruct pc as [| |n|n|ips|k ips|k n ips|k n ips|k n ips| |];
    try (inversion H; subst c' es; eexists; exists x; (split; [repeat split; eassumption|]); right; (split; [reflexivity|]); (split; [reflexivity|]); intros; discriminate).
  assert (NO : length (ct_loads x) <> 3%nat -> (c', es) = (c, []) ->
    exists pc' x', going cf u c' j pc' x' /\ (closer j (TTry n) x es c' pc' x' \/ pc' = TTry n /\ x' = x /\ forall n0, TTry n = TTry n0 -> answers cf u r -> length (ct_loads x) <> 3%nat)).
  { intros NL E. inversion E; subst c' es. exists (TTry n), x. split; [repeat split; assumption|]. right. repeat split; auto. }
  destruct (ct_loads x) as [|v1 [|v2 [|v3 [|v4 rr]]]] eqn:EL; try (apply NO; [cbn; discriminate|now symmetry]).
  destruct (tracker_announce _ _ _ _ _ _) as [[[t' e] a]|] eqn:TA.
  - specialize (HS ltac:(discriminate)). destruct (announce_serves _ u _ _ _ _ _ _ _ _ TA HS) as (S' & AB). unfold with_mgr in H.
    assert (G : forall i, gexec (XTrk j i) (c_mgr c) = match tstep (c_mgr c) j (TTry n) i with Some r => r | None => (c_mgr c, []) end) by (intros i; unfold gexec; now rewrite NP, HP).
    rewrite G in H. cbn [tstep i_ann] in H. rewrite HC in H.
    assert (FIN : forall g2 es2 w2 q, (c', es) = (mkClient g2 w2 (c_run c) (upd (c_trk c) j (mkCtr (ct_url x) t' [] (c_rounds c))) (S (c_rounds c)) (c_cnt c) (c_wr c) (c_prt c) (c_exit c), e :: es2) ->
      nth_error (g_trk g2) j = Some q -> q <> TEnd -> exists pc' x', going cf u c' j pc' x' /\
        (closer j (TTry n) x es c' pc' x' \/ pc' = TTry n /\ x' = x /\ forall n0, TTry n = TTry n0 -> answers cf u r -> length [v1; v2; v3] <> 3%nat)).
    { intros g2 es2 w2 q E NQ NE. inversion E; subst c' es. exists q, (mkCtr (ct_url x) t' [] (c_rounds c)). split.
      - unfold going. cbn [c_mgr c_trk ct_url ct_loads ct_trk length]. split; [exact NQ|]. split; [eapply nth_upd_same; exact HT|]. split; [exact HU|]. split; [lia|]. split; [exact NE|]. intros _. exact S'.
      - left. left. exists e. split; [exact AB|now left]. }
    destruct a; cbn [ann_in] in H; cbn [fst snd set_ctr c_run c_trk c_rounds c_cnt c_wr c_prt c_exit c_mgr c_wo] in H.
    + eapply FIN; [symmetry; exact H|eapply set_trk_nth; exact HP|discriminate].
    + eapply FIN; [symmetry; exact H|eapply set_trk_nth; exact HP|destruct (Nat.eqb n 4); discriminate].
    + eapply FIN; [symmetry; exact H|eapply set_trk_nth; exact HP|destruct (Nat.eqb n 4); discriminate].
    + eapply FIN; [symmetry; exact H|exact HP|discriminate].
  - inversion H; subst c' es. exists (TTry n), x. split; [unfold going; rewrite EL; repeat split; assumption|]. right. repeat split; try reflexivity.
    intros n0 _ HA. exfalso. specialize (HS ltac:(discriminate)). exact (announce_some cf u _ _ _ _ _ HS HA TA).
Qed.

(* ---------- schedules without end ---------- *)
Lemma cafter_next cf s n c : cafter cf s (S n) c = fst (cexec cf (s n) (cafter cf s n c)).
Proof.
  unfold cafter. rewrite seq_S, map_app. cbn [map plus]. rewrite crun_snoc. destruct (crun cf (map s (seq 0 n)) c) as [c1 e1]. cbn [fst].
  destruct (cexec cf (s n) c1). reflexivity.
Qed.
Lemma step_from cf u c j pc x a : reach cf c -> waiting c -> dead c = false -> going cf u c j pc x -> a <> KSignal ->
  (forall y, a = KTrk j y -> pc = TNew -> http_url cf u \/ udp_url cf u /\ x_ok y = true) ->
  exists pc' x', going cf u (fst (cexec cf a c)) j pc' x' /\ (closer j pc x (snd (cexec cf a c)) (fst (cexec cf a c)) pc' x' \/ pc' = pc /\ x' = x /\ ~ enabled cf u j pc x a).
Proof.
  intros HR HW HD HG HN HY. destruct (cexec cf a c) as [c' es] eqn:E. cbn [fst snd].
  assert (OT : ~ of_trk j a -> exists pc' x', going cf u c' j pc' x' /\ (closer j pc x es c' pc' x' \/ pc' = pc /\ x' = x /\ ~ enabled cf u j pc x a)).
  { intros NO. destruct (reach_iv _ _ HR) as (tr & IV). pose proof HG as (HP & HT & HU & HL & HE & HS). destruct (other_step _ _ _ _ _ _ _ _ _ IV E NO HP HT) as (X1 & X2).
    exists pc, x. split; [repeat split; assumption|]. right. repeat split; try reflexivity. intros EN. apply NO. unfold enabled in EN.
    destruct pc; try (destruct EN as (y & -> & _); reflexivity). destruct (_ <? _)%nat; [rewrite EN; reflexivity|destruct EN as (r & -> & _); reflexivity]. }
  destruct a as [| |i y|i|i r|k i| |b]; try (apply OT; intros []; fail); (destruct (Nat.eq_dec i j) as [->|NE]; [|apply OT; exact NE]).
  - destruct (own_trk _ _ _ _ _ _ _ _ _ HR HW HD HG (HY _ eq_refl) E) as (pc' & x' & G' & [C|(-> & -> & C)]); exists pc', x' || exists pc, x; (split; [exact G'|]); [now left|right].
    split; [reflexivity|]. split; [reflexivity|]. unfold enabled. intros EN.
    destruct C as [(n & ->)|C]; [destruct (_ <? _)%nat; [discriminate EN|destruct EN as (r & X & _); discriminate X]|].
    destruct pc; try (destruct EN as (y' & X & Y); injection X as <-; congruence). destruct (_ <? _)%nat; [discriminate EN|destruct EN as (r & X & _); discriminate X].
  - destruct (own_load _ _ _ _ _ _ _ _ HR HW HD HG E) as (pc' & x' & G' & [C|(-> & -> & C)]); exists pc', x' || exists pc, x; (split; [exact G'|]); [now left|right].
    split; [reflexivity|]. split; [reflexivity|]. unfold enabled. intros EN. destruct pc; try (destruct EN as (y & X & _); discriminate X).
    rewrite (C _ eq_refl) in EN. destruct EN as (r & X & _). discriminate X.
  - destruct (own_ann _ _ _ _ _ _ _ _ _ HR HW HD HG E) as (pc' & x' & G' & [C|(-> & -> & C)]); exists pc', x' || exists pc, x; (split; [exact G'|]); [now left|right].
    split; [reflexivity|]. split; [reflexivity|]. unfold enabled. intros EN. destruct pc; try (destruct EN as (y & X & _); discriminate X).
    destruct (Nat.ltb_spec (length (ct_loads x)) 3); [discriminate EN|]. destruct EN as (r' & X & Y). injection X as <-.
    pose proof HG as (_ & _ & _ & HL & _). apply (C _ eq_refl Y). lia.
Qed.

Section Forever.
  Variables (cf : conf) (u : bytes) (j : nat) (s : nat -> cact) (c0 : client).
  Hypothesis no_signal : forall n, s n <> KSignal.
  Hypothesis runs : keeps_going cf u j s.
  Hypothesis created_ok : forall n y, s n = KTrk j y -> creating (cafter cf s n c0) j -> http_url cf u \/ udp_url cf u /\ x_ok y = true.
  Notation C n := (cafter cf s n c0).
  Definition good (n : nat) : Prop := reach cf (C n) /\ waiting (C n) /\ exists pc x, going cf u (C n) j pc x.
  Lemma dead_step c a : dead c = true -> cexec cf a c = (c, []).
  Proof. unfold cexec. now intros ->. Qed.
  Lemma base_step n : reach cf (C n) /\ waiting (C n) -> reach cf (C (S n)) /\ waiting (C (S n)).
  Proof.
    intros (HR & HW). rewrite cafter_next. destruct (cexec cf (s n) (C n)) as [c' es] eqn:E. cbn [fst].
    split; [eapply reach_step; eassumption|eapply waiting_step; [apply no_signal|exact HW|exact E]].
  Qed.
  Lemma good_step n : good n -> good (S n).
  Proof.
    intros (HR & HW & pc & x & HG). destruct (base_step n (conj HR HW)) as (HR' & HW'). split; [exact HR'|]. split; [exact HW'|].
    rewrite cafter_next. destruct (dead (C n)) eqn:HD; [rewrite dead_step by exact HD; exists pc, x; exact HG|].
    destruct (step_from cf u (C n) j pc x (s n) HR HW HD HG (no_signal n)) as (pc' & x' & G' & _); [|exists pc', x'; exact G'].
    intros y EY EP. apply (created_ok n y EY). unfold creating. destruct HG as (HP & _). congruence.
  Qed.
  Lemma good_later n m : (n <= m)%nat -> good n -> good m.
  Proof. intros H. induction H; [auto|]. intros G. apply good_step. auto. Qed.
  Lemma turn_comes n pc x : pc <> TEnd -> exists m, (n <= m)%nat /\ enabled cf u j pc x (s m).
  Proof.
    intros NE. destruct (runs n) as (_ & (m1 & y & L1 & E1 & T1) & (m2 & L2 & E2) & (m3 & r & L3 & E3 & T3)).
    destruct pc; try (exists m1; split; [exact L1|]; exists y; auto; fail). unfold enabled. destruct (_ <? _)%nat; [exists m2; auto|exists m3; split; [exact L3|exists r; auto]].
  Qed.
  Lemma announces_from k : forall n pc x, good n -> going cf u (C n) j pc x -> (tm pc (length (ct_loads x)) < k)%nat ->
    exists m, (n <= m)%nat /\ (dead (C m) = true \/ announces cf s c0 j m).
  Proof.
    induction k as [|k IH]; intros n pc x HQ HG HK; [lia|].
    destruct (turn_comes n pc x (proj1 (proj2 (proj2 (proj2 (proj2 HG)))))) as (m & HM & EN).
    remember (m - n)%nat as d eqn:Ed. revert n HQ HG HM Ed. induction d as [|d IHd]; intros n HQ HG HM Ed;
      (destruct (dead (C n)) eqn:HD; [exists n; split; [lia|now left]|]); destruct HQ as (HR & HW & HX);
      (destruct (step_from cf u (C n) j pc x (s n) HR HW HD HG (no_signal n)) as (pc' & x' & G' & HC);
       [intros y EY EP; apply (created_ok n y EY); unfold creating; destruct HG as (HP & _); congruence|]);
      rewrite <- cafter_next in G'; assert (HQ' : good (S n)) by (apply good_step; exact (conj HR (conj HW HX))).
    - assert (m = n) by lia. subst m. destruct HC as [HC|(_ & _ & HC)]; [|contradiction].
      destruct HC as [(e & A & B)|[HC|HC]]; [exists n; split; [lia|right; exists e; auto]|exists (S n); split; [lia|left; now rewrite cafter_next]|].
      destruct (IH (S n) pc' x' HQ' G') as (m & L & R); [lia|]. exists m. split; [lia|exact R].
    - destruct HC as [HC|(-> & -> & _)].
      + destruct HC as [(e & A & B)|[HC|HC]]; [exists n; split; [lia|right; exists e; auto]|exists (S n); split; [lia|left; now rewrite cafter_next]|].
        destruct (IH (S n) pc' x' HQ' G') as (m' & L & R); [lia|]. exists m'. split; [lia|exact R].
      + destruct (IHd (S n) HQ' G') as (m' & L & R); [lia|lia|]. exists m'. split; [lia|exact R].
  Qed.
  Lemma again_good n0 n : good n0 -> exists m, (n <= m)%nat /\ (dead (C m) = true \/ announces cf s c0 j m).
  Proof.
    intros G. pose proof (good_later n0 (Nat.max n n0) ltac:(lia) G) as G'. pose proof G' as (_ & _ & pc & x & HG).
    destruct (announces_from (S (tm pc (length (ct_loads x)))) (Nat.max n n0) pc x G' HG) as (m & L & R); [lia|]. exists m. split; [lia|exact R].
  Qed.
End Forever.

Lemma not_started cf t f outs urls a : a <> KMain -> a <> KSignal -> fst (cexec cf a (client_start cf t f outs urls)) = client_start cf t f outs urls.
Proof.
  intros N1 N2. unfold cexec. destruct (dead _ || c_exit _); [reflexivity|]. destruct a as [| |i y|i|i r|k i| |b]; try congruence; cbn [fst].
  - unfold ctrk_step. cbn [client_start c_mgr NewMng g_trk]. destruct i; reflexivity.
  - unfold load_step. cbn [client_start c_mgr NewMng g_trk]. destruct i; reflexivity.
  - unfold ann_step. cbn [client_start c_mgr NewMng g_trk]. destruct i; reflexivity.
  - unfold peer_step. cbn [client_start c_run]. destruct k; reflexivity.
  - reflexivity.
  - reflexivity.
Qed.
Lemma kmain_dec (a : cact) : {a = KMain} + {a <> KMain}.
Proof. destruct a; (left; reflexivity) || (right; discriminate). Qed.
Lemma first_main (s : nat -> cact) n : s n = KMain -> exists k, s k = KMain /\ forall i, (i < k)%nat -> s i <> KMain.
Proof.
  induction n as [n IH] using lt_wf_ind. intros H. destruct (Forall_Exists_dec (fun i => s i <> KMain) (fun i => match kmain_dec (s i) with left e => right (fun h => h e) | right n => left n end) (seq 0 n)) as [F|E].
  - exists n. split; [exact H|]. intros i Hi. rewrite Forall_forall in F. apply F. apply in_seq. lia.
  - apply Exists_exists in E. destruct E as (i & Hi & Ei). apply in_seq in Hi. apply (IH i); [lia|]. destruct (kmain_dec (s i)); [assumption|contradiction].
Qed.
Lemma again cf t f outs urls s j u : nth_error urls j = Some u -> (forall n, s n <> KSignal) -> keeps_going cf u j s ->
  (forall n y, s n = KTrk j y -> creating (cafter cf s n (client_start cf t f outs urls)) j -> http_url cf u \/ udp_url cf u /\ x_ok y = true) ->
  forall n, exists m, (n <= m)%nat /\ (client_status (cafter cf s m (client_start cf t f outs urls)) = Some 2 \/ announces cf s (client_start cf t f outs urls) j m).
Proof.
  intros HU HS HK HC n. set (c0 := client_start cf t f outs urls) in *.
  destruct (HK 0%nat) as ((m & _ & EM) & _). destruct (first_main s m EM) as (k & EK & BK).
  assert (X : forall i, (i <= k)%nat -> cafter cf s i c0 = c0).
  { induction i as [|i IH]; intros Hi; [reflexivity|]. rewrite cafter_next, IH by lia. apply not_started; [apply BK; lia|apply HS]. }
  assert (R0 : reach cf c0) by (exists t, f, outs, urls, [], []; reflexivity).
  assert (W0 : waiting c0) by (repeat split; left; reflexivity).
  assert (G : good cf u j s c0 (S k)).
  { destruct (base_step cf s c0 HS k) as (R1 & W1); [rewrite X by lia; auto|]. split; [exact R1|]. split; [exact W1|].
    exists TNew, (mkCtr u TrNone [] 0). rewrite cafter_next, X, EK by lia. unfold going. cbn.
    assert (L : (j < length urls)%nat) by (apply nth_error_Some; congruence).
    split; [rewrite map_length; apply nth_error_repeat; exact L|]. split; [now rewrite nth_error_map, HU|]. repeat split; try discriminate; [lia|congruence]. }
  destruct (again_good cf u j s c0 HS HK HC (S k) n G) as (m' & L & [D|A]); exists m'; (split; [exact L|]); [left|right; exact A]. unfold client_status. now rewrite D.
Qed.

(* ---------- a tracker that could not be created ---------- *)
Lemma announce_at cf a c c' es e j : cexec cf a c = (c', es) -> In e es -> announce_by j e -> exists n, nth_error (g_trk (c_mgr c)) j = Some (TTry n).
Proof.
  intros H HI HA. apply cexec_move in H. destruct H as [[-> ->]|(_ & _ & M)]; [destruct HI|].
  assert (NM : forall l, ~ In e (map VMgr l)) by (intros l X; apply in_map_iff in X; destruct X as (y & <- & _); exact HA).
  inversion M; subst; clear M; try (destruct HI; fail); try (exfalso; eapply NM; eassumption).
  - destruct HI as [<-|HI]; [destruct HA|exfalso; eapply NM; eassumption].
  - destruct HI as [->|HI]; [|exfalso; eapply NM; eassumption].
    assert (announce_by j0 e).
    { match goal with X : tracker_announce _ _ _ (ct_trk ?tr) _ _ = _ |- _ => unfold tracker_announce in X; destruct (ct_trk tr); try discriminate; destruct rp; try discriminate end.
      - destruct (HttpAnnounce _ _). match goal with X : Some _ = Some _ |- _ => inversion X; subst end. reflexivity.
      - destruct (UdpAnnounce _ _ _ _ _ _ _ _ _) as [[? ?] ?]. match goal with X : Some _ = Some _ |- _ => inversion X; subst end. reflexivity. }
    assert (j0 = j) by (destruct e; cbn in *; try contradiction; congruence). subst j0. eauto.
  - exfalso. unfold sysev in HI. apply in_map_iff in HI. destruct HI as (y & <- & _). exact HA.
Qed.
Lemma after_not_new g j k n ips c : nth_error (g_trk g) j = Some c -> exists c', nth_error (g_trk (after_failure g j k n ips)) j = Some c' /\ c' <> TNew.
Proof.
  intros H. unfold after_failure. destruct (Nat.eqb n 4); eexists; (split; [eapply set_trk_nth; rewrite ?peer_failed_trk; exact H|discriminate]).
Qed.
Lemma tstep_not_new g j c i g' es : nth_error (g_trk g) j = Some c -> c <> TNew -> tstep g j c i = Some (g', es) -> exists c', nth_error (g_trk g') j = Some c' /\ c' <> TNew.
Proof.
  intros HJ HN H. assert (S : forall h x, g_trk h = g_trk g -> x <> TNew -> exists c', nth_error (g_trk (set_trk h j x)) j = Some c' /\ c' <> TNew).
  { intros h x E N. exists x. split; [eapply set_trk_nth; rewrite E; exact HJ|exact N]. }
  destruct c as [| |n|n|[|a ips]|k ips|k n ips|k n ips|k n ips| |]; try congruence; cbn [tstep] in H.
  all: repeat first [discriminate | match type of H with context [match ?x with _ => _ end] => destruct x eqn:? end].
  all: inversion H; subst; clear H.
  all: try (apply S; [first [reflexivity | apply peer_failed_trk | eapply AddPeer_trk; eassumption]|discriminate]).
  all: try (eapply after_not_new; exact HJ).
  all: try (eexists; split; [exact HJ|discriminate]).
Qed.
Lemma gexec_not_new g tr a g' es j c : ginv g tr -> gexec a g = (g', es) -> nth_error (g_trk g) j = Some c -> c <> TNew -> exists c', nth_error (g_trk g') j = Some c' /\ c' <> TNew.
Proof.
  intros IV H HJ HN. assert (D : (exists i, a = XTrk j i) \/ forall i, a <> XTrk j i).
  { destruct a as [m|i y|m| | |]; try (right; discriminate). destruct (Nat.eq_dec i j) as [->|NE]; [eauto|right; congruence]. }
  destruct D as [(i & ->)|D]; [|exists c; split; [eapply gexec_keep; eassumption|exact HN]].
  unfold gexec in H. destruct (g_panic g); [inversion H; subst; eauto|]. rewrite HJ in H. destruct (tstep g j c i) as [[g1 e1]|] eqn:T; inversion H; subst; [|eauto].
  eapply tstep_not_new; eassumption.
Qed.
Lemma gexec_end g tr a g' es j : ginv g tr -> gexec a g = (g', es) -> nth_error (g_trk g) j = Some TEnd -> nth_error (g_trk g') j = Some TEnd.
Proof.
  intros IV H HJ. assert (D : (exists i, a = XTrk j i) \/ forall i, a <> XTrk j i).
  { destruct a as [m|i y|m| | |]; try (right; discriminate). destruct (Nat.eq_dec i j) as [->|NE]; [eauto|right; congruence]. }
  destruct D as [(i & ->)|D]; [|eapply gexec_keep; eassumption].
  unfold gexec in H. destruct (g_panic g); [now inversion H; subst|]. rewrite HJ in H. cbn in H. now inversion H; subst.
Qed.
Lemma cexec_end cf a c c' es j : reach cf c -> cexec cf a c = (c', es) -> nth_error (g_trk (c_mgr c)) j = Some TEnd -> nth_error (g_trk (c_mgr c')) j = Some TEnd.
Proof.
  intros HR H HJ. destruct (reach_iv _ _ HR) as (tr & IV). destruct (cexec_mgr _ _ _ _ _ H) as [[-> _]|(x & G & _)]; [exact HJ|]. eapply gexec_end; eassumption.
Qed.
Lemma ended_silent cf j l : forall c c' tr, reach cf c -> nth_error (g_trk (c_mgr c)) j = Some TEnd -> crun cf l c = (c', tr) -> forall e, In e tr -> ~ announce_by j e.
Proof.
  induction l as [|a l IH]; intros c c' tr HR HJ H e HI HA; [inversion H; subst; destruct HI|].
  cbn [crun] in H. destruct (cexec cf a c) as [c1 e1] eqn:E. destruct (crun cf l c1) as [c2 e2] eqn:E2. inversion H; subst. apply in_app_iff in HI. destruct HI as [HI|HI].
  - destruct (announce_at _ _ _ _ _ _ _ E HI HA) as (n & X). congruence.
  - exact (IH c1 c' e2 (reach_step _ _ _ _ _ HR E) (cexec_end _ _ _ _ _ _ HR E HJ) E2 e HI HA).
Qed.
Lemma created_before cf t f outs urls l c tr j e : crun cf l (client_start cf t f outs urls) = (c, tr) -> In e tr -> announce_by j e ->
  exists pc, nth_error (g_trk (c_mgr c)) j = Some pc /\ pc <> TNew.
Proof.
  intros HR. refine (proj2 (crun_inv cf (fun c tr => (exists l, crun cf l (client_start cf t f outs urls) = (c, tr)) /\ (In e tr -> announce_by j e -> exists pc, nth_error (g_trk (c_mgr c)) j = Some pc /\ pc <> TNew)) (fun _ => True) _ _ _ l c tr _ HR)).
  - split; [exists []; reflexivity|intros []].
  - intros c1 t1 a c2 es ((l1 & R1) & I1) _ E. split; [exists (l1 ++ [a]); now rewrite crun_snoc, R1, E|].
    intros HI HA. assert (RC : reach cf c1) by (exists t, f, outs, urls, l1, t1; exact R1). destruct (reach_iv _ _ RC) as (tr0 & IV).
    assert (P : exists pc, nth_error (g_trk (c_mgr c1)) j = Some pc /\ pc <> TNew).
    { apply in_app_iff in HI. destruct HI as [HI|HI]; [auto|]. destruct (announce_at _ _ _ _ _ _ _ E HI HA) as (n & X). exists (TTry n). split; [exact X|discriminate]. }
    destruct P as (pc & P1 & P2). destruct (cexec_mgr _ _ _ _ _ E) as [[-> _]|(x & G & _)]; [eauto|]. eapply gexec_not_new; eassumption.
  - apply Forall_forall. auto.
Qed.
Lemma urls_kept cf t f outs urls l c tr : crun cf l (client_start cf t f outs urls) = (c, tr) -> map ct_url (c_trk c) = urls.
Proof.
  revert c tr. induction l as [|a l IH] using rev_ind; intros c tr H.
  - inversion H; subst. cbn. rewrite map_map. apply map_id.
  - rewrite crun_snoc in H. destruct (crun cf l _) as [c1 e1] eqn:E1. destruct (cexec cf a c1) as [c2 e2] eqn:E2. inversion H; subst. rewrite <- (IH _ _ eq_refl). clear H IH.
    apply cexec_move in E2. destruct E2 as [[-> ->]|(_ & _ & M)]; [reflexivity|].
    inversion M; subst; clear M; try reflexivity; cbn [c_trk mgr_step set_ctr]; eapply map_upd; try eassumption; reflexivity.
Qed.
Lemma forgotten cf t f outs urls l1 c1 tr1 j u x l2 c2 tr2 : nth_error urls j = Some u -> crun cf l1 (client_start cf t f outs urls) = (c1, tr1) -> creating c1 j ->
  ~ (http_url cf u \/ udp_url cf u /\ x_ok x = true) -> crun cf (KTrk j x :: l2) c1 = (c2, tr2) -> client_status c1 = None ->
  forall e, In e (tr1 ++ tr2) -> ~ announce_by j e.
Proof.
  intros HU H1 HC HN H2 HS e HI HA. assert (RC : reach cf c1) by (exists t, f, outs, urls, l1, tr1; exact H1).
  apply in_app_iff in HI. destruct HI as [HI|HI].
  - destruct (created_before _ _ _ _ _ _ _ _ _ _ H1 HI HA) as (pc & X & Y). unfold creating in HC. congruence.
  - cbn [crun] in H2. destruct (cexec cf (KTrk j x) c1) as [c3 e3] eqn:E. destruct (crun cf l2 c3) as [c4 e4] eqn:E2. inversion H2; subst. apply in_app_iff in HI. destruct HI as [HI|HI].
    + destruct (announce_at _ _ _ _ _ _ _ E HI HA) as (n & X). unfold creating in HC. congruence.
    + refine (ended_silent cf j l2 c3 c2 e4 (reach_step _ _ _ _ _ RC E) _ E2 e HI HA).
      unfold client_status in HS. destruct (dead c1) eqn:HD; [discriminate|]. destruct (c_exit c1) eqn:HX; [discriminate|]. pose proof (alive _ HD) as [_ NP].
      unfold cexec in E. rewrite HD, HX in E. cbn [orb] in E. unfold ctrk_step in E. unfold creating in HC. rewrite HC in E.
      pose proof (urls_kept _ _ _ _ _ _ _ _ H1) as UK. assert (UJ : nth_error (map ct_url (c_trk c1)) j = Some u) by congruence. rewrite nth_error_map in UJ.
      destruct (nth_error (c_trk c1) j) as [y|] eqn:EY; [|discriminate]. cbn in UJ. injection UJ as UJ. rewrite UJ in E.
      assert (B : new_tracker cf u x = TrNone).
      { unfold new_tracker, NewTracker, http_url, udp_url in *. destruct (cf_scheme cf u) as [sc|]; [|reflexivity].
        destruct (beq sc (str "udp")) eqn:B1; [apply beq_eq in B1; subst sc; destruct (x_ok x); [exfalso; apply HN; auto|reflexivity]|].
        destruct (beq sc (str "http")) eqn:B2; [apply beq_eq in B2; subst sc; exfalso; apply HN; auto|].
        destruct (beq sc (str "https")) eqn:B3; [apply beq_eq in B3; subst sc; exfalso; apply HN; auto|]. reflexivity. }
      rewrite B in E. unfold with_mgr, gexec in E. cbn [set_ctr c_mgr] in E. rewrite NP, HC in E. cbn [tstep tin_of i_new] in E. inversion E; subst. cbn [c_mgr fst]. eapply set_trk_nth; exact HC.
Qed.

(* ---------- schedules ---------- *)
Definition by_turns (x : cin) (r : reply) (n : nat) : cact := match (n mod 4)%nat with O => KMain | 1%nat => KTrk 0 x | 2%nat => KLoad 0 | _ => KAnn 0 r end.
Lemma by_turns_going cf u x r : x_timer x = true -> answers cf u r -> keeps_going cf u 0 (by_turns x r).
Proof.
  intros HT HA n. assert (G : forall i, (i < 4)%nat -> exists m, (n <= m)%nat /\ (m mod 4)%nat = i).
  { intros i Hi. exists (i + n * 4)%nat. split; [lia|]. rewrite Nat.mod_add by lia. now apply Nat.mod_small. }
  destruct (G 0%nat ltac:(lia)) as (m0 & L0 & E0). destruct (G 1%nat ltac:(lia)) as (m1 & L1 & E1). destruct (G 2%nat ltac:(lia)) as (m2 & L2 & E2). destruct (G 3%nat ltac:(lia)) as (m3 & L3 & E3).
  split; [exists m0; split; [exact L0|]|]; [unfold by_turns; now rewrite E0|]. split; [exists m1, x; split; [exact L1|]; split; [unfold by_turns; now rewrite E1|exact HT]|].
  split; [exists m2; split; [exact L2|]; unfold by_turns; now rewrite E2|]. exists m3, r. split; [exact L3|]. split; [unfold by_turns; now rewrite E3|exact HA].
Qed.
Lemma by_turns_calm x r n : by_turns x r n <> KSignal.
Proof. unfold by_turns. destruct (n mod 4)%nat as [|[|[|k]]]; discriminate. Qed.
Definition ux_conf : conf := mkConf cx_sha1 (createClientId (repeat 7 12)) 6881 30 (fun _ => Some (str "udp")) (fun _ => None) (fun _ => false).
Definition ux_start : client := client_start ux_conf (cx_t cx_sha1) wx_fs [] [str "udp://t:1"].
Definition ux_reply : reply := RUdp 1 2 3 true [].
Definition ux_stuck : client := cafter ux_conf (by_turns ill ux_reply) 5 ux_start.
Lemma ux_stays n : cexec ux_conf (by_turns ill ux_reply n) ux_stuck = (ux_stuck, []).
Proof. unfold by_turns. destruct (n mod 4)%nat as [|[|[|k]]]; vm_compute; reflexivity. Qed.
Lemma ux_after n : cafter ux_conf (by_turns ill ux_reply) (5 + n) ux_start = ux_stuck.
Proof. induction n as [|n IH]; [reflexivity|]. replace (5 + S n)%nat with (S (5 + n)) by lia. rewrite cafter_next, IH, ux_stays. reflexivity. Qed.
Lemma again_refuted :
  ~ (forall cf t f outs urls s j u, nth_error urls j = Some u -> http_url cf u \/ udp_url cf u -> (forall n, s n <> KSignal) -> keeps_going cf u j s ->
       forall n, exists m, (n <= m)%nat /\ (client_status (cafter cf s m (client_start cf t f outs urls)) = Some 2 \/ announces cf s (client_start cf t f outs urls) j m)).
Proof.
  intros H. destruct (H ux_conf (cx_t cx_sha1) wx_fs [] [str "udp://t:1"] (by_turns ill ux_reply) 0%nat (str "udp://t:1") eq_refl (or_intror eq_refl)
    (by_turns_calm ill ux_reply) (by_turns_going ux_conf (str "udp://t:1") ill ux_reply eq_refl eq_refl) 5%nat) as (m & L & X).
  change (client_start ux_conf (cx_t cx_sha1) wx_fs [] [str "udp://t:1"]) with ux_start in X. replace m with (5 + (m - 5))%nat in X by lia.
  unfold announces in X. rewrite ux_after, ux_stays in X. destruct X as [X|(e & _ & [])]. vm_compute in X. discriminate X.
Qed.
