(* Executions with addresses that do not answer.                                *)
From Verif Require Import Base ProofBase ModelTracker ModelSystem ModelTimed ModelManager ModelClock SpecTimed SpecManager SpecClock ProofSystem ProofManager ProofClock.

Lemma step_ok j g t int c i el new g' es : nth_error (g_trk g) j = Some c -> g_panic g = false -> takes 0 c i int el -> tstep g j c i = Some (g', es) -> g_panic g' = false ->
  mexec 0 j (mkMx g t int) [mkMS t c (mkMI [] i el new) es (t + el) (next_int c int new)] (mkMx g' (t + el) (next_int c int new)).
Proof.
  intros HC HP HT HS HP'. apply (me_snoc 0 j _ [] (mkMx g t int) (mkMI [] i el new) c es (mkMx g' (t + el) (next_int c int new))); [constructor|].
  split; [constructor|]. exists g, [], g'. cbn. repeat split; auto.
Qed.
Lemma mexec_trans lag j x0 ta x1 tb x : mexec lag j x0 ta x1 -> mexec lag j x1 tb x -> mexec lag j x0 (ta ++ tb) x.
Proof. intros H1 H2. apply mexec_app. eauto. Qed.

(* nothing has gone wrong; goroutine j is at c *)
Record good (j : nat) (g : mgr) (m : list (bytes * nat)) (c : tpc) : Prop := mkGood {
  gd_started : g_started g = true; gd_cancel : g_cancel g = false; gd_panic : g_panic g = false;
  gd_pool : g_pool g = Some m; gd_pc : nth_error (g_trk g) j = Some c
}.
Definition has (g : mgr) (k : nat) : Prop := exists p a, nth_error (g_peers g) k = Some p /\ mp_addr p = Some a.
(* a world where everything answers, and one where nothing does *)
Definition yes : tin := mkTin true (AnnOk []) true true true.
Definition no : tin := mkTin true AnnErr true true false.
Definition full : Z := 20 * sec + 7500.

Lemma one_attempt j g m k n ips t int : good j g m (TPDial k n ips) -> has g k ->
  exists tr g', mexec 0 j (mkMx g t int) tr (mkMx g' (t + 4 * sec) int) /\ good j g' m (if Nat.eqb n 4 then TInit ips else TPBack k n ips) /\ has g' k /\
    no_ann tr /\ (forall s, In s tr -> happens is_add s = false).
Proof.
  intros [G1 G2 G3 G4 G5] (p & a & HP & HA).
  set (g1 := mkMgr (g_limit g) (g_started g) (g_cancel g) (g_pool g) (upd (g_peers g) k (mkMp (Some a) (Some (length (g_conns g))) (mp_state p)))
               (g_conns g ++ [true]) (upd (g_trk g) j (TPShake k n ips)) (g_num g) (g_stop g) (g_panic g)).
  assert (C1 : nth_error (g_trk g1) j = Some (TPShake k n ips)) by (eapply nth_upd_same; eauto).
  assert (P1 : nth_error (g_peers g1) k = Some (mkMp (Some a) (Some (length (g_conns g))) (mp_state p))) by (eapply nth_upd_same; eauto).
  set (g2 := after_failure g1 j k n ips).
  eassert (S1 : mexec 0 j (mkMx g t int) _ (mkMx g1 (t + 2 * sec) int)).
  { apply (step_ok j g t int (TPDial k n ips) no (2 * sec) 0 g1 [GDial j k]); auto; cbn [takes].
    - unfold DialTimeout, second, sec. lia.
    - cbn [tstep]. rewrite HP, HA. reflexivity. }
  eassert (S2 : mexec 0 j (mkMx g1 (t + 2 * sec) int) _ (mkMx g2 (t + 2 * sec + 2 * sec) int)).
  { apply (step_ok j g1 (t + 2 * sec) int (TPShake k n ips) no (2 * sec) 0 g2 []); auto; cbn [takes].
    - unfold PeerTimeout, second, sec. lia.
    - unfold g2, after_failure, peer_failed. rewrite P1. destruct (Nat.eqb n 4); exact G3. }
  eexists _, g2. split; [|split; [|split; [|split]]].
  - replace (t + 4 * sec) with (t + 2 * sec + 2 * sec) by (unfold sec; lia). eapply mexec_trans; [exact S1|exact S2].
  - unfold g2, after_failure, peer_failed. rewrite P1. destruct (Nat.eqb n 4); constructor; auto; eapply nth_upd_same; eauto.
  - unfold g2, after_failure, peer_failed. rewrite P1. destruct (Nat.eqb n 4); cbn [set_trk set_num set_peers g_peers].
    + eexists _, a. split; [eapply nth_upd_same; exact P1|]. reflexivity.
    + eexists _, a. split; [exact P1|]. reflexivity.
  - intros s [<-|[<-|[]]]; reflexivity.
  - intros s [<-|[<-|[]]]; reflexivity.
Qed.
Lemma one_wait j g m k n ips t int : (n <= 3)%nat -> good j g m (TPBack k n ips) -> has g k ->
  exists tr g', mexec 0 j (mkMx g t int) tr (mkMx g' (t + peer_delay n) int) /\ good j g' m (TPDial k (S n) ips) /\ has g' k /\
    no_ann tr /\ (forall s, In s tr -> happens is_add s = false).
Proof.
  intros HN [G1 G2 G3 G4 G5] HK. eexists _, (set_trk g j (TPDial k (S n) ips)). split; [|split; [|split; [|split]]].
  - apply (step_ok j g t int (TPBack k n ips) no (peer_delay n) 0 _ []); auto. cbn [takes]. unfold waits. cbn [i_timer no]. lia.
  - constructor; auto. eapply nth_upd_same; eauto.
  - exact HK.
  - intros s [<-|[]]; reflexivity.
  - intros s [<-|[]]; reflexivity.
Qed.
Lemma some_attempts j m k ips int : forall d n g t, (n + d = 4)%nat -> good j g m (TPDial k n ips) -> has g k ->
  exists tr g', mexec 0 j (mkMx g t int) tr (mkMx g' (t + full - cost 0 n) int) /\ good j g' m (TInit ips) /\
    no_ann tr /\ (forall s, In s tr -> happens is_add s = false).
Proof.
  induction d as [|d IH]; intros n g t E HG HK; destruct (one_attempt _ _ _ _ _ _ t int HG HK) as (tr1 & g1 & E1 & G1 & K1 & Q1 & A1).
  - assert (n = 4%nat) as -> by lia. exists tr1, g1. rewrite cost_4. replace (t + full - _) with (t + 4 * sec) by (unfold full, sec; lia). auto.
  - replace (Nat.eqb n 4) with false in G1 by (symmetry; apply Nat.eqb_neq; lia).
    destruct (one_wait j g1 m k n ips (t + 4 * sec) int ltac:(lia) G1 K1) as (tr2 & g2 & E2 & G2 & K2 & Q2 & A2).
    destruct (IH (S n) g2 (t + 4 * sec + peer_delay n) ltac:(lia) G2 K2) as (tr3 & g3 & E3 & G3 & Q3 & A3).
    exists (tr1 ++ tr2 ++ tr3), g3. rewrite cost_S in E3 by lia.
    replace (t + 4 * sec + peer_delay n + full - (cost 0 n + (4 * sec + 3 * 0) + peer_delay n)) with (t + full - cost 0 n) in E3 by lia.
    split; [|split; [assumption|split]].
    + eapply mexec_trans; [exact E1|]. eapply mexec_trans; eauto.
    + intros s HI. apply in_app_or in HI. destruct HI as [HI|HI]; [auto|]. apply in_app_or in HI. destruct HI; auto.
    + intros s HI. apply in_app_or in HI. destruct HI as [HI|HI]; [auto|]. apply in_app_or in HI. destruct HI; auto.
Qed.
Lemma taken_none tr : (forall s, In s tr -> happens is_add s = false) -> taken tr = 0.
Proof.
  intros H. unfold taken. replace (filter (happens is_add) tr) with (@nil mstep); [reflexivity|]. symmetry.
  induction tr as [|s tr IH]; [reflexivity|]. cbn. rewrite H by now left. apply IH. intros y Y. apply H. now right.
Qed.
Lemma taken_app a b : taken (a ++ b) = taken a + taken b.
Proof. unfold taken. now rewrite filter_app, zlen_app. Qed.
Lemma one_address j g m a ips t int : good j g m (TInit (Some a :: ips)) -> pool_get m (apString (Some a)) = None ->
  exists s tr g', mexec 0 j (mkMx g t int) (s :: tr) (mkMx g' (t + full) int) /\ good j g' (m ++ [(apString (Some a), length (g_peers g))]) (TInit ips) /\
    no_ann (s :: tr) /\ happens is_add s = true /\ ms_from s = t /\ taken (s :: tr) = 1.
Proof.
  intros [G1 G2 G3 G4 G5] HP. set (k := length (g_peers g)). set (m' := m ++ [(apString (Some a), k)]).
  set (g1 := mkMgr (g_limit g) (g_started g) (g_cancel g) (Some m') (g_peers g ++ [mkMp (Some a) None PsNew]) (g_conns g) (upd (g_trk g) j (TPStart k ips)) (u64 (g_num g + 1)) (g_stop g) (g_panic g)).
  assert (C1 : nth_error (g_trk g1) j = Some (TPStart k ips)) by (eapply nth_upd_same; eauto).
  eassert (S1 : mexec 0 j (mkMx g t int) _ (mkMx g1 (t + 0) int)).
  { apply (step_ok j g t int (TInit (Some a :: ips)) no 0 0 g1 [GAdd j (Some a) true]); auto; [cbn; lia|].
    cbn [tstep]. unfold AddPeer. rewrite G4, HP. reflexivity. }
  set (g2 := set_trk g1 j (TPDial k 0 ips)).
  eassert (S2 : mexec 0 j (mkMx g1 (t + 0) int) _ (mkMx g2 (t + 0 + 0) int)).
  { apply (step_ok j g1 (t + 0) int (TPStart k ips) no 0 0 g2 []); auto; [cbn; lia|]. cbn [tstep]. cbn [g1 g_cancel]. rewrite G2. reflexivity. }
  assert (GD : good j g2 m' (TPDial k 0 ips)) by (constructor; auto; eapply nth_upd_same; eauto).
  assert (HK : has g2 k).
  { exists (mkMp (Some a) None PsNew), a. split; [|reflexivity]. cbn [g2 set_trk g1 g_peers]. unfold k. rewrite nth_error_app2, Nat.sub_diag by lia. reflexivity. }
  destruct (some_attempts j m' k ips int 4 0 g2 (t + 0 + 0) eq_refl GD HK) as (tr & g3 & E3 & G3' & Q3 & A3).
  replace (t + 0 + 0 + full - cost 0 0) with (t + full) in E3 by (unfold cost; cbn; lia).
  eexists _, _, g3. split; [|split; [exact G3'|]].
  - change (?s :: ?tr) with ([s] ++ tr). eapply mexec_trans; [exact S1|]. eapply mexec_trans; [exact S2|exact E3].
  - split; [|split; [|split]].
    + intros s [<-|[<-|HI]]; [reflexivity|reflexivity|auto].
    + reflexivity.
    + reflexivity.
    + change (?s :: ?tr) with ([s] ++ tr). rewrite taken_app, taken_app, (taken_none tr) by assumption. reflexivity.
Qed.
Lemma addresses j int : forall ips g m t rest, good j g m (TInit (ips ++ rest)) -> Forall dialable ips -> NoDup (map apString ips) -> (forall a, In a ips -> ~ In (apString a) (map fst m)) ->
  exists tr g' m', mexec 0 j (mkMx g t int) tr (mkMx g' (t + zlen ips * full) int) /\ good j g' m' (TInit rest) /\ no_ann tr /\ taken tr = zlen ips /\
    (forall k, In k (map fst m') <-> In k (map fst m) \/ In k (map apString ips)).
Proof.
  induction ips as [|a ips IH]; intros g m t rest HG HD HN HF.
  - exists [], g, m. change (zlen (@nil addrport)) with 0. replace (t + 0 * full) with t by lia. split; [constructor|]. split; [exact HG|]. split; [intros s []|]. split; [reflexivity|]. cbn. tauto.
  - inversion HD as [|? ? D1 D2]; subst. destruct a as [a|]; [|now destruct D1]. cbn [map] in HN. apply NoDup_cons_iff in HN. destruct HN as [N1 N2].
    assert (PG : pool_get m (apString (Some a)) = None) by (apply pool_get_none; apply HF; now left).
    destruct (one_address j g m a (ips ++ rest) t int HG PG) as (s & tr1 & g1 & E1 & G1 & Q1 & A1 & F1 & T1).
    destruct (IH g1 _ (t + full) rest G1 D2 N2) as (tr2 & g2 & m2 & E2 & G2 & Q2 & T2 & M2).
    { intros b HB. rewrite map_app. cbn [map fst]. intros HI. apply in_app_or in HI. destruct HI as [HI|[HI|[]]].
      - revert HI. apply HF. now right.
      - apply N1. rewrite HI. apply in_map. assumption. }
    exists ((s :: tr1) ++ tr2), g2, m2. rewrite zlen_cons. replace (t + full + zlen ips * full) with (t + (1 + zlen ips) * full) in E2 by ring.
    replace (zlen ips + 1) with (1 + zlen ips) by lia.
    split; [eapply mexec_trans; eauto|]. split; [assumption|]. split; [|split].
    + intros z HI. apply in_app_or in HI. destruct HI; auto.
    + rewrite taken_app, T1, T2. reflexivity.
    + intros k. rewrite M2, map_app, in_app_iff. cbn [map fst In]. tauto.
Qed.

Definition reply (ips : list addrport) : tin := mkTin true (AnnOk ips) true true true.
Lemma first_reply limit ips int : exists tr s g k, mexec 0 0 (start limit) (tr ++ [s]) (mkMx g 0 int) /\ good 0 g [] (TInit ips) /\ no_ann tr /\ calls_of s = [k] /\
  k_end k = 0 /\ k_ok k = true /\ k_int k = int /\ dial_starts (tr ++ [s]) = [].
Proof.
  unfold start. cbn [gexec NewMng g_panic g_started fst repeat g_limit g_cancel g_pool g_peers g_conns g_num g_stop].
  set (g0 := mkMgr limit true false (Some []) [] [] [TNew] 0 false false).
  set (g1 := set_trk g0 0 TStart). set (g2 := set_trk g1 0 (TTry 0)). set (g3 := set_trk g2 0 (TInit ips)).
  eassert (S1 : mexec 0 0 (mkMx g0 0 (60 * sec)) _ (mkMx g1 (0 + 0) (60 * sec))).
  { apply (step_ok 0 g0 0 (60 * sec) TNew no 0 0 g1 []); try reflexivity. cbn [takes]. unfold DialTimeout, second. lia. }
  eassert (S2 : mexec 0 0 (mkMx g1 (0 + 0) (60 * sec)) _ (mkMx g2 (0 + 0 + 0) (60 * sec))).
  { apply (step_ok 0 g1 (0 + 0) (60 * sec) TStart no 0 0 g2 [GRound 0]); try reflexivity. cbn [takes]. lia. }
  eassert (S3 : mexec 0 0 (mkMx g2 (0 + 0 + 0) (60 * sec)) _ (mkMx g3 (0 + 0 + 0 + 0) int)).
  { apply (step_ok 0 g2 (0 + 0 + 0) (60 * sec) (TTry 0) (reply ips) 0 int g3 [GAnn 0 true]); try reflexivity. cbn [takes]. lia. }
  eexists _, _, g3, _. split; [|split; [|split; [|split; [|split; [|split; [|split]]]]]].
  - eapply mexec_trans; [eapply mexec_trans; [exact S1|exact S2]|exact S3].
  - constructor; reflexivity.
  - intros s [<-|[<-|[]]]; reflexivity.
  - reflexivity.
  - reflexivity.
  - reflexivity.
  - reflexivity.
  - reflexivity.
Qed.
Lemma no_ann_calls tr : no_ann tr -> calls tr = [].
Proof.
  intros H. apply flat_nil. intros s HI. apply no_calls. intros e HE. destruct (is_ann e) eqn:E; [|reflexivity].
  specialize (H s HI). unfold happens in H. assert (existsb is_ann (ms_es s) = true) by (apply existsb_exists; eauto). congruence.
Qed.
Lemma slow_address limit ips a (int : Z) : Forall dialable (ips ++ [a]) -> NoDup (map apString (ips ++ [a])) ->
  exists ta s1 tb s2 tc x k1, mexec 0 0 (start limit) (ta ++ s1 :: tb ++ s2 :: tc) x /\ calls_of s1 = [k1] /\ k_ok k1 = true /\ no_ann tb /\ happens is_add s2 = true /\ taken tb = zlen ips /\
    ms_from s2 - k_end k1 = zlen ips * (20 * sec + 7500).
Proof.
  intros HD HN. destruct (first_reply limit (ips ++ [a]) int) as (ta & s1 & g1 & k1 & E1 & G1 & Q1 & K1 & KE & KO & KI & _).
  apply Forall_app in HD. destruct HD as [HD1 HD2]. rewrite map_app in HN.
  assert (HN1 : NoDup (map apString ips)) by (clear - HN; induction (map apString ips) as [|x l IH]; cbn in *; [constructor|]; inversion HN; subst; constructor; [intros HI; apply H1; apply in_or_app; now left|auto]).
  destruct (addresses 0 int ips g1 [] 0 [a] G1 HD1 HN1 ltac:(intros b _ [])) as (tb & g2 & m2 & E2 & G2 & Q2 & T2 & M2).
  inversion HD2 as [|? ? D1 D2]; subst. destruct a as [a|]; [|now destruct D1].
  assert (PG : pool_get m2 (apString (Some a)) = None).
  { apply pool_get_none. rewrite M2. cbn. intros [[]|HI]. clear - HN HI. induction (map apString ips) as [|x l IH]; cbn in *; [assumption|].
    inversion HN; subst. destruct HI as [->|HI]; [apply H1; apply in_or_app; right; now left|auto]. }
  destruct (one_address 0 g2 m2 a [] (0 + zlen ips * full) (k_int k1) G2 PG) as (s2 & tc & g3 & E3 & _ & _ & A3 & F3 & _).
  exists ta, s1, tb, s2, tc, (mkMx g3 (0 + zlen ips * full + full) (k_int k1)), k1.
  split; [|repeat split; auto].
  - replace (ta ++ s1 :: tb ++ s2 :: tc) with ((ta ++ [s1]) ++ tb ++ s2 :: tc) by (rewrite <- app_assoc; reflexivity).
    eapply mexec_trans; [exact E1|]. eapply mexec_trans; [exact E2|exact E3].
  - rewrite F3, KE. unfold full. lia.
Qed.
Lemma slow_announce limit ips int : Forall dialable ips -> NoDup (map apString ips) ->
  exists ta s1 tb s2 x k1 k2, mexec 0 0 (start limit) (ta ++ s1 :: tb ++ [s2]) x /\ calls_of s1 = [k1] /\ k_ok k1 = true /\ k_int k1 = int /\ calls ta = [] /\ no_ann tb /\ taken tb = zlen ips /\
    calls_of s2 = [k2] /\ k_start k2 - k_end k1 = Z.max 0 int + zlen ips * (20 * sec + 7500).
Proof.
  intros HD HN. destruct (first_reply limit ips int) as (ta & s1 & g1 & k1 & E1 & G1 & Q1 & K1 & KE & KO & KI & _).
  rewrite <- (app_nil_r ips) in G1.
  destruct (addresses 0 int ips g1 [] 0 [] G1 HD HN ltac:(intros b _ [])) as (tb & g2 & m2 & E2 & [H1 H2 H3 H4 H5] & Q2 & T2 & M2).
  set (t := 0 + zlen ips * full) in *.
  set (g3 := set_trk g2 0 TWait). set (g4 := set_trk g3 0 TStart). set (g5 := set_trk g4 0 (TTry 0)). set (g6 := set_trk g5 0 (TInit [])).
  assert (C3 : nth_error (g_trk g3) 0 = Some TWait) by (eapply nth_upd_same; eauto).
  assert (C4 : nth_error (g_trk g4) 0 = Some TStart) by (eapply nth_upd_same; eauto).
  assert (C5 : nth_error (g_trk g5) 0 = Some (TTry 0)) by (eapply nth_upd_same; eauto).
  eassert (S1 : mexec 0 0 (mkMx g2 t int) _ (mkMx g3 (t + 0) int)).
  { apply (step_ok 0 g2 t int (TInit []) no 0 0 g3 []); auto. cbn [takes]. lia. }
  eassert (S2 : mexec 0 0 (mkMx g3 (t + 0) int) _ (mkMx g4 (t + 0 + Z.max 0 int) int)).
  { apply (step_ok 0 g3 (t + 0) int TWait no (Z.max 0 int) 0 g4 []); auto. cbn [takes]. unfold waits. cbn [i_timer no]. lia. }
  eassert (S3 : mexec 0 0 (mkMx g4 (t + 0 + Z.max 0 int) int) _ (mkMx g5 (t + 0 + Z.max 0 int + 0) int)).
  { apply (step_ok 0 g4 (t + 0 + Z.max 0 int) int TStart no 0 0 g5 [GRound 0]); auto; [cbn [takes]; lia|]. cbn [tstep]. cbn [g4 g3 set_trk g_cancel]. rewrite H2. reflexivity. }
  eassert (S4 : mexec 0 0 (mkMx g5 (t + 0 + Z.max 0 int + 0) int) _ (mkMx g6 (t + 0 + Z.max 0 int + 0 + 0) int)).
  { apply (step_ok 0 g5 (t + 0 + Z.max 0 int + 0) int (TTry 0) (reply []) 0 int g6 [GAnn 0 true]); auto. cbn [takes]. lia. }
  pose proof (mexec_trans _ _ _ _ _ _ _ E1 (mexec_trans _ _ _ _ _ _ _ E2 (mexec_trans _ _ _ _ _ _ _ S1 (mexec_trans _ _ _ _ _ _ _ S2 (mexec_trans _ _ _ _ _ _ _ S3 S4))))) as E.
  match type of E with mexec _ _ _ (_ ++ _ ++ [?a] ++ [?b] ++ [?c] ++ [?d]) ?x => exists ta, s1, (tb ++ [a; b; c]), d, x, k1 end. eexists.
  split; [|split; [exact K1|split; [exact KO|split; [exact KI|split; [apply no_ann_calls; exact Q1|]]]]].
  - match goal with |- mexec _ _ _ ?l _ => match type of E with mexec _ _ _ ?l' _ => replace l with l'; [exact E|] end end.
    rewrite <- !app_assoc. reflexivity.
  - split; [|split; [|split; [reflexivity|]]].
    + intros s HI. apply in_app_or in HI. destruct HI as [HI|HI]; [auto|]. cbn in HI. destruct HI as [<-|[<-|[<-|[]]]]; reflexivity.
    + rewrite taken_app, T2. rewrite (taken_none [_; _; _]); [lia|]. intros s [<-|[<-|[<-|[]]]]; reflexivity.
    + cbn [k_start ms_from]. rewrite KE. unfold t, full. ring.
Qed.

(* ---------- an address that refuses connections at once ---------- *)
Definition refuse : tin := mkTin true AnnErr true false false.
Lemma refused j g m k n ips t int : good j g m (TPDial k n ips) -> has g k ->
  exists s g', mexec 0 j (mkMx g t int) [s] (mkMx g' t int) /\ good j g' m (if Nat.eqb n 4 then TInit ips else TPBack k n ips) /\ has g' k /\ happens is_dial s = true /\ ms_from s = t.
Proof.
  intros [G1 G2 G3 G4 G5] (p & a & HP & HA).
  set (g0 := set_peers g (upd (g_peers g) k (mkMp (mp_addr p) None (mp_state p)))).
  assert (P1 : nth_error (g_peers g0) k = Some (mkMp (mp_addr p) None (mp_state p))) by (eapply nth_upd_same; eauto).
  eexists _, (after_failure g0 j k n ips). split; [|split; [|split; [|split]]].
  - replace (mkMx (after_failure g0 j k n ips) t int) with (mkMx (after_failure g0 j k n ips) (t + 0) int) by (f_equal; lia). apply (step_ok j g t int (TPDial k n ips) refuse 0 0 _ [GDial j k]); auto.
    + cbn [takes]. unfold DialTimeout, second. lia.
    + cbn [tstep]. rewrite HP. reflexivity.
    + unfold after_failure, peer_failed. rewrite P1. destruct (Nat.eqb n 4); exact G3.
  - unfold after_failure, peer_failed. rewrite P1. destruct (Nat.eqb n 4); constructor; auto; eapply nth_upd_same; eauto.
  - unfold after_failure, peer_failed. rewrite P1. destruct (Nat.eqb n 4); cbn [set_trk set_num set_peers g_peers].
    + eexists _, a. split; [eapply nth_upd_same; exact P1|]. exact HA.
    + eexists _, a. split; [exact P1|]. exact HA.
  - reflexivity.
  - reflexivity.
Qed.
Lemma waited j g m k n ips t int : (n <= 3)%nat -> good j g m (TPBack k n ips) -> has g k ->
  exists s g', mexec 0 j (mkMx g t int) [s] (mkMx g' (t + peer_delay n) int) /\ good j g' m (TPDial k (S n) ips) /\ has g' k /\ happens is_dial s = false /\ happens is_add s = false.
Proof.
  intros HN [G1 G2 G3 G4 G5] HK. eexists _, (set_trk g j (TPDial k (S n) ips)). split; [|split; [|split; [|split]]].
  - apply (step_ok j g t int (TPBack k n ips) no (peer_delay n) 0 _ []); auto. cbn [takes]. unfold waits. cbn [i_timer no]. lia.
  - constructor; auto. eapply nth_upd_same; eauto.
  - exact HK.
  - reflexivity.
  - reflexivity.
Qed.
Lemma quick_attempts limit (a : addrport) : a <> None -> exists tr x, mexec 0 0 (start limit) tr x /\ dial_starts tr = [0; 500; 1500; 3500; 7500].
Proof.
  intros HA. destruct a as [a|]; [|congruence].
  destruct (first_reply limit [Some a] (60 * sec)) as (ta & s1 & g & k1 & E1 & [G1 G2 G3 G4 G5] & _ & _ & _ & _ & _ & D1).
  set (g1 := mkMgr (g_limit g) (g_started g) (g_cancel g) (Some [(apString (Some a), length (g_peers g))]) (g_peers g ++ [mkMp (Some a) None PsNew]) (g_conns g)
               (upd (g_trk g) 0 (TPStart (length (g_peers g)) [])) (u64 (g_num g + 1)) (g_stop g) (g_panic g)).
  set (k := length (g_peers g)) in *. set (int := 60 * sec) in *.
  assert (C1 : nth_error (g_trk g1) 0 = Some (TPStart k [])) by (eapply nth_upd_same; eauto).
  eassert (S1 : mexec 0 0 (mkMx g 0 int) _ (mkMx g1 (0 + 0) int)).
  { apply (step_ok 0 g 0 int (TInit [Some a]) no 0 0 g1 [GAdd 0 (Some a) true]); auto; [cbn; lia|]. cbn [tstep]. unfold AddPeer. rewrite G4. reflexivity. }
  set (g2 := set_trk g1 0 (TPDial k 0 [])).
  eassert (S2 : mexec 0 0 (mkMx g1 (0 + 0) int) _ (mkMx g2 (0 + 0 + 0) int)).
  { apply (step_ok 0 g1 (0 + 0) int (TPStart k []) no 0 0 g2 []); auto; [cbn; lia|]. cbn [tstep]. cbn [g1 g_cancel]. rewrite G2. reflexivity. }
  assert (GD : good 0 g2 [(apString (Some a), k)] (TPDial k 0 [])) by (constructor; auto; eapply nth_upd_same; eauto).
  assert (HK : has g2 k).
  { exists (mkMp (Some a) None PsNew), a. split; [|reflexivity]. cbn [g2 set_trk g1 g_peers]. unfold k. rewrite nth_error_app2, Nat.sub_diag by lia. reflexivity. }
  cbn [Z.add] in *.
  destruct (refused _ _ _ _ _ _ 0 int GD HK) as (d0 & h0 & R0 & GH0 & K0 & I0 & T0). cbn [Nat.eqb] in GH0.
  destruct (waited _ _ _ _ 0%nat _ 0 int (proj1 (Nat.leb_le 0 3) eq_refl) GH0 K0) as (w0 & u0 & V0 & GU0 & L0 & X0 & _).
  destruct (refused _ _ _ _ _ _ (0 + peer_delay 0) int GU0 L0) as (d1 & h1 & R1 & GH1 & K1 & I1 & T1). cbn [Nat.eqb] in GH1.
  destruct (waited _ _ _ _ 1%nat _ (0 + peer_delay 0) int (proj1 (Nat.leb_le 1 3) eq_refl) GH1 K1) as (w1 & u1 & V1 & GU1 & L1 & X1 & _).
  destruct (refused _ _ _ _ _ _ (0 + peer_delay 0 + peer_delay 1) int GU1 L1) as (d2 & h2 & R2 & GH2 & K2 & I2 & T2). cbn [Nat.eqb] in GH2.
  destruct (waited _ _ _ _ 2%nat _ (0 + peer_delay 0 + peer_delay 1) int (proj1 (Nat.leb_le 2 3) eq_refl) GH2 K2) as (w2 & u2 & V2 & GU2 & L2 & X2 & _).
  destruct (refused _ _ _ _ _ _ (0 + peer_delay 0 + peer_delay 1 + peer_delay 2) int GU2 L2) as (d3 & h3 & R3 & GH3 & K3 & I3 & T3). cbn [Nat.eqb] in GH3.
  destruct (waited _ _ _ _ 3%nat _ (0 + peer_delay 0 + peer_delay 1 + peer_delay 2) int (proj1 (Nat.leb_le 3 3) eq_refl) GH3 K3) as (w3 & u3 & V3 & GU3 & L3 & X3 & _).
  destruct (refused _ _ _ _ _ _ (0 + peer_delay 0 + peer_delay 1 + peer_delay 2 + peer_delay 3) int GU3 L3) as (d4 & h4 & R4 & _ & _ & I4 & T4).
  pose proof (mexec_trans _ _ _ _ _ _ _ E1 (mexec_trans _ _ _ _ _ _ _ S1 (mexec_trans _ _ _ _ _ _ _ S2 (mexec_trans _ _ _ _ _ _ _ R0
    (mexec_trans _ _ _ _ _ _ _ V0 (mexec_trans _ _ _ _ _ _ _ R1 (mexec_trans _ _ _ _ _ _ _ V1 (mexec_trans _ _ _ _ _ _ _ R2 (mexec_trans _ _ _ _ _ _ _ V2
    (mexec_trans _ _ _ _ _ _ _ R3 (mexec_trans _ _ _ _ _ _ _ V3 R4))))))))))) as E.
  eexists _, _. split; [exact E|]. unfold dial_starts in *. rewrite filter_app, map_app, D1. cbn [app filter happens existsb is_dial ms_es orb].
  rewrite I0, I1, I2, I3, I4, X0, X1, X2, X3. cbn [map]. rewrite T0, T1, T2, T3, T4. reflexivity.
Qed.

(* ---------- what follows ---------- *)
Definition five : list addrport := map (fun i => Some (V4 [10; 0; 0; i], 6881)) [1; 2; 3; 4; 5].
Lemma five_ok : Forall dialable five /\ NoDup (map apString five).
Proof.
  split; [repeat constructor; discriminate|]. replace (map apString five) with (map (fun i => str "10.0.0." ++ [48 + i] ++ str ":6881") [1; 2; 3; 4; 5]) by (vm_compute; reflexivity).
  repeat constructor; cbn; intuition discriminate.
Qed.
Lemma not_late_refuted : ~ (forall j x0 ta s1 tb s2 tc x k1 k2, fresh j x0 -> mexec 0 j x0 (ta ++ s1 :: tb ++ s2 :: tc) x -> calls_of s1 = [k1] -> no_ann tb -> calls_of s2 = [k2] ->
  k_start k2 - k_end k1 <= pause (calls ta) k1 + 60 * sec).
Proof.
  intros H. destruct five_ok as [F1 F2]. destruct (slow_announce 30 five (1800 * sec) F1 F2) as (ta & s1 & tb & s2 & x & k1 & k2 & E & K1 & KO & KI & CA & Q & _ & K2 & KE).
  specialize (H 0%nat (start 30) ta s1 tb s2 [] x k1 k2 (conj eq_refl eq_refl) E K1 Q K2). rewrite KE, CA, pause_round in H by (cbn; rewrite KO; reflexivity).
  rewrite KI in H. unfold sec in H. cbn in H. lia.
Qed.
Lemma soon_refuted : ~ (forall j x0 ta s1 tb s2 tc x k1, fresh j x0 -> mexec 0 j x0 (ta ++ s1 :: tb ++ s2 :: tc) x -> calls_of s1 = [k1] -> no_ann tb -> happens is_add s2 = true ->
  ms_from s2 - k_end k1 <= 60 * sec).
Proof.
  intros H. destruct five_ok as [F1 F2]. destruct (slow_address 30 (removelast five) (Some (V4 [10; 0; 0; 5], 6881)) 0 F1 F2) as (ta & s1 & tb & s2 & tc & x & k1 & E & K1 & _ & Q & A & _ & KE).
  specialize (H 0%nat (start 30) ta s1 tb s2 tc x k1 (conj eq_refl eq_refl) E K1 Q A). rewrite KE in H. unfold sec in H. cbn in H. lia.
Qed.
Lemma dials_split tr a b l : dial_starts tr = a :: b :: l -> exists ta s1 tb s2 tc, tr = ta ++ s1 :: tb ++ s2 :: tc /\ happens is_dial s1 = true /\ (forall s, In s tb -> happens is_dial s = false) /\
  happens is_dial s2 = true /\ ms_from s1 = a /\ ms_from s2 = b.
Proof.
  unfold dial_starts. induction tr as [|s tr IH]; cbn; [discriminate|]. destruct (happens is_dial s) eqn:D.
  - intros H. injection H as H1 H2. assert (G : exists tb s2 tc, tr = tb ++ s2 :: tc /\ (forall s, In s tb -> happens is_dial s = false) /\ happens is_dial s2 = true /\ ms_from s2 = b).
    { clear - H2. induction tr as [|s tr IH]; cbn in *; [discriminate|]. destruct (happens is_dial s) eqn:D.
      - injection H2 as H1 _. exists [], s, tr. repeat split; auto. intros ? [].
      - destruct (IH H2) as (tb & s2 & tc & -> & Q & D2 & F). exists (s :: tb), s2, tc. repeat split; auto. intros z [<-|HI]; auto. }
    destruct G as (tb & s2 & tc & -> & Q & D2 & F). exists [], s, tb, s2, tc. repeat split; auto.
  - intros H. destruct (IH H) as (ta & s1 & tb & s2 & tc & -> & R). exists (s :: ta), s1, tb, s2, tc. split; [reflexivity|exact R].
Qed.
Lemma half_second_refuted : ~ (forall j x0 ta s1 tb s2 tc x, fresh j x0 -> mexec 0 j x0 (ta ++ s1 :: tb ++ s2 :: tc) x ->
  happens is_dial s1 = true -> (forall s, In s tb -> happens is_dial s = false) -> happens is_dial s2 = true -> 500 * ms <= ms_from s2 - ms_from s1).
Proof.
  intros H. destruct (quick_attempts 30 (Some (V4 [10; 0; 0; 1], 6881)) ltac:(discriminate)) as (tr & x & E & D).
  destruct (dials_split _ _ _ _ D) as (ta & s1 & tb & s2 & tc & -> & D1 & Q & D2 & F1 & F2).
  specialize (H 0%nat (start 30) ta s1 tb s2 tc x (conj eq_refl eq_refl) E D1 Q D2). rewrite F1, F2 in H. unfold ms in H. lia.
Qed.
(* an announce that fails and is repeated *)
Definition failing : tin := mkTin true AnnErr true true true.
Lemma one_failure limit : exists tr x k1 k2, mexec 0 0 (start limit) tr x /\ calls tr = [k1; k2] /\ k_ok k1 = false /\ k_start k2 - k_end k1 = 1 * sec.
Proof.
  unfold start. cbn [gexec NewMng g_panic g_started fst repeat g_limit g_cancel g_pool g_peers g_conns g_num g_stop].
  set (g0 := mkMgr limit true false (Some []) [] [] [TNew] 0 false false). set (int := 60 * sec).
  set (g1 := set_trk g0 0 TStart). set (g2 := set_trk g1 0 (TTry 0)). set (g3 := set_trk g2 0 (TBack 0)). set (g4 := set_trk g3 0 (TTry 1)). set (g5 := set_trk g4 0 (TBack 1)).
  eassert (S1 : mexec 0 0 (mkMx g0 0 int) _ (mkMx g1 (0 + 0) int)).
  { apply (step_ok 0 g0 0 int TNew failing 0 0 g1 []); try reflexivity. cbn [takes]. unfold DialTimeout, second. lia. }
  eassert (S2 : mexec 0 0 (mkMx g1 (0 + 0) int) _ (mkMx g2 (0 + 0 + 0) int)).
  { apply (step_ok 0 g1 (0 + 0) int TStart failing 0 0 g2 [GRound 0]); try reflexivity. cbn [takes]. lia. }
  eassert (S3 : mexec 0 0 (mkMx g2 (0 + 0 + 0) int) _ (mkMx g3 (0 + 0 + 0 + sec) int)).
  { apply (step_ok 0 g2 (0 + 0 + 0) int (TTry 0) failing sec int g3 [GAnn 0 false]); try reflexivity. cbn [takes]. unfold sec. lia. }
  eassert (S4 : mexec 0 0 (mkMx g3 (0 + 0 + 0 + sec) int) _ (mkMx g4 (0 + 0 + 0 + sec + sec) int)).
  { apply (step_ok 0 g3 (0 + 0 + 0 + sec) int (TBack 0) failing sec int g4 []); try reflexivity. cbn [takes]. unfold waits. rewrite tracker_delay_eq by lia. cbn [i_timer failing]. unfold sec. cbn. lia. }
  eassert (S5 : mexec 0 0 (mkMx g4 (0 + 0 + 0 + sec + sec) int) _ (mkMx g5 (0 + 0 + 0 + sec + sec + 0) int)).
  { apply (step_ok 0 g4 (0 + 0 + 0 + sec + sec) int (TTry 1) failing 0 int g5 [GAnn 0 false]); try reflexivity. cbn [takes]. lia. }
  eexists _, _, _, _. split; [|split; [|split]].
  - exact (mexec_trans _ _ _ _ _ _ _ S1 (mexec_trans _ _ _ _ _ _ _ S2 (mexec_trans _ _ _ _ _ _ _ S3 (mexec_trans _ _ _ _ _ _ _ S4 S5)))).
  - reflexivity.
  - reflexivity.
  - reflexivity.
Qed.
