(* Lemmas about the times of announces and connection attempts.                 *)
From Verif Require Import Base ProofBase ModelTracker ModelSystem ModelTimed ModelManager ModelClock SpecTimed SpecManager SpecClock ProofSystem ProofManager.

(* ---------- steps of the goroutine without the rest of the state ---------- *)
Definition after (k n : nat) (ips : list addrport) (c' : tpc) : Prop := c' = if Nat.eqb n 4 then TInit ips else TPBack k n ips.
Definition trans (j : nat) (c : tpc) (i : tin) (es : list gev) (c' : tpc) : Prop :=
  match c with
  | TNew => es = [] /\ (c' = TStart \/ c' = TEnd)
  | TStart => es = [] /\ c' = TEnd \/ es = [GRound j] /\ c' = TTry 0
  | TTry n => (exists ips, es = [GAnn j true] /\ c' = TInit ips) \/
              es = [GAnn j false] /\ if Nat.eqb n 4 then c' = TEnd \/ c' = TWait else c' = TBack n
  | TBack n => es = [] /\ if i_timer i then c' = TTry (S n) else c' = TEnd
  | TInit [] => es = [] /\ c' = TWait
  | TInit (a :: ips) => (exists k, es = [GAdd j a true] /\ c' = TPStart k ips) \/ es = [GAdd j a false] /\ c' = TInit ips
  | TPStart k ips => es = [] /\ (c' = TInit ips \/ c' = TPDial k 0 ips)
  | TPDial k n ips => es = [GDial j k] /\ (c' = TPShake k n ips \/ after k n ips c')
  | TPShake k n ips => es = [GRun j k] /\ c' = TInit ips \/ es = [] /\ after k n ips c'
  | TPBack k n ips => es = [] /\ if i_timer i then c' = TPDial k (S n) ips else c' = TInit ips
  | TWait => es = [] /\ if i_timer i then c' = TStart else c' = TEnd
  | TEnd => False
  end.
Lemma nth_upd_same {A} (l : list A) k x y : nth_error l k = Some y -> nth_error (upd l k x) k = Some x.
Proof. revert k. induction l as [|z l IH]; intros [|k] H; cbn in *; try discriminate; auto. Qed.
Lemma nth_upd_other {A} (l : list A) k x k' : k' <> k -> nth_error (upd l k x) k' = nth_error l k'.
Proof. revert k k'. induction l as [|z l IH]; intros [|k] [|k'] H; cbn in *; auto; try congruence. Qed.
Lemma trk_set g j c c0 : nth_error (g_trk g) j = Some c0 -> nth_error (g_trk (set_trk g j c)) j = Some c.
Proof. intros H. cbn. eapply nth_upd_same; eauto. Qed.
Lemma trk_failed g k : g_trk (peer_failed g k) = g_trk g.
Proof. unfold peer_failed. destruct (nth_error (g_peers g) k); reflexivity. Qed.
Lemma trk_set_failed g k j c c0 : nth_error (g_trk g) j = Some c0 -> nth_error (g_trk (set_trk (peer_failed g k) j c)) j = Some c.
Proof. intros H. apply trk_set with c0. now rewrite trk_failed. Qed.
Lemma trk_after g j k n ips c0 : nth_error (g_trk g) j = Some c0 ->
  nth_error (g_trk (after_failure g j k n ips)) j = Some (if Nat.eqb n 4 then TInit ips else TPBack k n ips).
Proof. intros H. unfold after_failure. destruct (Nat.eqb n 4); [eapply trk_set_failed|eapply trk_set]; eauto. Qed.
Lemma tstep_trans g j c i g' es : nth_error (g_trk g) j = Some c -> tstep g j c i = Some (g', es) -> g_panic g' = false ->
  exists c', nth_error (g_trk g') j = Some c' /\ trans j c i es c'.
Proof.
  intros HC HT HP. unfold tstep in HT.
  destruct c as [| |n|n|[|a ips]|k ips|k n ips|k n ips|k n ips| |]; cbn [trans].
  - inversion HT; subst. eexists. split; [eapply trk_set; eauto|]. destruct (i_new i); auto.
  - destruct (g_cancel g); inversion HT; subst; eexists; (split; [eapply trk_set; eauto|]); auto.
  - destruct (i_ann i); inversion HT; subst; try (cbn in HP; discriminate HP); eexists; (split; [eapply trk_set; eauto|]).
    + left. eauto.
    + right. split; auto. destruct (Nat.eqb n 4); auto.
    + right. split; auto. destruct (Nat.eqb n 4); auto. destruct (g_cancel g); auto.
  - destruct (i_timer i); [|destruct (g_cancel g); [|discriminate]]; inversion HT; subst; eexists; (split; [eapply trk_set; eauto|]); auto.
  - inversion HT; subst. eexists. split; [eapply trk_set; eauto|]. auto.
  - unfold AddPeer in HT. destruct (g_pool g) as [m|].
    2:{ inversion HT; subst. cbn in HP. discriminate. }
    destruct (pool_get m (apString a)); inversion HT; subst; eexists.
    + split; [eapply trk_set; eauto|]. auto.
    + split; [eapply trk_set; cbn; eauto|]. left. eauto.
  - destruct (g_cancel g); inversion HT; subst; eexists; (split; [first [eapply trk_set_failed; eauto|eapply trk_set; eauto]|]); auto.
  - destruct (nth_error (g_peers g) k) as [p|]; [|discriminate].
    destruct (i_dial i && _); inversion HT; subst; eexists.
    + split; [cbn; eapply nth_upd_same; eauto|]. auto.
    + split; [eapply trk_after; cbn; eauto|]. split; auto. right. reflexivity.
  - destruct (i_shake i).
    + destruct (nth_error (g_peers g) k) as [p|]; [|discriminate]. inversion HT; subst. eexists. split; [eapply trk_set; cbn; eauto|]. auto.
    + inversion HT; subst. eexists. split; [eapply trk_after; eauto|]. right. split; [auto|reflexivity].
  - destruct (i_timer i); [|destruct (g_cancel g); [|discriminate]]; inversion HT; subst; eexists;
      (split; [first [eapply trk_set_failed; eauto|eapply trk_set; eauto]|]); auto.
  - destruct (i_timer i); [|destruct (g_cancel g); [|discriminate]]; inversion HT; subst; eexists; (split; [eapply trk_set; eauto|]); auto.
  - discriminate.
Qed.

(* ---------- the others leave goroutine j where it is ---------- *)
Definition same_trk (j : nat) (g g' : mgr) : Prop := g_started g = true -> g_started g' = true /\ nth_error (g_trk g') j = nth_error (g_trk g) j.
Lemma started_failed g k : g_started (peer_failed g k) = g_started g.
Proof. unfold peer_failed. destruct (nth_error (g_peers g) k); reflexivity. Qed.
Lemma tstep_local g j c i g' es : tstep g j c i = Some (g', es) -> g_started g' = g_started g /\ (g_trk g' = g_trk g \/ exists c', g_trk g' = upd (g_trk g) j c').
Proof.
  intros HT. unfold tstep, after_failure, AddPeer in HT.
  destruct c as [| |n|n|[|a ips]|k ips|k n ips|k n ips|k n ips| |].
  6: destruct (g_pool g) as [m|]; [destruct (pool_get m (apString a))|].
  all: repeat first [discriminate HT | match type of HT with
         | context [match ?y with _ => _ end] => first [is_var y; destruct y|destruct y eqn:?]
         end].
  all: inversion HT; subst; cbn [g_started g_trk set_trk set_panic set_peers].
  all: rewrite ?started_failed, ?trk_failed; cbn [g_started g_trk set_trk set_panic set_peers]; split; auto; eauto.
Qed.
Lemma gexec_foreign j a g g' es : foreign j a -> gexec a g = (g', es) -> same_trk j g g'.
Proof.
  intros HF HE HS. unfold gexec in HE. destruct (g_panic g); [inversion HE; subst; auto|].
  destruct a as [n|j' i|k| | |]; cbn in HF.
  - rewrite HS in HE. inversion HE; subst. auto.
  - destruct (nth_error (g_trk g) j') as [c|]; [|inversion HE; subst; auto].
    destruct (tstep g j' c i) as [[g1 e1]|] eqn:T; inversion HE; subst; auto.
    apply tstep_local in T. destruct T as [T1 [T2|[c' T2]]]; rewrite T1, T2; split; auto.
    apply nth_upd_other. auto.
  - destruct (nth_error (g_peers g) k) as [p|]; [|inversion HE; subst; auto]. destruct (mp_state p); inversion HE; subst; auto.
  - inversion HE; subst; auto.
  - destruct (g_stop g); inversion HE; subst; auto. unfold stop_check. destruct (g_pool g); auto. rewrite HS. auto.
  - destruct (g_stop g); inversion HE; subst; auto. unfold stop_close. destruct (close_all g _ (g_conns g)); auto.
Qed.
Lemma grun_foreign j l g g' es : Forall (foreign j) l -> grun l g = (g', es) -> same_trk j g g'.
Proof.
  revert g g' es. induction l as [|a l IH]; intros g g' es HF HR; cbn in HR.
  - inversion HR; subst. intros H. auto.
  - inversion HF; subst. destruct (gexec a g) as [g1 e1] eqn:E1. destruct (grun l g1) as [g2 e2] eqn:E2. inversion HR; subst.
    intros HS. destruct (gexec_foreign _ _ _ _ _ H1 E1 HS) as [S1 N1]. destruct (IH _ _ _ H2 E2 S1) as [S2 N2]. split; congruence.
Qed.

(* ---------- a step of an execution ---------- *)
Definition pc_of (j : nat) (x : mstate) (c : tpc) : Prop := g_started (m_g x) = true /\ nth_error (g_trk (m_g x)) j = Some c.
Lemma mxstep_trans lag j a x c0 c es x' : pc_of j x c0 -> mxstep lag j a x c es x' ->
  c = c0 /\ takes lag c (mi_i a) (m_int x) (mi_el a) /\ m_now x' = m_now x + mi_el a /\ m_int x' = next_int c (m_int x) (mi_int a) /\
  exists c', pc_of j x' c' /\ trans j c (mi_i a) es c'.
Proof.
  intros [HS HN] (HF & g0 & tr0 & g' & HR & HP & HC & HT & HX & HP' & ->).
  destruct (grun_foreign _ _ _ _ _ HF HR HS) as [S0 N0]. rewrite HN, HC in N0. injection N0 as ->.
  destruct (tstep_trans _ _ _ _ _ _ HC HX HP') as (c' & C' & TR). apply tstep_local in HX. destruct HX as [HX _].
  repeat split; auto. exists c'. split; [|assumption]. split; cbn; congruence.
Qed.
Lemma mexec_app lag j x0 ta tb x : mexec lag j x0 (ta ++ tb) x <-> exists x1, mexec lag j x0 ta x1 /\ mexec lag j x1 tb x.
Proof.
  split.
  - revert x. induction tb as [|s tb IH] using rev_ind; intros x H.
    + rewrite app_nil_r in H. exists x. split; [assumption|constructor].
    + rewrite app_assoc in H. remember ((ta ++ tb) ++ [s]) as l eqn:EL. destruct H as [x|x0 tr x a c es x' H1 H2].
      * destruct (ta ++ tb); discriminate.
      * apply app_inj_tail in EL. destruct EL as [-> <-]. destruct (IH _ H1) as (x2 & E1 & E2). exists x2. split; [assumption|]. econstructor; eauto.
  - intros (x1 & H1 & H2). induction H2.
    + now rewrite app_nil_r.
    + rewrite app_assoc. econstructor; eauto.
Qed.
(* an invariant of the goroutine, with the steps so far *)
Lemma mexec_inv lag j (I : tpc -> mstate -> list mstep -> Prop) x0 : forall tr x,
  (forall ta s tb y c a c' y', tr = ta ++ s :: tb -> pc_of j y c -> I c y ta -> takes lag c (mi_i a) (m_int y) (mi_el a) -> m_now y' = m_now y + mi_el a ->
     m_int y' = next_int c (m_int y) (mi_int a) -> trans j c (mi_i a) (ms_es s) c' -> s = mkMS (m_now y) c a (ms_es s) (m_now y') (m_int y') -> I c' y' (ta ++ [s])) ->
  (exists c0, pc_of j x0 c0 /\ I c0 x0 []) -> mexec lag j x0 tr x -> exists c, pc_of j x c /\ I c x tr.
Proof.
  intros tr x HS H0 HE. induction HE as [x|x0 tr x a c es x' HE IH HX]; [assumption|].
  destruct IH as (c0 & PC & HI); auto.
  { intros. eapply HS; eauto. rewrite H, <- app_assoc. reflexivity. }
  destruct (mxstep_trans _ _ _ _ _ _ _ _ PC HX) as (-> & HT & HN & HM & c' & PC' & TR).
  exists c'. split; [assumption|]. apply (HS tr (mkMS (m_now x) c0 a es (m_now x') (m_int x')) [] x c0 a); auto.
Qed.

(* ---------- announces ---------- *)
Lemma calls_snoc tr s : calls (tr ++ [s]) = calls tr ++ calls_of s.
Proof. unfold calls. rewrite flat_map_app. cbn. now rewrite app_nil_r. Qed.
Lemma streak_snoc l k : streak (l ++ [k]) = if k_ok k then 0%nat else S (streak l).
Proof. unfold streak. rewrite fold_left_app. reflexivity. Qed.
Lemma tracker_delay_eq n : (n <= 3)%nat -> tracker_delay n = sec * 2 ^ Z.of_nat n.
Proof. intros H. do 4 (destruct n as [|n]; [reflexivity|]). lia. Qed.
Lemma peer_delay_eq n : (n <= 3)%nat -> peer_delay n = 500 * 2 ^ Z.of_nat n.
Proof. intros H. do 4 (destruct n as [|n]; [reflexivity|]). lia. Qed.
Lemma mod5_succ n m : (n mod 5 = m)%nat -> (m <= 3)%nat -> (S n mod 5 = S m)%nat.
Proof.
  intros H HM. pose proof (Nat.div_mod n 5 ltac:(lia)) as D. rewrite H in D.
  symmetry. apply (Nat.mod_unique (S n) 5 (n / 5) (S m)); lia.
Qed.
Lemma mod5_wrap n : (n mod 5 = 4)%nat -> (S n mod 5 = 0)%nat.
Proof.
  intros H. pose proof (Nat.div_mod n 5 ltac:(lia)) as D. rewrite H in D.
  symmetry. apply (Nat.mod_unique (S n) 5 (S (n / 5)) 0); lia.
Qed.
Lemma two_snoc {A} (cs : list A) b l1 x y l2 : cs ++ [b] = l1 ++ x :: y :: l2 -> (exists l2', cs = l1 ++ x :: y :: l2') \/ cs = l1 ++ [x] /\ b = y.
Proof.
  destruct l2 as [|z l2] using rev_ind; intros H.
  - right. change [x; y] with ([x] ++ [y]) in H. rewrite app_assoc in H. apply app_inj_tail in H. tauto.
  - left. exists l2. rewrite app_comm_cons, app_comm_cons, app_assoc in H. apply app_inj_tail in H. tauto.
Qed.

Definition spaced (cs : list call) : Prop := forall l1 a b l2, cs = l1 ++ a :: b :: l2 -> pause l1 a <= k_start b - k_end a.
Definition ripe (cs : list call) (now : Z) : Prop := cs = [] \/ exists l k, cs = l ++ [k] /\ pause l k <= now - k_end k.
Lemma spaced_snoc cs b : spaced cs -> ripe cs (k_start b) -> spaced (cs ++ [b]).
Proof.
  intros HS HR l1 x y l2 E. apply two_snoc in E. destruct E as [[l2' E]|[E ->]]; [eapply HS; eauto|].
  destruct HR as [HR|(l & k & E2 & HP)].
  - rewrite HR in E. destruct l1; discriminate.
  - rewrite E2 in E. apply app_inj_tail in E. destruct E as [-> ->]. exact HP.
Qed.
Lemma pause_round l k : (streak (l ++ [k]) mod 5 = 0)%nat -> pause l k = Z.max 0 (k_int k).
Proof. intros H. unfold pause. rewrite H. reflexivity. Qed.
Lemma pause_back l k n : (streak (l ++ [k]) mod 5 = S n)%nat -> pause l k = sec * 2 ^ Z.of_nat n.
Proof. intros H. unfold pause. rewrite H. cbn [Nat.eqb]. do 3 f_equal. lia. Qed.

Definition pace_at (c : tpc) (y : mstate) (cs : list call) : Prop :=
  match c with
  | TNew => cs = []
  | TStart => ripe cs (m_now y) /\ (streak cs mod 5 = 0)%nat
  | TTry n => ripe cs (m_now y) /\ (streak cs mod 5 = n)%nat /\ (n <= 4)%nat
  | TBack n => (streak cs mod 5 = S n)%nat /\ (n <= 3)%nat /\ exists l k, cs = l ++ [k] /\ k_end k <= m_now y
  | TEnd => True
  | _ => (streak cs mod 5 = 0)%nat /\ exists l k, cs = l ++ [k] /\ k_end k <= m_now y /\ k_int k = m_int y
  end.
Lemma flat_nil {A B} (f : A -> list B) l : (forall x, In x l -> f x = []) -> flat_map f l = [].
Proof. intros H. induction l as [|x l IH]; [reflexivity|]. cbn. rewrite H by now left. apply IH. intros y Y. apply H. now right. Qed.
Lemma no_calls s : (forall e, In e (ms_es s) -> is_ann e = false) -> calls_of s = [].
Proof. intros H. apply flat_nil. intros e E. apply H in E. destruct e; try reflexivity. discriminate. Qed.
Lemma pace_inv lag j x0 tr x : 0 <= lag -> fresh j x0 -> mexec lag j x0 tr x -> exists c, pc_of j x c /\ spaced (calls tr) /\ pace_at c x (calls tr).
Proof.
  intros HL HF HE.
  apply (mexec_inv lag j (fun c y ta => spaced (calls ta) /\ pace_at c y (calls ta)) x0 tr x); [| |assumption].
  2:{ exists TNew. split; [assumption|]. split; [|reflexivity]. intros l1' ? ? ? E. destruct l1'; discriminate. }
  intros ta s tb y c i c' y' _ PC [HS HP] HT HN HI TR ->. cbn [ms_es] in TR. cbn [ms_es] in *. rewrite calls_snoc.
  remember (ms_es s) as es eqn:EES. clear EES s.
  assert (NC : (forall e, In e es -> is_ann e = false) -> calls_of (mkMS (m_now y) c i es (m_now y') (m_int y')) = []).
  { intros H. apply no_calls. exact H. }
  assert (RIPE : forall d, 0 <= d -> ripe (calls ta) (m_now y) -> ripe (calls ta) (m_now y + d)).
  { intros d D [R|(l & k & E & R)]; [left; assumption|right]. exists l, k. split; [assumption|lia]. }
  destruct c as [| |n|n|[|ad ips]|k ips|k n ips|k n ips|k n ips| |]; cbn [trans takes pace_at next_int] in *.
  - destruct TR as [-> TR]. rewrite NC, app_nil_r by (intros e []). split; [assumption|]. rewrite HP.
    destruct TR as [-> | ->]; cbn; [split; [now left|reflexivity]|exact I].
  - destruct TR as [[-> ->]|[-> ->]]; (rewrite NC, app_nil_r by (intros e HIn; cbn in HIn; now destruct HIn as [<-|[]] || destruct HIn)); (split; [assumption|]); cbn [pace_at]; auto.
    rewrite HN. intuition (auto; lia).
  - destruct HP as (HR & HM & HB). 
    destruct TR as [(ips & -> & ->)|[-> TR]]; cbn [calls_of ms_es flat_map ms_from ms_to ms_in app].
    + split; [apply spaced_snoc; assumption|]. cbn [pace_at]. rewrite streak_snoc. cbn [k_ok]. split; [reflexivity|].
      eexists _, _. split; [reflexivity|]. cbn. split; lia.
    + split; [apply spaced_snoc; assumption|].
      destruct (Nat.eqb_spec n 4) as [->|N4].
      * destruct TR as [-> | ->]; [exact I|]. cbn [pace_at]. rewrite streak_snoc. cbn [k_ok]. split; [apply mod5_wrap; assumption|].
        eexists _, _. split; [reflexivity|]. cbn. split; lia.
      * rewrite TR. cbn [pace_at]. rewrite streak_snoc. cbn [k_ok]. split; [apply mod5_succ; [assumption|lia]|]. split; [lia|].
        eexists _, _. split; [reflexivity|]. cbn. lia.
  - destruct TR as [-> TR]. rewrite NC, app_nil_r by (intros e []). split; [assumption|]. destruct HP as (HM & HB & l & k & E & HK).
    destruct HT as [HT1 HT2]. destruct (i_timer (mi_i i)); rewrite TR; [|exact I]. cbn [pace_at]. split; [|split; [assumption|lia]].
    right. exists l, k. split; [assumption|]. rewrite E in HM. rewrite (pause_back _ _ _ HM), <- tracker_delay_eq by assumption. lia.
  - destruct TR as [-> ->]. rewrite NC, app_nil_r by (intros e []). split; [assumption|]. cbn. rewrite HN, HI. destruct HP as (HM & l & k & E & HK & HKI).
    split; [assumption|]. exists l, k. repeat split; auto; lia.
  - assert (NA : forall e, In e es -> is_ann e = false).
    { destruct TR as [(k & -> & _)|[-> _]]; intros e [<-|[]]; reflexivity. }
    rewrite NC, app_nil_r by assumption. split; [assumption|]. destruct HP as (HM & l & k' & E & HK & HKI).
    destruct TR as [(k & -> & ->)|[-> ->]]; cbn; (split; [assumption|]); exists l, k'; repeat split; auto; lia.
  - destruct TR as [-> TR]. rewrite NC, app_nil_r by (intros e []). split; [assumption|]. destruct HP as (HM & l & k' & E & HK & HKI).
    destruct TR as [-> | ->]; cbn; (split; [assumption|]); exists l, k'; repeat split; auto; lia.
  - destruct TR as [-> TR]. rewrite NC, app_nil_r by (intros e [<-|[]]; reflexivity). split; [assumption|]. destruct HP as (HM & l & k' & E & HK & HKI).
    assert (G : (streak (calls ta) mod 5)%nat = 0%nat /\ exists l k, calls ta = l ++ [k] /\ k_end k <= m_now y' /\ k_int k = m_int y') by (split; [assumption|]; exists l, k'; repeat split; auto; lia).
    destruct TR as [-> | ->]; [exact G|]. destruct (Nat.eqb n 4); exact G.
  - destruct HP as (HM & l & k' & E & HK & HKI).
    assert (NA : forall e, In e es -> is_ann e = false) by (destruct TR as [[-> _]|[-> _]]; [intros e [<-|[]]; reflexivity|intros e []]).
    rewrite NC, app_nil_r by assumption. split; [assumption|].
    assert (G : (streak (calls ta) mod 5)%nat = 0%nat /\ exists l k, calls ta = l ++ [k] /\ k_end k <= m_now y' /\ k_int k = m_int y') by (split; [assumption|]; exists l, k'; repeat split; auto; lia).
    destruct TR as [[_ ->]|[_ ->]]; [exact G|]. destruct (Nat.eqb n 4); exact G.
  - destruct TR as [-> TR]. rewrite NC, app_nil_r by (intros e []). split; [assumption|]. destruct HP as (HM & l & k' & E & HK & HKI).
    assert (EL : 0 <= mi_el i).
    { destruct HT as [_ HT]. destruct (i_timer (mi_i i)); [|assumption]. etransitivity; [|exact HT]. unfold peer_delay, BackOffDelay. cbn [Z.leb Z.compare]. apply Z.shiftl_nonneg. lia. }
    assert (G : (streak (calls ta) mod 5)%nat = 0%nat /\ exists l k, calls ta = l ++ [k] /\ k_end k <= m_now y' /\ k_int k = m_int y') by (split; [assumption|]; exists l, k'; repeat split; auto; lia).
    destruct (i_timer (mi_i i)); rewrite TR; exact G.
  - destruct TR as [-> TR]. rewrite NC, app_nil_r by (intros e []). split; [assumption|]. destruct HP as (HM & l & k' & E & HK & HKI).
    destruct HT as [_ HT]. destruct (i_timer (mi_i i)); rewrite TR; [|exact I]. cbn [pace_at]. split; [|assumption].
    right. exists l, k'. split; [assumption|]. rewrite E in HM. rewrite (pause_round _ _ HM). rewrite HKI. lia.
  - contradiction.
Qed.
Lemma announce_pace lag j x0 tr x l1 a b l2 : 0 <= lag -> fresh j x0 -> mexec lag j x0 tr x -> calls tr = l1 ++ a :: b :: l2 -> pause l1 a <= k_start b - k_end a.
Proof. intros HL HF HE. destruct (pace_inv _ _ _ _ _ HL HF HE) as (c & _ & HS & _). apply HS. Qed.

(* ---------- how late the next announce, address or attempt can be ---------- *)
Definition cost (lag : Z) (n : nat) : Z := Z.of_nat n * (4 * sec + 3 * lag) + 500 * (2 ^ Z.of_nat n - 1).
Lemma cost_S lag n : (n <= 3)%nat -> cost lag (S n) = cost lag n + (4 * sec + 3 * lag) + peer_delay n.
Proof. intros H. rewrite peer_delay_eq by assumption. unfold cost. rewrite Nat2Z.inj_succ, Z.pow_succ_r by lia. ring. Qed.
Lemma cost_le lag n : 0 <= lag -> (n <= 4)%nat -> 0 <= cost lag n <= 16 * sec + 12 * lag + 7500.
Proof. intros HL H. unfold cost, sec. do 5 (destruct n as [|n]; [cbn [Z.of_nat Pos.of_succ_nat Pos.succ]; lia|]). lia. Qed.
Lemma cost_4 lag : cost lag 4 = 16 * sec + 12 * lag + 7500.
Proof. unfold cost, sec. cbn [Z.of_nat Pos.of_succ_nat Pos.succ]. lia. Qed.
Lemma peer_delay_nonneg n : 0 <= peer_delay n.
Proof. unfold peer_delay, BackOffDelay. cbn [Z.leb Z.compare]. apply Z.shiftl_nonneg. lia. Qed.
Lemma tracker_delay_nonneg n : 0 <= tracker_delay n.
Proof. unfold tracker_delay, BackOffDelay. unfold second. cbn [Z.leb Z.compare]. apply Z.shiftl_nonneg. lia. Qed.
Definition each (lag : Z) : Z := 20 * sec + 7500 + 16 * lag.
Lemma taken_snoc tr s : taken (tr ++ [s]) = taken tr + (if happens is_add s then 1 else 0).
Proof. unfold taken. rewrite filter_app, zlen_app. cbn [filter]. destruct (happens is_add s); reflexivity. Qed.
Lemma taken_nonneg tr : 0 <= taken tr.
Proof. apply zlen_nonneg. Qed.
Local Opaque cost taken.

(* e: the time since the announce; t: the addresses taken up since; p: the pause to make *)
Definition late (lag e t p : Z) (c : tpc) (interval : Z) : Prop :=
  match c with
  | TNew => False
  | TStart => e <= t * each lag + p + 2 * lag
  | TTry _ => e <= t * each lag + p + 3 * lag
  | TBack n => e <= 0 /\ t = 0 /\ p = tracker_delay n
  | TInit _ => e <= t * each lag /\ p = Z.max 0 interval
  | TPStart _ _ => e <= (t - 1) * each lag + lag /\ p = Z.max 0 interval
  | TPDial _ n _ => e <= (t - 1) * each lag + 2 * lag + cost lag n /\ (n <= 4)%nat /\ p = Z.max 0 interval
  | TPShake _ n _ => e <= (t - 1) * each lag + 3 * lag + cost lag n + 2 * sec /\ (n <= 4)%nat /\ p = Z.max 0 interval
  | TPBack _ n _ => e <= (t - 1) * each lag + 4 * lag + cost lag n + 4 * sec /\ (n <= 3)%nat /\ p = Z.max 0 interval
  | TWait => e <= t * each lag + lag /\ p = Z.max 0 interval
  | TEnd => True
  end.
Lemma late_suffix lag j x1 c1 p tr x : 0 <= lag -> pc_of j x1 c1 -> late lag 0 0 p c1 (m_int x1) -> mexec lag j x1 tr x ->
  forallb (fun s => negb (happens is_ann s)) tr = true -> exists c, pc_of j x c /\ late lag (m_now x - m_now x1) (taken tr) p c (m_int x).
Proof.
  intros HL P1 L1 HE HA.
  assert (DT : DialTimeout = 2 * sec) by reflexivity. assert (PT : PeerTimeout = sec) by reflexivity.
  assert (SP : 0 < sec) by reflexivity.
  apply (mexec_inv lag j (fun c y ta => late lag (m_now y - m_now x1) (taken ta) p c (m_int y)) x1 tr x); [| |assumption].
  2:{ exists c1. split; [assumption|]. replace (m_now x1 - m_now x1) with 0 by lia. exact L1. }
  intros ta s tb y c i c' y' ETR PC HP HT HN HI TR ->. cbn [ms_es] in TR.
  assert (NA : happens is_ann s = false).
  { rewrite ETR, forallb_app in HA. cbn in HA. destruct (happens is_ann s); [|reflexivity]. rewrite andb_false_r in HA. discriminate. }
  rewrite taken_snoc. unfold happens in *. cbn [ms_es]. remember (ms_es s) as es eqn:EES. clear EES s ETR.
  pose proof (taken_nonneg ta) as TN. set (t := taken ta) in *.
  rewrite HN, HI. set (e := m_now y - m_now x1) in *. replace (m_now y + mi_el i - m_now x1) with (e + mi_el i) by (unfold e; lia).
  assert (EB : each lag = 20 * sec + 7500 + 16 * lag) by reflexivity.
  assert (T1 : forall u, (u + 1) * each lag = u * each lag + each lag) by (intros; ring).
  assert (TM : t * each lag = (t - 1) * each lag + each lag) by ring.
  destruct c as [| |n|n|[|ad ips]|k ips|k n ips|k n ips|k n ips| |]; cbn [trans takes late next_int] in *.
  - contradiction.
  - destruct TR as [[-> ->]|[-> ->]]; cbn [existsb is_add orb late]; [exact I|]. rewrite Z.add_0_r. lia.
  - destruct TR as [(ips & -> & _)|[-> _]]; discriminate NA.
  - destruct TR as [-> TR]. cbn [existsb]. rewrite Z.add_0_r. destruct HP as (H1 & H2 & ->). destruct HT as [HT1 HT2].
    destruct (i_timer (mi_i i)); rewrite TR; cbn [late]; [|exact I]. rewrite H2. lia.
  - destruct TR as [-> ->]. cbn [existsb late]. rewrite Z.add_0_r. lia.
  - destruct TR as [(k & -> & ->)|[-> ->]]; cbn [existsb is_add orb late]; rewrite ?Z.add_simpl_r, ?T1; lia.
  - destruct TR as [-> TR]. cbn [existsb]. rewrite Z.add_0_r. pose proof (cost_le lag 0 HL ltac:(lia)).
    destruct TR as [-> | ->]; cbn [late]; repeat split; try lia.
  - destruct TR as [-> TR]. cbn [existsb is_add orb]. rewrite Z.add_0_r. destruct HP as (H1 & H2 & H3).
    pose proof (cost_le lag n HL H2). destruct TR as [-> | ->]; [cbn [late]; repeat split; lia|].
    destruct (Nat.eqb_spec n 4) as [->|N4]; cbn [late]; repeat split; lia.
  - destruct HP as (H1 & H2 & H3). pose proof (cost_le lag n HL H2).
    destruct TR as [[-> ->]|[-> ->]]; cbn [existsb is_add orb]; rewrite Z.add_0_r; [cbn [late]; repeat split; lia|].
    destruct (Nat.eqb_spec n 4) as [->|N4]; cbn [late]; repeat split; lia.
  - destruct TR as [-> TR]. cbn [existsb]. rewrite Z.add_0_r. destruct HP as (H1 & H2 & H3). destruct HT as [HT1 HT2].
    pose proof (cost_S lag n H2) as CS. pose proof (cost_le lag (S n) HL ltac:(lia)). pose proof (peer_delay_nonneg n).
    destruct (i_timer (mi_i i)); rewrite TR; cbn [late]; repeat split; lia.
  - destruct TR as [-> TR]. cbn [existsb]. rewrite Z.add_0_r. destruct HP as (H1 & ->). destruct HT as [HT1 HT2].
    destruct (i_timer (mi_i i)); rewrite TR; cbn [late]; [lia|exact I].
  - contradiction.
Qed.

Lemma mexec_one lag j x s x' c0 : pc_of j x c0 -> mexec lag j x [s] x' ->
  ms_pc s = c0 /\ takes lag c0 (mi_i (ms_in s)) (m_int x) (mi_el (ms_in s)) /\ ms_from s = m_now x /\ ms_to s = m_now x' /\ ms_int s = m_int x' /\
  m_now x' = m_now x + mi_el (ms_in s) /\ m_int x' = next_int c0 (m_int x) (mi_int (ms_in s)) /\ exists c', pc_of j x' c' /\ trans j c0 (mi_i (ms_in s)) (ms_es s) c'.
Proof.
  intros PC HE. remember [s] as l eqn:EL. destruct HE as [x|x0 tr x a c es x' HE HX]; [discriminate|].
  change [s] with ([] ++ [s]) in EL. apply app_inj_tail in EL. destruct EL as [-> <-].
  remember [] as l eqn:E0. destruct HE; [|destruct tr; discriminate].
  destruct (mxstep_trans _ _ _ _ _ _ _ _ PC HX) as (-> & HT & HN & HI & c' & PC' & TR). cbn. repeat split; auto. exists c'. split; auto.
Qed.
Lemma mexec_split lag j x0 ta s tb x : mexec lag j x0 (ta ++ s :: tb) x ->
  exists xa xb, mexec lag j x0 ta xa /\ mexec lag j xa [s] xb /\ mexec lag j xb tb x.
Proof.
  intros H. apply mexec_app in H. destruct H as (xa & H1 & H2). change (s :: tb) with ([s] ++ tb) in H2. apply mexec_app in H2.
  destruct H2 as (xb & H2 & H3). eauto.
Qed.
Lemma ann_pc j c i es c' : trans j c i es c' -> existsb is_ann es = true -> exists n, c = TTry n.
Proof.
  intros TR H. destruct c as [| |n|n|[|ad ips]|k ips|k n ips|k n ips|k n ips| |]; cbn [trans] in TR; eauto; exfalso.
  all: repeat match goal with
       | h : _ /\ _ |- _ => destruct h
       | h : _ \/ _ |- _ => destruct h
       | h : exists _, _ |- _ => destruct h
       end; try contradiction; subst es; discriminate H.
Qed.
Lemma add_pc j c i es c' : trans j c i es c' -> existsb is_add es = true -> exists ips, c = TInit ips.
Proof.
  intros TR H. destruct c as [| |n|n|[|ad ips]|k ips|k n ips|k n ips|k n ips| |]; cbn [trans] in TR; eauto; exfalso.
  all: repeat match goal with
       | h : _ /\ _ |- _ => destruct h
       | h : _ \/ _ |- _ => destruct h
       | h : exists _, _ |- _ => destruct h
       end; try contradiction; subst es; discriminate H.
Qed.
Lemma dial_pc j c i es c' : trans j c i es c' -> existsb is_dial es = true -> exists k n ips, c = TPDial k n ips.
Proof.
  intros TR H. destruct c as [| |n|n|[|ad ips]|k ips|k n ips|k n ips|k n ips| |]; cbn [trans] in TR; eauto; exfalso.
  all: repeat match goal with
       | h : _ /\ _ |- _ => destruct h
       | h : _ \/ _ |- _ => destruct h
       | h : exists _, _ |- _ => destruct h
       end; try contradiction; subst es; discriminate H.
Qed.
Lemma calls_ann s k : calls_of s = [k] -> existsb is_ann (ms_es s) = true.
Proof.
  intros H. destruct (existsb is_ann (ms_es s)) eqn:E; [reflexivity|]. exfalso. rewrite no_calls in H; [discriminate|].
  intros e HI. destruct (is_ann e) eqn:A; [|reflexivity]. assert (existsb is_ann (ms_es s) = true) by (apply existsb_exists; eauto). congruence.
Qed.
(* where the goroutine is after an announce *)
Lemma after_announce lag j x0 ta s k xb : 0 <= lag -> fresh j x0 -> mexec lag j x0 (ta ++ [s]) xb -> calls_of s = [k] ->
  exists c, pc_of j xb c /\ (c = TEnd \/ late lag 0 0 (pause (calls ta) k) c (m_int xb)) /\ k_end k = m_now xb /\ k_start k = ms_from s.
Proof.
  intros HL HF HE HK. destruct (pace_inv _ _ _ _ _ HL HF HE) as (c & PC & _ & HP). exists c. split; [assumption|].
  apply mexec_app in HE. destruct HE as (xa & H1 & H2). destruct (pace_inv _ _ _ _ _ HL HF H1) as (c0 & PC0 & _ & _).
  destruct (mexec_one _ _ _ _ _ _ PC0 H2) as (_ & _ & F & T & _ & _ & TI & c' & PC' & TR).
  assert (c' = c) by (destruct PC, PC'; congruence). subst c'. 
  destruct (ann_pc _ _ _ _ _ TR (calls_ann _ _ HK)) as (n & ->). rewrite calls_snoc, HK in HP. cbn [trans] in TR. cbn [next_int] in TI.
  assert (EK : exists ok, k = mkCall (ms_from s) (ms_to s) ok (mi_int (ms_in s))).
  { destruct TR as [(ips & E & _)|[E _]]; unfold calls_of in HK; rewrite E in HK; cbn in HK; injection HK as <-; eauto. }
  destruct EK as (ok & EK). subst k. cbn [k_start k_end]. split; [|auto].
  assert (CS : c = TEnd \/ (exists ips, c = TInit ips) \/ c = TWait \/ c = TBack n).
  { destruct TR as [(ips & _ & ->)|[_ TR]]; [eauto|]. destruct (Nat.eqb n 4); intuition. }
  destruct CS as [->|[(ips & ->)|[-> | ->]]]; [now left| | |]; right; cbn [pace_at late] in *.
  - destruct HP as [HM _]. rewrite (pause_round _ _ HM). cbn [k_int]. rewrite <- TI. lia.
  - destruct HP as [HM _]. rewrite (pause_round _ _ HM). cbn [k_int]. rewrite <- TI. lia.
  - destruct HP as (HM & HB & _). rewrite (pause_back _ _ _ HM), tracker_delay_eq by assumption. lia.
Qed.
Lemma no_ann_forallb tr : no_ann tr -> forallb (fun s => negb (happens is_ann s)) tr = true.
Proof. intros H. apply forallb_forall. intros s HI. now rewrite (H s HI). Qed.
Lemma end_stays lag j x tr x' : pc_of j x TEnd -> mexec lag j x tr x' -> tr = [].
Proof.
  intros PC HE. destruct tr as [|s tr]; [reflexivity|]. change (s :: tr) with ([] ++ s :: tr) in HE. apply mexec_split in HE. destruct HE as (xa & xb & H1 & H2 & _).
  remember [] as l eqn:E0. destruct H1; [|destruct tr0; discriminate]. destruct (mexec_one _ _ _ _ _ _ PC H2) as (_ & _ & _ & _ & _ & _ & _ & c' & _ & TR). contradiction.
Qed.
(* from an announce to a later step with no announce in between *)
Lemma since_announce lag j x0 ta s1 tb s2 tc x k1 : 0 <= lag -> fresh j x0 -> mexec lag j x0 (ta ++ s1 :: tb ++ s2 :: tc) x -> calls_of s1 = [k1] -> no_ann tb ->
  exists c i c' y, late lag (ms_from s2 - k_end k1) (taken tb) (pause (calls ta) k1) c y /\ trans j c i (ms_es s2) c'.
Proof.
  intros HL HF HE HK HQ. replace (ta ++ s1 :: tb ++ s2 :: tc) with ((ta ++ [s1]) ++ tb ++ s2 :: tc) in HE by (rewrite <- app_assoc; reflexivity).
  apply mexec_app in HE. destruct HE as (xb & H1 & H2). destruct (after_announce _ _ _ _ _ _ _ HL HF H1 HK) as (c1 & P1 & L1 & KE & _).
  apply mexec_split in H2. destruct H2 as (xc & xd & H3 & H4 & _).
  destruct L1 as [-> | L1].
  - pose proof (end_stays _ _ _ _ _ P1 H3) as ->. remember [] as l eqn:E0. destruct H3; [|destruct tr; discriminate].
    destruct (mexec_one _ _ _ _ _ _ P1 H4) as (_ & _ & _ & _ & _ & _ & _ & c' & _ & TR). contradiction.
  - destruct (late_suffix _ _ _ _ _ _ _ HL P1 L1 H3 (no_ann_forallb _ HQ)) as (c & PC & LA).
    destruct (mexec_one _ _ _ _ _ _ PC H4) as (_ & _ & F & _ & _ & _ & _ & c' & _ & TR).
    exists c, (mi_i (ms_in s2)), c', (m_int xc). split; [|assumption]. rewrite F, KE. exact LA.
Qed.
Lemma next_announce lag j x0 ta s1 tb s2 tc x k1 k2 : 0 <= lag -> fresh j x0 -> mexec lag j x0 (ta ++ s1 :: tb ++ s2 :: tc) x ->
  calls_of s1 = [k1] -> no_ann tb -> calls_of s2 = [k2] ->
  k_start k2 - k_end k1 <= pause (calls ta) k1 + taken tb * (20 * sec + 7500 + 16 * lag) + 3 * lag.
Proof.
  intros HL HF HE H1 HQ H2. destruct (since_announce _ _ _ _ _ _ _ _ _ _ HL HF HE H1 HQ) as (c & i & c' & y & LA & TR).
  destruct (ann_pc _ _ _ _ _ TR (calls_ann _ _ H2)) as (n & ->). cbn [late] in LA. unfold each in LA.
  assert (k_start k2 = ms_from s2).
  { cbn [trans] in TR. destruct TR as [(ips & E & _)|[E _]]; unfold calls_of in H2; rewrite E in H2; cbn in H2; injection H2 as <-; reflexivity. }
  lia.
Qed.
Lemma next_address lag j x0 ta s1 tb s2 tc x k1 : 0 <= lag -> fresh j x0 -> mexec lag j x0 (ta ++ s1 :: tb ++ s2 :: tc) x ->
  calls_of s1 = [k1] -> no_ann tb -> happens is_add s2 = true -> ms_from s2 - k_end k1 <= taken tb * (20 * sec + 7500 + 16 * lag).
Proof.
  intros HL HF HE H1 HQ H2. destruct (since_announce _ _ _ _ _ _ _ _ _ _ HL HF HE H1 HQ) as (c & i & c' & y & LA & TR).
  destruct (add_pc _ _ _ _ _ TR H2) as (ips & ->). cbn [late] in LA. unfold each in LA. lia.
Qed.

(* ---------- connection attempts ---------- *)
Lemma tries_snoc tr s : tries (tr ++ [s]) = if happens is_add s then 0%nat else if happens is_dial s then S (tries tr) else tries tr.
Proof. unfold tries. rewrite fold_left_app. reflexivity. Qed.
Definition tried (c : tpc) (n : nat) : Prop :=
  match c with
  | TPStart _ _ => n = 0%nat
  | TPDial _ m _ => n = m /\ (m <= 4)%nat
  | TPShake _ m _ => n = S m /\ (m <= 4)%nat
  | TPBack _ m _ => n = S m /\ (m <= 3)%nat
  | _ => True
  end.
Lemma tries_inv lag j x0 tr x : fresh j x0 -> mexec lag j x0 tr x -> exists c, pc_of j x c /\ tried c (tries tr).
Proof.
  intros HF HE. apply (mexec_inv lag j (fun c y ta => tried c (tries ta)) x0 tr x); [| |assumption].
  2:{ exists TNew. split; [assumption|exact I]. }
  intros ta s tb y c i c' y' _ PC HP HT HN HI TR ->. cbn [ms_es] in TR. rewrite tries_snoc. unfold happens. cbn [ms_es].
  remember (ms_es s) as es eqn:EES. clear EES s.
  destruct c as [| |n|n|[|ad ips]|k ips|k n ips|k n ips|k n ips| |]; cbn [trans tried] in *.
  - destruct TR as [-> [-> | ->]]; exact I.
  - destruct TR as [[-> ->]|[-> ->]]; exact I.
  - destruct TR as [(ips & -> & ->)|[-> TR]]; [exact I|]. destruct (Nat.eqb n 4); [destruct TR as [-> | ->]|rewrite TR]; exact I.
  - destruct TR as [-> TR]. destruct (i_timer (mi_i i)); rewrite TR; exact I.
  - destruct TR as [-> ->]. exact I.
  - destruct TR as [(k & -> & ->)|[-> ->]]; cbn; auto.
  - destruct TR as [-> [-> | ->]]; cbn [existsb tried]; [exact I|]. split; [assumption|lia].
  - destruct HP as [-> HB]. destruct TR as [-> [-> | ->]]; cbn [existsb is_add is_dial orb]; [cbn; auto|]. destruct (Nat.eqb_spec n 4); cbn; [exact I|]. split; [reflexivity|lia].
  - destruct HP as [HP HB]. destruct TR as [[-> ->]|[-> ->]]; cbn [existsb is_add is_dial orb]; [cbn; auto|]. destruct (Nat.eqb_spec n 4); cbn; [exact I|]. split; [assumption|lia].
  - destruct HP as [HP HB]. destruct TR as [-> TR]. destruct (i_timer (mi_i i)); rewrite TR; cbn; [|exact I]. split; [assumption|lia].
  - destruct TR as [-> TR]. destruct (i_timer (mi_i i)); rewrite TR; exact I.
  - contradiction.
Qed.
Definition again (lag e : Z) (n : nat) (c : tpc) : Prop :=
  match c with
  | TPStart _ _ => False
  | TPShake _ m _ => m = n /\ 0 <= e <= 2 * sec + lag
  | TPBack _ m _ => m = n /\ 0 <= e <= 4 * sec + 2 * lag
  | TPDial _ m _ => m = S n /\ peer_delay n <= e <= peer_delay n + 4 * sec + 3 * lag
  | _ => True
  end.
Lemma attempts_apart lag j x0 ta s1 tb s2 tc x : 0 <= lag -> fresh j x0 -> mexec lag j x0 (ta ++ s1 :: tb ++ s2 :: tc) x ->
  happens is_dial s1 = true -> (forall s, In s tb -> happens is_add s = false /\ happens is_dial s = false) -> happens is_dial s2 = true ->
  (tries ta <= 3)%nat /\ 500 * 2 ^ Z.of_nat (tries ta) <= ms_from s2 - ms_from s1 <= 500 * 2 ^ Z.of_nat (tries ta) + 4 * sec + 3 * lag.
Proof.
  intros HL HF HE D1 HQ D2. apply mexec_split in HE. destruct HE as (xa & xb & H1 & H2 & H3). apply mexec_split in H3. destruct H3 as (xc & xd & H3 & H4 & _).
  assert (DT : DialTimeout = 2 * sec) by reflexivity. assert (PT : PeerTimeout = sec) by reflexivity. assert (SP : 0 < sec) by reflexivity.
  destruct (tries_inv _ _ _ _ _ HF H1) as (c & PC & TN). destruct (mexec_one _ _ _ _ _ _ PC H2) as (_ & HT & F1 & _ & _ & N1 & _ & c1 & PC1 & TR1).
  destruct (dial_pc _ _ _ _ _ TR1 D1) as (k & n & ips & ->). cbn [tried] in TN. destruct TN as [TN NB]. rewrite TN. cbn [takes trans] in *.
  destruct (mexec_inv lag j (fun c y ta => again lag (m_now y - m_now xa) n c) xb tb xc) as (c2 & PC2 & A2); [| |assumption|].
  - intros tb1 s tb2 y c i c' y' ETB PCy HP HT' HN HI TR _.
    assert (NS : happens is_add s = false /\ happens is_dial s = false) by (apply HQ; rewrite ETB; apply in_or_app; right; now left).
    rewrite HN. set (e := m_now y - m_now xa) in *. replace (m_now y + mi_el i - m_now xa) with (e + mi_el i) by (unfold e; lia).
    unfold happens in NS. remember (ms_es s) as es eqn:EES. clear EES.
    destruct c as [| |m|m|[|ad ips']|k' ips'|k' m ips'|k' m ips'|k' m ips'| |]; cbn [trans again takes] in *.
    + destruct TR as [-> [-> | ->]]; exact I.
    + destruct TR as [[-> ->]|[-> ->]]; exact I.
    + destruct TR as [(ips' & -> & ->)|[-> TR]]; [exact I|]. destruct (Nat.eqb m 4); [destruct TR as [-> | ->]|rewrite TR]; exact I.
    + destruct TR as [-> TR]. destruct (i_timer (mi_i i)); rewrite TR; exact I.
    + destruct TR as [-> ->]. exact I.
    + destruct TR as [(kk & -> & ->)|[-> ->]]; cbn in NS; destruct NS; discriminate.
    + contradiction.
    + destruct TR as [-> _]. cbn in NS. destruct NS; discriminate.
    + destruct HP as [-> HP]. destruct TR as [[_ ->]|[_ ->]]; [exact I|]. destruct (Nat.eqb n 4); [exact I|]. split; [reflexivity|lia].
    + destruct HP as [-> HP]. destruct TR as [-> TR]. destruct HT' as [T1 T2]. destruct (i_timer (mi_i i)); rewrite TR; [|exact I]. cbn [again]. split; [reflexivity|lia].
    + destruct TR as [-> TR]. destruct (i_timer (mi_i i)); rewrite TR; exact I.
    + contradiction.
  - exists c1. split; [assumption|]. destruct TR1 as [_ [-> | ->]]; [cbn [again]; lia|]. destruct (Nat.eqb n 4); cbn [again]; [exact I|lia].
  - destruct (mexec_one _ _ _ _ _ _ PC2 H4) as (_ & _ & F2 & _ & _ & _ & _ & c' & _ & TR2). destruct (dial_pc _ _ _ _ _ TR2 D2) as (k2 & n2 & ips2 & ->).
    cbn [again] in A2. destruct A2 as [-> A2].
    assert (NB3 : (n <= 3)%nat).
    { destruct (Nat.eq_dec n 4) as [->|]; [|lia]. exfalso.
      assert (E1 : mexec lag j x0 ((ta ++ [s1]) ++ tb) xc) by (apply mexec_app; exists xb; split; [apply mexec_app; exists xa; split|]; assumption).
      destruct (tries_inv _ _ _ _ _ HF E1) as (c3 & PC3 & T3). assert (c3 = TPDial k2 5 ips2) by (destruct PC3, PC2; congruence). subst c3. cbn in T3. lia. }
    split; [assumption|]. rewrite <- peer_delay_eq by assumption. lia.
Qed.
