(* Lemmas about what becomes of the addresses a tracker names.                  *)
From Verif Require Import Base ProofBase ModelBencode SpecText ProofText SpecBencode ModelUnmarshal SpecUnmarshal ModelTracker SpecTracker ProofTracker2 ModelSystem ModelManager SpecManager SpecOffer ProofSystem ProofProgress ProofManager ProofManager2.

(* ---------- every address is offered, in order ---------- *)
Lemma offered_app j t1 t2 : offered j (t1 ++ t2) = offered j t1 ++ offered j t2.
Proof. induction t1 as [|e t1 IH]; [reflexivity|]. cbn. destruct e; try exact IH. destruct (Nat.eqb _ _); cbn; now rewrite IH. Qed.
Definition to_offer (c : tpc) : option (list addrport) :=
  match c with TInit l | TPStart _ l | TPDial _ _ l | TPShake _ _ l | TPBack _ _ l => Some l | TWait | TStart | TEnd => Some [] | _ => None end.

Lemma set_trk_nth g j c c' : nth_error (g_trk g) j = Some c -> nth_error (g_trk (set_trk g j c')) j = Some c'.
Proof. intros H. unfold set_trk. cbn. eapply nth_upd_same. exact H. Qed.
Lemma peer_failed_trk g k : g_trk (peer_failed g k) = g_trk g.
Proof. unfold peer_failed. destruct (nth_error _ _); reflexivity. Qed.
Lemma tstep_offer g j c i g' es l : nth_error (g_trk g) j = Some c -> to_offer c = Some l -> tstep g j c i = Some (g', es) ->
  es = [GRound j] /\ l = [] \/
  exists c', nth_error (g_trk g') j = Some c' /\ ~ In (GRound j) es /\ exists l', to_offer c' = Some l' /\ l = offered j es ++ l'.
Proof.
  intros Hj Hl H.
  assert (S : forall h c', g_trk h = g_trk g -> nth_error (g_trk (set_trk h j c')) j = Some c').
  { intros h c' E. eapply set_trk_nth. rewrite E. exact Hj. }
  assert (F : forall h k n ips, g_trk h = g_trk g -> exists c', nth_error (g_trk (after_failure h j k n ips)) j = Some c' /\ to_offer c' = Some ips).
  { intros h k n ips E. unfold after_failure. destruct (Nat.eqb n 4).
    - exists (TInit ips). split; [apply S; now rewrite peer_failed_trk|reflexivity].
    - exists (TPBack k n ips). split; [apply S; exact E|reflexivity]. }
  destruct c as [| |n|n|[|a ips]|k ips|k n ips|k n ips|k n ips| |]; cbn in Hl; try discriminate; inversion Hl; subst l; cbn [tstep] in H.
  - destruct (g_cancel g); inversion H; subst; [right|left; auto]. exists TEnd. split; [now apply S|]. split; [intros []|]. exists []. auto.
  - inversion H; subst. right. exists TWait. split; [now apply S|]. split; [intros []|]. exists []. auto.
  - right. unfold AddPeer in H. destruct (g_pool g) as [m|].
    + destruct (pool_get m (apString a)); inversion H; subst.
      * exists (TInit ips). split; [now apply S|]. split; [intros [|[]]; discriminate|]. exists ips. cbn. rewrite Nat.eqb_refl. auto.
      * exists (TPStart (length (g_peers g)) ips). split; [now apply S|]. split; [intros [|[]]; discriminate|]. exists ips. cbn. rewrite Nat.eqb_refl. auto.
    + inversion H; subst. exists (TInit (a :: ips)). split; [exact Hj|]. split; [intros []|]. exists (a :: ips). auto.
  - right. destruct (g_cancel g); inversion H; subst.
    + exists (TInit ips). split; [apply S; apply peer_failed_trk|]. split; [intros []|]. exists ips. auto.
    + exists (TPDial k 0 ips). split; [now apply S|]. split; [intros []|]. exists ips. auto.
  - right. destruct (nth_error (g_peers g) k) as [p|]; [|discriminate]. destruct (i_dial i && _); inversion H; subst.
    + exists (TPShake k n ips). split; [cbn; eapply nth_upd_same; exact Hj|]. split; [intros [|[]]; discriminate|]. exists ips. auto.
    + match goal with |- context [after_failure ?h _ _ _ _] => destruct (F h k n ips eq_refl) as (c' & A & B) end.
      exists c'. split; [exact A|]. split; [intros [|[]]; discriminate|]. exists ips. auto.
  - right. destruct (i_shake i).
    + destruct (nth_error (g_peers g) k) as [p|]; [|discriminate]. inversion H; subst.
      exists (TInit ips). split; [now apply S|]. split; [intros [|[]]; discriminate|]. exists ips. auto.
    + inversion H; subst. destruct (F g k n ips eq_refl) as (c' & A & B). exists c'. split; [exact A|]. split; [intros []|]. exists ips. auto.
  - right. destruct (i_timer i); [|destruct (g_cancel g); [|discriminate]]; inversion H; subst.
    + exists (TPDial k (Datatypes.S n) ips). split; [now apply S|]. split; [intros []|]. exists ips. auto.
    + exists (TInit ips). split; [apply S; apply peer_failed_trk|]. split; [intros []|]. exists ips. auto.
  - right. destruct (i_timer i); [|destruct (g_cancel g); [|discriminate]]; inversion H; subst.
    + exists TStart. split; [now apply S|]. split; [intros []|]. exists []. auto.
    + exists TEnd. split; [now apply S|]. split; [intros []|]. exists []. auto.
Qed.
Lemma AddPeer_trk g a m b : AddPeer g a = Ok (m, b) -> g_trk m = g_trk g.
Proof. unfold AddPeer. intros H. destruct (g_pool g) as [q|]; [|discriminate]. destruct (pool_get _ _); inversion H; reflexivity. Qed.
(* other actions leave the goroutine where it is *)
Lemma tstep_other g j c i g' es j' : j' <> j -> tstep g j c i = Some (g', es) ->
  nth_error (g_trk g') j' = nth_error (g_trk g) j' /\ ~ In (GRound j') es /\ offered j' es = [].
Proof.
  intros N H.
  assert (NE : Nat.eqb j j' = false) by (apply Nat.eqb_neq; congruence).
  assert (S : forall h x, g_trk h = g_trk g -> nth_error (g_trk (set_trk h j x)) j' = nth_error (g_trk g) j').
  { intros h x E. cbn. rewrite nth_upd_other by exact N. now rewrite E. }
  assert (F : forall h k n ips, g_trk h = g_trk g -> nth_error (g_trk (after_failure h j k n ips)) j' = nth_error (g_trk g) j').
  { intros h k n ips E. unfold after_failure. destruct (Nat.eqb n 4); apply S; [now rewrite peer_failed_trk|exact E]. }
  destruct c as [| |n|n|[|a ips]|k ips|k n ips|k n ips|k n ips| |]; cbn [tstep] in H.
  all: repeat first
    [ discriminate
    | match type of H with
      | context [match ?x with _ => _ end] => destruct x eqn:?
      end ].
  all: inversion H; subst; clear H.
  all: split; [try solve [apply S; first [reflexivity | apply peer_failed_trk | eapply AddPeer_trk; eassumption] | apply F; reflexivity | cbn; now rewrite ?nth_upd_other by exact N]|].
  all: split; [cbn; intros X; repeat destruct X as [X|X]; inversion X; congruence|cbn; now rewrite ?NE].
Qed.
Lemma gexec_offer g tr a g' es j c l : ginv g tr -> nth_error (g_trk g) j = Some c -> to_offer c = Some l -> gexec a g = (g', es) ->
  es = [GRound j] /\ l = [] \/
  exists c', nth_error (g_trk g') j = Some c' /\ ~ In (GRound j) es /\ exists l', to_offer c' = Some l' /\ l = offered j es ++ l'.
Proof.
  intros IV Hj Hl H.
  assert (Same : forall h, g_trk h = g_trk g -> exists c', nth_error (g_trk h) j = Some c' /\ ~ In (GRound j) [] /\ exists l', to_offer c' = Some l' /\ l = offered j [] ++ l').
  { intros h E. exists c. rewrite E. split; [exact Hj|]. split; [intros []|]. exists l. auto. }
  unfold gexec in H. destruct (g_panic g); [inversion H; subst; right; now apply Same|].
  pose proof (started_trk _ _ _ _ IV Hj) as ST.
  destruct a as [n|j' i|k| | |].
  - rewrite ST in H. inversion H; subst. right. now apply Same.
  - destruct (nth_error (g_trk g) j') as [c0|] eqn:E0; [|inversion H; subst; right; now apply Same].
    destruct (tstep g j' c0 i) as [[g2 e2]|] eqn:Et; [|inversion H; subst; right; now apply Same].
    inversion H; subst. destruct (Nat.eq_dec j j') as [E|N].
    + subst j'. rewrite Hj in E0. inversion E0; subst c0. eapply tstep_offer; eassumption.
    + right. destruct (tstep_other _ _ _ _ _ _ j N Et) as (A & B & C). exists c. rewrite A. split; [exact Hj|]. split; [exact B|]. exists l. rewrite C. auto.
  - right. destruct (nth_error (g_peers g) k) as [p|]; [|inversion H; subst; now apply Same].
    destruct (mp_state p); inversion H; subst; now apply Same.
  - inversion H; subst. right. now apply Same.
  - right. destruct (g_stop g); inversion H; subst; apply Same; [reflexivity|]. unfold stop_check. destruct (g_pool g); [|reflexivity]. destruct (g_started g); reflexivity.
  - right. destruct (g_stop g); inversion H; subst; apply Same; [|reflexivity]. unfold stop_close. destruct (close_all _ _ _); reflexivity.
Qed.
Lemma offer_from j l2 : forall g tr c l g2 t2, ginv g tr -> nth_error (g_trk g) j = Some c -> to_offer c = Some l -> grun l2 g = (g2, t2) ->
  (forall ta tb, t2 = ta ++ GRound j :: tb -> ~ In (GRound j) ta -> offered j ta = l) /\
  (~ In (GRound j) t2 -> exists c', nth_error (g_trk g2) j = Some c' /\ exists l', to_offer c' = Some l' /\ l = offered j t2 ++ l').
Proof.
  induction l2 as [|a l2 IH]; intros g tr c l g2 t2 IV Hj Hl H.
  - inversion H; subst. split; [intros ta tb E; destruct ta; discriminate|]. intros _. exists c. split; [exact Hj|]. exists l. auto.
  - cbn [grun] in H. destruct (gexec a g) as [g1 e1] eqn:E1. destruct (grun l2 g1) as [g2' e2] eqn:E2. inversion H; subst.
    pose proof (gexec_inv _ _ _ _ _ IV E1) as IV1.
    destruct (gexec_offer _ _ _ _ _ _ _ _ IV Hj Hl E1) as [[-> ->]|(c' & Hj' & NR & l' & Hl' & ->)].
    + split; [|intros N; exfalso; apply N; now left]. intros [|x ta] tb E N; [reflexivity|]. inversion E; subst. exfalso. apply N. now left.
    + destruct (IH _ _ _ _ _ _ IV1 Hj' Hl' E2) as [A B]. split.
      * intros ta tb E N.
        assert (X : exists ta', ta = e1 ++ ta' /\ e2 = ta' ++ GRound j :: tb).
        { clear - E N NR. revert ta E N. induction e1 as [|x e1 IH1]; intros ta E N; [exists ta; auto|].
          destruct ta as [|y ta]; inversion E; subst.
          - exfalso. apply NR. now left.
          - destruct (IH1 (fun Z => NR (or_intror Z)) _ H1) as (ta' & -> & ->); [intros Z; apply N; now right|]. exists ta'. auto. }
        destruct X as (ta' & -> & ->). rewrite offered_app. f_equal. eapply A; [reflexivity|]. intros Z. apply N. apply in_or_app. now right.
      * intros N. destruct B as (c2 & Hc2 & l2' & Hl2 & ->); [intros Z; apply N; apply in_or_app; now right|].
        exists c2. split; [exact Hc2|]. exists l2'. split; [exact Hl2|]. now rewrite offered_app, app_assoc.
Qed.
Lemma all_offered n l g tr j i k ips l2 g2 t2 :
  grun l (NewMng n) = (g, tr) -> g_panic g = false -> nth_error (g_trk g) j = Some (TTry k) -> i_ann i = AnnOk ips ->
  grun (XTrk j i :: l2) g = (g2, t2) ->
  (forall ta tb, t2 = ta ++ GRound j :: tb -> ~ In (GRound j) ta -> offered j ta = ips) /\
  (~ In (GRound j) t2 -> (exists rest, ips = offered j t2 ++ rest) /\ (forall c, nth_error (g_trk g2) j = Some c -> between c -> offered j t2 = ips)).
Proof.
  intros HR HP Hj Hi H. pose proof (ginv_run _ _ _ _ HR) as IV. cbn [grun] in H.
  destruct (gexec (XTrk j i) g) as [g1 e1] eqn:E1. destruct (grun l2 g1) as [g2' e2] eqn:E2. inversion H; subst; clear H.
  pose proof (gexec_inv _ _ _ _ _ IV E1) as IV1. unfold gexec in E1. rewrite HP, Hj in E1. cbn in E1. rewrite Hi in E1. inversion E1; subst; clear E1.
  assert (Hj1 : nth_error (g_trk (set_trk g j (TInit ips))) j = Some (TInit ips)) by (eapply set_trk_nth; exact Hj).
  destruct (offer_from j l2 _ _ _ ips _ _ IV1 Hj1 eq_refl E2) as [A B]. split.
  - intros [|x ta] tb E N; inversion E; subst. cbn. eapply A; [reflexivity|]. intros Z. apply N. now right.
  - intros N. destruct B as (c' & Hc & l' & Hl & Q); [intros Z; apply N; now right|]. cbn [app offered]. split; [exists l'; exact Q|].
    intros c Hc' Bt. rewrite Hc in Hc'. inversion Hc'; subst c'. destruct c; cbn in Bt; try contradiction; cbn in Hl; inversion Hl; subst l'; now rewrite Q, app_nil_r.
Qed.

(* ---------- every peer of the pool is tried ---------- *)
Definition spent (c : tpc) : nat :=
  match c with TPDial _ n _ => n | TPShake _ n _ | TPBack _ n _ => S n | _ => 0 end.
Inductive move (g : mgr) (j : nat) (c : tpc) : mgr -> list gev -> Prop :=
| M_stuck g' es : g_trk g' = g_trk g -> g_peers g' = g_peers g -> g_cancel g' = g_cancel g -> (forall k, dials k es = 0%nat) -> move g j c g' es
| M_quiet g' es c' : g_trk g' = upd (g_trk g) j c' -> g_peers g' = g_peers g -> g_cancel g' = g_cancel g -> (forall k, dials k es = 0%nat) ->
    owner c' = owner c -> (owner c' <> None -> spent c' = spent c) -> move g j c g' es
| M_add g' a ips b : g_trk g' = upd (g_trk g) j (TPStart (length (g_peers g)) ips) -> g_peers g' = g_peers g ++ [mkMp a None PsNew] -> g_cancel g' = g_cancel g ->
    owner c = None -> move g j c g' [GAdd j a b]
| M_dial g' k p p' c' : owner c = Some k -> nth_error (g_peers g) k = Some p -> g_trk g' = upd (g_trk g) j c' -> g_peers g' = upd (g_peers g) k p' -> mp_state p' = mp_state p ->
    g_cancel g' = g_cancel g -> owner c' = Some k -> spent c' = S (spent c) -> move g j c g' [GDial j k]
| M_end g' es k p p' c' : owner c = Some k -> nth_error (g_peers g) k = Some p -> g_trk g' = upd (g_trk g) j c' -> g_peers g' = upd (g_peers g) k p' -> g_cancel g' = g_cancel g ->
    owner c' = None -> (es = [] \/ es = [GDial j k] \/ es = [GRun j k]) ->
    (mp_state p' = PsFailed /\ (g_cancel g = true \/ (spent c + dials k es = 5)%nat) \/ mp_state p' = PsRun /\ (1 <= spent c)%nat) -> move g j c g' es.

Lemma dials_self j k : dials k [GDial j k] = 1%nat.
Proof. unfold dials. cbn. now rewrite Nat.eqb_refl. Qed.
Lemma tstep_move g j c i g' es tr : ginv g tr -> nth_error (g_trk g) j = Some c -> tstep g j c i = Some (g', es) -> move g j c g' es.
Proof.
  intros IV Hj H. pose proof (fun k => iv_own _ _ IV j c k) as OW.
  destruct c as [| |n|n|[|a ips]|k ips|k n ips|k n ips|k n ips| |]; cbn [tstep] in H.
  - inversion H; subst. eapply M_quiet; try reflexivity. + now destruct (i_new i). + destruct (i_new i); cbn; congruence.
  - destruct (g_cancel g); inversion H; subst; eapply M_quiet; reflexivity || (cbn; congruence).
  - destruct (i_ann i); inversion H; subst; [eapply M_quiet; try reflexivity; cbn; congruence| | |apply M_stuck; reflexivity].
    + eapply M_quiet; try reflexivity; destruct (Nat.eqb n 4); cbn; congruence.
    + eapply M_quiet; try reflexivity; destruct (Nat.eqb n 4), (g_cancel g); cbn; congruence.
  - destruct (i_timer i); [|destruct (g_cancel g) eqn:Ec; [|discriminate]]; inversion H; subst; eapply M_quiet; try reflexivity; cbn; congruence.
  - inversion H; subst. eapply M_quiet; try reflexivity; cbn; congruence.
  - unfold AddPeer in H. destruct (g_pool g) as [m|]; [|inversion H; subst; apply M_stuck; reflexivity].
    destruct (pool_get m (apString a)); inversion H; subst; [eapply M_quiet; try reflexivity; cbn; congruence|]. eapply M_add; reflexivity.
  - destruct (OW k Hj eq_refl) as (p & Hp & Sp). destruct (g_cancel g) eqn:Ec; inversion H; subst.
    + unfold peer_failed. rewrite Hp. eapply M_end with (k := k); try reflexivity; try exact Hp; [now left|]. left. split; [reflexivity|]. now left.
    + eapply M_quiet; try reflexivity.
  - destruct (OW k Hj eq_refl) as (p & Hp & Sp). rewrite Hp in H. destruct (i_dial i && _); inversion H; subst.
    + eapply M_dial with (p := p) (c' := TPShake k n ips); try reflexivity; exact Hp.
    + unfold after_failure. destruct (Nat.eqb n 4) eqn:E.
      * apply Nat.eqb_eq in E. subst n. unfold peer_failed, set_peers at 1. cbn [g_peers]. rewrite (nth_upd_same _ _ _ _ Hp).
        eapply M_end with (k := k); try reflexivity; try exact Hp; [cbn; apply upd_twice|auto|]. left. split; [reflexivity|]. right. rewrite dials_self. reflexivity.
      * eapply M_dial with (p := p) (c' := TPBack k n ips); try reflexivity; exact Hp.
  - destruct (OW k Hj eq_refl) as (p & Hp & Sp). rewrite Hp in H. destruct (i_shake i); inversion H; subst.
    + eapply M_end with (k := k); try reflexivity; try exact Hp; [auto|]. cbn. right. split; [reflexivity|lia].
    + unfold after_failure. destruct (Nat.eqb n 4) eqn:E.
      * apply Nat.eqb_eq in E. subst n. unfold peer_failed. rewrite Hp. eapply M_end with (k := k); try reflexivity; try exact Hp; [now left|]. left. split; [reflexivity|]. now right.
      * eapply M_quiet; reflexivity.
  - destruct (OW k Hj eq_refl) as (p & Hp & Sp). destruct (i_timer i); [|destruct (g_cancel g) eqn:Ec; [|discriminate]]; inversion H; subst.
    + eapply M_quiet; reflexivity.
    + unfold peer_failed. rewrite Hp. eapply M_end with (k := k); try reflexivity; try exact Hp; [now left|]. left. split; [reflexivity|]. now left.
  - destruct (i_timer i); [|destruct (g_cancel g) eqn:Ec; [|discriminate]]; inversion H; subst; eapply M_quiet; try reflexivity; cbn; congruence.
  - discriminate.
Qed.

Record tried (g : mgr) (tr : list gev) : Prop := mkTried {
  td_own : forall j c k, nth_error (g_trk g) j = Some c -> owner c = Some k -> dials k tr = spent c;
  td_failed : forall k p, nth_error (g_peers g) k = Some p -> mp_state p = PsFailed -> g_cancel g = true \/ dials k tr = 5%nat;
  td_run : forall k p, nth_error (g_peers g) k = Some p -> mp_state p = PsRun \/ mp_state p = PsEnded -> (1 <= dials k tr)%nat;
  td_new : forall k p, nth_error (g_peers g) k = Some p -> mp_state p = PsNew -> busy_with g k
}.
Lemma dials_other k k' j : k <> k' -> dials k [GDial j k'] = 0%nat.
Proof. intros N. unfold dials. cbn. destruct (Nat.eqb_spec k' k); [congruence|reflexivity]. Qed.
Lemma move_tried g j c g' es tr : ginv g tr -> tried g tr -> nth_error (g_trk g) j = Some c -> move g j c g' es -> tried g' (tr ++ es).
Proof.
  intros IV [t1 t2 t3 t4] Hj HM. pose proof (iv_sole _ _ IV) as SO. pose proof (iv_own _ _ IV) as OW.
  destruct HM as [g' es T P C N|g' es c' T P C N O S|g' a ips b T P C O|g' k p p' c' O Hp T P SP C O' S|g' es k p p' c' O Hp T P C O' E R].
  - constructor; intros; rewrite ?dials_app, ?N, ?Nat.add_0_r; rewrite ?T, ?P, ?C in *; eauto. destruct (t4 _ _ H H0) as (j' & c' & A & B). exists j', c'. now rewrite T.
  - constructor; intros; rewrite ?dials_app, ?N, ?Nat.add_0_r; rewrite ?T, ?P, ?C in *; eauto.
    + apply nth_upd in H. destruct H as [[-> ->]|[_ H]]; [|eauto]. rewrite S by congruence. eapply t1; [exact Hj|congruence].
    + destruct (t4 _ _ H H0) as (j' & c0 & A & B). destruct (Nat.eq_dec j' j) as [->|NJ].
      * exists j, c'. rewrite T. split; [eapply nth_upd_same; exact Hj|congruence].
      * exists j', c0. rewrite T, nth_upd_other by exact NJ. auto.
  - assert (D : forall q, dials q [GAdd j a b] = 0%nat) by reflexivity.
    assert (X : forall q x, nth_error (g_peers g ++ [mkMp a None PsNew]) q = Some x -> nth_error (g_peers g) q = Some x \/ q = length (g_peers g) /\ x = mkMp a None PsNew).
    { intros q x HX. destruct (Nat.lt_ge_cases q (length (g_peers g))) as [L|L]; [rewrite nth_error_app1 in HX by exact L; auto|].
      rewrite nth_error_app2 in HX by exact L. destruct (q - length (g_peers g))%nat as [|z] eqn:Z; [|destruct z; discriminate]. inversion HX. right. split; [lia|reflexivity]. }
    constructor; intros; rewrite ?dials_app, ?D, ?Nat.add_0_r; rewrite ?T, ?P, ?C in *.
    + apply nth_upd in H. destruct H as [[-> ->]|[_ H]]; [|eauto]. inversion H0; subst. cbn. apply (iv_fresh _ _ IV). lia.
    + apply X in H. destruct H as [H|[-> ->]]; [eauto|discriminate].
    + apply X in H. destruct H as [H|[-> ->]]; [eauto|destruct H0; discriminate].
    + apply X in H. destruct H as [H|[-> ->]].
      * destruct (t4 _ _ H H0) as (j' & c0 & A & B). exists j', c0. rewrite T, nth_upd_other; [auto|]. intros ->. rewrite Hj in A. inversion A; subst. congruence.
      * exists j, (TPStart (length (g_peers g)) ips). rewrite T. split; [eapply nth_upd_same; exact Hj|reflexivity].
  - constructor; intros; rewrite ?dials_app; rewrite ?T, ?P, ?C in *.
    + apply nth_upd in H. destruct H as [[-> ->]|[NJ H]].
      * rewrite O' in H0. inversion H0; subst k0. rewrite dials_self, (t1 _ _ _ Hj O), S. lia.
      * rewrite dials_other, Nat.add_0_r; [eauto|]. intros ->. apply NJ. eapply SO; eassumption.
    + apply nth_upd in H. destruct H as [[-> ->]|[NK H]]; [|rewrite dials_other, Nat.add_0_r by exact NK; eauto].
      destruct (OW _ _ _ Hj O) as (q & Hq & Sq). rewrite Hp in Hq. inversion Hq; subst. congruence.
    + apply nth_upd in H. destruct H as [[-> ->]|[NK H]]; [rewrite dials_self; lia|]. rewrite dials_other, Nat.add_0_r by exact NK; eauto.
    + apply nth_upd in H. destruct H as [[-> ->]|[NK H]].
      * exists j, c'. rewrite T. split; [eapply nth_upd_same; exact Hj|exact O'].
      * destruct (t4 _ _ H H0) as (j' & c0 & A & B). exists j', c0. rewrite T, nth_upd_other; [auto|]. intros ->. rewrite Hj in A. inversion A; subst. congruence.
  - assert (D : forall q, q <> k -> dials q es = 0%nat) by (intros q NQ; destruct E as [->|[->| ->]]; [reflexivity|now apply dials_other|reflexivity]).
    constructor; intros; rewrite ?dials_app; rewrite ?T, ?P, ?C in *.
    + apply nth_upd in H. destruct H as [[-> ->]|[NJ H]]; [congruence|].
      rewrite D, Nat.add_0_r; [eauto|]. intros ->. apply NJ. eapply SO; eassumption.
    + apply nth_upd in H. destruct H as [[-> ->]|[NK H]]; [|rewrite D, Nat.add_0_r by exact NK; eauto].
      destruct R as [[_ R]|[R _]]; [|congruence]. rewrite (t1 _ _ _ Hj O). exact R.
    + apply nth_upd in H. destruct H as [[-> ->]|[NK H]]; [|rewrite D, Nat.add_0_r by exact NK; eauto].
      destruct R as [[R _]|[_ R]]; [destruct H0; congruence|]. rewrite (t1 _ _ _ Hj O). lia.
    + apply nth_upd in H. destruct H as [[-> ->]|[NK H]].
      * destruct R as [[R _]|[R _]]; congruence.
      * destruct (t4 _ _ H H0) as (j' & c0 & A & B). exists j', c0. rewrite T, nth_upd_other; [auto|]. intros ->. rewrite Hj in A. inversion A; subst. congruence.
Qed.
Lemma same_tried g g' tr : tried g tr -> g_trk g' = g_trk g -> g_peers g' = g_peers g -> (g_cancel g = true -> g_cancel g' = true) -> tried g' tr.
Proof.
  intros [t1 t2 t3 t4] T P C. constructor; intros; rewrite ?T, ?P in *; eauto.
  - destruct (t2 _ _ H H0); auto.
  - destruct (t4 _ _ H H0) as (j' & c0 & A & B). exists j', c0. now rewrite T.
Qed.
Lemma gexec_tried g tr a g' es : ginv g tr -> tried g tr -> gexec a g = (g', es) -> tried g' (tr ++ es).
Proof.
  intros IV TD H. unfold gexec in H. destruct (g_panic g); [inversion H; subst; now rewrite app_nil_r|].
  destruct a as [n|j i|k| | |].
  - destruct (g_started g) eqn:ES; inversion H; subst; rewrite app_nil_r; [exact TD|].
    destruct TD as [t1 t2 t3 t4]. constructor; cbn; intros; eauto.
    + apply nth_error_In, repeat_spec in H0. subst c. discriminate.
    + destruct (t4 _ _ H0 H1) as (j' & c0 & A & B). rewrite (iv_started _ _ IV ES) in A. destruct j'; discriminate.
  - destruct (nth_error (g_trk g) j) as [c|] eqn:Ej; [|inversion H; subst; now rewrite app_nil_r].
    destruct (tstep g j c i) as [[g2 e2]|] eqn:Et; [|inversion H; subst; now rewrite app_nil_r].
    inversion H; subst. eapply move_tried; eauto. eapply tstep_move; eassumption.
  - destruct (nth_error (g_peers g) k) as [p|] eqn:Ek; [|inversion H; subst; now rewrite app_nil_r].
    destruct (mp_state p) eqn:Es; inversion H; subst; rewrite app_nil_r; try exact TD.
    destruct TD as [t1 t2 t3 t4]. constructor; cbn; intros; eauto.
    + apply nth_upd in H0. destruct H0 as [[-> ->]|[_ H0]]; [discriminate|eauto].
    + apply nth_upd in H0. destruct H0 as [[-> ->]|[_ H0]]; eauto.
    + apply nth_upd in H0. destruct H0 as [[-> ->]|[_ H0]]; [discriminate|]. exact (t4 _ _ H0 H1).
  - inversion H; subst. rewrite app_nil_r. eapply same_tried; [exact TD|reflexivity..].
  - destruct (g_stop g); inversion H; subst; rewrite app_nil_r; [exact TD|]. unfold stop_check. destruct (g_pool g); [|exact TD].
    destruct (g_started g); eapply same_tried; try exact TD; reflexivity || auto.
  - destruct (g_stop g); inversion H; subst; rewrite app_nil_r; [|exact TD]. unfold stop_close. destruct (close_all _ _ _); eapply same_tried; try exact TD; reflexivity || auto.
Qed.
Lemma tried_run n l g tr : grun l (NewMng n) = (g, tr) -> tried g tr.
Proof.
  intros H. refine (proj2 (grun_inv (fun g tr => ginv g tr /\ tried g tr) (fun _ => True) (NewMng n) _ _ l g tr _ H)).
  - split; [apply ginv_start|]. constructor; cbn; intros; try (destruct j; discriminate); destruct k; discriminate.
  - intros g0 tr0 a g' es [A B] _ E. split; [eapply gexec_inv; eassumption|eapply gexec_tried; eassumption].
  - now apply Forall_forall.
Qed.
Lemma every_peer_tried n l g tr k p : grun l (NewMng n) = (g, tr) -> nth_error (g_peers g) k = Some p ->
  match mp_state p with
  | PsNew => busy_with g k
  | PsFailed => g_cancel g = true \/ dials k tr = 5%nat
  | PsRun | PsEnded => (1 <= dials k tr <= 5)%nat
  end.
Proof.
  intros H Hp. pose proof (tried_run _ _ _ _ H) as [t1 t2 t3 t4]. pose proof (iv_dials _ _ (ginv_run _ _ _ _ H) k) as D.
  destruct (mp_state p) eqn:E; eauto; (split; [|exact D]); eauto.
Qed.
(* once no goroutine is busy connecting, every address that was added has been tried *)
Lemma all_tried n l g tr k p : grun l (NewMng n) = (g, tr) -> g_cancel g = false -> (forall j c, nth_error (g_trk g) j = Some c -> owner c = None) ->
  nth_error (g_peers g) k = Some p -> (1 <= dials k tr)%nat /\ (mp_state p = PsFailed -> dials k tr = 5%nat).
Proof.
  intros H HC HO Hp. pose proof (every_peer_tried _ _ _ _ _ _ H Hp) as E. destruct (mp_state p).
  - destruct E as (j & c & A & B). rewrite (HO _ _ A) in B. discriminate.
  - destruct E as [E|E]; [congruence|]. split; [lia|auto].
  - split; [lia|discriminate].
  - split; [lia|discriminate].
Qed.

(* ---------- HTTP announces ---------- *)
Lemma http_success parse_ip r i l : (forall st b, r = HttpBody st (Some b) -> fits b) ->
  (HttpAnnounce parse_ip r = (i, Ok l) <->
   exists b m raw n v vs, r = HttpBody 200 (Some b) /\ Parse b = Ok (BDict true m raw) /\ no_failure m /\
     interval_of m n /\ i = Some (wrap64 (n * 1000000000)) /\
     lookup (str "peers") m = Some v /\ v <> BNil /\ is_list v vs /\ Forall2 (entry_of parse_ip) vs l).
Proof.
  intros Hf. unfold HttpAnnounce. destruct r as [|st [b|]].
  - split; [discriminate|]. intros (b & m & raw & n & v & vs & E & _). discriminate.
  - destruct (Z.eqb_spec st 200) as [->|N]; cbn [negb].
    + rewrite (read_peers_ok parse_ip b i l (Hf _ _ eq_refl)). split.
      * intros (m & raw & n & v & vs & H). exists b, m, raw, n, v, vs. split; [reflexivity|exact H].
      * intros (b' & m & raw & n & v & vs & E & H). inversion E; subst b'. exists m, raw, n, v, vs. exact H.
    + split; [discriminate|]. intros (b' & m & raw & n & v & vs & E & _). congruence.
  - split; [discriminate|]. intros (b & m & raw & n & v & vs & E & _). discriminate.
Qed.
Lemma http_status parse_ip st b : st <> 200 -> exists e, HttpAnnounce parse_ip (HttpBody st b) = (None, Err e).
Proof. intros H. unfold HttpAnnounce. destruct b; [|eauto]. destruct (Z.eqb_spec st 200); [contradiction|]. cbn. eauto. Qed.
Lemma http_failure parse_ip st b m raw v i l : fits b -> Parse b = Ok (BDict true m raw) -> lookup (str "failure reason") m = Some v -> v <> BNil -> text v <> [] ->
  HttpAnnounce parse_ip (HttpBody st (Some b)) <> (i, Ok l).
Proof.
  intros Hf Hp Hl Hn Hs H. apply http_success in H; [|intros ? ? E; inversion E; subst; exact Hf].
  destruct H as (b' & m' & raw' & n & w & vs & E & Hp' & NF & _). inversion E; subst. rewrite Hp in Hp'. inversion Hp'; subst.
  unfold no_failure in NF. destruct NF as [[A|A]|(w' & A & B & C)]; congruence.
Qed.
