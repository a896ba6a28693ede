(* Lemmas for C126.                                                            *)
From Verif Require Import Base ProofBase ModelBencode ModelUnmarshal ModelTorrent ModelConn ModelStats ModelPeer ModelSystem ModelTracker ModelManager ModelClient
  SpecText SpecBencode SpecUnmarshal SpecTracker SpecManager SpecClient SpecProgram SpecAgain SpecInterval
  ProofUnmarshalMore ProofTracker ProofTracker2 ProofSystem ProofProgress ProofManager ProofManager2 ProofOffer ProofWitness ProofClient ProofClient2 ProofClient3 ProofClient4 ProofClient5 ProofClient6 ProofAgain.

(* ---------- replies ---------- *)
Lemma told_exact parse_ip h i : (forall st b, h = HttpBody st (Some b) -> SpecBencode.fits b) ->
  (fst (HttpAnnounce parse_ip h) = Some i <-> exists n, tells parse_ip h n /\ i = wrap64 (n * 1000000000)).
Proof.
  intros Hf. unfold HttpAnnounce. destruct h as [|st [b|]]; cbn [fst].
  - split; [discriminate|]. intros (n & (b & m & raw & E & _) & _). discriminate.
  - specialize (Hf _ _ eq_refl). destruct (Z.eqb_spec st 200) as [->|N]; cbn [negb fst].
    2: { split; [discriminate|]. intros (n & (b' & m & raw & E & _) & _). inversion E; congruence. }
    split.
    + intros H. destruct (read_peers_cases parse_ip b Hf) as [(f & n & ps & c & c6 & m & (raw & Hp & Hc) & E)|(_ & [(e & _ & E)|[(_ & E)|E]])].
      2,3: rewrite E in H; discriminate.
      2: { exfalso. revert E. unfold readPeers in H. destruct (Unmarshal b _) as [g [x|x| |]]; cbn; discriminate. }
      rewrite E in H. destruct (beq f []) eqn:Ef; cbn [negb fst] in H; [|discriminate]. apply beq_eq in Ef. subst f. inversion H; subst i.
      apply response_conv in Hc. destruct Hc as (f' & n' & ps' & c' & c6' & Eg & Hfl & Hi & Hps & _). inversion Eg; subst f' n' ps' c' c6'.
      exists n. split; [|reflexivity]. exists b, m, raw. split; [reflexivity|]. split; [exact Hp|]. split.
      { destruct Hfl as [(A & _)|(v0 & L0 & N0 & E0)]; [left; exact A|right; exists v0; auto]. }
      split; [exact Hi|]. destruct Hps as [(A & _)|(v & vs & L & N & IL & CL & _)]; [left; exact A|right].
      exists v, vs, (parseBencodePeers parse_ip ps). split; [exact L|]. split; [exact N|]. split; [exact IL|]. apply peers_conv. eauto.
    + intros (n & (b' & m & raw & E & Hp & NF & Hi & Hps) & ->). inversion E; subst b'.
      assert (H6 : exists c6, absent m (str "peers6") /\ c6 = [] \/ exists v, lookup (str "peers6") m = Some v /\ v <> BNil /\ c6 = Raw v).
      { destruct (lookup (str "peers6") m) as [w|] eqn:E6; [|exists []; left; split; [left; exact E6|reflexivity]].
        assert (W : w = BNil \/ w <> BNil) by (destruct w; [left; reflexivity|right; discriminate..]).
        destruct W as [->|W]; [exists []; left; split; [right; exact E6|reflexivity]|exists (Raw w); right; exists w; auto]. }
      destruct H6 as (c6 & H6).
      assert (Hc : exists gs cc, conv_fields m AnnounceResponse_fields AnnounceResponse_zero [VString []; VInt n; VSlice gs; VBytes cc; VBytes c6]).
      { assert (F : absent m (str "failure reason") /\ @nil Z = [] \/ exists v, lookup (str "failure reason") m = Some v /\ v <> BNil /\ [] = text v).
        { destruct NF as [A|(w & Lw & Nw & Ew)]; [left; auto|right; exists w; auto]. }
        destruct Hps as [A|(v & vs & l & L & N & IL & F2)].
        - exists [], []. apply response_conv. exists [], n, [], [], c6. split; [reflexivity|]. split; [exact F|]. split; [exact Hi|]. split; [left; auto|exact H6].
        - apply peers_conv in F2. destruct F2 as (gs & CL & Eg). exists gs, (Raw v). apply response_conv. exists [], n, gs, (Raw v), c6. split; [reflexivity|]. split; [exact F|]. split; [exact Hi|].
          split; [|exact H6]. right. exists v, vs. auto. }
      destruct Hc as (gs & cc & Hc). destruct response_hyps as (H1 & H2 & H3 & H4).
      unfold readPeers. rewrite (proj2 (unmarshal_exact b _ _ (VStruct [VString []; VInt n; VSlice gs; VBytes cc; VBytes c6]) Hf H1 H2 H4)) by eauto 8. reflexivity.
  - split; [discriminate|]. intros (n & (b & m & raw & E & _) & _). discriminate.
Qed.

Lemma parse_interval t r tx : zlen r < 20 -> u_interval (fst (parseTrackerResponse t r tx)) = u_interval t.
Proof.
  intros H. unfold parseTrackerResponse. destruct (slice r 0 4) as [h|e| |]; try reflexivity. destruct (be_get h =? connectA).
  - destruct (readConnect r tx); reflexivity.
  - destruct (be_get h =? announceA); [|destruct (be_get h =? conError); reflexivity]. unfold readAnnounce. destruct (Z.ltb_spec (zlen r) 20); [reflexivity|lia].
Qed.
Lemma udp_interval t tx1 tx2 key ok hash id d s : u_interval (fst (fst (UdpAnnounce t tx1 tx2 key ok hash id d s))) = u_interval t.
Proof.
  unfold UdpAnnounce, handshake. destruct ok; cbn [negb]; [|reflexivity].
  destruct (ReadUdpHandshake s) as [[r|e] s'] eqn:E; [|reflexivity].
  pose proof (udp_read_full_len 16 s [] r s' ltac:(lia) E) as L. change (zlen []) with 0 in L. pose proof (parse_interval t r tx1 ltac:(lia)) as P.
  destruct (parseTrackerResponse t r tx1) as [t1 [u|e1| |]] eqn:Ep; cbn [fst] in *; try exact P.
  destruct (UdpReadAll s') as [[r2|e2] s2] eqn:E2; [exfalso; eapply udp_read_all_fails; exact E2|]. exact P.
Qed.

(* ---------- the interval kept ---------- *)
Lemma fits_in l a : bodies_fit (a :: l) -> bodies_fit l.
Proof. intros H j st b k HI. eapply H. right. exact HI. Qed.
Lemma told_no parse_ip h : (forall st b, h = HttpBody st (Some b) -> SpecBencode.fits b) -> fst (HttpAnnounce parse_ip h) = None -> forall n, ~ tells parse_ip h n.
Proof. intros Hf H n T. assert (X : fst (HttpAnnounce parse_ip h) = Some (wrap64 (n * 1000000000))) by (apply told_exact; [exact Hf|eauto]). congruence. Qed.
Lemma last_told_one parse_ip hs h i : (forall st b, h = HttpBody st (Some b) -> SpecBencode.fits b) -> last_told parse_ip hs i ->
  last_told parse_ip (hs ++ [h]) (match fst (HttpAnnounce parse_ip h) with Some n => n | None => i end).
Proof.
  intros Hf H. destruct (fst (HttpAnnounce parse_ip h)) as [i'|] eqn:E.
  - apply told_exact in E; [|exact Hf]. destruct E as (n & T & ->). right. exists hs, h, [], n. split; [reflexivity|]. split; [exact T|]. split; [reflexivity|]. intros h' n' [].
  - pose proof (told_no _ _ Hf E) as N. destruct H as [(-> & H)|(hs1 & h1 & hs2 & n & -> & T & -> & H)].
    + left. split; [reflexivity|]. intros h' n HI. apply in_app_or in HI. destruct HI as [HI|[<-|[]]]; [now apply H|apply N].
    + right. exists hs1, h1, (hs2 ++ [h]), n. split; [now rewrite <- app_assoc|]. split; [exact T|]. split; [reflexivity|].
      intros h' n' HI. apply in_app_or in HI. destruct HI as [HI|[<-|[]]]; [now apply H|apply N].
Qed.
(* what the state of tracker j says of the replies so far *)
Definition kept (cf : conf) (hs : list httpres) (x : ctr) : Prop :=
  match ct_trk x with
  | TrNone => hs = []
  | TrHttp _ _ _ i => last_told (cf_ip cf) hs i
  | TrUdp u => hs = [] /\ u_interval u = 60 * 1000000000
  end.
Definition reply_in (j : nat) (a : cact) (es : list cev) : list httpres :=
  match a, es with KAnn _ (RHttp h _), VHttp i _ _ _ :: _ => if Nat.eqb i j then [h] else [] | _, _ => [] end.
Lemma nth_upd_cases {A} (l : list A) i j v x : nth_error (upd l i v) j = Some x -> i = j /\ x = v \/ i <> j /\ nth_error l j = Some x.
Proof.
  destruct (Nat.eq_dec i j) as [->|N].
  - destruct (nth_error l j) as [y|] eqn:E; [rewrite (nth_upd_same _ _ _ _ E); intros H; inversion H; auto|].
    intros H. exfalso. apply nth_error_None in E. assert (X : nth_error (upd l j v) j <> None) by congruence. apply nth_error_Some in X. rewrite upd_length in X. lia.
  - rewrite nth_upd_other by congruence. auto.
Qed.
Lemma kept_step cf a c c' es j hs x' : cexec cf a c = (c', es) -> (forall i st b k, a = KAnn i (RHttp (HttpBody st (Some b)) k) -> SpecBencode.fits b) ->
  (forall x, nth_error (c_trk c) j = Some x -> kept cf hs x /\ (nth_error (g_trk (c_mgr c)) j = Some TNew -> hs = [])) ->
  nth_error (c_trk c') j = Some x' -> kept cf (hs ++ reply_in j a es) x'.
Proof.
  intros HE Hf HK HX. apply cexec_move in HE.
  assert (SAME : reply_in j a es = [] -> c_trk c' = c_trk c -> kept cf (hs ++ reply_in j a es) x').
  { intros E1 E2. rewrite E1, app_nil_r. rewrite E2 in HX. now apply HK. }
  destruct HE as [[-> ->]|(_ & _ & M)].
  { apply SAME; [|reflexivity]. destruct a; try reflexivity. destruct r; reflexivity. }
  inversion M; subst; try (apply SAME; [first [reflexivity|destruct a; try reflexivity; destruct r; reflexivity]|reflexivity]).
  - cbn [mgr_step c_trk set_ctr] in HX. cbn [reply_in]. rewrite app_nil_r. apply nth_upd_cases in HX. destruct HX as [(<- & ->)|(NJ & HX)]; [|now apply HK].
    destruct (HK _ H0) as (_ & N). rewrite (N H). unfold kept. cbn [ct_trk]. unfold new_tracker. destruct (NewTracker _ _) as [[|]| | |]; try reflexivity.
    + left. split; [reflexivity|]. intros ? ? [].
    + split; reflexivity.
  - cbn [set_ctr c_trk] in HX. cbn [reply_in]. rewrite app_nil_r. apply nth_upd_cases in HX. destruct HX as [(<- & ->)|(NJ & HX)]; [|now apply HK]. destruct (HK _ H0) as (K & _). exact K.
  - cbn [c_trk] in HX. apply nth_upd_cases in HX. destruct HX as [(<- & ->)|(NJ & HX)].
    + destruct (HK _ H0) as (K & _). unfold kept in *. cbn [ct_trk]. unfold tracker_announce in H2. destruct (ct_trk tr) as [|addr id ev i|u0]; destruct rp as [h cn|tx1 tx2 key ok s]; try discriminate.
      * destruct (HttpAnnounce (cf_ip cf) h) as [i' res] eqn:EH. inversion H2; subst t e a0. cbn [reply_in]. rewrite Nat.eqb_refl.
        pose proof (last_told_one (cf_ip cf) hs h i) as L. rewrite EH in L. apply L; [|exact K]. intros st b ->. eapply Hf. reflexivity.
      * destruct (UdpAnnounce _ _ _ _ _ _ _ _ _) as [[u' ds] res] eqn:EU. inversion H2; subst t e a0. cbn [reply_in]. rewrite app_nil_r. split; [apply K|].
        pose proof (udp_interval u0 tx1 tx2 key ok (t_hash (sh_t (wo_sh (c_wo c)))) (cf_id cf) (mkAnn d u l (cf_port cf)) s) as U. rewrite EU in U. cbn [fst] in U. rewrite U. apply K.
    + assert (E : reply_in j (KAnn j0 rp) (e :: map VMgr (snd (gexec (XTrk j0 (mkTin false (ann_in c a0) false false false)) (c_mgr c)))) = []).
      { cbn [reply_in]. destruct rp; [|reflexivity]. destruct e; try reflexivity. unfold tracker_announce in H2. destruct (ct_trk tr); try discriminate. destruct (HttpAnnounce _ _). inversion H2; subst.
        match goal with |- context [Nat.eqb ?k j] => destruct (Nat.eqb_spec k j); [contradiction|reflexivity] end. }
      rewrite E, app_nil_r. now apply HK.
Qed.

Lemma replies_snoc cf j l a : forall c, replies cf j (l ++ [a]) c = replies cf j l c ++ reply_in j a (snd (cexec cf a (fst (crun cf l c)))).
Proof.
  induction l as [|b l IH]; intros c; cbn [app replies crun].
  - cbn [fst]. destruct (cexec cf a c) as [c1 e1]. cbn [snd]. now rewrite app_nil_r.
  - destruct (cexec cf b c) as [c1 e1]. rewrite IH. destruct (crun cf l c1) as [c2 e2]. cbn [fst]. now rewrite app_assoc.
Qed.
Lemma replies_seen cf j l : forall c c' tr h, crun cf l c = (c', tr) -> In h (replies cf j l c) -> exists e, In e tr /\ announce_by j e.
Proof.
  induction l as [|a l IH]; intros c c' tr h H HI; [destruct HI|]. cbn [crun replies] in *. destruct (cexec cf a c) as [c1 e1]. destruct (crun cf l c1) as [c2 e2] eqn:E2. inversion H; subst.
  apply in_app_or in HI. destruct HI as [HI|HI].
  - destruct a as [| | | |i [h0 k|]| | |]; try destruct HI. destruct e1 as [|[] e1]; try destruct HI. destruct (Nat.eqb_spec j0 j) as [->|N]; [|destruct HI]. eexists. split; [left; reflexivity|reflexivity].
  - destruct (IH _ _ _ _ E2 HI) as (e & I1 & I2). exists e. split; [apply in_or_app; now right|exact I2].
Qed.
Lemma kept_run cf t f outs urls j : forall l c tr x, crun cf l (client_start cf t f outs urls) = (c, tr) -> bodies_fit l -> nth_error (c_trk c) j = Some x ->
  kept cf (replies cf j l (client_start cf t f outs urls)) x.
Proof.
  induction l as [|a l IH] using rev_ind; intros c tr x H HF HX.
  - inversion H; subst. cbn [client_start c_trk] in HX. rewrite nth_error_map in HX. destruct (nth_error urls j); [|discriminate]. inversion HX; subst. reflexivity.
  - rewrite replies_snoc. rewrite crun_snoc in H. destruct (crun cf l (client_start cf t f outs urls)) as [c1 e1] eqn:E1. destruct (cexec cf a c1) as [c2 e2] eqn:E2. inversion H; subst. cbn [fst snd]. rewrite E2. cbn [snd].
    eapply kept_step; [exact E2| | |exact HX].
    + intros i st b k ->. eapply HF. apply in_or_app. right. now left.
    + intros y HY. split; [eapply IH; [reflexivity| |exact HY]; intros i st b k HI; eapply HF; apply in_or_app; left; exact HI|].
      intros HN. destruct (replies cf j l (client_start cf t f outs urls)) as [|h hs] eqn:ER; [reflexivity|]. exfalso.
      destruct (replies_seen _ j _ _ _ _ h E1) as (e & I1 & I2); [rewrite ER; now left|]. destruct (created_before _ _ _ _ _ _ _ _ _ _ E1 I1 I2) as (pc & P1 & P2). congruence.
Qed.
Lemma interval_told cf t f outs urls l c tr j i : crun cf l (client_start cf t f outs urls) = (c, tr) -> bodies_fit l -> interval_at c j i ->
  last_told (cf_ip cf) (replies cf j l (client_start cf t f outs urls)) i.
Proof.
  intros H HF (x & HX & HI). pose proof (kept_run _ _ _ _ _ _ _ _ _ _ H HF HX) as K. unfold kept in K. destruct (ct_trk x) as [|addr id ev i'|u]; [destruct HI|subst i'; exact K|].
  destruct K as (-> & E). left. split; [congruence|]. intros ? ? [].
Qed.

(* the kind of a tracker *)
Definition suits (cf : conf) (x : ctr) : Prop := match ct_trk x with TrNone => True | _ => serves cf (ct_url x) (ct_trk x) end.
Lemma new_suits cf u x g : suits cf (mkCtr u (new_tracker cf u x) [] g).
Proof.
  unfold suits. cbn [ct_trk ct_url]. unfold new_tracker. destruct (NewTracker _ _) as [k| | |] eqn:E; try exact I. apply new_tracker_exact in E.
  destruct E as [(E & _ & ->)|([E|E] & ->)]; [exact E|left; exact E|right; exact E].
Qed.
Lemma suits_step cf a c c' es : cexec cf a c = (c', es) -> Forall (suits cf) (c_trk c) -> Forall (suits cf) (c_trk c').
Proof.
  assert (PUT : forall (l : list ctr) k x, Forall (suits cf) l -> suits cf x -> Forall (suits cf) (upd l k x)).
  { intros l k x F Hx. revert k. induction F as [|y l Hy F IH]; intros k; [constructor|]. destruct k; cbn [upd]; constructor; auto. }
  intros H F. apply cexec_move in H. destruct H as [[-> ->]|(_ & _ & M)]; [exact F|].
  assert (AT : forall j x, nth_error (c_trk c) j = Some x -> suits cf x) by (intros j x Hj; rewrite Forall_forall in F; apply F; eapply nth_error_In; exact Hj).
  inversion M; subst; cbn [c_trk mgr_step sys_step cnt_step set_ctr prt_step end_step]; try exact F; apply PUT; try exact F.
  - apply new_suits.
  - specialize (AT _ _ H0). exact AT.
  - specialize (AT _ _ H0). unfold suits in *. cbn [ct_trk ct_url]. destruct (ct_trk tr) eqn:ET; [discriminate| |].
    + destruct (announce_serves _ (ct_url tr) _ _ _ _ _ _ _ _ H2 AT) as [S _]. destruct t; auto.
    + destruct (announce_serves _ (ct_url tr) _ _ _ _ _ _ _ _ H2 AT) as [S _]. destruct t; auto.
Qed.
Lemma suits_run cf t f outs urls l c tr : crun cf l (client_start cf t f outs urls) = (c, tr) -> Forall (suits cf) (c_trk c).
Proof.
  intros HR. refine (crun_inv cf (fun c _ => Forall (suits cf) (c_trk c)) (fun _ => True) _ _ _ l c tr _ HR).
  - cbn [client_start c_trk]. apply Forall_forall. intros x HI. apply in_map_iff in HI. destruct HI as (u & <- & _). exact I.
  - intros c1 tr1 a c2 es F _ E. eapply suits_step; eassumption.
  - apply Forall_forall. auto.
Qed.
Lemma udp_minute cf t f outs urls l c tr j u i : crun cf l (client_start cf t f outs urls) = (c, tr) -> bodies_fit l -> nth_error urls j = Some u -> udp_url cf u ->
  interval_at c j i -> i = 60 * 1000000000.
Proof.
  intros H HF HU HS (x & HX & HI). pose proof (kept_run _ _ _ _ _ _ _ _ _ _ H HF HX) as K. pose proof (suits_run _ _ _ _ _ _ _ _ H) as S. rewrite Forall_forall in S. specialize (S _ (nth_error_In _ _ HX)).
  pose proof (urls_kept _ _ _ _ _ _ _ _ H) as UK. assert (UJ : nth_error (map ct_url (c_trk c)) j = Some u) by congruence. rewrite nth_error_map, HX in UJ. cbn in UJ. injection UJ as UJ.
  unfold kept, suits in *. destruct (ct_trk x) as [|addr id ev i'|ud]; [destruct HI| |destruct K; congruence]. exfalso. rewrite UJ in S. cbn [serves] in S. unfold http_url, udp_url in *. destruct S as [S|S]; rewrite S in HS; vm_compute in HS; discriminate.
Qed.

(* ---------- the pause ---------- *)
Definition busy (p : tpc) : Prop := match p with TNew | TStart | TTry _ | TBack _ => False | _ => True end.
Lemma tstep_busy g j c i g' es : nth_error (g_trk g) j = Some c -> busy c -> tstep g j c i = Some (g', es) ->
  exists c', nth_error (g_trk g') j = Some c' /\ (busy c' \/ c = TWait /\ i_timer i = true).
Proof.
  intros HJ HB H. assert (S : forall h x, g_trk h = g_trk g -> busy x -> exists c', nth_error (g_trk (set_trk h j x)) j = Some c' /\ (busy c' \/ c = TWait /\ i_timer i = true)).
  { intros h x E N. exists x. split; [eapply set_trk_nth; rewrite E; exact HJ|now left]. }
  assert (AF : forall h k n ips, g_trk h = g_trk g -> exists c', nth_error (g_trk (after_failure h j k n ips)) j = Some c' /\ (busy c' \/ c = TWait /\ i_timer i = true)).
  { intros h k n ips E. unfold after_failure. destruct (Nat.eqb n 4); eexists; (split; [eapply set_trk_nth; rewrite ?peer_failed_trk, ?E; exact HJ|left; exact I]). }
  destruct c as [| |n|n|[|a ips]|k ips|k n ips|k n ips|k n ips| |]; try (destruct HB; fail); cbn [tstep] in H.
  all: repeat first [discriminate | match type of H with context [match ?x with _ => _ end] => destruct x eqn:? end].
  all: inversion H; subst; clear H.
  all: try (apply S; [first [reflexivity | apply peer_failed_trk | eapply AddPeer_trk; eassumption]|exact I]; fail).
  all: try (apply AF; reflexivity).
  all: try (eexists; split; [exact HJ|left; exact I]; fail).
  exists TStart. split; [eapply set_trk_nth; exact HJ|right; auto].
Qed.
Lemma xtrk_busy g tr j pc i : ginv g tr -> nth_error (g_trk g) j = Some pc -> busy pc ->
  exists pc', nth_error (g_trk (fst (gexec (XTrk j i) g))) j = Some pc' /\ (busy pc' \/ pc = TWait /\ i_timer i = true).
Proof.
  intros IV HJ HB. unfold gexec. destruct (g_panic g); [exists pc; auto|]. rewrite HJ. destruct (tstep g j pc i) as [[g1 e1]|] eqn:T; cbn [fst]; [|exists pc; auto].
  eapply tstep_busy; eassumption.
Qed.
Lemma busy_step cf a c c' es j pc x : reach cf c -> cexec cf a c = (c', es) -> nth_error (g_trk (c_mgr c)) j = Some pc -> busy pc -> nth_error (c_trk c) j = Some x ->
  nth_error (c_trk c') j = Some x /\ exists pc', nth_error (g_trk (c_mgr c')) j = Some pc' /\ (busy pc' \/ pc = TWait /\ exists y, a = KTrk j y /\ x_timer y = true).
Proof.
  intros HR HE HP HB HX. destruct (reach_iv _ _ HR) as (tr & IV).
  assert (D : of_trk j a \/ ~ of_trk j a) by (destruct a as [| |i y|i|i r|k i| |b]; cbn; try (right; intros []; fail); (destruct (Nat.eq_dec i j); [now left|now right])).
  destruct D as [D|D]; [|destruct (other_step _ _ _ _ _ _ _ _ _ IV HE D HP HX) as [P1 P2]; split; [exact P2|]; exists pc; split; [exact P1|now left]].
  apply cexec_move in HE. destruct HE as [[-> ->]|(_ & _ & M)]; [split; [exact HX|]; exists pc; auto|].
  inversion M; subst; clear M; cbn [of_trk] in D; try (destruct D; fail); try subst j0; try (rewrite HP in *; match goal with E : Some _ = Some _ |- _ => inversion E; subst; destruct HB end; fail);
    cbn [c_mgr c_trk mgr_step]; (split; [exact HX|]).
  - exists pc. auto.
  - rewrite HP in H. inversion H; subst pc0. destruct (xtrk_busy _ _ _ _ (tin_of false false x0) IV HP HB) as (pc' & P1 & P2). exists pc'. split; [exact P1|]. destruct P2 as [P2|[P2 P3]]; [now left|right; split; [exact P2|eauto]].
  - destruct (xtrk_busy _ _ _ _ (tin_of false false x0) IV HP HB) as (pc' & P1 & P2). exists pc'. split; [exact P1|]. destruct P2 as [P2|[P2 P3]]; [now left|right; split; [exact P2|eauto]].
  - destruct (xtrk_busy _ _ _ _ (tin_of false true x0) IV HP HB) as (pc' & P1 & P2). exists pc'. split; [exact P1|]. destruct P2 as [P2|[P2 P3]]; [now left|right; split; [exact P2|eauto]].
Qed.
(* no announce before the pause is over *)
Lemma quiet cf j i t1 : forall tb now since c t2 a2 tc e, reach cf c -> timely cf j now since (tb ++ (t2, a2) :: tc) c ->
  t1 <= now -> (waits c j = true -> t1 <= since) ->
  ((exists pc, nth_error (g_trk (c_mgr c)) j = Some pc /\ busy pc) /\ interval_at c j i \/ t1 + Z.max 0 i <= now) ->
  In e (snd (cexec cf a2 (fst (crun cf (steps tb) c)))) -> announce_by j e -> t1 + Z.max 0 i <= t2.
Proof.
  induction tb as [|[t a] tb IH]; intros now since c t2 a2 tc e HR HT HN HW HI IN AB.
  - cbn [app timely steps map crun fst] in *. destruct HT as (T1 & _). destruct HI as [((pc & P1 & P2) & _)|HI]; [|lia]. exfalso.
    destruct (cexec cf a2 c) as [c2 e2] eqn:E. destruct (announce_at _ _ _ _ _ _ _ E IN AB) as (n & X). rewrite P1 in X. inversion X; subst. exact P2.
  - cbn [app timely steps map crun] in *. destruct HT as (T1 & T2 & T3). cbn [snd] in *. destruct (cexec cf a c) as [c1 e1] eqn:E. cbn [fst] in *.
    destruct (crun cf (map snd tb) c1) as [c2 e2] eqn:E2. cbn [fst] in IN.
    eapply (IH t (if waits c j then since else t) c1 t2 a2 tc e); [eapply reach_step; eassumption|exact T3|lia| | |unfold steps; rewrite E2; exact IN|exact AB].
    + intros _. destruct (waits c j); [auto|lia].
    + destruct HI as [((pc & P1 & P2) & (x & X1 & X2))|HI]; [|right; lia]. destruct (busy_step _ _ _ _ _ _ _ _ HR E P1 P2 X1) as (Y & pc' & Q1 & [Q2|(-> & y & -> & Q3)]).
      * left. split; [eauto|]. exists x. auto.
      * right. assert (W : waits c j = true) by (unfold waits; now rewrite P1). specialize (T2 y i eq_refl W Q3 ltac:(exists x; auto)). specialize (HW W). lia.
Qed.
Lemma timely_app cf j l1 : forall l2 now since c, timely cf j now since (l1 ++ l2) c -> exists now' since', timely cf j now' since' l2 (fst (crun cf (steps l1) c)).
Proof.
  induction l1 as [|[t a] l1 IH]; intros l2 now since c H; [exists now, since; exact H|]. cbn [app timely steps map crun snd] in *. destruct H as (_ & _ & H).
  destruct (cexec cf a c) as [c1 e1]. cbn [fst] in H. destruct (IH _ _ _ _ H) as (n' & s' & H'). unfold steps in H'. destruct (crun cf (map snd l1) c1) as [c2 e2]. exists n', s'. exact H'.
Qed.
(* a successful announce *)
Lemma success_step cf c j h k c' es addr q ips : reach cf c -> cexec cf (KAnn j (RHttp h k)) c = (c', es) -> In (VHttp j addr q (Some ips)) es ->
  (exists pc, nth_error (g_trk (c_mgr c')) j = Some pc /\ busy pc) /\ exists i, interval_at c' j i /\ snd (HttpAnnounce (cf_ip cf) h) = Ok ips /\ (forall i', fst (HttpAnnounce (cf_ip cf) h) = Some i' -> i = i').
Proof.
  intros HR HE HI. apply cexec_move in HE. destruct HE as [[-> ->]|(HD & _ & M)]; [destruct HI|]. inversion M; subst; clear M; [destruct HI|].
  assert (E : e = VHttp j addr q (Some ips)).
  { destruct HI as [->|HI]; [reflexivity|]. apply in_map_iff in HI. destruct HI as (y & X & _). discriminate. }
  subst e. pose proof (alive _ HD) as [_ NP]. unfold tracker_announce in *. destruct (ct_trk tr) as [|addr0 id ev i|u0] eqn:ET; try discriminate.
  destruct (HttpAnnounce (cf_ip cf) h) as [i' res] eqn:EH. match goal with X : Some _ = Some _ |- _ => inversion X; subst; clear X end.
  destruct res as [ips'| | |]; try discriminate. match goal with X : ips_of _ = _ |- _ => inversion X; subst ips' end. cbn [ann_of ann_in]. unfold gexec. rewrite NP.
  match goal with X : nth_error (g_trk _) _ = _ |- _ => rewrite X; pose proof X as HP end. cbn [tstep i_ann fst c_mgr c_trk]. split.
  - exists (TInit ips). split; [eapply set_trk_nth; exact HP|exact I].
  - exists (match i' with Some n => n | None => i end). split; [eexists; split; [eapply nth_upd_same; eassumption|reflexivity]|]. split; [reflexivity|]. cbn [fst]. intros i1 ->. reflexivity.
Qed.
Lemma pause cf t f outs urls j now since ta t1 h k tb t2 a2 tc addr q ips n e :
  timely cf j now since (ta ++ (t1, KAnn j (RHttp h k)) :: tb ++ (t2, a2) :: tc) (client_start cf t f outs urls) -> (forall st b, h = HttpBody st (Some b) -> SpecBencode.fits b) ->
  let c1 := fst (crun cf (steps ta) (client_start cf t f outs urls)) in
  In (VHttp j addr q (Some ips)) (snd (cexec cf (KAnn j (RHttp h k)) c1)) -> tells (cf_ip cf) h n ->
  In e (snd (cexec cf a2 (fst (crun cf (steps tb) (fst (cexec cf (KAnn j (RHttp h k)) c1)))))) -> announce_by j e ->
  t1 + Z.max 0 (wrap64 (n * 1000000000)) <= t2.
Proof.
  intros HT Hf c1 H1 HN H2 AB. destruct (timely_app _ _ _ _ _ _ _ HT) as (now' & since' & HT'). fold c1 in HT'.
  assert (RC : reach cf c1). { unfold c1. destruct (crun cf (steps ta) (client_start cf t f outs urls)) as [c0 tr0] eqn:E. exists t, f, outs, urls, (steps ta), tr0. exact E. }
  cbn [timely] in HT'. destruct HT' as (T1 & _ & T3). destruct (cexec cf (KAnn j (RHttp h k)) c1) as [c2 e2] eqn:E. cbn [fst snd] in *.
  destruct (success_step _ _ _ _ _ _ _ _ _ _ RC E H1) as (B & i & I1 & I2 & I3).
  assert (W : i = wrap64 (n * 1000000000)) by (apply I3; apply told_exact; [exact Hf|eauto]). subst i.
  eapply (quiet cf j (wrap64 (n * 1000000000)) t1 tb t1 (if waits c1 j then since' else t1) c2 t2 a2 tc e); [eapply reach_step; eassumption|exact T3|lia| |left; auto|exact H2|exact AB].
  intros _. assert (W : waits c1 j = false). { unfold waits. destruct (announce_at _ _ _ _ _ (VHttp j addr q (Some ips)) j E H1 eq_refl) as (m & ->). reflexivity. } rewrite W. lia.
Qed.

(* ---------- witnesses ---------- *)
Definition interval_b (c : client) (j : nat) : option Z :=
  match nth_error (c_trk c) j with Some x => match ct_trk x with TrHttp _ _ _ i => Some i | TrUdp u => Some (u_interval u) | TrNone => None end | None => None end.
Lemma interval_b_eq c j i : interval_at c j i -> interval_b c j = Some i.
Proof. intros (x & HX & HI). unfold interval_b. rewrite HX. destruct (ct_trk x); [destruct HI|now subst|now subst]. Qed.
Fixpoint timely_b (cf : conf) (j : nat) (now since : Z) (l : list (Z * cact)) (c : client) : bool :=
  match l with
  | [] => true
  | (t, a) :: l' =>
      (now <=? t) &&
      match a with KTrk j' x => if Nat.eqb j' j && waits c j && x_timer x then match interval_b c j with Some i => since + Z.max 0 i <=? t | None => true end else true | _ => true end &&
      timely_b cf j t (if waits c j then since else t) l' (fst (cexec cf a c))
  end.
Lemma timely_b_ok cf j l : forall now since c, timely_b cf j now since l c = true -> timely cf j now since l c.
Proof.
  induction l as [|[t a] l IH]; intros now since c H; [exact I|]. cbn [timely_b timely] in *. apply andb_true_iff in H. destruct H as [H H3]. apply andb_true_iff in H. destruct H as [H1 H2].
  split; [lia|]. split; [|apply IH; exact H3]. intros x i -> W T HI. apply interval_b_eq in HI. rewrite Nat.eqb_refl, W, T, HI in H2. cbn [andb] in H2. lia.
Qed.
Definition no_peers (i : bytes) : httpres := HttpBody 200 (Some (str "d8:intervali" ++ i ++ str "e5:peerslee")).
(* an announce at time 0 and the next one at t2 *)
Definition before_ann (t : Z) : list (Z * cact) := map (pair t) [KTrk 0 well; KTrk 0 well; KLoad 0; KLoad 0; KLoad 0].
Definition ta0 : list (Z * cact) := (0, KMain) :: map (pair 0) [KTrk 0 well; KTrk 0 well; KLoad 0; KLoad 0; KLoad 0].
Definition tb0 (t2 : Z) : list (Z * cact) := (0, KTrk 0 well) :: before_ann t2.
Definition ok_b (j : nat) (es : list cev) : bool := existsb (fun e => match e with VHttp i _ _ (Some _) => Nat.eqb i j | _ => false end) es.
Lemma ok_b_in j es : ok_b j es = true -> exists addr q ips, In (VHttp j addr q (Some ips)) es.
Proof.
  intros H. apply existsb_exists in H. destruct H as (e & HI & H). destruct e as [| | |i addr q [ips|]|]; try discriminate. apply Nat.eqb_eq in H. subst i. eauto.
Qed.
Definition twice (t2 : Z) (h : httpres) : bool :=
  let c0 := cx_start cx_sha1 in let cf := cx_conf cx_sha1 in let c1 := fst (crun cf (steps ta0) c0) in
  let '(c2, e2) := cexec cf (KAnn 0 (RHttp h false)) c1 in
  timely_b cf 0 0 0 (ta0 ++ (0, KAnn 0 (RHttp h false)) :: tb0 t2 ++ [(t2, KAnn 0 (RHttp h false))]) c0 && ok_b 0 e2 &&
  ok_b 0 (snd (cexec cf (KAnn 0 (RHttp h false)) (fst (crun cf (steps (tb0 t2)) c2)))).
Lemma twice_at t2 h : twice t2 h = true ->
  let c0 := cx_start cx_sha1 in let cf := cx_conf cx_sha1 in let c1 := fst (crun cf (steps ta0) c0) in
  timely cf 0 0 0 (ta0 ++ (0, KAnn 0 (RHttp h false)) :: tb0 t2 ++ [(t2, KAnn 0 (RHttp h false))]) c0 /\
  (exists addr q ips, In (VHttp 0 addr q (Some ips)) (snd (cexec cf (KAnn 0 (RHttp h false)) c1))) /\
  (exists e, In e (snd (cexec cf (KAnn 0 (RHttp h false)) (fst (crun cf (steps (tb0 t2)) (fst (cexec cf (KAnn 0 (RHttp h false)) c1)))))) /\ announce_by 0 e).
Proof.
  unfold twice. cbv zeta. destruct (cexec (cx_conf cx_sha1) (KAnn 0 (RHttp h false)) _) as [c2 e2]. cbn [fst snd]. intros H. apply andb_true_iff in H. destruct H as [H H3]. apply andb_true_iff in H. destruct H as [H1 H2].
  split; [apply timely_b_ok; exact H1|]. split; [apply ok_b_in; exact H2|]. destruct (ok_b_in _ _ H3) as (addr & q & ips & X). eexists. split; [exact X|reflexivity].
Qed.
Lemma twice_60 : twice 60000000000 (no_peers (str "60")) = true.
Proof. vm_compute. reflexivity. Qed.
Lemma twice_big : twice 0 (no_peers (str "9223372037")) = true.
Proof. vm_compute. reflexivity. Qed.
Lemma twice_none : twice 0 (HttpBody 200 (Some (str "d5:peerslee"))) = true.
Proof. vm_compute. reflexivity. Qed.
Lemma no_peers_names parse_ip i n m raw v : Parse (str "d8:intervali" ++ i ++ str "e5:peerslee") = Ok (BDict true m raw) -> lookup (str "failure reason") m = None ->
  lookup (str "interval") m = Some v -> v <> BNil -> text v = i -> i = itoa n -> - 2 ^ 63 <= n < 2 ^ 63 -> (exists raw', lookup (str "peers") m = Some (BList true [] raw')) -> names parse_ip (no_peers i) n.
Proof.
  intros HP HF HL HN HT HI HR (raw' & HE). split.
  - exists (str "d8:intervali" ++ i ++ str "e5:peerslee"), m, raw. split; [reflexivity|]. split; [exact HP|]. split; [left; left; exact HF|]. split.
    + right. exists v. split; [exact HL|]. split; [exact HN|]. split; [rewrite HT, HI; now apply int_literal_itoa|exact HR].
    + right. eexists _, [], []. split; [exact HE|]. split; [discriminate|]. split; [eexists; reflexivity|constructor].
  - eexists _, m, raw, v. repeat split; eassumption.
Qed.
Lemma names_big parse_ip : names parse_ip (no_peers (str "9223372037")) 9223372037.
Proof.
  eapply no_peers_names; [vm_compute; reflexivity|reflexivity|vm_compute; reflexivity|discriminate|vm_compute; reflexivity|vm_compute; reflexivity|lia|eexists; vm_compute; reflexivity].
Qed.
Lemma names_60 parse_ip : names parse_ip (no_peers (str "60")) 60.
Proof.
  eapply no_peers_names; [vm_compute; reflexivity|reflexivity|vm_compute; reflexivity|discriminate|vm_compute; reflexivity|vm_compute; reflexivity|lia|eexists; vm_compute; reflexivity].
Qed.
Lemma small_fits s : (Z.of_nat (length s) <? 1000) = true -> SpecBencode.fits s.
Proof. intros H. unfold SpecBencode.fits, MAXN, zlen. lia. Qed.
Lemma pause_refuted :
  ~ (forall cf t f outs urls j now since ta t1 h k tb t2 a2 tc addr q ips n e,
       timely cf j now since (ta ++ (t1, KAnn j (RHttp h k)) :: tb ++ (t2, a2) :: tc) (client_start cf t f outs urls) -> (forall st b, h = HttpBody st (Some b) -> SpecBencode.fits b) ->
       let c1 := fst (crun cf (steps ta) (client_start cf t f outs urls)) in
       In (VHttp j addr q (Some ips)) (snd (cexec cf (KAnn j (RHttp h k)) c1)) -> names (cf_ip cf) h n ->
       In e (snd (cexec cf a2 (fst (crun cf (steps tb) (fst (cexec cf (KAnn j (RHttp h k)) c1)))))) -> announce_by j e -> t1 + n * 1000000000 <= t2).
Proof.
  intros H. destruct (twice_at _ _ twice_big) as (T & (addr & q & ips & I1) & e & I2 & AB).
  specialize (H (cx_conf cx_sha1) (cx_t cx_sha1) wx_fs [] [str "http://t/a"] 0%nat 0 0 ta0 0 (no_peers (str "9223372037")) false (tb0 0) 0 (KAnn 0 (RHttp (no_peers (str "9223372037")) false)) []
    addr q ips 9223372037 e T). cbv zeta in H.
  assert (X : 0 + 9223372037 * 1000000000 <= 0); [|lia]. refine (H _ I1 (names_big _) I2 AB).
  intros st b E. inversion E; subst. apply small_fits. vm_compute. reflexivity.
Qed.
Lemma pause_small cf t f outs urls j now since ta t1 h k tb t2 a2 tc addr q ips n e :
  timely cf j now since (ta ++ (t1, KAnn j (RHttp h k)) :: tb ++ (t2, a2) :: tc) (client_start cf t f outs urls) -> (forall st b, h = HttpBody st (Some b) -> SpecBencode.fits b) ->
  let c1 := fst (crun cf (steps ta) (client_start cf t f outs urls)) in
  In (VHttp j addr q (Some ips)) (snd (cexec cf (KAnn j (RHttp h k)) c1)) -> names (cf_ip cf) h n -> n <= 9223372036 ->
  In e (snd (cexec cf a2 (fst (crun cf (steps tb) (fst (cexec cf (KAnn j (RHttp h k)) c1)))))) -> announce_by j e -> t1 + n * 1000000000 <= t2.
Proof.
  intros HT Hf c1 H1 [HN _] HL H2 AB. pose proof (pause _ _ _ _ _ _ _ _ _ _ _ _ _ _ _ _ _ _ _ _ _ HT Hf H1 HN H2 AB) as P.
  destruct (Z_le_gt_dec 0 n) as [N|N]; [rewrite wrap64_small in P by lia; lia|]. lia.
Qed.
Lemma default_refuted :
  ~ (forall cf t f outs urls l c tr j i b m raw k, crun cf l (client_start cf t f outs urls) = (c, tr) -> interval_at c j i ->
       Parse b = Ok (BDict true m raw) -> absent m (str "interval") -> interval_at (fst (cexec cf (KAnn j (RHttp (HttpBody 200 (Some b)) k)) c)) j i).
Proof.
  intros H. pose (c1 := fst (crun (cx_conf cx_sha1) (steps ta0) (cx_start cx_sha1))).
  destruct (Parse (str "d5:peerslee")) as [[| | | |z m raw]| | |] eqn:EP; try (vm_compute in EP; discriminate EP).
  specialize (H (cx_conf cx_sha1) (cx_t cx_sha1) wx_fs [] [str "http://t/a"] (steps ta0) c1 (snd (crun (cx_conf cx_sha1) (steps ta0) (cx_start cx_sha1))) 0%nat (60 * 1000000000) (str "d5:peerslee") m raw false).
  assert (X : interval_at (fst (cexec (cx_conf cx_sha1) (KAnn 0 (RHttp (HttpBody 200 (Some (str "d5:peerslee"))) false)) c1)) 0 (60 * 1000000000)).
  { apply H.
    - unfold c1. change (client_start (cx_conf cx_sha1) (cx_t cx_sha1) wx_fs [] [str "http://t/a"]) with (cx_start cx_sha1). now destruct (crun (cx_conf cx_sha1) (steps ta0) (cx_start cx_sha1)).
    - assert (B : interval_b c1 0 = Some (60 * 1000000000)) by (vm_compute; reflexivity).
      unfold interval_b in B. destruct (nth_error (c_trk c1) 0) as [x|] eqn:E; [|discriminate]. exists x. split; [exact E|]. destruct (ct_trk x); [discriminate|now inversion B|now inversion B].
    - vm_compute in EP. injection EP as <- <- <-. vm_compute. reflexivity.
    - vm_compute in EP. injection EP as <- <- <-. left. vm_compute. reflexivity. }
  apply interval_b_eq in X. vm_compute in X. discriminate X.
Qed.
