(* A download with one tracker and one peer; what the client does without being
   given anything (C115).                                                      *)
From Verif Require Import Base ProofBase SpecPath ModelPath ModelBitset ModelMsg ModelTorrent ModelConn ModelStats ModelPeer ModelSystem ModelTracker ModelManager ModelClient
  SpecPeer SpecTorrent SpecManager SpecClient ProofSystem ProofManager ProofProgress ProofPeer ProofVerified ProofRequests ProofWitness ProofClient ProofClient2 ProofClient3.

(* ---------- nothing received, nothing stored ---------- *)
(* what is given to the writer has been read *)
Definition came (r : rstate) (es : list event) : Prop :=
  (forall u m, r_pc r = PPut u m -> exists b, In (EReadOk b) es /\ has_type 7 b) /\
  (forall m, In (EPut m) es -> exists b, In (EReadOk b) es /\ has_type 7 b).
Lemma NewPeerMessage_type b m : NewPeerMessage b = Ok m -> m_type m = 7 -> has_type 7 b.
Proof.
  unfold NewPeerMessage. destruct b as [|t p]; [intros H; inversion H; subst; discriminate|]. intros H T.
  repeat match type of H with
  | (if ?c then _ else _) = _ => destruct c
  | bind ?x _ = _ => destruct x; cbn [bind] in H; try discriminate
  end; inversion H; subst; cbn in T; subst; eexists; reflexivity.
Qed.
Lemma handle_put sha1 t u r b v m : r_pc (handle_body sha1 t u r b) = PPut v m -> has_type 7 b.
Proof.
  unfold handle_body. destruct (NewPeerMessage b) as [m0| | |] eqn:E; try (cbn; discriminate). intros H. eapply NewPeerMessage_type; [exact E|].
  destruct (handlePeerMessage sha1 t (r_peer r) m0) eqn:EH; cbn in H; [destruct u; discriminate| |discriminate].
  unfold handlePeerMessage in EH. destruct (m_type m0 =? KeepaliveT) eqn:K; [discriminate|].
  repeat match type of EH with (if ?c then _ else _) = _ => destruct c eqn:? end; try discriminate; [destruct (Bitfield m0); discriminate|].
  match goal with X : (m_type m0 =? PieceT) = true |- _ => apply Z.eqb_eq in X; exact X end.
Qed.
Lemma came_step sha1 i s r s' r' es es' : came r es -> pstep sha1 i s r = Some (s', r', es') -> came r' (es ++ es').
Proof.
  intros [H1 H2] H.
  assert (KEEP : forall es0, (forall m, ~ In (EPut m) es0) -> forall m, In (EPut m) (es ++ es0) -> exists b, In (EReadOk b) (es ++ es0) /\ has_type 7 b).
  { intros es0 N m Hm. apply in_app_iff in Hm. destruct Hm as [Hm|Hm]; [|exfalso; eapply N; exact Hm]. destruct (H2 m Hm) as (b & B1 & B2). exists b. split; [apply in_app_iff; auto|exact B2]. }
  assert (RD : forall u b, r' = handle_body sha1 (sh_t s') u r b -> es' = [EReadOk b] -> came r' (es ++ es')).
  { intros u b -> ->. split; [|apply KEEP; intros m [X|[]]; discriminate]. intros v m X. exists b. split; [apply in_app_iff; right; now left|eapply handle_put; exact X]. }
  step_cases H; try (eapply RD; reflexivity);
    try (split; [cbn; intros u0 m0 X; discriminate X|apply KEEP; cbn; intros m0 X; repeat destruct X as [X|X]; try contradiction; discriminate X]; fail).
  all: try (split; [cbn; intros u0 m0 X; discriminate X|]; intros m0 X; match goal with E : r_pc _ = PPut _ _ |- _ => destruct (H1 _ _ E) as (b & B1 & B2) end; exists b; split; [apply in_app_iff; auto|exact B2]).
  all: try (split; [cbn; intros u0 m0 X; exfalso; revert X; match goal with |- context [if ?c then _ else _] => destruct c end; discriminate|apply KEEP; cbn; intros m0 X; repeat destruct X as [X|X]; try contradiction; discriminate X]; fail).
  all: destruct (H1 _ _ eq_refl) as (b & B1 & B2); (split; [cbn; intros u0 m0 X; discriminate X|]); intros m0 X; exists b; (split; [apply in_app_iff; auto|exact B2]).
Qed.
Lemma handed_in tr m : In m (handed tr) <-> exists k, In (k, EPut m) tr.
Proof.
  induction tr as [|[k e] tr IH]; cbn; [firstorder|]. destruct e; cbn; rewrite IH; (split; [|intros (k0 & [X|X]); try discriminate; eauto]); try (intros (k0 & X); eauto).
  - intros [->|(k0 & X)]; eauto.
  - inversion X; auto.
Qed.
Lemma sevs_in tr k e : In (k, e) (sevs tr) <-> In (VSys k e) tr.
Proof.
  unfold sevs. rewrite in_flat_map. split.
  - intros (x & H1 & H2). destruct x; try contradiction. destruct H2 as [H2|[]]. inversion H2; subst. exact H1.
  - intros H. exists (VSys k e). split; [exact H|now left].
Qed.
Lemma nothing_given cf t f outs urls l c tr : crun cf l (client_start cf t f outs urls) = (c, tr) -> answers_only tr -> handed (sevs tr) = [].
Proof.
  intros HR HA. destruct (crun_sys _ _ _ _ _ _ _ _ HR) as (ls & R & B).
  destruct (handed (sevs tr)) as [|m ms] eqn:E; [reflexivity|exfalso].
  assert (HI : In m (handed (sevs tr))) by (rewrite E; now left). apply handed_in in HI. destruct HI as (k & HI).
  destruct (local_inv (cf_sha1 cf) (eq false) came) with (w0 := mkW t f outs [] false) (l := ls) (w := c_wo c) (tr := sevs tr) as [HJ HL]; auto.
  { intros b t0 g _. split; cbn; [discriminate|contradiction]. }
  { intros. eapply came_step; eauto. }
  assert (HK := HL _ _ HI). destruct (nth_error (wo_peers (c_wo c)) k) as [r|] eqn:Er; [|apply nth_error_None in Er; lia].
  destruct (HJ k r Er) as [_ J]. apply in_events in HI. destruct (J m HI) as (b & B1 & B2). apply in_events in B1. apply sevs_in in B1.
  apply in_split in B1. destruct B1 as (t1 & t2 & HT). destruct (HA _ _ _ _ HT B2) as (q & Q1 & Q2).
  assert (Q3 : In (k, ESent q) (sevs tr)) by (apply sevs_in; rewrite HT; apply in_app_iff; auto).
  destruct (never_asks _ _ _ _ _ B R) as (N & _). destruct (N _ _ Q3) as [->| ->]; discriminate Q2.
Qed.
Lemma nothing_stored cf t f outs urls l c tr : crun cf l (client_start cf t f outs urls) = (c, tr) -> answers_only tr ->
  t_downloaded (sh_t (wo_sh (c_wo c))) = t_downloaded t /\ w_fs (sh_w (wo_sh (c_wo c))) = f /\
  st_download (c_cnt c) = 0 /\ st_left (c_cnt c) = u64 (t_length t).
Proof.
  intros HR HA. pose proof (nothing_given _ _ _ _ _ _ _ _ HR HA) as HN. destruct (crun_sys _ _ _ _ _ _ _ _ HR) as (ls & R & B).
  destruct (writer_run _ _ _ _ _ R) as [S H]. rewrite HN in H. symmetry in H. apply app_eq_nil in H. destruct H as [H1 H2]. rewrite H1 in S. cbn in S.
  destruct S as (S1 & S2 & S3 & _). 
  assert (I : cinv (t_length t) (fun _ => 0%nat) c tr).
  { apply (announces_from cf (t_length t) (fun _ => 0%nat) (t_hash t) _ [] (start_cinv cf t f outs urls) (start_plain _ _ _ _ _) eq_refl _ _ _ HR). }
  split; [exact S2|]. split; [exact S3|]. destruct I as [_ _ D L _ _ _]. unfold dl, lf, hand in *. rewrite HN, !firstn_nil in *. cbn in D, L. rewrite Z.sub_0_r in L. auto.
Qed.

(* ---------- one tracker, one peer, two pieces ---------- *)
Definition cx_sha1 : bytes -> bytes := fun _ => repeat 0 20.
Definition cx_hash : bytes := repeat 5 20.
(* PrintBar with a bar of 20 cells panics from 105 percent on, rounded *)
Definition cx_bar (s : stats) : bool := 209 * st_size s <=? 200 * st_download s.
Definition cx_conf (sha1 : bytes -> bytes) : conf :=
  mkConf sha1 (createClientId (repeat 7 12)) 6881 30 (fun _ => Some (str "http")) (fun _ => Some (V4 [10; 0; 0; 1])) cx_bar.
Definition cx_t (sha1 : bytes -> bytes) : torrent :=
  mkTorrent [[]] cx_hash 8 4 [mkPiece 0 (sha1 [1; 2; 3; 4]); mkPiece 1 (sha1 [5; 6; 7; 8])] 2 [mkTfile 8 [str "a"]] [wx_place] (str "n") true
    0 [false; false] [false; false].
Lemma cx_new : New [] (fun _ => true) false (fun _ => None) (wx_mi cx_sha1) cx_hash (str "/o") = (wx_fs, Ok (cx_t cx_sha1)).
Proof. vm_compute. reflexivity. Qed.
Definition cx_start (sha1 : bytes -> bytes) : client := client_start (cx_conf sha1) (cx_t sha1) wx_fs [] [str "http://t/a"].
(* a step of the tracker goroutine in which all goes well *)
Definition well : cin := mkCin (str "uuid") true true [Chunk (createHandshake (createClientId (repeat 9 12)) cx_hash)].
Definition one_peer : httpres := HttpBody 200 (Some (str "d8:intervali60e5:peersld2:ip8:10.0.0.14:port4:6881eee")).
Definition announce1 : list cact := repeat (KLoad 0) 3 ++ [KAnn 0 (RHttp one_peer false)].
(* Download, tracker.New, an announce; the peer is added, dialled, greeted and run *)
Definition cx_connect : list cact := [KMain; KTrk 0 well; KTrk 0 well] ++ announce1 ++ repeat (KTrk 0 well) 5.
Definition cx_piece (i : Z) (d : bytes) : list cact := [KPeer 0 (rd (piece_body i 0 d)); KPeer 0 go; KPeer 0 go; KWriter; KWriter; KWriter; KWriter].
Definition cx_download : list cact := cx_connect ++ repeat (KPeer 0 go) 6 ++ cx_piece 0 [1; 2; 3; 4] ++ cx_piece 1 [5; 6; 7; 8].
Definition cx_again : list cact := repeat (KTrk 0 well) 2 ++ announce1.
Lemma no_download :
  ~ (exists cf t f outs urls l c tr, Done t = false /\ crun cf l (client_start cf t f outs urls) = (c, tr) /\ answers_only tr /\ Done (sh_t (wo_sh (c_wo c))) = true).
Proof.
  intros (cf & t & f & outs & urls & l & c & tr & H1 & H2 & H3 & H4). destruct (nothing_stored _ _ _ _ _ _ _ _ H2 H3) as (E & _).
  unfold Done in *. rewrite E in H4. congruence.
Qed.
