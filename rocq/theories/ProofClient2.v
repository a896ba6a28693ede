(* What the client tells its trackers (C111, C112).                            *)
From Verif Require Import Base ProofBase ModelBitset ModelMsg ModelTorrent ModelConn ModelStats ModelPeer ModelSystem ModelTracker ModelManager ModelClient
  SpecPeer SpecTracker SpecClient ProofSystem ProofTracker ProofTracker2 ProofManager ProofProgress ProofVerified ProofClient.

(* ---------- sums ---------- *)
Lemma total_app a b : total_len (a ++ b) = total_len a + total_len b.
Proof. unfold total_len. rewrite map_app, fold_right_app. induction (map block_len a) as [|x l IH]; cbn [fold_right]; [lia|]. rewrite IH. lia. Qed.
Lemma block_len_nonneg m : 0 <= block_len m.
Proof. unfold block_len. destruct (data_of m); try lia. apply zlen_nonneg. Qed.
Lemma total_nonneg l : 0 <= total_len l.
Proof. induction l as [|m l IH]; [unfold total_len; cbn; lia|]. change (m :: l) with ([m] ++ l). rewrite total_app. unfold total_len at 1. cbn [map fold_right]. pose proof (block_len_nonneg m). lia. Qed.
Lemma total_one m : total_len [m] = block_len m.
Proof. unfold total_len. cbn. lia. Qed.

(* ---------- the channel and the writer ---------- *)
(* what the writer has not written yet *)
Definition pend (w : world) : list msg := held w ++ sh_ch (wo_sh w).
Lemma pend_hand w m : wo_hand w = Some m -> pend w = m :: sh_ch (wo_sh w).
Proof. intros H. unfold pend, held. now rewrite H. Qed.
Lemma exec_peer_ch sha1 k i w : wo_taken (fst (exec sha1 (APeer k i) w)) = wo_taken w /\ wo_hand (fst (exec sha1 (APeer k i) w)) = wo_hand w /\
  sh_ch (wo_sh (fst (exec sha1 (APeer k i) w))) = sh_ch (wo_sh w) ++ handed (snd (exec sha1 (APeer k i) w)).
Proof.
  unfold exec. destruct (crashed w); [cbn; now rewrite app_nil_r|]. destruct (nth_error (wo_peers w) k) as [r|]; [|cbn; now rewrite app_nil_r].
  destruct (pstep sha1 i (wo_sh w) r) as [[[s' r'] es']|] eqn:Es; [|cbn; now rewrite app_nil_r]. cbn [fst snd wo_taken wo_sh]. split; [reflexivity|]. split; [reflexivity|].
  step_cases Es; cbn; rewrite ?app_nil_r; try reflexivity; unfold push; destruct (r_req r); cbn; rewrite ?app_nil_r; reflexivity.
Qed.
Lemma exec_peer_queue sha1 k i w : wo_taken (fst (exec sha1 (APeer k i) w)) = wo_taken w /\ wo_hand (fst (exec sha1 (APeer k i) w)) = wo_hand w /\
  pend (fst (exec sha1 (APeer k i) w)) = pend w ++ handed (snd (exec sha1 (APeer k i) w)).
Proof. destruct (exec_peer_ch sha1 k i w) as (A & B & C). unfold pend, held. rewrite A, B, C. split; [reflexivity|]. split; [reflexivity|]. apply app_assoc. Qed.
Lemma sync_queue cf g w : wo_taken (sync cf g w) = wo_taken w /\ wo_hand (sync cf g w) = wo_hand w /\ pend (sync cf g w) = pend w.
Proof. unfold sync. destruct (g_cancel g); [|auto]. unfold exec. destruct (crashed w); auto. Qed.
Lemma spawn_queue sha1 b g w : wo_taken (fst (exec sha1 (ASpawn b g) w)) = wo_taken w /\ wo_hand (fst (exec sha1 (ASpawn b g) w)) = wo_hand w /\ pend (fst (exec sha1 (ASpawn b g) w)) = pend w.
Proof. unfold exec. destruct (crashed w); auto. Qed.
Lemma main_queue sha1 w : wo_taken (fst (exec sha1 AMain w)) = wo_taken w /\ wo_hand (fst (exec sha1 AMain w)) = wo_hand w /\ pend (fst (exec sha1 AMain w)) = pend w.
Proof. unfold exec. destruct (crashed w); [auto|]. destruct (wo_main w); try (auto; fail); [destruct (wg w =? 0)|destruct (sh_cancel (wo_sh w))]; auto. Qed.
Lemma writer_queue sha1 w m : crashed w = false -> wo_hand w = Some m ->
  wo_taken (fst (exec sha1 AWriter w)) = wo_taken w ++ [m] /\ pend (fst (exec sha1 AWriter w)) = sh_ch (wo_sh w).
Proof. intros D E. unfold exec. rewrite D, E. auto. Qed.
Lemma take_queue sha1 w : wo_hand w = None -> wo_taken (fst (exec sha1 AWriter w)) = wo_taken w /\ pend (fst (exec sha1 AWriter w)) = pend w.
Proof. intros E. unfold exec. destruct (crashed w); [auto|]. unfold pend, held. rewrite E. destruct (sh_ch (wo_sh w)) eqn:C; cbn; rewrite ?E, ?C; auto. Qed.
Lemma alive c : dead c = false -> crashed (c_wo c) = false /\ g_panic (c_mgr c) = false.
Proof. unfold dead. intros H. apply orb_false_iff in H. destruct H as [H _]. apply orb_false_iff in H. tauto. Qed.

(* how many messages the counters download and left know of *)
Definition nadd (c : client) : nat := (length (wo_taken (c_wo c)) + match c_wr c with WIdle => 0 | _ => 1 end)%nat.
Definition nsub (c : client) : nat := (length (wo_taken (c_wo c)) + match c_wr c with WSubbed => 1 | _ => 0 end)%nat.
Definition hand (tr : list cev) : list msg := handed (sevs tr).
Lemma hand_app a b : hand (a ++ b) = hand a ++ hand b.
Proof. unfold hand. rewrite sevs_app. apply handed_app. Qed.

Section counters.
  Variable size : Z.
  (* a lower bound for what the loads of tracker j know of *)
  Variable lo : nat -> nat.
  Definition dl (h : list msg) (a : nat) : Z := u64 (total_len (firstn a h)).
  Definition lf (h : list msg) (b : nat) : Z := u64 (size - total_len (firstn b h)).
  Definition loaded (n0 : nat) (h : list msg) (na ns : nat) (l : list Z) : Prop :=
    match l with
    | [] => True
    | [d] => exists a, (n0 <= a <= na)%nat /\ d = dl h a
    | [d; u] => exists a, (n0 <= a <= na)%nat /\ d = dl h a /\ u = 0
    | [d; u; v] => exists a b, (a <= S b)%nat /\ (n0 <= a <= na)%nat /\ (n0 <= b <= ns)%nat /\ d = dl h a /\ u = 0 /\ v = lf h b
    | _ => False
    end.
  Record cinv (c : client) (tr : list cev) : Prop := {
    ci_hand : hand tr = wo_taken (c_wo c) ++ pend (c_wo c);
    ci_wr : match c_wr c with
            | WIdle => True
            | WAdded n => exists m, wo_hand (c_wo c) = Some m /\ n = block_len m
            | WSubbed => exists m, wo_hand (c_wo c) = Some m
            end;
    ci_dl : st_download (c_cnt c) = dl (hand tr) (nadd c);
    ci_lf : st_left (c_cnt c) = lf (hand tr) (nsub c);
    ci_up : st_upload (c_cnt c) = 0;
    ci_lo : forall j, (lo j <= nsub c)%nat;
    ci_loads : forall j x, nth_error (c_trk c) j = Some x -> loaded (lo j) (hand tr) (nadd c) (nsub c) (ct_loads x)
  }.

  Lemma first_app (h x : list msg) n : (n <= length h)%nat -> firstn n (h ++ x) = firstn n h.
  Proof. intros H. rewrite firstn_app. replace (n - length h)%nat with 0%nat by lia. cbn. apply app_nil_r. Qed.
  Lemma loaded_grow n0 h x na ns na' ns' l : loaded n0 h na ns l -> (na <= na')%nat -> (ns <= ns')%nat -> (na <= length h)%nat -> (ns <= length h)%nat -> loaded n0 (h ++ x) na' ns' l.
  Proof.
    intros H A B C D. unfold loaded, dl, lf in *. destruct l as [|d [|u [|v [|? ?]]]]; [exact I| | | |contradiction].
    - destruct H as (a & H1 & ->). exists a. rewrite first_app by lia. split; [lia|reflexivity].
    - destruct H as (a & H1 & -> & ->). exists a. rewrite first_app by lia. repeat split; lia.
    - destruct H as (a & b & H0 & H1 & H2 & -> & -> & ->). exists a, b. rewrite !first_app by lia. repeat split; lia.
  Qed.
  Lemma cinv_bounds c tr : cinv c tr -> (nadd c <= length (hand tr))%nat /\ (nsub c <= nadd c)%nat /\ (nadd c <= S (nsub c))%nat.
  Proof.
    intros [H W _ _ _ _ _]. rewrite H, app_length. unfold nadd, nsub. destruct (c_wr c); [repeat split; lia|destruct W as (m & E & _)|destruct W as (m & E)];
      rewrite (pend_hand _ _ E); cbn [length]; repeat split; lia.
  Qed.
  (* a step that leaves the counters and the writer alone *)
  Lemma cinv_still c tr c' es : cinv c tr -> wo_taken (c_wo c') = wo_taken (c_wo c) -> wo_hand (c_wo c') = wo_hand (c_wo c) \/ wo_hand (c_wo c) = None -> pend (c_wo c') = pend (c_wo c) ++ hand es ->
    c_cnt c' = c_cnt c -> c_wr c' = c_wr c ->
    (forall j x, nth_error (c_trk c') j = Some x -> loaded (lo j) (hand tr) (nadd c) (nsub c) (ct_loads x)) -> cinv c' (tr ++ es).
  Proof.
    intros I E1 EH E2 E3 E4 E5. pose proof (cinv_bounds _ _ I) as (B1 & B2 & B3). destruct I as [H W D L U O F].
    assert (A : nadd c' = nadd c /\ nsub c' = nsub c) by (unfold nadd, nsub; now rewrite E1, E4). destruct A as [A1 A2].
    constructor; rewrite ?A1, ?A2, ?E3.
    - rewrite hand_app, H, E1, E2. symmetry. apply app_assoc.
    - rewrite E4. destruct (c_wr c); [exact I| |]; (destruct EH as [EH|EH]; [rewrite EH; exact W|exfalso]); [destruct W as (m & W & _)|destruct W as (m & W)]; congruence.
    - rewrite hand_app. unfold dl in *. rewrite first_app by lia. exact D.
    - rewrite hand_app. unfold lf in *. rewrite first_app by lia. exact L.
    - exact U.
    - exact O.
    - intros j x Hx. specialize (E5 j x Hx). rename E5 into Hy. rewrite hand_app. eapply loaded_grow; [exact Hy|lia..].
  Qed.

  Lemma hand_mgr es : hand (map VMgr es) = [].
  Proof. unfold hand. now rewrite sevs_mgr. Qed.
  Lemma hand_ann cf hash j t d r t' e a es : tracker_announce cf hash j t d r = Some (t', e, a) -> hand (e :: es) = hand es.
  Proof.
    unfold tracker_announce. intros H. destruct t; try discriminate; destruct r; try discriminate.
    - destruct (HttpAnnounce _ _). inversion H. reflexivity.
    - destruct (UdpAnnounce _ _ _ _ _ _ _ _ _) as [[? ?] ?]. inversion H. reflexivity.
  Qed.
  Lemma put_all {A} (P : nat -> A -> Prop) l k x : (forall j y, nth_error l j = Some y -> P j y) -> P k x -> forall j y, nth_error (upd l k x) j = Some y -> P j y.
  Proof.
    intros F Hx j y H. destruct (Nat.eq_dec j k) as [->|N].
    - destruct (le_lt_dec (length l) k) as [L|L]; [assert (nth_error (upd l k x) k = None) by (apply nth_error_None; now rewrite upd_length); congruence|].
      rewrite upd_nth, Nat.eqb_refl in H by exact L. inversion H; subst. exact Hx.
    - apply F. rewrite nth_upd_other in H by exact N. exact H.
  Qed.
  Lemma loaded_more c tr j x : cinv c tr -> loaded (lo j) (hand tr) (nadd c) (nsub c) (ct_loads x) -> (length (ct_loads x) < 3)%nat ->
    loaded (lo j) (hand tr) (nadd c) (nsub c) (ct_loads x ++ [load_of (c_cnt c) (length (ct_loads x))]).
  Proof.
    intros I H L. pose proof (cinv_bounds _ _ I) as (B1 & B2 & B3). destruct I as [_ _ D Lf U O _]. specialize (O j).
    destruct (ct_loads x) as [|d [|u [|v ?]]]; cbn [app length load_of] in *; [| | |lia].
    - exists (nadd c). split; [lia|exact D].
    - destruct H as (a & H1 & H2). exists a. auto.
    - destruct H as (a & H1 & H2 & H3). exists a, (nsub c). repeat split; auto; lia.
  Qed.

  Lemma cinv_step cf c tr a c' es : cinv c tr -> cexec cf a c = (c', es) -> cinv c' (tr ++ es).
  Proof.
    intros I HE. apply cexec_move in HE. destruct HE as [[-> ->]|(D & _ & M)]; [now rewrite app_nil_r|]. apply alive in D. destruct D as [D _].
    assert (F := ci_loads _ _ I).
    assert (MG : forall c1 g es1, c_wo c1 = c_wo c -> c_cnt c1 = c_cnt c -> c_wr c1 = c_wr c -> hand es1 = [] ->
              (forall j x, nth_error (c_trk c1) j = Some x -> loaded (lo j) (hand tr) (nadd c) (nsub c) (ct_loads x)) -> cinv (mgr_step cf c1 g) (tr ++ es1)).
    { intros c1 g es1 E1 E2 E3 E4 E5. eapply cinv_still; [exact I| | | |exact E2|exact E3|exact E5]; unfold mgr_step; cbn [c_wo]; rewrite E1;
        [apply sync_queue|left; apply sync_queue|rewrite E4, app_nil_r; apply sync_queue]. }
    assert (ST : forall c1, c_wo c1 = c_wo c -> c_cnt c1 = c_cnt c -> c_wr c1 = c_wr c -> c_trk c1 = c_trk c -> cinv c1 (tr ++ [])).
    { intros c1 E1 E2 E3 E4. eapply cinv_still; [exact I|now rewrite E1|left; now rewrite E1|rewrite E1; symmetry; apply app_nil_r|exact E2|exact E3|rewrite E4; exact F]. }
    inversion M; subst; clear M; try (apply MG; auto using hand_mgr; fail); try (apply ST; reflexivity).
    - eapply cinv_still; [exact I|..]; cbn [c_wo sys_step c_cnt c_wr c_trk]; auto; [apply main_queue|left; apply main_queue|]. change (hand []) with (@nil msg). rewrite app_nil_r. apply main_queue.
    - apply MG; auto using hand_mgr. cbn [set_ctr c_trk]. apply (put_all (fun j x => loaded (lo j) (hand tr) (nadd c) (nsub c) (ct_loads x))); [exact F|exact Logic.I].
    - eapply cinv_still; [exact I|..]; cbn [c_wo c_cnt c_wr c_trk]; auto.
      + rewrite (proj1 (spawn_queue _ _ _ _)). apply sync_queue.
      + left. rewrite (proj1 (proj2 (spawn_queue _ _ _ _))). apply sync_queue.
      + rewrite (proj2 (proj2 (spawn_queue _ _ _ _))). change (hand (VShake k (x_evs x) :: ?l)) with (hand l).
        rewrite hand_mgr, app_nil_r. apply sync_queue.
    - eapply cinv_still; [exact I|..]; cbn [c_wo set_ctr c_cnt c_wr c_trk]; auto; [change (hand []) with (@nil msg); now rewrite app_nil_r|].
      apply (put_all (fun j x => loaded (lo j) (hand tr) (nadd c) (nsub c) (ct_loads x))); [exact F|]. cbn [ct_loads]. apply loaded_more; [exact I| |assumption]. apply F. assumption.
    - eapply cinv_still; [exact I|..]; cbn [c_wo c_cnt c_wr c_trk]; auto; [apply sync_queue|left; apply sync_queue| |].
      + erewrite hand_ann by eassumption. rewrite hand_mgr, app_nil_r. apply sync_queue.
      + apply (put_all (fun j x => loaded (lo j) (hand tr) (nadd c) (nsub c) (ct_loads x))); [exact F|exact Logic.I].
    - eapply cinv_still; [exact I|..]; cbn [c_wo c_cnt c_wr c_trk]; auto; [apply exec_peer_queue|left; apply exec_peer_queue|].
      unfold hand. rewrite sevs_sys. apply exec_peer_queue.
    - eapply cinv_still; [exact I|..]; cbn [c_wo sys_step c_cnt c_wr c_trk]; auto; [now apply take_queue|].
      change (hand []) with (@nil msg). rewrite app_nil_r. now apply take_queue.
    - rewrite app_nil_r. pose proof (cinv_bounds _ _ I) as (B1 & B2 & B3). destruct I as [HH W Dl L U O _]. rename H1 into Eh, H2 into Ed. pose proof (pend_hand _ _ Eh) as Ec.
      assert (A : nadd (cnt_step c (AddDl (zlen d)) (WAdded (zlen d))) = S (nadd c) /\ nsub (cnt_step c (AddDl (zlen d)) (WAdded (zlen d))) = nsub c).
      { unfold nadd, nsub. cbn [cnt_step c_wr c_wo]. rewrite H0. lia. }
      destruct A as [A1 A2]. constructor; rewrite ?A1, ?A2; cbn [cnt_step c_wo c_wr c_cnt c_trk]; auto.
      + exists m. split; [exact Eh|]. unfold block_len. now rewrite Ed.
      + assert (EN : firstn (S (nadd c)) (hand tr) = firstn (nadd c) (hand tr) ++ [m]).
        { rewrite HH, Ec. unfold nadd. rewrite H0, Nat.add_0_r. rewrite firstn_app, firstn_all2 by lia. replace (S (length (wo_taken (c_wo c))) - length (wo_taken (c_wo c)))%nat with 1%nat by lia.
          cbn [firstn]. rewrite firstn_app, firstn_all, Nat.sub_diag. cbn [firstn]. now rewrite app_nil_r. }
        destruct (c_cnt c) as [z0 d0 u0 l0 p0 t0]. cbn [aexec st_download] in *. unfold dl in *. rewrite EN, total_app, total_one, Dl. unfold block_len. rewrite Ed.
        unfold u64. rewrite Zplus_mod_idemp_l. reflexivity.
      + destruct (c_cnt c) as [z0 d0 u0 l0 p0 t0]. exact L.
      + destruct (c_cnt c) as [z0 d0 u0 l0 p0 t0]. exact U.
      + intros j x Hx. apply F in Hx. rewrite <- (app_nil_r (hand tr)). eapply loaded_grow; [exact Hx|lia..].
    - rewrite app_nil_r. pose proof (cinv_bounds _ _ I) as (B1 & B2 & B3). destruct I as [HH W Dl L U O _]. rewrite H0 in W. clear dependent m; destruct W as (m & Eh & ->). pose proof (pend_hand _ _ Eh) as Ec.
      assert (A : nadd (cnt_step c (SubLeft (block_len m)) WSubbed) = nadd c /\ nsub (cnt_step c (SubLeft (block_len m)) WSubbed) = S (nsub c)).
      { unfold nadd, nsub. cbn [cnt_step c_wr c_wo]. rewrite H0. lia. }
      destruct A as [A1 A2]. constructor; rewrite ?A1, ?A2; cbn [cnt_step c_wo c_wr c_cnt c_trk]; auto.
      + exists m. exact Eh.
      + destruct (c_cnt c) as [z0 d0 u0 l0 p0 t0]. exact Dl.
      + assert (EN : firstn (S (nsub c)) (hand tr) = firstn (nsub c) (hand tr) ++ [m]).
        { rewrite HH, Ec. unfold nsub. rewrite H0, Nat.add_0_r. rewrite firstn_app, firstn_all2 by lia. replace (S (length (wo_taken (c_wo c))) - length (wo_taken (c_wo c)))%nat with 1%nat by lia.
          cbn [firstn]. rewrite firstn_app, firstn_all, Nat.sub_diag. cbn [firstn]. now rewrite app_nil_r. }
        destruct (c_cnt c) as [z0 d0 u0 l0 p0 t0]. cbn [aexec st_left] in *. unfold lf in *. rewrite EN, total_app, total_one, L.
        unfold u64. rewrite Zplus_mod_idemp_l, Zplus_mod_idemp_r. f_equal. lia.
      + destruct (c_cnt c) as [z0 d0 u0 l0 p0 t0]. exact U.
      + intros j x Hx. apply F in Hx. rewrite <- (app_nil_r (hand tr)). eapply loaded_grow; [exact Hx|lia..].
    - rewrite app_nil_r. pose proof (cinv_bounds _ _ I) as (B1 & B2 & B3). destruct I as [HH W Dl L U O _]. rename H1 into Eh. pose proof (pend_hand _ _ Eh) as Ec.
      destruct (writer_queue (cf_sha1 cf) _ _ D Eh) as [Q1 Q2].
      assert (A : nadd (sys_step cf c AWriter WIdle) = nadd c /\ nsub (sys_step cf c AWriter WIdle) = nsub c).
      { unfold nadd, nsub. cbn [sys_step c_wr c_wo]. rewrite H0, Q1, app_length. cbn [length]. lia. }
      destruct A as [A1 A2]. constructor; rewrite ?A1, ?A2; cbn [sys_step c_wo c_wr c_cnt c_trk]; auto.
      rewrite Q1, Q2, HH, Ec, <- app_assoc. reflexivity.
    - rewrite app_nil_r. pose proof (cinv_bounds _ _ I) as (B1 & B2 & B3). destruct I as [HH W Dl L U O _]. rename H1 into Eh. pose proof (pend_hand _ _ Eh) as Ec.
      destruct (writer_queue (cf_sha1 cf) _ _ D Eh) as [Q1 Q2].
      assert (A : nadd (sys_step cf c AWriter WIdle) = S (nadd c) /\ nsub (sys_step cf c AWriter WIdle) = S (nsub c) /\ nadd c = nsub c).
      { unfold nadd, nsub. cbn [sys_step c_wr c_wo]. rewrite H0, Q1, app_length. cbn [length]. lia. }
      destruct A as (A1 & A2 & A3). 
      assert (EN : total_len (firstn (S (nsub c)) (hand tr)) = total_len (firstn (nsub c) (hand tr))).
      { rewrite HH, Ec. unfold nsub. rewrite H0, Nat.add_0_r. rewrite firstn_app, firstn_all2 by lia. replace (S (length (wo_taken (c_wo c))) - length (wo_taken (c_wo c)))%nat with 1%nat by lia.
        cbn [firstn]. rewrite firstn_app, firstn_all, Nat.sub_diag. cbn [firstn]. rewrite app_nil_r, total_app, total_one. unfold block_len.
        destruct (data_of m) eqn:Ed; try lia. exfalso. eapply H2. reflexivity. }
      constructor; rewrite ?A1, ?A2; cbn [sys_step c_wo c_wr c_cnt c_trk]; auto.
      + rewrite Q1, Q2, HH, Ec, <- app_assoc. reflexivity.
      + rewrite Dl. unfold dl. rewrite A3. now rewrite EN.
      + rewrite L. unfold lf. now rewrite EN.
      + intros j x Hx. apply F in Hx. rewrite <- (app_nil_r (hand tr)). eapply loaded_grow; [exact Hx|lia..].
  Qed.
End counters.

(* ---------- announces ---------- *)
Lemma split_app {A} (tr es t1 t2 : list A) e : tr ++ es = t1 ++ e :: t2 ->
  (exists t, tr = t1 ++ e :: t /\ t2 = t ++ es) \/ (exists s, es = s ++ e :: t2 /\ t1 = tr ++ s).
Proof.
  revert t1. induction tr as [|x tr IH]; intros t1 H; cbn [app] in H.
  - right. exists t1. auto.
  - destruct t1 as [|y t1]; cbn [app] in H; inversion H; subst.
    + left. exists tr. auto.
    + match goal with E : _ ++ _ = _ |- _ => destruct (IH _ E) as [(t & -> & ->)|(s & -> & ->)] end; [left; exists t; auto|right; exists s; auto].
Qed.
Lemma client_hash cf t f outs urls l c tr : crun cf l (client_start cf t f outs urls) = (c, tr) -> t_hash (sh_t (wo_sh (c_wo c))) = t_hash t.
Proof. intros H. destruct (crun_sys _ _ _ _ _ _ _ _ H) as (ls & R & _). apply static_run in R. unfold static in R. cbn in R. now inversion R. Qed.

(* an announce is made with the counters loaded and by the tracker of the goroutine *)
Definition made (cf : conf) (hash : bytes) (j : nat) (d : announceData) (e : cev) : Prop :=
  match e with
  | VHttp i _ q _ => i = j /\ exists id, q = buildQuery (cf_id cf) id startedEvent hash d
  | VUdp i ds _ => i = j /\ (ds = [] \/ (exists c, ds = [c]) \/ exists c x tx key, ds = [c; createAnnounce x tx hash (cf_id cf) d key])
  | _ => False
  end.
Definition plain_event (t : trk) : Prop := match t with TrHttp _ _ ev _ => ev = startedEvent | _ => True end.
Lemma announce_made cf hash j t d r t' e a : plain_event t -> tracker_announce cf hash j t d r = Some (t', e, a) -> plain_event t' /\ made cf hash j d e.
Proof.
  unfold tracker_announce. intros P H. destruct t; try discriminate; destruct r; try discriminate.
  - destruct (HttpAnnounce _ _). inversion H; subst. cbn in *. subst. eauto.
  - unfold UdpAnnounce in H. destruct (handshake u tx1 ok s) as [[[t1 s1] out] hr] eqn:EH.
    assert (HO : out = [] \/ exists c, out = [c]).
    { unfold handshake in EH. destruct (negb ok); [inversion EH; auto|]. destruct (ReadUdpHandshake s) as [[b|b] s']; [|inversion EH; eauto].
      destruct (parseTrackerResponse u b tx1) as [? []]; inversion EH; eauto. }
    assert (HC : forall x, made cf hash j d (VUdp j (out ++ [createAnnounce x tx2 hash (cf_id cf) d key]) None) \/ out = []).
    { intros x. destruct HO as [->|[c0 ->]]; [auto|]. left. cbn. split; [reflexivity|]. right. right. eauto 8. }
    destruct hr as [cid| | |]; [|inversion H; subst; split; [exact I|]; cbn; split; [reflexivity|]; destruct HO as [->|[c0 ->]]; eauto..].
    assert (OK : exists c, out = [c]).
    { unfold handshake in EH. destruct (negb ok); [inversion EH|]. destruct (ReadUdpHandshake s) as [[b|b] s']; [|inversion EH].
      destruct (parseTrackerResponse u b tx1) as [? []]; inversion EH; eauto. }
    destruct OK as [c0 ->].
    assert (G : forall res, plain_event (TrUdp t1) /\ made cf hash j d (VUdp j ([c0] ++ [createAnnounce cid tx2 hash (cf_id cf) d key]) res)).
    { intros res. split; [exact I|]. cbn. split; [reflexivity|]. right. right. eauto 8. }
    destruct (UdpReadAll s1) as [[b|b] s2]; [destruct (parseTrackerResponse t1 b tx2) as [? []]|]; inversion H; subst; (split; [exact I|]); apply G.
Qed.
Lemma made_reports cf hash j d e : 0 <= a_downloaded d -> 0 <= a_uploaded d -> 0 <= a_left d -> 0 <= a_port d -> made cf hash j d e ->
  announce_by j e /\ reports hash (cf_id cf) (a_downloaded d) (a_uploaded d) (a_left d) (a_port d) e.
Proof.
  intros D U L P H. destruct e; cbn in H; try contradiction.
  - destruct H as (-> & id & ->). split; [reflexivity|]. cbn [reports]. unfold buildQuery. cbn.
    split; [reflexivity|]. split; [reflexivity|].
    repeat split; eexists; (split; [reflexivity|]); [apply (utoa_decimal _ D)|apply (utoa_decimal _ U)|apply (utoa_decimal _ L)|].
    destruct d as [d0 u0 l0 p0]. cbn in *. unfold itoa. destruct (p0 <? 0) eqn:E; [lia|]. apply utoa_decimal. exact P.
  - destruct H as (-> & H). split; [reflexivity|]. cbn [reports]. destruct H as [H|[H|(c & x & tx & key & ->)]]; [auto|auto|]. right. right.
    exists c, (be_put 8 x ++ be_put 4 announceA ++ be_put 4 tx), (be_put 4 0 ++ be_put 4 0 ++ be_put 4 key ++ be_put 4 (-1)). 
    rewrite !app_length, !be_put_length. split; [|split; reflexivity]. unfold createAnnounce. cbn [binary_write_string app]. rewrite <- ?app_assoc. reflexivity.
Qed.

Lemma new_plain cf url x : plain_event (new_tracker cf url x).
Proof. unfold new_tracker. destruct (NewTracker _ _) as [[]| | |]; cbn; auto. Qed.
Lemma exec_hash sha1 a w : t_hash (sh_t (wo_sh (fst (exec sha1 a w)))) = t_hash (sh_t (wo_sh w)).
Proof.
  unfold exec. destruct (crashed w); [reflexivity|]. destruct a as [b g|k i| | |]; try reflexivity.
  - destruct (nth_error (wo_peers w) k); [|reflexivity]. destruct (pstep sha1 i (wo_sh w) r) as [[[s' r'] es']|] eqn:Es; [|reflexivity].
    cbn. pose proof (static_pstep _ _ _ _ _ _ _ Es) as S. unfold static in S. now inversion S.
  - destruct (wo_hand w) as [m|]; [|destruct (sh_ch (wo_sh w)); reflexivity]. cbn. pose proof (static_write (sh_w (wo_sh w)) m) as S. unfold static in S. now inversion S.
  - destruct (wo_main w); [destruct (wg w =? 0)|destruct (sh_cancel (wo_sh w))| |]; reflexivity.
Qed.
Lemma sync_hash cf g w : t_hash (sh_t (wo_sh (sync cf g w))) = t_hash (sh_t (wo_sh w)).
Proof. unfold sync. destruct (g_cancel g); [apply exec_hash|reflexivity]. Qed.
Lemma cexec_hash cf a c c' es : cexec cf a c = (c', es) -> t_hash (sh_t (wo_sh (c_wo c'))) = t_hash (sh_t (wo_sh (c_wo c))).
Proof.
  intros H. apply cexec_move in H. destruct H as [[-> ->]|(_ & _ & M)]; [reflexivity|].
  inversion M; subst; cbn [c_wo mgr_step sys_step cnt_step set_ctr prt_step end_step]; rewrite ?exec_hash, ?sync_hash; reflexivity.
Qed.
Lemma cexec_plain cf a c c' es : cexec cf a c = (c', es) -> Forall (fun x => plain_event (ct_trk x)) (c_trk c) -> Forall (fun x => plain_event (ct_trk x)) (c_trk c').
Proof.
  assert (PUT : forall (l : list ctr) k x, Forall (fun x => plain_event (ct_trk x)) l -> plain_event (ct_trk x) -> Forall (fun x => plain_event (ct_trk x)) (upd l k x)).
  { intros l k x F Hx. revert k. induction F as [|y l Hy F IH]; intros k; [constructor|]. destruct k; cbn [upd]; constructor; auto. }
  intros H F. apply cexec_move in H. destruct H as [[-> ->]|(_ & _ & M)]; [exact F|].
  assert (AT : forall j x, nth_error (c_trk c) j = Some x -> plain_event (ct_trk x)) by (intros j x Hj; rewrite Forall_forall in F; apply F; eapply nth_error_In; exact Hj).
  inversion M; subst; cbn [c_trk mgr_step sys_step cnt_step set_ctr prt_step end_step]; try exact F; apply PUT; try exact F; cbn [ct_trk].
  - apply new_plain.
  - eapply AT. eassumption.
  - eapply announce_made; [|eassumption]. eapply AT. eassumption.
Qed.
(* the announces of a step *)
Lemma cexec_announce cf a c c' es s e t j : cexec cf a c = (c', es) -> es = s ++ e :: t -> announce_by j e ->
  Forall (fun x => plain_event (ct_trk x)) (c_trk c) ->
  s = [] /\ exists tr d u l, nth_error (c_trk c) j = Some tr /\ ct_loads tr = [d; u; l] /\
    made cf (t_hash (sh_t (wo_sh (c_wo c)))) j (mkAnn d u l (cf_port cf)) e.
Proof.
  intros H E B F. apply cexec_move in H.
  assert (NM : forall l, e :: t = map VMgr l -> False) by (intros [|? ?] X; cbn in X; inversion X; subst; contradiction).
  assert (NI : forall l s0, map VMgr l = s0 ++ e :: t -> False).
  { intros l s0 X. apply map_eq_app in X. destruct X as (l1 & l2 & _ & _ & X). symmetry in X. exact (NM _ X). }
  destruct H as [[-> ->]|(_ & _ & M)]; [destruct s; discriminate|].
  inversion M; subst; clear M;
    try (match goal with X : [] = _ ++ _ |- _ => destruct s; discriminate X end);
    try (match goal with X : map VMgr _ = _ |- _ => exfalso; exact (NI _ _ X) end).
  - exfalso. destruct s as [|y s]; cbn [app] in *; match goal with X : _ :: _ = _ |- _ => inversion X; subst end; [contradiction|]. eapply NI. eassumption.
  - assert (AT : forall j x, nth_error (c_trk c) j = Some x -> plain_event (ct_trk x)) by (intros i x Hj; rewrite Forall_forall in F; apply F; eapply nth_error_In; exact Hj).
    destruct s as [|y s]; cbn [app] in *; match goal with X : _ :: _ = _ |- _ => inversion X; subst end; [|exfalso; eapply NI; eassumption].
    split; [reflexivity|]. match goal with X : tracker_announce _ _ _ _ _ _ = _ |- _ => apply announce_made in X; [destruct X as [_ X]|eapply AT; eassumption] end.
    match goal with X : made _ _ ?i _ _ |- _ => assert (i = j) by (destruct e; cbn in *; try contradiction; intuition congruence); subst i end.
    eauto 10.
  - exfalso. unfold sysev in *. match goal with X : map _ _ = _ |- _ => apply map_eq_app in X; destruct X as (l1 & l2 & _ & _ & X); destruct l2; cbn in X; inversion X; subst end.
    contradiction.
Qed.

Lemma announces_from cf size lo h c1 tr1 : cinv size lo c1 tr1 -> Forall (fun x => plain_event (ct_trk x)) (c_trk c1) -> t_hash (sh_t (wo_sh (c_wo c1))) = h ->
  forall l c tr, crun cf l c1 = (c, tr) ->
    cinv size lo c (tr1 ++ tr) /\ Forall (fun x => plain_event (ct_trk x)) (c_trk c) /\ t_hash (sh_t (wo_sh (c_wo c))) = h /\
    forall t1 e t2 j, tr = t1 ++ e :: t2 -> announce_by j e ->
      exists a b, (a <= S b)%nat /\ (lo j <= a <= length (hand (tr1 ++ t1)))%nat /\ (lo j <= b <= length (hand (tr1 ++ t1)))%nat /\
        made cf h j (mkAnn (dl (hand (tr1 ++ t1)) a) 0 (lf size (hand (tr1 ++ t1)) b) (cf_port cf)) e.
Proof.
  intros I0 P0 H0 l c tr HR.
  refine (crun_inv cf (fun c tr => cinv size lo c (tr1 ++ tr) /\ Forall (fun x => plain_event (ct_trk x)) (c_trk c) /\ t_hash (sh_t (wo_sh (c_wo c))) = h /\
    forall t1 e t2 j, tr = t1 ++ e :: t2 -> announce_by j e ->
      exists a b, (a <= S b)%nat /\ (lo j <= a <= length (hand (tr1 ++ t1)))%nat /\ (lo j <= b <= length (hand (tr1 ++ t1)))%nat /\
        made cf h j (mkAnn (dl (hand (tr1 ++ t1)) a) 0 (lf size (hand (tr1 ++ t1)) b) (cf_port cf)) e) (fun _ => True) c1 _ _ l c tr _ HR).
  - rewrite app_nil_r. repeat split; auto; try apply I0. intros t1 e t2 j X. destruct t1; discriminate.
  - clear. intros c tr a c' es (I & P & H & T) _ HE. rewrite app_assoc. split; [eapply cinv_step; eassumption|]. split; [eapply cexec_plain; eassumption|].
    split; [rewrite (cexec_hash _ _ _ _ _ HE); exact H|].
    intros t1 e t2 j X B. apply split_app in X. destruct X as [(t & -> & ->)|(s & -> & ->)]; [eapply T; [reflexivity|exact B]|].
    destruct (cexec_announce _ _ _ _ _ _ _ _ _ HE eq_refl B P) as (-> & x & d & u & v & E1 & E2 & E3).
    pose proof (ci_loads _ _ _ _ I _ _ E1) as L. rewrite E2 in L. destruct L as (a0 & b0 & L1 & L2 & L3 & -> & -> & ->). 
    pose proof (cinv_bounds _ _ _ _ I) as (B1 & B2 & B3). rewrite app_nil_r. exists a0, b0. rewrite H in E3. repeat split; try lia. exact E3.
  - apply Forall_forall. auto.
Qed.
Lemma start_cinv cf t f outs urls : cinv (t_length t) (fun _ => 0%nat) (client_start cf t f outs urls) [].
Proof.
  constructor; cbn; auto. unfold lf. cbn. now rewrite Z.sub_0_r.
  intros j x H. rewrite nth_error_map in H. destruct (nth_error urls j); inversion H. exact I.
Qed.
Lemma start_plain cf t f outs urls : Forall (fun x => plain_event (ct_trk x)) (c_trk (client_start cf t f outs urls)).
Proof. cbn. apply Forall_forall. intros x H. apply in_map_iff in H. destruct H as (u & <- & _). exact I. Qed.

Lemma announced_values cf t f outs urls l c tr t1 e t2 j : 0 <= cf_port cf ->
  crun cf l (client_start cf t f outs urls) = (c, tr) -> tr = t1 ++ e :: t2 -> announce_by j e ->
  exists a b, (a <= S b)%nat /\ (a <= length (handed (sevs t1)))%nat /\ (b <= length (handed (sevs t1)))%nat /\
    reports (t_hash t) (cf_id cf) (u64 (total_len (firstn a (handed (sevs t1))))) 0 (u64 (t_length t - total_len (firstn b (handed (sevs t1))))) (cf_port cf) e.
Proof.
  intros HP HR HT HB. destruct (announces_from cf (t_length t) (fun _ => 0%nat) (t_hash t) _ [] (start_cinv cf t f outs urls) (start_plain _ _ _ _ _) eq_refl _ _ _ HR) as (_ & _ & _ & H).
  destruct (H _ _ _ _ HT HB) as (a & b & H1 & H2 & H3 & H4). exists a, b. split; [exact H1|]. split; [apply H2|]. split; [apply H3|].
  apply made_reports in H4; cbn; auto; try lia; unfold dl, lf, u64; try (apply Z.mod_pos_bound; lia). apply H4.
Qed.
Lemma announced_event cf t f outs urls l c tr j u q ips :
  crun cf l (client_start cf t f outs urls) = (c, tr) -> In (VHttp j u q ips) tr -> lookup (str "event") q = Some (str "started").
Proof.
  intros HR HI. apply in_split in HI. destruct HI as (t1 & t2 & HT).
  destruct (announces_from cf (t_length t) (fun _ => 0%nat) (t_hash t) _ [] (start_cinv cf t f outs urls) (start_plain _ _ _ _ _) eq_refl _ _ _ HR) as (_ & _ & _ & H).
  destruct (H _ _ _ j HT eq_refl) as (a & b & _ & _ & _ & _ & id & ->). reflexivity.
Qed.
(* outside an announce nothing is loaded *)
Lemma fresh_values cf t f outs urls l1 c1 tr1 l2 c2 tr2 t1 e t2 j x : 0 <= cf_port cf ->
  crun cf l1 (client_start cf t f outs urls) = (c1, tr1) -> nth_error (c_trk c1) j = Some x -> ct_loads x = [] ->
  crun cf l2 c1 = (c2, tr2) -> tr2 = t1 ++ e :: t2 -> announce_by j e ->
  let h := handed (sevs (tr1 ++ t1)) in
  exists a b, (a <= S b)%nat /\ (length (wo_taken (c_wo c1)) <= a <= length h)%nat /\ (length (wo_taken (c_wo c1)) <= b <= length h)%nat /\
    reports (t_hash t) (cf_id cf) (u64 (total_len (firstn a h))) 0 (u64 (t_length t - total_len (firstn b h))) (cf_port cf) e.
Proof.
  intros HP HR HX HL HR2 HT HB. cbv zeta.
  destruct (announces_from cf (t_length t) (fun _ => 0%nat) (t_hash t) _ [] (start_cinv cf t f outs urls) (start_plain _ _ _ _ _) eq_refl _ _ _ HR) as (I & P & HH & _).
  cbn [app] in I.
  assert (I' : cinv (t_length t) (fun i => if Nat.eqb i j then length (wo_taken (c_wo c1)) else 0%nat) c1 tr1).
  { destruct I as [C1 C2 C3 C4 C5 C6 C7]. constructor; auto.
    - intros i. destruct (Nat.eqb i j); unfold nsub; lia.
    - intros i y Hy. specialize (C7 i y Hy). destruct (Nat.eqb_spec i j) as [->|N]; [|exact C7]. assert (y = x) by congruence. subst y. rewrite HL. exact Logic.I. }
  destruct (announces_from cf _ _ _ _ _ I' P HH _ _ _ HR2) as (_ & _ & _ & H).
  destruct (H _ _ _ _ HT HB) as (a & b & H1 & H2 & H3 & H4). rewrite Nat.eqb_refl in H2, H3. exists a, b. split; [exact H1|]. split; [exact H2|]. split; [exact H3|].
  apply made_reports in H4; cbn; auto; try lia; unfold dl, lf, u64; try (apply Z.mod_pos_bound; lia). apply H4.
Qed.
