(* What arrives on the connections: C163, C164.                                *)
From Verif Require Import Base ProofBase SpecPath SpecMsg SpecPeer SpecTorrent SpecClient SpecSocket.
From Verif Require Import ModelBitset ModelMsg ModelTorrent ModelConn ModelStats ModelPeer ModelSystem ModelTracker ModelManager ModelClient ModelSocket.
From Verif Require Import ProofMsg ProofConn ProofSystem ProofClient.

(* ---------- reading from items ---------- *)
Fixpoint iread (acc : bytes) (n : Z) (s : list item) : rres * list item :=
  if n <=? 0 then (ROk acc, s)
  else match s with
       | [] => (RErr ETimeout, [])
       | ITimeout :: s' => (RErr ETimeout, s')
       | IEof :: s' => (RErr (match acc with [] => EEOF | _ => EUnexpectedEOF end), IEof :: s')
       | IByte x :: s' => iread (acc ++ [x]) (n - 1) s'
       end.
Lemma iread_chunk b : forall acc n s, zlen b <= n -> iread acc n (map IByte b ++ s) = iread (acc ++ b) (n - zlen b) s.
Proof.
  induction b as [|x b IH]; intros acc n s H; cbn [map app].
  - rewrite app_nil_r. change (zlen []) with 0. now rewrite Z.sub_0_r.
  - rewrite zlen_cons in *. pose proof (zlen_nonneg b). cbn [iread]. replace (n <=? 0) with false by lia. rewrite IH by lia. rewrite <- app_assoc. cbn [app]. f_equal. lia.
Qed.
Lemma iread_done acc n s : n <= 0 -> iread acc n s = (ROk acc, s).
Proof. intros H. destruct s; cbn [iread]; replace (n <=? 0) with true by lia; reflexivity. Qed.
Lemma read_items s : forall acc n r s', read_full acc n s = (r, s') -> iread acc n (items s) = (r, items s').
Proof.
  induction s as [|e s IH]; intros acc n r s' H; cbn [read_full] in H.
  - destruct (n <=? 0) eqn:E; inversion H; subst; cbn [items flat_map iread]; rewrite E; reflexivity.
  - destruct (n <=? 0) eqn:E; [inversion H; subst; apply iread_done; lia|]. destruct e as [b| |].
    + destruct (zlen b <=? n) eqn:L.
      * cbn [items flat_map]. rewrite iread_chunk by lia. apply IH. exact H.
      * inversion H; subst. cbn [items flat_map]. pose proof (zlen_nonneg b).
        assert (EB : b = sub b 0 n ++ sub b n (zlen b)).
        { unfold sub. rewrite Z.sub_0_r. change (Z.to_nat 0) with 0%nat. cbn [skipn]. rewrite (firstn_all2 (skipn _ _)); [now rewrite firstn_skipn|]. rewrite skipn_length. unfold zlen in *. lia. }
        rewrite EB at 1. rewrite map_app, <- app_assoc.
        assert (LB : zlen (sub b 0 n) = n) by (unfold sub, zlen in *; rewrite Z.sub_0_r; change (Z.to_nat 0) with 0%nat; cbn [skipn]; rewrite firstn_length; lia).
        rewrite iread_chunk by lia. rewrite LB. apply iread_done. lia.
    + inversion H; subst. cbn [items flat_map app iread]. now rewrite E.
    + inversion H; subst. cbn [items flat_map app iread]. now rewrite E.
Qed.
Lemma exactly_items n s1 s2 : items s1 = items s2 -> fst (readExactly n s1) = fst (readExactly n s2) /\ items (snd (readExactly n s1)) = items (snd (readExactly n s2)).
Proof.
  intros H. unfold readExactly. destruct (read_full [] n s1) as [r1 t1] eqn:E1, (read_full [] n s2) as [r2 t2] eqn:E2. apply read_items in E1, E2. rewrite H, E2 in E1. inversion E1. auto.
Qed.
Lemma message_items s1 s2 : items s1 = items s2 -> fst (ReadPeerMessage s1) = fst (ReadPeerMessage s2) /\ items (snd (ReadPeerMessage s1)) = items (snd (ReadPeerMessage s2)).
Proof.
  intros H. unfold ReadPeerMessage. destruct (exactly_items 4 _ _ H) as [A B]. destruct (readExactly 4 s1) as [r1 t1], (readExactly 4 s2) as [r2 t2]. cbn [fst snd] in A, B. subst r2.
  destruct r1 as [h|e]; [now apply exactly_items|auto].
Qed.

(* ---------- the handshake ---------- *)
Definition with_evs (x : cin) (s : list ev) : cin := mkCin (x_id x) (x_ok x) (x_timer x) s.
Lemma shake_same cf j x s s' c k n ips : nth_error (g_trk (c_mgr c)) j = Some (TPShake k n ips) -> shaken cf c k (with_evs x s) = shaken cf c k (with_evs x s') ->
  fst (cexec cf (KTrk j (with_evs x s)) c) = fst (cexec cf (KTrk j (with_evs x s')) c) /\
  map bare (snd (cexec cf (KTrk j (with_evs x s)) c)) = map bare (snd (cexec cf (KTrk j (with_evs x s')) c)).
Proof.
  intros HT HS. unfold cexec. destruct (dead c || c_exit c); [auto|]. unfold ctrk_step. rewrite HT, HS. destruct (nth_error (c_trk c) j) as [tr|]; [|auto].
  change (tin_of false (shaken cf c k (with_evs x s')) (with_evs x s)) with (tin_of false (shaken cf c k (with_evs x s')) (with_evs x s')).
  destruct (with_mgr cf c _) as [c1 es]. destruct (shaken cf c k (with_evs x s')); cbn [fst snd map bare]; auto.
Qed.
Lemma shaken_read cf c k x s s' : (x_ok x && negb (conn_closed (c_mgr c) k) = true -> body_of (fst (ReadPeerHandshake s)) = body_of (fst (ReadPeerHandshake s'))) ->
  shaken cf c k (with_evs x s) = shaken cf c k (with_evs x s').
Proof.
  intros H. unfold shaken. cbn [with_evs x_ok x_evs]. destruct (conn_closed (c_mgr c) k); [reflexivity|]. unfold Announce. cbn [negb andb]. destruct (x_ok x); [|reflexivity]. cbn [negb].
  specialize (H eq_refl). destruct (fst (ReadPeerHandshake s)), (fst (ReadPeerHandshake s')); cbn [body_of] in H; try discriminate; [|reflexivity]. inversion H; subst. reflexivity.
Qed.

(* ---------- every course of the wires is one of the client ---------- *)
Lemma nexec_sound cf a n n' es : nexec cf a n = (n', es) -> exists a', same_act a a' /\ cexec cf a' (n_client n) = (n_client n', es).
Proof.
  unfold nexec. set (c := n_client n). intros H.
  assert (G : forall a' ss', same_act a a' -> (let '(c', es') := cexec cf a' c in (mkNet c' ss', es')) = (n', es) -> exists a', same_act a a' /\ cexec cf a' c = (n_client n', es)).
  { intros a' ss' S E. exists a'. split; [exact S|]. destruct (cexec cf a' c) as [c' es']. inversion E; subst. reflexivity. }
  destruct (dead c || c_exit c) eqn:D; [inversion H; subst; exists a; split; [now left|]; unfold cexec; fold c; now rewrite D|].
  assert (G0 : forall ss', (let '(c', es') := cexec cf a c in (mkNet c' ss', es')) = (n', es) -> exists a', same_act a a' /\ cexec cf a' c = (n_client n', es)) by (intros ss'; apply G; now left).
  destruct a as [| |j x|j|j r|k i| |b]; try (exact (G0 _ H)).
  - destruct (nth_error (g_trk (c_mgr c)) j) as [[| | | | | | |k m ips| | |]|]; try (exact (G0 _ H)). destruct (conn_of (c_mgr c) k) as [q|]; [|exact (G0 _ H)].
    refine (G _ _ _ H). right. left. eexists _, _, _. split; reflexivity.
  - destruct (nth_error (c_run c) k) as [p|]; [|exact (G0 _ H)]. destruct (nth_error (wo_peers (c_wo c)) k) as [r|]; [|exact (G0 _ H)]. destruct (conn_of (c_mgr c) p) as [q|]; [|exact (G0 _ H)].
    destruct (at_read r && negb (conn_closed (c_mgr c) p)); [|exact (G0 _ H)]. destruct (ReadPeerMessage (sock (n_socks n) q)) as [m s'].
    refine (G _ _ _ H). right. right. eexists _, _, _. split; reflexivity.
Qed.
Lemma nrun_sound cf l : forall n n' tr, nrun cf l n = (n', tr) -> exists l', Forall2 same_act l l' /\ crun cf l' (n_client n) = (n_client n', tr).
Proof.
  induction l as [|a l IH]; intros n n' tr H; cbn [nrun] in H.
  - inversion H; subst. exists []. split; [constructor|reflexivity].
  - destruct (nexec cf a n) as [n1 e1] eqn:E1. destruct (nrun cf l n1) as [n2 e2] eqn:E2. inversion H; subst. destruct (nexec_sound _ _ _ _ _ E1) as (a' & S & C). destruct (IH _ _ _ E2) as (l' & S' & C').
    exists (a' :: l'). split; [now constructor|]. cbn [crun]. now rewrite C, C'.
Qed.

(* ---------- every course of the client is one of the wires ---------- *)
Lemma upd_sock_same ss q s : (q < length ss)%nat -> sock (upd ss q s) q = s.
Proof. revert q. induction ss as [|a ss IH]; intros [|q] H; cbn [length] in H; try lia; [reflexivity|]. cbn [upd]. apply IH. lia. Qed.
Lemma upd_back ss q s : upd (upd ss q s) q (sock ss q) = ss.
Proof. revert q. induction ss as [|a ss IH]; intros [|q]; [reflexivity|reflexivity|reflexivity|]. cbn [upd]. unfold sock. cbn [nth]. f_equal. apply IH. Qed.
Lemma upd_len {A} (l : list A) q x : length (upd l q x) = length l.
Proof. revert q. induction l as [|a l IH]; intros [|q]; cbn; auto. Qed.
Lemma deliver_message o tl : (forall b, o = Some b -> is_u32 (zlen b)) -> exists s, body_of (fst (ReadPeerMessage (s ++ tl))) = o /\ snd (ReadPeerMessage (s ++ tl)) = tl.
Proof.
  intros H. destruct o as [b|]; [|exists [Timeout]; split; reflexivity]. specialize (H b eq_refl).
  assert (R : forall s, read_full [] 4 (Chunk (be32 (zlen b)) :: s) = (ROk (be32 (zlen b)), s)).
  { intros s. cbn [read_full]. change (4 <=? 0) with false. cbn iota. rewrite be32_length. change (4 <=? 4) with true. cbn iota. cbn [app]. change (4 - 4) with 0. apply read_full_0. }
  pose proof (zlen_nonneg b). destruct (Z.eq_dec (zlen b) 0) as [E|E].
  - exists [Chunk (be32 (zlen b))]. cbn [app]. unfold ReadPeerMessage, readExactly. rewrite R, be_get_be32 by exact H. rewrite E, read_full_0. assert (b = []) as -> by (destruct b; [reflexivity|rewrite zlen_cons in E; pose proof (zlen_nonneg b); lia]). split; reflexivity.
  - exists [Chunk (be32 (zlen b)); Chunk b]. cbn [app]. unfold ReadPeerMessage, readExactly. rewrite R, be_get_be32 by exact H. cbn [read_full]. replace (zlen b <=? 0) with false by lia. replace (zlen b <=? zlen b) with true by lia.
    cbn [app]. rewrite Z.sub_diag, read_full_0. split; reflexivity.
Qed.
Lemma read_full_len s : forall acc n b s', 0 <= n -> read_full acc n s = (ROk b, s') -> zlen b = zlen acc + n.
Proof.
  induction s as [|e s IH]; intros acc n b s' Hn H; cbn [read_full] in H.
  - destruct (n <=? 0) eqn:E; inversion H; subst. lia.
  - destruct (n <=? 0) eqn:E; [inversion H; subst; lia|]. destruct e as [x| |]; try discriminate. destruct (zlen x <=? n) eqn:L.
    + apply IH in H; [|lia]. rewrite zlen_app in H. lia.
    + inversion H; subst. rewrite zlen_app, sub_length by lia. lia.
Qed.
Lemma deliver_handshake evs tl : exists s, body_of (fst (ReadPeerHandshake (s ++ tl))) = body_of (fst (ReadPeerHandshake evs)) /\ snd (ReadPeerHandshake (s ++ tl)) = tl.
Proof.
  unfold ReadPeerHandshake, readExactly. destruct (read_full [] 68 evs) as [[h|e] s'] eqn:E; [|exists [Timeout]; split; reflexivity].
  apply read_full_len in E; [|lia]. change (zlen [] + 68) with 68 in E. exists [Chunk h]. cbn [app read_full]. change (68 <=? 0) with false. cbn iota. rewrite E. change (68 <=? 68) with true. cbn iota. change (68 - 68) with 0. cbn [app]. rewrite read_full_0. split; reflexivity.
Qed.
Lemma cexec_over cf a c : dead c || c_exit c = true -> cexec cf a c = (c, []).
Proof. intros H. unfold cexec. now rewrite H. Qed.
Lemma nexec_complete cf a c c' es ss : sends_framed a -> cexec cf a c = (c', es) -> (forall q k j n ips, nth_error (g_trk (c_mgr c)) j = Some (TPShake k n ips) -> conn_of (c_mgr c) k = Some q -> (q < length ss)%nat) ->
  (forall q p k, nth_error (c_run c) k = Some p -> conn_of (c_mgr c) p = Some q -> (q < length ss)%nat) ->
  exists ss0 es0, length ss0 = length ss /\ nexec cf a (mkNet c ss0) = (mkNet c' ss, es0) /\ map bare es0 = map bare es.
Proof.
  intros HF HE Q1 Q2. destruct (dead c || c_exit c) eqn:D.
  { rewrite cexec_over in HE by exact D. inversion HE; subst. exists ss, []. unfold nexec. cbn [n_client]. rewrite D. auto. }
  assert (G : (nexec cf a (mkNet c ss) = let '(c', es) := cexec cf a c in (mkNet c' ss, es)) -> exists ss0 es0, length ss0 = length ss /\ nexec cf a (mkNet c ss0) = (mkNet c' ss, es0) /\ map bare es0 = map bare es).
  { intros E. exists ss, es. rewrite E, HE. auto. }
  unfold nexec in G |- *. cbn [n_client n_socks] in *. rewrite D in *.
  destruct a as [| |j x|j|j r|k i| |b]; try (exact (G eq_refl)).
  - destruct (nth_error (g_trk (c_mgr c)) j) as [[| | | | | | |k m ips| | |]|] eqn:ET; try (exact (G eq_refl)). destruct (conn_of (c_mgr c) k) as [q|] eqn:EC; [|exact (G eq_refl)].
    clear G. specialize (Q1 _ _ _ _ _ ET EC).
    assert (X : exists ss0, length ss0 = length ss /\ (x_ok x && negb (conn_closed (c_mgr c) k) = true -> body_of (fst (ReadPeerHandshake (sock ss0 q))) = body_of (fst (ReadPeerHandshake (x_evs x)))) /\
                 (if x_ok x && negb (conn_closed (c_mgr c) k) then upd ss0 q (snd (ReadPeerHandshake (sock ss0 q))) else ss0) = ss).
    { destruct (x_ok x && negb (conn_closed (c_mgr c) k)); [|exists ss; split; [reflexivity|split; [discriminate|reflexivity]]].
      destruct (deliver_handshake (x_evs x) (sock ss q)) as (s & A & B). exists (upd ss q (s ++ sock ss q)). rewrite upd_len, upd_sock_same by exact Q1. rewrite B, upd_back. auto. }
    destruct X as (ss0 & L & A & B). exists ss0. rewrite B. fold (with_evs x (sock ss0 q)).
    assert (Ex : x = with_evs x (x_evs x)) by (destruct x; reflexivity). rewrite Ex in HE.
    destruct (shake_same cf j x _ _ c k m ips ET (shaken_read cf c k x _ _ A)) as [F1 F2]. rewrite HE in F1, F2. cbn [fst snd] in F1, F2.
    destruct (cexec cf (KTrk j (with_evs x (sock ss0 q))) c) as [c2 es2]. cbn [fst snd] in *. subst c2. exists es2. auto.
  - destruct (nth_error (c_run c) k) as [p|] eqn:EK; [|exact (G eq_refl)]. destruct (nth_error (wo_peers (c_wo c)) k) as [r|]; [|exact (G eq_refl)]. destruct (conn_of (c_mgr c) p) as [q|] eqn:EC; [|exact (G eq_refl)].
    destruct (at_read r && negb (conn_closed (c_mgr c) p)); [|exact (G eq_refl)]. clear G. specialize (Q2 _ _ _ EK EC).
    destruct (deliver_message (i_read i) (sock ss q) HF) as (s & A & B). exists (upd ss q (s ++ sock ss q)), es. rewrite upd_len, upd_sock_same by exact Q2. split; [reflexivity|].
    destruct (ReadPeerMessage (s ++ sock ss q)) as [m s']. cbn [fst snd] in A, B. subst s'. rewrite A, upd_back.
    assert (Ei : mkI (i_due i) (i_ok i) (i_read i) (ModelPeer.i_timer i) = i) by (destruct i; reflexivity). rewrite Ei, HE. auto.
Qed.
Definition conns_in (c : client) : nat := list_max (map (fun p => match mp_conn p with Some q => S q | None => O end) (g_peers (c_mgr c))).
Lemma conns_in_spec c k q : conn_of (c_mgr c) k = Some q -> (q < conns_in c)%nat.
Proof.
  unfold conn_of, conns_in. destruct (nth_error (g_peers (c_mgr c)) k) as [p|] eqn:E; [|discriminate]. intros H. apply nth_error_In in E.
  assert (X : Forall (fun m => (m <= list_max (map (fun p => match mp_conn p with Some q => S q | None => O end) (g_peers (c_mgr c))))%nat) (map (fun p => match mp_conn p with Some q => S q | None => O end) (g_peers (c_mgr c)))) by (apply list_max_le; lia).
  rewrite Forall_forall in X. specialize (X (S q)). apply X. apply in_map_iff. exists p. rewrite H. auto.
Qed.
Lemma nrun_complete cf l : forall c c' tr N, Forall sends_framed l -> crun cf l c = (c', tr) ->
  exists ss ss' tr', (N <= length ss)%nat /\ nrun cf l (mkNet c ss) = (mkNet c' ss', tr') /\ map bare tr' = map bare tr.
Proof.
  induction l as [|a l IH]; intros c c' tr N HF H; cbn [crun] in H.
  - inversion H; subst. exists (repeat [] N), (repeat [] N), []. rewrite repeat_length. split; [lia|split; reflexivity].
  - inversion HF; subst. destruct (cexec cf a c) as [c1 e1] eqn:E1. destruct (crun cf l c1) as [c2 e2] eqn:E2. inversion H; subst.
    destruct (IH _ _ _ (Nat.max N (conns_in c)) ltac:(assumption) E2) as (ss1 & ss' & tr2 & L & R & T).
    destruct (nexec_complete cf a c c1 e1 ss1 ltac:(assumption) E1) as (ss & es0 & L0 & R0 & T0).
    + intros q k j n ips _ Q. apply conns_in_spec in Q. lia.
    + intros q p k _ Q. apply conns_in_spec in Q. lia.
    + exists ss, ss', (es0 ++ tr2). split; [lia|]. split; [cbn [nrun]; now rewrite R0, R|]. rewrite !map_app. congruence.
Qed.

(* ---------- how the bytes are cut does not matter ---------- *)
Definition same_items (s1 s2 : list ev) : Prop := items s1 = items s2.
Lemma sock_same ss1 ss2 q : Forall2 same_items ss1 ss2 -> same_items (sock ss1 q) (sock ss2 q).
Proof. intros H. revert q. induction H; intros [|q]; unfold sock; cbn [nth]; try reflexivity; [assumption|apply IHForall2]. Qed.
Lemma upd_items ss1 ss2 q s1 s2 : Forall2 same_items ss1 ss2 -> same_items s1 s2 -> Forall2 same_items (upd ss1 q s1) (upd ss2 q s2).
Proof. intros H HS. revert q. induction H; intros [|q]; cbn [upd]; constructor; auto. Qed.
Lemma cut_step cf a c ss1 ss2 : Forall2 same_items ss1 ss2 ->
  n_client (fst (nexec cf a (mkNet c ss1))) = n_client (fst (nexec cf a (mkNet c ss2))) /\
  Forall2 same_items (n_socks (fst (nexec cf a (mkNet c ss1)))) (n_socks (fst (nexec cf a (mkNet c ss2)))) /\
  map bare (snd (nexec cf a (mkNet c ss1))) = map bare (snd (nexec cf a (mkNet c ss2))).
Proof.
  intros H. unfold nexec. cbn [n_client n_socks]. destruct (dead c || c_exit c); [cbn; auto|].
  assert (G : forall a', let go ss := let '(c', es) := cexec cf a' c in (mkNet c' ss, es) in forall t1 t2, Forall2 same_items t1 t2 ->
    n_client (fst (go t1)) = n_client (fst (go t2)) /\ Forall2 same_items (n_socks (fst (go t1))) (n_socks (fst (go t2))) /\ map bare (snd (go t1)) = map bare (snd (go t2))).
  { intros a' go t1 t2 HT. unfold go. destruct (cexec cf a' c) as [c' es]. cbn. auto. }
  destruct a as [| |j x|j|j r|k i| |b]; try (apply G; exact H).
  - destruct (nth_error (g_trk (c_mgr c)) j) as [[| | | | | | |k m ips| | |]|] eqn:ET; try (apply G; exact H). destruct (conn_of (c_mgr c) k) as [q|] eqn:EC; [|apply G; exact H].
    pose proof (sock_same _ _ q H) as HQ. destruct (exactly_items 68 _ _ HQ) as [A B]. fold (ReadPeerHandshake (sock ss1 q)) in A, B. fold (ReadPeerHandshake (sock ss2 q)) in A, B.
    destruct (shake_same cf j x (sock ss1 q) (sock ss2 q) c k m ips ET) as [F1 F2]. { apply shaken_read. intros _. now rewrite A. }
    unfold with_evs in F1, F2. destruct (cexec cf (KTrk j (mkCin (x_id x) (x_ok x) (x_timer x) (sock ss1 q))) c) as [c1 e1], (cexec cf (KTrk j (mkCin (x_id x) (x_ok x) (x_timer x) (sock ss2 q))) c) as [c2 e2].
    cbn [fst snd n_client n_socks] in *. subst c2. split; [reflexivity|]. split; [|exact F2]. destruct (x_ok x && _); [|exact H]. apply upd_items; [exact H|exact B].
  - destruct (nth_error (c_run c) k) as [p|] eqn:EK; [|apply G; exact H]. destruct (nth_error (wo_peers (c_wo c)) k) as [r|]; [|apply G; exact H]. destruct (conn_of (c_mgr c) p) as [q|] eqn:EC; [|apply G; exact H].
    destruct (at_read r && negb (conn_closed (c_mgr c) p)); [|apply G; exact H]. destruct (message_items _ _ (sock_same _ _ q H)) as [A B].
    destruct (ReadPeerMessage (sock ss1 q)) as [m1 s1], (ReadPeerMessage (sock ss2 q)) as [m2 s2]. cbn [fst snd] in A, B. subst m2. apply G. apply upd_items; assumption.
Qed.
Lemma cut_run cf l : forall c ss1 ss2 n1 tr1 n2 tr2, Forall2 same_items ss1 ss2 -> nrun cf l (mkNet c ss1) = (n1, tr1) -> nrun cf l (mkNet c ss2) = (n2, tr2) ->
  n_client n1 = n_client n2 /\ Forall2 same_items (n_socks n1) (n_socks n2) /\ map bare tr1 = map bare tr2.
Proof.
  induction l as [|a l IH]; intros c ss1 ss2 n1 tr1 n2 tr2 H R1 R2; cbn [nrun] in R1, R2.
  - inversion R1; inversion R2; subst. cbn. auto.
  - destruct (cut_step cf a c ss1 ss2 H) as (A & B & C). destruct (nexec cf a (mkNet c ss1)) as [[c1 t1] e1], (nexec cf a (mkNet c ss2)) as [[c2 t2] e2]. cbn [fst snd n_client n_socks] in A, B, C. subst c2.
    destruct (nrun cf l (mkNet c1 t1)) as [m1 f1] eqn:E1, (nrun cf l (mkNet c1 t2)) as [m2 f2] eqn:E2. inversion R1; inversion R2; subst.
    destruct (IH _ _ _ _ _ _ _ B E1 E2) as (X & Y & Z). rewrite !map_app. split; [exact X|]. split; [exact Y|congruence].
Qed.
Lemma every_course cf l c c' tr : Forall sends_framed l -> crun cf l c = (c', tr) ->
  exists ss ss' tr', nrun cf l (mkNet c ss) = (mkNet c' ss', tr') /\ map bare tr' = map bare tr.
Proof. intros HF H. destruct (nrun_complete _ _ _ _ _ 0 HF H) as (ss & ss' & tr' & _ & X). exists ss, ss', tr'. exact X. Qed.
