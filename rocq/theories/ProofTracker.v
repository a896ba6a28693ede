(* Proofs about trackers.                                                      *)
From Verif Require Import Base ProofBase ModelBencode SpecBencode ModelUnmarshal SpecUnmarshal ProofNum ProofUnmarshal ProofUnmarshalMore
  ModelMsg ProofMsg ModelConn ProofConn ModelTracker SpecTracker.

(* ---------- query strings ---------- *)
Lemma unhex_hex d : 0 <= d < 16 -> unhex (hex d) = Some d.
Proof.
  intros H. assert (d = 0 \/ d = 1 \/ d = 2 \/ d = 3 \/ d = 4 \/ d = 5 \/ d = 6 \/ d = 7 \/ d = 8 \/ d = 9 \/ d = 10 \/ d = 11 \/ d = 12 \/
    d = 13 \/ d = 14 \/ d = 15) as D by lia.
  repeat (destruct D as [->|D]; [reflexivity|]). subst d. reflexivity.
Qed.
Lemma unescape_escape s : Forall is_byte s -> forall r, unescape (escape s ++ r) = option_map (app s) (unescape r).
Proof.
  induction s as [|c s IH]; intros H r; [cbn; now destruct (unescape r)|].
  inversion H as [|? ? Hc Hs]; subst. unfold is_byte in Hc. cbn [escape flat_map]. fold (escape s). rewrite <- app_assoc.
  unfold escape1. destruct (unreserved c) eqn:E1.
  - cbn [app unescape]. unfold unreserved in E1. destruct (c =? 37) eqn:?; [lia|]. destruct (c =? 43) eqn:?; [lia|].
    rewrite IH by assumption. now destruct (unescape r).
  - destruct (c =? 32) eqn:E2.
    + cbn [app unescape Z.eqb Pos.eqb]. rewrite IH by assumption. replace c with 32 by lia. now destruct (unescape r).
    + cbn [app unescape Z.eqb Pos.eqb]. pose proof (Z.div_mod c 16). pose proof (Z.mod_pos_bound c 16). 
      assert (0 <= c / 16 < 16) by (split; [apply Z.div_pos; lia|apply Z.div_lt_upper_bound; lia]).
      rewrite !unhex_hex by lia. rewrite IH by assumption. replace (16 * (c / 16) + c mod 16) with c by lia.
      now destruct (unescape r).
Qed.
Lemma unescape_all s : Forall is_byte s -> unescape (escape s) = Some s.
Proof. intros H. rewrite <- (app_nil_r (escape s)), unescape_escape by assumption. cbn. now rewrite app_nil_r. Qed.
Lemma escape_safe s : Forall is_byte s -> Forall (fun c => unreserved c = true \/ c = 37 \/ c = 43) (escape s).
Proof.
  induction 1 as [|c s Hc Hs IH]; [constructor|]. cbn [escape flat_map]. apply Forall_app. split; [|exact IH].
  unfold escape1. destruct (unreserved c) eqn:E; [constructor; auto|].
  destruct (c =? 32); [constructor; auto|]. unfold is_byte in Hc.
  assert (U : forall d, 0 <= d < 16 -> unreserved (hex d) = true).
  { intros d Hd. unfold unreserved, hex. destruct (d <? 10) eqn:?; lia. }
  pose proof (Z.mod_pos_bound c 16).
  assert (0 <= c / 16 < 16) by (split; [apply Z.div_pos; lia|apply Z.div_lt_upper_bound; lia]).
  constructor; [auto|]. constructor; [left; apply U; lia|]. constructor; [left; apply U; lia|constructor].
Qed.
Lemma escape_free s c : Forall is_byte s -> unreserved c = false -> c <> 37 -> c <> 43 -> ~ In c (escape s).
Proof. intros H1 H2 H3 H4 Hi. pose proof (escape_safe s H1) as F. rewrite Forall_forall in F. destruct (F c Hi) as [?|[?|?]]; congruence. Qed.

Lemma split_none sep s : ~ In sep s -> split sep s = [s].
Proof.
  induction s as [|c s IH]; intros H; [reflexivity|]. cbn. destruct (c =? sep) eqn:E; [exfalso; apply H; left; lia|].
  rewrite IH; [reflexivity|]. intro; apply H; now right.
Qed.
Lemma split_app sep a b : ~ In sep a -> split sep (a ++ sep :: b) = a :: split sep b.
Proof.
  induction a as [|c a IH]; intros H; cbn.
  - now rewrite Z.eqb_refl.
  - destruct (c =? sep) eqn:E; [exfalso; apply H; left; lia|]. rewrite IH; [reflexivity|]. intro; apply H; now right.
Qed.
Lemma cut_app sep a b : ~ In sep a -> cut sep (a ++ sep :: b) = (a, b).
Proof.
  induction a as [|c a IH]; intros H; cbn.
  - now rewrite Z.eqb_refl.
  - destruct (c =? sep) eqn:E; [exfalso; apply H; left; lia|]. rewrite IH; [reflexivity|]. intro; apply H; now right.
Qed.
Lemma cut_none sep a : ~ In sep a -> cut sep a = (a, []).
Proof.
  induction a as [|c a IH]; intros H; [reflexivity|]. cbn. destruct (c =? sep) eqn:E; [exfalso; apply H; left; lia|].
  rewrite IH; [reflexivity|]. intro; apply H; now right.
Qed.
Lemma decode_pair_ok k v : Forall is_byte k -> Forall is_byte v -> decode_pair (escape k ++ 61 :: escape v) = Some (k, v).
Proof.
  intros Hk Hv. unfold decode_pair. rewrite cut_app by (apply escape_free; auto; discriminate). now rewrite !unescape_all.
Qed.
Definition byte_pair (kv : bytes * bytes) : Prop := Forall is_byte (fst kv) /\ Forall is_byte (snd kv).
Lemma pair_free k v c : Forall is_byte k -> Forall is_byte v -> unreserved c = false -> c <> 37 -> c <> 43 -> c <> 61 -> ~ In c (escape k ++ 61 :: escape v).
Proof.
  intros Hk Hv H1 H2 H3 H4 Hi. apply in_app_iff in Hi. destruct Hi as [Hi|[Hi|Hi]]; [|congruence|]; revert Hi; apply escape_free; auto.
Qed.
Lemma encode_cons k v kvs : kvs <> [] -> encode ((k, v) :: kvs) = (escape k ++ 61 :: escape v) ++ 38 :: encode kvs.
Proof. intros H. destruct kvs as [|kv kvs]; [congruence|]. cbn [encode]. now rewrite <- app_assoc. Qed.
Lemma encode_free kvs c : Forall byte_pair kvs -> unreserved c = false -> c <> 37 -> c <> 43 -> c <> 61 -> c <> 38 -> ~ In c (encode kvs).
Proof.
  intros HF H1 H2 H3 H4 H5. induction kvs as [|[k v] kvs IH]; [intros []|]. inversion HF as [|? ? [Hk Hv] HF']; subst. cbn [fst snd] in *.
  destruct kvs as [|kv kvs]; [apply pair_free; auto|]. rewrite encode_cons by discriminate. intros Hi. apply in_app_iff in Hi.
  destruct Hi as [Hi|[Hi|Hi]]; [revert Hi; apply pair_free; auto|congruence|now apply IH].
Qed.
Lemma decode_encode kvs : kvs <> [] -> Forall byte_pair kvs -> decode_query (encode kvs) = Some kvs.
Proof.
  unfold decode_query. induction kvs as [|[k v] kvs IH]; intros HN HF; [congruence|].
  inversion HF as [|? ? [Hk Hv] HF']; subst. cbn [fst snd] in *.
  destruct kvs as [|kv kvs].
  - cbn [encode]. rewrite split_none by (apply pair_free; auto; discriminate). cbn [map all_some]. now rewrite decode_pair_ok.
  - rewrite encode_cons, split_app by (first [discriminate|apply pair_free; auto; discriminate]).
    cbn [map all_some]. rewrite decode_pair_ok, IH by (auto; discriminate). reflexivity.
Qed.
Lemma announce_query addr kvs : kvs <> [] -> Forall byte_pair kvs -> ~ In 63 addr -> ~ In 35 addr ->
  decode_query (query_of (announce_url addr kvs)) = Some kvs.
Proof.
  intros HN HF H1 H2. unfold query_of, announce_url.
  rewrite (cut_none 35). 2:{ intros Hi. apply in_app_iff in Hi. destruct Hi as [Hi|[Hi|Hi]]; [auto|discriminate|]. revert Hi. apply encode_free; auto; discriminate. }
  cbn [fst]. rewrite cut_app by assumption. cbn [snd]. now apply decode_encode.
Qed.
(* with a ? in the address already, our first key is swallowed *)
Lemma announce_query_given pre q kvs : Forall byte_pair kvs -> ~ In 63 pre -> ~ In 35 (pre ++ 63 :: q) ->
  query_of (announce_url (pre ++ 63 :: q) kvs) = q ++ 63 :: encode kvs.
Proof.
  intros HF H1 H2. unfold query_of, announce_url.
  rewrite (cut_none 35). 2:{ intros Hi. apply in_app_iff in Hi. destruct Hi as [Hi|[Hi|Hi]]; [auto|discriminate|]. revert Hi. apply encode_free; auto; discriminate. }
  cbn [fst]. rewrite <- app_assoc. cbn [app]. now rewrite cut_app.
Qed.
Lemma announce_query_exact pre q kvs : kvs <> [] -> Forall byte_pair kvs -> ~ In 63 pre -> ~ In 35 (pre ++ 63 :: q) ->
  exists e, query_of (announce_url (pre ++ 63 :: q) kvs) = q ++ 63 :: e /\ decode_query e = Some kvs.
Proof. intros H0 H1 H2 H3. exists (encode kvs). split; [now apply announce_query_given|now apply decode_encode]. Qed.

(* ---------- compact peers ---------- *)
Lemma compact_len e : compact_ok e -> length (compact e) = 6%nat.
Proof. intros [H _]. unfold compact. rewrite app_length, be_put_length, H. reflexivity. Qed.
Lemma sub_skip {A} (a l : list A) n lo hi : zlen a = n -> n <= lo <= hi -> sub (a ++ l) lo hi = sub l (lo - n) (hi - n).
Proof.
  intros Ha H. unfold sub, zlen in *. replace (hi - n - (lo - n)) with (hi - lo) by lia. f_equal.
  rewrite skipn_app. replace (skipn (Z.to_nat lo) a) with (@nil A) by (symmetry; apply skipn_all2; lia).
  cbn. f_equal. lia.
Qed.
Lemma sub_front {A} (a l : list A) n : zlen a = n -> sub (a ++ l) 0 n = a.
Proof.
  intros Ha. unfold sub, zlen in *. cbn [Z.to_nat skipn]. rewrite Z.sub_0_r, <- Ha, Nat2Z.id.
  rewrite firstn_app, Nat.sub_diag, firstn_all. cbn. apply app_nil_r.
Qed.
Lemma compact_entry_ok e : compact_ok e -> compact_entry (compact e) = peer_of e.
Proof.
  intros [H1 H2]. unfold compact_entry, compact, peer_of.
  rewrite (sub_front (fst e) _ 4) by (unfold zlen; lia). rewrite (sub_skip (fst e) _ 4) by (unfold zlen; lia).
  replace (sub (be_put 2 (snd e)) (4 - 4) (6 - 4)) with (be_put 2 (snd e)) by reflexivity.
  rewrite be_get_put. change (256 ^ Z.of_nat 2) with 65536. rewrite Z.mod_small by lia. reflexivity.
Qed.
Lemma parse_compact es t : Forall compact_ok es -> zlen t < 6 -> parseCompactPeers (flat_map compact es ++ t) = map peer_of es.
Proof.
  intros HF Ht. unfold parseCompactPeers.
  assert (L : zlen (flat_map compact es) = 6 * zlen es).
  { clear -HF. induction HF as [|e es He HF IH]; [reflexivity|]. cbn [flat_map]. rewrite zlen_app, zlen_cons, IH.
    unfold zlen at 1. rewrite compact_len by assumption. lia. }
  rewrite zlen_app, L. pose proof (zlen_nonneg t).
  replace ((6 * zlen es + zlen t) / 6) with (zlen es) by (apply Z.div_unique with (zlen t); lia).
  unfold zlen. rewrite Nat2Z.id. clear L.
  induction HF as [|e es He HF IH]; [reflexivity|]. cbn [length seq map flat_map]. f_equal.
  - rewrite <- app_assoc. rewrite sub_front by (unfold zlen; rewrite compact_len by assumption; reflexivity).
    now apply compact_entry_ok.
  - rewrite <- IH, <- seq_shift, map_map. apply map_ext. intros i. f_equal. rewrite <- app_assoc.
    rewrite (sub_skip (compact e) _ 6) by (try (unfold zlen; rewrite compact_len by assumption); lia). f_equal; lia.
Qed.
Lemma compact_split b : Forall is_byte b -> exists es t, b = flat_map compact es ++ t /\ Forall compact_ok es /\ zlen t < 6.
Proof.
  intros HF. assert (H : forall n b, (length b <= n)%nat -> Forall is_byte b -> exists es t, b = flat_map compact es ++ t /\ Forall compact_ok es /\ zlen t < 6).
  { clear. induction n as [|n IH]; intros b Hn HF.
    - destruct b; [|cbn in Hn; lia]. exists [], []. split; [reflexivity|split; [constructor|reflexivity]].
    - destruct b as [|b0 [|b1 [|b2 [|b3 [|b4 [|b5 b]]]]]]; try (eexists [], _; split; [reflexivity|split; [constructor|unfold zlen; cbn; lia]]).
      do 6 (match goal with H : Forall is_byte (_ :: _) |- _ => inversion H; clear H; subst end).
      destruct (IH b) as (es & t & -> & F & L); [cbn in Hn; lia|assumption|].
      exists (([b0; b1; b2; b3], be_get [b4; b5]) :: es), t. split; [|split; [constructor; [split|]; auto|exact L]].
      + cbn [flat_map]. unfold compact at 2. cbn [fst snd].
        assert (FB : Forall is_byte [b4; b5]) by auto. pose proof (be_put_get [b4; b5] FB) as BP. cbn [length] in BP. rewrite BP. reflexivity.
      + cbn [fst snd]. pose proof (be_get_range [b4; b5]) as R. change (256 ^ zlen [b4; b5]) with 65536 in R. apply R. auto. }
  eapply H; [reflexivity|assumption].
Qed.

(* ---------- UDP responses ---------- *)
Definition is_u (n : nat) (z : Z) : Prop := 0 <= z < 256 ^ Z.of_nat n.
Lemma get_put n z : is_u n z -> be_get (be_put n z) = z.
Proof. intros H. rewrite be_get_put, Z.mod_small; [reflexivity|exact H]. Qed.
Lemma take_int n r : Forall is_byte r -> (n <= length r)%nat -> exists z r', r = be_put n z ++ r' /\ is_u n z /\ Forall is_byte r'.
Proof.
  intros HF Hn. exists (be_get (firstn n r)), (skipn n r).
  assert (F1 : Forall is_byte (firstn n r)) by (eapply Forall_forall; intros x Hx; rewrite Forall_forall in HF; apply HF; rewrite <- (firstn_skipn n r); apply in_app_iff; auto).
  assert (L : length (firstn n r) = n) by (apply firstn_length_le; lia).
  split; [|split].
  - pose proof (be_put_get (firstn n r) F1) as E. rewrite L in E. rewrite E. symmetry. apply firstn_skipn.
  - pose proof (be_get_range (firstn n r) F1) as R. unfold zlen in R. rewrite L in R. exact R.
  - eapply Forall_forall; intros x Hx; rewrite Forall_forall in HF; apply HF; rewrite <- (firstn_skipn n r); apply in_app_iff; auto.
Qed.
Lemma zlen_put n z : zlen (be_put n z) = Z.of_nat n.
Proof. unfold zlen. now rewrite be_put_length. Qed.
Lemma at_int a n z l lo hi : zlen a = lo -> hi = lo + Z.of_nat n -> is_u n z -> be_get (sub (a ++ be_put n z ++ l) lo hi) = z.
Proof.
  intros H1 H2 H3. pose proof (zlen_nonneg a). rewrite (sub_skip a _ lo) by lia. subst hi.
  replace (lo - lo) with 0 by lia. replace (lo + Z.of_nat n - lo) with (Z.of_nat n) by lia.
  rewrite sub_front by apply zlen_put. now apply get_put.
Qed.

Lemma connect_reply_ok t tx c rest : is_u 4 tx -> is_u 8 c ->
  parseTrackerResponse t (bep15_connect_reply tx c ++ rest) tx = (mkUdp (u_ips t) c (u_interval t), Ok tt).
Proof.
  intros Ht Hc. unfold bep15_connect_reply. rewrite <- !app_assoc. unfold parseTrackerResponse.
  assert (L : zlen (be_put 4 0 ++ be_put 4 tx ++ be_put 8 c ++ rest) = 16 + zlen rest) by (rewrite !zlen_app, !zlen_put; lia).
  pose proof (zlen_nonneg rest). rewrite slice_ok by lia.
  rewrite (sub_front (be_put 4 0) _ 4) by apply zlen_put. rewrite get_put by (unfold is_u; cbn; lia).
  change (0 =? connectA) with true. cbv iota. unfold readConnect, txid_ok.
  replace (zlen _ <? 16) with false by lia.
  rewrite (at_int (be_put 4 0) 4 tx (be_put 8 c ++ rest) 4 8) by (auto; apply zlen_put). rewrite Z.eqb_refl. cbn [negb].
  replace (be_put 4 0 ++ be_put 4 tx ++ be_put 8 c ++ rest) with ((be_put 4 0 ++ be_put 4 tx) ++ be_put 8 c ++ rest) by (now rewrite <- app_assoc).
  rewrite (at_int (be_put 4 0 ++ be_put 4 tx) 8 c rest 8 16) by (auto; rewrite zlen_app, !zlen_put; reflexivity). reflexivity.
Qed.
Lemma announce_reply_ok t tx i l s ps : is_u 4 tx -> is_u 4 i ->
  parseTrackerResponse t (bep15_announce_reply tx i l s ps) tx = (mkUdp (parseCompactPeers ps) (u_conn t) (i * second), Ok tt).
Proof.
  intros Ht Hi. unfold bep15_announce_reply. unfold parseTrackerResponse.
  set (r := be_put 4 1 ++ be_put 4 tx ++ be_put 4 i ++ be_put 4 l ++ be_put 4 s ++ ps).
  assert (L : zlen r = 20 + zlen ps) by (unfold r; rewrite !zlen_app, !zlen_put; lia).
  pose proof (zlen_nonneg ps). rewrite slice_ok by lia.
  assert (A1 : be_get (sub r 0 4) = 1) by (unfold r; rewrite (sub_front (be_put 4 1) _ 4) by apply zlen_put; apply get_put; unfold is_u; cbn; lia).
  assert (A2 : be_get (sub r 4 8) = tx) by (unfold r; apply (at_int (be_put 4 1) 4 tx); auto; apply zlen_put).
  cbv zeta. rewrite A1. change (1 =? connectA) with false. change (1 =? announceA) with true. cbv iota. unfold readAnnounce, txid_ok.
  replace (zlen r <? 20) with false by lia. rewrite A2, Z.eqb_refl. cbn [negb].
  replace (be_get (sub r 8 12)) with i.
  2:{ unfold r. rewrite (app_assoc (be_put 4 1)). symmetry. apply (at_int (be_put 4 1 ++ be_put 4 tx) 4 i); auto. }
  replace (sub r 20 (zlen r)) with ps; [reflexivity|].
  rewrite L. unfold r. rewrite !app_assoc. rewrite (sub_skip _ ps 20) by (rewrite ?zlen_app, ?zlen_put; lia).
  replace (20 - 20) with 0 by lia. replace (20 + zlen ps - 20) with (zlen ps) by lia. symmetry. apply sub_all.
Qed.
Lemma parse_udp_exact t r tx t' : Forall is_byte r -> is_u 4 tx ->
  (parseTrackerResponse t r tx = (t', Ok tt) <->
   (exists c rest, r = bep15_connect_reply tx c ++ rest /\ is_u 8 c /\ t' = mkUdp (u_ips t) c (u_interval t)) \/
   (exists i l s ps, r = bep15_announce_reply tx i l s ps /\ is_u 4 i /\ t' = mkUdp (parseCompactPeers ps) (u_conn t) (i * second))).
Proof.
  intros HF Ht. split.
  - intros H. assert (H0 := H). unfold parseTrackerResponse in H.
    destruct (slice r 0 4) as [h| | |] eqn:Es; try (inversion H; fail).
    assert (L4 : 4 <= zlen r) by (destruct (Z_lt_ge_dec (zlen r) 4) as [X|X]; [rewrite slice_panic in Es by lia; discriminate|lia]).
    rewrite slice_ok in Es by lia. inversion Es; subst h. clear Es.
    destruct (take_int 4 r HF) as (a & r1 & E1 & Ha & F1); [unfold zlen in L4; lia|].
    assert (Ea : be_get (sub r 0 4) = a) by (rewrite E1, (sub_front _ _ 4) by apply zlen_put; now apply get_put).
    rewrite Ea in H.
    destruct (a =? connectA) eqn:A0; [|destruct (a =? announceA) eqn:A1; [|destruct (a =? conError) eqn:A2]].
    + unfold readConnect in H. destruct (zlen r <? 16) eqn:L; [inversion H|]. destruct (txid_ok r tx) eqn:T; cbn [negb] in H; [|inversion H].
      left. unfold connectA in A0. replace a with 0 in * by lia.
      destruct (take_int 4 r1 F1) as (x & r2 & E2 & Hx & F2); [unfold zlen in *; rewrite E1, app_length, be_put_length in L; lia|].
      destruct (take_int 8 r2 F2) as (c & r3 & E3 & Hc & F3); [unfold zlen in *; rewrite E1, E2, !app_length, !be_put_length in L; lia|].
      unfold txid_ok in T. rewrite E1, E2 in T. rewrite (at_int (be_put 4 0) 4 x r2 4 8) in T by (auto; apply zlen_put).
      replace x with tx in * by lia. exists c, r3. subst r r1 r2.
      assert (E : be_put 4 0 ++ be_put 4 tx ++ be_put 8 c ++ r3 = bep15_connect_reply tx c ++ r3) by (unfold bep15_connect_reply; now rewrite <- !app_assoc).
      split; [exact E|]. split; [exact Hc|]. rewrite E, connect_reply_ok in H0 by assumption. now inversion H0.
    + unfold readAnnounce in H. destruct (zlen r <? 20) eqn:L; [inversion H|]. destruct (txid_ok r tx) eqn:T; cbn [negb] in H; [|inversion H].
      right. unfold announceA in A1. replace a with 1 in * by lia.
      destruct (take_int 4 r1 F1) as (x & r2 & E2 & Hx & F2); [unfold zlen in *; rewrite E1, app_length, be_put_length in L; lia|].
      destruct (take_int 4 r2 F2) as (i & r3 & E3 & Hi & F3); [unfold zlen in *; rewrite E1, E2, !app_length, !be_put_length in L; lia|].
      destruct (take_int 4 r3 F3) as (l & r4 & E4 & Hl & F4); [unfold zlen in *; rewrite E1, E2, E3, !app_length, !be_put_length in L; lia|].
      destruct (take_int 4 r4 F4) as (s & r5 & E5 & Hs & F5); [unfold zlen in *; rewrite E1, E2, E3, E4, !app_length, !be_put_length in L; lia|].
      unfold txid_ok in T. rewrite E1, E2 in T. rewrite (at_int (be_put 4 1) 4 x r2 4 8) in T by (auto; apply zlen_put).
      replace x with tx in * by lia. exists i, l, s, r5. subst r r1 r2 r3 r4.
      change (be_put 4 1 ++ be_put 4 tx ++ be_put 4 i ++ be_put 4 l ++ be_put 4 s ++ r5) with (bep15_announce_reply tx i l s r5) in *.
      split; [reflexivity|]. split; [exact Hi|]. rewrite announce_reply_ok in H0 by assumption. now inversion H0.
    + exfalso. inversion H as [[H1 H2]]. unfold readError in H2. destruct (_ <? _); [discriminate|]. destruct (negb _); discriminate.
    + inversion H.
  - intros [(c & rest & -> & Hc & ->)|(i & l & s & ps & -> & Hi & ->)]; [now apply connect_reply_ok|now apply announce_reply_ok].
Qed.
Lemma parse_udp_spec t r tx t' : Forall is_byte r -> is_u 4 tx ->
  (parseTrackerResponse t r tx = (t', Ok tt) <->
   (exists c rest, r = bep15_connect_reply tx c ++ rest /\ is_u 8 c /\ t' = mkUdp (u_ips t) c (u_interval t)) \/
   (exists i l s es rest, r = bep15_announce_reply tx i l s (flat_map compact es ++ rest) /\ Forall compact_ok es /\ zlen rest < 6 /\ is_u 4 i /\
      t' = mkUdp (map peer_of es) (u_conn t) (i * 1000000000))).
Proof.
  intros HF Ht. rewrite parse_udp_exact by assumption. split; intros [H|H]; try (left; exact H); right.
  - destruct H as (i & l & s & ps & -> & Hi & ->). unfold bep15_announce_reply in HF. do 5 (apply Forall_app in HF; destruct HF as [_ HF]).
    destruct (compact_split ps HF) as (es & rest & -> & H1 & H2). exists i, l, s, es, rest. repeat split; try assumption; try apply Hi. now rewrite parse_compact.
  - destruct H as (i & l & s & es & rest & -> & H1 & H2 & Hi & ->). exists i, l, s, (flat_map compact es ++ rest). repeat split; try apply Hi. now rewrite parse_compact.
Qed.
Lemma parse_udp_panics t r tx : snd (parseTrackerResponse t r tx) = Panic <-> zlen r < 4.
Proof.
  unfold parseTrackerResponse. destruct (Z_lt_ge_dec (zlen r) 4) as [L|L].
  - rewrite slice_panic by lia. split; auto.
  - rewrite slice_ok by (unfold zlen in *; lia). split; [|lia]. intros H. exfalso.
    unfold readConnect, readAnnounce, readError in H.
    repeat match goal with H : context [if ?b then _ else _] |- _ => destruct b end; discriminate H.
Qed.
Lemma udp_read_full_len n s : forall acc r s', 0 <= n -> udp_read_full acc n s = (ROk r, s') -> zlen r = zlen acc + n.
Proof.
  revert n. induction s as [|e s IH]; intros n acc r s' Hn H; cbn [udp_read_full] in H; (destruct (n <=? 0) eqn:E; [inversion H; subst; lia|]); [discriminate|].
  destruct e as [b|]; [|discriminate]. pose proof (zlen_nonneg b). destruct (zlen b <=? n) eqn:Eb.
  - apply IH in H; [|lia]. rewrite zlen_app in H. lia.
  - inversion H; subst. rewrite zlen_app, sub_length by lia. lia.
Qed.
Lemma udp_read_all_fails s : forall acc r s', udp_read_all acc s <> (ROk r, s').
Proof. induction s as [|[b|] s IH]; intros acc r s'; cbn; [discriminate|apply IH|discriminate]. Qed.
(* no datagrams let Announce return peers, none let it crash *)
Lemma udp_announce_fails t tx1 tx2 key ok hash id d s : exists e, snd (UdpAnnounce t tx1 tx2 key ok hash id d s) = Err e.
Proof.
  unfold UdpAnnounce, handshake. destruct ok; cbn [negb]; [|eexists; reflexivity].
  destruct (ReadUdpHandshake s) as [[r|e] s'] eqn:E; [|eexists; reflexivity].
  pose proof (udp_read_full_len 16 s [] r s' ltac:(lia) E) as L. change (zlen []) with 0 in L.
  pose proof (parse_udp_panics t r tx1) as P. pose proof (slice_ok r 0 4) as S4.
  destruct (parseTrackerResponse t r tx1) as [t1 [u|e1| |]] eqn:Ep; cbn [snd] in *.
  - destruct (UdpReadAll s') as [[r2|e2] s2] eqn:E2; [exfalso; eapply udp_read_all_fails; exact E2|]. eexists; reflexivity.
  - eexists; reflexivity.
  - exfalso. assert (zlen r < 4) by (apply P; reflexivity). lia.
  - exfalso. unfold parseTrackerResponse in Ep. rewrite S4 in Ep by lia. unfold readConnect, readAnnounce, readError in Ep.
    repeat match goal with H : context [if ?b then _ else _] |- _ => destruct b end; discriminate Ep.
Qed.
(* the requests sent: connect, then announce with the connection id received *)
Lemma udp_announce_requests t tx1 tx2 key ok hash id d s : Forall (fun e => match e with Datagram b => Forall is_byte b | _ => True end) s -> is_u 4 tx1 ->
  let out := snd (fst (UdpAnnounce t tx1 tx2 key ok hash id d s)) in
  out = [] \/ out = [connect_request tx1] \/
  exists c, is_u 8 c /\ out = [connect_request tx1; createAnnounce c tx2 hash id d key] /\
    exists s', ReadUdpHandshake s = (ROk (bep15_connect_reply tx1 c), s').
Proof.
  intros HB Ht. cbv zeta. unfold UdpAnnounce, handshake. destruct ok; cbn [negb]; [|left; reflexivity].
  destruct (ReadUdpHandshake s) as [[r|e] s'] eqn:E; [|right; left; reflexivity].
  pose proof (udp_read_full_len 16 s [] r s' ltac:(lia) E) as L. change (zlen []) with 0 in L.
  assert (FB : Forall is_byte r).
  { clear -HB E. unfold ReadUdpHandshake in E. assert (H : forall s acc n r s', Forall is_byte acc -> Forall (fun e => match e with Datagram b => Forall is_byte b | _ => True end) s ->
      udp_read_full acc n s = (ROk r, s') -> Forall is_byte r).
    { clear. induction s as [|e s IH]; intros acc n r s' HA HB H; cbn [udp_read_full] in H; (destruct (n <=? 0); [inversion H; subst; assumption|]); [discriminate|].
      inversion HB as [|? ? Hb HB']; subst. destruct e as [b|]; [|discriminate]. destruct (zlen b <=? n); [eapply IH; [|exact HB'|exact H]; now apply Forall_app|].
      inversion H; subst. apply Forall_app. split; [assumption|]. unfold sub. cbn [skipn Z.to_nat]. 
      eapply Forall_forall. intros x Hx. rewrite Forall_forall in Hb. apply Hb. rewrite <- (firstn_skipn (Z.to_nat (n - 0)) b). apply in_app_iff. auto. }
    eapply H; [constructor|exact HB|exact E]. }
  destruct (parseTrackerResponse t r tx1) as [t1 [u|e1| |]] eqn:Ep; cbn [snd fst]; try (right; left; reflexivity).
  destruct u. apply parse_udp_exact in Ep; [|assumption..].
  destruct Ep as [(c & rest & -> & Hc & ->)|(i & l & sd & ps & -> & _)].
  - right; right. exists c. split; [exact Hc|].
    assert (rest = []). { unfold bep15_connect_reply in L. rewrite !zlen_app, !zlen_put in L. destruct rest; [reflexivity|]. rewrite zlen_cons in L. pose proof (zlen_nonneg rest). lia. }
    subst rest. rewrite app_nil_r. split; [|eauto].
    destruct (UdpReadAll s') as [[r2|e2] s2] eqn:E2; [exfalso; eapply udp_read_all_fails; exact E2|]. reflexivity.
  - exfalso. unfold bep15_announce_reply in L. rewrite !zlen_app, !zlen_put in L. pose proof (zlen_nonneg ps). lia.
Qed.
Lemma udp_read_full_datagrams n : forall s acc r s', udp_read_full acc n s = (ROk r, s') ->
  exists ds extra, s = map Datagram ds ++ s' /\ acc ++ concat ds = r ++ extra.
Proof.
  intros s. revert n. induction s as [|e s IH]; intros n acc r s' H; cbn [udp_read_full] in H.
  - destruct (n <=? 0); inversion H; subst. exists [], []. auto.
  - destruct (n <=? 0); [inversion H; subst; exists [], []; auto|].
    destruct e as [b|]; [|discriminate]. destruct (zlen b <=? n).
    + destruct (IH _ _ _ _ H) as (ds & extra & -> & E). exists (b :: ds), extra. split; [reflexivity|]. cbn [concat]. now rewrite app_assoc.
    + inversion H; subst. exists [b], (skipn (Z.to_nat n) b). split; [reflexivity|]. cbn [concat]. rewrite app_nil_r, <- app_assoc. f_equal.
      unfold sub. cbn [skipn Z.to_nat]. rewrite Z.sub_0_r. symmetry. apply firstn_skipn.
Qed.
Lemma udp_requests t tx1 tx2 key ok hash id d s : Forall (fun e => match e with Datagram b => Forall is_byte b | _ => True end) s -> is_u 4 tx1 ->
  let out := snd (fst (UdpAnnounce t tx1 tx2 key ok hash id d s)) in
  out = [] \/ out = [bep15_connect tx1] \/
  exists c payload, is_u 8 c /\ out = [bep15_connect tx1; be_put 8 c ++ be_put 4 1 ++ be_put 4 tx2 ++ payload] /\
    exists ds rest extra, s = map Datagram ds ++ rest /\ concat ds = bep15_connect_reply tx1 c ++ extra.
Proof.
  intros HB Ht. cbv zeta. destruct (udp_announce_requests t tx1 tx2 key ok hash id d s HB Ht) as [H|[H|(c & Hc & H & s' & E)]]; [auto|auto|].
  right; right. exists c. eexists. split; [exact Hc|]. split; [exact H|].
  destruct (udp_read_full_datagrams _ _ _ _ _ E) as (ds & extra & E1 & E2). exists ds, s', extra. auto.
Qed.
Lemma announce_layout c tx hash id d key : length id = 20%nat ->
  createAnnounce c tx hash id d key =
    be_put 8 c ++ be_put 4 1 ++ be_put 4 tx ++ id ++ be_put 8 (a_downloaded d) ++ be_put 8 (a_left d) ++ be_put 8 (a_uploaded d) ++
    be_put 4 0 ++ be_put 4 0 ++ be_put 4 key ++ be_put 4 (-1) ++ be_put 4 (a_port d) /\
  length (createAnnounce c tx hash id d key) = 80%nat.
Proof. intros H. split; [reflexivity|]. unfold createAnnounce. cbn [binary_write_string app]. rewrite !app_length, !be_put_length, H. reflexivity. Qed.
Lemma announce_not_bep15 c tx hash id d key : length id = 20%nat -> length hash = 20%nat ->
  forall ev ip k n port, createAnnounce c tx hash id d key <> bep15_announce c tx hash id (a_downloaded d) (a_left d) (a_uploaded d) ev ip k n port.
Proof.
  intros H1 H2 ev ip k n port E. apply (f_equal (@length Z)) in E. rewrite (proj2 (announce_layout _ _ _ _ _ _ H1)) in E.
  unfold bep15_announce in E. rewrite !app_length, !be_put_length, H1, H2 in E. discriminate E.
Qed.
