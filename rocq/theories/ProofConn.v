(* Proofs about ModelConn.v                                                    *)
From Verif Require Import Base ProofBase ModelMsg SpecMsg ProofMsg ModelConn.

Lemma read_full_0 acc s : read_full acc 0 s = (ROk acc, s).
Proof. destruct s; reflexivity. Qed.

Lemma sub_split {A} (l : list A) n : 0 <= n <= zlen l -> sub l 0 n ++ sub l n (zlen l) = l.
Proof.
  intros H. unfold sub, zlen in *. cbn [skipn]. rewrite Z.sub_0_r. rewrite (firstn_all2 (n := Z.to_nat (_ - n))).
  - apply firstn_skipn.
  - rewrite skipn_length. lia.
Qed.
Lemma sub_length {A} (l : list A) a b : 0 <= a <= b -> b <= zlen l -> zlen (sub l a b) = b - a.
Proof. intros H1 H2. unfold sub, zlen in *. rewrite firstn_length, skipn_length. lia. Qed.

(* enough bytes arrive *)
Lemma read_full_enough cs : forall acc x y tl, concat cs = x ++ y ->
  exists cs', read_full acc (zlen x) (map Chunk cs ++ tl) = (ROk (acc ++ x), map Chunk cs' ++ tl) /\ concat cs' = y.
Proof.
  induction cs as [|b cs IH]; intros acc x y tl H.
  - symmetry in H. apply app_eq_nil in H as [-> ->]. exists []. rewrite zlen_nil, read_full_0, app_nil_r. auto.
  - destruct x as [|x0 x].
    + exists (b :: cs). rewrite zlen_nil, read_full_0, app_nil_r. auto.
    + cbn [map app read_full].
      assert (Hp : 0 < zlen (x0 :: x)) by (rewrite zlen_cons; pose proof (zlen_nonneg x); lia).
      set (X := x0 :: x) in *. clearbody X.
      replace (zlen X <=? 0) with false by lia. cbn [concat] in H.
      destruct (zlen b <=? zlen X) eqn:E.
      * assert (exists z, X = b ++ z) as [z ->].
        { exists (skipn (length b) X). rewrite <- (firstn_skipn (length b) X) at 1. f_equal.
          transitivity (firstn (length b) (X ++ y)).
          - rewrite firstn_app. unfold zlen in E. replace (length b - length X)%nat with O by lia. cbn. now rewrite app_nil_r.
          - rewrite <- H. rewrite firstn_app. replace (length b - length b)%nat with O by lia. cbn. rewrite app_nil_r. apply firstn_all. }
        rewrite <- app_assoc in H. apply app_inv_head in H.
        destruct (IH (acc ++ b) z y tl H) as (cs' & E1 & E2). exists cs'. split; [|exact E2].
        replace (zlen (b ++ z) - zlen b) with (zlen z) by (rewrite zlen_app; lia). rewrite E1, app_assoc. reflexivity.
      * assert (Eb : b = X ++ skipn (length X) b).
        { rewrite <- (firstn_skipn (length X) b) at 1. f_equal.
          transitivity (firstn (length X) (b ++ concat cs)).
          - rewrite firstn_app. unfold zlen in E. replace (length X - length b)%nat with O by lia. cbn. now rewrite app_nil_r.
          - rewrite H. rewrite firstn_app. replace (length X - length X)%nat with O by lia. cbn. rewrite app_nil_r. apply firstn_all. }
        exists (skipn (length X) b :: cs).
        assert (E1 : sub b 0 (zlen X) = X).
        { rewrite Eb at 1. unfold sub. change (Z.to_nat 0) with 0%nat. rewrite skipn_O, Z.sub_0_r. unfold zlen. rewrite Nat2Z.id, firstn_app, firstn_all, Nat.sub_diag. cbn. apply app_nil_r. }
        assert (E2 : sub b (zlen X) (zlen b) = skipn (length X) b).
        { unfold sub. unfold zlen at 3. rewrite Nat2Z.id. apply firstn_all2. rewrite skipn_length. unfold zlen. lia. }
        rewrite E1, E2. split; [reflexivity|]. cbn [concat]. rewrite Eb in H at 1. rewrite <- app_assoc in H. apply app_inv_head in H. exact H.
Qed.

(* not enough *)
Lemma read_full_short cs : forall acc n tl, zlen (concat cs) < n ->
  read_full acc n (map Chunk cs ++ Timeout :: tl) = (RErr ETimeout, tl).
Proof.
  induction cs as [|b cs IH]; intros acc n tl H; cbn [map app read_full concat] in *.
  - rewrite zlen_nil in H. replace (n <=? 0) with false by lia. reflexivity.
  - rewrite zlen_app in H. pose proof (zlen_nonneg b). pose proof (zlen_nonneg (concat cs)).
    replace (n <=? 0) with false by lia. replace (zlen b <=? n) with true by lia. apply IH. lia.
Qed.
Lemma read_full_short_end cs : forall acc n, zlen (concat cs) < n ->
  read_full acc n (map Chunk cs) = (RErr ETimeout, []).
Proof.
  induction cs as [|b cs IH]; intros acc n H; cbn [map app read_full concat] in *.
  - rewrite zlen_nil in H. replace (n <=? 0) with false by lia. reflexivity.
  - rewrite zlen_app in H. pose proof (zlen_nonneg b). pose proof (zlen_nonneg (concat cs)).
    replace (n <=? 0) with false by lia. replace (zlen b <=? n) with true by lia. apply IH. lia.
Qed.
Lemma read_full_short_eof cs : forall acc n tl, zlen (concat cs) < n ->
  exists e, read_full acc n (map Chunk cs ++ Eof :: tl) = (RErr e, Eof :: tl).
Proof.
  induction cs as [|b cs IH]; intros acc n tl H; cbn [map app read_full concat] in *.
  - rewrite zlen_nil in H. replace (n <=? 0) with false by lia. eauto.
  - rewrite zlen_app in H. pose proof (zlen_nonneg b). pose proof (zlen_nonneg (concat cs)).
    replace (n <=? 0) with false by lia. replace (zlen b <=? n) with true by lia. apply IH. lia.
Qed.

Lemma read_message_ok cs tl body rest : is_u32 (zlen body) -> concat cs = frame body ++ rest ->
  exists cs', ReadPeerMessage (map Chunk cs ++ tl) = (ROk body, map Chunk cs' ++ tl) /\ concat cs' = rest.
Proof.
  intros Hu H. unfold frame in H. rewrite <- app_assoc in H.
  unfold ReadPeerMessage, readExactly.
  destruct (read_full_enough cs [] _ _ tl H) as (c1 & E1 & E2). rewrite be32_length in E1. rewrite E1. cbn [app].
  rewrite be_get_be32 by exact Hu.
  destruct (read_full_enough c1 [] _ _ tl E2) as (c2 & E3 & E4). rewrite E3. cbn [app]. eauto.
Qed.

Lemma read_messages_ok bodies : forall cs tl rest, Forall (fun b => is_u32 (zlen b)) bodies ->
  concat cs = concat (map frame bodies) ++ rest ->
  exists cs', read_messages (length bodies) (map Chunk cs ++ tl) = (map ROk bodies, map Chunk cs' ++ tl) /\ concat cs' = rest.
Proof.
  induction bodies as [|b bs IH]; intros cs tl rest Hu H.
  - exists cs. auto.
  - inversion Hu; subst. cbn [map concat] in H. rewrite <- app_assoc in H.
    destruct (read_message_ok cs tl b _ H2 H) as (c1 & E1 & E2).
    destruct (IH c1 tl rest H3 E2) as (c2 & E3 & E4). exists c2. split; [|exact E4].
    cbn [length read_messages map]. rewrite E1, E3. reflexivity.
Qed.

(* a frame cut short by the deadline: everything that had arrived of it is lost *)
Definition cut_frame (arrived body : bytes) : Prop :=
  exists missing, missing <> [] /\ frame body = arrived ++ missing.

Lemma app_split_le {A} (a b c d : list A) : a ++ b = c ++ d -> (length a <= length c)%nat -> exists e, c = a ++ e /\ b = e ++ d.
Proof.
  revert c; induction a as [|x a IH]; intros c H L.
  - exists c. auto.
  - destruct c as [|y c]; [cbn in L; lia|]. cbn in H. injection H as -> H.
    destruct (IH c H ltac:(cbn in L; lia)) as (e & -> & ->). exists e. auto.
Qed.

Lemma read_message_cut cs tl body : is_u32 (zlen body) -> cut_frame (concat cs) body ->
  ReadPeerMessage (map Chunk cs ++ Timeout :: tl) = (RErr ETimeout, tl).
Proof.
  intros Hu (miss & Hm & H). unfold ReadPeerMessage, readExactly.
  destruct (zlen (concat cs) <? 4) eqn:E.
  - rewrite read_full_short by lia. reflexivity.
  - unfold frame in H. destruct (app_split_le (be32 (zlen body)) body (concat cs) miss H) as (e & E1 & E2).
    { unfold zlen in E. cbn [length be32]. lia. }
    destruct (read_full_enough cs [] _ _ (Timeout :: tl) E1) as (c1 & E3 & E4).
    rewrite be32_length in E3. rewrite E3. cbn [app]. rewrite be_get_be32 by exact Hu.
    apply read_full_short. rewrite E4, E2, zlen_app. destruct miss; [congruence|]. rewrite zlen_cons. pose proof (zlen_nonneg miss). lia.
Qed.

Lemma read_message_cut_eof cs tl body : is_u32 (zlen body) -> cut_frame (concat cs) body ->
  exists e, ReadPeerMessage (map Chunk cs ++ Eof :: tl) = (RErr e, Eof :: tl).
Proof.
  intros Hu (miss & Hm & H). unfold ReadPeerMessage, readExactly.
  destruct (zlen (concat cs) <? 4) eqn:E.
  - destruct (read_full_short_eof cs [] 4 tl ltac:(lia)) as [e ->]. eauto.
  - unfold frame in H. destruct (app_split_le (be32 (zlen body)) body (concat cs) miss H) as (e & E1 & E2).
    { unfold zlen in E. cbn [length be32]. lia. }
    destruct (read_full_enough cs [] _ _ (Eof :: tl) E1) as (c1 & E3 & E4).
    rewrite be32_length in E3. rewrite E3. cbn [app]. rewrite be_get_be32 by exact Hu.
    apply read_full_short_eof. rewrite E4, E2, zlen_app. destruct miss; [congruence|]. rewrite zlen_cons. pose proof (zlen_nonneg miss). lia.
Qed.

(* two segmentations of the same bytes cannot be told apart *)
Lemma read_message_bytes cs1 cs2 tl : Forall is_byte (concat cs1) -> concat cs1 = concat cs2 ->
  exists r s1 s2, ReadPeerMessage (map Chunk cs1 ++ Timeout :: tl) = (r, s1) /\ ReadPeerMessage (map Chunk cs2 ++ Timeout :: tl) = (r, s2) /\
    ((exists c1 c2, s1 = map Chunk c1 ++ Timeout :: tl /\ s2 = map Chunk c2 ++ Timeout :: tl /\ concat c1 = concat c2) \/ s1 = tl /\ s2 = tl).
Proof.
  intros Hb H. unfold ReadPeerMessage, readExactly.
  destruct (zlen (concat cs1) <? 4) eqn:E.
  - rewrite !read_full_short by (rewrite <- ?H; lia). do 3 eexists. split; [reflexivity|]. split; [reflexivity|]. auto.
  - assert (Hx : concat cs1 = sub (concat cs1) 0 4 ++ sub (concat cs1) 4 (zlen (concat cs1))).
    { symmetry. apply sub_split. lia. }
    assert (L : zlen (sub (concat cs1) 0 4) = 4) by (rewrite sub_length; lia).
    set (h := sub (concat cs1) 0 4) in *. set (q := sub (concat cs1) 4 _) in *. clearbody h q.
    destruct (read_full_enough cs1 [] h q (Timeout :: tl) Hx) as (a1 & E1 & F1).
    destruct (read_full_enough cs2 [] h q (Timeout :: tl) (eq_trans (eq_sym H) Hx)) as (a2 & E2 & F2).
    rewrite L in E1, E2. rewrite E1, E2. cbn [app].
    assert (Hn : 0 <= be_get h).
    { rewrite Hx in Hb. apply Forall_app in Hb as [Hb _]. pose proof (be_get_range h Hb). lia. }
    destruct (zlen q <? be_get h) eqn:E3.
    + rewrite !read_full_short by (rewrite ?F1, ?F2; lia). do 3 eexists. split; [reflexivity|]. split; [reflexivity|]. auto.
    + pose proof (sub_split q (be_get h) ltac:(lia)) as Hq.
      assert (L2 : zlen (sub q 0 (be_get h)) = be_get h) by (rewrite sub_length; lia).
      set (u := sub q 0 _) in *. set (v := sub q (be_get h) (zlen q)) in *. clearbody u v.
      destruct (read_full_enough a1 [] u v (Timeout :: tl) (eq_trans F1 (eq_sym Hq))) as (b1 & G1 & K1).
      destruct (read_full_enough a2 [] u v (Timeout :: tl) (eq_trans F2 (eq_sym Hq))) as (b2 & G2 & K2).
      rewrite L2 in G1, G2. rewrite G1, G2. do 3 eexists. split; [reflexivity|]. split; [reflexivity|].
      left. exists b1, b2. repeat split; congruence.
Qed.

Lemma udp_read_all_fails s : forall acc, exists s', udp_read_all acc s = (RErr ETimeout, s').
Proof. induction s as [|[b|] s IH]; intros acc; cbn; eauto. Qed.
