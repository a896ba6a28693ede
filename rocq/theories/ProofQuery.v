(* The text of announce URLs. *)
From Verif Require Import Base ProofBase ModelBencode SpecText ProofText SpecBencode ProofNum ModelUnmarshal SpecUnmarshal ProofUnmarshal ProofUnmarshalMore ProofBencodeMore ModelTracker SpecTracker ProofTracker ProofTracker2 SpecQuery.

Lemma plain_iff c : plain c <-> unreserved c = true.
Proof.
  split.
  - intros H. assert (F : forallb unreserved (str "ABCDEFGHIJKLMNOPQRSTUVWXYZabcdefghijklmnopqrstuvwxyz0123456789-._~") = true) by (vm_compute; reflexivity).
    rewrite forallb_forall in F. now apply F.
  - intros H. unfold plain.
    assert (E : exists n, (n < 256)%nat /\ c = Z.of_nat n).
    { unfold unreserved in H. exists (Z.to_nat c). lia. }
    destruct E as (n & Hn & ->).
    assert (F : forallb (fun n => implb (unreserved (Z.of_nat n)) (existsb (Z.eqb (Z.of_nat n)) (str "ABCDEFGHIJKLMNOPQRSTUVWXYZabcdefghijklmnopqrstuvwxyz0123456789-._~"))) (seq 0 256) = true) by (vm_compute; reflexivity).
    rewrite forallb_forall in F. specialize (F n). rewrite H in F. cbn [implb] in F.
    assert (I : In n (seq 0 256)) by (apply in_seq; lia). apply F in I. apply existsb_exists in I. destruct I as (x & I & E). apply Z.eqb_eq in E. now subst x.
Qed.
Lemma hex_is d : 0 <= d < 16 -> hex d = hex_digit d.
Proof.
  intros H. assert (E : exists n, (n < 16)%nat /\ d = Z.of_nat n) by (exists (Z.to_nat d); lia).
  destruct E as (n & Hn & ->). do 16 (destruct n as [|n]; [reflexivity|]). lia.
Qed.
Lemma spelled_escape c : is_byte c -> spelled c (escape1 c).
Proof.
  unfold is_byte. intros Hc. unfold escape1. destruct (unreserved c) eqn:E; [constructor; now apply plain_iff|].
  destruct (c =? 32) eqn:E2; [apply Z.eqb_eq in E2; subst; constructor|].
  pose proof (Z.mod_pos_bound c 16). assert (0 <= c / 16 < 16) by (split; [apply Z.div_pos; lia|apply Z.div_lt_upper_bound; lia]).
  pose proof (Z.div_mod c 16). rewrite !hex_is by lia.
  replace c with (16 * (c / 16) + c mod 16) at 1 by lia. apply sp_other; try lia.
  replace (16 * (c / 16) + c mod 16) with c by lia. rewrite plain_iff. congruence.
Qed.
Lemma spells_escape s : Forall is_byte s -> spells s (escape s).
Proof. induction 1; [constructor|]. cbn [escape flat_map]. constructor; [now apply spelled_escape|assumption]. Qed.
Lemma spells_encode kvs : kvs <> [] -> Forall byte_pair kvs -> spells_query kvs (encode kvs).
Proof.
  induction kvs as [|[k v] kvs IH]; intros HN HF; [congruence|]. inversion HF as [|? ? [Hk Hv] HF']; subst. cbn [fst snd] in *.
  destruct kvs as [|kv kvs].
  - apply (sq_one k v (escape k) (escape v)); now apply spells_escape.
  - rewrite encode_cons by discriminate. rewrite <- app_assoc. cbn [app].
    apply (sq_more k v (escape k) (escape v) (kv :: kvs) (encode (kv :: kvs))); try (now apply spells_escape). apply IH; [discriminate|assumption].
Qed.
Lemma query_is addr kvs : Forall byte_pair kvs -> ~ In 63 addr -> ~ In 35 addr -> query_of (announce_url addr kvs) = encode kvs.
Proof.
  intros HF H1 H2. unfold query_of, announce_url.
  rewrite (cut_none 35). 2:{ intros Hi. apply in_app_iff in Hi. destruct Hi as [Hi|[Hi|Hi]]; [auto|discriminate|]. revert Hi. apply encode_free; auto; discriminate. }
  cbn [fst]. now rewrite cut_app.
Qed.
Lemma query_spelled addr kvs : kvs <> [] -> Forall byte_pair kvs -> ~ In 63 addr -> ~ In 35 addr ->
  spells_query kvs (query_of (announce_url addr kvs)).
Proof. intros. rewrite query_is by assumption. now apply spells_encode. Qed.

(* there is only one way *)
Lemma spelled_one c w1 : spelled c w1 -> is_byte c -> w1 = escape1 c.
Proof.
  intros H Hc. inversion H as [? P| |h l Hh Hl NP N2]; subst.
  - apply plain_iff in P. unfold escape1. now rewrite P.
  - reflexivity.
  - unfold escape1. destruct (unreserved (16 * h + l)) eqn:E; [exfalso; apply NP; now apply plain_iff|].
    destruct (16 * h + l =? 32) eqn:E2; [lia|].
    assert (D : (16 * h + l) / 16 = h) by (symmetry; apply (Z.div_unique _ _ h l); lia).
    assert (M : (16 * h + l) mod 16 = l) by (symmetry; apply (Z.mod_unique _ _ h l); lia).
    rewrite D, M, !hex_is by lia. reflexivity.
Qed.
Lemma spelled_byte c w : spelled c w -> is_byte c.
Proof.
  intros H. inversion H as [? P| |h l Hh Hl NP N2]; subst; unfold is_byte; try lia.
  apply plain_iff in P. unfold unreserved in P. lia.
Qed.
Lemma spells_one s w : spells s w -> w = escape s /\ Forall is_byte s.
Proof.
  induction 1 as [|c w s ws Hc Hs [-> F]]; [now split|]. pose proof (spelled_byte _ _ Hc). split; [|now constructor].
  cbn [escape flat_map]. now rewrite (spelled_one c w).
Qed.
Lemma spells_query_one kvs q : spells_query kvs q -> q = encode kvs /\ Forall byte_pair kvs.
Proof.
  induction 1 as [k v a b Hk Hv|k v a b kvs q Hk Hv Hq [-> F]]; destruct (spells_one _ _ Hk) as [-> Fk], (spells_one _ _ Hv) as [-> Fv].
  - split; [reflexivity|]. repeat constructor; assumption.
  - split; [|constructor; [split; assumption|assumption]]. rewrite encode_cons by (intros ->; inversion Hq). now rewrite <- app_assoc.
Qed.
Lemma spells_query_unique kvs q1 q2 : spells_query kvs q1 -> spells_query kvs q2 -> q1 = q2.
Proof. intros H1 H2. destruct (spells_query_one _ _ H1) as [-> _], (spells_query_one _ _ H2) as [-> _]. reflexivity. Qed.

(* the characters *)
Lemma encode_chars kvs : Forall byte_pair kvs -> Forall (fun c => plain c \/ In c (str "%+=&")) (encode kvs).
Proof.
  assert (S : forall s, Forall is_byte s -> Forall (fun c => plain c \/ In c (str "%+=&")) (escape s)).
  { intros s F. eapply Forall_impl; [|exact (escape_safe s F)]. cbn beta. intros c [U|[->| ->]]; [left; now apply plain_iff|right..]; vm_compute; auto. }
  induction kvs as [|[k v] kvs IH]; intros HF; [constructor|]. inversion HF as [|? ? [Hk Hv] HF']; subst. cbn [fst snd] in *.
  assert (P : Forall (fun c => plain c \/ In c (str "%+=&")) (escape k ++ 61 :: escape v)).
  { apply Forall_app. split; [auto|]. constructor; [right; vm_compute; auto|auto]. }
  destruct kvs as [|kv kvs]; [exact P|]. rewrite encode_cons by discriminate. apply Forall_app. split; [exact P|].
  constructor; [right; vm_compute; auto|now apply IH].
Qed.
Lemma query_chars addr kvs : Forall byte_pair kvs -> ~ In 63 addr -> ~ In 35 addr ->
  Forall (fun c => plain c \/ In c (str "%+=&")) (query_of (announce_url addr kvs)).
Proof. intros. rewrite query_is by assumption. now apply encode_chars. Qed.

(* RFC 3986 *)
Lemma percent_escape s : Forall is_byte s -> percent_decode (escape s) = Some (plussed s).
Proof.
  induction 1 as [|c s Hc Hs IH]; [reflexivity|]. unfold is_byte in Hc. cbn [escape flat_map]. fold (escape s).
  unfold escape1. destruct (unreserved c) eqn:E1.
  - cbn [app percent_decode]. unfold unreserved in E1. destruct (c =? 37) eqn:?; [lia|]. rewrite IH. cbn [option_map plussed map].
    destruct (c =? 32) eqn:?; [lia|]. reflexivity.
  - destruct (c =? 32) eqn:E2.
    + cbn [app percent_decode Z.eqb Pos.eqb]. rewrite IH. cbn [option_map plussed map]. now rewrite E2.
    + cbn [app percent_decode Z.eqb Pos.eqb]. pose proof (Z.div_mod c 16). pose proof (Z.mod_pos_bound c 16).
      assert (0 <= c / 16 < 16) by (split; [apply Z.div_pos; lia|apply Z.div_lt_upper_bound; lia]).
      assert (U : forall d, 0 <= d < 16 -> unhex (hex d) = Some d).
      { intros d Hd. assert (E : exists n, (n < 16)%nat /\ d = Z.of_nat n) by (exists (Z.to_nat d); lia).
        destruct E as (n & Hn & ->). do 16 (destruct n as [|n]; [reflexivity|]). lia. }
      rewrite !U by lia. rewrite IH. cbn [plussed map]. rewrite E2. do 2 f_equal. lia.
Qed.
Definition plus_pair (kv : bytes * bytes) : bytes * bytes := (plussed (fst kv), plussed (snd kv)).
Lemma percent_pair_ok k v : Forall is_byte k -> Forall is_byte v -> percent_pair (escape k ++ 61 :: escape v) = Some (plussed k, plussed v).
Proof. intros Hk Hv. unfold percent_pair. rewrite cut_app by (apply escape_free; auto; discriminate). now rewrite !percent_escape. Qed.
Lemma percent_encode kvs : kvs <> [] -> Forall byte_pair kvs -> percent_query (encode kvs) = Some (map plus_pair kvs).
Proof.
  unfold percent_query. induction kvs as [|[k v] kvs IH]; intros HN HF; [congruence|].
  inversion HF as [|? ? [Hk Hv] HF']; subst. cbn [fst snd] in *.
  destruct kvs as [|kv kvs].
  - cbn [encode]. rewrite split_none by (apply pair_free; auto; discriminate). cbn [map all_some]. now rewrite percent_pair_ok.
  - rewrite encode_cons, split_app by (first [discriminate|apply pair_free; auto; discriminate]).
    cbn [map all_some]. rewrite percent_pair_ok by assumption. cbn [map] in IH. rewrite IH by (auto; discriminate). reflexivity.
Qed.
Lemma percent_url addr kvs : kvs <> [] -> Forall byte_pair kvs -> ~ In 63 addr -> ~ In 35 addr ->
  percent_query (query_of (announce_url addr kvs)) = Some (map plus_pair kvs).
Proof. intros. rewrite query_is by assumption. now apply percent_encode. Qed.
Lemma plussed_same s : plussed s = s <-> ~ In 32 s.
Proof.
  unfold plussed. induction s as [|c s IH]; [cbn; tauto|]. cbn [map In]. destruct (c =? 32) eqn:E.
  - apply Z.eqb_eq in E. subst c. split; [intros H; injection H; intros; discriminate|intros H; exfalso; apply H; auto].
  - apply Z.eqb_neq in E. split.
    + intros H [?|I]; [congruence|]. injection H as H. revert I. now apply IH.
    + intros H. f_equal. apply IH. intros I. apply H. now right.
Qed.

(* ---------- the announce ---------- *)
Lemma escape_digits n : 0 <= n -> escape (utoa n) = utoa n.
Proof.
  intros H. destruct (utoa_spec n H) as (A & _ & _). unfold digits in A. induction A as [|c s Hc Hs IH]; [reflexivity|].
  cbn [escape flat_map]. fold (escape s). rewrite IH. unfold escape1. replace (unreserved c) with true; [reflexivity|].
  unfold digit in Hc. unfold unreserved. lia.
Qed.
Lemma announce_text addr clientId trackerId event hash d : ~ In 63 addr -> ~ In 35 addr ->
  Forall is_byte clientId -> Forall is_byte trackerId -> Forall is_byte event -> Forall is_byte hash ->
  0 <= a_downloaded d -> 0 <= a_uploaded d -> 0 <= a_left d -> 0 <= a_port d ->
  exists h i t e down up left port, spells hash h /\ spells clientId i /\ spells trackerId t /\ spells event e /\
    decimal down (a_downloaded d) /\ decimal up (a_uploaded d) /\ decimal left (a_left d) /\ decimal port (a_port d) /\
    announce_url addr (buildQuery clientId trackerId event hash d) =
      addr ++ str "?compact=1&downloaded=" ++ down ++ str "&event=" ++ e ++ str "&info_hash=" ++ h ++ str "&left=" ++ left ++
      str "&no_peer_id=1&numwant=50&peer_id=" ++ i ++ str "&port=" ++ port ++ str "&trackerid=" ++ t ++ str "&uploaded=" ++ up.
Proof.
  intros Ha1 Ha2 H1 H2 He H3 H4 H5 H6 H7.
  exists (escape hash), (escape clientId), (escape trackerId), (escape event), (utoa (a_downloaded d)), (utoa (a_uploaded d)), (utoa (a_left d)), (utoa (a_port d)).
  do 4 (split; [now apply spells_escape|]). do 4 (split; [now apply utoa_decimal|]).
  unfold announce_url. f_equal. unfold buildQuery, itoa. replace (a_port d <? 0) with false by lia.
  cbn [encode]. rewrite !escape_digits by assumption.
  remember (escape hash) as h. remember (escape clientId) as i. remember (escape trackerId) as t. remember (escape event) as e.
  remember (utoa (a_downloaded d)) as n1. remember (utoa (a_uploaded d)) as n2. remember (utoa (a_left d)) as n3. remember (utoa (a_port d)) as n4.
  clear. reflexivity.
Qed.
Lemma percent_hash addr clientId trackerId event hash d : ~ In 63 addr -> ~ In 35 addr ->
  Forall is_byte clientId -> Forall is_byte trackerId -> Forall is_byte event -> Forall is_byte hash ->
  0 <= a_downloaded d -> 0 <= a_uploaded d -> 0 <= a_left d -> 0 <= a_port d ->
  exists q, percent_query (query_of (announce_url addr (buildQuery clientId trackerId event hash d))) = Some q /\
    lookup (str "info_hash") q = Some (plussed hash) /\ lookup (str "peer_id") q = Some (plussed clientId).
Proof.
  intros Ha1 Ha2 H1 H2 He H3 H4 H5 H6 H7. eexists. split; [apply percent_url; auto; [discriminate|now apply build_query_bytes]|].
  unfold buildQuery. split; reflexivity.
Qed.
