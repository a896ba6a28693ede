(* Handshake, protocol state, requests of one peer, termination: C36, C37, C41-C43. *)
From Verif Require Import Base ProofBase ModelBitset ModelMsg ModelTorrent ModelConn ModelPeer ModelSystem
  SpecPeer ProofTorrent ProofSystem ProofRequests ProofProgress ProofConn ProofMsg.

(* ---------- C36 ---------- *)
Lemma handshake_valid hs hash pid : isHandshakeValid hs hash pid = true <->
  exists rest reserved id, hs = 19 :: str "BitTorrent protocol" ++ reserved ++ hash ++ id ++ rest /\
    length reserved = 8%nat /\ length hash = 20%nat /\ length id = 20%nat.
Proof.
  unfold isHandshakeValid. split.
  - destruct (zlen hs <? 68) eqn:L; [discriminate|]. destruct hs as [|c hs]; [discriminate L|].
    cbn [nthZ]. unfold nthZ. cbn [Z.ltb Z.compare Z.to_nat nth_error].
    rewrite !andb_true_iff. intros [[H1 H2] H3]. apply Z.eqb_eq in H1. apply beq_eq in H2, H3. subst c.
    unfold sub in H2, H3. rewrite zlen_cons in L. unfold zlen in L.
    change (firstn 19 hs = bittorrentProto) in H2. change (firstn 20 (skipn 27 hs) = hash) in H3.
    exists (skipn 67 hs), (firstn 8 (skipn 19 hs)), (firstn 20 (skipn 47 hs)).
    assert (E : hs = firstn 19 hs ++ firstn 8 (skipn 19 hs) ++ firstn 20 (skipn 27 hs) ++ firstn 20 (skipn 47 hs) ++ skipn 67 hs).
    { assert (SS : forall a b, skipn a (skipn b hs) = skipn (b + a) hs).
      { clear. intros a b. revert hs. induction b as [|b IH]; intros hs; [reflexivity|]. destruct hs; cbn; [apply skipn_nil|apply IH]. }
      rewrite <- (firstn_skipn 19 hs) at 1. f_equal.
      rewrite <- (firstn_skipn 8 (skipn 19 hs)) at 1. f_equal. rewrite SS. cbn [Nat.add].
      rewrite <- (firstn_skipn 20 (skipn 27 hs)) at 1. f_equal. rewrite SS. cbn [Nat.add].
      rewrite <- (firstn_skipn 20 (skipn 47 hs)) at 1. f_equal. rewrite SS. reflexivity. }
    split; [|rewrite <- H3; rewrite !firstn_length, !skipn_length; lia].
    f_equal. rewrite E at 1. rewrite H2. unfold bittorrentProto. f_equal. f_equal. now rewrite H3.
  - intros (rest & res & id & -> & L1 & L2 & L3).
    assert (L : zlen (19 :: str "BitTorrent protocol" ++ res ++ hash ++ id ++ rest) <? 68 = false).
    { unfold zlen. cbn [length]. rewrite !app_length, L1, L2, L3. cbn. lia. }
    rewrite L. cbn [nthZ]. unfold nthZ. cbn [Z.ltb Z.compare Z.to_nat nth_error]. rewrite Z.eqb_refl. cbn [andb].
    rewrite andb_true_iff. unfold sub. split; apply beq_eq.
    + reflexivity.
    + change (Z.to_nat (48 - 28)) with 20%nat. change (Z.to_nat 28) with 28%nat.
      do 8 (destruct res as [|? res]; [discriminate L1|]). destruct res; [|discriminate L1].
      change (firstn 20 (hash ++ id ++ rest) = hash). rewrite <- L2, firstn_app, Nat.sub_diag, firstn_all, firstn_O. apply app_nil_r.
Qed.
Lemma own_handshake id hash hash' pid : length hash = 20%nat -> length id = 20%nat ->
  length (createHandshake id hash) = 68%nat /\
  (isHandshakeValid (createHandshake id hash) hash' pid = true <-> hash' = hash).
Proof.
  intros L1 L2. split.
  - unfold createHandshake. rewrite !app_length, repeat_length, L1, L2. reflexivity.
  - rewrite handshake_valid. split.
    + intros (rest & res & id' & E & A & B & C). unfold createHandshake in E.
      change ([zlen bittorrentProto] ++ bittorrentProto ++ repeat 0 8 ++ hash ++ id) with (19 :: str "BitTorrent protocol" ++ repeat 0 8 ++ hash ++ id) in E.
      apply (f_equal (fun l => skipn 28 l)) in E.
      do 8 (destruct res as [|? res]; [discriminate A|]). destruct res; [|discriminate A].
      assert (E1 : hash ++ id = hash' ++ id' ++ rest) by exact E.
      apply (f_equal (firstn 20)) in E1. rewrite <- L1 in E1 at 1. rewrite <- B in E1.
      rewrite !firstn_app, !Nat.sub_diag, !firstn_all, !firstn_O, !app_nil_r in E1. now symmetry.
    + intros ->. exists [], (repeat 0 8), id. rewrite app_nil_r. auto.
Qed.
Lemma client_id random : length (createClientId random) = 20%nat /\ firstn 8 (createClientId random) = str "-GO0100-".
Proof.
  unfold createClientId. split; [|reflexivity]. rewrite app_length, firstn_length, app_length, repeat_length.
  change (length clientIdPrefix) with 8%nat. lia.
Qed.

Lemma announce_ok dial write cs tl id hash : (forall b tl', tl <> Chunk b :: tl') ->
  (snd (Announce dial write (map Chunk cs ++ tl) id hash) = AOk <->
   dial = true /\ write = true /\ exists res pid rest,
     concat cs = 19 :: str "BitTorrent protocol" ++ res ++ hash ++ pid ++ rest /\
     length res = 8%nat /\ length hash = 20%nat /\ length pid = 20%nat).
Proof.
  intros Htl. unfold Announce. destruct dial, write; cbn [negb snd];
    try (split; [discriminate|intros (? & ? & _); discriminate]).
  unfold ReadPeerHandshake, readExactly.
  destruct (Z.lt_ge_cases (zlen (concat cs)) 68) as [L|L].
  - assert (E : exists e s, read_full [] 68 (map Chunk cs ++ tl) = (RErr e, s)).
    { destruct tl as [|[b| |] tl].
      - rewrite app_nil_r, read_full_short_end by exact L. eauto.
      - now destruct (Htl b tl).
      - rewrite read_full_short by exact L. eauto.
      - destruct (read_full_short_eof cs [] 68 tl L) as [e ->]. eauto. }
    destruct E as (e & s & ->). cbn. split; [discriminate|].
    intros (_ & _ & res & pid & rest & E & A & B & C). rewrite E in L. unfold zlen in L. cbn [length] in L.
    rewrite !app_length, A, B, C in L. change (length (str "BitTorrent protocol")) with 19%nat in L. lia.
  - assert (E : concat cs = firstn 68 (concat cs) ++ skipn 68 (concat cs)) by now rewrite firstn_skipn.
    destruct (read_full_enough cs [] _ _ tl E) as (cs' & R & _).
    assert (L' : zlen (firstn 68 (concat cs)) = 68) by (unfold zlen in *; rewrite firstn_length; lia).
    rewrite L' in R. rewrite R. cbn [fst app].
    assert (V : isHandshakeValid (firstn 68 (concat cs)) hash id = true <-> exists res pid rest,
      concat cs = 19 :: str "BitTorrent protocol" ++ res ++ hash ++ pid ++ rest /\
     length res = 8%nat /\ length hash = 20%nat /\ length pid = 20%nat).
    { rewrite handshake_valid. split.
      - intros (rest & res & pid & V & A & B & C). exists res, pid, (rest ++ skipn 68 (concat cs)).
        split; [|auto]. etransitivity; [exact E|]. rewrite V. cbn [app]. now rewrite <- !app_assoc.
      - intros (res & pid & rest & V & A & B & C). exists [], res, pid. split; [|auto].
        rewrite V, app_nil_r.
        replace (19 :: str "BitTorrent protocol" ++ res ++ hash ++ pid ++ rest) with ((19 :: str "BitTorrent protocol" ++ res ++ hash ++ pid) ++ rest)
          by (cbn [app]; now rewrite <- !app_assoc).
        assert (N : length (19 :: str "BitTorrent protocol" ++ res ++ hash ++ pid) = 68%nat).
        { cbn [length]. rewrite !app_length, A, B, C. reflexivity. }
        rewrite <- N, firstn_app, Nat.sub_diag, firstn_all, firstn_O. apply app_nil_r. }
    destruct (isHandshakeValid (firstn 68 (concat cs)) hash id); cbn.
    + split; [|reflexivity]. intros _. split; [reflexivity|]. split; [reflexivity|]. now apply V.
    + split; [discriminate|]. intros (_ & _ & H). apply V in H. discriminate.
Qed.

(* ---------- C37 ---------- *)
Lemma last_switch_quiet on off es es' init now : (forall b, ~ In (EReadOk b) es') ->
  last_switch on off es init now -> last_switch on off (es ++ es') init now.
Proof.
  intros Hq [[-> H]|(e1 & b & e2 & -> & H & H2)].
  - left. split; [reflexivity|]. intros b Hb. apply in_app_iff in Hb. destruct Hb as [Hb|Hb]; [auto|now destruct (Hq b)].
  - right. exists e1, b, (e2 ++ es'). split; [now rewrite <- app_assoc|]. split; [exact H|].
    intros b' Hb. apply in_app_iff in Hb. destruct Hb as [Hb|Hb]; [auto|now destruct (Hq b')].
Qed.
Definition switch (on off : Z) (b : bytes) (old : bool) : bool :=
  match b with [] => old | t :: _ => if t =? on then true else if t =? off then false else old end.
Lemma last_switch_read on off es b init now : last_switch on off es init now ->
  last_switch on off (es ++ [EReadOk b]) init (switch on off b now).
Proof.
  intros H. unfold switch.
  assert (N : forall t r, t <> on -> t <> off -> ~ has_type on (t :: r) /\ ~ has_type off (t :: r)).
  { intros t r H1 H2. split; intros [x Hx]; inversion Hx; contradiction. }
  assert (K : (~ has_type on b /\ ~ has_type off b) -> last_switch on off (es ++ [EReadOk b]) init now).
  { intros Hb. destruct H as [[-> H]|(e1 & b1 & e2 & -> & H & H2)].
    - left. split; [reflexivity|]. intros b' Hi. apply in_app_iff in Hi. destruct Hi as [Hi|[Hi|[]]]; [auto|]. inversion Hi; subst. exact Hb.
    - right. exists e1, b1, (e2 ++ [EReadOk b]). split; [now rewrite <- app_assoc|]. split; [exact H|].
      intros b' Hi. apply in_app_iff in Hi. destruct Hi as [Hi|[Hi|[]]]; [auto|]. inversion Hi; subst. exact Hb. }
  destruct b as [|t r].
  - apply K. split; intros [x Hx]; discriminate.
  - destruct (Z.eqb_spec t on) as [->|Ho].
    + right. exists es, (on :: r), []. split; [reflexivity|]. split; [left; split; [eexists; reflexivity|reflexivity]|intros ? []].
    + destruct (Z.eqb_spec t off) as [->|Hf].
      * right. exists es, (off :: r), []. split; [reflexivity|]. split; [right; split; [eexists; reflexivity|reflexivity]|intros ? []].
      * apply K. auto.
Qed.

Lemma handle_body_status sha1 t u r b :
  s_choked (cl_status (r_peer (handle_body sha1 t u r b))) = switch ChokeT UnchokeT b (s_choked (cl_status (r_peer r))) /\
  s_interested (pr_status (r_peer (handle_body sha1 t u r b))) = switch InterestedT NotInterestedT b (s_interested (pr_status (r_peer r))) /\
  s_choked (pr_status (r_peer (handle_body sha1 t u r b))) = s_choked (pr_status (r_peer r)).
Proof.
  unfold handle_body. destruct b as [|ty pl].
  - cbn. auto.
  - destruct (Z.eq_dec ty 4) as [->|N4]; [|destruct (Z.eq_dec ty 6) as [->|N6]; [|destruct (Z.eq_dec ty 7) as [->|N7]; [|destruct (Z.eq_dec ty 8) as [->|N8]]]].
    1-4: cbn [switch Z.eqb Pos.eqb ChokeT UnchokeT InterestedT NotInterestedT];
      destruct (NewPeerMessage _) as [m| | |] eqn:E; cbn; auto; destruct (new_basic _ _ _ E) as (_ & Ht & _);
      unfold handlePeerMessage, handlePieceMessage; rewrite Ht; cbn; auto.
    + destruct (data_of m); cbn; auto. destruct (CheckPiece _ _ _ _) as [[]| | |]; cbn; auto.
    + destruct (decode_other ty pl N4 N6 N7 N8) as (m & -> & Ht & _ & _ & _ & _ & _ & HB).
      unfold handlePeerMessage, switch. rewrite Ht.
      unfold KeepaliveT, BitfieldT, HaveT, InterestedT, NotInterestedT, ChokeT, UnchokeT, PieceT.
      destruct (Z.eqb_spec ty 99) as [->|]; [cbn; auto|].
      destruct (Z.eqb_spec ty 5) as [->|]; [rewrite HB by reflexivity; cbn; auto|].
      destruct (Z.eqb_spec ty 4) as [->|]; [contradiction|].
      destruct (Z.eqb_spec ty 2) as [->|]; [cbn; auto|].
      destruct (Z.eqb_spec ty 3) as [->|]; [cbn; auto|].
      destruct (Z.eqb_spec ty 0) as [->|]; [cbn; auto|].
      destruct (Z.eqb_spec ty 1) as [->|]; [cbn; auto|].
      destruct (Z.eqb_spec ty 7) as [->|]; [contradiction|]. cbn. auto.
Qed.

Definition follows (r : rstate) (es : list event) : Prop :=
  last_switch ChokeT UnchokeT es true (s_choked (cl_status (r_peer r))) /\
  last_switch InterestedT NotInterestedT es false (s_interested (pr_status (r_peer r))) /\
  s_choked (pr_status (r_peer r)) = true.
Lemma follows_step sha1 i s r s' r' es es' : follows r es -> pstep sha1 i s r = Some (s', r', es') -> follows r' (es ++ es').
Proof.
  intros (H1 & H2 & H3) HS. unfold follows.
  step_cases HS;
    try (match goal with |- context [handle_body sha1 ?t ?u r ?b] =>
      destruct (handle_body_status sha1 t u r b) as (A & B & C); rewrite A, B, C;
      split; [apply last_switch_read; exact H1|split; [apply last_switch_read; exact H2|exact H3]] end);
    (split; [apply last_switch_quiet|split; [apply last_switch_quiet|]]);
    try (intros b' Hb; cbn in Hb; repeat (destruct Hb as [Hb|Hb]); try contradiction; discriminate);
    try exact H1; try exact H2; try exact H3; cbn; rewrite ?app_nil_r; auto;
    try (match goal with H : s_choked _ = _ |- _ => rewrite H; exact H1 end);
    match goal with H : createPieceMessage _ = _ |- _ => inversion H; subst; auto end.
Qed.
Lemma follows_run sha1 w0 l w tr k r : run sha1 l (start w0) = (w, tr) -> nth_error (wo_peers w) k = Some r ->
  follows r (events_of k tr).
Proof.
  intros HR Hk. eapply (local_inv sha1 (fun _ => True) follows); [| |clear; instantiate (1 := l)| |]; eauto.
  - intros b t g _. unfold follows. split; [|split]; [left; split; [reflexivity|intros ? []]..|reflexivity].
  - intros; eapply follows_step; eauto.
  - apply Forall_forall. intros [] _; cbn; auto.
Qed.

(* ---------- the pieces a peer has ---------- *)
Lemma sub_in {A} (l : list A) a b x : In x (sub l a b) -> In x l.
Proof.
  unfold sub. intros H. rewrite <- (firstn_skipn (Z.to_nat a) l). apply in_app_iff. right.
  rewrite <- (firstn_skipn (Z.to_nat (b - a)) (skipn _ l)). apply in_app_iff. now left.
Qed.
Lemma known_snoc es e i : known (es ++ [e]) i <->
  advertises e i \/ known es i /\ (forall b, e = EReadOk b -> ~ has_type 5 b).
Proof.
  split.
  - intros (e1 & x & e2 & E & A & B). destruct e2 as [|y e2 _] using rev_ind.
    + apply app_inj_tail in E. destruct E as [-> ->]. auto.
    + right. rewrite app_comm_cons, app_assoc in E. apply app_inj_tail in E. destruct E as [-> ->].
      split.
      * exists e1, x, e2. split; [reflexivity|]. split; [exact A|]. intros b Hb. apply B. apply in_app_iff. auto.
      * intros b ->. apply B. apply in_app_iff. right. now left.
  - intros [A|[(e1 & x & e2 & -> & A & B) C]].
    + exists es, e, []. split; [reflexivity|]. split; [exact A|intros ? []].
    + exists e1, x, (e2 ++ [e]). split; [now rewrite <- app_assoc|]. split; [exact A|].
      intros b Hb. apply in_app_iff in Hb. destruct Hb as [Hb|[Hb|[]]]; auto.
Qed.
Lemma known_nil i : ~ known [] i.
Proof. intros (e1 & x & e2 & E & _). destruct e1; discriminate. Qed.

Lemma bs_make_false n i : bs_test (bs_make n) i = false.
Proof.
  destruct (Z.lt_ge_cases i 0) as [H|H]; [unfold bs_test, nthZ; now replace (i <? 0) with true by lia|].
  rewrite <- (Z2Nat.id i) by lia. rewrite bs_test_nth.
  unfold bs_make, bs_new. repeat match goal with |- context [if ?x then _ else _] => destruct x end;
    try (destruct (Z.to_nat i); reflexivity); rewrite nth_repeat; reflexivity.
Qed.

Definition knows (r : rstate) (es : list event) : Prop :=
  (forall b, In (EReadOk b) es -> Forall is_byte b) ->
  (forall i, 0 <= i -> (bs_test (pr_bits (r_peer r)) i = true <-> known es i)) /\
  (forall u m, r_pc r = PPut u m -> 0 <= m_index m).

Lemma handle_body_bits sha1 t u r b : Forall is_byte b ->
  (forall i, 0 <= i -> (bs_test (pr_bits (r_peer (handle_body sha1 t u r b))) i = true <->
     advertises (EReadOk b) i \/ bs_test (pr_bits (r_peer r)) i = true /\ ~ has_type 5 b)) /\
  (forall u' m, r_pc (handle_body sha1 t u r b) = PPut u' m -> 0 <= m_index m).
Proof.
  intros Hb. unfold handle_body. destruct b as [|ty pl].
  - cbn. split.
    + intros i _. split; [intro; right; split; [assumption|intros [? ?]; discriminate]|intros [[]|[? _]]; assumption].
    + destruct u; discriminate.
  - assert (HT : has_type 5 (ty :: pl) <-> ty = 5) by (split; [intros [? E]; now inversion E|intros ->; eexists; reflexivity]).
    inversion Hb as [|? ? Hty Hpl]; subst.
    destruct (Z.eq_dec ty 4) as [->|N4]; [|destruct (Z.eq_dec ty 7) as [->|N7]; [|destruct (Z.eq_dec ty 5) as [->|N5]]].
    + cbn [advertises]. unfold NewPeerMessage. cbn [Z.eqb Pos.eqb HaveT].
      destruct (Z.lt_ge_cases (zlen pl) 4) as [L|L].
      * rewrite uint32_at_panic by lia. cbn [bind]. split; [|discriminate]. intros i _. cbn [r_peer at_pc].
        rewrite HT. split; [intro; right; split; [assumption|lia]|].
        intros [[[_ [? _]]|[? _]]|[? _]]; [lia|lia|assumption].
      * rewrite uint32_at_ok by lia. change (0 + 4) with 4. cbn [bind handlePeerMessage m_type Z.eqb Pos.eqb KeepaliveT BitfieldT HaveT with_peer r_peer r_pc set_bits pr_bits m_index].
        assert (HS : 0 <= be_get (sub pl 0 4)).
        { assert (F : Forall is_byte (sub pl 0 4)) by (apply Forall_forall; intros x Hx; eapply Forall_forall; [exact Hpl|]; eapply sub_in; exact Hx).
          pose proof (be_get_range _ F). lia. }
        split; [|destruct u; discriminate]. intros i Hi. rewrite bs_test_set by lia. rewrite orb_true_iff, Z.eqb_eq, HT.
        split.
        -- intros [?|?]; [left; left; auto|]. right. split; [assumption|lia].
        -- intros [[[_ [_ ?]]|[? _]]|[? _]]; auto; lia.
    + assert (K : forall i, bs_test (pr_bits (r_peer r)) i = true <-> advertises (EReadOk (7 :: pl)) i \/ bs_test (pr_bits (r_peer r)) i = true /\ ~ has_type 5 (7 :: pl)).
      { intros i. rewrite HT. cbn [advertises]. split; [intro; right; split; [assumption|lia]|intros [[[? _]|[? _]]|[? _]]; [lia|lia|assumption]]. }
      destruct (NewPeerMessage (7 :: pl)) as [m| | |] eqn:E; [|split; [intros i _; apply K|discriminate]..].
      destruct (new_basic _ _ _ E) as (_ & Ht & _). unfold handlePeerMessage. rewrite Ht. cbn [Z.eqb Pos.eqb KeepaliveT BitfieldT HaveT InterestedT NotInterestedT ChokeT UnchokeT PieceT].
      unfold handlePieceMessage. destruct (data_of m) as [d| | |]; [|split; [intros i _; apply K|discriminate]..].
      unfold CheckPiece. destruct (nthZ (t_pieces t) (m_index m)) as [pp|] eqn:En; [|split; [intros i _; apply K|discriminate]].
      destruct (beq _ _); (split; [intros i _; apply K|]); intros u' m' Hm; cbn in Hm.
      * inversion Hm; subst. unfold nthZ in En. destruct (Z.ltb_spec (m_index m') 0); [discriminate|assumption].
      * destruct u; discriminate.
    + destruct (decode_other 5 pl) as (m & -> & Ht & _ & _ & _ & _ & _ & HB); [lia..|].
      unfold handlePeerMessage. rewrite Ht, HB by reflexivity. cbn [Z.eqb Pos.eqb KeepaliveT BitfieldT with_peer r_peer set_bits pr_bits r_pc].
      split; [|destruct u; discriminate]. intros i _. rewrite HT. cbn [advertises]. split; [auto|]. intros [[[? _]|[_ ?]]|[_ ?]]; [lia|assumption|lia].
    + assert (K : forall i, bs_test (pr_bits (r_peer r)) i = true <-> advertises (EReadOk (ty :: pl)) i \/ bs_test (pr_bits (r_peer r)) i = true /\ ~ has_type 5 (ty :: pl)).
      { intros i. rewrite HT. cbn [advertises]. split; [intro; right; split; [assumption|lia]|intros [[[? _]|[? _]]|[? _]]; [lia|lia|assumption]]. }
      destruct (NewPeerMessage (ty :: pl)) as [m| | |] eqn:E; [|split; [intros i _; apply K|discriminate]..].
      destruct (new_basic _ _ _ E) as (_ & Ht & _). unfold handlePeerMessage. rewrite Ht.
      unfold BitfieldT, HaveT, PieceT.
      replace (ty =? 5) with false by lia. replace (ty =? 4) with false by lia. replace (ty =? 7) with false by lia.
      repeat match goal with |- context [if ?x =? ?y then _ else _] => destruct (x =? y) end;
        (split; [intros i _; apply K|destruct u; discriminate]).
Qed.
Lemma knows_step sha1 i s r s' r' es es' : knows r es -> pstep sha1 i s r = Some (s', r', es') -> knows r' (es ++ es').
Proof.
  intros HK HS HB.
  destruct HK as [H1 H2]; [intros b Hb; apply HB, in_app_iff; auto|].
  assert (Q : forall l, (forall e, In e l -> match e with EReadOk _ | EPut _ => False | _ => True end) ->
    forall i, known (es ++ l) i <-> known es i).
  { clear. intros l. induction l as [|e l IH] using rev_ind; intros Hl j; [now rewrite app_nil_r|].
    rewrite app_assoc, known_snoc.
    assert (He := Hl e ltac:(apply in_app_iff; right; now left)).
    specialize (IH (fun x Hx => Hl x (proj2 (in_app_iff _ _ _) (or_introl Hx))) j).
    rewrite IH. destruct e; cbn in *; try contradiction; (split; [intros [[]|[? _]]; assumption|intro; right; split; [assumption|discriminate]]). }
  step_cases HS;
    try (match goal with |- context [handle_body sha1 ?t ?u r ?b] =>
      destruct (handle_body_bits sha1 t u r b) as [A B]; [apply HB, in_app_iff; right; now left|];
      split; [|exact B]; intros j Hj; rewrite A, known_snoc, H1 by exact Hj;
      split; (intros [?|[? ?]]; [left; assumption|right; split; [assumption|]]); [intros b' Hb'; inversion Hb'; subst; assumption|auto] end);
    try (split; [intros j Hj; rewrite Q by (intros e He; cbn in He; repeat (destruct He as [He|He]); try contradiction; subst e; exact I); apply H1; exact Hj|
      cbn; try discriminate; try exact H2; repeat match goal with |- context [if ?x then _ else _] => destruct x end; discriminate]).
  all: try match goal with H : createPieceMessage _ = _ |- _ => inversion H; subst; clear H end.
  all: try (split; [intros j Hj; rewrite Q by (intros e He; cbn in He; repeat (destruct He as [He|He]); try contradiction; subst e; exact I); apply H1; exact Hj| cbn; discriminate]).
  all: specialize (H2 _ _ eq_refl); split; [|discriminate]; intros j Hj; rewrite known_snoc; cbn [with_peer r_peer after_put set_bits pr_bits advertises];
    rewrite bs_test_set by assumption; rewrite orb_true_iff, Z.eqb_eq, H1 by exact Hj;
    split; [intros [?|?]; [left; auto|right; split; [assumption|discriminate]]|intros [?|[? _]]; auto].
Qed.
Lemma knows_run sha1 w0 l w tr k r : run sha1 l (start w0) = (w, tr) -> nth_error (wo_peers w) k = Some r ->
  (forall b, In (EReadOk b) (events_of k tr) -> Forall is_byte b) ->
  forall i, 0 <= i -> (bs_test (pr_bits (r_peer r)) i = true <-> known (events_of k tr) i).
Proof.
  intros HR Hk HB. apply (fun H => proj1 ((H : knows r (events_of k tr)) HB)).
  eapply (local_inv sha1 (fun _ => True) knows); [| |clear; instantiate (1 := l)| |]; eauto.
  - intros b t g _ _. split; [|discriminate]. intros i _. cbn. unfold EmptyBitset. rewrite bs_make_false.
    split; [discriminate|intro H; now apply known_nil in H].
  - intros; eapply knows_step; eauto.
  - apply Forall_forall. intros [] _; cbn; auto.
Qed.
