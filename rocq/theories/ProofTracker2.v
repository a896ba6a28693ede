(* Proofs about the replies of HTTP trackers.                                  *)
From Verif Require Import Base ProofBase ModelBencode SpecText ProofText SpecBencode ModelUnmarshal SpecUnmarshal ProofNum ProofUnmarshal ProofUnmarshalMore
  ProofBencodeMore ModelMsg ModelConn ModelTracker SpecTracker ProofTracker.

Lemma dec_loop_spec s : forall n0 n, 0 <= n0 < 2 ^ 16 ->
  (dec_loop s n0 = Some n <-> Forall (fun c => 48 <= c <= 57) s /\ n = fold_left (fun a c => a * 10 + (c - 48)) s n0 /\ n < 65536).
Proof.
  assert (G : forall s a b, 0 <= a <= b -> Forall (fun c => 48 <= c <= 57) s ->
     a <= fold_left (fun a c => a * 10 + (c - 48)) s b).
  { clear. induction s as [|c s IH]; intros a b H HF; cbn; [lia|]. inversion HF; subst. apply IH; [lia|assumption]. }
  induction s as [|c s IH]; intros n0 n H; cbn [dec_loop fold_left].
  - change (2 ^ 16) with 65536 in H. split; [intros E; inversion E; subst; repeat split; [constructor|lia]|intros (_ & -> & _); reflexivity].
  - destruct ((48 <=? c) && (c <=? 57)) eqn:Ec.
    + destruct (n0 * 10 + (c - 48) <? 2 ^ 16) eqn:E1.
      * rewrite IH by lia. split; intros (A & B & C); (split; [|split; [exact B|exact C]]).
        -- constructor; [lia|exact A].
        -- now inversion A.
      * split; [discriminate|]. intros (A & B & C). inversion A; subst.
        pose proof (G s (n0 * 10 + (c - 48)) (n0 * 10 + (c - 48)) ltac:(lia) ltac:(assumption)). lia.
    + split; [discriminate|]. intros (A & _). inversion A; subst. lia.
Qed.
Lemma parse_port_spec s n : ParsePort s = Some n <-> decimal s n /\ n < 65536.
Proof.
  unfold ParsePort, decimal. destruct s as [|c s]; [split; [discriminate|intros ((A & _) & _); congruence]|].
  rewrite dec_loop_spec by (cbn; lia). split; intros H; [repeat split; try apply H; discriminate|]. split; [apply H|]. split; apply H.
Qed.
Lemma decimal_fun s n m : decimal s n -> decimal s m -> n = m.
Proof. intros (_ & _ & ->) (_ & _ & ->). reflexivity. Qed.
Lemma bencode_entry_spec parse_ip ip port a : bencode_entry parse_ip ip port = a <->
  (exists x n, parse_ip ip = Some x /\ decimal port n /\ n < 65536 /\ a = Some (x, n)) \/
  ((parse_ip ip = None \/ ~ exists n, decimal port n /\ n < 65536) /\ a = None).
Proof.
  unfold bencode_entry. destruct (parse_ip ip) as [x|] eqn:Ei.
  - destruct (ParsePort port) as [n|] eqn:Ep.
    + apply parse_port_spec in Ep. split.
      * intros <-. left. exists x, n. tauto.
      * intros [(x' & n' & E & D & L & ->)|([E|E] & ->)]; [|discriminate|].
        -- inversion E; subst. now rewrite (decimal_fun _ _ _ D (proj1 Ep)).
        -- exfalso. apply E. eauto.
    + split.
      * intros <-. right. split; [|reflexivity]. right. intros (n & D). apply parse_port_spec in D. congruence.
      * intros [(x' & n' & E & D & L & ->)|(_ & ->)]; [|reflexivity]. assert (ParsePort port = Some n') by (apply parse_port_spec; auto). congruence.
  - split; [intros <-; right; auto|]. intros [(x & n & E & _)|(_ & ->)]; [discriminate|reflexivity].
Qed.

Lemma tag_of tag key opt : tag_means tag key opt -> key = tag_name tag.
Proof. intros H. now apply tag_means_iff in H. Qed.
Lemma opt_of tag key opt : tag_means tag key opt -> opt = tag_optional tag.
Proof. intros H. now apply tag_means_iff in H. Qed.

Lemma peer_conv v g : conv AnnouncePeer_ty (zero AnnouncePeer_ty) v g <->
  exists m ip port, is_dict v m /\ lookup (str "ip") m = Some ip /\ ip <> BNil /\ lookup (str "port") m = Some port /\ port <> BNil /\
    g = VStruct [VString (text ip); VString (text port)].
Proof.
  split.
  - intros H. inversion H as [| | | | |fs olds v0 m news Hd Hf| | | |]; subst. clear H.
    inversion Hf as [|? ? ? ? ? ? ? ? [X|X]|? ? ? ? ? ? ? k1 _ T _ _|? tag1 ? ? ? ? ? k1 o1 ip g1 _ T1 L1 N1 C1 Hf1]; subst; try discriminate.
    { apply opt_of in T. discriminate T. }
    inversion Hf1 as [|? ? ? ? ? ? ? ? [X|X]|? ? ? ? ? ? ? k2 _ T _ _|? tag2 ? ? ? ? ? k2 o2 port g2 _ T2 L2 N2 C2 Hf2]; subst; try discriminate.
    { apply opt_of in T. discriminate T. }
    inversion Hf2; subst. apply tag_of in T1. apply tag_of in T2. subst k1 k2. inversion C1; subst. inversion C2; subst.
    exists m, ip, port. repeat split; auto.
  - intros (m & ip & port & Hd & L1 & N1 & L2 & N2 & ->). apply cv_struct with (m := m); [exact Hd|].
    eapply cf_present with (key := str "ip") (opt := false); [discriminate|apply tag_means_iff; split; reflexivity|exact L1|exact N1|now constructor|].
    eapply cf_present with (key := str "port") (opt := false); [discriminate|apply tag_means_iff; split; reflexivity|exact L2|exact N2|now constructor|].
    constructor.
Qed.
Lemma peers_conv parse_ip vs : forall l, Forall2 (entry_of parse_ip) vs l <-> exists gs, conv_list AnnouncePeer_ty vs gs /\ parseBencodePeers parse_ip gs = l.
Proof.
  induction vs as [|v vs IH]; intros l.
  - split; [intros H; inversion H; exists []; split; [constructor|reflexivity]|].
    intros (gs & H & <-). inversion H; subst. constructor.
  - split.
    + intros H. inversion H as [|? a ? l' He Hr]; subst. apply IH in Hr. destruct Hr as (gs & Hc & Hp).
      destruct He as (m & ip & port & Hd & L1 & N1 & L2 & N2 & E). apply bencode_entry_spec in E.
      exists (VStruct [VString (text ip); VString (text port)] :: gs). split.
      * constructor; [|exact Hc]. apply peer_conv. exists m, ip, port. auto 10.
      * cbn. now rewrite E, <- Hp.
    + intros (gs & H & <-). inversion H as [|? ? ? g gs' Hg Hc]; subst. cbn. constructor; [|apply IH; eauto].
      apply peer_conv in Hg. destruct Hg as (m & ip & port & Hd & L1 & N1 & L2 & N2 & ->).
      exists m, ip, port. repeat split; auto. cbn. now apply bencode_entry_spec.
Qed.

Lemma response_hyps : widths (TStruct AnnounceResponse_fields) /\ typed (TStruct AnnounceResponse_fields) (VStruct AnnounceResponse_zero) /\
  string_keys (TStruct AnnounceResponse_fields) /\ has_tagged AnnounceResponse_fields = true.
Proof. repeat split; cbn; auto; unfold width; auto. Qed.

(* what a successful Unmarshal of a reply says *)
Lemma response_conv m g : conv_fields m AnnounceResponse_fields AnnounceResponse_zero g <->
  exists f n ps c c6, g = [VString f; VInt n; VSlice ps; VBytes c; VBytes c6] /\
    (absent m (str "failure reason") /\ f = [] \/ exists v, lookup (str "failure reason") m = Some v /\ v <> BNil /\ f = text v) /\
    interval_of m n /\
    (absent m (str "peers") /\ ps = [] /\ c = [] \/
     exists v vs, lookup (str "peers") m = Some v /\ v <> BNil /\ is_list v vs /\ conv_list AnnouncePeer_ty vs ps /\ c = Raw v) /\
    (absent m (str "peers6") /\ c6 = [] \/ exists v, lookup (str "peers6") m = Some v /\ v <> BNil /\ c6 = Raw v).
Proof.
  split.
  - intros H.
    inversion H as [|? ? ? ? ? ? ? ? [X|X]|? ? ? ? ? ? ? k1 _ T1 A1 H1|? ? ? ? ? ? ? k1 o1 v1 g1 _ T1 L1 N1 C1 H1]; subst; try discriminate; clear H; apply tag_of in T1; subst k1.
    all: inversion H1 as [|? ? ? ? ? ? ? ? [X|X]|? ? ? ? ? ? ? k2 _ T2 A2 H2|? ? ? ? ? ? ? k2 o2 v2 g2 _ T2 L2 N2 C2 H2]; subst; try discriminate; clear H1; apply tag_of in T2; subst k2.
    all: inversion H2 as [|? ? ? ? ? ? ? ? [X|X]|? ? ? ? ? ? ? k3 _ T3 A3 H3|? ? ? ? ? ? ? k3 o3 v3 g3 _ T3 L3 N3 C3 H3]; subst; try discriminate; clear H2; apply tag_of in T3; subst k3.
    all: inversion H3 as [|? ? ? ? ? ? ? ? [X|X]|? ? ? ? ? ? ? k4 _ T4 A4 H4|? ? ? ? ? ? ? k4 o4 v4 g4 _ T4 L4 N4 C4 H4]; subst; try discriminate; clear H3; apply tag_of in T4; subst k4.
    all: inversion H4 as [|? ? ? ? ? ? ? ? [X|X]|? ? ? ? ? ? ? k5 _ T5 A5 H5|? ? ? ? ? ? ? k5 o5 v5 g5 _ T5 L5 N5 C5 H5]; subst; try discriminate; clear H4; apply tag_of in T5; subst k5.
    all: inversion H5; subst; clear H5.
    all: change (tag_name (str "failure reason,optional")) with (str "failure reason") in *; change (tag_name (str "interval,optional")) with (str "interval") in *;
      change (tag_name peers_tag) with (str "peers") in *; change (tag_name compact_tag) with (str "peers") in *; change (tag_name (str "peers6,optional")) with (str "peers6") in *.
    all: try match goal with A : absent ?m ?k, L : lookup ?k ?m = Some ?v, N : ?v <> BNil |- _ => exfalso; destruct A as [A|A]; rewrite A in L; congruence end.
    all: try (inversion C1; subst). all: try (inversion C2; subst). all: try (inversion C4; subst; try discriminate). all: try (inversion C5; subst; try discriminate).
    all: try (inversion C3; subst; try discriminate).
    all: repeat match goal with L : lookup ?k ?m = Some ?a, L' : lookup ?k ?m = Some ?b |- _ => assert (a = b) by congruence; subst; clear L' end.
    all: eexists _, _, _, _, _; split; [reflexivity|].
    all: split; [first [left; split; [assumption|reflexivity]|right; eexists; repeat split; eassumption]|].
    all: split; [unfold interval_of; first [left; split; [assumption|reflexivity]|right; eexists; repeat split; first [eassumption|lia|tauto]]|].
    all: split; [first [left; split; [assumption|split; reflexivity]|right; eexists _, _; repeat split; eassumption]|].
    all: first [left; split; [assumption|reflexivity]|right; eexists; repeat split; eassumption].
  - intros (f & n & ps & c & c6 & -> & Hf & Hn & Hp & H6).
    assert (T : forall a b o, tag_name a = b -> tag_optional a = o -> tag_means a b o) by (intros; apply tag_means_iff; auto).
    unfold AnnounceResponse_fields, AnnounceResponse_zero. cbn [map snd fld zero is_u8 Z.eqb Pos.eqb].
    destruct Hf as [(A1 & ->)|(v1 & L1 & N1 & ->)];
      [eapply cf_absent with (key := str "failure reason"); [discriminate|apply T; reflexivity|assumption|]
      |eapply cf_present with (key := str "failure reason") (opt := true); [discriminate|apply T; reflexivity|eassumption|assumption|now constructor|]].
    all: destruct Hn as [(A2 & ->)|(v2 & L2 & N2 & I2 & R2)];
      [eapply cf_absent with (key := str "interval"); [discriminate|apply T; reflexivity|assumption|]
      |eapply cf_present with (key := str "interval") (opt := true); [discriminate|apply T; reflexivity|eassumption|assumption|constructor; [assumption|assumption|exact R2]|]].
    all: destruct Hp as [(A3 & -> & ->)|(v3 & vs & L3 & N3 & I3 & C3 & ->)];
      [eapply cf_absent with (key := str "peers"); [discriminate|apply T; reflexivity|assumption|]; eapply cf_absent with (key := str "peers"); [discriminate|apply T; reflexivity|assumption|]
      |eapply cf_present with (key := str "peers") (opt := true); [discriminate|apply T; reflexivity|eassumption|assumption|econstructor; [reflexivity|eassumption|eassumption]|];
       eapply cf_present with (key := str "peers") (opt := true); [discriminate|apply T; reflexivity|eassumption|assumption|constructor; [reflexivity|assumption]|]].
    all: destruct H6 as [(A6 & ->)|(v6 & L6 & N6 & ->)];
      [eapply cf_absent with (key := str "peers6"); [discriminate|apply T; reflexivity|assumption|]
      |eapply cf_present with (key := str "peers6") (opt := true); [discriminate|apply T; reflexivity|eassumption|assumption|now constructor|]]; constructor.
Qed.

Definition response_of (d : bytes) (m : list (bytes * ben)) (g : list gval) : Prop :=
  exists raw, Parse d = Ok (BDict true m raw) /\ conv_fields m AnnounceResponse_fields AnnounceResponse_zero g.
Lemma read_peers_cases parse_ip d : fits d ->
  let u := Unmarshal d (TgtStruct AnnounceResponse_fields AnnounceResponse_zero) in
  (exists f n ps c c6 m, response_of d m [VString f; VInt n; VSlice ps; VBytes c; VBytes c6] /\ readPeers parse_ip d = if negb (beq f []) then (None, Err "tracker failure")
      else (Some (wrap64 (n * second)),
             if nonnil d peers_tag then Ok (parseBencodePeers parse_ip ps)
             else if nonnil d compact_tag then Ok (parseCompactPeers c)
             else Err "successful tracker response without ")) \/
  ((forall m g, ~ response_of d m g) /\
   ((exists e, snd u = Err e /\ readPeers parse_ip d = (None, Err e)) \/ (snd u = Panic /\ readPeers parse_ip d = (None, Panic)) \/
     snd u = Diverge)).
Proof.
  intros Hf. cbv zeta. destruct response_hyps as (H1 & H2 & H3 & H4). unfold readPeers.
  pose proof (unmarshal_exact d AnnounceResponse_fields AnnounceResponse_zero) as UE.
  assert (NR : snd (Unmarshal d (TgtStruct AnnounceResponse_fields AnnounceResponse_zero)) <> Ok tt -> forall m g, ~ response_of d m g).
  { intros H m g (raw & Hp & Hc). apply H. rewrite (proj2 (UE (VStruct g) Hf H1 H2 H4)); [reflexivity|]. eauto 10. }
  destruct (Unmarshal d (TgtStruct AnnounceResponse_fields AnnounceResponse_zero)) as [g [[]|e| |]] eqn:E.
  - left. pose proof (proj1 (UE _ Hf H1 H2 H4) eq_refl) as (m & raw & news & Ep & Hc & ->).
    pose proof (proj1 (response_conv _ _) Hc) as (f & n & ps & c & c6 & -> & _). exists f, n, ps, c, c6, m.
    split; [exists raw; auto|reflexivity].
  - right. split; [apply NR; discriminate|]. left. exists e. auto.
  - right. split; [apply NR; discriminate|]. right; left. auto.
  - right. split; [apply NR; discriminate|]. right; right. auto.
Qed.
Lemma nonnil_spec d m raw tag : Parse d = Ok (BDict true m raw) ->
  (nonnil d tag = true <-> exists v, lookup (tag_name tag) m = Some v /\ v <> BNil).
Proof.
  intros Hp. unfold nonnil. rewrite Hp. destruct (lookup (tag_name tag) m) as [v|]; [|split; [discriminate|intros (v & E & _); discriminate]].
  split.
  - intros H. exists v. split; [reflexivity|]. intros ->. discriminate.
  - intros (v' & E & N). inversion E; subst. destruct v'; congruence.
Qed.
(* what counts as a success, and the peers found *)
Lemma read_peers_ok parse_ip d i l : fits d ->
  (readPeers parse_ip d = (i, Ok l) <->
   exists m raw n v vs, Parse d = Ok (BDict true m raw) /\ no_failure m /\ interval_of m n /\ i = Some (wrap64 (n * 1000000000)) /\
     lookup (str "peers") m = Some v /\ v <> BNil /\ is_list v vs /\ Forall2 (entry_of parse_ip) vs l).
Proof.
  intros Hf. split.
  - intros H. destruct (read_peers_cases parse_ip d Hf) as [(f & n & ps & c & c6 & m & (raw & Hp & Hc) & E)|(_ & [(e & _ & E)|[(_ & E)|E]])].
    2,3: rewrite E in H; discriminate.
    2: { exfalso. revert E. unfold readPeers in H. destruct (Unmarshal d _) as [g [x|x| |]]; cbn; discriminate. }
    rewrite E in H. destruct (beq f []) eqn:Ef; cbn [negb] in H; [|discriminate]. apply beq_eq in Ef. subst f.
    apply response_conv in Hc. destruct Hc as (f' & n' & ps' & c' & c6' & Eg & Hfl & Hi & Hps & _).
    inversion Eg; subst f' n' ps' c' c6'. exists m, raw, n.
    pose proof (nonnil_spec d m raw peers_tag Hp) as NN. change (tag_name peers_tag) with (str "peers") in NN.
    destruct Hps as [(A & -> & ->)|(v & vs & L & N & IL & CL & ->)].
    + exfalso. assert (X : nonnil d peers_tag = false).
      { destruct (nonnil d peers_tag); [|reflexivity]. destruct (proj1 NN eq_refl) as (v & L & N). destruct A; congruence. }
      change (nonnil d compact_tag) with (nonnil d peers_tag) in H. rewrite X in H. discriminate.
    + rewrite (proj2 NN) in H by eauto. inversion H; subst. exists v, vs. split; [exact Hp|]. split.
      { destruct Hfl as [(A & _)|(v0 & L0 & N0 & E0)]; [left; exact A|right; exists v0; auto]. }
      split; [exact Hi|]. split; [reflexivity|]. split; [exact L|]. split; [exact N|]. split; [exact IL|]. apply peers_conv. eauto.
  - intros (m & raw & n & v & vs & Hp & NF & Hi & -> & L & N & IL & F2). apply peers_conv in F2. destruct F2 as (gs & CL & Eg).
    assert (H6 : exists c6, absent m (str "peers6") /\ c6 = [] \/ exists v, lookup (str "peers6") m = Some v /\ v <> BNil /\ c6 = Raw v).
    { destruct (lookup (str "peers6") m) as [w|] eqn:E6; [|exists []; left; split; [left; exact E6|reflexivity]].
      assert (W : w = BNil \/ w <> BNil) by (destruct w; [left; reflexivity|right; discriminate..]).
      destruct W as [->|W]; [exists []; left; split; [right; exact E6|reflexivity]|exists (Raw w); right; exists w; auto]. }
    destruct H6 as (c6 & H6).
    assert (Hc : conv_fields m AnnounceResponse_fields AnnounceResponse_zero [VString []; VInt n; VSlice gs; VBytes (Raw v); VBytes c6]).
    { apply response_conv. exists [], n, gs, (Raw v), c6. split; [reflexivity|]. split.
      { destruct NF as [A|(w & Lw & Nw & Ew)]; [left; auto|right; exists w; auto]. }
      split; [exact Hi|]. split; [|exact H6]. right. exists v, vs. auto. }
    destruct response_hyps as (H1 & H2 & H3 & H4).
    unfold readPeers. rewrite (proj2 (unmarshal_exact d _ _ (VStruct [VString []; VInt n; VSlice gs; VBytes (Raw v); VBytes c6]) Hf H1 H2 H4)) by eauto 8.
    cbn [beq negb]. rewrite (proj2 (nonnil_spec d m raw peers_tag Hp)) by eauto. now rewrite Eg.
Qed.
(* a reply with a compact peer list always fails *)
Lemma read_peers_compact parse_ip d m raw s : fits d -> Parse d = Ok (BDict true m raw) -> lookup (str "peers") m = Some (BStr s) ->
  exists e, readPeers parse_ip d = (None, Err e).
Proof.
  intros Hf Hp L. destruct (read_peers_cases parse_ip d Hf) as [(f & n & ps & c & c6 & m' & (raw' & Hp' & Hc) & E)|(_ & [(e & _ & E)|[(E & _)|E]])].
  - exfalso. rewrite Hp in Hp'. inversion Hp'; subst. apply response_conv in Hc. destruct Hc as (? & ? & ? & ? & ? & _ & _ & _ & [(A & _)|(v & vs & L' & N & IL & _)] & _).
    + destruct A; congruence.
    + rewrite L in L'. inversion L'; subst. destruct IL as (? & IL); discriminate.
  - eauto.
  - exfalso. pose proof (unmarshal_fine d AnnounceResponse_fields AnnounceResponse_zero m raw Hf (proj1 (proj2 (proj2 response_hyps))) Hp) as F. cbv zeta in E. rewrite E in F. destruct F as [[? F]|[? F]]; discriminate F.
  - exfalso. pose proof (unmarshal_fine d AnnounceResponse_fields AnnounceResponse_zero m raw Hf (proj1 (proj2 (proj2 response_hyps))) Hp) as F. cbv zeta in E. rewrite E in F. destruct F as [[? F]|[? F]]; discriminate F.
Qed.
Lemma read_peers_panics parse_ip d : fits d ->
  (snd (readPeers parse_ip d) = Panic <-> Parse d = Panic \/ exists e, Parse d = Ok e /\ forall m raw, e <> BDict true m raw).
Proof.
  intros Hf. destruct response_hyps as (H1 & H2 & H3 & H4).
  transitivity (snd (Unmarshal d (TgtStruct AnnounceResponse_fields AnnounceResponse_zero)) = Panic).
  - unfold readPeers. destruct (Unmarshal d (TgtStruct AnnounceResponse_fields AnnounceResponse_zero)) as [g [[]|e| |]] eqn:E; cbn [snd]; try tauto; try (split; discriminate).
    split; [|discriminate].
    pose proof (proj1 (unmarshal_exact d _ _ _ Hf H1 H2 H4) E) as (m & raw & news & Ep & Hc & ->).
    pose proof (proj1 (response_conv _ _) Hc) as (f & n & ps & c & c6 & -> & _). destruct (negb _); cbn [snd]; [discriminate|]. now repeat destruct (nonnil _ _).
  - rewrite unmarshal_panics by assumption. rewrite H4. tauto.
Qed.
Lemma http_panics parse_ip r : (forall st b, r = HttpBody st (Some b) -> fits b) ->
  (snd (HttpAnnounce parse_ip r) = Panic <-> exists b, r = HttpBody 200 (Some b) /\ (Parse b = Panic \/ exists e, Parse b = Ok e /\ forall m raw, e <> BDict true m raw)).
Proof.
  intros Hf. destruct r as [|st [b|]]; cbn [HttpAnnounce].
  - split; [discriminate|intros (b & E & _); discriminate].
  - destruct (st =? 200) eqn:Es; cbn [negb].
    + replace st with 200 in * by lia. rewrite (read_peers_panics parse_ip b) by (eapply Hf; reflexivity).
      split; [intros H; exists b; auto|intros (b' & E & H)]. inversion E; subst. exact H.
    + split; [discriminate|]. intros (b' & E & _). inversion E; subst. lia.
  - split; [discriminate|intros (b & E & _); discriminate].
Qed.

(* ---------- the announce query ---------- *)
Lemma utoa_decimal n : 0 <= n -> decimal (utoa n) n /\ Forall is_byte (utoa n).
Proof.
  intros H. destruct (utoa_spec n H) as (A & B & C). unfold digits, digit in A. unfold decval in B. split.
  - repeat split; auto.
  - eapply Forall_impl; [|exact A]. unfold is_byte. cbn. lia.
Qed.
Lemma build_query_bytes clientId trackerId event hash d :
  Forall is_byte clientId -> Forall is_byte trackerId -> Forall is_byte event -> Forall is_byte hash ->
  0 <= a_downloaded d -> 0 <= a_uploaded d -> 0 <= a_left d -> 0 <= a_port d ->
  Forall byte_pair (buildQuery clientId trackerId event hash d).
Proof.
  intros H1 H2 He H3 H4 H5 H6 H7. unfold buildQuery, itoa. replace (a_port d <? 0) with false by lia.
  assert (S : forall s, existsb (fun c => negb ((0 <=? c) && (c <? 256))) s = false -> Forall is_byte s).
  { induction s as [|c s IH]; intros H; [constructor|]. cbn in H. apply orb_false_iff in H. destruct H as [Hc Hs].
    constructor; [unfold is_byte; lia|auto]. }
  repeat (constructor; [split; cbn [fst snd]; first [assumption|apply utoa_decimal; assumption|apply S; reflexivity]|]). constructor.
Qed.
Lemma announce_values addr clientId trackerId event hash d : ~ In 63 addr -> ~ In 35 addr ->
  Forall is_byte clientId -> Forall is_byte trackerId -> Forall is_byte event -> Forall is_byte hash ->
  0 <= a_downloaded d -> 0 <= a_uploaded d -> 0 <= a_left d -> 0 <= a_port d ->
  exists q down up left port, decode_query (query_of (announce_url addr (buildQuery clientId trackerId event hash d))) = Some q /\
    NoDup (map fst q) /\
    lookup (str "info_hash") q = Some hash /\ lookup (str "peer_id") q = Some clientId /\ lookup (str "event") q = Some event /\
    lookup (str "downloaded") q = Some down /\ decimal down (a_downloaded d) /\
    lookup (str "uploaded") q = Some up /\ decimal up (a_uploaded d) /\
    lookup (str "left") q = Some left /\ decimal left (a_left d) /\
    lookup (str "port") q = Some port /\ decimal port (a_port d).
Proof.
  intros Ha1 Ha2 H1 H2 He H3 H4 H5 H6 H7.
  exists (buildQuery clientId trackerId event hash d), (utoa (a_downloaded d)), (utoa (a_uploaded d)), (utoa (a_left d)), (itoa (a_port d)).
  split; [apply announce_query; auto; [discriminate|now apply build_query_bytes]|].
  split.
  - change (map fst (buildQuery clientId trackerId event hash d)) with (map fst (buildQuery [] [] [] [] (mkAnn 0 0 0 0))).
    assert (D : forall l : list bytes, (fix nd (l : list bytes) : bool := match l with [] => true | x :: r => negb (existsb (beq x) r) && nd r end) l = true -> NoDup l).
    { induction l as [|x l IH]; intros H; [constructor|]. apply andb_true_iff in H. destruct H as [Hx Hl]. constructor; [|auto].
      intros Hi. apply negb_true_iff in Hx. rewrite (proj2 (existsb_exists (beq x) l)) in Hx; [discriminate|]. exists x. split; [exact Hi|apply beq_refl]. }
    apply D. vm_compute. reflexivity.
  - unfold itoa at 1. replace (a_port d <? 0) with false by lia.
    pose proof (utoa_decimal _ H4). pose proof (utoa_decimal _ H5). pose proof (utoa_decimal _ H6). pose proof (utoa_decimal _ H7).
    unfold buildQuery. unfold itoa. replace (a_port d <? 0) with false by lia.
    do 3 (split; [reflexivity|]). do 3 (split; [reflexivity|]; split; [tauto|]). split; [reflexivity|tauto].
Qed.
Lemma new_tracker_exact scheme dial k : NewTracker scheme dial = Ok k <->
  (scheme = Some (str "udp") /\ dial = true /\ k = KUdp) \/ ((scheme = Some (str "http") \/ scheme = Some (str "https")) /\ k = KHttp).
Proof.
  unfold NewTracker. destruct scheme as [s|]; [|split; [discriminate|intros [(E & _)|([E|E] & _)]; discriminate]].
  destruct (beq s (str "udp")) eqn:E1; [apply beq_eq in E1; subst s|destruct (beq s (str "http")) eqn:E2; [apply beq_eq in E2; subst s|
    destruct (beq s (str "https")) eqn:E3; [apply beq_eq in E3; subst s|]]]; cbn [orb].
  - destruct dial; (split; [intros E; inversion E; auto|intros [(_ & E & ->)|([E|E] & _)]; try discriminate; auto]).
  - split; [intros E; inversion E; auto|intros [(E & _)|(_ & ->)]; [discriminate|reflexivity]].
  - split; [intros E; inversion E; auto|intros [(E & _)|(_ & ->)]; [discriminate|reflexivity]].
  - apply beq_neq in E1, E2, E3. split; [discriminate|]. intros [(E & _)|([E|E] & _)]; congruence.
Qed.

(* ---------- intervals ---------- *)
Lemma min_wait_pos i : 0 < min_wait i <-> 0 < i.
Proof. unfold min_wait. lia. Qed.
Lemma http_interval_pos parse_ip d i l : fits d -> readPeers parse_ip d = (Some i, Ok l) ->
  (0 < min_wait i <-> exists m raw n, Parse d = Ok (BDict true m raw) /\ interval_of m n /\ 0 < wrap64 (n * 1000000000)).
Proof.
  intros Hf H. apply read_peers_ok in H; [|exact Hf]. destruct H as (m & raw & n & v & vs & Hp & _ & Hi & E & _). inversion E; subst i.
  rewrite min_wait_pos. split; [intros; exists m, raw, n; auto|]. intros (m' & raw' & n' & Hp' & Hi' & Hw).
  assert (n = n'); [|congruence]. rewrite Hp in Hp'. inversion Hp'; subst m' raw'. clear -Hi Hi'.
  destruct Hi as [(A & ->)|(v & L & N & I & _)], Hi' as [(A' & ->)|(v' & L' & N' & I' & _)]; try reflexivity; try (destruct A; congruence); try (destruct A'; congruence).
  rewrite L in L'. inversion L'; subst v'. clear -I I'. 
  eapply int_literal_fun; eassumption.
Qed.
