(* What Unmarshal and a download depend on. *)
From Coq Require Import Permutation.
From Verif Require Import Base ProofBase ModelBencode SpecText SpecBencode ProofBencodeGrammar ProofBencodeMore ModelUnmarshal SpecUnmarshal ProofUnmarshal ProofUnmarshalMore ModelTorrent ModelCmd SpecStatus SpecBep ProofBep SpecAlike.

(* two elements a variable of type t cannot tell apart *)
Definition same_for (t : gty) (v1 v2 : ben) : Prop := v1 <> BNil /\ v2 <> BNil /\ forall o, set_field t o v1 = set_field t o v2.
Definition same_opt (t : gty) (v1 v2 : option ben) : Prop := v1 = v2 \/ exists x1 x2, v1 = Some x1 /\ v2 = Some x2 /\ same_for t x1 x2.
Lemma struct_alike fs vs m1 m2 r1 r2 : (forall tag t, In (tag, true, t) fs -> same_opt t (lookup (tag_name tag) m1) (lookup (tag_name tag) m2)) ->
  set_field (TStruct fs) vs (BDict true m1 r1) = set_field (TStruct fs) vs (BDict true m2 r2).
Proof.
  intros H. cbn [set_field]. destruct vs as [| | | |olds| | |]; try reflexivity.
  match goal with |- (let (gs, r) := ?a fs olds in _) = (let (gs', r') := ?b fs olds in _) => assert (E : a fs olds = b fs olds) end.
  { revert olds. induction fs as [|[[tag canset] ft] fs IH]; intros olds; [reflexivity|]. destruct olds as [|o olds]; [reflexivity|].
    cbn. destruct canset; cbn [negb orb].
    - rewrite IH by (intros; eapply H; right; eassumption). destruct (H tag ft (or_introl eq_refl)) as [->|(x1 & x2 & -> & -> & N1 & N2 & E)]; [reflexivity|].
      specialize (E o). destruct x1; [congruence| | | |]; (destruct x2; [congruence| | | |]); now rewrite E.
    - rewrite IH by (intros; eapply H; right; eassumption). reflexivity. }
  now rewrite E.
Qed.
Lemma struct_same fs vs m1 m2 r1 r2 : (forall tag t, In (tag, true, t) fs -> lookup (tag_name tag) m1 = lookup (tag_name tag) m2) ->
  set_field (TStruct fs) vs (BDict true m1 r1) = set_field (TStruct fs) vs (BDict true m2 r2).
Proof. intros H. apply struct_alike. intros tag t HI. left. now apply (H tag t). Qed.

(* ---------- documents ---------- *)
Lemma entries_parse d es : fits d -> entries_of d es -> exists raw, Parse d = Ok (BDict true (dict_of es) raw).
Proof.
  intros Hf (body & post & -> & H). exists ([100] ++ body ++ [101]). apply parse_iff; [exact Hf|].
  exists ([100] ++ body ++ [101]), post. split; [now rewrite <- !app_assoc|]. now constructor.
Qed.
Lemma metainfo_same d1 d2 es1 es2 : fits d1 -> fits d2 -> entries_of d1 es1 -> entries_of d2 es2 ->
  (forall k, In k known -> last_binding k es1 = last_binding k es2) -> UnmarshalMetainfo d1 = UnmarshalMetainfo d2.
Proof.
  intros F1 F2 H1 H2 HK. unfold UnmarshalMetainfo, Unmarshal.
  destruct (entries_parse _ _ F1 H1) as (r1 & ->), (entries_parse _ _ F2 H2) as (r2 & ->). cbn [processTarget].
  apply struct_same. intros tag t HI. rewrite !lookup_dict_of.
  unfold Metainfo_fields, fld in HI. cbn [In] in HI.
  repeat (destruct HI as [HI|HI]; [injection HI as <- _; apply HK; vm_compute; tauto|]). destruct HI.
Qed.
Definition names_file (c : command) (file : bytes) : Prop := c = CBencode file \/ exists out, c = CDownload out file.
Lemma process_same sha1 look o1 o2 f flags c file d1 d2 : names_file c file -> same_os o1 o2 -> o_file o1 file = Some d1 -> o_file o2 file = Some d2 ->
  UnmarshalMetainfo d1 = UnmarshalMetainfo d2 -> process sha1 look o1 f flags c = process sha1 look o2 f flags c.
Proof.
  intros HC (E1 & E2 & E3 & E4) HD1 HD2 EU. unfold process. destruct (NewCmdRun look defaults) as [l|]; [|reflexivity].
  destruct HC as [->|(out & ->)].
  - unfold bencodeCmd. rewrite HD1, HD2, EU. reflexivity.
  - unfold runDownload. rewrite HD1, HD2, EU, E1, E2, E3, E4. reflexivity.
Qed.
Lemma started_same sha1 look o1 o2 f flags c file d1 d2 es1 es2 : names_file c file -> same_os o1 o2 -> o_file o1 file = Some d1 -> o_file o2 file = Some d2 ->
  fits d1 -> fits d2 -> entries_of d1 es1 -> entries_of d2 es2 -> (forall k, In k known -> last_binding k es1 = last_binding k es2) ->
  process sha1 look o1 f flags c = process sha1 look o2 f flags c.
Proof. intros. eapply process_same; eauto. eapply metainfo_same; eauto. Qed.

Lemma last_in {A} k (v : A) es : NoDup (map fst es) -> (last_binding k es = Some v <-> In (k, v) es).
Proof.
  induction es as [|[k' v'] es IH]; cbn [last_binding map fst]; intros HN; [split; [discriminate|intros []]|].
  inversion HN as [|? ? HI HN']; subst. specialize (IH HN'). split.
  - destruct (last_binding k es) eqn:E; [intros E'; right; apply IH; congruence|].
    destruct (beq k k') eqn:Ek; [|discriminate]. apply beq_eq in Ek. intros E'. left. congruence.
  - intros [E|HI'].
    + injection E as -> ->. destruct (last_binding k es) eqn:E; [|now rewrite beq_refl].
      exfalso. apply HI. destruct (last_binding_split _ _ _ E) as (pre & suf & -> & _). rewrite map_app. apply in_or_app. right. now left.
    + apply IH in HI'. now rewrite HI'.
Qed.
Lemma last_permuted {A} k (es1 es2 : list (bytes * A)) : Permutation es1 es2 -> NoDup (map fst es1) -> last_binding k es1 = last_binding k es2.
Proof.
  intros HP HN. assert (HN2 : NoDup (map fst es2)) by (eapply Permutation_NoDup; [apply Permutation_map; exact HP|exact HN]).
  assert (S : forall v, last_binding k es1 = Some v <-> last_binding k es2 = Some v).
  { intros v. rewrite !last_in by assumption. split; intros; [now apply (Permutation_in _ HP)|now apply (Permutation_in _ (Permutation_sym HP))]. }
  destruct (last_binding k es1) as [v|] eqn:E; [symmetry; now apply S|]. clear E.
  destruct (last_binding k es2) as [v|] eqn:E2; [|reflexivity]. now apply (S v).
Qed.
Lemma last_only ks k (es : list (bytes * ben)) : In k ks -> last_binding k (only ks es) = last_binding k es.
Proof.
  intros HK. unfold only. induction es as [|[k' v] es IH]; [reflexivity|]. cbn [filter fst]. destruct (existsb (beq k') ks) eqn:E.
  - cbn [last_binding]. now rewrite IH.
  - rewrite IH. cbn [last_binding]. destruct (last_binding k es); [reflexivity|]. destruct (beq k k') eqn:Ek; [|reflexivity].
    apply beq_eq in Ek. subst k'. rewrite (proj2 (existsb_exists (beq k) ks)) in E; [discriminate|]. exists k. split; [exact HK|apply beq_refl].
Qed.

(* ---------- the info dictionary ---------- *)
Lemma list_alike t l1 l2 : Forall2 (fun v1 v2 => set_field t (zero t) v1 = set_field t (zero t) v2) l1 l2 ->
  set_list (set_field t (zero t)) l1 = set_list (set_field t (zero t)) l2.
Proof. induction 1 as [|v1 v2 l1 l2 E H IH]; [reflexivity|]. cbn [set_list]. now rewrite E, IH. Qed.
Lemma slice_alike t l1 l2 r1 r2 o : Forall2 (fun v1 v2 => set_field t (zero t) v1 = set_field t (zero t) v2) l1 l2 -> is_u8 t = false ->
  set_field (TSlice t) o (BList true l1 r1) = set_field (TSlice t) o (BList true l2 r2).
Proof. intros F E. cbn [set_field]. now rewrite E, (list_alike _ _ _ F). Qed.
Lemma file_same v1 v2 : file_alike v1 v2 -> set_field TorrentFile_ty (zero TorrentFile_ty) v1 = set_field TorrentFile_ty (zero TorrentFile_ty) v2.
Proof.
  intros (m1 & r1 & m2 & r2 & -> & -> & E1 & E2). unfold TorrentFile_ty. apply struct_same. intros tag t HI. cbn [In] in HI. unfold fld in HI.
  destruct HI as [HI|[HI|[]]]; injection HI as <- _; [exact E1|exact E2].
Qed.
Lemma info_same i1 w1 i2 w2 : info_alike i1 i2 -> same_for Info_ty (BDict true i1 w1) (BDict true i2 w2).
Proof.
  intros (HK & HF). split; [discriminate|]. split; [discriminate|]. intros o. unfold Info_ty. apply struct_alike. intros tag t HI. cbn [In] in HI. unfold fld in HI.
  destruct HI as [HI|HI].
  - assert (T : tag_name tag = str "files") by (injection HI as <- _; reflexivity). assert (t = TSlice TorrentFile_ty) as -> by congruence. rewrite T. destruct HF as [->|(l1 & r1 & l2 & r2 & -> & -> & F)]; [now left|].
    right. eexists _, _. split; [reflexivity|]. split; [reflexivity|]. split; [discriminate|]. split; [discriminate|]. intros o'.
    apply slice_alike; [|reflexivity]. clear -F. induction F; constructor; [now apply file_same|assumption].
  - left. repeat (destruct HI as [HI|HI]; [injection HI as <- _; apply HK; [vm_compute; tauto|vm_compute; discriminate]|]). destruct HI.
Qed.

(* the bytes of info may differ, nothing else of a Metainfo then does *)
Definition raw_differs (f : bytes * bool * gty) (g : gval * gval) : Prop := fst g = snd g \/ snd f = TSlice (TUint 8).
Lemma struct_raw fs olds m1 m2 r1 r2 : length fs = length olds ->
  (forall tag t, In (tag, true, t) fs -> same_opt t (lookup (tag_name tag) m1) (lookup (tag_name tag) m2) \/
     t = TSlice (TUint 8) /\ exists x1 x2, lookup (tag_name tag) m1 = Some x1 /\ lookup (tag_name tag) m2 = Some x2 /\ x1 <> BNil /\ x2 <> BNil) ->
  exists gs r, set_field (TStruct fs) (VStruct olds) (BDict true m1 r1) = (VStruct (map fst gs), r) /\
    set_field (TStruct fs) (VStruct olds) (BDict true m2 r2) = (VStruct (map snd gs), r) /\ Forall2 raw_differs fs gs.
Proof.
  cbn [set_field].
  match goal with |- _ -> _ -> exists gs r, (let (gs1, r1) := ?a fs olds in _) = _ /\ (let (gs2, r2) := ?b fs olds in _) = _ /\ _ =>
    intros HL H; cut (exists gs r, a fs olds = (map fst gs, r) /\ b fs olds = (map snd gs, r) /\ Forall2 raw_differs fs gs);
    [intros (gs & r & E1 & E2 & F); exists gs, r; now rewrite E1, E2|]
  end.
  revert olds HL. induction fs as [|[[tag canset] ft] fs IH]; intros olds HL; [destruct olds; [|discriminate]; exists [], (Ok tt); repeat split; constructor|].
  destruct olds as [|o olds]; [discriminate|]. injection HL as HL.
  assert (H' : forall tag t, In (tag, true, t) fs -> same_opt t (lookup (tag_name tag) m1) (lookup (tag_name tag) m2) \/
     t = TSlice (TUint 8) /\ exists x1 x2, lookup (tag_name tag) m1 = Some x1 /\ lookup (tag_name tag) m2 = Some x2 /\ x1 <> BNil /\ x2 <> BNil)
    by (intros; apply H; now right).
  destruct (IH H' olds HL) as (gs & r & E1 & E2 & F).
  assert (SO : forall l : list gval, length fs = length l -> Forall2 raw_differs fs (map (fun x => (x, x)) l)).
  { clear. induction fs as [|f fs IH]; intros [|x l] HL; try discriminate; cbn [map]; constructor; [now left|]. apply IH. now injection HL. }
  assert (MF : forall l : list gval, map fst (map (fun x : gval => (x, x)) l) = l) by (intros l; rewrite map_map; cbn; apply map_id).
  assert (MS : forall l : list gval, map snd (map (fun x : gval => (x, x)) l) = l) by (intros l; rewrite map_map; cbn; apply map_id).
  assert (STOP : forall (g : gval * gval) (r' : ModelUnmarshal.outcome), raw_differs (tag, canset, ft) g -> exists gs0 r0, (fst g :: olds, r') = (map fst gs0, r0) /\ (snd g :: olds, r') = (map snd gs0, r0) /\ Forall2 raw_differs ((tag, canset, ft) :: fs) gs0).
  { intros g r' R. exists (g :: map (fun x => (x, x)) olds), r'. cbn [map]. rewrite MF, MS. repeat split. constructor; [exact R|now apply SO]. }
  assert (GO : forall g : gval * gval, raw_differs (tag, canset, ft) g -> exists gs0 r0, (fst g :: map fst gs, r) = (map fst gs0, r0) /\ (snd g :: map snd gs, r) = (map snd gs0, r0) /\ Forall2 raw_differs ((tag, canset, ft) :: fs) gs0).
  { intros g R. exists (g :: gs), r. repeat split. constructor; assumption. }
  cbn. cbn in E1, E2. rewrite E1, E2. destruct (negb canset || beq tag []) eqn:EC; [apply (GO (o, o)); now left|].
  destruct canset; [|discriminate].
  destruct (H tag ft (or_introl eq_refl)) as [[->|(x1 & x2 & -> & -> & N1 & N2 & E)]|(-> & x1 & x2 & -> & -> & N1 & N2)].
  - destruct (lookup (tag_name tag) m2) as [x|]; [|destruct (tag_optional tag); [apply (GO (o, o))|apply (STOP (o, o))]; now left].
    destruct x; try (destruct (tag_optional tag); [apply (GO (o, o))|apply (STOP (o, o))]; now left);
      (match goal with |- context [set_field ft o ?x] => destruct (set_field ft o x) as [g [u| | |]] end; [apply (GO (g, g))|apply (STOP (g, g))..]; now left).
  - specialize (E o). destruct x1; [congruence| | | |]; (destruct x2; [congruence| | | |]); rewrite E;
      (match goal with |- context [set_field ft o ?x] => destruct (set_field ft o x) as [g [u| | |]] end; [apply (GO (g, g))|apply (STOP (g, g))..]; now left).
  - destruct x1; [congruence| | | |]; (destruct x2; [congruence| | | |]); cbn;
      match goal with |- context [(VBytes ?a :: _, _) = _ /\ (VBytes ?b :: _, _) = _ /\ _] => apply (GO (VBytes a, VBytes b)); now right end.
Qed.
Lemma metainfo_alike d1 d2 es1 es2 i1 w1 i2 w2 : fits d1 -> fits d2 -> entries_of d1 es1 -> entries_of d2 es2 ->
  (forall k, In k known -> k <> str "info" -> last_binding k es1 = last_binding k es2) ->
  last_binding (str "info") es1 = Some (BDict true i1 w1) -> last_binding (str "info") es2 = Some (BDict true i2 w2) -> info_alike i1 i2 ->
  exists g1 g2 r, UnmarshalMetainfo d1 = (g1, r) /\ UnmarshalMetainfo d2 = (g2, r) /\ metainfo_of g1 = metainfo_of g2 /\
    (r = Ok tt -> InfoDictRaw g1 = w1 /\ InfoDictRaw g2 = w2).
Proof.
  intros F1 F2 H1 H2 HK L1 L2 HI. pose proof (entries_parse _ _ F1 H1) as (r1 & P1). pose proof (entries_parse _ _ F2 H2) as (r2 & P2).
  destruct (struct_raw Metainfo_fields Metainfo_zero (dict_of es1) (dict_of es2) r1 r2) as (gs & r & E1 & E2 & F).
  - reflexivity.
  - intros tag t HT. rewrite !lookup_dict_of. unfold Metainfo_fields, fld in HT. cbn [In] in HT.
    repeat (destruct HT as [HT|HT];
      [first [assert (T : tag_name tag = str "info") by (injection HT as <- _; reflexivity); rewrite T, L1, L2; assert (t = Info_ty) as -> by congruence;
                left; right; eexists _, _; split; [reflexivity|]; split; [reflexivity|]; now apply info_same|
              assert (T : tag_name tag = str "info") by (injection HT as <- _; reflexivity); rewrite T, L1, L2; assert (t = TSlice (TUint 8)) as -> by congruence;
                right; split; [reflexivity|]; eexists _, _; repeat split; discriminate|
              injection HT as <- _; left; left; apply HK; [vm_compute; tauto|vm_compute; discriminate]]|]). destruct HT.
  - assert (U1 : UnmarshalMetainfo d1 = (VStruct (map fst gs), r)) by (unfold UnmarshalMetainfo, Unmarshal; rewrite P1; exact E1).
    assert (U2 : UnmarshalMetainfo d2 = (VStruct (map snd gs), r)) by (unfold UnmarshalMetainfo, Unmarshal; rewrite P2; exact E2).
    exists (VStruct (map fst gs)), (VStruct (map snd gs)), r. split; [exact U1|]. split; [exact U2|]. split.
    + unfold Metainfo_fields in F.
      inversion F as [|? [a1 b1] ? gs1 [Q1|Q1] F1']; subst; [|discriminate]. inversion F1' as [|? [a2 b2] ? gs2 [Q2|Q2] F2']; subst; [|discriminate].
      inversion F2' as [|? [a3 b3] ? gs3 [Q3|Q3] F3']; subst; [|discriminate]. inversion F3' as [|? [a4 b4] ? gs4 [Q4|Q4] F4']; subst; [|discriminate].
      cbn [fst snd map] in *. subst. reflexivity.
    + intros ->. destruct (metainfo_raw _ _ _ _ F1 U1 P1) as (im & iw & L & ->), (metainfo_raw _ _ _ _ F2 U2 P2) as (im' & iw' & L' & ->).
      rewrite lookup_dict_of in L, L'. split; congruence.
Qed.
Lemma start_alike sha1 look o1 o2 f flags c file d1 d2 es1 es2 i1 w1 i2 w2 : names_file c file -> same_os o1 o2 -> o_file o1 file = Some d1 -> o_file o2 file = Some d2 ->
  fits d1 -> fits d2 -> entries_of d1 es1 -> entries_of d2 es2 ->
  (forall k, In k known -> k <> str "info" -> last_binding k es1 = last_binding k es2) ->
  last_binding (str "info") es1 = Some (BDict true i1 w1) -> last_binding (str "info") es2 = Some (BDict true i2 w2) -> info_alike i1 i2 ->
  fst (process sha1 look o1 f flags c) = fst (process sha1 look o2 f flags c) /\
  same_start (sha1 w1) (sha1 w2) (snd (process sha1 look o1 f flags c)) (snd (process sha1 look o2 f flags c)).
Proof.
  intros HC (E1 & E2 & E3 & E4) HD1 HD2 F1 F2 H1 H2 HK L1 L2 HI.
  destruct (metainfo_alike d1 d2 es1 es2 i1 w1 i2 w2) as (g1 & g2 & r & U1 & U2 & EM & ER); try assumption.
  unfold process. destruct (NewCmdRun look defaults) as [l|]; [|split; [reflexivity|constructor]].
  destruct HC as [->|(out & ->)].
  - unfold bencodeCmd. rewrite HD1, HD2, U1, U2. cbn [snd]. destruct r; cbn; split; try reflexivity; constructor.
  - unfold runDownload. rewrite HD1, HD2, U1, U2, E1, E2, E3, E4. destruct (o_stat o2 out) as [[|]|]; try (split; [reflexivity|constructor]).
    destruct r as [[]| | |]; try (split; [reflexivity|constructor]). destruct (ER eq_refl) as [R1 R2]. unfold Hash. rewrite R1, R2, EM.
    unfold New. destruct (NewPieces (mi_pieces (metainfo_of g2))) as [ps| | |]; try (split; [reflexivity|constructor]).
    destruct ((mi_length (metainfo_of g2) =? 0) && o_mkdir_missing o2); [split; [reflexivity|constructor]|].
    destruct (download_paths _ _ _ _) as [paths| | |]; try (split; [reflexivity|constructor]).
    destruct (create_files _ _ _ _) as [f' [hs| | |]]; cbn; split; try reflexivity; try constructor.
    match goal with |- same_start _ _ (Download l ?t) _ => apply (ss_download _ _ l t) end.
Qed.

(* ---------- for examples ---------- *)
Fixpoint intsb (e : ben) : bool :=
  match e with
  | BInt n => (0 <=? n) && (n <=? MAXN)
  | BList _ l _ => forallb intsb l
  | BDict _ m _ => forallb (fun kv => intsb (snd kv)) m
  | _ => true
  end.
Lemma intsb_sound e : intsb e = true -> integers e (fun n => 0 <= n <= MAXN).
Proof.
  intros H n Hn. remember (BInt n) as x eqn:Ex. induction Hn as [|p v raw e HI Hn IH|p m raw k e HI Hn IH].
  - subst x. cbn in H. lia.
  - apply IH. cbn in H. rewrite forallb_forall in H. now apply H.
  - apply IH. cbn in H. rewrite forallb_forall in H. now apply (H (k, e)).
Qed.
Lemma written_denotes e : bepb e = true -> intsb e = true -> fits (benc e) -> wdenotes (benc e) e.
Proof.
  intros B I F. pose proof (intsb_sound _ I) as HI. assert (N : integers e (fun n => 0 <= n)) by (intros n Hn; now apply HI).
  pose proof (proj1 bep3_wdenotes _ _ (bepb_sound _ B) F N) as H. rewrite (proj2 (read_as_same e N)) in H; [exact H|]. intros n Hn. now apply HI.
Qed.
Definition doc_of (es : list (bytes * ben)) (post : bytes) : bytes := [100] ++ flat_map (fun kv => benc (BStr (fst kv)) ++ benc (snd kv)) es ++ [101] ++ post.
Lemma doc_entries es post : forallb (fun kv => bepb (BStr (fst kv)) && bepb (snd kv) && intsb (snd kv) && (zlen (benc (BStr (fst kv))) <=? MAXN) && (zlen (benc (snd kv)) <=? MAXN)) es = true -> entries_of (doc_of es post) es.
Proof.
  intros H. eexists _, post. split; [reflexivity|]. induction es as [|[k e] es IH]; [constructor|]. cbn [flat_map fst snd]. rewrite <- app_assoc.
  cbn [forallb fst snd] in H. rewrite !andb_true_iff in H. destruct H as [[[[[H1 H2] H3] H4] H5] H6]. apply Z.leb_le in H4, H5. constructor.
  - apply written_denotes; [exact H1|reflexivity|exact H4].
  - apply written_denotes; assumption.
  - now apply IH.
Qed.
