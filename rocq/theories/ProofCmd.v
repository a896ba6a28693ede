From Verif Require Import Base ProofBase ModelBencode SpecBencode ModelUnmarshal SpecUnmarshal ProofNum ProofUnmarshal ProofUnmarshalMore ProofBencode ProofBencodeGrammar ProofBencodeMore
  SpecPath ModelPath ModelTorrent SpecTorrent ProofTorrent ProofNew ModelLogger ModelPeer ModelSystem ModelCmd SpecCmd ProofPath ProofShutdown.

(* ---------- conversion of Metainfo ---------- *)
Lemma field_inv m tag t fs o olds news : tag <> [] -> conv_fields m ((tag, true, t) :: fs) (o :: olds) news ->
  exists g news', news = g :: news' /\ conv_fields m fs olds news' /\
    ((tag_optional tag = true /\ absent m (tag_name tag) /\ g = o) \/
     exists v, lookup (tag_name tag) m = Some v /\ v <> BNil /\ conv t o v g).
Proof. intros Ht H. inversion H as [|? ? ? ? ? ? ? ? [Hc|Hc] Hr|? ? ? ? ? ? ? key Hn Hm Ha Hr|? ? ? ? ? ? ? key opt v g Hn Hm Hl Hv Hc Hr]; subst; try discriminate; try contradiction.
  - apply tag_means_iff in Hm as [-> Ho]. do 2 eexists. split; [reflexivity|]. split; [exact Hr|]. left. auto.
  - apply tag_means_iff in Hm as [-> Ho]. do 2 eexists. split; [reflexivity|]. split; [exact Hr|]. right. eauto. Qed.

Lemma conv_text o v g : conv TString o v g -> as_text v (string_of g).
Proof. intro H. inversion H; subst. split; [assumption|reflexivity]. Qed.
Lemma conv_number o v g : conv (TInt 64) o v g -> as_number v (int_val g).
Proof. intro H. inversion H; subst. split; assumption. Qed.
Lemma conv_list_all {A} (P : ben -> A -> Prop) (F : gval -> A) t : (forall o v g, conv t o v g -> P v (F g)) ->
  forall vs gs, conv_list t vs gs -> Forall2 P vs (map F gs).
Proof. intros HP vs. induction vs as [|v vs IH]; intros gs H; inversion H; subst; cbn; constructor; eauto. Qed.
Lemma conv_slice {A} (P : ben -> A -> Prop) (F : gval -> A) t : is_u8 t = false -> (forall o v g, conv t o v g -> P v (F g)) ->
  forall o v g, conv (TSlice t) o v g -> as_list P v (match g with VSlice l => map F l | _ => [] end).
Proof. intros Hu HP o v g H. inversion H as [| | |? ? ? Hu'|? ? ? vs gs Hu' [raw ->] Hl| | | | |]; subst; [congruence|]. exists vs, raw. split; [reflexivity|]. eapply conv_list_all; eassumption. Qed.
Lemma conv_texts o v g : conv (TSlice TString) o v g -> as_list as_text v (strings_of g).
Proof. intro H. unfold strings_of. exact (conv_slice as_text string_of TString eq_refl conv_text _ _ _ H). Qed.
Lemma conv_file o v g : conv TorrentFile_ty o v g -> as_file v (tfile_of g).
Proof. intro H. inversion H as [| | | | |fs olds v' m news [raw Hd] Hc| | | |]; subst.
  assert (Hl : exists o1 o2, olds = [o1; o2]).
  { inversion Hc; subst; match goal with X : conv_fields _ _ ?l _ |- _ => is_var l; inversion X; subst end;
    match goal with X : conv_fields _ [] ?l _ |- _ => inversion X; subst end; eauto. }
  destruct Hl as (o1 & o2 & ->).
  apply field_inv in Hc as (g1 & n1 & -> & Hc & [(E & _)|(p & Hp1 & Hp2 & Cp)]); [discriminate E| |discriminate].
  apply field_inv in Hc as (g2 & n2 & -> & Hc & [(E & _)|(n & Hn1 & Hn2 & Cn)]); [discriminate E| |discriminate].
  inversion Hc; subst. exists m, raw, p, n. split; [reflexivity|]. split; [split; [exact Hp1|exact Hp2]|]. split; [exact (conv_texts _ _ _ Cp)|].
  split; [split; [exact Hn1|exact Hn2]|]. exact (conv_number _ _ _ Cn). Qed.

Theorem metainfo_says d g m raw : fits d -> UnmarshalMetainfo d = (g, Ok tt) -> Parse d = Ok (BDict true m raw) -> says m (metainfo_of g).
Proof. intros Hf Hu Hp. destruct metainfo_hyps as (Hw & Ht & _ & Hh).
  apply unmarshal_exact in Hu as (m' & raw' & news & Ep & Hc & ->); auto. rewrite Hp in Ep. injection Ep as <- <-. clear Hp.
  unfold Metainfo_fields, Metainfo_zero, fld in Hc. cbn [map snd] in Hc.
  apply field_inv in Hc as (g1 & n1 & -> & Hc & [(E & _)|(v1 & A1 & A2 & C1)]); [discriminate E| |discriminate].
  apply field_inv in Hc as (g2 & n2 & -> & Hc & D2); [|discriminate].
  apply field_inv in Hc as (g3 & n3 & -> & Hc & D3); [|discriminate].
  apply field_inv in Hc as (g4 & n4 & -> & Hc & [(E & _)|(v4 & A4 & B4 & C4)]); [discriminate E| |discriminate]. clear Hc.
  inversion C4 as [| | | | |fs olds v' info inews [iraw Hd] Hc| | | |]; subst. clear C4.
  apply field_inv in Hc as (h1 & k1 & -> & Hc & E1); [|discriminate].
  apply field_inv in Hc as (h2 & k2 & -> & Hc & E2); [|discriminate].
  apply field_inv in Hc as (h3 & k3 & -> & Hc & [(E & _)|(w3 & F3 & G3 & I3)]); [discriminate E| |discriminate].
  apply field_inv in Hc as (h4 & k4 & -> & Hc & [(E & _)|(w4 & F4 & G4 & I4)]); [discriminate E| |discriminate].
  apply field_inv in Hc as (h5 & k5 & -> & Hc & [(E & _)|(w5 & F5 & G5 & I5)]); [discriminate E| |discriminate].
  inversion Hc; subst. cbn [metainfo_of].
  exists info, iraw. cbn [mi_announce mi_announce_list mi_url_list mi_files mi_length mi_name mi_piece_length mi_pieces].
  split; [split; [exact A4|exact B4]|].
  split; [exists v1; split; [split; assumption|exact (conv_text _ _ _ C1)]|].
  split. { destruct D2 as [(_ & Ha & ->)|(v & Hl & Hv & C)]; [left; split; [exact Ha|reflexivity]|right]. exists v. split; [split; assumption|].
    exact (conv_slice (as_list as_text) strings_of (TSlice TString) eq_refl conv_texts _ _ _ C). }
  split. { destruct D3 as [(_ & Ha & ->)|(v & Hl & Hv & C)]; [left; split; [exact Ha|reflexivity]|right]. exists v. split; [split; assumption|]. exact (conv_texts _ _ _ C). }
  split. { destruct E1 as [(_ & Ha & ->)|(v & Hl & Hv & C)]; [left; split; [exact Ha|reflexivity]|right]. exists v. split; [split; assumption|].
    exact (conv_slice as_file tfile_of TorrentFile_ty eq_refl conv_file _ _ _ C). }
  split. { destruct E2 as [(_ & Ha & ->)|(v & Hl & Hv & C)]; [left; split; [exact Ha|reflexivity]|right]. exists v. split; [split; assumption|]. exact (conv_number _ _ _ C). }
  split; [exists w3; split; [split; assumption|exact (conv_text _ _ _ I3)]|].
  split; [exists w4; split; [split; assumption|exact (conv_number _ _ _ I4)]|].
  exists w5; split; [split; assumption|exact (conv_text _ _ _ I5)]. Qed.

(* ---------- StringSet ---------- *)
Lemma contains_in s x : set_contains s x = true <-> In x s.
Proof. unfold set_contains. rewrite existsb_exists. split.
  - intros (y & Hy & E). apply beq_eq in E. now subst.
  - intro H. exists x. split; [exact H|apply beq_refl]. Qed.
Theorem set_spec s x : NoDup s ->
  (snd (SetAdd s x) = true <-> ~ In x s) /\ NoDup (fst (SetAdd s x)) /\ (forall y, In y (fst (SetAdd s x)) <-> In y s \/ y = x).
Proof. intro H. unfold SetAdd. cbn [fst snd]. split; [|split; [apply set_add_nodup, H|intro y; rewrite set_add_in; tauto]].
  rewrite negb_true_iff. rewrite <- contains_in. destruct (set_contains s x); split; congruence. Qed.
Theorem set_addall s other : NoDup s -> NoDup (SetAddAll s other) /\ forall y, In y (SetAddAll s other) <-> In y s \/ In y other.
Proof. intro H. unfold SetAddAll. cbn [SetAdd fst]. split; [apply fold_add_nodup, H|intro y; rewrite fold_add_in; tauto]. Qed.

(* ---------- flags and configuration ---------- *)
Lemma startup look : NewCmdRun look defaults = match look [] with CfgError => None | _ => Some (Some (Logger InfoLevel ColorEncoder)) end.
Proof. unfold NewCmdRun, initConfig. cbn [cf_path defaults]. destruct (look []); reflexivity. Qed.
Theorem flags_ignored sha1 look o f flags flags' c : process sha1 look o f flags c = process sha1 look o f flags' c.
Proof. reflexivity. Qed.
Theorem logger_fixed sha1 look o f flags c f' l t : process sha1 look o f flags c = (f', Download l t) -> l = Some (Logger InfoLevel ColorEncoder).
Proof. unfold process. rewrite !startup. destruct (look []); try discriminate;
  (destruct c as [| | |file|out file]; try discriminate; [destruct (bencodeCmd _ _ _); discriminate|]);
  destruct (runDownload _ _ _ _ _) as [f1 [e| |t1]]; intro H; try discriminate H; injection H as _ <- _; reflexivity. Qed.
Theorem config_only_default sha1 look look' o f flags c : look [] = look' [] -> process sha1 look o f flags c = process sha1 look' o f flags c.
Proof. intro H. unfold process. now rewrite !startup, H. Qed.
Theorem broken_config sha1 look o f flags c : look [] = CfgError -> process sha1 look o f flags c = (f, Exit 1 [] false).
Proof. intro H. unfold process. now rewrite !startup, H. Qed.
Theorem version_works sha1 look o f flags : look [] <> CfgError -> process sha1 look o f flags CVersion = (f, Exit 0 [] true).
Proof. intro H. unfold process. rewrite !startup. destruct (look []); congruence. Qed.

(* a document for witnesses *)
Definition cx_doc : bytes := str "d8:announce3:url4:infod6:lengthi5e4:name1:n12:piece lengthi4e6:pieces0:ee".
Definition cx_multi : bytes := str "d8:announce3:url4:infod5:filesld6:lengthi5e4:pathl1:aeed6:lengthi5e4:pathl1:beee4:name1:n12:piece lengthi4e6:pieces0:ee".
Definition cx_os (doc : bytes) (creat : bytes -> bool) : osenv := mkOs [] (fun _ => Some true) (fun _ => Some doc) creat false.
Theorem log_flags_refuted (sha1 : bytes -> bytes) :
  ~ (forall look o f flags c f' l t, process sha1 look o f flags c = (f', Download (Some l) t) ->
       NewCommandLine (cf_level flags) (cf_format flags) = Ok l).
Proof. intro H.
  specialize (H (fun _ => CfgMissing) (cx_os cx_doc (fun _ => true)) (fun _ => None) (mkConfig (str "debug") (str "json") []) (CDownload (str "/o") (str "t"))).
  destruct (process sha1 (fun _ => CfgMissing) (cx_os cx_doc (fun _ => true)) (fun _ => None) (mkConfig (str "debug") (str "json") []) (CDownload (str "/o") (str "t"))) as [f' out] eqn:E.
  vm_compute in E. injection E as E1 E2. subst out. specialize (H f' _ _ eq_refl). vm_compute in H. discriminate H. Qed.
Theorem config_refuted (sha1 : bytes -> bytes) :
  ~ (forall look look' o f flags c, cf_path flags <> [] -> look (cf_path flags) = look' (cf_path flags) ->
       process sha1 look o f flags c = process sha1 look' o f flags c).
Proof. intro H.
  specialize (H (fun p => if beq p [] then CfgError else CfgRead) (fun _ => CfgRead) (cx_os cx_doc (fun _ => true)) (fun _ => None)
    (mkConfig (str "info") (str "color") (str "c.yaml")) CVersion ltac:(discriminate) eq_refl).
  vm_compute in H. discriminate H. Qed.

(* ---------- failing downloads ---------- *)
Lemma create_files_partial cwd creat : forall paths f f' r, create_files cwd creat f paths = (f', r) -> forall q,
  f' q = f q \/ (f' q = Some [] /\ exists p, In p paths /\ creat p = true /\ os_place cwd p = q).
Proof. induction paths as [|p ps IH]; intros f f' r H q; cbn in H; [injection H as <- _; auto|].
  destruct (creat p) eqn:Ec; [|injection H as <- _; auto].
  destruct (create_files cwd creat (fs_put f (os_place cwd p) []) ps) as [f1 r1] eqn:E. injection H as <- _.
  destruct (IH _ _ _ E q) as [Hq|(Hq & p' & Hp & Hc & Hpl)].
  - unfold fs_put in Hq. destruct (peq (os_place cwd p) q) eqn:Ep; [|auto]. right. split; [exact Hq|]. exists p. split; [now left|]. split; [exact Ec|].
    revert Ep. clear. revert q. generalize (os_place cwd p) as a. induction a as [|x a IHa]; intros [|y q] E; cbn in E; try discriminate; [reflexivity|].
    apply andb_true_iff in E as [E1 E2]. apply beq_eq in E1. subst. f_equal. auto.
  - right. split; [exact Hq|]. exists p'. split; [now right|auto]. Qed.
Lemma create_files_total cwd creat : forall paths f f' r, create_files cwd creat f paths = (f', r) ->
  (exists hs, r = Ok hs) \/ (exists e p, r = Err e /\ In p paths /\ creat p = false).
Proof. induction paths as [|p ps IH]; intros f f' r H; cbn in H; [injection H as _ <-; eauto|].
  destruct (creat p) eqn:Ec; [|injection H as _ <-; right; exists "create"%string, p; cbn; auto].
  destruct (create_files cwd creat (fs_put f (os_place cwd p) []) ps) as [f1 r1] eqn:E. injection H as _ <-.
  destruct (IH _ _ _ E) as [(hs & ->)|(e & p' & -> & Hp & Hc)]; cbn; [eauto|right; exists e, p'; auto]. Qed.

Lemma new_result cwd creat mk f m hash dir f' r : New cwd creat mk f m hash dir = (f', r) -> (forall t, r <> Ok t) ->
  f' = f \/ (exists e, r = Err e) /\ exists paths p, download_paths dir (mi_length m =? 0) (mi_name m) (if mi_length m =? 0 then mi_files m else []) = Ok paths /\
    In p paths /\ creat p = false /\
    forall q, f' q = f q \/ (f' q = Some [] /\ exists p, In p paths /\ creat p = true /\ os_place cwd p = q).
Proof. unfold New. destruct (NewPieces (mi_pieces m)); try (intros H _; injection H as <- _; auto; fail).
  destruct (_ && mk); [intros H _; injection H as <- _; auto|].
  destruct (download_paths _ _ _ _) as [paths| | |] eqn:Ep; try (intros H _; injection H as <- _; auto; fail).
  destruct (create_files cwd creat f paths) as [f1 r1] eqn:Ec. intros H Hn. injection H as <- <-. right.
  destruct (create_files_total _ _ _ _ _ _ Ec) as [(hs & ->)|(e & p & -> & Hp & Hc)]; [exfalso; eapply Hn; reflexivity|].
  split; [eexists; reflexivity|]. exists paths, p. split; [reflexivity|]. split; [exact Hp|]. split; [exact Hc|]. eapply create_files_partial; exact Ec. Qed.

Theorem failed_no_create_error sha1 o f out file f' r :
  runDownload sha1 o f out file = (f', r) -> (forall t, r <> DStart t) -> (forall p, o_creat o p = true) -> f' = f.
Proof. unfold runDownload. intros H Hn Hc.
  destruct (o_stat o out) as [[|]|]; [|injection H as <- _; reflexivity|injection H as <- _; reflexivity].
  destruct (o_file o file) as [d|]; [|injection H as <- _; reflexivity].
  destruct (UnmarshalMetainfo d) as [g [u|e| |]]; [|injection H as <- _; reflexivity|injection H as <- _; reflexivity|injection H as <- _; reflexivity].
  destruct (New _ _ _ _ _ _ _) as [f1 r1] eqn:E.
  assert (Hr : forall t, r1 <> Ok t) by (intros t ->; injection H as _ <-; eapply Hn; reflexivity).
  destruct (new_result _ _ _ _ _ _ _ _ _ E Hr) as [->|(_ & paths & p & _ & _ & Hf & _)]; [|rewrite Hc in Hf; discriminate].
  destruct r1; injection H as <- _; reflexivity. Qed.
(* what is left behind: only files of this torrent, and these are empty *)
Theorem failed_leaves sha1 o f out file f' r :
  runDownload sha1 o f out file = (f', r) -> (forall t, r <> DStart t) ->
  f' = f \/ exists d g paths, o_stat o out = Some true /\ o_file o file = Some d /\ UnmarshalMetainfo d = (g, Ok tt) /\
    download_paths out (mi_length (metainfo_of g) =? 0) (mi_name (metainfo_of g))
      (if mi_length (metainfo_of g) =? 0 then mi_files (metainfo_of g) else []) = Ok paths /\ (exists p, In p paths /\ o_creat o p = false) /\
    forall q, f' q = f q \/ (f' q = Some [] /\ exists p, In p paths /\ o_creat o p = true /\ os_place (o_cwd o) p = q).
Proof. unfold runDownload. intros H Hn.
  destruct (o_stat o out) as [[|]|]; [|injection H as <- _; auto|injection H as <- _; auto].
  destruct (o_file o file) as [d|]; [|injection H as <- _; auto].
  destruct (UnmarshalMetainfo d) as [g [u|e| |]] eqn:Eu; [|injection H as <- _; auto|injection H as <- _; auto|injection H as <- _; auto].
  destruct (New _ _ _ _ _ _ _) as [f1 r1] eqn:E.
  assert (Hr : forall t, r1 <> Ok t) by (intros t ->; injection H as _ <-; eapply Hn; reflexivity).
  assert (f1 = f') by (destruct r1; injection H as <- _; reflexivity). subst f1.
  destruct (new_result _ _ _ _ _ _ _ _ _ E Hr) as [->|(_ & paths & p & Ep & Hp & Hf & Hq)]; [auto|right].
  destruct u. exists d, g, paths. repeat (split; [reflexivity || assumption|]). split; [exists p; auto|exact Hq]. Qed.
Theorem failed_refuted (sha1 : bytes -> bytes) :
  ~ (forall o f out file f' e, runDownload sha1 o f out file = (f', DErr e) -> f' = f).
Proof. intro H.
  specialize (H (cx_os cx_multi (fun p => beq p (str "/o/n/a"))) (fun _ => Some [1]) (str "/o") (str "t")).
  destruct (runDownload sha1 (cx_os cx_multi (fun p => beq p (str "/o/n/a"))) (fun _ => Some [1]) (str "/o") (str "t")) as [f' r] eqn:E.
  vm_compute in E. injection E as E1 E2. subst r. specialize (H _ _ eq_refl).
  assert (A : f' [str "o"; str "n"; str "a"] = Some []) by (rewrite <- E1; vm_compute; reflexivity). rewrite H in A. discriminate A. Qed.

(* ---------- started downloads ---------- *)
Theorem started sha1 o f out file f' t : runDownload sha1 o f out file = (f', DStart t) ->
  (forall d, o_file o file = Some d -> fits d) ->
  exists d g m raw M, o_stat o out = Some true /\ o_file o file = Some d /\ UnmarshalMetainfo d = (g, Ok tt) /\
    Parse d = Ok (BDict true m raw) /\ says m M /\
    New (o_cwd o) (o_creat o) (o_mkdir_missing o) f M (Hash sha1 g) out = (f', Ok t).
Proof. unfold runDownload. intros H Hf.
  destruct (o_stat o out) as [[|]|]; try discriminate H. destruct (o_file o file) as [d|]; [|discriminate H]. specialize (Hf d eq_refl).
  destruct (UnmarshalMetainfo d) as [g [[]|e| |]] eqn:Eu; try discriminate H.
  destruct (New _ _ _ _ _ _ _) as [f1 [t1|e| |]] eqn:E; try discriminate H. injection H as <- <-.
  destruct metainfo_hyps as (Hw & Ht & _ & Hh). pose proof Eu as Eu'. apply unmarshal_exact in Eu' as (m & raw & news & Ep & _ & _); auto.
  exists d, g, m, raw, (metainfo_of g). repeat (split; [reflexivity || assumption|]). split; [eapply metainfo_says; eassumption|exact E]. Qed.

(* ---------- bencode command ---------- *)
Definition valid_torrent (d : bytes) : Prop := exists m raw news, Parse d = Ok (BDict true m raw) /\ conv_fields m Metainfo_fields Metainfo_zero news.
Theorem bencode_status look o file l : NewCmdRun look defaults = Some l -> (forall d, o_file o file = Some d -> fits d) ->
  fst (bencodeCmd l o file) = [] /\
  (snd (bencodeCmd l o file) = 0 <-> exists d, o_file o file = Some d /\ valid_torrent d) /\
  (snd (bencodeCmd l o file) = 2 <-> exists d, o_file o file = Some d /\ (Parse d = Panic \/ exists e, Parse d = Ok e /\ forall m raw, e <> BDict true m raw)) /\
  In (snd (bencodeCmd l o file)) [0; 1; 2].
Proof. intros Hl Hf. rewrite startup in Hl.
  assert (l = Some (Logger InfoLevel ColorEncoder)) as -> by (destruct (look []); congruence). clear Hl.
  unfold bencodeCmd. destruct (o_file o file) as [d|].
  2:{ cbn. split; [reflexivity|]. split; [split; [discriminate|intros (d & E & _); discriminate E]|]. split; [split; [discriminate|intros (d & E & _); discriminate E]|auto]. }
  specialize (Hf d eq_refl). destruct metainfo_hyps as (Hw & Ht & Hk & Hh).
  assert (HU : snd (UnmarshalMetainfo d) = Ok tt <-> valid_torrent d).
  { unfold valid_torrent. split.
    - intro E. destruct (UnmarshalMetainfo d) as [g r] eqn:Eu. cbn in E. subst r. apply unmarshal_exact in Eu as (m & raw & news & Ep & Hc & _); eauto 6.
    - intros (m & raw & news & Ep & Hc).
      assert (E : UnmarshalMetainfo d = (VStruct news, Ok tt)) by (apply unmarshal_exact; eauto 8). rewrite E. reflexivity. }
  pose proof (unmarshal_panics d Metainfo_fields Metainfo_zero Hf Hk) as HP. fold (UnmarshalMetainfo d) in HP.
  assert (HD : snd (UnmarshalMetainfo d) <> Diverge).
  { pose proof (parse_terminates d) as HT. destruct (Parse d) as [e|e| |] eqn:Ep; [|unfold UnmarshalMetainfo, Unmarshal; rewrite Ep; discriminate|unfold UnmarshalMetainfo, Unmarshal; rewrite Ep; discriminate|contradiction].
    assert (Hd : (exists m raw, e = BDict true m raw) \/ forall m raw, e <> BDict true m raw).
    { destruct e as [| | | |p m raw]; try (right; discriminate). destruct p; [left; eauto|right; discriminate]. }
    destruct Hd as [(m & raw & ->)|Hd].
    - destruct (unmarshal_fine d Metainfo_fields Metainfo_zero m raw Hf Hk Ep) as [[[] E]|[x E]]; fold (UnmarshalMetainfo d) in E; rewrite E; discriminate.
    - unfold UnmarshalMetainfo, Unmarshal, processTarget. rewrite Ep. destruct e as [| | | |p m raw]; try (cbn [snd]; rewrite Hh; discriminate).
      destruct p; [exfalso; eapply Hd; reflexivity|]. cbn [snd]; rewrite Hh; discriminate. }
  assert (HP2 : snd (UnmarshalMetainfo d) = Panic <-> Parse d = Panic \/ exists e, Parse d = Ok e /\ forall m raw, e <> BDict true m raw).
  { rewrite HP. split; (intros [H|H]; [auto|right]); [destruct H as [_ H]; exact H|split; [exact Hh|exact H]]. }
  destruct (snd (UnmarshalMetainfo d)) as [[]|e| |] eqn:E; cbn [fst snd In].
  - split; [reflexivity|]. split; [split; [intros _; exists d; split; [reflexivity|apply HU; reflexivity]|reflexivity]|].
    split; [split; [discriminate|]|auto]. intros (d' & Ed & H). injection Ed as <-. apply HP2 in H. discriminate H.
  - split; [reflexivity|]. split; [split; [discriminate|]|]. { intros (d' & Ed & H). injection Ed as <-. apply HU in H. discriminate H. }
    split; [split; [discriminate|]|auto]. intros (d' & Ed & H). injection Ed as <-. apply HP2 in H. discriminate H.
  - split; [reflexivity|]. split; [split; [discriminate|]|]. { intros (d' & Ed & H). injection Ed as <-. apply HU in H. discriminate H. }
    split; [split; [intros _; exists d; split; [reflexivity|apply HP2; reflexivity]|reflexivity]|auto].
  - contradiction. Qed.
Theorem bencode_prints_refuted : ~ (forall l o file, snd (bencodeCmd (Some l) o file) = 0 -> fst (bencodeCmd (Some l) o file) <> []).
Proof. intro H. apply (H Nop (cx_os cx_doc (fun _ => true)) (str "t")); vm_compute; reflexivity. Qed.

(* ---------- exit status ---------- *)
Theorem status_exact sha1 w0 l w tr s : run sha1 l (start w0) = (w, tr) -> exit_status w = Some s -> (s = 0 /\ In ACancel l) \/ (s = 2 /\ crashed w = true).
Proof. intros H E. unfold exit_status in E. destruct (crashed w); [injection E as <-; auto|]. destruct (wo_main w) eqn:Em; try discriminate E.
  injection E as <-. left. split; [reflexivity|]. eapply never_returns; eassumption. Qed.
Theorem status_refuted (sha1 : bytes -> bytes) :
  ~ (forall look o f flags c f' l t outs sched w tr, process sha1 look o f flags c = (f', Download l t) ->
       run sha1 sched (start (mkW t f' outs [] false)) = (w, tr) -> exit_status w = Some 0 -> Done (w_t (sh_w (wo_sh w))) = true).
Proof. intro H.
  specialize (H (fun _ => CfgMissing) (cx_os cx_doc (fun _ => true)) (fun _ => None) defaults (CDownload (str "/o") (str "t"))).
  destruct (process sha1 (fun _ => CfgMissing) (cx_os cx_doc (fun _ => true)) (fun _ => None) defaults (CDownload (str "/o") (str "t"))) as [f' out] eqn:E.
  vm_compute in E. injection E as E1 E2. subst out. specialize (H f' _ _ [] [AMain; ACancel; AMain; AMain] _ _ eq_refl eq_refl eq_refl).
  discriminate H. Qed.

Lemma initConfig_exact look p : initConfig look p = Ok tt <-> look p = CfgRead \/ (p = [] /\ look p = CfgMissing).
Proof.
  unfold initConfig. destruct (look p) eqn:L.
  - split; auto.
  - destruct p; cbn; split; auto; intros H; try discriminate; destruct H as [H|[H _]]; discriminate.
  - split; [discriminate|]. intros [H|[_ H]]; discriminate.
Qed.

Lemma not_started : forall sha1 look o f flags c f' s out v, process sha1 look o f flags c = (f', Exit s out v) ->
  c = CBad \/ (exists d t, c = CDownload d t) -> s = 1 /\ out = [] /\ v = false.
Proof.
  intros sha1 look o f flags c f' s out v H Hc. unfold process in H.
  destruct (NewCmdRun look defaults) as [l|]; [|inversion H; auto].
  destruct Hc as [->|(d & t & ->)]; [inversion H; auto|].
  destruct (runDownload sha1 o f d t) as [f1 r1]; destruct r1; inversion H; auto.
Qed.
