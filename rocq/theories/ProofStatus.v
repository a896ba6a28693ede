(* The exit status before a download begins. *)
From Verif Require Import Base ProofBase ModelBencode SpecBencode ModelUnmarshal SpecUnmarshal ProofNum ProofUnmarshal ProofUnmarshalMore ProofBencode ProofBencodeGrammar ProofBencodeMore
  SpecPath ModelPath ModelStats ModelTorrent SpecTorrent ProofTorrent ProofNew ModelLogger ModelConn ModelPeer ModelSystem ModelTracker ModelManager ModelClient ModelCmd ModelProgram SpecCmd SpecStatus ProofPath ProofBreaks ProofCmd ProofProgram ProofClient4.

(* ---------- documents ---------- *)
Lemma text_conv o v s : as_text v s -> exists g, conv TString o v g.
Proof. intros [H _]. eexists. apply cv_string, H. Qed.
Lemma number_conv o v n : v <> BNil -> as_number v n -> exists g, conv (TInt 64) o v g.
Proof. intros Hv [H1 H2]. eexists. apply cv_int with (n := n); assumption. Qed.
Lemma list_conv {A} (P : ben -> A -> Prop) t : is_u8 t = false -> (forall v x, P v x -> exists g, conv t (zero t) v g) ->
  forall o v l, as_list P v l -> exists g, conv (TSlice t) o v g.
Proof.
  intros Hu HP o v l (vs & raw & -> & H).
  assert (G : exists gs, conv_list t vs gs).
  { induction H as [|v x vs l Hx _ [gs IH]]; [exists []; constructor|]. destruct (HP _ _ Hx) as [g Hg]. exists (g :: gs). constructor; assumption. }
  destruct G as [gs G]. exists (VSlice gs). apply cv_slice with (vs := vs); [exact Hu|eexists; reflexivity|exact G].
Qed.
Lemma texts_conv o v l : as_list as_text v l -> exists g, conv (TSlice TString) o v g.
Proof. apply list_conv; [reflexivity|]. intros. eapply text_conv; eassumption. Qed.
Lemma add_required {A} (P : ben -> A -> Prop) m k x tag t o {fs olds news} : conv_fields m fs olds news -> tag <> [] -> tag_name tag = str k -> required m k P x ->
  (forall v, v <> BNil -> P v x -> exists g, conv t o v g) -> exists news', conv_fields m ((tag, true, t) :: fs) (o :: olds) news'.
Proof.
  intros HF Hn Ht (v & [Hl Hv] & HP) HC. destruct (HC v Hv HP) as [g Hg]. exists (g :: news).
  eapply cf_present with (key := str k) (opt := tag_optional tag); [exact Hn|apply tag_means_iff; auto|exact Hl|exact Hv|exact Hg|exact HF].
Qed.
Lemma add_optional {A} (P : ben -> A -> Prop) m k d x tag t o {fs olds news} : conv_fields m fs olds news -> tag <> [] -> tag_name tag = str k -> tag_optional tag = true -> optional m k P d x ->
  (forall v, v <> BNil -> P v x -> exists g, conv t o v g) -> exists news', conv_fields m ((tag, true, t) :: fs) (o :: olds) news'.
Proof.
  intros HF Hn Ht Ho [[Ha _]|H] HC; [|eapply add_required; eassumption].
  exists (o :: news). eapply cf_absent with (key := str k); [exact Hn|apply tag_means_iff; auto|exact Ha|exact HF].
Qed.
Arguments add_required {A} P m k%string_scope x tag t o {fs olds news}.
Arguments add_optional {A} P m k%string_scope d x tag t o {fs olds news}.
Lemma some_text m k : exists s, optional m k as_text [] s.
Proof.
  destruct (lookup (str k) m) as [v|] eqn:E; [|exists []; left; split; [left; exact E|reflexivity]].
  destruct v as [|n|s|p l r|p l r]; [exists []; left; split; [right; exact E|reflexivity]| | | |]; (eexists; right; eexists; split; [split; [exact E|discriminate]|split; [discriminate|reflexivity]]).
Qed.
Arguments some_text m k%string_scope.
Lemma file_conv v x : as_file v x -> exists g, conv TorrentFile_ty (zero TorrentFile_ty) v g.
Proof.
  intros (m & raw & p & n & -> & Vp & Hp & Vn & Hn).
  destruct (add_required as_number m "length" (tf_length x) (str "length") (TInt 64) (zero (TInt 64)) (cf_nil _)) as [n1 F1];
    [discriminate|reflexivity|exists n; auto|intros; eapply number_conv; eassumption|].
  destruct (add_required (as_list as_text) m "path" (tf_path x) (str "path") (TSlice TString) (zero (TSlice TString)) F1) as [n2 F2];
    [discriminate|reflexivity|exists p; auto|intros; eapply texts_conv; eassumption|].
  exists (VStruct n2). apply cv_struct with (m := m); [eexists; reflexivity|exact F2].
Qed.

Lemma says_conv m M n : says m M -> optional m "creation date" as_number 0 n -> exists news, conv_fields m Metainfo_fields Metainfo_zero news.
Proof.
  intros (info & raw & VI & H1 & H2 & H3 & H4 & H5 & H6 & H7 & H8) Hc.
  (* info *)
  destruct (add_required as_text info "pieces" _ (str "pieces") TString (zero TString) (cf_nil _) ltac:(discriminate) eq_refl H8) as [p1 F1]; [intros; eapply text_conv; eassumption|].
  destruct (add_required as_number info "piece length" _ (str "piece length") (TInt 64) (zero (TInt 64)) F1 ltac:(discriminate) eq_refl H7) as [p2 F2]; [intros; eapply number_conv; eassumption|].
  destruct (add_required as_text info "name" _ (str "name") TString (zero TString) F2 ltac:(discriminate) eq_refl H6) as [p3 F3]; [intros; eapply text_conv; eassumption|].
  destruct (add_optional as_number info "length" _ _ (str "length,optional") (TInt 64) (zero (TInt 64)) F3 ltac:(discriminate) eq_refl eq_refl H5) as [p4 F4]; [intros; eapply number_conv; eassumption|].
  destruct (add_optional (as_list as_file) info "files" _ _ (str "files,optional") (TSlice TorrentFile_ty) (zero (TSlice TorrentFile_ty)) F4 ltac:(discriminate) eq_refl eq_refl H4) as [p5 F5];
    [intros; eapply list_conv; [reflexivity|exact file_conv|eassumption]|].
  (* the rest *)
  destruct (some_text m "encoding") as [s9 G9]. destruct (some_text m "created by") as [s7 G7]. destruct (some_text m "comment") as [s6 G6].
  destruct (add_optional as_text m "encoding" _ _ (str "encoding,optional") TString (zero TString) (cf_nil _) ltac:(discriminate) eq_refl eq_refl G9) as [q9 K9]; [intros; eapply text_conv; eassumption|].
  destruct (add_optional as_number m "creation date" _ _ (str "creation date,optional") (TInt 64) (zero (TInt 64)) K9 ltac:(discriminate) eq_refl eq_refl Hc) as [q8 K8]; [intros; eapply number_conv; eassumption|].
  destruct (add_optional as_text m "created by" _ _ (str "created by,optional") TString (zero TString) K8 ltac:(discriminate) eq_refl eq_refl G7) as [q7 K7]; [intros; eapply text_conv; eassumption|].
  destruct (add_optional as_text m "comment" _ _ (str "comment,optional") TString (zero TString) K7 ltac:(discriminate) eq_refl eq_refl G6) as [q6 K6]; [intros; eapply text_conv; eassumption|].
  assert (VR : required m "info" (fun v (_ : unit) => v = BDict true info raw) tt) by (exists (BDict true info raw); auto).
  destruct (add_required _ m "info" _ (str "info") (TSlice (TUint 8)) (zero (TSlice (TUint 8))) K6 ltac:(discriminate) eq_refl VR) as [q5 K5];
    [intros v Hv ->; eexists; apply cv_bytes; [reflexivity|exact Hv]|].
  destruct (add_required _ m "info" _ (str "info") Info_ty (zero Info_ty) K5 ltac:(discriminate) eq_refl VR) as [q4 K4];
    [intros v Hv ->; eexists; apply cv_struct with (m := info); [eexists; reflexivity|exact F5]|].
  destruct (add_optional (as_list as_text) m "url-list" _ _ (str "url-list,optional") (TSlice TString) (zero (TSlice TString)) K4 ltac:(discriminate) eq_refl eq_refl H3) as [q3 K3]; [intros; eapply texts_conv; eassumption|].
  destruct (add_optional (as_list (as_list as_text)) m "announce-list" _ _ (str "announce-list,optional") (TSlice (TSlice TString)) (zero (TSlice (TSlice TString))) K3 ltac:(discriminate) eq_refl eq_refl H2) as [q2 K2];
    [intros; eapply list_conv; [reflexivity| |eassumption]; intros; eapply texts_conv; eassumption|].
  destruct (add_required as_text m "announce" _ (str "announce") TString (zero TString) K2 ltac:(discriminate) eq_refl H1) as [q1 K1]; [intros; eapply text_conv; eassumption|].
  exists q1. exact K1.
Qed.
Lemma conv_date m news : conv_fields m Metainfo_fields Metainfo_zero news -> exists n, optional m "creation date" as_number 0 n.
Proof.
  intros Hc. unfold Metainfo_fields, Metainfo_zero, fld in Hc. cbn [map snd] in Hc.
  do 7 (apply field_inv in Hc as (? & ? & -> & Hc & _); [|discriminate]).
  apply field_inv in Hc as (g & k & -> & _ & D); [|discriminate].
  destruct D as [(_ & Ha & _)|(v & Hl & Hv & C)]; [exists 0; left; split; [exact Ha|reflexivity]|].
  exists (int_val g). right. exists v. split; [split; assumption|exact (conv_number _ _ _ C)].
Qed.

Lemma unmarshal_reads d g : fits d -> UnmarshalMetainfo d = (g, Ok tt) -> reads_torrent d (metainfo_of g).
Proof.
  intros Hf HU. destruct metainfo_hyps as (Hw & Ht & _ & Hh). pose proof HU as HU'. apply unmarshal_exact in HU' as (m & raw & news & Ep & Hc & _); auto.
  destruct (conv_date _ _ Hc) as [n Hn]. pose proof (metainfo_says d g m raw Hf HU Ep) as HS.
  apply parse_iff in Ep as (w & post & E & Hd); [|exact Hf]. assert (raw = w) as -> by (inversion Hd; reflexivity).
  exists m, w, post, n. auto.
Qed.
Lemma reads_unmarshal d M : fits d -> reads_torrent d M -> exists g, UnmarshalMetainfo d = (g, Ok tt) /\ metainfo_of g = M.
Proof.
  intros Hf (m & raw & post & n & E & Hd & HS & Hn). destruct metainfo_hyps as (Hw & Ht & _ & Hh).
  destruct (says_conv _ _ _ HS Hn) as [news Hc].
  assert (Ep : Parse d = Ok (BDict true m raw)) by (apply parse_iff; [exact Hf|]; exists raw, post; auto).
  assert (HU : UnmarshalMetainfo d = (VStruct news, Ok tt)) by (apply unmarshal_exact; eauto 8).
  exists (VStruct news). split; [exact HU|]. eapply says_fun; [eapply metainfo_says; eassumption|exact HS].
Qed.
Lemma reads_fun d M M' : fits d -> reads_torrent d M -> reads_torrent d M' -> M = M'.
Proof. intros Hf H H'. destruct (reads_unmarshal _ _ Hf H) as (g & E & <-). destruct (reads_unmarshal _ _ Hf H') as (g' & E' & <-). congruence. Qed.

Lemma unmarshal_crashes d : fits d -> (snd (UnmarshalMetainfo d) = Panic <-> crashes d).
Proof.
  intros Hf. destruct metainfo_hyps as (_ & _ & Hk & Hh). unfold UnmarshalMetainfo. rewrite (unmarshal_panics d Metainfo_fields Metainfo_zero Hf Hk). unfold crashes. rewrite (parse_breaks d Hf).
  split; (intros [H|H]; [left; exact H|right]).
  - destruct H as (_ & e & Ep & He). apply parse_iff in Ep as (w & post & E & Hd); [|exact Hf]. exists w, post, e. auto.
  - destruct H as (w & post & e & E & Hd & He). split; [exact Hh|]. exists e. split; [|exact He]. apply parse_iff; [exact Hf|]. exists w, post. auto.
Qed.
Lemma unmarshal_ends d : fits d -> snd (UnmarshalMetainfo d) <> Diverge.
Proof.
  intros Hf. destruct metainfo_hyps as (Hw & Ht & Hk & Hh). pose proof (parse_terminates d) as HT.
  destruct (Parse d) as [e|e| |] eqn:Ep; [|unfold UnmarshalMetainfo, Unmarshal; rewrite Ep; discriminate|unfold UnmarshalMetainfo, Unmarshal; rewrite Ep; discriminate|contradiction].
  assert (Hd : (exists m raw, e = BDict true m raw) \/ forall m raw, e <> BDict true m raw).
  { destruct e as [| | | |p m raw]; try (right; discriminate). destruct p; [left; eauto|right; discriminate]. }
  destruct Hd as [(m & raw & ->)|Hd].
  - destruct (unmarshal_fine d Metainfo_fields Metainfo_zero m raw Hf Hk Ep) as [[[] E]|[x E]]; fold (UnmarshalMetainfo d) in E; rewrite E; discriminate.
  - unfold UnmarshalMetainfo, Unmarshal, processTarget. rewrite Ep. destruct e as [| | | |p m raw]; try (cbn [snd]; rewrite Hh; discriminate).
    destruct p; [exfalso; eapply Hd; reflexivity|]. cbn [snd]; rewrite Hh; discriminate.
Qed.
(* the four outcomes *)
Lemma unmarshal_cases d : fits d ->
  (exists g M, UnmarshalMetainfo d = (g, Ok tt) /\ metainfo_of g = M /\ reads_torrent d M /\ ~ crashes d) \/
  (exists g e, UnmarshalMetainfo d = (g, Err e) /\ ~ crashes d /\ forall M, ~ reads_torrent d M) \/
  (exists g, UnmarshalMetainfo d = (g, Panic) /\ crashes d /\ forall M, ~ reads_torrent d M).
Proof.
  intros Hf. pose proof (unmarshal_crashes d Hf) as HC. pose proof (unmarshal_ends d Hf) as HD.
  assert (HR : forall M, reads_torrent d M -> snd (UnmarshalMetainfo d) = Ok tt) by (intros M H; destruct (reads_unmarshal _ _ Hf H) as (g & E & _); rewrite E; reflexivity).
  destruct (UnmarshalMetainfo d) as [g [[]|e| |]] eqn:E; cbn [snd] in *.
  - left. exists g, (metainfo_of g). split; [reflexivity|]. split; [reflexivity|]. split; [apply unmarshal_reads; assumption|]. intros H. apply HC in H. discriminate H.
  - right; left. exists g, e. split; [reflexivity|]. split; [intros H; apply HC in H; discriminate H|]. intros M H. apply HR in H. discriminate H.
  - right; right. exists g. split; [reflexivity|]. split; [apply HC; reflexivity|]. intros M H. apply HR in H. discriminate H.
  - contradiction.
Qed.

(* ---------- torrent.New ---------- *)
Lemma file_paths_ok dir : forall files, Forall (fun x => tf_path x <> []) files -> file_paths dir files = Ok (map (fun x => Join dir (hd [] (tf_path x))) files).
Proof. induction files as [|x files IH]; intros H; [reflexivity|]. inversion H as [|? ? Hx Hr]; subst. cbn [file_paths map]. destruct (tf_path x) as [|c cs]; [contradiction|]. rewrite (IH Hr). reflexivity. Qed.
Lemma file_paths_panic dir : forall files, ~ Forall (fun x => tf_path x <> []) files -> file_paths dir files = Panic.
Proof.
  induction files as [|x files IH]; intros H; [exfalso; apply H; constructor|]. cbn [file_paths]. destruct (tf_path x) as [|c cs] eqn:E; [reflexivity|].
  rewrite IH; [reflexivity|]. intros K. apply H. constructor; [congruence|exact K].
Qed.
Lemma create_all cwd creat : forall ps f, Forall (fun p => creat p = true) ps -> exists f' hs, create_files cwd creat f ps = (f', Ok hs).
Proof. induction ps as [|p ps IH]; intros f H; [eexists _, _; reflexivity|]. inversion H as [|? ? Hp Hr]; subst. cbn [create_files]. rewrite Hp. destruct (IH (fs_put f (os_place cwd p) []) Hr) as (f' & hs & ->). eexists _, _. reflexivity. Qed.
Lemma create_some cwd creat ps f : ~ Forall (fun p => creat p = true) ps -> exists f' e, create_files cwd creat f ps = (f', Err e).
Proof.
  revert f. induction ps as [|p ps IH]; intros f H; [exfalso; apply H; constructor|]. cbn [create_files]. destruct (creat p) eqn:Ec; [|eexists _, _; reflexivity].
  destruct (IH (fs_put f (os_place cwd p) [])) as (f' & e & ->); [intros K; apply H; constructor; assumption|]. eexists _, _. reflexivity.
Qed.
Lemma have_paths_dec M : have_paths M \/ ~ have_paths M.
Proof.
  unfold have_paths. destruct (Z.eq_dec (mi_length M) 0) as [E|E]; [|left; intros; contradiction].
  destruct (Forall_dec (fun x => tf_path x <> [])) with (l := mi_files M) as [H|H]; [intros x; destruct (tf_path x); [right; auto|left; discriminate]|left; auto|right; auto].
Qed.
Lemma creatable_dec o out M : creatable o out M \/ ~ creatable o out M.
Proof. unfold creatable. destruct (Forall_dec (fun p => o_creat o p = true)) with (l := paths out M) as [H|H]; [intros p; destruct (o_creat o p); [left; auto|right; discriminate]|left; auto|right; auto]. Qed.
Lemma mkdir_dec o M : mkdir_ok o M \/ ~ mkdir_ok o M.
Proof. unfold mkdir_ok. destruct (Z.eq_dec (mi_length M) 0); [|left; intros; contradiction]. destruct (o_mkdir_missing o); [right; intros H; discriminate (H e)|left; auto]. Qed.

Lemma new_cases o f M hash out : let r := New (o_cwd o) (o_creat o) (o_mkdir_missing o) f M hash out in
  (exists f' t, r = (f', Ok t) /\ whole_hashes M /\ mkdir_ok o M /\ have_paths M /\ creatable o out M /\ forall s, ~ new_ends o out M s) \/
  (exists f' e, r = (f', Err e) /\ forall s, new_ends o out M s <-> s = 1) \/
  (exists f', r = (f', Panic) /\ forall s, new_ends o out M s <-> s = 2).
Proof.
  cbn zeta. unfold New. destruct (new_pieces_full (mi_pieces M)) as [He Hok].
  destruct (Z.eq_dec (zlen (mi_pieces M) mod 20) 0) as [E|E].
  2:{ destruct (He E) as [e ->]. right; left. exists f, e. split; [reflexivity|]. intros s. split; [|intros ->; constructor; exact E].
      intros H. inversion H; subst; unfold whole_hashes in *; congruence. }
  destruct (Hok E) as (ps & -> & _).
  assert (ED : (mi_length M =? 0) = true /\ mi_length M = 0 \/ (mi_length M =? 0) = false /\ mi_length M <> 0) by lia.
  destruct (mkdir_dec o M) as [Hm|Hm].
  2:{ destruct ED as [[-> E0]|[-> E0]]; [|exfalso; apply Hm; intros X; contradiction].
      assert (o_mkdir_missing o = true) as -> by (destruct (o_mkdir_missing o) eqn:K; [reflexivity|exfalso; apply Hm; intros _; exact K]).
      cbn [andb]. right; left. exists f, "mkdir"%string. split; [reflexivity|]. intros s. split; [|intros ->; apply ne_mkdir; assumption].
      intros H. inversion H; subst; try reflexivity; contradiction. }
  assert (EM : (mi_length M =? 0) && o_mkdir_missing o = false) by (destruct ED as [[-> E0]|[-> E0]]; [exact (Hm E0)|reflexivity]). rewrite EM.
  destruct (have_paths_dec M) as [Hp|Hp].
  2:{ destruct ED as [[-> E0]|[-> E0]]; [|exfalso; apply Hp; intros X; contradiction].
      unfold download_paths. rewrite file_paths_panic by (intros K; apply Hp; intros _; exact K).
      right; right. exists f. split; [reflexivity|]. intros s. split; [|intros ->; apply ne_path; assumption].
      intros H. inversion H; subst; try reflexivity; contradiction. }
  assert (EP : download_paths out (mi_length M =? 0) (mi_name M) (if mi_length M =? 0 then mi_files M else []) = Ok (paths out M)).
  { unfold download_paths, paths. destruct ED as [[-> E0]|[-> E0]]; [apply file_paths_ok, Hp, E0|reflexivity]. }
  rewrite EP. destruct (creatable_dec o out M) as [Hc|Hc].
  - destruct (create_all (o_cwd o) (o_creat o) (paths out M) f Hc) as (f' & hs & ->). left. eexists _, _. split; [reflexivity|].
    do 4 (split; [assumption|]). intros s H. inversion H; subst; contradiction.
  - destruct (create_some (o_cwd o) (o_creat o) (paths out M) f Hc) as (f' & e & ->). right; left. exists f', e. split; [reflexivity|].
    intros s. split; [|intros ->; apply ne_create; assumption]. intros H. inversion H; subst; try reflexivity; contradiction.
Qed.

(* ---------- the process ---------- *)
Lemma run_cases sha1 o f out file : (forall d, o_file o file = Some d -> fits d) -> let r := runDownload sha1 o f out file in
  (exists f' t d M, r = (f', DStart t) /\ o_stat o out = Some true /\ o_file o file = Some d /\ reads_torrent d M /\ whole_hashes M /\ mkdir_ok o M /\ have_paths M /\ creatable o out M) \/
  (exists f' e, r = (f', DErr e) /\ (o_stat o out <> Some true \/ o_stat o out = Some true /\ (file_ends o file 1 \/ exists d M, o_file o file = Some d /\ reads_torrent d M /\ new_ends o out M 1))) \/
  (exists f', r = (f', DPanic) /\ o_stat o out = Some true /\ (file_ends o file 2 \/ exists d M, o_file o file = Some d /\ reads_torrent d M /\ new_ends o out M 2)).
Proof.
  intros Hf. cbn zeta. unfold runDownload. destruct (o_stat o out) as [[|]|]; [|right; left; exists f, "not a directory"%string; split; [reflexivity|left; discriminate]|right; left; exists f, "stat"%string; split; [reflexivity|left; discriminate]].
  destruct (o_file o file) as [d|] eqn:Ed; [|right; left; exists f, "open or read"%string; split; [reflexivity|right; split; [reflexivity|left; constructor; exact Ed]]].
  specialize (Hf d eq_refl).
  destruct (unmarshal_cases d Hf) as [(g & M & -> & <- & HR & _)|[(g & e & -> & Hc & Hn)|(g & -> & Hc & _)]].
  - destruct (new_cases o f (metainfo_of g) (Hash sha1 g) out) as [(f' & t & -> & H1 & H2 & H3 & H4 & _)|[(f' & e & -> & H)|(f' & -> & H)]].
    + left. exists f', t, d, (metainfo_of g). do 7 (split; [solve [reflexivity | assumption]|]). assumption.
    + right; left. exists f', e. split; [reflexivity|]. right. split; [reflexivity|]. right. exists d, (metainfo_of g). split; [reflexivity|]. split; [exact HR|]. apply H. reflexivity.
    + right; right. exists f'. split; [reflexivity|]. split; [reflexivity|]. right. exists d, (metainfo_of g). split; [reflexivity|]. split; [exact HR|]. apply H. reflexivity.
  - right; left. exists f, e. split; [reflexivity|]. right. split; [reflexivity|]. left. eapply fe_other; eassumption.
  - right; right. exists f. split; [reflexivity|]. split; [reflexivity|]. left. eapply fe_crash; eassumption.
Qed.
Lemma reads_not_crashes d M : fits d -> reads_torrent d M -> crashes d -> False.
Proof. intros Hf HR HC. destruct (reads_unmarshal _ _ Hf HR) as (g & E & _). apply (unmarshal_crashes d Hf) in HC. rewrite E in HC. discriminate HC. Qed.
Lemma new_ends_fun o out M s s' : new_ends o out M s -> new_ends o out M s' -> s = s'.
Proof. intros H H'. inversion H; inversion H'; subst; try reflexivity; contradiction. Qed.
Lemma file_ends_fun o file s s' : file_ends o file s -> file_ends o file s' -> s = s'.
Proof. intros H H'. inversion H; inversion H'; subst; try reflexivity; try congruence; match goal with A : o_file o file = Some ?a, B : o_file o file = Some ?b |- _ => assert (a = b) by congruence; subst; contradiction end. Qed.
Lemma file_ends_reads o file s d M : fits d -> file_ends o file s -> o_file o file = Some d -> reads_torrent d M -> False.
Proof.
  intros Hf H E HR. inversion H as [E1|d' E1 HC|d' E1 _ HN]; [congruence| |]; assert (d' = d) by congruence; subst d'; [exact (reads_not_crashes _ _ Hf HR HC)|exact (HN _ HR)].
Qed.
Lemma ends_fun look o c s s' : file_fits o c -> ends look o c s -> ends look o c s' -> s = s'.
Proof.
  intros Hf H H'. inversion H; subst; inversion H'; subst; try reflexivity; try contradiction; try congruence.
  all: try (eapply file_ends_fun; eassumption).
  all: try (exfalso; eapply file_ends_reads; [|eassumption|eassumption|eassumption]; eapply Hf; [reflexivity|eassumption]).
  match goal with A : o_file o file = Some ?a, B : o_file o file = Some ?b |- _ => assert (a = b) by congruence; subst end.
  match goal with A : reads_torrent ?a ?M, B : reads_torrent ?a ?M' |- _ => assert (M = M') by (eapply reads_fun; [|exact A|exact B]; eapply Hf; [reflexivity|eassumption]); subst end.
  eapply new_ends_fun; eassumption.
Qed.
Lemma starts_not_ends look o c s : file_fits o c -> starts look o c -> ~ ends look o c s.
Proof.
  intros Hf (out & file & d & M & -> & Hl & Hs & Hd & HR & H1 & H2 & H3 & H4) H. assert (Hfd : fits d) by (eapply Hf; [reflexivity|exact Hd]).
  inversion H as [| | | | | | | |? ? d' M' ? ? ? Hd' HR' HN]; subst; try contradiction.
  - eapply file_ends_reads; eassumption.
  - assert (d' = d) by congruence. subst d'. assert (M' = M) by (eapply reads_fun; eassumption). subst M'. inversion HN; contradiction.
Qed.

Theorem status_cases cf look o f flags c outs order : file_fits o c ->
  (exists s f', prog_start cf look o f flags c outs order = PExit s f' /\ ends look o c s) \/
  (exists k, prog_start cf look o f flags c outs order = PRun k /\ client_status k = None /\ starts look o c).
Proof.
  intros Hf. unfold prog_start, process. rewrite !startup.
  assert (HL : look [] = CfgError \/ look [] <> CfgError) by (destruct (look []); auto; right; discriminate).
  destruct HL as [HL|HL]; [rewrite HL; left; exists 1, f; split; [reflexivity|constructor; exact HL]|].
  assert (forall (A : Type) (x y : A), match look [] with CfgError => x | _ => y end = y) as EL by (intros; destruct (look []); congruence).
  rewrite !EL.
  destruct c as [| | |file|out file].
  - left. exists 1, f. split; [reflexivity|constructor; exact HL].
  - left. exists 0, f. split; [reflexivity|constructor; exact HL].
  - left. exists 0, f. split; [reflexivity|constructor; exact HL].
  - left. unfold bencodeCmd. destruct (o_file o file) as [d|] eqn:Ed; [|exists 1, f; split; [reflexivity|apply en_file; [exact HL|constructor; exact Ed]]].
    assert (Hfd : fits d) by (eapply Hf; [reflexivity|exact Ed]).
    destruct (unmarshal_cases d Hfd) as [(g & M & -> & <- & HR & _)|[(g & e & -> & Hc & Hn)|(g & -> & Hc & _)]]; cbn [snd].
    + exists 0, f. split; [reflexivity|]. eapply en_bencode; eassumption.
    + exists 1, f. split; [reflexivity|]. apply en_file; [exact HL|]. eapply fe_other; eassumption.
    + exists 2, f. split; [reflexivity|]. apply en_file; [exact HL|]. eapply fe_crash; eassumption.
  - destruct (run_cases (cf_sha1 cf) o f out file) as [(f' & t & d & M & -> & H1 & H2 & H3 & H4)|[(f' & e & -> & H)|(f' & -> & H1 & H2)]];
      [intros d Ed; eapply Hf; [reflexivity|exact Ed]| | |].
    + right. eexists. split; [reflexivity|]. split; [reflexivity|]. exists out, file, d, M. split; [reflexivity|]. auto 10.
    + left. exists 1, f'. split; [reflexivity|]. destruct H as [H|[H1 [H|(d & M & H2 & H3 & H4)]]]; [apply en_dir; assumption|apply en_torrent; assumption|eapply en_new; eassumption].
    + left. exists 2, f'. split; [reflexivity|]. destruct H2 as [H|(d & M & H2 & H3 & H4)]; [apply en_torrent; assumption|eapply en_new; eassumption].
Qed.
Theorem status_ends cf look o f flags c outs order s : file_fits o c -> (prog_status (prog_start cf look o f flags c outs order) = Some s <-> ends look o c s).
Proof.
  intros Hf. destruct (status_cases cf look o f flags c outs order Hf) as [(s' & f' & -> & H)|(k & -> & Hk & H)]; cbn [prog_status].
  - split; [intros E; injection E as <-; exact H|]. intros H'. f_equal. eapply ends_fun; eassumption.
  - rewrite Hk. split; [discriminate|]. intros H'. exfalso. eapply starts_not_ends; eassumption.
Qed.
Theorem status_starts cf look o f flags c outs order : file_fits o c -> ((exists k, prog_start cf look o f flags c outs order = PRun k) <-> starts look o c).
Proof.
  intros Hf. destruct (status_cases cf look o f flags c outs order Hf) as [(s' & f' & -> & H)|(k & -> & Hk & H)].
  - split; [intros [k E]; discriminate E|]. intros H'. exfalso. eapply starts_not_ends; eassumption.
  - split; [auto|]. intros _. exists k. reflexivity.
Qed.
(* what is printed *)
Theorem printed sha1 look o f flags c f' s out v : process sha1 look o f flags c = (f', Exit s out v) -> out = [] /\ (v = true <-> c = CVersion /\ look [] <> CfgError).
Proof.
  unfold process. rewrite !startup. assert (HL : look [] = CfgError \/ look [] <> CfgError) by (destruct (look []); auto; right; discriminate).
  destruct HL as [HL|HL].
  - rewrite HL. intros E. injection E as _ _ <- <-. split; [reflexivity|]. split; [discriminate|intros [_ H]; congruence].
  - assert (forall (A : Type) (x y : A), match look [] with CfgError => x | _ => y end = y) as EL by (intros; destruct (look []); congruence). rewrite !EL.
    destruct c as [| | |file|dir file].
    + intros E; injection E as _ _ <- <-. split; [reflexivity|]. split; [discriminate|intros [H _]; discriminate H].
    + intros E; injection E as _ _ <- <-. split; [reflexivity|]. split; [discriminate|intros [H _]; discriminate H].
    + intros E; injection E as _ _ <- <-. split; [reflexivity|]. split; [auto|auto].
    + destruct (bencodeCmd (Some (Logger InfoLevel ColorEncoder)) o file) as [b st] eqn:E. intros X; injection X as _ _ <- <-.
      split; [|split; [discriminate|intros [H _]; discriminate H]]. unfold bencodeCmd in E. destruct (o_file o file); [|congruence]. destruct (snd (UnmarshalMetainfo b0)); congruence.
    + destruct (runDownload sha1 o f dir file) as [f1 [e| |t]]; intros X; inversion X; subst. split; [reflexivity|]. split; [discriminate|intros [H _]; discriminate H].
Qed.
Theorem crash_refuted : ~ (forall cf look o f flags c outs order s, file_fits o c -> prog_status (prog_start cf look o f flags c outs order) = Some s -> s = 0 \/ s = 1).
Proof.
  intros H. specialize (H (cx_conf (fun x => x)) (fun _ => CfgMissing) (cx_os (str "i5e") (fun _ => true)) (fun _ => None) defaults (CBencode (str "t")) [] (fun x => x) 2).
  destruct H as [H|H]; [|reflexivity|discriminate H|discriminate H]. intros file d _ E. injection E as <-. vm_compute. discriminate.
Qed.
