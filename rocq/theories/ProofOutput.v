(* Proofs for C130, C131. *)
From Verif Require Import Base ModelBencode SpecBencode ModelUnmarshal SpecUnmarshal ModelPath ModelStats ModelTorrent ModelConn ModelPeer ModelSystem ModelTracker ModelManager ModelClient ModelCmd ModelProgram
  SpecCmd SpecStatus ProofCmd ProofClient4 ProofClient5 ProofStatus ModelOutput SpecOutput.

Definition a_conf (sha1 : bytes -> bytes) : conf := mkConf sha1 [] 0 0 (fun _ => None) (fun _ => None) (fun _ => false).
Lemma fails_ends look o out file r : look [] <> CfgError -> fails o out file r -> ends look o (CDownload out file) 1.
Proof.
  intros L H. destruct H.
  - now apply en_dir.
  - apply en_torrent; auto. now apply fe_none.
  - apply en_torrent; auto. now apply fe_other with (d := d).
  - eapply en_new; eauto. now apply ne_hashes.
  - eapply en_new; eauto. now apply ne_mkdir.
  - eapply en_new; eauto. now apply ne_create.
Qed.
Lemma config_fine look c : look [] <> CfgError -> cf_path c = [] -> exists l, NewCmdRun look c = Some l.
Proof. intros H E. unfold NewCmdRun, initConfig. rewrite E. destruct (look []); [eauto|cbn; eauto|contradiction]. Qed.
Lemma ends_err sha1 look o f out file : file_fits o (CDownload out file) -> look [] <> CfgError -> ends look o (CDownload out file) 1 -> exists e, snd (runDownload sha1 o f out file) = DErr e.
Proof.
  intros F L H. apply (status_ends (a_conf sha1) look o f defaults _ [] (fun x => x) 1 F) in H. unfold prog_start, process in H.
  destruct (config_fine look defaults L eq_refl) as (l & El). rewrite El in H. cbn [cf_sha1 a_conf] in H.
  destruct (runDownload sha1 o f out file) as [f' [e| |t]]; [now exists e|discriminate H|]. vm_compute in H. discriminate H.
Qed.
Theorem fails_text t sha1 look o f out file r : file_fits o (CDownload out file) -> look [] <> CfgError -> fails o out file r ->
  writes t sha1 look o f (CDownload out file) = mkWritten [] (str "error with the app").
Proof.
  intros F L H. destruct (ends_err sha1 look o f out file F L (fails_ends _ _ _ _ _ L H)) as (e & E). unfold writes. destruct (config_fine look defaults L eq_refl) as (l & El). rewrite El, E. reflexivity.
Qed.
Definition two_os (b : bool) : osenv := mkOs [] (fun _ => if b then Some true else None) (fun _ => None) (fun _ => true) false.
Theorem reason_refuted : ~ forall t sha1 look o1 o2 f out file r1 r2, file_fits o1 (CDownload out file) -> file_fits o2 (CDownload out file) -> look [] <> CfgError ->
  fails o1 out file r1 -> fails o2 out file r2 -> r1 <> r2 ->
  writes t sha1 look o1 f (CDownload out file) <> writes t sha1 look o2 f (CDownload out file).
Proof.
  intros H. apply (H (mkTexts [] [] [] [] [] [] (fun x => x) []) (fun x => x) (fun _ => CfgMissing) (two_os false) (two_os true) (fun _ => None) (str "/o") (str "t") NoDirectory NoFile).
  - intros q d _ E. discriminate E.
  - intros q d _ E. discriminate E.
  - discriminate.
  - apply fa_dir. discriminate.
  - now apply fa_file.
  - discriminate.
  - reflexivity.
Qed.
Lemma default_logger look : look [] <> CfgError -> exists l, NewCmdRun look defaults = Some (Some l).
Proof. intros H. unfold NewCmdRun, initConfig. cbn [cf_path defaults]. destruct (look []); [eexists; reflexivity|eexists; reflexivity|contradiction]. Qed.
Theorem bencode_text t sha1 look o f file : file_fits o (CBencode file) -> look [] <> CfgError ->
  (o_file o file = None -> writes t sha1 look o f (CBencode file) = mkWritten [] (tx_log t (str "open file"))) /\
  (forall d, o_file o file = Some d -> ~ crashes d -> (forall M, ~ reads_torrent d M) -> writes t sha1 look o f (CBencode file) = mkWritten [] (tx_log t (str "parse torrent file"))) /\
  (forall d M, o_file o file = Some d -> reads_torrent d M -> writes t sha1 look o f (CBencode file) = mkWritten [] []).
Proof.
  intros F L. destruct (default_logger look L) as (l & El). unfold writes. rewrite El.
  assert (G : forall s, ends look o (CBencode file) s -> snd (bencodeCmd (Some l) o file) = s).
  { intros s H. apply (status_ends (a_conf sha1) look o f defaults _ [] (fun x => x) s F) in H. unfold prog_start, process in H. rewrite El in H. destruct (bencodeCmd (Some l) o file) as [q st]. cbn in H |- *. congruence. }
  split; [|split].
  - intros E. unfold bencodeWritten. now rewrite E.
  - intros d E C N. assert (S1 : snd (bencodeCmd (Some l) o file) = 1) by (apply G; apply en_file; [exact L|]; now apply fe_other with (d := d)).
    unfold bencodeCmd in S1. unfold bencodeWritten. rewrite E in *. destruct (snd (UnmarshalMetainfo d)); [discriminate S1|reflexivity|discriminate S1|discriminate S1].
  - intros d M E R. assert (S1 : snd (bencodeCmd (Some l) o file) = 0) by (apply G; eapply en_bencode; eauto).
    unfold bencodeCmd in S1. unfold bencodeWritten. rewrite E in *. destruct (snd (UnmarshalMetainfo d)); [reflexivity|discriminate S1|discriminate S1|discriminate S1].
Qed.
Definition version_text (t : texts) : bytes :=
  tx_version t ++ [10] ++ str "Commit: " ++ tx_commit t ++ [10] ++ str "Build: " ++ tx_build t ++ [10].
Theorem version_exact t sha1 look o f : look [] <> CfgError -> writes t sha1 look o f CVersion = mkWritten (version_text t) [].
Proof.
  intros L. destruct (default_logger look L) as (l & El). unfold writes. rewrite El. unfold versionCmd, version_text. cbn [Println]. f_equal. rewrite <- !app_assoc. change (str "Commit: ") with (str "Commit:" ++ [32]). change (str "Build: ") with (str "Build:" ++ [32]). rewrite <- !app_assoc. cbn [app]. rewrite <- !app_assoc. reflexivity.
Qed.
Theorem config_exact t sha1 look o f c : look [] = CfgError -> writes t sha1 look o f c = mkWritten (str "could not resolve configuration " ++ tx_config t ++ [10]) [] /\ ends look o c 1.
Proof. intros L. split; [|now apply en_config]. unfold writes, NewCmdRun, initConfig. cbn [cf_path defaults]. rewrite L. reflexivity. Qed.
Theorem version_refuted : ~ forall t sha1 look o f, writes t sha1 look o f CVersion = mkWritten (version_text t) [].
Proof.
  intros H. specialize (H (mkTexts [] [] [] [] [] [] (fun x => x) []) (fun x => x) (fun _ => CfgError) (two_os true) (fun _ => None)). vm_compute in H. discriminate H.
Qed.
