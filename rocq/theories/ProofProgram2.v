(* A whole process with the real SHA-1, for C119 and C120.                     *)
From Verif Require Import Base ProofBase Sha1 ModelBencode SpecBencode ProofBencodeGrammar ModelUnmarshal SpecUnmarshal SpecPath ModelPath ModelStats ModelTorrent ModelConn ModelPeer ModelSystem ModelTracker ModelManager ModelClient ModelCmd ModelProgram
  SpecMsg SpecPeer SpecTorrent SpecFinish SpecText SpecCmd SpecManager SpecClient SpecCrash SpecOrigin SpecProgram ProofUnmarshalMore ProofWrite ProofNew ProofCmd ProofWitness ProofClient4 ProofClient5 ProofProgram.

Definition px_info : bytes := str "d5:filesld6:lengthi8e4:pathl1:aeee4:name1:n12:piece lengthi4e6:pieces40:" ++ sha1 [1; 2; 3; 4] ++ sha1 [5; 6; 7; 8] ++ str "e".
Definition px_doc : bytes := str "d8:announce10:http://t/a4:info" ++ px_info ++ str "e".
Definition px_M : metainfo := mkMetainfo (str "http://t/a") [] [] [mkTfile 8 [str "a"]] 0 (str "n") 4 (sha1 [1; 2; 3; 4] ++ sha1 [5; 6; 7; 8]).
Definition px_place : place := [str "o"; str "n"; str "a"].
Notation px_prog f := (prog_start (cx_conf sha1) (fun _ => CfgMissing) (cx_os px_doc (fun _ => true)) f defaults (CDownload (str "/o") (str "t")) [] (fun us => us)).
Definition px_well : cin := mkCin (str "uuid") true true [Chunk (createHandshake (createClientId (repeat 9 12)) (sha1 px_info))].
Definition px_download : list cact := [KMain; KTrk 0 px_well; KTrk 0 px_well] ++ announce1 ++ repeat (KTrk 0 px_well) 5 ++
  repeat (KPeer 0 go) 6 ++ cx_piece 0 [1; 2; 3; 4] ++ cx_piece 1 [5; 6; 7; 8].
Definition px_full : list cact := px_download ++ cx_end.

Lemma px_fits : SpecBencode.fits px_doc.
Proof. assert (H : (zlen px_doc <=? MAXN) = true) by (vm_compute; reflexivity). unfold SpecBencode.fits. lia. Qed.
Lemma px_torrent : torrent_doc px_doc px_M px_info.
Proof.
  assert (X : exists m raw info, Parse px_doc = Ok (BDict true m raw) /\ lookup (str "info") m = Some (BDict true info px_info)) by (do 3 eexists; split; vm_compute; reflexivity).
  assert (Y : exists g, UnmarshalMetainfo px_doc = (g, Ok tt) /\ metainfo_of g = px_M) by (eexists; split; vm_compute; reflexivity).
  destruct X as (m & raw & info & P & HI). destruct Y as (g & E & EM). pose proof (metainfo_says _ _ _ _ px_fits E P) as HS. rewrite EM in HS.
  pose proof P as P'. apply parse_iff in P'; [|exact px_fits]. destruct P' as (w & post & Ew & HW).
  assert (w = raw) by (inversion HW; reflexivity). subst w.
  exists m, raw, post, info. split; [exact Ew|]. split; [exact HW|]. split; [exact HS|]. split; [exact HI|discriminate].
Qed.
Lemma px_places : torrent_places [] (str "/o") px_M [px_place].
Proof.
  exists [str "o"], [str "n"]. split; [apply (res_abs [] (str "o") [[]; str "o"]); apply (comp_more [] (str "o") [str "o"]); [intros []|apply comp_last; cbn; lia]|].
  split; [apply comp_last; cbn; lia|]. cbn. constructor; [|constructor]. exists (str "a"), [str "a"]. split; [reflexivity|]. split; [apply comp_last; cbn; lia|reflexivity].
Qed.
Lemma px_starts f : exists c0, px_prog f = PRun c0.
Proof. eexists. vm_compute. reflexivity. Qed.
Lemma px_file : o_file (cx_os px_doc (fun _ => true)) (str "t") = Some px_doc.
Proof. generalize px_doc. intros d. reflexivity. Qed.
Lemma px_out : str "/o" <> [].
Proof. discriminate. Qed.
Lemma px_run : prog_status (fst (prog_run (cx_conf sha1) px_full (px_prog (fun _ => None)))) = Some 0 /\
  prog_fs (fst (prog_run (cx_conf sha1) px_full (px_prog (fun _ => None)))) px_place = Some [1; 2; 3; 4; 5; 6; 7; 8].
Proof. split; vm_compute; reflexivity. Qed.
Lemma resume_refuted :
  ~ (forall cf look o f flags out file outs order l p tr outs', prog_run cf l (prog_start cf look o f flags (CDownload out file) outs order) = (p, tr) -> prog_status p = Some 0 ->
       forall x, prog_fs (prog_start cf look o (prog_fs p) flags (CDownload out file) outs' order) x = prog_fs p x).
Proof.
  intros H. destruct (prog_run (cx_conf sha1) px_full (px_prog (fun _ => None))) as [p tr] eqn:E.
  assert (X : prog_status p = Some 0 /\ prog_fs p px_place = Some [1; 2; 3; 4; 5; 6; 7; 8]).
  { pose proof px_run as X. rewrite E in X. exact X. }
  destruct X as [X1 X2]. assert (Y : prog_fs (px_prog (prog_fs p)) px_place = prog_fs p px_place).
  { exact (H _ _ _ _ _ _ _ _ _ _ _ _ [] E X1 px_place). }
  rewrite X2 in Y.
  destruct (px_starts (prog_fs p)) as [c0 ES]. rewrite ES in Y.
  pose proof (starts_empty (cx_conf sha1) (fun _ => CfgMissing) (cx_os px_doc (fun _ => true)) (prog_fs p) defaults (str "/o") (str "t") [] (fun us => us) px_doc px_M px_info [px_place] c0) as Z.
  specialize (Z px_file px_fits px_torrent px_out px_places ES). destruct Z as [Z _].
  rewrite Z in Y by now left. discriminate Y.
Qed.
