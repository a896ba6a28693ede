(* Where peers come from: C140 to C143.                                        *)
From Coq Require Import Permutation.
From Verif Require Import Base ProofBase ModelBencode SpecBencode ModelUnmarshal SpecUnmarshal ModelStats SpecPath ModelPath ModelTorrent ModelConn ModelPeer ModelSystem ModelTracker ModelManager ModelClient ModelCmd ModelProgram
  SpecCmd SpecManager SpecClient SpecCrash SpecOrigin SpecProgram SpecSource ProofBencodeGrammar ProofBencodeMore ProofBreaks ProofCmd ProofClient4 ProofProgram ProofSource.

(* two tiers and a web seed *)
Definition sx_info : bytes := str "d6:lengthi8e4:name1:n12:piece lengthi4e6:pieces40:" ++ repeat 120 40 ++ str "e".
Definition sx_doc (lists : bytes) : bytes := str "d8:announce10:http://t/z13:announce-list" ++ lists ++ str "4:info" ++ sx_info ++ str "8:url-listl10:http://w/aee".
Definition sx_lists : bytes := str "ll10:http://t/ael10:http://t/bee".
Definition sx_M : metainfo := mkMetainfo (str "http://t/z") [[str "http://t/a"]; [str "http://t/b"]] [str "http://w/a"] [] 8 (str "n") 4 (repeat 120 40).
Definition sx_prog (doc : bytes) : prog := prog_start (cx_conf (fun x => x)) (fun _ => CfgMissing) (cx_os doc (fun _ => true)) (fun _ => None) defaults (CDownload (str "/o") (str "t")) [] (fun us => us).
Lemma doc_of d M w : fits d -> (exists m raw info, Parse d = Ok (BDict true m raw) /\ lookup (str "info") m = Some (BDict true info w)) ->
  (exists g, UnmarshalMetainfo d = (g, Ok tt) /\ metainfo_of g = M) -> torrent_doc d M w.
Proof.
  intros Hf (m & raw & info & P & HI) (g & E & EM). pose proof (metainfo_says _ _ _ _ Hf E P) as HS. rewrite EM in HS.
  apply parse_iff in P as (w' & post & -> & Hw); [|exact Hf]. assert (w' = raw) by (inversion Hw; reflexivity). subst w'.
  exists m, raw, post, info. split; [reflexivity|]. split; [exact Hw|]. split; [exact HS|]. split; [exact HI|discriminate].
Qed.
Lemma file_is doc : o_file (cx_os doc (fun _ => true)) (str "t") = Some doc.
Proof. reflexivity. Qed.
Lemma sx_fits : fits (sx_doc sx_lists).
Proof. vm_compute. discriminate. Qed.
Lemma sx_torrent : torrent_doc (sx_doc sx_lists) sx_M sx_info.
Proof. apply doc_of; [exact sx_fits|do 3 eexists; split; vm_compute; reflexivity|eexists; split; vm_compute; reflexivity]. Qed.
Lemma sx_starts : exists c, sx_prog (sx_doc sx_lists) = PRun c.
Proof. eexists. vm_compute. reflexivity. Qed.
Lemma sx_any u : http_url (cx_conf (fun x => x)) u.
Proof. left. reflexivity. Qed.

(* ---------- C140 ---------- *)
(* Expected: announces go to trackers, not to web seeds. *)
Theorem C140_web_seeds_refuted :
  ~ (forall cf look o f flags out file outs order d M w l p tr u r, (forall us, Permutation (order us) us) -> o_file o file = Some d -> fits d -> torrent_doc d M w ->
       prog_run cf l (prog_start cf look o f flags (CDownload out file) outs order) = (p, tr) -> In (u, r) (asked tr) ->
       u = mi_announce M \/ exists tier, In tier (mi_announce_list M) /\ In u tier).
Proof.
  intros H. destruct sx_starts as [c0 S].
  destruct (proj2 (asked_exact (cx_conf (fun x => x)) (fun _ => CfgMissing) (cx_os (sx_doc sx_lists) (fun _ => true)) (fun _ => None) defaults (str "/o") (str "t") [] (fun us => us) _ _ _ c0
    (fun us => Permutation_refl us) (file_is _) sx_fits sx_torrent S (str "http://w/a"))) as (l & p & tr & r & R & Hi); [split; [right; right; now left|apply sx_any]|].
  rewrite <- S in R. specialize (H _ _ _ _ _ _ _ _ _ _ _ _ _ _ _ _ _ (fun us => Permutation_refl us) (file_is _) sx_fits sx_torrent R Hi).
  destruct H as [H|(tier & [<-|[<-|[]]] & [H|[]])]; discriminate H.
Qed.
(* An announce goes to u in some execution exactly if u is the announce URL, in a tier
   or a web seed, and its scheme is http or https.                             *)
Theorem C140_asked_exact :
  forall cf look o f flags out file outs order d M w c0, (forall us, Permutation (order us) us) -> o_file o file = Some d -> fits d -> torrent_doc d M w ->
    prog_start cf look o f flags (CDownload out file) outs order = PRun c0 ->
    forall u, (exists l p tr r, prog_run cf l (PRun c0) = (p, tr) /\ In (u, r) (asked tr)) <->
              (u = mi_announce M \/ (exists tier, In tier (mi_announce_list M) /\ In u tier) \/ In u (mi_url_list M)) /\ http_url cf u.
Proof. exact asked_exact. Qed.
Example C140_ex : fits (sx_doc sx_lists) /\ torrent_doc (sx_doc sx_lists) sx_M sx_info /\ In (str "http://w/a") (mi_url_list sx_M) /\ http_url (cx_conf (fun x => x)) (str "http://w/a") /\ exists c, sx_prog (sx_doc sx_lists) = PRun c.
Proof. split; [exact sx_fits|]. split; [exact sx_torrent|]. split; [now left|]. split; [apply sx_any|exact sx_starts]. Qed.

(* ---------- C141 ---------- *)
(* Expected: tiers are tried in order. *)
Theorem C141_tiers_refuted :
  ~ (forall cf look o f flags out file outs order d M w l p tr, (forall us, Permutation (order us) us) -> o_file o file = Some d -> fits d -> torrent_doc d M w ->
       prog_run cf l (prog_start cf look o f flags (CDownload out file) outs order) = (p, tr) -> tiered (mi_announce_list M) (asked tr)).
Proof.
  intros H. destruct sx_starts as [c0 S].
  destruct (any_order (cx_conf (fun x => x)) (fun _ => CfgMissing) (cx_os (sx_doc sx_lists) (fun _ => true)) (fun _ => None) defaults (str "/o") (str "t") [] (fun us => us) _ _ _ c0
    (fun us => Permutation_refl us) (file_is _) sx_fits sx_torrent S (fun _ => HttpErr) [str "http://t/b"]) as (l & p & tr & R & A).
  - constructor; [intros []|constructor].
  - constructor; [|constructor]. split; [right; left; exists [str "http://t/b"]; split; [right; now left|now left]|apply sx_any].
  - intros u. split; discriminate.
  - rewrite <- S in R. specialize (H _ _ _ _ _ _ _ _ _ _ _ _ _ _ _ (fun us => Permutation_refl us) (file_is _) sx_fits sx_torrent R). rewrite A in H.
    specialize (H [] (str "http://t/b") None [] [[str "http://t/a"]] [str "http://t/b"] [] eq_refl eq_refl (or_introl eq_refl)).
    destruct (H ltac:(intros [X|[]]; discriminate X) (str "http://t/a") (or_introl eq_refl)).
Qed.
(* Expected: announce is not used if there is an announce-list. *)
Theorem C141_announce_refuted :
  ~ (forall cf look o f flags out file outs order d M w l p tr r, (forall us, Permutation (order us) us) -> o_file o file = Some d -> fits d -> torrent_doc d M w ->
       prog_run cf l (prog_start cf look o f flags (CDownload out file) outs order) = (p, tr) -> mi_announce_list M <> [] -> In (mi_announce M, r) (asked tr) ->
       exists tier, In tier (mi_announce_list M) /\ In (mi_announce M) tier).
Proof.
  intros H. destruct sx_starts as [c0 S].
  destruct (proj2 (asked_exact (cx_conf (fun x => x)) (fun _ => CfgMissing) (cx_os (sx_doc sx_lists) (fun _ => true)) (fun _ => None) defaults (str "/o") (str "t") [] (fun us => us) _ _ _ c0
    (fun us => Permutation_refl us) (file_is _) sx_fits sx_torrent S (str "http://t/z"))) as (l & p & tr & r & R & Hi); [split; [now left|apply sx_any]|].
  rewrite <- S in R. specialize (H _ _ _ _ _ _ _ _ _ _ _ _ _ _ _ r (fun us => Permutation_refl us) (file_is _) sx_fits sx_torrent R ltac:(discriminate) Hi).
  destruct H as (tier & [<-|[<-|[]]] & [H|[]]); discriminate H.
Qed.
(* Any of the URLs, in any order and whatever is replied, can be the first to be asked. *)
Theorem C141_any_order_exact :
  forall cf look o f flags out file outs order d M w c0, (forall us, Permutation (order us) us) -> o_file o file = Some d -> fits d -> torrent_doc d M w ->
    prog_start cf look o f flags (CDownload out file) outs order = PRun c0 ->
    forall rs us, NoDup us -> Forall (fun u => tracker_of M u /\ http_url cf u) us ->
      (forall u, snd (HttpAnnounce (cf_ip cf) (rs u)) <> Panic /\ snd (HttpAnnounce (cf_ip cf) (rs u)) <> Diverge) ->
      exists l p tr, prog_run cf l (PRun c0) = (p, tr) /\ asked tr = map (fun u => (u, ips_of (snd (HttpAnnounce (cf_ip cf) (rs u))))) us.
Proof. exact any_order. Qed.
Example C141_ex : NoDup [str "http://w/a"; str "http://t/b"; str "http://t/z"; str "http://t/a"] /\
  Forall (fun u => tracker_of sx_M u /\ http_url (cx_conf (fun x => x)) u) [str "http://w/a"; str "http://t/b"; str "http://t/z"; str "http://t/a"] /\
  snd (HttpAnnounce (cf_ip (cx_conf (fun x => x))) one_peer) = Ok [Some (V4 [10; 0; 0; 1], 6881)].
Proof.
  split; [|split; [|vm_compute; reflexivity]].
  - repeat (constructor; [cbn [In]; intuition discriminate|]). constructor.
  - constructor; [split; [right; right; now left|apply sx_any]|]. constructor; [split; [right; left; exists [str "http://t/b"]; split; [right; now left|now left]|apply sx_any]|].
    constructor; [split; [now left|apply sx_any]|]. constructor; [split; [right; left; exists [str "http://t/a"]; split; now left|apply sx_any]|constructor].
Qed.

(* ---------- C142 ---------- *)
Definition ux_conf : conf := mkConf (fun x => x) (createClientId (repeat 7 12)) 6881 30 (fun _ => Some (str "udp")) (fun _ => Some (V4 [10; 0; 0; 1])) cx_bar.
Definition ux_prog : prog := prog_start ux_conf (fun _ => CfgMissing) (cx_os (sx_doc sx_lists) (fun _ => true)) (fun _ => None) defaults (CDownload (str "/o") (str "t")) [] (fun us => us).
(* Expected: for every torrent with a tracker there is an execution in which a peer is
   found and dialled.                                                          *)
Theorem C142_udp_refuted :
  ~ (forall cf look o f flags out file outs order d M w c0, (forall us, Permutation (order us) us) -> o_file o file = Some d -> fits d -> torrent_doc d M w ->
       prog_start cf look o f flags (CDownload out file) outs order = PRun c0 -> (exists u, tracker_of M u /\ cf_scheme cf u = Some (str "udp")) ->
       exists l p tr j k, prog_run cf l (PRun c0) = (p, tr) /\ In (VMgr (GDial j k)) tr).
Proof.
  intros H. assert (S : exists c0, ux_prog = PRun c0) by (eexists; vm_compute; reflexivity). destruct S as [c0 S].
  specialize (H _ _ _ _ _ _ _ _ _ _ _ _ _ (fun us => Permutation_refl us) (file_is _) sx_fits sx_torrent S). destruct H as (l & p & tr & j & k & R & Hi).
  - exists (str "http://t/z"). split; [now left|reflexivity].
  - destruct (no_http_deaf _ _ _ _ _ _ _ _ _ _ _ _ _ (fun us => Permutation_refl us) (file_is _) sx_fits sx_torrent S l p tr) as [D _].
    + intros u _ [X|X]; discriminate X.
    + exact R.
    + rewrite Forall_forall in D. exact (D _ Hi).
Qed.
(* There is one exactly if one of the URLs is http or https; *)
Theorem C142_dialled_exact :
  forall cf look o f flags out file outs order d M w c0, (forall us, Permutation (order us) us) -> o_file o file = Some d -> fits d -> torrent_doc d M w ->
    prog_start cf look o f flags (CDownload out file) outs order = PRun c0 ->
    ((exists l p tr j k, prog_run cf l (PRun c0) = (p, tr) /\ In (VMgr (GDial j k)) tr) <-> exists u, tracker_of M u /\ http_url cf u).
Proof. exact dial_exact. Qed.
(* otherwise nothing happens but announces that fail, and no file changes. *)
Theorem C142_deaf :
  forall cf look o f flags out file outs order d M w c0, (forall us, Permutation (order us) us) -> o_file o file = Some d -> fits d -> torrent_doc d M w ->
    prog_start cf look o f flags (CDownload out file) outs order = PRun c0 ->
    forall l p tr, (forall u, tracker_of M u -> ~ http_url cf u) -> prog_run cf l (PRun c0) = (p, tr) -> Forall deaf tr /\ prog_fs p = prog_fs (PRun c0).
Proof. exact no_http_deaf. Qed.
Definition ux_in : cin := mkCin [] true true [].
Definition ux_sched : list cact := [KMain; KTrk 2 ux_in; KTrk 2 ux_in; KLoad 2; KLoad 2; KLoad 2; KAnn 2 (RUdp 1 2 3 true [Datagram (be_put 4 0 ++ be_put 4 1 ++ be_put 8 9)])].
Example C142_ex : (exists c0, ux_prog = PRun c0) /\ (forall u, tracker_of sx_M u -> ~ http_url ux_conf u) /\
  snd (prog_run ux_conf ux_sched ux_prog) = [VMgr (GRound 2); VUdp 2 [connect_request 1; createAnnounce 9 2 sx_info (cf_id ux_conf) (mkAnn 0 0 8 6881) 3] None; VMgr (GAnn 2 false)].
Proof. split; [eexists; vm_compute; reflexivity|]. split; [intros u _ [X|X]; discriminate X|]. vm_compute. reflexivity. Qed.

(* ---------- C143 ---------- *)
Definition zx_info : bytes := str "d6:lengthi0e4:name1:n12:piece lengthi4e6:pieces0:e".
Definition zx_doc : bytes := str "d8:announce10:http://t/a4:info" ++ zx_info ++ str "e".
Definition zx_M : metainfo := mkMetainfo (str "http://t/a") [] [] [] 0 (str "n") 4 [].
Lemma zx_fits : fits zx_doc. Proof. vm_compute. discriminate. Qed.
Lemma zx_torrent : torrent_doc zx_doc zx_M zx_info.
Proof. apply doc_of; [exact zx_fits|do 3 eexists; split; vm_compute; reflexivity|eexists; split; vm_compute; reflexivity]. Qed.
(* Expected: a torrent of one file of length 0 gives an empty file of its name. *)
Theorem C143_empty_file_refuted :
  ~ (forall cf look o f flags out file outs order d M w c0 base ncomps, o_file o file = Some d -> fits d -> torrent_doc d M w -> mi_length M = 0 -> mi_files M = [] ->
       prog_start cf look o f flags (CDownload out file) outs order = PRun c0 -> resolves (o_cwd o) out base -> components (mi_name M) ncomps ->
       prog_fs (PRun c0) (fold_left step ncomps base) = Some []).
Proof.
  intros H. assert (S : exists c0, sx_prog zx_doc = PRun c0 /\ prog_fs (PRun c0) [str "o"; str "n"] = None) by (eexists; split; vm_compute; reflexivity). destruct S as (c0 & S & E).
  specialize (H _ _ _ _ _ _ _ _ _ _ _ _ _ [str "o"] [str "n"] (file_is _) zx_fits zx_torrent eq_refl eq_refl S). change (fold_left step [str "n"] [str "o"]) with [str "o"; str "n"] in H. rewrite E in H. 
  assert (X : None = Some ([] : bytes)); [apply H|discriminate X].
  - apply (res_abs [] (str "o") [[]; str "o"]). apply (comp_more [] (str "o") [str "o"]); [intros []|apply comp_last; cbn; lia].
  - apply comp_last. cbn. lia.
Qed.
(* No file is created or changed, in no execution. *)
Theorem C143_no_file_exact :
  forall cf look o f flags out file outs order d M w c0 l p tr,
    o_file o file = Some d -> fits d -> torrent_doc d M w -> mi_length M = 0 -> mi_files M = [] -> 0 <= mi_piece_length M < 2 ^ 30 -> Forall sends_bytes l ->
    prog_start cf look o f flags (CDownload out file) outs order = PRun c0 -> prog_run cf l (PRun c0) = (p, tr) -> forall x, prog_fs p x = f x.
Proof. exact nothing_created. Qed.
Example C143_ex : fits zx_doc /\ torrent_doc zx_doc zx_M zx_info /\ mi_length zx_M = 0 /\ mi_files zx_M = [] /\ 0 <= mi_piece_length zx_M < 2 ^ 30 /\ exists c, sx_prog zx_doc = PRun c.
Proof. split; [exact zx_fits|]. split; [exact zx_torrent|]. repeat split; try (vm_compute; congruence). eexists. vm_compute. reflexivity. Qed.

Print Assumptions C140_web_seeds_refuted.
Print Assumptions C140_asked_exact.
Print Assumptions C141_tiers_refuted.
Print Assumptions C141_announce_refuted.
Print Assumptions C141_any_order_exact.
Print Assumptions C142_udp_refuted.
Print Assumptions C142_dialled_exact.
Print Assumptions C142_deaf.
Print Assumptions C143_empty_file_refuted.
Print Assumptions C143_no_file_exact.
