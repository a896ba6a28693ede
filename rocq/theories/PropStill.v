(* A running download can still be completed (property C167).                  *)
From Coq Require Import Permutation.
From Verif Require Import Base ProofBase Sha1 SpecPath SpecBencode SpecTorrent SpecFinish SpecCmd SpecProgram SpecMsg SpecManager SpecOrigin SpecArrive SpecPossible SpecRescue SpecStill
  ModelPath ModelStats ModelTorrent ModelPeer ModelSystem ModelTracker ModelManager ModelClient ModelCmd ModelProgram ProofWitness ProofClient4 ProofProgram2 ProofArrive2 ProofStill.

(* ---------- C167 ---------- *)
(* As long as the process runs and no signal came, whatever happened to trackers
   and peers: if one of the URLs is http or https and there is an address that was
   not in use yet, the download can be brought to its end.                     *)
Theorem C167_still :
  forall cf look o f flags out file order d M w c0 ps N c l cl tr u r a,
    (forall us, Permutation (order us) us) -> o_file o file = Some d -> SpecBencode.fits d -> torrent_doc d M w ->
    prog_start cf look o f flags (CDownload out file) [] order = PRun c0 -> out <> [] -> torrent_places (o_cwd o) out M ps -> NoDup ps ->
    Forall (fun n => 0 <= n) (file_lengths M) -> 0 < total (file_lengths M) <= 2 ^ 50 -> 0 < mi_piece_length M < 2 ^ 30 -> N <= 2 ^ 32 ->
    torrent_of (cf_sha1 cf) M N c -> zlen (cf_sha1 cf w) = 20 -> tracker_of M u -> http_url cf u -> names cf r a -> ap_ok (Some a) ->
    Forall sends_bytes l -> ~ In KSignal l -> prog_run cf l (PRun c0) = (PRun cl, tr) -> prog_status (PRun cl) = None ->
    unused a tr -> in_place (cf_sha1 cf) M tr -> no_known_collision (cf_sha1 cf) M N c tr ->
    exists l2 p2 tr2, Forall sends_bytes l2 /\ ~ In KSignal l2 /\ prog_run cf l2 (PRun cl) = (p2, tr2) /\ prog_status p2 = None /\
      complete (cf_sha1 cf) M (prog_fs p2) ps N.
Proof. exact still_prog. Qed.
(* the torrent of C119: the one peer named first could not be reached five times,
   and the tracker is not asked again yet.  C160_ex_hyps has the other hypotheses. *)
Definition sx_fail : cin := mkCin [] false true [].
Definition sx_course : list cact := [KMain; KTrk 0 px_well; KTrk 0 px_well] ++ announce1 ++ repeat (KTrk 0 sx_fail) 12.
Definition sx_reply : httpres := HttpBody 200 (Some (str "d8:intervali60e5:peersld2:ip8:10.0.0.14:port4:6882eee")).
Definition sx_addr : addr * Z := (V4 [10; 0; 0; 1], 6882).
Definition sx_end : list cact := repeat (KTrk 0 px_well) 2 ++ repeat (KLoad 0) 3 ++ [KAnn 0 (RHttp sx_reply false)] ++ repeat (KTrk 0 px_well) 4 ++
  repeat (KPeer 0 go) 6 ++ cx_piece 0 [1; 2; 3; 4] ++ cx_piece 1 [5; 6; 7; 8].
Lemma sx_facts : let '(p, tr) := prog_run (cx_conf sha1) sx_course (px_prog (fun _ => None)) in
  prog_status p = None /\ prog_fs p px_place = Some [] /\ reads tr = [] /\ added (SpecClient.gevs tr) = [Some (V4 [10; 0; 0; 1], 6881)] /\
  match p with PRun cl => g_trk (c_mgr cl) = [TWait] /\ map mp_state (g_peers (c_mgr cl)) = [PsFailed] | _ => False end.
Proof. vm_compute. repeat split; reflexivity. Qed.
Example C167_ex_hyps : let '(p, tr) := prog_run (cx_conf sha1) sx_course (px_prog (fun _ => None)) in
  Forall sends_bytes sx_course /\ ~ In KSignal sx_course /\ (exists cl, p = PRun cl) /\ prog_status p = None /\ names (cx_conf sha1) sx_reply sx_addr /\ ap_ok (Some sx_addr) /\
  unused sx_addr tr /\ in_place sha1 px_M tr /\ no_known_collision sha1 px_M 2 [1; 2; 3; 4; 5; 6; 7; 8] tr.
Proof.
  pose proof sx_facts as F. destruct (prog_run _ _ _) as [p tr]. destruct F as (F1 & _ & F2 & F3 & F4). split; [|split; [|split; [|split; [exact F1|split; [|split; [|split; [|split]]]]]]].
  - unfold sx_course, announce1. cbn [repeat app]. repeat (apply Forall_cons; [exact I|]). apply Forall_nil.
  - unfold sx_course, announce1. cbn [repeat app In]. intuition discriminate.
  - destruct p as [|cl]; [destruct F4|]. now exists cl.
  - unfold names. vm_compute. reflexivity.
  - split; [reflexivity|]. split; [apply bytes_dec; reflexivity|lia].
  - intros j b H. assert (X : In b (added (SpecClient.gevs tr))).
    { clear -H. induction tr as [|e es IH]; [destruct H|]. destruct H as [->|H]; [now left|]. specialize (IH H). cbn [SpecClient.gevs flat_map]. rewrite ProofManager.added_app. apply in_or_app. now right. }
    rewrite F3 in X. destruct X as [<-|[]]. vm_compute. discriminate.
  - intros i off d Hi Ho H _. apply read_in in H. rewrite F2 in H. destruct H.
  - assert (K : forall d, known px_M 2 [1; 2; 3; 4; 5; 6; 7; 8] tr d -> d = [1; 2; 3; 4] \/ d = [5; 6; 7; 8]).
    { intros d [(i & off & H)|(i & Hi & ->)]; [apply read_in in H; rewrite F2 in H; destruct H|]. assert (i = 0 \/ i = 1) as [->| ->] by lia; vm_compute; auto. }
    assert (A : sha1 [1; 2; 3; 4] <> sha1 [5; 6; 7; 8]) by (vm_compute; discriminate).
    intros d d' H H' E. apply K in H. apply K in H'. destruct H as [->| ->], H' as [->| ->]; congruence.
Qed.
Example C167_ex : let p := fst (prog_run (cx_conf sha1) sx_end (fst (prog_run (cx_conf sha1) sx_course (px_prog (fun _ => None))))) in
  prog_status p = None /\ prog_fs p px_place = Some [1; 2; 3; 4; 5; 6; 7; 8] /\ ~ In KSignal sx_end.
Proof. split; [vm_compute; reflexivity|]. split; [vm_compute; reflexivity|]. unfold sx_end, cx_piece. cbn [repeat app In]. intuition discriminate. Qed.

Print Assumptions C167_still.
