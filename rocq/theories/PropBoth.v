(* Complete files and status 0 (property C169).                                *)
From Verif Require Import Base ProofBase Sha1 SpecPath SpecBencode SpecTorrent SpecFinish SpecCmd SpecProgram SpecMsg SpecOrigin SpecArrive SpecPossible SpecRescue SpecDoom
  ModelPath ModelStats ModelTorrent ModelPeer ModelSystem ModelTracker ModelManager ModelClient ModelCmd ModelProgram
  ProofWitness ProofClient4 ProofClient5 ProofProgram2 ProofArrive2 ProofRescue ProofBoth PropRescue.

(* ---------- C169 ---------- *)
(* The process runs, no signal came and a peer is in Run (as in C166).  It can still end
   with status 0 and every file complete, exactly if no peer was given up (as in C168). *)
Theorem C169_both :
  forall cf look o f flags out file order d M w c0 ps N c l cl tr k,
    o_file o file = Some d -> SpecBencode.fits d -> torrent_doc d M w ->
    prog_start cf look o f flags (CDownload out file) [] order = PRun c0 -> out <> [] -> torrent_places (o_cwd o) out M ps -> NoDup ps ->
    Forall (fun n => 0 <= n) (file_lengths M) -> 0 < total (file_lengths M) <= 2 ^ 50 -> 0 < mi_piece_length M < 2 ^ 30 -> N <= 2 ^ 32 ->
    torrent_of (cf_sha1 cf) M N c -> Forall sends_bytes l -> ~ In KSignal l -> prog_run cf l (PRun c0) = (PRun cl, tr) -> prog_status (PRun cl) = None ->
    at_run cl k -> in_place (cf_sha1 cf) M tr -> no_known_collision (cf_sha1 cf) M N c tr ->
    ((exists l2 p2 tr2, Forall sends_bytes l2 /\ prog_run cf l2 (PRun cl) = (p2, tr2) /\ prog_status p2 = Some 0 /\
       complete (cf_sha1 cf) M (prog_fs p2) ps N) <-> ~ given_up cl).
Proof. exact both_prog. Qed.
(* C160_ex_hyps and C166_ex_hyps have the hypotheses; the course of C166 gave no peer up *)
Definition bx_end : list cact := rx_end ++ [KSignal] ++ repeat (KPeer 0 go) 9 ++ repeat KMain 8.
Lemma bx_facts : match fst (prog_run (cx_conf sha1) rx_course (px_prog (fun _ => None))) with PRun cl => map mp_conn (g_peers (c_mgr cl)) = [Some 0%nat] | _ => False end.
Proof. vm_compute. reflexivity. Qed.
Example C169_ex_hyp : exists cl, fst (prog_run (cx_conf sha1) rx_course (px_prog (fun _ => None))) = PRun cl /\ ~ given_up cl.
Proof.
  pose proof bx_facts as F. destruct (fst (prog_run _ _ _)) as [|cl]; [contradiction|]. exists cl. split; [reflexivity|]. intros (p & Hp & HO & _).
  apply (in_map mp_conn) in Hp. rewrite F in Hp. destruct Hp as [Hp|[]]. congruence.
Qed.
Example C169_ex : let p := fst (prog_run (cx_conf sha1) bx_end (fst (prog_run (cx_conf sha1) rx_course (px_prog (fun _ => None))))) in
  prog_status p = Some 0 /\ prog_fs p px_place = Some [1; 2; 3; 4; 5; 6; 7; 8].
Proof. cbv zeta. refine (conj _ _); vm_compute; reflexivity. Qed.
(* A second peer could not be reached.  The first one still brings the download to its end,
   which C166 promises; but the signal then ends the process by a panic.       *)
Definition two_peers : httpres := HttpBody 200 (Some (str "d8:intervali60e5:peersld2:ip8:10.0.0.14:port4:6881ed2:ip8:10.0.0.14:port4:6882eee")).
Definition bx_lost : list cact := [KMain; KTrk 0 px_well; KTrk 0 px_well] ++ repeat (KLoad 0) 3 ++ [KAnn 0 (RHttp two_peers false)] ++ repeat (KTrk 0 px_well) 5 ++
  repeat (KTrk 0 ill) 10.
Definition bx_rest : list cact := repeat (KPeer 0 go) 6 ++ cx_piece 0 [1; 2; 3; 4] ++ cx_piece 1 [5; 6; 7; 8].
Lemma bx_lost_facts : match fst (prog_run (cx_conf sha1) bx_lost (px_prog (fun _ => None))) with
  | PRun cl => prog_status (PRun cl) = None /\ map r_pc (wo_peers (c_wo cl)) = [PTop] /\
      match g_peers (c_mgr cl) with [_; p] => mp_conn p = None /\ mp_state p = PsFailed | _ => False end
  | _ => False end.
Proof. vm_compute. repeat split; reflexivity. Qed.
Example C169_ex_lost : exists cl, fst (prog_run (cx_conf sha1) bx_lost (px_prog (fun _ => None))) = PRun cl /\ prog_status (PRun cl) = None /\ at_run cl 0 /\ given_up cl.
Proof.
  pose proof bx_lost_facts as F. destruct (fst (prog_run _ _ _)) as [|cl]; [contradiction|]. destruct F as (F1 & F2 & F3). exists cl. split; [reflexivity|]. split; [exact F1|]. split.
  - unfold at_run. destruct (wo_peers (c_wo cl)) as [|r l]; [discriminate|]. exists r. split; [reflexivity|]. injection F2 as E _. rewrite E. discriminate.
  - unfold given_up. destruct (g_peers (c_mgr cl)) as [|q [|p [|]]]; try contradiction. exists p. split; [right; now left|]. split; [apply F3|left; apply F3].
Qed.
Example C169_ex_panic : let p := fst (prog_run (cx_conf sha1) (bx_lost ++ bx_rest) (px_prog (fun _ => None))) in
  let q := fst (prog_run (cx_conf sha1) ([KSignal] ++ repeat (KPeer 0 go) 9 ++ repeat KMain 8) p) in
  prog_status p = None /\ prog_fs p px_place = Some [1; 2; 3; 4; 5; 6; 7; 8] /\ prog_status q = Some 2.
Proof. cbv zeta. refine (conj _ (conj _ _)); vm_compute; reflexivity. Qed.

Print Assumptions C169_both.
