(* A peer that was never reached and the end of the process (property C168).   *)
From Verif Require Import Base ProofBase Sha1 ModelStats ModelTorrent ModelPeer ModelSystem ModelTracker ModelManager ModelClient
  SpecManager SpecClient SpecCrash SpecOrigin SpecDoom ProofWitness ProofClient4 ProofClient5 ProofClient6 ProofDoom ProofDoom2.

(* ---------- C168 ---------- *)
(* Once a peer was given up without a connection, before any signal, the process
   never ends with status 0, whatever happens afterwards.                      *)
Theorem C168_never_zero :
  forall cf t f outs urls l c tr l2 c2 tr2,
    crun cf l (client_start cf t f outs urls) = (c, tr) -> ~ In KSignal l -> given_up c -> crun cf l2 c = (c2, tr2) -> client_status c2 <> Some 0.
Proof. intros. eapply doomed; eassumption. Qed.
(* After a signal it ends, and it ends by a panic.                             *)
Theorem C168_ends_in_crash :
  forall cf t f outs urls l c tr l2 c2 tr2 s,
    crun cf l (client_start cf t f outs urls) = (c, tr) -> ~ In KSignal l -> given_up c -> crun cf l2 c = (c2, tr2) -> In KSignal l2 -> cfair s ->
    exists n, client_status (cafter cf s n c2) = Some 2.
Proof. intros. eapply doomed_ends; eassumption. Qed.
(* Nothing else rules out status 0: of a running process that has had no signal,
   with a torrent of ordinary numbers (C117), it can still come exactly if there is
   no such peer.                                                               *)
Theorem C168_exact :
  forall cf t f outs urls l c tr, ordinary t -> crun cf l (client_start cf t f outs urls) = (c, tr) -> Forall sends_bytes l -> ~ In KSignal l -> client_status c = None ->
    ((exists l2 c2 tr2, Forall sends_bytes l2 /\ crun cf l2 c = (c2, tr2) /\ client_status c2 = Some 0) <-> ~ given_up c).
Proof. intros. eapply zero_exact; eassumption. Qed.
(* the one peer could not be reached five times; then the signal comes         *)
Definition dx_course : list cact := [KMain; KTrk 0 well; KTrk 0 well] ++ announce1 ++ repeat (KTrk 0 ill) 12.
Lemma dx_facts : let c := fst (crun (cx_conf sha1) dx_course (cx_start sha1)) in
  match g_peers (c_mgr c) with [p] => mp_conn p = None /\ mp_state p = PsFailed | _ => False end /\ client_status c = None.
Proof. vm_compute. repeat split; reflexivity. Qed.
Lemma cx_ordinary : ordinary (cx_t sha1).
Proof. unfold ordinary. cbn. split; [discriminate|]. split; [repeat constructor; cbn; lia|]. unfold zlen. cbn. lia. Qed.
Lemma dx_quiet : Forall sends_bytes dx_course /\ ~ In KSignal dx_course.
Proof.
  unfold dx_course, announce1. cbn [repeat app]. split; [repeat (apply Forall_cons; [exact I|]); apply Forall_nil|cbn [In]; intuition discriminate].
Qed.
Example C168_ex_hyps : let '(c, tr) := crun (cx_conf sha1) dx_course (cx_start sha1) in
  ordinary (cx_t sha1) /\ Forall sends_bytes dx_course /\ ~ In KSignal dx_course /\ given_up c /\ client_status c = None.
Proof.
  pose proof dx_facts as F. destruct (crun (cx_conf sha1) dx_course (cx_start sha1)) as [c tr]. cbn [fst] in F. destruct F as [F1 F2], dx_quiet as [Q1 Q2].
  split; [exact cx_ordinary|]. split; [exact Q1|]. split; [exact Q2|]. split; [|exact F2].
  unfold given_up. destruct (g_peers (c_mgr c)) as [|p [|]]; try contradiction. exists p. split; [now left|]. split; [apply F1|left; apply F1].
Qed.
(* four of the five attempts have failed: not given up, and status 0 can come *)
Definition dx_four : list cact := [KMain; KTrk 0 well; KTrk 0 well] ++ announce1 ++ repeat (KTrk 0 ill) 9.
Example C168_ex_four : let '(c, tr) := crun (cx_conf sha1) dx_four (cx_start sha1) in
  match g_peers (c_mgr c) with [p] => mp_conn p = None /\ mp_state p = PsNew /\ mp_addr p <> None | _ => False end /\ dials 0 (gevs tr) = 4%nat /\ client_status c = None /\
  client_status (fst (crun (cx_conf sha1) (repeat (KTrk 0 well) 2 ++ KSignal :: repeat KMain 6) c)) = Some 0.
Proof. vm_compute. repeat split; discriminate || reflexivity. Qed.
Example C168_ex : let c := fst (crun (cx_conf sha1) (dx_course ++ [KSignal]) (cx_start sha1)) in
  client_status c = None /\ client_status (cafter (cx_conf sha1) cturns 60 c) = Some 2 /\ cfair cturns.
Proof. cbv zeta. refine (conj _ (conj _ cturns_fair)); vm_compute; reflexivity. Qed.
(* without the failures the same signal ends the process with status 0         *)
Example C168_ex_reached : let c := fst (crun (cx_conf sha1) ([KMain; KTrk 0 well; KTrk 0 well] ++ announce1 ++ repeat (KTrk 0 well) 5 ++ [KSignal]) (cx_start sha1)) in
  client_status c = None /\ client_status (cafter (cx_conf sha1) cturns 90 c) = Some 0.
Proof. vm_compute. split; reflexivity. Qed.

Print Assumptions C168_never_zero.
Print Assumptions C168_ends_in_crash.
Print Assumptions C168_exact.
