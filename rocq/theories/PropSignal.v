(* Signals after the first (property C172).                                    *)
From Verif Require Import Base ProofBase Sha1 ModelStats ModelTorrent ModelPeer ModelSystem ModelTracker ModelManager ModelClient
  SpecManager SpecClient SpecSignal ProofWitness ProofClient4 ProofClient5 ProofClient6 ProofSignal.

(* ---------- C172 ---------- *)
(* Expected: a second signal ends a process that is still running.             *)
Theorem C172_second_refuted :
  ~ forall cf t f outs urls l1 l2 c tr, crun cf (l1 ++ KSignal :: l2 ++ [KSignal]) (client_start cf t f outs urls) = (c, tr) -> client_status c <> None.
Proof.
  intros H. specialize (H (cx_conf sha1) (cx_t sha1) wx_fs [] [str "http://t/a"] cx_connect [KMain]).
  destruct (crun (cx_conf sha1) (cx_connect ++ KSignal :: [KMain] ++ [KSignal]) _) as [c tr] eqn:E. apply (H c tr eq_refl).
  vm_compute in E. injection E as <- _. reflexivity.
Qed.
(* Whatever happened so far: a signal after the first changes nothing at all.  *)
Theorem C172_second_exact :
  forall cf t f outs urls l c tr, crun cf l (client_start cf t f outs urls) = (c, tr) -> In KSignal l -> cexec cf KSignal c = (c, []).
Proof. exact second_same. Qed.
(* So a course with any number of signals is the one with only the first: the same
   state, the same events.                                                     *)
Theorem C172_only_first_exact :
  forall cf t f outs urls l1 l2,
    crun cf (l1 ++ KSignal :: l2) (client_start cf t f outs urls) = crun cf (l1 ++ KSignal :: filter no_signal l2) (client_start cf t f outs urls).
Proof. exact only_first. Qed.
(* a peer in Run keeps the process alive after two, three, four signals        *)
Example C172_ex : let '(c, tr) := crun (cx_conf sha1) (cx_connect ++ [KSignal; KMain; KSignal; KMain; KSignal; KTrk 0 well; KSignal; KMain]) (cx_start sha1) in
  client_status c = None /\ c = fst (crun (cx_conf sha1) (cx_connect ++ [KSignal; KMain; KMain; KTrk 0 well; KMain]) (cx_start sha1)) /\
  client_status (cafter (cx_conf sha1) cturns 90 c) = Some 0.
Proof. vm_compute. repeat split; reflexivity. Qed.
(* the first one does change something                                         *)
Example C172_ex_first : let '(c, tr) := crun (cx_conf sha1) cx_connect (cx_start sha1) in fst (cexec (cx_conf sha1) KSignal c) <> c.
Proof. vm_compute. discriminate. Qed.

Print Assumptions C172_second_refuted.
Print Assumptions C172_second_exact.
Print Assumptions C172_only_first_exact.
