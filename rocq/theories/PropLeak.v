(* Connections that are no longer used (property C110).                        *)
From Verif Require Import Base ProofBase ModelTracker ModelSystem ModelManager SpecManager SpecLeak ProofManager3 ProofManager4 ProofLeak.

(* ---------- C110 ---------- *)
(* Expected: an open connection is that of a peer that is being announced to or is
   running, so there is at most one for each peer.  Neither holds.             *)
Theorem C110_only_used_open_refuted :
  ~ (forall n l g tr, Forall act_ok l -> grun l (NewMng n) = (g, tr) -> g_panic g = false -> forall c, open g c -> used g c).
Proof. exact only_used_refuted. Qed.
Theorem C110_one_each_refuted :
  ~ (forall n l g tr, Forall act_ok l -> grun l (NewMng n) = (g, tr) -> g_panic g = false -> open_num g <= zlen (g_peers g)).
Proof. exact one_each_refuted. Qed.
(* What happens: until Stop nothing is closed, there are up to five for each peer,
   and that many can be there without any peer running.                        *)
Theorem C110_nothing_closed_before_stop :
  forall n l g tr m, grun l (NewMng n) = (g, tr) -> g_pool g = Some m -> forall c, (c < length (g_conns g))%nat -> open g c.
Proof. exact never_closed. Qed.
Theorem C110_five_each_partial :
  forall n l g tr, grun l (NewMng n) = (g, tr) -> open_num g <= zlen (g_conns g) <= 5 * zlen (g_peers g).
Proof. exact five_per_peer. Qed.
Theorem C110_five_each_reached :
  forall limit n, exists l g tr, Forall act_ok l /\ grun l (NewMng limit) = (g, tr) /\ g_panic g = false /\
    zlen (g_peers g) = Z.of_nat n /\ open_num g = 5 * Z.of_nat n /\ working g = 0.
Proof. exact five_reached. Qed.
(* Stop, if it does not panic, leaves exactly those open that a later attempt for
   the same peer has replaced.                                                 *)
Theorem C110_left_by_stop :
  forall n l g tr, grun l (NewMng n) = (g, tr) -> g_panic g = false -> g_stop g = true -> g_pool g <> None ->
    let g' := fst (gexec XStopClose g) in g_panic g' = false ->
    forall c, open g' c <-> (c < length (g_conns g))%nat /\ forall k p, nth_error (g_peers g) k = Some p -> mp_conn p <> Some c.
Proof. exact stop_leaves. Qed.
(* a peer that has ended; a peer with two failed handshakes; Stop *)
Example C110_ex_ended : let '(g, tr) := grun (one_peer ++ [XRunEnd 0]) (NewMng 30) in
  map mp_state (g_peers g) = [PsEnded] /\ g_conns g = [true] /\ g_panic g = false.
Proof. vm_compute. repeat split; reflexivity. Qed.
Example C110_ex_two : let l := [XDownload 1; XTrk 0 tgo; XTrk 0 tgo; XTrk 0 (told [ap1])] ++ repeat (XTrk 0 tdial) 7 in
  let '(g, tr) := grun l (NewMng 30) in
  g_conns g = [true; true] /\ map mp_conn (g_peers g) = [Some 1%nat] /\ g_pool g <> None /\
  let '(g', _) := grun (l ++ [XStop; XStopClose]) (NewMng 30) in g_conns g' = [true; false] /\ g_panic g' = false.
Proof. vm_compute. repeat split; try reflexivity; discriminate. Qed.

Print Assumptions C110_only_used_open_refuted.
Print Assumptions C110_one_each_refuted.
Print Assumptions C110_nothing_closed_before_stop.
Print Assumptions C110_five_each_partial.
Print Assumptions C110_five_each_reached.
Print Assumptions C110_left_by_stop.
