(* A peer and the clock: C90-C94.                                               *)
From Verif Require Import Base ProofBase ModelMsg ModelTorrent ModelPeer ModelSystem ModelTimed SpecTimed ProofTimed ProofTimedW ProofWitness.

(* ---------- C90: something is written at least every two minutes ---------- *)
(* While the peer runs, the latest write attempt is less than two minutes old, if the
   scheduler is never more than half a second late and no send to the writer blocks. *)
Theorem C90_no_silence_partial sha1 lag x0 tr x t0 : 0 <= lag <= sec / 2 -> begun x0 t0 -> texec sha1 lag x0 tr x -> unblocked lag tr -> running x ->
  x_now x - last_write t0 tr < 120 * sec.
Proof. exact (no_silence sha1 lag x0 tr x t0). Qed.
Print Assumptions C90_no_silence_partial.
(* Without the second condition it is false, even if nothing is ever late. *)
Theorem C90_refuted sha1 : ~ (forall x0 tr x t0, begun x0 t0 -> texec sha1 0 x0 tr x -> running x -> x_now x - last_write t0 tr < 120 * sec).
Proof.
  intros H. destruct (blocked_silent sha1 (120 * sec) ltac:(unfold sec; lia)) as (tr & x & H1 & H2 & H3 & _ & H4).
  specialize (H _ _ _ _ H1 H2 H3). lia.
Qed.
Print Assumptions C90_refuted.
(* Any length of silence occurs, with an open connection and a running download. *)
Theorem C90_silence_exact sha1 t : 0 <= t ->
  exists x0 tr x, begun x0 0 /\ texec sha1 0 x0 tr x /\ running x /\ Forall open tr /\ x_now x - last_write 0 tr = t.
Proof. intros H. exists (tx_start sha1). exact (blocked_silent sha1 t H). Qed.
Print Assumptions C90_silence_exact.

(* ---------- C91: keep-alives only when idle ---------- *)
(* checkKeepAlive writes exactly when its last keep-alive, or the connect, is 1.9 minutes old. *)
Theorem C91_keepalive_partial sha1 lag x0 tr x a es x' : 0 <= lag -> x_last x0 <= x_now x0 -> texec sha1 lag x0 tr x -> r_pc (x_r x) = PKeep -> txstep sha1 lag a x es x' ->
  (existsb is_write es = true <-> 114 * sec <= x_now x - last_keep (x_last x0) tr).
Proof. exact (keepalive_exact sha1 lag x0 tr x a es x'). Qed.
Print Assumptions C91_keepalive_partial.
Theorem C91_apart_partial sha1 lag x0 x ta s1 tb s2 tc : 0 <= lag -> x_last x0 <= x_now x0 -> texec sha1 lag x0 (ta ++ s1 :: tb ++ s2 :: tc) x ->
  keeps s1 = true -> keeps s2 = true -> 114 * sec <= x_now (t_from s2) - x_now (t_to s1).
Proof. exact (keepalives_apart sha1 lag x0 x ta s1 tb s2 tc). Qed.
Print Assumptions C91_apart_partial.
(* Other messages do not count: a keep-alive follows another message at once. *)
Theorem C91_refuted sha1 : ~ (forall x0 t0 tr x a es x', begun x0 t0 -> texec sha1 0 x0 tr x -> r_pc (x_r x) = PKeep -> txstep sha1 0 a x es x' -> existsb is_write es = true ->
  114 * sec <= x_now x - last_write t0 tr).
Proof.
  intros H. destruct (keepalive_busy sha1) as (tr & x & a & es & x' & H1 & H2 & H3 & H4 & H5 & H6).
  specialize (H _ _ _ _ _ _ _ H1 H2 H3 H4 H5). unfold sec in H. lia.
Qed.
Print Assumptions C91_refuted.

(* ---------- C92: growing delays between retries ---------- *)
(* In Run every wait after a failed read or write lasts 100 ms. *)
Theorem C92_run_exact sha1 lag x0 tr x d : 0 <= lag -> texec sha1 lag x0 tr x -> r_pc (x_r x0) = PTop -> In d (run_waits tr) -> 100 * ms <= d <= 100 * ms + lag.
Proof. exact (run_wait sha1 lag x0 tr x d). Qed.
Print Assumptions C92_run_exact.
(* So most delays of the policy of 156-163 never happen. *)
Theorem C92_refuted sha1 : ~ (forall n d, policy (Z.of_nat n) d -> exists x0 t0 tr x, begun x0 t0 /\ texec sha1 0 x0 tr x /\ nth_error (run_waits tr) n = Some d).
Proof.
  intros H. destruct (H 1%nat 200000000) as (x0 & t0 & tr & x & [H1 _] & H2 & H3).
  - vm_compute. split; discriminate.
  - apply nth_error_In in H3. pose proof (C92_run_exact sha1 0 x0 tr x _ ltac:(lia) H2 H1 H3) as H4. unfold ms in H4. lia.
Qed.
Print Assumptions C92_refuted.
(* In a call of unchoke the n-th wait is the policy's. *)
Theorem C92_unchoke_partial sha1 lag x0 ta s tb x n d : 0 <= lag -> texec sha1 lag x0 (ta ++ s :: tb) x -> r_pc (x_r (t_from s)) = PChoke -> Forall inside_unchoke tb ->
  nth_error (unchoke_waits tb) n = Some d -> 100 * ms <= d <= Z.min (30 * sec) (100 * ms * 2 ^ Z.of_nat n) + lag.
Proof. exact (unchoke_call sha1 lag x0 ta s tb x n d). Qed.
Print Assumptions C92_unchoke_partial.

(* ---------- C93: a dead connection is given up ---------- *)
(* If nothing can be sent or received from some start of the loop on, an unchoked peer
   ends with the next keep-alive, at most 116 seconds after the last one (and the lag). *)
Theorem C93_unchoked_partial sha1 lag x0 tr x : 0 <= lag -> r_pc (x_r x0) = PTop -> x_last x0 <= x_now x0 -> choked x0 = false ->
  texec sha1 lag x0 tr x -> Forall dead tr -> running x -> x_now x <= Z.max (x_now x0) (x_last x0 + 116 * sec + 6 * lag) + 2 * lag.
Proof. exact (dead_ends sha1 lag x0 tr x). Qed.
Print Assumptions C93_unchoked_partial.
(* A choked peer does not: unchoke never looks at the keep-alive. *)
Theorem C93_refuted sha1 : ~ (exists bound, forall x0 tr x, r_pc (x_r x0) = PTop -> x_last x0 <= x_now x0 -> texec sha1 0 x0 tr x -> Forall dead tr -> Forall open tr -> running x ->
  x_now x <= x_now x0 + bound).
Proof.
  intros [b H]. destruct (choked_lives sha1 0 (tx_sh sha1) (tx_start sha1) (b + 1)) as (tr & y & H1 & H2 & H3 & H4 & H5); try reflexivity; try lia.
  - unfold sec, second. cbn [tx_start x_last x_now]. lia.
  - specialize (H (tx_start sha1) tr y eq_refl (Z.le_refl 0) H1 H2 H3 H4). cbn [tx_start x_now] in H. lia.
Qed.
Print Assumptions C93_refuted.
(* It can go on for ever, whatever the state of the download. *)
Theorem C93_choked_exact sha1 lag sh x t : 0 <= lag -> sh_cancel sh = false -> Done (sh_t sh) = false -> r_pc (x_r x) = PTop -> choked x = true ->
  x_last x <= x_now x < x_last x + 114 * sec ->
  exists tr y, texec sha1 lag x tr y /\ Forall dead tr /\ Forall open tr /\ running y /\ t <= x_now y.
Proof. exact (choked_lives sha1 lag sh x t). Qed.
Print Assumptions C93_choked_exact.

(* ---------- C94: no busy loop ---------- *)
(* Between two failures there are at least 100 ms. *)
Theorem C94_no_busy_loop sha1 lag x0 tr x : 0 <= lag -> texec sha1 lag x0 tr x -> (failures tr - 1) * (100 * ms) <= x_now x - x_now x0.
Proof. exact (no_busy_loop sha1 lag x0 tr x). Qed.
Print Assumptions C94_no_busy_loop.

(* ---------- Examples ---------- *)
(* busy_inputs: eleven failed tries of unchoke over more than 140 s, then an unchoke message,
   a second message and the next turn of the loop                              *)
Example C90_example sha1 : match busy_run sha1 with
  | Some (tr, y) => r_pc (x_r y) = PKeep /\ x_now y = 141100000000 /\ last_write 0 tr = 141100000000 /\ length (filter (fun s => existsb is_write (t_es s)) tr) = 13%nat /\
      map (fun s => t_es s) (filter (fun s => match t_es s with [EPut _] => true | _ => false end) tr) = []
  | None => False
  end.
Proof. vm_compute. repeat split; reflexivity. Qed.
(* two keep-alives: unchoked, then 104 failed reads *)
Definition fail_turn : list din := [go0; go0; go0; go0; go0; dl true None 1000000000; dl true None 100000000].
Definition two_keeps : list din := busy_inputs ++ [go0; go0; go0; dl true None 1000000000; dl true None 100000000] ++ concat (repeat fail_turn 103) ++ [go0; go0; go0].
Example C91_example sha1 : match xrun sha1 (tx_sh sha1) two_keeps (tx_start sha1) with
  | Some (tr, y) => map (fun s => (x_now (t_from s), x_now (t_to s))) (filter keeps tr) = [(141100000000, 141100000000); (255500000000, 255500000000)]
  | None => False
  end.
Proof. vm_compute. reflexivity. Qed.
Example C92_example sha1 : match xrun sha1 (tx_sh sha1) two_keeps (tx_start sha1) with
  | Some (tr, y) => run_waits tr = repeat (100 * ms) 104 /\ unchoke_waits tr = map (fun k => Z.min (30 * sec) (100 * ms * 2 ^ Z.of_nat k)) (seq 0 12)
  | None => False
  end.
Proof. vm_compute. repeat split; reflexivity. Qed.
(* an unchoked peer whose connection dies: 104 turns, then the keep-alive fails *)
Definition unchoked_peer sha1 : tstate :=
  mkX (let r := ModelSystem.fresh false (wx_t sha1) 0 in mkR PTop (set_client (r_peer r) (mkStatus false false true)) None false 0) 0 0 0.
Definition dead_turn : list din := [go0; go0; go0; go0; go0; dl false None 1000000000; dl true None 100000000].
Example C93_example sha1 : choked (unchoked_peer sha1) = false /\
  match xrun sha1 (tx_sh sha1) (concat (repeat dead_turn 104) ++ [go0; go0; dl false None 1000000000]) (unchoked_peer sha1) with
  | Some (tr, y) => r_pc (x_r y) = PRet /\ x_now y = 115400000000 /\ failures tr = 105 /\ length (run_waits tr) = 104%nat
  | None => False
  end.
Proof. vm_compute. repeat split; reflexivity. Qed.
Example C94_example sha1 : match xrun sha1 (tx_sh sha1) (concat (repeat [go0; go0; go0; go0; go0; dl false None 0; dl true None 100000000] 3)) (unchoked_peer sha1) with
  | Some (tr, y) => failures tr = 3 /\ x_now y = 300000000
  | None => False
  end.
Proof. vm_compute. repeat split; reflexivity. Qed.
