(* Theorems about the request queue and the statistics (properties C31-C35, C63,
   C64).                                                                       *)
From Coq Require Import Permutation.
From Verif Require Import Base SpecPath ModelPath ModelMsg ModelTorrent ProofTorrent ProofWrite ProofNew ModelStats SpecStats ProofStats.

(* ---------- C31 ---------- *)
(* ops: calls of RequestFailed and FailedPieceMessage in the order in which they
   get the lock; h: the same with the answers *)
Theorem C31_nothing_lost_or_duplicated :
  forall ops q' h, qrun NewPiecesQueue ops = (q', h) -> Permutation (puts h) (q' ++ gots h).
Proof. exact queue_conserved. Qed.
Theorem C31_answers :
  forall ops q' h1 r h2, qrun NewPiecesQueue ops = (q', h1 ++ Get r :: h2) ->
    match r with
    | Some m => exists a b, h1 = a ++ [Put m] ++ b /\ balanced b      (* the latest one still pending *)
    | None => Permutation (puts h1) (gots h1)                         (* nothing pending *)
    end.
Proof. exact queue_lifo. Qed.
Example C31_ex :
  let m i := CreatePieceMessage i 0 16384 in
  snd (qrun NewPiecesQueue [QPop; QFail (m 1); QFail (m 2); QPop; QFail (m 3); QPop; QPop; QPop]) =
    [Get None; Put (m 1); Put (m 2); Get (Some (m 2)); Put (m 3); Get (Some (m 3)); Get (Some (m 1)); Get None].
Proof. reflexivity. Qed.

(* ---------- C32 ---------- *)
(* css: for each goroutine the calls it makes; ts: what each still has to do *)
Theorem C32_counters_conserved :
  forall size css s ts, 0 <= size < 2 ^ 64 -> wreach (NewStats size, map program css) (s, ts) ->
    u64 (st_download s + st_left s) = u64 (size + in_flight ts) /\
    (Forall (fun t => t = []) ts ->
       st_download s = u64 (downloads (concat css)) /\ st_left s = u64 (size - downloads (concat css)) /\
       st_upload s = u64 (uploads (concat css)) /\ st_peers s = u64 (peers_in (concat css)) /\ st_trackers s = u64 (trackers_in (concat css))).
Proof. exact stats_conserved. Qed.
Example C32_ex :
  exists s, wreach (NewStats 100, map program [[CDl 10; CPeerAdd]; [CDl 7]]) (s, [[SubLeft 10; IncPeer]; []]) /\ st_download s = 17 /\ st_left s = 93.
Proof.
  eexists. split; [|split].
  - eapply wr_step; [eapply wr_step; [eapply wr_step; [apply wr_refl|]|]|].
    + apply (ws (NewStats 100) [program [CDl 10; CPeerAdd]] (AddDl 7) [SubLeft 7] []).
    + apply (ws _ [] (AddDl 10) [SubLeft 10; IncPeer] [[SubLeft 7]]).
    + apply (ws _ [[SubLeft 10; IncPeer]] (SubLeft 7) [] []).
  - reflexivity.
  - reflexivity.
Qed.

(* ---------- C33 ---------- *)
(* run_stats: the statistics after the writer has handled some messages; the
   torrent size is the torrent's length (manager.go) *)
Theorem C33_left_never_underflows_refuted :
  ~ (forall cwd creat mk f0 m hash dir f1 t ms,
       New cwd creat mk f0 m hash dir = (f1, Ok t) -> 0 <= t_length t < 2 ^ 63 ->
       let w := WritePiece (mkW t f1 [] [] false) ms in
       w_panic w = false -> st_left (run_stats (t_length t) w) <= t_length t).
Proof.
  intros H. destruct (cx_new (cx [] 5 (str "n") 4)) as [f1 r] eqn:E. destruct r as [t| | |]; try (vm_compute in E; inversion E; fail).
  specialize (H _ _ _ _ _ _ _ _ _ [blk 0 0 [1; 2; 3; 4]; blk 0 0 [1; 2; 3; 4]] E).
  vm_compute in E. inversion E; subst. specialize (H ltac:(cbn; lia)). vm_compute in H. now apply H.
Qed.
Theorem C33_left_exact :
  forall size t f outs ms, 0 <= size < 2 ^ 64 ->
    let w := WritePiece (mkW t f outs [] false) ms in
    w_panic w = false ->
    let received := sum (map (fun m => match data_of m with Ok d => zlen d | _ => 0 end) ms) in
    st_left (run_stats size w) = u64 (size - received) /\ st_download (run_stats size w) = u64 received.
Proof.
  intros size t f outs ms Hs w Hw received. destruct (run_stats_exact size w Hs) as (H1 & H2 & _). destruct (added_exact ms _ Hw) as [_ E].
  fold w in E. rewrite E in H1, H2. auto.
Qed.
Theorem C33_left_never_underflows_partial :
  forall size t f outs ms, 0 <= size < 2 ^ 64 ->
    let w := WritePiece (mkW t f outs [] false) ms in
    w_panic w = false ->
    let received := sum (map (fun m => match data_of m with Ok d => zlen d | _ => 0 end) ms) in
    received <= size -> st_left (run_stats size w) = size - received /\ st_left (run_stats size w) <= size.
Proof.
  intros size t f outs ms Hs w Hw received Hr. destruct (C33_left_exact size t f outs ms Hs Hw) as [H _]. fold w received in H.
  assert (0 <= received). { unfold received. clear. induction ms as [|m ms IH]; cbn [map]; [cbn; lia|]. rewrite sum_cons. destruct (data_of m) as [d| | |]; try lia. assert (0 <= zlen d) by (unfold zlen; lia). lia. }
  rewrite H. unfold u64. rewrite Z.mod_small; lia.
Qed.

(* ---------- C34 ---------- *)
(* the counter is loaded twice; d0 and d are the two values *)
Theorem C34_percent_in_range :
  forall size d0 d, 0 <= size < 2 ^ 64 -> 0 <= d0 -> 0 <= d <= size -> 0 <= percent_of size d0 d <= 100.
Proof. exact percent_range. Qed.
Theorem C34_complete_is_100 : forall size, 1 <= size < 2 ^ 64 -> percent_of size size size = 100.
Proof. exact percent_full. Qed.
Example C34_ex : percent_of (2 ^ 64 - 1) (2 ^ 64 - 1) (2 ^ 64 - 1) = 100 /\ percent_of 3 1 1 = 33 /\ percent_of 1000 995 995 = 100 /\ percent_of 1000 994 994 = 99.
Proof. repeat split; reflexivity. Qed.

(* ---------- C35 ---------- *)
(* The full claim: whatever the writer has counted, the bar can be printed. *)
Theorem C35_print_never_crashes_refuted :
  ~ (forall size css s ts, 0 <= size < 2 ^ 64 -> wreach (NewStats size, map program css) (s, ts) -> PrintBar s <> Panic).
Proof.
  intros H. specialize (H 100 [[CDl 60; CDl 60]] (fold_left aexec (program [CDl 60; CDl 60]) (NewStats 100)) [[]] ltac:(lia)).
  apply H; [|reflexivity]. cbn [map program flat_map prog AddDownload app fold_left].
  eapply wr_step; [eapply wr_step; [eapply wr_step; [eapply wr_step; [apply wr_refl|]|]|]|].
  - apply (ws _ [] (AddDl 60) [SubLeft 60; AddDl 60; SubLeft 60] []).
  - apply (ws _ [] (SubLeft 60) [AddDl 60; SubLeft 60] []).
  - apply (ws _ [] (AddDl 60) [SubLeft 60] []).
  - apply (ws _ [] (SubLeft 60) [] []).
Qed.
(* exactly: from 105 percent on (and below -4) *)
Theorem C35_bar_exact :
  forall p, - 2 ^ 63 <= p < 2 ^ 63 ->
    (progressBar p 20 = Panic <-> p <= -5 \/ 105 <= p) /\
    (-5 < p < 105 ->
       progressBar p 20 = Ok (repeat progressChar (Z.to_nat (Z.quot p 5)) ++ repeat space (Z.to_nat (20 - Z.quot p 5)), str "|  " ++ itoa p ++ str "%")).
Proof. exact bar_exact. Qed.
Theorem C35_print_never_crashes_partial :
  forall s, 0 <= st_size s < 2 ^ 64 -> 0 <= st_download s <= st_size s -> exists bar txt, PrintBar s = Ok (bar, txt) /\ length bar = 20%nat.
Proof.
  intros s Hs Hd. unfold PrintBar, PercentCompleted. pose proof (percent_range (st_size s) (st_download s) (st_download s) Hs ltac:(lia) Hd) as Hp.
  set (p := percent_of _ _ _) in *. destruct (bar_exact p) as [_ H]; [unfold in_range; lia|]. specialize (H ltac:(lia)).
  eexists _, _. split; [exact H|]. rewrite app_length, !repeat_length. assert (0 <= Z.quot p 5 <= 20); [|lia].
  rewrite Z.quot_div_nonneg by lia. split; [apply Z.div_pos; lia|]. apply Z.div_le_upper_bound; lia.
Qed.
Example C35_ex : progressBar 50 20 = Ok (repeat progressChar 10 ++ repeat space 10, str "|  50%") /\ progressBar 104 20 <> Panic /\ progressBar 105 20 = Panic.
Proof. repeat split; try reflexivity. vm_compute. discriminate. Qed.

(* ---------- C63 ---------- *)
(* The full claim: what counts as downloaded has been stored. *)
Theorem C63_counted_is_stored_refuted :
  ~ (forall cwd creat mk f0 m hash dir f1 t ms,
       New cwd creat mk f0 m hash dir = (f1, Ok t) -> mi_length m = 0 ->
       let w := WritePiece (mkW t f1 [] [] false) ms in
       w_panic w = false -> sum (w_added w) <= sum (map (fun p => zlen (contents (w_fs w) p)) (t_osfiles t))).
Proof.
  intros H. destruct (cx_new (cx [mkTfile 3 [str "a"]] 0 (str "n") 4)) as [f1 r] eqn:E. destruct r as [t| | |]; try (vm_compute in E; inversion E; fail).
  specialize (H _ _ _ _ _ _ _ _ _ [blk 7 0 [1; 2; 3; 4]] E). vm_compute in E. inversion E; subst. specialize (H eq_refl eq_refl). vm_compute in H. now apply H.
Qed.
(* exactly: every message handled counts, stored or not *)
Theorem C63_every_message_counts_exact :
  forall t f outs ms, let w := WritePiece (mkW t f outs [] false) ms in
    w_panic w = false -> w_added w = map (fun m => match data_of m with Ok d => zlen d | _ => 0 end) ms.
Proof. intros t f outs ms w H. apply (added_exact ms (mkW t f outs [] false) H). Qed.

(* ---------- C64 ---------- *)
Theorem C64_percent_monotone :
  forall size d1 d2, 1 <= size < 2 ^ 64 -> 0 <= d1 <= d2 -> d2 <= 2 ^ 53 -> percent_of size d1 d1 <= percent_of size d2 d2.
Proof. exact percent_mono. Qed.
(* beyond, int() of a too large float wraps to the minimum (amd64) *)
Theorem C64_beyond_refuted : percent_of 1 (2 ^ 62) (2 ^ 62) < percent_of 1 1 1.
Proof. reflexivity. Qed.
Example C64_ex : percent_of 7 3 3 = 43 /\ percent_of 7 4 4 = 57.
Proof. split; reflexivity. Qed.

Print Assumptions C31_nothing_lost_or_duplicated.
Print Assumptions C31_answers.
Print Assumptions C32_counters_conserved.
Print Assumptions C33_left_never_underflows_refuted.
Print Assumptions C33_left_exact.
Print Assumptions C33_left_never_underflows_partial.
Print Assumptions C34_percent_in_range.
Print Assumptions C34_complete_is_100.
Print Assumptions C35_print_never_crashes_refuted.
Print Assumptions C35_bar_exact.
Print Assumptions C35_print_never_crashes_partial.
Print Assumptions C63_counted_is_stored_refuted.
Print Assumptions C63_every_message_counts_exact.
Print Assumptions C64_percent_monotone.
Print Assumptions C64_beyond_refuted.
