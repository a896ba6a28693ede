(* The order in which blocks come (properties C149 and C150).                  *)
From Verif Require Import Base ProofBase SpecPath ModelPath ModelBitset ModelMsg ModelTorrent ModelConn ModelPeer ModelSystem
  SpecPeer SpecTorrent SpecFinish SpecOrder ProofSystem ProofVerified ProofHistory ProofWrite ProofWitness ProofFinish ProofOrder ProofExact Sha1.

(* ---------- C149 ---------- *)
(* what is stored depends only on which blocks came, if blocks that overlap agree:
   neither on their order nor on how often each came *)
Theorem C149_order :
  forall cwd creat mk f0 mi hash dir f1 t,
    New cwd creat mk f0 mi hash dir = (f1, Ok t) -> NoDup (t_osfiles t) ->
    Forall (fun n => 0 <= n < 2 ^ 63) (file_lengths mi) -> 0 <= mi_piece_length mi < 2 ^ 30 ->
    forall ms ms', Forall (fun m => wire_msg m /\ exists d, data_of m = Ok d) ms -> (forall m, In m ms <-> In m ms') ->
    (forall m m' d d', In m ms -> In m' ms -> data_of m = Ok d -> data_of m' = Ok d' ->
       agree (block_of (mi_piece_length mi) m d) (block_of (mi_piece_length mi) m' d')) ->
    let w := WritePiece (mkW t f1 [] [] false) ms in
    let w' := WritePiece (mkW t f1 [] [] false) ms' in
    (forall p, contents (w_fs w) p = contents (w_fs w') p) /\ t_downloaded (w_t w) = t_downloaded (w_t w') /\
    w_panic w = false /\ w_panic w' = false.
Proof. intros. eapply order_same; eassumption. Qed.
(* for two runs of the client with any peers and any schedules, once the writer is
   done with all that the peers gave it *)
Theorem C149_runs :
  forall cwd creat mk f0 mi hash dir f1 t,
    New cwd creat mk f0 mi hash dir = (f1, Ok t) -> NoDup (t_osfiles t) ->
    Forall (fun n => 0 <= n < 2 ^ 63) (file_lengths mi) -> 0 <= mi_piece_length mi < 2 ^ 30 ->
    forall sha1 l l' w w' tr tr',
    run sha1 l (start (mkW t f1 [] [] false)) = (w, tr) -> run sha1 l' (start (mkW t f1 [] [] false)) = (w', tr') ->
    held w = [] -> sh_ch (wo_sh w) = [] -> held w' = [] -> sh_ch (wo_sh w') = [] ->
    (forall m, In m (handed tr) <-> In m (handed tr')) ->
    Forall (fun m => wire_msg m /\ exists d, data_of m = Ok d) (handed tr) ->
    (forall m m' d d', In m (handed tr) -> In m' (handed tr) -> data_of m = Ok d -> data_of m' = Ok d' ->
       agree (block_of (mi_piece_length mi) m d) (block_of (mi_piece_length mi) m' d')) ->
    (forall p, contents (w_fs (sh_w (wo_sh w))) p = contents (w_fs (sh_w (wo_sh w'))) p) /\
    t_downloaded (sh_t (wo_sh w)) = t_downloaded (sh_t (wo_sh w')).
Proof. exact order_runs. Qed.
(* three blocks of two overlapping kinds, in two orders, one of them twice; with
   blocks that disagree the order shows *)
Definition ox_block (i o : Z) (d : bytes) : msg := mkMsg (9 + zlen d) PieceT (be_put 4 i ++ be_put 4 o ++ d) i o 0.
Example C149_ex :
  let disk ms := map (contents (w_fs (WritePiece (mkW (wx_t sha1) wx_fs [] [] false) ms))) (t_osfiles (wx_t sha1)) in
  disk [ox_block 0 0 [1; 2; 3; 4]; ox_block 0 2 [3; 4; 5]; ox_block 1 2 [7; 8]] = [[1; 2; 3; 4; 5; 0; 7; 8]] /\
  disk [ox_block 1 2 [7; 8]; ox_block 0 2 [3; 4; 5]; ox_block 0 0 [1; 2; 3; 4]; ox_block 1 2 [7; 8]] = [[1; 2; 3; 4; 5; 0; 7; 8]] /\
  disk [ox_block 0 0 [1; 2]; ox_block 0 1 [9]] = [[1; 9]] /\ disk [ox_block 0 1 [9]; ox_block 0 0 [1; 2]] = [[1; 2]].
Proof. vm_compute. repeat split; reflexivity. Qed.
Example C149_ex_agree : agree (block_of 4 (ox_block 0 0 [1; 2; 3; 4]) [1; 2; 3; 4]) (block_of 4 (ox_block 0 2 [3; 4; 5]) [3; 4; 5]) /\
  ~ agree (block_of 4 (ox_block 0 0 [1; 2]) [1; 2]) (block_of 4 (ox_block 0 1 [9]) [9]).
Proof.
  split.
  - intros q A B. cbn in A, B. assert (q = 2 \/ q = 3) as [->| ->] by lia; reflexivity.
  - intros H. specialize (H 1). cbn in H. assert (2 = 9); [apply H; lia|discriminate].
Qed.

(* ---------- C150 ---------- *)
(* a finished download to which every piece came whole has files of the declared
   lengths, and its pieces have their hashes *)
Theorem C150_files :
  forall sha1 mi t w, whole_pieces sha1 mi t w ->
    map zlen (files_of t w) = file_lengths mi /\ 0 < mi_piece_length mi /\ total (file_lengths mi) = zlen (mi_pieces mi) / 20 * mi_piece_length mi /\
    forall i, 0 <= i < zlen (mi_pieces mi) / 20 -> sha1 (piece_of (concat (files_of t w)) (mi_piece_length mi) i) = hash_of (mi_pieces mi) i.
Proof. exact whole_files. Qed.
(* so two of them have the same files, if no piece of the one has the hash of a
   different one of the other *)
Theorem C150_same :
  forall sha1 mi t t' w w', whole_pieces sha1 mi t w -> whole_pieces sha1 mi t' w' ->
    (forall i, sha1 (piece_of (concat (files_of t w)) (mi_piece_length mi) i) = sha1 (piece_of (concat (files_of t' w')) (mi_piece_length mi) i) ->
       piece_of (concat (files_of t w)) (mi_piece_length mi) i = piece_of (concat (files_of t' w')) (mi_piece_length mi) i) ->
    files_of t w = files_of t' w'.
Proof. exact whole_same. Qed.
(* piece 1 first; its first write fails after two bytes, it comes again *)
Definition ox_run : list action :=
  seg 0 (piece_body 1 0 [5; 6; 7; 8]) ++ put 0 ++ seg 1 (piece_body 0 0 [1; 2; 3; 4]) ++ put 1 ++ seg 2 (piece_body 1 0 [5; 6; 7; 8]) ++ put 2.
Lemma ox_reads : Forall reads_bytes ox_run.
Proof.
  unfold ox_run, seg, put, to_read. repeat (apply Forall_app; split); repeat constructor; cbn; try discriminate; intros b E; injection E as <-; apply bytes_dec; reflexivity.
Qed.
Definition ox_end : world := fst (run sha1 ox_run (start (mkW (wx_t sha1) wx_fs [Some 2] [] false))).
Definition ox_tr := snd (run sha1 ox_run (start (mkW (wx_t sha1) wx_fs [Some 2] [] false))).
Example C150_ex : whole_pieces sha1 (wx_mi sha1) (wx_t sha1) ox_end /\ files_of (wx_t sha1) ox_end = [[1; 2; 3; 4; 5; 6; 7; 8]].
Proof.
  assert (EH : map (fun m => (m_index m, m_offset m, data_of m)) (handed ox_tr) = [(1, 0, Ok [5; 6; 7; 8]); (0, 0, Ok [1; 2; 3; 4]); (1, 0, Ok [5; 6; 7; 8])]) by (vm_compute; reflexivity).
  assert (HA : forall m, In m (handed ox_tr) -> (m_index m = 0 \/ m_index m = 1) /\ m_offset m = 0 /\ (data_of m = Ok [1; 2; 3; 4] \/ data_of m = Ok [5; 6; 7; 8])).
  { intros m Hm. apply (in_map (fun m => (m_index m, m_offset m, data_of m))) in Hm. rewrite EH in Hm. cbn in Hm.
    destruct Hm as [E|[E|[E|[]]]]; inversion E; auto. }
  split; [|vm_compute; reflexivity].
  exists [], (fun _ => true), false, (fun _ => None), [], (str "/o"), wx_fs, [Some 2], ox_run, ox_tr.
  split; [apply wx_new; intros x; pose proof (sha1_len x); unfold zlen in *; lia|]. split; [constructor; [intros []|constructor]|].
  split; [constructor; [split; [discriminate|reflexivity]|constructor]|]. split; [split; reflexivity|]. split; [split; [discriminate|reflexivity]|].
  split; [vm_compute; reflexivity|]. split; [vm_compute; reflexivity|].
  split; [exact ox_reads|].
  split; [unfold ox_end, ox_tr; apply surjective_pairing|]. split; [|split].
  - intros m Hm. destruct (HA m Hm) as (A & B & C). split; [|exact B]. unfold wire_sized. split; [lia|]. split; [lia|].
    intros d Ed. destruct C as [C|C]; rewrite C in Ed; injection Ed as <-; reflexivity.
  - intros m m' d d' Hm Hm' Ed Ed' Es. destruct (HA m Hm) as (_ & _ & [A|A]), (HA m' Hm') as (_ & _ & [A'|A']);
      rewrite A in Ed; rewrite A' in Ed'; injection Ed as <-; injection Ed' as <-; try reflexivity; vm_compute in Es; discriminate.
  - vm_compute. reflexivity.
Qed.

Print Assumptions C149_order.
Print Assumptions C149_runs.
Print Assumptions C150_files.
Print Assumptions C150_same.
