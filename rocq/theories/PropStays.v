(* Property C152: what is recorded stays recorded, a finished download stays finished. *)
From Verif Require Import Base SpecPath ModelPath ModelBitset ModelMsg ModelTorrent ModelConn ModelPeer ModelSystem
  SpecPeer SpecTorrent SpecFinish ProofHistory ProofSystem ProofWitness ProofStays ProofStays2 Sha1.

(* A recorded piece stays recorded, whatever happens. *)
Theorem C152_recorded_stays :
  forall sha1 l w w' tr n, run sha1 l w = (w', tr) ->
    nth_error (t_downloaded (sh_t (wo_sh w))) n = Some true -> nth_error (t_downloaded (sh_t (wo_sh w'))) n = Some true.
Proof. intros sha1 l. exact (recorded_stays sha1 l). Qed.
(* Full claim: once Done, always Done.  A torrent with hashes beyond its pieces can
   become unfinished again.                                                     *)
Theorem C152_finished_stays_refuted :
  forall sha1, (forall x, length (sha1 x) = 20%nat) ->
  ~ (forall cwd creat mk f0 mi hash dir f1 t l1 w1 tr1 l2 w2 tr2,
       New cwd creat mk f0 mi hash dir = (f1, Ok t) -> 0 <= t_pnum t < 2 ^ 51 ->
       Forall (spawns (eq false)) (l1 ++ l2) -> Forall reads_bytes l1 -> Forall reads_bytes l2 ->
       run sha1 l1 (start (mkW t f1 [] [] false)) = (w1, tr1) -> run sha1 l2 w1 = (w2, tr2) ->
       Done (sh_t (wo_sh w1)) = true -> Done (sh_t (wo_sh w2)) = true).
Proof. exact finished_stays_refuted. Qed.
(* It holds for torrents with at most one hash too many. *)
Theorem C152_finished_stays_partial :
  forall cwd creat mk f0 mi hash dir f1 t sha1 l1 w1 tr1 l2 w2 tr2,
    New cwd creat mk f0 mi hash dir = (f1, Ok t) -> 0 <= t_pnum t < 2 ^ 51 -> zlen (mi_pieces mi) <= 20 * (t_pnum t + 1) ->
    Forall reads_bytes l1 -> Forall reads_bytes l2 ->
    run sha1 l1 (start (mkW t f1 [] [] false)) = (w1, tr1) -> run sha1 l2 w1 = (w2, tr2) ->
    Done (sh_t (wo_sh w1)) = true -> Done (sh_t (wo_sh w2)) = true.
Proof. exact finished_stays. Qed.
(* It holds for torrents of several files, however many hashes there are: a piece
   beyond the last file is not recorded.                                       *)
Theorem C152_directory_partial :
  forall cwd creat mk f0 mi hash dir f1 t,
    New cwd creat mk f0 mi hash dir = (f1, Ok t) -> NoDup (t_osfiles t) -> mi_length mi = 0 ->
    Forall (fun n => 0 <= n) (file_lengths mi) -> 0 < total (file_lengths mi) <= 2 ^ 50 -> 0 < mi_piece_length mi < 2 ^ 30 ->
    forall sha1 l1 w1 tr1 l2 w2 tr2, Forall reads_bytes l1 -> Forall reads_bytes l2 ->
    run sha1 l1 (start (mkW t f1 [] [] false)) = (w1, tr1) -> run sha1 l2 w1 = (w2, tr2) ->
    Done (sh_t (wo_sh w1)) = true -> Done (sh_t (wo_sh w2)) = true.
Proof. exact dir_stays. Qed.
(* one piece and three hashes: finished, then not *)
Example C152_ex : forall sha1, exists w1 tr1 w2 tr2,
  run sha1 sx_first (start (mkW (sx_t sha1) sx_fs [] [] false)) = (w1, tr1) /\ run sha1 sx_then w1 = (w2, tr2) /\
  Done (sh_t (wo_sh w1)) = true /\ Done (sh_t (wo_sh w2)) = false /\ crashed w2 = false /\
  t_downloaded (sh_t (wo_sh w1)) = [true] /\ t_downloaded (sh_t (wo_sh w2)) = [true; false; true].
Proof. exact sx_run. Qed.
(* two pieces and two hashes: the hypotheses of the partial theorem are met *)
Example C152_ex_partial : forall sha1, (forall x, length (sha1 x) = 20%nat) ->
  zlen (mi_pieces (wx_mi sha1)) <= 20 * (t_pnum (wx_t sha1) + 1) /\
  exists w1 tr1 r, run sha1 both_pieces (start (mkW (wx_t sha1) wx_fs [] [] false)) = (w1, tr1) /\ crashed w1 = false /\ sh_cancel (wo_sh w1) = false /\
    Done (sh_t (wo_sh w1)) = true /\ nth_error (wo_peers w1) 0 = Some r /\ r_pc r = PUTop.
Proof.
  intros sha1 H. split; [|exact (both_pieces_run sha1)].
  unfold wx_mi, mi_pieces, zlen. rewrite app_length, !H. vm_compute. discriminate.
Qed.

(* one piece in a directory and three hashes: the piece beyond is accepted, but not recorded *)
Definition dx_mi : metainfo := mkMetainfo [] [] [] [mkTfile 4 [str "a"]] 0 (str "n") 4 (sha1 [1; 2; 3; 4] ++ sha1 [] ++ sha1 [5; 6; 7; 8]).
Example C152_ex_directory :
  match New [] (fun _ => true) false (fun _ => None) dx_mi [] (str "/o") with
  | (f1, Ok t) =>
      let '(w1, tr1) := run sha1 sx_first (start (mkW t f1 [] [] false)) in let '(w2, tr2) := run sha1 sx_then w1 in
      Done (sh_t (wo_sh w1)) = true /\ Done (sh_t (wo_sh w2)) = true /\ map m_index (wo_taken w1) = [0] /\ map m_index (wo_taken w2) = [0; 2] /\
      t_downloaded (sh_t (wo_sh w2)) = [true] /\ total (file_lengths dx_mi) = 4
  | _ => False
  end.
Proof. vm_compute. repeat split; reflexivity. Qed.

Print Assumptions C152_recorded_stays.
Print Assumptions C152_finished_stays_refuted.
Print Assumptions C152_finished_stays_partial.
Print Assumptions C152_directory_partial.
