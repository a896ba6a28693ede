(* Which torrents can be downloaded (property C158).                           *)
From Verif Require Import Base ProofBase SpecPath ModelPath ModelBitset ModelMsg ModelTorrent ModelConn ModelPeer ModelSystem
  SpecPeer SpecTorrent SpecFinish SpecPossible ProofHistory ProofWitness ProofPossible Sha1.

(* ---------- C158 ---------- *)
(* Expected: for every torrent there is an execution at whose end it is Done and its
   files are its content.  There is none for three bytes in pieces of four.    *)
Theorem C158_downloadable_refuted :
  ~ (forall cwd creat mk f0 mi hash dir f1 t N c,
       New cwd creat mk f0 mi hash dir = (f1, Ok t) -> NoDup (t_osfiles t) -> Forall (fun n => 0 <= n) (file_lengths mi) ->
       0 < total (file_lengths mi) <= 2 ^ 50 -> 0 < mi_piece_length mi < 2 ^ 30 -> N <= 2 ^ 32 -> torrent_of sha1 mi N c ->
       exists l w tr, Forall reads_bytes l /\ Forall real l /\ run sha1 l (start (mkW t f1 [] [] false)) = (w, tr) /\ crashed w = false /\
         Done (sh_t (wo_sh w)) = true /\ map (w_fs (sh_w (wo_sh w))) (t_osfiles t) = map Some (cut (file_lengths mi) c)).
Proof. exact downloadable_refuted. Qed.
(* exactly those whose length is a multiple of the piece length, unless the last
   hash is that of no data                                                     *)
Theorem C158_downloadable_exact :
  forall cwd creat mk f0 mi hash dir f1 t,
    New cwd creat mk f0 mi hash dir = (f1, Ok t) -> NoDup (t_osfiles t) -> Forall (fun n => 0 <= n) (file_lengths mi) ->
    0 < total (file_lengths mi) <= 2 ^ 50 -> 0 < mi_piece_length mi < 2 ^ 30 ->
    forall sha1 N c, N <= 2 ^ 32 -> torrent_of sha1 mi N c -> sha1 [] <> hash_of (mi_pieces mi) (N - 1) ->
    ((exists l w tr, Forall reads_bytes l /\ Forall real l /\ run sha1 l (start (mkW t f1 [] [] false)) = (w, tr) /\ crashed w = false /\
        Done (sh_t (wo_sh w)) = true /\ map (w_fs (sh_w (wo_sh w))) (t_osfiles t) = map Some (cut (file_lengths mi) c)) <->
     total (file_lengths mi) mod mi_piece_length mi = 0).
Proof. exact possible_exact. Qed.
(* The files can become the content for every torrent.  Missing: that it is Done
   then, if the last piece is short.                                           *)
Theorem C158_stored_partial :
  forall cwd creat mk f0 mi hash dir f1 t,
    New cwd creat mk f0 mi hash dir = (f1, Ok t) -> NoDup (t_osfiles t) -> Forall (fun n => 0 <= n) (file_lengths mi) ->
    0 < total (file_lengths mi) <= 2 ^ 50 -> 0 < mi_piece_length mi < 2 ^ 30 ->
    forall sha1 N c, N <= 2 ^ 32 -> torrent_of sha1 mi N c ->
    exists l w tr, Forall reads_bytes l /\ Forall real l /\ run sha1 l (start (mkW t f1 [] [] false)) = (w, tr) /\ crashed w = false /\
      map (w_fs (sh_w (wo_sh w))) (t_osfiles t) = map Some (cut (file_lengths mi) c) /\
      (total (file_lengths mi) mod mi_piece_length mi = 0 -> Done (sh_t (wo_sh w)) = true).
Proof. exact can_store. Qed.
(* eight bytes in three files and two pieces; seven bytes *)
Definition qx_mi (lens : list Z) (hs : list bytes) : metainfo :=
  mkMetainfo [] [] [] (map (fun p => mkTfile (snd p) [fst p]) (combine [[97]; [98]; [99]] lens)) 0 (str "n") 4 (concat (map sha1 hs)).
Definition qx_new (lens : list Z) (hs : list bytes) := New [] (fun _ => true) false (fun _ => None) (qx_mi lens hs) [] (str "/o").
Definition qx_files (lens : list Z) (hs : list bytes) (l : list action) : option (bool * list (option bytes)) :=
  match qx_new lens hs with
  | (f1, Ok t) => let w := fst (run sha1 l (start (mkW t f1 [] [] false))) in Some (Done (sh_t (wo_sh w)), map (w_fs (sh_w (wo_sh w))) (t_osfiles t))
  | _ => None
  end.
Example C158_ex :
  cut [3; 0; 5] [1; 2; 3; 4; 5; 6; 7; 8] = [[1; 2; 3]; []; [4; 5; 6; 7; 8]] /\
  qx_files [3; 0; 5] [[1; 2; 3; 4]; [5; 6; 7; 8]] (ProofPossible.rounds (qx_mi [3; 0; 5] []) [1; 2; 3; 4; 5; 6; 7; 8] 2) = Some (true, [Some [1; 2; 3]; Some []; Some [4; 5; 6; 7; 8]]) /\
  qx_files [3; 0; 4] [[1; 2; 3; 4]; [5; 6; 7]] (ProofPossible.rounds (qx_mi [3; 0; 4] []) [1; 2; 3; 4; 5; 6; 7] 2) = Some (false, [Some [1; 2; 3]; Some []; Some [4; 5; 6; 7]]).
Proof. vm_compute. repeat split; reflexivity. Qed.
Example C158_ex_torrent : torrent_of sha1 (qx_mi [3; 0; 4] [[1; 2; 3; 4]; [5; 6; 7]]) 2 [1; 2; 3; 4; 5; 6; 7] /\
  sha1 [] <> hash_of (mi_pieces (qx_mi [3; 0; 4] [[1; 2; 3; 4]; [5; 6; 7]])) 1.
Proof.
  split; [|vm_compute; discriminate]. split; [reflexivity|]. split; [apply bytes_dec; reflexivity|]. split; [vm_compute; reflexivity|]. split; [cbn; lia|].
  intros i Hi. assert (i = 0 \/ i = 1) as [->| ->] by lia; vm_compute; reflexivity.
Qed.

Print Assumptions C158_downloadable_refuted.
Print Assumptions C158_downloadable_exact.
Print Assumptions C158_stored_partial.
