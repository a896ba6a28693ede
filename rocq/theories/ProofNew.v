(* Proofs behind PropTorrent: the earlier lemmas specialised to torrents created
   by New, and the counterexamples.                                            *)
From Coq Require Import Reals Floats.SpecFloat Logic.FinFun.
From Verif Require Import Base ProofBase SpecPath ModelPath ModelFloat ModelBitset ModelMsg ModelTorrent SpecTorrent
  ProofTorrent ProofWrite ProofPath ProofHistory ProofFloat ProofDisk.
Open Scope Z_scope.

Lemma concat20 ps : Forall (fun p => zlen (p_sha1 p) = 20) ps -> zlen (concat (map p_sha1 ps)) = zlen ps * 20.
Proof.
  induction 1 as [|p ps Hp Hps IH]; cbn [map concat]; [reflexivity|]. rewrite zlen_app, zlen_cons, IH, Hp. lia.
Qed.
Lemma new_pieces_full b :
    (zlen b mod 20 <> 0 -> exists e, NewPieces b = Err e) /\
    (zlen b mod 20 = 0 -> exists ps, NewPieces b = Ok ps /\ zlen ps * 20 = zlen b /\ concat (map p_sha1 ps) = b /\
       forall k p, nth_error ps k = Some p -> p_index p = Z.of_nat k /\ p_sha1 p = sub b (20 * Z.of_nat k) (20 * Z.of_nat k + 20)).
Proof.
  split; [apply new_pieces_err|]. intros H. destruct (new_pieces_ok b H) as (ps & E & Ec & Hf & Hi). exists ps. split; [exact E|].
  split; [|split; [exact Ec|]].
  - rewrite <- Ec. now rewrite concat20.
  - intros k p Hk. split; [auto|]. eapply pieces_hash_at; eauto.
Qed.

Lemma nth_firstn_in {A} (l : list A) k x : In x (firstn k l) <-> exists k', (k' < k)%nat /\ nth_error l k' = Some x.
Proof.
  revert k. induction l as [|a l IH]; intros [|k]; cbn [firstn In].
  - split; [tauto|intros (k' & H & _); lia].
  - split; [tauto|]. intros (k' & _ & H). now destruct k'.
  - split; [tauto|intros (k' & H & _); lia].
  - rewrite IH. split.
    + intros [->|(k' & H1 & H2)]; [exists O; split; [lia|reflexivity]|exists (S k'); split; [lia|auto]].
    + intros ([|k'] & H1 & H2); [left; cbn in H2; congruence|right; exists k'; split; [lia|auto]].
Qed.

Section created.
  Variables (cwd : place) (creat : bytes -> bool) (mk : bool) (f : fs) (m : metainfo) (hash dir : bytes) (f' : fs) (t : torrent).
  Hypothesis HN : New cwd creat mk f m hash dir = (f', Ok t).

  Lemma fresh_sets : t_requested t = bs_make (t_pnum t) /\ t_downloaded t = bs_make (t_pnum t) /\ t_pnum t = pieces_num (t_length t) (mi_piece_length m) /\ t_plen t = mi_piece_length m.
  Proof. destruct (new_fields _ _ _ _ _ _ _ _ _ HN) as (_ & _ & _ & E1 & _ & _ & _ & E2 & E3 & E4 & _). rewrite E1 in E2. auto. Qed.

  Lemma next_run_new haves t' rs : 0 <= t_pnum t < 2 ^ 51 -> next_run t haves = (t', rs) ->
    length rs = length haves /\
    (forall k1 k2 i, nth_error rs k1 = Some (Some i) -> nth_error rs k2 = Some (Some i) -> k1 = k2) /\
    forall k have r, nth_error haves k = Some have -> nth_error rs k = Some r ->
      match r with
      | Some i => 0 <= i < t_pnum t /\ bs_test have i = true /\
                  forall j, 0 <= j < i -> bs_test have j = true -> exists k', (k' < k)%nat /\ nth_error rs k' = Some (Some j)
      | None => forall j, 0 <= j < t_pnum t -> bs_test have j = true -> exists k', (k' < k)%nat /\ nth_error rs k' = Some (Some j)
      end.
  Proof.
    intros Hp Hr. destruct fresh_sets as (Er & _ & _). destruct (next_run_spec _ _ _ _ Hr) as [Hl H]. cbv zeta in H. rewrite Er in H.
    rewrite bs_make_len in H by auto.
    assert (Ht : forall k j, (bs_test (bs_make (t_pnum t)) j = true \/ In (Some j) (firstn k rs)) <-> exists k', (k' < k)%nat /\ nth_error rs k' = Some (Some j)).
    { intros k j. rewrite <- nth_firstn_in, bs_make_test. intuition discriminate. }
    split; [exact Hl|]. split.
    - assert (forall k1 k2 i, nth_error rs k1 = Some (Some i) -> nth_error rs k2 = Some (Some i) -> (k1 < k2)%nat -> False) as Hlt.
      { intros k1 k2 i H1 H2 Hlt. assert (exists have, nth_error haves k2 = Some have) as [have Hh].
        { destruct (nth_error haves k2) eqn:E; eauto. apply nth_error_None in E. assert (k2 < length rs)%nat by (apply nth_error_Some; congruence). lia. }
        specialize (H k2 have (Some i) Hh H2). cbn in H. destruct H as (_ & _ & Hn & _). apply Hn, Ht. eauto. }
      intros k1 k2 i H1 H2. destruct (Nat.lt_trichotomy k1 k2) as [Hl'|[He|Hl']]; auto; exfalso; eauto.
    - intros k have r Hh Hk. specialize (H k have r Hh Hk). destruct r as [i|].
      + destruct H as (H1 & H2 & _ & H3). split; [lia|]. split; [auto|]. intros j Hj Hb. apply Ht. auto.
      + intros j Hj Hb. apply Ht. auto.
  Qed.

  Lemma done_new is : 0 <= t_pnum t < 2 ^ 51 -> Forall (fun i => 0 <= i < t_pnum t) is ->
    (Done (fold_left SetDownloaded is t) = true <-> forall j, 0 <= j < t_pnum t -> In j is).
  Proof. intros Hp Hi. apply done_iff; auto; [|lia]. destruct fresh_sets as (_ & -> & _). now apply bs_make_new. Qed.
  Lemma done_new_any is : 0 <= t_pnum t < 2 ^ 51 -> Forall (fun i => 0 <= i) is ->
    (Done (fold_left SetDownloaded is t) = true <-> forall j, 0 <= j -> (j < t_pnum t \/ exists i, In i is /\ j <= i) -> In j is).
  Proof. intros Hp Hi. apply done_iff_any; auto; [|lia]. destruct fresh_sets as (_ & -> & _). now apply bs_make_new. Qed.

  Lemma entry_at : mi_length m = 0 -> forall k p, nth_error (t_osfiles t) k = Some p -> exists len, nth_error (entries t) k = Some (len, p).
  Proof.
    intros H0 k p Hk. destruct (new_entries _ _ _ _ _ _ _ _ _ HN H0) as [_ E2]. rewrite <- E2 in Hk. rewrite nth_error_map in Hk.
    destruct (nth_error (entries t) k) as [[len q]|]; [|discriminate]. cbn in Hk. inversion Hk; subst. eauto.
  Qed.

  Lemma write_new_exact fx pos data : mi_length m = 0 -> NoDup (t_osfiles t) ->
    Forall (fun x => 0 <= tf_length x < 2 ^ 63) (mi_files m) -> 0 <= pos < 2 ^ 63 ->
    let lens := map tf_length (mi_files m) in
    exists f' outs' st, writePieceData fx [] t data pos = (f', outs', st) /\
      (forall p, ~ In p (t_osfiles t) -> f' p = fx p) /\
      (forall k p o, nth_error (t_osfiles t) k = Some p -> 0 <= o ->
         (forall q, located lens q k o -> pos <= q < pos + zlen data -> byte_at (contents f' p) o = byte_at data (q - pos)) /\
         ((forall q, located lens q k o -> ~ pos <= q < pos + zlen data) -> byte_at (contents f' p) o = byte_at (contents fx p) o)) /\
      (st = WOk <-> pos < total lens /\ pos + zlen data <= total lens) /\ st <> WPanic.
  Proof.
    intros H0 Hnd Hl Hp lens. destruct (new_multi_ok _ _ _ _ _ _ _ _ _ HN H0 Hnd Hl) as [Hm _].
    destruct (new_entries _ _ _ _ _ _ _ _ _ HN H0) as [E1 E2].
    destruct (write_exact t fx pos data Hm Hp) as (f1 & o1 & st & E & [W1 W2] & Hs & Hn). rewrite E1 in *. rewrite E2 in *.
    exists f1, o1, st. split; [exact E|]. split; [exact W1|]. split; [|split; auto].
    intros k p o Hk Ho. destruct (entry_at H0 k p Hk) as [len He]. exact (W2 k len p o He Ho).
  Qed.

  Lemma write_new_failing fx outs pos data : mi_length m = 0 -> NoDup (t_osfiles t) ->
    Forall (fun x => 0 <= tf_length x < 2 ^ 63) (mi_files m) -> 0 <= pos < 2 ^ 63 ->
    let lens := map tf_length (mi_files m) in
    exists f' outs' st n, writePieceData fx outs t data pos = (f', outs', st) /\ 0 <= n <= zlen data /\
      (forall p, ~ In p (t_osfiles t) -> f' p = fx p) /\
      (forall k p o, nth_error (t_osfiles t) k = Some p -> 0 <= o ->
         (forall q, located lens q k o -> pos <= q < pos + n -> byte_at (contents f' p) o = byte_at data (q - pos)) /\
         ((forall q, located lens q k o -> ~ pos <= q < pos + n) -> byte_at (contents f' p) o = byte_at (contents fx p) o)) /\
      (st = WOk -> n = zlen data) /\ st <> WPanic.
  Proof.
    intros H0 Hnd Hl Hp lens. destruct (new_multi_ok _ _ _ _ _ _ _ _ _ HN H0 Hnd Hl) as [Hm _].
    destruct (new_entries _ _ _ _ _ _ _ _ _ HN H0) as [E1 E2].
    destruct (write_piece_spec t fx outs pos data Hm Hp) as (f1 & o1 & st & n & E & Hn & [W1 W2] & _ & Hs & Hok & _). rewrite E1 in *. rewrite E2 in *.
    assert (Hz : zlen (sub data 0 n) = n). { unfold sub, zlen in *. cbn [Z.to_nat skipn]. rewrite firstn_length. lia. }
    exists f1, o1, st, n. split; [exact E|]. split; [exact Hn|]. split; [exact W1|]. split; [|split; [intros Hw; apply Hok in Hw; tauto|auto]].
    intros k p o Hk Ho. destruct (entry_at H0 k p Hk) as [len He]. destruct (W2 k len p o He Ho) as [A1 A2]. rewrite Hz in *. split; [|exact A2].
    intros q Hq Hr. rewrite (A1 q Hq Hr). apply byte_sub; lia.
  Qed.

  Lemma run_new_disk ms : mi_length m = 0 -> NoDup (t_osfiles t) ->
    Forall (fun x => 0 <= tf_length x < 2 ^ 63) (mi_files m) -> 0 <= mi_piece_length m < 2 ^ 30 ->
    Forall (fun x => wire_msg x /\ exists d, data_of x = Ok d) ms ->
    let w := WritePiece (mkW t f' [] [] false) ms in
    let writes := map (fun x => (m_index x * mi_piece_length m + m_offset x, match data_of x with Ok d => d | _ => [] end)) ms in
    w_panic w = false /\
    forall k p o q, nth_error (t_osfiles t) k = Some p -> located (map tf_length (mi_files m)) q k o ->
      byte_at (contents (w_fs w) p) o = latest writes q 0.
  Proof.
    intros H0 Hnd Hl Hp Hg w writes. destruct (new_multi_ok _ _ _ _ _ _ _ _ _ HN H0 Hnd Hl) as [Hm _].
    destruct (new_entries _ _ _ _ _ _ _ _ _ HN H0) as [E1 E2]. destruct fresh_sets as (_ & _ & _ & Ep).
    destruct (WritePiece_data ms (mkW t f' [] [] false)) as [P B]; auto; [cbn [w_t]; rewrite Ep; exact Hp|].
    split; [exact P|]. intros k p o q Hk Hloc. destruct (entry_at H0 k p Hk) as [len He]. cbn [w_t w_fs] in B. rewrite E1, Ep in B.
    assert (Ho : 0 <= o). { clear - Hloc. induction Hloc; auto; lia. }
    unfold w. rewrite (B k len p o q He Ho Hloc). unfold writes, block_write. f_equal.
    erewrite (new_files_empty _ _ _ _ _ _ _ _ _ HN) by (eapply nth_error_In; eauto). unfold byte_at. now destruct (Z.to_nat o).
  Qed.

  Lemma new_single : mi_length m <> 0 -> exists h, t_osfiles t = [h] /\ t_isdir t = false /\ contents f' h = [] /\ h = os_place cwd (Join dir (mi_name m)).
  Proof.
    intros H0. destruct (new_fields _ _ _ _ _ _ _ _ _ HN) as (_ & _ & _ & _ & Hd & _ & _ & _ & _ & _ & En & paths & Hp & Hc).
    replace (mi_length m =? 0) with false in Hd by lia. unfold download_paths in Hp. rewrite Hd, En in Hp. inversion Hp; subst paths.
    apply create_files_spec in Hc as (Eh & He & _). cbn [map] in Eh. eexists. split; [exact Eh|]. split; [exact Hd|]. split; [|reflexivity].
    unfold contents. rewrite He; [reflexivity|]. rewrite Eh. now left.
  Qed.

  Lemma run_new_single ms : mi_length m <> 0 -> 0 <= mi_piece_length m < 2 ^ 30 ->
    Forall (fun x => wire_msg x /\ exists d, data_of x = Ok d) ms ->
    let w := WritePiece (mkW t f' [] [] false) ms in
    let writes := map (fun x => (m_index x * mi_piece_length m + m_offset x, match data_of x with Ok d => d | _ => [] end)) ms in
    exists h, t_osfiles t = [h] /\ w_panic w = false /\ (forall p, p <> h -> w_fs w p = f' p) /\
      forall q, 0 <= q -> byte_at (contents (w_fs w) h) q = latest writes q 0.
  Proof.
    intros H0 Hp Hg w writes. destruct (new_single H0) as (h & Eh & Hd & Hc & _). destruct fresh_sets as (_ & _ & _ & Ep).
    destruct (single_data ms (mkW t f' [] [] false) h []) as (P & N & B & _); auto; [cbn [w_t]; rewrite Ep; exact Hp|].
    exists h. split; [exact Eh|]. split; [exact P|]. split; [exact N|]. intros q Hq. cbn [w_t w_fs] in B. unfold w. rewrite B by auto. rewrite Ep, Hc.
    unfold writes, block_write. f_equal. unfold byte_at. now destruct (Z.to_nat q).
  Qed.

  Lemma single_length_exact ms h : mi_length m <> 0 -> 0 <= mi_piece_length m < 2 ^ 30 -> t_osfiles t = [h] ->
    Forall (fun x => wire_msg x /\ exists d, data_of x = Ok d) ms ->
    zlen (contents (w_fs (WritePiece (mkW t f' [] [] false) ms)) h) =
    fold_left (fun n x => match data_of x with
                          | Ok (c :: r) => Z.max n (m_index x * mi_piece_length m + m_offset x + zlen (c :: r))
                          | _ => n end) ms 0.
  Proof.
    intros H0 Hp Eh' Hg. destruct (new_single H0) as (h0 & Eh & Hd & Hc & _). destruct fresh_sets as (_ & _ & _ & Ep).
    assert (h0 = h) by congruence. subst h0.
    destruct (single_data ms (mkW t f' [] [] false) h []) as (_ & _ & _ & L); auto; [cbn [w_t]; rewrite Ep; exact Hp|].
    cbn [w_t w_fs] in L. rewrite Ep, Hc in L. etransitivity; [exact L|]. change (zlen []) with 0. clear. generalize 0 at 1 2.
    induction ms as [|x ms IH]; intros n; [reflexivity|]. cbn [map fold_left]. rewrite IH. f_equal. unfold block_write. cbn [fst snd].
    destruct (data_of x) as [[|c r]| | |]; reflexivity.
  Qed.

  Lemma multi_bounded outs ms : mi_length m = 0 -> NoDup (t_osfiles t) ->
    Forall (fun x => 0 <= tf_length x < 2 ^ 63) (mi_files m) ->
    let w := WritePiece (mkW t f' outs [] false) ms in
    forall k x p, nth_error (mi_files m) k = Some x -> nth_error (t_osfiles t) k = Some p -> zlen (contents (w_fs w) p) <= tf_length x.
  Proof.
    intros H0 Hnd Hl w k x p Hk Hp. destruct (new_multi_ok _ _ _ _ _ _ _ _ _ HN H0 Hnd Hl) as [Hm Hf].
    pose proof (WritePiece_fits ms (mkW t f' outs [] false) Hm Hf) as Hw.
    pose proof (WritePiece_layout ms (mkW t f' outs [] false)) as SL. apply same_entries in SL. fold w in Hw, SL. unfold fits in Hw. rewrite SL in Hw.
    apply Hw. destruct (new_entries _ _ _ _ _ _ _ _ _ HN H0) as [E1 _]. destruct (entry_at H0 k p Hp) as [len He].
    assert (nth_error (map fst (entries t)) k = Some len) by (rewrite nth_error_map; cbn [w_t]; rewrite He; reflexivity).
    rewrite E1, nth_error_map, Hk in H. cbn in H. inversion H; subst. eapply nth_error_In. cbn [w_t]. exact He.
  Qed.

  (* ---------- places ---------- *)
  Lemma handles_multi : mi_length m = 0 -> dir <> [] ->
    Forall2 (fun x p => exists c r, tf_path x = c :: r /\ p = fold_left step (split_path c) (fold_left step (split_path (mi_name m)) (os_place cwd dir))) (mi_files m) (t_osfiles t).
  Proof.
    intros H0 Hdir. destruct (new_fields _ _ _ _ _ _ _ _ _ HN) as (_ & _ & _ & _ & Hd & _ & Hf & _ & _ & _ & En & paths & Hp & Hc).
    replace (mi_length m =? 0) with true in * by lia. rewrite Hd, Hf, En in Hp. unfold download_paths in Hp. apply file_paths_spec in Hp.
    apply create_files_spec in Hc as (-> & _). clear Hf. induction Hp as [|x p l l' (c & r & E1 & E2) H IH]; cbn [map]; constructor; auto.
    exists c, r. split; [exact E1|]. subst p. rewrite join_place by (now apply join_nonempty). now rewrite join_place.
  Qed.

  Lemma entries_exact : mi_length m = 0 -> dir <> [] -> plain_name (mi_name m) ->
    Forall (fun x => tf_path x <> [] /\ Forall plain_name (tf_path x)) (mi_files m) ->
    t_osfiles t = map (fun x => os_place cwd dir ++ [mi_name m; hd [] (tf_path x)]) (mi_files m).
  Proof.
    intros H0 Hdir Hn Hp. pose proof (handles_multi H0 Hdir) as H.
    assert (Hs : forall c, plain_name c -> split_path c = [c]).
    { intros c (_ & Hc & _). unfold split_path. rewrite split_on_noslash by exact Hc. reflexivity. }
    rewrite (Hs _ Hn) in H. cbn [fold_left] in H. rewrite step_plain in H by auto.
    induction H as [|x p l l' (c & r & E1 & E2) H IH]; cbn [map]; [reflexivity|]. inversion Hp as [|? ? [_ H1] H2]; subst. rewrite E1 in *. inversion H1; subst.
    rewrite (Hs c) in * by auto. cbn [fold_left hd]. rewrite step_plain by auto. rewrite <- app_assoc. cbn [app]. f_equal. auto.
  Qed.

  Lemma entries_flat : mi_length m = 0 -> dir <> [] -> plain_name (mi_name m) ->
    Forall (fun x => exists c, tf_path x = [c] /\ plain_name c) (mi_files m) -> NoDup (map tf_path (mi_files m)) ->
    t_osfiles t = map (fun x => os_place cwd dir ++ mi_name m :: tf_path x) (mi_files m) /\ NoDup (t_osfiles t).
  Proof.
    intros H0 Hdir Hn Hp Hnd.
    assert (E : t_osfiles t = map (fun x => os_place cwd dir ++ mi_name m :: tf_path x) (mi_files m)).
    { rewrite entries_exact; auto.
      - apply map_ext_in. intros x Hx. rewrite Forall_forall in Hp. destruct (Hp x Hx) as (c & -> & _). reflexivity.
      - eapply Forall_impl; [|exact Hp]. intros x (c & -> & Hc). split; [discriminate|]. now constructor. }
    split; [exact E|]. rewrite E. rewrite <- (map_map tf_path (fun q => os_place cwd dir ++ mi_name m :: q)).
    apply FinFun.Injective_map_NoDup; auto. intros a b Hab. apply app_inv_head in Hab. congruence.
  Qed.

  Lemma comp_split s cs : components s cs -> cs = split_path s.
  Proof. intros H. eapply components_fun; [exact H|]. apply split_path_spec. Qed.

  Lemma places_exact base ncomps : dir <> [] -> resolves cwd dir base -> components (mi_name m) ncomps ->
    if mi_length m =? 0
    then Forall2 (fun x p => exists c cs, hd_error (tf_path x) = Some c /\ components c cs /\ p = fold_left step cs (fold_left step ncomps base)) (mi_files m) (t_osfiles t)
    else t_osfiles t = [fold_left step ncomps base].
  Proof.
    intros Hdir Hr Hc. apply resolves_os_place in Hr. subst base. apply comp_split in Hc. subst ncomps. destruct (Z.eqb_spec (mi_length m) 0) as [H0|H0].
    - pose proof (handles_multi H0 Hdir) as H. induction H as [|x p l l' (c & r & E1 & E2) H IH]; constructor; auto.
      exists c, (split_path c). rewrite E1. split; [reflexivity|]. split; [apply split_path_spec|]. exact E2.
    - destruct (new_single H0) as (h & Eh & _ & _ & ->). rewrite Eh. now rewrite join_place.
  Qed.

  Lemma inside_ok base : dir <> [] -> resolves cwd dir base ->
    (forall cs, components (mi_name m) cs -> ~ In [46; 46] cs /\ exists c, In c cs /\ plain_name c) ->
    Forall (fun x => forall c cs, hd_error (tf_path x) = Some c -> components c cs -> ~ In [46; 46] cs) (mi_files m) ->
    Forall (inside base) (t_osfiles t).
  Proof.
    intros Hdir Hr Hn Hf. pose proof (places_exact base (split_path (mi_name m)) Hdir Hr (split_path_spec _)) as H.
    destruct (Hn _ (split_path_spec _)) as [Hn1 (c0 & Hc0 & Hpl)].
    assert (Hh : forall s, ~ In [46; 46] (split_path s) -> Forall harmless (split_path s)).
    { intros s Hs. pose proof (split_noslash s) as Hsl. rewrite Forall_forall in *. intros c Hc. unfold harmless.
      destruct (comp_cases c (Hsl c Hc)) as [?|[?|[?|?]]]; auto. subst c. exfalso. apply Hs. exact Hc. }
    destruct (fold_step_harmless _ base (Hh _ Hn1)) as (q & Eq & Hq).
    assert (q <> []) as Hqn by (apply Hq, Exists_exists; eauto). rewrite Eq in H.
    destruct (mi_length m =? 0).
    - clear Hn. induction H as [|x p l l' (c & cs & E1 & E2 & E3) H IH]; [constructor|]. inversion Hf as [|? ? F1 F2]; subst. constructor; auto.
      apply comp_split in E2 as E2'. subst cs. destruct (fold_step_harmless (split_path c) (base ++ q) (Hh _ (F1 _ _ E1 E2))) as (q2 & -> & _).
      destruct q as [|a q]; [easy|]. exists a, (q ++ q2). now rewrite <- app_assoc.
    - rewrite H. constructor; [|constructor]. destruct q as [|a q]; [easy|]. now exists a, q.
  Qed.

  (* ---------- completeness ---------- *)
  Lemma length_new :
    (mi_length m <> 0 -> t_length t = mi_length m) /\
    (mi_length m = 0 -> Forall (fun x => 0 <= tf_length x) (mi_files m) -> total (map tf_length (mi_files m)) < 2 ^ 63 ->
       t_length t = total (map tf_length (mi_files m))).
  Proof.
    destruct (new_fields _ _ _ _ _ _ _ _ _ HN) as (_ & _ & _ & _ & _ & El & _). split.
    - intros H0. now replace (mi_length m =? 0) with false in El by lia.
    - intros H0 Hf Ht. replace (mi_length m =? 0) with true in El by lia. rewrite El. now apply complete_length_total.
  Qed.
  Lemma pieces_num_new : 0 <= t_length t <= 2 ^ 53 -> 0 < mi_piece_length m <= 2 ^ 53 ->
    (t_pnum t - 1) * mi_piece_length m < t_length t <= t_pnum t * mi_piece_length m.
  Proof.
    intros Hl Hp. destruct fresh_sets as (_ & _ & -> & _). rewrite pieces_num_ceil by auto. apply ceil_bounds; lia.
  Qed.

  Lemma pnum_range : 0 < t_length t <= 2 ^ 50 -> 0 < mi_piece_length m <= 2 ^ 53 -> 0 < t_pnum t <= 2 ^ 50.
  Proof. intros Hl Hp. pose proof (pieces_num_new ltac:(lia) Hp). nia. Qed.

  Lemma never_done_multi outs ms : mi_length m = 0 -> NoDup (t_osfiles t) ->
    Forall (fun x => 0 <= tf_length x) (mi_files m) -> 0 < total (map tf_length (mi_files m)) <= 2 ^ 50 -> 0 < mi_piece_length m <= 2 ^ 50 ->
    total (map tf_length (mi_files m)) mod mi_piece_length m <> 0 ->
    Forall wire_sized ms ->
    Done (w_t (WritePiece (mkW t f' outs [] false) ms)) = false.
  Proof.
    intros H0 Hnd Hf Ht Hp Hmod Hw. set (L := total (map tf_length (mi_files m))) in *. set (P := mi_piece_length m) in *.
    assert (El : t_length t = L) by (apply length_new; auto; fold L; lia).
    assert (Hl : Forall (fun x => 0 <= tf_length x < 2 ^ 63) (mi_files m)).
    { rewrite Forall_forall in *. intros x Hx. split; [auto|]. assert (tf_length x <= L); [|lia].
      unfold L. clear - Hf Hx. induction (mi_files m) as [|y l IH]; [easy|]. cbn. fold (total (map tf_length l)).
      assert (0 <= total (map tf_length l)). { apply total_nonneg. rewrite Forall_map, Forall_forall. intros z Hz. apply Hf. now right. }
      destruct Hx as [->|Hx]; [lia|]. specialize (IH (fun z Hz => Hf z (or_intror Hz)) Hx). specialize (Hf y (or_introl eq_refl)). lia. }
    destruct (new_multi_ok _ _ _ _ _ _ _ _ _ HN H0 Hnd Hl) as [Hm _]. destruct (new_entries _ _ _ _ _ _ _ _ _ HN H0) as [E1 _].
    destruct fresh_sets as (_ & Ed & _ & Ep). pose proof (pieces_num_new ltac:(lia) ltac:(fold P; lia)) as Hc. rewrite El in Hc. fold P in Hc, Ep.
    assert (Hr : 0 < t_pnum t <= 2 ^ 50) by (apply pnum_range; [|fold P]; lia).
    assert (Hlt : L < t_pnum t * P). { destruct (Z.eq_dec L (t_pnum t * P)) as [E|E]; [|lia]. exfalso. apply Hmod. rewrite E. apply Z.mod_mul. lia. }
    apply not_done with (i := t_pnum t - 1).
    - pose proof (WritePiece_dl_len ms (mkW t f' outs [] false) Hw) as H. cbn [w_t] in H. rewrite Ed, bs_make_len in H by lia. lia.
    - apply WritePiece_short; auto; cbn [w_t]; rewrite ?E1, ?Ep; fold L; try lia.
      rewrite Ed. apply bs_make_test.
  Qed.

  Lemma never_done_single outs ms : 0 < mi_length m <= 2 ^ 50 -> 0 < mi_piece_length m <= 2 ^ 50 ->
    mi_length m mod mi_piece_length m <> 0 ->
    Forall wire_sized ms -> Forall (ends_inside t) ms ->
    Done (w_t (WritePiece (mkW t f' outs [] false) ms)) = false.
  Proof.
    intros Hl Hp Hmod Hw Hin. assert (El : t_length t = mi_length m) by (apply length_new; lia).
    destruct fresh_sets as (_ & Ed & _ & Ep). pose proof (pieces_num_new ltac:(lia) ltac:(lia)) as Hc.
    assert (Hr : 0 < t_pnum t <= 2 ^ 50) by (apply pnum_range; lia).
    assert (Hlt : t_length t < t_pnum t * mi_piece_length m).
    { destruct (Z.eq_dec (t_length t) (t_pnum t * mi_piece_length m)) as [E|E]; [|lia]. exfalso. apply Hmod. rewrite <- El, E. apply Z.mod_mul. lia. }
    apply not_done with (i := t_pnum t - 1).
    - pose proof (WritePiece_dl_len ms (mkW t f' outs [] false) Hw) as H. cbn [w_t] in H. rewrite Ed, bs_make_len in H by lia. lia.
    - apply WritePiece_short_single; auto; cbn [w_t]; rewrite ?Ep; try lia.
      rewrite Ed. apply bs_make_test.
  Qed.

  Lemma full_pieces_done ms : mi_length m = 0 -> NoDup (t_osfiles t) ->
    Forall (fun x => 0 <= tf_length x < 2 ^ 63) (mi_files m) -> 0 <= mi_piece_length m < 2 ^ 30 -> 0 <= t_pnum t < 2 ^ 51 ->
    Forall (fun x => wire_msg x /\ exists d, data_of x = Ok d /\ zlen d < 2 ^ 32 /\ 0 <= m_index x < t_pnum t /\
      m_index x * mi_piece_length m + m_offset x < total (map tf_length (mi_files m)) /\
      m_index x * mi_piece_length m + m_offset x + zlen d <= total (map tf_length (mi_files m))) ms ->
    (forall i, 0 <= i < t_pnum t -> exists x d, In x ms /\ m_index x = i /\ data_of x = Ok d /\ m_offset x + zlen d = mi_piece_length m) ->
    Done (w_t (WritePiece (mkW t f' [] [] false) ms)) = true.
  Proof.
    intros H0 Hnd Hl Hp Hn Hms Hall. destruct (new_multi_ok _ _ _ _ _ _ _ _ _ HN H0 Hnd Hl) as [Hm _].
    destruct (new_entries _ _ _ _ _ _ _ _ _ HN H0) as [E1 _]. destruct fresh_sets as (_ & Ed & _ & Ep).
    apply WritePiece_done; auto; cbn [w_t]; rewrite ?Ep; auto.
    - rewrite Ed. apply bs_make_len. auto.
    - eapply Forall_impl; [|exact Hms]. intros x (Hw & d & Hd & _). split; eauto.
    - eapply Forall_impl; [|exact Hms]. intros x (Hw & d & Hd & Hz & Hi & Ha & Hb). unfold inside_torrent, block_write. rewrite E1, Ep, Hd. cbn [snd]. auto.
    - eapply Forall_impl; [|exact Hms]. intros x (Hw & d & Hd & Hz & _). unfold block_write. rewrite Hd. exact Hz.
    - intros i Hi. right. destruct (Hall i Hi) as (x & d & Hx & Hix & Hd & He). exists x. split; [exact Hx|]. split; [exact Hix|].
      unfold block_write. rewrite Hd. exact He.
  Qed.

  Lemma trackers_new : NoDup (t_trackers t) /\
    forall u, In u (t_trackers t) <-> u = mi_announce m \/ (exists tier, In tier (mi_announce_list m) /\ In u tier) \/ In u (mi_url_list m).
  Proof. destruct (new_fields _ _ _ _ _ _ _ _ _ HN) as (_ & -> & _). apply trackers_spec. Qed.

  Lemma fresh_done_iff : Done t = false <-> 0 < t_pnum t < 2 ^ 51.
  Proof.
    destruct fresh_sets as (_ & Ed & _ & _). split.
    - intros H. destruct (Z_lt_dec 0 (t_pnum t)); [destruct (Z_lt_dec (t_pnum t) (2 ^ 51)); [auto|]|].
      + unfold Done in H. rewrite Ed in H. unfold bs_make in H. replace ((0 <=? t_pnum t) && (t_pnum t <? 2 ^ 51)) with false in H by lia. discriminate.
      + unfold Done in H. rewrite Ed in H. unfold bs_make in H. destruct (Z.eq_dec (t_pnum t) 0) as [E|E].
        * rewrite E in H. discriminate.
        * replace ((0 <=? t_pnum t) && (t_pnum t <? 2 ^ 51)) with false in H by lia. discriminate.
    - intros H. apply not_done with (i := 0); rewrite Ed.
      + rewrite bs_make_len; lia.
      + apply bs_make_test.
  Qed.
  Lemma fresh_not_done : 0 < t_length t <= 2 ^ 50 -> 0 < mi_piece_length m <= 2 ^ 53 -> Done t = false.
  Proof. intros Hl Hp. apply fresh_done_iff. pose proof (pnum_range Hl Hp). lia. Qed.

  Lemma wrap64_range z : - 2 ^ 63 <= wrap64 z < 2 ^ 63.
  Proof. unfold wrap64. pose proof (Z.mod_pos_bound (z + 2 ^ 63) (2 ^ 64) ltac:(lia)). lia. Qed.
  Lemma complete_range files : - 2 ^ 63 <= complete_length files < 2 ^ 63.
  Proof.
    unfold complete_length. assert (H : - 2 ^ 63 <= 0 < 2 ^ 63) by lia. revert H. generalize 0. induction files as [|x l IH]; intros z Hz; cbn; [auto|].
    apply IH. apply wrap64_range.
  Qed.
  Lemma zero_plen_done have : mi_piece_length m = 0 -> - 2 ^ 63 <= mi_length m < 2 ^ 63 -> Done t = true /\ Next t have = (t, None).
  Proof.
    intros Hp Hl. destruct fresh_sets as (Er & Ed & Epn & _). destruct (new_fields _ _ _ _ _ _ _ _ _ HN) as (_ & _ & _ & _ & _ & El & _).
    assert (Hr : - 2 ^ 63 <= t_length t < 2 ^ 63). { rewrite El. destruct (_ =? 0); [apply complete_range|auto]. }
    assert (E : t_pnum t = - 2 ^ 63).
    { rewrite Epn, Hp. unfold pieces_num. destruct (f64_of_value (t_length t) (bpow1000 (t_length t) ltac:(lia))) as [Hfin _].
      change (f64_of 0) with (S754_zero false). destruct (f64_of (t_length t)); try discriminate; reflexivity. }
    rewrite E in *. split.
    - unfold Done. now rewrite Ed.
    - unfold Next. rewrite Er. reflexivity.
  Qed.

  Lemma check_exact sha1 data i :
    (CheckPiece sha1 t data i = Panic <-> ~ 0 <= i < zlen (mi_pieces m) / 20) /\
    (0 <= i < zlen (mi_pieces m) / 20 -> CheckPiece sha1 t data i = Ok (beq (sub (mi_pieces m) (20 * i) (20 * i + 20)) (sha1 data))).
  Proof.
    destruct (new_fields _ _ _ _ _ _ _ _ _ HN) as (Hps & _). destruct (new_pieces_full (mi_pieces m)) as [He Hok].
    destruct (Z.eq_dec (zlen (mi_pieces m) mod 20) 0) as [E|E]; [|destruct (He E) as [e Hx]; congruence].
    destruct (Hok E) as (ps & Hps' & Hz & _ & Hk). assert (ps = t_pieces t) by congruence. subst ps.
    assert (Hlen : zlen (mi_pieces m) / 20 = zlen (t_pieces t)) by (rewrite <- Hz; apply Z.div_mul; lia). rewrite Hlen. unfold CheckPiece, nthZ.
    assert (Hin : 0 <= i < zlen (t_pieces t) -> exists p, nth_error (t_pieces t) (Z.to_nat i) = Some p /\ p_sha1 p = sub (mi_pieces m) (20 * i) (20 * i + 20)).
    { intros Hi. destruct (nth_error (t_pieces t) (Z.to_nat i)) as [p|] eqn:Ep.
      - exists p. split; [reflexivity|]. apply Hk in Ep as [_ ->]. now rewrite Z2Nat.id by lia.
      - apply nth_error_None in Ep. unfold zlen in *. lia. }
    split.
    - split.
      + intros H Hi. destruct (Hin Hi) as (p & Ep & _). replace (i <? 0) with false in H by lia. rewrite Ep in H. discriminate.
      + intros Hi. destruct (i <? 0) eqn:El; [reflexivity|]. replace (nth_error (t_pieces t) (Z.to_nat i)) with (@None piece); [reflexivity|].
        symmetry. apply nth_error_None. unfold zlen in *. lia.
    - intros Hi. destruct (Hin Hi) as (p & Ep & <-). replace (i <? 0) with false by lia. now rewrite Ep.
  Qed.
End created.

Lemma empty_path_panics cwd creat f m hash dir : mi_length m = 0 -> zlen (mi_pieces m) mod 20 = 0 -> Exists (fun x => tf_path x = []) (mi_files m) ->
  snd (New cwd creat false f m hash dir) = Panic.
Proof.
  intros H0 Hp Hx. unfold New. destruct (new_pieces_ok _ Hp) as (ps & -> & _). rewrite H0. cbn [Z.eqb andb]. unfold download_paths.
  rewrite (proj2 (file_paths_panic _ _) Hx). reflexivity.
Qed.

(* ---------- counterexamples ---------- *)
Definition cx (files : list tfile) (len : Z) (name : bytes) (plen : Z) : metainfo := mkMetainfo [] [] [] files len name plen (repeat 7 20).
Definition cx_new (m : metainfo) := New [] (fun _ => true) false (fun _ => None) m [] (str "/o").
Definition blk (i o : Z) (d : bytes) : msg := mkMsg (9 + zlen d) PieceT (be_put 4 i ++ be_put 4 o ++ d) i o 0.

Lemma single_bounded_refuted :
  ~ (forall cwd creat mk f0 m hash dir f1 t ms h,
       New cwd creat mk f0 m hash dir = (f1, Ok t) -> mi_length m > 0 -> t_osfiles t = [h] ->
       Forall (fun x => wire_msg x /\ exists d, data_of x = Ok d) ms ->
       zlen (contents (w_fs (WritePiece (mkW t f1 [] [] false) ms)) h) <= mi_length m).
Proof.
  intros H. destruct (cx_new (cx [] 5 (str "n") 4)) as [f1 r] eqn:E. vm_compute in E. destruct r as [t| | |]; try (inversion E; fail).
  specialize (H [] (fun _ => true) false (fun _ => None) (cx [] 5 (str "n") 4) [] (str "/o") f1 t [blk 1 0 [1; 2]] [str "o"; str "n"]).
  assert (New [] (fun _ => true) false (fun _ => None) (cx [] 5 (str "n") 4) [] (str "/o") = (f1, Ok t)) as HN.
  { etransitivity; [|exact E]. reflexivity. }
  specialize (H HN ltac:(reflexivity)). inversion E; subst. specialize (H eq_refl).
  assert (Hf : Forall (fun x => wire_msg x /\ exists d, data_of x = Ok d) [blk 1 0 [1; 2]]).
  { unfold wire_msg. repeat constructor; cbn; try lia; eexists; reflexivity. }
  specialize (H Hf). vm_compute in H. now apply H.
Qed.

Lemma entries_refuted :
  ~ (forall cwd creat mk f m hash dir f' t,
       New cwd creat mk f m hash dir = (f', Ok t) -> mi_length m = 0 -> dir <> [] -> plain_name (mi_name m) ->
       Forall (fun x => tf_path x <> [] /\ Forall plain_name (tf_path x)) (mi_files m) -> NoDup (map tf_path (mi_files m)) ->
       t_osfiles t = map (fun x => os_place cwd dir ++ mi_name m :: tf_path x) (mi_files m) /\ NoDup (t_osfiles t)).
Proof.
  intros H. assert (P : forall c, plain_name [c] <-> c <> 47 /\ c <> 46).
  { intros c. unfold plain_name. cbn. split; [intros (_ & H1 & H2 & _)|intros [H1 H2]]; repeat split; try congruence; intuition congruence. }
  destruct (cx_new (cx [mkTfile 1 [[100]; [120]]; mkTfile 1 [[100]; [121]]] 0 [110] 4)) as [f1 r] eqn:E.
  destruct r as [t| | |]; try (vm_compute in E; inversion E; fail).
  specialize (H _ _ _ _ _ _ _ _ _ E). destruct H as [H _].
  - reflexivity.
  - discriminate.
  - apply P. lia.
  - repeat constructor; try discriminate; apply P; lia.
  - repeat constructor; cbn; intuition discriminate.
  - vm_compute in E. inversion E; subst. vm_compute in H. discriminate.
Qed.

Lemma inside_refuted :
  ~ (forall cwd creat mk f m hash dir f' t base,
       New cwd creat mk f m hash dir = (f', Ok t) -> dir <> [] -> resolves cwd dir base -> Forall (inside base) (t_osfiles t)).
Proof.
  intros H. destruct (cx_new (cx [mkTfile 1 [str "../../x"]] 0 (str "n") 4)) as [f1 r] eqn:E.
  destruct r as [t| | |]; try (vm_compute in E; inversion E; fail).
  specialize (H _ _ _ _ _ _ _ _ _ _ E ltac:(discriminate) (os_place_resolves _ _)).
  vm_compute in E. inversion E; subst. vm_compute in H. inversion H as [|? ? (a & l & Ha) _]; subst. destruct a; inversion Ha.
Qed.

Lemma fully_stored_refuted :
  ~ (forall cwd creat mk f0 m hash dir f1 t ms,
       New cwd creat mk f0 m hash dir = (f1, Ok t) -> NoDup (t_osfiles t) ->
       Forall (fun x => wire_msg x /\ (exists d, data_of x = Ok d) /\ m_index x < t_pnum t) ms ->
       (forall q, 0 <= q < t_length t -> exists x d, In x ms /\ data_of x = Ok d /\
          m_index x * t_plen t + m_offset x <= q < m_index x * t_plen t + m_offset x + zlen d) ->
       Done (w_t (WritePiece (mkW t f1 [] [] false) ms)) = true).
Proof.
  intros H. destruct (cx_new (cx [] 5 (str "n") 4)) as [f1 r] eqn:E.
  destruct r as [t| | |]; try (vm_compute in E; inversion E; fail).
  specialize (H _ _ _ _ _ _ _ _ _ [blk 0 0 [1; 2; 3; 4]; blk 1 0 [5]] E). vm_compute in E. inversion E; subst.
  assert (Ht : false = true); [|discriminate]. etransitivity; [|apply H].
  - reflexivity.
  - repeat constructor; auto.
  - unfold wire_msg. repeat constructor; cbn; try lia; eexists; reflexivity.
  - cbn [t_length t_plen]. intros q Hq. destruct (Z_lt_dec q 4) as [Hl|Hl].
    + exists (blk 0 0 [1; 2; 3; 4]), [1; 2; 3; 4]. split; [now left|]. split; [reflexivity|]. unfold zlen. cbn. lia.
    + exists (blk 1 0 [5]), [5]. split; [now (right; left)|]. split; [reflexivity|]. unfold zlen. cbn. lia.
Qed.

Lemma incomplete_refuted :
  ~ (forall cwd creat mk f0 m hash dir f1 t ms i q,
       New cwd creat mk f0 m hash dir = (f1, Ok t) -> NoDup (t_osfiles t) ->
       Forall (fun x => wire_msg x /\ (exists d, data_of x = Ok d) /\ m_index x < t_pnum t) ms ->
       bs_test (t_downloaded (w_t (WritePiece (mkW t f1 [] [] false) ms))) i = true ->
       i * t_plen t <= q < Z.min (t_length t) ((i + 1) * t_plen t) ->
       exists x d, In x ms /\ data_of x = Ok d /\ m_index x * t_plen t + m_offset x <= q < m_index x * t_plen t + m_offset x + zlen d).
Proof.
  intros H. destruct (cx_new (cx [] 4 (str "n") 4)) as [f1 r] eqn:E.
  destruct r as [t| | |]; try (vm_compute in E; inversion E; fail).
  specialize (H _ _ _ _ _ _ _ _ _ [blk 0 3 [4]] 0 0 E). vm_compute in E. inversion E; subst.
  destruct H as (x & d & [<-|[]] & Hd & Hr).
  - repeat constructor; auto.
  - unfold wire_msg. repeat constructor; cbn; try lia; eexists; reflexivity.
  - reflexivity.
  - cbn. lia.
  - cbn in Hr. lia.
Qed.

Lemma fresh_done_refuted :
  ~ (forall cwd creat mk f m hash dir f' t,
       New cwd creat mk f m hash dir = (f', Ok t) -> 0 < t_length t -> Done t = false).
Proof.
  intros H. destruct (cx_new (cx [] 5 (str "n") 0)) as [f1 r] eqn:E.
  destruct r as [t| | |]; try (vm_compute in E; inversion E; fail).
  specialize (H _ _ _ _ _ _ _ _ _ E). vm_compute in E. inversion E; subst. specialize (H ltac:(cbn; lia)). vm_compute in H. discriminate.
Qed.

Lemma hashes_refuted :
  ~ (forall cwd creat mk f m hash dir f' t,
       New cwd creat mk f m hash dir = (f', Ok t) -> 0 < t_length t <= 2 ^ 50 -> 0 < mi_piece_length m <= 2 ^ 53 -> zlen (t_pieces t) = t_pnum t).
Proof.
  intros H. destruct (cx_new (cx [] 5 (str "n") 4)) as [f1 r] eqn:E.
  destruct r as [t| | |]; try (vm_compute in E; inversion E; fail).
  specialize (H _ _ _ _ _ _ _ _ _ E). vm_compute in E. inversion E; subst. specialize (H ltac:(cbn; lia) ltac:(cbn; lia)). vm_compute in H. discriminate.
Qed.
