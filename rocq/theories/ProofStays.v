(* What is recorded stays recorded; a finished download stays finished unless the
   torrent has hashes beyond its pieces: C152.                                 *)
From Verif Require Import Base ProofBase SpecPath ModelPath ModelBitset ModelMsg ModelTorrent ModelConn ModelPeer ModelSystem
  SpecPeer ProofTorrent ProofSystem ProofRequests ProofProgress ProofVerified ProofWitness ProofWrite ProofPath ProofHistory ProofFloat ProofDisk ProofNew.

Definition dl (w : world) : bitset := t_downloaded (sh_t (wo_sh w)).

Lemma set_nth_keeps b : forall k n, nth_error b n = Some true -> nth_error (set_nth b k) n = Some true.
Proof.
  induction b as [|x b IH]; intros k n H; [destruct n; discriminate|].
  destruct k as [|k]; destruct n as [|n]; cbn in *; auto.
Qed.
(* the record after one action *)
Lemma dl_exec sha1 a w w' es : exec sha1 a w = (w', es) ->
  dl w' = dl w \/ exists m, wo_hand w = Some m /\ dl w' = bs_set (dl w) (m_index m).
Proof.
  intros HE. unfold dl, exec in *. destruct (crashed w); [inversion HE; subst; auto|].
  destruct a as [b g|k i| | |].
  - inversion HE; subst. auto.
  - destruct (nth_error (wo_peers w) k) as [r|]; [|inversion HE; subst; auto].
    destruct (pstep sha1 i (wo_sh w) r) as [[[s' r'] es']|] eqn:Es; inversion HE; subst; auto. left. cbn [wo_sh].
    clear - Es. step_cases Es; try reflexivity.
    + match goal with H : Next _ _ = _ |- _ => apply next_spec in H; destruct H as (_ & _ & _ & _ & ->) end. reflexivity.
    + unfold push. now destruct (r_req r).
    + unfold push. now destruct (r_req r).
  - destruct (wo_hand w) as [m|] eqn:Eh; [|destruct (sh_ch (wo_sh w)); inversion HE; subst; auto]. inversion HE; subst. cbn [wo_sh].
    unfold sh_t at 1 3. cbn [sh_w]. unfold write_one. destruct (data_of m) as [d| | |]; cbn; auto.
    destruct (writePieceData _ _ _ _ _) as [[f' o'] st]. destruct st; cbn; auto. destruct (_ =? _); cbn; auto.
    right. exists m. auto.
  - inversion HE; subst. auto.
  - destruct (wo_main w); [destruct (wg w =? 0)|destruct (sh_cancel (wo_sh w))| |]; inversion HE; subst; auto.
Qed.
Theorem recorded_stays sha1 l : forall w w' tr n, run sha1 l w = (w', tr) ->
  nth_error (t_downloaded (sh_t (wo_sh w))) n = Some true -> nth_error (t_downloaded (sh_t (wo_sh w'))) n = Some true.
Proof.
  induction l as [|a l IH]; intros w w' tr n HR H; cbn in HR; [inversion HR; subst; exact H|].
  destruct (exec sha1 a w) as [w1 e1] eqn:E1. destruct (run sha1 l w1) as [w2 e2] eqn:E2. inversion HR; subst.
  eapply IH; [exact E2|]. destruct (dl_exec _ _ _ _ _ E1) as [E|(m & _ & E)]; unfold dl in E; rewrite E; [exact H|].
  apply set_nth_keeps. exact H.
Qed.

Lemma set_all b i : 0 <= i <= zlen b -> bs_all b = true -> bs_all (bs_set b i) = true /\ zlen b <= zlen (bs_set b i).
Proof.
  intros Hi H. rewrite !bs_all_spec in *. rewrite bs_set_len by lia. split; [|lia]. intros j Hj. rewrite bs_test_set by lia.
  destruct (Z.eqb_spec i j); [reflexivity|]. cbn. apply H. lia.
Qed.
Lemma set_longer b i : 0 <= i -> zlen b <= zlen (bs_set b i).
Proof. intros Hi. rewrite bs_set_len by lia. lia. Qed.

Lemma done_run sha1 w0 l2 : forall l1 w1 tr1 w2 tr2, Forall reads_bytes l1 -> Forall reads_bytes l2 ->
  zlen (t_pieces (w_t w0)) <= zlen (t_downloaded (w_t w0)) + 1 ->
  run sha1 l1 (start w0) = (w1, tr1) -> zlen (t_downloaded (w_t w0)) <= zlen (dl w1) -> run sha1 l2 w1 = (w2, tr2) ->
  zlen (t_downloaded (w_t w0)) <= zlen (dl w2) /\ (bs_all (dl w1) = true -> bs_all (dl w2) = true).
Proof.
  induction l2 as [|a l2 IH]; intros l1 w1 tr1 w2 tr2 HB1 HB2 HL HR1 HW HR2; cbn in HR2; [inversion HR2; subst; auto|].
  destruct (exec sha1 a w1) as [w3 e3] eqn:E3. destruct (run sha1 l2 w3) as [w4 e4] eqn:E4. inversion HR2; subst w4 tr2. clear HR2.
  inversion HB2 as [|? ? Ha HB2']; subst.
  assert (HR3 : run sha1 (l1 ++ [a]) (start w0) = (w3, tr1 ++ e3)) by (rewrite run_app, HR1; cbn; rewrite E3, app_nil_r; reflexivity).
  assert (HB3 : Forall reads_bytes (l1 ++ [a])) by (apply Forall_app; auto).
  assert (K : zlen (t_downloaded (w_t w0)) <= zlen (dl w3) /\ (bs_all (dl w1) = true -> bs_all (dl w3) = true)).
  { destruct (dl_exec _ _ _ _ _ E3) as [E|(m & Eh & E)]; rewrite E; [auto|].
    assert (HF : fine sha1 (w_t w0) m).
    { assert (HV := all_verified _ _ _ _ _ HB1 HR1). destruct (writer_run _ _ _ _ _ HR1) as [_ HH]. unfold held in HH. rewrite HH, Eh in HV.
      apply Forall_app in HV. destruct HV as [_ HV]. now inversion HV. }
    destruct HF as ((p & d & Hp & _) & _). apply nthZ_bounds in Hp.
    split; [pose proof (set_longer (dl w1) (m_index m)); lia|]. intro HA. apply set_all; [lia|exact HA]. }
  destruct K as [K1 K2]. destruct (IH _ _ _ _ _ HB3 HB2' HL HR3 K1 E4) as [J1 J2]. auto.
Qed.
Theorem finished_stays cwd creat mk f0 mi hash dir f1 t sha1 l1 w1 tr1 l2 w2 tr2 :
  New cwd creat mk f0 mi hash dir = (f1, Ok t) -> 0 <= t_pnum t < 2 ^ 51 -> zlen (mi_pieces mi) <= 20 * (t_pnum t + 1) ->
  Forall reads_bytes l1 -> Forall reads_bytes l2 ->
  run sha1 l1 (start (mkW t f1 [] [] false)) = (w1, tr1) -> run sha1 l2 w1 = (w2, tr2) ->
  Done (sh_t (wo_sh w1)) = true -> Done (sh_t (wo_sh w2)) = true.
Proof.
  intros HN HP HZ HB1 HB2 HR1 HR2. destruct (fresh_sets _ _ _ _ _ _ _ _ _ HN) as (_ & ED & _ & _).
  assert (EP : zlen (t_pieces t) * 20 = zlen (mi_pieces mi)).
  { destruct (new_fields _ _ _ _ _ _ _ _ _ HN) as (EP & _). destruct (Z.eq_dec (zlen (mi_pieces mi) mod 20) 0) as [M|M].
    - destruct (new_pieces_full (mi_pieces mi)) as [_ H]. destruct (H M) as (ps & E & L & _). rewrite E in EP. inversion EP; subst. exact L.
    - destruct (new_pieces_err _ M) as [e E]. rewrite E in EP. discriminate. }
  assert (EL : zlen (t_downloaded t) = t_pnum t) by (rewrite ED; apply bs_make_len; exact HP).
  unfold Done. refine (proj2 (done_run sha1 (mkW t f1 [] [] false) l2 l1 w1 tr1 w2 tr2 HB1 HB2 _ HR1 _ HR2)); cbn [w_t].
  - rewrite EL. lia.
  - assert (H0 : run sha1 [] (start (mkW t f1 [] [] false)) = (start (mkW t f1 [] [] false), [])) by reflexivity.
    refine (proj1 (done_run sha1 (mkW t f1 [] [] false) l1 [] _ [] w1 tr1 (Forall_nil _) HB1 _ H0 _ HR1)); cbn [w_t].
    + rewrite EL. lia.
    + unfold dl. cbn. lia.
Qed.

(* ---------- one piece, three hashes ---------- *)
Definition sx_mi (sha1 : bytes -> bytes) : metainfo :=
  mkMetainfo [] [] [] [] 4 (str "n") 4 (sha1 [1; 2; 3; 4] ++ sha1 [] ++ sha1 [5; 6; 7; 8]).
Definition sx_place : place := [str "o"; str "n"].
Definition sx_fs : fs := fst (New [] (fun _ => true) false (fun _ => None) (sx_mi (fun _ => repeat 0 20)) [] (str "/o")).
Definition sx_t (sha1 : bytes -> bytes) : torrent :=
  mkTorrent [[]] [] 4 4 [mkPiece 0 (sha1 [1; 2; 3; 4]); mkPiece 1 (sha1 []); mkPiece 2 (sha1 [5; 6; 7; 8])] 1 [] [sx_place] (str "n") false
    0 [false] [false].
Lemma sx_new sha1 : (forall x, length (sha1 x) = 20%nat) ->
  New [] (fun _ => true) false (fun _ => None) (sx_mi sha1) [] (str "/o") = (sx_fs, Ok (sx_t sha1)).
Proof.
  intros H. unfold sx_mi, sx_t. pose proof (H [1; 2; 3; 4]) as H1. pose proof (H [5; 6; 7; 8]) as H2. pose proof (H []) as H3.
  destruct (sha1 [1; 2; 3; 4]) as [|a0 h]; [discriminate|]. do 19 (destruct h as [|? h]; [discriminate|]). destruct h; [|discriminate].
  destruct (sha1 [5; 6; 7; 8]) as [|b0 h]; [discriminate|]. do 19 (destruct h as [|? h]; [discriminate|]). destruct h; [|discriminate].
  destruct (sha1 []) as [|c0 h]; [discriminate|]. do 19 (destruct h as [|? h]; [discriminate|]). destruct h; [|discriminate].
  vm_compute. reflexivity.
Qed.
Definition sx_first : list action :=
  (ASpawn false 0 :: to_read 0 ++ ASpawn false 0 :: to_read 1) ++ APeer 0 (rd (piece_body 0 0 [1; 2; 3; 4])) :: [APeer 0 go; AWriter; AWriter].
Definition sx_then : list action := APeer 1 (rd (piece_body 2 0 [5; 6; 7; 8])) :: [APeer 1 go; AWriter; AWriter].
Lemma sx_run sha1 : exists w1 tr1 w2 tr2, run sha1 sx_first (start (mkW (sx_t sha1) sx_fs [] [] false)) = (w1, tr1) /\ run sha1 sx_then w1 = (w2, tr2) /\
  Done (sh_t (wo_sh w1)) = true /\ Done (sh_t (wo_sh w2)) = false /\ crashed w2 = false /\
  t_downloaded (sh_t (wo_sh w1)) = [true] /\ t_downloaded (sh_t (wo_sh w2)) = [true; false; true].
Proof.
  destruct (run sha1 sx_first (start (mkW (sx_t sha1) sx_fs [] [] false))) as [w1 tr1] eqn:E.
  destruct (run sha1 sx_then w1) as [w2 tr2] eqn:F. exists w1, tr1, w2, tr2. split; [reflexivity|]. split; [exact F|].
  unfold sx_first in E. rewrite run_app in E.
  destruct (run sha1 (ASpawn false 0 :: to_read 0 ++ ASpawn false 0 :: to_read 1) (start (mkW (sx_t sha1) sx_fs [] [] false))) as [w0 e0] eqn:E1.
  vm_compute in E1. inversion E1; subst w0 e0; clear E1.
  cbn [run] in E. unfold exec at 1 in E. cbn [wo_peers nth_error wo_sh] in E.
  match type of E with context [crashed ?w] => change (crashed w) with false in E end. cbv iota in E.
  erewrite read_good with (u := true) (d := [1; 2; 3; 4]) in E; [|reflexivity..].
  vm_compute in E. inversion E; subst w1 tr1; clear E.
  unfold sx_then in F. cbn [run] in F. unfold exec at 1 in F. cbn [wo_peers nth_error wo_sh] in F.
  match type of F with context [crashed ?w] => change (crashed w) with false in F end. cbv iota in F.
  erewrite read_good with (u := true) (d := [5; 6; 7; 8]) in F; [|reflexivity..].
  vm_compute in F. inversion F; subst w2 tr2; clear F. vm_compute. repeat split; reflexivity.
Qed.
Theorem finished_stays_refuted sha1 : (forall x, length (sha1 x) = 20%nat) ->
  ~ (forall cwd creat mk f0 mi hash dir f1 t l1 w1 tr1 l2 w2 tr2,
       New cwd creat mk f0 mi hash dir = (f1, Ok t) -> 0 <= t_pnum t < 2 ^ 51 ->
       Forall (spawns (eq false)) (l1 ++ l2) -> Forall reads_bytes l1 -> Forall reads_bytes l2 ->
       run sha1 l1 (start (mkW t f1 [] [] false)) = (w1, tr1) -> run sha1 l2 w1 = (w2, tr2) ->
       Done (sh_t (wo_sh w1)) = true -> Done (sh_t (wo_sh w2)) = true).
Proof.
  intros H20 H. destruct (sx_run sha1) as (w1 & tr1 & w2 & tr2 & R1 & R2 & D1 & D2 & _).
  assert (HP : 0 <= t_pnum (sx_t sha1) < 2 ^ 51) by (cbn; lia).
  assert (HS : Forall (spawns (eq false)) (sx_first ++ sx_then)) by (unfold sx_first, sx_then, to_read; repeat constructor).
  assert (HB1 : Forall reads_bytes sx_first).
  { unfold sx_first, to_read. cbn [repeat app]. repeat (apply Forall_cons; [|]); try apply Forall_nil; cbn [reads_bytes rd go i_read]; try exact I; intros b E;
      first [discriminate E | injection E as <-; apply bytes_dec; reflexivity]. }
  assert (HB2 : Forall reads_bytes sx_then).
  { unfold sx_then. cbn [repeat app]. repeat (apply Forall_cons; [|]); try apply Forall_nil; cbn [reads_bytes rd go i_read]; try exact I; intros b E;
      first [discriminate E | injection E as <-; apply bytes_dec; reflexivity]. }
  pose proof (H _ _ _ _ _ _ _ _ _ sx_first w1 tr1 sx_then w2 tr2 (sx_new sha1 H20) HP HS HB1 HB2 R1 R2 D1) as D3. congruence.
Qed.
