(* A finished download of several files stays finished: C152.                  *)
From Verif Require Import Base ProofBase SpecPath SpecTorrent SpecFinish SpecPeer ModelPath ModelBitset ModelMsg ModelTorrent ModelConn ModelPeer ModelSystem.
From Verif Require Import ProofConn ProofTorrent ProofPath ProofWrite ProofHistory ProofDisk ProofNew ProofLength ProofSystem ProofRequests ProofProgress ProofMsg ProofPeer ProofPeer2 ProofVerified ProofOrder ProofFinish ProofStays ProofPossible.

Section dir.
  Variables (cwd : place) (creat : bytes -> bool) (mk : bool) (f0 : fs) (mi : metainfo) (hash dir : bytes) (f1 : fs) (t : torrent).
  Hypothesis HN : New cwd creat mk f0 mi hash dir = (f1, Ok t).
  Hypothesis HD : NoDup (t_osfiles t).
  Hypothesis HM : mi_length mi = 0.
  Hypothesis HL : Forall (fun n => 0 <= n) (file_lengths mi).
  Hypothesis HT : 0 < total (file_lengths mi) <= 2 ^ 50.
  Hypothesis HP : 0 < mi_piece_length mi < 2 ^ 30.
  Variable sha1 : bytes -> bytes.

  Lemma dir_len l w tr : Forall reads_bytes l -> run sha1 l (start (mkW t f1 [] [] false)) = (w, tr) -> zlen (t_downloaded (sh_t (wo_sh w))) = t_pnum t.
  Proof.
    intros HB HR. destruct (writer_run _ _ _ _ _ HR) as [HS HH]. pose proof (all_verified _ _ _ _ _ HB HR) as HV. cbn [w_t] in HV. rewrite HH in HV. apply Forall_app in HV as [HV _].
    set (ms := wo_taken w) in *. assert (HG : Forall good_msg ms).
    { eapply Forall_impl; [|exact HV]. intros m ((p & d & _ & D & _) & W & _). split; [exact W|eauto]. }
    destruct HS as (_ & S2 & S3 & _). assert (EP : t_plen t = mi_piece_length mi) by apply (fresh_sets _ _ _ _ _ _ _ _ _ HN).
    pose proof (pieces_num_new _ _ _ _ _ _ _ _ _ HN) as HPn. rewrite (length_is _ _ _ _ _ _ _ _ _ HN HL HT) in HPn. specialize (HPn ltac:(lia) ltac:(lia)).
    assert (Hpos : 0 < t_pnum t < 2 ^ 51) by nia.
    unfold sh_t. rewrite S2.
    destruct (WritePiece_marks t ms (mkW t f1 [] [] false) (same_layout_refl t) (order_kind _ _ _ _ _ _ _ _ _ HN HD (HL' _ HL HT)) eq_refl eq_refl ltac:(lia) HG) as [-> _].
    destruct (fresh_sets _ _ _ _ _ _ _ _ _ HN) as (_ & E & _). cbn [w_t]. rewrite E.
    assert (X : zlen (bs_make (t_pnum t)) = t_pnum t) by (rewrite bs_make_len; lia).
    assert (A : forall o, 0 <= o -> o < zlen (marks t ms (bs_make (t_pnum t))) <-> o < t_pnum t).
    { intros o Ho. rewrite (marks_len t ms _ o Ho HG), X. split; [|auto]. intros [H|(m & H1 & H2 & H3)]; [exact H|].
      rewrite Forall_forall in HV. destruct (HV m H1) as ((p & d & _ & V2 & _) & [W1 W2] & _). pose proof (zlen_nonneg d) as Hz.
      unfold markb in H2. rewrite V2, EP in H2. apply andb_prop in H2 as [M1 M2]. apply Z.eqb_eq in M1.
      destruct (new_multi_handles _ _ _ _ _ _ _ _ _ HN HM) as (_ & _ & Ed). rewrite Ed in M2. destruct (new_entries _ _ _ _ _ _ _ _ _ HN HM) as [E1 _]. rewrite E1 in M2.
      assert (ET : total (map tf_length (mi_files mi)) = total (file_lengths mi)) by (unfold file_lengths; now rewrite HM). rewrite ET in M2.
      assert (mi_piece_length mi <= m_offset m + zlen d).
      { destruct (Z.le_gt_cases (mi_piece_length mi) (m_offset m + zlen d)) as [Q|Q]; [exact Q|]. rewrite wrap64_small in M1 by lia. lia. }
      assert (m_index m < t_pnum t); [|lia]. nia. }
    pose proof (zlen_nonneg (marks t ms (bs_make (t_pnum t)))) as Hz. pose proof (A (zlen (marks t ms (bs_make (t_pnum t)))) Hz) as A1. pose proof (A (t_pnum t) ltac:(lia)) as A2. lia.
  Qed.
  Lemma dir_stays l1 w1 tr1 l2 w2 tr2 : Forall reads_bytes l1 -> Forall reads_bytes l2 ->
    run sha1 l1 (start (mkW t f1 [] [] false)) = (w1, tr1) -> run sha1 l2 w1 = (w2, tr2) -> Done (sh_t (wo_sh w1)) = true -> Done (sh_t (wo_sh w2)) = true.
  Proof.
    intros B1 B2 R1 R2 D. pose proof (dir_len _ _ _ B1 R1) as L1.
    assert (R : run sha1 (l1 ++ l2) (start (mkW t f1 [] [] false)) = (w2, tr1 ++ tr2)) by (rewrite run_app, R1, R2; reflexivity).
    pose proof (dir_len _ _ _ (proj2 (Forall_app _ _ _) (conj B1 B2)) R) as L2.
    unfold Done in *. rewrite bs_all_spec in *. intros i Hi. specialize (D i ltac:(lia)). unfold bs_test in *.
    destruct (nthZ (t_downloaded (sh_t (wo_sh w1))) i) as [b|] eqn:E; [|discriminate]. subst b. unfold nthZ in *. replace (i <? 0) with false in * by lia.
    now rewrite (recorded_stays _ _ _ _ _ _ R2 E).
  Qed.
End dir.
