(* The end of a download (manager.go:64-67): as many messages lost as fit.      *)
From Verif Require Import Base ProofBase SpecPath ModelPath ModelBitset ModelMsg ModelTorrent ModelConn ModelPeer ModelSystem SpecTorrent SpecPeer ProofWrite ProofDisk
  ProofSystem ProofRequests ProofProgress ProofPeer ProofPeer2 ProofVerified ProofWitness.
From Verif Require Import ProofShutdown.
(* one more message for the writer, and back to the read in unchoke *)
Definition wx_body : bytes := piece_body 0 0 [1; 2; 3; 4].
Definition wx_msg : msg := mkMsg 13 7 (be_put 4 0 ++ be_put 4 0 ++ [1; 2; 3; 4]) 0 0 0.
Definition one_more : list action := APeer 0 (rd wx_body) :: repeat (APeer 0 go) 10.
Definition idle (sha1 : bytes -> bytes) (q : nat -> queue) (ch : list msg) (h : option msg) (p : peer) : world :=
  mkWorld (mkSh (mkW (wx_t sha1) wx_fs [] [] false) q ch false false) [mkR PURead p None false 0] MCtx [] h.
Lemma exec_one sha1 s r i h s' r' es : w_panic (sh_w s) = false -> panicked r = false -> pstep sha1 i s r = Some (s', r', es) ->
  exec sha1 (APeer 0 i) (mkWorld s [r] MCtx [] h) = (mkWorld s' [r'] MCtx [] h, map (pair O) es).
Proof. intros H1 H2 H3. unfold exec, crashed. cbn [wo_peers wo_sh existsb nth_error]. rewrite H1, H2, H3. reflexivity. Qed.
Ltac one := erewrite exec_one; [cbn [run] | reflexivity | reflexivity |].
Lemma one_more_run sha1 q ch h p : zlen ch < 1024 -> s_choked (cl_status p) = true -> s_interested (cl_status p) = false ->
  exists tr, run sha1 one_more (idle sha1 q ch h p) = (idle sha1 q (ch ++ [wx_msg]) h (after_put p wx_msg), tr) /\ handed tr = [wx_msg].
Proof.
  intros HL HC HI. unfold one_more. cbn [run repeat]. unfold idle.
  one; [|eapply read_good with (u := true) (d := [1; 2; 3; 4]); reflexivity].
  one; [|unfold pstep; cbn [r_pc at_pc sh_closed sh_ch]; unfold chan_cap; rewrite (proj2 (Z.ltb_lt _ _) HL); reflexivity].
  one; [|unfold pstep; cbn [r_pc at_pc with_peer r_peer cl_status after_put set_bits]; rewrite HC; reflexivity].
  one; [|reflexivity]. one; [|reflexivity]. one; [|reflexivity]. one; [|reflexivity]. one; [|reflexivity].
  one; [|unfold pstep; cbn [r_pc at_pc with_peer r_peer cl_status after_put set_bits]; rewrite HC; reflexivity].
  one; [|reflexivity]. one; [|reflexivity]. 
  eexists. split; reflexivity.
Qed.
Lemma more_run sha1 : forall n q ch h p, zlen ch + Z.of_nat n <= 1024 -> s_choked (cl_status p) = true -> s_interested (cl_status p) = false ->
  exists p' tr, run sha1 (concat (repeat one_more n)) (idle sha1 q ch h p) = (idle sha1 q (ch ++ repeat wx_msg n) h p', tr) /\ handed tr = repeat wx_msg n /\
    s_choked (cl_status p') = true /\ s_interested (cl_status p') = false.
Proof.
  induction n as [|n IH]; intros q ch h p HL HC HI.
  - exists p, []. cbn [repeat concat run]. rewrite app_nil_r. auto.
  - cbn [repeat concat]. rewrite run_app.
    destruct (one_more_run sha1 q ch h p) as (t1 & R1 & H1); [lia|exact HC|exact HI|]. rewrite R1.
    destruct (IH q (ch ++ [wx_msg]) h (after_put p wx_msg)) as (p' & t2 & R2 & H2 & H3 & H4); [unfold zlen in *; rewrite app_length; cbn [length]; lia|exact HC|exact HI|].
    rewrite R2. exists p', (t1 ++ t2). rewrite <- app_assoc. split; [reflexivity|]. split; [|auto].
    rewrite handed_app, H1, H2. reflexivity.
Qed.
(* n messages in the channel, one more with the writer if b, then Download returns *)
Definition all_lost (b : bool) (n : nat) : list action :=
  (AMain :: ASpawn false 0 :: to_read 0) ++ (if b then one_more ++ [AWriter] else []) ++ concat (repeat one_more n) ++ [ACancel; AMain; AMain].
Lemma all_lost_run sha1 b n : Z.of_nat n <= 1024 -> exists w tr, run sha1 (all_lost b n) (wx_start sha1) = (w, tr) /\ crashed w = false /\ wo_main w = MRet /\
  wo_taken w = [] /\ handed tr = repeat wx_msg (if b then S n else n) /\ contents (w_fs (sh_w (wo_sh w))) wx_place = [].
Proof.
  intros HN. unfold all_lost. rewrite run_app.
  assert (E1 : exists p, run sha1 (AMain :: ASpawn false 0 :: to_read 0) (wx_start sha1) = (idle sha1 (fun _ => NewPiecesQueue) [] None p, [(O, ESent CreateInterestedMessage)]) /\
    s_choked (cl_status p) = true /\ s_interested (cl_status p) = false).
  { eexists. split; [vm_compute; reflexivity|split; reflexivity]. }
  destruct E1 as (p & -> & HC & HI). rewrite run_app.
  assert (E2 : exists p' t h, run sha1 (if b then one_more ++ [AWriter] else []) (idle sha1 (fun _ => NewPiecesQueue) [] None p) = (idle sha1 (fun _ => NewPiecesQueue) [] h p', t) /\
    handed t = repeat wx_msg (if b then 1 else 0) /\ s_choked (cl_status p') = true /\ s_interested (cl_status p') = false).
  { destruct b.
    - rewrite run_app. destruct (one_more_run sha1 (fun _ => NewPiecesQueue) [] None p) as (t1 & R1 & H1); [reflexivity|exact HC|exact HI|]. rewrite R1.
      exists (after_put p wx_msg), (t1 ++ []), (Some wx_msg). split; [reflexivity|]. rewrite app_nil_r. auto.
    - exists p, [], None. auto. }
  destruct E2 as (p' & t2 & h & -> & H2 & HC' & HI'). rewrite run_app.
  destruct (more_run sha1 n (fun _ => NewPiecesQueue) [] h p') as (p3 & t3 & R3 & H3 & _); [exact HN|exact HC'|exact HI'|]. rewrite R3.
  eexists _, _. split; [cbv [run exec idle crashed panicked existsb orb r_pc wo_peers wo_sh sh_w w_panic wo_main sh_cancel]; cbn; reflexivity|].
  repeat split; try reflexivity.
  match goal with |- handed (?e :: ?l) = _ => change (e :: l) with ([e] ++ l) end.
  rewrite !handed_app, H2, H3. destruct b; cbn; rewrite ?app_nil_r; reflexivity.
Qed.
Lemma bound_reached sha1 n : 0 <= n <= 1025 -> exists w0 l w tr, run sha1 l (start w0) = (w, tr) /\ crashed w = false /\ wo_main w = MRet /\
  wo_taken w = [] /\ zlen (handed tr) = n.
Proof.
  intros HN. destruct (Z.eq_dec n 1025) as [->|NE].
  - destruct (all_lost_run sha1 true 1024) as (w & tr & H1 & H2 & H3 & H4 & H5 & _); [lia|].
    eexists _, _, _, _. split; [exact H1|]. repeat split; auto. rewrite H5. unfold zlen. rewrite repeat_length. lia.
  - destruct (all_lost_run sha1 false (Z.to_nat n)) as (w & tr & H1 & H2 & H3 & H4 & H5 & _); [lia|].
    eexists _, _, _, _. split; [exact H1|]. repeat split; auto. rewrite H5. unfold zlen. rewrite repeat_length. lia.
Qed.
