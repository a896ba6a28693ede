(* Which torrents can be downloaded: C158.                                     *)
From Verif Require Import Base Sha1 ProofBase SpecPath SpecTorrent SpecOrder SpecFinish SpecPeer SpecMsg SpecOrigin SpecPossible ModelPath ModelBitset ModelMsg ModelTorrent ModelConn ModelPeer ModelSystem.
From Verif Require Import ProofConn ProofTorrent ProofPath ProofWrite ProofHistory ProofDisk ProofNew ProofLength ProofSystem ProofRequests ProofProgress ProofMsg ProofPeer ProofPeer2 ProofVerified ProofOrder ProofFinish ProofArrive.

(* ---------- one round of Run with an unasked piece ---------- *)
Lemma run_cons sha1 a l w w1 e1 w2 e2 : exec sha1 a w = (w1, e1) -> run sha1 l w1 = (w2, e2) -> run sha1 (a :: l) w = (w2, e1 ++ e2).
Proof. intros A B. cbn [run]. now rewrite A, B. Qed.
Lemma exec0 sha1 i s r mn tk hd s' r' es : panicked r = false -> w_panic (sh_w s) = false -> pstep sha1 i s r = Some (s', r', es) ->
  exec sha1 (APeer 0 i) (mkWorld s [r] mn tk hd) = (mkWorld s' [r'] mn tk hd, map (pair 0%nat) es).
Proof. intros A B C. unfold exec, crashed. cbn [wo_peers wo_sh existsb wo_main wo_taken wo_hand nth_error]. rewrite A, B. cbn [orb]. rewrite C. reflexivity. Qed.
Definition quiet : inp := mkI false true None false.
Definition reading (b : bytes) : inp := mkI false true (Some b) false.
Definition round (b : bytes) : list action :=
  repeat (APeer 0 quiet) 6 ++ [APeer 0 (reading b)] ++ repeat (APeer 0 quiet) 2 ++ [APeer 0 (reading [])] ++ [AWriter; AWriter].
(* a peer at the top of Run, choked; nothing waits for the writer *)
Definition resting (w : world) (ws : wstate) : Prop :=
  exists p q tk, w = mkWorld (mkSh ws q [] false false) [mkR PTop p None false 0%nat] MWait tk None /\ s_choked (cl_status p) = true.
Lemma round_run sha1 w ws b m d : resting w ws -> w_panic ws = false -> Done (w_t ws) = false ->
  NewPeerMessage b = Ok m -> m_type m = PieceT -> data_of m = Ok d -> CheckPiece sha1 (w_t ws) d (m_index m) = Ok true ->
  exists w' tr, run sha1 (round b) w = (w', tr) /\ resting w' (write_one ws m).
Proof.
  intros (p & q & tk & -> & HC) HP HD HB HT HDa HCk.
  assert (HH : handle_body sha1 (w_t ws) true (mkR PURead p None false 0) b = mkR (PPut true m) p None false 0).
  { unfold handle_body. rewrite HB. unfold handlePeerMessage. rewrite HT. cbn [PieceT KeepaliveT BitfieldT HaveT InterestedT NotInterestedT ChokeT UnchokeT Z.eqb Pos.eqb].
    unfold handlePieceMessage. cbn [r_peer]. rewrite HDa, HCk. reflexivity. }
  eexists _, _. split.
  - unfold round. cbn [repeat app].
    eapply run_cons; [apply exec0; [reflexivity|exact HP|reflexivity]|].
    eapply run_cons; [apply exec0; [reflexivity|exact HP|unfold pstep; cbn [r_pc at_pc sh_cancel]; unfold sh_t; cbn [sh_w]; rewrite HD; reflexivity]|].
    eapply run_cons; [apply exec0; [reflexivity|exact HP|reflexivity]|].
    eapply run_cons; [apply exec0; [reflexivity|exact HP|unfold pstep; cbn [r_pc at_pc r_peer]; rewrite HC; reflexivity]|].
    eapply run_cons; [apply exec0; [reflexivity|exact HP|reflexivity]|].
    eapply run_cons; [apply exec0; [reflexivity|exact HP|reflexivity]|].
    eapply run_cons; [apply exec0; [reflexivity|exact HP|]|].
    { unfold pstep. cbn [r_pc at_pc i_read reading r_peer r_req r_sent r_grp]. unfold sh_t. cbn [sh_w].
      match goal with |- context [handle_body _ _ _ ?r _] => change r with (mkR PURead p None false 0%nat) end. rewrite HH. reflexivity. }
    eapply run_cons; [apply exec0; [reflexivity|exact HP|reflexivity]|].
    eapply run_cons; [apply exec0; [reflexivity|exact HP|]|].
    { unfold pstep. cbn [r_pc with_peer r_peer r_sent after_put set_bits cl_status]. rewrite HC. cbn [negb andb]. reflexivity. }
    eapply run_cons; [apply exec0; [reflexivity|exact HP|reflexivity]|].
    eapply run_cons.
    { unfold exec, crashed. cbn [wo_peers wo_sh existsb panicked r_pc sh_w set_ch wo_hand sh_ch app]. rewrite HP. reflexivity. }
    eapply run_cons.
    { unfold exec, crashed. cbn [wo_peers wo_sh existsb panicked r_pc sh_w set_ch wo_hand sh_ch app]. rewrite HP. reflexivity. }
    reflexivity.
  - eexists _, _, _. split; [reflexivity|]. exact HC.
Qed.

(* ---------- lists and files ---------- *)
Lemma cut_length lens : forall c, length (cut lens c) = length lens.
Proof. induction lens; intros c; cbn; auto. Qed.
Lemma cut_len lens : forall c k n, Forall (fun n => 0 <= n) lens -> zlen c = total lens -> nth_error lens k = Some n -> zlen (nth k (cut lens c) []) = n.
Proof.
  induction lens as [|l lens IH]; intros c [|k] n HF Hc Hk; cbn in Hk; try discriminate; inversion HF; subst; cbn [total fold_right] in Hc; fold (total lens) in Hc; pose proof (total_nonneg lens H2).
  - inversion Hk; subst. cbn [cut nth]. unfold zlen in *. rewrite firstn_length. lia.
  - cbn [cut nth]. apply IH; auto. unfold zlen in *. rewrite skipn_length. lia.
Qed.
Lemma cut_byte lens : forall c k q o, Forall (fun n => 0 <= n) lens -> located lens q k o -> byte_at (nth k (cut lens c) []) o = byte_at c q.
Proof.
  induction lens as [|l lens IH]; intros c k q o HF Hq; inversion Hq; subst; inversion HF; subst.
  - cbn [cut nth]. unfold byte_at. apply nth_firstn'. lia.
  - match goal with X : located lens _ _ _ |- _ => rename X into HX end. cbn [cut nth]. rewrite (IH _ _ _ _ H2 HX). apply located_nonneg in HX; [|assumption]. unfold byte_at. rewrite nth_skipn'. f_equal. lia.
Qed.
Lemma fold_max l : forall n o, o < fold_left (fun n (wr : Z * bytes) => match snd wr with [] => n | _ => Z.max n (fst wr + zlen (snd wr)) end) l n <->
  o < n \/ exists b, In b l /\ snd b <> [] /\ o < fst b + zlen (snd b).
Proof.
  induction l as [|[q d] l IH]; intros n o; cbn [fold_left].
  - split; [auto|]. intros [H|(b & [] & _)]; exact H.
  - rewrite IH. cbn [fst snd]. destruct d as [|x d].
    + split; (intros [H|(b & H1 & H2)]; [auto|]); [right; exists b; cbn; auto|]. destruct H1 as [<-|H1]; [now destruct H2|right; eauto].
    + split.
      * intros [H|(b & H1 & H2)]; [|right; exists b; cbn; auto]. destruct (Z.lt_ge_cases o n); [auto|]. right. exists (q, x :: d). cbn [fst snd In].
        split; [auto|]. split; [discriminate|]. rewrite zlen_cons in *. lia.
      * intros [H|(b & [<-|H1] & H2)]; [left; lia|left; cbn [fst snd] in H2; destruct H2; lia|right; eauto].
Qed.
Lemma put_some f h c p : f p <> None -> fs_put f h c p <> None.
Proof. unfold fs_put. destruct (peq h p); [discriminate|auto]. Qed.
Lemma writeat_some f outs h d off f' o' st p : WriteAt f outs h d off = (f', o', st) -> f p <> None -> f' p <> None.
Proof. unfold WriteAt. destruct (off <? 0); [intros H; inversion H; subst; auto|]. destruct outs as [|[k|] outs]; intros H; inversion H; subst; apply put_some. Qed.
Lemma loop_some files : forall f outs pos d f' o' st p, write_loop f outs files pos d = (f', o', st) -> f p <> None -> f' p <> None.
Proof.
  induction files as [|[len h] r IH]; intros f outs pos d f' o' st p H Hp; destruct d as [|x d]; cbn [write_loop] in H; try (inversion H; subst; assumption).
  set (tw := if wrap64 (len - pos) <? zlen (x :: d) then wrap64 (len - pos) else zlen (x :: d)) in *. destruct (tw <? 0); [inversion H; subst; exact Hp|].
  destruct (WriteAt f outs h (sub (x :: d) 0 tw) pos) as [[f1 o1] st1] eqn:E. pose proof (writeat_some _ _ _ _ _ _ _ _ p E Hp) as H1.
  destruct st1; [eapply IH; eauto|inversion H; subst; exact H1..].
Qed.
Lemma WritePiece_some ms : forall w p, w_fs w p <> None -> w_fs (WritePiece w ms) p <> None.
Proof.
  induction ms as [|m ms IH]; intros w p H; cbn [WritePiece]; [exact H|]. destruct (w_panic w); [exact H|]. apply IH. unfold write_one. destruct (data_of m) as [d| | |]; try exact H.
  destruct (writePieceData _ _ _ _ _) as [[f' o'] st] eqn:E. assert (f' p <> None); [|destruct st; assumption].
  unfold writePieceData in E. destruct (t_isdir (w_t w)); cbn [negb] in E.
  - destruct (find_file _ _) as [[pos' files]|]; [eapply loop_some; eauto|inversion E; subst; exact H].
  - destruct (t_osfiles (w_t w)); [inversion E; subst; exact H|eapply writeat_some; eauto].
Qed.
Lemma WritePiece_app a : forall w b, w_panic (WritePiece w a) = false -> WritePiece w (a ++ b) = WritePiece (WritePiece w a) b.
Proof. induction a as [|m a IH]; intros w b H; cbn [WritePiece app] in *; [reflexivity|]. destruct (w_panic w) eqn:E; [congruence|]. now apply IH. Qed.

Lemma in_skipn {A} (x : A) n : forall l, In x (skipn n l) -> In x l.
Proof. induction n; intros [|y l] H; cbn in *; auto. Qed.
Lemma in_firstn {A} (x : A) n : forall l, In x (firstn n l) -> In x l.
Proof. induction n; intros [|y l] H; cbn in *; [tauto..|]. destruct H; auto. Qed.

Section possible.
  Variables (cwd : place) (creat : bytes -> bool) (mk : bool) (f0 : fs) (mi : metainfo) (hash dir : bytes) (f1 : fs) (t : torrent).
  Hypothesis HN : New cwd creat mk f0 mi hash dir = (f1, Ok t).
  Hypothesis HD : NoDup (t_osfiles t).
  Hypothesis HL : Forall (fun n => 0 <= n) (file_lengths mi).
  Hypothesis HT : 0 < total (file_lengths mi) <= 2 ^ 50.
  Hypothesis HP : 0 < mi_piece_length mi < 2 ^ 30.
  Variables (sha1 : bytes -> bytes) (N : Z) (c : bytes).
  Hypothesis HN32 : N <= 2 ^ 32.
  Hypothesis HC : torrent_of sha1 mi N c.
  Let lens := file_lengths mi.
  Let plen := mi_piece_length mi.
  Let w0 := mkW t f1 [] [] false.

  Lemma lens_each n : In n lens -> 0 <= n < 2 ^ 63.
  Proof.
    assert (G : forall l, Forall (fun n => 0 <= n) l -> In n l -> 0 <= n <= total l).
    { clear. induction l as [|x l IH]; intros HF Hi; [destruct Hi|]. inversion HF; subst. cbn [total fold_right]. fold (total l). pose proof (total_nonneg l H2).
      destruct Hi as [<-|Hi]; [lia|]. specialize (IH H2 Hi). lia. }
    intros Hi. specialize (G _ HL Hi). lia.
  Qed.
  Lemma HL' : Forall (fun n => 0 <= n < 2 ^ 63) (file_lengths mi).
  Proof. apply Forall_forall. apply lens_each. Qed.
  Lemma plen_is : t_plen t = plen. Proof. apply (fresh_sets _ _ _ _ _ _ _ _ _ HN). Qed.
  Lemma length_is : t_length t = total lens.
  Proof.
    destruct (length_new _ _ _ _ _ _ _ _ _ HN) as [A B]. pose proof HL as HL0. pose proof HT as HT0. unfold lens, file_lengths in *. destruct (mi_length mi =? 0) eqn:E.
    - apply B; [lia|rewrite Forall_map in HL0; exact HL0|lia].
    - rewrite A by lia. cbn. lia.
  Qed.
  Lemma N_pos : 0 < N. Proof. destruct HC as (A & _ & _ & B & _). rewrite A in B. nia. Qed.
  Lemma pnum_is : t_pnum t = N.
  Proof.
    pose proof (pieces_num_new _ _ _ _ _ _ _ _ _ HN) as H. rewrite length_is in H. specialize (H ltac:(unfold lens; lia) ltac:(lia)).
    destruct HC as (A & _ & _ & B & _). rewrite A in B. fold lens plen in B, H. unfold plen, lens in *. nia.
  Qed.

  (* piece i as data, message and body *)
  Definition part (i : Z) : bytes := piece_of c plen i.
  Definition body (i : Z) : bytes := piece_bytes i 0 (part i).
  Definition pmsg (i : Z) : msg := match NewPeerMessage (body i) with Ok m => m | _ => KeepalivePeerMessage end.
  Lemma part_len i : 0 <= i < N -> zlen (part i) = Z.min plen (total lens - i * plen).
  Proof.
    intros Hi. destruct HC as (A & _ & _ & B & _). rewrite A in B. fold lens plen in A, B. pose proof HP as HP1. fold plen in HP1. unfold part, piece_of, sub, zlen in *. rewrite firstn_length, skipn_length. nia.
  Qed.
  Lemma part_byte i q : 0 <= i < N -> i * plen <= q < i * plen + zlen (part i) -> byte_at (part i) (q - i * plen) = byte_at c q.
  Proof.
    intros Hi Hq. rewrite part_len in Hq by exact Hi. unfold part, piece_of. assert (0 <= i * plen) by (unfold plen; nia). rewrite byte_sub by nia. f_equal. lia.
  Qed.
  Lemma part_bytes i : Forall is_byte (part i).
  Proof.
    destruct HC as (_ & A & _). apply Forall_forall. intros x Hx. rewrite Forall_forall in A. apply A. unfold part, piece_of, sub in Hx.
    apply (in_skipn _ (Z.to_nat (i * plen))). eapply in_firstn; exact Hx.
  Qed.
  Lemma pmsg_ok i : 0 <= i < N -> NewPeerMessage (body i) = Ok (pmsg i) /\ m_type (pmsg i) = PieceT /\ m_index (pmsg i) = i /\ m_offset (pmsg i) = 0 /\ data_of (pmsg i) = Ok (part i).
  Proof.
    intros Hi. pose proof HN32. assert (Hu : 0 <= i < 2 ^ 32) by lia.
    assert (E : NewPeerMessage (body i) = Ok (pmsg i)).
    { unfold pmsg. destruct (new_ok_or_panic (body i)) as [[m ->]|E]; [reflexivity|]. apply new_panics in E as (ty & r & E & Hl). assert (ty = 7) as -> by (unfold body, piece_bytes in E; congruence).
      unfold body, piece_bytes in Hl. rewrite zlen_cons, !zlen_app, !be32_length in Hl. pose proof (zlen_nonneg (part i)). change (min_body 7) with 9 in Hl. lia. }
    split; [exact E|]. destruct (piece_fields i (part i) (pmsg i) Hu E) as [A B]. pose proof E as E'. unfold body, piece_bytes in E'. destruct (new_basic _ _ _ E') as (_ & Ht & _).
    split; [exact Ht|]. split; [exact A|]. split; [|exact B].
    unfold NewPeerMessage in E'. cbn [PieceT HaveT RequestT CancelT Z.eqb Pos.eqb orb] in E'. rewrite uint32_at_head in E' by (unfold is_u32; lia). cbn [bind] in E'.
    rewrite uint32_at_mid in E' by (first [reflexivity|unfold is_u32; lia]). cbn [bind] in E'. clear - E'. injection E' as <-. reflexivity.
  Qed.
  Lemma pmsg_good i : 0 <= i < N -> good_msg (pmsg i).
  Proof. intros Hi. pose proof HN32. destruct (pmsg_ok i Hi) as (_ & _ & A & B & D). split; [unfold wire_msg; rewrite A, B; lia|eauto]. Qed.
  Lemma pmsg_block i : 0 <= i < N -> block_write plen (pmsg i) = (i * plen, part i).
  Proof. intros Hi. destruct (pmsg_ok i Hi) as (_ & _ & A & B & D). unfold block_write. rewrite A, B, D. now rewrite Z.add_0_r. Qed.

  Definition msgs (n : nat) : list msg := map (fun k => pmsg (Z.of_nat k)) (seq 0 n).
  Lemma msgs_in n m : In m (msgs n) <-> exists i, 0 <= i < Z.of_nat n /\ m = pmsg i.
  Proof.
    unfold msgs. rewrite in_map_iff. split.
    - intros (k & <- & Hk). apply in_seq in Hk. exists (Z.of_nat k). split; [lia|reflexivity].
    - intros (i & Hi & ->). exists (Z.to_nat i). rewrite in_seq. split; [f_equal; lia|lia].
  Qed.
  Lemma msgs_good n : (n <= Z.to_nat N)%nat -> Forall good_msg (msgs n).
  Proof. intros Hn. apply Forall_forall. intros m Hm. apply msgs_in in Hm as (i & Hi & ->). apply pmsg_good. lia. Qed.
  Lemma kind : one_kind t. Proof. exact (order_kind _ _ _ _ _ _ _ _ _ HN HD HL'). Qed.
  Lemma dl_is ms : Forall good_msg ms -> t_downloaded (w_t (WritePiece w0 ms)) = marks t ms (bs_make N) /\ w_panic (WritePiece w0 ms) = false.
  Proof.
    intros HG. destruct (fresh_sets _ _ _ _ _ _ _ _ _ HN) as (_ & E & _). rewrite pnum_is in E. rewrite <- E.
    apply (WritePiece_marks t ms w0 (same_layout_refl t) kind eq_refl eq_refl ltac:(rewrite plen_is; unfold plen; lia) HG).
  Qed.
  Lemma not_done n : (n < Z.to_nat N)%nat -> Done (w_t (WritePiece w0 (msgs n))) = false.
  Proof.
    intros Hn. destruct (Done _) eqn:E; [|reflexivity]. exfalso. pose proof (msgs_good n ltac:(lia)) as HG. destruct (dl_is _ HG) as [ED _].
    unfold Done in E. rewrite ED in E. rewrite bs_all_spec in E. specialize (E (Z.of_nat n)).
    assert (X : Z.of_nat n < zlen (marks t (msgs n) (bs_make N))) by (apply marks_len; [lia|exact HG|left; rewrite bs_make_len; lia]).
    specialize (E ltac:(lia)). apply marks_test in E; [|lia|exact HG]. rewrite bs_make_test in E. destruct E as [E|(m & H1 & _ & H3)]; [discriminate|].
    apply msgs_in in H1 as (i & Hi & ->). destruct (pmsg_ok i ltac:(lia)) as (_ & _ & A & _). lia.
  Qed.
  Lemma check_ok w i : static (w_t w) = static t -> 0 <= i < N -> CheckPiece sha1 (w_t w) (part i) i = Ok true.
  Proof.
    intros HS Hi. assert (E : t_pieces (w_t w) = t_pieces t) by (unfold static in HS; congruence). unfold CheckPiece. rewrite E. destruct HC as (_ & _ & B & _ & D).
    destruct (new_fields _ _ _ _ _ _ _ _ _ HN) as (HPc & _).
    assert (Hm : zlen (mi_pieces mi) mod 20 = 0) by (rewrite B, Z.mul_comm; apply Z_mod_mult). destruct (new_pieces_ok _ Hm) as (ps & E1 & E2 & E3 & _). rewrite HPc in E1. inversion E1; subst ps.
    assert (Hlen : zlen (t_pieces t) = N).
    { assert (X : forall ps, Forall (fun p => zlen (p_sha1 p) = 20) ps -> zlen (concat (map p_sha1 ps)) = 20 * zlen ps).
      { induction 1; cbn [map concat]; [reflexivity|]. rewrite zlen_app, zlen_cons. lia. }
      specialize (X _ E3). rewrite E2 in X. lia. }
    destruct (nthZ (t_pieces t) i) as [p|] eqn:Ep.
    - rewrite (pieces_are _ _ _ _ _ _ _ _ _ HN HP _ _ Ep), D by exact Hi. fold plen. fold (part i). now rewrite beq_refl.
    - exfalso. unfold nthZ in Ep. replace (i <? 0) with false in Ep by lia. apply nth_error_None in Ep. unfold zlen in Hlen. lia.
  Qed.
  Lemma WritePiece_static ms : forall w, static (w_t (WritePiece w ms)) = static (w_t w).
  Proof. induction ms as [|m ms IH]; intros w; cbn [WritePiece]; [reflexivity|]. destruct (w_panic w); [reflexivity|]. rewrite IH. apply static_write. Qed.

  Definition rounds (n : nat) : list action := ASpawn false 0 :: flat_map (fun k => round (body (Z.of_nat k))) (seq 0 n).
  Lemma rounds_run n : (n <= Z.to_nat N)%nat -> exists w tr, run sha1 (rounds n) (start w0) = (w, tr) /\ resting w (WritePiece w0 (msgs n)).
  Proof.
    induction n as [|n IH]; intros Hn.
    - eexists _, _. split; [reflexivity|]. cbn. eexists _, _, _. split; [reflexivity|]. reflexivity.
    - destruct IH as (w & tr & HR & HI); [lia|]. unfold rounds. rewrite seq_S, flat_map_app, app_comm_cons. fold (rounds n). cbn [flat_map Nat.add]. rewrite app_nil_r.
      assert (Hi : 0 <= Z.of_nat n < N) by lia. destruct (pmsg_ok _ Hi) as (A1 & A2 & A3 & A4 & A5). pose proof (msgs_good n ltac:(lia)) as HG. destruct (dl_is _ HG) as [_ HPn].
      destruct (round_run sha1 w _ (body (Z.of_nat n)) (pmsg (Z.of_nat n)) (part (Z.of_nat n)) HI HPn (not_done n ltac:(lia)) A1 A2 A5) as (w' & tr' & HR' & HI').
      { rewrite A3. apply check_ok; [|exact Hi]. rewrite WritePiece_static. reflexivity. }
      exists w', (tr ++ tr'). split; [rewrite run_app, HR, HR'; reflexivity|].
      unfold msgs. rewrite seq_S, map_app. fold (msgs n). rewrite WritePiece_app by exact HPn. cbn [map Nat.add WritePiece]. rewrite HPn. exact HI'.
  Qed.
  Lemma rounds_fine n : (n <= Z.to_nat N)%nat -> Forall reads_bytes (rounds n) /\ Forall real (rounds n).
  Proof.
    intros Hn. assert (G : forall a, In a (rounds n) -> reads_bytes a /\ real a); [|split; apply Forall_forall; intros a Ha; apply G in Ha; tauto].
    intros a [<-|Ha]; [split; exact I || reflexivity|]. apply in_flat_map in Ha as (k & Hk & Ha). apply in_seq in Hk. unfold round in Ha. cbn [repeat app] in Ha.
    assert (Hq : reads_bytes (APeer 0 quiet)) by (intros b Hb; discriminate).
    assert (Hb : reads_bytes (APeer 0 (reading (body (Z.of_nat k))))).
    { intros b Hb. cbn in Hb. inversion Hb; subst b. unfold body, piece_bytes. constructor; [unfold is_byte; lia|].
      rewrite !Forall_app. split; [|split; [|apply part_bytes]]; unfold be32; repeat (apply Forall_cons; [unfold is_byte; apply Z.mod_pos_bound; lia|]); apply Forall_nil. }
    assert (He : reads_bytes (APeer 0 (reading []))) by (intros b Hb'; cbn in Hb'; inversion Hb'; constructor).
    repeat (destruct Ha as [<-|Ha]; [split; [assumption || exact I|exact I]|]). destruct Ha.
  Qed.

  (* ---------- the files ---------- *)
  Lemma full_cover q : 0 <= q < total lens -> exists i, 0 <= i < N /\ i * plen <= q < i * plen + zlen (part i).
  Proof.
    intros Hq. pose proof HP as HP1. fold plen in HP1. exists (q / plen). pose proof (Z.div_mod q plen ltac:(lia)). pose proof (Z.mod_pos_bound q plen ltac:(lia)). destruct HC as (A & _ & _ & B & _). rewrite A in B. fold lens plen in B.
    assert (0 <= q / plen < N) by (split; [apply Z.div_pos; lia|apply Z.div_lt_upper_bound; nia]). split; [lia|]. rewrite part_len by lia. nia.
  Qed.
  Lemma part_end i : 0 <= i < N -> i * plen + zlen (part i) <= total lens.
  Proof. intros Hi. rewrite part_len by exact Hi. lia. Qed.
  Let all := msgs (Z.to_nat N).
  Lemma all_blocks b : In b (map (block_write plen) all) <-> exists i, 0 <= i < N /\ b = (i * plen, part i).
  Proof.
    rewrite in_map_iff. split.
    - intros (m & <- & Hm). apply msgs_in in Hm as (i & Hi & ->). exists i. split; [lia|]. apply pmsg_block. lia.
    - intros (i & Hi & ->). exists (pmsg i). split; [now apply pmsg_block|]. apply msgs_in. exists i. split; [lia|reflexivity].
  Qed.
  Lemma all_agree a b : In a (map (block_write plen) all) -> In b (map (block_write plen) all) -> agree a b.
  Proof.
    intros Ha Hb. apply all_blocks in Ha as (i & Hi & ->). apply all_blocks in Hb as (j & Hj & ->). intros q Hq Hq'. cbn [fst snd] in *. now rewrite !part_byte.
  Qed.
  Lemma all_latest q old : 0 <= q < total lens -> latest (map (block_write plen) all) q old = byte_at c q.
  Proof.
    intros Hq. destruct (full_cover q Hq) as (i & Hi & Hr). rewrite (latest_some _ q old (i * plen, part i)).
    - cbn [fst snd]. now apply part_byte.
    - intros a b Ha Hb. now apply all_agree.
    - apply all_blocks. eauto.
    - unfold covers. cbn [fst snd]. lia.
  Qed.
  Lemma files_full : map (contents (w_fs (WritePiece w0 all))) (t_osfiles t) = cut lens c.
  Proof.
    assert (HG : Forall good_msg all) by (apply msgs_good; lia). pose proof plen_is as EP. assert (Hl : 0 <= t_plen t < 2 ^ 30) by (rewrite EP; unfold plen; lia).
    assert (Hzc : zlen c = total lens) by apply HC.
    assert (LEN : length (t_osfiles t) = length lens).
    { unfold lens, file_lengths. destruct (mi_length mi =? 0) eqn:E.
      - destruct (new_multi_handles _ _ _ _ _ _ _ _ _ HN ltac:(lia)) as (A & B & _). rewrite map_length. congruence.
      - destruct (new_single _ _ _ _ _ _ _ _ _ HN ltac:(lia)) as (h & -> & _). reflexivity. }
    apply nth_ext with (d := []) (d' := []); [rewrite map_length, cut_length; exact LEN|]. intros k Hk. rewrite map_length in Hk.
    destruct (nth_error (t_osfiles t) k) as [p|] eqn:Ep; [|apply nth_error_None in Ep; lia].
    destruct (nth_error lens k) as [len|] eqn:El; [|apply nth_error_None in El; lia].
    assert (En : nth k (map (contents (w_fs (WritePiece w0 all))) (t_osfiles t)) [] = contents (w_fs (WritePiece w0 all)) p).
    { apply nth_error_nth. now apply map_nth_error. }
    rewrite En. clear En.
    assert (Hlen : zlen (nth k (cut lens c) []) = len) by (apply cut_len; assumption).
    assert (G : (forall o, 0 <= o -> (o < zlen (contents (w_fs (WritePiece w0 all)) p) <-> o < len)) /\
                (forall o q, 0 <= o < len -> located lens q k o -> byte_at (contents (w_fs (WritePiece w0 all)) p) o = byte_at c q)).
    { assert (EM : exists b, b = (mi_length mi =? 0)) by eauto. destruct EM as [[] EM].
      - assert (E0 : mi_length mi = 0) by lia. assert (EL : lens = map tf_length (mi_files mi)) by (unfold lens, file_lengths; now rewrite <- EM).
        pose proof HL' as HL2. unfold file_lengths in HL2. rewrite <- EM in HL2. rewrite Forall_map in HL2.
        destruct (new_multi_ok _ _ _ _ _ _ _ _ _ HN E0 HD HL2) as [Hm _]. destruct (new_entries _ _ _ _ _ _ _ _ _ HN E0) as [E1 E2]. rewrite <- EL in E1.
        assert (Hk' : nth_error (entries t) k = Some (len, p)).
        { destruct (nth_error (entries t) k) as [[l' p']|] eqn:Ee; [|apply nth_error_None in Ee; rewrite <- (map_length snd), E2 in Ee; lia].
          pose proof (map_nth_error fst _ _ Ee) as X1. pose proof (map_nth_error snd _ _ Ee) as X2. rewrite E1 in X1. rewrite E2 in X2. cbn in *. congruence. }
        destruct (multi_lengths t all w0 (same_layout_refl t) Hm eq_refl eq_refl Hl HG) as [_ L1].
        destruct (WritePiece_data all w0 Hm eq_refl eq_refl Hl HG) as (_ & B1). cbn [w_t w_fs w0] in *. change (w_t w0) with t in *. rewrite E1, ?EP in *.
        assert (He : contents (w_fs w0) p = []) by (apply (new_files_empty _ _ _ _ _ _ _ _ _ HN); eapply nth_error_In; exact Ep). split.
        + intros o Ho. rewrite (L1 k len p o Hk' Ho). change (contents f1 p) with (contents (w_fs w0) p). rewrite He. split.
          * intros [H|(m & _ & o' & q & H1 & H2 & _)]; [cbn in H; lia|]. apply located_lt in H2 as (l' & H2 & H3). rewrite El in H2. inversion H2; subst. lia.
          * intros H. right. destruct (located_ex lens k len o El ltac:(lia)) as [q Hq]. pose proof (located_nonneg _ _ _ _ HL Hq) as Hq'.
            destruct (full_cover q Hq') as (i & Hi & Hr). exists (pmsg i). split; [apply msgs_in; exists i; split; [lia|reflexivity]|]. exists o, q. rewrite pmsg_block by exact Hi. cbn [fst snd]. split; [lia|]. split; [exact Hq|lia].
        + intros o q Ho Hq. rewrite (B1 k len p o q Hk' ltac:(lia) Hq). apply all_latest. exact (located_nonneg _ _ _ _ HL Hq).
      - assert (E0 : mi_length mi <> 0) by lia. assert (EL : lens = [mi_length mi]) by (unfold lens, file_lengths; now rewrite <- EM).
        destruct (new_single _ _ _ _ _ _ _ _ _ HN E0) as (h & Eh & Hd & He & _).
        destruct (single_data all w0 h [] Hd Eh eq_refl eq_refl Hl HG) as (_ & _ & B1 & L1). change (w_t w0) with t in *. rewrite EP in *.
        rewrite Eh in Ep. rewrite EL in El. destruct k as [|k]; [|destruct k; discriminate]. cbn in Ep, El. inversion Ep; subst p. inversion El; subst len. clear Ep El.
        assert (ET : total lens = mi_length mi) by (rewrite EL; cbn; lia). split.
        + intros o Ho. rewrite L1, fold_max. change (w_fs w0) with f1. rewrite He. split.
          * intros [H|(b & Hb & _ & Hx)]; [cbn in H; lia|]. apply all_blocks in Hb as (i & Hi & ->). cbn [fst snd] in Hx. pose proof (part_end i Hi). lia.
          * intros H. right. destruct (full_cover o ltac:(lia)) as (i & Hi & Hr). exists (i * plen, part i). split; [apply all_blocks; eauto|]. cbn [fst snd]. split; [|lia]. intros Ex. rewrite Ex in Hr. cbn in Hr. lia.
        + intros o q Ho Hq. rewrite EL in Hq. inversion Hq; subst. rewrite B1 by lia. apply all_latest. rewrite ET. lia. }
    destruct G as [G1 G2]. apply same_bytes.
    - intros o Ho. rewrite Hlen. now apply G1.
    - intros o Ho. assert (Ho' : 0 <= o < len) by (split; [lia|]; apply G1; lia). destruct (located_ex lens k len o El Ho') as [q Hq].
      rewrite (G2 o q Ho' Hq). symmetry. now apply cut_byte.
  Qed.
  Lemma files_some : map (w_fs (WritePiece w0 all)) (t_osfiles t) = map Some (cut lens c).
  Proof.
    rewrite <- files_full, map_map. apply map_ext_in. intros p Hp. unfold contents. destruct (w_fs (WritePiece w0 all) p) eqn:E; [reflexivity|]. exfalso. revert E. apply WritePiece_some.
    destruct (new_fields _ _ _ _ _ _ _ _ _ HN) as (_ & _ & _ & _ & _ & _ & _ & _ & _ & _ & _ & paths & _ & Hc). apply create_files_spec in Hc as (_ & Hc & _). cbn [w_fs w0]. now rewrite Hc.
  Qed.
  Lemma resting_crashed w ws : resting w ws -> w_panic ws = false -> crashed w = false /\ sh_w (wo_sh w) = ws.
  Proof. intros (p & q & tk & -> & _) HPn. unfold crashed. cbn [wo_peers existsb panicked r_pc orb wo_sh sh_w]. auto. Qed.

  Lemma can_store : exists l w tr, Forall reads_bytes l /\ Forall real l /\ run sha1 l (start w0) = (w, tr) /\ crashed w = false /\
    map (w_fs (sh_w (wo_sh w))) (t_osfiles t) = map Some (cut lens c) /\ (total lens mod plen = 0 -> Done (sh_t (wo_sh w)) = true).
  Proof.
    destruct (rounds_run (Z.to_nat N) ltac:(lia)) as (w & tr & HR & HI). destruct (rounds_fine (Z.to_nat N) ltac:(lia)) as [A B].
    assert (HG : Forall good_msg all) by (apply msgs_good; lia). destruct (dl_is _ HG) as [ED HPn]. destruct (resting_crashed _ _ HI HPn) as [X1 X2].
    exists (rounds (Z.to_nat N)), w, tr. split; [exact A|]. split; [exact B|]. split; [exact HR|]. split; [exact X1|]. unfold sh_t. rewrite X2. fold all. split; [exact files_some|].
    intros Hm. unfold Done. rewrite ED. apply bs_all_spec. intros j Hj.
    assert (HM : forall i, 0 <= i < N -> markb t (pmsg i) = true).
    { intros i Hi. destruct (pmsg_ok i Hi) as (_ & _ & E1 & E2 & E3). unfold markb. rewrite E3, E2, E1, plen_is, Z.add_0_l. pose proof (part_len i Hi) as E4. pose proof HP as HP0. fold plen in HP0.
      destruct HC as (C1 & _ & _ & C2 & _). rewrite C1 in C2. fold lens plen in C2. apply Z.div_exact in Hm; [|lia]. set (k := total lens / plen) in *.
      assert (k = N) by nia. assert (E5 : zlen (part i) = plen) by nia. rewrite E5, (wrap64_small plen) by lia. rewrite Z.eqb_refl. cbn [andb].
      destruct (t_isdir t) eqn:Ed; [|reflexivity]. assert (E0 : mi_length mi = 0).
      { destruct (new_fields _ _ _ _ _ _ _ _ _ HN) as (_ & _ & _ & _ & Hx & _). rewrite Hx in Ed. lia. }
      destruct (new_entries _ _ _ _ _ _ _ _ _ HN E0) as [-> _]. assert (ET : total (map tf_length (mi_files mi)) = total lens) by (unfold lens, file_lengths; now rewrite E0). rewrite ET. nia. }
    assert (HJ : j < N).
    { destruct (proj1 (marks_len t all (bs_make N) j ltac:(lia) HG) ltac:(lia)) as [H|(m & H1 & _ & H2)]; [rewrite bs_make_len in H; pose proof N_pos; lia|].
      apply msgs_in in H1 as (i & Hi & ->). destruct (pmsg_ok i ltac:(lia)) as (_ & _ & E1 & _). lia. }
    apply marks_test; [lia|exact HG|]. right. exists (pmsg j). split; [apply msgs_in; exists j; split; [lia|reflexivity]|]. split; [apply HM; lia|]. apply pmsg_ok. lia.
  Qed.

  (* ---------- a short last piece ---------- *)
  Lemma cannot l w tr : sha1 [] <> hash_of (mi_pieces mi) (N - 1) -> Forall reads_bytes l -> run sha1 l (start w0) = (w, tr) -> Done (sh_t (wo_sh w)) = true ->
    map (w_fs (sh_w (wo_sh w))) (t_osfiles t) = map Some (cut lens c) -> total lens mod plen = 0.
  Proof.
    intros HE HB HR HDn HF. destruct (Z.eq_dec (total lens mod plen) 0) as [E|Hm]; [exact E|exfalso].
    destruct (writer_run _ _ _ _ _ HR) as [HS HH]. pose proof (all_verified _ _ _ _ _ HB HR) as HV. cbn [w_t] in HV. rewrite HH in HV. apply Forall_app in HV as [HV _].
    set (ms := wo_taken w) in *. assert (HG : Forall good_msg ms).
    { eapply Forall_impl; [|exact HV]. intros m ((p & d & _ & D & _) & W & _). split; [exact W|eauto]. }
    destruct HS as (_ & S2 & S3 & _). destruct (dl_is _ HG) as [ED HPn]. unfold Done, sh_t in HDn. rewrite S2, ED in HDn. rewrite bs_all_spec in HDn. pose proof N_pos as HNp.
    specialize (HDn (N - 1)). assert (X : N - 1 < zlen (marks t ms (bs_make N))) by (apply marks_len; [lia|exact HG|left; rewrite bs_make_len; lia]).
    specialize (HDn ltac:(lia)). apply marks_test in HDn; [|lia|exact HG]. rewrite bs_make_test in HDn. destruct HDn as [C|(m & H1 & H2 & H3)]; [discriminate|].
    rewrite Forall_forall in HV. destruct (HV m H1) as ((p & d & V1 & V2 & V3) & [W1 W2] & _). pose proof (zlen_nonneg d) as Hz.
    unfold markb in H2. rewrite V2, plen_is in H2. apply andb_prop in H2 as [M1 M2]. apply Z.eqb_eq in M1.
    pose proof HP as HP0. fold plen in HP0. assert (Hge : plen <= m_offset m + zlen d).
    { destruct (Z.le_gt_cases plen (m_offset m + zlen d)) as [Q|Q]; [exact Q|]. rewrite wrap64_small in M1 by lia. lia. }
    destruct HC as (C1 & _ & _ & C2 & _). rewrite C1 in C2. fold lens plen in C2.
    assert (Hlt : total lens < N * plen). { destruct (Z.eq_dec (total lens) (N * plen)) as [Q|Q]; [|lia]. rewrite Q in Hm. now rewrite Z_mod_mult in Hm. }
    assert (EM : exists b, b = (mi_length mi =? 0)) by eauto. destruct EM as [[] EM].
    - assert (E0 : mi_length mi = 0) by lia. destruct (new_multi_handles _ _ _ _ _ _ _ _ _ HN E0) as (_ & _ & Ed). rewrite Ed in M2.
      destruct (new_entries _ _ _ _ _ _ _ _ _ HN E0) as [E1 _]. rewrite E1 in M2. assert (ET : total (map tf_length (mi_files mi)) = total lens) by (unfold lens, file_lengths; now rewrite E0). rewrite ET, H3 in M2. nia.
    - assert (E0 : mi_length mi <> 0) by lia. assert (EL : lens = [mi_length mi]) by (unfold lens, file_lengths; now rewrite <- EM).
      destruct (new_single _ _ _ _ _ _ _ _ _ HN E0) as (h & Eh & Hd & He & _). pose proof plen_is as EP. assert (Hl : 0 <= t_plen t < 2 ^ 30) by (rewrite EP; lia).
      destruct (single_data ms w0 h [] Hd Eh eq_refl eq_refl Hl HG) as (_ & _ & _ & L1). change (w_t w0) with t in *. rewrite EP in *.
      assert (Hne : d <> []). { intros ->. apply HE. rewrite <- V3, <- H3. exact (pieces_are _ _ _ _ _ _ _ _ _ HN HP _ _ V1). }
      assert (Hbig : total lens < zlen (contents (w_fs (WritePiece w0 ms)) h)).
      { rewrite L1. apply fold_max. right. exists (block_write plen m). split; [now apply in_map|]. unfold block_write. rewrite V2. cbn [fst snd]. split; [exact Hne|]. rewrite H3. nia. }
      rewrite S3 in HF. rewrite Eh, EL in HF. cbn [map cut] in HF. inversion HF as [HF1]. unfold contents in Hbig. rewrite HF1 in Hbig. unfold zlen in Hbig at 1. rewrite firstn_length in Hbig.
      assert (ET : total lens = mi_length mi) by (rewrite EL; cbn; lia). lia.
  Qed.
  Lemma possible_exact : sha1 [] <> hash_of (mi_pieces mi) (N - 1) ->
    ((exists l w tr, Forall reads_bytes l /\ Forall real l /\ run sha1 l (start (mkW t f1 [] [] false)) = (w, tr) /\ crashed w = false /\
        Done (sh_t (wo_sh w)) = true /\ map (w_fs (sh_w (wo_sh w))) (t_osfiles t) = map Some (cut (file_lengths mi) c)) <-> total (file_lengths mi) mod mi_piece_length mi = 0).
  Proof.
    intros HE. split.
    - intros (l & w & tr & A & _ & B & _ & D & F). exact (cannot l w tr HE A B D F).
    - intros Hm. destruct can_store as (l & w & tr & A & B & D & E & F & G). exists l, w, tr. split; [exact A|]. split; [exact B|]. split; [exact D|]. split; [exact E|]. split; [now apply G|exact F].
  Qed.
End possible.

Definition qw_mi : metainfo := mkMetainfo [] [] [] [] 3 (str "n") 4 (Sha1.sha1 [1; 2; 3]).
Lemma qw_new : exists f1 t, New [] (fun _ => true) true (fun _ => None) qw_mi [] (str "/o") = (f1, Ok t).
Proof.
  assert (X : (match snd (New [] (fun _ => true) true (fun _ => None) qw_mi [] (str "/o")) with Ok _ => true | _ => false end) = true) by (vm_compute; reflexivity).
  destruct (New _ _ _ _ _ _ _) as [f1 [t| | |]]; [exists f1, t; reflexivity|discriminate X..].
Qed.
Lemma qw_of : torrent_of Sha1.sha1 qw_mi 1 [1; 2; 3].
Proof.
  split; [reflexivity|]. split; [repeat constructor; unfold is_byte; lia|]. split; [vm_compute; reflexivity|]. split; [cbn; lia|].
  assert (X : beq (hash_of (mi_pieces qw_mi) 0) (Sha1.sha1 (piece_of [1; 2; 3] (mi_piece_length qw_mi) 0)) = true) by (vm_compute; reflexivity).
  intros i Hi. replace i with 0 by lia. now apply beq_eq in X.
Qed.
Lemma qw_hash : Sha1.sha1 [] <> hash_of (mi_pieces qw_mi) (1 - 1).
Proof. refine (proj1 (beq_neq _ _) _). vm_compute. reflexivity. Qed.
Lemma downloadable_refuted :
  ~ (forall cwd creat mk f0 mi hash dir f1 t N c,
       New cwd creat mk f0 mi hash dir = (f1, Ok t) -> NoDup (t_osfiles t) -> Forall (fun n => 0 <= n) (file_lengths mi) ->
       0 < total (file_lengths mi) <= 2 ^ 50 -> 0 < mi_piece_length mi < 2 ^ 30 -> N <= 2 ^ 32 -> torrent_of Sha1.sha1 mi N c ->
       exists l w tr, Forall reads_bytes l /\ Forall real l /\ run Sha1.sha1 l (start (mkW t f1 [] [] false)) = (w, tr) /\ crashed w = false /\
         Done (sh_t (wo_sh w)) = true /\ map (w_fs (sh_w (wo_sh w))) (t_osfiles t) = map Some (cut (file_lengths mi) c)).
Proof.
  intros H.
  destruct qw_new as (f1 & t & E). destruct (new_single _ _ _ _ _ _ _ _ _ E ltac:(cbn; lia)) as (h & Eh & _).
  assert (D : NoDup (t_osfiles t)) by (rewrite Eh; repeat constructor; intros []).
  assert (L : Forall (fun n => 0 <= n) (file_lengths qw_mi)) by (cbn; repeat constructor; lia).
  assert (T : 0 < total (file_lengths qw_mi) <= 2 ^ 50) by (cbn -[Z.pow]; lia).
  assert (P : 0 < mi_piece_length qw_mi < 2 ^ 30) by (cbn -[Z.pow]; lia).
  assert (X : 3 mod 4 = 0); [|discriminate X].
  apply (possible_exact _ _ _ _ _ _ _ _ _ E D L T P Sha1.sha1 1 [1; 2; 3] ltac:(lia) qw_of qw_hash).
  exact (H _ _ _ _ _ _ _ _ _ 1 [1; 2; 3] E D L T P ltac:(lia) qw_of).
Qed.
