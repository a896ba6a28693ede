(* The order of the blocks does not matter: C149.                              *)
From Verif Require Import Base ProofBase SpecPath SpecTorrent SpecOrder SpecFinish SpecPeer ModelPath ModelBitset ModelMsg ModelTorrent ModelConn ModelPeer ModelSystem.
From Verif Require Import ProofConn ProofTorrent ProofPath ProofWrite ProofHistory ProofDisk ProofNew ProofLength ProofSystem ProofVerified.

(* ---------- bytes ---------- *)
Definition covers (q : Z) (b : Z * bytes) : bool := (fst b <=? q) && (q <? fst b + zlen (snd b)).
Lemma latest_none ws q : forall old, (forall b, In b ws -> covers q b = false) -> latest ws q old = old.
Proof.
  induction ws as [|[pos d] ws IH]; intros old H; cbn [latest]; [reflexivity|].
  pose proof (H (pos, d) (or_introl eq_refl)) as C. unfold covers in C. cbn [fst snd] in C. rewrite C. apply IH. intros b Hb. apply H. now right.
Qed.
Lemma latest_some ws q : forall old b, (forall a c, In a ws -> In c ws -> agree a c) -> In b ws -> covers q b = true ->
  latest ws q old = byte_at (snd b) (q - fst b).
Proof.
  induction ws as [|[pos d] ws IH]; intros old b HA Hb Hc; [contradiction|]. cbn [latest].
  destruct (existsb (covers q) ws) eqn:E.
  - apply existsb_exists in E as (c & Hi & Hq). rewrite (IH _ c); auto; [|intros; apply HA; now right].
    unfold covers in Hc, Hq. apply (HA c b); auto; [now right|lia|lia].
  - rewrite latest_none.
    2:{ intros c Hi. destruct (covers q c) eqn:F; [|reflexivity]. rewrite <- E. symmetry. apply existsb_exists. eauto. }
    destruct Hb as [<-|Hb]; [unfold covers in Hc; cbn [fst snd] in *; rewrite Hc; reflexivity|].
    exfalso. assert (existsb (covers q) ws = true) by (apply existsb_exists; eauto). congruence.
Qed.
Lemma latest_set ws ws' q old : (forall b, In b ws <-> In b ws') -> (forall a c, In a ws -> In c ws -> agree a c) -> latest ws q old = latest ws' q old.
Proof.
  intros HI HA. destruct (existsb (covers q) ws) eqn:E.
  - apply existsb_exists in E as (b & Hb & Hc). rewrite (latest_some ws q old b HA Hb Hc). symmetry. apply latest_some; [|now apply HI|exact Hc].
    intros a c Ha Hc'. apply HA; now apply HI.
  - assert (N : forall b, In b ws -> covers q b = false).
    { intros b Hb. destruct (covers q b) eqn:F; [|reflexivity]. rewrite <- E. symmetry. apply existsb_exists. eauto. }
    rewrite !latest_none; auto. intros b Hb. apply N. now apply HI.
Qed.
Lemma map_set {A B} (g : A -> B) l l' : (forall x, In x l <-> In x l') -> forall y, In y (map g l) <-> In y (map g l').
Proof. intros H y. rewrite !in_map_iff. split; intros (x & E & Hx); exists x; split; auto; now apply H. Qed.

Lemma same_bytes (c c' : bytes) : (forall o, 0 <= o -> (o < zlen c <-> o < zlen c')) -> (forall o, 0 <= o < zlen c -> byte_at c o = byte_at c' o) -> c = c'.
Proof.
  intros HL HB. pose proof (zlen_nonneg c). pose proof (zlen_nonneg c').
  assert (E : zlen c = zlen c').
  { destruct (Z.lt_trichotomy (zlen c) (zlen c')) as [C|[C|C]]; [|exact C|].
    - apply HL in C; lia.
    - apply HL in C; lia. }
  apply nth_ext with (d := 0) (d' := 0); [unfold zlen in E; lia|]. intros n Hn. specialize (HB (Z.of_nat n)).
  unfold byte_at in HB. rewrite Nat2Z.id in HB. apply HB. unfold zlen. lia.
Qed.

(* ---------- one write ---------- *)
Lemma write_all t f pos d : multi_ok t -> 0 <= pos < 2 ^ 63 ->
  exists f' st, writePieceData f [] t d pos = (f', [], st) /\ written (entries t) f f' pos d /\ extends (entries t) f f' pos (zlen d) /\
    (st = WOk <-> pos < total (map fst (entries t)) /\ pos + zlen d <= total (map fst (entries t))) /\ st <> WPanic.
Proof.
  intros Ht Hp. destruct (write_exact t f pos d Ht Hp) as (f' & o' & st & E & W & K & P).
  destruct Ht as (Hd & Hnd & Hs). destruct (multi_len (entries t) f [] pos d Hnd Hs Hp) as (f2 & o2 & st2 & m & E2 & _ & _ & X & _ & O).
  assert (E3 : writePieceData f [] t d pos = (f2, o2, st2)). { unfold writePieceData. rewrite Hd. cbn [negb]. exact E2. }
  rewrite E in E3. inversion E3; subst. destruct (O eq_refl) as [-> ->]. eauto 10.
Qed.

Definition markb (t : torrent) (m : msg) : bool :=
  match data_of m with
  | Ok d => (wrap64 (m_offset m + zlen d) =? t_plen t) &&
            (if t_isdir t then (m_index m * t_plen t + m_offset m <? total (map fst (entries t))) && (m_index m * t_plen t + m_offset m + zlen d <=? total (map fst (entries t))) else true)
  | _ => false
  end.
Lemma markb_layout t t' m : same_layout t t' -> markb t' m = markb t m.
Proof. intros HS. pose proof (same_entries _ _ HS) as Ee. destruct HS as (A & _ & _ & B & _). unfold markb. now rewrite A, B, Ee. Qed.

Definition one_kind (t : torrent) : Prop := multi_ok t \/ t_isdir t = false /\ exists h hs, t_osfiles t = h :: hs.
Lemma kind_layout t t' : same_layout t t' -> one_kind t -> one_kind t'.
Proof.
  intros HS [H|(H1 & h & hs & H2)]; [left; eapply same_multi; eauto|right]. destruct HS as (_ & _ & A & B & _). rewrite A, B. eauto.
Qed.

Lemma write_one_mark w m : one_kind (w_t w) -> w_outs w = [] -> w_panic w = false -> 0 <= t_plen (w_t w) < 2 ^ 30 -> good_msg m ->
  w_outs (write_one w m) = [] /\ w_panic (write_one w m) = false /\
  t_downloaded (w_t (write_one w m)) = if markb (w_t w) m then bs_set (t_downloaded (w_t w)) (m_index m) else t_downloaded (w_t w).
Proof.
  intros HK Ho Hp Hl [Hw [d Hd]]. unfold write_one, markb. rewrite Hd, Ho, Hp. destruct (pos_nowrap _ _ Hl Hw) as [-> Hr].
  set (pos := m_index m * t_plen (w_t w) + m_offset m) in *. destruct HK as [Hm|(Hi & h & hs & Eh)].
  - destruct (write_all (w_t w) (w_fs w) pos d Hm Hr) as (f' & st & E & _ & _ & K & P). rewrite E. destruct Hm as (-> & _).
    destruct ((pos <? total (map fst (entries (w_t w)))) && (pos + zlen d <=? total (map fst (entries (w_t w))))) eqn:C.
    + assert (st = WOk) by (apply K; lia). subst st. cbn. rewrite andb_true_r. destruct (_ =? _); auto.
    + rewrite andb_false_r. destruct st; cbn; auto; [|congruence]. exfalso. destruct K as [K _]. specialize (K eq_refl). lia.
  - rewrite Hi, andb_true_r. unfold writePieceData. rewrite Hi, Eh. cbn [negb]. unfold WriteAt. replace (pos <? 0) with false by lia. cbn.
    destruct (_ =? _); auto.
Qed.

Definition marks (t : torrent) (ms : list msg) (b : bitset) : bitset :=
  fold_left (fun b m => if markb t m then bs_set b (m_index m) else b) ms b.
Lemma WritePiece_marks t ms : forall w, same_layout t (w_t w) -> one_kind t -> w_outs w = [] -> w_panic w = false -> 0 <= t_plen t < 2 ^ 30 -> Forall good_msg ms ->
  t_downloaded (w_t (WritePiece w ms)) = marks t ms (t_downloaded (w_t w)) /\ w_panic (WritePiece w ms) = false.
Proof.
  induction ms as [|m ms IH]; intros w HS HK Ho Hp Hl HG; cbn [WritePiece]; [auto|]. rewrite Hp. inversion HG; subst.
  assert (El : t_plen (w_t w) = t_plen t) by apply HS.
  destruct (write_one_mark w m (kind_layout _ _ HS HK) Ho Hp ltac:(lia) H1) as (A & B & C).
  destruct (IH (write_one w m)) as [D E]; auto; [eapply same_layout_trans; [exact HS|apply write_one_layout]|].
  split; [|exact E]. rewrite D, C, (markb_layout _ _ _ HS). reflexivity.
Qed.
Lemma marks_test t ms : forall b i, 0 <= i -> Forall good_msg ms ->
  (bs_test (marks t ms b) i = true <-> bs_test b i = true \/ exists m, In m ms /\ markb t m = true /\ m_index m = i).
Proof.
  induction ms as [|m ms IH]; intros b i Hi HG; cbn [marks fold_left].
  - split; [auto|]. intros [H|(m & [] & _)]; exact H.
  - inversion HG as [|? ? [[Hw _] _] HG']; subst. fold (marks t ms (if markb t m then bs_set b (m_index m) else b)). rewrite IH by auto.
    destruct (markb t m) eqn:E; [rewrite bs_test_set by lia|]; rewrite ?orb_true_iff; split.
    + intros [[H|H]|(x & H1 & H2)]; [right; exists m; cbn; repeat split; auto; lia|auto|right; exists x; cbn; tauto].
    + intros [H|(x & [<-|H1] & H2 & H3)]; [auto|left; left; lia|right; eauto].
    + intros [H|(x & H1 & H2)]; [auto|right; exists x; cbn; tauto].
    + intros [H|(x & [<-|H1] & H2 & H3)]; [auto|congruence|right; eauto].
Qed.
Lemma marks_len t ms : forall b o, 0 <= o -> Forall good_msg ms ->
  (o < zlen (marks t ms b) <-> o < zlen b \/ exists m, In m ms /\ markb t m = true /\ o <= m_index m).
Proof.
  induction ms as [|m ms IH]; intros b o Hi HG; cbn [marks fold_left].
  - split; [auto|]. intros [H|(m & [] & _)]; exact H.
  - inversion HG as [|? ? [[Hw _] _] HG']; subst. fold (marks t ms (if markb t m then bs_set b (m_index m) else b)). rewrite IH by auto.
    destruct (markb t m) eqn:E; [rewrite bs_set_len by lia|]; split.
    + intros [H|(x & H1 & H2)]; [|right; exists x; cbn; tauto]. destruct (Z.lt_ge_cases o (zlen b)); [auto|]. right. exists m. cbn. repeat split; auto; lia.
    + intros [H|(x & [<-|H1] & H2 & H3)]; [left; lia|left; lia|right; eauto].
    + intros [H|(x & H1 & H2)]; [auto|right; exists x; cbn; tauto].
    + intros [H|(x & [<-|H1] & H2 & H3)]; [auto|congruence|right; eauto].
Qed.
Lemma marks_set t ms ms' b : Forall good_msg ms -> Forall good_msg ms' -> (forall m, In m ms <-> In m ms') -> marks t ms b = marks t ms' b.
Proof.
  intros HG HG' HI. assert (S : forall P : msg -> Prop, (exists m, In m ms /\ P m) <-> (exists m, In m ms' /\ P m)).
  { intros P. split; intros (m & A & B); exists m; split; auto; now apply HI. }
  assert (HL : forall o, 0 <= o -> (o < zlen (marks t ms b) <-> o < zlen (marks t ms' b))).
  { intros o Ho. rewrite !marks_len by auto. now rewrite S. }
  pose proof (zlen_nonneg (marks t ms b)). pose proof (zlen_nonneg (marks t ms' b)).
  assert (E : zlen (marks t ms b) = zlen (marks t ms' b)).
  { destruct (Z.lt_trichotomy (zlen (marks t ms b)) (zlen (marks t ms' b))) as [C|[C|C]]; [|exact C|]; apply HL in C; lia. }
  apply nth_ext with (d := false) (d' := false); [unfold zlen in E; lia|]. intros n Hn. rewrite <- !bs_test_nth.
  apply eq_true_iff_eq. rewrite !marks_test by (auto; lia). now rewrite S.
Qed.

(* ---------- several files ---------- *)
Lemma multi_lengths t ms : forall w, same_layout t (w_t w) -> multi_ok t -> w_outs w = [] -> w_panic w = false -> 0 <= t_plen t < 2 ^ 30 -> Forall good_msg ms ->
  (forall p, ~ In p (map snd (entries t)) -> w_fs (WritePiece w ms) p = w_fs w p) /\
  forall k len p o, nth_error (entries t) k = Some (len, p) -> 0 <= o ->
    (o < zlen (contents (w_fs (WritePiece w ms)) p) <-> o < zlen (contents (w_fs w) p) \/
       exists m, In m ms /\ covered (map fst (entries t)) k o (fst (block_write (t_plen t) m)) (zlen (snd (block_write (t_plen t) m)))).
Proof.
  induction ms as [|m ms IH]; intros w HS HK Ho Hp Hl HG; cbn [WritePiece].
  - split; [auto|]. intros. split; [auto|]. intros [H'|(m & [] & _)]; exact H'.
  - rewrite Hp. inversion HG as [|? ? G1 G2]; subst. pose proof (same_entries _ _ HS) as Ee.
    assert (El : t_plen (w_t w) = t_plen t) by apply HS. assert (HK' : multi_ok (w_t w)) by (eapply same_multi; eauto).
    destruct (write_one_mark w m (or_introl HK') Ho Hp ltac:(lia) G1) as (A & B & _).
    assert (X : (forall p, ~ In p (map snd (entries t)) -> w_fs (write_one w m) p = w_fs w p) /\
      extends (entries t) (w_fs w) (w_fs (write_one w m)) (fst (block_write (t_plen t) m)) (zlen (snd (block_write (t_plen t) m)))).
    { destruct G1 as [Hw [d Hd]]. unfold block_write. rewrite Hd. cbn [fst snd]. unfold write_one. rewrite Hd, Ho, El. destruct (pos_nowrap _ _ Hl Hw) as [-> Hr].
      destruct (write_all (w_t w) (w_fs w) _ d HK' Hr) as (f' & st & E & [W _] & X & _). rewrite E. rewrite Ee in W, X. destruct st; auto. }
    destruct X as [X1 X2].
    destruct (IH (write_one w m)) as [Y1 Y2]; auto; [eapply same_layout_trans; [exact HS|apply write_one_layout]|]. split.
    + intros p Hn. rewrite Y1 by exact Hn. auto.
    + intros k len p o Hk Ho'. rewrite (Y2 k len p o Hk Ho'), (X2 k len p o Hk Ho'). split.
      * intros [[H|H]|(x & H1 & H2)]; [auto|right; exists m; cbn; auto|right; exists x; cbn; auto].
      * intros [H|(x & [<-|H1] & H2)]; eauto.
Qed.
Lemma located_ex lens : forall k len o, nth_error lens k = Some len -> 0 <= o < len -> exists q, located lens q k o.
Proof.
  induction lens as [|l lens IH]; intros [|k] len o Hk Ho; cbn in Hk; try discriminate.
  - inversion Hk; subst. exists o. now apply loc_here.
  - destruct (IH k len o Hk Ho) as [q Hq]. exists (l + q). now apply loc_next.
Qed.
Lemma located_lt lens q k o : located lens q k o -> exists len, nth_error lens k = Some len /\ 0 <= o < len.
Proof. induction 1; cbn; eauto. Qed.

Lemma place_eq_dec (p q : place) : {p = q} + {p <> q}.
Proof. destruct (peq p q) eqn:E; [left; now apply peq_eq|right; intros ->; rewrite peq_refl in E; discriminate]. Defined.

Section order.
  Variables (cwd : place) (creat : bytes -> bool) (mk : bool) (f0 : fs) (mi : metainfo) (hash dir : bytes) (f1 : fs) (t : torrent).
  Hypothesis HN : New cwd creat mk f0 mi hash dir = (f1, Ok t).
  Hypothesis HD : NoDup (t_osfiles t).
  Hypothesis HL : Forall (fun n => 0 <= n < 2 ^ 63) (file_lengths mi).
  Hypothesis HP : 0 <= mi_piece_length mi < 2 ^ 30.
  Let plen := mi_piece_length mi.
  Let w0 := mkW t f1 [] [] false.

  Lemma order_kind : one_kind t.
  Proof.
    unfold file_lengths in HL. destruct (mi_length mi =? 0) eqn:E.
    - left. apply (new_multi_ok _ _ _ _ _ _ _ _ _ HN); [lia|exact HD|]. rewrite Forall_map in HL. exact HL.
    - right. destruct (new_single _ _ _ _ _ _ _ _ _ HN ltac:(lia)) as (h & E1 & E2 & _). split; [exact E2|]. eauto.
  Qed.
  Lemma order_plen : t_plen t = plen.
  Proof. apply (fresh_sets _ _ _ _ _ _ _ _ _ HN). Qed.

  Lemma order_same ms ms' : Forall (fun m => wire_msg m /\ exists d, data_of m = Ok d) ms -> (forall m, In m ms <-> In m ms') ->
    (forall m m' d d', In m ms -> In m' ms -> data_of m = Ok d -> data_of m' = Ok d' -> agree (block_of plen m d) (block_of plen m' d')) ->
    (forall p, contents (w_fs (WritePiece w0 ms)) p = contents (w_fs (WritePiece w0 ms')) p) /\
    t_downloaded (w_t (WritePiece w0 ms)) = t_downloaded (w_t (WritePiece w0 ms')) /\
    w_panic (WritePiece w0 ms) = false /\ w_panic (WritePiece w0 ms') = false.
  Proof.
    intros HG HI HA. change (Forall good_msg ms) in HG.
    assert (HG' : Forall good_msg ms'). { rewrite Forall_forall in *. intros m Hm. apply HG. now apply HI. }
    pose proof order_plen as EP. assert (Hl : 0 <= t_plen t < 2 ^ 30) by (rewrite EP; exact HP).
    destruct (WritePiece_marks t ms w0 (same_layout_refl t) order_kind eq_refl eq_refl Hl HG) as [M1 P1].
    destruct (WritePiece_marks t ms' w0 (same_layout_refl t) order_kind eq_refl eq_refl Hl HG') as [M2 P2].
    split; [|split; [rewrite M1, M2; now apply marks_set|auto]].
    assert (HB : forall b, In b (map (block_write (t_plen t)) ms) <-> In b (map (block_write (t_plen t)) ms')) by now apply map_set.
    assert (HA' : forall a c, In a (map (block_write (t_plen t)) ms) -> In c (map (block_write (t_plen t)) ms) -> agree a c).
    { intros a c Ha Hc. apply in_map_iff in Ha as (x & <- & Hx). apply in_map_iff in Hc as (y & <- & Hy). rewrite Forall_forall in HG.
      destruct (HG x Hx) as [_ [d Hd]], (HG y Hy) as [_ [d' Hd']]. unfold block_write. rewrite Hd, Hd', EP. exact (HA x y d d' Hx Hy Hd Hd'). }
    assert (HLt : forall q old, latest (map (block_write (t_plen t)) ms) q old = latest (map (block_write (t_plen t)) ms') q old) by (intros; now apply latest_set).
    intros p. destruct order_kind as [Hm|(Hi & h & hs & Eh)].
    - destruct (multi_lengths t ms w0 (same_layout_refl t) Hm eq_refl eq_refl Hl HG) as [N1 L1].
      destruct (multi_lengths t ms' w0 (same_layout_refl t) Hm eq_refl eq_refl Hl HG') as [N2 L2].
      destruct (WritePiece_data ms w0 Hm eq_refl eq_refl Hl HG) as (_ & B1).
      destruct (WritePiece_data ms' w0 Hm eq_refl eq_refl Hl HG') as (_ & B2).
      destruct (in_dec place_eq_dec p (map snd (entries t))) as [Hin|Hin]; [|unfold contents; rewrite N1, N2 by exact Hin; reflexivity].
      apply in_map_iff in Hin as ([len p'] & Ep & Hin). cbn in Ep. subst p'. apply In_nth_error in Hin as [k Hk].
      assert (Hsame : forall o, 0 <= o -> (o < zlen (contents (w_fs (WritePiece w0 ms)) p) <-> o < zlen (contents (w_fs (WritePiece w0 ms')) p))).
      { intros o Ho. rewrite (L1 k len p o Hk Ho), (L2 k len p o Hk Ho). apply or_iff_compat_l. split; intros (m & Hm' & Hc); exists m; split; auto; now apply HI. }
      apply same_bytes; [exact Hsame|]. intros o Ho. 
      assert (Hlen : o < len).
      { destruct (proj1 (L1 k len p o Hk ltac:(lia)) ltac:(lia)) as [C|(m & _ & o' & q & C1 & C2 & _)].
        - unfold w0 in C. cbn [w_fs] in C. rewrite (new_files_empty _ _ _ _ _ _ _ _ _ HN p) in C; [cbn in C; lia|].
          unfold entries in Hk. apply nth_error_In in Hk. apply in_combine_r in Hk. exact Hk.
        - apply located_lt in C2 as (len' & C2 & C3). rewrite nth_error_map, Hk in C2. cbn in C2. inversion C2; subst. lia. }
      destruct (located_ex (map fst (entries t)) k len o) as [q Hq]; [rewrite nth_error_map, Hk; reflexivity|lia|].
      change (t_plen (w_t w0)) with (t_plen t) in *. change (entries (w_t w0)) with (entries t) in *.
      rewrite (B1 k len p o q Hk ltac:(lia) Hq), (B2 k len p o q Hk ltac:(lia) Hq). apply HLt.
    - destruct (single_data ms w0 h hs Hi Eh eq_refl eq_refl Hl HG) as (_ & N1 & B1 & L1).
      destruct (single_data ms' w0 h hs Hi Eh eq_refl eq_refl Hl HG') as (_ & N2 & B2 & L2).
      change (t_plen (w_t w0)) with (t_plen t) in *.
      destruct (place_eq_dec p h) as [->|Hne]; [|unfold contents; rewrite N1, N2 by exact Hne; reflexivity].
      apply same_bytes; [|intros o Ho; rewrite B1, B2 by lia; apply HLt].
      intros o Ho. rewrite L1, L2.
      assert (G : forall l n, o < fold_left (fun n (wr : Z * bytes) => match snd wr with [] => n | _ => Z.max n (fst wr + zlen (snd wr)) end) l n <->
        o < n \/ exists b, In b l /\ snd b <> [] /\ o < fst b + zlen (snd b)).
      { clear. induction l as [|[q d] l IH]; intros n; cbn [fold_left].
        - split; [auto|]. intros [H|(b & [] & _)]; exact H.
        - rewrite IH. cbn [fst snd]. destruct d as [|x d].
          + split; (intros [H|(b & H1 & H2)]; [auto|]); [right; exists b; cbn; auto|]. destruct H1 as [<-|H1]; [now destruct H2|right; eauto].
          + split.
            * intros [H|(b & H1 & H2)]; [|right; exists b; cbn; auto]. destruct (Z.lt_ge_cases o n); [auto|]. right. exists (q, x :: d). cbn [fst snd In].
              split; [auto|]. split; [discriminate|]. rewrite zlen_cons in *. lia.
            * intros [H|(b & [<-|H1] & H2)]; [left; lia|left; cbn [fst snd] in H2; destruct H2; lia|right; eauto]. }
      rewrite !G. apply or_iff_compat_l. split; intros (b & Hb & Hc); exists b; split; auto; now apply HB.
  Qed.
End order.

(* two runs of the client *)
Lemma order_runs cwd creat mk f0 mi hash dir f1 t : New cwd creat mk f0 mi hash dir = (f1, Ok t) -> NoDup (t_osfiles t) ->
  Forall (fun n => 0 <= n < 2 ^ 63) (file_lengths mi) -> 0 <= mi_piece_length mi < 2 ^ 30 ->
  forall sha1 l l' w w' tr tr',
  run sha1 l (start (mkW t f1 [] [] false)) = (w, tr) -> run sha1 l' (start (mkW t f1 [] [] false)) = (w', tr') ->
  held w = [] -> sh_ch (wo_sh w) = [] -> held w' = [] -> sh_ch (wo_sh w') = [] ->
  (forall m, In m (handed tr) <-> In m (handed tr')) ->
  Forall (fun m => wire_msg m /\ exists d, data_of m = Ok d) (handed tr) ->
  (forall m m' d d', In m (handed tr) -> In m' (handed tr) -> data_of m = Ok d -> data_of m' = Ok d' ->
     agree (block_of (mi_piece_length mi) m d) (block_of (mi_piece_length mi) m' d')) ->
  (forall p, contents (w_fs (sh_w (wo_sh w))) p = contents (w_fs (sh_w (wo_sh w'))) p) /\
  t_downloaded (sh_t (wo_sh w)) = t_downloaded (sh_t (wo_sh w')).
Proof.
  intros HN HD HL HP sha1 l l' w w' tr tr' HR HR' A B A' B' HI HG HA.
  destruct (writer_run _ _ _ _ _ HR) as [HS HH], (writer_run _ _ _ _ _ HR') as [HS' HH'].
  rewrite A, B in HH. cbn [app] in HH. rewrite app_nil_r in HH. rewrite A', B' in HH'. cbn [app] in HH'. rewrite app_nil_r in HH'. rewrite HH, HH' in HI. rewrite HH in HG, HA.
  destruct (order_same _ _ _ _ _ _ _ _ _ HN HD HL HP _ _ HG HI HA) as (O1 & O2 & _).
  destruct HS as (_ & S1 & S2 & _), HS' as (_ & S1' & S2' & _). unfold sh_t. rewrite S1, S1', S2, S2'. auto.
Qed.
