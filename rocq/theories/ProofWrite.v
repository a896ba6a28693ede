(* Proofs about writing piece data (ModelTorrent.writePieceData, WritePiece).  *)
From Verif Require Import Base ProofBase SpecPath SpecTorrent ModelPath ModelBitset ModelMsg ModelTorrent ProofConn.

Lemma peq_eq a : forall b, peq a b = true <-> a = b.
Proof.
  induction a as [|x a IH]; intros [|y b]; cbn; try (split; congruence).
  rewrite andb_true_iff, beq_eq, IH. split; [intros [-> ->]; auto|intros H; inversion H; auto].
Qed.
Lemma peq_refl a : peq a a = true. Proof. now apply peq_eq. Qed.
Lemma peq_neq a b : a <> b -> peq a b = false.
Proof. intros H. destruct (peq a b) eqn:E; [apply peq_eq in E; congruence|auto]. Qed.

Definition contents (f : fs) (p : place) : bytes := match f p with Some c => c | None => [] end.
Lemma contents_put f p c q : contents (fs_put f p c) q = if peq p q then c else contents f q.
Proof. unfold contents, fs_put. destruct (peq p q); reflexivity. Qed.

(* ---------- pwrite ---------- *)
Lemma nth_app_z (l1 l2 : bytes) o : 0 <= o -> byte_at (l1 ++ l2) o = if o <? zlen l1 then byte_at l1 o else byte_at l2 (o - zlen l1).
Proof.
  intros Ho. unfold byte_at, zlen. destruct (o <? Z.of_nat (length l1)) eqn:E.
  - apply app_nth1. lia.
  - rewrite app_nth2 by lia. f_equal. lia.
Qed.
Lemma nth_repeat0 k o : nth o (repeat 0 k) 0 = 0.
Proof. revert o; induction k; intros [|o]; cbn; auto. Qed.
Lemma nth_firstn' {A} (l : list A) d : forall n o, (o < n)%nat -> nth o (firstn n l) d = nth o l d.
Proof. induction l as [|x l IH]; intros [|n] [|o] H; cbn; auto; try lia. apply IH. lia. Qed.
Lemma nth_skipn' {A} (l : list A) d : forall n o, nth o (skipn n l) d = nth (n + o) l d.
Proof. induction l as [|x l IH]; intros [|n] o; cbn; auto. destruct o; auto. Qed.

Lemma byte_pwrite c off d o : 0 <= off -> 0 <= o ->
  byte_at (pwrite c off d) o = if (off <=? o) && (o <? off + zlen d) then byte_at d (o - off) else byte_at c o.
Proof.
  intros Hf Ho. destruct d as [|x d]; cbn [pwrite].
  - rewrite zlen_nil. replace ((off <=? o) && (o <? off + 0)) with false by lia. reflexivity.
  - set (D := x :: d). clearbody D. clear x d.
    set (pre := firstn (Z.to_nat off) (c ++ repeat 0 (Z.to_nat off - length c))).
    assert (L : zlen pre = off).
    { unfold pre, zlen. rewrite firstn_length, app_length, repeat_length. lia. }
    rewrite nth_app_z by auto. rewrite L. destruct (o <? off) eqn:E1.
    + replace ((off <=? o) && _) with false by lia. unfold byte_at, pre. rewrite nth_firstn' by lia.
      destruct (Nat.lt_ge_cases (Z.to_nat o) (length c)).
      * now rewrite app_nth1.
      * rewrite app_nth2 by auto. rewrite nth_repeat0. symmetry. apply nth_overflow. lia.
    + rewrite nth_app_z by lia. destruct (o - off <? zlen D) eqn:E2.
      * replace ((off <=? o) && _) with true by lia. reflexivity.
      * replace ((off <=? o) && _) with false by lia. unfold byte_at. rewrite nth_skipn'. f_equal. unfold zlen in *. lia.
Qed.
Lemma pwrite_len c off d : 0 <= off ->
  zlen (pwrite c off d) = match d with [] => zlen c | _ => Z.max (zlen c) (off + zlen d) end.
Proof.
  intros H. destruct d as [|x d]; [reflexivity|]. cbn [pwrite]. unfold zlen.
  rewrite !app_length, firstn_length, app_length, repeat_length, skipn_length. lia.
Qed.

(* ---------- the effect of a write ---------- *)
Definition written (files : list (Z * place)) (f f' : fs) (pos : Z) (d : bytes) : Prop :=
  (forall q, ~ In q (map snd files) -> f' q = f q) /\
  forall k len p o, nth_error files k = Some (len, p) -> 0 <= o ->
    (forall q, located (map fst files) q k o -> pos <= q < pos + zlen d -> byte_at (contents f' p) o = byte_at d (q - pos)) /\
    ((forall q, located (map fst files) q k o -> ~ pos <= q < pos + zlen d) -> byte_at (contents f' p) o = byte_at (contents f p) o).

Definition bounded_len (files : list (Z * place)) (f f' : fs) : Prop :=
  forall len p, In (len, p) files -> zlen (contents f p) <= zlen (contents f' p) <= Z.max (zlen (contents f p)) len.

Lemma located_nonneg ls q k o : Forall (fun l => 0 <= l) ls -> located ls q k o -> 0 <= q < total ls.
Proof.
  intros Hl H. induction H; inversion Hl; subst; cbn [total fold_right].
  - assert (0 <= fold_right Z.add 0 ls) by (clear -H3; induction H3; cbn; lia). lia.
  - specialize (IHlocated H3). unfold total in *. lia.
Qed.
Lemma total_nonneg ls : Forall (fun l => 0 <= l) ls -> 0 <= total ls.
Proof. intros H; induction H; cbn; unfold total in *; lia. Qed.

Lemma written_nil_data files f pos : written files f f pos [].
Proof.
  split; [auto|]. intros k len p o Hk Ho. split.
  - intros q _ Hq. rewrite zlen_nil in Hq. lia.
  - auto.
Qed.
Lemma bounded_refl files f : (forall l p, In (l, p) files -> 0 <= l) -> bounded_len files f f.
Proof. intros H len p Hin. lia. Qed.

Lemma byte_sub (d : bytes) a b o : 0 <= a -> 0 <= o < b - a -> byte_at (sub d a b) o = byte_at d (a + o).
Proof.
  intros Ha Ho. unfold byte_at, sub. rewrite nth_firstn' by lia. rewrite nth_skipn'. f_equal. lia.
Qed.

Lemma writeat_cases f outs h d off : 0 <= off ->
  exists m outs' st, WriteAt f outs h d off = (fs_put f h (pwrite (contents f h) off (sub d 0 m)), outs', st) /\ 0 <= m <= zlen d /\
    ((st = WOk /\ m = zlen d) \/ exists e, st = WErr e) /\ (outs = [] -> st = WOk /\ outs' = []).
Proof.
  intros H. unfold WriteAt. replace (off <? 0) with false by lia. fold (contents f h).
  assert (Ea : sub d 0 (zlen d) = d).
  { unfold sub. cbn [skipn]. rewrite Z.sub_0_r. unfold zlen. change (Z.to_nat 0) with 0%nat. cbn [skipn]. rewrite Nat2Z.id. apply firstn_all. }
  destruct outs as [|[k|] outs'].
  - exists (zlen d), [], WOk. rewrite Ea. split; [reflexivity|]. split; [pose proof (zlen_nonneg d); lia|]. split; auto.
  - exists (Z.min (Z.max 0 k) (zlen d)), outs', (WErr "io"%string). split.
    + f_equal. f_equal. f_equal. f_equal. unfold sub. change (Z.to_nat 0) with 0%nat. cbn [skipn]. rewrite Z.sub_0_r.
      destruct (Z.le_ge_cases (Z.max 0 k) (zlen d)).
      * rewrite Z.min_l by auto. f_equal. lia.
      * rewrite Z.min_r by auto. unfold zlen in *. rewrite Nat2Z.id, firstn_all. apply firstn_all2. lia.
    + split; [pose proof (zlen_nonneg d); lia|]. split; [right; eauto|discriminate].
  - exists (zlen d), outs', WOk. rewrite Ea. split; [reflexivity|]. split; [pose proof (zlen_nonneg d); lia|]. split; [auto|discriminate].
Qed.

Lemma sub_sub_0 (d : bytes) a b : 0 <= a <= b -> sub (sub d 0 b) 0 a = sub d 0 a.
Proof.
  intros H. unfold sub. change (Z.to_nat 0) with 0%nat. cbn [skipn]. rewrite !Z.sub_0_r. rewrite firstn_firstn. f_equal. lia.
Qed.

(* one file, then the rest *)
Lemma written_cons len h r f f1 f' pos d m :
  NoDup (map snd ((len, h) :: r)) -> 0 <= pos <= len ->
  Forall (fun l => 0 <= l) (map fst r) ->
  let w := Z.min (len - pos) (zlen d) in
  f1 = fs_put f h (pwrite (contents f h) pos (sub d 0 (Z.min w m))) -> 0 <= m <= zlen d ->
  written r f1 f' 0 (sub (sub d 0 m) w m) ->
  written ((len, h) :: r) f f' pos (sub d 0 m).
Proof.
  intros Hnd Hpos Hr w Hf1 Hm Hw. subst w. set (w := Z.min (len - pos) (zlen d)) in *.
  cbn [map snd] in Hnd. inversion Hnd as [|? ? Hh Hnd']; subst.
  assert (Lm : zlen (sub d 0 m) = m) by (rewrite sub_length; lia).
  assert (Lw : zlen (sub d 0 (Z.min w m)) = Z.min w m) by (rewrite sub_length; unfold w; lia).
  destruct Hw as [W1 W2]. split.
  - intros q Hq. cbn [map snd In] in Hq. rewrite W1 by tauto. unfold fs_put. rewrite peq_neq; tauto.
  - intros k l p o Hk Ho. rewrite Lm. destruct k as [|k]; cbn [nth_error] in Hk.
    + inversion Hk; subst l p. clear Hk.
      assert (Ef : contents f' h = pwrite (contents f h) pos (sub d 0 (Z.min w m))).
      { unfold contents at 1. rewrite W1 by auto. unfold fs_put. now rewrite peq_refl. }
      rewrite Ef, byte_pwrite by lia. rewrite Lw. split.
      * intros q Hl Hq. inversion Hl; subst.
        replace ((pos <=? o) && (o <? pos + Z.min w m)) with true by (unfold w; lia).
        rewrite !byte_sub by (unfold w; lia). reflexivity.
      * intros Hno. destruct ((pos <=? o) && (o <? pos + Z.min w m)) eqn:E; [|reflexivity].
        exfalso. apply (Hno o); [apply loc_here; cbn [fst]; unfold w in E; lia|]. unfold w in E. lia.
    + destruct (W2 k l p o Hk Ho) as [A B]. split.
      * intros q Hl Hq. inversion Hl; subst. rename q0 into q'.
        match goal with H : located (map fst r) _ k o |- _ => rename H into Hl' end.
        pose proof (located_nonneg _ _ _ _ Hr Hl').
        assert (Hw : w = len - pos) by (unfold w in *; lia).
        rewrite (A q' Hl').
        -- rewrite Z.sub_0_r. rewrite !byte_sub by lia. f_equal. lia.
        -- rewrite (sub_length (sub d 0 m)) by (rewrite ?Lm; lia). lia.
      * intros Hno. rewrite B.
        -- rewrite contents_put. rewrite peq_neq; [reflexivity|]. intros <-. apply Hh.
           apply nth_error_In in Hk. apply (in_map snd) in Hk. exact Hk.
        -- intros q' Hl' Hq'. destruct (Z.le_gt_cases m w) as [C|C].
           { assert (zlen (sub (sub d 0 m) w m) <= 0) by (unfold sub, zlen; rewrite firstn_length; lia). lia. }
           rewrite (sub_length (sub d 0 m)) in Hq' by (rewrite ?Lm; unfold w in *; lia).
           apply (Hno (len + q')); [now apply loc_next|]. unfold w in *. lia.
Qed.

Lemma sub_empty {A} (l : list A) a b : b <= a -> sub l a b = [].
Proof. intros H. unfold sub. replace (Z.to_nat (b - a)) with 0%nat by lia. reflexivity. Qed.
Lemma sub_tail (d : bytes) w m2 : 0 <= w -> 0 <= m2 -> w + m2 <= zlen d ->
  sub (sub d 0 (w + m2)) w (w + m2) = sub (sub d w (zlen d)) 0 m2.
Proof.
  intros H1 H2 H3. unfold sub. change (Z.to_nat 0) with 0%nat. cbn [skipn]. rewrite !Z.sub_0_r.
  rewrite skipn_firstn_comm. rewrite !firstn_firstn. f_equal. unfold zlen in *. lia.
Qed.

Definition sizes_ok (files : list (Z * place)) : Prop := Forall (fun e => 0 <= fst e < 2 ^ 63) files.
Lemma sizes_nonneg files : sizes_ok files -> Forall (fun l => 0 <= l) (map fst files).
Proof. intros H. induction H; cbn; constructor; auto; lia. Qed.

Lemma bounded_cons len h r f f' c1 : NoDup (map snd ((len, h) :: r)) -> 0 <= len ->
  zlen (contents f h) <= zlen c1 <= Z.max (zlen (contents f h)) len ->
  (forall q, ~ In q (map snd r) -> f' q = fs_put f h c1 q) -> bounded_len r (fs_put f h c1) f' ->
  bounded_len ((len, h) :: r) f f'.
Proof.
  intros Hnd Hl Hc Hq Hb l p [E|Hin]; cbn [map snd] in Hnd; inversion Hnd; subst.
  - inversion E; subst. assert (Ec : contents f' p = c1).
    { unfold contents. rewrite Hq by auto. unfold fs_put. now rewrite peq_refl. }
    rewrite Ec. exact Hc.
  - specialize (Hb l p Hin). rewrite contents_put in Hb. rewrite peq_neq in Hb; [exact Hb|].
    intros <-. apply (in_map snd) in Hin. auto.
Qed.

Lemma write_loop_spec files : forall f outs pos data, NoDup (map snd files) -> sizes_ok files ->
  match files with (len, _) :: _ => 0 <= pos <= len | [] => pos = 0 end ->
  exists f' outs' st m, write_loop f outs files pos data = (f', outs', st) /\ 0 <= m <= zlen data /\
    written files f f' pos (sub data 0 m) /\ bounded_len files f f' /\ st <> WPanic /\
    (st = WOk -> m = zlen data /\ (data = [] \/ pos + zlen data <= total (map fst files))) /\
    (outs = [] -> m = zlen data /\ (pos + zlen data <= total (map fst files) -> st = WOk)).
Proof.
  induction files as [|[len h] r IH]; intros f outs pos data Hnd Hs Hpos.
  - pose proof (zlen_nonneg data). destruct data as [|x d].
    + exists f, outs, WOk, 0. cbn. repeat split; auto; try lia; try discriminate; try (intros; destruct k; discriminate).
    + exists f, outs, (WErr "data extends beyond torrent files"%string), (zlen (x :: d)). cbn [write_loop map].
      split; [reflexivity|]. split; [lia|]. split; [|split; [|split; [|split]]].
      * split; [auto|]. intros [|k]; discriminate.
      * intros l p [].
      * discriminate.
      * discriminate.
      * intros _. split; [reflexivity|]. cbn [total fold_right]. rewrite zlen_cons. pose proof (zlen_nonneg d). lia.
  - pose proof (zlen_nonneg data) as Hn. inversion Hs as [|? ? Hlen Hs']; subst. cbn [fst] in Hlen.
    pose proof (sizes_nonneg _ Hs') as Hr. pose proof (total_nonneg _ Hr) as Ht.
    assert (Hnil : data = [] -> exists f' outs' st m, write_loop f outs ((len, h) :: r) pos data = (f', outs', st) /\ 0 <= m <= zlen data /\
      written ((len, h) :: r) f f' pos (sub data 0 m) /\ bounded_len ((len, h) :: r) f f' /\ st <> WPanic /\
      (st = WOk -> m = zlen data /\ (data = [] \/ pos + zlen data <= total (map fst ((len, h) :: r)))) /\
      (outs = [] -> m = zlen data /\ (pos + zlen data <= total (map fst ((len, h) :: r)) -> st = WOk))).
    { intros ->. exists f, outs, WOk, 0. cbn [write_loop]. split; [reflexivity|]. split; [cbn; lia|].
      split; [change (sub [] 0 0) with (@nil Z); apply written_nil_data|].
      split; [|split; [discriminate|split; auto]].
      apply bounded_refl. intros l p Hin. unfold sizes_ok in Hs. rewrite Forall_forall in Hs. apply Hs in Hin. cbn in Hin. lia. }
    destruct data as [|x d0]; [apply Hnil; reflexivity|]. clear Hnil.
    set (data := x :: d0) in *.
    assert (Hunf : forall f outs, write_loop f outs ((len, h) :: r) pos data =
      (let available := wrap64 (len - pos) in
          let toWrite := if available <? zlen data then available else zlen data in
          if toWrite <? 0 then (f, outs, WPanic)
          else
            let '(f', outs', st) := WriteAt f outs h (sub data 0 toWrite) pos in
            match st with
            | WOk => write_loop f' outs' r 0 (sub data toWrite (zlen data))
            | _ => (f', outs', st)
            end)) by reflexivity.
    assert (Hne : data <> []) by discriminate. clearbody data. clear x d0.
    rewrite Hunf. cbv zeta. clear Hunf. rewrite wrap64_small by lia.
    set (w := Z.min (len - pos) (zlen data)).
    replace (if len - pos <? zlen data then len - pos else zlen data) with w by (unfold w; destruct (len - pos <? zlen data) eqn:E; lia).
    assert (Hw : 0 <= w <= zlen data) by (unfold w; lia).
    replace (w <? 0) with false by lia.
    assert (L1 : zlen (sub data 0 w) = w) by (rewrite sub_length; lia).
    destruct (writeat_cases f outs h (sub data 0 w) pos ltac:(lia)) as (m1 & outs1 & st1 & E1 & Hm1 & Hst & Ho).
    rewrite L1 in Hm1, Hst. rewrite sub_sub_0 in E1 by lia. rewrite E1.
    set (c1 := pwrite (contents f h) pos (sub data 0 m1)) in *.
    assert (Lm1 : zlen (sub data 0 m1) = m1) by (rewrite sub_length; lia).
    assert (Lc : zlen (contents f h) <= zlen c1 <= Z.max (zlen (contents f h)) len).
    { unfold c1. rewrite pwrite_len by lia. destruct (sub data 0 m1) eqn:Ed; [lia|]. rewrite Lm1. unfold w in Hm1. lia. }
    destruct Hst as [[-> Em]|[e ->]].
    + destruct (IH (fs_put f h c1) outs1 0 (sub data w (zlen data))) as (f' & outs' & st & m2 & E2 & Hm2 & Hwr & Hbd & Hp & Hok & Hout).
      { cbn [map snd] in Hnd. now inversion Hnd. }
      { exact Hs'. }
      { destruct r as [|[l2 h2] r']; [reflexivity|]. inversion Hs'; subst. cbn in *. lia. }
      rewrite E2. assert (L2 : zlen (sub data w (zlen data)) = zlen data - w) by (rewrite sub_length; lia).
      rewrite L2 in Hm2, Hok, Hout. exists f', outs', st, (w + m2). split; [reflexivity|]. split; [lia|].
      split; [|split; [|split; [exact Hp|split]]].
      * eapply written_cons with (f1 := fs_put f h c1); auto; try lia.
        -- unfold c1. f_equal. f_equal. f_equal. fold w. lia.
        -- fold w. rewrite sub_tail by lia. exact Hwr.
      * apply bounded_cons with (c1 := c1); auto; try lia. destruct Hwr as [Hq _]. exact Hq.
      * intros Est. destruct (Hok Est) as [Hm Hf]. split; [lia|]. right. cbn [map fst total fold_right].
        change (fold_right Z.add 0 (map fst r)) with (total (map fst r)).
        destruct Hf as [Hf|Hf].
        -- assert (zlen data - w = 0) by (rewrite <- L2, Hf; reflexivity). unfold w in *. lia.
        -- unfold w in *. lia.
      * intros ->. destruct (Ho eq_refl) as [_ ->]. destruct (Hout eq_refl) as [Hm Hf]. split; [lia|].
        cbn [map fst total fold_right]. change (fold_right Z.add 0 (map fst r)) with (total (map fst r)).
        intros Hfit. destruct (Z.eq_dec (zlen data) w) as [Ez|Ez]; [|apply Hf; unfold w in *; lia].
        apply Hf. lia.
    + exists (fs_put f h c1), outs1, (WErr e), m1. split; [reflexivity|]. split; [lia|].
      split; [|split; [|split; [discriminate|split; [discriminate|]]]].
      * eapply written_cons with (f1 := fs_put f h c1); auto; try lia.
        -- unfold c1. f_equal. f_equal. f_equal. fold w. lia.
        -- fold w. rewrite (sub_empty (sub data 0 m1)) by lia. apply written_nil_data.
      * apply bounded_cons with (c1 := c1); auto; try lia. apply bounded_refl.
        intros l p Hin. unfold sizes_ok in Hs'. rewrite Forall_forall in Hs'. apply Hs' in Hin. cbn in Hin. lia.
      * intros ->. destruct (Ho eq_refl) as [C _]. discriminate.
Qed.

Lemma written_skip len h r f f' pos d : ~ In h (map snd r) -> 0 <= len <= pos ->
  written r f f' (pos - len) d -> written ((len, h) :: r) f f' pos d.
Proof.
  intros Hh Hp [W1 W2]. split.
  - intros q Hq. cbn [map snd In] in Hq. apply W1. tauto.
  - intros k l p o Hk Ho. destruct k as [|k]; cbn [nth_error] in Hk.
    + inversion Hk; subst. split.
      * intros q Hl Hq. inversion Hl; subst. lia.
      * intros _. unfold contents. now rewrite W1.
    + destruct (W2 k l p o Hk Ho) as [A B]. split.
      * intros q Hl Hq. inversion Hl; subst. rename q0 into q'. cbn [fst] in *. rewrite (A q') by (auto; lia). f_equal. lia.
      * intros Hno. apply B. intros q' Hl Hq. apply (Hno (len + q')); [now apply loc_next|lia].
Qed.

Lemma multi_spec files : forall f outs pos data, NoDup (map snd files) -> sizes_ok files -> 0 <= pos < 2 ^ 63 ->
  exists f' outs' st m,
    match find_file files pos with
    | None => (f, outs, WErr "piece position beyond all torrent files"%string)
    | Some (pos', fl) => write_loop f outs fl pos' data
    end = (f', outs', st) /\ 0 <= m <= zlen data /\
    written files f f' pos (sub data 0 m) /\ bounded_len files f f' /\ st <> WPanic /\
    (st = WOk -> m = zlen data /\ pos < total (map fst files) /\ pos + zlen data <= total (map fst files)) /\
    (outs = [] -> m = zlen data /\ (pos < total (map fst files) -> pos + zlen data <= total (map fst files) -> st = WOk)).
Proof.
  induction files as [|[len h] r IH]; intros f outs pos data Hnd Hs Hpos; pose proof (zlen_nonneg data).
  - cbn [find_file]. do 3 eexists. exists (zlen data). split; [reflexivity|]. split; [lia|]. split; [|split; [|split; [discriminate|split; [discriminate|]]]].
    + split; [auto|]. intros [|k]; discriminate.
    + intros l p [].
    + cbn. intros _. split; [auto|lia].
  - inversion Hs as [|? ? Hlen Hs']; subst. cbn [fst] in Hlen. pose proof (total_nonneg _ (sizes_nonneg _ Hs')) as Ht.
    cbn [find_file map fst]. cbn [total fold_right]. change (fold_right Z.add 0 (map fst r)) with (total (map fst r)).
    destruct (pos <? len) eqn:E.
    + destruct (write_loop_spec ((len, h) :: r) f outs pos data Hnd Hs (ltac:(lia) : 0 <= pos <= len)) as (f' & outs' & st & m & E1 & Hm & W & B & P & K & O).
      exists f', outs', st, m. repeat (split; [assumption|]). cbn [map fst total fold_right] in K, O.
      change (fold_right Z.add 0 (map fst r)) with (total (map fst r)) in K, O. split.
      * intros Es. destruct (K Es) as [K1 K2]. split; [auto|]. split; [lia|]. destruct K2 as [->|]; [cbn; lia|auto].
      * intros Eo. destruct (O Eo) as [O1 O2]. auto.
    + rewrite wrap64_small by lia. cbn [map snd] in Hnd. inversion Hnd; subst.
      destruct (IH f outs (pos - len) data) as (f' & outs' & st & m & E1 & Hm & W & B & P & K & O); auto; [lia|].
      exists f', outs', st, m. split; [exact E1|]. split; [exact Hm|]. split; [apply written_skip; [assumption|lia|assumption]|]. split; [|split; [exact P|split]].
      * intros l p [Ein|Hin]; [|apply B; auto]. inversion Ein; subst. destruct W as [W _]. unfold contents. rewrite W by auto. lia.
      * intros Es. destruct (K Es) as (K1 & K2 & K3). repeat split; auto; lia.
      * intros Eo. destruct (O Eo) as (O1 & O2). split; [auto|]. intros. apply O2; lia.
Qed.

(* ---------- torrents ---------- *)
Definition multi_ok (t : torrent) : Prop := t_isdir t = true /\ NoDup (map snd (entries t)) /\ sizes_ok (entries t).

Lemma write_piece_spec t f outs pos data : multi_ok t -> 0 <= pos < 2 ^ 63 ->
  exists f' outs' st m, writePieceData f outs t data pos = (f', outs', st) /\ 0 <= m <= zlen data /\
    written (entries t) f f' pos (sub data 0 m) /\ bounded_len (entries t) f f' /\ st <> WPanic /\
    (st = WOk -> m = zlen data /\ pos < total (map fst (entries t)) /\ pos + zlen data <= total (map fst (entries t))) /\
    (outs = [] -> m = zlen data /\ (pos < total (map fst (entries t)) -> pos + zlen data <= total (map fst (entries t)) -> st = WOk)).
Proof.
  intros (Hd & Hnd & Hs) Hp. unfold writePieceData. rewrite Hd. cbn [negb]. now apply multi_spec.
Qed.

(* every write made while all I/O succeeds *)
Lemma write_exact t f pos data : multi_ok t -> 0 <= pos < 2 ^ 63 ->
  exists f' outs' st, writePieceData f [] t data pos = (f', outs', st) /\ written (entries t) f f' pos data /\
    (st = WOk <-> pos < total (map fst (entries t)) /\ pos + zlen data <= total (map fst (entries t))) /\ st <> WPanic.
Proof.
  intros Ht Hp. destruct (write_piece_spec t f [] pos data Ht Hp) as (f' & o' & st & m & E & Hm & W & B & P & K & O).
  exists f', o', st. destruct (O eq_refl) as [-> O2]. split; [exact E|]. split; [|split; [|exact P]].
  - assert (Ea : sub data 0 (zlen data) = data).
    { unfold sub. change (Z.to_nat 0) with 0%nat. cbn [skipn]. rewrite Z.sub_0_r. unfold zlen. rewrite Nat2Z.id. apply firstn_all. }
    now rewrite Ea in W.
  - split; [intros Es; destruct (K Es) as (_ & K1 & K2); auto|intros [K1 K2]; auto].
Qed.

(* ---------- WritePiece histories ---------- *)
(* the parts of a torrent that WritePiece never changes *)
Definition same_layout (t t' : torrent) : Prop :=
  t_plen t' = t_plen t /\ t_files t' = t_files t /\ t_osfiles t' = t_osfiles t /\ t_isdir t' = t_isdir t /\ t_pnum t' = t_pnum t /\ t_length t' = t_length t.
Lemma same_layout_refl t : same_layout t t. Proof. repeat split. Qed.
Lemma same_layout_trans a b c : same_layout a b -> same_layout b c -> same_layout a c.
Proof. unfold same_layout. intuition congruence. Qed.
Lemma same_entries t t' : same_layout t t' -> entries t' = entries t.
Proof. intros (_ & H1 & H2 & _). unfold entries. now rewrite H1, H2. Qed.
Lemma same_multi t t' : same_layout t t' -> multi_ok t -> multi_ok t'.
Proof. intros H (A & B & C). pose proof (same_entries _ _ H) as E. unfold multi_ok. rewrite E. destruct H as (_ & _ & _ & -> & _). auto. Qed.

Lemma write_one_layout w m : same_layout (w_t w) (w_t (write_one w m)).
Proof.
  unfold write_one. destruct (data_of m); try apply same_layout_refl.
  destruct (writePieceData _ _ _ _ _) as [[f' o'] st]. destruct st; cbn; try apply same_layout_refl.
  destruct (_ =? _); [repeat split|apply same_layout_refl].
Qed.
Lemma WritePiece_layout ms : forall w, same_layout (w_t w) (w_t (WritePiece w ms)).
Proof.
  induction ms as [|m ms IH]; intros w; cbn; [apply same_layout_refl|]. destruct (w_panic w); [apply same_layout_refl|].
  eapply same_layout_trans; [apply write_one_layout|apply IH].
Qed.

(* messages as decoded from the network *)
Definition wire_msg (m : msg) : Prop := 0 <= m_index m < 2 ^ 32 /\ 0 <= m_offset m < 2 ^ 32.
