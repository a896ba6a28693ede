(* The lengths of the files after a write.                                     *)
From Verif Require Import Base ProofBase SpecPath SpecTorrent ModelPath ModelBitset ModelMsg ModelTorrent ProofConn ProofTorrent ProofPath ProofWrite.

(* position o of file k is at or before a position that was written *)
Definition covered (lens : list Z) (k : nat) (o pos m : Z) : Prop :=
  exists o' q, o <= o' /\ located lens q k o' /\ pos <= q < pos + m.
(* a file grows exactly up to the last byte written into it *)
Definition extends (files : list (Z * place)) (f f' : fs) (pos m : Z) : Prop :=
  forall k len p o, nth_error files k = Some (len, p) -> 0 <= o ->
    (o < zlen (contents f' p) <-> o < zlen (contents f p) \/ covered (map fst files) k o pos m).

Lemma extends_none files f pos m : m <= 0 -> extends files f f pos m.
Proof. intros Hm k len p o Hk Ho. split; [auto|]. intros [H|(o' & q & _ & _ & H)]; [exact H|lia]. Qed.

Lemma extends_cons len h r f f1 f' pos d m :
  NoDup (map snd ((len, h) :: r)) -> 0 <= pos <= len ->
  Forall (fun l => 0 <= l) (map fst r) ->
  let w := Z.min (len - pos) (zlen d) in
  f1 = fs_put f h (pwrite (contents f h) pos (sub d 0 (Z.min w m))) -> 0 <= m <= zlen d ->
  (forall q, ~ In q (map snd r) -> f' q = f1 q) -> extends r f1 f' 0 (m - w) ->
  extends ((len, h) :: r) f f' pos m.
Proof.
  intros Hnd Hpos Hr w Hf1 Hm Hq HE. subst w. set (w := Z.min (len - pos) (zlen d)) in *.
  cbn [map snd] in Hnd. inversion Hnd as [|? ? Hh Hnd']; subst.
  assert (Lw : zlen (sub d 0 (Z.min w m)) = Z.min w m) by (rewrite sub_length; unfold w; lia).
  intros k l p o Hk Ho. cbn [map fst]. destruct k as [|k]; cbn [nth_error] in Hk.
  - inversion Hk; subst l p.
    assert (Ef : contents f' h = pwrite (contents f h) pos (sub d 0 (Z.min w m))).
    { unfold contents at 1. rewrite Hq by auto. unfold fs_put. now rewrite peq_refl. }
    rewrite Ef, pwrite_len by lia.
    assert (Hz : match sub d 0 (Z.min w m) with [] => zlen (contents f h) | _ => Z.max (zlen (contents f h)) (pos + zlen (sub d 0 (Z.min w m))) end =
                 if Z.min w m =? 0 then zlen (contents f h) else Z.max (zlen (contents f h)) (pos + Z.min w m)).
    { rewrite Lw. destruct (sub d 0 (Z.min w m)) eqn:E; [cbn in Lw; replace (Z.min w m =? 0) with true by lia; reflexivity|].
      rewrite zlen_cons in Lw. pose proof (zlen_nonneg l). replace (Z.min w m =? 0) with false by lia. reflexivity. }
    rewrite Hz. split.
    + intros H. destruct (Z.min w m =? 0) eqn:E; [auto|]. destruct (Z.lt_ge_cases o (zlen (contents f h))) as [C|C]; [auto|]. right.
      exists (pos + Z.min w m - 1), (pos + Z.min w m - 1). split; [lia|]. unfold w in *. split; [apply loc_here; lia|lia].
    + intros [H|(o' & q & H1 & H2 & H3)]; [destruct (Z.min w m =? 0); lia|]. inversion H2; subst. unfold w in *.
      destruct (Z.min (Z.min (len - pos) (zlen d)) m =? 0) eqn:E; lia.
  - specialize (HE k l p o Hk Ho). rewrite contents_put, peq_neq in HE.
    2:{ intros <-. apply Hh. apply nth_error_In in Hk. apply (in_map snd) in Hk. exact Hk. }
    rewrite HE. apply or_iff_compat_l. split.
    + intros (o' & q & H1 & H2 & H3). exists o', (len + q). split; [exact H1|]. split; [now apply loc_next|]. unfold w in *. lia.
    + intros (o' & q & H1 & H2 & H3). inversion H2; subst. rename q0 into q'.
      match goal with H : located (map fst r) _ k o' |- _ => rename H into Hl' end.
      pose proof (located_nonneg _ _ _ _ Hr Hl'). exists o', q'. split; [exact H1|]. split; [exact Hl'|]. unfold w in *. lia.
Qed.
Lemma extends_skip len h r f f' pos m : ~ In h (map snd r) -> 0 <= len <= pos -> Forall (fun l => 0 <= l) (map fst r) ->
  (forall q, ~ In q (map snd r) -> f' q = f q) -> extends r f f' (pos - len) m -> extends ((len, h) :: r) f f' pos m.
Proof.
  intros Hh Hp Hr Hq HE k l p o Hk Ho. cbn [map fst]. destruct k as [|k]; cbn [nth_error] in Hk.
  - inversion Hk; subst l p. unfold contents. rewrite Hq by exact Hh. split; [auto|]. intros [H|(o' & q & _ & H2 & H3)]; [exact H|].
    inversion H2; subst. lia.
  - rewrite (HE k l p o Hk Ho). apply or_iff_compat_l. split.
    + intros (o' & q & H1 & H2 & H3). exists o', (len + q). split; [exact H1|]. split; [now apply loc_next|lia].
    + intros (o' & q & H1 & H2 & H3). inversion H2; subst. exists o', q0. split; [exact H1|]. split; [assumption|lia].
Qed.

Lemma write_loop_len files : forall f outs pos data, NoDup (map snd files) -> sizes_ok files ->
  match files with (len, _) :: _ => 0 <= pos <= len | [] => pos = 0 end ->
  exists f' outs' st m, write_loop f outs files pos data = (f', outs', st) /\ 0 <= m <= zlen data /\
    written files f f' pos (sub data 0 m) /\ extends files f f' pos m /\
    (st = WOk -> m = zlen data /\ (data = [] \/ pos + zlen data <= total (map fst files))) /\ (outs = [] -> m = zlen data /\ outs' = []).
Proof.
  induction files as [|[len h] r IH]; intros f outs pos data Hnd Hs Hpos.
  - pose proof (zlen_nonneg data). destruct data as [|x d].
    + exists f, outs, WOk, 0. cbn [write_loop map]. split; [reflexivity|]. split; [cbn; lia|]. split; [apply written_nil_data|].
      split; [apply extends_none; lia|]. split; auto.
    + exists f, outs, (WErr "data extends beyond torrent files"%string), (zlen (x :: d)). cbn [write_loop map].
      split; [reflexivity|]. split; [lia|]. split; [split; [auto|]; intros [|k]; discriminate|]. split; [|split; [discriminate|auto]].
      intros [|k]; discriminate.
  - pose proof (zlen_nonneg data) as Hn. inversion Hs as [|? ? Hlen Hs']; subst. cbn [fst] in Hlen.
    pose proof (sizes_nonneg _ Hs') as Hr. pose proof (total_nonneg _ Hr) as Ht.
    destruct data as [|x d0].
    { exists f, outs, WOk, 0. cbn [write_loop]. split; [reflexivity|]. split; [cbn; lia|]. split; [apply written_nil_data|].
      split; [apply extends_none; lia|]. split; auto. }
    set (data := x :: d0) in *.
    assert (Hunf : forall f outs, write_loop f outs ((len, h) :: r) pos data =
      (let available := wrap64 (len - pos) in
          let toWrite := if available <? zlen data then available else zlen data in
          if toWrite <? 0 then (f, outs, WPanic)
          else
            let '(f', outs', st) := WriteAt f outs h (sub data 0 toWrite) pos in
            match st with
            | WOk => write_loop f' outs' r 0 (sub data toWrite (zlen data))
            | _ => (f', outs', st)
            end)) by reflexivity.
    assert (Hne : data <> []) by discriminate. clearbody data. clear x d0.
    rewrite Hunf. cbv zeta. clear Hunf. rewrite wrap64_small by lia.
    set (w := Z.min (len - pos) (zlen data)).
    replace (if len - pos <? zlen data then len - pos else zlen data) with w by (unfold w; destruct (len - pos <? zlen data) eqn:E; lia).
    assert (Hw : 0 <= w <= zlen data) by (unfold w; lia).
    replace (w <? 0) with false by lia.
    assert (L1 : zlen (sub data 0 w) = w) by (rewrite sub_length; lia).
    destruct (writeat_cases f outs h (sub data 0 w) pos ltac:(lia)) as (m1 & outs1 & st1 & E1 & Hm1 & Hst & Ho).
    rewrite L1 in Hm1, Hst. rewrite sub_sub_0 in E1 by lia. rewrite E1.
    set (c1 := pwrite (contents f h) pos (sub data 0 m1)) in *.
    destruct Hst as [[-> Em]|[e ->]].
    + destruct (IH (fs_put f h c1) outs1 0 (sub data w (zlen data))) as (f' & outs' & st & m2 & E2 & Hm2 & Hwr & Hex & Hok & Hout).
      { cbn [map snd] in Hnd. now inversion Hnd. }
      { exact Hs'. }
      { destruct r as [|[l2 h2] r']; [reflexivity|]. inversion Hs'; subst. cbn in *. lia. }
      rewrite E2. assert (L2 : zlen (sub data w (zlen data)) = zlen data - w) by (rewrite sub_length; lia).
      rewrite L2 in Hm2, Hok, Hout. exists f', outs', st, (w + m2). split; [reflexivity|]. split; [lia|].
      split; [|split; [|split]].
      * eapply written_cons with (f1 := fs_put f h c1); auto; try lia.
        -- unfold c1. f_equal. f_equal. f_equal. fold w. lia.
        -- fold w. rewrite sub_tail by lia. exact Hwr.
      * eapply extends_cons with (f1 := fs_put f h c1) (d := data); auto; try lia.
        -- unfold c1. f_equal. f_equal. f_equal. fold w. lia.
        -- destruct Hwr as [Hq _]. exact Hq.
        -- fold w. replace (w + m2 - w) with m2 by lia. exact Hex.
      * intros Est. destruct (Hok Est) as [Hm Hf]. split; [lia|]. right. cbn [map fst total fold_right].
        change (fold_right Z.add 0 (map fst r)) with (total (map fst r)).
        destruct Hf as [Hf|Hf].
        -- assert (zlen data - w = 0) by (rewrite <- L2, Hf; reflexivity). unfold w in *. lia.
        -- unfold w in *. lia.
      * intros ->. destruct (Ho eq_refl) as [_ ->]. destruct (Hout eq_refl). split; [lia|auto].
    + exists (fs_put f h c1), outs1, (WErr e), m1. split; [reflexivity|]. split; [lia|].
      split; [|split; [|split; [discriminate|]]].
      * eapply written_cons with (f1 := fs_put f h c1); auto; try lia.
        -- unfold c1. f_equal. f_equal. f_equal. fold w. lia.
        -- fold w. rewrite (sub_empty (sub data 0 m1)) by lia. apply written_nil_data.
      * eapply extends_cons with (f1 := fs_put f h c1) (d := data); auto; try lia.
        -- unfold c1. f_equal. f_equal. f_equal. fold w. lia.
        -- apply extends_none. fold w. lia.
      * intros ->. destruct (Ho eq_refl) as [C _]. discriminate.
Qed.

Lemma multi_len files : forall f outs pos data, NoDup (map snd files) -> sizes_ok files -> 0 <= pos < 2 ^ 63 ->
  exists f' outs' st m,
    match find_file files pos with
    | None => (f, outs, WErr "piece position beyond all torrent files"%string)
    | Some (pos', fl) => write_loop f outs fl pos' data
    end = (f', outs', st) /\ 0 <= m <= zlen data /\
    written files f f' pos (sub data 0 m) /\ extends files f f' pos m /\
    (st = WOk -> m = zlen data /\ pos + zlen data <= total (map fst files)) /\ (outs = [] -> m = zlen data /\ outs' = []).
Proof.
  induction files as [|[len h] r IH]; intros f outs pos data Hnd Hs Hpos; pose proof (zlen_nonneg data).
  - cbn [find_file]. do 3 eexists. exists (zlen data). split; [reflexivity|]. split; [lia|]. split; [|split; [|split; [discriminate|auto]]].
    + split; [auto|]. intros [|k]; discriminate.
    + intros [|k]; discriminate.
  - inversion Hs as [|? ? Hlen Hs']; subst. cbn [fst] in Hlen. pose proof (total_nonneg _ (sizes_nonneg _ Hs')) as Ht.
    cbn [find_file map fst]. cbn [total fold_right]. change (fold_right Z.add 0 (map fst r)) with (total (map fst r)).
    destruct (pos <? len) eqn:E.
    + destruct (write_loop_len ((len, h) :: r) f outs pos data Hnd Hs (ltac:(lia) : 0 <= pos <= len)) as (f' & outs' & st & m & E1 & Hm & W & X & K & O).
      exists f', outs', st, m. repeat (split; [assumption|]). cbn [map fst total fold_right] in K.
      change (fold_right Z.add 0 (map fst r)) with (total (map fst r)) in K. split; [|exact O].
      intros Es. destruct (K Es) as [K1 K2]. split; [auto|]. destruct K2 as [->|]; [cbn; lia|auto].
    + rewrite wrap64_small by lia. cbn [map snd] in Hnd. inversion Hnd; subst.
      destruct (IH f outs (pos - len) data) as (f' & outs' & st & m & E1 & Hm & W & X & K & O); auto; [lia|].
      exists f', outs', st, m. split; [exact E1|]. split; [exact Hm|]. split; [apply written_skip; [assumption|lia|assumption]|]. split; [|split; [|exact O]].
      * apply extends_skip; auto; [lia|now apply sizes_nonneg|exact (proj1 W)].
      * intros Es. destruct (K Es) as (K1 & K2). split; [auto|lia].
Qed.
