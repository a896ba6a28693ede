(* Histories of WritePiece on torrents made by New.                            *)
From Verif Require Import Base ProofBase SpecPath SpecTorrent ModelPath ModelFloat ModelBitset ModelMsg ModelTorrent.
From Verif Require Import ProofConn ProofTorrent ProofPath ProofWrite.

(* a negative position writes nothing *)
Lemma write_neg t f outs pos data : t_isdir t = true -> sizes_ok (entries t) -> - 2 ^ 63 <= pos < 0 ->
  exists st, writePieceData f outs t data pos = (f, outs, st) /\ (st = WOk -> data = []).
Proof.
  intros Hd Hs Hp. unfold writePieceData. rewrite Hd. cbn [negb].
  destruct (entries t) as [|[len h] r]; cbn [find_file]; [eexists; split; [reflexivity|discriminate]|].
  inversion Hs; subst. cbn [fst] in *. replace (pos <? len) with true by lia.
  destruct data as [|x d]; [eexists; split; [reflexivity|auto]|]. cbn [write_loop].
  set (tw := if wrap64 (len - pos) <? zlen (x :: d) then wrap64 (len - pos) else zlen (x :: d)). destruct (tw <? 0); [eexists; split; [reflexivity|discriminate]|].
  unfold WriteAt. replace (pos <? 0) with true by lia. eexists; split; [reflexivity|discriminate].
Qed.

Lemma write_any_bounded t f outs pos data : multi_ok t -> - 2 ^ 63 <= pos < 2 ^ 63 ->
  exists f' outs' st, writePieceData f outs t data pos = (f', outs', st) /\ bounded_len (entries t) f f'.
Proof.
  intros Ht Hp. destruct (Z.lt_ge_cases pos 0) as [C|C].
  - destruct Ht as (Hd & Hnd & Hs). destruct (write_neg t f outs pos data Hd Hs ltac:(lia)) as (st & E & _).
    exists f, outs, st. split; [exact E|]. apply bounded_refl. intros l p Hin. unfold sizes_ok in Hs. rewrite Forall_forall in Hs.
    apply Hs in Hin. cbn in Hin. lia.
  - destruct (write_piece_spec t f outs pos data Ht ltac:(lia)) as (f' & o' & st & m & E & _ & _ & B & _). eauto.
Qed.

Definition fits (t : torrent) (f : fs) : Prop := forall len p, In (len, p) (entries t) -> zlen (contents f p) <= len.

Lemma write_one_fits w m : multi_ok (w_t w) -> fits (w_t w) (w_fs w) -> fits (w_t (write_one w m)) (w_fs (write_one w m)).
Proof.
  intros Ht Hf. pose proof (same_entries _ _ (write_one_layout w m)) as Ee.
  unfold fits. rewrite Ee. unfold write_one. destruct (data_of m) as [d| | |]; try exact Hf.
  set (pos := wrap64 _). destruct (write_any_bounded (w_t w) (w_fs w) (w_outs w) pos d Ht (wrap64_range _)) as (f' & o' & st & E & B).
  rewrite E. assert (G : forall len p, In (len, p) (entries (w_t w)) -> zlen (contents f' p) <= len).
  { intros len p Hin. specialize (B len p Hin). specialize (Hf len p Hin). lia. }
  destruct st; exact G.
Qed.
Lemma WritePiece_fits ms : forall w, multi_ok (w_t w) -> fits (w_t w) (w_fs w) -> fits (w_t (WritePiece w ms)) (w_fs (WritePiece w ms)).
Proof.
  induction ms as [|m ms IH]; intros w Ht Hf; cbn; [auto|]. destruct (w_panic w); [auto|].
  apply IH; [eapply same_multi; [apply write_one_layout|auto]|now apply write_one_fits].
Qed.

(* ---------- torrents made by New ---------- *)
Lemma Forall2_len {A B} (P : A -> B -> Prop) l l' : Forall2 P l l' -> length l = length l'.
Proof. intros H; induction H; cbn; auto. Qed.
Lemma combine_fst {A B} (l : list A) (l' : list B) : length l = length l' -> map fst (combine l l') = l.
Proof. revert l'; induction l; intros [|y l'] H; cbn in *; try lia; f_equal; auto. Qed.
Lemma combine_snd {A B} (l : list A) (l' : list B) : length l = length l' -> map snd (combine l l') = l'.
Proof. revert l'; induction l; intros [|y l'] H; cbn in *; try lia; f_equal; auto. Qed.

Section new.
  Variables (cwd : place) (creat : bytes -> bool) (mk : bool) (f f' : fs) (m : metainfo) (hash dir : bytes) (t : torrent).
  Hypothesis HN : New cwd creat mk f m hash dir = (f', Ok t).

  Lemma new_multi_handles : mi_length m = 0 -> length (t_osfiles t) = length (t_files t) /\ t_files t = mi_files m /\ t_isdir t = true.
  Proof.
    intros H0. apply new_fields in HN as (_ & _ & _ & _ & Hd & _ & Hf & _ & _ & _ & _ & paths & Hp & Hc). rewrite H0 in *. cbn in Hd, Hf.
    unfold download_paths in Hp. rewrite Hd in Hp. apply file_paths_spec in Hp. apply Forall2_len in Hp.
    apply create_files_spec in Hc as (-> & _). rewrite map_length. auto.
  Qed.
  Lemma new_entries : mi_length m = 0 -> map fst (entries t) = map tf_length (mi_files m) /\ map snd (entries t) = t_osfiles t.
  Proof.
    intros H0. destruct (new_multi_handles H0) as (L & Ef & _). unfold entries. rewrite combine_fst, combine_snd by (rewrite map_length; lia).
    now rewrite Ef.
  Qed.
  Lemma new_files_empty p : In p (t_osfiles t) -> contents f' p = [].
  Proof.
    pose proof HN as H. apply new_fields in H as (_ & _ & _ & _ & _ & _ & _ & _ & _ & _ & _ & paths & _ & Hc).
    apply create_files_spec in Hc as (-> & Hc & _). intros Hin. unfold contents. now rewrite Hc.
  Qed.
  Lemma new_multi_ok : mi_length m = 0 -> NoDup (t_osfiles t) -> Forall (fun x => 0 <= tf_length x < 2 ^ 63) (mi_files m) ->
    multi_ok t /\ fits t f'.
  Proof.
    intros H0 Hnd Hl. destruct (new_entries H0) as [E1 E2]. destruct (new_multi_handles H0) as (_ & _ & Hd). split.
    - split; [exact Hd|]. rewrite E2. split; [exact Hnd|]. unfold sizes_ok.
      rewrite Forall_forall in *. intros e He. apply (in_map fst) in He. rewrite E1 in He. apply in_map_iff in He as (x & <- & Hx). now apply Hl.
    - intros len p Hin. assert (Hp : In p (t_osfiles t)) by (rewrite <- E2; apply (in_map snd) in Hin; exact Hin).
      rewrite new_files_empty by auto. apply (in_map fst) in Hin. rewrite E1 in Hin. apply in_map_iff in Hin as (x & Ex & Hx); cbn [fst] in Ex; subst len.
      rewrite Forall_forall in Hl. specialize (Hl x Hx). rewrite zlen_nil. lia.
  Qed.
End new.

(* ---------- which pieces WritePiece marks ---------- *)
Lemma write_one_marks w m i : 0 <= i -> 0 <= m_index m ->
  bs_test (t_downloaded (w_t (write_one w m))) i = true <->
  bs_test (t_downloaded (w_t w)) i = true \/
  exists d f' outs', data_of m = Ok d /\
    writePieceData (w_fs w) (w_outs w) (w_t w) d (wrap64 (wrap64 (m_index m * t_plen (w_t w)) + m_offset m)) = (f', outs', WOk) /\
    wrap64 (m_offset m + zlen d) = t_plen (w_t w) /\ i = m_index m.
Proof.
  intros Hi Hm. unfold write_one. destruct (data_of m) as [d| | |];
    try (cbn; split; [auto|intros [|(? & ? & ? & C & _)]; [auto|discriminate]]).
  destruct (writePieceData _ _ _ _ _) as [[f1 o1] st] eqn:E. destruct st; cbn [w_t].
  - destruct (Z.eqb_spec (wrap64 (m_offset m + zlen d)) (t_plen (w_t w))) as [Ep|Ep].
    + unfold SetDownloaded. cbn [t_downloaded set_downloaded]. rewrite bs_test_set by lia. rewrite orb_true_iff, Z.eqb_eq. split.
      * intros [<-|]; [right|auto]. exists d, f1, o1. auto.
      * intros [|(d' & f2 & o2 & E1 & E2 & E3 & ->)]; auto.
    + split; [auto|]. intros [|(d' & f2 & o2 & E1 & E2 & E3 & ->)]; [auto|]. inversion E1; subst. congruence.
  - split; [auto|]. intros [|(d' & f2 & o2 & E1 & E2 & E3 & _)]; [auto|]. inversion E1; subst. congruence.
  - split; [auto|]. intros [|(d' & f2 & o2 & E1 & E2 & E3 & _)]; [auto|]. inversion E1; subst. congruence.
Qed.

(* a message whose data, if stored where it says, ends inside the torrent *)
Definition ends_inside (t : torrent) (m : msg) : Prop :=
  forall d, data_of m = Ok d -> m_index m * t_plen t + m_offset m + zlen d <= t_length t.

(* the shorter last piece i is never marked: multi-file, whatever is received *)
Definition wire_sized (m : msg) : Prop := 0 <= m_index m < 2 ^ 32 /\ 0 <= m_offset m < 2 ^ 32 /\ forall d, data_of m = Ok d -> zlen d < 2 ^ 32.

Lemma write_one_short w m i : multi_ok (w_t w) -> wire_sized m -> 0 < t_plen (w_t w) -> 0 <= i ->
  total (map fst (entries (w_t w))) + t_plen (w_t w) < 2 ^ 63 ->
  i * t_plen (w_t w) < total (map fst (entries (w_t w))) < (i + 1) * t_plen (w_t w) ->
  bs_test (t_downloaded (w_t w)) i = false -> bs_test (t_downloaded (w_t (write_one w m))) i = false.
Proof.
  intros Ht (Hi & Ho & Hd) Hp Hi0 Hb Hs Hc. destruct (bs_test (t_downloaded (w_t (write_one w m))) i) eqn:E; [|reflexivity].
  exfalso. apply write_one_marks in E; [|lia|lia]. destruct E as [E|(d & f' & o' & E1 & E2 & E3 & ->)]; [congruence|].
  specialize (Hd d E1). pose proof (zlen_nonneg d). set (T := total _) in *. set (P := t_plen (w_t w)) in *. set (I := m_index m) in *.
  assert (HIP : 0 <= I * P) by nia.
  rewrite (wrap64_small (m_offset m + zlen d)) in E3 by lia.
  rewrite (wrap64_small (I * P)) in E2 by lia. rewrite wrap64_small in E2 by lia.
  destruct (write_piece_spec (w_t w) (w_fs w) (w_outs w) (I * P + m_offset m) d Ht ltac:(lia)) as (f2 & o2 & st & mm & E & _ & _ & _ & _ & K & _).
  rewrite E2 in E. inversion E; subst. destruct (K eq_refl) as (_ & _ & K2). fold T in K2. lia.
Qed.
Lemma WritePiece_short ms : forall w i, multi_ok (w_t w) -> Forall wire_sized ms -> 0 < t_plen (w_t w) -> 0 <= i ->
  total (map fst (entries (w_t w))) + t_plen (w_t w) < 2 ^ 63 ->
  i * t_plen (w_t w) < total (map fst (entries (w_t w))) < (i + 1) * t_plen (w_t w) ->
  bs_test (t_downloaded (w_t w)) i = false -> bs_test (t_downloaded (w_t (WritePiece w ms))) i = false.
Proof.
  induction ms as [|m ms IH]; intros w i Ht Hm Hp Hi Hb Hs Hc; cbn; [auto|]. destruct (w_panic w); [auto|]. inversion Hm; subst.
  pose proof (write_one_layout w m) as L. pose proof (same_entries _ _ L) as Ee. pose proof L as (Lp & _).
  apply IH; rewrite ?Ee, ?Lp; auto; [eapply same_multi; eauto|]. now apply write_one_short.
Qed.

(* single-file: as long as no message reaches past the end of the torrent *)
Lemma write_one_short_single w m i : wire_sized m -> ends_inside (w_t w) m -> 0 < t_plen (w_t w) -> 0 <= i ->
  t_length (w_t w) < (i + 1) * t_plen (w_t w) ->
  bs_test (t_downloaded (w_t w)) i = false -> bs_test (t_downloaded (w_t (write_one w m))) i = false.
Proof.
  intros (Hi & Ho & Hd) He Hp Hi0 Hs Hc. destruct (bs_test (t_downloaded (w_t (write_one w m))) i) eqn:E; [|reflexivity].
  exfalso. apply write_one_marks in E; [|lia|lia]. destruct E as [E|(d & f' & o' & E1 & E2 & E3 & ->)]; [congruence|].
  specialize (Hd d E1). specialize (He d E1). pose proof (zlen_nonneg d). rewrite wrap64_small in E3 by lia. nia.
Qed.
Lemma WritePiece_short_single ms : forall w i, Forall wire_sized ms -> Forall (ends_inside (w_t w)) ms -> 0 < t_plen (w_t w) -> 0 <= i ->
  t_length (w_t w) < (i + 1) * t_plen (w_t w) ->
  bs_test (t_downloaded (w_t w)) i = false -> bs_test (t_downloaded (w_t (WritePiece w ms))) i = false.
Proof.
  induction ms as [|m ms IH]; intros w i Hm He Hp Hi Hs Hc; cbn; [auto|]. destruct (w_panic w); [auto|]. inversion Hm; inversion He; subst.
  pose proof (write_one_layout w m) as L. pose proof L as (Lp & _ & _ & _ & _ & Ll).
  apply IH; rewrite ?Lp, ?Ll; auto; [|now apply write_one_short_single].
  eapply Forall_impl; [|exact H6]. intros a Ha d Hda. rewrite Lp, Ll. auto.
Qed.
Lemma WritePiece_dl_len ms : forall w, Forall wire_sized ms -> zlen (t_downloaded (w_t w)) <= zlen (t_downloaded (w_t (WritePiece w ms))).
Proof.
  induction ms as [|m ms IH]; intros w Hm; cbn; [lia|]. destruct (w_panic w); [lia|]. inversion Hm; subst.
  assert (zlen (t_downloaded (w_t w)) <= zlen (t_downloaded (w_t (write_one w m)))); [|specialize (IH (write_one w m) H2); lia].
  unfold write_one. destruct (data_of m); cbn; try lia. destruct (writePieceData _ _ _ _ _) as [[f1 o1] st].
  destruct st; cbn; try lia. destruct (_ =? _); cbn; try lia. rewrite bs_set_len; destruct H1; lia.
Qed.
