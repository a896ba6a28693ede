(* Lemmas about the printed metadata.                                           *)
From Verif Require Import Base ProofBase ModelBencode SpecText ProofText SpecBencode ModelUnmarshal SpecUnmarshal ModelTorrent ModelCmd SpecCmd ModelPrint SpecPrint
  ProofUnmarshal ProofUnmarshalMore ProofBencodeMore ProofCmd.

Lemma repeat_tab n : Repeat tab n = tabs n.
Proof. unfold Repeat, tabs, tab. induction n as [|n IH]; [reflexivity|]. cbn [repeat concat app]. now rewrite IH. Qed.
Lemma join_separated sep l : Join l sep = separated sep l.
Proof. induction l as [|s [|s' l] IH]; [reflexivity|cbn; now rewrite app_nil_r|]. change (Join (s :: s' :: l) sep) with (s ++ sep ++ Join (s' :: l) sep). now rewrite IH. Qed.
Lemma fold_lines {A} (f : A -> bytes) l : forall b, fold_left (fun b x => b ++ f x) l b = b ++ concat (map f l).
Proof. induction l as [|x l IH]; intros b; cbn [fold_left map concat]; [now rewrite app_nil_r|]. rewrite IH. now rewrite <- app_assoc. Qed.
Lemma print_string sz name s d b : printValue sz name (PString s) d b = b ++ concat (entry d name s).
Proof.
  cbn [printValue]. destruct s as [|c s]; [cbn; now rewrite app_nil_r|]. replace (zlen (c :: s) =? 0) with false by (symmetry; apply Z.eqb_neq; unfold zlen; cbn [length]; lia).
  cbn [entry concat]. unfold line. rewrite repeat_tab, app_nil_r, <- !app_assoc. reflexivity.
Qed.
Lemma itoa_nonempty n : itoa n <> [].
Proof. unfold itoa. destruct (Z.ltb_spec n 0); [discriminate|]. now apply utoa_spec. Qed.
Lemma print_int sz name n d b : printValue sz name (PInt64 n) d b = b ++ concat (entry d name (nonzero n)).
Proof.
  cbn [printValue]. unfold nonzero. destruct (n =? 0); [cbn; now rewrite app_nil_r|]. pose proof (itoa_nonempty n). destruct (itoa n) as [|c s]; [congruence|].
  cbn [entry concat]. unfold line. rewrite repeat_tab, app_nil_r, <- !app_assoc. reflexivity.
Qed.
Lemma zlen_zero {A} (x : A) l : (zlen (x :: l) =? 0) = false.
Proof. apply Z.eqb_neq. unfold zlen. cbn [length]. lia. Qed.
Lemma print_block {A} (f : A -> bytes) (g : A -> bytes) name (l : list A) d b : (forall x, g x = Repeat tab (d + 1) ++ f x ++ nl) ->
  (if zlen l =? 0 then b else fold_left (fun b x => b ++ g x) l (b ++ Repeat tab d ++ name ++ str ": [" ++ nl) ++ Repeat tab d ++ str "]" ++ nl) =
  b ++ concat (block d name (map f l)).
Proof.
  intros G. destruct l as [|x l]; [cbn; now rewrite app_nil_r|]. rewrite zlen_zero, fold_lines.
  assert (E : concat (map g (x :: l)) = concat (map (line (S d)) (map f (x :: l)))).
  { rewrite map_map. f_equal. apply map_ext. intros y. rewrite G, repeat_tab, Nat.add_1_r. reflexivity. }
  rewrite E. clear E. unfold block. cbn [map]. change (f x :: map f l) with (map f (x :: l)). remember (map f (x :: l)) as its eqn:I. clear I.
  change (line (S d) (f x) :: map (line (S d)) (map f l)) with (map (line (S d)) (map f (x :: l))).
  remember (map (line (S d)) (map f (x :: l))) as ls eqn:LS. clear LS. cbn [concat]. rewrite concat_app. cbn [concat]. unfold line. rewrite !repeat_tab, app_nil_r, <- !app_assoc. reflexivity.
Qed.
Lemma print_strings sz name l d b : printValue sz name (PStrings l) d b = b ++ concat (block d name (map (fun s => s ++ [44]) l)).
Proof. apply (print_block (fun s => s ++ [44]) (fun s => Repeat tab (d + 1) ++ s ++ str "," ++ nl)). intros x. rewrite <- app_assoc. reflexivity. Qed.
Lemma print_lists sz name l d b : printValue sz name (PLists l) d b = b ++ concat (block d name (map (fun l => [91] ++ separated [32] l ++ [93]) l)).
Proof.
  apply (print_block (fun l => [91] ++ separated [32] l ++ [93]) (fun s => Repeat tab (d + 1) ++ str "[" ++ Join s (str " ") ++ str "]" ++ nl)).
  intros x. rewrite join_separated, <- !app_assoc. reflexivity.
Qed.
Lemma print_files sz name l d b : printValue sz name (PFiles l) d b = b ++ concat (block d name (map (file_line sz) l)).
Proof.
  apply (print_block (file_line sz) (fun f => Repeat tab (d + 1) ++ FileString sz f ++ str "," ++ nl)).
  intros x. unfold file_line, FileString, FilePath. rewrite join_separated, <- !app_assoc. reflexivity.
Qed.
Lemma string_page sz dt sha1 g :
  MetainfoString sz dt sha1 g = concat (page sz (metainfo_of g) (mi_comment g) (mi_created_by g) (dt (mi_creation_date g)) (EncodeToString (Hash sha1 g))).
Proof.
  unfold MetainfoString. cbv zeta. rewrite !print_string, print_files, print_lists, print_strings, print_int.
  unfold page. rewrite !concat_app. rewrite <- !app_assoc. reflexivity.
Qed.

(* the remaining fields of the document *)
Lemma metainfo_made d g m raw : fits d -> UnmarshalMetainfo d = (g, Ok tt) -> Parse d = Ok (BDict true m raw) -> made m (mi_comment g) (mi_created_by g) (mi_creation_date g).
Proof.
  intros Hf Hu Hp. destruct metainfo_hyps as (Hw & Ht & _ & Hh).
  apply unmarshal_exact in Hu as (m' & raw' & news & Ep & Hc & ->); auto. rewrite Hp in Ep. injection Ep as <- <-. clear Hp.
  unfold Metainfo_fields, Metainfo_zero, fld in Hc. cbn [map snd] in Hc.
  apply field_inv in Hc as (g1 & n1 & -> & Hc & _); [|discriminate].
  apply field_inv in Hc as (g2 & n2 & -> & Hc & _); [|discriminate].
  apply field_inv in Hc as (g3 & n3 & -> & Hc & _); [|discriminate].
  apply field_inv in Hc as (g4 & n4 & -> & Hc & _); [|discriminate].
  apply field_inv in Hc as (g5 & n5 & -> & Hc & _); [|discriminate].
  apply field_inv in Hc as (g6 & n6 & -> & Hc & D6); [|discriminate].
  apply field_inv in Hc as (g7 & n7 & -> & Hc & D7); [|discriminate].
  apply field_inv in Hc as (g8 & n8 & -> & Hc & D8); [|discriminate].
  unfold mi_comment, mi_created_by, mi_creation_date, field. cbn [nth].
  split; [|split].
  - destruct D6 as [(_ & Ha & ->)|(v & Hl & Hv & C)]; [left; split; [exact Ha|reflexivity]|right]. exists v. split; [split; assumption|exact (conv_text _ _ _ C)].
  - destruct D7 as [(_ & Ha & ->)|(v & Hl & Hv & C)]; [left; split; [exact Ha|reflexivity]|right]. exists v. split; [split; assumption|exact (conv_text _ _ _ C)].
  - destruct D8 as [(_ & Ha & ->)|(v & Hl & Hv & C)]; [left; split; [exact Ha|reflexivity]|right]. exists v. split; [split; assumption|exact (conv_number _ _ _ C)].
Qed.

(* ---------- base64 ---------- *)
Lemma digit n : 0 <= n < 64 -> index_of (b64_char n) alphabet = Some n.
Proof.
  intros H. assert (A : forallb (fun k => match index_of (b64_char (Z.of_nat k)) alphabet with Some x => x =? Z.of_nat k | None => false end) (seq 0 64) = true) by (vm_compute; reflexivity).
  rewrite forallb_forall in A. specialize (A (Z.to_nat n)). rewrite Z2Nat.id in A by lia. specialize (A ltac:(apply in_seq; lia)).
  destruct (index_of _ _); [|discriminate]. apply Z.eqb_eq in A. now subst.
Qed.
Lemma encode_three a b c s : EncodeToString (a :: b :: c :: s) =
  [b64_char (a / 4); b64_char (a mod 4 * 16 + b / 16); b64_char (b mod 16 * 4 + c / 64); b64_char (c mod 64)] ++ EncodeToString s.
Proof. reflexivity. Qed.
Lemma no_pad n : 0 <= n < 64 -> (b64_char n =? 61) = false.
Proof. intros H. unfold b64_char. repeat match goal with |- context [if ?c then _ else _] => destruct c eqn:? end; lia. Qed.
Lemma base64_back s : Forall is_byte s -> unbase64 (EncodeToString s) = Some s.
Proof.
  assert (H : forall n s, (length s <= n)%nat -> Forall is_byte s -> unbase64 (EncodeToString s) = Some s).
  { clear s. induction n as [|n IH]; intros [|a [|b [|c s]]] L HF; cbn [length] in L; try lia; try reflexivity.
    - inversion HF as [|? ? Ha _]; subst. unfold is_byte in *. cbn [EncodeToString unbase64]. change (61 =? 61) with true. cbv iota.
      cbn [all_digits]. rewrite !digit by (Z.to_euclidean_division_equations; lia). unfold exact_part. cbn [number fold_left].
      rewrite (proj2 (Z.eqb_eq _ 0)) by (Z.to_euclidean_division_equations; lia). do 2 f_equal. Z.to_euclidean_division_equations; lia.
    - inversion HF as [|? ? Ha HF1]; subst. inversion HF1 as [|? ? Hb _]; subst. unfold is_byte in *. cbn [EncodeToString unbase64]. change (61 =? 61) with true. cbv iota.
      rewrite no_pad by (Z.to_euclidean_division_equations; lia). cbn [all_digits]. rewrite !digit by (Z.to_euclidean_division_equations; lia). unfold exact_part. cbn [number fold_left].
      rewrite (proj2 (Z.eqb_eq _ 0)) by (Z.to_euclidean_division_equations; lia). f_equal. f_equal; [|f_equal]; Z.to_euclidean_division_equations; lia.
    - inversion HF as [|? ? Ha HF1]; subst. inversion HF1 as [|? ? Hb HF2]; subst. inversion HF2 as [|? ? Hc HF3]; subst. unfold is_byte in *. rewrite encode_three. cbn [app unbase64].
      rewrite no_pad by (Z.to_euclidean_division_equations; lia). cbn [all_digits]. rewrite !digit by (Z.to_euclidean_division_equations; lia).
      rewrite (IH s ltac:(lia) HF3). cbn [number fold_left app]. f_equal. f_equal; [|f_equal; [|f_equal]]; Z.to_euclidean_division_equations; lia. }
  exact (H (length s) s (Nat.le_refl _)).
Qed.

(* does a text contain another *)
Fixpoint starts (p s : bytes) : bool := match p, s with [], _ => true | x :: p', y :: s' => (x =? y) && starts p' s' | _, _ => false end.
Fixpoint contains (p s : bytes) : bool := starts p s || match s with [] => false | _ :: s' => contains p s' end.
Lemma starts_app p post : starts p (p ++ post) = true.
Proof. induction p as [|x p IH]; [reflexivity|]. cbn. now rewrite Z.eqb_refl, IH. Qed.
Lemma contains_app pre p post : contains p (pre ++ p ++ post) = true.
Proof.
  induction pre as [|x pre IH]; cbn [app].
  - destruct (p ++ post) as [|y l] eqn:E; cbn [contains]; rewrite <- E, starts_app; reflexivity.
  - cbn [contains]. rewrite IH. apply Bool.orb_true_r.
Qed.

(* a torrent without a date *)
Lemma made_none m c a d : made m c a d -> absent m (str "creation date") -> d = 0.
Proof.
  intros (_ & _ & [[_ H]|(v & Hv & _)]) Ha; [exact H|]. exfalso. destruct Hv as [E N], Ha as [Ha|Ha]; rewrite Ha in E; [discriminate E|]. now injection E as <-.
Qed.
Theorem date_exact size datetime sha1 d g m raw : fits d -> UnmarshalMetainfo d = (g, Ok tt) -> Parse d = Ok (BDict true m raw) -> absent m (str "creation date") ->
  exists t comment author hash, says m t /\ made m comment author 0 /\ MetainfoString size datetime sha1 g = concat (page size t comment author (datetime 0) hash).
Proof.
  intros Hf HU HP Ha. pose proof (metainfo_made d g m raw Hf HU HP) as HM. pose proof (made_none _ _ _ _ HM Ha) as E. rewrite E in HM.
  exists (metainfo_of g), (mi_comment g), (mi_created_by g), (EncodeToString (Hash sha1 g)). split; [exact (metainfo_says d g m raw Hf HU HP)|]. split; [exact HM|].
  rewrite string_page, E. reflexivity.
Qed.
Theorem date_refuted : ~ (forall size datetime sha1 d g m raw t comment author date, fits d -> UnmarshalMetainfo d = (g, Ok tt) -> Parse d = Ok (BDict true m raw) ->
  says m t -> made m comment author date -> absent m (str "creation date") -> exists hash, MetainfoString size datetime sha1 g = concat (page size t comment author [] hash)).
Proof.
  intros H. assert (F : fits cx_multi) by (vm_compute; discriminate).
  destruct (UnmarshalMetainfo cx_multi) as [g o] eqn:U. assert (o = Ok tt) as -> by (vm_compute in U; inversion U; reflexivity).
  destruct (Parse cx_multi) as [b| | |] eqn:P; try (vm_compute in P; discriminate P).
  destruct b as [| | | |p m raw]; try (vm_compute in P; discriminate P). assert (p = true) as -> by (vm_compute in P; inversion P; reflexivity).
  assert (A : absent m (str "creation date")) by (vm_compute in P; inversion P; now left).
  destruct (H (fun _ => str "X") (fun _ => str "Y") (fun _ => []) cx_multi g m raw _ _ _ _ F U P (metainfo_says _ _ _ _ F U P) (metainfo_made _ _ _ _ F U P) A) as (hash & E).
  rewrite string_page in E. clear - U E. vm_compute in U. inversion U; subst g. vm_compute in E. discriminate E.
Qed.
