(* Elements and metadata for people: C95, C96.                                  *)
From Verif Require Import Base ProofBase ModelBencode SpecText ProofText SpecBencode ModelUnmarshal SpecUnmarshal ModelTorrent SpecTorrent ModelCmd SpecCmd ModelPrint SpecPrint ProofCmd ProofPrint.

(* ---------- C95 ---------- *)
(* The full claim, for what the parser returns. *)
Theorem C95_indented_refuted : ~ (forall d b, Parse d = Ok b -> String_ b = nested 0 b).
Proof. intros H. specialize (H (str "lli1eee") _ eq_refl). vm_compute in H. discriminate H. Qed.
(* What is printed instead. *)
Theorem C95_text_exact : forall b, String_ b = text b.
Proof. exact String_text. Qed.
Theorem C95_built_partial : forall b, built b -> String_ b = nested 0 b.
Proof. intros b H. rewrite String_text. exact (built_nested b H 0%nat). Qed.
Example C95_ex : String_ (BList false [BInt 1; BNil; BList false [BStr (str "a"); BInt (-2)] []; BDict false [] []] []) =
  str "[" ++ [10; 9] ++ str "1," ++ [10; 9] ++ str "[" ++ [10; 9; 9] ++ str "a," ++ [10; 9; 9] ++ str "-2," ++ [10; 9] ++ str "]," ++ [10; 9] ++ str "{}," ++ [10] ++ str "]" /\
  exists b, Parse (str "lli1eee") = Ok b /\ String_ b = str "[" ++ [10; 9] ++ str "[" ++ [10; 9] ++ str "1," ++ [10] ++ str "]," ++ [10] ++ str "]".
Proof. split; [reflexivity|]. eexists. split; reflexivity. Qed.

(* ---------- C96 ---------- *)
(* Metainfo.String of an accepted document is the page of what it says, ... *)
Theorem C96_page : forall size datetime sha1 d g m raw, fits d -> UnmarshalMetainfo d = (g, Ok tt) -> Parse d = Ok (BDict true m raw) ->
  exists t comment author date hash, says m t /\ made m comment author date /\
    MetainfoString size datetime sha1 g = concat (page size t comment author (datetime date) hash) /\
    (Forall is_byte (Hash sha1 g) -> unbase64 hash = Some (Hash sha1 g)).
Proof.
  intros size datetime sha1 d g m raw H1 H2 H3. exists (metainfo_of g), (mi_comment g), (mi_created_by g), (mi_creation_date g), (EncodeToString (Hash sha1 g)).
  split; [exact (metainfo_says d g m raw H1 H2 H3)|]. split; [exact (metainfo_made d g m raw H1 H2 H3)|]. split; [apply string_page|apply base64_back].
Qed.
(* ... but the length of a torrent of several files is not on it. *)
Theorem C96_total_length_refuted : ~ (forall size datetime sha1 d g m raw t, fits d -> UnmarshalMetainfo d = (g, Ok tt) -> Parse d = Ok (BDict true m raw) -> says m t ->
  exists pre post, MetainfoString size datetime sha1 g = pre ++ line 2 (str "length: " ++ size (mi_length t + total (map tf_length (mi_files t)))) ++ post).
Proof.
  intros H. assert (F : fits cx_multi) by (vm_compute; discriminate).
  destruct (UnmarshalMetainfo cx_multi) as [g o] eqn:U. assert (o = Ok tt) as -> by (vm_compute in U; inversion U; reflexivity).
  destruct (Parse cx_multi) as [b| | |] eqn:P; try (vm_compute in P; discriminate P).
  destruct b as [| | | |p m raw]; try (vm_compute in P; discriminate P). assert (p = true) as -> by (vm_compute in P; inversion P; reflexivity).
  pose proof (metainfo_says cx_multi g m raw F U P) as S.
  destruct (H (fun n => if n =? 10 then str "TEN" else str "X") (fun _ => []) (fun _ => []) cx_multi g m raw _ F U P S) as (pre & post & E).
  assert (T : (mi_length (metainfo_of g) + total (map tf_length (mi_files (metainfo_of g)))) = 10) by (vm_compute in U; inversion U; reflexivity).
  rewrite T in E. pose proof (contains_app pre (line 2 (str "length: " ++ str "TEN")) post) as C. change (if 10 =? 10 then str "TEN" else str "X") with (str "TEN") in E. rewrite <- E in C.
  clear - U C. vm_compute in U. inversion U; subst g. vm_compute in C. discriminate C.
Qed.
(* ... and a date is on it if the torrent has none. *)
Theorem C96_date_refuted : ~ (forall size datetime sha1 d g m raw t comment author date, fits d -> UnmarshalMetainfo d = (g, Ok tt) -> Parse d = Ok (BDict true m raw) ->
  says m t -> made m comment author date -> absent m (str "creation date") -> exists hash, MetainfoString size datetime sha1 g = concat (page size t comment author [] hash)).
Proof. exact date_refuted. Qed.
Theorem C96_date_exact : forall size datetime sha1 d g m raw, fits d -> UnmarshalMetainfo d = (g, Ok tt) -> Parse d = Ok (BDict true m raw) -> absent m (str "creation date") ->
  exists t comment author hash, says m t /\ made m comment author 0 /\ MetainfoString size datetime sha1 g = concat (page size t comment author (datetime 0) hash).
Proof. exact date_exact. Qed.
Example C96_ex :
  let d := str "d8:announce3:url7:comment2:hi4:infod5:filesld6:lengthi5e4:pathl1:a1:beee4:name1:n12:piece lengthi4e6:pieces0:ee" in
  let g := fst (UnmarshalMetainfo d) in
  fits d /\ snd (UnmarshalMetainfo d) = Ok tt /\
  MetainfoString (fun n => itoa n ++ str "B") (fun _ => str "1970-01-01 00:00:00") (fun _ => [1; 2; 255; 4]) g =
    str "{" ++ [10; 9] ++ str "info: {" ++ [10; 9; 9] ++ str "name: n" ++ [10; 9; 9] ++ str "length: 0B" ++ [10; 9; 9] ++ str "piece-length: 4" ++ [10; 9; 9] ++ str "files: [" ++ [10; 9; 9; 9] ++
    str "[path: a/b, size: 5B]," ++ [10; 9; 9] ++ str "]" ++ [10; 9] ++ str "}" ++ [10; 9] ++ str "comment: hi" ++ [10; 9] ++ str "creation-date: 1970-01-01 00:00:00" ++ [10; 9] ++
    str "announce: url" ++ [10; 9] ++ str "(calculated) info-hash: AQL_BA==" ++ [10] ++ str "}" ++ [10].
Proof. split; [vm_compute; discriminate|]. vm_compute. split; reflexivity. Qed.

Print Assumptions C95_indented_refuted.
Print Assumptions C95_text_exact.
Print Assumptions C95_built_partial.
Print Assumptions C96_page.
Print Assumptions C96_total_length_refuted.
Print Assumptions C96_date_refuted.
Print Assumptions C96_date_exact.
