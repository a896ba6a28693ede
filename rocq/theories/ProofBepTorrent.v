(* Torrent files of BEP 3, 12 and 19: which are accepted, and what the program does. *)
From Coq Require Import Sorted.
From Verif Require Import Base ProofBase ModelBencode SpecBencode SpecBep ProofBencode ProofBencodeGrammar ProofBencodeMore ProofUnmarshal ProofUnmarshalMore SpecText SpecUnmarshal ModelStats ModelTorrent
  ModelConn ModelPeer ModelSystem ModelTracker ModelManager ModelClient ModelCmd ModelProgram SpecPath ModelPath SpecCmd SpecStatus ProofBreaks ProofBep ProofStatus.

Lemma lookup_read k m : lookup k (map (fun kv => (fst kv, read_as (snd kv))) m) = option_map read_as (lookup k m).
Proof. induction m as [|[k' v] m IH]; [reflexivity|]. cbn [map lookup fst snd]. now destruct (beq k k'). Qed.
Lemma read_text s : as_text (read_as (BStr s)) s.
Proof. split; [discriminate|reflexivity]. Qed.
Lemma read_number n : as_number (read_as (BInt n)) (int_read n).
Proof.
  split; [apply int_literal_itoa; reflexivity|]. pose proof (int_read_range n). assert (MAXN < 2 ^ 63) by reflexivity. lia.
Qed.
Lemma read_strings v l : strings v l -> as_list as_text (read_as v) l.
Proof.
  intros [raw ->]. cbn [read_as]. eexists _, raw. split; [reflexivity|]. rewrite map_map. induction l as [|s l IH]; cbn [map]; [constructor|]. constructor; [apply read_text|exact IH].
Qed.
Lemma read_lists v : lists_of_strings v -> exists ls, as_list (as_list as_text) (read_as v) ls.
Proof.
  intros (vs & raw & -> & H). cbn [read_as]. assert (exists ls, Forall2 (as_list as_text) (map read_as vs) ls) as [ls Hl]; [|exists ls, (map read_as vs), raw; auto].
  induction H as [|v vs [l Hv] _ [ls IH]]; cbn [map]; [exists []; constructor|]. exists (l :: ls). constructor; [now apply read_strings|exact IH].
Qed.
Lemma strings_nil v l : strings v l -> read_as v <> BNil.
Proof. intros [raw ->]. discriminate. Qed.
Lemma read_file v : file_entry v -> exists f, as_file (read_as v) f /\ tf_path f <> [].
Proof.
  intros (m & raw & n & p & c & cs & -> & Hl & _ & Hp & Hs). exists (mkTfile (int_read n) (c :: cs)). split; [|discriminate].
  cbn [read_as]. eexists _, raw, (read_as p), (read_as (BInt n)). split; [reflexivity|]. unfold value_of. rewrite !lookup_read, Hl, Hp. cbn [option_map tf_path tf_length].
  split; [split; [reflexivity|eapply strings_nil; exact Hs]|]. split; [now apply read_strings|]. split; [split; [reflexivity|discriminate]|apply read_number].
Qed.
Lemma read_files vs : Forall file_entry vs -> exists fs, Forall2 as_file (map read_as vs) fs /\ Forall (fun f => tf_path f <> []) fs.
Proof.
  intros H. induction H as [|v vs Hv _ (fs & IH & IP)]; cbn [map]; [exists []; split; constructor|]. destruct (read_file _ Hv) as (f & Hf & Hp). exists (f :: fs). split; now constructor.
Qed.

Lemma bep_says m : bep_torrent m -> (forall s, lookup (str "url-list") m <> Some (BStr s)) ->
  exists M n, says (map (fun kv => (fst kv, read_as (snd kv))) m) M /\ optional (map (fun kv => (fst kv, read_as (snd kv))) m) "creation date" as_number 0 n /\ whole_hashes M /\ have_paths M.
Proof.
  intros ((u & Ha) & HL & HU & HC & i & raw & Hi & (nm & Hn) & (pl & Hpl & _) & (ps & Hps & Hmod) & Hlf) Hu.
  assert (G1 : exists ls, optional (map (fun kv => (fst kv, read_as (snd kv))) m) "announce-list" (as_list (as_list as_text)) [] ls).
  { destruct (lookup (str "announce-list") m) as [v|] eqn:E; [|exists []; left; split; [left; rewrite lookup_read, E|]; reflexivity].
    pose proof (HL v E) as H. destruct (read_lists _ H) as [ls Hls]. exists ls. right. exists (read_as v). split; [|exact Hls]. unfold value_of. rewrite lookup_read, E. split; [reflexivity|].
    destruct H as (vs & r & -> & _). discriminate. }
  assert (G2 : exists ls, optional (map (fun kv => (fst kv, read_as (snd kv))) m) "url-list" (as_list as_text) [] ls).
  { destruct (lookup (str "url-list") m) as [v|] eqn:E; [|exists []; left; split; [left; rewrite lookup_read, E|]; reflexivity].
    destruct (HU v E) as [[s ->]|[l H]]; [exfalso; now apply (Hu s)|]. exists l. right. exists (read_as v). split; [|now apply read_strings]. unfold value_of. rewrite lookup_read, E. split; [reflexivity|].
    eapply strings_nil; exact H. }
  assert (G3 : exists n, optional (map (fun kv => (fst kv, read_as (snd kv))) m) "creation date" as_number 0 n).
  { destruct (lookup (str "creation date") m) as [v|] eqn:E; [|exists 0; left; split; [left; rewrite lookup_read, E|]; reflexivity].
    destruct (HC v E) as (n & -> & _). exists (int_read n). right. exists (read_as (BInt n)). split; [|apply read_number]. unfold value_of. rewrite lookup_read, E. split; [reflexivity|discriminate]. }
  destruct G1 as [al G1]. destruct G2 as [ul G2]. destruct G3 as [n G3].
  assert (G4 : exists fs n', optional (map (fun kv => (fst kv, read_as (snd kv))) i) "files" (as_list as_file) [] fs /\ optional (map (fun kv => (fst kv, read_as (snd kv))) i) "length" as_number 0 n' /\
      Forall (fun f => tf_path f <> []) fs).
  { destruct Hlf as [[(l & Hl & _) Hf]|(Hl & vs & r & Hf & _ & Hfs)].
    - exists [], (int_read l). split; [left; split; [left; now rewrite lookup_read, Hf|reflexivity]|]. split; [|constructor]. right. exists (read_as (BInt l)). split; [|apply read_number]. unfold value_of.
      rewrite lookup_read, Hl. split; [reflexivity|discriminate].
    - destruct (read_files _ Hfs) as (fs & H1 & H2). exists fs, 0. split; [|split; [left; split; [left; now rewrite lookup_read, Hl|reflexivity]|exact H2]]. right.
      exists (read_as (BList true vs r)). unfold value_of. rewrite lookup_read, Hf. split; [split; [reflexivity|discriminate]|]. exists (map read_as vs), r. now split. }
  destruct G4 as (fs & n' & G4 & G5 & G6).
  exists (mkMetainfo u al ul fs n' nm (int_read pl) ps), n.
  split; [|split; [exact G3|split; [exact Hmod|intros _; exact G6]]].
  exists (map (fun kv => (fst kv, read_as (snd kv))) i), raw. cbn [mi_announce mi_announce_list mi_url_list mi_files mi_length mi_name mi_piece_length mi_pieces].
  unfold value_of at 1. rewrite lookup_read, Hi. cbn [option_map read_as]. split; [split; [reflexivity|discriminate]|].
  repeat split; try assumption.
  - exists (read_as (BStr u)). split; [unfold value_of; rewrite lookup_read, Ha; split; [reflexivity|discriminate]|apply read_text].
  - exists (read_as (BStr nm)). split; [unfold value_of; rewrite lookup_read, Hn; split; [reflexivity|discriminate]|apply read_text].
  - exists (read_as (BInt pl)). split; [unfold value_of; rewrite lookup_read, Hpl; split; [reflexivity|discriminate]|apply read_number].
  - exists (read_as (BStr ps)). split; [unfold value_of; rewrite lookup_read, Hps; split; [reflexivity|discriminate]|apply read_text].
Qed.

Definition acceptable (raw : bytes) (m : list (bytes * ben)) : Prop :=
  integers (BDict true m raw) (fun n => 0 <= n) /\ forall s, lookup (str "url-list") m <> Some (BStr s).

Section S.
Variables (raw post : bytes) (m : list (bytes * ben)).
Hypotheses (Hb : bep3 raw (BDict true m raw)) (Ht : bep_torrent m) (Hf : fits (raw ++ post)).

Lemma accept_says : acceptable raw m -> exists M, reads_torrent (raw ++ post) M /\ whole_hashes M /\ have_paths M.
Proof.
  intros [Hn Hu]. destruct (bep_says m Ht Hu) as (M & n & HS & HC & HW & HP). exists M. split; [|now split].
  eexists _, raw, post, n. split; [reflexivity|]. split; [|split; [exact HS|exact HC]]. exact (proj1 bep3_wdenotes _ _ Hb (fits_app_l _ _ Hf) Hn).
Qed.
Lemma says_accept M : reads_torrent (raw ++ post) M -> acceptable raw m.
Proof.
  intros (m' & raw' & post' & n & E & Hw & HS & _).
  destruct (proj1 bep3_negative _ _ Hb _ Hf) as [Hn|K]; [|exfalso; exact (K _ _ _ Hw E)]. split; [exact Hn|].
  pose proof (proj1 bep3_wdenotes _ _ Hb (fits_app_l _ _ Hf) Hn) as D. destruct (wdenotes_unique _ _ _ _ _ _ D Hw E Hf) as [_ Ee]. cbn [read_as] in Ee. injection Ee as <- _.
  intros s Hs. destruct HS as (info & r & _ & _ & _ & HU & _). destruct HU as [[[A|A] _]|(v & [A _] & (vs & r' & -> & _))]; rewrite lookup_read, Hs in A; discriminate.
Qed.
Lemma accepted : (exists M, reads_torrent (raw ++ post) M) <-> acceptable raw m.
Proof. split; [intros [M H]; eapply says_accept; exact H|]. intros H. destruct (accept_says H) as (M & HM & _). eauto. Qed.
Lemma bep_no_crash : ~ crashes (raw ++ post).
Proof.
  intros [H|(w & y & e & E & Hw & Hd)]; [exact (proj1 bep3_safe _ _ Hb _ Hf H)|].
  destruct (proj1 bep3_negative _ _ Hb _ Hf) as [Hn|K]; [|exact (K _ _ _ Hw E)].
  pose proof (proj1 bep3_wdenotes _ _ Hb (fits_app_l _ _ Hf) Hn) as D. destruct (wdenotes_unique _ _ _ _ _ _ D Hw E Hf) as [_ <-]. cbn [read_as] in Hd. now eapply Hd.
Qed.
End S.

Lemma bep_downloaded cf look o f flags out file outs order raw post m :
  bep3 raw (BDict true m raw) -> bep_torrent m -> fits (raw ++ post) -> willing look o out -> o_file o file = Some (raw ++ post) ->
  ((exists k, prog_start cf look o f flags (CDownload out file) outs order = PRun k) <->
   integers (BDict true m raw) (fun n => 0 <= n) /\ forall s, lookup (str "url-list") m <> Some (BStr s)).
Proof.
  intros Hb Ht Hf (W1 & W2 & W3 & W4) Ho.
  assert (Hff : file_fits o (CDownload out file)) by (intros f' d' E1 E2; injection E1 as <-; rewrite Ho in E2; injection E2 as <-; exact Hf).
  rewrite (status_starts cf look o f flags _ outs order Hff). split.
  - intros (out' & file' & d & M & E & _ & _ & Hd & HM & _). injection E as <- <-. rewrite Ho in Hd. injection Hd as <-. eapply says_accept; eassumption.
  - intros H. destruct (accept_says raw post m Hb Ht Hf H) as (M & HM & HW & HP). exists out, file, (raw ++ post), M. repeat split; try assumption; [intros _; exact W3|]. apply Forall_forall. intros p _. apply W4.
Qed.
Lemma bep_status cf look o f flags out file outs order raw post m :
  bep3 raw (BDict true m raw) -> bep_torrent m -> fits (raw ++ post) -> willing look o out -> o_file o file = Some (raw ++ post) ->
  ~ (integers (BDict true m raw) (fun n => 0 <= n) /\ forall s, lookup (str "url-list") m <> Some (BStr s)) ->
  prog_status (prog_start cf look o f flags (CDownload out file) outs order) = Some 1.
Proof.
  intros Hb Ht Hf (W1 & W2 & W3 & W4) Ho Hn.
  assert (Hff : file_fits o (CDownload out file)) by (intros f' d' E1 E2; injection E1 as <-; rewrite Ho in E2; injection E2 as <-; exact Hf).
  apply status_ends; [exact Hff|]. apply en_torrent; [exact W1|exact W2|]. eapply fe_other; [exact Ho|eapply bep_no_crash; eassumption|].
  intros M HM. apply Hn. eapply says_accept; eassumption.
Qed.

(* ---------- numbers ---------- *)
Lemma alike_paths out M M' : named_alike M M' -> paths out M = paths out M'.
Proof.
  intros (Hn & Hl & Hp). unfold paths. rewrite <- Hn. destruct (mi_length M =? 0) eqn:E.
  - assert (E0 : mi_length M = 0) by lia. pose proof (proj1 Hl E0) as E1. rewrite E1. cbn [Z.eqb]. specialize (Hp E0).
    rewrite <- (map_map tf_path (fun p => Join (Join out (mi_name M)) (hd [] p)) (mi_files M)), <- (map_map tf_path (fun p => Join (Join out (mi_name M)) (hd [] p)) (mi_files M')). now rewrite Hp.
  - destruct (mi_length M' =? 0) eqn:E'; [|reflexivity]. assert (mi_length M' = 0) by lia. assert (mi_length M = 0) by now apply Hl. lia.
Qed.
Lemma alike_have M M' : named_alike M M' -> have_paths M -> have_paths M'.
Proof.
  intros (_ & Hl & Hp) H E'. pose proof (proj2 Hl E') as E. specialize (H E). specialize (Hp E). apply Forall_forall. intros x Hx.
  assert (Hi : In (tf_path x) (map tf_path (mi_files M))) by (rewrite Hp; now apply in_map). apply in_map_iff in Hi as (y & <- & Hy). rewrite Forall_forall in H. now apply H.
Qed.
Lemma alike_sym M M' : named_alike M M' -> named_alike M' M.
Proof. intros (H1 & H2 & H3). split; [now symmetry|]. split; [now symmetry|]. intros E. symmetry. apply H3. now apply H2. Qed.
Lemma alike_starts1 look o o' out file d d' M M' : only_file_differs o o' -> o_file o file = Some d -> o_file o' file = Some d' -> fits d -> reads_torrent d M -> reads_torrent d' M' ->
  named_alike M M' -> whole_hashes M' -> starts look o (CDownload out file) -> starts look o' (CDownload out file).
Proof.
  intros (D1 & D2 & D3) Hd Hd' Hf HM HM' HA HW (out0 & file0 & d0 & M0 & E & S1 & S2 & S3 & S4 & S5 & S6 & S7 & S8). injection E as <- <-. rewrite Hd in S3. injection S3 as <-.
  pose proof (reads_fun _ _ _ Hf HM S4) as EM. subst M0.
  exists out, file, d', M'. rewrite D1. repeat split; try assumption.
  - intros E'. rewrite D3. apply S6. now apply HA.
  - eapply alike_have; eassumption.
  - unfold creatable in *. rewrite D2, <- (alike_paths out M M' HA). exact S8.
Qed.
Lemma numbers_unchecked cf look o o' f flags out file outs order d d' M M' :
  only_file_differs o o' -> o_file o file = Some d -> o_file o' file = Some d' -> fits d -> fits d' -> reads_torrent d M -> reads_torrent d' M' -> named_alike M M' -> whole_hashes M -> whole_hashes M' ->
  ((exists k, prog_start cf look o f flags (CDownload out file) outs order = PRun k) <-> (exists k, prog_start cf look o' f flags (CDownload out file) outs order = PRun k)).
Proof.
  intros HD Hd Hd' Hf Hf' HM HM' HA HW HW'. rewrite !status_starts.
  - split; intros H; eapply alike_starts1; try eassumption; [|now apply alike_sym]. destruct HD as (D1 & D2 & D3). now repeat split.
  - intros f0 d0 E1 E2. injection E1 as <-. rewrite Hd' in E2. injection E2 as <-. exact Hf'.
  - intros f0 d0 E1 E2. injection E1 as <-. rewrite Hd in E2. injection E2 as <-. exact Hf.
Qed.
