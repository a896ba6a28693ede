(* Bencode and torrent files as the BEPs have them: C138, C139, C144.           *)
From Coq Require Import Sorted.
From Verif Require Import Base ProofBase ModelBencode SpecBencode ModelStats ModelTorrent ModelConn ModelPeer ModelSystem ModelTracker ModelManager ModelClient ModelCmd ModelProgram
  ModelUnmarshal SpecUnmarshal SpecCmd SpecStatus SpecBep ProofCmd ProofClient4 ProofBep ProofBepTorrent ProofStatus.

(* ---------- C138 ---------- *)
(* Expected: bencode as BEP 3 has it gives its value. *)
Theorem C138_read_refuted :
  ~ (forall w e post, bep3 w e -> fits (w ++ post) -> Parse (w ++ post) = Ok e).
Proof.
  intros H. assert (B : bep3 (str "i-3e") (BInt (-3))) by (apply (bepb_sound (BInt (-3))); vm_compute; reflexivity).
  specialize (H _ _ [] B ltac:(vm_compute; discriminate)). vm_compute in H. discriminate H.
Qed.
(* Expected: what is accepted has its value. *)
Theorem C138_value_refuted :
  ~ (forall w e e' post, bep3 w e -> fits (w ++ post) -> Parse (w ++ post) = Ok e' -> e' = e).
Proof.
  intros H. assert (B : bep3 (str "i922337203685477581e") (BInt 922337203685477581)) by (apply (bepb_sound (BInt 922337203685477581)); vm_compute; reflexivity).
  assert (P : Parse (str "i922337203685477581e" ++ []) = Ok (BInt (-922337203685477580))) by (vm_compute; reflexivity).
  specialize (H _ _ _ [] B ltac:(vm_compute; discriminate) P). discriminate H.
Qed.
(* It is refused, with an error, exactly if there is a negative integer in it; *)
Theorem C138_refused_exact :
  forall w e post, bep3 w e -> fits (w ++ post) -> ((exists s, Parse (w ++ post) = Err s) <-> ~ integers e (fun n => 0 <= n)).
Proof. exact bep_refused. Qed.
(* otherwise its integers are what int_read makes of them, and all else is right; *)
Theorem C138_value_exact :
  forall w e post, bep3 w e -> fits (w ++ post) -> integers e (fun n => 0 <= n) -> Parse (w ++ post) = Ok (read_as e).
Proof. exact bep_read. Qed.
(* so that it has its value exactly if all integers are between 0 and (2^63 - 8) / 10. *)
Theorem C138_right_exact :
  forall w e post, bep3 w e -> fits (w ++ post) -> (Parse (w ++ post) = Ok e <-> integers e (fun n => 0 <= n <= 922337203685477580)).
Proof. exact bep_right. Qed.
Definition bx_val : ben :=
  BDict true [(str "last", BList true [BInt 5; BStr (str "abc")] (str "li5e3:abce")); (str "size", BDict true [(str "max", BInt 7)] (str "d3:maxi7ee"))] (str "d4:lastli5e3:abce4:sized3:maxi7eee").
Example C138_ex : bep3 (str "d4:lastli5e3:abce4:sized3:maxi7eee") bx_val /\ Parse (str "d4:lastli5e3:abce4:sized3:maxi7eee" ++ str "rest") = Ok bx_val /\
  bep3 (str "d1:ai-1ee") (BDict true [(str "a", BInt (-1))] (str "d1:ai-1ee")) /\ (exists s, Parse (str "d1:ai-1ee") = Err s) /\
  bep3 (str "li18446744073709551616ee") (BList true [BInt 18446744073709551616] (str "li18446744073709551616ee")) /\
  Parse (str "li18446744073709551616ee") = Ok (BList true [BInt 0] (str "li18446744073709551616ee")).
Proof.
  split; [apply (bepb_sound bx_val); vm_compute; reflexivity|]. split; [vm_compute; reflexivity|].
  split; [apply (bepb_sound (BDict true [(str "a", BInt (-1))] (str "d1:ai-1ee"))); vm_compute; reflexivity|]. split; [eexists; vm_compute; reflexivity|].
  split; [apply (bepb_sound (BList true [BInt 18446744073709551616] (str "li18446744073709551616ee"))); vm_compute; reflexivity|]. vm_compute; reflexivity.
Qed.
(* not in order, leading zero, -0 *)
Example C138_ex_not : ~ bep3 (str "i03e") (BInt 3) /\ ~ bep3 (str "i-0e") (BInt 0) /\ ~ StronglySorted before [str "b"; str "a"] /\ Parse (str "i03e") = Ok (BInt 3).
Proof.
  split; [|split; [|split]].
  - intros H. inversion H as [ds n (Hd & Hn & Hz & Hv) E| | | |].
    assert (E' : ds ++ [101] = [48; 51] ++ [101]) by exact E. apply app_inj_tail in E' as [-> _]. specialize (Hz eq_refl). discriminate Hz.
  - intros H. inversion H as [ds n (Hd & _) E|ds n (Hd & _ & _ & Hv) Hn E| | |].
    + assert (E' : ds ++ [101] = [45; 48] ++ [101]) by exact E. apply app_inj_tail in E' as [-> _]. inversion Hd as [|? ? Hc]. unfold digit in Hc. lia.
    + lia.
  - intros H. inversion H as [|? ? _ F]; subst. inversion F as [|? ? B]; subst. inversion B; subst; lia.
  - vm_compute. reflexivity.
Qed.

(* ---------- C139 ---------- *)
Notation tx_info := (str "d6:lengthi8e4:name1:n12:piece lengthi4e6:pieces40:" ++ repeat 120 40 ++ str "e") (only parsing).
Definition tx_doc (more : bytes) : bytes :=
  str "d8:announce10:http://t/a13:announce-listll10:http://t/ael10:http://t/bee13:creation datei1700000000e4:info" ++ tx_info ++ more ++ str "e".
Definition tx_val (more : bytes) : ben := match Parse (tx_doc more) with Ok e => e | _ => BNil end.
Definition tx_dict (more : bytes) : list (bytes * ben) := match tx_val more with BDict _ m _ => m | _ => [] end.
Definition tx_string : bytes := str "8:url-list10:http://w/a".
Definition tx_list : bytes := str "8:url-listl10:http://w/ae".
Lemma tx_bep more : bepb (tx_val more) = true -> benc (tx_val more) = tx_doc more -> tx_val more = BDict true (tx_dict more) (tx_doc more) -> bep3 (tx_doc more) (BDict true (tx_dict more) (tx_doc more)).
Proof. intros H1 H2 H3. rewrite <- H2 at 1. rewrite <- H3. now apply bepb_sound. Qed.
Lemma tx_torrent more : (more = tx_string \/ more = tx_list) -> bep_torrent (tx_dict more).
Proof.
  intros H. assert (SZ : forall n, (0 <=? n) && (n <? 2 ^ 63) = true -> size n) by (intros; unfold size; lia). split; [|split; [|split; [|split]]].
  - exists (str "http://t/a"). destruct H; subst; vm_compute; reflexivity.
  - intros v Hv. exists [BList true [BStr (str "http://t/a")] (str "l10:http://t/ae"); BList true [BStr (str "http://t/b")] (str "l10:http://t/be")]. eexists. split.
    + destruct H; subst; vm_compute in Hv; injection Hv as <-; reflexivity.
    + constructor; [exists [str "http://t/a"]; eexists; reflexivity|]. constructor; [exists [str "http://t/b"]; eexists; reflexivity|constructor].
  - intros v Hv. destruct H; subst; vm_compute in Hv; injection Hv as <-.
    + left. exists (str "http://w/a"). reflexivity.
    + right. exists [str "http://w/a"]. eexists. reflexivity.
  - intros v Hv. exists 1700000000. split; [destruct H; subst; vm_compute in Hv; injection Hv as <-; reflexivity|]. now apply SZ.
  - exists [(str "length", BInt 8); (str "name", BStr (str "n")); (str "piece length", BInt 4); (str "pieces", BStr (repeat 120 40))]. eexists. split; [destruct H; subst; vm_compute; reflexivity|].
    split; [exists (str "n"); reflexivity|]. split; [exists 4; split; [reflexivity|split; [now apply SZ|discriminate]]|]. split; [eexists; split; reflexivity|]. left. split; [exists 8; split; [reflexivity|now apply SZ]|reflexivity].
Qed.
Lemma tx_willing more : willing (fun _ => CfgMissing) (cx_os (tx_doc more) (fun _ => true)) (str "/o").
Proof. repeat split; discriminate. Qed.
(* Expected: a torrent file as the BEPs have them is downloaded, if the operating
   system and the configuration put nothing in the way.                        *)
Theorem C139_accepted_refuted :
  ~ (forall cf look o f flags out file outs order raw post m,
       bep3 raw (BDict true m raw) -> bep_torrent m -> fits (raw ++ post) -> willing look o out -> o_file o file = Some (raw ++ post) ->
       exists k, prog_start cf look o f flags (CDownload out file) outs order = PRun k).
Proof.
  intros H.
  specialize (H (cx_conf (fun x => x)) (fun _ => CfgMissing) (cx_os (tx_doc tx_string) (fun _ => true)) (fun _ => None) defaults (str "/o") (str "t") [] (fun x => x) (tx_doc tx_string) [] (tx_dict tx_string)).
  destruct H as [k H].
  - apply tx_bep; vm_compute; reflexivity.
  - apply tx_torrent. now left.
  - vm_compute. discriminate.
  - apply tx_willing.
  - rewrite app_nil_r. reflexivity.
  - vm_compute in H. discriminate H.
Qed.
(* It is downloaded exactly if no integer in it, in whatever place, is negative and its
   url-list, if it has one, is a list; *)
Theorem C139_accepted_exact :
  forall cf look o f flags out file outs order raw post m,
    bep3 raw (BDict true m raw) -> bep_torrent m -> fits (raw ++ post) -> willing look o out -> o_file o file = Some (raw ++ post) ->
    ((exists k, prog_start cf look o f flags (CDownload out file) outs order = PRun k) <->
     integers (BDict true m raw) (fun n => 0 <= n) /\ forall s, lookup (str "url-list") m <> Some (BStr s)).
Proof. exact bep_downloaded. Qed.
(* otherwise the status is 1. *)
Theorem C139_status_exact :
  forall cf look o f flags out file outs order raw post m,
    bep3 raw (BDict true m raw) -> bep_torrent m -> fits (raw ++ post) -> willing look o out -> o_file o file = Some (raw ++ post) ->
    ~ (integers (BDict true m raw) (fun n => 0 <= n) /\ forall s, lookup (str "url-list") m <> Some (BStr s)) ->
    prog_status (prog_start cf look o f flags (CDownload out file) outs order) = Some 1.
Proof. exact bep_status. Qed.
Example C139_ex : bep3 (tx_doc tx_list) (BDict true (tx_dict tx_list) (tx_doc tx_list)) /\ bep_torrent (tx_dict tx_list) /\ fits (tx_doc tx_list) /\
  exists k, prog_start (cx_conf (fun x => x)) (fun _ => CfgMissing) (cx_os (tx_doc tx_list) (fun _ => true)) (fun _ => None) defaults (CDownload (str "/o") (str "t")) [] (fun x => x) = PRun k.
Proof.
  split; [apply tx_bep; vm_compute; reflexivity|]. split; [apply tx_torrent; now right|]. split; [vm_compute; discriminate|]. eexists. vm_compute. reflexivity.
Qed.

(* ---------- C144 ---------- *)
Definition nx_doc (more : bytes) : bytes := str "d8:announce10:http://t/a4:infod6:length" ++ more ++ str "ee".
(* piece length 0; a negative length, written as text; no hashes *)
Definition nx_zero : bytes := nx_doc (str "i8e4:name1:n12:piece lengthi0e6:pieces0:").
Definition nx_neg : bytes := nx_doc (str "2:-54:name1:n12:piece lengthi4e6:pieces0:").
Definition nx_good : bytes := nx_doc (str "i8e4:name1:n12:piece lengthi4e6:pieces40:" ++ repeat 120 40).
Definition nx_meta (d : bytes) : metainfo := metainfo_of (fst (UnmarshalMetainfo d)).
Lemma nx_reads d : fits d -> snd (UnmarshalMetainfo d) = Ok tt -> reads_torrent d (nx_meta d).
Proof. intros Hf H. unfold nx_meta. destruct (UnmarshalMetainfo d) as [g r] eqn:E. cbn in *. subst r. now apply unmarshal_reads. Qed.
(* Expected: a download begins only if the piece length is positive, no length is
   negative and there are as many hashes as pieces.                            *)
Theorem C144_numbers_refuted :
  ~ (forall cf look o f flags out file outs order d M k, o_file o file = Some d -> fits d -> reads_torrent d M ->
       prog_start cf look o f flags (CDownload out file) outs order = PRun k -> sensible M).
Proof.
  intros H. specialize (H (cx_conf (fun x => x)) (fun _ => CfgMissing) (cx_os nx_zero (fun _ => true)) (fun _ => None) defaults (str "/o") (str "t") [] (fun x => x) nx_zero (nx_meta nx_zero)).
  assert (P : exists k, prog_start (cx_conf (fun x => x)) (fun _ => CfgMissing) (cx_os nx_zero (fun _ => true)) (fun _ => None) defaults (CDownload (str "/o") (str "t")) [] (fun x => x) = PRun k) by (eexists; vm_compute; reflexivity).
  destruct P as [k P]. destruct (H k) as (H1 & _); [reflexivity|vm_compute; discriminate|apply nx_reads; [vm_compute; discriminate|vm_compute; reflexivity]|exact P|]. vm_compute in H1. discriminate H1.
Qed.
(* The numbers make no difference to whether it begins, except that a length of 0 or
   no length at all is that of a torrent with files, and that the hashes are whole. *)
Theorem C144_unchecked_exact :
  forall cf look o o' f flags out file outs order d d' M M',
    only_file_differs o o' -> o_file o file = Some d -> o_file o' file = Some d' -> fits d -> fits d' -> reads_torrent d M -> reads_torrent d' M' ->
    named_alike M M' -> whole_hashes M -> whole_hashes M' ->
    ((exists k, prog_start cf look o f flags (CDownload out file) outs order = PRun k) <-> (exists k, prog_start cf look o' f flags (CDownload out file) outs order = PRun k)).
Proof. exact numbers_unchecked. Qed.
Example C144_ex : reads_torrent nx_good (nx_meta nx_good) /\ sensible (nx_meta nx_good) /\ reads_torrent nx_neg (nx_meta nx_neg) /\ mi_length (nx_meta nx_neg) = -5 /\ mi_pieces (nx_meta nx_neg) = [] /\
  named_alike (nx_meta nx_good) (nx_meta nx_neg) /\ whole_hashes (nx_meta nx_good) /\ whole_hashes (nx_meta nx_neg) /\
  exists k, prog_start (cx_conf (fun x => x)) (fun _ => CfgMissing) (cx_os nx_neg (fun _ => true)) (fun _ => None) defaults (CDownload (str "/o") (str "t")) [] (fun x => x) = PRun k.
Proof.
  assert (L1 : mi_length (nx_meta nx_good) = 8) by (vm_compute; reflexivity). assert (L2 : mi_length (nx_meta nx_neg) = -5) by (vm_compute; reflexivity).
  split; [apply nx_reads; [vm_compute; discriminate|vm_compute; reflexivity]|]. split.
  { unfold sensible, lengths. rewrite L1. replace (mi_piece_length (nx_meta nx_good)) with 4 by (vm_compute; reflexivity). split; [lia|]. split; [cbn; constructor; [lia|constructor]|]. exists 2. split; [vm_compute; reflexivity|]. cbn. lia. }
  split; [apply nx_reads; [vm_compute; discriminate|vm_compute; reflexivity]|]. split; [exact L2|]. split; [vm_compute; reflexivity|]. split.
  { split; [vm_compute; reflexivity|]. rewrite L1, L2. split; [split; discriminate|discriminate]. }
  split; [vm_compute; reflexivity|]. split; [vm_compute; reflexivity|]. eexists. vm_compute. reflexivity.
Qed.

Print Assumptions C138_read_refuted.
Print Assumptions C138_value_refuted.
Print Assumptions C138_refused_exact.
Print Assumptions C138_value_exact.
Print Assumptions C138_right_exact.
Print Assumptions C139_accepted_refuted.
Print Assumptions C139_accepted_exact.
Print Assumptions C139_status_exact.
Print Assumptions C144_numbers_refuted.
Print Assumptions C144_unchecked_exact.
