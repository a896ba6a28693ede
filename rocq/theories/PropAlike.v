(* C147, C148: what of a torrent file has no influence on the download. *)
From Coq Require Import Permutation.
From Verif Require Import Base ProofBase ModelBencode SpecBencode ModelTorrent ModelCmd ProofCmd SpecAlike ProofAlike.

(* ---------- C147 ---------- *)
Theorem C147_entries :
  forall sha1 look o1 o2 f flags c file d1 d2 es1 es2, names_file c file -> same_os o1 o2 -> o_file o1 file = Some d1 -> o_file o2 file = Some d2 ->
    fits d1 -> fits d2 -> entries_of d1 es1 -> entries_of d2 es2 -> (forall k, In k known -> last_binding k es1 = last_binding k es2) ->
    process sha1 look o1 f flags c = process sha1 look o2 f flags c.
Proof. exact started_same. Qed.
(* in particular the order does not matter *)
Theorem C147_order :
  forall sha1 look o1 o2 f flags c file d1 d2 es1 es2, names_file c file -> same_os o1 o2 -> o_file o1 file = Some d1 -> o_file o2 file = Some d2 ->
    fits d1 -> fits d2 -> entries_of d1 es1 -> entries_of d2 es2 -> NoDup (map fst es1) -> Permutation es1 es2 ->
    process sha1 look o1 f flags c = process sha1 look o2 f flags c.
Proof. intros. eapply started_same; eauto. intros. now apply last_permuted. Qed.
(* and other keys do not *)
Theorem C147_other_keys :
  forall sha1 look o1 o2 f flags c file d1 d2 es1 es2, names_file c file -> same_os o1 o2 -> o_file o1 file = Some d1 -> o_file o2 file = Some d2 ->
    fits d1 -> fits d2 -> entries_of d1 es1 -> entries_of d2 es2 -> only known es1 = only known es2 ->
    process sha1 look o1 f flags c = process sha1 look o2 f flags c.
Proof. intros. eapply started_same; eauto. intros k Hk. rewrite <- (last_only known k es1 Hk), <- (last_only known k es2 Hk). congruence. Qed.
Definition ax_dict (m : list (bytes * ben)) : ben := BDict true m (doc_of m []).
Definition ax_list (l : list ben) : ben := BList true l ([108] ++ flat_map ProofBep.benc l ++ [101]).
Definition ax_files (more : list (bytes * ben)) : ben := ax_list [ax_dict ([(str "length", BInt 8)] ++ more ++ [(str "path", ax_list [BStr (str "a")])])].
Definition ax_info (files more : list (bytes * ben)) : ben :=
  ax_dict ([(str "files", ax_files files); (str "name", BStr (str "n")); (str "piece length", BInt 4); (str "pieces", BStr (repeat 120 40))] ++ more).
Definition ax_one : list (bytes * ben) := [(str "announce", BStr (str "http://t/a")); (str "info", ax_info [] [])].
Definition ax_two : list (bytes * ben) := [(str "zz", BInt 1); (str "info", ax_info [] []); (str "announce", BStr (str "http://t/a")); (str "azureus", ax_list [])].
Example C147_ex : let d1 := doc_of ax_one [] in let d2 := doc_of ax_two (str "rest") in
  let run d := process (fun x => x) (fun _ => CfgMissing) (cx_os d (fun _ => true)) (fun _ => None) defaults (CDownload (str "/o") (str "t")) in
  names_file (CDownload (str "/o") (str "t")) (str "t") /\ same_os (cx_os d1 (fun _ => true)) (cx_os d2 (fun _ => true)) /\ fits d1 /\ fits d2 /\
  entries_of d1 ax_one /\ entries_of d2 ax_two /\ (forall k, In k known -> last_binding k ax_one = last_binding k ax_two) /\
  d1 <> d2 /\ exists t, snd (run d1) = Download (match snd (run d2) with Download l _ => l | _ => None end) t.
Proof.
  cbv zeta. split; [right; eexists; reflexivity|]. split; [repeat split|]. split; [vm_compute; discriminate|]. split; [vm_compute; discriminate|].
  split; [apply doc_entries; vm_compute; reflexivity|]. split; [apply doc_entries; vm_compute; reflexivity|].
  split; [intros k Hk; repeat (destruct Hk as [<-|Hk]; [vm_compute; reflexivity|]); destruct Hk|]. split; [vm_compute; discriminate|]. eexists. vm_compute. reflexivity.
Qed.

(* ---------- C148 ---------- *)
Theorem C148_info_keys :
  forall sha1 look o1 o2 f flags c file d1 d2 es1 es2 i1 w1 i2 w2, names_file c file -> same_os o1 o2 -> o_file o1 file = Some d1 -> o_file o2 file = Some d2 ->
    fits d1 -> fits d2 -> entries_of d1 es1 -> entries_of d2 es2 ->
    (forall k, In k known -> k <> str "info" -> last_binding k es1 = last_binding k es2) ->
    last_binding (str "info") es1 = Some (BDict true i1 w1) -> last_binding (str "info") es2 = Some (BDict true i2 w2) -> info_alike i1 i2 ->
    fst (process sha1 look o1 f flags c) = fst (process sha1 look o2 f flags c) /\
    same_start (sha1 w1) (sha1 w2) (snd (process sha1 look o1 f flags c)) (snd (process sha1 look o2 f flags c)).
Proof. exact start_alike. Qed.
Definition ax_private : list (bytes * ben) := [(str "announce", BStr (str "http://t/a")); (str "info", ax_info [(str "md5sum", BStr (repeat 48 32))] [(str "private", BInt 1)])].
Definition ax_run (d : bytes) : outcome := snd (process (fun x => x) (fun _ => CfgMissing) (cx_os d (fun _ => true)) (fun _ => None) defaults (CDownload (str "/o") (str "t"))).
Definition ax_log (r : outcome) : option ModelLogger.logger := match r with Download l _ => l | _ => None end.
Definition ax_torrent (r : outcome) : torrent := match r with Download _ t => t | _ => mkTorrent [] [] 0 0 [] 0 [] [] [] false 0 [] [] end.
Example C148_ex : let d1 := doc_of ax_one [] in let d2 := doc_of ax_private [] in
  fits d1 /\ fits d2 /\ entries_of d1 ax_one /\ entries_of d2 ax_private /\
  (exists i1 w1 i2 w2, last_binding (str "info") ax_one = Some (BDict true i1 w1) /\ last_binding (str "info") ax_private = Some (BDict true i2 w2) /\ info_alike i1 i2) /\
  exists l t h1 h2, ax_run d1 = Download l (rehash t h1) /\ ax_run d2 = Download l (rehash t h2) /\ h1 <> h2.
Proof.
  cbv zeta. split; [vm_compute; discriminate|]. split; [vm_compute; discriminate|].
  split; [apply doc_entries; vm_compute; reflexivity|]. split; [apply doc_entries; vm_compute; reflexivity|]. split.
  - eexists _, _, _, _. split; [reflexivity|]. split; [reflexivity|]. split.
    + intros k Hk Hn. repeat (destruct Hk as [<-|Hk]; [first [congruence|vm_compute; reflexivity]|]). destruct Hk.
    + right. eexists _, _, _, _. split; [reflexivity|]. split; [reflexivity|]. constructor; [|constructor]. eexists _, _, _, _. split; [reflexivity|]. split; [reflexivity|]. split; reflexivity.
  - exists (ax_log (ax_run (doc_of ax_one []))), (ax_torrent (ax_run (doc_of ax_one []))), (t_hash (ax_torrent (ax_run (doc_of ax_one [])))), (t_hash (ax_torrent (ax_run (doc_of ax_private [])))).
    split; [vm_compute; reflexivity|]. split; [vm_compute; reflexivity|]. vm_compute. discriminate.
Qed.

Print Assumptions C147_entries.
Print Assumptions C147_order.
Print Assumptions C147_other_keys.
Print Assumptions C148_info_keys.
