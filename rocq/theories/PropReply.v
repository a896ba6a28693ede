(* What of a tracker's reply matters: C156, C157.                              *)
From Coq Require Import Permutation.
From Verif Require Import Base ProofBase ModelBencode SpecBencode ModelTracker SpecAlike ProofAlike SpecReply ProofReply.

(* ---------- C156 ---------- *)
Theorem C156_reply :
  forall parse_ip st d1 d2 es1 es2, fits d1 -> fits d2 -> entries_of d1 es1 -> entries_of d2 es2 ->
    last_binding (str "failure reason") es1 = last_binding (str "failure reason") es2 -> last_binding (str "interval") es1 = last_binding (str "interval") es2 ->
    peers_alike (last_binding (str "peers") es1) (last_binding (str "peers") es2) ->
    HttpAnnounce parse_ip (HttpBody st (Some d1)) = HttpAnnounce parse_ip (HttpBody st (Some d2)).
Proof. exact reply_alike. Qed.
(* in particular the order does not matter *)
Theorem C156_order :
  forall parse_ip st d1 d2 es1 es2, fits d1 -> fits d2 -> entries_of d1 es1 -> entries_of d2 es2 -> NoDup (map fst es1) -> Permutation es1 es2 ->
    HttpAnnounce parse_ip (HttpBody st (Some d1)) = HttpAnnounce parse_ip (HttpBody st (Some d2)).
Proof. intros. eapply reply_same; eauto. intros. now apply last_permuted. Qed.
(* and other keys do not *)
Theorem C156_other_keys :
  forall parse_ip st d1 d2 es1 es2, fits d1 -> fits d2 -> entries_of d1 es1 -> entries_of d2 es2 -> only known_reply es1 = only known_reply es2 ->
    HttpAnnounce parse_ip (HttpBody st (Some d1)) = HttpAnnounce parse_ip (HttpBody st (Some d2)).
Proof. intros. eapply reply_same; eauto. intros k Hk. rewrite <- (last_only known_reply k es1 Hk), <- (last_only known_reply k es2 Hk). congruence. Qed.
Definition rx_dict (m : list (bytes * ben)) : ben := BDict true m (doc_of m []).
Definition rx_list (l : list ben) : ben := BList true l ([108] ++ flat_map ProofBep.benc l ++ [101]).
Definition rx_peer (more : list (bytes * ben)) : ben := rx_dict ([(str "ip", BStr (str "10.0.0.1"))] ++ more ++ [(str "port", BInt 6881)]).
Definition rx_one : list (bytes * ben) := [(str "interval", BInt 1800); (str "peers", rx_list [rx_peer []])].
Definition rx_two : list (bytes * ben) :=
  [(str "warning message", BStr (str "slow")); (str "peers", rx_list [rx_peer [(str "peer id", BStr (repeat 65 20))]]); (str "min interval", BInt 900); (str "interval", BInt 1800); (str "tracker id", BStr (str "x")); (str "complete", BInt 3)].
Definition rx_ip (s : bytes) : option addr := if beq s (str "10.0.0.1") then Some (V4 [10; 0; 0; 1]) else None.
Example C156_ex : let d1 := doc_of rx_one [] in let d2 := doc_of rx_two (str "rest") in
  fits d1 /\ fits d2 /\ entries_of d1 rx_one /\ entries_of d2 rx_two /\ d1 <> d2 /\ last_binding (str "peers") rx_one <> last_binding (str "peers") rx_two /\
  peers_alike (last_binding (str "peers") rx_one) (last_binding (str "peers") rx_two) /\
  HttpAnnounce rx_ip (HttpBody 200 (Some d2)) = (Some (1800 * 1000000000), Ok [Some (V4 [10; 0; 0; 1], 6881)]).
Proof.
  cbv zeta. split; [vm_compute; discriminate|]. split; [vm_compute; discriminate|]. split; [apply doc_entries; vm_compute; reflexivity|]. split; [apply doc_entries; vm_compute; reflexivity|].
  split; [vm_compute; discriminate|]. split; [vm_compute; discriminate|]. split; [|vm_compute; reflexivity].
  right. eexists _, _, _, _. split; [reflexivity|]. split; [reflexivity|]. constructor; [|constructor]. eexists _, _, _, _. split; [reflexivity|]. split; [reflexivity|]. split; reflexivity.
Qed.

(* ---------- C157 ---------- *)
Definition rx_e6 : bytes * Z := ([32; 1; 13; 184] ++ repeat 0 11 ++ [1], 6881).
Definition rx_six : list (bytes * ben) := [(str "interval", BInt 1800); (str "peers", rx_list []); (str "peers6", BStr (compact6 rx_e6))].
Definition rx_only_six : list (bytes * ben) := [(str "interval", BInt 1800); (str "peers6", BStr (compact6 rx_e6))].
Lemma rx_e6_ok : Forall peer6 [rx_e6].
Proof. constructor; [|constructor]. split; [reflexivity|]. split; [|vm_compute; split; [discriminate|reflexivity]]. cbn. repeat (apply Forall_cons; [unfold is_byte; lia|]). constructor. Qed.
(* Expected: the peers of peers6 are among the addresses returned. *)
Theorem C157_peers6_refuted :
  ~ (forall parse_ip d es e6, fits d -> entries_of d es -> last_binding (str "failure reason") es = None -> Forall peer6 e6 ->
       last_binding (str "peers6") es = Some (BStr (flat_map compact6 e6)) ->
       (exists l r, last_binding (str "peers") es = Some (BList true l r) /\ Forall (fun v => exists a p m r', v = BDict true m r' /\ lookup (str "ip") m = Some (BStr a) /\ lookup (str "port") m = Some (BInt p)) l) ->
       exists i l, HttpAnnounce parse_ip (HttpBody 200 (Some d)) = (i, Ok l) /\ (length e6 <= length l)%nat).
Proof.
  intros H. destruct (H rx_ip (doc_of rx_six []) rx_six [rx_e6]) as (i & l & E & L).
  - vm_compute. discriminate.
  - apply doc_entries. vm_compute. reflexivity.
  - reflexivity.
  - apply rx_e6_ok.
  - reflexivity.
  - exists [], (str "le"). split; [reflexivity|constructor].
  - vm_compute in E. injection E as _ <-. cbn in L. inversion L.
Qed.
(* peers6 makes no difference; *)
Theorem C157_ignored_exact :
  forall parse_ip st d1 d2 es1 es2, fits d1 -> fits d2 -> entries_of d1 es1 -> entries_of d2 es2 ->
    filter (fun kv => negb (beq (fst kv) (str "peers6"))) es1 = filter (fun kv => negb (beq (fst kv) (str "peers6"))) es2 ->
    HttpAnnounce parse_ip (HttpBody st (Some d1)) = HttpAnnounce parse_ip (HttpBody st (Some d2)).
Proof. exact reply_peers6. Qed.
(* a reply with nothing but peers6 is an error. *)
Theorem C157_alone_exact :
  forall parse_ip st d es, fits d -> entries_of d es -> last_binding (str "peers") es = None -> exists i e, HttpAnnounce parse_ip (HttpBody st (Some d)) = (i, Err e).
Proof. exact reply_no_peers. Qed.
Example C157_ex : entries_of (doc_of rx_only_six []) rx_only_six /\ last_binding (str "peers") rx_only_six = None /\
  HttpAnnounce rx_ip (HttpBody 200 (Some (doc_of rx_only_six []))) = (Some (1800 * 1000000000), Err "successful tracker response without ").
Proof. split; [apply doc_entries; vm_compute; reflexivity|]. split; [reflexivity|]. vm_compute. reflexivity. Qed.

Print Assumptions C156_reply.
Print Assumptions C156_order.
Print Assumptions C156_other_keys.
Print Assumptions C157_peers6_refuted.
Print Assumptions C157_ignored_exact.
Print Assumptions C157_alone_exact.
