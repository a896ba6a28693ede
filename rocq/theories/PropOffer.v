(* What the client makes of tracker replies: properties C87-C89 of properties.jsonl. *)
From Verif Require Import Base ModelBencode SpecText SpecBencode ModelUnmarshal SpecUnmarshal ModelTracker SpecTracker ModelManager SpecManager SpecOffer
  ProofTracker2 ProofManager ProofManager2 ProofManager3 ProofManager4 ProofOffer.

(* ---------- C87 ---------- *)
Theorem C87_http_success :
  forall parse_ip r i l, (forall st b, r = HttpBody st (Some b) -> fits b) ->
    (HttpAnnounce parse_ip r = (i, Ok l) <->
     exists b m raw n v vs, r = HttpBody 200 (Some b) /\ Parse b = Ok (BDict true m raw) /\ no_failure m /\
       interval_of m n /\ i = Some (wrap64 (n * 1000000000)) /\
       lookup (str "peers") m = Some v /\ v <> BNil /\ is_list v vs /\ Forall2 (entry_of parse_ip) vs l).
Proof. exact http_success. Qed.
(* whatever the body says *)
Theorem C87_status :
  forall parse_ip st b, st <> 200 -> exists e, HttpAnnounce parse_ip (HttpBody st b) = (None, Err e).
Proof. exact http_status. Qed.
Theorem C87_failure_reason :
  forall parse_ip st b m raw v i l, fits b -> Parse b = Ok (BDict true m raw) -> lookup (str "failure reason") m = Some v -> v <> BNil -> text v <> [] ->
    HttpAnnounce parse_ip (HttpBody st (Some b)) <> (i, Ok l).
Proof. exact http_failure. Qed.
Example C87_ex :
  HttpAnnounce (fun s => if beq s (str "::1") then Some (V6 s) else None) (HttpBody 200 (Some (str "d8:intervali1800e5:peersld2:ip3:::14:port4:6881eee"))) =
    (Some 1800000000000, Ok [Some (V6 (str "::1"), 6881)]) /\
  HttpAnnounce (fun s => if beq s (str "::1") then Some (V6 s) else None) (HttpBody 503 (Some (str "d8:intervali1800e5:peersld2:ip3:::14:port4:6881eee"))) =
    (None, Err "tracker error response") /\
  HttpAnnounce (fun _ => None) (HttpBody 200 (Some (str "d14:failure reason4:full5:peerslee"))) = (None, Err "tracker failure").
Proof. repeat split; vm_compute; reflexivity. Qed.

(* ---------- C88 ---------- *)
(* After a reply with addresses ips, at any later time: before the next round of the
   tracker a beginning of ips has been offered to the pool, and all of it when the
   round is over (unless another goroutine panics meanwhile). *)
Theorem C88_all_offered :
  forall n l g tr j i k ips l2 g2 t2,
    grun l (NewMng n) = (g, tr) -> g_panic g = false -> nth_error (g_trk g) j = Some (TTry k) -> i_ann i = AnnOk ips ->
    grun (XTrk j i :: l2) g = (g2, t2) ->
    (forall ta tb, t2 = ta ++ GRound j :: tb -> ~ In (GRound j) ta -> offered j ta = ips) /\
    (~ In (GRound j) t2 ->
       (exists rest, ips = offered j t2 ++ rest) /\ (forall c, nth_error (g_trk g2) j = Some c -> between c -> offered j t2 = ips)).
Proof. exact all_offered. Qed.
(* the second address is known already *)
Example C88_ex : let '(g, tr) := grun [XDownload 1; XTrk 0 tgo; XTrk 0 tgo] (NewMng 30) in
  g_trk g = [TTry 0] /\
  let '(g2, t2) := grun (XTrk 0 (told [ap1; ap1; ap2]) :: repeat (XTrk 0 tgo) 12) g in
  t2 = [GAnn 0 true; GAdd 0 ap1 true; GDial 0 0; GRun 0 0; GAdd 0 ap1 false; GAdd 0 ap2 true; GDial 0 1; GRun 0 1; GRound 0] /\ offered 0 t2 = [ap1; ap1; ap2].
Proof. vm_compute. repeat split; reflexivity. Qed.

(* ---------- C89 ---------- *)
Theorem C89_every_peer_tried :
  forall n l g tr k p, grun l (NewMng n) = (g, tr) -> nth_error (g_peers g) k = Some p ->
    match mp_state p with
    | PsNew => busy_with g k
    | PsFailed => g_cancel g = true \/ dials k tr = 5%nat
    | PsRun | PsEnded => (1 <= dials k tr <= 5)%nat
    end.
Proof. exact every_peer_tried. Qed.
(* so when no goroutine is busy connecting and nothing has been cancelled *)
Theorem C89_all_tried :
  forall n l g tr k p, grun l (NewMng n) = (g, tr) -> g_cancel g = false -> (forall j c, nth_error (g_trk g) j = Some c -> owner c = None) ->
    nth_error (g_peers g) k = Some p -> (1 <= dials k tr)%nat /\ (mp_state p = PsFailed -> dials k tr = 5%nat).
Proof. exact all_tried. Qed.
Example C89_ex : let '(g, tr) := grun (removelast unreachable) (NewMng 30) in
  map mp_state (g_peers g) = [PsFailed] /\ dials 0 tr = 5%nat /\ g_cancel g = false /\ map owner (g_trk g) = [None].
Proof. vm_compute. repeat split; reflexivity. Qed.
Example C89_ex_run : let '(g, tr) := grun one_peer (NewMng 30) in map mp_state (g_peers g) = [PsRun] /\ dials 0 tr = 1%nat.
Proof. vm_compute. repeat split; reflexivity. Qed.

Print Assumptions C87_http_success.
Print Assumptions C87_status.
Print Assumptions C87_failure_reason.
Print Assumptions C88_all_offered.
Print Assumptions C89_every_peer_tried.
Print Assumptions C89_all_tried.
