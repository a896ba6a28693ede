(* Trackers are announced to again and again (property C121).                  *)
From Verif Require Import Base ProofBase ModelMsg ModelTorrent ModelConn ModelStats ModelPeer ModelSystem ModelTracker ModelManager ModelClient
  SpecTracker SpecManager SpecClient SpecProgram SpecAgain ProofWitness ProofClient4 ProofClient5 ProofAgain.

(* Expected: as long as the process runs there is always a next announce to every
   tracker with a supported URL.                                                *)
Theorem C121_again_refuted :
  ~ (forall cf t f outs urls s j u, nth_error urls j = Some u -> http_url cf u \/ udp_url cf u -> (forall n, s n <> KSignal) -> keeps_going cf u j s ->
       forall n, exists m, (n <= m)%nat /\ (client_status (cafter cf s m (client_start cf t f outs urls)) = Some 2 \/ announces cf s (client_start cf t f outs urls) j m)).
Proof. exact again_refuted. Qed.
(* It is so for http and https, and for udp if the socket opens when it is first tried. *)
Theorem C121_again_partial :
  forall cf t f outs urls s j u, nth_error urls j = Some u -> (forall n, s n <> KSignal) -> keeps_going cf u j s ->
    (forall n y, s n = KTrk j y -> creating (cafter cf s n (client_start cf t f outs urls)) j -> http_url cf u \/ udp_url cf u /\ x_ok y = true) ->
    forall n, exists m, (n <= m)%nat /\ (client_status (cafter cf s m (client_start cf t f outs urls)) = Some 2 \/ announces cf s (client_start cf t f outs urls) j m).
Proof. exact again. Qed.
(* Otherwise the tracker is never announced to, whatever happens later. *)
Theorem C121_never_again_exact :
  forall cf t f outs urls l1 c1 tr1 j u x l2 c2 tr2, nth_error urls j = Some u -> crun cf l1 (client_start cf t f outs urls) = (c1, tr1) -> creating c1 j ->
    ~ (http_url cf u \/ udp_url cf u /\ x_ok x = true) -> crun cf (KTrk j x :: l2) c1 = (c2, tr2) -> client_status c1 = None ->
    forall e, In e (tr1 ++ tr2) -> ~ announce_by j e.
Proof. exact forgotten. Qed.
(* a schedule without end, and the announces in its first 100 steps *)
Definition steady : nat -> cact := by_turns well (RHttp one_peer false).
Example C121_ex_hyps : (forall n, steady n <> KSignal) /\ keeps_going (cx_conf cx_sha1) (str "http://t/a") 0 steady /\ http_url (cx_conf cx_sha1) (str "http://t/a").
Proof. split; [exact (by_turns_calm well _)|]. split; [apply by_turns_going; [reflexivity|now left]|now left]. Qed.
Example C121_ex : let '(c, tr) := crun (cx_conf cx_sha1) (map steady (seq 0 100)) (cx_start cx_sha1) in
  client_status c = None /\ length (filter (fun e => match e with VHttp 0 _ _ _ => true | _ => false end) tr) = 4%nat.
Proof. vm_compute. split; reflexivity. Qed.
(* a UDP tracker whose socket does not open at first: creating, then nothing *)
Example C121_ex_udp : creating (fst (crun ux_conf [KMain] ux_start)) 0 /\
  snd (crun ux_conf (KMain :: KTrk 0 ill :: map (by_turns well ux_reply) (seq 0 100)) ux_start) = [].
Proof. vm_compute. split; reflexivity. Qed.
(* ... and one whose socket does *)
Example C121_ex_udp_again : length (filter (fun e => match e with VUdp 0 _ _ => true | _ => false end)
  (snd (crun ux_conf (map (by_turns well ux_reply) (seq 0 100)) ux_start))) = 7%nat.
Proof. vm_compute. reflexivity. Qed.

Print Assumptions C121_again_refuted.
Print Assumptions C121_again_partial.
Print Assumptions C121_never_again_exact.
