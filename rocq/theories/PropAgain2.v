(* The id a tracker gives; serving peers (properties C122 and C123).           *)
From Verif Require Import Base ProofBase ModelMsg ModelTorrent ModelConn ModelStats ModelPeer ModelSystem ModelTracker ModelManager ModelClient
  SpecMsg SpecTracker SpecManager SpecClient SpecProgram SpecAgain ProofWitness ProofClient4 ProofClient5 ProofAgain ProofAgain2.

(* ---------- C122 ---------- *)
(* Expected: after a reply with a tracker id the next announces to this tracker carry it. *)
Theorem C122_id_refuted :
  ~ (forall cf t f outs urls l1 c0 tr0 j h canc c1 u q ips es l2 c2 tr2 v u' q' r', crun cf l1 (client_start cf t f outs urls) = (c0, tr0) ->
       cexec cf (KAnn j (RHttp h canc)) c0 = (c1, VHttp j u q (Some ips) :: es) -> gives_id h v ->
       crun cf l2 c1 = (c2, tr2) -> In (VHttp j u' q' r') tr2 -> lookup (str "trackerid") q' = Some v).
Proof. exact id_refuted. Qed.
(* All announces to a tracker carry the id drawn when the tracker was created. *)
Theorem C122_own_id_exact :
  forall cf t f outs urls l c tr j, crun cf l (client_start cf t f outs urls) = (c, tr) ->
    exists id, forall u q r, In (VHttp j u q r) tr -> lookup (str "trackerid") q = Some id /\ exists x, In (KTrk j x) l /\ x_id x = id.
Proof. exact own_id. Qed.
(* the reply has the id xy; both announces have uuid *)
Example C122_ex : gives_id id_peer (str "xy") /\
  ids (snd (crun (cx_conf cx_sha1) (id_until ++ [KAnn 0 (RHttp id_peer false)] ++ id_after) (cx_start cx_sha1))) = [(0%nat, Some (str "uuid")); (0%nat, Some (str "uuid"))].
Proof. split; [exact id_gives|vm_compute; reflexivity]. Qed.

(* ---------- C123 ---------- *)
(* Expected: a peer that asks for a block of a piece that is there gets it before the
   process ends with status 0.                                                 *)
Theorem C123_serve_refuted :
  ~ (forall cf t f outs urls l1 c0 tr0 k x i off n e c1 es l2 c2 tr2, crun cf l1 (client_start cf t f outs urls) = (c0, tr0) ->
       nth_error (t_downloaded (sh_t (wo_sh (c_wo c0)))) (Z.to_nat i) = Some true -> cexec cf (KPeer k x) c0 = (c1, es) -> In e es -> asked k i off n e ->
       crun cf l2 c1 = (c2, tr2) -> client_status c2 = Some 0 -> exists d e', zlen d = n /\ In e' tr2 /\ served k i off d e').
Proof. exact serve_refuted. Qed.
(* Nothing but keep-alive and interested is ever written to a peer in Run: no piece,
   no unchoke, no have, no bitfield, no request.                               *)
Theorem C123_sent_exact :
  forall cf t f outs urls l c tr k m, crun cf l (client_start cf t f outs urls) = (c, tr) -> In (VSys k (ESent m)) tr -> Send m = frame [] \/ Send m = frame [2].
Proof. exact sent_only. Qed.
Theorem C123_never_served_exact :
  forall cf t f outs urls l c tr k i off d e, crun cf l (client_start cf t f outs urls) = (c, tr) -> In e tr -> ~ served k i off d e.
Proof. exact never_served. Qed.
(* the peer says interested, asks for the stored piece, and is sent interested *)
Example C123_ex : let '(c0, _) := crun (cx_conf cx_sha1) ask_until (cx_start cx_sha1) in
  let '(c1, es) := cexec (cx_conf cx_sha1) (KPeer 0 ask) c0 in let '(c2, tr2) := crun (cx_conf cx_sha1) ask_after c1 in
  t_downloaded (sh_t (wo_sh (c_wo c0))) = [true; false] /\ client_status c2 = Some 0 /\
  (exists e, es = [e] /\ asked 0 0 0 4 e) /\
  flat_map (fun e => match e with VSys 0 (ESent m) => [Send m] | _ => [] end) tr2 = repeat (frame [2]) 9.
Proof. vm_compute. split; [reflexivity|]. split; [reflexivity|]. split; [eexists; split; reflexivity|reflexivity]. Qed.

Print Assumptions C122_id_refuted.
Print Assumptions C122_own_id_exact.
Print Assumptions C123_serve_refuted.
Print Assumptions C123_sent_exact.
Print Assumptions C123_never_served_exact.
