(* Property C153: messages that tell nothing change nothing. *)
From Verif Require Import Base ModelBitset ModelMsg ModelTorrent ModelConn ModelPeer ModelSystem
  SpecPeer SpecIdle ProofSystem ProofWitness ProofIdle.

(* Reading one changes nothing but the place in Run of the peer that read it. *)
Theorem C153_one_message :
  forall sha1 w k i w' es b, exec sha1 (APeer k i) w = (w', es) -> In (k, EReadOk b) es -> tells_nothing b ->
    wo_sh w' = wo_sh w /\ wo_main w' = wo_main w /\ wo_taken w' = wo_taken w /\ wo_hand w' = wo_hand w /\ crashed w' = false /\
    (forall j, j <> k -> nth_error (wo_peers w') j = nth_error (wo_peers w) j) /\
    exists r r', nth_error (wo_peers w) k = Some r /\ nth_error (wo_peers w') k = Some r' /\
      r_peer r' = r_peer r /\ r_req r' = r_req r /\ r_sent r' = r_sent r /\ r_grp r' = r_grp r.
Proof. exact idle_changes_nothing. Qed.
(* Peers that send nothing else leave torrent, files and statistics as they were,
   and do not crash the client.                                                 *)
Theorem C153_such_peers :
  forall sha1 w0 l w tr, w_panic w0 = false -> Forall (spawns (eq false)) l -> run sha1 l (start w0) = (w, tr) ->
    (forall k b, In (k, EReadOk b) tr -> tells_nothing b) ->
    crashed w = false /\ sh_w (wo_sh w) = w0 /\ sh_ch (wo_sh w) = [].
Proof. exact idle_peers. Qed.

(* a keep-alive, port (BEP 5), an extension message (BEP 10), a request, a cancel,
   and the id the client uses internally for keep-alives                        *)
Definition idle_bodies : list bytes :=
  [[]; [9; 26; 225]; 20 :: 0 :: str "de"; 6 :: be_put 4 0 ++ be_put 4 0 ++ be_put 4 16384; 8 :: be_put 4 0 ++ be_put 4 0 ++ be_put 4 16384; [99; 1]].
Definition idle_run : list action :=
  ASpawn false 0 :: flat_map (fun b => repeat (APeer 0 go) 6 ++ [APeer 0 (rd b); APeer 0 go; APeer 0 (rd b)]) idle_bodies.
Example C153_ex : Forall tells_nothing idle_bodies /\
  map snd (snd (run (fun _ => []) idle_run (start (px 131072 2)))) = flat_map (fun b => [ESent CreateInterestedMessage; EReadOk b; EReadOk b]) idle_bodies /\
  fst (run (fun _ => []) idle_run (start (px 131072 2))) = fst (run (fun _ => []) [ASpawn false 0] (start (px 131072 2))).
Proof.
  split; [|split; vm_compute; reflexivity].
  unfold idle_bodies. apply Forall_cons; [now left|].
  repeat (apply Forall_cons; [right; eexists _, _; split; [reflexivity|] |]); try apply Forall_nil;
    first [left; lia | right; split; [lia|]; vm_compute; discriminate].
Qed.

Print Assumptions C153_one_message.
Print Assumptions C153_such_peers.
