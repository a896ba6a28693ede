(* Property C154: accepted pieces are written. *)
From Verif Require Import Base ModelBitset ModelMsg ModelTorrent ModelConn ModelPeer ModelSystem
  SpecPeer SpecTurns ProofSystem ProofWitness ProofTurns.

(* The messages written are the first of those accepted: in their order, each once,
   none left out.                                                               *)
Theorem C154_in_order :
  forall sha1 w0 l w tr, run sha1 l (start w0) = (w, tr) ->
    wo_taken w = firstn (length (wo_taken w)) (handed tr) /\ w_fs (sh_w (wo_sh w)) = w_fs (WritePiece w0 (wo_taken w)).
Proof. exact written_in_order. Qed.
(* The n-th message accepted is written once the writer has had two turns for each
   message up to it, whatever the others do in between.                         *)
Theorem C154_in_turn :
  forall sha1 w0 l1 w1 tr1 n m l2 w2 tr2,
    run sha1 l1 (start w0) = (w1, tr1) -> nth_error (handed tr1) n = Some m ->
    run sha1 l2 w1 = (w2, tr2) -> crashed w2 = false -> (2 * S n <= 2 * length (wo_taken w1) + turns l2)%nat ->
    nth_error (wo_taken w2) n = Some m.
Proof. exact written_in_turn. Qed.

(* one piece accepted; then the context is cancelled, Download returns and the writer
   still has its two turns in between                                           *)
Definition tx_first : list action := AMain :: ASpawn false 0 :: to_read 0 ++ [APeer 0 (rd (piece_body 0 0 [1; 2; 3; 4])); APeer 0 go].
Definition tx_then : list action := [ACancel; AWriter; APeer 0 go; APeer 0 go; AMain; AWriter; AMain].
Definition tx_sha1 (d : bytes) : bytes := firstn 20 (d ++ repeat 0 20).
Definition tx_1 := run tx_sha1 tx_first (wx_start tx_sha1).
Definition tx_2 := run tx_sha1 tx_then (fst tx_1).
Example C154_ex : length (handed (snd tx_1)) = 1%nat /\ wo_taken (fst tx_1) = [] /\ turns tx_then = 2%nat /\ crashed (fst tx_2) = false /\
  wo_taken (fst tx_2) = handed (snd tx_1) /\ w_fs (sh_w (wo_sh (fst tx_2))) wx_place = Some [1; 2; 3; 4].
Proof. vm_compute. repeat split; reflexivity. Qed.

Print Assumptions C154_in_order.
Print Assumptions C154_in_turn.
