(* Data on the way to the disk (C159).                                         *)
From Verif Require Import Base ModelMsg ModelTorrent ModelPeer ModelSystem.

(* accepted by a peer goroutine and not yet handed over *)
Definition offering (r : rstate) : bool := match r_pc r with PPut _ _ => true | _ => false end.
(* accepted and not yet written: with the peers, in the channel, with the writer *)
Definition waiting (w : world) : Z := zlen (filter offering (wo_peers w)) + zlen (sh_ch (wo_sh w)) + zlen (held w).
(* the goroutine cannot move, whatever its connection and its timers do *)
Definition stuck (sha1 : bytes -> bytes) (w : world) (r : rstate) : Prop := forall i, pstep sha1 i (wo_sh w) r = None.
Definition ended (r : rstate) : Prop := r_pc r = PRet \/ r_pc r = PPanic.
