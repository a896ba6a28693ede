(* Peers whose connection was lost (property C173).                            *)
From Verif Require Import Base ProofBase Sha1 ModelStats ModelTorrent ModelPeer ModelSystem ModelTracker ModelManager ModelClient
  SpecManager SpecClient SpecGone ProofWitness ProofClient4 ProofGone.

(* ---------- C173 ---------- *)
(* the connection of the only peer fails: a keep-alive can not be sent          *)
Definition cx_cut : list cact := cx_connect ++ repeat (KPeer 0 (mkI true false None true)) 8.
(* Expected: when no peer is left, the download is not complete and a tracker names a
   peer whose Run has returned, something is attempted with it in some continuation
   in which the trackers name no one else.                                     *)
Theorem C173_again_refuted :
  ~ forall cf t f outs urls l1 c1 tr1, crun cf l1 (client_start cf t f outs urls) = (c1, tr1) -> none_left c1 ->
      client_status c1 = None -> Done (sh_t (wo_sh (c_wo c1))) = false -> (exists p, In p (g_peers (c_mgr c1)) /\ mp_state p = PsEnded) ->
      exists l2 c2 tr2, crun cf l2 c1 = (c2, tr2) /\ named_before c1 tr2 /\ exists e, In e tr2 /\ with_peer e.
Proof.
  intros H. destruct (crun (cx_conf sha1) cx_cut (cx_start sha1)) as [c1 tr1] eqn:E.
  assert (N : none_left c1 /\ client_status c1 = None /\ Done (sh_t (wo_sh (c_wo c1))) = false /\ exists p, In p (g_peers (c_mgr c1)) /\ mp_state p = PsEnded).
  { vm_compute in E. injection E as <- _. split; [split; intros x [<-|[]]; vm_compute; auto|]. split; [reflexivity|]. split; [reflexivity|]. eexists. split; [left; reflexivity|reflexivity]. }
  destruct N as (N & S & D & P). destruct (H _ _ _ _ _ _ _ _ E N S D P) as (l2 & c2 & tr2 & E2 & B & e & I & W).
  exact (proj2 (proj2 (gone_for_good _ _ _ _ _ _ _ _ E N _ _ _ E2 B)) e I W).
Qed.
(* When no peer is left, and from then on the trackers name only peers they named
   before, nothing is ever attempted with a peer again: no dial, no handshake, no
   message.  The pool stays as it is.                                          *)
Theorem C173_gone_exact :
  forall cf t f outs urls l1 c1 tr1, crun cf l1 (client_start cf t f outs urls) = (c1, tr1) -> none_left c1 ->
    forall l2 c2 tr2, crun cf l2 c1 = (c2, tr2) -> named_before c1 tr2 ->
      none_left c2 /\ g_peers (c_mgr c2) = g_peers (c_mgr c1) /\ forall e, In e tr2 -> ~ with_peer e.
Proof. exact gone_for_good. Qed.
(* If, besides, all that was received has been written, the files and the pieces had
   stay as they are: an incomplete download is never completed.                *)
Theorem C173_incomplete_exact :
  forall cf t f outs urls l1 c1 tr1, crun cf l1 (client_start cf t f outs urls) = (c1, tr1) -> none_left c1 ->
    sh_ch (wo_sh (c_wo c1)) = [] -> wo_hand (c_wo c1) = None ->
    forall l2 c2 tr2, crun cf l2 c1 = (c2, tr2) -> named_before c1 tr2 -> sh_w (wo_sh (c_wo c2)) = sh_w (wo_sh (c_wo c1)).
Proof. exact gone_data. Qed.
(* lost after the first of two pieces                                          *)
Example C173_ex_incomplete : let '(c1, tr1) := crun (cx_conf sha1) (cx_connect ++ repeat (KPeer 0 go) 6 ++ cx_piece 0 [1; 2; 3; 4] ++ repeat (KPeer 0 (mkI true false None true)) 8) (cx_start sha1) in
  map mp_state (g_peers (c_mgr c1)) = [PsEnded] /\ map r_pc (wo_peers (c_wo c1)) = [PRet] /\ sh_ch (wo_sh (c_wo c1)) = [] /\ wo_hand (c_wo c1) = None /\
  t_downloaded (sh_t (wo_sh (c_wo c1))) = [true; false] /\
  w_fs (sh_w (wo_sh (c_wo (fst (crun (cx_conf sha1) (cx_again ++ repeat (KTrk 0 well) 3 ++ [KWriter; KWriter]) c1))))) wx_place = w_fs (sh_w (wo_sh (c_wo c1))) wx_place.
Proof. vm_compute. repeat split; reflexivity. Qed.
(* the tracker names the lost peer twice more; the process goes on without it   *)
Example C173_ex : let '(c1, tr1) := crun (cx_conf sha1) cx_cut (cx_start sha1) in
  let '(c2, tr2) := crun (cx_conf sha1) (cx_again ++ repeat (KTrk 0 well) 3 ++ cx_again ++ repeat (KTrk 0 well) 3) c1 in
  map mp_state (g_peers (c_mgr c1)) = [PsEnded] /\ map r_pc (wo_peers (c_wo c1)) = [PRet] /\ client_status c2 = None /\
  length (filter (fun e => match e with VMgr (GAdd 0 a false) => match a, map mp_addr (g_peers (c_mgr c1)) with Some _, [Some _] => true | _, _ => false end | _ => false end) tr2) = 2%nat /\
  length (filter (fun e => match e with VMgr (GAdd _ _ true) | VMgr (GDial _ _) => true | _ => false end) tr2) = 0%nat.
Proof. vm_compute. repeat split; reflexivity. Qed.
(* a peer not named before is dialled                                          *)
Definition other_peer : httpres := HttpBody 200 (Some (str "d8:intervali60e5:peersld2:ip8:10.0.0.24:port4:6882eee")).
Example C173_ex_other : let '(c1, tr1) := crun (cx_conf sha1) cx_cut (cx_start sha1) in
  let '(c2, tr2) := crun (cx_conf sha1) (repeat (KTrk 0 well) 2 ++ repeat (KLoad 0) 3 ++ [KAnn 0 (RHttp other_peer false)] ++ repeat (KTrk 0 well) 5) c1 in
  length (filter (fun e => match e with VMgr (GDial _ _) => true | _ => false end) tr2) = 1%nat.
Proof. vm_compute. reflexivity. Qed.

Print Assumptions C173_again_refuted.
Print Assumptions C173_gone_exact.
Print Assumptions C173_incomplete_exact.
