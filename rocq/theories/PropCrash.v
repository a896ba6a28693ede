(* Crashes of the whole client (property C117).                                *)
From Verif Require Import Base ProofBase Sha1 ModelBencode ModelBitset ModelMsg ModelTorrent ModelConn ModelStats ModelPeer ModelSystem ModelTracker ModelManager ModelClient
  SpecMsg SpecBencode SpecPeer SpecTracker SpecManager SpecClient SpecCrash ProofWitness ProofClient4 ProofClient5 ProofClient6 ProofCrash PropStats.

(* printing panics exactly when PrintBar does *)
Definition bar_of (s : stats) : bool := match PrintBar s with Panic => true | _ => false end.
Definition cr_conf : conf :=
  mkConf sha1 (createClientId (repeat 7 12)) 6881 30 (fun _ => Some (str "http")) (fun _ => Some (V4 [10; 0; 0; 1])) bar_of.
Example C117_ex_bar : real_bar cr_conf.
Proof. intros s. cbn. unfold bar_of. destruct (PrintBar s); split; congruence. Qed.
Definition cr_start : client := client_start cr_conf (cx_t sha1) wx_fs [] [str "http://t/a"].
Definition cr (l : list cact) : client := fst (crun cr_conf l cr_start).

(* ---------- C117 ---------- *)
(* The full claim. *)
Theorem C117_never_crashes_refuted :
  ~ (forall cf t f outs urls l c tr, crun cf l (client_start cf t f outs urls) = (c, tr) -> dead c = false).
Proof.
  intros H. specialize (H cr_conf (cx_t sha1) wx_fs [] [str "http://t/a"] (cx_connect ++ repeat (KPeer 0 go) 6 ++ [KPeer 0 (rd [4; 0])])).
  destruct (crun _ _ _) as [c tr] eqn:E. specialize (H c tr eq_refl). vm_compute in E. inversion E; subst c tr. discriminate H.
Qed.
(* The causes, all of them. *)
Theorem C117_causes_exact :
  forall cf t f outs urls l c tr a, crun cf l (client_start cf t f outs urls) = (c, tr) -> dead c = false -> c_exit c = false -> held_reply a ->
    (dead (fst (cexec cf a c)) = true <-> culprit cf c a).
Proof. intros cf t f outs urls l c tr a H. apply crash_exact. do 6 eexists. exact H. Qed.
(* Without a signal, with well-formed replies and messages, an ordinary torrent and no
   more data than it has, nothing crashes. *)
Theorem C117_never_crashes_partial :
  forall cf t f outs urls l c tr, real_bar cf -> ordinary t -> Forall (calm (zlen (t_pieces t))) l ->
    crun cf l (client_start cf t f outs urls) = (c, tr) -> total_len (handed (sevs tr)) <= t_length t -> dead c = false.
Proof.
  intros cf t f outs urls l c tr RB OR HC. apply no_crash; [exact OR|exact HC|]. intros s H1 H2. apply Bool.not_true_is_false. intros B. apply RB in B.
  destruct (C35_print_never_crashes_partial s H1 H2) as (bar & txt & P & _). congruence.
Qed.
(* a download of both pieces *)
Example C117_ex : ordinary (cx_t sha1) /\ Forall (calm 2) (cx_download ++ cx_again ++ [KPrint true]) /\
  let '(c, tr) := crun cr_conf (cx_download ++ cx_again ++ [KPrint true]) cr_start in
  total_len (handed (sevs tr)) = 8 /\ Done (sh_t (wo_sh (c_wo c))) = true /\ dead c = false.
Proof.
  split; [|split].
  - unfold ordinary. cbn. split; [discriminate|]. split; [repeat constructor; cbn; lia|]. unfold zlen. cbn. lia.
  - assert (B : forall a, match a with KPeer _ i => i_read i = None | KSignal | KAnn _ _ => False | _ => True end -> calm 2 a).
    { intros []; cbn; try tauto. intros -> b0 X. discriminate. }
    assert (BY : forall l, forallb (fun x => (0 <=? x) && (x <? 256)) l = true -> Forall is_byte l).
    { intros l X. rewrite forallb_forall in X. apply Forall_forall. intros x Hx. specialize (X x Hx). unfold is_byte. lia. }
    assert (RP : forall i d, Forall is_byte (piece_body i 0 d) -> 0 <= i < 2 -> 4 <= zlen d -> calm 2 (KPeer 0 (rd (piece_body i 0 d)))).
    { intros i d HB Hi Hd b X. inversion X; subst. split; [exact HB|]. intros (ty & r & Y & Z). assert (Y1 : ty = 7) by (inversion Y; reflexivity). assert (Y2 : r = be_put 4 i ++ be_put 4 0 ++ d) by (inversion Y; reflexivity). clear X Y. subst ty r. destruct Z as [Z|[_ Z]].
      - revert Z. unfold piece_body. rewrite zlen_cons, !ProofProgress.zlen_app. cbn [be_put zlen length app]. change (min_body 7) with 9. unfold zlen in *. cbn [length] in *. lia.
      - apply Z. change (firstn 4 (be_put 4 i ++ be_put 4 0 ++ d)) with (be_put 4 i). rewrite be_get_put. change (256 ^ Z.of_nat 4) with (2 ^ 32). rewrite Z.mod_small by lia. exact Hi. }
    assert (RA : calm 2 (KAnn 0 (RHttp one_peer false))).
    { cbn. split; [vm_compute; discriminate|]. intros [X|(e & X & Y)]; [vm_compute in X; discriminate X|]. vm_compute in X. inversion X; subst. eapply Y. reflexivity. }
    unfold cx_download, cx_again, cx_connect, announce1, cx_piece. cbn [repeat app].
    repeat (constructor; [first [apply B; exact I | apply B; reflexivity | exact RA | apply RP; [apply BY; reflexivity|lia|vm_compute; discriminate]]|]). constructor.
  - vm_compute. repeat split; reflexivity.
Qed.
(* one crash for every cause: a reply that is a number *)
Definition asked : list cact := [KMain; KTrk 0 well; KTrk 0 well] ++ repeat (KLoad 0) 3.
Example C117_ex_reply : dead (cr asked) = false /\ dead (cr (asked ++ [KAnn 0 (RHttp (HttpBody 200 (Some (str "i5e"))) false)])) = true.
Proof. vm_compute. split; reflexivity. Qed.
(* a signal between the reply and AddPeer *)
Example C117_ex_nil : let l := asked ++ [KAnn 0 (RHttp one_peer false); KSignal] ++ repeat KMain 5 in dead (cr l) = false /\ dead (cr (l ++ [KTrk 0 well])) = true.
Proof. vm_compute. split; reflexivity. Qed.
(* a signal between AddPeer and the connection *)
Example C117_ex_stop : let l := asked ++ [KAnn 0 (RHttp one_peer false); KTrk 0 well; KSignal] ++ repeat KMain 4 in dead (cr l) = false /\ dead (cr (l ++ [KMain])) = true.
Proof. vm_compute. split; reflexivity. Qed.
(* a message with two bytes, a piece the torrent does not have *)
Example C117_ex_message : let l := cx_connect ++ repeat (KPeer 0 go) 6 in dead (cr l) = false /\ dead (cr (l ++ [KPeer 0 (rd [4; 0])])) = true /\
  dead (cr (l ++ [KPeer 0 (rd (piece_body 2 0 []))])) = true.
Proof. vm_compute. repeat split; reflexivity. Qed.
(* a signal while a peer that came late has a piece to hand over *)
Example C117_ex_closed : let l := [KMain; KMain] ++ tl cx_connect ++ repeat (KPeer 0 go) 6 ++ [KPeer 0 (rd (piece_body 0 0 [1; 2; 3; 4])); KSignal; KMain; KMain] in
  dead (cr l) = false /\ dead (cr (l ++ [KPeer 0 go])) = true.
Proof. vm_compute. split; reflexivity. Qed.
(* a file of length -4 behind one of 8 bytes *)
Definition cr_t : torrent :=
  mkTorrent [[]] cx_hash 4 12 [mkPiece 0 (sha1 (repeat 1 12))] 1 [mkTfile 8 [str "a"]; mkTfile (-4) [str "b"]] [wx_place; wx_place] (str "n") true 0 [false] [false].
Example C117_ex_write : let c l := fst (crun cr_conf l (client_start cr_conf cr_t wx_fs [] [str "http://t/a"])) in
  let l := cx_connect ++ repeat (KPeer 0 go) 6 ++ [KPeer 0 (rd (piece_body 0 0 (repeat 1 12))); KPeer 0 go; KWriter; KWriter; KWriter] in
  dead (c l) = false /\ dead (c (l ++ [KWriter])) = true.
Proof. vm_compute. split; reflexivity. Qed.
(* a third piece of a torrent with two *)
Example C117_ex_print : let l := cx_twice ++ repeat (KPeer 0 go) 5 ++ cx_piece 0 [1; 2; 3; 4] in dead (cr (l ++ [KPrint true])) = true /\ dead (cr l) = false /\ dead (cr (cx_twice ++ [KPrint true])) = false.
Proof. vm_compute. repeat split; reflexivity. Qed.

Print Assumptions C117_never_crashes_refuted.
Print Assumptions C117_causes_exact.
Print Assumptions C117_never_crashes_partial.
