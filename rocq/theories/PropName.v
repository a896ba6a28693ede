(* A peer given by its name (property C170).                                   *)
From Verif Require Import Base ProofBase Sha1 SpecBencode ModelBencode SpecText ModelUnmarshal SpecUnmarshal ModelStats ModelTorrent ModelPeer ModelSystem ModelTracker ModelManager ModelClient
  SpecTracker SpecManager SpecClient SpecCrash SpecOrigin SpecDoom SpecName ModelAddr SpecAddr ProofWitness ProofClient4 ProofClient5 ProofClient6 ProofDoom ProofDoom2 ProofName.

(* ---------- C170 ---------- *)
(* the download of cx_start with a tracker that gives one peer by its address and one
   by its name; parse_ip is netip.ParseAddr as in C128 *)
Definition nx_conf : conf := mkConf sha1 (createClientId (repeat 7 12)) 6881 30 (fun _ => Some (str "http")) parse_ip cx_bar.
Definition nx_start : client := client_start nx_conf (cx_t sha1) wx_fs [] [str "http://t/a"].
Definition nx_body : bytes := str "d8:intervali60e5:peersld2:ip11:example.com4:port4:6881ed2:ip8:10.0.0.14:port4:6881eee".
Definition nx_ask : list cact := repeat (KLoad 0) 3 ++ [KAnn 0 (RHttp (HttpBody 200 (Some nx_body)) false)].
Definition nx_before : list cact := [KMain; KTrk 0 well; KTrk 0 well] ++ repeat (KLoad 0) 3.
(* the name is handled, five times without success; then the address is reached *)
Definition nx_after : list cact := repeat (KTrk 0 well) 17.
Definition nx_course : list cact := [KMain; KTrk 0 well; KTrk 0 well] ++ nx_ask ++ nx_after.
(* Expected: as long as the process runs, had no signal and every peer that was given
   with an address is connected, it can still end with status 0.               *)
Definition names_harmless : Prop :=
  forall cf t f outs urls l c tr, ordinary t -> crun cf l (client_start cf t f outs urls) = (c, tr) -> Forall sends_bytes l -> ~ In KSignal l -> client_status c = None ->
    (forall p, In p (g_peers (c_mgr c)) -> mp_addr p <> None -> mp_conn p <> None) ->
    exists l2 c2 tr2, Forall sends_bytes l2 /\ crun cf l2 c = (c2, tr2) /\ client_status c2 = Some 0.
Lemma nx_facts : let c := fst (crun nx_conf nx_course nx_start) in
  match g_peers (c_mgr c) with [p; p'] => (mp_addr p = None /\ mp_conn p = None) /\ mp_conn p' <> None | _ => False end /\ client_status c = None.
Proof. vm_compute. repeat split; discriminate || reflexivity. Qed.
Lemma nx_ordinary : ordinary (cx_t sha1).
Proof. unfold ordinary. cbn. split; [discriminate|]. split; [repeat constructor; cbn; lia|]. unfold zlen. cbn. lia. Qed.
Lemma nx_quiet : Forall sends_bytes nx_course /\ ~ In KSignal nx_course.
Proof.
  unfold nx_course, nx_ask, nx_after. cbn [repeat app]. split; [repeat (apply Forall_cons; [|]); try apply Forall_nil; try exact I|cbn [In]; intuition discriminate].
Qed.
Theorem C170_harmless_refuted : ~ names_harmless.
Proof.
  intros H. pose proof nx_facts as F. unfold nx_start in F. destruct (crun nx_conf nx_course (client_start nx_conf (cx_t sha1) wx_fs [] [str "http://t/a"])) as [c tr] eqn:E. cbn [fst] in F. destruct F as [F1 F2], nx_quiet as [Q1 Q2].
  destruct (g_peers (c_mgr c)) as [|p [|p' [|]]] eqn:EP; try contradiction. destruct F1 as [[A B] C].
  destruct (H _ _ _ _ _ _ _ _ nx_ordinary E Q1 Q2 F2) as (l2 & c2 & tr2 & _ & R & Z).
  - rewrite EP. intros x [<-|[<-|[]]] X; [contradiction|exact C].
  - revert Z. eapply doomed; [exact E|exact Q2| |exact R]. exists p. rewrite EP. split; [now left|]. split; [exact B|now right].
Qed.
(* Whatever else happens: a reply with one entry without an address, answered with
   success, and the tracker announced to again (so its peers were all handled), both
   before any signal: the process never ends with status 0.                    *)
Theorem C170_name_dooms :
  forall cf t f outs urls l1 c1 t1 j b cn c2 u q ips e l2 c tr u' q' r' l3 c3 tr3,
    crun cf l1 (client_start cf t f outs urls) = (c1, t1) -> ~ In KSignal l1 ->
    cexec cf (KAnn j (RHttp (HttpBody 200 (Some b)) cn)) c1 = (c2, VHttp j u q (Some ips) :: e) -> fits b -> names (cf_ip cf) b ->
    crun cf l2 c2 = (c, tr) -> ~ In KSignal l2 -> In (VHttp j u' q' r') tr ->
    crun cf l3 c = (c3, tr3) -> client_status c3 <> Some 0.
Proof. exact name_never_zero. Qed.
(* and after a signal it ends with status 2 *)
Theorem C170_name_crashes :
  forall cf t f outs urls l1 c1 t1 j b cn c2 u q ips e l2 c tr u' q' r' l3 c3 tr3 s,
    crun cf l1 (client_start cf t f outs urls) = (c1, t1) -> ~ In KSignal l1 ->
    cexec cf (KAnn j (RHttp (HttpBody 200 (Some b)) cn)) c1 = (c2, VHttp j u q (Some ips) :: e) -> fits b -> names (cf_ip cf) b ->
    crun cf l2 c2 = (c, tr) -> ~ In KSignal l2 -> In (VHttp j u' q' r') tr ->
    crun cf l3 c = (c3, tr3) -> In KSignal l3 -> cfair s -> exists n, client_status (cafter cf s n c3) = Some 2.
Proof. exact name_crashes. Qed.
(* the entries that do this are the only ones that put an invalid address into the
   result of the announce *)
Theorem C170_when :
  forall parse_ip b i l, fits b -> readPeers parse_ip b = (i, Ok l) -> (In None l <-> names parse_ip b).
Proof. exact reply_names. Qed.
(* with netip.ParseAddr itself every entry that gives a host name (RFC 1123) is such an
   entry *)
Theorem C170_host_name :
  forall v m i p, is_dict v m -> lookup (str "ip") m = Some i -> lookup (str "port") m = Some p -> host_name (text i) -> no_address parse_ip v.
Proof. exact host_no_address. Qed.
Example C170_ex_host : host_name (str "example.com").
Proof.
  assert (L : forall s, forallb (fun c => (97 <=? c) && (c <=? 122)) s = true -> s <> [] -> label s).
  { intros s H N. split; [exact N|]. rewrite forallb_forall in H. apply Forall_forall. intros c Hc. specialize (H c Hc). left. left. lia. }
  apply (hn_dot (str "example") (str "com")); [apply L; [reflexivity|discriminate]|]. apply hn_last; [apply L; [reflexivity|discriminate]|].
  apply Exists_cons_hd. left. vm_compute. split; discriminate.
Qed.
(* the reply of the course above, and the tracker announced to again *)
Definition nx_again : list cact := repeat (KTrk 0 well) 2 ++ nx_ask.
Lemma nx_fits : fits nx_body.
Proof. unfold fits, zlen, MAXN. cbn. lia. Qed.
Lemma nx_names : names parse_ip nx_body.
Proof.
  unfold names. do 5 eexists. split; [vm_compute; reflexivity|]. split; [vm_compute; reflexivity|]. split; [eexists; reflexivity|]. split; [left; reflexivity|].
  do 3 eexists. split; [eexists; reflexivity|]. split; [vm_compute; reflexivity|]. split; [vm_compute; reflexivity|]. left. vm_compute. reflexivity.
Qed.
Definition is_http (e : cev) : bool := match e with VHttp 0 _ _ (Some _) => true | _ => false end.
Example C170_ex_hyps :
  fits nx_body /\ names (cf_ip nx_conf) nx_body /\ ~ In KSignal nx_before /\ ~ In KSignal (nx_after ++ nx_again) /\
  let c1 := fst (crun nx_conf nx_before nx_start) in
  let '(c2, es) := cexec nx_conf (KAnn 0 (RHttp (HttpBody 200 (Some nx_body)) false)) c1 in
  match es with VHttp 0 _ _ (Some ips) :: _ => In None ips | _ => False end /\ existsb is_http (snd (crun nx_conf (nx_after ++ nx_again) c2)) = true /\
  client_status (fst (crun nx_conf (nx_after ++ nx_again) c2)) = None.
Proof.
  split; [exact nx_fits|]. split; [exact nx_names|]. split; [unfold nx_before; cbn [repeat app In]; intuition discriminate|].
  split; [unfold nx_after, nx_again, nx_ask; cbn [repeat app In]; intuition discriminate|]. vm_compute. split; [now left|]. split; reflexivity.
Qed.
(* the whole torrent is downloaded from the peer with the address; then the signal
   comes and the process panics *)
Definition nx_pieces : list cact := repeat (KPeer 0 go) 6 ++ cx_piece 0 [1; 2; 3; 4] ++ cx_piece 1 [5; 6; 7; 8].
Example C170_ex : let c := fst (crun nx_conf (nx_course ++ nx_pieces ++ [KSignal]) nx_start) in
  Done (sh_t (wo_sh (c_wo c))) = true /\ client_status c = None /\ client_status (cafter nx_conf cturns 60 c) = Some 2.
Proof. cbv zeta. refine (conj _ (conj _ _)); vm_compute; reflexivity. Qed.
(* without the entry that gives a name the same course ends with status 0      *)
Definition nx_plain : list cact := [KMain; KTrk 0 well; KTrk 0 well] ++ announce1 ++ repeat (KTrk 0 well) 5 ++ nx_pieces ++ [KSignal].
Example C170_ex_plain : let c := fst (crun nx_conf nx_plain nx_start) in
  Done (sh_t (wo_sh (c_wo c))) = true /\ client_status c = None /\ client_status (cafter nx_conf cturns 90 c) = Some 0.
Proof. cbv zeta. refine (conj _ (conj _ _)); vm_compute; reflexivity. Qed.
Example C170_ex_when : exists i l, readPeers parse_ip nx_body = (i, Ok l) /\ In None l /\ l = [None; Some (V4 [10; 0; 0; 1], 6881)].
Proof. do 2 eexists. split; [vm_compute; reflexivity|]. split; [now left|reflexivity]. Qed.

Print Assumptions C170_harmless_refuted.
Print Assumptions C170_name_dooms.
Print Assumptions C170_name_crashes.
Print Assumptions C170_when.
Print Assumptions C170_host_name.
