(* Lemmas about a peer's timing.                                                *)
From Verif Require Import Base ProofBase ModelMsg ModelTorrent ModelPeer ModelSystem ModelTimed SpecTimed ProofDue ProofSystem.

Lemma due_since d now t : d = now - t -> 0 <= d -> due (Since now t) = (114000000000 <=? d).
Proof.
  intros -> H. unfold Since. rewrite due_iff by lia. destruct (Z.leb_spec 114000000000 (now - t)); [apply Z.leb_le|apply Z.leb_gt]; lia.
Qed.
Lemma last_write_snoc t0 tr s : last_write t0 (tr ++ [s]) = if existsb is_write (t_es s) then x_now (t_to s) else last_write t0 tr.
Proof. revert t0. induction tr as [|s' tr IH]; intros t0; cbn; [now destruct (existsb _ _)|]. apply IH. Qed.
Lemma body_pc sha1 t u r b : let c := r_pc (handle_body sha1 t u r b) in c = (if u then PReq else PTop) \/ (exists m, c = PPut u m) \/ c = PPanic.
Proof.
  cbn. unfold handle_body. destruct (NewPeerMessage b); cbn; auto. destruct (handlePeerMessage _ _ _ _); cbn; eauto.
Qed.

Local Opaque due Since.
(* all cases of a step *)
Ltac tcases HS :=
  let HD := fresh "HD" in let HT := fresh "HT" in let s' := fresh "s'" in let r' := fresh "r'" in let HP := fresh "HP" in
  destruct HS as (HD & HT & s' & r' & HP & ->); unfold may_take in HT; unfold next_last, next_att; unfold pstep, wait, create in HP;
  match type of HT with context [r_pc (x_r ?x)] => destruct (r_pc (x_r x)) eqn:PC end; cbv iota in HP;
  repeat first
    [ discriminate HP
    | match type of HP with
      | context [let '(_, _) := createPieceMessage ?p in _] => destruct (createPieceMessage p) eqn:?
      | context [match ?y with _ => _ end] => first [ is_var y; destruct y | destruct y eqn:? ]
      end ];
  inversion HP; subst; clear HP.

Definition allow (lag : Z) (c : pc) : Z :=
  match c with
  | PTop => 116 * second + 5 * lag
  | PDone => 116 * second + 6 * lag
  | PKeep => 116 * second + 7 * lag
  | PChoke => 114 * second + lag
  | PUTop | PReq => 114 * second + 2 * lag
  | PUSend | PNext | PRead => 114 * second + 3 * lag
  | PNil | PSend => 114 * second + 4 * lag
  | PReadWait | PPut false _ => 115 * second + 4 * lag
  | PUWait | PPut true _ => 1 * second + lag
  | _ => 0
  end.
Definition first_att (c : pc) : bool := match c with PNext | PNil | PSend | PSendWait | PRead | PReadWait => true | _ => false end.

Record timely (lag lw : Z) (x : tstate) : Prop := mkTimely {
  tm_last : x_last x <= lw <= x_now x;
  tm_gap : running x -> x_now x - lw <= allow lag (r_pc (x_r x));
  tm_att : first_att (r_pc (x_r x)) = true -> x_att x = 0
}.
Lemma timely_step sha1 lag a x es x' lw : 0 <= lag -> timely lag lw x -> txstep sha1 lag a x es x' -> (forall m, In (EPut m) es -> ti_el a <= lag) ->
  timely lag (if existsb is_write es then x_now x' else lw) x'.
Proof.
  intros HL [T1 T2 T3] HS HU. 
  assert (D0 : 0 <= x_now x - x_last x) by lia. pose proof (due_since _ _ _ eq_refl D0) as DS.
  tcases HS.
  all: assert (RX : running x) by (split; rewrite PC; discriminate); specialize (T2 RX); rewrite ?PC in *; cbn [allow first_att] in T2, T3.
  all: try (match goal with |- context [handle_body ?a ?b ?c ?d ?e] => destruct (body_pc a b c d e) as [BP|[[m BP]|BP]] end).
  all: cbn [existsb is_write orb t_es t_to x_now] in *.
  all: constructor; cbn [x_now x_last x_att x_r at_pc r_pc with_peer].
  all: rewrite ?BP.
  all: cbn [allow first_att].
  all: unfold PeerTimeout, second, backoff_at, bo_min, bo_max in *.
  all: repeat match goal with H : exists d, _ |- _ => destruct H as (? & ? & ? & ?) | H : _ /\ _ |- _ => destruct H end.
  all: try match goal with
    | |- true = true -> _ => intros _
    | |- false = true -> _ => let H := fresh in intros H; discriminate H
    | |- running _ -> _ => let R1 := fresh in let R2 := fresh in intros [R1 R2]; cbn [x_r r_pc at_pc with_peer] in R1, R2; rewrite ?BP in R1, R2; try (exfalso; first [apply R1; reflexivity | apply R2; reflexivity]); clear R1 R2
    end.
  all: try match goal with E : false = due _ |- _ => rewrite DS in E; symmetry in E; apply Z.leb_gt in E end.
  all: try (pose proof (HU _ (or_introl eq_refl)) as HU1).
  all: clear HU DS.
  all: try (pose proof (T3 eq_refl) as T4; rewrite ?T4 in *; change (2 ^ 0) with 1 in * ).
  all: unfold second in *; lia.
Qed.
Lemma unblocked_app lag t1 t2 : unblocked lag (t1 ++ t2) -> unblocked lag t1 /\ unblocked lag t2.
Proof. intros H. split; intros s m HI; apply (H s m); apply in_or_app; auto. Qed.
Lemma timely_exec sha1 lag x0 tr x t0 : 0 <= lag -> texec sha1 lag x0 tr x -> unblocked lag tr -> timely lag t0 x0 -> timely lag (last_write t0 tr) x.
Proof.
  intros HL HE. induction HE as [|x0 tr x a es x' HE IH HS]; intros HU HT; [exact HT|].
  apply unblocked_app in HU. destruct HU as [HU1 HU2]. rewrite last_write_snoc. cbn [t_es t_to].
  eapply timely_step; [exact HL|apply IH; assumption|exact HS|]. intros m HI. apply (HU2 (mkTS x a es x') m); [now left|exact HI].
Qed.
Lemma begun_timely lag x t0 : 0 <= lag -> begun x t0 -> timely lag t0 x.
Proof.
  intros HL (F1 & F2 & F3). constructor.
  - exact F2.
  - intros _. rewrite F1. cbn [allow]. unfold sec, second in *. lia.
  - rewrite F1. discriminate.
Qed.
Lemma allow_max lag c : 0 <= lag -> allow lag c <= 116 * second + 7 * lag.
Proof. intros H. unfold second. destruct c; cbn [allow]; unfold second; try lia. destruct u; lia. Qed.
Lemma no_silence sha1 lag x0 tr x t0 : 0 <= lag <= second / 2 -> begun x0 t0 -> texec sha1 lag x0 tr x -> unblocked lag tr -> running x ->
  x_now x - last_write t0 tr < 120 * second.
Proof.
  intros [HL HL2] HF HE HU HR. destruct (timely_exec _ _ _ _ _ t0 HL HE HU (begun_timely lag _ _ HL HF)) as [T1 T2 T3].
  specialize (T2 HR). pose proof (allow_max lag (r_pc (x_r x)) HL). change (second / 2) with 500000000 in HL2. unfold second in *. lia.
Qed.

(* ---------- time goes on ---------- *)
Lemma step_time sha1 lag a x es x' : 0 <= lag -> txstep sha1 lag a x es x' -> x_now x <= x_now x' /\ x_now x' = x_now x + ti_el a.
Proof.
  intros HL (_ & HT & s' & r' & _ & ->). cbn [x_now]. split; [|reflexivity]. unfold may_take in HT. unfold PeerTimeout, second in HT.
  destruct (r_pc (x_r x)); try lia; repeat match goal with H : exists d, _ |- _ => destruct H as (? & ? & ? & ?) | H : _ /\ _ |- _ => destruct H end;
    unfold backoff_at, bo_min in *; destruct (i_timer _); lia.
Qed.
Lemma exec_time sha1 lag x0 tr x : 0 <= lag -> texec sha1 lag x0 tr x -> x_now x0 <= x_now x.
Proof. intros HL HE. induction HE; [lia|]. pose proof (step_time _ _ _ _ _ _ HL H). lia. Qed.

(* ---------- keep-alives ---------- *)
Lemma last_step sha1 lag a x es x' : 0 <= lag -> x_last x <= x_now x -> txstep sha1 lag a x es x' ->
  x_last x <= x_last x' <= x_now x' /\ (x_last x' = x_last x \/ x_last x' = x_now x').
Proof.
  intros HL H HS. pose proof (step_time _ _ _ _ _ _ HL HS) as [T _]. destruct HS as (_ & _ & s' & r' & _ & ->). cbn [x_last x_now] in *.
  unfold next_last. destruct (r_pc (x_r x)); try lia. destruct es as [|[] [|]]; lia.
Qed.
Lemma keep_last t0 tr s : last_keep t0 (tr ++ [s]) = if keeps s then x_now (t_to s) else last_keep t0 tr.
Proof. revert t0. induction tr as [|s' tr IH]; intros t0; cbn; [now destruct (keeps s)|]. apply IH. Qed.
Lemma exec_last sha1 lag x0 tr x : texec sha1 lag x0 tr x -> x_last x = last_keep (x_last x0) tr.
Proof.
  intros HE. induction HE as [|x0 tr x a es x' HE IH HS]; [reflexivity|]. rewrite keep_last. unfold keeps. cbn [t_from t_es t_to].
  destruct HS as (_ & _ & s' & r' & _ & ->). cbn [x_last x_now]. unfold next_last. rewrite <- IH.
  destruct (r_pc (x_r x)); try reflexivity. destruct es as [|[] [|]]; reflexivity.
Qed.
Lemma exec_last_le sha1 lag x0 tr x : 0 <= lag -> texec sha1 lag x0 tr x -> x_last x0 <= x_now x0 -> x_last x0 <= x_last x <= x_now x.
Proof.
  intros HL HE. induction HE as [|x0 tr x a es x' HE IH HS]; intros H; [lia|]. specialize (IH H).
  pose proof (last_step sha1 lag a x es x' HL ltac:(lia) HS). lia.
Qed.
Lemma keepalive_exact sha1 lag x0 tr x a es x' : 0 <= lag -> x_last x0 <= x_now x0 -> texec sha1 lag x0 tr x -> r_pc (x_r x) = PKeep -> txstep sha1 lag a x es x' ->
  (existsb is_write es = true <-> 114 * second <= x_now x - last_keep (x_last x0) tr).
Proof.
  intros HL H0 HE PC HS. rewrite <- (exec_last _ _ _ _ _ HE). pose proof (exec_last_le _ _ _ _ _ HL HE H0) as HB.
  pose proof (due_since _ (x_now x) (x_last x) eq_refl ltac:(lia)) as DS.
  destruct HS as (HD & _ & s' & r' & HP & _). unfold pstep in HP. rewrite PC in HP. rewrite HD, DS in HP. unfold second.
  destruct (Z.leb_spec 114000000000 (x_now x - x_last x)) as [L|L].
  - destruct (i_ok (ti_i a)); inversion HP; subst; cbn; (split; [intros _; lia|reflexivity]).
  - inversion HP; subst; cbn. split; [discriminate|lia].
Qed.
Lemma exec_snoc_inv sha1 lag x0 tr s x : texec sha1 lag x0 (tr ++ [s]) x ->
  exists y a es, s = mkTS y a es x /\ texec sha1 lag x0 tr y /\ txstep sha1 lag a y es x.
Proof.
  intros H. remember (tr ++ [s]) as l eqn:E. destruct H as [|? tr' y a es x' HE HS].
  - destruct tr; discriminate E.
  - apply app_inj_tail in E. destruct E as [-> <-]. exists y, a, es. auto.
Qed.
Lemma exec_app_inv sha1 lag x0 t1 t2 x : texec sha1 lag x0 (t1 ++ t2) x -> exists y, texec sha1 lag x0 t1 y /\ texec sha1 lag y t2 x.
Proof.
  revert x. induction t2 as [|s t2 IH] using rev_ind; intros x H.
  - rewrite app_nil_r in H. exists x. split; [exact H|constructor].
  - rewrite app_assoc in H. apply exec_snoc_inv in H. destruct H as (y & a & es & -> & HE & HS).
    destruct (IH _ HE) as (z & A & B). exists z. split; [exact A|]. econstructor; eassumption.
Qed.
Lemma exec_nil_inv sha1 lag x y : texec sha1 lag x [] y -> x = y.
Proof. intros H. remember [] as l eqn:E. destruct H; [reflexivity|]. destruct tr; discriminate E. Qed.
Lemma exec_one sha1 lag x s y : texec sha1 lag x [s] y -> exists a es, s = mkTS x a es y /\ txstep sha1 lag a x es y.
Proof. intros H. apply (exec_snoc_inv sha1 lag x []) in H. destruct H as (z & a & es & -> & HE & HS). apply exec_nil_inv in HE. subst. eauto. Qed.
Lemma keepalives_apart sha1 lag x0 x ta s1 tb s2 tc : 0 <= lag -> x_last x0 <= x_now x0 -> texec sha1 lag x0 (ta ++ s1 :: tb ++ s2 :: tc) x ->
  keeps s1 = true -> keeps s2 = true -> 114 * second <= x_now (t_from s2) - x_now (t_to s1).
Proof.
  intros HL H0 HE K1 K2.
  assert (E : ta ++ s1 :: tb ++ s2 :: tc = ((ta ++ [s1]) ++ tb) ++ [s2] ++ tc) by (rewrite <- !app_assoc; reflexivity). rewrite E in HE. clear E.
  apply exec_app_inv in HE. destruct HE as (y & HE1 & HE2). apply exec_app_inv in HE2. destruct HE2 as (z & HS2 & _).
  apply exec_one in HS2. destruct HS2 as (a2 & es2 & -> & HS2). cbn [t_from].
  pose proof HE1 as HE. apply exec_app_inv in HE. destruct HE as (y1 & HA & HB). pose proof HA as HA0.
  apply exec_app_inv in HA. destruct HA as (y0 & HA1 & HA2). apply exec_one in HA2. destruct HA2 as (a1 & es1 & -> & HS1). cbn [t_to].
  pose proof (exec_last_le _ _ _ _ _ HL HA1 H0) as L0. pose proof (last_step sha1 lag a1 y0 es1 y1 HL ltac:(lia) HS1) as [L1 _].
  assert (N1 : x_last y1 = x_now y1).
  { rewrite (exec_last _ _ _ _ _ HA0), keep_last, K1. reflexivity. }
  pose proof (exec_last_le sha1 lag y1 tb y HL HB ltac:(lia)) as L2.
  assert (PC : r_pc (x_r y) = PKeep /\ existsb is_write es2 = true).
  { unfold keeps in K2. cbn [t_from t_es] in K2. destruct (r_pc (x_r y)); try discriminate. destruct es2 as [|[] [|]]; try discriminate. auto. }
  destruct PC as [PC W]. apply (keepalive_exact _ _ _ _ _ _ _ _ HL H0 HE1 PC HS2) in W. rewrite <- (exec_last _ _ _ _ _ HE1) in W. lia.
Qed.

(* ---------- a dead connection ---------- *)
Definition dead_allow (g lag : Z) (c : pc) : Z :=
  match c with
  | PTop => g
  | PDone => g + lag
  | PKeep => g + 2 * lag
  | PChoke => 114 * second + lag
  | PReq => 114 * second + 2 * lag
  | PNext | PRead => 114 * second + 3 * lag
  | PNil | PSend => 114 * second + 4 * lag
  | PReadWait => 115 * second + 4 * lag
  | PSendWait => 115 * second + 5 * lag
  | _ => 0
  end.
Definition in_loop (c : pc) : bool := match c with PUTop | PUSend | PURead | PUWait | PPut _ _ => false | _ => true end.
Record ending (g lag : Z) (x0 x : tstate) : Prop := mkEnding {
  en_last : x_last x = x_last x0;
  en_le : x_last x <= x_now x;
  en_choked : choked x = false;
  en_loop : in_loop (r_pc (x_r x)) = true;
  en_gap : running x -> x_now x - x_last x <= dead_allow g lag (r_pc (x_r x));
  en_att : first_att (r_pc (x_r x)) = true -> x_att x = 0
}.
Lemma create_status p : cl_status (fst (createPieceMessage p)) = cl_status p.
Proof. reflexivity. Qed.
Lemma ending_step sha1 g lag a x es x' x0 : 0 <= lag -> 116 * second + 6 * lag <= g -> ending g lag x0 x -> dead (mkTS x a es x') -> txstep sha1 lag a x es x' ->
  ending g lag x0 x'.
Proof.
  intros HL HG [E1 E2 E3 E4 E5 E6] [D1 D2] HS. cbn [t_in] in D1, D2.
  pose proof (due_since _ (x_now x) (x_last x) eq_refl ltac:(lia)) as DS.
  pose proof (step_time _ _ _ _ _ _ HL HS) as [TT _].
  unfold choked in *. revert TT.
  tcases HS.
  all: intros TT.
  all: try discriminate E4.
  all: try discriminate D1.
  all: try discriminate D2.
  all: try discriminate E3.
  all: assert (RX : running x) by (split; rewrite PC; discriminate); specialize (E5 RX); rewrite ?PC in *; cbn [dead_allow first_att] in E5, E6.
  all: cbn [x_now] in TT.
  all: constructor; cbn [x_now x_last x_att x_r at_pc r_pc r_peer with_peer in_loop dead_allow first_att].
  all: try exact E1; try reflexivity; try exact E3.
  all: try match goal with H : createPieceMessage ?p = (?c, _) |- choked _ = false =>
    unfold choked; cbn [x_r r_peer]; change c with (fst (c, m)); rewrite <- H, create_status; exact E3 end.
  all: try match goal with |- choked _ = false => unfold choked; cbn [x_r r_peer at_pc]; assumption end.
  all: try match goal with
    | |- true = true -> _ => intros _
    | |- false = true -> _ => let H := fresh in intros H; discriminate H
    | |- running _ -> _ => let R1 := fresh in let R2 := fresh in intros [R1 R2]; cbn [x_r r_pc at_pc with_peer] in R1, R2; try (exfalso; first [apply R1; reflexivity | apply R2; reflexivity]); clear R1 R2
    end.
  all: try match goal with E : false = due _ |- _ => rewrite DS in E; symmetry in E; apply Z.leb_gt in E end.
  all: try (pose proof (E6 eq_refl) as T4; rewrite ?T4 in *; change (2 ^ 0) with 1 in * ).
  all: unfold PeerTimeout, backoff_at, bo_min, bo_max, second in *.
  all: repeat match goal with H : exists d, _ |- _ => destruct H as (? & ? & ? & ?) | H : _ /\ _ |- _ => destruct H end.
  all: clear D1 D2 DS E4 E6.
  all: try clear E3.
  all: lia.
Qed.
Lemma ending_exec sha1 g lag x0 tr x : 0 <= lag -> 116 * second + 6 * lag <= g -> texec sha1 lag x0 tr x -> Forall dead tr -> ending g lag x0 x0 -> ending g lag x0 x.
Proof.
  intros HL HG HE. induction HE as [|x0 tr x a es x' HE IH HS]; intros HD H0; [exact H0|].
  apply Forall_app in HD. destruct HD as [HD1 HD2]. inversion HD2; subst. eapply ending_step; [exact HL|exact HG|apply IH; assumption|eassumption|exact HS].
Qed.
Lemma dead_allow_max g lag c : 0 <= lag -> 116 * second + 6 * lag <= g -> dead_allow g lag c <= g + 2 * lag.
Proof. unfold second. intros H1 H2. destruct c; cbn [dead_allow]; unfold second; lia. Qed.
Lemma dead_ends sha1 lag x0 tr x : 0 <= lag -> r_pc (x_r x0) = PTop -> x_last x0 <= x_now x0 -> choked x0 = false ->
  texec sha1 lag x0 tr x -> Forall dead tr -> running x -> x_now x <= Z.max (x_now x0) (x_last x0 + 116 * second + 6 * lag) + 2 * lag.
Proof.
  intros HL PC H0 HC HE HD HR.
  remember (Z.max (x_now x0 - x_last x0) (116 * second + 6 * lag)) as g eqn:G.
  assert (HG : 116 * second + 6 * lag <= g) by lia.
  assert (HI : ending g lag x0 x0).
  { constructor; try reflexivity; try assumption; rewrite PC; try reflexivity; try discriminate. intros _. cbn [dead_allow]. lia. }
  destruct (ending_exec _ _ _ _ _ _ HL HG HE HD HI) as [E1 _ _ _ E5 _]. specialize (E5 HR).
  pose proof (dead_allow_max g lag (r_pc (x_r x)) HL HG). lia.
Qed.

(* ---------- waits ---------- *)
Lemma att_step sha1 lag a x es x' : 0 <= lag -> txstep sha1 lag a x es x' -> (first_att (r_pc (x_r x)) = true -> x_att x = 0) -> first_att (r_pc (x_r x')) = true -> x_att x' = 0.
Proof.
  intros HL HS T3. tcases HS.
  all: cbn [first_att] in T3.
  all: try (match goal with |- context [handle_body ?a ?b ?c ?d ?e] => destruct (body_pc a b c d e) as [BP|[[m BP]|BP]] end).
  all: cbn [x_att x_r at_pc r_pc with_peer].
  all: rewrite ?BP; cbn [first_att]; intros F; first [discriminate F | reflexivity | exact (T3 eq_refl)].
Qed.
Lemma att_exec sha1 lag x0 tr x : 0 <= lag -> texec sha1 lag x0 tr x -> r_pc (x_r x0) = PTop -> first_att (r_pc (x_r x)) = true -> x_att x = 0.
Proof.
  intros HL HE PC. induction HE as [|x0 tr x a es x' HE IH HS]; [rewrite PC; discriminate|]. eapply att_step; [exact HL|exact HS|exact (IH PC)].
Qed.
Lemma filter_snoc {A} (f : A -> bool) l x : filter f (l ++ [x]) = filter f l ++ (if f x then [x] else []).
Proof. rewrite filter_app. cbn. now destruct (f x). Qed.
Lemma run_wait sha1 lag x0 tr x d : 0 <= lag -> texec sha1 lag x0 tr x -> r_pc (x_r x0) = PTop -> In d (run_waits tr) -> bo_min <= d <= bo_min + lag.
Proof.
  intros HL HE PC. unfold run_waits. induction HE as [|x0 tr x a es x' HE IH HS]; [intros []|]. rewrite filter_snoc, map_app. intros HI.
  apply in_app_or in HI. destruct HI as [HI|HI]; [exact (IH PC HI)|].
  destruct (in_run _) eqn:HR; [|destruct HI]. destruct HI as [<-|[]]. unfold in_run, timed_out in HR. cbn [t_from t_in map] in HR |- *.
  pose proof (att_exec _ _ _ _ _ HL HE PC) as HA. destruct HS as (_ & HT & _). unfold may_take in HT.
  destruct (r_pc (x_r x)); try discriminate HR; rewrite HR in HT; rewrite (HA eq_refl) in HT; destruct HT as (e & HB & H1 & H2);
    unfold backoff_at, bo_min in *; change (2 ^ 0) with 1 in HB; lia.
Qed.
(* one call of unchoke *)
Lemma unchoke_att sha1 lag x0 tr x : 0 <= lag -> texec sha1 lag x0 tr x -> x_att x0 = 0 -> Forall inside_unchoke tr ->
  x_att x = zlen (filter (fun s => match r_pc (x_r (t_from s)) with PUWait => true | _ => false end) tr).
Proof.
  intros HL HE H0. induction HE as [|x0 tr x a es x' HE IH HS]; intros HF; [exact H0|]. apply Forall_app in HF. destruct HF as [HF1 HF2].
  rewrite filter_snoc. cbn [t_from]. unfold zlen. rewrite app_length, Nat2Z.inj_add. specialize (IH H0 HF1). unfold zlen in IH.
  inversion HF2 as [|? ? HF3 _]; subst. unfold inside_unchoke in HF3. cbn [t_from] in HF3.
  destruct HS as (_ & _ & s' & r' & _ & ->). cbn [x_att]. unfold next_att. destruct (r_pc (x_r x)); try destruct HF3; cbn [length]; lia.
Qed.
Lemma inside_next sha1 lag x0 tr x s : texec sha1 lag x0 (tr ++ [s]) x -> inside_unchoke s -> in_unchoke s = false -> r_pc (x_r (t_from s)) = PUWait -> r_pc (x_r x) = PRet.
Proof.
  intros HE _ HU PC. apply exec_snoc_inv in HE. destruct HE as (y & a & es & -> & _ & HS). unfold in_unchoke, timed_out in HU. cbn [t_from t_in] in *. rewrite PC in HU.
  destruct HS as (_ & _ & s' & r' & HP & ->). unfold pstep, wait in HP. rewrite PC, HU in HP. destruct (sh_cancel _); inversion HP. reflexivity.
Qed.
Lemma ret_stuck sha1 lag a x es x' : txstep sha1 lag a x es x' -> r_pc (x_r x) <> PRet.
Proof. intros (_ & _ & s' & r' & HP & _) E. unfold pstep in HP. rewrite E in HP. discriminate HP. Qed.
(* all waits but the last of a call were not interrupted *)
Lemma unchoke_count sha1 lag x0 tr x : texec sha1 lag x0 tr x -> Forall inside_unchoke tr -> r_pc (x_r x) <> PRet ->
  filter (fun s => match r_pc (x_r (t_from s)) with PUWait => true | _ => false end) tr = filter in_unchoke tr.
Proof.
  intros HE. induction HE as [|x0 tr x a es x' HE IH HS]; intros HF HR; [reflexivity|]. pose proof HF as HF0. apply Forall_app in HF. destruct HF as [HF1 HF2].
  rewrite !filter_snoc, (IH HF1 (ret_stuck _ _ _ _ _ _ HS)). f_equal. inversion HF2 as [|? ? HF3 _]; subst.
  destruct (in_unchoke (mkTS x a es x')) eqn:U.
  - unfold in_unchoke in U. cbn [t_from] in U |- *. destruct (r_pc (x_r x)); try discriminate U. reflexivity.
  - cbn [t_from]. destruct (r_pc (x_r x)) eqn:PC; try reflexivity. exfalso. apply HR.
    eapply (inside_next sha1 lag x0 tr x' (mkTS x a es x')); [econstructor; eassumption|exact HF3|exact U|exact PC].
Qed.
Lemma unchoke_wait sha1 lag x0 tr x n d : 0 <= lag -> texec sha1 lag x0 tr x -> x_att x0 = 0 -> Forall inside_unchoke tr -> nth_error (unchoke_waits tr) n = Some d ->
  bo_min <= d <= Z.min bo_max (bo_min * 2 ^ Z.of_nat n) + lag.
Proof.
  intros HL HE H0. unfold unchoke_waits. induction HE as [|x0 tr x a es x' HE IH HS]; intros HF HN; [destruct n; discriminate HN|].
  apply Forall_app in HF. destruct HF as [HF1 HF2]. rewrite filter_snoc, map_app in HN.
  destruct (in_unchoke (mkTS x a es x')) eqn:HU; cbn [map] in HN; [|rewrite app_nil_r in HN; exact (IH H0 HF1 HN)].
  destruct (Nat.lt_ge_cases n (length (map (fun s => ti_el (t_in s)) (filter in_unchoke tr)))) as [L|L].
  - rewrite nth_error_app1 in HN by exact L. exact (IH H0 HF1 HN).
  - rewrite nth_error_app2 in HN by exact L. destruct (n - _)%nat eqn:K in HN; cbn in HN; [|destruct n0; discriminate HN]. inversion HN; subst d; clear HN.
    assert (N : n = length (filter in_unchoke tr)) by (rewrite map_length in *; lia). clear K L.
    pose proof (unchoke_att _ _ _ _ _ HL HE H0 HF1) as HA. rewrite (unchoke_count _ _ _ _ _ HE HF1 (ret_stuck _ _ _ _ _ _ HS)) in HA.
    unfold zlen in HA. rewrite <- N in HA.
    unfold in_unchoke, timed_out in HU. cbn [t_from t_in] in HU. destruct HS as (_ & HT & _). unfold may_take in HT.
    destruct (r_pc (x_r x)); try discriminate HU. rewrite HU in HT. destruct HT as (e & HB & T1 & T2). rewrite HA in HB. unfold backoff_at in HB. lia.
Qed.
Lemma unchoke_call sha1 lag x0 ta s tb x n d : 0 <= lag -> texec sha1 lag x0 (ta ++ s :: tb) x -> r_pc (x_r (t_from s)) = PChoke -> Forall inside_unchoke tb ->
  nth_error (unchoke_waits tb) n = Some d -> bo_min <= d <= Z.min bo_max (bo_min * 2 ^ Z.of_nat n) + lag.
Proof.
  intros HL HE PC HF HN. change (ta ++ s :: tb) with (ta ++ [s] ++ tb) in HE. rewrite app_assoc in HE. apply exec_app_inv in HE. destruct HE as (y & HA & HB).
  apply exec_snoc_inv in HA. destruct HA as (z & a & es & -> & _ & HS). cbn [t_from] in PC.
  eapply unchoke_wait; [exact HL|exact HB| |exact HF|exact HN].
  destruct HS as (_ & _ & s' & r' & _ & ->). cbn [x_att]. unfold next_att. rewrite PC. reflexivity.
Qed.

(* ---------- no busy loop ---------- *)
Definition pausing (c : pc) : bool := match c with PUWait | PSendWait | PReadWait | PRet => true | _ => false end.
Lemma failures_app t1 t2 : failures (t1 ++ t2) = failures t1 + failures t2.
Proof. unfold failures, zlen. rewrite flat_map_app, filter_app, app_length. lia. Qed.
Lemma failures_one s : failures [s] = zlen (filter is_failure (t_es s)).
Proof. unfold failures. cbn [flat_map]. now rewrite app_nil_r. Qed.
Lemma pause_step sha1 lag a x es x' : 0 <= lag -> txstep sha1 lag a x es x' ->
  zlen (filter is_failure es) * bo_min + (if pausing (r_pc (x_r x)) then bo_min else 0) <= ti_el a + (if pausing (r_pc (x_r x')) then bo_min else 0).
Proof.
  intros HL HS. pose proof (step_time _ _ _ _ _ _ HL HS) as [TT TE]. rewrite TE in TT. clear TE.
  tcases HS.
  all: try (match goal with |- context [handle_body ?a ?b ?c ?d ?e] => destruct (body_pc a b c d e) as [BP|[[m BP]|BP]] end).
  all: cbn [x_r at_pc r_pc with_peer filter is_failure pausing app].
  all: rewrite ?BP; cbn [pausing zlen length].
  all: change (zlen (@nil event)) with 0.
  all: try match goal with |- context [zlen [?e]] => change (zlen [e]) with 1 end.
  all: repeat match goal with H : exists d, _ |- _ => destruct H as (? & ? & ? & ?) | H : _ /\ _ |- _ => destruct H end.
  all: unfold backoff_at, bo_min in *.
  all: try lia.
Qed.
Lemma pauses sha1 lag x0 tr x : 0 <= lag -> texec sha1 lag x0 tr x ->
  failures tr * bo_min + (if pausing (r_pc (x_r x0)) then bo_min else 0) <= x_now x - x_now x0 + (if pausing (r_pc (x_r x)) then bo_min else 0).
Proof.
  intros HL HE. induction HE as [|x0 tr x a es x' HE IH HS]; [change (failures []) with 0; lia|].
  rewrite failures_app, failures_one. cbn [t_es]. pose proof (pause_step _ _ _ _ _ _ HL HS) as H1. pose proof (step_time _ _ _ _ _ _ HL HS) as [_ H2]. lia.
Qed.
Lemma no_busy_loop sha1 lag x0 tr x : 0 <= lag -> texec sha1 lag x0 tr x -> (failures tr - 1) * bo_min <= x_now x - x_now x0.
Proof.
  intros HL HE. pose proof (pauses _ _ _ _ _ HL HE) as H. unfold bo_min in *. destruct (pausing (r_pc (x_r x0))), (pausing (r_pc (x_r x))); lia.
Qed.
