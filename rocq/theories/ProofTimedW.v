(* Executions of the timed peer.                                                *)
From Verif Require Import Base ProofBase ModelMsg ModelTorrent ModelPeer ModelSystem ModelTimed SpecTimed ProofDue ProofTimed ProofSystem ProofWitness.

Lemma exec_app sha1 lag x0 t1 y t2 z : texec sha1 lag x0 t1 y -> texec sha1 lag y t2 z -> texec sha1 lag x0 (t1 ++ t2) z.
Proof.
  intros H1 H2. induction H2 as [|y t2 x a es x' HE IH HS]; [now rewrite app_nil_r|]. rewrite app_assoc. econstructor; [apply IH; exact H1|exact HS].
Qed.

(* ---------- running a list of inputs, with a scheduler that is never late ---------- *)
Definition takes (i : inp) (x : tstate) (el : Z) : bool :=
  match r_pc (x_r x) with
  | PKeep => (0 <=? el) && (el <=? (if i_due i then PeerTimeout else 0))
  | PUSend | PURead | PSend | PRead => (0 <=? el) && (el <=? PeerTimeout)
  | PUWait | PSendWait | PReadWait => i_timer i && (bo_min <=? el) && (el <=? Z.min bo_max (bo_min * 2 ^ x_att x))
  | PNil => i_timer i && (el =? 2 * second)
  | PPut _ _ => 0 <=? el
  | _ => el =? 0
  end.
Record din := mkD { d_ok : bool; d_read : option bytes; d_el : Z }.
Definition inp_of (s : shared) (d : din) (x : tstate) : tinp := mkTI s (mkI (due (Since (x_now x) (x_last x))) (d_ok d) (d_read d) true) (d_el d).
Fixpoint xrun (sha1 : bytes -> bytes) (s : shared) (l : list din) (x : tstate) : option (list tstep * tstate) :=
  match l with
  | [] => Some ([], x)
  | d :: l' =>
      let a := inp_of s d x in
      if takes (ti_i a) x (d_el d) then
        match pstep sha1 (ti_i a) s (x_r x) with
        | Some (_, r', es) =>
            let x' := mkX r' (x_now x + d_el d) (next_last x es (x_now x + d_el d)) (next_att x es) in
            match xrun sha1 s l' x' with Some (tr, y) => Some (mkTS x a es x' :: tr, y) | None => None end
        | None => None
        end
      else None
  end.
Lemma takes_ok i x el : takes i x el = true -> may_take 0 i x el.
Proof.
  unfold takes, may_take, backoff_at. destruct (r_pc (x_r x)); rewrite ?Bool.andb_true_iff, ?Z.leb_le, ?Z.eqb_eq; intros H; try lia.
  all: try (destruct H as [[H1 H2] H3]; rewrite H1; exists el; lia).
Qed.
Lemma xrun_sound sha1 s l : forall x tr y, xrun sha1 s l x = Some (tr, y) -> texec sha1 0 x tr y.
Proof.
  induction l as [|d l IH]; intros x tr y; cbn [xrun].
  - intros H. inversion H. constructor.
  - destruct (takes _ x _) eqn:T; [|discriminate]. destruct (pstep sha1 _ s (x_r x)) as [[[s' r'] es]|] eqn:P; [|discriminate].
    destruct (xrun sha1 s l _) as [[tr' y']|] eqn:R; [|discriminate]. intros H. inversion H; subst. match type of R with xrun _ _ _ ?x' = _ => change (texec sha1 0 x ([mkTS x (inp_of s d x) es x'] ++ tr') y); apply (exec_app sha1 0 x _ x' tr' y) end; [|exact (IH _ _ _ R)].
    apply (te_snoc sha1 0 x [] x (inp_of s d x) es). constructor. split; [reflexivity|]. split; [exact (takes_ok _ _ _ T)|]. exists s', r'. split; [exact P|reflexivity].
Qed.

(* ---------- a choked peer with a dead connection ---------- *)
Definition idle (sh : shared) (x : tstate) (el : Z) : tinp := mkTI sh (mkI (due (Since (x_now x) (x_last x))) false None true) el.
Local Opaque due Since.
Lemma one sha1 lag x a es x' : txstep sha1 lag a x es x' -> texec sha1 lag x [mkTS x a es x'] x'.
Proof. intros H. apply (te_snoc sha1 lag x [] x a es x'); [constructor|exact H]. Qed.
Lemma idle_step sha1 lag sh x el s' r' es : may_take lag (mkI (due (Since (x_now x) (x_last x))) false None true) x el ->
  pstep sha1 (mkI (due (Since (x_now x) (x_last x))) false None true) sh (x_r x) = Some (s', r', es) ->
  texec sha1 lag x [mkTS x (idle sh x el) es (mkX r' (x_now x + el) (next_last x es (x_now x + el)) (next_att x es))] (mkX r' (x_now x + el) (next_last x es (x_now x + el)) (next_att x es)).
Proof. intros H1 H2. apply one. split; [reflexivity|]. split; [exact H1|]. exists s', r'. auto. Qed.
Lemma idle_dead sh x el es x' : sh_cancel sh = false -> Done (sh_t sh) = false -> Forall dead [mkTS x (idle sh x el) es x'] /\ Forall open [mkTS x (idle sh x el) es x'].
Proof. intros H1 H2. split; constructor; try constructor; try reflexivity; assumption. Qed.

Definition lives sha1 lag x (tr : list tstep) y : Prop := texec sha1 lag x tr y /\ Forall dead tr /\ Forall open tr.
Lemma lives_app sha1 lag x t1 y t2 z : lives sha1 lag x t1 y -> lives sha1 lag y t2 z -> lives sha1 lag x (t1 ++ t2) z.
Proof. intros (A1 & B1 & C1) (A2 & B2 & C2). split; [eapply exec_app; eassumption|]. split; apply Forall_app; auto. Qed.

Lemma unchoke_round sha1 lag sh x : 0 <= lag -> sh_cancel sh = false -> Done (sh_t sh) = false -> r_pc (x_r x) = PUTop -> 0 <= x_att x ->
  exists tr y, lives sha1 lag x tr y /\ r_pc (x_r y) = PUTop /\ x_att y = x_att x + 1 /\ x_now y = x_now x + bo_min.
Proof.
  intros HL HC HD PC HA. destruct x as [r now last att]. cbn [x_r x_att x_now] in *.
  eexists _, _. split; [|split; [|split]].
  - eapply lives_app; [|eapply lives_app].
    + split; [apply (idle_step sha1 lag sh (mkX r now last att) 0 sh (at_pc r PUSend) [])|apply idle_dead; assumption].
      * unfold may_take. cbn [x_r]. rewrite PC. lia.
      * unfold pstep. cbn [x_r]. rewrite PC, HC. reflexivity.
    + unfold next_last, next_att. cbn [x_r x_now x_last x_att]. rewrite PC. 
      split; [apply (idle_step sha1 lag sh (mkX (at_pc r PUSend) (now + 0) last att) 0 sh (at_pc (at_pc r PUSend) PUWait) [ESendErr CreateInterestedMessage])|apply idle_dead; assumption].
      * unfold may_take, PeerTimeout, second. cbn [x_r at_pc r_pc]. lia.
      * reflexivity.
    + unfold next_last, next_att. cbn [x_r x_now x_last x_att at_pc r_pc].
      split; [apply (idle_step sha1 lag sh (mkX (at_pc (at_pc r PUSend) PUWait) (now + 0 + 0) last att) bo_min sh (at_pc (at_pc (at_pc r PUSend) PUWait) PUTop) [])|apply idle_dead; assumption].
      * unfold may_take. cbn [x_r at_pc r_pc i_timer x_att]. exists bo_min. unfold backoff_at. pose proof (Z.pow_pos_nonneg 2 att ltac:(lia) HA). unfold bo_min, bo_max, second. lia.
      * reflexivity.
  - reflexivity.
  - reflexivity.
  - cbn [x_now]. lia.
Qed.
Lemma unchoke_rounds sha1 lag sh n : forall x, 0 <= lag -> sh_cancel sh = false -> Done (sh_t sh) = false -> r_pc (x_r x) = PUTop -> 0 <= x_att x ->
  exists tr y, lives sha1 lag x tr y /\ r_pc (x_r y) = PUTop /\ x_now y = x_now x + Z.of_nat n * bo_min.
Proof.
  induction n as [|n IH]; intros x HL HC HD PC HA.
  - exists [], x. split; [|split; [exact PC|lia]]. split; [constructor|split; constructor].
  - destruct (unchoke_round sha1 lag sh x HL HC HD PC HA) as (t1 & y & H1 & P1 & A1 & N1).
    destruct (IH y HL HC HD P1 ltac:(lia)) as (t2 & z & H2 & P2 & N2). exists (t1 ++ t2), z. split; [eapply lives_app; eassumption|]. split; [exact P2|].
    rewrite N2, N1. lia.
Qed.
Lemma to_unchoke sha1 lag sh x : 0 <= lag -> sh_cancel sh = false -> Done (sh_t sh) = false -> r_pc (x_r x) = PTop -> choked x = true ->
  x_last x <= x_now x < x_last x + 114 * second ->
  exists tr y, lives sha1 lag x tr y /\ r_pc (x_r y) = PUTop /\ x_now y = x_now x /\ x_att y = 0.
Proof.
  intros HL HC HD PC HK HN. destruct x as [r now last att]. unfold choked in HK. cbn [x_r x_att x_now x_last] in *.
  assert (ND : forall e, e = 0 -> due (Since (now + e) last) = false).
  { intros e ->. rewrite (due_since (now - last)) by lia. apply Z.leb_gt. unfold second in HN. lia. }
  eexists _, _. split; [|split; [|split]].
  - eapply lives_app; [|eapply lives_app; [|eapply lives_app]].
    + split; [apply (idle_step sha1 lag sh (mkX r now last att) 0 sh (at_pc r PDone) [])|apply idle_dead; assumption].
      * unfold may_take. cbn [x_r]. rewrite PC. lia.
      * unfold pstep. cbn [x_r]. rewrite PC, HC. reflexivity.
    + unfold next_last, next_att. cbn [x_r x_now x_last x_att]. rewrite PC.
      split; [apply (idle_step sha1 lag sh (mkX (at_pc r PDone) (now + 0) last att) 0 sh (at_pc (at_pc r PDone) PKeep) [])|apply idle_dead; assumption].
      * unfold may_take. cbn [x_r at_pc r_pc]. lia.
      * unfold pstep. cbn [x_r at_pc r_pc]. rewrite HD. reflexivity.
    + unfold next_last, next_att. cbn [x_r x_now x_last x_att at_pc r_pc].
      split; [apply (idle_step sha1 lag sh (mkX (at_pc (at_pc r PDone) PKeep) (now + 0 + 0) last att) 0 sh (at_pc (at_pc (at_pc r PDone) PKeep) PChoke) [])|apply idle_dead; assumption].
      * unfold may_take. cbn [x_r at_pc r_pc]. destruct (i_due _); unfold PeerTimeout, second; lia.
      * unfold pstep. cbn [x_r x_now x_last at_pc r_pc i_due]. rewrite Z.add_0_r, (ND 0 eq_refl). reflexivity.
    + unfold next_last, next_att. cbn [x_r x_now x_last x_att at_pc r_pc].
      split; [apply (idle_step sha1 lag sh (mkX (at_pc (at_pc (at_pc r PDone) PKeep) PChoke) (now + 0 + 0 + 0) last att) 0 sh (at_pc (at_pc (at_pc (at_pc r PDone) PKeep) PChoke) PUTop) [])|apply idle_dead; assumption].
      * unfold may_take. cbn [x_r at_pc r_pc]. lia.
      * unfold pstep. cbn [x_r at_pc r_pc r_peer]. rewrite HK. reflexivity.
  - reflexivity.
  - cbn [x_now]. lia.
  - reflexivity.
Qed.
Lemma choked_lives sha1 lag sh x t : 0 <= lag -> sh_cancel sh = false -> Done (sh_t sh) = false -> r_pc (x_r x) = PTop -> choked x = true ->
  x_last x <= x_now x < x_last x + 114 * second ->
  exists tr y, texec sha1 lag x tr y /\ Forall dead tr /\ Forall open tr /\ running y /\ t <= x_now y.
Proof.
  intros HL HC HD PC HK HN. destruct (to_unchoke sha1 lag sh x HL HC HD PC HK HN) as (t1 & y & H1 & P1 & N1 & A1).
  destruct (unchoke_rounds sha1 lag sh (Z.to_nat (t - x_now x)) y HL HC HD P1 ltac:(lia)) as (t2 & z & H2 & P2 & N2).
  destruct (lives_app _ _ _ _ _ _ _ H1 H2) as (A & B & C). exists (t1 ++ t2), z. repeat split; try assumption.
  - rewrite P2. discriminate.
  - rewrite P2. discriminate.
  - rewrite N2, N1. unfold bo_min. lia.
Qed.

(* ---------- a peer blocked on the writer ---------- *)
Definition tx_sh sha1 : shared := wo_sh (wx_start sha1).
Definition tx_start sha1 : tstate := mkX (ModelSystem.fresh false (wx_t sha1) 0) 0 0 0.
Definition go0 : din := mkD true None 0.
Definition tx_msg : bytes := piece_body 0 0 [1; 2; 3; 4].
Local Transparent due Since.
Lemma blocked_silent sha1 t : 0 <= t -> exists tr x, begun (tx_start sha1) 0 /\ texec sha1 0 (tx_start sha1) tr x /\ running x /\ Forall open tr /\ x_now x - last_write 0 tr = t.
Proof.
  intros HT. destruct (xrun sha1 (tx_sh sha1) (repeat go0 6) (tx_start sha1)) as [[tr y]|] eqn:R; [|vm_compute in R; discriminate R].
  pose proof (xrun_sound _ _ _ _ _ _ R) as HE.
  assert (F : x_now y = 0 /\ x_last y = 0 /\ r_pc (x_r y) = PURead /\ last_write 0 tr = 0).
  { vm_compute in R. inversion R. repeat split; reflexivity. }
  assert (O : Forall open tr).
  { apply Forall_forall. intros s HI. vm_compute in R. inversion R as [[R1 R2]]. rewrite <- R1 in HI. cbn [In] in HI. repeat destruct HI as [<-|HI]; try (split; reflexivity). destruct HI. }
  clear R. destruct F as (F1 & F2 & F3 & F4). destruct y as [r now last att]. cbn [x_r x_now x_last] in *. subst now last.
  pose (m := mkMsg 13 7 (be_put 4 0 ++ be_put 4 0 ++ [1; 2; 3; 4]) 0 0 0).
  assert (S1 : txstep sha1 0 (mkTI (tx_sh sha1) (rd tx_msg) 0) (mkX r 0 0 att) [EReadOk tx_msg] (mkX (at_pc r (PPut true m)) 0 0 att)).
  { split; [vm_compute; reflexivity|]. split; [unfold may_take; cbn [x_r ti_el]; rewrite F3; unfold PeerTimeout, second; lia|].
    eexists _, _. split.
    - cbn [ti_i ti_sh x_r]. eapply (read_good sha1 (tx_sh sha1) r true tx_msg m [1; 2; 3; 4] (mkPiece 0 (sha1 [1; 2; 3; 4]))); [exact F3|reflexivity..].
    - unfold next_last, next_att. cbn [x_r x_now ti_el x_last x_att]. rewrite F3. reflexivity. }
  assert (S2 : txstep sha1 0 (mkTI (tx_sh sha1) (mkI false true None true) t) (mkX (at_pc r (PPut true m)) 0 0 att) [EPut m]
    (mkX (with_peer (at_pc r (PPut true m)) PReq (after_put (r_peer r) m)) t 0 att)).
  { split; [vm_compute; reflexivity|]. split; [unfold may_take; cbn [x_r at_pc r_pc ti_el]; lia|].
    eexists _, _. split.
    - cbn [ti_i ti_sh x_r]. unfold pstep. cbn [at_pc r_pc]. reflexivity.
    - reflexivity. }
  eexists (tr ++ [_] ++ [_]), _. split; [vm_compute; repeat split; discriminate|]. split.
  - rewrite app_assoc. econstructor; [|exact S2]. econstructor; [exact HE|exact S1].
  - split; [split; discriminate|]. split.
    + apply Forall_app. split; [exact O|]. constructor; [split; reflexivity|]. constructor; [split; reflexivity|constructor].
    + rewrite app_assoc, !last_write_snoc. cbn [t_es existsb is_write orb x_now]. rewrite F4. lia.
Qed.

(* ---------- a keep-alive right after another message ---------- *)
Definition dl (ok : bool) (b : option bytes) (el : Z) : din := mkD ok b el.
Definition fail_round (el : Z) : list din := [go0; dl false None 0; dl true None el].
Definition busy_inputs : list din :=
  repeat go0 4 ++ flat_map (fun k => fail_round (Z.min bo_max (bo_min * 2 ^ Z.of_nat k))) (seq 0 12) ++
  [go0; go0; dl true (Some [1]) 0; go0; dl true (Some [1]) 0; go0; go0].
Definition busy_run sha1 := xrun sha1 (tx_sh sha1) busy_inputs (tx_start sha1).
Lemma busy_ok sha1 : match busy_run sha1 with
  | Some (tr, y) => r_pc (x_r y) = PKeep /\ x_now y - last_write 0 tr = 0 /\ due (Since (x_now y) (x_last y)) = true
  | None => False
  end.
Proof. vm_compute. repeat split; reflexivity. Qed.
Lemma begun_start sha1 : begun (tx_start sha1) 0.
Proof. split; [reflexivity|]. unfold sec, second. cbn [tx_start x_last x_now]. lia. Qed.
Local Opaque due Since.
Lemma keepalive_busy sha1 : exists tr x a es x', begun (tx_start sha1) 0 /\ texec sha1 0 (tx_start sha1) tr x /\ r_pc (x_r x) = PKeep /\ txstep sha1 0 a x es x' /\
  existsb is_write es = true /\ x_now x - last_write 0 tr = 0.
Proof.
  pose proof (busy_ok sha1) as F. destruct (busy_run sha1) as [[tr y]|] eqn:R; [|destruct F].
  pose proof (xrun_sound _ _ _ _ _ _ R) as HE. destruct F as (F1 & F2 & F3).
  exists tr, y. eexists (mkTI (tx_sh sha1) (mkI true true None true) 0), [ESent KeepalivePeerMessage], _.
  split; [apply begun_start|]. split; [exact HE|]. split; [exact F1|]. split; [|split; [reflexivity|exact F2]].
  split; [symmetry; exact F3|]. split; [unfold may_take; rewrite F1; cbn [i_due ti_i ti_el]; unfold PeerTimeout, second; lia|].
  eexists _, _. split; [cbn [ti_i]; unfold pstep; rewrite F1; reflexivity|]. reflexivity.
Qed.
