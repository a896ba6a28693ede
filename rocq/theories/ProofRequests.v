(* Requests sent by the peers: C39-C42.                                        *)
From Verif Require Import Base ProofBase ModelBitset ModelMsg ModelTorrent ModelConn ModelPeer ModelSystem
  SpecPeer ProofTorrent ProofSystem.

Lemma created_app a b : created (a ++ b) = created a ++ created b.
Proof. induction a as [|e a IH]; cbn; [reflexivity|]. destruct e; rewrite ?IH; reflexivity. Qed.
Lemma claimed_app a b : claimed (a ++ b) = claimed a ++ claimed b.
Proof. induction a as [|e a IH]; cbn; [reflexivity|]. destruct e; rewrite ?IH; reflexivity. Qed.
Lemma requested_app a b : requested (a ++ b) = requested a ++ requested b.
Proof. induction a as [|e a IH]; cbn; [reflexivity|]. destruct e; rewrite ?IH; try reflexivity. now destruct (m_type m =? RequestT). Qed.
Lemma given_app a b : given (a ++ b) = given a ++ given b.
Proof. induction a as [|e a IH]; cbn; [reflexivity|]. destruct e; rewrite ?IH; reflexivity. Qed.
Lemma requested_in es m : In m (requested es) <-> In (ESent m) es /\ is_request m.
Proof.
  unfold is_request. induction es as [|e es IH]; cbn; [tauto|].
  destruct e; cbn; rewrite ?IH; try (split; [intros [? ?]; auto|intros [[H|?] ?]; [discriminate H|auto]]).
  destruct (Z.eqb_spec (m_type m0) RequestT) as [E|E]; cbn; rewrite IH.
  - split; [intros [->|[? ?]]; auto|intros [[H|?] ?]; [inversion H; auto|auto]].
  - split; [intros [? ?]; auto|intros [[H|?] ?]; [inversion H; subst; contradiction|auto]].
Qed.
Lemma created_in es m : In m (created es) <-> In (ECreate m) es.
Proof.
  induction es as [|e es IH]; cbn; [tauto|].
  destruct e; cbn; rewrite ?IH; split; try (intros [H|H]; [inversion H; subst; auto|auto]); auto.
Qed.
Lemma claimed_in es i : In i (claimed es) <-> exists h, In (EClaim i h) es.
Proof.
  induction es as [|e es IH]; cbn; [split; [tauto|intros [? []]]|].
  destruct e; cbn; rewrite ?IH; split; try (intros [h H]; exists h; auto; fail);
    try (intros [h [H|H]]; [discriminate H|eauto]); try (intros [->|[h H]]; eauto).
  intros [h [H|H]]; [inversion H; subst; auto|right; eauto].
Qed.

(* ---------- C39 ---------- *)
Fixpoint mon (o : bool) (es : list event) : option bool :=
  match es with
  | [] => Some o
  | ESent m :: es' => if m_type m =? RequestT then (if o then None else mon true es') else mon o es'
  | EReadErr :: es' => mon false es'
  | _ :: es' => mon o es'
  end.
Lemma mon_app o a b : mon o (a ++ b) = match mon o a with Some o' => mon o' b | None => None end.
Proof.
  revert o. induction a as [|e a IH]; intro o; cbn; [reflexivity|].
  destruct e; rewrite ?IH; try reflexivity. destruct (m_type m =? RequestT); [|reflexivity]. now destruct o.
Qed.
Lemma mon_quiet b : ~ In EReadErr b -> mon true b = Some true \/ mon true b = None.
Proof.
  induction b as [|e b IH]; intro H; cbn; [auto|].
  destruct e; try (apply IH; intro; apply H; right; assumption).
  - destruct (m_type m =? RequestT); [auto|]. apply IH. intro; apply H; now right.
  - exfalso. apply H. now left.
Qed.
Lemma mon_spaced es o m1 m2 a b c : mon false es = Some o -> es = a ++ ESent m1 :: b ++ ESent m2 :: c ->
  is_request m1 -> is_request m2 -> In EReadErr b.
Proof.
  unfold is_request. intros HM -> E1 E2. rewrite mon_app in HM. destruct (mon false a) as [o1|]; [|discriminate].
  cbn [mon] in HM. rewrite E1, Z.eqb_refl in HM. destruct o1; [discriminate|].
  rewrite mon_app in HM.
  destruct (in_dec (fun x y : bool => bool_dec x y) true (map (fun e => match e with EReadErr => true | _ => false end) b)) as [Hi|Hi].
  - apply in_map_iff in Hi. destruct Hi as [e [He Hin]]. destruct e; try discriminate. exact Hin.
  - exfalso. destruct (mon_quiet b) as [Hb|Hb].
    + intro HI. apply Hi. apply in_map_iff. exists EReadErr. auto.
    + rewrite Hb in HM. cbn [mon] in HM. rewrite E2, Z.eqb_refl in HM. discriminate.
    + rewrite Hb in HM. discriminate.
Qed.
Definition mon_ok (r : rstate) (es : list event) : Prop :=
  exists o, mon false es = Some o /\ (o = true -> r_sent r = true) /\ (r_pc r = PNext \/ r_pc r = PSend -> r_sent r = false).
Lemma mon_step sha1 i s r s' r' es es' : mon_ok r es -> pstep sha1 i s r = Some (s', r', es') -> mon_ok r' (es ++ es').
Proof.
  intros (o & H1 & H2 & H3) HS. unfold mon_ok. rewrite mon_app, H1.
  step_cases HS; try (match goal with |- context [handle_body sha1 ?t ?u r ?b] =>
      destruct (handle_body_spec sha1 t u r b _ eq_refl) as (? & A & ? & ? & ? & ? & ? & P);
      exists o; cbn; rewrite A; split; [reflexivity|split; [exact H2|]];
      destruct P as [-> |[-> |[-> |[? ->]]]]; intros [?|?]; discriminate end);
    cbn in *; try (eexists; split; [reflexivity|]; split; [first [exact H2|discriminate|auto]|]; intros [?|?]; try discriminate; auto; fail).
  all: try (exists o; split; [reflexivity|]; split; [exact H2|]; intros; 
     repeat match goal with H : _ && _ = true |- _ => apply andb_true_iff in H; destruct H end;
     now destruct (r_sent r)).
  all: assert (Ho : o = false) by (destruct o; [rewrite H3 in H2 by auto; now discriminate H2|reflexivity]); subst o.
  all: destruct (m_type m =? RequestT); eexists; split; try reflexivity; split; auto; intros [?|?]; discriminate.
Qed.
