(* Proofs for C132 and the fragment in C67. *)
From Verif Require Import Base ProofBase ModelTracker SpecTracker ModelLogger ModelUrl SpecUrl ProofTracker ProofTracker2.

Lemma alpha_iff c : alpha c = true <-> is_alpha c.
Proof. unfold alpha, is_alpha. rewrite orb_true_iff, !andb_true_iff. lia. Qed.
Lemma more_iff c : alpha c || later c = true <-> is_more c.
Proof. unfold is_more. rewrite <- alpha_iff. unfold later. rewrite !orb_true_iff, !andb_true_iff. lia. Qed.
Lemma get_sound : forall s acc x, getScheme s acc = Ok x -> x = [] \/ exists p rest, s = p ++ 58 :: rest /\ x = acc ++ p /\ x <> [] /\ Forall is_more p /\ (acc = [] -> exists c p', p = c :: p' /\ is_alpha c).
Proof.
  induction s as [|c s IH]; intros acc x; cbn [getScheme]; [intros [= <-]; now left|].
  destruct (alpha c) eqn:A.
  { intros H. destruct (IH _ _ H) as [->|(p & rest & -> & -> & N & F & _)]; [now left|]. right. exists (c :: p), rest. split; [reflexivity|]. split; [now rewrite <- app_assoc|]. split; [exact N|].
    split; [constructor; [left; now apply alpha_iff|exact F]|]. intros _. exists c, p. split; [reflexivity|now apply alpha_iff]. }
  destruct (later c) eqn:L.
  { destruct acc as [|a acc]; [intros [= <-]; now left|]. intros H. destruct (IH _ _ H) as [->|(p & rest & -> & -> & N & F & _)]; [now left|]. right. exists (c :: p), rest. split; [reflexivity|]. split; [now rewrite <- app_assoc|]. split; [exact N|].
    split; [constructor; [apply more_iff; now rewrite A, L|exact F]|discriminate]. }
  destruct (Z.eqb_spec c 58) as [->|].
  - destruct acc as [|a acc]; [discriminate|]. intros [= <-]. right. exists [], s. rewrite app_nil_r. split; [reflexivity|]. split; [reflexivity|]. split; [discriminate|]. split; [constructor|discriminate].
  - intros [= <-]. now left.
Qed.
Lemma more_not_colon c : is_more c -> c <> 58 /\ c <> 35.
Proof. unfold is_more, is_alpha. lia. Qed.
Lemma get_complete rest : forall p acc, Forall is_more p -> acc <> [] -> getScheme (p ++ 58 :: rest) acc = Ok (acc ++ p).
Proof.
  induction p as [|c p IH]; intros acc F N; cbn [app getScheme].
  - replace (alpha 58) with false by reflexivity. replace (later 58) with false by reflexivity. cbn. rewrite app_nil_r. destruct acc; [contradiction|reflexivity].
  - inversion F; subst. assert (M : alpha c || later c = true) by now apply more_iff. assert (G : getScheme (p ++ 58 :: rest) (acc ++ [c]) = Ok (acc ++ c :: p)).
    { rewrite IH; [|assumption|destruct acc; discriminate]. now rewrite <- app_assoc. }
    destruct (alpha c); [exact G|]. cbn in M. rewrite M. destruct acc; [contradiction|exact G].
Qed.
Lemma get_iff s x : x <> [] -> (getScheme s [] = Ok x <-> scheme_of s x).
Proof.
  intros N. split.
  - intros H. destruct (get_sound _ _ _ H) as [->|(p & rest & -> & -> & _ & F & A)]; [contradiction|]. destruct (A eq_refl) as (c & p' & -> & Hc). cbn [app]. inversion F; subst. change (c :: p' ++ 58 :: rest) with ((c :: p') ++ [58] ++ rest). now constructor.
  - intros H. destruct H as [c s rest Hc Hs]. cbn [app getScheme]. replace (alpha c) with true by (symmetry; now apply alpha_iff). cbn [app]. now rewrite (get_complete rest s [c]) by (assumption || discriminate).
Qed.
Lemma hash_iff u : exists r, u = before_hash u ++ r /\ (r = [] \/ exists t, r = 35 :: t) /\ ~ In 35 (before_hash u).
Proof.
  induction u as [|c u (r & E & H & N)]; [exists []; cbn; auto|]. cbn [before_hash]. destruct (Z.eqb_spec c 35) as [->|Nc].
  - exists (35 :: u). split; [reflexivity|]. split; [right; now exists u|intros []].
  - exists r. split; [cbn [app]; now rewrite <- E|]. split; [exact H|]. intros [?|?]; [congruence|contradiction].
Qed.
Lemma scheme_hash u x : scheme_of (before_hash u) x <-> scheme_of u x.
Proof.
  destruct (hash_iff u) as (r & E & H & N). split; intros S.
  - inversion S as [c s rest Hc Hs E1 E2]. rewrite E, <- E1. replace ((c :: s ++ 58 :: rest) ++ r) with ((c :: s) ++ [58] ++ (rest ++ r)) by (cbn [app]; now rewrite <- app_assoc). now constructor.
  - inversion S as [c s rest Hc Hs E1 E2]. subst x.
    assert (P : exists rest', before_hash u = (c :: s) ++ [58] ++ rest').
    { rewrite <- E1. assert (G : forall p, Forall (fun c => c <> 35) p -> forall t, before_hash (p ++ t) = p ++ before_hash t).
      { clear. induction p as [|c p IH]; intros F t; [reflexivity|]. inversion F; subst. cbn [app before_hash]. destruct (Z.eqb_spec c 35); [contradiction|]. now rewrite IH. }
      exists (before_hash rest). rewrite G; [|].
      - f_equal.
      - constructor; [apply more_not_colon; now left|]. eapply Forall_impl; [|exact Hs]. intros a Ha. now apply more_not_colon. }
    destruct P as (rest1 & E3). rewrite E1, E3. now constructor.
Qed.
Lemma ctl_iff c : ctl c = true <-> c < 32 \/ c = 127.
Proof. unfold ctl. rewrite orb_true_iff. lia. Qed.
Lemma clean_iff u : existsb ctl (before_hash u) = false <-> clean u.
Proof.
  unfold clean. induction u as [|c u IH].
  - cbn. split; [|reflexivity]. intros _ a c b E. destruct a; discriminate E.
  - cbn [before_hash]. destruct (Z.eqb_spec c 35) as [->|Nc].
    + split; [|reflexivity]. intros _ a d b E D. destruct a as [|e a]; [|injection E as <- _; now left]. cbn in E. injection E as <- _. lia.
    + cbn [existsb]. rewrite orb_false_iff. split.
      * intros (H1 & H2) a d b E D. destruct a as [|e a]; cbn in E; injection E as <- E; [apply ctl_iff in D; congruence|]. right. apply (proj1 IH H2 a d b E D).
      * intros H. split.
        -- destruct (ctl c) eqn:C; [|reflexivity]. apply ctl_iff in C. destruct (H [] c u eq_refl C).
        -- apply IH. intros a d b E D. subst u. destruct (H (c :: a) d b eq_refl D); [congruence|assumption].
Qed.
Lemma lower_iff s n : Forall (fun c => 97 <= c <= 122) n -> (ToLower s = n <-> any_case s n).
Proof.
  intros F. unfold ToLower, any_case. revert n F. induction s as [|c s IH]; intros n F; cbn [map].
  - split; [intros <-; constructor|intros H; now inversion H].
  - split.
    + intros <-. inversion F; subst. constructor; [|now apply IH]. unfold to_lower in *. destruct ((65 <=? c) && (c <=? 90)) eqn:E; [right; rewrite andb_true_iff in E; lia|now left].
    + intros H. inversion H as [|? d ? n' Hd Hn]; subst. inversion F; subst. f_equal; [|now apply IH]. unfold to_lower. destruct ((65 <=? c) && (c <=? 90)) eqn:E; [rewrite andb_true_iff in E|rewrite andb_false_iff in E]; lia.
Qed.
Lemma scheme_iff ok u n : Forall (fun c => 97 <= c <= 122) n -> n <> [] ->
  (Scheme ok u = Some n <-> ok u = true /\ clean u /\ exists s, scheme_of u s /\ any_case s n).
Proof.
  intros F N. unfold Scheme. rewrite <- clean_iff. destruct (existsb ctl (before_hash u)) eqn:C; [split; [discriminate|intros (_ & H & _); discriminate]|].
  destruct (beq (before_hash u) [42]) eqn:B.
  - apply beq_eq in B. split; [destruct (ok u); [intros [= <-]; contradiction|discriminate]|]. intros (_ & _ & s & S & _). apply scheme_hash in S. assert (I : In 58 (before_hash u)) by (destruct S as [c t rest Hc Hs]; apply in_or_app; right; now left). rewrite B in I. destruct I as [I|[]]. discriminate I.
  - split.
    + destruct (getScheme (before_hash u) []) as [x| | |] eqn:G; try discriminate. destruct (ok u); [|discriminate]. intros [= H]. split; [reflexivity|]. split; [reflexivity|]. exists x. assert (x <> []) by (intros ->; cbn in H; congruence).
      split; [apply scheme_hash; now apply get_iff|now apply lower_iff].
    + intros (-> & _ & s & S & A). apply scheme_hash in S. assert (s <> []) by (inversion S; discriminate). apply get_iff in S; [|assumption]. rewrite S. f_equal. now apply lower_iff.
Qed.
Theorem url_exact ok u dial k : NewTracker (Scheme ok u) dial = Ok k <->
  ok u = true /\ clean u /\ exists s, scheme_of u s /\ ((k = KUdp /\ dial = true /\ any_case s (str "udp")) \/ (k = KHttp /\ (any_case s (str "http") \/ any_case s (str "https")))).
Proof.
  assert (W : forall n, n = str "udp" \/ n = str "http" \/ n = str "https" -> Forall (fun c => 97 <= c <= 122) n /\ n <> []).
  { intros n [H|[H|H]]; rewrite H; (split; [vm_compute; repeat (constructor; [split; discriminate|]); constructor|discriminate]). }
  destruct (W (str "udp")) as (U1 & U2); [auto|]. destruct (W (str "http")) as (H1 & H2); [auto|]. destruct (W (str "https")) as (S1 & S2); [auto|].
  rewrite new_tracker_exact, !scheme_iff by assumption. split.
  - intros [((O & C & s & S & A) & D & K)|([(O & C & s & S & A)|(O & C & s & S & A)] & K)]; (split; [exact O|]; split; [exact C|]; exists s; split; [exact S|]); auto.
  - intros (O & C & s & S & [(K & D & A)|(K & [A|A])]).
    + left. split; [split; [exact O|]; split; [exact C|]; now exists s|auto].
    + right. split; [left; split; [exact O|]; split; [exact C|]; now exists s|auto].
    + right. split; [right; split; [exact O|]; split; [exact C|]; now exists s|auto].
Qed.

Lemma cut_hash u t : In 35 u -> fst (cut 35 (u ++ t)) = fst (cut 35 u).
Proof.
  induction u as [|c u IH]; [intros []|]. intros H. cbn [app cut]. destruct (Z.eqb_spec c 35); [reflexivity|]. assert (I : In 35 u) by (destruct H; [congruence|assumption]). specialize (IH I).
  destruct (cut 35 (u ++ t)) as [a b]. destruct (cut 35 u) as [a' b']. cbn [fst] in *. now rewrite IH.
Qed.
Theorem fragment_exact addr kvs : In 35 addr -> query_of (announce_url addr kvs) = query_of addr.
Proof. intros H. unfold query_of, announce_url. now rewrite cut_hash. Qed.
