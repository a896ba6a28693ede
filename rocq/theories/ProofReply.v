(* Proofs about what of a tracker's reply matters: C156, C157.                 *)
From Coq Require Import Permutation.
From Verif Require Import Base ProofBase ModelBencode SpecBencode ProofBencodeGrammar ProofBencodeMore ModelUnmarshal SpecUnmarshal ProofUnmarshal SpecAlike ProofAlike ModelTracker SpecTracker ProofTracker ProofTracker2 SpecReply.

(* what becomes of the three keys *)
Definition value_nil (v : option ben) : option ben := match v with Some BNil => None | _ => v end.
Definition answer (parse_ip : bytes -> option addr) (failure interval peers : option ben) : option Z * res (list addrport) :=
  let finish f n ps there := if negb (beq f []) then (None, Err "tracker failure")
    else (Some (wrap64 (n * second)), if there : bool then Ok (parseBencodePeers parse_ip ps) else Err "successful tracker response without ") in
  let with_peers f n := match value_nil peers with
    | None => finish f n [] false
    | Some v => match set_field (TSlice AnnouncePeer_ty) (VSlice []) v with
                | (VSlice ps, Ok _) => finish f n ps true
                | (_, Ok _) => (None, Diverge)
                | (_, Err e) => (None, Err e)
                | (_, Panic) => (None, Panic)
                | (_, Diverge) => (None, Diverge)
                end
    end in
  let with_interval f := match value_nil interval with
    | None => with_peers f 0
    | Some v => match ParseInt0 (String_ v) 64 with NumOk n => with_peers f n | _ => (None, Err "TypeError") end
    end in
  match value_nil failure with None => with_interval [] | Some v => with_interval (String_ v) end.
Lemma struct_cons tag ft fs o olds m raw : beq tag [] = false ->
  set_field (TStruct ((tag, true, ft) :: fs)) (VStruct (o :: olds)) (BDict true m raw) =
  let rest g := match set_field (TStruct fs) (VStruct olds) (BDict true m raw) with (VStruct gs, r) => (VStruct (g :: gs), r) | x => x end in
  match value_nil (lookup (tag_name tag) m) with
  | None => if tag_optional tag then rest o else (VStruct (o :: olds), Err "Required ben field not found")
  | Some v => match set_field ft o v with (g, Ok _) => rest g | (g, r) => (VStruct (g :: olds), r) end
  end.
Proof.
  intros HT. cbn [set_field]. rewrite HT. cbn [negb orb].
  match goal with |- context [let (gs, r) := ?a fs olds in (VStruct gs, r)] => destruct (a fs olds) as [gs r] end.
  destruct (lookup (tag_name tag) m) as [v|]; cbn [value_nil]; [|now destruct (tag_optional tag)].
  destruct v; cbn [value_nil]; [now destruct (tag_optional tag)|..]; match goal with |- context [set_field ft o ?x] => destruct (set_field ft o x) as [g [u| | |]] end; reflexivity.
Qed.
Lemma read_peers_answer parse_ip d m raw : Parse d = Ok (BDict true m raw) ->
  readPeers parse_ip d = answer parse_ip (lookup (str "failure reason") m) (lookup (str "interval") m) (lookup (str "peers") m).
Proof.
  intros Hp. unfold readPeers, nonnil, Unmarshal. rewrite Hp. cbn [processTarget].
  assert (T1 : tag_name (str "failure reason,optional") = str "failure reason") by reflexivity.
  assert (T2 : tag_name (str "interval,optional") = str "interval") by reflexivity.
  assert (T3 : tag_name peers_tag = str "peers") by reflexivity. assert (T4 : tag_name compact_tag = str "peers") by reflexivity.
  assert (O1 : tag_optional (str "failure reason,optional") = true) by reflexivity. assert (O2 : tag_optional (str "interval,optional") = true) by reflexivity.
  assert (O3 : tag_optional peers_tag = true) by reflexivity. assert (O4 : tag_optional compact_tag = true) by reflexivity. assert (O5 : tag_optional (str "peers6,optional") = true) by reflexivity.
  rewrite T3, T4.
  assert (Z : AnnounceResponse_zero = [VString []; VInt 0; VSlice []; VBytes []; VBytes []]) by reflexivity. rewrite Z.
  unfold AnnounceResponse_fields, fld.
  assert (N : set_field (TStruct []) (VStruct []) (BDict true m raw) = (VStruct [], Ok tt)) by reflexivity.
  assert (P6 : exists c6, set_field (TStruct [(str "peers6,optional", true, TSlice (TUint 8))]) (VStruct [VBytes []]) (BDict true m raw) = (VStruct [VBytes c6], Ok tt)).
  { rewrite struct_cons by reflexivity. rewrite N, O5. cbv zeta.
    destruct (lookup (tag_name (str "peers6,optional")) m) as [v|]; [|eexists; reflexivity]. destruct v; cbn [value_nil set_field is_u8]; eexists; reflexivity. }
  destruct P6 as (c6 & P6).
  rewrite struct_cons by reflexivity. rewrite struct_cons by reflexivity. rewrite struct_cons by reflexivity. rewrite struct_cons by reflexivity.
  rewrite P6, T1, T2, T3, T4, O1, O2, O3, O4. cbv zeta.
  clear Z T1 T2 T3 T4 O1 O2 O3 O4 O5 N P6 Hp. unfold answer.
  assert (FI : forall v, v <> BNil -> set_field TString (VString []) v = (VString (String_ v), Ok tt)) by (intros v Hv; destruct v; [congruence|reflexivity..]).
  assert (II : forall v, v <> BNil -> set_field (TInt 64) (VInt 0) v = match ParseInt0 (String_ v) 64 with NumOk n => (VInt n, Ok tt) | _ => (VInt 0, Err "TypeError") end) by (intros v Hv; destruct v; [congruence|reflexivity..]).
  assert (RI : forall v, v <> BNil -> set_field (TSlice (TUint 8)) (VBytes []) v = (VBytes (Raw v), Ok tt)) by (intros v Hv; destruct v; [congruence|reflexivity..]).
  assert (VN : forall o v, value_nil o = Some v -> o = Some v /\ v <> BNil) by (intros [x|] v E; [destruct x|]; cbn in E; try discriminate; injection E as <-; split; congruence).
  assert (NV : forall o, match o with None => false | Some BNil => false | Some _ => true end = match value_nil o with Some _ => true | None => false end) by (intros [x|]; [now destruct x|reflexivity]).
  change (match lookup (str "peers") m with None => false | Some BNil => false | Some _ => true end) with (match lookup (str "peers") m with Some BNil | None => false | Some _ => true end).
  assert (PS : forall v, exists g r, set_field (TSlice AnnouncePeer_ty) (VSlice []) v = (VSlice g, r)).
  { intros v. destruct v as [| | |[|] l ?|]; cbn [set_field is_u8 AnnouncePeer_ty]; try (eexists _, _; reflexivity). destruct (set_list _ l) as [gs [u| | |]]; eexists _, _; reflexivity. }
  destruct (value_nil (lookup (str "failure reason") m)) as [vf|] eqn:EF; [rewrite (FI vf) by (apply (VN _ _ EF))|];
    (destruct (value_nil (lookup (str "interval") m)) as [vi|] eqn:EI; [rewrite (II vi) by (apply (VN _ _ EI)); destruct (ParseInt0 (String_ vi) 64) as [n| |]; try reflexivity|]);
    (destruct (value_nil (lookup (str "peers") m)) as [vp|] eqn:EP; [rewrite (RI vp) by (apply (VN _ _ EP)); destruct (PS vp) as (g & [u| | |] & ->); try reflexivity; rewrite (proj1 (VN _ _ EP)); pose proof (proj2 (VN _ _ EP)); destruct vp; try congruence; reflexivity|]);
    (destruct (lookup (str "peers") m) as [vq|]; [destruct vq; try discriminate EP|]; reflexivity).
Qed.
Lemma peer_same v1 v2 : peer_alike v1 v2 -> set_field AnnouncePeer_ty (zero AnnouncePeer_ty) v1 = set_field AnnouncePeer_ty (zero AnnouncePeer_ty) v2.
Proof.
  intros (m1 & r1 & m2 & r2 & -> & -> & E1 & E2). unfold AnnouncePeer_ty. apply struct_same. intros tag t HI. cbn [In] in HI. unfold fld in HI.
  destruct HI as [HI|[HI|[]]]; injection HI as <- _; [exact E1|exact E2].
Qed.
Lemma answer_alike parse_ip f n p1 p2 : peers_alike p1 p2 -> answer parse_ip f n p1 = answer parse_ip f n p2.
Proof.
  intros [->|(l1 & r1 & l2 & r2 & -> & -> & F)]; [reflexivity|]. unfold answer. cbn [value_nil].
  rewrite (slice_alike AnnouncePeer_ty l1 l2 r1 r2 (VSlice [])); [reflexivity| |reflexivity]. clear -F. induction F; constructor; [now apply peer_same|assumption].
Qed.
Lemma reply_alike parse_ip st d1 d2 es1 es2 : fits d1 -> fits d2 -> entries_of d1 es1 -> entries_of d2 es2 ->
  last_binding (str "failure reason") es1 = last_binding (str "failure reason") es2 -> last_binding (str "interval") es1 = last_binding (str "interval") es2 ->
  peers_alike (last_binding (str "peers") es1) (last_binding (str "peers") es2) ->
  HttpAnnounce parse_ip (HttpBody st (Some d1)) = HttpAnnounce parse_ip (HttpBody st (Some d2)).
Proof.
  intros F1 F2 H1 H2 E1 E2 E3. cbn [HttpAnnounce]. destruct (negb (st =? 200)); [reflexivity|].
  destruct (entries_parse _ _ F1 H1) as (r1 & P1), (entries_parse _ _ F2 H2) as (r2 & P2).
  rewrite (read_peers_answer _ _ _ _ P1), (read_peers_answer _ _ _ _ P2), !lookup_dict_of, E1, E2. now apply answer_alike.
Qed.
Lemma reply_same parse_ip st d1 d2 es1 es2 : fits d1 -> fits d2 -> entries_of d1 es1 -> entries_of d2 es2 ->
  (forall k, In k known_reply -> last_binding k es1 = last_binding k es2) ->
  HttpAnnounce parse_ip (HttpBody st (Some d1)) = HttpAnnounce parse_ip (HttpBody st (Some d2)).
Proof. intros F1 F2 H1 H2 H. eapply reply_alike; eauto; [apply H; cbn; auto..|]. left. apply H. cbn. auto. Qed.
(* a reply without peers *)
Lemma reply_no_peers parse_ip st d es : fits d -> entries_of d es -> last_binding (str "peers") es = None ->
  exists i e, HttpAnnounce parse_ip (HttpBody st (Some d)) = (i, Err e).
Proof.
  intros F H E. cbn [HttpAnnounce]. destruct (negb (st =? 200)); [eauto|]. destruct (entries_parse _ _ F H) as (r & P). rewrite (read_peers_answer _ _ _ _ P), !lookup_dict_of, E.
  unfold answer. cbn [value_nil]. destruct (value_nil (last_binding (str "failure reason") es)) as [vf|];
    (destruct (value_nil (last_binding (str "interval") es)) as [vi|]; [destruct (ParseInt0 (String_ vi) 64); eauto|]); try (destruct (negb _); eauto); eauto.
Qed.
Lemma last_filter (P : bytes -> bool) k (es : list (bytes * ben)) : P k = true -> last_binding k (filter (fun kv => P (fst kv)) es) = last_binding k es.
Proof.
  intros H. induction es as [|[k' v] es IH]; [reflexivity|]. cbn [filter fst]. destruct (P k') eqn:E; cbn [last_binding]; rewrite IH; [reflexivity|].
  destruct (last_binding k es); [reflexivity|]. destruct (beq k k') eqn:B; [|reflexivity]. apply beq_eq in B. subst. congruence.
Qed.
Lemma reply_peers6 parse_ip st d1 d2 es1 es2 : fits d1 -> fits d2 -> entries_of d1 es1 -> entries_of d2 es2 ->
  filter (fun kv => negb (beq (fst kv) (str "peers6"))) es1 = filter (fun kv => negb (beq (fst kv) (str "peers6"))) es2 ->
  HttpAnnounce parse_ip (HttpBody st (Some d1)) = HttpAnnounce parse_ip (HttpBody st (Some d2)).
Proof.
  intros F1 F2 H1 H2 E. eapply reply_same; eauto. intros k Hk.
  rewrite <- (last_filter (fun x => negb (beq x (str "peers6"))) k es1), <- (last_filter (fun x => negb (beq x (str "peers6"))) k es2); [now rewrite E|..];
    (destruct Hk as [<-|[<-|[<-|[]]]]; reflexivity).
Qed.
