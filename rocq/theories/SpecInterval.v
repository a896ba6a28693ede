(* The pause between announces to a tracker (C126).                            *)
From Verif Require Import Base ModelBencode ModelTracker ModelManager ModelClient SpecBencode SpecUnmarshal SpecTracker SpecClient.

(* The interval n, in seconds, of HTTP reply h: status 200, a dictionary without a
   failure reason, and no peers or a list of them; n is 0 if there is no interval.  *)
Definition tells (parse_ip : bytes -> option addr) (h : httpres) (n : Z) : Prop :=
  exists b m raw, h = HttpBody 200 (Some b) /\ Parse b = Ok (BDict true m raw) /\ no_failure m /\ interval_of m n /\
    (absent m (str "peers") \/
     exists v vs l, lookup (str "peers") m = Some v /\ v <> BNil /\ is_list v vs /\ Forall2 (entry_of parse_ip) vs l).
(* h is such a reply and names the interval n *)
Definition names (parse_ip : bytes -> option addr) (h : httpres) (n : Z) : Prop :=
  tells parse_ip h n /\ exists b m raw v, h = HttpBody 200 (Some b) /\ Parse b = Ok (BDict true m raw) /\ lookup (str "interval") m = Some v /\ v <> BNil.

(* the replies that tracker j got in the course of l *)
Fixpoint replies (cf : conf) (j : nat) (l : list cact) (c : client) : list httpres :=
  match l with
  | [] => []
  | a :: l' =>
      let '(c', es) := cexec cf a c in
      match a, es with KAnn _ (RHttp h _), VHttp i _ _ _ :: _ => if Nat.eqb i j then [h] else [] | _, _ => [] end ++ replies cf j l' c'
  end.
(* i, in ns, follows from the last of them that has an interval; it is a minute before that *)
Definition last_told (parse_ip : bytes -> option addr) (hs : list httpres) (i : Z) : Prop :=
  (i = 60 * 1000000000 /\ forall h n, In h hs -> ~ tells parse_ip h n) \/
  (exists hs1 h hs2 n, hs = hs1 ++ h :: hs2 /\ tells parse_ip h n /\ i = wrap64 (n * 1000000000) /\ forall h' n', In h' hs2 -> ~ tells parse_ip h' n').
(* the interval that tracker j keeps (tracker.go:15-17), in ns *)
Definition interval_at (c : client) (j : nat) (i : Z) : Prop :=
  exists x, nth_error (c_trk c) j = Some x /\ match ct_trk x with TrHttp _ _ _ i' => i' = i | TrUdp u => u_interval u = i | TrNone => False end.
(* the bodies are shorter than Go's largest int *)
Definition bodies_fit (l : list cact) : Prop := forall j st b k, In (KAnn j (RHttp (HttpBody st (Some b)) k)) l -> SpecBencode.fits b.

(* Schedules with times: every step happens at some time, and WaitInterval of tracker
   j (tracker.go:19-26, manager.go:103) returns nil only when its interval is over.
   since: when the goroutine began to wait.                                    *)
Definition waits (c : client) (j : nat) : bool := match nth_error (g_trk (c_mgr c)) j with Some TWait => true | _ => false end.
Fixpoint timely (cf : conf) (j : nat) (now since : Z) (l : list (Z * cact)) (c : client) : Prop :=
  match l with
  | [] => True
  | (t, a) :: l' =>
      now <= t /\
      (forall x i, a = KTrk j x -> waits c j = true -> x_timer x = true -> interval_at c j i -> since + Z.max 0 i <= t) /\
      timely cf j t (if waits c j then since else t) l' (fst (cexec cf a c))
  end.
Definition steps (l : list (Z * cact)) : list cact := map snd l.
