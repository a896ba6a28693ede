(* When trackers are asked and addresses are tried: C103 to C106.               *)
From Verif Require Import Base ModelTracker ModelManager ModelClock SpecTimed SpecClock ProofClock ProofSlow.

(* ---------- C103 ---------- *)
(* The n-th failure in a row is followed by a pause of 1, 2, 4, 8 seconds, every fifth
   and every success by one of the interval of the tracker.                      *)
Theorem C103_left_alone : forall lag j x0 tr x l1 a b l2, 0 <= lag -> fresh j x0 -> mexec lag j x0 tr x -> calls tr = l1 ++ a :: b :: l2 ->
  pause l1 a <= k_start b - k_end a.
Proof. exact announce_pace. Qed.
Example C103_ex : exists tr x k1 k2, mexec 0 0 (start 30) tr x /\ calls tr = [k1; k2] /\ k_ok k1 = false /\ k_start k2 - k_end k1 = 1 * sec.
Proof. exact (one_failure 30). Qed.
Example C103_pauses : let k ok := mkCall 0 0 ok (1800 * sec) in
  map (fun l => pause l (k false)) [[]; [k false]; [k false; k false]; [k false; k false; k false]; [k false; k false; k false; k false]; [k false; k false; k true]] =
  [1 * sec; 2 * sec; 4 * sec; 8 * sec; 1800 * sec; 1 * sec].
Proof. reflexivity. Qed.

(* ---------- C104 ---------- *)
(* The full claim: when its interval has passed, a tracker is asked within a minute. *)
Theorem C104_in_time_refuted : ~ (forall j x0 ta s1 tb s2 tc x k1 k2, fresh j x0 -> mexec 0 j x0 (ta ++ s1 :: tb ++ s2 :: tc) x -> calls_of s1 = [k1] -> no_ann tb -> calls_of s2 = [k2] ->
  k_start k2 - k_end k1 <= pause (calls ta) k1 + 60 * sec).
Proof. exact not_late_refuted. Qed.
(* True: at most 20.0000075 seconds later for each address taken up in between ... *)
Theorem C104_in_time_partial : forall lag j x0 ta s1 tb s2 tc x k1 k2, 0 <= lag -> fresh j x0 -> mexec lag j x0 (ta ++ s1 :: tb ++ s2 :: tc) x ->
  calls_of s1 = [k1] -> no_ann tb -> calls_of s2 = [k2] ->
  k_start k2 - k_end k1 <= pause (calls ta) k1 + taken tb * (20 * sec + 7500 + 16 * lag) + 3 * lag.
Proof. exact next_announce. Qed.
(* ... and that late if none of them answers. *)
Theorem C104_late_exact : forall limit ips interval, Forall dialable ips -> NoDup (map apString ips) ->
  exists ta s1 tb s2 x k1 k2, mexec 0 0 (start limit) (ta ++ s1 :: tb ++ [s2]) x /\ calls_of s1 = [k1] /\ k_ok k1 = true /\ k_int k1 = interval /\ calls ta = [] /\ no_ann tb /\ taken tb = zlen ips /\
    calls_of s2 = [k2] /\ k_start k2 - k_end k1 = Z.max 0 interval + zlen ips * (20 * sec + 7500).
Proof. exact slow_announce. Qed.
Example C104_ex : Forall dialable five /\ NoDup (map apString five) /\ zlen five * (20 * sec + 7500) = 100 * sec + 37500.
Proof. destruct five_ok. repeat split; auto. Qed.

(* ---------- C105 ---------- *)
(* The full claim: connection attempts are at least half a second apart. *)
Theorem C105_apart_refuted : ~ (forall j x0 ta s1 tb s2 tc x, fresh j x0 -> mexec 0 j x0 (ta ++ s1 :: tb ++ s2 :: tc) x ->
  happens is_dial s1 = true -> (forall s, In s tb -> happens is_dial s = false) -> happens is_dial s2 = true -> 500 * ms <= ms_from s2 - ms_from s1).
Proof. exact half_second_refuted. Qed.
(* The delays are 500 nanoseconds, doubled each time: ... *)
Theorem C105_apart_exact : forall lag j x0 ta s1 tb s2 tc x, 0 <= lag -> fresh j x0 -> mexec lag j x0 (ta ++ s1 :: tb ++ s2 :: tc) x ->
  happens is_dial s1 = true -> (forall s, In s tb -> happens is_add s = false /\ happens is_dial s = false) -> happens is_dial s2 = true ->
  (tries ta <= 3)%nat /\ 500 * 2 ^ Z.of_nat (tries ta) <= ms_from s2 - ms_from s1 <= 500 * 2 ^ Z.of_nat (tries ta) + 4 * sec + 3 * lag.
Proof. exact attempts_apart. Qed.
(* ... an address that refuses connections may be given up after 7.5 microseconds. *)
Theorem C105_given_up_exact : forall limit (a : addrport), a <> None -> exists tr x, mexec 0 0 (start limit) tr x /\ dial_starts tr = [0; 500; 1500; 3500; 7500].
Proof. exact quick_attempts. Qed.
Example C105_ex : exists tr x, mexec 0 0 (start 30) tr x /\ dial_starts tr = [0; 500; 1500; 3500; 7500].
Proof. apply (quick_attempts 30 (Some (V4 [10; 0; 0; 1], 6881))). discriminate. Qed.

(* ---------- C106 ---------- *)
(* The full claim: every address of a reply is taken up within a minute. *)
Theorem C106_soon_refuted : ~ (forall j x0 ta s1 tb s2 tc x k1, fresh j x0 -> mexec 0 j x0 (ta ++ s1 :: tb ++ s2 :: tc) x -> calls_of s1 = [k1] -> no_ann tb -> happens is_add s2 = true ->
  ms_from s2 - k_end k1 <= 60 * sec).
Proof. exact soon_refuted. Qed.
(* True: within 20.0000075 seconds for each address before it ... *)
Theorem C106_soon_partial : forall lag j x0 ta s1 tb s2 tc x k1, 0 <= lag -> fresh j x0 -> mexec lag j x0 (ta ++ s1 :: tb ++ s2 :: tc) x ->
  calls_of s1 = [k1] -> no_ann tb -> happens is_add s2 = true -> ms_from s2 - k_end k1 <= taken tb * (20 * sec + 7500 + 16 * lag).
Proof. exact next_address. Qed.
(* ... and no sooner if those do not answer. *)
Theorem C106_wait_exact : forall limit ips a (interval : Z), Forall dialable (ips ++ [a]) -> NoDup (map apString (ips ++ [a])) ->
  exists ta s1 tb s2 tc x k1, mexec 0 0 (start limit) (ta ++ s1 :: tb ++ s2 :: tc) x /\ calls_of s1 = [k1] /\ k_ok k1 = true /\ no_ann tb /\ happens is_add s2 = true /\ taken tb = zlen ips /\
    ms_from s2 - k_end k1 = zlen ips * (20 * sec + 7500).
Proof. exact slow_address. Qed.
Example C106_ex : exists ips a, Forall dialable (ips ++ [a]) /\ NoDup (map apString (ips ++ [a])) /\ zlen ips * (20 * sec + 7500) = 80 * sec + 30000.
Proof. exists (removelast five), (Some (V4 [10; 0; 0; 5], 6881)). destruct five_ok. repeat split; auto. Qed.

Print Assumptions C103_left_alone.
Print Assumptions C104_in_time_refuted.
Print Assumptions C104_in_time_partial.
Print Assumptions C104_late_exact.
Print Assumptions C105_apart_refuted.
Print Assumptions C105_apart_exact.
Print Assumptions C105_given_up_exact.
Print Assumptions C106_soon_refuted.
Print Assumptions C106_soon_partial.
Print Assumptions C106_wait_exact.
