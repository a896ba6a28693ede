(* Trackers are announced to again and again (C121).                           *)
From Verif Require Import Base ModelBencode ModelMsg ModelConn ModelPeer ModelSystem ModelTracker ModelManager ModelClient SpecMsg SpecClient SpecProgram.

Definition udp_url (cf : conf) (u : bytes) : Prop := cf_scheme cf u = Some (str "udp").
(* an answer of the protocol of the URL *)
Definition answers (cf : conf) (u : bytes) (r : reply) : Prop := match r with RHttp _ _ => http_url cf u | RUdp _ _ _ _ _ => udp_url cf u end.
(* Schedules without end: main and the goroutine of tracker j get their turns, timers
   expire, and announces are answered or fail.                                 *)
Definition keeps_going (cf : conf) (u : bytes) (j : nat) (s : nat -> cact) : Prop :=
  forall n, (exists m, (n <= m)%nat /\ s m = KMain) /\ (exists m x, (n <= m)%nat /\ s m = KTrk j x /\ x_timer x = true) /\
    (exists m, (n <= m)%nat /\ s m = KLoad j) /\ (exists m r, (n <= m)%nat /\ s m = KAnn j r /\ answers cf u r).
(* step m of the schedule is an announce to tracker j *)
Definition announces (cf : conf) (s : nat -> cact) (c : client) (j m : nat) : Prop :=
  exists e, announce_by j e /\ In e (snd (cexec cf (s m) (cafter cf s m c))).
(* the goroutine of tracker j is about to create its tracker (manager.go:81) *)
Definition creating (c : client) (j : nat) : Prop := nth_error (g_trk (c_mgr c)) j = Some TNew.

(* a reply with this "tracker id", to be sent back with later announces (C122) *)
Definition gives_id (h : httpres) (v : bytes) : Prop :=
  exists b m raw, h = HttpBody 200 (Some b) /\ Parse b = Ok (BDict true m raw) /\ lookup (str "tracker id") m = Some (BStr v).

(* Events of peer k: it asked for the block of n bytes at off in piece i, and was
   sent it (C123).                                                             *)
Definition asked (k : nat) (i off n : Z) (e : cev) : Prop := e = VSys k (EReadOk (6 :: be_put 4 i ++ be_put 4 off ++ be_put 4 n)).
Definition served (k : nat) (i off : Z) (d : bytes) (e : cev) : Prop := exists m, e = VSys k (ESent m) /\ Send m = frame (7 :: be_put 4 i ++ be_put 4 off ++ d).
