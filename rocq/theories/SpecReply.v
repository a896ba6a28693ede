(* Replies of a tracker that are told apart by nothing the client looks at; IPv6 peers (BEP 7). *)
From Verif Require Import Base ModelBencode SpecBencode ModelTracker.

(* entries of a peers list with the same ip and port *)
Definition peer_alike (v1 v2 : ben) : Prop :=
  exists m1 r1 m2 r2, v1 = BDict true m1 r1 /\ v2 = BDict true m2 r2 /\
    lookup (str "ip") m1 = lookup (str "ip") m2 /\ lookup (str "port") m1 = lookup (str "port") m2.
Definition peers_alike (v1 v2 : option ben) : Prop :=
  v1 = v2 \/ exists l1 r1 l2 r2, v1 = Some (BList true l1 r1) /\ v2 = Some (BList true l2 r2) /\ Forall2 peer_alike l1 l2.
(* the keys that are looked at *)
Definition known_reply : list bytes := [str "failure reason"; str "interval"; str "peers"].

(* a compact IPv6 peer: 16 bytes of address, 2 of port *)
Definition compact6 (e : bytes * Z) : bytes := fst e ++ [snd e / 256; snd e mod 256].
Definition peer6 (e : bytes * Z) : Prop := length (fst e) = 16%nat /\ Forall is_byte (fst e) /\ 0 <= snd e < 65536.
