(* Peers of a tracker's reply without an address (C170).                        *)
From Verif Require Import Base ModelBencode SpecText ModelUnmarshal SpecUnmarshal ModelTracker SpecTracker.

(* BEP 3: the key ip holds the peer's "IP address (either IPv6 (hexed) or IPv4 (dotted
   quad) or DNS name (string))".  An entry of the peer list that gives no address: its
   ip is none for netip.ParseAddr (parse_ip), or its port is no number below 65536. *)
Definition no_address (parse_ip : bytes -> option addr) (v : ben) : Prop :=
  exists m ip port, is_dict v m /\ lookup (str "ip") m = Some ip /\ lookup (str "port") m = Some port /\
    (parse_ip (text ip) = None \/ ~ exists n, decimal (text port) n /\ n < 65536).
(* a reply with such an entry *)
Definition names (parse_ip : bytes -> option addr) (b : bytes) : Prop :=
  exists m raw v vs e, Parse b = Ok (BDict true m raw) /\ lookup (str "peers") m = Some v /\ is_list v vs /\ In e vs /\ no_address parse_ip e.
