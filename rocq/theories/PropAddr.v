(* C128, C129: the addresses of peers in a reply of a tracker that lists them. *)
From Verif Require Import Base ModelTracker SpecTracker ModelManager SpecManager ProofManager3 ModelAddr SpecAddr ProofAddr.

(* ---------- C128 ---------- *)
(* Full property: the ip of an entry (BEP 3: an IPv6 address, an IPv4 address or the name of
   a host) becomes the address of that peer.  Refuted for names.               *)
Theorem C128_names_refuted : ~ forall s port n, host_name s -> decimal port n -> n < 65536 -> bencode_entry parse_ip s port <> None.
Proof. exact names_refuted. Qed.
(* No name of a host is ever understood; the entry becomes the zero AddrPort. *)
Theorem C128_names_exact s port : host_name s -> bencode_entry parse_ip s port = None.
Proof. exact (names_exact s port). Qed.
(* Exactly the texts that are addresses, and which address each one is. *)
Theorem C128_parse_exact s x : ParseAddr s = Some x <-> spells s x.
Proof. exact (parse_addr_iff s x). Qed.
Theorem C128_entry_exact ip port a : bencode_entry parse_ip ip port = a <->
  (exists x n, spells ip x /\ decimal port n /\ n < 65536 /\ a = Some (to_addr x, n)) \/
  ((~ exists x n, spells ip x /\ decimal port n /\ n < 65536) /\ a = None).
Proof. exact (entry_iff ip port a). Qed.
(* Every text read is an address, and every address is read back from the text it is shown as. *)
Theorem C128_range_partial s x : ParseAddr s = Some x -> address x.
Proof. intros H. apply (spells_address s). now apply parse_addr_iff. Qed.
Theorem C128_shown_partial x : address x -> spells (IpString x) x /\ ParseAddr (IpString x) = Some x.
Proof. intros H. split; [exact (string_spells x H)|exact (string_parses x H)]. Qed.
Example C128_ex_name : host_name named /\ decimal (str "6881") 6881.
Proof. split; [exact named_host|exact port_6881]. Qed.
Example C128_ex : ParseAddr (str "192.168.1.10") = Some (IP4 [192; 168; 1; 10]) /\ ParseAddr (str "2001:DB8::8:800:200C:417A") = Some (IP6 [8193; 3512; 0; 0; 8; 2048; 8204; 16762] []) /\
  ParseAddr (str "::ffff:10.0.0.1") = Some (IP6 [0; 0; 0; 0; 0; 65535; 2560; 1] []) /\ ParseAddr (str "fe80::1%eth0") = Some (IP6 [65152; 0; 0; 0; 0; 0; 0; 1] (str "eth0")) /\
  ParseAddr (str "1:2:3:4:5:6:7::") = Some (IP6 [1; 2; 3; 4; 5; 6; 7; 0] []) /\ ParseAddr (str "::") = Some (IP6 [0; 0; 0; 0; 0; 0; 0; 0] []).
Proof. vm_compute. repeat split. Qed.
Example C128_ex_none : Forall (fun s => ParseAddr s = None) [str "01.2.3.4"; str "1.2.3"; str "1.2.3.4.5"; str "256.1.1.1"; str "1..2.3"; str "1:2:3:4:5:6:7:8::"; str "1::2::3"; str "12345::"; str "::1%"; str "fe80"; str ""; str ":1::"; str "1:2:3:4:5:6:7:1.2.3.4"].
Proof. repeat (constructor; [vm_compute; reflexivity|]). constructor. Qed.
Example C128_ex_shown : IpString (IP6 [8193; 3512; 0; 0; 1; 0; 0; 0] []) = str "2001:db8:0:0:1::" /\ IpString (IP6 [1; 0; 2; 3; 4; 5; 6; 7] (str "a")) = str "1:0:2:3:4:5:6:7%a" /\
  IpString (IP6 [0; 0; 0; 0; 0; 65535; 2560; 1] []) = str "::ffff:10.0.0.1" /\ address (IP6 [8193; 3512; 0; 0; 1; 0; 0; 0] []).
Proof. split; [vm_compute; reflexivity|]. split; [vm_compute; reflexivity|]. split; [vm_compute; reflexivity|]. split; [reflexivity|]. repeat (constructor; [lia|]). constructor. Qed.
Example C128_ex_entry : bencode_entry parse_ip (str "2001:db8::1") (str "06881") = Some (V6 (str "2001:db8::1"), 6881) /\ bencode_entry parse_ip (str "2001:db8::1") (str "70000") = None /\ bencode_entry parse_ip named (str "6881") = None.
Proof. vm_compute. repeat split. Qed.

(* ---------- C129 ---------- *)
(* Full property: a host with a port is added to the pool once, however its address is
   written.  Refuted: 10.0.0.1 and ::ffff:10.0.0.1 are two entries.            *)
Theorem C129_hosts_refuted : ~ forall n l g tr i j a b, Forall act_ok l -> grun l (NewMng n) = (g, tr) ->
  nth_error (added tr) i = Some a -> nth_error (added tr) j = Some b -> same_host a b -> i = j.
Proof. exact hosts_refuted. Qed.
(* It is so only with an IPv4 address and that address mapped into IPv6. *)
Theorem C129_twice_exact n l g tr i j a b : grun l (NewMng n) = (g, tr) -> nth_error (added tr) i = Some a -> nth_error (added tr) j = Some b -> i <> j -> same_host a b ->
  exists q r s t p, (a = Some (V4 [q; r; s; t], p) /\ b = Some (to_addr (mapped q r s t), p)) \/ (b = Some (V4 [q; r; s; t], p) /\ a = Some (to_addr (mapped q r s t), p)).
Proof. exact (twice_exact n l g tr i j a b). Qed.
(* Two entries of replies have one key exactly if they say the same, or neither says anything. *)
Theorem C129_keys_exact ip1 port1 ip2 port2 :
  apString (bencode_entry parse_ip ip1 port1) = apString (bencode_entry parse_ip ip2 port2) <->
  (forall x n, (spells ip1 x /\ decimal port1 n /\ n < 65536) <-> (spells ip2 x /\ decimal port2 n /\ n < 65536)).
Proof. exact (keys_iff ip1 port1 ip2 port2). Qed.
Example C129_ex : let '(g, tr) := grun both (NewMng 30) in added tr = [Some (V4 [10; 0; 0; 1], 6881); Some (V6 (str "::ffff:10.0.0.1"), 6881)].
Proof. vm_compute. reflexivity. Qed.
Example C129_ex_keys : apString (bencode_entry parse_ip (str "2001:DB8:0::1") (str "80")) = str "[2001:db8::1]:80" /\ apString (bencode_entry parse_ip (str "2001:0db8::0:1") (str "080")) = str "[2001:db8::1]:80" /\
  apString (bencode_entry parse_ip (str "::ffff:a00:1") (str "6881")) = apString two /\ apString two <> apString one.
Proof. split; [vm_compute; reflexivity|]. split; [vm_compute; reflexivity|]. split; [vm_compute; reflexivity|]. vm_compute. discriminate. Qed.

Print Assumptions C128_names_refuted.
Print Assumptions C128_names_exact.
Print Assumptions C128_parse_exact.
Print Assumptions C128_entry_exact.
Print Assumptions C128_range_partial.
Print Assumptions C128_shown_partial.
Print Assumptions C129_hosts_refuted.
Print Assumptions C129_twice_exact.
Print Assumptions C129_keys_exact.
