(* Textual addresses (RFC 4291, 2.2 and dotted decimal; C128, C129).            *)
From Verif Require Import Base SpecBencode ModelMsg ModelTracker ModelManager ModelAddr.

Definition octet (x : Z) : Prop := 0 <= x < 256.
(* a decimal number below 256 without leading zeros; four of them with dots between *)
Definition number (s : bytes) (n : Z) : Prop := digits s /\ s <> [] /\ (hd 0 s = 48 -> s = [48]) /\ n = decval s /\ n < 256.
Inductive dots : bytes -> list Z -> Prop :=
| do_one s n : number s n -> dots s [n]
| do_more s n r ns : number s n -> dots r ns -> dots (s ++ [46] ++ r) (n :: ns).
Definition quad (s : bytes) (a b c d : Z) : Prop := dots s [a; b; c; d].
(* one to four hexadecimal digits of either case *)
Inductive hexit : Z -> Z -> Prop :=
| hx_dec c : 48 <= c <= 57 -> hexit c (c - 48)
| hx_low c : 97 <= c <= 102 -> hexit c (c - 87)
| hx_up c : 65 <= c <= 70 -> hexit c (c - 55).
Definition group (s : bytes) (n : Z) : Prop := exists ds, Forall2 hexit s ds /\ (1 <= length s <= 4)%nat /\ n = fold_left (fun a x => a * 16 + x) ds 0.
(* groups with colons between them; the last two may be written as a quad *)
Inductive plain : bytes -> list Z -> Prop :=
| pl_one s n : group s n -> plain s [n]
| pl_more s n r gs : group s n -> plain r gs -> plain (s ++ [58] ++ r) (n :: gs).
Inductive full : bytes -> list Z -> Prop :=
| fu_one s n : group s n -> full s [n]
| fu_quad s a b c d : quad s a b c d -> full s [a * 256 + b; c * 256 + d]
| fu_more s n r gs : group s n -> full r gs -> full (s ++ [58] ++ r) (n :: gs).
(* eight groups, or fewer with two colons for zeros *)
Definition none_or (P : bytes -> list Z -> Prop) (s : bytes) (gs : list Z) : Prop := (s = [] /\ gs = []) \/ P s gs.
Inductive spells6 : bytes -> list Z -> Prop :=
| sp_full s gs : full s gs -> length gs = 8%nat -> spells6 s gs
| sp_short s t gs hs k : none_or plain s gs -> none_or full t hs -> (length gs + S k + length hs = 8)%nat -> spells6 (s ++ [58; 58] ++ t) (gs ++ repeat 0 (S k) ++ hs).
Inductive spells : bytes -> ip -> Prop :=
| sp_4 s a b c d : quad s a b c d -> spells s (IP4 [a; b; c; d])
| sp_6 s gs : spells6 s gs -> spells s (IP6 gs [])
| sp_zone s gs z : spells6 s gs -> z <> [] -> spells (s ++ [37] ++ z) (IP6 gs z).
(* what an address is *)
Definition address (a : ip) : Prop :=
  match a with
  | IP4 b => exists x y z t, b = [x; y; z; t] /\ octet x /\ octet y /\ octet z /\ octet t
  | IP6 gs _ => length gs = 8%nat /\ Forall (fun g => 0 <= g < 65536) gs
  end.
(* the machine it stands for: an IPv4 address mapped into IPv6 (RFC 4291, 2.5.5.2) is the IPv4 host *)
Inductive host : ip -> ip -> Prop :=
| ho_mapped a b c d : host (IP6 [0; 0; 0; 0; 0; 65535; a * 256 + b; c * 256 + d] []) (IP4 [a; b; c; d])
| ho_same x : host x x.
(* the name of a host (RFC 1123, 2.1): labels of letters, digits and hyphens with dots
   between them, a letter in the last one                                      *)
Definition letter (c : Z) : Prop := 97 <= c <= 122 \/ 65 <= c <= 90.
Definition label (s : bytes) : Prop := s <> [] /\ Forall (fun c => letter c \/ 48 <= c <= 57 \/ c = 45) s.
Inductive host_name : bytes -> Prop :=
| hn_last s : label s -> Exists letter s -> host_name s
| hn_dot s r : label s -> host_name r -> host_name (s ++ [46] ++ r).
(* two peers of the pool that are one host with one port *)
Definition same_host (a b : addrport) : Prop :=
  exists x y h p, address x /\ address y /\ host x h /\ host y h /\ 0 <= p < 65536 /\ a = Some (to_addr x, p) /\ b = Some (to_addr y, p).
