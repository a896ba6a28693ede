(* net/netip of Go 1.25: ParseAddr and Addr.String, as pkg/tracker/http_tracker.go:143
   and pkg/download/manager.go:216-227 use them.                               *)
From Verif Require Import Base ModelMsg ModelTracker ModelSystem ModelManager.

(* An address with its bytes, or 16-bit groups and a zone. *)
Inductive ip := IP4 (b : bytes) | IP6 (gs : list Z) (zone : bytes).

(* parseIPv4Fields: prev is s[i-1], fields those so far *)
Definition is_dec (c : Z) : bool := (48 <=? c) && (c <=? 57).
Fixpoint v4_loop (s : bytes) (prev : option Z) (val digLen : Z) (fields : bytes) : option bytes :=
  match s with
  | [] => if zlen fields <? 3 then None else Some (fields ++ [val])
  | c :: s' =>
      if is_dec c then
        if (digLen =? 1) && (val =? 0) then None
        else let val' := val * 10 + (c - 48) in if 255 <? val' then None else v4_loop s' (Some c) val' (digLen + 1) fields
      else if c =? 46 then
        if match prev with None => true | Some p => p =? 46 end || match s' with [] => true | _ => false end then None
        else if zlen fields =? 3 then None
        else v4_loop s' (Some c) 0 0 (fields ++ [val])
      else None
  end.
Definition parseIPv4Fields (s : bytes) : option bytes := v4_loop s None 0 0 [].

(* One hexadecimal group: its value, the number of its digits, what follows. *)
Definition hex_digit (c : Z) : option Z :=
  if is_dec c then Some (c - 48) else if (97 <=? c) && (c <=? 102) then Some (c - 97 + 10) else if (65 <=? c) && (c <=? 70) then Some (c - 65 + 10) else None.
Fixpoint hex_loop (s : bytes) (off acc : Z) : option (Z * Z * bytes) :=
  match s with
  | [] => Some (acc, off, [])
  | c :: s' =>
      match hex_digit c with
      | Some x =>
          let acc' := acc * 16 + x in
          if 3 <? off then None else if 65535 <? acc' then None else hex_loop s' (off + 1) acc'
      | None => Some (acc, off, s)
      end
  end.

(* parseIPv6: the loop over the groups; left is 8 - i/2, gs the groups so far (the
   bytes 0 to i of the array), ell the position of the ellipsis in groups.  Returns
   the groups, the ellipsis and what of the text is left.                      *)
Fixpoint v6_loop (left : nat) (s : bytes) (gs : list Z) (ell : option nat) : option (list Z * option nat * bytes) :=
  match left with
  | O => Some (gs, ell, s)
  | S left' =>
      match hex_loop s 0 0 with
      | None => None
      | Some (acc, off, r) =>
          if off =? 0 then None
          else
            match r with
            | [] => Some (gs ++ [acc], ell, [])
            | c :: r' =>
                if c =? 46 then
                  if match ell with None => negb (Nat.eqb (length gs) 6) | Some _ => false end then None
                  else if Nat.ltb 6 (length gs) then None
                  else match parseIPv4Fields s with
                       | Some [a; b; x; y] => Some (gs ++ [a * 256 + b; x * 256 + y], ell, [])
                       | _ => None
                       end
                else if negb (c =? 58) then None
                else
                  match r' with
                  | [] => None
                  | c2 :: r2 =>
                      if c2 =? 58 then
                        match ell with
                        | Some _ => None
                        | None => match r2 with
                                  | [] => Some (gs ++ [acc], Some (length (gs ++ [acc])), [])
                                  | _ => v6_loop left' r2 (gs ++ [acc]) (Some (length (gs ++ [acc])))
                                  end
                        end
                      else v6_loop left' r' (gs ++ [acc]) ell
                  end
            end
      end
  end.
(* the ellipsis is filled with zeros *)
Definition v6_end (x : list Z * option nat * bytes) : option (list Z) :=
  let '(gs, ell, s) := x in
  match s with
  | _ :: _ => None
  | [] =>
      if Nat.ltb (length gs) 8 then
        match ell with None => None | Some e => Some (firstn e gs ++ repeat 0 (8 - length gs) ++ skipn e gs) end
      else match ell with Some _ => None | None => Some gs end
  end.
(* strings.Cut at the first % *)
Fixpoint cut (c : Z) (s : bytes) : bytes * option bytes :=
  match s with
  | [] => ([], None)
  | x :: s' => if x =? c then ([], Some s') else let '(a, b) := cut c s' in (x :: a, b)
  end.
Definition parse_groups (s : bytes) : option (list Z) :=
  match s with
  | 58 :: 58 :: s' =>
      match s' with
      | [] => Some (repeat 0 8)
      | _ => match v6_loop 8 s' [] (Some 0%nat) with Some x => v6_end x | None => None end
      end
  | _ => match v6_loop 8 s [] None with Some x => v6_end x | None => None end
  end.
Definition parseIPv6 (s : bytes) : option ip :=
  let '(a, z) := cut 37 s in
  match z with
  | Some [] => None
  | _ => option_map (fun gs => IP6 gs (match z with Some z => z | None => [] end)) (parse_groups a)
  end.

(* ParseAddr *)
Fixpoint first_of (s : bytes) : option Z :=
  match s with
  | [] => None
  | c :: s' => if (c =? 46) || (c =? 58) || (c =? 37) then Some c else first_of s'
  end.
Definition ParseAddr (s : bytes) : option ip :=
  match first_of s with
  | Some c => if c =? 46 then option_map IP4 (parseIPv4Fields s) else if c =? 58 then parseIPv6 s else None
  | None => None
  end.

(* Addr.String: appendHex *)
Definition hex_char (n : Z) : Z := if n <? 10 then 48 + n else 87 + n.
Definition hex (x : Z) : bytes :=
  (if 4096 <=? x then [hex_char (x / 4096)] else []) ++
  (if 256 <=? x then [hex_char (x / 256 mod 16)] else []) ++
  (if 16 <=? x then [hex_char (x / 16 mod 16)] else []) ++
  [hex_char (x mod 16)].
(* appendTo6: the longest run of two or more zeros, the first of them *)
Fixpoint zeros (gs : list Z) : nat := match gs with [] => 0%nat | g :: gs' => if g =? 0 then S (zeros gs') else 0%nat end.
Fixpoint longest (gs : list Z) (i : nat) (best : nat * nat) : nat * nat :=
  match gs with
  | [] => best
  | _ :: gs' =>
      let l := zeros gs in
      longest gs' (S i) (if Nat.leb 2 l && Nat.ltb (snd best) l then (i, l) else best)
  end.
Fixpoint colons (gs : list Z) : bytes :=
  match gs with
  | [] => []
  | [g] => hex g
  | g :: gs' => hex g ++ 58 :: colons gs'
  end.
Definition appendTo6 (gs : list Z) : bytes :=
  let '(s, l) := longest gs 0 (0%nat, 0%nat) in
  if Nat.eqb l 0 then colons gs else colons (firstn s gs) ++ [58; 58] ++ colons (skipn (s + l) gs).
Definition is4in6 (gs : list Z) : bool :=
  match gs with [a; b; c; d; e; f; _; _] => (a =? 0) && (b =? 0) && (c =? 0) && (d =? 0) && (e =? 0) && (f =? 65535) | _ => false end.
Definition with_zone (z s : bytes) : bytes := match z with [] => s | _ => s ++ 37 :: z end.
Definition IpString (a : ip) : bytes :=
  match a with
  | IP4 b => dotted b
  | IP6 gs z =>
      with_zone z (if is4in6 gs then match skipn 6 gs with [x; y] => str "::ffff:" ++ dotted [x / 256; x mod 256; y / 256; y mod 256] | _ => [] end else appendTo6 gs)
  end.
(* the addresses of ModelTracker and ModelManager, where an IPv6 one is its text *)
Definition to_addr (a : ip) : addr := match a with IP4 b => V4 b | IP6 _ _ => V6 (IpString a) end.
Definition parse_ip (s : bytes) : option addr := option_map to_addr (ParseAddr s).
