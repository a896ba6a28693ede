(* What trackers expect and send: query strings, compact peer lists, BEP 15.    *)
From Verif Require Import Base ModelBencode SpecText ModelUnmarshal SpecUnmarshal ModelTracker.

(* ---------- query strings (application/x-www-form-urlencoded) ---------- *)
Definition unhex (c : Z) : option Z :=
  if (48 <=? c) && (c <=? 57) then Some (c - 48)
  else if (65 <=? c) && (c <=? 70) then Some (c - 55)
  else if (97 <=? c) && (c <=? 102) then Some (c - 87)
  else None.
Fixpoint unescape (s : bytes) : option bytes :=
  match s with
  | [] => Some []
  | c :: s' =>
      if c =? 37 then                                   (* %XX *)
        match s' with
        | a :: b :: s'' =>
            match unhex a, unhex b, unescape s'' with Some x, Some y, Some r => Some (16 * x + y :: r) | _, _, _ => None end
        | _ => None
        end
      else option_map (cons (if c =? 43 then 32 else c)) (unescape s')
  end.
Fixpoint split (sep : Z) (s : bytes) : list bytes :=
  match s with
  | [] => [[]]
  | c :: s' => if c =? sep then [] :: split sep s' else match split sep s' with x :: xs => (c :: x) :: xs | [] => [[c]] end
  end.
(* the part before the first sep, and the part after it *)
Fixpoint cut (sep : Z) (s : bytes) : bytes * bytes :=
  match s with
  | [] => ([], [])
  | c :: s' => if c =? sep then ([], s') else let '(a, b) := cut sep s' in (c :: a, b)
  end.
Definition decode_pair (p : bytes) : option (bytes * bytes) :=
  let '(k, v) := cut 61 p in match unescape k, unescape v with Some k', Some v' => Some (k', v') | _, _ => None end.
Fixpoint all_some {A} (l : list (option A)) : option (list A) :=
  match l with
  | [] => Some []
  | Some x :: l' => option_map (cons x) (all_some l')
  | None :: _ => None
  end.
Definition decode_query (q : bytes) : option (list (bytes * bytes)) := all_some (map decode_pair (split 38 q)).
(* the query of a URL: between the first ? and the first # *)
Definition query_of (url : bytes) : bytes := snd (cut 63 (fst (cut 35 url))).

(* ---------- compact peer lists: four address bytes and a port each ---------- *)
Definition compact (e : bytes * Z) : bytes := fst e ++ be_put 2 (snd e).
Definition compact_ok (e : bytes * Z) : Prop := length (fst e) = 4%nat /\ 0 <= snd e < 65536.
Definition peer_of (e : bytes * Z) : addrport := Some (V4 (fst e), snd e).

(* ---------- tracker replies ---------- *)
Definition decimal (s : bytes) (n : Z) : Prop :=
  s <> [] /\ Forall (fun c => 48 <= c <= 57) s /\ n = fold_left (fun a c => a * 10 + (c - 48)) s 0.
(* the entry of a peers list gives address a *)
Definition entry_of (parse_ip : bytes -> option addr) (v : ben) (a : addrport) : Prop :=
  exists m ip port, is_dict v m /\ lookup (str "ip") m = Some ip /\ ip <> BNil /\ lookup (str "port") m = Some port /\ port <> BNil /\
    ((exists x n, parse_ip (text ip) = Some x /\ decimal (text port) n /\ n < 65536 /\ a = Some (x, n)) \/
     ((parse_ip (text ip) = None \/ ~ exists n, decimal (text port) n /\ n < 65536) /\ a = None)).
(* the interval of a reply: the entry if there is one, else 0 *)
Definition interval_of (m : list (bytes * ben)) (n : Z) : Prop :=
  (absent m (str "interval") /\ n = 0) \/
  (exists v, lookup (str "interval") m = Some v /\ v <> BNil /\ int_literal (text v) n /\ - 2 ^ 63 <= n < 2 ^ 63).

(* no failure reason, or an empty one *)
Definition no_failure (m : list (bytes * ben)) : Prop :=
  absent m (str "failure reason") \/ exists v, lookup (str "failure reason") m = Some v /\ v <> BNil /\ text v = [].

(* ---------- BEP 15 ---------- *)
Definition bep15_announce (connId tx : Z) (hash peerId : bytes) (downloaded left uploaded event ip key num port : Z) : bytes :=
  be_put 8 connId ++ be_put 4 1 ++ be_put 4 tx ++ hash ++ peerId ++ be_put 8 downloaded ++ be_put 8 left ++ be_put 8 uploaded ++
  be_put 4 event ++ be_put 4 ip ++ be_put 4 key ++ be_put 4 num ++ be_put 2 port.
(* magic constant 0x41727101980 *)
Definition bep15_connect (tx : Z) : bytes := [0; 0; 4; 23; 39; 16; 25; 128] ++ be_put 4 0 ++ be_put 4 tx.
Definition bep15_connect_reply (tx connId : Z) : bytes := be_put 4 0 ++ be_put 4 tx ++ be_put 8 connId.
Definition bep15_announce_reply (tx interval leechers seeders : Z) (peers : bytes) : bytes :=
  be_put 4 1 ++ be_put 4 tx ++ be_put 4 interval ++ be_put 4 leechers ++ be_put 4 seeders ++ peers.
