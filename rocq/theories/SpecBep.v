(* Bencode as BEP 3 has it, and torrent files as BEP 3, 12 and 19 have them.     *)
From Coq Require Import Sorted.
From Verif Require Import Base ModelBencode SpecBencode ModelTorrent SpecUnmarshal ModelCmd.

(* ---------- bencode ---------- *)
(* a number: no leading zeros *)
Definition natural (ds : bytes) (n : Z) : Prop := digits ds /\ ds <> [] /\ (hd 0 ds = 48 -> ds = [48]) /\ decval ds = n.
(* the order of keys: raw bytes *)
Inductive before : bytes -> bytes -> Prop :=
| bf_end c s : before [] (c :: s)
| bf_less c c' s s' : c < c' -> before (c :: s) (c' :: s')
| bf_same c s s' : before s s' -> before (c :: s) (c :: s').
(* The bytes are this element; -0 is not allowed, keys are in order. *)
Inductive bep3 : bytes -> ben -> Prop :=
| b3_int ds n : natural ds n -> bep3 ([105] ++ ds ++ [101]) (BInt n)
| b3_neg ds n : natural ds n -> n <> 0 -> bep3 ([105] ++ 45 :: ds ++ [101]) (BInt (- n))
| b3_str ds s : natural ds (zlen s) -> bep3 (ds ++ [58] ++ s) (BStr s)
| b3_list body es : bep3_items body es -> bep3 ([108] ++ body ++ [101]) (BList true es ([108] ++ body ++ [101]))
| b3_dict body es : bep3_entries body es -> StronglySorted before (map fst es) -> bep3 ([100] ++ body ++ [101]) (BDict true es ([100] ++ body ++ [101]))
with bep3_items : bytes -> list ben -> Prop :=
| b3i_nil : bep3_items [] []
| b3i_cons w e body es : bep3 w e -> bep3_items body es -> bep3_items (w ++ body) (e :: es)
with bep3_entries : bytes -> list (bytes * ben) -> Prop :=
| b3e_nil : bep3_entries [] []
| b3e_cons kw k w e body es : bep3 kw (BStr k) -> bep3 w e -> bep3_entries body es -> bep3_entries (kw ++ w ++ body) ((k, e) :: es).

(* the integers of an element, at any depth *)
Definition integers (e : ben) (P : Z -> Prop) : Prop := forall n, inside (BInt n) e -> P n.
(* a non-negative integer as the parser has it: computed as ten times the number, in 64 bits *)
Definition int_read (n : Z) : Z := Z.quot (wrap64 (n * 10)) 10.
Fixpoint read_as (e : ben) : ben :=
  match e with
  | BNil => BNil
  | BInt n => BInt (int_read n)
  | BStr s => BStr s
  | BList p l raw => BList p (map read_as l) raw
  | BDict p m raw => BDict p (map (fun kv => (fst kv, read_as (snd kv))) m) raw
  end.

(* ---------- torrent files ---------- *)
Definition strings (v : ben) (l : list bytes) : Prop := exists raw, v = BList true (map BStr l) raw.
Definition lists_of_strings (v : ben) : Prop := exists vs raw, v = BList true vs raw /\ Forall (fun x => exists l, strings x l) vs.
Definition size (n : Z) : Prop := 0 <= n < 2 ^ 63.
Definition file_entry (v : ben) : Prop :=
  exists m raw n p c cs, v = BDict true m raw /\ lookup (str "length") m = Some (BInt n) /\ size n /\ lookup (str "path") m = Some p /\ strings p (c :: cs).
(* a value for the key, if there is one, is like that *)
Definition if_any (m : list (bytes * ben)) (k : string) (P : ben -> Prop) : Prop := forall v, lookup (str k) m = Some v -> P v.
Arguments if_any m k%string_scope P.
Definition bep_info (i : list (bytes * ben)) : Prop :=
  (exists s, lookup (str "name") i = Some (BStr s)) /\
  (exists n, lookup (str "piece length") i = Some (BInt n) /\ size n /\ n <> 0) /\
  (exists s, lookup (str "pieces") i = Some (BStr s) /\ zlen s mod 20 = 0) /\
  ((exists n, lookup (str "length") i = Some (BInt n) /\ size n) /\ lookup (str "files") i = None \/
   lookup (str "length") i = None /\ exists vs raw, lookup (str "files") i = Some (BList true vs raw) /\ vs <> [] /\ Forall file_entry vs).
(* url-list may be one URL or a list of them (BEP 19) *)
Definition bep_torrent (m : list (bytes * ben)) : Prop :=
  (exists u, lookup (str "announce") m = Some (BStr u)) /\
  if_any m "announce-list" lists_of_strings /\
  if_any m "url-list" (fun v => (exists u, v = BStr u) \/ exists l, strings v l) /\
  if_any m "creation date" (fun v => exists n, v = BInt n /\ size n) /\
  exists i raw, lookup (str "info") m = Some (BDict true i raw) /\ bep_info i.
(* the operating system and the configuration put nothing in the way *)
Definition willing (look : bytes -> cfgres) (o : osenv) (out : bytes) : Prop :=
  look [] <> CfgError /\ o_stat o out = Some true /\ o_mkdir_missing o = false /\ forall p, o_creat o p = true.
(* ---------- numbers that make sense ---------- *)
Definition lengths (M : metainfo) : list Z := if mi_length M =? 0 then map tf_length (mi_files M) else [mi_length M].
Definition sensible (M : metainfo) : Prop :=
  0 < mi_piece_length M /\ Forall (fun n => 0 <= n) (lengths M) /\
  exists k, zlen (mi_pieces M) = 20 * k /\ (k - 1) * mi_piece_length M < fold_right Z.add 0 (lengths M) <= k * mi_piece_length M.
(* two torrents with the same names *)
Definition named_alike (M M' : metainfo) : Prop :=
  mi_name M = mi_name M' /\ (mi_length M = 0 <-> mi_length M' = 0) /\ (mi_length M = 0 -> map tf_path (mi_files M) = map tf_path (mi_files M')).
Definition only_file_differs (o o' : osenv) : Prop := o_stat o' = o_stat o /\ o_creat o' = o_creat o /\ o_mkdir_missing o' = o_mkdir_missing o.
