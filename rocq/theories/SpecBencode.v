(* Independent specification of the bencode documents gotit understands.
   BEP-3 bencode restricted to non-negative integers; the code is liberal in
   that a decimal number may be empty (meaning 0) or have leading zeros.      *)
From Verif Require Import Base ModelBencode.

(* Decimal notation. *)
Definition digit (c : Z) : Prop := 48 <= c <= 57.
Definition digits (ds : bytes) : Prop := Forall digit ds.
Definition decval (ds : bytes) : Z := fold_left (fun a c => a * 10 + (c - 48)) ds 0.

(* Largest number the parser can represent: floor((2^63-1)/10). *)
Definition MAXN : Z := 922337203685477580.

(* Inputs whose size is representable (every input that fits in memory). *)
Definition fits (d : bytes) : Prop := zlen d <= MAXN.

(* The Go map built by assigning the entries in document order. *)
Definition dict_of {A} (es : list (bytes * A)) : list (bytes * A) :=
  fold_left (fun m kv => insert (fst kv) (snd kv) m) es [].

(* [denotes_with val w e]: the bytes w are exactly one document, denoting
   element e, when a digit string ds stands for the number [val ds] (None: not
   representable).  The last argument of BList/BDict is what Raw() returns: the
   document itself. *)
Inductive denotes_with (val : bytes -> option Z) : bytes -> ben -> Prop :=
| den_int ds n :
    digits ds -> val ds = Some n ->
    denotes_with val ([105] ++ ds ++ [101]) (BInt n)                   (* i<digits>e *)
| den_str ds s :
    digits ds -> val ds = Some (zlen s) ->
    denotes_with val (ds ++ [58] ++ s) (BStr s)                        (* <len>:<bytes> *)
| den_list body es :
    den_items val body es ->
    denotes_with val ([108] ++ body ++ [101]) (BList true es ([108] ++ body ++ [101]))   (* l...e *)
| den_dict body es :
    den_entries val body es ->
    denotes_with val ([100] ++ body ++ [101]) (BDict true (dict_of es) ([100] ++ body ++ [101])) (* d...e *)
with den_items (val : bytes -> option Z) : bytes -> list ben -> Prop :=
| items_nil : den_items val [] []
| items_cons w e body es :
    denotes_with val w e -> den_items val body es -> den_items val (w ++ body) (e :: es)
with den_entries (val : bytes -> option Z) : bytes -> list (bytes * ben) -> Prop :=
| entries_nil : den_entries val [] []
| entries_cons kw k w e body es :
    denotes_with val kw (BStr k) -> denotes_with val w e -> den_entries val body es ->
    den_entries val (kw ++ w ++ body) ((k, e) :: es).

(* True decimal value, up to the largest representable number. *)
Definition exact_val (ds : bytes) : option Z :=
  if decval ds <=? MAXN then Some (decval ds) else None.
(* Value computed by int64 arithmetic that wraps around (numbers above MAXN are corrupted). *)
Definition machine_val (ds : bytes) : Z :=
  Z.quot (fold_left (fun n c => wrap64 (wrap64 (n + (c - 48)) * 10)) ds 0) 10.
Definition wrapped_val (ds : bytes) : option Z := Some (machine_val ds).

(* bencode proper / bencode with wrapped numbers *)
Notation denotes := (denotes_with exact_val).
Notation wdenotes := (denotes_with wrapped_val).

(* Every run of digits in the data is a representable number. *)
Definition small_numbers (d : bytes) : Prop :=
  forall a ds b, d = a ++ ds ++ b -> digits ds -> decval ds <= MAXN.

(* Last value bound to k in a list of entries. *)
Fixpoint last_binding {A} (k : bytes) (es : list (bytes * A)) : option A :=
  match es with
  | [] => None
  | (k', v) :: es' =>
      match last_binding k es' with
      | Some v' => Some v'
      | None => if beq k k' then Some v else None
      end
  end.

(* [inside x e]: x is e or one of its children at any depth. *)
Inductive inside (x : ben) : ben -> Prop :=
| in_here : inside x x
| in_list p v raw e : In e v -> inside x e -> inside x (BList p v raw)
| in_dict p m raw k e : In (k, e) m -> inside x e -> inside x (BDict p m raw).

(* Value equality of elements as a user sees it: nil children are dropped,
   dictionaries are compared as maps, Raw() is ignored. *)
Definition visible (m : list (bytes * ben)) (k : bytes) : option ben :=
  match lookup k m with Some BNil => None | o => o end.
Inductive same_value : ben -> ben -> Prop :=
| sv_int n : same_value (BInt n) (BInt n)
| sv_str s : same_value (BStr s) (BStr s)
| sv_list p v r p' v' r' : same_items v v' -> same_value (BList p v r) (BList p' v' r')
| sv_dict p m r p' m' r' :
    (forall k, visible m k = None <-> visible m' k = None) ->
    (forall k a b, visible m k = Some a -> visible m' k = Some b -> same_value a b) ->
    same_value (BDict p m r) (BDict p' m' r')
with same_items : list ben -> list ben -> Prop :=
| si_nil : same_items [] []
| si_skip_l v v' : same_items v v' -> same_items (BNil :: v) v'
| si_skip_r v v' : same_items v v' -> same_items v (BNil :: v')
| si_cons a b v v' : same_value a b -> same_items v v' -> same_items (a :: v) (b :: v').

(* Elements whose encoding is faithful: integers between 0 and MAXN, and
   dictionaries that are maps (one entry per key), at every depth. *)
Definition encodable (e : ben) : Prop :=
  forall x, inside x e ->
    match x with
    | BInt n => 0 <= n <= MAXN
    | BDict _ m _ => NoDup (map fst m)
    | _ => True
    end.
