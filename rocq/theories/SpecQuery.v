(* How values are written in the query of a URL, and how they are read back there
   by RFC 3986, where a plus sign is a plus sign.                               *)
From Verif Require Import Base SpecTracker.

(* RFC 3986 2.3: what need not be escaped *)
Definition plain (c : Z) : Prop :=
  In c (str "ABCDEFGHIJKLMNOPQRSTUVWXYZabcdefghijklmnopqrstuvwxyz0123456789-._~").
Definition hex_digit (d : Z) : Z := nth (Z.to_nat d) (str "0123456789ABCDEF") 0.

(* One byte and what stands for it; the space has a sign of its own, as in forms. *)
Inductive spelled : Z -> bytes -> Prop :=
| sp_plain c : plain c -> spelled c [c]
| sp_space : spelled 32 (str "+")
| sp_other h l : 0 <= h < 16 -> 0 <= l < 16 -> ~ plain (16 * h + l) -> 16 * h + l <> 32 ->
    spelled (16 * h + l) (str "%" ++ [hex_digit h; hex_digit l]).
Inductive spells : bytes -> bytes -> Prop :=
| sps_nil : spells [] []
| sps_cons c w s ws : spelled c w -> spells s ws -> spells (c :: s) (w ++ ws).
(* key=value pairs with & between them *)
Inductive spells_query : list (bytes * bytes) -> bytes -> Prop :=
| sq_one k v a b : spells k a -> spells v b -> spells_query [(k, v)] (a ++ str "=" ++ b)
| sq_more k v a b kvs q : spells k a -> spells v b -> spells_query kvs q ->
    spells_query ((k, v) :: kvs) (a ++ str "=" ++ b ++ str "&" ++ q).

(* RFC 3986 2.1 *)
Fixpoint percent_decode (s : bytes) : option bytes :=
  match s with
  | [] => Some []
  | c :: s' =>
      if c =? 37 then
        match s' with
        | a :: b :: s'' =>
            match unhex a, unhex b, percent_decode s'' with Some x, Some y, Some r => Some (16 * x + y :: r) | _, _, _ => None end
        | _ => None
        end
      else option_map (cons c) (percent_decode s')
  end.
Definition percent_pair (p : bytes) : option (bytes * bytes) :=
  let '(k, v) := cut 61 p in match percent_decode k, percent_decode v with Some k', Some v' => Some (k', v') | _, _ => None end.
Definition percent_query (q : bytes) : option (list (bytes * bytes)) := all_some (map percent_pair (split 38 q)).
(* plus signs for spaces *)
Definition plussed (s : bytes) : bytes := map (fun c => if c =? 32 then 43 else c) s.
