(* net/url of Go 1.25: Parse as far as pkg/tracker/tracker.go:29-42 needs it, the scheme. *)
From Verif Require Import Base ModelTracker ModelLogger.

(* stringContainsCTLByte *)
Definition ctl (c : Z) : bool := (c <? 32) || (c =? 127).
Definition alpha (c : Z) : bool := ((97 <=? c) && (c <=? 122)) || ((65 <=? c) && (c <=? 90)).
Definition later (c : Z) : bool := ((48 <=? c) && (c <=? 57)) || (c =? 43) || (c =? 45) || (c =? 46).
(* getScheme; acc is rawURL[:i].  Also the path, which is left out. *)
Fixpoint getScheme (s acc : bytes) : res bytes :=
  match s with
  | [] => Ok []
  | c :: s' =>
      if alpha c then getScheme s' (acc ++ [c])
      else if later c then match acc with [] => Ok [] | _ => getScheme s' (acc ++ [c]) end
      else if c =? 58 then match acc with [] => Err "missing protocol scheme" | _ => Ok acc end
      else Ok []
  end.
Fixpoint before_hash (s : bytes) : bytes := match s with [] => [] | c :: s' => if c =? 35 then [] else c :: before_hash s' end.
(* Parse: ok says whether what follows the scheme can be parsed (authority, path and
   fragment); the result is url.Scheme                                         *)
Definition Scheme (ok : bytes -> bool) (raw : bytes) : option bytes :=
  let u := before_hash raw in
  if existsb ctl u then None
  else if beq u [42] then if ok raw then Some [] else None
  else match getScheme u [] with
       | Ok s => if ok raw then Some (ToLower s) else None
       | _ => None
       end.
