(* How often a peer is told that the client is interested.                     *)
From Verif Require Import Base ModelMsg ModelPeer SpecPeer.

(* the message with id 2 and no payload goes out *)
Definition tells (e : event) : Prop := match e with ESent m => m_type m = 2 | _ => False end.
(* something is read from the peer, or reading failed *)
Definition reading (e : event) : Prop := match e with EReadOk _ | EReadErr => True | _ => False end.
(* how many *)
Fixpoint told (es : list event) : nat :=
  match es with
  | [] => 0
  | ESent m :: es' => if m_type m =? 2 then S (told es') else told es'
  | _ :: es' => told es'
  end.
Fixpoint heard (es : list event) : nat :=
  match es with
  | [] => 0
  | (EReadOk _ | EReadErr) :: es' => S (heard es')
  | _ :: es' => heard es'
  end.
(* no read failed and no unchoke was among what was read *)
Definition choking (e : event) : Prop :=
  match e with EReadErr => False | EReadOk b => ~ has_type 1 b | _ => True end.
