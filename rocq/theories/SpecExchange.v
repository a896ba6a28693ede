(* Vocabulary for statements about the requests of all peers of a round.       *)
From Verif Require Import Base ModelBitset ModelMsg ModelTorrent ModelConn ModelPeer ModelSystem SpecPeer.

(* what F says about the peers of round g, n being the number of the first one *)
Fixpoint gather (F : nat -> rstate -> list msg) (g n : nat) (ps : list rstate) : list msg :=
  match ps with
  | [] => []
  | r :: ps' => (if Nat.eqb (r_grp r) g then F n r else []) ++ gather F g (S n) ps'
  end.
(* the request a peer works on: chosen, or sent and not failed since *)
Definition in_flight (r : rstate) : list msg :=
  match r_pc r, r_sent r with
  | PSend, _ | _, true => match r_req r with Some m => [m] | None => [] end
  | _, false => []
  end.
Definition all_created (g : nat) (w : world) (tr : list (nat * event)) : list msg :=
  gather (fun k _ => created (events_of k tr)) g 0 (wo_peers w).
Definition all_in_flight (g : nat) (w : world) : list msg := gather (fun _ r => in_flight r) g 0 (wo_peers w).
Definition ended (r : rstate) : Prop := r_pc r = PRet.
(* p is an answer to the request m *)
Definition answers (p m : msg) : Prop := m_type p = PieceT /\ m_index p = m_index m /\ m_offset p = m_offset m.
(* the writer can store this message without a panic *)
Definition storable (t : torrent) (m : msg) (d : bytes) : Prop := forall f outs,
  snd (writePieceData f outs t d (wrap64 (wrap64 (m_index m * t_plen t) + m_offset m))) <> WPanic.
(* what peers, as the code starts them, and the writer do *)
Definition peers_and_writer (a : action) : Prop := match a with ASpawn b _ => b = false | APeer _ _ | AWriter => True | _ => False end.
