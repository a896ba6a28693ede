(* Vocabulary for statements about the messages of a peer connection.          *)
From Verif Require Import Base ModelBitset ModelMsg ModelTorrent ModelPeer ModelSystem.

(* requests on the wire, messages created, pieces reserved *)
Definition is_request (m : msg) : Prop := m_type m = RequestT.
Fixpoint created (es : list event) : list msg :=
  match es with
  | [] => []
  | ECreate m :: es' => m :: created es'
  | _ :: es' => created es'
  end.
Fixpoint claimed (es : list event) : list Z :=
  match es with
  | [] => []
  | EClaim i _ :: es' => i :: claimed es'
  | _ :: es' => claimed es'
  end.
Fixpoint requested (es : list event) : list msg :=
  match es with
  | [] => []
  | ESent m :: es' => if m_type m =? RequestT then m :: requested es' else requested es'
  | _ :: es' => requested es'
  end.
Fixpoint given (es : list event) : list msg :=
  match es with
  | [] => []
  | EPut m :: es' => m :: given es'
  | _ :: es' => given es'
  end.

(* The requests for the first n blocks of 128 KiB of piece i. *)
Definition blocks (i : Z) (n : Z) : list msg :=
  map (fun k => CreatePieceMessage i (Z.of_nat k * 131072) 131072) (seq 0 (Z.to_nat n)).

(* Together the requests name exactly the bytes 0 .. plen-1 of the piece. *)
Definition covers (plen : Z) (ms : list msg) : Prop :=
  forall x, 0 <= x < plen <-> exists m, In m ms /\ m_offset m <= x < m_offset m + m_blen m.

(* now is what the last message of type on or off says, init without any *)
Definition has_type (t : Z) (b : bytes) : Prop := exists r, b = t :: r.
Definition last_switch (on off : Z) (es : list event) (init now : bool) : Prop :=
  (now = init /\ forall b, In (EReadOk b) es -> ~ has_type on b /\ ~ has_type off b) \/
  (exists e1 b e2, es = e1 ++ EReadOk b :: e2 /\
     (has_type on b /\ now = true \/ has_type off b /\ now = false) /\
     forall b', In (EReadOk b') e2 -> ~ has_type on b' /\ ~ has_type off b').

(* the event tells that the peer has piece i *)
Definition advertises (e : event) (i : Z) : Prop :=
  match e with
  | EReadOk (t :: p) => t = 4 /\ 4 <= zlen p /\ be_get (sub p 0 4) = i \/ t = 5 /\ bs_test (createBitset p) i = true
  | EPut m => m_index m = i
  | _ => False
  end.
(* ... and no bitfield followed *)
Definition known (es : list event) (i : Z) : Prop :=
  exists e1 e e2, es = e1 ++ e :: e2 /\ advertises e i /\ forall b, In (EReadOk b) e2 -> ~ has_type 5 b.

(* m carries data with the SHA-1 the metainfo gives for its piece *)
Definition verified (sha1 : bytes -> bytes) (t : torrent) (m : msg) : Prop :=
  exists p d, nthZ (t_pieces t) (m_index m) = Some p /\ data_of m = Ok d /\ p_sha1 p = sha1 d.
(* everything read from the network is bytes *)
Definition reads_bytes (a : action) : Prop :=
  match a with APeer _ i => forall b, i_read i = Some b -> Forall is_byte b | _ => True end.
(* the messages handed to the writer, in order *)
Fixpoint handed (tr : list (nat * event)) : list msg :=
  match tr with
  | [] => []
  | (_, EPut m) :: tr' => m :: handed tr'
  | _ :: tr' => handed tr'
  end.
