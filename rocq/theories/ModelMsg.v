(* Model of pkg/util/peer_message.go.                                          *)
From Verif Require Import Base ModelBitset.

(* peer_message.go:13-27 *)
Definition ChokeT := 0.
Definition UnchokeT := 1.
Definition InterestedT := 2.
Definition NotInterestedT := 3.
Definition HaveT := 4.
Definition BitfieldT := 5.
Definition RequestT := 6.
Definition PieceT := 7.
Definition CancelT := 8.
Definition KeepaliveT := 99.

(* peer_message.go:29-37 *)
Record msg := mkMsg {
  m_len : Z;
  m_type : Z;
  m_payload : bytes;
  m_index : Z;
  m_offset : Z;
  m_blen : Z
}.

(* peer_message.go:46-49 *)
Definition KeepalivePeerMessage : msg := mkMsg 0 KeepaliveT [] 0 0 0.

(* binary.BigEndian.Uint32(b[lo:lo+4]) where cap(b) = len(b) *)
Definition uint32_at (b : bytes) (lo : Z) : res Z := do s <- slice b lo (lo + 4) ; Ok (be_get s).

(* peer_message.go:53-81.  The argument's capacity equals its length, as for the
   buffers made by gotitnet readExactly.                                       *)
Definition NewPeerMessage (data : bytes) : res msg :=
  match data with
  | [] => Ok KeepalivePeerMessage
  | t :: payload =>
      let l := u32 (zlen data) in
      if t =? HaveT then
        do i <- uint32_at payload 0 ; Ok (mkMsg l t payload i 0 0)
      else if (t =? RequestT) || (t =? CancelT) then
        do i <- uint32_at payload 0 ;
        do o <- uint32_at payload 4 ;
        do b <- uint32_at payload 8 ; Ok (mkMsg l t payload i o b)
      else if t =? PieceT then
        do i <- uint32_at payload 0 ;
        do o <- uint32_at payload 4 ; Ok (mkMsg l t payload i o 0)
      else Ok (mkMsg l t payload 0 0 0)
  end.

(* peer_message.go:83-95: the bytes given to w.Write *)
Definition Send (m : msg) : bytes :=
  if m_type m =? KeepaliveT then be_put 4 (m_len m)
  else be_put 4 (m_len m) ++ [m_type m] ++ m_payload m.

(* peer_message.go:97-107 are the fields m_index, m_offset, m_blen.            *)

(* peer_message.go:109-115; None is nil *)
Definition Data (m : msg) : res (option bytes) :=
  if negb (m_type m =? PieceT) then Ok None
  else do d <- slice (m_payload m) 8 (zlen (m_payload m)) ; Ok (Some d).

(* peer_message.go:125-134 *)
Definition pad8 (p : bytes) : bytes :=
  let rem := zlen p mod 8 in
  if negb (rem =? 0) then p ++ repeat 0 (Z.to_nat (8 - rem)) else p.
Fixpoint words_of (n : nat) (p : bytes) : list Z :=
  match n with
  | O => []
  | S n' => be_get (firstn 8 p) :: words_of n' (skipn 8 p)
  end.
Definition createBitset (p : bytes) : bitset :=
  let p' := pad8 p in bs_from (words_of (Z.to_nat (zlen p' / 8)) p').

(* peer_message.go:117-123 *)
Definition Bitfield (m : msg) : option bitset :=
  if negb (m_type m =? BitfieldT) then None else Some (createBitset (m_payload m)).

(* peer_message.go:136-157 *)
Definition createSignalMessage (code : Z) : msg := mkMsg 1 code [] 0 0 0.
Definition createNotInterestedMessage := createSignalMessage NotInterestedT.
Definition CreateInterestedMessage := createSignalMessage InterestedT.
Definition CreateChokeMessage := createSignalMessage ChokeT.
Definition CreateUnchokeMessage := createSignalMessage UnchokeT.

(* peer_message.go:174-185; the index field is not set *)
Definition createHaveMessage (index : Z) : msg := mkMsg 5 HaveT (be_put 4 index) 0 0 0.

(* binary.BigEndian.PutUint32(b, v): overwrites the first four bytes *)
Definition PutUint32 (b : bytes) (v : Z) : bytes := be_put 4 v ++ skipn 4 b.

(* peer_message.go:187-220; the arguments are uint32 *)
Definition request_payload (index offset blockLength : Z) : bytes :=
  PutUint32 (PutUint32 (PutUint32 (repeat 0 12) index) offset) blockLength.
Definition createCancelMessage (index offset blockLength : Z) : msg :=
  mkMsg 13 CancelT (request_payload index offset blockLength) index offset blockLength.
Definition CreatePieceMessage (index offset blockLength : Z) : msg :=
  mkMsg 13 RequestT (request_payload index offset blockLength) index offset blockLength.

(* peer_message.go:159-172: the header is written into the payload as well, and
   the length counts bits                                                      *)
Definition createBitfieldMessage (b : bitset) : msg :=
  mkMsg (u32 (bs_len b + 1)) BitfieldT
        (be_put 4 (u32 (bs_len b + 1)) ++ [BitfieldT] ++ flat_map (be_put 8) (bs_words b)) 0 0 0.
