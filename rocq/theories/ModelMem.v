(* How much memory the bytes of a peer make the client ask for.                 *)
From Verif Require Import Base ModelConn.

(* connection.go:110-111 readExactly: make([]byte, len) comes before the read.  The
   sizes of the buffers made in one call of ReadPeerMessage (42-63).            *)
Definition allocs (s : list ev) : list Z :=
  4 :: match readExactly 4 s with (ROk hdr, _) => [be_get hdr] | _ => [] end.
