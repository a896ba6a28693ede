(* pkg/gotitnet/connection.go: reading from the network.                       *)
From Verif Require Import Base ModelMsg.

(* What one read deadline after another sees on a socket.  A TCP socket delivers
   the bytes in pieces of arbitrary size (Chunk); the deadline may pass between
   two of them (Timeout, after which SetReadDeadline re-arms it); the peer may
   close (Eof).  When the list is used up nothing more arrives and every further
   read times out.                                                             *)
Inductive ev := Chunk (b : bytes) | Timeout | Eof.

Inductive rerr := ETimeout | EEOF | EUnexpectedEOF.
Inductive rres := ROk (b : bytes) | RErr (e : rerr).

(* io.ReadFull(c.c, buf) with len(buf) = n, acc bytes already read: loops over
   Read until n bytes are in or Read fails; EOF after some bytes is
   ErrUnexpectedEOF; n = 0 needs no Read.  Bytes read before a failure are gone. *)
Fixpoint read_full (acc : bytes) (n : Z) (s : list ev) : rres * list ev :=
  if n <=? 0 then (ROk acc, s)
  else match s with
       | [] => (RErr ETimeout, [])
       | Timeout :: s' => (RErr ETimeout, s')
       | Eof :: s' => (RErr (match acc with [] => EEOF | _ => EUnexpectedEOF end), Eof :: s')
       | Chunk b :: s' =>
           if zlen b <=? n then read_full (acc ++ b) (n - zlen b) s'
           else (ROk (acc ++ sub b 0 n), Chunk (sub b n (zlen b)) :: s')
       end.

(* connection.go:110-116 readExactly *)
Definition readExactly (n : Z) (s : list ev) : rres * list ev := read_full [] n s.

(* connection.go:56-63 readPeerMessageSize *)
(* connection.go:42-52 ReadPeerMessage; SetReadDeadline only fails on a closed
   connection and is not modelled as failing.                                  *)
Definition ReadPeerMessage (s : list ev) : rres * list ev :=
  match readExactly 4 s with
  | (ROk hdr, s1) => readExactly (be_get hdr) s1
  | (RErr e, s1) => (RErr e, s1)
  end.

(* connection.go:67-72 ReadPeerHandshake *)
Definition ReadPeerHandshake (s : list ev) : rres * list ev := readExactly 68 s.

(* k consecutive calls of ReadPeerMessage *)
Fixpoint read_messages (k : nat) (s : list ev) : list rres * list ev :=
  match k with
  | O => ([], s)
  | S k' => let '(r, s1) := ReadPeerMessage s in
            let '(rs, s2) := read_messages k' s1 in (r :: rs, s2)
  end.

(* connection.go:89-94 ReadAll = io.ReadAll: reads until EOF; any other error,
   the deadline included, is returned and the data dropped.                    *)
Fixpoint read_all (acc : bytes) (s : list ev) : rres * list ev :=
  match s with
  | [] => (RErr ETimeout, [])
  | Timeout :: s' => (RErr ETimeout, s')
  | Eof :: s' => (ROk acc, Eof :: s')
  | Chunk b :: s' => read_all (acc ++ b) s'
  end.
Definition ReadAll (s : list ev) : rres * list ev := read_all [] s.

(* A UDP socket: one Read consumes one datagram, bytes that do not fit the buffer
   are dropped, and there is no EOF (net poll.FD has ZeroReadIsEOF off for
   datagram sockets).                                                          *)
Inductive uev := Datagram (b : bytes) | UTimeout.

Fixpoint udp_read_full (acc : bytes) (n : Z) (s : list uev) : rres * list uev :=
  if n <=? 0 then (ROk acc, s)
  else match s with
       | [] => (RErr ETimeout, [])
       | UTimeout :: s' => (RErr ETimeout, s')
       | Datagram b :: s' =>
           if zlen b <=? n then udp_read_full (acc ++ b) (n - zlen b) s'
           else (ROk (acc ++ sub b 0 n), s')
       end.
(* connection.go:98-103 ReadUdpHandshake *)
Definition ReadUdpHandshake (s : list uev) : rres * list uev := udp_read_full [] 16 s.

Fixpoint udp_read_all (acc : bytes) (s : list uev) : rres * list uev :=
  match s with
  | [] => (RErr ETimeout, [])
  | UTimeout :: s' => (RErr ETimeout, s')
  | Datagram b :: s' => udp_read_all (acc ++ b) s'
  end.
Definition UdpReadAll (s : list uev) : rres * list uev := udp_read_all [] s.
