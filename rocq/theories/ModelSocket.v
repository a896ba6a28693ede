(* The client of ModelClient with what arrives on its connections to peers: pkg/gotitnet/connection.go
   under peer.go:122-154, 183 and 266.  There a step is told which handshake or message is read;
   here it is what ReadPeerHandshake and ReadPeerMessage make of the bytes of the
   connection, the same for the handshake and for all messages after it.       *)
From Verif Require Import Base ModelConn ModelPeer ModelSystem ModelTracker ModelManager ModelClient.

(* n_socks: for connection q (numbered as in g_conns) what it will still deliver;
   on those not in the list nothing ever arrives.                              *)
Record net := mkNet { n_client : client; n_socks : list (list ev) }.
Definition sock (ss : list (list ev)) (q : nat) : list ev := nth q ss [].

(* peer.go:183 or 266 is next *)
Definition at_read (r : rstate) : bool := match r_pc r with PURead | PRead => true | _ => false end.
Definition body_of (r : rres) : option bytes := match r with ROk b => Some b | RErr _ => None end.

Definition nexec (cf : conf) (a : cact) (n : net) : net * list cev :=
  let c := n_client n in
  let ss := n_socks n in
  let go a' ss' := let '(c', es) := cexec cf a' c in (mkNet c' ss', es) in
  if dead c || c_exit c then (n, [])
  else
    match a with
    | KTrk j x =>
        match nth_error (g_trk (c_mgr c)) j with
        | Some (TPShake k _ _) =>
            match conn_of (c_mgr c) k with
            | Some q =>                                   (* peer.go:139-151: write, then read *)
                go (KTrk j (mkCin (x_id x) (x_ok x) (x_timer x) (sock ss q)))
                   (if x_ok x && negb (conn_closed (c_mgr c) k) then upd ss q (snd (ReadPeerHandshake (sock ss q))) else ss)
            | None => go a ss                             (* unreachable: C164 *)
            end
        | _ => go a ss
        end
    | KPeer k i =>
        match nth_error (c_run c) k, nth_error (wo_peers (c_wo c)) k with
        | Some p, Some r =>
            match conn_of (c_mgr c) p with
            | Some q =>
                if at_read r && negb (conn_closed (c_mgr c) p) then
                  let '(m, s') := ReadPeerMessage (sock ss q) in
                  go (KPeer k (mkI (i_due i) (i_ok i) (body_of m) (ModelPeer.i_timer i))) (upd ss q s')
                else go a ss
            | None => go a ss                             (* unreachable: C164 *)
            end
        | _, _ => go a ss
        end
    | _ => go a ss
    end.
Fixpoint nrun (cf : conf) (l : list cact) (n : net) : net * list cev :=
  match l with
  | [] => (n, [])
  | a :: l' => let '(n1, e1) := nexec cf a n in let '(n2, e2) := nrun cf l' n1 in (n2, e1 ++ e2)
  end.
