(* What C111-C116 say about the whole client.                                 *)
From Verif Require Import Base ModelMsg ModelTorrent ModelConn ModelTracker ModelPeer ModelSystem ModelManager ModelClient SpecPeer SpecTracker.

(* the events of the manager and those of the peers in Run *)
Definition gevs (tr : list cev) : list gev := flat_map (fun e => match e with VMgr e => [e] | _ => [] end) tr.
Definition sevs (tr : list cev) : list (nat * event) := flat_map (fun e => match e with VSys k e => [(k, e)] | _ => [] end) tr.

(* ---------- announces ---------- *)
Definition announce_by (j : nat) (e : cev) : Prop := match e with VHttp i _ _ _ | VUdp i _ _ => i = j | _ => False end.
(* an announce with these values; the UDP one leaves the hash out (C48), and may be
   cut short (nothing or only the connect request is sent) *)
Definition reports (hash id : bytes) (down up left port : Z) (e : cev) : Prop :=
  match e with
  | VHttp _ _ q _ =>
      lookup (str "info_hash") q = Some hash /\ lookup (str "peer_id") q = Some id /\
      (exists s, lookup (str "downloaded") q = Some s /\ decimal s down) /\
      (exists s, lookup (str "uploaded") q = Some s /\ decimal s up) /\
      (exists s, lookup (str "left") q = Some s /\ decimal s left) /\
      (exists s, lookup (str "port") q = Some s /\ decimal s port)
  | VUdp _ ds _ =>
      ds = [] \/ (exists c, ds = [c]) \/
      exists c h x, ds = [c; h ++ id ++ be_put 8 down ++ be_put 8 left ++ be_put 8 up ++ x ++ be_put 4 port] /\ length h = 16%nat /\ length x = 16%nat
  | _ => False
  end.
(* the HTTP announce has this number under this key *)
Definition tells (key : bytes) (n : Z) (e : cev) : Prop := match e with VHttp _ _ q _ => exists s, lookup key q = Some s /\ decimal s n | _ => False end.

(* length of the data of the piece messages given to the writer *)
Definition block_len (m : msg) : Z := match data_of m with Ok d => zlen d | _ => 0 end.
Definition total_len (ms : list msg) : Z := fold_right Z.add 0 (map block_len ms).

(* ---------- peers ---------- *)
(* a reply of tracker j has address a in it *)
Definition names (j : nat) (a : addrport) (e : cev) : Prop :=
  match e with VHttp i _ _ (Some ips) | VUdp i _ (Some ips) => i = j /\ In a ips | _ => False end.
Definition named (j : nat) (a : addrport) (tr : list cev) : Prop := exists e, In e tr /\ names j a e.
(* peers in Run, in the order they were started, with what their connection
   delivered first *)
Definition shakes (tr : list cev) : list (nat * list ev) := flat_map (fun e => match e with VShake k evs => [(k, evs)] | _ => [] end) tr.
(* which begins with a handshake for the torrent with this hash *)
Definition greets (hash : bytes) (evs : list ev) : Prop :=
  exists cs tl res pid rest, evs = map Chunk cs ++ tl /\ concat cs = 19 :: str "BitTorrent protocol" ++ res ++ hash ++ pid ++ rest /\
    length res = 8%nat /\ length hash = 20%nat /\ length pid = 20%nat.

(* peers send a piece message only after they were sent a request *)
Definition answers_only (tr : list cev) : Prop :=
  forall t1 k b t2, tr = t1 ++ VSys k (EReadOk b) :: t2 -> has_type 7 b -> exists m, In (VSys k (ESent m)) t1 /\ is_request m.

(* ---------- turns ---------- *)
(* the goroutine of main, the writer, the peers in Run; not the trackers *)
Inductive cproc := CMain | CWriter | CPeer (k : nat).
Definition cturn (q : cproc) (a : cact) : Prop := match q with CMain => a = KMain | CWriter => a = KWriter | CPeer k => exists i, a = KPeer k i end.
Definition cfair (f : nat -> cact) : Prop := forall q n, exists m, (n <= m)%nat /\ cturn q (f m).
Definition cafter (cf : conf) (f : nat -> cact) (n : nat) (c : client) : client := fst (crun cf (map f (seq 0 n)) c).
