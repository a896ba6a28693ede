(* What C117 says: the causes of a crash of the whole client; and for C114 the
   addresses in a reply.                                                       *)
From Verif Require Import Base ModelBencode ModelBitset ModelMsg ModelTorrent ModelConn ModelStats ModelPeer ModelSystem ModelTracker ModelManager ModelClient
  SpecMsg SpecBencode SpecUnmarshal SpecTracker.

(* Bytes on which the parser of a tracker's reply panics: the bencode parser does,
   or there is a value, but no dictionary.                                     *)
Definition bad_reply (b : bytes) : Prop :=
  Parse b = Panic \/ exists e, Parse b = Ok e /\ forall m raw, e <> BDict true m raw.
(* A message body too short for its type, or a piece the torrent does not have. *)
Definition bad_body (pieces : Z) (b : bytes) : Prop :=
  exists ty r, b = ty :: r /\ (zlen b < min_body ty \/ ty = 7 /\ ~ 0 <= be_get (firstn 4 r) < pieces).

(* The state and the action that end in a panic. *)
Inductive culprit (cf : conf) (c : client) : cact -> Prop :=
| cu_reply j n tr d u l addr id ev i b canceled :          (* a tracker's reply *)
    nth_error (g_trk (c_mgr c)) j = Some (TTry n) -> nth_error (c_trk c) j = Some tr -> ct_loads tr = [d; u; l] ->
    ct_trk tr = TrHttp addr id ev i -> bad_reply b ->
    culprit cf c (KAnn j (RHttp (HttpBody 200 (Some b)) canceled))
| cu_nil j tr x a ips :                               (* AddPeer after Stop *)
    nth_error (g_trk (c_mgr c)) j = Some (TInit (a :: ips)) -> nth_error (c_trk c) j = Some tr -> g_pool (c_mgr c) = None ->
    culprit cf c (KTrk j x)
| cu_stop m a k :                                     (* Stop: a peer without a connection *)
    g_started (c_mgr c) = true -> wo_main (c_wo c) = MRet -> g_stop (c_mgr c) = true -> g_pool (c_mgr c) = Some m -> In (a, k) m ->
    conn_of (c_mgr c) k = None ->
    culprit cf c KMain
| cu_message k i p r b :                              (* a peer's message *)
    nth_error (c_run c) k = Some p -> conn_closed (c_mgr c) p = false -> nth_error (wo_peers (c_wo c)) k = Some r ->
    r_pc r = PURead \/ r_pc r = PRead -> i_read i = Some b -> bad_body (zlen (t_pieces (sh_t (wo_sh (c_wo c))))) b ->
    culprit cf c (KPeer k i)
| cu_closed k i p r u m :                             (* the channel is closed *)
    nth_error (c_run c) k = Some p -> nth_error (wo_peers (c_wo c)) k = Some r -> r_pc r = PPut u m -> sh_closed (wo_sh (c_wo c)) = true ->
    culprit cf c (KPeer k i)
| cu_write m d w :                                    (* the writer: no file, or a negative length *)
    g_started (c_mgr c) = true -> c_wr c = WSubbed -> wo_hand (c_wo c) = Some m -> data_of m = Ok d -> w = sh_w (wo_sh (c_wo c)) ->
    snd (writePieceData (w_fs w) (w_outs w) (w_t w) d (wrap64 (wrap64 (m_index m * t_plen (w_t w)) + m_offset m))) = WPanic ->
    culprit cf c KWriter
| cu_print :                                          (* the progress *)
    g_started (c_mgr c) = true -> c_prt c = PrRun -> cf_bar cf (c_cnt c) = true -> culprit cf c (KPrint true).

(* replies of a size Go can hold *)
Definition held_reply (a : cact) : Prop := match a with KAnn _ (RHttp (HttpBody _ (Some b)) _) => fits b | _ => True end.

(* A download without those causes: no signal, well-formed replies and messages *)
Definition calm (pieces : Z) (a : cact) : Prop :=
  match a with
  | KSignal => False
  | KAnn _ (RHttp (HttpBody _ (Some b)) _) => fits b /\ ~ bad_reply b
  | KPeer _ i => forall b, i_read i = Some b -> Forall is_byte b /\ ~ bad_body pieces b
  | _ => True
  end.
(* of a torrent with files, lengths and positions Go's int can hold *)
Definition ordinary (t : torrent) : Prop :=
  (t_isdir t = false -> t_osfiles t <> []) /\ Forall (fun x => 0 <= tf_length x < 2 ^ 63) (t_files t) /\
  0 <= t_plen t /\ zlen (t_pieces t) * t_plen t + 2 ^ 32 <= 2 ^ 63 /\ 0 <= t_length t < 2 ^ 63.
(* printing panics when PrintBar does *)
Definition real_bar (cf : conf) : Prop := forall s, cf_bar cf s = true <-> PrintBar s = Panic.

(* ---------- addresses in the bytes of a reply (C114) ---------- *)
(* the peers list of the reply has an entry for a *)
Definition contains (parse_ip : bytes -> option addr) (b : bytes) (a : addrport) : Prop :=
  exists m raw v vs x, Parse b = Ok (BDict true m raw) /\ lookup (str "peers") m = Some v /\ is_list v vs /\ In x vs /\ entry_of parse_ip x a.
(* tracker j sent such a reply with status 200 before the events t1 were over *)
Definition replied (cf : conf) (c0 : client) (l : list cact) (t1 : list cev) (j : nat) (a : addrport) : Prop :=
  exists l1 b cn l2, l = l1 ++ KAnn j (RHttp (HttpBody 200 (Some b)) cn) :: l2 /\ (exists e t, t1 = snd (crun cf l1 c0) ++ e :: t) /\ contains (cf_ip cf) b a.
