(* The assertions of the repository's own tests (pkg/*/*_test.go), checked against the
   model.  They tie the model to what the code is known to do.  Left out: assertions
   about error texts, benchmarks, and failures of SetDeadline, which are not modelled. *)
From Verif Require Import Base ModelBencode ModelUnmarshal ModelBitset ModelMsg ModelConn ModelPath ModelTorrent ModelPeer ModelSystem ModelTracker ModelCmd ModelPrint ModelSize Sha1 TestData.

Definition failed {A} (r : res A) : bool := match r with Err _ => true | _ => false end.

(* ---------- pkg/bencode/parse_test.go: TestParse ---------- *)
Example TestParse :
  failed (Parse []) = true /\
  Parse (str "i45902e") = Ok (BInt 45902) /\
  Parse (str "5:hello") = Ok (BStr (str "hello")) /\
  Parse (str "li45902e5:helloe") = Ok (BList true [BInt 45902; BStr (str "hello")] (str "li45902e5:helloe")) /\
  Parse (str "d5:helloi45902e5:world2:mee") = Ok (BDict true [(str "hello", BInt 45902); (str "world", BStr (str "me"))] (str "d5:helloi45902e5:world2:mee")) /\
  failed (Parse (str "6:hello")) = true /\ failed (Parse (str "i45")) = true /\ failed (Parse (str "li42ei22e")) = true /\
  failed (Parse (str "d5:firsti45")) = true /\ failed (Parse (str "d2:firsti45e")) = true.
Proof. vm_compute. repeat split; reflexivity. Qed.

(* ---------- pkg/bencode/elements_test.go ---------- *)
Example TestBencode_String :
  String_ (BStr []) = [] /\ String_ (BStr (str "My string")) = str "My string" /\ String_ (BInt 5) = str "5" /\
  String_ (BList false [BInt 5; BNil] []) = str "[" ++ [10; 9] ++ str "5," ++ [10] ++ str "]" /\
  String_ (BDict false [(str "key", BStr (str "Value")); (str "data", BNil)] []) = str "{" ++ [10; 9] ++ str "key: Value," ++ [10] ++ str "}".
Proof. vm_compute. repeat split; reflexivity. Qed.
Example TestBencode_Encode :
  Encode (BStr []) = Ok (str "0:") /\ Encode (BStr (str "My string")) = Ok (str "9:My string") /\ Encode (BInt 123) = Ok (str "i123e") /\
  Encode (BList false [BStr (str "string"); BInt 1; BNil] []) = Ok (str "l6:stringi1ee") /\
  Encode (BDict false [(str "key", BStr (str "value")); (str "list", BList false [BInt 12] []); (str "nil", BNil)] []) = Ok (str "d3:key5:value4:listli12eee").
Proof. vm_compute. repeat split; reflexivity. Qed.
Definition lines (l : list (nat * string)) : bytes :=
  match l with
  | [] => []
  | (_, s) :: r => str s ++ flat_map (fun x => 10 :: repeat 9 (fst x) ++ str (snd x)) r
  end.
Example TestPrettyPrint :
  String_ (BList false [BDict false [(str "1", BStr (str "Value")); (str "2", BInt 1); (str "3", BList false [BStr (str "string")] []); (str "4", BDict false [] [])] []; BStr (str "string")] []) =
  lines [(0, "["); (1, "{"); (2, "1: Value,"); (2, "2: 1,"); (2, "3: ["); (3, "string,"); (2, "],"); (2, "4: {},"); (1, "},"); (1, "string,"); (0, "]")]%nat%string.
Proof. vm_compute. reflexivity. Qed.

(* ---------- pkg/bencode/tag_parser_test.go ---------- *)
(* the test expects local time one hour after UTC *)
Definition cet (n : Z) : bytes := if n =? 1490916654 then str "2017-03-31 00:30:54" else [].
Example TestUnmarshal :
  let g := fst (UnmarshalMetainfo tears) in let m := metainfo_of g in
  (snd (UnmarshalMetainfo tears), (mi_announce m, mi_comment g, mi_created_by g, mi_creation_date g, zlen (mi_announce_list m), zlen (mi_url_list m)),
   (mi_name m, mi_length m, mi_piece_length m, beq (mi_pieces m) tears_pieces, forallb (fun f => negb (tf_length f =? 0) && negb (zlen (tf_path f) =? 0)) (mi_files m)),
   MetainfoString ByteSize cet sha1 g) =
  (Ok tt, (str "udp://tracker.leechers-paradise.org:6969", str "WebTorrent <https://webtorrent.io>", str "WebTorrent <https://webtorrent.io>", 1490916654, 8, 1),
   (str "Tears of Steel", 0, 524288, true, true),
    lines [(0, "{"); (1, "info: {"); (2, "name: Tears of Steel"); (2, "length: 0B"); (2, "piece-length: 524288"); (2, "files: [");
           (3, "[path: Tears of Steel.de.srt, size: 4.7K],"); (3, "[path: Tears of Steel.en.srt, size: 4.6K],"); (3, "[path: Tears of Steel.es.srt, size: 4.8K],");
           (3, "[path: Tears of Steel.fr.srt, size: 4.5K],"); (3, "[path: Tears of Steel.it.srt, size: 4.6K],"); (3, "[path: Tears of Steel.nl.srt, size: 4.4K],");
           (3, "[path: Tears of Steel.no.srt, size: 9.3K],"); (3, "[path: Tears of Steel.ru.srt, size: 5.8K],"); (3, "[path: Tears of Steel.webm, size: 544.9M],");
           (3, "[path: poster.jpg, size: 35.2K],"); (2, "]"); (1, "}"); (1, "comment: WebTorrent <https://webtorrent.io>"); (1, "created-by: WebTorrent <https://webtorrent.io>");
           (1, "creation-date: 2017-03-31 00:30:54"); (1, "announce: udp://tracker.leechers-paradise.org:6969"); (1, "announce-list: [");
           (2, "[udp://tracker.leechers-paradise.org:6969]"); (2, "[udp://tracker.coppersurfer.tk:6969]"); (2, "[udp://tracker.opentrackr.org:1337]"); (2, "[udp://explodie.org:6969]");
           (2, "[udp://tracker.empire-js.us:1337]"); (2, "[wss://tracker.btorrent.xyz]"); (2, "[wss://tracker.openwebtorrent.com]"); (2, "[wss://tracker.fastcast.nz]"); (1, "]");
           (1, "url-list: ["); (2, "https://webtorrent.io/torrents/,"); (1, "]"); (1, "(calculated) info-hash: IJyCJrKZswi-ryuc0_tJIS29E-w="); (0, "}"); (0, "")]%nat%string).
Proof. vm_compute. reflexivity. Qed.
Example TestUnmarshal_TargetNotPointer : failed (snd (Unmarshal tears TgtOther)) = true.
Proof. vm_compute. reflexivity. Qed.
Definition dict (l : list (string * ben)) : ben := Generate (fold_left (fun d kv => Add d (str (fst kv)) (snd kv)) l NewDictBuilder).
Definition strings (l : list string) : ben := List_ (map (fun s => BStr (str s)) l).
Example TestUnmarshal_TypeError :
  failed (snd (Unmarshal (ModelBencode.encode (dict [("int"%string, strings ["string_value"%string])])) (TgtStruct [fld (str "int") (TInt 64)] [VInt 0]))) = true.
Proof. vm_compute. reflexivity. Qed.
Definition supported : list (bytes * bool * gty) :=
  [fld (str "uint8") (TUint 8); fld (str "uint16") (TUint 16); fld (str "uint32") (TUint 32); fld (str "uint64") (TUint 64); fld (str "int") (TInt 64); fld (str "int8") (TInt 8);
   fld (str "int16") (TInt 16); fld (str "int32") (TInt 32); fld (str "int64") (TInt 64); fld (str "map_lists") (TMap true (TSlice TString)); fld (str "string_list") (TSlice TString);
   fld (str "struct") (TStruct [fld (str "inside_int") (TInt 64)]); fld (str "struct_pointer") (TPtr (TStruct [fld (str "inside_int") (TInt 64)])); fld (str "int_pointer") (TPtr (TInt 64))].
Example TestUnmarshal_SupportedTypes :
  Unmarshal (ModelBencode.encode (dict [("uint8", BInt 8); ("uint16", BInt 16); ("uint32", BInt 32); ("uint64", BInt 64); ("int", BInt 1); ("int8", BInt 8); ("int16", BInt 16); ("int32", BInt 32);
    ("int64", BInt 64); ("map_lists", dict [("list", strings ["string list value"])]); ("string_list", strings ["first"; "second"; "third"]); ("struct", dict [("inside_int", BInt 11)]);
    ("struct_pointer", dict [("inside_int", BInt 12)]); ("int_pointer", BInt 33)]%string)) (TgtStruct supported (map (fun f => zero (snd f)) supported)) =
  (VStruct [VInt 8; VInt 16; VInt 32; VInt 64; VInt 1; VInt 8; VInt 16; VInt 32; VInt 64; VMap [(str "list", VSlice [VString (str "string list value")])];
    VSlice [VString (str "first"); VString (str "second"); VString (str "third")]; VStruct [VInt 11]; VPtr (Some (VStruct [VInt 12])); VPtr (Some (VInt 33))], Ok tt).
Proof. vm_compute. reflexivity. Qed.

(* ---------- pkg/tracker/tracker_test.go: TestNewTracker ---------- *)
Example TestNewTracker :
  is_ok (NewTracker (Some (str "http")) true) = true /\ is_ok (NewTracker (Some (str "https")) true) = true /\ is_ok (NewTracker (Some (str "udp")) true) = true /\
  failed (NewTracker (Some (str "tcp")) true) = true.
Proof. vm_compute. repeat split; reflexivity. Qed.

(* ---------- pkg/torrent/torrent_test.go ---------- *)
Definition paths (r : res (list bytes)) : list bytes := match r with Ok l => l | _ => [] end.
Example TestTorrent_createTorrentFiles :
  paths (download_paths (str "dir") true (str "torrent") [mkTfile 1 [str "1.txt"]; mkTfile 2 [str "2.txt"]]) = [str "dir/torrent/1.txt"; str "dir/torrent/2.txt"] /\
  paths (download_paths (str "dir") false (str "test.txt") []) = [str "dir/test.txt"].
Proof. vm_compute. split; reflexivity. Qed.
Definition makeTorrent (n : Z) : torrent := mkTorrent [] [] 0 BlockLength [] n [] [] [] false 0 (bs_new n) (bs_new n).
Definition bits (n : Z) (l : list Z) : bitset := fold_left bs_set l (bs_new n).
Definition requested (n : Z) (l : list Z) : torrent := set_requested (makeTorrent n) (bits n l).
Example TestEmptyBitset_SizeEqualsPiecesNum : bs_len (EmptyBitset (mkTorrent [] [] 0 262144 [] 42 [] [] [] false 0 [] [])) = 42.
Proof. vm_compute. reflexivity. Qed.
Example TestDone :
  Done (makeTorrent 10) = false /\ Done (set_downloaded (makeTorrent 4) (bits 4 [0; 1])) = false /\ Done (set_downloaded (makeTorrent 5) (bits 5 [0; 1; 2; 3; 4])) = true /\
  Done (makeTorrent 0) = true.
Proof. vm_compute. repeat split; reflexivity. Qed.
Example TestSetDownloaded :
  t_downloaded (SetDownloaded (makeTorrent 8) 3) = bits 8 [3] /\ map (bs_test (bits 8 [3])) [0; 1; 2; 3; 4; 5; 6; 7] = [false; false; false; true; false; false; false; false] /\
  Done (SetDownloaded (SetDownloaded (SetDownloaded (makeTorrent 3) 0) 1) 2) = true.
Proof. vm_compute. repeat split; reflexivity. Qed.
Example TestNext :
  snd (Next (makeTorrent 4) (bits 4 [])) = None /\ snd (Next (makeTorrent 4) (bits 4 [2])) = Some 2 /\ bs_test (t_requested (fst (Next (makeTorrent 4) (bits 4 [1])))) 1 = true /\
  snd (Next (requested 4 [0]) (bits 4 [0; 1])) = Some 1 /\ snd (Next (requested 3 [0; 1; 2]) (bits 3 [0; 1; 2])) = None /\
  snd (Next (makeTorrent 5) (bits 5 [4])) = Some 4 /\ bs_test (t_requested (fst (Next (makeTorrent 5) (bits 5 [4])))) 4 = true /\ snd (Next (makeTorrent 0) (bits 4 [0; 1])) = None.
Proof. vm_compute. repeat split; reflexivity. Qed.
Definition with_pieces (b : bytes) : torrent := match NewPieces b with Ok ps => mkTorrent [] [] 0 0 ps 0 [] [] [] false 0 [] [] | _ => makeTorrent 0 end.
Example TestCheckPiece :
  CheckPiece sha1 (with_pieces (sha1 (str "hello world"))) (str "hello world") 0 = Ok true /\
  CheckPiece sha1 (with_pieces (sha1 (str "hello world"))) (str "corrupted!!") 0 = Ok false /\
  CheckPiece sha1 (with_pieces (sha1 [])) [] 0 = Ok true.
Proof. vm_compute. repeat split; reflexivity. Qed.
Definition piece_body (index offset : Z) (data : bytes) : bytes := [7] ++ be_put 4 index ++ be_put 4 offset ++ data.
Definition makePieceMsg (index offset : Z) (data : bytes) : list msg := match NewPeerMessage (piece_body index offset data) with Ok m => [m] | _ => [] end.
(* a torrent with its files, and what is in them after one message *)
Definition file_torrent (plen n : Z) (files : list Z) : torrent :=
  mkTorrent [] [] 0 plen [] 0 (map (fun l => mkTfile l []) files) (map (fun k => [itoa (Z.of_nat k)]) (seq 0 (Nat.max 1 (length files)))) [] (negb (zlen files =? 0)) 0 (bs_new n) (bs_new n).
Definition empty_files : fs := fun _ => Some [].
Definition written (t : torrent) (ms : list msg) : list (option bytes) := let w := WritePiece (mkW t empty_files [] [] false) ms in map (w_fs w) (t_osfiles t).
Example TestWritePiece_SingleFile : written (file_torrent 100 1 []) (makePieceMsg 0 0 (str "hello torrent")) = [Some (str "hello torrent")].
Proof. vm_compute. reflexivity. Qed.
Example TestWritePiece_MultiFile :
  written (file_torrent 10 2 [10; 10]) (makePieceMsg 0 0 (str "fits")) = [Some (str "fits"); Some []] /\
  written (file_torrent 5 2 [5; 10]) (makePieceMsg 1 0 (str "bbb")) = [Some []; Some (str "bbb")] /\
  written (file_torrent 9 3 [3; 3; 3]) (makePieceMsg 0 0 (str "abcdefghi")) = [Some (str "abc"); Some (str "def"); Some (str "ghi")] /\
  written (file_torrent 15 2 [5; 10]) (makePieceMsg 0 0 (str "12345678")) = [Some (str "12345"); Some (str "678")].
Proof. vm_compute. repeat split; reflexivity. Qed.
Example TestWritePiece_MarksDownloadedOnLastBlock :
  bs_test (t_downloaded (w_t (WritePiece (mkW (file_torrent 10 1 []) empty_files [] [] false) (makePieceMsg 0 7 (str "end"))))) 0 = true.
Proof. vm_compute. reflexivity. Qed.

(* ---------- pkg/peer/peer_test.go ---------- *)
Definition validHandshake (hash peerId : bytes) : bytes := [19] ++ str "BitTorrent protocol" ++ repeat 0 8 ++ hash ++ peerId.
Definition patch (l : bytes) (i : nat) (b : Z) : bytes := firstn i l ++ [b] ++ skipn (S i) l.
Example TestIsHandshakeValid :
  let hash := repeat 171 20 in let id := repeat 205 20 in let hs := validHandshake hash id in
  isHandshakeValid hs hash id = true /\ isHandshakeValid [1; 2; 3] [] [] = false /\ isHandshakeValid (patch hs 0 18) hash id = false /\
  isHandshakeValid (patch hs 1 88) hash id = false /\ isHandshakeValid hs (repeat 255 20) id = false.
Proof. vm_compute. repeat split; reflexivity. Qed.
Example TestCreateHandshake :
  let hash := repeat 171 20 in let id := createClientId (repeat 77 12) in let hs := createHandshake id hash in
  zlen hs = 68 /\ hd 0 hs = 19 /\ sub hs 1 20 = str "BitTorrent protocol" /\ sub hs 28 48 = hash /\ sub hs 48 68 = id /\ isHandshakeValid hs hash id = true.
Proof. vm_compute. repeat split; reflexivity. Qed.
Example TestCreateClientId : forall r, length (createClientId r) = 20%nat /\ firstn 8 (createClientId r) = clientIdPrefix.
Proof.
  intros r. unfold createClientId. split; [|reflexivity].
  rewrite app_length, firstn_length, app_length, repeat_length. change (length clientIdPrefix) with 8%nat. lia.
Qed.
Definition makePeer (n : Z) (c p : status) : peer := mkPeer (bs_new n) p c 0 0 0.
Definition handled (r : hres) : option peer := match r with HPeer p => Some p | _ => None end.
Definition got (t : torrent) (p : peer) (body : bytes) : hres := match NewPeerMessage body with Ok m => handlePeerMessage sha1 t p m | _ => HPanic end.
Definition st (choked interested : bool) : status := mkStatus choked interested true.
Example TestHandlePeerMessage :
  let t := makeTorrent 8 in let n := newPeerStatus in
  handlePeerMessage sha1 t (makePeer 8 n n) KeepalivePeerMessage = HPeer (makePeer 8 n n) /\
  got t (makePeer 8 (st false false) n) [0] = HPeer (makePeer 8 (st true false) n) /\
  got t (makePeer 8 (st true false) n) [1] = HPeer (makePeer 8 (st false false) n) /\
  got t (makePeer 8 n (st true false)) [2] = HPeer (makePeer 8 n (st true true)) /\
  got t (makePeer 8 n (st true true)) [3] = HPeer (makePeer 8 n (st true false)) /\
  option_map (fun p => bs_test (pr_bits p) 7) (handled (got t (makePeer 256 n n) [4; 0; 0; 0; 7])) = Some true /\
  option_map (fun p => bs_test (pr_bits p) 63) (handled (got t (makePeer 8 n n) [5; 128])) = Some true.
Proof. vm_compute. repeat split; reflexivity. Qed.
(* the tests replace the checker; here the hash is right or wrong *)
Example TestHandlePeerMessage_Piece :
  let body := piece_body 0 0 (str "testdata") in
  (exists m, NewPeerMessage body = Ok m /\ got (with_pieces (sha1 (str "testdata"))) (makePeer 8 newPeerStatus newPeerStatus) body = HPut m) /\
  got (with_pieces (sha1 (str "other"))) (makePeer 8 newPeerStatus newPeerStatus) body = HPeer (makePeer 8 newPeerStatus newPeerStatus).
Proof. split; [eexists; split; vm_compute; reflexivity|vm_compute; reflexivity]. Qed.
Example TestNewPeer_Initialization :
  let p := NewPeer (mkTorrent [] [] 0 (4 * BlockLength) [] 17 [] [] [] false 0 [] []) in pr_block p = 0 /\ pr_bnum p = 4 /\ bs_len (pr_bits p) = 17.
Proof. vm_compute. repeat split; reflexivity. Qed.
(* nextRequestMessage: from line 240 of Run to the message it sends.  The tests replace the
   source of pieces; here the peer has exactly the piece that is to be returned. *)
Definition peer_at (have : list Z) (block piece bnum : Z) : rstate :=
  mkR PReq (mkPeer (bits 8 have) newPeerStatus (mkStatus false true true) block piece bnum) None false 0.
Definition shared_with (q : queue) : shared := mkSh (mkW (makeTorrent 8) empty_files [] [] false) (fun _ => q) [] false false.
Fixpoint next_message (fuel : nat) (s : shared) (r : rstate) : option rstate :=
  match fuel with
  | O => None
  | S f =>
      match r_pc r with
      | PSend | PNil => Some r
      | _ => match pstep sha1 (mkI false false None false) s r with Some (s', r', _) => next_message f s' r' | None => None end
      end
  end.
Definition nextRequestMessage (q : queue) (r : rstate) : option (option (Z * Z) * Z) :=
  option_map (fun r' => (option_map (fun m => (m_index m, m_offset m)) (r_req r'), pr_block (r_peer r'))) (next_message 5 (shared_with q) r).
Example TestNextRequestMessage :
  nextRequestMessage [] (peer_at [] 0 0 0) = Some (None, 0) /\
  nextRequestMessage [] (peer_at [3] 0 0 0) = Some (Some (3, 0), 1) /\
  nextRequestMessage [] (peer_at [0] 0 0 4) = Some (Some (0, 0), 1) /\
  nextRequestMessage [] (peer_at [1] 1 1 4) = Some (Some (1, BlockLength), 2) /\
  nextRequestMessage [CreatePieceMessage 2 0 BlockLength] (peer_at [5] 0 0 0) = Some (Some (2, 0), 0) /\
  nextRequestMessage [] (peer_at [7] 2 0 2) = Some (Some (7, 0), 1).
Proof. vm_compute. repeat split; reflexivity. Qed.

(* ---------- pkg/gotitnet/connection_test.go ---------- *)
Definition wirePeerMessage (body : bytes) : list ev := [Chunk (be_put 4 (zlen body) ++ body)].
Example TestReadPeerMessage :
  fst (ReadPeerMessage (wirePeerMessage [1])) = ROk [1] /\ fst (ReadPeerMessage [Chunk [0; 0; 0; 0]]) = ROk [] /\
  fst (ReadPeerMessage (wirePeerMessage (piece_body 3 0 (str "testdata")))) = ROk (piece_body 3 0 (str "testdata")).
Proof. vm_compute. repeat split; reflexivity. Qed.
Example TestReadPeerHandshake_Valid : let h := [19] ++ str "BitTorrent protocol" ++ repeat 0 48 in fst (ReadPeerHandshake [Chunk h]) = ROk h.
Proof. vm_compute. reflexivity. Qed.
Example TestWriteMsg_SendsOnWire : (5 <=? zlen (Send CreateUnchokeMessage)) = true /\ nth 4 (Send CreateUnchokeMessage) 0 = 1.
Proof. vm_compute. split; reflexivity. Qed.
Example TestReadAll_ReadsUntilEOF : fst (ReadAll [Chunk (str "all the tracker data"); Eof]) = ROk (str "all the tracker data").
Proof. vm_compute. reflexivity. Qed.
Example TestReadUdpHandshake_Valid : let p := map Z.of_nat (seq 0 16) in fst (ReadUdpHandshake [Datagram p]) = ROk p.
Proof. vm_compute. reflexivity. Qed.
