{"id": "C01", "title": "Parse always terminates", "statement": "bencode.Parse finishes on every input: it returns a value, returns an error or panics, and never loops or recurses forever.", "quantifier": "every byte string", "why_tests_cant": "the input space is infinite and a hang is only visible on the inputs nobody tried", "anchors": ["pkg/bencode/parse.go:Parse", "pkg/bencode/parse.go:Next", "pkg/bencode/parse.go:readList", "pkg/bencode/parse.go:readDict"]}
{"id": "C02", "title": "Parse does not crash on hostile input", "statement": "bencode.Parse never panics: malformed data of any kind is reported as an error. (Expected by every caller, since torrent files and tracker replies are untrusted.)", "quantifier": "every byte string", "why_tests_cant": "a panic needs one specific overflow pattern among all inputs", "anchors": ["pkg/bencode/parse.go:number", "pkg/bencode/parse.go:readString", "pkg/bencode/parse.go:read"]}
{"id": "C03", "title": "Parse accepts exactly bencode and returns the denoted value", "statement": "For inputs whose decimal numbers fit the integer type, Parse succeeds iff some prefix of the input is a document of the bencode grammar (non-negative integers, length-prefixed strings, lists, dictionaries; a digit run may be empty, meaning 0, or have leading zeros), and the element returned is the one that document denotes.", "quantifier": "every byte string whose digit runs are at most 922337203685477580, every element", "why_tests_cant": "grammar conformance ranges over all nestings, sizes and contents", "anchors": ["pkg/bencode/parse.go:Parse", "pkg/bencode/parse.go:readInt", "pkg/bencode/parse.go:readString", "pkg/bencode/parse.go:readList", "pkg/bencode/parse.go:readDict"]}
{"id": "C04", "title": "Raw returns the element's own bytes", "statement": "For every list or dictionary at any depth of a successful Parse, Raw() is exactly the contiguous piece of the input that encodes this element, and re-parsing it yields the same element.", "quantifier": "every input, every sub-element of the result", "why_tests_cant": "requires tracking scanner positions through arbitrary nesting", "anchors": ["pkg/bencode/parse.go:readList", "pkg/bencode/parse.go:readDict", "pkg/bencode/elements.go:Raw"]}
{"id": "C05", "title": "Encode then Parse gives the element back", "statement": "For every element built with String/Integer/List/NewDictBuilder (integers between 0 and 922337203685477580), Parse(Encode(e)) succeeds and returns an equal element (nil children dropped), whatever order Go iterates the dictionary maps in. Outside that integer range the round trip fails.", "quantifier": "every element tree, every map iteration order", "why_tests_cant": "map iteration order is random and trees are unbounded", "anchors": ["pkg/bencode/elements.go:Encode", "pkg/bencode/elements.go:NewDictBuilder", "pkg/bencode/parse.go:Parse"]}
{"id": "C06", "title": "Duplicate dictionary keys: last one wins", "statement": "In a parsed dictionary Value(k) is the value of the last entry whose key is k, nil if there is none.", "quantifier": "every dictionary document, every key", "why_tests_cant": "all multiplicities and positions of duplicates", "anchors": ["pkg/bencode/parse.go:readDict", "pkg/bencode/elements.go:Value"]}
{"id": "C07", "title": "Truncated data is always detected", "statement": "If a bencode document is cut short at any point, Parse reports an error; it never returns a value for the truncated bytes.", "quantifier": "every document, every cut point", "why_tests_cant": "crash/cut point quantification over all documents", "anchors": ["pkg/bencode/parse.go:Parse", "pkg/bencode/parse.go:readString"]}
{"id": "C08", "title": "Parse reads only the first element", "statement": "Parse's outcome depends only on the first complete element: any bytes may follow it without changing the result.", "quantifier": "every document, every suffix", "why_tests_cant": "all suffixes", "anchors": ["pkg/bencode/parse.go:Parse", "pkg/bencode/parse.go:Next"]}
{"id": "C09", "title": "Integer fields never silently truncate", "statement": "When Unmarshal assigns to an integer field of any width the stored number is exactly the number denoted by the bencode element and lies within the field's range; otherwise Unmarshal returns an error.", "quantifier": "every element, every signed/unsigned width", "why_tests_cant": "all values around all width boundaries, including strings in base-0 syntax", "anchors": ["pkg/bencode/tag_parser.go:setField"]}
{"id": "C10", "title": "Unmarshal: required keys, optional keys and untouched fields", "statement": "Unmarshal of a dictionary into a tagged struct fails if a required key is missing; optional missing keys leave the field unchanged; untagged or unsettable fields are never changed; each present field holds the converted value.", "quantifier": "every dictionary, every tagged struct type", "why_tests_cant": "all struct shapes and dictionaries", "anchors": ["pkg/bencode/tag_parser.go:processTarget", "pkg/bencode/tag_parser.go:setField"]}
{"id": "C11", "title": "Unmarshal does not crash on well-formed bencode", "statement": "Unmarshal of any parseable document returns a value or an error, never a panic.", "quantifier": "every parseable document, every struct type", "why_tests_cant": "needs the one top-level kind nobody tests", "anchors": ["pkg/bencode/tag_parser.go:processTarget"]}
{"id": "C12", "title": "Info hash identifies the info dictionary bytes", "statement": "For every torrent file that Unmarshals, Metainfo.Hash() is the SHA-1 of exactly the bytes of the info dictionary as they stand in the file, unaffected by key order, unknown keys or anything outside it.", "quantifier": "every torrent file, every SHA-1 implementation", "why_tests_cant": "peers reject any other hash; all byte layouts", "anchors": ["pkg/bencode/tag_parser.go:Metainfo.Hash", "pkg/bencode/tag_parser.go:Metainfo", "pkg/bencode/parse.go:readDict"]}
{"id": "C13", "title": "Peer message framing round trip", "statement": "Writing any message decoded from a frame reproduces that frame byte for byte: Send(NewPeerMessage(body)) emits the 4-byte length and the body.", "quantifier": "every message body", "why_tests_cant": "all bodies and types", "anchors": ["pkg/util/peer_message.go:NewPeerMessage", "pkg/util/peer_message.go:Send"]}
{"id": "C14", "title": "Block requests carry index, begin and length on the wire", "statement": "The bytes written for CreatePieceMessage(index, offset, length) are the BEP-3 request: length 13, type 6, then index, offset and block length as 32-bit big-endian numbers.", "quantifier": "every index, offset, block length", "why_tests_cant": "tests look at the accessors, not at all wire values", "anchors": ["pkg/util/peer_message.go:CreatePieceMessage", "pkg/util/peer_message.go:Send"]}
{"id": "C15", "title": "Decoding a peer message never crashes", "statement": "NewPeerMessage accepts any body received from the network without panicking.", "quantifier": "every message body", "why_tests_cant": "hostile bodies", "anchors": ["pkg/util/peer_message.go:NewPeerMessage"]}
{"id": "C16", "title": "Decoded fields follow BEP-3", "statement": "For well-formed have/request/cancel/piece bodies Index, Offset, BlockLength and Data are the fields at their BEP-3 positions; for other types Data and Bitfield are nil.", "quantifier": "every body of sufficient length", "why_tests_cant": "all values", "anchors": ["pkg/util/peer_message.go:NewPeerMessage", "pkg/util/peer_message.go:Data", "pkg/util/peer_message.go:Index"]}
{"id": "C17", "title": "Bitfield bit order", "statement": "After a bitfield message, the peer is considered to have piece i iff bit i of the payload, counted from the most significant bit of the first byte, is set.", "quantifier": "every payload, every piece index", "why_tests_cant": "all payload lengths and positions", "anchors": ["pkg/util/peer_message.go:createBitset", "pkg/util/peer_message.go:Bitfield"]}
{"id": "C18", "title": "Message stream framing is independent of TCP segmentation", "statement": "However the byte stream is split into reads, consecutive ReadPeerMessage calls return exactly the bodies of the frames sent, in order, leaving the rest of the stream unread.", "quantifier": "every list of frames, every segmentation", "why_tests_cant": "all segmentations", "anchors": ["pkg/gotitnet/connection.go:ReadPeerMessage", "pkg/gotitnet/connection.go:readExactly"]}
{"id": "C19", "title": "A read timeout does not break framing", "statement": "If ReadPeerMessage fails with a timeout, a later call still returns the next whole frame.", "quantifier": "every timing of arrival relative to the deadline", "why_tests_cant": "needs a timeout at a precise point inside a frame", "anchors": ["pkg/gotitnet/connection.go:ReadPeerMessage", "pkg/peer/peer.go:Run"]}
{"id": "C20", "title": "NewPieces splits the hash string exactly", "statement": "NewPieces fails iff the length is not a multiple of 20; otherwise piece k has index k and hash bytes 20k..20k+19 and nothing is lost.", "quantifier": "every byte string", "why_tests_cant": "all lengths", "anchors": ["pkg/torrent/piece.go:NewPieces"]}
{"id": "C21", "title": "Next hands out each piece at most once, only if the peer has it, lowest first", "statement": "Over any sequence of Next calls from any peers, no piece index is returned twice, a returned index is a valid piece the asking peer has and is the lowest such unrequested one, and Next reports false only when no unrequested piece of that peer is left.", "quantifier": "every history of calls, every peer bitset", "why_tests_cant": "all interleavings of peers", "anchors": ["pkg/torrent/torrent.go:Next"]}
{"id": "C22", "title": "Done means every piece was stored", "statement": "Done() is true iff SetDownloaded was called for every piece index below PiecesNum (indices in range).", "quantifier": "every history of SetDownloaded calls", "why_tests_cant": "all histories", "anchors": ["pkg/torrent/torrent.go:Done", "pkg/torrent/torrent.go:SetDownloaded"]}
{"id": "C23", "title": "Piece data lands at its torrent position", "statement": "For a multi-file torrent with distinct output files, a stored block at absolute position pos changes exactly torrent bytes pos..pos+len-1 (files concatenated in order) to the block's bytes and no other byte of any file; it succeeds iff the block lies inside the torrent.", "quantifier": "every file layout (including empty files), every position and block", "why_tests_cant": "all layouts and spans", "anchors": ["pkg/torrent/torrent.go:writePieceData"]}
{"id": "C24", "title": "Files never grow past their declared length", "statement": "Multi-file writes never extend a file beyond its length in the torrent; single-file writes stay within the torrent length.", "quantifier": "every layout, every message", "why_tests_cant": "all positions", "anchors": ["pkg/torrent/torrent.go:writePieceData", "pkg/torrent/torrent.go:WritePiece"]}
{"id": "C25", "title": "Every torrent entry gets its own file at its path", "statement": "Each file entry of a multi-file torrent is stored at downloadDir/name/path joined, and different entries are different files.", "quantifier": "every file list", "why_tests_cant": "all directory structures", "anchors": ["pkg/torrent/torrent.go:initDownloadDir", "pkg/bencode/tag_parser.go:FilePath"]}
{"id": "C26", "title": "Downloads stay inside the output directory", "statement": "Whatever names the torrent contains, every file created lies under the chosen download directory.", "quantifier": "every name and path in the metainfo", "why_tests_cant": "hostile names", "anchors": ["pkg/torrent/torrent.go:initDownloadDir"]}
{"id": "C27", "title": "Only verified data is stored", "statement": "Every byte stored on disk belongs to a message whose data hashed to the expected SHA-1 of its piece, stored at that piece's position.", "quantifier": "every history of peer messages", "why_tests_cant": "adversarial peers", "anchors": ["pkg/peer/peer.go:handlePieceMessage", "pkg/torrent/torrent.go:CheckPiece", "pkg/torrent/torrent.go:WritePiece"]}
{"id": "C28", "title": "A complete piece is recorded, an incomplete one is not", "statement": "WritePiece marks a piece downloaded when its last block is stored, for all pieces including the shorter last one, so that a fully stored torrent reports Done.", "quantifier": "every torrent length and piece length, every message sequence", "why_tests_cant": "all length remainders", "anchors": ["pkg/torrent/torrent.go:WritePiece", "pkg/torrent/torrent.go:SetDownloaded", "pkg/torrent/torrent.go:Done"]}
{"id": "C29", "title": "PiecesNum is the ceiling of length over piece length", "statement": "torrent.New computes exactly ceil(Length/PieceLength) pieces although it computes in floating point.", "quantifier": "every length up to 2^53, every positive piece length up to 2^53", "why_tests_cant": "rounding errors occur at isolated values", "anchors": ["pkg/torrent/torrent.go:New"]}
{"id": "C30", "title": "Trackers are exactly the announced URLs", "statement": "The tracker set contains exactly announce, all announce-list entries and all url-list entries, each once.", "quantifier": "every metainfo", "why_tests_cant": "all lists", "anchors": ["pkg/torrent/torrent.go:New", "pkg/util/set.go:Add"]}
{"id": "C31", "title": "Failed-request queue loses and duplicates nothing", "statement": "FailedPieceMessage returns the most recent not yet returned failed request, nil iff none is pending; every failed request is returned exactly once.", "quantifier": "every interleaving of pushes and pops", "why_tests_cant": "all histories", "anchors": ["pkg/torrent/pieces_queue.go:RequestFailed", "pkg/torrent/pieces_queue.go:FailedPieceMessage"]}
{"id": "C32", "title": "Download statistics are conserved", "statement": "After any set of AddDownload calls, in any interleaving of their atomic steps, Download() is the sum of sizes and Download()+Left() equals the torrent size modulo 2^64 once no call is in flight; in between they differ by exactly the in-flight sizes.", "quantifier": "every interleaving of the atomic updates", "why_tests_cant": "interleavings", "anchors": ["pkg/stats/stats.go:AddDownload", "pkg/stats/stats.go:Left"]}
{"id": "C33", "title": "Left never underflows", "statement": "Left() never exceeds the torrent size.", "quantifier": "every history of stored messages", "why_tests_cant": "needs duplicate deliveries", "anchors": ["pkg/stats/stats.go:AddDownload", "pkg/torrent/torrent.go:WritePiece"]}
{"id": "C34", "title": "Percent completed is between 0 and 100", "statement": "PercentCompleted is within 0..100 while Download() is at most the torrent size, for all 64-bit counters.", "quantifier": "every pair of counters", "why_tests_cant": "float rounding at extreme values", "anchors": ["pkg/stats/stats.go:PercentCompleted"]}
{"id": "C35", "title": "Progress printing never crashes", "statement": "progressBar renders a bar of exactly barSize cells without panicking whatever percentage the statistics report.", "quantifier": "every reachable percentage", "why_tests_cant": "needs more than 100 percent downloaded", "anchors": ["pkg/stats/progress_bar.go:progressBar", "pkg/stats/progress_printer.go:Print"]}
{"id": "C36", "title": "Handshake acceptance", "statement": "A peer handshake is accepted iff it has at least 68 bytes, starts with 19 and the protocol string and carries our info hash at bytes 28..47; the handshake we send is accepted by the same rule for the same hash and rejected for every other.", "quantifier": "every received byte string, every hash", "why_tests_cant": "all inputs", "anchors": ["pkg/peer/peer.go:isHandshakeValid", "pkg/peer/peer.go:createHandshake"]}
{"id": "C37", "title": "Peer protocol state follows the messages received", "statement": "After any sequence of messages, Choked reflects the last choke/unchoke, PeerStatus.Interested the last interested/not-interested, and other messages leave them unchanged.", "quantifier": "every message sequence", "why_tests_cant": "all sequences", "anchors": ["pkg/peer/peer.go:handlePeerMessage"]}
{"id": "C38", "title": "An unchoked peer is asked for pieces", "statement": "Run requests blocks from a peer that has unchoked us.", "quantifier": "every network behaviour", "why_tests_cant": "a liveness claim over all schedules", "anchors": ["pkg/peer/peer.go:Run", "pkg/peer/peer.go:newPeerStatus", "pkg/peer/peer.go:SendInterested"]}
{"id": "C39", "title": "At most one outstanding block request per peer", "statement": "Between two request sends of one Run there is always a failed read (or a failed send) in between.", "quantifier": "every network behaviour", "why_tests_cant": "all schedules", "anchors": ["pkg/peer/peer.go:Run"]}
{"id": "C40", "title": "The download progresses through all pieces", "statement": "With interest enabled and cooperative peers, all pieces are eventually requested.", "quantifier": "every schedule of N peers sharing a failed-request queue", "why_tests_cant": "liveness over all schedules", "anchors": ["pkg/peer/peer.go:Run", "pkg/peer/peer.go:nextRequestMessage", "pkg/torrent/pieces_queue.go:FailedPieceMessage"]}
{"id": "C41", "title": "Requests only name pieces the peer has and that were claimed", "statement": "A request sent to a peer names a piece that peer advertised and that was reserved via Next.", "quantifier": "every schedule", "why_tests_cant": "all schedules", "anchors": ["pkg/peer/peer.go:NewPeer", "pkg/peer/peer.go:nextRequestMessage"]}
{"id": "C42", "title": "Blocks of a claimed piece are requested completely", "statement": "For a claimed piece the request messages created are offsets 0, 128K, 2*128K, ... covering the piece exactly.", "quantifier": "every piece length", "why_tests_cant": "all lengths, incl. non multiples of 128 KiB", "anchors": ["pkg/peer/peer.go:createPieceMessage", "pkg/peer/peer.go:NewPeer", "pkg/peer/peer.go:nextRequestMessage"]}
{"id": "C43", "title": "Run stops on cancellation or completion", "statement": "Once the context is cancelled or the torrent is done, Run issues no further request and returns within one loop iteration.", "quantifier": "every network behaviour", "why_tests_cant": "all schedules", "anchors": ["pkg/peer/peer.go:Run", "pkg/peer/peer.go:unchoke"]}
{"id": "C44", "title": "Compact peer lists decode exactly", "statement": "parseCompactPeers of a concatenation of 6-byte entries returns exactly these addresses and ports in order; trailing partial entries are ignored.", "quantifier": "every byte string", "why_tests_cant": "all lengths", "anchors": ["pkg/tracker/http_tracker.go:parseCompactPeers"]}
{"id": "C45", "title": "Compact HTTP tracker replies are accepted", "statement": "The HTTP tracker asks for compact=1 and a reply with a compact peers string yields those peers.", "quantifier": "every compact reply", "why_tests_cant": "interaction of the struct tags with all replies", "anchors": ["pkg/tracker/http_tracker.go:readPeers", "gotit.go:AnnounceResponse", "pkg/bencode/tag_parser.go:setField"]}
{"id": "C46", "title": "Only valid peer addresses are returned", "statement": "Every address returned by an HTTP announce is a valid ip:port.", "quantifier": "every reply", "why_tests_cant": "hostile replies", "anchors": ["pkg/tracker/http_tracker.go:parseBencodePeers"]}
{"id": "C47", "title": "UDP responses are matched to their request", "statement": "A UDP tracker response is accepted only if it echoes the transaction id; an accepted connect sets the connection id of bytes 8..15, an accepted announce yields the peers of bytes 20.. and the interval of bytes 8..11.", "quantifier": "every response", "why_tests_cant": "all responses", "anchors": ["pkg/tracker/udp_tracker.go:parseTrackerResponse", "pkg/tracker/udp_tracker.go:readConnect", "pkg/tracker/udp_tracker.go:readAnnounce"]}
{"id": "C48", "title": "UDP announce request layout", "statement": "The announce request has the 98-byte BEP-15 layout including the info hash at offset 16 and the port as 16 bits at offset 96.", "quantifier": "every announce data", "why_tests_cant": "all values", "anchors": ["pkg/tracker/udp_tracker.go:createAnnounce"]}
{"id": "C49", "title": "UDP announce succeeds with a conforming tracker", "statement": "If the tracker answers connect and announce correctly, Announce returns its peers.", "quantifier": "every conforming datagram exchange", "why_tests_cant": "depends on datagram and deadline semantics", "anchors": ["pkg/tracker/udp_tracker.go:Announce", "pkg/gotitnet/connection.go:ReadAll"]}
{"id": "C50", "title": "UDP responses cannot crash the client", "statement": "No datagram content makes parseTrackerResponse panic.", "quantifier": "every datagram", "why_tests_cant": "hostile datagrams", "anchors": ["pkg/tracker/udp_tracker.go:parseTrackerResponse"]}
{"id": "C51", "title": "One pool entry per peer address", "statement": "AddPeer returns true iff the address was not in the pool, and the pool never holds two peers for one address, under every interleaving.", "quantifier": "every history of AddPeer calls", "why_tests_cant": "interleavings", "anchors": ["pkg/download/manager.go:AddPeer"]}
{"id": "C52", "title": "The peer limit is respected", "statement": "The number of peers in the pool never exceeds num-peer.", "quantifier": "every history", "why_tests_cant": "all histories", "anchors": ["pkg/download/manager.go:AddPeer", "pkg/download/manager.go:initPeers"]}
{"id": "C53", "title": "Stop is safe", "statement": "Stop can be called at any time after Download started, any number of times, without panicking, and closes every connection.", "quantifier": "every history", "why_tests_cant": "needs peers that never connected", "anchors": ["pkg/download/manager.go:Stop", "pkg/peer/peer.go:Close"]}
{"id": "C54", "title": "Download returns when the torrent is complete", "statement": "Download returns once all pieces are stored.", "quantifier": "every schedule", "why_tests_cant": "liveness", "anchors": ["pkg/download/manager.go:Download", "pkg/download/manager.go:waitPeers"]}
{"id": "C55", "title": "Shutdown does not crash in-flight peers", "statement": "Cancelling the download never makes a peer goroutine panic.", "quantifier": "every schedule", "why_tests_cant": "needs a precise interleaving", "anchors": ["pkg/download/manager.go:Download", "pkg/peer/peer.go:handlePieceMessage"]}
{"id": "C56", "title": "Accepted pieces are on disk when Download returns", "statement": "Every piece handed to the writer is written before Download returns.", "quantifier": "every schedule", "why_tests_cant": "interleavings", "anchors": ["pkg/download/manager.go:Download", "pkg/torrent/torrent.go:WritePiece"]}
{"id": "C57", "title": "Announce attempts are bounded", "statement": "Tracker and peer announces are attempted at most five times per round and stop at the first success.", "quantifier": "every outcome sequence", "why_tests_cant": "all sequences", "anchors": ["pkg/download/manager.go:announceToTracker", "pkg/download/manager.go:startPeerDownload"]}
{"id": "C58", "title": "Documented log levels are accepted", "statement": "NewCommandLine accepts exactly the documented levels and formats (case-insensitively, surrounding blanks ignored).", "quantifier": "every level and format string", "why_tests_cant": "all strings", "anchors": ["pkg/logger/logger.go:getZapLevel", "pkg/logger/logger.go:getZapEncoder", "pkg/logger/logger.go:NewCommandLine", "pkg/cmd/app.go:NewApp"]}
{"id": "C59", "title": "Peer statistics equal live pool entries", "statement": "PeerNum equals the number of pool entries whose announce did not fail.", "quantifier": "every history", "why_tests_cant": "interleavings", "anchors": ["pkg/download/manager.go:AddPeer", "pkg/download/manager.go:startPeerDownload", "pkg/stats/stats.go:AddPeer"]}
{"id": "C60", "title": "The re-announce interval is never zero", "statement": "After an announce the tracker goroutine waits a positive time before the next one.", "quantifier": "every reply", "why_tests_cant": "hostile or minimal replies", "anchors": ["pkg/tracker/http_tracker.go:readPeers", "pkg/tracker/tracker.go:WaitInterval"]}
{"id": "C61", "title": "A fresh torrent with data is not done", "statement": "Right after torrent.New, a torrent with a positive length is not Done and Next offers its pieces.", "quantifier": "every metainfo", "why_tests_cant": "depends on float division results for piece lengths no one tests", "anchors": ["pkg/torrent/torrent.go:New", "pkg/torrent/torrent.go:Done"]}
{"id": "C62", "title": "There is a hash for every piece", "statement": "torrent.New accepts only torrents with exactly one SHA-1 per piece, so CheckPiece of a valid index compares the data with that piece's hash and never panics.", "quantifier": "every metainfo, every index", "why_tests_cant": "all combinations of lengths and hash counts", "anchors": ["pkg/torrent/torrent.go:New", "pkg/torrent/torrent.go:CheckPiece"]}
{"id": "C63", "title": "Only stored data counts as downloaded", "statement": "The downloaded counter never exceeds the number of bytes stored on disk.", "quantifier": "every sequence of piece messages, every pattern of write failures", "why_tests_cant": "needs failing writes and out-of-range blocks in all combinations", "anchors": ["pkg/torrent/torrent.go:WritePiece", "pkg/stats/stats.go:AddDownload"]}
{"id": "C64", "title": "The progress percentage never goes backwards", "statement": "PercentCompleted is monotone in the downloaded byte count, for counts up to 2^53.", "quantifier": "every torrent size, every two counts up to 2^53", "why_tests_cant": "float rounding at isolated values", "anchors": ["pkg/stats/stats.go:PercentCompleted"]}
{"id": "C65", "title": "The pieces a peer is believed to have", "statement": "At every moment the bitset kept for a peer contains exactly the pieces named by its latest bitfield message and by the have messages and verified pieces received from it since.", "quantifier": "every schedule and message sequence", "why_tests_cant": "all sequences of bitfields, haves and pieces", "anchors": ["pkg/peer/peer.go:handlePeerMessage", "pkg/peer/peer.go:handlePieceMessage"]}
{"id": "C66", "title": "The announce request transmits its values exactly", "statement": "A tracker that decodes the query of an HTTP announce gets every key once, info_hash and peer_id byte for byte, and downloaded, uploaded, left and port as decimal numerals of the client's values.", "quantifier": "every announce URL without a query, every hash, id and statistics", "why_tests_cant": "binary hashes with all byte values", "anchors": ["pkg/tracker/http_tracker.go:Announce", "pkg/tracker/http_tracker.go:buildQuery"]}
{"id": "C67", "title": "Announce URLs that have a query already", "statement": "If the announce URL of the torrent contains a query (a passkey), the tracker still gets all parameters of the announce.", "quantifier": "every announce URL and query", "why_tests_cant": "all URLs with a query", "anchors": ["pkg/tracker/http_tracker.go:Announce"]}
{"id": "C68", "title": "HTTP replies cannot crash the client", "statement": "No reply of an HTTP tracker makes Announce panic.", "quantifier": "every status and body", "why_tests_cant": "hostile replies", "anchors": ["pkg/tracker/http_tracker.go:Announce", "pkg/tracker/http_tracker.go:readPeers", "pkg/bencode/tag_parser.go:Unmarshal"]}
{"id": "C69", "title": "Tracker protocols", "statement": "A tracker is created exactly for the schemes udp, http and https, of the right kind.", "quantifier": "every scheme", "why_tests_cant": "all schemes", "anchors": ["pkg/tracker/tracker.go:New"]}
{"id": "C70", "title": "UDP requests", "statement": "The first datagram sent to a UDP tracker is the BEP-15 connect request; an announce is only sent after a connect reply echoing its transaction id, and carries the connection id of that reply.", "quantifier": "every sequence of datagrams received", "why_tests_cant": "all datagram sequences", "anchors": ["pkg/tracker/udp_tracker.go:handshake", "pkg/tracker/udp_tracker.go:Announce"]}
{"id": "C71", "title": "Tracker goroutines do not crash the process", "statement": "No step of a tracker goroutine panics, whatever the interleaving with Stop (apart from replies that make Announce itself panic).", "quantifier": "every history", "why_tests_cant": "needs a reply between Stop and exit", "anchors": ["pkg/download/manager.go:runTracker", "pkg/download/manager.go:AddPeer", "pkg/download/manager.go:Stop"]}
{"id": "C72", "title": "The peer count shows working peers", "statement": "Whenever no peer is being announced to, PeerNum is the number of peers whose Run has not returned.", "quantifier": "every history", "why_tests_cant": "interleavings", "anchors": ["pkg/download/manager.go:startPeerDownload", "pkg/stats/stats.go:RemovePeer"]}
{"id": "C73", "title": "Cancellation stops the trackers", "statement": "After the context is cancelled a tracker goroutine starts no announce round, makes a bounded number of announces and connection attempts, starts at most one peer, and ends.", "quantifier": "every history, every fair schedule", "why_tests_cant": "liveness over all schedules", "anchors": ["pkg/download/manager.go:runTracker", "pkg/download/manager.go:announceToTracker", "pkg/download/manager.go:startPeerDownload", "pkg/tracker/http_tracker.go:WaitInterval"]}
{"id": "C74", "title": "Unreachable peers are tried again", "statement": "A peer whose announce failed is tried again when a tracker names it in a later round.", "quantifier": "every history", "why_tests_cant": "needs several announce rounds", "anchors": ["pkg/download/manager.go:AddPeer", "pkg/download/manager.go:startPeerDownload"]}
{"id": "C75", "title": "Log flags take effect", "statement": "The logger a download uses is the one --log-level and --log-format ask for.", "quantifier": "every command line, configuration, environment", "why_tests_cant": "the flags are parsed after the logger is made; a test would have to look at the logger of a running download", "anchors": ["pkg/cmd/app.go:NewApp", "pkg/cmd/app.go:NewCmdRun"]}
{"id": "C76", "title": "The configuration file is the one asked for", "statement": "With --config only that file is read and matters, and help or version work whatever it contains.", "quantifier": "every command line, configuration, environment", "why_tests_cant": "depends on files outside the test", "anchors": ["pkg/cmd/app.go:NewApp", "pkg/cmd/app.go:initConfig", "pkg/cmd/app.go:NewCmdRun"]}
{"id": "C77", "title": "A failing download command changes nothing", "statement": "If the download command fails before downloading, the file system is as before.", "quantifier": "every torrent file, output directory, file system, set of failing creations", "why_tests_cant": "needs each possible failing creation", "anchors": ["pkg/cmd/download.go:runDownload", "pkg/torrent/torrent.go:New"]}
{"id": "C78", "title": "Exit status 0 means complete", "statement": "If a download process ends with status 0 the torrent is complete.", "quantifier": "every environment and schedule", "why_tests_cant": "all schedules", "anchors": ["pkg/cmd/download.go:runDownload", "pkg/download/manager.go:Download", "pkg/cmd/app.go:NewCmdRun"]}
{"id": "C79", "title": "bencode prints metadata", "statement": "The bencode command prints something about every torrent file it accepts, and its status tells whether the file is a torrent.", "quantifier": "every file content", "why_tests_cant": "all file contents", "anchors": ["pkg/cmd/bencode.go:run", "pkg/bencode/tag_parser.go:Unmarshal"]}
{"id": "C80", "title": "StringSet is a set", "statement": "Add tells whether the element is new and adds exactly it, AddAll is union, Contains membership.", "quantifier": "every set and element", "why_tests_cant": "all sets", "anchors": ["pkg/util/set.go:Add", "pkg/util/set.go:AddAll", "pkg/util/set.go:Contains"]}
{"id": "C81", "title": "The metainfo is what the document says", "statement": "Every field of the metainfo read from a torrent file is the value the bencoded document has under that key (or the default if an optional key is missing), and the torrent downloaded is made from it.", "quantifier": "every document", "why_tests_cant": "all documents", "anchors": ["pkg/bencode/tag_parser.go:Unmarshal", "pkg/bencode/tag_parser.go:Metainfo", "pkg/cmd/download.go:runDownload"]}
{"id": "C82", "title": "No request while choked", "statement": "A request is only sent to a peer whose last choke/unchoke message was unchoke (and which has sent one).", "quantifier": "every execution of any number of peers, every message sequence", "why_tests_cant": "all interleavings and message orders", "anchors": ["pkg/peer/peer.go:nextRequestMessage", "pkg/peer/peer.go:Run", "pkg/peer/peer.go:handlePeerMessage"]}
{"id": "C83", "title": "Requests are conserved", "statement": "At every moment the block requests created by the peers of one announce round are, as a multiset, exactly those in the round's queue of failed requests plus those peers work on: none is duplicated, none disappears, rounds do not mix.", "quantifier": "every execution", "why_tests_cant": "all interleavings of all peers", "anchors": ["pkg/peer/peer.go:nextRequestMessage", "pkg/peer/peer.go:Run", "pkg/torrent/pieces_queue.go:RequestFailed", "pkg/torrent/pieces_queue.go:FailedPieceMessage"]}
{"id": "C84", "title": "A request survives its peer", "statement": "A created request is always in the queue of its round or worked on by a peer that still runs, so that another peer can take over when one goes away.", "quantifier": "every execution", "why_tests_cant": "needs a peer that ends at the wrong moment", "anchors": ["pkg/peer/peer.go:Run"]}
{"id": "C85", "title": "An answered request is not sent again", "statement": "A request whose answer was accepted is not sent again to the same peer.", "quantifier": "every execution", "why_tests_cant": "needs a read error after an answer", "anchors": ["pkg/peer/peer.go:Run", "pkg/peer/peer.go:nextRequestMessage"]}
{"id": "C86", "title": "Printing does not crash the download", "statement": "The progress printer, which runs once a second, never panics in a download that has not crashed.", "quantifier": "every execution with a torrent made by New", "why_tests_cant": "depends on how often pieces are received", "anchors": ["pkg/stats/progress_printer.go:Print", "pkg/stats/progress_bar.go:progressBar", "pkg/torrent/torrent.go:WritePiece", "pkg/download/manager.go:initStatisticsPrinting"]}
{"id": "C87", "title": "Tracker errors are errors", "statement": "An HTTP announce succeeds exactly when the status is 200 and the body is a bencoded dictionary without a failure reason and with a peers list; an error status or a failure reason is never taken for success, whatever else the reply contains.", "quantifier": "every status and body", "why_tests_cant": "all combinations of status, failure reason and other keys", "anchors": ["pkg/tracker/http_tracker.go:Announce", "pkg/tracker/http_tracker.go:readPeers"]}
{"id": "C88", "title": "Every address of a reply is offered to the pool", "statement": "After an announce returned a list of addresses, the tracker goroutine offers exactly these to the pool, in order, before its next round, whatever happens to the single peers.", "quantifier": "every history of all goroutines", "why_tests_cant": "interleavings with other trackers, failing peers and cancellation", "anchors": ["pkg/download/manager.go:runTracker", "pkg/download/manager.go:initPeers"]}
{"id": "C89", "title": "A peer is given up only after five attempts", "statement": "Every peer added to the pool is being connected to, was connected to, or has failed; it counts as failed only after exactly five attempts or a cancellation.", "quantifier": "every history of all goroutines", "why_tests_cant": "all outcome sequences and interleavings", "anchors": ["pkg/download/manager.go:startPeerDownload", "pkg/peer/peer.go:Announce"]}
{"id": "C90", "title": "A connected peer hears from us every two minutes", "statement": "While Run is executing, the latest attempt to write to the peer is less than two minutes old.", "quantifier": "every execution with any timing the deadlines allow, any messages, failures and states of the rest", "why_tests_cant": "needs minutes of real time and all interleavings with a slow writer", "anchors": ["pkg/peer/peer.go:Run", "pkg/peer/peer.go:checkKeepAlive", "pkg/peer/peer.go:unchoke"]}
{"id": "C91", "title": "Keep-alives are sent only when idle", "statement": "A keep-alive is written only if nothing was written for 1.9 minutes; it is written at the first check after that, and two keep-alives are at least 1.9 minutes apart.", "quantifier": "every execution, every clock reading (time.Since saturation and the float conversion of Minutes included)", "why_tests_cant": "all timings and the float comparison on every duration", "anchors": ["pkg/peer/peer.go:checkKeepAlive", "pkg/peer/peer.go:updateLastMsgSent"]}
{"id": "C92", "title": "Repeated failures are retried after growing delays", "statement": "The n-th consecutive retry waits between 100 ms and min(30 s, 100 ms * 2^n).", "quantifier": "every execution, every number of failures", "why_tests_cant": "unbounded numbers of failures", "anchors": ["pkg/peer/peer.go:Run", "pkg/peer/peer.go:unchoke", "pkg/peer/peer.go:newDefaultBackoff"]}
{"id": "C93", "title": "A dead connection is given up", "statement": "If nothing can be sent or received any more, Run returns within a bounded time.", "quantifier": "every execution after the connection died, choked or not", "why_tests_cant": "absence of an endless execution", "anchors": ["pkg/peer/peer.go:Run", "pkg/peer/peer.go:checkKeepAlive", "pkg/peer/peer.go:unchoke"]}
{"id": "C94", "title": "Failures do not make a peer spin", "statement": "At any time at most one plus elapsed/100 ms reads or writes of a peer have failed.", "quantifier": "every execution, every pattern of failures", "why_tests_cant": "all failure patterns and durations", "anchors": ["pkg/peer/peer.go:Run", "pkg/peer/peer.go:unchoke", "pkg/peer/peer.go:newDefaultBackoff"]}
{"id": "C95", "title": "Nested elements are indented by their depth", "statement": "Printing a bencoded element puts every entry of a list or dictionary on its own line, indented by the number of lists and dictionaries it is in.", "quantifier": "every parsed document, every element built in Go", "why_tests_cant": "any depth and shape of nesting", "anchors": ["pkg/bencode/elements.go:String"]}
{"id": "C96", "title": "The printed metadata is what the torrent file says", "statement": "The text shown for a torrent file lists its name, total length, piece length, files with paths and sizes, comment, author, date, trackers and web seeds, each present iff the document has it, and a base64url text that decodes to the info hash.", "quantifier": "every accepted torrent file", "why_tests_cant": "all documents and combinations of optional fields", "anchors": ["pkg/bencode/tag_parser.go:Metainfo.String", "pkg/bencode/tag_parser.go:printValue"]}
{"id": "C97", "title": "Sizes are shown right to one decimal", "statement": "A number of bytes is shown in the largest binary unit that is not larger than it, as the nearest number of tenths of the unit, and the number shown is below 1024.", "quantifier": "every number of bytes a uint64 can hold", "why_tests_cant": "2^64 sizes, with the roundings of float64 in between", "anchors": ["pkg/stats/progress_printer.go:Print"]}
{"id": "C98", "title": "The progress line tells the state of the download", "statement": "The line shows the percentage of the torrent downloaded rounded to the nearest percent, the bytes downloaded and left, the mean speed in MB/s to one decimal, and the numbers of peers and trackers.", "quantifier": "every size, all counters and elapsed times", "why_tests_cant": "all combinations of counters, float64 rounding included", "anchors": ["pkg/stats/progress_printer.go:Print", "pkg/stats/stats.go:Speed", "pkg/stats/stats.go:PercentCompleted", "pkg/stats/progress_bar.go:progressBar"]}
{"id": "C99", "title": "Messages have the bytes the protocol prescribes", "statement": "Every message the client can build is written as BEP 3 prescribes: a four byte length of what follows, the message id and the payload.", "quantifier": "every message constructor, all arguments and piece sets", "why_tests_cant": "all indexes, offsets and lengths, piece sets of any size", "anchors": ["pkg/util/peer_message.go:CreateInterestedMessage", "pkg/util/peer_message.go:createHaveMessage", "pkg/util/peer_message.go:createCancelMessage", "pkg/util/peer_message.go:createBitfieldMessage"]}
{"id": "C100", "title": "A peer receives whole messages", "statement": "The bytes a peer receives from us are the messages we wrote to it, one after another, and at most the beginning of one more at the end.", "quantifier": "every schedule, every pattern of failed and partial writes", "why_tests_cant": "all ways in which writes can be cut short, in all interleavings", "anchors": ["pkg/peer/peer.go:Run", "pkg/peer/peer.go:unchoke", "pkg/gotitnet/connection.go:WriteMsg"]}
{"id": "C101", "title": "Reading a message takes memory in proportion to what arrives", "statement": "The buffers made for reading one message are no larger than the bytes that arrive, up to a constant that does not depend on what the peer sends.", "quantifier": "every byte stream and segmentation", "why_tests_cant": "all headers; a test with the worst one would need 4 GiB", "anchors": ["pkg/gotitnet/connection.go:readExactly", "pkg/gotitnet/connection.go:ReadPeerMessage"]}
{"id": "C102", "title": "The pieces noted for a peer take memory in proportion to what it sends", "statement": "The set of pieces kept for a peer has at most as many places as the torrent has pieces and the peer has sent bits, up to one machine word.", "quantifier": "every schedule and message sequence", "why_tests_cant": "all message sequences; the worst index needs a set of 2^32 places", "anchors": ["pkg/peer/peer.go:handlePeerMessage", "pkg/util/peer_message.go:createBitset"]}
{"id": "C103", "title": "Trackers are left alone between announces", "statement": "After a successful announce, and after every fifth failure in a row, a tracker is not asked again before its interval has passed; after the other failures not before 1, 2, 4 and 8 seconds.", "quantifier": "every execution of a tracker goroutine with a clock, whatever the others do", "why_tests_cant": "real time, all patterns of failures", "anchors": ["pkg/download/manager.go:announceToTracker", "pkg/download/manager.go:runTracker", "pkg/tracker/tracker.go:WaitInterval"]}
{"id": "C104", "title": "Announces are made in time", "statement": "When the interval of a tracker has passed it is asked again within a minute.", "quantifier": "every execution of a tracker goroutine with a clock", "why_tests_cant": "depends on how long any number of peers take to answer", "anchors": ["pkg/download/manager.go:runTracker", "pkg/download/manager.go:initPeers"]}
{"id": "C105", "title": "Connection attempts are spaced", "statement": "Attempts to connect to an address are at least half a second apart, the time doubling with each.", "quantifier": "every execution of a tracker goroutine with a clock", "why_tests_cant": "real time, all failure patterns", "anchors": ["pkg/download/manager.go:startPeerDownload"]}
{"id": "C106", "title": "Addresses of a reply do not wait for each other", "statement": "Every address of a reply is taken up within a minute of the reply.", "quantifier": "every execution of a tracker goroutine with a clock, replies of any length", "why_tests_cant": "real time, replies of any length", "anchors": ["pkg/download/manager.go:initPeers", "pkg/download/manager.go:startPeerDownload", "pkg/gotitnet/connection.go:NewTimeoutConn"]}
{"id": "C107", "title": "No data races", "statement": "Whenever two goroutines touch the same variable and one of them writes it, the Go memory model orders the two accesses.", "quantifier": "every interleaving of main, signal handler, printer, writer, any number of tracker and peer goroutines; every outcome of their conditions; every variable they share", "why_tests_cant": "the race detector sees one schedule; here all of them, with any number of goroutines", "anchors": ["pkg/download/manager.go:Stop", "pkg/download/manager.go:AddPeer", "pkg/download/manager.go:initPeers", "pkg/peer/peer.go:connect", "pkg/peer/peer.go:Close", "pkg/peer/peer.go:Run", "pkg/torrent/pieces_queue.go", "pkg/torrent/torrent.go:Next"]}
{"id": "C108", "title": "The wait group is used as documented", "statement": "Every Add for a peer happens before the Wait of Download.", "quantifier": "every interleaving of the goroutines", "why_tests_cant": "depends on the schedule; a test waits for what it happened to start", "anchors": ["pkg/download/manager.go:startPeerDownload", "pkg/download/manager.go:waitPeers", "pkg/download/manager.go:Download"]}
{"id": "C109", "title": "A finished download is the torrent's content", "statement": "When the download is done, the files, one after the other and cut into pieces, have the SHA-1 hashes of the metainfo.", "quantifier": "every metainfo New accepts, every SHA-1 function without collisions in the run, every interleaving of peers and writer, every data the peers send, every pattern of failing file writes", "why_tests_cant": "any peers, any order of messages, any data; a test runs one download", "anchors": ["pkg/torrent/torrent.go:WritePiece", "pkg/torrent/torrent.go:writePieceData", "pkg/torrent/torrent.go:Done", "pkg/download/manager.go:Download"]}
{"id": "C110", "title": "Connections no longer used are closed", "statement": "An open connection belongs to a peer which is being announced to or is running; at most one for each peer.", "quantifier": "every interleaving of trackers, peers, dials, handshake failures and Stop, any number of peers", "why_tests_cant": "the leak needs failed handshakes or ended peers and grows with their number; no assertion sees open descriptors", "anchors": ["pkg/peer/peer.go:connect", "pkg/peer/peer.go:Announce", "pkg/peer/peer.go:Run", "pkg/peer/peer.go:Close", "pkg/download/manager.go:startPeerDownload", "pkg/download/manager.go:Stop"]}
{"id": "C111", "title": "Trackers hear started once, then completed and stopped", "statement": "An HTTP tracker that has replied is never told event=started again, is told completed after the last piece and stopped before the process ends.", "quantifier": "every execution of the whole client: any trackers, peers, replies, schedules", "why_tests_cant": "needs a whole download with several announce rounds and the end of the process; tests look at one query", "anchors": ["pkg/tracker/http_tracker.go:Announce", "pkg/tracker/http_tracker.go:buildQuery", "pkg/download/manager.go:announceToTracker", "pkg/download/manager.go:Stop", "pkg/cmd/download.go:runDownload"]}
{"id": "C112", "title": "Announced numbers describe the download", "statement": "Announced downloaded and left add up to the torrent's length and left is 0 only when all pieces are stored; hash, peer id and port are those of this download.", "quantifier": "every interleaving of the loads of an announce with the writer, any messages of peers, HTTP and UDP trackers", "why_tests_cant": "the three loads of one announce interleave with the writer; duplicates depend on the peers", "anchors": ["pkg/download/manager.go:announceToTracker", "pkg/stats/stats.go:AddDownload", "pkg/torrent/torrent.go:WritePiece", "pkg/tracker/http_tracker.go:buildQuery", "pkg/tracker/udp_tracker.go:Announce"]}
{"id": "C113", "title": "Messages are exchanged only after the handshake", "statement": "A peer runs only after its connection delivered a handshake with the torrent's hash, at most once, and its address came from a tracker.", "quantifier": "every execution of the whole client: any replies, connections, segmentations, schedules", "why_tests_cant": "relates announce, pool, dial, handshake and message loop over all schedules", "anchors": ["pkg/peer/peer.go:Announce", "pkg/peer/peer.go:Run", "pkg/download/manager.go:startPeerDownload", "pkg/download/manager.go:AddPeer"]}
{"id": "C114", "title": "Only addresses from the tracker's replies are dialled", "statement": "The goroutine of a tracker adds to the pool and connects to only addresses which replies of that tracker contained before.", "quantifier": "every execution of the whole client: any number of trackers, any replies, schedules", "why_tests_cant": "any number of trackers and rounds; a test sees the addresses it planted", "anchors": ["pkg/download/manager.go:initPeers", "pkg/download/manager.go:runTracker", "pkg/peer/peer.go:connect"]}
{"id": "C115", "title": "A download works with peers that answer requests", "statement": "There is an execution completing the download in which peers send pieces only after a request.", "quantifier": "every execution of the whole client whose peers send a piece only after being asked", "why_tests_cant": "that no schedule and no replies lead to a download cannot be tested", "anchors": ["pkg/peer/peer.go:Run", "pkg/peer/peer.go:nextRequestMessage", "pkg/download/manager.go:Download", "pkg/torrent/torrent.go:WritePiece"]}
{"id": "C116", "title": "A signal ends the process with status 0", "statement": "After SIGINT or SIGTERM the process ends with status 0, whatever trackers and peers do.", "quantifier": "every execution of the whole client and every fair continuation after the signal", "why_tests_cant": "termination over all fair schedules; the panic needs an unreachable peer in the pool at the end", "anchors": ["pkg/cmd/app.go:NewCmdRun", "pkg/cmd/download.go:runDownload", "pkg/download/manager.go:Download", "pkg/download/manager.go:Stop", "pkg/peer/peer.go:Close"]}
{"id": "C117", "title": "The process never crashes", "statement": "Whatever trackers and peers send and whenever a signal arrives, no goroutine of a download panics.", "quantifier": "every execution of the whole client: all replies, messages, signals and interleavings", "why_tests_cant": "all causes at once, some of them races of a few instructions", "anchors": ["pkg/download/manager.go:Stop", "pkg/download/manager.go:AddPeer", "pkg/download/manager.go:Download", "pkg/torrent/torrent.go:WritePiece", "pkg/torrent/torrent.go:CheckPiece", "pkg/peer/peer.go:Run", "pkg/util/peer_message.go:NewPeerMessage", "pkg/tracker/http_tracker.go:Announce", "pkg/stats/progress_bar.go:progressBar"]}
{"id": "C118", "title": "Bytes on disk come from peers of the torrent", "statement": "While a download runs, each byte of the torrent's files is 0 or a byte of a piece message whose data has the SHA-1 the torrent gives for its piece index. The message was read from a peer that had sent a handshake with the torrent's info hash, and the peer's address was in a reply of a tracker. The byte stands where the message's index and offset put it. No other file changes.", "quantifier": "every execution of the whole client, every torrent with distinct files and piece length below 2^30, all replies of trackers, messages of peers, results of file writes and interleavings", "why_tests_cant": "joins tracker, pool, handshake, hash check, channel and writer over all interleavings and short writes; a test sees one download", "anchors": ["pkg/torrent/torrent.go:New", "pkg/torrent/torrent.go:WritePiece", "pkg/torrent/torrent.go:writePieceData", "pkg/torrent/torrent.go:CheckPiece", "pkg/peer/peer.go:handlePieceMessage", "pkg/peer/peer.go:Announce", "pkg/download/manager.go:AddPeer", "pkg/tracker/http_tracker.go:Announce"]}
{"id": "C119", "title": "A download is of the torrent in the file given", "statement": "For `gotit download -o dir file`, announces go only to the http and https trackers the document in the file names, each from one goroutine, with the SHA-1 of the document's own info bytes as info_hash. Peers are dialled only at addresses these trackers replied, and messages are read only from a peer whose handshake has that hash. Only the files the document names below dir change, and each byte in them is unchanged, 0, or came from such a peer in a piece with the hash the document gives. The other commands change no file and contact nobody.", "quantifier": "every command line, config file, torrent document, file system, order of the trackers and execution of the whole process", "why_tests_cant": "joins reading, parsing, paths, hash, announces, pool, handshake and writing over all documents and interleavings; a test fixes one document and one run", "anchors": ["pkg/cmd/download.go:runDownload", "pkg/torrent/torrent.go:New", "pkg/torrent/torrent.go:CheckPiece", "pkg/download/manager.go:runTracker", "pkg/tracker/http_tracker.go:Announce", "pkg/peer/peer.go:Announce"]}
{"id": "C120", "title": "A download started again continues", "statement": "Starting the same download again after the process ended keeps what the first process stored.", "quantifier": "every first execution of the whole process, every command line and torrent", "why_tests_cant": "relates two processes through the file system for every first execution", "anchors": ["pkg/torrent/torrent.go:New", "pkg/torrent/torrent.go:initDownloadDir", "pkg/cmd/download.go:runDownload", "pkg/tracker/http_tracker.go:Announce"]}
{"id": "C121", "title": "Trackers are announced to again and again", "statement": "As long as the process runs and is not interrupted, there is always a next announce to every tracker with an http, https or udp URL, whatever the trackers answer or however announces fail.", "quantifier": "every torrent, every endless interleaving in which main and the goroutine of the tracker get turns, timers expire and announces return, and all outcomes of announces, dials and handshakes", "why_tests_cant": "a statement about endless executions; the counterexample needs a socket that does not open at the first attempt", "anchors": ["pkg/download/manager.go:runTracker", "pkg/download/manager.go:announceToTracker", "pkg/download/manager.go:initPeers", "pkg/tracker/tracker.go:New"]}
{"id": "C122", "title": "A tracker gets back the tracker id it gave", "statement": "After a tracker's reply with a \"tracker id\", all later announces to this tracker carry that id as trackerid.", "quantifier": "every execution of the whole client, every reply with a tracker id and all later announces", "why_tests_cant": "relates a reply to every later announce over all interleavings", "anchors": ["pkg/tracker/http_tracker.go:newHttpTracker", "pkg/tracker/http_tracker.go:buildQuery", "pkg/tracker/http_tracker.go:readPeers", "gotit.go:AnnounceResponse"]}
{"id": "C123", "title": "A peer that asks is served", "statement": "A peer in Run that asks for a block of a piece which is downloaded is sent the block before the process ends with status 0.", "quantifier": "every execution of the whole client, every peer and request, all messages of peers and interleavings", "why_tests_cant": "that no message of any execution is a piece or an unchoke needs all executions", "anchors": ["pkg/peer/peer.go:handlePeerMessage", "pkg/peer/peer.go:Run", "pkg/peer/peer.go:SendUnchoke", "pkg/peer/peer.go:unchoke"]}
{"id": "C124", "title": "When every piece has arrived the files are complete", "statement": "Once peers in Run have handed data of the right length for every piece of the torrent to the writer, and the writer has had four turns for each message handed to it, every piece of the files on disk has the hash in the torrent file, provided that no two different data read have the same hash, writes succeed and the process still runs.", "quantifier": "every torrent file (also with a short last piece, one or many files), every execution of the whole program, all messages of peers and interleavings", "why_tests_cant": "whether later messages can undo an already written piece depends on all messages of all peers; a test has some", "anchors": ["pkg/peer/peer.go:handlePeerMessage", "pkg/torrent/torrent.go:WritePiece", "pkg/torrent/torrent.go:writePieceData"]}
{"id": "C125", "title": "The exit status before a download begins", "statement": "Whatever the command line, configuration file, torrent file and answers of the operating system are, the process ends with status 0 or 1 if it does not begin to download; it does not crash.", "quantifier": "all commands, configurations, torrent files and outcomes of stat, reading, mkdir and creating files", "why_tests_cant": "the files on which it crashes are a set described by a grammar, tests have a few of them", "anchors": ["pkg/cmd/app.go:NewApp", "pkg/cmd/download.go:runDownload", "pkg/cmd/bencode.go:run", "pkg/bencode/tag_parser.go:Unmarshal", "pkg/bencode/parse.go:readString", "pkg/torrent/torrent.go:New", "pkg/torrent/torrent.go:initDownloadDir"]}
{"id": "C126", "title": "The pause between announces to a tracker", "statement": "After a successful announce whose HTTP reply names an interval of n seconds, the tracker is not announced to again for n seconds; a reply without an interval leaves the interval as it was, which is a minute at first.", "quantifier": "all executions of the whole client with times for the steps, all replies, all trackers", "why_tests_cant": "overflow of n times 10^9, replies without an interval, and the last reply that counts among any number of failed ones", "anchors": ["pkg/tracker/tracker.go:WaitInterval", "pkg/tracker/http_tracker.go:newHttpTracker", "pkg/tracker/http_tracker.go:readPeers", "pkg/tracker/udp_tracker.go:newUdpTracker", "pkg/tracker/udp_tracker.go:parseTrackerResponse", "pkg/download/manager.go:runTracker"]}
{"id": "C127", "title": "Deeply nested data", "statement": "There is a size of the stack (in nested calls of readList and readDict) with which the parser reads every document, as there would be with a limit on the nesting.", "quantifier": "all data, all sizes of the stack", "why_tests_cant": "the data that exceed the stack of Go have millions of levels; exactly which data exceed a stack, also data that turn out not to be bencode later, is a statement about all of them", "anchors": ["pkg/bencode/parse.go:Next", "pkg/bencode/parse.go:readList", "pkg/bencode/parse.go:readDict", "pkg/bencode/parse.go:Parse"]}
{"id": "C128", "title": "Addresses of peers written as text", "statement": "The ip of an entry of a peers list (BEP 3: an IPv6 address, an IPv4 address or the name of a host) becomes the address of that peer.", "quantifier": "all texts of ip and port, all addresses", "why_tests_cant": "infinitely many spellings of 2^128 addresses; exactly which texts are addresses and that no name of a host is one are statements about all of them", "anchors": ["pkg/tracker/http_tracker.go:parseBencodePeers", "pkg/download/manager.go:AddPeer"]}
{"id": "C129", "title": "One host, one peer", "statement": "A host with a port is added to the pool of peers once, however trackers write its address.", "quantifier": "all addresses and spellings, all schedules of the trackers", "why_tests_cant": "every pair of spellings from any trackers in any order", "anchors": ["pkg/tracker/http_tracker.go:parseBencodePeers", "pkg/download/manager.go:AddPeer"]}
{"id": "C130", "title": "A failing command says why", "statement": "A download command that fails before the download begins says why: what it writes differs for different reasons.", "quantifier": "all configurations, files and answers of the operating system, all pairs of reasons", "why_tests_cant": "every combination of failing system calls and contents of the torrent file", "anchors": ["pkg/cmd/app.go:NewCmdRun", "pkg/printer/printer.go:Fatal", "pkg/cmd/download.go:runDownload", "pkg/cmd/bencode.go:run"]}
{"id": "C131", "title": "The version command", "statement": "gotit version prints the version, the commit and the build, whatever configuration files there are.", "quantifier": "all configuration files, version strings and files", "why_tests_cant": "depends on the files of the user in $HOME and the working directory", "anchors": ["pkg/cmd/version.go:NewVersionCommand", "pkg/cmd/app.go:NewApp", "pkg/cmd/app.go:initConfig"]}
{"id": "C132", "title": "The protocol of a tracker", "statement": "tracker.New makes an HTTP tracker exactly for URLs whose scheme is http or https and a UDP tracker exactly for those with udp, in upper or lower case (RFC 3986); every other text is an error.", "quantifier": "all texts of announce URLs", "why_tests_cant": "infinitely many texts; that nothing else gets a tracker is a statement about all of them", "anchors": ["pkg/tracker/tracker.go:New"]}
{"id": "C133", "title": "The command line of the usage text", "statement": "The command line the help of the download command shows, download -out <out_dir> <torrent_file>, downloads the torrent of that file into that directory.", "quantifier": "all directories and files whose names do not begin with '-'", "why_tests_cant": "it is about every directory and file; there is no test of the command line", "anchors": ["pkg/cmd/download.go:NewDownloadCommand"]}
{"id": "C134", "title": "Options in any form and order", "statement": "Options may stand before or after the file, in any order and in each of the forms --name=value, --name value, -nvalue, -n=value, -n value, switches combined; of an option given twice the last counts; a download begins exactly if the words can be read so, the output directory is given, there is one file and help is not asked for. Likewise bencode and version.", "quantifier": "all lists of words after the name of the command", "why_tests_cant": "infinitely many lists of words", "anchors": ["pkg/cmd/download.go:NewDownloadCommand", "pkg/cmd/bencode.go:NewCommand", "pkg/cmd/version.go:NewVersionCommand", "pkg/cmd/app.go:NewApp"]}
{"id": "C135", "title": "Numbers on the command line", "statement": "A number written with digits after --port (or --num-peer) is that decimal number, and nothing but numbers is accepted.", "quantifier": "all texts given as a number", "why_tests_cant": "infinitely many texts, and the exceptions are rare ones (a leading zero)", "anchors": ["pkg/cmd/download.go:NewDownloadCommand"]}
{"id": "C136", "title": "The announced port", "statement": "The port told to trackers is a port: between 1 and 65535.", "quantifier": "all command lines, torrents, environments and executions", "why_tests_cant": "depends on the number given by the user; tests use one", "anchors": ["pkg/cmd/download.go:NewDownloadCommand", "pkg/download/manager.go:announceToTracker", "pkg/tracker/http_tracker.go:Announce"]}
{"id": "C137", "title": "Options before the command", "statement": "The options every command has (--log-level, --log-format, --config) may precede the name of the command with the same effect as after it.", "quantifier": "all such options with any values, all commands and further words", "why_tests_cant": "the exception needs a value equal to the name of the command", "anchors": ["pkg/cmd/app.go:NewApp"]}
{"id": "C138", "title": "Bencode as BEP 3 has it gives its value", "statement": "For every element written as BEP 3 prescribes (numbers without leading zeros, no -0, keys in order), followed by anything, Parse returns that element.", "quantifier": "all elements of any depth and width, all data after them", "why_tests_cant": "the failures depend on the sign and the size of one integer anywhere in an unbounded structure", "anchors": ["pkg/bencode/parse.go:number", "pkg/bencode/parse.go:readInt", "pkg/bencode/parse.go:Next"]}
{"id": "C139", "title": "Torrent files as the BEPs have them are accepted", "statement": "For every torrent file that follows BEP 3, BEP 12 (announce-list) and BEP 19 (url-list), gotit download begins the download if the output directory exists, the files can be created and the configuration can be read.", "quantifier": "all torrent files, environments, configurations", "why_tests_cant": "unbounded set of documents; unknown keys may hold anything", "anchors": ["pkg/bencode/tag_parser.go:Metainfo", "pkg/bencode/tag_parser.go:setField", "pkg/cmd/download.go:runDownload"]}
{"id": "C140", "title": "Web seeds are not announced to", "statement": "Announces go only to the announce URL and the URLs of announce-list, never to those of url-list.", "quantifier": "all torrents, all executions", "why_tests_cant": "needs all interleavings of all tracker goroutines", "anchors": ["pkg/torrent/torrent.go:New", "pkg/download/manager.go:getIps"]}
{"id": "C141", "title": "Tiers of trackers are tried in order", "statement": "As BEP 12 says, a tracker of a tier is asked only after all of the tiers before it were asked without success, and announce is not used if there is an announce-list.", "quantifier": "all torrents, all executions", "why_tests_cant": "the order depends on the scheduler and on the order in which Go visits a map", "anchors": ["pkg/torrent/torrent.go:New", "pkg/download/manager.go:getIps", "pkg/download/manager.go:runTracker"]}
{"id": "C142", "title": "A torrent with UDP trackers only can get peers", "statement": "For every torrent with a udp tracker there is an execution in which a peer is dialled.", "quantifier": "all torrents, all executions, all replies", "why_tests_cant": "that there is no such execution is a statement about all replies and all schedules", "anchors": ["pkg/tracker/udp_tracker.go:Announce", "pkg/tracker/udp_tracker.go:readAnnounce", "pkg/download/manager.go:runTracker"]}
{"id": "C143", "title": "A torrent of one empty file gives an empty file", "statement": "When the download of a torrent with length 0 and without files begins, there is an empty file of its name in the output directory.", "quantifier": "all such torrents, all environments, all executions", "why_tests_cant": "that no file is ever created is a statement about all executions", "anchors": ["pkg/torrent/torrent.go:New", "pkg/torrent/torrent.go:initDownloadDir", "pkg/bencode/tag_parser.go:Metainfo"]}
{"id": "C144", "title": "Torrents whose numbers make no sense are refused", "statement": "A download begins only if the piece length is positive, no length is negative and there are as many hashes as pieces.", "quantifier": "all torrents, all environments", "why_tests_cant": "unbounded set of numbers; that none is checked is a statement about all", "anchors": ["pkg/torrent/torrent.go:New", "pkg/cmd/download.go:runDownload"]}
{"id": "C145", "title": "The text of announce URLs", "statement": "In the query of an announce URL every letter, digit, -, ., _ and ~ stands for itself, a space is +, every other byte is % and two capital hexadecimal digits. Pairs key=value are separated by &, so there is one way to write an announce.", "quantifier": "all byte strings as hash, ids and event, all counters and ports, every announce URL without a query", "why_tests_cant": "256 byte values in all positions; tests see hashes of a few torrents", "anchors": ["pkg/tracker/http_tracker.go:Announce", "pkg/tracker/http_tracker.go:buildQuery"]}
{"id": "C146", "title": "Announces read by RFC 3986", "statement": "A tracker that undoes percent-escapes as in RFC 3986, where a plus sign is a plus sign, reads the torrent's info hash and the client's peer id.", "quantifier": "every info hash and peer id, all counters and ports, every announce URL without a query", "why_tests_cant": "only hashes with the byte 32 fail, one torrent in thirteen", "anchors": ["pkg/tracker/http_tracker.go:Announce", "pkg/tracker/http_tracker.go:buildQuery"]}
{"id": "C147", "title": "Order of keys and unknown keys of a torrent file", "statement": "Two torrent files whose dictionaries have the same values for the keys announce, announce-list, url-list, info, comment, created by, creation date and encoding give the same download, exit status and files, whatever the order of keys, the other keys and what follows the dictionary.", "quantifier": "all pairs of files, both commands that read one, every file system and configuration", "why_tests_cant": "all permutations and additions of keys, with values of any depth", "anchors": ["pkg/bencode/tag_parser.go:processTarget", "pkg/bencode/parse.go:readDict", "pkg/cmd/download.go:runDownload", "pkg/torrent/torrent.go:New"]}
{"id": "C148", "title": "Unknown keys of the info dictionary", "statement": "Two torrent files whose info dictionaries have the same values for files, length, name, piece length and pieces, and the same path and length in every entry of files, give the same download but for the info hash: each is the SHA-1 of its own info bytes.", "quantifier": "all pairs of files, every file system and configuration, every hash function", "why_tests_cant": "all additional keys and orders of keys, at two levels", "anchors": ["pkg/bencode/tag_parser.go:setField", "pkg/bencode/tag_parser.go:Hash", "pkg/cmd/download.go:runDownload", "pkg/torrent/torrent.go:New"]}
{"id": "C149", "title": "The order of blocks does not matter", "statement": "What is in the files and which pieces are recorded depend only on which blocks were stored, not on the order in which they came nor on how often each came, if blocks agree where they overlap.", "quantifier": "every torrent of one or several files, all sequences of blocks with the same members, all peers and schedules, no failing file writes", "why_tests_cant": "all permutations and repetitions of the blocks of a torrent under all interleavings of the peers", "anchors": ["pkg/torrent/torrent.go:WritePiece", "pkg/torrent/torrent.go:writePieceData", "pkg/peer/peer.go:handlePieceMessage"]}
{"id": "C150", "title": "Two finished downloads have the same files", "statement": "When all pieces are recorded and every piece came whole, each file has exactly its declared length and the pieces of the files have the hashes of the torrent file. So two such downloads of one torrent have the same files, wherever and from whomever they were made.", "quantifier": "every torrent whose pieces fill its files, all peers, schedules and failing file writes, every hash function without collisions among the pieces", "why_tests_cant": "pairs of complete downloads under different schedules and failures", "anchors": ["pkg/torrent/torrent.go:WritePiece", "pkg/torrent/torrent.go:writePieceData", "pkg/torrent/torrent.go:SetDownloaded", "pkg/peer/peer.go:handlePieceMessage"]}
{"id": "C151", "title": "Interested is said once", "statement": "A connection carries at most one interested message: the client tells a peer once that it is interested and then waits to be unchoked.", "quantifier": "every execution of any number of peers, every message sequence", "why_tests_cant": "needs a peer that keeps choking and talking; the count is over unbounded executions", "anchors": ["pkg/peer/peer.go:unchoke", "pkg/peer/peer.go:Run", "pkg/peer/peer.go:SendInterested"]}
{"id": "C152", "title": "A finished download stays finished", "statement": "A piece that has been recorded stays recorded, and once Done is true it stays true.", "quantifier": "every torrent, every execution", "why_tests_cant": "depends on messages that arrive after completion and on torrents with surplus hashes", "anchors": ["pkg/torrent/torrent.go:Done", "pkg/torrent/torrent.go:SetDownloaded", "pkg/torrent/torrent.go:WritePiece"]}
{"id": "C153", "title": "Messages that tell nothing change nothing", "statement": "Keep-alives, messages with ids BEP 3 does not know, requests and cancels leave the torrent, the files, the statistics, what is noted about the peer and every other peer as they were, and never crash the client.", "quantifier": "every state, every execution, every payload", "why_tests_cant": "all ids and payloads in all states", "anchors": ["pkg/peer/peer.go:handlePeerMessage", "pkg/peer/peer.go:Run", "pkg/util/peer_message.go:NewPeerMessage"]}
{"id": "C154", "title": "Accepted pieces are written", "statement": "The messages the writer writes are the accepted ones in the order of their acceptance, each once and none left out; each accepted message is written once the writer has had two turns for it and for each one before it, whatever the other goroutines do in between.", "quantifier": "every execution, every interleaving with at least that many turns of the writer and no crash", "why_tests_cant": "all interleavings of peers, writer, cancellation and Download", "anchors": ["pkg/torrent/torrent.go:WritePiece", "pkg/peer/peer.go:handlePieceMessage", "pkg/download/manager.go:Download"]}
{"id": "C155", "title": "Encode writes bencode as BEP 3 has it", "statement": "Encode of an element writes bencode as BEP 3 has it (keys in order, no leading zeros), and always the same text for the same element.", "quantifier": "every element, every order in which Go may go through the maps", "why_tests_cant": "Go's map order is random: a test sees one order per run", "anchors": ["pkg/bencode/elements.go:Encode", "pkg/bencode/elements.go:Add", "pkg/bencode/elements.go:Generate", "pkg/bencode/elements.go:List", "pkg/bencode/elements.go:Integer"]}
{"id": "C156", "title": "What of a tracker's reply matters", "statement": "The result of an HTTP announce depends on the status, the failure reason, the interval, and the ip and port of each entry of the list of peers, and on nothing else in the reply: not on the order of keys, further keys (of the reply or of an entry), or bytes after it.", "quantifier": "every two bencoded replies that agree in these, every status and every address parser", "why_tests_cant": "pairs of replies with any further keys, any order and any bytes at the end", "anchors": ["pkg/tracker/http_tracker.go:readPeers", "pkg/tracker/http_tracker.go:Announce", "gotit.go:AnnounceResponse", "pkg/bencode/unmarshal.go:Unmarshal"]}
{"id": "C157", "title": "IPv6 peers of a reply are used", "statement": "The peers of the key peers6 of a tracker's reply (BEP 7: 18 bytes for each) are among the addresses an HTTP announce returns.", "quantifier": "every reply with peers6, with and without peers", "why_tests_cant": "every reply, with any other keys", "anchors": ["pkg/tracker/http_tracker.go:readPeers", "gotit.go:AnnounceResponse"]}
{"id": "C158", "title": "Every torrent can be downloaded", "statement": "For every torrent made from a content as in BEP 3 there is an execution (some peers, some schedule) without a crash at whose end the torrent is Done and its files are that content.", "quantifier": "every content, file lengths and piece length (total up to 2^50 bytes); over all executions for the impossibility", "why_tests_cant": "that no execution at all finishes a torrent with a short last piece is a statement about all peers and schedules", "anchors": ["pkg/torrent/torrent.go:WritePiece", "pkg/torrent/torrent.go:writePieceData", "pkg/torrent/torrent.go:Done", "pkg/peer/peer.go:Run", "pkg/peer/peer.go:handlePieceMessage"]}
{"id": "C159", "title": "Data waits for the disk in bounded numbers, and nobody waits for ever", "statement": "Accepted messages that are not yet written number at most 1025 plus one for each peer. A peer goroutine that has not ended can always move, whatever its connection and the clock do, except while it hands over a message and the channel holds 1024; then two steps of the writer suffice to let it go on.", "quantifier": "every execution of the client with any number of peers; every state of a peer goroutine", "why_tests_cant": "bounds over all schedules, absence of any other blocking", "anchors": ["pkg/download/manager.go:Download", "pkg/peer/peer.go:handlePieceMessage", "pkg/peer/peer.go:Run", "pkg/torrent/torrent.go:WritePiece"]}
{"id": "C160", "title": "The program can download every torrent with an HTTP tracker, and no other", "statement": "For a torrent file that describes some content of length > 0 and for which the download command has started, there is a course of the whole process (trackers' replies, peers' messages, order of the goroutines, a signal at the end) that ends with exit status 0 and leaves in the torrent's files exactly that content, if and only if at least one of the tracker URLs is http or https.", "quantifier": "all documents, contents, numbers and lengths of files, piece lengths below 2^30 (the last piece may be short), output directories, orders of the trackers; for the 'no other' direction all schedules and replies", "why_tests_cant": "A test runs one torrent against one tracker and one peer; it cannot show that a successful course exists for every torrent, nor that for torrents without an HTTP tracker none of the infinitely many courses stores a byte.", "anchors": ["pkg/cmd/download.go:49-84", "pkg/download/manager.go:Download", "pkg/download/manager.go:runTracker", "pkg/download/manager.go:startPeerDownload", "pkg/peer/peer.go:Run", "pkg/torrent/torrent.go:WritePiece", "pkg/tracker/tracker.go:New"]}
{"id": "C161", "title": "Corrupt data has no effect", "statement": "A piece message whose data does not have the hash the torrent gives for its index has the same effect as a keep-alive, that is none: replace in a course of the whole program any such messages by keep-alives (or by messages the client does not act on, or the other way round) and the program ends in exactly the same state (files, torrent, statistics, peers, trackers), having sent the same to peers and trackers in between. Reading one such message changes nothing but the place in its loop of the goroutine that read it.", "quantifier": "every torrent file, every course of the program with any number of trackers and peers, any number of such messages at any places, every offset and data, every hash function", "why_tests_cant": "non-interference relates all pairs of executions; a test compares two", "anchors": ["pkg/peer/peer.go:handlePieceMessage", "pkg/peer/peer.go:handlePeerMessage", "pkg/peer/peer.go:Run", "pkg/torrent/torrent.go:CheckPiece"]}
{"id": "C162", "title": "Peers that send corrupt data are dropped", "statement": "There is a number n such that a peer all of whose messages are corrupt pieces, at least n of them, is not served any more.", "quantifier": "every torrent file, every course of the program, every number n", "why_tests_cant": "a test tries one n", "anchors": ["pkg/peer/peer.go:handlePieceMessage", "pkg/peer/peer.go:Run", "pkg/torrent/torrent.go:CheckPiece"]}
{"id": "C163", "title": "How TCP cuts up what peers send does not matter", "statement": "If in two courses the connections to peers deliver the same bytes, timeouts and ends in the same order, only cut into different pieces, then the same steps lead to the same state and the same events. What the client does with bytes on connections is exactly what it does when it is handed the messages they frame: each course over connections is a course over messages, and each course over messages of fewer than 2^32 bytes is one over connections.", "quantifier": "every state of the client, every schedule, every way to cut the bytes", "why_tests_cant": "a local connection delivers a message in one piece; there are 2^(n-1) ways to cut n bytes, times the schedules", "anchors": ["pkg/gotitnet/connection.go:ReadPeerMessage", "pkg/gotitnet/connection.go:ReadPeerHandshake", "pkg/gotitnet/connection.go:readExactly", "pkg/peer/peer.go:Announce", "pkg/peer/peer.go:Run"]}
{"id": "C164", "title": "Messages read from a peer are what arrived on its connection", "statement": "Each peer in Run has a connection that no other has. The first 68 bytes on it are a handshake for the torrent of the file, and the messages read from the peer follow them, each behind its length, in order; if no read deadline passed they follow without a gap. A byte of a file of the torrent is as it was before the download, zero, or a byte of a piece message with the right hash that arrived so on some connection.", "quantifier": "every torrent file, every course of the program, all bytes on all connections", "why_tests_cant": "it is about all bytes of all connections in all interleavings", "anchors": ["pkg/gotitnet/connection.go:ReadPeerMessage", "pkg/gotitnet/connection.go:ReadPeerHandshake", "pkg/peer/peer.go:Announce", "pkg/peer/peer.go:Run", "pkg/download/manager.go:initPeers"]}
{"id": "C165", "title": "Exactly what a peer hears from us", "statement": "After the handshake a peer gets nothing from us but keep-alives and interested messages, with at most one keep-alive before the first interested. Apart from timing (C91) that is all that can be said: whenever the torrent has something to download and an http or https tracker, every sequence of this kind is what some peer has got in some course of the program, and no other is.", "quantifier": "every torrent file, every course of the program, every peer; every finite sequence of messages", "why_tests_cant": "it characterises the set of all traces of a connection: that no other message ever occurs, and that each of infinitely many sequences can", "anchors": ["pkg/peer/peer.go:Run", "pkg/peer/peer.go:unchoke", "pkg/peer/peer.go:checkKeepAlive", "pkg/peer/peer.go:SendInterested"]}
{"id": "C166", "title": "One connected peer can complete a download", "statement": "As long as the process runs, no signal has come and some peer is still served by Run, the download is not lost: whatever trackers, peers and connections did before - corrupt pieces, failed reads and sends, peers gone - there is a continuation in which only that one peer and the writer take turns, after which each piece of the files has its hash and the process still runs. Data that came with the right hash must have been for the start of its piece, and hashes must not collide.", "quantifier": "every torrent with one hash per piece, every course of the program so far, every peer still in Run", "why_tests_cant": "it says of every reachable state, of which there are infinitely many, that a good continuation exists from it; a test sees single states", "anchors": ["pkg/peer/peer.go:Run", "pkg/peer/peer.go:unchoke", "pkg/peer/peer.go:handlePieceMessage", "pkg/torrent/torrent.go:WritePiece", "pkg/torrent/torrent.go:Done"]}
{"id": "C167", "title": "A running download can still be completed", "statement": "As long as the process runs and no signal has come, a download with an http or https tracker is never lost: whatever trackers, peers and connections did before - announces that failed, peers that could not be reached or that ended, corrupt data - there is a continuation without a signal after which each piece of the files has its hash and the process still runs, provided a tracker can name some address that was not added to the pool before. Data that came with the right hash must have been for the start of its piece, and hashes must not collide.", "quantifier": "every torrent with one hash per piece and an http or https URL, every course of the program so far without a signal, every address not used so far", "why_tests_cant": "it says of every reachable state of the trackers, the pool and the peers, of which there are infinitely many, that a good continuation exists from it; a test sees single states", "anchors": ["pkg/download/manager.go:runTracker", "pkg/download/manager.go:announceToTracker", "pkg/download/manager.go:initPeers", "pkg/download/manager.go:AddPeer", "pkg/peer/peer.go:Run"]}
{"id": "C168", "title": "A peer that was never reached and the end of the process", "statement": "If, before any signal, a peer was added to the pool and given up without a connection, or has an address that cannot be dialled, then the process can never end with status 0 any more, however many other peers are reached and whatever trackers and peers do later. If a signal then comes and the goroutines get their turns, the process ends by a panic, status 2: Stop closes the nil connection of that peer, if nothing else panicked before. Nothing else rules out status 0: as long as the process runs and no signal has come, there is a continuation that ends with status 0 if and only if there is no such peer, for every torrent whose lengths and positions fit Go's integers.", "quantifier": "every torrent, every course of the client without a signal, every continuation, every fair schedule after a signal", "why_tests_cant": "it excludes an outcome for every continuation of arbitrary length and says that the other outcome comes under every fair schedule; a test runs one schedule to one end", "anchors": ["pkg/download/manager.go:Stop", "pkg/download/manager.go:AddPeer", "pkg/download/manager.go:startPeerDownload", "pkg/peer/peer.go:Close", "pkg/peer/peer.go:Announce"]}
{"id": "C169", "title": "Complete files and status 0 can come together exactly if no peer was given up", "statement": "Whatever trackers and peers did so far: as long as the process started by download runs, no signal came and a peer is in Run, there is a continuation at whose end every piece of the torrent is on disk with its hash and the process has ended with status 0, if and only if no peer of the pool was given up without a connection and none without a connection has an address that cannot be dialled. So with one peer out of reach the files can still become complete (C166), but the process can then no longer end with status 0.", "quantifier": "every torrent of content that fits its hashes (with at most 2^50 bytes, pieces below 2^30 bytes and at most 2^32 of them), every file system and OS behaviour, every course of the process without a signal, every connected peer; as in C166 without hash collisions and with data of the right hash only sent for the start of its piece, and with distinct files of non-negative length", "why_tests_cant": "one half shows that from every reachable state of unbounded executions some continuation reaches the outcome, the other half excludes the outcome for every continuation; a test follows single executions", "anchors": ["pkg/peer/peer.go:Run", "pkg/download/manager.go:Download", "pkg/download/manager.go:Stop", "pkg/download/manager.go:AddPeer", "pkg/download/manager.go:startPeerDownload", "pkg/torrent/torrent.go:WritePiece", "pkg/peer/peer.go:Close"]}
{"id": "C170", "title": "A peer given by its host name does no harm", "statement": "BEP 3 lets a tracker give a peer by a DNS name instead of an address. A client may ignore such peers, so the expectation is: as long as the process started by download runs, had no signal and every peer that was given with an address is connected, it can still end with status 0. It is false: an entry of the peer list whose ip is no address (or whose port is no number) becomes a peer that can never be dialled, and once the peers of that reply were handled, every possible continuation lacks status 0; after a signal the process always ends with a panic, status 2, even if the download is complete.", "quantifier": "every torrent, every reply with such an entry that was read with success, every course of the process before and after it, every tracker and peer behaviour, every fair schedule after the signal", "why_tests_cant": "the claim excludes status 0 for all continuations of unbounded length and all interleavings after one reply; a test shows a single run", "anchors": ["pkg/tracker/http_tracker.go:parseBencodePeers", "pkg/download/manager.go:initPeers", "pkg/download/manager.go:AddPeer", "pkg/download/manager.go:startPeerDownload", "pkg/download/manager.go:Stop", "pkg/peer/peer.go:Close"]}
{"id": "C171", "title": "A download stopped before its first announce ends cleanly", "statement": "If SIGINT or SIGTERM arrives before any tracker goroutine has begun a round of announces, then no announce is ever sent, no peer is ever dialled, the files stay as torrent.New made them, no goroutine panics, and the process ends with status 0.", "quantifier": "every torrent, every set of trackers, every course of the process before the signal without a round of announces, every continuation (clean) and every fair one (status 0)", "why_tests_cant": "safety over all interleavings of main, trackers, writer and printer before and after the signal, and termination over all fair schedules; one step later the claim is false (C171_ex_late)", "anchors": ["pkg/cmd/app.go:NewCmdRun", "pkg/cmd/download.go:runDownload", "pkg/download/manager.go:Download", "pkg/download/manager.go:runTracker", "pkg/download/manager.go:Stop"]}
{"id": "C172", "title": "A second signal ends the process", "statement": "If the process is still running after SIGINT or SIGTERM, because peers, the writer or main have not come to their end, a second one ends it. It is false: every signal after the first changes nothing at all, so a course with any number of signals has the same state and the same events as the one with only the first.", "quantifier": "every torrent, every course of the process before and after the first signal, any number of further signals at any moments", "why_tests_cant": "equality of all executions with and without the further signals, over all interleavings; a test compares two", "anchors": ["pkg/cmd/app.go:NewCmdRun", "pkg/cmd/download.go:runDownload", "pkg/download/manager.go:Download"]}
{"id": "C173", "title": "A peer that was lost is connected to again", "statement": "When the connections to all peers have been lost and the download is not complete, a peer that a tracker names again is connected to again. It is false: once Run of every peer has returned or its announce has failed, and the trackers name only peers they named before, there is never again a dial, a handshake or a message with any peer, and an incomplete download stays incomplete, though the process goes on announcing.", "quantifier": "every torrent, every course of the process up to the moment no peer is left, every continuation in which the trackers name only known peers", "why_tests_cant": "that nothing ever happens again is a statement about all continuations of unbounded length; a test watches one for a while", "anchors": ["pkg/download/manager.go:AddPeer", "pkg/download/manager.go:initPeers", "pkg/download/manager.go:startPeerDownload"]}
