{
 "claims": [
  {
   "property": "C01",
   "status": "proved",
   "theorems": [
    "C01_parse_terminates"
   ],
   "note": "For all byte strings: the fuel 2*len+3 is never exhausted."
  },
  {
   "property": "C02",
   "status": "partial",
   "theorems": [
    "C02_parse_no_panic_refuted",
    "C02_parse_no_panic_partial",
    "C02_parse_panics_exact",
    "C02_panics_exact"
   ],
   "note": "REFUTED: Parse(\"9223372036854775807:\") panics (length overflows to -1). Proved: it panics on exactly the data where an element or key is expected and a string with such an overflowing length stands (C02_panics_exact); inputs without numbers above 922337203685477580 never panic."
  },
  {
   "property": "C03",
   "status": "proved",
   "theorems": [
    "C03_parse_accepts_exactly_bencode",
    "C03_parse_accepts_exactly_wrapped",
    "C03_grammar_unambiguous"
   ],
   "note": "Iff with an inductive grammar; second theorem drops the bound on numbers by giving digit strings their int64-wrapped value. Inputs up to 922337203685477580 bytes."
  },
  {
   "property": "C04",
   "status": "proved",
   "theorems": [
    "C04_raw_is_own_bytes",
    "C04_raw_top_level"
   ],
   "note": "For every list/dict at any depth, every input (also with wrapped numbers)."
  },
  {
   "property": "C05",
   "status": "proved",
   "theorems": [
    "C05_encode_parse_round_trip",
    "C05_round_trip_fails_outside_range",
    "C05_encode_total"
   ],
   "note": "Encode is a relation allowing every map iteration order."
  },
  {
   "property": "C06",
   "status": "proved",
   "theorems": [
    "C06_last_duplicate_wins"
   ],
   "note": ""
  },
  {
   "property": "C07",
   "status": "proved",
   "theorems": [
    "C07_truncation_detected"
   ],
   "note": "Error, not panic and not a value, for every proper prefix."
  },
  {
   "property": "C08",
   "status": "proved",
   "theorems": [
    "C08_only_first_element"
   ],
   "note": ""
  },
  {
   "property": "C09",
   "status": "proved",
   "theorems": [
    "C09_unmarshal_int_field",
    "C09_int_element_stored_iff_fits",
    "C09_signed_field_exact",
    "C09_unsigned_field_exact",
    "C09_literal_unique"
   ],
   "note": "All widths; text elements are read as Go base-0 integer literals, specified independently (radix/reads/sep_ok)."
  },
  {
   "property": "C10",
   "status": "proved",
   "theorems": [
    "C10_unmarshal_exact",
    "C10_missing_required_key_fails",
    "C10_untouched_fields",
    "C10_present_field_converted"
   ],
   "note": "Success and result coincide with an inductive conversion relation for every struct type over string, (u)int, slice, struct, map, pointer. nil and empty slices/maps identified."
  },
  {
   "property": "C11",
   "status": "partial",
   "theorems": [
    "C11_unmarshal_no_panic_refuted",
    "C11_unmarshal_panics_exact",
    "C11_unmarshal_no_panic_partial"
   ],
   "note": "REFUTED: Unmarshal of a well-formed non-dictionary (e.g. i5e) into a struct with a tagged field panics. Proved: exactly when it panics (map types keyed by strings); dictionaries never panic."
  },
  {
   "property": "C12",
   "status": "proved",
   "theorems": [
    "C12_info_hash_is_hash_of_file_bytes",
    "C12_info_hash_for_every_layout"
   ],
   "note": "sha1 universally quantified; the bytes are those of the last info entry as they stand in the file."
  },
  {
   "property": "C13",
   "status": "partial",
   "theorems": [
    "C13_frame_round_trip_refuted",
    "C13_frame_round_trip_partial",
    "C13_type_99_exact"
   ],
   "note": "REFUTED for bodies of the unassigned type 99, which are written as a bare length; proved for all other bodies."
  },
  {
   "property": "C14",
   "status": "partial",
   "theorems": [
    "C14_request_bytes_refuted",
    "C14_request_bytes_exact",
    "C14_request_right_only_for_zeros",
    "C14_request_accessors_partial"
   ],
   "note": "REFUTED: the three PutUint32 calls overwrite each other; the wire carries the block length and 8 zero bytes. Proved: the exact bytes, and that they are right only for index=offset=length=0."
  },
  {
   "property": "C15",
   "status": "partial",
   "theorems": [
    "C15_decode_no_panic_refuted",
    "C15_decode_panics_exact",
    "C15_decode_no_panic_partial"
   ],
   "note": "REFUTED by short have/request/cancel/piece bodies; proved: it panics exactly on those."
  },
  {
   "property": "C16",
   "status": "proved",
   "theorems": [
    "C16_have_fields",
    "C16_request_cancel_fields",
    "C16_piece_fields",
    "C16_other_fields"
   ],
   "note": ""
  },
  {
   "property": "C17",
   "status": "partial",
   "theorems": [
    "C17_bit_order_refuted",
    "C17_bit_order_exact",
    "C17_bit_order_partial"
   ],
   "note": "REFUTED: bits are reversed within each 64-bit word (proved exactly); right for all-ones payloads filling whole words."
  },
  {
   "property": "C18",
   "status": "proved",
   "theorems": [
    "C18_framing_independent_of_segmentation",
    "C18_same_bytes_same_outcome",
    "C18_incomplete_frame_is_an_error"
   ],
   "note": ""
  },
  {
   "property": "C19",
   "status": "partial",
   "theorems": [
    "C19_timeout_keeps_framing_refuted",
    "C19_timeout_drops_prefix_exact",
    "C19_body_taken_for_frames",
    "C19_timeout_between_frames_partial"
   ],
   "note": "REFUTED: a deadline inside a frame drops what had arrived of it and the next call starts mid-frame; proved exactly, and that timeouts between frames are harmless."
  },
  {
   "property": "C20",
   "status": "proved",
   "theorems": [
    "C20_new_pieces"
   ],
   "note": ""
  },
  {
   "property": "C21",
   "status": "proved",
   "theorems": [
    "C21_next_hands_out_once"
   ],
   "note": "Next runs under one mutex, so interleavings are sequences of calls; PiecesNum below 2^51 (the bitset can be allocated)."
  },
  {
   "property": "C22",
   "status": "proved",
   "theorems": [
    "C22_done_iff_all_marked",
    "C22_any_indices"
   ],
   "note": ""
  },
  {
   "property": "C23",
   "status": "proved",
   "theorems": [
    "C23_block_lands_at_its_position",
    "C23_failing_writes_store_a_prefix",
    "C23_disk_after_any_run",
    "C23_single_file_disk_after_any_run"
   ],
   "note": ""
  },
  {
   "property": "C24",
   "status": "partial",
   "theorems": [
    "C24_single_file_bounded_refuted",
    "C24_single_file_length_exact",
    "C24_multi_file_bounded_partial"
   ],
   "note": "REFUTED for single-file torrents (writes are unbounded; exact length proved); proved for multi-file torrents with distinct files."
  },
  {
   "property": "C25",
   "status": "partial",
   "theorems": [
    "C25_entries_at_their_paths_refuted",
    "C25_only_first_component_exact",
    "C25_flat_torrents_partial",
    "C25_empty_path_panics"
   ],
   "note": "REFUTED: only the first path component is used, so entries collide, and an empty path panics; proved for flat torrents."
  },
  {
   "property": "C26",
   "status": "partial",
   "theorems": [
    "C26_inside_download_dir_refuted",
    "C26_places_exact",
    "C26_inside_download_dir_partial"
   ],
   "note": "REFUTED: '..' in names leaves the directory; exact places proved; proved inside for names without '..' components."
  },
  {
   "property": "C28",
   "status": "partial",
   "theorems": [
    "C28_fully_stored_is_done_refuted",
    "C28_incomplete_not_recorded_refuted",
    "C28_marks_exact",
    "C28_short_last_piece_never_done",
    "C28_short_last_piece_never_done_single",
    "C28_full_length_pieces_done_partial"
   ],
   "note": "REFUTED both ways: a short last piece is never recorded (such torrents are never Done), and the last block alone records a piece; exact condition proved, and Done for torrents of full pieces."
  },
  {
   "property": "C29",
   "status": "proved",
   "theorems": [
    "C29_pieces_num_is_ceiling",
    "C29_length",
    "C29_beyond_2_53"
   ],
   "note": ""
  },
  {
   "property": "C30",
   "status": "proved",
   "theorems": [
    "C30_trackers"
   ],
   "note": ""
  },
  {
   "property": "C61",
   "status": "partial",
   "theorems": [
    "C61_new_torrent_not_done_refuted",
    "C61_new_torrent_not_done_exact",
    "C61_zero_piece_length",
    "C61_new_torrent_not_done_partial"
   ],
   "note": "REFUTED: piece length 0 makes PiecesNum negative and the torrent Done at once; proved for positive piece lengths."
  },
  {
   "property": "C62",
   "status": "partial",
   "theorems": [
    "C62_one_hash_per_piece_refuted",
    "C62_check_panics_exact"
   ],
   "note": "REFUTED: the number of hashes is not compared with PiecesNum; CheckPiece panics exactly beyond the hashes present."
  },
  {
   "property": "C31",
   "status": "proved",
   "theorems": [
    "C31_nothing_lost_or_duplicated",
    "C31_answers"
   ],
   "note": ""
  },
  {
   "property": "C32",
   "status": "proved",
   "theorems": [
    "C32_counters_conserved"
   ],
   "note": ""
  },
  {
   "property": "C33",
   "status": "partial",
   "theorems": [
    "C33_left_never_underflows_refuted",
    "C33_left_exact",
    "C33_left_never_underflows_partial"
   ],
   "note": "REFUTED: repeated blocks are counted again and Left wraps around; exact value proved, and the claim while no more than the size was received."
  },
  {
   "property": "C34",
   "status": "proved",
   "theorems": [
    "C34_percent_in_range",
    "C34_complete_is_100"
   ],
   "note": ""
  },
  {
   "property": "C35",
   "status": "partial",
   "theorems": [
    "C35_print_never_crashes_refuted",
    "C35_bar_exact",
    "C35_print_never_crashes_partial"
   ],
   "note": "REFUTED: from 105 percent on strings.Repeat gets a negative count; exact range proved for every int, and the claim while Download <= size."
  },
  {
   "property": "C63",
   "status": "partial",
   "theorems": [
    "C63_counted_is_stored_refuted",
    "C63_every_message_counts_exact"
   ],
   "note": "REFUTED: counted before and regardless of the write; exact count proved."
  },
  {
   "property": "C64",
   "status": "proved",
   "theorems": [
    "C64_percent_monotone",
    "C64_beyond_refuted"
   ],
   "note": "Also shown: beyond 2^53 it can fail."
  },
  {
   "property": "C27",
   "status": "partial",
   "theorems": [
    "C27_stored_in_place_refuted",
    "C27_only_verified_stored_partial",
    "C27_only_verified_stored_single_partial",
    "C27_writer_in_order"
   ],
   "note": "REFUTED: the offset of a piece message is not checked, so verified data is stored at piece position + offset, possibly inside another piece; refuted for every hash function with 20-byte output. Proved: every non-zero byte stored is the byte of a message whose data has the SHA-1 of its piece, at the position index*pieceLength+offset of that message; the writer handles exactly what the peers handed over, in order."
  },
  {
   "property": "C36",
   "status": "proved",
   "theorems": [
    "C36_accepted_iff",
    "C36_own_handshake",
    "C36_client_id",
    "C36_announce"
   ],
   "note": ""
  },
  {
   "property": "C37",
   "status": "proved",
   "theorems": [
    "C37_state_follows_messages"
   ],
   "note": ""
  },
  {
   "property": "C38",
   "status": "partial",
   "theorems": [
    "C38_unchoked_peer_asked_refuted",
    "C38_nothing_ever_requested",
    "C38_asked_if_interested_partial"
   ],
   "note": "REFUTED: ClientStatus.Interested is never set, so in every schedule only keep-alives and interested messages are ever written. Proved in addition: with the flag set, an unchoked peer is sent a request in two steps."
  },
  {
   "property": "C39",
   "status": "proved",
   "theorems": [
    "C39_one_outstanding"
   ],
   "note": "for the code as it is (never interested) and for the variant with the flag set"
  },
  {
   "property": "C40",
   "status": "partial",
   "theorems": [
    "C40_all_pieces_requested_refuted",
    "C40_only_piece_zero",
    "C40_one_piece_per_peer"
   ],
   "note": "REFUTED for the variant with the interested flag set (without it nothing is requested, C38): with pieces of 128 KiB or more only piece 0 is ever requested, whatever the schedule and number of peers; with smaller pieces at most one piece per peer of an announce round."
  },
  {
   "property": "C41",
   "status": "partial",
   "theorems": [
    "C41_requests_known_refuted",
    "C41_reserved_known_partial",
    "C41_reserved_once_partial"
   ],
   "note": "REFUTED for the variant with the interested flag set (without it there are no requests, C38): the first requests go to piece 0 without Next and without the peer having it. Proved: pieces reserved by Next were advertised by that peer, and are reserved once over all peers."
  },
  {
   "property": "C42",
   "status": "partial",
   "theorems": [
    "C42_claimed_piece_covered_refuted",
    "C42_requests_exact",
    "C42_covered_iff_partial",
    "C42_claimed_never_covered"
   ],
   "note": "REFUTED: the requests created are exactly characterised; they cover a piece iff its length is a positive multiple of 128 KiB, and a piece is only claimed when it is shorter than that, so a claimed piece is never covered exactly."
  },
  {
   "property": "C43",
   "status": "partial",
   "theorems": [
    "C43_cancelled_partial",
    "C43_no_request_after_cancel_refuted",
    "C43_done_partial",
    "C43_returns_when_done_refuted"
   ],
   "note": "REFUTED: one request can still follow the cancellation (variant with the interested flag set), and a goroutine in unchoke goes on without bound after the torrent is done. Proved: after cancellation at most nine more steps and one request, and no blocking unless the channel to the writer is full; after completion at most one request; completion is permanent."
  },
  {
   "property": "C65",
   "status": "proved",
   "theorems": [
    "C65_known_pieces"
   ],
   "note": ""
  },
  {
   "property": "C44",
   "status": "proved",
   "theorems": [
    "C44_compact_peers",
    "C44_every_string"
   ],
   "note": ""
  },
  {
   "property": "C45",
   "status": "partial",
   "theorems": [
    "C45_compact_reply_accepted_refuted",
    "C45_compact_reply_rejected",
    "C45_asks_compact_partial"
   ],
   "note": "REFUTED: the client asks for compact=1, but peers and compact peers share the key \"peers\", and decoding the string into the list of structures fails: every compact reply is an error."
  },
  {
   "property": "C46",
   "status": "partial",
   "theorems": [
    "C46_valid_addresses_refuted",
    "C46_peers_exact",
    "C46_valid_entries_partial"
   ],
   "note": "REFUTED: an entry whose ip or port does not parse leaves an invalid zero address in the result. What a reply yields is characterised exactly; addresses of entries that parse are right."
  },
  {
   "property": "C47",
   "status": "proved",
   "theorems": [
    "C47_udp_responses"
   ],
   "note": ""
  },
  {
   "property": "C48",
   "status": "partial",
   "theorems": [
    "C48_announce_request_refuted",
    "C48_never_bep15",
    "C48_announce_request_exact"
   ],
   "note": "REFUTED: binary.Write cannot encode a string, so the info hash is missing, and the port takes four bytes: the request has 80 bytes. The exact layout is proved."
  },
  {
   "property": "C49",
   "status": "partial",
   "theorems": [
    "C49_udp_announce_refuted",
    "C49_udp_announce_always_fails"
   ],
   "note": "REFUTED: ReadAll on a UDP socket only ends at the deadline, with an error, so Announce fails whatever datagrams arrive."
  },
  {
   "property": "C50",
   "status": "partial",
   "theorems": [
    "C50_no_panic_refuted",
    "C50_panics_exact",
    "C50_announce_no_panic_partial"
   ],
   "note": "REFUTED: exactly the responses shorter than four bytes panic. Proved: Announce never passes such a response, so it never panics."
  },
  {
   "property": "C60",
   "status": "partial",
   "theorems": [
    "C60_wait_positive_refuted",
    "C60_wait_positive_exact",
    "C60_sane_interval_partial",
    "C60_udp_wait_positive"
   ],
   "note": "REFUTED: a reply without interval, or with one not positive or above 9223372036 that wraps, gives no wait at all. Exact condition proved for HTTP and UDP."
  },
  {
   "property": "C66",
   "status": "proved",
   "theorems": [
    "C66_announce_query",
    "C66_query_round_trip"
   ],
   "note": ""
  },
  {
   "property": "C67",
   "status": "partial",
   "theorems": [
    "C67_url_with_query_refuted",
    "C67_url_with_query_exact",
    "C67_fragment_exact"
   ],
   "note": "REFUTED: a second question mark is inserted; the first key of the announce (compact) is swallowed by the last value of the given query. The exact query is proved. If the URL has a fragment the announce becomes part of it and nothing is sent (C67_fragment_exact)."
  },
  {
   "property": "C68",
   "status": "partial",
   "theorems": [
    "C68_http_no_panic_refuted",
    "C68_http_panics_exact"
   ],
   "note": "REFUTED: a reply that is not a dictionary panics (status 200). Exact condition proved."
  },
  {
   "property": "C69",
   "status": "proved",
   "theorems": [
    "C69_protocols"
   ],
   "note": ""
  },
  {
   "property": "C70",
   "status": "proved",
   "theorems": [
    "C70_udp_requests"
   ],
   "note": ""
  },
  {
   "property": "C54",
   "status": "partial",
   "theorems": [
    "C54_returns_when_done_refuted",
    "C54_only_when_cancelled",
    "C54_returns_when_cancelled_partial"
   ],
   "note": "REFUTED: in no schedule does Download return before the context is cancelled. Proved: once cancelled it returns under every fair schedule that starts no further peers, unless the process crashes."
  },
  {
   "property": "C55",
   "status": "partial",
   "theorems": [
    "C55_no_panic_after_cancel_refuted",
    "C55_closed_send_panics",
    "C55_all_ended_partial"
   ],
   "note": "REFUTED: wg.Wait can return before the first peer starts, so the channel is closed while a peer is about to send, which panics. Proved: without peers started after wg.Wait, all have ended when the channel is closed."
  },
  {
   "property": "C56",
   "status": "partial",
   "theorems": [
    "C56_written_refuted",
    "C56_few_missing_partial",
    "C56_bound_exact",
    "C56_drain_partial"
   ],
   "note": "REFUTED: Download does not wait for the writer. Proved: at most the latest 1025 messages are missing, in order, every number of them up to 1025 occurs, and the writer can still take them."
  },
  {
   "property": "C51",
   "status": "proved",
   "theorems": [
    "C51_add_peer",
    "C51_one_entry",
    "C51_added_once",
    "C51_keys_differ"
   ],
   "note": "for every schedule of any number of tracker goroutines; after Stop AddPeer panics instead (C71)"
  },
  {
   "property": "C52",
   "status": "partial",
   "theorems": [
    "C52_limit_refuted",
    "C52_unbounded"
   ],
   "note": "REFUTED: peerNum is never read; pools of every size are reached whatever the limit."
  },
  {
   "property": "C53",
   "status": "partial",
   "theorems": [
    "C53_stop_no_panic_refuted",
    "C53_all_closed_refuted",
    "C53_stop_exact",
    "C53_stop_again_partial"
   ],
   "note": "REFUTED: Stop panics exactly when a peer in the pool has a nil connection, and a connection replaced by a new attempt is never closed. Proved: the exact condition, otherwise all current connections are closed; Stop after Stop does nothing."
  },
  {
   "property": "C57",
   "status": "proved",
   "theorems": [
    "C57_announces",
    "C57_first_success",
    "C57_dials"
   ],
   "note": "for every schedule and every outcome of announces, dials and handshakes"
  },
  {
   "property": "C59",
   "status": "partial",
   "theorems": [
    "C59_peer_num_refuted",
    "C59_peer_num_partial"
   ],
   "note": "REFUTED after Stop, which drops the pool but not the count. Proved for every state before, modulo 2^64."
  },
  {
   "property": "C71",
   "status": "partial",
   "theorems": [
    "C71_no_panic_refuted",
    "C71_panics_exact"
   ],
   "note": "REFUTED: AddPeer writes to the nil map when a tracker answers after Stop. The exact condition is proved."
  },
  {
   "property": "C72",
   "status": "partial",
   "theorems": [
    "C72_working_refuted",
    "C72_peer_num_exact"
   ],
   "note": "REFUTED: peers that have ended are still counted. Exact value proved."
  },
  {
   "property": "C73",
   "status": "proved",
   "theorems": [
    "C73_after_cancel",
    "C73_ends"
   ],
   "note": "at most five more announces, five dials and one peer per tracker goroutine; ends under every schedule giving it turns, unless some goroutine panics"
  },
  {
   "property": "C74",
   "status": "partial",
   "theorems": [
    "C74_retried_refuted",
    "C74_never_again"
   ],
   "note": "REFUTED: failed peers stay in the pool, so no address is ever added a second time."
  },
  {
   "property": "C58",
   "status": "partial",
   "theorems": [
    "C58_documented_levels_refuted",
    "C58_accepted_exact",
    "C58_logger_exact",
    "C58_trace_warning_rejected",
    "C58_documented_levels_partial"
   ],
   "note": "REFUTED: trace and warning are documented but rejected, silent only in this spelling. The accepted strings are characterised exactly (ASCII strings)."
  },
  {
   "property": "C75",
   "status": "partial",
   "theorems": [
    "C75_log_flags_refuted",
    "C75_logger_fixed",
    "C75_flags_ignored"
   ],
   "note": "REFUTED: NewCmdRun makes the logger while the commands are built, before the flags are parsed, so it is always info/color."
  },
  {
   "property": "C76",
   "status": "partial",
   "theorems": [
    "C76_config_refuted",
    "C76_only_default_exact",
    "C76_broken_config",
    "C76_version_partial",
    "C76_initConfig_exact"
   ],
   "note": "REFUTED: the path is read before the flags are parsed, so --config is ignored; a broken .gotit makes every command fail."
  },
  {
   "property": "C77",
   "status": "partial",
   "theorems": [
    "C77_failure_changes_nothing_refuted",
    "C77_failure_changes_nothing_partial",
    "C77_left_behind_exact"
   ],
   "note": "REFUTED: when creating a later file fails, the earlier files stay created or emptied. Proved for all other failures; exactly what is left is proved."
  },
  {
   "property": "C78",
   "status": "partial",
   "theorems": [
    "C78_status_refuted",
    "C78_status_exact",
    "C78_not_started"
   ],
   "note": "REFUTED: Download returns nil only after cancellation, complete or not. Exact meaning of the status proved."
  },
  {
   "property": "C79",
   "status": "partial",
   "theorems": [
    "C79_prints_refuted",
    "C79_status_exact"
   ],
   "note": "REFUTED: nothing is printed (the calls are commented out). The exit status is characterised exactly."
  },
  {
   "property": "C80",
   "status": "proved",
   "theorems": [
    "C80_set_add",
    "C80_set_add_all",
    "C80_contains"
   ],
   "note": ""
  },
  {
   "property": "C81",
   "status": "proved",
   "theorems": [
    "C81_metainfo",
    "C81_started"
   ],
   "note": "documents of length < 2^63"
  },
  {
   "property": "C82",
   "status": "proved",
   "theorems": [
    "C82_no_request_while_choked"
   ],
   "note": "also for a variant of the code that becomes interested (the code itself never sends a request, see C38)"
  },
  {
   "property": "C83",
   "status": "proved",
   "theorems": [
    "C83_requests_conserved"
   ],
   "note": "as C82"
  },
  {
   "property": "C84",
   "status": "partial",
   "theorems": [
    "C84_request_survives_peer_refuted",
    "C84_lost_only_with_its_peer_partial"
   ],
   "note": "REFUTED (for a peer that asks, see C38): a peer that ends after sending a request takes it along. Proved: it is lost only with the peer that last took it."
  },
  {
   "property": "C85",
   "status": "partial",
   "theorems": [
    "C85_answered_not_asked_again_refuted",
    "C85_asked_again_after_error_partial"
   ],
   "note": "REFUTED (for a peer that asks, see C38): sentPieceMsg stays true after the answer, the next read error queues the answered request and it is sent again. Proved: a read error lies between two requests."
  },
  {
   "property": "C86",
   "status": "partial",
   "theorems": [
    "C86_printing_refuted",
    "C86_repeated_piece_crashes",
    "C86_printing_safe_partial"
   ],
   "note": "REFUTED: received bytes are counted again for a repeated piece, above 105 % strings.Repeat panics. Proved: peers knowing one non-empty piece can force it from any running state; printing is safe while no more bytes were counted than the torrent has."
  },
  {
   "property": "C87",
   "status": "proved",
   "theorems": [
    "C87_http_success",
    "C87_status",
    "C87_failure_reason"
   ],
   "note": ""
  },
  {
   "property": "C88",
   "status": "proved",
   "theorems": [
    "C88_all_offered"
   ],
   "note": "A panic of another goroutine (C71) ends the process before the list is finished; the theorem then gives the prefix offered so far."
  },
  {
   "property": "C89",
   "status": "proved",
   "theorems": [
    "C89_every_peer_tried",
    "C89_all_tried"
   ],
   "note": ""
  },
  {
   "property": "C90",
   "status": "partial",
   "theorems": [
    "C90_no_silence_partial",
    "C90_refuted",
    "C90_silence_exact"
   ],
   "note": "REFUTED: a send to the writer's channel blocks without limit, and nothing is written to the peer meanwhile (C90_silence_exact: silence of any length). Proved: below 120 s if no such send blocks and the scheduler is at most 0.5 s late."
  },
  {
   "property": "C91",
   "status": "partial",
   "theorems": [
    "C91_keepalive_partial",
    "C91_apart_partial",
    "C91_refuted"
   ],
   "note": "REFUTED: only connect and keep-alives set lastMsgSent, so a keep-alive may directly follow another message. Proved: written iff the last keep-alive (or connect) is 114 s old, and the distance of two."
  },
  {
   "property": "C92",
   "status": "partial",
   "theorems": [
    "C92_run_exact",
    "C92_refuted",
    "C92_unchoke_partial"
   ],
   "note": "REFUTED for Run: the Backoff is created anew in each turn, every wait is 100 ms. Proved for the waits inside one call of unchoke."
  },
  {
   "property": "C93",
   "status": "partial",
   "theorems": [
    "C93_unchoked_partial",
    "C93_refuted",
    "C93_choked_exact"
   ],
   "note": "REFUTED: a choked peer retries for ever in unchoke. Proved: an unchoked peer ends at most 116 s (and the lag) after the last keep-alive."
  },
  {
   "property": "C94",
   "status": "proved",
   "theorems": [
    "C94_no_busy_loop"
   ],
   "note": ""
  },
  {
   "property": "C95",
   "status": "partial",
   "theorems": [
    "C95_indented_refuted",
    "C95_text_exact",
    "C95_built_partial"
   ],
   "note": "REFUTED: elements of a parsed list or dictionary are pointers, which the type switch in the printer does not recognise as containers, so each nested one starts again at the margin. C95_text_exact says what is printed; C95_built_partial: the claim for elements built by hand."
  },
  {
   "property": "C96",
   "status": "partial",
   "theorems": [
    "C96_page",
    "C96_total_length_refuted",
    "C96_date_refuted",
    "C96_date_exact"
   ],
   "note": "REFUTED: a torrent of several files shows the length of an empty field as its length (C96_total_length_refuted), and a torrent without a creation date shows the date of second 0 (C96_date_refuted, C96_date_exact). Proved: everything else, for every accepted document; the formatting of sizes and dates is a parameter. An empty text and a piece length of 0 are shown as if absent."
  },
  {
   "property": "C97",
   "status": "partial",
   "theorems": [
    "C97_size_right",
    "C97_below_1024_refuted",
    "C97_below_1024_exact"
   ],
   "note": "REFUTED only for the last clause: 1048575 bytes are shown as 1024K. The upper half of the last tenth of each unit is shown so (C97_below_1024_exact). Everything else is proved; above 2^53 the rounding of float64 is allowed for."
  },
  {
   "property": "C98",
   "status": "proved",
   "theorems": [
    "C98_line_right",
    "C98_percent_right"
   ],
   "note": "The counters are read one after the other, so the line is exact for a state which does not change meanwhile; C98_percent_right allows the counter to grow."
  },
  {
   "property": "C99",
   "status": "partial",
   "theorems": [
    "C99_signals",
    "C99_have",
    "C99_cancel_refuted",
    "C99_cancel_exact",
    "C99_bitfield_refuted",
    "C99_bitfield_exact",
    "C99_bitfield_in_step_exact"
   ],
   "note": "REFUTED for cancel (the payload is the length, followed by eight zeros) and bitfield (header written twice, length in bits, words with the first piece last); neither is called by the client. Proved for the others; requests are C14."
  },
  {
   "property": "C100",
   "status": "partial",
   "theorems": [
    "C100_whole_messages_refuted",
    "C100_reads_choke_refuted",
    "C100_whole_messages_partial"
   ],
   "note": "REFUTED: when a write stops half-way the message is written again from its start on the same connection. Proved when failed writes send nothing; a keep-alive may be cut, Run returns after it."
  },
  {
   "property": "C101",
   "status": "partial",
   "theorems": [
    "C101_proportional_refuted",
    "C101_bound_exact",
    "C101_complete_partial"
   ],
   "note": "REFUTED: the buffer is made when the length has been read, 4 bytes make 4 GiB. Proved for messages which arrive completely."
  },
  {
   "property": "C102",
   "status": "partial",
   "theorems": [
    "C102_proportional_refuted",
    "C102_room_exact",
    "C102_proportional_partial"
   ],
   "note": "REFUTED: a have message of 5 bytes with index 2^32-1 makes a set of 2^32 places. C102_room_exact gives the size in every execution; the claim holds for peers which name pieces of the torrent."
  },
  {
   "property": "C103",
   "status": "proved",
   "theorems": [
    "C103_left_alone"
   ],
   "note": "For every interval the tracker has told; C60 says when that is positive. An announce may set the interval and still fail."
  },
  {
   "property": "C104",
   "status": "partial",
   "theorems": [
    "C104_in_time_refuted",
    "C104_in_time_partial",
    "C104_late_exact"
   ],
   "note": "REFUTED: the goroutine of a tracker connects to all addresses of a reply, one after the other, before it waits. C104_in_time_partial bounds the delay by 20.0000075 s for each address (plus scheduling), C104_late_exact reaches it."
  },
  {
   "property": "C105",
   "status": "partial",
   "theorems": [
    "C105_apart_refuted",
    "C105_apart_exact",
    "C105_given_up_exact"
   ],
   "note": "REFUTED: retry.Delay(500) is 500 nanoseconds; an address which refuses connections is given up after 7.5 microseconds. C105_apart_exact gives the delays."
  },
  {
   "property": "C106",
   "status": "partial",
   "theorems": [
    "C106_soon_refuted",
    "C106_soon_partial",
    "C106_wait_exact"
   ],
   "note": "REFUTED: addresses are tried one after the other, each may take 20.0000075 s. C106_soon_partial bounds it, C106_wait_exact reaches the bound."
  },
  {
   "property": "C107",
   "status": "partial",
   "theorems": [
    "C107_race_free_refuted",
    "C107_race_free_partial"
   ],
   "note": "REFUTED: Stop reads the connection of a peer found in the pool while the goroutine of its tracker may still be writing it (connect after AddPeer). C107_race_free_partial: there is no other race, on any shared variable, with any number of goroutines."
  },
  {
   "property": "C108",
   "status": "partial",
   "theorems": [
    "C108_add_before_wait_refuted",
    "C108_add_before_wait_exact"
   ],
   "note": "REFUTED: Wait is called when the trackers have just been started; nothing orders an Add of theirs before it. C108_add_before_wait_exact: an Add is ordered before Wait only by way of a peer that has ended in between."
  },
  {
   "property": "C109",
   "status": "partial",
   "theorems": [
    "C109_done_is_the_content_refuted",
    "C109_done_is_the_content_partial"
   ],
   "note": "REFUTED: the hash is checked without the offset, so the data of one piece can be stored over another which is recorded already, and the download is still Done. C109_done_is_the_content_partial: it holds, also with failing file writes, if all data comes with offset 0."
  },
  {
   "property": "C110",
   "status": "partial",
   "theorems": [
    "C110_only_used_open_refuted",
    "C110_one_each_refuted",
    "C110_nothing_closed_before_stop",
    "C110_five_each_partial",
    "C110_five_each_reached",
    "C110_left_by_stop"
   ],
   "note": "REFUTED: nothing is closed before Stop; a peer that failed its handshakes leaves up to five open connections. Stop closes the last connection of each peer only."
  },
  {
   "property": "C111",
   "status": "partial",
   "theorems": [
    "C111_started_once_refuted",
    "C111_stopped_refuted",
    "C111_completed_refuted",
    "C111_always_started_partial"
   ],
   "note": "REFUTED: the event stays started in every announce; neither completed nor stopped is ever sent (the UDP tracker always sends event 0, C48)."
  },
  {
   "property": "C112",
   "status": "partial",
   "theorems": [
    "C112_sum_refuted",
    "C112_left_refuted",
    "C112_values_partial",
    "C112_not_older_partial"
   ],
   "note": "REFUTED: the counters are loaded one after the other and pieces that come twice are counted twice. C112_values_partial: the numbers are those of some first messages handed to the writer, modulo 2^64, uploaded is 0; C112_not_older_partial: of no fewer than were written before the announce."
  },
  {
   "property": "C113",
   "status": "proved",
   "theorems": [
    "C113_handshake_first",
    "C113_one_run"
   ],
   "note": "about the whole client; the handshake may be split in any way"
  },
  {
   "property": "C114",
   "status": "proved",
   "theorems": [
    "C114_replied_dialled",
    "C114_replied_added",
    "C114_named_dialled",
    "C114_named_added"
   ],
   "note": ""
  },
  {
   "property": "C115",
   "status": "partial",
   "theorems": [
    "C115_download_refuted",
    "C115_nothing_stored"
   ],
   "note": "REFUTED: no request is ever sent (C38), so peers that wait for requests send nothing, in no execution is anything stored. Pieces nobody asked for are taken."
  },
  {
   "property": "C116",
   "status": "partial",
   "theorems": [
    "C116_status_refuted",
    "C116_ends_partial",
    "C116_only_signal"
   ],
   "note": "REFUTED: with a peer in the pool that was never reached the deferred Stop panics, status 2. C116_ends_partial: the process ends under every fair schedule, even if the trackers hang; C116_only_signal: without a signal never with status 0."
  },
  {
   "property": "C117",
   "status": "partial",
   "theorems": [
    "C117_never_crashes_refuted",
    "C117_causes_exact",
    "C117_never_crashes_partial"
   ],
   "note": "REFUTED: a message of two bytes is enough. C117_causes_exact: the seven causes, nothing else (replies of a size Go can hold); each has an example. C117_never_crashes_partial: without a signal, with well-formed replies and messages, an ordinary torrent and no more data than its length, nothing crashes."
  },
  {
   "property": "C118",
   "status": "proved",
   "theorems": [
    "C118_origin",
    "C118_only_its_files"
   ],
   "note": "Replies and reads of a size Go can hold, peers send bytes. A single file has no end (C24), so bytes behind its length are covered too. That the offset of a message may be wrong is C109."
  },
  {
   "property": "C119",
   "status": "proved",
   "theorems": [
    "C119_announced",
    "C119_peers",
    "C119_stored",
    "C119_other_commands"
   ],
   "note": "From the bytes of the document to the bytes on disk. C119_stored: distinct files, piece length below 2^30, a non-empty output directory; a single file has no end (C24). C119_peers and C119_stored: replies and reads of a size Go can hold. --port and --num-peer are given values."
  },
  {
   "property": "C120",
   "status": "partial",
   "theorems": [
    "C120_resume_refuted",
    "C120_starts_empty_exact"
   ],
   "note": "REFUTED: New creates every file anew, so a second start empties what the first stored (witness with the real SHA-1). C120_starts_empty_exact: whenever the download starts all its files are empty, and until a piece is handed to the writer trackers are told downloaded 0 and left the whole length."
  },
  {
   "property": "C121",
   "status": "partial",
   "theorems": [
    "C121_again_refuted",
    "C121_again_partial",
    "C121_never_again_exact"
   ],
   "note": "REFUTED: tracker.New is tried once. If the socket of a udp tracker does not open then (or the URL is not supported) runTracker returns and the tracker is never announced to, whatever happens later (C121_never_again_exact, over all executions). Otherwise (http, https, or udp with the first attempt successful) there is always a next announce or a crash of the process (C121_again_partial), over all endless schedules without a signal in which main and the goroutine get turns, the timer expires and announces return. Peers in Run need no turns. An announce that never returns is excluded by the hypothesis: the HTTP client has no timeout."
  },
  {
   "property": "C122",
   "status": "partial",
   "theorems": [
    "C122_id_refuted",
    "C122_own_id_exact"
   ],
   "note": "REFUTED: the reply's tracker id is not read; all announces to a tracker carry one and the same id, drawn when the tracker was created (C122_own_id_exact)."
  },
  {
   "property": "C123",
   "status": "partial",
   "theorems": [
    "C123_serve_refuted",
    "C123_sent_exact",
    "C123_never_served_exact"
   ],
   "note": "REFUTED: requests are only logged. Nothing but keep-alive and interested is ever written to a peer in Run (C123_sent_exact), hence no piece (C123_never_served_exact)."
  },
  {
   "property": "C124",
   "status": "partial",
   "theorems": [
    "C124_complete_refuted",
    "C124_complete_partial"
   ],
   "note": "REFUTED: the data of a piece with the right hash but begin <> 0 is written at that distance from the start of the piece, over the next piece, and nothing restores it. It holds (C124_complete_partial) if every data with the right hash came with begin 0."
  },
  {
   "property": "C125",
   "status": "partial",
   "theorems": [
    "C125_no_crash_refuted",
    "C125_status_exact",
    "C125_starts_exact",
    "C125_printed_exact"
   ],
   "note": "REFUTED: status 2 (a panic) for torrent files on which the parser panics, which begin with something else than a dictionary, or which have a file with an empty path list. The status in all cases is C125_status_exact."
  },
  {
   "property": "C126",
   "status": "partial",
   "theorems": [
    "C126_pause_refuted",
    "C126_pause_partial",
    "C126_pause_exact",
    "C126_default_refuted",
    "C126_interval_exact",
    "C126_told_exact",
    "C126_udp_exact"
   ],
   "note": "REFUTED: the interval is multiplied by 10^9 in 64 bits, so one of 9223372037 seconds becomes no pause at all (C126_pause_refuted), and a reply without an interval sets it to 0 (C126_default_refuted). It holds up to 9223372036 seconds (C126_pause_partial); the pause and the interval kept in all cases are C126_pause_exact and C126_interval_exact. UDP trackers are always asked again after a minute (C126_udp_exact). Assumed: time.After does not fire early."
  },
  {
   "property": "C127",
   "status": "partial",
   "theorems": [
    "C127_stack_refuted",
    "C127_size_exact",
    "C127_stack_partial",
    "C127_overflow_exact",
    "C127_value_exact",
    "C127_entry_exact"
   ],
   "note": "REFUTED: the parser recurses without a limit, so for every size of the stack n+1 lists inside each other (2(n+1) bytes, valid bencode) exceed it, also as the value of a key nobody reads (C127_entry_exact). Data of at most n bytes are read (C127_stack_partial); C127_overflow_exact says which data exceed it. The stack is counted in nested calls of readList and readDict, not in bytes."
  },
  {
   "property": "C128",
   "status": "partial",
   "theorems": [
    "C128_names_refuted",
    "C128_names_exact",
    "C128_parse_exact",
    "C128_entry_exact",
    "C128_range_partial",
    "C128_shown_partial"
   ],
   "note": "REFUTED: BEP 3 also allows the name of a host, and no name is ever understood: the entry becomes the zero AddrPort (C128_names_exact). For addresses it holds: C128_parse_exact says which texts are read as which address (RFC 4291, dotted decimal without leading zeros, zones), C128_entry_exact what becomes of an entry, C128_shown_partial that the text of an address is read back as that address. netip is modelled after the library of Go 1.25, which is not part of the repository."
  },
  {
   "property": "C129",
   "status": "partial",
   "theorems": [
    "C129_hosts_refuted",
    "C129_twice_exact",
    "C129_keys_exact"
   ],
   "note": "REFUTED: 10.0.0.1 and ::ffff:10.0.0.1 are one host and become two peers of the pool, because the key is the text of the AddrPort and nothing unmaps it. This is the only way (C129_twice_exact); different spellings of one address have one key (C129_keys_exact)."
  },
  {
   "property": "C130",
   "status": "partial",
   "theorems": [
    "C130_reason_refuted",
    "C130_text_exact",
    "C130_bencode_partial"
   ],
   "note": "REFUTED: NewCmdRun drops the error, so every failing download command writes the words 'error with the app' and nothing else, whatever the reason (C130_text_exact). The bencode command logs which step failed (C130_bencode_partial). Texts of zap, viper and cobra are parameters."
  },
  {
   "property": "C131",
   "status": "partial",
   "theorems": [
    "C131_version_refuted",
    "C131_config_exact",
    "C131_version_partial"
   ],
   "note": "REFUTED: NewApp reads the configuration while it builds the commands, so a configuration file that cannot be read stops every command with status 1, version and help too, with the complaint on standard output (C131_config_exact). Otherwise the three lines are printed (C131_version_partial)."
  },
  {
   "property": "C132",
   "status": "proved",
   "theorems": [
    "C132_protocol"
   ],
   "note": "what follows the scheme (authority, path, fragment) is an oracle: whether url.Parse accepts it"
  },
  {
   "property": "C133",
   "status": "partial",
   "theorems": [
    "C133_usage_refuted",
    "C133_usage_exact",
    "C133_out_partial"
   ],
   "note": "REFUTED: -out is read as -o with the value ut, two words are left, and the command always fails with status 1 (C133_usage_exact). -o, --out and --out= work for any directory. cobra and pflag are modelled from what they are known to do, their sources are not in the repository."
  },
  {
   "property": "C134",
   "status": "proved",
   "theorems": [
    "C134_download_exact",
    "C134_bencode_exact",
    "C134_version_exact"
   ],
   "note": "cobra 1.6.1 and pflag 1.0.10 are modelled from what they are known to do; commands of cobra itself (help, completion) are left out"
  },
  {
   "property": "C135",
   "status": "partial",
   "theorems": [
    "C135_decimal_refuted",
    "C135_decimal_partial",
    "C135_numbers_exact"
   ],
   "note": "REFUTED: pflag reads numbers with base 0, so 010 is 8 and 08 is an error. Proved: which texts are accepted and their values, exactly; without a leading zero digits are decimal."
  },
  {
   "property": "C136",
   "status": "partial",
   "theorems": [
    "C136_port_refuted",
    "C136_port_exact"
   ],
   "note": "REFUTED: --port is not checked; 70000 is announced as it is. Proved: every HTTP announce has the number of the command line, whatever it is (from 0 on)."
  },
  {
   "property": "C137",
   "status": "partial",
   "theorems": [
    "C137_before_refuted",
    "C137_before_partial",
    "C137_before_exact"
   ],
   "note": "REFUTED: cobra 1.6.1 removes the first word equal to the name of the command, which may be the value of an option. Proved: it holds if no such word is the name; in general the line is read as if the first word equal to the name stood first."
  },
  {
   "property": "C138",
   "status": "partial",
   "theorems": [
    "C138_read_refuted",
    "C138_value_refuted",
    "C138_refused_exact",
    "C138_value_exact",
    "C138_right_exact"
   ],
   "note": "REFUTED: i-3e is refused, and i922337203685477581e is read as -922337203685477580. Proved: it is refused exactly if some integer in it is negative, otherwise all but its integers is right, and these exactly if they are at most 922337203685477580."
  },
  {
   "property": "C139",
   "status": "partial",
   "theorems": [
    "C139_accepted_refuted",
    "C139_accepted_exact",
    "C139_status_exact"
   ],
   "note": "REFUTED: a url-list that is a string, as BEP 19 allows, is refused. Proved: the download begins exactly if url-list is not a string and no integer anywhere in the file is negative; otherwise the status is 1."
  },
  {
   "property": "C140",
   "status": "partial",
   "theorems": [
    "C140_web_seeds_refuted",
    "C140_asked_exact"
   ],
   "note": "REFUTED: the URLs of url-list are treated as trackers. Proved: exactly which URLs are announced to in some execution."
  },
  {
   "property": "C141",
   "status": "partial",
   "theorems": [
    "C141_tiers_refuted",
    "C141_announce_refuted",
    "C141_any_order_exact"
   ],
   "note": "REFUTED: all trackers are asked side by side, also announce. Proved: any of them, in any order and with any replies, can be the first to be asked."
  },
  {
   "property": "C142",
   "status": "partial",
   "theorems": [
    "C142_udp_refuted",
    "C142_dialled_exact",
    "C142_deaf"
   ],
   "note": "REFUTED: announces to UDP trackers always fail (C49). Proved: a peer is dialled in some execution exactly if one of the URLs is http or https; otherwise only failed announces happen and no file changes."
  },
  {
   "property": "C143",
   "status": "partial",
   "theorems": [
    "C143_empty_file_refuted",
    "C143_no_file_exact"
   ],
   "note": "REFUTED: length 0 is taken for a torrent with several files, of which there are none. Proved: no file is created or changed in any execution."
  },
  {
   "property": "C144",
   "status": "partial",
   "theorems": [
    "C144_numbers_refuted",
    "C144_unchecked_exact"
   ],
   "note": "REFUTED: the download of a torrent with piece length 0 begins. Proved: for torrents with the same names and whole hashes the numbers make no difference to whether it begins."
  },
  {
   "property": "C145",
   "status": "proved",
   "theorems": [
    "C145_spelled",
    "C145_one_way",
    "C145_characters",
    "C145_announce"
   ],
   "note": "For announce URLs without ? and # of their own (C67). The space is written + as in forms; all bytes but the letters, digits and -._~ of RFC 3986 are %XX with capital digits."
  },
  {
   "property": "C146",
   "status": "partial",
   "theorems": [
    "C146_hash_refuted",
    "C146_hash_exact",
    "C146_right_iff_partial"
   ],
   "note": "REFUTED: url.Values.Encode writes a space as +, which RFC 3986 does not undo. C146_hash_exact: such a tracker reads a plus sign for each space; it is right exactly if there is none (C146_right_iff_partial)."
  },
  {
   "property": "C147",
   "status": "proved",
   "theorems": [
    "C147_entries",
    "C147_order",
    "C147_other_keys"
   ],
   "note": "The rest of the file after the dictionary has no influence either. With a key given several times the last one counts (C06)."
  },
  {
   "property": "C148",
   "status": "proved",
   "theorems": [
    "C148_info_keys"
   ],
   "note": "Also the order of keys in info, and other keys of the entries of files."
  },
  {
   "property": "C149",
   "status": "proved",
   "theorems": [
    "C149_order",
    "C149_runs"
   ],
   "note": "The set of blocks stored counts; blocks that disagree are stored in the order they come (C23, example)."
  },
  {
   "property": "C150",
   "status": "proved",
   "theorems": [
    "C150_files",
    "C150_same"
   ],
   "note": "Whole pieces: piece messages with offset 0. Without that C109 is refuted; a shorter last piece is never recorded (C28)."
  },
  {
   "property": "C151",
   "status": "partial",
   "theorems": [
    "C151_once_refuted",
    "C151_unbounded",
    "C151_choked_partial",
    "C151_spaced_partial",
    "C151_half_exact"
   ],
   "note": "REFUTED: each round of Run that finds the client choked calls unchoke, which sends interested again and then reads one message only (peer.go:165-200, 232-236). Exact: interested is sent while choked only, never twice without reading in between, and a peer that does not unchoke and whose messages arrive is told once for every two messages it sends; keep-alives are enough for any number. Stated for peers that start as the client starts them (ASpawn false)."
  },
  {
   "property": "C152",
   "status": "partial",
   "theorems": [
    "C152_recorded_stays",
    "C152_finished_stays_refuted",
    "C152_finished_stays_partial",
    "C152_directory_partial"
   ],
   "note": "REFUTED: the number of hashes is not compared with PiecesNum; a piece with an index beyond PiecesNum, accepted after completion, extends the record with a gap, and Done is false again (two surplus hashes suffice). Proved: recorded pieces stay recorded in every execution; Done stays true for torrents with at most one surplus hash, and for torrents of several files with any number of hashes."
  },
  {
   "property": "C153",
   "status": "proved",
   "theorems": [
    "C153_one_message",
    "C153_such_peers"
   ],
   "note": "Requests and cancels with at least 12 bytes of payload; shorter ones crash the client (C15). The peer that reads the message moves on in Run, nothing else changes."
  },
  {
   "property": "C154",
   "status": "proved",
   "theorems": [
    "C154_in_order",
    "C154_in_turn"
   ],
   "note": "A turn is one action of the writer: taking a message from the channel, or writing the one taken. Whether the process lives that long is another matter (C56)."
  },
  {
   "property": "C155",
   "status": "partial",
   "theorems": [
    "C155_bep_refuted",
    "C155_one_text_refuted",
    "C155_bep_exact",
    "C155_one_text_exact",
    "C155_bep_partial",
    "C155_some_order"
   ],
   "note": "REFUTED: Encode goes through Go maps, so the keys come in any order; a dictionary with two entries can come out unsorted and differently each time. Exactly the elements without such a dictionary are certain to give one text, which is bencode of the element."
  },
  {
   "property": "C156",
   "status": "proved",
   "theorems": [
    "C156_reply",
    "C156_order",
    "C156_other_keys"
   ],
   "note": "For a key given twice the last one counts. Replies shorter than 2^63 bytes."
  },
  {
   "property": "C157",
   "status": "partial",
   "theorems": [
    "C157_peers6_refuted",
    "C157_ignored_exact",
    "C157_alone_exact"
   ],
   "note": "REFUTED: readPeers looks at the key peers only; with or without peers6 the result is the same, and a reply with peers6 alone is an error. IPv6 addresses are used when given as text in the list of peers (C128)."
  },
  {
   "property": "C158",
   "status": "partial",
   "theorems": [
    "C158_downloadable_refuted",
    "C158_downloadable_exact",
    "C158_stored_partial"
   ],
   "note": "REFUTED: a torrent whose last piece is short cannot be finished with the right files: that piece is recorded only if its data goes on to the full piece length (C28). Exactly the torrents whose length is a multiple of the piece length can be downloaded (unless the last hash is that of no data); the files themselves can become the content for every torrent. Peers may send pieces that were not asked for, as the client never asks (C38)."
  },
  {
   "property": "C159",
   "status": "proved",
   "theorems": [
    "C159_bounded",
    "C159_waits_exact",
    "C159_freed"
   ],
   "note": "The bound is on messages; one message may be as long as its length prefix says (C101). Once the channel is closed a send panics instead of waiting (C55)."
  },
  {
   "property": "C160",
   "status": "proved",
   "theorems": [
    "C160_downloadable"
   ],
   "note": "Such a course needs a peer that sends pieces it was not asked for, as the client never asks (C38), and the signal, without which Download does not return (manager.go:65). That the torrent counts as Done is not claimed: C158. Hypotheses on the environment: writes succeed, netip.ParseAddr reads 10.0.0.1, the info hash has 20 bytes."
  },
  {
   "property": "C161",
   "status": "proved",
   "theorems": [
    "C161_no_effect",
    "C161_one_message"
   ],
   "note": "The index has to be one of the torrent's pieces: for any other CheckPiece panics (C62). The course is the same step for step, so time is not part of the claim: reading a long message takes longer. Log lines are not modelled."
  },
  {
   "property": "C162",
   "status": "partial",
   "theorems": [
    "C162_dropped_refuted",
    "C162_goes_on"
   ],
   "note": "REFUTED: handlePieceMessage logs and returns; nothing counts corrupt pieces, and Run goes on. For every n there is a course in which a peer has sent 2 n corrupt pieces and nothing else and is still served."
  },
  {
   "property": "C163",
   "status": "proved",
   "theorems": [
    "C163_cuts",
    "C163_sound",
    "C163_complete"
   ],
   "note": "The event that records a handshake carries what the connection will deliver, cut up as it is; the comparison of events leaves that out. Time is not part of the model: a deadline that passes is an item of its own, at the same place in both courses. Covers the connections to peers, not those to trackers."
  },
  {
   "property": "C164",
   "status": "proved",
   "theorems": [
    "C164_taken",
    "C164_stored"
   ],
   "note": "That what arrives is bytes (0..255) is a hypothesis, as bytes are integers in the model. Where a deadline passes inside a message what was read of it is lost and its rest is read as a new message (C164_ex_late), so with deadlines there may be gaps between the messages."
  },
  {
   "property": "C165",
   "status": "proved",
   "theorems": [
    "C165_only",
    "C165_exact"
   ],
   "note": "When a keep-alive is due is an oracle here; C90 and C91 are about the clock. The hypotheses of C165_exact are those of C160: sizes in range, a hash of 20 bytes, netip.ParseAddr takes one address."
  },
  {
   "property": "C166",
   "status": "proved",
   "theorems": [
    "C166_rescue"
   ],
   "note": "Possibility, not certainty: the peer has to send the pieces, unasked (C38). Data with the right hash for another place in its piece is excluded by hypothesis, see C124; so is a hash collision among the data read and the pieces. Covers download with writes that succeed."
  },
  {
   "property": "C167",
   "status": "proved",
   "theorems": [
    "C167_still"
   ],
   "note": "Possibility, not certainty: the tracker has to answer with the new address and the peer there has to send the pieces. The unused address is needed: peers never leave the pool, so a known address is not dialled again (C51, C89). Data with the right hash for another place in its piece and hash collisions are excluded by hypothesis, as in C166. Covers download with writes that succeed."
  },
  {
   "property": "C168",
   "status": "proved",
   "theorems": [
    "C168_never_zero",
    "C168_ends_in_crash",
    "C168_exact"
   ],
   "note": "C116 refutes that the process always ends with status 0 after a signal; here the harm done by one unreached peer is shown to be certain and lasting, because peers never leave the pool and a peer given up is never dialled again. Before the signal is needed: a Stop that has already set the pool to nil is not harmed by a later peer. C168_exact: a peer that is still being dialled, in a pause or with attempts left does no harm if it is reached in the end. C168_ends_in_crash asks for turns of main, the writer and the peers in Run, not of the trackers."
  },
  {
   "property": "C169",
   "status": "proved",
   "theorems": [
    "C169_both"
   ],
   "note": "Joins C166 (a connected peer can complete the download) and C168 (what rules out status 0): in the continuation the peer delivers every piece, the writer stores it, peers still being added are reached, and then the signal comes. Possibility, not certainty. Data with the right hash for another place in its piece and hash collisions are excluded by hypothesis, as in C166. C169_ex_lost and C169_ex_panic show the other case: complete files, then a panic."
  },
  {
   "property": "C170",
   "status": "partial",
   "theorems": [
    "C170_harmless_refuted",
    "C170_name_dooms",
    "C170_name_crashes",
    "C170_when",
    "C170_host_name"
   ],
   "note": "REFUTED: a reply that gives one peer by name and one by address makes the process panic after the signal although the one with the address is connected (C170_ex: although the download is complete; C170_ex_plain: without the name it ends with status 0). Not only the witness: C170_name_dooms excludes status 0 for every such reply, once the tracker is announced to again, C170_name_crashes shows the panic after a signal, C170_when says exactly which replies do it. All but the witness and C170_host_name hold whatever netip.ParseAddr takes; these two use its model of C128, which takes no host name (RFC 1123). Success needs a list of peers; a compact reply is an error (C46_peers_exact)."
  },
  {
   "property": "C171",
   "status": "proved",
   "theorems": [
    "C171_nothing_happens",
    "C171_status"
   ],
   "note": "The case of C116 (a signal ends the process with status 0, refuted) in which it is certain. The hypothesis cannot be weakened to no announce yet: with a signal during the first announce the reply can still come and its peer, added but not dialled, makes Stop panic (C171_ex_late). The socket of a UDP tracker may have been opened (tracker.New), nothing is sent on it. real_bar: the progress is printed as PrintBar does it. The file system is the one after torrent.New; fair is as in C116."
  },
  {
   "property": "C172",
   "status": "partial",
   "theorems": [
    "C172_second_refuted",
    "C172_second_exact",
    "C172_only_first_exact"
   ],
   "note": "REFUTED: signal.NotifyContext (cmd/app.go:99) keeps both signals caught until stop, which is deferred to the end of the command, and its context can be cancelled only once; the model takes a signal for that cancellation. C172_second_exact, C172_only_first_exact: the second and all later ones leave state and events as they are. SIGKILL is not modelled."
  },
  {
   "property": "C173",
   "status": "partial",
   "theorems": [
    "C173_again_refuted",
    "C173_gone_exact",
    "C173_incomplete_exact"
   ],
   "note": "REFUTED: AddPeer (manager.go:216-227) refuses an address that is in the pool, and nothing takes a peer out of it, so startPeerDownload is not called for it again. C173_gone_exact: with no peer left and only known ones named, no dial, handshake or message follows, for all continuations. C74 is the case of peers that could not be reached. C173_incomplete_exact: if also nothing received is left to be written, files and pieces stay as they are, so an incomplete download is never completed. C173_ex_other: a peer not named before is dialled."
  }
 ]
}