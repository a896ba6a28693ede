# Formal model of anivanovic/gotit in Rocq (Coq 8.16.1)

173 properties: 69 proved as stated, 104 partial (of which 104 are false of the code and refuted).

## Layout

* `properties.jsonl` — the properties in English. `MANIFEST.json` — which theorems belong to which.
* `rocq/theories/Base.v` — bytes, Go integers, results, slices, maps.
* `rocq/theories/Model*.v` — the model: total, executable Gallina functions, one per Go
  function, each with a comment citing file and lines. No proofs.
* `rocq/theories/Spec*.v` — small specifications in terms of which the properties are stated
  (bencode grammar, BEP-3 wire format, flat torrent image, conversion relation of
  Unmarshal, query strings, ...). They share data types with the model, not its functions.
* `rocq/theories/Proof*.v` — lemmas.
* `rocq/theories/TestGo.v` — the repository's own tests as `Example`s about the model (data in
  `TestData.v`, an executable SHA-1 in `Sha1.v`). Left out: comparisons of error texts,
  benchmarks, the tests that `SetDeadline` fails.
* `rocq/theories/Prop*.v` — the property theorems, each closed by a lemma and followed by
  `Print Assumptions`, and `Example`s showing that the hypotheses are met by concrete,
  non-trivial cases.
* `seeded/LOG.jsonl` — wrong programs tried against the theorems (see below).

Build: `cd rocq && coq_makefile -f _CoqProject -o Makefile && make -j4`, about six minutes.

## Conventions

* Go `int`, `uint64`, `uint32` are `Z` with explicit wrap-around where the code can overflow.
  Bytes are `Z`; byte strings are `list Z`. Where it matters theorems carry `Forall is_byte`.
* A Go function returns `res A := Ok a | Err e | Panic | Diverge`; `Panic` is a Go run-time
  panic (index, slice bounds, nil map, closed channel, ...), `Diverge` is exhausted fuel and is
  proved unreachable.
* SHA-1 is a universally quantified function.
* Goroutines are state machines; a schedule is an arbitrary list of actions and theorems
  quantify over all of them. What the network, clock, context and file system do is part of
  the actions, so it is quantified over as well.
* A name ending in `_refuted` is the negation of the property (the English statement is kept
  as it was); `_exact` says what the code does instead; `_partial` proves the property
  under the extra hypotheses shown in its statement, or for the part named in the manifest.
  Theorems without such a suffix prove their property as stated.

## What is modelled

| Go | model | simplified or left out |
|---|---|---|
| `pkg/bencode/parse.go`, `elements.go` | `ModelBencode`, `ModelStack` | In `ModelBencode` the recursion is unbounded; `ModelStack` says when it needs more than n nested calls of `readList` and `readDict` (Go ends the process at 1 GB of stack; the bytes of one call are not modelled), and the other models do not use it. Element positions are passed explicitly. Map iteration order is arbitrary in `encodes` (a relation). |
| `pkg/bencode/tag_parser.go` 1–187 | `ModelUnmarshal` | `reflect` by a typed universe: string, signed and unsigned integers of every width, slices, structs, maps, pointers, raw elements. nil and empty slices and maps are identified in results. Typed nil pointers given by the caller and named byte slice types are left out. |
| `tag_parser.go` 189–285 | `ModelUnmarshal` (Metainfo), `ModelPrint` | `bytefmt.ByteSize` and `time.Format` are parameters of the printer; the first is `ModelSize.ByteSize`. |
| `pkg/util/peer_message.go` | `ModelMsg`, `ModelBitset` | The bitset library (v1.2.2) by its documented semantics; slices given to `NewPeerMessage` have no spare capacity, as at its call sites. |
| `pkg/util/set.go` | `ModelTorrent`, `ModelCmd` | |
| `pkg/gotitnet/connection.go` | `ModelConn`, `ModelSocket` | A TCP socket is a list of segments, timeouts and an end; a UDP socket a list of datagrams (excess bytes of a datagram are lost). `Write` is an oracle. `ModelSocket` is `ModelClient` over the bytes of its connections to peers: what it reads is what arrives there, not an oracle per step. |
| `pkg/torrent/*` | `ModelTorrent`, `ModelPath`, `ModelFloat` | `float64` arithmetic exactly (Flocq's binary64), conversion to `int` as on amd64. Files are byte strings by path, no symbolic links; each system call may fail (oracle); a partial `pwrite` is modelled, `WriteAt` of no data never fails. |
| `pkg/stats/*` | `ModelStats`, `ModelSize`, `ModelProgress` | The whole progress line with `bytefmt` and `strconv.FormatFloat(_, 'f', 1)`, in `ModelSize`; `uilive` is left out. The two atomic operations of `AddDownload` are separate in `ModelStats` and seen together in `ModelProgress`. |
| `pkg/peer/peer.go` | `ModelPeer`, `ModelTimed` | `ModelPeer`: `Run` one step per blocking operation, untimed. `ModelTimed`: the same with a clock in ns, a bound `lag` on how late the scheduler is, `jpillora/backoff` v1.0.0 and the float comparison of `checkKeepAlive`; there the state shared with other goroutines is arbitrary. Blocking writes are bounded by the write deadline. |
| `pkg/download/manager.go` | `ModelSystem`, `ModelManager`, `ModelClient`, `ModelClock`, `ModelRace` | Five views: `ModelSystem` has `Download`, the writer, the channels and any number of peers in `Run`; `ModelManager` the tracker goroutines, `retry-go` v3.0.0, the pool, `Stop`. In the second, results of announces, dials and handshakes are oracles, and one `Stop` runs at a time. A `WaitGroup.Add` concurrent with `Wait` is an ordinary interleaving. `ModelClient` puts the two together, with the trackers of `ModelTracker`, the handshake, the counters, the goroutine that prints and the end of `runDownload`: one whole process. Simplified there: printing loads the counters at one moment, and whether it panics for them is a parameter (`cf_bar`), so that only theorems about `PrintBar` need the reals. `ModelClock` is one tracker goroutine of `ModelManager` with a clock, among arbitrary actions of the others: `BackOffDelay` of `retry-go`, dial and handshake timeouts, the interval. An announce takes any time. `ModelRace` keeps only which shared variables every goroutine reads and writes and how it synchronises (`pkg/peer`, `pkg/torrent` and `cmd/download.go` included), for data races. |
| `pkg/tracker/*` | `ModelTracker`, `ModelAddr`, `ModelUrl` | `url.Parse` (`ModelUrl` has the scheme, again after Go 1.25) and the HTTP client are oracles; IPv6 addresses are kept as text. `netip.ParseAddr` is an oracle in `ModelTracker`; `ModelAddr` has it and `Addr.String`, written after the library of Go 1.25 (its source is not in the repository, so that transcription is trusted). |
| `pkg/logger/logger.go` | `ModelLogger` | ASCII strings; which zap core is built (level, encoder), not what zap then does. |
| `pkg/cmd/*`, `cmd/gotit/main.go`, `gotit.go` | `ModelCmd`, `ModelProgram`, `ModelArgs` | viper as an oracle; `ModelArgs` reads the words of the command line as cobra 1.6.1 and pflag 1.0.10 do (from what is known of them: their sources are not in the repository; cobra's own commands help and completion are left out); `ModelProgram` joins the command line to the whole client; `ModelOutput` has what is written before a download begins (texts of cobra, viper and zap are parameters). |
| `pkg/printer/printer.go` | `ModelCmd`, `ModelOutput` | only `Fatal`, the other methods have no caller. |

Not modelled: memory exhaustion (but `ModelMem` has the sizes of the buffers `readExactly`
makes, and C102 the size of a peer's bitset), what Go does after a data race (C107 says where there is one;
the other models take interleavings of atomic steps), the contents of log messages.

## Trusted base

* Coq's kernel (8.16.1), including `vm_compute`; `coqchk` accepts the compiled files.
* The reading of the Go source. Nothing here runs the code: the model is tied to it by the
  citations only. The same holds for the behaviour of the dependencies named above and of
  the Go run time and standard library.
* The properties are only as good as the definitions in their statements: the `Spec*.v`
  files, the model functions whose outcome they describe, and for properties about
  goroutines the step functions of `ModelPeer`, `ModelSystem`, `ModelManager`, `ModelClient`, `ModelTimed`, `ModelClock`, the words of actions of `ModelRace`.
* There are no axioms of our own. Standard library axioms (through the real numbers, which
  Flocq's theorems about binary64 need) occur in the theorems listed first below.
  `coqchk -o` in addition lists axioms of libraries that are loaded but not used by the
  theorems (other parts of `Reals`, `ssrunder`).

`Print Assumptions` gives

* `ClassicalDedekindReals.sig_forall_dec`, `ClassicalDedekindReals.sig_not_dec`, `Classical_Prop.classic`, `FunctionalExtensionality.functional_extensionality_dep`:

  `C169_both`, `C160_downloadable`, `C117_never_crashes_partial`, `C171_nothing_happens`, `C171_status`, `C86_printing_refuted`, `C86_repeated_piece_crashes`, `C86_printing_safe_partial`, `C165_exact`, `C158_downloadable_refuted`, `C158_downloadable_exact`, `C158_stored_partial`, `C166_rescue`, `C97_size_right`, `C97_below_1024_exact`, `C98_line_right`, `C98_percent_right`, `C34_percent_in_range`, `C34_complete_is_100`, `C35_bar_exact`, `C35_print_never_crashes_partial`, `C64_percent_monotone`, `C152_directory_partial`, `C167_still`, `C90_no_silence_partial`, `C91_keepalive_partial`, `C91_apart_partial`, `C93_unchoked_partial`, `C93_refuted`, `C93_choked_exact`, `C28_short_last_piece_never_done`, `C28_short_last_piece_never_done_single`, `C29_pieces_num_is_ceiling`, `C61_zero_piece_length`, `C61_new_torrent_not_done_partial`

* nothing ("Closed under the global context"), 447 theorems:

  * `PropAddr`: `C128_names_refuted`, `C128_names_exact`, `C128_parse_exact`, `C128_entry_exact`, `C128_range_partial`, `C128_shown_partial`, `C129_hosts_refuted`, `C129_twice_exact`, `C129_keys_exact`
  * `PropAgain`: `C121_again_refuted`, `C121_again_partial`, `C121_never_again_exact`
  * `PropAgain2`: `C122_id_refuted`, `C122_own_id_exact`, `C123_serve_refuted`, `C123_sent_exact`, `C123_never_served_exact`
  * `PropAlike`: `C147_entries`, `C147_order`, `C147_other_keys`, `C148_info_keys`
  * `PropArgs`: `C133_usage_refuted`, `C133_usage_exact`, `C133_out_partial`, `C134_download_exact`, `C134_bencode_exact`, `C134_version_exact`, `C135_decimal_refuted`, `C135_decimal_partial`, `C135_numbers_exact`, `C136_port_refuted`, `C136_port_exact`, `C137_before_refuted`, `C137_before_partial`, `C137_before_exact`
  * `PropArrive`: `C124_complete_refuted`, `C124_complete_partial`
  * `PropBencode`: `C01_parse_terminates`, `C02_parse_no_panic_refuted`, `C02_parse_no_panic_partial`, `C02_parse_panics_exact`, `C03_parse_accepts_exactly_bencode`, `C03_parse_accepts_exactly_wrapped`, `C03_grammar_unambiguous`, `C04_raw_is_own_bytes`, `C04_raw_top_level`, `C05_encode_parse_round_trip`, `C05_round_trip_fails_outside_range`, `C05_encode_total`, `C06_last_duplicate_wins`, `C07_truncation_detected`, `C08_only_first_element`
  * `PropBep`: `C138_read_refuted`, `C138_value_refuted`, `C138_refused_exact`, `C138_value_exact`, `C138_right_exact`, `C139_accepted_refuted`, `C139_accepted_exact`, `C139_status_exact`, `C144_numbers_refuted`, `C144_unchecked_exact`
  * `PropClient`: `C111_started_once_refuted`, `C111_stopped_refuted`, `C111_completed_refuted`, `C111_always_started_partial`, `C112_sum_refuted`, `C112_left_refuted`, `C112_values_partial`, `C112_not_older_partial`, `C113_handshake_first`, `C113_one_run`, `C114_named_dialled`, `C114_named_added`, `C114_replied_dialled`, `C114_replied_added`, `C115_download_refuted`, `C115_nothing_stored`, `C116_status_refuted`, `C116_ends_partial`, `C116_only_signal`
  * `PropClock`: `C103_left_alone`, `C104_in_time_refuted`, `C104_in_time_partial`, `C104_late_exact`, `C105_apart_refuted`, `C105_apart_exact`, `C105_given_up_exact`, `C106_soon_refuted`, `C106_soon_partial`, `C106_wait_exact`
  * `PropCmd`: `C75_log_flags_refuted`, `C75_logger_fixed`, `C75_flags_ignored`, `C76_config_refuted`, `C76_only_default_exact`, `C76_broken_config`, `C76_version_partial`, `C76_initConfig_exact`, `C77_failure_changes_nothing_refuted`, `C77_failure_changes_nothing_partial`, `C77_left_behind_exact`, `C78_status_refuted`, `C78_status_exact`, `C78_not_started`, `C79_prints_refuted`, `C79_status_exact`, `C80_set_add`, `C80_set_add_all`, `C80_contains`, `C81_metainfo`, `C81_started`
  * `PropConn`: `C18_framing_independent_of_segmentation`, `C18_same_bytes_same_outcome`, `C18_incomplete_frame_is_an_error`, `C19_timeout_keeps_framing_refuted`, `C19_timeout_drops_prefix_exact`, `C19_body_taken_for_frames`, `C19_timeout_between_frames_partial`
  * `PropCorrupt`: `C161_no_effect`, `C161_one_message`, `C162_dropped_refuted`, `C162_goes_on`
  * `PropCrash`: `C117_never_crashes_refuted`, `C117_causes_exact`
  * `PropDoom`: `C168_never_zero`, `C168_ends_in_crash`, `C168_exact`
  * `PropEncode`: `C155_bep_refuted`, `C155_one_text_refuted`, `C155_bep_exact`, `C155_one_text_exact`, `C155_bep_partial`, `C155_some_order`
  * `PropExchange`: `C82_no_request_while_choked`, `C83_requests_conserved`, `C84_request_survives_peer_refuted`, `C84_lost_only_with_its_peer_partial`, `C85_answered_not_asked_again_refuted`, `C85_asked_again_after_error_partial`
  * `PropFinish`: `C109_done_is_the_content_refuted`, `C109_done_is_the_content_partial`
  * `PropGone`: `C173_again_refuted`, `C173_gone_exact`, `C173_incomplete_exact`
  * `PropHears`: `C165_only`
  * `PropIdle`: `C153_one_message`, `C153_such_peers`
  * `PropInterested`: `C151_once_refuted`, `C151_unbounded`, `C151_choked_partial`, `C151_spaced_partial`, `C151_half_exact`
  * `PropInterval`: `C126_pause_refuted`, `C126_pause_partial`, `C126_pause_exact`, `C126_default_refuted`, `C126_interval_exact`, `C126_told_exact`, `C126_udp_exact`
  * `PropLeak`: `C110_only_used_open_refuted`, `C110_one_each_refuted`, `C110_nothing_closed_before_stop`, `C110_five_each_partial`, `C110_five_each_reached`, `C110_left_by_stop`
  * `PropLogger`: `C58_documented_levels_refuted`, `C58_accepted_exact`, `C58_logger_exact`, `C58_trace_warning_rejected`, `C58_documented_levels_partial`
  * `PropManager`: `C51_add_peer`, `C51_one_entry`, `C51_added_once`, `C51_keys_differ`, `C52_limit_refuted`, `C52_unbounded`, `C53_stop_no_panic_refuted`, `C53_all_closed_refuted`, `C53_stop_exact`, `C53_stop_again_partial`, `C57_announces`, `C57_first_success`, `C57_dials`, `C59_peer_num_refuted`, `C59_peer_num_partial`, `C71_no_panic_refuted`, `C71_panics_exact`, `C72_working_refuted`, `C72_peer_num_exact`, `C73_after_cancel`, `C73_ends`, `C74_retried_refuted`, `C74_never_again`
  * `PropMem`: `C101_proportional_refuted`, `C101_bound_exact`, `C101_complete_partial`, `C102_proportional_refuted`, `C102_room_exact`, `C102_proportional_partial`
  * `PropMsg`: `C13_frame_round_trip_refuted`, `C13_frame_round_trip_partial`, `C13_type_99_exact`, `C14_request_bytes_refuted`, `C14_request_bytes_exact`, `C14_request_right_only_for_zeros`, `C14_request_accessors_partial`, `C15_decode_no_panic_refuted`, `C15_decode_panics_exact`, `C15_decode_no_panic_partial`, `C16_have_fields`, `C16_request_cancel_fields`, `C16_piece_fields`, `C16_other_fields`, `C17_bit_order_refuted`, `C17_bit_order_exact`, `C17_bit_order_partial`
  * `PropName`: `C170_harmless_refuted`, `C170_name_dooms`, `C170_name_crashes`, `C170_when`, `C170_host_name`
  * `PropOffer`: `C87_http_success`, `C87_status`, `C87_failure_reason`, `C88_all_offered`, `C89_every_peer_tried`, `C89_all_tried`
  * `PropOrder`: `C149_order`, `C149_runs`, `C150_files`, `C150_same`
  * `PropOrigin`: `C118_origin`, `C118_only_its_files`
  * `PropOutput`: `C130_reason_refuted`, `C130_text_exact`, `C130_bencode_partial`, `C131_version_refuted`, `C131_config_exact`, `C131_version_partial`
  * `PropPeer`: `C27_stored_in_place_refuted`, `C27_only_verified_stored_partial`, `C27_only_verified_stored_single_partial`, `C27_writer_in_order`, `C36_accepted_iff`, `C36_own_handshake`, `C36_client_id`, `C36_announce`, `C37_state_follows_messages`, `C65_known_pieces`, `C38_unchoked_peer_asked_refuted`, `C38_nothing_ever_requested`, `C38_asked_if_interested_partial`, `C39_one_outstanding`, `C40_all_pieces_requested_refuted`, `C40_only_piece_zero`, `C40_one_piece_per_peer`, `C41_requests_known_refuted`, `C41_reserved_known_partial`, `C41_reserved_once_partial`, `C42_claimed_piece_covered_refuted`, `C42_requests_exact`, `C42_covered_iff_partial`, `C42_claimed_never_covered`, `C43_cancelled_partial`, `C43_no_request_after_cancel_refuted`, `C43_done_partial`, `C43_returns_when_done_refuted`
  * `PropPrint`: `C95_indented_refuted`, `C95_text_exact`, `C95_built_partial`, `C96_page`, `C96_total_length_refuted`, `C96_date_refuted`, `C96_date_exact`
  * `PropProgram`: `C119_announced`, `C119_peers`, `C119_stored`, `C119_other_commands`, `C120_resume_refuted`, `C120_starts_empty_exact`
  * `PropQuery`: `C145_spelled`, `C145_one_way`, `C145_characters`, `C145_announce`, `C146_hash_refuted`, `C146_hash_exact`, `C146_right_iff_partial`
  * `PropRace`: `C107_race_free_refuted`, `C107_race_free_partial`, `C108_add_before_wait_refuted`, `C108_add_before_wait_exact`
  * `PropReply`: `C156_reply`, `C156_order`, `C156_other_keys`, `C157_peers6_refuted`, `C157_ignored_exact`, `C157_alone_exact`
  * `PropShutdown`: `C54_returns_when_done_refuted`, `C54_only_when_cancelled`, `C54_returns_when_cancelled_partial`, `C55_no_panic_after_cancel_refuted`, `C55_closed_send_panics`, `C55_all_ended_partial`, `C56_written_refuted`, `C56_few_missing_partial`, `C56_bound_exact`, `C56_drain_partial`
  * `PropSignal`: `C172_second_refuted`, `C172_second_exact`, `C172_only_first_exact`
  * `PropSize`: `C97_below_1024_refuted`
  * `PropSocket`: `C163_cuts`, `C163_sound`, `C163_complete`, `C164_taken`, `C164_stored`
  * `PropSource`: `C140_web_seeds_refuted`, `C140_asked_exact`, `C141_tiers_refuted`, `C141_announce_refuted`, `C141_any_order_exact`, `C142_udp_refuted`, `C142_dialled_exact`, `C142_deaf`, `C143_empty_file_refuted`, `C143_no_file_exact`
  * `PropStack`: `C127_stack_refuted`, `C127_size_exact`, `C127_stack_partial`, `C127_overflow_exact`, `C127_value_exact`, `C127_entry_exact`
  * `PropStats`: `C31_nothing_lost_or_duplicated`, `C31_answers`, `C32_counters_conserved`, `C33_left_never_underflows_refuted`, `C33_left_exact`, `C33_left_never_underflows_partial`, `C35_print_never_crashes_refuted`, `C63_counted_is_stored_refuted`, `C63_every_message_counts_exact`, `C64_beyond_refuted`
  * `PropStatus`: `C02_panics_exact`, `C125_no_crash_refuted`, `C125_status_exact`, `C125_starts_exact`, `C125_printed_exact`
  * `PropStays`: `C152_recorded_stays`, `C152_finished_stays_refuted`, `C152_finished_stays_partial`
  * `PropStream`: `C100_whole_messages_refuted`, `C100_reads_choke_refuted`, `C100_whole_messages_partial`
  * `PropTimed`: `C90_refuted`, `C90_silence_exact`, `C91_refuted`, `C92_run_exact`, `C92_refuted`, `C92_unchoke_partial`, `C94_no_busy_loop`
  * `PropTorrent`: `C20_new_pieces`, `C21_next_hands_out_once`, `C22_done_iff_all_marked`, `C22_any_indices`, `C23_block_lands_at_its_position`, `C23_failing_writes_store_a_prefix`, `C23_disk_after_any_run`, `C23_single_file_disk_after_any_run`, `C24_single_file_bounded_refuted`, `C24_single_file_length_exact`, `C24_multi_file_bounded_partial`, `C25_entries_at_their_paths_refuted`, `C25_only_first_component_exact`, `C25_flat_torrents_partial`, `C25_empty_path_panics`, `C26_inside_download_dir_refuted`, `C26_places_exact`, `C26_inside_download_dir_partial`, `C28_fully_stored_is_done_refuted`, `C28_incomplete_not_recorded_refuted`, `C28_marks_exact`, `C28_full_length_pieces_done_partial`, `C29_length`, `C29_beyond_2_53`, `C30_trackers`, `C61_new_torrent_not_done_refuted`, `C61_new_torrent_not_done_exact`, `C62_one_hash_per_piece_refuted`, `C62_check_panics_exact`
  * `PropTracker`: `C44_compact_peers`, `C44_every_string`, `C45_asks_compact_partial`, `C45_compact_reply_accepted_refuted`, `C45_compact_reply_rejected`, `C46_valid_addresses_refuted`, `C46_peers_exact`, `C46_valid_entries_partial`, `C47_udp_responses`, `C48_announce_request_refuted`, `C48_never_bep15`, `C48_announce_request_exact`, `C49_udp_announce_refuted`, `C49_udp_announce_always_fails`, `C50_no_panic_refuted`, `C50_panics_exact`, `C50_announce_no_panic_partial`, `C60_wait_positive_refuted`, `C60_wait_positive_exact`, `C60_sane_interval_partial`, `C60_udp_wait_positive`, `C66_announce_query`, `C66_query_round_trip`, `C67_url_with_query_refuted`, `C67_url_with_query_exact`, `C68_http_no_panic_refuted`, `C68_http_panics_exact`, `C69_protocols`, `C70_udp_requests`
  * `PropTurns`: `C154_in_order`, `C154_in_turn`
  * `PropUnmarshal`: `C09_unmarshal_int_field`, `C09_int_element_stored_iff_fits`, `C09_signed_field_exact`, `C09_unsigned_field_exact`, `C09_literal_unique`, `C10_unmarshal_exact`, `C10_missing_required_key_fails`, `C10_untouched_fields`, `C10_present_field_converted`, `C11_unmarshal_no_panic_refuted`, `C11_unmarshal_panics_exact`, `C11_unmarshal_no_panic_partial`, `C12_info_hash_is_hash_of_file_bytes`, `C12_info_hash_for_every_layout`
  * `PropUrl`: `C132_protocol`, `C67_fragment_exact`
  * `PropWaiting`: `C159_bounded`, `C159_waits_exact`, `C159_freed`
  * `PropWire`: `C99_signals`, `C99_have`, `C99_cancel_refuted`, `C99_cancel_exact`, `C99_bitfield_refuted`, `C99_bitfield_exact`, `C99_bitfield_in_step_exact`

## Properties and theorems

| id | property | status | file | theorems |
|---|---|---|---|---|
| C01 | Parse always terminates | proved | `PropBencode` | `C01_parse_terminates` |
| C02 | Parse does not crash on hostile input | partial (refuted) | `PropBencode`, `PropStatus` | `C02_parse_no_panic_refuted`, `C02_parse_no_panic_partial`, `C02_parse_panics_exact`, `C02_panics_exact` |
| C03 | Parse accepts exactly bencode and returns the denoted value | proved | `PropBencode` | `C03_parse_accepts_exactly_bencode`, `C03_parse_accepts_exactly_wrapped`, `C03_grammar_unambiguous` |
| C04 | Raw returns the element's own bytes | proved | `PropBencode` | `C04_raw_is_own_bytes`, `C04_raw_top_level` |
| C05 | Encode then Parse gives the element back | proved | `PropBencode` | `C05_encode_parse_round_trip`, `C05_round_trip_fails_outside_range`, `C05_encode_total` |
| C06 | Duplicate dictionary keys: last one wins | proved | `PropBencode` | `C06_last_duplicate_wins` |
| C07 | Truncated data is always detected | proved | `PropBencode` | `C07_truncation_detected` |
| C08 | Parse reads only the first element | proved | `PropBencode` | `C08_only_first_element` |
| C09 | Integer fields never silently truncate | proved | `PropUnmarshal` | `C09_unmarshal_int_field`, `C09_int_element_stored_iff_fits`, `C09_signed_field_exact`, `C09_unsigned_field_exact`, `C09_literal_unique` |
| C10 | Unmarshal: required keys, optional keys and untouched fields | proved | `PropUnmarshal` | `C10_unmarshal_exact`, `C10_missing_required_key_fails`, `C10_untouched_fields`, `C10_present_field_converted` |
| C11 | Unmarshal does not crash on well-formed bencode | partial (refuted) | `PropUnmarshal` | `C11_unmarshal_no_panic_refuted`, `C11_unmarshal_panics_exact`, `C11_unmarshal_no_panic_partial` |
| C12 | Info hash identifies the info dictionary bytes | proved | `PropUnmarshal` | `C12_info_hash_is_hash_of_file_bytes`, `C12_info_hash_for_every_layout` |
| C13 | Peer message framing round trip | partial (refuted) | `PropMsg` | `C13_frame_round_trip_refuted`, `C13_frame_round_trip_partial`, `C13_type_99_exact` |
| C14 | Block requests carry index, begin and length on the wire | partial (refuted) | `PropMsg` | `C14_request_bytes_refuted`, `C14_request_bytes_exact`, `C14_request_right_only_for_zeros`, `C14_request_accessors_partial` |
| C15 | Decoding a peer message never crashes | partial (refuted) | `PropMsg` | `C15_decode_no_panic_refuted`, `C15_decode_panics_exact`, `C15_decode_no_panic_partial` |
| C16 | Decoded fields follow BEP-3 | proved | `PropMsg` | `C16_have_fields`, `C16_request_cancel_fields`, `C16_piece_fields`, `C16_other_fields` |
| C17 | Bitfield bit order | partial (refuted) | `PropMsg` | `C17_bit_order_refuted`, `C17_bit_order_exact`, `C17_bit_order_partial` |
| C18 | Message stream framing is independent of TCP segmentation | proved | `PropConn` | `C18_framing_independent_of_segmentation`, `C18_same_bytes_same_outcome`, `C18_incomplete_frame_is_an_error` |
| C19 | A read timeout does not break framing | partial (refuted) | `PropConn` | `C19_timeout_keeps_framing_refuted`, `C19_timeout_drops_prefix_exact`, `C19_body_taken_for_frames`, `C19_timeout_between_frames_partial` |
| C20 | NewPieces splits the hash string exactly | proved | `PropTorrent` | `C20_new_pieces` |
| C21 | Next hands out each piece at most once, only if the peer has it, lowest first | proved | `PropTorrent` | `C21_next_hands_out_once` |
| C22 | Done means every piece was stored | proved | `PropTorrent` | `C22_done_iff_all_marked`, `C22_any_indices` |
| C23 | Piece data lands at its torrent position | proved | `PropTorrent` | `C23_block_lands_at_its_position`, `C23_failing_writes_store_a_prefix`, `C23_disk_after_any_run`, `C23_single_file_disk_after_any_run` |
| C24 | Files never grow past their declared length | partial (refuted) | `PropTorrent` | `C24_single_file_bounded_refuted`, `C24_single_file_length_exact`, `C24_multi_file_bounded_partial` |
| C25 | Every torrent entry gets its own file at its path | partial (refuted) | `PropTorrent` | `C25_entries_at_their_paths_refuted`, `C25_only_first_component_exact`, `C25_flat_torrents_partial`, `C25_empty_path_panics` |
| C26 | Downloads stay inside the output directory | partial (refuted) | `PropTorrent` | `C26_inside_download_dir_refuted`, `C26_places_exact`, `C26_inside_download_dir_partial` |
| C27 | Only verified data is stored | partial (refuted) | `PropPeer` | `C27_stored_in_place_refuted`, `C27_only_verified_stored_partial`, `C27_only_verified_stored_single_partial`, `C27_writer_in_order` |
| C28 | A complete piece is recorded, an incomplete one is not | partial (refuted) | `PropTorrent` | `C28_fully_stored_is_done_refuted`, `C28_incomplete_not_recorded_refuted`, `C28_marks_exact`, `C28_short_last_piece_never_done`, `C28_short_last_piece_never_done_single`, `C28_full_length_pieces_done_partial` |
| C29 | PiecesNum is the ceiling of length over piece length | proved | `PropTorrent` | `C29_pieces_num_is_ceiling`, `C29_length`, `C29_beyond_2_53` |
| C30 | Trackers are exactly the announced URLs | proved | `PropTorrent` | `C30_trackers` |
| C31 | Failed-request queue loses and duplicates nothing | proved | `PropStats` | `C31_nothing_lost_or_duplicated`, `C31_answers` |
| C32 | Download statistics are conserved | proved | `PropStats` | `C32_counters_conserved` |
| C33 | Left never underflows | partial (refuted) | `PropStats` | `C33_left_never_underflows_refuted`, `C33_left_exact`, `C33_left_never_underflows_partial` |
| C34 | Percent completed is between 0 and 100 | proved | `PropStats` | `C34_percent_in_range`, `C34_complete_is_100` |
| C35 | Progress printing never crashes | partial (refuted) | `PropStats` | `C35_print_never_crashes_refuted`, `C35_bar_exact`, `C35_print_never_crashes_partial` |
| C36 | Handshake acceptance | proved | `PropPeer` | `C36_accepted_iff`, `C36_own_handshake`, `C36_client_id`, `C36_announce` |
| C37 | Peer protocol state follows the messages received | proved | `PropPeer` | `C37_state_follows_messages` |
| C38 | An unchoked peer is asked for pieces | partial (refuted) | `PropPeer` | `C38_unchoked_peer_asked_refuted`, `C38_nothing_ever_requested`, `C38_asked_if_interested_partial` |
| C39 | At most one outstanding block request per peer | proved | `PropPeer` | `C39_one_outstanding` |
| C40 | The download progresses through all pieces | partial (refuted) | `PropPeer` | `C40_all_pieces_requested_refuted`, `C40_only_piece_zero`, `C40_one_piece_per_peer` |
| C41 | Requests only name pieces the peer has and that were claimed | partial (refuted) | `PropPeer` | `C41_requests_known_refuted`, `C41_reserved_known_partial`, `C41_reserved_once_partial` |
| C42 | Blocks of a claimed piece are requested completely | partial (refuted) | `PropPeer` | `C42_claimed_piece_covered_refuted`, `C42_requests_exact`, `C42_covered_iff_partial`, `C42_claimed_never_covered` |
| C43 | Run stops on cancellation or completion | partial (refuted) | `PropPeer` | `C43_cancelled_partial`, `C43_no_request_after_cancel_refuted`, `C43_done_partial`, `C43_returns_when_done_refuted` |
| C44 | Compact peer lists decode exactly | proved | `PropTracker` | `C44_compact_peers`, `C44_every_string` |
| C45 | Compact HTTP tracker replies are accepted | partial (refuted) | `PropTracker` | `C45_compact_reply_accepted_refuted`, `C45_compact_reply_rejected`, `C45_asks_compact_partial` |
| C46 | Only valid peer addresses are returned | partial (refuted) | `PropTracker` | `C46_valid_addresses_refuted`, `C46_peers_exact`, `C46_valid_entries_partial` |
| C47 | UDP responses are matched to their request | proved | `PropTracker` | `C47_udp_responses` |
| C48 | UDP announce request layout | partial (refuted) | `PropTracker` | `C48_announce_request_refuted`, `C48_never_bep15`, `C48_announce_request_exact` |
| C49 | UDP announce succeeds with a conforming tracker | partial (refuted) | `PropTracker` | `C49_udp_announce_refuted`, `C49_udp_announce_always_fails` |
| C50 | UDP responses cannot crash the client | partial (refuted) | `PropTracker` | `C50_no_panic_refuted`, `C50_panics_exact`, `C50_announce_no_panic_partial` |
| C51 | One pool entry per peer address | proved | `PropManager` | `C51_add_peer`, `C51_one_entry`, `C51_added_once`, `C51_keys_differ` |
| C52 | The peer limit is respected | partial (refuted) | `PropManager` | `C52_limit_refuted`, `C52_unbounded` |
| C53 | Stop is safe | partial (refuted) | `PropManager` | `C53_stop_no_panic_refuted`, `C53_all_closed_refuted`, `C53_stop_exact`, `C53_stop_again_partial` |
| C54 | Download returns when the torrent is complete | partial (refuted) | `PropShutdown` | `C54_returns_when_done_refuted`, `C54_only_when_cancelled`, `C54_returns_when_cancelled_partial` |
| C55 | Shutdown does not crash in-flight peers | partial (refuted) | `PropShutdown` | `C55_no_panic_after_cancel_refuted`, `C55_closed_send_panics`, `C55_all_ended_partial` |
| C56 | Accepted pieces are on disk when Download returns | partial (refuted) | `PropShutdown` | `C56_written_refuted`, `C56_few_missing_partial`, `C56_bound_exact`, `C56_drain_partial` |
| C57 | Announce attempts are bounded | proved | `PropManager` | `C57_announces`, `C57_first_success`, `C57_dials` |
| C58 | Documented log levels are accepted | partial (refuted) | `PropLogger` | `C58_documented_levels_refuted`, `C58_accepted_exact`, `C58_logger_exact`, `C58_trace_warning_rejected`, `C58_documented_levels_partial` |
| C59 | Peer statistics equal live pool entries | partial (refuted) | `PropManager` | `C59_peer_num_refuted`, `C59_peer_num_partial` |
| C60 | The re-announce interval is never zero | partial (refuted) | `PropTracker` | `C60_wait_positive_refuted`, `C60_wait_positive_exact`, `C60_sane_interval_partial`, `C60_udp_wait_positive` |
| C61 | A fresh torrent with data is not done | partial (refuted) | `PropTorrent` | `C61_new_torrent_not_done_refuted`, `C61_new_torrent_not_done_exact`, `C61_zero_piece_length`, `C61_new_torrent_not_done_partial` |
| C62 | There is a hash for every piece | partial (refuted) | `PropTorrent` | `C62_one_hash_per_piece_refuted`, `C62_check_panics_exact` |
| C63 | Only stored data counts as downloaded | partial (refuted) | `PropStats` | `C63_counted_is_stored_refuted`, `C63_every_message_counts_exact` |
| C64 | The progress percentage never goes backwards | proved | `PropStats` | `C64_percent_monotone`, `C64_beyond_refuted` |
| C65 | The pieces a peer is believed to have | proved | `PropPeer` | `C65_known_pieces` |
| C66 | The announce request transmits its values exactly | proved | `PropTracker` | `C66_announce_query`, `C66_query_round_trip` |
| C67 | Announce URLs that have a query already | partial (refuted) | `PropTracker`, `PropUrl` | `C67_url_with_query_refuted`, `C67_url_with_query_exact`, `C67_fragment_exact` |
| C68 | HTTP replies cannot crash the client | partial (refuted) | `PropTracker` | `C68_http_no_panic_refuted`, `C68_http_panics_exact` |
| C69 | Tracker protocols | proved | `PropTracker` | `C69_protocols` |
| C70 | UDP requests | proved | `PropTracker` | `C70_udp_requests` |
| C71 | Tracker goroutines do not crash the process | partial (refuted) | `PropManager` | `C71_no_panic_refuted`, `C71_panics_exact` |
| C72 | The peer count shows working peers | partial (refuted) | `PropManager` | `C72_working_refuted`, `C72_peer_num_exact` |
| C73 | Cancellation stops the trackers | proved | `PropManager` | `C73_after_cancel`, `C73_ends` |
| C74 | Unreachable peers are tried again | partial (refuted) | `PropManager` | `C74_retried_refuted`, `C74_never_again` |
| C75 | Log flags take effect | partial (refuted) | `PropCmd` | `C75_log_flags_refuted`, `C75_logger_fixed`, `C75_flags_ignored` |
| C76 | The configuration file is the one asked for | partial (refuted) | `PropCmd` | `C76_config_refuted`, `C76_only_default_exact`, `C76_broken_config`, `C76_version_partial`, `C76_initConfig_exact` |
| C77 | A failing download command changes nothing | partial (refuted) | `PropCmd` | `C77_failure_changes_nothing_refuted`, `C77_failure_changes_nothing_partial`, `C77_left_behind_exact` |
| C78 | Exit status 0 means complete | partial (refuted) | `PropCmd` | `C78_status_refuted`, `C78_status_exact`, `C78_not_started` |
| C79 | bencode prints metadata | partial (refuted) | `PropCmd` | `C79_prints_refuted`, `C79_status_exact` |
| C80 | StringSet is a set | proved | `PropCmd` | `C80_set_add`, `C80_set_add_all`, `C80_contains` |
| C81 | The metainfo is what the document says | proved | `PropCmd` | `C81_metainfo`, `C81_started` |
| C82 | No request while choked | proved | `PropExchange` | `C82_no_request_while_choked` |
| C83 | Requests are conserved | proved | `PropExchange` | `C83_requests_conserved` |
| C84 | A request survives its peer | partial (refuted) | `PropExchange` | `C84_request_survives_peer_refuted`, `C84_lost_only_with_its_peer_partial` |
| C85 | An answered request is not sent again | partial (refuted) | `PropExchange` | `C85_answered_not_asked_again_refuted`, `C85_asked_again_after_error_partial` |
| C86 | Printing does not crash the download | partial (refuted) | `PropExchange` | `C86_printing_refuted`, `C86_repeated_piece_crashes`, `C86_printing_safe_partial` |
| C87 | Tracker errors are errors | proved | `PropOffer` | `C87_http_success`, `C87_status`, `C87_failure_reason` |
| C88 | Every address of a reply is offered to the pool | proved | `PropOffer` | `C88_all_offered` |
| C89 | A peer is given up only after five attempts | proved | `PropOffer` | `C89_every_peer_tried`, `C89_all_tried` |
| C90 | A connected peer hears from us every two minutes | partial (refuted) | `PropTimed` | `C90_no_silence_partial`, `C90_refuted`, `C90_silence_exact` |
| C91 | Keep-alives are sent only when idle | partial (refuted) | `PropTimed` | `C91_keepalive_partial`, `C91_apart_partial`, `C91_refuted` |
| C92 | Repeated failures are retried after growing delays | partial (refuted) | `PropTimed` | `C92_run_exact`, `C92_refuted`, `C92_unchoke_partial` |
| C93 | A dead connection is given up | partial (refuted) | `PropTimed` | `C93_unchoked_partial`, `C93_refuted`, `C93_choked_exact` |
| C94 | Failures do not make a peer spin | proved | `PropTimed` | `C94_no_busy_loop` |
| C95 | Nested elements are indented by their depth | partial (refuted) | `PropPrint` | `C95_indented_refuted`, `C95_text_exact`, `C95_built_partial` |
| C96 | The printed metadata is what the torrent file says | partial (refuted) | `PropPrint` | `C96_page`, `C96_total_length_refuted`, `C96_date_refuted`, `C96_date_exact` |
| C97 | Sizes are shown right to one decimal | partial (refuted) | `PropSize` | `C97_size_right`, `C97_below_1024_refuted`, `C97_below_1024_exact` |
| C98 | The progress line tells the state of the download | proved | `PropSize` | `C98_line_right`, `C98_percent_right` |
| C99 | Messages have the bytes the protocol prescribes | partial (refuted) | `PropWire` | `C99_signals`, `C99_have`, `C99_cancel_refuted`, `C99_cancel_exact`, `C99_bitfield_refuted`, `C99_bitfield_exact`, `C99_bitfield_in_step_exact` |
| C100 | A peer receives whole messages | partial (refuted) | `PropStream` | `C100_whole_messages_refuted`, `C100_reads_choke_refuted`, `C100_whole_messages_partial` |
| C101 | Reading a message takes memory in proportion to what arrives | partial (refuted) | `PropMem` | `C101_proportional_refuted`, `C101_bound_exact`, `C101_complete_partial` |
| C102 | The pieces noted for a peer take memory in proportion to what it sends | partial (refuted) | `PropMem` | `C102_proportional_refuted`, `C102_room_exact`, `C102_proportional_partial` |
| C103 | Trackers are left alone between announces | proved | `PropClock` | `C103_left_alone` |
| C104 | Announces are made in time | partial (refuted) | `PropClock` | `C104_in_time_refuted`, `C104_in_time_partial`, `C104_late_exact` |
| C105 | Connection attempts are spaced | partial (refuted) | `PropClock` | `C105_apart_refuted`, `C105_apart_exact`, `C105_given_up_exact` |
| C106 | Addresses of a reply do not wait for each other | partial (refuted) | `PropClock` | `C106_soon_refuted`, `C106_soon_partial`, `C106_wait_exact` |
| C107 | No data races | partial (refuted) | `PropRace` | `C107_race_free_refuted`, `C107_race_free_partial` |
| C108 | The wait group is used as documented | partial (refuted) | `PropRace` | `C108_add_before_wait_refuted`, `C108_add_before_wait_exact` |
| C109 | A finished download is the torrent's content | partial (refuted) | `PropFinish` | `C109_done_is_the_content_refuted`, `C109_done_is_the_content_partial` |
| C110 | Connections no longer used are closed | partial (refuted) | `PropLeak` | `C110_only_used_open_refuted`, `C110_one_each_refuted`, `C110_nothing_closed_before_stop`, `C110_five_each_partial`, `C110_five_each_reached`, `C110_left_by_stop` |
| C111 | Trackers hear started once, then completed and stopped | partial (refuted) | `PropClient` | `C111_started_once_refuted`, `C111_stopped_refuted`, `C111_completed_refuted`, `C111_always_started_partial` |
| C112 | Announced numbers describe the download | partial (refuted) | `PropClient` | `C112_sum_refuted`, `C112_left_refuted`, `C112_values_partial`, `C112_not_older_partial` |
| C113 | Messages are exchanged only after the handshake | proved | `PropClient` | `C113_handshake_first`, `C113_one_run` |
| C114 | Only addresses from the tracker's replies are dialled | proved | `PropClient` | `C114_replied_dialled`, `C114_replied_added`, `C114_named_dialled`, `C114_named_added` |
| C115 | A download works with peers that answer requests | partial (refuted) | `PropClient` | `C115_download_refuted`, `C115_nothing_stored` |
| C116 | A signal ends the process with status 0 | partial (refuted) | `PropClient` | `C116_status_refuted`, `C116_ends_partial`, `C116_only_signal` |
| C117 | The process never crashes | partial (refuted) | `PropCrash` | `C117_never_crashes_refuted`, `C117_causes_exact`, `C117_never_crashes_partial` |
| C118 | Bytes on disk come from peers of the torrent | proved | `PropOrigin` | `C118_origin`, `C118_only_its_files` |
| C119 | A download is of the torrent in the file given | proved | `PropProgram` | `C119_announced`, `C119_peers`, `C119_stored`, `C119_other_commands` |
| C120 | A download started again continues | partial (refuted) | `PropProgram` | `C120_resume_refuted`, `C120_starts_empty_exact` |
| C121 | Trackers are announced to again and again | partial (refuted) | `PropAgain` | `C121_again_refuted`, `C121_again_partial`, `C121_never_again_exact` |
| C122 | A tracker gets back the tracker id it gave | partial (refuted) | `PropAgain2` | `C122_id_refuted`, `C122_own_id_exact` |
| C123 | A peer that asks is served | partial (refuted) | `PropAgain2` | `C123_serve_refuted`, `C123_sent_exact`, `C123_never_served_exact` |
| C124 | When every piece has arrived the files are complete | partial (refuted) | `PropArrive` | `C124_complete_refuted`, `C124_complete_partial` |
| C125 | The exit status before a download begins | partial (refuted) | `PropStatus` | `C125_no_crash_refuted`, `C125_status_exact`, `C125_starts_exact`, `C125_printed_exact` |
| C126 | The pause between announces to a tracker | partial (refuted) | `PropInterval` | `C126_pause_refuted`, `C126_pause_partial`, `C126_pause_exact`, `C126_default_refuted`, `C126_interval_exact`, `C126_told_exact`, `C126_udp_exact` |
| C127 | Deeply nested data | partial (refuted) | `PropStack` | `C127_stack_refuted`, `C127_size_exact`, `C127_stack_partial`, `C127_overflow_exact`, `C127_value_exact`, `C127_entry_exact` |
| C128 | Addresses of peers written as text | partial (refuted) | `PropAddr` | `C128_names_refuted`, `C128_names_exact`, `C128_parse_exact`, `C128_entry_exact`, `C128_range_partial`, `C128_shown_partial` |
| C129 | One host, one peer | partial (refuted) | `PropAddr` | `C129_hosts_refuted`, `C129_twice_exact`, `C129_keys_exact` |
| C130 | A failing command says why | partial (refuted) | `PropOutput` | `C130_reason_refuted`, `C130_text_exact`, `C130_bencode_partial` |
| C131 | The version command | partial (refuted) | `PropOutput` | `C131_version_refuted`, `C131_config_exact`, `C131_version_partial` |
| C132 | The protocol of a tracker | proved | `PropUrl` | `C132_protocol` |
| C133 | The command line of the usage text | partial (refuted) | `PropArgs` | `C133_usage_refuted`, `C133_usage_exact`, `C133_out_partial` |
| C134 | Options in any form and order | proved | `PropArgs` | `C134_download_exact`, `C134_bencode_exact`, `C134_version_exact` |
| C135 | Numbers on the command line | partial (refuted) | `PropArgs` | `C135_decimal_refuted`, `C135_decimal_partial`, `C135_numbers_exact` |
| C136 | The announced port | partial (refuted) | `PropArgs` | `C136_port_refuted`, `C136_port_exact` |
| C137 | Options before the command | partial (refuted) | `PropArgs` | `C137_before_refuted`, `C137_before_partial`, `C137_before_exact` |
| C138 | Bencode as BEP 3 has it gives its value | partial (refuted) | `PropBep` | `C138_read_refuted`, `C138_value_refuted`, `C138_refused_exact`, `C138_value_exact`, `C138_right_exact` |
| C139 | Torrent files as the BEPs have them are accepted | partial (refuted) | `PropBep` | `C139_accepted_refuted`, `C139_accepted_exact`, `C139_status_exact` |
| C140 | Web seeds are not announced to | partial (refuted) | `PropSource` | `C140_web_seeds_refuted`, `C140_asked_exact` |
| C141 | Tiers of trackers are tried in order | partial (refuted) | `PropSource` | `C141_tiers_refuted`, `C141_announce_refuted`, `C141_any_order_exact` |
| C142 | A torrent with UDP trackers only can get peers | partial (refuted) | `PropSource` | `C142_udp_refuted`, `C142_dialled_exact`, `C142_deaf` |
| C143 | A torrent of one empty file gives an empty file | partial (refuted) | `PropSource` | `C143_empty_file_refuted`, `C143_no_file_exact` |
| C144 | Torrents whose numbers make no sense are refused | partial (refuted) | `PropBep` | `C144_numbers_refuted`, `C144_unchecked_exact` |
| C145 | The text of announce URLs | proved | `PropQuery` | `C145_spelled`, `C145_one_way`, `C145_characters`, `C145_announce` |
| C146 | Announces read by RFC 3986 | partial (refuted) | `PropQuery` | `C146_hash_refuted`, `C146_hash_exact`, `C146_right_iff_partial` |
| C147 | Order of keys and unknown keys of a torrent file | proved | `PropAlike` | `C147_entries`, `C147_order`, `C147_other_keys` |
| C148 | Unknown keys of the info dictionary | proved | `PropAlike` | `C148_info_keys` |
| C149 | The order of blocks does not matter | proved | `PropOrder` | `C149_order`, `C149_runs` |
| C150 | Two finished downloads have the same files | proved | `PropOrder` | `C150_files`, `C150_same` |
| C151 | Interested is said once | partial (refuted) | `PropInterested` | `C151_once_refuted`, `C151_unbounded`, `C151_choked_partial`, `C151_spaced_partial`, `C151_half_exact` |
| C152 | A finished download stays finished | partial (refuted) | `PropStays` | `C152_recorded_stays`, `C152_finished_stays_refuted`, `C152_finished_stays_partial`, `C152_directory_partial` |
| C153 | Messages that tell nothing change nothing | proved | `PropIdle` | `C153_one_message`, `C153_such_peers` |
| C154 | Accepted pieces are written | proved | `PropTurns` | `C154_in_order`, `C154_in_turn` |
| C155 | Encode writes bencode as BEP 3 has it | partial (refuted) | `PropEncode` | `C155_bep_refuted`, `C155_one_text_refuted`, `C155_bep_exact`, `C155_one_text_exact`, `C155_bep_partial`, `C155_some_order` |
| C156 | What of a tracker's reply matters | proved | `PropReply` | `C156_reply`, `C156_order`, `C156_other_keys` |
| C157 | IPv6 peers of a reply are used | partial (refuted) | `PropReply` | `C157_peers6_refuted`, `C157_ignored_exact`, `C157_alone_exact` |
| C158 | Every torrent can be downloaded | partial (refuted) | `PropPossible` | `C158_downloadable_refuted`, `C158_downloadable_exact`, `C158_stored_partial` |
| C159 | Data waits for the disk in bounded numbers, and nobody waits for ever | proved | `PropWaiting` | `C159_bounded`, `C159_waits_exact`, `C159_freed` |
| C160 | The program can download every torrent with an HTTP tracker, and no other | proved | `PropCan` | `C160_downloadable` |
| C161 | Corrupt data has no effect | proved | `PropCorrupt` | `C161_no_effect`, `C161_one_message` |
| C162 | Peers that send corrupt data are dropped | partial (refuted) | `PropCorrupt` | `C162_dropped_refuted`, `C162_goes_on` |
| C163 | How TCP cuts up what peers send does not matter | proved | `PropSocket` | `C163_cuts`, `C163_sound`, `C163_complete` |
| C164 | Messages read from a peer are what arrived on its connection | proved | `PropSocket` | `C164_taken`, `C164_stored` |
| C165 | Exactly what a peer hears from us | proved | `PropHears` | `C165_only`, `C165_exact` |
| C166 | One connected peer can complete a download | proved | `PropRescue` | `C166_rescue` |
| C167 | A running download can still be completed | proved | `PropStill` | `C167_still` |
| C168 | A peer that was never reached and the end of the process | proved | `PropDoom` | `C168_never_zero`, `C168_ends_in_crash`, `C168_exact` |
| C169 | Complete files and status 0 can come together exactly if no peer was given up | proved | `PropBoth` | `C169_both` |
| C170 | A peer given by its host name does no harm | partial (refuted) | `PropName` | `C170_harmless_refuted`, `C170_name_dooms`, `C170_name_crashes`, `C170_when`, `C170_host_name` |
| C171 | A download stopped before its first announce ends cleanly | proved | `PropEarly` | `C171_nothing_happens`, `C171_status` |
| C172 | A second signal ends the process | partial (refuted) | `PropSignal` | `C172_second_refuted`, `C172_second_exact`, `C172_only_first_exact` |
| C173 | A peer that was lost is connected to again | partial (refuted) | `PropGone` | `C173_again_refuted`, `C173_gone_exact`, `C173_incomplete_exact` |

## What the code does against expectation

* C02 (Parse does not crash on hostile input). REFUTED: Parse("9223372036854775807:") panics (length overflows to -1). Proved: it panics on exactly the data where an element or key is expected and a string with such an overflowing length stands (C02_panics_exact); inputs without numbers above 922337203685477580 never panic.
* C11 (Unmarshal does not crash on well-formed bencode). REFUTED: Unmarshal of a well-formed non-dictionary (e.g. i5e) into a struct with a tagged field panics. Proved: exactly when it panics (map types keyed by strings); dictionaries never panic.
* C13 (Peer message framing round trip). REFUTED for bodies of the unassigned type 99, which are written as a bare length; proved for all other bodies.
* C14 (Block requests carry index, begin and length on the wire). REFUTED: the three PutUint32 calls overwrite each other; the wire carries the block length and 8 zero bytes. Proved: the exact bytes, and that they are right only for index=offset=length=0.
* C15 (Decoding a peer message never crashes). REFUTED by short have/request/cancel/piece bodies; proved: it panics exactly on those.
* C17 (Bitfield bit order). REFUTED: bits are reversed within each 64-bit word (proved exactly); right for all-ones payloads filling whole words.
* C19 (A read timeout does not break framing). REFUTED: a deadline inside a frame drops what had arrived of it and the next call starts mid-frame; proved exactly, and that timeouts between frames are harmless.
* C24 (Files never grow past their declared length). REFUTED for single-file torrents (writes are unbounded; exact length proved); proved for multi-file torrents with distinct files.
* C25 (Every torrent entry gets its own file at its path). REFUTED: only the first path component is used, so entries collide, and an empty path panics; proved for flat torrents.
* C26 (Downloads stay inside the output directory). REFUTED: '..' in names leaves the directory; exact places proved; proved inside for names without '..' components.
* C27 (Only verified data is stored). REFUTED: the offset of a piece message is not checked, so verified data is stored at piece position + offset, possibly inside another piece; refuted for every hash function with 20-byte output. Proved: every non-zero byte stored is the byte of a message whose data has the SHA-1 of its piece, at the position index*pieceLength+offset of that message; the writer handles exactly what the peers handed over, in order.
* C28 (A complete piece is recorded, an incomplete one is not). REFUTED both ways: a short last piece is never recorded (such torrents are never Done), and the last block alone records a piece; exact condition proved, and Done for torrents of full pieces.
* C33 (Left never underflows). REFUTED: repeated blocks are counted again and Left wraps around; exact value proved, and the claim while no more than the size was received.
* C35 (Progress printing never crashes). REFUTED: from 105 percent on strings.Repeat gets a negative count; exact range proved for every int, and the claim while Download <= size.
* C38 (An unchoked peer is asked for pieces). REFUTED: ClientStatus.Interested is never set, so in every schedule only keep-alives and interested messages are ever written. Proved in addition: with the flag set, an unchoked peer is sent a request in two steps.
* C40 (The download progresses through all pieces). REFUTED for the variant with the interested flag set (without it nothing is requested, C38): with pieces of 128 KiB or more only piece 0 is ever requested, whatever the schedule and number of peers; with smaller pieces at most one piece per peer of an announce round.
* C41 (Requests only name pieces the peer has and that were claimed). REFUTED for the variant with the interested flag set (without it there are no requests, C38): the first requests go to piece 0 without Next and without the peer having it. Proved: pieces reserved by Next were advertised by that peer, and are reserved once over all peers.
* C42 (Blocks of a claimed piece are requested completely). REFUTED: the requests created are exactly characterised; they cover a piece iff its length is a positive multiple of 128 KiB, and a piece is only claimed when it is shorter than that, so a claimed piece is never covered exactly.
* C43 (Run stops on cancellation or completion). REFUTED: one request can still follow the cancellation (variant with the interested flag set), and a goroutine in unchoke goes on without bound after the torrent is done. Proved: after cancellation at most nine more steps and one request, and no blocking unless the channel to the writer is full; after completion at most one request; completion is permanent.
* C45 (Compact HTTP tracker replies are accepted). REFUTED: the client asks for compact=1, but peers and compact peers share the key "peers", and decoding the string into the list of structures fails: every compact reply is an error.
* C46 (Only valid peer addresses are returned). REFUTED: an entry whose ip or port does not parse leaves an invalid zero address in the result. What a reply yields is characterised exactly; addresses of entries that parse are right.
* C48 (UDP announce request layout). REFUTED: binary.Write cannot encode a string, so the info hash is missing, and the port takes four bytes: the request has 80 bytes. The exact layout is proved.
* C49 (UDP announce succeeds with a conforming tracker). REFUTED: ReadAll on a UDP socket only ends at the deadline, with an error, so Announce fails whatever datagrams arrive.
* C50 (UDP responses cannot crash the client). REFUTED: exactly the responses shorter than four bytes panic. Proved: Announce never passes such a response, so it never panics.
* C52 (The peer limit is respected). REFUTED: peerNum is never read; pools of every size are reached whatever the limit.
* C53 (Stop is safe). REFUTED: Stop panics exactly when a peer in the pool has a nil connection, and a connection replaced by a new attempt is never closed. Proved: the exact condition, otherwise all current connections are closed; Stop after Stop does nothing.
* C54 (Download returns when the torrent is complete). REFUTED: in no schedule does Download return before the context is cancelled. Proved: once cancelled it returns under every fair schedule that starts no further peers, unless the process crashes.
* C55 (Shutdown does not crash in-flight peers). REFUTED: wg.Wait can return before the first peer starts, so the channel is closed while a peer is about to send, which panics. Proved: without peers started after wg.Wait, all have ended when the channel is closed.
* C56 (Accepted pieces are on disk when Download returns). REFUTED: Download does not wait for the writer. Proved: at most the latest 1025 messages are missing, in order, every number of them up to 1025 occurs, and the writer can still take them.
* C58 (Documented log levels are accepted). REFUTED: trace and warning are documented but rejected, silent only in this spelling. The accepted strings are characterised exactly (ASCII strings).
* C59 (Peer statistics equal live pool entries). REFUTED after Stop, which drops the pool but not the count. Proved for every state before, modulo 2^64.
* C60 (The re-announce interval is never zero). REFUTED: a reply without interval, or with one not positive or above 9223372036 that wraps, gives no wait at all. Exact condition proved for HTTP and UDP.
* C61 (A fresh torrent with data is not done). REFUTED: piece length 0 makes PiecesNum negative and the torrent Done at once; proved for positive piece lengths.
* C62 (There is a hash for every piece). REFUTED: the number of hashes is not compared with PiecesNum; CheckPiece panics exactly beyond the hashes present.
* C63 (Only stored data counts as downloaded). REFUTED: counted before and regardless of the write; exact count proved.
* C67 (Announce URLs that have a query already). REFUTED: a second question mark is inserted; the first key of the announce (compact) is swallowed by the last value of the given query. The exact query is proved. If the URL has a fragment the announce becomes part of it and nothing is sent (C67_fragment_exact).
* C68 (HTTP replies cannot crash the client). REFUTED: a reply that is not a dictionary panics (status 200). Exact condition proved.
* C71 (Tracker goroutines do not crash the process). REFUTED: AddPeer writes to the nil map when a tracker answers after Stop. The exact condition is proved.
* C72 (The peer count shows working peers). REFUTED: peers that have ended are still counted. Exact value proved.
* C74 (Unreachable peers are tried again). REFUTED: failed peers stay in the pool, so no address is ever added a second time.
* C75 (Log flags take effect). REFUTED: NewCmdRun makes the logger while the commands are built, before the flags are parsed, so it is always info/color.
* C76 (The configuration file is the one asked for). REFUTED: the path is read before the flags are parsed, so --config is ignored; a broken .gotit makes every command fail.
* C77 (A failing download command changes nothing). REFUTED: when creating a later file fails, the earlier files stay created or emptied. Proved for all other failures; exactly what is left is proved.
* C78 (Exit status 0 means complete). REFUTED: Download returns nil only after cancellation, complete or not. Exact meaning of the status proved.
* C79 (bencode prints metadata). REFUTED: nothing is printed (the calls are commented out). The exit status is characterised exactly.
* C84 (A request survives its peer). REFUTED (for a peer that asks, see C38): a peer that ends after sending a request takes it along. Proved: it is lost only with the peer that last took it.
* C85 (An answered request is not sent again). REFUTED (for a peer that asks, see C38): sentPieceMsg stays true after the answer, the next read error queues the answered request and it is sent again. Proved: a read error lies between two requests.
* C86 (Printing does not crash the download). REFUTED: received bytes are counted again for a repeated piece, above 105 % strings.Repeat panics. Proved: peers knowing one non-empty piece can force it from any running state; printing is safe while no more bytes were counted than the torrent has.
* C90 (A connected peer hears from us every two minutes). REFUTED: a send to the writer's channel blocks without limit, and nothing is written to the peer meanwhile (C90_silence_exact: silence of any length). Proved: below 120 s if no such send blocks and the scheduler is at most 0.5 s late.
* C91 (Keep-alives are sent only when idle). REFUTED: only connect and keep-alives set lastMsgSent, so a keep-alive may directly follow another message. Proved: written iff the last keep-alive (or connect) is 114 s old, and the distance of two.
* C92 (Repeated failures are retried after growing delays). REFUTED for Run: the Backoff is created anew in each turn, every wait is 100 ms. Proved for the waits inside one call of unchoke.
* C93 (A dead connection is given up). REFUTED: a choked peer retries for ever in unchoke. Proved: an unchoked peer ends at most 116 s (and the lag) after the last keep-alive.
* C95 (Nested elements are indented by their depth). REFUTED: elements of a parsed list or dictionary are pointers, which the type switch in the printer does not recognise as containers, so each nested one starts again at the margin. C95_text_exact says what is printed; C95_built_partial: the claim for elements built by hand.
* C96 (The printed metadata is what the torrent file says). REFUTED: a torrent of several files shows the length of an empty field as its length (C96_total_length_refuted), and a torrent without a creation date shows the date of second 0 (C96_date_refuted, C96_date_exact). Proved: everything else, for every accepted document; the formatting of sizes and dates is a parameter. An empty text and a piece length of 0 are shown as if absent.
* C97 (Sizes are shown right to one decimal). REFUTED only for the last clause: 1048575 bytes are shown as 1024K. The upper half of the last tenth of each unit is shown so (C97_below_1024_exact). Everything else is proved; above 2^53 the rounding of float64 is allowed for.
* C99 (Messages have the bytes the protocol prescribes). REFUTED for cancel (the payload is the length, followed by eight zeros) and bitfield (header written twice, length in bits, words with the first piece last); neither is called by the client. Proved for the others; requests are C14.
* C100 (A peer receives whole messages). REFUTED: when a write stops half-way the message is written again from its start on the same connection. Proved when failed writes send nothing; a keep-alive may be cut, Run returns after it.
* C101 (Reading a message takes memory in proportion to what arrives). REFUTED: the buffer is made when the length has been read, 4 bytes make 4 GiB. Proved for messages which arrive completely.
* C102 (The pieces noted for a peer take memory in proportion to what it sends). REFUTED: a have message of 5 bytes with index 2^32-1 makes a set of 2^32 places. C102_room_exact gives the size in every execution; the claim holds for peers which name pieces of the torrent.
* C104 (Announces are made in time). REFUTED: the goroutine of a tracker connects to all addresses of a reply, one after the other, before it waits. C104_in_time_partial bounds the delay by 20.0000075 s for each address (plus scheduling), C104_late_exact reaches it.
* C105 (Connection attempts are spaced). REFUTED: retry.Delay(500) is 500 nanoseconds; an address which refuses connections is given up after 7.5 microseconds. C105_apart_exact gives the delays.
* C106 (Addresses of a reply do not wait for each other). REFUTED: addresses are tried one after the other, each may take 20.0000075 s. C106_soon_partial bounds it, C106_wait_exact reaches the bound.
* C107 (No data races). REFUTED: Stop reads the connection of a peer found in the pool while the goroutine of its tracker may still be writing it (connect after AddPeer). C107_race_free_partial: there is no other race, on any shared variable, with any number of goroutines.
* C108 (The wait group is used as documented). REFUTED: Wait is called when the trackers have just been started; nothing orders an Add of theirs before it. C108_add_before_wait_exact: an Add is ordered before Wait only by way of a peer that has ended in between.
* C109 (A finished download is the torrent's content). REFUTED: the hash is checked without the offset, so the data of one piece can be stored over another which is recorded already, and the download is still Done. C109_done_is_the_content_partial: it holds, also with failing file writes, if all data comes with offset 0.
* C110 (Connections no longer used are closed). REFUTED: nothing is closed before Stop; a peer that failed its handshakes leaves up to five open connections. Stop closes the last connection of each peer only.
* C111 (Trackers hear started once, then completed and stopped). REFUTED: the event stays started in every announce; neither completed nor stopped is ever sent (the UDP tracker always sends event 0, C48).
* C112 (Announced numbers describe the download). REFUTED: the counters are loaded one after the other and pieces that come twice are counted twice. C112_values_partial: the numbers are those of some first messages handed to the writer, modulo 2^64, uploaded is 0; C112_not_older_partial: of no fewer than were written before the announce.
* C115 (A download works with peers that answer requests). REFUTED: no request is ever sent (C38), so peers that wait for requests send nothing, in no execution is anything stored. Pieces nobody asked for are taken.
* C116 (A signal ends the process with status 0). REFUTED: with a peer in the pool that was never reached the deferred Stop panics, status 2. C116_ends_partial: the process ends under every fair schedule, even if the trackers hang; C116_only_signal: without a signal never with status 0.
* C117 (The process never crashes). REFUTED: a message of two bytes is enough. C117_causes_exact: the seven causes, nothing else (replies of a size Go can hold); each has an example. C117_never_crashes_partial: without a signal, with well-formed replies and messages, an ordinary torrent and no more data than its length, nothing crashes.
* C120 (A download started again continues). REFUTED: New creates every file anew, so a second start empties what the first stored (witness with the real SHA-1). C120_starts_empty_exact: whenever the download starts all its files are empty, and until a piece is handed to the writer trackers are told downloaded 0 and left the whole length.
* C121 (Trackers are announced to again and again). REFUTED: tracker.New is tried once. If the socket of a udp tracker does not open then (or the URL is not supported) runTracker returns and the tracker is never announced to, whatever happens later (C121_never_again_exact, over all executions). Otherwise (http, https, or udp with the first attempt successful) there is always a next announce or a crash of the process (C121_again_partial), over all endless schedules without a signal in which main and the goroutine get turns, the timer expires and announces return. Peers in Run need no turns. An announce that never returns is excluded by the hypothesis: the HTTP client has no timeout.
* C122 (A tracker gets back the tracker id it gave). REFUTED: the reply's tracker id is not read; all announces to a tracker carry one and the same id, drawn when the tracker was created (C122_own_id_exact).
* C123 (A peer that asks is served). REFUTED: requests are only logged. Nothing but keep-alive and interested is ever written to a peer in Run (C123_sent_exact), hence no piece (C123_never_served_exact).
* C124 (When every piece has arrived the files are complete). REFUTED: the data of a piece with the right hash but begin <> 0 is written at that distance from the start of the piece, over the next piece, and nothing restores it. It holds (C124_complete_partial) if every data with the right hash came with begin 0.
* C125 (The exit status before a download begins). REFUTED: status 2 (a panic) for torrent files on which the parser panics, which begin with something else than a dictionary, or which have a file with an empty path list. The status in all cases is C125_status_exact.
* C126 (The pause between announces to a tracker). REFUTED: the interval is multiplied by 10^9 in 64 bits, so one of 9223372037 seconds becomes no pause at all (C126_pause_refuted), and a reply without an interval sets it to 0 (C126_default_refuted). It holds up to 9223372036 seconds (C126_pause_partial); the pause and the interval kept in all cases are C126_pause_exact and C126_interval_exact. UDP trackers are always asked again after a minute (C126_udp_exact). Assumed: time.After does not fire early.
* C127 (Deeply nested data). REFUTED: the parser recurses without a limit, so for every size of the stack n+1 lists inside each other (2(n+1) bytes, valid bencode) exceed it, also as the value of a key nobody reads (C127_entry_exact). Data of at most n bytes are read (C127_stack_partial); C127_overflow_exact says which data exceed it. The stack is counted in nested calls of readList and readDict, not in bytes.
* C128 (Addresses of peers written as text). REFUTED: BEP 3 also allows the name of a host, and no name is ever understood: the entry becomes the zero AddrPort (C128_names_exact). For addresses it holds: C128_parse_exact says which texts are read as which address (RFC 4291, dotted decimal without leading zeros, zones), C128_entry_exact what becomes of an entry, C128_shown_partial that the text of an address is read back as that address. netip is modelled after the library of Go 1.25, which is not part of the repository.
* C129 (One host, one peer). REFUTED: 10.0.0.1 and ::ffff:10.0.0.1 are one host and become two peers of the pool, because the key is the text of the AddrPort and nothing unmaps it. This is the only way (C129_twice_exact); different spellings of one address have one key (C129_keys_exact).
* C130 (A failing command says why). REFUTED: NewCmdRun drops the error, so every failing download command writes the words 'error with the app' and nothing else, whatever the reason (C130_text_exact). The bencode command logs which step failed (C130_bencode_partial). Texts of zap, viper and cobra are parameters.
* C131 (The version command). REFUTED: NewApp reads the configuration while it builds the commands, so a configuration file that cannot be read stops every command with status 1, version and help too, with the complaint on standard output (C131_config_exact). Otherwise the three lines are printed (C131_version_partial).
* C133 (The command line of the usage text). REFUTED: -out is read as -o with the value ut, two words are left, and the command always fails with status 1 (C133_usage_exact). -o, --out and --out= work for any directory. cobra and pflag are modelled from what they are known to do, their sources are not in the repository.
* C135 (Numbers on the command line). REFUTED: pflag reads numbers with base 0, so 010 is 8 and 08 is an error. Proved: which texts are accepted and their values, exactly; without a leading zero digits are decimal.
* C136 (The announced port). REFUTED: --port is not checked; 70000 is announced as it is. Proved: every HTTP announce has the number of the command line, whatever it is (from 0 on).
* C137 (Options before the command). REFUTED: cobra 1.6.1 removes the first word equal to the name of the command, which may be the value of an option. Proved: it holds if no such word is the name; in general the line is read as if the first word equal to the name stood first.
* C138 (Bencode as BEP 3 has it gives its value). REFUTED: i-3e is refused, and i922337203685477581e is read as -922337203685477580. Proved: it is refused exactly if some integer in it is negative, otherwise all but its integers is right, and these exactly if they are at most 922337203685477580.
* C139 (Torrent files as the BEPs have them are accepted). REFUTED: a url-list that is a string, as BEP 19 allows, is refused. Proved: the download begins exactly if url-list is not a string and no integer anywhere in the file is negative; otherwise the status is 1.
* C140 (Web seeds are not announced to). REFUTED: the URLs of url-list are treated as trackers. Proved: exactly which URLs are announced to in some execution.
* C141 (Tiers of trackers are tried in order). REFUTED: all trackers are asked side by side, also announce. Proved: any of them, in any order and with any replies, can be the first to be asked.
* C142 (A torrent with UDP trackers only can get peers). REFUTED: announces to UDP trackers always fail (C49). Proved: a peer is dialled in some execution exactly if one of the URLs is http or https; otherwise only failed announces happen and no file changes.
* C143 (A torrent of one empty file gives an empty file). REFUTED: length 0 is taken for a torrent with several files, of which there are none. Proved: no file is created or changed in any execution.
* C144 (Torrents whose numbers make no sense are refused). REFUTED: the download of a torrent with piece length 0 begins. Proved: for torrents with the same names and whole hashes the numbers make no difference to whether it begins.
* C146 (Announces read by RFC 3986). REFUTED: url.Values.Encode writes a space as +, which RFC 3986 does not undo. C146_hash_exact: such a tracker reads a plus sign for each space; it is right exactly if there is none (C146_right_iff_partial).
* C151 (Interested is said once). REFUTED: each round of Run that finds the client choked calls unchoke, which sends interested again and then reads one message only (peer.go:165-200, 232-236). Exact: interested is sent while choked only, never twice without reading in between, and a peer that does not unchoke and whose messages arrive is told once for every two messages it sends; keep-alives are enough for any number. Stated for peers that start as the client starts them (ASpawn false).
* C152 (A finished download stays finished). REFUTED: the number of hashes is not compared with PiecesNum; a piece with an index beyond PiecesNum, accepted after completion, extends the record with a gap, and Done is false again (two surplus hashes suffice). Proved: recorded pieces stay recorded in every execution; Done stays true for torrents with at most one surplus hash, and for torrents of several files with any number of hashes.
* C155 (Encode writes bencode as BEP 3 has it). REFUTED: Encode goes through Go maps, so the keys come in any order; a dictionary with two entries can come out unsorted and differently each time. Exactly the elements without such a dictionary are certain to give one text, which is bencode of the element.
* C157 (IPv6 peers of a reply are used). REFUTED: readPeers looks at the key peers only; with or without peers6 the result is the same, and a reply with peers6 alone is an error. IPv6 addresses are used when given as text in the list of peers (C128).
* C158 (Every torrent can be downloaded). REFUTED: a torrent whose last piece is short cannot be finished with the right files: that piece is recorded only if its data goes on to the full piece length (C28). Exactly the torrents whose length is a multiple of the piece length can be downloaded (unless the last hash is that of no data); the files themselves can become the content for every torrent. Peers may send pieces that were not asked for, as the client never asks (C38).
* C162 (Peers that send corrupt data are dropped). REFUTED: handlePieceMessage logs and returns; nothing counts corrupt pieces, and Run goes on. For every n there is a course in which a peer has sent 2 n corrupt pieces and nothing else and is still served.
* C170 (A peer given by its host name does no harm). REFUTED: a reply that gives one peer by name and one by address makes the process panic after the signal although the one with the address is connected (C170_ex: although the download is complete; C170_ex_plain: without the name it ends with status 0). Not only the witness: C170_name_dooms excludes status 0 for every such reply, once the tracker is announced to again, C170_name_crashes shows the panic after a signal, C170_when says exactly which replies do it. All but the witness and C170_host_name hold whatever netip.ParseAddr takes; these two use its model of C128, which takes no host name (RFC 1123). Success needs a list of peers; a compact reply is an error (C46_peers_exact).
* C172 (A second signal ends the process). REFUTED: signal.NotifyContext (cmd/app.go:99) keeps both signals caught until stop, which is deferred to the end of the command, and its context can be cancelled only once; the model takes a signal for that cancellation. C172_second_exact, C172_only_first_exact: the second and all later ones leave state and events as they are. SIGKILL is not modelled.
* C173 (A peer that was lost is connected to again). REFUTED: AddPeer (manager.go:216-227) refuses an address that is in the pool, and nothing takes a peer out of it, so startPeerDownload is not called for it again. C173_gone_exact: with no peer left and only known ones named, no dial, handshake or message follows, for all continuations. C74 is the case of peers that could not be reached. C173_incomplete_exact: if also nothing received is left to be written, files and pieces stay as they are, so an incomplete download is never completed. C173_ex_other: a peer not named before is dialled.


Further remarks:

* C38 makes C39–C42 and C82–C85 nearly empty for the code as it is, since no request is ever
  sent. They are therefore also proved for a variant in which `ClientStatus.Interested`
  starts as true (the argument of `ModelSystem.fresh`); both are covered by one theorem.
* The inputs of C01–C12 and C81 have at most 2^63/10 bytes where `fits` is assumed.

## Testing the theorems

Seeded bugs are edits of one definition of the model in a scratch copy. Everything that
depends on it is rebuilt; a lemma whose proof fails is admitted in the copy, and the
theorems that then depend on an admitted lemma count as failed. `seeded/LOG.jsonl` has one
line for each: the edit, the claim it is meant to break, the theorems that failed, and those
that were tightened because they did not. A proof that takes too long counts as failed too;
the last batches ran on a busy machine, so some of their long lists of failures may contain
theorems that were only slow.
