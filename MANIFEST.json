{
 "claims": [
  {
   "property": "C01",
   "status": "proved",
   "theorems": [
    "C01_code_roundtrip",
    "C01_single_bit_corrected",
    "C01_block_is_13_bytes"
   ],
   "note": ""
  },
  {
   "property": "C02",
   "status": "proved",
   "theorems": [
    "C02_double_bit_detected"
   ],
   "note": ""
  },
  {
   "property": "C03",
   "status": "proved",
   "theorems": [
    "C03_blank_block_rejected"
   ],
   "note": ""
  },
  {
   "property": "C04",
   "status": "proved",
   "theorems": [
    "C04_field_roundtrip",
    "C04_one_copy_damaged",
    "C04_two_copies_damaged_differently",
    "C04_result_is_held_twice",
    "C04_no_result_iff_all_differ"
   ],
   "note": ""
  },
  {
   "property": "C05",
   "status": "proved",
   "theorems": [
    "C05_entry_roundtrip",
    "C05_header_roundtrip"
   ],
   "note": "directory entry and table header serialize/deserialize round trips for all values in range"
  },
  {
   "property": "C06",
   "status": "proved",
   "theorems": [
    "C06_boot_succeeds",
    "C06_update_atomic",
    "C06_panicking_update_atomic",
    "C06_torn_erases_covered",
    "C06_open_keeps_directory",
    "C06_removal_whatever_is_open"
   ],
   "note": "for every history from an unused chip (erased, zeros or foreign data) and every power-loss point; page programs cut at any byte, erases cut at any subset of pages except in the two cases of FsApi.torn_erase_ok (append-open; a directory change right after an interrupted one)"
  },
  {
   "property": "C07",
   "status": "proved",
   "theorems": [
    "C07_restart_shows_the_listing",
    "C07_completed_change_is_durable",
    "C07_removal_whatever_is_open"
   ],
   "note": ""
  },
  {
   "property": "C08",
   "status": "partial",
   "theorems": [
    "C08_ids_strictly_increase_partial",
    "C08_new_id_above_all_present_partial",
    "C08_refuted"
   ],
   "note": "Full statement (ids never reused across power loss) is false: a footer torn by a power loss can decode to a smaller max id"
  },
  {
   "property": "C09",
   "status": "proved",
   "theorems": [
    "C09_lookup_exact"
   ],
   "note": ""
  },
  {
   "property": "C10",
   "status": "proved",
   "theorems": [
    "C10_iteration_exact"
   ],
   "note": ""
  },
  {
   "property": "C11",
   "status": "partial",
   "theorems": [
    "C11_concurrent_iteration_partial",
    "C11_refuted"
   ],
   "note": "Proved for every iteration that starts after a history whose last interrupted directory change (if any) was followed by a completed one; without that condition it is false (C11_refuted): a torn footer can make a new file reuse an id the iterator has passed"
  },
  {
   "property": "C12",
   "status": "partial",
   "theorems": [
    "C12_create_confined_partial",
    "C12_refuted"
   ],
   "note": "Holds with at most 2517 files before the create; C12_refuted exhibits a reachable system with 2518 files where create programs outside the slot (MAX_FILES is never enforced)"
  },
  {
   "property": "C13",
   "status": "proved",
   "theorems": [
    "C13_free_count_exact",
    "C13_block_marks_exact",
    "C13_marking",
    "C13_free_space_exact"
   ],
   "note": ""
  },
  {
   "property": "C14",
   "status": "proved",
   "theorems": [
    "C14_never_handed_out_twice"
   ],
   "note": ""
  },
  {
   "property": "C15",
   "status": "proved",
   "theorems": [
    "C15_claimed_sector_is_blank"
   ],
   "note": "flash NOR model; ops issued are only erases of free data sectors"
  },
  {
   "property": "C16",
   "status": "proved",
   "theorems": [
    "C16_full_only_if_full",
    "C16_claim_succeeds_while_space_left"
   ],
   "note": ""
  },
  {
   "property": "C17",
   "status": "proved",
   "theorems": [
    "C17_written_is_read"
   ],
   "note": ""
  },
  {
   "property": "C18",
   "status": "proved",
   "theorems": [
    "C18_appending_keeps"
   ],
   "note": ""
  },
  {
   "property": "C19",
   "status": "proved",
   "theorems": [
    "C19_flushed_survives"
   ],
   "note": ""
  },
  {
   "property": "C20",
   "status": "proved",
   "theorems": [
    "C20_loss_bounded"
   ],
   "note": "bound is 4016 bytes inclusive"
  },
  {
   "property": "C21",
   "status": "proved",
   "theorems": [
    "C21_size_is_readable_bytes"
   ],
   "note": ""
  },
  {
   "property": "C22",
   "status": "proved",
   "theorems": [
    "C22_delivered_data_is_verified",
    "C22_corrupted_page_is_reported"
   ],
   "note": ""
  },
  {
   "property": "C23",
   "status": "proved",
   "theorems": [
    "C23_remove_frees_exactly"
   ],
   "note": ""
  },
  {
   "property": "C24",
   "status": "partial",
   "theorems": [
    "C24_open_file_protected_partial",
    "C24_closing_lifts",
    "C24_refuted"
   ],
   "note": "Proved for files opened with open_file_for_read/open_file_for_write; a file obtained from create_file_and_open_for_write is never marked, so it can be removed or opened again while its writer is open (C24_refuted)"
  },
  {
   "property": "C25",
   "status": "partial",
   "theorems": [
    "C25_failed_open_leaves_no_trace_partial",
    "C25_refuted"
   ],
   "note": "Every failure except DeviceFull leaves the state unchanged; a DeviceFull failure leaves the file marked as open (C25_refuted: a reachable full device)"
  },
  {
   "property": "C26",
   "status": "proved",
   "theorems": [
    "C26_boot_rebuilds_free_map"
   ],
   "note": ""
  },
  {
   "property": "C27",
   "status": "proved",
   "theorems": [
    "C27_mutual_exclusion",
    "C27_never_panics"
   ],
   "note": "all schedules incl. spurious polls and cancellation"
  },
  {
   "property": "C28",
   "status": "partial",
   "theorems": [
    "C28_writers_are_woken_partial",
    "C28_readers_are_admitted_partial",
    "C28_refuted_lost_wakeup",
    "C28_refuted_cancelled_write"
   ],
   "note": "False in full: a reader that polls while a writer is pending registers no waker; a cancelled write() blocks all later readers. Proved: writers are always woken; a polled reader is admitted when no writer holds, waits or cancelled"
  },
  {
   "property": "C29",
   "status": "partial",
   "theorems": [
    "C29_file_io_never_deadlocks_partial",
    "C29_directory_work_never_deadlocks_partial",
    "C29_refuted_append_create",
    "C29_refuted_append_open",
    "C29_refuted_exists_create"
   ],
   "note": "False in full: lock-order inversions deadlock append vs create, append vs open_for_write, exists vs create. Proved: each of two groups of operations is deadlock free for any number of tasks and any schedule"
  },
  {
   "property": "C30",
   "status": "partial",
   "theorems": [
    "C30_background_erase_invisible_partial",
    "C30_aligned_calls_partial",
    "C30_refuted_straddling_read",
    "C30_refuted_reset"
   ],
   "note": "False in full: a read that starts below the range being erased and runs into it returns half-erased bytes; a reset during an erase loses it. Proved for all other call sequences, all chip timings"
  },
  {
   "property": "C31",
   "status": "proved",
   "theorems": [
    "C31_bit_stream_round_trip",
    "C31_everything_readable",
    "C31_refill_never_panics",
    "C31_write_fits",
    "C31_pair_length_refuted"
   ],
   "note": "All primitive types; pairs restricted to 64-bit components (the only instantiation; the declared length of any other pair is wrong, C31_pair_length_refuted)."
  },
  {
   "property": "C32",
   "status": "partial",
   "theorems": [
    "C32_round_trip_partial",
    "C32_refuted_order",
    "C32_refuted_loss"
   ],
   "note": "Readings always decode complete and in order; unix logs too if no two are adjacent. Full claim refuted: adjacent unix logs are reordered or lost (DeltaLogger::log re-buffers the pending unix log because last_entry_is_unix_time is still set)."
  },
  {
   "property": "C33",
   "status": "proved",
   "theorems": [
    "C33_error_does_not_accumulate",
    "C33_fixed_point_step",
    "C33_chain"
   ],
   "note": "Generic in the sensor type; the fixed-point step over exact rationals here, and in IEEE arithmetic for the actual sensors in C96 and C97."
  },
  {
   "property": "C34",
   "status": "partial",
   "theorems": [
    "C34_quantisation_ieee_partial",
    "C34_repo_factories",
    "C34_minmax32_declared",
    "C34_minmax64_declared",
    "C34_slope32_declared",
    "C34_quantisation_partial",
    "C34_refuted_nan_ieee",
    "C34_refuted_nan"
   ],
   "note": "IEEE f32/f64 (Flocq) for every factory with 2..prec-6 bits whose bounds are at most 2^(prec-4) errors; every factory of the repository qualifies (C34_repo_factories). Exact arithmetic for all parameters (C34_quantisation_partial). Missing: NaN is not rejected but panics (C34_refuted_nan_ieee)."
  },
  {
   "property": "C35",
   "status": "partial",
   "theorems": [
    "C35_never_overflows_partial",
    "C35_refuted_small_records",
    "C35_refuted_adc"
   ],
   "note": "Holds for records of at least 8 bytes; for the 4-byte ADC readings the first unix log overflows the buffer and panics."
  },
  {
   "property": "C36",
   "status": "proved",
   "theorems": [
    "C36_truncated_log_decodes_to_prefix",
    "C36_power_loss_keeps_a_prefix"
   ],
   "note": "Truncation at any byte; any chunking of the underlying reads."
  },
  {
   "property": "C37",
   "status": "proved",
   "theorems": [
    "C37_never_more_than_configured",
    "C37_deletes_only_the_oldest",
    "C37_directory_stays_ordered",
    "C37_refuted_shared_type",
    "C37_zero_segments_panics"
   ],
   "note": "For every history of boots, rollovers, power losses and other users that do not store the ring's own type. C37_refuted_shared_type shows the hypothesis is needed (and C64 that it is violated by the GPS/IMU constants)."
  },
  {
   "property": "C38",
   "status": "proved",
   "theorems": [
    "C38_uplink_round_trip",
    "C38_downlink_round_trip",
    "C38_telemetry_values",
    "C38_refuted_many_satellites"
   ],
   "note": "For every packet, key, keystream and state of both builders (buffers are reused). Telemetry values up to the declared quantisation; satellites counts above 31 wrap."
  },
  {
   "property": "C39",
   "status": "proved",
   "theorems": [
    "C39_split_recovered",
    "C39_packets_fit"
   ],
   "note": "All lengths; all packets fit 49 bytes."
  },
  {
   "property": "C40",
   "status": "partial",
   "theorems": [
    "C40_uplink_accepts_only_framed",
    "C40_downlink_accepts_only_framed",
    "C40_uplink_panics_only_on_bad_pyro_partial",
    "C40_downlink_never_panics_partial",
    "C40_refuted_short_packet",
    "C40_refuted_bad_pyro",
    "C40_refuted_short_telemetry"
   ],
   "note": "Acceptance soundness proved for all strings; never-panic refuted (short framed packets, bad pyro number) and characterised for long enough strings."
  },
  {
   "property": "C41",
   "status": "partial",
   "theorems": [
    "C41_refuted_replay"
   ],
   "note": "Refuted: the nonce is constant, every recorded packet is accepted again."
  },
  {
   "property": "C42",
   "status": "proved",
   "theorems": [
    "C42_announced_in_order",
    "C42_one_phase_at_a_time",
    "C42_never_backwards"
   ],
   "note": "primary core, any arithmetic, any sensor values; ESKF outputs are arbitrary inputs"
  },
  {
   "property": "C43",
   "status": "proved",
   "theorems": [
    "C43_drogue_phase_after_apogee",
    "C43_main_phase_after_drogue",
    "C43_main_release"
   ],
   "note": "any arithmetic (IEEE and exact are instances)"
  },
  {
   "property": "C44",
   "status": "proved",
   "theorems": [
    "C44_backup_deploys_in_order",
    "C44_backup_does_deploy"
   ],
   "note": "any arithmetic; also: no panic"
  },
  {
   "property": "C45",
   "status": "proved",
   "theorems": [
    "C45_manual_deploys_in_order"
   ],
   "note": "any arithmetic"
  },
  {
   "property": "C46",
   "status": "partial",
   "theorems": [
    "C46_backup_cores_partial",
    "C46_primary_is_silent",
    "C46_refuted"
   ],
   "note": "holds of the backup core; false of the primary core, which never publishes a ChuteDeployed event (finding)"
  },
  {
   "property": "C47",
   "status": "proved",
   "theorems": [
    "C47_armed_iff_both",
    "C47_notified_of_current_state",
    "C47_software_off",
    "C47_hardware_off"
   ],
   "note": "any schedule; the last theorem needs the debounce task to run when the switch changes"
  },
  {
   "property": "C48",
   "status": "partial",
   "theorems": [
    "C48_single_pulse_partial",
    "C48_only_on_deployment",
    "C48_refuted_shared_channel"
   ],
   "note": "proved when drogue and main use different channels; false when the profile selects the same channel for both (finding)"
  },
  {
   "property": "C49",
   "status": "partial",
   "theorems": [
    "C49_held_for_the_interval_partial",
    "C49_settles",
    "C49_refuted_first_sample",
    "C49_refuted_late_poll"
   ],
   "note": "proved for every sample after the first when the task runs as soon as the input changes; the first sample is published at once and a late poll can publish a glitch (findings)"
  },
  {
   "property": "C50",
   "status": "partial",
   "theorems": [
    "C50_lossless_partial",
    "C50_receive_yields_oldest_partial",
    "C50_never_torn",
    "C50_exclusive",
    "C50_refuted_overwrite",
    "C50_refuted_duplicate",
    "C50_nothing_unsent"
   ],
   "note": "Lossless, in order, exactly once while fewer than N values are unread when a send begins; no torn values on any schedule. The unconditional claim is false: a full channel overwrites the oldest unread value, and the receiver can then see a value twice (refutations)."
  },
  {
   "property": "C51",
   "status": "proved",
   "theorems": [
    "C51_resynchronises",
    "C51_flush_may_run_the_interrupted_request"
   ],
   "note": "For every byte history and every rpc table without id 255. Resetting can complete an interrupted request whose checksum is FF."
  },
  {
   "property": "C52",
   "status": "proved",
   "theorems": [
    "C52_request",
    "C52_only_checked_requests_run"
   ],
   "note": "Argument bytes, not their rkyv decoding."
  },
  {
   "property": "C53",
   "status": "partial",
   "theorems": [
    "C53_pull_reproduces_the_file",
    "C53_reopen_same_file_fails",
    "C53_open_other_closes_old",
    "C53_refuted_corrupted_page"
   ],
   "note": "Exact for every undamaged file of any size in every reachable state; opening another file releases the one read before. A corrupted page silently truncates the pulled file (refutation)."
  },
  {
   "property": "C54",
   "status": "partial",
   "theorems": [
    "C54_read_returns_written",
    "C54_power_loss_partial",
    "C54_refuted",
    "C54_stale_when_open"
   ],
   "note": "The promise 'old or new' is false of the code: ConfigFile::write removes the old file first (C54_refuted). Proved: a successful write is what every later read returns, and a power loss at any point leaves the old value, none, or the new value, never a mixture; other files are unaffected. Requires that nobody holds the old configuration open (C54_stale_when_open shows why)."
  },
  {
   "property": "C55",
   "status": "proved",
   "theorems": [
    "C55_id_round_trip",
    "C55_raw_round_trip",
    "C55_bus_order",
    "C55_documented_priority_refuted",
    "C55_message_round_trip",
    "C55_malformed_data_panics",
    "C55_node_id_fits"
   ],
   "note": "Round trips and ordering by priority first are proved. The source documents 7 as the highest priority, but a larger priority number gives a larger identifier, which loses CAN arbitration (C55_documented_priority_refuted). Data that is not an encoded message makes from_data panic."
  },
  {
   "property": "C56",
   "status": "proved",
   "theorems": [
    "C56_order",
    "C56_lossless_below_six",
    "C56_drops_oldest_of_six",
    "C56_events_left"
   ],
   "note": ""
  },
  {
   "property": "C57",
   "status": "partial",
   "theorems": [
    "C57_round_trip",
    "C57_bad_frames_rejected",
    "C57_short_frame_refuted",
    "C57_kinds_told_apart"
   ],
   "note": "Round trip and rejection proved for any rkyv layout satisfying its contract; a frame with a consistent length byte that is too short for its package is not rejected (out-of-bounds read)."
  },
  {
   "property": "C58",
   "status": "proved",
   "theorems": [
    "C58_framing",
    "C58_framing_exact",
    "C58_same_for_all_chunkings",
    "C58_refuted_without_dollar",
    "C58_instance"
   ],
   "note": "For every stream of well-formed sentences ('$' ... newline, at most 84 bytes), every splitting into reads, any leading junk without '$' and any cut-off last sentence. Lines that do not begin with '$' are duplicated depending on chunking (C58_refuted_without_dollar), which is outside the property's hypothesis."
  },
  {
   "property": "C59",
   "status": "partial",
   "theorems": [
    "C59_gps_delta_partial",
    "C59_refuted",
    "C59_instance"
   ],
   "note": "Round trip proved when time does not go backwards and satellite counts are at most 127 (also: other fields within declared errors, exact arithmetic). The unconditional claim is false of the code: C59_refuted."
  },
  {
   "property": "C60",
   "status": "partial",
   "theorems": [
    "C60_checksum_partial",
    "C60_no_panic_partial",
    "C60_update",
    "C60_gll_contents",
    "C60_gsv_contents",
    "C60_contents_instance",
    "C60_refuted_no_panic",
    "C60_milliseconds_are_hundredths",
    "C60_instance"
   ],
   "note": "Acceptance implies a matching checksum (ASCII sentences), and a well-formed GLL/GSV sentence is accepted with exactly the transmitted position, hemisphere, time and satellite count. The no-panic half is false of the code (C60_refuted_no_panic) and is proved for sentences with enough, and not too many, fields. f32 parsing is a parameter."
  },
  {
   "property": "C61",
   "status": "partial",
   "theorems": [
    "C61_ieee_interpolation",
    "C61_ieee_exact_at_points",
    "C61_ieee_monotone",
    "C61_ieee_monotone_instance",
    "C61_ieee_refuted_monotone",
    "C61_ieee_monotone_between_points",
    "C61_ieee_total",
    "C61_ieee_instance",
    "C61_total",
    "C61_exact_at_points",
    "C61_interpolation",
    "C61_monotone",
    "C61_refuted_duplicates",
    "C61_instance"
   ],
   "note": "In IEEE f64: exact at recorded points, within one rounding of the unix time plus eight of the rise between them, panics exactly on NaN, and monotone over all queries when the recorded unix times are at least 1 and within a sixteenth of each other (any real clock). Without that condition rounding alone breaks monotonicity (C61_ieee_refuted_monotone, by one ulp), and with two equal boot times the interpolation divides by zero (C61_refuted_duplicates), so the claim as stated is false of the code there."
  },
  {
   "property": "C62",
   "status": "partial",
   "theorems": [
    "C62_window_average_ieee",
    "C62_running_average_ieee",
    "C62_ieee_instance",
    "C62_moving_average_partial",
    "C62_window_contents",
    "C62_empty",
    "C62_refuted_running_sum",
    "C62_instance"
   ],
   "note": "Which samples are averaged is exact for any arithmetic; the mean is exact for rational arithmetic; in IEEE arithmetic explicit error bounds for both averages (any format). The full claim (the reported average IS the mean of the window) fails for the running sum, whose error depends on samples that have left the window (C62_refuted_running_sum)."
  },
  {
   "property": "C63",
   "status": "proved",
   "theorems": [
    "C63_no_drift",
    "C63_skip_missed",
    "C63_skip_missed_no_wait",
    "C63_instance",
    "C63_every_no_drift"
   ],
   "note": "All call times and timer latenesses; f64 arithmetic taken as exact."
  },
  {
   "property": "C64",
   "status": "partial",
   "theorems": [
    "C64_other_types_distinct_partial",
    "C64_refuted_gps_and_imu"
   ],
   "note": "Refuted: GPS and low-g IMU loggers share types 9 and 10; all other declarations proved distinct."
  },
  {
   "property": "C65",
   "status": "partial",
   "theorems": [
    "C65_create_panics_only_at_2_64_partial",
    "C65_refuted"
   ],
   "note": "False in full: a torn footer can set the recorded largest id close to 2^64 (C65_refuted); the partial theorem pins down the only causes of a panic"
  },
  {
   "property": "C66",
   "status": "partial",
   "theorems": [
    "C66_mutex_exclusion_partial",
    "C66_refuted_cancelled_waiter",
    "C66_refuted_full_queue",
    "C66_wakeup_partial",
    "C66_longest_waiting_is_told_partial",
    "C66_wakeup_instance",
    "C66_refuted_spurious_poll"
   ],
   "note": "Exclusion proved for all schedules. Wake-up, in order of arrival, proved when nobody abandons a wait, waiters are polled only after being woken and no more tasks wait than the queue has slots; each condition is necessary (three refutations, by the code: a cancelled waiter or a second registration swallows the wake-up, a full queue drops a waiter)."
  },
  {
   "property": "C67",
   "status": "partial",
   "theorems": [
    "C67_rollover_keeps_the_open_segment",
    "C67_open_segment_is_the_last",
    "C67_refuted_after_external_deletion",
    "C67_refuted_single_segment"
   ],
   "note": "Holds when nobody else deletes segments and the ring has at least 2 segments; refuted otherwise (stale counter)."
  },
  {
   "property": "C68",
   "status": "proved",
   "theorems": [
    "C68_uplink_survives_byte_errors",
    "C68_downlink_survives_byte_errors"
   ],
   "note": "The Reed-Solomon code (external crate) is modelled concretely and its distance proved."
  },
  {
   "property": "C69",
   "status": "proved",
   "theorems": [
    "C69_no_deployment_unless_armed",
    "C69_disarm_stops",
    "C69_no_pyro_unless_armed"
   ],
   "note": ""
  },
  {
   "property": "C70",
   "status": "partial",
   "theorems": [
    "C70_published_deployment_fires_partial",
    "C70_drogue_fires_partial",
    "C70_refuted_when_lagging"
   ],
   "note": "proved for both chutes while at most ten events are unread; lost otherwise (publish_immediate drops the oldest)"
  },
  {
   "property": "C71",
   "status": "partial",
   "theorems": [
    "C71_response_matches_request",
    "C71_refuted_when_cancelled"
   ],
   "note": "Holds when no call is abandoned; an abandoned call leaves a stale response for the next one (refutation)."
  },
  {
   "property": "C72",
   "status": "partial",
   "theorems": [
    "C72_call_returns_the_response",
    "C72_bad_response_rejected",
    "C72_refuted_after_timeout"
   ],
   "note": "Holds on an idle link; after a client timeout the late response is taken for the next call's (refutation)."
  },
  {
   "property": "C73",
   "status": "proved",
   "theorems": [
    "C73_remove_one_file"
   ],
   "note": ""
  },
  {
   "property": "C74",
   "status": "proved",
   "theorems": [
    "C74_recording_follows_messages",
    "C74_reset"
   ],
   "note": "The task is present in the source but commented out of the node's final join."
  },
  {
   "property": "C75",
   "status": "partial",
   "theorems": [
    "C75_answer_belongs_to_request",
    "C75_acknowledged_pyro_was_switched_partial",
    "C75_poll_delivers_oldest",
    "C75_responses_in_order",
    "C75_refuted",
    "C75_event_lost",
    "C75_acknowledged_camera_was_switched_partial"
   ],
   "note": "False when a response arrives late (after the 30 ms timeout) or a poll answer is lost: C75_refuted, C75_event_lost. Proved when late responses do not occur; for every schedule responses are taken in the order of arrival."
  },
  {
   "property": "C76",
   "status": "partial",
   "theorems": [
    "C76_success_means_received_partial",
    "C76_instance",
    "C76_refuted_stale_acknowledgement",
    "C76_refuted_failure_means_not_received"
   ],
   "note": "proved when the rocket answers before anything else happens; otherwise a late acknowledgement is credited to the next command, and a lost one makes a carried-out command look failed"
  },
  {
   "property": "C77",
   "status": "partial",
   "theorems": [
    "C77_send_returns_partial",
    "C77_refuted_one_error_hangs_the_caller",
    "C77_instance"
   ],
   "note": "returns within 13 ground radio operations if the ground radio reports no error; one error during the call and the caller waits forever"
  },
  {
   "property": "C78",
   "status": "partial",
   "theorems": [
    "C78_no_invented_commands",
    "C78_at_most_five_partial",
    "C78_refuted_at_most_once"
   ],
   "note": "never invented, at most five deliveries per send; a retry after a lost acknowledgement is delivered again"
  },
  {
   "property": "C79",
   "status": "proved",
   "theorems": [
    "C79_speed_falls_at_most_45",
    "C79_descent_takes_time",
    "C79_no_descent_at_once",
    "C79_jumps_never_reach_the_filter",
    "C79_instance",
    "C79_jump_is_forgotten",
    "C79_speed_is_held",
    "C79_held_instance"
   ],
   "note": "exact arithmetic (rounding not modelled); the low-pass biquad is arbitrary"
  },
  {
   "property": "C80",
   "status": "proved",
   "theorems": [
    "C80_ignores_exactly_the_spikes",
    "C80_instance",
    "C80_refuted_negative_time",
    "C80_last_reading"
   ],
   "note": "exact arithmetic; for non-negative times. With a negative clock the filter panics (C80_refuted_negative_time)"
  },
  {
   "property": "C81",
   "status": "proved",
   "theorems": [
    "C81_maxima",
    "C81_never_decrease",
    "C81_packet_panics_iff_nan",
    "C81_ground_reads",
    "C81_instance",
    "C81_first_packet",
    "C81_ground_reads_rest"
   ],
   "note": "f32 values as exact rationals with infinities and NaN. A NaN reading panics the telemetry task (C81_packet_panics_iff_nan)"
  },
  {
   "property": "C82",
   "status": "partial",
   "theorems": [
    "C82_right_time",
    "C82_ready_when",
    "C82_waiters_are_woken",
    "C82_refuted_boot_pulse",
    "C82_refuted_eleventh_waiter",
    "C82_instance"
   ],
   "note": "proved when no pulse is stamped in the first 800 ms after boot and at most ten tasks wait; false otherwise (the two refuted theorems)"
  },
  {
   "property": "C83",
   "status": "proved",
   "theorems": [
    "C83_registry",
    "C83_registered_is_woken",
    "C83_instance"
   ],
   "note": ""
  },
  {
   "property": "C84",
   "status": "proved",
   "theorems": [
    "C84_truncated_log_reads_back",
    "C84_log_reads_back",
    "C84_whole_is_longest",
    "C84_unknown_number_ends_the_log",
    "C84_buffer_round_trip",
    "C84_instance"
   ],
   "note": "rkyv archives are abstract fixed-size codecs (codec_ok); reader errors not modelled"
  },
  {
   "property": "C85",
   "status": "partial",
   "theorems": [
    "C85_nothing_lost",
    "C85_time_precedes_reading",
    "C85_time_again_after_rotation",
    "C85_file_begins_with_time_partial",
    "C85_refuted_file_begins_with_time",
    "C85_dated_iff_two_times",
    "C85_instance"
   ],
   "note": "every file begins with the time only if no reading is stored while the old file is being closed; false otherwise (refuted theorem). Failed writes are ignored by the code and not modelled"
  },
  {
   "property": "C86",
   "status": "partial",
   "theorems": [
    "C86_delete_logs",
    "C86_power_loss",
    "C86_logs_left",
    "C86_instance",
    "C86_refuted_log_being_written",
    "C86_refuted_recording_lost"
   ],
   "note": "Proved for every reachable state with any open handles (no discipline assumed). The code refutes 'every open file': logs being written are not marked as open and are deleted under their writers, which go on without an error."
  },
  {
   "property": "C87",
   "status": "proved",
   "theorems": [
    "buffered_keeps_order_and_newest",
    "buffered_loses_nothing_unless_full",
    "buffered_burst",
    "buffered_before_start_lost"
   ],
   "note": "Delivered readings are an ordered part of those logged since the runner started; newest CAP never lost; nothing lost unless the queue was full. Readings logged before the runner starts are accepted and lost."
  },
  {
   "property": "C88",
   "status": "proved",
   "theorems": [
    "buffered_flush_never_returns",
    "buffered_flush_reaches_logger"
   ],
   "note": "Refutation of 'flush completes': the code never answers the flush request. The request does reach the wrapped logger."
  },
  {
   "property": "C89",
   "status": "proved",
   "theorems": [
    "buffered_close_drains",
    "buffered_taken_first_panics"
   ],
   "note": "Closing drains in order, flushes, ends; taking the logger back before the runner starts makes the runner panic."
  },
  {
   "property": "C90",
   "status": "proved",
   "theorems": [
    "buzzer_order",
    "buzzer_no_overlap"
   ],
   "note": "BuzzerQueue."
  },
  {
   "property": "C91",
   "status": "proved",
   "theorems": [
    "merged_both_get_everything",
    "merged_flushes_both"
   ],
   "note": "MergedLogger over two arbitrary loggers."
  },
  {
   "property": "C92",
   "status": "partial",
   "theorems": [
    "C92_fields_are_the_channels",
    "C92_refuted_pyro3_is_channel_2",
    "continuity_reported",
    "continuity_collision_panics",
    "continuity_distinct_pyros_refuted",
    "continuity_safe_pairs"
   ],
   "note": "Proved for pyros 1 and 2 in either role; false of the code for pyro 3, which is read through pyro2_cont: (2,3) and (3,2) panic at boot, with (1,3) the field shows channel 2."
  },
  {
   "property": "C93",
   "status": "proved",
   "theorems": [
    "indicator_follows_pattern",
    "indicator_no_drift",
    "indicator_zero_pattern_spins"
   ],
   "note": "IndicatorController."
  },
  {
   "property": "C94",
   "status": "proved",
   "theorems": [
    "ground_test_fires_once",
    "ctrl_selection_faithful",
    "ground_test_log",
    "ground_test_ignores_arming",
    "ground_test_armed_refuted",
    "ground_test_deaf"
   ],
   "note": "Ground test firing sequence; the expectations 'only when armed' and 'a fire command is obeyed' are refuted."
  },
  {
   "property": "C95",
   "status": "proved",
   "theorems": [
    "sg_processing",
    "stored_length"
   ],
   "note": "Any number of raw reads, any filter; f16/f32 arithmetic and the FFT itself are parameters."
  },
  {
   "property": "C96",
   "status": "proved",
   "theorems": [
    "C96_sensor_logs",
    "C96_any_factories",
    "C96_orphan_deltas_skipped",
    "C96_instance"
   ],
   "note": "Readings finite and below 2^125 in magnitude (a NaN reading panics, see C34)."
  },
  {
   "property": "C97",
   "status": "partial",
   "theorems": [
    "C97_gps_log_partial",
    "C97_refuted_backwards",
    "C97_backwards_instance",
    "C97_instance"
   ],
   "note": "Proved when timestamps do not decrease. When the GPS clock steps back, the decoded timestamp is wrong by a multiple of 256 s (C97_refuted_backwards)."
  },
  {
   "property": "C98",
   "status": "partial",
   "theorems": [
    "C98_silent_and_listening",
    "C98_deaf_without_telemetry",
    "C98_deaf_from_boot",
    "C98_refuted_application_not_told",
    "C98_instance"
   ],
   "note": "Proved for every run of the link model. The mode changes before the acknowledgement is sent: if that transmission fails the client is in low-power mode and the application was never told (C98_refuted_application_not_told)."
  },
  {
   "property": "C99",
   "status": "partial",
   "theorems": [
    "C99_calibration_inverts_sensor_partial",
    "C99_refuted_unbalanced",
    "C99_instance",
    "C99_refuted_instance"
   ],
   "note": "Proved for exact arithmetic and balanced counts; without balanced counts the claim is false of the code (C99_refuted_unbalanced: every device at rest reads a turn). Missing: rounding of f64/f32."
  },
  {
   "property": "C100",
   "status": "proved",
   "theorems": [
    "C100_states_in_order",
    "C100_state_is_last_report",
    "C100_result",
    "C100_every_phase_long_enough",
    "C100_panics_exactly_after_the_end",
    "C100_moves_on",
    "C100_right_if_done_right_partial",
    "C100_end_reachable",
    "C100_moves_on_only_when_steady",
    "C100_moves_on_only_when_steady_instance"
   ],
   "note": "Exact reals for the readings and timestamps. C100_end_reachable shows every reachable state can be completed (also the finding: by a device turning at a constant rate). C100_right_if_done_right_partial composes with C99 and inherits its balanced-count hypothesis."
  },
  {
   "property": "C101",
   "status": "partial",
   "theorems": [
    "C101_bytes_roundtrip",
    "C101_stored_calibration_is_read",
    "C101_power_loss_partial",
    "C101_refuted_power_loss_panics",
    "C101_instance",
    "C101_its_own_type"
   ],
   "note": "Storing and reading back is proved. The no-panic part of the power-loss claim is refuted by the code (C101_refuted_power_loss_panics). Not modelled: the alignment of the f32 pointer cast (undefined behaviour in Rust when the buffer is not 4-aligned)."
  },
  {
   "property": "C102",
   "status": "partial",
   "theorems": [
    "C102_read_partial",
    "C102_long_read",
    "C102_read_keeping_driver",
    "C102_write",
    "C102_stream_round_trip",
    "C102_checksum_any_pieces",
    "C102_checksum_is_calculate_partial",
    "C102_refuted_long_read",
    "C102_refuted_short_write",
    "C102_refuted_last_bytes_unchecked",
    "C102_instance",
    "C102_calculate_completes"
   ],
   "note": "Round trip and slice-independence of the checksum proved for all drivers; reads proved up to 4096 bytes, and characterised byte by byte beyond (refuted by the code for drivers that write the command into the buffer); the checksum does not cover an incomplete last word (refuted by the code)."
  },
  {
   "property": "C103",
   "status": "partial",
   "theorems": [
    "C103_downlink_in_order",
    "C103_poll_answer_partial",
    "C103_refuted_stale",
    "C103_statuses_in_order",
    "C103_own_status_partial",
    "C103_refuted_hangs_outside_gcm",
    "C103_refuted_swapped_statuses",
    "C103_instance"
   ],
   "note": "Order and at-most-once delivery proved for every schedule; freshness of a poll, ownership of a status with several consoles and return outside GCM mode are refuted; own status proved when calls do not overlap."
  },
  {
   "property": "C104",
   "status": "partial",
   "theorems": [
    "C104_list_is_exact",
    "C104_pull_files",
    "C104_stops_at_a_file_in_use",
    "C104_refuted_error_is_end_of_list",
    "C104_refuted_damaged_entry",
    "C104_refuted_closed_file_not_saved",
    "C104_instance"
   ],
   "note": "Listing and pulling proved for every reachable state with no file of the type in use; the behaviour with a file in use and with an unreadable entry is proved and refutes the last clause."
  },
  {
   "property": "C105",
   "status": "partial",
   "theorems": [
    "C105_start_reads_a_set_configuration",
    "C105_mode_after_set",
    "C105_no_unset_mode",
    "C105_usb_keeps_it_on_the_ground",
    "C105_usb_later",
    "C105_refuted_halts_after_interrupted_set"
   ],
   "note": "Proved for every life in which only SetDeviceConfig touches the configuration file and it does not run concurrently with itself; 'a configured device stays configured' is refuted."
  },
  {
   "property": "C106",
   "status": "partial",
   "theorems": [
    "C106_rows_partial",
    "C106_cut_file",
    "C106_barometer_csv",
    "C106_imu_csv",
    "C106_csv_of_files",
    "C106_refuted_times_per_file",
    "C106_refuted_tier_2_csv"
   ],
   "note": "Proved for every history, chunking and cut. Partial because the code refutes the rest: the tier-2 CSV is made from tier-1 files read with the wrong interval, files with fewer than two times stay undated, and of several times logged without a reading in between only the first and last may be kept."
  },
  {
   "property": "C107",
   "status": "proved",
   "theorems": [
    "C107_shared_survives",
    "C107_shared_closed"
   ],
   "note": "Calls of different tasks are interleaved whole: each call of vlfs takes the locks it needs (C27-C30 treat the locks). Legality of calls as in C06. ex_C107 runs a concrete interleaving in which the writer's place changes and power is lost in the other task's append."
  },
  {
   "property": "C108",
   "status": "partial",
   "theorems": [
    "C108_log_in_order",
    "C108_log_complete_partial",
    "C108_slow_write_loses_state",
    "C108_refuted_every_state_is_logged",
    "C108_log_survives",
    "log_file"
   ],
   "note": "Order, beeps, indicator and survival of power losses are proved for every schedule. Completeness holds when the logging task keeps up (at most one event waiting at each reading); without that it is false, and C108_slow_write_loses_state says exactly when a state is lost for good."
  },
  {
   "property": "C109",
   "status": "partial",
   "theorems": [
    "C109_follows_events",
    "C109_nothing_missed_partial",
    "C109_woken",
    "C109_refuted_overwritten",
    "C109_refuted_two_drivers",
    "C109_refuted_eleven_tasks",
    "C109_ascii_sentence",
    "C109_refuted_sentence_panics"
   ],
   "note": "In order, each once, and the last one is returned: proved for every schedule. Nothing missed: proved when events are fetched only after the previous one was seen and no two drivers share a channel; woken: proved for at most ten tasks; both false otherwise (refutations listed)."
  },
  {
   "property": "C110",
   "status": "partial",
   "theorems": [
    "C110_reaches_the_device",
    "C110_can_be_replaced_partial",
    "C110_refuted_bricked",
    "C110_refuted_no_flight",
    "C110_radio_settings",
    "C110_cut",
    "C110_name_shown_partial",
    "C110_refuted_name_panics",
    "C110_without_a_radio"
   ],
   "note": "Mode, settings, key and name reach the device for every life. Panic-free start, console and printed name hold exactly under the conditions stated in the theorems (radio settings that exist; name cut between characters); the code refutes the rest. The rkyv codec is abstract (decode (encode c) = c)."
  },
  {
   "property": "C111",
   "status": "partial",
   "theorems": [
    "C111_csv",
    "C111_samples",
    "C111_value_error",
    "C111_time_error",
    "C111_codec",
    "C111_storable",
    "C111_refuted_row_times",
    "C111_refuted_channel",
    "C111_refuted_nan"
   ],
   "note": "Rows, values and files proved for all inputs; that a row carries the time of its own raw read is false of the code (refuted), as is absence of panics for channel numbers from 4 or NaN times."
  },
  {
   "property": "C112",
   "status": "proved",
   "theorems": [
    "C112_calls_obey_the_chip",
    "C112_starting_obeys_the_chip",
    "C112_same_in_memory",
    "C112_same_after_power_loss",
    "C112_rules_matter"
   ],
   "note": "Built into the trace predicate under the whole file-system refinement: every operation of every call carries its proof that the chip allows it. C112_rules_matter shows the condition is not idle: a page programmed twice differs between chip and MemoryFlash."
  },
  {
   "property": "C113",
   "status": "proved",
   "theorems": [
    "C113_no_table_is_formatted",
    "C113_first_start",
    "C113_first_start_interrupted",
    "C113_stand_ins_are_unused"
   ],
   "note": "The first theorem also shows the reverse side: a chip whose four tables have all become unreadable is formatted in the same way, without an error."
  },
  {
   "property": "C114",
   "status": "proved",
   "theorems": [
    "C114_values_come_back",
    "C114_cut_gives_a_prefix"
   ],
   "note": "Over the file-system model with the CRC as in the code."
  },
  {
   "property": "C115",
   "status": "proved",
   "theorems": [
    "C115_never_early",
    "C115_woken_in_time",
    "C115_update_returns",
    "C115_update_takes_the_due"
   ],
   "note": "Times are any total preorder (hypotheses of the section: totality and transitivity of <=), which the f64 times of the simulation satisfy except NaN."
  },
  {
   "property": "C116",
   "status": "partial",
   "theorems": [
    "C116_serial_keeps_every_byte",
    "C116_serial_read_bounds",
    "C116_refuted_split_loses",
    "C116_refuted_empty_write",
    "C116_refuted_long_chunk",
    "C116_switch",
    "C116_refuted_told_change",
    "C116_sensor",
    "C116_sensor_read_twice",
    "C116_mock_radio",
    "C116_mock_radio_keeps_last",
    "C116_short_chunks_arrive"
   ],
   "note": "The refuted parts are false of the code."
  },
  {
   "property": "C117",
   "status": "partial",
   "theorems": [
    "C117_interpolates",
    "C117_stays_between",
    "C117_over",
    "C117_absolute",
    "C117_refuted_zero_segment",
    "C117_refuted_one_keyframe",
    "C117_as_built"
   ],
   "note": "Exact rationals instead of f32; slerp of orientations is not modelled. The refuted parts are false of the code."
  },
  {
   "property": "C118",
   "status": "proved",
   "theorems": [
    "C118_reader_undisturbed"
   ],
   "note": "Calls are atomic steps between read requests (a read request itself is one step: it holds the flash lock page by page in the code). Excluded by hypothesis: a file being written by a writer that create_file_and_open_for_write made, since such a file is not marked as open. Instance: ex_C118 (three requests interleaved with seven calls)."
  },
  {
   "property": "C119",
   "status": "partial",
   "theorems": [
    "C119_requests_are_answered",
    "C119_reads_are_exact",
    "C119_in_use_until_closed",
    "C119_panics_iff_unplugged_while_open",
    "C119_serial_console_serves_once",
    "C119_refuted_unplugged_during_a_pull"
   ],
   "note": "All parts proved except the last, which the code violates: pulling the cable while a file is open panics the device (exact characterisation of the console events that panic, and an instance), and the serial console is dead after one line error. Concrete case: C119_refuted_unplugged_during_a_pull (two consoles, a pull in progress)."
  },
  {
   "property": "C120",
   "status": "proved",
   "theorems": [
    "C120_live_answers",
    "C120_session",
    "C120_fresh",
    "C120_nothing_missed_when_polled",
    "C120_refuted_newest"
   ],
   "note": "embassy-sync's PubSubChannel is taken at its documented behaviour, as in PubSub.v. Concrete case: ex_C120."
  },
  {
   "property": "C121",
   "status": "partial",
   "theorems": [
    "C121_flies_iff",
    "C121_no_profile",
    "C121_reset_before_read",
    "C121_blinks_red",
    "C121_melodies",
    "C121_panics_iff",
    "C121_refuted_failure_not_heard",
    "C121_refuted_magnetometer_stops_it"
   ],
   "note": "Complete for the code; two clauses are false of it: the melody after a failed check is the same as after a passed one, and a magnetometer that cannot be reset panics the device."
  },
  {
   "property": "C122",
   "status": "partial",
   "theorems": [
    "C122_clear_data",
    "C122_answered_means_done",
    "C122_all_gone_when_idle",
    "C122_power_loss",
    "C122_refuted_open_file_stays",
    "C122_refuted_segment_being_written",
    "C122_segment_instance",
    "C122_refuted_ring_keeps_one_segment",
    "C122_ring_instance"
   ],
   "note": "What ClearData does to the directory is proved for every reachable state, also with writers appending to the files it removes. The code refutes that recording goes on: the segment being written is not marked as open, so it is deleted under its writer; and a ring that was full keeps only one segment from then on."
  },
  {
   "property": "C123",
   "status": "partial",
   "theorems": [
    "C123_same_events",
    "C123_nothing_invented",
    "C123_all_sent_partial",
    "C123_refuted_only_landings",
    "C123_refuted_two_landings"
   ],
   "note": "nothing invented or reordered for every schedule; complete while the task keeps up; refuted: the cores that run never publish the states that stand for ignition, coast and apogee, so only landings are ever announced, and a flight can announce two"
  },
  {
   "property": "C124",
   "status": "partial",
   "theorems": [
    "C124_every_switch_has_its_cause",
    "C124_records_while_armed_partial",
    "C124_off_a_minute_after_landing",
    "C124_refuted_quick_turnaround",
    "C124_refuted_disarm_ignored"
   ],
   "note": "every command has its cause for every schedule; on exactly while armed until a landing; off a minute after a landing; refuted: messages are lost during the minute's wait, so a re-armed rocket flies with the camera off"
  },
  {
   "property": "C125",
   "status": "partial",
   "theorems": [
    "C125_backup_is_shown_partial",
    "C125_critical_error_restarts",
    "C125_refuted_primary_never_shown"
   ],
   "note": "the backup core's state and speed are shown while the task keeps up; refuted: the primary fields and both altitudes never leave their initial values; the manual-trigger core is never shown"
  },
  {
   "property": "C126",
   "status": "proved",
   "theorems": [
    "C126_beeps_follow_the_switch",
    "C126_no_beep_for_software"
   ],
   "note": ""
  },
  {
   "property": "C127",
   "status": "partial",
   "theorems": [
    "C127_patterns_differ",
    "C127_light_shows_the_status_partial",
    "C127_records_unless_usb_at_boot",
    "C127_usb_at_boot_does_not_record",
    "C127_refuted_light_after_disabling",
    "C127_refuted_can_is_ignored"
   ],
   "note": "proved about the board's own flags for every schedule; refuted: the recording flag is not cleared when the console disables the converter, and nothing on the CAN bus is received"
  },
  {
   "property": "C128",
   "status": "proved",
   "theorems": [
    "C128_transparent",
    "C128_figures",
    "C128_reported",
    "C128_time_not_negative",
    "C128_others_uncounted"
   ],
   "note": "any chip, any interleaving of reads and resets of the figures; times are rationals (f64 rounding not modelled), counters modulo 2^32; instance C128_instance"
  },
  {
   "property": "C129",
   "status": "proved",
   "theorems": [
    "C129_recorded_unless_full",
    "C129_recorded_before_first_check",
    "C129_flight_unaffected",
    "C129_reserve"
   ],
   "note": "the bytes a reading takes are a parameter; the buffers' capacities (40, 40, 10) are the code's; instance C129_instance"
  },
  {
   "property": "C130",
   "status": "proved",
   "theorems": [
    "C130_on_schedule",
    "C130_plan",
    "C130_one_at_a_time"
   ],
   "note": "the starts, wake-up delays and durations are arbitrary within the stated bounds; instance C130_instance"
  },
  {
   "property": "C131",
   "status": "proved",
   "theorems": [
    "C131_reads_back",
    "C131_distinct"
   ],
   "note": "Display for u8 (library) modelled as plain decimal; the JSON reader is the specification; instance C131_instance"
  },
  {
   "property": "C132",
   "status": "partial",
   "theorems": [
    "C132_keeps_the_newest",
    "C132_recent_file_is_there",
    "C132_reaches_back",
    "C132_tiers",
    "C132_refuted_shared_type"
   ],
   "note": "proved for every ring with a file type of its own (the barometer's); false of the code for the GPS and IMU recorders, which share types 9 and 10: after a restart their logs reach back 10 minutes (C132_refuted_shared_type); instance C132_instance"
  },
  {
   "property": "C133",
   "status": "partial",
   "theorems": [
    "C133_nothing_fires_without_soft_arm",
    "C133_arming_as_commanded",
    "C133_low_power_as_commanded",
    "C133_ground_test_ignored",
    "C133_restart",
    "C133_reset_in_flight_disarms",
    "C133_low_power_blinds",
    "C133_refuted_awake_but_silent",
    "C133_instance",
    "C133_passed_on"
   ],
   "note": "Every positive claim is proved for all histories; the agreement of the two low-power modes is refuted by a run of the link (C133_refuted_awake_but_silent). C133_low_power_blinds states the consequence for a flight: in low power the backup core sees nothing until the next packet."
  },
  {
   "property": "C134",
   "status": "partial",
   "theorems": [
    "C134_every_status_was_true",
    "C134_rate",
    "C134_status_is_fresh",
    "C134_changes_are_announced",
    "C134_board_follows",
    "C134_refuted_one_flight_only",
    "C134_instance",
    "C134_first_at_once"
   ],
   "note": "The broadcast's claims are proved for all runs; that the board records whenever the rocket is armed is refuted after a first landing (C134_refuted_one_flight_only). Times are whole milliseconds, waiting for the mutex and the transmission one interval."
  },
  {
   "property": "C135",
   "status": "partial",
   "theorems": [
    "C135_within_the_window",
    "C135_outside_the_window",
    "C135_one_nonce_per_tenth",
    "C135_refuted_nonce_reuse",
    "C135_refuted_no_window",
    "C135_instance"
   ],
   "note": "The window of the scheme is proved for all times; as the source stands it is disabled (C135_refuted_no_window), and nonces repeat within a tenth of a second even when enabled (C135_refuted_nonce_reuse)."
  },
  {
   "property": "C136",
   "status": "proved",
   "theorems": [
    "C136_reports_after_launch",
    "C136_backup_reports_speed",
    "C136_manual_reports_nothing",
    "C136_instance"
   ],
   "note": "The filter mathematics behind height and speed is an input (FlightCore.v)."
  },
  {
   "property": "C137",
   "status": "partial",
   "theorems": [
    "C137_only_announced_times",
    "C137_fresh",
    "C137_other_boards_know_the_time_partial",
    "C137_refuted_delay_not_compensated",
    "C137_refuted_updates_skipped",
    "C137_instance"
   ],
   "note": "Proved for every schedule: nothing invented, order, freshness bound, and the error bound of the other boards' clocks. Refuted part (why partial): the delay is not compensated, so the error grows with the load of the bus; updates during a transmission of over a second are skipped. The receiving task is in the source but commented out of the strain-gauge board's final join."
  },
  {
   "property": "C138",
   "status": "partial",
   "theorems": [
    "C138_no_double_claim_partial",
    "C138_exactly",
    "C138_refuted_other_pairs",
    "C138_modes_get_their_devices",
    "C138_instance"
   ],
   "note": "The exact condition is proved (if and only if); partial because the code refutes the claim for the other pairs of pyros (pyro 3's continuity is read through pyro 2's input, and equal pyros)."
  },
  {
   "property": "C139",
   "status": "partial",
   "theorems": [
    "C139_references",
    "C139_dates_partial",
    "C139_before_the_first_partial",
    "C139_refuted_before_the_fix"
   ],
   "note": "Proved for every history: each logged unix time is never fast and slow by at most the stamping delay L plus the task delay A; every reading between two unix times of its file is dated within [-(L+A), 0]. Before the first unix time the error bound grows as (L+A)(1+distance/spacing), and C139_refuted_before_the_fix shows it really does: with 5 ms of jitter a reading ten minutes before the fix is dated 2.985 s fast."
  },
  {
   "property": "C140",
   "status": "partial",
   "theorems": [
    "C140_only_received_times",
    "C140_newest_is_logged",
    "C140_dates_partial",
    "C140_refuted_first_ten_minutes",
    "C140_refuted_first_file",
    "C140_refuted_as_built",
    "C140_instance"
   ],
   "note": "Proved for every history. The code refutes that every battery reading can be dated: the first file (one minute) never holds a unix time, a log of under ten minutes holds at most one, and as built the CAN receiver that supplies the times does not run."
  }
 ]
}