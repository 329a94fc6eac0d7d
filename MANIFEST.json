{
 "claims": [
  {
   "property": "C01",
   "status": "proved",
   "theorems": [
    "C01_leader_roundtrip",
    "C01_leader_layout"
   ],
   "note": "Leader codec round trip and byte layout for all field values."
  },
  {
   "property": "C02",
   "status": "proved",
   "theorems": [
    "C02_host_sector_layout",
    "C02_other_layouts",
    "C02_host_sector_both",
    "C02_host_sector_dblock",
    "C02_dblock_accepted",
    "C02_request_roundtrip",
    "C02_rindex_roundtrip",
    "C02_bitmap_separate"
   ],
   "note": "Codecs of the other on-disk records; records sharing a sector never overlap."
  },
  {
   "property": "C03",
   "status": "partial",
   "theorems": [
    "C03_checksum_is_crc32c",
    "C03_leader_corruption_detected",
    "C03_delta_corruption_detected",
    "C03_dblock_corruption_detected",
    "C03_dblock_corruption_detected_nonzero",
    "C03_dblock_blank_exception_refuted"
   ],
   "note": "Any change confined to 4 adjacent bytes of checksummed data is detected for leader records. For ballot blocks the code skips the check when the stored checksum is zero and mbal is zero-like; the refuted theorem gives a corrupted block that is accepted, the positive theorem excludes exactly that case."
  },
  {
   "property": "C04",
   "status": "proved",
   "theorems": [
    "C04_accepts_exactly_own_records"
   ],
   "note": "verify_leader accepts exactly the records that belong to the lease, stated on raw bytes."
  },
  {
   "property": "C05",
   "status": "partial",
   "theorems": [
    "C05_sectors_disjoint_partial",
    "C05_sectors_disjoint_with_lvb",
    "C05_lvb_refuted",
    "C05_lvb_hits_other_lease",
    "C05_lockspace_sectors"
   ],
   "note": "All ballot/leader/request sectors are disjoint and inside the lease area; the LVB sector (2002) is outside the area for 4096-byte sectors with align below 8M, which is shown to overwrite the neighbouring lease."
  },
  {
   "property": "C06",
   "status": "proved",
   "theorems": [
    "C06_accepted_flags_supported",
    "C06_roundtrip",
    "C06_align_roundtrip",
    "C06_max_hosts_exact",
    "C06_old_align"
   ],
   "note": "Size flags."
  },
  {
   "property": "C07",
   "status": "proved",
   "theorems": [
    "C07_unique",
    "C07_larger_than_seen",
    "C07_larger_than_seen_one",
    "C07_retries_increase",
    "C07_nonzero"
   ],
   "note": "Ballot numbers unique per host and increasing."
  },
  {
   "property": "C08",
   "status": "proved",
   "theorems": [
    "C08_majorities_intersect",
    "C08_majority_is_more_than_half"
   ],
   "note": "Majorities of disks intersect."
  },
  {
   "property": "C09",
   "status": "partial",
   "theorems": [
    "C09_refuted",
    "C09_block_cleared_refuted",
    "C09_one_owner_partial",
    "C09_lease_partial"
   ],
   "note": "Refuted for the code as it stands, with traces: a delayed leader write lowers the version and a version is decided twice (no crash, no error); a failing shared acquire clears its ballot block. Proved: for any number of disks and hosts at sector granularity under the stated discipline (Ballot.disciplined), and for the complete lease code on one disk under LeaseProof.bdisc."
  },
  {
   "property": "C10",
   "status": "proved",
   "theorems": [
    "C10_owner_started",
    "C10_recorded_is_decided",
    "C10_leader_owner_started"
   ],
   "note": "Any number of disks and hosts, every interleaving, no discipline assumed."
  },
  {
   "property": "C11",
   "status": "partial",
   "theorems": [
    "C11_refuted",
    "C11_generation_refuted",
    "C11_block_cleared_refuted",
    "C11_one_holder_partial",
    "C11_holder_is_recorded_partial"
   ],
   "note": "Refuted for the code as it stands by three traces (delayed leader write; missing generation comparison after re-join; failing shared acquire clearing its block). Proved for all hosts, versions, crashes, conversions and interleavings on one disk under the discipline LeaseProof.bdisc."
  },
  {
   "property": "C12",
   "status": "partial",
   "theorems": [
    "C12_competes_only_for_version_partial",
    "C12_competes_for_next_version",
    "C12_other_version_fails",
    "C12_untouched",
    "C12_refuted"
   ],
   "note": "Proved for every version other than 0 and every sequence of call results; a request for version 0 (SANLK_RES_LVER with lver 0) is not checked."
  },
  {
   "property": "C13",
   "status": "partial",
   "theorems": [
    "C13_competes_only_with_reason",
    "C13_acquired_only_with_reason",
    "C13_success_means_owner",
    "C13_renewing_owner_kept_partial",
    "C13_default_timeouts_partial",
    "C13_refuted"
   ],
   "note": "In terms of what was observed: proved for all histories. In real time: refuted, because the clock is read after the host lease (a delay in between counts as silence); proved with a bound on that delay."
  },
  {
   "property": "C14",
   "status": "partial",
   "theorems": [
    "C14_waits_for_reported_timeout_partial",
    "C14_known_timeout_partial",
    "C14_monitored_timeout",
    "C14_refuted",
    "C14_uninitialised_refuted"
   ],
   "note": "Refuted: the waiter uses its own timeout until the monitoring has seen the owner, and an uninitialised value when host_info fails. Proved for the timeout that host_info reports, and that this is the owner's once monitored."
  },
  {
   "property": "C15",
   "status": "partial",
   "theorems": [
    "C15_frees_only_own",
    "C15_own_is_freed",
    "C15_mismatch_untouched",
    "C15_mismatch_error_partial",
    "C15_error_refuted",
    "C15_copy_uninitialised"
   ],
   "note": "Frees only own lease: proved. Error on mismatch: refuted when another host wrote the record last (returns 0 and the caller's copy becomes uninitialised)."
  },
  {
   "property": "C16",
   "status": "partial",
   "theorems": [
    "C16_majority_identity_partial",
    "C16_verified_if_no_lookalike",
    "C16_refuted",
    "C16_owned_lease_read_as_free"
   ],
   "note": "Refuted as stated: a record that failed verification can be returned (an owned lease can be read as free). Proved: all compared members (owner, generation, version, names, sizes) are those of verified records on a majority of disks, and the record is verified itself when no rejected record looks alike."
  },
  {
   "property": "C17",
   "status": "partial",
   "theorems": [
    "C17_one_holder_partial",
    "C17_holder_on_disk_partial",
    "C17_concurrent_joins_partial",
    "C17_refuted"
   ],
   "note": "Proved for any number of hosts, start times, delays, crashes, failures when no host's disk operation takes longer than any host's I/O timeout. Refuted when every host only keeps its own I/O timeout and these differ: the short wait of the joining host uses the timeout found on disk, not that of a slower contender. Names of different daemon starts differ (default uuid)."
  },
  {
   "property": "C18",
   "status": "partial",
   "theorems": [
    "C18_generations_increase_partial",
    "C18_joined_is_listed",
    "C18_disk_generation_partial",
    "C18_refuted"
   ],
   "note": "Strictly increasing generations in every run of the timed system under the common bound on disk operations; refuted with differing I/O timeouts (same race as C17)."
  },
  {
   "property": "C19",
   "status": "proved",
   "theorems": [
    "C19_writes_only_untouched",
    "C19_success_wrote",
    "C19_changed_fails",
    "C19_untouched_renews",
    "C19_offset_check"
   ],
   "note": "On whole sectors including byte conversion and checksum. Also: an untouched lease is never refused; the host id offset check is off by one (undefined read for a host id one past the area)."
  },
  {
   "property": "C20",
   "status": "partial",
   "theorems": [
    "C20_dead_host_partial",
    "C20_dead_host_prompt_partial",
    "C20_refuted"
   ],
   "note": "Combined model of lockspace thread, lease holders, wdmd and hardware watchdog. Proved for a wdmd whose tests are at most one interval apart (no test scripts, prompt loop), and with the lateness of wdmd added to the waiting time in general; refuted when a test script takes nine seconds: the watchdog fires eight seconds after the observer declares the host dead."
  },
  {
   "property": "C21",
   "status": "partial",
   "theorems": [
    "C21_no_ping_after_expiry",
    "C21_without_scripts_partial",
    "C21_with_scripts_partial",
    "C21_refuted"
   ],
   "note": "Without scripts every ping is before every registered expiry; with scripts the close ping can come after it (refuted, witness 8 s late) but less than 9 s; a stall of the daemon adds its length."
  },
  {
   "property": "C22",
   "status": "proved",
   "theorems": [
    "C22_disarm_only_unused",
    "C22_disarm_other",
    "C22_active_client_blocks",
    "C22_dead_connection_is_forever",
    "C22_connection_keeps_enabled",
    "C22_refcount_needed"
   ],
   "note": "Active = holds the refcount. C22_refcount_needed shows that an expiry without refcount does not stop SIGTERM from disarming (sanlock always sets both)."
  },
  {
   "property": "C23",
   "status": "partial",
   "theorems": [
    "C23_free",
    "C23_dead_or_fail",
    "C23_live",
    "C23_complete",
    "C23_bad_record_refuted"
   ],
   "note": "Proved for all histories in which the host sector holds a record of this lockspace (FREE also otherwise). For a damaged sector LIVE is reported for ever although nothing changes (refuted theorem)."
  },
  {
   "property": "C24",
   "status": "proved",
   "theorems": [
    "C24_exactly_the_marked_hosts",
    "C24_published_to_exactly_pending_hosts",
    "C24_bits_distinct_and_inside",
    "C24_layout",
    "C24_renewal_publishes"
   ],
   "note": "Notification bitmap end to end."
  },
  {
   "property": "C25",
   "status": "partial",
   "theorems": [
    "C25_busy_partial",
    "C25_pending_kept_partial",
    "C25_refuted",
    "C25_host_gets_other_data"
   ],
   "note": "EBUSY/unchanged proved for different non-zero event numbers, over all histories; refuted for the same number with other data."
  },
  {
   "property": "C26",
   "status": "proved",
   "theorems": [
    "C26_lockspaces_unique",
    "C26_join_accepted_iff_new"
   ],
   "note": "Invariant over all histories of list operations; location = path string and offset."
  },
  {
   "property": "C27",
   "status": "partial",
   "theorems": [
    "C27_not_backwards_partial",
    "C27_failure_leaves_record",
    "C27_stale_refused",
    "C27_new_request_stored",
    "C27_success_means_stored",
    "C27_concurrent_partial",
    "C27_refuted",
    "C27_clear_resets",
    "C27_race_goes_back"
   ],
   "note": "An uninterrupted request never lowers the stored version (except the explicit clear request) and is newer than the held lease; equal versions overwrite the mode and two interleaved requests can lower the version, so the strict claim is refuted."
  },
  {
   "property": "C28",
   "status": "partial",
   "theorems": [
    "C28_local_exclusion_partial",
    "C28_one_resource",
    "C28_no_acquire_meanwhile",
    "C28_refuted",
    "C28_refuted_late"
   ],
   "note": "Holds for all interleavings if a conversion to exclusive only succeeds for the only token of the resource; convert_token lacks this check, so a process can get the exclusive lease while another local process keeps its shared one (refuted)."
  },
  {
   "property": "C29",
   "status": "partial",
   "theorems": [
    "C29_refuted",
    "C29_sh_ex_excluded_partial"
   ],
   "note": "Same model and discipline as C11; refuted without the discipline."
  },
  {
   "property": "C30",
   "status": "partial",
   "theorems": [
    "C30_refuted",
    "C30_with_lvb_partial",
    "C30_same_as_orphan_partial",
    "C30_orphan_protected",
    "C30_dead_holder"
   ],
   "note": "resource.c:1777 tests cmd_flags & only_orphan (1), i.e. the LVB bit: refuted for the flag alone; proved when the LVB flag is also set; without it the flag behaves as ACQUIRE_ORPHAN."
  },
  {
   "property": "C31",
   "status": "partial",
   "theorems": [
    "C31_found_areas_partial",
    "C31_small_entries_partial",
    "C31_entries_distinct",
    "C31_refuted",
    "C31_wrapped_offsets",
    "C31_format_ok"
   ],
   "note": "Distinct areas whenever the int multiplication is defined (entry*area size below 2^31); refuted at entry 2048 of a default 1M index, and with wrapping arithmetic 8M entry 512 gets the area of entry 0."
  },
  {
   "property": "C32",
   "status": "partial",
   "theorems": [
    "C32_crash_consistent_partial",
    "C32_rebuild_recovers_partial",
    "C32_refuted",
    "C32_nomem_bad_index"
   ],
   "note": "Byte level index with torn writes; all histories with crashes keep the index good if no allocation fails and updates are disciplined; rebuild recovers everything readable; refuted because a rebuild with an unreadable lease reports success."
  },
  {
   "property": "C33",
   "status": "partial",
   "theorems": [
    "C33_create_lookup_delete_partial",
    "C33_lookup_sound",
    "C33_refuted",
    "C33_created_entry"
   ],
   "note": "Holds for names not yet in the index; create does not check, so creating a name twice refutes the claim."
  },
  {
   "property": "C34",
   "status": "partial",
   "theorems": [
    "C34_update_partial",
    "C34_lookup_partial",
    "C34_unaligned_rejected",
    "C34_update_wipes_header",
    "C34_lookup_out_of_bounds",
    "C34_refuted"
   ],
   "note": "Holds for offsets which denote an entry; other aligned offsets are not rejected: one wipes the header, another reads outside the buffer."
  },
  {
   "property": "C35",
   "status": "partial",
   "theorems": [
    "C35_round_trip_partial",
    "C35_exclusive_partial",
    "C35_always_fits",
    "C35_shared_version_lost",
    "C35_backslash_lost",
    "C35_refuted"
   ],
   "note": "Holds for names without colon or backslash and paths without backslash whose escaped form fits; a shared resource loses its version; names are not escaped, so a colon in a name refutes the full claim."
  },
  {
   "property": "C36",
   "status": "partial",
   "theorems": [
    "C36_str_to_res",
    "C36_path_export",
    "C36_path_import",
    "C36_state_to_args_partial",
    "C36_state_to_args_overflow",
    "C36_export_small_overflow",
    "C36_refuted"
   ],
   "note": "str_to_res, path_import and path_export (size >= 3) are safe for every string; state_to_args is safe up to 2200 characters and overflows str[4401] beyond."
  },
  {
   "property": "C37",
   "status": "partial",
   "theorems": [
    "C37_round_trip_partial",
    "C37_exact",
    "C37_long_path_cut",
    "C37_refuted"
   ],
   "note": "Exactly the paths without backslash round-trip among those whose exported form fits."
  },
  {
   "property": "C38",
   "status": "partial",
   "theorems": [
    "C38_written_in_order",
    "C38_accepts_when_room",
    "C38_progress_partial",
    "C38_full_ring_is_stuck",
    "C38_burst_stalls",
    "C38_drops_never_reported",
    "C38_refuted"
   ],
   "note": "Order and exactly-once hold always; progress holds while fewer than all entries wait; a burst filling the ring makes head equal tail and the writer never writes again (refuted)."
  },
  {
   "property": "C39",
   "status": "partial",
   "theorems": [
    "C39_cleanup_partial",
    "C39_free_slot_untouched",
    "C39_live_kept",
    "C39_never_twice",
    "C39_refuted",
    "C39_stuck_forever",
    "C39_refuted_killpath",
    "C39_refuted_reregister"
   ],
   "note": "The full statement fails in three ways shown by witnesses: a convert request cut short leaves cmd_active set so a later death cleans up nothing, for ever; cmd_killpath for a dead process does not resume the connection so the slot leaks; a second REGISTER drops the token list. For all interleavings without these three events everything is released exactly once and the slot freed exactly once; nothing is ever released or freed twice in any interleaving."
  },
  {
   "property": "C40",
   "status": "partial",
   "theorems": [
    "C40_release_all_partial",
    "C40_overflows_beyond",
    "C40_release_named",
    "C40_refuted",
    "C40_named_overflow"
   ],
   "note": "Refuted: with nine leases SANLK_REL_ALL stores behind rem_tokens[8]; exactly the cases with more than eight overflow. Up to eight leases: all released exactly once."
  },
  {
   "property": "C41",
   "status": "proved",
   "theorems": [
    "C41_all_or_nothing",
    "C41_freed_or_held"
   ],
   "note": "Message reception, disk acquires, lockspace checks and death at either check are arbitrary inputs."
  },
  {
   "property": "C42",
   "status": "partial",
   "theorems": [
    "C42_restricts_partial",
    "C42_escalates_partial",
    "C42_default_grace",
    "C42_not_left",
    "C42_both_restrictions_kill",
    "C42_grace_extended",
    "C42_corrupt_lease_no_kill",
    "C42_refuted"
   ],
   "note": "SIGKILL is sent in every round from the end of the grace period to round 99 if the host id had expired and is not renewed; refuted when the grace period outlasts the 100 attempts (renewal or corrupt lease) and for processes that set both restrictions."
  },
  {
   "property": "C43",
   "status": "proved",
   "theorems": [
    "C43_owner_test_exact",
    "C43_error_exact"
   ],
   "note": "Exact for host lists with one entry per host id."
  },
  {
   "property": "C44",
   "status": "proved",
   "theorems": [
    "C44_disarm_safe",
    "C44_stays_safe",
    "C44_no_new_lease"
   ],
   "note": "Holding means a token in cl->tokens of a used slot with pid > 0."
  },
  {
   "property": "C45",
   "status": "partial",
   "theorems": [
    "C45_io_partial",
    "C45_refuted",
    "C45_rindex_refuted",
    "C45_rindex_double_refuted",
    "C45_lvb_reuse_refuted",
    "C45_lvb_free_refuted",
    "C45_gerr_refuted"
   ],
   "note": "Proved for every sequence of sector I/O of a task: a buffer of a timed out I/O is neither freed nor reused until the I/O is reaped. The full statement is refuted for read_rindex, which frees the buffer on a timeout, for the value block buffer r->lvb, which is reused and freed, and for io_getevents errors."
  },
  {
   "property": "C46",
   "status": "partial",
   "theorems": [
    "C46_reads_partial",
    "C46_single",
    "C46_refuted",
    "C46_write_refuted",
    "C46_read_refuted",
    "C46_shared_refuted",
    "C46_erase_refuted",
    "C46_late_refuted",
    "C46_area_refuted"
   ],
   "note": "Proved when value block I/O succeeds and releases are ordinary exclusive ones: the next holder reads what was last set. Refuted with witnesses: write failure, read failure, set by a shared holder, release that erases, write landing late, block outside of the area."
  },
  {
   "property": "C47",
   "status": "proved",
   "theorems": [
    "C47_timeouts_ordered",
    "C47_attempts_before_fail",
    "C47_no_int_overflow",
    "C47_grace_before_fire"
   ],
   "note": "Timeout arithmetic."
  },
  {
   "property": "C48",
   "status": "partial",
   "theorems": [
    "C48_resource",
    "C48_read_all_disks",
    "C48_cleared",
    "C48_lockspace",
    "C48_crash_partial",
    "C48_crash_refuted",
    "C48_num_hosts_refuted",
    "C48_refuted"
   ],
   "note": "Proved: initialised resources and lockspaces are valid and free for every host, whatever was on the disks; an interrupted lockspace initialisation is not recognised when the first sector was reached or blank. Refuted: interruption before the first sector over an older lockspace; negative number of hosts."
  },
  {
   "property": "C49",
   "status": "partial",
   "theorems": [
    "C49_delivered",
    "C49_only_recently_notified_partial",
    "C49_refuted",
    "C49_documented_recipe_refuted"
   ],
   "note": "Delivery proved; the \"no others\" half is refuted (a request notification or the documented 60 s recipe delivers the event to other hosts); proved instead: only hosts notified within the period receive it."
  },
  {
   "property": "C50",
   "status": "partial",
   "theorems": [
    "C50_exclusive_while_joined_partial",
    "C50_remove_refused",
    "C50_refuted",
    "C50_flag_cleared_by_other_operation"
   ],
   "note": "Exclusive as long as the lockspace is not left during an operation; refuted otherwise."
  },
  {
   "property": "C51",
   "status": "partial",
   "theorems": [
    "C51_examine_partial",
    "C51_newer_request_acts",
    "C51_refuted",
    "C51_both_restrictions_kill"
   ],
   "note": "Holds with respect to the version seen when the examination began; a re-acquire in between, and both restrictions together, refute the full claim."
  },
  {
   "property": "C52",
   "status": "partial",
   "theorems": [
    "C52_dump_partial",
    "C52_line_fits",
    "C52_refuted"
   ],
   "note": "Exact once wrapped and memory safe always; before the first wrap copy_log_dump leaves out the last byte."
  },
  {
   "property": "C53",
   "status": "partial",
   "theorems": [
    "C53_current_partial",
    "C53_host_id",
    "C53_refuted"
   ],
   "note": "Refuted: check_new_tokens_space compares the host id, not the generation, so a slow acquire is linked to a re-added lockspace. Holds if the host does not rejoin with a host id it had before."
  },
  {
   "property": "C54",
   "status": "proved",
   "theorems": [
    "C54_exactly_once",
    "C54_nothing_forgotten",
    "C54_number_of_workers",
    "C54_refused_not_queued"
   ],
   "note": ""
  },
  {
   "property": "C55",
   "status": "partial",
   "theorems": [
    "C55_refuted",
    "C55_waits",
    "C55_sleepers_used_partial",
    "C55_new_worker_partial"
   ],
   "note": "Refuted: free_workers still counts a worker that was signalled but has not run yet, so a burst of commands starts too few workers and one waits behind another. Proved: each waiting worker is woken by a command, and a worker is started when none is free and the maximum is not reached."
  },
  {
   "property": "C56",
   "status": "partial",
   "theorems": [
    "C56_refuted",
    "C56_waits_for_all_partial"
   ],
   "note": "Refuted: the wait in thread_pool_free is not in a loop, a spurious wake-up ends it early. Proved when there is no spurious wake-up."
  },
  {
   "property": "C57",
   "status": "partial",
   "theorems": [
    "C57_refuted",
    "C57_one_entry",
    "C57_times_partial",
    "C57_counts_partial"
   ],
   "note": "Times and latencies are exact for every history; the counters are exact until the ring wraps. Refuted after that: a reused record keeps the counters of the old one. A history of one entry is never reported."
  },
  {
   "property": "C58",
   "status": "partial",
   "theorems": [
    "C58_refuted",
    "C58_answer_partial",
    "C58_fits_partial"
   ],
   "note": "Every answer is right, in at most two reads, provided no byte outside of the buffer is read; that holds if all host sectors fit the area. Refuted: num_hosts of the record is trusted. Missing: only disk 0 is read by the code; allocation failure; the area changing while it is read."
  },
  {
   "property": "C59",
   "status": "partial",
   "theorems": [
    "C59_refuted",
    "C59_name_refuted",
    "C59_in_step_partial",
    "C59_release_all_partial"
   ],
   "note": "Proved for every documented use, whatever the daemon answers. Refuted: release with the orphan or rename flag and too few resources blocks a worker for ever; release of everything with resources leaves their bytes to be read as headers, and a name that looks like a header is executed (harmless if none does). Missing: the commands of unregistered connections."
  },
  {
   "property": "C60",
   "status": "proved",
   "theorems": [
    "C60_safe",
    "C60_args",
    "C60_seven_args_no_pid"
   ],
   "note": "Arguments are taken as quoted with backslashes, at most 126 characters and at most seven including the pid; beyond seven the pid is dropped silently (C60_seven_args_no_pid), which is a limit of the code and shown as such."
  },
  {
   "property": "C61",
   "status": "partial",
   "theorems": [
    "C61_refuted",
    "C61_round_trip_partial",
    "C61_state_fits"
   ],
   "note": "Refuted: colons in names are not escaped. Proved for all names without colon or backslash and paths without backslash, any number of resources. Missing: allocation failure."
  },
  {
   "property": "C62",
   "status": "proved",
   "theorems": [
    "C62_names_the_lockspace",
    "C62_fits"
   ],
   "note": "Names with a colon or backslash cannot be written in this format at all; values from 2^63 are undefined in atoll and not claimed."
  },
  {
   "property": "C63",
   "status": "partial",
   "theorems": [
    "C63_resource_refuted",
    "C63_lockspace_refuted",
    "C63_path_refuted",
    "C63_colon_refuted",
    "C63_overflow",
    "C63_no_m",
    "C63_resource_partial",
    "C63_lockspace_partial"
   ],
   "note": "Refuted: only the offset of the first disk is converted; parse_arg_lockspace reads uninitialised memory behind the digits; an M in a later path and an escaped colon are mistaken; more than sixteen characters overflow offstr. Proved for first paths without colon, M at the first disk only, and a non-digit behind the digits in the buffer."
  },
  {
   "property": "C64",
   "status": "partial",
   "theorems": [
    "C64_refuted",
    "C64_reply_partial",
    "C64_armed_once",
    "C64_sysrq",
    "C64_reboot_reply"
   ],
   "note": "Refuted: once resetting, any event in another lockspace is answered RESETTING there without the lockspace having been kept from exiting (set_config is done only for events that ask for a reset). Everything else is proved."
  },
  {
   "property": "C65",
   "status": "partial",
   "theorems": [
    "C65_refuted",
    "C65_ends_refuted",
    "C65_alarm_refuted",
    "C65_waits_for_ever",
    "C65_partial",
    "C65_renewing_host_fails",
    "C65_no_answer_fails",
    "C65_alarm_partial",
    "C65_ends_partial"
   ],
   "note": "Refuted: with several lockspaces an old report of death is combined with a new answer; when every connection is lost the command never ends; a host that was reset and has joined again has smaller timestamps and is taken for one whose watchdog failed. Proved with one lockspace, with resources, or when reports of death follow answers."
  },
  {
   "property": "C66",
   "status": "partial",
   "theorems": [
    "C66_refuted",
    "C66_duel_refuted",
    "C66_margin_refuted",
    "C66_partial",
    "C66_lockspace_failed",
    "C66_duel_partial",
    "C66_margin_quiet",
    "C66_margin_partial"
   ],
   "note": "Refuted: a host that fences a higher host id ignores being fenced by a third host; a repeated SIGUSR1 kills the winner of a duel too; while fencing the loop sleeps 10 seconds and the renewal comes 6 seconds before the expiry. Proved without an agent against a higher host id, for one signal of each kind, and with margins 15 (idle) and 6."
  },
  {
   "property": "C67",
   "status": "partial",
   "theorems": [
    "C67_refuted",
    "C67_ninth_ignored",
    "C67_pass_partial",
    "C67_lost_only_by_failed_start",
    "C67_setup_keeps",
    "C67_no_false_alarm",
    "C67_ends",
    "C67_kills_own",
    "C67_failed_is_rerun"
   ],
   "note": "Refuted: a script that cannot be started once is taken out of the table and the test passes; a ninth script is ignored. Proved for every script in the table, and that a script leaves the table only through a failed start."
  },
  {
   "property": "C68",
   "status": "partial",
   "theorems": [
    "C68_fence_refuted",
    "C68_sanlock_partial",
    "C68_wdmd_partial",
    "C68_wdmd_after_crash",
    "C68_can_start"
   ],
   "note": "Refuted for fence_sanlockd, which removes its lock file when it ends: a process that opened the old file and one that makes a new file both run. Proved for sanlock (never removes the file) and wdmd (shared memory object)."
  },
  {
   "property": "C69",
   "status": "proved",
   "theorems": [
    "C69_wait_ends",
    "C69_gets_there",
    "C69_goes_on",
    "C69_taken_over"
   ],
   "note": "The result of the ballot is an input here; C09 and C70 are about the ballot itself."
  },
  {
   "property": "C70",
   "status": "partial",
   "theorems": [
    "C70_refuted",
    "C70_two_owners",
    "C70_version_goes_back",
    "C70_ballot_partial",
    "C70_ballot_wins",
    "C70_partial",
    "C70_next_version_partial",
    "C70_wedged",
    "C70_refines",
    "C70_enabled",
    "C70_reread",
    "C70_next_number"
   ],
   "note": "Refuted: when posix_memalign fails run_ballot returns the positive errno, which the caller takes for success with the dblock of an earlier aborted ballot (or a zero one). Proved when the allocations succeed. C70_refines and C70_enabled connect the sequential run_ballot to the interleaved model of C09; C70_reread and C70_next_number are about what happens between two ballots."
  },
  {
   "property": "C71",
   "status": "partial",
   "theorems": [
    "C71_refuted",
    "C71_success_without_write_refuted",
    "C71_null_refuted",
    "C71_leak_refuted",
    "C71_update_unlocked_refuted",
    "C71_partial",
    "C71_format_partial",
    "C71_locks_given_back",
    "C71_written_under_lease",
    "C71_written"
   ],
   "note": "Refuted when memory runs out (success without the write, or a null pointer used with the index lease held), for buffers and a file descriptor on some error paths, and for update, which does not take the index lease. Proved: locks, tokens and the disk are given back on every path that returns; create, delete and rebuild write under the lease for all inputs; all of the statement when allocations succeed and lease initialisation fails only by timeout."
  },
  {
   "property": "C72",
   "status": "proved",
   "theorems": [
    "C72_init",
    "C72_add",
    "C72_add_tail",
    "C72_del",
    "C72_move",
    "C72_move_front",
    "C72_empty",
    "C72_first",
    "C72_for_each",
    "C72_purge",
    "C72_free_lockspaces",
    "C72_release_orphan",
    "C72_plain_loop_fails",
    "C72_plain_move_strays"
   ],
   "note": "list.h as used by the daemon, on a memory where touching freed memory is an error. C72_plain_loop_fails and C72_plain_move_strays show that the safe form of the loop is needed."
  },
  {
   "property": "C73",
   "status": "partial",
   "theorems": [
    "C73_refuted",
    "C73_partial",
    "C73_exact_partial",
    "C73_free",
    "C73_get",
    "C73_no_ub",
    "C73_cache_shrinks"
   ],
   "note": "purge_resource_free does not decrement the counter: equality is refuted; proved as long as nothing is purged. In every run: well formed, at most 128, counter not below the length, no failing access; the consequence of the wrong counter is C73_cache_shrinks."
  },
  {
   "property": "C74",
   "status": "partial",
   "theorems": [
    "C74_refuted",
    "C74_announce_refuted",
    "C74_set",
    "C74_get_partial",
    "C74_round_trip",
    "C74_any_client_partial"
   ],
   "note": "Proved for the library client, all lengths. For a client which sets data2 itself: refuted (a length above the sector reads past the block; an error reply announces bytes that are not sent), proved when the length is at most that of the block."
  },
  {
   "property": "C75",
   "status": "partial",
   "theorems": [
    "C75_connections_partial",
    "C75_leak",
    "C75_memory",
    "C75_list_only_with_success",
    "C75_request_partial",
    "C75_reply_partial",
    "C75_failure",
    "C75_consumed_partial",
    "C75_send_data",
    "C75_get_event",
    "C75_connections_refuted",
    "C75_request_refuted",
    "C75_reply_refuted",
    "C75_consumed_refuted"
   ],
   "note": "Refuted in four places: connection left open when the header cannot be sent in four calls; sanlock_lookup_rindex announces 64 bytes more than it sends; success without a list when malloc fails; the state string left in the connection by sanlock_inquire when malloc fails. Each is proved for all the other calls and outcomes, and C75_leak says exactly when a descriptor is lost."
  },
  {
   "property": "C76",
   "status": "partial",
   "theorems": [
    "C76_descriptors",
    "C76_no_leak",
    "C76_delivery",
    "C76_queue",
    "C76_stream_partial",
    "C76_stream_refuted",
    "C76_lifetime_partial",
    "C76_lifetime_refuted",
    "C76_lifetime_worker_refuted",
    "C76_main_safe",
    "C76_kept",
    "C76_ended",
    "C76_refused",
    "C76_scan_full",
    "C76_refused_free",
    "C76_named",
    "C76_registers",
    "C76_success",
    "C76_dropped"
   ],
   "note": "Refuted in two places: an event can be sent on the connection before the reply to the registration, which the client then misreads; the structure of a lockspace can be freed between the search and its use in send_event_callbacks, set_event and set_bit. Proved: the bytes read when no event precedes the reply, no use of freed memory when a lockspace is only freed while no thread holds it, and everything else without such a condition. Assumes that the kernel takes an 80-byte event whole or not at all (C76_stream_partial only)."
  },
  {
   "property": "C77",
   "status": "partial",
   "theorems": [
    "C77_off",
    "C77_file",
    "C77_status",
    "C77_error_refuted",
    "C77_error_conditional",
    "C77_ends_refuted",
    "C77_ends_conditional",
    "C77_left_refuted",
    "C77_left_conditional",
    "C77_on_refuted",
    "C77_on_conditional"
   ],
   "note": "Safety (success means reset or left), agent file, signal, request and status are proved in full. Refuted: an error although the victim was reset, when a second host fenced it too; the loop goes on for ever when fence_sanlockd was restarted; the lease is kept when the release fails; the action on succeeds while the lease is still being acquired. Each is proved when that case is excluded."
  },
  {
   "property": "C78",
   "status": "partial",
   "theorems": [
    "C78_status_partial",
    "C78_status_refuted",
    "C78_sorted_partial",
    "C78_sorted_all",
    "C78_many",
    "C78_sorted_refuted",
    "C78_cut",
    "C78_complete_refuted",
    "C78_true_refuted",
    "C78_hosts_partial",
    "C78_hosts_many",
    "C78_hosts_refuted"
   ],
   "note": "Proved: all is shown as it is when no resource has four disks, sorted also with four disks up to 1024 entries; the sorted lines are a permutation; after an early end a beginning of the lines and one more at most. Refuted: a fourth disk overruns the array on the stack; over 1024 entries nothing is shown and the result is positive; an early end is reported as success and can show a record that is not there; a lockspace name of 48 characters is asked for with 47, and over 1024 lockspaces overrun sort_bufs."
  },
  {
   "property": "C79",
   "status": "partial",
   "theorems": [
    "C79_shows",
    "C79_shows_size",
    "C79_ends",
    "C79_memory_conditional",
    "C79_memory_refuted",
    "C79_error_refuted",
    "C79_all_refuted",
    "C79_within_partial",
    "C79_within_refuted",
    "C79_free_first",
    "C79_free_conditional",
    "C79_free_refuted",
    "C79_free_junk_refuted",
    "C79_arg",
    "C79_free_arg_partial",
    "C79_free_arg_refuted"
   ],
   "note": "Proved: all areas are shown as written, to the end of the size or the first free area; dump ends on every device; memory safe when the counts and names on the device are in range; lines are within a size that is a number of areas; next_free is right with -A and -Z, offset 0, no read errors and a free area. Refuted: number of hosts, sector size and index names from the disk lead out of the buffer; a read error is skipped with success; areas behind a free one are not shown; a size below one sector is no limit; next_free prints the end of a full device, an area that cannot be read, an offset relative to the start, and without -A and -Z depends on uninitialised variables; it does not take escaped colons or M."
  },
  {
   "property": "C80",
   "status": "partial",
   "theorems": [
    "C80_numbers_partial",
    "C80_frame",
    "C80_strings_partial",
    "C80_ids_partial",
    "C80_debug_cmds",
    "C80_max_sectors_partial",
    "C80_debug_io",
    "C80_fits",
    "C80_host_fits",
    "C80_not_named",
    "C80_last_line",
    "C80_options_partial",
    "C80_command_line_wins",
    "C80_defaults",
    "C80_stale_value_refuted",
    "C80_junk_refuted",
    "C80_word_value_refuted",
    "C80_comment_refuted",
    "C80_cut_value_refuted",
    "C80_no_user_refuted",
    "C80_max_sectors_refuted",
    "C80_refuted"
   ],
   "note": "Proved for files whose lines are at most 126 characters and whose numeric settings have a numeral that fits an int: every setting is the one of the last line that gives it a value in range, no line changes another one, command line over file over defaults. Proved for every file: no buffer is overrun; a setting whose name is not in the text keeps its value. Refuted: a name with no value takes the number of an earlier line or of the stack (use_watchdog after use_aio=0 is 0), \"use_watchdog = yes\" is 0, the end of a comment longer than 127 characters is read as a setting, numbers are cut to 32 bits, a uname with no value is uid 0, max_sectors_kb can be negative."
  },
  {
   "property": "C81",
   "status": "partial",
   "theorems": [
    "C81_exclusive_partial",
    "C81_held_is_signalled",
    "C81_shared_request_reaches_daemon",
    "C81_refuted",
    "C81_former_holder_signalled",
    "C81_adopted_restrictions"
   ],
   "note": "Proved for leases held exclusively as long as no lease is upgraded from shared: the single holder is signalled; with no adoption also its restrictions and program are right; a newer request for a held lease always leads to an action. Refuted: a shared acquire leaves r->pid 0 and an upgrade does not set it, so a forced request makes the helper call kill(0, SIGKILL), which is proved to reach the helper and the daemon itself, after any further steps without adoption; after exclusive to shared and back by another process the former holder is signalled; an adopted orphan keeps the restrictions and the program of the dead process."
  },
  {
   "property": "C82",
   "status": "partial",
   "theorems": [
    "C82_in_order",
    "C82_only_asked",
    "C82_all_done_partial",
    "C82_drained",
    "C82_program_once",
    "C82_memory_partial",
    "C82_loss_noticed",
    "C82_double_close",
    "C82_no_fallback",
    "C82_silence_ignored",
    "C82_helper_ends",
    "C82_heartbeat",
    "C82_report_after_59_seconds",
    "C82_double_close_refuted",
    "C82_sigpipe_refuted",
    "C82_daemon_stays_partial",
    "C82_lost_at_end_refuted",
    "C82_fork_failure_refuted",
    "C82_never_waited_for",
    "C82_refuted"
   ],
   "note": "Proved for all runs: the pipe carries a subsequence of what was asked, the helper takes it in order, does every kill and sysfs write it takes once and nothing that was not asked; all programs too if fork works; a helper that gets turns empties the pipe; the program of a client is handed over at most once until the slot is freed; status messages are 30 to 59 seconds apart if the helper is scheduled in time; the helper ends within one turn after the daemon. The next dispatch after its end, or after a failed status read, closes the pipes. Memory is proved intact if no status read fails (and harmed exactly if a failed read and the hangup meet in one dispatch), and the daemon proved to stay if SIGPIPE is ignored or the helper lives. Refuted: no SIGTERM fallback exists and the age of the last status is never looked at; SIGPIPE ends the daemon; a failing read together with the hangup writes pollfd[-1]; messages behind the first are lost when the daemon ends; a program whose fork failed is never started."
  },
  {
   "property": "C83",
   "status": "partial",
   "theorems": [
    "C83_settings",
    "C83_write_back",
    "C83_resource_partial",
    "C83_lockspace_partial",
    "C83_nothing_written",
    "C83_unread",
    "C83_force_ignored",
    "C83_refuted",
    "C83_checksum_refuted",
    "C83_unread_refuted",
    "C83_place_refuted",
    "C83_write_back_refuted",
    "C83_other_base_refuted"
   ],
   "note": "Proved for every file of well-formed settings: each member gets the last value given, all others stay; printing a record and reading it back gives the same record if its names are words; for a readable resource the disk holds exactly that record with a right checksum and nothing outside the sector changes; for a readable lockspace the values too. Refuted: the checksum of a lockspace record is never set, what the stack buffer held is written, so the lease is rejected afterwards; forcing a checksum is proved to have no effect at all; a failed read is ignored and zeros (lockspace) or uninitialised stack (resource) are written as the base record; a sector size in the file moves the write onto another host; names with blanks are cut; hexadecimal for a decimal member gives 0 and decimal for a hexadecimal one is ignored."
  },
  {
   "property": "C84",
   "status": "partial",
   "theorems": [
    "C84_reason",
    "C84_unknown",
    "C84_live_partial",
    "C84_prompt_partial",
    "C84_refuted",
    "C84_slow_refuted",
    "C84_cleared",
    "C84_touched",
    "C84_no_live_left",
    "C84_holder_kept_partial"
   ],
   "note": "Proved: without knowledge a host counts as alive; one is judged dead only because its last record read was free, a newer generation was seen, or the record did not change for 8 io timeouts and the fire timeout; a successful clear wipes exactly the marks of the hosts judged dead, on every disk, and counts the live ones; a failed one touches no other; a holder of which a read in this generation is not older than the fire timeout is kept and the acquire fails. With checks at most 2 io timeouts old every holder has such a read. Refuted for the timing the code allows: a host that comes back, joins and takes a shared lease between two checks is judged by its old record and its lease is wiped; so is a slow holder when the observer's checks stall as well."
  },
  {
   "property": "C85",
   "status": "partial",
   "theorems": [
    "C85_added",
    "C85_add_failed",
    "C85_removed",
    "C85_inquire",
    "C85_remove_while_adding",
    "C85_remove_in_use",
    "C85_shutdown_ends",
    "C85_forced_partial",
    "C85_end_partial",
    "C85_reply_partial",
    "C85_end_refuted",
    "C85_forced_refuted",
    "C85_reply_refuted",
    "C85_unused_refuted",
    "C85_generation_refuted"
   ],
   "note": "Proved for every interleaving: the answers of add, remove and inquire; that a removal is never lost; that a shutdown accepted because nothing is there ends the daemon at the next test. Partial: the daemon ends with nothing in use unless SIGTERM or a forced shutdown with wait falls between the check and the test of the main loop (refuted without that); a forced shutdown ends the daemon unless SIGTERM comes meanwhile (refuted without that); the last client that waits for the shutdown is answered (refuted for the first of two). Refuted: remove-if-unused can remove a lockspace in which a lease has just been acquired; a lockspace can be in use before its generation is set."
  },
  {
   "property": "C86",
   "status": "partial",
   "theorems": [
    "C86_lockspaces_partial",
    "C86_lockspaces_many",
    "C86_lockspaces_refuted",
    "C86_memory_refuted",
    "C86_hosts"
   ],
   "note": "Proved: the list of hosts is complete and right for every lockspace sanlock can use; the list of lockspaces is for up to 949, and with more the library returns -1 and no list, never a part. Refuted: that every client gets a list (the daemon counts entries it did not send, so the library fails where its comment says it gives what fits); that success means a list (no memory for it: 0 and a count without a list)."
  },
  {
   "property": "C87",
   "status": "partial",
   "theorems": [
    "C87_partial",
    "C87_no_watchdog",
    "C87_close_refuted",
    "C87_left_refuted",
    "C87_write_refuted"
   ],
   "note": "Proved as long as open_watchdog does not fail, and always without the watchdog. Refuted when it fails: disconnect_watchdog closes sp->wd_fd, which is still 0, instead of the new connection. Descriptor 0 of the daemon is closed, the connection stays open for ever, and with descriptor 0 given out again a later failure closes the disk of another lockspace, whose thread then writes its free record to whatever file got the number."
  },
  {
   "property": "C88",
   "status": "partial",
   "theorems": [
    "C88_killed_iff",
    "C88_noticed",
    "C88_no_false_alarm_partial",
    "C88_handed",
    "C88_checks_partial",
    "C88_signals_refuted",
    "C88_buffer_partial",
    "C88_buffer_refuted",
    "C88_late_write_refuted"
   ],
   "note": "Killing iff lost or stale, noticing of foreign records and the hand-over are proved without restriction (clock less than 2^31 s ahead of the last success). False alarms are excluded only if no failed write lands late; a late own write gives RENEW_DIFF and kills. Checks once a second are proved whatever is done to the wall clock between passes as long as no signal ends the poll; signals faster than the poll timeout put them off for ever. A malloc failure makes the daemon read a null pointer."
  },
  {
   "property": "C89",
   "status": "partial",
   "theorems": [
    "C89_delivered",
    "C89_only_partial",
    "C89_fields",
    "C89_names_apart",
    "C89_long_name_refuted",
    "C89_same_lockspace_refuted",
    "C89_number_refuted",
    "C89_path_refuted"
   ],
   "note": "C89_delivered: if all values fit, the library reads exactly what was given. C89_only_partial: a call that reaches the library followed Python's rules for names and positions. The part `values which do not fit raise` is refuted: long names are cut, numbers are taken modulo 2^64 or 2^32, long paths are cut. C89_fields: the buffers are always filled as the library expects."
  },
  {
   "property": "C90",
   "status": "partial",
   "theorems": [
    "C90_safe",
    "C90_args_partial",
    "C90_too_long",
    "C90_empty_refuted",
    "C90_other_args_refuted"
   ],
   "note": "Memory safety without restriction; delivery for up to seven non-empty printable arguments within 126 bytes and a path of up to 126 bytes; too long lists raise."
  },
  {
   "property": "C91",
   "status": "partial",
   "theorems": [
    "C91_utf8",
    "C91_hosts",
    "C91_lockspaces_partial",
    "C91_resources_partial",
    "C91_safe",
    "C91_full_name_refuted",
    "C91_lockspaces_refuted",
    "C91_resources_refuted",
    "C91_one_path_refuted",
    "C91_round_trip",
    "C91_inquire_partial",
    "C91_inquire_refuted",
    "C91_inquire_statement_refuted",
    "C91_events",
    "C91_events_refuted",
    "C91_inq",
    "C91_error_number"
   ],
   "note": "Hosts, inq, error numbers, safety and the round trip hold without restriction (the round trip for names up to 47 bytes and Unicode paths). Lockspaces and resources: names shorter than 48 bytes and Unicode paths; the rest is refuted. Inquire: names without colon and backslash. Events: lost if an error follows."
  },
  {
   "property": "C92",
   "status": "partial",
   "theorems": [
    "C92_write_partial",
    "C92_prefix_partial",
    "C92_wrong_place_refuted",
    "C92_write_refuted",
    "C92_bad_offset",
    "C92_read_partial",
    "C92_read_refuted",
    "C92_ends_partial",
    "C92_ends_refuted",
    "C92_sector_partial",
    "C92_sectors_partial",
    "C92_round_trip_partial",
    "C92_wrap_refuted"
   ],
   "note": "Everything but the end of the loop holds for every offset except 2^64-1, and for sectors whose offset does not pass 2^64. For offset 2^64-1 and for a device that takes zero bytes for ever the claims are refuted."
  },
  {
   "property": "C93",
   "status": "partial",
   "theorems": [
    "C93_majority",
    "C93_descriptors",
    "C93_reopen",
    "C93_verified_refuted",
    "C93_alignment_refuted",
    "C93_own_refuted"
   ],
   "note": "Majority and descriptors are proved without restriction for disks that are closed before. The agreement of sector sizes and the alignment, which the comments in the code promise, are refuted, and so is the last sentence."
  },
  {
   "property": "C94",
   "status": "partial",
   "theorems": [
    "C94_lockspace_partial",
    "C94_first_host",
    "C94_lockspace_true",
    "C94_resource_partial",
    "C94_resource_true",
    "C94_range_refuted",
    "C94_hint_refuted",
    "C94_lockspace_statement_refuted",
    "C94_stale_refuted",
    "C94_first_disk_refuted",
    "C94_resource_statement_refuted",
    "C94_unknown_size_refuted",
    "C94_stack_refuted"
   ],
   "note": "Proved: what is reported is a record with a valid checksum that lies at the place computed from the flags; for host id 1, or with right or no flags and a host id in range, it is the one of the lockspace asked for; for a resource it is the record of the first disk. Refuted: a host id beyond the lockspace, a wrong size flag with a host id above 1, disks that differ, a first disk that cannot be opened, a record with an unknown sector size, and the reply of a call that breaks off."
  },
  {
   "property": "C95",
   "status": "proved",
   "theorems": [
    "C95_events",
    "C95_one_list",
    "C95_kept",
    "C95_no_acquire",
    "C95_pause",
    "C95_exit"
   ],
   "note": "The unit of time is that of monotime(); an attempt is one step for its start and one for its end."
  },
  {
   "property": "C96",
   "status": "partial",
   "theorems": [
    "C96_awake_partial",
    "C96_drain_partial",
    "C96_starvation_refuted",
    "C96_adopt_refuted",
    "C96_examine_again_refuted",
    "C96_exit_refuted"
   ],
   "note": "Proved: the thread does not sleep over an event or, when no lease was adopted, over an examination; woken once, it sends all events, tries every release that is due and does every examination, within as many steps as there is work, if no attempt lasts so long that it is due again. Refuted: starvation by a lease on a dead disk, an examination lost by an adoption, a failed examination, releases at the end of the daemon."
  },
  {
   "property": "C97",
   "status": "partial",
   "theorems": [
    "C97_gate",
    "C97_handled",
    "C97_lease_cmd",
    "C97_refused",
    "C97_answered",
    "C97_one_at_a_time_partial",
    "C97_fresh",
    "C97_restrict_all",
    "C97_pipelined_refuted",
    "C97_no_answer_refuted",
    "C97_two_connections_refuted",
    "C97_register_refuted"
   ],
   "note": "Proved without conditions: the gate, the conditions of a lease command, that a command for a worker is taken or answered, the restriction, the new connection, that every command handed to a worker is known to it. Under the condition that a client sends nothing ahead: one at a time, slots kept, a refusal changes nothing. Refuted: a client that sends ahead and ends, commands stopped by the gate (no answer), a process with two connections, a registration without memory."
  },
  {
   "property": "C98",
   "status": "partial",
   "theorems": [
    "C98_args_partial",
    "C98_out_of_range",
    "C98_length_partial",
    "C98_write_resource_refuted",
    "C98_examine_refuted",
    "C98_name_refuted",
    "C98_path_refuted",
    "C98_length_refuted"
   ],
   "note": "Proved for all calls but two: sanlock_write_resource with different numbers of hosts (exchanged on the way) and sanlock_examine of a lockspace without a path (another message, or a header without a body). The length is proved for all calls but sanlock_lookup_rindex. Names of more than 48 bytes are cut and reach another lockspace; a path without its 0 is not ended by the daemon."
  },
  {
   "property": "C99",
   "status": "partial",
   "theorems": [
    "C99_choice",
    "C99_probe",
    "C99_try",
    "C99_agree_partial",
    "C99_disarmed",
    "C99_all_disarmed",
    "C99_start_sets_nothing",
    "C99_open_ok",
    "C99_open_later",
    "C99_open_refused_partial",
    "C99_open_refused_refuted",
    "C99_agree_refuted",
    "C99_armed_refuted",
    "C99_try_refuted",
    "C99_path_refuted",
    "C99_zero_refuted"
   ],
   "note": "Proved: the choice, the probe, that nothing is left open, that a device stays armed only if it does not take the \"V\", that a client told so has its timeout (first and later clients). Partial: probe and daemon agree if all devices that answer take 60 seconds; a refused client leaves nothing behind if the driver takes the timeout exactly or refuses. Refuted: both in general, wdmd -t, a path of 64 bytes, a timeout of 0."
  },
  {
   "property": "C100",
   "status": "partial",
   "theorems": [
    "C100_message_partial",
    "C100_whole",
    "C100_connections",
    "C100_count",
    "C100_count_partial",
    "C100_reg_partial",
    "C100_end_partial",
    "C100_clear",
    "C100_only",
    "C100_others",
    "C100_lost",
    "C100_distinct",
    "C100_reg_refuted",
    "C100_end_refuted",
    "C100_full_refuted",
    "C100_count_refuted",
    "C100_count_end_refuted",
    "C100_message_refuted"
   ],
   "note": "Proved: slots are whole in all executions, every connection is in the table or was ended, \"clear\", nothing else is watched, other slots are unchanged, broken connections go, no name is entered twice by a message, what ls_count is. Partial: the count if no slot is ended twice; messages whose name has no blank and fits; \"reg\" if there is room and nothing came in for the old connection; \"end\" if no name is twice in the table. Refuted: these in general, and the count."
  },
  {
   "property": "C101",
   "status": "partial",
   "theorems": [
    "C101_exact",
    "C101_bound",
    "C101_untouched",
    "C101_fits",
    "C101_empty",
    "C101_default",
    "C101_lease",
    "C101_reported_partial",
    "C101_reported_refuted",
    "C101_lowers_refuted",
    "C101_largest_refuted",
    "C101_negative_refuted",
    "C101_fits_refuted"
   ],
   "note": "Proved: the outcome for files that hold numbers, in full (C101_exact), and with nothing in them; nothing above max_hw_sectors_kb is ever written; what is left alone; default and lease size; no over-read for files below 32 bytes. Partial: what is reported, if the helper does its work. Refuted: it in general, and that the setting never makes requests smaller."
  },
  {
   "property": "C102",
   "status": "partial",
   "theorems": [
    "C102_start",
    "C102_running",
    "C102_fenceable",
    "C102_exit_partial",
    "C102_exit_refuted",
    "C102_options_partial",
    "C102_range",
    "C102_leases",
    "C102_blank_refuted",
    "C102_cut_refuted",
    "C102_negative_refuted",
    "C102_path_refuted"
   ],
   "note": "Proved: the calls of every start in full, when the daemon runs, what is in place when the lease is acquired, the range of options from the fifo, leases of hosts 1-128 do not overlap. Partial: options for paths without blanks of at most 4084 characters; the exit code, unless wdmd_connect, sanlock_register or sanlock_direct_align failed. Refuted: both in general, that a host id is positive and that the path fits where it is copied to."
  },
  {
   "property": "C105",
   "status": "partial",
   "theorems": [
    "C105_length",
    "C105_given",
    "C105_made",
    "C105_other",
    "C105_own_partial",
    "C105_free",
    "C105_own_refuted",
    "C105_other_refuted",
    "C105_given_refuted"
   ],
   "note": "Proved: a name has at most 48 characters (C105_length); a given name is used (C105_given), else one that begins with the uuid (C105_made); with different uuids the record of one host is never taken for that of the other (C105_other); names of at most 47 characters recognise exactly their own records (C105_own_partial); a free lease needs no wait (C105_free). Refuted: a made up name recognises its own record exactly when the node name has at most 10 characters (C105_own_refuted); a given name of 47 characters takes the record of a host with one more character for its own (C105_other_refuted); given names that differ after 48 characters are one (C105_given_refuted)."
  },
  {
   "property": "C106",
   "status": "partial",
   "theorems": [
    "C106_bounds_partial",
    "C106_exact",
    "C106_near",
    "C106_delay",
    "C106_delay_refuted",
    "C106_wide_refuted"
   ],
   "note": "For bounds less than 2^24 - 1 apart: never below the lower bound and at most one above the upper (C106_bounds_partial); between the bounds exactly when random() did not give one of its 64 largest values (C106_exact); up to 2^22 apart it is in proportion to the value of random(), but for one (C106_near); the delay is at most 1000001 microseconds (C106_delay). Refuted: the delay can be above a second (C106_delay_refuted); bounds far apart are missed by more than one (C106_wide_refuted)."
  },
  {
   "property": "C103",
   "status": "partial",
   "theorems": [
    "C103_first",
    "C103_none",
    "C103_cut",
    "C103_skip",
    "C103_sound",
    "C103_stale_refuted",
    "C103_several_refuted",
    "C103_over_refuted"
   ],
   "note": "Proved: after any files of agents that are gone (no process, or one whose name does not begin with fence_sanlock) the file of a running agent gives the host it fences (C103_first); if every agent's file is of one that is gone none is found (C103_none); a file that ends after the host id counts for nothing (C103_cut), nor does one that cannot be opened or has another name (C103_skip); for any files at all, a host that is found is named in a file of the directory beside the id of a process whose name begins with fence_sanlock (C103_sound). Refuted: a left-over file counts when its process id was given to fence_sanlockd, whose name has the same beginning (C103_stale_refuted); of several agents only the first file's host is found, so that both hosts of a duel can survive (C103_several_refuted); a line with 512 characters after the host id overflows a buffer (C103_over_refuted)."
  },
  {
   "property": "C104",
   "status": "partial",
   "theorems": [
    "C104_dir",
    "C104_meet",
    "C104_same",
    "C104_place",
    "C104_distinct",
    "C104_long_refuted",
    "C104_privileged",
    "C104_served",
    "C104_lock",
    "C104_user_partial",
    "C104_closed",
    "C104_user_refuted",
    "C104_tokens_refuted",
    "C104_exit_refuted",
    "C104_exit_partial"
   ],
   "note": "Proved: the run directory is the one the variable names, else /run/sanlock (C104_dir); a client whose environment names the same directory connects to the path the daemon binds, and stays with it (C104_meet, C104_same); up to 93 characters the socket lies in the directory and two directories have two sockets (C104_place, C104_distinct); unprivileged exactly when the variable is there and not 1 (C104_privileged); the main loop runs only after lock file, socket, mode, owner, listen, threads and eventfd have succeeded (C104_served); the socket is touched only with the lock file held (C104_lock); the user is changed, if that works, before the socket is made (C104_user_partial); the lock file is closed at the end (C104_closed); success is returned only if all needed calls succeeded, given the eventfd and the place for the helper (C104_exit_partial). Refuted: longer directories can share a socket but not the lock file (C104_long_refuted); a failing setuid leaves the daemon serving as root (C104_user_refuted); it serves without the resource thread when that cannot be made (C104_tokens_refuted); without an eventfd, or a place for the helper, it ends with success (C104_exit_refuted)."
  }
 ]
}