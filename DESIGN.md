# Formal model of sanlock: design

Target: the C sources in `/repo` (sanlock daemon, client library, wdmd), read as text; nothing was built or run.
Prover: Rocq / Coq 8.16.1.  All files are in `rocq/theories`, logical prefix `Verif`.

## How the model is organised

* Model files (`Codec.v`, `Acquire.v`, `LeaseSys.v`, ...): total Gallina functions and transition systems that
  follow the C function by function.  Each definition has a comment citing file and lines in `/repo`; the header of
  the file says what was simplified.
* Lemma files (`...Proof.v`, `...Round.v`, `LeaseRuns.v`): invariants, runs used as witnesses.
* One property file `Cxx.v` per property: a small specification that does not use the helpers of the model,
  `Cxx_statement` where the full English claim is false of the code, the theorems `Cxx_*`, a concrete case
  `Cxx_nonvacuous` that meets the hypotheses, and `Print Assumptions` for each theorem.

Conventions.

* Undefined behaviour in C (access outside of a buffer, signed overflow, read of an uninitialised variable) is a
  separate outcome of the model.
* Where the code, modelled faithfully, violates a property, the theorem is named `..._refuted`: the negation of the
  full statement, or an existential statement with a computed witness.  What does hold is proved with the missing
  condition as an explicit hypothesis and named `..._partial` when it is weaker than the property.
* A property is called "proved" in `MANIFEST.json` only when its English statement is proved without extra
  hypotheses on the code; everything else is "partial".
* Numbers are unbounded unless the property is about wrap-around or overflow.

## Trusted base

* Coq's kernel, with its `vm_compute` machine (used for the computed witnesses).
* Axioms: none.  `Print Assumptions` gives "Closed under the global context" for every theorem in `MANIFEST.json`.
  (`coqchk` lists seven parameters `Coq.ssr.ssrunder.Under_rel.*` of a module type of the standard library, which is
  loaded by `Lia`/`Zify` files; no theorem depends on them.)
* The translation from C to Gallina by hand, documented definition by definition.
* Storage: a sector write is atomic and a read returns the last write, unless the model says otherwise (`RindexCrash.v`
  has torn multi-sector writes, `Init.v` prefixes of writes).  A disk operation takes effect between its call and its
  return.  An operation that is reported as failed has taken effect or never will, except in `Lvb.v` (late writes),
  `WdHost.v` (a write answered with an error may still land) and `Aio.v`.
* Time: the theorems about several hosts (C13, C17, C18, C20) use one clock that all hosts read at the same rate.
* The watchdog hardware resets the machine not later than its fire timeout after the last ping (C20).
* The compiler and libc behave as the C standard says; `memcpy`, `strcpy`, `snprintf` are modelled from their
  specification.

## Per property

The line "model" names the files of `rocq/theories` that hold the modelled code; the theorems are in `Cxx.v`.
"Result" repeats the note of `MANIFEST.json`.

### C01 Lease records survive the disk byte-for-byte (proved)

* Model: `Bytes.v` (get/put on byte buffers), `Codec.v` (leader_record_in/out)
* Proof: put/get algebra on disjoint ranges, symbolic in every field; the layout theorem lists the documented byte offsets independently of the codec.
* Theorems: `C01_leader_roundtrip`, `C01_leader_layout`
* Result: Leader codec round trip and byte layout for all field values.

### C02 Ballot blocks, mode blocks and request records survive the disk and do not overlap (proved)

* Model: `Codec.v` (paxos_dblock, mode_block, request_record, rindex header and entry)
* Proof: as C01; the specification is a table of offsets per record.
* Theorems: `C02_host_sector_layout`, `C02_other_layouts`, `C02_host_sector_both`, `C02_host_sector_dblock`, `C02_dblock_accepted`, `C02_request_roundtrip`, `C02_rindex_roundtrip`, `C02_bitmap_separate`
* Result: Codecs of the other on-disk records; records sharing a sector never overlap.

### C03 Corruption of a lease record or ballot block is detected (partial)

* Model: `Crc.v` (table driven crc32c), `Codec.v`, `Leader.v`
* Proof: the checksum is proved equal to bitwise CRC-32C; the state update is injective in the state and in a four byte word, so two buffers that differ in one such window have different checksums.
* Theorems: `C03_checksum_is_crc32c`, `C03_leader_corruption_detected`, `C03_delta_corruption_detected`, `C03_dblock_corruption_detected`, `C03_dblock_corruption_detected_nonzero`, `C03_dblock_blank_exception_refuted`
* Result: Any change confined to 4 adjacent bytes of checksummed data is detected for leader records. For ballot blocks the code skips the check when the stored checksum is zero and mbal is zero-like; the refuted theorem gives a corrupted block that is accepted, the positive theorem excludes exactly that case.

### C04 A lease record is only trusted if it belongs to the requested lease (proved)

* Model: `Leader.v` (_verify_leader of paxos_lease.c, verify_leader of delta_lease.c)
* Proof: iff between acceptance and a specification on the raw bytes of the sector.
* Theorems: `C04_accepts_exactly_own_records`
* Result: verify_leader accepts exactly the records that belong to the lease, stated on raw bytes.

### C05 No two pieces of lease metadata share a sector (partial)

* Model: `Sizes.v`
* Proof: finite case analysis over the supported sizes, arithmetic over all host ids.
* Theorems: `C05_sectors_disjoint_partial`, `C05_sectors_disjoint_with_lvb`, `C05_lvb_refuted`, `C05_lvb_hits_other_lease`, `C05_lockspace_sectors`
* Result: All ballot/leader/request sectors are disjoint and inside the lease area; the LVB sector (2002) is outside the area for 4096-byte sectors with align below 8M, which is shown to overwrite the neighbouring lease.

### C06 Size flags and sizes translate faithfully (proved)

* Model: `Sizes.v` (sizeflags.c)
* Proof: case analysis over the flag masks for all 32 bit values.
* Theorems: `C06_accepted_flags_supported`, `C06_roundtrip`, `C06_align_roundtrip`, `C06_max_hosts_exact`, `C06_old_align`
* Result: Size flags.

### C07 Ballot numbers are unique per host and always increase (proved)

* Model: `Mbal.v`
* Proof: modular arithmetic; induction over retries.
* Theorems: `C07_unique`, `C07_larger_than_seen`, `C07_larger_than_seen_one`, `C07_retries_increase`, `C07_nonzero`
* Result: Ballot numbers unique per host and increasing.

### C08 Any two disk majorities intersect (proved)

* Model: `Majority.v`
* Proof: counting argument on duplicate-free lists of disks.
* Theorems: `C08_majorities_intersect`, `C08_majority_is_more_than_half`
* Result: Majorities of disks intersect.

### C09 One owner per lease version (partial)

* Model: `Ballot.v` (any number of disks and hosts, one sector per step), `LeaseSys.v` (one disk, all of acquire, release, conversion)
* Proof: inductive invariants in `BallotProof.v` and `LeaseProof.v`, `LeaseProof2.v`, `LeaseProof3.v`; refutations are computed runs (`LeaseRuns.v`).
* Theorems: `C09_refuted`, `C09_block_cleared_refuted`, `C09_one_owner_partial`, `C09_lease_partial`
* Result: Refuted for the code as it stands, with traces: a delayed leader write lowers the version and a version is decided twice (no crash, no error); a failing shared acquire clears its ballot block. Proved: for any number of disks and hosts at sector granularity under the stated discipline (Ballot.disciplined), and for the complete lease code on one disk under LeaseProof.bdisc.

### C10 The recorded owner asked for the lease (proved)

* Model: `Ballot.v`, `LeaseSys.v`
* Proof: invariant: every value in a block or in the record is the identity of a host that started a ballot.
* Theorems: `C10_owner_started`, `C10_recorded_is_decided`, `C10_leader_owner_started`
* Result: Any number of disks and hosts, every interleaving, no discipline assumed.

### C11 An exclusive lease has at most one live holder (partial)

* Model: `LeaseSys.v`
* Proof: invariant of `LeaseProof*.v` under the discipline `bdisc`; three computed runs outside of it.
* Theorems: `C11_refuted`, `C11_generation_refuted`, `C11_block_cleared_refuted`, `C11_one_holder_partial`, `C11_holder_is_recorded_partial`
* Result: Refuted for the code as it stands by three traces (delayed leader write; missing generation comparison after re-join; failing shared acquire clearing its block). Proved for all hosts, versions, crashes, conversions and interleavings on one disk under the discipline LeaseProof.bdisc.

### C12 Acquire with a specified version is version-exact (partial)

* Model: `Acquire.v`
* Proof: invariant over the state machine of paxos_lease_acquire for all lists of call results.
* Theorems: `C12_competes_only_for_version_partial`, `C12_competes_for_next_version`, `C12_other_version_fails`, `C12_untouched`, `C12_refuted`
* Result: Proved for every version other than 0 and every sequence of call results; a request for version 0 (SANLK_RES_LVER with lver 0) is not checked.

### C13 A lease of a live host is never taken over (partial)

* Model: `Acquire.v`, `HostStatus.v`, `Timeouts.v`
* Proof: ghost history of observations; `AcquireProof.v` relates a decision to compete with a history of unchanged leases; the real time version adds a renewing owner.
* Theorems: `C13_competes_only_with_reason`, `C13_acquired_only_with_reason`, `C13_success_means_owner`, `C13_renewing_owner_kept_partial`, `C13_default_timeouts_partial`, `C13_refuted`
* Result: In terms of what was observed: proved for all histories. In real time: refuted, because the clock is read after the host lease (a delay in between counts as silence); proved with a bound on that delay.

### C14 The dead-owner wait uses the owner's own timeout (partial)

* Model: `Acquire.v`, `HostStatus.v`
* Proof: as C13; reads of an uninitialised variable are a separate value.
* Theorems: `C14_waits_for_reported_timeout_partial`, `C14_known_timeout_partial`, `C14_monitored_timeout`, `C14_refuted`, `C14_uninitialised_refuted`
* Result: Refuted: the waiter uses its own timeout until the monitoring has seen the owner, and an uninitialised value when host_info fails. Proved for the timeout that host_info reports, and that this is the owner's once monitored.

### C15 Release frees only one's own lease (partial)

* Model: `Release.v`
* Proof: case analysis of the whole function on the records read.
* Theorems: `C15_frees_only_own`, `C15_own_is_freed`, `C15_mismatch_untouched`, `C15_mismatch_error_partial`, `C15_error_refuted`, `C15_copy_uninitialised`
* Result: Frees only own lease: proved. Error on mismatch: refuted when another host wrote the record last (returns 0 and the caller's copy becomes uninitialised).

### C16 A multi-disk lease read returns a verified majority record (partial)

* Model: `LeaderReadNum.v`
* Proof: counting argument over the per-disk results; witness with two damaged disks.
* Theorems: `C16_majority_identity_partial`, `C16_verified_if_no_lookalike`, `C16_refuted`, `C16_owned_lease_read_as_free`
* Result: Refuted as stated: a record that failed verification can be returned (an owned lease can be read as free). Proved: all compared members (owner, generation, version, names, sizes) are those of verified records on a majority of disks, and the record is verified itself when no rejected record looks alike.

### C17 Two hosts cannot both obtain the same host id (partial)

* Model: `Delta.v` (timed transition system)
* Proof: invariant in `DeltaProof.v`: a candidate that read the record back after its wait excludes all others.
* Theorems: `C17_one_holder_partial`, `C17_holder_on_disk_partial`, `C17_concurrent_joins_partial`, `C17_refuted`
* Result: Proved for any number of hosts, start times, delays, crashes, failures when no host's disk operation takes longer than any host's I/O timeout. Refuted when every host only keeps its own I/O timeout and these differ: the short wait of the joining host uses the timeout found on disk, not that of a slower contender. Names of different daemon starts differ (default uuid).

### C18 Host generations strictly increase (partial)

* Model: `Delta.v`
* Proof: list of obtained generations, same invariant.
* Theorems: `C18_generations_increase_partial`, `C18_joined_is_listed`, `C18_disk_generation_partial`, `C18_refuted`
* Result: Strictly increasing generations in every run of the timed system under the common bound on disk operations; refuted with differing I/O timeouts (same race as C17).

### C19 A renewal succeeds only on an untouched host lease (proved)

* Model: `DeltaRenew.v`
* Proof: case analysis on sectors with the codec of `Codec.v`.
* Theorems: `C19_writes_only_untouched`, `C19_success_wrote`, `C19_changed_fails`, `C19_untouched_renews`, `C19_offset_check`
* Result: On whole sectors including byte conversion and checksum. Also: an untouched lease is never refused; the host id offset check is off by one (undefined read for a host id one past the area).

### C20 A host declared dead has really been reset (partial)

* Model: `WdHost.v` (lockspace thread, holders, wdmd, hardware)
* Proof: invariant relating the record on disk, the expiry in wdmd and the last ping of the device.
* Theorems: `C20_dead_host_partial`, `C20_dead_host_prompt_partial`, `C20_refuted`
* Result: Combined model of lockspace thread, lease holders, wdmd and hardware watchdog. Proved for a wdmd whose tests are at most one interval apart (no test scripts, prompt loop), and with the lateness of wdmd added to the waiting time in general; refuted when a test script takes nine seconds: the watchdog fires eight seconds after the observer declares the host dead.

### C21 The watchdog is not fed past a client's expiry (partial)

* Model: `Wdmd.v`, `WdmdTime.v`
* Proof: invariant on the times of pings and tests.
* Theorems: `C21_no_ping_after_expiry`, `C21_without_scripts_partial`, `C21_with_scripts_partial`, `C21_refuted`
* Result: Without scripts every ping is before every registered expiry; with scripts the close ping can come after it (refuted, witness 8 s late) but less than 9 s; a stall of the daemon adds its length.

### C22 The watchdog is never disarmed while a lockspace depends on it (proved)

* Model: `Wdmd.v`
* Proof: state machine, induction over all histories.
* Theorems: `C22_disarm_only_unused`, `C22_disarm_other`, `C22_active_client_blocks`, `C22_dead_connection_is_forever`, `C22_connection_keeps_enabled`, `C22_refcount_needed`
* Result: Active = holds the refcount. C22_refcount_needed shows that an expiry without refcount does not stop SIGTERM from disarming (sanlock always sets both).

### C23 Reported host states match the renewal history (partial)

* Model: `HostStatus.v`
* Proof: induction over observation histories.
* Theorems: `C23_free`, `C23_dead_or_fail`, `C23_live`, `C23_complete`, `C23_bad_record_refuted`
* Result: Proved for all histories in which the host sector holds a record of this lockspace (FREE also otherwise). For a damaged sector LIVE is reported for ever although nothing changes (refuted theorem).

### C24 A host event or request notification reaches exactly the chosen hosts (proved)

* Model: `Bitmap.v`, `Codec.v`
* Proof: bit arithmetic for all host ids.
* Theorems: `C24_exactly_the_marked_hosts`, `C24_published_to_exactly_pending_hosts`, `C24_bits_distinct_and_inside`, `C24_layout`, `C24_renewal_publishes`
* Result: Notification bitmap end to end.

### C25 A pending host event is never silently replaced (partial)

* Model: `HostEvent.v`
* Proof: case analysis and induction over histories.
* Theorems: `C25_busy_partial`, `C25_pending_kept_partial`, `C25_refuted`, `C25_host_gets_other_data`
* Result: EBUSY/unchanged proved for different non-zero event numbers, over all histories; refuted for the same number with other data.

### C26 Lockspaces are unique per daemon (proved)

* Model: `Lockspaces.v`
* Proof: invariant over all histories.
* Theorems: `C26_lockspaces_unique`, `C26_join_accepted_iff_new`
* Result: Invariant over all histories of list operations; location = path string and offset.

### C27 Requests never go backwards (partial)

* Model: `Request.v`
* Proof: case analysis of request_token; interleavings of two requests.
* Theorems: `C27_not_backwards_partial`, `C27_failure_leaves_record`, `C27_stale_refused`, `C27_new_request_stored`, `C27_success_means_stored`, `C27_concurrent_partial`, `C27_refuted`, `C27_clear_resets`, `C27_race_goes_back`
* Result: An uninterrupted request never lowers the stored version (except the explicit clear request) and is newer than the held lease; equal versions overwrite the mode and two interleaved requests can lower the version, so the strict claim is refuted.

### C28 Two local processes never hold the same exclusive lease (partial)

* Model: `Resources.v`
* Proof: invariant over all interleavings of the critical sections.
* Theorems: `C28_local_exclusion_partial`, `C28_one_resource`, `C28_no_acquire_meanwhile`, `C28_refuted`, `C28_refuted_late`
* Result: Holds for all interleavings if a conversion to exclusive only succeeds for the only token of the resource; convert_token lacks this check, so a process can get the exclusive lease while another local process keeps its shared one (refuted).

### C29 Shared and exclusive modes exclude each other across hosts (partial)

* Model: `LeaseSys.v`
* Proof: as C11.
* Theorems: `C29_refuted`, `C29_sh_ex_excluded_partial`
* Result: Same model and discipline as C11; refuted without the discipline.

### C30 Orphan-only acquire never creates a new lease (partial)

* Model: `Resources.v`
* Proof: flag arithmetic and case analysis; computed witness.
* Theorems: `C30_refuted`, `C30_with_lvb_partial`, `C30_same_as_orphan_partial`, `C30_orphan_protected`, `C30_dead_holder`
* Result: resource.c:1777 tests cmd_flags & only_orphan (1), i.e. the LVB bit: refuted for the flag alone; proved when the LVB flag is also set; without it the flag behaves as ACQUIRE_ORPHAN.

### C31 Resource index slots map to distinct lease areas (partial)

* Model: `Rindex.v`
* Proof: arithmetic with C int, overflow a separate outcome.
* Theorems: `C31_found_areas_partial`, `C31_small_entries_partial`, `C31_entries_distinct`, `C31_refuted`, `C31_wrapped_offsets`, `C31_format_ok`
* Result: Distinct areas whenever the int multiplication is defined (entry*area size below 2^31); refuted at entry 2048 of a default 1M index, and with wrapping arithmetic 8M entry 512 gets the area of entry 0.

### C32 The resource index is crash consistent (partial)

* Model: `Rindex.v`, `RindexCrash.v`
* Proof: histories of operations with crash points between and inside sector writes; invariant "good index" (`RindexOps.v`).
* Theorems: `C32_crash_consistent_partial`, `C32_rebuild_recovers_partial`, `C32_refuted`, `C32_nomem_bad_index`
* Result: Byte level index with torn writes; all histories with crashes keep the index good if no allocation fails and updates are disciplined; rebuild recovers everything readable; refuted because a rebuild with an unreadable lease reports success.

### C33 Index create, lookup and delete agree (partial)

* Model: `Rindex.v`
* Proof: effects of the operations in terms of entries.
* Theorems: `C33_create_lookup_delete_partial`, `C33_lookup_sound`, `C33_refuted`, `C33_created_entry`
* Result: Holds for names not yet in the index; create does not check, so creating a name twice refutes the claim.

### C34 Index update and lookup stay inside the index (partial)

* Model: `Rindex.v`
* Proof: bounds of every access.
* Theorems: `C34_update_partial`, `C34_lookup_partial`, `C34_unaligned_rejected`, `C34_update_wipes_header`, `C34_lookup_out_of_bounds`, `C34_refuted`
* Result: Holds for offsets which denote an entry; other aligned offsets are not rejected: one wipes the header, another reads outside the buffer.

### C35 Resource strings round-trip (partial)

* Model: `Strings.v`
* Proof: `StringsProof.v`, `StringsRound.v`: print/parse induction over strings.
* Theorems: `C35_round_trip_partial`, `C35_exclusive_partial`, `C35_always_fits`, `C35_shared_version_lost`, `C35_backslash_lost`, `C35_refuted`
* Result: Holds for names without colon or backslash and paths without backslash whose escaped form fits; a shared resource loses its version; names are not escaped, so a colon in a name refutes the full claim.

### C36 String parsers never write outside their buffers (partial)

* Model: `Strings.v` (writes outside of a buffer are an outcome)
* Proof: loop invariants on the write position.
* Theorems: `C36_str_to_res`, `C36_path_export`, `C36_path_import`, `C36_state_to_args_partial`, `C36_state_to_args_overflow`, `C36_export_small_overflow`, `C36_refuted`
* Result: str_to_res, path_import and path_export (size >= 3) are safe for every string; state_to_args is safe up to 2200 characters and overflows str[4401] beyond.

### C37 Path escaping is lossless (partial)

* Model: `Strings.v`
* Proof: induction over the path.
* Theorems: `C37_round_trip_partial`, `C37_exact`, `C37_long_path_cut`, `C37_refuted`
* Result: Exactly the paths without backslash round-trip among those whose exported form fits.

### C38 Logging never stalls permanently (partial)

* Model: `LogRing.v`
* Proof: ring invariant; stuck state closed under all steps.
* Theorems: `C38_written_in_order`, `C38_accepts_when_room`, `C38_progress_partial`, `C38_full_ring_is_stuck`, `C38_burst_stalls`, `C38_drops_never_reported`, `C38_refuted`
* Result: Order and exactly-once hold always; progress holds while fewer than all entries wait; a burst filling the ring makes head equal tail and the writer never writes again (refuted).

### C39 When a registered process dies its leases are released (partial)

* Model: `ClientSlot.v`
* Proof: invariant over all interleavings of critical sections.
* Theorems: `C39_cleanup_partial`, `C39_free_slot_untouched`, `C39_live_kept`, `C39_never_twice`, `C39_refuted`, `C39_stuck_forever`, `C39_refuted_killpath`, `C39_refuted_reregister`
* Result: The full statement fails in three ways shown by witnesses: a convert request cut short leaves cmd_active set so a later death cleans up nothing, for ever; cmd_killpath for a dead process does not resume the connection so the slot leaks; a second REGISTER drops the token list. For all interleavings without these three events everything is released exactly once and the slot freed exactly once; nothing is ever released or freed twice in any interleaving.

### C40 Releasing all leases is memory safe (partial)

* Model: `CmdTokens.v`
* Proof: list argument with a bounded array.
* Theorems: `C40_release_all_partial`, `C40_overflows_beyond`, `C40_release_named`, `C40_refuted`, `C40_named_overflow`
* Result: Refuted: with nine leases SANLK_REL_ALL stores behind rem_tokens[8]; exactly the cases with more than eight overflow. Up to eight leases: all released exactly once.

### C41 Multi-resource acquire is all or nothing (proved)

* Model: `CmdTokens.v`
* Proof: induction over the resources of the request.
* Theorems: `C41_all_or_nothing`, `C41_freed_or_held`
* Result: Message reception, disk acquires, lockspace checks and death at either check are arbitrary inputs.

### C42 Killing escalates to SIGKILL and respects restrictions (partial)

* Model: `KillPids.v`
* Proof: arithmetic over rounds of the main loop.
* Theorems: `C42_restricts_partial`, `C42_escalates_partial`, `C42_default_grace`, `C42_not_left`, `C42_both_restrictions_kill`, `C42_grace_extended`, `C42_corrupt_lease_no_kill`, `C42_refuted`
* Result: SIGKILL is sent in every round from the end of the grace period to round 99 if the host id had expired and is not renewed; refuted when the grace period outlasts the 100 attempts (renewal or corrupt lease) and for processes that set both restrictions.

### C43 Resource owner test is exact (proved)

* Model: `Owners.v`
* Proof: induction over the host list.
* Theorems: `C43_owner_test_exact`, `C43_error_exact`
* Result: Exact for host lists with one entry per host id.

### C44 A lockspace is only left when nothing uses it (proved)

* Model: `SpaceUse.v`
* Proof: invariant over interleavings of main loop and workers.
* Theorems: `C44_disarm_safe`, `C44_stays_safe`, `C44_no_new_lease`
* Result: Holding means a token in cl->tokens of a used slot with pid > 0.

### C45 I/O buffers are not freed while the kernel may still write to them (partial)

* Model: `Aio.v`
* Proof: invariant over the callback slots of a task.
* Theorems: `C45_io_partial`, `C45_refuted`, `C45_rindex_refuted`, `C45_rindex_double_refuted`, `C45_lvb_reuse_refuted`, `C45_lvb_free_refuted`, `C45_gerr_refuted`
* Result: Proved for every sequence of sector I/O of a task: a buffer of a timed out I/O is neither freed nor reused until the I/O is reaped. The full statement is refuted for read_rindex, which frees the buffer on a timeout, for the value block buffer r->lvb, which is reused and freed, and for io_getevents errors.

### C46 The value block follows the lease (partial)

* Model: `Lvb.v`
* Proof: invariant: the block of a free lease holds the value last set.
* Theorems: `C46_reads_partial`, `C46_single`, `C46_refuted`, `C46_write_refuted`, `C46_read_refuted`, `C46_shared_refuted`, `C46_erase_refuted`, `C46_late_refuted`, `C46_area_refuted`
* Result: Proved when value block I/O succeeds and releases are ordinary exclusive ones: the next holder reads what was last set. Refuted with witnesses: write failure, read failure, set by a shared holder, release that erases, write landing late, block outside of the area.

### C47 Timeouts are ordered safely (proved)

* Model: `Timeouts.v`
* Proof: linear arithmetic, int range.
* Theorems: `C47_timeouts_ordered`, `C47_attempts_before_fail`, `C47_no_int_overflow`, `C47_grace_before_fire`
* Result: Timeout arithmetic.

### C48 Initialising leases creates exactly valid free leases (partial)

* Model: `Init.v`
* Proof: write sequences and their prefixes.
* Theorems: `C48_resource`, `C48_read_all_disks`, `C48_cleared`, `C48_lockspace`, `C48_crash_partial`, `C48_crash_refuted`, `C48_num_hosts_refuted`, `C48_refuted`
* Result: Proved: initialised resources and lockspaces are valid and free for every host, whatever was on the disks; an interrupted lockspace initialisation is not recognised when the first sector was reached or blank. Refuted: interruption before the first sector over an older lockspace; negative number of hosts.

### C49 An event reaches the hosts it was set for and no others (partial)

* Model: `HostEvent.v`, `Bitmap.v`
* Proof: history of notifications.
* Theorems: `C49_delivered`, `C49_only_recently_notified_partial`, `C49_refuted`, `C49_documented_recipe_refuted`
* Result: Delivery proved; the "no others" half is refuted (a request notification or the documented 60 s recipe delivers the event to other hosts); proved instead: only hosts notified within the period receive it.

### C50 One resource index operation at a time per lockspace (partial)

* Model: `Lockspaces.v`
* Proof: invariant over histories; witness.
* Theorems: `C50_exclusive_while_joined_partial`, `C50_remove_refused`, `C50_refuted`, `C50_flag_cleared_by_other_operation`
* Result: Exclusive as long as the lockspace is not left during an operation; refuted otherwise.

### C51 A request signals only an older holder (partial)

* Model: `Request.v`
* Proof: case analysis.
* Theorems: `C51_examine_partial`, `C51_newer_request_acts`, `C51_refuted`, `C51_both_restrictions_kill`
* Result: Holds with respect to the version seen when the examination began; a re-acquire in between, and both restrictions together, refute the full claim.

### C52 The log dump holds the most recent bytes (partial)

* Model: `LogRing.v`
* Proof: invariant: the dump buffer is the last bytes of the history.
* Theorems: `C52_dump_partial`, `C52_line_fits`, `C52_refuted`
* Result: Exact once wrapped and memory safe always; before the first wrap copy_log_dump leaves out the last byte.

### C53 A lease handed out belongs to the current lockspace membership (partial)

* Model: `SpaceUse.v`
* Proof: ghost of the membership in which a token was made.
* Theorems: `C53_current_partial`, `C53_host_id`, `C53_refuted`
* Result: Refuted: check_new_tokens_space compares the host id, not the generation, so a slow acquire is linked to a re-added lockspace. Holds if the host does not rejoin with a host id it had before.

### C54 Every accepted client command is run exactly once (proved)

* Model: `ThreadPool.v`: mutex sections of the pool as steps, spurious wake-ups, ghost lists
* Proof: invariant over all runs; a measure shows that a quiet state has no pending command.
* Theorems: `C54_exactly_once`, `C54_nothing_forgotten`, `C54_number_of_workers`, `C54_refused_not_queued`
* Result: 

### C55 A command does not wait for another one while the pool may grow (partial)

* Model: `ThreadPool.v`
* Proof: witness for the refutation; case analysis of one addition.
* Theorems: `C55_refuted`, `C55_waits`, `C55_sleepers_used_partial`, `C55_new_worker_partial`
* Result: Refuted: free_workers still counts a worker that was signalled but has not run yet, so a burst of commands starts too few workers and one waits behind another. Proved: each waiting worker is woken by a command, and a worker is started when none is free and the maximum is not reached.

### C56 The pool is shut down only after the accepted commands were run (partial)

* Model: `ThreadPool.v`
* Proof: witness; invariant without the spurious wake-up of the last wait.
* Theorems: `C56_refuted`, `C56_waits_for_all_partial`
* Result: Refuted: the wait in thread_pool_free is not in a loop, a spurious wake-up ends it early. Proved when there is no spurious wake-up.

### C57 The renewal history shows the last renewals and the failures after each (partial)

* Model: `RenewHist.v`: ring of records, report
* Proof: invariant: the ring is the list of the last records; induction over the events.
* Theorems: `C57_refuted`, `C57_one_entry`, `C57_times_partial`, `C57_counts_partial`
* Result: Times and latencies are exact for every history; the counters are exact until the ring wraps. Refuted after that: a reused record keeps the counters of the old one. A history of one entry is never reported.

### C58 The owners reported for a resource are those recorded in its lease area (partial)

* Model: `OwnersRead.v`: the area as a function from offset to byte, the two passes and the two loops
* Proof: the filling loop returns what the counting loop counted; specification in terms of byte offsets; witness for num_hosts of 2^64-1.
* Theorems: `C58_refuted`, `C58_answer_partial`, `C58_fits_partial`
* Result: Every answer is right, in at most two reads, provided no byte outside of the buffer is read; that holds if all host sectors fit the area. Refuted: num_hosts of the record is trusted. Missing: only disk 0 is read by the code; allocation failure; the area changing while it is read.

### C59 On a registered connection the daemon executes exactly the commands that were called (partial)

* Model: `Framing.v`: bytes sent per call, header decoding, how many bytes each command consumes or throws away
* Proof: induction over the resources with the position kept by the daemon; witnesses by computation.
* Theorems: `C59_refuted`, `C59_name_refuted`, `C59_in_step_partial`, `C59_release_all_partial`
* Result: Proved for every documented use, whatever the daemon answers. Refuted: release with the orphan or rename flag and too few resources blocks a worker for ever; release of everything with resources leaves their bytes to be read as headers, and a name that looks like a header is executed (harmless if none does). Missing: the commands of unregistered connections.

### C60 The program that makes a process give up its leases is run with the configured arguments (proved)

* Model: `KillArgs.v`: the two 128 byte buffers from the library through cmd_killpath to run_path, the parser with its buffers
* Proof: the parser invariant (position plus collected argument below 128) by induction on the string; a second induction over quoted arguments.
* Theorems: `C60_safe`, `C60_args`, `C60_seven_args_no_pid`
* Result: Arguments are taken as quoted with backslashes, at most 126 characters and at most seven including the pid; beyond seven the pid is dropped silently (C60_seven_args_no_pid), which is a limit of the code and shown as such.

### C61 The state string of several resources parses back to these resources (partial)

* Model: `StateStr.v`: sanlock_args_to_state with its buffer, the split at unescaped spaces, the parser of `Strings.v`
* Proof: induction over the resources using the round trip of one resource (`StringsRound.v`); witness with a colon.
* Theorems: `C61_refuted`, `C61_round_trip_partial`, `C61_state_fits`
* Result: Refuted: colons in names are not escaped. Proved for all names without colon or backslash and paths without backslash, any number of resources. Missing: allocation failure.

### C62 A lockspace string names the lockspace it was written for (proved)

* Model: `ArgStr.v`: sanlock_str_to_lockspace: the cut at unescaped colons, strncpy, atoll, path import
* Proof: induction over an inductive relation that says in which ways a path can be written.
* Theorems: `C62_names_the_lockspace`, `C62_fits`
* Result: Names with a colon or backslash cannot be written in this format at all; values from 2^63 are undefined in atoll and not claimed.

### C63 An offset given in megabytes on the command line means that many megabytes (partial)

* Model: `ArgStr.v`: parse_arg_lockspace and parse_arg_resource with strchr, the 16 byte buffer and what it held before
* Proof: the search functions on concatenations, the printed number read back from the buffer; witnesses by computation.
* Theorems: `C63_resource_refuted`, `C63_lockspace_refuted`, `C63_path_refuted`, `C63_colon_refuted`, `C63_overflow`, `C63_no_m`, `C63_resource_partial`, `C63_lockspace_partial`
* Result: Refuted: only the offset of the first disk is converted; parse_arg_lockspace reads uninitialised memory behind the digits; an M in a later path and an escaped colon are mistaken; more than sixteen characters overflow offstr. Proved for first paths without colon, M at the first disk only, and a non-digit behind the digits in the buffer.

### C64 A host answers RESETTING only after it has made its watchdog expire (partial)

* Model: `Resetd.v`: one event through get_events, watchdog_reset_self, the sysrq check, with a log of effects
* Proof: invariant over all reachable states about what precedes each effect in the log.
* Theorems: `C64_refuted`, `C64_reply_partial`, `C64_armed_once`, `C64_sysrq`, `C64_reboot_reply`
* Result: Refuted: once resetting, any event in another lockspace is answered RESETTING there without the lockspace having been kept from exiting (set_config is done only for events that ask for a reset). Everything else is proved.

### C65 sanlk-reset reports success only when the host has been reset, and it ends (partial)

* Model: `ResetTool.v`: reset_done, reset_fail, get_events and the main loop by rounds
* Proof: a specification of when the machine is down from what is learnt; invariant linking each flag to a fact learnt earlier.
* Theorems: `C65_refuted`, `C65_ends_refuted`, `C65_alarm_refuted`, `C65_waits_for_ever`, `C65_partial`, `C65_renewing_host_fails`, `C65_no_answer_fails`, `C65_alarm_partial`, `C65_ends_partial`
* Result: Refuted: with several lockspaces an old report of death is combined with a new answer; when every connection is lost the command never ends; a host that was reset and has joined again has smaller timestamps and is taken for one whose watchdog failed. Proved with one lockspace, with resources, or when reports of death follow answers.

### C66 A fenced host lets its watchdog fire; of two hosts fencing each other exactly one survives (partial)

* Model: `FenceD.v`: the signal flags, the duel, the renewal and the poll timeout of one pass of the main loop
* Proof: induction over the passes; a table of the flags by the signals read for the duel; a gap bound for the margin.
* Theorems: `C66_refuted`, `C66_duel_refuted`, `C66_margin_refuted`, `C66_partial`, `C66_lockspace_failed`, `C66_duel_partial`, `C66_margin_quiet`, `C66_margin_partial`
* Result: Refuted: a host that fences a higher host id ignores being fenced by a third host; a repeated SIGUSR1 kills the winner of a duel too; while fencing the loop sleeps 10 seconds and the renewal comes 6 seconds before the expiry. Proved without an agent against a higher host id, for one signal of each kind, and with margins 15 (idle) and 6.

### C67 The watchdog is fed only while the test scripts succeed (partial)

* Model: `WdScripts.v`: the script table with its eight slots, setup_scripts, start, wait with kill, test_scripts, with a log of events
* Proof: the state of a script is read off the log, independently of the table; invariant linking both over all reachable states.
* Theorems: `C67_refuted`, `C67_ninth_ignored`, `C67_pass_partial`, `C67_lost_only_by_failed_start`, `C67_setup_keeps`, `C67_no_false_alarm`, `C67_ends`, `C67_kills_own`, `C67_failed_is_rerun`
* Result: Refuted: a script that cannot be started once is taken out of the table and the test passes; a ninth script is ignored. Proved for every script in the table, and that a script leaves the table only through a failed start.

### C68 At most one instance of a daemon is at work on a machine (partial)

* Model: `OneDaemon.v`: inodes, the lock file path, fcntl locks and the shared memory object, any number of processes
* Proof: invariants over all interleavings: who is at work holds the lock of the inode the path leads to (sanlock), or made the shared memory object (wdmd).
* Theorems: `C68_fence_refuted`, `C68_sanlock_partial`, `C68_wdmd_partial`, `C68_wdmd_after_crash`, `C68_can_start`
* Result: Refuted for fence_sanlockd, which removes its lock file when it ends: a process that opened the old file and one that makes a new file both run. Proved for sanlock (never removes the file) and wdmd (shared memory object).

### C69 The lease of a dead host can be taken over, in bounded time (proved)

* Model: `Acquire.v`: the owner branch of paxos_lease_acquire as a machine fed with the results of its calls
* Proof: invariant of the wait with the number of sleeps as variant; existence of the run by induction on the sleeps left.
* Theorems: `C69_wait_ends`, `C69_gets_there`, `C69_goes_on`, `C69_taken_over`
* Result: The result of the ballot is an input here; C09 and C70 are about the ballot itself.

### C70 An acquire succeeds only with a ballot that was won (partial)

* Model: `RunBallot.v`: run_ballot as a function of the allocation and I/O results, the relation `acq` that puts it in the acquire machine; `BallotRef.v`: its steps in the model of C09
* Proof: induction over disks and blocks for the function; case analysis over the acquire machine; simulation of one run_ballot by actions of the interleaved model with other hosts in between.
* Theorems: `C70_refuted`, `C70_two_owners`, `C70_version_goes_back`, `C70_ballot_partial`, `C70_ballot_wins`, `C70_partial`, `C70_next_version_partial`, `C70_wedged`, `C70_refines`, `C70_enabled`, `C70_reread`, `C70_next_number`
* Result: Refuted: when posix_memalign fails run_ballot returns the positive errno, which the caller takes for success with the dblock of an earlier aborted ballot (or a zero one). Proved when the allocations succeed. C70_refines and C70_enabled connect the sequential run_ballot to the interleaved model of C09; C70_reread and C70_next_number are about what happens between two ballots.

### C71 An index command gives back what it took, and success means that the index was written (partial)

* Model: `RindexFlow.v`: the commands as traces of things taken, given back and written, as functions of the results of all calls
* Proof: case analysis over all paths; counting on traces.
* Theorems: `C71_refuted`, `C71_success_without_write_refuted`, `C71_null_refuted`, `C71_leak_refuted`, `C71_update_unlocked_refuted`, `C71_partial`, `C71_format_partial`, `C71_locks_given_back`, `C71_written_under_lease`, `C71_written`
* Result: Refuted when memory runs out (success without the write, or a null pointer used with the index lease held), for buffers and a file descriptor on some error paths, and for update, which does not take the index lease. Proved: locks, tokens and the disk are given back on every path that returns; create, delete and rebuild write under the lease for all inputs; all of the statement when allocations succeed and lease initialisation fails only by timeout.

### C72 Linked list operations do what their names say and touch nothing else (proved)

* Model: `ListH.v`: list.h on a memory of next/prev pairs, stores in source order, access to unallocated memory is an error; `ListUse.v`: the loops of the daemon
* Proof: a list is a cyclic sequence of linked nodes; insertion and removal by splitting the sequence; loops by induction with the list cut at the cursor.
* Theorems: `C72_init`, `C72_add`, `C72_add_tail`, `C72_del`, `C72_move`, `C72_move_front`, `C72_empty`, `C72_first`, `C72_for_each`, `C72_purge`, `C72_free_lockspaces`, `C72_release_orphan`, `C72_plain_loop_fails`, `C72_plain_move_strays`
* Result: list.h as used by the daemon, on a memory where touching freed memory is an error. C72_plain_loop_fails and C72_plain_move_strays show that the safe form of the loop is needed.

### C73 The cache of free resource structures is bounded and counted (partial)

* Model: `ListUse.v`: free_resource, get_free_resource and purge on the memory of C72
* Proof: the search for the victim by induction from the tail; counter and length as invariant of all runs; the difference between them as a second invariant.
* Theorems: `C73_refuted`, `C73_partial`, `C73_exact_partial`, `C73_free`, `C73_get`, `C73_no_ub`, `C73_cache_shrinks`
* Result: purge_resource_free does not decrement the counter: equality is refuted; proved as long as nothing is purged. In every run: well formed, at most 128, counter not below the length, no failing access; the consequence of the wrong counter is C73_cache_shrinks.

### C74 The value block is carried over the socket exactly (partial)

* Model: `LvbMsg.v`: both ends of the two messages, with the conversions between int, uint32_t and size_t
* Proof: case analysis over the checks; positions of the copied bytes by list lemmas.
* Theorems: `C74_refuted`, `C74_announce_refuted`, `C74_set`, `C74_get_partial`, `C74_round_trip`, `C74_any_client_partial`
* Result: Proved for the library client, all lengths. For a client which sets data2 itself: refuted (a length above the sector reads past the block; an error reply announces bytes that are not sent), proved when the length is at most that of the block.

### C75 Library calls release what they take and read what they are sent (partial)

* Model: `ClientCalls.v`: every call of the library as an interaction tree of connect, send, recv, malloc, free and close with any answers
* Proof: weakest preconditions over the trees, the loops by induction; then each call by computation. The specification only looks at the trace.
* Theorems: `C75_connections_partial`, `C75_leak`, `C75_memory`, `C75_list_only_with_success`, `C75_request_partial`, `C75_reply_partial`, `C75_failure`, `C75_consumed_partial`, `C75_send_data`, `C75_get_event`, `C75_connections_refuted`, `C75_request_refuted`, `C75_reply_refuted`, `C75_consumed_refuted`
* Result: Refuted in four places: connection left open when the header cannot be sent in four calls; sanlock_lookup_rindex announces 64 bytes more than it sends; success without a list when malloc fails; the state string left in the connection by sanlock_inquire when malloc fails. Each is proved for all the other calls and outcomes, and C75_leak says exactly when a descriptor is lost.

### C76 Registered clients get every event of their lockspace (partial)

* Model: `EventReg.v`: registrations, event queue, sending of events and life of struct space as interleaved steps, each what is done under one mutex
* Proof: inductive invariants over all runs, between the state and a trace of outputs; the specification is a fold over the trace. Refutations are played out.
* Theorems: `C76_descriptors`, `C76_no_leak`, `C76_delivery`, `C76_queue`, `C76_stream_partial`, `C76_stream_refuted`, `C76_lifetime_partial`, `C76_lifetime_refuted`, `C76_lifetime_worker_refuted`, `C76_main_safe`, `C76_kept`, `C76_ended`, `C76_refused`, `C76_scan_full`, `C76_refused_free`, `C76_named`, `C76_registers`, `C76_success`, `C76_dropped`
* Result: Refuted in two places: an event can be sent on the connection before the reply to the registration, which the client then misreads; the structure of a lockspace can be freed between the search and its use in send_event_callbacks, set_event and set_bit. Proved: the bytes read when no event precedes the reply, no use of freed memory when a lockspace is only freed while no thread holds it, and everything else without such a condition. Assumes that the kernel takes an 80-byte event whole or not at all (C76_stream_partial only).

### C77 The fence agent reports success only for a host that was reset or left (partial)

* Model: `FenceAgent.v`: the script fence_sanlock.in command by command, interleaved with the lease of the victim on the storage and the hosts that take it
* Proof: inductive invariants over all runs; refutations are played out, the endless loop by an invariant of the states it goes through.
* Theorems: `C77_off`, `C77_file`, `C77_status`, `C77_error_refuted`, `C77_error_conditional`, `C77_ends_refuted`, `C77_ends_conditional`, `C77_left_refuted`, `C77_left_conditional`, `C77_on_refuted`, `C77_on_conditional`
* Result: Safety (success means reset or left), agent file, signal, request and status are proved in full. Refuted: an error although the victim was reset, when a second host fenced it too; the loop goes on for ever when fence_sanlockd was restarted; the lease is kept when the release fails; the action on succeeds while the lease is still being acquired. Each is proved when that case is excluded.

### C78 sanlock client status shows what the daemon has (partial)

* Model: `StatusOut.v`: the bytes send_state_... writes for a daemon state, the loop that receives them into the buffers, print_st and the sorting
* Proof: encode/decode lemmas for each record, induction over the records of the stream (also cut at any byte); the marks by showing that no key of the state string ends in ist; grouping by induction over the heads; refutations by computing with concrete states.
* Theorems: `C78_status_partial`, `C78_status_refuted`, `C78_sorted_partial`, `C78_sorted_all`, `C78_many`, `C78_sorted_refuted`, `C78_cut`, `C78_complete_refuted`, `C78_true_refuted`, `C78_hosts_partial`, `C78_hosts_many`, `C78_hosts_refuted`
* Result: Proved: all is shown as it is when no resource has four disks, sorted also with four disks up to 1024 entries; the sorted lines are a permutation; after an early end a beginning of the lines and one more at most. Refuted: a fourth disk overruns the array on the stack; over 1024 entries nothing is shown and the result is positive; an early end is reported as success and can show a record that is not there; a lockspace name of 48 characters is asked for with 47, and over 1024 lockspaces overrun sort_bufs.

### C79 direct dump shows what is on the device, direct next_free names a free area (partial)

* Model: `DirectDump.v`: the loops of direct_dump and direct_next_free over a device as a function from offsets to bytes, with the search for the sizes and the argument
* Proof: the device holds records as the encoders of `Codec.v` write them; round trip lemmas for each record and induction over sectors, hosts, entries and areas; the conditional memory theorem is an induction over the loop for any device; refutations by computing with small devices.
* Theorems: `C79_shows`, `C79_shows_size`, `C79_ends`, `C79_memory_conditional`, `C79_memory_refuted`, `C79_error_refuted`, `C79_all_refuted`, `C79_within_partial`, `C79_within_refuted`, `C79_free_first`, `C79_free_conditional`, `C79_free_refuted`, `C79_free_junk_refuted`, `C79_arg`, `C79_free_arg_partial`, `C79_free_arg_refuted`
* Result: Proved: all areas are shown as written, to the end of the size or the first free area; dump ends on every device; memory safe when the counts and names on the device are in range; lines are within a size that is a number of areas; next_free is right with -A and -Z, offset 0, no read errors and a free area. Refuted: number of hosts, sector size and index names from the disk lead out of the buffer; a read error is skipped with success; areas behind a free one are not shown; a size below one sector is no limit; next_free prints the end of a full device, an area that cannot be read, an offset relative to the start, and without -A and -Z depends on uninitialised variables; it does not take escaped colons or M.

### C80 The daemon runs with the settings its configuration file and command line give (partial)

* Model: `ConfFile.v`: fgets, the word, sscanf, atoi, one turn of the loop for each option, the options of the daemon, the defaults; the uninitialised val is an argument
* Proof: a file is a list of comments, empty lines, settings and bare names with their blanks; lemmas give what one line does to each member, a fold over the lines gives the file; the theorems for every file are inductions over the pieces fgets returns; refutations by computing short files.
* Theorems: `C80_numbers_partial`, `C80_frame`, `C80_strings_partial`, `C80_ids_partial`, `C80_debug_cmds`, `C80_max_sectors_partial`, `C80_debug_io`, `C80_fits`, `C80_host_fits`, `C80_not_named`, `C80_last_line`, `C80_options_partial`, `C80_command_line_wins`, `C80_defaults`, `C80_stale_value_refuted`, `C80_junk_refuted`, `C80_word_value_refuted`, `C80_comment_refuted`, `C80_cut_value_refuted`, `C80_no_user_refuted`, `C80_max_sectors_refuted`, `C80_refuted`
* Result: Proved for files whose lines are at most 126 characters and whose numeric settings have a numeral that fits an int: every setting is the one of the last line that gives it a value in range, no line changes another one, command line over file over defaults. Proved for every file: no buffer is overrun; a setting whose name is not in the text keeps its value. Refuted: a name with no value takes the number of an earlier line or of the stack (use_watchdog after use_aio=0 is 0), "use_watchdog = yes" is 0, the end of a comment longer than 127 characters is read as a setting, numbers are cut to 32 bits, a uname with no value is uid 0, max_sectors_kb can be negative.

### C81 A request signals the process that holds the lease (partial)

* Model: `ReqTarget.v`: r->pid, restrict flags and kill path added to the resource lists of `Resources.v`, the thread and do_request of `Request.v`, kill(2) with process groups
* Proof: invariant: an exclusive resource names the process of its only token, along all runs without upgrade; frame lemma: the members change only on creation and exclusive adoption; witnesses.
* Theorems: `C81_exclusive_partial`, `C81_held_is_signalled`, `C81_shared_request_reaches_daemon`, `C81_refuted`, `C81_former_holder_signalled`, `C81_adopted_restrictions`
* Result: Proved for leases held exclusively as long as no lease is upgraded from shared: the single holder is signalled; with no adoption also its restrictions and program are right; a newer request for a held lease always leads to an action. Refuted: a shared acquire leaves r->pid 0 and an upgrade does not set it, so a forced request makes the helper call kill(0, SIGKILL), which is proved to reach the helper and the daemon itself, after any further steps without adoption; after exclusive to shared and back by another process the former holder is signalled; an adopted orphan keeps the restrictions and the program of the dead process.

### C82 The helper does what it is handed, once and in order, and its loss is survived (partial)

* Model: `Helper.v`: both pipes with their capacity, close_helper, send_helper_kill, do_request and sysfs writes, process_helper and helper_dead in one dispatch of the main loop, one turn of run_helper, SIGPIPE
* Proof: invariants along all runs (queue equation, subsequence of what was asked, marks of clients, slot of the helper), timing invariant of the heartbeat for punctual turns, frame lemmas, witnesses.
* Theorems: `C82_in_order`, `C82_only_asked`, `C82_all_done_partial`, `C82_drained`, `C82_program_once`, `C82_memory_partial`, `C82_loss_noticed`, `C82_double_close`, `C82_no_fallback`, `C82_silence_ignored`, `C82_helper_ends`, `C82_heartbeat`, `C82_report_after_59_seconds`, `C82_double_close_refuted`, `C82_sigpipe_refuted`, `C82_daemon_stays_partial`, `C82_lost_at_end_refuted`, `C82_fork_failure_refuted`, `C82_never_waited_for`, `C82_refuted`
* Result: Proved for all runs: the pipe carries a subsequence of what was asked, the helper takes it in order, does every kill and sysfs write it takes once and nothing that was not asked; all programs too if fork works; a helper that gets turns empties the pipe; the program of a client is handed over at most once until the slot is freed; status messages are 30 to 59 seconds apart if the helper is scheduled in time; the helper ends within one turn after the daemon. The next dispatch after its end, or after a failed status read, closes the pipes. Memory is proved intact if no status read fails (and harmed exactly if a failed read and the hangup meet in one dispatch), and the daemon proved to stay if SIGPIPE is ignored or the helper lives. Refuted: no SIGTERM fallback exists and the age of the last status is never looked at; SIGPIPE ends the daemon; a failing read together with the hangup writes pollfd[-1]; messages behind the first are lost when the daemon ends; a program whose fork failed is never started.

### C83 write_leader changes the values in the file and nothing else (partial)

* Model: `WriteLeader.v`: printf and scanf of the file format, read_file_leader with its 128 byte lines, print_leader, reading the record of a lockspace or resource and writing it back over the disk of `DirectDump.v`
* Proof: scanf inverts printf for both bases; the loop over well-formed lines is a fold, one lemma per kind of line; codec roundtrip with the checksum bytes of the stack buffer; witnesses.
* Theorems: `C83_settings`, `C83_write_back`, `C83_resource_partial`, `C83_lockspace_partial`, `C83_nothing_written`, `C83_unread`, `C83_force_ignored`, `C83_refuted`, `C83_checksum_refuted`, `C83_unread_refuted`, `C83_place_refuted`, `C83_write_back_refuted`, `C83_other_base_refuted`
* Result: Proved for every file of well-formed settings: each member gets the last value given, all others stay; printing a record and reading it back gives the same record if its names are words; for a readable resource the disk holds exactly that record with a right checksum and nothing outside the sector changes; for a readable lockspace the values too. Refuted: the checksum of a lockspace record is never set, what the stack buffer held is written, so the lease is rejected afterwards; forcing a checksum is proved to have no effect at all; a failed read is ignored and zeros (lockspace) or uninitialised stack (resource) are written as the base record; a sector size in the file moves the write onto another host; names with blanks are cut; hexadecimal for a decimal member gives 0 and decimal for a hexadecimal one is ignored.

### C84 Taking a lease exclusively does not wipe the shared lease of a live host (partial)

* Model: `HostLive.v`: host_live over the status of `HostStatus.v`, read_mode_block (first disk only), write_host_block with zeros (each disk in turn), the loop of clear_dead_shared with a failure of any operation
* Proof: the last change in the history of checks decides the status; induction over the host ids with the sectors of all disks; real time as a function from time to record
* Theorems: `C84_reason`, `C84_unknown`, `C84_live_partial`, `C84_prompt_partial`, `C84_refuted`, `C84_slow_refuted`, `C84_cleared`, `C84_touched`, `C84_no_live_left`, `C84_holder_kept_partial`
* Result: Proved: without knowledge a host counts as alive; one is judged dead only because its last record read was free, a newer generation was seen, or the record did not change for 8 io timeouts and the fire timeout; a successful clear wipes exactly the marks of the hosts judged dead, on every disk, and counts the live ones; a failed one touches no other; a holder of which a read in this generation is not older than the fire timeout is kept and the acquire fails. With checks at most 2 io timeouts old every holder has such a read. Refuted for the timing the code allows: a host that comes back, joins and takes a shared lease between two checks is judged by its old record and its lease is wiped; so is a slow holder when the observer's checks stall as well.

### C85 What the lockspace commands answer is true and the daemon leaves no lockspace behind (partial)

* Model: `SpaceLife.v`: the worker threads of add, remove, inquire and shutdown, the points where a lockspace thread publishes its result, sets its generation and ends, the check and the test of the main loop, SIGTERM; each step is what is done under one hold of spaces_mutex, over the lists of `Lockspaces.v`
* Proof: one invariant over all interleavings (`SpaceLifeProof.v`): what is in use has a running thread, each lockspace being added has one worker, each id that is not listed has ended; then separate invariants for the end
* Theorems: `C85_added`, `C85_add_failed`, `C85_removed`, `C85_inquire`, `C85_remove_while_adding`, `C85_remove_in_use`, `C85_shutdown_ends`, `C85_forced_partial`, `C85_end_partial`, `C85_reply_partial`, `C85_end_refuted`, `C85_forced_refuted`, `C85_reply_refuted`, `C85_unused_refuted`, `C85_generation_refuted`
* Result: Proved for every interleaving: the answers of add, remove and inquire; that a removal is never lost; that a shutdown accepted because nothing is there ends the daemon at the next test. Partial: the daemon ends with nothing in use unless SIGTERM or a forced shutdown with wait falls between the check and the test of the main loop (refuted without that); a forced shutdown ends the daemon unless SIGTERM comes meanwhile (refuted without that); the last client that waits for the shutdown is answered (refuted for the first of two). Refuted: remove-if-unused can remove a lockspace in which a lease has just been acquired; a lockspace can be in use before its generation is set.

### C86 A list of lockspaces or hosts given to a client is complete and right (partial)

* Model: `Reports.v`: the copy loops with the limit of the send buffer, the answer and the loop of the client that reads as many entries as were counted
* Proof: induction over the lists; the number of hosts of any usable size fits the buffer
* Theorems: `C86_lockspaces_partial`, `C86_lockspaces_many`, `C86_lockspaces_refuted`, `C86_memory_refuted`, `C86_hosts`
* Result: Proved: the list of hosts is complete and right for every lockspace sanlock can use; the list of lockspaces is for up to 949, and with more the library returns -1 and no list, never a part. Refuted: that every client gets a list (the daemon counts entries it did not send, so the library fails where its comment says it gives what fits); that success means a list (no memory for it: 0 and a count without a list).

### C87 A lockspace thread closes what it opened, nothing else, and writes to its own disk (partial)

* Model: `LsFds.v`: the shared descriptor table with lowest-number allocation, the calls of lockspace_thread in order with every failure path, sp->wd_fd zero until activate_watchdog has set it
* Proof: invariant: the table has exactly the descriptors each thread's program point says it holds
* Theorems: `C87_partial`, `C87_no_watchdog`, `C87_close_refuted`, `C87_left_refuted`, `C87_write_refuted`
* Result: Proved as long as open_watchdog does not fail, and always without the watchdog. Refuted when it fails: disconnect_watchdog closes sp->wd_fd, which is still 0, instead of the new connection. Descriptor 0 of the daemon is closed, the connection stays open for ever, and with descriptor 0 given out again a later failure closes the disk of another lockspace, whose thread then writes its free record to whatever file got the number.

### C88 The loss or staleness of the host id lease is noticed, and nothing else is taken for it (partial)

* Model: `LeaseCheck.v`: publishing of renewal results, check_our_lease, the chain of renewals with delta_lease_renew of `DeltaRenew.v`, one pass of main_loop with poll timeout and wall clock, the shared check_buf
* Proof: induction over the events; the chain keeps the owner of the join record
* Theorems: `C88_killed_iff`, `C88_noticed`, `C88_no_false_alarm_partial`, `C88_handed`, `C88_checks_partial`, `C88_signals_refuted`, `C88_buffer_partial`, `C88_buffer_refuted`, `C88_late_write_refuted`
* Result: Killing iff lost or stale, noticing of foreign records and the hand-over are proved without restriction (clock less than 2^31 s ahead of the last success). False alarms are excluded only if no failed write lands late; a late own write gives RENEW_DIFF and kills. Checks once a second are proved whatever is done to the wall clock between passes as long as no signal ends the poll; signals faster than the poll timeout put them off for ever. A malloc failure makes the daemon read a null pointer.

### C89 The arguments of a call from Python reach the library as they were given (partial)

* Model: `PyArgs.v`: the format letters, PyArg_ParseTupleAndKeywords, keyword lists, defaults and bodies of 20 functions up to the call of the library
* Proof: the binder gives each parameter the object Python's rules give; then by cases on the function
* Theorems: `C89_delivered`, `C89_only_partial`, `C89_fields`, `C89_names_apart`, `C89_long_name_refuted`, `C89_same_lockspace_refuted`, `C89_number_refuted`, `C89_path_refuted`
* Result: C89_delivered: if all values fit, the library reads exactly what was given. C89_only_partial: a call that reaches the library followed Python's rules for names and positions. The part `values which do not fit raise` is refuted: long names are cut, numbers are taken modulo 2^64 or 2^32, long paths are cut. C89_fields: the buffers are always filled as the library expects.

### C90 killpath from Python runs the program with the arguments that were given (partial)

* Model: `PyKill.v`: parse_killpath_item byte by byte with the buffer bound, py_killpath; the library, daemon and helper parts are those of `KillArgs.v` (C60)
* Proof: the text built is the quoting of C60; the rest by the round trip of C60
* Theorems: `C90_safe`, `C90_args_partial`, `C90_too_long`, `C90_empty_refuted`, `C90_other_args_refuted`
* Result: Memory safety without restriction; delivery for up to seven non-empty printable arguments within 126 bytes and a path of up to 126 bytes; too long lists raise.

### C91 What Python is told is what the library and the daemon reported (partial)

* Model: `PyOut.v`: the structures as memory, formats y and s of Py_BuildValue with a strict UTF-8 decoder, the list builders, results of inquire, get_event, inq_lockspace, read_lockspace and read_resource
* Proof: the decoder accepts exactly the UTF-8 forms of lists of scalar values; each list by induction; inquire by the round trip of C61
* Theorems: `C91_utf8`, `C91_hosts`, `C91_lockspaces_partial`, `C91_resources_partial`, `C91_safe`, `C91_full_name_refuted`, `C91_lockspaces_refuted`, `C91_resources_refuted`, `C91_one_path_refuted`, `C91_round_trip`, `C91_inquire_partial`, `C91_inquire_refuted`, `C91_inquire_statement_refuted`, `C91_events`, `C91_events_refuted`, `C91_inq`, `C91_error_number`
* Result: Hosts, inq, error numbers, safety and the round trip hold without restriction (the round trip for names up to 47 bytes and Unicode paths). Lockspaces and resources: names shorter than 48 bytes and Unicode paths; the rest is refuted. Inquire: names without colon and backslash. Events: lost if an error follows.

### C92 A read or write without AIO moves the bytes asked for, at the place asked for, or fails (partial)

* Model: `DiskLoop.v`: lseek with its signed offset, both transfer loops over a list of answers of the kernel, offset arithmetic of sectors modulo 2^64
* Proof: induction over the answers; a beginning of the bytes is at its place in every state
* Theorems: `C92_write_partial`, `C92_prefix_partial`, `C92_wrong_place_refuted`, `C92_write_refuted`, `C92_bad_offset`, `C92_read_partial`, `C92_read_refuted`, `C92_ends_partial`, `C92_ends_refuted`, `C92_sector_partial`, `C92_sectors_partial`, `C92_round_trip_partial`, `C92_wrap_refuted`
* Result: Everything but the end of the loop holds for every offset except 2^64-1, and for sectors whose offset does not pass 2^64. For offset 2^64-1 and for a device that takes zero bytes for ever the claims are refuted.

### C93 The disks of a lease are opened if a majority can be, otherwise none stays open (partial)

* Model: `OpenDisks.v`: the three functions and close_disks with a record of the opens and closes
* Proof: induction over the disks; the balance of opens and closes equals the recorded descriptors
* Theorems: `C93_majority`, `C93_descriptors`, `C93_reopen`, `C93_verified_refuted`, `C93_alignment_refuted`, `C93_own_refuted`
* Result: Majority and descriptors are proved without restriction for disks that are closed before. The agreement of sector sizes and the alignment, which the comments in the code promise, are refuted, and so is the last sentence.

### C94 Reading a lockspace or a resource reports what is stored for it (partial)

* Model: `ReadInfo.v`: the two commands, delta_read_lockspace and its search for the sizes, paxos_read_resource, the place of the sector that is read and the flags that are returned; on the record formats of the lease models
* Proof: cases over the sizes tried; the reads are related to the record at the place that the specification names
* Theorems: `C94_lockspace_partial`, `C94_first_host`, `C94_lockspace_true`, `C94_resource_partial`, `C94_resource_true`, `C94_range_refuted`, `C94_hint_refuted`, `C94_lockspace_statement_refuted`, `C94_stale_refuted`, `C94_first_disk_refuted`, `C94_resource_statement_refuted`, `C94_unknown_size_refuted`, `C94_stack_refuted`
* Result: Proved: what is reported is a record with a valid checksum that lies at the place computed from the flags; for host id 1, or with right or no flags and a host id in range, it is the one of the lockspace asked for; for a resource it is the record of the first disk. Refuted: a host id beyond the lockspace, a wrong size flag with a host id above 1, disks that differ, a first disk that cannot be opened, a record with an unknown sector size, and the reply of a call that breaks off.

### C95 Host events are sent once and in order, and a lease being released is kept until it is released (proved)

* Model: `ResThread.v`: the resource thread as a state machine with its four sources of work (events, releases, examinations, stop), the two flags, and the functions that give it work
* Proof: invariants over all histories (`ResThreadProof.v`): the queue is what was asked for minus what was sent, no identity is in two lists, the flag is set while there is work
* Theorems: `C95_events`, `C95_one_list`, `C95_kept`, `C95_no_acquire`, `C95_pause`, `C95_exit`
* Result: The unit of time is that of monotime(); an attempt is one step for its start and one for its end.

### C96 What waits for the resource thread gets done (partial)

* Model: `ResThread.v` as for C95
* Proof: a measure of the waiting work that every step of the thread lowers while no attempt is due again; runs for the refutations, the starvation by induction on the number of attempts
* Theorems: `C96_awake_partial`, `C96_drain_partial`, `C96_starvation_refuted`, `C96_adopt_refuted`, `C96_examine_again_refuted`, `C96_exit_refuted`
* Result: Proved: the thread does not sleep over an event or, when no lease was adopted, over an examination; woken once, it sends all events, tries every release that is due and does every examination, within as many steps as there is work, if no attempt lasts so long that it is due again. Refuted: starvation by a lease on a dead disk, an examination lost by an adoption, a failed examination, releases at the end of the daemon.

### C97 A command is executed only for a connection and a process that may, one at a time, and is answered otherwise (partial)

* Model: `Dispatch.v`: all client slots and all commands handed to the thread pool; one step is one action of the main thread or the end of one command
* Proof: invariant over all histories in which nothing is read from the connection of a process that is gone (`DispatchProof.v`); the gate, the restriction and the new connection without it
* Theorems: `C97_gate`, `C97_handled`, `C97_lease_cmd`, `C97_refused`, `C97_answered`, `C97_one_at_a_time_partial`, `C97_fresh`, `C97_restrict_all`, `C97_pipelined_refuted`, `C97_no_answer_refuted`, `C97_two_connections_refuted`, `C97_register_refuted`
* Result: Proved without conditions: the gate, the conditions of a lease command, that a command for a worker is taken or answered, the restriction, the new connection, that every command handed to a worker is known to it. Under the condition that a client sends nothing ahead: one at a time, slots kept, a refusal changes nothing. Refuted: a client that sends ahead and ends, commands stopped by the gate (no answer), a process with two connections, a registration without memory.

### C98 The arguments of a library call arrive at the daemon as they were given (partial)

* Model: `MsgArgs.v`: both sides, the structures byte by byte as the compiler lays them out
* Proof: reading what was written, structure by structure, then the 24 calls one by one
* Theorems: `C98_args_partial`, `C98_out_of_range`, `C98_length_partial`, `C98_write_resource_refuted`, `C98_examine_refuted`, `C98_name_refuted`, `C98_path_refuted`, `C98_length_refuted`
* Result: Proved for all calls but two: sanlock_write_resource with different numbers of hosts (exchanged on the way) and sanlock_examine of a lockspace without a path (another message, or a header without a body). The length is proved for all calls but sanlock_lookup_rindex. Names of more than 48 bytes are cut and reach another lockspace; a path without its 0 is not ended by the daemon.

### C99 wdmd chooses its device by a fixed order, leaves none armed by looking at it, and runs it with the timeout it promises (partial)

* Model: `WdDev.v`: a driver as its answers; every call on a device is an event; the rules of the kernel for arming are in `C99.v`
* Proof: the five steps are a walk through the order without repetitions; every try is neutral for the kernel's rules; cases of the opening
* Theorems: `C99_choice`, `C99_probe`, `C99_try`, `C99_agree_partial`, `C99_disarmed`, `C99_all_disarmed`, `C99_start_sets_nothing`, `C99_open_ok`, `C99_open_later`, `C99_open_refused_partial`, `C99_open_refused_refuted`, `C99_agree_refuted`, `C99_armed_refuted`, `C99_try_refuted`, `C99_path_refuted`, `C99_zero_refuted`
* Result: Proved: the choice, the probe, that nothing is left open, that a device stays armed only if it does not take the "V", that a client told so has its timeout (first and later clients). Partial: probe and daemon agree if all devices that answer take 60 seconds; a refused client leaves nothing behind if the driver takes the timeout exactly or refuses. Refuted: both in general, wdmd -t, a path of 64 bytes, a timeout of 0.

### C100 sanlk-resetd watches the lockspaces it was told to watch (partial)

* Model: `RegTable.v`: the table as a function from slots; one pass of the loop from the results of poll, the message, the results of strdup and sanlock_reg_event, and what reading events did
* Proof: every step keeps slots whole (name and connection, or neither) and balances connections; cases of the message for the rest
* Theorems: `C100_message_partial`, `C100_whole`, `C100_connections`, `C100_count`, `C100_count_partial`, `C100_reg_partial`, `C100_end_partial`, `C100_clear`, `C100_only`, `C100_others`, `C100_lost`, `C100_distinct`, `C100_reg_refuted`, `C100_end_refuted`, `C100_full_refuted`, `C100_count_refuted`, `C100_count_end_refuted`, `C100_message_refuted`
* Result: Proved: slots are whole in all executions, every connection is in the table or was ended, "clear", nothing else is watched, other slots are unchanged, broken connections go, no name is entered twice by a message, what ls_count is. Partial: the count if no slot is ended twice; messages whose name has no blank and fits; "reg" if there is room and nothing came in for the old connection; "end" if no name is twice in the table. Refuted: these in general, and the count.

### C101 The request size of a lockspace's disk is set to what was configured and to no more than the hardware takes (partial)

* Model: `MaxSectors.v`: the function from settings, the contents of the two files and the results of writes to what is written and reported; reading as in the code, with the atoi of `ConfFile.v`
* Proof: cases; a numeral of less than 31 digits and a newline is read as its value
* Theorems: `C101_exact`, `C101_bound`, `C101_untouched`, `C101_fits`, `C101_empty`, `C101_default`, `C101_lease`, `C101_reported_partial`, `C101_reported_refuted`, `C101_lowers_refuted`, `C101_largest_refuted`, `C101_negative_refuted`, `C101_fits_refuted`
* Result: Proved: the outcome for files that hold numbers, in full (C101_exact), and with nothing in them; nothing above max_hw_sectors_kb is ever written; what is left alone; default and lease size; no over-read for files below 32 bytes. Partial: what is reported, if the helper does its work. Refuted: it in general, and that the setting never makes requests smaller.

### C102 fence_sanlockd starts with what it was given, can be fenced only when all is set up, and takes a failed start back (partial)

* Model: `FenceStart.v`: options, the line in the fifo and its scan, the start as the calls made, with the value that is in rv at every goto
* Proof: a run through the steps; the scan of a line of four words
* Theorems: `C102_start`, `C102_running`, `C102_fenceable`, `C102_exit_partial`, `C102_exit_refuted`, `C102_options_partial`, `C102_range`, `C102_leases`, `C102_blank_refuted`, `C102_cut_refuted`, `C102_negative_refuted`, `C102_path_refuted`
* Result: Proved: the calls of every start in full, when the daemon runs, what is in place when the lease is acquired, the range of options from the fifo, leases of hosts 1-128 do not overlap. Partial: options for paths without blanks of at most 4084 characters; the exit code, unless wdmd_connect, sanlock_register or sanlock_direct_align failed. Refuted: both in general, that a host id is positive and that the path fits where it is copied to.

### C105 A host recognises its own host lease, and no other's (partial)

* Model: `HostName.v`: setup_host_name, the name as written by delta_lease_acquire and the comparison that skips the wait. The models of the host lease (C17, C18) compare names as numbers and do not cut them.
* Proof: lengths and prefixes of strings.
* Theorems: `C105_length`, `C105_given`, `C105_made`, `C105_other`, `C105_own_partial`, `C105_free`, `C105_own_refuted`, `C105_other_refuted`, `C105_given_refuted`
* Result: Proved: a name has at most 48 characters (C105_length); a given name is used (C105_given), else one that begins with the uuid (C105_made); with different uuids the record of one host is never taken for that of the other (C105_other); names of at most 47 characters recognise exactly their own records (C105_own_partial); a free lease needs no wait (C105_free). Refuted: a made up name recognises its own record exactly when the node name has at most 10 characters (C105_own_refuted); a given name of 47 characters takes the record of a host with one more character for its own (C105_other_refuted); given names that differ after 48 characters are one (C105_given_refuted).

### C106 A random delay lies between its bounds (partial)

* Model: `RandDelay.v`: get_rand with its conversions: float of 24 bits, round to nearest, ties to even; division by 2^31 in double.
* Proof: a float is off by at most one part in 2^24; the product of the count with a rounded value below 2^31 stays below the count times 2^31.
* Theorems: `C106_bounds_partial`, `C106_exact`, `C106_near`, `C106_delay`, `C106_delay_refuted`, `C106_wide_refuted`
* Result: For bounds less than 2^24 - 1 apart: never below the lower bound and at most one above the upper (C106_bounds_partial); between the bounds exactly when random() did not give one of its 64 largest values (C106_exact); up to 2^22 apart it is in proportion to the value of random(), but for one (C106_near); the delay is at most 1000001 microseconds (C106_delay). Refuted: the delay can be above a second (C106_delay_refuted); bounds far apart are missed by more than one (C106_wide_refuted).

### C103 fence_sanlockd finds the host its fence agent is fencing (partial)

* Model: `FenceFile.v`: check_fence_agent (fence_sanlockd.c:414-504) over a list of directory entries and a table of /proc/PID/comm; fscanf's %d, literal, %[^\n] and %s; the line the agent writes (fence_sanlock.in:259-261).
* Proof: the scanner is split into white space, integer and rest; the search is by induction over the directory.
* Theorems: `C103_first`, `C103_none`, `C103_cut`, `C103_skip`, `C103_sound`, `C103_stale_refuted`, `C103_several_refuted`, `C103_over_refuted`
* Result: Proved: after any files of agents that are gone (no process, or one whose name does not begin with fence_sanlock) the file of a running agent gives the host it fences (C103_first); if every agent's file is of one that is gone none is found (C103_none); a file that ends after the host id counts for nothing (C103_cut), nor does one that cannot be opened or has another name (C103_skip); for any files at all, a host that is found is named in a file of the directory beside the id of a process whose name begins with fence_sanlock (C103_sound). Refuted: a left-over file counts when its process id was given to fence_sanlockd, whose name has the same beginning (C103_stale_refuted); of several agents only the first file's host is found, so that both hosts of a duel can survive (C103_several_refuted); a line with 512 characters after the host id overflows a buffer (C103_over_refuted).

### C104 The daemon serves at its own socket, fully set up and as the given user (partial)

* Model: `DaemonStart.v`: env.c, sanlock_socket_address, the path of connect_socket, and do_daemon as a list of calls, each with what is done when it fails.
* Proof: induction over the list of calls for what must have come before; the paths by the length of the directory.
* Theorems: `C104_dir`, `C104_meet`, `C104_same`, `C104_place`, `C104_distinct`, `C104_long_refuted`, `C104_privileged`, `C104_served`, `C104_lock`, `C104_user_partial`, `C104_closed`, `C104_user_refuted`, `C104_tokens_refuted`, `C104_exit_refuted`, `C104_exit_partial`
* Result: Proved: the run directory is the one the variable names, else /run/sanlock (C104_dir); a client whose environment names the same directory connects to the path the daemon binds, and stays with it (C104_meet, C104_same); up to 93 characters the socket lies in the directory and two directories have two sockets (C104_place, C104_distinct); unprivileged exactly when the variable is there and not 1 (C104_privileged); the main loop runs only after lock file, socket, mode, owner, listen, threads and eventfd have succeeded (C104_served); the socket is touched only with the lock file held (C104_lock); the user is changed, if that works, before the socket is made (C104_user_partial); the lock file is closed at the end (C104_closed); success is returned only if all needed calls succeeded, given the eventfd and the place for the helper (C104_exit_partial). Refuted: longer directories can share a socket but not the lock file (C104_long_refuted); a failing setuid leaves the daemon serving as root (C104_user_refuted); it serves without the resource thread when that cannot be made (C104_tokens_refuted); without an eventfd, or a place for the helper, it ends with success (C104_exit_refuted).

## What is modelled

| source | modelled | not modelled |
|---|---|---|
| `ondisk.c`, `crc32c.c`, `leader.h`, `paxos_dblock.h`, `mode_block.h`, `rindex_disk.h` | all | |
| `sizeflags.c`, `timeouts.c` | all | logging |
| `paxos_lease.c` | verification, reads, ballot, acquire, release, request reads and writes, init | `renew` of unused code, logging; allocation failure only in run_ballot |
| `delta_lease.c` | verification, acquire, renew, release, init, lockspace sizes | statistics, logging |
| `diskio.c` | majority, sector I/O, AIO slots and reaping, transfers without AIO, opening of disks, max_sectors_kb | debug messages |
| `lockspace.c` | lists, status of other hosts, bitmap, events, registrations for events, renewal loop, host_info, renewal history, max_sectors_kb | reporting to clients |
| `resource.c` | lists (also at pointer level: purge, orphans, free structures), acquire, release, conversion, requests, value block, release thread (also its order of work, events and examinations), reading of owners | |
| `rindex.c` | all operations, byte level | opening of the disk |
| `cmd.c` | acquire, release, inquire, convert, killpath, register, lockspace commands as far as they touch tokens, clients, lists; the bytes of the status answer | the other texts of state strings |
| `main.c` | client slots, kill_pids, all_pids_dead, main loop, thread pool, -s and -r arguments, sanlock.conf, options of the daemon, defaults, order of lock file and work, start of the daemon, read_file_leader, print_leader | the options of client and direct, priorities |
| `client.c` | string conversions (resources, lockspaces, state strings), owner test, bytes sent for the commands of a registered connection, the calls of every library function with all outcomes, the arguments of the calls with their own connection | |
| `watchdog.c`, `wdmd/main.c` | expiry updates, client bookkeeping, test loop, device, scripts, lock file, shared memory object, choice, probe and opening of the device | reset helpers |
| `list.h` | the operations and loops that are used | `container_of` arithmetic |
| `log.c` | ring, dump | formatting |
| `task.c` | close of the AIO context | |
| `helper.c` | `run_path` with its argument parser; `run_helper`, both pipes and the daemon's side of them | prctl, setgroups |
| `reset/sanlk_resetd.c` | get_events, watchdog_reset_self, main loop, table of lockspaces, process_update | option parsing, signals |
| `reset/sanlk_reset.c` | reset_done, reset_fail, get_events, main loop, message of update_local_daemon | option parsing |
| `fence_sanlock/fence_sanlock.in` | action_off, action_on (the loop), action_status, read_leader as one command | getopt, stdin, sanlock_init, metadata, the text of grep and awk |
| `fence_sanlock/fence_sanlockd.c` | process_signals, main loop, lock file, options, fifo, start, reading of agent files | daemonizing, logging |
| `lockfile.c` | open, lock, truncate and write | making of the directory |
| `client_cmd.c` | status with its three orders, the names host_status asks for | -D, the tables of host_status and renewal, log dump |
| `direct.c` | direct_dump, direct_next_free, direct_read_leader_sizes, READ_LEADER and WRITE_LEADER of do_paxos_action and do_delta_action | the other actions, wrappers |
| `python/sanlock.c` | the arguments of 20 functions up to the call of the library, killpath, the conversion of results | register, module set-up, Python 2 |
| `env.c`, `sanlock_sock.c` | all | |
| `direct_lib.c` | get_rand | stubs |
| `python/setup.py` | nothing | all |

## Findings

Places where the code, as modelled, does not do what its property says.  The theorem in brackets has the witness.
Findings without a theorem were seen while reading and are outside of the stated properties.

Lease records and reads
1. `_leader_read_num` returns the first record seen, which may be one that failed verification (C16).
2. `_lease_read_num` returns the result of the last disk, whatever the others returned.
3. `verify_dblock` skips the checksum when it is zero (C03_dblock_blank_exception_refuted).
4. The value block is sector 2002 of the lease, outside of the area for 4K sectors and areas below 8M (C05, C46_area_refuted).

Acquire, release, conversion
5. A leader write delayed past another host's acquire and release lowers the version; a version is decided twice (C09, C11, C29).
6. After a re-join the ballot does not compare generations (C11_generation_refuted).
7. A failing shared acquire clears its ballot block while the ballot runs (C09/C11_block_cleared_refuted).
8. A requested version 0 is not checked (C12).
9. The clock is read after the host lease; a stall in between counts as silence of the owner (C13).
10. The waiter uses its own timeout until the owner has been monitored; `hs` is uninitialised when host_info fails (C14).
11. `paxos_lease_release` returns 0 with `leader_ret` unset when another host wrote the record last (C15).
12. `write_host_block` given a bad `pd` writes an uninitialised `pd_end`; `convert_sh2ex_token` does not set the
    released flag on its -EAGAIN path; a failed conversion leaves the old `r->dblock`.
13. `convert_token` allows shared to exclusive with several local shared tokens (C28).
14. acquire_token, resource.c:1777: `cmd_flags & only_orphan` tests the LVB bit (C30).
15. `purge_resource_free` does not decrement the count; `purge_resource_list` leaks `r->lvb`.
16. `res_get_lvb` copies as many bytes as the client asks for, past the block.

Host leases and watchdog
17. The join waits for the timeout found on disk; a slower contender can overlap (C17, C18).
18. The offset check in `delta_lease_renew` is off by one (C19_offset_check); a failed posix_memalign continues with NULL.
19. wdmd's close ping can come up to nine seconds after an expiry when scripts run (C21), so a host can be declared dead
    before it is reset (C20).
20. An expiry without refcount does not keep SIGTERM from disarming the device (C22_refcount_needed).
21. lockspace.c:855-862: when open_watchdog fails, `sp->wd_fd` (0) is closed instead of the connection; same at 1013.
22. A damaged host record is reported LIVE for ever (C23).
23. `delta_lease_release` writes without reading and may overwrite a later owner's record.

Events and requests
24. The same event number with other data replaces a pending event (C25); events reach hosts that were notified for
    something else (C49).
25. Equal request versions overwrite the mode, interleaved requests lower the version (C27); a re-acquire during the
    examination is signalled for the old request (C51).

Resource index
26. `search_entries` multiplies ints: overflow at 2048 entries of 1M (C31).
27. `rindex_update` and `rindex_lookup` do not check that an offset denotes an entry (C34).
28. `rindex_create` accepts a name twice (C33); a rebuild with an unreadable lease reports success (C32); after a
    crashed delete a rebuild brings the resource back.
29. `read_rindex` frees its buffer after a timeout (C45_rindex_refuted).

Strings, log, clients
30. Names are not escaped in resource strings, the version of a shared resource is lost (C35); state_to_args overflows
    beyond 2200 characters (C36); backslashes do not survive (C37).
31. A burst that fills the log ring stops the writer for ever (C38); the dump leaves out a byte (C52).
32. A short convert request leaves `cmd_active` set: the leases of a dead process stay (C39); a second REGISTER drops
    the token list; `cmd_killpath` of a dead process leaks the slot.
33. SANLK_REL_ALL with more than eight leases, or a count above eight, writes past `rem_tokens` (C40).
34. The attempts to kill can be used up before the grace period is over (C42).
35. check_new_tokens_space compares the host id, not the generation (C53); rindex operations survive the removal of
    their lockspace (C50).
36. I/O buffers: the value block buffer is reused and freed while a timed out I/O is in flight; do_linux_aio returns
    after an io_getevents error with the I/O in flight (C45).
37. A failed value block write loses the value silently, a failed read leaves uninitialised memory (C46).
38. `cmd_write_resource` takes the client's max_hosts as num_hosts, a negative one is stored as about 2^64 (C48).
39. An interrupted re-initialisation of a lockspace leaves the old lockspace recognised with mixed records (C48_crash_refuted).

Threads, history
40. `free_workers` counts workers that were signalled but have not run yet: a burst of commands starts too few workers
    (C55_refuted).
41. `thread_pool_free` waits without a loop (C56_refuted).
42. The timeout and error counters of a reused history record are not reset (C57_refuted); a history of one entry is
    never reported (C57_one_entry); cmd_renewal copies the ring under another mutex than the one it is written under.

Messages
43. `read_resource_owners` trusts num_hosts of the record and reads past its buffer (C58_refuted); it reads only the
    first disk.
44. A release with SANLK_REL_ORPHAN or SANLK_REL_RENAME and too few resources makes a worker wait for ever
    (C59_refuted); with SANLK_REL_ALL and resources their bytes are taken for headers (C59_name_refuted).
45. get_lockspaces and get_hosts count entries that were not copied when the buffer is full; the client then waits for
    more data than is sent and returns an error instead of a partial list.
46. The main loop reads a header with MSG_WAITALL: a client that sends part of a header stops the daemon's main loop.

Helper
47. `run_path` drops the pid silently when there are seven arguments, and stops silently at the first byte that is
    neither printable ASCII nor a good escape (C60_seven_args_no_pid).
48. `process_helper` compares the result of read() with -EAGAIN; a spurious wake-up closes the helper.
49. `helper_last_status` is never used to decide anything: a hung helper is not noticed.

Command line
50. `parse_arg_lockspace` does not initialise offstr: "-s l:1:p:1M" may be read as 10M or more (C63_lockspace_refuted).
51. Only the first M offset of a resource is converted; an M in a later path or an escaped colon misleads the search;
    M more than sixteen characters behind the third colon overflows the buffer, M right behind it never ends the copy
    (C63_resource_refuted, C63_path_refuted, C63_colon_refuted, C63_overflow).

Reset and fencing
52. `sanlk-resetd` answers RESETTING in lockspaces where it has not set SANLK_CONFIG_USED, if the event there did not ask
    for a reset (C64_refuted).  A failed arming of the watchdog or a failed set_event is never tried again.
53. `sanlk-reset` keeps ls_is_dead for ever and combines it with a later answer: success up to 70 seconds early
    (C65_refuted).
54. `sanlk-reset` never ends when all its connections are lost, because ls_count is not looked at and neither counter
    grows (C65_ends_refuted, C65_waits_for_ever).
55. `sanlk-reset`: a host that was reset and joined again within 90 seconds has a smaller timestamp; the unsigned
    difference wraps and the command fails with "watchdog failed to fire" (C65_alarm_refuted).
56. `sanlk-reset`: -t is missing in the getopt string; -g sets CUR_GENERATION only when a generation is given, where it
    has no effect.
57. `fence_sanlockd` takes being fenced by a third host for a duel with the host it is fencing, and goes on
    (C66_refuted); the agent on the third host sends its request only once and waits for ever.
58. `fence_sanlockd`: the request stays on disk; a second SIGUSR1 makes the winner of the duel a victim too
    (C66_duel_refuted).  The comment in the code asks whether this matters.
59. `fence_sanlockd` sleeps 10 seconds while fencing: its renewal may come 6 seconds before the expiry, inside the 10
    seconds in which wdmd closes the watchdog (C66_margin_refuted).
60. `fence_sanlock` uses an alignment of 1 MiB for the offsets, the daemon the one of the disk: on storage with 4 KiB
    sectors they use different leases.
61. wdmd: a script that cannot be started once (fork fails) is taken out of the table; the test passes and the script is
    not run again until SIGHUP (C67_refuted).  A ninth script is ignored with a debug message (C67_ninth_ignored).
62. `fence_sanlockd` removes its lock file when it ends: a process that opened the old file and one that makes a new
    file can both run (C68_fence_refuted).  wdmd has the same race but its shared memory object keeps the second out.
    That object stays when wdmd is killed: then no wdmd can start until a reboot (C68_wdmd_after_crash).
63. `run_ballot` returns the positive value of posix_memalign when memory runs out and `paxos_lease_acquire` takes it for
    success: in a retry it commits the values of the ballot it lost, and two hosts own one version (C70_refuted,
    C70_two_owners); in the first ballot it writes a leader with version 0 and no owner (C70_version_goes_back).  After
    that, or whenever a block has an lver above leader.lver + 1 (finding 5), every acquire retries for ever (C70_wedged).
64. The same mistake (positive posix_memalign result, callers test `< 0`) is in `_lease_read_one`, `paxos_read_buf`,
    `paxos_lease_init`, `delta_lease_init`, `update_rindex`, `read_rindex` and `rindex_format`: index commands report
    success without having written (C71_success_without_write_refuted) or use a null pointer (C71_null_refuted).
65. Leaks: `rindex_format` with bad flags keeps the disk open, lookup and update with a misaligned offset lose the
    buffer, `paxos_lease_init` loses it on a write error (C71_leak_refuted).
66. `rindex_update` rewrites a sector of entries without the index lease (C71_update_unlocked_refuted).
67. The counter of free resource structures is left too high when a lockspace is removed (see 15): after 128 purged
    structures the cache never holds more than one again (C73_refuted, C73_cache_shrinks).
68. `cmd_get_lvb` with a length in data2: an error reply announces that many bytes but sends none, the client waits
    (C74_announce_refuted); a length above the sector size copies memory behind the block to the client (C74_refuted, see 16).
69. `sanlock_acquire` and `sanlock_inquire` without a registered connection, `sanlock_set_lvb` and `sanlock_get_lvb`
    return without closing the new connection when the header cannot be sent (C75_connections_refuted, C75_leak).
70. `sanlock_get_lockspaces`, `sanlock_get_hosts` and `sanlock_read_resource_owners` return success and store a count
    although malloc failed and no list is stored (C75_reply_refuted).
71. `sanlock_lookup_rindex` announces `sizeof(struct sanlk_resource)` where it sends a `struct sanlk_rentry`, 64 bytes
    less (C75_request_refuted); the daemon ignores the length.
72. `sanlock_inquire` on a registered connection does not read the state string when malloc fails: the next call reads
    it as the header of its reply (C75_consumed_refuted).
73. `lockspace_reg_event` stores the descriptor before `cmd_reg_event` sends its reply, on the same connection; the
    resource thread can send an event in between. The client takes the head of the event for the reply and then reads
    an event made up of the rest and the reply (C76_stream_refuted).
74. `send_event_callbacks`, `lockspace_set_event` and `host_status_set_bit` use the struct space after giving up
    spaces_mutex; it can be freed in between. The comment at lockspace.c:2016-2032 says so (C76_lifetime_refuted);
    `lockspace_reg_event` and `lockspace_end_event` are safe because the thread that frees runs them (C76_main_safe).
75. `lockspace_reg_event` refuses a registration although an entry is free, when the resource thread gave one up
    between the scan and `_clean_event_fds`: only entries cleaned there lead to a second try (C76_refused_free).
76. `fence_sanlock` off reports an error although the victim was reset, when a second host that fences it takes the
    lease first (340-344: the owner is not the victim any more, even when the lease is free again)
    (`C77_error_refuted`).
77. `fence_sanlock` off keeps the pid of fence_sanlockd it saw first: when fence_sanlockd is started again every
    acquire fails and the loop goes on for ever, although the victim has been reset (`C77_ends_refuted`).
78. `fence_sanlock` off ends with success when the release fails; the lease of the victim stays with the local
    fence_sanlockd and the victim cannot be unfenced (`C77_left_refuted`).  The logged `$?` is that of the test.
79. `fence_sanlock` on ends with success as soon as the resource is listed, also while it is being acquired
    (`C77_on_refuted`; the script has a FIXME).
80. `fence_sanlock.in:314` calls `loggger`: a failed request is not logged, and it is not sent again in later passes.
81. `sanlock_status` receives the disks of a resource into an array of 4096 bytes on the stack: 128 + 4 * 1040 = 4288,
    so four disks, which SANLK_MAX_DISKS allows, overrun it (C78_status_refuted). The sorted output has room for them.
82. With more than 1024 entries the sorted output is refused and `sanlock_status` returns the length of the last string,
    a positive number that main does not take for an error (C78_many).
83. `sanlock_status` returns 0 whenever the connection ends and `recv_bin` ignores the results of recv: a daemon that
    dies in between gives a shortened list, or a lockspace with an empty name, with success (C78_complete_refuted,
    C78_true_refuted).
84. `sanlock_host_status` without a lockspace copies names with strdup from an array that need not end with 0 and sends
    47 characters of them: the status of a lockspace with a name of 48 characters cannot be shown (C78_hosts_refuted);
    sort_bufs has 1024 places and its end is not checked (C78_hosts_many).
85. `cmd_status` sends the whole answer with blocking sends on the main thread while it holds spaces_mutex or
    resource_mutex: a client that asks and does not read stops the main loop, and with it the renewal checks (read in
    cmd.c:2651-2703 and resource.c:133-156, not modelled as a theorem).
86. `direct_dump` takes the number of hosts of a lease, the sector size of a leader record and the end of the names of
    index entries from the disk unchecked: a damaged or foreign sector makes it read or clear memory outside of its
    buffer (C79_memory_refuted). No checksum is looked at.
87. `direct_dump` ignores the result of the read: an area that cannot be read is left out and the command ends with 0
    (C79_error_refuted). Without a size it stops at the first area that is not formatted, which is also one that was
    cleared, so that what is behind it is not shown (C79_all_refuted). A size of less than one sector is taken as no
    size (C79_within_refuted).
88. `direct_next_free` uses sector_size and align_size without initialising them when -A and -Z are not given
    (C79_free_junk_refuted); a read error and the end of the device count as free area, and the offset it prints is
    relative to the one it was given (C79_free_refuted). It takes the first colon even when it is escaped, and no M
    (C79_free_arg_refuted). It returns without closing the device when the sizes cannot be read.

89. `read_config_file` keeps the number of a setting in one variable that is neither initialised nor reset, and
    `get_val_int` leaves it alone when there is no value: "use_watchdog" or "use_watchdog =" takes the number of an
    earlier line, or of the stack in the first one (C80_stale_value_refuted, C80_junk_refuted).
90. Values are read by atoi: "use_watchdog = yes" switches the watchdog off, and numbers are cut to 32 bits, so that
    io_timeout=4294967297 is 1 and max_sectors_kb=4294967294 is -2 and accepted (C80_word_value_refuted,
    C80_cut_value_refuted, C80_max_sectors_refuted).
91. Lines are read in pieces of 127 characters and each piece is taken for a line: the end of a long comment can set
    options (C80_comment_refuted).
92. "uname" with no value sets the name to "" and the uid to 0, also where the default is the user sanlock
    (C80_no_user_refuted).

93. `get_resource` sets `r->pid` only for exclusive resources and `convert_sh2ex_token` does not set it: a forced request
    for a lease that was acquired shared, in particular one upgraded to exclusive (which other hosts can request
    normally), makes the helper call kill(0, SIGKILL). The helper is in the daemon's process group, so the daemon
    kills itself while processes hold leases (C81_shared_request_reaches_daemon). After exclusive to shared and an
    upgrade by another local holder, the former holder is signalled (C81_former_holder_signalled).
94. Adopting an orphan sets `r->pid` but keeps R_RESTRICT_SIGKILL, R_RESTRICT_SIGTERM and the kill path of the dead
    process (C81_adopted_restrictions). The program run for a request never gets the pid argument asked for with
    SANLK_KILLPATH_PID.
95. `setup_signals` leaves SIGPIPE alone. If it is not ignored by whoever started the daemon (systemd does that by
    default, a shell does not), the first message to a helper that died ends the daemon, and with it the renewals.
96. The comment at main.c:1599 says requests are not sent to a helper whose status is missing and that SIGTERM is used
    instead; neither exists. `helper_last_status` is only printed, and without helper_kill_fd nothing is signalled at
    all, so that expired leases are left to the watchdog.
97. `process_helper` failing and POLLHUP in the same round call `close_helper` twice: the second call has helper_ci -1
    and writes pollfd[-1], and close(-1) twice.
98. `run_helper` does one message and then exits on POLLHUP: the messages behind it are lost, for instance the SIGKILLs
    sent just before the daemon ends.
99. The result of fork in `run_helper` is not looked at: a program that could not be forked is never run, though the
    client has CL_RUNPATH_SENT and does not get it again.
100. A close of the helper by EPIPE takes the slot out of poll, so `helper_dead` is never called: the process stays a
    zombie and helper_pid keeps naming it.
101. The status interval is counted from the last good send but looked at only when poll returns, and every message
    restarts the timeout: reports can be 59 seconds apart.

102. `delta_lease_leader_clobber` (delta_lease.c:295-311) encodes the record into an uninitialised `leader_end`;
    `leader_record_out` does not store the checksum and the caller does not either. Every `direct write_leader -s`
    writes four bytes of stack as the checksum, and the lease is rejected from then on. For resources the checksum is
    always recomputed; `-f 1` with a checksum in the file has no effect in either case (C83).
103. `do_direct_write_leader` ignores the result of `direct_read_leader` (main.c:3649-3651). If the read fails the settings are applied
    to zeros (lockspace) or to the uninitialised `leader` of `do_paxos_action` (resource) and written (C83).
104. The sector size in the file decides where the record goes: with 4096 on a lockspace of 512 byte sectors the record
    for host 2 is written over those of hosts 9 to 16. The write also clears the bitmap in the sector of a lockspace record (C83).
105. `print_leader` prints names as they are, `read_file_leader` reads words: names with blanks do not survive;
    an empty name cannot be set; `lver 0x10` gives 0, `magic 100` is ignored silently (C83).
106. `do_paxos_action` copies the uninitialised `leader` into `leader_ret` after ACT_ACQUIRE and after any failed read;
    `direct read_leader` prints it also when the command failed (direct.c:122-255, main.c:3619-3633).
107. `host_live` (resource.c:335-394) does not compare for an older generation: if the status of the other host is from before it joined again (lease free, or an old generation long dead), a shared lease it took with its new generation is cleared and the exclusive acquire succeeds. The join takes 2 io timeouts after the record is written, the checks of the observer are at least that far apart, so there is a window of one slow read (C84).
108. `host_live` counts from the last change seen: a holder that renews just before 8 io timeouts and an observer whose next check is late by more than the fire timeout make a live holder look dead (C84).
109. A mode block with the shared flag and generation 0 is neither counted nor cleared (resource.c:623); `lockspace_thread` publishes the result of the join before it sets host_generation (lockspace.c), so a token made in between has generation 0 and could write one.
110. `main_loop` computes `empty` under spaces_mutex (main.c:908) and tests it with external_shutdown after unlocking (main.c:910). An add that completes in between, followed by SIGTERM (`sigterm_handler` sets the flag at any time) or a forced shutdown with wait (`daemon_shutdown_start` runs in a worker thread), makes the daemon end with a lockspace in use: its host id lease is left held and its watchdog connection runs out. SIGTERM is meant to be ignored while a lockspace exists (C85).
111. SIGTERM during a forced shutdown overwrites external_shutdown 2 with 1; the main loop takes that for a SIGTERM with lockspaces present and sets it to 0 (main.c:915). The lockspaces already being killed go away, the daemon goes on and the client of the forced shutdown with wait is never answered (C85).
112. A second shutdown with wait overwrites shutdown_reply_fd (cmd.c:1237-1300): the first client is never answered (C85).
113. `cmd_rem_lockspace` with SANLK_REM_UNUSED checks lockspace_is_used and then starts the removal; a lease acquired in between is lost with the lockspace and its process killed (C85).
114. A SIGTERM that is later ignored because a lockspace exists still makes adds in progress fail (lockspace.c:1224, delta_lease.c:415, 482) and acquires in progress give up (paxos_lease.c:1954).
115. With 950 lockspaces `sanlock_get_lockspaces` returns -1 and no list: the daemon's answer says -ENOSPC and the full count, the library reads that many entries and meets the end of the connection (C86, corrects 45: it does not wait).
116. When `open_watchdog` fails, `lockspace_thread` calls `disconnect_watchdog(sp)` (lockspace.c:863), but sp->wd_fd is set only by activate_watchdog: it closes descriptor 0 instead of wd_con. Each failed add leaks a connection to wdmd; after the first one descriptor 0 is handed out again, for example as the disk of a lockspace, and the next failed add closes it under that lockspace. A release (`delta_lease_release` writes without reading) can then write to the disk of another lockspace (C87).
117. main_loop: `if (rv == -1 && errno == EINTR) continue;` skips the check of the lockspaces, with the same poll timeout again. SIGHUP, SIGINT and SIGTERM are caught, so one of them more often than once a second keeps the daemon from ever checking its renewals (and from seeing the shutdown they ask for) (C88_signals_refuted). The wall clock used for the interval does no harm: a step of the clock delays a check by at most one interval (C88_checks_partial).
118. main_loop: check_buf_len is set before `malloc(check_buf_len)` is known to have worked. After a failure check_buf stays NULL for ever for this size, and the next new read calls check_other_leases(sp, NULL), which reads it: the daemon crashes (C88_buffer_refuted).
119. A renewal write that is answered with an error but lands after the next successful renewal makes the following renewal return SANLK_RENEW_DIFF, which is final: all processes of the lockspace are killed although no other host wrote (C88_late_write_refuted).
120. Python binding: a lockspace or resource name longer than 48 bytes is cut without an error, and a name with a null byte ends there. Two different names then denote the same lockspace or resource: the second acquire waits for the first, or a write of one lease overwrites the other (C89_long_name_refuted, C89_same_lockspace_refuted).
121. Python binding: the formats k, K and I and the version mask do not check the range: host_id 2^64+1 is host 1, offset -1 is 2^64-1, iotimeout 2^32 is 0 (C89_number_refuted).
122. Python binding: a path longer than 1023 bytes is cut without an error by get_alignment, write_lockspace, read_lockspace, add_lockspace, inq_lockspace and rem_lockspace; only the disks of a resource and read_resource are checked (C89_path_refuted).
123. killpath from Python: empty arguments are lost, a tab splits an argument, a non-ASCII byte ends the list, the eighth argument is dropped, a path of 127 bytes is accepted and cut to 126, and so is the 127th byte of the arguments: the program that is to stop the process is run with other arguments or is not the one given, and no error is reported (C90_empty_refuted, C90_other_args_refuted).
124. Python binding: names are read with the format y from members which need no final 0. A lockspace name of 48 bytes is reported with the bytes of the host id behind it by get_lockspaces, and with the resource name behind it by read_resource and inquire (C91_full_name_refuted, C91_resources_refuted).
125. Python binding: one lockspace whose path is not UTF-8 makes get_lockspaces raise UnicodeDecodeError for all of them (C91_one_path_refuted, C91_bad_path).
126. py_inquire: when sanlock_state_to_args fails it has already set res_count, while res_arr is still NULL; the clean-up loop `free(res_arr[i])` then reads through the null pointer. A process that holds a lease with a colon in its name crashes when it asks for its leases (C91_inquire_refuted).
127. py_get_event: an error of sanlock_get_event behind some events drops the events already read; they are gone from the socket (C91_events_refuted).
128. resources_to_list passes the 32 bit flags for the format k, which reads an unsigned long from the argument list (undefined in C; not modelled further).
129. do_write and do_read compare the result of lseek with the offset as 64 bit numbers. For the offset 2^64-1 the failed seek returns -1, which is equal, so the write goes to the current file position, for a new descriptor to byte 0 of the device, and returns success. No command checks the alignment of a lease offset, and -1 from Python is this offset (C89), so with use_aio=0 write_lockspace(offset=-1) overwrites the start of the device (C92_wrong_place_refuted, C92_read_refuted).
130. do_write repeats a write that returns 0 for ever, without a time limit (C92_ends_refuted).
131. The offset of a sector is computed modulo 2^64: for a lease area at 2^64-512 sector 1 is byte 0 of the device (C92_wrap_refuted). The seek to the start of such an area fails, so only code that does not touch sector 0 first gets there.
132. open_disks: sector sizes that differ between the disks of a lease are only logged, and open_disk does not verify the alignment of the offset although the comments above both say so (C93_verified_refuted, C93_alignment_refuted).
133. open_disks and open_disks_fd: if one disk has an open descriptor already, the error path closes the descriptors of all disks, also those which this call did not open (C93_own_refuted).
134. sanlock_read_lockspace does not compare the host id with the number of hosts of the lockspace: host id 2049 of a lockspace with 1M of 512 byte sectors is read from what follows it, and if that is another lockspace the call succeeds with the name of the other (C94_range_refuted).
135. sanlock_read_lockspace: a wrong sector size given by the caller is believed. Host id 2 with SANLK_LSF_SECTOR4K on a lockspace with 512 byte sectors is answered with the lease of host id 9, although the comment above delta_read_lockspace says that the hint does not matter (C94_hint_refuted).
136. sanlock_read_resource reads the first disk only. It reports an old version though a majority of the disks has a later one, and fails if the first disk is missing though a majority is there (C94_stale_refuted, C94_first_disk_refuted).
137. sanlock_read_resource: a record with an unknown sector size leaves the size flags of the caller in the result (C94_unknown_size_refuted).
138. cmd_read_lockspace and cmd_read_resource: when the request breaks off, the reply carries a structure from the stack that was never set (C94_stack_refuted).
139. resource_thread counts the time of the next attempt from the start of the attempt: one timeout after the first, two after the later ones (resource.c:2512-2521). An attempt on a dead disk lasts at least that long, so it is due again at once, and as it comes before them in the list all older releases, and every examination, wait until the disk answers (C96_starvation_refuted).
140. A request to examine a resource is lost if its holder dies before the thread comes to it and another process adopts the lease: the flag of the resource is still set but nothing tells the thread (C96_adopt_refuted).
141. An examination whose read fails is not repeated: a request for the lease is not seen until the next call (C96_examine_again_refuted).
142. At the end of the daemon the resource thread gives up the releases that wait for their next attempt, also those whose time has come since the last wake-up (C96_exit_refuted).
143. A client that sends a command ahead and ends can free its slot while a command of another connection works for it: process 100 sends a request and a status request behind it, another connection has a release for process 100 running, process 100 ends. The slot is kept for the release, but when the first answer is sent the status request is read and closes the slot. The next process to connect gets the slot, the end of the release clears its cmd_active, and two acquires work for it at once (C97_pipelined_refuted).
144. A command with a newer major version, an unknown number, a wrong magic number, or from a restricted connection is neither answered nor is the connection closed: the client waits for ever (main.c:1263-1285, C97_no_answer_refuted).
145. A process with two registered connections: release, inquire and convert with its pid reach the connection in the lower slot only; leases of the other are not found (main.c:1113-1124, C97_two_connections_refuted).
146. A registration for which there is no memory leaves the connection open and registered without a table for leases; the client gets no answer, and an acquire with its pid is taken and dereferences NULL (C97_register_refuted).
147. sanlock_examine with a lockspace that has a name and no disk path (client.c:1422-1432) does not examine the lockspace: with a resource given as well it examines the resource, without one it sends the header and then fails on a null pointer; the daemon waits for a body until the connection is closed. The daemon would need the name only (C98_examine_refuted).
148. get_hosts, set_config, reg_event, end_event and set_event copy the name with strncpy; a name of more than 48 bytes is cut without an error and stands for another lockspace, whose events or configuration are then changed (C98_name_refuted).
149. The daemon does not end the disk paths it receives from unregistered connections: with a path of 1024 bytes without 0 the bytes of the offset become part of the path that is opened (C98_path_refuted).
150. sanlock_lookup_rindex announces a sanlk_resource and sends a sanlk_rentry (client.c:1680-1683): the length in the header is 64 bytes too large. The daemon does not look at it (C98_length_refuted).
151. `_open_watchdog` compares the timeout the device reports with set_timeout, into which WDIOC_SETTIMEOUT has written the timeout the driver chose (wdmd/main.c:459-482). The comparison always succeeds: asked for 10 seconds, a driver that rounds to 16 is opened, enabled and petted with 16; the client sees 16 and gives up, the device stays open and armed (C99_open_refused_refuted). Together with the leaked connection of the failed add_lockspace it stays so until sanlock ends. `_probe_dev` compares with the right value.
152. wdmd -p and the daemon choose differently: the daemon takes the first device that reports a timeout, also one that cannot be set; every open_watchdog then fails although the device the probe found would do (C99_agree_refuted).
153. wdmd starts although the device it looked at was not disarmed (the write of "V" failed, close_watchdog only logs): nobody pets it and the machine is reset after its timeout (C99_armed_refuted).
154. wdmd -t does not compare the timeout the device reports at the end with the one that was set (1254-1262): it succeeds with a device that ignores the setting (C99_try_refuted).
155. wdmd_open_watchdog with a timeout of 0 returns success though wdmd refuses it, and also if wdmd is gone; wdmd_status returns success with indeterminate values if wdmd closes the connection, as h is not cleared and a recv of 0 is not an error (C99_zero_refuted).
156. A path of 64 or more bytes given with wdmd -w is cut without a message; the cut path does not exist and another device is used (C99_path_refuted).
157. unregister_ls and register_ls of sanlk-resetd do not clear revents (sanlk_resetd.c:269-302): if sanlock was restarted and "sanlk-reset reg name" comes in the same wakeup as the POLLHUP of the old connection, the new registration is ended in the same pass (713-725) and the lockspace is not watched (C100_reg_refuted).
158. If get_events fails and the connection also hung up, sanlk-resetd unregisters the slot twice: sanlock_end_event(-1, NULL) and ls_count is one too small (C100_count_refuted); the same if "end name" and the hangup come together (C100_count_end_refuted).
159. sanlk-resetd with 64 lockspaces drops "reg" without a message and sanlk-reset prints "Updated" (C100_full_refuted).
160. A lockspace given twice to sanlk-resetd is watched twice, and one "end" ends one of them (C100_end_refuted).
161. A lockspace name with a blank is cut by the sscanf of process_update, another lockspace is registered or ended (C100_message_refuted).
162. A daemon that is not root reports set_max_sectors_kb as soon as the message to the helper is sent (lockspace.c:85-111); whether the helper could write is not known (C101_reported_refuted).
163. The comment of set_max_sectors_kb says "at least do 1MB io's" (diskio.c:134-138), but a device with max_sectors_kb 4096 is set to 1024 by the default setting, for all its users, and not set back when the lockspace ends (C101_lowers_refuted).
164. If the lease size is more than the hardware takes, 1024 is set and not the largest possible value (lockspace.c:696-710, C101_largest_refuted); the test for a request below 1024 there can never be true.
165. read_sysfs_uint reads 32 bytes into a buffer of 32 and calls strlen (diskio.c:36-50); sysfs has no such long value (C101_fits_refuted).
166. fence_sanlockd exits with 0 if wdmd_connect, sanlock_register or sanlock_direct_align fails: rv still has the result of an earlier call (fence_sanlockd.c:623-627, 641-645, 662-666; C102_exit_refuted).
167. A path with blanks is cut by the sscanf of wait_options; "/dev/x -i 5" with host id 3 starts the daemon with /dev/x and host id 5 (C102_blank_refuted).
168. A path of 4086 characters given to fence_sanlockd -s cuts the host id: 12 becomes 1 (C102_cut_refuted).
169. A negative host id passes the tests of fence_sanlockd (549, 337; C102_negative_refuted).
170. A path of 1024 to 4095 characters is written by sprintf over the end of the 1024 bytes of sanlk_disk.path, and -p with 4096 or more over the end of lease_path (660, 669, 700, 545; C102_path_refuted).
171. check_fence_agent compares the process name with the beginning `fence_sanlock`, which `fence_sanlockd` has too: a stale file whose pid was reused by the daemon is taken for a running agent (C103_stale_refuted).
172. check_fence_agent stops at the first running agent: with two agents the duel with the other victim is decided wrongly, and both hosts survive (C103_several_refuted; the code says it is meant for two nodes).
173. `%[^\n]` in check_fence_agent has no width: a line of 512 or more characters after the host id is written past `rest` (C103_over_refuted); the agent's own lines are far shorter.
174. sanlock_socket_address cuts the path at 106 characters without an error: two daemons with different long run directories have different lock files but one socket, and the second unlinks the socket of the first (C104_long_refuted).
175. setup_uid_gid only logs when setgid or setuid fails: the daemon goes on as root (C104_user_refuted).
176. do_daemon does not keep the result of setup_token_manager and tests the old rv: without the resource thread it serves, and in the end joins a thread that was never made (C104_tokens_refuted).
177. do_daemon returns 0 when eventfd or client_add for the helper fails (C104_exit_refuted).
178. delta_lease.c:451 writes 47 characters of the host name, line 367 compares 48: a host whose made up name has 48 characters (uuid, dot and a node name of 11 or more) never takes the fast way back to its own lease and waits as for a foreign one (C105_own_refuted).
179. By the same cut, a host with a given name of 47 characters takes the lease of a host whose name continues it for its own, and writes without waiting (C105_other_refuted).
180. get_rand multiplies in float: the 64 largest values of random() become 2^31 and the result is b + 1, one above the documented bound (C106_exact, C106_delay_refuted). The delay is then 1000001 microseconds; POSIX allows usleep to refuse 1000000 and more.

## Mutation tests

`seeded/LOG.jsonl` has one line per wrong program tried: the definition, the edit, the claim it breaks, and the
theorems that no longer prove.  "tightened" names theorems that were made stronger because an edit survived.
Edits that break no claim were tried as a control and are marked so.
