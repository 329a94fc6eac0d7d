{"id": "C01", "title": "Lease records survive the disk byte-for-byte", "statement": "A leader record written to storage by any host and read back by any other host has exactly the same field values, whatever the values are, and the byte layout is the documented little-endian one.", "quantifier": "every leader record whose fields fit their C types (2^1600 values), every trailing content of the sector", "why_tests_cant": "The field space is astronomically large; tests check a few records.", "anchors": ["src/ondisk.c:leader_record_in", "src/ondisk.c:leader_record_out", "src/leader.h"]}
{"id": "C02", "title": "Ballot blocks, mode blocks and request records survive the disk and do not overlap", "statement": "Per-host ballot blocks, per-host shared-mode blocks and request records read back exactly as written, and inside a host's sector the ballot block and mode block never clobber each other; the leader record never overlaps the host-id bitmap.", "quantifier": "every value of every field of the three record kinds", "why_tests_cant": "Requires all field values and all byte positions.", "anchors": ["src/ondisk.c", "src/paxos_dblock.h", "src/mode_block.h", "src/leader.h"]}
{"id": "C03", "title": "Corruption of a lease record or ballot block is detected", "statement": "If any single byte - or any run of up to four adjacent bytes - of the checksummed part of a stored record is altered, the checksum comparison fails, so the record is reported as corrupt rather than used.", "quantifier": "every record content, every position, every replacement value", "why_tests_cant": "256^168 contents times all corruptions.", "anchors": ["src/crc32c.c:crc32c", "src/paxos_lease.c:leader_checksum", "src/paxos_lease.c:dblock_checksum", "src/delta_lease.c:verify_leader"]}
{"id": "C04", "title": "A lease record is only trusted if it belongs to the requested lease", "statement": "Any leader record accepted by a resource-lease read carries the resource-lease magic, a compatible major version, the requested lockspace and resource names, room for the reading host and a correct checksum; and every such record is accepted.", "quantifier": "every record and every requested lockspace/resource/host id", "why_tests_cant": "Input space is every 512-byte sector.", "anchors": ["src/paxos_lease.c:_verify_leader"]}
{"id": "C05", "title": "No two pieces of lease metadata share a sector", "statement": "For every supported sector size and lease area size the leader sector, the request sector, the sectors of all supported host ids and the value-block sector are pairwise different and all lie inside the lease's own area.", "quantifier": "all supported sector/area size combinations, all host ids up to the supported maximum", "why_tests_cant": "Whole-parameter-space arithmetic; an overlap only shows for particular combinations.", "anchors": ["src/sizeflags.c:size_to_max_hosts", "src/paxos_lease.c:write_dblock", "src/resource.c:LVB_SECTOR", "src/resource.c:write_lvb"]}
{"id": "C06", "title": "Size flags and sizes translate faithfully", "statement": "Converting a supported sector/area size to flags and back yields the same sizes and the right maximum number of hosts, and any flag combination accepted by the API denotes a supported size combination.", "quantifier": "all 32-bit flag words and all integer sizes", "why_tests_cant": "2^32 flag words.", "anchors": ["src/sizeflags.c:sizes_from_flags", "src/sizeflags.c:size_to_max_hosts"]}
{"id": "C07", "title": "Ballot numbers are unique per host and always increase", "statement": "Two different hosts never use the same ballot number for a lease, and the ballot number a host starts with is larger than every ballot number it saw on disk and than every one it used before in this acquire.", "quantifier": "all host ids, all on-disk ballot histories, any number of retries", "why_tests_cant": "Unbounded retries and arbitrary on-disk histories.", "anchors": ["src/paxos_lease.c:paxos_lease_acquire (next_lver/our_mbal)"]}
{"id": "C08", "title": "Any two disk majorities intersect", "statement": "Whenever two groups of disks both count as a majority for a lease, some disk belongs to both, so decisions made through different disks cannot miss each other.", "quantifier": "any number of disks, any pair of subsets", "why_tests_cant": "Quantifies over all subsets of any size.", "anchors": ["src/diskio.c:majority_disks"]}
{"id": "C09", "title": "One owner per lease version", "statement": "For each lease version (lver), all hosts that complete the ballot protocol and go on to record an owner record the same owner (host id and generation), no matter how the hosts' disk reads and writes interleave, how many disks fail to a minority, or where hosts crash and restart.", "quantifier": "any number of hosts and disks, every interleaving of individual sector reads/writes, every crash/restart point, unbounded ballot retries", "why_tests_cant": "Infinite interleavings; races need exact timing.", "anchors": ["src/paxos_lease.c:run_ballot", "src/paxos_lease.c:paxos_lease_acquire", "src/paxos_lease.c:write_dblock"]}
{"id": "C10", "title": "The recorded owner asked for the lease", "statement": "The owner recorded for a lease version is a host and generation that itself started an acquire for that version.", "quantifier": "every interleaving, any number of hosts, disks and crashes", "why_tests_cant": "Needs all executions.", "anchors": ["src/paxos_lease.c:run_ballot"]}
{"id": "C11", "title": "An exclusive lease has at most one live holder", "statement": "At no time do two live hosts both have a successful, unreleased exclusive acquire of the same resource.", "quantifier": "every interleaving of acquires, releases, retries, host deaths and takeovers by any number of hosts over any number of lease versions", "why_tests_cant": "Violations need specific multi-host schedules.", "anchors": ["src/paxos_lease.c:paxos_lease_acquire", "src/paxos_lease.c:paxos_lease_release", "src/resource.c:acquire_token", "src/resource.c:_release_token"]}
{"id": "C12", "title": "Acquire with a specified version is version-exact", "statement": "An acquire that specifies a lease version only starts competing for the lease if the version on disk equals the specified one; otherwise it fails with the version error and leaves the lease untouched.", "quantifier": "all versions, all lease states", "why_tests_cant": "All on-disk states.", "anchors": ["src/paxos_lease.c:paxos_lease_acquire (PAXOS_ACQUIRE / acquire_lver)"]}
{"id": "C13", "title": "A lease of a live host is never taken over", "statement": "While another host owns the lease and keeps renewing, an acquire either fails or keeps waiting; it competes for the lease only if the lease is free, is the caller's own, the owner's host id is free or has moved to another owner or generation, the owner released its ballot block, or the owner showed no renewal for longer than its dead time.", "quantifier": "every sequence of observed host-lease states and clock values, unbounded waiting", "why_tests_cant": "Unbounded observation histories.", "anchors": ["src/paxos_lease.c:paxos_lease_acquire (liveness loop)"]}
{"id": "C14", "title": "The dead-owner wait uses the owner's own timeout", "statement": "Before taking a lease from a silent owner, the waiter waits more than eight times the owner's configured I/O timeout plus the watchdog timeout.", "quantifier": "all pairs of I/O timeouts of waiter and owner, all host-status cache states", "why_tests_cant": "Depends on the relation between configuration of two hosts and cache state.", "anchors": ["src/lockspace.c:host_info", "src/paxos_lease.c:paxos_lease_acquire", "src/timeouts.c:calc_host_dead_seconds"]}
{"id": "C15", "title": "Release frees only one's own lease", "statement": "A release marks the lease free only if the record it read shows the releasing host, generation and version as the owner and last writer; otherwise the lease record is left as it was and, when it is a version or owner mismatch, an error is returned.", "quantifier": "every on-disk record and every releasing host", "why_tests_cant": "All record contents.", "anchors": ["src/paxos_lease.c:paxos_lease_release"]}
{"id": "C16", "title": "A multi-disk lease read returns a verified majority record", "statement": "When reading a lease that spans several disks succeeds, the record returned passed verification on some disk and an identical record was found on a majority of the disks.", "quantifier": "any number of disks, any content on each", "why_tests_cant": "Needs crafted combinations of corrupted and valid disks.", "anchors": ["src/paxos_lease.c:_leader_read_num"]}
{"id": "C17", "title": "Two hosts cannot both obtain the same host id", "statement": "If two hosts with different names concurrently join a lockspace with the same host id, at most one join succeeds, provided each disk operation takes effect within the I/O timeout.", "quantifier": "all start times, all I/O delays within the bound, all initial lease states, any number of contenders", "why_tests_cant": "Depends on real-time races of I/O.", "anchors": ["src/delta_lease.c:delta_lease_acquire"]}
{"id": "C18", "title": "Host generations strictly increase", "statement": "Each successful join of a host id obtains a generation larger than that of every earlier join of the same host id, across releases, crashes and takeovers.", "quantifier": "every history of joins, renewals, releases and crashes", "why_tests_cant": "Unbounded histories.", "anchors": ["src/delta_lease.c:delta_lease_acquire", "src/delta_lease.c:delta_lease_renew", "src/delta_lease.c:delta_lease_release"]}
{"id": "C19", "title": "A renewal succeeds only on an untouched host lease", "statement": "A host-id renewal reports success only if the lease on disk is still owned by the same name, id and generation and - after a previous success - is byte-identical to what this host last wrote; otherwise it fails without writing.", "quantifier": "every on-disk record, every previous state", "why_tests_cant": "All on-disk contents.", "anchors": ["src/delta_lease.c:delta_lease_renew"]}
{"id": "C20", "title": "A host declared dead has really been reset", "statement": "If an observer saw no change in a host's lease timestamp for longer than eight I/O timeouts plus the watchdog timeout, then the machine's watchdog had expired, or its processes had given up all leases in that lockspace, before the observer's wait ended.", "quantifier": "all renewal histories, all I/O delays, all check phases of the watchdog daemon, all observer sampling times", "why_tests_cant": "Real-time relation across two machines and two daemons.", "anchors": ["src/timeouts.h", "src/lockspace.c:lockspace_thread", "src/watchdog.c", "wdmd/main.c:test_loop", "src/paxos_lease.c:paxos_lease_acquire"]}
{"id": "C21", "title": "The watchdog is not fed past a client's expiry", "statement": "Once a lockspace's expiry time registered with wdmd passes without renewal, wdmd generates no watchdog keepalive (including the one implied by closing the device) after that expiry time.", "quantifier": "all client expiry times, all test times, any number of clients", "why_tests_cant": "Timing races over arbitrary schedules.", "anchors": ["wdmd/main.c:test_clients", "wdmd/main.c:test_loop"]}
{"id": "C22", "title": "The watchdog is never disarmed while a lockspace depends on it", "statement": "wdmd cleanly disarms the watchdog only when no client is active: not on SIGTERM, not when a client connection dies with an expiry set, not when some other client goes away.", "quantifier": "every sequence of client connects, registrations, renewals, disconnects, deaths, signals and test ticks", "why_tests_cant": "Unbounded event histories.", "anchors": ["wdmd/main.c:test_loop", "wdmd/main.c:client_pid_dead", "wdmd/main.c:process_signals", "wdmd/main.c:process_connection"]}
{"id": "C23", "title": "Reported host states match the renewal history", "statement": "The state reported for a host is FREE exactly when its lease is free; DEAD only if no lease change was seen for longer than the dead time, FAIL only if longer than the failure time; LIVE only if a renewal was seen within the failure time (or it is the local host).", "quantifier": "every sequence of lease observations and clock values", "why_tests_cant": "Unbounded histories.", "anchors": ["src/lockspace.c:get_host_flag", "src/lockspace.c:check_other_leases"]}
{"id": "C24", "title": "A host event or request notification reaches exactly the chosen hosts", "statement": "Marking host h in the notification bitmap makes host h - and no other host - see its bit when it reads the sender's lease; every supported host id has its own bit inside the bitmap.", "quantifier": "all host ids, all sets of marked hosts", "why_tests_cant": "2^2000 bitmaps.", "anchors": ["src/lockspace.c:set_id_bit", "src/lockspace.c:test_id_bit", "src/lockspace.c:create_bitmap_and_extra"]}
{"id": "C25", "title": "A pending host event is never silently replaced", "statement": "While a previously set event for a host is still within its notification period, setting a different event for that host without the replace flag fails with busy and leaves the pending event unchanged.", "quantifier": "all event values, flags, times and sequences of set-event calls", "why_tests_cant": "Unbounded call histories.", "anchors": ["src/lockspace.c:lockspace_set_event"]}
{"id": "C26", "title": "Lockspaces are unique per daemon", "statement": "At any time no two lockspaces known to the daemon (joining, joined or leaving) have the same name or the same disk location.", "quantifier": "every sequence of add/remove/complete operations", "why_tests_cant": "Unbounded histories.", "anchors": ["src/lockspace.c:add_lockspace_start", "src/lockspace.c:rem_lockspace_start", "src/lockspace.c:_search_space"]}
{"id": "C27", "title": "Requests never go backwards", "statement": "A request record on disk is overwritten only by a request for a strictly newer lease version, and only if the requested version is newer than the lease's current one (or equals the owner's version when forced); a failing request leaves the record unchanged.", "quantifier": "every stored request and lease record, every requested version and mode", "why_tests_cant": "All states.", "anchors": ["src/resource.c:request_token"]}
{"id": "C28", "title": "Two local processes never hold the same exclusive lease", "statement": "Within one daemon a resource is held by one exclusive holder or by any number of shared holders, never both, for every sequence of acquires, releases, conversions and process deaths, although the disk protocol cannot tell two processes of one host apart.", "quantifier": "every sequence of operations by any number of processes", "why_tests_cant": "Unbounded histories.", "anchors": ["src/resource.c:acquire_token", "src/resource.c:_release_token", "src/resource.c:release_token_async", "src/resource.c:convert_token"]}
{"id": "C29", "title": "Shared and exclusive modes exclude each other across hosts", "statement": "While some live host holds a resource in shared mode, no other host's exclusive acquire succeeds, and while a host holds it exclusively no other host's shared acquire succeeds.", "quantifier": "every interleaving of shared/exclusive acquires, releases and host deaths", "why_tests_cant": "Races across hosts.", "anchors": ["src/resource.c:acquire_token", "src/resource.c:clear_dead_shared", "src/paxos_lease.c:run_ballot (check_mode_block)"]}
{"id": "C30", "title": "Orphan-only acquire never creates a new lease", "statement": "An acquire with the orphan-only flag either adopts an existing orphan of the resource or fails with no-entry; it never acquires a fresh lease from disk.", "quantifier": "all flag words and all daemon list states", "why_tests_cant": "Combination of flags and states.", "anchors": ["src/resource.c:acquire_token", "src/sanlock_resource.h:SANLK_ACQUIRE_ORPHAN_ONLY"]}
{"id": "C31", "title": "Resource index slots map to distinct lease areas", "statement": "Two different entries of a resource index always refer to different, non-overlapping lease areas located after the index, for every entry number the index supports.", "quantifier": "all entry numbers up to the index maximum, all supported sizes, all index offsets", "why_tests_cant": "Only shows at large indices.", "anchors": ["src/rindex.c:search_entries", "src/rindex_disk.h"]}
{"id": "C32", "title": "The resource index is crash consistent", "statement": "Whatever the point at which a host crashes while creating, deleting or updating entries, afterwards every name found in the index refers to a lease area initialised for that name, and rebuilding the index recovers every resource present on disk.", "quantifier": "every sequence of operations and every crash point within them", "why_tests_cant": "All crash points of all histories.", "anchors": ["src/rindex.c:rindex_create", "src/rindex.c:rindex_delete", "src/rindex.c:rindex_rebuild"]}
{"id": "C33", "title": "Index create, lookup and delete agree", "statement": "After a successful create of a name, looking the name up yields the offset create returned; other names' entries are unaffected; after delete the name is not found (if it was created once).", "quantifier": "every index content, every name", "why_tests_cant": "All index contents.", "anchors": ["src/rindex.c:rindex_create", "src/rindex.c:rindex_lookup", "src/rindex.c:rindex_delete", "src/rindex.c:search_entries"]}
{"id": "C34", "title": "Index update and lookup stay inside the index", "statement": "An update or lookup by offset only touches the entry area of the index, whatever offset the caller passes; an offset that does not denote an entry is rejected.", "quantifier": "all 64-bit offsets", "why_tests_cant": "2^64 offsets.", "anchors": ["src/rindex.c:rindex_update", "src/rindex.c:rindex_lookup"]}
{"id": "C35", "title": "Resource strings round-trip", "statement": "Converting a resource to its string form and parsing it back gives the same names, disks, offsets, version and mode.", "quantifier": "all resource structures", "why_tests_cant": "Unbounded strings.", "anchors": ["src/client.c:sanlock_res_to_str", "src/client.c:sanlock_str_to_res"]}
{"id": "C36", "title": "String parsers never write outside their buffers", "statement": "Parsing any NUL-terminated input string as a resource, path, or resource state list never writes outside the destination buffers.", "quantifier": "all input strings of any length", "why_tests_cant": "Unbounded inputs.", "anchors": ["src/client.c:sanlock_str_to_res", "src/client.c:sanlock_state_to_args", "src/client.c:sanlock_path_export", "src/client.c:sanlock_path_import"]}
{"id": "C37", "title": "Path escaping is lossless", "statement": "Importing an exported path gives back the original path.", "quantifier": "all paths", "why_tests_cant": "Unbounded strings.", "anchors": ["src/client.c:sanlock_path_export", "src/client.c:sanlock_path_import"]}
{"id": "C38", "title": "Logging never stalls permanently", "statement": "After any burst of messages, once the log writer catches up, later messages are written again; every accepted message is written in order exactly once.", "quantifier": "every interleaving of logging calls and writer steps", "why_tests_cant": "Needs exact fill level of a 4096-entry ring under concurrency.", "anchors": ["src/log.c:_log_save_ent", "src/log.c:log_thread_fn"]}
{"id": "C39", "title": "When a registered process dies its leases are released", "statement": "For every interleaving of a client's commands with its death, once no command is running for it, every lease it held is released (or orphaned/queued for release) and its slot is freed exactly once.", "quantifier": "every interleaving of commands, message failures and process death", "why_tests_cant": "Races between daemon threads.", "anchors": ["src/main.c:client_pid_dead", "src/cmd.c:cmd_acquire", "src/cmd.c:cmd_release", "src/cmd.c:cmd_inquire", "src/cmd.c:cmd_convert", "src/cmd.c:cmd_killpath"]}
{"id": "C40", "title": "Releasing all leases is memory safe", "statement": "Releasing all of a process's leases works for any number of leases the process was allowed to acquire.", "quantifier": "any number of held leases", "why_tests_cant": "Counts beyond a fixed buffer.", "anchors": ["src/cmd.c:cmd_release", "src/cmd.c:cmd_acquire"]}
{"id": "C41", "title": "Multi-resource acquire is all or nothing", "statement": "An acquire of several resources either gives the process all of them or leaves it holding none of them; a failure releases exactly the ones obtained.", "quantifier": "any list of resources, any failing position, death or lockspace failure at any point", "why_tests_cant": "All failure points.", "anchors": ["src/cmd.c:cmd_acquire", "src/cmd.c:release_new_tokens"]}
{"id": "C42", "title": "Killing escalates to SIGKILL and respects restrictions", "statement": "Once a lockspace fails, each process using it is eventually sent SIGKILL (unless it restricted SIGKILL) if it does not exit, and a process that restricted SIGKILL is never sent SIGKILL.", "quantifier": "every timing of kill attempts and renewals, all grace settings and restriction flags", "why_tests_cant": "Unbounded timing.", "anchors": ["src/main.c:kill_pids", "src/main.c:all_pids_dead", "src/main.c:send_helper_kill"]}
{"id": "C43", "title": "Resource owner test is exact", "statement": "The owner test says the resource is possibly in use exactly when some listed owner's host is listed with the same generation and not known dead or free.", "quantifier": "all owner and host lists", "why_tests_cant": "Unbounded lists.", "anchors": ["src/client.c:sanlock_test_resource_owners"]}
{"id": "C44", "title": "A lockspace is only left when nothing uses it", "statement": "The daemon disarms the watchdog for a lockspace and releases its host id only when no live registered process holds a lease in it.", "quantifier": "every interleaving of acquires, deaths, releases, kill rounds and main-loop checks", "why_tests_cant": "Races between threads.", "anchors": ["src/main.c:main_loop", "src/main.c:all_pids_dead", "src/cmd.c:check_new_tokens_space", "src/lockspace.c:lockspace_thread"]}
{"id": "C45", "title": "I/O buffers are not freed while the kernel may still write to them", "statement": "A buffer handed to asynchronous I/O is freed or reused only after that I/O completed or was cancelled, and is freed at most once.", "quantifier": "every interleaving of submissions, completions, timeouts, cancellations and errors", "why_tests_cant": "Kernel timing dependent.", "anchors": ["src/diskio.c:do_linux_aio", "src/diskio.c:_write_sectors", "src/diskio.c:read_sectors", "src/diskio.c:read_iobuf_reap", "src/rindex.c:read_rindex"]}
{"id": "C46", "title": "The value block follows the lease", "statement": "The value block a new holder reads on acquire is the last value a previous holder set before a completed release, unaffected by other leases.", "quantifier": "every sequence of acquire/set/release over several leases, all sizes", "why_tests_cant": "Histories and all sizes.", "anchors": ["src/resource.c:res_set_lvb", "src/resource.c:res_get_lvb", "src/resource.c:write_lvb", "src/resource.c:read_lvb"]}
{"id": "C47", "title": "Timeouts are ordered safely", "statement": "For every positive I/O timeout: renewal interval < warning time < failure time < dead time, and the dead time exceeds the failure time by exactly the watchdog timeout.", "quantifier": "all I/O and watchdog timeouts", "why_tests_cant": "All integers.", "anchors": ["src/timeouts.c", "src/timeouts.h"]}
{"id": "C48", "title": "Initialising leases creates exactly valid free leases", "statement": "After initialising a resource (or lockspace) every supported host's read of it is accepted as a valid free lease with that name, whatever was on the storage before; after a crash in the middle of lockspace initialisation the lockspace is not recognised.", "quantifier": "all previous storage contents, all sizes, every crash point", "why_tests_cant": "All contents and crash points.", "anchors": ["src/paxos_lease.c:paxos_lease_init", "src/delta_lease.c:delta_lease_init"]}
{"id": "C49", "title": "An event reaches the hosts it was set for and no others", "statement": "An event accepted by set_event for a host is delivered to that host, with its own event number and data, by every lease renewal in the following notification period unless it is cleared or replaced; a host for which no event was set receives none.", "quantifier": "all sequences of set_event calls, resource requests and renewals, all hosts, all times", "why_tests_cant": "delivery depends on the interleaving and timing of calls, requests and renewals over an unbounded history", "anchors": ["src/lockspace.c:lockspace_set_event", "src/lockspace.c:host_status_set_bit", "src/lockspace.c:create_bitmap_and_extra", "src/lockspace.c:check_other_leases"]}
{"id": "C50", "title": "One resource index operation at a time per lockspace", "statement": "While a resource index operation runs in a lockspace, no other index operation starts in it and the lockspace is not left.", "quantifier": "all interleavings of index operations with joins, removals and lease failures", "why_tests_cant": "needs every interleaving of concurrent operations with lockspace failure and re-join", "anchors": ["src/lockspace.c:lockspace_begin_rindex_op", "src/lockspace.c:lockspace_clear_rindex_op", "src/lockspace.c:rem_lockspace_start", "src/main.c:main_loop"]}
{"id": "C51", "title": "A request signals only an older holder", "statement": "A daemon signals (or runs the kill path of) a process because of an on-disk request only if the request is valid, carries a mode, and asks for a version newer than the lease version that process holds when the action is taken, and never with a signal the process restricted.", "quantifier": "every request record, every held resource, every release and re-acquire between reading the request and acting", "why_tests_cant": "The window between reading the request and acting is a race; all records and flags.", "anchors": ["src/resource.c:resource_thread_examine", "src/resource.c:do_request"]}
{"id": "C52", "title": "The log dump holds the most recent bytes", "statement": "Whatever is logged, no write leaves the dump buffer, and the dump sent to a client is exactly the last bytes logged, in order (all of them if fewer than the buffer size); every formatted line fits its line buffer.", "quantifier": "all sequences of log lines of any lengths, all buffer sizes", "why_tests_cant": "Unbounded histories around the wrap point of a 1 MB buffer.", "anchors": ["src/log.c:_log_save_dump", "src/log.c:copy_log_dump", "src/log.c:log_level"]}
{"id": "C53", "title": "A lease handed out belongs to the current lockspace membership", "statement": "Every lease in the hands of a live registered process was acquired with the host id and the generation the host is renewing in that lockspace now; otherwise other hosts would take its owner for dead.", "quantifier": "every interleaving of acquires of any duration with lockspace failure, removal and re-adding, for any number of processes", "why_tests_cant": "needs a lockspace to be removed and added again while an acquire is stalled between its disk writes and the end of the command", "anchors": ["src/cmd.c:120-154", "src/cmd.c:398-418", "src/cmd.c:502-548", "src/main.c:844-862"]}
{"id": "C54", "title": "Every accepted client command is run exactly once", "statement": "A command that thread_pool_add_work accepted is taken by exactly one worker thread, none is lost or run twice, and as long as the pool is not shut down no state is quiet while an accepted command was not run; the number of worker threads never exceeds max_workers.", "quantifier": "every interleaving of additions, worker steps, spurious wake-ups and thread starts, any min and max number of workers", "why_tests_cant": "Lost wake-ups need a particular interleaving of the condition variable with worker start and wait.", "anchors": ["src/main.c:936-1048"]}
{"id": "C55", "title": "A command does not wait for another one while the pool may grow", "statement": "Whenever an accepted command is waiting, all existing workers that could take it are busy only if the pool has max_workers threads; otherwise a worker that is not running another command will take it.", "quantifier": "every interleaving of additions and worker steps", "why_tests_cant": "Needs several commands to arrive between the signal and the wake-up of a worker.", "anchors": ["src/main.c:1001-1034"]}
{"id": "C56", "title": "The pool is shut down only after the accepted commands were run", "statement": "When thread_pool_free returns, no worker thread is left and every command accepted before was run.", "quantifier": "every interleaving, including spurious wake-ups of condition variables", "why_tests_cant": "A spurious wake-up cannot be provoked by a test.", "anchors": ["src/main.c:936-998"]}
{"id": "C57", "title": "The renewal history shows the last renewals and the failures after each", "statement": "The history sent to a client is, oldest first, exactly the last N successful renewals, each with its time and latencies and the number of timeouts and errors between it and the next one.", "quantifier": "all sequences of renewal results of any length, all history sizes of at least two", "why_tests_cant": "The wrong counters appear only once the ring has wrapped (one hour by default) and only after failures.", "anchors": ["src/lockspace.c:622-657", "src/cmd.c:2766-2850"]}
{"id": "C58", "title": "The owners reported for a resource are those recorded in its lease area", "statement": "sanlock_read_resource_owners returns the version of the leader record, and exactly the owner of the record if it is held and the hosts whose mode block has the shared flag, each once with the recorded generation; it never reads outside of the buffer.", "quantifier": "all contents of the lease area, all sector and align sizes a client can give", "why_tests_cant": "The loop bound comes from the disk; a test would have to write every possible num_hosts.", "anchors": ["src/resource.c:157-327", "src/paxos_lease.c:1146-1177"]}
{"id": "C59", "title": "On a registered connection the daemon executes exactly the commands that were called", "statement": "Given the bytes the library sends for a call, the daemon executes that command and no other, and then waits for the next header, whether the command is refused, fails half way or succeeds.", "quantifier": "all calls with all arguments the library accepts, all points at which the daemon gives up", "why_tests_cant": "The stream is out of step only for some combinations of flags, counts and failures, and what happens then depends on the bytes of the names.", "anchors": ["src/client.c:1031-1390", "src/main.c:420-455", "src/main.c:1240-1352", "src/cmd.c:191-385", "src/cmd.c:597-698"]}
{"id": "C60", "title": "The program that makes a process give up its leases is run with the configured arguments", "statement": "If a process has registered a program and arguments, the helper runs that program with exactly these arguments and, when asked to, the pid as the last one; it never reads or writes outside of its buffers, whatever the two buffers of the message hold.", "quantifier": "all contents of the 128 byte path and argument buffers, all lists of arguments that fit, with and without the pid", "why_tests_cant": "256^256 contents of the message; the parser has escapes, a limit on the number of arguments and fixed size buffers whose corner cases interact.", "anchors": ["src/helper.c:39-108", "src/client.c:1083-1117", "src/cmd.c:1972-2006", "src/main.c:118-160"]}
{"id": "C61", "title": "The state string of several resources parses back to these resources", "statement": "sanlock_state_to_args applied to the string that sanlock_args_to_state makes from any list of resources gives the same resources with the same names, disks, offsets and versions, and the string always fits the buffer that was allocated for it.", "quantifier": "all numbers of resources, all names, paths, offsets, versions and flags", "why_tests_cant": "Names and paths are arbitrary bytes; the escapes of one resource can shift the boundaries of the next.", "anchors": ["src/client.c:2105-2246"]}
{"id": "C62", "title": "A lockspace string names the lockspace it was written for", "statement": "sanlock_str_to_lockspace applied to <name>:<host_id>:<path>:<offset> gives this name, host id, path and offset, however the path is escaped as long as its colons are; no field is written beyond its size, whatever the string.", "quantifier": "all names without colon or backslash, all host ids and offsets below 2^63 in any decimal notation, all paths without backslash and all ways to escape them; all strings for the sizes", "why_tests_cant": "Unbounded strings; each character can be escaped or not.", "anchors": ["src/client.c:2248-2303", "src/client.c:1895-1916"]}
{"id": "C63", "title": "An offset given in megabytes on the command line means that many megabytes", "statement": "A lockspace or resource given on the command line with offsets followed by M is the same as the one given with the offsets in bytes; without M the argument is parsed as it is.", "quantifier": "all names, paths and escapes, all numbers of disks, all offsets below 2^63 bytes, all contents of uninitialised memory", "why_tests_cant": "The conversion looks at the text with strchr and a 16 byte buffer; whether it goes wrong depends on characters of the paths and on stack contents.", "anchors": ["src/main.c:1943-2083"]}
{"id": "C64", "title": "A host answers RESETTING only after it has made its watchdog expire", "statement": "When sanlk-resetd answers RESETTING in a lockspace, it has before been asked to reset, has successfully set its wdmd connection to expire at once, and (unless resources are used) has kept that lockspace from exiting. The watchdog is armed at most once and only on request; sysrq reboot happens only if enabled, asked for and after the delay.", "quantifier": "all options, all sequences of events in any lockspaces, registrations, lost connections, results of library calls and times", "why_tests_cant": "The order of events in several lockspaces and the failures of each call combine freely; the answer is trusted by other hosts as a fence.", "anchors": ["reset/sanlk_resetd.c:150-170", "reset/sanlk_resetd.c:309-424", "reset/sanlk_resetd.c:683-731"]}
{"id": "C65", "title": "sanlk-reset reports success only when the host has been reset, and it ends", "statement": "If sanlk-reset exits with success, the machine it asked to reset is down, given that a machine is down 70 seconds after it answered RESETTING and when it is reported dead after having answered. A host that keeps renewing its lease is reported as a failure, and only such a host is reported as one whose watchdog failed. After 300 seconds the command ends.", "quantifier": "all numbers of lockspaces, all sequences of rounds with any reports, events, lost connections and times", "why_tests_cant": "It depends on the order of reports and answers in several lockspaces over minutes, on hosts that leave and join again, and on unsigned differences.", "anchors": ["reset/sanlk_reset.c:299-384", "reset/sanlk_reset.c:386-560", "reset/sanlk_reset.c:562-604", "reset/sanlk_reset.c:909-937"]}
{"id": "C66", "title": "A fenced host lets its watchdog fire; of two hosts fencing each other exactly one survives", "statement": "Once fence_sanlockd has been told that its host is being fenced, or that its lockspace failed, it never renews its wdmd connection again, unless it wins a duel; in a duel of two hosts exactly the one with the lower host id survives. A host that is not being fenced renews its connection at least 10 seconds before it expires.", "quantifier": "all host ids, all sequences of signals, times and findings about running fence agents", "why_tests_cant": "The signals of the two hosts and the lives of the agents interleave freely; timing margins depend on when passes of the loop happen.", "anchors": ["fence_sanlock/fence_sanlockd.c:241-269", "fence_sanlock/fence_sanlockd.c:414-503", "fence_sanlock/fence_sanlockd.c:730-929"]}
{"id": "C67", "title": "The watchdog is fed only while the test scripts succeed", "statement": "When test_scripts reports success, every executable script that was in the script directory when it was last read has either ended in this test with exit status 0, or had ended with status 0 and not yet been due again. A test fails only because of a script that is still running or ended badly; a failed script is run again in the next test; the test ends within the test interval; and a kill goes only to a script process whose end has not been collected.", "quantifier": "all directory contents, all sequences of tests and SIGHUPs, all results of fork, waitpid and all times", "why_tests_cant": "Slots, process ids and times of up to eight scripts evolve over many tests; failed forks and lost children are rare.", "anchors": ["wdmd/main.c:83-96", "wdmd/main.c:840-1113"]}
{"id": "C68", "title": "At most one instance of a daemon is at work on a machine", "statement": "Of sanlock, wdmd and fence_sanlockd at most one process each passes its start checks and is at work at any time, however starts, exits and crashes interleave; and when none holds the lock file a new one can start.", "quantifier": "any number of processes, all interleavings of open, lock, write, unlink, shared memory creation, exit and crash", "why_tests_cant": "The window between open and fcntl lock on a file that is being unlinked is microseconds wide.", "anchors": ["src/lockfile.c:31-99", "src/main.c:1800-2100", "wdmd/main.c:1626-1683", "fence_sanlock/fence_sanlockd.c:182-240"]}
{"id": "C69", "title": "The lease of a dead host can be taken over, in bounded time", "statement": "When the owner of a lease does not renew its host lease and was not seen alive by the last check, and nobody else touches the lease, an acquire never gives up: it waits at most dead_seconds + 1 one-second sleeps, then runs the ballot for the next version, and an undisturbed ballot makes it the owner.", "quantifier": "all leader and host lease records, all host states, all times, any interleaving of reads, sleeps and clock values", "why_tests_cant": "The wait is minutes long, depends on unsigned time differences and on what the lockspace thread saw earlier; a missed case would block a lease for ever.", "anchors": ["src/paxos_lease.c:1687-2191"]}
{"id": "C70", "title": "An acquire succeeds only with a ballot that was won", "statement": "When paxos_lease_acquire returns success, the leader record it wrote carries the values of a ballot that run_ballot completed: a majority of disks was written and read in both phases, no block seen had a higher lver or mbal, and the value is the one with the highest bal among the blocks seen in phase 1, or its own when there was none. An undisturbed ballot is won. The sequential run_ballot is a run of the interleaved ballot model of C09.", "quantifier": "all numbers of disks, all dblock contents, all I/O results per disk and phase, all allocation results, any number of retried ballots, any interleaving with other hosts", "why_tests_cant": "Losing a ballot and then failing an allocation, or reading a particular minority of disks, are states no test can set up, and two owners of one version show up only afterwards.", "anchors": ["src/paxos_lease.c:453-903", "src/paxos_lease.c:1687-2191"]}
{"id": "C71", "title": "An index command gives back what it took, and success means that the index was written", "statement": "Every resource index command (format, create, delete, lookup, update, rebuild) that returns has closed the disk, cleared the mark of the operation, released the index lease and freed its tokens and buffers (except those of an I/O that timed out); success is returned only when all its writes were made, in the order that keeps the index recoverable; create, delete and rebuild write only while holding the index lease.", "quantifier": "all commands, all combinations of results of the calls they make (opening, allocations, reads, writes, timeouts, lease acquisition)", "why_tests_cant": "It takes a failure of one particular allocation or write out of about ten, in each command; tests do not make allocations fail.", "anchors": ["src/rindex.c:181-277", "src/rindex.c:370-754", "src/rindex.c:756-1146", "src/paxos_lease.c:2410-2526"]}
{"id": "C72", "title": "Linked list operations do what their names say and touch nothing else", "statement": "On every well formed list, list_add puts the entry first, list_add_tail last, list_del takes out exactly the entry, list_move takes it out of one list and puts it first on the other, list_empty, list_first_entry and the walking macros see exactly the entries in order; no other list is changed; and the loops of the daemon that take entries off while walking (purge of resources, release of orphans, freeing of lockspaces) treat every entry once, exactly the selected ones are removed, and freed memory is never touched.", "quantifier": "all memories, all lists of all lengths, all positions, all selections of entries", "why_tests_cant": "A pointer error shows only for particular list lengths and positions (first, last, only entry, neighbours removed), and use after free is usually silent.", "anchors": ["src/list.h:28-189", "src/list.h:361-509", "src/resource.c:2569-2611", "src/lockspace.c:2044-2059"]}
{"id": "C73", "title": "The cache of free resource structures is bounded and counted", "statement": "In every run the list of free resource structures stays well formed and holds at most 128 entries; when it is full the entry reused least (the oldest among equals) is thrown away; a lookup finds an entry exactly when one matches; and the counter equals the length of the list.", "quantifier": "all sequences of structures given back, taken out and purged, with any use of memory outside in between", "why_tests_cant": "It takes more than 128 different resources, and lockspaces being removed in between, to reach the limits.", "anchors": ["src/resource.c:53-127", "src/resource.c:2597-2621"]}
{"id": "C74", "title": "The value block is carried over the socket exactly", "statement": "A value accepted by sanlock_set_lvb is what a later sanlock_get_lvb returns, for all lengths; a refused request changes nothing; no request makes the daemon read or write outside of the block; and a reply announces exactly the bytes that follow it.", "quantifier": "all values, all lengths and buffer sizes, all values of the header fields, held and not held resources, allocation failures", "why_tests_cant": "The library never sends the header fields that matter, and a read past the block is silent.", "anchors": ["src/cmd.c:1142-1234", "src/resource.c:702-771", "src/client.c:1449-1541"]}
{"id": "C75", "title": "Library calls release what they take and read what they are sent", "statement": "Every function of the library closes each connection it opens exactly once and never the caller's, frees every buffer it does not hand out, sends exactly the pieces the handler of the daemon reads with a header announcing their length, reports success only when the reply has been received in full and everything has been stored, reports failure only when a system call or the daemon did, and on a registered connection consumes the whole reply.", "quantifier": "all library functions, all arguments, all results of every connect, send, recv and malloc including short ones, all headers sent back by the daemon", "why_tests_cant": "A test with a working daemon exercises one path per function; the failures of send, recv and malloc at each place do not occur, and a lost descriptor or an unread byte shows much later in another call.", "anchors": ["src/client.c:43-1833", "src/cmd.c:200-3011"]}
{"id": "C76", "title": "Registered clients get every event of their lockspace", "statement": "Whatever the interleaving of the threads, a descriptor registered for host events is closed exactly once and never used afterwards, none is left when the lockspace is freed, a registered client is given every event dispatched for its lockspace since its registration, once each and in the order in which they were accepted, and reads exactly these after the reply to its registration; a registration only ends when the client ends it or is gone, an event cannot be sent, or the lockspace ends; no thread uses the structure of a lockspace after it is freed.", "quantifier": "all interleavings of the main, resource, lockspace and worker threads, any number of lockspaces, registrations and events, all answers of dup, recv, send and malloc", "why_tests_cant": "The registration, the sending of events and the removal of a lockspace run in different threads; the orders that mix up the connection or use freed memory need a switch between two adjacent lines.", "anchors": ["src/lockspace.c:608-620", "src/lockspace.c:1698-1803", "src/lockspace.c:1881-1938", "src/lockspace.c:1971-2059", "src/resource.c:2411-2490", "src/cmd.c:2945-3000", "src/client.c:795-1001"]}
{"id": "C77", "title": "The fence agent reports success only for a host that was reset or left", "statement": "Whatever the victim, other fencing hosts, the storage and the local fence_sanlockd do between the commands of fence_sanlock, when the action off ends with success the incarnation of the victim that ran when the agent was started runs no more, now or later; it was reset or it left. The agent file naming the victim is there when SIGUSR2 is sent and is gone when the agent ends; the request is sent at most once, after SIGUSR2, for the version after the one read. An error means that the victim still runs or that the storage or fence_sanlockd failed; once the victim is reset the agent ends and leaves its lease free; the action on ends with success only when the lease is held; status says OFF exactly for a free lease.", "quantifier": "all interleavings of the agent with the victim, any number of other fencing hosts, restarts of fence_sanlockd, all outcomes of the commands, any number of passes of the loop", "why_tests_cant": "The agent polls for minutes while hosts die, come back and fence each other; a test plays a few of these orders and cannot show that none of them gives success with the victim still writing.", "anchors": ["fence_sanlock/fence_sanlock.in:160-182", "fence_sanlock/fence_sanlock.in:184-228", "fence_sanlock/fence_sanlock.in:230-349", "fence_sanlock/fence_sanlock.in:351-365", "src/resource.c:133-156"]}
{"id": "C78", "title": "sanlock client status shows what the daemon has", "statement": "The command shows the daemon, every registered client, every lockspace and every resource token of the daemon once, with the names, paths, offsets, versions and pids the daemon has and the mark of the list it is in, without writing outside of its buffers. With sorting it shows the same lines, the resources under the process or lockspace they belong to, the others after a dash. When it ends with success everything was shown, and what it shows is there, whenever the connection ends. host_status asks for every lockspace by its name.", "quantifier": "all daemon states (any number of clients, lockspaces, resources, tokens; up to four disks), all names and paths of any bytes, every length after which the connection ends, all three orders", "why_tests_cant": "A test looks at a few entries; the buffer sizes, the names that fill their array, the number of entries and the point where the connection breaks are exactly what it does not vary.", "anchors": ["src/client_cmd.c:79-200", "src/client_cmd.c:201-355", "src/client_cmd.c:357-477", "src/client_cmd.c:479-606", "src/cmd.c:2282-2461", "src/cmd.c:2507-2608", "src/cmd.c:2651-2703", "src/resource.c:133-156"]}
{"id": "C79", "title": "direct dump shows what is on the device, direct next_free names a free area", "statement": "direct dump of a device that holds lockspaces, leases and resource indexes shows each of them once with what was written: hosts with name, timestamp, owner, generation and bitmap, leases with owner, version, request, shared holders and ballots, index headers and entries; with a size exactly what is in it, without one everything up to the first free area; it reads nothing outside of its buffer whatever is on the device, ends, and ends with success only when everything was read. The argument gives it the path, offset and size that are meant. direct next_free prints the offset of the first area of the device that has no lease in it, and fails when there is none.", "quantifier": "all devices (any bytes, any size, any pattern of read errors), all start offsets and sizes, the options -A, -Z, -f, all paths and numbers", "why_tests_cant": "The counts, sizes and names that direct the loops come from the disk; damaged or foreign areas, read errors, the end of the device and uninitialised variables are not in a test image.", "anchors": ["src/direct.c:41-79", "src/direct.c:553-853", "src/direct.c:855-928", "src/diskio.c:932-974", "src/sizeflags.c:31-61", "src/main.c:2522-2561"]}
{"id": "C80", "title": "The daemon runs with the settings its configuration file and command line give", "statement": "After start, every setting of the daemon has the value of the last option of the command line that gives it one, else of the last line of sanlock.conf that gives it a valid value, else its default. Comments, empty lines, unknown names and names with no valid value change nothing, in particular not use_watchdog, and a line changes no setting but its own. Settings with a range (io_timeout, watchdog_fire_timeout, write_init_io_timeout, kill_grace_seconds, max_worker_threads, max_sectors_kb) stay in it. No content of the file leads to a write outside of the line buffers or of the host name.", "quantifier": "all configuration files (any bytes, any line lengths, any order and repetition), all option lists, all contents of uninitialised variables, all user and group databases", "why_tests_cant": "The result depends on the combination of lines, on blanks, line lengths and missing values, and on what an uninitialised variable held; a test reads a few well formed files.", "anchors": ["src/main.c:2602-2715", "src/main.c:2717-2941", "src/main.c:2368-2548", "src/main.c:3900-3970", "src/sanlock_internal.h:318-400", "src/sanlock.conf"]}
{"id": "C81", "title": "A request signals the process that holds the lease", "statement": "When another host requests a lease, the process that is signalled is one that holds the lease at that moment, with a positive pid; it gets a signal it restricted only if it restricted both; and if a program is run it is the one this process gave with sanlock_killpath. This holds for exclusive and shared leases, after conversions, and for adopted orphans.", "quantifier": "every sequence of acquires, joins, adoptions, conversions, releases and deaths on any number of resources, every request record, any steps between reading the request and acting on it", "why_tests_cant": "The process to signal is kept in the resource and set in three places; which of them ran depends on the whole history of the resource.", "anchors": ["src/resource.c:do_request", "src/resource.c:get_resource", "src/resource.c:acquire_token", "src/resource.c:convert_sh2ex_token", "src/resource.c:convert_ex2sh_token", "src/resource.c:resource_thread", "src/main.c:setup_helper", "src/helper.c:run_helper"]}
{"id": "C82", "title": "The helper does what it is handed, once and in order, and its loss is survived", "statement": "Every kill, program and sysfs write the daemon hands to the helper through the pipe is done exactly once and in order, and nothing else is done; the program of a client is run at most once as long as the client lives. A helper that is stuck or gone is noticed by its missing status messages (which come at least every 30 seconds), processes then get SIGTERM instead, and neither the daemon nor its memory is harmed; nothing that was accepted is lost when the helper ends by itself.", "quantifier": "every interleaving of requests, main loop dispatches, turns of the helper loop, failing forks and reads, full pipes and ends of either process, from daemon start", "why_tests_cant": "The interesting cases are combinations of a process ending, a full pipe and a dispatch of the main loop in one particular order.", "anchors": ["src/helper.c:run_helper", "src/main.c:setup_helper", "src/main.c:close_helper", "src/main.c:send_helper_kill", "src/main.c:process_helper", "src/main.c:helper_dead", "src/main.c:main_loop", "src/main.c:setup_signals", "src/resource.c:do_request", "src/lockspace.c:helper_set_max_sectors_kb"]}
{"id": "C83", "title": "write_leader changes the values in the file and nothing else", "statement": "`sanlock direct write_leader` gives every member named in the file the last value given for it, keeps all others, and writes nothing but the sector of that record; the record is left with the right checksum, or with the one from the file if that is forced, and if the record cannot be read nothing is written. Writing back what `sanlock direct read_leader` printed gives the same record.", "quantifier": "every file of settings, every disk content and read failure, every lockspace, resource, host id and sector size, every content of the stack", "why_tests_cant": "The result depends on uninitialised stack bytes and on combinations of failing reads, sizes in the file and members not named in it.", "anchors": ["src/main.c:read_file_leader", "src/main.c:print_leader", "src/main.c:do_direct_read_leader", "src/main.c:do_direct_write_leader", "src/direct.c:do_paxos_action", "src/direct.c:do_delta_action", "src/direct.c:direct_read_leader", "src/direct.c:direct_write_leader", "src/delta_lease.c:delta_lease_leader_clobber", "src/paxos_lease.c:paxos_lease_leader_clobber", "src/diskio.c:write_sector"]}
{"id": "C84", "title": "Taking a lease exclusively does not wipe the shared lease of a live host", "statement": "When a host acquires a lease exclusively and finds shared holders, it takes it only if all of them are dead: the mark of a holder that is alive in the generation of its mark stays on every disk and the acquire fails, marks of dead holders are cleared on every disk, and nothing else is changed. A holder is taken for dead only for a reason in what was read of its lockspace record, never for lack of knowledge.", "quantifier": "every history of checks of the other hosts, every set of marks, every number of disks, every read and write failure, every timing of the renewals of the holder and the checks of the observer", "why_tests_cant": "It depends on a host joining and taking the lease between two checks of the observer, or on both hosts being slow at the same moment.", "anchors": ["src/resource.c:host_live", "src/resource.c:clear_dead_shared", "src/resource.c:read_mode_block", "src/resource.c:write_host_block", "src/resource.c:acquire_token", "src/lockspace.c:host_info", "src/lockspace.c:check_other_leases"]}
{"id": "C85", "title": "What the lockspace commands answer is true and the daemon leaves no lockspace behind", "statement": "When adding a lockspace is answered with success the lockspace is in use, its host id lease is held and being renewed; when it is answered with an error after it began, nothing is left of it. When removing one is answered with success, it is gone and its host id has been given back. Asking for a lockspace says whether it is in use, in progress, or not there. A removal accepted while the lockspace is being added prevents it from coming into use; one accepted while it is in use takes effect at the next check. The daemon ends only when no lockspace is in use, and it does end, and answers those who wait for it, when it has accepted a shutdown.", "quantifier": "every interleaving of any number of add, remove, inquire and shutdown commands, SIGTERM, the threads of the lockspaces and the main loop", "why_tests_cant": "The answers are given by worker threads that interleave with the main loop and with signals; the bad cases are windows of a few instructions.", "anchors": ["src/cmd.c:cmd_add_lockspace", "src/cmd.c:cmd_inq_lockspace", "src/cmd.c:cmd_rem_lockspace", "src/cmd.c:daemon_shutdown_start", "src/cmd.c:daemon_shutdown_reply", "src/cmd.c:cmd_shutdown_wait", "src/lockspace.c:add_lockspace_wait", "src/lockspace.c:inq_lockspace", "src/lockspace.c:rem_lockspace_start", "src/lockspace.c:rem_lockspace_wait", "src/lockspace.c:lockspace_thread", "src/lockspace.c:stop_lockspace_thread", "src/lockspace.c:free_lockspaces", "src/main.c:main_loop", "src/main.c:sigterm_handler", "src/resource.c:lockspace_is_used"]}
{"id": "C86", "title": "A list of lockspaces or hosts given to a client is complete and right", "statement": "The list of lockspaces a client gets has exactly one entry for each lockspace that is in use, being removed or being added, with its name, disk, host id and state. The list of hosts has exactly one entry for each host that has a lease in the lockspace (or the one asked for), in order, with what was last read of it. When the list cannot be given the client gets an error, never a part of it.", "quantifier": "every set of lockspaces, every table of hosts, every lockspace size, every host id asked for", "why_tests_cant": "The buffer overflows only with 950 lockspaces; tests have a few.", "anchors": ["src/lockspace.c:get_lockspaces", "src/lockspace.c:get_hosts", "src/lockspace.c:get_host_flag", "src/cmd.c:cmd_get_lockspaces", "src/cmd.c:cmd_get_hosts", "src/client.c:sanlock_get_lockspaces", "src/client.c:sanlock_get_hosts"]}
{"id": "C87", "title": "A lockspace thread closes what it opened, nothing else, and writes to its own disk", "statement": "Whatever calls fail while a lockspace is added, used and removed, its thread closes only the descriptors it opened itself, has closed all of them when it ends, and every read and write of its host id lease goes to the disk of the lockspace.", "quantifier": "every number of lockspace threads, every interleaving of them with each other and with the rest of the daemon opening and closing files, every failure of every call", "why_tests_cant": "A wrong close does harm only when another thread gets the descriptor number at the right moment; the path that fails needs a watchdog daemon that accepts the connection and then refuses.", "anchors": ["src/lockspace.c:lockspace_thread", "src/lockspace.c:add_lockspace_start", "src/watchdog.c:connect_watchdog", "src/watchdog.c:open_watchdog", "src/watchdog.c:activate_watchdog", "src/watchdog.c:disconnect_watchdog", "src/diskio.c:open_disk"]}
{"id": "C88", "title": "The loss or staleness of the host id lease is noticed, and nothing else is taken for it", "statement": "If the daemon reads a record in its slot that is not its own (other owner, generation or name, wrong lockspace, magic, version or checksum), or has not renewed its lease for 8 I/O timeouts, then the next check of the lockspace starts the killing of its processes, and this is never undone. As long as nobody else writes the slot and the renewals are in time, no check does this. Checks are done at least once a second. Each check that passes hands the newest read of the lockspace to the check of the other hosts, once.", "quantifier": "every sequence of renewals, I/O results, disk contents, checks and clock settings", "why_tests_cant": "Needs damaged or foreign records at chosen moments, failed writes that land or do not, and months of timing.", "anchors": ["src/lockspace.c:check_our_lease", "src/lockspace.c:corrupt_result", "src/lockspace.c:lockspace_thread", "src/main.c:main_loop", "src/main.c:time_diff", "src/delta_lease.c:delta_lease_renew"]}
{"id": "C89", "title": "The arguments of a call from Python reach the library as they were given", "statement": "Every function of the Python module that takes arguments for a lockspace, resource, host or event calls the matching library function with exactly the names, paths, offsets, ids, sizes, options and disks that were given by position or by keyword, and with the documented default for those left out. A call which does not follow Python's rules, or whose values do not fit, raises an exception and calls nothing. Two different names never denote the same lockspace or resource.", "quantifier": "every function of the module but killpath, register and get_lockspaces, every list of positional arguments and every set of keyword arguments, with objects of every type and value", "why_tests_cant": "The space of argument combinations, types and lengths is infinite, and the wrong results (cut names, wrapped numbers) raise no error.", "anchors": ["python/sanlock.c:pypath_converter", "python/sanlock.c:convert_to_pybytes", "python/sanlock.c:parse_single_disk", "python/sanlock.c:create_resource", "python/sanlock.c:py_add_lockspace", "python/sanlock.c:py_acquire", "python/sanlock.c:py_request", "python/sanlock.c:py_write_resource", "python/sanlock.c:py_set_event"]}
{"id": "C90", "title": "killpath from Python runs the program with the arguments that were given", "statement": "If killpath(path, args) is accepted, the program the daemon runs for this process is path, and its arguments are exactly args, followed by the pid if none were given. Otherwise the call raises an exception. No call writes behind the 128 bytes of the argument buffer.", "quantifier": "every path, every list of arguments, every file descriptor and pid", "why_tests_cant": "The argument is quoted in Python's binding, cut in the library and parsed again in the helper; only few byte values and lengths go wrong.", "anchors": ["python/sanlock.c:parse_killpath_item", "python/sanlock.c:py_killpath", "src/client.c:sanlock_killpath", "src/cmd.c:cmd_killpath", "src/helper.c:run_path"]}
{"id": "C91", "title": "What Python is told is what the library and the daemon reported", "statement": "The lists of hosts, lockspaces, leases and events returned to Python have one entry for each entry the library returned, in the same order, with the same names, paths and numbers, and no call reads past the structures or crashes. A lockspace that was added is listed with the name, host id, path and offset it was added with. The answers about a lockspace and the numbers in exceptions tell the results of the library apart. No event is taken from the daemon without being returned.", "quantifier": "every list of hosts, lockspaces, resources and events, all name and path bytes, every result code", "why_tests_cant": "Goes wrong only for names of exactly 48 bytes, paths which are not UTF-8, names with a colon, and errors behind events.", "anchors": ["python/sanlock.c:hosts_to_list", "python/sanlock.c:lockspaces_to_list", "python/sanlock.c:resources_to_list", "python/sanlock.c:disks_to_list", "python/sanlock.c:py_inquire", "python/sanlock.c:py_get_event", "python/sanlock.c:py_inq_lockspace", "python/sanlock.c:set_sanlock_error"]}
{"id": "C92", "title": "A read or write without AIO moves the bytes asked for, at the place asked for, or fails", "statement": "With use_aio=0 (and when the AIO context of a task cannot be made), a write that returns success has written exactly the given bytes at the given offset and nothing else, however the kernel splits or interrupts the transfer. A write that fails, or is still at work, has written a beginning of the bytes at that place and nothing else. A read that returns success has returned the bytes of the given place; a read past the end of the device fails. What write_sector wrote is read back by read_sectors. Every read and write ends.", "quantifier": "every device content, offset, length, file position and every sequence of partial transfers, interruptions and errors", "why_tests_cant": "Partial transfers and interruptions are rare and the offset that goes wrong is one of 2^64.", "anchors": ["src/diskio.c:do_write", "src/diskio.c:do_read", "src/diskio.c:_write_sectors", "src/diskio.c:write_sector", "src/diskio.c:write_sectors", "src/diskio.c:read_sectors"]}
{"id": "C93", "title": "The disks of a lease are opened if a majority can be, otherwise none stays open", "statement": "open_disks and open_disks_fd succeed exactly if more than half of the disks could be opened. Afterwards the open descriptors are exactly those recorded in the disks: a majority after success, none after an error. The sector sizes of the opened disks agree and their offsets are aligned. A descriptor that the call did not open is not closed.", "quantifier": "every number of disks, every combination of answers of open, fstat and the device probe", "why_tests_cant": "Needs the failure of chosen disks at chosen steps and a count of descriptors over all of them.", "anchors": ["src/diskio.c:open_disks", "src/diskio.c:open_disks_fd", "src/diskio.c:open_disk", "src/diskio.c:close_disks", "src/diskio.c:majority_disks"]}
{"id": "C94", "title": "Reading a lockspace or a resource reports what is stored for it", "statement": "sanlock_read_lockspace with a disk, an offset and a host id reports the name and the sizes stored in the lease of that host id of the lockspace at that place, and fails if there is none. sanlock_read_resource reports the name, the version and the sizes of the lease whose disks it is given, as a majority of the disks has it. A wrong size given by the caller does no harm. When a call fails nothing is reported.", "quantifier": "every contents of the disks, every offset, host id, combination of size flags, every subset of disks that can be opened", "why_tests_cant": "The tests read leases which they have just written, with host id 1 or in range, with one disk and with the right sizes or none; the wrong answers need another lockspace behind the first or disks that differ.", "anchors": ["src/cmd.c:cmd_read_lockspace", "src/cmd.c:cmd_read_resource", "src/delta_lease.c:delta_read_lockspace", "src/delta_lease.c:delta_read_lockspace_sizes", "src/paxos_lease.c:paxos_read_resource", "src/client.c:sanlock_read_lockspace", "src/client.c:sanlock_read_resource"]}
{"id": "C95", "title": "Host events are sent once and in order, and a lease being released is kept until it is released", "statement": "Every event that a lockspace finds set for this host is handed on to the registered event listeners by the resource thread exactly once and in the order in which they were found; none is left when the thread sleeps or ends. A lease that is being released is in one list and has one releaser. It stays there until an attempt that did not time out, and nobody acquires or adopts it before. An attempt by the thread is not started before the time set by the attempt before it.", "quantifier": "every sequence of events, acquires, synchronous and asynchronous releases, deaths, orphans, adoptions, examinations, passing of time, every interleaving with the steps of the resource thread and every outcome of its i/o", "why_tests_cant": "The tests release leases on disks that answer and set one event at a time; the order and the single releaser depend on calls that come between two steps of the thread.", "anchors": ["src/resource.c:resource_thread", "src/resource.c:find_resource_thread", "src/resource.c:resource_thread_release", "src/resource.c:add_host_event", "src/resource.c:set_resource_examine", "src/resource.c:rem_resources", "src/resource.c:release_token_async", "src/resource.c:release_orphan", "src/resource.c:close_token_manager", "src/main.c:main_loop"]}
{"id": "C96", "title": "What waits for the resource thread gets done", "statement": "A lease of a process that died, or whose release timed out, is released as soon as its disks answer, whatever other leases wait to be released. A resource for which sanlock_examine was called is examined while it is held. At the end of the daemon nothing that could be released is left.", "quantifier": "every sequence of calls and deaths, every interleaving with the resource thread, every outcome and duration of its i/o", "why_tests_cant": "Starvation needs a disk that stays dead together with other leases in the same daemon; a lost examination needs a death and an adoption between two steps of the thread.", "anchors": ["src/resource.c:resource_thread", "src/resource.c:find_resource_thread", "src/resource.c:resource_thread_release", "src/resource.c:add_host_event", "src/resource.c:set_resource_examine", "src/resource.c:rem_resources", "src/resource.c:release_token_async", "src/resource.c:release_orphan", "src/resource.c:close_token_manager", "src/main.c:main_loop"]}
{"id": "C97", "title": "A command is executed only for a connection and a process that may, one at a time, and is answered otherwise", "statement": "A command is executed only if its header has the magic number, a version the daemon understands and a known number, and the connection was not restricted from all commands; such a restriction lasts until the connection is closed. A lease command is executed only for a registered process that is alive: the sender, or the process whose pid is given; an acquire only if that process is not being killed. At any time at most one lease command works for a process and at most one command for a connection, and the slots of both are kept until it ends. A new connection inherits nothing from an old one. A command that is not executed is answered with an error and changes nothing.", "quantifier": "every number of connections, every sequence of connections, headers, deaths, kills and ends of commands, every failure of memory, of the thread pool and of getsockopt", "why_tests_cant": "The tests use the library, which sends one well formed command after the other; the cases need headers that no library call makes, several connections for one process, commands sent ahead or a lack of memory.", "anchors": ["src/main.c:process_connection", "src/main.c:process_cmd_thread_registered", "src/main.c:process_cmd_thread_unregistered", "src/main.c:client_pid_dead", "src/main.c:client_free", "src/main.c:client_suspend", "src/main.c:client_resume", "src/main.c:client_add", "src/cmd.c:call_cmd_daemon", "src/cmd.c:call_cmd_thread", "src/cmd.c:cmd_restrict", "src/cmd.c:cmd_register"]}
{"id": "C98", "title": "The arguments of a library call arrive at the daemon as they were given", "statement": "For every library call that uses a connection of its own (add, inq, rem, get hosts, set config, align, read and write of lockspaces and resources, owners, request, examine, value blocks, events, index operations) the daemon carries out the operation of that name with exactly the lockspace, resource, disks, offsets, host id, flags and numbers the caller gave, with the documented meaning of 0, and has then read every byte that was sent. Arguments the daemon does not accept are refused. The length in the header is the length of the message.", "quantifier": "every library call with every content of its structures, names and numbers", "why_tests_cant": "The tests use a few names and numbers, mostly with equal or default values for fields that could be exchanged; an exchanged or lost field shows only if the values differ.", "anchors": ["src/client.c:cmd_lockspace", "src/client.c:sanlock_get_hosts", "src/client.c:sanlock_set_config", "src/client.c:sanlock_align", "src/client.c:sanlock_read_lockspace", "src/client.c:sanlock_read_resource", "src/client.c:sanlock_write_lockspace", "src/client.c:sanlock_write_resource", "src/client.c:sanlock_read_resource_owners", "src/client.c:sanlock_request", "src/client.c:sanlock_examine", "src/client.c:sanlock_set_lvb", "src/client.c:sanlock_reg_event", "src/client.c:sanlock_set_event", "src/client.c:sanlock_lookup_rindex", "src/client.c:sanlock_create_resource", "src/cmd.c:cmd_request", "src/cmd.c:cmd_examine", "src/cmd.c:cmd_set_lvb", "src/cmd.c:cmd_write_resource", "src/cmd.c:cmd_read_resource"]}
{"id": "C99", "title": "wdmd chooses its device by a fixed order, leaves none armed by looking at it, and runs it with the timeout it promises", "statement": "At its start wdmd uses the first device that answers, in the order saved path, -w, /dev/watchdog0, /dev/watchdog1, /dev/watchdog, each tried at most once, and does not start without one. wdmd -p reports the first device that can be given the timeout of 60 seconds, and the daemon uses that one; wdmd -t n reports a device that runs with n. Neither the start nor a probe leaves a device open or armed, and the start changes no timeout. When a client is told that it has the timeout it asked for, the device is open, has been petted and has that timeout; a client that is refused leaves nothing behind.", "quantifier": "every answer of every driver, every -w and saved path, every requested timeout, every state of the daemon", "why_tests_cant": "The tests run with one device that does what it is told; the cases need drivers that refuse, round or fail, and a wrong outcome resets the machine.", "anchors": ["wdmd/main.c:_setup_watchdog", "wdmd/main.c:setup_watchdog", "wdmd/main.c:_try_timeout", "wdmd/main.c:_probe_dev", "wdmd/main.c:probe_watchdog", "wdmd/main.c:_open_watchdog", "wdmd/main.c:open_dev", "wdmd/main.c:close_watchdog", "wdmd/main.c:process_connection", "wdmd/client.c:wdmd_open_watchdog", "wdmd/client.c:wdmd_status"]}
{"id": "C100", "title": "sanlk-resetd watches the lockspaces it was told to watch", "statement": "A message of sanlk-reset reaches sanlk-resetd with the command and the name that were given. After \"reg name\" the lockspace is watched through a new connection, after \"end name\" it is not, after \"clear\" none is; other lockspaces are left alone, and nothing is watched that was not asked for. A connection that breaks is not kept. Every connection to sanlock that was made is in use or was ended once; the count of lockspaces is that of those watched; no lockspace is watched twice.", "quantifier": "every command line, every sequence of messages, results of library calls, events and broken connections", "why_tests_cant": "There are no tests of sanlk-resetd; the wrong cases need a message and the end of a connection in one wakeup, full tables or unusual names, and show only when a reset that was asked for does not happen.", "anchors": ["reset/sanlk_resetd.c:find_ls", "reset/sanlk_resetd.c:register_ls", "reset/sanlk_resetd.c:unregister_ls", "reset/sanlk_resetd.c:process_update", "reset/sanlk_resetd.c:main", "reset/sanlk_reset.c:update_local_daemon", "src/client.c:sanlock_end_event"]}
{"id": "C101", "title": "The request size of a lockspace's disk is set to what was configured and to no more than the hardware takes", "statement": "When a lockspace starts on a block device, max_sectors_kb of the device becomes the configured number, or with \"align\" the lease size, if max_hw_sectors_kb allows it, 1024 if only that is allowed, and is left as it is otherwise. Nothing is written for a file, with \"ignore\", if a value cannot be read or if the device already has the value. What the status of the lockspace reports is the value the device has.", "quantifier": "every setting, lease size, content of the two files of sysfs, result of a write and state of the helper", "why_tests_cant": "The tests use files, for which nothing is set; the cases need hardware with different limits and a daemon that is not root.", "anchors": ["src/lockspace.c:set_lockspace_max_sectors_kb", "src/lockspace.c:helper_set_max_sectors_kb", "src/diskio.c:read_sysfs_uint", "src/diskio.c:write_sysfs_uint", "src/diskio.c:read_sysfs_size", "src/diskio.c:set_max_sectors_kb", "src/helper.c:run_helper"]}
{"id": "C102", "title": "fence_sanlockd starts with what it was given, can be fenced only when all is set up, and takes a failed start back", "statement": "The path and host id given to \"fence_sanlockd -s\" are those the waiting daemon uses. The daemon acquires the lease by which its host can be fenced only when it is registered with wdmd and sanlock, has set its killpath, its restriction of signals and the configuration of the lockspace; hosts have leases of their own. When a step fails, what was done is taken back in reverse order, nothing else is called, and the exit code is that of a failure.", "quantifier": "every result of every call, every path and host id, every content of the fifo", "why_tests_cant": "There are no tests of fence_sanlockd; the cases need failures of single calls at the start and odd paths.", "anchors": ["fence_sanlock/fence_sanlockd.c:wait_options", "fence_sanlock/fence_sanlockd.c:send_options", "fence_sanlock/fence_sanlockd.c:main"]}
{"id": "C105", "title": "A host recognises its own host lease, and no other's", "statement": "When a host joins a lockspace and finds its host id taken, it skips the wait exactly when the lease was written by itself: the name in the record is its own name, and names of different hosts differ.", "quantifier": "for all given names, uuids and node names", "why_tests_cant": "It depends on the length of the node name of the machine, and on pairs of names at the limit of the field; tests use short names.", "anchors": ["src/main.c:setup_host_name", "src/delta_lease.c:delta_lease_acquire"]}
{"id": "C106", "title": "A random delay lies between its bounds", "statement": "The random number used for the delay before a retry lies between the given bounds, both included, and the delay is at most a second.", "quantifier": "for all bounds and all values the random generator can give", "why_tests_cant": "The bound is missed for 64 of the 2^31 values of the generator only.", "anchors": ["src/main.c:get_rand", "src/direct_lib.c:get_rand", "src/paxos_lease.c:paxos_lease_acquire", "src/resource.c:acquire_token"]}
{"id": "C103", "title": "fence_sanlockd finds the host its fence agent is fencing", "statement": "When fence_sanlockd is asked to be fenced and looks for a fence_sanlock agent on its own host, it finds the host that a running agent is fencing, and only that: files left by agents that are gone are passed over, and with no running agent none is found.", "quantifier": "for all contents of the run directory, all tables of processes and all numbers in the files", "why_tests_cant": "It depends on every text a file can hold, on which process ids have been given to other processes, and on the order of the directory; tests try one agent at a time.", "anchors": ["fence_sanlock/fence_sanlockd.c:check_fence_agent", "fence_sanlock/fence_sanlock.in"]}
{"id": "C104", "title": "The daemon serves at its own socket, fully set up and as the given user", "statement": "The daemon and a client with the same run directory meet at one socket, daemons with different run directories have different sockets, the daemon serves requests only when its lock file, socket, threads and user are set up, it leaves the socket alone without the lock file, and it reports failure when it could not serve.", "quantifier": "for all environments, run directories, options and results of every system call of the start", "why_tests_cant": "Every call of the start would have to fail in turn, with every option, as root; long run directories and failing setuid are not tried.", "anchors": ["src/main.c:do_daemon", "src/main.c:setup_listener", "src/main.c:setup_uid_gid", "src/main.c:setup_limits", "src/env.c:env_get", "src/env.c:env_get_bool", "src/sanlock_sock.c:sanlock_socket_address", "src/client.c:connect_socket"]}
