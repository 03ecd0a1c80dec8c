{
 "claims": [
  {
   "property": "C01",
   "status": "proved",
   "theorems": [
    "C01_varint_roundtrip",
    "C01_varint_recovers_only_32_bit",
    "C01_varint_roundtrip_refuted",
    "C01_varint_diverges_refuted"
   ],
   "note": "Round trip, exact size and truncation for the whole 32-bit range; the code does not satisfy the property beyond it: C01_varint_recovers_only_32_bit (exact boundary) and two _refuted theorems (wrong value; encoder that never ends)."
  },
  {
   "property": "C02",
   "status": "proved",
   "theorems": [
    "C02_composite_roundtrip",
    "C02_truncation_never_decodes",
    "C02_truncation_is_an_error",
    "C02_buffer_truncation_refuted"
   ],
   "note": "All primitive codecs and all finite compositions of option/vec/map/pair; finding: a truncated byte buffer panics (C02_buffer_truncation_refuted)."
  },
  {
   "property": "C03",
   "status": "proved",
   "theorems": [
    "C03_string_roundtrip_iff",
    "C03_string_roundtrip_refuted"
   ],
   "note": "Exact characterisation: round trip iff the string is shorter than 32768 bytes; the encoder accepts longer ones (_refuted)."
  },
  {
   "property": "C04",
   "status": "proved",
   "theorems": [
    "C04_record_roundtrip"
   ],
   "note": "Round trip, exact size, every truncation is an end-of-input error."
  },
  {
   "property": "C05",
   "status": "proved",
   "theorems": [
    "C05_batch_roundtrip",
    "C05_raw_batch_roundtrip",
    "C05_batch_size",
    "C05_raw_batch_size",
    "C05_batch_size_refuted"
   ],
   "note": "Round trip for in-memory and raw batches with and without schema id; announced size exact without schema, 4 too small with one (_refuted)."
  },
  {
   "property": "C06",
   "status": "proved",
   "theorems": [
    "C06_set_roundtrip",
    "C06_raw_set_roundtrip",
    "C06_cut_set",
    "C06_cut_raw_set",
    "C06_cut_records",
    "C06_cut_raw_loses_refuted",
    "C06_cut_memory_loses_refuted"
   ],
   "note": "Complete sets arrive completely; every cut yields whole leading batches plus at most one damaged batch; decoded records are a prefix. Finding: the continuation offset skips the cut-off records (_refuted)."
  },
  {
   "property": "C07",
   "status": "proved",
   "theorems": [
    "C07_split_independent",
    "C07_frames_arrive",
    "C07_messages_arrive",
    "C07_hostile_length_refuted",
    "C07_crash_exactly",
    "C07_stall",
    "C07_schema_batch_refuted"
   ],
   "note": "Every chunking of every byte stream gives the same result; complete frames arrive in order. Findings: length prefixes -4..-1 crash the receiver (exactly these), other impossible ones stall it, and a batch with a schema id breaks the framing."
  },
  {
   "property": "C08",
   "status": "proved",
   "theorems": [
    "C08_flags_independent",
    "C08_other_bits_kept",
    "C08_schema_id_roundtrip"
   ],
   "note": "Bit-level, every 16-bit attribute word."
  },
  {
   "property": "C09",
   "status": "proved",
   "theorems": [
    "C09_consumer_offsets",
    "C09_built_batches_numbered",
    "C09_built_batches_counted",
    "C09_consumer_offsets_refuted"
   ],
   "note": "Holds for batches with consecutive deltas (every batch a client builds); refuted for filtered batches."
  },
  {
   "property": "C10",
   "status": "proved",
   "theorems": [
    "C10_replica_roundtrip",
    "C10_replica_injective",
    "C10_parse_iff",
    "C10_malformed_rejected"
   ],
   "note": "Round trip, injectivity, and an exact description of the accepted texts."
  },
  {
   "property": "C11",
   "status": "proved",
   "theorems": [
    "C11_name_determines_offset",
    "C11_names_injective",
    "C11_names_sort"
   ],
   "note": "Round trip, injectivity and order for every non-negative 64-bit offset."
  },
  {
   "property": "C12",
   "status": "proved",
   "theorems": [
    "C12_contiguous",
    "C12_append",
    "C12_failed_append",
    "C12_append_succeeds"
   ],
   "note": "Holds. Invariant over every history of writes, rejections, watermark updates, rollovers, retention, restarts and crashes; an append adds exactly the numbered batches; a failed one leaves a prefix."
  },
  {
   "property": "C13",
   "status": "proved",
   "theorems": [
    "C13_immutable"
   ],
   "note": "Holds: every stored offset that survives retention reads back the same batch after any further history."
  },
  {
   "property": "C14",
   "status": "proved",
   "theorems": [
    "C14_reads",
    "C14_outside"
   ],
   "note": "Holds: exact result of committed and uncommitted reads for every offset and size, and the three results outside the log."
  },
  {
   "property": "C15",
   "status": "proved",
   "theorems": [
    "C15_committed",
    "C15_committed_above_refuted"
   ],
   "note": "Holds for reads starting at or below the high watermark or in a closed segment; refuted above it in the active segment (C15_committed_above_refuted)."
  },
  {
   "property": "C16",
   "status": "proved",
   "theorems": [
    "C16_index_is_scan",
    "C16_stale_index_refuted"
   ],
   "note": "Holds in every reached state, also after restarts with a cut log. Refuted when the index survives but the log tail does not (C16_stale_index_refuted)."
  },
  {
   "property": "C17",
   "status": "proved",
   "theorems": [
    "C17_recovery",
    "C17_recovery_succeeds",
    "C17_crash",
    "C17_full_index_refuted"
   ],
   "note": "Holds for every cut of the active log and every checkpoint content; opening succeeds whenever the index can hold a full segment, refuted otherwise (C17_full_index_refuted)."
  },
  {
   "property": "C18",
   "status": "proved",
   "theorems": [
    "C18_hw_below_end",
    "C18_after_load",
    "C18_direct_update_refuted"
   ],
   "note": "Holds when watermark updates stay within the log, and after every start; storage accepts any direct update (refuted without the condition)."
  },
  {
   "property": "C19",
   "status": "proved",
   "theorems": [
    "C19_too_large",
    "C19_rejected_unchanged",
    "C19_empty_batch_refuted",
    "C19_schema_batch_refuted"
   ],
   "note": "Holds for every size violation; refuted for empty batches (earlier batches stay, later writes refused) and batches with a schema id filling a segment (panic)."
  },
  {
   "property": "C20",
   "status": "proved",
   "theorems": [
    "C20_oldest",
    "C20_within_size",
    "C20_expired_exactly",
    "C20_ttl_gap_refuted"
   ],
   "note": "Holds: only oldest closed segments go, by size or by age order; refuted for out-of-order file times (gap)."
  },
  {
   "property": "C21",
   "status": "proved",
   "theorems": [
    "C21_one_segment",
    "C21_no_segment"
   ],
   "note": "Holds."
  },
  {
   "property": "C22",
   "status": "proved",
   "theorems": [
    "C22_durable",
    "C22_durable_increasing",
    "C22_return_to_start_refuted",
    "C22_shutdown_race_refuted"
   ],
   "note": "Holds for increasing watermarks once the writer ran; refuted for a return to the opening value and for a shutdown before the writer runs."
  },
  {
   "property": "C23",
   "status": "proved",
   "theorems": [
    "C23_size",
    "C23_restart_refuted",
    "C23_race_refuted"
   ],
   "note": "Holds while the process runs; refuted after a restart and for retention racing a rollover."
  },
  {
   "property": "C24",
   "status": "proved",
   "theorems": [
    "C24_committed_offset"
   ],
   "note": "Holds as stated, for every list of follower positions and every required replica count (at least one follower is always required)."
  },
  {
   "property": "C25",
   "status": "proved",
   "theorems": [
    "C25_committed_replicated",
    "C25_any_message_size",
    "C25_cut_refuted",
    "C25_follower_writes"
   ],
   "note": "Holds for every interleaving of writes, sync messages, reports, loss, duplication, reordering, retention and follower restarts, when one message can hold a whole segment (C25_committed_replicated). Without that size condition offsets still agree but payloads may be cut (C25_any_message_size), and they are: C25_cut_refuted shows a committed batch whose end a follower lacks, because a slice cut in the middle of a batch is decoded and stored as a shorter batch. The default message size (10 MB) is smaller than the default segment size (1 GB)."
  },
  {
   "property": "C26",
   "status": "proved",
   "theorems": [
    "C26_never_backwards",
    "C26_with_restarts"
   ],
   "note": "Holds for every interleaving without restarts; with follower restarts, log ends and the leader's watermark still never decrease (a restarted follower's watermark may, its checkpoint is written with a delay)."
  },
  {
   "property": "C27",
   "status": "proved",
   "theorems": [
    "C27_stale",
    "C27_twice",
    "C27_once"
   ],
   "note": "Holds: stale messages, immediate duplicates and late duplicates do not change the log."
  },
  {
   "property": "C28",
   "status": "proved",
   "theorems": [
    "C28_elected",
    "C28_nobody",
    "C28_committed",
    "C28_after_reports",
    "C28_actions",
    "C28_ahead_refuted",
    "C28_committed_refuted",
    "C28_unknown_position_refuted"
   ],
   "note": "Holds: the elected server is an online replica with lag below 4, one with the smallest lag when no replica is ahead of the leader's last report; nobody is elected exactly when nobody is eligible; after any history of reports ending in a complete one the elected replica has every committed record; every leader change requested on any server change names such a replica. Refuted parts: a replica ahead of the leader's last report scores as 65535 and loses to a lagging one (C28_ahead_refuted); the election never looks at the committed offset (C28_committed_refuted); a report with an unknown follower position keeps that follower's old position while the committed offset moves on (C28_unknown_position_refuted)."
  },
  {
   "property": "C29",
   "status": "proved",
   "theorems": [
    "C29_valid",
    "C29_exactly_when_possible",
    "C29_full_server_refuted"
   ],
   "note": "Holds: a placement is empty or complete and valid, and (load below 65535 per server) it is empty exactly when there are fewer servers than replicas, or a partition must be placed and fewer servers are online than replicas. Refuted outside that load: a server leading 65535 partitions is never chosen (16-bit counter)."
  },
  {
   "property": "C30",
   "status": "proved",
   "theorems": [
    "C30_fewest",
    "C30_balanced",
    "C30_balanced_growth",
    "C30_two_topics_refuted"
   ],
   "note": "Holds for one topic placed against an up-to-date store, fresh or growing. Refuted across topics: two topics placed in the same controller pass both see the old counts and land on the same server (C30_two_topics_refuted)."
  },
  {
   "property": "C31",
   "status": "proved",
   "theorems": [
    "C31_accepted_iff_well_formed"
   ],
   "note": "Full equivalence for every assignment with fewer than 2^32 partitions."
  },
  {
   "property": "C32",
   "status": "proved",
   "theorems": [
    "C32_provisioned",
    "C32_assigned_provisioned",
    "C32_recovers",
    "C32_grows",
    "C32_keeps",
    "C32_stays",
    "C32_invalid_never",
    "C32_unknown_server_never_settles",
    "C32_deleted_gone"
   ],
   "note": "Holds: two passes provision, the third creates the partitions, then nothing changes; same for assignments on existing servers; waiting topics recover in one pass; recorded placements never change under any events (additions not overflowing u32); provisioned topics stay provisioned; invalid topics are never provisioned. Also shown: an assignment naming an unknown server never settles, its status alternates at every pass."
  },
  {
   "property": "C33",
   "status": "proved",
   "theorems": [
    "C33_stored_where_said",
    "C33_committed",
    "C33_nothing_left",
    "C33_refused",
    "C33_refused_because",
    "C33_responses_in_order",
    "C33_timed_out_refuted",
    "C33_no_longer_leader_refuted",
    "C33_storage_error_refuted",
    "C33_deduplicated_refuted"
   ],
   "note": "Holds: a successful entry's records are stored exactly at the reported offset and committed when the request asked for it; nothing of a partition is stored when its entry was refused before writing; responses are in request order. Refuted (witnesses): an entry that reports a timeout, a loss of leadership or a storage error may have been stored, and a deduplicating SmartModule changes how many records are stored."
  },
  {
   "property": "C34",
   "status": "proved",
   "theorems": [
    "C34_in_order_once",
    "C34_everything",
    "C34_comes_to_rest",
    "C34_cut_refuted",
    "C34_tiny_limit_refuted",
    "C34_uncommitted_refuted"
   ],
   "note": "Holds for every interleaving when slices are not cut by the response limit: records delivered in order, once, without gap, complete at rest, and the stream comes to rest; the only error is removal by retention. Refuted (witnesses): a response limit that cuts a slice loses records; a limit smaller than a header delivers nothing; a start above the watermark delivers uncommitted records."
  },
  {
   "property": "C35",
   "status": "proved",
   "theorems": [
    "C35_in_order_once",
    "C35_everything",
    "C35_comes_to_rest",
    "C35_too_big_refuted",
    "C35_segment_refuted",
    "C35_inside_refuted"
   ],
   "note": "Holds when the start is batch-aligned, what passes of one batch fits the limit, and the range lies in the active segment or something of every batch passes. Refuted (witnesses) when any of these three conditions fails: records that pass are never delivered."
  },
  {
   "property": "C36",
   "status": "proved",
   "theorems": [
    "C36_offsets_kept",
    "C36_filtered_refuted"
   ],
   "note": "Holds for SmartModules that emit exactly one record per input record. Refuted (witness): after a dropped record the following ones are shown with offsets that are not theirs."
  },
  {
   "property": "C37",
   "status": "proved",
   "theorems": [
    "C37_once_in_order",
    "C37_every_run",
    "C37_sizes",
    "C37_queue_bounded",
    "C37_flush_sends",
    "C37_nothing_left",
    "C37_full_sent",
    "C37_unconnected",
    "C37_clock_refuted",
    "C37_request_refuted",
    "C37_retry_refuted"
   ],
   "note": "Holds when every request is answered (C37_once_in_order); with failures the accepted records are still cut into requests in order and each request arrives at most as often as it is tried (C37_every_run). Batch limits hold always (C37_sizes). When clocks are steady nothing stays behind with nothing scheduled (C37_nothing_left); as long as there is no connection everything accepted stays queued in order and nobody is told anything (C37_unconnected; see C108 for how long). Refuted: at-least-once retry after a lost response duplicates; a wall clock set back leaves a batch queued with nothing scheduled; a flush puts several batches into one request larger than max_request_size."
  },
  {
   "property": "C38",
   "status": "proved",
   "theorems": [
    "C38_offset",
    "C38_smartmodule_refuted"
   ],
   "note": "Holds with at-least-once delivery for requests that the broker stores unchanged: a reader finds the record at the offset the application was told. Refuted when a SmartModule of the producer drops records (C38_smartmodule_refuted); for at-most-once delivery see C39_at_most_once_refuted."
  },
  {
   "property": "C39",
   "status": "proved",
   "theorems": [
    "C39_success_only",
    "C39_always_told",
    "C39_failure_shown",
    "C39_flush_all",
    "C39_at_most_once_refuted",
    "C39_flush_all_refuted"
   ],
   "note": "Holds with at-least-once delivery: success only with a NoError code for the record's batch, nobody waits for ever for a record that left the queue, a request without any answer shows in the next push. Refuted with at-most-once delivery (the code in the response is ignored) and for the flush of all partitions when its two maps are iterated in different orders."
  },
  {
   "property": "C40",
   "status": "proved",
   "theorems": [
    "C40_accepted_fits",
    "C40_fits_accepted",
    "C40_crowded_out",
    "C40_refuted"
   ],
   "note": "An accepted record always fits by itself (C40_accepted_fits); a record that fits by itself and next to the last queued batch is accepted (C40_fits_accepted). The property as stated is refuted: a record that does not fit next to the last queued batch is rejected although it fits by itself (C40_crowded_out, C40_refuted)."
  },
  {
   "property": "C41",
   "status": "proved",
   "theorems": [
    "C41_keyed",
    "C41_exists",
    "C41_fair",
    "C41_available",
    "C41_wrap_refuted"
   ],
   "note": "Holds for any hash function, any mix of keyed and keyless records and a fixed set of partitions, while the 32-bit counter does not wrap or the number of available partitions divides 2^32. Refuted across the wrap (C41_wrap_refuted)."
  },
  {
   "property": "C42",
   "status": "proved",
   "theorems": [
    "C42_inside",
    "C42_monotone",
    "C42_absolute",
    "C42_empty_range_refuted"
   ],
   "note": "Relative requests resolve into [log start, last committed], exactly when the named position is inside, monotonically; absolute offsets are taken unchanged (not clamped). Refuted when the log starts after the last committed record (retention ignores the watermark): clamp panics."
  },
  {
   "property": "C43",
   "status": "proved",
   "theorems": [
    "C43_not_beyond",
    "C43_unmanaged",
    "C43_never_decreases",
    "C43_flush",
    "C43_refused_refuted",
    "C43_early_refuted",
    "C43_reconnect_refuted",
    "C43_decrease_refuted"
   ],
   "note": "Stored offset is always the previous one or a record handed out and committed (all modes, any reconnects, refusals, lost replies). Without reconnects it never decreases and a successful flush means it equals the last commit, unless an automatic flush had sent that offset. Refuted otherwise: a refused or pending automatic flush makes an explicit flush report success with nothing stored; reconnecting forgets commits; messages of an old connection decrease the stored offset."
  },
  {
   "property": "C44",
   "status": "proved",
   "theorems": [
    "C44_everything",
    "C44_ends",
    "C44_inside_refuted",
    "C44_filter_refuted",
    "C44_expand_refuted"
   ],
   "note": "Holds without SmartModule when the start is a batch boundary: everything committed at the start is returned, and the read terminates. Refuted for a start inside a batch (records before the start are counted, the read ends early), for filtering SmartModules (never ends) and for expanding ones (ends early)."
  },
  {
   "property": "C45",
   "status": "proved",
   "theorems": [
    "C45_one_partition",
    "C45_lost_refuted",
    "C45_repeat_refuted",
    "C45_end_refuted",
    "C45_smart_refuted"
   ],
   "note": "Holds for one partition, absolute start, no SmartModule: strictly increasing, nothing skipped except what retention removed, complete at rest, for any number of failures and concurrent writes/retention (no SPU restart). Refuted for several partitions (shared next offset: records lost or repeated), for a start relative to the end when the connection fails before the first record, and with SmartModules."
  },
  {
   "property": "C46",
   "status": "proved",
   "theorems": [
    "C46_contents",
    "C46_client",
    "C46_client_calm",
    "C46_client_resync",
    "C46_spu",
    "C46_spu_calm",
    "C46_spu_resync",
    "C46_enough",
    "C46_initial",
    "C46_recreated_refuted",
    "C46_spu_recreated_refuted",
    "C46_emptied_refuted",
    "C46_spu_emptied_refuted"
   ],
   "note": "Settled exactly. A watcher that showed the store at its last look shows it after the next one if and only if no key was deleted and created again in between (and, if a full sync happened, the store is not empty or it showed nothing): C46_client and C46_spu; it then follows the store through every calm history and is right again after any full sync that leaves the store non-empty. Refuted beyond: a re-created object is removed from clients and SPUs because deletes are applied after updates, and a full sync of an empty store is taken as 'no change'. C46_enough: what the store reports would be enough if deletes were applied first. C46_initial: waiting for the first sync panics if and only if the store has had no full sync."
  },
  {
   "property": "C47",
   "status": "proved",
   "theorems": [
    "C47_notified",
    "C47_reported",
    "C47_full",
    "C47_delete_refuted",
    "C47_full_refuted"
   ],
   "note": "Settled exactly. A batch is announced if and only if it changes something or holds a delete; an unannounced batch leaves the store untouched; updates and deletes given to a watcher with a filter are exactly the objects whose watched parts changed, were created or were deleted since its last look (C47_reported); after a full sync everything is given. Refuted beyond: deletes of absent keys and full syncs with the same contents are announced although nothing changed."
  },
  {
   "property": "C48",
   "status": "proved",
   "theorems": [
    "C48_never_left",
    "C48_delivered",
    "C48_can_go_on",
    "C48_waits",
    "C48_order",
    "C48_sticky",
    "C48_repeat_refuted",
    "C48_zero_refuted",
    "C48_overwritten_refuted"
   ],
   "note": "For every interleaving (any number of publishers, listeners, dropped calls): a call is left waiting with a value it has not seen only while the publisher is between its store and its notify (C48_never_left); otherwise it returns the value after two steps of its own (C48_delivered, C48_can_go_on); the values it is given are values of the event in order (C48_order); sticky events likewise (C48_sticky). Refuted beyond the claim: a value can be returned twice, a fresh listener is not told of the value 0, and a racing increment can overwrite a value (a shutdown) before it is seen."
  },
  {
   "property": "C49",
   "status": "proved",
   "theorems": [
    "C49_reload",
    "C49_restart",
    "C49_as_of",
    "C49_current",
    "C49_put",
    "C49_delete",
    "C49_failed_delete_refuted",
    "C49_crash_refuted",
    "C49_retention_refuted",
    "C49_flush_refuted",
    "C49_behind_refuted"
   ],
   "note": "For an SPU that is the only replica of its offsets topic, after any history of puts, deletes, flushes in any iteration order, failed appends of puts and flushes, retention and restarts, reloading from the log (at once or after a restart that finds the saved high watermark) gives exactly the table, or fails if retention removed log entries (C49_reload, C49_restart). For any number of replicas a reload gives exactly the table as of the high watermark if the log is complete or holds a flush below it, and panics otherwise (C49_as_of, C49_current). Reported changes read back (C49_put, C49_delete). Refuted: a delete whose append fails is undone by a reload; an unacknowledged put on disk above the saved high watermark surfaces later; retention before a flush makes the table unreadable; once the table outgrows the largest batch every put is reported failed though made; a leader restart with a lagging high watermark loses acknowledged puts."
  },
  {
   "property": "C50",
   "status": "proved",
   "theorems": [
    "C50_right",
    "C50_ids",
    "C50_only",
    "C50_stream",
    "C50_ends",
    "C50_not_before",
    "C50_answered",
    "C50_closed",
    "C50_lost_refuted",
    "C50_wrap_refuted"
   ],
   "note": "Holds: a request is only given what came with its id (any input); ids differ up to 2^32 requests; a frame leaves other requests alone; an open stream gets exactly what came with its id, in order; a waiting request returns the last response that came, never earlier; Closed is returned only if the connection ended. Refuted: a response that came is lost if the connection closes before the caller runs (C50_lost_refuted); after 2^32 requests ids repeat and a stream's response is returned to another request (C50_wrap_refuted)."
  },
  {
   "property": "C51",
   "status": "proved",
   "theorems": [
    "C51_chosen",
    "C51_none",
    "C51_any",
    "C51_sent",
    "C51_sent_refuted"
   ],
   "note": "Holds for tables with one non-empty range per key: the chosen version is the highest common one, none iff there is no common one; it is the one sent. Refuted: with no common version the request is still sent with its default version, which the server does not support (C51_sent_refuted)."
  },
  {
   "property": "C52",
   "status": "proved",
   "theorems": [
    "C52_completes",
    "C52_leader_behind_stuck",
    "C52_leader_restart_refuted"
   ],
   "note": "Holds with a fixed leader that does not restart (C52_completes). Refuted for a leader that restarts (or is elected) with a smaller watermark than its followers: it rejects their reports as newer and never sends anything again (C52_leader_behind_stuck, C52_leader_restart_refuted)."
  },
  {
   "property": "C53",
   "status": "proved",
   "theorems": [
    "C53_never_left",
    "C53_delivered",
    "C53_looks",
    "C53_refuted"
   ],
   "note": "Holds while at most one task at a time changes the store (C53_never_left, C53_delivered, C53_looks); refuted with two concurrent writers: the announcements can be made in the wrong order and a listener is left waiting (C53_refuted)."
  },
  {
   "property": "C54",
   "status": "proved",
   "theorems": [
    "C54_never_left",
    "C54_delivered",
    "C54_can_go_on",
    "C54_none_lost"
   ],
   "note": "For every interleaving with one connection per follower: C54_never_left, C54_delivered, C54_can_go_on, C54_none_lost."
  },
  {
   "property": "C55",
   "status": "proved",
   "theorems": [
    "C55_free",
    "C55_goes_on",
    "C55_held",
    "C55_refuted"
   ],
   "note": "Holds as long as every open stream has room in its queue (C55_free, C55_goes_on). Refuted in general: a response for a stream with a full queue keeps the dispatcher waiting with the lock of the senders; until the stream is read or dropped nobody else is registered, answered or timed out (C55_held, C55_refuted)."
  },
  {
   "property": "C56",
   "status": "proved",
   "theorems": [
    "C56_stream",
    "C56_request",
    "C56_stuck",
    "C56_late_refuted",
    "C56_again_refuted",
    "C56_unready_refuted"
   ],
   "note": "Holds for streams that were registered and requests that listened or waited when the connection ended. Refuted: a stream opened after the end waits for ever (C56_late_refuted); a stream that was told and asks again waits for ever (C56_again_refuted); a request registered but not yet listening is not woken and can only time out (C56_unready_refuted)."
  },
  {
   "property": "C57",
   "status": "proved",
   "theorems": [
    "C57_prefix",
    "C57_one_task",
    "C57_any_limit",
    "C57_cut_refuted",
    "C57_overlap_refuted",
    "C57_failover_refuted"
   ],
   "note": "Holds if a message can hold a segment of the source (C57_prefix: no two tasks of the target between check and write at once; C57_one_task: home to remote, where that cannot happen); with smaller messages payloads may be shortened, offsets agree (C57_any_limit). Refuted: a batch longer than a message is stored cut (C57_cut_refuted); two home handlers, of the old and the new connection, store the same record twice (C57_overlap_refuted); records are copied before they are committed, so after a failover of the source the copies can differ silently (C57_failover_refuted)."
  },
  {
   "property": "C58",
   "status": "proved",
   "theorems": [
    "C58_at_rest",
    "C58_bounded",
    "C58_catches_up",
    "C58_evicted",
    "C58_evicted_refuted",
    "C58_once_refuted"
   ],
   "note": "Holds from a new connection when the target takes the batches and the source has what is missing: the connection lasts, the exchange is finite and at rest the target has everything (C58_catches_up, C58_bounded, C58_at_rest). Refuted: once retention at the source has passed the end of the target, the target never gets another record (C58_evicted, C58_evicted_refuted); records that were copied and acknowledged are sent again (C58_once_refuted)."
  },
  {
   "property": "C59",
   "status": "proved",
   "theorems": [
    "C59_restart",
    "C59_last_write",
    "C59_torn_refuted",
    "C59_error_refuted",
    "C59_deleted_back_refuted",
    "C59_loaded_twice_refuted"
   ],
   "note": "Holds for every interleaving and every restart between steps, when no file operation fails, no process stops while it writes a file and no store is loaded twice (C59_restart, C59_last_write). Refuted otherwise: files are truncated and then written, so a stop in between loses the object and makes the whole kind unreadable (C59_torn_refuted); a failed write is reported, but readers see the new value until the restart (C59_error_refuted); a file that cannot be removed brings a deleted object back (C59_deleted_back_refuted); two tasks that load a store at the same time leave two stores, and an accepted write is not seen (C59_loaded_twice_refuted)."
  },
  {
   "property": "C60",
   "status": "proved",
   "theorems": [
    "C60_counted",
    "C60_stale_refused",
    "C60_current_accepted",
    "C60_update_keeps",
    "C60_created_again_refuted",
    "C60_second_update_refuted"
   ],
   "note": "Holds as long as the object is not deleted in between, over any interleaving and restarts (same conditions as C59): C60_counted, C60_stale_refused, C60_current_accepted; an update of the spec keeps the status and the other way round, and no other object changes (C60_update_keeps). Refuted: after a deletion and a new creation old metadata is accepted (C60_created_again_refuted); an update of the status with the metadata used for an update of the spec is refused and lost (C60_second_update_refuted)."
  },
  {
   "property": "C61",
   "status": "proved",
   "theorems": [
    "C61_delete",
    "C61_no_orphans",
    "C61_only_own_children",
    "C61_changed_child_refuted",
    "C61_grandchild_refuted",
    "C61_after_restart_refuted",
    "C61_unlinked_refuted"
   ],
   "note": "A successful deletion that runs alone removes the object and the children it lists, and nothing else (C61_delete). With two levels of owners, children that are created once and not changed, and operations that succeed, lists of children and owners agree for ever, restarts included (C61_no_orphans, C61_only_own_children). Refuted otherwise: a changed child is not taken off the list, so a later object of its name goes with the wrong owner (C61_changed_child_refuted); children of children stay (C61_grandchild_refuted); after a restart a deletion fails as long as the kind of the children was not read (C61_after_restart_refuted); a child whose owner changes while it is linked is stored but not listed, and stays (C61_unlinked_refuted)."
  },
  {
   "property": "C62",
   "status": "proved",
   "theorems": [
    "C62_follows",
    "C62_overtaken_refuted",
    "C62_two_watchers_refuted",
    "C62_full_waits",
    "C62_full_refuted"
   ],
   "note": "Holds for one watcher when operations run one after the other, whenever it receives (C62_follows). Refuted otherwise: updates are sent after the lock is released, so a deletion can be sent before the update it follows and the watcher keeps a deleted object (C62_overtaken_refuted); two watchers of a kind share the updates (C62_two_watchers_refuted); with 100 updates not received a writer waits as long as nobody receives (C62_full_waits, C62_full_refuted)."
  },
  {
   "property": "C63",
   "status": "proved",
   "theorems": [
    "C63_one_encoding",
    "C63_accepted_values",
    "C63_last_entry_wins",
    "C63_one_encoding_refuted"
   ],
   "note": "Holds for integers, booleans, byte buffers, options and structs (C63_one_encoding); every accepted value of a type without variable-length integers is proper and survives rewriting (C63_accepted_values); repeated map keys take the last value (C63_last_entry_wins). Refuted for lists, strings, maps, durations and variable-length integers, which have values read from two different byte sequences (C63_one_encoding_refuted). Values with variable-length integers are not in C63_accepted_values: a decoded 64-bit one may be outside the range that can be written (see C01)."
  },
  {
   "property": "C64",
   "status": "proved",
   "theorems": [
    "C64_one_log",
    "C64_late_message_refuted"
   ],
   "note": "Holds when whoever is elected has everything a later participant has and no message of the old leader arrives after the change (C64_one_log). Refuted when a message of the old leader arrives late (C64_late_message_refuted): a follower does not check who sent it."
  },
  {
   "property": "C65",
   "status": "proved",
   "theorems": [
    "C65_committed_kept",
    "C65_shorter_elected_refuted"
   ],
   "note": "Holds under the same condition on elections (C65_committed_kept). Refuted when a replica with a shorter log may be elected (C65_shorter_elected_refuted): the old leader's extra records are counted as the successor's, and the committed record is lost when the old leader is elected again."
  },
  {
   "property": "C66",
   "status": "proved",
   "theorems": [
    "C66_lost_blocks",
    "C66_completes",
    "C66_elected_stuck_refuted"
   ],
   "note": "Holds when no replica is lost and no follower knows a higher watermark than the new leader: an exchange of messages commits the whole log (C66_completes; the followers must accept the leader's batches, the leader must still have what they lack, and offsets are below 2^31). Refuted otherwise: a new leader that had not been told the watermark, with no replica lost and all logs equal, never commits again (C66_elected_stuck_refuted); nothing is committed while any replica is lost (C66_lost_blocks)."
  },
  {
   "property": "C67",
   "status": "proved",
   "theorems": [
    "C67_last",
    "C67_prefix",
    "C67_segments_refuted",
    "C67_cleaned_refuted"
   ],
   "note": "Holds when no segment begins among the last N records (C67_last). In every log a non-empty prefix of them is shown and nothing else (C67_prefix). Refuted when a segment begins among them: the newest records are not shown (C67_segments_refuted); and when retention has removed records above the watermark: the clamp panics (C67_cleaned_refuted)."
  },
  {
   "property": "C68",
   "status": "proved",
   "theorems": [
    "C68_since",
    "C68_nothing_else",
    "C68_evicted_fails",
    "C68_single_refuted",
    "C68_first_refuted"
   ],
   "note": "Holds when timestamps do not go back, every batch has two records, the watermark is at a batch boundary, and the log is complete or reaches back further (C68_since). Nothing else is ever shown (C68_nothing_else). The search reads one offset too low: with batches of one record every second one is left out (C68_single_refuted), with one record in the log it fails (C68_first_refuted), and it always fails when retention has removed something and the rest is young enough (C68_evicted_fails)."
  },
  {
   "property": "C69",
   "status": "proved",
   "theorems": [
    "C69_as_whole",
    "C69_everything",
    "C69_batching_refuted",
    "C69_counted_twice_refuted"
   ],
   "note": "Holds while only the last module is an array-map, the chain does not fail and what comes out fits into one response (C69_as_whole, C69_everything). Refuted otherwise: after an array-map the next module sees offsets that depend on batches (C69_batching_refuted); a batch that no longer fits into a response has been counted and is counted again (C69_counted_twice_refuted)."
  },
  {
   "property": "C70",
   "status": "proved",
   "theorems": [
    "C70_reports",
    "C70_unfinished_refuted"
   ],
   "note": "Holds when the last module of the chain fails (C70_reports). Refuted for an earlier module: the records of its batch that it had let through are delivered without having been through the modules after it (C70_unfinished_refuted)."
  },
  {
   "property": "C71",
   "status": "proved",
   "theorems": [
    "C71_resumes",
    "C71_batch_skipped_refuted",
    "C71_all_skipped_refuted"
   ],
   "note": "Refuted: the rest of the batch is skipped (C71_batch_skipped_refuted), and everything committed is skipped if the response with the error brings no records (C71_all_skipped_refuted). What holds: with records, the stream goes on at the end of the batch of the failing record (C70_reports), with exactly what the chain makes of the records there (C71_resumes)."
  },
  {
   "property": "C72",
   "status": "proved",
   "theorems": [
    "C72_plain",
    "C72_never",
    "C72_timestamp_refuted",
    "C72_never_stored",
    "C72_look_back_refuted"
   ],
   "note": "Holds without SmartModules (C72_plain); in a stream the functions are shown true offsets and timestamps (C69). Refuted with SmartModules: what went through one never has a timestamp (C72_never, C72_timestamp_refuted), also when it is stored (C72_never_stored); in a look-back functions see positions and time differences inside the batch (C72_look_back_refuted)."
  },
  {
   "property": "C73",
   "status": "proved",
   "theorems": [
    "C73_stores",
    "C73_gaps_refuted",
    "C73_same_offset_refuted",
    "C73_positions_refuted",
    "C73_refused_refuted"
   ],
   "note": "Holds for chains of maps and aggregates (C73_stores). Refuted for filters: offsets without records (C73_gaps_refuted); array-maps: two records with the same offset (C73_same_offset_refuted); several batches in one record set: wrong positions in the stored batch (C73_positions_refuted); a refused write leaves its traces in the state (C73_refused_refuted)."
  },
  {
   "property": "C74",
   "status": "proved",
   "theorems": [
    "C74_follows",
    "C74_down",
    "C74_untouched",
    "C74_settles",
    "C74_resync",
    "C74_reconnect_refuted",
    "C74_increments_refuted",
    "C74_restart_refuted"
   ],
   "note": "Holds while increments do not overlap and a server registers again only after its last connection was given up (C74_follows, C74_down, C74_untouched, C74_settles); overlapping increments are repaired by the five-minute re-sync (C74_resync). Refuted: a server that reconnects before the end of its old connection is noticed is shown offline for good (C74_reconnect_refuted); overlapping increments hide a change until the re-sync (C74_increments_refuted); a server that goes while the controller is down stays online for good (C74_restart_refuted)."
  },
  {
   "property": "C75",
   "status": "proved",
   "theorems": [
    "C75_led",
    "C75_settles",
    "C75_resync",
    "C75_race_refuted",
    "C75_storage_refuted",
    "C75_restart_refuted",
    "C75_deleted_refuted"
   ],
   "note": "Holds while the dispatcher keeps up and no storage is full, no server is removed and the controller does not restart (C75_led, C75_settles); from any reachable state without pending actions the five-minute re-sync of the servers repairs every partition whose leader is a server the cluster knows (C75_resync). Refuted otherwise: a candidate that falls before its election is applied (C75_race_refuted), a leader whose storage is full and that falls with no candidate up (C75_storage_refuted), a restart between the status and the election (C75_restart_refuted): the partition stays with a leader that is down although a replica could lead until the next re-sync; a server that is removed while it leads stays leader for good, even with re-syncs (C75_deleted_refuted)."
  },
  {
   "property": "C76",
   "status": "proved",
   "theorems": [
    "C76_shown",
    "C76_settles",
    "C76_not_repeated",
    "C76_lost_refuted",
    "C76_unsent_refuted",
    "C76_unknown_refuted",
    "C76_overlap_refuted",
    "C76_mark_refuted",
    "C76_retention_refuted",
    "C76_base_offset_refuted"
   ],
   "note": "Holds for offsets and sizes while reports of one partition do not overlap, nothing is lost, the controller's own changes do not overlap with reports, partitions are known and retention deletes nothing (C76_shown, C76_settles). Reports are never repeated (C76_not_repeated), so each of these leaves a wrong status until the next change: a connection that breaks (C76_lost_refuted), sending that fails (C76_unsent_refuted), one unknown partition in a message, which drops the whole message (C76_unknown_refuted), two reports made at the same time (C76_overlap_refuted), a status copied by the controller before a report is applied, as happens when a leader reports a full storage in the same tick (C76_mark_refuted), retention (C76_retention_refuted). The shown base offset is always 0: merging never copies it (C76_base_offset_refuted)."
  },
  {
   "property": "C77",
   "status": "proved",
   "theorems": [
    "C77_created",
    "C77_deleted",
    "C77_written",
    "C77_refused",
    "C77_awake",
    "C77_answered",
    "C77_works_off",
    "C77_overwritten_refuted",
    "C77_dropped_refuted",
    "C77_lost_refuted",
    "C77_late_refuted",
    "C77_comes_back_refuted"
   ],
   "note": "Holds for a request that is alone with its object: creating and deleting even while controllers write its status or link it (C77_created, C77_deleted), changing while they do not (C77_written); refusal changes nothing (C77_refused); no lost wake-up at all (C77_awake); an answer once the object is at rest (C77_answered), which the dispatcher reaches by itself (C77_works_off). Otherwise: two creations of one name both succeed and the later one overwrites (C77_overwritten_refuted); adding partitions is answered with success although it was refused as stale, because a link from another kind of object renewed the revision (C77_dropped_refuted); of two additions of partitions one is lost (C77_lost_refuted); a request answered with a timeout is done afterwards (C77_late_refuted); an object deleted with success comes back through a change under way (C77_comes_back_refuted). The wait of topic creation for its partitions is C114."
  },
  {
   "property": "C78",
   "status": "proved",
   "theorems": [
    "C78_arrives",
    "C78_size",
    "C78_whole",
    "C78_messages",
    "C78_control_whole",
    "C78_fetch_whole",
    "C78_specs",
    "C78_topic_kept",
    "C78_compression_kept",
    "C78_partition_kept",
    "C78_status_kept",
    "C78_fetch_kept",
    "C78_old_version_refuted"
   ],
   "note": "Holds for every well formed type, value and version (C78_arrives, C78_size, C78_whole); the modelled messages are well formed (C78_messages), control objects arrive whole at version 19 (C78_control_whole), fetch requests at 25 (C78_fetch_whole), SmartModules before version 10 keep only their code (C78_specs). Which version keeps which part of topics, partitions, partition status and fetch requests is stated for every version (C78_topic_kept, C78_partition_kept, C78_status_kept, C78_fetch_kept). At an old version what it does not carry is dropped without an error: a topic with deduplication is created without it at version 11 (C78_old_version_refuted)."
  },
  {
   "property": "C79",
   "status": "proved",
   "theorems": [
    "C79_agree",
    "C79_from_older",
    "C79_listed",
    "C79_watch_refuted",
    "C79_new_variants_refuted"
   ],
   "note": "Exact answer for any two releases: all is understood unless a variant younger than the receiver is sent (C79_agree), so the current release understands older ones (C79_from_older) and lists are understood (C79_listed). Younger variants are written at versions that do not know them: partitions out of storage, detailed mirror failures and mirror topics make the whole message unreadable for the release before (C79_new_variants_refuted). Watches are always sent at version 19, also to servers that speak less, whose answers are then misread (C79_watch_refuted)."
  },
  {
   "property": "C80",
   "status": "proved",
   "theorems": [
    "C80_create",
    "C80_create_old",
    "C80_create_mirror_old",
    "C80_topic_changed_refuted",
    "C80_topic_refused_refuted",
    "C80_module_emptied_refuted",
    "C80_module_panics_refuted",
    "C80_delete",
    "C80_delete_old",
    "C80_delete_mirror_old",
    "C80_update",
    "C80_update_old",
    "C80_delete_other",
    "C80_update_other"
   ],
   "note": "Holds from version 11 on (C80_create, C80_delete, C80_update), for deletions also before (C80_delete_old); a request about one kind of object is not taken for another (C80_delete_other, C80_update_other). Create requests of the versions 9 and 10 hold for the requests named in survives_conversion (C80_create_old); otherwise a topic with an assigned partition gets another compression (C80_topic_changed_refuted) or is refused (C80_topic_refused_refuted), a SmartModule loses its code (C80_module_emptied_refuted) or the server panics (C80_module_panics_refuted). Mirrors are refused before version 11 (C80_create_mirror_old, C80_delete_mirror_old); updates before version 11 never work although version 1 is announced (C80_update_old)."
  },
  {
   "property": "C81",
   "status": "proved",
   "theorems": [
    "C81_told",
    "C81_sync",
    "C81_known",
    "C81_others",
    "C81_uninvolved_refuted",
    "C81_restart",
    "C81_not_retried_refuted",
    "C81_still_leads_refuted",
    "C81_connected",
    "C81_no_other_connection"
   ],
   "note": "Holds in orderly histories (RoleSpec.orderly, one condition per event) for partitions with a replica on the node (C81_told, C81_sync, C81_known), a node without a replica never leads (C81_others), connections exist exactly for followed leaders (C81_connected in all histories, C81_no_other_connection), and a restart repairs the parts in every history (C81_restart). Otherwise: a node without a replica that hears of a leader change creates a directory and follows (C81_uninvolved_refuted); a replica whose storage or deduplication module failed to load once is not taken up again by any message (C81_not_retried_refuted); a leader that hears of its successor and of the deletion in one message leads on for ever, with its files (C81_still_leads_refuted)."
  },
  {
   "property": "C82",
   "status": "proved",
   "theorems": [
    "C82_own_records",
    "C82_gone",
    "C82_gone_marked",
    "C82_kept",
    "C82_reports",
    "C82_restart_refuted",
    "C82_reconnect_refuted",
    "C82_new_deleted_refuted",
    "C82_report_refuted"
   ],
   "note": "Files of partitions that are not being deleted stay in every history, also when storage fails (C82_kept). In orderly histories deleted files are gone (C82_gone, C82_gone_marked, C81_told), all records are the topic's own (C82_own_records) and a report only removes a partition that is being deleted (C82_reports). Otherwise: a topic deleted while a node is down or disconnected leaves its records to the next topic of this name, which serves them (C82_restart_refuted, C82_reconnect_refuted); the report of the old partition's removal, handled after the name is used again, deletes the new partition (C82_new_deleted_refuted); a restarted node reports the removal of files it still has (C82_report_refuted)."
  },
  {
   "property": "C83",
   "status": "proved",
   "theorems": [
    "C83_own",
    "C83_plain",
    "C83_fits",
    "C83_no_version",
    "C83_hidden_refuted",
    "C83_newest_refuted",
    "C83_stable_refuted",
    "C83_no_group_refuted"
   ],
   "note": "For histories whose modules are kept under different names: C83_own, C83_plain, C83_fits (which module is taken, exactly); a name whose version is none finds nothing (C83_no_version). Otherwise than expected: a plain module is run instead of every package of that name, even for the full name with version (C83_hidden_refuted); group/name takes the version that comes first as text, so 0.1.0 while 0.2.0 is there (C83_newest_refuted); publishing a module in another group changes what a name in use runs (C83_stable_refuted); name@version without a group finds no package (C83_no_group_refuted)."
  },
  {
   "property": "C84",
   "status": "proved",
   "theorems": [
    "C84_listed",
    "C84_content",
    "C84_filter",
    "C84_delete",
    "C84_invalid",
    "C84_no_clash",
    "C84_clash_refuted",
    "C84_clash_plain_refuted",
    "C84_short_delete_refuted",
    "C84_check",
    "C84_check_runs",
    "C84_check_passes_refuted",
    "C84_check_refuses_refuted"
   ],
   "note": "For names that do not clash: C84_listed, C84_content, C84_filter, C84_delete, C84_check, C84_check_runs; C84_invalid in general; C84_no_clash says when names cannot clash (groups without '-'). Otherwise: group b-c with name a and group c with name a-b replace each other (C84_clash_refuted), as does a plain module called name-group-version (C84_clash_plain_refuted); a package is listed and run by its short name but cannot be deleted by it (C84_short_delete_refuted); a topic is accepted with a deduplication filter name-group-version that no node finds (C84_check_passes_refuted) and refused with group/name, which they would find (C84_check_refuses_refuted)."
  },
  {
   "property": "C85",
   "status": "proved",
   "theorems": [
    "C85_create",
    "C85_create_table",
    "C85_denied",
    "C85_created",
    "C85_list",
    "C85_topics",
    "C85_others",
    "C85_modules",
    "C85_partitions",
    "C85_partition_filter_refuted",
    "C85_session",
    "C85_single",
    "C85_single_refuted",
    "C85_part_refuted",
    "C85_default",
    "C85_default_refuted",
    "C85_file",
    "C85_file_refuted",
    "C85_file_bad"
   ],
   "note": "C85_create, C85_create_table, C85_denied, C85_created, C85_list, C85_topics, C85_others, C85_modules, C85_partitions, C85_session settle creating and listing of every kind but mirrors (C86). Otherwise than expected: permissions for single objects have no effect at all (C85_single, C85_single_refuted), and where they would be asked for, any part of the name fits (C85_part_refuted); the default policy does not let Root create SmartModules (C85_default_refuted; its exact extent is C85_default); names with ':' are cut in the policy file (C85_file, C85_file_refuted; unknown actions are refused, C85_file_bad); lists of partitions ignore the names asked for (C85_partition_filter_refuted)."
  },
  {
   "property": "C86",
   "status": "proved",
   "theorems": [
    "C86_unchecked",
    "C86_delete_any",
    "C86_watch",
    "C86_delete_refuted",
    "C86_update_refuted",
    "C86_mirror_refuted",
    "C86_table_refuted",
    "C86_read_only",
    "C86_read_only_mirrors",
    "C86_read_only_refuted",
    "C86_proxy",
    "C86_proxy_closed",
    "C86_claim_refuted",
    "C86_no_policy"
   ],
   "note": "The property fails: these requests do not depend on who asks (C86_unchecked): every client deletes every topic (C86_delete_any, C86_delete_refuted), changes topics (C86_update_refuted), watches all objects (C86_watch), sets up, removes and lists mirrors (C86_mirror_refuted), and can find out which table formats exist (C86_table_refuted); topics of a read-only controller can be deleted (C86_read_only_refuted; what it does refuse: C86_read_only, C86_read_only_mirrors). Roles: through the proxy exactly those bound to the certificate (C86_proxy, C86_proxy_closed), on a direct connection those the client claims (C86_claim_refuted); without a policy everything is allowed (C86_no_policy). The SPU always allows everything (crates/fluvio-spu/src/start.rs, RootAuthorization), so it is not modelled."
  },
  {
   "property": "C87",
   "status": "proved",
   "theorems": [
    "C87_unique",
    "C87_taken",
    "C87_mirror",
    "C87_deleted",
    "C87_partitions",
    "C87_partitions_refuted",
    "C87_remote",
    "C87_refused",
    "C87_made",
    "C87_trial",
    "C87_unsound",
    "C87_modules",
    "C87_session"
   ],
   "note": "C87_unique, C87_taken, C87_mirror, C87_deleted, C87_partitions, C87_remote, C87_refused, C87_made, C87_trial, C87_unsound, C87_modules, C87_session. Adding partitions is done in 32 bit without a check, so the count can become zero or smaller (C87_partitions_refuted). SmartModules are C84; requests are served one after the other."
  },
  {
   "property": "C88",
   "status": "proved",
   "theorems": [
    "C88_stream",
    "C88_fetch",
    "C88_sync",
    "C88_mirror",
    "C88_stream_arrives",
    "C88_fetch_arrives",
    "C88_mirror_arrives",
    "C88_whole",
    "C88_negative_version_refuted",
    "C88_short_file_refuted"
   ],
   "note": "C88_stream, C88_fetch, C88_sync, C88_mirror (same bytes as from memory), C88_stream_arrives, C88_fetch_arrives, C88_mirror_arrives, C88_whole (what the receiver gets). Outside the domain: with a negative version, which a client can ask for, the frame is shorter than what is written (C88_negative_version_refuted); if a file is shorter than its slice the receiver waits for ever (C88_short_file_refuted)."
  },
  {
   "property": "C89",
   "status": "proved",
   "theorems": [
    "C89_left",
    "C89_sync",
    "C89_leader_cut",
    "C89_leader_clean",
    "C89_sync_refuted",
    "C89_fetch_refuted"
   ],
   "note": "C89_left is exact: which cuts leave bytes unread. C89_sync: every replica is read if only the last one is cut that way; C89_leader_cut, C89_leader_clean: leaders send parts of their log, and whole batches if the limit is at least the segment size (the defaults are 10 MB and 1 GB, so they are cut). Otherwise false: C89_sync_refuted is a reachable state in which the follower cannot read the message with two replicas (its connection ends; nothing changes, so the same message is sent again); C89_fetch_refuted is a fetch response of which the client reads, without an error, a partition that was not sent."
  },
  {
   "property": "C90",
   "status": "proved",
   "theorems": [
    "C90_nothing_else",
    "C90_each_in_order",
    "C90_each_complete",
    "C90_answers",
    "C90_consumer",
    "C90_consumer_all",
    "C90_comes_to_rest",
    "C90_receipt",
    "C90_receipt_seen",
    "C90_twice_refuted"
   ],
   "note": "C90_nothing_else (any failures), C90_each_in_order, C90_each_complete, C90_answers, C90_consumer, C90_consumer_all, C90_comes_to_rest, C90_receipt, C90_receipt_seen. As in C34 the responses must not be cut by their limit (uncut). With retries a record can be seen twice: C90_twice_refuted."
  },
  {
   "property": "C91",
   "status": "proved",
   "theorems": [
    "C91_choice",
    "C91_accepted",
    "C91_accepted_modules",
    "C91_modules_codec",
    "C91_topic_codec",
    "C91_same_records",
    "C91_consumer",
    "C91_modules_request",
    "C91_modules_log",
    "C91_lookback",
    "C91_modules_records",
    "C91_garbled_refuted",
    "C91_schema_refuted"
   ],
   "note": "C91_choice, C91_accepted, C91_accepted_modules, C91_modules_codec, C91_topic_codec, C91_same_records, C91_consumer, C91_modules_request, C91_modules_log, C91_lookback, C91_modules_records. Only the header is checked when a batch is produced: a batch that cannot be uncompressed is stored and stops every SmartModule stream (C91_garbled_refuted). The iterator over log files takes the schema id of a batch for the start of its records (C91_schema_refuted)."
  },
  {
   "property": "C92",
   "status": "proved",
   "theorems": [
    "C92_in_order",
    "C92_not_lost",
    "C92_complete",
    "C92_events",
    "C92_commit",
    "C92_refused",
    "C92_flush",
    "C92_resume",
    "C92_retry_refuted",
    "C92_distance_refuted",
    "C92_end_refuted",
    "C92_absolute_refuted",
    "C92_silent_refuted"
   ],
   "note": "C92_in_order, C92_not_lost, C92_complete, C92_events, C92_commit, C92_refused, C92_flush, C92_resume. Domain: no SmartModule, responses that hold a segment, a start that leads back (0 from the beginning, an absolute offset, or a distance from the end with a stored offset), and one partition if the consumer retries. Outside: with several partitions a reconnection skips records and later commits make the loss permanent (C92_retry_refuted); a distance from the beginning is added to the stored offset in every run (C92_distance_refuted); from the end without a stored offset, a crash skips what came in before (C92_end_refuted); an absolute start repeats all in spite of commits (C92_absolute_refuted); a partition whose connection is lost before its first response ends silently (C92_silent_refuted)."
  },
  {
   "property": "C93",
   "status": "proved",
   "theorems": [
    "C93_arrives",
    "C93_sent",
    "C93_size",
    "C93_connection",
    "C93_unknown",
    "C93_negative_timeout",
    "C93_after_failure",
    "C93_after_failure_refuted",
    "C93_current_version",
    "C93_whole",
    "C93_commit_range",
    "C93_update_range",
    "C93_unlisted",
    "C93_filter_refuted"
   ],
   "note": "C93_arrives, C93_sent, C93_size, C93_connection, C93_unknown, C93_negative_timeout, C93_current_version, C93_whole, C93_unlisted. Refuted: a produce request whose timeout is too long fails to be written after its size went into the buffer, so the next request is misread as a produce request (C93_after_failure) and the connection may end (C93_after_failure_refuted); no SPU lists the requests for stored offsets, so a client always sends its newest version, and an SPU without the filter answers with all consumers (C93_filter_refuted)."
  },
  {
   "property": "C94",
   "status": "proved",
   "theorems": [
    "C94_produced_range",
    "C94_errors",
    "C94_answers",
    "C94_whole",
    "C94_produced",
    "C94_found",
    "C94_found_only",
    "C94_offsets_found",
    "C94_offsets_only",
    "C94_text_refuted"
   ],
   "note": "C94_errors, C94_answers, C94_whole, C94_produced, C94_found, C94_found_only, C94_offsets_found, C94_offsets_only. Domain: strings of at most 32767 bytes. Outside: for an error text of 32768 to 65535 bytes (a SmartModule chain that fails to start has one of any length) the client reads an empty text and takes the first bytes of the text for the offset (C94_text_refuted)."
  },
  {
   "property": "C95",
   "status": "proved",
   "theorems": [
    "C95_asked",
    "C95_start",
    "C95_elsewhere_refuted"
   ],
   "note": "C95_asked, C95_start. Refuted: an SPU that does not lead the partition (any more) answers with an error code and offsets 0, and the client does not look at the error code: whatever was asked, consumption starts at offset 0 (C95_elsewhere_refuted)."
  },
  {
   "property": "C96",
   "status": "proved",
   "theorems": [
    "C96_sent",
    "C96_home",
    "C96_converges",
    "C96_reaches",
    "C96_reconnects",
    "C96_stays",
    "C96_served",
    "C96_refused",
    "C96_stuck_refuted",
    "C96_early_refuted"
   ],
   "note": "C96_sent, C96_home, C96_converges, C96_reaches, C96_reconnects, C96_stays, C96_served, C96_refused. Refuted: a home that stops serving a remote, or does not start to, leaves the connection open and does not say so; a remote that is unregistered and registered again, or connects before it is registered, does not follow its home until the connection happens to be lost (C96_stuck_refuted, C96_early_refuted)."
  },
  {
   "property": "C97",
   "status": "proved",
   "theorems": [
    "C97_untouched",
    "C97_new",
    "C97_existing",
    "C97_taken_over_refuted",
    "C97_moved_refuted",
    "C97_settings_refuted",
    "C97_unplaced_refuted",
    "C97_race_refuted"
   ],
   "note": "C97_untouched, C97_new, C97_existing. Refuted: a topic of the remote's own with the name of one of the home's is turned into a mirror, and deleted with its partitions when the home deletes its topic (C97_taken_over_refuted); when the SPU of the home gets another address the spec of the topic follows and the partition keeps the old link (C97_moved_refuted); settings of an existing mirror never follow (C97_settings_refuted); while the SPU is not registered at the home the topic is left out of the message, and the remote deletes its topic and partitions (C97_unplaced_refuted); a topic deleted and created anew by users while a message is handled is deleted (C97_race_refuted)."
  },
  {
   "property": "C98",
   "status": "proved",
   "theorems": [
    "C98_verifies",
    "C98_assembled",
    "C98_unchanged",
    "C98_listed",
    "C98_signature_files",
    "C98_unique",
    "C98_kept",
    "C98_changed",
    "C98_removed",
    "C98_forged_refuted",
    "C98_in_front_refuted",
    "C98_renamed_refuted",
    "C98_second_refuted"
   ],
   "note": "C98_verifies, C98_assembled, C98_unchanged, C98_listed, C98_signature_files, C98_unique, C98_kept, C98_changed, C98_removed. Refuted: a signature file that lists no files makes any package verified with anybody's public key (C98_forged_refuted); an entry put in front of a signed package is what is read, and the package is still verified (C98_in_front_refuted); names are not signed, so files can be exchanged (C98_renamed_refuted); a second signature gets the name of the first, because the count looks for the name without a number: after it the first key is not found and the second does not fit (C98_second_refuted)."
  },
  {
   "property": "C99",
   "status": "proved",
   "theorems": [
    "C99_assembles",
    "C99_meta",
    "C99_named",
    "C99_files",
    "C99_signed",
    "C99_files_refuted"
   ],
   "note": "C99_assembles, C99_meta, C99_named, C99_files (names that differ), C99_signed. Refuted: of two files with the same name in different directories only the first can be read, and nothing is reported (C99_files_refuted)."
  },
  {
   "property": "C100",
   "status": "proved",
   "theorems": [
    "C100_list",
    "C100_other",
    "C100_commit",
    "C100_reaches",
    "C100_unreached",
    "C100_refused",
    "C100_remove",
    "C100_removes",
    "C100_only",
    "C100_next",
    "C100_closed",
    "C100_ended",
    "C100_again_refuted"
   ],
   "note": "C100_list, C100_other, C100_commit, C100_reaches, C100_unreached, C100_refused, C100_remove, C100_removes, C100_only, C100_next, C100_closed, C100_ended: for runs in which no delete fails and an SPU leads the offsets a second time only after a restart. Refuted otherwise: the table in memory is never dropped, so an SPU that led, stopped leading and leads again answers with the offsets of the first time (C100_again_refuted). A change of the leader is taken to be immediate and to lose nothing of the log; with the topic the cluster creates itself, of one replica, there are none."
  },
  {
   "property": "C101",
   "status": "proved",
   "theorems": [
    "C101_gone",
    "C101_fetch",
    "C101_silent",
    "C101_knows",
    "C101_knows_changes",
    "C101_knows_none",
    "C101_other",
    "C101_late_refuted",
    "C101_down_refuted",
    "C101_failing_refuted"
   ],
   "note": "C101_gone, C101_fetch (the leader is told), C101_silent, C101_other, C101_knows, C101_knows_changes, C101_knows_none. Refuted for topics created again: a stream of the deleted topic may still commit, and the offset is there again (C101_late_refuted); a leader that was down when the topic was deleted starts with an empty store, so nothing tells it to remove the offsets, nor anything later (C101_down_refuted); if removing one offset fails the rest stay (C101_failing_refuted)."
  },
  {
   "property": "C102",
   "status": "proved",
   "theorems": [
    "C102_default",
    "C102_named",
    "C102_options",
    "C102_reached",
    "C102_add",
    "C102_sync",
    "C102_add_refuted",
    "C102_switch",
    "C102_rename",
    "C102_rename_nothing",
    "C102_rename_refuted",
    "C102_delete",
    "C102_delete_cluster",
    "C102_keep_cluster",
    "C102_forced_refuted",
    "C102_undone",
    "C102_done",
    "C102_cut_refuted"
   ],
   "note": "C102_default, C102_named, C102_options, C102_reached, C102_add, C102_sync, C102_switch, C102_rename, C102_rename_nothing, C102_delete, C102_delete_cluster, C102_keep_cluster, C102_undone, C102_done. Refuted where names are shared: after a rename the cluster keeps its old name, so adding a profile with that name changes where the renamed one goes (C102_add_refuted); renaming to a used name replaces that profile without a word, and commands may go to another cluster from then on (C102_rename_refuted); --force leaves the current profile without a cluster (C102_forced_refuted). The file is emptied before it is written, and a file that cannot be read counts as none when a profile is added: a write that is cut off and a later add lose all profiles (C102_cut_refuted)."
  },
  {
   "property": "C103",
   "status": "proved",
   "theorems": [
    "C103_lines",
    "C103_meant",
    "C103_raw",
    "C103_done",
    "C103_stops",
    "C103_text_refuted",
    "C103_failing_refuted",
    "C103_return_refuted",
    "C103_missing",
    "C103_missing_refuted",
    "C103_mirror",
    "C103_mirror_home",
    "C103_mirror_refuted",
    "C103_unreadable",
    "C103_unreadable_refuted",
    "C103_mirror_remote"
   ],
   "note": "C103_lines, C103_meant, C103_raw, C103_done, C103_missing, C103_unreadable, C103_mirror, C103_mirror_home, C103_mirror_remote: for text in UTF-8. Refuted otherwise: the first line that is not UTF-8, or a read that fails, ends the input without a word; what follows is not sent and the command succeeds (C103_stops, C103_text_refuted, C103_failing_refuted). A carriage return before a newline is lost (C103_return_refuted). With --raw a file that cannot be read is sent as an empty record without its key, and the command succeeds (C103_missing_refuted, C103_unreadable_refuted). --mirror takes the first partition of any topic that is for that cluster, not of the topic produced to (C103_mirror_refuted)."
  },
  {
   "property": "C104",
   "status": "proved",
   "theorems": [
    "C104_begins",
    "C104_asks",
    "C104_crossing",
    "C104_all",
    "C104_error",
    "C104_end",
    "C104_gap",
    "C104_beyond_refuted",
    "C104_partitions_refuted",
    "C104_mirror",
    "C104_mirror_refuted",
    "C104_text",
    "C104_raw_refuted",
    "C104_null_refuted",
    "C104_round",
    "C104_partitions",
    "C104_json"
   ],
   "note": "C104_begins, C104_asks, C104_crossing, C104_all, C104_error, C104_end, C104_gap, C104_partitions, C104_mirror, C104_text, C104_json, C104_round. Refuted: if no record has the offset of --end, one beyond it is printed (C104_gap, C104_beyond_refuted); of several partitions the first that gets there ends it for all, and records of the others are missing (C104_partitions_refuted); --mirror with a cluster the topic does not have reads all partitions (C104_mirror_refuted); --output raw changes what is not UTF-8 (C104_raw_refuted); with --key-value the key \"null\" and no key look the same (C104_null_refuted)."
  },
  {
   "property": "C105",
   "status": "proved",
   "theorems": [
    "C105_install",
    "C105_refused",
    "C105_twice_refuted",
    "C105_files",
    "C105_binaries",
    "C105_others",
    "C105_again",
    "C105_torn_refuted",
    "C105_switch",
    "C105_missing",
    "C105_missing_refuted",
    "C105_uninstall",
    "C105_uninstalled_refuted",
    "C105_active",
    "C105_stale_refuted",
    "C105_list",
    "C105_list_refuted",
    "C105_order",
    "C105_order_refuted",
    "C105_version"
   ],
   "note": "C105_install, C105_refused, C105_files, C105_binaries, C105_others, C105_again, C105_switch, C105_missing, C105_uninstall, C105_active, C105_list, C105_order. Refuted: a cut while the settings are written leaves a file that no later command gets over: every install, update and switch fails, although the installer has copied the binaries (C105_torn_refuted); a cut while installing makes the list fail for all versions and the version cannot be uninstalled, until it is installed again (C105_list_refuted). Binaries that a new version does not have stay: in use, and in the directory of a channel (C105_stale_refuted). Uninstalling the active version leaves it in use and active (C105_uninstalled_refuted). Switching to a version that is not installed exits with success (C105_missing_refuted). A package set that lists a name twice removes the file that was installed (C105_twice_refuted). The order of the list is none for a version next to a name that is not one: each is less than the other (C105_order_refuted)."
  },
  {
   "property": "C106",
   "status": "proved",
   "theorems": [
    "C106_newer",
    "C106_patched",
    "C106_settled",
    "C106_new_refuted",
    "C106_keeps",
    "C106_up_to_date",
    "C106_static",
    "C106_others",
    "C106_contents_refuted"
   ],
   "note": "C106_newer, C106_patched, C106_settled, C106_keeps, C106_up_to_date, C106_static, C106_others. Refuted: a binary that is new in the package set of the same version is installed but not recorded, so that every update downloads it again and is never up to date (C106_new_refuted; C106_settled is for sets without new names). With a manifest without contents, as older releases wrote, an update of the same version fails (C106_contents_refuted)."
  },
  {
   "property": "C107",
   "status": "proved",
   "theorems": [
    "C107_leader",
    "C107_stream",
    "C107_fresh",
    "C107_shared",
    "C107_reconnect",
    "C107_unnoticed_refuted",
    "C107_moved_refuted",
    "C107_open",
    "C107_second",
    "C107_between_refuted",
    "C107_stream_refuted",
    "C107_follows",
    "C107_frozen_refuted",
    "C107_unknown",
    "C107_unknown_spu",
    "C107_topic",
    "C107_no_topics_refuted",
    "C107_last_topic_refuted",
    "C107_held_refuted"
   ],
   "note": "C107_leader, C107_stream, C107_fresh, C107_shared, C107_reconnect, C107_open, C107_second, C107_follows, C107_unknown, C107_unknown_spu, C107_topic. Refuted: a stream is opened without looking whether the pooled connection has ended, so it fails, or hangs, as long as nothing else asks for that SPU (C107_stream_refuted); opening a consumer asks for the offsets first, which renews the connection, but not when the leader changes in between (C107_between_refuted). When the connection to the SC ends, the client's metadata stay as they are for ever (C107_frozen_refuted). A connection whose end nobody noticed is handed out (C107_unnoticed_refuted; the second attempt succeeds, C107_second), and a live connection to an SPU's former address is kept (C107_moved_refuted). Without topics every look-up of a topic times out instead of finding none, and a full update without topics does not remove the last one (C107_no_topics_refuted, C107_last_topic_refuted). Connecting to one SPU holds up requests to all others (C107_held_refuted)."
  },
  {
   "property": "C108",
   "status": "proved",
   "theorems": [
    "C108_reconnect",
    "C108_returns",
    "C108_deleted_refuted",
    "C108_room",
    "C108_full_refuted",
    "C108_released",
    "C108_flush",
    "C108_flush_failed",
    "C108_flush_refuted"
   ],
   "note": "C108_reconnect, C108_returns, C108_room, C108_released, C108_flush, C108_flush_failed (a flush that fails for one partition returns at once, and leaves the later ones as they are). Refuted: the loop never ends for a partition that was deleted, so a flush never returns (C108_deleted_refuted). A send to a partition with a full queue keeps the lock while it waits: with the leader of one partition gone, sends and flushes to all partitions wait (C108_full_refuted). A flush waits for the leader of every partition that has a producer, also of those with nothing queued, and no record can be sent meanwhile (C108_flush_refuted)."
  },
  {
   "property": "C109",
   "status": "proved",
   "theorems": [
    "C109_flags",
    "C109_file",
    "C109_others",
    "C109_asked",
    "C109_every",
    "C109_existing",
    "C109_same",
    "C109_checked",
    "C109_file_checked",
    "C109_reason",
    "C109_taken",
    "C109_admitted",
    "C109_storage",
    "C109_room",
    "C109_shown",
    "C109_wrapped_refuted",
    "C109_segment",
    "C109_refused_refuted",
    "C109_shorter_refuted",
    "C109_never_full_refuted",
    "C109_replication_refuted",
    "C109_zero_refuted",
    "C109_dedup",
    "C109_bounds",
    "C109_override_refuted",
    "C109_age_refuted",
    "C109_dry",
    "C109_created",
    "C109_not_created"
   ],
   "note": "C109_flags, C109_file, C109_others, C109_asked, C109_every, C109_existing, C109_same, C109_checked, C109_file_checked, C109_reason, C109_taken, C109_admitted, C109_storage, C109_room, C109_shown, C109_dedup, C109_bounds, C109_dry, C109_created, C109_not_created. Refuted for numbers that do not fit into 32 bits, which are cut without a word: a segment size of 5 GB becomes 705 MB (C109_wrapped_refuted, in general C109_segment), 4 GiB are refused as too small (C109_refused_refuted), and a retention above 136 years can become seconds, so that records are deleted early (C109_shorter_refuted). A segment size of 4 GiB - 1 is accepted, and then no segment ever fills up (C109_never_full_refuted). A replication of -1 is accepted as 4294967295 (C109_replication_refuted). Deduplication over 0 records is refused from a file and accepted from flags (C109_zero_refuted). A parameter of the deduplication module called count overrides what the module is told but not how far back it looks (C109_override_refuted), and an age below a millisecond is told as 0 (C109_age_refuted)."
  },
  {
   "property": "C110",
   "status": "proved",
   "theorems": [
    "C110_number",
    "C110_reported",
    "C110_seen",
    "C110_other_refuted",
    "C110_negative_refuted"
   ],
   "note": "C110_number, C110_reported (if no other topic changes meanwhile), C110_seen. Refuted otherwise: the command takes a change of any topic for its own, so it reports success though nothing was heard of the topic, also if the request was refused (C110_other_refuted). A count of -1 lowers the number in the topic (C110_negative_refuted)."
  },
  {
   "property": "C111",
   "status": "proved",
   "theorems": [
    "C111_unique",
    "C111_local",
    "C111_accepted",
    "C111_refused",
    "C111_registered",
    "C111_not_asked",
    "C111_unregistered",
    "C111_reported",
    "C111_group_deleted",
    "C111_restarted",
    "C111_checked",
    "C111_kept",
    "C111_all",
    "C111_pod",
    "C111_address",
    "C111_invalid_refuted",
    "C111_two_groups_refuted",
    "C111_custom_refuted",
    "C111_changed_refuted",
    "C111_concurrent_refuted",
    "C111_overflow_refuted",
    "C111_left_refuted",
    "C111_replaced_refuted",
    "C111_stuck_refuted",
    "C111_online_refuted",
    "C111_dry_refuted"
   ],
   "note": "C111_unique (if groups and custom SPUs keep out of each other's way), C111_local (always, without groups and with one registration at a time), C111_accepted, C111_refused, C111_registered, C111_not_asked, C111_unregistered, C111_reported, C111_group_deleted, C111_restarted, C111_checked, C111_kept, C111_all, C111_pod, C111_address. Refuted otherwise: an invalid group gets its SPUs in the SC nevertheless, with ids that are taken (C111_invalid_refuted), and they are shown as online when the SPU that has the id is (C111_online_refuted). Groups that are checked before their SPUs exist are both reserved (C111_two_groups_refuted), a custom SPU can take an id of a reserved group (C111_custom_refuted), two registrations at the same time can get the same id (C111_concurrent_refuted), creating a group that exists changes it without a new check (C111_changed_refuted), ids beyond 2^31 are not checked (C111_overflow_refuted). SPUs of replicas a group no longer has stay (C111_left_refuted); a custom SPU named like a replica is replaced (C111_replaced_refuted); an invalid group stays so when the conflict is gone (C111_stuck_refuted). The private address is right for the group called main only (C111_address). A dry run of creating a group creates it (C111_dry_refuted)."
  },
  {
   "property": "C112",
   "status": "proved",
   "theorems": [
    "C112_accepted",
    "C112_direction",
    "C112_section",
    "C112_image",
    "C112_types_refuted",
    "C112_optional_refuted",
    "C112_names",
    "C112_file",
    "C112_file_trimmed",
    "C112_trimmed",
    "C112_file_absent",
    "C112_layout",
    "C112_rendered",
    "C112_rendered_env",
    "C112_space_refuted",
    "C112_newline_refuted",
    "C112_versioned",
    "C112_unversioned",
    "C112_unversioned_refuted",
    "C112_structure_refuted"
   ],
   "note": "C112_accepted, C112_direction, C112_names, C112_file, C112_file_trimmed, C112_trimmed, C112_file_absent, C112_layout, C112_section, C112_image, C112_versioned, C112_rendered, C112_rendered_env, C112_unversioned. Refuted otherwise: types of the schema are not checked (C112_types_refuted), nor what an optional property requires (C112_optional_refuted). White space around a secret is lost with a file (C112_space_refuted), and a secret of several lines is cut and its other lines become secrets (C112_newline_refuted). A config without a version cannot use the secrets it declares (C112_unversioned_refuted). Secrets are put into the text of the config before it is parsed, so a value can change its structure (C112_structure_refuted)."
  },
  {
   "property": "C113",
   "status": "proved",
   "theorems": [
    "C113_taken",
    "C113_partitions",
    "C113_once",
    "C113_none_refuted",
    "C113_twice_refuted",
    "C113_refused",
    "C113_max_bytes",
    "C113_max_bytes_refuted",
    "C113_topic",
    "C113_race_refuted"
   ],
   "note": "C113_taken, C113_partitions, C113_once, C113_refused, C113_max_bytes, C113_topic. Refuted otherwise: an empty list of partitions means all (C113_none_refuted), a partition named twice is read twice (C113_twice_refuted), a limit of 2 GiB or more is taken modulo 2^32, so 4 GiB become 0 (C113_max_bytes_refuted). A connector does not start if its topic is created by another one at the same time (C113_race_refuted)."
  },
  {
   "property": "C114",
   "status": "proved",
   "theorems": [
    "C114_ready",
    "C114_was_there",
    "C114_fresh",
    "C114_caught_up",
    "C114_awake",
    "C114_goes_on",
    "C114_told",
    "C114_mirror",
    "C114_waits",
    "C114_none",
    "C114_stays",
    "C114_timer",
    "C114_namesake_refuted"
   ],
   "note": "C114_ready, C114_was_there, C114_caught_up; after the wait began if no partition of a topic of that name is known (C114_fresh). No lost wake-up (C114_awake), an answer as soon as all are online (C114_goes_on), otherwise a timeout that tells the true number (C114_told, C114_timer). Mirrors are reported at once (C114_mirror), other topics are waited for (C114_waits), one without partitions is never reported (C114_none); one answer (C114_stays). Refuted: partitions belong to a topic by its name, so those of a deleted topic of the same name are counted while their deletion is on the way (C114_namesake_refuted)."
  },
  {
   "property": "C115",
   "status": "proved",
   "theorems": [
    "C115_read_back",
    "C115_made",
    "C115_pretty",
    "C115_short",
    "C115_fine",
    "C115_versioned",
    "C115_version",
    "C115_unique",
    "C115_ignored",
    "C115_registry_refuted",
    "C115_slashes_refuted",
    "C115_tag_refuted",
    "C115_empty_refuted"
   ],
   "note": "C115_read_back, C115_made, C115_pretty, C115_short, C115_fine, C115_versioned, C115_version, C115_unique. A registry that is not a URL is dropped without an error (C115_ignored, C115_registry_refuted). Refuted: with a registry that ends with two slashes (C115_slashes_refuted); an id made with a tag that has a colon cannot be read (C115_tag_refuted); empty names are read (C115_empty_refuted)."
  },
  {
   "property": "C116",
   "status": "proved",
   "theorems": [
    "C116_listed",
    "C116_in_order",
    "C116_once",
    "C116_newest",
    "C116_newest_for",
    "C116_of_target",
    "C116_yanked_refuted",
    "C116_file_refuted"
   ],
   "note": "C116_listed, C116_in_order, C116_once, C116_newest, C116_newest_for, C116_of_target. Refuted: yanked releases are still offered (C116_yanked_refuted); the releases of a package read from a file are not sorted (C116_file_refuted)."
  },
  {
   "property": "C117",
   "status": "proved",
   "theorems": [
    "C117_checked",
    "C117_split",
    "C117_same_place",
    "C117_apart",
    "C117_group_less",
    "C117_needs_version",
    "C117_object",
    "C117_object_apart",
    "C117_file_apart",
    "C117_downloaded_as",
    "C117_sent",
    "C117_built",
    "C117_cut",
    "C117_object_exactly",
    "C117_download_refuted",
    "C117_object_refuted",
    "C117_sent_refuted",
    "C117_built_refuted"
   ],
   "note": "C117_checked, C117_split, C117_same_place, C117_apart, C117_group_less, C117_needs_version, C117_object, C117_object_apart (versions that begin with a number and a dot), C117_file_apart, C117_downloaded_as, C117_sent, C117_built. Exactly which texts are read and as what: C117_cut, C117_object_exactly. Refuted: two packages may be downloaded to the same file (C117_download_refuted); with a version that is not checked the paths of objects may be the same (C117_object_refuted); the upload does not check the group nor that the name is not empty (C117_sent_refuted); a-b and a_b are looked for in the same compiled file (C117_built_refuted)."
  },
  {
   "property": "C118",
   "status": "proved",
   "theorems": [
    "C118_kept",
    "C118_only_work",
    "C118_work",
    "C118_delete_only",
    "C118_refused",
    "C118_start_iff",
    "C118_start_refused",
    "C118_started",
    "C118_one",
    "C118_shutdown",
    "C118_shutdown_iff",
    "C118_resume_iff",
    "C118_resumed",
    "C118_upgrade_iff",
    "C118_upgrade_done",
    "C118_upgraded",
    "C118_version",
    "C118_upgrade_stops",
    "C118_upgrade_failed",
    "C118_delete_iff",
    "C118_deleted",
    "C118_elsewhere",
    "C118_profile_kept",
    "C118_profile_set",
    "C118_unlaunched",
    "C118_failed_start",
    "C118_ports",
    "C118_switch",
    "C118_resume_tried",
    "C118_numbers",
    "C118_delete_refuted",
    "C118_delete_other_refuted",
    "C118_start_again_refuted",
    "C118_shutdown_refuted",
    "C118_ports_refuted"
   ],
   "note": "C118_kept, C118_only_work, C118_work, C118_refused, C118_start_iff, C118_start_refused, C118_started, C118_one, C118_shutdown, C118_shutdown_iff, C118_resume_iff, C118_resumed, C118_upgrade_iff, C118_upgrade_done, C118_upgraded, C118_version, C118_upgrade_stops, C118_upgrade_failed, C118_delete_only, C118_delete_iff, C118_deleted, C118_elsewhere, C118_profile_kept, C118_profile_set, C118_unlaunched, C118_failed_start, C118_switch, C118_resume_tried, C118_numbers, C118_ports. Refuted: deleting a cluster with its own data directory leaves its data (C118_delete_refuted) and empties the default directory instead (C118_delete_other_refuted); a failed start cannot be repeated before a shutdown (C118_start_again_refuted); a cluster started without setting the profile cannot be shut down (C118_shutdown_refuted); ports repeat with very many SPUs (C118_ports_refuted)."
  },
  {
   "property": "C119",
   "status": "proved",
   "theorems": [
    "C119_inbound",
    "C119_log",
    "C119_order",
    "C119_sent_bytes",
    "C119_sent_records",
    "C119_raw",
    "C119_raw_iff",
    "C119_good",
    "C119_dropped",
    "C119_apart",
    "C119_apart_out",
    "C119_module_bytes",
    "C119_module_calls",
    "C119_module_errors",
    "C119_module_fuel",
    "C119_module_ms",
    "C119_listed",
    "C119_module_out",
    "C119_raw_refuted",
    "C119_twice_refuted",
    "C119_dropped_refuted",
    "C119_out_refuted",
    "C119_broken_refuted",
    "C119_idle_refuted"
   ],
   "note": "C119_inbound (writes that store something), C119_log, C119_order, C119_sent_bytes, C119_sent_records (through SmartModules), C119_raw, C119_raw_iff (exactly when slices of the file are counted right), C119_good, C119_dropped, C119_apart, C119_apart_out, C119_module_bytes, C119_module_calls, C119_module_errors, C119_module_fuel, C119_module_ms, C119_listed, C119_module_out. Refuted: records of a slice sent as it is in the file are counted as all committed records of the partition (C119_raw_refuted, C119_twice_refuted); a write of which nothing is left is counted as the records not committed yet (C119_dropped_refuted); records out of modules are not counted (C119_out_refuted); calls of a batch on which the engine fails are lost (C119_broken_refuted); a module that is not called is given a millisecond (C119_idle_refuted)."
  },
  {
   "property": "C120",
   "status": "proved",
   "theorems": [
    "C120_distinct",
    "C120_start_iff",
    "C120_started",
    "C120_start_leaves",
    "C120_shut",
    "C120_same",
    "C120_shutdown_leaves",
    "C120_gone",
    "C120_not_found",
    "C120_not_found_same",
    "C120_shut_iff",
    "C120_stuck",
    "C120_status",
    "C120_list",
    "C120_truth",
    "C120_kills_own",
    "C120_runs_own",
    "C120_stays",
    "C120_world",
    "C120_exits",
    "C120_shows",
    "C120_log_of_own",
    "C120_log_plain",
    "C120_log_shape",
    "C120_log_hidden",
    "C120_log_apart",
    "C120_taken",
    "C120_orphan_refuted",
    "C120_orphan_log_refuted",
    "C120_pid_refuted",
    "C120_tmp_refuted",
    "C120_spoil_refuted",
    "C120_log_refuted"
   ],
   "note": "C120_distinct, C120_start_iff, C120_started, C120_start_leaves, C120_shut, C120_same, C120_shutdown_leaves, C120_gone, C120_not_found, C120_not_found_same, C120_shut_iff, C120_status, C120_list, C120_truth, C120_kills_own, C120_runs_own (ids not used again), C120_stays, C120_world, C120_exits, C120_shows, C120_log_of_own, C120_log_plain, C120_log_shape, C120_log_hidden, C120_log_apart (names without dots), C120_stuck, C120_taken. Refuted: a start with a name in use fails but leaves a process without an entry and empties the log of the first one (C120_orphan_refuted, C120_orphan_log_refuted); if an id is used again another process is ended (C120_pid_refuted); if the directory of the package is gone the shutdown fails for ever and the name cannot be used again (C120_tmp_refuted); if the index file is lost running connectors are not known (C120_spoil_refuted); names that differ after the last dot share a log (C120_log_refuted)."
  },
  {
   "property": "C121",
   "status": "proved",
   "theorems": [
    "C121_runs_switched",
    "C121_switched",
    "C121_run_current",
    "C121_run_none",
    "C121_run_broken",
    "C121_run_update",
    "C121_first_run",
    "C121_boot_run",
    "C121_switch_known",
    "C121_switch_refused",
    "C121_switch_new",
    "C121_create_done",
    "C121_create_failed",
    "C121_create_iff",
    "C121_delete_known",
    "C121_delete_unknown",
    "C121_delete_iff",
    "C121_history",
    "C121_default_apart",
    "C121_names",
    "C121_quiet_refuted",
    "C121_failed_switch_refuted",
    "C121_retry_refuted",
    "C121_dev_refuted",
    "C121_delete_dev_refuted",
    "C121_delete_current_refuted",
    "C121_delete_failed_refuted",
    "C121_other_file_refuted",
    "C121_create_first_refuted",
    "C121_create_missing_refuted",
    "C121_extensions_refuted"
   ],
   "note": "C121_runs_switched, C121_switched, C121_run_current, C121_run_none, C121_run_broken, C121_run_update, C121_first_run, C121_boot_run, C121_switch_known, C121_switch_refused, C121_switch_new, C121_create_done, C121_create_failed, C121_create_iff, C121_delete_known, C121_delete_unknown, C121_delete_iff, C121_history, C121_default_apart, C121_names. Refuted: a missing binary is not reported (C121_quiet_refuted, C121_create_missing_refuted); a switch that fails has switched, and repeating it does not help (C121_failed_switch_refuted, C121_retry_refuted); the dev channel of an installed front end is the front end itself (C121_dev_refuted, C121_delete_dev_refuted); deleting the current channel, or creating one before the first use, leaves no channel to run (C121_delete_current_refuted, C121_create_first_refuted); a delete that fails has removed the channel (C121_delete_failed_refuted); naming a new config file overwrites the default one (C121_other_file_refuted); extensions of created and built-in channels are in different places (C121_extensions_refuted)."
  },
  {
   "property": "C122",
   "status": "proved",
   "theorems": [
    "C122_latest",
    "C122_update_right",
    "C122_update_short",
    "C122_upserted_det",
    "C122_all_rows",
    "C122_cols_first",
    "C122_cols_kept",
    "C122_cell",
    "C122_get",
    "C122_record_one",
    "C122_record_array",
    "C122_record_mixed",
    "C122_record_bad",
    "C122_press_data",
    "C122_clear",
    "C122_grows",
    "C122_moves",
    "C122_pages",
    "C122_few_rows",
    "C122_selection",
    "C122_page_down",
    "C122_keys_refuted",
    "C122_second_refuted",
    "C122_page_refuted",
    "C122_columns_refuted"
   ],
   "note": "C122_latest (one key, all histories), C122_update_right (one key, or fewer keys than rows), C122_update_short (exactly what happens otherwise), C122_upserted_det, C122_all_rows, C122_cols_first, C122_cols_kept, C122_cell, C122_get, C122_record_one, C122_record_array, C122_record_mixed, C122_record_bad, C122_press_data, C122_clear, C122_grows, C122_moves, C122_pages, C122_few_rows, C122_selection, C122_page_down. Refuted: with two or more keys and no more rows than keys, a row that differs in a key is replaced (C122_keys_refuted, C122_second_refuted); a page down may select one past the last row (C122_page_refuted); fields that the first record does not have are not shown (C122_columns_refuted)."
  },
  {
   "property": "C123",
   "status": "proved",
   "theorems": [
    "C123_nothing_lost",
    "C123_byte_seen",
    "C123_blank_after",
    "C123_text_seen",
    "C123_offset_seen",
    "C123_line_end",
    "C123_length",
    "C123_text_refuted",
    "C123_newline_refuted"
   ],
   "note": "C123_nothing_lost, C123_byte_seen, C123_blank_after, C123_text_seen, C123_offset_seen, C123_line_end, C123_length. Refuted: the text at the right does not tell records apart (C123_text_refuted), and a dot in it may be a newline (C123_newline_refuted)."
  }
 ]
}