{"id": "C01", "title": "Variable-length integers survive the wire", "statement": "Writing an integer with the variable-length integer encoding and reading it back yields the same integer, consumes exactly the bytes that were written, leaves whatever follows untouched, and the announced size equals the number of bytes written.", "quantifier": "every 64-bit signed integer and every byte string that may follow it", "why_tests_cant": "2^64 values; the interesting ones (just outside 32 bits, long continuation runs) are not in any unit test.", "anchors": ["crates/fluvio-protocol/src/core/varint.rs: variant_encode, varint_decode, variant_size"]}
{"id": "C02", "title": "Primitive and composite values survive the wire", "statement": "For every value built from fixed-width integers, booleans, optional values, lists, byte buffers, maps and short strings, decoding the encoded bytes gives the value back and leaves the following bytes untouched, and the announced size is the number of bytes written; a truncated input is reported as an error rather than decoded into something else.", "quantifier": "every well-formed value of every composite type, every suffix, every truncation point", "why_tests_cant": "Nested values of unbounded size and every cut point of the encoded bytes.", "anchors": ["crates/fluvio-protocol/src/core/encoder.rs", "crates/fluvio-protocol/src/core/decoder.rs"]}
{"id": "C03", "title": "Strings of any length survive the wire", "statement": "A string that the encoder accepts is decoded to the same string, and the stream stays in sync afterwards.", "quantifier": "every UTF-8 string of every length", "why_tests_cant": "Tests use short strings; the failure starts at 32768 bytes.", "anchors": ["crates/fluvio-protocol/src/core/encoder.rs: impl Encoder for String", "crates/fluvio-protocol/src/core/decoder.rs: decode_string"]}
{"id": "C04", "title": "Records survive the wire", "statement": "A record (attributes, timestamp delta, offset delta, optional key, value, header count) is decoded to the same record, in sync, and its announced size is exact.", "quantifier": "every record with keys and values of any length and every suffix", "why_tests_cant": "Unbounded key/value contents and delta values.", "anchors": ["crates/fluvio-protocol/src/record/data.rs: Record, RecordHeader, RecordData Encoder/Decoder impls"]}
{"id": "C05", "title": "Batches survive the wire and announce their exact size", "statement": "A batch with its records, with or without a schema id, is decoded to the same batch, and the announced size equals the number of bytes written.", "quantifier": "every batch: every header field value, every record list, schema present or absent", "why_tests_cant": "All header values times all record lists; the schema path is never combined with the size in tests.", "anchors": ["crates/fluvio-protocol/src/record/batch.rs: Batch::encode, Batch::decode, Batch::write_size, calc_batch_len"]}
{"id": "C06", "title": "Record sets survive the wire; truncation only loses whole trailing batches", "statement": "A record set is decoded to the same list of batches; if bytes are missing inside the announced length of the last batch, what is decoded is a prefix of the batches that were written and never anything else.", "quantifier": "every list of batches and every cut point", "why_tests_cant": "Every cut point of every record set.", "anchors": ["crates/fluvio-protocol/src/record/data.rs: RecordSet Encoder/Decoder"]}
{"id": "C07", "title": "Message framing is independent of how the network splits bytes", "statement": "However the byte stream of a connection is cut into reads, the receiver sees exactly the frames that were sent, in order, with nothing lost, merged or invented, and hostile length prefixes cannot crash it.", "quantifier": "every list of frames, every chunking of the byte stream, every length prefix", "why_tests_cant": "Exponentially many chunkings; hostile length prefixes.", "anchors": ["crates/fluvio-protocol/src/codec/mod.rs: FluvioCodec::decode, FluvioCodec::encode"]}
{"id": "C08", "title": "Batch attribute flags are independent", "statement": "Setting the compression codec of a batch and then reading it returns the codec set, does not disturb the schema flag or any other attribute bit, and vice versa; setting twice keeps the last.", "quantifier": "every 16-bit attribute word, every codec, every order of updates", "why_tests_cant": "65536 attribute words times every order of updates.", "anchors": ["crates/fluvio-protocol/src/record/batch.rs: set_compression, get_compression, set_schema_id, has_schema"]}
{"id": "C09", "title": "Consumers see each record under its log offset", "statement": "The offset a consumer sees on a record is the offset at which that record is stored in the partition log.", "quantifier": "every batch the server can send, plain or SmartModule-filtered", "why_tests_cant": "Every batch shape, including batches with gaps left by filtering.", "anchors": ["crates/fluvio-protocol/src/record/batch.rs: into_consumer_records_iter", "crates/fluvio/src/consumer/mod.rs: stream_with_config"]}
{"id": "C10", "title": "Replica ids survive their text form", "statement": "Printing a replica id as 'topic-partition' and parsing it yields the same id, distinct ids print differently, and malformed text is rejected.", "quantifier": "every topic name (including names containing dashes and digits) and every 32-bit partition number", "why_tests_cant": "Unbounded topic names with embedded dashes.", "anchors": ["crates/fluvio-protocol/src/record/replica.rs: ReplicaKey Display/TryFrom, decompose_partition_name"]}
{"id": "C11", "title": "Log file names identify and order segments", "statement": "The file name of a segment determines its base offset, different offsets give different names, and names sort in offset order.", "quantifier": "every non-negative 64-bit offset", "why_tests_cant": "2^63 offsets.", "anchors": ["crates/fluvio-storage/src/util.rs: generate_file_name, log_path_get_offset"]}
{"id": "C12", "title": "Appends give contiguous offsets", "statement": "Whatever sequence of appends, rejections, high-watermark updates, rollovers and retention runs is executed, the records stored in a partition occupy consecutive offsets with no gap and no overlap from the log start to the log end, and each successful append advances the log end by exactly the number of records appended.", "quantifier": "every operation history on a partition, every batch size, every configuration of segment and request limits", "why_tests_cant": "Unbounded histories mixed with rollover and retention.", "anchors": ["crates/fluvio-storage/src/replica.rs: write_recordset, write_batch, roll_over", "crates/fluvio-storage/src/segment.rs: append_batch", "crates/fluvio-storage/src/mut_records.rs: write_batch"]}
{"id": "C13", "title": "Stored records are immutable", "statement": "Once a record has been stored at an offset, every later read of that offset returns that same record until retention deletes it; no later append, rollover, watermark update or restart changes it.", "quantifier": "every operation history and every offset", "why_tests_cant": "Every later history for every stored record.", "anchors": ["crates/fluvio-storage/src/replica.rs: read_partition_slice, write_recordset", "crates/fluvio-storage/src/segment.rs"]}
{"id": "C14", "title": "A read returns exactly the requested part of the log", "statement": "Reading from offset o returns the stored batches starting with the one containing o, contiguous and in order up to the end of the segment or the isolation limit, whatever the sparse index contains; reading below the log start or beyond the log end is reported as such.", "quantifier": "every log content, every offset, every index interval", "why_tests_cant": "All log contents, index states and offsets, including offsets in the middle of batches.", "anchors": ["crates/fluvio-storage/src/replica.rs: read_records", "crates/fluvio-storage/src/segment.rs: records_slice, find_offset_position"]}
{"id": "C15", "title": "Committed reads never expose uncommitted records", "statement": "A read with committed isolation never returns a record at or above the high watermark.", "quantifier": "every log, every watermark, every start offset", "why_tests_cant": "Watermarks falling anywhere, including inside batches.", "anchors": ["crates/fluvio-storage/src/segment.rs: records_slice", "crates/fluvio-storage/src/replica.rs: read_partition_slice"]}
{"id": "C16", "title": "Index lookups agree with a full scan", "statement": "Looking an offset up through the sparse index finds the same batch as scanning the segment from its beginning, for every history of appends and every index interval and capacity.", "quantifier": "every sequence of batch lengths, every interval, every index capacity, every offset", "why_tests_cant": "Sparse index contents depend on cumulative sizes; unbounded combinations.", "anchors": ["crates/fluvio-storage/src/mut_index.rs: write_index, find_offset", "crates/fluvio-storage/src/index.rs: lookup_entry"]}
{"id": "C17", "title": "Recovery after a crash keeps every complete batch", "statement": "If the process dies at any point while appending, so that the active log file ends anywhere, reopening the partition yields exactly the batches that were completely written, in order, with the log end just after the last one, and the partial tail is discarded.", "quantifier": "every list of batches and every crash point (every prefix of the file)", "why_tests_cant": "Every byte position of every file is a crash point.", "anchors": ["crates/fluvio-storage/src/segment.rs: validate_and_repair", "crates/fluvio-storage/src/validator.rs: validate_with_stream", "crates/fluvio-storage/src/batch.rs: FileBatchPos::read_from"]}
{"id": "C18", "title": "The high watermark never passes the log end", "statement": "At every moment, including right after any restart with any surviving checkpoint value, the high watermark of a replica is at most its log end offset.", "quantifier": "every history of appends, watermark updates and restarts", "why_tests_cant": "Unbounded histories and any checkpoint value on disk.", "anchors": ["crates/fluvio-storage/src/replica.rs: create_or_load_inner, update_high_watermark", "crates/fluvio-storage/src/checkpoint.rs"]}
{"id": "C19", "title": "A rejected write leaves the log unchanged", "statement": "If a write is rejected because a batch exceeds a configured limit, nothing of it is stored: log end, watermark and contents are as before.", "quantifier": "every record set, every configuration", "why_tests_cant": "Record sets where only a later batch is too large.", "anchors": ["crates/fluvio-storage/src/replica.rs: write_recordset, write_batch"]}
{"id": "C20", "title": "Retention deletes only the oldest closed data", "statement": "Size-based retention deletes a prefix of the closed segments and never the segment being written; what remains is contiguous, readable and unchanged.", "quantifier": "every set of segments, every size limit", "why_tests_cant": "All segment layouts and size limits.", "anchors": ["crates/fluvio-storage/src/cleaner.rs: enforce_size, enforce_ttl", "crates/fluvio-storage/src/segments.rs: find_first, remove_segments"]}
{"id": "C21", "title": "Every stored offset is found in exactly one segment", "statement": "For every offset between the log start and the log end the lookup across closed and active segments selects the one segment that contains it.", "quantifier": "every layout of segment base offsets, every offset", "why_tests_cant": "The range-based lookup depends on min/max offsets of arbitrary layouts.", "anchors": ["crates/fluvio-storage/src/segments.rs: find_segment", "crates/fluvio-storage/src/replica.rs: read_records"]}
{"id": "C22", "title": "The durable high watermark is the last one reported", "statement": "After a clean shutdown the high watermark read back from disk is the last value the replica had set.", "quantifier": "every sequence of watermark updates", "why_tests_cant": "Depends on the value read at start being set again later.", "anchors": ["crates/fluvio-storage/src/checkpoint.rs: CheckPoint::write, LazyWriter"]}
{"id": "C23", "title": "The reported partition size is the size of its segments", "statement": "The partition size reported equals the total size of all its segments, before and after restarts.", "quantifier": "every history of appends, rollovers and restarts", "why_tests_cant": "Requires rollover followed by restart.", "anchors": ["crates/fluvio-storage/src/replica.rs: get_partition_size, create_or_load_inner", "crates/fluvio-storage/src/replica.rs: roll_over"]}
{"id": "C24", "title": "The committed offset is what enough replicas hold", "statement": "The new high watermark a leader computes is the largest offset that the required number of in-sync followers have reached, is above the old one, and there is none exactly when fewer than the required number of followers have advanced.", "quantifier": "every set of follower positions, every required replica count", "why_tests_cant": "Any number of followers in any order.", "anchors": ["crates/fluvio-spu/src/replication/leader/replica_state.rs: compute_hw"]}
{"id": "C25", "title": "Committed records are replicated", "statement": "In every reachable state of a leader and its followers, every follower's log is a prefix of the leader's log and every record below the leader's high watermark is stored by the leader and by enough followers; no follower's watermark passes the leader's.", "quantifier": "every interleaving of appends, sync messages, offset reports, message loss, duplication and reordering, with a fixed leader", "why_tests_cant": "Unbounded interleavings of a distributed protocol.", "anchors": ["crates/fluvio-spu/src/replication/leader/replica_state.rs: update_states_from_followers, write_record_set, follower_updates", "crates/fluvio-spu/src/replication/follower/state.rs: update_from_leader"]}
{"id": "C26", "title": "Replicas never go backwards", "statement": "The log end and high watermark of the leader, of every follower, and the leader's view of every follower never decrease, whatever messages arrive in whatever order.", "quantifier": "every interleaving including duplicated, stale and reordered messages", "why_tests_cant": "Stale messages in every order.", "anchors": ["crates/fluvio-storage/src/lib.rs: OffsetInfo::update, newer", "crates/fluvio-spu/src/replication/follower/state.rs: update_from_leader", "crates/fluvio-spu/src/replication/leader/replica_state.rs"]}
{"id": "C27", "title": "Duplicate or stale replication messages are harmless", "statement": "Delivering the same replication message to a follower again, or an old one late, does not change the follower's log.", "quantifier": "every follower state and every message", "why_tests_cant": "Every old message against every later state.", "anchors": ["crates/fluvio-spu/src/replication/follower/state.rs: update_from_leader, write_recordsets"]}
{"id": "C28", "title": "A new leader has all committed records", "statement": "When the leader of a partition goes offline, the replica elected in its place is an online replica of that partition with the smallest lag among the eligible ones, and holds every committed record.", "quantifier": "every partition status and every set of online servers", "why_tests_cant": "All combinations of reported offsets.", "anchors": ["crates/fluvio-sc/src/stores/partition/store.rs: candidate_leader", "crates/fluvio-sc/src/stores/partition/policy.rs: SimplePolicy", "crates/fluvio-sc/src/controllers/partitions/reducer.rs: force_election_spu_off, force_election_spu_on"]}
{"id": "C29", "title": "Replica placement is valid", "statement": "When a topic is scheduled, every partition from 0 to count-1 gets exactly the requested number of replicas on distinct online servers, partitions that already have a placement keep it, and if any partition cannot be placed the topic gets no placement at all.", "quantifier": "every cluster, every existing load, every topic parameters", "why_tests_cant": "All clusters, loads and parameters.", "anchors": ["crates/fluvio-sc/src/controllers/scheduler/partition.rs: generate_replica_map_for_topic, generate_partitions_without_rack", "crates/fluvio-sc/src/stores/partition/store.rs: find_suitable_spu"]}
{"id": "C30", "title": "Leader placement is balanced", "statement": "Scheduling places each leader on an online server with the fewest leaders, so that starting from balanced load the leader counts of any two online servers never differ by more than one.", "quantifier": "every number of servers and partitions", "why_tests_cant": "Unbounded numbers of servers and partitions.", "anchors": ["crates/fluvio-sc/src/stores/partition/store.rs: find_suitable_spu, increase_leaders", "crates/fluvio-sc/src/controllers/scheduler/partition.rs"]}
{"id": "C31", "title": "A manual replica assignment is accepted exactly when it is well formed", "statement": "A user-supplied assignment is accepted if and only if it is non-empty, its partition ids are 0,1,2,... in order, every partition has the same non-zero number of replicas, and the replicas of a partition are distinct non-negative ids.", "quantifier": "every assignment", "why_tests_cant": "All lists of lists.", "anchors": ["crates/fluvio-controlplane-metadata/src/topic/spec.rs: PartitionMaps::validate"]}
{"id": "C32", "title": "Topics become provisioned and stay so without losing partitions", "statement": "A topic with valid parameters and enough servers reaches the provisioned state in a bounded number of controller passes; adding partitions later keeps the placement of the existing ones; an invalid topic never becomes provisioned.", "quantifier": "every topic specification, every cluster, every sequence of controller passes", "why_tests_cant": "Every state of the controller loop.", "anchors": ["crates/fluvio-sc/src/controllers/topics/policy.rs: compute_next_state", "crates/fluvio-sc/src/controllers/topics/reducer.rs: update_actions_next_state", "crates/fluvio-sc/src/stores/topic/store.rs: create_new_partitions"]}
{"id": "C33", "title": "Produce acknowledgements tell the truth", "statement": "A successful produce response carries the offset at which the first record was actually stored, the records occupy the following offsets, and with committed isolation the response is sent only once the records are committed; a failed response means nothing of that partition's data was stored.", "quantifier": "every record set, log state and isolation level", "why_tests_cant": "All record sets, states and errors.", "anchors": ["crates/fluvio-spu/src/services/public/produce_handler.rs: handle_produce_partition, wait_for_acks", "crates/fluvio-spu/src/storage/mod.rs: write_record_set"]}
{"id": "C34", "title": "A stream delivers every record once, in order", "statement": "A consumer stream without SmartModules started at offset s delivers every committed record from s on, in offset order, without gap or duplicate, whatever the interleaving of appends, watermark updates and consumer acknowledgements.", "quantifier": "every interleaving of appends, watermark updates, acknowledgements and every segment layout", "why_tests_cant": "Unbounded interleavings of two concurrent parties.", "anchors": ["crates/fluvio-spu/src/services/public/stream_fetch.rs: process, send_back_records", "crates/fluvio/src/consumer/mod.rs: request_stream"]}
{"id": "C35", "title": "SmartModule streams lose nothing that passes the filter", "statement": "A consumer stream with a SmartModule delivers every record the module lets through, in order, whatever the response size limit.", "quantifier": "every log, every filter, every size limit", "why_tests_cant": "Depends on output sizes against the limit.", "anchors": ["crates/fluvio-spu/src/smartengine/batch.rs: process_batch", "crates/fluvio-spu/src/services/public/stream_fetch.rs: send_processed_response"]}
{"id": "C36", "title": "SmartModule output keeps record offsets", "statement": "A record passed through a SmartModule keeps the offset it has in the log.", "quantifier": "every sequence of input batches and every filter", "why_tests_cant": "Needs several input batches merged into one output batch.", "anchors": ["crates/fluvio-spu/src/smartengine/batch.rs: process_batch", "crates/fluvio-protocol/src/record/data.rs: add_base_offset"]}
{"id": "C37", "title": "The producer sends every record once, in order", "statement": "Records pushed by an application to a partition reach the broker exactly once, in push order, whatever the batch limits and flush timing; no batch exceeds the request limit and only a single-record batch may exceed the batch limit.", "quantifier": "every sequence of records, every interleaving of pushes and flushes, every limit", "why_tests_cant": "Unbounded sequences against size limits and timing.", "anchors": ["crates/fluvio/src/producer/accumulator.rs: push_record, create_and_new_batch", "crates/fluvio/src/producer/memory_batch.rs: push_record", "crates/fluvio/src/producer/partition_producer.rs: flush"]}
{"id": "C38", "title": "The metadata of a sent record is its log offset", "statement": "The offset returned to the application for a sent record is the offset at which that record is stored.", "quantifier": "every batching of records and every log state", "why_tests_cant": "All batch compositions.", "anchors": ["crates/fluvio/src/producer/accumulator.rs: ProducePartitionResponseFuture, BatchMetadata", "crates/fluvio/src/producer/record.rs", "crates/fluvio/src/producer/memory_batch.rs: From<MemoryBatch> for Batch"]}
{"id": "C39", "title": "Produce errors reach the application", "statement": "If the broker rejects a batch, the application waiting on its records sees an error, whatever the delivery semantics.", "quantifier": "every response and delivery mode", "why_tests_cant": "Error responses in at-most-once mode are not tested.", "anchors": ["crates/fluvio/src/producer/accumulator.rs: ProducePartitionResponseFuture"]}
{"id": "C40", "title": "A record is rejected as too large only because of its own size", "statement": "Whether a record is accepted depends only on its size and the configured limits, not on what was queued before it.", "quantifier": "every queue content and record size", "why_tests_cant": "Depends on the fill level of the open batch.", "anchors": ["crates/fluvio/src/producer/memory_batch.rs: push_record", "crates/fluvio/src/producer/accumulator.rs: push_record"]}
{"id": "C41", "title": "Partitioning is deterministic, in range and fair", "statement": "Records with the same key always go to the same partition, every chosen partition exists, and keyless records are spread so that over any run of n records each of k available partitions receives either floor or ceiling of n/k.", "quantifier": "every key, partition count and sequence of keyless records", "why_tests_cant": "Unbounded sequences; counter wrap-around.", "anchors": ["crates/fluvio/src/producer/partitioning.rs: SiphashRoundRobinPartitioner, SpecificPartitioner"]}
{"id": "C42", "title": "Requested start offsets resolve inside the log", "statement": "An offset given relative to the beginning, the end or a stored consumer position resolves to a position between the log start and the last committed offset, moves monotonically with the request, and equals the exact arithmetic position whenever that lies inside.", "quantifier": "every request, log range and stored position", "why_tests_cant": "All integer combinations.", "anchors": ["crates/fluvio/src/offset.rs: OffsetInner::resolve, Offset::resolve"]}
{"id": "C43", "title": "Managed consumer offsets never skip unread records and never go back", "statement": "What is stored on the server for a consumer never decreases, is never beyond the last record handed to the application, and after a successful flush equals the last commit.", "quantifier": "every sequence of reads, commits, flushes and automatic flushes, with failures", "why_tests_cant": "Unbounded operation sequences with failing flushes.", "anchors": ["crates/fluvio/src/consumer/offset.rs: OffsetLocalStore", "crates/fluvio/src/consumer/stream.rs: OffsetManagement"]}
{"id": "C44", "title": "A bounded read returns everything available", "statement": "In non-continuous mode a consumer receives every record that was committed when it started, starting at the requested offset.", "quantifier": "every start offset, batch layout and split into responses", "why_tests_cant": "Start offsets in the middle of batches with particular response splits.", "anchors": ["crates/fluvio/src/consumer/mod.rs: TakeRecords, request_stream"]}
{"id": "C45", "title": "Reconnecting consumers neither lose nor repeat records", "statement": "After a connection failure a consumer resumes each partition at the record after the last one it delivered from that partition.", "quantifier": "every sequence of deliveries and failures, any number of partitions", "why_tests_cant": "Interleavings of several partitions with failures.", "anchors": ["crates/fluvio/src/consumer/retry.rs: ConsumerRetryStream, next_offset, handle_consumer_records"]}
{"id": "C46", "title": "Metadata watchers converge to the store", "statement": "A watcher that applies the changes it is given ends with exactly the contents of the store, whenever it looks and however many changes happened in between.", "quantifier": "every sequence of updates, deletes, full syncs and watcher synchronisations", "why_tests_cant": "Unbounded histories and arbitrary synchronisation points, including delete followed by re-creation.", "anchors": ["crates/fluvio-stream-model/src/epoch/dual_epoch_map.rs: DualEpochMap", "crates/fluvio-stream-model/src/store/dual_store.rs: LocalStore, ChangeListener", "crates/fluvio-stream-model/src/epoch/epoch_map.rs: EpochMap"]}
{"id": "C47", "title": "Metadata changes are reported when and only when something changed", "statement": "Applying an update that changes nothing produces no change notification, and every real change to a part (spec, status, metadata) is reported to watchers of that part and only to those.", "quantifier": "every store state, every batch of updates, every watcher filter", "why_tests_cant": "All combinations of changed parts and watcher positions.", "anchors": ["crates/fluvio-stream-model/src/epoch/dual_epoch_map.rs: update, changes_since_with_filter", "crates/fluvio-stream-model/src/store/dual_store.rs: apply_changes, sync_all"]}
{"id": "C48", "title": "Offset listeners never miss the latest value", "statement": "A listener waiting for offset changes is never left waiting while the published value differs from the last value it saw.", "quantifier": "every interleaving of publishes and listens", "why_tests_cant": "All interleavings of publishes between the two checks.", "anchors": ["crates/fluvio-types/src/event.rs: OffsetPublisher, OffsetChangeListener"]}
{"id": "C49", "title": "Stored consumer offsets survive restarts", "statement": "After any sequence of put, delete and flush operations, reloading the key-value store from its log gives exactly the state before the restart.", "quantifier": "every operation sequence, every flush timing and every restart point", "why_tests_cant": "Unbounded histories with checkpoints anywhere.", "anchors": ["crates/fluvio-kv-storage/src/log.rs", "crates/fluvio-spu/src/kv/consumer.rs", "crates/fluvio-spu/src/replication/leader/kv.rs"]}
{"id": "C50", "title": "Responses reach the request they answer", "statement": "On a shared connection each response is delivered to the request with the same correlation id and to no other, whatever the order of responses, timeouts and cancelled requests.", "quantifier": "every interleaving of requests, responses, timeouts and closes", "why_tests_cant": "Unbounded interleavings on one socket.", "anchors": ["crates/fluvio-socket/src/multiplexing.rs: MultiplexerSocket, MultiPlexingResponseDispatcher"]}
{"id": "C51", "title": "Version negotiation picks a version both sides support", "statement": "The version chosen for a request lies in the ranges of both client and server, is the highest such version, and none is chosen only if the ranges do not overlap.", "quantifier": "every version table and every client range", "why_tests_cant": "All tables and ranges.", "anchors": ["crates/fluvio-socket/src/versioned.rs: Versions::lookup_version"]}
{"id": "C52", "title": "Replication can always be completed", "statement": "From every reachable state, however many messages were lost before, an exchange of replication messages alone brings every follower to the leader's log end and commits everything, without further writes.", "quantifier": "every reachable state of a leader and its followers, including after the leader has restarted", "why_tests_cant": "Deadlocks show up only in particular states reached by losses and restarts; tests cannot enumerate them.", "anchors": ["crates/fluvio-spu/src/replication/leader/replica_state.rs: update_states_from_followers, follower_updates", "crates/fluvio-spu/src/replication/follower/state.rs: update_from_leader", "crates/fluvio-storage/src/lib.rs: OffsetInfo"]}
{"id": "C53", "title": "Metadata listeners never miss a change", "statement": "A task that listens to a metadata store is never left waiting while the store has changed since the task last looked at it; when the call returns, a look brings the task up to the current state.", "quantifier": "every interleaving of changes to the store (with their announcements), listens and looks, any number of writers and listeners", "why_tests_cant": "The change, its publication and its notification are separate steps that interleave with the two checks and the registration of each listener.", "anchors": ["crates/fluvio-stream-model/src/store/dual_store.rs: ChangeListener::listen, sync_changes_with_filter, LocalStore::apply_changes, sync_all", "crates/fluvio-stream-model/src/store/event.rs: EventPublisher"]}
{"id": "C54", "title": "A follower is told of every replica with news", "statement": "Every replica for which a leader has news for a follower is passed on to the connection of that follower: the connection is never left waiting while such replicas are pending, and none is dropped.", "quantifier": "every interleaving of tasks that add replicas with the connection's listens, drains, messages, disconnects and reconnects", "why_tests_cant": "Unbounded interleavings of adds and drains with the steps of the listener.", "anchors": ["crates/fluvio-spu/src/replication/leader/spu.rs: FollowerSpuPendingUpdates", "crates/fluvio-spu/src/replication/leader/connection.rs: FollowerHandler::inner_loop, update_from_leaders"]}
{"id": "C55", "title": "Requests on one connection do not hold each other up", "statement": "A request on a shared connection can be sent, answered and timed out whatever the other requests and streams on that connection do, in particular if one of them is slow.", "quantifier": "every interleaving of requests, streams and responses on a connection", "why_tests_cant": "Head-of-line blocking depends on queue lengths, locks and who reads when; a test sees a few schedules.", "anchors": ["crates/fluvio-socket/src/multiplexing.rs: MultiPlexingResponseDispatcher::send, create_stream, send_and_receive"]}
{"id": "C56", "title": "When a connection ends, everyone who waits on it is told", "statement": "When a shared connection ends, every request that waits for a response returns, and every stream is told, whenever it was made.", "quantifier": "every point at which the connection ends, every set of requests and streams", "why_tests_cant": "The end may fall between any two steps of any request.", "anchors": ["crates/fluvio-socket/src/multiplexing.rs: MultiPlexingResponseDispatcher::close, SharedMsg::close, AsyncResponse"]}
{"id": "C57", "title": "A mirror is a prefix of its source", "statement": "At every moment the records of a mirror partition are the first records of the partition it mirrors: same records, same offsets, same order, none twice, none left out; whatever connections break, whichever side restarts, and whatever retention removes.", "quantifier": "every interleaving of producing, sending, checking, storing, acknowledging, connections that break and are made again, restarts and retention at both sides", "why_tests_cant": "Depends on how messages of an old and a new connection interleave with writes, and on where a connection breaks or a process stops.", "anchors": ["crates/fluvio-spu/src/mirroring/home/connection.rs: MirrorHomeHandler", "crates/fluvio-spu/src/mirroring/remote/controller.rs: MirrorRemoteToHomeController", "crates/fluvio-spu/src/replication/leader/replica_state.rs: append_record_set"]}
{"id": "C58", "title": "A mirror catches up", "statement": "While source and target are connected and the source has the records the target lacks, mirroring goes on until the target has every record of the source, after finitely many messages, and each record is sent once.", "quantifier": "every state in which a connection can be made, every order of the messages", "why_tests_cant": "Liveness: a lost wake-up or a stale position leaves the mirror behind for ever only in some schedules.", "anchors": ["crates/fluvio-spu/src/mirroring/home/connection.rs: sync_record_from_remote, update_from_remote, generate_home_records_as_source", "crates/fluvio-spu/src/mirroring/remote/controller.rs: sync_mirror_loop, update_from_home_as_source, geneate_remote_record_as_source"]}
{"id": "C59", "title": "Metadata of a local cluster survives restarts", "statement": "After any history of operations on the metadata of a local cluster, and a stop of the process at any moment, a restart finds every object exactly as the last accepted write left it, and every kind of object can be read.", "quantifier": "every interleaving of operations of any number of tasks, every stop, every number of restarts, every file operation that may fail", "why_tests_cant": "Needs every crash point and every interleaving; a test stops between operations only.", "anchors": ["crates/fluvio-stream-dispatcher/src/metadata/local.rs: SpecStore::apply, SpecStore::delete_item, SpecStore::load, SpecPointer::flush, SpecPointer::delete, get_store"]}
{"id": "C60", "title": "Writes based on old metadata are refused", "statement": "An update of an object whose metadata was read before another accepted update is refused and changes nothing; each accepted update raises the revision by one, also over restarts; an update that is not based on old metadata is accepted.", "quantifier": "every interleaving of readers and writers of an object, deletions and restarts", "why_tests_cant": "Lost updates depend on the schedule of two writers and on what happened between the read and the write.", "anchors": ["crates/fluvio-stream-dispatcher/src/metadata/local.rs: SpecStore::apply, update_spec, update_status, update_spec_by_key, is_newer", "crates/fluvio-stream-dispatcher/src/dispatcher/metadata.rs: process_ws_action"]}
{"id": "C61", "title": "Deleting an object deletes what belongs to it", "statement": "After an object is deleted, it and the objects that it owns are gone, and all other objects are as before; no object is left whose owner is gone, and no object goes with an owner that is not its own.", "quantifier": "every history of creations, updates, deletions and restarts, every ownership", "why_tests_cant": "Links between owners and children are kept in both objects; whether they agree depends on the whole history.", "anchors": ["crates/fluvio-stream-dispatcher/src/metadata/local.rs: delete_item, delete_children, link_parent, unlink_parent, put_child, remove_child, get_store_by_key"]}
{"id": "C62", "title": "Watchers of local metadata see what is stored", "statement": "A watcher that lists the objects of a kind and then applies the updates it is sent ends up with exactly the objects that are stored, and writers do not wait for ever.", "quantifier": "every sequence of operations after the list, every interleaving of writers, every number of watchers, every number of updates not yet received", "why_tests_cant": "The order of updates relative to writes, and a full queue, only show in particular schedules.", "anchors": ["crates/fluvio-stream-dispatcher/src/metadata/local.rs: retrieve_items, watch_stream_since, send_update, MAX_UPDATES_CAPACITY", "crates/fluvio-stream-dispatcher/src/dispatcher/metadata.rs: reconcillation_loop, retrieve_all_k8_items"]}
{"id": "C63", "title": "What the decoders accept", "statement": "Bytes that are read as a value made of integers, booleans, byte buffers, options and structs are exactly the bytes the encoder writes for that value, so different messages are never taken for the same one. Whatever bytes arrive, a value that is read without an error is a proper value of its type and survives being written and read again. A map sent with repeated keys is read with the last value of each key.", "quantifier": "all byte sequences, all types built from the primitive ones, all lists of map entries", "why_tests_cant": "A test decodes what an encoder wrote; the property ranges over every byte sequence a peer or a damaged file could present, including ones no encoder writes.", "anchors": ["crates/fluvio-protocol/src/core/decoder.rs: Decoder for bool, Option, Vec, BTreeMap, String, Duration", "crates/fluvio-protocol/src/core/varint.rs: varint_decode", "crates/fluvio-protocol/src/bytebuf.rs: Decoder for ByteBuf"]}
{"id": "C64", "title": "One log through changes of leader", "statement": "Whatever sequence of elections, restarts and losses of replicas a partition goes through, the replicas that take part hold the same record at the same offset: each has a beginning of the leader's log, and no replica calls a record committed that another one lacks.", "quantifier": "every set of replicas, every history of writes, replication messages, truncations, restarts, losses and changes of leader, with messages delivered late, repeatedly or not at all", "why_tests_cant": "Divergence needs a particular order of writes, messages and elections; tests run one failover with nothing in flight.", "anchors": ["crates/fluvio-spu/src/core/global_context.rs: promote, demote_replica, switch_leader_for_follower, apply_replica_actions", "crates/fluvio-spu/src/replication/leader/leaders_state.rs: promote_follower", "crates/fluvio-spu/src/replication/follower/controller.rs: sync_from_leader"]}
{"id": "C65", "title": "Committed records survive changes of leader", "statement": "A record that has been committed (that a consumer of committed records may have read) is still in the log, at the same offset, of every replica that takes part after any further changes of leader.", "quantifier": "all pairs of an earlier and a later state of any history of elections, restarts and losses", "why_tests_cant": "The loss needs an old leader that comes back with records its successor never had; it depends on the whole history.", "anchors": ["crates/fluvio-spu/src/core/global_context.rs: promote, demote_replica", "crates/fluvio-spu/src/replication/leader/replica_state.rs: update_states_from_followers, ids_to_map"]}
{"id": "C66", "title": "A partition goes on committing after a change of leader", "statement": "After a change of leader, records written to the new leader and copied by the followers become committed.", "quantifier": "all states reached by any history of elections, restarts and losses, all continuations from there", "why_tests_cant": "That nothing is ever committed again is a statement about all continuations.", "anchors": ["crates/fluvio-spu/src/replication/leader/replica_state.rs: update_states_from_followers, compute_hw", "crates/fluvio-spu/src/replication/leader/leaders_state.rs: promote_follower", "crates/fluvio-spu/src/replication/follower/state.rs: update_from_leader"]}
{"id": "C67", "title": "A SmartModule that looks back N records sees the last N", "statement": "A consumer stream with a SmartModule that asks to see the last N records first calls it with exactly the last N committed records of the partition (all of them, if there are fewer), in order, and starts.", "quantifier": "every history of writes, watermark updates, retention and restarts of the partition, every N", "why_tests_cant": "Tests write a few records into one segment; where segments begin relative to the last N records and what retention has removed depends on the history.", "anchors": ["crates/fluvio-spu/src/smartengine/context.rs: read_records, lookback_iterator, lookback_last_iterator", "crates/fluvio-storage/src/iterators.rs: FileBatchIterator, FileRecordIterator"]}
{"id": "C68", "title": "A SmartModule that looks back in time sees every younger record", "statement": "A consumer stream with a SmartModule that asks to see the records of the last D milliseconds first calls it with exactly the committed records of the partition that are not older than that, in order, and starts.", "quantifier": "every history of writes, watermark updates, retention and restarts of the partition, every D and time", "why_tests_cant": "Which batches the backward search skips depends on the sizes of all batches, and whether it fails on what retention has left.", "anchors": ["crates/fluvio-spu/src/smartengine/context.rs: lookback_age_iterator, read_batches_by_age"]}
{"id": "C69", "title": "A stream through stateful SmartModules gives what the chain makes of the whole log", "statement": "A consumer stream with a chain of SmartModules (filter, map, filter-map, array-map, aggregate), each with its own memory, gives the application exactly the keys and values the chain makes of the records of the log from the start of the stream on, each record seen once, in order, with its own offset and timestamp; how producers put records into batches and how the stream splits them into responses makes no difference.", "quantifier": "every chain of functions with memory, every history of writes during the stream, every start, isolation and response limit", "why_tests_cant": "Tests run a module over one or two batches; the state carried from batch to batch and over response boundaries depends on the sizes of all outputs.", "anchors": ["crates/fluvio-spu/src/smartengine/batch.rs: process_batch, process_record_set", "crates/fluvio-smartengine/src/engine/wasmtime/engine.rs: SmartModuleChainInstance::process", "crates/fluvio-spu/src/services/public/stream_fetch.rs: send_processed_response"]}
{"id": "C70", "title": "A failing SmartModule is reported with its record, after what came before", "statement": "When a SmartModule of a consumer stream returns an error for a record, the application is given all results of the records before it and then an error that names the offset, key and value of the record.", "quantifier": "every chain, every history, every failing record and state of the modules", "why_tests_cant": "Tests fail one module on one record of one batch; which records are delivered depends on the position in the chain, batch and response.", "anchors": ["crates/fluvio-spu/src/smartengine/batch.rs: process_batch, process_record_set", "crates/fluvio-smartengine/src/engine/wasmtime/engine.rs: SmartModuleChainInstance::process", "crates/fluvio-spu/src/services/public/stream_fetch.rs: send_processed_response", "crates/fluvio-smartmodule-derive/src/generator: filter, map, filter_map, array_map, aggregate"]}
{"id": "C71", "title": "After a SmartModule error the stream goes on with the next record", "statement": "After an error of a SmartModule was reported, the stream goes on with the record after the failing one; no other record is left out.", "quantifier": "every chain, history, failing record and batch layout", "why_tests_cant": "The position after an error depends on whether the response brought records and on the batch of the failing record.", "anchors": ["crates/fluvio-spu/src/smartengine/batch.rs: process_batch, process_record_set", "crates/fluvio-smartengine/src/engine/wasmtime/engine.rs: SmartModuleChainInstance::process", "crates/fluvio-spu/src/services/public/stream_fetch.rs: send_processed_response"]}
{"id": "C72", "title": "Records keep their timestamp", "statement": "The timestamp of a record a consumer is given is the one it was stored with, with or without SmartModules, and SmartModules are shown the offset and timestamp the record has in the log.", "quantifier": "every batch, chain, stream and look-back", "why_tests_cant": "Tests of SmartModules compare keys and values.", "anchors": ["crates/fluvio-protocol/src/record/data.rs: ConsumerRecord::timestamp", "crates/fluvio-spu/src/smartengine/batch.rs: process_batch", "crates/fluvio-smartmodule/src/input.rs: try_from_records"]}
{"id": "C73", "title": "A topic transformation stores what it makes of each write", "statement": "A write to a topic with a transformation stores exactly what the transformation makes of its records, under consecutive offsets, one for each record; a write that is refused changes nothing.", "quantifier": "every chain, sequence of writes and state of the modules", "why_tests_cant": "Tests write to a topic with one transformation and read values; offsets and the state after failures depend on the sequence of writes.", "anchors": ["crates/fluvio-spu/src/replication/leader/replica_state.rs: transform", "crates/fluvio-spu/src/smartengine/batch.rs: process_record_set"]}
{"id": "C74", "title": "The cluster knows which servers are up", "statement": "Once registrations and disconnections have been dealt with, the status the controller shows for a server (SPU) that has registered is Online if the server has a live connection and Offline if it has none; a server that has not registered since the controller started keeps its status.", "quantifier": "every interleaving of connection tasks, counter updates, listener steps, status writes, time-outs and re-syncs; every set of servers coming and going", "why_tests_cant": "The outcome depends on the order of a table insert, a non-atomic counter increment, a notification and the controller's own reads; tests see a few orders.", "anchors": ["crates/fluvio-sc/src/services/private_api/private_server.rs: ScInternalService::respond, dispatch_loop", "crates/fluvio-sc/src/stores/spu/mod.rs: HealthCheck::update", "crates/fluvio-sc/src/controllers/spus/controller.rs: inner_loop, sync_store", "crates/fluvio-types/src/event.rs: OffsetPublisher::update_increment", "crates/fluvio-stream-dispatcher/src/dispatcher/metadata.rs: inner_loop"]}
{"id": "C75", "title": "Every partition that can have a leader gets one", "statement": "When the cluster controller has nothing left to do, the leader of every partition is a server that is up, or the partition is not shown as readable and no replica that is up and close to the last leader exists; the controller always gets to a state with nothing left to do.", "quantifier": "every history of servers being added, going down and coming back, of new partitions and reports of leaders, and every interleaving of these with the passes of the partition controller and the dispatcher that applies its actions", "why_tests_cant": "An election reads server statuses, partitions and reports at different moments and its outcome is applied later; which partitions are missed depends on the interleaving.", "anchors": ["crates/fluvio-sc/src/controllers/partitions/controller.rs: inner_loop, sync_spu_changes", "crates/fluvio-sc/src/controllers/partitions/reducer.rs: update_election_from_spu_changes, force_election_spu_off, force_election_spu_on", "crates/fluvio-sc/src/stores/partition/store.rs: candidate_leader", "crates/fluvio-stream-dispatcher/src/dispatcher/metadata.rs: inner_loop, process_ws_action", "crates/fluvio-sc/src/services/private_api/private_server.rs: receive_lrs_update"]}
{"id": "C76", "title": "The partition status is what the leader has", "statement": "When no report is under way, the status of a partition (partition list) shows the high watermark, log end and size of its leader's log and the offsets of each follower as the leader knows them; what is under way always gets done; the shown base offset is the start of the log.", "quantifier": "every interleaving of writes, progress of followers, the making of reports, timer ticks, connection breaks, handling by the controller and the controller's own changes; every set of partitions led by a server", "why_tests_cant": "A report is made in several reads, waits in a set, is sent once and merged later into a copy of a status that may be old; a wrong order is rare and leaves a wrong status until the next write.", "anchors": ["crates/fluvio-spu/src/replication/leader/replica_state.rs: update_status, as_lrs_request", "crates/fluvio-spu/src/control_plane/message_sink.rs: MessageSink::send, remove_all", "crates/fluvio-spu/src/control_plane/dispatcher.rs: send_lrs_status_back_to_sc", "crates/fluvio-sc/src/services/private_api/private_server.rs: receive_lrs_update, receive_partition_status_update", "crates/fluvio-sc/src/stores/partition/store.rs: PartitionStatusExtension::merge"]}
{"id": "C77", "title": "A request that is answered has been done", "statement": "When a request to create, change or delete a topic, SmartModule or other object is answered with success, the object has, in the list and in the metadata storage, the spec asked for, or is gone; creating what exists is refused and changes nothing; a request does not sleep through the change it waits for, and is answered once its object is at rest. Two requests about one object are both done or one is refused.", "quantifier": "every interleaving of any number of requests, their timeouts, status changes by controllers, the dispatcher of the metadata, its re-syncs and changes made through other kinds of objects", "why_tests_cant": "A request reads the store, sends an action and waits for a change of a copy that is written on another path; whether it sees the change or sleeps through it, and what it takes for its own change, depends on the schedule.", "anchors": ["crates/fluvio-stream-dispatcher/src/store/mod.rs: StoreContext::create_spec, wait_for_action_with_timeout, delete", "crates/fluvio-stream-dispatcher/src/dispatcher/metadata.rs: MetadataDispatcher::process_ws_action", "crates/fluvio-stream-dispatcher/src/metadata/local.rs: apply, update_spec, update_status, delete_item", "crates/fluvio-stream-model/src/store/dual_store.rs: ChangeListener, apply_changes, sync_all", "crates/fluvio-sc/src/services/public_api/topic/create.rs", "crates/fluvio-sc/src/services/public_api/topic/update/add_partition.rs", "crates/fluvio-sc/src/services/public_api/topic/delete.rs"]}
{"id": "C78", "title": "A message arrives with exactly the fields its version carries", "statement": "A message written at a protocol version and read at the same version arrives with every field that version carries, unchanged; the other fields have their documented defaults, and bytes behind the message are left alone. Its announced size is the number of bytes written. At the version of this release topics, partitions, SPUs, SPU groups, table formats, SmartModules and mirrors arrive whole, and so does a fetch request as the client builds it.", "quantifier": "every message type built from the versioned structs and enums of the protocol, every value of it, every version; in particular 17 messages and objects of the admin, internal and streaming APIs", "why_tests_cant": "There is a guard for every field and every version in three generated functions (write, size, read); tests try a few values at one or two versions.", "anchors": ["crates/fluvio-protocol-derive/src/ser.rs", "crates/fluvio-protocol-derive/src/de.rs", "crates/fluvio-protocol-derive/src/ast/prop.rs", "crates/fluvio-controlplane-metadata/src/topic/spec.rs: TopicSpec", "crates/fluvio-controlplane-metadata/src/partition/status.rs: PartitionStatus", "crates/fluvio-controlplane-metadata/src/smartmodule/spec.rs: SmartModuleSpec", "crates/fluvio-spu-schema/src/server/stream_fetch.rs: StreamFetchRequest"]}
{"id": "C79", "title": "Two releases that agree on a version understand each other", "statement": "When both releases speak the version in the header, the receiver gets every field of that version with the value sent, and its own defaults for the rest; the current release understands everything an older one sends. The version used is one both speak.", "quantifier": "every pair of releases, every version both speak, every versioned message type and value", "why_tests_cant": "No test runs two releases against each other on all versions and values.", "anchors": ["crates/fluvio-protocol-derive/src/ser.rs", "crates/fluvio-protocol-derive/src/de.rs", "crates/fluvio-socket/src/versioned.rs: lookup_version", "crates/fluvio/src/admin.rs: watch, list_with_config", "crates/fluvio-controlplane-metadata/src/partition/status.rs: PartitionResolution", "crates/fluvio-controlplane-metadata/src/mirror/status.rs: MirrorPairStatus"]}
{"id": "C80", "title": "The server works on the object the client asked for", "statement": "A request to create, delete or change an object that is sent at a version the server announces is received with the same object type, name and spec.", "quantifier": "every object type, name, spec, and announced version; anything behind the request", "why_tests_cant": "Requests of the old protocol are converted by writing them again at another version; whether the result is read back as the same object depends on the version and the contents.", "anchors": ["crates/fluvio-sc-schema/src/objects/create.rs", "crates/fluvio-sc-schema/src/objects/delete.rs", "crates/fluvio-sc-schema/src/objects/update.rs", "crates/fluvio-sc-schema/src/objects/classic.rs", "crates/fluvio-sc-schema/src/objects/metadata.rs: TypeBuffer", "crates/fluvio-sc/src/services/public_api/create.rs"]}
{"id": "C81", "title": "A storage node leads and follows what the metadata says", "statement": "After a node has been told about a partition it leads it if the metadata names it as leader, follows the named leader if it has another of the replicas, and does neither otherwise; it has a connection to exactly the leaders it follows; a restarted node takes up all its parts with the records it had.", "quantifier": "every history of creating, deleting and re-creating partitions, electing leaders, messages with all or some partitions in any grouping, restarts and writes", "why_tests_cant": "Messages coalesce any number of changes and the node decides by comparing old and new description; which of the handlers runs depends on what happened since the last message.", "anchors": ["crates/fluvio-spu/src/core/global_context.rs: apply_replica_actions, promote, demote_replica, switch_leader_for_follower, remove_replica", "crates/fluvio-spu/src/core/store.rs: LocalStore::apply, sync_all, apply_changes", "crates/fluvio-spu/src/replication/follower/state.rs: FollowersState::add_replica, remove_replica", "crates/fluvio-spu/src/replication/follower/controller.rs: FollowerGroups", "crates/fluvio-spu/src/replication/leader/leaders_state.rs: add_leader_replica, promote_follower"]}
{"id": "C82", "title": "A deleted topic's records go, others stay, and a name used again starts empty", "statement": "When a node has heard that a partition is deleted it has no files of it; files of partitions that are not being deleted are never removed or shortened; a topic created under a name used before contains only records written to it; and a node's report of a removal removes no other partition.", "quantifier": "every history of creating, deleting and re-creating partitions, electing leaders, messages with all or some partitions in any grouping, restarts, failing storage and writes", "why_tests_cant": "What is left behind depends on the order of deletion, re-creation, restart and delivery; a test sees one order.", "anchors": ["crates/fluvio-spu/src/core/global_context.rs: remove_replica, remove_leader_replica, remove_follower_replica", "crates/fluvio-spu/src/core/store.rs: LocalStore::sync_all", "crates/fluvio-storage/src/replica.rs: FileReplica::create_or_load_inner, remove", "crates/fluvio-sc/src/services/private_api/private_server.rs: receive_replica_remove, send_replica_spec_changes"]}
{"id": "C83", "title": "A SmartModule name runs the module published under it", "statement": "When a consumer, producer or topic names a SmartModule, the node runs the module that was last published under this name: group/name@version that version of the package, a plain name the plain module, group/name some version of that package; if nothing fits, it fails.", "quantifier": "every history of publishing, re-publishing and withdrawing packages and plain modules, every name", "why_tests_cant": "Which module is run depends on all the others that are registered and on the order of their texts; tests register one or two.", "anchors": ["crates/fluvio-controlplane-metadata/src/smartmodule/package.rs: SmartModulePackageKey::{from_qualified_name, is_match, store_id}", "crates/fluvio-spu/src/core/smartmodule/metadata.rs: find_by_pk_key", "crates/fluvio-spu/src/smartengine/context.rs: resolve_invocation"]}
{"id": "C84", "title": "Publishing, listing, deleting and checking SmartModules agree on names", "statement": "Publishing a module adds or replaces that module and no other; lists show exactly the modules that are there, under names by which they can be deleted; deleting by such a name removes this module only; a topic's deduplication filter is accepted exactly if the nodes will find it.", "quantifier": "every history of publishing, re-publishing and withdrawing packages and plain modules, every name and filter", "why_tests_cant": "Modules are kept under the text name-group-version; whether two of them clash depends on all characters of all names.", "anchors": ["crates/fluvio-sc/src/services/public_api/smartmodule/create.rs: process_smartmodule_request", "crates/fluvio-sc/src/services/public_api/smartmodule/delete.rs: handle_delete_smartmodule", "crates/fluvio-sc/src/services/public_api/smartmodule/list.rs: fetch_smart_modules", "crates/fluvio-sc/src/services/public_api/topic/create.rs: validate_topic_request", "crates/fluvio-controlplane-metadata/src/smartmodule/package.rs: store_id, fqdn, is_valid"]}
{"id": "C85", "title": "Creating and listing objects follow the policy", "statement": "A client creates objects of a kind, and sees them in lists, exactly if one of its roles is permitted to by the policy of the system controller; otherwise the answer is a refusal or an empty list, nothing changes, and the answer does not depend on what is there.", "quantifier": "every policy, every set of roles, every request and every state of the system controller; every sequence of requests of a connection", "why_tests_cant": "Whether a refused request reveals or changes something is a statement about all states and all requests; the tests of the policy check a handful of role and action pairs.", "anchors": ["crates/fluvio-sc/src/services/auth/basic.rs: BasicRbacPolicy::evaluate, ActionUrn, Default", "crates/fluvio-sc/src/services/auth/mod.rs: ReadOnlyAuthContext", "crates/fluvio-sc/src/services/public_api/list.rs: handle_list_request", "crates/fluvio-sc/src/services/public_api/create.rs: handle_create_request"]}
{"id": "C86", "title": "Nobody changes or sees objects without permission", "statement": "Objects are deleted, changed, watched, and mirrors set up and removed, only by clients whose role permits it; a read-only controller changes nothing but registered SPUs; the roles of a client are those bound to its certificate.", "quantifier": "every policy, every client, every request and every state of the system controller", "why_tests_cant": "A missing check is not seen by tests that use clients with permission; the statement is about all requests of all clients.", "anchors": ["crates/fluvio-sc/src/services/auth/basic.rs: BasicAuthContext::allow_instance_action", "crates/fluvio-sc/src/services/auth/mod.rs: ReadOnlyAuthContext::allow_instance_action", "crates/fluvio-sc/src/services/public_api/watch.rs: handle_watch_request", "crates/fluvio-sc/src/services/public_api/mirror: register, unregister, list", "crates/fluvio-auth/src/x509/identity.rs: create_from_connection", "crates/fluvio-auth/src/x509/authenticator.rs: authenticate"]}
{"id": "C87", "title": "Requests to the controller change what they say and nothing else", "statement": "Creating what is there already is refused and changes nothing; deleting removes the named object and no other, and only if it may be removed (no topic mirrored from elsewhere, system topics by force only, SPUs only if registered by hand); partitions and mirrors are added to the named topic only; names and SPU ids stay unique.", "quantifier": "every request, client and state of the system controller; every sequence of requests", "why_tests_cant": "That nothing else changes is a statement about all objects of all kinds in all states.", "anchors": ["crates/fluvio-sc/src/services/public_api/topic: create.rs, delete.rs, update/add_partition.rs, update/add_mirror.rs", "crates/fluvio-sc/src/services/public_api/spu: register_custom_spus_req.rs, unregister_custom_spus_req.rs", "crates/fluvio-sc/src/services/public_api/spg, tableformat, mirror"]}
{"id": "C88", "title": "Records sent from files arrive as if sent from memory", "statement": "Records are copied from the log files into responses to consumers, sync messages to followers and messages to mirrors without passing through the encoder. What is written to the connection is, byte for byte, one frame with the same message holding the same records; however the network splits it, the receiver gets one message per message sent, with exactly the batches that are in the slice of the file.", "quantifier": "every message of the four kinds, every version from 0 on, every content of the files, every number and position of slices, every split of the bytes by the network", "why_tests_cant": "The announced length, the fields written by hand next to the slices and the derived encoder must agree for all messages and versions; a test compares one message with one slice.", "anchors": ["crates/fluvio-protocol/src/store.rs: FileWrite, StoreValue", "crates/fluvio-socket/src/sink.rs: encode_file_slices, write_store_values", "crates/fluvio-spu-schema/src/file.rs: FileRecordSet", "crates/fluvio-spu-schema/src/fetch/response.rs: file_encode", "crates/fluvio-spu-schema/src/server/stream_fetch.rs: file_encode", "crates/fluvio-spu/src/replication/follower/sync.rs: FileSyncRequest", "crates/fluvio-spu/src/mirroring/home/sync.rs: file_encode", "crates/fluvio-spu/src/mirroring/remote/sync.rs: file_encode"]}
{"id": "C89", "title": "A follower reads every replica in a sync message", "statement": "A leader sends all replicas with something new in one message; the follower reads each of them, also if a slice of records is cut by the byte limit in the middle of a batch.", "quantifier": "every cut of every list of batches; every message with any number of replicas; every reachable state of the replication model", "why_tests_cant": "The failure needs a slice whose last bytes end inside an integer of a batch header together with another replica in the same message; tests send one replica and whole batches.", "anchors": ["crates/fluvio-protocol/src/record/data.rs: RecordSet::decode", "crates/fluvio-protocol/src/record/batch.rs: Batch::decode", "crates/fluvio-spu/src/replication/leader/connection.rs: update_from_leaders", "crates/fluvio-spu/src/replication/leader/replica_state.rs: follower_updates", "crates/fluvio-spu/src/replication/follower/sync.rs: FileSyncRequest"]}
{"id": "C90", "title": "What producers send is what consumers see", "statement": "For a partition with any number of producers and a consumer: the log holds only records that were pushed; the records of each producer are in it in the order in which they were pushed, none twice if no request had to be repeated, and all of them once the producer is idle and nothing was refused; the consumer is given exactly the log from its start offset on, in order, each record once with its offset; the offset a producer is told for a record is the one under which the consumer is given it.", "quantifier": "every number of producers, every configuration and run of each, every interleaving of their batches with retention, watermark updates, restarts before the consumer starts, and the steps of server, client and network of the consumer stream; every start offset", "why_tests_cant": "The property joins four components (client accumulator, produce service, storage, stream protocol) under all schedules; tests run one producer, then one consumer.", "anchors": ["crates/fluvio/src/producer/accumulator.rs: RecordAccumulator::push_record", "crates/fluvio/src/producer/partition_producer.rs: PartitionProducer::flush", "crates/fluvio-spu/src/services/public/produce_handler.rs: handle_produce_request", "crates/fluvio-spu/src/storage/mod.rs: write_record_set", "crates/fluvio-spu/src/services/public/stream_fetch.rs: StreamFetchHandler::process", "crates/fluvio/src/consumer/mod.rs: stream_with_config"]}
{"id": "C91", "title": "Compression does not show", "statement": "A producer uses the algorithm its topic asks for, or the one of its configuration if the topic leaves it open, and is refused at the start exactly when the two name different ones; what it then sends is never refused for its compression, also not after SmartModules have changed it. Whatever algorithms the batches of a log use, consumers are shown the same records with the same offsets, SmartModules return the same records and errors, and look-back shows the same records, as if nothing were compressed.", "quantifier": "every topic and producer setting, every list of batches with any mixture of algorithms, every algorithm pair that uncompresses what it compressed, every chain of SmartModules, every start offset", "why_tests_cant": "The claim compares two runs for all batches, mixtures of algorithms and module chains; tests compress a few fixed texts.", "anchors": ["crates/fluvio/src/producer/mod.rs: determine_producer_compression_algo", "crates/fluvio-protocol/src/record/batch.rs: TryFrom<Batch> for Batch<RawRecords>, memory_records", "crates/fluvio-compression/src/lib.rs: Compression", "crates/fluvio-spu/src/services/public/produce_handler.rs: validate_records, apply_smartmodules", "crates/fluvio-spu/src/smartengine/batch.rs: process_batch, set_compression", "crates/fluvio-spu/src/smartengine/produce_batch.rs: ProduceBatchIterator", "crates/fluvio-storage/src/iterators.rs: FileBatchIterator"]}
{"id": "C92", "title": "A managed consumer continues where it was, over all runs of its application", "statement": "A consumer with an id that reads several partitions, and is started, crashed and started again any number of times, is given the records of every partition in the order of the log and without a gap from each start on; whatever offset is stored for a partition, all records up to it (from where the consumer was first started) were given in one of the runs or removed by retention; when nothing is left to do, all records were given. With manual commits, when a flush over all partitions succeeds the last commit of every partition is stored and the next run starts after it; without offset management commits and flushes are refused and nothing is stored.", "quantifier": "every number of partitions, every history of them, every stored offset to begin with, every interleaving of reads, commits, flushes, ticks, answers, refusals and losses of messages (also of earlier runs), crashes at every point and restarts, any number of runs", "why_tests_cant": "Crash points, lost and late messages of earlier runs, and the interleaving of partitions are unbounded; tests restart a consumer once at a chosen point.", "anchors": ["crates/fluvio/src/consumer/stream.rs: MultiplePartitionConsumerStream, SinglePartitionConsumerStream, OffsetManagement", "crates/fluvio/src/consumer/retry.rs: ConsumerRetryStream", "crates/fluvio/src/consumer/mod.rs: request_stream", "crates/fluvio/src/fluvio.rs: consumer_with_config_inner", "crates/fluvio/src/offset.rs: Offset::resolve"]}
{"id": "C93", "title": "A request to an SPU arrives as it was sent, and in order", "statement": "Every request of the public API of an SPU that can be sent (all of them, except produce requests with a timeout of 2^31 milliseconds or more) is taken by the SPU as the same kind of request, under the same header, with every field its version has; timeouts arrive in whole milliseconds, acknowledgement levels as themselves. Requests written one after the other on a connection are all taken, in order, however the stream is cut into reads. The announced size is the size. Requests of unknown kinds and negative timeouts are refused. Between a client and an SPU of the same release every request goes out in its newest version. A request that could not be sent must not harm the next one.", "quantifier": "every kind of request, every header, every contents, every version from 0 on, every sequence of requests on a connection and every way of cutting the stream into reads", "why_tests_cant": "Versions, field combinations, timeouts and cuts of the stream multiply; the existing tests decode a few literal messages in one version.", "anchors": ["crates/fluvio-spu-schema/src/produce/request.rs: DefaultProduceRequest, Encoder, Decoder", "crates/fluvio-spu-schema/src/server/api_key.rs: SpuServerApiKey", "crates/fluvio-spu-schema/src/server/api.rs: SpuServerRequest", "crates/fluvio-protocol/src/api/request.rs: RequestMessage", "crates/fluvio-protocol/src/codec/mod.rs: FluvioCodec", "crates/fluvio-socket/src/versioned.rs: lookup_version"]}
{"id": "C94", "title": "An answer of an SPU, and the error in it, arrive as they were sent", "statement": "Every error code arrives as itself in every version. Every answer of an SPU that is sent from memory arrives under its correlation id with every field its version has, and announces its size; in the current versions it arrives whole. Of a produce answer the partition, the error and the base offset arrive in every version. A client finds the answer for its topic and partition whatever else is in the response, and never takes that of another one.", "quantifier": "every kind of answer, every contents, every error code and its fields, every version from 0 on, every list of topics and partitions in an answer", "why_tests_cant": "All error codes with all contents in all versions, and all lists of topics, cannot be enumerated.", "anchors": ["crates/fluvio-protocol/src/link/error_code.rs: ErrorCode", "crates/fluvio-spu-schema/src/produce/response.rs: ProduceResponse, find_partition_response", "crates/fluvio-spu-schema/src/server/fetch_offset.rs: FetchOffsetsResponse::find_partition", "crates/fluvio-spu-schema/src/server/consumer_offset.rs", "crates/fluvio-protocol/src/api/response.rs: ResponseMessage"]}
{"id": "C95", "title": "A consumer that asks the SPU for offsets starts where it asked to", "statement": "A consumer that resolves a relative offset by asking the SPU that leads the partition is told the offsets this partition has, starts between the beginning and the high watermark of the log, and exactly at the position it named if that lies in the log.", "quantifier": "every state of the partitions of the SPU, every topic and partition, every relative request and stored offset, every version of the request", "why_tests_cant": "Depends on every combination of log range, request and stored offset, and on whether the SPU asked is the leader at that moment.", "anchors": ["crates/fluvio/src/offset.rs: fetch_offsets, Offset::resolve", "crates/fluvio-spu/src/services/public/offset_request.rs: handle_offset_request", "crates/fluvio-spu-schema/src/server/fetch_offset.rs: FetchOffsetsRequest, FetchOffsetPartitionResponse"]}
{"id": "C96", "title": "A remote cluster comes to have, and keeps, the mirrors its home has for it", "statement": "While users change nothing, and whatever connections are lost, store operations fail or time out and messages are repeated, a remote that has handled one message more than were under way has exactly the mirror topics its home has for it, each towards the SPU that has the home's partition; it stays so, and nothing of the remote is touched any more. From every state that comes up such a state can be reached. A message of the home names exactly the topics it mirrors with that remote. A remote is served if and only if it is registered under its name and not refused, and nothing is sent to one that is not served.", "quantifier": "every home and remote, every number of topics, every schedule of sending, receiving, handling, failing, reconnecting and provisioning, every state of a connection in between", "why_tests_cant": "The outcome depends on how messages, failures in the middle of handling one, reconnections and the topic controller interleave; tests follow one schedule.", "anchors": ["crates/fluvio-sc/src/services/public_api/mirroring/connect.rs: RemoteFetchingFromHomeController, sync_and_send_topics", "crates/fluvio-sc/src/controllers/mirroring/controller.rs: RemoteMirrorController, sync_topic, delete_not_received_topics"]}
{"id": "C97", "title": "Following its home leaves the other topics of a remote alone", "statement": "A topic of a remote that is no mirror of the home, and that the home does not name, keeps its spec and its partitions, and no topic appears the home does not name. A mirror that is new at the remote has the settings of the home's topic, and its partition is linked to the SPU that has the home's partition. Topics of the remote's own are not lost; links and settings follow the home's.", "quantifier": "every home and remote, every topic, every schedule as in C96", "why_tests_cant": "Names of two clusters meet in any way, and changes at the home fall between any two messages.", "anchors": ["crates/fluvio-sc/src/controllers/mirroring/controller.rs: sync_topic, delete_not_received_topics", "crates/fluvio-sc/src/controllers/topics/policy.rs: compute_next_state", "crates/fluvio-sc/src/stores/topic/store.rs: create_new_partitions"]}
{"id": "C98", "title": "A hub package that is verified has the files that were signed", "statement": "A package that was signed is verified with the public key of the signer, whichever order signatures are looked at in, and signing changes none of its files. A package that is verified with a key has a signature file naming the key, and each file it lists is in the package with data the listed signature fits; if names occur once, that data is what is read. A file of a signed package that is changed or removed is noticed. A package that is verified holds only what the owner of the key has signed, and several keys can sign it.", "quantifier": "every package, key, file and name, every change of a signed package, every signature scheme in which signatures made with a key fit what was signed", "why_tests_cant": "What an attacker may do to an archive is not a list of cases: entries may be repeated, renamed, reordered, added, and signature files written by hand.", "anchors": ["crates/fluvio-hub-util/src/package.rs: package_sign, package_verify_with_readio, package_verify_sig_from_readio, package_getsigs_with_readio, package_get_topfile_with_readio", "crates/fluvio-hub-util/src/keymgmt.rs: PublicKey"]}
{"id": "C99", "title": "A hub package has the files and the description it was assembled from", "statement": "A package is assembled if and only if every path of its manifest names a file that is there. The description read from it is the one given, with names in place of paths and the target as a tag unless there is one. Every file of the manifest can be read from it by its name as it was, there is nothing else in it, and signing changes nothing of that.", "quantifier": "every description, manifest, directory and target", "why_tests_cant": "Manifests are any lists of paths; the paths used in tests have different names.", "anchors": ["crates/fluvio-hub-util/src/package.rs: package_assemble, package_get_manifest_file_with_readio, augment_arch", "crates/fluvio-hub-util/src/package_meta_ext.rs: package_get_meta"]}
{"id": "C100", "title": "What a consumer committed last is what the cluster answers later", "statement": "An offset that a consumer commits through any SPU, and that is confirmed, is what a request for the offset of this consumer and partition is answered with, whichever SPU leads the offsets by then, through restarts and changes of the leader, until the consumer commits again, the offset is removed, or the topic is deleted. A list of offsets has exactly the stored ones that match the filter, each once. A commit that does not reach the leader is refused and changes nothing; nothing done for one consumer or partition changes the offset of another.", "quantifier": "every sequence of commits, removals, requests, metadata messages, changes of leader and restarts, on any SPUs, with any failures and lost answers", "why_tests_cant": "Needs histories in which the leader of the offsets moves and restarts between commits, with commits forwarded among SPUs.", "anchors": ["crates/fluvio-spu/src/services/public/consumer_handler.rs: handle_update, handle_delete, handle_fetch_consumers, update_offset_in_peer", "crates/fluvio-spu/src/services/internal/update_consumer_offset_handler.rs", "crates/fluvio-spu/src/kv/consumer.rs: get_or_insert"]}
{"id": "C101", "title": "Deleting a topic removes the offsets of its consumers", "statement": "When the SPU that leads the consumer offsets learns that a replica is deleted, all offsets of the replica are removed, and those of other replicas stay. A topic of the same name created later has no offsets.", "quantifier": "every metadata message, store of replicas and set of offsets; every order of deletion, commits, restarts and creation", "why_tests_cant": "Deletion races with streams that are open, and with the leader of the offsets being down; tests delete a topic at rest.", "anchors": ["crates/fluvio-spu/src/core/global_context.rs: apply_replica_actions, remove_replica, delete_consumers_offset", "crates/fluvio-spu/src/core/store.rs: apply, sync_all, apply_changes", "crates/fluvio-spu/src/kv/consumer.rs: delete_by_replica_key"]}
{"id": "C102", "title": "A command of the client goes to the cluster its profile names, and changing profiles changes no others", "statement": "A command without options goes to the cluster of the current profile, with a profile option to that of the named one, with an address to the address; options that contradict each other are refused. Adding, synchronising, switching, renaming and deleting profiles change the profile they are about and leave the clusters of all others as they are; a command that fails changes nothing. As long as nothing is forced, the current profile and every other one that exists have a cluster. A cluster that a profile uses is not deleted unless forced.", "quantifier": "every sequence of profile commands, every file content and outcome of writing it, every combination of options", "why_tests_cant": "Needs sequences of commands over shared names, and writes cut off at any point; a test runs one command on one prepared file.", "anchors": ["crates/fluvio/src/config/config.rs: ConfigFile, Config", "crates/fluvio-cli/src/profile/*", "crates/fluvio-extension-common/src/lib.rs: ClusterTarget::load"]}
{"id": "C103", "title": "The CLI produces one record for each line of a text, or one for all of it", "statement": "Of a file or the standard input each line becomes one record, in order, with the key its options say: none, the given one, or what is in front of the first separator; lines without the separator are skipped. With --raw the whole input becomes one record, byte for byte. If the command succeeds, all lines were sent and, unless delivery is at most once, all records were acknowledged; if it fails, a first part of them was sent. A file that cannot be read is an error. With --mirror the records go to the partition the topic has for that cluster.", "quantifier": "every text and other input, every key and separator, every outcome of sending, waiting and flushing, every set of topics", "why_tests_cant": "All inputs with all separators and failures at any record cannot be tried; tests use a few lines of ASCII.", "anchors": ["crates/fluvio-cli/src/client/produce/mod.rs: process_client, process_raw_file, produce_lines, producer_stdin, produce_line, produce_key_value", "crates/fluvio-cli-common/src/user_input.rs"]}
{"id": "C104", "title": "The CLI prints the records that were asked for, as they are", "statement": "Consuming starts where the options say and prints all records from there on in the order of the stream; with --end exactly those up to that offset. Text is printed as it is. With --mirror only records of that cluster are printed. A text that is produced and consumed is printed as it was.", "quantifier": "every stream of records and errors, every option, every text", "why_tests_cant": "Streams of several partitions, with offsets missing and errors at any place, and all texts cannot be enumerated.", "anchors": ["crates/fluvio-cli/src/client/consume/mod.rs: consume_records, consume_records_stream, print_record, calculate_offset", "crates/fluvio-cli/src/client/consume/record_format.rs", "crates/fluvio/src/fluvio.rs: consumer_with_config_inner"]}
{"id": "C105", "title": "The version manager installs what was published and uses what it says is active", "statement": "Installing a version stores its binaries, with the digests that are published, makes them the ones in use and says so; if any download fails nothing changes. Whatever is interrupted, at any point, no binary gets stored that was not published under its name, other installed versions stay as they are, and installing again completes it. Switching uses the binaries of an installed version and changes none that is installed. Whatever commands were given, the binaries in use are those of the version that is said to be active. The list shows what is installed and which one is active.", "quantifier": "every sequence of commands, every answer of the hub, every digest function, every point at which a command is cut short, also in the middle of a write", "why_tests_cant": "Interruptions at every change of a file and all sequences of commands cannot be tried; the tests open a few fixed directories.", "anchors": ["crates/fluvio-version-manager/src/common: version_directory.rs, version_installer.rs, settings.rs, manifest.rs", "crates/fluvio-version-manager/src/command: install.rs, switch.rs, uninstall.rs, current.rs, list.rs", "crates/fluvio-hub-util/src/fvm: mod.rs, api/download.rs"]}
{"id": "C106", "title": "Updating gets to what the hub publishes, and stays there", "statement": "Updating the stable channel installs a newer version and never an older one; with the same version it replaces exactly the binaries that have another version at the hub; updating the latest channel installs any other version. When that is done, a further update changes nothing. Versions installed by their number are not updated, and other installed versions are not touched.", "quantifier": "every state of the installation, every package set of the hub", "why_tests_cant": "All combinations of recorded and published versions cannot be enumerated; no test runs an update.", "anchors": ["crates/fluvio-version-manager/src/command/update.rs: process", "crates/fluvio-version-manager/src/common/version_installer.rs: update", "crates/fluvio-hub-util/src/fvm/mod.rs: artifacts_diff"]}
{"id": "C107", "title": "A client goes to the server that the metadata name for a partition", "statement": "A request for a partition is sent over a connection to the SPU that leads it according to the client's metadata, made to the address the metadata had for that SPU; never over a connection known to have ended; one connection per SPU is shared. If the leader is up and there is no live connection, a new one is made. A consumer can be opened whenever the leader is up. When the leader of a partition changes, the client follows. An unknown partition or topic is reported as such.", "quantifier": "every history of metadata updates, SPUs stopping and starting anywhere, connections ending noticed or unnoticed, and requests of the client", "why_tests_cant": "The order of metadata updates, failures of servers and requests is unbounded; unit tests have no SPUs.", "anchors": ["crates/fluvio/src/spu.rs: SpuSocketPool", "crates/fluvio/src/sync/mod.rs: lookup_by_key, lookup_and_wait", "crates/fluvio/src/sync/controller.rs: dispatch_loop, sync_metadata", "crates/fluvio/src/consumer/mod.rs: inner_stream_batches_with_config", "crates/fluvio-socket/src/multiplexing.rs: is_stale"]}
{"id": "C108", "title": "Producers find the leader again, and their partitions do not hold each other up", "statement": "A producer that lost the leader of a partition goes on trying and gets a connection to the current leader as soon as the metadata name one that is up. A record for a partition whose queue has room is taken at once. A send that waits for room returns when there is room. A flush returns when all partitions were flushed, and then nothing is queued.", "quantifier": "every history of failures and updates between the attempts; every order of sends, flushes and deliveries over the partitions of a topic", "why_tests_cant": "The interleaving of partitions, attempts and updates is unbounded; tests produce to one SPU that is up.", "anchors": ["crates/fluvio/src/producer/partition_producer.rs: connect_spu, connect_spu_with_reconnect", "crates/fluvio/src/producer/mod.rs: push, flush, ProducerPool", "crates/fluvio/src/producer/accumulator.rs: push_record, BatchesDeque"]}
{"id": "C109", "title": "A topic is stored the way it was asked for", "statement": "The retention time, the segment size, the size of partitions, the compression, the deduplication and the layout given when a topic is created, by flags or in a file, are those in effect for every partition of the topic on every SPU; what is not given is as the SPU is configured. Settings are accepted exactly within the documented limits. Partitions that exist keep their settings. The retention that is listed is the one in effect. A dry run changes nothing and says what would happen.", "quantifier": "all combinations of settings given or not, every plan of replicas, every set of partitions that exist already, every configuration of an SPU", "why_tests_cant": "The settings pass through the command line, the controller, the metadata and the SPU, with conversions between number types at each step; tests try a few small values at one of them.", "anchors": ["crates/fluvio-cli/src/client/topic/create.rs: construct", "crates/fluvio-controlplane-metadata/src/topic/config.rs: TopicConfig", "crates/fluvio-controlplane-metadata/src/topic/spec.rs: TopicSpec, validate_config", "crates/fluvio-sc/src/services/public_api/topic/create.rs", "crates/fluvio-spu/src/config/spu_config.rs", "crates/fluvio-storage/src/config.rs: update_from_replica", "crates/fluvio-spu/src/smartengine/mod.rs: dedup_to_invocation"]}
{"id": "C110", "title": "Adding partitions adds as many as asked and reports it when it is so", "statement": "After partitions were added to a topic, it has that many more. The command reports success only once the topic is seen to have them, and does so when it is.", "quantifier": "all numbers of partitions and every stream of metadata changes, of this topic and of others", "why_tests_cant": "What else changes in the cluster while the command waits is unbounded; tests have one topic.", "anchors": ["crates/fluvio-cli/src/client/topic/add_partition.rs", "crates/fluvio-sc/src/services/public_api/topic/update/add_partition.rs"]}
{"id": "C111", "title": "Every SPU has an id of its own", "statement": "No two SPUs of a cluster have the same id: a custom SPU is registered only under a name and an id that are free, a group whose ids are taken is found invalid and the others are reserved for good, and the pods of a group run under the ids and addresses the SC has for them.", "quantifier": "every history of creating, changing and deleting groups, registering and unregistering custom SPUs, passes of the controllers, reports on SPUs and restarts, in any order", "why_tests_cant": "The controllers and the requests interleave freely; the unit tests of the group controller are switched off.", "anchors": ["crates/fluvio-sc/src/k8/objects/spg_group.rs: as_spu, is_conflict_with", "crates/fluvio-sc/src/k8/controllers/spg_stateful.rs: sync_spg_to_statefulset", "crates/fluvio-sc/src/k8/controllers/spu_controller.rs: sync_spu", "crates/fluvio-sc/src/stores/spu/mod.rs: is_conflict", "crates/fluvio-sc/src/services/public_api/spu/register_custom_spus_req.rs", "crates/fluvio-spu/src/config/cli.rs: find_spu_id_from_env"]}
{"id": "C112", "title": "A connector starts only with a config that fits its package, and gets the secrets it names", "statement": "A package accepts a config exactly if everything its schema requires is there, and direction and deployment agree. A config that uses secrets is rendered exactly if it declares them and the store has them; each use is replaced by the secret as it was written into the secrets file or the environment, and the rest of the config stays as it is.", "quantifier": "every package, schema of any depth, config, secrets file and environment", "why_tests_cant": "Schemas nest to any depth and values of secrets are arbitrary texts; the unit tests try a few of each.", "anchors": ["crates/fluvio-connector-package/src/metadata.rs: validate_config, validate_schema_object", "crates/fluvio-connector-package/src/config/mod.rs: SecretName::validate, ConnectorConfig::secrets", "crates/fluvio-connector-package/src/secret.rs: FileSecretStore", "crates/fluvio-connector-package/src/render: ConfigRenderer, ContextStore", "crates/fluvio-connector-derive/src/generator.rs: init_and_parse_config"]}
{"id": "C113", "title": "A connector reads what its config says", "statement": "A sink reads the topic, the partitions, from the offset, with the limit of bytes and the SmartModules its config names, each partition once, and saves offsets as it says; it refuses to start only if the start is negative or an id is missing. It has its topic when it starts, created as the config says if it was not there, and changes no other.", "quantifier": "every config and every set of topics, also when it changes between the two requests", "why_tests_cant": "Partitions, limits and concurrent changes are arbitrary; no test starts a connector against a cluster that changes.", "anchors": ["crates/fluvio-connector-common/src/consumer.rs: consumer_stream_from_config", "crates/fluvio-connector-common/src/lib.rs: ensure_topic_exists", "crates/fluvio/src/consumer/config.rs: ConsumerConfigExtBuilder::build", "crates/fluvio/src/fluvio.rs: consumer_with_config"]}
{"id": "C114", "title": "A topic reported as created can be used", "statement": "A request that creates a topic is answered with success only when as many partitions of that topic as it has are online; it is answered as soon as they are, and otherwise when its time is up, with the number of partitions that were online.", "quantifier": "every interleaving of changes of partitions in the storage, their arrival at the controller, and the steps of the request, from any history of partitions, also of topics of the same name", "why_tests_cant": "The request counts in a copy that changes while it waits, and sleeps between two looks; whether a change is missed or an old partition is counted depends on the schedule.", "anchors": ["crates/fluvio-sc/src/services/public_api/topic/create.rs: process_topic_request", "crates/fluvio-stream-model/src/store/metadata.rs: is_owned", "crates/fluvio-stream-model/src/store/dual_store.rs: ChangeListener::listen, sync_status_changes", "crates/fluvio-stream-dispatcher/src/metadata/local.rs: LocalMetadataItem::uid"]}
{"id": "C115", "title": "The id of a package names one package and survives its text form", "statement": "An id of a package (registry, group, name, version) that is printed and read again is the same id; the short forms name the package in the default group and registry; two ids have the same unique id exactly if they name the same package.", "quantifier": "every text given as an id, every registry, group, name, version and tag, with and without a version", "why_tests_cant": "The text is cut at slashes and colons, which also occur in URLs; whether two different ids can get the same text or a text can be read as another id depends on all possible texts.", "anchors": ["crates/fluvio-package-index/src/package_id.rs: PackageId, FromStr, Display, pretty, uid, Registry::try_from_segments", "crates/fluvio-package-index/src/version.rs: PackageVersion", "crates/fluvio-package-index/src/tags.rs: TagName"]}
{"id": "C116", "title": "The newest release for a platform is found", "statement": "Of a package whose releases were published in any order, the latest release for a target is the greatest version published for that target, without pre-releases unless they are wanted; each version is listed once, with the targets it was published for, from the oldest to the newest.", "quantifier": "every history of published versions and targets, every total order of versions", "why_tests_cant": "The latest release is the last of a list that is kept sorted as versions are added in any order and again for other targets; that it stays sorted must hold for every history.", "anchors": ["crates/fluvio-package-index/src/package.rs: Package::add_release, latest_release, latest_release_for_target, releases_for_target, Release::add_target"]}
{"id": "C117", "title": "A hub package is downloaded from where it was uploaded to", "statement": "A package that passed the check of names can be downloaded by its name group/name@version from the place it was uploaded to; different packages and versions have different places, and different paths of stored objects; the path made from the name is the one made from the description.", "quantifier": "every group, name and version, every text given as a name of a package", "why_tests_cant": "Names are put together with separators that are allowed in the parts too; whether two packages can get the same name depends on all possible texts.", "anchors": ["crates/fluvio-hub-protocol/src/package_meta.rs: naming_check, pkg_name, obj_name, object_path_from_name, packagefile_name", "crates/fluvio-hub-util/src/utils.rs: cli_pkgname_split, cli_pkgname_to_url, cli_conn_pkgname_to_url, cli_pkgname_to_filename, push_package, push_package_conn, push_package_api", "crates/fluvio-hub-util/src/package_meta_ext.rs: packagename_transform"]}
{"id": "C118", "title": "A local cluster keeps its data until it is deleted", "statement": "Whatever start, shutdown, resume, upgrade and profile commands are given, in any order and with any failures of launching, the data of a local cluster is kept until it is deleted; a cluster that is shut down and resumed runs with the same config and data, an upgrade changes only the version; there are never two local clusters; commands that are refused change nothing.", "quantifier": "every sequence of cluster commands, every config, every outcome of launching servers", "why_tests_cant": "The state is spread over a config file, a data directory, processes and the profile; what a command may find depends on all commands before it and where they failed.", "anchors": ["crates/fluvio-cluster/src/start/local.rs: preflight_check, install_only, LocalConfig", "crates/fluvio-cluster/src/check/mod.rs: LocalClusterCheck, CleanLocalClusterCheck, LocalClusterVersionCheck", "crates/fluvio-cluster/src/cli/shutdown.rs, cli/resume.rs, cli/upgrade.rs, cli/delete.rs", "crates/fluvio-cluster/src/delete.rs: uninstall_local", "crates/fluvio-cluster/src/process/mod.rs: delete_data_dir, delete_local_config", "crates/fluvio-cluster/src/runtime/local/spu.rs: create_spu_absolute"]}
{"id": "C119", "title": "The counters of an SPU count what went through it", "statement": "What an SPU reports to monitoring is what it did since it started: inbound records and bytes are those stored, outbound ones those sent, separately for connectors and other clients; for each SmartModule the input bytes, calls, errors and fuel of all its calls are counted.", "quantifier": "every sequence of writes, reads, commits and retention on any partitions, every chain of SmartModules and every outcome of its calls", "why_tests_cant": "Counters are sums over whole histories of many partitions, connections and chains; a test looks at a few requests on a new log, where the start of the log, the high watermark and the slice happen to agree.", "anchors": ["crates/fluvio-spu/src/core/metrics.rs: SpuMetrics, Activity, IncreaseValue, update_smartmodule_metrics", "crates/fluvio-spu/src/services/public/produce_handler.rs: handle_produce_partition", "crates/fluvio-spu/src/services/public/fetch_handler.rs: handle_fetch_partition", "crates/fluvio-spu/src/services/public/stream_fetch.rs: send_back_records", "crates/fluvio-spu/src/replication/leader/replica_state.rs: write_record_set", "crates/fluvio-smartengine/src/engine/metrics.rs: SmartModuleChainMetrics", "crates/fluvio-smartengine/src/engine/wasmtime/engine.rs: metrics_export", "crates/fluvio-spu/src/smartengine/context.rs: update_global_metrics"]}
{"id": "C120", "title": "Connectors started on a machine are listed, and a shutdown ends the one that is named", "statement": "A connector deployed locally is started exactly if its name is not in use, is then listed as running as long as it runs, has its own log, and can be shut down by its name; a shutdown ends that connector and no other process, after which the name can be used again.", "quantifier": "every sequence of starts, shutdowns, ends of processes, other processes, loss of the index file and of directories, and every name", "why_tests_cant": "The index is a file that says what was true when it was written; whether it still is depends on the history of processes, ids and directories outside of the program.", "anchors": ["crates/cdk/src/deploy.rs: deploy_local, local_index::{store, print, delete_by_name, print_log}, LocalIndex::{load, insert, remove, find_by_name}, LocalProcesses::{status, kill}", "crates/fluvio-connector-deployer/src/local.rs: deploy_local"]}
{"id": "C121", "title": "Commands are run by the release of the channel that was switched to", "statement": "After switching to a release channel every command is run by the binary of that channel, until another switch, whatever channels are created or deleted meanwhile; creating and deleting a channel leaves the other channels, and their files, alone, and a command that fails changes nothing.", "quantifier": "every sequence of create, switch, delete and other commands, every answer of the package index, every place of binaries and any change of files in between", "why_tests_cant": "What a command does depends on a config file written by all commands before it and on files that others may change; tests look at a new config and one command.", "anchors": ["crates/fluvio-channel/src/lib.rs: FluvioChannelConfig, FluvioChannelInfo, FluvioBinVersion::parse, is_pinned_version_channel", "crates/fluvio-channel-cli/src/bin/main.rs: main", "crates/fluvio-channel-cli/src/cli/create.rs: CreateOpt::process", "crates/fluvio-channel-cli/src/cli/switch.rs: SwitchOpt::process", "crates/fluvio-channel-cli/src/cli/delete.rs: DeleteOpt::process", "crates/fluvio-channel-cli/src/lib.rs: install_channel_fluvio_bin"]}
{"id": "C122", "title": "The table of the consumer has the last record of each key", "statement": "The interactive table of consumed records has one row for each value of the primary keys, the last record with it, in the place of the first; without primary keys it has all records in order; cells show the fields of their columns, and moving in the table selects a row that is there and changes nothing.", "quantifier": "every sequence of records, JSON objects, arrays or anything else, every choice of columns and primary keys, and every input of the user in between", "why_tests_cant": "Which row a record replaces depends on all records before it and on the number of rows at the time; with one key or many rows all looks well.", "anchors": ["crates/fluvio-cli/src/client/consume/table_format.rs: TableModel::{update_row, get_primary_keys, next, previous, first, last, page_up, page_down, event_handler, table_ui}", "crates/fluvio-cli/src/client/consume/record_format.rs: format_fancy_table_record, update_table_row, flatten_json_array_updates"]}
{"id": "C123", "title": "The hex dump of a record shows every byte in its place", "statement": "A record that is not text is printed as lines of sixteen bytes: each line starts with the offset of its first byte, each byte is at the column of its place as two hex digits, the rest of the last line is blank, and the printable text is at the right. Two records with the same dump are the same.", "quantifier": "every record of at most 4 GiB, of any bytes and any length, and every byte of it", "why_tests_cant": "The layout of the last line depends on the length, and every byte at every place has to be readable; tests look at two records.", "anchors": ["crates/fluvio-extension-common/src/common/hex_dump.rs: bytes_to_hex_dump, byte_to_string"]}
