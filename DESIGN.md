# Formal model of infinyon/fluvio in Rocq (Coq 8.16.1)

123 properties (`properties.jsonl`), 1038 property theorems (`MANIFEST.json`), all about one executable model of the code in /repo.

## Layout

* `properties.jsonl` - the English properties C01 to C123.
* `rocq/theories/*Model.v` - the model: total functions, or programs of a small step language, in Gallina. No proofs. Every definition cites the file and lines in /repo it models and says what it simplifies.
* `rocq/theories/*Spec.v` - small specifications used in theorem statements (what a run is, what "delivered in order" means, ...).
* `rocq/theories/*Proofs.v`, `*Claims.v`, `*Links.v`, `*Watch.v`, `*Examples.v` - lemmas and concrete runs.
* `rocq/theories/*Props.v` - the property theorems and nothing else. Each is closed by `exact`, followed by `Print Assumptions` and an `Example` that meets its hypotheses with a concrete case.
* `rocq/theories/Base.v`, `ListFacts.v` - bytes, machine integers, results, list lemmas.
* `MANIFEST.json` - property to theorems. `seeded/LOG.jsonl` - wrong programs tried against the theorems.

## Conventions

* Bytes are `Z` in `[0,256)`. Machine integers are `Z` with explicit wrap functions where the code can wrap; arithmetic is that of a release build.
* `Result` is data. A panic is an explicit error value (`Panic`). Loops are structural recursion, or fuelled with an explicit out-of-fuel error that theorems exclude.
* Concurrency: a run is a list of steps of a labelled transition system, where a step is what the code does between two awaits, while it holds a lock, or in one atomic operation, whichever is smallest for the code in question. Theorems quantify over all runs.
* Crashes: a stop may happen between any two steps, and for the files that are written piecewise (log, index, checkpoint, local metadata) in the middle of a write.
* Things the model leaves open (hash functions, SmartModules, map iteration order, time, loss and reordering of messages, failures of calls) are parameters or choices of the environment, never axioms.

## Meaning of the status in MANIFEST.json

`proved` means that the question the property asks is settled by theorems of the model: either it holds as stated, or the theorems give the conditions under which it holds and a `..._refuted` theorem exhibits a reachable state or input of the faithful model for which it fails without them. The note of each claim says which. A refutation is a finding about the code (as modelled), not a gap in the proof. `partial` would mean that part of the question is open; a theorem that covers only part of its claim would carry the suffix `_partial`. There are none at present.

## Per property: model and proof method

What holds and what is refuted is in the note of each claim in `MANIFEST.json`.

* **C01 Variable-length integers survive the wire** (WireProps.v). Bit-exact model of the zig-zag and 7-bit loops on Z; the 32-bit range is reduced to arithmetic and base-128 digits, with a bound on the number of rounds; witnesses outside the range.
* **C02 Primitive and composite values survive the wire** (WireProps.v). A codec is a record of encode, decode and size; laws are proved once per combinator and then for every type of a small universe by induction on the type, including every truncation.
* **C03 Strings of any length survive the wire** (WireProps.v). The string codec with its signed 16-bit length: an equivalence, and a witness at 32768.
* **C04 Records survive the wire** (RecordProps.v). Records as codecs on top of C01 and C02, under explicit range conditions.
* **C05 Batches survive the wire and announce their exact size** (RecordProps.v). Batches with a concrete CRC-32C, header layout byte by byte, with and without schema id.
* **C06 Record sets survive the wire; truncation only loses whole trailing batches** (RecordProps.v). The record-set decoder with its loop that swallows the last error; a theorem for every truncation point.
* **C07 Message framing is independent of how the network splits bytes** (FrameProps.v). The frame decoder as a state machine on a buffer; induction over every chunking of every stream.
* **C08 Batch attribute flags are independent** (RecordProps.v). Bit lemmas on 16-bit words.
* **C09 Consumers see each record under its log offset** (RecordProps.v). The conversion of batches to consumer records against the offsets in the log.
* **C10 Replica ids survive their text form** (NameProps.v). Decimal printing and `rfind('-')` parsing of replica ids.
* **C11 Log file names identify and order segments** (NameProps.v). 20-digit zero-padded decimal names.
* **C12 Appends give contiguous offsets** (StorageProps.v). One inductive invariant of the byte-level replica over every history (writes, rejected writes, rollover, watermark updates, retention, restarts, crashes).
* **C13 Stored records are immutable** (StorageProps.v). The replica refines an abstract list of numbered batches; every operation appends to it or drops a prefix of segments.
* **C14 A read returns exactly the requested part of the log** (StorageProps.v). The slice returned is characterised as the bytes of a run of batches, for every offset and size.
* **C15 Committed reads never expose uncommitted records** (StorageProps.v). From C14, with the exact starting points for which it holds.
* **C16 Index lookups agree with a full scan** (StorageProps.v). Invariant of the sparse index; the lookup is compared with a full scan.
* **C17 Recovery after a crash keeps every complete batch** (StorageProps.v). The validator on every prefix of the log file, for every checkpoint content.
* **C18 The high watermark never passes the log end** (StorageProps.v). Invariant over histories with restarts.
* **C19 A rejected write leaves the log unchanged** (StorageProps.v). The write path of the replica, case by case.
* **C20 Retention deletes only the oldest closed data** (StorageProps.v). The cleaner on segment lists, by size and by age.
* **C21 Every stored offset is found in exactly one segment** (StorageProps.v). The lookup in the list of closed segments, on reachable states.
* **C22 The durable high watermark is the last one reported** (StorageProps.v). The lazy checkpoint writer as a small transition system.
* **C23 The reported partition size is the size of its segments** (StorageProps.v). The size counter as a function of the history.
* **C24 The committed offset is what enough replicas hold** (ReplicationProps.v). The heap algorithm against an order-statistic specification.
* **C25 Committed records are replicated** (ReplicationProps.v). A leader, any number of followers and a bag of messages (lost, repeated, reordered) as a labelled transition system; inductive invariant relating follower logs to the leader log.
* **C26 Replicas never go backwards** (ReplicationProps.v). Monotonicity of every step of that system.
* **C27 Duplicate or stale replication messages are harmless** (ReplicationProps.v). Idempotence of applying a message.
* **C28 A new leader has all committed records** (ControlProps.v). The election as a function of the partition status, composed with the status updates of the controller.
* **C29 Replica placement is valid** (ControlProps.v). The scheduling loop; validity and an exact condition for success.
* **C30 Leader placement is balanced** (ControlProps.v). An invariant on the spread of leader counts.
* **C31 A manual replica assignment is accepted exactly when it is well formed** (ControlProps.v). Equivalence of the validation with an independent definition of well-formedness.
* **C32 Topics become provisioned and stay so without losing partitions** (ControlProps.v). The controller pass as a function on topics, partitions and servers; progress by computation on arbitrary states, preservation by induction over events.
* **C33 Produce acknowledgements tell the truth** (ProduceProps.v). The produce handler over the storage and replication models.
* **C34 A stream delivers every record once, in order** (StreamProps.v). Server loop, client and storage as one transition system; invariant on what was delivered, a measure for termination.
* **C35 SmartModule streams lose nothing that passes the filter** (StreamProps.v). The same system with an arbitrary SmartModule function; three exact conditions, a witness for each.
* **C36 SmartModule output keeps record offsets** (StreamProps.v). Offsets of the records made by a SmartModule, against the log.
* **C37 The producer sends every record once, in order** (ProducerProps.v). The accumulator and the sending task as a transition system with clocks, timers and failures.
* **C38 The metadata of a sent record is its log offset** (ProducerProps.v). The producer composed with the append theorem of the storage.
* **C39 Produce errors reach the application** (ProducerProps.v). The producer's answers to the application, for both delivery modes.
* **C40 A record is rejected as too large only because of its own size** (ProducerProps.v). The size checks of the accumulator, exactly.
* **C41 Partitioning is deterministic, in range and fair** (ProducerProps.v). The hash function is a parameter; a 32-bit counter for keyless records; counting by induction.
* **C42 Requested start offsets resolve inside the log** (ConsumerProps.v). Resolution of start offsets; case analysis plus monotonicity.
* **C43 Managed consumer offsets never skip unread records and never go back** (ConsumerProps.v). Client stream, flush task, several connections and the server's table as a transition system.
* **C44 A bounded read returns everything available** (ConsumerProps.v). The bounded reader over the stream system of C34.
* **C45 Reconnecting consumers neither lose nor repeat records** (ConsumerProps.v). The retrying stream over the stream system of C34, with writes, retention and failures at any point.
* **C46 Metadata watchers converge to the store** (MetaProps.v). Epoch maps and two kinds of watchers; an equivalence between 'shows the store' and what happened since the last look.
* **C47 Metadata changes are reported when and only when something changed** (MetaProps.v). Epoch maps: what is announced and what is reported, as equivalences.
* **C48 Offset listeners never miss the latest value** (EventProps.v). Interleavings of atomic loads and stores of publishers and listeners; invariant on pending notifications.
* **C49 Stored consumer offsets survive restarts** (KvProps.v). The table over the storage model: replaying the log gives the table, by induction over histories.
* **C50 Responses reach the request they answer** (MuxProps.v). The table of senders as a transition system of callers, dispatcher and connection.
* **C51 Version negotiation picks a version both sides support** (MuxProps.v). Version ranges on both sides; the chosen version is the maximum of the intersection.
* **C52 Replication can always be completed** (ReplicationProps.v). Existence of a finite completing exchange from every reachable state; a stuck state for the refuted part.
* **C53 Metadata listeners never miss a change** (EventProps.v). Interleavings of store writers and listeners.
* **C54 A follower is told of every replica with news** (EventProps.v). Interleavings of the replica task and the connection task of a follower.
* **C55 Requests on one connection do not hold each other up** (MuxProps.v). The system of C50 with bounded queues; what a full queue holds up.
* **C56 When a connection ends, everyone who waits on it is told** (MuxProps.v). The system of C50 at the end of the connection.
* **C57 A mirror is a prefix of its source** (MirrorProps.v). Source, target, connection and tasks as a transition system over the storage of both sides; prefix invariant.
* **C58 A mirror catches up** (MirrorProps.v). A measure for the exchange and the states at rest.
* **C59 Metadata of a local cluster survives restarts** (LocalProps.v). Programs of the store as sequences of atomic steps, interleaved by a machine with faults and restarts; invariant between files and stores.
* **C60 Writes based on old metadata are refused** (LocalProps.v). Revision counting along histories of that machine.
* **C61 Deleting an object deletes what belongs to it** (LocalProps.v). Effect of a deletion run alone, and an invariant between lists of children and owners over whole lives of the store.
* **C62 Watchers of local metadata see what is stored** (LocalProps.v). Updates in order with one operation at a time; schedules for the refuted parts.
* **C63 What the decoders accept** (WireAcceptProps.v). Inverse direction of C02: from an accepted input back to the value, by induction on the type; a fold lemma for maps.
* **C64 One log through changes of leader** (FailoverProps.v). The system of C25 with elections, restarts and losses as further steps; invariant that all logs are beginnings of one list of batches, up to the fields a received batch does not keep.
* **C65 Committed records survive changes of leader** (FailoverProps.v). The invariant of C64 along a second run, with the committed beginning fixed.
* **C66 A partition goes on committing after a change of leader** (FailoverProps.v). After every follower has reported once the system of C52 is reached, and its completing exchange is reused; a lost replica's position is never known, so the minimum stays; a stuck state for the refuted part.
* **C67 A SmartModule that looks back N records sees the last N** (LookbackProps.v). Look-back as a function of the storage model; committed reads characterised by C14 and C15, consecutive offsets of the decoded records; concrete logs for the refuted parts.
* **C68 A SmartModule that looks back in time sees every younger record** (LookbackProps.v). Induction over the committed batches from the newest to the oldest; the loop is followed batch by batch, with fuel shown sufficient; concrete logs for the refuted parts.
* **C69 A stream through stateful SmartModules gives what the chain makes of the whole log** (EngineProps.v). The chain as a function of single records in the specification, the engine batch by batch in the model; induction over batches with the state of the chain as part of the invariant, then over the events of the stream.
* **C70 A failing SmartModule is reported with its record, after what came before** (EngineProps.v). The batch of the failing record is found by induction over the batches; the responses before it by C69.
* **C71 After a SmartModule error the stream goes on with the next record** (EngineProps.v). Position after the error from C70_reports; the next response by the batch induction of C69; concrete streams for the refuted parts.
* **C72 Records keep their timestamp** (EngineProps.v). Case analysis of the engine's output batch: its header never gets timestamps.
* **C73 A topic transformation stores what it makes of each write** (EngineProps.v). Induction over the batches of the write with the accumulated output batch as invariant; concrete writes for the refuted parts.
* **C74 The cluster knows which servers are up** (HealthProps.v). Interleaving model on top of the event model of C53; three invariants: the table agrees with the connections, a change of the table is followed by a change of the counter the controller has not seen, a controller that has seen the last epoch has written what the table says.
* **C75 Every partition that can have a leader gets one** (ElectProps.v). Interleaving model around the election functions of ControlModel; per-partition invariant over the state the pending actions lead to: led, or its leader's fall is still to be looked at, or not readable and every possible leader is still to be looked at.
* **C76 The partition status is what the leader has** (ReportProps.v). Interleaving model of the way of a report; invariant per led partition: a report is being made, or the last report on the way is the leader's state, or the last status waiting to be applied reflects it, or the stored one does.
* **C77 A request that is answered has been done** (WaitProps.v). Interleaving model of requests, the action queue, the storage, its events and the store; invariant that the storage is the store with the events under way applied; a request's own change is the only one that makes its revision newer; the mark of a listener is never ahead of the look it belongs to.
* **C78 A message arrives with exactly the fields its version carries** (VersionProps.v). Deep embedding of versioned types, their generated encoder, decoder and size; simultaneous induction over types, fields and variants; the concrete schemas are values of the embedding, their side conditions are decided by computation.
* **C79 Two releases that agree on a version understand each other** (VersionProps.v). A release is the current types without the fields and variants with a later min_version; exact characterisation of what its decoder makes of another release's message by induction over types.
* **C80 The server works on the object the client asked for** (MessageProps.v). Model of type buffers, the classic decoders and the conversion between the two; a version that only appends to another leaves a readable prefix; exact domain of create requests of the versions 9 and 10.
* **C81 A storage node leads and follows what the metadata says** (RoleProps.v). One controller and one node; what a message does to one key is a function of what the node knew, what is true and its view of the key; invariant per key over orderly histories; a separate invariant for the connections.
* **C82 A deleted topic's records go, others stay, and a name used again starts empty** (RoleProps.v). Same model; every record carries the number of the topic it was written to; invariant that files belong to the topic the node knows, or, after a restart, to the one that exists.
* **C83 A SmartModule name runs the module published under it** (PackageProps.v). Invariant: the ordered registry holds exactly the entries the history means, under name or name-group-version; the search finds the first entry that fits in the order of these texts.
* **C84 Publishing, listing, deleting and checking SmartModules agree on names** (PackageProps.v). The same invariant as C83; texts are taken apart at their last '-' (versions have none), so groups without '-' cannot clash.
* **C85 Creating and listing objects follow the policy** (AuthProps.v). The evaluation of the policy is shown equal to a relation (some role has a permission for the action or for all); each handler is cased on the answer; sessions by induction.
* **C86 Nobody changes or sees objects without permission** (AuthProps.v). The handlers of these requests are shown to be the same function for every client; witnesses for what follows.
* **C87 Requests to the controller change what they say and nothing else** (AuthProps.v). By cases over the handlers, with unique names as invariant of sessions.
* **C88 Records sent from files arrive as if sent from memory** (FileProps.v). Writers are shown to append fixed bytes, so that the bytes on the wire are those of the codec with the contents of the slices; sizes are compared with the sizes the memory codecs announce; the frames are then read with the frame theorems of C07 and the message codecs.
* **C89 A follower reads every replica in a sync message** (FileProps.v). The decoder of record sets is followed byte by byte on a cut list of batches: what stays unread is shown to be at most 7 bytes and to be empty exactly at the ends of integers; messages are read replica by replica; the cuts a leader makes come from the invariant of the replication model.
* **C90 What producers send is what consumers see** (EndProps.v). The models of the producer, the produce service, the storage and the stream are composed; an invariant links the batches handled so far with the history of the storage (everything ever stored is the stored batches, numbered), so that the theorems about the parts (C33, C34, C37, C39) apply.
* **C91 Compression does not show** (CompressProps.v). The algorithms are a record of two functions that may fail, with soundness as a hypothesis of the theorems. A relation between a batch with plain and with compressed records is kept by numbering, encoding and decoding; every reader of batches is shown to give equal results on related lists, by induction on the list.
* **C92 A managed consumer continues where it was, over all runs of its application** (ManageProps.v). The consumer is a list of partitions, each a stream (C34, C45) and a world of commits (C43). An invariant per partition, over all moves of all runs, says what was given and that everything handed out is covered; the stored offset is one that was handed out (C43), and resolving it leads to a start that is covered. The flush is an invariant on the futures of the join: a future that finished means the last commit is stored and no older message is under way.
* **C93 A request to an SPU arrives as it was sent, and in order** (SpuApiProps.v). Requests are types with versions (C78) except the produce request, which is written by hand and modelled by hand; a `carried` predicate (what is sent is read back, related by `arrives`, at every version) is closed under the combinators. Connections follow from the framing of C07 and an induction on the requests.
* **C94 An answer of an SPU, and the error in it, arrive as they were sent** (SpuApiProps.v). Answers are types with versions (C78); the general theorem about them gives what is seen of each. The searches are inductions on the lists.
* **C95 A consumer that asks the SPU for offsets starts where it asked to** (SpuApiProps.v). The handler and the client are composed through the wire (C93, C94); what the client reads is what the handler wrote, and C42 says where it leads.
* **C96 A remote cluster comes to have, and keeps, the mirrors its home has for it** (RemoteProps.v). Both SCs, the connection and the message being handled are one transition system with failing, lost and late store operations. The invariant has three stages: old messages left, the current message in progress (what is left to delete and to sync), and in sync; reaching it is an explicit schedule.
* **C97 Following its home leaves the other topics of a remote alone** (RemoteProps.v). An invariant that keeps the name out of all messages and tasks; computation of one sync and two passes of the topic controller; witnesses with the stays-in-sync theorem for what never happens.
* **C98 A hub package that is verified has the files that were signed** (HubProps.v). Archives are lists of entries; signatures, JSON, YAML and tar.gz are a record of functions with what is assumed of them in scheme_ok. The state of verifying after all entries is computed per name; a package is verified exactly if the last entry of each listed name fits. Attacks are theorems for every scheme.
* **C99 A hub package has the files and the description it was assembled from** (HubProps.v). Induction over the manifest: what is read under a name is the first file with this name.
* **C100 What a consumer committed last is what the cluster answers later** (KeepProps.v). SPUs with their store of replicas and the table of offsets they hold, over one log of puts and deletes. Invariant: the table of the leader and the log both agree with the history of what was stored and removed. Histories are recorded as events, and what is answered is compared with the last event about a key.
* **C101 Deleting a topic removes the offsets of its consumers** (KeepProps.v). Which replicas a message removes is computed by induction over the message; the events this adds to the history are those removals, in order.
* **C102 A command of the client goes to the cluster its profile names, and changing profiles changes no others** (ProfileProps.v). The file with its config as state, commands as functions on it. Each command is compared with what the spec says about the clusters that named profiles lead to; an invariant over sequences gives that profiles have clusters.
* **C103 The CLI produces one record for each line of a text, or one for all of it** (CliProps.v). The input as bytes, with std's reading of lines, UTF-8 checks and splitting modelled; records are handed over with any outcome each. What is meant is a relation between lines and records, shown to have exactly one result; the command is compared with it by induction over the lines.
* **C104 The CLI prints the records that were asked for, as they are** (CliProps.v). The loop over the stream as a function of the events it gives; induction over them. What the libraries do to print text is a parameter, of which only is assumed that valid text is kept and that what is printed is valid text.
* **C105 The version manager installs what was published and uses what it says is active** (FvmProps.v). A command is the list of the changes it makes to files; a crash is a prefix of it and a part of the next write. Origins of files by an invariant over the changes; the effect of whole commands by characterising what each phase leaves; an invariant over histories of commands.
* **C106 Updating gets to what the hub publishes, and stays there** (FvmProps.v). The decision of the command as a function of settings, manifest and package set; what the phases leave from C105; the recorded versions after a patch are computed from those before.
* **C107 A client goes to the server that the metadata name for a partition** (RouteProps.v). A world with the client's copies of the metadata, its pool and the servers that listen; where connections come from by induction over the history of the world; the rest by following a request in an arbitrary world.
* **C108 Producers find the leader again, and their partitions do not hold each other up** (RouteProps.v). The loop of the producer as a list of what happens between its attempts, by induction over it; the lock that a send or a flush holds while it waits as the state of the topic's producer.
* **C109 A topic is stored the way it was asked for** (SettingsProps.v). The conversions one after the other as functions from flags or a file to the configuration of the storage model; each statement by following a setting through them; the configuration is the one the storage theorems are about.
* **C110 Adding partitions adds as many as asked and reports it when it is so** (SettingsProps.v). The loop of the command over the messages of the watch, by induction over them.
* **C111 Every SPU has an id of its own** (IdentProps.v). Groups, SPUs and requests under way as a state; for histories in which groups and custom SPUs keep apart an invariant by induction; the rest by following one step in an arbitrary state, and histories as witnesses of what goes wrong.
* **C112 A connector starts only with a config that fits its package, and gets the secrets it names** (ConnProps.v). The checks of a package against a specification by paths, by induction on the schema; reading a secrets file as an inverse of writing it; rendering against a relation between templates and texts. YAML and the template engine are taken as given.
* **C113 A connector reads what its config says** (ConnProps.v). The request of the connector as a function of its config, and the partitions the client opens for it; cases on the config.
* **C114 A topic reported as created can be used** (ReadyProps.v). A machine of the storage of partitions, the controller's copy and the request; an invariant ties the copy to the storage and the mark of the listener to what was counted, and histories are followed by induction from the end.
* **C115 The id of a package names one package and survives its text form** (RegistryProps.v). Ids are lists of bytes cut and joined as in the code, with URLs and semantic versions left open under two assumptions; splitting a joined text gives back the parts, so what is printed is read back.
* **C116 The newest release for a platform is found** (RegistryProps.v). Invariant of the list of releases by induction over the history: sorted, each version once, offering exactly what was published; the search from the end finds the greatest.
* **C117 A hub package is downloaded from where it was uploaded to** (HubNameProps.v). Names are lists of bytes cut and joined as in the code; allowed characters exclude the separators '/', '@' and '.', so the cuts give back the parts.
* **C118 A local cluster keeps its data until it is deleted** (LifeProps.v). Config file, data directories, running servers and profile are a state; commands are a total step function with answers; invariants over all sequences of commands.
* **C119 The counters of an SPU count what went through it** (MeterProps.v). Counters modulo 2^64 are updated event by event as in the handlers; the specification sums over the events what was stored, sent and called, and induction over the history shows them equal.
* **C120 Connectors started on a machine are listed, and a shutdown ends the one that is named** (DeployProps.v). A step function over commands and events of the system; the invariant that entries point to connectors of their name follows by induction if ids are not used again.
* **C121 Commands are run by the release of the channel that was switched to** (ChannelProps.v). A step function over config files and places; each command is characterised by what it changes, and induction over the history gives that the current channel and what is known of it stay until they are changed.
* **C122 The table of the consumer has the last record of each key** (TableProps.v). The loops are modelled with their flags; induction shows what they decide for fewer and for more keys than rows, and induction over the records gives the table.
* **C123 The hex dump of a record shows every byte in its place** (HexProps.v). The loop with its index is shown to work line by line; the text of a line is given column by column, and the columns are found in the whole dump by induction over its lines.

## What is modelled

| Model file | Code in /repo/crates |
|---|---|
| WireModel | fluvio-protocol/src/core/{varint,encoder,decoder}.rs, bytebuf.rs |
| RecordModel | fluvio-protocol/src/record/{data,batch}.rs: records, batches, record sets, attributes, CRC, consumer view |
| FrameModel | fluvio-protocol/src/codec/mod.rs |
| NameModel | fluvio-protocol/src/record/replica.rs, fluvio-storage/src/util.rs |
| StorageModel | fluvio-storage/src/{replica,segment,segments,mut_records,mut_index,index,records,batch,file,validator,cleaner}.rs |
| CheckpointModel | fluvio-storage/src/checkpoint.rs with the publisher it listens to |
| ReplicationModel | fluvio-spu/src/replication/{leader,follower}: replica state, sync messages, high watermark |
| FailoverModel | fluvio-spu/src/core/global_context.rs (promote, demote_replica, switch_leader_for_follower), replication/leader/leaders_state.rs (promote_follower) |
| ProduceModel | fluvio-spu/src/services/public/produce_handler.rs, replica_state.rs and storage/mod.rs (write path) |
| StreamModel | fluvio-spu/src/services/public/stream_fetch.rs, smartengine/batch.rs, fluvio/src/consumer/mod.rs |
| LookbackModel | fluvio-spu/src/smartengine/context.rs (look-back), fluvio-storage/src/iterators.rs |
| EngineModel | fluvio-smartengine/src/engine/wasmtime (chain, transforms), fluvio-smartmodule-derive/src/generator, fluvio-spu/src/smartengine/batch.rs, stream_fetch.rs (responses), replica_state.rs (transformation of writes) |
| ConsumerModel | fluvio/src/{offset.rs,consumer/{offset,stream,mod,retry}.rs}, SPU offset and consumer handlers |
| ProducerModel | fluvio/src/producer/{accumulator,memory_batch,partition_producer,record,partitioning,mod,event}.rs |
| KvModel | fluvio-kv-storage/src/log.rs, fluvio-spu/src/replication/leader/kv.rs, fluvio-spu/src/kv/consumer.rs |
| ControlModel | fluvio-sc: controllers/{topics,partitions,scheduler}, stores; fluvio-controlplane-metadata topic and partition spec/status |
| MetaModel | fluvio-stream-model epoch maps and stores, SC watch services, client and SPU side of the metadata sync |
| EventModel | fluvio-types/src/event.rs, fluvio-stream-model store events, pending updates of followers |
| HealthModel | fluvio-sc private_api connection task, stores/spu health table, controllers/spus/controller.rs |
| ElectModel | fluvio-sc controllers/partitions (controller.rs, reducer.rs) with the dispatcher that applies its actions, over time |
| ReportModel | fluvio-spu leader reports (replica_state.rs update_status, message_sink.rs, dispatcher.rs) and fluvio-sc receive_lrs_update, merge |
| VersionModel | fluvio-protocol-derive (min/max version of fields, enum variants), releases as cut-down types |
| MessageModel | object specs and statuses of fluvio-controlplane-metadata, StreamFetchRequest and SmartModule messages of fluvio-spu-schema, UpdateLrsRequest, create/delete/update requests of fluvio-sc-schema |
| FileModel | writing of messages whose records stay in files: fluvio-protocol/src/store.rs, fluvio-socket/src/sink.rs, FileRecordSet and the `file_encode` functions of fetch, stream fetch, sync and mirror messages; the error code is an arbitrary faithful codec |
| EndModel | composition of ProducerModel, ProduceModel, StorageModel and StreamModel for one partition: any number of producers, each with its whole run and the answers it gets given in advance, whose batches are handled in any interleaving; one consumer (consumers do not change what is stored) |
| CompressModel | choice of the algorithm by the producer, compressing and uncompressing of batches by producers, consumers, SmartModules and look-back |
| ManageModel | consumers with managed offsets over several partitions and application runs: fluvio/src/consumer/{stream,mod,retry}.rs, fluvio.rs |
| WaitModel | fluvio-stream-dispatcher/src/{store/mod.rs,dispatcher/metadata.rs,metadata/local.rs}, listeners of fluvio-stream-model stores, create/update/delete handlers of fluvio-sc public_api |
| RoleModel | fluvio-spu/src/core/{global_context,store}.rs (roles of replicas), replication/follower/{state,controller}.rs (groups), leaders_state.rs, removal reports of fluvio-sc private_server.rs |
| PackageModel | fluvio-controlplane-metadata/src/smartmodule/package.rs (names, ids, matching; versions are three numbers), fluvio-sc public_api/smartmodule/{create,delete,list}.rs, the deduplication check of topic/create.rs, fluvio-spu/src/core/smartmodule/metadata.rs |
| AuthModel | fluvio-sc/src/services/auth (the policy, its file, the three authorizations), fluvio-auth/src/x509 (who a client is taken for), and the handlers of fluvio-sc/src/services/public_api (create, delete, update, list, first answer of watch) with the place where each asks; of specs only what the handlers look at; failures of the stores and the wait for partitions are left out |
| SpuApiModel | fluvio-spu-schema/src/{produce,server}, fluvio-protocol/src/{api,codec,link} (requests, answers and error codes of the public API of an SPU), fluvio-spu/src/services/public/offset_request.rs, fluvio/src/offset.rs (fetch_offsets) |
| MuxModel | fluvio-socket/src/{multiplexing,versioned}.rs, fluvio-protocol/src/link/versions.rs |
| MirrorModel | fluvio-spu/src/mirroring/{home/connection,remote/controller}.rs |
| RemoteModel | fluvio-sc/src/services/public_api/mirroring/connect.rs and controllers/mirroring/controller.rs (a remote cluster following its home), and of controllers/topics and stores/topic what gives a mirror topic its partitions |
| HubModel | fluvio-hub-util/src/package.rs (assembling, signing, verifying and reading packages of the hub), package_meta_ext.rs package_get_meta; ed25519, tar, gzip, JSON and YAML as functions with stated assumptions |
| KeepModel | fluvio-spu consumer offsets across SPUs: consumer_handler.rs, update_consumer_offset_handler.rs, kv/consumer.rs; removal of offsets of deleted replicas (global_context.rs remove_replica, core/store.rs apply); changes of the leader are immediate and lossless, writes through an old handle are not followed to the files |
| ProfileModel | profiles of the client: fluvio/src/config/config.rs (Config, ConfigFile), fluvio-cli/src/profile/*, fluvio-extension-common ClusterTarget::load; names as numbers, the file holds a config or is unreadable |
| CliModel | fluvio-cli produce and consume: lines, keys and raw input to records (client/produce/mod.rs, user_input.rs), the consume loop, --end and printing (client/consume), --mirror; std's lines and split_once as documented, printing libraries as parameters |
| FvmModel | crates/fluvio-version-manager (install, switch, uninstall, update, current, list; settings, manifests, directories of versions) and fluvio-hub-util/src/fvm: commands as lists of changes to files, cut short anywhere. Not the update of the manager itself, nor its own installation |
| RouteModel | how a client reaches SPUs: fluvio/src/spu.rs (SpuSocketPool), sync/mod.rs and sync/controller.rs (look-ups, updates), the opening of consumer streams (consumer/mod.rs), the reconnecting of producers (producer/partition_producer.rs) and the lock of a topic's producer (producer/mod.rs, accumulator.rs); a store of metadata is what it holds and whether it ever changed |
| SettingsModel | fluvio-cli topic create and add-partition, topic/config.rs, topic/spec.rs (settings), sc topic/create.rs (checks), storage config from a replica, dedup_to_invocation |
| IdentModel | fluvio-sc k8 SPU groups (spg_group.rs, spg_stateful.rs, spu_controller.rs), registering custom SPUs, find_spu_id_from_env |
| ConnModel | fluvio-connector-package (metadata.rs, config, secret.rs, render), fluvio-connector-common (consumer.rs, lib.rs) |
| ReadyModel | fluvio-sc/src/services/public_api/topic/create.rs (the wait for the partitions of a topic) |
| RegistryModel | fluvio-package-index/src (package_id.rs, version.rs, tags.rs, package.rs) |
| HubNameModel | fluvio-hub-protocol/src/package_meta.rs (names), fluvio-hub-util/src/utils.rs (names and URLs), package_meta_ext.rs (packagename_transform) |
| LifeModel | fluvio-cluster/src (start/local.rs, check/mod.rs, process/mod.rs, delete.rs, runtime/local/spu.rs, cli/{shutdown,resume,upgrade,delete}.rs) |
| MeterModel | fluvio-spu/src (core/metrics.rs and where it is used), fluvio-smartengine/src/engine (metrics.rs and where it is used) |
| DeployModel | cdk/src/deploy.rs, fluvio-connector-deployer/src/local.rs |
| ChannelModel | fluvio-channel/src/lib.rs, fluvio-channel-cli/src |
| TableModel | fluvio-cli/src/client/consume (table_format.rs, record_format.rs) |
| HexModel | fluvio-extension-common/src/common/hex_dump.rs |
| LocalModel | fluvio-stream-dispatcher/src/metadata/local.rs |

The opening comment of each model file lists its simplifications; the comment of each definition says what it simplifies in addition.

## What is not modelled

* SmartModules as WebAssembly: in C35, C36 and C38 a chain is an arbitrary function on the records of a batch; in C69 to C73 a module is an arbitrary function of its memory and a record, with an accumulator for aggregates. Memory and fuel limits are part of that function (it may trap).
* Compression algorithms: any functions such that uncompressing what was compressed gives it back (C91); the other models work on uncompressed batches.
* API messages other than those of MessageModel, FileModel and SpuApiModel: the hand-written parts of the list and watch requests of the SC, and the internal API of SPUs beyond what ReplicationModel has of it. FileProduceRequest (its file_encode leaves out the SmartModules its size counts; no binary uses it).
* TLS and certificates, the text of configuration files of the client, the CLI (but for profiles, produce, consume and creating topics), cluster installation (but for the life of a local cluster), connectors (but for their configs and secrets), Kubernetes (the metadata client of k8s, services and stateful sets; the local one is LocalModel, SPU groups are IdentModel).
* The file system beyond what each file says: calls succeed unless a model has explicit failures (KvModel appends, LocalModel files, crashes that cut files).
* Changes of the set of replicas of a partition, and the data transfer part of a leader change other than C28, C52 and C64 to C66.
* Delivery of metadata between SC and SPU is MetaModel's subject and replication is ReplicationModel's: there is no single system containing both.
* Memory exhaustion, and overflow of 64-bit offsets, epochs and revisions.
* Libraries: `event_listener`, `async_channel`, `HashMap`, `BTreeMap`, `Bytes` behave as documented.

## Trusted base

* Coq's kernel (8.16.1) and the `coqc` that runs it; `coqchk` was run on the compiled library as a second check.
* `Print Assumptions` is executed below every property theorem and prints "Closed under the global context" for each: no axiom is used, not even of the standard library. (Parts of the standard library that are loaded bring seven constants of the sealed module `Coq.ssr.ssrunder.Under_rel` into the environment, which `vcheck` lists; no theorem depends on them.)
* The reading of the Rust source: that the definitions in `*Model.v` say what the cited lines do. This is the part that no proof covers; the citations are there so that it can be checked line by line.
* The statements: the `*Spec.v` files and the theorem statements in `*Props.v`.

## Testing the theorems

`seeded/LOG.jsonl` records wrong programs: edits of the model in a scratch copy, the claim they break, and the first lemma or theorem that no longer proves. An entry with an empty `failed` list is an edit that all theorems survived; either its `tightened` list names the theorem that was added or strengthened because of it, or the `claim` says why no claim is broken.
