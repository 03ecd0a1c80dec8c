(** Model of compressed batches: how a producer chooses the algorithm, what the
    SPU checks, and where batches are compressed and decompressed.
    Source: crates/fluvio-compression/src/lib.rs,
    crates/fluvio/src/producer/{mod,memory_batch}.rs,
    crates/fluvio-protocol/src/record/batch.rs,
    crates/fluvio-spu/src/smartengine/{batch,produce_batch,file_batch}.rs,
    crates/fluvio-storage/src/iterators.rs,
    crates/fluvio-spu/src/services/public/produce_handler.rs,
    crates/fluvio-spu/src/replication/leader/replica_state.rs.

    Simplifications:
    - the four algorithms are arbitrary functions on bytes that may fail
      ([algorithms]); 1 gzip, 2 snappy, 3 lz4, 4 zstd (lib.rs:27-38), all
      compiled in;
    - those of EngineModel. *)
From Verif Require Export ProducerModel EngineModel.

(** gzip.rs, snappy.rs, lz4.rs, zstd.rs: [compress] and [uncompress] *)
Record algorithms := mkAlgs { pack : Z -> bytes -> res bytes; unpack : Z -> bytes -> res bytes }.

(** [Compression::compress], [Compression::uncompress], lib.rs:95-138 *)
Definition compress (K : algorithms) (a : Z) (src : bytes) : res bytes := if a =? 0 then Ok src else pack K a src.
Definition uncompress (K : algorithms) (a : Z) (src : bytes) : res (option bytes) :=
  if a =? 0 then Ok None else let* s := unpack K a src in Ok (Some s).

(** [TryFrom<Batch> for Batch<RawRecords>], batch.rs:207-226.  The length is that
    of the compressed records; it is computed again when the batch is encoded. *)
Definition compress_batch (K : algorithms) (m : batch (list rec)) : res (batch bytes) :=
  let* a := get_compression (b_hdr m) in
  let* z := compress K a (c_enc memory_codec (b_recs m)) in
  Ok (mkBatch (b_base m) (wrap_s 32 (zlen z)) (b_hdr m) (b_schema m) z).

(** [Batch<RawRecords>::memory_records], batch.rs:308-340, and
    [TryFrom<Batch<RawRecords>> for Batch], batch.rs:193-205 *)
Definition records_in (K : algorithms) (b : batch bytes) : res (list rec) :=
  let* a := get_compression (b_hdr b) in
  if a =? 0 then memory_records (b_recs b)
  else let* d := uncompress K a (b_recs b) in
       match d with None => Err InvalidData | Some s => memory_records s end.
Definition open_batch (K : algorithms) (b : batch bytes) : res (batch (list rec)) :=
  let* rs := records_in K b in
  Ok (mkBatch (b_base b) (wrap_s 32 (BATCH_HEADER_SIZE + c_size memory_codec rs)) (b_hdr b) 0 rs).

(** * The producer *)

(** [determine_producer_compression_algo], producer/mod.rs:714-755.  The
    topic: [None] for [CompressionAlgorithm::Any].  [config]: the compression of
    the producer's configuration, if set.  [None]: [InvalidConfiguration]. *)
Definition determine (topic config : option Z) : option Z :=
  match topic with
  | None => Some (match config with Some k => k | None => 0 end)
  | Some t => match config with
              | None => Some t
              | Some k => if k =? t then Some t else None
              end
  end.
(** [From<MemoryBatch> for Batch<MemoryRecords>], memory_batch.rs:116-146, with
    [header.set_compression(compression)] *)
Definition mb_batch_with (a : Z) (m : mbatch) : batch (list rec) :=
  let b := mb_batch m in mkBatch (b_base b) (b_len b) (set_compression (b_hdr b) a) (b_schema b) (b_recs b).

(** * The consumer: consumer/mod.rs:327-372 on the bytes of a response *)
Definition shown_items (K : algorithms) (s : Z) (records : bytes) : list item :=
  flat_map (fun b => match open_batch K b with Ok m => shown s m | Err _ => [ErrItem] end) (receive records).

(** * Batches for SmartModules *)

(** What comes after the header of a batch in the log *)
Definition after_header (b : batch bytes) : bytes := (if has_schema (b_hdr b) then be_enc 4 (b_schema b) else []) ++ b_recs b.
(** [ProduceBatchIterator::next], produce_batch.rs:52-86, [FileBatchIterator::next],
    iterators.rs:55-150: the batch with its records uncompressed.  In a file the
    records are taken to be all that comes after the header. *)
Definition uncompressed (K : algorithms) (b : batch bytes) (raw : bytes) : res (batch bytes) :=
  let* a := get_compression (b_hdr b) in
  let* d := uncompress K a raw in
  Ok (mkBatch (b_base b) (b_len b) (b_hdr b) 0 match d with Some s => s | None => raw end).
Definition from_request (K : algorithms) (b : batch bytes) : res (batch bytes) := uncompressed K b (b_recs b).
Definition from_file (K : algorithms) (b : batch bytes) : res (batch bytes) := uncompressed K b (after_header b).

(** [process_batch], smartengine/batch.rs:41-141, and [set_compression], 143-153
    (see [engine_from]).  [comp]: the compression of the batch that is made. *)
Fixpoint engine_reading (read : batch bytes -> res (batch bytes)) (is : list inst) (max_bytes : Z) (l : list (batch bytes)) (a : outb) (comp : Z)
  : option (list inst * outb * Z * option smerr) :=
  match l with
  | [] => Some (is, a, comp, None)
  | b0 :: t =>
      match read b0 with
      | Err _ => None
      | Ok b =>
          match to_memory b with
          | Err _ => None
          | Ok m =>
              match run_chain is (b_base b) (h_first_ts (b_hdr b)) (b_recs m) with
              | None => None
              | Some (is', out, e) =>
                  let add := h_last_delta (b_hdr b) + 1 in
                  let go a' comp' := match e with Some _ => Some (is', a', comp', e) | None => engine_reading read is' max_bytes t a' comp' end in
                  match out with
                  | [] => go (if q_base a =? -1 then a else mkOut (q_base a) (q_delta a + add) (q_recs a) (q_bytes a)) comp
                  | _ =>
                      let comp' := if q_base a =? -1 then match get_compression (b_hdr b0) with Ok x => x | Err _ => comp end else comp in
                      let base := if q_base a =? -1 then b_base b else q_base a in
                      let recs := map (add_base_offset (base - b_base b)) out in
                      let size := c_size memory_codec recs in
                      if max_bytes <? q_bytes a + size then Some (is', mkOut base (q_delta a) (q_recs a) (q_bytes a), comp', e)
                      else go (add_out a base add recs size) comp'
                  end
              end
          end
      end
  end.
Definition made_batch (a : outb) (comp : Z) : batch (list rec) :=
  let b := engine_batch a in mkBatch (b_base b) (b_len b) (set_compression (b_hdr b) comp) (b_schema b) (b_recs b).

(** [apply_smartmodules], produce_handler.rs:255-303: the SmartModules of a
    produce request, without look-back *)
Definition apply_modules (K : algorithms) (is : list inst) (l : list (batch bytes)) : option (list (batch bytes)) :=
  match engine_reading (from_request K) is (2 ^ 64 - 1) l out0 0 with
  | Some (_, a, comp, None) => match compress_batch K (made_batch a comp) with Ok p => Some [p] | Err _ => None end
  | _ => None
  end.
(** [transform], replica_state.rs:368-382: the SmartModule of the topic *)
Definition apply_topic (K : algorithms) (is : list inst) (l : list (batch bytes)) : option (list (batch bytes)) :=
  match engine_reading (from_request K) is (2 ^ 64 - 1) l out0 0 with
  | Some (_, a, comp, None) =>
      match q_recs a with
      | [] => Some []
      | _ => match compress_batch K (made_batch a comp) with Ok p => Some [p] | Err _ => None end
      end
  | _ => None
  end.

(** Look-back, [FileRecordIterator::next], iterators.rs:170-216, on all batches
    (see [items_of]) *)
Fixpoint past_items (K : algorithms) (l : list (batch bytes)) : sres (list past) :=
  match l with
  | [] => Done []
  | b :: t => match from_file K b with
              | Err _ => Fail Other
              | Ok p => match batch_items p with
                        | Fail e => Fail e
                        | Done x => match past_items K t with Fail e => Fail e | Done y => Done (x ++ y) end
                        end
              end
  end.
