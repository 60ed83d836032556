{"id": "C01", "title": "Record iterator yields exactly what was produced, and errors are sticky", "statement": "Looping `for it.Next() { use(it.Record()) }` over a RecordIterator returns, in order, exactly the records the producer published before the first error or the close of its channel, nothing after it; afterwards Err() is that error (nil on a plain close) and every further Next() returns false.", "quantifier": "every finite sequence of published records/errors, followed by close, and every number of extra Next calls", "why_tests_cant": "A test fixes one short sequence; the claim is about all sequences and all call counts.", "anchors": ["record_iterator.go:recordIterator.Next", "record_iterator.go:NewRecordIteratorWithError", "record_iterator.go:recordIterator.NextContext"]}
{"id": "C02", "title": "Merging per-type iterators loses, repeats and reorders nothing", "statement": "Given iterators that each yield records in increasing global sequence number, with no number in two iterators, the merged iterator yields exactly the union of their records, once each, in increasing global sequence number.", "quantifier": "every number of iterators and every distribution of records between them", "why_tests_cant": "The merge has a run-length shortcut and swap-removal; interleavings are unbounded.", "anchors": ["merge_record_iterators.go:MergeRecordIteratorsInOrder", "merge_record_iterators.go:remove", "merge_record_iterators.go:getIndexWithSmallestGlobalSequenceNumber"]}
{"id": "C03", "title": "Merged iterators report the errors of their sources", "statement": "If one of the merged iterators ends with an error, the consumer of the merged iterator can see that an error happened (its Err() is non-nil at the end) rather than a silently shortened result.", "quantifier": "every set of iterators, every failing one, every failure position", "why_tests_cant": "The error path of each source at each position is never enumerated by tests.", "anchors": ["merge_record_iterators.go:pipe.ReadNext", "merge_record_iterators.go:MergeRecordIteratorsInOrder"]}
{"id": "C04", "title": "Stream names and (aggregate type, aggregate ID) pairs correspond", "statement": "ParseStream(GetStream(t,i)) returns (t,i) and different pairs have different stream names; ParseStream never panics on a stream name a store accepted.", "quantifier": "every aggregate type, aggregate ID and stream name", "why_tests_cant": "Tests use ids without the separator; the claim is about all strings.", "anchors": ["store.go:GetStream", "store.go:ParseStream", "store.go:GetEventStream"]}
{"id": "C05", "title": "ReadNRecords returns the first N records of the query", "statement": "ReadNRecords(n, f) returns the first min(n, available) records the iterator delivers, in order, and leaves the iterator drained.", "quantifier": "every n (uint64) and every iterator content, including one that ends with an error", "why_tests_cant": "Boundary off-by-one for all n and lengths.", "anchors": ["store.go:ReadNRecords"]}
{"id": "C06", "title": "In-memory store behaves like an append-only log with per-stream sequence numbers", "statement": "For any history of Save, OptimisticSave, OptimisticDeleteStream and reads, every call on the in-memory store returns what a plain ordered list of records (append on successful save, drop one stream on delete, filter on read) would return.", "quantifier": "every finite history of calls, every batch size, stream name, expected number and offset (batches of one aggregate; streams named type!id when a batch can fail to serialize)", "why_tests_cant": "Histories are unbounded and bugs need particular combinations of failures, deletes and reads.", "anchors": ["provider/inmemorystore/inmemory_store.go:saveEvents", "provider/inmemorystore/inmemory_store.go:saveEvent", "provider/inmemorystore/inmemory_store.go:OptimisticDeleteStream", "provider/inmemorystore/inmemory_store.go:recordsByIDs"]}
{"id": "C07", "title": "Global sequence numbers are unique, increasing and never reused (in-memory store)", "statement": "Every record read from the store has a distinct global sequence number, Events returns them in increasing order, and a record saved later always has a greater number than every record that ever existed before, also after deletes.", "quantifier": "every history of saves, failed saves and deletes", "why_tests_cant": "Reuse needs particular delete/save orders; all histories must be covered.", "anchors": ["provider/inmemorystore/inmemory_store.go:saveEvent", "provider/inmemorystore/inmemory_store.go:removeRecentEvents", "provider/inmemorystore/inmemory_store.go:OptimisticDeleteStream"]}
{"id": "C08", "title": "Stream sequence numbers are 1..n without gaps (in-memory store)", "statement": "At any time the records of a stream, read in order, have stream sequence numbers exactly 1,2,...,n, and TotalEventsInStream returns n.", "quantifier": "every history and every stream name", "why_tests_cant": "Induction over histories of any length.", "anchors": ["provider/inmemorystore/inmemory_store.go:saveEvent", "provider/inmemorystore/inmemory_store.go:TotalEventsInStream"]}
{"id": "C09", "title": "OptimisticSave is a compare-and-append", "statement": "OptimisticSave with expected number e on a stream succeeds exactly when the stream currently has e events (the batch being valid and serializable); then it returns e plus the batch size; otherwise it reports UnexpectedSequenceNumber with the expected and the actual number and stores nothing.", "quantifier": "every reachable store state, expected number, stream and batch (LevelDB: names without `$!`, fewer than 2^64 events, no delete refused before, see C15 and C18; in-memory: streams named type!id if a batch of several can fail to encode, see C08)", "why_tests_cant": "All states and expected numbers; includes first write, after delete, after failures.", "anchors": ["provider/inmemorystore/inmemory_store.go:OptimisticSave", "provider/leveldbstore/leveldb_store.go:OptimisticSave", "pkg/rangedberror/errors.go:UnexpectedSequenceNumber"]}
{"id": "C10", "title": "A failed save leaves no trace (in-memory store)", "statement": "If Save or OptimisticSave returns an error, every later read returns what it would have returned had the call not been made.", "quantifier": "every state, batch, failure kind (mismatched aggregate, cancelled context, serialization failure, wrong expected number) and failure position in the batch", "why_tests_cant": "The failing position and kind are combinatorial; tests only fail on event 2 of 2 with a type!id stream.", "anchors": ["provider/inmemorystore/inmemory_store.go:saveEvents", "provider/inmemorystore/inmemory_store.go:removeRecentEvents"]}
{"id": "C11", "title": "Deleting a stream removes exactly that stream", "statement": "After a successful OptimisticDeleteStream(n, s), no read returns a record of s, every other stream, aggregate type query and Events return exactly their previous records minus those of s, EventsByStream(s) is ErrStreamNotFound and the next save to s starts at sequence number 1.", "quantifier": "every reachable state and stream (LevelDB: names without `$!`, fewer than 2^64 events, no delete refused before, see C15 and C18; in-memory: streams named type!id if a batch of several can fail to encode, see C08)", "why_tests_cant": "In-place slice removal while ranging is only correct because of invariants over all states.", "anchors": ["provider/inmemorystore/inmemory_store.go:OptimisticDeleteStream", "provider/inmemorystore/inmemory_store.go:RemoveIndex", "provider/leveldbstore/leveldb_store.go:OptimisticDeleteStream"]}
{"id": "C12", "title": "A rejected delete changes nothing", "statement": "OptimisticDeleteStream that returns ErrStreamNotFound, UnexpectedSequenceNumber or context.Canceled leaves every later call's result unchanged, and ErrStreamNotFound is returned exactly when the stream has no events.", "quantifier": "every state, stream and expected number", "why_tests_cant": "Needs all states, including those left by failed saves.", "anchors": ["provider/inmemorystore/inmemory_store.go:OptimisticDeleteStream", "provider/leveldbstore/leveldb_store.go:OptimisticDeleteStream"]}
{"id": "C13", "title": "All views of the store agree", "statement": "EventsByStream and EventsByAggregateTypes return exactly the records of Events that belong to that stream or those types, in the same order; reading from offset k returns the suffix of the full result starting at the first number >= k.", "quantifier": "every reachable state, offset, stream and set of types (LevelDB: names without `$!`, fewer than 2^64 events, no delete refused before, see C15 and C18; in-memory: streams named type!id if a batch of several can fail to encode, see C08)", "why_tests_cant": "Three separately maintained indexes must agree after any history.", "anchors": ["provider/inmemorystore/inmemory_store.go:Events", "provider/inmemorystore/inmemory_store.go:EventsByAggregateTypes", "provider/inmemorystore/inmemory_store.go:EventsByStream"]}
{"id": "C14", "title": "LevelDB keys order like the numbers they encode", "statement": "The 8-byte key suffix of a sequence number decodes back to the number, and keys of one stream (or type, or the all-events index) sort bytewise exactly as their sequence numbers do, so iteration returns records in numeric order.", "quantifier": "every uint64 and every prefix", "why_tests_cant": "2^64 values; lexicographic vs numeric order breaks only at byte carries.", "anchors": ["provider/leveldbstore/leveldb_store.go:uint64ToBytes", "provider/leveldbstore/leveldb_store.go:bytesToUint64", "provider/leveldbstore/leveldb_store.go:getKeyWithNumber"]}
{"id": "C15", "title": "Streams and aggregate types do not leak into each other (LevelDB)", "statement": "A read, sequence-number lookup or delete of one stream or aggregate type never touches records of another one.", "quantifier": "every pair of distinct stream names / aggregate types", "why_tests_cant": "Names are arbitrary byte strings; prefix collisions need adversarial pairs.", "anchors": ["provider/leveldbstore/leveldb_store.go:getStreamKeyPrefix", "provider/leveldbstore/leveldb_store.go:getAggregateTypeKeyPrefix", "provider/leveldbstore/leveldb_store.go:getEventsByPrefix", "provider/leveldbstore/leveldb_store.go:getSequenceNumber"]}
{"id": "C16", "title": "LevelDB store behaves like an append-only log", "statement": "For any history of saves, deletes and reads every call on the LevelDB store returns what a plain ordered list of records would return.", "quantifier": "every finite history with fewer than 2^64 events and names without the byte pair `$!`", "why_tests_cant": "Unbounded histories over a byte-level ordered key space.", "anchors": ["provider/leveldbstore/leveldb_store.go:saveEvents", "provider/leveldbstore/leveldb_store.go:getEventsByLookup", "provider/leveldbstore/leveldb_store.go:getEventsByPrefix", "provider/leveldbstore/leveldb_store.go:OptimisticDeleteStream"]}
{"id": "C17", "title": "LevelDB saves and deletes are atomic across crashes", "statement": "If the process dies at any point during any call, then after reopening the database contains exactly the effects of all calls that returned success, plus possibly the complete effect of the call in progress, never part of it.", "quantifier": "every history and every crash point between two database operations", "why_tests_cant": "Crash points between every pair of operations in every history.", "anchors": ["provider/leveldbstore/leveldb_store.go:saveEvents", "provider/leveldbstore/leveldb_store.go:saveEvent", "provider/leveldbstore/leveldb_store.go:OptimisticDeleteStream"]}
{"id": "C18", "title": "The LevelDB store stays usable after any failed call", "statement": "After any call that returned an error, later saves, deletes and reads still complete.", "quantifier": "every history of successful and failed calls", "why_tests_cant": "Liveness after error paths: needs every error path followed by every call.", "anchors": ["provider/leveldbstore/leveldb_store.go:OptimisticDeleteStream", "provider/leveldbstore/leveldb_store.go:saveEvents"]}
{"id": "C19", "title": "In-memory and LevelDB stores are interchangeable", "statement": "Any program gets the same results from the in-memory store and the LevelDB store for the same history of calls.", "quantifier": "every finite history of calls", "why_tests_cant": "Equivalence of two implementations over all histories.", "anchors": ["provider/inmemorystore/inmemory_store.go", "provider/leveldbstore/leveldb_store.go"]}
{"id": "C20", "title": "A subscriber never sees a record twice or out of order", "statement": "The records handed to a subscriber by Start or StartFrom have strictly increasing global sequence numbers, and all are >= the StartFrom argument.", "quantifier": "every schedule of saves, broadcasts, subscription steps and deliveries", "why_tests_cant": "The race between catch-up reads and live broadcast has unboundedly many schedules.", "anchors": ["pkg/recordsubscriber/record_subscriber.go:StartFrom", "pkg/recordsubscriber/record_subscriber.go:work", "pkg/recordsubscriber/record_subscriber.go:writeRecord"]}
{"id": "C21", "title": "A StartFrom subscriber misses nothing when broadcasts follow commit order", "statement": "With a store that broadcasts records in commit order (LevelDB), once everything queued has been delivered a subscriber started with StartFrom(g) that was not dropped for being slow has received every committed record with number > g (and the record g if it existed at the start), each once.", "quantifier": "every schedule of concurrent saves, broadcaster steps and subscriber steps", "why_tests_cant": "Needs all interleavings of catch-up and live phases.", "anchors": ["pkg/recordsubscriber/record_subscriber.go:StartFrom", "pkg/broadcast/broadcaster.go:start", "provider/leveldbstore/leveldb_store.go:saveEvents"]}
{"id": "C22", "title": "Concurrent saves to the in-memory store reach every live subscriber", "statement": "Every event saved successfully while a subscription is live is delivered to the subscriber, also when several goroutines save concurrently.", "quantifier": "every schedule of concurrent Save calls", "why_tests_cant": "Needs a particular interleaving of two saves between unlock and broadcast.", "anchors": ["provider/inmemorystore/inmemory_store.go:saveEvents", "pkg/recordsubscriber/record_subscriber.go:recordHasAlreadyBeenSent"]}
{"id": "C23", "title": "StartFrom(g) delivers record g whenever it is written", "statement": "A subscription started with StartFrom(g) delivers every record with global sequence number >= g, whether it exists at the start or is saved later.", "quantifier": "every g and every history after the start", "why_tests_cant": "Boundary case: g one past the end, including the empty store.", "anchors": ["pkg/recordsubscriber/record_subscriber.go:StartFrom", "pkg/recordsubscriber/record_subscriber.go:recordHasAlreadyBeenSent", "pkg/rangedbapi/api.go:initProjections"]}
{"id": "C24", "title": "StartFrom reports a failed catch-up read", "statement": "If reading the existing records fails, StartFrom returns an error instead of starting with records missing.", "quantifier": "every iterator outcome (records then error)", "why_tests_cant": "Error position is arbitrary.", "anchors": ["pkg/recordsubscriber/record_subscriber.go:writeRecords"]}
{"id": "C25", "title": "The broadcaster delivers to every subscriber or stops it", "statement": "Each broadcast record is put, in broadcast order, into the queue of every subscriber to all events and of every subscriber to its aggregate type, exactly once per subscriber; a subscriber that cannot take it in time is stopped and receives nothing more on that list; no other subscriber is affected.", "quantifier": "every sequence of subscribe, unsubscribe and broadcast operations and every pattern of slow subscribers", "why_tests_cant": "Combinatorial in subscribers, types and timeouts.", "anchors": ["pkg/broadcast/broadcaster.go:broadcastRecord", "pkg/broadcast/broadcaster.go:start"]}
{"id": "C26", "title": "Closing the broadcaster ends every subscription", "statement": "After Close, every subscriber is stopped and its Done channel eventually closes.", "quantifier": "every set of subscribers and every schedule", "why_tests_cant": "Needs reasoning about goroutines blocked on unbuffered channels.", "anchors": ["pkg/broadcast/broadcaster.go:Close", "pkg/broadcast/broadcaster.go:closeAllSubscribers", "pkg/recordsubscriber/record_subscriber.go:work"]}
{"id": "C27", "title": "Reading several aggregate types never deadlocks with a writer", "statement": "EventsByAggregateTypes with several types run concurrently with Save always completes.", "quantifier": "every schedule of a multi-type reader and a writer", "why_tests_cant": "Needs one particular preemption between two read-lock acquisitions.", "anchors": ["provider/inmemorystore/inmemory_store.go:EventsByAggregateTypes", "provider/leveldbstore/leveldb_store.go:EventsByAggregateTypes"]}
{"id": "C28", "title": "Concurrent PostgreSQL saves to one stream keep its numbering contiguous", "statement": "With any number of concurrent Save/OptimisticSave calls, the committed records of a stream have stream sequence numbers 1..n without gap or duplicate, and of several OptimisticSave calls with the same expected number at most one succeeds.", "quantifier": "every number of concurrent writers and every interleaving of their SQL statements", "why_tests_cant": "Interleavings of transactions are not enumerable by tests.", "anchors": ["provider/postgresstore/postgres_store.go:saveEvents", "provider/postgresstore/postgres_store.go:lockStream", "provider/postgresstore/postgres_store.go:getStreamSequenceNumber"]}
{"id": "C29", "title": "PostgreSQL deletes respect the expected sequence number", "statement": "OptimisticDeleteStream(n, s) that succeeds removed exactly n events; an acknowledged concurrent save is never silently lost.", "quantifier": "every interleaving of one delete with concurrent saves", "why_tests_cant": "Race window between check and delete.", "anchors": ["provider/postgresstore/postgres_store.go:OptimisticDeleteStream"]}
{"id": "C30", "title": "PostgreSQL readers that resume from the last seen number miss nothing", "statement": "A reader that repeatedly reads Events from last seen global sequence number + 1 eventually sees every committed event.", "quantifier": "every interleaving of concurrent saves and reads", "why_tests_cant": "Sequence values are taken before commit; needs out-of-order commits.", "anchors": ["provider/postgresstore/postgres_store.go:batchInsert", "provider/postgresstore/postgres_store.go:Events"]}
{"id": "C31", "title": "PostgreSQL batch insert binds every value to its own column", "statement": "In the generated multi-row INSERT the k-th placeholder group refers to the nine values of the k-th record and to no other.", "quantifier": "every batch size", "why_tests_cant": "Off-by-one in generated placeholder numbers for any size.", "anchors": ["provider/postgresstore/postgres_store.go:batchInsert"]}
{"id": "C32", "title": "Metadata survives a PostgreSQL save", "statement": "A record saved with metadata is acknowledged and can be read back with that metadata.", "quantifier": "every JSON metadata value", "why_tests_cant": "All metadata values, including null.", "anchors": ["provider/postgresstore/postgres_store.go:batchNotifySubscribers", "provider/postgresstore/postgres_store.go:readResultRecords"]}
{"id": "C33", "title": "EventStoreDB provider keeps optimistic concurrency for every expected number", "statement": "OptimisticSave(e) on the EventStoreDB provider succeeds only if the stream has exactly e events at the moment of the append, and OptimisticDeleteStream(e) only deletes a stream with exactly e events.", "quantifier": "every expected number including 0, every stream length and every concurrent append", "why_tests_cant": "0-based/1-based conversion boundary and a race between check and append.", "anchors": ["provider/eventstore/eventstore.go:saveEvents", "provider/eventstore/eventstore.go:OptimisticDeleteStream", "provider/eventstore/eventstore.go:zeroBasedSequenceNumber"]}
{"id": "C34", "title": "UnexpectedSequenceNumber survives the trip through gRPC", "statement": "The client of a remote store gets an UnexpectedSequenceNumber error carrying exactly the expected and actual numbers the server reported.", "quantifier": "every pair of uint64 and every message prefix added by the transport not containing the marker text", "why_tests_cant": "2^128 pairs through a textual format.", "anchors": ["pkg/rangedberror/errors.go:NewUnexpectedSequenceNumberFromString", "pkg/rangedberror/errors.go:Error", "provider/remotestore/remote_store.go:OptimisticSave"]}
{"id": "C35", "title": "Server-side read errors reach the gRPC client", "statement": "If reading events fails on the server after k records, the client receives those k records and then an error, never a normal end of stream.", "quantifier": "every record count before the failure and each of the three read calls", "why_tests_cant": "Failure position is arbitrary.", "anchors": ["pkg/grpc/rangedbserver/server.go:Events", "pkg/grpc/rangedbserver/server.go:EventsByStream", "pkg/grpc/rangedbserver/server.go:EventsByAggregateType"]}
{"id": "C36", "title": "Numbers in event data survive a save through gRPC or HTTP", "statement": "An integer in the JSON data of an event saved through the remote store is read back unchanged.", "quantifier": "every 64-bit integer", "why_tests_cant": "Only integers beyond 2^53 break.", "anchors": ["pkg/grpc/rangedbserver/server.go:Save", "pkg/rangedbapi/api.go:getEventRecords"]}
{"id": "C37", "title": "Protocol buffer records round-trip", "statement": "ToRecord(ToPbRecord(r)) gives back every field of r, including metadata and its absence.", "quantifier": "every record", "why_tests_cant": "All field values and the null-metadata special case.", "anchors": ["pkg/grpc/rangedbpb/translate.go:ToPbRecord", "pkg/grpc/rangedbpb/translate.go:ToRecord"]}
{"id": "C38", "title": "HTTP status codes tell the truth", "statement": "POST to save-events answers 201 exactly when the events were stored, 409 exactly on a sequence-number conflict and 4xx/5xx with nothing stored otherwise; DELETE answers 200, 404 or 409 according to the store's result, and the expected-sequence header is obeyed when present.", "quantifier": "every request (content type, header value, body validity) and every store state", "why_tests_cant": "Cross product of request defects and store states.", "anchors": ["pkg/rangedbapi/api.go:saveEvents", "pkg/rangedbapi/api.go:deleteStream", "pkg/rangedbapi/api.go:expectedStreamSequenceNumberFromRequest"]}
{"id": "C39", "title": "Walking the pages visits every record exactly once", "statement": "Starting at the first page and following the next link until there is none shows every record of the stream or aggregate type exactly once, in order, with at most itemsPerPage records per page.", "quantifier": "every record list and page size", "why_tests_cant": "Boundary at exact multiples of the page size, sparse sequence numbers.", "anchors": ["pkg/rangedbui/ui.go:stream", "pkg/rangedbui/ui.go:aggregateType", "pkg/paging/paging.go:Links", "store.go:ReadNRecords"]}
{"id": "C40", "title": "Pagination links round-trip", "statement": "Parsing the query of a next or previous link gives back the page size and exactly the intended current index and history, so next followed by previous returns to the same page.", "quantifier": "every pagination state (uint64 values, any history length)", "why_tests_cant": "Textual formatting and parsing of arbitrary uint64 lists.", "anchors": ["pkg/paging/paging.go:Links", "pkg/paging/paging.go:NewPaginationFromString", "pkg/paging/paging.go:NewPagination"]}
{"id": "C41", "title": "Aggregate type statistics equal the log", "statement": "After consuming records the projection reports for each aggregate type exactly the number of records of that type and the greatest sequence number seen, and a saved and reloaded snapshot continues from the same numbers.", "quantifier": "every sequence of records and every snapshot point", "why_tests_cant": "Any record sequence and any snapshot/restart point.", "anchors": ["pkg/projection/aggregate_type_stats.go:Accept", "pkg/projection/aggregate_type_stats.go:LoadFromSnapshot", "pkg/projection/aggregate_type_stats.go:SaveSnapshot"]}
{"id": "C42", "title": "Statistics are correct after a restart from a snapshot", "statement": "After the API restarts from a snapshot and continues with new events, the reported totals equal the totals in the store.", "quantifier": "every snapshot point and every later history", "why_tests_cant": "Depends on the first event after restart exactly at the boundary.", "anchors": ["pkg/rangedbapi/api.go:initProjections", "pkg/projection/aggregate_type_stats.go:LatestGlobalSequenceNumber", "pkg/recordsubscriber/record_subscriber.go:StartFrom"]}
{"id": "C43", "title": "Command dispatch is replay-then-decide, and two dispatches do not interfere", "statement": "Dispatch(c) stores exactly the events the aggregate decides from the current events of its stream; two concurrent dispatches to one aggregate behave as if run one after the other.", "quantifier": "every aggregate, command, stream history and interleaving", "why_tests_cant": "Needs interleavings between load and save.", "anchors": ["pkg/cqrs/cqrs.go:Dispatch"]}
{"id": "C44", "title": "Chat example business rules", "statement": "In the chat example a banned user never joins the room afterwards, no message is posted to a room that was not on-boarded, a user is on-boarded at most once; a user is removed and banned exactly when a restricted word is used after two warnings.", "quantifier": "every sequence of dispatched commands", "why_tests_cant": "All command histories.", "anchors": ["examples/chat/room_aggregate.go", "examples/chat/user_aggregate.go", "examples/chat/restricted_word_processor.go"]}
{"id": "C45", "title": "Decrypt inverts Encrypt", "statement": "For every key and plain text, Decrypt(key, Encrypt(key, text)) = text for AES-GCM, AES-CBC and XChaCha20-Poly1305, including empty and block-aligned texts.", "quantifier": "every plain text length and content, key and nonce/IV", "why_tests_cant": "Padding boundaries for all lengths.", "anchors": ["pkg/crypto/aes/cbc_pkcs5_padding.go:Encrypt", "pkg/crypto/aes/cbc_pkcs5_padding.go:Decrypt", "pkg/crypto/aes/gcm.go", "pkg/crypto/xchacha20poly1305/xchacha20poly1305.go:Decrypt"]}
{"id": "C46", "title": "Decrypting malformed input returns an error, never panics", "statement": "Decrypt called with any string returns either a plain text or an error.", "quantifier": "every input string", "why_tests_cant": "All malformed inputs: short, truncated, wrong padding.", "anchors": ["pkg/crypto/aes/cbc_pkcs5_padding.go:pkcs5Trimming", "pkg/crypto/xchacha20poly1305/xchacha20poly1305.go:Decrypt", "pkg/crypto/aes/gcm.go"]}
{"id": "C47", "title": "Crypto-shredding is permanent", "statement": "After a subject's key is deleted from a key store, no sequence of operations ever makes that subject's key retrievable or settable again, and a key value is never used for two subjects.", "quantifier": "every history of Get/Set/Delete on the in-memory key store (and the vault, DynamoDB, PostgreSQL providers)", "why_tests_cant": "All operation histories.", "anchors": ["pkg/crypto/provider/inmemorykeystore/inmemory_keystore.go", "pkg/crypto/provider/vaultkeystore/hashicorp_vault_keystore.go", "pkg/crypto/provider/postgreskeystore/postgres_keystore.go", "pkg/crypto/provider/dynamodbkeystore/dynamodb_keystore.go"]}
{"id": "C48", "title": "Deleting a subject's key always works", "statement": "Delete(subject) makes later Get(subject) return ErrKeyWasDeleted, for every subject and however many were deleted before.", "quantifier": "every history of key store operations", "why_tests_cant": "The failure needs two deleted subjects.", "anchors": ["pkg/crypto/provider/postgreskeystore/postgres_keystore.go", "pkg/crypto/provider/inmemorykeystore/inmemory_keystore.go"]}
{"id": "C49", "title": "The caching key store is transparent", "statement": "A cached key store returns for every operation what the backing store alone would return; in particular a deleted key is never served from the cache.", "quantifier": "every history, including a crash or failure between the two underlying operations and a second process sharing the backing store", "why_tests_cant": "Crash points and multi-process histories.", "anchors": ["pkg/crypto/provider/cachekeystore/cache_keystore.go"]}
{"id": "C50", "title": "The encryption engine never resurrects a deleted subject and always uses one key per subject", "statement": "Encrypt creates a key only for an unknown subject, all encryptions of a subject use the same key until deletion, and after deletion both Encrypt and Decrypt return ErrKeyWasDeleted.", "quantifier": "every sequence of Encrypt, Decrypt and Delete calls", "why_tests_cant": "All call histories.", "anchors": ["pkg/crypto/eventencryptor/event_encryptor.go"]}
{"id": "C51", "title": "Events saved through the encrypting store read back in the clear", "statement": "A record saved through the encrypted store and read through it has the original personal data, also when the caller retries a failed save or reads a record twice, and what the parent store holds contains only cipher text in the personal-data fields.", "quantifier": "every event, retry pattern and read pattern", "why_tests_cant": "Needs retries and repeated accessor calls.", "anchors": ["provider/encryptedstore/encrypted_store.go", "provider/encryptedstore/decrypting_record_iterator.go", "pkg/crypto/cryptotest/customer_events_gen.go"]}
{"id": "C52", "title": "Generated Encrypt/Decrypt methods round-trip", "statement": "For a generated event, Decrypt after Encrypt restores every field, including serialized integers, and after the key was deleted every personal field is blank.", "quantifier": "every field value, any number of fields", "why_tests_cant": "All values and field counts.", "anchors": ["pkg/crypto/cryptotest/customer_events_gen.go", "pkg/eventparser/event_writer.go"]}
{"id": "C53", "title": "Record streams round-trip", "statement": "Reading back what a JSON, ND-JSON or MsgPack record stream writer wrote yields exactly the records written, in order, for any number of records including zero.", "quantifier": "every list of records", "why_tests_cant": "Framing for all list lengths and contents.", "anchors": ["provider/jsonrecordiostream/json_record_io_stream.go", "provider/ndjsonrecordiostream/ndjson_record_io_stream.go", "provider/msgpackrecordiostream/msgpack_record_io_stream.go"]}
{"id": "C54", "title": "Record stream writers report read errors", "statement": "If the iterator being written ends with an error the writer reports an error rather than producing a complete-looking document.", "quantifier": "every iterator outcome", "why_tests_cant": "Error position is arbitrary.", "anchors": ["provider/jsonrecordiostream/json_record_io_stream.go", "provider/ndjsonrecordiostream/ndjson_record_io_stream.go", "provider/msgpackrecordiostream/msgpack_record_io_stream.go"]}
{"id": "C55", "title": "Text encodings are lossless", "statement": "Base64 decoding inverts base64 encoding for every byte string, ROT13 applied twice is the identity, and a short UUID has 32 lower-case hex characters that determine the 16 bytes.", "quantifier": "every byte string", "why_tests_cant": "All lengths modulo 3 and all byte values.", "anchors": ["pkg/crypto/aes/gcm.go", "pkg/crypto/cryptotest/rot13_encryption.go", "pkg/shortuuid/short_uuid.go"]}
{"id": "C56", "title": "Cancelling a read yields a prefix", "statement": "A read whose context is cancelled at any moment delivers a prefix of the full result, then an error or nothing; it never skips a record or reorders.", "quantifier": "every result list and every cancellation point", "why_tests_cant": "All cancellation points.", "anchors": ["publish_record.go:PublishRecordOrCancel"]}
{"id": "C57", "title": "Readers and writers of one store are linearizable", "statement": "Save, delete, single-type read and total-count calls from any number of goroutines behave as if executed one at a time.", "quantifier": "every schedule of any number of goroutines", "why_tests_cant": "Schedules are unbounded.", "anchors": ["provider/inmemorystore/inmemory_store.go", "provider/leveldbstore/leveldb_store.go"]}
{"id": "C58", "title": "A consumer that stops reading does not stop the store", "statement": "While a client holds an iterator it is not reading (for instance because it calls Save from the loop that reads it), other clients' saves, deletes and reads are still answered.", "quantifier": "every state in which a read is under way, every later schedule and set of calls", "why_tests_cant": "The wait has no bound: a test can only time out.", "anchors": ["provider/inmemorystore/inmemory_store.go:recordsStartingWith", "provider/leveldbstore/leveldb_store.go:getEventsByPrefixStartingWith", "publish_record.go:PublishRecordOrCancel"]}
{"id": "C59", "title": "A refused PostgreSQL delete gives its connection back", "statement": "OptimisticDeleteStream that is refused (stream missing, wrong expected number) leaves the store as usable as before: any number of refused deletes do not prevent later calls from succeeding.", "quantifier": "every number of refused deletes, every later call", "why_tests_cant": "no test makes more refused deletes than the server has connections", "anchors": ["provider/postgresstore/postgres_store.go: OptimisticDeleteStream"]}
{"id": "C60", "title": "PostgreSQL store used by one client behaves like the log", "statement": "Calls made one at a time get the answers the log specification gives (numbers, records, errors), for every sequence of calls.", "quantifier": "every sequence of calls, every event", "why_tests_cant": "tests run a fixed list of calls", "anchors": ["provider/postgresstore/postgres_store.go: Events, EventsByAggregateTypes, EventsByStream, OptimisticDeleteStream, Save, OptimisticSave, TotalEventsInStream"]}
{"id": "C61", "title": "A failed PostgreSQL save leaves nothing behind", "statement": "A Save or OptimisticSave that returns an error has stored none of its events; one that returns no error has stored all of them, contiguously; a committed stream consists of such batches only.", "quantifier": "every interleaving, every failing statement, every server restart", "why_tests_cant": "needs a fault at every statement under every schedule", "anchors": ["provider/postgresstore/postgres_store.go: transactionalSave, saveEvents, batchInsert"]}
{"id": "C62", "title": "PostgreSQL global numbers respect acknowledgement order", "statement": "If one save was acknowledged before another was made, all its records have smaller global sequence numbers than those of the other, across streams.", "quantifier": "every interleaving, failure and restart", "why_tests_cant": "depends on all schedules", "anchors": ["provider/postgresstore/postgres_store.go: transactionalSave, batchInsert"]}
{"id": "C63", "title": "The PostgreSQL notification listener announces every record", "statement": "With notifications enabled every inserted record reaches the broadcaster once and in order.", "quantifier": "every sequence of inserted records", "why_tests_cant": "tests insert a few well-formed records", "anchors": ["provider/postgresstore/postgres_store.go: startPQListener, listen"]}
{"id": "C64", "title": "EventStoreDB provider: reads are ordered and streams numbered without gaps", "statement": "The events of every stream are numbered 1, 2, 3, ... on the server and global sequence numbers strictly increase; every read, also one that breaks off, lists records in strictly increasing order and only records that were asked for.", "quantifier": "every interleaving of calls, failures, foreign writes and restarts", "why_tests_cant": "interleavings and failure points are unbounded", "anchors": ["provider/eventstore/eventstore.go:Events", "provider/eventstore/eventstore.go:EventsByStream", "provider/eventstore/eventstore.go:EventsByAggregateTypes", "provider/eventstore/eventstore.go:recordFromLinkedEvent"]}
{"id": "C65", "title": "EventStoreDB provider: a deleted stream disappears from all reads", "statement": "After OptimisticDeleteStream succeeded, Events, EventsByAggregateTypes and EventsByStream show no record of the stream, also after a restart of the process.", "quantifier": "every history, every later moment, with and without RecordDeletedStreams", "why_tests_cant": "the guarantee is about every later read", "anchors": ["provider/eventstore/eventstore.go:OptimisticDeleteStream", "provider/eventstore/eventstore.go:inDeletedStreams", "provider/eventstore/eventstore.go:RecordDeletedStreams"]}
{"id": "C66", "title": "EventStoreDB provider: acknowledged events are read back", "statement": "Events of a save that returned n are read back from the stream, unchanged, in order, numbered up to n, until the stream is deleted, for every event type.", "quantifier": "every event type, history and interleaving", "why_tests_cant": "all event types and all histories", "anchors": ["provider/eventstore/eventstore.go:saveEvents", "provider/eventstore/eventstore.go:EventsByStream", "provider/eventstore/eventstore.go:isInternalESDBEvent"]}
{"id": "C67", "title": "EventStoreDB provider: live subscribers get each new record once, in order", "statement": "The records handed to live subscribers are exactly the newly saved ones, each once, in order, for as long as the process runs.", "quantifier": "every history, restart and subscription failure", "why_tests_cant": "depends on restarts and on failures of the background subscription", "anchors": ["provider/eventstore/eventstore.go:startSubscription"]}
{"id": "C68", "title": "EventStoreDB provider: TotalEventsInStream is right or fails", "statement": "TotalEventsInStream returns the number of events of the stream or an error.", "quantifier": "every stream and every point at which the read may break off", "why_tests_cant": "every failure point of the read", "anchors": ["provider/eventstore/eventstore.go:TotalEventsInStream"]}
{"id": "C69", "title": "EventStoreDB provider: a deleted stream can be started anew", "statement": "After a stream was deleted, saving to it starts a new stream at number 1, as with the other stores.", "quantifier": "every history", "why_tests_cant": "every later save", "anchors": ["provider/eventstore/eventstore.go:OptimisticDeleteStream", "provider/eventstore/eventstore.go:saveEvents"]}
{"id": "C70", "title": "A remote store's subscribers get every live record", "statement": "Every record the server announces is handed to the live subscribers of a remote store client, each once and in order.", "quantifier": "every sequence of announced records, decodable by the client or not", "why_tests_cant": "every position of a record the client cannot decode", "anchors": ["provider/remotestore/remote_store.go:startSubscription", "provider/remotestore/remote_store.go:listenForRecords"]}
{"id": "C71", "title": "A remote store behaves as the store behind it", "statement": "For any history of calls, the caller of a remote store gets the same counts, records and refusals as a caller of the store on the server, and a batch mixing aggregates never reaches the server.", "quantifier": "every history of calls without cancellation and every store on the server", "why_tests_cant": "all histories", "anchors": ["provider/remotestore/remote_store.go:Save", "pkg/grpc/rangedbserver/server.go:Save"]}
{"id": "C72", "title": "What was accepted can be read", "statement": "An event accepted by the server can be read back, and does not stop other events from being read.", "quantifier": "every JSON value as event data", "why_tests_cant": "every JSON value, and the effect on all later reads", "anchors": ["provider/jsonrecordserializer/json_record_serializer.go:Deserialize", "pkg/rangedbapi/api.go:getEventRecords", "pkg/grpc/rangedbserver/server.go:Save"]}
{"id": "C73", "title": "Reading through HTTP changes nothing", "statement": "A request with a safe HTTP method (GET, HEAD), or one on a reading path, leaves the store as it was.", "quantifier": "every request, store state and store provider", "why_tests_cant": "every path, method and state", "anchors": ["pkg/rangedbapi/api.go:initRoutes", "pkg/rangedbapi/api.go:deleteStream", "pkg/rangedbapi/api.go:eventsByStream"]}
{"id": "C74", "title": "Every stream and aggregate type can be reached through HTTP", "statement": "For every stream name and every list of aggregate types there is a request path that reads, saves to or deletes exactly it, and the records of the answer are those the store gives.", "quantifier": "every stream name, list of aggregate types and store", "why_tests_cant": "all names, including those with slashes, dots, escapes and other bytes", "anchors": ["pkg/rangedbapi/api.go:initRoutes", "pkg/rangedbapi/api.go:eventsByStream", "pkg/rangedbapi/api.go:eventsByAggregateType"]}
{"id": "C75", "title": "A truncated record stream yields no wrong records", "statement": "However much of a record stream's bytes arrives, reading it yields the first records unchanged and in order, followed by the end or an error; and a reader can tell that the stream was cut short.", "quantifier": "every list of records, every cut of the bytes", "why_tests_cant": "Every byte position of every stream is a possible cut.", "anchors": ["provider/jsonrecordiostream/json_record_io_stream.go", "provider/ndjsonrecordiostream/ndjson_record_io_stream.go", "provider/msgpackrecordiostream/msgpack_record_io_stream.go"]}
{"id": "C76", "title": "Only cipher texts that Encrypt can produce are accepted", "statement": "If Decrypt(key, c) returns a text, then c is, up to its base64 spelling, what Encrypt(key, text) returns for some nonce; a cipher text altered in any way, or made with another key, is refused.", "quantifier": "every key, cipher text and plain text", "why_tests_cant": "All alterations of all cipher texts.", "anchors": ["pkg/crypto/aes/gcm.go:Decrypt", "pkg/crypto/xchacha20poly1305/xchacha20poly1305.go:Decrypt", "pkg/crypto/aes/cbc_pkcs5_padding.go:Decrypt"]}
{"id": "C77", "title": "Generated code covers every field tagged as personal data", "statement": "For every event declaration that the event generator accepts, the generated Encrypt and Decrypt methods work on exactly the fields tagged encrypt:\"personal-data\", for the subject in the field tagged encrypt:\"subject-id\"; targets of serialized fields are strings, and no two roles share a field.", "quantifier": "every struct declaration: any number of fields, names and tags", "why_tests_cant": "All declarations; tests use a few hand-written ones.", "anchors": ["pkg/eventparser/event_parser.go:Visit", "pkg/eventparser/event_writer.go", "gen/eventgenerator/main.go"]}
{"id": "C78", "title": "Deleting one subject's key does not hide the events of others", "statement": "After a subject's key is deleted, reading through the encrypted store and decrypting subscribers still gives every other subject's events in the clear, and the deleted subject's events with their personal data blank.", "quantifier": "every history of events of any number of subjects, any deleted subjects, any position", "why_tests_cant": "Depends on where in the history the deleted subject's events are.", "anchors": ["provider/encryptedstore/decrypting_record_iterator.go:Record", "provider/encryptedstore/decrypting_record_subscriber.go:Accept", "pkg/crypto/eventencryptor/event_encryptor.go:Decrypt"]}
{"id": "C79", "title": "Subscribers are handed only records that were saved", "statement": "Every record a subscriber's Accept is called with was committed by some save of the store; nothing is invented, repeated from another store or delivered before it was saved.", "quantifier": "every schedule of saves, deletions, starts, deliveries, time-outs, stops and shutdowns, any number of subscribers", "why_tests_cant": "All interleavings of any number of saves and subscribers.", "anchors": ["pkg/recordsubscriber/record_subscriber.go:writeRecord", "pkg/broadcast/broadcaster.go:broadcastRecord"]}
{"id": "C80", "title": "A WebSocket client gets every event once, in order, from the number it asked for", "statement": "A client connected to /events or /events/{types} with a global-sequence-number is sent the matching events of the store from that number on, each once, in increasing order, and goes on being sent new ones as they are saved while it keeps reading; other clients do not affect it.", "quantifier": "every schedule of saves, of the store's broadcaster, of the API's own subscription and of the API's broadcaster and any number of clients", "why_tests_cant": "Two broadcasters with buffers and time-outs stand between a save and a client; which of them blocks or drops depends on the schedule.", "anchors": ["pkg/rangedbws/websocket_api.go:New", "pkg/rangedbws/websocket_api.go:initBroadcaster", "pkg/rangedbws/websocket_api.go:SubscribeToAllEvents", "pkg/rangedbws/websocket_api.go:SubscribeToEventsByAggregateTypes", "pkg/broadcast/broadcaster.go:broadcastRecord"]}
{"id": "C81", "title": "A WebSocket request subscribes to exactly the types and the number it names", "statement": "A request to /events subscribes to all events and one to /events/{a,b,...} to exactly these aggregate types, starting at the number of the global-sequence-number parameter, 0 if there is none; a parameter that is no 64-bit number is refused; every aggregate type can be subscribed to.", "quantifier": "every request path and parameter, every list of aggregate types", "why_tests_cant": "Ranges over all strings, with escapes, path cleaning and number parsing.", "anchors": ["pkg/rangedbws/websocket_api.go:initRoutes", "pkg/rangedbws/websocket_api.go:globalSequenceNumberFromRequest", "pkg/rangedbws/websocket_api.go:SubscribeToEventsByAggregateTypes"]}
{"id": "C82", "title": "A subscription call over gRPC gets every event, or is told that it ended", "statement": "A caller of SubscribeToLiveEvents, SubscribeToEvents or SubscribeToEventsByAggregateType that stays connected is sent the events it asked for, each once, in increasing order, and everything saved from then on; if the server stops sending, the call ends.", "quantifier": "every schedule of saves, of the store's broadcaster, of the server's own subscription and broadcaster and of any number of calls", "why_tests_cant": "What is sent depends on which buffers fill and which time-outs strike in which order; and that a call never ends cannot be observed in finite time.", "anchors": ["pkg/grpc/rangedbserver/server.go:initBroadcaster", "pkg/grpc/rangedbserver/server.go:SubscribeToLiveEvents", "pkg/grpc/rangedbserver/server.go:SubscribeToEvents", "pkg/grpc/rangedbserver/server.go:SubscribeToEventsByAggregateType", "pkg/recordsubscriber/record_subscriber.go:work"]}
{"id": "C83", "title": "A subscription to a remote store gets every event, as one to the store itself", "statement": "A subscription made on a remote store and started from a number is handed the matching events of the server's store from that number on, each once, in increasing order, and goes on being handed new ones.", "quantifier": "every schedule of saves at the store, of its broadcaster, of the server's subscription and broadcaster, of the connection, and of the remote store's broadcaster and any number of its subscriptions", "why_tests_cant": "Three broadcasters, two subscriptions and a connection stand between a save and the subscriber, all concurrent; tests see a few interleavings.", "anchors": ["provider/remotestore/remote_store.go:New", "provider/remotestore/remote_store.go:listenForEvents", "provider/remotestore/remote_store.go:readRecords", "provider/remotestore/remote_store.go:AllEventsSubscription", "pkg/grpc/rangedbserver/server.go:SubscribeToLiveEvents"]}
{"id": "C84", "title": "What a subscriber has been handed never has a gap", "statement": "At every moment, whether a subscriber to all events or to one aggregate type is catching up, live, dropped for being slow, stopped or refused by its consumer: if it has been handed an event, it has been handed every earlier matching event of the store from the number it was started from on (as long as its own reads succeed, and saves are handed over in the order of their commits, as LevelDB always does). So a consumer that restarts from the last number it has handled loses nothing.", "quantifier": "every schedule of saves, deletions, of the broadcaster and its time-outs, stops and shutdown, of any number of subscribers; every moment of it", "why_tests_cant": "Ranges over all interleavings and over every moment at which a subscriber can be cut off.", "anchors": ["pkg/recordsubscriber/record_subscriber.go:StartFrom", "pkg/recordsubscriber/record_subscriber.go:work", "pkg/broadcast/broadcaster.go:broadcastRecord"]}
{"id": "C85", "title": "A subscriber is handed only events it asked for", "statement": "Whatever is handed to the consumer of a subscription was saved, and is of one of the aggregate types the subscription names (or the subscription is to all events).", "quantifier": "every schedule of saves, deletions, the broadcaster, time-outs and shutdown, of any number of subscribers with any types", "why_tests_cant": "Ranges over all interleavings of subscribing, unsubscribing, reading and broadcasting.", "anchors": ["pkg/recordsubscriber/record_subscriber.go:StartFrom", "pkg/broadcast/broadcaster.go:broadcastRecord", "provider/leveldbstore/leveldb_store.go:AggregateTypesSubscription"]}
{"id": "C86", "title": "The live overview of the web UI comes to show the statistics", "statement": "The live page of all aggregate types is sent new numbers whenever events were counted; once nothing new comes it has been sent, after finitely many steps, every type with its exact count and the exact total; numbers shown never decrease and are never ahead of what was counted.", "quantifier": "every interleaving of the events arriving at the projection with the calls of the page's handler", "why_tests_cant": "The handler reads the projection in many separate calls between which events arrive; tests see a few interleavings.", "anchors": ["pkg/rangedbui/ui.go:realtimeAggregateTypes", "pkg/projection/aggregate_type_stats.go:Accept"]}
{"id": "C87", "title": "Each message of the live overview is consistent, and an abandoned page ends", "statement": "In each message to the live page of all types the total is the sum of the counts; when the browser has gone the handler returns.", "quantifier": "every interleaving of events with the handler", "why_tests_cant": "Needs an event between two particular reads, or the absence of events for ever.", "anchors": ["pkg/rangedbui/ui.go:realtimeAggregateTypes"]}
{"id": "C88", "title": "The live page of one type shows each new event once with the right total", "statement": "The live page of an aggregate type is sent the events saved since it was opened, each with the number of events of the type up to it.", "quantifier": "every schedule of saves, of the projection's subscription and of the page's subscription; every moment at which the page is opened", "why_tests_cant": "The page combines two reads of an asynchronous projection with a subscription of its own.", "anchors": ["pkg/rangedbui/ui.go:realtimeEventsByAggregateType", "pkg/projection/aggregate_type_stats.go:LatestGlobalSequenceNumber"]}
{"id": "C89", "title": "A client that resumes from the last number it saw prints each matching event exactly once", "statement": "The gRPC event subscriber command, which reconnects when the connection is lost and asks again from the number it last saw, prints every matching event exactly once, in order, without a gap.", "quantifier": "every schedule of saves, of the server's delivery and of connection losses and reconnections", "why_tests_cant": "A loss must fall between every two deliveries and the reconnection may overlap any number of saves.", "anchors": ["cmd/grpc-event-subscriber/main.go:main", "pkg/grpc/rangedbserver/server.go:SubscribeToEventsByAggregateType"]}
{"id": "C90", "title": "A Given/When/Then test passes exactly when the command raised the expected events", "statement": "TestCase.Given(events).When(command).Then(expected) passes iff the dispatched command raised exactly the expected events, in order; ThenInspectEvents hands the function exactly the raised events in order.", "quantifier": "all previous events, commands, raised events, expected events and stores", "why_tests_cant": "The helper is itself what the tests rely on; a wrong program it lets pass cannot be seen with it.", "anchors": ["rangedbtest/bdd/bdd.go:Then", "rangedbtest/bdd/bdd.go:ThenInspectEvents"]}
{"id": "C91", "title": "An interrupted server finishes what it has begun", "statement": "When the server program is told to stop, it answers the requests it has accepted, closes the store and ends with status 0.", "quantifier": "every interleaving of the signal, main, the serving goroutines and requests in progress", "why_tests_cant": "Depends on which goroutine runs first during the shutdown, and on requests in progress at that moment.", "anchors": ["cmd/rangedb/main.go:main", "cmd/rangedb/main.go:serveHTTP"]}
{"id": "C92", "title": "The driver connects with the settings of the configuration", "statement": "The database driver reads from the data source name exactly the host, port, user, password, database and search path of the configuration.", "quantifier": "every configuration that is accepted", "why_tests_cant": "All strings as passwords and names; needs the driver's parser.", "anchors": ["provider/postgresstore/config.go:DataSourceName", "provider/postgresstore/config.go:NewConfigFromEnvironment"]}
{"id": "C93", "title": "The server uses the store that was asked for and keeps the snapshots of different stores apart", "statement": "With -levelDBPath the server uses the LevelDB store at that path; snapshots of different stores are kept in different places; no secret is written to the file system.", "quantifier": "every environment, path, working directory and temporary directory", "why_tests_cant": "All combinations of environment variables and paths.", "anchors": ["cmd/rangedb/main.go:getStore", "cmd/rangedb/main.go:snapshotBasePath"]}
{"id": "C94", "title": "A generated aggregate runs the method of the command or event it is given", "statement": "The generated Handle calls, for every command struct of the source file, given by value or by pointer, that command's method and no other, and does nothing for other types; the generated apply does the same for events; CommandTypes lists every command; and the generated text is Go that compiles.", "quantifier": "every source file, every list of commands and events, every aggregate name", "why_tests_cant": "The generator's tests compare two texts; names range over all Go identifiers.", "anchors": ["pkg/aggregategenerator/write_aggregate.go:Write", "pkg/aggregategenerator/write_aggregate.go:lcFirst", "pkg/structparser/struct_names.go:GetStructNames"]}
{"id": "C95", "title": "Generated commands and event binders say what was asked for", "statement": "CommandType of every generated command returns its type's name, AggregateType the aggregate type the generator was given, AggregateID the field named; the generated BindEvents binds every event of the file.", "quantifier": "every list of commands or events, every aggregate type", "why_tests_cant": "The aggregate type is any string put between quotes; tests use one.", "anchors": ["pkg/commandgenerator/write_command.go:Write", "gen/eventbinder/main.go:writeEventBinder"]}
{"id": "C96", "title": "A page of records shows the records and links to their streams", "statement": "On a page of records the browser reads in every cell the text of the record (numbers in decimal, data as JSON), nothing in a record becomes markup, each row's links lead to the record's stream and aggregate type, the page links ask for what they were made to ask for, and totals read as the numbers they are.", "quantifier": "every record with any bytes in its names and data, every uint64 total", "why_tests_cant": "Names and data are any bytes; escaping has to be right for each context and each byte.", "anchors": ["pkg/rangedbui/templates/layout/records.gohtml", "pkg/rangedbui/templates/layout/pagination.gohtml", "pkg/rangedbui/functions.go:formatUint64", "pkg/rangedbui/functions.go:formatJson"]}
{"id": "C97", "title": "The live page of a type shows the newest ten events", "statement": "The table of the live page shows, newest first, the ten newest of the records that arrived since the connection was last lost, with the total that came with the newest; it never has more than ten rows; losing the connection alone changes nothing.", "quantifier": "every history of messages and lost connections", "why_tests_cant": "The histories of reconnections are unbounded, and no test runs the page's script.", "anchors": ["pkg/rangedbui/templates/aggregate-type-live.gohtml:connect"]}
{"id": "C98", "title": "The HTTP server answers as a list of events would", "statement": "Any sequence of posts, deletes, reads and senseless requests is answered as a plain list of events answers it: a post with no expected number or the right one appends exactly the posted events with the next stream and global numbers (201), a wrong number changes nothing and names both numbers (409), a delete removes exactly the stream, a read of a stream, of types or of everything shows exactly what the list holds, and a senseless request is refused (400) and changes nothing. In particular what was posted is what is read next.", "quantifier": "every sequence of requests one after the other, every name without a slash, every number of events, both embedded stores", "why_tests_cant": "All histories of requests; a test fixes one.", "anchors": ["pkg/rangedbapi/api.go:saveEvents", "pkg/rangedbapi/api.go:deleteStream", "pkg/rangedbapi/api.go:eventsByStream", "provider/inmemorystore/inmemory_store.go", "provider/leveldbstore/leveldb_store.go"]}
{"id": "C99", "title": "A cancelled call does nothing and says so; others are never told they were cancelled", "statement": "Save, OptimisticSave, OptimisticDeleteStream and TotalEventsInStream with a context that is done before the call return context.Canceled and change nothing; with a context that is never done they never return context.Canceled.", "quantifier": "every history before the call, every call, the in-memory, LevelDB, remote (any store behind it) and EventStore stores", "why_tests_cant": "All states and calls.", "anchors": ["provider/eventstore/eventstore.go:saveEvents", "provider/inmemorystore/inmemory_store.go:saveEvents", "provider/leveldbstore/leveldb_store.go:saveEvents", "provider/remotestore/remote_store.go:Save", "provider/remotestore/remote_store.go:TotalEventsInStream"]}
{"id": "C100", "title": "What the HTTP server acknowledged survives crashes", "statement": "In front of a LevelDB store, in a process that may die in the middle of any request and is started again: every answered request is answered as a plain list of events would answer it; a request during which the process dies has happened wholly or not at all; restarts change nothing. In particular a post answered with 201 is found by every later read of its stream, whole and at its place, unless the stream was to be deleted. Every request is answered.", "quantifier": "every sequence of requests, crashes after any database operation of a request, and restarts", "why_tests_cant": "All histories and all crash points.", "anchors": ["pkg/rangedbapi/api.go:saveEvents", "pkg/rangedbapi/api.go:deleteStream", "provider/leveldbstore/leveldb_store.go:New", "provider/leveldbstore/leveldb_store.go:saveEvents", "provider/leveldbstore/leveldb_store.go:OptimisticDeleteStream"]}
{"id": "C101", "title": "The layout of a JSON text makes no difference", "statement": "A JSON text is read exactly if it follows RFC 8259 (nested at most 10000 deep), and it is read as the value it says, whatever its white space and escapes. A JSON array, or a series of texts, of objects that say records is read as these records in order, whatever the order and case of the member names and whatever unknown members there are; missing members mean empty fields. The first object that says no record is reported behind the records before it.", "quantifier": "every text, every value, every record and every set of event types the reader knows", "why_tests_cant": "All texts: a test reads a few documents, mostly those the program itself wrote.", "anchors": ["provider/jsonrecordiostream/json_record_io_stream.go:Read", "provider/ndjsonrecordiostream/ndjson_record_io_stream.go:Read", "provider/jsonrecordserializer/json_record_serializer.go:UnmarshalRecord", "provider/jsonrecordserializer/json_record_serializer.go:DecodeJsonData"]}
{"id": "C102", "title": "An HTTP server is a notebook, down to the bytes", "statement": "Whatever requests are sent to an HTTP server one after the other, the bytes of the answers are those of a notebook of events: a post whose body begins with a JSON array of events is answered with the new length of the stream or, if the expected number is wrong, with 409 and both numbers; a delete with how many events went; a read in JSON or newline-delimited JSON with texts of exactly the objects of the events asked for, in order, with the names, numbers, ID and time they got and with the data and metadata that were posted (numbers as float64, members sorted, the last of a name). Requests that make no sense get 400 and change nothing.", "quantifier": "every sequence of requests, with every body text, every layout of the JSON and every nesting up to the limit", "why_tests_cant": "All histories and all bodies: a test sends a few requests with bodies it printed itself and compares with a few expected texts.", "anchors": ["pkg/rangedbapi/api.go:saveEvents", "pkg/rangedbapi/api.go:writeEvents", "pkg/rangedbapi/api.go:getEventRecords", "provider/jsonrecordserializer/json_record_serializer.go:Serialize", "provider/jsonrecordserializer/json_record_serializer.go:Deserialize", "provider/jsonrecordiostream/json_record_io_stream.go:Write", "provider/ndjsonrecordiostream/ndjson_record_io_stream.go:Write", "provider/inmemorystore/inmemory_store.go:Save", "provider/leveldbstore/leveldb_store.go:Save"]}
{"id": "C103", "title": "With the JSON serializer a store loses nothing", "statement": "A store that keeps its records with the JSON serializer answers every call as a log that encodes nothing would: every event read back has the names, numbers, ID, time, data and metadata it was saved with. This holds for the in-memory store, for the LevelDB store, and for a LevelDB store that crashes at any point and is opened again. The events must have UTF-8 names, times below 2^64 and data that is not null; null data is acknowledged and can not be read, and a name that is no UTF-8 is read back as another name.", "quantifier": "every sequence of calls, every JSON data and metadata up to the nesting limit, every crash point", "why_tests_cant": "All values and all histories: a test saves a few events and reads them back; it does not settle that encoding and decoding never loses a digit, a member or an event for any value at any later moment.", "anchors": ["provider/jsonrecordserializer/json_record_serializer.go:Serialize", "provider/jsonrecordserializer/json_record_serializer.go:Deserialize", "provider/inmemorystore/inmemory_store.go:Save", "provider/leveldbstore/leveldb_store.go:Save"]}
{"id": "C104", "title": "The bytes an HTTP server answers with survive crashes", "statement": "In front of a LevelDB store, in a process that may die in the middle of any request and is started again, the bytes of the answers are those of a notebook of events: a request during which the process dies is in the notebook wholly or not at all, a restart changes nothing. In particular the events of a post answered with 201 are in the JSON array every later read of the stream gets, one behind the other, with the data and metadata posted and the numbers, IDs and times they were given, unless the stream was to be deleted. Every request is answered.", "quantifier": "every sequence of requests with every body text, every point inside a request at which the process dies, every number of restarts", "why_tests_cant": "All bodies, all histories and all crash points at once: a test kills the server at a few points and compares a few texts.", "anchors": ["pkg/rangedbapi/api.go:saveEvents", "pkg/rangedbapi/api.go:writeEvents", "provider/leveldbstore/leveldb_store.go:New", "provider/leveldbstore/leveldb_store.go:Save", "provider/jsonrecordserializer/json_record_serializer.go:Serialize", "provider/jsonrecordserializer/json_record_serializer.go:Deserialize", "provider/jsonrecordiostream/json_record_io_stream.go:Write", "cmd/rangedb/main.go:main"]}
{"id": "C105", "title": "HTTP requests that overlap are answered as if they had come one by one", "statement": "The server answers every request in a goroutine of its own. However the requests overlap, there is an order of them such that every answer, down to its bytes, is the one a list of events would give if the requests came one after the other in that order; a request sent after another one was answered comes after it. A request that makes no sense is answered with 400 and changes nothing. This is so in front of the in-memory and of the LevelDB store, also when deletes are refused: what is answered is right. It is not so for reads of several aggregate types: these may show a later event and not an earlier one.", "quantifier": "every number of requests at once, every interleaving of their goroutines and of the steps inside the store, every body", "why_tests_cant": "The claim ranges over all schedules; a test with goroutines exercises a handful of them, and never the same ones twice.", "anchors": ["pkg/rangedbapi/api.go:ServeHTTP", "pkg/rangedbapi/api.go:saveEvents", "pkg/rangedbapi/api.go:deleteStream", "pkg/rangedbapi/api.go:writeEvents", "provider/inmemorystore/inmemory_store.go:Save", "provider/inmemorystore/inmemory_store.go:Events", "provider/leveldbstore/leveldb_store.go:Save", "provider/leveldbstore/leveldb_store.go:Events"]}
{"id": "C106", "title": "Record streams are MessagePack for any reader", "statement": "A stream of MessagePack records is well-formed MessagePack whatever the order Go visits maps in: two objects for each record, a map with its ten fields and then its data. The format leaves no choice, so any reader that follows it finds exactly these values, a reader of a stream that was cut off finds the first of them, and equal bytes come from records with equal fields.", "quantifier": "every list of records, every order of map members, every reader that follows the format, every cut", "why_tests_cant": "The tests pin down the bytes of one record and read them back with the same library; other readers, values and lengths are not covered.", "anchors": ["provider/msgpackrecordserializer/msgpack_record_serializer.go", "provider/msgpackrecordiostream/msgpack_record_io_stream.go", "record.go Record"]}
{"id": "C107", "title": "Pretty-printed JSON says the same", "statement": "The readable form of a JSON document is a JSON document with the same value, in which only white space outside of strings has changed, laid out one item or member per line with two spaces per open bracket. Two documents have the same readable form exactly if they differ in such white space only, making a document readable twice changes nothing more, and the result is empty exactly if the input is no JSON.", "quantifier": "every byte string", "why_tests_cant": "There are no tests of it; the API's tests compare documents through it, which is sound only if it never maps different documents to the same text.", "anchors": ["pkg/jsontools/json_tools.go PrettyJSON, PrettyJSONString"]}
{"id": "C108", "title": "The dates shown are right", "statement": "The date and time shown for a record on the pages of the web UI is that of the Gregorian calendar, in UTC, for the second its timestamp names, and different timestamps are shown differently.", "quantifier": "every timestamp", "why_tests_cant": "Leap years and month ends are arithmetic over all days; the tests look at one second.", "anchors": ["pkg/rangedbui/functions.go formatDate", "pkg/rangedbui/templates/layout/records.gohtml:24"]}
{"id": "C109", "title": "Times, IDs and numbers of records tell them apart for good", "statement": "If the store's clock never goes back, a record with a greater global sequence number never has an earlier timestamp; if the ID generator gives no ID twice, an event ID names one record for good; and a global sequence number names one record for good whatever the clock and the generator do: two answers of the store, at whatever times, that show the same ID or number show the same record.", "quantifier": "every history of calls, including failed, cancelled and mixed batches, deletions and (LevelDB) crashes; every pair of answers", "why_tests_cant": "A number that is reused after a failed batch or a deletion shows only in particular histories, between answers far apart.", "anchors": ["provider/inmemorystore/inmemory_store.go saveEvent, removeRecentEvents", "provider/leveldbstore/leveldb_store.go saveEvent", "pkg/clock/provider/sequentialclock", "pkg/clock/provider/seededclock"]}
{"id": "C110", "title": "A conflict tells the number to retry with", "statement": "If OptimisticSave or OptimisticDeleteStream fails with UnexpectedSequenceNumber and tells the actual number n, the same call made next with n succeeds, and with any other number it is refused and told n again.", "quantifier": "every history, call, stream and number; the in-memory, LevelDB, PostgreSQL and EventStore stores", "why_tests_cant": "All histories, and for EventStore all states of the server and the other calls.", "anchors": ["provider/inmemorystore/inmemory_store.go:saveEvents", "provider/inmemorystore/inmemory_store.go:OptimisticDeleteStream", "provider/leveldbstore/leveldb_store.go:saveEvents", "provider/postgresstore/postgres_store.go:OptimisticDeleteStream", "provider/eventstore/eventstore.go:saveEvents", "provider/eventstore/eventstore.go:OptimisticDeleteStream", "pkg/rangedberror/errors.go:UnexpectedSequenceNumber"]}
{"id": "C111", "title": "A number learned of a stream stays right until the stream is changed", "statement": "Whoever learned the number of events of a stream - from a save, from a count or from an UnexpectedSequenceNumber - and then saves to it or deletes it expecting that number, is told of a conflict only if somebody's save to or delete of that very stream was confirmed in between.", "quantifier": "every history of calls, every stream, any two calls in it", "why_tests_cant": "Other streams, refused calls and reads in any number may come in between; none of them may cause a conflict.", "anchors": ["provider/inmemorystore/inmemory_store.go:OptimisticSave", "provider/leveldbstore/leveldb_store.go:OptimisticSave", "provider/postgresstore/postgres_store.go:OptimisticSave", "provider/eventstore/eventstore.go:OptimisticSave"]}
{"id": "C112", "title": "Calls to the EventStoreDB store do not wait for each other", "statement": "However many calls to the EventStoreDB store are in progress, and whatever other applications and failing requests do, a call that is not answered yet can always make its next request, and is answered after at most two requests of its own. No call gets a second answer, and there is no answer without a call.", "quantifier": "every run of overlapping calls, deliveries, lost and failed requests and writes of other applications in one process; every unanswered call in it", "why_tests_cant": "A test sees the schedules it happens to run; that no schedule makes one call depend on another's progress is a claim about all of them.", "anchors": ["provider/eventstore/eventstore.go:saveEvents", "provider/eventstore/eventstore.go:OptimisticDeleteStream", "provider/eventstore/eventstore.go:EventsByStream", "provider/eventstore/eventstore.go:TotalEventsInStream"]}
