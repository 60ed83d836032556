# Formal model of inklabs/rangedb in Rocq (Coq 8.16.1)

The model lives in `rocq/theories`. Each model file transcribes Go
functions into small, total, computable Gallina functions; every definition
cites the Go file and lines it models. Property theorems live in
`Properties_*.v` files, each closed by `exact` and followed by
`Print Assumptions`. `properties.jsonl` states the properties in English,
`MANIFEST.json` maps them to theorems, `seeded/LOG.jsonl` logs the seeded-bug
experiments.

## Conventions

* Go `string` and `[]byte` are Coq `string` (a list of bytes).
* `uint64` is `N`. Wrap-around is written out only where a property is about it.
* Go errors are constructors of `err`; `nil` is an explicit case; a panic, a
  blocked goroutine or a deadlock is an explicit outcome, never a default value.
* A Go map is a function from keys to `option value` (or to the zero value where
  the code never tests for presence).
* In the store models the record serializer is a parameter `codec` (a pair of functions) with the
  law `deserialize (serialize r) = r` whenever serialization succeeds.
* Clock readings and generated UUIDs are inputs of the save operation, so every
  theorem holds for all clocks and all generators.
* Context cancellation is an input: the index of the first check that sees it.
* A query returns the list of results put on its channel before it is closed.

## Findings convention

If the full property is false of the code, a theorem `..._refuted` gives a
concrete witness, and a guarded version is proved beside it.

## Plan per property

| id | what is modelled | how it is proved |
|----|------------------|------------------|
| C01 | iterator as a state over the list of published results | induction on the list |
| C02 | `MergeRecordIteratorsInOrder` loop with run shortcut and swap-remove | multiset + sortedness invariant, measure = remaining records |
| C03 | same merge, sources ending in an error | refuted; guarded version |
| C04 | `GetStream`, `ParseStream` over byte strings | string induction; refuted for separators in names |
| C05 | `ReadNRecords` | induction on the iterator content |
| C06 | whole in-memory store as `step : state -> op -> state * out` | refinement to the log specification, induction over histories |
| C07 C08 C13 | same | corollaries of the refinement invariant |
| C09 | both stores | corollary; iff statement |
| C10 | in-memory save | refuted (three ways) + guarded |
| C11 C12 | both stores' delete | refinement corollaries; refuted for the empty-entry case |
| C14 | big-endian codec, key order | arithmetic induction |
| C15 | LevelDB key prefixes | no-`$!` lemma; refuted otherwise |
| C16 | LevelDB store over an ordered byte-key map with transactions | refinement to the same specification |
| C17 | LevelDB operations split into db steps with crash between | only commit changes the durable map |
| C18 | transaction lock left open by a failed delete | refuted; guarded |
| C19 | both | both refine the same deterministic specification |
| C20 C21 C22 C23 C24 | small-step machine: store, broadcaster queue, subscriber | invariants over all schedules; C22, C23, C24 refuted |
| C25 C26 | broadcaster loop and subscriber worker | induction over operations; C26 refuted |
| C27 | readers-writer lock with writer preference | refuted (deadlock state) + guarded |
| C28 C29 C30 | PostgreSQL transactions as interleaved statements, advisory locks | invariant over schedules; C29, C30 refuted |
| C31 | placeholder generation | arithmetic |
| C32 | metadata decode | refuted |
| C33 | EventStoreDB revision conversion and append | refuted at 0, proved for e >= 1 |
| C34 | error text format and `Sscanf` | decimal codec round-trip; conversely the numbers read stand in the text (`Properties_ConflictText.v`) |
| C35 | server loops over iterators | refuted for two calls, proved for one |
| C36 | integer -> float64 -> integer | proved up to 2^53, refuted above |
| C37 | translate.go | case analysis |
| C38 | HTTP handlers as decision functions over a store | case analysis; refuted where a 500 leaves part of a batch stored and where an empty list is a 500 |
| C39 C40 | `Paging.v`: pagination texts and links byte by byte (URL escaping, query parsing), pages over a store that may grow between requests | induction over the walk; refuted for names with `?`, `#` or `%`, and for read errors, which look like the last page |
| C41 C42 C79 | `Stats.v`: the projection, its snapshot as JSON text, the start of the API from a snapshot file; the subscription machine delivers the records | induction over the records, text round trip, invariant over all schedules (`StatsProofs.v`); refuted: the first event after a restart from an up-to-date snapshot is never counted, deleted streams stay counted, types that are not UTF-8 are merged |
| C43 C44 | pkg/cqrs (dispatch one at a time, and a small-step machine in which dispatches share the aggregates), the chat example's aggregates, projection and restricted-word processor (the application as commands, projection steps and processor steps in any order) | C43: replay-then-decide proved for aggregates that serve one stream and can be loaded again; refuted for shared aggregates, failing reads and overlapping dispatches. C44: bans, on-boarding and expulsion by induction over histories; refuted for several rooms, overlapping commands, a lagging projection and restarts |
| C45 C46 C76 | `Crypto.v`: CBC chaining, padding, base64, AEAD envelopes; the block cipher and the AEAD primitive are parameters, their laws (`CryptoSpec.v`) hypotheses | round trip for every length; panics of CBC and XChaCha characterised exactly and refuted, GCM never panics; acceptance proved for the AEADs, refuted for CBC |
| C47 C48 C49 C50 | `Prog.v`: calls as sequences of requests to a server, interleaved between requests, with requests that are lost or unanswered; `KeyStores.v`: the in-memory, PostgreSQL, DynamoDB and Vault stores, the cache and the engine as such calls | invariants of all interleavings (`KeyProofs*.v`, `CacheProofs.v`); refuted: PostgreSQL deletes at most one key (the empty text must be unique), Vault's Delete reaches two versions only and Set overwrites, DynamoDB's reads may be stale, the cache of another process serves deleted keys |
| C51 C52 C77 C78 | `Events.v`: the generator's reading of a struct, the methods it writes as calls to an encryptor, the encrypting store over a parent that may fail, the decrypting iterator and subscriber | round trip and invariant over all saves, for any encryptor that opens what it sealed, and for the engine in memory (`EventsProofs.v`); refuted: retries and repeated saves encrypt twice (numbers are lost), events by value are stored in the clear, Record is not repeatable, reading stops at the first shredded record, one tag on several names covers the first |
| C53 C54 C75 | `JsonText.v` (JSON bytes), `RecordIo.v` (JSON and ND-JSON records and streams), `Msgpack.v` (MessagePack records and streams), byte by byte | round trip, prefix arguments; C53 refuted for missing data, invalid UTF-8 and floats; C54 refuted; unnoticed cuts refuted |
| C55 | `Encodings.v`: base64 (whole and streamed), hex, ROT13 on UTF-8 | finite sweeps lifted by lemmas, induction; ROT13 refuted on bytes that are not UTF-8 |
| C56 | `PublishRecordOrCancel` | induction |
| C57 | lock-level interleaving of calls | reduction argument on the lock machine. That every call ends once, for all calls (`Properties_LocksOnce.v`): only a call that has not ended moves |
| C58 | same machine, a read whose records nobody takes | refuted by an invariant over all later schedules |
| C59 | transactions holding connections; refused deletes never roll back | refuted for every connection limit; only failed deletes leak |
| C60 | PostgreSQL machine run one call at a time | refinement to the log; reading beyond the end refuted |
| C61 | committed rows as a sequence of whole batches | invariant over all runs; lost confirmation and metadata refuted. That no call is forgotten (`Properties_PgAnswered.v`): a call that is over has an answer in the history. That none is answered twice: only a call that is not over is answered, also by a restart of the server |
| C62 | history of invocations and answers against SERIAL numbers | invariant over all runs |
| C63 | notification listener as a fold over inserted rows | refuted at the first undecodable record; guarded version by induction |
| C64 C65 C66 C67 C68 C69 | EventStoreDB clients as interleaved requests on one server log, background subscription, restarts | invariants over all runs; C65, C67, C68, C69 and dollar-typed events refuted |
| C70 C71 C72 | gRPC client and server as translations around any store; JSON payloads through encoding/json with float64 | simulation over all histories; C70, C72 refuted beside guarded versions |
| C73 C74 | HTTP routing on the bytes of the path (mux cleaning, unescaping, patterns), requests as method, path, headers and JSON body, in front of any store; how a path is spelled (percent escapes) is specified apart, in PathSpec.v | case analysis; the model's unescaping is shown to be that spelling, so every spelling of a path is answered alike and bad escapes are refused; both refuted beside guarded versions: the method is never looked at, so a GET deletes; names with a slash and types with other than letters and hyphens are unreachable |
| C80 C81 | `WebSocket.v`: the routes, the API's own subscription (the relay), the API's broadcaster and its clients, as two subscription machines joined by the relay | a ghost run of the subscription machine whose saves are the relay's hand-overs, then the invariants of C20-C22 (`WebSocketProofs.v`, `WebSocketRequestProofs.v`); refuted: slow clients can cut the relay off and every other client with it for ever, a type named twice is sent twice, types with other characters than letters and hyphens cannot be subscribed to |
| C82 C83 | `WebSocket.v` with calls started by Start, `RemoteFeed.v`: the remote store's feed (one SubscribeToLiveEvents call), the connection, the remote store's broadcaster and subscribers | the run of the server as its clients see it is the store of a second link of the same kind, over a connection (`RemoteFeedProofs.v`); refuted: a dropped call neither gets anything nor ends, a subscription started before the server has taken the call misses events, after a lost connection or one event that cannot be converted nothing is handed over any more |
| C84 | the machine of C20-C24, at every reachable moment | invariant over all schedules that follows a subscriber until it is dropped, and after that shows that nothing newer can reach it (`SubscriptionGap.v`); refuted for several types: a slow subscriber is taken off the list of one type only |
| C85 | the machine of C20-C24 | invariant: whoever is on a list, in a broadcast or in a channel asked for it (`SubscriptionOnly.v`) |
| C86 C87 | `Ui.v`: the handler of the live overview, one call of the projection per step, interleaved with the projection's Accept | each message carries an interval of moments, intervals in order, so at rest the last one is a single moment; a measure for coming to rest (`UiProofs.v`); C87 refuted: torn reads, and a handler at rest never looks at its connection |
| C88 | the page's subscription and the projection's in the machine of C20-C24, the page opened at any moment | C84 for both subscriptions, then counting (`UiTypeProofs.v`); refuted universally when the last event counted is of the type: it is sent again and every total is one too many; and for an event between the two reads |
| C89 | the client of cmd/grpc-event-subscriber on top of the subscription machine (`Follow.v`) | no gap, caught up and in order for every schedule of losses, from C84 per connection and an induction over connections; refuted universally: after a reconnection the last event printed is printed again; with several types asked for, or after a failing read, events are missed for good |
| C90 | the helper against a store of streams, the command any function appending to it, reads that may fail (`Bdd.v`) | exact characterisation of passing on an empty store; refuted: events in streams not expected, order between streams, a read that fails, a store used before, order given to ThenInspectEvents |
| C91 | `Server.v`: main() and the serving goroutines as a machine over the stages of the shutdown and the requests in progress | invariant: once Shutdown has returned every HTTP request is answered; refuted: the goroutine of serveHTTP ends the process (log.Fatal on ErrServerClosed) from the moment Shutdown begins, gRPC calls are cut off, SIGTERM is not handled |
| C92 | the data source name and lib/pq's parser of it as a state machine on bytes | the parser read along each plain value; refuted universally for an empty password and for white space in a value |
| C93 | the choice of the store and path/filepath on lists of names | case analysis; the place of the snapshots is injective on absolute paths; refuted: the environment overrules the flag, relative paths share snapshots, the password is part of a directory name |
| C94 | `Generators.v`: structparser's visitor over declarations, lcFirst on bytes, the aggregate template as lines | the text is split into lines again and the type switch read (`GeneratorsSpec.v`): first matching case, by induction over commands and events; refuted: methods named like keywords or like generated methods, names above ASCII give texts that are not UTF-8, struct types inside functions become commands |
| C95 | the command and event binder templates as lines; Go's string literals | the literal between the quotes is read back; refuted for every aggregate type with a quote or a backslash |
| C96 | `UiCells.v`: html/template's escapers for texts, attributes and URLs byte by byte, go-humanize's Comma; how a browser reads references in `UiCellsSpec.v`; formatJson in `UiJson.v` | induction over the bytes; the link's path is the percent-decoding of the name for every name, hence refuted for every name with `?`, `#` or `%` and two hexadecimal digits |
| C97 | the script of the live page as a state machine | induction over messages and lost connections |
| C98 | the HTTP server (Http.v) in front of the in-memory and LevelDB stores against a list of events (HttpStorySpec.v) | forward simulation through the log of LogSpec.v, by induction over the requests. LevelDB: until a delete is refused (C18) |
| C99 | cancellation in the in-memory, LevelDB, remote and EventStore stores | direct, and induction over the batch; any store behind the remote one; for EventStore an invariant over all runs with concurrent calls, failures and restarts. A save on EventStore that expects a number other than 0 is refuted. Not: Postgres, where cancellation is one of the failures of a statement |
| C100 | the HTTP server in front of LevelDB in a process that dies (HttpCrash.v) against the list of events with interrupted requests (HttpCrashSpec.v) | simulation by induction over the happenings, from the atomicity of a crashed call. "Every request is answered" is refuted (after a refused delete, until the restart); the rest is proved for names without "$!" |
| C101 | JSON texts as a relation between values and texts (JsonGrammar.v) and objects as a relation between members and records (JsonRecordSpec.v), against the reader of JsonText.v and the decoder of RecordIo.v | both directions: induction over the derivation of a text, and over the fuel of the reader; for structs induction over the members. Proved in full for values; for records when no two members mean the same field (with two of them a later null does not count: refuted) |
| C102 | the HTTP server of Http.v with the bytes of its bodies (HttpBytes.v): request bodies through the JSON reader of JsonText.v, records kept with the JSON serializer of RecordIo.v, pages written by the writers of RecordIo.v, in front of the in-memory and the LevelDB store; the notebook in HttpBytesSpec.v over the grammar of JSON | induction over the requests; the serializer is not total (null data, bad UTF-8), so the proof replaces it by one that is and agrees with it on the records that occur (PatchCodec.v). Proved for events with data; with null data refuted. LevelDB: without refused deletes and names with "$!" |
| C103 | the in-memory and LevelDB stores (InMemory.v, LevelDB.v) with the JSON serializer of RecordIo.v instead of a codec with assumed laws; JsonStoreSpec.v says which events qualify | the serializer is replaced by a total one that agrees with it on every record that occurs (PatchCodec.v), by an invariant over the calls and crashes; then C06, C16 and C17 apply. Refuted without the conditions: null data, names that are no UTF-8 |
| C104 | the server of HttpBytes.v in front of LevelDB.v with the JSON serializer, the crashes and restarts of HttpCrash.v (HttpBytesCrash.v); the notebook of C102 kept by a process that may die (HttpBytesCrashSpec.v) | induction over what happens, from C102's lemmas, the crash atomicity of C17 and the exchange of serializers of C103. 'Every request is answered' is false as in C100 (after a refused delete, until the restart) |
| C105 | a goroutine per request (HttpConc.v) in front of the stores with their locks (Locks.v, LocksStores.v); handlers are those of Http.v and HttpBytes.v, taken apart into the call they make and the answer they give; `one_by_one` (HttpConcSpec.v) with the list of events of C98 and the notebook of C102 | an invariant ties the calls in the store's history to the requests (HttpConcProofs.v), so the linearizability of C57 carries over to requests; C98 and C102 say what the order's answers are. False for reads of several types (as in C57), with a witness. A request whose client goes away is not answered |
| C106 | the format's specification as a grammar: which bytes are objects with which values (MsgpackGrammar.v); the encoder of Msgpack.v | the grammar is unambiguous (a head-reading function, then mutual induction); the encoder follows it (induction on values, any order of map members). `_partial`: texts, arrays and maps of 2^32 parts or more are left out, extension types do not occur. That equal bytes mean equal data is refuted: json.Number and texts look alike, raw events have no data (C53) |
| C107 | `PrettyJSON` with `json.Indent` of the Go library (Pretty.v: the loop over the bytes, with the scanner reduced to what the loop asks of it); validity is that of the reader of JsonText.v (C101); PrettySpec.v has the layout as a grammar | mutual induction over the grammar of JSON texts; that white space is all that changes by induction over the bytes, with a function that removes white space |
| C108 | `formatDate` with the arithmetic of the Go library's time.absDate (Dates.v); the calendar counted day by day (DatesSpec.v) | closed form of the calendar by induction over years, months and days; the library's divisions by linear arithmetic; days of a year by complete enumeration. `_partial`: timestamps from 9223372044994230016 on are shown as dates before 1970 (refuted) |
| C109 | `Clocks.v` (the sequential and the seeded clock), InMemory.v and LevelDB.v with the times and IDs of events as inputs; `ClocksSpec.v` says what a good clock and a good generator are | A book of all records ever visible: along every history it only grows at its end, with rising numbers, and its times and IDs are part of those passed in, in order. Every answer shows records of the book. LevelDB with crashes, names without `$!`. Calls one after the other (the clock is asked under the store's lock, so overlapping calls ask in the order of their effects; this is not part of the model). |
| C110 | the refusals of the in-memory, LevelDB, PostgreSQL and EventStore stores | in-memory and LevelDB from the compare-and-append theorems (C09, C12), through gRPC with the round trip of the text (C34); PostgreSQL from the refinement of the log (C60), calls one after the other; EventStore from any state, when the number is not 0 and the stream holds nothing that is not shown. Refuted: a refused delete on LevelDB can never be retried; on EventStore 0 is told to whoever loses at the server. For overlapping PostgreSQL calls (`Properties_MomentPg.v`) the step that answers is found in the run and its state inspected; for the other two (`Properties_MomentBusy.v`) from the order of calls of C57 |
| C111 | the stores as in C110; who learned what from which answer is in the statement (`Properties_Stays.v`) | each step of a store has the effects of a step of the log on the length of every stream; induction over the calls in between. Refuted for EventStore, which tells the loser of a race 0. For overlapping calls (`Properties_StaysBusy.v`): the order of calls from C57 puts a confirmed change between the two, and real-time order bounds when that call was made and answered; for PostgreSQL (`Properties_StaysPg.v`) the step that tells the conflict is the one that looked, and the stream then has a save's batch behind the learner's. Refuted as stated for PostgreSQL when the confirmation of a commit gets lost |
| C112 | `EventStore.v`: every call as its requests to the server, interleaved with other calls, other applications' writes, failing and lost requests; an iteration is one request. The lock around the map of deleted streams (556-558, 928-933) is held for one look at the map and is not modelled | invariant: the state of a call fits its operation, and a finished call has its answer in the history; no call returns to its first state. One answer for one call: only a call that is not finished moves (restarts included). Partial: a process that is replaced answers none of its calls, and a reader that stops taking records is not in this model (`Properties_EsWaitFree.v`) |

## Trusted base

* Coq 8.16.1's kernel, including its `vm_compute` reduction machine (used by some
  proofs about concrete cases). No kernel check is switched off, no OCaml plugin is
  used beyond the ones the standard library loads, nothing is extracted.
* Axioms: `Print Assumptions` follows every property theorem and answers
  "Closed under the global context" for every one of them: no theorem uses any axiom.
  Loading the standard library's ssreflect files puts the seven parameters
  `Coq.ssr.ssrunder.Under_rel.{Under_rel, Under_rel_from_rel, Under_relE,
  Over_rel, over_rel, over_rel_done, under_rel_done}` into the environment (they are
  the signature of a sealed module of Coq's own library and are listed by a check of
  the whole development); no theorem depends on them. No axiom, parameter, functor or
  module type is declared here. `Variable`s stand inside sections only and become
  universally quantified arguments of the theorems.
* The reading of the Go code. Nothing in /repo is executed; that the definitions say
  what the code does is the reader's to check against the lines cited at each.
* Laws assumed of what is outside, always as hypotheses in the theorem that needs
  them, each met by a concrete instance in an `Example`:
  * `codec`: a record that serializes is read back equal (`ToyCodec.v` has instances;
    `JsonText.v` and `Msgpack.v` model the two serializers and show where the law
    fails: JSON with `null` data, integers above 2^53, and so on);
  * the ciphers: decrypting with the key and nonce used to encrypt gives the text back,
    and for GCM, XChaCha20-Poly1305 and HMAC that opening what was not sealed fails,
    where a theorem is about that;
  * the printing of floating-point numbers: `prints_back`, `prints_integers`.
* Behaviour of libraries and services written into the models by hand, from their
  documentation and sources as far as known (none is in the sandbox):
  * Go: channels, select, mutexes, sync.Map, context cancellation, maps ranged over in
    any order, goroutines scheduled in any order (every interleaving of the modelled
    steps; a step is what the comment at each label says is atomic);
  * goleveldb: a batch or transaction is applied wholly or not at all, also by a crash;
    iterators see a snapshot in byte order; one open transaction excludes others;
  * PostgreSQL: read committed, row locks, identity sequences, NOTIFY after commit;
    lib/pq's parser of connection strings (`Server.v`);
  * EventStoreDB: expected revisions, soft delete and scavenge, `$all` order;
  * DynamoDB and Vault: conditional writes, versions, as far as the key stores use them;
  * gRPC: a stream keeps its order and loses at most its tail; a status carries code and
    text; net/http, gorilla/mux and gorilla/websocket: routing, path cleaning,
    Shutdown, upgrade; encoding/json, encoding/base64, encoding/hex, net/url, strings,
    strconv, fmt.Sscanf, text/template as far as called; vmihailenco/msgpack.

## What is modelled, and what is not

Modelled, function by function (the file of the model in brackets): record iterators,
merging, publishing and store helpers (`Core`, `Base`); the in-memory store
(`InMemory`, with locks and channels in `Locks*`); the LevelDB store with its byte keys
(`LevelDB*`); the PostgreSQL store with concurrent transactions (`Postgres*`); the
EventStoreDB provider (`EventStore*`); the broadcaster (`Broadcaster`); subscriptions
(`Subscription*`); the gRPC server and remote store (`Remote`, `RemoteFeed`); the HTTP
API (`Http`, with the bytes of its bodies `HttpBytes`, its crashes `HttpCrash`, `HttpBytesCrash` and
overlapping requests `HttpConc`), paging (`Paging`), the web UI's live pages (`Ui`), the WebSocket API
(`WebSocket`); JSON and MessagePack serializers and record streams (`Json`, `JsonText`,
`RecordIo`, `Msgpack`), readable JSON (`Pretty`); text encodings and short UUIDs (`Encodings`, `Text`); AES-CBC,
AES-GCM and XChaCha framing (`Crypto`); key stores, cache and engine (`KeyStores`);
event encryption and its code generator (`Events`); statistics, snapshots (`Stats`);
CQRS (`Cqrs`) and the chat example (`Chat`); the reconnecting subscriber (`Follow`);
the Given/When/Then helper (`Bdd`); the server program (`Server`); the generators of
aggregates, commands and event binders, as texts (`Generators`); the cells and links of
the pages, the script of one live page (`UiCells`, `UiJson`), the dates (`Dates`) and two clocks (`Clocks`).

Not modelled: the primitives of AES, SHA-256 and ChaCha20 themselves; the layout of the HTML
templates; SQL text other than the batch insert; dialing, TLS, timeouts and
time itself (a timeout is a step that may be taken at any moment); memory and file
limits; log output; the benchmark and verification suites in rangedbtest; the load
generator cmd/gen-random-events.

## Findings

Where the code does not have a property, the theorem ending in `_refuted` says so, by a
witness or, where possible, for every case of a kind. The manifest's notes name them
property by property. The most consequential:

* A subscriber misses records, and is not told, when saves to the in-memory store overlap
  (C22), when it asks for several types (C21), when it starts from a number not yet
  written (C23), and when the catch-up read fails (C24).
* A refused delete leaves the LevelDB store locked for ever (C18) and a PostgreSQL
  connection out of the pool (C59).
* Reading several aggregate types in memory can deadlock with a writer (C27).
* A reader of PostgreSQL that resumes from the last number misses records of
  transactions that commit late (C30).
* Server-side read errors end a gRPC or HTTP read as if it were complete (C35, C54).
* JSON numbers above 2^53 change on their way through gRPC and HTTP (C36); `null` data
  makes a stream unreadable (C72).
* After a restart with nothing saved since the snapshot the next event is never counted (C42).
* With PostgreSQL at most one subject that has a key can ever be deleted (C48); on Vault
  setting a key brings a deleted subject back (C47); the cache of a second
  process goes on serving a deleted key (C49).
* A slow client is dropped without being told (C82).
* An interrupted server may end with status 1 before requests are answered and the store
  is closed (C91); without a password the driver reads the database as the password
  (C92); the password becomes part of a directory's name (C93).
