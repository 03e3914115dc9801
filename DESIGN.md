# Formal model of arroba: design

The model is written in Coq 8.16.1 (standard library only). Sources are in
`rocq/theories`, logical name `Verif`. The Python code in `/repo` is only read,
never run.

## Layout

| kind | files | content |
|---|---|---|
| base | `Base.v`, `Lists.v` | byte strings, result type with Python exceptions as values, ordered lists, assoc lists |
| model | `*Model.v` | one Gallina function per Python function, comments cite file and lines |
| spec | `*Spec.v` | small definitions that properties are phrased with; they do not use the model's helpers |
| proofs | `*Proofs.v` | lemmas, invariants, refinement |
| properties | `*Props.v` | one theorem per claim, closed with `exact`, followed by `Print Assumptions` and by a concrete example that meets the hypotheses |
| validation | `*Check.v` | `vm_compute` runs against the fixtures shipped in `/repo/arroba/tests` (tests, not claims) |

## Conventions

* A Python `str` is the list of its UTF-8 bytes, as `N`. MST keys are ASCII, so this is the list of code points. Order is lexicographic; on UTF-8 that is also code point order.
* A Python exception is a value `Err e`; `e` is the exception class. A function that is not structurally recursive in Python takes fuel and returns `Err OutOfFuel` when it runs out; each theorem excludes that outcome.
* A dict is an association list. Python dict equality ignores insertion order, so constants are written in DAG-CBOR key order.
* External functions are universally quantified: `digest` (SHA-256 for CIDs), `kdigest` (SHA-256 for key heights), the ECDSA primitives, the lexicon validator, clocks, HTTP responses. They appear as ordinary `forall` arguments of the theorems. Where a theorem needs collision freedom of `digest` this is an explicit premise of the theorem, `forall a b, digest a = digest b -> a = b`; it is met by the identity function, and the examples instantiate it.
* Concurrency is modelled by interleaving state machines whose atomic steps are the individual memcache/datastore/queue operations.

## Plan per property

| id | modelled | proof method |
|---|---|---|
| C01-C04, C06 | `MST` objects with lazy `entries`, cached `pointer`, `layer` hint and `outdated_pointer` flag over a block reader | refinement to a pure tree with a well-formedness invariant; the contents are the in-order leaves, compared with a sorted association list |
| C02 | same | uniqueness of the well-formed tree for a sorted list, plus a root invariant; counterexample for in-memory trees that were emptied |
| C05, C08 | `serialize_node_data`, `deserialize_node_data`, DAG-CBOR | direct round trip by induction |
| C07, C13 | `get_unstored_blocks` and a monotone block store | store closure invariant |
| C09, C10 | `ensure_valid_key`, `leading_zeros_on_hash` | direct |
| C11, C12, C41 | `cids_for_path`, `add_covering_proofs` | induction over the represented tree |
| C14, C15 | `Walker`, `mst_diff`, `null_diff`, `Diff`, `Diff.updated_keys` | loop invariant over the remaining in-order frontier of both walkers |
| C16 | `Diff.add_diff` | counterexamples, and composition where it holds |
| C17, C26 | `MemorySequences`, `MemoryStorage` blocks | invariants over histories |
| C18-C25, C28, C57, C58 | `Storage.commit`, `_commit`, `write_event`, status methods, `read_events_by_seq`, `Repo`, both for memory storage (shared objects) and datastore storage (fresh load in a transaction) | refinement to a map per repo, invariants over histories |
| C73 with several NSIDs | `MemorySequences` with its dict (NsidMemModel.v) | NsidMemProofs.v: the same simulation; threads only disturb each other if they allocate for the same NSID |
| C17, C27 with several NSIDs | `DatastoreSequences`, `MemcacheSequences` with dicts of entities, items and `max_seqs` (NsidModel.v) | NsidProofs.v: what happens for one NSID is a run of the machine for one (`nd_sim`, `nm_sim`) |
| C27, C51, C45 | `MemcacheSequences`, `Lease`, `next_tid` as step machines | inductive invariants; schedules that break them as counterexamples |
| C29-C34 | `Collector._collect`, `subscribe` as step machines | inductive invariants; schedules that break them as counterexamples |
| C35 | `process_event` | over the storage model |
| C75 | the preload of `Collector.run` | PreloadModel.v, over the storage model |
| C76 | `getHead`, `getLatestCommit`, `describeRepo` | ServerModel.v; servers as in LiveSpec.v |
| C77 | `MST.__eq__`, `leaf_count`, `all_nodes` | EqualModel.v; histories as in MstClient.v |
| C78 | the storage model with requests and imports | store invariants: every stored tree is whole (WholeProofs.v) and its records are stored (FullProofs.v); histories as in AnySpec.v |
| C79 | RawModel.v: lookups with an oracle for the responses, and getRepo on it; FaultModel.v: the same with an oracle for lookups that fail | the loop keeps what was found plus what is pending complete; layers of the tree are permuted (RawProofs.v); histories as in LiveSpec.v |
| C80 | CrashModel.v: operations cut after each write to the datastore, then a process without memory | the invariant of RepoProofs.v holds of every cut, with the old or the new book (CrashProofs.v, CrashFacts.v); the only write that changes a repo is that of its entity |
| C81 | CrashModel.v | false: C81_refuted (events of a repo that is not there), C81_fork_refuted (two commits with one predecessor), C81_silent_refuted (a status without event); C81_partial for deaths before the first or after the last block (CrashLog.v) |
| C82 | CrashModel.v, EventsModel.v | CrashFire.v, CrashFireProps.v; statement words of LogSpec.v; callbacks may raise |
| C83 | CrashModel.v (`halfway`), ServerModel.v | LiveCrash.v, DeathFacts.v, DeathProps.v; `LiveSpec.hosts` includes deaths on datastores, so C72, C76 and C79 hold after deaths too |
| C84 | ServerModel.v, StorageModel.v | RequestProofs.v: each request is simulated by loads and a commit, references renamed; C66 and C69 are lifted to servers with it (RequestFacts.v, `RequestSpec.goes_on`); RequestOps.v: the commits that answered writes make (C20_requests); RequestMessages.v: the messages made of them (C35_requests); RequestKept.v: blocks kept and wary clients (C26_requests, C70_requests) |
| C23 on servers | AnySpec.v runs | ClosedProofs.v: a request for a repo with a status stops at server.load_repo, an import of a repo that is there stops at load_repo, everything else leaves the repo alone (C71); entities stay in key order, so a handle names the repo of its DID |
| C85 | RepoProofs.v effects, ServerModel.v | GrowSpec.v (`descends`, `stays`), GrowProofs.v: each operation keeps a head, links a commit to it, or creates the repo anew; requests by `steps_keep` |
| C85 with failures | AnySpec.v runs | OnwardSpec.v (`precedes`), OnwardProofs.v: every act keeps the head or puts a stored commit with prev on it (`moves`); acts on other repos by `astep_others` |
| C85 with deaths | CrashModel.v | GrowCrash.v: `crash_atomic` says that an operation that dies moves the head as if it had ended or not at all |
| C24 on servers | AnySpec.v runs | StatusSpec.v (`for_status`), StatusProofs.v: every other act keeps the stored status (`keeps`); a commit works on a freshly loaded object that has it (`fits`) |
| C24 with deaths | CrashModel.v | StatusCrashSpec.v (`lets_be`), StatusCrash.v: `effect_mark` on the effects of operations, then `crash_atomic` as for C85 |
| C36-C43, C55 | XRPC handlers over the storage model | refinement; pagination by induction on the remaining entries |
| C44, C46, C48 | TIDs, AT URIs, did:key with base58 | arithmetic, round trips; TextSpec.v says what base58btc, base32 and base64url are without the tables of CodecModel.v (C48_text, C50_text, C54_text, C64_text, C67_text) |
| C47 | `sign`, `verify_sig` over the algebra of ECDSA (points as multiples of the generator) | direct; low-S by arithmetic |
| C49, C50, C56, C60 | PLC operations, DID documents, did:web, handle resolution | round trips; theorems about every request in the trace; derivatives of the regular expression |
| C52 | DAG-CBOR encode/decode | induction over values |
| C53 | `read_blocks_by_seq` with a failing query; StopModel.v: one that dies of another error | induction over the failure pattern |
| C54, C61, C62 | `AtpRemoteBlob`, getBlob, listBlobs as functions and as an interleaving machine | invariant over interleavings; pagination by induction |
| C74 | the caches of `did.py` as an interleaving machine with a clock | invariants over interleavings; a schedule as counterexample |
| C63 | commits of several threads to `DatastoreStorage` as an interleaving machine | invariant over interleavings, values of blocks only; refutations for revs and events |

## Trusted base

1. Coq's kernel (8.16.1), including `vm_compute` for the examples and counterexamples.
2. `Print Assumptions` is run below every theorem in every `*Props.v`. Each answers *Closed under the global context*: no axioms, neither own nor the standard library's. There are no functors, module types, plugins, `Admitted` or open obligations.
3. That the model files describe the Python code. Every definition cites file and lines. What is modelled, what is an oracle, and what is left out is listed here.

Oracles are `forall` arguments of the theorems, so the theorems hold for every behaviour that the stated premises allow.

### Modelled

| part of the code | model | simplifications |
|---|---|---|
| `mst.py` (`MST`, serialization, `load_all`, `cids_for_path`, `add_covering_proofs`, `Walker`) | `MstModel`, `CoverModel`, `DiffModel` | Objects are values; in-place caching of `entries`, `pointer`, `layer` is threaded through explicitly. Fuel bounds the depth at 130, above the greatest height that a 32 byte key hash can give. Iteration by generators is eager. Layer hints of trees are an oracle in the diff. |
| `diff.py` | `DiffModel` | Walker frontier as data. `Diff`'s dicts and `CidSet`s are association lists and lists. |
| DAG-CBOR, CIDs (`dag_cbor`, `multiformats`) | `Ipld` | Written out (encode, strict decode) for the data model without floats. CIDs are CIDv1, dag-cbor, sha2-256. `digest` is an argument; `Sha256` is used only in tests against fixtures. |
| `storage.py` (`Block`, `CommitData`, `Storage`, `MemoryStorage`, `MemorySequences`) | `BlockModel`, `StorageModel`, `SeqModel`, `EventsModel` | A commit is one atomic step. Block time is an oracle. A backend flag separates memory storage from datastore storage where they differ. `SeqModel.mm_step` has threads that allocate numbers from one `MemorySequences`, one memory access per step (C73); `NsidMemModel` has several NSIDs. |
| `datastore_storage.py` (`AtpRepo`, `AtpBlock`, `AtpSequence`, `DatastoreStorage`, `DatastoreSequences`, `MemcacheSequences`) | `StorageModel`, `SeqModel`, `NsidModel`, `EventsModel`, `StopModel`, `BlockModel`, `RawModel`, `FaultModel`, `CrashModel` | ndb entities are rows of association lists; transactions are atomic; queries return key order. Duplicate keys in `write_blocks` keep the first. The scan for restarts (C53) has no concurrent writes. In CrashModel the writes of `write_blocks` go together, since they are one transaction, and callbacks, which write nothing, run with the write before them. |
| `datastore_storage.py` transactions of `_commit` | `TxModel` | Optimistic: a transaction commits if the entity's version has not changed since it was read, otherwise it is aborted and run again, at most ten times; any transaction may be aborted at any time. An attempt reads blocks and asks for existing ones at one moment. Creating repos and writing events are not interleaved. |
| `memcache.py` (`Lease`) | `LeaseModel` | memcache operations are atomic; expiry may come at any time. |
| `repo.py` | `StorageModel` | Callbacks are quiet (they do not write to the repo). |
| `util.py` TIDs, AT URIs | `TidModel`, `UriModel` | Clock values are arguments. `urlsplit`'s checks of brackets and Unicode normalization are the oracle `netloc_ok`. |
| `util.py` `sign`, `verify_sig`, `apply_low_s_mitigation` | `SignModel` | The group is Z_n, a point is its discrete logarithm; nonces are arguments; DER and raw encoding are inverse by construction. |
| `util.py` `service_jwt` | `JwtModel` | JSON (`dumps` and PyJWT's header) is an oracle that gives bytes; times are exact; PyJWT's checks of claim types are left out; ECDSA as in `SignModel`. |
| `firehose.py` (`process_event`) | `MessageModel` | `#commit`, `#sync`, `#identity`, `#account`, `#tombstone`. |
| `firehose.py` (`Collector`, `subscribe`) | `FireModel` | An interleaving machine: each locked region and each read of the storage is one step, time is an integer that may advance at any step, event bodies are abstract. `reset`, `limit` and the condition variable's notification itself are left out (a waiting thread may wake at any time, as `wait` with a timeout may). |
| `xrpc_repo.py`, `xrpc_sync.py`, `server.py` | `ServerModel` | Lexicon validation by `lexrpc` is left out or an oracle; the disabled test of `get_repo` is a flag; `CID.decode` is an oracle; import has resolve/verify oracles. |
| `xrpc_server.py` | `SessionModel` | `server.repo` is a parameter, since only the demo app sets it; getAccountInviteCodes and listAppPasswords, which return constants, are left out. |
| `AtpBlock`, `CommitOp`, block reads and writes of `DatastoreStorage` | `RowModel` | `StorageModel` takes entities for blocks; this model has the conversions. Limits of the datastore (sizes, 64 bit numbers) are left out; `CID.decode` knows base32 and the two kinds of CIDs in use. |
| CAR files (`carbox`) | `CarModel` | The library is external; it is written out as length prefixed sections with a header. |
| `did.py` | `DidModel`, `HandleModel`, `CodecModel` | Keys, points and signatures are oracles; base58, base32, base64 and varints are written out, other multibases are an oracle. Hosts come from configured environment variables. HTTP and DNS answers are oracles and requests are a trace. `unquote`'s repair of broken UTF-8 is an oracle. `strip` knows ASCII white space only. Some exception classes are merged. |
| `AtpRemoteBlob`, `get_blob`, `list_blobs` | `BlobModel` | Entities are copied when read and written as a whole; responses are arguments; `lexrpc`'s MIME check, `mimetypes`, `int` on strings and pymediainfo are oracles; the clock is read once per request; URLs are ASCII. |
| caches of `did.py` (`cachetools.cached`, `TTLCache`) | `CacheModel` | The library is external; it is written out: lookup and store are atomic, entries in order of use with an expiry time. Time is an integer and does not go back. Every call passes the same `get_fn`. Callers do not change the documents they get, which are the objects in the cache. |

### Further files

Each row is a group of files with the same beginning of their names that has no row above.

| Files | About |
|---|---|
| `MstTree`, `MstRep`, `MstOps`, `MstTrav`, `MstShape`, `MstHist` | specification level trees, what MST objects represent, and the operations on them (C01-C13) |
| `Changed` | the keys that a diff says have changed (C14) |
| `Store`, `Exec`, `RepoSteps`, `RepoHist` | the block store, what storage operations compute, and histories of them |
| `Chain`, `Tell`, `Isolate` | C22, C28 and C58 without restrictions on histories |
| `Birth`, `Steady` | C28 for new repos; C22 and C28 for servers that take requests |
| `EventsHist`, `Scan`, `Stop` | commits and events of a history; scans while blocks are written (C53); scans that end with an error (C25, C53) |
| `Export`, `ServerList`, `ServerRecords`, `ServerSync` | CARs and lists that the server returns |
| `FireHonest`, `FireServe`, `FireWait`, `Stream`, `Relay` | the firehose over an honest storage, and from the storage to a consumer (C69) |
| `LiveStore`, `LiveMove`, `LiveServe` | storages that repos were moved to (C72) |
| `Decode` | bytes that are not the encoding of a value |

### Models of others

`ReplicaSpec.take` is a consumer of the firehose, as a relay or an AppView might be. It is part of the statement of C66 and not a model of arroba code.

`WarySpec.wary_client` is a client that checks the CIDs of the blocks of a CAR file, drops those that are wrong and loads the commit it knows with arroba's `Repo.load`. It is part of the statement of C70. (The model of `read_car`, used by `import_repo`, does not check CIDs; whether carbox does depends on its version.) How the client came to know the CID of the head is left open: that signatures cannot be forged is not modelled.

`AnySpec.v` puts the operations of `StorageModel.sstep`, the requests of `ServerModel.serve` and `ServerModel.import_repo` together in one step function (C71). Imports carry the answers of the DID resolver and of the signature check, so these may differ from one import to the next. C71 assumes that the blocks of imported CAR files have the CIDs they are under.

`LiveSpec.v` has several servers, each with its own validator, signature scheme, clock, storage and resolver, and the repos that are moved between them with getRepo and importRepo (C72). `hosts` says which states a server can get to and which keys and records its repos should have there. On a datastore the process may die: in the middle of a storage operation (after any write, as in `CrashModel`), or in a request or an import between the write of the blocks and the write of the repo's entity (`CrashModel.halfway`). The proofs use an invariant (`LiveProofs.live`) that is weaker than the one of the other files: it does not relate revs and sequence numbers, because imports break that (`C72_revs_refuted`).

### Not modelled

`new_key`, logging, the Flask/WebSocket transport, ndb contexts and caches, `AtpRemoteBlob.generate_metadata`, and the performance of anything.

### Premises

Where collision freedom of a digest, quiet callbacks, 32 byte digests or the inverse property of a point encoding are needed, they are premises of the theorem, and the example next to it meets them. C68 says what quiet callbacks leave out: what is stored does not depend on callbacks that raise, except during Repo.create.

C25_feed_stopped and C25_stopped_partial (StopModel.v, StopFacts.v, StopFeed.v) are about readings that end with an error of the storage, C25_resumed (ResumeProofs.v) about reading on after one.

C25_memory_any and C25_datastore_any (LogProofs.v) hold in every history of storage operations, with callbacks that raise and batches that fail halfway, and need nothing of `kdigest`. They say what is read back in two ways: the items are those of the commits and events in the storage (`logged`, by the shape of the stored values, without the log of the reader's proof), and each successful operation has its item. An operation that raised may have an item too, if its callback raised after the commit. That the root of the tree is among the stored blocks, which the reader needs, rests on MstSane.v: in every history a pointer that is not marked as outdated is that of the node's entries. C25_feed_memory and C25_feed_datastore (FeedProofs.v) extend them to servers that also take XRPC requests and imports. Their premise `unforged` says that no imported CAR has a block that is an event or a commit signed with one of the keys of the same server (an import of a repo's own export would have such commits; their numbers would be 0 and reading them is not covered).

C75 rests on an invariant of every history with operations, requests and imports (WholeProofs.v, `V`): every commit with a number has the whole tree of its root in the storage, a stored commit before it, and ops. It needs imported CARs to be whole (`whole_car`: with every node the nodes that it links to, and under the head commit a tree); without that it is false, since nodes are shared between repos. PreloadModel.v models what `Collector.run` does before its loop; the queries are those of C25. `message_told` says of a message what C35 says, without reference to the book of a server: lookups in the message's CAR are compared with lookups in the storage.

C69 joins the storage (C25), the messages and their consumer (C66) and the firehose machine (C31, C32). The two models are joined by the premise `streams`: the events of the firehose machine from the cursor on are exactly the messages of one reading of the storage, under an arbitrary coding of messages as event bodies. Left out: on the datastore, two readings of the same commit may give its blocks in different orders, so two subscribers may get messages with different bytes; the machine has one body for each event. Left out too: events that turn up out of order (C29 and C30 say what the collector does then). The events that C31 and C32 promise include those in the window when the subscriber connects.
