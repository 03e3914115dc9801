{"id": "C01", "title": "MST behaves as a finite map over any history", "statement": "Starting from an empty tree, after any sequence of add/update/delete calls, get(k) returns exactly the CID that the last successful add or update of k stored (None if k was never added or was last deleted). add fails with ValueError exactly when the key is already present or syntactically invalid; update raises ValueError exactly when the key is syntactically invalid and KeyError exactly when it is valid but absent; delete raises KeyError exactly when the key is absent. A failing call leaves the map unchanged. No call fails for any other reason.", "quantifier": "every finite sequence of add/update/delete/get with arbitrary keys and CIDs, every key-hash function (so every assignment of layers to keys)", "why_tests_cant": "The tree shape depends on the SHA-256 of every key; splits, merges, multi-layer creation and top trimming interact, and fixtures only exercise a few shapes.", "anchors": ["arroba/mst.py: MST.create, MST.add, MST.update, MST.delete, MST.delete_recurse, MST.get, MST.split_around, MST.append_merge, MST.replace_with_split, MST.trim_top"]}
{"id": "C02", "title": "MST root CID depends only on the contents", "statement": "Two trees holding the same key to CID mapping have the same root CID, whatever sequence of successful operations produced each of them, i.e. the root CID is the CID of the canonical tree for that mapping.", "quantifier": "every pair of histories (adds, updates, deletes in any order, trees reloaded from storage at any point) ending in the same mapping", "why_tests_cant": "Order independence is a statement about all permutations and all interleavings of deletes; tests shuffle a handful of samples.", "anchors": ["arroba/mst.py: MST.add, MST.delete, MST.trim_top, MST.get_layer, MST.new_tree, MST.get_pointer, MST.split_around, MST.append_merge"]}
{"id": "C03", "title": "Leaf traversal is complete and strictly ascending", "statement": "leaves() (and walk() filtered to leaves) yields every stored key exactly once with its current CID, in strictly ascending byte order of the keys.", "quantifier": "every tree reachable by any history of operations", "why_tests_cant": "Ordering violations only appear for particular interleavings of key order and key-hash layers.", "anchors": ["arroba/mst.py: MST.walk, MST.leaves, MST.leaf_count, MST.load_all"]}
{"id": "C04", "title": "Range and prefix listing are exact", "statement": "walk_leaves_from(k) yields exactly the stored entries with key >= k in ascending order, starting with k itself when k is stored; list(after, before) yields exactly the entries with after < key < before (no bound where the argument is missing); list_with_prefix(p) yields exactly the entries whose key starts with p.", "quantifier": "every reachable tree, every (present or absent) start key, bound and prefix", "why_tests_cant": "The boundary between subtree descent and sibling skipping depends on the tree shape; only a few start keys are tested.", "anchors": ["arroba/mst.py: MST.walk_leaves_from, MST.list, MST.list_with_prefix, MST.find_gt_or_equal_leaf_index"]}
{"id": "C05", "title": "Node (de)serialization round-trips", "statement": "Deserializing the serialized form of any node with well formed entries gives back exactly the same entries (keys reassembled from prefix compression, values, left and right subtree pointers); distinct nodes serialize to distinct node data.", "quantifier": "every list of entries with ascending leaf keys and no two adjacent subtrees", "why_tests_cant": "Prefix compression and the l/t pointer encoding have cases for every alternation of leaves and subtrees.", "anchors": ["arroba/mst.py: serialize_node_data, deserialize_node_data, common_prefix_len"]}
{"id": "C06", "title": "Structural invariant of the tree", "statement": "In every tree built by the API every leaf in a node at layer n has exactly n leading zero bit pairs in its key hash, subtrees sit exactly one layer below their parent, no node has two adjacent subtrees, keys are in ascending order across the whole tree and no non-root node is empty.", "quantifier": "every reachable tree and every node in it", "why_tests_cant": "The invariant ranges over all key sets and all hash assignments.", "anchors": ["arroba/mst.py: MST.add, MST.delete, MST.split_around, MST.append_merge, layer_for_entries, leading_zeros_on_hash"]}
{"id": "C07", "title": "Persisting and reloading a tree loses nothing", "statement": "If the blocks returned by get_unstored_blocks are written to storage, then loading a tree by the returned root CID gives a tree with the same contents, on which every later operation behaves as on the original; the returned root equals get_pointer().", "quantifier": "every reachable tree, including trees that share stored subtrees with earlier versions", "why_tests_cant": "Which nodes are missing from storage depends on the whole write history.", "anchors": ["arroba/mst.py: MST.get_unstored_blocks, MST.load, MST.get_entries, MST.get_pointer"]}
{"id": "C08", "title": "The root CID commits to the contents", "statement": "Two reachable trees with the same root CID hold exactly the same key to CID mapping.", "quantifier": "every pair of reachable trees (hash collisions idealised away)", "why_tests_cant": "Injectivity of a serialization cannot be established by examples.", "anchors": ["arroba/mst.py: MST.get_pointer, cid_for_entries, serialize_node_data", "arroba/util.py: dag_cbor_cid"]}
{"id": "C09", "title": "Key validation accepts exactly collection/rkey keys", "statement": "add and update accept a key iff it has at most 256 characters and consists of exactly two non-empty segments separated by one slash, each made only of letters, digits, underscore, dash, colon and dot.", "quantifier": "every string", "why_tests_cant": "The language is infinite and regex anchoring/limits are easy to get wrong.", "anchors": ["arroba/mst.py: ensure_valid_key, MST.add, MST.update"]}
{"id": "C10", "title": "Key height counts leading zero bit pairs", "statement": "leading_zeros_on_hash returns exactly the number of consecutive leading zero two-bit groups of the digest, between 0 and 128 for a 32 byte digest.", "quantifier": "every digest", "why_tests_cant": "The byte-threshold cascade has boundaries at 64, 16, 4, 1; fixtures hit only some of them.", "anchors": ["arroba/mst.py: leading_zeros_on_hash"]}
{"id": "C11", "title": "cids_for_path returns the authenticated path", "statement": "cids_for_path(k) starts with the root CID and lists the CIDs of the nodes on the search path of k from the root down, each referenced by the previous one, followed by the value CID iff k is stored.", "quantifier": "every reachable tree and every key, present or absent", "why_tests_cant": "Depends on tree shape for all keys.", "anchors": ["arroba/mst.py: MST.cids_for_path"]}
{"id": "C12", "title": "Covering proofs contain the search path of every changed key", "statement": "The blocks returned by add_covering_proofs for a commit include, for every operation path, every node visited when looking that path up in the new tree; so a consumer holding only these blocks gets the same answer as the server for each changed path, present or absent.", "quantifier": "every stored tree and every list of operations", "why_tests_cant": "Needs all tree shapes and all op lists, including deletes whose neighbours were merged.", "anchors": ["arroba/mst.py: MST.add_covering_proofs", "arroba/firehose.py: process_event"]}
{"id": "C13", "title": "Old roots stay readable", "statement": "Once a tree has been written, any later operation and any later writes to storage leave the old root CID loadable with exactly its old contents.", "quantifier": "every stored tree and every later sequence of writes", "why_tests_cant": "Ranges over all futures of the store.", "anchors": ["arroba/storage.py: MemoryStorage.write_blocks, MemoryStorage.read", "arroba/mst.py: MST.load"]}
{"id": "C14", "title": "Diff reports exactly the key changes", "statement": "The diff of current against previous lists as adds exactly the keys present only in current (with their CID), as deletes exactly the keys present only in previous (with their old CID) and as updates exactly the keys present in both with different CIDs (with old and new CID), so applying it to the previous contents gives the current contents.", "quantifier": "every pair of trees", "why_tests_cant": "The dual walker skips shared subtrees and has about ten alignment cases; random tests rarely hit combinations of differing layers.", "anchors": ["arroba/diff.py: mst_diff, null_diff, Diff, Diff.of", "arroba/mst.py: Walker"]}
{"id": "C15", "title": "Diff block sets are sufficient", "statement": "Every node and record CID of the current tree that is not a node of the previous tree or an unchanged record is in new_cids, and no CID reported in removed_cids is still a node of the current tree.", "quantifier": "every pair of trees", "why_tests_cant": "Depends on sharing between two arbitrary trees.", "anchors": ["arroba/diff.py: mst_diff, Diff.record_new_cid, Diff.record_removed_cid"]}
{"id": "C16", "title": "Merging diffs composes them", "statement": "d1.add_diff(d2), where d1 takes contents A to B and d2 takes B to C, describes the change from A to C.", "quantifier": "every A, B, C", "why_tests_cant": "There are nine combinations of change kinds per key and equality corner cases.", "anchors": ["arroba/diff.py: Diff.add_diff, Diff.record_add, Diff.record_update, Diff.record_delete"]}
{"id": "C17", "title": "Sequence numbers are unique and increasing", "statement": "Successive allocations for one NSID return strictly consecutive numbers starting at 1, allocations for other NSIDs do not interfere, and last() returns the last allocated number (None if none).", "quantifier": "every interleaving of allocate and last over any set of NSIDs", "why_tests_cant": "Ranges over all histories.", "anchors": ["arroba/storage.py: MemorySequences", "arroba/datastore_storage.py: DatastoreSequences"]}
{"id": "C18", "title": "A repo is a map of records", "statement": "After any sequence of commits, get_record(collection, rkey) returns exactly the last committed record for that path (None if absent or deleted) and get_contents returns exactly all of them; the same is true of a Repo loaded from the head commit CID.", "quantifier": "every sequence of commits with arbitrary writes, successful or failing, any number of repos in one storage", "why_tests_cant": "Composition of MST, block storage and commit logic over unbounded histories.", "anchors": ["arroba/storage.py: Storage.commit, Storage._commit", "arroba/repo.py: Repo.get_record, Repo.get_contents, Repo.load"]}
{"id": "C19", "title": "A failing commit changes nothing", "statement": "If commit raises, the contents of the repo, its head and the stored blocks are the same as before, both as seen through the repo object and after reloading; only sequence numbers are consumed.", "quantifier": "every repo state and every list of writes, failing at any position", "why_tests_cant": "Needs every failure position in every batch.", "anchors": ["arroba/storage.py: Storage.commit, Storage._commit", "arroba/datastore_storage.py: DatastoreStorage._commit"]}
{"id": "C20", "title": "Commit operations describe the commit exactly", "statement": "The ops of a commit list the effective writes in order with path, new CID and previous CID; replaying them on the contents before the commit, each prev_cid matching the value at that point, gives the contents after the commit.", "quantifier": "every commit on every reachable repo", "why_tests_cant": "Batches may touch the same path several times.", "anchors": ["arroba/storage.py: Storage._commit, CommitOp"]}
{"id": "C21", "title": "No-op updates produce no op", "statement": "An update whose record equals the stored record contributes no op and no change, and every update op in a commit has a CID different from its prev_cid.", "quantifier": "every reachable repo and every batch", "why_tests_cant": "Equality is by CID after earlier writes of the same batch.", "anchors": ["arroba/storage.py: Storage._commit"]}
{"id": "C22", "title": "The commit chain is well formed", "statement": "Every commit names the repo DID, version 3, the CID of the current tree root, the CID of the previous head as prev (None for the first) and a rev which encodes its sequence number, and carries a signature made by the repo key; along the chain from the head revs strictly decrease and every commit is readable from storage.", "quantifier": "every repo reachable by any sequence of operations on any number of repos; for transactions also every interleaving", "why_tests_cant": "Chain properties quantify over whole histories; rev monotonicity also over schedules.", "anchors": ["arroba/storage.py: Storage._commit", "arroba/util.py: sign, int_to_tid"]}
{"id": "C23", "title": "Inactive repos accept no writes", "statement": "commit on a repo whose stored status is deactivated or tombstoned raises InactiveRepo and changes neither the contents, the head nor the blocks.", "quantifier": "every reachable storage state, every handle to the repo (including handles loaded earlier), every list of writes", "why_tests_cant": "Depends on the history of status changes and on stale handles.", "anchors": ["arroba/storage.py: Storage.commit, InactiveRepo", "arroba/datastore_storage.py: DatastoreStorage._commit"]}
{"id": "C24", "title": "Account status life cycle", "statement": "deactivate_repo, activate_repo and tombstone_repo set the stored status as documented, each emits exactly one account or tombstone event with the right active/status fields, calls that are documented no-ops change nothing, and a tombstoned repo is never active again.", "quantifier": "every sequence of status calls on any repos", "why_tests_cant": "Irreversibility is a statement about all later histories.", "anchors": ["arroba/storage.py: Storage.deactivate_repo, Storage.activate_repo, Storage.tombstone_repo, Storage.write_event"]}
{"id": "C25", "title": "The event log is complete, ordered and faithful", "statement": "read_events_by_seq(start) yields, in strictly ascending sequence order, exactly one item per commit and per event written with sequence number >= start, and each commit item carries the commit block, its ops, its prev and all blocks first written by that commit plus the record blocks of its ops; filtering by repo yields exactly that repo's items.", "quantifier": "every history of commits and events on any repos, every start", "why_tests_cant": "Grouping by sequence number depends on block order, deduplication and preexisting blocks.", "anchors": ["arroba/storage.py: Storage.read_events_by_seq, Storage.write_event, MemoryStorage.read_blocks_by_seq"]}
{"id": "C26", "title": "Writing blocks never loses or rewrites content", "statement": "write/write_blocks make every given block readable under its CID; a block that is already stored keeps its content, its sequence number and its repo; nothing is ever removed; has/read/read_many agree.", "quantifier": "every sequence of writes and reads", "why_tests_cant": "Immutability ranges over all later writes.", "anchors": ["arroba/storage.py: MemoryStorage.write, MemoryStorage.write_blocks, MemoryStorage.read_many, MemoryStorage.has"]}
{"id": "C27", "title": "Batched memcache sequence allocation never repeats a number", "statement": "Across any number of processes allocating through memcache with batches reserved in the datastore, no sequence number is handed out twice and every number handed out is below the reserved maximum.", "quantifier": "every interleaving of the individual memcache and datastore steps of any number of allocators, with evictions of the counter at any time", "why_tests_cant": "Concurrency and eviction schedules cannot be enumerated by tests.", "anchors": ["arroba/datastore_storage.py: MemcacheSequences.allocate, MemcacheSequences.alloc_batch, MemcacheSequences.last"]}
{"id": "C28", "title": "Every allocated sequence number is accounted for", "statement": "For each commit or event that allocates a sequence number, either an item with that number appears in the log and the callback receives it, or the callback is told that the number is lost; never both and never neither.", "quantifier": "every sequence of commits and events, failing anywhere", "why_tests_cant": "Needs all failure points.", "anchors": ["arroba/storage.py: Storage.commit, Storage.write_event", "arroba/firehose.py: mark_seq_lost"]}
{"id": "C29", "title": "The firehose emits strictly increasing sequence numbers", "statement": "Once started, the collector never emits an event whose sequence number is not greater than all it emitted before, and emits no event twice.", "quantifier": "every storage history, every arrival order of commits, every timing, every set of lost numbers", "why_tests_cant": "Depends on schedules, timeouts and gaps.", "anchors": ["arroba/firehose.py: Collector._collect, Collector.run"]}
{"id": "C30", "title": "The firehose waits for out of order events", "statement": "The collector skips a missing sequence number only if it was reported lost, or more than the configured window of later numbers has been allocated, or at least the configured delay has passed since the gap was first noticed.", "quantifier": "every schedule and clock", "why_tests_cant": "Time dependent behaviour over all schedules.", "anchors": ["arroba/firehose.py: Collector._collect, mark_seq_lost"]}
{"id": "C31", "title": "A subscriber receives each event exactly once, in order", "statement": "A subscriber with cursor c not above the last event receives every event with seq >= c that is available, exactly once and in order, through the transitions storage, rollback window, live; without cursor it gets exactly the events emitted after it subscribed.", "quantifier": "every schedule of the collector and one subscriber, every rollback window size", "why_tests_cant": "The handover races with the collector.", "anchors": ["arroba/firehose.py: subscribe, Collector._collect"]}
{"id": "C32", "title": "Concurrent subscribers do not disturb each other", "statement": "The exactly-once in-order guarantee holds for every subscriber whatever other subscribers do concurrently.", "quantifier": "every interleaving of any number of subscribers and the collector", "why_tests_cant": "Interleavings.", "anchors": ["arroba/firehose.py: subscribe"]}
{"id": "C33", "title": "Live fan-out", "statement": "Every event emitted by the collector is delivered to every subscriber registered at that moment and added to the rollback window, which always holds the latest emitted events in order and never more than its maximum size.", "quantifier": "every schedule of subscribe/unsubscribe/emit", "why_tests_cant": "Interleavings.", "anchors": ["arroba/firehose.py: Collector._collect, subscribe"]}
{"id": "C34", "title": "Cursor validation", "statement": "A cursor above the latest sequence number yields exactly one FutureCursor error and closes the stream; a cursor before the rollback window yields an OutdatedCursor info message followed by the stream; other cursors yield the stream; a missing cursor gives live events only.", "quantifier": "every cursor and every server state", "why_tests_cant": "Boundary comparisons over all states.", "anchors": ["arroba/firehose.py: subscribe", "arroba/xrpc_sync.py: subscribe_repos"]}
{"id": "C35", "title": "Firehose commit messages are faithful", "statement": "The commit message for a commit has its repo, rev, seq, commit CID, since and prevData equal to the rev and tree root of the previous commit, its ops equal to the commit ops with prev for updates and deletes, and a CAR rooted at the commit which contains the commit block, all new blocks, the op records and the covering proofs of the ops.", "quantifier": "every commit of every reachable repo", "why_tests_cant": "Needs all commit shapes.", "anchors": ["arroba/firehose.py: process_event"]}
{"id": "C36", "title": "listRecords pagination enumerates the collection", "statement": "Following cursors from the first page (or reversed) returns every record of the collection, in order, and terminates, for every page size.", "quantifier": "every repo content, every limit >= 1", "why_tests_cant": "Off-by-one behaviour at every page boundary and limit.", "anchors": ["arroba/xrpc_repo.py: list_records"]}
{"id": "C37", "title": "listRepos pagination enumerates the repos", "statement": "Following cursors from the first page returns every repo exactly once, in DID order, and terminates.", "quantifier": "every set of repos, every limit >= 1", "why_tests_cant": "Every page boundary.", "anchors": ["arroba/xrpc_sync.py: list_repos", "arroba/storage.py: MemoryStorage.load_repos", "arroba/datastore_storage.py: DatastoreStorage.load_repos"]}
{"id": "C38", "title": "Writes require the configured token", "statement": "Every mutating XRPC method either fails without changing any state or was called with the exact configured bearer token.", "quantifier": "every request (headers, body) and every configuration", "why_tests_cant": "Negative property over all headers.", "anchors": ["arroba/server.py: auth", "arroba/xrpc_repo.py: create_record, put_record, delete_record, import_repo"]}
{"id": "C39", "title": "XRPC record methods refine the repo map", "statement": "createRecord then getRecord returns the record, putRecord creates or replaces, deleteRecord removes and is idempotent, each returning the AT URI and the CID of the record; getRecord fails with RecordNotFound exactly when the record is absent or its CID differs from the requested one.", "quantifier": "every reachable server state and every request", "why_tests_cant": "Histories of requests.", "anchors": ["arroba/xrpc_repo.py: create_record, get_record, delete_record, put_record"]}
{"id": "C40", "title": "getRepo exports the whole repo", "statement": "getRepo without since returns a CAR rooted at the head containing the head commit, every node and every record of the repo; with since=rev it contains every such block first written after that commit, so that a consumer who has everything up to that commit has everything.", "quantifier": "every reachable repo and every earlier rev", "why_tests_cant": "Depends on deduplication of blocks across commits and repos.", "anchors": ["arroba/xrpc_sync.py: get_repo", "arroba/mst.py: MST.load_all"]}
{"id": "C41", "title": "getRecord returns a proof of the record", "statement": "sync.getRecord returns a CAR rooted at the head with the record, the head commit and the tree nodes on the path to the record.", "quantifier": "every reachable repo and record", "why_tests_cant": "Depends on tree shape.", "anchors": ["arroba/xrpc_sync.py: get_record", "arroba/mst.py: MST.add_covering_proofs"]}
{"id": "C42", "title": "getBlocks returns exactly the requested blocks", "statement": "getBlocks returns the requested blocks if all are stored and otherwise fails with BlockNotFound, and rejects malformed CIDs.", "quantifier": "every list of CIDs and store", "why_tests_cant": "All subsets.", "anchors": ["arroba/xrpc_sync.py: get_blocks"]}
{"id": "C43", "title": "Repo status reporting", "statement": "getRepoStatus, listRepos and the RepoDeactivated/RepoNotFound errors of the sync and repo methods agree with the stored status.", "quantifier": "every reachable state", "why_tests_cant": "Agreement of several endpoints over all histories.", "anchors": ["arroba/xrpc_sync.py: get_repo_status, list_repos", "arroba/server.py: load_repo"]}
{"id": "C44", "title": "TIDs round-trip and sort like the numbers they encode", "statement": "int_to_tid and tid_to_int are inverse (and so are the datetime variants at microsecond resolution) and the string order of TIDs with the same clock id is the numeric order of the encoded values.", "quantifier": "every non-negative integer below 2^53 (above: exactly where it breaks) and every clock id", "why_tests_cant": "Encoding boundaries.", "anchors": ["arroba/util.py: int_to_tid, tid_to_int, datetime_to_tid, tid_to_datetime, s32encode, s32decode"]}
{"id": "C45", "title": "next_tid returns strictly increasing TIDs", "statement": "Successive next_tid calls return strictly increasing TIDs even when the clock stalls or runs backwards.", "quantifier": "every clock behaviour; every interleaving of threads", "why_tests_cant": "Clock and thread schedules.", "anchors": ["arroba/util.py: next_tid"]}
{"id": "C46", "title": "AT URIs round-trip", "statement": "parse_at_uri inverts at_uri for every valid DID, collection and rkey, and parse_at_uri rejects every string that is not an AT URI.", "quantifier": "every string", "why_tests_cant": "Regex over all strings.", "anchors": ["arroba/util.py: at_uri, parse_at_uri"]}
{"id": "C47", "title": "Signing and verification agree", "statement": "verify_sig accepts every object signed by sign with the matching key and rejects it when any field was changed; signatures have low S; signing does not change any other field.", "quantifier": "every object, key and nonce (ECDSA idealised by its algebraic specification)", "why_tests_cant": "All objects; S is random.", "anchors": ["arroba/util.py: sign, verify_sig, apply_low_s_mitigation"]}
{"id": "C48", "title": "did:key encoding round-trips", "statement": "decode_did_key inverts encode_did_key for every supported curve and key, and rejects other prefixes.", "quantifier": "every public key", "why_tests_cant": "Base58 leading zero and length corner cases.", "anchors": ["arroba/did.py: encode_did_key, decode_did_key"]}
{"id": "C49", "title": "A PLC operation and its DID document agree", "statement": "The DID document generated from a PLC operation yields back, through get_handle and get_signing_key, the handle and signing key in the operation.", "quantifier": "every operation", "why_tests_cant": "All field combinations.", "anchors": ["arroba/did.py: plc_operation_to_did_doc, get_handle, get_signing_key"]}
{"id": "C50", "title": "PLC updates chain correctly", "statement": "Each PLC operation written by create_plc/update_plc/rollback_plc is signed, names the CID of the operation it follows as prev (None for creation), keeps every field that the caller did not change, and a DID depends only on the signed genesis operation.", "quantifier": "every directory log and every argument combination", "why_tests_cant": "All histories of a DID.", "anchors": ["arroba/did.py: write_plc, update_plc, rollback_plc, write_plc_operation"]}
{"id": "C51", "title": "Lease gives mutual exclusion", "statement": "At most one process holds an unexpired lease at any time, and releasing never removes a lease acquired by another process.", "quantifier": "every interleaving of acquire/release steps and every clock", "why_tests_cant": "Schedules and clocks.", "anchors": ["arroba/memcache.py: Lease.acquire, Lease.release"]}
{"id": "C52", "title": "Block encoding is faithful and canonical", "statement": "Decoding the DAG-CBOR encoding of a value gives the value back, equal maps encode to the same bytes whatever their insertion order, so a Block has one CID determined by its decoded value, and two blocks with equal CIDs have equal values.", "quantifier": "every IPLD value", "why_tests_cant": "Infinite value space.", "anchors": ["arroba/storage.py: Block", "arroba/util.py: dag_cbor_cid"]}
{"id": "C53", "title": "The datastore sequence scan survives restarts", "statement": "read_blocks_by_seq yields every block with seq >= start exactly once in seq order, even if the underlying query dies with a context error any number of times.", "quantifier": "every set of blocks, every failure pattern of the query", "why_tests_cant": "Failure patterns.", "anchors": ["arroba/datastore_storage.py: DatastoreStorage.read_blocks_by_seq"]}
{"id": "C54", "title": "Blobs are validated before being referenced", "statement": "get_or_create returns a blob only if its MIME type matches the accept list, its size is within the limit and its CID is that of the fetched content, and cached blobs are subject to the same checks.", "quantifier": "every HTTP response and every cached state", "why_tests_cant": "All headers, sizes and cache states.", "anchors": ["arroba/datastore_storage.py: AtpRemoteBlob.get_or_create, AtpRemoteBlob.maybe_fetch, AtpRemoteBlob.validate"]}
{"id": "C55", "title": "importRepo restores the exported repo", "statement": "Importing a CAR exported by getRepo makes a repo whose contents and head are those exported, or fails leaving no repo.", "quantifier": "every exported repo and every malformed CAR", "why_tests_cant": "All repos.", "anchors": ["arroba/xrpc_repo.py: import_repo"]}
{"id": "C56", "title": "did:web resolution builds the right URL", "statement": "resolve_web accepts exactly domain-only did:webs and fetches https://<domain>/.well-known/did.json, and never any other host. resolve sends each DID to the resolver of its method and returns the document that was fetched.", "quantifier": "every string", "why_tests_cant": "Injection through unusual DIDs.", "anchors": ["arroba/did.py: resolve_web"]}
{"id": "C57", "title": "Commit limits are enforced before any effect", "statement": "A commit with more than 200 writes, or containing a create or update of a record whose encoding exceeds one million bytes, raises ValueError and stores nothing; smaller ones are not rejected for size.", "quantifier": "every list of writes", "why_tests_cant": "Exact boundaries for all inputs.", "anchors": ["arroba/storage.py: Storage._commit, MAX_OPERATIONS_PER_COMMIT, MAX_RECORD_SIZE_BYTES"]}
{"id": "C58", "title": "Repos are isolated from each other", "statement": "Committing to, or changing the status of, one repo never changes the contents, head or status of another repo in the same storage.", "quantifier": "every history over any number of repos", "why_tests_cant": "Blocks are shared by CID between repos.", "anchors": ["arroba/storage.py: Storage.commit, MemoryStorage"]}
{"id": "C59", "title": "Failures do not stop the firehose", "statement": "Whatever exception the storage or the processing of an event raises, the collector goes on collecting from the event it was at, and no subscriber waits forever because of it.", "quantifier": "every moment at which reading or processing fails", "why_tests_cant": "Failures can come at any moment of any schedule.", "anchors": ["arroba/firehose.py: Collector.run, Collector._collect"]}
{"id": "C60", "title": "Handle resolution", "statement": "resolve_handle accepts exactly the handles of the AT Protocol syntax, asks for nothing but the TXT record of _atproto.<handle> and, if that gives no DID, https://<handle>/.well-known/atproto-did, and returns the DID that the first of the two to name one gives, and None when neither does.", "quantifier": "all strings, all DNS and HTTP answers", "why_tests_cant": "The strings that a regular expression accepts cannot be enumerated, and neither can the answers of other hosts.", "anchors": ["arroba/did.py: HANDLE_RE, resolve_handle"]}
{"id": "C61", "title": "getBlob", "statement": "getBlob redirects only to the URL of an active blob whose content has the requested CID, and fails if there is none.", "quantifier": "all stores, CIDs, times and responses", "why_tests_cant": "What a URL serves can change between any two requests.", "anchors": ["arroba/xrpc_sync.py: get_blob", "arroba/datastore_storage.py: AtpRemoteBlob.maybe_fetch"]}
{"id": "C62", "title": "listBlobs", "statement": "Following the cursors of listBlobs yields the CID of every blob fetched for the repo exactly once per URL, and those of no other repo's blobs.", "quantifier": "all stores, repos, page sizes and interleavings of requests", "why_tests_cant": "Page boundaries and interleavings of requests are unbounded.", "anchors": ["arroba/xrpc_sync.py: list_blobs", "arroba/datastore_storage.py: AtpRemoteBlob.get_or_create"]}
{"id": "C63", "title": "Concurrent commits to a repo are serialised", "statement": "However threads and processes interleave and however often the datastore aborts transactions, the successful commits to a repo form one chain: each builds on the head and records its predecessor left, no update is lost, failed calls change nothing that is seen, revs increase along the chain, and the event stream shows exactly the chain's commits.", "quantifier": "all histories, any number of threads, all interleavings of calls, transaction steps, aborts and status changes", "why_tests_cant": "The interleavings and aborts are unbounded, and races only show in particular ones.", "anchors": ["arroba/storage.py: Storage.commit, Storage._commit", "arroba/datastore_storage.py: DatastoreStorage._commit, load_repo, store_repo, write_blocks, _set_repo_status"]}
{"id": "C64", "title": "Service tokens are valid and say what they should", "statement": "Every token service_jwt returns has three dot separated base64url parts: a header, claims, and a 64 byte low-S signature of the first two that verifies with the repo's key. The claims have the given extra ones, and iss, aud, alg and exp as documented unless given. It fails exactly when host, DID or expiration is empty. The signature does not verify for another header or other claims, up to hash collisions.", "quantifier": "all keys, nonces, hosts, DIDs, audiences, times, expirations and claims", "why_tests_cant": "High-S signatures and padding depend on random nonces and on lengths; tests only try a few.", "anchors": ["arroba/util.py: service_jwt, apply_low_s_mitigation"]}
{"id": "C65", "title": "Sessions are only for those who know the password", "statement": "createSession gives a session for the repo the identifier names, and only to who knows its password; a session's token allows to write to its own repo only. getSession and refreshSession only answer requests with a token, about its repo, and change nothing.", "quantifier": "all server states, identifiers, passwords, headers and configurations", "why_tests_cant": "It is about all requests of all callers in all states.", "anchors": ["arroba/xrpc_server.py: create_session, get_session, refresh_session", "arroba/server.py: auth"]}
{"id": "C66", "title": "Applying the firehose gives the repos", "statement": "A consumer that has the repos as of some sequence number, reads the events from the next number on, and applies the messages with nothing else to go by - checking every block's CID, that the ops and prevData fit its copy, and that the new tree root shows the result of every op - never has to refuse a message and ends with the tree roots and records of all repos.", "quantifier": "all histories of any number of repos, with XRPC requests in between (callbacks do not raise; in memory, no batch fails halfway), both storages, all numbers at which an operation ended, all orders and interruptions of the queries", "why_tests_cant": "It relates all histories, all places to resume, and four modules at once: repo, storage, covering proofs and messages.", "anchors": ["arroba/firehose.py: process_event", "arroba/storage.py: read_events_by_seq", "arroba/repo.py: format_commit"]}
{"id": "C67", "title": "The datastore keeps blocks as they are", "statement": "AtpBlock entities, whose ids are the base32 texts of CIDs, behave like a dictionary of blocks by CID: reading a CID gives the block first written for it with the same CID, content, sequence number and commit ops, and no block for other CIDs; and blocks that were read can be written again.", "quantifier": "all storages reached by writes, all lists of blocks with different CIDs, all objects, all ops and CIDs", "why_tests_cant": "There are 2^256 CIDs; no two may share an id and each has to be read back from its text.", "anchors": ["arroba/datastore_storage.py: AtpBlock.to_block, AtpBlock.from_block, AtpBlock.create, DatastoreStorage.write_blocks, DatastoreStorage.read"]}
{"id": "C68", "title": "Raising callbacks do not affect what is stored", "statement": "If the callback of a repo raises, whatever it raises and however often, then the sequence, the blocks, the repos with their heads, trees and statuses, and the messages that callbacks are given are the same as if it had returned; the operation raises the exception of the callback and nothing else is different.", "quantifier": "all histories of operations on both storages, all behaviours of callbacks (which calls raise what)", "why_tests_cant": "Any of the calls in a history may raise, in any combination, including the notice of a lost number in reaction to an exception.", "anchors": ["arroba/storage.py: Storage.commit, Storage.write_event, Storage.deactivate_repo, Storage.activate_repo, Storage.tombstone_repo", "arroba/repo.py: Repo.create"]}
{"id": "C69", "title": "A subscriber that applies the stream has the repos", "statement": "If events turn up in the storage in the order of their numbers and reads do not pass over events, then what the collector has taken up has no gaps. A subscriber who connects with a cursor, is not disturbed and does not fall behind has, once the collector is up to date and its queue is empty, got every event of the storage from its cursor on, each once and in order. A consumer who had copies of the repos when the number of the cursor was next, and applies these messages, has copies of the repos as they are now.", "quantifier": "all histories of operations and XRPC requests on both storages, all interleavings of writers, collector and subscriber that meet the stated conditions, all cursors among the numbers of which one has been collected, all window sizes above zero", "why_tests_cant": "It ranges over all interleavings of writes, the polling collector, rollback queries and the hand-over from rollback to live events, combined with all histories of commits.", "anchors": ["arroba/firehose.py: Collector._collect, subscribe", "arroba/storage.py: Storage.read_events_by_seq", "arroba/firehose.py: process_event"]}
{"id": "C70", "title": "Blocks from anyone cannot lie about a repo", "statement": "A client that knows the CID of a tree's root, or of a repo's head commit, and takes blocks from any source, keeping only those whose bytes have the CID they come under, gets from each reading method of the tree and of the repo the answer that the owner of the tree or repo gets at that commit, or an error. Missing, exchanged and added blocks cannot make it read a wrong record, miss a record in the contents or see one that is not there. With the CAR file that getRepo returns, it gets all the answers without errors.", "quantifier": "all trees reached by any operations, all histories of operations on both storages, all CAR files whatever is in them, all keys and records, all digests without collisions", "why_tests_cant": "It ranges over all files an adversary might send, and over all trees; a test can only try some ways to tamper.", "anchors": ["arroba/mst.py: MST.load, MST.get, MST.leaves, MST.list, MST.list_with_prefix, MST.cids_for_path", "arroba/repo.py: Repo.load, Repo.get_record, Repo.get_contents", "arroba/xrpc_sync.py: get_repo"]}
{"id": "C71", "title": "Imports and requests leave other repos alone", "statement": "On a server that takes operations on its storage, XRPC requests and importRepo uploads in any order, also if some fail halfway, callbacks raise, or the CAR files are not complete: each of them changes at most the repo it is about (the repo the operation's Repo object or the request's repo parameter belongs to, or the DID in the head commit of the CAR). What a load of any other DID gives stays as it was, with its status, head and records, and so does what every Repo object held for it shows; a DID without a repo stays without one.", "quantifier": "all sequences of storage operations, requests and imports with any inputs on both storages, all DIDs, all callbacks, all CAR files whose blocks have the CIDs they are under, all answers of the DID resolver and of signature checks", "why_tests_cant": "It is about every interleaving of three kinds of calls with every input, including failures at any point; blocks are shared between repos, so that interference would need particular coincidences of content.", "anchors": ["arroba/xrpc_repo.py: import_repo, create_record, put_record, delete_record, get_record", "arroba/storage.py: Storage.commit, MemoryStorage", "arroba/datastore_storage.py: DatastoreStorage.write_blocks, DatastoreStorage.create_repo", "arroba/repo.py: Repo.create"]}
{"id": "C72", "title": "Repos can be moved to a server and live on there", "statement": "A server takes the repo that getRepo gave on another server, through importRepo, exactly if the request is allowed, it does not have that repo, and the head commit is signed with the key in the DID document. Afterwards the repo is there, deactivated, with the same head and the same records. All that holds for repos created on the server holds for it from then on: after it is activated, commits and XRPC requests succeed exactly when the records and the status allow it and have the effect that they should have, other repos stay as they were, and getRepo gives a CAR with exactly the blocks of its head from which its records can be read, so that it can be moved on to a further server. The revs of its commits go on rising.", "quantifier": "all networks of servers with any validators, clocks, callbacks that do not raise, storages, configurations and resolvers; all histories of storage operations, requests, exports and imports between them; all repos and records; all digests of 32 bytes without collisions", "why_tests_cant": "It is about all histories of several servers at once, with writes before, between and after any number of moves; which blocks a server has already depends on everything that happened on it before.", "anchors": ["arroba/xrpc_repo.py: import_repo, create_record, put_record, delete_record, get_record", "arroba/xrpc_sync.py: get_repo, list_repos", "arroba/repo.py: Repo.load, Repo.format_commit, Repo.apply_writes", "arroba/storage.py: Storage.commit, Storage.activate_repo", "arroba/mst.py: MST.load_all"]}
{"id": "C73", "title": "In memory sequence numbers with several threads", "statement": "Threads that allocate sequence numbers from the same MemorySequences at the same time never get the same number, the numbers handed out are 1, 2, 3, ... without gaps, and the counter never goes back.", "quantifier": "all numbers of threads and all interleavings of the dict operations of allocate", "why_tests_cant": "A test sees the few interleavings that the scheduler happens to choose.", "anchors": ["arroba/storage.py: MemorySequences.allocate"]}
{"id": "C74", "title": "Cached resolution of DIDs and handles", "statement": "Calls of resolve_plc, resolve_web and resolve_handle from any number of threads return for each argument only what the function itself gave for this very argument, stored less than six hours before. An exception is raised in the call that got it and is not remembered, and neither is a failure to resolve. Once a call has made its requests and stored its result, no call for the same argument within six hours of its beginning makes any, as long as no more than 5000 different arguments are used. No cache ever has more than 5000 entries.", "quantifier": "all numbers of threads, all interleavings of their lookups, requests and stores, all times at which they happen, all answers of the network over time", "why_tests_cant": "Tests clear the caches or use each argument once. Expiry, eviction and races between lookup and store depend on schedules and clocks that tests do not control.", "anchors": ["arroba/did.py: resolve_plc", "arroba/did.py: resolve_web", "arroba/did.py: resolve_handle"]}
{"id": "C75", "title": "The firehose can tell every commit", "statement": "Whatever repos a server creates, writes to or imports, every commit and event in its storage can be made into a firehose message that says what C35 asks for, and when the firehose starts it loads the last PRELOAD_WINDOW of them, in order, without raising. So no repo can stop the firehose for the others.", "quantifier": "all sequences of storage operations, XRPC requests and imports, both storages, all windows, all orders and failures of the queries", "why_tests_cant": "A commit that cannot be told depends on blocks that another repo brought along in an earlier import, and shows only when the collector reads it, perhaps after a restart.", "anchors": ["arroba/firehose.py: Collector.run", "arroba/firehose.py: process_event", "arroba/storage.py: read_events_by_seq", "arroba/xrpc_repo.py: import_repo"]}
{"id": "C76", "title": "A server tells the newest commit of each repo", "statement": "getHead and getLatestCommit give CID and rev of the newest commit of the repo: the one from which exactly the records are found that were written to it, the one the last successful commit made, and the root of getRepo's CAR. describeRepo gives its DID, handle and document, and its collections: the supported ones in order, or else exactly those that have records.", "quantifier": "every server with repos created there or moved there from other servers, after any storage operations and XRPC requests, both storages", "why_tests_cant": "Tests look at one fresh repo; the head of a repo object, the stored head and the head in the CAR could differ after moves, stale handles or failed commits.", "anchors": ["arroba/xrpc_sync.py: get_head", "arroba/xrpc_sync.py: get_latest_commit", "arroba/xrpc_repo.py: describe_repo", "arroba/repo.py: Repo.get_contents"]}
{"id": "C77", "title": "Trees compare and count by their records", "statement": "Two trees are equal exactly if they hold the same keys with the same CIDs, whatever calls made them. leaf_count is the number of records. all_nodes gives the tree itself, every record once in key order, and every node of the tree once.", "quantifier": "all histories of calls on each of the two trees, including writing out and reloading", "why_tests_cant": "Tests compare a few trees built by adds; whether equality follows the contents depends on the shapes deletes and reloads leave behind.", "anchors": ["arroba/mst.py: MST.__eq__", "arroba/mst.py: MST.leaf_count", "arroba/mst.py: MST.all_nodes", "arroba/mst.py: MST.walk"]}
{"id": "C78", "title": "What a repo names stays readable", "statement": "At any time the tree of every repo can be read throughout, its head commit is stored, and every record it names is stored: get_record gives the record for the paths in the tree, None for every other, and never raises. The same holds for every commit the server ever made.", "quantifier": "every server after any storage operations, XRPC requests and imports, whatever of them failed and whatever callbacks raised, both storages", "why_tests_cant": "Tests read back records after successful commits; a block that a failed batch, an unwritten node or an import left out only shows when some later read needs it.", "anchors": ["arroba/storage.py: Storage.commit", "arroba/storage.py: Storage.load_repo", "arroba/repo.py: Repo.get_record", "arroba/mst.py: MST.get_unstored_blocks", "arroba/xrpc_repo.py: import_repo"]}
{"id": "C79", "title": "Exports from a slow datastore are right", "statement": "Whatever keys Datastore lookups defer, in whatever order they answer, and whatever others write meanwhile: read_many_raw returns each requested block that was there from the start, with its sequence number, and nothing else than requested blocks that are there. getRepo returns the same blocks as it would from a datastore that answers at once and that nobody writes to: exactly those of the repo as it was when the request came. Both end if no lookup defers everything.", "quantifier": "all sequences of lookup responses, all concurrent writes of blocks, every DatastoreStorage server after operations, requests and imports of exported repos, all since values", "why_tests_cant": "The emulator that tests run against never defers keys and answers in order; deferral happens under load in production.", "anchors": ["arroba/datastore_storage.py: DatastoreStorage.read_many_raw", "arroba/mst.py: MST.load_all", "arroba/xrpc_sync.py: get_repo"]}
{"id": "C80", "title": "A process that dies leaves every repo whole", "statement": "If the process dies anywhere in an operation on a DatastoreStorage, every repo is afterwards either as if the operation had not begun or as if it had ended, and which of the two is decided by the write of the repo's entity. After any history with any number of such deaths each repo shows exactly the records of the commits that got that far, the next process can load it and commit to it with a sequence number above everything stored, a creation that died can be repeated, and no block is lost.", "quantifier": "every history of storage operations on a DatastoreStorage, deaths after any write of any operation, any number of sequence numbers lost, all DIDs, records and writes", "why_tests_cant": "Tests do not kill the process between two datastore writes, and the number of places and histories to kill it in is unbounded.", "anchors": ["arroba/storage.py: Storage.commit", "arroba/storage.py: Storage._commit", "arroba/repo.py: Repo.create", "arroba/datastore_storage.py: DatastoreStorage.write_blocks", "arroba/datastore_storage.py: DatastoreStorage.store_repo", "arroba/datastore_storage.py: DatastoreStorage._set_repo_status"]}
{"id": "C81", "title": "A process that dies leaves a true log", "statement": "If the process dies anywhere in an operation on a DatastoreStorage, the stored log that the firehose sends is afterwards that of the operations that took effect: every event and commit in it is of a repo that exists, the commits of a repo form one chain, and every change of status has its event.", "quantifier": "every history of storage operations on a DatastoreStorage, deaths after any write of any operation", "why_tests_cant": "Tests do not kill the process between two datastore writes.", "anchors": ["arroba/storage.py: Storage.commit", "arroba/storage.py: Storage.deactivate_repo", "arroba/repo.py: Repo.create", "arroba/storage.py: Storage.write_event", "arroba/datastore_storage.py: DatastoreStorage.write_blocks"]}
{"id": "C82", "title": "A process that dies does not break the firehose", "statement": "After any history in which processes died in the middle of operations on a DatastoreStorage, read_events never raises, and gives exactly one item for each stored commit and event from the cursor on, for the given repo if any, in the order of their sequence numbers, the item of a commit with the blocks of that commit; among them are the commits and events of all operations that ended successfully.", "quantifier": "every history of storage operations on a DatastoreStorage, deaths after any write of any operation, callbacks that raise, every cursor and repo, every order and every failure of the datastore queries", "why_tests_cant": "Tests do not kill the process between two datastore writes and read the firehose afterwards.", "anchors": ["arroba/storage.py: Storage.read_events_by_seq", "arroba/storage.py: Storage.commit", "arroba/repo.py: Repo.create", "arroba/datastore_storage.py: DatastoreStorage.read_blocks_by_seq", "arroba/datastore_storage.py: DatastoreStorage.write_blocks"]}
{"id": "C83", "title": "A server goes on after a process dies in the middle of a request", "statement": "If a process of a server on a DatastoreStorage dies in the middle of createRecord, putRecord, deleteRecord or importRepo, after the blocks are written but before the repo's new head is, then no repo has changed, under its DID or its handle; every later request, also the same one again, is answered as it would have been without the one that died; and importing the same CAR file again gives the repo with its records. Repos hosted by such servers can be exported to and imported by other servers, also after deaths in the middle of storage operations.", "quantifier": "every server state reached by storage operations, requests and imports, any of which may have died, every request, CAR file and header, every number of lost sequence numbers", "why_tests_cant": "Tests do not kill a server between the two datastore writes of a request and make further requests afterwards.", "anchors": ["arroba/xrpc_repo.py: create_record", "arroba/xrpc_repo.py: put_record", "arroba/xrpc_repo.py: delete_record", "arroba/xrpc_repo.py: import_repo", "arroba/storage.py: Storage._commit", "arroba/datastore_storage.py: DatastoreStorage.write_blocks"]}
{"id": "C84", "title": "Requests do what loads and commits do", "statement": "Whatever the state of the storage and the request, createRecord, putRecord, deleteRecord and getRecord change the storage as some loads of repos and at most one commit of a single write do. Hence every state that a server gets to by storage operations and requests is also reached by storage operations alone, with the same repos, keys and records, so that whatever holds after every history of storage operations holds of servers.", "quantifier": "every request, configuration, storage state and token; every sequence of storage operations and requests on both storages", "why_tests_cant": "It is a refinement between two ways to use the storage, over all requests, states and failures.", "anchors": ["arroba/xrpc_repo.py: create_record", "arroba/xrpc_repo.py: put_record", "arroba/xrpc_repo.py: delete_record", "arroba/xrpc_repo.py: get_record", "arroba/server.py: load_repo", "arroba/storage.py: Storage.commit"]}
{"id": "C85", "title": "The commits of a repo only grow", "statement": "Whatever storage operations and requests a server takes, the commit that was a repo's head at some time is found again by following prev from any later head of the repo, through stored commits with ever lower sequence numbers and revs.", "quantifier": "every server reached by storage operations and requests, every later state of it, every repo, both storages", "why_tests_cant": "Tests look at single commits after single operations, not at all later states after arbitrary operations, requests, failures and status changes.", "anchors": ["arroba/storage.py: Storage.commit, Storage._commit, MemoryStorage.create_repo", "arroba/datastore_storage.py: DatastoreStorage.create_repo, DatastoreStorage.load_repo", "arroba/repo.py: Repo.create", "arroba/xrpc_repo.py: create_record, put_record, delete_record"]}
