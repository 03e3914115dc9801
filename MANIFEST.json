{"claims": [
  {"property": "C01", "status": "proved", "theorems": ["C01_mst_is_a_map"], "note": "All histories of add/update/delete/get/persist/reload; histories that touch the store assume a collision free CID hash."},
  {"property": "C02", "status": "partial", "theorems": ["C02_root_by_contents_partial", "C02_refuted"], "note": "False as stated: an in-memory tree emptied by deletes keeps its layer hint, so a later add of a lower key gives a non-canonical root (C02_refuted, with real SHA-256). Proved for all histories without an add on a tree emptied since it was loaded."},
  {"property": "C03", "status": "proved", "theorems": ["C03_leaves"], "note": ""},
  {"property": "C04", "status": "proved", "theorems": ["C04_ranges"], "note": "list treats an empty string for before as no bound, as the code does."},
  {"property": "C05", "status": "proved", "theorems": ["C05_node_round_trip", "C05_node_injective"], "note": ""},
  {"property": "C06", "status": "proved", "theorems": ["C06_shape"], "note": ""},
  {"property": "C07", "status": "proved", "theorems": ["C07_persist_reload"], "note": "Assumes a collision free CID hash."},
  {"property": "C08", "status": "proved", "theorems": ["C08_root_commits"], "note": "Assumes a collision free CID hash."},
  {"property": "C09", "status": "proved", "theorems": ["C09_key_validation", "C09_add_accepts"], "note": ""},
  {"property": "C10", "status": "proved", "theorems": ["C10_key_height"], "note": ""},
  {"property": "C11", "status": "proved", "theorems": ["C11_cids_for_path"], "note": ""},
  {"property": "C12", "status": "proved", "theorems": ["C12_covering_proofs"], "note": "For every snapshot of a stored tree and every list of ops: add_covering_proofs succeeds, adds only stored blocks, the blocks returned contain the whole search path of every op's path and of the keys to its left and right, and a consumer holding only those blocks can look up every op path (inclusion and exclusion)."},
  {"property": "C13", "status": "proved", "theorems": ["C13_old_roots"], "note": "Assumes a collision free CID hash; later writes are dict.setdefault writes as in MemoryStorage."},
  {"property": "C14", "status": "proved", "theorems": ["C14_diff_exact", "C14_changed"], "note": "All pairs of trees reached by histories of calls on a client, whatever layer caches and stores; collision free hash assumed."},
  {"property": "C15", "status": "proved", "theorems": ["C15_diff_blocks", "C15_diff_blocks_exact", "C15_null_blocks"], "note": "The exact characterisation additionally assumes no record CID equals a node CID."},
  {"property": "C16", "status": "partial", "theorems": ["C16_compose_partial", "C16_exact_partial", "C16_refuted"], "note": "Applying the merged diff to A gives C; the claim that the merged diff classifies each change A->C is false (C16_refuted: add+update, update+update, update+delete) and proved exactly for the remaining combinations. removed_cids are not merged by the code."},
  {"property": "C17", "status": "proved", "theorems": ["C17_allocate", "C17_last", "C17_datastore", "C17_nsids"], "note": "Memory: every sequence of calls over any NSIDs. Datastore: every interleaving of optimistic transactions, for any NSIDs (C17_nsids)."},
  {"property": "C18", "status": "partial", "theorems": ["C18_repo_is_a_map_partial", "C18_datastore", "C18_references_partial", "C18_read_your_writes_partial", "C18_refuted"], "note": "Full for DatastoreStorage. For MemoryStorage histories in which a batch of several writes fails halfway it is false (C18_refuted); all other histories are covered. Assumes a collision free CID hash, records with a $type, callbacks that do not raise."},
  {"property": "C19", "status": "partial", "theorems": ["C19_failure_changes_nothing_partial", "C19_datastore", "C19_refuted"], "note": "Full for DatastoreStorage. For MemoryStorage proved except for multi-write batches that fail halfway, where it is false (C19_refuted)."},
  {"property": "C20", "status": "partial", "theorems": ["C20_ops_partial", "C20_refuted", "C20_requests"], "note": "Every DatastoreStorage history and every MemoryStorage history without a half-failed batch; after one, the leaked write enters the next commit without an op (C20_refuted)."},
  {"property": "C21", "status": "proved", "theorems": ["C21_update_ops", "C21_noop_update"], "note": "Same histories as C20."},
  {"property": "C22", "status": "partial", "theorems": ["C22_commit_chain_partial", "C22_any", "C22_held", "C22_requests", "C63_revs_refuted"], "note": "C22_any: in every history of storage operations, on both storages, whatever fails: from the head of each repo all commits are stored, for the DID, signed with the key of the repo, with falling revs. C22_requests: the same with XRPC requests in between. C22_held: the same for the head of every reference. C22_commit_chain_partial adds that each commit shows the records of its time, for histories without half failed batches in memory (for those it is false, see C20_refuted). For interleaved commits to the datastore storage see C63: they are serialised, but revs need not follow the order of commits (C63_revs_refuted)."},
  {"property": "C23", "status": "partial", "theorems": ["C23_inactive_partial", "C23_fresh_partial", "C23_refuted", "C23_request", "C23_closed_partial"], "note": "False for references loaded before the status change (C23_refuted, both storages); proved for references that carry the stored status and for references loaded afterwards. On servers (C23_request, C23_closed_partial): requests and imports never change a repo that is not active, whatever happened before, also after failures and with callbacks that raise; only storage operations on the repo itself do."},
  {"property": "C24", "status": "partial", "theorems": ["C24_status_partial", "C24_stays_partial", "C24_refuted", "C24_detached_refuted", "C24_deaths_partial"], "note": "activate_repo revives tombstoned repos against its documentation (C24_refuted); MemoryStorage status changes through another reference do not reach the stored repo (C24_detached_refuted). Everything else proved; on every server, with requests, imports and failures, only those calls and Repo.create change a status (C24_stays_partial), and when processes die only those that get to the write of the status (C24_deaths_partial)."},
  {"property": "C25", "status": "partial", "theorems": ["C25_feed_memory", "C25_feed_datastore", "C25_memory_any", "C25_datastore_any", "C25_memory_partial", "C25_datastore_partial", "C25_order", "C25_refuted", "C25_import_refuted", "C25_stopped_partial", "C25_feed_stopped", "C25_resumed"], "note": "C25_feed_memory and C25_feed_datastore: whatever operations, requests and imports a server has taken, the reading gives exactly the stored commits and events, each once, in order, with their blocks, and every successful operation and request has its items; imported CARs must not hold events or commits signed with the server's own keys, and with imports the cursor must be positive. C25_memory_any and C25_datastore_any: the same for storage operations alone, from every cursor (batches that fail halfway, raising callbacks, repos created again, queries that die). C25_memory_partial and C25_datastore_partial equate the items with the log of the operations, in histories without raising callbacks and (Memory) without batches that fail halfway. False in general: a record that poses as an event is read back as one if validation accepts it (C25_refuted); after an importRepo the log cannot be read from the start (C25_import_refuted). C25_feed_stopped and C25_stopped_partial: a reading that ends with an error of the storage gives a beginning of the items. C25_resumed: reading on from the next number gives the rest."},
  {"property": "C26", "status": "proved", "theorems": ["C26_kept", "C26_write", "C26_write_blocks", "C26_has", "C26_read_many", "C26_read_many_raw", "C26_history", "C26_content", "C26_read_many_raw_refuted", "C26_requests"], "note": "read_many_raw of MemoryStorage raises on missing blocks, see C26_read_many_raw_refuted; otherwise as stated. write_blocks is modelled for both storages as keeping the first of two given blocks with the same CID."},
  {"property": "C27", "status": "partial", "theorems": ["C27_unique_partial", "C27_eviction_refuted", "C27_failed_commit_refuted", "C27_last_partial", "C27_nsids_partial"], "note": "False in general: duplicates after an eviction between incr and reservation, and after a transaction that fails for good (max_seqs is set before commit). Proved for every interleaving without these two. C27_last_partial covers last(). C27_nsids_partial: with several NSIDs, neither may happen to the one in question."},
  {"property": "C28", "status": "partial", "theorems": ["C28_commit_partial", "C28_create_partial", "C28_other", "C28_any", "C28_status_any", "C28_below", "C28_refuted", "C28_request", "C28_requests_commit", "C28_requests_below", "C28_create_any"], "note": "A callback that raises makes a number both committed and lost (C28_refuted). C28_any, C28_status_any and C28_below say exactly what happens for commits and status changes in every history, also after batches that failed halfway and callbacks that raised. C28_commit_partial, C28_create_partial and C28_other are per operation, with callbacks that do not raise and no batch that failed halfway. C28_request says the same of XRPC requests, and C28_requests_commit and C28_requests_below of histories with them. C28_create_any: on such servers creating a repo stores the first commit and k of its three events with consecutive numbers and tells the callback of exactly these in order, or stores nothing and tells that the number is lost."},
  {"property": "C29", "status": "proved", "theorems": ["C29", "C29_honest"], "note": "For any answers of the storage (also dishonest ones); C29_honest adds the events loaded at the start when the storage is honest (a rollback window above zero)."},
  {"property": "C30", "status": "partial", "theorems": ["C30_partial", "C30_refuted", "C30_start_refuted"], "note": "The delay is measured from the event before (or from when collecting began), not from when the gap was noticed: after a quiet period a gap is skipped at once (C30_refuted). Numbers under way at the start are never waited for (C30_start_refuted). C30_partial proves what holds."},
  {"property": "C31", "status": "partial", "theorems": ["C31_partial", "C31_order", "C31_no_cursor", "C31_race_refuted", "C31_slow_refuted", "C31_below_refuted"], "note": "Order, at most once and no cursor: proved without conditions. That nothing is missed needs: no emission between the two looks at the rollback window (C31_race_refuted without) and reaching the window before it moves on entirely (C31_slow_refuted without); that nothing before the cursor comes needs an event at or after the cursor (C31_below_refuted without)."},
  {"property": "C32", "status": "partial", "theorems": ["C32_partial", "C32_order_partial", "C32_refuted"], "note": "False in general (C32_refuted: duplicates). Proved under the condition that no other subscriber merges events into the window while this one is on its way to it."},
  {"property": "C33", "status": "proved", "theorems": ["C33", "C33_window", "C33_sorted"], "note": "For any number of subscribers and any storage; the order of the window with an honest storage."},
  {"property": "C34", "status": "partial", "theorems": ["C34", "C34_empty_refuted"], "note": "C34 covers all cursors; with an empty rollback window a valid cursor ends in an IndexError instead of a stream (C34_empty_refuted). What the stream contains is C31."},
  {"property": "C35", "status": "partial", "theorems": ["C35_message_partial", "C35_refuted", "C35_event", "C75_memory_partial", "C75_datastore_partial", "C35_requests"], "note": "Every commit event of a history becomes a message with the repo, rev, seq, ops and a CAR that lets a consumer check every op (C35_message_partial, C35_event). C75_memory_partial and C75_datastore_partial say so for every history with operations, requests and imports of whole CARs. The since field is always null, so that clause of the property fails: C35_refuted."},
  {"property": "C36", "status": "partial", "theorems": ["C36_pages_partial", "C36_pages_unique", "C36_refuted"], "note": "Proved for every limit >= 2 (pages cover the collection in order, each page repeating the last record of the one before, as the docstring admits). With limit 1 following cursors never ends (C36_refuted). reverse is not supported by the code."},
  {"property": "C37", "status": "proved", "theorems": ["C37_pages", "C37_pages_unique"], "note": ""},
  {"property": "C38", "status": "partial", "theorems": ["C38_token_partial", "C38_no_token", "C38_refuted"], "note": "Proved with flask installed, and for every configuration without a token. Without flask the header is not looked at (C38_refuted)."},
  {"property": "C39", "status": "partial", "theorems": ["C39_answers", "C39_map", "C39_write_read", "C39_delete_again", "C39_not_found_partial", "C39_refuted"], "note": "Everything proved except the cid clause of getRecord, which the code does not support: any non-empty cid is a ValueError (C39_refuted). With MemoryStorage sequence numbers are below 2^55."},
  {"property": "C40", "status": "partial", "theorems": ["C40_whole_repo", "C40_since_partial", "C40_consumer_refuted"], "note": "Whole exports are proved exact and sufficient. With since, the CAR has every block of the repo written from that commit on, and suffices together with all older blocks of the repo. That a consumer with the repo as of that commit has those older blocks is false: C40_consumer_refuted (the same node written earlier by another repo is left out)."},
  {"property": "C41", "status": "partial", "theorems": ["C41_record_partial", "C41_missing", "C41_path_refuted"], "note": "The CAR is rooted at the head, has record, head commit and root node, and never misleads; but the code asks for the proof of the collection's name instead of the record's path, so the nodes on the path to the record may be missing: C41_path_refuted."},
  {"property": "C42", "status": "proved", "theorems": ["C42_blocks", "C42_malformed"], "note": "CID.decode is an oracle."},
  {"property": "C43", "status": "proved", "theorems": ["C43_status", "C37_pages"], "note": ""},
  {"property": "C44", "status": "proved", "theorems": ["C44_round_trip", "C44_too_large", "C44_order", "C44_decode_encode", "C44_datetimes", "C44_outside_refuted"], "note": "C44_outside_refuted records what happens outside the documented ranges (negative numbers, clock ids of 1024 or more)."},
  {"property": "C45", "status": "partial", "theorems": ["C45_next_tid_partial", "C45_succeeds", "C45_threads_refuted"], "note": "Proved for one caller at a time; C45_threads_refuted shows two interleaved threads returning the same TID, because next_tid reads and writes _tid_last without a lock."},
  {"property": "C46", "status": "partial", "theorems": ["C46_round_trip", "C46_valid", "C46_made", "C46_injective", "C46_rejects_partial", "C46_refuted", "C46_parts", "C46_canonical"], "note": "The round trip holds for all valid parts (and for anything without URL-special characters). Rejection holds for strings without the at:// scheme; it is false in general: C46_refuted gives malformed at:// strings that parse_at_uri accepts, because it checks neither the parts nor their characters. urlsplit's bracket and NFKC checks are the oracle netloc_ok. C46_parts and C46_canonical say what comes out of any string that is accepted."},
  {"property": "C47", "status": "partial", "theorems": ["C47_signed", "C47_changed", "C47_other_key", "C47_total", "C47_refuted", "C47_high_s", "C47_jwt", "C47_accepts", "C47_unsigned"], "note": "ECDSA is modelled by its algebra over a group of prime order, with the x coordinate determining a point up to sign. False for an object that already has a signature (C47_refuted); rejection of changed objects holds up to collisions of the hash modulo the order (C47_changed). verify_sig also accepts high S (C47_high_s)."},
  {"property": "C48", "status": "proved", "theorems": ["C48", "C48_distinct", "C48_rejects", "C48_sound", "C48_text"], "note": "Points and their compression are oracles; the premise is that from_encoded_point undoes public_bytes. Decoding also accepts the bare multibase string, as get_signing_key needs."},
  {"property": "C49", "status": "partial", "theorems": ["C49_key", "C49_handle", "C49_created", "C49_updated", "C49_handle_refuted"], "note": "Proved for handles made of characters that hosts have. Handles are not validated when an operation is written; C49_handle_refuted: with a slash in the handle another one comes back."},
  {"property": "C50", "status": "partial", "theorems": ["C50_created", "C50_updated", "C50_rolled_back", "C50_chain", "C50_signature", "C50_keeps_partial", "C50_refuted", "C50_text"], "note": "Signature, prev, DID and chain are proved for every operation that is posted. 'Keeps every field that the caller did not change' is false of update_plc (C50_refuted: PDS, further keys and a first non-handle name are lost); C50_keeps_partial is the condition under which it holds. rollback_plc keeps all fields of the operation it restores."},
  {"property": "C51", "status": "partial", "theorems": ["C51_exclusion_partial", "C51_release_partial", "C51_acquire_free", "C51_exclusion_refuted", "C51_release_refuted", "C51_expires_refuted", "C51_lasts_partial", "C51_late"], "note": "False by the lease object's own expires_at (memcached may drop the item up to a second earlier, and release then deletes the next holder's item). Proved for holders that release within the lifetime of their item. C51_lasts_partial: who gets the lease has it alone for its expiration in whole seconds less one. C51_late: who releases after expires_at touches nothing."},
  {"property": "C52", "status": "proved", "theorems": ["C52_round_trip", "C52_canonical", "C52_cid", "C52_views", "C52_block_eq", "C52_garbage", "C52_every_value_refuted"], "note": "Collision freedom of the hash is a premise of C52_cid and C52_block_eq. C52_every_value_refuted: Block(decoded={}) raises AssertionError. C52_garbage: bytes cut short or with others behind them have no value."},
  {"property": "C53", "status": "proved", "theorems": ["C53_scan", "C53_growing", "C53_range", "C53_stopped"], "note": "C53_scan: no writes happen during the scan; each query may die after any number of rows, any number of times. C53_growing: also while blocks are being written during the scan. C53_stopped: if a query dies of another error, what was given till then is a beginning of it without gaps. C53_range: what the range is."},
  {"property": "C54", "status": "partial", "theorems": ["C54_partial", "C54_cid_partial", "C54_fresh", "C54_refuted", "C54_url_refuted", "C54_text"], "note": "Checks, size, type and CID of returned blobs are proved for all interleavings. The property is false in two ways: a blob may be returned without CID (C54_refuted: after a body that could not be read, or while another request fetches it; C54_cid_partial is the sequential case without failures), and URLs longer than 1500 bytes are confused (C54_url_refuted)."},
  {"property": "C55", "status": "partial", "theorems": ["C55_import", "C55_fails", "C55_exists", "C55_since_refuted"], "note": "Proved for every CAR exported whole, and for every failing import of any CAR. A CAR exported with since is accepted although blocks are missing: C55_since_refuted."},
  {"property": "C56", "status": "partial", "theorems": ["C56_domain", "C56_path", "C56_other", "C56_refuted", "C56_plc", "C56_methods", "C56_document"], "note": "The exact URL and host are proved for domains and for paths of characters that are not special, and for did:plc. The dispatch of resolve and the document that it returns are proved for all DIDs. 'Exactly domain-only' and 'never any other host' are false (C56_refuted): paths are accepted, and percent encoded delimiters are decoded before the URL is put together."},
  {"property": "C57", "status": "proved", "theorems": ["C57_limits", "C57_too_many", "C57_too_large"], "note": "C57_limits gives the exact success condition and exception of every commit to an active repo."},
  {"property": "C58", "status": "proved", "theorems": ["C58_isolation", "C58_isolation_partial"], "note": "C58_isolation: all operations, all histories on both storages, whatever callbacks do. C58_isolation_partial says in addition which records the other repo shows, for histories without half-failed batches in memory. Collision freedom of the digest and that handles are not DIDs are premises."},
  {"property": "C59", "status": "partial", "theorems": ["C59_partial", "C59_refuted"], "note": "Holds once started; a failure while loading the first events ends the collector thread and all subscribers wait forever (C59_refuted)."},
  {"property": "C60", "status": "proved", "theorems": ["C60_syntax", "C60_invalid", "C60_requests", "C60_did", "C60_dns", "C60_http", "C60_none", "C60_source", "C60_several_strings"], "note": "DNS and HTTP answers are oracles. HTTP redirects, which requests follows, are part of the oracle. C60_several_strings shows that a TXT record of several strings gives a string that is no DID although it begins like one."},
  {"property": "C61", "status": "partial", "theorems": ["C61_partial", "C61_refuted"], "note": "False as stated: after a refetch finds other content, the old CID is still redirected to the URL (C61_refuted). Proved: the URL is that of an active blob stored with the CID. The did parameter is ignored by the code."},
  {"property": "C62", "status": "partial", "theorems": ["C62_pages", "C62_pages_unique", "C62_kept", "C62_refuted"], "note": "Pages are exact for every store reached by requests. That a repo stays with the blobs it asked for holds for requests one after the other (C62_kept) and fails for overlapping ones (C62_refuted: lost update)."},
  {"property": "C63", "status": "partial", "theorems": ["C63_serial_partial", "C63_once", "C63_progress", "C63_revs_refuted", "C63_events_refuted"], "note": "Proved for every interleaving: the successful commits of a repo form one chain, what is seen is its last state, calls return once, nothing blocks. Two parts are false of the code: revs need not increase along the chain, since the sequence number is allocated before the transaction (C63_revs_refuted), and the blocks of an aborted attempt stay in the store with the same sequence number, so that read_events_by_seq can show a commit that is not in the repo instead of the one that is (C63_events_refuted)."},
  {"property": "C64", "status": "proved", "theorems": ["C64_received", "C64_made", "C64_tampered", "C64_text"], "note": "JSON is an oracle; ECDSA as an algebra, as for C47. Extra claims override iss, alg and exp, which the theorem says."},
  {"property": "C65", "status": "partial", "theorems": ["C65_created_partial", "C65_get", "C65_refresh", "C65_unset", "C65_refuted"], "note": "False as stated: createSession does not look at the password and gives everyone the one REPO_TOKEN, which allows to write to every repo (C65_refuted, Example C65_other). Proved: the session is that of the named repo, the other two methods require the token and change nothing."},
  {"property": "C66", "status": "proved", "theorems": ["C66_memory", "C66_datastore", "C66_start", "C66_requests_memory", "C66_requests_datastore"], "note": "The consumer is ReplicaSpec.take; it is not arroba code. Histories as in C25: callbacks do not raise and, in memory, no batch fails halfway. Collision freedom of the digest is a premise."},
  {"property": "C67", "status": "partial", "theorems": ["C67_none", "C67_write_blocks", "C67_write", "C67_again_refuted", "C67_unnumbered", "C67_text"], "note": "Proved but for the last clause: what is read has an ndb.Key as repo, which from_block refuses, so a block read from one datastore storage cannot be written to one without it (C67_again_refuted)."},
  {"property": "C68", "status": "partial", "theorems": ["C68_step", "C68_history_partial", "C68_create_refuted"], "note": "All operations and histories in which creations of active repos with a callback succeed. If the callback raises during Repo.create the rest of the creation is skipped: the first commit is stored but there is no repo (C68_create_refuted)."},
  {"property": "C69", "status": "proved", "theorems": ["C69_gapless", "C69_stream", "C69_memory", "C69_datastore", "C69_requests_memory", "C69_requests_datastore"], "note": "Composes C25, C66 and the firehose machine. Conditions are premises: events stored in order of their numbers, reads do not pass over events, the subscriber is undisturbed, calm and timely, the collector is up to date. C69_case meets all of them."},
  {"property": "C70", "status": "proved", "theorems": ["C70_tree", "C70_dictionary", "C70_repo", "C70_enough", "C70_requests"], "note": "The client is part of the statement, not arroba code: it trusts one commit CID and checks the hash of each block. Collision freedom of the digest is a premise."},
  {"property": "C71", "status": "proved", "theorems": ["C71_isolation"], "note": "For all histories from an empty storage, no restriction on failures or callbacks; CIDs of imported blocks are taken to be right (the model of read_car does not check them), DIDs start with did: and handles do not."},
  {"property": "C72", "status": "partial", "theorems": ["C72_hosted", "C72_commits", "C72_requests", "C72_exports", "C72_imports", "C72_others_refuted", "C72_revs_refuted"], "note": "Proved for servers whose imports are of CARs that getRepo gave without since (or with an empty one) on servers like them, with any operations and requests in between, on both storages. Two parts of the claim are false. C72_revs_refuted: after an import the next commit can have a lower rev than the imported head, and listRepos gives a rev for the repo that is not its head's. C72_others_refuted: the CARs that getRepo gives with a since are taken too, and after such an import a later commit to another repo can succeed whose record getRepo does not give any more."},
  {"property": "C73", "status": "partial", "theorems": ["C73_alone_partial", "C73_low", "C73_same_refuted", "C73_skip_refuted", "C73_back_refuted", "C73_nsids_partial"], "note": "False as it stands: allocate has no lock. Two threads can get the same number and a number can be skipped (C73_same_refuted, C73_skip_refuted; a switch between setdefault and the increment is enough), and the counter can go back if threads are switched inside the increment (C73_back_refuted). Proved: the claim for schedules in which threads do not meet inside allocate (C73_alone_partial), and for all schedules that the numbers are positive and the nth number is at most n (C73_low). C73_nsids_partial: threads that allocate for other NSIDs do no harm."},
  {"property": "C74", "status": "partial", "theorems": ["C74_age", "C74_document", "C74_errors", "C74_size", "C74_hit", "C74_refuted"], "note": "Proved but for one part that is false: resolve_handle gives None when the network fails, and None is remembered for six hours (C74_refuted)."},
  {"property": "C75", "status": "partial", "theorems": ["C75_memory_partial", "C75_datastore_partial", "C75_recent_partial", "C75_unnumbered", "C75_restart_refuted", "C75_hole_refuted"], "note": "False as stated. Imported blocks have the number 0: after any import a preload that starts at 0 (fewer than PRELOAD_WINDOW numbers in use) raises AssertionError and the collector ends (C75_unnumbered, C75_restart_refuted). An import of a CAR that lacks MST nodes makes later commits of other repos that share them impossible to tell: process_event raises AttributeError for ever (C75_hole_refuted). Proved for every history of operations, requests and imports, if imported CARs are whole and the preload does not start at 0 after an import: every item of the log makes a message and the preload returns them all (C75_memory_partial, C75_datastore_partial)."},
  {"property": "C76", "status": "proved", "theorems": ["C76_head", "C76_committed", "C76_repo", "C76_describe"], "note": "For servers as in C72 (hosts): repos created there or moved there with CARs that getRepo gave. A handle of a repo that was deactivated since can still commit in the datastore; then the methods answer RepoDeactivated, so C76_committed asks that the repo is active."},
  {"property": "C77", "status": "partial", "theorems": ["C77_sound", "C77_complete_partial", "C77_refuted", "C77_count", "C77_nodes"], "note": "Equal trees hold the same records, and counting and listing are right, for all histories. That trees with the same records are equal is false when a tree emptied by deletes is added to before a reload (C77_refuted); C77_complete_partial proves it for all other histories."},
  {"property": "C78", "status": "partial", "theorems": ["C78_trees_partial", "C78_commits_partial", "C78_records_partial", "C78_history_partial", "C78_memory_refuted", "C78_stripped_refuted", "C78_torn_refuted"], "note": "False as stated (C78_memory_refuted: a batch that failed halfway in MemoryStorage leaves a record in the head commit that is not stored; C78_stripped_refuted, C78_torn_refuted: importRepo takes CARs without records or nodes). Proved for all histories: with imports of whole CARs every tree of every repo and every own commit is readable, in both storages; in DatastoreStorage, with CARs that also hold their records, every named record is stored and get_record never raises."},
  {"property": "C79", "status": "proved", "theorems": ["C79_read", "C79_same", "C79_whole", "C79_failing"], "note": "honest: the datastore finds or defers every requested block that is stored, and finds or defers nothing else; OutOfFuel means that the loop is still waiting, which C79_read and C79_same exclude for datastores that never defer everything. name_of (base32 of the CID) is any injective function. A lookup that raises is left out. C79_failing: also when lookups fail."},
  {"property": "C80", "status": "proved", "theorems": ["C80_atomic", "C80_records", "C80_none", "C80_next", "C80_create", "C80_kept"], "note": "Operations of the storage one at a time; deaths after any datastore write. The write of the entity decides."},
  {"property": "C81", "status": "partial", "theorems": ["C81_refuted", "C81_fork_refuted", "C81_silent_refuted", "C81_partial"], "note": "False as stated: write_blocks and events are not in the transaction of the entity, so a creation that dies leaves events of a repo that is not there (C81_refuted), a commit that dies leaves a second commit with the same predecessor as the next (C81_fork_refuted), and a status change that dies has no event (C81_silent_refuted). C81_partial: deaths before the first or after the last block leave the log of the operation that did not begin or that ended."},
  {"property": "C82", "status": "proved", "theorems": ["C82"], "note": "Any history of operations that end or die after any of their writes (CrashModel.v), then read_events over any datastore scan."},
  {"property": "C83", "status": "proved", "theorems": ["C83_request", "C83_again", "C83_import", "C83_import_again"], "note": "Deaths between the blocks and the entity; deaths in the middle of storage operations are constructors of LiveSpec.hosts. Deaths before the blocks only lose sequence numbers, deaths after the entity are a finished request followed by a reboot; both are in hosts too."},
  {"property": "C84", "status": "proved", "theorems": ["C84_request", "C84_server"], "note": "Requests are the four of ServerSpec.request; the read-only sync methods do not commit either. C84_server has the premises of ServerSpec.serves: callbacks do not raise; in memory, no batch fails halfway and numbers are below 2^55."},
  {"property": "C85", "status": "partial", "theorems": ["C85_stays_partial", "C85_onward_partial", "C85_deaths_partial", "C85_again", "C85_refuted"], "note": "False as stated: Repo.create for a DID that has a repo starts its commits anew (C85_refuted, both storages). Proved without such a creation for servers whose operations and requests do not fail halfway, with numbers and revs that fall (C85_stays_partial), for every server with failures, raising callbacks and imports, without numbers (C85_onward_partial), and for datastores whose processes die anywhere, with numbers and revs (C85_deaths_partial); in general the commits go back to the old head or to a first commit made since (C85_again)."}
]}
