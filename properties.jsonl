{"id": "C01", "title": "Price of storage is the exact per-share ceiling", "statement": "The number of passes demanded for a collection of shares is the least number of passes that covers every share separately: the sum over shares of the smallest n with n * pass_value >= size. It is never negative, never one too few and never one too many; a zero pass value is an error, not a free ride.", "quantifier": "every positive pass value, every list of non-negative share sizes of any length and magnitude", "why_tests_cant": "rounding errors appear only at particular size/pass-value combinations and there are unboundedly many of both; a test samples a few", "anchors": ["src/_zkapauthorizer/storage_common.py:required_passes", "src/_zkapauthorizer/storage_common.py:BYTES_PER_PASS"]}
{"id": "C02", "title": "Price laws: order-independent, additive, monotone", "statement": "The price of a collection of shares does not depend on their order, is additive over splitting the collection, never decreases when a share grows or a share is added, and never increases when a pass is worth more.", "quantifier": "every pair of share-size lists and every pair of pass values", "why_tests_cant": "relational property over pairs of unbounded inputs", "anchors": ["src/_zkapauthorizer/storage_common.py:required_passes"]}
{"id": "C03", "title": "Mutable write price charges exactly the growth", "statement": "The number of new passes for a mutable write is non-negative and equals the sum, over shares, of the increase in that share's individual price when it grows from its current size to the furthest byte written (shrinking never refunds, rewriting within an already-paid pass is free). Shares that are not written do not contribute.", "quantifier": "every positive pass value, every map of current share sizes and every set of test/write vectors", "why_tests_cant": "depends on combinations of existing sizes, number of shares, overlapping write ranges and truncation arguments", "anchors": ["src/_zkapauthorizer/storage_common.py:get_required_new_passes_for_mutable_write", "src/_zkapauthorizer/storage_common.py:get_implied_data_length"]}
{"id": "C04", "title": "Splitting a mutable write into several writes neither saves nor costs passes", "statement": "For any sequence of writes to a slot, the passes charged along the way add up to the price of the final share sizes minus the price of the initial ones; so no re-chunking of the same upload is cheaper or dearer.", "quantifier": "every initial size map and every finite sequence of write requests", "why_tests_cant": "property over all finite histories of writes", "anchors": ["src/_zkapauthorizer/storage_common.py:get_required_new_passes_for_mutable_write", "src/_zkapauthorizer/_storage_server.py:get_writev_price"]}
{"id": "C05", "title": "The advertised price calculator equals what uploading costs", "statement": "The price returned by the price calculator for a list of file sizes is the sum over files of shares_total times the price of one share of size ceil(file_size/shares_needed), i.e. exactly what allocating all shares of each file would cost; the calculator agrees with the independent per-file price used elsewhere in the client.", "quantifier": "every configuration (needed, total, pass value) with positive needed and pass value, and every list of non-negative file sizes", "why_tests_cant": "agreement between two separately written formulas over all sizes and configurations", "anchors": ["src/_zkapauthorizer/pricecalculator.py:PriceCalculator.calculate", "src/_zkapauthorizer/tahoe.py:required_passes_for_data", "src/_zkapauthorizer/tahoe.py:share_sizes_for_data", "src/_zkapauthorizer/storage_common.py:share_size_for_data"]}
{"id": "C06", "title": "Client and server compute the same price for a mutable write", "statement": "When client and server look at the same slot at the same time with the same pass value and the write uses no truncation, the number of passes the client attaches to a mutable write equals the number the server will require: the server never has to ask for more and the client never overpays; a write-free request costs nothing.", "quantifier": "every slot content (share sizes, lease expirations), clock value, pass value, and set of write vectors", "why_tests_cant": "two separately written implementations (client filtering by lease expiration, server filtering by active leases) must agree on every slot state and clock", "anchors": ["src/_zkapauthorizer/_storage_client.py:ZKAPAuthorizerStorageClient.slot_testv_and_readv_and_writev", "src/_zkapauthorizer/_storage_server.py:get_writev_price", "src/_zkapauthorizer/storage_common.py:get_write_sharenums"]}
{"id": "C07", "title": "No storage effect without enough valid passes", "statement": "A storage-server request that allocates buckets, adds leases or writes a slot changes the stored shares or leases only if the request came with at least as many correctly signed passes as the operation's price; otherwise the stored state and the record of spent passes are unchanged.", "quantifier": "every stored state, every request, every list of passes, every signature-checking outcome", "why_tests_cant": "authorization must hold for every combination of request shape, stored state and pass validity", "anchors": ["src/_zkapauthorizer/_storage_server.py:ZKAPAuthorizerStorageServer", "src/_zkapauthorizer/_storage_server.py:check_pass_quantity", "src/_zkapauthorizer/_storage_server.py:check_pass_quantity_for_write", "src/_zkapauthorizer/_storage_server.py:check_pass_quantity_for_lease"]}
{"id": "C08", "title": "MorePassesRequired reports exactly the truth", "statement": "When the server refuses for lack of passes, the reported valid count is the number of presented passes that verify, the required count is the price, and the reported indices are exactly the positions of the presented passes that do not verify; refusal happens exactly when required exceeds valid.", "quantifier": "every list of passes of any length and every validity pattern", "why_tests_cant": "the client invalidates tokens by index, so the indices must be right for every length and pattern of bad passes", "anchors": ["src/_zkapauthorizer/_storage_server.py:_ValidationResult", "src/_zkapauthorizer/_storage_server.py:check_pass_quantity", "src/_zkapauthorizer/storage_common.py:MorePassesRequired"]}
{"id": "C09", "title": "Allocating buckets charges only for buckets really created", "statement": "A successful allocate_buckets records as spent exactly the price of the buckets that were actually created (not for shares the server already had), never more passes than were presented, only validly signed ones, and none twice.", "quantifier": "every set of requested shares, every subset already present, every size and pass value", "why_tests_cant": "depends on every split between already-present and newly created shares", "anchors": ["src/_zkapauthorizer/_storage_server.py:ZKAPAuthorizerStorageServer.remote_allocate_buckets"]}
{"id": "C10", "title": "Only valid presented passes are ever recorded as spent", "statement": "Across any history of requests, every pass the server records as spent was presented in an accepted request and verified for that operation and storage index; refused or failed requests record nothing.", "quantifier": "every finite history of requests against the server", "why_tests_cant": "property over all histories", "anchors": ["src/_zkapauthorizer/_storage_server.py:ZKAPAuthorizerStorageServer", "src/_zkapauthorizer/server/spending.py:RecordingSpender"]}
{"id": "C11", "title": "A written share always carries an unexpired lease", "statement": "After a successful write to a slot, every share that the request wrote data to (and that exists) has at least one lease that has not expired; shares that already had an active lease gain none, and no existing lease is shortened.", "quantifier": "every slot state, every request, every clock value", "why_tests_cant": "interaction of share existence, previous leases, clock and write vectors", "anchors": ["src/_zkapauthorizer/_storage_server.py:add_leases_for_writev", "src/_zkapauthorizer/_storage_server.py:share_has_active_leases", "src/_zkapauthorizer/_storage_server.py:ZKAPAuthorizerStorageServer._slot_testv_and_readv_and_writev"]}
{"id": "C12", "title": "Writing to a share whose leases expired costs the full price of the share", "statement": "A write that revives a share with no active lease costs at least the price of storing that whole share, as documented, because it grants a fresh lease on the whole share.", "quantifier": "every slot state with an expired share and every write", "why_tests_cant": "needs the adversarial combination of a large lapsed share and a small write", "anchors": ["src/_zkapauthorizer/_storage_server.py:get_writev_price", "src/_zkapauthorizer/_storage_server.py:add_leases_for_writev"]}
{"id": "C13", "title": "Share sizes are read correctly from the on-disk containers", "statement": "For every immutable container (version 1 or 2) with any data and any number of leases, and every mutable container, the size the server uses for pricing is exactly the length of the stored data; unknown container versions are refused rather than mispriced.", "quantifier": "every share content, every lease count, every container version", "why_tests_cant": "byte-level layout property for all lengths", "anchors": ["src/_zkapauthorizer/_storage_server.py:get_storage_index_share_size", "src/_zkapauthorizer/_storage_server.py:get_slot_share_size"]}
{"id": "C14", "title": "Listing shares finds exactly the requested shares", "statement": "The size and stat queries report exactly the share numbers that exist for the storage index and were asked for (all when no filter is given), each once, with that share's own size; non-numeric directory entries are ignored.", "quantifier": "every directory content and every filter", "why_tests_cant": "all combinations of directory entries and filters", "anchors": ["src/_zkapauthorizer/_storage_server.py:get_all_share_paths", "src/_zkapauthorizer/_storage_server.py:get_share_sizes", "src/_zkapauthorizer/_storage_server.py:get_share_stats"]}
{"id": "C15", "title": "Token extraction is all-or-nothing and exact", "statement": "Asking the wallet for n tokens either yields exactly n distinct tokens, each spendable and none in use by anyone else, and marks exactly these as in use, or fails with a not-enough-tokens error changing nothing. It succeeds exactly when n does not exceed the reported number of spendable tokens.", "quantifier": "every wallet state and every requested count that is not negative (including counts beyond 2^63-1); a negative count, which only the sizes reported by a lying server lead to (C108), takes everything", "why_tests_cant": "every state of the wallet and every count", "anchors": ["src/_zkapauthorizer/model.py:VoucherStore.get_unblinded_tokens", "src/_zkapauthorizer/model.py:VoucherStore.count_unblinded_tokens"]}
{"id": "C16", "title": "No token is ever handed to two operations at once", "statement": "In any history of extractions, discards, invalidations, resets and insertions, a token that has been handed out and not yet returned is never handed out again.", "quantifier": "every finite interleaving of wallet operations by any number of concurrent users", "why_tests_cant": "interleavings are unbounded", "anchors": ["src/_zkapauthorizer/model.py:VoucherStore.get_unblinded_tokens", "src/_zkapauthorizer/model.py:VoucherStore.reset_unblinded_tokens"]}
{"id": "C17", "title": "Token conservation", "statement": "Every token ever put in the wallet is, at every later moment, in exactly one of the classes: available, in use, sequestered, spent, invalid. No operation loses or duplicates a token, and an extraction never touches sequestered tokens.", "quantifier": "every finite history of wallet operations and restarts, starting from an empty wallet, in which no token is received again after it was declared invalid", "why_tests_cant": "invariant over all histories", "anchors": ["src/_zkapauthorizer/model.py:VoucherStore"]}
{"id": "C18", "title": "Spent and invalid tokens never come back", "statement": "Once tokens are discarded as spent or invalidated, no later extraction returns them (unless the same token text is redeemed again).", "quantifier": "every continuation history, including restarts", "why_tests_cant": "property over all futures", "anchors": ["src/_zkapauthorizer/model.py:VoucherStore.discard_unblinded_tokens", "src/_zkapauthorizer/model.py:VoucherStore.invalidate_unblinded_tokens"]}
{"id": "C19", "title": "Wallet operations are atomic", "statement": "If a wallet operation raises, at whatever statement, the persistent and per-session state after it equals the state before it; if the process dies before the transaction ends the persistent state equals the state before it.", "quantifier": "every operation, state, argument and every crash point between its statements", "why_tests_cant": "every crash point of every operation", "anchors": ["src/_zkapauthorizer/model.py:with_cursor", "src/_zkapauthorizer/model.py:VoucherStore"]}
{"id": "C20", "title": "A restart releases in-use tokens and changes nothing else", "statement": "After a restart all persistent data is as before and exactly the tokens that were in use become available again.", "quantifier": "every wallet state", "why_tests_cant": "every state", "anchors": ["src/_zkapauthorizer/model.py:initialize_database"]}
{"id": "C21", "title": "Every token taken for a storage call is accounted for when the call ends", "statement": "When a pass-spending storage call ends, whether it returns, raises, or runs out of tokens mid-retry, each token it ever took is exactly one of: spent, marked invalid, or back in the available pool; none is left in use (given that the redeemer can turn every stored token into a pass).", "quantifier": "every server behaviour (arbitrary sequence of accept / reject-with-indices / fail), every wallet state, every number of passes asked for", "why_tests_cant": "the remote server is adversarial: all response sequences", "anchors": ["src/_zkapauthorizer/_storage_client.py:call_with_passes_with_manual_spend", "src/_zkapauthorizer/_storage_client.py:invalidate_rejected_passes", "src/_zkapauthorizer/spending.py:PassGroup"]}
{"id": "C22", "title": "Exactly the accepted passes are spent", "statement": "If the call succeeds then the tokens marked spent are exactly the ones presented in the accepted attempt (for allocate: exactly the leading ones the server used); if the call fails no token is marked spent.", "quantifier": "every server behaviour, wallet state and number of passes asked for", "why_tests_cant": "all response sequences", "anchors": ["src/_zkapauthorizer/_storage_client.py:call_with_passes", "src/_zkapauthorizer/_storage_client.py:ZKAPAuthorizerStorageClient._spend_for_allocate_buckets"]}
{"id": "C23", "title": "A token is invalidated only when the server rejected it", "statement": "A token is marked invalid only if some attempt presented it at an index that the server's refusal to that same attempt listed; every in-range listed token is so marked when the call goes on.", "quantifier": "every server behaviour", "why_tests_cant": "index bookkeeping across repeated splits and expansions", "anchors": ["src/_zkapauthorizer/_storage_client.py:invalidate_rejected_passes", "src/_zkapauthorizer/spending.py:PassGroup.split"]}
{"id": "C24", "title": "The retry loop terminates", "statement": "A pass-spending call makes only finitely many attempts: at most one more than the number of tokens that were available when it began, whatever the server does.", "quantifier": "every server behaviour", "why_tests_cant": "termination against an adversarial peer cannot be tested", "anchors": ["src/_zkapauthorizer/_storage_client.py:call_with_passes_with_manual_spend"]}
{"id": "C25", "title": "Each attempt presents exactly the needed number of distinct passes", "statement": "Every attempt presents exactly the originally computed number of passes, all made from distinct tokens bound to this operation and storage index, even after rejected ones have been replaced.", "quantifier": "every server behaviour and wallet state", "why_tests_cant": "all retry histories", "anchors": ["src/_zkapauthorizer/_storage_client.py:call_with_passes_with_manual_spend", "src/_zkapauthorizer/spending.py:PassGroup.expand", "src/_zkapauthorizer/spending.py:SpendingController.get"]}
{"id": "C26", "title": "Client and server agree on which passes were spent", "statement": "When a client with good passes talks to an honest server over a reliable link, the set of passes the client marks spent is exactly the set the server records as spent, for bucket allocation, lease renewal and mutable writes.", "quantifier": "every stored state, request, pass value and wallet with enough tokens", "why_tests_cant": "composition of two components over all states", "anchors": ["src/_zkapauthorizer/_storage_client.py:ZKAPAuthorizerStorageClient", "src/_zkapauthorizer/_storage_server.py:ZKAPAuthorizerStorageServer"]}
{"id": "C27", "title": "Request-binding messages never collide", "statement": "Passes are bound to an operation kind and a storage index: two requests get the same binding message only if they are the same kind of operation on the same storage index.", "quantifier": "every pair of operation kinds and byte strings", "why_tests_cant": "injectivity over all byte strings", "anchors": ["src/_zkapauthorizer/storage_common.py:_message_maker"]}
{"id": "C28", "title": "Redemption groups add up", "statement": "Splitting a voucher's expected token count into redemption groups gives each group a positive number of tokens, sizes differ by at most one, and they add up to exactly the total; impossible arguments are refused.", "quantifier": "every total, number of groups and group index", "why_tests_cant": "arithmetic over all totals", "anchors": ["src/_zkapauthorizer/controller.py:token_count_for_group"]}
{"id": "C29", "title": "A redeemed voucher yields exactly its tokens", "statement": "For any interleaving of successful groups, failures and restarts, each group of a voucher contributes its tokens at most once, the progress counter equals the number of groups completed, and when the voucher becomes redeemed its reported token count is the number of tokens received in all groups.", "quantifier": "every finite history of redemption outcomes, retries and restarts", "why_tests_cant": "all histories", "anchors": ["src/_zkapauthorizer/controller.py:PaymentController.redeem", "src/_zkapauthorizer/controller.py:PaymentController._redeem_success", "src/_zkapauthorizer/model.py:VoucherStore.insert_unblinded_tokens_for_voucher"]}
{"id": "C30", "title": "Retrying a redemption group reuses the same secrets", "statement": "The random (blinded-secret) tokens submitted for a voucher group are the same on every retry of that group until it succeeds, across failures and restarts, so the issuer can recognise a retry.", "quantifier": "every history of failures and restarts", "why_tests_cant": "all crash points and histories", "anchors": ["src/_zkapauthorizer/controller.py:PaymentController._get_random_tokens", "src/_zkapauthorizer/model.py:VoucherStore.add"]}
{"id": "C31", "title": "Tokens signed by an unrecognised key are never spent", "statement": "Tokens received under a public key that is not configured as allowed are sequestered: they are never counted as spendable nor handed out, in any later history; the redeemed voucher's reported token count excludes them.", "quantifier": "every configuration, every issuer response and every later history", "why_tests_cant": "all histories", "anchors": ["src/_zkapauthorizer/controller.py:PaymentController._redeem_success", "src/_zkapauthorizer/model.py:VoucherStore.get_unblinded_tokens", "src/_zkapauthorizer/model.py:VoucherStore.count_unblinded_tokens"]}
{"id": "C32", "title": "Voucher state only moves forward", "statement": "The persisted voucher state only moves pending(n) -> pending(n+1) -> ... -> redeemed, or pending -> double-spend; double-spend and redeemed are final with respect to double-spend marking, and the progress counter never decreases.", "quantifier": "every history of controller operations", "why_tests_cant": "all histories", "anchors": ["src/_zkapauthorizer/model.py:VoucherStore.mark_voucher_double_spent", "src/_zkapauthorizer/model.py:VoucherStore.insert_unblinded_tokens_for_voucher", "src/_zkapauthorizer/controller.py:PaymentController._redeem_failure"]}
{"id": "C33", "title": "Submitting a voucher again has no effect", "statement": "Adding a voucher that is already known does not change its creation time, expected token count, state or progress, and the random tokens already stored for the group are kept.", "quantifier": "every wallet state and voucher", "why_tests_cant": "every state", "anchors": ["src/_zkapauthorizer/model.py:VoucherStore.add", "src/_zkapauthorizer/controller.py:PaymentController.redeem"]}
{"id": "C34", "title": "At most one redemption attempt per voucher at a time", "statement": "No two redemption attempts of one voucher by one node are ever outstanding with the issuer at the same moment, however user requests, timers and completions interleave.", "quantifier": "every interleaving of user submissions, retry-timer firings and completions", "why_tests_cant": "all interleavings", "anchors": ["src/_zkapauthorizer/controller.py:PaymentController.redeem", "src/_zkapauthorizer/controller.py:PaymentController._retry_redemption", "src/_zkapauthorizer/controller.py:PaymentController._perform_redeem"]}
{"id": "C35", "title": "Redemption resumes where it left off", "statement": "An automatic retry of a voucher starts at the first group that has not been completed, so already completed groups are not attempted again.", "quantifier": "every history of outcomes before the retry", "why_tests_cant": "depends on the history of transient states", "anchors": ["src/_zkapauthorizer/controller.py:PaymentController.incorporate_transient_state", "src/_zkapauthorizer/model.py:Unpaid", "src/_zkapauthorizer/model.py:Pending"]}
{"id": "C36", "title": "Every unfinished voucher is eventually retried", "statement": "Whatever transient failure a voucher met, the periodic retry attempts it again.", "quantifier": "every transient failure", "why_tests_cant": "requires exhaustive case analysis of failure kinds", "anchors": ["src/_zkapauthorizer/controller.py:PaymentController._retry_redemption", "src/_zkapauthorizer/model.py:Error"]}
{"id": "C37", "title": "After a restart every pending voucher is resumed at its progress counter", "statement": "On start-up the controller starts a redemption for exactly the vouchers whose persisted state is pending, each at its persisted counter.", "quantifier": "every persisted state", "why_tests_cant": "all states", "anchors": ["src/_zkapauthorizer/controller.py:PaymentController._check_pending_vouchers"]}
{"id": "C38", "title": "What the user sees of a voucher is consistent", "statement": "The reported voucher state is the persisted one unless that is pending; then it is the in-progress attempt if there is one, else the last unpaid result, else the last error, else pending. A finished voucher is never reported as redeeming, unpaid or in error.", "quantifier": "every combination of persisted and transient state", "why_tests_cant": "all combinations", "anchors": ["src/_zkapauthorizer/controller.py:PaymentController.incorporate_transient_state"]}
{"id": "C39", "title": "Replica replay reproduces the database", "statement": "Recovering from the snapshot and then the event streams in order yields the database contents of the moment the last uploaded change was recorded, for every history in which transactions commit and uploads are not interrupted.", "quantifier": "every history of committed transactions, uploads and snapshots", "why_tests_cant": "all histories and interleavings with uploads", "anchors": ["src/_zkapauthorizer/replicate.py:_ReplicationCapableConnection", "src/_zkapauthorizer/replicate.py:_ReplicationService", "src/_zkapauthorizer/recover.py:recover"]}
{"id": "C40", "title": "Rolled-back changes never reach the replica", "statement": "A change made in a transaction that was rolled back is never part of the recovered state.", "quantifier": "every history including aborted transactions", "why_tests_cant": "needs a history with an abort followed by a commit", "anchors": ["src/_zkapauthorizer/replicate.py:_ReplicationCapableConnection.__exit__"]}
{"id": "C41", "title": "Interruptions of replication never corrupt the replica", "statement": "If the process stops at any point of an event-stream or snapshot upload, restarts and continues, a recovery still yields the database contents.", "quantifier": "every crash point of the upload procedure and every later history", "why_tests_cant": "all crash points", "anchors": ["src/_zkapauthorizer/replicate.py:_ReplicationService._do_one_event_upload", "src/_zkapauthorizer/replicate.py:_ReplicationService._do_one_snapshot_upload"]}
{"id": "C42", "title": "Event-stream pruning removes exactly what was uploaded", "statement": "After an upload the local event log has lost exactly the uploaded events: later events are kept, in order, and an event is never removed before an upload containing it (or a snapshot including its effect) succeeded.", "quantifier": "every event log and every point at which new events arrive during the upload", "why_tests_cant": "interleavings of recording and uploading", "anchors": ["src/_zkapauthorizer/replicate.py:prune_events_to", "src/_zkapauthorizer/replicate.py:_ReplicationService._do_one_event_upload", "src/_zkapauthorizer/replicate.py:_ReplicationService._do_one_snapshot_upload"]}
{"id": "C43", "title": "Events are recorded once each, in execution order", "statement": "With an observer attached, the mutating statements executed by committed transactions appear in the event log exactly once, in execution order, with strictly increasing sequence numbers; queries are never recorded and nothing is recorded before replication is enabled.", "quantifier": "every sequence of transactions", "why_tests_cant": "all histories", "anchors": ["src/_zkapauthorizer/replicate.py:_ReplicationCapableCursor", "src/_zkapauthorizer/replicate.py:add_events", "src/_zkapauthorizer/sql.py:statement_mutates"]}
{"id": "C44", "title": "Event streams round-trip through their serialised form", "statement": "Decoding an encoded event stream gives back the same changes; the highest sequence number and thus the object name of a stream is that of its last change; unknown versions are refused.", "quantifier": "every event stream", "why_tests_cant": "all values", "anchors": ["src/_zkapauthorizer/replicate.py:EventStream", "src/_zkapauthorizer/replicate.py:event_stream_name"]}
{"id": "C45", "title": "Recovery replays event streams in sequence order", "statement": "Whatever order the directory lists them in, the streams are replayed in increasing order of their number, each exactly once, and entries which are not event streams are ignored.", "quantifier": "every directory listing", "why_tests_cant": "all permutations", "anchors": ["src/_zkapauthorizer/recover.py:sorted_event_streams", "src/_zkapauthorizer/replicate.py:event_stream_name"]}
{"id": "C46", "title": "Recovery only ever fills an empty wallet, and a failed recovery leaves it empty", "statement": "A recovery attempt on a wallet that has a voucher is refused without any change; a recovery that fails at any stage leaves the wallet as it was; a recovery that succeeds reports success.", "quantifier": "every wallet state, every snapshot content and every failure point", "why_tests_cant": "all failure points", "anchors": ["src/_zkapauthorizer/recover.py:StatefulRecoverer.recover", "src/_zkapauthorizer/model.py:VoucherStore.call_if_empty", "src/_zkapauthorizer/recover.py:recover_snapshot"]}
{"id": "C47", "title": "Recovery stages progress sensibly", "statement": "The stages sent to the clients watching a recovery come in the order started, inspect_replica, downloading, importing, and end in exactly one final stage: succeeded, download_failed or import_failed; nothing follows the final stage; at most one recovery is ever run per node process; every client asking with the same capability receives all stages from the first on and is disconnected after the final one, and a client asking with another capability is refused.", "quantifier": "every history of clients coming and going, outcomes of every step and other uses of the wallet", "why_tests_cant": "all outcomes", "anchors": ["src/_zkapauthorizer/recover.py:StatefulRecoverer", "src/_zkapauthorizer/resource.py:RecoverFactory"]}
{"id": "C48", "title": "Upload requests are neither lost nor duplicated", "statement": "At any time at most one startup/upload/snapshot job of each kind is waiting; a request made while one of that kind is running is not lost.", "quantifier": "every interleaving of requests and job completions", "why_tests_cant": "all interleavings", "anchors": ["src/_zkapauthorizer/replicate.py:_ReplicationService.queue_job", "src/_zkapauthorizer/replicate.py:_ReplicationService.wait_for_uploads"]}
{"id": "C49", "title": "Valuable changes are uploaded immediately, others are batched within a bound", "statement": "An upload of the event stream is requested exactly when some observed change is important or the accumulated events are at least as large as the configured bound.", "quantifier": "every sequence of observed changes", "why_tests_cant": "all histories", "anchors": ["src/_zkapauthorizer/replicate.py:_ReplicationService.observed_event", "src/_zkapauthorizer/replicate.py:_ReplicationService.should_upload_eventstream", "src/_zkapauthorizer/replicate.py:AccumulatedChanges"]}
{"id": "C50", "title": "Database upgrades reach the newest version, once", "statement": "Opening a database of any supported older version brings it to the newest version by running exactly the missing upgrades in order; opening an up-to-date database changes nothing; a version from the future is not touched.", "quantifier": "every starting version", "why_tests_cant": "all versions and their compositions", "anchors": ["src/_zkapauthorizer/schema.py:get_schema_upgrades", "src/_zkapauthorizer/schema.py:run_schema_upgrades"]}
{"id": "C51", "title": "Upgrading keeps every token and voucher usable", "statement": "After an upgrade every voucher and unblinded token of the old database is still present, tokens that were spendable are spendable, and every voucher can still be read.", "quantifier": "every old database content", "why_tests_cant": "all database contents", "anchors": ["src/_zkapauthorizer/schema.py:_UPGRADES", "src/_zkapauthorizer/model.py:Voucher.from_row"]}
{"id": "C52", "title": "A lease is renewed exactly when too little time remains", "statement": "During a maintenance run the lease of a storage index on a server is renewed exactly when the soonest share expiration is missing or less than the configured minimum away; otherwise nothing is spent.", "quantifier": "every share stat set, clock value and threshold", "why_tests_cant": "boundary conditions over all clocks", "anchors": ["src/_zkapauthorizer/lease_maintenance.py:needs_lease_renew", "src/_zkapauthorizer/lease_maintenance.py:renew_leases_on_server", "src/_zkapauthorizer/lease_maintenance.py:soonest_expiration"]}
{"id": "C53", "title": "With an adequate margin leases never lapse", "statement": "If every interval between maintenance runs is shorter than the minimum remaining time and than the lease period, then no lease of a maintained share ever expires.", "quantifier": "every sequence of run times", "why_tests_cant": "all schedules", "anchors": ["src/_zkapauthorizer/lease_maintenance.py:lease_maintenance_service", "src/_zkapauthorizer/lease_maintenance.py:needs_lease_renew", "src/_zkapauthorizer/_storage_server.py:LEASE_PERIOD"]}
{"id": "C54", "title": "The default schedule never lets a lease lapse", "statement": "With the default maintenance configuration a share renewed at every run keeps an unexpired lease at all times.", "quantifier": "every schedule allowed by the default configuration", "why_tests_cant": "needs the adversarial schedule", "anchors": ["src/_zkapauthorizer/lease_maintenance.py:LeaseMaintenanceConfig", "src/_zkapauthorizer/lease_maintenance.py:needs_lease_renew"]}
{"id": "C55", "title": "Maintenance visits everything reachable", "statement": "The crawl visits every file and directory reachable from the root, and only those; its directory walk terminates.", "quantifier": "every directory graph", "why_tests_cant": "all graphs, including cyclic ones", "anchors": ["src/_zkapauthorizer/lease_maintenance.py:visit_storage_indexes", "src/_zkapauthorizer/lease_maintenance.py:iter_storage_indexes"]}
{"id": "C56", "title": "The maintenance report counts what was seen", "statement": "After a maintenance run the recorded cost is the price of all shares observed in the run, and it is what the latest-activity query reports.", "quantifier": "every sequence of observations and runs", "why_tests_cant": "all histories", "anchors": ["src/_zkapauthorizer/model.py:LeaseMaintenance", "src/_zkapauthorizer/model.py:VoucherStore.get_latest_lease_maintenance_activity"]}
{"id": "C57", "title": "Maintenance is scheduled sensibly across restarts", "statement": "After a restart the time to the first maintenance run is never negative, and is the sampled interval minus the time since the last run when that is in the future, immediate when overdue.", "quantifier": "every last-run time, clock and sampled interval", "why_tests_cant": "all times", "anchors": ["src/_zkapauthorizer/lease_maintenance.py:calculate_initial_interval", "src/_zkapauthorizer/lease_maintenance.py:_FuzzyTimerService"]}
{"id": "C58", "title": "Passes survive the wire", "statement": "Decoding the bytes of a pass gives back the same pass, for every pass whose two parts are base64 text, which those that redemption makes are; exactly the byte strings of two parts of the right length around one space are accepted, and all others are refused.", "quantifier": "every pass with base64 parts; every byte string", "why_tests_cant": "all values", "anchors": ["src/_zkapauthorizer/model.py:Pass.bytes", "src/_zkapauthorizer/model.py:Pass.from_bytes", "src/_zkapauthorizer/_storage_client.py:_encode_passes"]}
{"id": "C59", "title": "Voucher records survive JSON", "statement": "Reading back the JSON form of a voucher gives the same voucher in every state.", "quantifier": "every voucher in every state", "why_tests_cant": "all values", "anchors": ["src/_zkapauthorizer/model.py:Voucher.to_json_v1", "src/_zkapauthorizer/model.py:Voucher.from_json"]}
{"id": "C60", "title": "No HTTP resource without the exact token", "statement": "A request reaches a protected resource exactly when its Authorization header is the right scheme followed by the exact secret; anything else, including prefixes and extensions of the secret, is refused.", "quantifier": "every header value", "why_tests_cant": "all byte strings", "anchors": ["src/_zkapauthorizer/private.py:TokenChecker", "src/_zkapauthorizer/private.py:TokenCredentialFactory", "src/_zkapauthorizer/private.py:create_private_tree"]}
{"id": "C61", "title": "The price endpoint answers exactly the well-formed requests", "statement": "The calculate-price endpoint answers 200 with the price exactly when content type, JSON body, version and sizes are well formed; every other body gets a 400, never a crash.", "quantifier": "every request body", "why_tests_cant": "all JSON values", "anchors": ["src/_zkapauthorizer/resource.py:_CalculatePrice.render_POST"]}
{"id": "C62", "title": "Only syntactically valid vouchers are accepted", "statement": "A PUT voucher request is accepted exactly when the body is an object with the single key voucher whose value is a string of the right length in url-safe base64.", "quantifier": "every request body", "why_tests_cant": "all JSON values", "anchors": ["src/_zkapauthorizer/resource.py:_VoucherCollection.render_PUT", "src/_zkapauthorizer/resource.py:is_syntactic_voucher", "src/_zkapauthorizer/_base64.py:urlsafe_b64decode"]}
{"id": "C63", "title": "Lease-maintenance configuration round-trips", "statement": "Writing a lease maintenance configuration into the node configuration and reading it back yields the same configuration; unset values give the defaults.", "quantifier": "every configuration", "why_tests_cant": "all values", "anchors": ["src/_zkapauthorizer/lease_maintenance.py:lease_maintenance_config_to_dict", "src/_zkapauthorizer/lease_maintenance.py:lease_maintenance_config_from_dict", "src/_zkapauthorizer/config.py:read_duration"]}
{"id": "C64", "title": "Errors in logs never reveal capabilities", "statement": "The text used to report a failed request to the local node has every capability in the URL path replaced; no capability character sequence of the path survives.", "quantifier": "every URL", "why_tests_cant": "all strings", "anchors": ["src/_zkapauthorizer/tahoe.py:_scrub_caps_from_url"]}
{"id": "C65", "title": "Downloads replace files atomically", "statement": "A download either leaves the destination untouched or replaces it with the complete downloaded content; it is never partial.", "quantifier": "every failure point of a download", "why_tests_cant": "all crash points", "anchors": ["src/_zkapauthorizer/tahoe.py:download"]}
{"id": "C66", "title": "Grid operations are retried exactly while the grid is unavailable", "statement": "A grid operation is attempted again exactly after errors that mean that the node or enough servers are unavailable; the first other outcome, result or error, is what the caller gets, and nothing is attempted after it. Each attempt at an upload sends all of the data.", "quantifier": "every sequence of outcomes", "why_tests_cant": "all outcome sequences", "anchors": ["src/_zkapauthorizer/tahoe.py:async_retry", "src/_zkapauthorizer/tahoe.py:_common_tahoe_errors", "src/_zkapauthorizer/tahoe.py:upload_bytes"]}
{"id": "C67", "title": "A pass pays only once", "statement": "A storage server accepts a pass for payment at most once: a pass it has recorded as spent does not pay for a later request, and a pass presented twice in one request counts once.", "quantifier": "every history of requests", "why_tests_cant": "needs adversarial replays over all histories", "anchors": ["src/_zkapauthorizer/_storage_server.py:_ValidationResult", "src/_zkapauthorizer/server/spending.py:RecordingSpender", "src/_zkapauthorizer/spending.py"]}
{"id": "C68", "title": "An accepted request spends exactly its price", "statement": "After an accepted request the server's record of spent passes has grown by exactly the price of the request.", "quantifier": "every reachable server state and every accepted request", "why_tests_cant": "relates every request shape to the record", "anchors": ["src/_zkapauthorizer/_storage_server.py:ZKAPAuthorizerStorageServer", "src/_zkapauthorizer/server/spending.py:RecordingSpender"]}
{"id": "C69", "title": "What is stored is what was paid for", "statement": "The number of bytes by which the live shares of a slot grow in an accepted write is covered by the passes that verified for it, and slots not named in a request are left alone.", "quantifier": "every reachable server state and every accepted write", "why_tests_cant": "all slot states and write vectors", "anchors": ["src/_zkapauthorizer/_storage_server.py:ZKAPAuthorizerStorageServer.remote_slot_testv_and_readv_and_writev", "src/_zkapauthorizer/_storage_server.py:get_writev_price"]}
{"id": "C70", "title": "A request answered with an error changes nothing", "statement": "When the server answers a request with an error, the stored shares, their leases and the record of spent passes are the same as before.", "quantifier": "every reachable server state, every request, every error", "why_tests_cant": "all failure points", "anchors": ["src/_zkapauthorizer/_storage_server.py:ZKAPAuthorizerStorageServer", "src/_zkapauthorizer/server/spending.py:RecordingSpender"]}
{"id": "C71", "title": "An issuer that keeps its word never makes a voucher double-spent", "statement": "If the issuer says 'already spent' only when a different set of tokens was submitted for that group of the voucher before, then no voucher used by one node only ever ends up marked double-spent.", "quantifier": "every history of submissions, answers, timer firings, crashes and restarts", "why_tests_cant": "all histories", "anchors": ["src/_zkapauthorizer/controller.py:PaymentController.redeem", "src/_zkapauthorizer/controller.py:PaymentController.incorporate_transient_state", "src/_zkapauthorizer/model.py:VoucherStore.add"]}
{"id": "C72", "title": "Replication survives a failed upload", "statement": "When an upload to the grid fails, changes committed later are still uploaded without restarting the node.", "quantifier": "every history with a failed remote operation and every continuation", "why_tests_cant": "all histories and all continuations", "anchors": ["src/_zkapauthorizer/replicate.py:_ReplicationService._wait_for_uploads", "src/_zkapauthorizer/replicate.py:_ReplicationService._do_one_event_upload"]}
{"id": "C73", "title": "New random tokens are uploaded at once, other changes may wait", "statement": "While a node replicates, a call that stores a new voucher or new random tokens for one requests an upload of the event stream right away, and is the only kind of wallet call that is marked as important; every other call only adds to the batch.", "quantifier": "every reachable state of a replicating node and every wallet call", "why_tests_cant": "all histories and all calls", "anchors": ["src/_zkapauthorizer/model.py:VoucherStore.add", "src/_zkapauthorizer/replicate.py:_Important", "src/_zkapauthorizer/replicate.py:_ReplicationService.observed_event"]}
{"id": "C74", "title": "Pruning removes exactly the streams a snapshot covers", "statement": "After a snapshot that covers the changes up to some number, pruning removes from the directory exactly the event streams with at most that number; the snapshot, newer streams and foreign entries stay, and no entry of the directory can make pruning fail.", "quantifier": "every directory listing and every number", "why_tests_cant": "all listings", "anchors": ["src/_zkapauthorizer/replicate.py:_ReplicationService._do_one_snapshot_upload", "src/_zkapauthorizer/replicate.py:get_tahoe_lafs_direntry_pruner", "src/_zkapauthorizer/replicate.py:event_stream_name"]}
{"id": "C75", "title": "A snapshot replays as it was taken, schema first", "statement": "Reading a serialised snapshot gives back the statements it was made of; other versions and items that are no text are refused; on recovery every table definition is executed before every other statement, each statement once and in order, and transaction control statements are skipped.", "quantifier": "every list of statements and every byte string offered as a snapshot", "why_tests_cant": "all values", "anchors": ["src/_zkapauthorizer/replicate.py:statements_to_snapshot", "src/_zkapauthorizer/recover.py:statements_from_snapshot", "src/_zkapauthorizer/recover.py:recover_snapshot"]}
{"id": "C76", "title": "Recovery restores the changes made after the snapshot", "statement": "A recovery for which the snapshot and all event streams can be downloaded and decoded, and whose statements SQLite accepts, leaves the wallet with the snapshot and then every later recorded change applied, and reports success.", "quantifier": "every snapshot, every set of event streams and every database", "why_tests_cant": "unit tests replay the streams on another kind of cursor than the node's own connection, and only for some contents", "anchors": ["src/_zkapauthorizer/recover.py:recover", "src/_zkapauthorizer/recover.py:replay_event_stream", "src/_zkapauthorizer/replicate.py:_ReplicationCapableCursor.execute"]}
{"id": "C77", "title": "Stopping the maintenance service stops it", "statement": "Once the lease maintenance service has been stopped, no further maintenance run begins until the service is started anew.", "quantifier": "every sequence of starts, timer events, run ends, stops and restarts", "why_tests_cant": "the stop may come at any moment, in particular during a run", "anchors": ["src/_zkapauthorizer/lease_maintenance.py:_FuzzyTimerService.stopService", "src/_zkapauthorizer/lease_maintenance.py:_FuzzyTimerService._iterate"]}
{"id": "C78", "title": "One bad server or file does not keep the rest from being maintained", "statement": "When one server fails, or one node of the directory tree cannot be used, the leases that are due for everything else are still renewed in the same run.", "quantifier": "every set of servers, every directory tree and every failure", "why_tests_cant": "any of the servers or nodes may be the bad one", "anchors": ["src/_zkapauthorizer/lease_maintenance.py:renew_leases", "src/_zkapauthorizer/lease_maintenance.py:renew_leases_on_server", "src/_zkapauthorizer/lease_maintenance.py:visit_storage_indexes"]}
{"id": "C79", "title": "Maintenance keeps renewing one lease", "statement": "However many maintenance runs a node makes, they add at most one lease to each share: later runs renew the lease the first of them added.", "quantifier": "every sequence of runs of a node against a server", "why_tests_cant": "all histories", "anchors": ["src/_zkapauthorizer/lease_maintenance.py:renew_lease", "src/_zkapauthorizer/lease_maintenance.py:renew_leases_on_server", "src/_zkapauthorizer/_storage_server.py:ZKAPAuthorizerStorageServer.remote_add_lease"]}
{"id": "C80", "title": "Every accepted schedule keeps maintenance going", "statement": "With any lease maintenance configuration that the node accepts, the end of a maintenance run is followed by another one after the sampled interval.", "quantifier": "every configuration, every sampled interval", "why_tests_cant": "the interval is random, and the bad ones may be rare", "anchors": ["src/_zkapauthorizer/lease_maintenance.py:LeaseMaintenanceConfig.from_node_config", "src/_zkapauthorizer/lease_maintenance.py:lease_maintenance_service", "src/_zkapauthorizer/lease_maintenance.py:_FuzzyTimerService._schedule"]}
{"id": "C82", "title": "Vouchers survive the database", "statement": "After any history of calls on the wallet, every voucher in the database can be read back from its columns, with its number, expected tokens, creation time, and the counter, token count and finish time of its state, and it passes the checks of the voucher type.", "quantifier": "every history of calls that add vouchers expecting at least one token", "why_tests_cant": "all histories and all values", "anchors": ["src/_zkapauthorizer/model.py:Voucher.from_row", "src/_zkapauthorizer/model.py:VoucherStore.add", "src/_zkapauthorizer/sql.py"]}
{"id": "C83", "title": "Stored times survive and sort in time order", "statement": "A time with a timezone written to the database or to the file with the last maintenance run is read back unchanged, and the database orders stored UTC times as they follow in time.", "quantifier": "every pair of times", "why_tests_cant": "all times, with and without microseconds", "anchors": ["src/_zkapauthorizer/model.py:aware_now", "src/_zkapauthorizer/_json.py", "src/_zkapauthorizer/lease_maintenance.py:write_time_to_path", "src/_zkapauthorizer/lease_maintenance.py:read_time_from_path"]}
{"id": "C84", "title": "Vouchers read from JSON have been checked", "statement": "A voucher that is read from JSON has a number of 44 characters that could be a voucher, expects at least one token, and has times with timezones and counters that are not negative.", "quantifier": "every byte string", "why_tests_cant": "all inputs", "anchors": ["src/_zkapauthorizer/model.py:Voucher.from_json", "src/_zkapauthorizer/model.py:Voucher.from_json_v1", "src/_zkapauthorizer/validators.py"]}
{"id": "C85", "title": "A voucher is found under its own number only", "statement": "Asking for a voucher by its number answers 200 with JSON that reads back as the stored voucher if there is one, 404 if not, and 400 for anything that is not shaped like a voucher; never a crash.", "quantifier": "every path segment and every store", "why_tests_cant": "all byte strings", "anchors": ["src/_zkapauthorizer/resource.py:_VoucherCollection.getChild", "src/_zkapauthorizer/resource.py:VoucherView.render_GET"]}
{"id": "C86", "title": "There is at most one replica", "statement": "However requests to set up replication and restarts are interleaved, at most one of them is answered with 201; the answer holds the read capability of the stored write capability, which never changes afterwards.", "quantifier": "every interleaving of requests, failures and restarts", "why_tests_cant": "all interleavings", "anchors": ["src/_zkapauthorizer/replicate.py:setup_tahoe_lafs_replication", "src/_zkapauthorizer/resource.py:ReplicateResource._setup_replication"]}
{"id": "C87", "title": "Asking again tells the recovery capability", "statement": "A request to set up replication that is already set up is answered with 409 and the recovery capability of the replica.", "quantifier": "every replica capability", "why_tests_cant": "the halves are tested separately, with different capabilities in the exception", "anchors": ["src/_zkapauthorizer/replicate.py:setup_tahoe_lafs_replication", "src/_zkapauthorizer/resource.py:ReplicateResource._setup_replication"]}
{"id": "C88", "title": "Recovery starts from well-formed messages only", "statement": "A websocket message starts a recovery exactly if it is a JSON object with the single key recovery-capability and a string that is a read-only directory capability; the recovery uses this capability.", "quantifier": "every payload", "why_tests_cant": "all byte strings", "anchors": ["src/_zkapauthorizer/resource.py:RecoverProtocol.onMessage"]}
{"id": "C81", "title": "An interrupted database upgrade can be completed", "statement": "If the process dies at any point during the upgrade of a database (or the creation of a new one), nothing that was in the database is lost and opening the database again completes the upgrade.", "quantifier": "every starting version and content, every point of interruption", "why_tests_cant": "needs a crash between any two statements of the upgrade", "anchors": ["src/_zkapauthorizer/model.py:initialize_database", "src/_zkapauthorizer/schema.py:run_schema_upgrades"]}
{"id": "C89", "title": "Downloading by path gets the file that the path leads to", "statement": "If the names of a path lead from a directory through directories to a file, exactly this file is downloaded, once, and exactly the directories on the path are listed; otherwise there is an error and nothing is downloaded.", "quantifier": "every directory graph, path and failure of a listing", "why_tests_cant": "all graphs", "anchors": ["src/_zkapauthorizer/tahoe.py:download_child"]}
{"id": "C90", "title": "Listings of directories are complete", "statement": "A listing of a directory has, under its name and in order, every file and directory that the node reports, with its size and its capability; if one entry cannot be read the listing fails.", "quantifier": "every JSON document that a node may answer", "why_tests_cant": "all documents", "anchors": ["src/_zkapauthorizer/tahoe.py:list_directory"]}
{"id": "C91", "title": "Names and capabilities reach the node as they are", "statement": "The URL of a request to the node, read by a server, has the capability and the name of the entry exactly as the caller gave them, whatever characters they have; so different names never share a URL.", "quantifier": "every capability and name", "why_tests_cant": "all strings", "anchors": ["src/_zkapauthorizer/tahoe.py:link", "src/_zkapauthorizer/tahoe.py:unlink", "src/_zkapauthorizer/tahoe.py:list_directory", "src/_zkapauthorizer/tahoe.py:download"]}
{"id": "C92", "title": "What the issuer says about a voucher is what the client believes", "statement": "A redemption attempt ends with 'already spent' exactly when the issuer's answer is a JSON object that does not claim success (success missing or false-like) and gives the reason \"double-spend\", and with 'unpaid' exactly when it gives the reason \"unpaid\" in that way; the HTTP status plays no role. Tokens are only ever taken from an object that claims success. Every other answer, unreadable body or failed request is some other error, after which the voucher can be retried.", "quantifier": "all vouchers, counters, random tokens and answers (any status, any bytes, or none)", "why_tests_cant": "The answer is arbitrary bytes from another party; misreading one permanently writes off a paid voucher or drops it.", "anchors": ["src/_zkapauthorizer/controller.py:611-690"]}
{"id": "C93", "title": "Redeemed tokens are signed by the key the issuer names", "statement": "When a redemption succeeds, there is exactly one token per random token, in the same order, each the token for that random token's preimage under one secret key, the one belonging to the public key named in the answer. The answer of an issuer that signs with its key and proves it is accepted.", "quantifier": "all answers and random tokens, for every Ristretto library that is lawful and whose proofs are sound, and every random token with an invertible blinding factor", "why_tests_cant": "An issuer could sign tokens with different keys to mark users; that the client never accepts such an answer is a claim about all answers.", "anchors": ["src/_zkapauthorizer/controller.py:611-690"]}
{"id": "C94", "title": "Passes made from redeemed tokens are accepted, for their request only", "statement": "Passes made from the tokens of a successful redemption are all accepted by every storage server whose signing key belongs to the public key named at redemption, for the message they were made for. For another message or a server with another key such a pass is accepted exactly if the keyed hashes coincide. The passes meet what C26 assumes about passes.", "quantifier": "all redemptions, messages, keys and libraries as in C93 whose base point generates the group", "why_tests_cant": "Client and server compute the same value along different paths; agreement for all tokens is algebra.", "anchors": ["src/_zkapauthorizer/controller.py:692-719", "src/_zkapauthorizer/_storage_server.py:129-184"]}
{"id": "C95", "title": "The issuer cannot link passes to vouchers", "statement": "The request made to the issuer holds the voucher's number, the counter and the blinded tokens, nothing else. For any other preimages there are blinding factors that give exactly the same request, so the preimages behind two redemptions could have been exchanged without the issuer noticing.", "quantifier": "all vouchers, counters, random tokens and preimages (that do not hash to the identity), for every lawful library over a group of prime order", "why_tests_cant": "Unlinkability is a statement about what could have happened instead; no run shows it.", "anchors": ["src/_zkapauthorizer/controller.py:598-632"]}
{"id": "C96", "title": "The cost of the replica stays within ten snapshots", "statement": "The policy calls for a new snapshot exactly if the files of the replica cost more passes than ten new snapshots would. Once changes are being uploaded and nothing fails or changes any more, replication comes to rest with a replica that costs at most ten times a snapshot of the present database.", "quantifier": "all pass values, encodings, databases, file sizes and histories of transactions, starts, failures and kills before the upload", "why_tests_cant": "The bound is about every history and every schedule of uploads, including snapshots and removals still pending; tests look at single decisions.", "anchors": ["src/_zkapauthorizer/_plugin.py:_CostBasedPolicy", "src/_zkapauthorizer/replicate.py:_ReplicationService"]}
{"id": "C97", "title": "The spending metric says what was spent", "statement": "Every accepted paid request makes one observation in the server's spending histogram and no other request makes any. The exposed histogram gives for each bound the number of observations up to it, their number and their sum; the sum equals the number of passes recorded as spent.", "quantifier": "all histories of requests, uploads, disconnections and removals on a server with an empty disk", "why_tests_cant": "The sum and the record are updated at different places by three operations; agreement is a statement about all histories, including refused and failing requests.", "anchors": ["src/_zkapauthorizer/_storage_server.py:ZKAPAuthorizerStorageServer", "src/_zkapauthorizer/server/spending.py:RecordingSpender"]}
{"id": "C98", "title": "The paid calls are Tahoe's calls with passes in front", "statement": "A paid remote method takes a list of passes first and then exactly the arguments, by position or by name, that the Tahoe-LAFS method takes, and hands them to the implementation unchanged. No call gets through without a list of at most 2^20 passes of 177 bytes. Answers are checked as those of the Tahoe-LAFS method are.", "quantifier": "all method schemas, all positional and keyword arguments", "why_tests_cant": "Argument mapping is generic over schemas; tests use two or three calls.", "anchors": ["src/_zkapauthorizer/foolscap.py:add_arguments", "src/_zkapauthorizer/foolscap.py:add_passes"]}
{"id": "C99", "title": "What passes can pay for can be asked for", "statement": "The passes the client makes from its tokens fit the wire protocol, whatever their number: an operation whose price the client can pay is an operation it can request.", "quantifier": "all tokens, messages and libraries; all sizes of shares", "why_tests_cant": "The limit lies at a million passes, where no test goes.", "anchors": ["src/_zkapauthorizer/foolscap.py:_PassList", "src/_zkapauthorizer/controller.py:tokens_to_passes"]}
{"id": "C100", "title": "A node has one connection to its database and at most one replication service", "statement": "However often the plugin is asked for storage clients, HTTP resources and the maintenance service, and however often some of them are dropped, a process opens the database of a node once and runs at most one replication service for it, and it runs one exactly if replication has been set up.", "quantifier": "all histories of requests, attachments, drops and replication set-ups", "why_tests_cant": "The store is found through a weak reference; what matters is every order in which its users come and go.", "anchors": ["src/_zkapauthorizer/_plugin.py:199-239", "src/_zkapauthorizer/_plugin.py:294-342", "src/_zkapauthorizer/_plugin.py:370-436"]}
{"id": "C101", "title": "Enough good tokens always suffice", "statement": "A client whose wallet holds, among whatever bad tokens, as many good tokens as a request costs is served: bucket allocation, lease renewal and mutable writes each end, after at most one attempt more than the wallet has bad tokens, with the very answer the server has for anybody who pays, and never for lack of passes.", "quantifier": "every stored state, request, pass value, wallet and set of tokens the server finds bad, in whatever order the wallet hands tokens out", "why_tests_cant": "Which tokens are bad and when each is picked is unbounded; that the replacement of bad passes always converges to a paid request is a liveness property of client and server together.", "anchors": ["src/_zkapauthorizer/_storage_client.py:72-254", "src/_zkapauthorizer/_storage_client.py:468-661", "src/_zkapauthorizer/_storage_server.py:159-195"]}
{"id": "C102", "title": "An operation on the grid succeeds exactly if the node says so", "statement": "Uploading, making a directory, listing, linking and unlinking return normally only if the node answered the last request in full with success, and then with what that answer says; any other outcome is an exception that tells what came back: status and text, a broken connection, text that cannot be read. No request that was answered with success is made again, and a node that is not up yet and then answers with success leads to success.", "quantifier": "all sequences of answers and connection failures, all operations, capabilities and names", "why_tests_cant": "Tests use a memory grid that always succeeds, or one error at a time.", "anchors": ["src/_zkapauthorizer/tahoe.py:198-235", "src/_zkapauthorizer/tahoe.py:293-421"]}
{"id": "C103", "title": "Tokens signed with a key listed as allowed can be spent", "statement": "The allowed public keys are exactly the ones written, separated by commas, in the option allowed-public-keys, whatever blanks surround them; without the option the client does not start. (Tokens signed with another key are put aside.)", "quantifier": "all lists of keys without blanks or commas in them, all ways to write them down", "why_tests_cant": "Tests write one list, without blanks.", "anchors": ["src/_zkapauthorizer/storage_common.py:123-135"]}
{"id": "C104", "title": "The plugin is in use exactly if it is named", "statement": "A node counts as a client of the plugin exactly if the plugin's name is one of the comma-separated names in storage.plugins, with any blanks around the names; without the option it does not.", "quantifier": "all lists of names, all ways to write them down", "why_tests_cant": "Tests have one or two lists.", "anchors": ["src/_zkapauthorizer/_plugin.py:477-485"]}
{"id": "C105", "title": "A client only pays servers with the issuer it is configured for", "statement": "With the ordinary redeemer a client is set up for a server exactly if an issuer is configured, the server announces precisely this issuer, it is a URL, and the pass value is a number; then passes come from this issuer and the pass value is the configured one. If the issuers differ, the error names both. Vouchers are redeemed at the configured issuer. Pass value, token count and erasure parameters are the configured numbers, or 1 MiB, 32768 and 3 of 10; a server announces its configured issuer and its key. A value that is written but is not a number is an error, and never replaced by the usual one; a redeemer for tests is used only under its own name.", "quantifier": "all configurations of client and server, all announcements, all numbers", "why_tests_cant": "Tests cover one mismatch.", "anchors": ["src/_zkapauthorizer/controller.py:568-598", "src/_zkapauthorizer/controller.py:1106-1128", "src/_zkapauthorizer/_plugin.py:249-316", "src/_zkapauthorizer/storage_common.py:73-120", "src/_zkapauthorizer/resource.py:85-104"]}
{"id": "C106", "title": "Client and server agree on what a pass is worth", "statement": "A client that is set up for a server uses the server's pass value and accepts tokens of the server's key. If the values differ nonetheless: a client that counts too few passes gets an error, the server is unchanged and no token is spent; a client that counts too many is served if it has enough good tokens, and all it presented are spent (for an allocation, its own price of the buckets made).", "quantifier": "all configurations, requests, server states and wallets", "why_tests_cant": "Tests use one pass value for both sides.", "anchors": ["src/_zkapauthorizer/_plugin.py:249-316", "src/_zkapauthorizer/_storage_client.py:116-203", "src/_zkapauthorizer/_storage_client.py:435-661"]}
{"id": "C107", "title": "Malformed answers are refused", "statement": "An answer of a storage server that is not of the type the client's method promises raises ValueError and is not returned; a reference to something that is no ZKAPAuthorizer storage server is refused before anything is sent. If the malformed answer is an estimate of sizes, no token is taken; if it is the answer to a paid write, no token is spent and all return to the wallet. Well-formed answers are returned unchanged.", "quantifier": "every value Foolscap can deliver (floats left out), every interface name, every wallet", "why_tests_cant": "the space of values a hostile server can send", "anchors": ["src/_zkapauthorizer/_storage_client.py:257-357", "src/_zkapauthorizer/_storage_client.py:396-433", "src/_zkapauthorizer/_storage_client.py:506-581", "src/_zkapauthorizer/_storage_client.py:663-679"]}
{"id": "C108", "title": "A lying server cannot make a call cost more than its price", "statement": "However a server answers, an allocation spends at most the price of the shares that were asked for, a lease at most the price of the share sizes the server reported, a write at most the price of writing to shares that do not exist.", "quantifier": "every server (any answers, to the questions about sizes and to the calls), every wallet, pass value and request", "why_tests_cant": "the server is adversarial", "anchors": ["src/_zkapauthorizer/_storage_client.py:435-556", "src/_zkapauthorizer/_storage_client.py:583-661", "src/_zkapauthorizer/storage_common.py:141-169", "src/_zkapauthorizer/model.py:VoucherStore.get_unblinded_tokens"]}
{"id": "C109", "title": "Calls made at the same time do not disturb each other", "statement": "While any number of paid calls are in progress on one wallet, no pass is presented by two of them at once and no pass is spent or rejected for more than one. At any moment every pass presented so far is gone if it paid for a call, invalid if a server rejected it, in use exactly while a call waits with it, and otherwise free for the next call; passes no call presented are left alone.", "quantifier": "every number of calls, every interleaving of their beginnings, the answers of their servers and harmless other uses of the wallet (anything but restarting the process or taking, spending, invalidating or resetting passes by hand), every answer", "why_tests_cant": "the interleavings of concurrent calls are unbounded", "anchors": ["src/_zkapauthorizer/_storage_client.py:116-203", "src/_zkapauthorizer/_storage_client.py:435-504", "src/_zkapauthorizer/spending.py:120-235", "src/_zkapauthorizer/model.py:VoucherStore.get_unblinded_tokens"]}
{"id": "C110", "title": "The books balance", "statement": "However paid calls interleave, the number of passes in the wallet is what it was, plus what was received, less exactly what each successful call costs and what servers rejected, no pass counted twice. If the wallet begins with as many spendable passes as all calls ask for and servers reject, no call fails for lack of passes.", "quantifier": "as C109; for the second part, calls asking for a number of passes not below zero and wallets of fewer than 2^63 passes", "why_tests_cant": "the interleavings of concurrent calls are unbounded", "anchors": ["src/_zkapauthorizer/_storage_client.py:116-203", "src/_zkapauthorizer/_storage_client.py:435-504", "src/_zkapauthorizer/spending.py:120-235", "src/_zkapauthorizer/model.py:VoucherStore.get_unblinded_tokens"]}
{"id": "C111", "title": "The issuer's answer takes effect at once", "statement": "When the issuer answers a redemption request, the next thing the user sees of that voucher is that answer: double spent, unpaid or in error since now, or, on success, redeemed with the number of spendable tokens received if this was the last group and being redeemed if not, the next group being requested at once. The tokens of a successful answer are stored as one group under the key the issuer named, spendable exactly if that key is allowed; tokens that cannot be stored change nothing.", "quantifier": "every history of a node, every open request, every answer", "why_tests_cant": "all histories before the answer, such as an earlier different answer for the same voucher", "anchors": ["src/_zkapauthorizer/controller.py:PaymentController._perform_redeem", "src/_zkapauthorizer/controller.py:PaymentController.incorporate_transient_state", "src/_zkapauthorizer/model.py:VoucherStore.insert_unblinded_tokens_for_voucher"]}
{"id": "C112", "title": "The period of a quoted price is kept", "statement": "The period named with a calculated price is positive, and lease maintenance never pays again for something while all leases it is told of on it are younger than that period; no longer period could be named.", "quantifier": "every configured minimum remaining time, every run of lease maintenance, all servers and answers", "why_tests_cant": "all configurations, times and answers", "anchors": ["src/_zkapauthorizer/lease_maintenance.py:LeaseMaintenanceConfig.get_lease_duration", "src/_zkapauthorizer/lease_maintenance.py:needs_lease_renew", "src/_zkapauthorizer/resource.py:from_configuration"]}
{"id": "C113", "title": "A request without the token learns and changes nothing", "statement": "Every HTTP request that does not carry the API token is answered with the same 401 in all states of the node, whatever its method, path and body, and nothing is done. Leaving all such requests out of a history changes neither the state the node ends in nor the answer to any other request.", "quantifier": "every history of requests and other events, every request", "why_tests_cant": "all paths, methods and states, and interleavings with legitimate requests", "anchors": ["src/_zkapauthorizer/resource.py:from_configuration", "src/_zkapauthorizer/private.py:create_private_tree"]}
{"id": "C114", "title": "Looking changes nothing, and the list shows each voucher as its own page does", "statement": "Only submitting a voucher changes the wallet. The list of vouchers is answered with 200 and shows exactly the vouchers the node has, each with its number, expected tokens, creation time and current state, and each exactly as its own page shows it; every other voucher number is answered with 404. A JSON reader reads the list as that. There is nothing else: every other path is answered with 404.", "quantifier": "every history of the node, every request with the token", "why_tests_cant": "all histories and states; agreement of two views in all of them", "anchors": ["src/_zkapauthorizer/resource.py:_VoucherCollection", "src/_zkapauthorizer/resource.py:VoucherView", "src/_zkapauthorizer/controller.py:PaymentController.incorporate_transient_state"]}
{"id": "C115", "title": "A submitted voucher is shown from then on, and only submitted ones are", "statement": "A well-formed submission is answered with 200, and from then on, whatever happens, restarts included, the voucher's page exists; a voucher that has a page was submitted by a request with the token.", "quantifier": "every history after the submission, every configuration", "why_tests_cant": "unbounded histories after the submission; all configurations of token and group counts", "anchors": ["src/_zkapauthorizer/resource.py:_VoucherCollection.render_PUT", "src/_zkapauthorizer/controller.py:PaymentController.redeem", "src/_zkapauthorizer/model.py:VoucherStore.add"]}
{"id": "C116", "title": "The report says how many tokens can be spent", "statement": "The lease maintenance page is answered with 200; its total is the number of tokens that can be taken from the wallet right now: taking that many or fewer works, taking more fails; its spending part gives finishing time and cost of the run of lease maintenance that finished last, and is null if none has.", "quantifier": "every history of the node, every number of tokens asked for", "why_tests_cant": "all histories; agreement of the shown number with what the wallet will give", "anchors": ["src/_zkapauthorizer/resource.py:_LeaseMaintenanceResource.render_GET", "src/_zkapauthorizer/model.py:VoucherStore.count_unblinded_tokens", "src/_zkapauthorizer/model.py:VoucherStore.get_latest_lease_maintenance_activity"]}
{"id": "C117", "title": "A recovered wallet gives the tokens the lost one had", "statement": "After a recovery, asking the wallet for tokens gives every spendable token the lost wallet had at the time the backup shows, each once and no others; and from a restart on the recovered wallet answers every sequence of calls as the lost one, restarted then, would.", "quantifier": "every history of calls and uploads of the lost node, every sequence of calls afterwards", "why_tests_cant": "all histories of calls, uploads and snapshots before the recovery and all calls after it", "anchors": ["src/_zkapauthorizer/recover.py:recover", "src/_zkapauthorizer/replicate.py:_ReplicationCapableCursor.execute", "src/_zkapauthorizer/model.py:VoucherStore.get_unblinded_tokens", "src/_zkapauthorizer/model.py:VoucherStore.count_unblinded_tokens"]}
{"id": "C118", "title": "A generated configuration says what it was generated from", "statement": "The text generated from several dictionaries of sections can be read by Tahoe, and every option has the value given for it; where several dictionaries give items of one section these are merged, and of several values for one option the last one counts.", "quantifier": "all sequences of dictionaries whose names and values fit on one line, every section and option", "why_tests_cant": "all names and values (percent signs, equals signs, blanks inside, empty values) and all ways of dividing the sections", "anchors": ["src/_zkapauthorizer/configutil.py:config_string_from_sections", "src/_zkapauthorizer/configutil.py:_merge_dictionaries", "src/_zkapauthorizer/configutil.py:_tahoe_config_quote"]}
{"id": "C120", "title": "Redeeming leaves the process's limits as they were", "statement": "Whatever the issuer answers to any number of redemptions, afterwards the limits on the size of the process's stack are what they were before.", "quantifier": "every sequence of redemptions, every answer of the issuer, every limits and every system on which a raised soft limit can be lowered again", "why_tests_cant": "all answers, well-formed or not, in any order, and all systems", "anchors": ["src/_zkapauthorizer/_stack.py:less_limited_stack", "src/_zkapauthorizer/controller.py:RistrettoRedeemer.redeemWithCounter"]}
{"id": "C122", "title": "What was redeemed pays for storage", "statement": "A client whose wallet was filled by successful redemptions under public keys that belong to a server's signing key, and that still has as many tokens as a request costs, is served at the first attempt: bucket allocation, lease renewal and mutable writes each end with the very answer the server has for anybody who pays.", "quantifier": "every history of the wallet, every issuer's answers, every stored state, request and pass value, in whatever order the wallet hands tokens out", "why_tests_cant": "the whole way from the issuer's answer over the wallet to the server's check, for all histories, tokens, keys and requests", "anchors": ["src/_zkapauthorizer/controller.py:RistrettoRedeemer.redeemWithCounter", "src/_zkapauthorizer/controller.py:RistrettoRedeemer.tokens_to_passes", "src/_zkapauthorizer/model.py:VoucherStore.insert_unblinded_tokens_for_voucher", "src/_zkapauthorizer/_storage_client.py:call_with_passes", "src/_zkapauthorizer/_storage_server.py:_is_invalid_pass"]}
{"id": "C123", "title": "Every lease was paid for, and what was paid for is given and kept", "statement": "Every lease a storage server holds on a share was bought: an earlier request about that very share, made with the lease's secret and with passes worth its full price at that time, gave it for 31 days; every immutable share is as large as a paid request said. Conversely an accepted upload or renewal gives such leases, and nothing but removing the share or giving up the upload takes them away.", "quantifier": "every history of requests, finished and abandoned uploads and removals, starting with an empty disk", "why_tests_cant": "relates each lease on the disk to one request of an arbitrarily long history", "anchors": ["src/_zkapauthorizer/_storage_server.py:ZKAPAuthorizerStorageServer", "src/_zkapauthorizer/_storage_server.py:add_leases_for_writev", "src/_zkapauthorizer/_storage_server.py:check_pass_quantity_for_lease"]}
{"id": "C124", "title": "A maintenance run keeps everything leased and costs no more than it reports", "statement": "If everything under a node's root directory can be listed, its servers have room, and its wallet holds as many good unused tokens as one more month for all of it costs, then a run of lease maintenance succeeds, every share of everything under the root on every connected server ends up with a lease for at least the time that is to be kept, and the wallet keeps all other tokens. Whatever happens during the run, it adds no share, removes none and changes what is in none, and no more tokens are spent than the run's record in the wallet says; if the run succeeds the record says exactly the price of one month for everything under the root.", "quantifier": "every directory tree, any number of servers in any reachable state, every wallet history, every order in which the wallet hands out tokens and the walk gives indexes, all delays", "why_tests_cant": "one statement about the walk, the wallet, the client and all servers together, for arbitrary trees, states and failures", "anchors": ["src/_zkapauthorizer/lease_maintenance.py:renew_leases", "src/_zkapauthorizer/lease_maintenance.py:renew_leases_on_server", "src/_zkapauthorizer/_storage_client.py:ZKAPAuthorizerStorageClient.add_lease", "src/_zkapauthorizer/model.py:LeaseMaintenance.observe", "src/_zkapauthorizer/_storage_server.py:ZKAPAuthorizerStorageServer.remote_add_lease"]}
{"id": "C125", "title": "Enough tokens keep everything stored for as long as they last", "statement": "A node whose wallet holds as many good tokens as all of its data costs for a number of months keeps all of its data leased through as many maintenance runs, whenever they are due: every one of the runs succeeds, and after each of them every share that was there at the beginning is still there, with unchanged contents and a lease for the time that is to be kept from the beginning of that run.", "quantifier": "every directory tree, any number of servers and runs, every wallet history, all delays and due times", "why_tests_cant": "an unbounded number of consecutive runs over arbitrary trees, servers and wallets", "anchors": ["src/_zkapauthorizer/lease_maintenance.py:renew_leases", "src/_zkapauthorizer/lease_maintenance.py:_FuzzyTimerService", "src/_zkapauthorizer/_storage_client.py:call_with_passes", "src/_zkapauthorizer/model.py:VoucherStore.get_unblinded_tokens"]}
{"id": "C126", "title": "The server is paid for everything it holds", "statement": "At any time, all shares that a storage server stores and all shares that are being uploaded to it, priced share by share at the server's rate, cost no more than the number of passes the server has recorded as spent. Deleting, aborting, renewing and rewriting shares cannot get a client more storage than was paid for.", "quantifier": "every history of requests, uploads, disconnections and removals of a server that started empty, with any passes, clocks and disk space; every set of storage indexes", "why_tests_cant": "a global invariant of unbounded interleavings of uploads, writes, renewals, aborts and removals over all storage indexes", "anchors": ["src/_zkapauthorizer/_storage_server.py:ZKAPAuthorizerStorageServer.remote_allocate_buckets", "src/_zkapauthorizer/_storage_server.py:ZKAPAuthorizerStorageServer.remote_slot_testv_and_readv_and_writev", "src/_zkapauthorizer/_storage_server.py:get_writev_price", "src/_zkapauthorizer/server/spending.py:RecordingSpender.mark_as_spent"]}
{"id": "C127", "title": "A maintenance run that ends well has kept everything", "statement": "If a lease maintenance run reports no error then everything that can be reached from the root has a storage index, and every share of it that any connected storage server had at the beginning of the run is there at its end, with unchanged contents and a lease for at least the time that is to be kept (or for nearly a month, if that is less). No failed payment, refused renewal, lack of room or unreadable directory goes unnoticed.", "quantifier": "every directory graph, wallet content, set of reachable server states, room on the servers, pass value, delays of the remote calls and order of the walk", "why_tests_cant": "a claim about all ways in which any of the remote calls and payments of a run may fail, over all graphs and server states", "anchors": ["src/_zkapauthorizer/lease_maintenance.py:renew_leases", "src/_zkapauthorizer/lease_maintenance.py:renew_leases_on_server", "src/_zkapauthorizer/lease_maintenance.py:maintain_leases_from_root", "src/_zkapauthorizer/_storage_client.py:ZKAPAuthorizerStorageClient.add_lease"]}
{"id": "C128", "title": "An upload ends with its connection", "statement": "The storage server has room set aside for exactly the uploads that were allowed and have since been neither finished nor given up, over connections that have not been lost. The loss of a connection ends the unfinished uploads made over it and no others; it changes no finished share, gives no pass back and leaves later uploads of the same shares alone. What the server remembers of connections is one entry for every upload in progress and nothing else, however many there have been.", "quantifier": "every history of requests over any number of connections, with any passes, of bucket writers closed or aborted at any time (also late, or twice), of removed shares and of lost connections", "why_tests_cant": "a claim about all interleavings of uploads and disconnections, and about what is left after any number of them", "anchors": ["src/_zkapauthorizer/_storage_server.py:ZKAPAuthorizerStorageServer._bucket_writer_closed", "src/_zkapauthorizer/_storage_server.py:ZKAPAuthorizerStorageServer.remote_allocate_buckets", "src/_zkapauthorizer/_storage_server.py:ZKAPAuthorizerStorageServer.__attrs_post_init__"]}
{"id": "C129", "title": "Redeemed vouchers keep everything leased", "statement": "If the tokens of a node's wallet came from redemptions under keys that belong to the servers' signing key, and there are enough of them for a number of lease maintenance runs at the exact price of what is stored under the root, then all these runs come to an end without error, and after each of them every share of everything under the root is still there, with unchanged contents and a lease for the time that is to be kept; the tokens that were not needed can still be spent.", "quantifier": "every signature library obeying the laws of the Ristretto one, every wallet filled by redemptions, every graph of directories without cycles, every set of reachable server states that can hold the leases, all delays and orders, any number of runs", "why_tests_cant": "an end-to-end claim over redemption, wallet, price, server and maintenance, for all of their states", "anchors": ["src/_zkapauthorizer/controller.py:RistrettoRedeemer", "src/_zkapauthorizer/lease_maintenance.py:renew_leases", "src/_zkapauthorizer/_storage_client.py:ZKAPAuthorizerStorageClient.add_lease", "src/_zkapauthorizer/_storage_server.py:ZKAPAuthorizerStorageServer.remote_add_lease"]}
{"id": "C130", "title": "The quoted price is enough to upload", "statement": "With at least as many good tokens as the price calculator quotes for some files, uploading all shares of these files, encoded as the calculator supposes, to servers with room succeeds: every share ends up where it was to go, with its contents and a month's lease or as it was there before; no share already stored is lost and no others are stored; no more tokens are spent than quoted, exactly as many if none of the shares was stored before, and the others can still be spent. If shares are larger than supposed, by however little, then some files cost more than quoted.", "quantifier": "every list of files and placement of their shares on servers, every reachable server state with no upload under way, every wallet, all delays, orders, pass values and encodings", "why_tests_cant": "an end-to-end claim over the calculator, the client's loop, the wallet and the servers, for all of their states", "anchors": ["src/_zkapauthorizer/pricecalculator.py:PriceCalculator.calculate", "src/_zkapauthorizer/_storage_client.py:ZKAPAuthorizerStorageClient.allocate_buckets", "src/_zkapauthorizer/_storage_server.py:ZKAPAuthorizerStorageServer.remote_allocate_buckets"]}
{"id": "C131", "title": "Uploaded files are kept for the quoted price", "statement": "With enough good tokens to pay the price the calculator quotes for some files once to upload them, and once more, together with the price of whatever else is stored, for each of any number of later runs of lease maintenance: the upload and all runs succeed, and after every run each share of each file is on its server with what was uploaded and a lease for the time to be kept; the tokens beyond these prices can still be spent. Tokens redeemed with keys of the servers' issuer are good ones; and if no directory is below itself, the runs come to their end.", "quantifier": "every list of files and placement of their shares on servers that hold none of them, every tree they are linked in, every number and timing of runs, every reachable server state with no upload under way, every wallet, all delays, orders, pass values and encodings", "why_tests_cant": "an end-to-end claim over the calculator, uploads, maintenance, the wallet and the servers, over any span of time", "anchors": ["src/_zkapauthorizer/pricecalculator.py:PriceCalculator.calculate", "src/_zkapauthorizer/_storage_client.py:ZKAPAuthorizerStorageClient", "src/_zkapauthorizer/_storage_server.py:ZKAPAuthorizerStorageServer", "src/_zkapauthorizer/lease_maintenance.py:maintain_leases_from_root"]}
{"id": "C132", "title": "Exactly the JSON texts are read as JSON", "statement": "What the node reads from a message, an answer or a listing is what the JSON grammar says it is, and nothing that is not JSON is read: blanks, literals, numbers, strings with their escapes and surrogate pairs, arrays and objects, where of members with the same name the last one counts; besides JSON only NaN and Infinity are taken, and numbers with too many digits and texts nested too deeply are not. A text has one reading only, and text is read from exactly the bytes that are UTF-8.", "quantifier": "every text, every limit on digits and depth", "why_tests_cant": "all texts; both that each JSON text is read and that no other is", "anchors": ["src/_zkapauthorizer/_json.py:loads"]}
{"id": "C133", "title": "The log of spending accounts for every token and shows none", "statement": "When a paid call ends, the tokens it took are spent, marked invalid or available again, and the counts logged for getting, spending, invalidating and returning passes are the sizes of these piles. The log is determined by the message, the number of passes asked for, the server's answers and how the call ended: calls on different wallets with different tokens that are answered the same leave the same log.", "quantifier": "every wallet, server, sequence of answers, row order, politely behaving other task, number of passes", "why_tests_cant": "all sequences of refusals and interleavings; independence of the log from the tokens is a property of pairs of runs", "anchors": ["src/_zkapauthorizer/spending.py:SpendingController", "src/_zkapauthorizer/_storage_client.py:call_with_passes_with_manual_spend", "src/_zkapauthorizer/_storage_client.py:invalidate_rejected_passes"]}
{"id": "C134", "title": "The server's log explains every price and shows no secret", "statement": "What the storage server logs of a paid request depends only on the operation, the storage index, the share numbers and the places and lengths of what is compared and written, on the numbers and sizes of the stored shares and which of them have an unexpired lease, and on how the request ended: requests and servers that differ in passes, lease secrets, write enablers and contents but agree in these leave the same log. The sizes logged are the stored ones, and the calculation logged for a write, which every accepted write has, gives the price of the write. Logging changes neither the answer nor the server.", "quantifier": "every reachable pair of servers, every pair of requests and lists of passes, every time, signature scheme and value of a pass", "why_tests_cant": "independence of the log from secrets is a property of pairs of runs, over all requests and stored shares", "anchors": ["src/_zkapauthorizer/_storage_server.py:remote_allocate_buckets", "src/_zkapauthorizer/_storage_server.py:remote_add_lease", "src/_zkapauthorizer/_storage_server.py:remote_slot_testv_and_readv_and_writev", "src/_zkapauthorizer/_storage_server.py:get_share_sizes", "src/_zkapauthorizer/storage_common.py:get_required_new_passes_for_mutable_write", "src/_zkapauthorizer/storage_common.py:summarize"]}
{"id": "C135", "title": "What is shown and logged does not depend on what the tokens are", "statement": "Let two nodes go through the same history of submitted vouchers, issuer's answers, retries, restarts and uses of the wallet, only with other random tokens and other tokens received, equal ones for equal ones. Then they make the same requests to the issuer and store the same groups, with these other tokens; they show every voucher, the list of vouchers and the numbers of tokens the same; and they write the same log. So neither the pages nor the log reveal a token.", "quantifier": "every pair of histories related by a one-to-one renaming of random tokens and of received tokens, any length, any interleaving, kills included", "why_tests_cant": "a property of pairs of runs, over all histories and all renamings", "anchors": ["src/_zkapauthorizer/controller.py:PaymentController", "src/_zkapauthorizer/model.py:VoucherStore", "src/_zkapauthorizer/resource.py:_VoucherCollection"]}
{"id": "C136", "title": "The log of redemption tells how many tokens were asked for and received", "statement": "Whoever reads the client's log finds in it exactly the requests made to the issuer, in order, each with its voucher, the number of its group and the number of tokens, and exactly the groups of tokens stored, each with its voucher, the number of tokens and whether they can be spent: a group that could not be stored is followed by the error in the log.", "quantifier": "every state and every history of submissions, answers, retries, restarts, kills and uses of the wallet, any length", "why_tests_cant": "all interleavings of vouchers, failures and restarts", "anchors": ["src/_zkapauthorizer/controller.py:PaymentController", "src/_zkapauthorizer/model.py:VoucherStore"]}
{"id": "C137", "title": "A lost node loses no voucher and no random token once replication is at rest", "statement": "Whatever happened before, when the replication service waits for work the replica has a snapshot, every change marked as important has been uploaded and less than 570000 characters of other statements have not. If transactions committed and interruptions struck no upload half way, a recovery from that replica gives a wallet with every voucher of the lost one and every random token not yet exchanged; and as long as the service is running, completing finitely many operations on the grid gets it there, so that a voucher just submitted can be recovered with the very tokens it was submitted with.", "quantifier": "every history of wallet calls, set-up, uploads, failures, kills and restarts, any length, any decisions of the snapshot policy; the first part for any database", "why_tests_cant": "all interleavings of wallet calls with uploads, snapshots, failures and restarts", "anchors": ["src/_zkapauthorizer/replicate.py:_ReplicationService", "src/_zkapauthorizer/replicate.py:AccumulatedChanges", "src/_zkapauthorizer/model.py:VoucherStore.add"]}
{"id": "C138", "title": "A recovered wallet asks the issuer with the tokens the lost one asked with", "statement": "When a node is lost while replication is at rest and its wallet is recovered from the replica: for every group of a voucher for which the lost node ever had tokens to send to the issuer, even after the time the backup shows, the recovered wallet already has stored the answer for that group or a later one, or it has exactly the same random tokens for it and will ask with them again, whatever else happens, until it has. So the issuer is never shown a second set of tokens for such a group. As long as the replication service is running, completing finitely many operations on the grid makes all requests so far safe in this way.", "quantifier": "every history of wallet calls, set-up, uploads, failures, kills and restarts that strikes no upload half way, every sequence of calls and restarts after the recovery", "why_tests_cant": "all interleavings of requests to the issuer with uploads, snapshots, failures and restarts, followed by any use of the recovered wallet", "anchors": ["src/_zkapauthorizer/model.py:VoucherStore.add", "src/_zkapauthorizer/model.py:VoucherStore.insert_unblinded_tokens_for_voucher", "src/_zkapauthorizer/replicate.py:_ReplicationService", "src/_zkapauthorizer/recover.py:recover"]}
{"id": "C139", "title": "A voucher outlives the node it was submitted to", "statement": "A node is lost while replication is at rest, and a new one recovers its wallet from the replica and is started. Every voucher the lost node had is there with the same value, and those which the backup shows unfinished are asked for at once, at the group they had reached. If the issuer says \"already spent\" only when it has seen different tokens for the same group from either of the two nodes, the voucher never becomes double-spent on the new node, even where the lost one had got the answer. Once redeemed there it has given exactly the tokens it was submitted for.", "quantifier": "every history of submissions, answers, timers, kills, restarts, wallet calls and replication events of the lost node that strikes no upload half way, every history of the new node, every number of groups and tokens", "why_tests_cant": "all interleavings of redemption with uploads, failures and restarts, a loss at any moment of rest, and any continuation of the redemption on another node", "anchors": ["src/_zkapauthorizer/controller.py:PaymentController", "src/_zkapauthorizer/model.py:VoucherStore.add", "src/_zkapauthorizer/model.py:VoucherStore.insert_unblinded_tokens_for_voucher", "src/_zkapauthorizer/replicate.py:_ReplicationService", "src/_zkapauthorizer/recover.py:recover"]}
{"id": "C140", "title": "The wallet holds exactly what the issuer gave and no call has taken", "statement": "At any moment of a node's life its wallet contains exactly the tokens that were stored from the issuer's successful answers, less those that calls have declared spent or invalid; restarts, retries, failures, repeated submissions and every other use of the wallet neither add nor lose one. The tokens of a successful answer to an open request are stored, all of them, unless one of them comes twice or is in the wallet already. A token may be spent exactly if the issuer signed it with an allowed key. The number of tokens the user is shown is the number of those that may be spent and are not in use at the moment, and a token that is handed out for spending is one of them.", "quantifier": "every history of submissions, answers, timers, kills, restarts and wallet calls, every configuration of allowed keys, groups and tokens", "why_tests_cant": "all interleavings of redemption, retries, crashes and spending on one wallet", "anchors": ["src/_zkapauthorizer/controller.py:PaymentController", "src/_zkapauthorizer/model.py:VoucherStore.insert_unblinded_tokens_for_voucher", "src/_zkapauthorizer/model.py:VoucherStore.get_unblinded_tokens", "src/_zkapauthorizer/model.py:VoucherStore.discard_unblinded_tokens", "src/_zkapauthorizer/model.py:VoucherStore.invalidate_unblinded_tokens", "src/_zkapauthorizer/model.py:VoucherStore.count_unblinded_tokens"]}
{"id": "C141", "title": "A voucher buys as much storage as it is worth", "statement": "Let a new node be given vouchers that are paid for, and let the issuer sign with keys that are allowed. Once they are redeemed, through whatever errors, retries, kills and restarts, the node shows at least as many tokens as the vouchers were submitted for; and it can upload any files, and keep them leased for any number of runs of lease maintenance, as long as the quoted prices add up to no more than that. After any use of the wallet the same can be bought for as many tokens as the node shows.", "quantifier": "every history of submissions, answers of the issuer, timers, kills and restarts, every set of redeemed vouchers, every list of files, placement on servers, tree and timing of maintenance runs", "why_tests_cant": "It joins redemption, the wallet, the price calculator, the servers and lease maintenance over histories of any length; tests exercise these parts one at a time with few vouchers and few files.", "anchors": ["src/_zkapauthorizer/controller.py:757-1103", "src/_zkapauthorizer/controller.py:551-719", "src/_zkapauthorizer/model.py:388-980", "src/_zkapauthorizer/pricecalculator.py:54-69", "src/_zkapauthorizer/_storage_server.py:240-560", "src/_zkapauthorizer/lease_maintenance.py:1-756"]}
{"id": "C142", "title": "A voucher keeps its worth when its node is lost", "statement": "Let a node that replicates its wallet be lost while replication is at rest, and let another one recover the wallet and be started. Once vouchers that are paid for, with answers signed by allowed keys, are shown redeemed on the new node, it shows at least as many tokens as they were submitted for, whichever of the two nodes redeemed them, if no storage was paid for meanwhile. After any use of the two wallets, files can be uploaded and kept leased for as many tokens as the new node shows, provided that what was declared invalid is never given again.", "quantifier": "every history of the lost node and of its replication with harmless interruptions, every history of the recovered node, every set of vouchers, list of files, placement and timing of maintenance runs", "why_tests_cant": "It joins redemption, replication, recovery, payment and lease maintenance over two nodes' histories of any length; tests exercise recovery with a few statements and never redeem or pay afterwards.", "anchors": ["src/_zkapauthorizer/controller.py:757-1103", "src/_zkapauthorizer/replicate.py:280-1121", "src/_zkapauthorizer/recover.py:1-372", "src/_zkapauthorizer/model.py:388-980", "src/_zkapauthorizer/_storage_server.py:240-560", "src/_zkapauthorizer/lease_maintenance.py:1-756"]}
{"id": "C143", "title": "The keys allowed when a token arrives decide for good whether it is spent", "statement": "Let the settings of a node, among them the list of allowed public keys, be changed in the course of its life. A token in its wallet may be spent exactly if it was signed with a key that was on the list when it was received. None of the different new tokens of an answer is left out. A token stays in the wallet as it came, whatever is put on the list or taken from it later, until a server has taken or refused it. A token that was set aside is not counted and not handed out, even after its key has been allowed, unless the issuer gives it again. A node that goes on with the recovered wallet of a lost one, with whatever keys allowed, treats each token as the node that received it did.", "quantifier": "every history of a node, every change of its settings at any time, every token and key; every loss of a node with unchanged settings while replication is at rest and every history of the one that recovers its wallet", "why_tests_cant": "The tests give a node one list of keys; the claim is about every sequence of lists and every history between them.", "anchors": ["src/_zkapauthorizer/controller.py:1024-1050", "src/_zkapauthorizer/resource.py:137-180", "src/_zkapauthorizer/storage_common.py:123-140", "src/_zkapauthorizer/model.py:520-620", "src/_zkapauthorizer/model.py:672-760", "docs/source/configuration.rst:57-68", "src/_zkapauthorizer/recover.py:219-372"]}
{"id": "C144", "title": "A voucher is redeemed for the number of tokens it was submitted for", "statement": "Let the settings of a node, among them the default number of tokens to a voucher, be changed in the course of its life. A voucher is for the number of tokens given when it was first submitted, or else the default at that time; this never changes, nor when it is submitted again. Every request to the issuer asks for one group of that number, the groups being of equal size up to one token. If the voucher is never called unpaid, a group is asked for again with the very tokens it was asked for with before, and the groups are received in order and none twice; if also every answer is complete, the redeemed voucher has given exactly that number of tokens. A node that goes on with the recovered wallet of a lost one, with whatever settings, redeems each voucher for the number it was submitted for to the lost one; redeemed by either node or partly by both, it gives exactly that many on the same conditions.", "quantifier": "every history of a node with interruptions, every change of its settings at any time, every voucher; every loss of a node with unchanged settings while replication is at rest and every history of the one that recovers its wallet", "why_tests_cant": "The tests run a node with one set of settings; the claim is about every sequence of settings, restarts, retries and answers.", "anchors": ["src/_zkapauthorizer/controller.py:859-1050", "src/_zkapauthorizer/resource.py:82-105", "src/_zkapauthorizer/resource.py:137-180", "src/_zkapauthorizer/model.py:388-520", "docs/source/configuration.rst:49-54", "src/_zkapauthorizer/recover.py:219-372"]}
