# Formal model of ZKAPAuthorizer in Rocq — design

The source under `/repo/src/_zkapauthorizer` is read as text.  It is never run.
The properties are in `properties.jsonl` (C01, C02, ...), their status in
`MANIFEST.json`, the development in `rocq/theories`, the mutation log in
`seeded/LOG.jsonl`.

## Method

* Shallow, executable Gallina models, one per component, mirroring the Python
  functions branch by branch.  Exceptions are values (`Err e`).  Python `int`
  is `Z`; Python `//`/`divmod` is `Z.div`/`Z.modulo` (floor division on both
  sides, the zero divisor is an explicit `Err`).  Python `dict` is an
  insertion-ordered association list with unique keys.  `bytes` is `list byte`.
* Each component has three files: `XModel.v` (definitions only, each citing
  file and lines), `XProofs.v` (lemmas), and `XProperties.v` (the property
  theorems, each closed by `exact lemma`, with `Print Assumptions` below and an
  `Example` showing a concrete case meeting the hypotheses).  Specifications the
  properties are phrased in are in `XSpec.v`, which does not mention the model's
  helper functions.
* Calls that leave the code (Ristretto library, SQLite storage engine, Tahoe
  storage server, grid uploads, CBOR, clocks, random numbers) are function
  arguments ("oracles") or plain data given to the model.
* If a property as a user would state it is false of the faithful model, a
  theorem `..._refuted` exhibits a witness, and a `..._partial` theorem proves the
  part that does hold, with the missing hypothesis visible.

## Plan per property

Nothing is planned as not applicable.

| Property | Modelled | How it will be proved |
|---|---|---|
| C01, C02 | `required_passes` over `list Z` with the zero-divisor error | independent spec "least n with n*v >= size"; induction on the list |
| C03, C04 | `get_implied_data_length`, `get_required_new_passes_for_mutable_write` over association lists | per-share growth spec; telescoping by induction over write histories |
| C05 | `PriceCalculator.calculate`, `share_size_for_data`, `required_passes_for_data` | equality of the two formulas and of the allocation price, induction |
| C06 | client's `slot_testv_and_readv_and_writev` pricing and server's `get_writev_price` on one slot state | pointwise equality of the two current-size maps up to order, then C03 |
| C07-C12 | the server's three entry points as state transformers over stored shares with leases; signature check is an oracle | case analysis; invariant over request histories; C12 by a witness (expected false) |
| C13 | the byte-level header parsers | round trip against a container *writer* written from the Tahoe layout description |
| C14 | directory entries as strings, filter as option list | list induction |
| C15-C20 | `VoucherStore` token operations over tables as lists, with transactions as explicit statement sequences | invariants by induction over operation lists; C19 over every prefix of the statement sequence |
| C21-C25 | `call_with_passes*` as a loop over an arbitrary list of server responses, on top of the store model | invariant over loop iterations; C24 expected false without an index-range hypothesis |
| C26 | composition of the client loop and the server model | functional evaluation of the composition |
| C27 | base64 encoder + label prefix over bytes | injectivity by arithmetic on 3-byte groups |
| C28 | `token_count_for_group` | arithmetic, sum by induction |
| C29, C30, C32-C38, C71 | `PaymentController` as a state machine over events (submit, answer, timer, start, kill at each step, other wallet use), on top of the store | one invariant over histories (ControllerProofs), run lemmas (ControllerRunProofs); C35, C36, parts of C29, C30, C37, C71 are false: witnesses are concrete histories |
| C39-C43, C48, C49, C72 | connection wrapper, event log, upload service as a state machine; statements are functions on an abstract database | replay invariant over histories; C40, C41 and part of C42 expected false |
| C44, C45, C74, C75 | event streams, snapshots, file names and directory entries down to bytes, with explicit models of the parts of CBOR (cbor2) and UTF-8 used | round trip by induction on values; permutation + sortedness; part of C74 is false |
| C73 | the importance flag of the statements of one call (ReplicaStore) | case analysis on calls |
| C46, C47, C76 | `StatefulRecoverer`, `call_if_empty`, `RecoverFactory`, the downloader and the import as a state machine over events (clients, remote answers, other uses of the wallet), on an abstract SQLite | invariant over histories; parts of C46 and C47 and the main part of C76 are false |
| C50, C51, C81 | databases as named tables with columns and rows; the statements of the upgrades; Python's implicit transactions; SQLite's local-to-UTC conversion is a parameter (SchemaModel.v) | induction over statements: shape of the tables, correspondence of rows, version; C51 false for tokens when no voucher is redeemed and for vouchers finished at times without timezone; C81 false except from version 7 |
| C52-C57, C77-C80 | lease maintenance: walk of an arbitrary graph with fuel, runs against arbitrary servers (LeaseModel) and against the storage server model (LeaseServer), timer as a state machine over events, configuration | exact characterisation by induction; invariant over histories of the server; C54, C55-termination and parts of C77, C78, C80 are false |
| C58 | token codecs (StoreModel/PassModel) | round trips |
| C59, C82-C84 | dates (DateModel) and JSON (JsonModel) down to characters, vouchers in JSON and in database columns (VoucherModel) | round trip by induction on values and digits; C59 fails for split surrogate pairs, the base64 part of C84 is false |
| C60-C62, C85-C88 | HTTP decision functions (HttpModel): Twisted's authorization wrapper, the resources' handling of a request's bytes, the replication setup as a state machine | case analysis over all JSON values, invariants over histories; the no-crash parts of C61 and C85 and all of C87 are false |
| C63 | configuration dictionary (LeaseModel) | direct; false for fractions of a second |
| C64-C66, C89-C91 | tahoe.py down to the characters of URLs, `repr` and JSON (GridModel); capabilities and their digest are parameters; a download as the sequence of states of the file system | retry: exact characterisation by induction over attempts; path: induction; C64 false for `str` of the error and for an API below the root, C65 false for bodies that end with the connection |
| C67-C70 | the server of C07-C12 over histories of requests (ServerModel) | invariant over histories; C67 and C70 false as stated: the record of spent passes is written, never consulted, and errors raised behind the payment check leave passes recorded |
| C31 | spendability of token groups by the key that signed them (StoreModel) | invariant over histories |
| C92-C95 | `RistrettoRedeemer.redeemWithCounter`, `tokens_to_passes`, the server's `_is_invalid_pass` (RedeemModel); the Ristretto library is a record of operations with stated laws | case analysis over all answers; algebra over an arbitrary commutative group; C95 by solving for blinding factors |
| C96 | `_CostBasedPolicy`, `_do_consider_snapshot`, `_replica_size` on top of the replication service (PolicyModel, ReplicaModel) | closed form of the decision; invariant of the service while nothing else happens, with termination from C48 |
| C97 | the observations of `ServerModel` and prometheus_client's histogram (MetricModel) | closed form of the histogram; invariant over histories |
| C98, C99 | foolscap.py, with Foolscap's argument mapping (ProtocolModel); `tokens_to_passes` (RedeemModel) | equation for the extended schema, by induction over arguments; lengths of passes |
| C100 | `_get_store`, `_add_replication_service`, the users of the store, `_maybe_attach_service` (PluginModel) | invariant over histories: all users hold the cached store; witness for two connections |
| C101 | the calls of C26 and the server's answer to anybody who pays (EnoughSpec) | refusals name exactly the bad tokens, so the good ones are never lost; induction over the attempts |
| C102 | the operations and retries of GridModel; statuses and errors stated in OutcomeSpec | case analysis of one answer, lifted over the retries with the lemma of C66 |
| C103 | ConfigModel: reading the option as text | splitting a written list gives it back; refuted for a blank after a comma |
| C104 | ConfigModel: is_client_plugin_enabled | stripping the parts of a written list gives it back |
| C105 | ConfigModel: the redeemers' constructors, client and server from configuration; URL parsing is a parameter | case analysis; decimal round trip |
| C106 | the calls of C26 with the two pass values kept apart (MixedModel); configurations of ConfigModel | witness for different terms; the server's answer to fewer passes than the price, over the attempts; C101 with more passes than the price |
| C107 | the client's checks of answers over a type of Python values (WireModel); types of answers in WireSpec | each check accepts exactly its type, by induction over the answer; results of C21 and C22 for the paid calls; witnesses for the two unchecked calls |
| C108 | the paid calls with a server answering arbitrary values (WireModel) | at most one group is spent (C22) and its size is the price (C25); the price is bounded by C03; refuted for negative sizes, which lead to a negative LIMIT or to a negative credit |
| C109 | any number of coroutines running the loop of C21-C25 over one store, one step per answer (ConcurrentModel) | one invariant of the whole system, by induction over the events; every run of the loop of SpendModel is a run of the system |
| C110 | as C109 | the invariant carries a list of passes charged per call; counting distinct passes |
| C111 | the step of `ControllerModel` for an answer | the outcome of settling a request (ControllerProofs) and the invariant over histories; "an error is shown" is false after an earlier "not paid for" (AnswerProperties: witness and partial theorem) |
| C112 | `get_lease_duration` and a whole run of lease maintenance against arbitrary servers | what a run asks for (C52) and arithmetic; the positive part is false for a configured minimum of 31 days or more (witness) |
| C113 | the resource tree with its authorization wrapper over the controller and the store; histories of requests and other events (WebModel) | case analysis of a request; induction over histories, relating one with and one without the outsiders |
| C114 | the same | effects by case analysis; the list and the pages through the invariant of C32-C38 and the round trip of C57, C84 |
| C115 | the same | the known vouchers only grow, and grow only by submissions: induction over histories. False when the configured number of tokens is below the number of groups (witness): the submission is answered with 200 and nothing is recorded |
| C116 | the same | the count is the length of the list that extraction takes from (C15); the greatest finishing time by induction |
| C117 | ReplicaStore (C39) with the wallet's own calls before and after (RegainSpec) | the relation between recovered and original contents of C39 keeps the set-aside tokens of the copy within those of the original; equality after a restart. False for tokens set aside when the backup was made (witness) |
| C118 | ConfTextModel: configutil.py as it is, and CPython's ConfigParser line by line (ASCII lower case, references between options not followed) | the lines of the text are those of the sections; reading them one by one extends the sections read. The merging of sections is false (witness), of several the last counts |
| C120 | StackModel: `less_limited_stack` around the check of the proof in the redemption of RedeemModel, limits threaded through | every step keeps the limits except the refused proof; false in that case (witness) |
| C122 | RedeemModel, StoreModel, SpendModel, ClientModel and ServerModel together (PaidSpec: the wallet's tokens are texts returned by redemptions) | spendable tokens were put in as such (induction over the wallet's history), C93 for the texts, then C101 with every token good |
| C123 | ServerModel and TahoeModel over histories of events (BoughtSpec: a lease is bought by a request in the history that is paid in the state before it) | invariant over histories for leases and sizes of shares and uploads, with C07 for the payment; grants and persistence by induction over the events that follow |
| C124 | UpkeepModel: LeaseModel's walk and renewals with ServerModel servers behind ClientModel's calls, paid from StoreModel's wallet; nobody else acts during the run and clocks agree | loop invariants over storage indexes and servers on top of C101 (enough good tokens suffice), C123 (what an accepted renewal gives) and C55 (what the walk gives); for the cost an invariant that bounds what was spent by the count of the run's row |
| C125 | UpkeepModel `upkeeps`: consecutive runs of C124, the node being idle between them | induction over the runs with the lemmas of C124; a run leaves the sizes of all shares alone and adds at most one lease to each |
| C126 | ServerModel and TahoeModel over histories; spec PaidForSpec | false: a write that the wrapped server gives up leaves data and records no pass (refuted); proved by an invariant over histories that what is held costs at most the recorded passes plus the price of such abandoned writes, hence nothing is unpaid if there are none |
| C127 | UpkeepModel (the whole run with wallet and servers); spec UpkeepSpec and LeaseSpec | induction over the run with an invariant of the servers and the wallet only: a call that returns has been accepted by the server, and any failure ends the run with an error |
| C128 | ConnModel (the server of ServerModel with the bucket writers, the disconnect markers and foolscap's callbacks); spec ConnSpec (the uploads in progress, from requests and answers only) | invariant: open writers, markers, callbacks and the incoming directory all list the uploads in progress, in order; every step keeps it; each event is one or several of ServerModel, so all its theorems apply |
| C129 | RedeemModel, StoreModel, UpkeepModel; spec PaidSpec, UpkeepSpec | composition of C122's lemmas on redeemed wallets, C55 (the walk ends without cycles) and C125; termination is part of the statement |
| C130 | PricingModel, StoreModel, ClientModel, ServerModel, UploadModel; spec UploadSpec | induction over the allocation calls with an invariant of servers, wallet and time; each call by C101's lemmas (enough good tokens: served) and the accounting of C21; the sum of the calls' prices is the calculator's by C05; also for wallets filled by redemptions. Shares are of the size the calculator reckons with: Tahoe-LAFS's block hashes, which it adds to every share, are in neither |
| C131 | UploadModel, UpkeepModel and what they use; spec UploadSpec, UpkeepSpec | C130's induction gives the state after the upload, in which one month of the new files costs the quoted price again (the shares on the servers are a permutation of those placed); then C125. C124, C125, C127 and C129 now also say that the contents of shares stay. Limits are those of C130 and C125 |
| C132 | JsonModel; spec JsonSpec | the scanner against an independent grammar (mutual inductive relations): soundness by induction on depth and length, completeness by mutual induction on derivations; C61, C62, C88, C90, C113-C116 are stated with this grammar. json.loads's C scanner is modelled, not run; decoding bytes and making floats are parameters |
| C133 | LogModel, the functions of SpendModel giving also their log messages; spec LogSpec | erasing the log gives SpendModel's functions; the log equals a function of message, number, answers and end (induction on attempts with the invariant of C21), from which independence of tokens follows; the piles by the same induction. What Eliot adds to messages and what the remote method logs are left out |
| C134 | ServerLogModel, the three paid operations of ServerModel giving also their log messages; spec ServerLogSpec | erasing the log gives ServerModel's functions; two-run proof: sizes, lapsed shares, lengths and summaries of alike inputs are equal, and how a request ended fixes how far it got; the price by C06's lemmas. The text of an exception is left out: for a malformed pass it has the wrong length or number of fields, not the bytes (validators.py:153-170). What Eliot adds and the wrapped server logs is left out |
| C135 | RedeemLogModel, the messages of ControllerModel's functions; spec RedeemLogSpec | every statement commutes with renaming tokens one-to-one; so do statement programs (induction on programs), the controller's functions and whole histories, and the log of a renamed history is the same. Vouchers and public keys are shown and logged, by design. Messages of the redeemer itself are left out |
| C136 | RedeemLogModel; spec RedeemTellSpec, a reader of the log | induction on histories: every part of the log logged by one stretch of a coroutine begins with a line that does not continue an earlier part, so reading distributes over parts |
| C137 | ReplicaModel, StoreModel; spec RestSpec: the vouchers and random tokens two wallets share | invariant of the loop: every change in the log is in an upload under way, or an upload or snapshot is queued, or it is unimportant and counted in the size; unimportant statements store no voucher and no random token, so replaying what is left of the log on the recovered wallet keeps both; with the termination measure of C48. The interruptions excluded are those of C41, which is refuted in general |
| C138 | ReplicaModel, StoreModel; spec RetrySpec: tokens asked with, groups that are behind a wallet | the history of all random tokens ever stored is added to the database as a ghost, and the recovery theorem of C41, which holds for any database, applied to the pair: at rest the backup has the whole history (C137), so a request made after the time of the backup found its tokens there already; between, a group's tokens change only once it is behind. The exclusions are those of C137; that a group is behind the wallet is counted by the answers stored, an invariant of all calls |
| C139 | LossModel joins ControllerModel and ReplicaStore: the calls every event of redemption makes on the wallet; spec LossSpec: the life of a node, an issuer that keeps its word over both nodes | the wallet in the backup is that of a prefix of the calls, hence (but for the table in memory) that of a controller killed between two of them; so the new node's life continues a life of the controller, and C29, C32, C37 apply. That the issuer is not shown other tokens is C138. The exclusions are those of C137; vouchers once answered "not paid for" are left out as in C71; the recovered node has to be started again, as the controller takes up vouchers only when it is made |
| C140 | ControllerModel, StoreModel; spec PurseSpec: a purse counted from events and outputs alone | invariant over the node's history: non-wallet events by C29, whose calls on the store are those of LossModel; wallet calls one by one. What was declared invalid is taken out again at every later declaration, should the issuer give it a second time (finding of C17), and the purse says so. Also gives C31 for whole nodes |
| C141 | the controller's and the store's models joined with the redeemer's (`really_redeemed`: each group of tokens received is the redeemer's result for that request), then C131's models of upload and maintenance | a life is a history of wallet calls filled by redemptions only; the number of available tokens is at least what was received for the vouchers (C29), which is their worth; C131 |
| C142 | the models of C139 and C141; the hypotheses of C141 about the issuer's answers are stated for a history that starts with any controller (`answers_about`) | the recovered node goes on as one killed at the time of the backup (C139), so both nodes' histories are one history of C141; answers, unused wallets and `never_again` carry over to it |
| C143 | the controller and wallet models (C15-C38); the settings are a parameter of each event (`living`), more than the code allows, which reads them at start | by induction over the events: no call to the wallet changes the group of a stored token or the mark of a group; a group is inserted only for an answer, with the mark of the list then in force; for a recovered node, its history continues one of the lost node that was cut short (C139); that no token of an answer is left out, from the insertion succeeding for new tokens (C111) |
| C144 | the models of C28-C38, the settings being a parameter of each event as in C143 | the invariant of redemption (C28-C38) names no setting, so it holds for any sequence of settings; new vouchers come from submissions only, with the number in force; sizes and sums of groups as in C28 and C29; for a recovered node, its history joined to one of the lost node that was cut short (C139) |

## Trusted base

* Coq 8.16.1's kernel (the VM included: some `Example`s and finite tables are
  checked with `vm_compute`) and its standard library.  No other library.
* Every property theorem is followed by `Print Assumptions`; each prints "Closed
  under the global context": no axiom is used, not even one of the standard
  library's.  (`coqchk` lists the axioms `Coq.ssr.ssrunder.Under_rel.*`, loaded
  with the standard library; nothing here depends on them.)
* That the models say what the Python says.  They were written by reading the
  source, each definition citing the lines it renders; nothing extracts or
  compares them automatically.
* What the models assume of code outside /repo, listed here by model.

| Model | Outside code and how it is represented |
|---|---|
| ContainerModel, TahoeModel, ServerModel | Tahoe-LAFS storage server: containers, leases, `allocate_buckets`, `add_lease`, `slot_testv_and_readv_and_writev` written from its documented behaviour (TahoeModel); bytes on disk only for headers; running out of space is a predicate |
| PassModel, ServerModel, ClientModel, MixedModel | signatures are a function `signed`; RedeemModel says which one |
| RedeemModel | challenge_bypass_ristretto: a record of operations; laws (commutativity, read-after-write, sizes, soundness of the batch proof, generator, prime order) are hypotheses of the theorems that need them, and an instance with three group elements satisfies all of them |
| StoreModel, SchemaModel, ReplicaModel, RecoverModel | SQLite and Python's sqlite3: tables as lists of rows, statements as functions, implicit `BEGIN`, commit on success and rollback on error; the text of SQL is not parsed; the deterministic choice of rows where SQL leaves the order open is a parameter (`scan`) |
| ControllerModel, LeaseModel, ReplicaModel, RecoverModel, HttpModel, ConcurrentModel, WebModel | Twisted: coroutines run without interruption between `await`s; timers and requests are events in an arbitrary history |
| UpkeepModel | calls between the node and its servers are delivered and answered; the clocks of the node and the servers agree and stand still within a call; nobody else uses the servers or the wallet during a run |
| ConnModel | Tahoe's `BucketWriter` (close and abort act once and call the close handlers) and foolscap's `notifyOnDisconnect`/`dontNotifyOnDisconnect`; markers, callbacks and bucket writers are one number; the callbacks of a lost connection run without interruption |
| StreamModel, CborModel | cbor2 for the types the streams use, UTF-8 |
| JsonModel | CPython's `json`; floats are abstract; the decoding of bytes to text is a parameter |
| DateModel, VoucherModel | `datetime`, aniso8601 for the texts the store writes; `attrs` validators as explicit checks |
| HttpModel | Twisted Web's routing and authorization wrapper, autobahn's messages; tahoe-capabilities' parser is a parameter |
| WebModel | Twisted Web: the lookup of resources, answers 401, 404, 405 and 501 of its own pages, HEAD; numbers of the store models stand for byte strings, times and texts through functions (`code`, `name`, `time`, `words`), of which only `name (code b) = b` is assumed |
| WireModel | Foolscap delivers any Python value built from the constructors of `pyval`; floats are left out |
| ProtocolModel | Foolscap's `RemoteMethodSchema`, `ListOf`, `ByteStringConstraint` |
| MetricModel | prometheus_client's `Histogram` |
| PluginModel | weak references: a store is known as long as somebody holds it, and a holder's going away is an event; making a store or its replication service does not raise |
| ConfigModel | a configuration is a function from sections and options to ASCII text; `URL.from_text` is a predicate; reading the signing key is left out |
| GridModel | treq, hyperlink, the Tahoe-LAFS web API as a function from requests to answers; the file system as a map of names to contents |

### What of /repo is modelled

| File | Modelled | Not modelled |
|---|---|---|
| storage_common.py, pricecalculator.py | all pricing functions, messages, options | the `slot_testv_...` type aliases |
| _storage_server.py | validation, prices, the three paid operations, share size and stat functions, the spending metric, bucket writers and lost connections, what the paid operations log | share readers, advise-corrupt (passed through to Tahoe) |
| _storage_client.py | retry loop, the three paid calls, `share_size` and `stat` use, the checks of all answers, the interface name of references, what is logged while passes are spent | other logging |
| spending.py, server/spending.py | pass groups, the record of spent passes | Prometheus counters beyond the recorded list |
| model.py | store operations, voucher values, passes, JSON, migration order, log messages of redemption | `open_database` path handling, configuration |
| schema.py | every upgrade | — |
| controller.py | `PaymentController` and its log messages, `RistrettoRedeemer` (request, answer, passes), `get_redeemer` | what the testing redeemers (`NonRedeemer`, `DummyRedeemer`, ...) do and log |
| lease_maintenance.py | visits, decisions, timer, configuration, observers | — |
| replicate.py | wrapped connection and cursor, event stream, upload service, snapshot | `ReplicationService` start-up details of the Twisted service tree |
| recover.py | stages, downloader, import | — |
| resource.py, private.py, _json.py, _base64.py, validators.py | authorization, the resource tree, the resources' decisions and answers, validators | rendering of pages, error page bodies |
| tahoe.py | requests, retries, downloads, listings, errors | `MemoryGrid` (a test double), process start-up |
| _plugin.py | the snapshot policy, the node's store and its replication service, attaching the maintenance service, server and client from configuration | the rest of the wiring |
| foolscap.py | the passes argument and its constraints | the unpaid methods' schemas (Tahoe's) |
| configutil.py, _stack.py | all | — |
| config.py, sql.py, eliot.py, api.py, _attrs_zope.py, _types.py | only what the files above use | the rest: wiring, interface declarations, SQL pretty-printing, logging |

## Findings

Claims a user would expect to hold and that are false of the code as modelled,
each with a machine-checked witness (`..._refuted`) and what holds instead beside
it.

* Server: passes are recorded as spent but the record is never consulted, so a pass
  pays any number of times (C67); errors raised after the payment check leave
  effects behind (C70, C68), so data can be held that nobody paid for (C126); reviving a share with expired leases is charged only up
  to the end of the write (C12); a storage index holding both kinds of container
  gets a lease for less than its price (C07); the spending metric counts fewer passes
  than are recorded when a write is overpaid (C97); the schemas of paid calls do not
  check answers (C98), and calls of more than 2^20 passes cannot be made (C99); unknown container versions pass if they
  are not first in the directory (C13); a number with two names counts twice (C14).
* Client: a refusal naming only passes that were not presented makes the client
  present the same passes for ever (C24); a server that reports a negative share size
  gets every token of the wallet for one lease or a write of one byte (C108); the
  answers to `slot_readv` and `allocate_buckets` are not checked (C107).
* Redemption: after an answer 'not paid for', a voucher is started over at group 0
  even when groups had been redeemed, which costs tokens or ends in a double spend
  (C29, C30, C35, C37, C71); after an error the retry raises `ValueError` every time
  (C36); after an answer 'not paid for' a later error is not shown, the old state with
  its old time stays (C111).
* Process: an answer of the issuer whose proof is refused leaves the soft limit on the stack
  raised to the hard limit (C120); of two dictionaries for one section of a generated
  configuration the first is lost, against the documentation (C118).
* Replication: statements of rolled back transactions reach the replica (C40);
  writes during a first snapshot are dropped (C39, C42); kills at four places corrupt
  the replica (C41); one failed upload ends replication until a restart (C72); names
  that only begin like streams are pruned or break pruning (C74); a store dropped by
  all its users and requested again gets a second connection and a second replication
  service beside the first (C100).
* Recovery: a failing import is committed in part and a wallet filled meanwhile is
  overwritten (C46); success can be followed by failure, late clients are never
  disconnected, another capability is not refused (C47); with assertions on, the
  changes after the snapshot cannot be replayed at all (C76); tokens that were set aside
  for a call when the backup was made cannot be spent until the recovered node is
  restarted (C117).
* Lease maintenance: by default only expired leases are renewed (C54); a cycle of
  directories never ends (C55); fractions of seconds of the configuration are lost
  (C63); stopping during a run does not stop (C77); one bad server or one literal
  file keeps the rest from being maintained (C78); a wide range ends the service
  (C80); a configured minimum of 31 days or more quotes prices for a period of zero or
  less (C112).
* Upgrades: tokens from old versions are unusable unless some voucher was redeemed,
  and finished vouchers with local times become unreadable (C51); an interrupted
  upgrade cannot be completed (C81).
* HTTP and values: deep nesting and segments that are not UTF-8 crash requests (C61,
  C85); asking again for the recovery capability fails (C87); base64 of voucher
  numbers and passes is never checked by the validators (C58, C84); surrogate pairs
  in error texts change (C59); with fewer tokens to a voucher than groups configured,
  submissions are answered with 200 and never recorded (C115).
* Configuration: a key written after a comma and a blank is not an allowed key (C103);
  the pass values and keys of client and server are not compared (C106).
* Grid: `str` of an error shows the capability, and so does everything if the API is
  not at the root (C64); a download cut off by its connection replaces the file
  (C65).
