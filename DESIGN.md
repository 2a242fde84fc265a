# Formal model of DP-PIR in Rocq

Everything is under `rocq/theories` (Coq 8.16.1). `properties.jsonl` lists the properties
C01.. in English, `MANIFEST.json` maps them to theorems, `seeded/LOG.jsonl` records what
happened when the model was edited to contain a bug.

## Layout

| kind | files |
|------|-------|
| model (definitions only, each cites its lines of `/repo`) | `Base Incremental Wire Additive Onion Shuffle ParShuffle Sizes State Database CipherBatch Range Handlers Batch Party Chain Stream NoiseFloat NoiseReal Config Lts Servers MainFlags Net Exchange Parallel ParChain Procs ParProcs ParCrash Boot Orchestrator Daemon Launch Connect Json Stored` |
| specification vocabulary used by the statements | `Spec ChainSpec ConfigSpec PrivacySpec ExchangeSpec ParSpec ParChainSpec PeerSpec BootSpec UpstreamSpec ParUpstreamSpec TamperSpec ParTamperSpec TalkSpec TrafficSpec ParTrafficSpec StageSpec ParStagesSpec CountsSpec OrchestratorSpec DaemonSpec LaunchSpec ConnectSpec MeetSpec JsonSpec StoredSpec PlainSpec` |
| property theorems, witnesses, `Print Assumptions` | `Props*.v` |
| auxiliary lemmas | `*Proofs.v`, `*Facts.v`, `NetChain`, `OfflineParty`, `ParStage`, `ParParty`, `ProcChain`, `ProcCrash`, `ProcNet` (any processes that follow one choreography with exchanges), `ProcExchange` (the sending and polling loop), `ParRules`, `ParLocal`, `ParServer`, `ParTamper`, `Plain`, `PlainWire`, `ParPlainWire`, `ParEntity`, `ParSized`, `ParTraffic`, `ParUpstream`, `ParRuns`, `ParGraph`, `ParNet`, `ProcNetCrash`, `ParCrashNet`, `ParStages` |
| a concrete sealed box used by the examples | `Toy` |

A property theorem is called `Cnn_...` after its property. Beside it, `Example`s named
`Cnn_..._example` (or similar) instantiate its hypotheses on a concrete non-trivial case.

## Conventions

* `res A` = `Ok a` (normal), `Abort` (failed `assert`, `exit`, exception), `UB`
  (out-of-bounds access, dereference of `end()`, unrepresentable conversion), `NoFuel`
  (a loop did not end within the given number of iterations; theorems that say `Ok`
  exclude it, theorems about endless loops say `NoFuel` for every fuel).
* Machine integers are `Z`; every C++ operation which may leave its type is wrapped
  explicitly (`w8`, `w32`, `w64`). Indices/counters whose bound is irrelevant are `nat`.
* Randomness (libsodium, `rand()`, `mt19937`) is an explicit argument: a list or function
  of draws. Ranges of the draws are hypotheses of the theorems.
* libsodium's sealed boxes are a record of two functions with the correctness law as a
  hypothesis (`box_ok`: opening a sealed message returns it; `box_sizes`: lengths).
  `Toy.v` shows a box which meets them. Nothing is claimed about the secrecy of boxes.
* The kernel (sockets) is an oracle: the sizes of short reads/writes, poll results and
  schedules are universally quantified.
* `asserts : bool` says whether the program was compiled with assertions (`NDEBUG`).

## Trusted base

* Coq's kernel (8.16.1), including `vm_compute`, which several proofs and examples use.
* `Print Assumptions` lists, for the thirty-one theorems
  `C20_ranges_tile`, `C20_range_inverted`, `C21_exact_ceiling`, `C21_find_range`, `C22_sample_bounds`,
  `C22_no_noise`, `C23_laplace_law`, `C23_cutoff`, `C23_upper_quantile`,
  `C23_sample_law`, `C24_private`, `C24_not_plain_delta`, `C25_constant_noise`,
  `C25_backend_learns_histogram`, `C26_never_rejects`, `C66_one_server`,
  `C66_several_servers`, `C66_connections`, `C67_one_server`, `C67_several_servers`,
  `C68_one_server`, `C68_several_servers`, `C69_one_server`, `C69_several_servers`,
  `C69_not_connected`, `C70_not_refused`, `C77_group`, `C77_one_query`, `C77_servers`,
  `C82_one_server` and `C82_several_servers`, exactly the axioms of the
  standard library behind its real numbers:
  `ClassicalDedekindReals.sig_not_dec`, `ClassicalDedekindReals.sig_forall_dec`,
  `FunctionalExtensionality.functional_extensionality_dep`, `Classical_Prop.classic`.
* Every other property theorem is `Closed under the global context`.
* That the model's definitions describe the cited lines of `/repo`: this is by reading.
  Nothing was extracted, compiled or run.
* Libraries used: the standard library, Flocq for IEEE doubles and `Zfloor`, and
  Coquelicot for integrals (C23, C24, C77).

## What is modelled

| source | model | left out |
|--------|-------|----------|
| `sharing/incremental.*` | `Incremental` | - |
| `sharing/additive.*` | `Additive` (byte memory, word-wise XOR) | strict aliasing |
| `onion/*` | `Onion` | inside of libsodium; key generation |
| `shuffle/util.*`, `local_shuffle.*` | `Shuffle` | inside of `mt19937` (an arbitrary function of seed and index) |
| `shuffle/parallel_shuffle.*` | `ParShuffle` | - |
| `noise/*` | `Range`, `NoiseFloat` (IEEE), `NoiseReal` (exact reals) | accuracy of `std::log` (a parameter) and `rand()` (a draw) |
| `types/types.*` | `Wire`, `Sizes` | - |
| `types/state.*` | `State` | hash table internals (an association list with the same find/insert behaviour) |
| `types/database.*` | `Database` | - |
| `types/containers.h` | `CipherBatch`, `Batch`, `Stream`, `Servers` (ServersMap) | `LogicalBuffer`'s allocation |
| `config/*` | `Config` | file system, terminal prompts (their answers are inputs) |
| `main.cc` | `MainFlags` (flags and choice of the role), `Boot` (the whole start) | abseil's own parsing |
| `protocol/*/*_initialization.cc` | `Boot`, `Connect` (the socket calls of all processes, interleaved) | connections from outside the deployment |
| `sockets/common.*`, `client_socket.*`, `server_socket.*` | `Stream` (buffers), `Net` (blocking skeleton), `Servers` (`Poll`), `Connect` (listen, accept, connect) | failures of socket and setsockopt, `getaddrinfo`, `errno` |
| `sockets/parallel_socket.*` | `Servers` (connection phase), `Exchange` (`SendAndPoll`) | as above |
| `protocol/client`, `protocol/party`, `protocol/backend` | `Handlers`, `Party`, `Chain` (whole batches), `Procs` (one system call at a time, with the hand-shakes and the sockets' buffers) | progress printing, timing |
| `experiments/orchestrator/*.js` | `Orchestrator` (workers, experiments, queues, requests, `new`, `kill`, `clear`) | HTTP, prompts, log requests |
| `experiments/orchestrator/cmd.js` (`store`, `load`, `loadi`), `toJSON`, `fromJSON` | `Stored`, with `Json` for `JSON.stringify(_, null, 2)` and `JSON.parse` | UTF-8 (the texts are proved to survive it); how doubles are written; fields of unexpected types |
| `experiments/daemon_server.sh`, `daemon_client.sh` | `Daemon` (registration, the loop, configuration, kill polls, upload), `Launch` (the job's words and the command line of DP-PIR processes) | `curl` is one step with its handler; log requests; time |
| `protocol/parallel_party` | `Parallel`, `ParChain` (whole batches), `ParProcs` (one system call at a time, with the sending and polling loop) | progress printing, timing |

Not modelled: `experiments/` other than the orchestrator and the daemons (AWS scripts, SealPIR and checklist themselves, plots), tests, build files,
logging and timing, DNS, kernel thread scheduling, memory exhaustion, the secrecy of
libsodium's primitives, the quality of its randomness.

How the layers fit together: `Chain`/`ParChain` compose whole batches per link. That a batch crosses a
connection unchanged whatever the kernel's fragmentation is C32-C34 (`Stream`); that the
blocking hand-shakes never get stuck and stay aligned is C53/C54 (`Net`); that the
sibling exchange delivers every message exactly once in some interleaving and never
blocks is C49/C50 (`Exchange`). For one server per party the composition itself is a theorem: C63
runs the entities of `Procs` as processes, one `write` or `read` per step, each of
which may transfer any part of what it was asked for, and shows that every schedule ends
like `Chain.run`. Every loop over messages goes through the buffers of `Stream` (flush
when full, flush at the end, reads of as much as the buffer holds with the partial
message carried over). A simplification: the code keeps one buffer per direction of a
socket for the whole run, `Procs` starts each loop on an empty buffer with arbitrary
contents of its memory (each loop leaves its buffer empty, C32/C33).
C65 does the same for N servers per entity: the processes of `ParProcs` include the connections
between siblings, their barriers and counts, and every `poll`, `write` and `read` of
`SendAndPoll`; every schedule ends like `ParChain.par_run`. A simplification: the order in
which a server accepts its siblings' connections is fixed per run (but arbitrary).
C66 starts them: `Boot.main_program` takes the command line and the bytes of the configuration
file to the process that `main` runs, with the ports it listens on and the addresses it connects to
(`Address`: glibc's `inet_pton` for IPv4, which the code relies on for these, is modelled after its
documented behaviour; it is not in `/repo`).

## Plan per property

| id | model | proof |
|----|-------|-------|
| C01-C04 | `Incremental` | Bezout invariant by induction on Euclid; primality of 2^31-1 by verified trial division; induction on the share list |
| C05, C06 | same | affine maps over Z/p are bijections; induction on position |
| C07-C09 | `Additive` | XOR algebra, permutation invariance, word/byte lemma |
| C10-C12 | `Onion` | induction on the layers with buffer invariant |
| C13, C14 | `Shuffle` | transpositions preserve permutation; bounds of the scaled draw; the reachable orders are listed (`ShuffleCount`), without repetition, by the choices of swap partners |
| C15-C19 | `ParShuffle` | counting/filter lemmas over the global permutation |
| C20-C22, C25, C26 | `Range`, `NoiseFloat` | arithmetic, rounding of exact quotients |
| C23, C24 | `NoiseReal` | ln/exp algebra; geometric ratios of Laplace masses, finite sums |
| C27-C30 | `Config` | parser/printer induction, prefix lemmas |
| C31, C59 | `Wire` | little-endian digits |
| C32-C35 | `Stream` | loop invariants over all kernel oracles |
| C36 | `CipherBatch` | memory invariant, induction over operations |
| C37, C38, C56 | `State`, `Database` | histories by induction |
| C39, C42-C45, C57 | `Chain` | induction on the list of parties |
| C40, C46, C48 | `Parallel` | parallel shuffle theorems, merge orders, tag arithmetic |
| C41, C55 | `Handlers`, `MainFlags` | modular arithmetic; case analysis |
| C47 | `ParChain` | induction on the list of parties, each a group of servers |
| C49, C50 | `Exchange` (transition system of siblings with bounded channels) | invariants; ranking on the last drain; measure |
| C51, C52, C58 | `Servers` | induction on the table; permutation of arrival orders |
| C53, C54 | `Net` | simulation-order invariant of blocking processes |
| C60-C62 | `Party`, `Chain` | the parties against an arbitrary peer: batches need not come from an honest run |
| C63 | `Procs` | each entity (buffers and short system calls included) follows its projection of one choreography carrying the data of `Chain.run`; confluence over all schedules |
| C64 | `Procs` (`crash_step`: kills, lost bytes, end of file) | the same choreography with the lost bytes as ghost contents of the channels; a process starved by a killed neighbour only loops |
| C65 | `ParProcs` | a choreography of bytes and of exchanges between siblings; within an exchange any interleaving, shown to progress by the order of the last polls (as C50) with full channels; every server follows its projection |
| C66 | `Boot` | evaluation of main and the constructors to the processes of `Procs`/`ParProcs`; C63/C65 for what they run; C27/C29 for the file |
| C67, C68 | `Boot`, `Procs`, `ParProcs` | the public seeds determine where each query ends up: an invariant along the chain relating places to items |
| C69 | `Procs`, `ParProcs`, `Boot` with `asserts = false` | the processes without assertions cover those with them, call by call; runs are carried over by simulation |
| C70 | `Address` | induction on the text and on the digits |
| C71 | `Chain`; with several servers `ParChain`; the views in `UpstreamSpec` and `ParUpstreamSpec` | the levels of a run written out; two runs stay alike up to the honest entity, whose share and mask absorb the difference, uniquely |
| C72 | `Chain`, `ParChain` | every link carries every client query with its tag and key (induction along the chain); tags are distinct |
| C73 | `ParCrash` (`par_crash_step`: kills, lost bytes, end of file, polls that report it) | the choreography of C65 with the lost bytes as ghost contents; the rules allow an exchange to end in vain; the last barrier of the first party separates the clients from everybody behind |
| C74 | `Chain` and `ParChain` with the responses of one link replaced (`TamperSpec`, `ParTamperSpec`); `Procs`, `ParCrash` | masks are removed one by one from arbitrary responses (induction along the chain), places follow the shuffles (several servers: `par_backward_spec`, which is about arbitrary replies, and the injectivity of the joint shuffle); for the check, what a process can return whatever its system calls deliver |
| C75 | `Procs`, `ParProcs` clients as processes; `TalkSpec` (what a process sends whatever its system calls return; logs of executions) | a weakest-precondition calculus over processes (`says`) with a fixed future output; send loops from the byte-exact rules of C63, receive loops for arbitrary bytes from the buffer laws of C32/C33; soundness for every execution with crashes |
| C76 | `Procs` deployments as networks; `TrafficSpec` (history of what is put on each connection, formula for amounts) | the invariant of C63 (an execution is explained by a trace of the choreography) with the history added; sends of the choreography computed per connection; lengths from the run's levels. Several servers per party (`ParTrafficSpec`, `ParTraffic`): the invariant of C65 with the history added, the order of all exchanges summed per connection, amounts of what siblings exchange from the shuffles' targets. With killed processes: the crash invariants of C64 and C73 with what every sender still has to write added |
| C77 | `Procs`, `ParProcs` deployments as networks with one party's `pf_samples` drawn (`CountsSpec`), `NoiseReal` for the law | C63/C65 give the looked-up multiset in every execution; the counts are the client's histogram plus a constant plus the draws; C24 step by step along the places that differ |
| C78 | `Orchestrator`: workers, experiments, the two queues, all requests of main.js and the commands new/kill/clear of cmd.js; gen_config is `Config.from_args` and `serialize` | invariant that ties the state to the history of requests and replies (`OrchestratorProofs`), one for the cached configuration (`OrchestratorConfigs`), one for the queues (`OrchestratorQueue`); C27 for reading it back |
| C79 | same | given = reported + dropped + current as multisets, in the invariant; counting |
| C80 | `Daemon`: every daemon is where it is in its loop, any step of any daemon, lost requests and replies as labels; starts and ends of processes are recorded independently of what is uploaded | invariant that daemons and orchestrator agree (`DaemonProofs`), a decreasing measure and a helpful step for the first unfinished experiment (`DaemonLive`); `C80_fair_exists` shows that fair executions exist from every state |
| C81 | `Orchestrator`, `Daemon` | the kill flag as a function of the history (`OrchestratorKill`), invariants of all continuations of a clear; witnesses |
| C82 | `Launch` on top of `Daemon`, `Orchestrator`, `Boot` | words and decimal numbers read back, C78 roles and C80 observations give a permutation of all roles (`LaunchProofs`); C78 configurations; then C66 applies to the processes as started |
| C83 | `Connect` (calls of every process) on top of `Boot` | invariant over all interleavings; a rank on calls such that a call of least rank can always be made, so no cycle of waiting; the number of calls left is a measure (`ConnectProofs`); the scripts of a configuration have this form (`ConnectScript`) |
| C84 | `Procs` (party and backend as programs over system calls) against every dialogue with the outside (`MeetSpec.dialog`: any bytes read, any part of a write taken) | a logic of histories: an invariant on the bytes received and sent at every system call, and a postcondition (`MeetProofs`), instantiated for the party (`MeetParty`, offline stage simulated: `MeetSimulated`) and the backend (`MeetBackend`, `MeetSimBackend`) with C60-C62 for the effect of whole batches |
| C85 | `Json`, `Stored`: toJSON and fromJSON on descriptions, the directory of files, the commands, restarts; a separate grammar of JSON (`JsonSpec`) | parser sound and complete for the grammar by induction on depth and on derivations (`JsonProofs`), stringify writes a derivable text (`JsonWrite`); decimal integers read back; invariant of the list and heap over all histories (`StoredProofs`). The example shows that the model's `store` writes the file `stored/table2.json` of the repository, byte for byte |
| C86 | `Chain`, `ParChain`, `Procs`, `ParProcs` with the simulated offline stage | the identity shares and zero masks of the simulated stores leave key and row unchanged; induction along the chain; the histories of C76 for the bytes |
| C87 | `Procs` and `ParProcs`, with the histories of C76, C64 and C73 | an execution, also one with kills, is an interleaving of the parts of the choreography; what a process has sent shows how far it is in its part and so what it has received; with several servers, a server past a barrier shows that all servers of the entity have reached it; induction along the links. With several servers the backend's servers are only shown to wait for their own link before they answer, as the code has no barrier there |

## Findings

What the proofs showed about the program that a reader of its documentation might not
expect. Each is part of a theorem.

* C02: a query at or above 2^31-1 silently becomes the query reduced modulo 2^31-1; a
  database larger than that cannot be addressed.
* C12: with `NDEBUG` the call that seals a layer is inside an `assert` and disappears: ciphers are
  sent unencrypted and the offline stage cannot work. `sodium_init` disappears too.
* C14: `rand()`-style 31-bit draws are scaled as if they had 32 bits: each swap picks from the lower half
  only, so most permutations are unreachable (two messages are always swapped).
* C20: the noise ranges of the servers tile the database exactly when
  `(S-1)*ceil(db/S) <= db`; otherwise a range is inverted.
* C22, C26: the check that a sample fits its type never fires; converting a too large
  double is undefined; the noise total wraps.
* C23: the comment above `InvCDF` names the wrong tail.
* C24: the histogram is (e, (exp(e/2)+exp(e))*d)-private; plain (e, d) fails when
  `d <= exp(-e/2)` and `exp(e/2)*d < 2*(exp(e/2)-1)`.
* C25: the default build adds constant noise: the backend learns the exact histogram.
* C28: any configuration file of 26 bytes or less, and any truncated one, is read out of
  bounds; trailing bytes are only noticed with assertions; a NUL inside an address breaks
  the round trip.
* C29, C30: `gen_config` reduces counts modulo 256; ports collide once parties*servers
  exceeds 1000.
* C34: `WaitForReady` checks the byte it reads only with assertions.
* C35: a closed connection is never noticed; the reader spins.
* C38, C41: clients with different query counts can draw the same tag; the colliding store
  aborts with assertions and otherwise drops the later secret.
* C40: with sampled (non-constant) noise, tags of different servers of a party collide.
* C51: an error-only poll event makes `Poll` run past its table; `IgnoreServer` does
  nothing for descriptor 0.
* C50: the exchange is deadlock-free if a channel takes at least one write buffer, and
  that bound is tight; with poll rate 0 it would not make progress. C65 carries the bound
  to whole deployments. The code asks the kernel for 12 MB and only warns when it gets less;
  the warning's "you should still be able to run the code with correct output" holds from 140000 bytes on.
* C52: a table for 255 siblings cannot be filled.
* C53: mismatched stage flags make a party read queries as ciphers.
* C57: batch counters are 32 bit and wrap.
* C60-C62: tags and keys out of range received from a peer are invalid memory accesses;
  a cipher that does not open stops the party only with assertions.
* C64: a crash never leads to a wrong answer, but it is never noticed either: the client of a
  deployment that lost a party waits or spins for ever.
* C67: the shuffle seeds are in the configuration file that everyone shares, so whoever has
  it and sees the backend's lookups can tell what each client asked for, in order. (A
  deployment that wants unlinkability must give each party its own copy with the other
  parties' seeds withheld; the code does not support that.)
* C68: `rand()` is only seeded after the noise is drawn (the shufflers' `srand` comes later),
  so the sampling build draws the same noise in every run and every process. `Boot` models
  unseeded `rand()` as the stream of seed 1, as the C standard prescribes.
* C69: `assert(inet_pton(...) >= 0)` (sockets/common.cc:58) disappears with `NDEBUG`, and with it
  the address: every connection then goes to whatever the stack holds. (The project's own
  `--config=opt` keeps assertions.) `assert(sodium_init() >= 0)` disappears too. Apart from these
  and the sealing of C12, assertions are only checks.
* C70: `inet_pton` returns 0, not a negative number, for a text that is not an address, so the
  assertion accepts a host name and the connection goes to whatever the stack holds.
* C71: nothing is claimed about entities after the honest one, and C72 shows that nothing could
  be: the backend sees the tags. What a sealed box reveals to those who cannot open it, apart
  from its length, is not modelled (the toy box of the examples hides nothing). With several
  servers the view has what crosses the links between the entities; what the servers of one
  party send each other they compute from it.
* C72: client_handlers.cc has a TODO to draw tags at random; until then a query's tag is its
  number and the same on every link, so shuffling and noise protect nobody from a backend that
  looks at the tags, even if the configuration file were kept secret (compare C67). In the
  simulated offline stage all tags are zero and this leak is absent.
* C73: a server that waits for a killed sibling keeps polling and reading 0 bytes from it, while
  it still handles what other siblings send; the model covers any number of such rounds
  (`sm_patience`) before it calls the rest spinning. A connection that is reset (read returns
  -1) fails an assertion, which is a kill. `Poll` (common.cc:148-155) counts on POLLIN being set
  with every event, as Linux does for closed TCP connections.
* C74: the check in client_online.cc:40-46 needs the database, as its comment says ("testing:
  can't do this in reality!"); the signatures in the rows are never verified (a TODO there). So a
  client that does not hold the database has no way to notice changed responses. `run_tampered`
  separates the check from the other assertions, since sealing depends on those (C12).

* C75: what a client sends before it has received the second ready byte does not include its
  queries, and with assertions disabled any byte counts as ready. Against a peer that closes the
  connection the client loops on reads of 0 bytes (common.cc:118-125), which is not undefined.
* C76: the number of fake queries of every party is visible in the amounts of traffic (the counts
  are sent in clear anyway). Timing is not modelled. With several servers per party, a sibling gets
  back only responses to queries that are not fake, so the amounts between siblings also show how
  many of the fake queries went where.
* C77: a statement about the law of `NoiseReal` and independent draws. The program itself does not
  draw independently (C68: unseeded rand(), the same numbers in every run) and the default build does
  not draw at all (C25); and it is about the numbers of lookups only: tags and public shuffle seeds
  give away more (C67, C72). It says what the noise is worth once those are repaired.
* C78: the configuration is right for experiments as the command `new` makes them (`well_made`); up to
  255 parties and servers per party. Two workers with the same address are two workers for the
  orchestrator: the configuration then has the address twice.
* C79: after one lost report the experiment stays Working for ever and `kill` does not repair that.
* C81: `kill e` also stops the present process of a worker that did a job of e before, although it works for
  another experiment now; it does not take e off the list, so its free places are still given out (C78); and a
  daemon that waits for its configuration does not ask whether to stop. Workers of an experiment that was cleared
  before it had all its servers wait for its configuration for ever.
* C81: a daemon that gets no reply to a ping runs nothing, and reports "Invalid type" as the result of a job that
  the orchestrator believes it has.
* C85: a number that was typed wrongly (NaN) is stored as null and is not the same after loading; -0 becomes 0.
  `store` also writes the experiments that are done: loading them where they ran makes experiments of the same
  name, whose results replace the earlier ones (`C85_example_replaced`).
* C86: the simulated offline stage exists for measurements; the command line accepts it like any other choice of
  stages, and nothing warns that the queries then travel in the clear.
