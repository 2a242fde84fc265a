{"id": "C01", "title": "Incremental sharing reconstructs the query", "statement": "If a key q < 2^31-1 is turned into a tally by GenerateIncrementalTally using any preshares PreIncrementalSecretShares can return, then feeding that tally through IncrementalReconstruct once per preshare, in order, returns exactly q.", "quantifier": "every key below the prime, every number of parties (including 0), every outcome of the random generator", "why_tests_cant": "the share space is about 2^62 per party and the number of parties is unbounded; the test samples 100000 random triples", "anchors": ["DPPIR/sharing/incremental.cc: PreIncrementalSecretShares, GenerateIncrementalTally, IncrementalReconstruct"]}
{"id": "C02", "title": "Exact key domain of incremental sharing", "statement": "For an arbitrary 32-bit key and at least one party, share-then-reconstruct returns the key modulo 2^31-1; so it returns the key itself if and only if the key is below 2^31-1, and databases with more rows are silently answered for the wrong row.", "quantifier": "every 32-bit key, every non-empty list of preshares", "why_tests_cant": "the existing test only draws keys below the prime; the failing half of the key_t domain is never exercised", "anchors": ["DPPIR/sharing/incremental.cc: GenerateIncrementalTally, IncrementalReconstruct", "DPPIR/types/types.h: key_t, INCREMENTAL_PRIME"]}
{"id": "C03", "title": "Share arithmetic never wraps", "statement": "Incremental reconstruction never leaves uint64_t and returns the mathematical value for every 32-bit tally and share, including values a malicious peer could send; tally generation never leaves uint64_t / int64_t for every 32-bit query and every share the generator can return.", "quantifier": "every 32-bit tally and share components (not only honest ones); every 32-bit query with generated shares", "why_tests_cant": "overflow would need extreme operand combinations that random tests do not draw", "anchors": ["DPPIR/sharing/incremental.cc: IncrementalReconstruct, GenerateIncrementalTally, GcdExtended, ModInverse"]}
{"id": "C04", "title": "Modular inverse is correct", "statement": "For every multiplier y in [1, 2^31-1) the inverse used when making a tally is the unique z in [1, 2^31-1) with y*z = 1 modulo the prime, and the recursive Euclid computing it terminates with coefficients that fit int64_t.", "quantifier": "every non-zero residue modulo the prime", "why_tests_cant": "2^31 inputs with data dependent recursion depth", "anchors": ["DPPIR/sharing/incremental.cc: GcdExtended, ModInverse"]}
{"id": "C05", "title": "Any all-but-one set of incremental shares hides the query", "statement": "Fix the tally, the shares of all parties but one, and that party's multiplier. For every candidate query there is exactly one additive component of the missing share consistent with it. Hence a tally together with all but one share is equally likely under every query.", "quantifier": "every position of the missing party, every tally, every other share, every pair of candidate queries", "why_tests_cant": "secrecy is a statement about all share vectors at once, no test observes it", "anchors": ["DPPIR/sharing/incremental.h: PreIncrementalSecretShares, GenerateIncrementalTally"]}
{"id": "C06", "title": "Tampering with a tally always changes the looked-up key, unpredictably", "statement": "Each party's reconstruction step is a bijection on residues, so two different tallies below the prime never reconstruct to the same key; and for a fixed non-zero tampering offset, as one honest multiplier ranges over its domain the resulting key offset takes every non-zero value exactly once.", "quantifier": "every pair of tallies, every list of shares, every offset", "why_tests_cant": "injectivity over a 2^31 domain and over all share vectors", "anchors": ["DPPIR/sharing/incremental.cc: IncrementalReconstruct"]}
{"id": "C07", "title": "Additive masks cancel", "statement": "The n masks returned by GenerateAdditiveSecretShares(n) XOR to zero, so applying AdditiveReconstruct with each of them, in any order, to any response leaves the response unchanged.", "quantifier": "every n >= 1, every outcome of the random generator, every response, every order of application", "why_tests_cant": "2^416 mask values and unbounded n; tests use at most 6 parties and one order", "anchors": ["DPPIR/sharing/additive.cc: GenerateAdditiveSecretShares, AdditiveReconstruct"]}
{"id": "C08", "title": "Any all-but-one set of additive masks hides the response", "statement": "For every masked response and every choice of all masks but one, each candidate response is produced by exactly one value of the missing mask; and any n-1 of the generated masks can take any values whatsoever.", "quantifier": "every position of the missing mask, every response pair, every mask values", "why_tests_cant": "secrecy quantifies over all masks", "anchors": ["DPPIR/sharing/additive.cc: GenerateAdditiveSecretShares, AdditiveReconstruct"]}
{"id": "C09", "title": "Response masking acts on every byte, in place or not", "statement": "AdditiveReconstruct sets each of the 52 bytes of the target response to the XOR of the corresponding response and mask bytes, whether or not the target is the input response itself, and touches nothing else.", "quantifier": "every response, every mask, aliased and non-aliased targets", "why_tests_cant": "a lost tail word or an aliasing hazard only shows for particular layouts and sizes", "anchors": ["DPPIR/sharing/additive.cc: XOR, AdditiveReconstruct", "DPPIR/types/types.h: Response, preshare_t"]}
{"id": "C10", "title": "Onion encryption peels layer by layer", "statement": "For any secrets and any number of parties, the cipher made by OnionEncrypt, opened with the parties' keys in order by OnionDecrypt, shows party i exactly its own secret, hands on a cipher for the remaining parties, and never reads or writes outside its buffers.", "quantifier": "every number of layers, every secret contents, every uninitialised buffer content, every key pairs for which sealed boxes open", "why_tests_cant": "onion_test uses 5 parties and its comparison is commented out", "anchors": ["DPPIR/onion/onion.cc: OnionEncrypt, OnionDecrypt", "DPPIR/onion/onion.h: OnionLayer"]}
{"id": "C11", "title": "Cipher sizes agree everywhere", "statement": "A cipher for k remaining parties occupies exactly 124*k bytes, removing a layer yields exactly the size the next party's sockets expect, and at least one cipher fits in every socket buffer for every legal party count.", "quantifier": "every party count representable in party_id_t", "why_tests_cant": "sizes for all 255 party counts and every position in the chain", "anchors": ["DPPIR/onion/onion.cc: CipherSize", "DPPIR/sockets/consts.h: BUFFER_SIZE", "DPPIR/types/containers.h: CipherLogicalBuffer"]}
{"id": "C12", "title": "Encryption depends on assertions being compiled in", "statement": "With assertions enabled OnionEncrypt seals every layer. With assertions compiled out (NDEBUG) the sealing calls disappear, the result no longer depends on the keys, and the returned buffer carries the 2nd, 4th, ... party's secret in clear while the first party's secret is lost.", "quantifier": "every secrets, keys and buffer contents, both build modes", "why_tests_cant": "tests are built with assertions on; the other build mode is never tested", "anchors": ["DPPIR/onion/onion.cc: OnionEncrypt (assert around crypto_box_seal)"]}
{"id": "C13", "title": "Local shuffle is a permutation and deshuffling undoes it", "statement": "After LocalShuffler::Initialize(n), Shuffle is a bijection on [0,n) and Deshuffle is its inverse; initialising again with the same seed and count gives the same mapping.", "quantifier": "every n, every seed, every sequence of values rand() may return", "why_tests_cant": "n! permutations times all generator outputs", "anchors": ["DPPIR/shuffle/local_shuffle.cc: Initialize, Shuffle, Deshuffle", "DPPIR/shuffle/util.h: shuffle", "DPPIR/shuffle/util.cc: random_bounded"]}
{"id": "C14", "title": "Reach of the shuffle: the last message always moves to the first half", "statement": "Because rand() yields 31 bits but is scaled as 32, every swap partner lies in the lower half: for every seed and n >= 2 the element at the last position is always moved below ceil(n/2), so not every permutation can occur (for n = 2 the outcome is always the swap). Exactly 1*1*2*2*3*3*... (n factors) of the n! orders occur, which is at most one in 2^(n/2), and each of these occurs for some output of the generator.", "quantifier": "every generator output sequence and every n >= 2", "why_tests_cant": "tests check round trips only; a biased or constant permutation passes them", "anchors": ["DPPIR/shuffle/util.cc: random_bounded", "DPPIR/shuffle/util.h: shuffle"]}
{"id": "C15", "title": "Parallel shuffle balances the load exactly", "statement": "After ParallelShuffler::Initialize, the slice of every server but the last is floor(total/servers), the last gets the remainder, the slices add up to the total, and the number of messages a server receives equals its slice size.", "quantifier": "every number of servers, every per-server input counts (including zero), every seed and generator output", "why_tests_cant": "combinatorial space of counts and permutations; the test uses one configuration", "anchors": ["DPPIR/shuffle/parallel_shuffle.cc: Initialize, GetServerSliceSize, CountFromServer"]}
{"id": "C16", "title": "Sibling servers agree on who sends what to whom", "statement": "With a common seed and common counts, the number of messages server a says it sends to b equals the number b says it receives from a, and equals the number of times a's successive ShuffleOne calls return b.", "quantifier": "every pair of servers, every counts, every seed", "why_tests_cant": "disagreement would deadlock or misplace messages only for particular counts", "anchors": ["DPPIR/shuffle/parallel_shuffle.cc: CountToServer, CountFromServer, ShuffleOne"]}
{"id": "C17", "title": "Shuffling across servers then deshuffling is the identity", "statement": "If every server sends its messages where ShuffleOne says, each server concatenates what it received by source, local-shuffles, local-deshuffles, returns to each source its section, and each source places the j-th message back from server t at DeshuffleOne(t), then every server ends with exactly its input list.", "quantifier": "every number of servers, every (unequal, possibly empty) input lists, every seeds and generator outputs", "why_tests_cant": "shuffle_test checks one size with 8 servers", "anchors": ["DPPIR/shuffle/parallel_shuffle.cc: ShuffleOne, DeshuffleOne, PrefixSumCountFromServer", "DPPIR/shuffle/shuffle_test.cc: SimpleProtocol"]}
{"id": "C18", "title": "A received position is attributed to the right source", "statement": "FindSourceOf(idx) returns the unique server s with PrefixSumCountFromServer(s) <= idx < PrefixSumCountFromServer(s) + CountFromServer(s), for every idx below the slice size, also when some servers contribute nothing.", "quantifier": "every index, every count vector", "why_tests_cant": "boundary and zero-count combinations", "anchors": ["DPPIR/shuffle/parallel_shuffle.cc: FindSourceOf, PrefixSumCountFromServer"]}
{"id": "C19", "title": "Noise messages come first from every source", "statement": "Among the messages a server sends to a target, the noise messages it generated are exactly the first CountNoiseToServer(target) ones; so dropping that many from the head of each source section drops all and only noise.", "quantifier": "every noise count, every counts, every permutation", "why_tests_cant": "depends on all permutations", "anchors": ["DPPIR/shuffle/parallel_shuffle.cc: Initialize (to_noise_count_), CountNoiseToServer", "DPPIR/protocol/parallel_party/parallel_party_online.cc: CollectResponses"]}
{"id": "C20", "title": "Noise ranges tile the database exactly when they should", "statement": "The key ranges FindRange gives to the servers are disjoint and cover [0, db_size) whenever (servers-1)*ceil(db_size/servers) <= db_size (in particular when db_size >= servers*(servers-1)); otherwise the last server's range starts beyond its end although the precondition assert passes.", "quantifier": "every database size and server count with db_size >= servers", "why_tests_cant": "corner combinations such as 5 rows over 4 servers are not tested", "anchors": ["DPPIR/noise/noise.cc: FindRange", "DPPIR/protocol/parallel_party/parallel_party_initialization.cc: InitializeNoiseSamples"]}
{"id": "C21", "title": "Floating-point range size is the exact ceiling", "statement": "The double-precision expression ceil(1.0*db_size/servers_count) equals the integer ceiling of the quotient for all 32-bit sizes and 8-bit server counts.", "quantifier": "every uint32 size and every non-zero uint8 count", "why_tests_cant": "2^40 pairs; rounding errors would show only for rare pairs", "anchors": ["DPPIR/noise/noise.cc: FindRange"]}
{"id": "C22", "title": "Sampled noise is bounded", "statement": "For epsilon > 0 and 0 < delta < 1 a real sample lies between 0 and floor(2*cutoff), for every Laplace draw including the infinite ones; with epsilon or delta zero it is 0.", "quantifier": "every epsilon, delta and every draw (including +/- infinity)", "why_tests_cant": "continuous domain; extreme draws have probability about 2^-31", "anchors": ["DPPIR/noise/noise.cc: NoiseDistribution, SampleReal, Laplace, InvCDF"]}
{"id": "C23", "title": "Cutoff and sampler follow the Laplace law", "statement": "In exact arithmetic with two uniform draws in [0,1]: the untruncated noise is below x with exactly the probability of the Laplace distribution of scale 2/epsilon; the cutoff is the positive point that noise exceeds with probability delta/2; and a sample lies in [0, floor(2*cutoff)] and takes each value k with the probability that the noise shifted by the cutoff falls in [k, k+1), the two extreme values absorbing the tails.", "quantifier": "every epsilon > 0, delta in (0,1), threshold x and sample value k", "why_tests_cant": "a statistical test with a tolerance of 2 around the mean cannot settle an exact law", "anchors": ["DPPIR/noise/noise.cc: InvCDF, Laplace"]}
{"id": "C24", "title": "Differential privacy of the noisy query histogram", "statement": "With real sampling, replacing one client's key by another changes the probability of any event (and the mean of any randomised test) on the noisy counts seen by the backend by at most a factor e^epsilon plus (e^(epsilon/2) + e^epsilon)*delta; the usual claim with plain delta is false whenever delta <= e^(-epsilon/2) and delta*e^(epsilon/2) < 2*(e^(epsilon/2)-1).", "quantifier": "every epsilon > 0, 0 < delta < 1, every pair of neighbouring histograms, every set of outcomes", "why_tests_cant": "a probability statement over all events", "anchors": ["DPPIR/noise/noise.cc: SampleReal", "DPPIR/noise/noise.h: NoiseDistribution"]}
{"id": "C25", "title": "Default build adds constant noise", "statement": "Without DPPIR_SAMPLE every call of Sample returns floor(cutoff), so the backend's counts determine the client's histogram exactly: two query multisets giving the same noisy counts are equal.", "quantifier": "every epsilon, delta and every pair of query multisets", "why_tests_cant": "a statement about all histograms", "anchors": ["DPPIR/noise/noise.h: Sample, DPPIR_SAMPLE"]}
{"id": "C26", "title": "The sample-width check never fires", "statement": "The constructor's check that the noise domain fits sample_t compares a 32-bit value with itself and never rejects; for parameters with floor(2*cutoff) >= 2^32 the conversion before it is already undefined.", "quantifier": "every epsilon and delta", "why_tests_cant": "only parameters with enormous cutoffs reveal it", "anchors": ["DPPIR/noise/noise.cc: NoiseDistribution::NoiseDistribution"]}
{"id": "C27", "title": "Configuration files round-trip", "statement": "Deserialize(Serialize(c)) = c for every configuration whose vectors have the declared sizes and whose ip strings contain no NUL byte.", "quantifier": "every configuration: any db size, any double bit patterns, up to 255 parties and servers, any keys, any ip strings", "why_tests_cant": "unbounded configurations; the test checks one", "anchors": ["DPPIR/config/config.cc: Serialize, Deserialize"]}
{"id": "C28", "title": "Configuration parsing of damaged input", "statement": "Appending bytes to a valid serialization makes Deserialize abort; every proper prefix of a valid serialization makes it abort or read out of bounds, never return a configuration; reading out of bounds does happen (e.g. for an empty or missing file); Serialize is injective on valid configurations.", "quantifier": "every valid configuration and every truncation point or suffix", "why_tests_cant": "all crash/truncation points of all configurations", "anchors": ["DPPIR/config/config.cc: Deserialize, Bin2Int, Bin2Double, Bin2Str, ReadIntoBuffer, ReadFile"]}
{"id": "C29", "title": "Generated configurations give every server its own ports and seed", "statement": "gen_config assigns pairwise different ports and local seeds to all servers of all parties; main and sibling ports never clash provided parties*servers <= 1000, and do clash as soon as parties*servers > 1000.", "quantifier": "every party count and server count", "why_tests_cant": "quadratically many pairs for every size", "anchors": ["DPPIR/config/gen_config.cc: FromArgs, Interactive"]}
{"id": "C30", "title": "Counts given to gen_config are silently reduced modulo 256", "statement": "A requested number of parties or servers is stored modulo 256, so the generated configuration has the requested shape iff both are below 256; the interactive path with a larger party count aborts on serialization instead.", "quantifier": "every requested (non-negative int) counts", "why_tests_cant": "values above 255 are never tried", "anchors": ["DPPIR/config/gen_config.cc: FromArgs, Interactive", "DPPIR/config/config.cc: Serialize"]}
{"id": "C31", "title": "Wire formats round-trip", "statement": "The packed little-endian images of queries (12 bytes), responses (52), offline secrets (76) decode back to the same values.", "quantifier": "every value of every field", "why_tests_cant": "2^96 and more values per record", "anchors": ["DPPIR/types/types.h: Query, Response, OfflineSecret"]}
{"id": "C32", "title": "Buffered sending transmits exactly the messages, in order", "statement": "Any sequence of SendQuery/SendResponse/SendCipher calls followed by the flush writes to the socket exactly the concatenation of the messages' images, never writes beyond the physical buffer, and leaves the buffer empty, however the kernel splits the writes.", "quantifier": "every message sequence, every buffer/unit size with at least one unit per buffer, every sequence of partial sends", "why_tests_cant": "all batch lengths modulo the buffer capacity and all partial-write schedules", "anchors": ["DPPIR/types/containers.h: LogicalBuffer, CipherLogicalBuffer", "DPPIR/sockets/client_socket.cc: SendQuery, FlushQueries", "DPPIR/sockets/common.cc: Send"]}
{"id": "C33", "title": "Buffered reading reassembles messages under every fragmentation", "statement": "A read loop asking for count messages delivers exactly the first count messages of the byte stream, in order, whatever sizes the kernel's reads return, and terminates once enough bytes have arrived.", "quantifier": "every stream, every count, every sequence of short reads", "why_tests_cant": "exponentially many fragmentations", "anchors": ["DPPIR/types/containers.h: Update, Clear, ToBuffer, BufferCapacity", "DPPIR/sockets/common.h: Read", "DPPIR/protocol/party/party_online.cc: CollectQueries"]}
{"id": "C34", "title": "A completed batch leaves nothing behind and takes nothing extra", "statement": "When a read loop finishes, no partial message is left in the buffer and no byte after the batch has been consumed, so the next phase (ready byte, count, another message type sharing the same memory) starts at a message boundary.", "quantifier": "every stream with arbitrary following bytes, every fragmentation", "why_tests_cant": "depends on coincidence of timing of the next phase's bytes", "anchors": ["DPPIR/sockets/common.h: Read", "DPPIR/sockets/parallel_socket.cc: ReadCiphers, ReadSecrets, ReadQueries, ReadResponses"]}
{"id": "C35", "title": "A closed connection is never noticed", "statement": "If the peer closes the connection before the expected bytes have arrived, the exact read and the batch read loops make no progress and never terminate or report: for every number of further iterations they are still looping.", "quantifier": "every stream shorter than requested, every number of iterations", "why_tests_cant": "non-termination cannot be observed by a finite test", "anchors": ["DPPIR/sockets/common.cc: Read, ReadSome, MY_ASSERT"]}
{"id": "C36", "title": "In-place onion processing never overwrites an unread cipher", "statement": "In a CipherBatch with long ciphers longer than short ones, popping a long cipher and pushing its peeled form keeps all unread long ciphers intact, stays inside the allocation, and ends with the noise ciphers followed by all peeled ciphers in arrival order.", "quantifier": "every noise and input counts, every cipher sizes short <= long, every contents", "why_tests_cant": "all sizes and contents; corruption would look like a random decryption failure", "anchors": ["DPPIR/types/containers.h: CipherBatch", "DPPIR/protocol/party/party_offline.cc: CreateNoiseCiphers, CollectCiphers, InstallSecrets"]}
{"id": "C37", "title": "The client uses its stored secrets first-in first-out", "statement": "The i-th query uses the tag and shares of the i-th stored secret, and after FinishSharing the i-th response is unmasked with the mask of the i-th stored secret; reading more than was stored is out of bounds.", "quantifier": "every sequence of stored secrets and every number of reads", "why_tests_cant": "histories of unbounded length", "anchors": ["DPPIR/types/state.cc: ClientState"]}
{"id": "C38", "title": "The tag-indexed secret store returns what was installed", "statement": "After any sequence of Store calls with distinct tags, loading a tag yields exactly the secret stored under it; storing a tag twice aborts; loading an unknown tag is undefined behaviour, and asking for its mask throws.", "quantifier": "every sequence of stores and lookups", "why_tests_cant": "histories of unbounded length", "anchors": ["DPPIR/types/state.cc: PartyState, BackendState"]}
{"id": "C39", "title": "Tags never collide in a single-server deployment", "statement": "With one server per party, the tags of the messages arriving at each party are exactly 0..count-1 in some order, so installing secrets never collides and every query finds its secret, as long as the batch sizes fit 32 bits.", "quantifier": "every number of parties, noise samples, query counts, shuffles", "why_tests_cant": "collision needs particular counts; the invariants span all parties", "anchors": ["DPPIR/protocol/client/client_handlers.cc: SampleTag", "DPPIR/protocol/party/party_handlers.cc: SampleTag, MakeNoiseSecret"]}
{"id": "C40", "title": "Noise tags in a multi-server deployment", "statement": "If every key receives the same number of noise queries and the noise ranges tile the database, the tags given to noise by all servers of a party are exactly the numbers from the total input count to the total batch size minus one, without repetition; with key-dependent noise (real sampling) tags of different servers can collide.", "quantifier": "every server count, database size, constant noise level and input counts; a witness for the negative part", "why_tests_cant": "depends on all server/size combinations", "anchors": ["DPPIR/protocol/parallel_party/parallel_party_handlers.cc: SampleTag, NOISE_OFFSET"]}
{"id": "C41", "title": "Client tags across parallel clients", "statement": "If all parallel clients issue the same number of queries (and the product fits 32 bits) their tags are pairwise distinct; if their numbers differ, tags can collide, in which case installing the secrets aborts.", "quantifier": "every server count and query count; a witness for the negative part", "why_tests_cant": "tests never run clients with different counts", "anchors": ["DPPIR/protocol/client/client_handlers.cc: SampleTag", "DPPIR/types/state.cc: PartyState::Store"]}
{"id": "C42", "title": "End-to-end correctness with one server per party", "statement": "Running the offline stage and then the online stage, the client obtains for its i-th query exactly the database row of the i-th key, in order; no party aborts, no out-of-bounds access happens.", "quantifier": "every number of parties >= 2, every keys, noise samples, seeds, shares, masks, sealing randomness, with db_size < 2^31-1 and batch sizes below 2^32", "why_tests_cant": "product of all random choices of all parties", "anchors": ["DPPIR/protocol/client/client_online.cc: StartOnline", "DPPIR/protocol/party/party_offline.cc", "DPPIR/protocol/party/party_online.cc", "DPPIR/protocol/backend/backend_online.cc"]}
{"id": "C43", "title": "End-to-end correctness with a simulated offline stage", "statement": "When all entities run only the online stage (simulated secrets), the client still obtains exactly the rows of its keys in order.", "quantifier": "every number of parties, keys, noise samples and seeds", "why_tests_cant": "product of all random choices", "anchors": ["DPPIR/protocol/party/party_offline.cc: SimulateOffline", "DPPIR/types/state.cc: Initialize"]}
{"id": "C44", "title": "The backend sees exactly the noisy multiset of keys", "statement": "The multiset of keys looked up by the backend equals the multiset of the client's keys plus, for every non-backend party and key, as many copies as that party's noise sample for the key.", "quantifier": "every number of parties, keys, noise samples, shuffles", "why_tests_cant": "the view ranges over all executions", "anchors": ["DPPIR/protocol/party/party_initialization.cc: InitializeNoiseQueries", "DPPIR/protocol/backend/backend_handlers.cc: HandleQuery"]}
{"id": "C45", "title": "Announced counts equal transmitted counts", "statement": "Each party forwards exactly as many ciphers and queries as the count it announced (input plus noise), returns exactly as many responses as it received queries, and drops exactly its own noise responses.", "quantifier": "every counts, every shuffles", "why_tests_cant": "all sizes", "anchors": ["DPPIR/protocol/party/party_initialization.cc: InitializeCounts", "DPPIR/protocol/party/party_online.cc"]}
{"id": "C46", "title": "A multi-server party answers every query it forwarded", "statement": "For a party with several servers: if the next party answers the queries position by position with f(query), each server returns to its own predecessor, in order, the unmasked f of its own inputs; noise answers are dropped; nothing is lost, duplicated or swapped between servers.", "quantifier": "every number of servers, unequal batches, noise counts, seeds, and answer function f", "why_tests_cant": "cross-server permutations and noise removal interact in all combinations", "anchors": ["DPPIR/protocol/parallel_party/parallel_party_shuffle.cc", "DPPIR/protocol/parallel_party/parallel_party_online.cc"]}
{"id": "C47", "title": "End-to-end correctness with several servers per party", "statement": "With several servers per party and one client per server, every client obtains exactly the rows of its own keys in order.", "quantifier": "every number of parties and servers, keys, constant noise, seeds and random choices, under the documented preconditions", "why_tests_cant": "product of all random choices of all servers", "anchors": ["DPPIR/protocol/parallel_party/*", "DPPIR/protocol/backend/backend_offline.cc: BroadcastSecrets"]}
{"id": "C48", "title": "After broadcasting, all siblings hold all secrets", "statement": "After BroadcastSecrets every server of a party can resolve every tag installed by any of its siblings to the same secret, provided tags are distinct across siblings.", "quantifier": "every number of servers and secrets, every delivery schedule", "why_tests_cant": "all schedules", "anchors": ["DPPIR/protocol/parallel_party/parallel_party_offline.cc: BroadcastSecrets", "DPPIR/protocol/backend/backend_offline.cc: BroadcastSecrets"]}
{"id": "C49", "title": "The sibling exchange is schedule independent", "statement": "Whatever interleaving of sending, polling and partial reading occurs, the send-and-poll loop sends all of its items in order to the right targets, consumes exactly the expected number of messages from each sibling, and leaves the batch in the same final state.", "quantifier": "every poll outcome sequence and read sizes", "why_tests_cant": "exponentially many schedules", "anchors": ["DPPIR/protocol/parallel_party/parallel_party_util.inc: SendAndPoll", "DPPIR/protocol/parallel_party/parallel_party_shuffle.cc: FromSibling"]}
{"id": "C50", "title": "The sibling exchange cannot deadlock on full TCP buffers", "statement": "If every directed TCP channel can hold at least as many bytes as a server can send between two polls, no reachable state of the exchange between any number of siblings is stuck; with a smaller capacity a deadlock is reachable.", "quantifier": "every number of servers, item routes and interleavings; a witness for the negative part", "why_tests_cant": "deadlock needs a particular global schedule", "anchors": ["DPPIR/protocol/parallel_party/parallel_party_util.inc: SendAndPoll", "DPPIR/sockets/consts.h: POLL_RATE, BUFFER_SIZE, SNDBUF, RCVBUF"]}
{"id": "C51", "title": "Polling never looks past the descriptor table", "statement": "The scan after poll() marks exactly the readable descriptors and stays inside the table provided every descriptor with events reports POLLIN; if some descriptor reports only an error or hang-up the scan runs past the end of the table.", "quantifier": "every table size and every combination of returned events", "why_tests_cant": "error-only events need special network failures", "anchors": ["DPPIR/sockets/common.cc: Poll"]}
{"id": "C52", "title": "Per-sibling tables address distinct cells", "statement": "A ServersMap with a gap maps different sibling ids to different in-range cells; the gapless map (gap = server_count, size server_count+1) works for every server_count below 255, and for 255 servers the constructor's size computation wraps and construction fails.", "quantifier": "every server id and server count in uint8", "why_tests_cant": "the extreme count is never tested", "anchors": ["DPPIR/types/containers.h: ServersMap"]}
{"id": "C53", "title": "Start-up and stage hand-shakes never deadlock", "statement": "For any number of parties, every interleaving of the blocking count/ready/cipher/query/response exchanges of client, parties and backend can always proceed until all entities have finished.", "quantifier": "every number of parties, every interleaving", "why_tests_cant": "schedules", "anchors": ["DPPIR/protocol/party/party_offline.cc: StartOffline", "DPPIR/protocol/client/client_offline.cc", "DPPIR/protocol/backend/backend_offline.cc"]}
{"id": "C54", "title": "No query is sent before every party is ready", "statement": "In every interleaving, when the client sends its first offline cipher every party has allocated its batch, and when it sends its first online query every party and the backend have finished the offline stage.", "quantifier": "every number of parties, every interleaving", "why_tests_cant": "schedules", "anchors": ["DPPIR/protocol/client/client_offline.cc: WaitForReady", "DPPIR/protocol/party/party_offline.cc: SendReady"]}
{"id": "C55", "title": "Command line validation decides as documented", "statement": "main proceeds to run a role exactly when config, a known stage, a known role and an in-range server id are given, a party also has an in-range party id and a client a non-negative query count; the last party becomes the backend, others a plain or parallel party depending on the server count; query counts are taken modulo 2^32.", "quantifier": "every combination of flag values and configuration counts", "why_tests_cant": "cross product of all flags", "anchors": ["DPPIR/main.cc: main"]}
{"id": "C56", "title": "Database rows and bounds", "statement": "Row k of a database of n rows has value 2k mod 2^32 and signature bytes k mod 128 for every k < n, and a lookup at or beyond n is out of bounds; RandomRow is always a valid row when n > 0.", "quantifier": "every size and every key", "why_tests_cant": "all 32-bit sizes and keys", "anchors": ["DPPIR/types/database.cc"]}
{"id": "C57", "title": "Batch counters wrap silently", "statement": "Counts are 32-bit: the announced batch size is (input + sum of noise) modulo 2^32; it is the true size iff that sum is below 2^32. There is no check: when the noise fits 32 bits but the sum does not, the batch storage is smaller than what is written to it and the party indexes out of bounds.", "quantifier": "every input count and noise sample list", "why_tests_cant": "needs billions of messages", "anchors": ["DPPIR/protocol/party/party_initialization.cc: InitializeNoiseSamples, InitializeCounts"]}
{"id": "C58", "title": "Sibling connections are attributed correctly in any arrival order", "statement": "Whatever the order in which lower-numbered siblings connect, each ends up registered under its own id, and the connection phase of all siblings completes.", "quantifier": "every number of siblings and every arrival order", "why_tests_cant": "factorially many arrival orders", "anchors": ["DPPIR/sockets/parallel_socket.cc: Initialize"]}
{"id": "C59", "title": "Response equality is exact", "statement": "Two responses compare equal if and only if their value and all 48 signature bytes agree, and != is the negation.", "quantifier": "every pair of responses", "why_tests_cant": "2^832 pairs", "anchors": ["DPPIR/types/types.cc: operator==, operator!="]}
{"id": "C60", "title": "A party or backend accepts a batch of ciphers exactly when all open and all tags differ", "statement": "Whatever ciphers of the right size a peer sends, the offline stage of a party or backend with assertions on succeeds exactly when every cipher opens with its key and the tags shown are pairwise different, and aborts otherwise. When a party succeeds it sends on its own noise ciphers, which do not depend on what it received, and the inner ciphers it found, arranged by its shuffler. Without assertions a cipher that does not open is read uninitialised.", "quantifier": "every batch of ciphers of the right size (honest or not), every batch size, party position, seed and randomness", "why_tests_cant": "a peer can send any bytes; the space of batches is unbounded", "anchors": ["DPPIR/protocol/party/party_offline.cc: StartOffline, InstallSecrets, SendCiphers", "DPPIR/protocol/backend/backend_offline.cc: StartOffline", "DPPIR/onion/onion.cc: OnionDecrypt", "DPPIR/types/state.cc: Store"]}
{"id": "C61", "title": "What a party forwards for arbitrary queries", "statement": "Given an accepted offline stage, for every list of queries under stored tags the party sends on its own noise queries, which do not depend on the queries received, and for every query the next tag and the tally reconstructed with the share stored under that query's tag, at the positions its shuffler assigns. The backend answers each query with the row named by the reconstructed key under the stored mask. A query under an unknown tag, or a key outside the table at the backend, is an invalid memory access rather than an error.", "quantifier": "every list of queries, including repeated tags and unreduced tallies, every accepted offline batch", "why_tests_cant": "a malicious client or predecessor chooses tags and tallies freely", "anchors": ["DPPIR/protocol/party/party_online.cc: CollectQueries, SendQueries", "DPPIR/protocol/party/party_handlers.cc: HandleQuery", "DPPIR/protocol/backend/backend_handlers.cc: HandleQuery"]}
{"id": "C62", "title": "What a party returns for arbitrary responses", "statement": "For every batch of 52-byte responses from the next party, the party returns one response per received query, in the order the queries came in: the response that came back at the position where that query was sent, XORed with the mask stored under that query's tag. Responses to noise are dropped and influence nothing.", "quantifier": "every batch of responses, every accepted offline batch and list of queries under stored tags", "why_tests_cant": "responses come from another machine and can be anything", "anchors": ["DPPIR/protocol/party/party_online.cc: CollectResponses, SendResponses", "DPPIR/protocol/party/party_handlers.cc: HandleResponse"]}
{"id": "C63", "title": "A whole deployment finishes with the right answers under every schedule", "statement": "Start a client, any number of one-server parties and the backend as separate processes that exchange bytes over connections. Whatever the order in which the processes are scheduled, however the bytes are split into kernel calls and however little a connection buffers, no process ever fails, the processes can always go on until all have finished, the number of steps is bounded, and at the end the client holds the row of every key it asked for, the backend has looked up exactly the client's keys and the noise keys, in an order that does not depend on the schedule, and no connection holds unread bytes.", "quantifier": "every number of parties (up to 255), database, query list, noise, seed and randomness; every schedule and buffer capacity; offline and online stage, simulated offline stage, offline stage alone", "why_tests_cant": "schedules and kernel buffering are not under the control of a test", "anchors": ["DPPIR/protocol/client/client_offline.cc", "DPPIR/protocol/client/client_online.cc", "DPPIR/protocol/party/party_offline.cc", "DPPIR/protocol/party/party_online.cc", "DPPIR/protocol/backend/backend_offline.cc", "DPPIR/protocol/backend/backend_online.cc", "DPPIR/sockets/common.cc"]}
{"id": "C64", "title": "A killed process never leads to a wrong answer", "statement": "Kill any of the processes of a deployment at any moment, and lose any of the bytes it sent last. Whoever still returns, returns exactly what it returns in an undisturbed run; nobody else aborts or has undefined behavior; who cannot go on waits, or loops on reads that return nothing from a killed neighbour's connection. If a party or the backend is killed before it is done the client never returns and reports no error. The client is the last to return, if it asked anything. When nobody is killed no connection is ever found closed although processes exit at different times.", "quantifier": "every deployment as in C63, every schedule, every set of killed processes, every crash point, every loss of the last bytes sent", "why_tests_cant": "crash points times schedules; the failure to notice an end of file shows only at particular instants", "anchors": ["DPPIR/sockets/common.cc: Read, Send", "DPPIR/sockets/client_socket.cc: WaitForReady, ReadResponses", "DPPIR/sockets/server_socket.cc: ReadCount, ReadCiphers, ReadQueries", "DPPIR/protocol/client/client_online.cc", "DPPIR/protocol/party/party_online.cc", "DPPIR/protocol/backend/backend_online.cc"]}
{"id": "C65", "title": "A deployment with several servers per party finishes with the right answers under every schedule", "statement": "Start N clients, any number of parties with N servers each and N servers of the backend as separate processes. The servers of one party connect to each other, exchange counts, ciphers, secrets, queries and responses among themselves with the sending and polling loop, and talk to their counterparts in the neighbouring parties. Whatever the order in which the processes are scheduled, in whatever order siblings connect, however the bytes are split into kernel calls, and whatever poll reports first, no process ever fails, the processes can always go on until all have finished, the number of steps is bounded, and at the end every client holds the row of every key it asked for, in order, the servers of the backend have looked up exactly the clients' keys and the noise keys, which keys each of them looks up does not depend on the schedule, and no connection holds unread bytes. This needs connections between siblings that buffer as much as one write buffer; the other connections may buffer a single byte.", "quantifier": "every number of servers (2 to 255) and parties (up to 255), database, query lists, noise, seeds and randomness; every schedule, order of connections and buffer capacity; offline and online stage, simulated offline stage, offline stage alone", "why_tests_cant": "the interleavings of N servers per party that send, poll and flush at once cannot be enumerated, and kernel buffering is not under the control of a test", "anchors": ["DPPIR/protocol/parallel_party/parallel_party_util.inc: SendAndPoll", "DPPIR/protocol/parallel_party/parallel_party_offline.cc", "DPPIR/protocol/parallel_party/parallel_party_online.cc", "DPPIR/protocol/parallel_party/parallel_party_shuffle.cc", "DPPIR/protocol/parallel_party/parallel_party_initialization.cc", "DPPIR/sockets/parallel_socket.cc", "DPPIR/protocol/backend/backend_offline.cc"]}
{"id": "C66", "title": "A deployment started from a generated configuration file runs to its end", "statement": "Give every process the same configuration file, the same stage and its own role, party and server number on the command line. If the configuration is usable (at least two parties, a database that splits among the servers, matching key pairs, privacy parameters with bounded noise) then every process starts, and what the processes then run finishes under every schedule with every client holding the rows it drew at random. If no two addresses in the configuration coincide, a process connects to another exactly when that one is its counterpart in the next party or a later sibling in its own party, each on the right port. The configuration generator writes such files: they read back as generated, and for at most 1000 servers no two addresses coincide, even on one machine.", "quantifier": "every file that parses to a usable configuration, every number of parties and servers, stage, number of queries, randomness, noise (with several servers and an offline stage: the constant noise of the default build and equally many queries per client), schedule", "why_tests_cant": "start-up is spread over main, four constructors and the configuration code on machines that never see each other's memory; a wrong index shows only for particular shapes", "anchors": ["DPPIR/main.cc: main", "DPPIR/protocol/client/client_initialization.cc", "DPPIR/protocol/party/party_initialization.cc", "DPPIR/protocol/parallel_party/parallel_party_initialization.cc", "DPPIR/protocol/backend/backend_initialization.cc", "DPPIR/sockets/parallel_socket.cc: Initialize", "DPPIR/config/config.cc", "DPPIR/config/gen_config.cc: FromArgs", "DPPIR/types/database.cc: RandomRow"]}
{"id": "C67", "title": "Whoever has the configuration file reads off who asked for what from the backend's lookups", "statement": "All shuffles are drawn from seeds in the configuration file that every process reads. So whoever has that file and sees the keys that the backend (all its servers) looks up in a run can tell what each client asked for, in the order in which it asked: there is a function of the configuration, the numbers of queries and the looked-up keys that returns the query lists of all clients. The parties' shuffling and fake queries hide nothing from such an observer.", "quantifier": "every usable configuration, every number of parties and servers, query lists, randomness of the clients and parties, schedule; the offline stage run or simulated", "why_tests_cant": "that one function inverts the shuffling for all queries, all noise and all random choices of the processes at once cannot be seen from runs", "anchors": ["DPPIR/config/config.cc", "DPPIR/protocol/party/party_initialization.cc", "DPPIR/protocol/parallel_party/parallel_party_initialization.cc", "DPPIR/shuffle/local_shuffle.cc: Initialize", "DPPIR/shuffle/parallel_shuffle.cc: Initialize", "DPPIR/protocol/backend/backend_online.cc"]}
{"id": "C68", "title": "The fake queries are the same in every run", "statement": "In the sampling build too, the numbers of fake queries come from rand() before anything seeds it, so they are the same in every run with the same configuration (and the same in every process). Whoever has the configuration and sees how often the backend looks up each row knows exactly how often the clients asked for it: the noise does not hide the histogram.", "quantifier": "every usable configuration, every number of parties and servers, query lists, randomness, schedule; with and without DPPIR_SAMPLE; the offline stage run or simulated (with several servers and a real offline stage: the constant noise of the default build)", "why_tests_cant": "a single run looks randomly noisy; that no choice of any process enters the noise is a statement about all runs", "anchors": ["DPPIR/noise/noise.cc: RandUniform, Sample", "DPPIR/protocol/party/party_initialization.cc: InitializeNoiseSamples", "DPPIR/protocol/parallel_party/parallel_party_initialization.cc: InitializeNoiseSamples", "DPPIR/shuffle/local_shuffle.cc: Initialize", "DPPIR/shuffle/parallel_shuffle.cc: Initialize"]}
{"id": "C69", "title": "Compiled without assertions, the online stage gives the same answers once connected, but connects to uninitialised addresses", "statement": "Compile the programs without assertions (NDEBUG) and run the online stage with the offline stage simulated. Provided the connections are made as configured, every schedule ends with every client holding its rows, as with assertions, and nobody gets a wrong result when processes are killed: the assertions on this path are only checks. But the address that a process connects to is written by a call inside an assertion, so without assertions every process starts and connects to whatever its stack holds, in every stage and for every configuration.", "quantifier": "every configuration, number of parties and servers, schedule, query list, randomness and contents of the uninitialised memory; every crash point for one server per party", "why_tests_cant": "tests are compiled one way, and what uninitialised memory holds in a test says nothing about other runs", "anchors": ["DPPIR/sockets/common.cc: ConnectTo", "DPPIR/protocol/client/client_online.cc", "DPPIR/protocol/party/party_online.cc", "DPPIR/protocol/backend/backend_online.cc", "DPPIR/protocol/parallel_party/parallel_party_online.cc", "DPPIR/main.cc: main"]}
{"id": "C70", "title": "A server is reached exactly under its dotted decimal address; anything else in the configuration is not refused", "statement": "With assertions, if the address of a server in the configuration is four decimal numbers from 0 to 255 without leading zeros, separated by dots, then that is the address connected to, and every address has exactly one such text. A configuration with any other text (a host name, an IPv6 address, a leading zero) is accepted: all processes start and connect to whatever their stack holds.", "quantifier": "every text in the configuration, every configuration, role and process", "why_tests_cant": "texts are unbounded, and the contents of uninitialised memory are not under the control of a test", "anchors": ["DPPIR/sockets/common.cc: ConnectTo", "DPPIR/config/config.cc", "DPPIR/config/gen_config.cc: FromArgs"]}
{"id": "C71", "title": "All parties before an honest entity together learn nothing about the queried keys", "statement": "Let one entity (a party or the backend) keep its secrets to itself and let all parties before it pool everything they see in a run: how many messages cross each link, the sizes of the ciphers, the secrets inside the ciphers they open, the queries they receive and send, the responses they receive and send. For any other list of equally many valid keys there is exactly one choice of the random share and mask the client gave to the honest entity (all other random choices unchanged) under which a run with these keys looks exactly the same to them. So, those choices being uniform, what they see says nothing about the keys. With several servers per entity the same holds of all servers of those parties and of the queries of all clients together; a client that keeps its queries keeps its choices, so it may side with those parties.", "quantifier": "every deployment with one or several servers per party, every honest party or the backend, all query lists, randomness, shuffles, noise, databases and schedules of the exchange between sibling servers", "why_tests_cant": "secrecy is a statement about all pairs of executions and a bijection between random choices", "anchors": ["DPPIR/protocol/client/client_offline.cc", "DPPIR/protocol/client/client_online.cc", "DPPIR/protocol/party/party_offline.cc", "DPPIR/protocol/party/party_online.cc", "DPPIR/sharing/incremental.cc", "DPPIR/sharing/additive.cc"]}
{"id": "C72", "title": "Tags identify the clients' queries on every link and at the backend", "statement": "After a real offline stage the backend alone, without any configuration file, can tell what each client asked for, in order: the tags of the queries are counters that no party changes, so the key looked up for tag i is that of the i-th query. With several servers the backend's servers together can tell it for all clients. On every link the client's queries are exactly those with a tag below the number of client queries, all others are fake. The shuffling and the noise hide nothing from whoever sees the tags.", "quantifier": "every deployment, with one or several servers per party, query lists, randomness, shuffles, noise, and schedules of the exchange between sibling servers", "why_tests_cant": "tests check the answers; that one function recovers all queries in all runs, whatever was drawn, is a statement about all executions", "anchors": ["DPPIR/protocol/client/client_handlers.cc", "DPPIR/protocol/client/client_offline.cc", "DPPIR/protocol/party/party_offline.cc", "DPPIR/protocol/backend/backend_online.cc", "DPPIR/protocol/parallel_party/parallel_party_offline.cc"]}
{"id": "C73", "title": "With several servers per party a crash never leads to a wrong answer, and any client's return means that the servers behind are done", "statement": "Kill any servers and clients of a deployment with several servers per party at any moments; bytes they sent may be lost. Every client that returns has the rows it asked for, every server of the backend that returns looked up what it would have looked up without kills, and nobody aborts or misbehaves: a survivor finishes, waits, or reads in vain for ever. The latter happens only if somebody was killed. If every client asks for something, then once any client has returned, the server of the first party that it talks to and all servers of all parties behind and of the backend have returned. So if one of those is killed before, no client ever returns.", "quantifier": "every deployment with any number of parties and servers, every schedule, division into system calls, capacity of the connections, set of victims, crash points and lost bytes; offline stage run, simulated or run alone", "why_tests_cant": "the crash points of all processes, the schedules and what is lost multiply", "anchors": ["DPPIR/sockets/common.cc: Read, ReadSome, Send, Poll", "DPPIR/sockets/parallel_socket.cc", "DPPIR/protocol/parallel_party/parallel_party_online.cc", "DPPIR/protocol/parallel_party/parallel_party_offline.cc", "DPPIR/protocol/parallel_party/parallel_party_util.inc"]}
{"id": "C74", "title": "Changed responses change answers exactly at their places; only the client's own copy of the database detects it", "statement": "Let somebody replace the responses that come back on one link by others of the right size and number. There is a place on that link for each of the client's queries, no two the same and fixed before any response is sent. A client that does not compare the answers with its own database accepts every replacement, and each of its rows differs from the right one by exactly (XOR) what was changed at its place; what is put at the other places makes no difference. A client that does compare has the right rows if nothing was changed at those places and aborts otherwise. The same holds for every client of a deployment with several servers per party: its places are then pairs of a server and a position, no two of any clients the same, and what is changed at the places of other clients makes no difference to it. More generally, with assertions compiled in, a client that returns has the rows it asked for, whatever programs it talks to and whatever fails.", "quantifier": "every deployment, with one or several servers per party, link, replacement of the responses, query list, randomness, noise and order of arrival; for the client's check also all other processes, connection contents, schedules, kills and losses", "why_tests_cant": "the responses an adversary may send, and the programs a client may talk to, cannot be enumerated", "anchors": ["DPPIR/protocol/client/client_online.cc: StartOnline", "DPPIR/protocol/client/client_handlers.cc: ReconstructResponse", "DPPIR/protocol/party/party_online.cc", "DPPIR/protocol/party/party_handlers.cc: HandleResponse", "DPPIR/sharing/additive.cc", "DPPIR/types/types.cc"]}
{"id": "C75", "title": "A client among arbitrary peers says fixed bytes, never has undefined behaviour and is never deceived", "statement": "Whatever is at the other end of a client's connection - a faulty or malicious first party, any program, any bytes in any pieces, an end of stream at any point - the bytes the client sends are always a beginning of one string that depends on the client's own inputs and randomness only: it connects, announces the number of its queries, sends its ciphers and then its queries; nothing that it receives can make it send anything else, repeat, skip or reorder. Its behaviour is never undefined (no memory is accessed out of bounds): it returns, waits, or aborts. If it returns, it has sent all of the string and has one response per query, which with assertions enabled are the rows asked for.", "quantifier": "all clients (queries, randomness, keys, numbers of parties, buffer contents), with a real or simulated offline stage, all results of all system calls, all networks of arbitrary processes and all their executions with crashes, single- or multi-server", "why_tests_cant": "tests run the client against the project's own honest servers only; the claim is about every byte stream a peer could send", "anchors": ["DPPIR/protocol/client/client_online.cc: StartOnline", "DPPIR/protocol/client/client_offline.cc: StartOffline, SimulateOffline", "DPPIR/protocol/client/client_handlers.cc", "DPPIR/sockets/client_socket.cc", "DPPIR/sockets/common.h: Read", "DPPIR/sockets/common.cc", "DPPIR/types/containers.h"]}
{"id": "C76", "title": "The amount of traffic tells nothing but the numbers of queries and fake queries", "statement": "In every execution of a deployment the bytes that have been put on a connection so far are the beginning of one fixed string, and all of it when the deployment has finished, whatever the schedule, the sizes of the pieces and the capacities of the connections. If processes are killed at any moments, what is put on every connection is still the beginning of the same string: a crash makes nobody say anything else. The length of that string for every connection is a formula in the number of client queries, the numbers of fake queries of the parties and the position of the link: 4 bytes of count, 124 bytes per query and layer in the offline stage, 12 bytes per query; back 52 bytes per response and one byte per barrier. With several servers per party the same holds for every connection between parties and between servers of the same party; there the formula has in addition the number of queries of each client and what the seeded shuffle, which sees only numbers, moves between servers. So somebody who sees only the amounts of traffic on all connections cannot tell two deployments apart that have different queries, databases, keys and randomness but equally many queries and fake queries (and, with several servers, the same shuffle seeds).", "quantifier": "all deployments with one or several servers per party (databases, queries, parties, keys, randomness, noise), real and simulated offline stage, all schedules, splits and capacities, all sets of killed processes and moments of their deaths", "why_tests_cant": "a test measures one run; the claim compares all runs of all deployments with equal counts and holds at every moment of every schedule", "anchors": ["DPPIR/protocol/client", "DPPIR/protocol/party", "DPPIR/protocol/backend", "DPPIR/sockets/client_socket.cc", "DPPIR/sockets/server_socket.cc", "DPPIR/onion/onion.cc", "DPPIR/types/types.h"]}
{"id": "C77", "title": "The numbers of lookups in a whole deployment are differentially private if one party's noise is drawn as intended", "statement": "Let one party draw its numbers of fake queries independently with the law of the sampler and let the other parties add any numbers of fake queries, fixed and known. Run the deployment with two lists of client queries that differ in t places; client and parties may use any other randomness, and the schedules may differ. Then the probability of any event (and the mean of any randomised test) on the numbers of lookups of all rows at the backend, in whatever executions it returns, is for the one list at most e^(t epsilon) times that for the other plus (1 + e^epsilon + ... + e^((t-1) epsilon)) (e^(epsilon/2) + e^epsilon) delta. With several servers per party and the offline stage simulated the same holds for all servers of the backend together.", "quantifier": "all deployments with one or (offline stage simulated) several servers per party, query lists, distances t, fake queries of the other parties, randomness, tests, and for every outcome of the draws every schedule, division into system calls and capacity of the connections", "why_tests_cant": "a statement about probabilities over the draws that compares all runs of two deployments; no number of runs settles it", "anchors": ["DPPIR/noise/noise.cc: SampleReal, NoiseDistribution", "DPPIR/protocol/party/party_offline.cc", "DPPIR/protocol/party/party_online.cc", "DPPIR/protocol/backend/backend_online.cc", "DPPIR/protocol/parallel_party/parallel_party_online.cc"]}
{"id": "C78", "title": "The orchestrator gives every worker the role, and every experiment the configuration, that fit together", "statement": "Workers register with the orchestrator of experiments and ask it for jobs, in any order and number, while the operator creates, kills and clears experiments. Of a DP-PIR experiment the i-th server asked becomes machine i mod s of party i / s (s servers per party) and the i-th client becomes client i; never more are taken than the experiment is for, so no role is given twice. Jobs go to registered workers of the right kind with the experiment's parameters, and a checklist client is sent to the addresses of the two workers that got the server jobs. Jobs are given out first come first served: always of the oldest listed experiment that still wants workers of that kind. A configuration is handed out only when all servers are known, it is then always the same bytes, the binaries can read it, and at the place (p, m) it has the address of the worker that was told to be machine m of party p.", "quantifier": "all histories of requests (registrations, pings, configuration requests, kill polls, reports, new, kill, clear), with any interleaving of the workers, lost and repeated requests included, all addresses, keys and parameters", "why_tests_cant": "the order in which workers arrive and the requests of the operator are unbounded; a wrong role or address appears only under particular interleavings", "anchors": ["experiments/orchestrator/orchestrator.js", "experiments/orchestrator/experiment.js", "experiments/orchestrator/worker.js", "experiments/orchestrator/main.js", "experiments/orchestrator/cmd.js: newDPPIR", "DPPIR/config/gen_config.cc"]}
{"id": "C79", "title": "An experiment is shown as done exactly when every role has reported, with one result per role", "statement": "At every time every job given out is reported, dropped or being done. An experiment has the status done if and only if as many clients and as many servers have reported as it is for. Then there is exactly one stored result for every client and every machine of every party, under the experiment's name, with the text that the worker reported which had that role. A worker that vanishes with a job, or asks for another one before it has reported, leaves its experiment unfinished for ever, whatever happens afterwards. A report without a job is refused and changes nothing.", "quantifier": "all histories of requests as for C78", "why_tests_cant": "lost and repeated requests at every point of every interleaving", "anchors": ["experiments/orchestrator/orchestrator.js: assignExperiment, finished", "experiments/orchestrator/experiment.js: finished, storeResults", "experiments/orchestrator/worker.js", "experiments/orchestrator/main.js: /done"]}
{"id": "C80", "title": "With the daemons running on the workers every listed experiment is eventually done, with the results its processes wrote", "statement": "Let the daemons run on any machines, with the orchestrator, and let no request or reply be lost and the list not be cleared. If every machine goes on taking steps and the processes that are bound to end do end (DP-PIR processes once all roles of their experiment are started, clients of checklist, SealPIR; the servers of checklist only end when the orchestrator tells them), then every listed experiment for which, and for the ones before it, there are enough machines is done at some time and stays done - whatever new machines, new experiments and kills come in between. As long as nothing is lost, also with kills and clears, every daemon and the orchestrator agree about the daemon's job, no job is dropped, each machine starts exactly one process for each job it is given, in order, a DP-PIR process only with the configuration that was sent for its job, and every stored result is what the process of that job had written when it ended (and a note if it was killed).", "quantifier": "all numbers of machines and experiments, all interleavings of daemons, operator and process ends, all contents of logs; all fair infinite executions", "why_tests_cant": "a liveness claim about all infinite executions; a starving schedule or a lost wake-up shows up in no finite run", "anchors": ["experiments/daemon_server.sh", "experiments/daemon_client.sh", "experiments/orchestrator/main.js", "experiments/orchestrator/orchestrator.js", "experiments/orchestrator/experiment.js"]}
{"id": "C81", "title": "What the commands kill and clear, and lost replies, do to running experiments", "statement": "A daemon that asks whether to kill its process is told so exactly if since its job was given it was meant by a kill or by the report of the checklist client it serves. The command kill e is meant for exactly those workers that have a job and have ever been given one of e: never for a worker that had no job of e, but possibly for one that by now runs a process of another experiment (there is such a history). After clear an experiment that has not all its workers never gets them: it is never shown as done, and workers that ask for its configuration are told to wait for ever if servers are missing. One lost reply to a daemon can make an experiment be shown as done, with the log 'Invalid type', although none of its processes ever ran.", "quantifier": "all histories of requests; all continuations after a clear", "why_tests_cant": "the moment of the command in the history, and the history before and after it, are unbounded", "anchors": ["experiments/orchestrator/cmd.js", "experiments/orchestrator/orchestrator.js: kill, clear", "experiments/orchestrator/experiment.js: kill", "experiments/orchestrator/main.js: /shouldkill, /config", "experiments/daemon_server.sh", "experiments/daemon_client.sh"]}
{"id": "C82", "title": "An experiment of the orchestrator is the deployment that the operator asked for, and its processes answer the queries", "statement": "Let daemons and orchestrator run without losses, in any interleaving. Every process that a daemon starts for a DP-PIR experiment has the documented command line of its role: client i with the experiment's queries, or server m of party p, in the experiment's stage. When all of them have been started there is exactly one process for every role; all were given the same configuration file; it can be read and has the experiment's numbers of parties, servers and rows and its privacy parameters, and for each role the address of the machine that runs it. If this configuration is usable the processes so started finish in every execution of the network, and in the online stages every client has the right answer to each of its queries.", "quantifier": "all interleavings of machines and operator, numbers of parties and servers, queries, modes, addresses and keys; then all schedules of the network and divisions into system calls", "why_tests_cant": "it joins two unbounded executions, of the scripts and of the protocol; tests run one deployment by hand", "anchors": ["experiments/daemon_server.sh", "experiments/daemon_client.sh", "experiments/orchestrator/experiment.js: serialize", "experiments/orchestrator/main.js", "DPPIR/main.cc", "DPPIR/config/gen_config.cc"]}
{"id": "C83", "title": "The processes of a deployment may be started in any order and get connected to the right peers", "statement": "All processes read the same configuration, whose addresses are different, and are started with the documented command lines, in any order. Whatever the interleaving of their listen, accept, connect and introduction calls, nobody is refused or stopped by an assertion; as long as someone is not done, someone can go on; and if nobody is forgotten for ever, everyone is done at some time. Then server i of every party has exactly one connection at its port, from server i of the party before (client i for the first party), and at its other port exactly one from every lower server of its own party, which has introduced itself with its own number. At no time do more connections arrive at a port than its listen call was told to expect.", "quantifier": "all configurations (any number of parties and servers up to 255), all interleavings of the socket calls of all processes; liveness over all fair infinite schedules", "why_tests_cant": "waiting cycles and wrong pairings depend on the interleaving of many processes; a test starts them in one order on one machine", "anchors": ["DPPIR/sockets/common.cc: ListenOn, ConnectTo", "DPPIR/sockets/parallel_socket.cc: Initialize", "DPPIR/sockets/server_socket.cc", "DPPIR/sockets/client_socket.cc", "DPPIR/protocol/client/client_initialization.cc", "DPPIR/protocol/party/party_initialization.cc", "DPPIR/protocol/parallel_party/parallel_party_initialization.cc", "DPPIR/protocol/backend/backend_initialization.cc"]}
{"id": "C84", "title": "A party or backend among arbitrary peers sends only what the protocol says, byte by byte", "statement": "With assertions compiled in, let a party be connected to arbitrary programs that may send any bytes, in pieces of any sizes, stop reading or hang up at any point. At every moment, what it has sent is a beginning of what the protocol sends for the bytes it has received: the count plus its noise; a ready byte only after the count and the ready byte of the next peer; ciphers only after all announced ciphers have arrived, all of them open under its key and their tags differ, and then exactly its own, which are fixed before anything is received, and what was inside the others, shuffled; queries likewise; responses only after all have arrived, each unmasked for the right query. How many bytes it sends depends on the announced count only. Its behaviour is undefined only after a query under a tag for which no cipher was sent. When it returns it has read and sent exactly the whole exchange. The same holds for the backend, whose behaviour is undefined only after such a query or one for a row that does not exist, and whose responses are the rows asked for, masked. With the offline stage simulated no peer can make a party's behaviour undefined, and the backend's only by asking for a row that does not exist; tallies are passed on reduced and rows unmasked.", "quantifier": "all announced counts, bytes received, divisions into system calls, moments at which a peer stops or hangs up; all parties of all deployments, keys, noise and randomness", "why_tests_cant": "the peers are arbitrary programs: the space of byte sequences and of interruptions is unbounded; tests only use the project's own peers", "anchors": ["DPPIR/protocol/party", "DPPIR/protocol/backend", "DPPIR/sockets/client_socket.cc", "DPPIR/sockets/server_socket.cc", "DPPIR/sockets/common.cc", "DPPIR/onion/onion.cc"]}
{"id": "C85", "title": "Lists of experiments that are stored can be loaded again, and broken files do no harm", "statement": "What JSON.parse accepts is exactly the grammar of JSON, and what JSON.stringify writes for a value is a text for that value which UTF-8 can carry. The command store f writes the experiments in the list. Whatever happens afterwards (requests, other commands, restarts), as long as nothing else is stored under f, the command load f enters these experiments again, in the same order, with the same names, numbers and parameters, after all that are in the list, waiting for workers; it changes no worker, no other experiment and no file. Stored again by an orchestrator that has loaded nothing else they give the same text. A file that was written by hand is loaded whatever its blanks, escapes, order of members and other members; load * loads all files. A file that is no JSON text changes nothing; of an array, the experiments before the first element of no known type or without a name are loaded and no others. loadi leaves out exactly those for which the answer is n or no, in small or capital letters.", "quantifier": "all lists of experiments (names of any characters, all numbers that JavaScript represents exactly), all histories before and after, all texts and contents of the directory, all answers", "why_tests_cant": "the histories, names and texts are unbounded; there are no tests of the orchestrator", "anchors": ["experiments/orchestrator/cmd.js: store, load, loadi", "experiments/orchestrator/experiment.js: toJSON, fromJSON", "experiments/orchestrator/orchestrator.js: experimentsToJSON, addExperiment", "experiments/orchestrator/stored"]}
{"id": "C86", "title": "Without an offline stage nothing is hidden", "statement": "When the entities run only the online stage, the link from a client to the first party carries the client's keys as they are, in the order in which it asked. Every later link carries the same keys together with those of the fake queries added so far, and the rows come back unmasked on every link. All tags are zero. All this holds of the bytes on the connections in every execution. So whoever sees any single link reads which rows were asked for and answered.", "quantifier": "every deployment, with one or several servers per party, query lists, noise, seeds, and schedules of the exchange between sibling servers", "why_tests_cant": "all deployments, keys and schedules", "anchors": ["DPPIR/types/state.cc: ClientState::Initialize, PartyState::Initialize, BackendState::Initialize", "DPPIR/protocol/client/client_offline.cc: SimulateOffline", "DPPIR/sharing/incremental.cc: GenerateIncrementalTally, IncrementalReconstruct"]}
{"id": "C87", "title": "The stages of a run do not overlap on the connections", "statement": "At every moment of every execution, look at how many bytes have been sent on each connection. The client sends no offline cipher before every entity has received its count and confirmed it, and no online query before all ciphers have been sent on all links and every entity has confirmed the end of the offline stage. A party sends no cipher before all ciphers of the link before it have been sent, and no query before all queries of the link before it have been sent. No response is sent before all queries have been sent on all links from there on and all responses on all later links. With several servers per party no server of a party sends a cipher, a query or a response before the same holds of all servers of the party; a server of the backend waits for its own queries before it answers. This holds with a real and with a simulated offline stage, and also when processes are killed at any moments.", "quantifier": "all deployments with any number of parties and of servers per party, keys, randomness, schedules, divisions into system calls, buffer sizes, and moments at which processes are killed", "why_tests_cant": "the order of sends on different connections depends on the schedule; tests see one", "anchors": ["DPPIR/protocol/client", "DPPIR/protocol/party", "DPPIR/protocol/backend", "DPPIR/sockets/client_socket.cc", "DPPIR/sockets/server_socket.cc", "DPPIR/sockets/common.cc"]}
