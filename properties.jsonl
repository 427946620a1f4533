{"id": "C01", "title": "Request header codec is exact", "statement": "The first octet of every request carries the protocol version in its high nibble and the action in its low nibble: parsing any octet and re-encoding gives the octet back, and encoding any 4-bit version and action and parsing gives them back, leaving all following bytes unread.", "quantifier": "all octets, all 4-bit version/action pairs, all following byte streams", "why_tests_cant": "the stream that follows is unbounded; tests sample a handful of headers", "anchors": ["protocol/request.go:ParseRequestCommon", "protocol/request.go:RequestCommon.Bytes"]}
{"id": "C02", "title": "Process request round-trip", "statement": "Parsing the bytes of any Process request yields the same reply flag, id, counter and ciphertext, and consumes exactly those bytes whatever follows them on the stream.", "quantifier": "all ids, 64-bit counters, messages up to MaxMessageSize, flags, trailing streams", "why_tests_cant": "unbounded message and trailing-stream space", "anchors": ["protocol/action_003_process.go:ProcessRequest.Bytes", "protocol/action_003_process.go:ParseProcessRequest"]}
{"id": "C03", "title": "Process response round-trip", "statement": "Parsing the bytes of any Process response yields the same counter and ciphertext and consumes exactly those bytes.", "quantifier": "all counters, messages up to MaxMessageSize, trailing streams", "why_tests_cant": "unbounded space", "anchors": ["protocol/action_003_process.go:ProcessResponse.Bytes", "protocol/action_003_process.go:ParseProcessResponse"]}
{"id": "C04", "title": "Setup request round-trip", "statement": "Parsing the bytes of any Setup request yields the same id and the same ECDH public key and consumes exactly those bytes.", "quantifier": "all ids, all X25519 public keys, all trailing streams", "why_tests_cant": "unbounded space", "anchors": ["protocol/action_002_setup.go:SetupRequest.Bytes", "protocol/action_002_setup.go:ParseSetupRequest"]}
{"id": "C05", "title": "Setup response round-trip", "statement": "Parsing the bytes of any signed Setup response yields the same public key, hash type and signature and consumes exactly those bytes.", "quantifier": "all public keys, hash types, signatures up to MaxSignatureSize (including the empty one), trailing streams", "why_tests_cant": "unbounded space; the empty-signature corner is never produced by the unit tests", "anchors": ["protocol/action_002_setup.go:SetupResponse.Bytes", "protocol/action_002_setup.go:ParseSetupResponse"]}
{"id": "C06", "title": "Fetch-key response round-trip", "statement": "Parsing the bytes of any Fetch-key response yields the same algorithm and key bytes and consumes exactly those bytes.", "quantifier": "all algorithm octets, keys up to MaxKeySize, trailing streams", "why_tests_cant": "unbounded space", "anchors": ["protocol/action_004_fetch_key.go:FetchKeyResponse.Bytes", "protocol/action_004_fetch_key.go:ParseFetchKeyResponse"]}
{"id": "C07", "title": "Error response round-trip", "statement": "Parsing the bytes of any error response yields the same code and message and consumes exactly those bytes.", "quantifier": "all 32-bit codes, messages shorter than 2^63 bytes, trailing streams", "why_tests_cant": "unbounded space", "anchors": ["protocol/error.go:ErrorResponse.Bytes", "protocol/error.go:ParseErrorResponse"]}
{"id": "C08", "title": "Truncated messages are never accepted", "statement": "If a parser accepts a message at the front of a stream, it accepts no proper prefix of the bytes it consumed: a connection cut anywhere inside a message yields an error, never a shorter message.", "quantifier": "all parsers, all byte streams, all cut points", "why_tests_cant": "every cut point of every message", "anchors": ["protocol/request.go", "protocol/response.go", "protocol/action_002_setup.go", "protocol/action_003_process.go", "protocol/action_004_fetch_key.go", "protocol/error.go"]}
{"id": "C09", "title": "Size limits bound what a request or successful response can make a peer allocate", "statement": "Whatever bytes arrive, the buffers a Setup, Process or Fetch-key parser creates from a peer-announced size never exceed 64 KiB for keys and signatures and 1 GiB for messages, and a message announcing more is rejected.", "quantifier": "all byte streams", "why_tests_cant": "adversarial sizes over the whole 32/64-bit range", "anchors": ["protocol/limits.go", "protocol/action_002_setup.go", "protocol/action_003_process.go", "protocol/action_004_fetch_key.go"]}
{"id": "C10", "title": "Error responses are bounded too", "statement": "A client rejects an error response whose announced message size exceeds its limits instead of buffering it (protocol specification, Error Response section).", "quantifier": "all announced sizes", "why_tests_cant": "needs every size; no test sends a large error message", "anchors": ["protocol/error.go:ParseErrorResponse", "docs/draft-justo-goe2ee-latest.md"]}
{"id": "C11", "title": "Segmentation independence", "statement": "How TCP splits a byte stream into reads never changes what a parser returns or how many bytes it consumes.", "quantifier": "all parsers, all byte streams, all segmentations", "why_tests_cant": "exponentially many segmentations", "anchors": ["protocol/*.go (binary.Read, io.Copy over io.LimitReader)"]}
{"id": "C12", "title": "Encodings are unambiguous", "statement": "Two different messages of the same kind never encode to byte strings one of which is a prefix of the other, so a sequence of messages on a stream has a single reading.", "quantifier": "all pairs of messages of each kind, all sequences", "why_tests_cant": "pairs of unbounded messages", "anchors": ["protocol/*.go:Bytes"]}
{"id": "C13", "title": "Published layout", "statement": "The octets of each message sit at the offsets and widths the protocol README publishes (request header, flags, 16-byte id, 8-byte counter, 8-byte size, sizes of keys and signatures).", "quantifier": "all messages of each kind", "why_tests_cant": "all field values at once", "anchors": ["protocol/README.md", "protocol/*.go:Bytes"]}
{"id": "C14", "title": "Nonce is injective", "statement": "The AEAD nonce has the requested size, starts with the direction octet, ends with the big-endian counter and is zero in between; different (direction, counter) pairs give different nonces for every size of at least 9.", "quantifier": "all directions, 64-bit counters, sizes >= 9", "why_tests_cant": "2^73 inputs per size", "anchors": ["protocol/nonce.go:Nonce"]}
{"id": "C15", "title": "A shared secret is never used twice with the same nonce by clients", "statement": "Whatever number of connections share a session and however their writes interleave, no two messages they send are encrypted with the same nonce, until the session's 64-bit counter is exhausted (what happens then is C16).", "quantifier": "all schedules of writers, all numbers of connections, all message sequences", "why_tests_cant": "all interleavings; the race detector samples a few", "anchors": ["client.go:Client.Write", "client_pool.go:ClientPool.Get", "protocol/nonce.go:Nonce"]}
{"id": "C16", "title": "Counter exhaustion stops the session", "statement": "Once the 64-bit counter of a session is exhausted, writes fail for good: the secret is never used again with an old nonce.", "quantifier": "all write histories, in particular longer than 2^64", "why_tests_cant": "2^64 writes cannot be run", "anchors": ["client.go:Client.Write"]}
{"id": "C17", "title": "The server never reuses a reply nonce", "statement": "Whatever requests arrive, replayed or forged, on any number of connections in any interleaving, the server never encrypts two replies under one session with the same nonce, and never uses a nonce of the client's direction.", "quantifier": "all schedules, all adversarial request streams", "why_tests_cant": "all interleavings and adversarial inputs", "anchors": ["internal/server/action_process.go", "protocol/nonce.go", "secret/secret.go"]}
{"id": "C18", "title": "Replay window is exactly the documented filter", "statement": "A counter is accepted iff it is not zero, was not accepted before and is less than 64 below the highest accepted one; otherwise nothing changes.", "quantifier": "all histories of counters, the whole uint64 range", "why_tests_cant": "unbounded histories over 2^64 values", "anchors": ["secret/secret.go:ReplayWindow.CheckAndUpdate"]}
{"id": "C19", "title": "No counter is accepted twice", "statement": "In any history of calls a counter value is accepted at most once.", "quantifier": "all histories", "why_tests_cant": "unbounded histories", "anchors": ["secret/secret.go:ReplayWindow.CheckAndUpdate"]}
{"id": "C20", "title": "Fresh in-window counters are never rejected", "statement": "If counters arrive in any order such that none lags 64 or more behind the highest already delivered, each is accepted exactly once; in particular strictly increasing counters are always accepted.", "quantifier": "all reorderings within the window", "why_tests_cant": "all permutations", "anchors": ["secret/secret.go:ReplayWindow.CheckAndUpdate"]}
{"id": "C21", "title": "The window tracks 64 counters behind the highest", "statement": "The filter tracks the 64 counter values immediately below the highest one seen (comment on replayWindowSize and specification section Replay Protection).", "quantifier": "all reachable windows", "why_tests_cant": "boundary value at every reachable state", "anchors": ["secret/secret.go:replayWindowSize", "docs/draft-justo-goe2ee-latest.md"]}
{"id": "C22", "title": "Concurrent callers are serialised", "statement": "When several goroutines present counters at the same time, the outcome is that of some sequential order, so exactly one of several callers presenting the same counter wins.", "quantifier": "all interleavings of the individual memory accesses of CheckAndUpdate", "why_tests_cant": "all interleavings", "anchors": ["secret/secret.go:ReplayWindow.CheckAndUpdate"]}
{"id": "C23", "title": "In-memory manager is a map", "statement": "Load returns the session most recently stored under that id (same pointer, hence same replay state) unless the garbage collector removed it; other ids are never affected.", "quantifier": "all histories of Store, Load and GC", "why_tests_cant": "unbounded histories", "anchors": ["secret/secret.go:InMemoryManager"]}
{"id": "C24", "title": "Idle expiry", "statement": "A session that has been stored or loaded within the TTL is never collected, a session idle for longer than the TTL is gone after the next collection, and with a non-positive TTL nothing is ever collected.", "quantifier": "all histories with arbitrary time stamps", "why_tests_cant": "all timings", "anchors": ["secret/secret.go:NewInMemoryManager"]}
{"id": "C25", "title": "A session just used survives a concurrent collection", "statement": "A Load that overlaps a garbage collection refreshes the session: it is not removed less than a TTL after a successful Load.", "quantifier": "all interleavings of Load with the collector", "why_tests_cant": "needs a precise interleaving", "anchors": ["secret/secret.go:NewInMemoryManager", "secret/secret.go:InMemoryManager.Load"]}
{"id": "C26", "title": "A stored session is not lost to a concurrent Load", "statement": "After Store of a new session for an id returns, later Loads see it even if another Load of the same id was running.", "quantifier": "all interleavings of Load and Store", "why_tests_cant": "needs a precise interleaving", "anchors": ["secret/secret.go:InMemoryManager.Load", "secret/secret.go:InMemoryManager.Store"]}
{"id": "C27", "title": "Sessions are isolated by host and id", "statement": "A request can only ever use the session set up from the same remote host with the same id, unless two different host/id strings collide under SHA-256.", "quantifier": "all histories of requests from all hosts and ids", "why_tests_cant": "unbounded histories", "anchors": ["internal/server/action_setup.go", "internal/server/action_process.go"]}
{"id": "C28", "title": "Unknown session", "statement": "A Process request for an unknown session is answered with error 0x03, the handler is not called and no session changes.", "quantifier": "all server states and requests", "why_tests_cant": "all states", "anchors": ["internal/server/action_process.go"]}
{"id": "C29", "title": "Handler only sees authentic plaintext", "statement": "The application handler is only ever called with a plaintext that decrypts under the session key and the client-to-server nonce of the request's counter; hence with a message a holder of the secret wrote for that counter, or a forgery of the AEAD occurred.", "quantifier": "all schedules, adversarial networks", "why_tests_cant": "all interleavings and adversaries", "anchors": ["internal/server/action_process.go"]}
{"id": "C30", "title": "At-most-once delivery", "statement": "Under any schedule and any adversarial replay, the handler is called at most once for each session and counter.", "quantifier": "all schedules, adversarial networks", "why_tests_cant": "all interleavings", "anchors": ["internal/server/action_process.go", "secret/secret.go"]}
{"id": "C31", "title": "Replays are refused with 0x05", "statement": "A Process request whose counter was already accepted or is too old is answered with error 0x05, the handler is not called and nothing changes.", "quantifier": "all server states and requests", "why_tests_cant": "all states", "anchors": ["internal/server/action_process.go"]}
{"id": "C32", "title": "An unauthentic request has no effect", "statement": "A request that does not decrypt does not influence whether later authentic requests are accepted.", "quantifier": "all forged requests, all later requests", "why_tests_cant": "adversarial inputs in all states", "anchors": ["internal/server/action_process.go"]}
{"id": "C33", "title": "Reply discipline", "statement": "A Process request that asks for a reply gets exactly one response; an accepted one that does not ask gets none; the reply carries the request's counter and the handler's output sealed under the session key with the server-to-client nonce.", "quantifier": "all requests and states", "why_tests_cant": "all states and inputs", "anchors": ["internal/server/action_process.go"]}
{"id": "C34", "title": "Setup establishes the session", "statement": "A Setup request answered with success leaves, under the host and id, a session holding the X25519 secret of the two exchanged keys with an empty replay window, and the response is signed over the transcript of both keys and the id with SHA-512.", "quantifier": "all setup requests and states", "why_tests_cant": "all states and inputs", "anchors": ["internal/server/action_setup.go"]}
{"id": "C35", "title": "A refused Setup changes nothing", "statement": "If a Setup request is answered with an error, the sessions known to the server are what they were before.", "quantifier": "all setup requests, all failures of key generation, ECDH, storage and signing", "why_tests_cant": "failure injection at every step in every state", "anchors": ["internal/server/action_setup.go"]}
{"id": "C36", "title": "Response framing survives write failures", "statement": "Whatever short writes and errors the transport reports, the bytes on a connection are whole responses followed by at most one truncated response, after which nothing is written and the connection is closed.", "quantifier": "all sequences of write outcomes and requests", "why_tests_cant": "all failure points", "anchors": ["internal/server/handler.go:writeResponse", "internal/server/handler.go:writeErrorResponse", "server.go:handleConnection"]}
{"id": "C37", "title": "Pipelining", "statement": "Any number of well-formed requests concatenated on one TCP connection are answered in order exactly as if each had been handled alone in sequence.", "quantifier": "all sequences of well-formed requests", "why_tests_cant": "unbounded sequences", "anchors": ["server.go:handleConnection", "internal/server/handler.go:Handle"]}
{"id": "C38", "title": "Unsupported versions and unknown actions have no effect", "statement": "A request with another version closes the connection without a response and without touching any session; an action outside 1..4 is consumed without a response or effect.", "quantifier": "all headers, all states", "why_tests_cant": "all states", "anchors": ["server.go:handleConnection", "internal/server/handler.go:Handle"]}
{"id": "C39", "title": "Unsupported versions are answered with 0x04", "statement": "A server that receives a request with a version it does not support replies with error 0x04 (specification, Request Header and Downgrade sections).", "quantifier": "all versions other than 1", "why_tests_cant": "specification conformance over all headers", "anchors": ["server.go:handleConnection", "docs/draft-justo-goe2ee-latest.md"]}
{"id": "C40", "title": "A rejected message is not reinterpreted", "statement": "Bytes belonging to a message the server rejected as malformed are never executed as further requests.", "quantifier": "all malformed messages", "why_tests_cant": "adversarial payloads", "anchors": ["server.go:handleConnection", "internal/server/action_process.go"]}
{"id": "C41", "title": "A failing or panicking handler is contained", "statement": "A handler error is reported as error 0x02 and a handler panic closes that connection only; in both cases all sessions, and the counter just used, are as after a successful call.", "quantifier": "all handlers, states and requests", "why_tests_cant": "all states", "anchors": ["internal/server/action_process.go", "server.go:handleConnection"]}
{"id": "C42", "title": "Transcript binds both keys and the id", "statement": "Two handshakes have the same signed byte string only if client key, server key and id all agree.", "quantifier": "all pairs of key encodings shorter than 2^32 bytes and ids", "why_tests_cant": "all pairs", "anchors": ["protocol/action_002_setup.go:SetupTranscript"]}
{"id": "C43", "title": "The client only accepts a signed handshake", "statement": "Whatever bytes come back, Dial succeeds only if the signature in the response verifies under the fetched server key over the transcript of the client's own key, the received key and its own id, and the session secret is the ECDH of exactly those keys; so the server signed this very exchange or a signature was forged.", "quantifier": "all response byte streams", "why_tests_cant": "adversarial responses", "anchors": ["client.go:Client.handshake", "key/key.go:PublicKey.VerifySignature"]}
{"id": "C44", "title": "Dial never panics", "statement": "Whatever bytes the server sends, Dial returns an error or a client; it does not panic.", "quantifier": "all response byte streams", "why_tests_cant": "adversarial responses", "anchors": ["client.go:Client.handshake", "protocol/action_002_setup.go:HashType.CryptoHash"]}
{"id": "C45", "title": "Key agreement and end-to-end delivery", "statement": "After a handshake between this client and this server, every message written is handed to the handler unchanged and the reply the handler writes is what Read returns.", "quantifier": "all messages and replies within the size limit, all keys, all prior traffic", "why_tests_cant": "unbounded messages and histories", "anchors": ["client.go", "internal/server/action_setup.go", "internal/server/action_process.go"]}
{"id": "C46", "title": "Read returns the reply in order, in pieces of any size", "statement": "For any sequence of buffer sizes, successive Reads return consecutive pieces of one reply and report io.EOF exactly with the last piece.", "quantifier": "all replies, all buffer-size sequences", "why_tests_cant": "unbounded sequences", "anchors": ["client.go:Client.Read"]}
{"id": "C47", "title": "An empty reply reads as end of file", "statement": "If the handler writes nothing, Read reports a clean io.EOF so that io.ReadAll returns an empty result without error.", "quantifier": "all buffer sizes", "why_tests_cant": "boundary of an unbounded domain no test covers", "anchors": ["client.go:Client.Read"]}
{"id": "C48", "title": "Replies answer the caller's own request", "statement": "Every octet returned by Read belongs to a reply that was accepted while its counter was the one last sent on that client; the reply is the handler's answer to the very message written on that client with that counter, or a forgery of the AEAD occurred.", "quantifier": "all schedules, adversarial networks", "why_tests_cant": "all interleavings and adversaries", "anchors": ["client.go:Client.Read"]}
{"id": "C49", "title": "A reply is delivered at most once", "statement": "A replayed copy of a reply that was already read is rejected.", "quantifier": "all response streams", "why_tests_cant": "adversarial network", "anchors": ["client.go:Client.Read"]}
{"id": "C50", "title": "Write reports len(p)", "statement": "A Write that transmits the whole message returns len(p) as io.Writer requires.", "quantifier": "all messages", "why_tests_cant": "all messages", "anchors": ["client.go:Client.Write"]}
{"id": "C51", "title": "Signatures verify across algorithms", "statement": "What a server key manager signs with SHA-256/384/512 verifies under the key it publishes, for RSA, ECDSA and Ed25519; any other hash or key type is an error, not a wrong answer.", "quantifier": "all key types, hash ids, contents", "why_tests_cant": "all contents", "anchors": ["key/key.go:PublicKey.VerifySignature", "key/server_manager.go"]}
{"id": "C52", "title": "DNSKEY build/parse round-trip", "statement": "A public key rendered as a DNSKEY record parses back to the same key: RSA with exponent below 2^31 and 512 to 4096-bit modulus, ECDSA P-256/P-384, Ed25519.", "quantifier": "all such keys", "why_tests_cant": "unbounded key space", "anchors": ["internal/dns/dnssec/dnssec.go:BuildDNSKEY", "internal/dns/dnssec/dnssec.go:ParseDNSKEY"]}
{"id": "C53", "title": "Malformed DNSKEY material is an error", "statement": "ParseDNSKEY never reports success with a missing key for a zone-signing record: malformed key material yields an error.", "quantifier": "all record strings", "why_tests_cant": "all strings", "anchors": ["internal/dns/dnssec/dnssec.go:ParseDNSKEY"]}
{"id": "C54", "title": "DNS-over-HTTPS key selection", "statement": "A key is only taken from an authenticated (AD) answer, it is the first record that parses to a key, and if no record does the call fails.", "quantifier": "all answer lists", "why_tests_cant": "unbounded lists", "anchors": ["internal/dns/doh/doh.go:RetrievePublicKey"]}
{"id": "C55", "title": "Key cache freshness", "statement": "With a positive TTL a cached key is never returned more than TTL after it was stored, an expired entry is refetched, errors are not cached, hosts do not mix; with a non-positive TTL the first key is returned for ever.", "quantifier": "all histories of Fetch and GC with arbitrary time stamps and fetcher results", "why_tests_cant": "unbounded histories", "anchors": ["key/client_fetcher.go:ClientFetcherCache"]}
{"id": "C56", "title": "Derived key size and domain", "statement": "Key derivation succeeds exactly for lengths 1..8160 and returns exactly that many bytes; client and server derive the same AES-256 key from the same secret.", "quantifier": "all secrets, infos, lengths", "why_tests_cant": "all inputs", "anchors": ["internal/kdf/kdf.go:DeriveKey", "client.go:newGCM"]}
{"id": "C57", "title": "Session ids are RFC 4122 version 4", "statement": "Every generated id has version nibble 4 and variant bits 10, and the other 122 bits are the random bits.", "quantifier": "all random sources", "why_tests_cant": "2^128 values", "anchors": ["internal/client/uuid.go:UUID"]}
{"id": "C58", "title": "Pooled connections share one session", "statement": "All clients a pool hands out before it is closed use the same secret, id and counter.", "quantifier": "all schedules of Get, Close and dial outcomes", "why_tests_cant": "all interleavings", "anchors": ["client_pool.go"]}
{"id": "C59", "title": "Open connections never exceed the maximum", "statement": "A pool never has more than maxOpenClients connections open.", "quantifier": "all schedules, including connections found dead", "why_tests_cant": "all interleavings", "anchors": ["client_pool.go:ClientPool.Get", "client_pool.go:ClientPool.put"]}
{"id": "C60", "title": "Get makes progress", "statement": "A Get that waits is served once a client is returned.", "quantifier": "all schedules of Get and Close", "why_tests_cant": "needs a precise interleaving", "anchors": ["client_pool.go:ClientPool.Get", "client_pool.go:ClientPool.put"]}
{"id": "C61", "title": "A dead idle connection is replaced", "statement": "If an idle connection turns out dead, Get discards it and returns another or a new one.", "quantifier": "all pool states", "why_tests_cant": "liveness over all states", "anchors": ["client_pool.go:ClientPool.Get", "client.go:Client.Close"]}
{"id": "C62", "title": "A borrowed client carries no leftovers", "statement": "The first Read after borrowing a client from the pool never returns data addressed to a previous borrower.", "quantifier": "all histories of borrowers", "why_tests_cant": "all histories", "anchors": ["client_pool.go:ClientPool.put", "client.go:Client.Close"]}
{"id": "C63", "title": "Closing in any order is safe", "statement": "Closing a borrowed client after its pool was closed does not panic, nor does closing a pool twice.", "quantifier": "all orders of Close calls", "why_tests_cant": "all orders", "anchors": ["client_pool.go:ClientPool.Close", "client_pool.go:ClientPool.put"]}
{"id": "C64", "title": "UDP replies go to the requester in one datagram", "statement": "Whatever datagrams arrive from whatever addresses, the response to a request is sent as a single datagram to the address it came from and contains the response bytes in order; a request never reads beyond its datagram.", "quantifier": "all datagram histories", "why_tests_cant": "unbounded histories", "anchors": ["internal/net/udp.go", "server.go:handlePacketConnection"]}
{"id": "C65", "title": "Closing a UDP client releases it", "statement": "After Close, a UDP client has closed its socket and further writes fail.", "quantifier": "all client states", "why_tests_cant": "resource behaviour in all states", "anchors": ["internal/net/udp.go:UDPConn.Close", "client.go:Client.close"]}
{"id": "C66", "title": "No TCP request is handled after Close returns", "statement": "Once Server.Close has returned, the handler is not called again for any TCP connection.", "quantifier": "all schedules of accept loop, connections and Close", "why_tests_cant": "all interleavings", "anchors": ["server.go:StartTCP", "server.go:handleConnection", "server.go:Close"]}
{"id": "C67", "title": "No UDP request is handled after Close returns", "statement": "Once Server.Close has returned, the handler is not called again for any datagram.", "quantifier": "all schedules", "why_tests_cant": "all interleavings", "anchors": ["server.go:StartUDP", "server.go:handlePacketConnection", "server.go:Close"]}
{"id": "C68", "title": "A client idle for less than the read timeout is answered", "statement": "A request that arrives on a TCP connection before the read timeout and is handled promptly is answered.", "quantifier": "all timeouts and arrival times", "why_tests_cant": "all timings", "anchors": ["server.go:handleConnection"]}
{"id": "C69", "title": "The server key only signs the server's own handshakes", "statement": "Whatever is sent to the server, its signing key is only applied, with SHA-512, to the transcript of a Setup the server is answering: the id and client key it received and the ephemeral key it drew.", "quantifier": "all schedules, adversarial networks", "why_tests_cant": "the attacker chooses all requests", "anchors": ["internal/server/action_setup.go", "protocol/action_002_setup.go:SetupTranscript"]}
{"id": "C70", "title": "Only public data and ciphertext leave the server", "statement": "Every octet string the server hands to a connection is a greeting, an error response with one of a fixed list of texts, its public ephemeral key with a signature, its published key, or handler output encrypted under the session key with the reply nonce of the request's counter.", "quantifier": "all schedules, adversarial networks, all handlers", "why_tests_cant": "all interleavings and adversaries", "anchors": ["internal/server"]}
{"id": "C71", "title": "Read answers the last Write", "statement": "After a Write, Read returns data of the reply to that Write only.", "quantifier": "all histories of Reads and Writes on one client", "why_tests_cant": "all histories", "anchors": ["client.go:Client.Read", "client.go:Client.Write"]}
{"id": "C72", "title": "Read and Write never panic", "statement": "Whatever bytes and errors the network produces and however calls interleave, Read and Write return.", "quantifier": "all schedules, adversarial networks", "why_tests_cant": "adversarial responses", "anchors": ["client.go:Client.Read", "client.go:Client.Write"]}
{"id": "C73", "title": "Errors reported by Read come from the server", "statement": "If Read reports an error of the server, the server sent it.", "quantifier": "all response byte streams", "why_tests_cant": "adversarial network", "anchors": ["client.go:Client.Read", "protocol/error.go"]}
{"id": "C74", "title": "The reply flag is authenticated", "statement": "The server acts on the reply flag the client set: an attacker cannot switch replies off without the message being refused.", "quantifier": "all requests", "why_tests_cant": "adversarial network", "anchors": ["internal/server/action_process.go", "protocol/action_003_process.go"]}
{"id": "C75", "title": "A late reply does not disturb later exchanges", "statement": "If one reply is not read (say, because it arrived after the read deadline), later exchanges of one Write and one Read still succeed.", "quantifier": "all numbers of later exchanges", "why_tests_cant": "unbounded sequences", "anchors": ["client.go:Client.Read"]}
{"id": "C76", "title": "A session cannot be replaced by a third party", "statement": "While a session is in use, a Setup request for its id by somebody who does not hold its secret does not stop its owner's messages from being delivered.", "quantifier": "all states and Setup requests", "why_tests_cant": "adversarial network", "anchors": ["internal/server/action_setup.go"]}
{"id": "C77", "title": "A malformed DNSKEY record does not hide a usable one", "statement": "If an authenticated answer contains a usable zone-signing record, a malformed one before it does not keep it from being used.", "quantifier": "all answer lists", "why_tests_cant": "all record contents", "anchors": ["internal/dns/doh/doh.go:RetrievePublicKey", "internal/dns/dnssec/dnssec.go:ParseDNSKEY"]}
{"id": "C78", "title": "No DNSKEY record text panics", "statement": "ParseDNSKEY returns for every record text.", "quantifier": "all strings", "why_tests_cant": "all strings", "anchors": ["internal/dns/dnssec/dnssec.go:ParseDNSKEY"]}
{"id": "C79", "title": "A key is served from the cache until its TTL", "statement": "With a positive TTL, the source is not asked for a host again within the TTL of storing its key.", "quantifier": "all schedules of Fetch and the collector", "why_tests_cant": "races between Fetch and the collector", "anchors": ["key/client_fetcher.go:ClientFetcherCache"]}
{"id": "C80", "title": "A pooled client has one borrower at a time", "statement": "If borrowers close each client once, a client is not handed out again before it was given back.", "quantifier": "all schedules of Get, Close and test outcomes", "why_tests_cant": "ownership is an invariant of all interleavings", "anchors": ["client_pool.go:Get", "client_pool.go:put"]}
{"id": "C81", "title": "Closing a borrowed client twice is harmless", "statement": "If a borrower closes a client twice, no two borrowers end up with the same client.", "quantifier": "all schedules", "why_tests_cant": "needs a particular sequence of callers", "anchors": ["client.go:Close", "client_pool.go:put"]}
{"id": "C82", "title": "The pool loses no connection", "statement": "As long as nothing panics every open connection is idle, with a borrower or being handled; once the pool was closed with everything given back, none is open.", "quantifier": "all schedules and test outcomes", "why_tests_cant": "a leak is a property of all executions", "anchors": ["client_pool.go:Get", "client_pool.go:put", "client_pool.go:Close"]}
{"id": "C83", "title": "The pool's mutex is always released", "statement": "Whoever holds the mutex of the pool can proceed and releases it within two steps.", "quantifier": "all reachable states", "why_tests_cant": "deadlock freedom quantifies over schedules", "anchors": ["client_pool.go"]}
{"id": "C84", "title": "An answer too long for UDP is reported", "statement": "If the handler's output does not fit a datagram, the client is told: an error response is sent instead.", "quantifier": "all handler outputs", "why_tests_cant": "depends on the size limit of the transport", "anchors": ["internal/net/udp.go:UDPConn.Close", "server.go:handlePacketConnection"]}
{"id": "C85", "title": "Garbage in one datagram does not reach the next exchange", "statement": "Octets left unread of an earlier datagram are discarded by the next Write of a UDP client: the Read after it depends only on the datagram that arrives then.", "quantifier": "all states of the connection, all datagrams", "why_tests_cant": "all leftovers", "anchors": ["internal/net/udp.go:UDPConn.Write", "internal/net/udp.go:UDPConn.Read"]}
{"id": "C86", "title": "A late or duplicate datagram costs at most one exchange", "statement": "After one superfluous reply datagram, later exchanges of one Write and one Read over UDP succeed again.", "quantifier": "all numbers of later exchanges", "why_tests_cant": "unbounded sequences", "anchors": ["client.go:Client.Read", "internal/net/udp.go"]}
{"id": "C87", "title": "After Close a listener takes at most one more connection, unread", "statement": "Once Close has closed the channel, each TCP listener accepts at most one more connection, and nothing is read from a connection whose goroutine starts from then on.", "quantifier": "all schedules", "why_tests_cant": "races between Accept and Close", "anchors": ["server.go:StartTCP", "server.go:handleConnection", "server.go:Close"]}
{"id": "C88", "title": "Closing a server once is safe", "statement": "A server that is closed once neither panics in Close nor crashes the process, whatever clients do meanwhile.", "quantifier": "all schedules", "why_tests_cant": "a race between Add and Wait of the WaitGroup", "anchors": ["server.go:StartTCP", "server.go:Close"]}
{"id": "C89", "title": "Closing a server twice is harmless", "statement": "A second Close of a server returns without panicking.", "quantifier": "all states after a first Close", "why_tests_cant": "needs the state after Close", "anchors": ["server.go:Close"]}
{"id": "C92", "title": "Close releases the TCP port", "statement": "After Close returned the TCP listener is closed without further input from clients.", "quantifier": "all schedules without new connections", "why_tests_cant": "waits on what clients do", "anchors": ["server.go:StartTCP", "server.go:Close"]}
{"id": "C93", "title": "Close does not miss its wake-up", "statement": "At any point in Close, provided no connection is counted after the channel was closed, Close can still return once the open connections end.", "quantifier": "all reachable states", "why_tests_cant": "a lost wake-up depends on the interleaving", "anchors": ["server.go:Close"]}
{"id": "C94", "title": "Close waits for the connections", "statement": "When Close returns, every TCP connection whose goroutine was started is closed.", "quantifier": "all schedules", "why_tests_cant": "all interleavings", "anchors": ["server.go:handleConnection", "server.go:Close"]}
{"id": "C95", "title": "A silent client does not hold up Close", "statement": "Close returns although a connected TCP client sends nothing.", "quantifier": "all schedules", "why_tests_cant": "needs a client that stays silent for ever", "anchors": ["server.go:handleConnection", "server.go:Close"]}
{"id": "C90", "title": "Dial respects the timeouts", "statement": "With read and write timeouts set, Dial does not take longer than they allow, whatever the server does.", "quantifier": "all timeouts, silent servers, delays", "why_tests_cant": "needs a peer that stays silent", "anchors": ["client.go:handshake", "client.go:dialTCP"]}
{"id": "C91", "title": "An idle pooled connection stays usable", "statement": "A pooled connection that was idle and is still open passes the test before it is handed out.", "quantifier": "all idle times, networks", "why_tests_cant": "depends on the time a connection is idle", "anchors": ["client_pool.go:testOnBorrow", "client.go:Client.Write"]}
{"id": "C96", "title": "A stalling client does not hold a connection for ever", "statement": "With a read timeout, one iteration of a TCP connection takes at most the read timeout besides the time spent on processing, however slowly octets trickle in.", "quantifier": "all arrival times, delays and inputs", "why_tests_cant": "all timings", "anchors": ["server.go:handleConnection"]}
{"id": "C97", "title": "A client that passed the test is usable", "statement": "A client that passed the test before borrowing has no reply octets of an earlier borrower waiting.", "quantifier": "all states of the connection", "why_tests_cant": "needs a previous borrower that did not read its reply", "anchors": ["client_pool.go:testOnBorrow"]}
{"id": "C98", "title": "Deadlines set by the user are respected", "statement": "A deadline set with SetDeadline applies to the Read and Write calls that follow, as its documentation says.", "quantifier": "all deadlines and timeouts", "why_tests_cant": "all timings", "anchors": ["client.go:SetDeadline", "client.go:Client.Read", "client.go:Client.Write"]}
{"id": "C99", "title": "io.ReadAll and io.ReadFull work on a client", "statement": "io.ReadAll on a client returns exactly the reply to the last request, whatever buffer sizes it uses, and leaves nothing behind; io.ReadFull returns the first n octets and keeps the others.", "quantifier": "all non-empty replies, buffer sizes, following input", "why_tests_cant": "all sizes of reply and buffers", "anchors": ["client.go:Client.Read"]}
{"id": "C100", "title": "io.Copy into a client works", "statement": "io.Copy and other code that trusts the io.Writer contract can write to a client.", "quantifier": "all data, all sessions", "why_tests_cant": "needs a caller that checks the count", "anchors": ["client.go:Client.Write"]}
{"id": "C101", "title": "Reserved bits are sent as zero and ignored", "statement": "The draft's reserved bits of requests and responses do not influence a receiver and are zero in what a server sends.", "quantifier": "all inputs and states, all values of the bits", "why_tests_cant": "all bit patterns on all messages", "anchors": ["protocol/response.go", "protocol/action_003_process.go", "client.go:Client.Read", "client.go:handshake", "key/client_fetcher.go:ClientFetcherProtocol", "docs/draft-justo-goe2ee-latest.md:259-260,282,513"]}
{"id": "C102", "title": "A session can be used on other connections of the host", "statement": "A session set up on one connection serves requests that arrive on any other connection from the same host: each is processed once and answered to the client that sent it.", "quantifier": "all numbers of connections, messages, states of the server", "why_tests_cant": "unbounded sequences of connections", "anchors": ["client_pool.go", "internal/server/action_process.go", "docs/draft-justo-goe2ee-latest.md:638-653"]}
{"id": "C103", "title": "Counters strictly increase on the wire", "statement": "Every Process request sent under a secret carries a strictly greater counter than any sent before.", "quantifier": "all schedules of clients sharing a session, all transports", "why_tests_cant": "interleavings of concurrent Writes", "anchors": ["client.go:Client.Write", "docs/draft-justo-goe2ee-latest.md:367,557-561"]}
{"id": "C104", "title": "Every request of a pool is accepted", "statement": "A request sent once by a client of a pool whose connections lose nothing is accepted by the server.", "quantifier": "all schedules of clients sharing a session", "why_tests_cant": "needs one Write delayed while 64 others overtake it", "anchors": ["client.go:Client.Write", "secret/secret.go:CheckAndUpdate"]}
{"id": "C105", "title": "A request that does not decrypt is answered as malformed", "statement": "If decryption or tag verification fails the server answers error code 1, as the draft demands.", "quantifier": "all unauthentic messages, all states", "why_tests_cant": "quantifies over all ciphertexts", "anchors": ["internal/server/action_process.go", "docs/draft-justo-goe2ee-latest.md:531-533"]}
{"id": "C106", "title": "Fetching a key over the protocol returns the server's key", "statement": "ClientFetcherProtocol.Fetch over an undisturbed connection returns the key the server's key manager holds and leaves the server's sessions alone.", "quantifier": "all keys, states of server and client", "why_tests_cant": "all keys", "anchors": ["key/client_fetcher.go:ClientFetcherProtocol.Fetch", "internal/server/action_fetch_key.go"]}
{"id": "C107", "title": "Fire-and-forget requests are not answered", "statement": "A Process request with the reply flag cleared is never answered.", "quantifier": "all requests, all states of the server", "why_tests_cant": "all kinds of failure", "anchors": ["internal/server/action_process.go", "docs/draft-justo-goe2ee-latest.md:508-510"]}
{"id": "C108", "title": "The number of sessions is bounded", "statement": "A server bounds how many sessions it keeps at a time.", "quantifier": "all numbers of Setup requests", "why_tests_cant": "a bound must hold for every number of requests", "anchors": ["secret/secret.go:Manager", "internal/server/action_setup.go", "docs/draft-justo-goe2ee-latest.md:736-738"]}
{"id": "C109", "title": "A Hello finds a live server alive", "statement": "The pool's test of a connection on which nothing is unread succeeds against a running server, takes exactly the answer from the stream, and changes no session, no counter and no buffer.", "quantifier": "all states of server and client, all transports that deliver", "why_tests_cant": "every state of the server must be covered, including ones with sessions in use", "anchors": ["client_pool.go:testOnBorrow", "internal/server/handler.go", "server.go:handleConnection"]}
{"id": "C110", "title": "Read returns within its timeout", "statement": "With a read timeout set, Read returns at the latest when it has passed (apart from the time its own steps take), even if a peer sends the octets of the answer one at a time.", "quantifier": "all arrival times of octets, all network behaviour", "why_tests_cant": "arrival times form an infinite space", "anchors": ["client.go:Read"]}
{"id": "C111", "title": "Every handler call is a Write of a client", "statement": "However many clients and requests are interleaved and whatever the network does, as long as nobody forges a ciphertext, each call of the server's handler passes a message that a client holding the key wrote, unaltered and with the counter of this Write; no Write is served by two calls, no call serves two Writes.", "quantifier": "all interleavings of clients and of server goroutines, all networks", "why_tests_cant": "interleavings of both sides and an adversarial network", "anchors": ["client.go:Client.Write", "internal/server/action_process.go", "secret/secret.go:CheckAndUpdate"]}
{"id": "C112", "title": "A reply answers a Write of the client that reads it", "statement": "A reply that Read accepts on a client is what the handler returned for a message written on this very client, the one last written there, for any number of clients sharing the session.", "quantifier": "all interleavings of clients and of server goroutines, all networks", "why_tests_cant": "interleavings of both sides and an adversarial network", "anchors": ["client.go:Client.Read", "client.go:Client.Write", "internal/server/action_process.go"]}
{"id": "C113", "title": "A closing server takes no further request from a connection", "statement": "Once Close has been called, a connection handler that looks for the next request reads nothing more, calls no handler, changes no session and sends nothing; a request in progress at that time is finished, answer included, and is the last one.", "quantifier": "all states, all inputs, all networks", "why_tests_cant": "the time of Close relative to every step of a connection", "anchors": ["server.go:handleConnection", "server.go:Close"]}
{"id": "C114", "title": "A closed pool gets a fresh session", "statement": "Two clients obtained from a pool have the same session exactly if the pool was not closed between their dials; nobody gets a client with the session of a pool that was closed since.", "quantifier": "all interleavings of Get, put and Close", "why_tests_cant": "interleavings of any number of goroutines", "anchors": ["client_pool.go:Get", "client_pool.go:Close"]}
{"id": "C115", "title": "A pool replaces a session the server has lost", "statement": "When the server has lost the session of a pool (restart, idle session collected), the pool notices and its clients work again.", "quantifier": "all states of the pool, all messages, all numbers of exchanges", "why_tests_cant": "needs a server that forgets the session while every pool operation goes on", "anchors": ["client_pool.go:Get", "client_pool.go:testOnBorrow"]}
{"id": "C116", "title": "Malformed requests are answered with 0x01", "statement": "A Setup or Process request whose rest does not have the published layout (cut short, announcing more than the limit, with a key that is none) is answered with error 1; no handler is called, no session changes, and the connection stays open.", "quantifier": "all octet strings that are not requests, all states", "why_tests_cant": "the malformed inputs are an infinite set", "anchors": ["internal/server/action_process.go", "internal/server/action_setup.go", "docs/draft-justo-goe2ee-latest.md"]}
{"id": "C117", "title": "A failed dial leaves no socket behind", "statement": "When dialling fails, every socket opened on the way is closed again.", "quantifier": "all outcomes of every call, all numbers of dials", "why_tests_cant": "needs failures of system calls and counting of resources over any number of dials", "anchors": ["client.go:DialTCP", "client.go:DialUDP", "internal/net/udp.go:Close"]}
{"id": "C118", "title": "Fetching a key over the protocol leaves no socket behind", "statement": "However ClientFetcherProtocol.Fetch ends, its socket is closed.", "quantifier": "all outcomes of every call", "why_tests_cant": "needs failures of system calls", "anchors": ["key/client_fetcher.go:ClientFetcherProtocol.Fetch"]}
{"id": "C119", "title": "Closing a server stops what it started", "statement": "After Close no goroutine started by NewServer runs any more.", "quantifier": "all options, all states", "why_tests_cant": "goroutine leaks are invisible to functional tests", "anchors": ["server.go:NewServer", "server.go:Close", "secret/secret.go:NewInMemoryManager"]}
{"id": "C120", "title": "A secret manager works with any interval", "statement": "Whatever intervals are given as options, creating the in-memory manager does not end the process.", "quantifier": "all intervals", "why_tests_cant": "every combination of options", "anchors": ["secret/secret.go:NewInMemoryManager"]}
{"id": "C121", "title": "Servers sharing a secret manager do not disturb each other", "statement": "Closing one of two servers that share a secret manager leaves the other's sessions managed as before: idle ones are still collected.", "quantifier": "all states", "why_tests_cant": "needs two servers and the life of a goroutine", "anchors": ["server.go:Close", "secret/secret.go:Close"]}
{"id": "C122", "title": "The host of a peer is its IP address", "statement": "The server binds a session to the host of the peer; this host is the text of the peer's IP address and zone, the same whatever its port, and different for different addresses; net.SplitHostPort answers exactly the parts of the two forms of an address.", "quantifier": "all addresses, ports, zones", "why_tests_cant": "all strings", "anchors": ["internal/server/action_setup.go", "internal/server/action_process.go", "client.go:handshake"]}
{"id": "C123", "title": "The key in a TLS certificate is found", "statement": "A client with ClientFetcherTLS finds the key of a server that presents a valid certificate for its name, whatever kind of address the server is dialled with.", "quantifier": "all addresses, certificates, networks", "why_tests_cant": "needs every form of address and a TLS server", "anchors": ["key/client_fetcher.go:ClientFetcherTLS.Fetch", "client.go:handshake"]}
{"id": "C124", "title": "A key from TLS is certified", "statement": "A key that ClientFetcherTLS returns is the one of the leaf certificate of a connection to the host at the configured port; the certificate names the host and was valid at a moment during the fetch.", "quantifier": "all hosts, certificates, clocks", "why_tests_cant": "all certificates and readings of the clock", "anchors": ["key/client_fetcher.go:ClientFetcherTLS.Fetch"]}
{"id": "C125", "title": "A private key that was loaded or generated works", "statement": "A ServerManagerInMemory made from a file or on the fly signs, with the algorithm asked for, and what it signs is verified with the public key it hands out.", "quantifier": "all files, keys, algorithms, messages", "why_tests_cant": "all key files", "anchors": ["key/server_manager.go:ServerManagerParsePEM", "key/server_manager.go:ServerManagerGenerateOnTheFly", "key/server_manager.go:Sign"]}
{"id": "C126", "title": "A public key that was loaded works", "statement": "A client whose key was loaded from a PEM file verifies what the owner of that key signs; a file whose key cannot be used is refused when loading it.", "quantifier": "all files, keys, messages", "why_tests_cant": "all key files", "anchors": ["key/client_fetcher.go:ParseClientFetcherPEM", "key/key.go"]}
{"id": "C127", "title": "A message of any length that Write accepts is delivered", "statement": "If Write reports success over an undisturbed connection, the server's handler gets the message, whatever its length.", "quantifier": "all messages, all states of client and server", "why_tests_cant": "needs messages of more than 1 GiB", "anchors": ["client.go:Client.Write", "protocol/limits.go", "protocol/action_003_process.go:ParseProcessRequest"]}
{"id": "C128", "title": "A reply of any length arrives", "statement": "Whatever the handler answers is returned by Read, or Read fails without disturbing later exchanges.", "quantifier": "all replies, all states of client and server", "why_tests_cant": "needs replies of more than 1 GiB", "anchors": ["client.go:Client.Read", "protocol/limits.go", "internal/server/action_process.go"]}
{"id": "C129", "title": "A UDP answer written in time is sent", "statement": "An answer that is written within the write timeout, counted from when its goroutine read the clock, is sent, whatever other requests the server handles at the same time.", "quantifier": "all interleavings of requests, all timeouts, all times", "why_tests_cant": "interleavings of goroutines with the clock", "anchors": ["server.go:handlePacketConnection", "internal/net/udp.go:Close"]}
{"id": "C130", "title": "The answer of a slow handler is sent", "statement": "A client gets the answer to its request however long the handler takes (the client itself sets how long it waits).", "quantifier": "all requests, sessions, timeouts, durations", "why_tests_cant": "needs a handler slower than the write timeout", "anchors": ["server.go:handleConnection", "internal/server/action_process.go"]}
{"id": "C131", "title": "Sessions are independent", "statement": "Whatever the order in which the effects of all TCP connections and UDP datagrams happen, the connections that use some sessions send the same octets, call the handler with the same messages and end the same way as if the connections that use other sessions, and the collection of those, were not there; and the sessions are the same.", "quantifier": "all numbers of connections, inputs, environments, schedules at the granularity of single effects, initial tables", "why_tests_cant": "needs every interleaving of any number of connections", "anchors": ["server.go:handleConnection", "server.go:handlePacketConnection", "internal/server/action_process.go", "secret/secret.go"]}
{"id": "C132", "title": "Hosts are independent", "statement": "Clients of other hosts cannot change what the clients of a host observe, whatever they send and however their requests interleave, unless session keys of the two collide.", "quantifier": "all connections, inputs, environments, schedules", "why_tests_cant": "needs every interleaving and every hostile input", "anchors": ["internal/server/action_setup.go", "internal/server/action_process.go"]}
{"id": "C133", "title": "A connection behaves as if it were alone", "statement": "A TCP connection that is the only one to use its sessions, which are not collected meanwhile, sends, calls and ends exactly as it does on a server without other connections.", "quantifier": "all connections, inputs, environments, schedules", "why_tests_cant": "needs every interleaving", "anchors": ["server.go:handleConnection"]}
{"id": "C134", "title": "Other connections cannot delay one", "statement": "A TCP connection that is the only one to use its sessions comes to an end after a number of its own effects that does not depend on what other connections do.", "quantifier": "all connections, inputs, environments, schedules", "why_tests_cant": "a bound for all schedules", "anchors": ["server.go:handleConnection"]}
{"id": "C135", "title": "Names are unique in the registry", "statement": "A name that is registered cannot be registered by a second user until it is removed; of two registrations under one name at most one succeeds.", "quantifier": "all interleavings of any number of requests", "why_tests_cant": "interleavings of HTTP requests", "anchors": ["examples/chat/cmd/registry/main.go"]}
{"id": "C136", "title": "Users are introduced to each other", "statement": "Two users who register under different names, in any order or at the same time, and stay, are each notified of the other by the time both registrations are answered.", "quantifier": "all interleavings of any number of requests, all orders in which sync.Map.Range visits", "why_tests_cant": "interleavings of HTTP requests and the freedom of sync.Map.Range", "anchors": ["examples/chat/cmd/registry/main.go"]}
{"id": "C137", "title": "Everybody hears of a departure", "statement": "When a departure is answered, every user who registered before it and stays was notified of it.", "quantifier": "all interleavings of any number of requests, all orders of Range", "why_tests_cant": "interleavings of HTTP requests and the freedom of sync.Map.Range", "anchors": ["examples/chat/cmd/registry/main.go"]}
{"id": "C138", "title": "A listing is accurate", "statement": "A listing has no name twice, only users that registered, and every user that was registered when it began and stays.", "quantifier": "all interleavings of any number of requests, all orders of Range", "why_tests_cant": "interleavings of HTTP requests and the freedom of sync.Map.Range", "anchors": ["examples/chat/cmd/registry/main.go"]}
{"id": "C139", "title": "The last notification is the truth", "statement": "When all requests are answered, the last notification a registered user got about another says whether that one is registered.", "quantifier": "all interleavings of any number of requests", "why_tests_cant": "interleavings of HTTP requests", "anchors": ["examples/chat/cmd/registry/main.go"]}
{"id": "C140", "title": "A user that leaves removes itself", "statement": "Unregister(name) makes the registry remove the user of that name and no other, for every name.", "quantifier": "all names", "why_tests_cant": "all strings", "anchors": ["examples/chat/registry.go", "examples/chat/cmd/registry/main.go"]}
{"id": "C141", "title": "No request makes the registry's handler panic", "statement": "For every path that is routed to the handler, a DELETE is answered.", "quantifier": "all paths", "why_tests_cant": "all strings", "anchors": ["examples/chat/cmd/registry/main.go"]}
{"id": "C142", "title": "Notifications cannot stop a user's program", "statement": "Whatever users are announced, the program of a user goes on handling notifications and sending messages.", "quantifier": "all sequences and interleavings of notifications and messages", "why_tests_cant": "all contents of notifications", "anchors": ["examples/chat/cmd/user/main.go"]}
{"id": "C143", "title": "Connections are not left behind", "statement": "Every open connection of a user belongs to another user that is there (or is about to be entered).", "quantifier": "all sequences and interleavings of notifications", "why_tests_cant": "interleavings, and counting of resources", "anchors": ["examples/chat/cmd/user/main.go", "examples/chat/cmd/registry/main.go"]}
{"id": "C144", "title": "A message goes to everybody once", "statement": "A message is written exactly once to each user whose last notification was that it joined, over the connection that was made for it last, which is open; to nobody else.", "quantifier": "all sequences and interleavings of notifications and messages", "why_tests_cant": "interleavings of notifications with the sending goroutine", "anchors": ["examples/chat/cmd/user/main.go", "examples/chat/README.md"]}
{"id": "C145", "title": "The name beside a message is that of its sender", "statement": "The name shown for a message is the name of the user whose program sent it.", "quantifier": "all messages, all senders", "why_tests_cant": "all contents of messages", "anchors": ["examples/chat/cmd/user/main.go"]}
{"id": "C146", "title": "The registry says and does nothing without grounds", "statement": "A request stores only the user it carries, removes only the user it names, notifies only users that registered and only of users that registered (of a join, one of the two is the user of the request; of a departure, the user it removed), and each status code is given for its reason.", "quantifier": "all interleavings of any number of requests", "why_tests_cant": "interleavings of HTTP requests", "anchors": ["examples/chat/cmd/registry/main.go"]}
{"id": "C147", "title": "A conversation works while the server serves others", "statement": "A client that dials and exchanges messages over an undisturbed TCP connection gets every reply whole and in order, and the handler gets every message once and in order, whatever other connections the server serves at the same time, as long as nobody else uses the client's session; client and connection need a number of steps that does not depend on the others or on the order of steps, and can always go on before that.", "quantifier": "all messages, clients, other connections with any input, all schedules of single effects of the client, its connection and the others, all initial tables", "why_tests_cant": "every interleaving of client, server and any number of other clients", "anchors": ["client.go:handshake", "client.go:Client.Write", "client.go:Client.Read", "server.go:handleConnection", "internal/server/action_setup.go", "internal/server/action_process.go"]}
{"id": "C148", "title": "Get waits only when the maximum is open", "statement": "A Get of a pool begins to wait only if no client is idle and at least the maximum of connections is open, whatever was closed, given back or found dead before, unless a Close of the pool failed.", "quantifier": "all interleavings of any number of goroutines, all limits", "why_tests_cant": "interleavings of borrowers", "anchors": ["client_pool.go:Get", "client_pool.go:Close", "client_pool.go:put"]}
{"id": "C149", "title": "Only octets that came in time are used", "statement": "With a read timeout, Read and the server's goroutine use only octets that arrived before the timeout had passed since they began; what comes later is not taken for part of a reply or request by that call.", "quantifier": "all inputs, arrival times, timeouts, durations of effects", "why_tests_cant": "all arrival times of octets", "anchors": ["client.go:Client.Read", "server.go:handleConnection"]}
{"id": "C150", "title": "A peer cannot make the server panic", "statement": "Whatever octets peers send and however connections interleave, the goroutine of a connection or datagram panics only if the application's handler or key manager panicked; with ServerManagerInMemory only if the handler did, on the message it was called with last.", "quantifier": "all inputs, environments, numbers of connections, schedules of single effects", "why_tests_cant": "all byte streams, all failures of the environment, all interleavings", "anchors": ["server.go:handleConnection", "internal/server/handler.go", "internal/server/action_process.go", "internal/server/action_setup.go", "key/server_manager.go"]}
{"id": "C151", "title": "A conversation over UDP works while the server serves others", "statement": "A client that dials and exchanges messages with replies over UDP gets every reply whole and in order, and the handler gets every message once and in order, whatever datagrams of others the server's socket receives and its goroutines handle at the same time, as long as no datagram is lost or too large and nobody else uses the client's session; client and goroutines need a number of steps that does not depend on the others or on the order of steps, and can always go on before that.", "quantifier": "all messages up to the size of a datagram, all clients, datagrams of others at any time, all schedules of single effects of the client, the receiving loop and all goroutines, all initial tables", "why_tests_cant": "every interleaving of the client, the receiving loop and one goroutine per datagram of any number of clients", "anchors": ["internal/net/udp.go", "server.go:handlePacketConnection", "client.go:handshake", "client.go:Client.Write", "client.go:Client.Read", "internal/server/action_setup.go", "internal/server/action_process.go"]}
{"id": "C152", "title": "A dead connection does not pass the pool's test", "statement": "A client taken from the pool passes testOnBorrow exactly if the Hello request was written whole and a response with the success bit came back; a connection that the server closed, that fails or that reports an error does not pass; the test never panics and changes no counter and no buffered reply.", "quantifier": "all inputs, failures of the connection and client states", "why_tests_cant": "all failures of a connection at all points", "anchors": ["client_pool.go:testOnBorrow", "protocol/action_001_hello.go"]}
{"id": "C153", "title": "Reading while writing loses no answer but those overtaken", "statement": "When one goroutine writes message after message to a client and another reads reply after reply, every Read ends; it returns the answer it is due, or an error if a later message was written before that answer was looked at, and the answer to the last message is delivered.", "quantifier": "all interleavings of the two goroutines, the server and the network, all messages and replies", "why_tests_cant": "interleavings of two goroutines at every step of Read and Write cannot be enumerated by a test", "anchors": ["client.go:Read", "client.go:Write", "internal/net/udp.go:Read", "internal/net/udp.go:Write"]}
{"id": "C154", "title": "Forward secrecy against an attacker on the network", "statement": "If a client called a server with that server's key and accepted the handshake before the key leaked, then an attacker who reads and replaces everything on the network, keeps sessions of their own with any server, and gets signing keys later, never gets the shared secret of the session or the key derived from it.", "quantifier": "all runs of any number of clients, servers and sessions, all behaviours of a symbolic (Dolev-Yao) attacker", "why_tests_cant": "all strategies of an attacker", "anchors": ["client.go:handshake", "internal/server/action_setup.go", "protocol/action_002_setup.go:SetupTranscript", "docs/draft-justo-goe2ee-latest.md: Forward Secrecy"]}
{"id": "C155", "title": "Client and server agree on the handshake", "statement": "When a client accepts a handshake with the right key (not leaked by then), that server made the session before, for this client's public key and id, and no other client accepts the same session.", "quantifier": "all runs of any number of clients, servers and sessions, all behaviours of a symbolic attacker", "why_tests_cant": "all strategies of an attacker", "anchors": ["client.go:handshake", "internal/server/action_setup.go", "protocol/action_002_setup.go:SetupTranscript", "docs/draft-justo-goe2ee-latest.md: Handshake Integrity"]}
{"id": "C156", "title": "What is sent in trusted sessions stays secret", "statement": "A message that clients write only in trusted sessions, and that handlers return only to requests carrying a token which clients write only in trusted sessions, stays unknown to the attacker, and so does the token, though the attacker can talk to the same servers.", "quantifier": "all runs of any number of clients, servers and sessions, all behaviours of a symbolic attacker", "why_tests_cant": "all strategies of an attacker", "anchors": ["client.go:handshake", "internal/server/action_setup.go", "protocol/action_002_setup.go:SetupTranscript", "client.go:Client.Write", "client.go:Client.Read", "internal/server/action_process.go"]}
{"id": "C157", "title": "Messages of trusted sessions are genuine", "statement": "In a trusted session the handler gets only what the client wrote before, no counter twice, and the client reads only what the server it called returned for the message of that counter.", "quantifier": "all runs of any number of clients, servers and sessions, all behaviours of a symbolic attacker", "why_tests_cant": "all strategies of an attacker", "anchors": ["client.go:handshake", "internal/server/action_setup.go", "protocol/action_002_setup.go:SetupTranscript", "client.go:Client.Write", "client.go:Client.Read", "internal/server/action_process.go", "secret/secret.go"]}
{"id": "C158", "title": "A conversation is confidential whichever way the key was fetched", "statement": "Whatever fetcher the client uses, what it writes to a server whose key did not leak stays unknown to an attacker on the network.", "quantifier": "all runs of any number of clients, servers and sessions, all behaviours of a symbolic attacker", "why_tests_cant": "all strategies of an attacker", "anchors": ["key/client_fetcher.go:ClientFetcherProtocol", "client.go:handshake", "README.md"]}
{"id": "C159", "title": "No nonce is used twice in a trusted session", "statement": "All ciphertexts under the key of a trusted session that the attacker sees or can make and that have the same nonce are the same ciphertext, in both directions together.", "quantifier": "all runs of any number of clients, servers and sessions, all behaviours of a symbolic attacker", "why_tests_cant": "all strategies of an attacker", "anchors": ["client.go:Client.Write", "client.go:Client.Read", "internal/server/action_process.go", "docs/draft-justo-goe2ee-latest.md: Nonce Uniqueness"]}
{"id": "C160", "title": "Over UDP a lost datagram costs only its own exchange", "statement": "A Read whose request or reply was lost ends with an error, however often it is called. Later exchanges are not affected: a Read whose request and reply arrive has the whole reply, and the handler gets the messages of the requests that arrive, once each and in order.", "quantifier": "all messages up to the size of a datagram, all patterns of loss, all numbers of Reads", "why_tests_cant": "all patterns of loss", "anchors": ["internal/net/udp.go:UDPConn.Read", "internal/net/udp.go:UDPConn.Write", "client.go:Client.Read", "client.go:Client.Write", "server.go:handlePacketConnection", "internal/server/action_process.go"]}
{"id": "C161", "title": "A request delivered twice does no harm", "statement": "When the network delivers a UDP request more than once, the client still gets the reply to each of its messages, and the handler gets each message once.", "quantifier": "all sessions, messages, handlers that reply, numbers of copies and of Reads", "why_tests_cant": "needs a network that duplicates, and every later exchange", "anchors": ["internal/net/udp.go", "server.go:Server.handlePacketConnection", "client.go:Client.Read", "internal/server/action_process.go"]}
{"id": "C162", "title": "Messages without replies are handled in the order written", "statement": "The handler gets messages that a client writes over UDP without asking for replies in the order in which they were written, and each once.", "quantifier": "all sessions and messages, all orders, losses and duplications of the datagrams", "why_tests_cant": "needs every order of arrival", "anchors": ["internal/net/udp.go", "server.go:Server.handlePacketConnection", "client.go:Client.Write", "internal/server/action_process.go", "internal/server/handler.go"]}
{"id": "C163", "title": "Requests in progress are finished before Close returns", "statement": "When Close of the server returns, every request it has taken was handled, and its answer, if any, could leave.", "quantifier": "all interleavings of listeners, connections, datagrams and calls of Close", "why_tests_cant": "interleavings with Close", "anchors": ["server.go:Server.Close", "server.go:Server.handlePacketConnection", "server.go:Server.handleConnection", "internal/net/udp.go:UDPConn.Close"]}
{"id": "C164", "title": "Close releases the UDP port", "statement": "Once the server is told to quit, the goroutine that closes the UDP socket goes back to Receive no more: it ends as soon as the Receive it may be in ends, which the read timeout brings about without any datagram.", "quantifier": "all interleavings of listeners, connections, datagrams and calls of Close", "why_tests_cant": "interleavings with Close, unboundedly many steps", "anchors": ["server.go:Server.StartUDP", "server.go:Server.handlePacketConnection", "server.go:Server.Close"]}
{"id": "C165", "title": "Clients that share a session each get their own answers", "statement": "When the clients of a pool exchange messages at the same time, each on its connection and all with one session and counter, none panics or waits for ever, every message is handled once and its answer goes to the client that sent it, in order; nothing is refused unless 64 later counters were given out before the message came to the replay filter, in which case the client is told.", "quantifier": "all numbers of clients, all messages and replies, all interleavings with each other and with other connections", "why_tests_cant": "interleavings of any number of clients and goroutines of the server at every step", "anchors": ["client_pool.go:ClientPool.Get", "client.go:Client.Write", "client.go:Client.Read", "server.go:Server.handleConnection", "secret/secret.go:CheckAndUpdate"]}
{"id": "C166", "title": "TCP connections wind down once the server is told to quit", "statement": "Once the server is told to quit, a TCP connection handles at most the request it is reading or handling, and its goroutine ends after a bounded number of steps, whatever the client goes on sending.", "quantifier": "all interleavings of listeners, connections and calls of Close", "why_tests_cant": "interleavings with Close, clients that never stop sending", "anchors": ["server.go:Server.handleConnection", "server.go:Server.Close"]}
{"id": "C167", "title": "Several goroutines can write to one client", "statement": "When several goroutines write to one client over TCP at the same time, all Writes end, requests are never mixed up, counters are never shared, and every message whose Write succeeded is handled once, those of each goroutine in their order.", "quantifier": "all numbers of goroutines, all messages, all interleavings at every step", "why_tests_cant": "interleavings of any number of goroutines at every step; the loss needs one goroutine to be overtaken by 64 messages", "anchors": ["client.go:Client.Write", "client.go:clientSession", "secret/secret.go:CheckAndUpdate", "server.go:Server.handleConnection"]}
{"id": "C168", "title": "A changed server key is noticed within the TTL", "statement": "Once the underlying fetcher gives a new key for a host, a caching fetcher with a positive TTL returns the old one for at most the TTL.", "quantifier": "all TTLs, all numbers of concurrent Fetch calls, all interleavings with the collector and the clock", "why_tests_cant": "the old key returns only if a goroutine is suspended between the answer and the reading of the clock", "anchors": ["key/client_fetcher.go:ClientFetcherCache.Fetch", "key/client_fetcher.go:NewClientFetcherCache"]}
{"id": "C169", "title": "The server's key is found in DNS whatever the order of the records", "statement": "A key published with BuildDNSKEY in a DNSSEC-signed zone is the key the DNSKEY fetcher returns, in whatever order the provider lists the records of the zone.", "quantifier": "all keys a record can carry, all answers, all orders of the records", "why_tests_cant": "all orders of arbitrary record sets", "anchors": ["internal/dns/doh/doh.go:RetrievePublicKey", "internal/dns/dnssec/dnssec.go:ParseDNSKEY", "internal/dns/dnssec/dnssec.go:BuildDNSKEY"]}
{"id": "C170", "title": "The quick start works on a busy server", "statement": "A client that fetches the server's key over the protocol, dials, and calls Write and io.ReadAll for each message, as the README shows, gets the key and then the handler's reply for every message, whole and without an error, whatever other clients of the server do meanwhile with their own sessions.", "quantifier": "all keys, messages, replies that are not empty, buffer sizes, inputs and interleavings of the other connections", "why_tests_cant": "all schedules of an unbounded number of connections and messages", "anchors": ["README.md:Quick start", "key/client_fetcher.go:Fetch", "client.go:DialTCP", "client.go:Write", "client.go:Read", "internal/server/action_fetch_key.go"]}
{"id": "C171", "title": "The quick start works over UDP on a busy server", "statement": "Over a UDP network that loses nothing, a client that fetches the server's key over the protocol, dials, and calls Write and io.ReadAll for each message gets the key and then the handler's reply for every message, whole and without an error, whatever datagrams other clients send meanwhile for their own sessions.", "quantifier": "all keys, messages and replies that fit a datagram, replies that are not empty, buffer sizes, datagrams of others and interleavings", "why_tests_cant": "all schedules of an unbounded number of datagrams and goroutines", "anchors": ["README.md:Quick start", "key/client_fetcher.go:Fetch", "client.go:DialUDP", "internal/net/udp.go", "server.go:handlePacketConnection", "internal/server/action_fetch_key.go"]}
{"id": "C172", "title": "The rest of a request that came too slowly is not executed", "statement": "When the read timeout passes inside a request, the server never takes the octets of that request that arrive later for requests, and the request itself changes nothing.", "quantifier": "all requests, arrival times, timeouts and delays", "why_tests_cant": "all ways in which octets can be spread over time", "anchors": ["server.go:handleConnection", "internal/server/action_process.go", "internal/server/action_setup.go"]}
{"id": "C173", "title": "A timeout never makes Read return a wrong message", "statement": "Read on a client with deadlines returns what it would return without them, or an error after the deadline; a reply that is cut by the deadline is never returned in part or as another one, and the failed Read leaves buffer, counters and session as they were.", "quantifier": "all streams, arrival times, timeouts and delays", "why_tests_cant": "all ways in which octets can be spread over time", "anchors": ["client.go:Read", "protocol/action_003_process.go:ParseProcessResponse", "protocol/error.go:ParseErrorResponse"]}
{"id": "C174", "title": "A Read that timed out can be repeated", "statement": "A client whose Read fails because the read timeout passed can call Read again and gets the reply then, as with any net.Conn.", "quantifier": "all replies, arrival times and numbers of repetitions", "why_tests_cant": "how much of a reply arrives before a deadline is up to the network", "anchors": ["client.go:Read", "protocol/response.go:ParseResponseCommon", "protocol/action_003_process.go:ParseProcessResponse", "protocol/error.go:ParseErrorResponse"]}
{"id": "C175", "title": "A UDP server does not amplify", "statement": "To whoever a datagram claims to come from, a UDP server sends no more octets than the datagram had, unless the sender showed that it can read what is sent there (a session).", "quantifier": "all datagrams, source addresses, keys and environments", "why_tests_cant": "a test sends requests from the address that gets the answers, and looks at the contents of the answers only", "anchors": ["server.go:handlePacketConnection", "internal/server/action_fetch_key.go:fetchKeyHandler", "protocol/action_004_fetch_key.go:FetchKeyResponse.Bytes"]}
{"id": "C176", "title": "A key published in DNS is enough", "statement": "A server publishes its key as a DNSKEY record of its name, in a signed zone; then a client with the default configuration dials and talks to it.", "quantifier": "all keys, zones, orders of the records, messages and schedules of a server that serves others", "why_tests_cant": "a test of the fetcher has one record and no server behind it; the order of the records is up to the resolver", "anchors": ["README.md:Quick start", "client.go:handshake", "key/client_fetcher.go:ClientFetcherDNSKEY.Fetch", "internal/dns/doh/doh.go:RetrievePublicKey", "internal/dns/dnssec/dnssec.go:BuildDNSKEY"]}
{"id": "C177", "title": "A Write that failed can be repeated", "statement": "After Write reported an error (say a timeout set with SetWriteDeadline) the application can call Write again on the same client: the repeated message is handled and Read returns its reply.", "quantifier": "Every session, counter, message and number of octets the connection took of each request; for the partial claim every sequence of messages and every pattern of Writes that fail without sending anything.", "why_tests_cant": "A test has to make the kernel accept part of a frame; which octets the server takes for the rest of it depends on the cut, the messages and the ciphertexts.", "anchors": ["client.go:389-416", "client.go:445-480", "server.go:186-234", "protocol/action_003_process.go:68-120"]}
{"id": "C178", "title": "A client can be used after a pause", "statement": "As long as a client is open it can be used, however long the pauses between its messages.", "quantifier": "Every session, time to live, sequence of messages with any pauses, and every pattern of collections and Loads between them.", "why_tests_cant": "The failure needs a pause longer than the TTL (15 minutes by default) and a collection in it; a test with fake times says nothing about other patterns.", "anchors": ["secret/secret.go:126-180", "server.go:105-131", "internal/server/action_process.go:70-105", "client.go:389-416"]}
{"id": "C179", "title": "A request repeated over UDP is handled once", "statement": "An application on UDP that repeats Write and Read until Read succeeds gets the reply, and the handler handles the message once.", "quantifier": "Every session, message, handler and pattern of lost requests and lost replies, of any length.", "why_tests_cant": "The number of patterns of losses is unbounded, and a test on the loopback interface loses nothing.", "anchors": ["internal/net/udp.go:UDPConn.Read", "internal/net/udp.go:UDPConn.Write", "client.go:Client.Read", "client.go:Client.Write", "internal/server/action_process.go"]}
{"id": "C180", "title": "The handler is told the address of the client", "statement": "The remoteAddr a handler is given is the address of the client that wrote the message, and the reply goes there.", "quantifier": "Every session, message, handler, pair of addresses of one host, and state of server and sockets; for the partial claim every datagram.", "why_tests_cant": "A test sends from the client's own socket; a request sent on from another port needs an observer on the network, and the claim is about every state.", "anchors": ["server.go:20-22", "internal/server/action_process.go:169-176", "internal/net/udp.go:77-111", "internal/server/action_process.go:43-60"]}
{"id": "C181", "title": "A handshake over UDP survives duplicated datagrams", "statement": "When the network delivers the Setup request of a client over UDP more than once, and nobody attacks, the handshake still leaves client and server with one session that works.", "quantifier": "Every crypto satisfying the laws, key pair and id of the client, state of the server, number of copies above one, late answers, and sequence of messages; for the partial claim every number of copies.", "why_tests_cant": "A test on the loopback interface sees no duplicates, and that no later exchange ever recovers is a claim about every continuation.", "anchors": ["internal/server/action_setup.go", "server.go:Server.handlePacketConnection", "client.go:handshake", "client.go:Client.Read", "internal/net/udp.go"]}
{"id": "C182", "title": "Several goroutines can read from one client", "statement": "Client implements net.Conn, so several goroutines may call Read on one client at the same time: a reply that arrived is returned by one of them, and every octet once.", "quantifier": "Every session, reply, counter from 1 to 2^23 - 1, octets behind the reply and sizes of the buffers; for the partial claim every number of goroutines, order and stream.", "why_tests_cant": "The harm needs one goroutine to be overtaken by another between two reads of the connection; the race detector reports the race but not what becomes of the replies.", "anchors": ["client.go:42-43", "client.go:120", "client.go:Client.Read", "protocol/response.go:ParseResponseCommon", "protocol/error.go:ParseErrorResponse"]}
{"id": "C183", "title": "A client keeps its session when its address changes", "statement": "A client over UDP whose datagrams reach the server from another address than before, because an address translator gave it another port or another public address, can continue its session; messages sent from other places in between do not disturb it.", "quantifier": "for all crypto providers satisfying the laws, all environments in which short datagrams are sent, all shared sessions, and all sequences of messages and source addresses", "why_tests_cant": "Tests run on the loopback interface, where the host never changes; no test can enumerate the sequences of addresses.", "anchors": ["internal/server/action_process.go:30-110", "internal/server/action_setup.go:59-120", "server.go:257-335", "internal/net/udp.go:34-60"]}
{"id": "C184", "title": "The reply is what the handler wrote", "statement": "A handler that reads the message in any pieces and writes the reply in any pieces sees the message from its beginning with io.EOF exactly at its end, and the client gets all it wrote, in order; nothing of it if the handler fails or no reply is wanted, which the handler cannot tell.", "quantifier": "for all handlers (as possibly infinite programs of Reads and Writes that end), all messages, server states, and conversations", "why_tests_cant": "A test runs particular handlers with particular buffer sizes on particular messages.", "anchors": ["server.go:19-31", "internal/server/action_process.go:169-201"]}
{"id": "C185", "title": "A client over UDP can be used after a restart of the server", "statement": "A client over UDP, which has no connection that could break, goes on after the server was restarted with the same key.", "quantifier": "for all sequences of messages and restarts, all sessions and server states, all keys and random values", "why_tests_cant": "A test restarts the server at one point and sends a few messages; it does not show what happens to all later ones.", "anchors": ["internal/server/action_process.go:30-110", "internal/server/action_setup.go:59-120", "server.go:257-335", "client.go:Write", "client.go:Read"]}
{"id": "C186", "title": "Dialling again on error 3 is a safe recovery", "statement": "A program over UDP that dials a new client and repeats the message whenever a Read returns error 3 gets the answer to every message, and every message is handled exactly once, in order, through any restarts, losses of sessions and changes of the program's own address; it dials at most once for each of these.", "quantifier": "for all sequences of messages, restarts, sets of dropped sessions and addresses, all keys and random values of the dials, all server states", "why_tests_cant": "A test restarts the server a few times; it does not show that no message is ever handled twice or lost.", "anchors": ["client.go:227-307", "client.go:Read", "client.go:Write", "internal/server/action_process.go:30-110", "internal/server/action_setup.go:16-165", "secret/secret.go:1-189"]}
