# Model of goe2ee in Rocq: design

The code under study is `/repo` (Go, `github.com/rafaeljusto/goe2ee/v2`). It is
read as text only; it is neither built nor run. Everything below lives in
`rocq/theories` (logical prefix `Verif`).

## Method

* **Model files** contain definitions only, each citing file and lines in `/repo`.
* **Spec files** (`Spec*.v`) state what is expected without using the model's
  helpers (for example the replay filter as a set of accepted counters).
* **Proof files** (`*Proofs.v`) contain lemmas.
* **Property files** (`P_*.v`) contain only the property theorems, each closed by
  `exact`, with a concrete example meeting the hypotheses beside it and
  `Print Assumptions` beneath.

A property the code violates is stated as the user relies on it and proved
false: `…_refuted`. Where a weaker part is true, it is proved as `…_partial`.

## Modelling decisions

* Bytes are `Byte.byte`; integers are `N`/`Z` with explicit wrap-around
  (`mod 2^8`, `mod 2^64`) where Go would wrap.
* A parser (`binary.Read`, `io.Copy` over `io.LimitReader`, `make`) is a value of
  a small free monad (`Parser.v`). It is written once, following the Go text, and
  interpreted over a flat stream, over arbitrary TCP segmentations and over UDP
  datagrams.
* Server and client procedures are programs of free monads whose operations are
  the effects visible to other goroutines or to the network (reads, writes,
  secret-manager calls, `CheckAndUpdate`, the user handler, signing, the atomic
  counter). The same program is interpreted (a) sequentially, and (b) one effect
  at a time in a pool of goroutines with an adversarial scheduler, network,
  handler and secret manager.
* Cryptography is a record of functions together with a record of laws
  (decryption inverts encryption, X25519 commutes, verification accepts
  signatures, lengths). No injectivity or unforgeability is assumed: where a
  property needs it, the conclusion is a disjunction exhibiting the collision or
  the forgery. A toy instance satisfying all laws is given so no theorem is
  vacuous.
* Time is explicit: nanoseconds supplied by the history, or a clock advanced by
  arbitrary delays.

## Files

| model | code | simplifications (also stated at the head of the file) |
|---|---|---|
| `Bytes`, `Parser` | `binary.Read`, `io.Copy` of an `io.LimitReader`, `make` | a read returns exact octets, or the error that ended the stream |
| `Wire` | `protocol/*.go` | text of errors |
| `Crypto`, `Kdf` | `crypto/*`, `internal/kdf/kdf.go` | primitives are parameters with laws; HKDF itself is modelled |
| `Replay`, `ReplayConc` | `secret/secret.go` 16-97 | `ReplayConc` cuts `CheckAndUpdate` into single memory accesses |
| `SecretMgr` | `secret/secret.go` 99-189 | each `sync.Map` operation is atomic; a `Range` may see any mixture |
| `Server`, `ServerSeq`, `Conc` | `internal/server/*.go`, request loop of `server.go` | logging; the text of errors; `Conc` forgets the order of requests of one connection (only adds behaviours) |
| `Keys` | `key/key.go`, `key/server_manager.go` | key generation, PEM |
| `Client`, `ClientSeq`, `ClientConc` | `client.go`, `internal/client/uuid.go` | name resolution and dialling; fields of one client shared by goroutines are read and written in single steps |
| `Dnssec`, `Base64` | `internal/dns/dnssec/dnssec.go`, `internal/dns/doh/doh.go` | HTTP and JSON: their outcomes are inputs |
| `KeyCache` | `key/client_fetcher.go` 293-385 | the clock is monotonic |
| `Pool` | `client_pool.go` | the counter does not wrap; reads and writes of borrowers are arbitrary changes of the buffer |
| `Udp` | `internal/net/udp.go` and its uses | sending is all or nothing; `SpecUdp`, `UdpProofs`, `UdpThms`, `P_Udp`; losses: `SpecUdpLoss`, `UdpLoss`, `P_UdpLoss`; copies: `SpecUdpDup`, `UdpDup`, `P_UdpDup`; no replies: `UdpSend`, `P_UdpSend`, `AmplifyProofs`, `P_Amplify` |
| `Life` | `server.go` Start, Close and loops; `sync.WaitGroup` | reading and handling a request are single steps; requests in progress, the UDP port and the end of connections: `LifeDrain`, `LifeWind`, `P_Drain` |
| `Usage` | callers of a client: `io.ReadAll`, `io.ReadFull`, `io.Copy` (Go's io package), `ClientFetcherProtocol.Fetch` in `key/client_fetcher.go` | dialling of the fetcher's connection |
| `Resources` | dialling (`client.go`, `client_pool.go`, `key/client_fetcher.go`), constructors and `Close` of server and secret manager | the handshake is one step; closing a socket always releases it |
| `Hostport` | `net.SplitHostPort`/`JoinHostPort` and address texts as used by `client.go:228`, `action_setup.go:59`, `action_process.go:33`; `ClientFetcherTLS.Fetch`; `ParseClientFetcherPEM`; `ServerManagerParsePEM`, `ServerManagerGenerateOnTheFly` | the TLS handshake with its chain verification, PEM and PKCS #8 decoding, key generation and the text of an IP are answers of the environment |
| `Timed` | deadlines in `server.go`, `client.go`, `client_pool.go` | a blocking Write is an answer of the environment; `TimedProofs`, `TimedClient`, `TimedArrival`, `StallProofs`, `SpecRetry`, `RetryProofs`, `P_Timed`, `P_Stall`, `P_Retry` |
| `MultiConn` | `server.go` 174-335 (goroutines), `secret/secret.go` 126-158 (entries disappear) | any number of connections and datagrams run by the interpreter of `ServerSeq`, one effect at a time, in any order; `SpecMulti`, `MultiProofs` (simulation up to the identity of sessions), `MultiSeq` (relation to sequential runs), `ServerPanic` (where panics come from), `MultiExamples`, `P_Multi` |
| `System` | `client.go` 140-153, 227-416 beside `server.go` 174-233 | a client program, its connection to the server and all other connections of `MultiConn`, one effect at a time in any order; reads wait for their octets; `SpecSystem`, `Kahn` (steps of two parties in any order lead to the same end), `Duo`, `DuoRun`, `DuoTalk` (the two parties alone), `SystemSim` (the others make no difference), `SystemProofs`, `SystemExamples`, `P_System` |
| `QuickStart` | `README.md` quick start, `key/client_fetcher.go` 186-252 | Write and io.ReadAll for every message, after a fetch over the protocol on a connection of its own; `QuickProofs`, `QuickExamples`, `P_QuickStart`; over UDP `UdpQuick`, `UdpQuickExamples`, `P_UdpQuick` |
| `Production` | the default key fetcher (`client.go` 52-65, `key/client_fetcher.go` 79-88) in a handshake | the answer of the provider is an input, as in `Dnssec`; `ProductionProofs`, `ProductionExamples`, `P_Production` |
| `SpecAgain` | an application that goes on after a failed Write (`client.go` 389-416) | `AgainProofs` |
| `Aging` | `server.go` 108 with `secret/secret.go` 126-180: the server's Loads and Stores done by the in-memory manager, collections between messages | a request takes no time (collections during a request are in C25, C26); no other client sets up a session meanwhile; `SpecAging`, `AgingProofs`, `AgingExamples` |
| `SpecInsist` | an application's loop of Write and Read over `client.go` 389-480 and `internal/net/udp.go`, ended by the first Read that succeeds | datagrams are lost but neither duplicated nor delayed (C161 has duplicates); `InsistProofs` |
| `RemoteAddr` | `action_process.go` 176 and `internal/net/udp.go` 109-111: the address each call of the handler is given over UDP | the handler's result does not depend on the address; over TCP the address is the connection's; `RemoteAddrProofs` |
| `SetupTwiceProofs`, `SetupDialProofs`, `SetupTwiceExamples` | no new definitions of the program: the Setup exchange over UDP run on any number of copies of one request (`serve_setups`), and a client that took the first answer (`never_again`) | in `setup_twice` the client's handshake is represented by the session it ends with, in `dial_then_nothing` it is run; an example server that draws a new key pair each time |
| `SpecReaders` | several goroutines with programs on one client and one connection, in any order, effect by effect (`turns`), as in `client.go` 309-387 without a lock | the buffer is read and written in single steps (a data race on bytes.Buffer is taken to do no worse); io.ReadFull and io.Copy are one step each, so real interleavings are finer; `ReadersProofs` |
| `SpecRoam`, `RoamProofs` | a conversation over UDP in which the server sees each request come from an address of its own (`roam`), as behind an address translator | client.go:310-416, server.go:257-335, action_process.go:30-201: the functions of `Client`, `Udp` and `Server` unchanged; every datagram arrives |
| `Handler` | server.go 19-31, action_process.go 169-201: the handler as a program that reads from one bytes.Buffer and writes to another or to io.Discard; coinductive, run with fuel (`hrun`, `runs`) | the standard library's `bytes.Buffer.Read`/`Write` are written out; the handler uses reader and writer through these two methods only and not after it returned; `SpecHandler`, `HandlerProofs`, `HandlerUdp`, `HandlerExamples` |
| `SpecRestart` | a restart of the server over UDP: a new process with no session on the same port; scripts of messages and restarts (`restarts`) | the datagrams on their way at the restart are lost; `RestartProofs` |
| `SpecPersist` | a program that dials a new client when a Read returns error 3 and repeats the message (`persist`), with restarts and dropped sessions between the messages | the program is ours, the client and the server are the modelled ones; a dial is run twice, first to see what it sends (nothing it sends depends on what it reads); `PersistProofs`, `PersistExamples` |
| `SpecWander` | the same program whose address changes as well (`wander`) | a move falls between exchanges; `WanderProofs`, `WanderExamples` |
| `Team` | `client_pool.go` 42-96, `client.go` 112-117, 310-416 beside `server.go` 174-233 | any number of clients with one session and counter, each on a connection of its own, and all other connections of `MultiConn`, one effect at a time in any order; the handshake is over; `SpecTeam`, `ODuo`, `ODuoRun` (one client and its connection, with the counter and the replay filter answered from outside), `TeamProofs` (all of them), `TeamExamples`, `P_Team` |
| `UdpSystem` | `internal/net/udp.go`, `server.go` 257-335 beside `client.go` 227-416 | a client program on its UDP socket, the server's socket, the receiving loop and one goroutine per datagram, of the client and of others, one effect at a time in any order; a read of the client waits for a datagram; datagrams are neither lost nor reordered and those above 65507 octets fail; `SpecUdpSystem`, `UdpDuo` (client and its goroutines alone), `UdpTalk` (they finish), `UdpSim` (the others make no difference), `UdpSysProofs`, `UdpSysExamples`, `P_UdpSystem`; `SpecUdpLoss`, `UdpLoss`, `P_UdpLoss` (either direction loses datagrams, `Udp.v` on both sides) |
| `Writers` | `client.go` 389-416 | one client, any number of goroutines that write, taking turns at every effect, over TCP; a Write of the connection is one step because the net package serialises them; data races on the fields do no worse than single steps |
| `Duplex` | `client.go` 42-43, 310-416, `internal/net/udp.go` 52-87 | one client, a reading and a writing goroutine that take turns at every effect, a server that answers in order, octets that arrive in pieces; over TCP and over UDP; data races on the fields do no worse than single steps; io.ReadFull over UDP is one step; deadlines do not expire; `SpecDuplex`, `DuplexProofs`, `DuplexExamples`, `P_Duplex` |
| `Dolev` | `client.go` 227-416, `internal/server/action_setup.go` 16-165, `action_process.go` 16-202 | the protocol in terms instead of octets: perfect cryptography (Dolev-Yao), any number of clients, servers and sessions, an attacker who is the network, makes sessions of their own and gets signing keys. Encodings and the transcript are pairs (C12, C42), every counter is used once by a client (C15) and a session (C19): premises of the steps, not proved again here. Every point has a shared secret, sessions never expire, the choice of the hash by the response is left out, clients of a pool are one client; `SpecDolev`, `DolevProofs`, `DolevExamples` |
| `Registry` | `examples/chat/cmd/registry/main.go` 51-128 | any number of HTTP requests interleaved, with `sync.Map` modelled by its documentation; `SpecRegistry`, `RegistryProofs`, `RegistryIntro`, `RegistryLeave`, `RegistryTruth`, `RegistryExec` (runs a schedule), `P_Chat` |
| `ChatUser` | `examples/chat/cmd/user/main.go` 151-311, `examples/chat/registry.go` 43-48 | critical sections are steps; URLs as far as names matter; `SpecChat`, `ChatUserProofs`, `ChatUrl`, `ChatExamples` |
| `UdpDeadline` | the write deadline that all goroutines of a UDP listener share (`server.go` 257-335) | every request has an answer; `WriteTo` fails only because of the deadline |

`Spec*.v` hold the vocabulary of statements, `*Proofs.v`, `*Props*.v`, `*Thms.v`,
`*Inv.v`, `LifeWait.v`, `WireSeq.v`, `WireExtra.v`, `ServerForge.v`,
`Agreement.v` the lemmas, `*Examples.v`, `PoolExec.v`, `Toy.v` concrete values for
examples, `P_*.v` the property theorems.

## Trusted base

* Coq 8.16.1: its kernel, including the virtual machine used by `vm_compute`.
  The options of `_CoqProject` are the given ones; no check is switched off, no plugin is used.
* `Print Assumptions` is run beneath every property theorem in `P_*.v`. Every one
  of them answers "Closed under the global context": no axiom is used, neither
  own nor of the standard library. (Loading `lia` brings in the library file
  `Coq.ssr.ssrunder`, whose module type contains declarations that a scan of the
  whole environment lists as axioms, `Coq.ssr.ssrunder.Under_rel.*`; no theorem
  depends on them.)
* That the definitions say what the Go text says. Each definition cites its
  lines; the table above lists what was left out.
* For the Go runtime: `sync.Mutex`, `sync.Map`, `atomic.Uint64`, channels and
  `sync.WaitGroup` behave as documented (the WaitGroup as in the runtime's
  source); executions are sequentially consistent at the level of the listed
  steps.
* Cryptographic laws are hypotheses (`CryptoLaws C`) of the theorems that need
  them, not axioms; `toy_laws` shows that they can be met.

## Testing the theorems

`seeded/LOG.jsonl` lists wrong versions of the model: for each the definition
and edit, the claim that becomes false, the theorems that no longer prove, and
what was tightened where none did. `failed_lemmas` are the lemmas whose proof
scripts stopped working (a failing lemma was admitted in the scratch copy to see
which others fail), `failed_theorems` the property theorems that rest on them;
a script may also fail on an edit that leaves the statement true. For an edit of
a step relation that has an executable copy (`PoolExec.pdo`) both have to be
edited: otherwise only the lemma that relates them fails, which tells nothing
about the claim. The entries P12 to P16, PT01 and PT05 were made that way.

## Property by property

| property | model | how |
|---|---|---|
| C01–C07 | `Wire.v` codecs | round-trip, all trailing streams; C05 refuted for the empty signature |
| C08 | `Parser.v` | one theorem about every parser of the monad |
| C09, C10 | `Wire.v` | allocation trace of every run; C10 refuted |
| C11 | `Parser.v` | simulation between chunked and flat interpreter |
| C12, C13 | `Wire.v` | from round-trip; layout against an independent field list; deviations refuted |
| C14 | `Wire.v` | injectivity for all sizes >= 9 |
| C15, C16 | `Client.v`, `Conc.v` | invariant over all interleavings; C16 refuted |
| C17, C29, C30, C48 | `Server.v`, `Conc.v` | invariants over all interleavings with adversarial network |
| C18–C22 | `Replay.v` | refinement to the set of accepted counters; C21 refuted; C22 on a lock-level step model |
| C23–C26 | `SecretMgr.v` | refinement to a map with last-access times; races refuted on an atomic-access step model |
| C27, C28, C31–C41 | `Server.v` | functional correctness of the handlers over all states; C32, C35, C39, C40 refuted |
| C42–C50 | `Client.v` | handshake and Read/Write; C44, C47, C49, C50 refuted |
| C51–C54 | `Keys.v`, `Dnssec.v` | functional; C53 refuted |
| C55, C79 | `KeyCache.v` | invariants over all interleavings with the collector; C79 refuted |
| C56, C57 | `Kdf.v`, `Client.v` | functional |
| C58–C63, C80–C83, C97, C148, C152 | `Pool.v`, `Timed.v` | step model of the mutex, the unbuffered channel and the idle list; C59–C63, C81, C97 refuted in part |
| C64, C65, C84–C86 | `Udp.v` | datagram interpreter of the same programs; C65, C84, C86 refuted |
| C66, C67, C87–C89, C92–C95 | `Life.v` | step model of quit channel, WaitGroup, accept loop; C67, C88, C89, C92, C95 refuted |
| C68, C90, C91, C96, C98, C149 | `Timed.v` | interpreter with clock and deadlines; all but C96 and C149 refuted, with the true part of C68 |
| C69, C70 | `Conc.v` | invariants over all interleavings with adversarial network |
| C71–C76 | `ClientConc.v`, `ClientSeq.v` | C72 over all interleavings; the others refuted |
| C77, C78 | `Dnssec.v` | C78 for all strings; C77 refuted |
| C99, C100, C106 | `Usage.v` | io.ReadAll, io.ReadFull, io.Copy and the protocol fetcher as programs over Read and Write; C100 refuted |
| C101–C105, C107, C108 | `Server.v`, `Client.v`, `ClientConc.v` | simulation between runs that differ in reserved bits (C101), induction over connections (C102), constructed schedules (C103, C104); C103–C105, C107, C108 refuted, with the true parts of C103 and C107 |
| C109, C110 | `Timed.v`, `Server.v` | composition of server and client runs (C109), induction over programs (C110) |
| C111, C112 | `Conc.v`, `ClientConc.v` | the invariants of both sides combined: every handler call and every accepted reply is traced to one Write |
| C113–C115 | `ServerSeq.v`, `Pool.v`, `SpecE2E.v` | runs of a closing connection (C113), an invariant on sessions over all interleavings of a pool (C114), induction over exchanges with a server that lost the session (C115, refuted) |
| C116 | `Server.v` | a request that parses has the published layout, for all octet strings |
| C117–C121 | `Resources.v` | ledger of sockets and goroutines over all outcomes of every call; all but C118 refuted, with the true parts of C117, C119, C120 |
| C122–C126 | `Hostport.v` | exact characterisation of address splitting; TLS and file keys over all environments; C123 (IPv6), C125 (short RSA keys), C126 (X25519 files) refuted, with their true parts |
| C127, C128, C130 | `Client.v`, `Server.v`, `Timed.v` | executions for all messages above the limit and all handlers slower than the write timeout; all refuted, the true parts are C45 and C68 |
| C131–C134, C150 | `MultiConn.v` | for every schedule of single effects, simulation between the whole server and a part of it up to renaming of sessions; termination of a connection independent of the others; a panic answers one of the application's |
| C147 | `System.v` | confluence of client and connection, and simulation up to renaming of sessions to drop the others; a bound on the number of steps for all schedules |
| C151 | `UdpSystem.v` | as C147, with one goroutine per datagram: while one of the client is under way the client only waits; simulation up to renaming of sessions to drop the others |
| C153 | `Duplex.v` | weakest precondition of the reader over the rest of the stream, with what the writer guarantees of the last counter; progress and termination of every schedule; no answer is lost unless a later message was begun before its Read was over; refuted over UDP by a run |
| C154–C159 | `Dolev.v` | an upper bound of the attacker's knowledge (`pub`) that every rule keeps; every private key is made by one event; C158 refuted by a run |
| C160 | `Udp.v` | induction on the rounds: a Read without a datagram leaves the connection as it was, and gaps in the counters are accepted |
| C161 | `Udp.v` | refuted for every session: each answer is one exchange late from the first copy on; induction on the rounds over what is left in the client's queue |
| C162 | `Udp.v` | refuted by two datagrams that change places; induction on the arrivals against the filter of C19 |
| C163, C164, C166 | `Life.v`, `Udp.v` | C163 refuted for UDP from any state with a waiting listener, invariant over all schedules for TCP; C164 and C166 by a measure of the listener and of the connection |
| C167 | `Writers.v`, `ServerSeq.v` | what each goroutine has left to do, with the counter it holds, as a weakest precondition; a ghost log of what was sent, invariant over all schedules, measure for termination; the server over the resulting stream by induction; refuted for every session: any 64 messages may overtake one |
| C168 | `KeyCache.v` | invariant over all schedules from the change of the key on: every entry is new or was stored before; refuted by a run for every TTL and delay |
| C169 | `Dnssec.v` | from the exact meaning of a record (C53) and the selection (C54): any usable record can be first; all orders if they hold one key |
| C170 | `QuickStart.v`, `System.v` | as C147, for the fetch over the protocol (which uses no entry of the secret manager, so no condition on the others) and for Write and io.ReadAll |
| C171 | `QuickStart.v`, `UdpSystem.v` | as C170 and C151: the same over UDP, where nothing is lost and every message and reply fits a datagram |
| C172 | `Timed.v` | refuted without a write timeout below the read timeout: after a read timeout inside a request the server goes on and reads the rest as requests; partial: otherwise an iteration does what it would do without deadlines, or changes nothing (induction over programs that read first, then work, then write) |
| C173 | `Timed.v` | induction over programs that read first: same result as without deadlines, or an I/O error and nothing changed |
| C174 | `Timed.v` | refuted: induction over parsers that take a fixed octet string (cut at any octet, the rest stays in the stream); partial: induction over the Reads that time out |
| C175 | `Udp.v` | refuted: a one-octet fetch-key datagram symbolically executed; partial: weakest preconditions on the whole request handler with the length of what is written |
| C176 | `Production.v` | refuted: `C169` and the run of the handshake with the server's answer; partial: `C169_order_partial` and `C147` composed |
| C177 | `AgainProofs.v` | refuted: the cut frame and the beginning of the next parse as one request (`frame_graft`), then `C105`; partial: induction over the messages, a failed Write only skips a counter, the others are `C45`'s round |
| C178 | `AgingProofs.v` | the manager refines the server's map (`sim_run`, for every program); refuted: once collected the session is never found again; partial: induction over the messages, each Load restarts the TTL (`process_loads`), the rounds are `C45`'s |
| C179 | `InsistProofs.v` | induction over the attempts on C160's round (`lossy_round`); refuted: one call of the handler more for every reply lost; partial: answered exactly when an attempt got through, then handled at least once |
| C180 | `RemoteAddrProofs.v` | refuted with the client's own octets from another port of its host (`hijack`), on C160's and C161's exchanges; partial: every effect keeps the connection's address (`told_calls`), the handler comes after a Load under the host's name (`call_of_host`) |
| C181 | `SetupTwiceProofs.v`, `SetupDialProofs.v` | refuted for any number of copies above one, any late answers and any messages (`setup_twice`), by induction on the conversation (`never_again`): every Read gets the server's decryption error or a Setup answer it cannot parse; again with the client's handshake run on the first answer (`dial_then_nothing`); partial: no handler, the others' sessions, and the last answer gives `paired` (`setup_copies`) |
| C182 | `ReadersProofs.v` | refuted with a schedule for every reply (`reply_torn`: the second Read takes the counter for the length of an error text) and for every buffer (`buffered_twice`); partial: schedules in blocks are the Reads of one goroutine (`one_at_a_time`, by induction on the blocks) |
| C183 | `RoamProofs.v` | refuted for any number of messages from other hosts (`moved`); partial: for any sequence of messages and addresses, those from the old host are handled and answered, the others refused (`roaming`), by induction with `llinked` as invariant and the frame `lossy_serve_frame` for the other hosts |
| C184 | `Handler.v` | induction on the run of an arbitrary handler (`hrun_io`, `hrun_flag`), joined with C33's accepted request (`reply_written`) and C45's conversation (`handler_talk`) and C160's (`handler_udp_talk`); the copying loop by induction on the message (`echo_ends`) |
| C185 | `RestartProofs.v` | refuted for any sequence of messages and restarts (`restarted`): `llinked` until the first restart, `orphan` after it; partial: the handshake (`dial_once`) makes `llinked` again (`dial_again`) |
| C186 | `PersistProofs.v`, `WanderProofs.v` | induction over the incidents; between them the client is served (`llinked`) or unknown to the server (`orphan`); `redial_ok` from C185's `dial_once` and `dial_sends`; with a moving program the invariant `lives` also says that the ids of dials to come are unknown at every host of the script and that the current id is unknown away from its home |
| C165 | `Team.v` | for all answers of counter and filter, confluence of each client and its connection; an invariant over all schedules that ties the answers to the shared counter and window |
| C135–C141, C146 | `Registry.v`, `ChatUser.v` (URLs) | invariants over all interleavings of requests; C135, C139–C141 refuted, with the true parts |
| C142–C145 | `ChatUser.v` | invariant over all interleavings of notifications and messages; C142, C143, C145 refuted |
| C129 | `UdpDeadline.v` | refuted by an interleaving for every timeout; invariant over all prompt executions |

The true parts of the refuted C16, C21, C25, C26, C47, C50, C61, C67, C71, C73,
C74, C75, C76, C77, C79, C90, C91, C97, C98 and C104 are in `P_Partial.v`,
`P_Partial2.v` and `P_Partial3.v`; those of C62, C92, C108 and C121 in
`P_Partial4.v`, with lemmas in `PoolTidy.v`, `LifePort.v` and `SecretCount.v` and
vocabulary in `SpecPool.v`, `SpecLife.v` and `SpecSecretMgr.v`. The hypothesis
`tidy` of `C62_partial` speaks of the steps of borrowers only.

## Not modelled

Logging, DNS resolution, TLS and PEM parsing, `encoding/asn1`, the operating
system's sockets beyond "a read returns some bytes or an error, a write accepts
some prefix and may report an error", Go's memory model below the level of the
listed atomic steps, and the strength of the cryptographic primitives.
