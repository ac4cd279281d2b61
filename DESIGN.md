# Formal model of mint in Rocq: design

The system is `bifurcation/mint` (a TLS 1.3 / DTLS 1.3 stack in Go), read as text in `/repo`.
The model is in Coq 8.16.1 under `rocq/theories`. Properties are in `properties.jsonl`; the
status of each, with theorem names, is in `MANIFEST.json`; tests of the theorems against wrong programs are
logged in `seeded/LOG.jsonl`.

## Trusted base

* The Coq 8.16.1 kernel (and `coqc`). No plugin, no switched-off check, no axiom of our own, no module type or functor.
* For each theorem, what `Print Assumptions` prints after it in the `Prop*.v` files: "Closed under the global context" for all of them.
  (The standard library loads a module type of its own, `Coq.ssr.ssrunder.Under_rel`, which tools that list every axiom in
  the environment report; no theorem uses it.)
* The transcription from Go to Gallina described below. Each definition cites the file and lines it transcribes.
* Cryptographic primitives and other external code (hash, HMAC, AEAD, elliptic curves, signatures,
  X.509, random source, clock, the application's callbacks) are *parameters*: fields of an explicit record (`prims`, `pki`,
  `aead`, `env`, `oracle`) or function arguments, never axioms. Any law assumed of them (e.g. "Open inverts Seal", "HMAC outputs have the
  size of the hash") is a visible hypothesis of the theorem that uses it, and an `Example` beside the theorem
  instantiates it with a concrete implementation (`Toy.v`).

## Modelling conventions

* A byte is `Byte.byte` of the standard library, `bytes := list byte`. Go `int` lengths are `nat` or `N`; wrap-around of
  fixed-width integers is modelled where it can occur (sequence numbers, ticket age, HKDF counter, `uint24` lengths).
* A Go call that can return an error, panic or not terminate is a function into
  `res A := Ok a | Err e | Panic | Fuel`. `Panic` is a Go runtime panic (index out of range, nil dereference, ...)
  as opposed to an error return; `Fuel` is exhaustion of the explicit fuel argument used for loops without
  a structural bound. Theorems speak about `Ok`, `Err` and `Panic` separately.
* Objects with methods become a state record and functions `state -> input -> state * res output`; the state after a failing call is kept,
  as it is in Go.
* A transport is a list of chunks, each the result of one `Read`; the end of the list is "would block"
  (`AlertWouldBlock`) or the end of the stream. What is written is a list of packets.
* Randomness, time and the answers of callbacks come from one `oracle` record per step; a theorem quantifies over all of them.
* Slices are lists. Where aliasing of a backing array matters (`timer.go`) the array is explicit. The `Config` shared
  by connections is part of the state (`w_cfg`), so changes to it are visible (C55).
* Concurrency: each API call is one atomic step of a state machine, except in `Threads.v` (C72), where calls that share the output layer are cut at their accesses to
  the key, the sequence number and the connection, in a sequentially consistent memory. Races on other fields are not modelled. In `Locks.v` (C74) a call is the sequence of
  its lock operations, waits for the transport and other steps; in `Limit.v` (C75) the caller of `DialWithDialer`, its timer and its goroutine are cut at the channel.

## What is modelled

| File of /repo | Model |
|---|---|
| `syntax/encode.go`, `syntax/decode.go`, `syntax/tags.go` | `Syntax.v`: types, values, parsed tags; encoder and decoder. `Tags.v`: parsing of tag strings |
| `frame-reader.go` | `Frame.v` |
| `record-layer.go` | `Record.v` |
| `handshake-layer.go`, `dtls.go` | `Handshake.v` |
| `timer.go` | `Timer.v` |
| `extensions.go`, `handshake-messages.go` | `Messages.v` |
| `crypto.go`, `ffdhe.go` | `Crypto.v` (key shares, HKDF, keys), `Pki.v` (signatures, certificates) |
| `negotiation.go` | `Negotiation.v` |
| `cookie-protector.go`, the cookie in `server-state-machine.go` | `Cookie.v` |
| `state-machine.go` | `Machine.v` |
| `client-state-machine.go` | `Client.v` |
| `server-state-machine.go` | `Server.v` |
| `conn.go` | `Conn.v` |
| `tls.go` | `Dial.v` |
| the locks of `conn.go` and `record-layer.go` | `Threads.v`: goroutines that share an output layer; `Locks.v`: the locks that all calls take and drop |
| the time limit of `DialWithDialer` in `tls.go` | `Limit.v`: the caller, the timer, the goroutine of the handshake and their channel |
| `Write` and `WriteRecord` over a transport that fails | `Faulty.v`: the functions of `Record.v` and `Conn.v`, with a fate for each record |
| `alert.go`, `common.go` | constants, where they are used |

Not modelled: the sockets under `tls.go`, `log.go` and all logging, the printing functions
`String`/`label`, deadlines and addresses of `net.Conn`, `newSigningKey` and the making of self-signed certificates
(test helpers over `crypto/x509`), Go's reflection
caches. `handshake-layer.go:sendAlert` and `PreSharedKeyExtension.HasIdentity` are not called by the code and are left out.

Simplifications, each also said in the comment of its definition:

* `Conn.Read`/`Write`/`Handshake` are atomic; a blocking transport is one that always has a chunk ready. A blocking `Handshake` that waits
  is modelled by a call that has used up its turns (`Fuel`) and is taken up again by another call.
* `time.Now` called twice within one function gives one answer.
* The outcome of a `rand.Read` is an oracle's answer of arbitrary length or an error; `rand.Prime`/`rand.Int` and elliptic-curve
  generation give an arbitrary private key.
* The state of a running hash is the bytes hashed so far.
* `ExtensionHandler`, `AuthCertificate`, `CookieHandler`, `PSKs` with user-written methods: the handlers are functions of the oracle; the PSK cache is the
  map that `conn.go` provides.
* ChaCha20 and other suites are not in `cipherSuiteMap`; only the two AES-GCM suites of the code exist in the model.

## Specifications

Short and separate from the model: `SyntaxSpec`, `TagSpec` (what a tag says), `RecordSpec`, `HandshakeSpec`, `DtlsSpec`, `MessageSpec` (RFC 8446 wire formats),
`CryptoSpec` (RFC 5869, HkdfLabel), `NegotiationSpec`, `SigSpec`, `ConnSpec` (API histories), `RunSpec` (transcripts, key schedule), `SessionSpec`
(what a completed handshake consists of), `ChannelSpec` (two ends and the bytes between them),
`AgreeSpec` (agreement of two ends), `JointSpec` (two ends from their first call on), `CrashSpec` (the states a panic leaves behind).

Histories. `api` is a call of the public interface together with what the network and the random source do; `used E c0 c` says that `c`
arises from the new connection `c0` by any calls with any results. `steady E c0 evs c` is the same with a log of
the messages read and written, for histories in which no call of `Handshake` returned a failure (a blocking call may be still waiting: `blocked`). C39-C43 are
about steady histories, because the code lets a failed handshake be continued (C43_stops_refuted, C50_refuted).

## Per property

"Refuted" means that the full statement is false of the code: a theorem `..._refuted` gives a witness checked by the kernel, and the
strongest positive statement we have is beside it.

| Id | Modelled | How proved | State |
|----|----------|-----------|-------|
| C01-C03 | the types `syntax` accepts, encoder and decoder | mutual induction over types; an arithmetic specification of limits | proved (narrow varints refuted) |
| C04 | `writeVarint`/`readVarint` | arithmetic | proved |
| C05 | `mapEncoder` with its sort | uniqueness of sorted lists under permutation | proved |
| C06 | decoder with explicit `Panic` | induction | optional pointers refuted; rest proved |
| C07 | decoder with fuel | measure | empty elements refuted; rest proved |
| C08 | decoder then encoder | induction | varints and maps refuted; rest proved |
| C09 | `frameReader` in the record layer | refinement to a parser of the concatenation | proved |
| C10 | record write and read, TLS and DTLS | both sequence numbers stay equal | proved |
| C11 | write path with failures | monotone numbers, xor is injective | proved |
| C12 | `nextRecord` | induction over the forgeries | proved |
| C13 | `decrypt` | characterisation | zero plaintext refuted; rest proved |
| C14 | `writeRecordWithPadding` | calculation | refuted near the limit; exact bound proved |
| C15 | old epochs | witness | refuted; clear epoch proved |
| C16, C56 | TLS handshake layer | induction and C09 | C16 proved; C56 refuted at the default size |
| C17-C20 | DTLS fragment queue | invariants on the queue | C18 proved; others refuted with positive parts |
| C21, C22 | ACKs, retransmission | induction over histories | C22 proved; C21 refuted across key changes |
| C23 | `timerSet` with its backing array | invariants | `check` refuted; order, no early or double firing proved |
| C24-C28, C58, C59 | `negotiation.go` | induction over lists | proved, but C26 (age wraps), C27, C28 (expiry never checked) |
| C29-C31, C57, C61 | messages and extensions | instances of C01, wire formats of the RFC | proved but for the listed witnesses |
| C32-C34 | HKDF, finite-field groups | lists, modular arithmetic | proved |
| C35 | two steady histories that see each other's messages (`AgreeSpec.delivered`) | key schedules over equal transcripts (`AgreeSpec.agree`), alignment of the two message sequences by type; invariant on the keys in the record layers (`KeyProofs`) | proved |
| C36, C47, C63 | two new ends, any calls at both, two byte streams (`JointSpec.session`) | invariant `JointProofs.phase` (hello, flight, keys, client complete, `linked`) by induction over sessions; `ChannelProofs` for the part after both are complete | proved for TLS without early data |
| C37 | tickets | round trip and key schedule, C35 | proved |
| C38 | `ComputeExporter` | calculation | refuted for non-empty contexts |
| C39-C44, C46 | state machines over all steady histories | paths of the machine, transcript invariant | C39, C41, C44 proved; C40, C42, C43, C46 refuted in corner cases, rest proved |
| C45 | handshake with explicit `Panic` | witnesses; the causes of any panic (`CrashSpec`) | refuted five ways; no others (C64) |
| C64 | all calls over a stream, any history | invariant `CrashProofs5.cok` with `ConnProofs.inv`; every step of both machines walked once for panics (`CrashProofs3`) | proved for TLS |
| C48-C50, C53, C54 | `Conn` | invariants over `used` | C53 proved; others refuted with positive parts |
| C51, C52, C55 | `Config` | calculation, invariants | C52 proved; others refuted with positive parts |
| C60 | CertificateVerify | calculation | clients refuted; server proved |
| C65 | `parseTag` on strings; the tags of all message types | splitting is inverse to joining; calculation | tags and types proved; the consistency check refuted for headers of one byte |
| C66 | `Dial`, `Listen`, `Accept` over blocking handshakes cut into rounds of input | invariant `ConnProofs.inv`, C40 | proved; networks udp4/udp6 and a nil configuration refuted |
| C67 | two ends over byte streams cut anywhere, any calls | the invariant of C35 (`JointProofs`) gives what each end reads; each step of both machines walked once for success on what the other end sends (`CompleteProofs`, `CompleteRun`) | proved; more schemes and longer chains refuted |
| C68 | the same, with no bytes under way | in each phase of the invariant of C35 one end is given a message whole, so that its call reads or sends one (`StallProofs`) | proved; failure that is not told refuted |
| C69 | the same, and rounds of delivery and calls that come back or wait | each round adds to the events (at most 14 before the end, `short`), or uses up input, or takes a step without a message (`LiveProofs`) | proved |
| C70 | the same; all calls of `Handshake` | every read, turn and flight of a sound end is calm: it panics only if a sequence number has run out (`CompleteProofs`, `CompleteJoint`) | proved |
| C71 | the same; states reached by any play | enough fuel makes every turn come back or stall (`read_more`, `read_quiet`), and every turn adds an event or a step (`GoProofs`); then C69's rank | proved |
| C72 | goroutines that share the output layer (`Threads.v`), cut at their accesses to shared memory; all schedules | invariant: the holder of the lock is part of the way through the serial run; for nonces, the sequence numbers of the serial run | proved for calls that hold the lock (`Write`) beside calls that leave the layer alone (`Read` of application data); refuted for `Write` beside a `Read` that answers a KeyUpdate, or `SendKeyUpdate` |
| C73 | two runs of `WriteRecordWithPadding` or `Write` from one state | relation between the two layers: same keys and sequence numbers, wires alike from outside | proved |
| C74 | the locks taken and dropped by all calls (`Locks.v`); all schedules | locks are ranked and taken in the order of their ranks; follow the holders of what is waited for | proved |
| C75 | `limitOf`, `happen`, `happens` (`Limit.v`); all orders of events | an invariant over events that counts what was sent and received; a measure that every event lowers | partial: `Deadline` = now means no limit (`_refuted`) |
| C76 | `writeRecordOver`, `writeOver` (`Faulty.v`); all failures | induction over the loop of `Write`; two runs side by side, one without failures | partial: a failed `Write` does not stop later ones (`_refuted`) |
| C62 | synthetic message after a HelloRetryRequest | calculation | refuted |

## What the model says about the code

Behaviour found while modelling that differs from RFC 8446 or from what a user expects. Those with a theorem are named.

*Connection.* `sendAlert` swaps level and description, `Close` sends no close_notify (C49). A peer alert with description 254 is taken for
"would block". `handshakeAlert` is never set, so a failed handshake can be continued and complete (C43_stops_refuted, C50_refuted).
Alerts returned by `state.Next` are not sent to the peer, which waits for ever (C68). `Write` holds the lock of the output layer, but `Read` (when it answers a KeyUpdate or
sends an alert) and `SendKeyUpdate` write records without it, so that two records can get one nonce (C72). A `Deadline` that is this very moment counts as no limit in `DialWithDialer`, even if `Timeout` is set (C75). `Write` goes on after a record that broke off, reporting success (C76). `Clone` omits `RecordLayer` (C51). A HelloRetryRequest
narrows the `CipherSuites` of the shared `Config`; a server stores a `CookieProtector` in it (C55). If the ticket of a completed
handshake cannot be sent, `Handshake` fails although the connection is complete, and early data is lost (C54). `Write` of a buffer whose protected
form exceeds 2^14 fails with nothing sent (C48). The same holds of handshake messages under a key: a
ticket that does not fit into one record cannot be sent, so that `Handshake` fails (hence `jo_tickets`).

*DTLS.* Old-epoch records are decrypted with the current key (C15). Fragments of messages with equal lengths are mixed (C17). Overlong fragments and
short alerts panic (C20). ACKs count across key changes (C21). `timerSet.check` drops timers (C23). A server's HelloRetryRequest panics
(version 0), and so does its first malformed datagram.

*Negotiation.* With a PSK the suite may be one the server does not support (C24). A server leaves the session id out of the hello
whose binder it checks (C26), so that resumption by clients that send one fails. Ticket ages wrap (C26), expiry is never checked (C28). A server takes the first signature scheme of the kind of its
key, whatever the curve, so that offering more schemes can make it fail; a Certificate longer than 16363 bytes cannot be sent (C67).

*Cryptography.* The exporter uses `context || Hash("")` in place of `Hash(context)` (C38). The synthetic message_hash has length 0 (C62). Points off the curve
panic (C45). PKCS#1 signatures are accepted in CertificateVerify and clients sign with the server's context string (C60). Key updates use the
labels "c ap traffic"/"s ap traffic" in place of "traffic upd"; both ends of mint do, so C36 holds.

*Client.* Accepts `pre_shared_key` it did not offer, with keys anyone can derive (C40_refuted). Accepts a ServerHello with neither PSK nor key share. Answers any number of
HelloRetryRequests (C46). An empty server Certificate panics (C45). Protocol and early data in EncryptedExtensions are not compared with the offer.

*Server.* `RequireClientAuth` is satisfied by an empty Certificate, and not asked with a PSK (C42). A cookie without protector panics (C45). A PSK with a HelloRetryRequest
fails, as the two ends use different binder contexts. The client's chain is never verified.

*Decoding.* server_name entries after the first are ignored (C61). A ClientHello's session id is not written back (C30). An optional pointer at the end of
input panics (C06); a vector of empty elements loops (C07).
