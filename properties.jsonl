{"id": "C01", "title": "TLS syntax round trip", "statement": "Marshalling any value of any supported type that Marshal accepts, appending any bytes, and unmarshalling into the same type gives back an equal value and reports exactly the length of the marshalled bytes as consumed.", "quantifier": "for all supported types (unsigned integers, fixed arrays, length-prefixed slices, structs with field tags, maps, pointers and optionals), all values, all trailing byte strings", "why_tests_cant": "the type space is recursive and the value space unbounded; a test covers one hand-written struct at a time", "anchors": ["syntax/encode.go:Marshal", "syntax/decode.go:Unmarshal"]}
{"id": "C02", "title": "Unmarshal consumes a prefix", "statement": "A successful Unmarshal reports a count no larger than the input, and its result depends only on that many leading bytes: replacing or removing everything after them leaves value and count unchanged.", "quantifier": "for all types without a head=none field, all inputs, all replacement suffixes", "why_tests_cant": "non-interference over arbitrary suffixes is a relation between infinitely many runs", "anchors": ["syntax/decode.go:Unmarshal", "syntax/decode.go:decodeLength"]}
{"id": "C03", "title": "Vector length limits are enforced both ways", "statement": "Whenever Marshal or Unmarshal succeeds, every tagged vector in the value has an encoded size between its declared min and max and representable in its declared length header; a vector outside the limits makes both operations return an error rather than truncate.", "quantifier": "for all tags with a non-zero max, all values, all byte strings", "why_tests_cant": "boundary combinations of header size, min, max and nested sizes are unbounded", "anchors": ["syntax/encode.go:encodeLength", "syntax/decode.go:decodeLength", "syntax/tags.go:fieldOptions"]}
{"id": "C04", "title": "Variable-length integers use the shortest form and round trip", "statement": "A varint-tagged integer below 2^62 is written in the fewest of 1, 2, 4 or 8 bytes that can hold it, larger values are refused, and reading the written bytes returns the integer.", "quantifier": "for all 64-bit integers and all trailing bytes", "why_tests_cant": "2^64 inputs; tests sample a handful near the boundaries", "anchors": ["syntax/encode.go:writeVarint", "syntax/decode.go:readVarint"]}
{"id": "C05", "title": "Map encoding is independent of iteration order", "statement": "Marshalling a map yields the same bytes whatever order the runtime enumerates its entries in, provided distinct keys have distinct encodings.", "quantifier": "for all maps and all permutations of their entries", "why_tests_cant": "Go randomises map order; a test sees only some orders", "anchors": ["syntax/encode.go:mapEncoder", "syntax/encode.go:encMap"]}
{"id": "C06", "title": "Unmarshal never panics on untrusted bytes", "statement": "Unmarshal into any supported type returns a value or an error for every byte string; it does not raise a runtime panic.", "quantifier": "for all types and all byte strings", "why_tests_cant": "absence of a crash over all inputs is a universal claim; fuzzing samples it", "anchors": ["syntax/decode.go:pointerDecoder", "syntax/decode.go:unmarshal", "fuzz_test.go"]}
{"id": "C07", "title": "Unmarshal terminates", "statement": "Unmarshal finishes on every input, performing work bounded by the input length.", "quantifier": "for all types and all byte strings", "why_tests_cant": "non-termination cannot be observed by a finite test", "anchors": ["syntax/decode.go:sliceDecoder", "syntax/decode.go:mapDecoder"]}
{"id": "C08", "title": "Encoding is canonical", "statement": "If Unmarshal accepts a byte string then marshalling the value it produced gives back exactly the bytes it consumed, so there is one encoding per value.", "quantifier": "for all types and all accepted byte strings", "why_tests_cant": "quantifies over all accepted strings, including non-minimal encodings no test author writes", "anchors": ["syntax/decode.go:Unmarshal", "syntax/decode.go:readVarint", "syntax/encode.go:Marshal"]}
{"id": "C09", "title": "Record boundaries do not depend on transport segmentation", "statement": "The sequence of records a connection extracts from its transport, and the bytes left pending, depend only on the concatenation of the bytes received, not on how the transport split them into reads.", "quantifier": "for all byte streams and all ways of splitting them into chunks, including empty chunks", "why_tests_cant": "exponentially many segmentations of each stream", "anchors": ["frame-reader.go:frameReader.process", "frame-reader.go:frameReader.addChunk", "record-layer.go:nextRecord"]}
{"id": "C10", "title": "Protected record round trip", "statement": "Every sequence of records written to one endpoint, with any content types and any padding, is read at a peer holding the same key and iv as the same sequence of types and payloads, in order.", "quantifier": "for all sequences of records within the size limit, all paddings, all AEADs whose Open inverts Seal, all segmentations", "why_tests_cant": "unbounded sequences and a sequence-number invariant that must hold at every step", "anchors": ["record-layer.go:WriteRecord", "record-layer.go:ReadRecord", "record-layer.go:encrypt", "record-layer.go:decrypt"]}
{"id": "C11", "title": "No nonce is used twice under one key on the wire", "statement": "During the life of one traffic key, no two records put on the wire are sealed with the same nonce; the endpoint stops rather than let its sequence number wrap.", "quantifier": "for all sequences of write operations, successful or failing, and all ivs of at least 8 bytes", "why_tests_cant": "uniqueness over up to 2^48 records cannot be tested", "anchors": ["record-layer.go:computeNonce", "record-layer.go:incrementSequenceNumber", "record-layer.go:writeRecordWithPadding"]}
{"id": "C12", "title": "Records that fail authentication are inert", "statement": "A protected record that does not authenticate is reported as an error, delivers no payload and leaves the read sequence number unchanged, so the next genuine record is still read correctly however many forgeries precede it.", "quantifier": "for all finite sequences of forged records followed by genuine ones", "why_tests_cant": "unbounded attacker-chosen interleavings", "anchors": ["record-layer.go:nextRecord", "record-layer.go:decrypt", "server-state-machine.go:serverStateReadPastEarlyData"]}
{"id": "C13", "title": "Reading records never panics", "statement": "Whatever bytes arrive from the transport, reading a record returns a record or an error.", "quantifier": "for all byte streams and all decryption results", "why_tests_cant": "universal absence of crashes; the offending input needs a valid tag so byte-level fuzzing never reaches it", "anchors": ["record-layer.go:decrypt", "record-layer.go:nextRecord"]}
{"id": "C14", "title": "Every record payload up to 2^14 bytes can be written", "statement": "Writing a payload of at most 16384 bytes puts it on the wire whether or not the layer is encrypting.", "quantifier": "for all payloads of length at most 2^14 and all cipher states", "why_tests_cant": "the limit interacts with AEAD expansion; tests write short payloads", "anchors": ["record-layer.go:writeRecordWithPadding", "conn.go:Write"]}
{"id": "C15", "title": "DTLS records from a retained old epoch are decrypted with that epoch's key", "statement": "When the datagram record layer is asked to read with old epochs allowed, a genuine record sealed under a retained earlier epoch is returned with its payload.", "quantifier": "for all retained epochs and all genuine records of those epochs", "why_tests_cant": "needs a reordering across a key change, for every pair of epochs", "anchors": ["record-layer.go:ReadRecordAnyEpoch", "record-layer.go:nextRecord", "record-layer.go:Rekey"]}
{"id": "C16", "title": "TLS handshake message stream round trip", "statement": "Any sequence of handshake messages written over the stream transport is read by the peer as the same sequence of (type, body), whatever the record size used for fragmentation and however messages share or span records.", "quantifier": "for all message sequences with bodies below 2^24 bytes and all positive fragment limits", "why_tests_cant": "unbounded sequences and all fragmentations", "anchors": ["handshake-layer.go:WriteMessages", "handshake-layer.go:ReadMessage", "handshake-layer.go:writeFragment"]}
{"id": "C17", "title": "DTLS reassembly integrity", "statement": "Every handshake message delivered over datagrams is byte-for-byte the message the peer sent with that sequence number, whatever fragments were lost, duplicated, reordered or re-fragmented.", "quantifier": "for all message sequences, all fragmentations, all arrival orders with loss and duplication", "why_tests_cant": "the arrival interleavings are unbounded; tests use single messages", "anchors": ["handshake-layer.go:newFragmentReceived", "handshake-layer.go:checkMessageAvailable", "handshake-layer.go:noteMessageDelivered"]}
{"id": "C18", "title": "DTLS delivery is in order and at most once", "statement": "Handshake messages are delivered over datagrams in increasing message sequence, each exactly once, without gaps, and retransmitted copies of delivered messages are ignored.", "quantifier": "for all arrival sequences of unfragmented messages with loss, duplication and reordering", "why_tests_cant": "unbounded interleavings", "anchors": ["handshake-layer.go:ReadMessage", "handshake-layer.go:newFragmentReceived", "handshake-layer.go:noteMessageDelivered"]}
{"id": "C19", "title": "DTLS reassembly makes progress", "statement": "Once fragments covering every byte of the next expected handshake message have arrived, in any order, the message is delivered.", "quantifier": "for all fragmentations and arrival orders, with fragments of other messages interleaved", "why_tests_cant": "liveness over all interleavings", "anchors": ["handshake-layer.go:newFragmentReceived", "handshake-layer.go:checkMessageAvailable"]}
{"id": "C20", "title": "DTLS fragment processing never panics", "statement": "No fragment sequence from the network, authentic or not, crashes the handshake reader.", "quantifier": "for all fragment headers and bodies", "why_tests_cant": "universal absence of crashes over multi-packet inputs", "anchors": ["handshake-layer.go:checkMessageAvailable", "handshake-layer.go:readRecord"]}
{"id": "C21", "title": "DTLS acknowledgements are sound", "statement": "After an ACK is processed, a sent handshake fragment is considered delivered only if the peer acknowledged a record that carried those bytes.", "quantifier": "for all flights, epochs, retransmissions and ACK contents", "why_tests_cant": "depends on bookkeeping across all retransmissions and key changes", "anchors": ["dtls.go:processAck", "dtls.go:fragmentAcked", "handshake-layer.go:writeFragment"]}
{"id": "C22", "title": "DTLS retransmission covers everything unacknowledged", "statement": "When a flight is retransmitted, every byte of every queued message that is not covered by an acknowledged fragment is sent again, and bytes already acknowledged as a whole fragment are skipped.", "quantifier": "for all queued messages, acknowledgement sets and datagram sizes", "why_tests_cant": "all combinations of partial acknowledgements", "anchors": ["dtls.go:handshakeRetransmit", "handshake-layer.go:writeFragment", "handshake-layer.go:WriteMessage"]}
{"id": "C23", "title": "Timers fire exactly when due", "statement": "Checking a timer set runs every armed timer whose deadline has passed, in deadline order and once each, and leaves every later timer armed.", "quantifier": "for all sets of timers and all check times", "why_tests_cant": "slice aliasing makes the outcome depend on how many timers are armed; tests use one", "anchors": ["timer.go:timerSet.start", "timer.go:timerSet.check", "timer.go:timerSet.remaining"]}
{"id": "C24", "title": "Cipher suite negotiation picks a mutually supported suite", "statement": "The server's chosen cipher suite is one the client offered and the server supports, and it is the first such in the client's order; if there is none negotiation fails. With a PSK the PSK's own suite is used if offered.", "quantifier": "for all offer and support lists", "why_tests_cant": "all list pairs", "anchors": ["negotiation.go:CipherSuiteNegotiation"]}
{"id": "C25", "title": "Key share negotiation picks a mutually supported group and agrees a secret", "statement": "The server's chosen group is the first client key share whose group the server supports, its own share is for that group, and the secret is the agreement of its private key with that share; failure leaves no group selected.", "quantifier": "for all key share lists and supported group lists, all key generation outcomes", "why_tests_cant": "all list pairs and key generation failures", "anchors": ["negotiation.go:DHNegotiation"]}
{"id": "C26", "title": "A PSK is accepted only with a valid binder", "statement": "The server uses a PSK only if the client presented its identity together with a binder equal to the HMAC, under the key derived from that PSK, of the transcript ending just before the binders; resumption identities must also carry an age within tolerance, and the index returned is that of the identity used.", "quantifier": "for all identity and binder lists, PSK stores, transcripts and clocks", "why_tests_cant": "all client-supplied lists, including mismatched lengths", "anchors": ["negotiation.go:PSKNegotiation"]}
{"id": "C27", "title": "ALPN negotiation picks a common protocol", "statement": "The selected application protocol is the first of the client's that the server supports, or empty when there is none; a resumption PSK forces its own protocol if offered and otherwise fails.", "quantifier": "for all protocol lists and PSKs", "why_tests_cant": "all list pairs", "anchors": ["negotiation.go:ALPNNegotiation"]}
{"id": "C28", "title": "Expired tickets are not accepted", "statement": "A server does not resume with a PSK whose expiry time has passed.", "quantifier": "for all PSKs, identities and clocks", "why_tests_cant": "the claim is about every clock value after expiry", "anchors": ["negotiation.go:PSKNegotiation", "conn.go:PreSharedKey", "state-machine.go:NewSessionTicket"]}
{"id": "C29", "title": "Extension lists hold at most one extension per type", "statement": "Adding an extension makes a later lookup of that type return its contents, replaces any earlier one of the type, leaves other types untouched, and keeps types unique; parsing rejects a list with a duplicate of a type being looked for.", "quantifier": "for all extension lists and extensions", "why_tests_cant": "all lists and operation sequences", "anchors": ["extensions.go:ExtensionList.Add", "extensions.go:ExtensionList.Find", "extensions.go:ExtensionList.Parse"]}
{"id": "C30", "title": "Handshake messages round trip", "statement": "Every handshake message body the library can marshal is unmarshalled by the library to an equal body with all bytes consumed.", "quantifier": "for all messages of all types with fields within their declared limits", "why_tests_cant": "unbounded message contents", "anchors": ["handshake-messages.go:ClientHelloBody", "handshake-messages.go:ServerHelloBody", "handshake-messages.go:CertificateBody", "handshake-layer.go:ToBody"]}
{"id": "C31", "title": "The binder transcript prefix is what precedes the binders", "statement": "The truncated ClientHello over which PSK binders are computed is the marshalled message minus exactly the final binder list, so it does not depend on the binder values.", "quantifier": "for all ClientHello messages ending in a pre_shared_key extension and all binder values of the same lengths", "why_tests_cant": "relational claim over all binder values", "anchors": ["handshake-messages.go:ClientHelloBody.Truncated"]}
{"id": "C32", "title": "HKDF labels are unambiguous", "statement": "Distinct (label, context, length) triples within the supported sizes give distinct HKDF info strings, so secrets for different purposes are derived from different inputs.", "quantifier": "for all labels up to 249 bytes, contexts up to 255 bytes, lengths below 2^16", "why_tests_cant": "injectivity over unbounded inputs", "anchors": ["crypto.go:hkdfEncodeLabel"]}
{"id": "C33", "title": "HKDF-Expand conforms to RFC 5869", "statement": "The key material returned has exactly the requested length and equals the prefix of the RFC 5869 block sequence.", "quantifier": "for all PRKs, infos and lengths up to 255 hash lengths", "why_tests_cant": "all lengths and inputs; test vectors fix a few", "anchors": ["crypto.go:HkdfExpand"]}
{"id": "C34", "title": "Finite-field key agreement agrees", "statement": "Two parties using any built-in finite-field group who exchange the public values produced by the library compute the same shared secret, of the group's fixed length.", "quantifier": "for all private exponents and all finite-field groups", "why_tests_cant": "2048-bit to 8192-bit exponent space", "anchors": ["crypto.go:newKeyShare", "crypto.go:keyAgreement", "ffdhe.go"]}
{"id": "C35", "title": "Honest handshake agreement", "statement": "When a client and server complete a full handshake over a transport that delivers what was sent, they hold the same master, traffic, exporter and resumption secrets, each direction's write key equals the other side's read key, and they report the same cipher suite, PSK use, early data use and protocol.", "quantifier": "for all configurations, random values, certificates and PSKs for which both ends complete", "why_tests_cant": "the configuration space is unbounded and all derived secrets must match", "anchors": ["client-state-machine.go", "server-state-machine.go", "crypto.go:deriveSecret"]}
{"id": "C36", "title": "Key updates keep both directions in step", "statement": "After any interleaving of application writes, key updates from either side (with or without a requested reply) and reads on an established connection, every record still decrypts at the receiver and the application data arrives complete and in order.", "quantifier": "for all interleavings of operations at the two ends over an in-order transport", "why_tests_cant": "unbounded concurrent schedules", "anchors": ["state-machine.go:KeyUpdate", "state-machine.go:ProcessMessage", "conn.go:SendKeyUpdate", "conn.go:consumeRecord"]}
{"id": "C37", "title": "Session tickets give both sides the same PSK", "statement": "When a server issues a ticket and the client receives it, both store a resumption PSK with the same identity, key, cipher suite, protocol and age offset, and different nonces give keys derived from different inputs.", "quantifier": "for all established connections and all ticket contents", "why_tests_cant": "all secrets and nonces", "anchors": ["state-machine.go:NewSessionTicket", "state-machine.go:ProcessMessage"]}
{"id": "C38", "title": "Exported keying material agrees and binds label and context", "statement": "Both ends of an established connection export the same bytes for the same label, context and length, and the derivation is RFC 8446's: HKDF-Expand-Label of the per-label secret over the hash of the context.", "quantifier": "for all labels, contexts and lengths", "why_tests_cant": "all inputs; self-consistency tests cannot detect a shared deviation", "anchors": ["conn.go:ComputeExporter"]}
{"id": "C39", "title": "A client that completes has verified the server's Finished", "statement": "A client handshake ends in the connected state only after receiving a Finished whose verify data equals the HMAC, under the server's handshake secret, of the transcript of all messages before it.", "quantifier": "for all sequences of messages from any peer", "why_tests_cant": "universal over attacker behaviour", "anchors": ["client-state-machine.go:clientStateWaitFinished"]}
{"id": "C40", "title": "A client that completes has authenticated the server", "statement": "A client that reaches the connected state either used a PSK it itself offered, or received a certificate chain accepted by its configured verification and a CertificateVerify signature by the leaf key over the transcript with a scheme it knows for that key.", "quantifier": "for all client configurations and all sequences of messages from any peer", "why_tests_cant": "universal over attacker behaviour", "anchors": ["client-state-machine.go:clientStateWaitSH", "client-state-machine.go:clientStateWaitCertCR", "client-state-machine.go:clientStateWaitCV"]}
{"id": "C41", "title": "A server that completes has verified the client's Finished", "statement": "A server handshake ends in the connected state only after receiving a Finished whose verify data equals the HMAC, under the client's handshake secret, of the transcript of all messages before it.", "quantifier": "for all sequences of messages from any peer", "why_tests_cant": "universal over attacker behaviour", "anchors": ["server-state-machine.go:serverStateWaitFinished"]}
{"id": "C42", "title": "Required client authentication is enforced", "statement": "A server configured with RequireClientAuth completes a handshake only with a client that presented a certificate and proved possession of its key.", "quantifier": "for all server configurations with RequireClientAuth and all client message sequences", "why_tests_cant": "universal over attacker behaviour", "anchors": ["server-state-machine.go:serverStateWaitCert", "server-state-machine.go:serverStateNegotiated", "server-state-machine.go:serverStateWaitCV"]}
{"id": "C43", "title": "Handshake messages are accepted only in protocol order", "statement": "Each endpoint consumes handshake messages only in an order allowed by the TLS 1.3 state diagram; any other message type stops the handshake with an error and no new keys.", "quantifier": "for all message sequences", "why_tests_cant": "all orders of all message types", "anchors": ["client-state-machine.go", "server-state-machine.go", "common.go:State"]}
{"id": "C44", "title": "Cookies are unforgeable return-address checks", "statement": "A server that requires a cookie negotiates parameters only after the client echoes a token that opens under its cookie protector; the first ClientHello hash recovered from it is the one that was sealed.", "quantifier": "for all cookie protectors whose DecodeToken inverts NewToken and all client message sequences", "why_tests_cant": "universal over attacker-chosen cookies", "anchors": ["server-state-machine.go:serverStateStart", "cookie-protector.go"]}
{"id": "C45", "title": "Peer input never crashes the handshake", "statement": "No message sequence from the peer makes the handshake panic; bad input yields an alert.", "quantifier": "for all configurations that pass validation and all peer messages", "why_tests_cant": "universal absence of crashes over multi-message inputs", "anchors": ["server-state-machine.go:serverStateStart", "client-state-machine.go:clientStateWaitCV", "handshake-layer.go:readRecord", "crypto.go:keyAgreement"]}
{"id": "C46", "title": "At most one HelloRetryRequest", "statement": "A client accepts at most one HelloRetryRequest per handshake.", "quantifier": "for all message sequences from any server", "why_tests_cant": "unbounded retry sequences", "anchors": ["client-state-machine.go:clientStateWaitSH"]}
{"id": "C47", "title": "Application data is delivered as a stream", "statement": "The bytes returned by successive Reads are a prefix of the bytes passed to the peer's successful Writes, in order, without loss or duplication, whatever buffer sizes are used on each side.", "quantifier": "for all write sizes, read sizes and interleavings with post-handshake messages", "why_tests_cant": "all buffer size combinations", "anchors": ["conn.go:Write", "conn.go:Read", "conn.go:readPartial", "conn.go:consumeRecord"]}
{"id": "C48", "title": "Write accepts any length", "statement": "On an established connection over a working transport, Write of any buffer succeeds, reports its full length, and sends it as records no larger than the protocol limit.", "quantifier": "for all buffers", "why_tests_cant": "the failing sizes are exactly those tests do not use", "anchors": ["conn.go:Write", "record-layer.go:writeRecordWithPadding"]}
{"id": "C49", "title": "Closing is signalled with close_notify", "statement": "An alert sent by one endpoint is recognised by the other as the same alert, and closing a connection makes the peer's Read end cleanly with EOF.", "quantifier": "for all alerts", "why_tests_cant": "both ends must agree on a two-byte format no test inspects end to end", "anchors": ["conn.go:sendAlert", "conn.go:consumeRecord", "handshake-layer.go:sendAlert", "handshake-layer.go:readRecord"]}
{"id": "C50", "title": "A failed handshake stays failed", "statement": "Once Handshake has returned a fatal error, later calls return an error and the connection never becomes usable.", "quantifier": "for all failures and all later peer messages", "why_tests_cant": "all continuations after failure", "anchors": ["conn.go:Handshake"]}
{"id": "C51", "title": "Clone copies the whole configuration", "statement": "Cloning a Config gives a Config with every exported field equal to the original's.", "quantifier": "for all configurations", "why_tests_cant": "tests compare the fields their author remembered", "anchors": ["conn.go:Config.Clone"]}
{"id": "C52", "title": "Config initialisation is idempotent and only fills gaps", "statement": "Initialising a Config leaves every field the user set unchanged, fills the empty ones with defaults, and doing it again changes nothing.", "quantifier": "for all configurations", "why_tests_cant": "all combinations of set and unset fields", "anchors": ["conn.go:Config.Init"]}
{"id": "C53", "title": "Nothing is readable or writable before its time", "statement": "Before the handshake completes, Write sends nothing except accepted early data while the connection is in an early-data-writable state, Read returns no bytes other than received early data, and exporters and key updates are refused.", "quantifier": "for all handshake states", "why_tests_cant": "all intermediate states including non-blocking re-entry", "anchors": ["conn.go:Write", "conn.go:Read", "conn.go:ComputeExporter", "conn.go:SendKeyUpdate", "conn.go:Writable"]}
{"id": "C54", "title": "Early data is delivered once, before later data", "statement": "Bytes a server accepted as early data are returned by Read exactly once, in order, ahead of any post-handshake data, even if some were read before the handshake finished.", "quantifier": "for all early data lengths, read sizes and handshake completion points", "why_tests_cant": "all interleavings of partial reads with completion", "anchors": ["conn.go:Read", "conn.go:Handshake", "server-state-machine.go:serverStateWaitEOED"]}
{"id": "C55", "title": "A handshake does not alter shared configuration", "statement": "Running a handshake leaves the Config passed to it usable for other connections: its field values are the same afterwards as after initialisation.", "quantifier": "for all handshakes", "why_tests_cant": "the effect shows up only in a different connection", "anchors": ["client-state-machine.go:clientStateWaitSH", "server-state-machine.go:serverStateStart", "conn.go:Config"]}
{"id": "C56", "title": "Handshake messages of any legal size can be sent under encryption", "statement": "On a stream connection with keys installed, sending a handshake message of any size up to the protocol limit of 2^24-1 bytes succeeds and splits it into records the peer accepts.", "quantifier": "for all message types and bodies below 2^24 bytes, all AEADs", "why_tests_cant": "only messages in a narrow band of sizes around and above the record limit are affected, and only after keys are installed", "anchors": ["handshake-layer.go:NewHandshakeLayerTLS", "handshake-layer.go:writeFragment", "record-layer.go:writeRecordWithPadding"]}
{"id": "C57", "title": "Messages and extensions have the encoding of the standard", "statement": "A handshake message or extension marshals if and only if its fields are within the limits of RFC 8446, and the result is the encoding given there (ClientHellos with an empty session id).", "quantifier": "for all messages and extensions of all types and all field values", "why_tests_cant": "Round-trip tests pass when writer and reader share the same mistake, and tests with sample messages do not reach the limits of every field.", "anchors": ["handshake-messages.go:ClientHelloBody.Marshal", "handshake-messages.go:ServerHelloBody.Marshal", "handshake-messages.go:CertificateBody.Marshal", "extensions.go:KeyShareExtension.Marshal", "extensions.go:PreSharedKeyExtension.Marshal", "syntax/encode.go:Marshal"]}
{"id": "C58", "title": "PSK key exchange modes are respected", "statement": "A PSK is used only if one was found, the client listed at least one mode, and either some listed mode is not psk_dhe_ke or Diffie-Hellman is possible; Diffie-Hellman is then used exactly if possible and either psk_dhe_ke is listed or no PSK is used. Early data is used exactly when a PSK is used, the client sent early data and the server allows it, and is rejected otherwise if sent.", "quantifier": "for all mode lists and flags", "why_tests_cant": "all mode lists", "anchors": ["negotiation.go:PSKModeNegotiation", "negotiation.go:EarlyDataNegotiation"]}
{"id": "C59", "title": "The selected certificate fits the request", "statement": "The certificate selected is one of those configured, names the requested server name if there is one, and the signature scheme is one the client offered and valid for the type of its private key.", "quantifier": "for all certificate lists, names and scheme lists", "why_tests_cant": "all combinations of certificates and offers", "anchors": ["negotiation.go:CertificateSelection"]}
{"id": "C60", "title": "CertificateVerify signs the standard's content", "statement": "A CertificateVerify signature covers 64 spaces, the context string of the signer's role, a zero byte and the transcript hash; verification accepts exactly valid signatures under a scheme that fits the certificate's key, and never SHA-1 or PKCS#1 ones; what a working key pair signs verifies.", "quantifier": "for all keys, certificates, schemes and transcript hashes", "why_tests_cant": "a context string shared by both ends passes every self-test", "anchors": ["handshake-messages.go:EncodeSignatureInput", "handshake-messages.go:CertificateVerifyBody", "crypto.go:sign", "crypto.go:verify"]}
{"id": "C61", "title": "What is decoded is exactly what was received", "statement": "If a handshake message or extension body is decoded, the bytes read are the unique encoding of the decoded value: the decoder accepts no second encoding of a value and ignores no part of what it reads. (False of server names: entries after the first are ignored.)", "quantifier": "for all byte strings, message types and extension types", "why_tests_cant": "all byte strings an attacker may send; tests decode what the same code encoded", "anchors": ["handshake-messages.go", "extensions.go", "syntax/decode.go", "handshake-layer.go:ToBody"]}
{"id": "C62", "title": "The message standing for the first ClientHello", "statement": "After a HelloRetryRequest the first ClientHello enters the transcript as a handshake message of type message_hash whose length field is the length of the hash and whose body is the hash. (False: the length field is 0.)", "quantifier": "for all hashes", "why_tests_cant": "both ends of a self-test make the same error", "anchors": ["client-state-machine.go:411", "server-state-machine.go:187", "handshake-layer.go:Marshal"]}
{"id": "C63", "title": "Handshake messages arrive as they were sent", "statement": "Between two ends joined by byte streams, the handshake messages an end has received are at all times the first of those the other end has sent, in order and unchanged, whatever protection they were sent under and however the stream is cut into pieces; so the two ends of a completed handshake have seen the same messages.", "quantifier": "for all configurations, random values, calls at the two ends (handshake, read, write, key update) and all cuttings of the streams", "why_tests_cant": "all interleavings of the two ends and all cuttings of the streams", "anchors": ["handshake-layer.go:ReadMessage", "handshake-layer.go:WriteMessages", "record-layer.go:ReadRecord", "record-layer.go:Rekey", "conn.go:Handshake", "conn.go:takeAction"]}
{"id": "C64", "title": "Nothing but eight known causes crashes a TLS connection", "statement": "Over a stream, with a configuration of known cipher suites, non-empty certificate chains and no extension handler, a call of Handshake, Read, Write or SendKeyUpdate panics only if the connection took in a protected record of zeros, an alert shorter than two bytes, a cookie it has no protector for, a key share its curve rejects or an empty server Certificate, or has used up the record numbers of a key.", "quantifier": "for all configurations of that kind, all primitives, all peer inputs and all sequences of calls with any outcomes before", "why_tests_cant": "absence of any further crash over all inputs and histories", "anchors": ["conn.go:Handshake", "conn.go:Read", "conn.go:Write", "conn.go:SendKeyUpdate", "record-layer.go:nextRecord", "handshake-layer.go:readRecord", "server-state-machine.go:Next", "client-state-machine.go:Next"]}
{"id": "C65", "title": "Struct tags are read as they are written", "statement": "A tag accepted by parseTag gives exactly the options its comma-separated entries say: a flag is set if it occurs, a number is the last one given, entries with unknown names are ignored. A tag with a malformed entry, a bad number or contradictory options stops the program. The message types of the library have the encodings their tags say.", "quantifier": "all tag strings; all field options; all tagged structs of the library", "why_tests_cant": "The tests parse six tags and reject eight; strings, orders and repetitions of entries are unbounded.", "anchors": ["syntax/tags.go:121-173", "syntax/tags.go:43-69", "syntax/tags.go:110-116", "extensions.go:19-613", "handshake-messages.go:34-454"]}
{"id": "C66", "title": "Dial and Listen return only completed connections to the right host", "statement": "A connection returned by Dial has a complete handshake with the caller's settings, the server name given by the caller or else the host part of the address, over DTLS exactly when the network is a datagram network; unless a PSK was used or verification is off, the peer's certificate chain is valid for that name and its signature verified. A listener made by Listen has a usable blocking configuration, and Accept returns no error only with a complete handshake.", "quantifier": "all addresses, networks, configurations, peers, random values and interleavings of input with the handshake", "why_tests_cant": "The tests dial one local server with fixed addresses; whatever the peer sends, an incomplete or unauthenticated connection must never be returned.", "anchors": ["tls.go:92-179", "tls.go:36-77", "conn.go:141-173", "conn.go:728-837"]}
{"id": "C67", "title": "Two ends that suit each other never fail to shake hands", "statement": "If client and server have a cipher suite and a group in common, the server has a certificate whose key can be used with the first signature scheme of its kind that both have, the client accepts that certificate, and the messages are of moderate size, then no call of Handshake at either end ever returns an error other than AlertWouldBlock. Offering further signature schemes or a longer chain should not change this (it does).", "quantifier": "all such pairs of configurations, all random values, all sequences of calls at both ends, and all ways to cut the two byte streams", "why_tests_cant": "A test runs one pair of configurations with one schedule; the claim is that the two state machines accept everything the other one can send, in every interleaving.", "anchors": ["conn.go:728-837", "client-state-machine.go:96-939", "server-state-machine.go:111-1079", "crypto.go:184-194", "handshake-layer.go:403-570"]}
{"id": "C68", "title": "Two ends that suit each other never wait for each other for ever", "statement": "For two ends that suit each other (as in C67): if all that was sent has been delivered, and each end either has completed its handshake or has nothing to do (a call would block, without sending or reading a message), then both have completed their handshakes. An end that fails should tell the other, so that it does not wait for ever (it does not).", "quantifier": "all such pairs of configurations, all random values, all sequences of calls at both ends in blocking and non-blocking mode, and all ways to cut the two byte streams", "why_tests_cant": "A deadlock needs one particular state of both machines and of both streams; a test that completes says nothing about the other schedules.", "anchors": ["conn.go:728-837", "client-state-machine.go:96-939", "server-state-machine.go:111-1079", "handshake-layer.go:349-401"]}
{"id": "C69", "title": "Two ends that suit each other complete their handshakes", "statement": "For two ends that suit each other (as in C67), from any state they can have come to: if again and again what was sent is delivered and Handshake is called at both ends, and each call comes back or waits for a message, then after finitely many rounds both have completed their handshakes, and they stay so.", "quantifier": "all such pairs of configurations, all random values, all earlier schedules of calls, reads, writes and deliveries, in blocking and non-blocking mode, and all infinite sequences of rounds", "why_tests_cant": "Progress is a claim about every infinite run; a test sees one run that happens to end, and says nothing of runs in which the two ends keep calling without getting on.", "anchors": ["conn.go:728-837", "client-state-machine.go:96-939", "server-state-machine.go:111-1079", "handshake-layer.go:349-570"]}
{"id": "C70", "title": "Two ends that suit each other do not crash each other", "statement": "For two ends that suit each other (as in C67), no call of Handshake at either end panics, in any state the two can have come to, unless 2^48 - 1 records have been read or written under the keys of one direction.", "quantifier": "all such pairs of configurations, all random values, all schedules of calls, reads, writes and deliveries, all cuts of the streams, in blocking and non-blocking mode", "why_tests_cant": "A crash may need one cut of the stream, one order of calls or one random value out of many; a test that passes shows one of each.", "anchors": ["conn.go:728-837", "client-state-machine.go:96-939", "server-state-machine.go:111-1079", "handshake-layer.go:349-570", "record-layer.go:226-235"]}
{"id": "C71", "title": "Two ends that suit each other can always complete their handshakes", "statement": "For two ends that suit each other (as in C67), in any state they can have come to: what is in flight can be delivered and Handshake called at both ends so that each call comes back or waits for a message that has not been sent; and a finite number of such rounds leads to a state in which both handshakes are complete. The one exception is a call that fails because 2^48 - 1 records have been read or written under the keys of a direction.", "quantifier": "all such pairs of configurations with some random value at each end, all earlier schedules of calls, reads, writes and deliveries, in blocking and non-blocking mode", "why_tests_cant": "That no reachable state is a dead end is a claim about all of them; a test visits a few, and a call that never comes back only looks like a slow one.", "anchors": ["conn.go:728-837", "client-state-machine.go:96-939", "server-state-machine.go:111-1079", "handshake-layer.go:349-570"]}
{"id": "C72", "title": "Calls from several goroutines have the effect of calls one after another", "statement": "When goroutines use one connection at the same time, as net.Conn allows, the records on the wire and the state of the output layer are those of the same calls made one after another in some order that keeps the order of each goroutine; so no two records are sealed with one nonce under one key.", "quantifier": "all numbers of goroutines, all calls and buffers, all interleavings of their accesses to the key, the sequence number and the connection, at every moment", "why_tests_cant": "An interleaving that breaks this needs two goroutines to read the sequence number between two adjacent instructions of each other; a test that runs them meets it rarely if ever, and the race detector sees only races that happen.", "anchors": ["conn.go:471-508", "conn.go:510-533", "conn.go:305-398", "conn.go:839-866", "record-layer.go:72-100", "record-layer.go:202-235", "record-layer.go:453-509"]}
{"id": "C73", "title": "Records under a key tell their lengths and nothing else", "statement": "If two sequences of records are sent from the same state under a key, and each record of one is as long with its padding as that of the other, then whatever their content types and contents the calls have the same results, the record layer has the same keys and sequence numbers afterwards, and the records on the wire have the same headers and lengths one by one. So it is for two sequences of Write with buffers of the same lengths: an observer without the key sees lengths only, and padding hides those.", "quantifier": "all AEADs that add a fixed number of bytes, all states of the layer, all sequences of records of any types, contents and paddings, all sequences of buffers given to Write; streams and datagrams", "why_tests_cant": "It compares two runs on all pairs of secrets; a test compares a few pairs.", "anchors": ["record-layer.go:244-263", "record-layer.go:453-509", "conn.go:471-508"]}
{"id": "C74", "title": "No calls wait for each other's locks for ever, and a waiting Read holds up readers only", "statement": "Goroutines that make any calls of the API on any connections and configurations never deadlock on the locks of the library: no lock has two holders, none is unlocked by one that does not hold it, and from every moment all calls can be ended. A goroutine in Read that is kept waiting by the transport holds up other calls of Read only: Write, SendKeyUpdate, Handshake on other connections, alerts and Clone can be ended while it waits.", "quantifier": "all numbers of goroutines, connections and shared configurations, all sequences of calls, all runs of those calls (any number of alerts and steps), all interleavings, at every moment; all sets of goroutines that wait for the transport for ever", "why_tests_cant": "A deadlock needs a particular interleaving of particular calls; tests run few of each, and cannot show that none deadlocks.", "anchors": ["conn.go:134-145", "conn.go:175-178", "conn.go:270", "conn.go:414-468", "conn.go:471-474", "conn.go:510-536", "conn.go:645-653", "conn.go:728-866", "record-layer.go:86"]}
{"id": "C75", "title": "Dial keeps its time limit, returns only what it has finished with, and leaves no goroutine behind", "statement": "In every order of events of a DialWithDialer call, its timer and its handshake goroutine: neither of these ever waits for room in the channel, so both end; a connection is returned only if its handshake succeeded, it is open, and no goroutine of the call still uses it; with an error the connection, if there is one, is closed, and the cause is the network, the handshake or the time; once connected, a call with a limit returns without help of the network; there are at most six events, and when no more can happen no goroutine of a returned call is left. The limit is the earlier of Timeout from now and Deadline, if they are set.", "quantifier": "all limits, all interleavings of the caller, the timer and the handshake goroutine, all results of the network; all values of Timeout, Deadline and the present time", "why_tests_cant": "The races between the time limit and the end of the handshake are narrow; a leaked goroutine or a closed connection that is returned shows in few interleavings.", "anchors": ["tls.go:92-169"]}
{"id": "C76", "title": "A connection that fails while records are written does no harm beyond itself", "statement": "However the transport fails while records are written, what Write reports as sent has gone out whole, as Write of those bytes alone sends it, followed by at most a part of one record; success is reported only if all was sent; keys and sequence numbers are those of a run without failures, and what is on the wire is cut from the records of that run, so that no nonce is used for two records. After a Write that failed no other reports success.", "quantifier": "all connections that can be written to, all buffers, all sequences of records, all failures of the transport (any record may break off after any number of bytes)", "why_tests_cant": "Tests write to pipes and buffers that do not fail; here every record may fail at every byte.", "anchors": ["record-layer.go:453-509", "conn.go:471-508"]}
