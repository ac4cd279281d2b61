{"claims": [
  {"property": "C01", "status": "proved", "theorems": ["C01_round_trip", "C01_round_trip_unheadered", "C01_narrow_varint_refuted"], "note": "Proved for every type and value subject to the stated side conditions; the full statement without them is refuted for varint-tagged integers narrower than their varint form."},
  {"property": "C02", "status": "proved", "theorems": ["C02_consumes_prefix"], "note": "All types without a header-less vector in non-final position."},
  {"property": "C03", "status": "proved", "theorems": ["C03_marshal_limits", "C03_unmarshal_limits"], "note": "Marshal: equivalence with an arithmetic specification, for every type. Unmarshal: for types with one encoding per value."},
  {"property": "C04", "status": "proved", "theorems": ["C04_varint", "C04_varint_shortest"], "note": "Read and write of the integer itself; field-level failure for narrow types is C01_narrow_varint_refuted."},
  {"property": "C05", "status": "proved", "theorems": ["C05_map_order"], "note": "Keys built from integers, arrays and structs of them."},
  {"property": "C06", "status": "partial", "theorems": ["C06_no_panic_partial", "C06_optional_refuted"], "note": "False in general: an optional pointer at the end of the input panics. Proved for all types without optional pointers."},
  {"property": "C07", "status": "partial", "theorems": ["C07_terminates_partial", "C07_empty_elements_refuted"], "note": "False in general: a vector of zero-size elements loops forever. Proved for all types whose vector elements occupy at least one byte."},
  {"property": "C08", "status": "partial", "theorems": ["C08_canonical_partial", "C08_varint_refuted", "C08_map_refuted"], "note": "False in general (varints, maps). Proved for all types without varints and maps."},
  {"property": "C09", "status": "proved", "theorems": ["C09_segmentation"], "note": "TLS and DTLS, any keys, any rekeying between records."},
  {"property": "C10", "status": "proved", "theorems": ["C10_stream_round_trip", "C10_datagram_round_trip"], "note": "TLS in order; DTLS for any loss, reordering and repetition."},
  {"property": "C11", "status": "proved", "theorems": ["C11_nonce_unique"], "note": "Per installed key. Stated on emitted bytes through AEADs that reveal their nonce; installing the same key twice is outside the record layer."},
  {"property": "C12", "status": "proved", "theorems": ["C12_forgeries_inert"], "note": ""},
  {"property": "C13", "status": "partial", "theorems": ["C13_no_panic_partial", "C13_zero_plaintext_refuted"], "note": "False in general: an authenticated plaintext of only zero bytes panics. Proved otherwise."},
  {"property": "C14", "status": "partial", "theorems": ["C14_clear", "C14_protected_partial", "C14_protected_refuted"], "note": "False under encryption for payloads within overhead+1 of the limit; exact condition proved."},
  {"property": "C15", "status": "partial", "theorems": ["C15_old_epoch_refuted", "C15_clear_epoch_partial"], "note": "False: decrypt uses the current cipher. Proved for the clear epoch."},
  {"property": "C16", "status": "proved", "theorems": ["C16_messages", "C16_sending"], "note": "TLS handshake layer, clear or keyed, blocking and nonblocking, any fragment limit."},
  {"property": "C17", "status": "partial", "theorems": ["C17_reassembly_partial", "C17_network", "C17_reassembly_refuted"], "note": "False: fragments of an earlier message with the same length are mixed into a later one. Proved for lengths not shared with an earlier message, and that any selection of an honest peer's records is such an input."},
  {"property": "C18", "status": "proved", "theorems": ["C18_in_order", "C18_exactly_once"], "note": "In any history of any endpoint deliveries are consecutive; unfragmented messages are delivered exactly once when they arrive in a covering order."},
  {"property": "C19", "status": "partial", "theorems": ["C19_progress_partial", "C19_progress_refuted"], "note": "False with fragments of later messages in between; proved when only fragments of the expected message arrive."},
  {"property": "C20", "status": "partial", "theorems": ["C20_no_panic_partial", "C20_overlong_refuted", "C20_short_alert_refuted"], "note": "False: fragments running past the stated length and one-byte alerts panic. Proved for fragments within their message."},
  {"property": "C21", "status": "partial", "theorems": ["C21_ack_sound_partial", "C21_key_change_refuted", "C21_clear_refuted"], "note": "False across key changes and for clear records (the reader sees number 0). Proved for all histories under one key set."},
  {"property": "C22", "status": "proved", "theorems": ["C22_retransmission", "C22_sending", "C22_ack_keeps"], "note": "All queues, acknowledgement logs and record sizes; sending succeeds while sequence numbers last; an acknowledgement keeps the flight and its timer unless every byte is acknowledged."},
  {"property": "C23", "status": "partial", "theorems": ["C23_order", "C23_start", "C23_remaining", "C23_check_partial", "C23_at_most_once", "C23_two_partial", "C23_later_lost_refuted", "C23_due_lost_refuted"], "note": "False: check appends the wrong part of the list, so later timers are dropped and a third due timer is not run. Proved: order, nothing early or twice, and completeness for at most two entries."},
  {"property": "C24", "status": "proved", "theorems": ["C24_first_common_suite", "C24_psk_suite", "C24_supported_with_psk_refuted"], "note": "As negotiated without a PSK; with a PSK its own suite is used if offered, even one the server does not support (refuted witness)."},
  {"property": "C25", "status": "proved", "theorems": ["C25_selected", "C25_none_selected", "C25_first_supported", "C25_curve_shares_do_not_fail"], "note": "For all outcomes of key generation; a share in a supported group is passed over only if key generation or agreement failed for it."},
  {"property": "C26", "status": "partial", "theorems": ["C26_psk_binder", "C26_server", "C26_age_wraps_refuted", "C26_session_id_refuted", "C26_retry_refuted"], "note": "Binder, identity and index for all inputs; at the server the binder covers the ClientHello as received up to the binders (C26_server), if it has no session id and no cookie. With a session id the server leaves it out of the bytes it checks, after a HelloRetryRequest it takes another one than that in the transcript (both refuted by witnesses). The age check holds for tickets younger than 2^32 ms; older ones wrap (refuted)."},
  {"property": "C27", "status": "partial", "theorems": ["C27_first_common_protocol", "C27_psk_protocol"], "note": "Without a PSK as stated. With a resumption PSK the protocol must also still be supported, and an empty offer selects no protocol instead of failing."},
  {"property": "C28", "status": "partial", "theorems": ["C28_expiry_refuted"], "note": "False of the code: the expiry time is never checked."},
  {"property": "C29", "status": "proved", "theorems": ["C29_add_find", "C29_add_find_typed", "C29_add_others", "C29_add_unique", "C29_parse", "C29_unequal_refuted"], "note": "All lists and all extension kinds. A pre_shared_key whose numbers of identities and binders differ, or a server version list with more than one entry, marshals but does not read back (C29_unequal_refuted)."},
  {"property": "C30", "status": "partial", "theorems": ["C30_round_trip_partial", "C30_dtls_hello", "C30_extensions", "C30_session_id_refuted", "C30_dtls_tobody_refuted"], "note": "All message types and contents, except that the claim is false for a ClientHello with a session id (not written) and for ToBody on a DTLS ClientHello (read as TLS); both are refuted with witnesses and C30_dtls_hello gives the reading the server uses. X.509 parsing is a parameter."},
  {"property": "C31", "status": "proved", "theorems": ["C31_prefix", "C31_independent", "C31_trailing_refuted"], "note": "For every ClientHello whose last extension is a marshalled pre_shared_key. Data after the binders in that extension is not noticed by Truncated itself (C31_trailing_refuted); the server rejects such an extension before it gets there."},
  {"property": "C32", "status": "proved", "theorems": ["C32_label_format", "C32_labels_injective"], "note": "The info string has the RFC 8446 HkdfLabel layout, and different (label, context, length) triples give different strings for contexts up to 255 bytes and lengths below 2^16, with labels of any size."},
  {"property": "C33", "status": "proved", "theorems": ["C33_expand"], "note": "HkdfExpand equals the RFC 5869 definition for every prk, info and length up to 255 blocks, for any HMAC with outputs of the right size."},
  {"property": "C34", "status": "proved", "theorems": ["C34_ffdhe_agreement"], "note": "Both sides of a finite-field exchange compute the same fixed-length secret, for every group in ffdhe.go and all private values. The elliptic-curve groups are an external primitive and are not covered."},
  {"property": "C35", "status": "proved", "theorems": ["C35_agree", "C35_keys", "C35_session"], "note": "For all configurations (without extension handlers; client groups without repetition), random values and PSKs, TLS and DTLS (but a DTLS server that wants cookies, which crashes before it can complete): two ends that complete, each having received the messages the other sent, have sessions from one key schedule and the same suite, PSK use, key exchange, early data use and protocol; until keys are updated each record layer writes with the key and IV the other end reads with, those of the traffic secrets. C35_session does not assume that messages arrive as sent, but proves it (C63) of two ends joined by byte streams. That curves commute is a hypothesis; for finite fields it is proved."},
  {"property": "C36", "status": "proved", "theorems": ["C36_session", "C36_joined", "C36_session_reads", "C36_session_reads_client", "C36_in_step", "C36_delivered", "C36_delivered_client"], "note": "For two new ends, all calls at both (handshakes, writes, reads, key updates, in blocking or non-blocking mode) and any cutting of the byte streams: once an end is complete no record fails to open at it, and all data that has arrived can be read. Conditions: over TLS, without early data or extension handlers, handshake messages under 2^24 bytes, tickets that fit a record. C36_in_step is the same for any pair in step, however it got there."},
  {"property": "C37", "status": "proved", "theorems": ["C37_agree", "C37_ends", "C37_nonces"], "note": "For every ticket a server issues and every client with the same suite, protocol and resumption secret that gets the message (over TLS): the stored PSKs match, and are those of RFC 8446 4.6.1; by C35 this is so of the two ends of any connection (C37_ends). Equal keys for different nonces give an explicit HMAC collision."},
  {"property": "C38", "status": "partial", "theorems": ["C38_ends", "C38_session", "C38_formula", "C38_empty_context", "C38_refuted", "C38_binds"], "note": "Both ends of any connection export the same (C38_ends, from C35). The value is RFC 8446 7.5 only for an empty context (C38_refuted: the code appends the hash of nothing to the context in place of hashing it); different labels or contexts give an explicit HMAC collision if the values are equal."},
  {"property": "C39", "status": "proved", "theorems": ["C39_finished", "C39_session"], "note": "For every history of a client in which no call of Handshake has failed, with messages from any peer. C39_session adds the whole run: the suite, both Finished messages, and the secrets of the session the connection then uses. The transcript is the code's: the synthetic message after a HelloRetryRequest has a zero length field, and a handshake continued after a failed call is not covered (see C43_stops_refuted)."},
  {"property": "C40", "status": "partial", "theorems": ["C40_refuted", "C40_partial"], "note": "False: a server that answers pre_shared_key to a client that has no PSK is accepted without certificate, with keys anyone can derive (C40_refuted builds that peer). Proved in every other case: the client used the PSK it has for the server name, from which the verified Finished is derived, or verified a chain and a signature."},
  {"property": "C41", "status": "proved", "theorems": ["C41_finished", "C41_session"], "note": "For every history of a server in which no call of Handshake has failed, with messages from any peer. C41_session adds the whole run. As for C39, the transcript is the code's and a handshake continued after a failed call is not covered."},
  {"property": "C42", "status": "partial", "theorems": ["C42_empty_refuted", "C42_psk_refuted", "C42_partial"], "note": "False: a client that sends an empty Certificate, or uses a PSK, is accepted (both witnessed by complete runs). In every other case the client has proved possession of the key of the certificate the session names; its chain is never verified."},
  {"property": "C43", "status": "partial", "theorems": ["C43_client_order", "C43_server_order", "C43_wrong_type", "C43_stops_refuted"], "note": "In every history whose Handshake calls did not fail, the messages of either end follow the diagrams of RFC 8446 appendix A, and the handshake is complete exactly at their end. A message of another type fails the call with an alert and installs nothing. The failure is not permanent: handshakeAlert is never set, so a later call may complete (refuted)."},
  {"property": "C44", "status": "proved", "theorems": ["C44_echoed", "C44_opens_sealed", "C44_recovered", "C44_protector"], "note": "For all protectors and handlers, as oracles; C44_recovered assumes that DecodeToken inverts NewToken, which C44_protector proves of mint's own protector, and that the application handler gives no nil cookie."},
  {"property": "C45", "status": "partial", "theorems": ["C45_empty_certificate_refuted", "C45_cookie_refuted", "C45_share_refuted", "C45_alert_refuted", "C45_zeros_refuted", "C64_only_causes"], "note": "False: five ways in which a peer crashes a handshake are witnessed by runs of the model (empty server Certificate; unexpected cookie; key share off the curve; alert record of one byte; protected record of zeros). C64_only_causes proves that over a stream, with a sound configuration, there are no others but the key share of a server (the same defect on the client) and running out of record numbers."},
  {"property": "C46", "status": "partial", "theorems": ["C46_refuted"], "note": "False: a client answers a second HelloRetryRequest with a third ClientHello (witnessed by a run); nothing bounds the number."},
  {"property": "C47", "status": "proved", "theorems": ["C47_session", "C36_joined", "C47_stream", "C47_complete", "C47_complete_client"], "note": "From two new ends, under the conditions of C36: at all times the bytes read are a prefix of the bytes written, and what is missing is in the read buffer or in records under way (C36_joined). C47_stream is the same for any pair in step."},
  {"property": "C48", "status": "partial", "theorems": ["C48_write_refuted", "C48_write_partial"], "note": "False of the code: a buffer of 2^14 bytes (or any whose protected form exceeds 2^14) is refused with nothing sent. Exact behaviour proved for all buffers."},
  {"property": "C49", "status": "partial", "theorems": ["C49_alert_refuted", "C49_close_refuted", "C49_alert_partial", "C49_end_partial"], "note": "False of the code: sendAlert swaps level and description, Close sends nothing. Reading of well-formed alerts and of the end of the transport proved."},
  {"property": "C50", "status": "partial", "theorems": ["C50_refuted", "C50_partial"], "note": "False of the code: a later call can complete. Proved: a failing call leaves the connection unusable at that point, except a ticket failure at a server."},
  {"property": "C51", "status": "partial", "theorems": ["C51_clone_refuted", "C51_clone_partial"], "note": "False of the code: Clone drops RecordLayer. Every other field is copied for all configurations."},
  {"property": "C52", "status": "proved", "theorems": ["C52_fills_gaps", "C52_idempotent", "C52_cache_kept"], "note": ""},
  {"property": "C53", "status": "proved", "theorems": ["C53_write", "C53_read", "C53_rest"], "note": ""},
  {"property": "C54", "status": "partial", "theorems": ["C54_refuted", "C54_order_partial", "C54_settled"], "note": "False when a session ticket cannot be sent (witness); proved for all histories without such a failure, in particular all configurations without tickets."},
  {"property": "C55", "status": "partial", "theorems": ["C55_client_refuted", "C55_server_refuted", "C55_unchanged_partial", "C55_server_partial"], "note": "False of the code: a client narrows CipherSuites after a HelloRetryRequest, a server stores a CookieProtector. No other field changes, for all API histories."},
  {"property": "C56", "status": "partial", "theorems": ["C56_large_message_limit", "C56_large_message_refuted", "C16_sending"], "note": "False at the default fragment size under keys; proved (C16_sending) for smaller fragment sizes."},
  {"property": "C57", "status": "proved", "theorems": ["C57_messages", "C57_extensions"], "note": "All messages and extensions."},
  {"property": "C58", "status": "proved", "theorems": ["C58_psk_modes", "C58_early_data"], "note": ""},
  {"property": "C59", "status": "proved", "theorems": ["C59_certificate"], "note": "For all x509 and key parsing behaviours (record pki)."},
  {"property": "C60", "status": "partial", "theorems": ["C60_content", "C60_verify", "C60_sign", "C60_sign_verify", "C60_client_refuted", "C60_pkcs1_refuted"], "note": "Proved for the server role and for all schemes; false for clients, whose signatures use the server context string, and PKCS#1 schemes are accepted (witnesses)."},
  {"property": "C61", "status": "partial", "theorems": ["C61_extensions", "C61_messages", "C61_hello", "C61_server_name", "C61_refuted"], "note": "Proved for every message and every extension but server_name, of which entries after the first are ignored (refuted); what is ignored is stated exactly."},
  {"property": "C62", "status": "partial", "theorems": ["C62_refuted", "C62_differs", "C62_partial"], "note": "False: the length field of the synthetic message is 0."},
  {"property": "C63", "status": "proved", "theorems": ["C63_messages"], "note": "For two new ends and all calls at both, any cutting of the byte streams, under the conditions of C36; the messages are those of handshakes (calls of Handshake that do not fail)."},
  {"property": "C64", "status": "proved", "theorems": ["C64_only_causes"], "note": "For every history of calls and every input over a stream: a call of Handshake, Read, Write or SendKeyUpdate that panics leaves the connection in one of eight described states (record of zeros, short alert, record numbers used up on either side, empty certificate, cookie without protector, bad client share, bad server share). Assumes HMAC outputs of the right size, no extension handler, configured suites that are known and chains that are not empty; DTLS is not covered."},
  {"property": "C65", "status": "partial", "theorems": ["C65_tags", "C65_types", "C65_coherent_partial", "C65_coherent_refuted", "C65_unsigned_refuted"], "note": "All tag strings: what is accepted and the options it gives (C65_tags), and all message types of the library (C65_types). Contradictory options are rejected except that a header of one byte is not counted as a header option, and negative numbers are accepted (both refuted)."},
  {"property": "C66", "status": "partial", "theorems": ["C66_dial", "C66_authenticated", "C66_network_refuted", "C66_listen", "C66_nil_refuted"], "note": "For all addresses, configurations and runs: what Dial returns is complete, for the name given or else the host of the address, and authenticated for that name unless a PSK was used; what Accept returns without error is complete. False: DTLS is not set up for the networks udp4 and udp6, and NewListener takes a nil configuration. Time limits are an arbitrary choice; closing the transport after a failure is not modelled."},
  {"property": "C67", "status": "proved", "theorems": ["C67_never_fails", "C67_session", "C67_more_schemes_refuted", "C67_longer_chain_refuted"], "note": "For two ends over a stream that suit each other (compatible: server certificate alone, no PSK or cookie known to the client, a common suite and group, and the first scheme of the kind of the key is one the key can be used for): no call of Handshake at either end gives an error but AlertWouldBlock, whatever calls are made, however the streams are cut and whatever the random values. Two conditions one would not expect are shown to be needed: a further common signature scheme, or a longer chain, makes the handshake fail."},
  {"property": "C68", "status": "proved", "theorems": ["C68_no_deadlock", "C68_failure_not_told_refuted"], "note": "Under the conditions of C67: when both streams are empty and each end is complete or idle (in non-blocking mode a call that would block and changes nothing; in blocking mode a read that does not come back), both ends are complete. Refuted without compatible: an alert that a handshake state returns is not sent, and the peer waits for ever."},
  {"property": "C69", "status": "proved", "theorems": ["C69_rounds_complete"], "note": "Under the conditions of C67, from any state of any play, every infinite sequence of rounds (all bytes under way arrive, both ends call Handshake, each call returns or stalls in a read) has both ends complete from some round on. That the calls of a round come back is part of what a round is; that there is always such a round is C71."},
  {"property": "C70", "status": "proved", "theorems": ["C70_no_crash"], "note": "Under the conditions of C67, in every state of every play: a call of Handshake at either end that panics leaves a direction whose sequence number is at least 2^48 - 1 (worn_out, the panic of incrementSequenceNumber, record-layer.go:226-235). C64 lists the causes of a crash for ends that do not suit each other."},
  {"property": "C71", "status": "proved", "theorems": ["C71_round_possible", "C71_completion_possible"], "note": "Under the conditions of C67, and if each end has an oracle it may be given: from every state of every play there is a round (calls with enough fuel come back, or stall in a read of a message that is not there), and finitely many rounds lead to both ends complete, unless a call panics for want of sequence numbers."},
  {"property": "C72", "status": "partial", "theorems": ["C72_serial", "C72_no_deadlock", "C72_exclusion", "C72_writers", "C72_write", "C72_read", "C72_read_refuted", "C72_update_refuted"], "note": "Proved for calls that hold the lock of the output layer, which of the API only Write does, beside calls that leave the layer alone, as a Read that gets application data does (C72_read): in every interleaving of any number of goroutines, the wire is a prefix of that of the same calls in the order in which they began, the layer is theirs when no call is going on, all calls can be ended from every such moment, and the nonces of the records of Write are all different. (C72_serial also covers calls that change keys under the lock: with it, Read and SendKeyUpdate would be safe.) False of the code for Write beside Read or SendKeyUpdate: Read answers a KeyUpdate, and SendKeyUpdate sends one, without the lock, and there is an interleaving in which the KeyUpdate and the data are sealed with the same key and nonce (witness: a connection that came out of a handshake; the peer then fails to decrypt). Memory is taken to be sequentially consistent; the comparison and the increment of the sequence number are one step."},
  {"property": "C73", "status": "proved", "theorems": ["C73_padding", "C73_write"], "note": "Two runs compared. The AEAD is any that lengthens what it seals by its overhead; that the sealed bytes themselves tell nothing is an assumption on the AEAD and no part of the claim."},
  {"property": "C74", "status": "proved", "theorems": ["C74_exclusion", "C74_no_deadlock", "C74_duplex"], "note": "Of each call the model (Locks.v) has the locks it takes and drops, read off the code, and steps between them; a read from the transport may take for ever (C74_duplex), a write to it is taken to end. The locks are taken in the order input or output, alerts, configuration. That the calls that hold no lock do not disturb each other is C72, not this."},
  {"property": "C75", "status": "partial", "theorems": ["C75_room", "C75_returned", "C75_in_time", "C75_no_leak", "C75_every_order", "C75_limit_partial", "C75_limit_refuted"], "note": "All of it is proved but the last sentence, which is false of the code when Deadline is this very moment: the difference is then 0, which stands for no limit, even if Timeout is set (C75_limit_refuted; C75_limit_partial proves it for all other cases). In the model (Limit.v) a handshake over a connection that is closed ends with an error, and time passes; Time.Sub does not overflow."},
  {"property": "C76", "status": "partial", "theorems": ["C76_working", "C76_reported", "C76_numbers", "C76_stop_refuted"], "note": "All of it is proved but the last sentence, which is false of the code: the failure is forgotten, and a later Write reports success although the peer takes its records for the rest of the one that broke off and gets nothing (C76_stop_refuted). The model (Faulty.v) is that of Record.v and Conn.v with a transport that may take a part of a record and then fail; over one that does not fail it is the same function (C76_working). Whole records of one run have different nonces by C11 and C72_writers."}
]}
