{"id": "C01", "title": "CONNECT message layout", "statement": "Whenever create_connect_message succeeds, the returned bytes are exactly MAGIC(E2C2E2D2) || VERSION(00000001) || u64 big-endian length of what follows || type 0001 || this layer's own ephemeral public key || SIG_ALGO(00000000) || the caller's signature public key || the custom data (nothing when None).", "quantifier": "every reachable layer, every public key, every custom data of every length (absent, empty or not)", "why_tests_cant": "A test fixes a few custom data values; the layout must hold for every length and content, including lengths that need more than one byte of the length field.", "anchors": ["src/minimal.rs MinimalSecureLayer::create_connect_message", "src/message.rs MessageRef::to_bytes, prepare_message", "README.md Messages format"]}
{"id": "C02", "title": "ACK message layout", "statement": "Whenever create_ack_message succeeds, the returned bytes are exactly MAGIC || VERSION || u64 length || type 0002 || SHA-256 of the ephemeral public key carried by the CONNECT this layer accepted || custom data.", "quantifier": "every history of calls on a layer in which no earlier call panicked, every custom data", "why_tests_cant": "The challenge depends on which CONNECT was accepted earlier in the history; tests only try the straight-line exchange.", "anchors": ["src/minimal.rs MinimalSecureLayer::create_ack_message", "src/message.rs MessageRef::write_challenge"]}
{"id": "C03", "title": "User message wire format", "statement": "Whenever write_message succeeds on a writer that takes all bytes, exactly one datagram is appended to it: the ChaCha20-Poly1305 sealing, under the agreed key/nonce/aad, of MAGIC || VERSION || u64 length || type 0000 || u64 nonce || data || SHA-256 of all that, followed by the 16-byte tag; nothing else is written.", "quantifier": "every reachable layer, every data of every length, every earlier writer content", "why_tests_cant": "The block-wise encryption loop must be right for every length (multiples of 64 or not), and the nonce for every history.", "anchors": ["src/minimal.rs MinimalSecureLayer::write_message, encrypt_and_write", "src/encryption/chacha20_poly1305_aead.rs encrypt"]}
{"id": "C04", "title": "The wire format is unambiguous", "statement": "Two messages produced by the library that have the same clear bytes are the same kind of message with the same fields: kind, ephemeral key, signature key, challenge, nonce and custom data bytes can all be recovered from the bytes.", "quantifier": "all pairs of messages of all kinds with 32-byte keys and nonces below 2^64", "why_tests_cant": "Injectivity is a statement about all pairs of messages.", "anchors": ["src/message.rs MessageRef::to_bytes", "src/reader.rs read_type_headers"]}
{"id": "C05", "title": "Accepted CONNECT and ACK datagrams are canonical", "statement": "If read returns a CONNECT or an ACK message, the datagram is exactly a well-formed frame (as in C01/C02, length field equal to the real length) holding the returned key and custom data, followed by exactly a 64-byte signature: no slack, no trailing bytes, no alternative encodings. On a 32-bit target the length field is only checked modulo 2^32.", "quantifier": "every byte string given to read, every reachable layer, every build target", "why_tests_cant": "Quantifies over all 2^n byte strings of every length.", "anchors": ["src/reader.rs read", "src/minimal.rs read_inner, verify_sig"]}
{"id": "C06", "title": "Delivered user messages are canonical and authenticated", "statement": "If read delivers a user message with data d, the datagram is exactly the sealing (C03) under this layer's agreed secret of a frame carrying some nonce and d, with correct Poly1305 tag and SHA-256; any other byte string is not delivered.", "quantifier": "every byte string given to read, every reachable layer", "why_tests_cant": "Quantifies over all byte strings, including every possible tampering of a genuine datagram.", "anchors": ["src/reader.rs read", "src/encryption/chacha20_poly1305_aead.rs decrypt", "src/minimal.rs read_inner"]}
{"id": "C07", "title": "CONNECT and ACK round trip", "statement": "A CONNECT (resp. ACK) created by one honest layer and signed with its key is accepted by a layer waiting for it, and the reader gets the same signature key and the same custom data (empty custom data is reported as absent).", "quantifier": "all pairs of layers in the expected negotiation state, all keys, all custom data", "why_tests_cant": "Must hold for all custom data contents and lengths, and all key material.", "anchors": ["src/minimal.rs create_connect_message, create_ack_message, read"]}
{"id": "C08", "title": "User message round trip", "statement": "A user message written by a layer is delivered unchanged by a layer that holds the same secret and has not seen that nonce, provided the first 4 key-stream bytes of the session are not all zero (otherwise the ciphertext starts with the clear-text magic and is rejected).", "quantifier": "all data of all lengths, all secrets satisfying the stated guard, all receiver windows with room", "why_tests_cant": "Must hold for all data and nonces; the failing key streams have probability 2^-32, tests never meet one.", "anchors": ["src/minimal.rs write_message, read", "src/reader.rs read"]}
{"id": "C09", "title": "Exactly which datagrams make read panic", "statement": "read panics on a datagram exactly when a stated syntactic condition holds (fewer than 4 bytes; a clear frame cut inside its headers; a length field that points outside the datagram or, after a valid signature or hash, before the end of the headers; an encrypted datagram shorter than 16 bytes or with a short plaintext; length overflow). In particular 'read never panics on network input' is false.", "quantifier": "every byte string, every reachable layer, every build target", "why_tests_cant": "Needs all inputs: the absence of any other panic cannot be shown by sampling.", "anchors": ["src/reader.rs read, read_type_headers", "src/minimal.rs read_inner, verify_sig"]}
{"id": "C10", "title": "read is total on well-framed datagrams", "statement": "On any clear datagram holding complete headers and whose length field lies between the end of the headers and the end of the datagram, read returns Ok or Err and never panics, whatever the layer's history.", "quantifier": "all well-framed datagrams, all reachable layers", "why_tests_cant": "Universal over histories and contents.", "anchors": ["src/reader.rs", "src/minimal.rs read_inner"]}
{"id": "C11", "title": "Negotiation succeeds exactly after the four events", "statement": "try_clone succeeds (the public witness of a successful negotiation) exactly when, in the history of the layer, a CONNECT was created, a valid CONNECT was accepted, an ACK was created, a valid ACK was accepted, and no fatal event happened. (If a panic of read is caught this is false: the negotiation can complete without any CONNECT having been delivered.)", "quantifier": "every history of API calls on a fresh layer in which no call panicked, of any length, with arbitrary datagrams", "why_tests_cant": "All interleavings of the two negotiation threads and of garbage in between.", "anchors": ["src/status.rs apply_action", "src/minimal.rs", "README.md Negotiation stage"]}
{"id": "C12", "title": "Each negotiation message at most once", "statement": "In any history of one layer, create_connect_message succeeds at most once, create_ack_message succeeds at most once, at most one CONNECT and at most one ACK are delivered.", "quantifier": "every history of API calls", "why_tests_cant": "Needs all histories, including those with errors in between.", "anchors": ["src/status.rs apply_action"]}
{"id": "C13", "title": "Negotiation order", "statement": "In any history, an ACK is only created after a CONNECT was delivered or accepted, an ACK is only delivered after our CONNECT was created, and a user message is only written or delivered after all four negotiation events, provided no earlier call panicked.", "quantifier": "every history of API calls", "why_tests_cant": "All interleavings.", "anchors": ["src/status.rs apply_action", "src/minimal.rs"]}
{"id": "C14", "title": "Failure is permanent", "statement": "Once a fatal event happened, no later call delivers a message, produces message bytes, writes anything, or clones the layer: the connection stays failed for ever.", "quantifier": "every failed layer and every later history of calls", "why_tests_cant": "Unbounded futures.", "anchors": ["src/status.rs apply_action (Fail)", "src/minimal.rs read_inner"]}
{"id": "C15", "title": "Which calls can fail the connection", "statement": "A working layer becomes failed exactly on: a datagram the reader rejects (bad magic, version, type, signature algorithm, undecryptable, wrong encryption state), a valid signed CONNECT or ACK out of turn, a second early ACK, a user message out of turn, more than 10000 out-of-order nonces, writing a user message before success, or a user message write error. Wrong key, wrong signature, wrong challenge, stale nonce and wrong hash never fail it.", "quantifier": "every reachable layer and every call", "why_tests_cant": "Complete case analysis over all calls and inputs.", "anchors": ["src/minimal.rs read_inner, write_message", "src/status.rs"]}
{"id": "C16", "title": "Refused negotiation calls have no effect", "statement": "When create_connect_message, create_ack_message, try_clone or change_config returns an error, the layer is exactly as before.", "quantifier": "every layer state and argument", "why_tests_cant": "All states.", "anchors": ["src/status.rs apply_action", "src/minimal.rs create_connect_message, create_ack_message, try_clone, change_config"]}
{"id": "C17", "title": "Writing before success kills the connection", "statement": "write_message before the negotiation succeeded writes nothing, returns NegoMustHaveBeenSuccessful (ConnectionHadFail if already failed) and makes the layer permanently failed.", "quantifier": "every layer whose negotiation has not succeeded, all data, all writers", "why_tests_cant": "All negotiation states.", "anchors": ["src/minimal.rs write_message", "src/status.rs"]}
{"id": "C18", "title": "Internal 'dev error' panics", "statement": "No history of API calls reaches the panics for a missing peer key, a missing ephemeral key pair or a wrong secret length. The panic for a missing secret in write_message is reachable exactly after a signed CONNECT whose key agreement was refused by the crypto library (all-zero point): negotiation still completes and the first write_message panics.", "quantifier": "every history of API calls", "why_tests_cant": "Reachability over all histories; the failing one needs a malicious low-order ephemeral key.", "anchors": ["src/minimal.rs compute_shared_secret, encrypt_and_write", "src/message.rs prepare_message", "src/encryption.rs build"]}
{"id": "C19", "title": "One agreement per layer", "statement": "The session secret is set at most once in the life of a layer, by the CONNECT that is accepted, is derived from that CONNECT's ephemeral key, and never changes afterwards; the ephemeral private key is gone from then on.", "quantifier": "every history of API calls", "why_tests_cant": "All histories.", "anchors": ["src/minimal.rs compute_shared_secret"]}
{"id": "C20", "title": "Pinned peer key", "statement": "A layer created with an expected peer key only ever delivers CONNECT and ACK messages that carry a valid signature under exactly that key, and a delivered CONNECT reports that key.", "quantifier": "every pinned key, every history, every datagram", "why_tests_cant": "All adversarial inputs.", "anchors": ["src/minimal.rs read_inner", "src/signature.rs verify_sig"]}
{"id": "C21", "title": "One peer key per connection", "statement": "On a layer created without expected key, the delivered CONNECT and every delivered ACK are all validly signed under one and the same key, which is the one reported by the CONNECT.", "quantifier": "every history of an unpinned layer", "why_tests_cant": "All adversarial inputs and interleavings.", "anchors": ["src/minimal.rs read_inner, take_ack_msg_recv_too_early"]}
{"id": "C22", "title": "Rejected datagrams leave no trace, except the listed ones", "statement": "A datagram that read rejects without failing the connection leaves the layer unchanged, except that a CONNECT with a bad signature read by an unpinned layer pins its key, and that a CONNECT whose key agreement fails (FailToComputeAgreement, C18) still advances the negotiation. Consequence (a defect): one forged, unsigned CONNECT makes an unpinned layer refuse the honest peer's CONNECT.", "quantifier": "every reachable layer, every datagram", "why_tests_cant": "All datagrams in all states; the defect needs a forged datagram before the honest one.", "anchors": ["src/minimal.rs read_inner lines 192-206"]}
{"id": "C23", "title": "ACK freshness", "statement": "Every delivered ACK carries the SHA-256 of this very layer's ephemeral public key inside the signed bytes, so an ACK meant for another session is never delivered unless SHA-256 collides on the ephemeral keys.", "quantifier": "every history and datagram", "why_tests_cant": "All datagrams, including replays from other sessions.", "anchors": ["src/minimal.rs read_inner lines 216-220"]}
{"id": "C24", "title": "Encryption state is enforced", "statement": "read never delivers a user message from a clear datagram, nor a CONNECT or an ACK from an encrypted one.", "quantifier": "every datagram, every layer", "why_tests_cant": "All inputs.", "anchors": ["src/reader.rs lines 81-88", "src/message.rs must_be_encrypted"]}
{"id": "C25", "title": "Early ACK handling", "statement": "An ACK with the right challenge that arrives before any peer key is known is kept (at most one), delivered only by take_ack_msg_recv_too_early or by the read of the CONNECT in complete mode, and only after the full signature check against the key of the CONNECT.", "quantifier": "every history of API calls", "why_tests_cant": "All interleavings of ACK and CONNECT.", "anchors": ["src/minimal.rs lines 222-230, take_ack_msg_recv_too_early", "src/complete.rs read_bin"]}
{"id": "C26", "title": "A forged early ACK can block the connection", "statement": "Because an early ACK is kept before its signature is checked, an attacker without any key who knows the ephemeral key (it is public) can make the honest ACK fail the connection; the claim 'only the peer's key holder can make a valid exchange fail' is false.", "quantifier": "exists an attack history; for all layers without pinned key", "why_tests_cant": "Needs an adversarial history.", "anchors": ["src/minimal.rs lines 222-230"]}
{"id": "C27", "title": "No replay: every delivery consumes its own datagram and nonce", "statement": "In any history of one layer shorter than 2^64 calls, the delivered user messages (by read and by drain_tmp_stack_user_msgs) can be matched one to one with distinct submitted datagrams having pairwise distinct nonces, each opening under the session secret to that nonce and that data.", "quantifier": "every history of API calls with arbitrary datagrams", "why_tests_cant": "All histories; replay protection must survive every reorder, error and drain in between.", "anchors": ["src/minimal.rs lines 242-278, drain_tmp_stack_user_msgs"]}
{"id": "C28", "title": "Exact acceptance rule for out-of-order messages", "statement": "On a successful layer, an authentic user message with nonce n is delivered exactly when n was not delivered before and (n is the least undelivered nonce or fewer than 10000 nonces above the least undelivered one were delivered).", "quantifier": "every set of delivered nonces reachable in any order, every nonce", "why_tests_cant": "All permutations of arrival orders.", "anchors": ["src/minimal.rs lines 264-277", "src/constants.rs MAX_ORPHAN_NONCES"]}
{"id": "C29", "title": "Bounded replay memory", "statement": "The memory used to remember out-of-order nonces never exceeds 10000 entries, they are all above the next expected nonce, and there is no duplicate.", "quantifier": "every reachable layer", "why_tests_cant": "All histories.", "anchors": ["src/minimal.rs lines 264-277"]}
{"id": "C30", "title": "Sent nonces count 0,1,2,...", "statement": "The k-th successful write_message of a layer (counting from 0, k below 2^64) sends nonce k; no other call changes the counter; so one layer never uses a nonce twice in fewer than 2^64 writes.", "quantifier": "every history of calls, with failures in between", "why_tests_cant": "All histories.", "anchors": ["src/minimal.rs write_message lines 378-389"]}
{"id": "C31", "title": "A failed write never leads to nonce reuse", "statement": "If writing a user message fails because of the writer, the layer is permanently failed, so the nonce of the partially written datagram is never used again by that layer.", "quantifier": "every writer failure point (script of accepted counts and errors)", "why_tests_cant": "All crash points of the writer.", "anchors": ["src/minimal.rs write_message lines 385-388"]}
{"id": "C32", "title": "Nonces and clones", "statement": "try_clone copies both nonce counters: each handle on its own is free of replay and reuse, but the pair is not: the original and its clone send the same nonce for different data, and a datagram delivered to one is delivered again by the other.", "quantifier": "all successful layers; all data", "why_tests_cant": "Statement over pairs of handles and histories.", "anchors": ["src/minimal.rs try_clone"]}
{"id": "C33", "title": "Nonce counter overflow", "statement": "At 2^64 the counters panic with overflow checks and wrap to 0 without; the wrap re-enables replay. Below 2^64 steps neither can happen.", "quantifier": "all layers, both build profiles", "why_tests_cant": "2^64 steps cannot be tested.", "anchors": ["src/minimal.rs lines 266, 268, 382"]}
{"id": "C34", "title": "Early user messages are delivered later, in order, once", "statement": "User messages read between our ACK and the peer's ACK are kept, read returns None for them, and after the ACK is accepted drain_tmp_stack_user_msgs delivers exactly them, in arrival order, provided they are authentic, pairwise distinct in nonce and few enough for the window.", "quantifier": "every number of early messages, every arrival order", "why_tests_cant": "Unbounded queues and all orders.", "anchors": ["src/minimal.rs lines 248-255, drain_tmp_stack_user_msgs"]}
{"id": "C35", "title": "Draining too early is harmless", "statement": "drain_tmp_stack_user_msgs before the ACK delivers nothing and leaves the layer exactly as it was.", "quantifier": "every reachable layer in negotiation", "why_tests_cant": "All states.", "anchors": ["src/minimal.rs drain_tmp_stack_user_msgs"]}
{"id": "C36", "title": "A replay during the early phase destroys messages", "statement": "The early queue is filled without checking nonces against each other: one duplicated datagram makes drain fail with InvalidNonce and every message of the queue is lost although all had been accepted; and the queue has no bound.", "quantifier": "exists histories for every queue; for every n a history with queue length n", "why_tests_cant": "Needs an adversarial network during the short early phase.", "anchors": ["src/minimal.rs lines 248-255, drain_tmp_stack_user_msgs"]}
{"id": "C37", "title": "Both sides derive the same secret", "statement": "If A accepted B's ephemeral key and B accepted A's, both layers hold the same cipher key, nonce and associated data, whichever of the two public keys is larger.", "quantifier": "all key pairs", "why_tests_cant": "All key pairs; the salt rule must be symmetric for both orders.", "anchors": ["src/agreement.rs compute_shared_secret, derive", "src/encryption/chacha20_poly1305_aead.rs SecretKey::new"]}
{"id": "C38", "title": "Secret derivation follows the README", "statement": "The session key, nonce and aad are bytes 0-31, 32-43 and 44-47 of the 48-byte PBKDF2-HMAC-SHA384 output, with salt the larger of the two ephemeral public keys and 3 iterations.", "quantifier": "all key pairs", "why_tests_cant": "All key pairs.", "anchors": ["src/agreement.rs", "src/encryption/chacha20_poly1305_aead.rs SecretKey::new"]}
{"id": "C39", "title": "Two honest peers always succeed, in any schedule", "statement": "Two honest complete-mode layers over a network that delivers every datagram exactly once but in any order and at any time: no call ever fails, both negotiations succeed once the four messages are delivered, and every user message sent is delivered exactly once and unchanged (early ACKs and early user messages included), as long as no user message is handed over while one sent more than 10000 messages before it is still missing. At any point the two sides can still finish the negotiation and receive everything sent.", "quantifier": "all schedules of all lengths, all keys for which the agreement is defined, pinned or unpinned, all message contents", "why_tests_cant": "All interleavings of two processes and a reordering network.", "anchors": ["src/complete.rs", "src/minimal.rs", "src/status.rs"]}
{"id": "C40", "title": "Reflection", "statement": "Claim 'a user message delivered by a layer was written by its peer' is false without further assumption: both directions use one key and one nonce space, so a layer delivers its own datagrams when they are reflected to it, and an unpinned layer completes a whole negotiation with itself.", "quantifier": "for every successful layer and data the reflected datagram is delivered", "why_tests_cant": "Needs an active network adversary.", "anchors": ["src/minimal.rs read_inner", "src/encryption/chacha20_poly1305_aead.rs"]}
{"id": "C41", "title": "Identity misbinding", "statement": "An attacker with their own signature key who re-signs A's ephemeral key makes B accept a session that B believes is with the attacker while the key is shared with A; delivered messages are attributed to the wrong identity.", "quantifier": "exists an attack history", "why_tests_cant": "Needs an active adversary.", "anchors": ["src/minimal.rs read_inner lines 187-215"]}
{"id": "C42", "title": "Key stream reuse", "statement": "All user messages of a session, in both directions, are encrypted with the same key stream: the xor of any two ciphertexts (without tags) equals the xor of the two plaintexts, so an eavesdropper learns it without any key; one who also knows one of the two messages and its number gets the other one, as far as the known one is long.", "quantifier": "all pairs of messages of all lengths, all layers sharing a secret", "why_tests_cant": "Statement over all pairs of messages.", "anchors": ["src/encryption/chacha20_poly1305_aead.rs encrypt"]}
{"id": "C43", "title": "Complete mode round trips", "statement": "In complete mode custom data and messages survive signing/encryption and compression: what write_connect_msg_bin / write_ack_msg_bin / write_bin were given is what read_bin returns, for every compression configuration of the two sides, distinguishing absent from empty data.", "quantifier": "all data, all configurations of both sides", "why_tests_cant": "All data and configurations.", "anchors": ["src/complete.rs compress, uncompress, read_bin, write_bin"]}
{"id": "C44", "title": "Shape of read_bin results", "statement": "read_bin returns nothing, one CONNECT, one CONNECT followed by one ACK, one ACK followed by user messages, or one user message; never anything else.", "quantifier": "every layer and datagram", "why_tests_cant": "All inputs.", "anchors": ["src/complete.rs read_bin"]}
{"id": "C45", "title": "Complete mode never strands early messages", "statement": "In complete mode, after the negotiation has succeeded no user message is left waiting in the early queue, provided no read reported a decompression error or panicked. Without that proviso it is false: an authentic ACK whose payload does not inflate completes the negotiation and strands the early messages.", "quantifier": "every history of complete-mode calls", "why_tests_cant": "All interleavings.", "anchors": ["src/complete.rs read_bin"]}
{"id": "C46", "title": "Undecodable payloads are consumed", "statement": "When the payload of an authentic datagram cannot be inflated or deserialised, read_bin/read return an error but the datagram counts as received: the connection is not failed, and the same datagram read again is refused as a second CONNECT, a second ACK or a replay.", "quantifier": "every layer, every authentic datagram with bad payload", "why_tests_cant": "All payloads and states.", "anchors": ["src/complete.rs read_bin", "src/complete/serde/deserializer.rs"]}
{"id": "C47", "title": "Clones cannot negotiate", "statement": "A cloned complete-mode layer has no signing key: write_connect_msg* and write_ack_msg* on it return ConnectMsgAlreadyWritten, write nothing and change nothing.", "quantifier": "every clone, every argument", "why_tests_cant": "All states.", "anchors": ["src/complete.rs try_clone", "src/complete/writer.rs"]}
{"id": "C48", "title": "Configuration changes", "statement": "change_config succeeds exactly when the layer was never cloned (and is not a clone); it changes nothing but the configuration, and the configuration never influences how datagrams are read.", "quantifier": "every history, every configuration", "why_tests_cant": "All histories and configurations.", "anchors": ["src/minimal.rs change_config, try_clone", "src/complete.rs compress"]}
{"id": "C49", "title": "Typed round trip, self-describing format", "statement": "A value written with write / write_connect_msg / write_ack_msg in Bincode, CBOR or JSON format is returned equal by read, whatever message format the receiver is configured with.", "quantifier": "all values of all serialisable types, all formats, all configurations of the receiver", "why_tests_cant": "All values and configurations.", "anchors": ["src/complete/serde/serializer.rs", "src/complete/serde/deserializer.rs", "src/format.rs"]}
{"id": "C50", "title": "Format header codec", "statement": "Each enabled message format has a distinct 4-byte header that decodes to itself; any other header (including those of disabled formats) is rejected with UnknownMessageFormat and data shorter than 4 bytes with MessageTooShort.", "quantifier": "all features combinations, all byte strings", "why_tests_cant": "All byte strings and feature combinations.", "anchors": ["src/format.rs TryFrom, AsRef", "src/complete/serde/deserializer.rs deserialize"]}
{"id": "C51", "title": "Serialisation errors have no effect", "statement": "When serialisation fails (RawBinary format or a back-end error), the typed write functions write nothing and leave the layer unchanged.", "quantifier": "all values, layers, writers", "why_tests_cant": "All states.", "anchors": ["src/complete/serde/serializer.rs"]}
{"id": "C52", "title": "Plain text format panics", "statement": "The Utf8PlainText format, selectable by any caller, panics in typed writes; and any peer that sends a payload with that header makes the receiver's typed read panic.", "quantifier": "all values with that format; exists a remote payload", "why_tests_cant": "Needs the untested variant and a hostile peer.", "anchors": ["src/complete/serde/serializer.rs:119", "src/complete/serde/deserializer.rs:104"]}
{"id": "C53", "title": "Writers that take everything get exactly the message", "statement": "On a writer that takes all bytes, every successful write function appends exactly the bytes of its message (message || signature for CONNECT/ACK, ciphertext || tag for user messages) after what was already there, whatever the buffer capacity and content.", "quantifier": "all capacities, all pending contents, all messages", "why_tests_cant": "All capacities and sizes relative to it.", "anchors": ["src/complete/writer.rs", "src/minimal.rs write_message"]}
{"id": "C54", "title": "Short writes", "statement": "A user message written to any writer whose buffer is larger than 16 bytes either reports an error, which fails the connection, or has handed over the whole datagram; what was handed over is always a prefix of it. On an established layer the error wraps the I/O error the writer gave; otherwise nothing is handed over and the error says that the negotiation is not finished, or that the connection had failed. With a smaller buffer the tag can be cut although the reply is Ok. The negotiation writers guarantee it only for a message shorter than the buffer: with a message at least as large as the buffer and a sink that takes fewer bytes per call, write_connect_msg_bin returns Ok although bytes are missing.", "quantifier": "all sink behaviours (counts and errors at each call)", "why_tests_cant": "All sink behaviours.", "anchors": ["src/complete/writer.rs lines 43-49, 86-98", "src/encryption/chacha20_poly1305_aead.rs lines 83-85"]}
{"id": "C55", "title": "A failed CONNECT write cannot be retried", "statement": "If the writer fails while a CONNECT (or ACK) is written, the error is BufferFlushError but the layer has advanced: whatever is called afterwards, that CONNECT (ACK) can never be written again on that layer. The writer then did give an I/O error; any other error leaves layer and writer unchanged.", "quantifier": "all sink failures during write_connect_msg_bin / write_ack_msg_bin", "why_tests_cant": "All crash points.", "anchors": ["src/complete/writer.rs"]}
{"id": "C56", "title": "Creation", "statement": "create fails exactly when the random generator or key derivation fails, with the corresponding error; otherwise the layer starts with an unstarted negotiation, the configuration and pinned key given, and a public key matching its private key.", "quantifier": "all randomness outcomes, configurations, keys", "why_tests_cant": "All outcomes of the generator.", "anchors": ["src/minimal.rs create", "src/complete.rs create", "src/agreement.rs generate"]}
{"id": "C57", "title": "A lost message ends the connection", "statement": "While user message number j has not arrived, at most 10000 messages numbered after it are delivered. Once 10000 of them are delivered, any new message other than j itself is refused with TooManyUnorderedMsgs and the connection has failed. So when the first message of a session is lost for good, the next 10000 are delivered and the first one after them kills the connection. The same holds in minimal mode when the first message did arrive, before the ACK, and the application has not asked for it with drain_tmp_stack_user_msgs: after 10000 more, either it asks, is given the message and the connection lives, or the next message read kills it.", "quantifier": "all histories of reads, all positions of the lost message, all contents", "why_tests_cant": "Needs more than 10000 messages in every order.", "anchors": ["src/minimal.rs read_inner lines 244-276, MAX_ORPHAN_NONCES"]}
{"id": "C58", "title": "Junk and repeated negotiation datagrams end the connection", "statement": "One datagram made of the magic value and a wrong version, which anybody can send, fails any connection that has not failed yet, in any state. So does a second copy of the CONNECT that was delivered (UnexpectedConnectMsg) or of the ACK that was delivered (UnexpectedAckMsg), whatever happened in between.", "quantifier": "all states, all histories between the first copy and the second", "why_tests_cant": "All states and histories.", "anchors": ["src/minimal.rs read_inner", "src/reader.rs read", "src/status.rs apply_action"]}
{"id": "C59", "title": "Authentication against an active attacker", "statement": "Suppose that every datagram given to a layer that carries a good signature of key pk was signed by pk's owner (Ed25519 is not forged). Whatever else the network does, a CONNECT delivered under pk was created by a layer of that owner with the same custom data, and the session key is the one shared with that layer's ephemeral key; a delivered ACK was created by a layer of that owner, with the same custom data, in answer to this layer's own ephemeral key. A layer that expects pk and is established thus shares its key with the owner's ephemeral key and was answered by the owner.", "quantifier": "all histories of the layer, all sets of histories of the owner's layers, all attackers that do not forge signatures", "why_tests_cant": "All interleavings of sessions and all injected datagrams.", "anchors": ["src/minimal.rs read_inner, create, verify_sig"]}
{"id": "C60", "title": "CONNECT and ACK of different sessions can be mixed", "statement": "The layer whose CONNECT was accepted and the layer whose ACK was accepted need not be the same: from two sessions of the same peer an attacker can give a layer the CONNECT of one and the ACK of the other; the layer then reports success with a key that neither session of the peer has.", "quantifier": "all keys, configurations and custom data; counterexample to 'the established peer session has the same key'", "why_tests_cant": "Needs two sessions of one peer interleaved by an attacker.", "anchors": ["src/minimal.rs read_inner", "README.md Negotiation stage"]}
{"id": "C61", "title": "Delivered messages are the peer's", "statement": "Suppose that every datagram given to a layer that carries a good tag under its session key was written by one of the layers W holding that key (Poly1305 is not forged; note that the code uses one nonce for all messages, see C42). Then the user messages delivered by the layer have distinct numbers, and the one with number n is the n-th message written by a layer of W. (W contains the layer itself, see C40 for reflected messages.)", "quantifier": "all histories of the layer and of the writers, all attackers that do not forge tags", "why_tests_cant": "All interleavings, losses, replays and injections.", "anchors": ["src/minimal.rs read_inner, write_message", "src/encryption/chacha20_poly1305_aead.rs"]}
{"id": "C62", "title": "What a layer answers to any sequence of messages", "statement": "An established layer answers to any sequence of the peer's numbered messages (in any order, with losses and repetitions) exactly like a receiver that only remembers the numbers delivered: a number delivered before is refused as a repetition; a new number is delivered if it is the least missing one or if fewer than 10000 numbers above the least missing one were delivered; otherwise the connection fails, and from then on new numbers get ConnectionHadFail. In particular, if no message overtakes another by more than 10000, or there are at most 10000 messages, each is delivered the first time it arrives, each repetition is refused, and the connection stays up.", "quantifier": "all histories leading to an established layer (without lost deliveries), all sequences of datagrams that open under the session key, fewer than 2^64 datagrams", "why_tests_cant": "All orders, losses and repetitions of an unbounded number of messages; the refusal threshold needs more than 10000 messages.", "anchors": ["src/minimal.rs read_inner", "src/constants.rs"]}
{"id": "C63", "title": "Complete mode is minimal mode plus signing and compression", "statement": "Every history of a SecureLayer is, call by call, a history of the minimal-mode layer it wraps, created with the same ephemeral key, configuration and expected peer key. read_bin reads once, then asks for the early ACK after a CONNECT or drains the early messages after an ACK, and returns what was delivered, inflated; an error or panic inside is the error or panic returned; write_connect_msg_bin and write_ack_msg_bin create the message inside and write it with its signature under the layer's signing key; write_bin writes the deflated data; try_clone and change_config are those of the wrapped layer.", "quantifier": "all creation arguments, all sequences of calls, all writers", "why_tests_cant": "All histories of calls.", "anchors": ["src/complete.rs"]}
{"id": "C64", "title": "Authentication in complete mode", "statement": "Suppose every datagram given to read_bin that carries a good signature of a key was written by write_connect_msg_bin or write_ack_msg_bin of one of the layers B with that signing key. Whatever else the network does, a CONNECT returned under that key was written by a layer of B with exactly the same custom data, and the session key is the one shared with that layer's ephemeral key; an ACK returned was written by a layer of B with the same custom data in answer to this layer's ephemeral key; a layer expecting that key that is established shares its session key with a layer of B and was answered by one. If likewise every datagram with a good tag was written by write_bin of one of the layers W holding the session key, the user messages returned are messages these layers wrote, each under its own number.", "quantifier": "all histories of the layer and of the other layers, all attackers that forge neither signatures nor tags", "why_tests_cant": "All interleavings of sessions and all injected datagrams.", "anchors": ["src/complete.rs read_bin, write_connect_msg_bin, write_ack_msg_bin, write_bin", "src/minimal.rs read_inner"]}
{"id": "C65", "title": "A connection can be shared between a layer and its clone", "statement": "Take any run of receiving calls and user-message writes on an established layer in which no call reports failure. Clone the layer first, make the receiving calls on the original and the writes on the clone: each call gives exactly the reply it gave in the single run, whatever the interleaving was. The same holds in complete mode with read_bin and write_bin. With the roles swapped (the clone receives, the original writes) it holds as long as nothing that starts like a negotiation message is received; otherwise it does not, because a clone has forgotten the peer's signature key and takes in an unsigned ACK that the original refuses. The halves do not fail together: after a fatal read the clone still writes.", "quantifier": "all established layers, all interleavings of receiving and sending calls, all inputs and writers", "why_tests_cant": "The independence must hold for every interleaving of every pair of call sequences.", "anchors": ["src/minimal.rs try_clone, read, write_message", "src/complete.rs try_clone, read_bin, write_bin"]}
{"id": "C66", "title": "The typed methods over whole histories", "statement": "Typed and binary calls on a SecureLayer may be mixed in any order. The layer behaves as if only binary calls had been made: read is read_bin followed by decoding, the typed writes are the binary writes of the value in the format configured at that moment, and a value that cannot be put in that format makes no call at all. Hence what the typed methods return is as authentic as in C64: if signatures and tags are not forged, each value (or each payload, through read_bin) returned with a CONNECT, an ACK or as a user message is what a layer of the peer wrote with a message of that kind: the same value, the same bytes, the bytes of that value in some format, or the value those bytes decode to; user messages correspond to distinct writes. Which interface wrote the content is not authenticated: bytes can come back as a value and the other way round.", "quantifier": "all creation arguments, all sequences of typed and binary calls with format changes, all serialisers, all attackers that forge neither signatures nor tags", "why_tests_cant": "All histories, serialisers, formats and injected datagrams.", "anchors": ["src/complete.rs read, write, write_connect_msg, write_ack_msg", "src/complete/serde.rs"]}
{"id": "C67", "title": "Message boundaries", "statement": "A datagram that is delivered announces its own length: two delivered datagrams (of the same session, if they are user messages) with the same first 16 bytes are equally long, so no delivered datagram is a proper beginning of another one. Each read takes exactly one datagram. Bytes glued to a CONNECT or ACK that would have been delivered make the call fail with an invalid signature and leave the layer as it was (but for the peer key an unpinned layer remembers); bytes glued to a user message end the connection unless the whole is again a sealing under the session key. Hence two messages written one after the other to one writer and handed over in one piece are not delivered, in minimal or complete mode.", "quantifier": "all reachable layers, all datagrams and all bytes glued to them", "why_tests_cant": "All datagrams and all continuations of them.", "anchors": ["src/minimal.rs read_inner, write_message", "src/reader.rs", "src/message.rs"]}
{"id": "C68", "title": "What the length of the traffic shows", "statement": "In minimal mode, replacing the user messages written in a run by others of the same lengths changes nothing but the bytes written: the layer ends in the same state, every call has the same result, and every writer gets as many bytes (74 more than the message if the writer takes everything). This holds for writers that are slow, interrupted or broken too. In complete mode the same holds with the lengths after compression, and therefore not with the lengths of the messages: with any correct compressor that shortens some message, another message of the same length gives a datagram of another length from the same layer.", "quantifier": "all layers, all runs, all messages, all writers; all compressors for the counterexample", "why_tests_cant": "A statement about pairs of runs, for all contents.", "anchors": ["src/minimal.rs write_message", "src/complete.rs compress, write_bin", "src/encryption/chacha20_poly1305_aead.rs encrypt"]}
{"id": "C69", "title": "Values between two honest peers", "statement": "Two honest peers that use the typed methods, each with its own build features, over a network that delays and reorders but neither loses nor changes datagrams: as long as each writes only values its configured format can express and a format the other's build has (formats may change between messages), and no user message is handed over more than 10000 places early, no call fails and no layer gives up; the values read with the CONNECT, the ACK and as user messages are the values written, with the other's public key, in the order the datagrams were handed over; nothing is read that was not written or more often than written, and everything once nothing travels; a side has negotiated exactly when it wrote its ACK and read the other's; and from any point the two can still finish. Without the condition on the other's build a message that was written without error can fail to be read.", "quantifier": "all key pairs, configurations and builds, all serialisers, all interleavings of calls and deliveries, all values", "why_tests_cant": "All interleavings of two applications and a reordering network, all serialisers.", "anchors": ["src/complete.rs read, write, write_connect_msg, write_ack_msg, change_config", "src/complete/serde.rs", "src/format.rs"]}
{"id": "C70", "title": "What read_bin and read answer to any sequence of messages", "statement": "An established SecureLayer that returned the peer's ACK answers to any sequence of the peer's numbered messages (in any order, with losses and repetitions) exactly like a receiver that only remembers the numbers accepted: a number accepted before is refused as a repetition; a new number within the window is accepted and its payload returned inflated, or reported as ZipError if it cannot be inflated, in which case the number is used up but the connection stays up; a number outside the window ends the connection, and from then on new numbers get ConnectionHadFail. If no message overtakes another by more than 10000, or there are at most 10000, read_bin returns each message exactly once, the first time it arrives; read likewise returns each value exactly once.", "quantifier": "all histories leading to an established layer that never panicked, all compressors and serialisers, all sequences of datagrams that open under the session key, fewer than 2^64 datagrams", "why_tests_cant": "All orders, losses and repetitions of an unbounded number of messages; the threshold needs more than 10000 messages.", "anchors": ["src/complete.rs read_bin, read", "src/minimal.rs read_inner", "src/constants.rs"]}
{"id": "C71", "title": "The whole protocol as one small machine", "statement": "Along every history of calls, from creation on and through clones, a MinimalSecureLayer answers exactly as a small machine that remembers only: its ephemeral private key, the peer's signature key, the ephemeral key of the CONNECT taken in, whether it sent its CONNECT and its ACK and took in an ACK, whether it failed, an ACK kept back, the messages kept back, the set of numbers taken in, how many messages it wrote and whether it was cloned. The machine determines every reply (messages, errors, bytes written) when writers take all they are given, so nothing else in the layer, neither its configuration, nor the order in which the messages came, nor the way it came into this situation, can be observed; in particular, messages delivered in two different orders leave layers that answer every later call the same way; established, failed, the session key and the numbers received can be read off it.", "quantifier": "all creation arguments, all sequences of calls with all arguments, clones of clones, up to 2^64 calls", "why_tests_cant": "A complete description of the behaviour over all histories, and its determinacy.", "anchors": ["src/minimal.rs", "src/status.rs", "src/reader.rs", "src/message.rs", "src/encryption.rs"]}
{"id": "C72", "title": "The whole of complete mode as one small machine", "statement": "Along every history of binary and typed calls, from creation on and through clones, a SecureLayer answers exactly as the machine of C71 with a signing key (none in a clone) and a configuration: read_bin reads once, then takes the ACK kept back after a CONNECT or hands over the messages kept back after an ACK, unless the payload just read cannot be inflated; payloads are inflated in order until one cannot be; the CONNECT and the ACK are written with their signature, and refused on a clone; user messages and custom data are packed according to the configuration. The machine determines every reply when writers take all they are given, so two layers whose machines are the same up to the order of the messages received cannot be told apart by any calls, binary or typed, in any build; in particular, messages delivered in two different orders, through either interface, leave layers that answer every later call the same way.", "quantifier": "all creation arguments, all compressors, serialisers and builds, all sequences of binary and typed calls with all arguments, clones of clones, up to 2^63 calls", "why_tests_cant": "A complete description of the behaviour over all histories, and its determinacy.", "anchors": ["src/complete.rs", "src/complete/writer.rs", "src/complete/serde.rs", "src/minimal.rs"]}
{"id": "C73", "title": "Two honest peers in minimal mode always succeed", "statement": "Two applications that use minimal mode, sign their CONNECT and ACK themselves and ask for early messages whenever they like (too soon, repeatedly or late), over a network that delivers every datagram exactly once but in any order and at any time: no call ever fails; the CONNECT is returned at once with the other's key; the ACK is returned by read, or by take_ack_msg_recv_too_early once the CONNECT was read; every user message sent is returned exactly once and unchanged (no data reads as absent), by read or by drain_tmp_stack_user_msgs once the ACK was read. A side has negotiated exactly when it made its ACK and was given the other's. The only condition: no user message is handed over while one sent more than 10000 messages before it has not been returned to the application (or, before the ACK was returned, not been handed over). From any point the two can still finish and be given everything sent.", "quantifier": "all keys, pinning choices and configurations of the two peers, all custom data and messages that fit the address space, all schedules of calls and deliveries within the stated condition", "why_tests_cant": "The schedules are unbounded, and every interleaving of the applications' own questions with early ACKs and early messages must work.", "anchors": ["src/minimal.rs: create_connect_message, create_ack_message, read, take_ack_msg_recv_too_early, drain_tmp_stack_user_msgs, write_message", "README.md"]}
{"id": "C74", "title": "The build does not matter", "statement": "32 or 64 bits, overflow checks on or off: whatever the build, a layer that is created, used and cloned in the same way ends in the same state and gives the same answers, byte for byte, except that a read which panics in one build may panic with another text in the other. This holds as long as fewer than 2^64 calls are made and every datagram read announces a length that fits in 32 bits with the 16 bytes before it (in the clear, or in what it seals under the session key); everything an honest peer sends does, unless the message or custom data takes 4 gigabytes. In complete mode, through binary and typed methods alike, the same for up to 2^63 calls and datagrams of up to 429 megabytes. Without the condition it is false: a signed CONNECT whose length field is 2^32 too large is accepted by a 32-bit build and makes a 64-bit build panic.", "quantifier": "all pairs of builds, all creation arguments, all sequences of calls with all arguments (writers of any kind included), clones of clones", "why_tests_cant": "A statement about pairs of builds over all histories; tests run on one build.", "anchors": ["src/reader.rs read", "src/minimal.rs read_inner, write_message", "src/encryption/chacha20_poly1305_aead.rs decrypt", "src/complete.rs read_bin"]}
{"id": "C75", "title": "The buffer asked for before inflating", "statement": "read_bin and read ask for a buffer of five times the size of a payload before they inflate it. As long as every datagram is shorter than a tenth of the address space (429 megabytes with 32 bits), this changes nothing, in any history, so what is proved of the methods without the buffer holds of those with it. Above that, in an established session, it depends on the size of the (compressed) payload alone: if five times that size overflows in a build with overflow checks, or is (after wrapping around in a build without) more than isize::MAX, the call panics, the connection stays usable and the message is lost, since its number is used up; otherwise it is delivered as usual. The naive claim that the buffer makes no difference is false: a message of 429,496,730 bytes makes a 32-bit build panic. With the buffer, all builds still agree as in C74.", "quantifier": "all builds, all histories of binary and typed calls on a layer and its clones, all payload sizes", "why_tests_cant": "The first size concerned is 429 megabytes on 32-bit machines and 1.8 exabytes on 64-bit ones, and the equality is about all histories.", "anchors": ["src/complete.rs uncompress, read_bin", "src/complete/serde/deserializer.rs read"]}
{"id": "C76", "title": "How much a layer holds", "statement": "Over any history of calls, the keys and queues a MinimalSecureLayer or SecureLayer holds grow by at most three keys (112 bytes) plus the datagrams it put aside, which are those whose read was answered 'no message yet' (Ok(None), or no messages from read_bin): messages written, delivered or refused leave nothing behind; the replay memory never takes more than 80,000 bytes. A layer starts with its key pair and the peer key it was given, and a clone holds no more than its origin. Once a created layer has negotiated, it never puts anything aside again and only its replay memory can grow. Draining the queue and taking the early ACK release everything put aside, whatever they answer: from then on the layer holds at most three keys more than at its creation. Before the peer's ACK there is no limit: one user message sent again and again is kept every time, less its 16-byte tag, so the claim that the memory of a layer is bounded is false.", "quantifier": "all reachable layers and clones, all sequences of calls with all arguments, in both modes", "why_tests_cant": "A bound over histories of any length, under any traffic.", "anchors": ["src/minimal.rs MinimalSecureLayer, read_inner, drain_tmp_stack_user_msgs, take_ack_msg_recv_too_early, try_clone", "src/complete.rs read_bin", "src/constants.rs"]}
{"id": "C77", "title": "What Debug output reveals", "statement": "Formatting a layer with {:?} shows everything but the private halves of its keys: two MinimalSecureLayers print the same text exactly when they agree on everything except the private key of the negotiation and the order of the replay memory (a set), and two SecureLayers when moreover their signature public keys are the same. So a log line with {:?} of a layer gives away the session key; whoever reads it can read the user data of every datagram of the session, earlier or later and in both directions, and can make datagrams with any content and any number not received yet that the peer, or the layer itself, delivers. Before the peer's ACK the text also holds the user data of all messages that wait for it. The text of a Seed32 is the seed, that is the signature private key.", "quantifier": "all layers (in the claim on waiting messages: all histories), all datagrams of the session, all message contents, builds with and without a serialiser", "why_tests_cant": "That a text determines a key, and that a forgery is accepted in every state, range over all keys, states and datagrams.", "anchors": ["src/minimal.rs MinimalSecureLayer (derive Debug)", "src/complete.rs SecureLayer", "src/encryption/chacha20_poly1305_aead.rs SecretKey", "src/encryption.rs EncryptAlgoWithSecretKey", "src/agreement.rs EphemeralKeyPair", "src/seeds.rs Seed32", "src/config.rs SecureLayerConfig", "src/status.rs SecureLayerStatus"]}
{"id": "C78", "title": "One nonce for all messages also gives up authenticity", "statement": "All user messages of a session are sealed with one ChaCha20-Poly1305 key and one nonce. Whoever sees two different datagrams of a session that carry data of the same size, in either direction, and knows the number and data of one of them, can compute a short list of datagrams (at most 18 times one more than the number of 16-byte blocks) for any number and any data of that size, one of which is exactly the datagram the session's layers would write; so a layer of the session that has not received that number delivers data nobody sent. The list is computed from the two datagrams, the known content and SHA-256 only, without the key and whatever the cipher.", "quantifier": "all cryptographic libraries whose tag is that of RFC 8439, all session keys, all pairs of messages of one session and size, all forged numbers and contents, all layers of the session in any state that takes the number", "why_tests_cant": "The claim is about every key and every pair of messages, and rests on the number of roots of a polynomial modulo 2^130-5.", "anchors": ["src/encryption/chacha20_poly1305_aead.rs encrypt", "src/encryption/chacha20_poly1305_aead.rs SecretKey", "src/minimal.rs MinimalSecureLayer::write_message", "src/minimal.rs MinimalSecureLayer::read"]}
{"id": "C79", "title": "Which errors each method can return", "statement": "For each public method, of the minimal layer, of the complete layer and of its typed variants, the errors it can return are exactly those of a fixed table: none outside it is returned in any state reached by any calls, and each inside it is returned by some call on some reachable layer. For instance taking the ACK that came too early never reports an invalid challenge, draining early messages never reports an unexpected message, write_ack_msg on a clone reports that the CONNECT message was already written, a message too short is reported only by the typed read, the write of a user message reports the error of the writer even when it only asks to try again, and MessageMustBeSigned, TryToGenConnectMsgTooLate, TryToWriteMsgWhenNegoNotSuccessful, SerializationError and WrittenLenError are never returned.", "quantifier": "all methods and all errors; all cryptographic, compression and serialisation libraries, all layers after any calls, all arguments and writers", "why_tests_cant": "That an error is never returned is about all states and arguments, and the states include those after 10000 messages, after failures, and of clones.", "anchors": ["src/errors.rs Error", "src/errors.rs IncomingMsgErr", "src/minimal.rs MinimalSecureLayer", "src/complete.rs SecureLayer", "src/complete/writer.rs write_ack_msg", "src/complete/serde/deserializer.rs deserialize", "src/status.rs SecureLayerStatus::apply_action"]}
{"id": "C80", "title": "An observer cannot tell the client from the server by what it sends", "statement": "What a layer sends over its whole life is determined by its own keys, the ephemeral public key in one CONNECT that was given to it (signed with the expected key if there is one), and the sequence of messages and configurations the application asked for. It does not depend on whether the layer expects a particular peer key, on whether it speaks or listens first, on what else it reads, on calls that fail or on whether messages arrive early. So a client that knows the server's key and a server that takes any client, with the same keys and the same requests to the same peer, send exactly the same bytes. The README's claim holds in this sense; it does not hold against an observer who also sends: a CONNECT signed with a key of their own is answered with an ACK by the layer that expects no key, and refused by the one that does.", "quantifier": "all layers, all histories of calls (fewer than 2^64) with writers that take what they are given, all received bytes, minimal and complete mode", "why_tests_cant": "The claim compares two arbitrary histories of two layers.", "anchors": ["README.md", "src/minimal.rs MinimalSecureLayer", "src/complete.rs SecureLayer", "src/complete/writer.rs", "src/status.rs SecureLayerStatus::apply_action"]}
{"id": "C81", "title": "Stealing a signature key after the negotiation opens nothing", "statement": "Once a connection is established, a thief of signature keys (or anyone who can forge signatures) can do nothing but end it: with any set of further signatures accepted as good, every call returns the same and leaves the layer in the same state, up to the first datagram read that bears a forged signature; that read returns an error in both cases, and when the signature is accepted the layer fails and neither delivers nor sends anything afterwards. So a layer that expected a key and became established before the theft keeps the session key shared with the owner, delivers no further CONNECT or ACK, and every user message it delivers, before and after, was written by a holder of that key. A thief who has the seed before the negotiation becomes the peer.", "quantifier": "all established layers in minimal and complete mode, all sets of forged signatures, all later calls and datagrams; for authenticity all histories before the theft without forgeries and all histories after it with any", "why_tests_cant": "The claim compares the run of every program with the run it would have had if an arbitrary set of signatures were good, and a test can only offer the forgeries it can compute.", "anchors": ["src/minimal.rs MinimalSecureLayer::read", "src/reader.rs", "src/status.rs SecureLayerStatus::apply_action", "src/complete.rs SecureLayer::read_bin"]}
{"id": "C82", "title": "One connection used through any number of handles", "statement": "A connection may be used through any number of handles: the created layer, its clones, clones of clones, with calls interleaved in any way. All have the same session key. The number of a user message is the number of messages the handle it is written through has behind it: those written through it and, for a clone, those its parent had behind it when it was cloned. So a number (and with it the key stream) is used twice exactly when two messages are written of which the first is not behind the second, that is through two handles that have separated; with one writing handle, and reading through the others, never. What a handle receives is accounted for in the same way: a message is delivered exactly when its number was not delivered in the life of that handle and is not too far ahead, whatever the other handles received since, so one datagram can be delivered once per separated handle and at most once when one handle does the reading.", "quantifier": "all families of handles of one connection and all interleavings of fewer than 2^64 calls on them, with writers that take what they are given; minimal and complete mode", "why_tests_cant": "The claim is about every tree of clones and every interleaving of calls on its handles, and reuse is characterised by an equivalence over all of them.", "anchors": ["src/minimal.rs MinimalSecureLayer::try_clone", "src/minimal.rs MinimalSecureLayer::write_message", "src/minimal.rs MinimalSecureLayer::read", "src/complete.rs SecureLayer::try_clone", "src/complete.rs SecureLayer::read_bin", "src/complete/writer.rs"]}
{"id": "C83", "title": "Delivered messages are the peer's, whatever the handles on both sides", "statement": "When both ends of a connection are used through any number of handles, every user message delivered by a handle was written by the application on some handle of a connection that holds the same session key, under the number that handle had reached, as long as the attacker cannot forge authentication tags (nothing with a good tag is read that was not written on such a connection). When one handle does the reading at this end, the messages delivered are distinct messages written at the other end, however many handles write there: nothing is invented, altered or repeated. When also one handle does the writing there, a delivered message number n is the n-th message written on the connection. With several reading handles a message can be delivered more than once.", "quantifier": "all families of handles at both ends, all interleavings of fewer than 2^64 (complete mode: 2^63) calls, all networks and attackers that do not forge tags; minimal and complete mode", "why_tests_cant": "The claim is about every pair of trees of clones with every interleaving of calls on them, and every attacker on the network between them.", "anchors": ["src/minimal.rs MinimalSecureLayer::try_clone", "src/minimal.rs MinimalSecureLayer::write_message", "src/minimal.rs MinimalSecureLayer::read", "src/minimal.rs MinimalSecureLayer::drain_tmp_stack_user_msgs", "src/complete.rs SecureLayer::read_bin", "src/complete.rs SecureLayer::try_clone", "src/complete/writer.rs"]}
{"id": "C84", "title": "A connection split between a writing and a reading handle loses nothing", "statement": "When one handle does the writing at one end of a connection and one handle, which has delivered nothing yet, does the reading at the other end (the original or a clone, of any generation, on either side, whatever the other handles do), every message that arrives is delivered the first time it comes and every repetition is refused, as long as no message overtakes another by more than 10000 or at most 10000 messages come; the connection stays up. When all the messages written arrive, all are delivered. With several writing handles a message that arrives can be refused as a repetition of another.", "quantifier": "all families of handles at both ends, all sequences of arrivals with losses, repetitions and reordering within the window, all message contents; minimal and complete mode", "why_tests_cant": "Every tree of clones, every interleaving of calls and every order of arrival has to be covered.", "anchors": ["src/minimal.rs MinimalSecureLayer::try_clone", "src/minimal.rs MinimalSecureLayer::write_message", "src/minimal.rs MinimalSecureLayer::read", "src/minimal.rs MinimalSecureLayer::read_inner", "src/complete.rs SecureLayer::read_bin", "src/complete.rs SecureLayer::try_clone"]}
{"id": "C85", "title": "What layers with the default configuration write", "statement": "A SecureLayer created with SecureLayerConfig::default(), and any clone of it, used in any way but a call of change_config, writes every message of the binary methods as the documented CONNECT, ACK or user message around a DEFLATE stream of the data: stored (level 0) when the data is shorter than 8192 bytes, compressed at level 1 otherwise; without custom data there is no payload. Its typed methods refuse every value with UseSuffixedBinFunctions, without effect on the layer or the writer, and with no custom data are the binary ones. After change_config the first claim is false.", "quantifier": "all histories of calls of the binary and typed methods other than change_config, all clones, all data, all writers that take everything, all values and codecs", "why_tests_cant": "The claim is about every layer that calls and clones can lead to and about every length of data on both sides of the threshold.", "anchors": ["src/config.rs SecureLayerConfig::default", "src/complete.rs SecureLayer::compress", "src/complete.rs SecureLayer::write_bin", "src/complete/writer.rs", "src/complete/serde/serializer.rs", "src/format.rs MessageFormat::default"]}
