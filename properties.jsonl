{"id": "C01", "title": "Handshake messages round-trip", "statement": "For every handshake message type (ClientHello, ServerHello, HelloRetryRequest, EndOfEarlyData, EncryptedExtensions, CertificateRequest, Certificate, CompressedCertificate, CertificateVerify, NewSessionTicket, KeyUpdate, Finished) and Alert: whenever encode succeeds on a message whose buffers are non-null, decode of the produced bytes succeeds, consumes all of them, and yields the same message.", "quantifier": "every message value of every type, all field contents and list lengths", "why_tests_cant": "The value space is unbounded (nested length-prefixed vectors with 8/16/24-bit prefixes); tests sample a few literals.", "anchors": ["fizz/record/Types-inl.h: encode/decode, detail::writeVector, detail::readVector, writeBits24"]}
{"id": "C02", "title": "Decoding is canonical and exact", "statement": "If decode accepts a buffer then the whole buffer was consumed and re-encoding the decoded message produces exactly the same bytes; hence no two different byte strings decode to the same message. The only exception is a ClientHello without an extensions block, which decodes like one with an empty block.", "quantifier": "every byte string given to decode, every message type", "why_tests_cant": "Quantifies over all accepted inputs, including adversarial ones whose nested lengths disagree.", "anchors": ["fizz/record/Types-inl.h: decode<T>(buf), ReadVector::readVector, readBuf"]}
{"id": "C03", "title": "Encoders reject instead of truncating", "statement": "Encoding a message with a field that does not fit its 8/16/24-bit length prefix fails; it never emits a length prefix that differs from the number of bytes that follow it.", "quantifier": "every message value, including oversized ones", "why_tests_cant": "Needs all sizes around and above 2^8, 2^16, 2^24 in every nested position.", "anchors": ["fizz/record/Types-inl.h: WriterVector, writeBuf, checkWithin24bits, writeBits24, encodeHandshake"]}
{"id": "C04", "title": "Extensions round-trip and are parsed strictly", "statement": "For every typed extension, parsing the encoded extension out of an extension list returns the encoded value; parsing fails when bytes are left over (except for delegated credentials and token binding, whose parsers accept trailing bytes); the first extension of the type is used and a list without that type gives none.", "quantifier": "every extension value, every extension list around it", "why_tests_cant": "Unbounded list contents and payloads.", "anchors": ["fizz/record/Extensions-inl.h: getExtension, encodeExtension, findExtension"]}
{"id": "C05", "title": "Plaintext record layer round-trip", "statement": "Writing any non-empty handshake or alert payload with the plaintext write record layer and reading the bytes back with the plaintext read record layer yields fragments of that content type whose concatenation is the payload; no record exceeds 2^14 bytes; application data is never written in plaintext.", "quantifier": "every payload of every length, every content type", "why_tests_cant": "Fragmentation boundaries depend on unbounded payload lengths.", "anchors": ["fizz/record/PlaintextRecordLayer.cpp: write, read"]}
{"id": "C06", "title": "Record reading does not depend on how bytes arrive", "statement": "For both record layers, if the bytes received so far do not contain a complete record, read reports that more data is needed, does not lose any byte that a later read needs, and its size hint is a positive lower bound on (when the header is complete: exactly) the bytes missing; splitting a byte stream into arbitrary chunks gives the same sequence of messages as delivering it at once.", "quantifier": "every byte stream and every way of splitting it into arrivals", "why_tests_cant": "The number of splits is exponential in the stream length.", "anchors": ["fizz/record/PlaintextRecordLayer.cpp: read", "fizz/record/EncryptedRecordLayer.cpp: getDecryptedBuf", "fizz/record/RecordLayer.cpp: readEvent"]}
{"id": "C07", "title": "Encrypted record layer round-trip", "statement": "For any AEAD whose decrypt inverts encrypt for the same sequence number and additional data, data written by the encrypted write record layer (any message sequence, padding policy, max record size, input buffer chaining) is read back by the encrypted read record layer with the same key as the same content types and the same concatenated bytes.", "quantifier": "every sequence of writes, every buffer chain, padding policy and max record size", "why_tests_cant": "Interaction of padding, splitting and sequence numbers over unbounded histories.", "anchors": ["fizz/record/EncryptedRecordLayer.cpp: write, read, getDecryptedBuf", "fizz/record/BufAndPaddingPolicy.cpp"]}
{"id": "C08", "title": "Encrypted records stay within size limits", "statement": "With a maximum record size of at most 2^14, every record the encrypted write layer emits carries at most maxRecord bytes of content plus padding, plus one type byte and the cipher overhead, its 16-bit length field equals the real ciphertext length, and the record is accepted by the peer's size check; the padding policies never exceed the room left.", "quantifier": "every payload, chain, padding parameter and max record size", "why_tests_cant": "Boundary arithmetic on uint16 with wrap-around; needs all values.", "anchors": ["fizz/record/BufAndPaddingPolicy.cpp: getBufToEncrypt, getBufAndPaddingToEncrypt", "fizz/record/EncryptedRecordLayer.cpp: write"]}
{"id": "C09", "title": "A record-layer nonce is never reused", "statement": "A write record layer uses each 64-bit sequence number for at most one encryption over its lifetime, in increasing order, and refuses to write instead of wrapping; with a fixed IV, distinct sequence numbers give distinct AEAD nonces; a key can only be installed while no record has been processed.", "quantifier": "every history of writes (including failures) from every starting sequence number", "why_tests_cant": "Requires 2^64 writes to reach the limit; nonce distinctness is for all pairs.", "anchors": ["fizz/record/EncryptedRecordLayer.cpp: write seqNum_", "fizz/record/EncryptedRecordLayer.h: setAead", "fizz/crypto/aead/CryptoUtil.h: createIV"]}
{"id": "C10", "title": "Reader accepts only the expected sequence, early-data skipping stops at the first success", "statement": "The read record layer decrypts the n-th record with sequence number n; a failed decryption is an error unless skipping is enabled, in which case undecryptable records are dropped without advancing the sequence number, and skipping is disabled after the first record that decrypts.", "quantifier": "every received byte stream, every interleaving of decryptable and undecryptable records", "why_tests_cant": "Unbounded record histories.", "anchors": ["fizz/record/EncryptedRecordLayer.cpp: getDecryptedBuf"]}
{"id": "C11", "title": "Handshake reassembly is independent of record boundaries", "statement": "The handshake messages delivered by readEvent depend only on the concatenation of the handshake payload bytes, not on how it is cut into records; each delivered message carries exactly its original encoding; a non-handshake record arriving while a handshake message is incomplete is an error; a declared length above 128 KiB is rejected as soon as the 4-byte header is available.", "quantifier": "every fragmentation of every handshake byte stream", "why_tests_cant": "Exponentially many fragmentations.", "anchors": ["fizz/record/RecordLayer.cpp: readEvent, decodeHandshakeMessage"]}
{"id": "C12", "title": "Peer-controlled framing errors are rejected", "statement": "Zero-length and over-long records, unknown content types, malformed ChangeCipherSpec, all-zero inner plaintexts and empty handshake/alert fragments are errors and never surface as messages; a well-formed ChangeCipherSpec is ignored.", "quantifier": "every byte stream", "why_tests_cant": "Adversarial input space.", "anchors": ["fizz/record/PlaintextRecordLayer.cpp: read", "fizz/record/EncryptedRecordLayer.cpp: read"]}
{"id": "C13", "title": "HKDF-Expand matches RFC 5869", "statement": "expand(prk, info, L) equals the first L bytes of T(1)|T(2)|... with T(i)=HMAC(prk, T(i-1)|info|i), has exactly L bytes, is a prefix of longer expansions, and fails iff L > 255*HashLen.", "quantifier": "every hash function, key, info and output length", "why_tests_cant": "All lengths and infos; the in-place buffer reuse makes the first round special.", "anchors": ["fizz/crypto/Hkdf.cpp: expand, extract"]}
{"id": "C14", "title": "HMAC matches RFC 2104", "statement": "hmac(key, text) = H((K xor opad) | H((K xor ipad) | text)) with K the key zero padded to the block size, first hashed if longer than a block, for every hash with HashLen <= BlockSize <= maximum.", "quantifier": "every key length and text", "why_tests_cant": "All key lengths around the block size.", "anchors": ["fizz/crypto/Hmac.cpp: hmac"]}
{"id": "C15", "title": "Key-derivation labels are unambiguous", "statement": "Two different (length, label, context) triples never produce the same HkdfLabel encoding; over-long labels or contexts are rejected.", "quantifier": "all pairs of triples", "why_tests_cant": "Injectivity is a statement about all pairs.", "anchors": ["fizz/record/Types-inl.h: encodeHkdfLabel", "fizz/crypto/KeyDerivation.cpp: expandLabel"]}
{"id": "C16", "title": "The key schedule can only move forward and follows RFC 8446", "statement": "The secrets obtained from the key scheduler are those of the RFC 8446 section 7.1 schedule; operations out of order are rejected; after clearing, no master-derived secret can be obtained; key updates on one direction never affect the other and the n-th update yields the n-fold iterate of the update function with generation n.", "quantifier": "every sequence of scheduler operations", "why_tests_cant": "Unbounded operation sequences.", "anchors": ["fizz/protocol/KeyScheduler.cpp"]}
{"id": "C17", "title": "HPKE context never reuses a nonce for a successful seal", "statement": "Successful seals (opens) of a context use pairwise distinct sequence numbers, in order; a failing cipher call leaves the counter unchanged; a sender cannot open and a receiver cannot seal; after the message limit every call fails; a receiver opens exactly what the sender sealed in the same order.", "quantifier": "every sequence of seal/open calls and starting counter", "why_tests_cant": "2^64 calls to reach the limit; unbounded histories.", "anchors": ["fizz/crypto/hpke/Context.cpp: seal, open, incrementSeq"]}
{"id": "C18", "title": "Chained-buffer transforms equal the flat transform", "statement": "Running a streaming or block transform over an input chain into an output chain gives the same bytes as on flat buffers, for every way of cutting both chains; the block variant hands the function the input exactly once and in order and its output in whole blocks.", "quantifier": "every partition of input and output into buffers, every block size 1..128", "why_tests_cant": "Exponentially many partitions.", "anchors": ["fizz/crypto/aead/IOBufUtil.h: transformBuffer, transformBufferBlocks", "fizz/crypto/aead/IOBufUtil.cpp: trimBytes, trimStart, XOR"]}
{"id": "C19", "title": "Constant-time comparison decides equality", "statement": "CryptoUtils::equal(a, b) is true exactly when a and b have the same length and bytes.", "quantifier": "all pairs of byte strings", "why_tests_cant": "The branch-free arithmetic must be right for all 256 accumulated values and all lengths.", "anchors": ["fizz/crypto/Utils.cpp: fizz_secure_memcmp, CryptoUtils::equal"]}
{"id": "C20", "title": "Hybrid key exchange agreement and share splitting", "statement": "If both component exchanges agree, two parties exchanging hybrid shares derive the same concatenated secret; a share whose size is not the sum of component sizes is rejected and each component receives exactly its own part.", "quantifier": "every pair of component exchanges and shares", "why_tests_cant": "All share contents and sizes.", "anchors": ["fizz/crypto/exchange/HybridKeyExchange.cpp"]}
{"id": "C21", "title": "Replay cache has no false negatives inside its window", "statement": "If an identifier was checked, a later check of the same identifier reports a possible replay as long as fewer than 12 bucket rotations happened in between, whatever else was checked. The window covers only 11/12 of the TTL given to the constructor (the full TTL is refuted by a witness).", "quantifier": "every sequence of checks and timer ticks, every hash functions and filter size", "why_tests_cant": "Unbounded interleavings of insertions and expirations.", "anchors": ["fizz/server/SlidingBloomReplayCache.cpp"]}
{"id": "C22", "title": "Token cipher round-trips across secret rotation and rejects foreign tokens", "statement": "A token encrypted under a configured secret decrypts to its plaintext as long as that secret (under the same context strings) remains configured, at any position behind secrets that do not authenticate it; a rejected secret update leaves the previous secrets in force; without secrets neither operation succeeds; a short token is rejected.", "quantifier": "every secret list, rotation history, plaintext, associated data and token", "why_tests_cant": "Unbounded rotation histories.", "anchors": ["fizz/server/AeadTokenCipher.cpp", "fizz/server/AeadTicketCipher.h"]}
{"id": "C23", "title": "Session tickets restore the resumption state", "statement": "Decoding an encoded resumption state returns the same version, cipher, secret, certificates, age-add, ALPN, app token and times at one second granularity; tickets of older formats (without app token or handshake time) decode with defaults.", "quantifier": "every resumption state", "why_tests_cant": "Unbounded field contents.", "anchors": ["fizz/server/TicketCodec-inl.h", "fizz/server/TicketCodec.cpp"]}
{"id": "C24", "title": "Ticket validity policy", "statement": "A ticket is issued only with a positive lifetime not exceeding the configured ticket validity, handshake validity or what remains of the handshake validity, and is accepted only while the original handshake is younger than the handshake validity, however many times it has been renewed.", "quantifier": "every clock value, policy setting and renewal chain", "why_tests_cant": "Unbounded renewals and all clock values.", "anchors": ["fizz/server/TicketPolicy.h", "fizz/server/AeadTicketCipher.h"]}
{"id": "C25", "title": "Stateless-retry cookie round-trip", "statement": "decrypting a cookie returns exactly the negotiated version, cipher, group, ClientHello hash, app token and ECH data that were put in.", "quantifier": "every cookie state", "why_tests_cant": "Unbounded field contents, optional fields.", "anchors": ["fizz/server/AeadCookieCipher.cpp: encodeCookie, decodeCookie"]}
{"id": "C26", "title": "Client PSK serialization round-trip", "statement": "deserializePsk(serializePsk(psk)) returns the PSK with times at stored granularity, for times from the epoch on; corrupted times are clamped instead of overflowing.", "quantifier": "every cached PSK and every serialized byte string", "why_tests_cant": "Unbounded field contents; all 2^64 time values.", "anchors": ["fizz/client/PskSerializationUtils.cpp"]}
{"id": "C27", "title": "Merkle tree inclusion proofs", "statement": "After finalizing a batch tree with any number of messages, the path for each message index recomputes exactly the root; a path proves only the message it was issued for unless the hash collides.", "quantifier": "every number and content of messages, every index", "why_tests_cant": "All tree sizes (odd layers are padded by copying the leftmost node).", "anchors": ["fizz/experimental/crypto/MerkleTree.h"]}
{"id": "C28", "title": "Batcher hands every message exactly one slot of one signed tree", "statement": "Under any interleaving of threads, every message added to a batcher gets an index in exactly one epoch, epochs are signed exactly once, when the threshold is reached, and the result's path verifies against the signed root.", "quantifier": "every interleaving of addMessageAndSign calls, every threshold", "why_tests_cant": "Schedules are unbounded.", "anchors": ["fizz/experimental/batcher/Batcher.h"]}
{"id": "C29", "title": "Negotiation picks a mutually supported value by server preference", "statement": "The negotiated parameter is supported by both sides and no value in an earlier server tier is acceptable to the client; within a tier the client's order wins; none exactly when the intersection is empty.", "quantifier": "every pair of preference lists", "why_tests_cant": "All list contents.", "anchors": ["fizz/server/Negotiator.h"]}
{"id": "C30", "title": "Certificate selection", "statement": "With well-formed certificate identities, a certificate is returned by SNI only if one of its identities equals the requested name ignoring ASCII case or is a wildcard covering exactly the first label; exact beats wildcard beats default; the scheme is supported by both sides, in server preference order.", "quantifier": "every set of certificates in every insertion order, every SNI", "why_tests_cant": "Unbounded names and insertion orders.", "anchors": ["fizz/server/DefaultCertManager.cpp"]}
{"id": "C31", "title": "Duplicate or disallowed extensions are rejected", "statement": "Server messages containing a duplicate extension or one the client did not ask for (except cookie in HRR) are rejected, all others pass.", "quantifier": "every extension list and requested set", "why_tests_cant": "All lists.", "anchors": ["fizz/protocol/Protocol.h: checkAllowedExtensions, checkDuplicateExtensions"]}
{"id": "C32", "title": "Event loop serialises actions and preserves order", "statement": "While an action is in flight no other event is processed; application writes are processed in submission order, each at most once, and those pending when an error occurs are returned through the error callback; after an error or close nothing more is processed (a write submitted after the error stays queued); pausing delays but never drops events.", "quantifier": "every interleaving of API calls, data arrival, action completions and re-entrant calls", "why_tests_cant": "Unbounded interleavings.", "anchors": ["fizz/protocol/FizzBase-inl.h"]}
{"id": "C33", "title": "HPKE setup agreement", "statement": "An HPKE sender context and a receiver context set up with the same suite, info, mode and matching keys (and PSK) hold the same AEAD key, base nonce and exporter secret, these are the RFC 9180 values, and everything sealed by one side in order is opened by the other.", "quantifier": "every KEM/KDF/AEAD suite, info, PSK, key pair satisfying Diffie-Hellman symmetry, and sequence of sealed messages", "why_tests_cant": "All key pairs and message sequences.", "anchors": ["fizz/crypto/hpke/Hpke.cpp", "fizz/crypto/hpke/DHKEM.cpp", "fizz/crypto/hpke/Hkdf.cpp", "fizz/crypto/hpke/Context.cpp"]}
{"id": "C34", "title": "Server: the handshake is reported done, and data delivered, only when it should", "statement": "A server connection reports handshake success at most once and only right after a Finished message whose verify data is the RFC 8446 MAC of the connection's whole transcript under the client handshake traffic secret; application data is delivered only after that, or as early data directly after early data was reported accepted; what is delivered is what was received, in order, and what the application hands over is written in order, none lost or duplicated while the connection lives.", "quantifier": "every server configuration, every client byte stream and its division into reads, every sequence of application calls and environment answers (clock, randomness, ticket cipher, replay cache, certificate verifier)", "why_tests_cant": "Unbounded adversarial byte streams and call sequences.", "anchors": ["fizz/server/ServerProtocol.cpp", "fizz/server/FizzServer-inl.h", "fizz/server/ServerProtocol.h"]}
{"id": "C35", "title": "Server: the reported client certificate is authenticated", "statement": "When a server connection is accepting data, the client certificate it reports is: none if authentication is off; if it is optional or required, the certificate the configured verifier returned for the chain the client sent, whose leaf key verified a CertificateVerify signature over this connection's transcript in the client context (with required, always present); after resumption the one stored in the ticket.", "quantifier": "every server configuration, every client byte stream and its division into reads, every sequence of application calls and environment answers (clock, randomness, ticket cipher, replay cache, certificate verifier)", "why_tests_cant": "Unbounded adversarial byte streams.", "anchors": ["fizz/server/ServerProtocol.cpp", "fizz/server/FizzServer-inl.h", "fizz/server/ServerProtocol.h"]}
{"id": "C36", "title": "Server: early data is accepted only under all conditions", "statement": "Early data is reported accepted only for a first ClientHello (no retry, no cookie) that offered it, with a resumed ticket of the same version, cipher suite and application protocol, ticket age within the configured tolerance, a replay cache that has not seen the hello, a willing application, and acceptance configured; and the client is told in EncryptedExtensions.", "quantifier": "every server configuration, every client byte stream and its division into reads, every sequence of application calls and environment answers (clock, randomness, ticket cipher, replay cache, certificate verifier)", "why_tests_cant": "Unbounded adversarial byte streams and environments.", "anchors": ["fizz/server/ServerProtocol.cpp", "fizz/server/FizzServer-inl.h", "fizz/server/ServerProtocol.h"]}
{"id": "C37", "title": "Server: negotiation in the flight and in the retry", "statement": "A server connection sends at most one flight (ServerHello to Finished) and at most one HelloRetryRequest before it; version, cipher suite and group in them are the most preferred the client offered; the flight answers a ClientHello received on this connection and its Finished and CertificateVerify are computed over the connection's transcript; a retry asks for a group the client supports but sent no share for, and the flight after it keeps version, cipher suite and group.", "quantifier": "every server configuration, every client byte stream and its division into reads, every sequence of application calls and environment answers (clock, randomness, ticket cipher, replay cache, certificate verifier)", "why_tests_cant": "Unbounded adversarial byte streams and configurations.", "anchors": ["fizz/server/ServerProtocol.cpp", "fizz/server/FizzServer-inl.h", "fizz/server/ServerProtocol.h"]}
{"id": "C38", "title": "Server: a PSK is used only with a valid binder", "statement": "A ServerHello selects a pre-shared key only if the first identity the client offered decrypts to a resumption state with the negotiated version and a cipher suite of the negotiated hash, and the first binder is the MAC of the truncated transcript under the binder key of that secret; the key schedule then starts from that secret. Otherwise it starts from zeros and a key exchange took place.", "quantifier": "every server configuration, every client byte stream and its division into reads, every sequence of application calls and environment answers (clock, randomness, ticket cipher, replay cache, certificate verifier)", "why_tests_cant": "Unbounded adversarial byte streams.", "anchors": ["fizz/server/ServerProtocol.cpp", "fizz/server/FizzServer-inl.h", "fizz/server/ServerProtocol.h"]}
{"id": "C39", "title": "Server: errors, alerts and the end of a connection are final", "statement": "After a server connection reports an error nothing but errors follows: nothing is read, written, delivered or exported. An alert is the last thing the connection writes, and the error reported with it names the same alert, unless it is the close_notify of an orderly close. After the fallback or end-of-data report nothing but closing follows.", "quantifier": "every server configuration, every client byte stream and its division into reads, every sequence of application calls and environment answers (clock, randomness, ticket cipher, replay cache, certificate verifier)", "why_tests_cant": "Unbounded histories.", "anchors": ["fizz/server/ServerProtocol.cpp", "fizz/server/FizzServer-inl.h", "fizz/server/ServerProtocol.h"]}
{"id": "C40", "title": "Server: exported secrets are those of RFC 8446", "statement": "Every secret a server connection hands to the application's secret callback is the RFC 8446 traffic secret of its kind for this connection's parameters and transcript; the n-th application secret of a direction is generation n; the others are exported at most once.", "quantifier": "every server configuration, every client byte stream and its division into reads, every sequence of application calls and environment answers (clock, randomness, ticket cipher, replay cache, certificate verifier)", "why_tests_cant": "Unbounded histories.", "anchors": ["fizz/server/ServerProtocol.cpp", "fizz/server/FizzServer-inl.h", "fizz/server/ServerProtocol.h"]}
{"id": "C41", "title": "Server: record keys follow the key schedule, and key updates are answered", "statement": "While a server connection is past its flight, its read and write record layers are keyed with the RFC 8446 traffic secret for the phase of the handshake, with as many updates as KeyUpdate messages were received, respectively sent. A KeyUpdate that requests an answer is answered exactly once by a KeyUpdate (not requesting one) under the old key. A key change while part of another handshake message is buffered ends the connection.", "quantifier": "every server configuration, every client byte stream and its division into reads, every sequence of application calls and environment answers (clock, randomness, ticket cipher, replay cache, certificate verifier)", "why_tests_cant": "Unbounded histories.", "anchors": ["fizz/server/ServerProtocol.cpp", "fizz/server/FizzServer-inl.h", "fizz/server/ServerProtocol.h"]}
{"id": "C42", "title": "ECH accept confirmation", "statement": "The last eight bytes of the random of a ServerHello (the encrypted_client_hello extension of a HelloRetryRequest) signal ECH acceptance to the client exactly if they equal HKDF-Expand-Label(HKDF-Extract(0, inner random), label, transcript with those bytes zeroed, 8); what the server sets is what the client with the same transcript recognises, and the server changes nothing else in the message.", "quantifier": "every hash function, transcript, inner random and hello message", "why_tests_cant": "All messages.", "anchors": ["fizz/protocol/ech/Encryption.cpp: checkECHAccepted, setAcceptConfirmation"]}
{"id": "C43", "title": "Signed content is bound to its context", "statement": "What a CertificateVerify, exported authenticator or delegated credential signs is 64 spaces, the context string, a zero byte and the content; no two different (context, content) pairs give the same signed bytes, and they never collide with TLS 1.2 signed content.", "quantifier": "every context and content", "why_tests_cant": "All contents.", "anchors": ["fizz/protocol/Certificate.cpp: prepareSignData"]}
{"id": "C44", "title": "ECH: the server recovers the client's inner hello", "statement": "A client that encrypts an inner ClientHello to a configuration, and a server that holds the same configuration and its private key, agree: decrypting the outer hello gives exactly the inner hello (same bytes in the transcript), for the first hello and for the second one after a HelloRetryRequest, with a kept or a rebuilt HPKE context. Whatever else a client sends is either treated as if ECH were absent or refused with illegal_parameter; what is accepted opened under the additional data of that very hello, has no repeated extension, and takes from the outer hello only unmodified extensions other than encrypted_client_hello.", "quantifier": "every configuration list, key pair, inner and outer hello (outer extension types contiguous in the inner hello), GREASE PSK and every incoming hello", "why_tests_cant": "All hellos, configurations and adversarial inputs.", "anchors": ["fizz/protocol/ech/Encryption.cpp: encryptClientHello, decryptECHWithContext, substituteOuterExtensions", "fizz/protocol/ech/Decrypter.cpp"]}
{"id": "C45", "title": "ECH: the payload authenticates the whole outer hello", "statement": "The additional data under which the ECH payload is sealed and opened determines every byte of the outer ClientHello except the payload bytes themselves: two hellos with the same additional data differ in the payload at most, and there only in content, not in length.", "quantifier": "every pair of outer hellos", "why_tests_cant": "All hellos.", "anchors": ["fizz/protocol/ech/Encryption.cpp: makeClientHelloOuterForAad, encryptClientHelloImpl"]}
{"id": "C46", "title": "ECH: padding and GREASE hide the inner hello", "statement": "The encrypted payload is a whole number of 32-byte blocks plus the tag, and its length does not depend on the server name (up to the configuration's maximum name length) nor on whether there is one; the fake pre-shared keys of the outer hello depend on the real ones only through their number and binder lengths.", "quantifier": "every hello, name, maximum, outer extension list not containing server_name, and random bytes", "why_tests_cant": "All names and hellos.", "anchors": ["fizz/protocol/ech/Encryption.cpp: calculateECHPadding, generateGreasePSK"]}
{"id": "C47", "title": "ECH: configuration choice, retry configurations and their encoding", "statement": "The client uses the first configuration without mandatory extensions, with a proper public name (non-empty dot-separated letter-digit-hyphen labels), a supported KEM and a usable cipher suite, and its first usable suite; none exactly if there is none. The server's retry configurations are all its configurations, those with the requested public name first, otherwise in order. A configuration is read back as written, and only from its encoding.", "quantifier": "every configuration list, supported KEM and AEAD list, server name and byte string", "why_tests_cant": "Unbounded lists and names.", "anchors": ["fizz/protocol/ech/Encryption.cpp: negotiateECHConfig", "fizz/protocol/ech/Decrypter.cpp: getRetryConfigs", "fizz/protocol/ech/Types-inl.h"]}
{"id": "C48", "title": "Client: the handshake is reported done only with an authenticated server", "statement": "A client connection reports handshake success at most once, and only right after a Finished message whose verify data is the RFC 8446 MAC of the connection's whole transcript under the server handshake traffic secret, computed from the parameters of a ServerHello that answers a ClientHello this client sent; the server is then known: it proved possession of the key of the certificate the configured verifier returned for the chain it sent (CertificateVerify over this transcript, in the server context), or it knew the PSK offered. If ECH was asked for, the server accepted it.", "quantifier": "every client configuration, every server byte stream and its division into reads, every sequence of application calls and environment answers (clock, randomness, key exchanges, certificate verifier, client certificate choice)", "why_tests_cant": "Unbounded adversarial byte streams and call sequences.", "anchors": ["fizz/client/ClientProtocol.cpp", "fizz/client/FizzClient-inl.h", "fizz/client/ClientProtocol.h"]}
{"id": "C49", "title": "Client: the reported parameters are those of the handshake", "statement": "While a client connection is established, the version, cipher suite and group it reports are those of the ServerHello, were offered by this client, and the secrets come from that cipher suite's hash, that group's key exchange and the PSK selected; the server certificate reported is the authenticated one (or that of the PSK); the application protocol is one this client offered, and present if required.", "quantifier": "every client configuration, every server byte stream and its division into reads, every sequence of application calls and environment answers (clock, randomness, key exchanges, certificate verifier, client certificate choice)", "why_tests_cant": "Unbounded adversarial byte streams.", "anchors": ["fizz/client/ClientProtocol.cpp", "fizz/client/FizzClient-inl.h", "fizz/client/ClientProtocol.h"]}
{"id": "C50", "title": "Client: what the ClientHellos say", "statement": "A client connection sends at most two ClientHellos, the second only in answer to a HelloRetryRequest. They offer exactly the configured versions, cipher suites, groups and signature schemes, with fresh key shares for the chosen groups, the requested server name, ALPN, PSK modes and compression algorithms; a PSK is offered exactly if it is valid (supported version and cipher suite, not expired), last in the hello, with the RFC 8446 obfuscated age and a binder that is the MAC of the truncated transcript; the second hello keeps random and session id, has the one key share asked for, and the cookie.", "quantifier": "every client configuration, every server byte stream and its division into reads, every sequence of application calls and environment answers (clock, randomness, key exchanges, certificate verifier, client certificate choice)", "why_tests_cant": "All configurations and retry requests.", "anchors": ["fizz/client/ClientProtocol.cpp", "fizz/client/FizzClient-inl.h", "fizz/client/ClientProtocol.h"]}
{"id": "C51", "title": "Client: exported secrets are those of RFC 8446", "statement": "Every secret a client connection hands to the application's secret callback is the RFC 8446 traffic secret of its kind for this connection's parameters and transcript; the n-th application secret of a direction is generation n; the others are exported at most once.", "quantifier": "every client configuration, every server byte stream and its division into reads, every sequence of application calls and environment answers (clock, randomness, key exchanges, certificate verifier, client certificate choice)", "why_tests_cant": "Unbounded histories.", "anchors": ["fizz/client/ClientProtocol.cpp", "fizz/client/FizzClient-inl.h", "fizz/client/ClientProtocol.h"]}
{"id": "C52", "title": "Client: record keys follow the key schedule, and key updates are answered", "statement": "While a client connection is past the ServerHello, its read and write record layers are keyed with the RFC 8446 traffic secret for the phase of the handshake, with as many updates as KeyUpdate messages were received, respectively sent. A KeyUpdate that requests an answer is answered exactly once by a KeyUpdate (not requesting one) under the old key, one the application asks for is sent under the old key; or the connection ends.", "quantifier": "every client configuration, every server byte stream and its division into reads, every sequence of application calls and environment answers (clock, randomness, key exchanges, certificate verifier, client certificate choice)", "why_tests_cant": "Unbounded histories.", "anchors": ["fizz/client/ClientProtocol.cpp", "fizz/client/FizzClient-inl.h", "fizz/client/ClientProtocol.h"]}
{"id": "C53", "title": "Client: data is delivered and written in order", "statement": "Application data is delivered directly when it is received, and only after handshake success or after the application closed; what is delivered is what was received, in order, and what the application hands over is written (or returned as failed early data) in order, none lost or duplicated while the connection lives, and a prefix of it otherwise.", "quantifier": "every client configuration, every server byte stream and its division into reads, every sequence of application calls and environment answers (clock, randomness, key exchanges, certificate verifier, client certificate choice)", "why_tests_cant": "Unbounded histories.", "anchors": ["fizz/client/ClientProtocol.cpp", "fizz/client/FizzClient-inl.h", "fizz/client/ClientProtocol.h"]}
{"id": "C54", "title": "Client: errors, alerts and the end of a connection are final", "statement": "After a client connection reports an error or the end of data, nothing is read, written, delivered or exported any more. An alert is written alone, it is the last thing the connection writes, and the error reported with it names the same alert, unless it is the close_notify of an orderly close.", "quantifier": "every client configuration, every server byte stream and its division into reads, every sequence of application calls and environment answers (clock, randomness, key exchanges, certificate verifier, client certificate choice)", "why_tests_cant": "Unbounded histories.", "anchors": ["fizz/client/ClientProtocol.cpp", "fizz/client/FizzClient-inl.h", "fizz/client/ClientProtocol.h"]}
{"id": "C55", "title": "Client: resumption PSKs are those of the ticket and the connection", "statement": "Every PSK a client connection hands out follows a NewSessionTicket received after handshake success; it has the ticket's identity, age_add, lifetime and early-data limit, the secret is HKDF-Expand-Label of this connection's resumption secret and the ticket nonce, and version, cipher suite, group, application protocol and server certificate are those of the connection.", "quantifier": "every client configuration, every server byte stream and its division into reads, every sequence of application calls and environment answers (clock, randomness, key exchanges, certificate verifier, client certificate choice)", "why_tests_cant": "Unbounded histories.", "anchors": ["fizz/client/ClientProtocol.cpp", "fizz/client/FizzClient-inl.h", "fizz/client/ClientProtocol.h"]}
{"id": "C56", "title": "Client: early data", "statement": "Early data is attempted only with a valid offered PSK that allows it and whose application protocol is still offered, in a first ClientHello; it is sealed under the RFC 8446 client_early_traffic_secret of that PSK and that ClientHello; once rejected (by a retry or by EncryptedExtensions without early_data) it is handed back unsent; the handshake is reported as having had early data accepted exactly if it was attempted and the server accepted it with the PSK's cipher suite and application protocol.", "quantifier": "every client configuration, every server byte stream and its division into reads, every sequence of application calls and environment answers (clock, randomness, key exchanges, certificate verifier, client certificate choice)", "why_tests_cant": "Unbounded histories and adversarial byte streams.", "anchors": ["fizz/client/ClientProtocol.cpp", "fizz/client/FizzClient-inl.h", "fizz/client/ClientProtocol.h"]}
{"id": "C57", "title": "Client: ECH hides the inner hello and is not silently dropped", "statement": "With ECH configurations, every ClientHello on the wire names only the configuration's public name and an independent random; two connections with the same random bytes that differ only in server name and PSK (of the same kind) send first hellos that differ in the encrypted payload at most; if the server did not accept ECH the connection ends with ech_required after the handshake and never reports success; retry configurations reported are the supported ones of the server's EncryptedExtensions.", "quantifier": "every client configuration, every server byte stream and its division into reads, every sequence of application calls and environment answers (clock, randomness, key exchanges, certificate verifier, client certificate choice)", "why_tests_cant": "All names, hellos and adversarial byte streams.", "anchors": ["fizz/client/ClientProtocol.cpp", "fizz/client/FizzClient-inl.h", "fizz/client/ClientProtocol.h", "fizz/protocol/ech/Encryption.cpp"]}
{"id": "C58", "title": "Client: its flight", "statement": "The client answers the server's valid Finished with exactly one flight in the order of RFC 8446: EndOfEarlyData exactly if early data was accepted, then if a certificate was requested Certificate and, if there is one for the requested name and schemes, CertificateVerify over the transcript, then Finished with the MAC of the transcript under the client handshake traffic secret; success is reported right after it; ChangeCipherSpec is sent at most once and only in compatibility mode.", "quantifier": "every client configuration, every server byte stream and its division into reads, every sequence of application calls and environment answers (clock, randomness, key exchanges, certificate verifier, client certificate choice)", "why_tests_cant": "Unbounded histories and adversarial byte streams.", "anchors": ["fizz/client/ClientProtocol.cpp", "fizz/client/FizzClient-inl.h", "fizz/client/ClientProtocol.h"]}
{"id": "C59", "title": "Server: what its flight, HelloRetryRequest and fallback say", "statement": "A server's ServerHello names the highest-preference cipher suite and version, echoes the session id, carries the key share of the group and the index of the PSK used, and confirms ECH acceptance exactly if the inner hello was taken (its random's last 8 bytes are the ECH confirmation); EncryptedExtensions carry the server's first ALPN choice offered (or nothing, or it refuses, as configured), early_data exactly if early data was accepted (which is so exactly if the configuration, ticket, application protocol, clock skew, replay cache and token validator all allow it in a first hello), and retry configurations exactly if ECH was offered and not accepted; CertificateRequest, Certificate (compressed with the server's first algorithm the client supports), CertificateVerify and Finished follow as RFC 8446 prescribes, the certificate being the one chosen for the name and schemes of the hello used; a HelloRetryRequest likewise; ChangeCipherSpec follows exactly if the session id is non-empty. A fallback to an older version is handed the very bytes of the hello, only if enabled, only if no version is shared and no early data offered.", "quantifier": "every server configuration, every client byte stream and its division into reads, every sequence of application calls and environment answers (clock, randomness, ticket cipher, replay cache, certificate verifier)", "why_tests_cant": "Unbounded adversarial byte streams, all configurations.", "anchors": ["fizz/server/ServerProtocol.cpp", "fizz/server/FizzServer-inl.h", "fizz/server/ServerProtocol.h"]}
{"id": "C60", "title": "Server: the getters report the parameters of the handshake", "statement": "From the server's flight on, whatever happens afterwards, the version, cipher suite, group, signature scheme, PSK type, application protocol, key exchange type, PSK mode, early-data outcome, replay result, clock skew, ECH status, server certificate, client random, application token, handshake time, and the exporter master secrets a server connection reports are those of the handshake it answered.", "quantifier": "every server configuration, every client byte stream and its division into reads, every sequence of application calls and environment answers (clock, randomness, ticket cipher, replay cache, certificate verifier)", "why_tests_cant": "Unbounded histories.", "anchors": ["fizz/server/ServerProtocol.cpp", "fizz/server/FizzServer-inl.h", "fizz/server/ServerProtocol.h"]}
{"id": "C61", "title": "Server: session tickets describe the connection they resume", "statement": "Every NewSessionTicket a server writes is written after a valid client Finished, only with a ticket cipher, only to a client that shares a PSK mode, and automatically only if so configured; the ticket sealed holds this connection's version, cipher suite, resumption secret (HKDF-Expand-Label of the RFC 8446 resumption master secret over the transcript through the client Finished), server and client certificates, application protocol, handshake time (that of the original handshake if resumed) and the application token given; age_add and lifetime on the wire are those sealed and those of the ticket cipher, and early_data is allowed with the configured maximum exactly if the server accepts early data.", "quantifier": "every server configuration, every client byte stream and its division into reads, every sequence of application calls and environment answers (clock, randomness, ticket cipher, replay cache, certificate verifier)", "why_tests_cant": "Unbounded histories.", "anchors": ["fizz/server/ServerProtocol.cpp", "fizz/server/FizzServer-inl.h", "fizz/server/ServerProtocol.h"]}
{"id": "C62", "title": "Server: no peer can abort the process", "statement": "Whatever bytes a peer sends, in whatever pieces, and whenever the application calls accept, write, close, key update or ticket functions, the server never runs into a failed CHECK, a null-pointer dereference or a signed overflow: it answers, waits, or ends with an error it reports. This holds as long as the objects the application plugs in (hashes, AEADs, key exchange, certificates, verifier, ticket and cookie ciphers, ECH decrypter, extensions) themselves return normally or fail with an error and hand out no null buffers, and as long as tickets hold a secret and an issue time within 2^63 ns of now; fizz's own cookie cipher, ticket cipher and ECH decrypter hand out no null buffers.", "quantifier": "every server configuration, every client byte stream and its division into reads, every sequence of application calls and environment answers (clock, randomness, ticket cipher, replay cache, certificate verifier); all plugged-in objects that do not themselves abort.", "why_tests_cant": "A crash needs one unlucky byte stream at one unlucky moment; tests try a few.", "anchors": ["fizz/server/ServerProtocol.cpp", "fizz/server/FizzServer-inl.h", "fizz/server/ServerProtocol.h", "fizz/server/AeadCookieCipher.h", "fizz/protocol/ech/Decrypter.cpp", "fizz/server/TicketCodec-inl.h"]}
{"id": "C63", "title": "Client: no peer can abort the process", "statement": "Whatever bytes a peer sends, in whatever pieces, and whenever the application calls connect, write, early write, close or key update, the client never runs into a failed CHECK, a null-pointer dereference or a signed overflow: it answers, waits, or ends with an error it reports. This holds as long as the objects the application plugs in (hashes, AEADs, key exchange, certificates, verifier, extensions, decompressors, ECH configs) themselves return normally or fail with an error and hand out no null buffers, as long as the clock reads between 1970 and 2116 and as long as a resumption PSK's times are within 146 years of 1970; a PSK the client itself obtained from a ticket has such times.", "quantifier": "every client configuration, every server byte stream and its division into reads, every sequence of application calls and environment answers (clock, randomness, key exchanges, certificate verifier, client certificate choice); all plugged-in objects that do not themselves abort.", "why_tests_cant": "A crash needs one unlucky byte stream at one unlucky moment; tests try a few.", "anchors": ["fizz/client/ClientProtocol.cpp", "fizz/client/FizzClient-inl.h", "fizz/client/ClientProtocol.h"]}
{"id": "C64", "title": "Exported keying material", "statement": "Exporting with a label of at most 249 bytes, a context (none is the same as an empty one) and a length of at most 255 hash lengths gives the bytes of RFC 8446 (7.5) for the exporter master secret; on a server connection, from its flight on, that secret is the one of RFC 8446 for the PSK, key exchange and transcript of this handshake, on an established client likewise (before that a client exports nothing), and the server's early export uses the early exporter secret exactly if early data was accepted and otherwise fails.", "quantifier": "All secrets, labels, contexts and lengths; all histories of a connection.", "why_tests_cant": "All inputs; the secret depends on the whole history.", "anchors": ["fizz/protocol/Exporter.cpp", "fizz/protocol/FizzBase-inl.h getExportedKeyingMaterial", "fizz/server/FizzServer-inl.h getEarlyEkm"]}
{"id": "C65", "title": "Exported authenticators", "statement": "An authenticator is accepted exactly if (RFC 9261) it is a Certificate message with a non-empty list, a CertificateVerify that the first certificate verifies over the handshake context, the request and the Certificate, and a Finished message with the MAC over all of that, in which case the certificates are returned; or if it is the lone Finished that declines the request. What one end produces the other accepts and returns: the chain and the context of the request, or no certificate only if no scheme fits; the scheme is the connection's first that certificate and request share, or else that the certificate allows. An authenticator with certificates accepted for two different requests exhibits a hash or HMAC collision.", "quantifier": "All requests, authenticators (arbitrary bytes), certificates, exporter secrets and both directions.", "why_tests_cant": "Adversarial bytes; acceptance must hold for every forged input.", "anchors": ["fizz/extensions/exportedauth/ExportedAuthenticator.cpp", "fizz/extensions/exportedauth/ExportedAuthenticator.h"]}
{"id": "C66", "title": "Delegated credentials are accepted exactly as RFC 9345 says", "statement": "With the delegated-credential certificate factory, a signature under a leaf entry that carries the delegated_credential extension is accepted exactly if: the certificate and the credential's key parse and are keys of one type with the schemes named, the certificate has the DelegationUsage and digitalSignature usages, notBefore + valid_time is in the future, at most seven days ahead and before notAfter, the certificate's key signed the certificate together with lifetime, key and schemes under the context of the role, and the credential's key signed the data; the credential's signature binds role, lifetime, key and schemes. Entries without the extension, and non-leaf entries, are ordinary certificates. A client (server) that completes a handshake with it without PSK has such a signature over the transcript and had asked for delegated credentials (in its CertificateRequest). A generated credential is accepted with its private key from its creation until its lifetime less one second, and never after its lifetime.", "quantifier": "All certificates, credentials (arbitrary bytes), times, signatures; all histories of a connection.", "why_tests_cant": "Adversarial certificates and times; acceptance must hold for every forged input.", "anchors": ["fizz/extensions/delegatedcred/DelegatedCredentialFactory.cpp makePeerCert", "fizz/extensions/delegatedcred/PeerDelegatedCredential-inl.h verify", "fizz/extensions/delegatedcred/DelegatedCredentialUtils.cpp", "fizz/extensions/delegatedcred/SelfDelegatedCredential-inl.h"]}
{"id": "C67", "title": "Delegated credentials are used only with clients that ask for them", "statement": "The delegated-credential certificate manager picks a delegated credential only if the ClientHello carries the delegated_credential extension and with a scheme that it lists, otherwise an ordinary certificate as if there were none; when the extension lists a scheme usable with a delegated credential for the requested name, it picks a delegated credential for that name.", "quantifier": "All certificate sets, names, scheme lists and extension lists.", "why_tests_cant": "Unbounded combinations of certificates, names and schemes.", "anchors": ["fizz/extensions/delegatedcred/DelegatedCredentialCertManager.cpp getCert"]}
{"id": "C68", "title": "Client and server agree", "statement": "If the Finished message a client accepts is the one a server sent in its flight, and no two different strings among those hashed to compute it on either side (listed explicitly) have the same hash, then that client and that server agree on version, cipher suite, hash, the last ClientHello and what came before it, the ServerHello, group and share, key-exchange secret, whether and which PSK is used, and the transcript through that Finished; and the application traffic and exporter secrets the client exports are those of the server. Conversely, if the Finished message with which a server completes is the one a client sent, they agree on the same and on the transcript before it (so on the client's certificate), and the client's resumption secret is the server's.", "quantifier": "All histories of any client and any server, with any bytes in between (an attacker on the network), all configurations with the same hash functions; with or without HelloRetryRequest, PSK, early data and ECH.", "why_tests_cant": "Needs every pair of adversarial histories; and the agreement rests on two independent implementations of the key schedule and transcript.", "anchors": ["fizz/client/ClientProtocol.cpp", "fizz/client/FizzClient-inl.h", "fizz/client/ClientProtocol.h", "fizz/server/ServerProtocol.cpp", "fizz/server/FizzServer-inl.h", "fizz/server/ServerProtocol.h"]}
{"id": "C69", "title": "Application writes: one outcome each, in order, in pieces", "statement": "Every call of writeChain on a fizz transport has at most one outcome (writeSuccess or writeErr, reported if there is a callback), and exactly one once the layers below have reported on everything handed to them and all calls have returned, also if a callback destroys the transport. The bytes handed down for a write are a prefix of its data, and all of it before its writeSuccess; each piece is handed down only after the previous one was written, pieces of a queued write have at most 128 KiB unless partial writes are disabled, and carry CORK exactly as long as more of the write follows. Writes are handed down in the order of the calls: everything called earlier has been handed down in full or has failed, nothing called later has been handed down, and once a queued write has failed none that was waiting behind it is sent. writeErr of a queued write gives the number of its bytes handed down. While the queue is in use at most one of its pieces is with the layers below; getAppBytesBuffered counts the bytes of unfinished writes not handed down. No check fails and no deleted object is used.", "quantifier": "All histories: any calls of writeChain, reports from below, calls of deliverError and destruction (when allowed), nested in callbacks in any way; any data, flags and memory allocation.", "why_tests_cant": "Any interleaving and nesting of callbacks, and any reuse of memory.", "anchors": ["fizz/protocol/AsyncFizzBase.cpp QueuedWriteRequest, writeChain, deliverError, ~AsyncFizzBase", "fizz/protocol/AsyncFizzBase.h QueuedWriteRequest"]}
{"id": "C70", "title": "Application data and read errors reach the read callback in order", "statement": "All application data received is given to read callbacks in the order of its arrival, each byte once, and only to the callback set at that time; what no callback has taken yet is kept, and when all calls have returned a callback that is set has been given everything (what a callback that fails to provide a buffer should have taken is dropped, and it is told). Each callback is told of at most one error or end of file, and is then no longer set; an error is given at once or, if no callback is set, kept until one is and given after all data; as long as none has been given the first that came is kept, later ones are dropped. With 64 KiB buffered and no callback, the transport is no longer read. No deleted object is used as long as the transport is not destroyed while setReadCB gives data (from within, that is).", "quantifier": "All histories: data, errors, calls of setReadCB and destruction, nested in callbacks, provided that no data arrives (and, for the place of errors, no callback is set) while the callback is being given data of which more is to come; any buffer sizes.", "why_tests_cant": "Any interleaving and nesting of callbacks.", "anchors": ["fizz/protocol/AsyncFizzBase.cpp setReadCB, deliverAppData, deliverError, checkBufLen"]}
{"id": "C71", "title": "Application writes around early data reach the server in order, once", "statement": "On a client transport, as long as nothing has failed, writes are handed to the state machine in the order in which they were made and each once; while early data is being sent they go out as early data up to the limit of the ticket (never more bytes than that), and from the first one that does not fit on they wait until the handshake is complete, when all waiting ones are handed down. If the server rejects early data and it is to be sent again (the policy says so and version, cipher, ALPN and the peers' identities are as remembered), the ordinary application data is exactly all that was written, from the first byte; otherwise the connection fails, the waiting writes are told, and the transport is closed. Every write has at most one outcome and none is still waiting when, with no call open, the handshake is complete or something has failed; the handshake callback is called at most once; isReplaySafe is false exactly from the start of early data until the handshake is complete with early data accepted or sent again.", "quantifier": "All histories: connect, writes, early and complete handshake reports (accepted or rejected, any parameters), failures, nested in callbacks in any way; both policies, all limits and data.", "why_tests_cant": "Any interleaving and nesting of callbacks with the handshake.", "anchors": ["fizz/client/AsyncFizzClient-inl.h connect, writeAppData, deliverAllErrors, deliverHandshakeError, ActionMoveVisitor, handleEarlyReject, isReplaySafe", "fizz/client/EarlyDataRejectionPolicy.cpp earlyParametersMatch"]}
{"id": "C72", "title": "Token binding", "statement": "A token binding is accepted exactly if it uses the negotiated key parameters and its key (ECDSA P-256 or Ed25519) signed type, parameters and the connection's exported keying material, so that if the key's holder made only certain bindings, one made for other keying material or another type is refused (or SHA-256 collides); one made by the constructor is accepted after encoding and decoding, among others and whatever follows. Nothing else than acceptance or refusal can happen. In the hello the server answers with its highest version not above the client's and its first key parameters that the client lists, or not at all if there are none; a client takes only a version and parameters that it offered. Several sets of extensions give all of them in order, and fail if one fails.", "quantifier": "All bindings (arbitrary bytes), keying material, configurations and extension lists; all keys and signature functions.", "why_tests_cant": "Adversarial bytes; all pairs of configurations.", "anchors": ["fizz/extensions/tokenbinding/Validator.cpp", "fizz/extensions/tokenbinding/TokenBindingConstructor.cpp", "fizz/extensions/tokenbinding/Types.cpp", "fizz/extensions/tokenbinding/TokenBindingClientExtension.cpp", "fizz/extensions/tokenbinding/TokenBindingServerExtension.h", "fizz/extensions/tokenbinding/TokenBindingContext.h", "fizz/server/MultiServerExtensions.cpp", "fizz/client/MultiClientExtensions.cpp"]}
{"id": "C73", "title": "PSK caches", "statement": "A PSK returned by getPsk is the one last stored under that identity with putPsk and not removed since; the LRU cache returns none whose expiration time has passed and forgets it then, answers for at most its capacity of identities, keeps an entry as long as fewer other identities than the capacity have been used (stored or found) since it was last used, and with nothing removed has dropped it once that many have been. BasicPskCache returns exactly what was last stored and not removed. Calls of SynchronizedLruPskCache from any number of threads give the answers of some sequential order of the calls in which a call that returned before another began comes first, and no call waits for ever.", "quantifier": "All histories of calls, identities, PSKs, clock values and capacities; all interleavings of any number of threads.", "why_tests_cant": "Unbounded histories and schedules.", "anchors": ["fizz/client/PskCache.h BasicPskCache", "fizz/client/SynchronizedLruPskCache.cpp"]}
{"id": "C74", "title": "Certificate compression", "statement": "A compressed certificate is accepted by a decompressor exactly if it names its algorithm, declares at most 128 KiB and decompresses to exactly that many bytes, which are exactly one Certificate message; nothing else than acceptance and an error can happen. What a compressor (zlib, brotli, zstd, any level) made of a message of at most 128 KiB decompresses to that message. The manager answers for an algorithm with the decompressor given last for it, and reports exactly the algorithms given as supported. A server certificate has a compressed form for exactly its compressors' algorithms, and a client with that decompressor does with it what it does with the uncompressed message.", "quantifier": "All compressed certificates (arbitrary bytes and lengths), certificate chains, algorithms, lists of compressors and decompressors; all behaviours of the libraries (for the round trip: those that decompress what they compressed).", "why_tests_cant": "Adversarial bytes; all chains.", "anchors": ["fizz/compression/ZlibCertificateCompressor.cpp", "fizz/compression/ZlibCertificateDecompressor.cpp", "fizz/compression/BrotliCertificateCompressor.cpp", "fizz/compression/BrotliCertificateDecompressor.cpp", "fizz/compression/ZstdCertificateCompressor.cpp", "fizz/compression/ZstdCertificateDecompressor.cpp", "fizz/compression/CertDecompressionManager.cpp", "fizz/backend/openssl/certificate/OpenSSLSelfCertImpl-inl.h create, getCompressedCert", "fizz/backend/openssl/certificate/CertUtils.cpp getCertMessage", "fizz/client/ClientProtocol.cpp CompressedCertificate handler"]}
{"id": "C75", "title": "Two ticket ciphers", "statement": "DualTicketCipher issues tickets of its first cipher; a ticket resumes as long as its secret is in force in either cipher and the handshake is recent enough for that one, and only then; an error of the first cipher is passed on.", "quantifier": "All tickets (arbitrary bytes), secrets, rotations, policies and times; AEADs that open what they sealed, and (for the converse) only that.", "why_tests_cant": "All histories of rotation, adversarial tickets.", "anchors": ["fizz/server/DualTicketCipher.h", "fizz/server/AeadTicketCipher.h"]}
{"id": "C76", "title": "The client's certificate choice", "statement": "The client's CertManager chooses the first of the client's schemes that the server lists and for which a certificate has been added, with the certificate last added for that scheme with override or else the first one added; it chooses none exactly if there is no such scheme.", "quantifier": "All histories of addCert and addCertAndOverride, all scheme lists.", "why_tests_cant": "Unbounded histories and lists.", "anchors": ["fizz/client/CertManager.cpp"]}
{"id": "C77", "title": "Server transport: handshake callback, writes and version fallback", "statement": "After accept on a server transport the handshake callback is called at most once: for success only if the state machine reported one and the transport is good, for fallback only with all the bytes received so far that the state machine has not taken, preceded by the hello it gave back (so that the fallback stack sees the connection from its first byte), for an error only after a failure. After a failure (fatal error, transport error, closeNow) and once all calls have returned it has been called, no write waits, and the transport is not good. Writes taken are given to the state machine in order and once, or fail with an error, in order, never both; a write on a transport that is not good is refused at once. An SSLv2 hello in the first bytes received leads to fallback with those bytes exactly if that was enabled. (Refuted as stronger claims: an SSLv2 hello split over reads is not recognised; close() during the handshake never calls the handshake callback nor the callbacks of waiting writes.)", "quantifier": "All histories: accept, writes, data, actions of the state machine, errors, close and closeNow, nested in callbacks in any way; all data and answers of the transport.", "why_tests_cant": "Any interleaving and nesting of callbacks.", "anchors": ["fizz/server/AsyncFizzServer-inl.h", "fizz/server/FizzServer-inl.h", "fizz/protocol/FizzBase-inl.h"]}
{"id": "C78", "title": "AEADs over chains of buffers", "statement": "The OpenSSL ciphers (stream-like modes, and OCB that works in whole blocks) and AEGIS give for a plaintext (ciphertext) and associated data cut into buffers in any way, in place or into new memory, exactly the AEAD of the flat bytes: encrypt succeeds exactly if the library does and allocation is allowed or the last buffer of a chain that may be changed has room for the tag; tryDecrypt likewise, refusing exactly what is shorter than a tag or the library refuses; so that what was encrypted decrypts from any other cutting. A shared chain is never changed if sharing is to be respected; the memory behind the data of a shared chain is changed only if everything is allowed, and by decryption never; if nothing may be allocated the result is in the caller's buffers; a new buffer has the headroom asked for. A key and IV of the wrong length are refused and the old ones stay; without a key nothing is encrypted. (Refuted as stronger claims: a failed encryption leaves the caller's data; a refused decryption leaves it.)", "quantifier": "All chains (numbers, sizes and sharing of buffers, head- and tailroom), associated data, options, allocator behaviours, nonces, sequence numbers; for the results all libraries that process input in pieces as in one call, for memory any library at all.", "why_tests_cant": "All ways to cut any data, all options.", "anchors": ["fizz/crypto/aead/CryptoUtil.h", "fizz/crypto/aead/IOBufUtil.h", "fizz/crypto/aead/Aead.h", "fizz/backend/openssl/crypto/aead/OpenSSLEVPCipher.cpp", "fizz/backend/libaegis/AEGISCipher.cpp"]}
{"id": "C79", "title": "PSP upgrade", "statement": "A PSP upgrade sends, after the kernel has given its receive association, exactly the 42-byte message of that association, listens only then, and gives the kernel the association carried by the first complete message received, however it was cut into pieces; it succeeds exactly after the kernel took that, and on failure the transport has been closed before the callback is told; there is at most one outcome, exactly one once the operation waits for nothing any more, and afterwards nothing more is done. A message is taken exactly if it has the layout of an association (32-bit SPI, version 0 to 3, key of that version's length), and an association given by the kernel decodes to itself at the other end. If what one end received is what the other wrote, a successful end was given the association of the other's kernel. No check fails as long as the kernel's keys have at most 32 bytes, and nothing deleted is used as long as the frame is not destroyed from within closing the transport or writing the error message.", "quantifier": "All histories: kernel answers, data in any pieces (arbitrary bytes), write outcomes, timeouts, end of file, destruction, nested in callbacks; all associations.", "why_tests_cant": "Adversarial bytes in any fragmentation; any interleaving of events.", "anchors": ["fizz/experimental/psp/PSP.cpp", "fizz/experimental/psp/PSP.h"]}
{"id": "C80", "title": "Kernel TLS", "statement": "A connection is converted to kernel TLS exactly if it is good, its handshake is complete, it runs on a socket, the platform supports kTLS, its suite is AES-GCM and the kernel takes the parameters; the kernel then goes on with the key of each record layer (only the reading one for the Rx variant) and its n-th record uses the nonce the record layer would have used for that record. If the conversion fails the kernel has no sending key, and a receiving key only if it refused the sending one. After conversion, application data is delivered in order, all of it up to the end, and NewSessionTickets not sharing a record with another message are delivered in order whatever pieces they are read in; every delivered ticket is a message the peer sent in consecutive handshake records; other handshake messages, KeyUpdate included, other records between the pieces of a message, and alerts other than close_notify end the connection with an error; at most one message of the maximal size is buffered. No exception leaves the read function unless the TLS callback lets one out; fizz's own does so only for a ticket with a malformed early_data extension or at times out of range. The PSK put into the cache for a ticket is the one the client state machine would have reported.", "quantifier": "All record layer states, kernel answers, streams of records in any pieces (arbitrary bytes), tickets.", "why_tests_cant": "Adversarial bytes in any fragmentation; all sequence numbers.", "anchors": ["fizz/experimental/ktls/KTLS.cpp", "fizz/experimental/ktls/AsyncKTLSSocket.cpp", "fizz/experimental/ktls/AsyncFizzBaseKTLS.h", "fizz/experimental/ktls/AsyncFizzBaseKTLS.cpp", "fizz/experimental/ktls/FizzKTLSCallback.cpp"]}
{"id": "C81", "title": "Delegated credential files", "statement": "The text made of a credential, its key and a mode (client or server) is loaded back in that mode, with the certificates, as the same credential and key, also among other text that does not contain the mode's labels, and in one file with the other mode's, each giving its own; a text of one mode is not loaded in the other. Whatever the file, a credential is loaded only if its first certificate may delegate and its key signed exactly that credential in the context of the mode asked for, with the P-256 key loaded. What is read as base64 is, up to unused bits, the encoding of the bytes it yields; a credential text that is not the base64 form of a credential is an error and throws nothing. Nothing but a credential, an error or an exception comes out. (Refuted as stronger claims: a key with text before its label makes a file that loads; errors are always returned; a file's bytes are determined by what it loads as.)", "quantifier": "All files (arbitrary bytes), credentials, keys, modes; any PEM and key library.", "why_tests_cant": "Adversarial files; all credentials and surrounding text.", "anchors": ["fizz/extensions/delegatedcred/Serialization.cpp", "fizz/tool/FizzGenerateDelegatedCredentialCommand.cpp"]}
{"id": "C82", "title": "GREASE ECH", "statement": "A GREASE ECH extension has a suite, key length, configuration identifier and payload length within the setting's lists and ranges (for the computed strategy, the padding plus the hello's length and the AEAD's overhead), always encodes (if the payload is below 64 KiB) and is read back by a peer as an ECH extension of the outer hello. It is always generated if each list has an element and each range is not empty; whatever the setting, nothing is read outside a list. Each value of a range is given by the same number of raw draws up to one, and each by some.", "quantifier": "All settings, hello lengths and outcomes of the random generator.", "why_tests_cant": "All random outcomes.", "anchors": ["fizz/protocol/ech/GreaseECH.cpp", "fizz/protocol/ech/GreaseECH.h", "fizz/crypto/RandomGenerator.h"]}
{"id": "C83", "title": "Hexadecimal text", "statement": "Bytes written as hexadecimal text are read back as the same bytes, in lower case with two characters per byte; text is read exactly if it is an even number of hexadecimal digits of either case, as the bytes they stand for, and refused otherwise.", "quantifier": "All byte strings and texts.", "why_tests_cant": "All inputs.", "anchors": ["fizz/util/Hex.cpp"]}
{"id": "C84", "title": "Key logs", "statement": "Each write adds one line of the NSS format to the key log: label, random and secret in hexadecimal; the text of a log determines the secrets written to it, in order. A label is given only to the six traffic secrets and the exporter master secret, to each its own of the format; PSK binder keys, the resumption master secret and ECH acceptance secrets are never logged.", "quantifier": "All histories of writes, all secrets and labels.", "why_tests_cant": "All histories and secrets.", "anchors": ["fizz/util/KeyLogWriter.h", "fizz/protocol/KeyScheduler.h"]}
{"id": "C85", "title": "Verification with OpenSSL's certificate verifier", "statement": "OpenSSLCertificateVerifier accepts a chain exactly if OpenSSL's verification, given the first certificate as leaf, the rest as untrusted in order, the verifier's store (the default one if it has none) and the purpose of the peer's role, succeeds; it returns the first certificate. If OpenSSL refuses, the alert sent by client and server is that of OpenSSL's reason. An empty chain, or one with a certificate that has no X.509 form, is refused. A client (a server requiring certificates) using it succeeds without a PSK only if OpenSSL accepted exactly the chain presented, whose first key signed the handshake. After creation and every setX509Store that succeeds, the names in CertificateRequest are those of the store's certificates, in order, and encode if they fit. (Refuted as stronger claims: a failed setX509Store leaves the verifier as it was; the extension is never sent with an empty list.)", "quantifier": "All histories of a client; all servers' histories, stores, chains, and outcomes of OpenSSL.", "why_tests_cant": "All histories and all answers of the library.", "anchors": ["fizz/backend/openssl/certificate/OpenSSLCertificateVerifier.cpp", "fizz/backend/openssl/certificate/OpenSSLCertificateVerifier.h", "fizz/client/ClientProtocol.cpp: CertificateVerify", "fizz/server/ServerProtocol.cpp: CertificateVerify"]}
{"id": "C86", "title": "Handshake logging", "statement": "The server's HandshakeLogging, after a ClientHello that is handled, describes the hello gone on with (the inner one if ECH is accepted): versions, suites, extension types, names, groups, schemes, modes, ALPNs, compression algorithms, whether there is a session id, random; and it has the length and random of the hello received and the version of its record. What is logged has no influence on the handshake: the handler with the log does exactly what it does whatever the log held before. Filling it in fails exactly if one of eight extensions cannot be read, and then the handshake ends: every hello the server goes on with has all eight readable. (Refuted as stronger claims: an extension the connection has no use for cannot end it; the log describes only the last hello.)", "quantifier": "All hellos, logs, configurations and states.", "why_tests_cant": "All hellos and histories of hellos.", "anchors": ["fizz/server/HandshakeLogging.cpp", "fizz/server/HandshakeLogging.h", "fizz/server/ServerProtocol.cpp: addHandshakeLogging, addHandshakeLoggingPreECH"]}
{"id": "C87", "title": "Key exchange objects of the default factory", "statement": "MultiBackendFactory makes a key exchange for exactly P-256, P-384, P-521, X25519 and, with liboqs, X25519 with ML-KEM 768 or 512, for both roles. If the libraries obey the laws of Diffie-Hellman and of a KEM, a client's object always has a share of the length its server's object expects, and every server that draws what it needs answers it with a share of the length the client expects; then both have the same secret. After any history of an object: the expected size is its group's; X25519 and the hybrids refuse a share of another length with nothing changed; computing a secret does not change a client's object, and its last key pair stays until the next one; without keys there is neither share nor (at a client) secret; a clone is the same object, and is made exactly if there are keys; a hybrid's secret is the KEM's followed by X25519's, of the two parts of the share. A failed key generation keeps the keys of a curve or X25519 object. (Refuted as stronger claims: that also for the hybrids, whose share is then whatever the library wrote, and for a server's share after a failed secret; every object refuses a share of another length than it expects: for the curves that is OpenSSL's decoder's decision.)", "quantifier": "All libraries obeying the stated laws (for the histories: all libraries), all randomness they draw, all groups, both roles, all peers' shares, all finite histories of calls.", "why_tests_cant": "All key pairs, shares and call histories, over three libraries.", "anchors": ["fizz/protocol/MultiBackendFactory.cpp: makeKeyExchange", "fizz/backend/openssl/crypto/exchange/OpenSSLKeyExchange.cpp", "fizz/backend/openssl/crypto/OpenSSLKeyUtils.cpp", "fizz/backend/libsodium/crypto/exchange/X25519.cpp", "fizz/backend/liboqs/OQSKeyExchange.cpp", "fizz/crypto/exchange/HybridKeyExchange.cpp", "fizz/client/ClientProtocol.cpp: getKeyExchangers", "fizz/server/ServerProtocol.cpp: doKexSyncFuture"]}
{"id": "C88", "title": "FizzUtil: protocol lists, ticket and token ciphers, keys from text", "statement": "A ticket (token) made by a cipher from createTicketCipher (createTokenCipher) with a given current secret is opened by every cipher made with that secret as its current, an old or a new one and the same context strings, whatever else either lists; a cipher opens nothing that was not sealed under a secret listed and its contexts. createKeyExchangeFromBuf makes an X25519 object exactly of a hexadecimal text, in either case, of 32 bytes, and a curve's object exactly of a PEM key valid on the curve; it succeeds with no object for every other KEM. A pair written by generateKeypairCurve25519 is read back, with the public key written as its share. getAlpnsFromNpnList returns the list of the last item heavier than the first, or else the first item's, which is a heaviest item's list if no two are heavier than the first. (Refuted as stronger claims: it returns the list of the heaviest item; a secret that is too short is reported: the cipher made seals and opens nothing; tickets are never sealed under an old secret.)", "quantifier": "All lists and weights, all lists of secrets, contexts, plaintexts and tokens, all texts, all keys, all libraries obeying the laws of C87.", "why_tests_cant": "All secrets, rotations and texts.", "anchors": ["fizz/util/FizzUtil.cpp", "fizz/util/FizzUtil.h", "fizz/server/AeadTicketCipher.h", "fizz/server/AeadTokenCipher.cpp", "fizz/server/TicketCodec.h: Label"]}
{"id": "C89", "title": "Padding and the client's delegated credentials", "statement": "A client using PaddingClientExtension adds to its extensions exactly the number of bytes asked for, at least four, all zero after the header, or cannot write its hello because they exceed 65535 bytes. DelegatedCredentialClientCertManager, after any history of additions, chooses a delegated credential exactly if the server announced delegated_credential and one was added for a scheme of ours that the server lists there: for the first such scheme the one last added with override or else the first added; otherwise the certificate CertManager would choose (C76), and none only if neither has a scheme in common; it answers whenever the extension is absent or readable. (Refuted as a stronger claim: our order of preference of schemes decides between delegated credentials and certificates.)", "quantifier": "All sizes and extension lists; all histories of additions, all scheme lists and extensions of the server.", "why_tests_cant": "All histories and extension lists.", "anchors": ["fizz/extensions/clientpadding/PaddingClientExtension.cpp", "fizz/extensions/clientpadding/Types.cpp", "fizz/extensions/delegatedcred/DelegatedCredentialClientCertManager.cpp", "fizz/client/CertManager.cpp"]}
{"id": "C90", "title": "Names of ciphers, schemes, groups and compression algorithms", "statement": "A name is parsed exactly if it is, byte for byte, one the tools know, and then to its value; any other text is an error. Every parsed name is what is printed for its value, and every value with a name for the parser is parsed back from what is printed. Different values are printed differently, unnamed ones as four hexadecimal digits that are nobody's name. A list on a command line is accepted exactly if it is known names joined by the separator, as their values in order; anything else throws. (Refuted as a stronger claim: every printed name is parsed back: not those of the batch schemes, RSA PKCS1, x448 and SecP256r1MLKEM768.)", "quantifier": "All texts, values and separators.", "why_tests_cant": "All texts.", "anchors": ["fizz/util/Parse-inl.h", "fizz/record/Types.cpp: toString", "fizz/record/Types.h", "fizz/tool/FizzCommandCommon.h: splitParse"]}
{"id": "C91", "title": "Ports and addresses on a command line", "statement": "A port is accepted exactly if the text means a number up to 65535, nonzero for connecting; digits alone mean their number. An address is accepted exactly if it is a nonempty host without colons, a colon and such a port, or a host with colons in square brackets, which are taken off, a colon and such a port; anything else throws. (Refuted as stronger claims: only digits are a port: leading blanks, a sign and anything after the digits are let through, and -18446744073709551615 is port 1; brackets are always taken off.)", "quantifier": "All texts.", "why_tests_cant": "All texts.", "anchors": ["fizz/tool/FizzCommandCommon.h: portFromString, hostPortFromString"]}
{"id": "C92", "title": "Command lines", "statement": "parseArguments calls exactly the handlers of the longest complete command line that the arguments from the third on start with, in order, each with the parameter after it if it takes one; it returns 0 exactly if nothing but perhaps one ignored argument is left of them, and 1 at an unknown argument or an option without parameter, after which no handler is called. (Refuted as a stronger claim: an argument after -v is handled.)", "quantifier": "All argument lists and handler tables.", "why_tests_cant": "All argument lists.", "anchors": ["fizz/tool/FizzCommandCommon.cpp: parseArguments"]}
{"id": "C93", "title": "ECH configurations and extensions given as text", "statement": "ECH configurations given in base64 are accepted exactly if the text, without blanks around it, decodes to a configuration list, whatever follows it, whose configurations of the supported version are well formed and named; the result is those, in order, or none. What servers publish is read back in full. Extensions given in hexadecimal are read exactly if the text is that of their encodings one after another, less than 64 KiB; anything else throws, and the check that nothing is left never fails.", "quantifier": "All texts, configurations and extension lists.", "why_tests_cant": "All texts.", "anchors": ["fizz/tool/FizzCommandCommon.cpp: parseECHConfigsBase64, getExtensions", "fizz/protocol/ech/Types-inl.h", "fizz/protocol/ech/Types.cpp"]}
{"id": "C94", "title": "Validated client contexts", "statement": "FizzClientContext::validate succeeds exactly if every cipher offered can be made, every supported group is one that key exchanges are made for, and every default share is among the supported groups; then no share that the client sends, or that a server asks for among its groups, fails for want of a key exchange.", "quantifier": "All contexts, all ciphers the factory makes, liboqs or none.", "why_tests_cant": "All configurations.", "anchors": ["fizz/client/FizzClientContext.cpp: validate", "fizz/protocol/MultiBackendFactory.cpp: makeKeyExchange"]}
{"id": "C95", "title": "Certificates and signatures over OpenSSL", "statement": "A peer's certificate is accepted exactly if OpenSSL reads a certificate from the start of its bytes whose key is RSA, Ed25519 or a valid one on P-256, P-384 or P-521; it accepts a signature exactly if the scheme is its key's one and OpenSSL accepts it, with that scheme's algorithm, for 64 spaces, the text of the context of use, a zero byte and the content, so that what is signed for one context and content is signed for no other. A certificate of our own is made exactly if the first certificate's key is of one of those types, matches the private key, and that is valid; it offers and signs with its one scheme. What it sends makes a certificate for the peer that accepts all it signs; a peer's certificate put in a ticket or a PSK comes back the same. (Refuted as stronger claims: a certificate followed by other bytes is refused; an empty chain is an error: it is undefined behaviour.)", "quantifier": "All certificates, keys, chains, texts, contents and signatures, any OpenSSL (for agreement: one that reads back what it writes and matches keys soundly).", "why_tests_cant": "All certificates.", "anchors": ["fizz/backend/openssl/certificate/CertUtils.cpp", "fizz/backend/openssl/certificate/CertUtils-inl.h", "fizz/backend/openssl/certificate/OpenSSLPeerCertImpl-inl.h", "fizz/backend/openssl/certificate/OpenSSLSelfCertImpl-inl.h", "fizz/backend/openssl/crypto/signature/Signature.cpp", "fizz/backend/openssl/crypto/signature/Signature-inl.h", "fizz/backend/openssl/crypto/OpenSSLKeyUtils.cpp"]}
{"id": "C96", "title": "Writes to a kernel-TLS socket", "statement": "Whatever the user and the socket below do, and however calls nest, AsyncKTLSRxSocket gives its record layer the bytes of the writes in the order of the calls, of each write a prefix, and all of a write that is reported to have succeeded; no write is reported on twice, a queued write is given in pieces of at most 128 KiB, and the socket has one queued request at most. When the socket has reported on everything and all calls have returned, every write with data has been reported on, unless a queued write without data was given to the record layer. (Refuted as a stronger claim: every write with data is reported on in the end: one behind an empty write never is.)", "quantifier": "All histories of calls and reports, all data, all nestings of callbacks.", "why_tests_cant": "All schedules of writes and completions.", "anchors": ["fizz/experimental/ktls/AsyncKTLSSocket.cpp: AsyncKTLSRxSocket"]}
