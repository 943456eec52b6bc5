# Formal model of facebookincubator/fizz in Rocq (Coq 8.16.1)

## 1. Approach

The sources in `/repo` are read as text; every Gallina definition of the model carries a comment with the file and
lines it models and the simplifications made.  Models are total, computable functions.  Three kinds of files:

* **model** (`Codec.v`, `Record.v`, `Server.v`, ...): what the code does, function by function;
* **specification** (`*Spec*.v`): what RFC 8446 / 5869 / 9180 / the ECH draft or the API documentation ask for; these
  files define nothing the model uses and share only data types with it;
* **theorems** (`Props*.v`): one theorem `Cnn_...` per aspect of property Cnn, with `Example`s (`_met`, `_nonvacuous`)
  that show a concrete, non-trivial instance meeting the hypotheses, and refutations (`_refuted`, or named after what goes
  wrong) of the claims the code does not meet.  Everything else (`*Proofs.v`, `ServerInv.v`, ...) is proof.

Common conventions (`Base.v`)

* a byte is `Coq.Init.Byte.byte`; buffers are `list byte`; a possibly null `std::unique_ptr<IOBuf>` is
  `option (list byte)`.  Where the *chaining* of an IOBuf matters (transform functions, application writes, record reads
  from a queue) the model uses `list (list byte)`.
* fixed width integers are `N` (`Z` for times) with the width made explicit wherever the code narrows
  (`folly::to<uint16_t>` = checked, `static_cast` = `mod 2^k`).
* every fallible function returns `res A := Ok a | Err e`; `e` distinguishes `EStatus` (fizz `Status::Fail`, with the
  alert if any), `EThrow` (a C++ exception escaping), `ECheck` (glog CHECK abort), `EUB` (undefined behaviour such as a
  null dereference) and `EFuel` (the model's own recursion budget; theorems state that it never occurs).
* cryptographic primitives (hash, AEAD, key exchange, signatures) are universally quantified functions with the algebraic
  law used written as an explicit hypothesis of the theorem; for each such theorem a toy instance shows that the hypothesis
  is satisfiable.  No cryptographic hardness is assumed anywhere; "unless the hash collides" is expressed by *exhibiting*
  the collision.
* connections (server `Server.v`, client `Client.v`) are functions from state, input and environment answer to state and
  actions.  A *history* is any list of inputs (socket bytes in any division, application calls), each with an arbitrary
  answer of the environment (clock, random bytes, verifier, ticket cipher ...); its *log* has what was called, received and
  emitted, in order.  Theorems about connections quantify over all histories and speak about the log only, plus the
  getters of the state.  They are proved from an invariant that every step preserves.

## 2. Properties

| id | model | specification, theorems | proof idea |
|----|-------|-------------------------|------------|
| C01-C03 | `Codec.v` (templates of record/Types-inl.h), `Handshake.v` (all messages) | `CodecSpec.v`, `HandshakeSpec.v`; `PropsCodec.v` | compositional codec laws: round trip, canonicity, exact failure conditions |
| C04 | `Extensions.v` | `ExtensionsSpec.v`; `PropsCodec.v` | per extension, through `getExtension` |
| C05-C10, C12 | `RecordBase.v`, `Record.v` (Plaintext/EncryptedRecordLayer), `Nonce.v` | `RecordSpec.v`; `PropsRecord.v` | induction on fragments, records and operation lists; xor injectivity |
| C11 | `ReadEvent.v` (RecordLayer.cpp) | `PropsRecord.v` | independence of the cut into records and reads |
| C13-C15 | `Hkdf.v` (Hmac, Hkdf, KeyDerivation) | `HkdfSpec.v`; `PropsKeys.v` | induction on rounds; injectivity of HkdfLabel |
| C16 | `KeySched.v` | `KeySchedSpec.v`; `PropsKeys.v` | refinement to an automaton over operation lists |
| C17, C33 | `Hpke.v`, `HpkeUtils.v` | `HpkeSpec.v`; `PropsHpke.v`, `PropsHpke2.v` | history invariant; key agreement by DH symmetry |
| C18, C19 | `IOBufUtil.v` | `PropsIOBuf.v` | refinement to a flat map; fold invariant |
| C20 | `Kex.v` (HybridKeyExchange) | `PropsHpke.v`, `PropsHpke2.v` | algebra |
| C21 | `Bloom.v` | `BloomSpec.v`; `PropsBloom.v` | invariant over operation lists |
| C22-C24, C26 | `Token.v`, `Ticket.v`, `PskSer.v` | `TicketSpec.v`; `PropsTicket.v`, `PropsTicket2.v` | codec laws, induction over secrets, arithmetic |
| C25 | `Cookie.v` | `PropsCookie.v` | codec laws |
| C27 | `Merkle.v` | `MerkleSpec.v`; `PropsMerkle.v` | induction on height; collisions exhibited |
| C28 | `Batcher.v` | `PropsBatcher.v` | invariant over interleavings of the lock-protected sections |
| C29 | `Negotiate.v` | `TicketSpec.v`; `PropsTicket.v` | lists |
| C30 | `CertManager.v` | `CertSpec.v`; `PropsCert.v` | maps |
| C31 | `HelloChecks.v` | `PropsHello.v` | lists |
| C32 | `FizzBase.v` (event loop with re-entrant callbacks) | `PropsFizzBase.v` | invariant over all call/callback histories with an explicit stack |
| C34-C41 | `Server.v` (every handler of ServerProtocol.cpp), `Transcript.v` | `ServerSpec.v`, `ServerSpec2.v`; `PropsServer.v`-`PropsServer5.v`, `PropsServer8.v`, examples `PropsServerEx.v` | invariant (`ServerInv.v`, `ServerPreserve.v`), origin of actions (`ServerOrigin.v`) |
| C42, C43 | `EchConfirm.v`, `Transcript.v` | `PropsEch.v` | equations; injectivity |
| C44-C47 | `EchCrypt.v` (ech/Encryption.cpp, Decrypter.cpp, Types-inl.h) | `EchSpec.v`; `PropsEchCrypt.v`, `PropsEchPad.v`, `PropsEchConfig.v` | codec laws, list surgery, HPKE agreement |
| C48-C58 | `Client.v` (every handler of ClientProtocol.cpp) | `ClientSpec.v`, `ClientHelloSpec.v`; `PropsClient.v`-`PropsClient8.v`, examples `PropsClientEx.v`, `PropsClientEx2.v` | invariants (`ClientInv.v`-`ClientPreserve.v`, `ClientSide.v`), origin of actions (`ClientOrigin.v`) |
| C59-C61 | `Server.v` | `ServerSpec3.v`; `PropsServer6.v`, `PropsServer7.v`, examples `PropsServerEx.v` | the invariants and origins of C34-C41, plus the equations of the negotiation (`ServerFacts.v`) |
| C62 | `Server.v`, `Cookie.v`, `Ticket.v`, `EchCrypt.v` | `ServerCrash.v` (hypotheses `env_safe`, `world_safe`); `PropsCrash.v` | `safe` for every function (`Crash.v`), invariant `inv_safe` (`ServerCrash.v`), fizz's own plugins (`CrashParts.v`) |
| C63 | `Client.v`, `EchCrypt.v` | `ClientCrash.v` (hypotheses `cenv_safe`, `cworld_safe`, `conn_safe`); `PropsCrash2.v` | invariant `cinv_safe` (`ClientCrash.v`) |
| C64, C65 | `ExpAuth.v` (Exporter.cpp, ExportedAuthenticator.cpp) | `PropsExpAuth.v`, `PropsExpAuth2.v` | codec laws, HKDF equations, the invariants of C34-C61 |
| C66, C67 | `DelegCred.v` (extensions/delegatedcred, CertUtils::makePeerCert, verify) | `PropsDelegCred.v`, `PropsDelegCred2.v` | codec laws, C30, C35, C43, C48 |
| C68 | `Client.v`, `Server.v`, `Hkdf.v`, `KeySched.v` | `Agreement.v` (what is hashed for a Finished message), `PropsAgree.v`, example `PropsAgreeEx.v` | C58_flight, C34_success, flight_origin; injectivity of the chain of hashes and of message framing |
| C69 | `AsyncWrite.v` (AsyncFizzBase's write queue, heap, re-entrant callbacks) | `PropsAsyncWrite.v`, examples `PropsAsyncWriteEx.v` | invariant on the chain of queued requests, over all histories with an explicit stack |
| C70 | `AsyncRead.v` (AsyncFizzBase: setReadCB, deliverAppData, deliverError; re-entrant callbacks) | `PropsAsyncRead.v`, examples and findings `PropsAsyncReadEx.v` | invariants over all histories with an explicit stack |
| C71 | `AsyncEarly.v` (AsyncFizzClient: connect, writeAppData, deliverAllErrors, early data actions; EarlyDataRejectionPolicy) | `PropsAsyncEarly.v`, examples and findings `PropsAsyncEarlyEx.v` | invariants over all histories with an explicit stack; each event against a specification of the log |
| C72 | `TokenBinding.v` (extensions/tokenbinding, Multi*Extensions) | `PropsTokenBinding.v` | acceptance as an equivalence with RFC 8471's signed data; codec laws; case analysis of the negotiation |
| C73 | `PskCache.v` (client/PskCache.h, SynchronizedLruPskCache.cpp) | `PropsPskCache.v` | the map's order as an invariant over histories; threads: the returned calls replay sequentially, by induction on steps |
| C74 | `CertCompress.v` (compression/, OpenSSLSelfCertImpl, CertUtils::getCertMessage) | `PropsCertCompress.v` | acceptance as an equivalence; codec laws for the round trip; ordered-map laws |
| C75 | `DualTicket.v` (server/DualTicketCipher.h) | `PropsDualTicket.v` | composition of C22, C23, C24 |
| C76 | `DualTicket.v` (client/CertManager.cpp) | `PropsDualTicket.v` | induction over the history of additions |
| C77 | `AsyncServer.v` (server/AsyncFizzServer-inl.h, server/FizzServer-inl.h as a machine with an explicit stack of foreign calls) | `PropsAsyncServer.v` | invariants by induction over histories; two refutations by concrete histories |
| C78 | `AeadChain.v` (crypto/aead/CryptoUtil.h, OpenSSLEVPCipher.cpp, AEGISCipher.cpp: memory and positions) | `AeadChainSpec.v`, `AeadChainProofs.v`, `PropsAead.v` | simulation of the chunked calls by one call, by induction over the buffers; refinement to `Record.aead`; two refutations |
| C79 | `Psp.v` (experimental/psp/PSP.cpp: messages and the upgrade operation as a machine with an explicit stack of foreign calls) | `PropsPsp.v` | invariant by induction over histories giving a trace specification; three refutations |
| C80 | `Ktls.v` (experimental/ktls: parameters, conversion, read side, ticket handler, Rx writes) | `PropsKtls.v` | case analysis; induction over the stream; comparison with `Nonce.v`, `Client.v`, `Record.v`; five refutations |
| C81 | `DcPem.v` (extensions/delegatedcred/Serialization.cpp) | `PropsDcPem.v` | text search lemmas; with C65/C66's credential codec; refutations by computation |
| C82 | `GreaseEch.v` (protocol/ech/GreaseECH.cpp) | `PropsGrease.v` | case analysis, arithmetic of the draw |
| C83, C84 | `HexLog.v` (util/Hex.cpp, util/KeyLogWriter.h) | `PropsHexLog.v` | induction; unique reading of lines |
| C85 | `X509Verify.v` (OpenSSLCertificateVerifier.cpp), `Client.v`, `Server.v` | `PropsX509.v` | case analysis; from C34/C44-style history theorems; refutations by computation |
| C86 | `HandshakeLog.v` (server/HandshakeLogging.cpp), `HelloLog.v`, `Server.v` | `PropsHelloLog.v`, `PropsServer6.v` | inversion field by field; case analysis |
| C87 | `KexObj.v` (makeKeyExchange, OpenSSLKeyExchange.cpp, X25519.cpp, OQSKeyExchange.cpp, HybridKeyExchange.cpp) | `PropsKexObj.v` | laws of the libraries; invariant (shape of the object); refutations by computation |
| C88 | `Util.v` (FizzUtil), `Token.v`, `HexLog.v`, `KexObj.v` | `PropsUtil.v` | from C22, C83, C87; induction over the list; refutations by computation |
| C89 | `Util.v` (clientpadding, DelegatedCredentialClientCertManager.cpp), `DualTicket.v` | `PropsUtil.v` | codec laws; from C76 |
| C90 | `Tool.v` (Parse-inl.h, Types.cpp) | `PropsTool.v` | tables checked by computation, induction over texts; from C83 |
| C91 | `Tool.v` (FizzCommandCommon.h) | `PropsTool.v` | induction over texts |
| C92 | `Tool.v` (FizzCommandCommon.cpp) | `PropsTool.v` | induction over argument lists |
| C93 | `Tool.v`, `EchCrypt.v`, `DcPem.v` (base64), `HexLog.v` | `PropsTool.v` | codec laws; from C47, C81, C83 |
| C94 | `Tool.v` (FizzClientContext.cpp), `KexObj.v` | `PropsTool.v` | from C87 |
| C95 | `OsslCert.v` (CertUtils, Signature, OpenSSLPeerCertImpl, OpenSSLSelfCertImpl, OpenSSLKeyUtils) | `PropsOsslCert.v` | direct; OpenSSL a parameter, laws only for agreement |
| C96 | `KtlsQueue.v` (AsyncKTLSRxSocket: writeChain, QueuedWriteRequest, writeAppData) | `PropsKtlsQueue.v` | invariant over all histories with a stack of open foreign calls |

`Joint.v` connects a client and a server model by a network that delivers what is written; the examples of C34-C58 are runs
of it or of one side against literal bytes.

The claims of the code's documentation that turned out false are theorems too, with a concrete witness: see the notes in
`MANIFEST.json`.

## 3. Trusted base

* Coq 8.16.1 kernel, including `vm_compute` (used in examples).
* `Print Assumptions` of every theorem listed in `MANIFEST.json` says "Closed under the global context": no axioms, of the
  standard library or otherwise.  (A check that lists all axioms *loaded* shows some of `Coq.ssr.ssrunder`: they are
  declarations of the module type behind ssreflect's `under`, pulled in by library files; no theorem uses them.)
* No plugins, no `Variable`/`Hypothesis` outside sections, no functors, no kernel check switched off.
* The reading of the C++ sources: nothing is executed.  The citations are the only link.
* The specification files: they are what the English statements in `properties.jsonl` become.

## 4. Modelled and not modelled

Modelled: record/ (types, extensions, both record layers, reassembly), crypto/ key derivation, HPKE, hybrid key exchange,
IOBuf transforms, AEADs over IOBuf chains (the OpenSSL and AEGIS ciphers around the libraries), nonce construction, protocol/ key scheduler, handshake context, certificate signing input, hello extension
checks, event loop, ECH, the write queue and the read side of AsyncFizzBase, AsyncFizzClient's handling of writes and early data, AsyncFizzServer; server/ state machine, negotiation, tickets, token and cookie ciphers, replay cache, certificate
manager, DualTicketCipher; client/ state machine, PSK serialization, PSK caches, certificate manager; compression/ (around the libraries) and the
certificate messages of OpenSSLSelfCertImpl; exporter, extensions/exportedauth, extensions/delegatedcred and extensions/tokenbinding; experimental/ Merkle tree, batch
signatures, batcher, PSP upgrade, kernel TLS; delegated credential files, GREASE ECH, hexadecimal text and key logs; OpenSSLCertificateVerifier around X509_verify_cert; handshake logging; the key exchange objects and their factory; FizzUtil, client padding, the client's delegated credential manager; names, ports, command lines, ECH configurations and extensions given to the tools as text, validation of client contexts; certificates and signatures over OpenSSL.

Interfaces whose implementations are outside the model (they appear as arbitrary functions, chosen anew at every step where
the code calls them anew): hash functions, AEADs, Diffie-Hellman groups, KEMs, signature keys and peer certificates, X.509
verification, zlib / brotli / zstd, replay cache and ticket cipher as the state machine sees them, application
callbacks (extensions, token validators), clock and randomness.

Not modelled: memory management and object lifetime, threads other than those using the batcher and the PSK cache, the rest of the OpenSSL / libsodium /
liboqs glue, sockets and timers, timing side channels, custom record layers, fizz/tool,
the rest of fizz/backend, bogoshim, and the parts named in the comments of the definitions.

## 5. Testing the theorems

`seeded/LOG.jsonl` has one line per wrong program: an edit of a model definition, the claim it breaks, and the theorems that
stopped compiling.  Edits that no theorem noticed led to the theorems named in `tightened`.
