-Q theories Verif
theories/Base.v
theories/Codec.v
theories/CodecSpec.v
theories/Handshake.v
theories/HandshakeSpec.v
theories/HandshakeProofs.v
theories/Extensions.v
theories/ExtensionsSpec.v
theories/ExtensionsProofs.v
theories/PropsCodec.v
theories/RecordBase.v
theories/Record.v
theories/RecordProofs.v
theories/RecordSpec.v
theories/RecordRT.v
theories/Nonce.v
theories/ReadEvent.v
theories/ReadEventProofs.v
theories/PropsRecord.v
theories/Str.v
theories/Hkdf.v
theories/HkdfSpec.v
theories/HkdfProofs.v
theories/KeySched.v
theories/KeySchedSpec.v
theories/KeySchedProofs.v
theories/PropsKeys.v
theories/Kex.v
theories/Hpke.v
theories/HpkeSpec.v
theories/HpkeProofs.v
theories/PropsHpke.v
theories/HpkeUtils.v
theories/PropsHpke2.v
theories/IOBufUtil.v
theories/PropsIOBuf.v
theories/Bloom.v
theories/BloomSpec.v
theories/PropsBloom.v
theories/Token.v
theories/Negotiate.v
theories/Ticket.v
theories/PskSer.v
theories/TicketSpec.v
theories/PropsTicket.v
theories/PropsTicket2.v
theories/Cookie.v
theories/PropsCookie.v
theories/Merkle.v
theories/MerkleSpec.v
theories/MerkleProofs.v
theories/PropsMerkle.v
theories/Batcher.v
theories/PropsBatcher.v
theories/CertManager.v
theories/CertSpec.v
theories/PropsCert.v
theories/HelloChecks.v
theories/PropsHello.v
theories/FizzBase.v
theories/PropsFizzBase.v
theories/Transcript.v
theories/EchConfirm.v
theories/HandshakeLog.v
theories/Server.v
theories/ServerSpec.v
theories/ServerFacts.v
theories/ServerSteps.v
theories/Crash.v
theories/ServerCrash.v
theories/PropsEch.v
theories/ServerFlight.v
theories/ServerInv.v
theories/ServerPreserve.v
theories/ServerParams.v
theories/ServerOrigin.v
theories/ServerSpec2.v
theories/PropsServer.v
theories/PropsServer2.v
theories/PropsServer3.v
theories/PropsServer4.v
theories/PropsServer5.v
theories/ServerSpec3.v
theories/PropsServer6.v
theories/PropsServer7.v
theories/PropsServer8.v
theories/PropsServerEx.v
theories/EchCrypt.v
theories/EchSpec.v
theories/EchProofs.v
theories/PropsEchCrypt.v
theories/PropsEchPad.v
theories/PropsEchConfig.v
theories/Client.v
theories/ClientSpec.v
theories/ClientHelloSpec.v
theories/ClientSteps.v
theories/ClientHello.v
theories/ClientBinder.v
theories/ClientInv.v
theories/ClientAwait.v
theories/ClientHello2.v
theories/ClientFlight.v
theories/ClientPhase.v
theories/ClientPreserve.v
theories/ClientOrigin.v
theories/PropsClient.v
theories/PropsClient2.v
theories/PropsClient3.v
theories/ClientSide.v
theories/PropsClient4.v
theories/PropsClient5.v
theories/PropsClient6.v
theories/PropsClient7.v
theories/PropsClient8.v
theories/Joint.v
theories/Agreement.v
theories/PropsAgree.v
theories/PropsClientEx.v
theories/PropsAgreeEx.v
theories/PropsClientEx2.v
theories/CrashParts.v
theories/PropsCrash.v
theories/ClientCrash.v
theories/PropsCrash2.v
theories/ExpAuth.v
theories/PropsExpAuth.v
theories/PropsExpAuth2.v
theories/DelegCred.v
theories/PropsDelegCred.v
theories/PropsDelegCred2.v
theories/AsyncWrite.v
theories/PropsAsyncWrite.v
theories/PropsAsyncWriteEx.v
theories/AsyncRead.v
theories/PropsAsyncRead.v
theories/PropsAsyncReadEx.v
theories/AsyncEarly.v
theories/PropsAsyncEarly.v
theories/PropsAsyncEarlyEx.v
theories/TokenBinding.v
theories/PropsTokenBinding.v
theories/PskCache.v
theories/PropsPskCache.v
theories/CertCompress.v
theories/PropsCertCompress.v
theories/DualTicket.v
theories/PropsDualTicket.v
theories/AsyncServer.v
theories/PropsAsyncServer.v
theories/AeadChain.v
theories/AeadChainSpec.v
theories/AeadChainProofs.v
theories/PropsAead.v
theories/Psp.v
theories/PropsPsp.v
theories/Ktls.v
theories/PropsKtls.v
theories/DcPem.v
theories/PropsDcPem.v
theories/GreaseEch.v
theories/PropsGrease.v
theories/HexLog.v
theories/PropsHexLog.v
theories/X509Verify.v
theories/PropsX509.v
theories/HelloLog.v
theories/PropsHelloLog.v
theories/KexObj.v
theories/PropsKexObj.v
theories/Util.v
theories/PropsUtil.v
theories/Tool.v
theories/PropsTool.v
theories/OsslCert.v
theories/PropsOsslCert.v
theories/KtlsQueue.v
theories/PropsKtlsQueue.v
