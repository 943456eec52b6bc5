(** * The server state machine: server/ServerProtocol.cpp

    The model covers every handler of ServerProtocol.cpp and processSocketData / processEvent / handleError / handleAppClose.
    - Everything the code calls through an interface (Factory, CertManager, TicketCipher, CookieCipher, ReplayCache,
      AppTokenValidator, CertificateVerifier, ServerExtensions, ech::Decrypter, SelfCert, PeerCert, Clock, random bytes,
      KeyExchange) is a function in [env] (fixed for the connection) or in [world] (chosen anew for every step, so that
      theorems quantify over all behaviours of the oracle).
    - Asynchronous results are complete before the next input is processed (FizzBase guarantees that, see FizzBase.v).
    - VLOG, the values of HandshakeLogging (HandshakeLog.v, PropsHelloLog.v; only whether filling it in throws matters here), SDT probes, write tokens and flags, AeadOptions and configureServerRecordLayer (a no-op unless
      a custom record layer overrides it, RecordLayer.h:153-158) are not modelled.
    - Failures keep only what the code does with them: the alert.  [Err (EStatus (Some a))] is an error with alert [a],
      [Err (EStatus None)] and [Err EThrow] are exceptions without FizzException alert, [ECheck]/[EUB] abort the process. *)
From Verif Require Import Base Codec Str Hkdf KeySched Handshake Extensions HandshakeLog RecordBase Record ReadEvent HelloChecks Cookie
  Token Negotiate Ticket Kex Hpke Transcript IOBufUtil EchConfirm.
Open Scope N_scope.

(** AlertDescription, record/Types.h *)
Definition al_unexpected_message : N := 10.
Definition al_bad_record_mac : N := 20.
Definition al_handshake_failure : N := 40.
Definition al_bad_certificate : N := 42.
Definition al_illegal_parameter : N := 47.
Definition al_decode_error : N := 50.
Definition al_decrypt_error : N := 51.
Definition al_protocol_version : N := 70.
Definition al_internal_error : N := 80.
Definition al_missing_extension : N := 109.
Definition al_unsupported_extension : N := 110.
Definition al_certificate_required : N := 116.
Definition al_no_application_protocol : N := 120.

(** server/State.h:28-40; [SCrash] stands for an aborted process *)
Inductive sst := SUninitialized | SExpectingClientHello | SExpectingCertificate | SExpectingCertificateVerify | SAcceptingEarlyData
  | SExpectingFinished | SAcceptingData | SExpectingCloseNotify | SClosed | SError | SCrash.
(** protocol/Types.h:17-23, 46-50; ReplayCache.h:18-23; FizzServerContext.h ClientAuthMode, AlpnMode; State.h:42 *)
Inductive psktype := PskNotSupported | PskNotAttempted | PskRejected | PskExternal | PskResumption.
Inductive kextype := KexNone | KexOneRtt | KexHRR.
Inductive earlytype := EdNotAttempted | EdRejected | EdAccepted.
Inductive replayres := RNotChecked | RNotReplay | RMaybeReplay | RDefinitelyReplay.
Inductive authmode := AuthNone | AuthOptional | AuthRequired.
Inductive alpnmode := AlpnAllowMismatch | AlpnOptional | AlpnRequired.
Inductive echstatus := EchNotRequested | EchAccepted | EchRejected.
Inductive level := LvPlaintext | LvHandshake | LvEarlyData | LvAppTraffic.

(** A PeerCert: identity, and verify(scheme, context, toBeSigned, signature). *)
Record peercert := mkPeer { pc_cert : cert; pc_verify : N -> cvctx -> bytes -> bytes -> res unit }.
(** A SelfCert: getCertMessage, getCompressedCert, sign; an AsyncSelfCert has getCertificateAndSign(algo, scheme, transcript). *)
Record selfobj := mkSelf {
  so_cert : cert; so_message : res CertificateMsg; so_compressed : N -> res CompressedCertificate;
  so_sign : N -> cvctx -> bytes -> res bytes;
  so_async : option (option N -> N -> hsctx -> res (bytes * bytes)) }.
(** ech::Decrypter (ech/Decrypter.h:29-55); a ClientHello travels with its originalEncoding *)
Record decrypter := mkDec {
  d_hello : ClientHello -> bytes -> res (option (ClientHello * bytes * hctx));
  d_hrr : ClientHello -> bytes -> hctx -> res (ClientHello * bytes);
  d_hrr_enc : ClientHello -> bytes -> buf -> res (ClientHello * bytes);
  d_retry : option bytes -> res (list (N * buf)) }.

(** FizzServerContext with its Factory, and the extensions given to accept. *)
Record env := mkEnv {
  e_versions : list N; e_ciphers : list (list N); e_groups : list N; e_pskModes : list N; e_sigSchemes : list N;
  e_alpns : list bytes; e_alpnMode : alpnmode; e_authMode : authmode; e_fallback : bool;
  e_acceptEarly : bool; e_earlyFbOnly : bool; e_tolBefore : Z; e_tolAfter : Z; e_maxEarly : N; e_omitEarly : bool; e_sendTicket : bool;
  e_compAlgos : list N;
  e_hash : N -> res hashalg;                                  (* Factory, by cipher suite *)
  e_aead : N -> res (N * N * (bytes -> bytes -> res aead));   (* keyLength, ivLength, setKey *)
  e_peerCert : CertificateEntry -> bool -> res peercert;
  e_verifier : option (list peercert -> res (option cert));
  e_verifierExts : res (list Extension);
  e_cookie : option (bytes -> res (option cookiest));
  e_ticketCipher : bool; e_replayCache : bool; e_tokenValidator : bool;
  e_ech : option decrypter;
  e_extensions : option (ClientHello -> res (list Extension));
  e_getCert : option bytes -> list N -> ClientHello -> res (option (selfobj * N)) }.

(** What the environment answers during one step. *)
Record world := mkWorld {
  w_now : Z;                                   (* Clock, first call *)
  w_now2 : Z;                                  (* Clock, second call *)
  w_random : res bytes;                        (* makeRandomBytes(32) *)
  w_ageAdd : res N;                            (* makeRandomBytes(4) *)
  w_ticketDecrypt : bytes -> res (psktype * option resstate);
  w_ticketEncrypt : resstate -> res (option (bytes * N));
  w_replay : bytes -> res replayres;
  w_kex : N -> bytes -> res (bytes * bytes);   (* group, client share -> our share, shared secret *)
  w_tokenValid : resstate -> bool }.

(** State::echState (State.h:44-53) *)
Record echst := mkEchSt { eh_suite : N * N; eh_config : N; eh_ctx : option hctx; eh_outerSni : option bytes }.

(** WriteRecordLayer implementations *)
Inductive wlayer := WPlain | WEnc (lv : level) (w : wstate).

(** server/State.h *)
Record sstate := mkS {
  s_state : sst;
  s_read : option evstate; s_write : option wlayer; s_hsRead : option evstate;
  s_hctx : option hsctx; s_ks : option (hashalg * ks);
  s_version : option N; s_cipher : option N; s_group : option N; s_kexType : option kextype; s_early : option earlytype;
  s_psk : option psktype; s_pskMode : option N; s_replay : option replayres; s_alpn : option bytes;
  s_clientHsSecret : option bytes; s_chain : option (list peercert);
  s_clientCert : option cert; s_serverCert : option cert; s_certReqExts : list N; s_sigScheme : option N;
  s_exporter : option bytes; s_earlyExporter : option bytes; s_resumption : bytes;
  s_skew : option Z; s_appToken : buf; s_hsTime : option Z; s_clientRandom : option bytes;
  s_ech : echstatus; s_echState : option echst }.
Definition s_init : sstate := mkS SUninitialized None None None None None None None None None None None None None None None None None
  None [] None None None [] None None None None EchNotRequested None.

(** Field updates *)
Definition upd_state (s : sstate) (x : sst) : sstate :=
  mkS x (s_read s) (s_write s) (s_hsRead s) (s_hctx s) (s_ks s) (s_version s) (s_cipher s) (s_group s) (s_kexType s) (s_early s)
    (s_psk s) (s_pskMode s) (s_replay s) (s_alpn s) (s_clientHsSecret s) (s_chain s) (s_clientCert s) (s_serverCert s) (s_certReqExts s)
    (s_sigScheme s) (s_exporter s) (s_earlyExporter s) (s_resumption s) (s_skew s) (s_appToken s) (s_hsTime s) (s_clientRandom s)
    (s_ech s) (s_echState s).
Definition upd_layers (s : sstate) (r : option evstate) (w : option wlayer) : sstate :=
  mkS (s_state s) r w (s_hsRead s) (s_hctx s) (s_ks s) (s_version s) (s_cipher s) (s_group s) (s_kexType s) (s_early s)
    (s_psk s) (s_pskMode s) (s_replay s) (s_alpn s) (s_clientHsSecret s) (s_chain s) (s_clientCert s) (s_serverCert s) (s_certReqExts s)
    (s_sigScheme s) (s_exporter s) (s_earlyExporter s) (s_resumption s) (s_skew s) (s_appToken s) (s_hsTime s) (s_clientRandom s)
    (s_ech s) (s_echState s).
Definition upd_write (s : sstate) (w : option wlayer) : sstate := upd_layers s (s_read s) w.
Definition upd_read (s : sstate) (r : option evstate) : sstate := upd_layers s r (s_write s).
Definition upd_hs (s : sstate) (hr : option evstate) (c : option hsctx) : sstate :=
  mkS (s_state s) (s_read s) (s_write s) hr c (s_ks s) (s_version s) (s_cipher s) (s_group s) (s_kexType s) (s_early s)
    (s_psk s) (s_pskMode s) (s_replay s) (s_alpn s) (s_clientHsSecret s) (s_chain s) (s_clientCert s) (s_serverCert s) (s_certReqExts s)
    (s_sigScheme s) (s_exporter s) (s_earlyExporter s) (s_resumption s) (s_skew s) (s_appToken s) (s_hsTime s) (s_clientRandom s)
    (s_ech s) (s_echState s).
Definition upd_ks (s : sstate) (k : option (hashalg * ks)) : sstate :=
  mkS (s_state s) (s_read s) (s_write s) (s_hsRead s) (s_hctx s) k (s_version s) (s_cipher s) (s_group s) (s_kexType s) (s_early s)
    (s_psk s) (s_pskMode s) (s_replay s) (s_alpn s) (s_clientHsSecret s) (s_chain s) (s_clientCert s) (s_serverCert s) (s_certReqExts s)
    (s_sigScheme s) (s_exporter s) (s_earlyExporter s) (s_resumption s) (s_skew s) (s_appToken s) (s_hsTime s) (s_clientRandom s)
    (s_ech s) (s_echState s).
Definition upd_certs (s : sstate) (ch : option (list peercert)) (cc : option cert) : sstate :=
  mkS (s_state s) (s_read s) (s_write s) (s_hsRead s) (s_hctx s) (s_ks s) (s_version s) (s_cipher s) (s_group s) (s_kexType s) (s_early s)
    (s_psk s) (s_pskMode s) (s_replay s) (s_alpn s) (s_clientHsSecret s) ch cc (s_serverCert s) (s_certReqExts s)
    (s_sigScheme s) (s_exporter s) (s_earlyExporter s) (s_resumption s) (s_skew s) (s_appToken s) (s_hsTime s) (s_clientRandom s)
    (s_ech s) (s_echState s).
Definition upd_finished (s : sstate) (rms : bytes) : sstate :=
  mkS (s_state s) (s_read s) (s_write s) (s_hsRead s) None (s_ks s) (s_version s) (s_cipher s) (s_group s) (s_kexType s) (s_early s)
    (s_psk s) (s_pskMode s) (s_replay s) (s_alpn s) None (s_chain s) (s_clientCert s) (s_serverCert s) (s_certReqExts s)
    (s_sigScheme s) (s_exporter s) (s_earlyExporter s) rms (s_skew s) (s_appToken s) (s_hsTime s) (s_clientRandom s)
    (s_ech s) (s_echState s).
Definition upd_hello (s : sstate) (c : option hsctx) (version cipher : N) (group : option N) (kt : kextype) (ed : earlytype)
    (rc : replayres) (rd : option evstate) (es : echstatus) (est : option echst) : sstate :=
  mkS (s_state s) rd (s_write s) (s_hsRead s) c (s_ks s) (Some version) (Some cipher) group (Some kt) (Some ed)
    (s_psk s) (s_pskMode s) (Some rc) (s_alpn s) (s_clientHsSecret s) (s_chain s) (s_clientCert s) (s_serverCert s) (s_certReqExts s)
    (s_sigScheme s) (s_exporter s) (s_earlyExporter s) (s_resumption s) (s_skew s) (s_appToken s) (s_hsTime s) (s_clientRandom s)
    es est.

(** TLSContent (record/RecordLayer.h) with, beside the bytes handed to the socket, the plaintext they carry (ghost). *)
Record content := mkContent { ct_level : level; ct_type : N; ct_data : buf; ct_plain : bytes }.
Inductive secretkind := SkEarly | SkClientHs | SkServerHs | SkClientApp | SkServerApp.
(** Actions seen by the application (server/Actions.h); MutateState is applied to the returned state. *)
Inductive out :=
| OWrite (l : list content)
| ODeliver (data : bytes)
| OSuccess
| OEarlySuccess
| OError (alert : option N)
| OSecret' (k : secretkind) (secret : bytes)
| OEndOfData (post : bytes)
| OFallback (hello : buf) (sni : option bytes)
| OWait (hint : N).

(** ** Record layers *)
(** write / writeAlert / writeAppData / writeHandshake (RecordLayer.h:175-209) on a chain of buffers. *)
Definition wl_write (l : wlayer) (ty : N) (q : queue) : wlayer * res content :=
  match l with
  | WPlain => (l, d <- plain_write (mkMsg ty (concat q)) ;; Ok (mkContent LvPlaintext ty d (concat q)))
  | WEnc lv w => let '(_, w', r) := enc_write ty w q in
                 (WEnc lv w', d <- r ;; Ok (mkContent lv ty (Some d) (concat q)))
  end.
Definition alert_bytes (a : N) : bytes := be 1 2 ++ be 1 a.          (* encode(Alert(a)), Types.h:375-381 *)

(** Protocol::deriveRecordAead (Protocol.h:34-47); getTrafficKey does not look at the scheduler's state *)
Definition derive_aead (e : env) (h : hashalg) (cipher : N) (secret : bytes) : res aead :=
  '(kl, il, mk) <- e_aead e cipher ;;
  match snd (ks_step h ks_init (GetTrafficKey secret kl il)) with
  | Ok (OKeyIv k iv) => mk k iv
  | Ok _ => Err EThrow
  | Err x => Err x
  end.
(** makeEncryptedReadRecordLayer + setProtocolVersion + setSkipFailedDecryption + setAead (EncryptedRecordLayer.h) *)
Definition new_read (e : env) (h : hashalg) (version cipher : N) (secret : bytes) (skip : bool) : res evstate :=
  rv <- real_draft_version version ;;
  a <- derive_aead e h cipher secret ;;
  Ok (mkEv [] (LEnc (mkE 0 skip (negb (rv =? 32535)) a))).
(** makeEncryptedWriteRecordLayer + setProtocolVersion + setAead; default maxRecord and padding policy
    (EncryptedRecordLayer.h:141-149) *)
Definition new_write (e : env) (h : hashalg) (lv : level) (version cipher : N) (secret : bytes) : res wlayer :=
  rv <- real_draft_version version ;;
  a <- derive_aead e h cipher secret ;;
  Ok (WEnc lv (mkW 0 (negb (rv =? 32535)) kMaxPlaintextRecordSize (PConst 0) a)).

(** ** KeyScheduler calls *)
Definition kdo (h : hashalg) (k : ks) (op : ks_op) : res ks :=
  let '(k', r) := ks_step h k op in _ <- r ;; Ok k'.
Definition kget (h : hashalg) (k : ks) (op : ks_op) : res bytes :=
  match snd (ks_step h k op) with
  | Ok (OSecret b) => Ok b
  | Ok _ => Err EThrow
  | Err x => Err x
  end.

Definition ensure (b : bool) (e : err) : res unit := if b then Ok tt else Err e.
Definition alert (a : N) : err := EStatus (Some a).
Definition deref (b : buf) : res bytes := match b with Some x => Ok x | None => Err EUB end.

(** ** ClientHello processing *)
(** validateClientHello :508-518 *)
Definition validateClientHello (c : ClientHello) : res unit :=
  match ch_compression c with
  | [0] => checkDuplicateExtensions (ch_extensions c)
  | _ => Err (alert al_illegal_parameter)
  end.
(** negotiateVersion :520-534 *)
Definition negotiateVersion (c : ClientHello) (versions : list N) : res (option N) :=
  x <- getExtension KSupportedVersions (ch_extensions c) ;;
  match x with
  | Some (XSupportedVersions l) => Ok (negotiate versions l)
  | _ => Ok None
  end.
(** getCookieState :536-567 *)
Definition serverCookie (e : env) (c : ClientHello) : res (option cookiest) :=
  x <- getExtension KCookie (ch_extensions c) ;;
  match x with
  | Some (XCookie b) =>
      match e_cookie e with
      | None => Err (alert al_unsupported_extension)
      | Some dec =>
          d <- deref b ;;
          st <- dec d ;;
          match st with
          | None => Err (alert al_decrypt_error)
          | Some ck =>
              _ <- ensure (Bool.eqb (match ck_echSuite ck with Some _ => true | None => false end)
                                    (match ck_echConfigId ck with Some _ => true | None => false end)) (alert al_internal_error) ;;
              Ok (Some ck)
          end
      end
  | _ => Ok None
  end.
(** verifyCookieState :569-585 *)
Definition verifyCookie (ck : option cookiest) (version cipher : N) : res unit :=
  match ck with
  | None => Ok tt
  | Some k =>
      _ <- ensure (ck_version k =? version) (alert al_protocol_version) ;;
      ensure (ck_cipher k =? cipher) (alert al_handshake_failure)
  end.
(** getResumptionState :604-646: the ticket to decrypt with the negotiated mode and the obfuscated age, or the PskType *)
Definition resumptionQuery (e : env) (c : ClientHello) : res (psktype + (bytes * N * N)) :=
  p <- getExtension KClientPresharedKey (ch_extensions c) ;;
  m <- getExtension KPskKeyExchangeModes (ch_extensions c) ;;
  let modes := match m with Some (XPskKeyExchangeModes l) => Some l | _ => None end in
  let mode := match modes with Some l => negotiate (e_pskModes e) l | None => None end in
  match p with
  | Some (XClientPresharedKey (ids, _)) =>
      match modes with
      | None => Err (alert al_missing_extension)
      | Some _ =>
          match ids with
          | [] => Ok (inl PskNotAttempted)
          | (id, age) :: _ =>
              if negb (e_ticketCipher e) then Ok (inl PskRejected)
              else match mode with
                   | None => Ok (inl PskRejected)
                   | Some md => i <- deref id ;; Ok (inr (i, md, age))
                   end
          end
      end
  | _ => match mode with None => Ok (inl PskNotSupported) | Some _ => Ok (inl PskNotAttempted) end
  end.
(** getHashFunction, protocol/Types.cpp:13-30 *)
Definition hash_id (cipher : N) : res N :=
  if mem cipher [0x1301; 0x1303; 0x1307; 0x13ef; 0x13f0] then Ok 256
  else if cipher =? 0x1302 then Ok 384
  else if cipher =? 0x1306 then Ok 512
  else fail.
(** validateResumptionState :663-686 *)
Definition validateResumption (r : resstate) (version cipher : N) : res bool :=
  if negb (rs_version r =? version) then Ok false
  else a <- hash_id (rs_cipher r) ;; b <- hash_id cipher ;; Ok (a =? b).
(** FizzServerContext::getAcceptEarlyData, FizzServerContext.h:260-267 *)
Definition acceptEarly (e : env) (version : N) : bool :=
  if e_earlyFbOnly e && negb (version =? 0xfb17) && negb (version =? 0xfb1a) then false else e_acceptEarly e.
Definition earlyOffered (c : ClientHello) : res bool :=
  x <- getExtension KClientEarlyData (ch_extensions c) ;; Ok (match x with Some _ => true | None => false end).
(** getReplayCacheResult :648-661 *)
Definition replayResult (e : env) (w : world) (c : ClientHello) (version : N) : res replayres :=
  o <- earlyOffered c ;;
  if negb (acceptEarly e version) || negb (e_replayCache e) || negb o then Ok RNotChecked
  else w_replay w (ch_random c).

(** setupSchedulerAndContext :708-803: the scheduler's hash and state, and the transcript with the ClientHello appended *)
Definition setupScheduler (e : env) (cipher : N) (c : ClientHello) (orig : bytes) (rs : option resstate) (ck : option cookiest)
    (pt : psktype) (prev : option hsctx) : res (hashalg * ks * hsctx) :=
  h <- e_hash e cipher ;;
  hc <- match ck with
        | Some k =>
            m <- encodeHandshake (MMessageHash (ck_chloHash k)) ;;
            x <- getExtension KCookie (ch_extensions c) ;;
            match x with
            | Some (XCookie b) =>
                cb <- deref b ;;
                hrr <- getStatelessHrr (ck_version k) (ck_cipher k) (ck_group k) cb ;;
                Ok (hc_append (hc_append (hc_new h) m) hrr)
            | _ => Err EThrow
            end
        | None => Ok (match prev with Some p => p | None => hc_new h end)
        end ;;
  match rs with
  | Some r =>
      psk <- deref (rs_secret r) ;;
      k1 <- kdo h ks_init (DeriveEarly psk) ;;
      bk <- kget h k1 (GetEarly (match pt with PskExternal => ExternalPskBinder | _ => ResumptionPskBinder end) (h_blank (hc_hash hc))) ;;
      bl <- getBinderLength (ch_extensions c) ;;
      _ <- ensure (bl <=? blen orig) EThrow ;;
      let hc1 := hc_append hc (takeN (blen orig - bl) orig) in
      p <- getExtension KClientPresharedKey (ch_extensions c) ;;
      match p with
      | Some (XClientPresharedKey (_, b :: _)) =>
          expected <- hc_finished hc1 bk ;;
          got <- deref b ;;
          _ <- ensure (crypto_equal expected got) (alert al_bad_record_mac) ;;
          Ok (h, k1, hc_append hc1 (dropN (blen orig - bl) orig))
      | _ => Err (alert al_illegal_parameter)
      end
  | None => Ok (h, ks_init, hc_append hc orig)
  end.

(** validateGroups :805-816 *)
Fixpoint noDupGroups (seen : list N) (l : list (N * buf)) : bool :=
  match l with
  | [] => true
  | (g, _) :: r => negb (mem g seen) && noDupGroups (g :: seen) r
  end.
Fixpoint findShare (g : N) (l : list (N * buf)) : option buf :=
  match l with [] => None | (g', b) :: r => if g' =? g then Some b else findShare g r end.
(** negotiateGroup :818-848 *)
Definition negotiateGroup (e : env) (c : ClientHello) : res (N * option bytes) :=
  x <- getExtension KSupportedGroups (ch_extensions c) ;;
  match x with
  | Some (XSupportedGroups l) =>
      match negotiate (e_groups e) l with
      | None => Err (alert al_handshake_failure)
      | Some g =>
          y <- getExtension KClientKeyShare (ch_extensions c) ;;
          match y with
          | Some (XClientKeyShare shares) =>
              _ <- ensure (noDupGroups [] shares) (alert al_illegal_parameter) ;;
              match findShare g shares with
              | Some b => d <- deref b ;; Ok (g, Some d)
              | None => Ok (g, None)
              end
          | _ => Err (alert al_missing_extension)
          end
      end
  | _ => Err (alert al_missing_extension)
  end.
(** getHelloRetryRequest :879-901 *)
Definition getHelloRetryRequest (version cipher group : N) (sid : bytes) : res HelloRetryRequest :=
  e1 <- encodeExtension (XServerSupportedVersions version) ;;
  e2 <- encodeExtension (XHrrKeyShare group) ;;
  Ok (mkHRR 771 (Some sid) cipher 0 [e1; e2]).
(** getServerHello :903-941 *)
Definition getServerHello (version : N) (random : bytes) (cipher : N) (psk : bool) (share : option (N * bytes)) (sid : bytes)
    : res ServerHello :=
  e1 <- encodeExtension (XServerSupportedVersions version) ;;
  e2 <- match share with
        | Some (g, b) => x <- encodeExtension (XServerKeyShare (g, Some b)) ;; Ok [x]
        | None => Ok [] end ;;
  e3 <- (if psk then x <- encodeExtension (XServerPresharedKey 0) ;; Ok [x] else Ok []) ;;
  Ok (mkSH 771 random (Some sid) cipher 0 (e1 :: e2 ++ e3)).
Fixpoint negotiateB (server client : list bytes) : option bytes :=
  match server with
  | [] => None
  | p :: r => if existsb (bytes_eqb p) client then Some p else negotiateB r client
  end.
(** negotiateAlpn :943-982 and FizzServerContext.h:154-165 with no zero-RTT protocol *)
Definition names (l : list buf) : list bytes := map (fun b => match b with Some x => x | None => [] end) l.
Definition negotiateAlpn (e : env) (c : ClientHello) : res (option bytes) :=
  x <- getExtension KProtocolNameList (ch_extensions c) ;;
  match x with
  | Some (XProtocolNameList l) =>
      match negotiateB (e_alpns e) (names l) with
      | Some p => Ok (Some p)
      | None => match e_alpnMode e with AlpnAllowMismatch => Ok None | _ => Err (alert al_no_application_protocol) end
      end
  | _ => match e_alpnMode e with AlpnRequired => Err (alert al_no_application_protocol) | _ => Ok None end
  end.
(** getClockSkew :984-999, in milliseconds; time points are int64 nanoseconds *)
Definition clockSkew (rs : option resstate) (age : option N) (now : Z) : res (option Z) :=
  match rs, age with
  | Some r, Some a =>
      d <- chk64 (now - rs_issue r)%Z ;;
      let sent := ((Z.of_N a - Z.of_N (rs_ageAdd r)) mod 2 ^ 32)%Z in
      Ok (Some (sent - Z.quot d 1000000)%Z)
  | _, _ => Ok None
  end.
Definition opt_eqb (a b : option bytes) : bool :=
  match a, b with Some x, Some y => bytes_eqb x y | None, None => true | _, _ => false end.
(** negotiateEarlyDataType :1008-1080 *)
Definition negotiateEarly (e : env) (w : world) (c : ClientHello) (rs : option resstate) (version cipher : N) (kt : option kextype)
    (ck : option cookiest) (alpn : option bytes) (rc : replayres) (skew : option Z) : res earlytype :=
  o <- earlyOffered c ;;
  if negb o then Ok EdNotAttempted else
  Ok (if negb (acceptEarly e version) then EdRejected else
      match rs with
      | None => EdRejected
      | Some r =>
          if negb (rs_cipher r =? cipher) then EdRejected
          else if negb (opt_eqb (rs_alpn r) alpn) then EdRejected
          else if (match kt with Some KexHRR => true | _ => false end) then EdRejected
          else match ck with
               | Some _ => EdRejected
               | None =>
                   match rc with
                   | RNotReplay =>
                       match skew with
                       | None => EdRejected
                       | Some k => if ((k <? e_tolBefore e) || (e_tolAfter e <? k))%Z then EdRejected
                                   else if e_tokenValidator e && negb (w_tokenValid w r) then EdRejected
                                   else EdAccepted
                       end
                   | _ => EdRejected
                   end
               end
      end).
(** getEncryptedExt :1082-1123 *)
Definition encryptedExts (alpn : option bytes) (ed : earlytype) (retry : option (list (N * buf))) (other : list Extension) : res bytes :=
  e1 <- match alpn with Some p => x <- encodeExtension (XProtocolNameList [Some p]) ;; Ok [x] | None => Ok [] end ;;
  e2 <- match ed with EdAccepted => x <- encodeExtension XServerEarlyData ;; Ok [x] | _ => Ok [] end ;;
  e3 <- match retry with Some l => x <- encodeExtension (XEchEncryptedExtensions l) ;; Ok [x] | None => Ok [] end ;;
  encodeHandshake (MEncryptedExtensions (e1 ++ e2 ++ e3 ++ other)).
(** getSNI :1240-1250 *)
Definition getSNI (c : ClientHello) : res (option bytes) :=
  x <- getExtension KServerNameList (ch_extensions c) ;;
  match x with
  | Some (XServerNameList ((_, h) :: _)) => d <- deref h ;; Ok (Some d)
  | _ => Ok None
  end.
(** chooseCert :1125-1151 *)
Definition chooseCert (e : env) (c : ClientHello) : res (selfobj * N) :=
  x <- getExtension KSignatureAlgorithms (ch_extensions c) ;;
  match x with
  | Some (XSignatureAlgorithms l) =>
      sni <- getSNI c ;;
      r <- e_getCert e sni l c ;;
      match r with Some p => Ok p | None => Err (alert al_handshake_failure) end
  | _ => Err (alert al_missing_extension)
  end.
(** negotiateCertCompressionAlgo :1153-1168 *)
Definition certCompression (e : env) (c : ClientHello) : res (option N) :=
  x <- getExtension KCertCompressionAlgs (ch_extensions c) ;;
  match x with
  | Some (XCertCompressionAlgs l) => match e_compAlgos e with [] => Ok None | a => Ok (negotiate a l) end
  | _ => Ok None
  end.
(** getCertificate :1170-1190 (encoding only) *)
Definition certificateBytes (so : selfobj) (algo : option N) : res bytes :=
  match algo with
  | Some a => m <- so_compressed so a ;; encodeHandshake (MCompressedCertificate m)
  | None => m <- so_message so ;; encodeHandshake (MCertificate m)
  end.
(** getCertificateRequest :1208-1238 *)
Definition certificateRequest (e : env) : res (list N * bytes) :=
  x <- encodeExtension (XSignatureAlgorithms (e_sigSchemes e)) ;;
  more <- match e_verifier e with Some _ => e_verifierExts e | None => Ok [] end ;;
  m <- encodeHandshake (MCertificateRequest (mkCR (Some []) (x :: more))) ;;
  Ok (13 :: map ext_type more, m).

(** processECHHRR :1252-1319; returns the status, the config id and the ClientHello to continue with *)
Definition processECHHRR (e : env) (ck : option cookiest) (s : sstate) (c : ClientHello) (orig : bytes)
    : res (echstatus * N * ClientHello * bytes) :=
  x <- getExtension KEchOuter (ch_extensions c) ;;
  let ext := match x with Some (XEchOuter p) => Some p | _ => None end in
  let cookieHasEch := match ck with Some k => match ck_echSuite k with Some s => Some (s, ck_echConfigId k, ck_echEnc k) | None => None end
                                  | None => None end in
  match s_ech s, cookieHasEch with
  | EchAccepted, _ =>
      match e_ech e with
      | None => Err (alert al_internal_error)
      | Some d =>
          match ext with
          | None => Err (alert al_missing_extension)
          | Some (kdf, ae, cid, enc, _) =>
              en <- deref enc ;;
              _ <- ensure (match en with [] => true | _ => false end) (alert al_illegal_parameter) ;;
              match s_echState s with
              | None => Err EThrow
              | Some st =>
                  _ <- ensure ((fst (eh_suite st) =? kdf) && (snd (eh_suite st) =? ae)) (alert al_illegal_parameter) ;;
                  _ <- ensure (eh_config st =? cid) (alert al_illegal_parameter) ;;
                  match eh_ctx st with
                  | None => Err EUB
                  | Some hc => '(c', o') <- d_hrr d c orig hc ;; Ok (EchAccepted, cid, c', o')
                  end
              end
          end
      end
  | _, Some (suite, cfg, cenc) =>
      match e_ech e with
      | None => Err (alert al_internal_error)
      | Some d =>
          match ext with
          | None => Err (alert al_missing_extension)
          | Some (kdf, ae, cid, enc, _) =>
              en <- deref enc ;;
              _ <- ensure (match en with [] => true | _ => false end) (alert al_illegal_parameter) ;;
              _ <- ensure ((fst suite =? kdf) && (snd suite =? ae)) (alert al_illegal_parameter) ;;
              _ <- ensure (match cfg with Some i => i =? cid | None => false end) (alert al_illegal_parameter) ;;
              '(c', o') <- d_hrr_enc d c orig cenc ;; Ok (EchAccepted, cid, c', o')
          end
      end
  | st, None => Ok (st, 0, c, orig)
  end.
(** processECH :1346-1410 *)
Definition processECH (e : env) (ck : option cookiest) (s : sstate) (c : ClientHello) (orig : bytes)
    : res (echstatus * option echst * ClientHello * bytes) :=
  '(status, st, c', o') <-
    (match s_hctx s, ck with
     | None, None =>
         match findExtension 65037 (ch_extensions c) with
         | None => Ok (s_ech s, None, c, orig)
         | Some _ =>
             x <- getExtension KEchOuter (ch_extensions c) ;;
             match x with
             | Some (XEchOuter (kdf, ae, cid, _, _)) =>
                 sni <- getSNI c ;;
                 match e_ech e with
                 | None => Ok (s_ech s, Some (mkEchSt (kdf, ae) cid None sni), c, orig)
                 | Some d =>
                     g <- d_hello d c orig ;;
                     match g with
                     | Some (c', o', hc) => Ok (EchAccepted, Some (mkEchSt (kdf, ae) cid (Some hc) sni), c', o')
                     | None => Ok (EchRejected, Some (mkEchSt (kdf, ae) cid None sni), c, orig)
                     end
                 end
             | _ => Err EThrow
             end
         end
     | _, _ =>
         '(st, cid, c', o') <- processECHHRR e ck s c orig ;;
         Ok (st, Some (match s_echState s with
                       | Some p => mkEchSt (eh_suite p) cid (eh_ctx p) (eh_outerSni p)
                       | None => mkEchSt (0, 0) cid None None end), c', o')
     end) ;;
  match status with
  | EchAccepted =>
      y <- getExtension KEchInner (ch_extensions c') ;;
      match y with
      | Some _ => Ok (status, st, c', o')
      | None => Err (alert al_missing_extension)
      end
  | _ => Ok (status, st, c', o')
  end.

(** FakeChangeCipherSpec (record/Types.h:56-58) *)
Definition ccs_content : content := mkContent LvPlaintext 20 (Some [x14; x03; x03; x00; x01; x01]) [].
Definition ccs_if (sid : bytes) : list content := match sid with [] => [] | _ => [ccs_content] end.

(** What the handler knows once the ClientHello has been checked against the configuration (:1412-1551) *)
Record neg := mkNeg {
  n_hello : ClientHello; n_orig : bytes; n_cookie : option cookiest; n_ech : echstatus; n_echState : option echst;
  n_version : N; n_cipher : N; n_pskType : psktype; n_pskMode : option N; n_res : option resstate; n_age : option N;
  n_replay : replayres }.

Inductive negres := NFallback (hello : buf) (sni : option bytes) | NGo (n : neg).

(** :1412-1551, up to the validated resumption state.  The connection's HandshakeLogging (there is one unless the application has taken it out of the
    state: :461) is filled in from the hello to go on with (:1434); whether that throws depends on the hello only (C86_logging). *)
Definition hello_negotiate (e : env) (w : world) (s : sstate) (c0 : ClientHello) (orig0 : bytes) : res negres :=
  ck <- serverCookie e c0 ;;
  _ <- ensure (negb (match s_hctx s, ck with Some _, Some _ => true | _, _ => false end)) (alert al_illegal_parameter) ;;
  '(es, est, c, orig) <- processECH e ck s c0 orig0 ;;
  _ <- snd (populate c hlog_new) ;;
  _ <- match s_read s with
       | None => Err EUB
       | Some r => ensure (match ev_unparsed r with [] => true | _ => false end) (alert al_unexpected_message) end ;;
  v <- negotiateVersion c (e_versions e) ;;
  _ <- ensure (match s_version s with
               | Some p => match v with Some x => x =? p | None => false end
               | None => true end) (alert al_illegal_parameter) ;;
  match v with
  | None =>
      ed <- earlyOffered c ;;
      _ <- ensure (negb ed) (alert al_protocol_version) ;;
      if e_fallback e then
        d <- plain_write_initial orig ;;
        sni <- getSNI c ;;
        Ok (NFallback d sni)
      else Err (alert al_protocol_version)
  | Some version =>
      _ <- real_draft_version version ;;
      _ <- validateClientHello c ;;
      match negotiate_tiers (e_ciphers e) (ch_suites c) with
      | None => Err (alert al_handshake_failure)
      | Some cipher =>
          _ <- ensure (match s_cipher s with Some p => cipher =? p | None => true end) (alert al_illegal_parameter) ;;
          _ <- verifyCookie ck version cipher ;;
          q <- resumptionQuery e c ;;
          (* getReplayCacheResult is called before the ticket result is looked at; errors of either end the handshake *)
          rc <- replayResult e w c version ;;
          '(pt, rs, mode, age) <-
            (match q with
             | inl t => Ok (t, None, None, None)
             | inr (id, md, age) => '(t, r) <- w_ticketDecrypt w id ;; Ok (t, r, Some md, Some age)
             end) ;;
          '(pt', rs', mode') <-
            (match rs with
             | Some r => ok <- validateResumption r version cipher ;;
                         Ok (if ok : bool then (pt, Some r, mode) else (PskRejected, None, None))
             | None => Ok (pt, None, None)
             end) ;;
          Ok (NGo (mkNeg c orig ck es est version cipher pt' mode' rs' age rc))
      end
  end.

(** Early data secrets (:1602-1651): traffic secret, early read layer (unless omitted), exporter secret *)
Definition early_keys (e : env) (h : hashalg) (k : ks) (hc : hsctx) (version cipher : N) : res (bytes * option evstate * bytes) :=
  t <- kget h k (GetEarly ClientEarlyTraffic (hc_context hc)) ;;
  rd <- (if e_omitEarly e then Ok None else r <- new_read e h version cipher t false ;; Ok (Some r)) ;;
  x <- kget h k (GetEarly EarlyExporter (hc_context hc)) ;;
  Ok (t, rd, x).

(** The HelloRetryRequest branch (:1662-1779) *)
Definition hello_retry (e : env) (s : sstate) (n : neg) (sid : bytes) (hc : hsctx) (group : N) (ed : earlytype)
    : res (sstate * list out) :=
  h <- e_hash e (n_cipher n) ;;
  m <- encodeHandshake (MMessageHash (Some (hc_context hc))) ;;
  let hc1 := hc_append (hc_new h) m in
  hrr0 <- getHelloRetryRequest (n_version n) (n_cipher n) group sid ;;
  hrr <- match n_ech n with
         | EchAccepted => setAcceptHRR hc1 h (ch_random (n_hello n)) hrr0
         | _ => Ok hrr0 end ;;
  b <- encodeHandshake (MHelloRetryRequest hrr) ;;
  match s_write s with
  | None => Err EUB
  | Some wl =>
      ct <- snd (wl_write wl 22 [b]) ;;
      let ed' := match ed with EdAccepted => EdRejected | x => x end in
      let rd := mkEv [] (LPlain (mkP (match ed' with EdRejected => true | _ => false end) None)) in
      Ok (upd_state (upd_hello s (Some (hc_append hc1 b)) (n_version n) (n_cipher n) (Some group) KexHRR ed' (n_replay n) (Some rd)
                       (n_ech n) (n_echState n)) SExpectingClientHello,
          [OWrite (ct :: ccs_if sid)])
  end.

(** Our signature over the transcript, and the Certificate message (:2002-2057, 2106-2118): transcript after the Certificate message *)
Definition server_auth (e : env) (c : ClientHello) (hc : hsctx) : res (cert * N * bytes * bytes * hsctx) :=
  '(so, scheme) <- chooseCert e c ;;
  algo <- certCompression e c ;;
  match so_async so with
  | Some f => '(m, sig) <- f algo scheme hc ;; Ok (so_cert so, scheme, m, sig, hc_append hc m)
  | None =>
      m <- certificateBytes so algo ;;
      let hc1 := hc_append hc m in
      sig <- so_sign so scheme CvServer (hc_context hc1) ;;
      Ok (so_cert so, scheme, m, sig, hc1)
  end.

(** Protocol::getFinished (Protocol.h:72-83) *)
Definition getFinished (hc : hsctx) (secret : bytes) : res (bytes * hsctx) :=
  v <- hc_finished hc secret ;;
  m <- encodeHandshake (MFinished (Some v)) ;;
  Ok (m, hc_append hc m).

(** The two encrypted records of the server flight (:2148-2171) *)
Definition write_flight (wl : wlayer) (msgs : queue) : res content :=
  let '(a, b) := split_at_most 1000 msgs in
  let '(wl1, r1) := wl_write wl 22 a in
  c1 <- r1 ;;
  if queue_empty b then Ok c1
  else
    c2 <- snd (wl_write wl1 22 b) ;;
    match ct_data c1, ct_data c2 with
    | Some d1, Some d2 => Ok (mkContent (ct_level c1) 22 (Some (d1 ++ d2)) (ct_plain c1 ++ ct_plain c2))
    | _, _ => Err EUB
    end.

(** From the key exchange result to the end of the handler (:1801-2403) *)
Definition hello_finish (e : env) (w : world) (s : sstate) (n : neg) (sid : bytes) (hsTime : Z) (h : hashalg) (k : ks) (hc : hsctx)
    (alpn : option bytes) (skew : option Z) (ed : earlytype) (early : option (bytes * option evstate * bytes))
    (kt : kextype) (group : option N) (kex : option (bytes * bytes)) : res (sstate * list out) :=
  let version := n_version n in let cipher := n_cipher n in let c := n_hello n in
  k2 <- match kex with Some (_, dh) => kdo h k (DeriveHandshakeDH dh) | None => kdo h k DeriveHandshake end ;;
  exts <- match e_extensions e with Some f => f c | None => Ok [] end ;;
  _ <- ensure (match s_group s with Some p => match group with Some g => g =? p | None => false end | None => true end)
         (alert al_illegal_parameter) ;;
  _ <- ensure (match n_cookie n with
               | Some ck => match ck_group ck, group with Some p, Some g => g =? p | _, _ => true end
               | None => true end) (alert al_illegal_parameter) ;;
  random <- w_random w ;;
  sh0 <- getServerHello version random cipher (match n_res n with Some _ => true | None => false end)
           (match group, kex with Some g, Some (share, _) => Some (g, share) | _, _ => None end) sid ;;
  sh <- match n_ech n with
        | EchAccepted => setAcceptSH hc h (ch_random c) sh0
        | _ => Ok sh0 end ;;
  retry <- match n_ech n with
           | EchRejected =>
               match e_ech e, n_echState n with
               | Some d, Some st => r <- d_retry d (eh_outerSni st) ;; Ok (Some r)
               | _, _ => Err EUB
               end
           | _ => Ok None end ;;
  bsh <- encodeHandshake (MServerHello sh) ;;
  let hc1 := hc_append hc bsh in
  hws <- kget h k2 (GetHandshake ServerHandshakeTraffic (hc_context hc1)) ;;
  hwl <- new_write e h LvHandshake version cipher hws ;;
  hrs <- kget h k2 (GetHandshake ClientHandshakeTraffic (hc_context hc1)) ;;
  hrl <- new_read e h version cipher hrs (match ed with EdRejected => true | _ => false end) ;;
  bee <- encryptedExts alpn ed retry exts ;;
  let hc2 := hc_append hc1 bee in
  let requestAuth := match e_authMode e, n_res n with AuthNone, _ => false | _, Some _ => false | _, None => true end in
  '(reqExts, creq) <- (if requestAuth then certificateRequest e else Ok ([], [])) ;;
  let hc3 := if requestAuth then hc_append hc2 creq else hc2 in
  '(scert, ccert, scheme, auth, hc4) <-
    (match n_res n with
     | None =>
         '(cert, scheme, m, sig, hc') <- server_auth e c hc3 ;;
         v <- encodeHandshake (MCertificateVerify (mkCV scheme (Some sig))) ;;
         Ok (Some cert, None, Some scheme, [m; v], hc_append hc' v)
     | Some r => Ok (rs_serverCert r, rs_clientCert r, None, [], hc3)
     end) ;;
  '(bfin, hc5) <- getFinished hc4 hws ;;
  enc <- write_flight hwl (bee :: (if requestAuth then [creq] else []) ++ auth ++ [bfin]) ;;
  match s_write s with
  | None => Err EUB
  | Some wl =>
      ct <- snd (wl_write wl 22 [bsh]) ;;
      k3 <- kdo h k2 DeriveMaster ;;
      ems <- kget h k3 (GetMaster ExporterMaster (hc_context hc5)) ;;
      k4 <- kdo h k3 (DeriveApp (hc_context hc5)) ;;
      aws <- kget h k4 (GetApp ServerAppTraffic) ;;
      awl <- new_write e h LvAppTraffic version cipher aws ;;
      let ed_saved := match s_early s with Some x => x | None => ed end in
      let save rd hsrd eexp st :=
        mkS st rd (Some awl) hsrd (Some hc5) (Some (h, k4)) (Some version) (Some cipher) group (Some kt) (Some ed_saved)
          (Some (n_pskType n)) (n_pskMode n) (Some (n_replay n)) alpn (Some hrs) (s_chain s) ccert scert reqExts scheme
          (Some ems) eexp (s_resumption s) skew (match n_res n with Some r => rs_appToken r | None => None end) (Some hsTime)
          (Some (ch_random c)) (n_ech n) (n_echState n) in
      let flight := OWrite (ct :: ccs_if sid ++ [enc]) in
      let secrets := [OSecret' SkClientHs hrs; OSecret' SkServerHs hws; OSecret' SkServerApp aws] in
      match ed, early with
      | EdAccepted, Some (ets, erl, eexp) =>
          if e_omitEarly e then
            Ok (save (Some hrl) (s_hsRead s) (Some eexp) SExpectingFinished,
                OSecret' SkEarly ets :: secrets ++ [flight; OEarlySuccess])
          else
            Ok (save erl (Some hrl) (Some eexp) SAcceptingEarlyData,
                OSecret' SkEarly ets :: secrets ++ [flight; OEarlySuccess])
      | EdAccepted, None => Err EUB
      | _, _ =>
          Ok (save (Some hrl) (s_hsRead s) (s_earlyExporter s) (if requestAuth then SExpectingCertificate else SExpectingFinished),
              secrets ++ [flight])
      end
  end.

(** EventHandler<ExpectingClientHello, ClientHello> :1412-2404 *)
Definition handle_hello (e : env) (w : world) (s : sstate) (c0 : ClientHello) (orig0 : bytes) : res (sstate * list out) :=
  r <- hello_negotiate e w s c0 orig0 ;;
  match r with
  | NFallback d sni => Ok (upd_state s SError, [OFallback d sni])
  | NGo n =>
      let c := n_hello n in
      sid <- deref (ch_session_id c) ;;
      let hsTime := match n_res n with Some r => rs_hsTime r | None => w_now w end in
      '(h, k, hc) <- setupScheduler e (n_cipher n) c (n_orig n) (n_res n) (n_cookie n) (n_pskType n) (s_hctx s) ;;
      alpn <- negotiateAlpn e c ;;
      skew <- clockSkew (n_res n) (n_age n) (w_now2 w) ;;
      ed <- negotiateEarly e w c (n_res n) (n_version n) (n_cipher n) (s_kexType s) (n_cookie n) alpn (n_replay n) skew ;;
      early <- match ed with
               | EdAccepted => x <- early_keys e h k hc (n_version n) (n_cipher n) ;; Ok (Some x)
               | _ => Ok None end ;;
      match n_pskMode n with
      | Some 0 => hello_finish e w s n sid hsTime h k hc alpn skew ed early KexNone None None
      | _ =>
          '(g, share) <- negotiateGroup e c ;;
          match share with
          | None =>
              _ <- ensure (match s_group s, n_cookie n with None, None => true | _, _ => false end) (alert al_illegal_parameter) ;;
              hello_retry e s n sid hc g ed
          | Some cs =>
              kx <- w_kex w g cs ;;
              hello_finish e w s n sid hsTime h k hc alpn skew ed early
                (match s_kexType s with Some t => t | None => KexOneRtt end) (Some g) (Some kx)
          end
      end
  end.

(** ** The other handlers *)
(** A handler's effect: success; an exception or failed Status with the error; FizzException with folly::none (no alert).
    The state carried by the failures has the sequence numbers already used. *)
Inductive hres := HOk (s : sstate) (l : list out) | HErr (s : sstate) (e : err) | HSilent (s : sstate).
Definition of_res (s : sstate) (r : res (sstate * list out)) : hres :=
  match r with Ok (s', l) => HOk s' l | Err e => HErr s e end.
Definition no_unparsed (s : sstate) : option bool :=
  match s_read s with Some r => Some (match ev_unparsed r with [] => true | _ => false end) | None => None end.
(** write through state.writeRecordLayer() *)
Definition with_write (s : sstate) (ty : N) (q : queue) (f : sstate -> content -> hres) : hres :=
  match s_write s with
  | None => HErr s EUB
  | Some wl =>
      let '(wl', r) := wl_write wl ty q in
      let s' := upd_write s (Some wl') in
      match r with Ok ct => f s' ct | Err e => HErr s' e end
  end.

(** AppWrite in AcceptingEarlyData :2419-2441, ExpectingFinished :2475-2497, AcceptingData :2881-2902 *)
Definition handle_app_write (s : sstate) (q : queue) : hres :=
  with_write s 23 q (fun s' ct => HOk s' [OWrite [ct]]).
(** EndOfEarlyData :2443-2473 *)
Definition handle_eoed (s : sstate) (orig : bytes) : hres :=
  match no_unparsed s, s_hctx s with
  | Some true, Some hc => HOk (upd_state (upd_read (upd_hs s None (Some (hc_append hc orig))) (s_hsRead s)) SExpectingFinished) []
  | Some false, _ => HErr s (alert al_unexpected_message)
  | _, _ => HErr s EUB
  end.

(** writeNewSessionTicket + generateTicket :2499-2592; the ticket message, before it is written *)
Definition ticket_message (e : env) (w : world) (s : sstate) (rms : bytes) (appToken : buf) : res (option bytes) :=
  match s_psk s with
  | None => if e_ticketCipher e then Err EThrow else Ok None
  | Some pt =>
      if negb (e_ticketCipher e) || (match pt with PskNotSupported => true | _ => false end) then Ok None else
      match s_ks s, s_version s, s_cipher s, s_hsTime s with
      | Some (h, k), Some version, Some cipher, Some ht =>
          sec <- kget h k (GetResumption rms []) ;;
          age <- w_ageAdd w ;;
          t <- w_ticketEncrypt w (mkRS version cipher (Some sec) (s_serverCert s) (s_clientCert s) (s_alpn s) age (w_now w) appToken ht) ;;
          match t with
          | None => Ok None
          | Some (ticket, lifetime) =>
              ex <- (if acceptEarly e version then x <- encodeExtension (XTicketEarlyData (e_maxEarly e)) ;; Ok [x] else Ok []) ;;
              m <- encodeHandshake (MNewSessionTicket (mkNST (lifetime mod 2 ^ 32) age (Some []) (Some ticket) ex)) ;;
              Ok (Some m)
          end
      | _, _, _, _ => Err EUB
      end
  end.

(** Certificate in ExpectingCertificate :2594-2653 *)
Fixpoint make_certs (e : env) (req : list N) (l : list CertificateEntry) (leaf : bool) : res (list peercert) :=
  match l with
  | [] => Ok []
  | x :: r =>
      _ <- checkCertEntry (ce_extensions x) req ;;
      p <- e_peerCert e x leaf ;;
      ps <- make_certs e req r false ;;
      Ok (p :: ps)
  end.
Definition handle_certificate (e : env) (s : sstate) (m : CertificateMsg) (orig : bytes) : res (sstate * list out) :=
  match s_hctx s with
  | None => Err EUB
  | Some hc =>
      let s1 := upd_hs s (s_hsRead s) (Some (hc_append hc orig)) in
      ctx <- deref (cm_context m) ;;
      _ <- ensure (match ctx with [] => true | _ => false end) (alert al_illegal_parameter) ;;
      certs <- make_certs e (s_certReqExts s) (cm_list m) true ;;
      match certs with
      | [] => match e_authMode e with
              | AuthOptional => Ok (upd_state (upd_certs s1 None (s_clientCert s)) SExpectingFinished, [])
              | _ => Err (alert al_certificate_required)
              end
      | _ => Ok (upd_state (upd_certs s1 (Some certs) (s_clientCert s)) SExpectingCertificateVerify, [])
      end
  end.
(** CertificateVerify in ExpectingCertificateVerify :2655-2733 *)
Definition as_verification (r : res (option cert)) : res (option cert) :=
  match r with Err EThrow | Err (EStatus None) => Err (alert al_bad_certificate) | x => x end.
Definition handle_certificate_verify (e : env) (s : sstate) (m : CertificateVerify) (orig : bytes) : res (sstate * list out) :=
  _ <- ensure (mem (cv_algorithm m) (e_sigSchemes e)) (alert al_handshake_failure) ;;
  match s_chain s, s_hctx s with
  | Some (leaf :: rest), Some hc =>
      sig <- deref (cv_signature m) ;;
      _ <- pc_verify leaf (cv_algorithm m) CvClient (hc_context hc) sig ;;
      newCert <- match e_verifier e with
                 | Some v => x <- as_verification (v (leaf :: rest)) ;; Ok (match x with Some c => c | None => pc_cert leaf end)
                 | None => Ok (pc_cert leaf) end ;;
      Ok (upd_state (upd_certs (upd_hs s (s_hsRead s) (Some (hc_append hc orig))) None (Some newCert)) SExpectingFinished, [])
  | None, _ => Err EThrow
  | _, _ => Err EUB
  end.

(** Finished in ExpectingFinished :2735-2841 *)
Definition handle_finished (e : env) (w : world) (s : sstate) (vd : buf) (orig : bytes) : hres :=
  match s_hctx s, s_clientHsSecret s, s_ks s, s_version s, s_cipher s with
  | Some hc, Some cs, Some (h, k), Some version, Some cipher =>
      match hc_finished hc cs, vd with
      | Err x, _ => HErr s x
      | Ok _, None => HErr s EUB
      | Ok expected, Some got =>
          if negb (crypto_equal expected got) then HSilent s else
          match no_unparsed s with
          | None => HErr s EUB
          | Some false => HSilent s
          | Some true =>
              match (ars <- kget h k (GetApp ClientAppTraffic) ;;
                     rd <- new_read e h version cipher ars false ;;
                     rms <- kget h k (GetMaster ResumptionMaster (hc_context (hc_append hc orig))) ;;
                     k' <- kdo h k ClearMaster ;;
                     Ok (ars, rd, rms, k')) with
              | Err x => HErr s x
              | Ok (ars, rd, rms, k') =>
                  let s1 := upd_ks s (Some (h, k')) in
                  let fin st := upd_state (upd_finished (upd_read st (Some rd)) rms) SAcceptingData in
                  if negb (e_sendTicket e) then HOk (fin s1) [OSecret' SkClientApp ars; OSuccess]
                  else match ticket_message e w s1 rms None with
                       | Err x => HErr s1 x
                       | Ok None => HOk (fin s1) [OSecret' SkClientApp ars; OSuccess]
                       | Ok (Some m) => with_write s1 22 [m] (fun s2 ct => HOk (fin s2) [OSecret' SkClientApp ars; OWrite [ct]; OSuccess])
                       end
              end
          end
      end
  | _, _, _, _, _ => HErr s EUB
  end.
(** WriteNewSessionTicket :2843-2867 *)
Definition handle_new_ticket (e : env) (w : world) (s : sstate) (appToken : buf) : hres :=
  match ticket_message e w s (s_resumption s) appToken with
  | Err x => HErr s x
  | Ok None => HOk s []
  | Ok (Some m) => with_write s 22 [m] (fun s' ct => HOk s' [OWrite [ct]])
  end.
(** serverKeyUpdate, then a new write layer (:2930-2954, 3021-3045) *)
Definition rekey_write (e : env) (s : sstate) (f : sstate -> bytes -> hres) : hres :=
  match s_ks s, s_version s, s_cipher s with
  | Some (h, k), Some version, Some cipher =>
      match (k' <- kdo h k ServerKeyUpdate ;;
             ws <- kget h k' (GetApp ServerAppTraffic) ;;
             wl <- new_write e h LvAppTraffic version cipher ws ;;
             Ok (k', ws, wl)) with
      | Err x => HErr s x
      | Ok (k', ws, wl) => f (upd_write (upd_ks s (Some (h, k'))) (Some wl)) ws
      end
  | _, _, _ => HErr s EUB
  end.
(** KeyUpdateInitiation :2904-2963 *)
Definition handle_ku_init (e : env) (s : sstate) (req : N) : hres :=
  match no_unparsed s with
  | None => HErr s EUB
  | Some false => HSilent s
  | Some true =>
      match encodeHandshake (MKeyUpdate req) with
      | Err x => HErr s x
      | Ok m => with_write s 22 [m] (fun s1 ct => rekey_write e s1 (fun s2 ws => HOk s2 [OSecret' SkServerApp ws; OWrite [ct]]))
      end
  end.
(** KeyUpdate :2965-3059; update_not_requested is 0 *)
Definition handle_ku (e : env) (s : sstate) (req : N) : hres :=
  match no_unparsed s with
  | None => HErr s EUB
  | Some false => HSilent s
  | Some true =>
      match s_ks s, s_version s, s_cipher s with
      | Some (h, k), Some version, Some cipher =>
          match (k' <- kdo h k ClientKeyUpdate ;;
                 rs <- kget h k' (GetApp ClientAppTraffic) ;;
                 rl <- new_read e h version cipher rs false ;;
                 Ok (k', rs, rl)) with
          | Err x => HErr s x
          | Ok (k', rs, rl) =>
              let s1 := upd_ks s (Some (h, k')) in
              if req =? 0 then HOk (upd_read s1 (Some rl)) [OSecret' SkClientApp rs]
              else match encodeHandshake (MKeyUpdate 0) with
                   | Err x => HErr s1 x
                   | Ok m => with_write s1 22 [m] (fun s2 ct =>
                               rekey_write e s2 (fun s3 ws =>
                                 HOk (upd_read s3 (Some rl)) [OSecret' SkServerApp ws; OSecret' SkClientApp rs; OWrite [ct]]))
                   end
          end
      | _, _, _ => HErr s EUB
      end
  end.
(** CloseNotify in AcceptingData :3061-3090 and ExpectingCloseNotify :3092-3112 *)
Definition handle_close (s : sstate) (post : bytes) (reply : bool) : hres :=
  match no_unparsed s with
  | None => HErr s EUB
  | Some false => HErr s (alert al_unexpected_message)
  | Some true =>
      if reply then with_write s 21 [alert_bytes 0] (fun s' ct =>
        HOk (upd_state (upd_layers s' None None) SClosed) [OWrite [ct]; OEndOfData post])
      else HOk (upd_state (upd_layers s None None) SClosed) [OEndOfData post]
  end.
(** Accept in Uninitialized :451-478 *)
Definition handle_accept (s : sstate) : hres :=
  HOk (upd_state (upd_layers s (Some (mkEv [] (LPlain (mkP false None)))) (Some WPlain)) SExpectingClientHello) [].

(** ** Dispatch *)
(** The events: what the application calls, and what was read (Param variants). *)
Inductive sevent := SvAccept | SvRead (ev : event) | SvNewTicket (appToken : buf) | SvAppWrite (q : queue) | SvEarlyAppWrite
  | SvKeyUpdate (req : N).

(** The handler table :41-140; handleInvalidEvent :391-415 *)
Definition handle (e : env) (w : world) (s : sstate) (ev : sevent) : hres :=
  let invalid := match ev with SvRead (EvAlert _) => HSilent s | _ => HErr s (alert al_unexpected_message) end in
  match s_state s, ev with
  | SUninitialized, SvAccept => handle_accept s
  | SExpectingClientHello, SvRead (EvHandshake (MClientHello c) orig) => of_res s (handle_hello e w s c orig)
  | SAcceptingEarlyData, SvRead (EvAppData d) => HOk s [ODeliver d]
  | SAcceptingEarlyData, SvAppWrite q => handle_app_write s q
  | SAcceptingEarlyData, SvRead (EvHandshake MEndOfEarlyData orig) => handle_eoed s orig
  | SExpectingCertificate, SvRead (EvHandshake (MCertificate m) orig) => of_res s (handle_certificate e s m orig)
  | SExpectingCertificateVerify, SvRead (EvHandshake (MCertificateVerify m) orig) => of_res s (handle_certificate_verify e s m orig)
  | SExpectingFinished, SvAppWrite q => handle_app_write s q
  | SExpectingFinished, SvRead (EvHandshake (MFinished vd) orig) => handle_finished e w s vd orig
  | SAcceptingData, SvNewTicket t => handle_new_ticket e w s t
  | SAcceptingData, SvRead (EvAppData d) => HOk s [ODeliver d]
  | SAcceptingData, SvAppWrite q => handle_app_write s q
  | SAcceptingData, SvKeyUpdate req => handle_ku_init e s req
  | SAcceptingData, SvRead (EvHandshake (MKeyUpdate req) _) => handle_ku e s req
  | SAcceptingData, SvRead (EvClose post) => handle_close s post true
  | SExpectingCloseNotify, SvRead (EvClose post) => handle_close s post false
  | _, _ => invalid
  end.

(** handleError :309-341 *)
Definition handle_error (s : sstate) (a : option N) : sstate * list out :=
  match s_state s with
  | SError => (s, [])
  | _ =>
      let s' := upd_state (upd_layers s None None) SError in
      match a, s_write s with
      | Some d, Some wl =>
          match snd (wl_write wl 21 [alert_bytes d]) with
          | Ok ct => (s', [OWrite [ct]; OError a])
          | Err ECheck | Err EUB => (upd_state s SCrash, [])
          | Err _ => (s', [OError a])
          end
      | _, _ => (s', [OError a])
      end
  end.
(** the catch clauses of processEvent :253-307 *)
Definition finish (r : hres) : sstate * list out :=
  match r with
  | HOk s l => (s, l)
  | HSilent s => handle_error s None
  | HErr s (EStatus (Some a)) => handle_error s (Some a)
  | HErr s (EStatus None) | HErr s EThrow => handle_error s (Some al_unexpected_message)
  | HErr s _ => (upd_state s SCrash, [])
  end.
Definition process_event (e : env) (w : world) (s : sstate) (ev : sevent) : sstate * list out := finish (handle e w s ev).

(** processSocketData :158-213 on the bytes queued; returns the bytes left *)
Definition process_socket (e : env) (w : world) (s : sstate) (b : bytes) : sstate * list out * bytes :=
  match s_read s with
  | None => let '(s', l) := handle_error s None in (s', l, b)
  | Some r =>
      match read_event r b with
      | RNeed r' b' hint => (upd_read s (Some r'), [OWait hint], b')
      | RMsg r' b' ev => let '(s', l) := process_event e w (upd_read s (Some r')) (SvRead ev) in (s', l, b')
      | RErr (EStatus (Some a)) => let '(s', l) := handle_error s (Some a) in (s', l, b)
      | RErr (EStatus None) | RErr EThrow => let '(s', l) := handle_error s (Some al_decode_error) in (s', l, b)
      | RErr _ => (upd_state s SCrash, [], b)
      end
  end.

(** handleAppClose :365-389, handleAppCloseImmediate :343-363; an exception escapes to the caller and leaves the state as it is *)
Definition app_close (s : sstate) : sstate * list out :=
  match s_write s with
  | Some wl =>
      let '(wl', r) := wl_write wl 21 [alert_bytes 0] in
      match r with
      | Ok ct => (upd_state (upd_write s None) SExpectingCloseNotify, [OWrite [ct]])
      | Err ECheck | Err EUB => (upd_state s SCrash, [])
      | Err _ => (upd_write s (Some wl'), [])
      end
  | None => (upd_state (upd_layers s None None) SClosed, [])
  end.
Definition app_close_immediate (s : sstate) : sstate * list out :=
  match s_write s with
  | Some wl =>
      let '(wl', r) := wl_write wl 21 [alert_bytes 0] in
      match r with
      | Ok ct => (upd_state (upd_layers s None None) SClosed, [OWrite [ct]])
      | Err ECheck | Err EUB => (upd_state s SCrash, [])
      | Err _ => (upd_write s (Some wl'), [])
      end
  | None => (upd_state (upd_layers s None None) SClosed, [])
  end.

(** ** Executions *)
Inductive input := IAccept | ISocket (b : bytes) | INewTicket (appToken : buf) | IAppWrite (q : queue) | IEarlyAppWrite
  | IAppClose | IAppCloseImmediate | IKeyUpdate (req : N).
(** ServerStateMachine's public entry points :145-249 *)
Definition sstep (e : env) (w : world) (s : sstate) (i : input) : sstate * list out :=
  match s_state s with
  | SCrash => (s, [])
  | _ =>
      match i with
      | IAccept => process_event e w s SvAccept
      | ISocket b => fst (process_socket e w s b)
      | INewTicket t => process_event e w s (SvNewTicket t)
      | IAppWrite q => process_event e w s (SvAppWrite q)
      | IEarlyAppWrite => process_event e w s SvEarlyAppWrite
      | IAppClose => app_close s
      | IAppCloseImmediate => app_close_immediate s
      | IKeyUpdate req => process_event e w s (SvKeyUpdate req)
      end
  end.
Fixpoint srun (e : env) (s : sstate) (l : list (world * input)) : sstate * list out :=
  match l with
  | [] => (s, [])
  | (w, i) :: r => let '(s1, o1) := sstep e w s i in let '(s2, o2) := srun e s1 r in (s2, o1 ++ o2)
  end.
