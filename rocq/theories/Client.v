(** * The client state machine: client/ClientProtocol.cpp

    The model covers every handler of ClientProtocol.cpp and processSocketData / processEvent / handleError / handleAppClose.
    - Everything the code calls through an interface (Factory, CertManager, CertificateVerifier, ClientExtensions,
      CertificateDecompressor, SelfCert, PeerCert, Clock, random bytes, KeyExchange) is a function in [cenv] (fixed for the
      connection), in [conn] (given to processConnect) or in [cworld] (chosen anew for every step).
    - Asynchronous results are complete before the next input is processed (FizzBase guarantees that, see FizzBase.v).
    - Logging, write tokens and flags, AeadOptions, configureClientRecordLayer (a no-op unless a custom record layer overrides
      it) and checkContext (:944-951, compiled out by default) are not modelled.
    - Failures keep only what the code does with them, as in Server.v. *)
From Verif Require Import Base Codec Str Hkdf KeySched Handshake Extensions RecordBase Record ReadEvent HelloChecks Cookie
  Token Negotiate Ticket PskSer Kex Hpke HpkeUtils Transcript IOBufUtil EchConfirm EchCrypt Server.
Open Scope N_scope.

(** AlertDescription::ech_required, record/Types.h *)
Definition al_ech_required : N := 121.

(** client/State.h:22-34; [CCrash] stands for an aborted process *)
Inductive cst := CUninitialized | CExpectingServerHello | CExpectingEncryptedExtensions | CExpectingCertificate
  | CExpectingCertificateVerify | CExpectingFinished | CEstablished | CWriteSideClosed | CClosed | CError | CCrash.
(** State.h:45 ClientAuthType, :61 ECHStatus; protocol/Types.h EarlyDataType; FizzClientContext.h:30 SendKeyShare;
    GreaseECHSetting::payloadStrategy (protocol/ech/GreaseECHSetting.h) *)
Inductive cauth := CaNotRequested | CaSent | CaNoMatch | CaStored.
Inductive cechst := CxRequested | CxRejected | CxAccepted.
Inductive cearly := CeNotAttempted | CeAttempted | CeRejected | CeAccepted.
Inductive sendshare := ShAlways | ShWhenNecessary | ShAlwaysDefault.
Inductive grease := GUniform | GComputed.

(** CachedPsk (PskCache.h:20-38) with its type *)
Record cpsk := mkCpsk { cp_type : psktype; cp_psk : psk }.
(** isPskAccepted, protocol/Types.h:29-41 *)
Definition pskAccepted (t : psktype) : bool := match t with PskExternal | PskResumption => true | _ => false end.

(** FizzClientContext with its Factory; times in nanoseconds *)
Record cenv := mkCEnv {
  k_versions : list N; k_ciphers : list N; k_groups : list N; k_shares : list N; k_pskModes : list N; k_sigSchemes : list N;
  k_alpns : list bytes; k_requireAlpn : bool; k_sendEarly : bool; k_omitEarly : bool; k_compat : bool; k_sendShare : sendshare;
  k_maxPskLife : Z; k_grease : option grease; k_outerTypes : list N;
  k_decompAlgos : list N; k_decompress : CompressedCertificate -> res CertificateMsg;
  k_hash : N -> res hashalg;                                  (* Factory, by cipher suite *)
  k_aead : N -> res (N * N * (bytes -> bytes -> res aead));   (* keyLength, ivLength, setKey *)
  k_peerCert : CertificateEntry -> bool -> res peercert;
  k_fac : echfac;                                             (* Factory, for HPKE *)
  k_getCert : option (option bytes -> list N -> list Extension -> res (option (selfobj * N))) }.
(** The arguments of processConnect (:176-193) *)
Record conn := mkConn {
  cn_verifier : option (list peercert -> res (option cert));
  cn_sni : option bytes; cn_psk : option cpsk; cn_exts : bool; cn_ech : option (list echcfg) }.
(** What the environment answers during one step *)
Record cworld := mkCWorld {
  cw_now : Z; cw_now2 : Z;                     (* Clock, first and second call *)
  cw_random : res bytes; cw_random2 : res bytes; (* makeRandomBytes(Random), inner and outer *)
  cw_sid : res bytes;                          (* makeRandomIOBuf(32) *)
  cw_kex : N -> res kex;                       (* makeKeyExchange, generateKeyPair *)
  cw_echKex : N -> res kex;                    (* the same, for HPKE *)
  cw_rnd : N -> N -> bytes;                    (* random bytes of the GREASE PSK *)
  cw_greaseEch : N -> res (N * N * N * buf * buf); (* ech::generateGreaseECH, by the size of the encoded hello *)
  cw_exts : res (list Extension);              (* ClientExtensions::getClientHelloExtensions *)
  cw_onEE : list Extension -> res unit }.      (* ClientExtensions::onEncryptedExtensions *)

(** EarlyDataParams, State.h:52-59 *)
Record earlyparams := mkEarly { ep_version : N; ep_cipher : N; ep_server : option cert; ep_client : option cert;
  ep_alpn : option bytes; ep_exporter : option bytes }.
(** ECHState, State.h:63-83 *)
Record echstate := mkEchState { ec_status : cechst; ec_enc : option bytes; ec_sni : option bytes; ec_neg : negcfg;
  ec_key : bytes; ec_ctx : hctx; ec_random : bytes; ec_grease : option (list (buf * N) * list buf); ec_hctx : option hsctx;
  ec_retry : option (list echcfg) }.
(** What State keeps of the ClientHello: verifier, extensions, sni, clientRandom, legacySessionId, attemptedPsk, keyExchangers
    (a std::map, hence sorted), encodedClientHello, requestedExtensions, earlyDataParams *)
Record hellost := mkHello {
  h_verifier : option (list peercert -> res (option cert)); h_exts : bool; h_sni : option bytes; h_random : bytes; h_sid : bytes;
  h_psk : option cpsk; h_kex : option (list (N * kex)); h_enc : option bytes; h_req : option (list N); h_params : option earlyparams }.
(** ... and of what was negotiated: version, cipher, group, keyExchangeType, pskType, pskMode, earlyDataType, alpn, handshakeTime,
    serverCert, clientCert, clientAuthRequested, sigScheme, serverCertCompAlgo *)
Record negst := mkNegSt {
  g_version : option N; g_cipher : option N; g_group : option N; g_kexType : option kextype; g_psk : option psktype;
  g_pskMode : option N; g_early : cearly; g_alpn : option bytes; g_hsTime : option Z; g_server : option cert; g_client : option cert;
  g_auth : option cauth; g_sig : option N; g_comp : option N }.
Definition neg_init : negst := mkNegSt None None None None None None CeNotAttempted None None None None None None None.
(** client/State.h *)
Record cstate := mkC {
  c_state : cst;
  c_read : option evstate; c_write : option wlayer; c_earlyw : option wlayer; c_ccs : bool;
  c_hctx : option hsctx; c_ks : option (hashalg * ks); c_secrets : option (bytes * bytes);   (* client, server handshake secret *)
  c_hello : option hellost; c_neg : negst; c_ech : option echstate;
  c_chain : option (list peercert); c_selected : option (selfobj * N);   (* selectedClientCert, clientAuthSigScheme *)
  c_exporter : option bytes; c_resumption : option bytes }.
Definition c_init : cstate := mkC CUninitialized None None None false None None None None neg_init None None None None None.

(** Field updates *)
Definition cu_state (s : cstate) (x : cst) : cstate :=
  mkC x (c_read s) (c_write s) (c_earlyw s) (c_ccs s) (c_hctx s) (c_ks s) (c_secrets s) (c_hello s) (c_neg s) (c_ech s) (c_chain s)
    (c_selected s) (c_exporter s) (c_resumption s).
Definition cu_layers (s : cstate) (r : option evstate) (w : option wlayer) : cstate :=
  mkC (c_state s) r w (c_earlyw s) (c_ccs s) (c_hctx s) (c_ks s) (c_secrets s) (c_hello s) (c_neg s) (c_ech s) (c_chain s)
    (c_selected s) (c_exporter s) (c_resumption s).
Definition cu_write (s : cstate) (w : option wlayer) : cstate := cu_layers s (c_read s) w.
Definition cu_read (s : cstate) (r : option evstate) : cstate := cu_layers s r (c_write s).
Definition cu_early (s : cstate) (w : option wlayer) (ccs : bool) : cstate :=
  mkC (c_state s) (c_read s) (c_write s) w ccs (c_hctx s) (c_ks s) (c_secrets s) (c_hello s) (c_neg s) (c_ech s) (c_chain s)
    (c_selected s) (c_exporter s) (c_resumption s).
Definition cu_ks (s : cstate) (k : option (hashalg * ks)) : cstate :=
  mkC (c_state s) (c_read s) (c_write s) (c_earlyw s) (c_ccs s) (c_hctx s) k (c_secrets s) (c_hello s) (c_neg s) (c_ech s) (c_chain s)
    (c_selected s) (c_exporter s) (c_resumption s).

(** TLSContent is [content] of Server.v.  Secrets: the traffic secrets and the early exporter, exporter master, resumption master. *)
Inductive cskind := KTraffic (k : secretkind) | KEarlyExporter | KExporter | KResumption.
(** Actions seen by the application (client/Actions.h); MutateState is applied to the returned state. *)
Inductive cout :=
| KWrite (l : list content)
| KDeliver (data : bytes)
| KSuccess (earlyAccepted : bool)
| KEarlySuccess (maxEarly : N)
| KError (alert : option N)
| KSecret (k : cskind) (secret : bytes)
| KEndOfData (post : bytes)
| KNewPsk (p : cpsk)
| KEarlyWriteFailed (q : queue)
| KEchRetry (sni : bytes) (configs : list echcfg)
| KWait (hint : N).

(** ** Record layers, as in Server.v but over the client's factory *)
Definition aead_for (mkaead : N -> res (N * N * (bytes -> bytes -> res aead))) (h : hashalg) (cipher : N) (secret : bytes) : res aead :=
  '(kl, il, mk) <- mkaead cipher ;;
  match snd (ks_step h ks_init (GetTrafficKey secret kl il)) with
  | Ok (OKeyIv k iv) => mk k iv
  | Ok _ => Err EThrow
  | Err x => Err x
  end.
Definition cnew_read (k : cenv) (h : hashalg) (version cipher : N) (secret : bytes) : res evstate :=
  rv <- real_draft_version version ;;
  a <- aead_for (k_aead k) h cipher secret ;;
  Ok (mkEv [] (LEnc (mkE 0 false (negb (rv =? 32535)) a))).
Definition cnew_write (k : cenv) (h : hashalg) (lv : level) (version cipher : N) (secret : bytes) : res wlayer :=
  rv <- real_draft_version version ;;
  a <- aead_for (k_aead k) h cipher secret ;;
  Ok (WEnc lv (mkW 0 (negb (rv =? 32535)) kMaxPlaintextRecordSize (PConst 0) a)).

(** ** Building a ClientHello *)
(** validatePsk :466-508 *)
Definition validatePsk (k : cenv) (now : Z) (p : option cpsk) : res (option cpsk) :=
  match p with
  | None => Ok None
  | Some q =>
      let c := cp_psk q in
      if negb (mem (pk_version c) (k_versions k)) then Ok None
      else if negb (mem (pk_cipher c) (k_ciphers k)) then Ok None
      else match cp_type q with
           | PskResumption =>
               if (pk_expire c <? now)%Z then Ok None
               else
                 d <- chk64 (now - pk_hsTime c)%Z ;;
                 if (k_maxPskLife k <? d)%Z then Ok None
                 else if (now <? pk_hsTime c)%Z then Ok None
                 else Ok (Some q)
           | _ => Ok (Some q)
           end
  end.
(** std::map::emplace *)
Fixpoint emplace (g : N) (x : kex) (l : list (N * kex)) : list (N * kex) :=
  match l with
  | [] => [(g, x)]
  | (g', y) :: r => if g <? g' then (g, x) :: l else if g =? g' then l else (g', y) :: emplace g x r
  end.
(** getKeyExchangers :510-522 *)
Fixpoint getKeyExchangers (w : cworld) (groups : list N) (l : list (N * kex)) : res (list (N * kex)) :=
  match groups with
  | [] => Ok l
  | g :: r => x <- cw_kex w g ;; getKeyExchangers w r (emplace g x l)
  end.
Definition keyShares (l : list (N * kex)) : res (list (N * buf)) :=
  mapR (fun p => b <- kx_share (snd p) ;; Ok (fst p, Some b)) l.
Definition when {A} (b : bool) (r : res A) : res (list A) := if b then x <- r ;; Ok [x] else Ok [].
Definition nonempty {A} (l : list A) : bool := match l with [] => false | _ => true end.
(** getClientHello :524-640 *)
Definition getClientHello (k : cenv) (w : cworld) (random sid : bytes) (shares : list (N * kex)) (sni : option bytes) (early exts : bool)
    (cookie : buf) : res ClientHello :=
  e1 <- match sni with Some n => when true (encodeExtension (XServerNameList [(0, Some n)])) | None => Ok [] end ;;
  e2 <- encodeExtension (XSupportedVersions (k_versions k)) ;;
  e3 <- encodeExtension (XSupportedGroups (k_groups k)) ;;
  sh <- keyShares shares ;;
  e4 <- encodeExtension (XClientKeyShare sh) ;;
  e5 <- encodeExtension (XSignatureAlgorithms (k_sigSchemes k)) ;;
  e6 <- when (nonempty (k_alpns k)) (encodeExtension (XProtocolNameList (map Some (k_alpns k)))) ;;
  e7 <- when (nonempty (k_pskModes k)) (encodeExtension (XPskKeyExchangeModes (k_pskModes k))) ;;
  e8 <- when early (encodeExtension XClientEarlyData) ;;
  e9 <- match cookie with Some _ => when true (encodeExtension (XCookie cookie)) | None => Ok [] end ;;
  e10 <- when (nonempty (k_decompAlgos k)) (encodeExtension (XCertCompressionAlgs (k_decompAlgos k))) ;;
  e11 <- (if exts then cw_exts w else Ok []) ;;
  Ok (mkCH 771 random (Some sid) (k_ciphers k) [0] (e1 ++ [e2; e3; e4; e5] ++ e6 ++ e7 ++ e8 ++ e9 ++ e10 ++ e11)).
(** getHashSize, protocol/Types.cpp:32-46 *)
Definition hash_size (id : N) : N := if id =? 256 then 32 else if id =? 384 then 48 else 64.
(** getPskExtension :642-669; the age is truncated to uint32_t *)
Definition getPskExtension (c : cpsk) (now : Z) : res (list (buf * N) * list buf) :=
  let p := cp_psk c in
  age <- match cp_type c with
         | PskResumption =>
             d <- chk64 (now - pk_issue p)%Z ;;
             Ok (Z.to_N ((Z.quot d 1000000 + Z.of_N (pk_ageAdd p)) mod 2 ^ 32))
         | _ => Ok 0
         end ;;
  id <- hash_id (pk_cipher p) ;;
  Ok ([(Some (pk_psk p), age)], [Some (zeros (hash_size id))]).
(** encodeAndAddBinders :676-735: the ClientHello, its encoding, the key scheduler and the transcript with the hello *)
Definition encodeAndAddBinders (c : ClientHello) (p : cpsk) (h : hashalg) (hc : hsctx) (now : Z)
    : res (ClientHello * bytes * ks * hsctx) :=
  k1 <- kdo h ks_init (DeriveEarly (pk_secret (cp_psk p))) ;;
  bk <- kget h k1 (GetEarly (match cp_type p with PskExternal => ExternalPskBinder | _ => ResumptionPskBinder end) (h_blank (hc_hash hc))) ;;
  '(ids, bs) <- getPskExtension p now ;;
  e <- encodeExtension (XClientPresharedKey (ids, bs)) ;;
  let c1 := with_exts c (ch_extensions c ++ [e]) in
  bl <- getBinderLength (ch_extensions c1) ;;
  pre <- encodeHandshake (MClientHello c1) ;;
  _ <- ensure (bl <=? blen pre) EThrow ;;
  let hc1 := hc_append hc (takeN (blen pre - bl) pre) in
  b <- hc_finished hc1 bk ;;
  e' <- encodeExtension (XClientPresharedKey (ids, [Some b])) ;;
  let c2 := with_exts c (ch_extensions c ++ [e']) in
  enc <- encodeHandshake (MClientHello c2) ;;
  _ <- ensure (bl <=? blen enc) EThrow ;;
  Ok (c2, enc, k1, hc_append hc1 (dropN (blen enc - bl) enc)).
Definition memb (x : bytes) (l : list bytes) : bool := existsb (bytes_eqb x) l.
(** getEarlyDataParams :737-763 *)
Definition getEarlyDataParams (k : cenv) (p : option cpsk) : option earlyparams :=
  if negb (k_sendEarly k) then None else
  match p with
  | None => None
  | Some q =>
      let c := cp_psk q in
      if pk_maxEarly c =? 0 then None
      else if (match pk_alpn c with Some a => negb (memb a (k_alpns k)) | None => false end) then None
      else Some (mkEarly (pk_version c) (pk_cipher c) (pk_server c) (pk_client c) (pk_alpn c) None)
  end.
Fixpoint optmap {A B} (f : A -> option B) (l : list A) : list B :=
  match l with [] => [] | a :: r => match f a with Some b => b :: optmap f r | None => optmap f r end end.
(** setupECH :810-844 with getNegotiatedECHConfig :765-800: configuration, enc and HPKE context *)
Definition setupECH (k : cenv) (w : cworld) (cfgs : option (list echcfg)) : res (option (negcfg * bytes * hctx)) :=
  match cfgs with
  | None => Ok None
  | Some l =>
      n <- negotiateECHConfig (optmap tryGetKEMId (k_groups k)) (optmap tryGetAeadId (k_ciphers k)) l ;;
      match n with
      | None => Err (alert al_internal_error)
      | Some ng =>
          g <- getKexGroup (ec_kem (ng_cfg ng)) ;;
          x <- cw_echKex w g ;;
          '(enc, ctx) <- constructHpkeSetupResult (k_fac k) x ng ;;
          Ok (Some (ng, enc, ctx))
      end
  end.
(** removeExtension :846-854, replaceOrAddExtension :856-873 *)
Fixpoint removeExt (t : N) (l : list Extension) : list Extension :=
  match l with [] => [] | e :: r => if ext_type e =? t then r else e :: removeExt t r end.
Fixpoint replaceOrAdd (x : Extension) (l : list Extension) : list Extension :=
  match l with [] => [x] | e :: r => if ext_type e =? ext_type x then x :: r else e :: replaceOrAdd x r end.
(** constructEncryptedClientHello :875-942: the HPKE context afterwards and the outer hello; [first]: Event::ClientHello *)
Definition constructEncrypted (first : bool) (c : ClientHello) (ng : negcfg) (enc : bytes) (ctx : hctx) (random fakeSni : bytes)
    (gp : option (list (buf * N) * list buf)) (types : list N) : res (hctx * ClientHello) :=
  let x1 := removeExt 41 (removeExt 65037 (ch_extensions c)) in
  let x2 := if first then removeExt 42 x1 else x1 in
  sn <- encodeExtension (XServerNameList [(0, Some fakeSni)]) ;;
  let outer := mkCH (ch_version c) random (ch_session_id c) (ch_suites c) (ch_compression c) (replaceOrAdd sn x2) in
  let '(ctx', r) := if first then encryptClientHello ng (Some enc) ctx c outer gp types
                    else encryptClientHelloHRR ng ctx c outer gp types in
  x <- r ;;
  o <- attachECH outer x gp ;;
  Ok (ctx', o).

(** The fake session id makes the client send a ChangeCipherSpec (:2047-2056, 2677-2685, 3074-3080) *)
Definition ccs_first (k : cenv) (sent : bool) : list content := if k_compat k && negb sent then [ccs_content] else [].

(** Early data secrets (:1093-1132): traffic secret, early write layer (unless omitted), exporter secret *)
Definition cearly_keys (k : cenv) (h : hashalg) (ksched : ks) (hc : hsctx) (p : psk) : res (bytes * option wlayer * bytes) :=
  t <- kget h ksched (GetEarly ClientEarlyTraffic (hc_context hc)) ;;
  wl <- (if k_omitEarly k then Ok None else x <- cnew_write k h LvEarlyData (pk_version p) (pk_cipher p) t ;; Ok (Some x)) ;;
  x <- kget h ksched (GetEarly EarlyExporter (hc_context hc)) ;;
  Ok (t, wl, x).

(** selectedShares :976-994 *)
Definition selectedShares (k : cenv) (p : option cpsk) : list N :=
  match k_sendShare k, p with
  | ShAlwaysDefault, _ | _, None => k_shares k
  | ShAlways, Some q =>
      match pk_group (cp_psk q) with
      | Some g => if mem g (k_groups k) then [g] else k_shares k
      | None => k_shares k
      end
  | ShWhenNecessary, Some q =>
      match pk_group (cp_psk q) with
      | Some g => if mem g (k_groups k) then [g] else k_shares k
      | None => []
      end
  end.
(** The ClientHello without pre_shared_key (:1022-1068): hello and requestedExtensions *)
Definition base_hello (k : cenv) (w : cworld) (random sid : bytes) (kexs : list (N * kex)) (cn : conn) (early ech : bool)
    : res (ClientHello * list N) :=
  c0 <- getClientHello k w random sid kexs (cn_sni cn) early (cn_exts cn) None ;;
  let req := map ext_type (ch_extensions c0) in
  if ech then
    e <- encodeExtension XEchInner ;;
    Ok (with_exts c0 (ch_extensions c0 ++ [e]), req ++ [65037])
  else match k_grease k with
       | Some GUniform =>
           g <- cw_greaseEch w 0 ;;
           e <- encodeExtension (XEchOuter g) ;;
           Ok (with_exts c0 (ch_extensions c0 ++ [e]), req ++ [65037])
       | _ => Ok (c0, req)
       end.

(** EventHandler<Uninitialized, Connect> :953-1272 *)
Definition handle_connect (k : cenv) (w : cworld) (s : cstate) (cn : conn) : res (cstate * list cout) :=
  p <- validatePsk k (cw_now w) (cn_psk cn) ;;
  random <- cw_random w ;;
  let params := getEarlyDataParams k p in
  sid <- (if k_compat k then cw_sid w else Ok []) ;;
  kexs <- getKeyExchangers w (selectedShares k p) [] ;;
  ech <- setupECH k w (cn_ech cn) ;;
  '(c0, req0) <- base_hello k w random sid kexs cn (match params with Some _ => true | None => false end)
                   (match ech with Some _ => true | None => false end) ;;
  '(c1, enc1, early) <-
    (match p with
     | Some q =>
         h <- k_hash k (pk_cipher (cp_psk q)) ;;
         '(c1, enc1, k1, hc) <- encodeAndAddBinders c0 q h (hc_new h) (cw_now2 w) ;;
         early <- match params with
                  | Some _ => x <- cearly_keys k h k1 hc (cp_psk q) ;; Ok (Some (x, pk_maxEarly (cp_psk q)))
                  | None => Ok None
                  end ;;
         Ok (c1, enc1, early)
     | None => enc1 <- encodeHandshake (MClientHello c0) ;; Ok (c0, enc1, None)
     end) ;;
  let req1 := match p with Some _ => req0 ++ [41] | None => req0 end in
  '(enc, req, sni, random', est) <-
    (match ech with
     | Some (ng, key, ctx) =>
         random2 <- cw_random2 w ;;
         gp <- generateGreasePSK (cw_rnd w) c1 ;;
         let fake := ec_name (ng_cfg ng) in
         '(ctx', outer) <- constructEncrypted true c1 ng key ctx random2 fake gp (k_outerTypes k) ;;
         enc <- encodeHandshake (MClientHello outer) ;;
         Ok (enc, req1, Some fake, random2,
             Some (mkEchState CxRequested (Some enc1) (cn_sni cn) ng key ctx' random gp None None))
     | None =>
         match k_grease k with
         | Some GComputed =>
             g <- cw_greaseEch w (blen enc1) ;;
             e <- encodeExtension (XEchOuter g) ;;
             enc <- encodeHandshake (MClientHello (with_exts c1 (ch_extensions c1 ++ [e]))) ;;
             Ok (enc, req1 ++ [65037], cn_sni cn, random, None)
         | _ => Ok (enc1, req1, cn_sni cn, random, None)
         end
     end) ;;
  d <- plain_write_initial enc ;;
  let wr := KWrite [mkContent LvPlaintext 22 d enc] in
  let st earlyw eparams ed :=
    mkC CExpectingServerHello (Some (mkEv [] (LPlain (mkP false None)))) (Some WPlain) earlyw (c_ccs s) (c_hctx s) (c_ks s) (c_secrets s)
      (Some (mkHello (cn_verifier cn) (cn_exts cn) sni random' sid p (Some kexs) (Some enc) (Some req) eparams))
      (mkNegSt None None None None None None ed None None None None None None None) est (c_chain s) (c_selected s) (c_exporter s) (c_resumption s) in
  match early, params with
  | Some ((t, wl, x), mx), Some ep =>
      Ok (st wl (Some (mkEarly (ep_version ep) (ep_cipher ep) (ep_server ep) (ep_client ep) (ep_alpn ep) (Some x))) CeAttempted,
          [wr; KSecret (KTraffic SkEarly) t; KEarlySuccess mx; KSecret KEarlyExporter x])
  | _, _ => Ok (st (c_earlyw s) None CeNotAttempted, [wr])
  end.

(** ** ServerHello and HelloRetryRequest *)
(** getAndValidateVersionAndCipher :1274-1319 *)
Definition versionAndCipher (k : cenv) (legacy comp suite : N) (exts : list Extension) : res (N * N) :=
  _ <- ensure (legacy =? 771) (alert al_protocol_version) ;;
  _ <- ensure (comp =? 0) (alert al_illegal_parameter) ;;
  x <- getExtension KServerSupportedVersions exts ;;
  match x with
  | Some (XServerSupportedVersions v) =>
      _ <- ensure (mem v (k_versions k)) (alert al_protocol_version) ;;
      _ <- ensure (mem suite (k_ciphers k)) (alert al_handshake_failure) ;;
      Ok (v, suite)
  | _ => Err (alert al_protocol_version)
  end.
Fixpoint findKex (g : N) (l : list (N * kex)) : option kex :=
  match l with [] => None | (g', x) :: r => if g' =? g then Some x else findKex g r end.
(** negotiateParameters :1321-1356 *)
Definition shParams (k : cenv) (m : ServerHello) (kexs : list (N * kex)) : res (N * N * option (N * bytes * kex)) :=
  '(v, c) <- versionAndCipher k (sh_version m) (sh_compression m) (sh_suite m) (sh_extensions m) ;;
  x <- getExtension KServerKeyShare (sh_extensions m) ;;
  match x with
  | Some (XServerKeyShare (g, b)) =>
      match findKex g kexs with
      | None => Err (alert al_handshake_failure)
      | Some kx => d <- deref b ;; Ok (v, c, Some (g, d, kx))
      end
  | _ => Ok (v, c, None)
  end.
(** validateNegotiationConsistency :1358-1372 *)
Definition consistent (g : negst) (v c : N) : res unit :=
  _ <- ensure (match g_version g with Some p => p =? v | None => true end) (alert al_handshake_failure) ;;
  ensure (match g_cipher g with Some p => p =? c | None => true end) (alert al_handshake_failure).
(** negotiatePsk :1393-1455: PskType, mode and the certificates of the PSK *)
Definition negotiatePsk (k : cenv) (p : option cpsk) (m : ServerHello) (v c : N) (exchange : bool)
    : res (psktype * option N * option cert * option cert) :=
  x <- getExtension KServerPresharedKey (sh_extensions m) ;;
  match p, x with
  | None, Some _ => Err (alert al_illegal_parameter)
  | None, None => Ok (if nonempty (k_pskModes k) then PskNotAttempted else PskNotSupported, None, None, None)
  | Some _, None => Ok (PskRejected, None, None, None)
  | Some q, Some (XServerPresharedKey i) =>
      _ <- ensure (i =? 0) (alert al_illegal_parameter) ;;
      _ <- ensure (v =? pk_version (cp_psk q)) (alert al_handshake_failure) ;;
      a <- hash_id c ;; b <- hash_id (pk_cipher (cp_psk q)) ;;
      _ <- ensure (a =? b) (alert al_handshake_failure) ;;
      let mode := if exchange then 1 else 0 in
      _ <- ensure (mem mode (k_pskModes k)) (alert al_handshake_failure) ;;
      Ok (cp_type q, Some mode, pk_server (cp_psk q), pk_client (cp_psk q))
  | Some _, Some _ => Err EThrow
  end.
Definition buf_eqb (a b : buf) : bool :=
  match a, b with Some x, Some y => bytes_eqb x y | None, None => true | _, _ => false end.

(** ServerHello in ExpectingServerHello :1457-1744 *)
Definition handle_server_hello (k : cenv) (w : cworld) (s : cstate) (m : ServerHello) (orig : bytes) : res (cstate * list cout) :=
  match c_hello s with
  | None => Err EUB
  | Some hl =>
  match h_req hl, h_kex hl with
  | Some req, Some kexs =>
      _ <- checkSH (sh_extensions m) req ;;
      '(version, cipher, exchange) <- shParams k m kexs ;;
      _ <- ensure (buf_eqb (Some (h_sid hl)) (sh_session_id m)) (alert al_illegal_parameter) ;;
      _ <- consistent (c_neg s) version cipher ;;
      '(pt, mode, scert, ccert) <- negotiatePsk k (h_psk hl) m version cipher (match exchange with Some _ => true | None => false end) ;;
      _ <- ensure (match exchange, mode with Some _, _ => true | None, Some 0 => true | None, _ => false end) (alert al_handshake_failure) ;;
      h <- k_hash k cipher ;;
      k1 <- match mode, h_psk hl with
            | Some _, Some q => kdo h ks_init (DeriveEarly (pk_secret (cp_psk q)))
            | Some _, None => Err EUB
            | None, _ => Ok ks_init
            end ;;
      '(k2, group, kt) <-
        (match exchange with
         | Some (g, share, kx) =>
             dh <- kx_secret kx share ;;
             k2 <- kdo h k1 (DeriveHandshakeDH dh) ;;
             Ok (k2, Some g, match g_kexType (c_neg s) with Some t => t | None => KexOneRtt end)
         | None => k2 <- kdo h k1 DeriveHandshake ;; Ok (k2, None, KexNone)
         end) ;;
      '(hc, ehc) <-
        (match c_hctx s with
         | Some x => Ok (x, match c_ech s with Some e => ec_hctx e | None => None end)
         | None =>
             en <- deref (h_enc hl) ;;
             ehc <- match c_ech s with Some e => i <- deref (ec_enc e) ;; Ok (Some (hc_append (hc_new h) i)) | None => Ok None end ;;
             Ok (hc_append (hc_new h) en, ehc)
         end) ;;
      '(hc', status) <-
        (match c_ech s with
         | None => Ok (hc, None)
         | Some e =>
             match ehc with
             | None => Err EUB
             | Some ec =>
                 acc <- checkAcceptSH ec h (ec_random e) m ;;
                 _ <- ensure (match ec_status e with
                              | CxRequested => true
                              | CxAccepted => acc
                              | CxRejected => negb acc end) (alert al_illegal_parameter) ;;
                 Ok (if acc : bool then (ec, Some CxAccepted) else (hc, Some CxRejected))
             end
         end) ;;
      _ <- ensure (negb (match status with Some CxRejected => pskAccepted pt | _ => false end)) (alert al_illegal_parameter) ;;
      let hc1 := hc_append hc' orig in
      _ <- match c_read s with
           | None => Err EUB
           | Some r => ensure (match ev_unparsed r with [] => true | _ => false end) (alert al_unexpected_message) end ;;
      ws <- kget h k2 (GetHandshake ClientHandshakeTraffic (hc_context hc1)) ;;
      wl <- cnew_write k h LvHandshake version cipher ws ;;
      rs <- kget h k2 (GetHandshake ServerHandshakeTraffic (hc_context hc1)) ;;
      rl <- cnew_read k h version cipher rs ;;
      hsTime <- match mode, h_psk hl with
                | Some _, Some q => Ok (pk_hsTime (cp_psk q))
                | Some _, None => Err EUB
                | None, _ => Ok (cw_now w)
                end ;;
      let auth := if pskAccepted pt then Some (match ccert with Some _ => CaStored | None => CaNotRequested end) else None in
      let inner {A} (f : echstate -> A) (g : A) := match status, c_ech s with Some CxAccepted, Some e => f e | _, _ => g end in
      let hl' := mkHello (h_verifier hl) (h_exts hl) (inner ec_sni (h_sni hl)) (inner ec_random (h_random hl)) (h_sid hl) None None None
                   (h_req hl) (h_params hl) in
      let est := match c_ech s, status with
                 | Some e, Some st => Some (mkEchState st None (ec_sni e) (ec_neg e) (ec_key e) (ec_ctx e) (ec_random e) (ec_grease e) None (ec_retry e))
                 | x, _ => x end in
      let g := c_neg s in
      Ok (mkC CExpectingEncryptedExtensions (Some rl) (Some wl) (c_earlyw s) (c_ccs s) (Some hc1) (Some (h, k2)) (Some (ws, rs)) (Some hl')
            (mkNegSt (Some version) (Some cipher) group (Some kt) (Some pt) mode (g_early g) (g_alpn g) (Some hsTime) scert ccert auth
               (g_sig g) (g_comp g))
            est (c_chain s) (c_selected s) (c_exporter s) (c_resumption s),
          [KSecret (KTraffic SkServerHs) rs; KSecret (KTraffic SkClientHs) ws])
  | _, _ => Err EUB
  end
  end.

(** the inner ClientHello's transcript after a retry (:1925-1983): status, transcript, GREASE PSK *)
Definition hrr_ech (k : cenv) (w : cworld) (h : hashalg) (e : echstate) (m : HelloRetryRequest) (orig : bytes)
    : res (cechst * hsctx * option (list (buf * N) * list buf)) :=
  i <- deref (ec_enc e) ;;
  mh <- encodeHandshake (MMessageHash (Some (hc_context (hc_append (hc_new h) i)))) ;;
  let ec := hc_append (hc_new h) mh in
  acc <- checkAcceptHRR ec h (ec_random e) m ;;
  gp <- match ec_grease e with Some g => x <- generateGreasePSKForHRR (cw_rnd w) g ;; Ok (Some x) | None => Ok None end ;;
  Ok (if acc : bool then CxAccepted else CxRejected, hc_append ec orig, gp).

(** HelloRetryRequest in ExpectingServerHello :1803-2099 with negotiateParameters :1754-1782 and getHrrKeyExchangers :1784-1801 *)
Definition handle_retry (k : cenv) (w : cworld) (s : cstate) (m : HelloRetryRequest) (orig : bytes) : res (cstate * list cout) :=
  match c_hello s with
  | None => Err EUB
  | Some hl =>
  match h_req hl, h_kex hl with
  | Some req, Some kexs =>
      _ <- checkHRR (hrr_extensions m) req ;;
      _ <- ensure (match g_kexType (c_neg s) with Some _ => false | None => true end) (alert al_unexpected_message) ;;
      '(version, cipher) <- versionAndCipher k (hrr_version m) (hrr_compression m) (hrr_suite m) (hrr_extensions m) ;;
      x <- getExtension KHrrKeyShare (hrr_extensions m) ;;
      group <- match x with
               | Some (XHrrKeyShare g) => _ <- ensure (mem g (k_groups k)) (alert al_handshake_failure) ;; Ok (Some g)
               | _ => Ok None end ;;
      y <- getExtension KCookie (hrr_extensions m) ;;
      let cookie := match y with Some (XCookie b) => b | _ => None end in
      p <- match h_psk hl with
           | Some q => a <- hash_id cipher ;; b <- hash_id (pk_cipher (cp_psk q)) ;; Ok (if a =? b then Some q else None)
           | None => Ok None end ;;
      kexs' <- match group with
               | Some g => match findKex g kexs with
                           | Some _ => Err (alert al_illegal_parameter)
                           | None => getKeyExchangers w [g] [] end
               | None => Ok kexs end ;;
      c0 <- getClientHello k w (match c_ech s with Some e => ec_random e | None => h_random hl end) (h_sid hl) kexs'
              (match c_ech s with Some e => ec_sni e | None => h_sni hl end) false (h_exts hl) cookie ;;
      let req0 := (match c_ech s with Some _ => [65037] | None => [] end) ++ map ext_type (ch_extensions c0) in
      c1 <- match c_ech s with
            | Some _ => e <- encodeExtension XEchInner ;; Ok (with_exts c0 (ch_extensions c0 ++ [e]))
            | None => Ok c0 end ;;
      h <- k_hash k cipher ;;
      en <- deref (h_enc hl) ;;
      mh <- encodeHandshake (MMessageHash (Some (hc_context (hc_append (hc_new h) en)))) ;;
      let hc := hc_append (hc_append (hc_new h) mh) orig in
      eres <- match c_ech s with Some e => r <- hrr_ech k w h e m orig ;; Ok (Some r) | None => Ok None end ;;
      '(c2, enc2) <-
        (match p with
         | Some q =>
             '(c2, enc2, _, _) <- encodeAndAddBinders c1 q h (match eres with Some (_, ec, _) => ec | None => hc end) (cw_now w) ;;
             Ok (c2, enc2)
         | None => enc2 <- encodeHandshake (MClientHello c1) ;; Ok (c1, enc2)
         end) ;;
      '(enc, est) <-
        (match c_ech s, eres with
         | Some e, Some (status, ec, gp) =>
             sni <- match h_sni hl with Some n => Ok n | None => Err EThrow end ;;
             '(ctx', outer) <- constructEncrypted false c2 (ec_neg e) (ec_key e) (ec_ctx e) (h_random hl) sni gp (k_outerTypes k) ;;
             enc <- encodeHandshake (MClientHello outer) ;;
             Ok (enc, Some (mkEchState status (Some enc2) (ec_sni e) (ec_neg e) (ec_key e) ctx' (ec_random e) gp (Some (hc_append ec enc2)) (ec_retry e)))
         | _, _ => Ok (enc2, None)
         end) ;;
      match c_write s with
      | None => Err EUB
      | Some wl =>
          ct <- snd (wl_write wl 22 [enc]) ;;
          let ccs := ccs_first k (c_ccs s) in
          let accepted := match est with Some e => match ec_status e with CxAccepted => true | _ => false end | None => false end in
          let inner {A} (f : echstate -> A) (g : A) := match est with Some e => if accepted then f e else g | None => g end in
          let g := c_neg s in
          Ok (mkC CExpectingServerHello (c_read s) (c_write s) None (c_ccs s || k_compat k) (Some (hc_append hc enc)) (c_ks s) (c_secrets s)
                (Some (mkHello (h_verifier hl) (h_exts hl) (inner ec_sni (h_sni hl)) (inner ec_random (h_random hl)) (h_sid hl) p (Some kexs')
                         (Some enc) (Some (req0 ++ match p with Some _ => [41] | None => [] end)) (h_params hl)))
                (mkNegSt (Some version) (Some cipher) (g_group g) (Some KexHRR) (g_psk g) (g_pskMode g)
                   (match g_early g with CeAttempted => CeRejected | x => x end) (g_alpn g) (g_hsTime g) (g_server g) (g_client g) (g_auth g)
                   (g_sig g) (g_comp g))
                est (c_chain s) (c_selected s) (c_exporter s) (c_resumption s),
              [KWrite (ccs ++ [ct])])
      end
  | _, _ => Err EUB
  end
  end.

(** ** EncryptedExtensions *)
(** validateAcceptedEarly :2101-2130 *)
Definition validateAcceptedEarly (k : cenv) (s : cstate) (hl : hellost) (alpn : option bytes) : res unit :=
  match g_psk (c_neg s), h_params hl with
  | Some PskRejected, _ | _, None => Err (alert al_illegal_parameter)
  | _, Some p =>
      _ <- ensure (match g_cipher (c_neg s) with Some c => ep_cipher p =? c | None => false end) (alert al_illegal_parameter) ;;
      _ <- ensure (opt_eqb (ep_alpn p) alpn) (alert al_illegal_parameter) ;;
      ensure (match c_earlyw s with Some _ => true | None => k_omitEarly k end) (alert al_illegal_parameter)
  end.
(** EncryptedExtensions in ExpectingEncryptedExtensions :2132-2242; [retryConfigs.value()] throws if there is none *)
Definition handle_ee (k : cenv) (w : cworld) (s : cstate) (exts : list Extension) (orig : bytes) : res (cstate * list cout) :=
  match c_hello s, c_hctx s, g_psk (c_neg s) with
  | Some hl, Some hc, Some pt =>
      match h_req hl with
      | None => Err EUB
      | Some req =>
          _ <- checkEE exts req ;;
          a <- getExtension KProtocolNameList exts ;;
          alpn <- match a with
                  | Some (XProtocolNameList l) =>
                      match l with
                      | [b] => n <- deref b ;; _ <- ensure (memb n (k_alpns k)) (alert al_illegal_parameter) ;; Ok (Some n)
                      | _ => Err (alert al_illegal_parameter)
                      end
                  | _ => if k_requireAlpn k then Err (alert al_no_application_protocol) else Ok None
                  end ;;
          e <- getExtension KServerEarlyData exts ;;
          ed <- match g_early (c_neg s), e with
                | CeAttempted, Some _ => _ <- validateAcceptedEarly k s hl alpn ;; Ok CeAccepted
                | CeAttempted, None => Ok CeRejected
                | _, Some _ => Err (alert al_illegal_parameter)
                | x, None => Ok x
                end ;;
          rt <- match c_ech s with
                | None => Ok None
                | Some es =>
                    x <- getExtension KEchEncryptedExtensions exts ;;
                    match x with
                    | Some (XEchEncryptedExtensions l) =>
                        cfgs <- mapR parseSupportedECHConfig l ;;
                        match optmap (fun o => o) cfgs with
                        | [] => Err EThrow
                        | cs => Ok (Some (match ec_sni es with Some n => n | None => [] end, cs))
                        end
                    | _ => Ok None
                    end
                end ;;
          _ <- (if h_exts hl then cw_onEE w exts else Ok tt) ;;
          let g := c_neg s in
          let hl' := mkHello (h_verifier hl) (h_exts hl) (h_sni hl) (h_random hl) (h_sid hl) (h_psk hl) (h_kex hl) (h_enc hl) None (h_params hl) in
          let est := match c_ech s, rt with
                     | Some x, Some (_, cs) => Some (mkEchState (ec_status x) (ec_enc x) (ec_sni x) (ec_neg x) (ec_key x) (ec_ctx x) (ec_random x)
                                                       (ec_grease x) (ec_hctx x) (Some cs))
                     | x, _ => x end in
          Ok (mkC (if pskAccepted pt then CExpectingFinished else CExpectingCertificate) (c_read s) (c_write s) (c_earlyw s) (c_ccs s)
                (Some (hc_append hc orig)) (c_ks s) (c_secrets s) (Some hl')
                (mkNegSt (g_version g) (g_cipher g) (g_group g) (g_kexType g) (g_psk g) (g_pskMode g) ed alpn (g_hsTime g) (g_server g) (g_client g)
                   (g_auth g) (g_sig g) (g_comp g))
                est (c_chain s) (c_selected s) (c_exporter s) (c_resumption s),
              match rt with Some (n, cs) => [KEchRetry n cs] | None => [] end)
      end
  | _, _, _ => Err EUB
  end.

(** ** Server authentication *)
Definition cu_auth (s : cstate) (st : cst) (hc : hsctx) (ch : option (list peercert)) (sel : option (selfobj * N)) (auth : option cauth)
    (server : option cert) (sg comp : option N) : cstate :=
  let g := c_neg s in
  mkC st (c_read s) (c_write s) (c_earlyw s) (c_ccs s) (Some hc) (c_ks s) (c_secrets s) (c_hello s)
    (mkNegSt (g_version g) (g_cipher g) (g_group g) (g_kexType g) (g_psk g) (g_pskMode g) (g_early g) (g_alpn g) (g_hsTime g) server (g_client g)
       auth sg comp)
    (c_ech s) ch sel (c_exporter s) (c_resumption s).
(** CertificateRequest in ExpectingCertificate :2273-2336 with getClientCert :2244-2271 *)
Definition handle_cert_request (k : cenv) (s : cstate) (m : CertificateRequest) (orig : bytes) : res (cstate * list cout) :=
  _ <- ensure (match g_auth (c_neg s) with Some _ => false | None => true end) (alert al_unexpected_message) ;;
  match c_hctx s, c_hello s with
  | Some hc, Some hl =>
      ctx <- deref (cr_context m) ;;
      _ <- ensure (negb (nonempty ctx)) (alert al_illegal_parameter) ;;
      x <- getExtension KSignatureAlgorithms (cr_extensions m) ;;
      match x with
      | Some (XSignatureAlgorithms l) =>
          sel <- match k_getCert k with Some f => f (h_sni hl) l (cr_extensions m) | None => Ok None end ;;
          Ok (cu_auth s CExpectingCertificate (hc_append hc orig) (c_chain s) sel
                (Some (match sel with Some _ => CaSent | None => CaNoMatch end)) (g_server (c_neg s)) (g_sig (c_neg s)) (g_comp (c_neg s)), [])
      | _ => Err (alert al_illegal_parameter)
      end
  | _, _ => Err EUB
  end.
(** handleCertMsg :2338-2403; the application's extensions are asked for again for every entry *)
Fixpoint server_certs (k : cenv) (w : cworld) (exts : bool) (l : list CertificateEntry) (leaf : bool) : res (list peercert) :=
  match l with
  | [] => Ok []
  | x :: r =>
      _ <- (if exts then sent <- cw_exts w ;;
                         ensure (forallb (fun e => mem (ext_type e) (map ext_type sent)) (ce_extensions x)) (alert al_illegal_parameter)
            else ensure (negb (nonempty (ce_extensions x))) (alert al_illegal_parameter)) ;;
      p <- k_peerCert k x leaf ;;
      ps <- server_certs k w exts r false ;;
      Ok (p :: ps)
  end.
Definition handle_cert_msg (k : cenv) (w : cworld) (s : cstate) (m : CertificateMsg) (algo : option N) (orig : bytes) : res (cstate * list cout) :=
  match c_hctx s, c_hello s with
  | Some hc, Some hl =>
      ctx <- deref (cm_context m) ;;
      _ <- ensure (negb (nonempty ctx)) (alert al_illegal_parameter) ;;
      certs <- server_certs k w (h_exts hl) (cm_list m) true ;;
      _ <- ensure (nonempty certs) (alert al_illegal_parameter) ;;
      Ok (cu_auth s CExpectingCertificateVerify (hc_append hc orig) (Some certs) (c_selected s)
            (Some (match g_auth (c_neg s) with Some a => a | None => CaNotRequested end)) (g_server (c_neg s)) (g_sig (c_neg s)) algo, [])
  | _, _ => Err EUB
  end.
(** CompressedCertificate in ExpectingCertificate :2405-2456 *)
Definition as_bad_certificate {A} (r : res A) : res A :=
  match r with Err ECheck => Err ECheck | Err EUB => Err EUB | Err _ => Err (alert al_bad_certificate) | x => x end.
Definition handle_compressed_cert (k : cenv) (w : cworld) (s : cstate) (m : CompressedCertificate) (orig : bytes) : res (cstate * list cout) :=
  _ <- ensure (nonempty (k_decompAlgos k)) (alert al_unexpected_message) ;;
  _ <- ensure (mem (cc_algorithm m) (k_decompAlgos k)) (alert al_bad_certificate) ;;
  d <- as_bad_certificate (k_decompress k m) ;;
  handle_cert_msg k w s d (Some (cc_algorithm m)) orig.
(** CertificateVerify in ExpectingCertificateVerify :2477-2551 *)
Definition handle_cert_verify (k : cenv) (s : cstate) (m : CertificateVerify) (orig : bytes) : res (cstate * list cout) :=
  _ <- ensure (mem (cv_algorithm m) (k_sigSchemes k)) (alert al_illegal_parameter) ;;
  match c_chain s, c_hctx s, c_hello s with
  | Some (leaf :: rest), Some hc, Some hl =>
      sig <- deref (cv_signature m) ;;
      _ <- pc_verify leaf (cv_algorithm m) CvServer (hc_context hc) sig ;;
      newCert <- match h_verifier hl with
                 | Some v => x <- as_verification (v (leaf :: rest)) ;; Ok (match x with Some c => c | None => pc_cert leaf end)
                 | None => Ok (pc_cert leaf) end ;;
      Ok (cu_auth s CExpectingFinished (hc_append hc orig) None (c_selected s) (g_auth (c_neg s)) (Some newCert) (Some (cv_algorithm m))
            (g_comp (c_neg s)), [])
  | _, _, _ => Err EUB
  end.

(** ** Finished *)
Inductive chres := CHOk (s : cstate) (l : list cout) | CHErr (s : cstate) (e : err) | CHSilent (s : cstate).
Definition cof_res (s : cstate) (r : res (cstate * list cout)) : chres :=
  match r with Ok (s', l) => CHOk s' l | Err e => CHErr s e end.
Definition cno_unparsed (s : cstate) : option bool :=
  match c_read s with Some r => Some (match ev_unparsed r with [] => true | _ => false end) | None => None end.
Definition cwith_write (s : cstate) (ty : N) (q : queue) (f : cstate -> content -> chres) : chres :=
  match c_write s with
  | None => CHErr s EUB
  | Some wl =>
      let '(wl', r) := wl_write wl ty q in
      let s' := cu_write s (Some wl') in
      match r with Ok ct => f s' ct | Err e => CHErr s' e end
  end.

(** handleError :342-374 *)
Definition chandle_error (s : cstate) (a : option N) : cstate * list cout :=
  match c_state s with
  | CError => (s, [KError a])
  | _ =>
      let s' := cu_state (cu_layers s None None) CError in
      match a, c_write s with
      | Some d, Some wl =>
          match snd (wl_write wl 21 [alert_bytes d]) with
          | Ok ct => (s', [KWrite [ct]; KError a])
          | Err ECheck | Err EUB => (cu_state s CCrash, [])
          | Err _ => (s', [KError a])
          end
      | _, _ => (s', [KError a])
      end
  end.

(** Our authentication (:2597-2648): messages, transcript after them, the certificate sent *)
Definition client_auth (s : cstate) (auth : cauth) (hc : hsctx) : res (list bytes * hsctx * option cert) :=
  match auth with
  | CaStored => Ok ([], hc, g_client (c_neg s))
  | CaNotRequested => Ok ([], hc, None)
  | CaNoMatch =>
      m <- encodeHandshake (MCertificate (mkCert (Some []) [])) ;;
      Ok ([m], hc_append hc m, None)
  | CaSent =>
      match c_selected s with
      | None => Err EUB
      | Some (so, scheme) =>
          cm <- so_message so ;;
          m <- encodeHandshake (MCertificate cm) ;;
          let hc1 := hc_append hc m in
          sig <- so_sign so scheme CvClient (hc_context hc1) ;;
          v <- encodeHandshake (MCertificateVerify (mkCV scheme (Some sig))) ;;
          Ok ([m; v], hc_append hc1 v, Some (so_cert so))
      end
  end.
(** From the verified Finished to the client's flight (:2576-2708): EndOfEarlyData (with the early write layer used),
    messages to write, exporter, resumption secret, scheduler, hash of the transcript through the server's Finished *)
Definition finished_prepare (k : cenv) (s : cstate) (hc0 : hsctx) (cs : bytes) (h : hashalg) (k0 : ks) (auth : cauth)
    : res (option content * list bytes * option cert * bytes * bytes * ks) :=
  k1 <- kdo h k0 DeriveMaster ;;
  '(eoed, hc1) <-
    (match g_early (c_neg s) with
     | CeAccepted =>
         if k_omitEarly k then Ok (None, hc0)
         else
           m <- encodeHandshake MEndOfEarlyData ;;
           match c_earlyw s with
           | None => Err EUB
           | Some wl => ct <- snd (wl_write wl 22 [m]) ;; Ok (Some ct, hc_append hc0 m)
           end
     | _ => Ok (None, hc0)
     end) ;;
  '(msgs, hc2, ccert) <- client_auth s auth hc1 ;;
  ems <- kget h k1 (GetMaster ExporterMaster (hc_context hc0)) ;;
  '(fin, hc3) <- getFinished hc2 cs ;;
  rms <- kget h k1 (GetMaster ResumptionMaster (hc_context hc3)) ;;
  Ok (eoed, msgs ++ [fin], ccert, ems, rms, k1).
(** Finished in ExpectingFinished :2553-2794 *)
Definition chandle_finished (k : cenv) (s : cstate) (vd : buf) (orig : bytes) : chres :=
  match c_hctx s, c_secrets s, c_ks s, g_version (c_neg s), g_cipher (c_neg s), g_auth (c_neg s) with
  | Some hc, Some (cs, ss), Some (h, k0), Some version, Some cipher, Some auth =>
      match cno_unparsed s with
      | None => CHErr s EUB
      | Some false => CHErr s (alert al_unexpected_message)
      | Some true =>
          match hc_finished hc ss, vd with
          | Err x, _ => CHErr s x
          | Ok _, None => CHErr s EUB
          | Ok expected, Some got =>
              if negb (crypto_equal expected got) then CHErr s (alert al_bad_record_mac) else
              let hc0 := hc_append hc orig in
              match finished_prepare k s hc0 cs h k0 auth with
              | Err x => CHErr s x
              | Ok (eoed, msgs, ccert, ems, rms, k1) =>
                  cwith_write s 22 msgs (fun s1 ct =>
                    match (k2 <- kdo h k1 (DeriveApp (hc_context hc0)) ;;
                           k3 <- kdo h k2 ClearMaster ;;
                           ws <- kget h k3 (GetApp ClientAppTraffic) ;;
                           wl <- cnew_write k h LvAppTraffic version cipher ws ;;
                           rs <- kget h k3 (GetApp ServerAppTraffic) ;;
                           rl <- cnew_read k h version cipher rs ;;
                           Ok (k3, ws, wl, rs, rl)) with
                    | Err x => CHErr s1 x
                    | Ok (k3, ws, wl, rs, rl) =>
                        let g := c_neg s in
                        let s2 := mkC CEstablished (Some rl) (Some wl) None (c_ccs s || k_compat k) None (Some (h, k3)) None (c_hello s)
                                    (mkNegSt (g_version g) (g_cipher g) (g_group g) (g_kexType g) (g_psk g) (g_pskMode g) (g_early g) (g_alpn g)
                                       (g_hsTime g) (g_server g) ccert (g_auth g) (g_sig g) (g_comp g))
                                    (c_ech s) (c_chain s) None (Some ems) (Some rms) in
                        let acts := [KSecret (KTraffic SkServerApp) rs; KSecret (KTraffic SkClientApp) ws; KSecret KExporter ems;
                                     KSecret KResumption rms;
                                     KWrite (ccs_first k (c_ccs s) ++ match eoed with Some c => [c] | None => [] end ++ [ct])] in
                        match c_ech s with
                        | Some e =>
                            match ec_status e with
                            | CxRejected =>
                                (* the alert is written by the record layer of [state], i.e. the handshake one *)
                                match snd (wl_write (match c_write s1 with Some x => x | None => WPlain end) 21 [alert_bytes al_ech_required]) with
                                | Ok al => CHOk (cu_state (cu_layers s2 None None) CError)
                                             (acts ++ [KWrite [al]; KError (Some al_ech_required)])
                                | Err ECheck => CHErr s1 ECheck
                                | Err EUB => CHErr s1 EUB
                                | Err _ => CHOk (cu_state (cu_layers s2 None None) CError) (acts ++ [KError (Some al_ech_required)])
                                end
                            | _ => CHOk s2 (acts ++ [KSuccess (match g_early g with CeAccepted => true | _ => false end)])
                            end
                        | None => CHOk s2 (acts ++ [KSuccess (match g_early g with CeAccepted => true | _ => false end)])
                        end
                    end)
              end
          end
      end
  | _, _, _, _, _, _ => CHErr s EUB
  end.

(** ** After the handshake *)
(** NewSessionTicket in Established :2808-2848 with getMaxEarlyDataSize :2796-2806 *)
Definition handle_ticket (k : cenv) (w : cworld) (s : cstate) (m : NewSessionTicket) : res (cstate * list cout) :=
  let g := c_neg s in
  match c_ks s, c_resumption s, g_version g, g_cipher g, g_hsTime g with
  | Some (h, ksched), Some rms, Some version, Some cipher, Some ht =>
      nonce <- deref (nst_nonce m) ;;
      sec <- kget h ksched (GetResumption rms nonce) ;;
      t <- deref (nst_ticket m) ;;
      ex <- chk64 (cw_now2 w + Z.of_N (nst_lifetime m) * ns_per_s)%Z ;;
      x <- getExtension KTicketEarlyData (nst_extensions m) ;;
      let mx := match x with Some (XTicketEarlyData n) => n | _ => 0 end in
      Ok (s, [KNewPsk (mkCpsk PskResumption (mkPsk t sec version cipher (g_group g) (g_alpn g) (nst_age_add m) (cw_now w) ex
                                               (g_server g) (g_client g) mx ht))])
  | _, _, _, _, _ => Err EUB
  end.
(** AppWrite in Established :2871-2889 *)
Definition chandle_app_write (s : cstate) (q : queue) : chres :=
  cwith_write s 23 q (fun s' ct => CHOk s' [KWrite [ct]]).
(** clientKeyUpdate, then a new write layer (:2912-2930, 2994-3012) *)
Definition crekey_write (k : cenv) (s : cstate) (f : cstate -> bytes -> chres) : chres :=
  match c_ks s, g_version (c_neg s), g_cipher (c_neg s) with
  | Some (h, k0), Some version, Some cipher =>
      match (k' <- kdo h k0 ClientKeyUpdate ;;
             ws <- kget h k' (GetApp ClientAppTraffic) ;;
             wl <- cnew_write k h LvAppTraffic version cipher ws ;;
             Ok (k', ws, wl)) with
      | Err x => CHErr s x
      | Ok (k', ws, wl) => f (cu_write (cu_ks s (Some (h, k'))) (Some wl)) ws
      end
  | _, _, _ => CHErr s EUB
  end.
(** KeyUpdateInitiation :2891-2939 *)
Definition chandle_ku_init (k : cenv) (s : cstate) (req : N) : chres :=
  match cno_unparsed s with
  | None => CHErr s EUB
  | Some false => CHErr s (alert al_unexpected_message)
  | Some true =>
      match encodeHandshake (MKeyUpdate req) with
      | Err x => CHErr s x
      | Ok m => cwith_write s 22 [m] (fun s1 ct =>
                  crekey_write k s1 (fun s2 ws => CHOk s2 [KSecret (KTraffic SkClientApp) ws; KWrite [ct]]))
      end
  end.
(** KeyUpdate :2941-3024 *)
Definition chandle_ku (k : cenv) (s : cstate) (req : N) : chres :=
  match cno_unparsed s with
  | None => CHErr s EUB
  | Some false => CHErr s (alert al_unexpected_message)
  | Some true =>
      match c_ks s, g_version (c_neg s), g_cipher (c_neg s) with
      | Some (h, k0), Some version, Some cipher =>
          match (k' <- kdo h k0 ServerKeyUpdate ;;
                 rs <- kget h k' (GetApp ServerAppTraffic) ;;
                 rl <- cnew_read k h version cipher rs ;;
                 Ok (k', rs, rl)) with
          | Err x => CHErr s x
          | Ok (k', rs, rl) =>
              let s1 := cu_ks s (Some (h, k')) in
              if req =? 0 then CHOk (cu_read s1 (Some rl)) [KSecret (KTraffic SkServerApp) rs]
              else match encodeHandshake (MKeyUpdate 0) with
                   | Err x => CHErr s1 x
                   | Ok m => cwith_write s1 22 [m] (fun s2 ct =>
                               crekey_write k s2 (fun s3 ws =>
                                 CHOk (cu_read s3 (Some rl)) [KSecret (KTraffic SkServerApp) rs; KSecret (KTraffic SkClientApp) ws; KWrite [ct]]))
                   end
          end
      | _, _, _ => CHErr s EUB
      end
  end.
(** ignoreEarlyAppWrite :3032-3046 *)
Definition ignore_early (s : cstate) (q : queue) : chres :=
  match g_early (c_neg s) with CeRejected => CHOk s [KEarlyWriteFailed q] | _ => CHSilent s end.
(** handleEarlyAppWrite :3048-3093 *)
Definition handle_early (k : cenv) (s : cstate) (q : queue) : chres :=
  if k_omitEarly k then CHSilent s else
  match g_early (c_neg s) with
  | CeNotAttempted => CHSilent s
  | CeRejected => ignore_early s q
  | _ =>
      match c_earlyw s with
      | None => CHErr s EUB
      | Some wl =>
          let '(wl', r) := wl_write wl 23 q in
          match r with
          | Ok ct => CHOk (cu_early s (Some wl') (c_ccs s || k_compat k)) [KWrite (ccs_first k (c_ccs s) ++ [ct])]
          | Err e => CHErr (cu_early s (Some wl') (c_ccs s)) e
          end
      end
  end.
(** EarlyAppWrite in Established :3166-3191 *)
Definition handle_late_early (s : cstate) (q : queue) : chres :=
  match g_early (c_neg s) with CeAccepted => chandle_app_write s q | _ => ignore_early s q end.
(** CloseNotify in Established :3193-3219 and WriteSideClosed :3231-3254 *)
Definition chandle_close (s : cstate) (post : bytes) (reply : bool) : chres :=
  match cno_unparsed s with
  | None => CHErr s EUB
  | Some false => CHErr s (alert al_unexpected_message)
  | Some true =>
      if reply then cwith_write s 21 [alert_bytes 0] (fun s' ct =>
        CHOk (cu_state (cu_layers s' None None) CClosed) [KWrite [ct]; KEndOfData post])
      else CHOk (cu_state (cu_layers s None None) CClosed) [KEndOfData post]
  end.

(** ** Dispatch *)
(** The events: what the application calls, and what was read (Param variants). *)
Inductive cevent := EConnect (cn : conn) | ERead (ev : event) | ENewTicket | EAppWrite (q : queue) | EEarlyAppWrite (q : queue)
  | EKeyUpdate (req : N).
(** The handler table :32-169; handleInvalidEvent :419-443 *)
Definition chandle (k : cenv) (w : cworld) (s : cstate) (ev : cevent) : chres :=
  let invalid := match ev with ERead (EvAlert _) => CHSilent s | _ => CHErr s (alert al_unexpected_message) end in
  match c_state s, ev with
  | CUninitialized, EConnect cn => cof_res s (handle_connect k w s cn)
  | CExpectingServerHello, ERead (EvHandshake (MHelloRetryRequest m) orig) => cof_res s (handle_retry k w s m orig)
  | CExpectingServerHello, ERead (EvHandshake (MServerHello m) orig) => cof_res s (handle_server_hello k w s m orig)
  | CExpectingServerHello, EEarlyAppWrite q => handle_early k s q
  | CExpectingEncryptedExtensions, ERead (EvHandshake (MEncryptedExtensions x) orig) => cof_res s (handle_ee k w s x orig)
  | CExpectingEncryptedExtensions, EEarlyAppWrite q => handle_early k s q
  | CExpectingCertificate, ERead (EvHandshake (MCertificateRequest m) orig) => cof_res s (handle_cert_request k s m orig)
  | CExpectingCertificate, ERead (EvHandshake (MCertificate m) orig) => cof_res s (handle_cert_msg k w s m None orig)
  | CExpectingCertificate, ERead (EvHandshake (MCompressedCertificate m) orig) => cof_res s (handle_compressed_cert k w s m orig)
  | CExpectingCertificate, EEarlyAppWrite q => ignore_early s q
  | CExpectingCertificateVerify, ERead (EvHandshake (MCertificateVerify m) orig) => cof_res s (handle_cert_verify k s m orig)
  | CExpectingCertificateVerify, EEarlyAppWrite q => ignore_early s q
  | CExpectingFinished, ERead (EvHandshake (MFinished vd) orig) => chandle_finished k s vd orig
  | CExpectingFinished, EEarlyAppWrite q => handle_early k s q
  | CEstablished, EEarlyAppWrite q => handle_late_early s q
  | CEstablished, ERead (EvHandshake (MNewSessionTicket m) _) => cof_res s (handle_ticket k w s m)
  | CEstablished, ERead (EvAppData d) => CHOk s [KDeliver d]
  | CEstablished, EAppWrite q => chandle_app_write s q
  | CEstablished, EKeyUpdate req => chandle_ku_init k s req
  | CEstablished, ERead (EvHandshake (MKeyUpdate req) _) => chandle_ku k s req
  | CEstablished, ERead (EvClose post) => chandle_close s post true
  | CWriteSideClosed, ERead (EvAppData d) => CHOk s [KDeliver d]
  | CWriteSideClosed, ERead (EvClose post) => chandle_close s post false
  | _, _ => invalid
  end.
(** processEvent :313-340 *)
Definition cfinish (r : chres) : cstate * list cout :=
  match r with
  | CHOk s l => (s, l)
  | CHSilent s => chandle_error s None
  | CHErr s (EStatus (Some a)) => chandle_error s (Some a)
  | CHErr s (EStatus None) | CHErr s EThrow => chandle_error s (Some al_unexpected_message)
  | CHErr s _ => (cu_state s CCrash, [])
  end.
Definition cprocess_event (k : cenv) (w : cworld) (s : cstate) (ev : cevent) : cstate * list cout := cfinish (chandle k w s ev).
(** processSocketData :195-249 on the bytes queued; returns the bytes left *)
Definition cprocess_socket (k : cenv) (w : cworld) (s : cstate) (b : bytes) : cstate * list cout * bytes :=
  match c_read s with
  | None => let '(s', l) := chandle_error s None in (s', l, b)
  | Some r =>
      match read_event r b with
      | RNeed r' b' hint => (cu_read s (Some r'), [KWait hint], b')
      | RMsg r' b' ev => let '(s', l) := cprocess_event k w (cu_read s (Some r')) (ERead ev) in (s', l, b')
      | RErr (EStatus (Some a)) => let '(s', l) := chandle_error s (Some a) in (s', l, b)
      | RErr (EStatus None) | RErr EThrow => let '(s', l) := chandle_error s (Some al_decode_error) in (s', l, b)
      | RErr _ => (cu_state s CCrash, [], b)
      end
  end.
(** processAppClose :272-286 with handleAppClose :395-417, processAppCloseImmediate :288-302 with :376-393: a failed write is an
    error with decode_error (or its alert); an exception escapes to the caller and leaves the state as it is, which is not
    distinguished here because the record layers do not throw *)
Definition cclose_failed (s : cstate) (wl' : wlayer) (e : err) : cstate * list cout :=
  match e with
  | ECheck | EUB | EFuel => (cu_state s CCrash, [])
  | EStatus (Some a) => chandle_error (cu_write s (Some wl')) (Some a)
  | _ => chandle_error (cu_write s (Some wl')) (Some al_decode_error)
  end.
Definition capp_close (s : cstate) : cstate * list cout :=
  match c_write s with
  | Some wl =>
      let '(wl', r) := wl_write wl 21 [alert_bytes 0] in
      match r with
      | Ok ct => (cu_state (cu_write s None) CWriteSideClosed, [KWrite [ct]])
      | Err e => cclose_failed s wl' e
      end
  | None => (cu_state (cu_layers s None None) CClosed, [])
  end.
Definition capp_close_immediate (s : cstate) : cstate * list cout :=
  match c_write s with
  | Some wl =>
      let '(wl', r) := wl_write wl 21 [alert_bytes 0] in
      match r with
      | Ok ct => (cu_state (cu_layers s None None) CClosed, [KWrite [ct]])
      | Err e => cclose_failed s wl' e
      end
  | None => (cu_state (cu_layers s None None) CClosed, [])
  end.

(** ** Executions *)
Inductive cinput := JConnect (cn : conn) | JSocket (b : bytes) | JNewTicket | JAppWrite (q : queue) | JEarlyAppWrite (q : queue)
  | JAppClose | JAppCloseImmediate | JKeyUpdate (req : N).
(** ClientStateMachine's public entry points :176-309 *)
Definition cstep (k : cenv) (w : cworld) (s : cstate) (i : cinput) : cstate * list cout :=
  match c_state s with
  | CCrash => (s, [])
  | _ =>
      match i with
      | JConnect cn => cprocess_event k w s (EConnect cn)
      | JSocket b => fst (cprocess_socket k w s b)
      | JNewTicket => cprocess_event k w s ENewTicket
      | JAppWrite q => cprocess_event k w s (EAppWrite q)
      | JEarlyAppWrite q => cprocess_event k w s (EEarlyAppWrite q)
      | JAppClose => capp_close s
      | JAppCloseImmediate => capp_close_immediate s
      | JKeyUpdate req => cprocess_event k w s (EKeyUpdate req)
      end
  end.
Fixpoint crun (k : cenv) (s : cstate) (l : list (cworld * cinput)) : cstate * list cout :=
  match l with
  | [] => (s, [])
  | (w, i) :: r => let '(s1, o1) := cstep k w s i in let '(s2, o2) := crun k s1 r in (s2, o1 ++ o2)
  end.
