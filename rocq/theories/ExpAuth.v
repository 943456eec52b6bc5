(** * Exported keying material (protocol/Exporter.cpp) and exported authenticators (extensions/exportedauth/ExportedAuthenticator.cpp)

    The hash function of the negotiated cipher suite, makePeerCert and the SelfCert object are parameters.  Backend failures of the
    hash functions are not modelled (as in Hkdf.v). *)
From Verif Require Import Base Codec Str Hkdf Handshake Extensions ReadEvent Transcript IOBufUtil Server Client.
Open Scope N_scope.

(** Exporter::getExportedKeyingMaterial, Exporter.cpp:14-54: a null context is the empty one; [length] is a uint16_t *)
Definition exported (h : hashalg) (master label : bytes) (context : buf) (length : N) : res bytes :=
  let ctx := match context with Some c => c | None => [] end in
  secret <- deriveSecret h master label (h_blank h) (h_len h) ;;
  expandLabel h secret (str "exporter") (Some (h_fn h ctx)) length.
(** The transport of an authenticator: cipher's hash function, exporter master secret (either absent before the handshake is far enough),
    getSupportedSigSchemes().  FizzBase::getExportedKeyingMaterial, FizzBase-inl.h:210-234: null if either is absent. *)
Record transport := mkTransport { tr_hash : option hashalg; tr_master : option bytes; tr_schemes : list N }.
Definition tr_export (t : transport) (label : bytes) (context : buf) (length : N) : res buf :=
  match tr_hash t, tr_master t with
  | Some h, Some m => b <- exported h m label context length ;; Ok (Some b)
  | _, _ => Ok None
  end.

(** FizzBase::getExportedKeyingMaterial on a server and on a client; an Error of the factory is reported *)
Definition server_export (e : env) (s : sstate) (label : bytes) (context : buf) (length : N) : res buf :=
  match s_cipher s, s_exporter s with
  | Some c, Some m => h <- e_hash e c ;; b <- exported h m label context length ;; Ok (Some b)
  | _, _ => Ok None
  end.
Definition client_export (k : cenv) (s : cstate) (label : bytes) (context : buf) (length : N) : res buf :=
  match g_cipher (c_neg s), c_exporter s with
  | Some c, Some m => h <- k_hash k c ;; b <- exported h m label context length ;; Ok (Some b)
  | _, _ => Ok None
  end.
(** FizzServer::getEarlyEkm, FizzServer-inl.h:50-73 *)
Definition server_early_export (e : env) (s : sstate) (label : bytes) (context : buf) (length : N) : res bytes :=
  match s_earlyExporter s with
  | None => Err EThrow
  | Some m => match s_cipher s with Some c => h <- e_hash e c ;; exported h m label context length | None => Err EThrow end
  end.

(** getAuthenticatorRequest :19-35: the body of a CertificateRequest, without handshake header *)
Definition getAuthenticatorRequest (context : buf) (exts : list Extension) : res bytes :=
  match context with
  | None | Some [] => failA al_illegal_parameter
  | Some _ => encode_cr (mkCR context exts)
  end.
(** detail::decodeAuthRequest :339-357: decode from a cursor, so bytes after the request are ignored *)
Definition decodeAuthRequest (req : buf) : res (buf * list Extension) :=
  match req with
  | None | Some [] => Ok (Some [], [])
  | Some b => '(m, _) <- decode_cr b ;; Ok (cr_context m, cr_extensions m)
  end.
(** detail::writeBuf :378-387: null writes nothing *)
Definition nb (b : buf) : bytes := match b with Some x => x | None => [] end.
(** detail::computeTranscript :389-400, computeFinishedTranscript :402-409 *)
Definition computeTranscript (hc req : buf) (cert : bytes) : bytes := nb hc ++ nb req ++ cert.
(** detail::getFinishedData :411-430 (the caller hashes, computeTranscriptHash :359-376) *)
Definition authFinished (h : hashalg) (fk : buf) (thash : bytes) : res bytes :=
  match fk with Some key => hmac h key [thash] (h_len h) | None => Err EUB end.
(** detail::getRequestedSchemes :432-450 *)
Definition getRequestedSchemes (exts : list Extension) : res (option (list N)) :=
  match exts with
  | [] => Ok None
  | _ => x <- getExtension KSignatureAlgorithms exts ;;
      Ok (match x with Some (XSignatureAlgorithms l) => Some l | _ => None end)
  end.
(** detail::getSignatureScheme :452-488 *)
Definition getSignatureScheme (supported certSchemes : list N) (exts : list Extension) : res (option N) :=
  r <- getRequestedSchemes exts ;;
  let both := match r with Some l => find (fun s => existsb (N.eqb s) certSchemes && existsb (N.eqb s) l) supported | None => None end in
  Ok (match both with Some s => Some s | None => find (fun s => existsb (N.eqb s) certSchemes) supported end).
(** detail::getEmptyAuthenticator :490-522 *)
Definition getEmptyAuthenticator (h : hashalg) (req hc fk : buf) : res bytes :=
  '(ctx, _) <- decodeAuthRequest req ;;
  c <- encodeHandshake (MCertificate (mkCert ctx [])) ;;
  fin <- authFinished h fk (h_fn h (computeTranscript hc req c)) ;;
  encodeHandshake (MFinished (Some fin)).

(** A SelfCert as used here: getSigSchemes, getCertMessage(context), sign *)
Record authcert := mkAuthCert { ac_schemes : list N; ac_message : buf -> res CertificateMsg; ac_sign : N -> cvctx -> bytes -> res bytes }.
(** makeAuthenticator :140-215 *)
Definition makeAuthenticator (h : hashalg) (supported : list N) (cert : authcert) (req hc fk : buf) (context : cvctx) : res bytes :=
  '(ctx, exts) <- decodeAuthRequest req ;;
  scheme <- getSignatureScheme supported (ac_schemes cert) exts ;;
  match scheme with
  | None => getEmptyAuthenticator h req hc fk
  | Some s =>
      c <- ac_message cert ctx ;;
      ec <- encodeHandshake (MCertificate c) ;;
      let transcript := computeTranscript hc req ec in
      sg <- ac_sign cert s context (h_fn h transcript) ;;
      ev <- encodeHandshake (MCertificateVerify (mkCV s (Some sg))) ;;
      fin <- authFinished h fk (h_fn h (transcript ++ ev)) ;;
      ef <- encodeHandshake (MFinished (Some fin)) ;;
      Ok (ec ++ ev ++ ef)
  end.

(** validate :217-335.  PeerCert::verify failing, with a Status or a std::runtime_error, means "not valid"; [peer] is
    openssl::CertUtils::makePeerCert on the bytes of the first certificate. *)
Definition validate (h : hashalg) (peer : bytes -> res peercert) (req authenticator hc fk : buf) (context : cvctx) : res (option (list CertificateEntry)) :=
  match authenticator with
  | None => Err EUB
  | Some a =>
    m1 <- decode_hs a ;;
    match m1 with
    | None => Ok None
    | Some (MFinished _, _, _) =>
        e <- getEmptyAuthenticator h req hc fk ;;
        Ok (if crypto_equal e a then Some [] else None)
    | Some (p1, _, r1) =>
        m2 <- decode_hs r1 ;;
        match m2 with
        | None => Ok None
        | Some (p2, _, r2) =>
            m3 <- decode_hs r2 ;;
            match m3 with
            | None => Ok None
            | Some (p3, _, _) =>
                match p1, p2, p3 with
                | MCertificate c, MCertificateVerify v, MFinished f =>
                    match cm_list c with
                    | [] => Ok None
                    | leaf :: _ =>
                        p <- peer (nb (ce_data leaf)) ;;
                        ec <- encodeHandshake (MCertificate c) ;;
                        let transcript := computeTranscript hc req ec in
                        match cv_signature v with
                        | None => Err EUB
                        | Some sg =>
                            match pc_verify p (cv_algorithm v) context (h_fn h transcript) sg with
                            | Err ECheck => Err ECheck | Err EUB => Err EUB | Err EFuel => Err EFuel
                            | Err (EStatus _) | Err EThrow => Ok None
                            | Ok _ =>
                                ev <- encodeHandshake (MCertificateVerify v) ;;
                                fin <- authFinished h fk (h_fn h (transcript ++ ev)) ;;
                                match f with
                                | None => Err EUB
                                | Some got => Ok (if crypto_equal got fin then Some (cm_list c) else None)
                                end
                            end
                        end
                    end
                | _, _, _ => Ok None
                end
            end
        end
    end
  end.

(** Directions (ExportedAuthenticator.h:21-24) and the labels of getAuthenticator :37-79 and validateAuthenticator :98-138;
    getCipher() of a transport without cipher is dereferenced (folly::Optional throws) *)
Inductive direction := Upstream | Downstream.
Definition hc_label (client : bool) : bytes :=
  if client then str "EXPORTER-client authenticator handshake context" else str "EXPORTER-server authenticator handshake context".
Definition fk_label (client : bool) : bytes :=
  if client then str "EXPORTER-client authenticator finished key" else str "EXPORTER-server authenticator finished key".
Definition getAuthenticator (t : transport) (d : direction) (cert : authcert) (req : buf) : res bytes :=
  match tr_hash t with
  | None => Err EThrow
  | Some h =>
      let client := match d with Upstream => true | Downstream => false end in
      hc <- tr_export t (hc_label client) None (h_len h) ;;
      fk <- tr_export t (fk_label client) None (h_len h) ;;
      makeAuthenticator h (tr_schemes t) cert req hc fk CvAuthenticator
  end.
Definition validateAuthenticator (t : transport) (peer : bytes -> res peercert) (d : direction) (req authenticator : buf) : res (option (list CertificateEntry)) :=
  match tr_hash t with
  | None => Err EThrow
  | Some h =>
      let client := match d with Upstream => false | Downstream => true end in
      hc <- tr_export t (hc_label client) None (h_len h) ;;
      fk <- tr_export t (fk_label client) None (h_len h) ;;
      validate h peer req authenticator hc fk CvAuthenticator
  end.
(** getAuthenticatorContext :81-96: an incomplete message leaves the Optional empty, and reading it throws *)
Definition getAuthenticatorContext (authenticator : bytes) : res buf :=
  m <- decode_hs authenticator ;;
  match m with
  | None => Err EThrow
  | Some (MCertificate c, _, _) => Ok (cm_context c)
  | Some _ => fail
  end.
