(** * OpenSSL's certificate verifier (backend/openssl/certificate/OpenSSLCertificateVerifier.cpp)

    OpenSSL is a parameter: what its store contains, whether its steps succeed, and what X509_verify_cert answers.  An X509 is its DER encoding; a certificate
    store is the list of its objects and a name for everything else in it (parameters, lookup methods). *)
From Verif Require Import Base Codec Handshake Extensions Ticket Server.
Open Scope N_scope.

(** VerificationContext, CertificateVerifier.h:23 *)
Inductive vcontext := VcClient | VcServer.
(** The codes of X509_STORE_CTX_get_error (openssl/x509_vfy.h) that are named *)
Inductive vcode := CERT_REVOKED | CERT_NOT_YET_VALID | CERT_HAS_EXPIRED | CERT_CHAIN_TOO_LONG | DEPTH_ZERO_SELF_SIGNED_CERT | PATH_LENGTH_EXCEEDED
  | INVALID_CA | SELF_SIGNED_CERT_IN_CHAIN | UNABLE_TO_GET_ISSUER_CERT | UNABLE_TO_GET_ISSUER_CERT_LOCALLY | V_OTHER (n : N).
(** toTLSAlert :24-49 *)
Definition toTLSAlert (c : vcode) : N :=
  match c with
  | CERT_REVOKED => 44
  | CERT_NOT_YET_VALID | CERT_HAS_EXPIRED => 45
  | CERT_CHAIN_TOO_LONG | DEPTH_ZERO_SELF_SIGNED_CERT | PATH_LENGTH_EXCEEDED | INVALID_CA | SELF_SIGNED_CERT_IN_CHAIN | UNABLE_TO_GET_ISSUER_CERT
  | UNABLE_TO_GET_ISSUER_CERT_LOCALLY => 48
  | V_OTHER _ => al_bad_certificate
  end.
(** An object of a store: a certificate with the DER encoding of its subject name ([None]: i2d_X509_NAME fails), or something else (a CRL) *)
Inductive storeobj := SoCert (subject : option bytes) | SoOther.
Record store := mkStore { st_id : N; st_objects : list storeobj }.
(** The parameters X509_verify_cert works with *)
Record vparams := mkVparams { vp_store : store; vp_purpose : bytes; vp_callback : option N; vp_strict : bool }.
(** The steps before it: sk_X509_new_null, X509_STORE_CTX_new, X509_STORE_CTX_init, X509_STORE_CTX_set_default, X509_VERIFY_PARAM_new, set_flags, set1 *)
Inductive vstep := VStack | VCtx | VInit | VDefault | VParam | VFlags | VSet1.
Record vlib := mkVlib { vl_default : res store; vl_step : vstep -> bool; vl_verify : vparams -> bytes -> list bytes -> option vcode }.
(** A verifier: context_, x509Store_, authorities_, customVerifyCallback_ *)
Record verifier := mkVerifier { v_context : vcontext; v_store : option store; v_authorities : list buf; v_callback : option N }.

(** createAuthorities :230-258.  A name is encoded into a buffer of its length; the two calls give the same length. *)
Fixpoint createAuthorities (l : list storeobj) : res (list buf) :=
  match l with
  | [] => Ok []
  | SoCert None :: _ => fail
  | SoCert (Some n) :: r => a <- createAuthorities r ;; Ok (Some n :: a)
  | SoOther :: r => createAuthorities r
  end.
(** getDefaultX509Store :260-284 is [vl_default]: once set, the same store *)
Definition theStore (L : vlib) (s : option store) : res store := match s with Some s => Ok s | None => vl_default L end.
(** create :51-68 *)
Definition create (L : vlib) (c : vcontext) (s : option store) : res verifier :=
  p <- theStore L s ;; a <- createAuthorities (st_objects p) ;; Ok (mkVerifier c s a None).
(** setX509Store, .h:67-76: the store is replaced before the names are computed *)
Definition setX509Store (L : vlib) (v : verifier) (s : option store) : verifier * res unit :=
  match (p <- theStore L s ;; createAuthorities (st_objects p)) with
  | Ok a => (mkVerifier (v_context v) s a (v_callback v), Ok tt)
  | Err e => (mkVerifier (v_context v) s (v_authorities v) (v_callback v), Err e)
  end.
(** setCustomVerifyCallback, .h:63-65 *)
Definition setCustomVerifyCallback (v : verifier) (cb : option N) : verifier := mkVerifier (v_context v) (v_store v) (v_authorities v) cb.
(** getX509 :112-138: a peer certificate made without OpenSSL has none *)
Definition getX509 (p : peercert) : res bytes := match c_der (pc_cert p) with Some d => Ok d | None => fail end.
Fixpoint getX509s (l : list peercert) : res (list bytes) :=
  match l with [] => Ok [] | p :: r => x <- getX509 p ;; xs <- getX509s r ;; Ok (x :: xs) end.
Definition step (L : vlib) (s : vstep) (e : err) : res unit := if vl_step L s then Ok tt else Err e.
(** verifyWithX509StoreCtx :140-228.  A failed allocation throws std::bad_alloc where the caller makes an exception of it ([EThrow]). *)
Definition verifyWithX509StoreCtx (L : vlib) (v : verifier) (certs : list peercert) : res unit :=
  match certs with
  | [] => fail
  | _ =>
      xs <- getX509s certs ;;
      _ <- step L VStack EThrow ;;
      _ <- step L VCtx EThrow ;;
      p <- theStore L (v_store v) ;;
      _ <- step L VInit (EStatus None) ;;
      _ <- step L VDefault (EStatus None) ;;
      _ <- step L VParam EThrow ;;
      _ <- step L VFlags (EStatus None) ;;
      _ <- step L VSet1 (EStatus None) ;;
      match xs with
      | [] => Err EUB
      | leaf :: chain =>
          let purpose := match v_context v with VcServer => [x73; x73; x6c; x5f; x63; x6c; x69; x65; x6e; x74] | VcClient => [x73; x73; x6c; x5f; x73; x65; x72; x76; x65; x72] end in
          match vl_verify L (mkVparams p purpose (v_callback v) true) leaf chain with
          | None => Ok tt
          | Some c => failA (toTLSAlert c)
          end
      end
  end.
(** verify :101-110: certs.front() *)
Definition verify (L : vlib) (v : verifier) (certs : list peercert) : res (option cert) :=
  _ <- verifyWithX509StoreCtx L v certs ;; match certs with p :: _ => Ok (Some (pc_cert p)) | [] => Err EUB end.
(** getCertificateRequestExtensions :286-295 *)
Definition getCertificateRequestExtensions (v : verifier) : res (list Extension) := x <- encodeExtension (XCertificateAuthorities (v_authorities v)) ;; Ok [x].
