(** * Delegated credentials (extensions/delegatedcred)

    OpenSSL is a parameter: what it parses bytes into, and the raw signature check of a key.  A time is its count of nanoseconds, an int64
    (system_clock, libstdc++); signed overflow is undefined ([EUB]). *)
From Verif Require Import Base Codec Str Handshake Extensions Transcript Ticket Server.
From Verif Require CertManager.
Open Scope N_scope.

(** openssl::KeyType, and CertUtils::getSigSchemes<T>, CertUtils-inl.h:16-40: one scheme each *)
Inductive keytype := KtRSA | KtP256 | KtP384 | KtP521 | KtEd25519.
Definition key_scheme (t : keytype) : N :=
  match t with KtRSA => 2052 | KtP256 => 1027 | KtP384 => 1283 | KtP521 => 1539 | KtEd25519 => 2055 end.
Definition keytype_eqb (a b : keytype) : bool := key_scheme a =? key_scheme b.
(** A public key: its type ([None]: one that CertUtils::getKeyType refuses), whether OpenSSL finds it valid (EC_KEY_check_key), and the check
    of a signature of its scheme. *)
Record pubkey := mkKey { pk_type : option keytype; pk_valid : bool; pk_check : bytes -> bytes -> res unit }.
(** An X509: DER encoding, identity, key, DelegationUsage extension, KeyUsage extension, its digitalSignature bit, notBefore, notAfter *)
Record x509 := mkX509 { x_der : bytes; x_ident : bytes; x_key : option pubkey; x_delegation : bool; x_keyUsage : bool; x_digSig : bool;
  x_notBefore : Z; x_notAfter : Z }.
(** d2i_X509, d2i_PUBKEY *)
Record ossl := mkOssl { o_x509 : bytes -> option x509; o_pubkey : bytes -> option pubkey }.
(** CertUtils::getKeyType, CertUtils.cpp:230-256 *)
Definition getKeyType (k : pubkey) : res keytype := match pk_type k with Some t => Ok t | None => fail end.
(** OpenSSLSignature<T>::setKey, Signature-inl.h: the type must be T and the key valid *)
Definition setKey (t : keytype) (k : pubkey) : res pubkey :=
  match pk_type k with Some t' => if keytype_eqb t t' && pk_valid k then Ok k else fail | None => fail end.
(** CertUtils::verify<T>, CertUtils-inl.h:42-133 *)
Definition verify_key (t : keytype) (k : pubkey) (scheme : N) (c : cvctx) (tbs sg : bytes) : res unit :=
  if scheme =? key_scheme t then pk_check k (prepareSignData c tbs) sg else fail.
(** OpenSSLPeerCertImpl<T>::create, OpenSSLPeerCertImpl-inl.h:28-42 *)
Definition peerKey (t : keytype) (x : x509) : res pubkey := match x_key x with Some k => setKey t k | None => fail end.
Definition x_cert (x : x509) : cert := mkCertObj (x_ident x) (Some (x_der x)).
(** CertUtils::makePeerCert, CertUtils.cpp:73-150 *)
Definition makePeer (x : x509) : res peercert :=
  match x_key x with
  | None => fail
  | Some k => t <- getKeyType k ;; k <- setKey t k ;; Ok (mkPeer (x_cert x) (verify_key t k))
  end.
Definition readPeer (O : ossl) (data : buf) : res x509 :=
  match data with
  | None => Err EUB
  | Some [] => fail
  | Some d => match o_x509 O d with Some x => Ok x | None => fail end
  end.

(** DelegatedCredential, Types.h:17-25 *)
Record cred := mkCred { dc_valid : N; dc_scheme : N; dc_key : buf; dc_credScheme : N; dc_signature : buf }.
(** getExtension<DelegatedCredential>, Types.cpp:17-38, and encodeExtension :60-77 *)
Definition getCredential (l : list Extension) : res (option cred) :=
  x <- getExtension KDelegatedCredential l ;;
  Ok (match x with Some (XDelegatedCredential (v, s, k, cs, sg)) => Some (mkCred v s k cs sg) | _ => None end).
Definition encodeCredential (c : cred) : res Extension :=
  encodeExtension (XDelegatedCredential (dc_valid c, dc_scheme c, dc_key c, dc_credScheme c, dc_signature c)).
(** DelegatedCredentialUtils::checkExtensions, DelegatedCredentialUtils.cpp:16-40 *)
Definition checkExtensions (x : x509) : res unit :=
  if negb (x_delegation x) then failA al_illegal_parameter
  else if negb (x_keyUsage x) then failA al_illegal_parameter
  else if negb (x_digSig x) then failA al_illegal_parameter
  else Ok tt.
(** prepareSignatureBuffer :70-86 *)
Definition prepareCred (c : cred) (der : bytes) : res bytes :=
  a <- write_u 4 (dc_valid c) ;; b <- write_u 2 (dc_scheme c) ;; k <- write_buf W24 (dc_key c) ;; s <- write_u 2 (dc_credScheme c) ;; Ok (der ++ a ++ b ++ k ++ s).
Definition week : Z := (7 * 24 * 3600 * ns_per_s)%Z.
(** getCredentialExpiresTime :193-200 *)
Definition expiresTime (x : x509) (c : cred) : res Z := chk64 (x_notBefore x + Z.of_N (dc_valid c) * ns_per_s)%Z.
(** checkCredentialTimeValidity :202-232 *)
Definition checkTime (now : Z) (x : x509) (c : cred) : res unit :=
  e <- expiresTime x c ;;
  if (e <=? now)%Z then failA 45
  else d <- chk64 (e - now)%Z ;;
    if (week <? d)%Z then failA al_illegal_parameter
    else if (x_notAfter x <=? e)%Z then failA al_illegal_parameter
    else Ok tt.
(** PeerDelegatedCredentialImpl<T>::verify, PeerDelegatedCredential-inl.h:49-109; [pk] is the certificate's key, [k] the credential's *)
Definition dc_ctx (c : cvctx) : cvctx := match c with CvServer => CvServerDC | _ => CvClientDC end.
Definition dcVerify (now : Z) (t : keytype) (x : x509) (pk k : pubkey) (c : cred) (scheme : N) (ctx : cvctx) (tbs sg : bytes) : res unit :=
  if negb (scheme =? dc_scheme c) then failA al_illegal_parameter
  else
    _ <- checkExtensions x ;;
    _ <- checkTime now x c ;;
    b <- prepareCred c (x_der x) ;;
    match dc_signature c with
    | None => Err EUB
    | Some csg =>
        match verify_key t pk (dc_credScheme c) (dc_ctx ctx) b csg with
        | Err ECheck => Err ECheck | Err EUB => Err EUB | Err EFuel => Err EFuel
        | Err (EStatus _) | Err EThrow => failA al_illegal_parameter
        | Ok _ => verify_key t k scheme ctx tbs sg
        end
    end.
(** makeCredential, DelegatedCredentialFactory.cpp:17-107, with PeerDelegatedCredentialImpl<T>::create, PeerDelegatedCredential-inl.h:25-47:
    the template argument is the type of the credential's key *)
Definition makeCredential (O : ossl) (now : Z) (c : cred) (x : x509) : res peercert :=
  match dc_key c with
  | None => Err EUB
  | Some kb =>
      match o_pubkey O kb with
      | None => failA al_illegal_parameter
      | Some k => t <- getKeyType k ;; pk <- peerKey t x ;; k' <- setKey t k ;; Ok (mkPeer (mkCertObj (x_ident x) (Some (x_der x))) (dcVerify now t x pk k' c))
      end
  end.
(** DelegatedCredentialFactory::makePeerCertStatic :110-139.  The clock is read by verify; here [now] is given to the factory. *)
Definition makePeerCert (O : ossl) (now : Z) (e : CertificateEntry) (leaf : bool) : res peercert :=
  if negb leaf || (match ce_extensions e with [] => true | _ => false end) then x <- readPeer O (ce_data e) ;; makePeer x
  else
    x <- readPeer O (ce_data e) ;; parent <- makePeer x ;;
    c <- getCredential (ce_extensions e) ;;
    match c with None => Ok parent | Some c => makeCredential O now c x end.

(** ** Making credentials *)
(** A certificate with its private key: DelegatedCredentialUtils::generateCredential needs its X509, signature schemes, sign, and whether the key
    given matches (X509_check_private_key); of the credential's key its type and its DER encoding (i2d_PUBKEY) *)
Record signer := mkSigner { sn_x509 : x509; sn_schemes : list N; sn_sign : N -> cvctx -> bytes -> res bytes }.
(** generateCredential :88-190 *)
Definition generateCredential (now : Z) (s : signer) (matches : bool) (kt : option keytype) (pub : bytes) (signScheme verifyScheme : N) (ctx : cvctx) (valid : Z) : res cred :=
  match ctx with
  | CvServerDC | CvClientDC =>
      if (604800 <? valid)%Z then fail
      else
        _ <- checkExtensions (sn_x509 s) ;;
        if negb matches then fail
        else match kt with
        | None => fail
        | Some t =>
            if negb (verifyScheme =? key_scheme t) then fail
            else if negb (existsb (N.eqb signScheme) (sn_schemes s)) then fail
            else
              d <- chk64 (valid * ns_per_s)%Z ;; e <- chk64 (now + d)%Z ;; l <- chk64 (e - x_notBefore (sn_x509 s))%Z ;;
              let c0 := mkCred (Z.to_N (cast_s l mod 2 ^ 32)%Z) verifyScheme (Some pub) signScheme None in
              b <- prepareCred c0 (x_der (sn_x509 s)) ;;
              sg <- sn_sign s signScheme ctx b ;;
              Ok (mkCred (dc_valid c0) verifyScheme (Some pub) signScheme (Some sg))
        end
  | _ => fail
  end.
(** SelfDelegatedCredentialImpl<T>::create, SelfDelegatedCredential-inl.h:15-103 (compression aside): certificates, the private key (type, and its
    raw signatures) and the credential; the key is not compared with the credential's *)
Record privkey := mkPriv { pv_type : option keytype; pv_valid : bool; pv_sign : bytes -> res bytes }.
Record selfcred := mkSelfCred { sd_type : keytype; sd_chain : list x509; sd_key : privkey; sd_cred : cred }.
Definition selfCreate (t : keytype) (server : bool) (certs : list x509) (k : privkey) (c : cred) : res selfcred :=
  match certs with
  | [] => fail
  | x :: _ =>
      match pv_type k with
      | None => fail
      | Some t' =>
          if negb (keytype_eqb t t') then fail
          else
            _ <- checkExtensions x ;;
            if negb (pv_valid k) then fail
            else if negb (dc_scheme c =? key_scheme t) then fail
            else
              b <- prepareCred c (x_der x) ;;
              p <- makePeer x ;;
              match dc_signature c with
              | None => Err EUB
              | Some sg => _ <- pc_verify p (dc_credScheme c) (if server then CvServerDC else CvClientDC) b sg ;; Ok (mkSelfCred t certs k c)
              end
      end
  end.
(** getSigSchemes, getCertMessage, sign, :117-151 *)
Definition sdSchemes (s : selfcred) : list N := [dc_scheme (sd_cred s)].
Definition sdMessage (s : selfcred) (context : buf) : res CertificateMsg :=
  match sd_chain s with
  | [] => Err EThrow
  | x :: r => e <- encodeCredential (sd_cred s) ;; Ok (Handshake.mkCert context (mkCE (Some (x_der x)) [e] :: map (fun y => mkCE (Some (x_der y)) []) r))
  end.
Definition sdSign (s : selfcred) (scheme : N) (ctx : cvctx) (tbs : bytes) : res bytes :=
  if scheme =? key_scheme (sd_type s) then pv_sign (sd_key s) (prepareSignData ctx tbs) else fail.

(** ** Choosing *)
(** DelegatedCredentialCertManager::getCert, DelegatedCredentialCertManager.cpp:16-44, and getCert(identity) :47-51 *)
Definition dcGetCert (dc plain : CertManager.cm) (sni : option bytes) (supported peer : list N) (exts : list Extension) :
    res (option (CertManager.selfcert * N * CertManager.matchtype)) :=
  x <- getExtension KDelegatedCredentialSupport exts ;;
  Ok (match x with
      | Some (XDelegatedCredentialSupport l) =>
          match CertManager.getCert dc sni supported l with Some r => Some r | None => CertManager.getCert plain sni supported peer end
      | _ => CertManager.getCert plain sni supported peer
      end).
Definition dcGetIdent (dc plain : CertManager.cm) (ident : bytes) : option CertManager.selfcert :=
  match CertManager.getCertIdent dc ident with Some c => Some c | None => CertManager.getCertIdent plain ident end.
