(** * Certificates and signatures over OpenSSL: backend/openssl/crypto/signature/Signature.{h,cpp}, Signature-inl.h, crypto/OpenSSLKeyUtils.cpp: validate*,
    certificate/CertUtils.{cpp,h}, CertUtils-inl.h, OpenSSLPeerCertImpl-inl.h, OpenSSLSelfCertImpl-inl.h

    OpenSSL is a parameter.  The calls that make one signature (init, padding, salt, update, final) are one outcome of the library, as are those of one check; a failed
    allocation is one of its failures.  Reference counts, the DER length call of i2d and passwords are not modelled. *)
From Verif Require Import Base Codec Handshake Transcript Ticket Server CertCompress.
Open Scope N_scope.

(** KeyType, Signature.h:19 *)
Inductive KeyType := RSA | P256 | P384 | P521 | ED25519.
(** EVP_PKEY_id; the curve of an EC key by name: EC_GROUP_get_curve_name is 0 for explicit parameters *)
Inductive curve := C256 | C384 | C521.
Inductive pkid := PRSA | PEC | PEd25519 | PEd448 | POther.
Inductive cname := Named (c : curve) | OtherName.
(** The algorithm OpenSSL is asked for: hash (EVP_get_digestbynid), padding *)
Inductive digest := SHA256 | SHA384 | SHA512.
Inductive sigalg := EcDsa (d : digest) | Pss (d : digest) (* salt as long as the digest *) | EdDsa.
(** A key: its id, the name of its curve, EC_KEY_check_key, EC_GROUP_cmp with a named curve, making ([None]: a failure) and checking signatures *)
Record evp := mkEvp {
  e_id : pkid; e_name : cname; e_check : bool; e_same : curve -> bool;
  e_sign : sigalg -> bytes -> option bytes; e_verify : sigalg -> bytes -> bytes -> bool }.
(** An X509: i2d_X509 ([None]: a failure), X509_get_pubkey, common name, subject *)
Record x509 := mkX509 { x_der : option bytes; x_pubkey : option evp; x_cn : option bytes; x_subject : option bytes }.
(** d2i_X509: the certificate and the bytes not read; X509_check_private_key; readCertsFromBuffer (which throws on text that is not PEM certificates: [None]);
    PEM_read_bio_PrivateKey; the compression libraries *)
Record lib := mkLib {
  l_d2i : bytes -> option (x509 * bytes); l_match : x509 -> evp -> bool;
  l_pemCerts : bytes -> option (list x509); l_pemKey : bytes -> option bytes -> option evp; l_comp : clib }.

(** ** Signatures *)
(** SigAlg, Signature-inl.h:59-84, and the choice of sign and verify :86-161 *)
Definition sig_alg (t : KeyType) : sigalg :=
  match t with RSA => Pss SHA256 | P256 => EcDsa SHA256 | P384 => EcDsa SHA384 | P521 => EcDsa SHA512 | ED25519 => EdDsa end.
(** validateECKey, OpenSSLKeyUtils.cpp:26-46; EVP_PKEY_get1_EC_KEY is null unless the key is of an elliptic curve *)
Definition validateECKey (k : evp) (c : curve) : res unit :=
  match e_id k with
  | PEC => if negb (e_check k) then fail else if negb (e_same k c) then fail else Ok tt
  | _ => fail
  end.
(** validateEdKey :48-60 *)
Definition validateEdKey (k : evp) : res unit := match e_id k with PEd25519 => Ok tt | PEd448 => fail | _ => fail end.
(** OpenSSLSignature<T>::setKey, Signature-inl.h:163-208 *)
Definition setKey (t : KeyType) (k : evp) : res evp :=
  _ <- match t with
       | P256 => validateECKey k C256 | P384 => validateECKey k C384 | P521 => validateECKey k C521
       | ED25519 => validateEdKey k
       | RSA => match e_id k with PRSA => Ok tt | _ => fail end
       end ;; Ok k.
(** ecSign, edSign, rsaPssSign, Signature.cpp:30-61, 92-124, 156-196; ecVerify, edVerify, rsaPssVerify :63-90, 126-154, 198-238 *)
Definition sign (t : KeyType) (k : evp) (data : bytes) : res bytes := match e_sign k (sig_alg t) data with Some s => Ok s | None => fail end.
Definition verify (t : KeyType) (k : evp) (data sg : bytes) : res unit := if e_verify k (sig_alg t) data sg then Ok tt else fail.

(** ** CertUtils *)
(** getSigSchemes<T>, CertUtils-inl.h:16-40 *)
Definition scheme (t : KeyType) : N := match t with P256 => 0x0403 | P384 => 0x0503 | P521 => 0x0603 | RSA => 0x0804 | ED25519 => 0x0807 end.
(** getKeyType, CertUtils.cpp:230-256, with getCurveName :17-24 *)
Definition getKeyType (k : evp) : res KeyType :=
  match e_id k with
  | PRSA => Ok RSA
  | PEC => match e_name k with Named C256 => Ok P256 | Named C384 => Ok P384 | Named C521 => Ok P521 | OtherName => fail end
  | PEd25519 => Ok ED25519
  | _ => fail
  end.
(** CertUtils::verify<T>, CertUtils-inl.h:42-132 *)
Definition certVerify (t : KeyType) (k : evp) (s : N) (c : cvctx) (tbs sg : bytes) : res unit :=
  let data := prepareSignData c tbs in if s =? scheme t then verify t k data sg else fail.
(** getIdentityFromX509, CertUtils.cpp:32-39, value_or("") *)
Definition identity (x : x509) : bytes := match x_cn x with Some n => n | None => match x_subject x with Some n => n | None => [] end end.
(** OpenSSLPeerCertImpl<T> with its create, OpenSSLPeerCertImpl-inl.h:22-42 *)
Record peer := mkOPeer { op_type : KeyType; op_key : evp; op_x509 : x509 }.
Definition peerCreate (t : KeyType) (x : x509) : res peer :=
  match x_pubkey x with None => fail | Some k => k' <- setKey t k ;; Ok (mkOPeer t k' x) end.
(** makePeerCert, CertUtils.cpp:97-151: the key's id and curve choose T *)
Definition makePeerX (x : x509) : res peer :=
  match x_pubkey x with
  | None => fail
  | Some k =>
      match e_id k with
      | PRSA => peerCreate RSA x
      | PEC => match e_name k with Named C256 => peerCreate P256 x | Named C384 => peerCreate P384 x | Named C521 => peerCreate P521 x | OtherName => fail end
      | PEd25519 => peerCreate ED25519 x
      | _ => fail
      end
  end.
(** makePeerCert :73-95: what is left after the certificate is only logged; a null buffer is dereferenced *)
Definition makePeerRange (L : lib) (d : bytes) : res peer :=
  match d with [] => fail | _ => match l_d2i L d with None => fail | Some (x, _) => makePeerX x end end.
Definition makePeerBuf (L : lib) (d : buf) : res peer := match d with None => Err EUB | Some d => makePeerRange L d end.
(** As the state machines see it *)
Definition peer_cert (p : peer) : peercert := mkPeer (mkCertObj (identity (op_x509 p)) (x_der (op_x509 p))) (certVerify (op_type p) (op_key p)).
(** OpenSSLSelfCertImpl<T>: the chain, the private key, the compressed messages *)
Record self := mkSelf { os_type : KeyType; os_key : evp; os_chain : list x509; os_compressed : list (N * CompressedCertificate) }.
(** create, OpenSSLSelfCertImpl-inl.h:33-62 *)
Definition selfCreate (L : lib) (t : KeyType) (certs : list x509) (key : evp) (cs : list compressor) : res self :=
  match certs with
  | [] => fail
  | c :: _ => if negb (l_match L c key) then fail else
      m <- compressAll (l_comp L) cs (map x_der certs) [] ;; k <- setKey t key ;; Ok (mkSelf t k certs m)
  end.
(** makeSelfCert of certificates, CertUtils.cpp:283-341: front() of an empty vector *)
Definition makeSelf (L : lib) (certs : list x509) (key : evp) (cs : list compressor) : res self :=
  match certs with
  | [] => Err EUB
  | c :: _ => match x_pubkey c with None => fail | Some k => t <- getKeyType k ;; selfCreate L t certs key cs end
  end.
(** makeSelfCert of text :178-228, readPrivateKeyFromBuffer :153-176; a password is the null pointer or a text *)
Definition makeSelfText (L : lib) (certData keyData : bytes) (password : option bytes) (cs : list compressor) : res self :=
  match l_pemCerts L certData with
  | None => Err EThrow
  | Some [] => fail
  | Some certs => match l_pemKey L keyData password with None => fail | Some k => makeSelf L certs k cs end
  end.
(** getSigSchemes, sign, getCertMessage, getIdentity, OpenSSLSelfCertImpl-inl.h:64-180 *)
Definition selfSchemes (s : self) : list N := [scheme (os_type s)].
Definition selfSign (s : self) (sc : N) (c : cvctx) (tbs : bytes) : res bytes :=
  let data := prepareSignData c tbs in if sc =? scheme (os_type s) then sign (os_type s) (os_key s) data else fail.
Definition selfMessage (s : self) (context : buf) : res CertificateMsg := getCertMessage (map x_der (os_chain s)) context.
(** Serializer, CertUtils.cpp:381-403, of an OpenSSL certificate; a failed derEncode throws *)
Definition serialize (x : x509) : res bytes := match x_der x with Some d => Ok d | None => Err EThrow end.
Definition deserialize (L : lib) (d : bytes) : res peer := makePeerRange L d.
