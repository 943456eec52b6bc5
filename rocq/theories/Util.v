(** * util/FizzUtil.{h,cpp}; extensions/clientpadding; DelegatedCredentialClientCertManager.cpp

    Not modelled of FizzUtil: reading files, passwords and PEM (the PEM reader is a parameter). *)
From Verif Require Import Base Codec Hkdf Record Token HexLog KexObj Handshake Extensions DualTicket Str.
Open Scope N_scope.

(** ** getAlpnsFromNpnList, FizzUtil.cpp:208-219: maxWeight is never updated *)
Record npnItem := mkNpn { np_weight : Z; np_protocols : list bytes }.
Definition getAlpnsFromNpnList (l : list npnItem) : res (list bytes) :=
  match l with
  | [] => Err ECheck
  | x :: _ => Ok (np_protocols (fold_left (fun best i => if (np_weight x <? np_weight i)%Z then i else best) l x))
  end.

(** ** Ticket and token ciphers, FizzUtil.h:92-154 *)
(** compileSecrets :139-154 *)
Definition compileSecrets (old : list bytes) (current : bytes) (new : list bytes) : list bytes :=
  (match current with [] => [] | _ => [current] end) ++ old ++ new.
(** AeadTicketCipher's constructors, AeadTicketCipher.h:37-54, with TicketCodec.h:43's Label; what setTicketSecrets returns is dropped (FizzUtil.h:109-110) *)
Definition codecLabel : bytes := str "Fizz Ticket Codec v2".
Definition contexts (first : bytes) (pskContext : option bytes) : list bytes := first :: match pskContext with Some c => [c] | None => [] end.
Definition createTokenCipher (h : hashalg) (old : list bytes) (current : bytes) (new : list bytes) (pskContext : option bytes) (codecContext : bytes) : res token :=
  '(t, _) <- setSecrets h (mkToken [] (contexts codecContext pskContext)) (compileSecrets old current new) ;; Ok t.
(** The token cipher inside createTicketCipher's result; its policy is (ticketValidity, handshakeValidity) *)
Definition createTicketCipher (h : hashalg) (old : list bytes) (current : bytes) (new : list bytes) (pskContext : option bytes) : res token :=
  createTokenCipher h old current new pskContext codecLabel.

(** ** createKeyExchangeFromBuf, FizzUtil.cpp:157-206.  [pem]: decryptPrivateKey without a password.  folly::unhexlify throws where fizz's fails; the null
    pointer is [Ok None]. *)
Definition kem_p256 : N := 16.  Definition kem_p384 : N := 17.  Definition kem_p521 : N := 18.  Definition kem_x25519 : N := 32.
Definition ecFromBuf (L : klibs) (pem : bytes -> option N) (c : curve) (b : bytes) : res (option kobj) :=
  match pem b with
  | None => fail
  | Some n => let '(k, r) := setEcKey L (KEc c None) n in _ <- r ;; Ok (Some k)
  end.
Definition createKeyExchangeFromBuf (L : klibs) (pem : bytes -> option N) (kem : N) (b : bytes) : res (option kobj) :=
  if kem =? kem_p256 then ecFromBuf L pem P256 b
  else if kem =? kem_p384 then ecFromBuf L pem P384 b
  else if kem =? kem_p521 then ecFromBuf L pem P521 b
  else if kem =? kem_x25519 then
    match unhexlify b with
    | Err _ => Err EThrow
    | Ok s => let '(k, r) := setXKey L (KX None) (Some s) in _ <- r ;; Ok (Some k)
    end
  else Ok None.
(** generateKeypairCurve25519 :225-254: (public, private), of the drawn (private, public) *)
Definition generateKeypairCurve25519 (drawn : option (bytes * bytes)) : res (bytes * bytes) :=
  match drawn with Some (s, p) => Ok (hexlify p, hexlify s) | None => fail end.

(** ** encodeExtension(Padding), clientpadding/Types.cpp:13-30, for PaddingClientExtension.cpp:18-28; total_bytes is 16 bits *)
Definition paddingExtension (total : N) : Extension := mkExt 21 (Some (repeat x00 (N.to_nat (if total <? 2 + 2 then 0 else total - (2 + 2))))).

(** ** DelegatedCredentialClientCertManager: dcMgr_ and its own certificates.  getCert .cpp:15-43 *)
Record dcclient := mkDcc { dcc_creds : certmap; dcc_plain : certmap }.
Definition dccGetCert (m : dcclient) (supported peer : list N) (peerExts : list Extension) : res (option (scert * N)) :=
  x <- getExtension KDelegatedCredentialSupport peerExts ;;
  Ok (match x with
      | Some (XDelegatedCredentialSupport l) =>
          match clientGetCert (dcc_creds m) supported l with Some r => Some r | None => clientGetCert (dcc_plain m) supported peer end
      | _ => clientGetCert (dcc_plain m) supported peer
      end).
(** addCert, addCertAndOverride (CertManager), addDelegatedCredential, addDelegatedCredentialAndOverride :45-55; hasDelegatedCredential :57-59 *)
Inductive dccop := DccAdd (over : bool) (c : option scert) | DccAddDc (over : bool) (c : option scert).
Definition dccStep (m : dcclient) (o : dccop) : dcclient :=
  match o with DccAdd b c => mkDcc (dcc_creds m) (addCert b c (dcc_plain m)) | DccAddDc b c => mkDcc (addCert b c (dcc_creds m)) (dcc_plain m) end.
Definition dccHas (m : dcclient) : bool := hasCerts (dcc_creds m).
