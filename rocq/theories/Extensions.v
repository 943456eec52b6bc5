(** * Extensions: typed TLS extensions (record/Extensions.h, Extensions-inl.h,
    protocol/ech/ECHExtensions-inl.h, extensions/delegatedcred/Types.cpp,
    extensions/tokenbinding/Types.cpp).

    Element structs are modelled as tuples in declaration order:
    KeyShareEntry = (group, key_exchange); PskIdentity = (psk_identity,
    obfuscated_ticket_age); PskBinder, ProtocolName, DistinguishedName = buffer;
    ServerName = (name_type, hostname); ECHConfig = (version, content). *)
From Verif Require Import Base Codec Handshake.

(** Element codecs: record/Extensions-inl.h:510-704, ech/Types-inl.h. *)
Definition c_key_share : codec (N * buf) := c_pair (c_u 2) (c_buf W16).
Definition c_psk_identity : codec (buf * N) := c_pair (c_buf W16) (c_u 4).
Definition c_psk_binder : codec buf := c_buf W8.
Definition c_protocol_name : codec buf := c_buf W8.
Definition c_server_name : codec (N * buf) := c_pair (c_u 1) (c_buf W16).
Definition c_dn : codec buf := c_buf W16.
Definition c_ech_config : codec (N * buf) := c_pair (c_u 2) (c_buf W16).

(** Field sequences of the multi-field extensions. *)
Definition c_client_psk : codec (list (buf * N) * list buf) :=
  c_pair (c_vec W16 c_psk_identity) (c_vec W16 c_psk_binder).
(** OuterECHClientHello after the type byte: kdf_id, aead_id, config_id, enc,
    payload (ECHExtensions-inl.h:15-34, 101-117). *)
Definition c_ech_outer : codec (N * N * N * buf * buf) :=
  c_pair (c_pair (c_pair (c_pair (c_u 2) (c_u 2)) (c_u 1)) (c_buf W16)) (c_buf W16).
(** DelegatedCredential: valid_time, expected_verify_scheme, public_key,
    credential_scheme, signature (delegatedcred/Types.cpp:17-38, 60-77). *)
Definition c_deleg_cred : codec (N * N * buf * N * buf) :=
  c_pair (c_pair (c_pair (c_pair (c_u 4) (c_u 2)) (c_buf W24)) (c_u 2)) (c_buf W16).
(** TokenBindingParameters: version, key_parameters_list
    (tokenbinding/Types.cpp:108-127, 131-144). *)
Definition c_token_binding : codec (N * list N) := c_pair (c_u 2) (c_vec W8 (c_u 1)).

(** A typed extension value. *)
Inductive tyext : Type :=
| XSignatureAlgorithms (l : list N)
| XSupportedGroups (l : list N)
| XClientKeyShare (l : list (N * buf))
| XServerKeyShare (s : N * buf)
| XHrrKeyShare (g : N)
| XClientPresharedKey (p : list (buf * N) * list buf)
| XServerPresharedKey (i : N)
| XClientEarlyData
| XServerEarlyData
| XTicketEarlyData (n : N)
| XCookie (b : buf)
| XSupportedVersions (l : list N)
| XServerSupportedVersions (v : N)
| XPskKeyExchangeModes (l : list N)
| XProtocolNameList (l : list buf)
| XServerNameList (l : list (N * buf))
| XCertificateAuthorities (l : list buf)
| XCertCompressionAlgs (l : list N)
| XEchOuter (p : N * N * N * buf * buf)
| XEchInner
| XEchEncryptedExtensions (l : list (N * buf))
| XEchOuterExtensions (l : list N)
| XEchHrr (c : bytes)
| XDelegatedCredential (p : N * N * buf * N * buf)
| XDelegatedCredentialSupport (l : list N)
| XTokenBinding (p : N * list N).

(** The template argument of getExtension<T>. *)
Inductive xkind : Type :=
| KSignatureAlgorithms | KSupportedGroups | KClientKeyShare | KServerKeyShare
| KHrrKeyShare | KClientPresharedKey | KServerPresharedKey | KClientEarlyData
| KServerEarlyData | KTicketEarlyData | KCookie | KSupportedVersions
| KServerSupportedVersions | KPskKeyExchangeModes | KProtocolNameList
| KServerNameList | KCertificateAuthorities | KCertCompressionAlgs
| KEchOuter | KEchInner | KEchEncryptedExtensions | KEchOuterExtensions | KEchHrr
| KDelegatedCredential | KDelegatedCredentialSupport | KTokenBinding.

(** T::extension_type (Extensions.h, ECHExtensions.h, Types.h:87-117). *)
Definition kind_type (k : xkind) : N :=
  match k with
  | KServerNameList => 0
  | KSupportedGroups => 10
  | KSignatureAlgorithms => 13
  | KProtocolNameList => 16
  | KTokenBinding => 24
  | KCertCompressionAlgs => 27
  | KDelegatedCredential | KDelegatedCredentialSupport => 34
  | KClientPresharedKey | KServerPresharedKey => 41
  | KClientEarlyData | KServerEarlyData | KTicketEarlyData => 42
  | KSupportedVersions | KServerSupportedVersions => 43
  | KCookie => 44
  | KPskKeyExchangeModes => 45
  | KCertificateAuthorities => 47
  | KClientKeyShare | KServerKeyShare | KHrrKeyShare => 51
  | KEchOuter | KEchInner | KEchEncryptedExtensions | KEchHrr => 65037 (* 0xfe0d *)
  | KEchOuterExtensions => 64768 (* 0xfd00 *)
  end.

Definition kind_of (x : tyext) : xkind :=
  match x with
  | XSignatureAlgorithms _ => KSignatureAlgorithms
  | XSupportedGroups _ => KSupportedGroups
  | XClientKeyShare _ => KClientKeyShare
  | XServerKeyShare _ => KServerKeyShare
  | XHrrKeyShare _ => KHrrKeyShare
  | XClientPresharedKey _ => KClientPresharedKey
  | XServerPresharedKey _ => KServerPresharedKey
  | XClientEarlyData => KClientEarlyData
  | XServerEarlyData => KServerEarlyData
  | XTicketEarlyData _ => KTicketEarlyData
  | XCookie _ => KCookie
  | XSupportedVersions _ => KSupportedVersions
  | XServerSupportedVersions _ => KServerSupportedVersions
  | XPskKeyExchangeModes _ => KPskKeyExchangeModes
  | XProtocolNameList _ => KProtocolNameList
  | XServerNameList _ => KServerNameList
  | XCertificateAuthorities _ => KCertificateAuthorities
  | XCertCompressionAlgs _ => KCertCompressionAlgs
  | XEchOuter _ => KEchOuter
  | XEchInner => KEchInner
  | XEchEncryptedExtensions _ => KEchEncryptedExtensions
  | XEchOuterExtensions _ => KEchOuterExtensions
  | XEchHrr _ => KEchHrr
  | XDelegatedCredential _ => KDelegatedCredential
  | XDelegatedCredentialSupport _ => KDelegatedCredentialSupport
  | XTokenBinding _ => KTokenBinding
  end.

(** The body written by encodeExtension<T> (Extensions-inl.h:240-487,
    ECHExtensions-inl.h:15-99, delegatedcred/Types.cpp:60-92,
    tokenbinding/Types.cpp:131-144). *)
Definition write_ext_body (x : tyext) : res bytes :=
  match x with
  | XSignatureAlgorithms l => write_vec W16 (c_u 2) l
  | XSupportedGroups l => write_vec W16 (c_u 2) l
  | XClientKeyShare l => write_vec W16 c_key_share l
  | XServerKeyShare s => c_wr c_key_share s
  | XHrrKeyShare g => write_u 2 g
  | XClientPresharedKey p => c_wr c_client_psk p
  | XServerPresharedKey i => write_u 2 i
  | XClientEarlyData => Ok []
  | XServerEarlyData => Ok []
  | XTicketEarlyData n => write_u 4 n
  | XCookie b => write_buf W16 b
  | XSupportedVersions l => write_vec W8 (c_u 2) l
  | XServerSupportedVersions v => write_u 2 v
  | XPskKeyExchangeModes l => write_vec W8 (c_u 1) l
  | XProtocolNameList l => write_vec W16 c_protocol_name l
  | XServerNameList l => write_vec W16 c_server_name l
  | XCertificateAuthorities l => write_vec W16 c_dn l
  | XCertCompressionAlgs l => write_vec W8 (c_u 2) l
  | XEchOuter p => t <- write_u 1 0 ;; b <- c_wr c_ech_outer p ;; Ok (t ++ b)
  | XEchInner => write_u 1 1
  | XEchEncryptedExtensions l => write_vec W16 c_ech_config l
  | XEchOuterExtensions l => write_vec W8 (c_u 2) l
  | XEchHrr c => Ok c
  | XDelegatedCredential p => c_wr c_deleg_cred p
  | XDelegatedCredentialSupport l => write_vec W16 (c_u 2) l
  | XTokenBinding p => c_wr c_token_binding p
  end.

(** encodeExtension<T> *)
Definition encodeExtension (x : tyext) : res Extension :=
  b <- write_ext_body x ;; Ok (mkExt (kind_type (kind_of x)) (Some b)).

Definition drop_len {A} (r : res (A * N * bytes)) : res (A * bytes) :=
  '(a, _, rest) <- r ;; Ok (a, rest).

(** getExtension<T>(ret, err, cursor): Extensions-inl.h:47-238,
    ECHExtensions-inl.h:101-168 and the bodies of the three specialisations of
    getExtension(Optional<T>&, ...) in delegatedcred and tokenbinding. *)
Definition read_ext_body (k : xkind) (inp : bytes) : res (tyext * bytes) :=
  match k with
  | KSignatureAlgorithms =>
      '(l, r) <- drop_len (read_vec W16 (c_u 2) inp) ;; Ok (XSignatureAlgorithms l, r)
  | KSupportedGroups =>
      '(l, r) <- drop_len (read_vec W16 (c_u 2) inp) ;; Ok (XSupportedGroups l, r)
  | KClientKeyShare =>
      '(l, r) <- drop_len (read_vec W16 c_key_share inp) ;; Ok (XClientKeyShare l, r)
  | KServerKeyShare =>
      '(s, r) <- drop_len (c_rd c_key_share inp) ;; Ok (XServerKeyShare s, r)
  | KHrrKeyShare =>
      '(g, r) <- drop_len (read_u 2 inp) ;; Ok (XHrrKeyShare g, r)
  | KClientPresharedKey =>
      '(p, r) <- drop_len (c_rd c_client_psk inp) ;; Ok (XClientPresharedKey p, r)
  | KServerPresharedKey =>
      '(i, r) <- drop_len (read_u 2 inp) ;; Ok (XServerPresharedKey i, r)
  | KClientEarlyData => Ok (XClientEarlyData, inp)
  | KServerEarlyData => Ok (XServerEarlyData, inp)
  | KTicketEarlyData =>
      '(n, r) <- drop_len (read_u 4 inp) ;; Ok (XTicketEarlyData n, r)
  | KCookie =>
      '(b, r) <- drop_len (read_buf W16 inp) ;; Ok (XCookie b, r)
  | KSupportedVersions =>
      '(l, r) <- drop_len (read_vec W8 (c_u 2) inp) ;; Ok (XSupportedVersions l, r)
  | KServerSupportedVersions =>
      '(v, r) <- drop_len (read_u 2 inp) ;; Ok (XServerSupportedVersions v, r)
  | KPskKeyExchangeModes =>
      '(l, r) <- drop_len (read_vec W8 (c_u 1) inp) ;; Ok (XPskKeyExchangeModes l, r)
  | KProtocolNameList =>
      '(l, r) <- drop_len (read_vec W16 c_protocol_name inp) ;; Ok (XProtocolNameList l, r)
  | KServerNameList =>
      '(l, r) <- drop_len (read_vec W16 c_server_name inp) ;; Ok (XServerNameList l, r)
  | KCertificateAuthorities =>
      '(l, r) <- drop_len (read_vec W16 c_dn inp) ;; Ok (XCertificateAuthorities l, r)
  | KCertCompressionAlgs =>
      '(l, r) <- drop_len (read_vec W8 (c_u 2) inp) ;; Ok (XCertCompressionAlgs l, r)
  | KEchOuter =>
      '(t, r0) <- drop_len (read_u 1 inp) ;;
      if t =? 0 then
        '(p, r) <- drop_len (c_rd c_ech_outer r0) ;; Ok (XEchOuter p, r)
      else fail
  | KEchInner =>
      '(t, r0) <- drop_len (read_u 1 inp) ;;
      if t =? 1 then Ok (XEchInner, r0) else fail
  | KEchEncryptedExtensions =>
      '(l, r) <- drop_len (read_vec W16 c_ech_config inp) ;; Ok (XEchEncryptedExtensions l, r)
  | KEchOuterExtensions =>
      '(l, r) <- drop_len (read_vec W8 (c_u 2) inp) ;; Ok (XEchOuterExtensions l, r)
  | KEchHrr =>
      if blen inp =? 8 then Ok (XEchHrr inp, []) else fail
  | KDelegatedCredential =>
      '(p, r) <- drop_len (c_rd c_deleg_cred inp) ;; Ok (XDelegatedCredential p, r)
  | KDelegatedCredentialSupport =>
      '(l, r) <- drop_len (read_vec W16 (c_u 2) inp) ;; Ok (XDelegatedCredentialSupport l, r)
  | KTokenBinding =>
      '(p, r) <- drop_len (c_rd c_token_binding inp) ;; Ok (XTokenBinding p, r)
  end.

(** findExtension, Extensions-inl.h:16-25 *)
Definition findExtension (ty : N) (l : list Extension) : option Extension :=
  find (fun e => ext_type e =? ty) l.

(** The generic getExtension (Extensions-inl.h:27-45) checks [cs.isAtEnd()];
    the specialisations for DelegatedCredential, DelegatedCredentialSupport
    (delegatedcred/Types.cpp:17-58) and TokenBindingParameters
    (tokenbinding/Types.cpp:108-127) do not. *)
Definition checks_end (k : xkind) : bool :=
  match k with
  | KDelegatedCredential | KDelegatedCredentialSupport | KTokenBinding => false
  | _ => true
  end.

(** getExtension(Optional<T>&, err, extensions).  A null extension_data makes
    the cursor undefined. *)
Definition getExtension (k : xkind) (l : list Extension) : res (option tyext) :=
  match findExtension (kind_type k) l with
  | None => Ok None
  | Some e =>
      match ext_data e with
      | None => Err EUB
      | Some d =>
          '(x, rest) <- read_ext_body k d ;;
          if checks_end k then
            match rest with [] => Ok (Some x) | _ => fail end
          else Ok (Some x)
      end
  end.

(** getBinderLength, Extensions-inl.h:489-508; decode_error = 50. *)
Definition getBinderLength (exts : list Extension) : res N :=
  match rev exts with
  | [] => failA 50
  | e :: _ =>
      if negb (ext_type e =? 41) then failA 50
      else
        match ext_data e with
        | None => Err EUB
        | Some d =>
            '(il, r0) <- read_be 2 d ;;
            match take il r0 with
            | None => Err EThrow
            | Some (_, r1) =>
                '(bl, r2) <- read_be 2 r1 ;;
                if blen r2 =? bl then Ok (2 + bl) else failA 50
            end
        end
  end.
