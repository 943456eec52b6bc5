(** * ExtensionsSpec: wire format of the typed extensions (RFC 8446 section 4.2,
    RFC 6066, RFC 7301, RFC 8879, RFC 9345, RFC 8472, draft-ietf-tls-esni). *)
From Verif Require Import Base Codec CodecSpec Handshake HandshakeSpec Extensions.

Definition w_u2s (w : nat) := tls_list w (be 2).
Definition w_nb (k : nat) (p : N * buf) := be k (fst p) ++ opaque 2 (snd p).
Definition w_pskid (p : buf * N) := opaque 2 (fst p) ++ be 4 (snd p).
Definition w_echouter (p : N * N * N * buf * buf) : bytes :=
  let '(kdf, aead, cid, enc, payload) := p in
  be 2 kdf ++ be 2 aead ++ be 1 cid ++ opaque 2 enc ++ opaque 2 payload.
Definition w_dc (p : N * N * buf * N * buf) : bytes :=
  let '(vt, evs, pk, cs, sig) := p in
  be 4 vt ++ be 2 evs ++ opaque 3 pk ++ be 2 cs ++ opaque 2 sig.

Definition w_xbody (x : tyext) : bytes :=
  match x with
  | XSignatureAlgorithms l => tls_list 2 (be 2) l
  | XSupportedGroups l => tls_list 2 (be 2) l
  | XClientKeyShare l => tls_list 2 (w_nb 2) l
  | XServerKeyShare s => w_nb 2 s
  | XHrrKeyShare g => be 2 g
  | XClientPresharedKey p => tls_list 2 w_pskid (fst p) ++ tls_list 2 (opaque 1) (snd p)
  | XServerPresharedKey i => be 2 i
  | XClientEarlyData => []
  | XServerEarlyData => []
  | XTicketEarlyData n => be 4 n
  | XCookie b => opaque 2 b
  | XSupportedVersions l => tls_list 1 (be 2) l
  | XServerSupportedVersions v => be 2 v
  | XPskKeyExchangeModes l => tls_list 1 (be 1) l
  | XProtocolNameList l => tls_list 2 (opaque 1) l
  | XServerNameList l => tls_list 2 (w_nb 1) l
  | XCertificateAuthorities l => tls_list 2 (opaque 2) l
  | XCertCompressionAlgs l => tls_list 1 (be 2) l
  | XEchOuter p => be 1 0 ++ w_echouter p
  | XEchInner => be 1 1
  | XEchEncryptedExtensions l => tls_list 2 (w_nb 2) l
  | XEchOuterExtensions l => tls_list 1 (be 2) l
  | XEchHrr c => c
  | XDelegatedCredential p => w_dc p
  | XDelegatedCredentialSupport l => tls_list 2 (be 2) l
  | XTokenBinding p => be 2 (fst p) ++ tls_list 1 (be 1) (snd p)
  end.

Definition wf_nb (k : nat) (p : N * buf) := in_u k (fst p) && nonnull (snd p).
Definition wf_pskid (p : buf * N) := nonnull (fst p) && in_u 4 (snd p).
Definition wf_echouter (p : N * N * N * buf * buf) : bool :=
  let '(kdf, aead, cid, enc, payload) := p in
  in_u 2 kdf && in_u 2 aead && in_u 1 cid && nonnull enc && nonnull payload.
Definition wf_dc (p : N * N * buf * N * buf) : bool :=
  let '(vt, evs, pk, cs, sig) := p in
  in_u 4 vt && in_u 2 evs && nonnull pk && in_u 2 cs && nonnull sig.

Definition wf_x (x : tyext) : bool :=
  match x with
  | XSignatureAlgorithms l | XSupportedGroups l | XSupportedVersions l
  | XCertCompressionAlgs l | XEchOuterExtensions l
  | XDelegatedCredentialSupport l => forallb (in_u 2) l
  | XPskKeyExchangeModes l => forallb (in_u 1) l
  | XClientKeyShare l | XEchEncryptedExtensions l => forallb (wf_nb 2) l
  | XServerNameList l => forallb (wf_nb 1) l
  | XServerKeyShare s => wf_nb 2 s
  | XHrrKeyShare n | XServerPresharedKey n | XServerSupportedVersions n => in_u 2 n
  | XTicketEarlyData n => in_u 4 n
  | XClientPresharedKey p => forallb wf_pskid (fst p) && forallb nonnull (snd p)
  | XClientEarlyData | XServerEarlyData | XEchInner => true
  | XCookie b => nonnull b
  | XProtocolNameList l | XCertificateAuthorities l => forallb nonnull l
  | XEchOuter p => wf_echouter p
  | XEchHrr c => blen c =? 8
  | XDelegatedCredential p => wf_dc p
  | XTokenBinding p => in_u 2 (fst p) && forallb (in_u 1) (snd p)
  end.

(** [fit_list w el fl l]: every element fits, and so does the list body. *)
Definition fit_list {T} (w : nat) (el : T -> bytes) (fl : T -> bool) (l : list T) : bool :=
  forallb fl l && fits_len w (blen (concat (map el l))).
Definition fit_nb (p : N * buf) := ofits 2 (snd p).
Definition yes {T} (_ : T) := true.

Definition fit_x (x : tyext) : bool :=
  match x with
  | XSignatureAlgorithms l | XSupportedGroups l
  | XDelegatedCredentialSupport l => fit_list 2 (be 2) yes l
  | XSupportedVersions l | XCertCompressionAlgs l | XEchOuterExtensions l =>
      fit_list 1 (be 2) yes l
  | XPskKeyExchangeModes l => fit_list 1 (be 1) yes l
  | XClientKeyShare l | XEchEncryptedExtensions l => fit_list 2 (w_nb 2) fit_nb l
  | XServerNameList l => fit_list 2 (w_nb 1) fit_nb l
  | XServerKeyShare s => fit_nb s
  | XHrrKeyShare _ | XServerPresharedKey _ | XServerSupportedVersions _
  | XTicketEarlyData _ | XClientEarlyData | XServerEarlyData | XEchInner | XEchHrr _ => true
  | XClientPresharedKey p =>
      fit_list 2 w_pskid (fun i => ofits 2 (fst i)) (fst p) &&
      fit_list 2 (opaque 1) (ofits 1) (snd p)
  | XCookie b => ofits 2 b
  | XProtocolNameList l => fit_list 2 (opaque 1) (ofits 1) l
  | XCertificateAuthorities l => fit_list 2 (opaque 2) (ofits 2) l
  | XEchOuter p => let '(_, _, _, enc, payload) := p in ofits 2 enc && ofits 2 payload
  | XDelegatedCredential p => let '(_, _, pk, _, sig) := p in ofits 3 pk && ofits 2 sig
  | XTokenBinding p => fit_list 1 (be 1) yes (snd p)
  end.
