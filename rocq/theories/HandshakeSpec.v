(** * HandshakeSpec: the wire format of every handshake message (RFC 8446
    section 4), written with the presentation-language helpers of CodecSpec and
    without reference to the model's writers or readers. *)
From Verif Require Import Base Codec CodecSpec Handshake.

(** opaque field of a possibly null buffer *)
Definition opaque (w : nat) (b : buf) : bytes := tls_vec w (bufbytes b).
Definition ofits (w : nat) (b : buf) : bool := fits_len w (blen (bufbytes b)).

Definition w_ext (e : Extension) : bytes := be 2 (ext_type e) ++ opaque 2 (ext_data e).
Definition w_exts (l : list Extension) : bytes := tls_list 2 w_ext l.
Definition wf_ext (e : Extension) : bool := in_u 2 (ext_type e) && nonnull (ext_data e).
Definition wf_exts := forallb wf_ext.
Definition fit_exts (l : list Extension) : bool :=
  forallb (fun e => ofits 2 (ext_data e)) l && fits_len 2 (blen (concat (map w_ext l))).

Definition w_ce (e : CertificateEntry) : bytes := opaque 3 (ce_data e) ++ w_exts (ce_extensions e).
Definition wf_ce (e : CertificateEntry) : bool := nonnull (ce_data e) && wf_exts (ce_extensions e).
Definition fit_ce (e : CertificateEntry) : bool := ofits 3 (ce_data e) && fit_exts (ce_extensions e).

Definition len32 (r : bytes) : bool := blen r =? 32.

(** The body of each message. *)
Definition w_body (m : hsmsg) : bytes :=
  match m with
  | MClientHello c =>
      be 2 (ch_version c) ++ ch_random c ++ opaque 1 (ch_session_id c) ++
      tls_list 2 (be 2) (ch_suites c) ++ tls_list 1 (be 1) (ch_compression c) ++
      w_exts (ch_extensions c)
  | MServerHello s =>
      be 2 (sh_version s) ++ sh_random s ++ opaque 1 (sh_session_id s) ++
      be 2 (sh_suite s) ++ be 1 (sh_compression s) ++ w_exts (sh_extensions s)
  | MHelloRetryRequest h =>
      be 2 (hrr_version h) ++ HrrRandom ++ opaque 1 (hrr_session_id h) ++
      be 2 (hrr_suite h) ++ be 1 (hrr_compression h) ++ w_exts (hrr_extensions h)
  | MEndOfEarlyData => []
  | MEncryptedExtensions l => w_exts l
  | MCertificateRequest c => opaque 1 (cr_context c) ++ w_exts (cr_extensions c)
  | MCertificate c => opaque 1 (cm_context c) ++ tls_list 3 w_ce (cm_list c)
  | MCompressedCertificate c =>
      be 2 (cc_algorithm c) ++ be 3 (cc_uncompressed_length c) ++ opaque 3 (cc_message c)
  | MCertificateVerify c => be 2 (cv_algorithm c) ++ opaque 2 (cv_signature c)
  | MNewSessionTicket n =>
      be 4 (nst_lifetime n) ++ be 4 (nst_age_add n) ++ opaque 1 (nst_nonce n) ++
      opaque 2 (nst_ticket n) ++ w_exts (nst_extensions n)
  | MKeyUpdate k => be 1 k
  | MFinished b => bufbytes b
  | MMessageHash b => bufbytes b
  end.

(** Well-typed message: integers within their C++ type, random of 32 bytes, no
    null buffers, a ServerHello whose random is not the HRR constant. *)
Definition wf_msg (m : hsmsg) : bool :=
  match m with
  | MClientHello c =>
      in_u 2 (ch_version c) && len32 (ch_random c) && nonnull (ch_session_id c) &&
      forallb (in_u 2) (ch_suites c) && forallb (in_u 1) (ch_compression c) &&
      wf_exts (ch_extensions c)
  | MServerHello s =>
      in_u 2 (sh_version s) && len32 (sh_random s) && nonnull (sh_session_id s) &&
      in_u 2 (sh_suite s) && in_u 1 (sh_compression s) && wf_exts (sh_extensions s) &&
      negb (bytes_eqb (sh_random s) HrrRandom)
  | MHelloRetryRequest h =>
      in_u 2 (hrr_version h) && nonnull (hrr_session_id h) &&
      in_u 2 (hrr_suite h) && in_u 1 (hrr_compression h) && wf_exts (hrr_extensions h)
  | MEndOfEarlyData => true
  | MEncryptedExtensions l => wf_exts l
  | MCertificateRequest c => nonnull (cr_context c) && wf_exts (cr_extensions c)
  | MCertificate c => nonnull (cm_context c) && forallb wf_ce (cm_list c)
  | MCompressedCertificate c =>
      in_u 2 (cc_algorithm c) && in_u 4 (cc_uncompressed_length c) && nonnull (cc_message c)
  | MCertificateVerify c => in_u 2 (cv_algorithm c) && nonnull (cv_signature c)
  | MNewSessionTicket n =>
      in_u 4 (nst_lifetime n) && in_u 4 (nst_age_add n) && nonnull (nst_nonce n) &&
      nonnull (nst_ticket n) && wf_exts (nst_extensions n)
  | MKeyUpdate k => in_u 1 k
  | MFinished b => nonnull b
  | MMessageHash b => nonnull b
  end.

(** Every variable-length field fits the length prefix in front of it. *)
Definition fit_body (m : hsmsg) : bool :=
  match m with
  | MClientHello c =>
      ofits 1 (ch_session_id c) &&
      fits_len 2 (blen (concat (map (be 2) (ch_suites c)))) &&
      fits_len 1 (blen (concat (map (be 1) (ch_compression c)))) &&
      fit_exts (ch_extensions c)
  | MServerHello s => ofits 1 (sh_session_id s) && fit_exts (sh_extensions s)
  | MHelloRetryRequest h => ofits 1 (hrr_session_id h) && fit_exts (hrr_extensions h)
  | MEndOfEarlyData => true
  | MEncryptedExtensions l => fit_exts l
  | MCertificateRequest c => ofits 1 (cr_context c) && fit_exts (cr_extensions c)
  | MCertificate c =>
      ofits 1 (cm_context c) && forallb fit_ce (cm_list c) &&
      fits_len 3 (blen (concat (map w_ce (cm_list c))))
  | MCompressedCertificate c =>
      fits_len 3 (cc_uncompressed_length c) && ofits 3 (cc_message c)
  | MCertificateVerify c => ofits 2 (cv_signature c)
  | MNewSessionTicket n =>
      ofits 1 (nst_nonce n) && ofits 2 (nst_ticket n) && fit_exts (nst_extensions n)
  | MKeyUpdate _ => true
  | MFinished _ => true
  | MMessageHash _ => true
  end.

(** Full handshake framing: type, 24-bit length, body. *)
Definition w_msg (m : hsmsg) : bytes := be 1 (hs_type m) ++ tls_vec 3 (w_body m).
Definition fit_msg (m : hsmsg) : bool := fit_body m && fits_len 3 (blen (w_body m)).

(** Types that a receiver can parse: message_hash is synthetic. *)
Definition receivable (m : hsmsg) : bool :=
  match m with MMessageHash _ => false | _ => true end.
