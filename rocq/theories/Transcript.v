(** * HandshakeContext (protocol/HandshakeContext.{h,cpp}) and certverify::prepareSignData (protocol/Certificate.cpp). *)
From Verif Require Import Base Codec Str Hkdf.

(** HandshakeContextImpl: the hasher and everything appended so far (HandshakeContext.h:53-99; a clone is a copy).
    Failures of the hash backend are not modelled. *)
Record hsctx := mkHc { hc_hash : hashalg; hc_data : bytes }.
Definition hc_new (h : hashalg) : hsctx := mkHc h [].
(** appendToTranscript, HandshakeContext.cpp:16-19 *)
Definition hc_append (c : hsctx) (b : bytes) : hsctx := mkHc (hc_hash c) (hc_data c ++ b).
(** getHandshakeContext, HandshakeContext.cpp:21-30 *)
Definition hc_context (c : hsctx) : bytes := h_fn (hc_hash c) (hc_data c).
(** getFinishedData, HandshakeContext.cpp:32-54 *)
Definition hc_finished (c : hsctx) (baseKey : bytes) : res bytes :=
  let h := hc_hash c in
  fk <- expandLabel h baseKey (str "finished") (Some []) (h_len h) ;;
  hmac h fk [hc_context c] (h_len h).

(** CertificateVerifyContext (protocol/Certificate.h) and prepareSignData (Certificate.cpp:25-73) *)
Inductive cvctx := CvServer | CvClient | CvAuthenticator | CvClientDC | CvServerDC.
Definition cv_label (c : cvctx) : bytes :=
  match c with
  | CvServer => str "TLS 1.3, server CertificateVerify"
  | CvClient => str "TLS 1.3, client CertificateVerify"
  | CvAuthenticator => str "Exported Authenticator"
  | CvClientDC => str "TLS, client delegated credentials"
  | CvServerDC => str "TLS, server delegated credentials"
  end.
Definition prepareSignData (c : cvctx) (tbs : bytes) : bytes :=
  repeat x20 64 ++ cv_label c ++ [x00] ++ tbs.
