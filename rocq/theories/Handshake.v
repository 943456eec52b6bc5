(** * Handshake: the handshake message structs of record/Types.h and their
    encode / decode specialisations in record/Types-inl.h.

    Enum-typed fields (versions, cipher suites, ...) are kept as the integer
    they are cast from/to: the readers use unchecked [static_cast].
    [originalEncoding] is modelled where it is set (ReadEvent.v). *)
From Verif Require Import Base Codec.

(** record/Types.h:151-163 *)
Record Extension := mkExt { ext_type : N; ext_data : buf }.

(** Writer/Sizer/Reader<Extension>, Types-inl.h:54-60, 233-242, 399-413. *)
Definition c_ext : codec Extension :=
  c_iso (fun p => mkExt (fst p) (snd p)) (fun e => (ext_type e, ext_data e))
        (c_pair (c_u 2) (c_buf W16)).

(** record/Types.h:173-199 *)
Record ClientHello := mkCH {
  ch_version : N;
  ch_random : bytes;
  ch_session_id : buf;
  ch_suites : list N;
  ch_compression : list N;
  ch_extensions : list Extension;
}.

(** record/Types.h:201-211 *)
Record ServerHello := mkSH {
  sh_version : N;
  sh_random : bytes;
  sh_session_id : buf;
  sh_suite : N;
  sh_compression : N;
  sh_extensions : list Extension;
}.

(** record/Types.h:213-224 *)
Record HelloRetryRequest := mkHRR {
  hrr_version : N;
  hrr_session_id : buf;
  hrr_suite : N;
  hrr_compression : N;
  hrr_extensions : list Extension;
}.

(** HelloRetryRequest::HrrRandom, record/Types.h:216-220 *)
Definition HrrRandom : bytes :=
  [xcf; x21; xad; x74; xe5; x9a; x61; x11; xbe; x1d; x8c;
   x02; x1e; x65; xb8; x91; xc2; xa2; x11; x16; x7a; xbb;
   x8c; x5e; x07; x9e; x09; xe2; xc8; xa8; x33; x9c].

(** record/Types.h:236-239 *)
Record CertificateEntry := mkCE { ce_data : buf; ce_extensions : list Extension }.

(** Writer/Sizer/Reader<CertificateEntry>, Types-inl.h:62-74, 244-252, 415-430. *)
Definition c_cert_entry : codec CertificateEntry :=
  c_iso (fun p => mkCE (fst p) (snd p)) (fun e => (ce_data e, ce_extensions e))
        (c_pair (c_buf W24) (c_vec W16 c_ext)).

(** record/Types.h:241-260, 295-325 *)
Record CertificateMsg := mkCert { cm_context : buf; cm_list : list CertificateEntry }.
Record CompressedCertificate :=
  mkCC { cc_algorithm : N; cc_uncompressed_length : N; cc_message : buf }.
Record CertificateRequest := mkCR { cr_context : buf; cr_extensions : list Extension }.
Record CertificateVerify := mkCV { cv_algorithm : N; cv_signature : buf }.
Record NewSessionTicket := mkNST {
  nst_lifetime : N; nst_age_add : N; nst_nonce : buf; nst_ticket : buf;
  nst_extensions : list Extension;
}.
(** record/Types.h:375-381 *)
Record Alert := mkAlert { al_level : N; al_description : N }.

Definition write_exts (l : list Extension) : res bytes := write_vec W16 c_ext l.
Definition read_exts (inp : bytes) : res (list Extension * bytes) :=
  '(l, _, r) <- read_vec W16 c_ext inp ;; Ok (l, r).

(** ** encode<T> (Types-inl.h:433-695) *)

(** encode<ServerHello>, Types-inl.h:433-453: session id and compression method
    are omitted when the session id is null. *)
Definition encode_sh (m : ServerHello) : res bytes :=
  v <- write_u 2 (sh_version m) ;;
  r <- write_random (sh_random m) ;;
  sid <- match sh_session_id m with
         | Some _ => write_buf W8 (sh_session_id m) | None => Ok [] end ;;
  cs <- write_u 2 (sh_suite m) ;;
  cm <- match sh_session_id m with
        | Some _ => write_u 1 (sh_compression m) | None => Ok [] end ;;
  ex <- write_exts (sh_extensions m) ;;
  Ok (v ++ r ++ sid ++ cs ++ cm ++ ex).

(** encode<HelloRetryRequest>, Types-inl.h:455-473 *)
Definition encode_hrr (m : HelloRetryRequest) : res bytes :=
  v <- write_u 2 (hrr_version m) ;;
  r <- write_random HrrRandom ;;
  sid <- write_buf W8 (hrr_session_id m) ;;
  cs <- write_u 2 (hrr_suite m) ;;
  cm <- write_u 1 (hrr_compression m) ;;
  ex <- write_exts (hrr_extensions m) ;;
  Ok (v ++ r ++ sid ++ cs ++ cm ++ ex).

(** encode<EndOfEarlyData>, Types-inl.h:475-480 *)
Definition encode_eoed : res bytes := Ok [].

(** encode<EncryptedExtensions>, Types-inl.h:482-493 *)
Definition encode_ee (l : list Extension) : res bytes := write_exts l.

(** encode<CertificateRequest>, Types-inl.h:495-506 *)
Definition encode_cr (m : CertificateRequest) : res bytes :=
  c <- write_buf W8 (cr_context m) ;;
  ex <- write_exts (cr_extensions m) ;;
  Ok (c ++ ex).

(** encode<CertificateMsg>, Types-inl.h:508-535 *)
Definition encode_cert (m : CertificateMsg) : res bytes :=
  c <- write_buf W8 (cm_context m) ;;
  l <- write_vec W24 c_cert_entry (cm_list m) ;;
  Ok (c ++ l).

(** encode<CompressedCertificate>, Types-inl.h:537-560.  uncompressed_length is
    written by writeBits24 and therefore checked. *)
Definition encode_cc (m : CompressedCertificate) : res bytes :=
  a <- write_u 2 (cc_algorithm m) ;;
  u <- write_len W24 (cc_uncompressed_length m) ;;
  c <- write_buf W24 (cc_message m) ;;
  Ok (a ++ u ++ c).

(** encode<CertificateVerify>, Types-inl.h:562-574 *)
Definition encode_cv (m : CertificateVerify) : res bytes :=
  a <- write_u 2 (cv_algorithm m) ;;
  s <- write_buf W16 (cv_signature m) ;;
  Ok (a ++ s).

(** encode<Alert>, Types-inl.h:576-584 *)
Definition encode_alert (m : Alert) : res bytes :=
  l <- write_u 1 (al_level m) ;;
  d <- write_u 1 (al_description m) ;;
  Ok (l ++ d).

(** encode<ClientHello>, Types-inl.h:586-616 *)
Definition encode_ch (m : ClientHello) : res bytes :=
  v <- write_u 2 (ch_version m) ;;
  r <- write_random (ch_random m) ;;
  sid <- write_buf W8 (ch_session_id m) ;;
  cs <- write_vec W16 (c_u 2) (ch_suites m) ;;
  cm <- write_vec W8 (c_u 1) (ch_compression m) ;;
  ex <- write_exts (ch_extensions m) ;;
  Ok (v ++ r ++ sid ++ cs ++ cm ++ ex).

(** encode<NewSessionTicket>, Types-inl.h:624-640: null nonce is omitted. *)
Definition encode_nst (m : NewSessionTicket) : res bytes :=
  l <- write_u 4 (nst_lifetime m) ;;
  a <- write_u 4 (nst_age_add m) ;;
  n <- match nst_nonce m with
       | Some _ => write_buf W8 (nst_nonce m) | None => Ok [] end ;;
  t <- write_buf W16 (nst_ticket m) ;;
  ex <- write_exts (nst_extensions m) ;;
  Ok (l ++ a ++ n ++ t ++ ex).

(** encode<KeyUpdate>, Types-inl.h:666-673 *)
Definition encode_ku (req : N) : res bytes := write_u 1 req.

(** ** decode<T> from a cursor (Types-inl.h:697-848); the cursor's rest is
    returned. *)

(** Types-inl.h:697-718: a ClientHello that ends before the extensions block is
    accepted. *)
Definition decode_ch (inp : bytes) : res (ClientHello * bytes) :=
  '(v, _, r0) <- read_u 2 inp ;;
  '(rnd, r1) <- read_random r0 ;;
  '(sid, _, r2) <- read_buf W8 r1 ;;
  '(cs, _, r3) <- read_vec W16 (c_u 2) r2 ;;
  '(cm, _, r4) <- read_vec W8 (c_u 1) r3 ;;
  match r4 with
  | [] => Ok (mkCH v rnd sid cs cm [], [])
  | _ => '(ex, r5) <- read_exts r4 ;; Ok (mkCH v rnd sid cs cm ex, r5)
  end.

(** Types-inl.h:720-734 *)
Definition decode_sh (inp : bytes) : res (ServerHello * bytes) :=
  '(v, _, r0) <- read_u 2 inp ;;
  '(rnd, r1) <- read_random r0 ;;
  '(sid, _, r2) <- read_buf W8 r1 ;;
  '(cs, _, r3) <- read_u 2 r2 ;;
  '(cm, _, r4) <- read_u 1 r3 ;;
  '(ex, r5) <- read_exts r4 ;;
  Ok (mkSH v rnd sid cs cm ex, r5).

(** Types-inl.h:736-741: reads nothing. *)
Definition decode_eoed (inp : bytes) : res (unit * bytes) := Ok (tt, inp).

(** Types-inl.h:743-752 *)
Definition decode_ee (inp : bytes) : res (list Extension * bytes) := read_exts inp.

(** Types-inl.h:754-764 *)
Definition decode_cr (inp : bytes) : res (CertificateRequest * bytes) :=
  '(c, _, r0) <- read_buf W8 inp ;;
  '(ex, r1) <- read_exts r0 ;;
  Ok (mkCR c ex, r1).

(** Types-inl.h:766-777 *)
Definition decode_cert (inp : bytes) : res (CertificateMsg * bytes) :=
  '(c, _, r0) <- read_buf W8 inp ;;
  '(l, _, r1) <- read_vec W24 c_cert_entry r0 ;;
  Ok (mkCert c l, r1).

(** Types-inl.h:779-789 *)
Definition decode_cc (inp : bytes) : res (CompressedCertificate * bytes) :=
  '(a, _, r0) <- read_u 2 inp ;;
  '(u, r1) <- read_be 3 r0 ;;
  '(c, _, r2) <- read_buf W24 r1 ;;
  Ok (mkCC a u c, r2).

(** Types-inl.h:791-800 *)
Definition decode_cv (inp : bytes) : res (CertificateVerify * bytes) :=
  '(a, _, r0) <- read_u 2 inp ;;
  '(s, _, r1) <- read_buf W16 r0 ;;
  Ok (mkCV a s, r1).

(** Types-inl.h:802-817 *)
Definition decode_nst (inp : bytes) : res (NewSessionTicket * bytes) :=
  '(l, _, r0) <- read_u 4 inp ;;
  '(a, _, r1) <- read_u 4 r0 ;;
  '(n, _, r2) <- read_buf W8 r1 ;;
  '(t, _, r3) <- read_buf W16 r2 ;;
  '(ex, r4) <- read_exts r3 ;;
  Ok (mkNST l a n t ex, r4).

(** Types-inl.h:819-827 *)
Definition decode_alert (inp : bytes) : res (Alert * bytes) :=
  '(l, _, r0) <- read_u 1 inp ;;
  '(d, _, r1) <- read_u 1 r0 ;;
  Ok (mkAlert l d, r1).

(** Types-inl.h:840-848 *)
Definition decode_ku (inp : bytes) : res (N * bytes) :=
  '(k, _, r0) <- read_u 1 inp ;; Ok (k, r0).

(** decode<T>(Buf&&), Types-inl.h:850-862: decode from a cursor and require that
    the whole buffer was read. *)
Definition decode_all {T} (d : bytes -> res (T * bytes)) (b : bytes) : res T :=
  '(t, rest) <- d b ;;
  match rest with [] => Ok t | _ => fail end.

(** ** Any handshake message *)
Inductive hsmsg : Type :=
| MClientHello (m : ClientHello)
| MServerHello (m : ServerHello)
| MHelloRetryRequest (m : HelloRetryRequest)
| MEndOfEarlyData
| MEncryptedExtensions (l : list Extension)
| MCertificateRequest (m : CertificateRequest)
| MCertificate (m : CertificateMsg)
| MCompressedCertificate (m : CompressedCertificate)
| MCertificateVerify (m : CertificateVerify)
| MNewSessionTicket (m : NewSessionTicket)
| MKeyUpdate (req : N)
| MFinished (verify_data : buf)
| MMessageHash (hash : buf).

(** The static handshake_type member (record/Types.h:60-74, 83-91 and the structs). *)
Definition hs_type (m : hsmsg) : N :=
  match m with
  | MClientHello _ => 1
  | MServerHello _ => 2
  | MHelloRetryRequest _ => 2
  | MNewSessionTicket _ => 4
  | MEndOfEarlyData => 5
  | MEncryptedExtensions _ => 8
  | MCertificate _ => 11
  | MCertificateRequest _ => 13
  | MCertificateVerify _ => 15
  | MFinished _ => 20
  | MKeyUpdate _ => 24
  | MCompressedCertificate _ => 25
  | MMessageHash _ => 254
  end.

(** encode<T> for any message; Finished and message_hash hand over their buffer,
    which may be null (Types-inl.h:618-622, 675-680). *)
Definition encode_body (m : hsmsg) : res buf :=
  let lift (r : res bytes) := b <- r ;; Ok (Some b) in
  match m with
  | MClientHello c => lift (encode_ch c)
  | MServerHello s => lift (encode_sh s)
  | MHelloRetryRequest h => lift (encode_hrr h)
  | MEndOfEarlyData => lift encode_eoed
  | MEncryptedExtensions l => lift (encode_ee l)
  | MCertificateRequest c => lift (encode_cr c)
  | MCertificate c => lift (encode_cert c)
  | MCompressedCertificate c => lift (encode_cc c)
  | MCertificateVerify c => lift (encode_cv c)
  | MNewSessionTicket n => lift (encode_nst n)
  | MKeyUpdate k => lift (encode_ku k)
  | MFinished b => Ok b
  | MMessageHash b => Ok b
  end.

(** encodeHandshake<T>, Types-inl.h:682-695: type byte, 24-bit length, body; a
    null body is dereferenced. *)
Definition encodeHandshake (m : hsmsg) : res bytes :=
  b <- encode_body m ;;
  match b with
  | None => Err EUB
  | Some body =>
      t <- write_u 1 (hs_type m) ;;
      l <- write_len W24 (blen body) ;;
      Ok (t ++ l ++ body)
  end.

(** parse<T> / parse<ServerHello> and the dispatch of decodeHandshakeMessage
    (record/RecordLayer.cpp:123-157, 183-221): decodes a handshake body of the
    given type; a ServerHello with the HRR random becomes a HelloRetryRequest;
    message_hash and unknown types are rejected. *)
Definition parse_handshake (ty : N) (body : bytes) : res hsmsg :=
  if ty =? 1 then m <- decode_all decode_ch body ;; Ok (MClientHello m)
  else if ty =? 2 then
    m <- decode_all decode_sh body ;;
    if bytes_eqb (sh_random m) HrrRandom then
      Ok (MHelloRetryRequest
            (mkHRR (sh_version m) (sh_session_id m) (sh_suite m)
                   (sh_compression m) (sh_extensions m)))
    else Ok (MServerHello m)
  else if ty =? 5 then _ <- decode_all decode_eoed body ;; Ok MEndOfEarlyData
  else if ty =? 4 then m <- decode_all decode_nst body ;; Ok (MNewSessionTicket m)
  else if ty =? 8 then m <- decode_all decode_ee body ;; Ok (MEncryptedExtensions m)
  else if ty =? 11 then m <- decode_all decode_cert body ;; Ok (MCertificate m)
  else if ty =? 25 then m <- decode_all decode_cc body ;; Ok (MCompressedCertificate m)
  else if ty =? 13 then m <- decode_all decode_cr body ;; Ok (MCertificateRequest m)
  else if ty =? 15 then m <- decode_all decode_cv body ;; Ok (MCertificateVerify m)
  else if ty =? 20 then Ok (MFinished (Some body))
  else if ty =? 24 then m <- decode_all decode_ku body ;; Ok (MKeyUpdate m)
  else fail.
