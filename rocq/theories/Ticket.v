(** * TicketCodec (server/TicketCodec{-inl.h,.cpp}), TicketPolicy (server/TicketPolicy.h) and
      TicketCipherImpl (server/AeadTicketCipher.h).

    A std::chrono::system_clock::time_point is its count of nanoseconds (libstdc++), an int64; signed
    overflow is undefined ([EUB]). *)
From Verif Require Import Base Codec Hkdf Record Token Str.
Open Scope N_scope.

Definition int64 (z : Z) : bool := ((- 2 ^ 63 <=? z) && (z <? 2 ^ 63))%Z.
Definition ns_per_s : Z := 1000000000%Z.
Definition chk64 (z : Z) : res Z := if int64 z then Ok z else Err EUB.
(** uint64_t x = <int64 value> and std::chrono::seconds(<uint64_t>) : modulo 2^64 *)
Definition to_u64 (z : Z) : N := Z.to_N (z mod 2 ^ 64)%Z.
Definition of_u64 (n : N) : Z := let z := Z.of_N n in (if z <? 2 ^ 63 then z else z - 2 ^ 64)%Z.
(** duration_cast<seconds>(ns) truncates toward zero *)
Definition cast_s (ns : Z) : Z := Z.quot ns ns_per_s.
(** time_point(seconds(n)): the conversion multiplies in int64 *)
Definition tp_of_s (n : N) : res Z := chk64 (of_u64 n * ns_per_s)%Z.

(** A certificate: getIdentity(), and the DER of its X509 when it is an OpenSSLTransportCertificate
    with one (folly::ssl::OpenSSLCertUtils::derEncode); [None] otherwise. *)
Record cert := mkCertObj { c_ident : bytes; c_der : option bytes }.

(** ResumptionState (server/ResumptionState.h:19-31) *)
Record resstate := mkRS {
  rs_version : N; rs_cipher : N; rs_secret : buf;
  rs_serverCert : option cert; rs_clientCert : option cert;
  rs_alpn : option bytes; rs_ageAdd : N; rs_issue : Z; rs_appToken : buf; rs_hsTime : Z }.

(** CertificateStorage (TicketCodec.h:17-21) *)
Inductive storage := SNone | SX509 | SIdent.

(** appendClientCertificate (TicketCodec.cpp:28-65) *)
Definition appendClientCert (st : storage) (c : option cert) : res bytes :=
  match c, st with
  | None, _ | _, SNone => write_u 1 0
  | Some c, SX509 =>
      match c_der c with
      | Some d => a <- write_u 1 1 ;; b <- write_buf W16 (Some d) ;; Ok (a ++ b)
      | None => a <- write_u 1 2 ;; b <- write_buf W16 (Some (c_ident c)) ;; Ok (a ++ b)
      end
  | Some c, SIdent => a <- write_u 1 2 ;; b <- write_buf W16 (Some (c_ident c)) ;; Ok (a ++ b)
  end.

(** TicketCodec<Storage>::encode (TicketCodec-inl.h:19-62) *)
Definition ticket_encode (st : storage) (r : resstate) : res bytes :=
  let self := match rs_serverCert r with Some c => c_ident c | None => [] end in
  a1 <- write_u 2 (rs_version r) ;;
  a2 <- write_u 2 (rs_cipher r) ;;
  a3 <- write_buf W16 (rs_secret r) ;;
  a4 <- write_buf W16 (Some self) ;;
  a5 <- appendClientCert st (rs_clientCert r) ;;
  a6 <- write_u 4 (rs_ageAdd r) ;;
  a7 <- write_u 8 (to_u64 (cast_s (rs_issue r))) ;;
  a8 <- write_buf W8 (rs_alpn r) ;;
  a9 <- write_buf W16 (rs_appToken r) ;;
  a10 <- write_u 8 (to_u64 (cast_s (rs_hsTime r))) ;;
  Ok (a1 ++ a2 ++ a3 ++ a4 ++ a5 ++ a6 ++ a7 ++ a8 ++ a9 ++ a10).

Section Decode.
  (** Factory::makePeerCertFromTicket, Factory::makeIdentityOnlyCert, CertManager::getCert *)
  Variable mkPeer : bytes -> res cert.
  Variable mkIdent : bytes -> cert.
  Variable getCert : bytes -> option cert.

  (** readClientCertificate (TicketCodec.cpp:67-94); other storage values read nothing *)
  Definition readClientCert (inp : bytes) : res (option cert * bytes) :=
    '(s, _, r) <- read_u 1 inp ;;
    if s =? 1 then '(b, _, r') <- read_buf W16 r ;;
                   c <- mkPeer (match b with Some d => d | None => [] end) ;; Ok (Some c, r')
    else if s =? 2 then '(b, _, r') <- read_buf W16 r ;;
                   Ok (Some (mkIdent (match b with Some d => d | None => [] end)), r')
    else Ok (None, r).

  (** TicketCodec<Storage>::decode (TicketCodec-inl.h:64-114); trailing bytes are ignored *)
  Definition ticket_decode (inp : bytes) : res resstate :=
    '(ver, _, r1) <- read_u 2 inp ;;
    '(cip, _, r2) <- read_u 2 r1 ;;
    '(sec, _, r3) <- read_buf W16 r2 ;;
    '(self, _, r4) <- read_buf W16 r3 ;;
    '(cc, r5) <- readClientCert r4 ;;
    '(age, _, r6) <- read_u 4 r5 ;;
    '(iss, _, r7) <- read_u 8 r6 ;;
    '(alpn, _, r8) <- read_buf W8 r7 ;;
    let alpn' := match alpn with Some (x :: l) => Some (x :: l) | _ => None end in
    it <- tp_of_s iss ;;
    let sc := getCert (match self with Some d => d | None => [] end) in
    match r8 with
    | [] => Ok (mkRS ver cip sec sc cc alpn' age it None it)
    | _ =>
        '(app, _, r9) <- read_buf W16 r8 ;;
        match r9 with
        | [] => Ok (mkRS ver cip sec sc cc alpn' age it app it)
        | _ => '(hs, _, _) <- read_u 8 r9 ;;
               ht <- tp_of_s hs ;;
               Ok (mkRS ver cip sec sc cc alpn' age it app ht)
        end
    end.
End Decode.

(** TicketPolicy members, in seconds (TicketPolicy.h:69-70) *)
Record policy := mkPol { po_ticket : Z; po_hs : Z }.

(** getValidity (TicketPolicy.h:64-67) *)
Definition getValidity (p : policy) (now : Z) (r : resstate) : res Z :=
  v <- chk64 (po_hs p * ns_per_s)%Z ;;
  e <- chk64 (rs_hsTime r + v)%Z ;;
  d <- chk64 (e - now)%Z ;;
  Ok (cast_s d).
(** remainingValidity (TicketPolicy.h:50-57) *)
Definition remainingValidity (p : policy) (now : Z) (r : resstate) : res Z :=
  v <- getValidity p now r ;; Ok (Z.min v (Z.min (po_hs p) (po_ticket p))).
(** shouldAccept (TicketPolicy.h:59-61) *)
Definition shouldAccept (p : policy) (now : Z) (r : resstate) : res bool :=
  v <- getValidity p now r ;; Ok (0 <? v)%Z.

Section Cipher.
  Variable h : hashalg.
  Variable gcm : bytes -> bytes -> aead.
  Variable mkPeer : bytes -> res cert.
  Variable mkIdent : bytes -> cert.
  Variable getCert : bytes -> option cert.
  Variable st : storage.

  (** TicketCodec::Label (TicketCodec.h:43), constructor (AeadTicketCipher.h:37-54) *)
  Definition ticketLabel : bytes := str "Fizz Ticket Codec v2".
  Definition ticket_token (pskContext : option bytes) : token :=
    mkToken [] (ticketLabel :: match pskContext with Some c => [c] | None => [] end).

  (** encrypt (AeadTicketCipher.h:75-88): the ticket and its lifetime in seconds *)
  Definition ticket_encrypt (t : token) (p : policy) (now : Z) (salt : bytes) (r : resstate)
    : res (option (bytes * Z)) :=
    v <- remainingValidity p now r ;;
    if (v <=? 0)%Z then Ok None
    else enc <- ticket_encode st r ;;
         tk <- tok_encrypt h gcm t salt enc None ;;
         match tk with None => Ok None | Some b => Ok (Some (b, v)) end.

  (** decrypt (AeadTicketCipher.h:90-112): [None] is (PskType::Rejected, none); [Some] is
      (PskType::Resumption, state).  Exceptions (and error statuses turned into exceptions) of decode
      are caught; undefined behaviour is not. *)
  Definition ticket_decrypt (t : token) (p : policy) (now : Z) (b : bytes) : res (option resstate) :=
    pt <- tok_decrypt h gcm t b None ;;
    match pt with
    | None => Ok None
    | Some x =>
        match ticket_decode mkPeer mkIdent getCert x with
        | Err EThrow | Err (EStatus _) => Ok None
        | Err e => Err e
        | Ok r => acc <- shouldAccept p now r ;; Ok (if acc then Some r else None)
        end
    end.
End Cipher.
