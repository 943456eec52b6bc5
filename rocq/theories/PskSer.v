(** * serializePsk / deserializePsk (client/PskSerializationUtils.cpp)

    std::chrono::system_clock::now() (used for blobs without a handshake time) is a parameter.
    CertificateSerialization is a pair of partial functions: [ser c = None] models a null result or an
    exception, [deser b = None] a failed Status, a null result or an exception (all caught, lines 21-24, 45-55). *)
From Verif Require Import Base Codec Ticket.
Open Scope N_scope.

Definition ns_per_ms : Z := 1000000%Z.

(** CachedPsk (client/PskCache.h:20-38); [type] is not serialized (always Resumption after reading). *)
Record psk := mkPsk {
  pk_psk : bytes; pk_secret : bytes; pk_version : N; pk_cipher : N; pk_group : option N;
  pk_alpn : option bytes; pk_ageAdd : N; pk_issue : Z; pk_expire : Z;
  pk_server : option cert; pk_client : option cert; pk_maxEarly : N; pk_hsTime : Z }.

Section Psk.
  Variable ser : cert -> option bytes.
  Variable deser : bytes -> option cert.
  Variable nowT : Z.

  (** tryWriteCert :14-35 *)
  Definition tryWriteCert (c : option cert) : res bytes :=
    write_buf W32 (match c with Some x => ser x | None => None end).
  (** tryReadCert :37-56 *)
  Definition tryReadCert (inp : bytes) : res (option cert * bytes) :=
    '(b, _, r) <- read_buf W32 inp ;;
    Ok (match b with Some (x :: l) => deser (x :: l) | _ => None end, r).

  (** clampTimePoint<Duration> :67-77, [unit] nanoseconds per tick of Duration *)
  Definition clampTimePoint (unit : Z) (v : N) : Z :=
    let kMax := Z.to_N (Z.quot (2 ^ 63 - 1) unit) in (Z.of_N (N.min v kMax) * unit)%Z.

  (** serializePsk :79-134 *)
  Definition serializePsk (p : psk) : res bytes :=
    a1 <- write_buf W16 (Some (pk_psk p)) ;;
    a2 <- write_buf W16 (Some (pk_secret p)) ;;
    a3 <- write_u 2 (pk_version p) ;;
    a4 <- write_u 2 (pk_cipher p) ;;
    a5 <- match pk_group p with
          | Some g => x <- write_u 1 1 ;; y <- write_u 2 g ;; Ok (x ++ y)
          | None => write_u 1 0
          end ;;
    a6 <- write_buf W8 (pk_alpn p) ;;
    a7 <- write_u 4 (pk_ageAdd p) ;;
    a8 <- write_u 8 (to_u64 (Z.quot (pk_issue p) ns_per_ms)) ;;
    a9 <- write_u 8 (to_u64 (Z.quot (pk_expire p) ns_per_s)) ;;
    a10 <- tryWriteCert (pk_server p) ;;
    a11 <- tryWriteCert (pk_client p) ;;
    a12 <- write_u 4 (pk_maxEarly p) ;;
    a13 <- write_u 8 (to_u64 (Z.quot (pk_hsTime p) ns_per_ms)) ;;
    Ok (a1 ++ a2 ++ a3 ++ a4 ++ a5 ++ a6 ++ a7 ++ a8 ++ a9 ++ a10 ++ a11 ++ a12 ++ a13).

  (** deserializePsk :136-203; trailing bytes after the handshake time are ignored *)
  Definition deserializePsk (inp : bytes) : res psk :=
    '(id, _, r1) <- read_buf W16 inp ;;
    '(sec, _, r2) <- read_buf W16 r1 ;;
    '(ver, _, r3) <- read_u 2 r2 ;;
    '(cip, _, r4) <- read_u 2 r3 ;;
    '(hasg, _, r5) <- read_u 1 r4 ;;
    '(grp, r6) <- (if hasg =? 1 then '(g, _, r) <- read_u 2 r5 ;; Ok (Some g, r) else Ok (None, r5)) ;;
    '(al, _, r7) <- read_buf W8 r6 ;;
    '(age, _, r8) <- read_u 4 r7 ;;
    '(iss, _, r9) <- read_u 8 r8 ;;
    '(exp, _, r10) <- read_u 8 r9 ;;
    '(sc, r11) <- tryReadCert r10 ;;
    '(cc, r12) <- tryReadCert r11 ;;
    '(me, _, r13) <- read_u 4 r12 ;;
    ht <- match r13 with
          | [] => Ok nowT
          | _ => '(hs, _, _) <- read_u 8 r13 ;; Ok (clampTimePoint ns_per_ms hs)
          end ;;
    let bb (b : buf) := match b with Some d => d | None => [] end in
    Ok (mkPsk (bb id) (bb sec) ver cip grp (match al with Some (x :: l) => Some (x :: l) | _ => None end) age
              (clampTimePoint ns_per_ms iss) (clampTimePoint ns_per_s exp) sc cc me ht).
End Psk.
