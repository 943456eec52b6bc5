(** * Stateless retry cookies: server/AeadCookieCipher.cpp, server/CookieCipher.{h,cpp} *)
From Verif Require Import Base Codec Handshake Extensions RecordBase Record ReadEvent Hkdf Token Negotiate.

(** CookieState (CookieCipher.h:18-30).  encodeCookie dereferences echConfigId when echCipherSuite is set. *)
Record cookiest := mkCk {
  ck_version : N; ck_cipher : N; ck_group : option N; ck_chloHash : buf; ck_appToken : buf;
  ck_echSuite : option (N * N); ck_echConfigId : option N; ck_echEnc : buf }.

(** encodeCookie (AeadCookieCipher.cpp:26-62) *)
Definition encodeCookie (s : cookiest) : res bytes :=
  a1 <- write_u 2 (ck_version s) ;;
  a2 <- write_u 2 (ck_cipher s) ;;
  a3 <- match ck_group s with
        | Some g => x <- write_u 1 1 ;; y <- write_u 2 g ;; Ok (x ++ y)
        | None => write_u 1 0 end ;;
  a4 <- write_buf W16 (ck_chloHash s) ;;
  a5 <- write_buf W16 (ck_appToken s) ;;
  a6 <- match ck_echSuite s with
        | Some (kdf, ae) =>
            x <- write_u 1 1 ;; y <- write_u 2 kdf ;; y' <- write_u 2 ae ;;
            z <- match ck_echConfigId s with Some i => write_u 1 i | None => Err EUB end ;;
            w <- write_buf W16 (ck_echEnc s) ;; Ok (x ++ y ++ y' ++ z ++ w)
        | None => write_u 1 0 end ;;
  Ok (a1 ++ a2 ++ a3 ++ a4 ++ a5 ++ a6).

(** decodeCookie (AeadCookieCipher.cpp:64-96); trailing bytes are ignored *)
Definition decodeCookie (inp : bytes) : res cookiest :=
  '(ver, _, r1) <- read_u 2 inp ;;
  '(cip, _, r2) <- read_u 2 r1 ;;
  '(hg, _, r3) <- read_u 1 r2 ;;
  '(grp, r4) <- (if hg =? 1 then '(g, _, r) <- read_u 2 r3 ;; Ok (Some g, r) else Ok (None, r3)) ;;
  '(hash, _, r5) <- read_buf W16 r4 ;;
  '(app, _, r6) <- read_buf W16 r5 ;;
  '(he, _, r7) <- read_u 1 r6 ;;
  if he =? 1 then
    '(kdf, _, r8) <- read_u 2 r7 ;;
    '(ae, _, r9) <- read_u 2 r8 ;;
    '(cid, _, r10) <- read_u 1 r9 ;;
    '(enc, _, _) <- read_buf W16 r10 ;;
    Ok (mkCk ver cip grp hash app (Some (kdf, ae)) (Some cid) enc)
  else Ok (mkCk ver cip grp hash app None None None).


(** getStatelessHelloRetryRequest (CookieCipher.cpp:18-53) *)
Definition getStatelessHrr (version cipher : N) (group : option N) (cookie : bytes) : res bytes :=
  e1 <- encodeExtension (XServerSupportedVersions version) ;;
  es <- match group with
        | Some g => e <- encodeExtension (XHrrKeyShare g) ;; Ok [e]
        | None => Ok [] end ;;
  e2 <- encodeExtension (XCookie (Some cookie)) ;;
  encodeHandshake (MHelloRetryRequest (mkHRR 771 (Some []) cipher 0 (e1 :: es ++ [e2]))).

(** getHrrGroup (CookieCipher.cpp:55-90) *)
Definition getHrrGroup (supported : list N) (chlo : ClientHello) : res (option N) :=
  g <- getExtension KSupportedGroups (ch_extensions chlo) ;;
  match g with
  | Some (XSupportedGroups l) =>
      match negotiate supported l with
      | None => Ok None
      | Some ng =>
          ks <- getExtension KClientKeyShare (ch_extensions chlo) ;;
          match ks with
          | Some (XClientKeyShare shares) => Ok (if mem ng (map fst shares) then None else Some ng)
          | _ => Err EThrow
          end
      end
  | _ => Ok None
  end.

Section Cookie.
  (** The hash of cipher suite [c] over the transcript (factory.makeHandshakeContext(c), appendToTranscript,
      getHandshakeContext); [None] when the factory does not know the suite. *)
  Variable suite_hash : N -> option hashalg.
  Variable h : hashalg.                       (* the token cipher's own hash *)
  Variable gcm : bytes -> bytes -> aead.

  (** getCookieState (CookieCipher.cpp:92-136); [orig] is *chlo.originalEncoding *)
  Definition getCookieState (versions : list N) (ciphers : list (list N)) (groups : list N)
      (chlo : ClientHello) (orig : bytes) (appToken : buf) : res cookiest :=
    sv <- getExtension KSupportedVersions (ch_extensions chlo) ;;
    match sv with
    | Some (XSupportedVersions cl) =>
        match negotiate versions cl with
        | None => Err EThrow
        | Some version =>
            match negotiate_tiers ciphers (ch_suites chlo) with
            | None => Err EThrow
            | Some cipher =>
                group <- getHrrGroup groups chlo ;;
                match suite_hash cipher with
                | None => Err EThrow
                | Some sh => Ok (mkCk version cipher group (Some (h_fn sh orig)) appToken None None None)
                end
            end
        end
    | _ => Err EThrow
    end.

  (** AeadCookieCipher::decrypt (AeadCookieCipher.cpp:136-143) *)
  Definition cookie_decrypt (t : token) (cookie : bytes) : res (option cookiest) :=
    p <- tok_decrypt h gcm t cookie None ;;
    match p with Some x => s <- decodeCookie x ;; Ok (Some s) | None => Ok None end.

  (** getStatelessResponse (AeadCookieCipher.cpp:145-171) *)
  Definition getStatelessResponse (t : token) versions ciphers groups (salt : bytes) (chlo : ClientHello)
      (orig : bytes) (appToken : buf) : res bytes :=
    s <- getCookieState versions ciphers groups chlo orig appToken ;;
    e <- encodeCookie s ;;
    c <- tok_encrypt h gcm t salt e None ;;
    match c with
    | None => Err EThrow
    | Some cookie =>
        m <- getStatelessHrr (ck_version s) (ck_cipher s) (ck_group s) cookie ;;
        d <- plain_write_ver (mkMsg ct_handshake m) 771 ;;
        match d with Some b => Ok b | None => Err EUB end
    end.

  Inductive retry := AppToken (b : buf) | StatelessHRR (data : bytes).

  (** getTokenOrRetry (AeadCookieCipher.cpp:99-134), up to the kind of exception *)
  Definition getTokenOrRetry (t : token) versions ciphers groups (salt : bytes) (clientHello : bytes)
      (appToken : buf) : res retry :=
    match read_event (mkEv [] (LPlain (mkP false None))) clientHello with
    | RMsg _ _ (EvHandshake (MClientHello chlo) orig) =>
        ck <- getExtension KCookie (ch_extensions chlo) ;;
        match ck with
        | Some (XCookie b) =>
            s <- cookie_decrypt t (match b with Some d => d | None => [] end) ;;
            match s with
            | Some st => Ok (AppToken (ck_appToken st))
            | None => Err EThrow
            end
        | _ => d <- getStatelessResponse t versions ciphers groups salt chlo orig appToken ;; Ok (StatelessHRR d)
        end
    | RErr e => Err e
    | _ => Err EThrow
    end.
End Cookie.
