(** * Aead128GCMTokenCipher (server/AeadTokenCipher.{h,cpp})

    The AEAD with a key installed (OpenSSLEVPCipher makeCipher<AESGCM128> + setKey, keyLength 16,
    ivLength 12) and the hash (SHA-256) are parameters.  CryptoUtils::clean (zeroing of the memory of
    dropped secrets) is not modelled. *)
From Verif Require Import Base Codec Hkdf Record.

(** AeadTokenCipher.h:23, 57, 60: kMinTokenSecretLength, kSaltLength, kTokenHeaderLength *)
Definition kMinTokenSecretLength : N := 32.
Definition kSaltLength : N := 32.
Definition kTokenHeaderLength : N := kSaltLength + 4.

Record token := mkToken { tk_secrets : list bytes; tk_ctx : list bytes }.

Section Token.
  Variable h : hashalg.
  Variable gcm : bytes -> bytes -> aead.

  (** The inner loop over contextStrings_ (AeadTokenCipher.cpp:52-62): extract(salt = context, ikm = so far) *)
  Fixpoint ctx_extract (ctx : list bytes) (extracted : bytes) : res bytes :=
    match ctx with
    | [] => Ok extracted
    | c :: r => e <- hkdf_extract h c extracted ;; ctx_extract r e
    end.
  Fixpoint map_extract (ctx : list bytes) (l : list bytes) : res (list bytes) :=
    match l with
    | [] => Ok []
    | s :: r => e <- ctx_extract ctx s ;; es <- map_extract ctx r ;; Ok (e :: es)
    end.
  (** setSecrets (AeadTokenCipher.cpp:37-66).  An extraction error would throw out of the loop. *)
  Definition setSecrets (t : token) (l : list bytes) : res (token * bool) :=
    if existsb (fun s => blen s <? kMinTokenSecretLength) l then Ok (t, false)
    else es <- map_extract (tk_ctx t) l ;; Ok (mkToken es (tk_ctx t), true).

  (** createAead (AeadTokenCipher.cpp:127-146); the cursor clones split the expanded 28 bytes. *)
  Definition createAead (secret salt : bytes) : res aead :=
    keys <- hkdf_expand h secret [salt] (16 + 12) ;;
    match take 16 keys with
    | None => Err EThrow
    | Some (key, r) => match take 12 r with None => Err EThrow | Some (iv, _) => Ok (gcm key iv) end
    end.

  (** encrypt (AeadTokenCipher.cpp:68-95); [salt] is what RandomGenerator produced. *)
  Definition tok_encrypt (t : token) (salt pt : bytes) (ad : option bytes) : res (option bytes) :=
    match tk_secrets t with
    | [] => Ok None
    | s :: _ =>
        a <- createAead s salt ;;
        c <- ae_enc a pt ad 0 ;;
        Ok (Some (salt ++ be 4 0 ++ c))
    end.

  (** The loop over secrets_ in decrypt (AeadTokenCipher.cpp:111-121) *)
  Fixpoint try_secrets (l : list bytes) (salt c : bytes) (ad : option bytes) (seq : N) : res (option bytes) :=
    match l with
    | [] => Ok None
    | s :: r =>
        a <- createAead s salt ;;
        p <- ae_try a c ad seq ;;
        match p with Some ch => Ok (Some (concat ch)) | None => try_secrets r salt c ad seq end
    end.
  (** decrypt (AeadTokenCipher.cpp:97-125) *)
  Definition tok_decrypt (t : token) (tok : bytes) (ad : option bytes) : res (option bytes) :=
    match tk_secrets t with
    | [] => Ok None
    | l =>
        match take kSaltLength tok with
        | None => Ok None
        | Some (salt, r) =>
            match take 4 r with
            | None => Ok None
            | Some (sq, c) => try_secrets l salt c ad (unbe sq)
            end
        end
    end.
End Token.
