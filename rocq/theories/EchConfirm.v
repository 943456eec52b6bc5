(** * ECH accept confirmation: protocol/ech/Encryption.cpp:287-486 *)
From Verif Require Import Base Codec Str Hkdf KeySched Handshake Extensions Transcript IOBufUtil.

(** scheduler->getSecret on a scheduler whose only call so far is deriveEarlySecret(psk) *)
Definition ech_secret (h : hashalg) (psk : bytes) (which : early_secrets) (th : bytes) : res bytes :=
  let '(k, r) := ks_step h ks_init (DeriveEarly psk) in
  _ <- r ;;
  match snd (ks_step h k (GetEarly which th)) with
  | Ok (OSecret b) => Ok b
  | Ok _ => Err EThrow
  | Err e => Err e
  end.

(** makeDummyServerHello :287-306; a null session id is dereferenced *)
Definition zero_tail (r : bytes) : bytes := takeN (blen r - 8) r ++ zeros 8.
Definition makeDummyServerHello (m : ServerHello) : res ServerHello :=
  match sh_session_id m with
  | None => Err EUB
  | Some _ => Ok (mkSH (sh_version m) (zero_tail (sh_random m)) (sh_session_id m) (sh_suite m) (sh_compression m) (sh_extensions m))
  end.
(** makeDummyHRR :308-334 *)
Definition zero_ech (e : Extension) : Extension :=
  if ext_type e =? 65037 then mkExt 65037 (Some (zeros 8)) else e.
Definition makeDummyHRR (m : HelloRetryRequest) : res HelloRetryRequest :=
  match hrr_session_id m with
  | None => Err EUB
  | Some _ => Ok (mkHRR (hrr_version m) (hrr_session_id m) (hrr_suite m) (hrr_compression m) (map zero_ech (hrr_extensions m)))
  end.

(** calculateAcceptConfirmation :338-363, 365-394; [psk] is the inner ClientHello.random the scheduler was given *)
Definition calcAcceptSH (c : hsctx) (h : hashalg) (psk : bytes) (m : ServerHello) : res bytes :=
  d <- makeDummyServerHello m ;;
  e <- encodeHandshake (MServerHello d) ;;
  ech_secret h psk EchAcceptE (hc_context (hc_append c e)).
Definition calcAcceptHRR (c : hsctx) (h : hashalg) (psk : bytes) (m : HelloRetryRequest) : res bytes :=
  d <- makeDummyHRR m ;;
  e <- encodeHandshake (MHelloRetryRequest d) ;;
  s <- ech_secret h psk HrrEchAccept (hc_context (hc_append c e)) ;;
  if blen s <? 8 then fail else Ok s.

(** checkECHAccepted :398-415 (ServerHello) *)
Definition checkAcceptSH (c : hsctx) (h : hashalg) (psk : bytes) (m : ServerHello) : res bool :=
  a <- calcAcceptSH c h psk m ;;
  Ok (crypto_equal (dropN (blen (sh_random m) - 8) (sh_random m)) (takeN 8 a)).
(** checkECHAccepted :417-443 (HelloRetryRequest) *)
Definition checkAcceptHRR (c : hsctx) (h : hashalg) (psk : bytes) (m : HelloRetryRequest) : res bool :=
  a <- calcAcceptHRR c h psk m ;;
  x <- getExtension KEchHrr (hrr_extensions m) ;;
  match x with
  | Some (XEchHrr conf) => Ok (crypto_equal conf (takeN 8 a))
  | _ => Ok false
  end.
(** setAcceptConfirmation :445-460 *)
Definition setAcceptSH (c : hsctx) (h : hashalg) (psk : bytes) (m : ServerHello) : res ServerHello :=
  a <- calcAcceptSH c h psk m ;;
  Ok (mkSH (sh_version m) (takeN (blen (sh_random m) - 8) (sh_random m) ++ takeN 8 a) (sh_session_id m) (sh_suite m)
           (sh_compression m) (sh_extensions m)).
(** setAcceptConfirmation :462-484; the default-constructed ECHHelloRetryRequest is zeroed *)
Definition setAcceptHRR (c : hsctx) (h : hashalg) (psk : bytes) (m : HelloRetryRequest) : res HelloRetryRequest :=
  e <- encodeExtension (XEchHrr (zeros 8)) ;;
  let with_ext d := mkHRR (hrr_version m) (hrr_session_id m) (hrr_suite m) (hrr_compression m) (hrr_extensions m ++ [d]) in
  a <- calcAcceptHRR c h psk (with_ext e) ;;
  Ok (with_ext (mkExt (ext_type e) (Some (takeN 8 a)))).
