(** * Hash-based key derivation: crypto/Hmac.cpp, crypto/Hkdf.cpp, crypto/KeyDerivation.cpp,
      encodeHkdfLabel (record/Types-inl.h:642-664).

    A hash algorithm (HasherFactoryWithMetadata, crypto/Hasher.h:58-106) is its metadata and a
    function from the concatenation of all hash_update calls to the digest written by hash_final
    (the streaming contract documented at Hasher.h:16-25).  Backend failures of
    make/hash_update/hash_final are not modelled. *)
From Verif Require Import Base Codec Nonce.
From Verif Require Import Str.

Record hashalg := mkHash {
  h_len : N;      (* hashLength() / getHashLen() *)
  h_block : N;    (* blockSize() / getBlockSize() *)
  h_fn : bytes -> bytes;
  h_blank : bytes (* blankHash() *)
}.

(** crypto/Crypto.h:125 *)
Definition kHashMaxBlockSize : N := 128.
(** crypto/Hmac.cpp:15-16 *)
Definition HMAC_OPAD : byte := x5c.
Definition HMAC_IPAD : byte := x36.

(** memcpy / memset into a fixed array at an offset; out of bounds is undefined. *)
Definition poke (arr : bytes) (off : N) (src : bytes) : res bytes :=
  if blen arr <? off + blen src then Err EUB
  else Ok (takeN off arr ++ src ++ dropN (off + blen src) arr).

(** [for (i < B) buf[i] ^= finalKey[i]] (Hmac.cpp:60-62, 68-70). *)
Definition xor_prefix (B : N) (b k : bytes) : bytes :=
  xor_bytes (takeN B b) (takeN B k) ++ dropN B b.

(** hmac (Hmac.cpp:20-84).  [j1] and [j2] are the uninitialised contents of the two
    std::array locals; [text] is the input IOBuf chain; the result is the first L bytes of [out]. *)
Definition hmac_mem (h : hashalg) (j1 j2 : bytes) (key : bytes) (text : list bytes) (outSize : N)
  : res bytes :=
  if outSize <? h_len h then Err ECheck                              (* :33 *)
  else if h_block h =? 0 then Err ECheck                             (* :36 *)
  else
  k0 <- poke j1 0 (repeat x00 (N.to_nat (h_block h))) ;;             (* :42 *)
  k <- (if h_block h <? blen key
        then poke k0 0 (h_fn h key)                                  (* :45-51 *)
        else poke k0 0 key) ;;                                       (* :53 *)
  b1 <- poke j2 0 (repeat HMAC_IPAD (N.to_nat (h_block h))) ;;       (* :59 *)
  let bi := xor_prefix (h_block h) b1 k in
  b2 <- poke bi 0 (repeat HMAC_OPAD (N.to_nat (h_block h))) ;;       (* :67 *)
  let bo := xor_prefix (h_block h) b2 k in
  let inner := h_fn h (takeN (h_block h) bi ++ concat text) in       (* :63-64, 75 *)
  b3 <- poke bo 0 inner ;;                                           (* :76-77 *)
  Ok (h_fn h (takeN (h_block h) bo ++ takeN (h_len h) b3)).          (* :71-72, 80-82 *)

Definition zeros (n : N) : bytes := repeat x00 (N.to_nat n).
Definition hmac (h : hashalg) (key : bytes) (text : list bytes) (outSize : N) : res bytes :=
  hmac_mem h (zeros kHashMaxBlockSize) (zeros kHashMaxBlockSize) key text outSize.

(** Hkdf::extract (Hkdf.cpp:17-35). *)
Definition hkdf_extract (h : hashalg) (salt ikm : bytes) : res bytes :=
  let salt := match salt with [] => zeros (h_len h) | _ => salt end in
  hmac h salt [ikm] (h_len h).

(** The loop of Hkdf::expand (Hkdf.cpp:80-92); [fuel] = remaining rounds. *)
Fixpoint expand_loop (h : hashalg) (prk : bytes) (infoLength : N) (fuel : nat) (round : N)
    (inb expanded : bytes) : res bytes :=
  match fuel with
  | O => Ok expanded
  | S f =>
      in1 <- poke inb 0 (takeN (h_len h) (dropN ((round - 2) * h_len h) expanded)) ;;
      in2 <- poke in1 (h_len h + infoLength) [n2b round] ;;
      t <- hmac h prk [in2] (h_len h) ;;
      expand_loop h prk infoLength f (round + 1) in2 (expanded ++ t)
  end.

(** Hkdf::expand (Hkdf.cpp:37-96); [info] is an IOBuf chain. *)
Definition hkdf_expand (h : hashalg) (prk : bytes) (info : list bytes) (outputBytes : N) : res bytes :=
  let hlen := h_len h in
  if negb (blen prk =? hlen) then Err ECheck
  else if 255 * hlen <? outputBytes then fail
  else if outputBytes =? 0 then Ok []
  else
    let numRounds := (outputBytes + hlen - 1) / hlen in
    let infoLength := blen (concat info) in
    in0 <- poke (zeros (hlen + infoLength + 1)) hlen (concat info) ;;
    in1 <- poke in0 (hlen + infoLength) [n2b 1] ;;
    t1 <- hmac h prk [dropN hlen in1] hlen ;;
    expanded <- expand_loop h prk infoLength (N.to_nat (numRounds - 1)) 2 in1 t1 ;;
    Ok (takeN (blen expanded - (numRounds * hlen - outputBytes)) expanded).

(** Hkdf::hkdf (Hkdf.cpp:98-110). *)
Definition hkdf_full (h : hashalg) (ikm salt : bytes) (info : list bytes) (n : N) : res bytes :=
  e <- hkdf_extract h salt ikm ;; hkdf_expand h e info n.

(** kHkdfLabelPrefix (record/Types.h:23). *)
Definition kHkdfLabelPrefix : bytes := str "tls13 ".

(** encodeHkdfLabel (record/Types-inl.h:642-664): [length] is a uint16_t. *)
Definition encodeHkdfLabel (prefix : bytes) (length : N) (label : bytes) (hashv : buf) : res bytes :=
  a <- write_u 2 length ;;
  b <- write_buf W8 (Some (prefix ++ label)) ;;
  c <- write_buf W8 hashv ;;
  Ok (a ++ b ++ c).

(** KeyDerivationImpl::expandLabel (KeyDerivation.cpp:14-29); the uint16_t parameter narrows. *)
Definition expandLabel (h : hashalg) (secret label : bytes) (hashv : buf) (length : N) : res bytes :=
  let length := length mod 65536 in
  enc <- encodeHkdfLabel kHkdfLabelPrefix length label hashv ;;
  hkdf_expand h secret [enc] length.

(** KeyDerivationImpl::deriveSecret (KeyDerivation.cpp:40-66).  The copy loop into a vector of
    [length] bytes is the identity because expand returns exactly [length] bytes in one buffer. *)
Definition deriveSecret (h : hashalg) (secret label msgHash : bytes) (length : N) : res bytes :=
  let length := length mod 65536 in
  if negb (blen secret =? h_len h) then Err ECheck
  else if negb (blen msgHash =? h_len h) then Err ECheck
  else if length =? 0 then Err ECheck
  else
    out <- expandLabel h secret label (Some msgHash) length ;;
    Ok (takeN length (out ++ zeros (length - blen out))).
