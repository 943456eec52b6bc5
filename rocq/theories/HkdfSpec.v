(** * Specification of HMAC (RFC 2104), HKDF (RFC 5869) and HKDF-Expand-Label (RFC 8446, 7.1),
      written from the RFCs and independent of the model's control flow. *)
From Verif Require Import Base Nonce Hkdf.
From Verif Require Import Str.

(** RFC 2104, section 2: K zero padded to B bytes, hashed first when longer than B. *)
Definition rfc2104_key (H : bytes -> bytes) (B : N) (K : bytes) : bytes :=
  let K0 := if B <? blen K then H K else K in
  K0 ++ repeat x00 (N.to_nat B - length K0).
Definition rfc2104 (H : bytes -> bytes) (B : N) (K text : bytes) : bytes :=
  let K' := rfc2104_key H B K in
  H (map (bxor x5c) K' ++ H (map (bxor x36) K' ++ text)).

Section Rfc5869.
  Variable h : hashalg.
  Definition HMAC (key text : bytes) : bytes := rfc2104 (h_fn h) (h_block h) key text.
  (** RFC 5869, section 2.2; an absent salt is HashLen zeros. *)
  Definition Extract (salt ikm : bytes) : bytes :=
    HMAC (match salt with [] => repeat x00 (N.to_nat (h_len h)) | _ => salt end) ikm.
  (** RFC 5869, section 2.3: T(0) = "", T(i) = HMAC(PRK, T(i-1) | info | i). *)
  Fixpoint T (prk info : bytes) (i : nat) : bytes :=
    match i with
    | O => []
    | S j => HMAC prk (T prk info j ++ info ++ [n2b (N.of_nat i)])
    end.
  (** OKM = first L octets of T(1) | ... | T(ceil(L/HashLen)). *)
  Definition Expand (prk info : bytes) (L : N) : bytes :=
    takeN L (concat (map (T prk info) (seq 1 (N.to_nat ((L + h_len h - 1) / h_len h))))).
  (** RFC 8446, 7.1: struct HkdfLabel and HKDF-Expand-Label / Derive-Secret. *)
  Definition HkdfLabel (L : N) (label context : bytes) : bytes :=
    be 2 L ++ be 1 (6 + blen label) ++ str "tls13 " ++ label ++ be 1 (blen context) ++ context.
  Definition ExpandLabel (secret label context : bytes) (L : N) : bytes :=
    Expand secret (HkdfLabel L label context) L.
  (** Derive-Secret(Secret, Label, Messages) with Transcript-Hash(Messages) given. *)
  Definition DeriveSecret (secret label thash : bytes) : bytes := ExpandLabel secret label thash (h_len h).
End Rfc5869.

(** What a usable hash function provides: a fixed, non-zero digest size at most the block size, and a
    block size the implementation's buffers can hold.  True of SHA-256, SHA-384 and SHA-512. *)
Record hash_ok (h : hashalg) : Prop := {
  ho_pos : 0 < h_len h;
  ho_le : h_len h <= h_block h;
  ho_max : h_block h <= 128;
  ho_digest : forall m, blen (h_fn h m) = h_len h;
  ho_blank : h_blank h = h_fn h []
}.
