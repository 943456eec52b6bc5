(** * KeyExchange interface (crypto/exchange/KeyExchange.h) and HybridKeyExchange. *)
From Verif Require Import Base.

(** A KeyExchange object after generateKeyPair: its public share, its shared-secret function and
    the share size it expects from the peer. *)
Record kex := mkKex {
  kx_share : res bytes;                 (* getKeyShare *)
  kx_secret : bytes -> res bytes;       (* generateSharedSecret *)
  kx_size : N                           (* getExpectedKeyShareSize *)
}.

(** HybridKeyExchange (crypto/exchange/HybridKeyExchange.cpp): getKeyShare :47-59,
    generateSharedSecret :61-85, getExpectedKeyShareSize :104-107. *)
Definition hybrid (a b : kex) : kex := mkKex
  (x <- kx_share a ;; y <- kx_share b ;; Ok (x ++ y))
  (fun ks =>
     if negb (blen ks =? kx_size a + kx_size b) then fail
     else
       s <- kx_secret a (takeN (kx_size a) ks) ;;
       t <- kx_secret b (dropN (blen ks - kx_size b) ks) ;;
       Ok (s ++ t))
  (kx_size a + kx_size b).
(** HybridKeyExchange::create :17-28 (null arguments) *)
Definition hybrid_create (a b : option kex) : res kex :=
  match a, b with Some x, Some y => Ok (hybrid x y) | _, _ => fail end.
(** HybridKeyExchange::generateKeyPair :30-38: [a], [b] are the components after their own
    generateKeyPair succeeded. *)
Definition hybrid_generate (a b : res kex) : res kex :=
  x <- a ;; y <- b ;;
  if (kx_size x =? 0) || (kx_size y =? 0) then fail else Ok (hybrid x y).

(** Two parties agree: each, given the other's share, derives the same secret.  (One-sided sizes:
    each expects a share of the size the other produces; for a KEM the two sizes differ.) *)
Definition agree (p q : kex) : Prop :=
  exists sp sq s, kx_share p = Ok sp /\ kx_share q = Ok sq /\
    kx_secret p sq = Ok s /\ kx_secret q sp = Ok s /\
    blen sq = kx_size p /\ blen sp = kx_size q.
