(** * Key exchange objects (protocol/MultiBackendFactory.cpp, backend/openssl/crypto/exchange/OpenSSLKeyExchange.cpp and the EC functions of
      crypto/OpenSSLKeyUtils.cpp, backend/libsodium/crypto/exchange/X25519.cpp, backend/liboqs/OQSKeyExchange.cpp, crypto/exchange/HybridKeyExchange.cpp)

    The libraries are parameters; what they do with randomness is given anew with every call ([draws]).  A key of OpenSSL is a name that determines the
    private and public part; a decoded peer key is what EC_POINT_oct2point makes of the bytes.  The OQS buffers are never chained (checkChained never fails)
    and hold what the library last wrote into them, also when it reported a failure.  The two parts of a hybrid exchange are of different kinds in the factory, so
    one [draws] serves both. *)
From Verif Require Import Base Kex.
Open Scope N_scope.

(** NamedGroup, record/Types.h:327-338 *)
Definition g_p256 : N := 23.  Definition g_p384 : N := 24.  Definition g_p521 : N := 25.  Definition g_x25519 : N := 29.
Definition g_x25519mlkem768 : N := 4588.  Definition g_x25519mlkem512 : N := 65026.
(** Crypto.h:130-153 *)
Inductive curve := P256 | P384 | P521.
Definition keyShareLength (c : curve) : N := match c with P256 => 32 * 2 + 1 | P384 => 48 * 2 + 1 | P521 => 66 * 2 + 1 end.
Inductive kemalg := MLKEM512 | MLKEM768.
Inductive role := RClient | RServer.

(** OpenSSL: EC_POINT_point2oct, decodeECPublicKey, EVP_PKEY_derive, validateECKey's three checks (OpenSSLKeyUtils.cpp:26-46) *)
Record ossl := mkOssl {
  ec_encode : curve -> N -> option bytes; ec_decode : curve -> bytes -> option N; ec_derive : curve -> N -> N -> option bytes; ec_valid : curve -> N -> bool }.
(** libsodium: crypto_scalarmult_curve25519_base, crypto_scalarmult ([None]: a failure) *)
Record sodium := mkSodium { x_base : bytes -> bytes; x_mult : bytes -> bytes -> option bytes }.
(** liboqs: OQS_KEM_new, the lengths, decaps (success, and what is written) *)
Record oqs := mkOqs { q_new : kemalg -> bool; q_pk : kemalg -> N; q_sk : kemalg -> N; q_ct : kemalg -> N; q_decaps : kemalg -> bytes -> bytes -> bool * bytes }.
Record klibs := mkLibs { l_ossl : ossl; l_sodium : sodium; l_oqs : option oqs (* FIZZ_HAVE_OQS *) }.
(** The outcomes of EVP_PKEY_keygen, crypto_box_keypair (private, public), OQS keypair (success; public, secret) and encaps (success; ciphertext, secret) *)
Record draws := mkDraws {
  d_ec : curve -> option N; d_x : option (bytes * bytes); d_keypair : kemalg -> bool * (bytes * bytes); d_encaps : kemalg -> bytes -> bool * (bytes * bytes) }.

(** The objects: OpenSSLECKeyExchange (key_), X25519KeyExchange (privKey_ and pubKey_), OQSClientKeyExchange (publicKey_, secretKey_: [None] while their length
    is 0), OQSServerKeyExchange (cipherText_), HybridKeyExchange *)
Inductive kobj :=
| KEc (c : curve) (key : option N)
| KX (keys : option (bytes * bytes))
| KKemClient (a : kemalg) (q : oqs) (keys : option (bytes * bytes))
| KKemServer (a : kemalg) (q : oqs) (ct : option bytes)
| KHybrid (first second : kobj).

(** OQSKeyExchange::createOQSKeyExchange :15-61 *)
Definition makeOqs (o : oqs) (r : role) (a : kemalg) : res kobj :=
  if q_new o a then Ok (match r with RServer => KKemServer a o None | RClient => KKemClient a o None end) else fail.
(** MultiBackendFactory::makeKeyExchange :22-77 *)
Definition makeKeyExchange (L : klibs) (g : N) (r : role) : res kobj :=
  if g =? g_p256 then Ok (KEc P256 None)
  else if g =? g_p384 then Ok (KEc P384 None)
  else if g =? g_p521 then Ok (KEc P521 None)
  else if g =? g_x25519 then Ok (KX None)
  else match l_oqs L with
       | Some o =>
           if g =? g_x25519mlkem768 then k <- makeOqs o r MLKEM768 ;; Ok (KHybrid k (KX None))
           else if g =? g_x25519mlkem512 then k <- makeOqs o r MLKEM512 ;; Ok (KHybrid k (KX None))
           else fail
       | None => fail
       end.

(** getExpectedKeyShareSize: OpenSSLKeyExchange.cpp:105, X25519.cpp:101, OQSKeyExchange.cpp:204-210, HybridKeyExchange.cpp:104 *)
Fixpoint ksize (k : kobj) : N :=
  match k with
  | KEc c _ => keyShareLength c
  | KX _ => 32
  | KKemClient a q _ => q_ct q a
  | KKemServer a q _ => q_pk q a
  | KHybrid f s => ksize f + ksize s
  end.
(** isInitiated, OQSKeyExchange.cpp:63-69: a buffer of length 0 stays empty *)
Definition clientInit (q : oqs) (a : kemalg) (keys : option (bytes * bytes)) : option (bytes * bytes) :=
  match keys with Some (p, s) => if (q_pk q a =? 0) || (q_sk q a =? 0) then None else Some (p, s) | None => None end.
Definition serverInit (q : oqs) (a : kemalg) (ct : option bytes) : option bytes :=
  match ct with Some b => if q_ct q a =? 0 then None else Some b | None => None end.
(** generateKeyPair: OpenSSLKeyExchange.cpp:34 with OpenSSLKeyUtils.cpp:89-114, X25519.cpp:38, OQSKeyExchange.cpp:71-84 (a failing regeneration has overwritten the
    buffers), OQSKeyExchange.h:132, HybridKeyExchange.cpp:30 *)
Fixpoint generate (L : klibs) (d : draws) (k : kobj) : kobj * res unit :=
  match k with
  | KEc c key => match d_ec d c with Some n => if ec_valid (l_ossl L) c n then (KEc c (Some n), Ok tt) else (k, fail) | None => (k, fail) end
  | KX keys => match d_x d with Some x => (KX (Some x), Ok tt) | None => (k, fail) end
  | KKemClient a q keys =>
      let '(ok, x) := d_keypair d a in
      if ok : bool then (KKemClient a q (clientInit q a (Some x)), Ok tt)
      else (KKemClient a q (match keys with Some _ => Some x | None => None end), fail)
  | KKemServer _ _ _ => (k, Ok tt)
  | KHybrid f s =>
      match generate L d f with
      | (f', Err e) => (KHybrid f' s, Err e)
      | (f', Ok _) =>
          match generate L d s with
          | (s', Err e) => (KHybrid f' s', Err e)
          | (s', Ok _) => (KHybrid f' s', if (ksize f' =? 0) || (ksize s' =? 0) then fail else Ok tt)
          end
      end
  end.
(** getKeyShare: OpenSSLKeyExchange.cpp:39 with encodeECPublicKey, X25519.cpp:57, OQSKeyExchange.cpp:86-108, HybridKeyExchange.cpp:47 *)
Fixpoint share (L : klibs) (k : kobj) : res bytes :=
  match k with
  | KEc c (Some n) => match ec_encode (l_ossl L) c n with Some b => Ok b | None => fail end
  | KX (Some (_, p)) => Ok p
  | KKemClient _ _ (Some (p, _)) => Ok p
  | KKemServer _ _ (Some b) => Ok b
  | KHybrid f s => x <- share L f ;; y <- share L s ;; Ok (x ++ y)
  | _ => fail
  end.
(** generateSharedSecret: OpenSSLKeyExchange.cpp:49-70, X25519.cpp:67, OQSKeyExchange.cpp:110-162, HybridKeyExchange.cpp:61.  Only a KEM's server end changes. *)
Fixpoint secret (L : klibs) (d : draws) (k : kobj) (b : bytes) : kobj * res bytes :=
  match k with
  | KEc c key =>
      (k, match ec_decode (l_ossl L) c b with
          | None => fail
          | Some p => match key with None => fail | Some n => match ec_derive (l_ossl L) c n p with Some x => Ok x | None => fail end end
          end)
  | KX keys =>
      (k, match keys with
          | None => fail
          | Some (s, _) => if negb (blen b =? 32) then fail else match x_mult (l_sodium L) s b with Some x => Ok x | None => fail end
          end)
  | KKemClient a q keys =>
      (k, match keys with
          | None => fail
          | Some (_, s) => if negb (blen b =? ksize k) then fail else let '(ok, x) := q_decaps q a b s in if ok : bool then Ok x else fail
          end)
  | KKemServer a q ct =>
      if negb (blen b =? ksize k) then (k, fail)
      else let '(ok, (c, x)) := d_encaps d a b in
           if ok : bool then (KKemServer a q (serverInit q a (Some c)), Ok x)
           else (KKemServer a q (match ct with Some _ => Some c | None => None end), fail)
  | KHybrid f s =>
      if negb (blen b =? ksize f + ksize s) then (k, fail)
      else match secret L d f (takeN (ksize f) b) with
           | (f', Err e) => (KHybrid f' s, Err e)
           | (f', Ok x) =>
               match secret L d s (dropN (blen b - ksize s) b) with
               | (s', Err e) => (KHybrid f' s', Err e)
               | (s', Ok y) => (KHybrid f' s', Ok (x ++ y))
               end
           end
  end.
(** clone: OpenSSLKeyExchange.cpp:85-103 (the key is validated again), X25519.cpp:88, OQSKeyExchange.cpp:164-202 (a new KEM, copied buffers), HybridKeyExchange.cpp:99 *)
Fixpoint clone (L : klibs) (k : kobj) : res kobj :=
  match k with
  | KEc c (Some n) => if ec_valid (l_ossl L) c n then Ok k else fail
  | KX (Some _) => Ok k
  | KKemClient a q (Some _) => if q_new q a then Ok k else fail
  | KKemServer a q (Some _) => if q_new q a then Ok k else fail
  | KHybrid f s => x <- clone L f ;; y <- clone L s ;; Ok (KHybrid x y)
  | _ => fail
  end.
(** OpenSSLECKeyExchange::setPrivateKey :72-78, X25519KeyExchange::setPrivateKey :18-36 *)
Definition setEcKey (L : klibs) (k : kobj) (n : N) : kobj * res unit :=
  match k with KEc c _ => if ec_valid (l_ossl L) c n then (KEc c (Some n), Ok tt) else (k, fail) | _ => (k, fail) end.
Definition setXKey (L : klibs) (k : kobj) (b : option bytes) : kobj * res unit :=
  match k, b with KX _, Some s => if blen s =? 32 then (KX (Some (s, x_base (l_sodium L) s)), Ok tt) else (k, fail) | _, _ => (k, fail) end.

(** ** Their use in a handshake *)
(** doKexSyncFuture, ServerProtocol.cpp:850-862, on a new object (:1791-1796): our share and the secret, as Server.w_kex *)
Definition serverKex (L : klibs) (d : draws) (g : N) (theirs : bytes) : res (bytes * bytes) :=
  k <- makeKeyExchange L g RServer ;;
  let '(k1, r1) := generate L d k in _ <- r1 ;;
  let '(k2, r2) := secret L d k1 theirs in x <- r2 ;;
  ours <- share L k2 ;; Ok (ours, x).
(** getKeyExchangers, ClientProtocol.cpp:510-522 (and :835): a new object with a key pair, as Client.cw_kex; its generateSharedSecret does not change it (C87_client_pure) *)
Definition clientKex (L : klibs) (d : draws) (g : N) : res kex :=
  k <- makeKeyExchange L g RClient ;;
  let '(k1, r1) := generate L d k in _ <- r1 ;;
  Ok (mkKex (share L k1) (fun b => snd (secret L d k1 b)) (ksize k1)).
