(** * GREASE ECH extensions (protocol/ech/GreaseECH.cpp)

    The random number generator is a parameter: [rng i n] is the result of the i-th request for random bytes, [n] of them.
    IOBuf::create throws std::bad_alloc past [limit] bytes. *)
From Verif Require Import Base Codec Handshake Extensions.
Open Scope N_scope.

(** GreaseECHSetting, GreaseECHSetting.h:33-49 (std::vector sizes and size_t are 64 bits) *)
Inductive strategy := UniformRandom | Computed.
Record setting := mkSetting { gs_minId : N; gs_maxId : N; gs_strategy : strategy; gs_minPayload : N; gs_maxPayload : N; gs_keySizes : list N; gs_kdfs : list N; gs_aeads : list N }.
Definition u64 : N := 2 ^ 64.

(** RandomNumberGenerator::generate, GreaseECH.cpp:26-32: 8 bytes, the machine being little endian *)
Fixpoint unle (b : bytes) : N := match b with [] => 0 | x :: r => b2n x + 256 * unle r end.
Definition draw (rng : N -> N -> res bytes) (i : N) : res N := b <- rng i 8 ;; Ok (unle b).
(** RandomSelector::genNumber :43-55 *)
Definition genNumber (rng : N -> N -> res bytes) (i lo hi : N) : res N :=
  if hi <? lo then fail
  else if hi - lo =? u64 - 1 then fail
  else raw <- draw rng i ;; Ok (lo + raw mod (hi - lo + 1)).
(** RandomSelector::select :57-63: of no elements, [elems.size() - 1] wraps; reading past the end is undefined *)
Definition select (rng : N -> N -> res bytes) (i : N) (l : list N) : res N :=
  j <- genNumber rng i 0 ((N.of_nat (length l) + u64 - 1) mod u64) ;;
  match nth_error l (N.to_nat j) with Some x => Ok x | None => Err EUB end.
(** hpke::getCipherOverhead, crypto/hpke/Utils.h:184-197 *)
Definition overhead (a : N) : res N := if (a =? 1) || (a =? 2) || (a =? 3) then Ok 16 else fail.
(** Factory::makeRandomIOBuf, protocol/Factory.cpp:72-80 *)
Definition randomBuf (limit : N) (rng : N -> N -> res bytes) (i n : N) : res bytes :=
  if limit <? n then Err EThrow else if 0 <? n then rng i n else Ok [].
(** generateGreaseECH :68-102: kdf_id, aead_id, config_id, enc, payload *)
Definition generateGreaseECH (limit : N) (rng : N -> N -> res bytes) (s : setting) (chlo : N) : res (N * N * N * buf * buf) :=
  kdf <- select rng 0 (gs_kdfs s) ;;
  aead <- select rng 1 (gs_aeads s) ;;
  id <- genNumber rng 2 (gs_minId s) (gs_maxId s) ;;
  ks <- select rng 3 (gs_keySizes s) ;;
  enc <- randomBuf limit rng 4 ks ;;
  p <- genNumber rng 5 (gs_minPayload s) (gs_maxPayload s) ;;
  n <- match gs_strategy s with
       | Computed => c <- overhead aead ;; Ok ((p + (chlo + c) mod u64) mod u64)
       | UniformRandom => Ok p
       end ;;
  payload <- randomBuf limit rng 6 n ;;
  Ok (kdf, aead, id mod 256, Some enc, Some payload).
