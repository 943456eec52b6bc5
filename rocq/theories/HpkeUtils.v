(** * HPKE identifiers: crypto/hpke/Utils.cpp and the enums of crypto/hpke/Types.h:18-36 *)
From Verif Require Import Base Codec Str Hpke.

(** HashFunction (crypto/Crypto.h:67) *)
Inductive hashfn := Sha256 | Sha384 | Sha512.
(** tryGetKEMId, getKEMId (Utils.cpp:44-66) *)
Definition tryGetKEMId (group : N) : option N :=
  if group =? 23 then Some 16 else if group =? 24 then Some 17 else if group =? 25 then Some 18
  else if group =? 29 then Some 32 else None.
Definition getKEMId (group : N) : res N := match tryGetKEMId group with Some k => Ok k | None => fail end.
(** getKDFId (Utils.cpp:68-82) *)
Definition getKDFId (h : hashfn) : res N := Ok (match h with Sha256 => 1 | Sha384 => 2 | Sha512 => 3 end).
(** tryGetAeadId, getAeadId (Utils.cpp:84-104) *)
Definition tryGetAeadId (suite : N) : option N :=
  if suite =? 4865 then Some 1 else if suite =? 4866 then Some 2 else if suite =? 4867 then Some 3 else None.
Definition getAeadId (suite : N) : res N := match tryGetAeadId suite with Some k => Ok k | None => fail end.
(** getKexGroup (Utils.cpp:106-123) *)
Definition getKexGroup (kem : N) : res N :=
  if kem =? 16 then Ok 23 else if kem =? 17 then Ok 24 else if kem =? 18 then Ok 25 else if kem =? 32 then Ok 29 else fail.
(** getHashFunctionForKEM (Utils.cpp:125-142) *)
Definition getHashFunctionForKEM (kem : N) : res hashfn :=
  if kem =? 16 then Ok Sha256 else if kem =? 17 then Ok Sha384 else if kem =? 18 then Ok Sha512 else if kem =? 32 then Ok Sha256 else fail.
(** getHashFunction (Utils.cpp:144-158) *)
Definition getHashFunction (kdf : N) : res hashfn :=
  if kdf =? 1 then Ok Sha256 else if kdf =? 2 then Ok Sha384 else if kdf =? 3 then Ok Sha512 else fail.
(** getCipherSuite (Utils.cpp:160-174) *)
Definition getCipherSuite (a : N) : res N :=
  if a =? 1 then Ok 4865 else if a =? 2 then Ok 4866 else if a =? 3 then Ok 4867 else fail.
(** nenc (Utils.cpp:176-194) *)
Definition nenc (kem : N) : res N :=
  if kem =? 16 then Ok 65 else if kem =? 17 then Ok 97 else if kem =? 18 then Ok 133 else if kem =? 32 then Ok 32 else fail.
(** generateHpkeSuiteId (Utils.cpp:14-27) *)
Definition generateHpkeSuiteId (group : N) (h : hashfn) (suite : N) : res bytes :=
  kem <- getKEMId group ;; kdf <- getKDFId h ;; a <- getAeadId suite ;; Ok (hpkeSuiteId kem kdf a).
