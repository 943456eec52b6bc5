(** * Hexadecimal text and key logs (util/Hex.cpp, util/KeyLogWriter.h)

    folly::hexlify, which the log uses, writes the same text as fizz::hexlify; fmt::format and the stream are taken to write what they are given. *)
From Coq Require Import Strings.String Strings.Byte.
From Verif Require Import Base KeySched.
Open Scope N_scope.
Open Scope list_scope.

Definition txt (s : string) : bytes := list_byte_of_string s.

(** ** util/Hex.cpp *)
(** kHexValues :19 *)
Definition kHexValues : bytes := txt "0123456789abcdef".
Definition hexDigit (n : N) : byte := nth (N.to_nat n) kHexValues x00.
(** kHexTable, makeHexTable :21-34: 16 for a character that is no digit *)
Definition kHexTable (b : byte) : N :=
  let c := b2n b in
  if (48 <=? c) && (c <? 58) then c - 48 else if (97 <=? c) && (c <? 103) then 10 + (c - 97) else if (65 <=? c) && (c <? 71) then 10 + (c - 65) else 16.
(** hexlify :39-47 *)
Fixpoint hexlify (b : bytes) : bytes :=
  match b with [] => [] | x :: r => hexDigit (N.land (N.shiftr (b2n x) 4) 15) :: hexDigit (N.land (b2n x) 15) :: hexlify r end.
(** unhexlify :49-64; [static_cast<char>((highBits << 4) + lowBits)] *)
Fixpoint unhexPairs (s : bytes) : res bytes :=
  match s with
  | a :: b :: r =>
      let h := kHexTable a in let l := kHexTable b in
      if negb (N.land (N.lor h l) 16 =? 0) then fail
      else x <- unhexPairs r ;; Ok (n2b ((N.shiftl h 4 + l) mod 256) :: x)
  | _ => Ok []
  end.
Definition unhexlify (s : bytes) : res bytes := if negb (blen s mod 2 =? 0) then fail else unhexPairs s.

(** ** util/KeyLogWriter.h *)
(** Label :29-49 *)
Inductive nsslabel :=
| L_RSA | L_CLIENT_RANDOM | L_CLIENT_EARLY_TRAFFIC_SECRET | L_CLIENT_HANDSHAKE_TRAFFIC_SECRET | L_SERVER_HANDSHAKE_TRAFFIC_SECRET
| L_CLIENT_TRAFFIC_SECRET_0 | L_SERVER_TRAFFIC_SECRET_0 | L_EARLY_EXPORTER_SECRET | L_EXPORTER_SECRET.
(** SecretType, protocol/KeyScheduler.h:18-43 *)
Inductive secretType := STEarly (s : early_secrets) | STHandshake (s : hs_secrets) | STMaster (s : master_secrets) | STApp (s : app_secrets).
(** secretToNSSLabel :74-140 *)
Definition secretToNSSLabel (t : secretType) : option nsslabel :=
  match t with
  | STEarly ClientEarlyTraffic => Some L_CLIENT_EARLY_TRAFFIC_SECRET
  | STEarly EarlyExporter => Some L_EARLY_EXPORTER_SECRET
  | STEarly _ => None
  | STHandshake ClientHandshakeTraffic => Some L_CLIENT_HANDSHAKE_TRAFFIC_SECRET
  | STHandshake ServerHandshakeTraffic => Some L_SERVER_HANDSHAKE_TRAFFIC_SECRET
  | STHandshake _ => None
  | STMaster ExporterMaster => Some L_EXPORTER_SECRET
  | STMaster _ => None
  | STApp ClientAppTraffic => Some L_CLIENT_TRAFFIC_SECRET_0
  | STApp ServerAppTraffic => Some L_SERVER_TRAFFIC_SECRET_0
  end.
(** labelToString :186-211 *)
Definition labelToString (l : nsslabel) : bytes :=
  match l with
  | L_RSA => txt "RSA"
  | L_CLIENT_RANDOM => txt "CLIENT_RANDOM"
  | L_CLIENT_EARLY_TRAFFIC_SECRET => txt "CLIENT_EARLY_TRAFFIC_SECRET"
  | L_CLIENT_HANDSHAKE_TRAFFIC_SECRET => txt "CLIENT_HANDSHAKE_TRAFFIC_SECRET"
  | L_SERVER_HANDSHAKE_TRAFFIC_SECRET => txt "SERVER_HANDSHAKE_TRAFFIC_SECRET"
  | L_CLIENT_TRAFFIC_SECRET_0 => txt "CLIENT_TRAFFIC_SECRET_0"
  | L_SERVER_TRAFFIC_SECRET_0 => txt "SERVER_TRAFFIC_SECRET_0"
  | L_EARLY_EXPORTER_SECRET => txt "EARLY_EXPORTER_SECRET"
  | L_EXPORTER_SECRET => txt "EXPORTER_SECRET"
  end.
(** generateLogLine :169-178 and write :151-156: the file is opened for appending (:181-183) *)
Definition generateLogLine (random : bytes) (l : nsslabel) (secret : bytes) : bytes :=
  labelToString l ++ [x20] ++ hexlify random ++ [x20] ++ hexlify secret ++ [x0a].
Definition write (file : bytes) (random : bytes) (l : nsslabel) (secret : bytes) : bytes := file ++ generateLogLine random l secret.
