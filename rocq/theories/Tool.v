(** * Text given to the tools: util/Parse-inl.h, record/Types.cpp's names, tool/FizzCommandCommon.{h,cpp}; client/FizzClientContext.cpp

    Not modelled of FizzCommandCommon: files, JSON, terminals, io_uring.  Handlers and the usage function of a command line are taken to return. *)
From Coq Require Import Strings.String Strings.Byte.
From Verif Require Import Base Codec Str Handshake Extensions HexLog DcPem EchCrypt KexObj.
Open Scope N_scope.
Open Scope list_scope.

(** ** Names: record/Types.h:126-147, 262-285, 327-; toString, Types.cpp:187-205, 217-322; enumToHex, Types-inl.h:864-871 *)
Definition cipherStrings : list (bytes * N) :=
  [(str "TLS_AES_128_GCM_SHA256", 0x1301); (str "TLS_AES_256_GCM_SHA384", 0x1302); (str "TLS_CHACHA20_POLY1305_SHA256", 0x1303); (str "TLS_AEGIS_256_SHA512", 0x1306);
   (str "TLS_AEGIS_128L_SHA256", 0x1307); (str "TLS_AEGIS_128X2_SHA256", 0xff01); (str "TLS_AEGIS_128X4_SHA256", 0xff03)].
Definition schemeStrings : list (bytes * N) :=
  [(str "ecdsa_secp256r1_sha256", 0x0403); (str "ecdsa_secp384r1_sha384", 0x0503); (str "ecdsa_secp521r1_sha512", 0x0603); (str "rsa_pss_sha256", 0x0804);
   (str "rsa_pss_sha384", 0x0805); (str "rsa_pss_sha512", 0x0806); (str "ed25519", 0x0807); (str "ed448", 0x0808);
   (str "ecdsa_secp256r1_sha256_batch", 0xfe00); (str "ecdsa_secp384r1_sha384_batch", 0xfe01); (str "ecdsa_secp521r1_sha512_batch", 0xfe02);
   (str "ed25519_batch", 0xfe03); (str "ed448_batch", 0xfe04); (str "rsa_pss_sha256_batch", 0xfe05);
   (str "rsa_pkcs1_sha256", 0x0401); (str "rsa_pkcs1_sha384", 0x0501); (str "rsa_pkcs1_sha512", 0x0601); (str "rsa_pkcs1_sha1", 0x0201); (str "ecdsa_sha1", 0x0203)].
Definition groupStrings : list (bytes * N) :=
  [(str "secp256r1", 23); (str "secp384r1", 24); (str "secp521r1", 25); (str "x25519", 29); (str "x448", 30); (str "MLKEM512", 512); (str "MLKEM768", 513);
   (str "MLKEM1024", 514); (str "SecP256r1MLKEM768", 4587); (str "X25519MLKEM512_FB", 65026); (str "X25519MLKEM768", 4588)].
Definition algoStrings : list (bytes * N) := [(str "zlib", 1); (str "brotli", 2); (str "zstd", 3)].
(** Of the groups, Kyber's deprecated names are left out. *)
Definition toStringOf (t : list (bytes * N)) (v : N) : bytes := match List.find (fun p => snd p =? v) t with Some (s, _) => s | None => hexlify (be 2 v) end.
(** The maps of parse, Parse-inl.h:13-94 *)
Definition cipherMap : list (bytes * N) :=
  [(str "TLS_AES_128_GCM_SHA256", 0x1301); (str "TLS_AES_256_GCM_SHA384", 0x1302); (str "TLS_CHACHA20_POLY1305_SHA256", 0x1303); (str "TLS_AEGIS_128L_SHA256", 0x1307);
   (str "TLS_AEGIS_128X2_SHA256", 0xff01); (str "TLS_AEGIS_128X4_SHA256", 0xff03); (str "TLS_AEGIS_256_SHA512", 0x1306)].
Definition schemeMap : list (bytes * N) :=
  [(str "ecdsa_secp256r1_sha256", 0x0403); (str "ecdsa_secp384r1_sha384", 0x0503); (str "ecdsa_secp521r1_sha512", 0x0603); (str "rsa_pss_sha256", 0x0804);
   (str "rsa_pss_sha384", 0x0805); (str "rsa_pss_sha512", 0x0806); (str "ed25519", 0x0807); (str "ed448", 0x0808)].
Definition groupMap : list (bytes * N) :=
  [(str "secp256r1", 23); (str "secp384r1", 24); (str "secp521r1", 25); (str "x25519", 29); (str "X25519MLKEM512_FB", 65026); (str "X25519MLKEM768", 4588);
   (str "MLKEM512", 512); (str "MLKEM768", 513); (str "MLKEM1024", 514)].
Definition algoMap : list (bytes * N) := [(str "zlib", 1); (str "brotli", 2); (str "zstd", 3)].
Definition parseOf (t : list (bytes * N)) (s : bytes) : res N := match List.find (fun p => bytes_eqb s (fst p)) t with Some (_, v) => Ok v | None => fail end.
(** splitParse, FizzCommandCommon.h:120-134, with folly::split(sep, arg, pieces, ignoreEmpty = false) for a separator of one character; FIZZ_THROW_ON_ERROR throws *)
Fixpoint splitOn (sep : byte) (s : bytes) : list bytes :=
  match s with
  | [] => [[]]
  | b :: r => if byte_eqb b sep then [] :: splitOn sep r else match splitOn sep r with p :: ps => (b :: p) :: ps | [] => [[b]] end
  end.
Fixpoint parseAll (t : list (bytes * N)) (l : list bytes) : res (list N) :=
  match l with
  | [] => Ok []
  | p :: r => match parseOf t p with Ok v => vs <- parseAll t r ;; Ok (v :: vs) | Err _ => Err EThrow end
  end.
Definition splitParse (t : list (bytes * N)) (sep : byte) (s : bytes) : res (list N) := parseAll t (splitOn sep s).

(** ** Ports: std::stoul (strtoul of base 10 on 64 bits: spaces, a sign, digits, anything) *)
Fixpoint skipSpace (s : bytes) : bytes := match s with b :: r => if isspace b then skipSpace r else s | [] => [] end.
Definition digit (b : byte) : option N := let n := b2n b in if (48 <=? n) && (n <=? 57) then Some (n - 48) else None.
Fixpoint digits (s : bytes) : list N := match s with b :: r => match digit b with Some d => d :: digits r | None => [] end | [] => [] end.
Definition value (ds : list N) : N := fold_left (fun a d => 10 * a + d) ds 0.
Definition stoul (s : bytes) : res N :=
  let s1 := skipSpace s in
  let '(neg, s2) := match s1 with b :: r => if byte_eqb b x2d then (true, r) else if byte_eqb b x2b then (false, r) else (false, s1) | [] => (false, s1) end in
  match digits s2 with
  | [] => Err EThrow
  | ds => let v := value ds in if 2 ^ 64 - 1 <? v then Err EThrow else Ok (if neg then (2 ^ 64 - v) mod 2 ^ 64 else v)
  end.
(** portFromString, FizzCommandCommon.h:59-76 *)
Definition portFromString (s : bytes) (serverSide : bool) : res N :=
  v <- stoul s ;; if v <=? 65535 then if (v =? 0) && negb serverSide then Err EThrow else Ok v else Err EThrow.
(** s.rfind(c) *)
Fixpoint rfind (c : byte) (s : bytes) : option N :=
  match s with [] => None | b :: r => match rfind c r with Some n => Some (n + 1) | None => if byte_eqb b c then Some 0 else None end end.
(** hostPortFromString :78-102.  rfind(':', colonIdx - 1) of colon 0 looks at the whole text; the first character is then that colon, so at(colonIdx - 1) is not
    evaluated. *)
Definition hostPortFromString (s : bytes) : res (bytes * N) :=
  match rfind x3a s with
  | None => Err EThrow
  | Some i =>
      '(start, length) <- match rfind x3a (if i =? 0 then s else takeN i s) with
        | Some _ => match s, dropN (i - 1) s with
                    | f :: _, e :: _ => if negb (byte_eqb f x5b) || negb (byte_eqb e x5d) then Err EThrow else Ok (1, i - 2)
                    | _, _ => Err EUB
                    end
        | None => Ok (0, i)
        end ;;
      host <- substr s start length ;;
      rest <- substr s (i + 1) (size_t (-1)) ;;
      port <- portFromString rest false ;;
      Ok (host, port)
  end.

(** ** parseArguments, FizzCommandCommon.cpp:25-61: the handler calls made and the value returned.  [H]: whether an argument has a handler, and its hasVariable *)
Fixpoint parseArgs (H : bytes -> option bool) (l : list bytes) : list (bytes * bytes) * N :=
  match l with
  | [] => ([], 0)
  | a :: r =>
      if bytes_eqb a (str "-v") || bytes_eqb a (str "-vmodule") then match r with [] => ([], 0) | _ :: r' => parseArgs H r' end
      else match H a with
      | Some true => match r with [] => ([], 1) | v :: r' => let '(c, e) := parseArgs H r' in ((a, v) :: c, e) end
      | Some false => let '(c, e) := parseArgs H r in ((a, []) :: c, e)
      | None => ([], 1)
      end
  end.
Definition parseArguments (H : bytes -> option bool) (argv : list bytes) := parseArgs H (skipn 2 argv).

(** ** ECH configurations and extensions *)
(** folly::trimWhitespace *)
Definition wspace (b : byte) : bool := byte_eqb b x20 || byte_eqb b x0a || byte_eqb b x0d || byte_eqb b x09.
Fixpoint ltrim (s : bytes) : bytes := match s with b :: r => if wspace b then ltrim r else s | [] => [] end.
Definition trim (s : bytes) : bytes := rev (ltrim (rev (ltrim s))).
(** decode<ECHConfigList>, protocol/ech/Types-inl.h:274-284, from a cursor *)
Definition decodeConfigList (b : bytes) : res (list (N * buf)) := '(l, _, _) <- read_vec W16 c_ech_config b ;; Ok l.
(** parseECHConfigsBase64, FizzCommandCommon.cpp:153-180 *)
Fixpoint supportedConfigs (l : list (N * buf)) : res (list echcfg) :=
  match l with
  | [] => Ok []
  | c :: r => x <- parseSupportedECHConfig c ;; xs <- supportedConfigs r ;; Ok (match x with Some e => e :: xs | None => xs end)
  end.
Definition parseECHConfigsBase64 (s : bytes) : res (option (list echcfg)) :=
  b <- base64Decode (trim s) ;; l <- decodeConfigList b ;; cs <- supportedConfigs l ;;
  Ok (match cs with [] => None | _ => Some cs end).
(** getExtensions :92-110; folly::unhexlify throws where fizz's fails, FIZZ_THROW_ON_ERROR turns a Status into an exception, FIZZ_CHECK aborts *)
Definition throwing {A} (r : res A) : res A := match r with Err (EStatus _) => Err EThrow | _ => r end.
Definition getExtensions (hex : bytes) : res (list Extension) :=
  b <- throwing (unhexlify hex) ;; w <- throwing (write_buf W16 (Some b)) ;;
  '(l, r) <- match w with [] => Ok ([], []) | _ => throwing (read_exts w) end ;;
  match r with [] => Ok l | _ => Err ECheck end.

(** ** FizzClientContext::validate, FizzClientContext.cpp:20-45; [aead]: Factory::makeAead *)
Fixpoint allOk {A} (f : A -> res unit) (l : list A) : res unit := match l with [] => Ok tt | x :: r => _ <- f x ;; allOk f r end.
Definition validate (L : klibs) (aead : N -> res unit) (ciphers groups shares : list N) : res unit :=
  _ <- allOk aead ciphers ;;
  _ <- allOk (fun g => _ <- makeKeyExchange L g RClient ;; Ok tt) groups ;;
  allOk (fun s => if existsb (N.eqb s) groups then Ok tt else fail) shares.
