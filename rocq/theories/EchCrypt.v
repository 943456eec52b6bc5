(** * Encrypted ClientHello: protocol/ech/Encryption.cpp, protocol/ech/Decrypter.cpp, protocol/ech/Types-inl.h,
    protocol/ech/Types.cpp, crypto/hpke/Utils.h:184-197.

    Modelled as parameters: the hash functions and AEADs the Factory makes ([echfac]), key exchange objects
    (Kex.v), random bytes of the GREASE pre-shared key (an oracle argument). *)
From Verif Require Import Base Codec Str Hkdf Kex Record Hpke HpkeUtils Handshake Extensions Transcript IOBufUtil.

(** ** ECHConfigContentDraft (Types.h:61-141): HpkeKeyConfig flattened; cipher suites are (kdf_id, aead_id) *)
Record echcfg := mkEchCfg { ec_id : N; ec_kem : N; ec_pk : buf; ec_suites : list (N * N); ec_maxname : N;
  ec_name : bytes; ec_exts : list Extension }.
Definition c_hsuite : codec (N * N) := c_pair (c_u 2) (c_u 2).
(** write<ECHConfigContentDraft>, Types-inl.h:24-50, 230-240; writeString (record/Types-inl.h:205-209) is writeBuf of the characters *)
Definition encode_cfg (c : echcfg) : res bytes :=
  i <- write_u 1 (ec_id c) ;; k <- write_u 2 (ec_kem c) ;; p <- write_buf W16 (ec_pk c) ;;
  s <- write_vec W16 c_hsuite (ec_suites c) ;; m <- write_u 1 (ec_maxname c) ;; n <- write_buf W8 (Some (ec_name c)) ;;
  x <- write_exts (ec_exts c) ;; Ok (i ++ k ++ p ++ s ++ m ++ n ++ x).
(** Reader<HpkeKeyConfig>, Reader<ECHConfigContentDraft>, Types-inl.h:142-205 ([readBuf] never yields null, so the public key
    check never fires) *)
Definition decode_cfg (inp : bytes) : res (echcfg * bytes) :=
  '(i, _, r0) <- read_u 1 inp ;; '(k, _, r1) <- read_u 2 r0 ;; '(p, _, r2) <- read_buf W16 r1 ;;
  '(s, _, r3) <- read_vec W16 c_hsuite r2 ;; '(m, _, r4) <- read_u 1 r3 ;; '(n, _, r5) <- read_buf W8 r4 ;;
  match n with
  | Some ((_ :: _) as name) => '(x, r6) <- read_exts r5 ;; Ok (mkEchCfg i k p s m name x, r6)
  | _ => fail
  end.
(** parseSupportedECHConfig, Types.cpp:13-27: other versions are ignored, so are bytes after the content *)
Definition parseSupportedECHConfig (c : N * buf) : res (option echcfg) :=
  if fst c =? 65037 then
    match snd c with
    | None => Err EUB
    | Some d => '(x, _) <- decode_cfg d ;; Ok (Some x)
    end
  else Ok None.

(** ** isValidPublicName, Encryption.cpp:97-122 (std::isalnum in the C locale) *)
Definition isalnum (b : byte) : bool :=
  let n := b2n b in ((48 <=? n) && (n <=? 57)) || ((65 <=? n) && (n <=? 90)) || ((97 <=? n) && (n <=? 122)).
Definition ldh (b : byte) : bool := isalnum b || byte_eqb b x2d.
(** folly::split('.', s, parts, false) *)
Fixpoint split_dot (s : bytes) : list bytes :=
  match s with
  | [] => [[]]
  | b :: r => if byte_eqb b x2e then [] :: split_dot r
              else match split_dot r with p :: ps => (b :: p) :: ps | [] => [[b]] end
  end.
Definition isValidPublicName (s : bytes) : bool :=
  match s with
  | [] => false
  | b :: _ =>
      if byte_eqb b x2e || byte_eqb (last s x00) x2e then false
      else forallb (fun p => match p with [] => false | _ => forallb ldh p end) (split_dot s)
  end.

(** echConfigHasMandatoryExtension :133-144 *)
Definition hasMandatory (c : echcfg) : bool := existsb (fun e => negb (N.land 32768 (ext_type e) =? 0)) (ec_exts c).

(** getHashFunction(CipherSuite) (protocol/Protocol.h) restricted to the suites of HPKE AEADs *)
Definition suiteHash (cs : N) : res hashfn :=
  if cs =? 4865 then Ok Sha256 else if cs =? 4866 then Ok Sha384 else if cs =? 4867 then Ok Sha256 else fail.

Record negcfg := mkNeg { ng_cfg : echcfg; ng_id : N; ng_max : N; ng_suite : N * N }.
(** negotiateECHConfig :146-204: the loop over the config's suites, then over the configs *)
Fixpoint pick_suite (aeads : list N) (l : list (N * N)) : res (option (N * N)) :=
  match l with
  | [] => Ok None
  | (kdf, ae) :: r =>
      if existsb (N.eqb ae) aeads then
        cs <- getCipherSuite ae ;; h <- suiteHash cs ;; k <- getKDFId h ;;
        if kdf =? k then Ok (Some (kdf, ae)) else pick_suite aeads r
      else pick_suite aeads r
  end.
Fixpoint negotiateECHConfig (kems aeads : list N) (l : list echcfg) : res (option negcfg) :=
  match l with
  | [] => Ok None
  | c :: r =>
      if hasMandatory c then negotiateECHConfig kems aeads r
      else if negb (isValidPublicName (ec_name c)) then negotiateECHConfig kems aeads r
      else if negb (existsb (N.eqb (ec_kem c)) kems) then negotiateECHConfig kems aeads r
      else
        s <- pick_suite aeads (ec_suites c) ;;
        match s with
        | Some su => Ok (Some (mkNeg c (ec_id c) (ec_maxname c) su))
        | None => negotiateECHConfig kems aeads r
        end
  end.

(** ** HPKE contexts *)
(** Factory::makeHasherFactory and Factory::makeAead *)
Record echfac := mkFac { fa_hash : hashfn -> hashalg; fa_aead : N -> res aeadalg }.
(** hpke::Hkdf::v1 (crypto/hpke/Hkdf.h) *)
Definition hpke_v1 : bytes := str "HPKE-v1".
(** makeHpkeContextInfoParam :77-95 *)
Definition echInfo (c : echcfg) : res bytes :=
  body <- encode_cfg c ;;
  enc <- (v <- write_u 2 65037 ;; b <- write_buf W16 (Some body) ;; Ok (v ++ b)) ;;
  Ok (str "tls ech" ++ [x00] ++ enc).
(** constructHpkeSetupResult :241-285 with getSetupParam :206-239; the DHKEM is given the hash of the *KDF* id.
    [e] is the key exchange after generateKeyPair. Returns (enc, context). *)
Definition constructHpkeSetupResult (fa : echfac) (e : kex) (ng : negcfg) : res (bytes * hctx) :=
  let c := ng_cfg ng in
  h <- getHashFunction (fst (ng_suite ng)) ;;
  group <- getKexGroup (ec_kem c) ;;
  info <- echInfo c ;;
  cs <- getCipherSuite (snd (ng_suite ng)) ;;
  suite <- generateHpkeSuiteId group h cs ;;
  alg <- fa_aead fa cs ;;
  match ec_pk c with
  | None => Err EUB
  | Some pk => setupWithEncap (fa_hash fa h) (fa_hash fa h) hpke_v1 suite group alg Base_ e None pk info None 0
  end.
(** setupDecryptionContext :813-867 *)
Definition setupDecryptionContext (fa : echfac) (c : echcfg) (suite : N * N) (enc : buf) (r : kex) (seq : N) : res hctx :=
  group <- getKexGroup (ec_kem c) ;;
  h <- getHashFunction (fst suite) ;;
  cs <- getCipherSuite (snd suite) ;;
  sid <- generateHpkeSuiteId group h cs ;;
  alg <- fa_aead fa cs ;;
  info <- echInfo c ;;
  match enc with
  | None => Err EUB
  | Some enc => setupWithDecap (fa_hash fa h) (fa_hash fa h) hpke_v1 sid group alg Base_ r enc None info None seq
  end.

(** hpke::getCipherOverhead (crypto/hpke/Utils.h:184-197) *)
Definition getCipherOverhead (ae : N) : res N := if (ae =? 1) || (ae =? 2) || (ae =? 3) then Ok 16 else fail.

(** ** GREASE pre-shared key :486-555; [rnd n i] are the i-th random bytes drawn, n of them *)
Fixpoint greaseItems (keep : bool) (rnd : N -> N -> bytes) (i : N) (ids : list (buf * N)) (bs : list buf) : res (list (buf * N) * list buf) :=
  match ids with
  | [] => Ok ([], [])
  | (id, _) :: ids' =>
      match bs with
      | [] => Err EThrow
      | b :: bs' =>
          match (if keep then id else Some (rnd 16 (3 * i))), b with
          | Some id', Some b' =>
              '(l, m) <- greaseItems keep rnd (i + 1) ids' bs' ;;
              Ok ((Some id', unbe (rev (rnd 4 (3 * i + 1)))) :: l, Some (rnd (blen b') (3 * i + 2)) :: m)
          | _, _ => Err EUB
          end
      end
  end.
(** generateGreasePSK :526-545, generateGreasePSKForHRR :547-555 *)
Definition generateGreasePSK (rnd : N -> N -> bytes) (inner : ClientHello) : res (option (list (buf * N) * list buf)) :=
  x <- getExtension KClientPresharedKey (ch_extensions inner) ;;
  match x with
  | Some (XClientPresharedKey (ids, bs)) => g <- greaseItems false rnd 0 ids bs ;; Ok (Some g)
  | _ => Ok None
  end.
Definition generateGreasePSKForHRR (rnd : N -> N -> bytes) (p : list (buf * N) * list buf) : res (list (buf * N) * list buf) :=
  greaseItems true rnd 0 (fst p) (snd p).

(** calculateECHPadding :557-585; [.at(0)] of an empty list throws, size_t arithmetic does not wrap for reachable sizes *)
Definition calculateECHPadding (c : ClientHello) (encodedSize maxLen : N) : res N :=
  x <- getExtension KServerNameList (ch_extensions c) ;;
  pad <- match x with
         | Some (XServerNameList l) =>
             match l with
             | [] => Err EThrow
             | (_, None) :: _ => Err EUB
             | (_, Some n) :: _ => Ok (if blen n <? maxLen then maxLen - blen n else 0)
             end
         | _ => Ok (maxLen + 9)
         end ;;
  Ok (pad + (31 - ((encodedSize + pad - 1) mod 32))).

(** ** Outer extensions *)
(** the std::find_if of generateAndReplaceOuterExtensions: replace, or erase, the first extension of type [t] *)
Fixpoint replaceFirst (t : N) (x : list Extension) (l : list Extension) : res (list Extension) :=
  match l with
  | [] => Err EUB
  | e :: r => if ext_type e =? t then Ok (x ++ r) else r' <- replaceFirst t x r ;; Ok (e :: r')
  end.
Fixpoint eraseAll (ts : list N) (l : list Extension) : res (list Extension) :=
  match ts with [] => Ok l | t :: r => l' <- replaceFirst t [] l ;; eraseAll r l' end.
(** generateAndReplaceOuterExtensions :587-625 *)
Definition generateAndReplaceOuterExtensions (exts : list Extension) (outer : list N) : res (list Extension) :=
  match filter (fun t => existsb (N.eqb t) outer) (map ext_type exts) with
  | [] => Ok exts
  | t :: ts =>
      o <- encodeExtension (XEchOuterExtensions (t :: ts)) ;;
      l <- replaceFirst t [o] exts ;; eraseAll ts l
  end.

(** substituteOuterExtensions :869-951. [None]: an error of category OuterExtensions (all its errors are). *)
Fixpoint scanOuter (t : N) (l : list Extension) : option (Extension * list Extension) :=
  match l with
  | [] => None
  | e :: r => if ext_type e =? t then Some (e, r) else scanOuter t r
  end.
Fixpoint expandTypes (seen : list N) (ts : list N) (outer : list Extension) : option (list Extension * list N) :=
  match ts with
  | [] => Some ([], seen)
  | t :: r =>
      if existsb (N.eqb t) seen then None
      else if t =? 65037 then None
      else match scanOuter t outer with
           | None => None
           | Some (e, outer') =>
               match expandTypes (t :: seen) r outer' with
               | None => None
               | Some (l, s) => Some (e :: l, s)
               end
           end
  end.
Fixpoint substituteOuterExtensions (seen : list N) (inner outer : list Extension) : option (list Extension) :=
  match inner with
  | [] => Some []
  | e :: r =>
      if existsb (N.eqb (ext_type e)) seen then None
      else if negb (ext_type e =? 64768) then
        match substituteOuterExtensions (ext_type e :: seen) r outer with
        | None => None
        | Some l => Some (e :: l)
        end
      else
        match ext_data e with
        | None => None
        | Some d =>
            match read_ext_body KEchOuterExtensions d with
            | Ok (XEchOuterExtensions ts, _) =>
                match expandTypes (ext_type e :: seen) ts outer with
                | None => None
                | Some (x, s) =>
                    match substituteOuterExtensions s r outer with
                    | None => None
                    | Some l => Some (x ++ l)
                    end
                end
            | _ => None
            end
        end
  end.

(** ** Encryption *)
Definition with_exts (c : ClientHello) (l : list Extension) : ClientHello :=
  mkCH (ch_version c) (ch_random c) (ch_session_id c) (ch_suites c) (ch_compression c) l.
Definition with_sid (c : ClientHello) (s : buf) : ClientHello :=
  mkCH (ch_version c) (ch_random c) s (ch_suites c) (ch_compression c) (ch_extensions c).
Definition greaseExt (g : option (list (buf * N) * list buf)) : res (list Extension) :=
  match g with None => Ok [] | Some p => x <- encodeExtension (XClientPresharedKey p) ;; Ok [x] end.

(** encryptClientHelloImpl :629-702: context afterwards and the payload *)
Definition encryptImpl (ctx : hctx) (suite : N * N) (cid : N) (enc : buf) (inner outer : ClientHello)
    (grease : option (list (buf * N) * list buf)) (maxLen : N) (outerTypes : list N) : hctx * res bytes :=
  let prep :=
    x <- generateAndReplaceOuterExtensions (ch_extensions inner) outerTypes ;;
    body <- encode_ch (with_exts (with_sid inner (Some [])) x) ;;
    pad <- calculateECHPadding inner (blen body) maxLen ;;
    let pt := body ++ zeros pad in
    ov <- getCipherOverhead (snd suite) ;;
    dummy <- encodeExtension (XEchOuter (fst suite, snd suite, cid, enc, Some (zeros (blen pt + ov)))) ;;
    g <- greaseExt grease ;;
    aad <- encode_ch (with_exts outer (ch_extensions outer ++ [dummy] ++ g)) ;;
    Ok (aad, pt) in
  match prep with
  | Err e => (ctx, Err e)
  | Ok (aad, pt) =>
      match hseal ctx (Some aad) pt with
      | (c', Some ct, Ok tt) => (c', Ok ct)
      | (c', _, Err e) => (c', Err e)
      | (c', None, Ok tt) => (c', Err EUB)
      end
  end.
(** encryptClientHello :733-758 and encryptClientHelloHRR :706-731 (empty enc): the OuterECHClientHello extension *)
Definition encryptClientHello (ng : negcfg) (enc : buf) (ctx : hctx) (inner outer : ClientHello) grease outerTypes
    : hctx * res tyext :=
  let '(c, r) := encryptImpl ctx (ng_suite ng) (ng_id ng) enc inner outer grease (ng_max ng) outerTypes in
  (c, ct <- r ;; Ok (XEchOuter (fst (ng_suite ng), snd (ng_suite ng), ng_id ng, enc, Some ct))).
Definition encryptClientHelloHRR (ng : negcfg) (ctx : hctx) (inner outer : ClientHello) grease outerTypes : hctx * res tyext :=
  encryptClientHello ng (Some []) ctx inner outer grease outerTypes.
(** the outer ClientHello that goes on the wire (client/ClientProtocol.cpp:931-945) *)
Definition attachECH (outer : ClientHello) (x : tyext) (grease : option (list (buf * N) * list buf)) : res ClientHello :=
  e <- encodeExtension x ;; g <- greaseExt grease ;;
  Ok (with_exts outer (ch_extensions outer ++ [e] ++ g)).

(** ** Decryption *)
(** makeClientHelloOuterForAad :26-56: the first ECH extension's payload is zeroed and the extension re-encoded *)
Fixpoint zeroPayload (l : list Extension) : res (list Extension) :=
  match l with
  | [] => Err EUB
  | e :: r =>
      if ext_type e =? 65037 then
        match ext_data e with
        | None => Err EUB
        | Some d =>
            '(x, _) <- read_ext_body KEchOuter d ;;
            match x with
            | XEchOuter (kdf, ae, cid, enc, Some p) =>
                e' <- encodeExtension (XEchOuter (kdf, ae, cid, enc, Some (zeros (blen p)))) ;; Ok (e' :: r)
            | _ => Err EUB
            end
        end
      else r' <- zeroPayload r ;; Ok (e :: r')
  end.
Definition outerForAad (c : ClientHello) : res bytes :=
  l <- zeroPayload (ch_extensions c) ;; encode_ch (with_exts c l).
(** skipWhile(b == 0), isAtEnd *)
Definition all_zero (l : bytes) : bool := forallb (fun b => byte_eqb b x00) l.
(** decryptECHWithContext :760-811 with extractEncodedClientHelloInner :58-75: context afterwards and
    the inner ClientHello with its originalEncoding, or [DOuter] for an OuterExtensions error. *)
Inductive dres (A : Type) := DOk (a : A) | DOuter | DErr (e : err).
Arguments DOk {A}. Arguments DOuter {A}. Arguments DErr {A}.
Definition decryptECHWithContext (outer : ClientHello) (payload : buf) (ctx : hctx) : hctx * dres (ClientHello * bytes) :=
  match outerForAad outer, payload with
  | Err e, _ => (ctx, DErr e)
  | _, None => (ctx, DErr EUB)
  | Ok aad, Some ct =>
      match hopen ctx (Some aad) ct with
      | (c', _, Err e) => (c', DErr e)
      | (c', None, Ok tt) => (c', DErr EUB)
      | (c', Some pt, Ok tt) =>
          (c', match decode_ch pt with
               | Err e => DErr e
               | Ok (ch, rest) =>
                   if negb (all_zero rest) then DErr (EStatus None)
                   else match ch_session_id outer with
                   | None => DErr EUB
                   | Some _ =>
                     match substituteOuterExtensions [] (ch_extensions ch) (ch_extensions outer) with
                     | None => DOuter
                     | Some l =>
                         let r := with_exts (with_sid ch (ch_session_id outer)) l in
                         match encodeHandshake (MClientHello r) with
                         | Ok o => DOk (r, o)
                         | Err e => DErr e
                         end
                     end
                   end
               end)
      end
  end.

(** ** ECHConfigManager (Decrypter.cpp). DecrypterParams = (config, key exchange). *)
(** decodeAndGetParam :31-49 on the first ECH extension *)
Definition decodeAndGetParam (e : Extension) (ps : list (echcfg * kex)) : res (option ((N * N * N * buf * buf) * (echcfg * kex))) :=
  match ext_data e with
  | None => Err EUB
  | Some d =>
      '(x, _) <- read_ext_body KEchOuter d ;;
      match x with
      | XEchOuter (kdf, ae, cid, enc, pl) =>
          Ok (match find (fun p => cid =? ec_id (fst p)) ps with
              | Some p => Some ((kdf, ae, cid, enc, pl), p)
              | None => None
              end)
      | _ => Err EUB
      end
  end.
(** decryptClientHello :194-207 and tryToDecodeECH :51-109: (inner, originalEncoding, config id, context), or none.
    A std::exception is swallowed; an abort or undefined behaviour is not. *)
Definition decryptClientHello (fa : echfac) (ps : list (echcfg * kex)) (c : ClientHello)
    : res (option (ClientHello * bytes * N * hctx)) :=
  match findExtension 65037 (ch_extensions c) with
  | None => Ok None
  | Some e =>
      m <- decodeAndGetParam e ps ;;
      match m with
      | None => Ok None
      | Some ((kdf, ae, cid, enc, pl), (cfg, kx)) =>
          match setupDecryptionContext fa cfg (kdf, ae) enc kx 0 with
          | Err EUB => Err EUB
          | Err ECheck => Err ECheck
          | Err _ => Ok None
          | Ok ctx =>
              match decryptECHWithContext c pl ctx with
              | (ctx', DOk (i, o)) => Ok (Some (i, o, cid, ctx'))
              | (_, DOuter) => failA 47
              | (_, DErr EUB) => Err EUB
              | (_, DErr ECheck) => Err ECheck
              | (_, DErr _) => Ok None
              end
          end
      end
  end.
(** decodeClientHelloHRR :111-186: [Some ctx] keeps the context of the first hello, [None] recreates it from the first
    hello's [encKey] with sequence number 1. missing_extension 109, decrypt_error 51, illegal_parameter 47.
    Returns the context afterwards too. *)
Definition decryptClientHelloHRR (fa : echfac) (ps : list (echcfg * kex)) (c : ClientHello) (ctx : option hctx) (encKey : buf)
    : res (ClientHello * bytes * hctx) :=
  match findExtension 65037 (ch_extensions c) with
  | None => failA 109
  | Some e =>
      m <- decodeAndGetParam e ps ;;
      match m with
      | None => failA 51
      | Some ((kdf, ae, cid, enc, pl), (cfg, kx)) =>
          cx <- match ctx with Some x => Ok x | None => setupDecryptionContext fa cfg (kdf, ae) encKey kx 1 end ;;
          match decryptECHWithContext c pl cx with
          | (ctx', DOk (i, o)) => Ok (i, o, ctx')
          | (_, DOuter) => failA 47
          | (_, DErr e) => Err e
          end
      end
  end.
(** getRetryConfigs :228-252 *)
Fixpoint mapR {A B} (f : A -> res B) (l : list A) : res (list B) :=
  match l with [] => Ok [] | a :: r => b <- f a ;; bs <- mapR f r ;; Ok (b :: bs) end.
Definition retryConfig (p : echcfg * kex) : res (N * buf) := b <- encode_cfg (fst p) ;; Ok (65037, Some b).
Definition matchesSni (sni : option bytes) (p : echcfg * kex) : bool :=
  match sni with Some s => bytes_eqb s (ec_name (fst p)) | None => false end.
Definition getRetryConfigs (ps : list (echcfg * kex)) (sni : option bytes) : res (list (N * buf)) :=
  all <- mapR (fun p => x <- retryConfig p ;; Ok (matchesSni sni p, x)) ps ;;
  Ok (map snd (filter fst all) ++ map snd (filter (fun q => negb (fst q)) all)).
