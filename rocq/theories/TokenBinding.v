(** * extensions/tokenbinding (RFC 8471, RFC 8472); server/MultiServerExtensions.cpp, client/MultiClientExtensions.cpp

    OpenSSL appears as the functions of [tbossl].  Buffers are contiguous except where the code looks at one contiguous piece only ([peek]). *)
From Verif Require Import Base Codec Handshake Extensions Negotiate.
Open Scope N_scope.

(** ** Types.h, Types.cpp *)
Definition k_ecdsap256 : N := 2.               (* TokenBindingKeyParameters::ecdsap256, Types.h:31 *)
Definition k_ed25519 : N := 239.               (* ed25519_experimental, Types.h:32 *)
(** TokenBindingID, Types.h:42-45; TokenBinding :52-59 *)
Record tbid := mkTbid { ti_params : N; ti_key : buf }.
Record tbind := mkTb { tb_type : N; tb_id : tbid; tb_sig : buf; tb_exts : buf }.
(** read/write/getSize<TokenBindingID>, Types.cpp:20-46; <TokenBinding> :48-82 *)
Definition c_tbid : codec tbid := c_iso (fun p => mkTbid (fst p) (snd p)) (fun i => (ti_params i, ti_key i)) (c_pair (c_u 1) (c_buf W16)).
Definition c_tbind : codec tbind :=
  c_iso (fun p => mkTb (fst (fst (fst p))) (snd (fst (fst p))) (snd (fst p)) (snd p)) (fun b => (tb_type b, tb_id b, tb_sig b, tb_exts b))
    (c_pair (c_pair (c_pair (c_u 1) c_tbid) (c_buf W16)) (c_buf W16)).
(** encode(TokenBindingMessage), Types.cpp:147-155; decode :157-163 with a cursor over the input: what follows the message is not looked at *)
Definition encodeMessage (l : list tbind) : res bytes := write_vec W16 c_tbind l.
Definition decodeMessage (inp : bytes) : res (list tbind) := '(l, _, _) <- read_vec W16 c_tbind inp ;; Ok l.

(** ** TokenBindingContext.h *)
Record tbctx := mkTbctx { tc_versions : list N; tc_params : list N }.
(** std::is_sorted with std::greater: no element is greater than the one before it *)
Fixpoint is_sorted_desc (l : list N) : bool :=
  match l with a :: (b :: _) as r => negb (a <? b) && is_sorted_desc r | _ => true end.
(** std::unique returns the end: no two neighbours are equal *)
Fixpoint no_repeat (l : list N) : bool :=
  match l with a :: (b :: _) as r => negb (a =? b) && no_repeat r | _ => true end.
(** setSupportedVersions :24-40 *)
Definition setSupportedVersions (c : tbctx) (v : list N) : res tbctx :=
  if negb (is_sorted_desc v) then fail
  else if negb (no_repeat v) then fail
  else Ok (mkTbctx v (tc_params c)).
(** setSupportedKeyParameters :48-51; the initial values :57-61 *)
Definition setSupportedKeyParameters (c : tbctx) (l : list N) : tbctx := mkTbctx (tc_versions c) l.
Definition tb_default : tbctx := mkTbctx [256] [k_ecdsap256].

(** ** TokenBindingServerExtension.h *)
(** getExtension<TokenBindingParameters>, Types.cpp:108-127 *)
Definition getParams (l : list Extension) : res (option (N * list N)) :=
  x <- getExtension KTokenBinding l ;; Ok (match x with Some (XTokenBinding p) => Some p | _ => None end).
(** negotiateVersion :60-68 *)
Fixpoint negotiateVersion (versions : list N) (clientPref : N) : option N :=
  match versions with
  | [] => None
  | p :: r => if p <=? clientPref then Some p else negotiateVersion r clientPref
  end.
(** getExtensions :25-49: what is sent, and negotiatedKeyParam_ *)
Definition serverExtensions (c : tbctx) (chlo : list Extension) : res (list Extension * option N) :=
  params <- getParams chlo ;;
  match params with
  | None => Ok ([], None)
  | Some (v, ks) =>
      match negotiate (tc_params c) ks, negotiateVersion (tc_versions c) v with
      | Some k, Some nv => e <- encodeExtension (XTokenBinding (nv, [k])) ;; Ok ([e], Some k)
      | _, _ => Ok ([], None)
      end
  end.
(** ** TokenBindingClientExtension.cpp *)
(** getClientHelloExtensions :15-30 *)
Definition clientExtensions (c : tbctx) : res (list Extension) :=
  match tc_versions c, tc_params c with
  | v :: _, _ :: _ => e <- encodeExtension (XTokenBinding (v, tc_params c)) ;; Ok [e]
  | _, _ => Ok []
  end.
(** onEncryptedExtensions :32-75: negotiatedVersion_ and negotiatedKeyParam_ if they are set; unsupported_extension = 110.  front() of an empty
    vector is undefined. *)
Definition onEncryptedExtensions (c : tbctx) (ee : list Extension) : res (option (N * N)) :=
  params <- getParams ee ;;
  match params with
  | None => Ok None
  | Some (v, ks) =>
      match ks with
      | [k] =>
          match tc_versions c with
          | [] => Err EUB
          | best :: _ =>
              if best <? v then failA 110
              else if negb (mem k (tc_params c)) then failA 110
              else if mem v (tc_versions c) then Ok (Some (v, k))
              else Ok None
          end
      | _ => failA 110
      end
  end.
(** ** server/MultiServerExtensions.cpp:19-33; client/MultiClientExtensions.cpp:19-32, 34-41: each part is a function that may fail; the second gives
    the parts that were called. *)
Fixpoint multiExtensions (l : list (res (list Extension))) : res (list Extension) :=
  match l with
  | [] => Ok []
  | r :: l' => a <- r ;; b <- multiExtensions l' ;; Ok (a ++ b)
  end.
Fixpoint multiOn {A} (l : list (res A)) : res (list A) :=
  match l with
  | [] => Ok []
  | r :: l' => a <- r ;; b <- multiOn l' ;; Ok (a :: b)
  end.

(** ** Utils.h: constructMessage :21-37 *)
Definition constructMessage (type params : N) (ekm : bytes) : res bytes :=
  a <- write_u 1 type ;; b <- write_u 1 params ;; Ok (a ++ b ++ ekm).
(** ** OpenSSL *)
Record tbossl := mkTbossl {
  to_sha256 : bytes -> bytes;
  to_pub : Type;
  to_point : bytes -> option to_pub;              (* decodeECPublicKey on P-256 and EVP_PKEY_get1_EC_KEY *)
  to_ecverify : to_pub -> bytes -> N -> N -> bool; (* ECDSA_do_verify on a digest and (r, s) *)
  to_edverify : bytes -> bytes -> bytes -> bool;   (* EVP_PKEY_new_raw_public_key and edVerify *)
  to_priv : Type;
  to_isec : to_priv -> bool;                      (* EVP_PKEY_get1_EC_KEY succeeds *)
  to_sign : to_priv -> bytes -> option (N * N);   (* ECDSA_do_sign *)
  to_encode : to_priv -> res bytes }.             (* encodeECPublicKey *)
(** ** Validator.cpp *)
Definition deref (b : buf) : res bytes := match b with Some d => Ok d | None => Err EUB end.
(** constructEcKeyFromBuf :193-225 *)
Definition constructEcKeyFromBuf (O : tbossl) (key : bytes) : res (to_pub O) :=
  '(len, rest) <- read_be 1 key ;;
  if negb (len =? 64) then fail
  else match take len rest with
       | None => Err EThrow
       | Some (d, _) => match to_point O (x04 :: d) with Some p => Ok p | None => fail end
       end.
(** constructECDSASig :160-191 *)
Definition constructECDSASig (sg : bytes) : res (N * N) :=
  match take 32 sg with
  | None => Err EThrow
  | Some (r, rest) => match take 32 rest with None => Err EThrow | Some (s, _) => Ok (unbe r, unbe s) end
  end.
(** verify :81-158; [peek]: how many bytes after the first of the key are in one piece *)
Definition verify (O : tbossl) (peek : N) (params : N) (key sg message : bytes) : res unit :=
  if params =? k_ecdsap256 then
    pk <- constructEcKeyFromBuf O key ;;
    '(r, s) <- constructECDSASig sg ;;
    if to_ecverify O pk (to_sha256 O message) r s then Ok tt else fail
  else if params =? k_ed25519 then
    '(len, rest) <- read_be 1 key ;;
    if negb (len =? 32) then fail
    else
      let range := takeN peek rest in
      if negb (blen range =? len) then fail
      else if to_edverify O range message sg then Ok tt else fail
  else fail.
(** constructAndVerifyMessage :53-79: every failure and exception is none *)
Definition constructAndVerifyMessage (O : tbossl) (peek : N) (tb : tbind) (ekm : bytes) : res (option tbid) :=
  match (message <- constructMessage (tb_type tb) (ti_params (tb_id tb)) ekm ;;
         key <- deref (ti_key (tb_id tb)) ;; sg <- deref (tb_sig tb) ;;
         verify O peek (ti_params (tb_id tb)) key sg message) with
  | Ok _ => Ok (Some (tb_id tb))
  | Err EUB => Err EUB
  | Err _ => Ok None
  end.
(** validateTokenBinding :21-33 and :35-51 *)
Definition validateTokenBinding (O : tbossl) (peek : N) (tb : tbind) (ekm : bytes) (negotiated : N) : res (option tbid) :=
  if negb (ti_params (tb_id tb) =? negotiated) then Ok None else constructAndVerifyMessage O peek tb ekm.
Definition validateSupported (O : tbossl) (peek : N) (tb : tbind) (ekm : bytes) (supported : list N) : res (option tbid) :=
  if negb (mem (ti_params (tb_id tb)) supported) then Ok None else constructAndVerifyMessage O peek tb ekm.
(** ** TokenBindingConstructor.cpp *)
(** addBignumToSignature :98-118 ([r] of at most 32 bytes is padded); encodeEcdsaSignature :79-96; signWithEcKey :57-77 *)
Definition addBignum (r : N) : res bytes := if 256 ^ 32 <=? r then fail else Ok (be 32 r).
Definition signWithEcKey (O : tbossl) (k : to_priv O) (message : bytes) : res bytes :=
  match to_sign O k (to_sha256 O message) with
  | None => fail
  | Some (r, s) => a <- addBignum r ;; b <- addBignum s ;; Ok (a ++ b)
  end.
(** encodeEcKey :120-135: the first byte is overwritten with the length *)
Definition encodeEcKey (O : tbossl) (k : to_priv O) : res bytes :=
  b <- to_encode O k ;;
  if negb (blen b =? 65) then fail else Ok (x40 :: dropN 1 b).
(** createTokenBinding :21-55 *)
Definition createTokenBinding (O : tbossl) (k : to_priv O) (ekm : bytes) (params type : N) : res tbind :=
  if negb (params =? k_ecdsap256) then fail
  else if negb (to_isec O k) then fail
  else
    message <- constructMessage type params ekm ;;
    sg <- signWithEcKey O k message ;;
    key <- encodeEcKey O k ;;
    Ok (mkTb type (mkTbid params (Some key)) (Some sg) (Some [])).
