(** * HPKE: crypto/hpke/{Hkdf,DHKEM,Hpke,Context,Utils}.cpp *)
From Verif Require Import Base Codec Str Hkdf Kex Record.

(** ** Labeled HKDF (crypto/hpke/Hkdf.cpp:29-91); [pre] is prefix_. *)
Definition labeledExtract (h : hashalg) (pre salt label ikm suite : bytes) : res bytes :=
  hkdf_extract h salt (pre ++ suite ++ label ++ ikm).
Definition labeledExpand (h : hashalg) (pre prk label info : bytes) (L : N) (suite : bytes) : res bytes :=
  if 65535 <? L then fail
  else hkdf_expand h prk [be 2 L ++ pre ++ suite ++ label ++ info] L.

(** ** DHKEM (crypto/hpke/DHKEM.cpp) *)
(** getDHKEMId :14-31; NamedGroup code points (record/Types.h). *)
Definition getDHKEMId (group : N) : res N :=
  if group =? 23 then Ok 16 else if group =? 24 then Ok 17 else if group =? 25 then Ok 18
  else if group =? 29 then Ok 32 else fail.
(** generateSuiteId :33-41 *)
Definition kemSuiteId (group : N) : res bytes :=
  i <- getDHKEMId group ;; Ok (str "KEM" ++ be 2 i).
(** extractAndExpand :59-84 *)
Definition extractAndExpand (h : hashalg) (pre : bytes) (group : N) (dh ctx : bytes) : res bytes :=
  suite <- kemSuiteId group ;;
  prk <- labeledExtract h pre [] (str "eae_prk") dh suite ;;
  labeledExpand h pre prk (str "shared_secret") ctx (h_len h) suite.
(** encap :93-108; [e] is kex_ after generateKeyPair. Returns (sharedSecret, enc).
    IOBuf::prependChain on a chain head appends at the end of the chain. *)
Definition encap (h : hashalg) (pre : bytes) (group : N) (e : kex) (pkR : bytes) : res (bytes * bytes) :=
  dh <- kx_secret e pkR ;; enc <- kx_share e ;;
  ss <- extractAndExpand h pre group dh (enc ++ pkR) ;; Ok (ss, enc).
(** authEncap :110-135 *)
Definition authEncap (h : hashalg) (pre : bytes) (group : N) (e : kex) (auth : option kex) (pkR : bytes)
  : res (bytes * bytes) :=
  match auth with
  | None => fail
  | Some s =>
      dh <- kx_secret e pkR ;; adh <- kx_secret s pkR ;; enc <- kx_share e ;; ks <- kx_share s ;;
      ss <- extractAndExpand h pre group (dh ++ adh) (enc ++ pkR ++ ks) ;; Ok (ss, enc)
  end.
(** decap :137-152 *)
Definition decap (h : hashalg) (pre : bytes) (group : N) (r : kex) (enc : bytes) : res bytes :=
  dh <- kx_secret r enc ;; pkR <- kx_share r ;;
  extractAndExpand h pre group dh (enc ++ pkR).
(** authDecap :154-174 *)
Definition authDecap (h : hashalg) (pre : bytes) (group : N) (r : kex) (enc pkS : bytes) : res bytes :=
  dh <- kx_secret r enc ;; adh <- kx_secret r pkS ;; pkR <- kx_share r ;;
  extractAndExpand h pre group (dh ++ adh) (enc ++ pkR ++ pkS).

(** ** HpkeContextImpl (crypto/hpke/Context.cpp) *)
Inductive role := Sender | Receiver.
Record hctx := mkHctx {
  hc_seq : N; hc_aead : aead; hc_exporter : bytes; hc_hash : hashalg; hc_pre : bytes;
  hc_suite : bytes; hc_role : role }.
Definition set_seq (c : hctx) (n : N) : hctx :=
  mkHctx n (hc_aead c) (hc_exporter c) (hc_hash c) (hc_pre c) (hc_suite c) (hc_role c).
(** incrementSeq :43-49 *)
Definition incrementSeq (c : hctx) : res hctx :=
  if max64 - 1 <=? hc_seq c then fail else Ok (set_seq c (hc_seq c + 1)).
(** seal :51-65, open :67-81: context afterwards, what was stored in [ret], status. *)
Definition hseal (c : hctx) (aad : option bytes) (pt : bytes) : hctx * option bytes * res unit :=
  match hc_role c with
  | Receiver => (c, None, fail)
  | Sender =>
      match ae_enc (hc_aead c) pt aad (hc_seq c) with
      | Err e => (c, None, Err e)
      | Ok ct => match incrementSeq c with
                 | Ok c' => (c', Some ct, Ok tt)
                 | Err e => (c, Some ct, Err e)
                 end
      end
  end.
Definition hopen (c : hctx) (aad : option bytes) (ct : bytes) : hctx * option bytes * res unit :=
  match hc_role c with
  | Sender => (c, None, fail)
  | Receiver =>
      match ae_dec (hc_aead c) ct aad (hc_seq c) with
      | Err e => (c, None, Err e)
      | Ok ch => match incrementSeq c with
                 | Ok c' => (c', Some (concat ch), Ok tt)
                 | Err e => (c, Some (concat ch), Err e)
                 end
      end
  end.
(** exportSecret :83-101 *)
Definition hexport (c : hctx) (ectx : bytes) (L : N) : res bytes :=
  if 255 * h_len (hc_hash c) <? L then fail
  else labeledExpand (hc_hash c) (hc_pre c) (hc_exporter c) (str "sec") ectx L (hc_suite c).

(** ** PskInputs::create, keySchedule, setup (crypto/hpke/Hpke.{h,cpp}) *)
Inductive hmode := Base_ | Psk_ | Auth_ | AuthPsk_.
Definition mode_id (m : hmode) : N := match m with Base_ => 0 | Psk_ => 1 | Auth_ => 2 | AuthPsk_ => 3 end.
Definition uses_psk (m : hmode) : bool := match m with Psk_ | AuthPsk_ => true | _ => false end.
Definition uses_auth (m : hmode) : bool := match m with Auth_ | AuthPsk_ => true | _ => false end.
(** Hpke.h:23-45; "got" compares with an empty buffer (a null pointer differs from it). *)
Definition psk_create (m : hmode) (psk id : buf) : res (buf * buf) :=
  let got (b : buf) := match b with Some [] => false | _ => true end in
  if negb (Bool.eqb (got psk) (got id)) then fail
  else if got psk && negb (uses_psk m) then fail
  else if negb (got psk) && uses_psk m then fail
  else Ok (psk, id).

(** An AEAD algorithm: key and IV sizes and what setKey installs. *)
Record aeadalg := mkAlg { ag_key : N; ag_iv : N; ag_set : bytes -> bytes -> aead }.

(** keySchedule (Hpke.cpp:31-118), writeKeyScheduleContext (:15-29). *)
Definition keySchedule (h : hashalg) (pre suite : bytes) (alg : aeadalg) (m : hmode) (ss info : bytes)
    (psk : option (bytes * bytes)) (rl : role) (seq : N) : res hctx :=
  let '(pskv, pskid) := match psk with Some p => p | None => ([], []) end in
  pidh <- labeledExtract h pre [] (str "psk_id_hash") pskid suite ;;
  ih <- labeledExtract h pre [] (str "info_hash") info suite ;;
  let ctx := be 1 (mode_id m) ++ pidh ++ ih in
  secret <- labeledExtract h pre ss (str "secret") pskv suite ;;
  key <- labeledExpand h pre secret (str "key") ctx (ag_key alg) suite ;;
  nonce <- labeledExpand h pre secret (str "base_nonce") ctx (ag_iv alg) suite ;;
  exp <- labeledExpand h pre secret (str "exp") ctx (h_len h) suite ;;
  Ok (mkHctx seq (ag_set alg key nonce) exp h pre suite rl).

(** setupWithEncap (Hpke.cpp:120-155) *)
Definition setupWithEncap (hk : hashalg) (h : hashalg) (pre suite : bytes) (group : N) (alg : aeadalg) (m : hmode)
    (e : kex) (auth : option kex) (pkR info : bytes) (psk : option (bytes * bytes)) (seq : N) : res (bytes * hctx) :=
  '(ss, enc) <- (if uses_auth m then authEncap hk pre group e auth pkR else encap hk pre group e pkR) ;;
  c <- keySchedule h pre suite alg m ss info psk Sender seq ;;
  Ok (enc, c).
(** setupWithDecap (Hpke.cpp:157-190); [*pkS] on an empty Optional throws. *)
Definition setupWithDecap (hk : hashalg) (h : hashalg) (pre suite : bytes) (group : N) (alg : aeadalg) (m : hmode)
    (r : kex) (enc : bytes) (pkS : option bytes) (info : bytes) (psk : option (bytes * bytes)) (seq : N) : res hctx :=
  ss <- (if uses_auth m
         then match pkS with None => Err EThrow | Some k => authDecap hk pre group r enc k end
         else decap hk pre group r enc) ;;
  keySchedule h pre suite alg m ss info psk Receiver seq.

(** generateHpkeSuiteId (crypto/hpke/Utils.cpp:29-42) *)
Definition hpkeSuiteId (kem kdf aeadid : N) : bytes := str "HPKE" ++ be 2 kem ++ be 2 kdf ++ be 2 aeadid.

(** A history of calls on one context. *)
Inductive hop := HSeal (aad : option bytes) (pt : bytes) | HOpen (aad : option bytes) (ct : bytes)
  | HExport (ectx : bytes) (L : N).
Definition hstep (c : hctx) (o : hop) : hctx * option bytes * res unit :=
  match o with
  | HSeal a p => hseal c a p
  | HOpen a p => hopen c a p
  | HExport e L => match hexport c e L with Ok b => (c, Some b, Ok tt) | Err x => (c, None, Err x) end
  end.
(** Results, each with the sequence number the cipher was called with. *)
Fixpoint hrun (c : hctx) (ops : list hop) : hctx * list (hop * N * option bytes * res unit) :=
  match ops with
  | [] => (c, [])
  | o :: ops' => let '(c1, b, r) := hstep c o in
                 let '(c2, l) := hrun c1 ops' in (c2, (o, hc_seq c, b, r) :: l)
  end.
