(** * experimental/batcher/Batcher.h, experimental/protocol/BatchSignatureTypes.*, experimental/server/
      BatchSignatureAsyncSelfCert.h and experimental/client/BatchSignaturePeerCert.*

    Threads: the body of SynchronizedBatcher::addMessageAndSign up to epoch.unlock() holds the lock and is one atomic
    label; signMerkleTree (outside the lock) and the fulfilment of the shared promise are a second label that can
    run at any later point, in any order.  A promise is identified by the number of its epoch. *)
From Verif Require Import Base Codec Hkdf Merkle.
Open Scope N_scope.

(** SignatureScheme code points, record/Types.h:260-278 *)
Definition ecdsa_secp256r1_sha256 : N := 0x0403.
Definition ecdsa_secp384r1_sha384 : N := 0x0503.
Definition ecdsa_secp521r1_sha512 : N := 0x0603.
Definition rsa_pss_sha256 : N := 0x0804.
Definition rsa_pss_sha384 : N := 0x0805.
Definition rsa_pss_sha512 : N := 0x0806.
Definition ed25519 : N := 0x0807.
Definition ed448 : N := 0x0808.
Definition ecdsa_secp256r1_sha256_batch : N := 0xFE00.
Definition ecdsa_secp384r1_sha384_batch : N := 0xFE01.
Definition ecdsa_secp521r1_sha512_batch : N := 0xFE02.
Definition ed25519_batch : N := 0xFE03.
Definition ed448_batch : N := 0xFE04.
Definition rsa_pss_sha256_batch : N := 0xFE05.

(** BatchSignatureSchemes<Sha256>::getFromBaseScheme, BatchSignatureTypes.h:35-57 *)
Definition getFromBaseScheme (s : N) : option N :=
  if s =? ecdsa_secp256r1_sha256 then Some ecdsa_secp256r1_sha256_batch
  else if s =? rsa_pss_sha256 then Some rsa_pss_sha256_batch
  else None.

(** getBatchSchemeInfo, BatchSignatureTypes.cpp:13-54; a code point outside the enum leaves BatchSchemeInfo{}, i.e.
    base scheme 0 *)
Definition getBatchSchemeInfo (s : N) (supported : list N) : option N :=
  let found (b : N) := match supported with
                       | [] => Some b
                       | _ => if existsb (N.eqb b) supported then Some b else None
                       end in
  if s =? ecdsa_secp256r1_sha256_batch then found ecdsa_secp256r1_sha256
  else if s =? ecdsa_secp384r1_sha384_batch then found ecdsa_secp384r1_sha384
  else if s =? ecdsa_secp521r1_sha512_batch then found ecdsa_secp521r1_sha512
  else if s =? ed25519_batch then found ed25519
  else if s =? ed448_batch then found ed448
  else if s =? rsa_pss_sha256_batch then found rsa_pss_sha256
  else if existsb (N.eqb s) [ecdsa_secp256r1_sha256; ecdsa_secp384r1_sha384; ecdsa_secp521r1_sha512;
                             rsa_pss_sha256; rsa_pss_sha384; rsa_pss_sha512; ed25519; ed448] then None
  else found 0.

(** Batcher's constructor, Batcher.h:63-78: (batchScheme_, baseScheme_), None where both stay uninitialised *)
Definition batcher_schemes (signer : list N) : option (N * N) :=
  fold_left (fun acc s => match getFromBaseScheme s with Some b => Some (b, s) | None => acc end) signer None.

Section Batch.
  Variable h : hashalg.
  Variable batchScheme : N.

  (** what a waiter of an epoch gets: the signed tree, or an exception (signature missing, or the promise was
      broken because the synchronous signer failed) *)
  Record sb := mkSb { sb_thr : N; sb_epoch : N; sb_tree : mtree; sb_pend : list (N * mtree);
                      sb_done : list (N * bytes * option (mtree * bytes)) }.
  (** SynchronizedBatcher(...) :147-154, EpochData(...) :50-53 *)
  Definition sb_new (thr : N) : sb := mkSb thr 0 (newTree thr) [] [].

  (** the critical section of addMessageAndSign :156-180; result = (index_, epoch of future_) *)
  Definition addMessage (s : sb) (msg rnd : bytes) : res (sb * (N * N)) :=
    '(t, i) <- appendTranscript h (sb_tree s) msg rnd ;;
    match i with
    | None => Err EThrow
    | Some idx =>
        let out := (idx, sb_epoch s) in
        if sb_thr s <=? countMessages t
        then Ok (mkSb (sb_thr s) (sb_epoch s + 1) (newTree (sb_thr s)) (sb_pend s ++ [(sb_epoch s, t)]) (sb_done s), out)
        else Ok (mkSb (sb_thr s) (sb_epoch s) t (sb_pend s) (sb_done s), out)
    end.

  (** signMerkleTree :102-133: the to-be-signed message handed to the signer, and the outcome *)
  Definition signTree (t : mtree) (o : option bytes) : res (bytes * option (mtree * bytes)) :=
    t' <- finalizeTree h t ;;
    r <- getRootValue t' ;;
    tbs <- encodeToBeSigned r batchScheme ;;
    Ok (tbs, match o with Some s => Some (t', s) | None => None end).

  Fixpoint take_pend (e : N) (l : list (N * mtree)) : option (mtree * list (N * mtree)) :=
    match l with
    | [] => None
    | (e', t) :: r => if e' =? e then Some (t, r)
                      else match take_pend e r with Some (t', r') => Some (t', (e', t) :: r') | None => None end
    end.

  Inductive blabel :=
  | LAdd (msg rnd : bytes)          (* a thread runs the critical section *)
  | LSign (e : N) (o : option bytes). (* the thread that completed epoch e signs it; o is the signer's answer *)

  (** None: the label cannot happen in this state *)
  Definition bstep (s : sb) (l : blabel) : option (sb * list (N * N)) :=
    match l with
    | LAdd m r => match addMessage s m r with Ok (s', o) => Some (s', [o]) | Err _ => None end
    | LSign e o =>
        match take_pend e (sb_pend s) with
        | None => None
        | Some (t, p) =>
            match signTree t o with
            | Ok (tbs, x) => Some (mkSb (sb_thr s) (sb_epoch s) (sb_tree s) p (sb_done s ++ [(e, tbs, x)]), [])
            | Err _ => None
            end
        end
    end.
  Fixpoint brun (s : sb) (ls : list blabel) : option (sb * list (N * N)) :=
    match ls with
    | [] => Some (s, [])
    | l :: r => match bstep s l with
                | None => None
                | Some (s1, o1) => match brun s1 r with None => None | Some (s2, o2) => Some (s2, o1 ++ o2) end
                end
    end.

  (** ThreadLocalBatcher :206-252: one epoch per thread *)
  Fixpoint tlrun (m : N -> sb) (ls : list (N * blabel)) : option ((N -> sb) * list (N * (N * N))) :=
    match ls with
    | [] => Some (m, [])
    | (th, l) :: r =>
        match bstep (m th) l with
        | None => None
        | Some (s1, o1) =>
            match tlrun (fun x => if x =? th then s1 else m x) r with
            | None => None
            | Some (m2, o2) => Some (m2, map (pair th) o1 ++ o2)
            end
        end
    end.

  (** batchSigSign, BatchSignatureAsyncSelfCert.h:107-118 *)
  Definition batchSig (t : mtree) (index : N) (sig : bytes) : res bytes :=
    p <- getPath t index ;; bs_encode index p sig.

  (** BatchSignaturePeerCert::verify, BatchSignaturePeerCert.h:34-47, and batchSigVerify, .cpp:13-49; [base] is the
      decorated PeerCert's verify *)
  Variable base : N -> bytes -> bytes -> res unit.
  Definition batchSigVerify (scheme baseScheme : N) (msg sg : bytes) : res unit :=
    '(i, p, s) <- bs_decode sg ;;
    if 2 ^ 32 <? i then Err EThrow
    else if 32 <? blen p / h_len h then Err EThrow
    else r <- computeRootFromPath h msg i p ;;
         tbs <- encodeToBeSigned r scheme ;;
         base baseScheme tbs s.
  Definition peer_verify (scheme : N) (msg sg : bytes) : res unit :=
    match getBatchSchemeInfo scheme [] with
    | None => base scheme msg sg
    | Some b => batchSigVerify scheme b msg sg
    end.
End Batch.
