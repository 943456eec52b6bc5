(** * Plaintext and encrypted record layers
    (record/PlaintextRecordLayer.cpp, record/EncryptedRecordLayer.cpp,
    record/BufAndPaddingPolicy.cpp). *)
From Verif Require Import Base RecordBase.

(** ContentType values, record/Types.h:47-53. *)
Definition ct_ccs : N := 20.
Definition ct_alert : N := 21.
Definition ct_handshake : N := 22.
Definition ct_appdata : N := 23.

(** struct TLSMessage, record/Types.h (type, fragment). *)
Record tlsmsg := mkMsg { m_type : N; m_frag : bytes }.

(** kMaxPlaintextRecordSize (PlaintextRecordLayer.cpp:19, EncryptedRecordLayer.h:18),
    kMaxEncryptedRecordSize (EncryptedRecordLayer.cpp:18). *)
Definition kMaxPlaintextRecordSize : N := 16384.
Definition kMaxEncryptedRecordSize : N := 16384 + 256.

(** The 5 header bytes: content type, version, 16-bit length
    (cursor.readBE calls at PlaintextRecordLayer.cpp:38,72,74 and
    EncryptedRecordLayer.cpp:45-48). *)
Definition header (b : bytes) : option (N * N * N * bytes) :=
  match b with
  | t :: v1 :: v2 :: l1 :: l2 :: rest =>
      Some (b2n t, unbe [v1; v2], unbe [l1; l2], rest)
  | _ => None
  end.

(** ** Plaintext reader *)

(** skipEncryptedRecords_, receivedRecordVersion_ (PlaintextRecordLayer.h). *)
Record pstate := mkP { ps_skip : bool; ps_version : option N }.

(** One iteration of PlaintextReadRecordLayer::read
    (PlaintextRecordLayer.cpp:23-103).  The queue is its flat byte content.
    Error messages are not modelled (the "received plaintext content type" error also
    consumes up to 10 bytes for its text; nothing is read after an error). *)
Definition plain_iter (s : pstate) (b : bytes) : iter pstate tlsmsg :=
  match header b with
  | None => INeed s b (5 - blen b)
  | Some (ty, ver, len, rest) =>
      if ps_skip s && (ty =? ct_appdata) then
        match take len rest with
        | None => INeed s b (5 + len - blen b)
        | Some (_, rest') => ICont s rest'
        end
      else
        let skip' := if ps_skip s && negb (ty =? ct_ccs) then false else ps_skip s in
        if negb ((ty =? ct_handshake) || (ty =? ct_alert) || (ty =? ct_ccs)) then
          IErr (EStatus None)
        else
          let s' := mkP skip' (Some ver) in
          if kMaxPlaintextRecordSize <? len then IErr (EStatus None)
          else if len =? 0 then IErr (EStatus None)
          else match take len rest with
               | None => INeed s' b (5 + len - blen b)
               | Some (frag, rest') =>
                   if ty =? ct_ccs then
                     if bytes_eqb frag [x01] then ICont s' rest'
                     else IErr (EStatus (Some 47))
                   else IMsg s' rest' (mkMsg ty frag)
               end
  end.
Definition plain_read : pstate -> bytes -> rres pstate tlsmsg := read_of plain_iter.

(** ** Plaintext writer *)

(** PlaintextWriteRecordLayer::write(.., recordVersion), the fragment loop
    (PlaintextRecordLayer.cpp:140-157): cloneAtMost takes at most 0x4000 bytes. *)
Fixpoint plain_frags (fuel : nat) (ty ver : N) (p : bytes) : bytes :=
  match fuel, p with
  | _, [] => []
  | O, _ => []
  | S f, _ =>
      let frag := takeN kMaxPlaintextRecordSize p in
      be 1 ty ++ be 2 ver ++ be 2 (blen frag) ++ frag ++
      plain_frags f ty ver (dropN kMaxPlaintextRecordSize p)
  end.

(** The whole write (PlaintextRecordLayer.cpp:128-164).  [content.data] stays null
    when the fragment has no byte.  A null fragment behaves like an empty one. *)
Definition plain_write_ver (m : tlsmsg) (ver : N) : res (option bytes) :=
  if m_type m =? ct_appdata then fail
  else Ok (match m_frag m with
           | [] => None
           | p => Some (plain_frags (length p) (m_type m) ver p)
           end).
(** write / writeInitialClientHello (PlaintextRecordLayer.cpp:109-126) *)
Definition plain_write (m : tlsmsg) : res (option bytes) := plain_write_ver m 771.
Definition plain_write_initial (p : bytes) : res (option bytes) :=
  plain_write_ver (mkMsg ct_handshake p) 769.

(** ** AEAD interface (crypto/aead/Aead.h) as used by the record layers.
    [ae_try] returns the plaintext as a chain of IOBufs; [None] means that the
    authentication failed; [Err] an internal error.  Buffer options and headroom are
    not modelled. *)
Record aead := mkAead {
  ae_overhead : N;                                           (* getCipherOverhead *)
  ae_enc : bytes -> option bytes -> N -> res bytes;          (* encrypt(pt, ad, seq) *)
  ae_try : bytes -> option bytes -> N -> res (option (list bytes)) (* tryDecrypt *)
}.
(** decrypt: as tryDecrypt but failure to authenticate is an error
    (crypto/aead/Aead.h:213-256).  An internal error is reported as a failed Status. *)
Definition ae_dec (a : aead) (c : bytes) (ad : option bytes) (seq : N) : res (list bytes) :=
  p <- ae_try a c ad seq ;;
  match p with Some ch => Ok ch | None => fail end.

Definition max64 : N := 2 ^ 64 - 1.

(** ** Encrypted reader *)

(** EncryptedReadRecordLayer members (EncryptedRecordLayer.h:85-90). *)
Record estate := mkE { es_seq : N; es_skip : bool; es_ad : bool; es_aead : aead }.

(** The trimming loop of EncryptedReadRecordLayer::read
    (EncryptedRecordLayer.cpp:138-155), on the chain seen from its last buffer:
    drop trailing zero bytes, stop at the first non-zero byte, which is the type.
    The argument is the reversed chain; the result is the reversed remaining chain. *)
Fixpoint strip_zeros (r : bytes) : option (byte * bytes) :=   (* r = reversed buffer *)
  match r with
  | [] => None
  | c :: r' => if byte_eqb c x00 then strip_zeros r' else Some (c, r')
  end.
Fixpoint strip_chain (rc : list bytes) : option (byte * list bytes) :=
  match rc with
  | [] => None
  | b :: rc' =>
      match strip_zeros (rev b) with
      | Some (ty, r') => Some (ty, rev r' :: rc')
      | None => match strip_chain rc' with
                | Some (ty, rest) => Some (ty, [] :: rest)
                | None => None
                end
      end
  end.

(** Second half of EncryptedReadRecordLayer::read (EncryptedRecordLayer.cpp:125-182). *)
Definition open_inner (chain : list bytes) : res tlsmsg :=
  match chain with
  | [] => Err EUB  (* decrypt never returns a null chain *)
  | _ =>
      match strip_chain (rev chain) with
      | None => fail
      | Some (t, rc) =>
          let ty := b2n t in
          let frag := concat (rev rc) in
          if negb ((ty =? ct_handshake) || (ty =? ct_alert) || (ty =? ct_appdata)) then fail
          else match frag with
               | [] => if ty =? ct_appdata then Ok (mkMsg ty []) else fail
               | _ => Ok (mkMsg ty frag)
               end
      end
  end.

(** One iteration of getDecryptedBuf (EncryptedRecordLayer.cpp:22-123) followed, when
    it yields a buffer, by the rest of read (lines 134-183). *)
Definition enc_iter (s : estate) (b : bytes) : iter estate tlsmsg :=
  match header b with
  | None => INeed s b (5 - blen b)
  | Some (ty, ver, len, rest) =>
      if len =? 0 then IErr (EStatus None)
      else if kMaxEncryptedRecordSize <? len then IErr (EStatus None)
      else match take len rest with
      | None => INeed s b (5 + len - blen b)
      | Some (c, rest') =>
          if (ty =? ct_alert) && (len =? 2) then IErr (EStatus None)
          else if ty =? ct_ccs then
            if bytes_eqb c [x01] then ICont s rest' else IErr (EStatus (Some 47))
          else if es_seq s =? max64 then IErr (EStatus None)
          else
            let ad := if es_ad s then Some (takeN 5 b) else None in
            if es_skip s then
              match ae_try (es_aead s) c ad (es_seq s) with
              | Err _ => IErr (EStatus None)
              | Ok None => ICont s rest'
              | Ok (Some ch) =>
                  match open_inner ch with
                  | Ok m => IMsg (mkE (es_seq s + 1) false (es_ad s) (es_aead s)) rest' m
                  | Err e => IErr e
                  end
              end
            else
              match ae_dec (es_aead s) c ad (es_seq s) with
              | Err _ => IErr (EStatus None)
              | Ok ch =>
                  match open_inner ch with
                  | Ok m => IMsg (mkE (es_seq s + 1) false (es_ad s) (es_aead s)) rest' m
                  | Err e => IErr e
                  end
              end
      end
  end.
Definition enc_read : estate -> bytes -> rres estate tlsmsg := read_of enc_iter.

(** setAead (EncryptedRecordLayer.h:33-42). *)
Definition enc_set_aead (s : estate) (a : aead) : res estate :=
  if negb (es_seq s =? 0) then fail
  else Ok (mkE (es_seq s) (es_skip s) (es_ad s) a).

(** ** Either layer, as held in State::readRecordLayer *)
Inductive layer := LPlain (p : pstate) | LEnc (e : estate).
Definition lift_iter {A} (f : A -> layer) (i : iter A tlsmsg) : iter layer tlsmsg :=
  match i with
  | ICont s b => ICont (f s) b
  | INeed s b h => INeed (f s) b h
  | IMsg s b m => IMsg (f s) b m
  | IErr e => IErr e
  end.
Definition layer_iter (s : layer) (b : bytes) : iter layer tlsmsg :=
  match s with
  | LPlain p => lift_iter LPlain (plain_iter p b)
  | LEnc e => lift_iter LEnc (enc_iter e b)
  end.
(** virtual ReadRecordLayer::read *)
Definition layer_read : layer -> bytes -> rres layer tlsmsg := read_of layer_iter.

(** ** Encrypted writer *)

(** A folly::IOBufQueue as the list of the buffers of its chain. *)
Notation queue := (list bytes).

(** IOBufQueue::empty: no data in the chain. *)
Fixpoint queue_empty (q : queue) : bool :=
  match q with [] => true | [] :: q' => queue_empty q' | _ => false end.

(** IOBufQueue::splitAtMost(n). *)
Fixpoint split_at_most (n : N) (q : queue) : queue * queue :=
  if n =? 0 then ([], q) else
  match q with
  | [] => ([], [])
  | c :: q' =>
      if blen c <=? n
      then let '(a, r) := split_at_most (n - blen c) q' in (c :: a, r)
      else ([takeN n c], dropN n c :: q')
  end.

(** kMinSuggestedRecordSize (BufAndPaddingPolicy.h). *)
Definition kMinSuggestedRecordSize : N := 1500.

(** getBufToEncrypt (BufAndPaddingPolicy.cpp:13-21). *)
Definition buf_to_encrypt (q : queue) (maxRecord : N) : queue * queue :=
  match q with
  | [] => ([], [])
  | c :: q' =>
      if maxRecord <? blen c then split_at_most maxRecord q
      else if kMinSuggestedRecordSize <=? blen c then ([c], q')
      else split_at_most (N.min maxRecord kMinSuggestedRecordSize) q
  end.

(** The two padding policies (BufAndPaddingPolicy.cpp:23-46). All values uint16_t. *)
Inductive policy := PModulo (m : N) | PConst (p : N).
Definition padding (p : policy) (maxRecord len : N) : N :=
  match p with
  | PModulo m => if 0 <? m then ((maxRecord + 65536 - len mod 65536) mod 65536) mod m else 0
  | PConst c => if 0 <? c then N.min c ((maxRecord + 65536 - len mod 65536) mod 65536) else 0
  end.

(** EncryptedWriteRecordLayer members (EncryptedRecordLayer.h:147-154) and
    useAdditionalData_ (RecordLayer.h). *)
Record wstate := mkW {
  ws_seq : N; ws_ad : bool; ws_max : N; ws_policy : policy; ws_aead : aead }.
Definition w_set_seq (s : wstate) (n : N) : wstate :=
  mkW n (ws_ad s) (ws_max s) (ws_policy s) (ws_aead s).

(** One call to aead_->encrypt: sequence number and additional data used. *)
Record enc_call := mkCall { ec_seq : N; ec_ad : option bytes; ec_plain : bytes; ec_aead : aead }.

(** The write loop (EncryptedRecordLayer.cpp:199-271).  The in-place and copying
    branches for the footer and the header produce the same bytes.  Returns the calls
    made to encrypt, the state after the call and the result; on failure the records
    already produced are discarded. *)
Fixpoint enc_write_loop (fuel : nat) (ty : N) (s : wstate) (q : queue) (out : bytes)
  : list enc_call * wstate * res bytes :=
  if queue_empty q then ([], s, Ok out) else
  match fuel with
  | O => ([], s, Err EFuel)
  | S f =>
      let '(d, q') := buf_to_encrypt q (ws_max s) in
      let data := concat d in
      let pad := padding (ws_policy s) (ws_max s) (blen data) in
      let plain := data ++ be 1 ty ++ repeat x00 (N.to_nat pad) in
      if ws_seq s =? max64 then ([], s, fail)
      else
        let hdr := be 1 ct_appdata ++ be 2 771 ++
                   be 2 (blen plain + ae_overhead (ws_aead s)) in
        let ad := if ws_ad s then Some hdr else None in
        let s' := w_set_seq s (ws_seq s + 1) in
        let call := mkCall (ws_seq s) ad plain (ws_aead s) in
        match ae_enc (ws_aead s) plain ad (ws_seq s) with
        | Err e => ([call], s', Err e)
        | Ok c =>
            let '(calls, s'', r) := enc_write_loop f ty s' q' (out ++ hdr ++ c) in
            (call :: calls, s'', r)
        end
  end.
(** EncryptedWriteRecordLayer::write (EncryptedRecordLayer.cpp:188-279).  Every
    iteration removes at least one byte. *)
Definition enc_write (ty : N) (s : wstate) (q : queue) : list enc_call * wstate * res bytes :=
  enc_write_loop (length (concat q)) ty s q [].

(** setAead, setMaxRecord, setSequenceNumber, setBufAndPaddingPolicy
    (EncryptedRecordLayer.h:106-130); setProtocolVersion (RecordLayer.h). *)
Definition w_set_aead (s : wstate) (a : aead) : res wstate :=
  if negb (ws_seq s =? 0) then fail
  else Ok (mkW (ws_seq s) (ws_ad s) (ws_max s) (ws_policy s) a).
Definition w_set_max (s : wstate) (n : N) : res wstate :=
  if 0 <? n then Ok (mkW (ws_seq s) (ws_ad s) n (ws_policy s) (ws_aead s)) else Err ECheck.
Definition w_set_policy (s : wstate) (p : policy) : wstate :=
  mkW (ws_seq s) (ws_ad s) (ws_max s) p (ws_aead s).
(** getRealDraftVersion (record/Types.cpp:18-39). *)
Definition real_draft_version (v : N) : res N :=
  if v =? 772 then Ok 772                                   (* tls_1_3 *)
  else if (v =? 32535) || (v =? 64279) then Ok 32535        (* draft 23, 23_fb *)
  else if (v =? 32538) || (v =? 64282) then Ok 32538        (* draft 26, 26_fb *)
  else if v =? 32540 then Ok 32540                          (* draft 28 *)
  else fail.
Definition w_set_version (s : wstate) (v : N) : res wstate :=
  rv <- real_draft_version v ;;
  Ok (mkW (ws_seq s) (negb (rv =? 32535)) (ws_max s) (ws_policy s) (ws_aead s)).
Definition enc_set_version (s : estate) (v : N) : res estate :=
  rv <- real_draft_version v ;;
  Ok (mkE (es_seq s) (es_skip s) (negb (rv =? 32535)) (es_aead s)).
