(** * Specification vocabulary for the record layers (RFC 8446 section 5), independent of the model *)
From Verif Require Import Base RecordBase Record.

(** TLSPlaintext / TLSCiphertext: type, legacy version, 16-bit length, body. *)
Definition frame (ty ver : N) (body : bytes) : bytes :=
  be 1 ty ++ be 2 ver ++ be 2 (blen body) ++ body.

(** TLSInnerPlaintext: content, type byte, [pad] zero bytes. *)
Definition inner (ty : N) (content : bytes) (pad : N) : bytes :=
  content ++ be 1 ty ++ repeat x00 (N.to_nat pad).

(** [fs] cuts [p] into non-empty pieces of at most [n] bytes, all but the last full. *)
Definition cuts (n : N) (p : bytes) (fs : list bytes) : Prop :=
  concat fs = p /\
  Forall (fun f => 0 < blen f /\ blen f <= n) fs /\
  forall pre l, fs = pre ++ [l] -> Forall (fun f => blen f = n) pre.

(** [r] opens what [w] seals: same sequence number, same additional data; the
    ciphertext is [overhead] bytes longer than the plaintext. *)
Definition opens (w r : aead) : Prop :=
  forall p ad seq c, ae_enc w p ad seq = Ok c ->
    blen c = blen p + ae_overhead w /\
    exists ch, ch <> [] /\ concat ch = p /\ ae_try r c ad seq = Ok (Some ch).

(** The messages obtained by draining a reader. *)
Definition plain_drain := drain plain_read (fun _ b => length b) (fun m => m) (fun _ => false)
                                (fun _ s => s).
Definition plain_feed := feed plain_read (fun _ b => length b) (fun m => m) (fun _ => false)
                                (fun _ s => s).
Definition enc_drain := drain enc_read (fun _ b => length b) (fun m => m) (fun _ => false)
                                (fun _ s => s).
Definition enc_feed := feed enc_read (fun _ b => length b) (fun m => m) (fun _ => false)
                                (fun _ s => s).

(** A sequence of writes on one write record layer; before each write the application
    may change the maximum record size and the padding policy. *)
Record wop := mkOp { wo_ty : N; wo_max : N; wo_policy : policy; wo_data : list bytes }.
Fixpoint write_seq (s : wstate) (ops : list wop) : res (wstate * bytes) :=
  match ops with
  | [] => Ok (s, [])
  | o :: ops' =>
      match enc_write (wo_ty o)
              (mkW (ws_seq s) (ws_ad s) (wo_max o) (wo_policy o) (ws_aead s)) (wo_data o) with
      | (_, s2, Ok out) =>
          '(s3, out') <- write_seq s2 ops' ;; Ok (s3, out ++ out')
      | (_, _, Err e) => Err e
      end
  end.

(** An arbitrary history of calls on one write record layer (setSequenceNumber is the
    only mutator left out); failed calls leave the state the call left behind. *)
Inductive hist_op :=
| HWrite (ty : N) (q : list bytes)
| HSetAead (a : aead)
| HSetMax (n : N)
| HSetPolicy (p : policy)
| HSetVersion (v : N).
Definition keep (s : wstate) (r : res wstate) : wstate := match r with Ok s' => s' | Err _ => s end.
(** the encryption calls made along the history *)
Fixpoint history (s : wstate) (ops : list hist_op) : list enc_call * wstate :=
  match ops with
  | [] => ([], s)
  | HWrite ty q :: ops' =>
      let '(calls, s', _) := enc_write ty s q in
      let '(calls', s'') := history s' ops' in (calls ++ calls', s'')
  | HSetAead a :: ops' => history (keep s (w_set_aead s a)) ops'
  | HSetMax n :: ops' => history (keep s (w_set_max s n)) ops'
  | HSetPolicy p :: ops' => history (w_set_policy s p) ops'
  | HSetVersion v :: ops' => history (keep s (w_set_version s v)) ops'
  end.

(** n, n+1, .., n+k-1 *)
Fixpoint upfrom (n : N) (k : nat) : list N :=
  match k with O => [] | S k' => n :: upfrom (n + 1) k' end.
