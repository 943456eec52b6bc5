(** * Properties C05-C12: record layers.

    Specification vocabulary: RecordSpec.v ([frame], [inner], [cuts], [opens], histories of
    writes), RecordBase.v ([drain], [feed]: call read until it wants more data), and in
    RecordRT.v/ReadEventProofs.v [rawrec]/[raw_frame] (a record on the wire), [waiting]. *)
From Verif Require Import Base RecordBase Record RecordProofs RecordSpec RecordRT Nonce
  Codec Handshake HandshakeSpec ReadEvent ReadEventProofs.

(** ** C05 *)
(** Any sequence of non-empty handshake/alert payloads written in plaintext and delivered in
    any chunks is read back as records that cut each payload into pieces of 1..2^14 bytes
    (all full but the last); nothing is left over. *)
Theorem C05_plaintext_roundtrip : forall (ms : list tlsmsg) (outs : list (option bytes)) s chunks,
  Forall (fun m => (m_type m = ct_handshake \/ m_type m = ct_alert) /\ m_frag m <> []) ms ->
  Forall2 (fun m o => plain_write m = Ok o) ms outs ->
  concat chunks = concat (map obytes outs) ->
  exists fss s',
    Forall2 (fun m fs => cuts 16384 (m_frag m) fs) ms fss /\
    plain_feed s [] chunks =
    (concat (map (fun mf => map (mkMsg (m_type (fst mf))) (snd mf)) (combine ms fss)), More s' []).
Proof.
  intros ms outs s chunks HF HW Hc.
  destruct (plain_roundtrip_drain ms outs s HF HW) as (fss & H1 & s' & _ & _ & H2).
  exists fss, s'. split; [assumption|]. unfold plain_feed.
  rewrite (feed_concat _ _ _ _ _ _ plain_laws) by (try (intros; lia); auto; reflexivity).
  cbn [app]. rewrite Hc. exact H2.
Qed.
Print Assumptions C05_plaintext_roundtrip.

(** What is on the wire: records of the given type and version, at most 2^14 bytes each. *)
Theorem C05_plaintext_wire : forall m ver o, plain_write_ver m ver = Ok o ->
  exists fs, cuts 16384 (m_frag m) fs /\ obytes o = concat (map (frame (m_type m) ver) fs) /\
             (o = None <-> m_frag m = []).
Proof. intros m ver o H. apply plain_write_spec in H. tauto. Qed.
Print Assumptions C05_plaintext_wire.

(** Writing succeeds for everything except application data, which is never written. *)
Theorem C05_no_plaintext_appdata : forall m ver,
  (exists o, plain_write_ver m ver = Ok o) <-> m_type m <> ct_appdata.
Proof.
  intros m ver. unfold plain_write_ver. destruct (N.eqb_spec (m_type m) ct_appdata).
  - split; [intros [o H]; discriminate|congruence].
  - split; [auto|eexists; reflexivity].
Qed.
Print Assumptions C05_no_plaintext_appdata.

Definition ex_payload : bytes := repeat x2a 20000.
Example C05_nonvacuous : exists out,
  plain_write (mkMsg ct_handshake ex_payload) = Ok (Some out) /\ blen out = 20010.
Proof. eexists. split; [vm_compute; reflexivity|vm_compute; reflexivity]. Qed.

(** ** C06 *)
(** Whatever the owner does to the reader's state after each message ([after]), the
    messages and the final situation depend only on the concatenation of the chunks. *)
Theorem C06_chunk_independence : forall (after : tlsmsg -> layer -> layer) (l : layer) chunks,
  feed layer_read (fun _ b => length b) (fun m => m) (fun _ => false) after l [] chunks =
  drain layer_read (fun _ b => length b) (fun m => m) (fun _ => false) after l (concat chunks).
Proof.
  intros after l chunks.
  rewrite (feed_concat _ _ _ _ _ _ layer_laws); try (intros; lia); auto.
  destruct l; reflexivity.
Qed.
Print Assumptions C06_chunk_independence.

(** When more data is needed nothing but complete (ignored) records was consumed, the hint is
    positive, it is exactly what completes the header or the record at the front, and until
    that many bytes have arrived read keeps answering "need more". *)
Theorem C06_need_more : forall l b l' b' h, layer_read l b = RNeed l' b' h ->
  0 < h /\
  (exists dropped, Forall raw_ok dropped /\ b = concat (map raw_frame dropped) ++ b') /\
  waiting b' h /\
  (forall x, layer_read l (b ++ x) = layer_read l' (b' ++ x)) /\
  (forall x, blen x < h -> layer_read l (b ++ x) = RNeed l' (b' ++ x) (h - blen x)).
Proof.
  intros l b l' b' h H.
  destruct (rl_need _ _ _ _ _ layer_laws _ _ _ _ _ I H) as (_ & H1 & _ & H2 & H3).
  destruct (layer_read_need_inv _ _ _ _ _ H) as [H4 H5]. auto.
Qed.
Print Assumptions C06_need_more.

(** An incomplete first record is never an error-free message: a proper prefix of an
    acceptable record makes read ask for more. *)
Theorem C06_complete_or_wait : forall l b l' b' m x y,
  layer_read l b = RMsg l' b' m -> b = x ++ y -> blen y > blen b' ->
  exists l2 b2 h, layer_read l x = RNeed l2 b2 h.
Proof.
  intros l b l' b' m x y H -> Hy. destruct (layer_read l x) as [l2 b2 h|l2 b2 m2|e] eqn:E; eauto.
  - exfalso. destruct (rl_msg _ _ _ _ _ layer_laws _ _ _ _ _ I E) as (_ & _ & K & _).
    specialize (K eq_refl y). rewrite K in H. injection H as _ <- _. rewrite blen_app in Hy. lia.
  - exfalso. destruct (rl_err _ _ _ _ _ layer_laws _ _ _ I E) as (_ & K). rewrite K in H. discriminate.
Qed.
Print Assumptions C06_complete_or_wait.

(** The same for readEvent.  An AEAD whose plaintext is not longer than the ciphertext is
    assumed for encrypted layers; the bytes queued behind a close_notify are not compared. *)
Theorem C06_read_event_chunks : forall (after : event -> evstate -> evstate) (s : evstate) chunks,
  (forall m s, shrinking (ev_layer s) -> shrinking (ev_layer (after m s))) ->
  (forall m s, (length (ev_unparsed (after m s)) <= length (ev_unparsed s))%nat) ->
  shrinking (ev_layer s) -> ev_unparsed s = [] ->
  feed read_event ev_mu ev_view ev_term after s [] chunks =
  drain read_event ev_mu ev_view ev_term after s (concat chunks).
Proof.
  intros after s chunks H1 H2 H3 H4.
  rewrite (feed_concat _ _ _ _ _ _ read_event_laws); auto.
  - intros m s0 b. unfold ev_mu. specialize (H2 m s0). lia.
  - unfold quiescent. rewrite (drain_step _ _ _ _ _ _ read_event_laws); auto.
    + destruct s as [u l]. cbn in H4. subst u. destruct l; reflexivity.
    + intros m s0 b. unfold ev_mu. specialize (H2 m s0). lia.
Qed.
Print Assumptions C06_read_event_chunks.

(** ** A toy AEAD: identity plus a 16-byte tag made of the sequence number and the
    additional data's length.  It shows that the hypotheses on AEADs are satisfiable. *)
Definition toy_tag (ad : option bytes) (n : N) : bytes :=
  be 8 n ++ be 8 (match ad with Some a => 1 + unbe a | None => 0 end).
Definition toy_aead : aead := mkAead 16
  (fun p ad n => Ok (p ++ toy_tag ad n))
  (fun c ad n => match take (blen c - 16) c with
                 | Some (p, t) => Ok (if bytes_eqb t (toy_tag ad n) then Some [p] else None)
                 | None => Ok None
                 end).
Lemma toy_tag_blen ad n : blen (toy_tag ad n) = 16.
Proof. unfold toy_tag. rewrite blen_app, !be_blen. reflexivity. Qed.
Lemma toy_opens : opens toy_aead toy_aead.
Proof.
  intros p ad n c H. cbn [toy_aead ae_enc ae_overhead] in *.
  assert (c = p ++ toy_tag ad n) as -> by congruence.
  pose proof (toy_tag_blen ad n) as Hl.
  split; [rewrite blen_app, Hl; reflexivity|].
  exists [p]. split; [discriminate|]. split; [cbn [concat]; apply app_nil_r|].
  cbn [toy_aead ae_try]. rewrite blen_app, Hl. replace (blen p + 16 - 16) with (blen p) by lia.
  rewrite take_app, bytes_eqb_refl. reflexivity.
Qed.
Lemma toy_shrinking n k a : shrinking (LEnc (mkE n k a toy_aead)).
Proof.
  intros c ad m ch. cbn [es_aead toy_aead ae_try]. destruct (take _ c) as [[p t]|] eqn:E; [|discriminate].
  destruct (bytes_eqb _ _); [|discriminate]. intros [= <-]. cbn [concat]. rewrite app_nil_r.
  apply take_Some in E. destruct E as [-> _]. rewrite blen_app. lia.
Qed.

(** ** C07 *)
Theorem C07_encrypted_roundtrip : forall (ops : list wop) (s s' : wstate) (r : estate) out chunks,
  opens (ws_aead s) (es_aead r) -> ae_overhead (ws_aead s) <= 255 ->
  es_ad r = ws_ad s -> es_seq r = ws_seq s -> ws_seq s < 2 ^ 64 ->
  Forall (fun o => (wo_ty o = ct_handshake \/ wo_ty o = ct_alert \/ wo_ty o = ct_appdata) /\
                   0 < wo_max o /\ wo_max o <= 16384) ops ->
  write_seq s ops = Ok (s', out) ->
  concat chunks = out ->
  exists fss r',
    Forall2 (fun o fs => concat fs = concat (wo_data o) /\
                         Forall (fun f => f <> [] /\ blen f <= wo_max o) fs) ops fss /\
    es_seq r' = ws_seq s' /\
    enc_feed r [] chunks =
    (concat (map (fun of => map (mkMsg (wo_ty (fst of))) (snd of)) (combine ops fss)), More r' []).
Proof.
  intros ops s s' r out chunks Hop Hov Had Hseq Hs HF Hw Hc.
  destruct (write_seq_drain ops s s' out r) as (fss & F1 & r' & F2 & _ & _ & _ & F3); try assumption.
  { unfold max64. lia. }
  exists fss, r'. split; [assumption|]. split; [assumption|]. unfold enc_feed.
  rewrite (feed_concat _ _ _ _ _ _ enc_laws) by (try (intros; lia); auto; reflexivity).
  cbn [app]. rewrite Hc. exact F3.
Qed.
Print Assumptions C07_encrypted_roundtrip.

Definition ex_ws : wstate := mkW 0 true 16384 (PConst 0) toy_aead.
Definition ex_ops : list wop :=
  [mkOp ct_handshake 100 (PModulo 64) [repeat x61 150; []; [x62; x00]];
   mkOp ct_appdata 16384 (PConst 7) [[]; repeat x00 2000; [x01]];
   mkOp ct_appdata 16384 (PConst 7) []].
Example C07_nonvacuous : exists s' out, write_seq ex_ws ex_ops = Ok (s', out) /\ ws_seq s' = 4.
Proof.
  assert (H : match write_seq ex_ws ex_ops with Ok (s', _) => ws_seq s' =? 4 | _ => false end = true)
    by (vm_compute; reflexivity).
  destruct (write_seq ex_ws ex_ops) as [[s' out]|]; [|discriminate].
  exists s', out. split; [reflexivity|]. apply N.eqb_eq, H.
Qed.

(** ** C08 *)
(** Every byte the writer emits belongs to a record of type 23, version 0x0303, whose
    16-bit length is the ciphertext length; the ciphertext seals content ++ type ++ padding
    with content ++ padding at most maxRecord bytes; the whole data is covered. *)
Theorem C08_record_bounds : forall ty s q calls s' out ra,
  0 < ws_max s -> ws_max s <= 16384 -> ae_overhead (ws_aead s) <= 255 -> ws_seq s < 2 ^ 64 ->
  opens (ws_aead s) ra ->
  enc_write ty s q = (calls, s', Ok out) ->
  exists rs : list (bytes * N * bytes),   (* content, padding, ciphertext *)
    concat (map (fun r => fst (fst r)) rs) = concat q /\
    out = concat (map (fun r => frame 23 771 (snd r)) rs) /\
    map ec_plain calls = map (fun r => inner ty (fst (fst r)) (snd (fst r))) rs /\
    Forall (fun '(d, pad, c) =>
      d <> [] /\ blen d + pad <= ws_max s /\
      blen c = blen d + pad + 1 + ae_overhead (ws_aead s) /\
      blen c <= 16384 + 256 /\ unbe (be 2 (blen c)) = blen c) rs.
Proof.
  intros ty s q calls s' out ra H1 H2 H3 H4 Hop H. unfold enc_write in H.
  apply enc_write_loop_ok in H; [|assumption|lia|unfold max64; lia].
  destruct H as (rs & R1 & R2 & R3 & R4 & R5 & R6).
  destruct (enc_ok_frames ty s ra Hop rs _ R2) as [R7 R8]. cbn [app] in R3. rewrite R7 in R3.
  exists (map (fun r => (wr_data r, wr_pad r, wr_cipher r)) rs). rewrite !map_map. cbn [fst snd].
  split; [assumption|]. split; [assumption|]. split; [assumption|].
  clear R1 R3 R4 R5 R6 R7. revert R2 R8. generalize (ws_seq s).
  induction rs as [|r rs IH]; intros n R2 R8; [constructor|]. cbn [enc_ok] in R2.
  destruct R2 as (_ & _ & K1 & K2 & K3). inversion R8; subst. cbn [map].
  constructor; [|eapply IH; eassumption].
  split; [assumption|]. split; [assumption|]. split; [lia|]. split; [lia|]. apply unbe_be. simpl. lia.
Qed.
Print Assumptions C08_record_bounds.

(** The padding policies never exceed the room left; the modulo policy makes the remaining
    room a multiple of the modulus. *)
Theorem C08_padding : forall p mx len, mx < 65536 -> len <= mx ->
  len + padding p mx len <= mx /\
  (forall m, p = PModulo m -> 0 < m -> (mx - (len + padding p mx len)) mod m = 0) /\
  (forall c, p = PConst c -> padding p mx len = N.min c (mx - len)).
Proof.
  intros p mx len H1 H2. split; [pose proof (padding_bound p mx len H1 H2); lia|]. split.
  - intros m -> Hm. apply padding_modulo; assumption.
  - intros c ->. unfold padding. destruct (N.ltb_spec 0 c); [|lia].
    rewrite (N.mod_small len) by lia.
    replace ((mx + 65536 - len) mod 65536) with (mx - len) by lia. reflexivity.
Qed.
Print Assumptions C08_padding.

(** setMaxRecord does not enforce the 2^14 bound in release builds (only a debug check):
    with a larger value the writer produces a record its peer rejects. *)
Theorem C08_max_record_unchecked_refuted : exists s calls s' out r,
  w_set_max ex_ws 20000 = Ok s /\
  enc_write ct_appdata s [repeat x61 18000] = (calls, s', Ok out) /\
  opens (ws_aead s) (es_aead r) /\ es_seq r = 0 /\ es_ad r = true /\
  enc_read r out = RErr (EStatus None).
Proof.
  assert (H : match enc_write ct_appdata (mkW 0 true 20000 (PConst 0) toy_aead) [repeat x61 18000] with
              | (_, _, Ok out) => match enc_read (mkE 0 false true toy_aead) out with RErr (EStatus None) => true | _ => false end
              | _ => false end = true) by (vm_compute; reflexivity).
  destruct (enc_write ct_appdata (mkW 0 true 20000 (PConst 0) toy_aead) [repeat x61 18000]) as [[calls s'] [out|]] eqn:E;
    [|discriminate].
  exists (mkW 0 true 20000 (PConst 0) toy_aead), calls, s', out, (mkE 0 false true toy_aead).
  split; [reflexivity|]. split; [exact E|]. split; [apply toy_opens|].
  split; [reflexivity|]. split; [reflexivity|].
  destruct (enc_read (mkE 0 false true toy_aead) out) as [| |[[|]| | | |]]; try discriminate H. reflexivity.
Qed.
Print Assumptions C08_max_record_unchecked_refuted.

(** ** C09 *)
(** Over any history of calls the sequence numbers given to the AEAD are n, n+1, n+2, ... with
    none repeated and none equal to 2^64-1 or above; all encryptions use the same key. *)
Theorem C09_no_seq_reuse : forall (ops : list hist_op) (s s' : wstate) calls,
  ws_seq s < 2 ^ 64 -> history s ops = (calls, s') ->
  map ec_seq calls = upfrom (ws_seq s) (length calls) /\
  NoDup (map ec_seq calls) /\
  (forall c, In c calls -> ec_seq c < 2 ^ 64 - 1) /\
  ws_seq s' = ws_seq s + blen calls /\
  (exists a, Forall (fun c => ec_aead c = a) calls).
Proof.
  intros ops s s' calls Hs H. apply history_calls in H; [|unfold max64; lia].
  destruct H as (H1 & H2 & H3 & _ & H5). split; [assumption|]. split.
  - rewrite H1. apply upfrom_NoDup.
  - split; [|split; assumption]. intros c Hc. apply (in_map ec_seq) in Hc. rewrite H1, upfrom_In in Hc.
    unfold max64 in H3. unfold blen in H2. lia.
Qed.
Print Assumptions C09_no_seq_reuse.

(** At 2^64-1 writing data is refused and nothing is encrypted. *)
Theorem C09_refuse_at_max : forall ty s q, ws_seq s = 2 ^ 64 - 1 -> concat q <> [] ->
  enc_write ty s q = ([], s, fail).
Proof.
  intros ty s q Hs Hq. unfold enc_write. destruct (concat q) eqn:E; [congruence|].
  cbn [length enc_write_loop].
  assert (queue_empty q = false) as ->.
  { destruct (queue_empty q) eqn:K; [|reflexivity]. apply queue_empty_iff in K. congruence. }
  destruct (buf_to_encrypt q (ws_max s)). rewrite Hs. reflexivity.
Qed.
Print Assumptions C09_refuse_at_max.

(** A key can be installed exactly while the sequence number is still zero. *)
Theorem C09_key_install : forall s a e b,
  ((exists s', w_set_aead s a = Ok s') <-> ws_seq s = 0) /\
  ((exists e', enc_set_aead e b = Ok e') <-> es_seq e = 0).
Proof.
  intros s a e b. unfold w_set_aead, enc_set_aead.
  destruct (N.eqb_spec (ws_seq s) 0), (N.eqb_spec (es_seq e) 0); cbn [negb];
  (split; (split; [intros [? ?]; (discriminate || congruence)|intros; (congruence || (eexists; reflexivity))])).
Qed.
Print Assumptions C09_key_install.

(** With a fixed IV, distinct sequence numbers give distinct nonces. *)
Theorem C09_nonce_injective : forall s1 s2 ivLength iv n1 n2,
  s1 < 2 ^ 64 -> s2 < 2 ^ 64 ->
  createIV s1 ivLength iv = Ok n1 -> createIV s2 ivLength iv = Ok n2 ->
  s1 <> s2 -> n1 <> n2.
Proof. intros s1 s2 l iv n1 n2 H1 H2 H3 H4 Hne E. apply Hne. eapply createIV_inj; eassumption. Qed.
Print Assumptions C09_nonce_injective.

(** Put together: along any history no two encryptions use the same nonce. *)
Theorem C09_no_nonce_reuse : forall (ops : list hist_op) (s s' : wstate) calls ivLength iv i j ci cj n,
  ws_seq s < 2 ^ 64 -> history s ops = (calls, s') ->
  nth_error calls i = Some ci -> nth_error calls j = Some cj ->
  createIV (ec_seq ci) ivLength iv = Ok n -> createIV (ec_seq cj) ivLength iv = Ok n -> i = j.
Proof.
  intros ops s s' calls l iv i j ci cj n Hs H Hi Hj Ei Ej.
  destruct (C09_no_seq_reuse _ _ _ _ Hs H) as (_ & ND & HB & _).
  assert (ec_seq ci = ec_seq cj).
  { eapply createIV_inj; try eassumption; [| |reflexivity];
    [apply nth_error_In in Hi; specialize (HB _ Hi); lia|apply nth_error_In in Hj; specialize (HB _ Hj); lia]. }
  eapply NoDup_nth_error; [exact ND| |].
  - rewrite map_length. apply nth_error_Some. congruence.
  - rewrite (map_nth_error _ _ _ Hi), (map_nth_error _ _ _ Hj). congruence.
Qed.
Print Assumptions C09_no_nonce_reuse.

Example C09_nonvacuous : exists calls s',
  history ex_ws [HSetVersion 32535; HWrite ct_appdata [repeat x61 3000; [x01]]; HSetAead toy_aead;
                 HSetMax 10; HWrite ct_alert [[x01; x00]]] = (calls, s') /\
  map ec_seq calls = [0; 1; 2] /\ exists n, createIV 5 12 (repeat x11 12) = Ok n.
Proof.
  set (h := history ex_ws [HSetVersion 32535; HWrite ct_appdata [repeat x61 3000; [x01]]; HSetAead toy_aead;
                 HSetMax 10; HWrite ct_alert [[x01; x00]]]).
  assert (H : (let '(c, _) := h in match map ec_seq c with [0; 1; 2] => true | _ => false end) = true)
    by (vm_compute; reflexivity).
  destruct h as [c s'].
  exists c, s'. split; [reflexivity|]. split.
  - repeat (match type of H with match ?x with _ => _ end = _ => destruct x; try discriminate H end). reflexivity.
  - eexists; vm_compute; reflexivity.
Qed.

(** ** C10 *)
(** A message is returned only for a record that decrypts under the expected sequence number;
    everything before it on the wire was a ChangeCipherSpec record or, only if skipping was
    enabled, a record that does not decrypt under that number.  The number then advances by
    one and skipping is off. *)
Theorem C10_accepted : forall s b s' b' m, enc_read s b = RMsg s' b' m ->
  exists dropped r ch pad,
    b = concat (map raw_frame dropped) ++ raw_frame r ++ b' /\
    Forall (fun d => raw_ok d /\ (ccs_rec d \/
             (es_skip s = true /\
              ae_try (es_aead s) (rr_body d) (ad_of s d) (es_seq s) = Ok None))) dropped /\
    raw_ok r /\ 0 < blen (rr_body r) /\ blen (rr_body r) <= 16384 + 256 /\
    ae_try (es_aead s) (rr_body r) (ad_of s r) (es_seq s) = Ok (Some ch) /\
    concat ch = inner (m_type m) (m_frag m) pad /\
    es_seq s <> 2 ^ 64 - 1 /\
    es_seq s' = es_seq s + 1 /\ es_skip s' = false /\ es_ad s' = es_ad s /\ es_aead s' = es_aead s.
Proof.
  intros s b s' b' m H. apply enc_read_msg_inv in H.
  destruct H as (dr & r & ch & H1 & H2 & H3 & H4 & H5 & _ & _ & H6 & H7 & H8 & ->).
  destruct (open_inner_inv _ _ H8) as (_ & _ & pad & Hp).
  exists dr, r, ch, pad. repeat (split; [assumption|]). auto.
Qed.
Print Assumptions C10_accepted.

(** Over a whole stream: the i-th message delivered was decrypted with number n+i. *)
Theorem C10_nth_record : forall s b ms o, enc_drain s b = (ms, o) ->
  exists recs, length recs = length ms /\
  forall i r m, nth_error recs i = Some r -> nth_error ms i = Some m ->
    exists ch pad,
      ae_try (es_aead s) (rr_body r) (ad_of s r) (es_seq s + N.of_nat i) = Ok (Some ch) /\
      concat ch = inner (m_type m) (m_frag m) pad.
Proof.
  intros s b ms. revert s b. induction ms as [|m ms IH]; intros s b o H.
  - exists []. split; [reflexivity|]. intros [|i] r m Hr; discriminate.
  - rewrite enc_drain_step in H. destruct (enc_read s b) as [| s1 b1 m1|] eqn:E; try discriminate.
    destruct (enc_drain s1 b1) as [ms1 o1] eqn:E1. injection H as -> -> ->.
    apply C10_accepted in E.
    destruct E as (dr & r & ch & pad & _ & _ & _ & _ & _ & K1 & K2 & _ & K3 & _ & K4 & K5).
    destruct (IH _ _ _ E1) as (recs & L & R). exists (r :: recs).
    split; [cbn; congruence|]. intros [|i] r0 m0 H1 H2.
    + injection H1 as <-. injection H2 as <-. exists ch, pad.
      change (N.of_nat 0) with 0. rewrite N.add_0_r. auto.
    + destruct (R i r0 m0 H1 H2) as (ch' & pad' & R1 & R2). exists ch', pad'. split; [|assumption].
      rewrite K5, K3 in R1. unfold ad_of in *. rewrite K4 in R1.
      replace (es_seq s + N.of_nat (S i)) with (es_seq s + 1 + N.of_nat i) by lia. exact R1.
Qed.
Print Assumptions C10_nth_record.

(** A complete record that does not decrypt: an error, or dropped without touching the state. *)
Theorem C10_undecryptable : forall s r x,
  raw_ok r -> 0 < blen (rr_body r) -> blen (rr_body r) <= 16384 + 256 ->
  rr_ty r <> ct_ccs -> ~ (rr_ty r = ct_alert /\ blen (rr_body r) = 2) ->
  es_seq s < 2 ^ 64 - 1 ->
  ae_try (es_aead s) (rr_body r) (ad_of s r) (es_seq s) = Ok None ->
  enc_read s (raw_frame r ++ x) = if es_skip s then enc_read s x else RErr (EStatus None).
Proof.
  intros s r x (Hr1 & Hr2 & Hr3) H0 Hmax Hccs Hal Hseq Ht. unfold enc_read.
  rewrite (read_of_step _ enc_iter_laws). unfold enc_iter at 1. unfold raw_frame.
  rewrite header_frame by assumption.
  destruct (N.eqb_spec (blen (rr_body r)) 0); [lia|].
  unfold kMaxEncryptedRecordSize. destruct (N.ltb_spec (16384 + 256) (blen (rr_body r))); [lia|].
  rewrite take_app.
  destruct ((rr_ty r =? ct_alert) && (blen (rr_body r) =? 2)) eqn:E.
  { apply andb_true_iff in E. rewrite !N.eqb_eq in E. tauto. }
  destruct (N.eqb_spec (rr_ty r) ct_ccs); [congruence|].
  destruct (N.eqb_spec (es_seq s) max64); [unfold max64 in *; lia|].
  rewrite frame_head. unfold ad_of, raw_hdr in Ht. unfold ae_dec. rewrite Ht.
  destruct (es_skip s); reflexivity.
Qed.
Print Assumptions C10_undecryptable.

(** With the sequence number exhausted no record is accepted any more. *)
Theorem C10_exhausted : forall s b s' b' m, es_seq s = 2 ^ 64 - 1 -> enc_read s b <> RMsg s' b' m.
Proof. intros s b s' b' m Hs H. apply C10_accepted in H. destruct H as (? & ? & ? & ? & _ & _ & _ & _ & _ & _ & _ & H & _). exact (H Hs). Qed.
Print Assumptions C10_exhausted.

Example C10_nonvacuous :
  exists calls s' out m, enc_write ct_appdata ex_ws [[x61; x62]] = (calls, s', Ok out) /\
  enc_read (mkE 0 true true toy_aead) (frame 23 771 (repeat x00 30) ++ frame 20 771 [x01] ++ out) =
  RMsg (mkE 1 false true toy_aead) [] m /\ m_frag m = [x61; x62].
Proof.
  assert (H : match enc_write ct_appdata ex_ws [[x61; x62]] with
    | (_, _, Ok out) =>
        match enc_read (mkE 0 true true toy_aead) (frame 23 771 (repeat x00 30) ++ frame 20 771 [x01] ++ out) with
        | RMsg (mkE 1 false true _) [] m => match m_frag m with [x61; x62] => true | _ => false end
        | _ => false end
    | _ => false end = true) by (vm_compute; reflexivity).
  destruct (enc_write ct_appdata ex_ws [[x61; x62]]) as [[calls s'] [out|]]; [|discriminate].
  remember (frame 23 771 (repeat x00 30) ++ frame 20 771 [x01] ++ out) as b eqn:Eb.
  destruct (enc_read (mkE 0 true true toy_aead) b) as [|[q sk ad ae] b' m|] eqn:E; try discriminate H.
  assert (ae = toy_aead) as -> by (apply C10_accepted in E; destruct E as (? & ? & ? & ? & _ & _ & _ & _ & _ & _ & _ & _ & _ & _ & _ & E); exact E).
  destruct q as [|[| |]]; try discriminate H. destruct sk; try discriminate H. destruct ad; try discriminate H.
  destruct b'; try discriminate H. exists calls, s', out, m. split; [reflexivity|]. rewrite <- Eb. split; [exact E|].
  repeat (match type of H with match ?x with _ => _ end = _ => destruct x; try discriminate H end). reflexivity.
Qed.

(** ** C11 *)
(** Two byte streams (for any layers) whose records are all handshake records and carry the same
    concatenated payload yield the same events, and the same leftover or the same error. *)
Theorem C11_cut_independence : forall l1 b1 l2 b2 u ms1 ms2 l1' b1' l2' b2',
  shrinking l1 -> shrinking l2 ->
  rec_drain l1 b1 = (ms1, More l1' b1') -> rec_drain l2 b2 = (ms2, More l2' b2') ->
  Forall (fun m => m_type m = ct_handshake) ms1 -> Forall (fun m => m_type m = ct_handshake) ms2 ->
  concat (map m_frag ms1) = concat (map m_frag ms2) ->
  exists evs,
    fst (ev_drain (mkEv u l1) b1) = evs /\ fst (ev_drain (mkEv u l2) b2) = evs /\
    ((exists rest, snd (ev_drain (mkEv u l1) b1) = More (mkEv rest l1') b1' /\
                   snd (ev_drain (mkEv u l2) b2) = More (mkEv rest l2') b2') \/
     (exists e, snd (ev_drain (mkEv u l1) b1) = Failed e /\ snd (ev_drain (mkEv u l2) b2) = Failed e)).
Proof.
  intros l1 b1 l2 b2 u ms1 ms2 l1' b1' l2' b2' S1 S2 D1 D2 F1 F2 Hc.
  rewrite (ev_drain_handshakes ms1 l1 b1 l1' b1' u), (ev_drain_handshakes ms2 l2 b2 l2' b2' u) by assumption.
  rewrite Hc. destruct (hs_run (u ++ concat (map m_frag ms2))) as [evs [rest|e]]; cbn [fst snd fin];
  exists evs; (split; [reflexivity|]); (split; [reflexivity|]); [left|right]; eexists; split; reflexivity.
Qed.
Print Assumptions C11_cut_independence.

(** A stream of encoded messages cut into plaintext records at arbitrary places is delivered
    as exactly these messages, each with its original encoding; nothing stays buffered. *)
Theorem C11_reassembly_plaintext : forall (ms : list hsmsg) encs (fs : list bytes) ver p,
  Forall2 (fun m bs => wf_msg m = true /\ receivable m = true /\ encodeHandshake m = Ok bs /\
                       blen bs <= 131072 + 4) ms encs ->
  concat fs = concat encs -> Forall (fun f => 0 < blen f /\ blen f <= 16384) fs -> ver < 65536 ->
  exists p', ev_drain (mkEv [] (LPlain p)) (concat (map (frame ct_handshake ver) fs)) =
  (map (fun mb => EvHandshake (fst mb) (snd mb)) (combine ms encs), More (mkEv [] (LPlain p')) []).
Proof.
  intros ms encs fs ver p H Hc HF Hv.
  assert (D : exists p', plain_drain p (concat (map (frame ct_handshake ver) fs)) =
              (map (mkMsg ct_handshake) fs, More p' [])).
  { destruct fs as [|f fs]; [exists p; reflexivity|].
    rewrite <- (app_nil_r (concat _)). rewrite plain_drain_frames; try assumption; [|left; reflexivity|discriminate].
    exists (mkP false (Some ver)).
    change (plain_drain (mkP false (Some ver)) []) with (@nil tlsmsg, More (mkP false (Some ver)) []).
    cbn [fst snd]. rewrite app_nil_r. reflexivity. }
  destruct D as [p' D]. exists p'.
  rewrite (ev_drain_handshakes (map (mkMsg ct_handshake) fs) _ _ (LPlain p') []).
  - rewrite map_map. cbn [m_frag app]. rewrite map_id, Hc, (hs_run_stream ms encs) by assumption. reflexivity.
  - exact I.
  - rewrite rec_drain_plain, D. reflexivity.
  - apply Forall_map, Forall_forall. reflexivity.
Qed.
Print Assumptions C11_reassembly_plaintext.

(** The same through the encrypted layer: handshake messages handed to the encrypted writer, in
    any number of writes with any buffer chaining, padding and record size. *)
Theorem C11_reassembly_encrypted : forall (ms : list hsmsg) encs ops s s' out r,
  Forall2 (fun m bs => wf_msg m = true /\ receivable m = true /\ encodeHandshake m = Ok bs /\
                       blen bs <= 131072 + 4) ms encs ->
  Forall (fun o => wo_ty o = ct_handshake /\ 0 < wo_max o /\ wo_max o <= 16384) ops ->
  concat (map (fun o => concat (wo_data o)) ops) = concat encs ->
  opens (ws_aead s) (es_aead r) -> shrinking (LEnc r) -> ae_overhead (ws_aead s) <= 255 ->
  es_ad r = ws_ad s -> es_seq r = ws_seq s -> ws_seq s < 2 ^ 64 ->
  write_seq s ops = Ok (s', out) ->
  exists r', ev_drain (mkEv [] (LEnc r)) out =
  (map (fun mb => EvHandshake (fst mb) (snd mb)) (combine ms encs), More (mkEv [] (LEnc r')) []).
Proof.
  intros ms encs ops s s' out r H HO Hc Hop Hsh Hov Had Hseq Hs Hw.
  destruct (write_seq_drain ops s s' out r) as (fss & F1 & r' & _ & _ & _ & _ & F3); try assumption.
  { unfold max64. lia. }
  { eapply Forall_impl; [|exact HO]. cbv beta. tauto. }
  exists r'. set (recs := concat (map _ (combine ops fss))) in F3.
  rewrite (ev_drain_handshakes recs _ _ (LEnc r') []).
  - cbn [app]. assert (E : concat (map m_frag recs) = concat encs).
    { rewrite <- Hc. unfold recs. clear - F1. induction F1 as [|o fs ops fss [K _] F1 IH]; [reflexivity|].
      cbn [combine map concat fst snd]. rewrite map_app, concat_app, IH, map_map, <- K.
      cbn [m_frag]. rewrite map_id. reflexivity. }
    rewrite E, (hs_run_stream ms encs) by assumption. reflexivity.
  - exact Hsh.
  - rewrite rec_drain_enc, F3. reflexivity.
  - unfold recs. clear - F1 HO. induction F1 as [|o fs ops fss K F1 IH]; [constructor|].
    inversion HO as [|? ? (Ht & _ & _) HO']; subst. cbn [combine map concat fst snd].
    apply Forall_app. split; [|apply IH; assumption]. apply Forall_map, Forall_forall.
    intros f _. exact Ht.
Qed.
Print Assumptions C11_reassembly_encrypted.

(** A non-handshake record while a handshake message is incomplete is an error. *)
Theorem C11_no_splicing : forall u l b l' b' m,
  u <> [] -> decode_hs u = Ok None -> layer_read l b = RMsg l' b' m -> m_type m <> ct_handshake ->
  read_event (mkEv u l) b = RErr (EStatus None).
Proof.
  intros u l b l' b' m Hu Hd Hr Ht. rewrite read_event_eq. cbn [ev_unparsed ev_layer]. rewrite Hd.
  cbn [ev_loop]. rewrite Hr. destruct u; [congruence|].
  destruct (N.eqb_spec (m_type m) ct_handshake); [congruence|]. reflexivity.
Qed.
Print Assumptions C11_no_splicing.

(** A declared length above 128 KiB is rejected as soon as its header is there, however the
    records cut it and whatever is behind it. *)
Theorem C11_too_big : forall (fs : list bytes) ver p ty len rest,
  concat fs = be 1 ty ++ be 3 len ++ rest -> 131072 < len -> len < 2 ^ 24 ->
  Forall (fun f => 0 < blen f /\ blen f <= 16384) fs -> ver < 65536 ->
  ev_drain (mkEv [] (LPlain p)) (concat (map (frame ct_handshake ver) fs)) = ([], Failed (EStatus None)).
Proof.
  intros fs ver p ty len rest Hc Hl Hl2 HF Hv.
  assert (D : exists p', plain_drain p (concat (map (frame ct_handshake ver) fs)) =
              (map (mkMsg ct_handshake) fs, More p' [])).
  { destruct fs as [|f fs]; [discriminate|].
    rewrite <- (app_nil_r (concat _)). rewrite plain_drain_frames; try assumption; [|left; reflexivity|discriminate].
    exists (mkP false (Some ver)).
    change (plain_drain (mkP false (Some ver)) []) with (@nil tlsmsg, More (mkP false (Some ver)) []).
    cbn [fst snd]. rewrite app_nil_r. reflexivity. }
  destruct D as [p' D].
  rewrite (ev_drain_handshakes (map (mkMsg ct_handshake) fs) _ _ (LPlain p') []).
  - rewrite map_map. cbn [m_frag app]. rewrite map_id, Hc, hs_run_step.
    assert (Hu : unbe (be 3 len) = len) by (apply unbe_be; exact Hl2).
    change (be 3 len) with [n2b (len / 256 / 256); n2b (len / 256); n2b len] in *.
    rewrite be1. cbn [app decode_hs]. rewrite Hu. unfold kMaxHandshakeSize.
    destruct (N.ltb_spec 131072 len); [reflexivity|lia].
  - exact I.
  - rewrite rec_drain_plain, D. reflexivity.
  - apply Forall_map, Forall_forall. reflexivity.
Qed.
Print Assumptions C11_too_big.

(** Alerts and application data between complete messages are delivered as such. *)
Theorem C11_other_records : forall l b l' b' m,
  layer_read l b = RMsg l' b' m -> m_type m <> ct_handshake ->
  read_event (mkEv [] l) b =
  if m_type m =? ct_appdata then RMsg (mkEv [] l') b' (EvAppData (m_frag m))
  else if m_type m =? ct_alert then
    match m_frag m with
    | [lvl; desc] => if b2n desc =? 0 then RMsg (mkEv [] l') [] (EvClose b')
                     else RMsg (mkEv [] l') b' (EvAlert (mkAlert (b2n lvl) (b2n desc)))
    | _ => RErr (if 2 <? blen (m_frag m) then EStatus None else EThrow)
    end
  else RErr (EStatus None).
Proof.
  intros l b l' b' m Hr Ht. rewrite read_event_eq. cbn [ev_unparsed ev_layer decode_hs ev_loop].
  rewrite Hr. cbn [andb]. destruct (N.eqb_spec (m_type m) ct_handshake); [congruence|].
  destruct (N.eqb_spec (m_type m) ct_alert) as [Ea|].
  - rewrite Ea. change (ct_alert =? ct_appdata) with false. cbv iota.
    destruct (m_frag m) as [|x0 [|x1 [|x2 r]]]; try reflexivity.
    assert ((2 <? blen (x0 :: x1 :: x2 :: r)) = true) as ->.
    { apply N.ltb_lt. rewrite !blen_cons. lia. }
    unfold decode_all, decode_alert, read_u, read_be.
    change (x0 :: x1 :: x2 :: r) with ([x0] ++ x1 :: x2 :: r).
    rewrite (take_app_n (N.of_nat 1) [x0]) by reflexivity. cbn [bind].
    change (x1 :: x2 :: r) with ([x1] ++ x2 :: r).
    rewrite (take_app_n (N.of_nat 1) [x1]) by reflexivity. reflexivity.
  - reflexivity.
Qed.
Print Assumptions C11_other_records.

(** ** C12 *)
(** Plaintext: whatever surfaces was a handshake or alert record with 1..2^14 bytes. *)
Theorem C12_plaintext_surface : forall s b s' b' m, plain_read s b = RMsg s' b' m ->
  exists dropped ver,
    b = concat (map raw_frame dropped) ++ frame (m_type m) ver (m_frag m) ++ b' /\
    Forall (fun d => raw_ok d /\ (ccs_rec d \/ (ps_skip s = true /\ rr_ty d = ct_appdata))) dropped /\
    (m_type m = ct_handshake \/ m_type m = ct_alert) /\
    0 < blen (m_frag m) /\ blen (m_frag m) <= 16384.
Proof.
  intros s b s' b' m H. apply plain_read_msg_inv in H.
  destruct H as (dr & ver & H1 & H2 & H3 & H4 & H5 & _). exists dr, ver. auto.
Qed.
Print Assumptions C12_plaintext_surface.

(** Plaintext: a bad header is an error at once, whatever follows; a bad ChangeCipherSpec is
    illegal_parameter; a good one is ignored. *)
Theorem C12_plaintext_reject : forall s ty ver len rest,
  ty < 256 -> ver < 65536 -> len < 65536 ->
  (ps_skip s = false \/ ty <> ct_appdata) ->
  ~ In ty [ct_ccs; ct_alert; ct_handshake] \/ len = 0 \/ 16384 < len ->
  plain_read s (be 1 ty ++ be 2 ver ++ be 2 len ++ rest) = RErr (EStatus None).
Proof.
  intros s ty ver len rest H1 H2 H3 Hsk Hbad. unfold plain_read.
  rewrite (read_of_step _ plain_iter_laws). unfold plain_iter at 1.
  assert (Hh : header (be 1 ty ++ be 2 ver ++ be 2 len ++ rest) = Some (ty, ver, len, rest)).
  { assert (Hv : unbe (be 2 ver) = ver) by (apply unbe_be; exact H2).
    assert (Hl : unbe (be 2 len) = len) by (apply unbe_be; exact H3).
    rewrite !be2 in *. rewrite be1. cbn [app header]. rewrite Hv, Hl, b2n_n2b by assumption. reflexivity. }
  rewrite Hh.
  assert (ps_skip s && (ty =? ct_appdata) = false) as ->.
  { destruct Hsk as [->|Hsk]; [reflexivity|]. apply andb_false_iff. right. apply N.eqb_neq. exact Hsk. }
  destruct (negb _) eqn:En; [reflexivity|]. apply negb_false_iff in En.
  rewrite !orb_true_iff, !N.eqb_eq in En. unfold kMaxPlaintextRecordSize.
  destruct (N.ltb_spec 16384 len); [reflexivity|]. destruct (N.eqb_spec len 0); [reflexivity|].
  exfalso. destruct Hbad as [Hbad|Hbad]; [|lia]. apply Hbad. simpl. intuition.
Qed.
Print Assumptions C12_plaintext_reject.

Theorem C12_plaintext_ccs : forall s ver c x, ver < 65536 -> 0 < blen c -> blen c <= 16384 ->
  plain_read s (frame ct_ccs ver c ++ x) =
  if bytes_eqb c [x01] then plain_read (mkP (ps_skip s) (Some ver)) x else RErr (EStatus (Some 47)).
Proof.
  intros s ver c x Hv H0 Hm. unfold plain_read. rewrite (read_of_step _ plain_iter_laws).
  unfold plain_iter at 1. rewrite header_frame by (lia || reflexivity).
  change (ct_ccs =? ct_appdata) with false. rewrite andb_false_r.
  change (negb ((ct_ccs =? ct_handshake) || (ct_ccs =? ct_alert) || (ct_ccs =? ct_ccs))) with false.
  unfold kMaxPlaintextRecordSize. cbv iota.
  destruct (N.ltb_spec 16384 (blen c)); [lia|]. destruct (N.eqb_spec (blen c) 0); [lia|].
  rewrite take_app. change (ct_ccs =? ct_ccs) with true. cbn [negb]. rewrite andb_false_r.
  destruct (bytes_eqb c [x01]); reflexivity.
Qed.
Print Assumptions C12_plaintext_ccs.

(** Skipping early data: application-data records are dropped (of any length), and skipping
    stops at the first handshake or alert record. *)
Theorem C12_plaintext_skip : forall ver0 ver c x, ver < 65536 -> blen c < 65536 ->
  plain_read (mkP true ver0) (frame ct_appdata ver c ++ x) = plain_read (mkP true ver0) x /\
  (forall b s' b' m, plain_read (mkP true ver0) b = RMsg s' b' m -> ps_skip s' = false).
Proof.
  intros ver0 ver c x Hv Hc. split.
  - unfold plain_read. rewrite (read_of_step _ plain_iter_laws). unfold plain_iter at 1.
    rewrite header_frame by (assumption || reflexivity). cbn [ps_skip].
    change (true && (ct_appdata =? ct_appdata)) with true. cbv iota. rewrite take_app. reflexivity.
  - intros b s' b' m H. apply plain_read_msg_inv in H.
    destruct H as (_ & v & _ & _ & _ & _ & _ & ->). reflexivity.
Qed.
Print Assumptions C12_plaintext_skip.

(** Encrypted: whatever surfaces has an allowed type and, unless application data, content. *)
Theorem C12_encrypted_surface : forall s b s' b' m, enc_read s b = RMsg s' b' m ->
  (m_type m = ct_handshake \/ m_type m = ct_alert \/ m_type m = ct_appdata) /\
  (m_frag m <> [] \/ m_type m = ct_appdata).
Proof.
  intros s b s' b' m H. apply enc_read_msg_inv in H.
  destruct H as (dr & r & ch & _ & _ & _ & _ & _ & _ & _ & _ & _ & H8 & _).
  apply open_inner_inv in H8. tauto.
Qed.
Print Assumptions C12_encrypted_surface.

Theorem C12_encrypted_reject : forall s ty ver len rest,
  ty < 256 -> ver < 65536 -> len < 65536 ->
  len = 0 \/ 16384 + 256 < len \/ (ty = ct_alert /\ len = 2 /\ len <= blen rest) ->
  enc_read s (be 1 ty ++ be 2 ver ++ be 2 len ++ rest) = RErr (EStatus None).
Proof.
  intros s ty ver len rest H1 H2 H3 Hbad. unfold enc_read.
  rewrite (read_of_step _ enc_iter_laws). unfold enc_iter at 1.
  assert (Hh : header (be 1 ty ++ be 2 ver ++ be 2 len ++ rest) = Some (ty, ver, len, rest)).
  { assert (Hv : unbe (be 2 ver) = ver) by (apply unbe_be; exact H2).
    assert (Hl : unbe (be 2 len) = len) by (apply unbe_be; exact H3).
    rewrite !be2 in *. rewrite be1. cbn [app header]. rewrite Hv, Hl, b2n_n2b by assumption. reflexivity. }
  rewrite Hh. destruct (N.eqb_spec len 0); [reflexivity|]. unfold kMaxEncryptedRecordSize.
  destruct (N.ltb_spec (16384 + 256) len); [reflexivity|].
  destruct Hbad as [Hbad|[Hbad|(-> & -> & Hbad)]]; [lia|lia|].
  destruct (take 2 rest) as [[c r]|] eqn:Et; [reflexivity|]. apply take_None in Et. lia.
Qed.
Print Assumptions C12_encrypted_reject.

Theorem C12_encrypted_ccs : forall s ver c x, ver < 65536 -> 0 < blen c -> blen c <= 16384 + 256 ->
  enc_read s (frame ct_ccs ver c ++ x) =
  if bytes_eqb c [x01] then enc_read s x else RErr (EStatus (Some 47)).
Proof.
  intros s ver c x Hv H0 Hm. unfold enc_read. rewrite (read_of_step _ enc_iter_laws).
  unfold enc_iter at 1. rewrite header_frame by (lia || reflexivity).
  unfold kMaxEncryptedRecordSize.
  destruct (N.eqb_spec (blen c) 0); [lia|]. destruct (N.ltb_spec (16384 + 256) (blen c)); [lia|].
  rewrite take_app. change (ct_ccs =? ct_alert) with false. change (ct_ccs =? ct_ccs) with true.
  cbn [andb]. destruct (bytes_eqb c [x01]); reflexivity.
Qed.
Print Assumptions C12_encrypted_ccs.

(** An inner plaintext that is all zeros, has an unknown type, or is an empty handshake/alert
    is an error; anything else is delivered with its zero padding removed. *)
Theorem C12_inner_plaintext : forall s r x ch,
  raw_ok r -> 0 < blen (rr_body r) -> blen (rr_body r) <= 16384 + 256 ->
  rr_ty r <> ct_ccs -> ~ (rr_ty r = ct_alert /\ blen (rr_body r) = 2) ->
  es_seq s < 2 ^ 64 - 1 -> ch <> [] ->
  ae_try (es_aead s) (rr_body r) (ad_of s r) (es_seq s) = Ok (Some ch) ->
  (concat ch = repeat x00 (length (concat ch)) /\
   enc_read s (raw_frame r ++ x) = RErr (EStatus None)) \/
  (exists ty content pad, concat ch = inner ty content pad /\ 0 < ty /\ ty < 256 /\
     enc_read s (raw_frame r ++ x) =
     if negb (existsb (N.eqb ty) [ct_handshake; ct_alert; ct_appdata]) ||
        ((blen content =? 0) && negb (ty =? ct_appdata))
     then RErr (EStatus None)
     else RMsg (mkE (es_seq s + 1) false (es_ad s) (es_aead s)) x (mkMsg ty content)).
Proof.
  intros s r x ch (Hr1 & Hr2 & Hr3) H0 Hmax Hccs Hal Hseq Hne Ht.
  assert (Hgo : enc_read s (raw_frame r ++ x) =
     match open_inner ch with
     | Ok m => RMsg (mkE (es_seq s + 1) false (es_ad s) (es_aead s)) x m
     | Err e => RErr e end).
  { unfold enc_read. rewrite (read_of_step _ enc_iter_laws). unfold enc_iter at 1. unfold raw_frame.
    rewrite header_frame by assumption.
    destruct (N.eqb_spec (blen (rr_body r)) 0); [lia|].
    unfold kMaxEncryptedRecordSize. destruct (N.ltb_spec (16384 + 256) (blen (rr_body r))); [lia|].
    rewrite take_app.
    destruct ((rr_ty r =? ct_alert) && (blen (rr_body r) =? 2)) eqn:E.
    { apply andb_true_iff in E. rewrite !N.eqb_eq in E. tauto. }
    destruct (N.eqb_spec (rr_ty r) ct_ccs); [congruence|].
    destruct (N.eqb_spec (es_seq s) max64); [unfold max64 in *; lia|].
    rewrite frame_head. unfold ad_of, raw_hdr in Ht. unfold ae_dec. rewrite Ht. cbn [bind].
    destruct (es_skip s), (open_inner ch); reflexivity. }
  rewrite Hgo. unfold open_inner. destruct ch as [|c0 ch0] eqn:Ec; [congruence|]. rewrite <- Ec in *.
  clear c0 ch0 Ec Hgo. pose proof (strip_chain_spec (rev ch)) as K. rewrite rev_involutive in K.
  destruct (strip_chain (rev ch)) as [[t rc]|].
  - right. apply strip_zeros_Some in K. destruct K as (Hz & n & K).
    apply (f_equal (@rev byte)) in K. rewrite rev_app_distr, rev_repeat in K.
    cbn [rev] in K. rewrite !rev_involutive in K.
    exists (b2n t), (concat (rev rc)), (N.of_nat n). split; [|split; [|split]].
    + rewrite K. unfold inner. rewrite be1, n2b_b2n, Nnat.Nat2N.id, <- app_assoc. reflexivity.
    + destruct (N.eq_dec (b2n t) 0) as [Hz0|]; [|lia]. exfalso. apply Hz. apply b2n_inj. exact Hz0.
    + apply b2n_bound.
    + set (content := concat (rev rc)). cbn [existsb].
      destruct (b2n t =? ct_handshake), (b2n t =? ct_alert); cbn [orb negb];
      destruct (b2n t =? ct_appdata); cbn [orb negb]; try reflexivity;
      destruct content; reflexivity.
  - left. apply strip_zeros_None in K. split; [|reflexivity].
    apply (f_equal (@rev byte)) in K. rewrite rev_involutive, rev_repeat, rev_length in K. exact K.
Qed.
Print Assumptions C12_inner_plaintext.

Example C12_nonvacuous :
  plain_read (mkP true None) (frame 23 771 (repeat x07 17000) ++ frame 20 771 [x01] ++ frame 21 771 [x02; x28] ++ [x16]) =
  RMsg (mkP false (Some 771)) [x16] (mkMsg 21 [x02; x28]).
Proof. vm_compute. reflexivity. Qed.
