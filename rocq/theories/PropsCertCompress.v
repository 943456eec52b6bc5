(** * C74: certificate compression *)
From Verif Require Import Base Codec CodecSpec Handshake HandshakeSpec HandshakeProofs RecordBase PskSer Server Crash Client CertCompress.
Open Scope N_scope.

(** ** What is assumed of the libraries: the output fits the buffer, and what was compressed comes back if it fits *)
Record clib_ok (l : clib) : Prop := mkLo {
  lo_tailroom : forall n, n <= cl_tailroom l n;
  lo_zlib : forall v b c n, cl_zcompress l v b = Some c -> blen b <= n -> cl_zuncompress l n c = Some b;
  lo_brotli : forall v w b c n, cl_brcompress l v w b = Some c -> blen b <= n -> cl_brdecompress l n c = Some b;
  lo_zstd : forall v b c n, cl_zscompress l v b = Some c -> blen b <= n -> cl_zsdecompress l n c = Some b }.
(** what the library gives for compressed bytes of a declared length *)
Definition lib_decompress (l : clib) (a : calg) (n : N) (b : bytes) : option bytes :=
  match a with AZlib => cl_zuncompress l n b | ABrotli => cl_brdecompress l n b | AZstd => cl_zsdecompress l (cl_tailroom l n) b end.
(** the encoding of a Certificate message, RFC 8446 4.4.2 *)
Definition cert_wire (m : CertificateMsg) : bytes := opaque 1 (cm_context m) ++ tls_list 3 w_ce (cm_list m).
Definition cert_typed (m : CertificateMsg) : Prop := forallb wf_ce (cm_list m) = true.
(** the same message, a missing context read as an empty one *)
Definition with_context (m : CertificateMsg) : CertificateMsg := mkCert (Some (bufbytes (cm_context m))) (cm_list m).

Lemma encode_cert_inv m raw : cert_typed m -> encode_cert m = Ok raw ->
  raw = cert_wire m /\ ofits 1 (cm_context m) = true /\ fit_ces (cm_list m) = true.
Proof.
  unfold cert_typed, encode_cert, cert_wire. intros T H. apply bind_Ok in H. destruct H as [c [H1 H]]. apply bind_Ok in H. destruct H as [x [H2 H]].
  apply write_buf_any_inv in H1. destruct H1 as [F ->]. apply ces_inv in H2; [|exact T]. destruct H2 as [F2 ->]. injection H as <-. auto.
Qed.
Lemma parse11 raw : parse_handshake 11 raw = (m <- decode_all decode_cert raw ;; Ok (MCertificate m)). Proof. reflexivity. Qed.
Lemma decode_wire m : cert_typed m -> ofits 1 (cm_context m) = true -> fit_ces (cm_list m) = true ->
  decode_all decode_cert (cert_wire m) = Ok (with_context m).
Proof.
  intros T F1 F2. pose proof (parse_ok (MCertificate (with_context m))) as P. cbn [wf_msg receivable fit_body w_body hs_type with_context cm_context cm_list opaque bufbytes nonnull] in P.
  change (opaque 1 (Some (bufbytes (cm_context m)))) with (opaque 1 (cm_context m)) in P. fold (cert_wire m) in P.
  assert (P' : parse_handshake 11 (cert_wire m) = Ok (MCertificate (with_context m))).
  { apply P; auto. unfold fit_ces in F2. apply andb_true_iff in F2. destruct F2 as [G1 G2]. unfold ofits in *. cbn [bufbytes] in *. rewrite F1, G1, G2. reflexivity. }
  rewrite parse11 in P'.
  destruct (decode_all decode_cert (cert_wire m)) as [x|e]; cbn [bind] in P'; [congruence|discriminate].
Qed.
Lemma decode_wire_inv raw m : decode_all decode_cert raw = Ok m -> raw = cert_wire m /\ cert_typed m.
Proof.
  intro H. assert (P : parse_handshake 11 raw = Ok (MCertificate m)) by (rewrite parse11, H; reflexivity).
  apply parse_canon in P. destruct P as (_ & W & _ & _ & B). cbn [wf_msg] in W. apply andb_true_iff in W. destruct W as [_ W].
  destruct B as [B|(c & E & _)]; [|discriminate]. cbn [w_body] in B. split; [exact B|exact W].
Qed.

(** ** C74: what a decompressor accepts *)
(** A compressed certificate is accepted exactly if it names this algorithm, declares at most 128 KiB, and decompresses to
    exactly the declared number of bytes, which are exactly one Certificate message. *)
Theorem C74_decompress l a cc m : cc_message cc <> None ->
  (decompress l a cc = Ok m <->
   cc_algorithm cc = alg_code a /\ cc_uncompressed_length cc <= 131072 /\
   (exists b raw, cc_message cc = Some b /\ lib_decompress l a (cc_uncompressed_length cc) b = Some raw /\
      blen raw = cc_uncompressed_length cc /\ decode_all decode_cert raw = Ok m)).
Proof.
  intro N. unfold decompress, lib_decompress, kMaxCert. destruct (cc_algorithm cc =? alg_code a) eqn:E1; cbn [negb]; [|split; [discriminate|intros [H _]; lia]].
  destruct (131072 <? cc_uncompressed_length cc) eqn:E2; [split; [discriminate|intros (_ & H & _); lia]|].
  destruct (cc_message cc) as [b|] eqn:E3; [|contradiction].
  assert (Z : forall raw, decode_all decode_cert raw = Ok m -> blen raw <> 0).
  { intros raw D H. apply decode_wire_inv in D. destruct D as [-> _]. unfold cert_wire, opaque, tls_vec, tls_list in H. rewrite !blen_app, !be_blen in H. lia. }
  split.
  - intro H. apply bind_Ok in H. destruct H as [raw [R H]]. destruct (blen raw =? cc_uncompressed_length cc) eqn:E4; [|discriminate]. cbn [negb] in H.
    destruct (match a with AZstd => true | _ => false end && (blen raw =? 0)); [discriminate|].
    split; [lia|]. split; [lia|]. exists b, raw. split; [reflexivity|]. split; [|split; [lia|exact H]].
    revert R. destruct a; [destruct (cl_zuncompress _ _ _)|destruct (cl_brdecompress _ _ _)|destruct (cl_zsdecompress _ _ _)]; unfold fail; congruence.
  - intros (_ & _ & b' & raw & Eb & R & L & D). injection Eb as <-.
    assert (Q : (raw' <- match a with
             | AZlib => match cl_zuncompress l (cc_uncompressed_length cc) b with Some r => Ok r | None => fail end
             | ABrotli => match cl_brdecompress l (cc_uncompressed_length cc) b with Some r => Ok r | None => fail end
             | AZstd => match cl_zsdecompress l (cl_tailroom l (cc_uncompressed_length cc)) b with Some r => Ok r | None => fail end
             end ;; Ok raw') = Ok raw) by (destruct a; rewrite R; reflexivity).
    apply bind_Ok in Q. destruct Q as [raw' [Q1 Q2]]. injection Q2 as ->. rewrite Q1. cbn [bind]. rewrite L, N.eqb_refl. cbn [negb].
    specialize (Z raw D). rewrite L in Z. destruct (cc_uncompressed_length cc =? 0) eqn:E; [lia|]. rewrite andb_false_r. exact D.
Qed.
(** Nothing else happens: it succeeds or fails with a status or an exception. *)
Theorem C74_safe l a cc : cc_message cc <> None -> decompress l a cc <> Err EUB /\ decompress l a cc <> Err ECheck /\ decompress l a cc <> Err EFuel.
Proof.
  intro N. unfold decompress. destruct (negb _); [repeat split; discriminate|]. destruct (kMaxCert <? _); [repeat split; discriminate|].
  destruct (cc_message cc) as [b|]; [|contradiction].
  match goal with |- context [bind ?x _] => destruct x as [raw|e] eqn:R end; cbn [bind].
  - destruct (negb _); [repeat split; discriminate|]. destruct (_ && _); [repeat split; discriminate|].
    pose proof (safe_parse 11 raw) as P. rewrite parse11 in P.
    destruct (decode_all decode_cert raw) as [x|e]; [repeat split; discriminate|]. cbn [bind] in P. destruct e; cbn in P; repeat split; try discriminate; contradiction.
  - assert (e = EStatus None) as ->; [|repeat split; discriminate].
    revert R. destruct a; [destruct (cl_zuncompress _ _ _)|destruct (cl_brdecompress _ _ _)|destruct (cl_zsdecompress _ _ _)]; unfold fail; congruence.
Qed.

(** ** C74: compressing and decompressing *)
Lemma compress_inv l c m cc : cert_typed m -> compress l c m = Ok cc ->
  ofits 1 (cm_context m) = true /\ fit_ces (cm_list m) = true /\ cc_algorithm cc = alg_code (c_alg c) /\
  cc_uncompressed_length cc = blen (cert_wire m) /\
  exists out, cc_message cc = Some out /\
    match c with
    | CZlib v => cl_zcompress l v (cert_wire m) = Some out
    | CBrotli v w => cl_brcompress l v w (cert_wire m) = Some out
    | CZstd v => cl_zscompress l v (cert_wire m) = Some out
    end.
Proof.
  intros T H. unfold compress in H. apply bind_Ok in H. destruct H as [raw [E H]]. apply encode_cert_inv in E; [|exact T]. destruct E as [-> [F1 F2]].
  apply bind_Ok in H. destruct H as [out [E H]]. injection H as <-. cbn [cc_algorithm cc_uncompressed_length cc_message].
  repeat (split; [auto|]). exists out. split; [reflexivity|]. destruct c; unfold brotliCompress in E.
  - destruct (cl_zcompress _ _ _); [congruence|discriminate].
  - destruct (_ =? 0); [discriminate|]. destruct (cl_brcompress _ _ _ _); [congruence|discriminate].
  - destruct (cl_zscompress _ _ _); [congruence|discriminate].
Qed.

(** What a compressor makes of a message of at most 128 KiB, the decompressor for its algorithm turns back into it. *)
Theorem C74_roundtrip l c m cc : clib_ok l -> cert_typed m -> compress l c m = Ok cc -> blen (cert_wire m) <= 131072 ->
  decompress l (c_alg c) cc = Ok (with_context m) /\ cc_algorithm cc = alg_code (c_alg c).
Proof.
  intros O T H B. apply compress_inv in H; [|exact T]. destruct H as (F1 & F2 & A & L & out & M & K). split; [|exact A].
  apply C74_decompress; [congruence|]. split; [exact A|]. split; [lia|]. exists out, (cert_wire m). split; [exact M|]. split; [|split; [congruence|apply decode_wire; assumption]].
  pose proof (lo_tailroom l O (cc_uncompressed_length cc)) as TR.
  destruct c; cbn [c_alg lib_decompress]; [eapply (lo_zlib l O)|eapply (lo_brotli l O)|eapply (lo_zstd l O)]; try exact K; lia.
Qed.
(** and no other decompressor takes it *)
Theorem C74_wrong_algorithm l c m cc l' a : cert_typed m -> compress l c m = Ok cc -> a <> c_alg c -> decompress l' a cc = Err (EStatus None).
Proof.
  intros T H N. apply compress_inv in H; [|exact T]. destruct H as (_ & _ & A & _). unfold decompress. rewrite A.
  destruct (alg_code (c_alg c) =? alg_code a) eqn:E; [|reflexivity]. exfalso. apply N. destruct a, (c_alg c); cbn in E; try reflexivity; discriminate.
Qed.

(** ** C74: the manager *)
Lemma mapGet_set {A} k j (v : A) m : mapGet j (mapSet k v m) = if j =? k then Some v else mapGet j m.
Proof.
  induction m as [|[i w] m IH]; cbn [mapSet mapGet]; [reflexivity|].
  destruct (k <? i) eqn:E1; [reflexivity|]. destruct (k =? i) eqn:E2; cbn [mapGet].
  - destruct (j =? k) eqn:E3; [reflexivity|]. destruct (j =? i) eqn:E4; [lia|reflexivity].
  - rewrite IH. destruct (j =? i) eqn:E3; [|reflexivity]. destruct (j =? k) eqn:E4; [lia|reflexivity].
Qed.
Fixpoint increasing (l : list N) : Prop := match l with [] => True | a :: r => (forall b, In b r -> a < b) /\ increasing r end.
Lemma mapSet_keys {A} k j (v : A) m : In j (map fst (mapSet k v m)) <-> j = k \/ In j (map fst m).
Proof.
  induction m as [|[i w] m IH]; cbn [mapSet map fst In]; [intuition|].
  destruct (k <? i) eqn:E1; [cbn [map fst In]; intuition|]. destruct (k =? i) eqn:E2; cbn [map fst In].
  - apply N.eqb_eq in E2. subst. intuition.
  - rewrite IH. intuition.
Qed.
Lemma mapSet_inc {A} k (v : A) m : increasing (map fst m) -> increasing (map fst (mapSet k v m)).
Proof.
  induction m as [|[i w] m IH]; cbn [mapSet map fst]; [cbn; tauto|]. intros [H1 H2].
  destruct (k <? i) eqn:E1; [|destruct (k =? i) eqn:E2]; cbn [map fst increasing].
  - split; [|split; assumption]. intros b [<-|K]; [lia|]. specialize (H1 b K). lia.
  - apply N.eqb_eq in E2. subst. auto.
  - split; [|auto]. intros b K. apply mapSet_keys in K. destruct K as [->|K]; [lia|auto].
Qed.
Lemma setDec_spec ds m : increasing (map fst m) ->
  let m' := fold_left (fun m d => mapSet (dc_alg d) d m) ds m in
  increasing (map fst m') /\ (forall a, In a (map fst m') <-> In a (map fst m) \/ In a (map dc_alg ds)) /\
  (forall a d, mapGet a m' = Some d <->
     (exists x y, ds = x ++ d :: y /\ dc_alg d = a /\ (forall e, In e y -> dc_alg e <> a)) \/ (mapGet a m = Some d /\ ~ In a (map dc_alg ds))).
Proof.
  revert m; induction ds as [|d0 ds IH]; intros m I; cbn [fold_left].
  - split; [exact I|]. split; [cbn; tauto|]. intros a d. split; [cbn; auto|]. intros [[x [y [E _]]]|[H _]]; [destruct x; discriminate|exact H].
  - destruct (IH (mapSet (dc_alg d0) d0 m) (mapSet_inc _ _ _ I)) as [I1 [I2 I3]]. split; [exact I1|]. split.
    + intro a. rewrite I2, mapSet_keys. cbn [map In]. intuition.
    + intros a d. rewrite I3, mapGet_set. cbn [map In]. split.
      * intros [[x [y [E [H1 H2]]]]|[H1 H2]].
        -- left. exists (d0 :: x), y. split; [rewrite E; reflexivity|auto].
        -- destruct (a =? dc_alg d0) eqn:E.
           ++ left. exists [], ds. injection H1 as ->. split; [reflexivity|]. split; [lia|]. intros e K1 K2. apply H2. apply in_map_iff. eauto.
           ++ right. split; [exact H1|]. intros [K|K]; [lia|contradiction].
      * intros [[x [y [E [H1 H2]]]]|[H1 H2]].
        -- destruct x as [|x0 x]; cbn [app] in E; injection E as -> ->.
           ++ right. rewrite H1, N.eqb_refl. split; [reflexivity|]. intro K. apply in_map_iff in K. destruct K as [e [K1 K2]]. exact (H2 e K2 K1).
           ++ left. exists x, y. auto.
        -- right. destruct (a =? dc_alg d0) eqn:E; [exfalso; apply H2; left; lia|]. split; [exact H1|]. intro K. apply H2. right. exact K.
Qed.
(** The manager answers for an algorithm with the decompressor given last for it, and with none exactly if none was given;
    what it reports as supported are exactly the algorithms it answers for, each once. *)
Theorem C74_manager ds a d : getDecompressor (setDecompressors ds) a = Some d <->
  exists x y, ds = x ++ d :: y /\ dc_alg d = a /\ (forall e, In e y -> dc_alg e <> a).
Proof.
  unfold getDecompressor, setDecompressors. destruct (setDec_spec ds [] Logic.I) as [_ [_ H]]. rewrite H. split; [|auto].
  intros [K|[K _]]; [exact K|discriminate].
Qed.
Lemma mapGet_in {A} k (m : list (N * A)) : In k (map fst m) <-> exists v, mapGet k m = Some v.
Proof.
  induction m as [|[j w] m IH]; cbn [map fst In mapGet]; [split; [tauto|intros [v H]; discriminate]|].
  destruct (k =? j) eqn:E; [split; [eauto|left; lia]|]. rewrite <- IH. split; [intros [K|K]; [lia|exact K]|auto].
Qed.
Lemma increasing_nodup l : increasing l -> NoDup l.
Proof. induction l as [|a l IH]; cbn; [constructor|]. intros [H1 H2]. constructor; [|auto]. intro K. specialize (H1 a K). lia. Qed.
Theorem C74_supported ds : NoDup (getSupportedAlgorithms (setDecompressors ds)) /\
  (forall a, In a (getSupportedAlgorithms (setDecompressors ds)) <-> In a (map dc_alg ds)) /\
  (forall a, In a (getSupportedAlgorithms (setDecompressors ds)) <-> getDecompressor (setDecompressors ds) a <> None).
Proof.
  unfold getSupportedAlgorithms, getDecompressor. destruct (setDec_spec ds [] Logic.I) as [I1 [I2 _]]. fold (setDecompressors ds) in *. split; [apply increasing_nodup, I1|]. split.
  - intro a. rewrite I2. cbn. tauto.
  - intro a. rewrite mapGet_in. destruct (mapGet a (setDecompressors ds)) as [d|]; split; try discriminate; eauto; [intros [v H]; discriminate|contradiction].
Qed.

(** ** C74: a server certificate and a client *)
Lemma entries_typed chain l : certEntries chain = Ok l -> forallb wf_ce l = true /\ map Some (map (fun e => bufbytes (ce_data e)) l) = chain.
Proof.
  revert l; induction chain as [|[d|] chain IH]; intros l H; cbn [certEntries] in H.
  - injection H as <-. auto.
  - apply bind_Ok in H. destruct H as [r [E H]]. injection H as <-. destruct (IH r E) as [A B]. cbn [forallb map wf_ce ce_data ce_extensions nonnull wf_exts bufbytes].
    rewrite A, B. auto.
  - discriminate.
Qed.
Lemma compressAll_spec l chain cs : forall m0 m, compressAll l cs chain m0 = Ok m ->
  forall a cc, mapGet a m = Some cc ->
    mapGet a m0 = Some cc \/ exists c msg, In c cs /\ alg_code (c_alg c) = a /\ getCertMessage chain None = Ok msg /\ compress l c msg = Ok cc.
Proof.
  induction cs as [|c cs IH]; intros m0 m H a cc G; cbn [compressAll] in H; [injection H as ->; auto|].
  apply bind_Ok in H. destruct H as [msg [E1 H]]. apply bind_Ok in H. destruct H as [cc0 [E2 H]].
  destruct (IH _ _ H a cc G) as [K|[c' [msg' [K1 K2]]]].
  - rewrite mapGet_set in K. destruct (a =? _) eqn:E; [|auto]. injection K as ->. right. exists c, msg. split; [left; reflexivity|]. split; [lia|auto].
  - right. exists c', msg'. split; [right; exact K1|exact K2].
Qed.
Lemma compressAll_all l chain cs : forall m0 m, compressAll l cs chain m0 = Ok m ->
  forall a, (exists cc, mapGet a m = Some cc) <-> (exists cc, mapGet a m0 = Some cc) \/ In a (map (fun c => alg_code (c_alg c)) cs).
Proof.
  induction cs as [|c cs IH]; intros m0 m H a; cbn [compressAll map In] in *; [injection H as ->; tauto|].
  apply bind_Ok in H. destruct H as [msg [E1 H]]. apply bind_Ok in H. destruct H as [cc0 [E2 H]].
  rewrite (IH _ _ H a), mapGet_set. destruct (a =? _) eqn:E.
  - split; [intros _; right; left; lia|intros _; left; eauto].
  - split; [intuition|]. intros [K|[K|K]]; [auto|lia|auto].
Qed.

(** A server certificate made with some compressors has a compressed form exactly for their algorithms, and each decompresses
    to the very message it would send uncompressed, if that has at most 128 KiB. *)
Theorem C74_self_cert l cs chain m : clib_ok l -> createSelfCert l cs chain = Ok m ->
  (forall a, (exists cc, getCompressedCert m a = Ok cc) <-> In a (map (fun c => alg_code (c_alg c)) cs)) /\
  (forall a cc, getCompressedCert m a = Ok cc ->
     exists alg msg, alg_code alg = a /\ getCertMessage chain (Some []) = Ok msg /\ cc_uncompressed_length cc = blen (cert_wire msg) /\
       (blen (cert_wire msg) <= 131072 -> decompress l alg cc = Ok msg)).
Proof.
  intros O H. unfold createSelfCert in H. destruct chain as [|d0 chain0] eqn:Ec; [discriminate|]. rewrite <- Ec in *. clear Ec. unfold getCompressedCert. split.
  - intro a. pose proof (compressAll_all l chain cs [] m H a) as K. cbn [mapGet] in K.
    assert (Q : (exists cc, match mapGet a m with Some c => Ok c | None => Err EThrow end = Ok cc) <-> (exists cc : CompressedCertificate, mapGet a m = Some cc))
      by (destruct (mapGet a m); split; intros [x E]; try discriminate; eauto).
    rewrite Q, K. split; [intros [[x E]|E]; [discriminate|exact E]|auto].
  - intros a cc G. destruct (mapGet a m) as [c0|] eqn:E; [|discriminate]. injection G as ->.
    destruct (compressAll_spec l chain cs [] m H a cc E) as [K|[c [msg [K1 [K2 [K3 K4]]]]]]; [discriminate|].
    unfold getCertMessage in *. apply bind_Ok in K3. destruct K3 as [es [E1 E2]]. injection E2 as <-. destruct (entries_typed _ _ E1) as [T _].
    exists (c_alg c), (mkCert (Some []) es). rewrite E1. cbn [bind]. split; [exact K2|]. split; [reflexivity|].
    destruct (compress_inv l c (mkCert None es) cc T K4) as (_ & _ & _ & L & _). change (cert_wire (mkCert (Some []) es)) with (cert_wire (mkCert None es)).
    split; [exact L|]. intro B. exact (proj1 (C74_roundtrip l c (mkCert None es) cc O T K4 B)).
Qed.

(** The client's context set up with a manager (getSupportedCertDecompressionAlgorithms, getCertDecompressorForAlgorithm) *)
Definition uses_manager (k : cenv) (ds : list decompressor) : Prop :=
  k_decompAlgos k = getSupportedAlgorithms (setDecompressors ds) /\
  forall cc, k_decompress k cc = match getDecompressor (setDecompressors ds) (cc_algorithm cc) with Some d => dc_run d cc | None => Err EUB end.
(** A client with the decompressor of the algorithm chosen does with the compressed certificate what it does with the plain
    message, but for the transcript, which has what was received, and the algorithm it remembers. *)
Theorem C74_client l cs chain m a cc k ds w s orig : clib_ok l -> createSelfCert l cs chain = Ok m -> getCompressedCert m a = Ok cc ->
  uses_manager k ds -> (forall d, In d ds -> exists alg, d = stdDecompressor l alg) -> In a (map dc_alg ds) ->
  exists msg, getCertMessage chain (Some []) = Ok msg /\
    (blen (cert_wire msg) <= 131072 -> handle_compressed_cert k w s cc orig = handle_cert_msg k w s msg (Some a) orig).
Proof.
  intros O H G [U1 U2] D I. destruct (proj2 (C74_self_cert l cs chain m O H) a cc G) as [alg [msg [E [M [L K]]]]]. exists msg. split; [exact M|]. intro B. specialize (K B).
  assert (A : cc_algorithm cc = a).
  { unfold decompress in K. destruct (cc_algorithm cc =? alg_code alg) eqn:Q; [lia|discriminate]. }
  destruct (C74_supported ds) as [_ [S1 S2]].
  assert (I' : In a (k_decompAlgos k)) by (rewrite U1; apply S1; exact I).
  assert (R : k_decompress k cc = Ok msg).
  { rewrite U2, A. pose proof (proj1 (S2 a) (proj2 (S1 a) I)) as N. destruct (getDecompressor (setDecompressors ds) a) as [d|] eqn:Gd; [|contradiction].
    apply C74_manager in Gd. destruct Gd as [x [y [Ed [Ea _]]]]. destruct (D d) as [alg' ->]; [rewrite Ed; apply in_or_app; right; left; reflexivity|].
    cbn [stdDecompressor dc_run dc_alg] in *. assert (alg' = alg) as -> by (rewrite <- E in Ea; destruct alg, alg'; cbn in Ea; try reflexivity; discriminate). exact K. }
  unfold handle_compressed_cert. assert (Hn : nonempty (k_decompAlgos k) = true) by (destruct (k_decompAlgos k); [contradiction|reflexivity]). rewrite Hn.
  assert (Hm : Negotiate.mem (cc_algorithm cc) (k_decompAlgos k) = true) by (unfold Negotiate.mem; apply existsb_exists; exists a; split; [exact I'|rewrite A; apply N.eqb_refl]).
  rewrite Hm. cbn [ensure bind]. rewrite R. cbn [as_bad_certificate bind]. rewrite A. reflexivity.
Qed.

(** ** Examples *)
(** a library that compresses by putting a byte in front *)
Definition xlib : clib :=
  let cp b := Some (x78 :: b) in
  let de n b := match b with x :: r => if Byte.eqb x x78 && (blen r <=? n) then Some r else None | [] => None end in
  mkClib (fun _ b => cp b) de (fun n => n + 1) (fun _ _ b => cp b) de (fun _ b => cp b) de (fun n => n + 7).
Lemma xlib_ok : clib_ok xlib.
Proof.
  constructor; cbn; intros; [lia|..]; injection H as <-; cbn; (destruct (blen b <=? n) eqn:E; [reflexivity|lia]).
Qed.
Definition xchain : list (option bytes) := [Some [x30; x82]; Some [x30; x81; x05]].
Example xchain_run : exists m cc msg,
  createSelfCert xlib [CZlib 9; CBrotli 11 22; CZstd 3] xchain = Ok m /\ getCompressedCert m 3 = Ok cc /\ getCertMessage xchain (Some []) = Ok msg /\ decompress xlib AZstd cc = Ok msg /\ decompress xlib AZlib cc = Err (EStatus None) /\ length (cm_list msg) = 2%nat /\ blen (cert_wire msg) <= 131072.
Proof. do 3 eexists. repeat (split; [vm_compute; reflexivity|]). vm_compute. discriminate. Qed.
Example xmanager : getSupportedAlgorithms (setDecompressors [stdDecompressor xlib AZstd; stdDecompressor xlib AZlib; stdDecompressor xlib AZstd]) = [1; 3].
Proof. reflexivity. Qed.
(** A compressor does not look at the limit of the decompressors: a chain of more than 128 KiB is compressed (here to 1/100 of its
    size or whatever the library does) and refused by every decompressor. *)
Theorem C74_too_long l c m cc l' a : cert_typed m -> compress l c m = Ok cc -> 131072 < blen (cert_wire m) -> decompress l' a cc = Err (EStatus None).
Proof.
  intros T H B. apply compress_inv in H; [|exact T]. destruct H as (_ & _ & _ & L & _). unfold decompress, kMaxCert. rewrite L.
  destruct (negb _); [reflexivity|]. destruct (131072 <? blen (cert_wire m)) eqn:E; [reflexivity|lia].
Qed.
Definition xlong : CertificateMsg := mkCert None [mkCE (Some (N.recursion [] (fun _ r => x30 :: r) 140000)) []].
Definition xlength (r : res CompressedCertificate) : N := match r with Ok cc => cc_uncompressed_length cc | Err _ => 0 end.
Example xlong_compressed : xlength (compress xlib (CZlib 9) xlong) = 140009.
Proof. vm_compute. reflexivity. Qed.
