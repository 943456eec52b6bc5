(** * Properties C01-C04: handshake message and extension codecs.

    Specification files: CodecSpec.v (presentation language), HandshakeSpec.v and
    ExtensionsSpec.v (wire formats [w_msg], [w_body], [w_xbody]; well-typedness
    [wf_msg], [wf_x]; "every field fits its length prefix" [fit_msg], [fit_x]). *)
From Verif Require Import Base Codec CodecSpec Handshake HandshakeSpec HandshakeProofs
  Extensions ExtensionsSpec ExtensionsProofs.

(** C01. Encoding a well-typed handshake message with non-null buffers and parsing
    the produced bytes (type byte, 24-bit length, body) gives the message back. *)
Theorem C01_handshake_roundtrip : forall (m : hsmsg) (bs : bytes),
  wf_msg m = true -> receivable m = true ->
  encodeHandshake m = Ok bs ->
  exists body,
    bs = be 1 (hs_type m) ++ be 3 (blen body) ++ body /\
    parse_handshake (hs_type m) body = Ok m.
Proof.
  intros m bs Hwf Hr He. apply encodeHandshake_iff in He; [|assumption].
  destruct He as [Hf ->]. unfold fit_msg in Hf. apply andb_true_iff in Hf.
  exists (w_body m). split; [reflexivity|]. apply parse_ok; tauto.
Qed.
Print Assumptions C01_handshake_roundtrip.

(** C01 for the Alert message. *)
Theorem C01_alert_roundtrip : forall (a : Alert) (bs : bytes),
  in_u 1 (al_level a) && in_u 1 (al_description a) = true ->
  encode_alert a = Ok bs -> decode_all decode_alert bs = Ok a.
Proof. exact alert_rt. Qed.
Print Assumptions C01_alert_roundtrip.

(** The hypotheses of C01 are met, e.g. by a ClientHello with extensions. *)
Definition ex_random : bytes := be 16 258 ++ be 16 772.
Definition ex_ch : hsmsg :=
  MClientHello (mkCH 771 ex_random (Some [x01; x02]) [4865; 4866] [0]
    [mkExt 43 (Some [x02; x03; x04]); mkExt 10 (Some [])]).
Example C01_nonvacuous :
  wf_msg ex_ch = true /\ receivable ex_ch = true /\
  exists bs, encodeHandshake ex_ch = Ok bs /\ blen bs = 62.
Proof. repeat split. eexists. split; vm_compute; reflexivity. Qed.
Definition ex_cert : hsmsg :=
  MCertificate (mkCert (Some []) [mkCE (Some [xaa; xbb]) [mkExt 5 (Some [x01])];
                                  mkCE (Some [xcc]) []]).
Example C01_nonvacuous_cert :
  wf_msg ex_cert = true /\ exists bs, encodeHandshake ex_cert = Ok bs /\ blen bs = 26.
Proof. split; [reflexivity|]. eexists. split; vm_compute; reflexivity. Qed.

(** The non-null hypothesis is needed: a ServerHello with a null session id (and a
    NewSessionTicket with a null nonce) is encoded in the pre-draft layout that
    decode does not understand. *)
Definition ex_sh_null : hsmsg :=
  MServerHello (mkSH 771 ex_random None 4865 0 [mkExt 43 (Some [x03; x04])]).
Theorem C01_null_session_id_refuted : exists m body,
  m = ex_sh_null /\ encode_body m = Ok (Some body) /\
  parse_handshake (hs_type m) body <> Ok m.
Proof.
  exists ex_sh_null. eexists. split; [reflexivity|]. split; [vm_compute; reflexivity|].
  vm_compute. discriminate.
Qed.
Print Assumptions C01_null_session_id_refuted.

(** C02. A body that is accepted for type [ty] is exactly the wire encoding of the
    resulting message, which is well-typed, and re-encoding it yields the same
    bytes; the one exception is a ClientHello without extensions block. *)
Theorem C02_decode_canonical : forall (ty : N) (body : bytes) (m : hsmsg),
  parse_handshake ty body = Ok m ->
  hs_type m = ty /\ wf_msg m = true /\
  (encode_body m = Ok (Some body) \/
   exists c, m = MClientHello c /\ ch_extensions c = [] /\
             encode_body m = Ok (Some (body ++ [x00; x00]))).
Proof.
  intros ty body m H. apply parse_canon in H.
  destruct H as (Hr & Hwf & Hf & Ht & Hb). repeat split; auto.
  destruct Hb as [->|(c & -> & He & Hw)].
  - left. apply encode_body_iff; auto.
  - right. exists c. repeat split; auto. apply encode_body_iff; auto.
Qed.
Print Assumptions C02_decode_canonical.

(** C02, injectivity: two different bodies never decode to the same message,
    except a ClientHello body and the same body with an empty extensions block. *)
Theorem C02_decode_injective : forall ty b1 b2 m,
  parse_handshake ty b1 = Ok m -> parse_handshake ty b2 = Ok m ->
  b1 = b2 \/
  (exists c, m = MClientHello c) /\ (b1 = b2 ++ [x00; x00] \/ b2 = b1 ++ [x00; x00]).
Proof.
  intros ty b1 b2 m H1 H2.
  apply C02_decode_canonical in H1. apply C02_decode_canonical in H2.
  destruct H1 as (_ & _ & [H1|(c1 & E1 & _ & H1)]), H2 as (_ & _ & [H2|(c2 & E2 & _ & H2)]);
    rewrite H1 in H2; injection H2 as H2.
  - auto.
  - right. split; [eauto|]. auto.
  - right. split; [eauto|]. auto.
  - left. apply app_inv_tail in H2. congruence.
Qed.
Print Assumptions C02_decode_injective.

Theorem C02_alert_canonical : forall bs a,
  decode_all decode_alert bs = Ok a -> encode_alert a = Ok bs.
Proof. intros bs a H. apply alert_canon in H. tauto. Qed.
Print Assumptions C02_alert_canonical.

(** The exception is real: two different ClientHello bodies, one message. *)
Theorem C02_clienthello_exception_refuted : exists b1 b2 m,
  b1 <> b2 /\ parse_handshake 1 b1 = Ok m /\ parse_handshake 1 b2 = Ok m.
Proof.
  pose (b := be 2 771 ++ ex_random ++ [x00] ++ [x00; x02; x13; x01] ++ [x01; x00]).
  exists b, (b ++ [x00; x00]). eexists. split; [vm_compute; discriminate|].
  split; vm_compute; reflexivity.
Qed.
Print Assumptions C02_clienthello_exception_refuted.

(** The model's recursion budget never limits decoding. *)
Theorem C02_decode_total : forall ty body, parse_handshake ty body <> Err EFuel.
Proof. exact parse_handshake_fuel. Qed.
Print Assumptions C02_decode_total.

(** C03. Encoding succeeds exactly when every variable-length field (and the body
    as a whole) fits its length prefix, and then the output is the RFC wire format,
    in which every length prefix is the length of what follows it ([tls_vec]). *)
Theorem C03_encode_exact : forall m bs,
  wf_msg m = true ->
  (encodeHandshake m = Ok bs <-> fit_msg m = true /\ bs = w_msg m).
Proof. exact encodeHandshake_iff. Qed.
Print Assumptions C03_encode_exact.

Theorem C03_overflow_is_error : forall m,
  wf_msg m = true -> fit_msg m = false -> exists e, encodeHandshake m = Err e.
Proof.
  intros m Hwf Hf. destruct (encodeHandshake m) as [bs|e] eqn:E; [|eauto].
  apply encodeHandshake_iff in E; [|assumption]. destruct E. congruence.
Qed.
Print Assumptions C03_overflow_is_error.

Example C03_overflow_nonvacuous :
  let m := MCertificateVerify (mkCV 2052 (Some (repeat x00 (N.to_nat 65536)))) in
  wf_msg m = true /\ fit_msg m = false /\ encodeHandshake m = Err EThrow.
Proof. vm_compute. auto. Qed.
Example C03_boundary :
  let m := MCertificateVerify (mkCV 2052 (Some (repeat x00 (N.to_nat 65535)))) in
  fit_msg m = true /\ is_ok (encodeHandshake m) = true.
Proof. vm_compute. auto. Qed.

(** C03 for extensions. *)
Theorem C03_extension_exact : forall x e,
  wf_x x = true ->
  (encodeExtension x = Ok e <->
   fit_x x = true /\ e = mkExt (kind_type (kind_of x)) (Some (w_xbody x))).
Proof. exact encodeExtension_iff. Qed.
Print Assumptions C03_extension_exact.

(** C04. The encoded extension placed anywhere in a list whose earlier elements
    have other types is found and parsed back to the same value. *)
Theorem C04_extension_roundtrip : forall x e pre post,
  wf_x x = true -> encodeExtension x = Ok e ->
  no_type (kind_type (kind_of x)) pre = true ->
  getExtension (kind_of x) (pre ++ e :: post) = Ok (Some x).
Proof. exact getExtension_rt. Qed.
Print Assumptions C04_extension_roundtrip.

(** Absent exactly when no extension has the type. *)
Theorem C04_extension_absent : forall k l,
  getExtension k l = Ok None <->
  (forall e, In e l -> ext_type e <> kind_type k).
Proof.
  intros k l. rewrite getExtension_none. unfold no_type. rewrite forallb_forall.
  split; intros H e Hin; specialize (H e Hin).
  - apply negb_true_iff, N.eqb_neq in H. exact H.
  - apply negb_true_iff, N.eqb_neq. exact H.
Qed.
Print Assumptions C04_extension_absent.

(** Strictness, for the extensions read by the generic parser: the first extension
    of that type is used, and its data is exactly the encoding of the value (no
    trailing bytes, no alternative encodings). *)
Theorem C04_extension_strict : forall k l x,
  checks_end k = true ->
  getExtension k l = Ok (Some x) ->
  kind_of x = k /\
  exists pre e post,
    l = pre ++ e :: post /\
    (forall e', In e' pre -> ext_type e' <> kind_type k) /\
    encodeExtension x = Ok e.
Proof.
  intros k l x Hc H. apply getExtension_strict in H.
  destruct H as (<- & Hw & Hf & pre & post & rest & -> & Hp & Hr).
  split; [reflexivity|]. rewrite (Hr Hc), app_nil_r.
  exists pre. eexists. exists post. split; [reflexivity|]. split.
  - intros e' Hin. unfold no_type in Hp. rewrite forallb_forall in Hp.
    specialize (Hp e' Hin). apply negb_true_iff, N.eqb_neq in Hp. exact Hp.
  - apply encodeExtension_iff; auto.
Qed.
Print Assumptions C04_extension_strict.

(** Without the end check (delegated credentials, token binding) the value is still
    a prefix of the data, but the strictness claim fails: trailing bytes are
    silently accepted. *)
Theorem C04_lenient_prefix : forall k l x,
  getExtension k l = Ok (Some x) ->
  exists pre post rest,
    l = pre ++ mkExt (kind_type k) (Some (w_xbody x ++ rest)) :: post /\ kind_of x = k.
Proof.
  intros k l x H. apply getExtension_strict in H.
  destruct H as (<- & _ & _ & pre & post & rest & -> & _). eauto 6.
Qed.
Print Assumptions C04_lenient_prefix.

Theorem C04_delegated_trailing_bytes_refuted :
  (exists x junk d, junk <> [] /\ encodeExtension x = Ok (mkExt 34 (Some d)) /\
     getExtension KDelegatedCredential [mkExt 34 (Some (d ++ junk))] = Ok (Some x)) /\
  (exists x junk d, junk <> [] /\ encodeExtension x = Ok (mkExt 34 (Some d)) /\
     getExtension KDelegatedCredentialSupport [mkExt 34 (Some (d ++ junk))] = Ok (Some x)) /\
  (exists x junk d, junk <> [] /\ encodeExtension x = Ok (mkExt 24 (Some d)) /\
     getExtension KTokenBinding [mkExt 24 (Some (d ++ junk))] = Ok (Some x)).
Proof.
  split; [|split].
  - exists (XDelegatedCredential (7, 1027, Some [x01], 1027, Some [x02])), [xff].
    eexists. split; [discriminate|]. split; vm_compute; reflexivity.
  - exists (XDelegatedCredentialSupport [1027]), [xff].
    eexists. split; [discriminate|]. split; vm_compute; reflexivity.
  - exists (XTokenBinding (256, [2])), [xff].
    eexists. split; [discriminate|]. split; vm_compute; reflexivity.
Qed.
Print Assumptions C04_delegated_trailing_bytes_refuted.

Theorem C04_getExtension_total : forall k l, getExtension k l <> Err EFuel.
Proof.
  intros k l H. unfold getExtension in H. destruct (findExtension _ l) as [e|]; [|discriminate].
  destruct (ext_data e) as [d|]; [|discriminate].
  apply bind_Err in H. destruct H as [H|[[x r] [_ H]]]; [exact (read_ext_fuel _ _ H)|].
  destruct (checks_end k); [destruct r|]; discriminate.
Qed.
Print Assumptions C04_getExtension_total.

Example C04_nonvacuous :
  let x := XClientPresharedKey ([(Some [x01; x02], 77)], [Some [x03]]) in
  wf_x x = true /\ exists e, encodeExtension x = Ok e /\
  getExtension KClientPresharedKey [mkExt 43 (Some []); e] = Ok (Some x) /\
  getExtension KClientPresharedKey [mkExt 41 (Some (bufbytes (ext_data e) ++ [x00]))] = fail.
Proof. split; [reflexivity|]. eexists. repeat split; vm_compute; reflexivity. Qed.
