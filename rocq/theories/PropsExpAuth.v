(** * C64, C65: exported keying material and exported authenticators *)
From Verif Require Import Base Codec CodecSpec Str Hkdf HkdfSpec HkdfProofs Handshake HandshakeSpec HandshakeProofs Extensions ReadEvent ReadEventProofs RecordBase Record Transcript IOBufUtil
  PropsIOBuf ExtensionsProofs PropsCodec KeySchedProofs Server ExpAuth.
Open Scope N_scope.

(** ** Specification *)
(** RFC 8446, 7.5: TLS-Exporter(label, context, length) from the exporter master secret. *)
Definition TLS_Exporter (h : hashalg) (master label context : bytes) (length : N) : bytes :=
  ExpandLabel h (DeriveSecret h master label (h_fn h [])) (str "exporter") (h_fn h context) length.

(** RFC 9261, 5.2: the bytes [a] are (followed by [rest]) a Certificate message with the non-empty list [chain], a CertificateVerify
    whose signature, over the transcript of handshake context, request and Certificate, the first certificate verifies, and a Finished
    message over the transcript up to the CertificateVerify. *)
Record authenticates (h : hashalg) (peer : bytes -> res peercert) (hc fk req a : bytes) (chain : list CertificateEntry) (rest : bytes) : Prop := {
  au_parts : exists context leaf others der scheme sg p ec ev ef,
    chain = leaf :: others /\ ce_data leaf = Some der /\ scheme < 65536 /\
    encodeHandshake (MCertificate (mkCert (Some context) chain)) = Ok ec /\
    encodeHandshake (MCertificateVerify (mkCV scheme (Some sg))) = Ok ev /\
    encodeHandshake (MFinished (Some (HMAC h fk (h_fn h (hc ++ req ++ ec ++ ev))))) = Ok ef /\
    a = ec ++ ev ++ ef ++ rest /\
    peer der = Ok p /\ pc_verify p scheme CvAuthenticator (h_fn h (hc ++ req ++ ec)) sg = Ok tt }.
(** The certificate_request_context of a request; without a request it is empty. *)
Definition request_context (req context : bytes) : Prop :=
  req = [] /\ context = [] \/ exists exts rest, decode_cr req = Ok (mkCR (Some context) exts, rest).
(** RFC 9261, 6: the authenticator that declines a request: only a Finished message, over a Certificate message without certificates. *)
Definition declines (h : hashalg) (hc fk req a : bytes) : Prop :=
  exists context ec, request_context req context /\
    encodeHandshake (MCertificate (mkCert (Some context) [])) = Ok ec /\
    encodeHandshake (MFinished (Some (HMAC h fk (h_fn h (hc ++ req ++ ec))))) = Ok a.

(** ** C64 *)
Theorem C64_exporter : forall h master label context length, hash_ok h -> blen master = h_len h -> blen label <= 249 -> length < 65536 -> length <= 255 * h_len h ->
  exported h master label context length = Ok (TLS_Exporter h master label (match context with Some c => c | None => [] end) length).
Proof.
  intros h master label context length Hh Hm Hl H16 HL. unfold exported, TLS_Exporter. pose proof (ho_pos h Hh). pose proof (ho_max h Hh). pose proof (ho_le h Hh).
  assert (L1 : blen (h_blank h) = h_len h) by (rewrite (ho_blank h Hh); apply (ho_digest h Hh)).
  rewrite (deriveSecret_ok h master label (h_blank h) (h_len h) Hh Hm L1) by lia. cbn [bind]. rewrite (ho_blank h Hh).
  rewrite expandLabel_ok; auto.
  - apply ExpandLabel_len; exact Hh.
  - vm_compute; discriminate.
  - cbn. rewrite (ho_digest h Hh). lia.
Qed.

(** ** Reading three messages *)
Lemma decode_hs_canon u m o r : decode_hs u = Ok (Some (m, o, r)) -> (forall c, m <> MClientHello c) -> u = o ++ r /\ encodeHandshake m = Ok o /\ wf_msg m = true /\ receivable m = true /\ blen o <= 131072 + 4.
Proof.
  intros H Hn. destruct (decode_hs_some _ _ _ _ [] H) as (_ & E & _). split; [exact E|]. unfold decode_hs in H. destruct u as [|t [|l1 [|l2 [|l3 r0]]]]; try discriminate H.
  destruct (kMaxHandshakeSize <? _) eqn:El; [discriminate|]. destruct (take _ r0) as [[body rest]|] eqn:Et; [|discriminate]. destruct (bind_Ok _ _ _ H) as (m' & Ep & H'). injection H' as -> <- <-.
  apply parse_canon in Ep. destruct Ep as (Hr & Hw & Hf & Ht & Hb). apply take_Some in Et. destruct Et as [Et Eb]. destruct Hb as [Hb|(c & Hc & _)]; [|exfalso; exact (Hn _ Hc)].
  apply N.ltb_ge in El. unfold kMaxHandshakeSize in El.
  assert (L3 : be 3 (blen body) = [l1; l2; l3]) by (rewrite Eb; apply (be_unbe 3 [l1; l2; l3] eq_refl)).
  assert (L1 : be 1 (hs_type m) = [t]) by (rewrite Ht; apply (be_unbe 1 [t] eq_refl)).
  split; [|split; [exact Hw|split; [exact Hr|]]].
  - apply encodeHandshake_iff; [exact Hw|]. split.
    + unfold fit_msg. rewrite Hf. cbn [andb]. rewrite <- Hb. unfold fits_len. apply N.ltb_lt. rewrite Eb. change (256 ^ N.of_nat 3) with 16777216. lia.
    + unfold w_msg, tls_vec. rewrite <- Hb, L1, L3. reflexivity.
  - unfold blen in *. cbn [length]. lia.
Qed.
Lemma is_equal x y : crypto_equal x y = true -> x = y.
Proof. apply C19_equal_iff. Qed.
Lemma equal_refl x : crypto_equal x x = true.
Proof. apply C19_equal_iff. reflexivity. Qed.
Lemma wf_cert_parts c : wf_msg (MCertificate c) = true -> exists context, c = mkCert (Some context) (cm_list c).
Proof. destruct c as [[b|] l]; cbn; [eauto|discriminate]. Qed.
Lemma wf_leaf c leaf others : wf_msg (MCertificate c) = true -> cm_list c = leaf :: others -> exists der, ce_data leaf = Some der.
Proof. intros H E. cbn [wf_msg] in H. rewrite E in H. apply andb_true_iff in H. destruct H as [_ H]. cbn in H. apply andb_true_iff in H. destruct H as [H _]. destruct leaf as [[d|] x]; [exists d; reflexivity|discriminate H]. Qed.
Lemma wf_verify v : wf_msg (MCertificateVerify v) = true -> exists s sg, v = mkCV s (Some sg).
Proof. destruct v as [s [sg|]]; cbn; [eauto|]. rewrite andb_false_r. discriminate. Qed.

(** What an accepted authenticator decodes to. *)
Lemma validate_inv h peer req a hc fk chain : hash_ok h -> validate h peer req (Some a) hc (Some fk) CvAuthenticator = Ok (Some chain) ->
  (exists f o r e, decode_hs a = Ok (Some (MFinished f, o, r)) /\ chain = [] /\ getEmptyAuthenticator h req hc (Some fk) = Ok e /\ e = a) \/
  exists c v f ec ev ef r1 r2 rest leaf others p sg,
    decode_hs a = Ok (Some (MCertificate c, ec, r1)) /\ decode_hs r1 = Ok (Some (MCertificateVerify v, ev, r2)) /\ decode_hs r2 = Ok (Some (MFinished (Some f), ef, rest)) /\
    chain = cm_list c /\ cm_list c = leaf :: others /\ peer (nb (ce_data leaf)) = Ok p /\ cv_signature v = Some sg /\
    pc_verify p (cv_algorithm v) CvAuthenticator (h_fn h (computeTranscript hc req ec)) sg = Ok tt /\
    f = HMAC h fk (h_fn h (computeTranscript hc req ec ++ ev)).
Proof.
  intros Hh H. unfold validate in H. destruct (bind_Ok _ _ _ H) as (m1 & E1 & H1). clear H. destruct m1 as [[[p1 o1] r1]|]; [|discriminate].
  assert (G : (exists f, p1 = MFinished f) \/ (match p1 with MFinished _ => False | _ => True end)) by (destruct p1; eauto).
  destruct G as [(f & ->)|G].
  - left. destruct (bind_Ok _ _ _ H1) as (e & Ee & H2). destruct (crypto_equal e a) eqn:Eq; [|discriminate]. injection H2 as <-. apply is_equal in Eq. subst e. eauto 10.
  - right. assert (H2 : (m2 <- decode_hs r1 ;; match m2 with None => Ok None | Some (p2, _, r2) => m3 <- decode_hs r2 ;; match m3 with None => Ok None | Some (p3, _, _) =>
      match p1, p2, p3 with
      | MCertificate c, MCertificateVerify v, MFinished f =>
                    match cm_list c with
                    | [] => Ok None
                    | leaf :: _ =>
                        p <- peer (nb (ce_data leaf)) ;;
                        ec <- encodeHandshake (MCertificate c) ;;
                        let transcript := computeTranscript hc req ec in
                        match cv_signature v with
                        | None => Err EUB
                        | Some sg =>
                            match pc_verify p (cv_algorithm v) CvAuthenticator (h_fn h transcript) sg with
                            | Err ECheck => Err ECheck | Err EUB => Err EUB | Err EFuel => Err EFuel
                            | Err (EStatus _) | Err EThrow => Ok None
                            | Ok _ =>
                                ev <- encodeHandshake (MCertificateVerify v) ;;
                                fin <- authFinished h (Some fk) (h_fn h (transcript ++ ev)) ;;
                                match f with
                                | None => Err EUB
                                | Some got => Ok (if crypto_equal got fin then Some (cm_list c) else None)
                                end
                            end
                        end
                    end
      | _, _, _ => Ok None end end end) = Ok (Some chain)) by (destruct p1; try exact H1; destruct G). clear H1.
    destruct (bind_Ok _ _ _ H2) as (m2 & E2 & H3). destruct m2 as [[[p2 o2] r2]|]; [|discriminate]. destruct (bind_Ok _ _ _ H3) as (m3 & E3 & H4). destruct m3 as [[[p3 o3] r3]|]; [|discriminate].
    clear H2 H3. destruct p1; try discriminate H4. destruct p2; try discriminate H4. destruct p3; try discriminate H4. destruct (cm_list m) as [|leaf others] eqn:El; [discriminate|].
    destruct (bind_Ok _ _ _ H4) as (p & Ep & H5). destruct (bind_Ok _ _ _ H5) as (ec & Ec & H6). clear H4 H5. cbv zeta in H6. destruct (cv_signature m0) as [sg|] eqn:Es; [|discriminate].
    destruct (decode_hs_canon _ _ _ _ E1) as (A1 & A2 & A3 & _); [discriminate|]. destruct (decode_hs_canon _ _ _ _ E2) as (B1 & B2 & B3 & _); [discriminate|].
    assert (ec = o1) by congruence. subst ec.
    destruct (pc_verify _ _ _ _ _) as [[]|[]] eqn:Ev; try discriminate H6. destruct (bind_Ok _ _ _ H6) as (ev & Eev & H7). assert (ev = o2) by congruence. subst ev. clear H6.
    destruct (bind_Ok _ _ _ H7) as (fin & Ef & H8). clear H7. destruct verify_data as [got|]; [|discriminate]. destruct (crypto_equal got fin) eqn:Eq; [|discriminate]. apply is_equal in Eq. subst got.
    assert (Hc : chain = leaf :: others) by congruence. clear H8. unfold authFinished in Ef. rewrite hmac_ok in Ef by (auto; lia). injection Ef as <-. cbn [concat] in *. rewrite app_nil_r in *.
    exists m, m0. do 11 eexists. split; [exact E1|]. split; [exact E2|]. split; [exact E3|]. split; [congruence|]. split; [exact El|]. split; [exact Ep|]. split; [exact Es|]. split; [exact Ev|reflexivity].
Qed.

(** ** C65 *)
Lemma cr_decode b m r : decode_cr b = Ok (m, r) -> exists c, cr_context m = Some c.
Proof.
  intros Em. unfold decode_cr in Em. destruct (bind_Ok _ _ _ Em) as ([[cx n] r1] & E1 & Em2). destruct (bind_Ok _ _ _ Em2) as ([xs r2] & E2 & Em3). injection Em3 as <- _.
  apply read_buf_inv in E1. destruct E1 as (Hn & _). cbn. destruct cx as [cx|]; [eauto|discriminate Hn].
Qed.
Lemma request_decodes req ctx exts : decodeAuthRequest req = Ok (ctx, exts) -> exists context, ctx = Some context /\ request_context (nb req) context.
Proof.
  intros Ed. unfold decodeAuthRequest in Ed. destruct req as [[|b0 b]|]; cbn [nb] in *.
  - injection Ed as <- <-. exists []. split; [reflexivity|left; auto].
  - destruct (bind_Ok _ _ _ Ed) as ([m r] & Em & Ed'). injection Ed' as <- <-. destruct (cr_decode _ _ _ Em) as (cx & Ecx). exists cx. split; [exact Ecx|]. right.
    destruct m as [cx' xs]. cbn [cr_context] in Ecx. subst cx'. eauto.
  - injection Ed as <- <-. exists []. split; [reflexivity|left; auto].
Qed.
Lemma empty_spec h req hc fk a : hash_ok h -> getEmptyAuthenticator h req (Some hc) (Some fk) = Ok a <-> declines h hc fk (nb req) a.
Proof.
  intros Hh. unfold getEmptyAuthenticator, declines, request_context. split.
  - intros H. destruct (bind_Ok _ _ _ H) as ([ctx exts] & Ed & H1). clear H. destruct (bind_Ok _ _ _ H1) as (ec & Ec & H2). clear H1. destruct (bind_Ok _ _ _ H2) as (fin & Ef & H3). clear H2.
    unfold authFinished in Ef. rewrite hmac_ok in Ef by (auto; lia). injection Ef as <-. cbn [concat] in H3. rewrite app_nil_r in H3.
    pose proof (request_decodes _ _ _ Ed) as G.
    destruct G as (context & -> & G). exists context, ec. auto.
  - intros (context & ec & Hr & Ec & Ha).
    assert (Ed : exists exts, decodeAuthRequest req = Ok (Some context, exts)).
    { unfold decodeAuthRequest. destruct req as [[|b0 b]|]; cbn [nb] in *.
      - destruct Hr as [(_ & ->)|(exts & rest & Hr)]; [eauto|vm_compute in Hr; discriminate].
      - destruct Hr as [([=] & _)|(exts & rest & Hr)]. rewrite Hr. cbn. eauto.
      - destruct Hr as [(_ & ->)|(exts & rest & Hr)]; [eauto|vm_compute in Hr; discriminate]. }
    destruct Ed as (exts & ->). cbn [bind]. rewrite Ec. cbn [bind]. unfold authFinished. rewrite hmac_ok by (auto; lia). cbn [bind concat]. rewrite app_nil_r. exact Ha.
Qed.
(** An authenticator is accepted only if it authenticates a chain, which is returned, or is the one that declines the request. *)
Theorem C65_sound : forall h peer req a hc fk chain, hash_ok h ->
  validate h peer req (Some a) (Some hc) (Some fk) CvAuthenticator = Ok (Some chain) ->
  (chain = [] /\ declines h hc fk (nb req) a) \/ exists rest, authenticates h peer hc fk (nb req) a chain rest.
Proof.
  intros h peer req a hc fk chain Hh H. destruct (validate_inv _ _ _ _ _ _ _ Hh H) as [(f & o & r & e & _ & -> & He & ->)|G]; [left; split; [reflexivity|]; apply empty_spec in He; auto|right].
  destruct G as (c & v & f & ec & ev & ef & r1 & r2 & rest & leaf & others & p & sg & E1 & E2 & E3 & Hc & Hl & Hp & Hs & Hv & Hf). exists rest.
  destruct (decode_hs_canon _ _ _ _ E1) as (A1 & A2 & A3 & _); [discriminate|]. destruct (decode_hs_canon _ _ _ _ E2) as (B1 & B2 & B3 & _); [discriminate|].
  destruct (decode_hs_canon _ _ _ _ E3) as (D1 & D2 & D3 & _); [discriminate|].
  destruct (wf_cert_parts _ A3) as (context & Ecx). destruct (wf_leaf _ _ _ A3 Hl) as (der & Ed). destruct v as [sch sg']. cbn [cv_signature cv_algorithm] in *. subst sg'.
  constructor. exists context, leaf, others, der, sch, sg, p, ec, ev, ef. rewrite Ed in Hp. cbn [nb] in Hp. unfold computeTranscript in *. cbn [nb] in *. rewrite <- !app_assoc in Hf.
  subst chain. split; [exact Hl|]. split; [exact Ed|]. split; [cbn [wf_msg cv_algorithm] in B3; apply andb_true_iff in B3; apply N.ltb_lt; exact (proj1 B3)|]. split; [rewrite <- Ecx; exact A2|]. split; [exact B2|]. split; [rewrite <- Hf; exact D2|]. split; [congruence|]. split; [exact Hp|exact Hv].
Qed.
(** Every such authenticator is accepted, whatever follows it, as long as its messages are well-formed and not longer than fizz reads. *)
Theorem C65_complete : forall h peer req a hc fk chain rest, hash_ok h -> forallb wf_ce chain = true ->
  authenticates h peer hc fk (nb req) a chain rest -> blen a <= 131072 ->
  validate h peer req (Some a) (Some hc) (Some fk) CvAuthenticator = Ok (Some chain).
Proof.
  intros h peer req a hc fk chain rest Hh Hw [(context & leaf & others & der & sch & sg & p & ec & ev & ef & Hc & Hd & Ws & Ec & Ev & Ef & Ha & Hp & Hv)] Hlen.
  assert (Ws' : in_u 2 sch = true) by (apply N.ltb_lt; exact Ws).
  assert (L : blen ec + blen ev + blen ef <= 131072) by (rewrite Ha, !blen_app in Hlen; lia).
  unfold validate. rewrite Ha at 1. rewrite (decode_hs_enc (MCertificate (mkCert (Some context) chain)) ec) by (auto; lia). cbn [bind].
  rewrite (decode_hs_enc (MCertificateVerify (mkCV sch (Some sg))) ev) by (auto; try lia; cbn [wf_msg cv_algorithm cv_signature]; rewrite Ws'; reflexivity). cbn [bind].
  rewrite (decode_hs_enc (MFinished (Some (HMAC h fk (h_fn h (hc ++ nb req ++ ec ++ ev))))) ef rest eq_refl eq_refl Ef) by lia. cbn [bind cm_list]. rewrite Hc. cbv iota. rewrite <- Hc, Hd. cbn [nb]. rewrite Hp. cbn [bind]. rewrite Ec. cbn [bind].
  cbv zeta. cbn [cv_signature cv_algorithm]. unfold computeTranscript. cbn [nb]. rewrite Hv, Ev. cbn [bind]. unfold authFinished. rewrite hmac_ok by (auto; lia). cbn [bind concat].
  rewrite app_nil_r, <- !app_assoc, equal_refl. reflexivity.
Qed.

Theorem C65_declines : forall h peer req a hc fk, hash_ok h -> declines h hc fk (nb req) a ->
  validate h peer req (Some a) (Some hc) (Some fk) CvAuthenticator = Ok (Some []).
Proof.
  intros h peer req a hc fk Hh H. pose proof H as H'. apply empty_spec in H; [|exact Hh]. destruct H' as (context & ec & _ & _ & Ef). pose proof (ho_le h Hh). pose proof (ho_max h Hh).
  assert (D : exists o r, decode_hs a = Ok (Some (MFinished (Some (HMAC h fk (h_fn h (hc ++ nb req ++ ec)))), o, r))).
  { exists a, []. rewrite <- (app_nil_r a) at 1. apply decode_hs_enc; auto. apply encodeHandshake_iff in Ef; [|reflexivity]. destruct Ef as [_ ->].
    unfold w_msg, tls_vec. rewrite !blen_app, !be_blen. cbn [w_body bufbytes]. rewrite HMAC_len by exact Hh. lia. }
  destruct D as (o & r & D). unfold validate. rewrite D. cbn [bind]. rewrite H. cbn [bind]. rewrite equal_refl. reflexivity.
Qed.

(** The scheme used: the first one the connection supports that the certificate can use and the request asks for; if there is none,
    the first one the certificate can use. *)
Definition first_with (P : N -> Prop) (l : list N) (r : option N) : Prop :=
  match r with
  | Some s => exists a b, l = a ++ s :: b /\ P s /\ Forall (fun x => ~ P x) a
  | None => Forall (fun x => ~ P x) l
  end.
Lemma find_first (f : N -> bool) P l : (forall s, f s = true <-> P s) -> first_with P l (find f l).
Proof.
  intros E. induction l as [|x l IH]; cbn [find]; [constructor|]. destruct (f x) eqn:Ex.
  - exists [], l. split; [reflexivity|]. split; [apply E, Ex|constructor].
  - assert (N : ~ P x) by (intros H; apply E in H; congruence). destruct (find f l) as [s|]; cbn [first_with] in *; [|constructor; assumption].
    destruct IH as (a & b & -> & Hs & Ha). exists (x :: a), b. split; [reflexivity|]. split; [exact Hs|constructor; assumption].
Qed.
Lemma ex_in s l : existsb (N.eqb s) l = true <-> In s l.
Proof. rewrite existsb_exists. split; [intros (x & Hx & E); apply N.eqb_eq in E; congruence|intros H; exists s; rewrite N.eqb_refl; auto]. Qed.
Lemma ext_kind k l x : getExtension k l = Ok (Some x) -> kind_of x = k.
Proof.
  unfold getExtension. destruct (findExtension (kind_type k) l) as [e|]; [|discriminate]. destruct (ext_data e) as [d|]; [|discriminate].
  intros H. apply bind_Ok in H. destruct H as ((y & rest) & E & H). cbv beta iota in H. apply read_ext_inv in E. destruct E as (E & _).
  destruct (checks_end k); [destruct rest; [|discriminate]|]; congruence.
Qed.
Theorem C65_scheme : forall supported certSchemes exts r, getSignatureScheme supported certSchemes exts = Ok r ->
  exists asked, (getExtension KSignatureAlgorithms exts = Ok (Some (XSignatureAlgorithms asked)) \/
                 getExtension KSignatureAlgorithms exts = Ok None /\ asked = []) /\
    exists r1, first_with (fun s => In s certSchemes /\ In s asked) supported r1 /\
      match r1 with Some s => r = Some s | None => first_with (fun s => In s certSchemes) supported r end.
Proof.
  intros supported certSchemes exts r H. unfold getSignatureScheme in H. destruct (bind_Ok _ _ _ H) as (q & Eq & H1). clear H. injection H1 as <-.
  assert (F : forall l, first_with (fun s => In s certSchemes /\ In s l) supported (find (fun s => existsb (N.eqb s) certSchemes && existsb (N.eqb s) l) supported)).
  { intros l. apply find_first. intros s. rewrite andb_true_iff, !ex_in. reflexivity. }
  assert (F0 : first_with (fun s => In s certSchemes) supported (find (fun s => existsb (N.eqb s) certSchemes) supported)) by (apply find_first; intros s; apply ex_in).
  assert (Nn : first_with (fun s => In s certSchemes /\ In s []) supported None) by (apply Forall_forall; intros s _ [_ []]).
  assert (G : getExtension KSignatureAlgorithms exts = Ok (match q with Some l => Some (XSignatureAlgorithms l) | None => None end)).
  { unfold getRequestedSchemes in Eq. destruct exts as [|x xs]; [injection Eq as <-; reflexivity|]. destruct (bind_Ok _ _ _ Eq) as (y & Ey & E2). injection E2 as <-. rewrite Ey.
    destruct y as [y|]; [|reflexivity]. pose proof (ext_kind _ _ _ Ey) as K. destruct y; try discriminate K. reflexivity. }
  destruct q as [l|].
  - exists l. split; [left; exact G|]. eexists. split; [apply F|]. destruct (find _ supported) eqn:E in |- *; [reflexivity|exact F0].
  - exists []. split; [right; split; [exact G|reflexivity]|]. exists None. split; [exact Nn|exact F0].
Qed.

(** What getAuthenticator produces, validateAuthenticator at the other end accepts and returns, if both ends hold the same exporter
    secret and the certificate's signatures verify: the whole chain, or no certificate if no scheme fits. *)
Theorem C65_roundtrip : forall h supported cert peer req hc fk a, hash_ok h -> Forall (fun s => s < 65536) supported ->
  makeAuthenticator h supported cert req (Some hc) (Some fk) CvAuthenticator = Ok a -> blen a <= 131072 ->
  (forall context, exists c leaf others der, ac_message cert (Some context) = Ok c /\ wf_msg (MCertificate c) = true /\ cm_list c = leaf :: others /\ ce_data leaf = Some der /\
     exists p, peer der = Ok p /\ forall s m sg, In s (ac_schemes cert) -> ac_sign cert s CvAuthenticator m = Ok sg -> pc_verify p s CvAuthenticator m sg = Ok tt) ->
  exists chain, validate h peer req (Some a) (Some hc) (Some fk) CvAuthenticator = Ok (Some chain) /\
    (chain = [] \/ exists context c, request_context (nb req) context /\ ac_message cert (Some context) = Ok c /\ chain = cm_list c /\ getAuthenticatorContext a = Ok (cm_context c)) /\
    (chain = [] -> Forall (fun s => ~ In s (ac_schemes cert)) supported).
Proof.
  intros h supported cert peer req hc fk a Hh Hs H Hl Hc. unfold makeAuthenticator in H. destruct (bind_Ok _ _ _ H) as ([ctx exts] & Ed & H1). clear H.
  destruct (bind_Ok _ _ _ H1) as (sc & Es & H2). clear H1. destruct (C65_scheme _ _ _ _ Es) as (asked & _ & r1 & F1 & F2).
  destruct sc as [s|].
  - assert (Hin : In s supported /\ In s (ac_schemes cert)).
    { destruct r1 as [s1|]; [injection F2 as <-; destruct F1 as (x & y & -> & [P _] & _)|destruct F2 as (x & y & -> & P & _)]; (split; [apply in_elt|exact P]). }
    destruct Hin as [Hi1 Hi2].
    pose proof (request_decodes _ _ _ Ed) as Ex.
    destruct Ex as (context & -> & Hrc). destruct (Hc context) as (c & leaf & others & der & Em & Wc & Lc & Dc & p & Pp & Hv). rewrite Em in H2. cbn [bind] in H2.
    destruct (bind_Ok _ _ _ H2) as (ec & Ec & H3). clear H2. cbv zeta in H3. destruct (bind_Ok _ _ _ H3) as (sg & Esg & H4). clear H3. destruct (bind_Ok _ _ _ H4) as (ev & Ev & H5). clear H4.
    destruct (bind_Ok _ _ _ H5) as (fin & Ef & H6). clear H5. destruct (bind_Ok _ _ _ H6) as (ef & Eef & H7). clear H6. injection H7 as <-.
    unfold authFinished in Ef. rewrite hmac_ok in Ef by (auto; lia). injection Ef as <-. cbn [concat] in Eef. rewrite app_nil_r in Eef. unfold computeTranscript in *. cbn [nb] in *. rewrite <- !app_assoc in Eef.
    destruct (wf_cert_parts _ Wc) as (context' & Ecx).
    assert (A : authenticates h peer hc fk (nb req) (ec ++ ev ++ ef) (cm_list c) []).
    { constructor. exists context', leaf, others, der, s, sg, p, ec, ev, ef. split; [exact Lc|]. split; [exact Dc|]. split; [rewrite Forall_forall in Hs; exact (Hs _ Hi1)|].
      split; [rewrite <- Ecx; exact Ec|]. split; [exact Ev|]. split; [exact Eef|]. split; [rewrite app_nil_r; reflexivity|]. split; [exact Pp|]. apply Hv; assumption. }
    exists (cm_list c). split; [|split].
    + eapply C65_complete; [exact Hh| |exact A|exact Hl]. cbn [wf_msg] in Wc. apply andb_true_iff in Wc. apply Wc.
    + right. exists context, c. split; [exact Hrc|]. split; [exact Em|]. split; [reflexivity|]. unfold getAuthenticatorContext. rewrite (decode_hs_enc (MCertificate c)) by (auto; rewrite !blen_app in Hl; lia). reflexivity.
    + rewrite Lc. discriminate.
  - apply empty_spec in H2; [|exact Hh]. exists []. split; [apply C65_declines; assumption|]. split; [auto|]. intros _. destruct r1; [discriminate|exact F2].
Qed.

(** Both directions, from the connection's exporter secret. *)
Definition handshake_context (h : hashalg) (master : bytes) (client : bool) : bytes :=
  TLS_Exporter h master (if client then str "EXPORTER-client authenticator handshake context" else str "EXPORTER-server authenticator handshake context") [] (h_len h).
Definition finished_key (h : hashalg) (master : bytes) (client : bool) : bytes :=
  TLS_Exporter h master (if client then str "EXPORTER-client authenticator finished key" else str "EXPORTER-server authenticator finished key") [] (h_len h).
Lemma label_short b : blen (hc_label b) <= 249 /\ blen (fk_label b) <= 249.
Proof. destruct b; split; vm_compute; discriminate. Qed.
Lemma export_ok h m l label : hash_ok h -> blen m = h_len h -> blen label <= 249 ->
  tr_export (mkTransport (Some h) (Some m) l) label None (h_len h) = Ok (Some (TLS_Exporter h m label [] (h_len h))).
Proof. intros Hh Hm Hl. pose proof (ho_le h Hh). pose proof (ho_max h Hh). unfold tr_export. cbn [tr_hash tr_master]. rewrite C64_exporter by (auto; lia). reflexivity. Qed.
Lemma get_auth_ok h m l d cert req : hash_ok h -> blen m = h_len h ->
  getAuthenticator (mkTransport (Some h) (Some m) l) d cert req =
  makeAuthenticator h l cert req (Some (handshake_context h m (match d with Upstream => true | _ => false end)))
    (Some (finished_key h m (match d with Upstream => true | _ => false end))) CvAuthenticator.
Proof.
  intros Hh Hm. unfold getAuthenticator. cbn [tr_hash tr_schemes]. cbv zeta. rewrite (export_ok h m l) by (auto; apply label_short). cbn [bind].
  rewrite (export_ok h m l) by (auto; apply label_short). reflexivity.
Qed.
Lemma val_auth_ok h m l peer d req a : hash_ok h -> blen m = h_len h ->
  validateAuthenticator (mkTransport (Some h) (Some m) l) peer d req a =
  validate h peer req a (Some (handshake_context h m (match d with Upstream => false | _ => true end)))
    (Some (finished_key h m (match d with Upstream => false | _ => true end))) CvAuthenticator.
Proof.
  intros Hh Hm. unfold validateAuthenticator. cbn [tr_hash tr_schemes]. cbv zeta. rewrite (export_ok h m l) by (auto; apply label_short). cbn [bind].
  rewrite (export_ok h m l) by (auto; apply label_short). reflexivity.
Qed.
Definition other (d : direction) : direction := match d with Upstream => Downstream | Downstream => Upstream end.
(** [cert]'s messages and signatures are ones that [peer] makes and verifies. *)
Definition certifies (cert : authcert) (peer : bytes -> res peercert) : Prop :=
  forall context, exists c leaf others der, ac_message cert (Some context) = Ok c /\ wf_msg (MCertificate c) = true /\ cm_list c = leaf :: others /\ ce_data leaf = Some der /\
    exists p, peer der = Ok p /\ forall s m sg, In s (ac_schemes cert) -> ac_sign cert s CvAuthenticator m = Ok sg -> pc_verify p s CvAuthenticator m sg = Ok tt.
Theorem C65_transport : forall h m ours theirs d cert peer req a, hash_ok h -> blen m = h_len h -> Forall (fun s => s < 65536) ours -> certifies cert peer ->
  getAuthenticator (mkTransport (Some h) (Some m) ours) d cert req = Ok a -> blen a <= 131072 ->
  exists chain, validateAuthenticator (mkTransport (Some h) (Some m) theirs) peer (other d) req (Some a) = Ok (Some chain) /\
    (chain = [] \/ exists context c, request_context (nb req) context /\ ac_message cert (Some context) = Ok c /\ chain = cm_list c /\ getAuthenticatorContext a = Ok (cm_context c)) /\
    (chain = [] -> Forall (fun s => ~ In s (ac_schemes cert)) ours).
Proof.
  intros h m ours theirs d cert peer req a Hh Hm Hs Hc H Hl. rewrite get_auth_ok in H by assumption. rewrite val_auth_ok by assumption.
  destruct d; eapply C65_roundtrip; eassumption.
Qed.
Theorem C65_accepted : forall h m l peer d req a chain, hash_ok h -> blen m = h_len h ->
  validateAuthenticator (mkTransport (Some h) (Some m) l) peer d req (Some a) = Ok (Some chain) ->
  let client := match d with Upstream => false | Downstream => true end in
  (chain = [] /\ declines h (handshake_context h m client) (finished_key h m client) (nb req) a) \/
  exists rest, authenticates h peer (handshake_context h m client) (finished_key h m client) (nb req) a chain rest.
Proof. intros h m l peer d req a chain Hh Hm H client. rewrite val_auth_ok in H by assumption. eapply C65_sound; eassumption. Qed.

(** An authenticator with certificates is bound to its request: accepted for two, it exhibits a collision of the hash function or of
    HMAC under the finished key. *)
Theorem C65_bound : forall h peer req1 req2 a hc fk chain1 chain2, hash_ok h ->
  validate h peer req1 (Some a) (Some hc) (Some fk) CvAuthenticator = Ok (Some chain1) -> chain1 <> [] ->
  validate h peer req2 (Some a) (Some hc) (Some fk) CvAuthenticator = Ok (Some chain2) ->
  nb req1 = nb req2 \/ (exists x y, x <> y /\ h_fn h x = h_fn h y) \/ (exists x y, x <> y /\ HMAC h fk x = HMAC h fk y).
Proof.
  intros h peer req1 req2 a hc fk chain1 chain2 Hh H1 Hn H2.
  destruct (validate_inv _ _ _ _ _ _ _ Hh H1) as [(f & o & r & e & D & -> & _)|G1]; [congruence|].
  destruct G1 as (c & v & f & ec & ev & ef & r1 & r2 & rest & leaf & others & p & sg & D1 & D2 & D3 & _ & _ & _ & _ & _ & Hf).
  destruct (validate_inv _ _ _ _ _ _ _ Hh H2) as [(f' & o & r & e & D & _)|G2]; [congruence|].
  destruct G2 as (c' & v' & f' & ec' & ev' & ef' & r1' & r2' & rest' & leaf' & others' & p' & sg' & D1' & D2' & D3' & _ & _ & _ & _ & _ & Hf').
  assert (c' = c /\ ec' = ec /\ r1' = r1) as (-> & -> & ->) by (rewrite D1 in D1'; injection D1' as -> -> ->; auto).
  assert (v' = v /\ ev' = ev /\ r2' = r2) as (-> & -> & ->) by (rewrite D2 in D2'; injection D2' as -> -> ->; auto).
  assert (f' = f) by (rewrite D3 in D3'; injection D3' as -> _ _; auto). subst f'. unfold computeTranscript in *. cbn [nb] in *. rewrite <- !app_assoc in *.
  destruct (list_eq_dec byte_eq_dec (nb req1) (nb req2)) as [E|E]; [auto|right].
  destruct (list_eq_dec byte_eq_dec (h_fn h (hc ++ nb req1 ++ ec ++ ev)) (h_fn h (hc ++ nb req2 ++ ec ++ ev))) as [E2|E2].
  - left. eexists _, _. split; [|exact E2]. intros E3. apply app_inv_head in E3. apply app_inv_tail in E3. contradiction.
  - right. eexists _, _. split; [exact E2|]. congruence.
Qed.

(** ** What is not checked *)
(** Bytes may be appended to an accepted authenticator that carries certificates: it stays valid. *)
Theorem C65_trailing : forall h peer req a hc fk chain x, hash_ok h ->
  validate h peer req (Some a) (Some hc) (Some fk) CvAuthenticator = Ok (Some chain) -> chain <> [] ->
  validate h peer req (Some (a ++ x)) (Some hc) (Some fk) CvAuthenticator = Ok (Some chain).
Proof.
  intros h peer req a hc fk chain x Hh H Hn. pose proof H as Hv. destruct (validate_inv _ _ _ _ _ _ _ Hh H) as [(f & o & r & e & D & -> & _)|G]; [congruence|]. clear H.
  destruct G as (c & v & f & ec & ev & ef & r1 & r2 & rest & leaf & others & p & sg & D1 & D2 & D3 & _).
  destruct (decode_hs_some _ _ _ _ x D1) as (X1 & _). destruct (decode_hs_some _ _ _ _ x D2) as (X2 & _). destruct (decode_hs_some _ _ _ _ x D3) as (X3 & _).
  unfold validate in *. rewrite D1 in Hv. rewrite X1. cbn [bind] in *. rewrite D2 in Hv. rewrite X2. cbn [bind] in *. rewrite D3 in Hv. rewrite X3. cbn [bind] in *. exact Hv.
Qed.
