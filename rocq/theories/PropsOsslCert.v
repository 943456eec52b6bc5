(** * PropsOsslCert: C95, certificates and signatures over OpenSSL *)
From Coq Require Import Strings.String Lia.
From Verif Require Import Base Codec Str Handshake Transcript Ticket Server CertCompress OsslCert.
Open Scope N_scope.
Open Scope list_scope.

(** ** Specification: RFC 8446, 4.2.3 and 4.4.3 *)
(** The scheme a public key stands for *)
Inductive typed (k : evp) : N -> Prop :=
  | t_rsa : e_id k = PRSA -> typed k 0x0804
  | t_p256 : e_id k = PEC -> e_name k = Named C256 -> typed k 0x0403
  | t_p384 : e_id k = PEC -> e_name k = Named C384 -> typed k 0x0503
  | t_p521 : e_id k = PEC -> e_name k = Named C521 -> typed k 0x0603
  | t_ed : e_id k = PEd25519 -> typed k 0x0807.
(** A key that can be used with a scheme, and how *)
Definition on_curve (k : evp) (c : curve) : Prop := e_id k = PEC /\ e_check k = true /\ e_same k c = true.
Inductive usable (k : evp) : N -> sigalg -> Prop :=
  | u_rsa : e_id k = PRSA -> usable k 0x0804 (Pss SHA256)
  | u_p256 : on_curve k C256 -> usable k 0x0403 (EcDsa SHA256)
  | u_p384 : on_curve k C384 -> usable k 0x0503 (EcDsa SHA384)
  | u_p521 : on_curve k C521 -> usable k 0x0603 (EcDsa SHA512)
  | u_ed : e_id k = PEd25519 -> usable k 0x0807 EdDsa.
(** What a signature covers: 64 spaces, the context, a zero byte, the content *)
Definition context_text (c : cvctx) : bytes :=
  match c with
  | CvServer => str "TLS 1.3, server CertificateVerify"
  | CvClient => str "TLS 1.3, client CertificateVerify"
  | CvAuthenticator => str "Exported Authenticator"
  | CvClientDC => str "TLS, client delegated credentials"
  | CvServerDC => str "TLS, server delegated credentials"
  end.
Definition covered (c : cvctx) (content : bytes) : bytes := repeat x20 64 ++ context_text c ++ x00 :: content.

(** ** Proofs *)
Lemma covered_is c b : prepareSignData c b = covered c b.
Proof. destruct c; reflexivity. Qed.
Lemma setKey_ok t k k' : setKey t k = Ok k' <-> k' = k /\ usable k (scheme t) (sig_alg t).
Proof.
  split.
  - intros H. unfold setKey in H. apply bind_Ok in H. destruct H as (u & H & [= <-]). split; [reflexivity|].
    destruct t; cbn [scheme sig_alg]; unfold validateECKey, validateEdKey in H; destruct (e_id k) eqn:E; try discriminate H;
      try (destruct (e_check k) eqn:E1; [|discriminate H]; destruct (e_same k _) eqn:E2; [|discriminate H]); constructor; try exact E; repeat split; assumption.
  - intros (-> & U). unfold setKey, validateECKey, validateEdKey. destruct t; cbn [scheme sig_alg] in U; inversion U as [E|(E & E1 & E2)|(E & E1 & E2)|(E & E1 & E2)|E]; rewrite E; rewrite ?E1, ?E2; reflexivity.
Qed.
Lemma keyType_typed k t : getKeyType k = Ok t <-> typed k (scheme t).
Proof.
  unfold getKeyType. split.
  - destruct (e_id k) eqn:E; try discriminate; [intros [= <-]; constructor; exact E| |intros [= <-]; constructor; exact E].
    destruct (e_name k) as [[]|] eqn:En; intros [= <-]; constructor; assumption.
  - intros H. destruct t; cbn [scheme] in H; inversion H as [E|E En|E En|E En|E]; rewrite E; rewrite ?En; reflexivity.
Qed.
Lemma typed_scheme k s : typed k s -> exists t, s = scheme t.
Proof. destruct 1; [exists RSA|exists P256|exists P384|exists P521|exists ED25519]; reflexivity. Qed.
Lemma usable_scheme k s a : usable k s a -> exists t, s = scheme t /\ a = sig_alg t.
Proof. destruct 1; [exists RSA|exists P256|exists P384|exists P521|exists ED25519]; split; reflexivity. Qed.
Lemma scheme_inj t t' : scheme t = scheme t' -> t = t'.
Proof. destruct t, t'; intros H; try reflexivity; discriminate H. Qed.
Lemma makePeerX_ok x p : makePeerX x = Ok p <-> exists k t, x_pubkey x = Some k /\ typed k (scheme t) /\ usable k (scheme t) (sig_alg t) /\ p = mkOPeer t k x.
Proof.
  assert (P : forall k t, x_pubkey x = Some k -> (peerCreate t x = Ok p <-> usable k (scheme t) (sig_alg t) /\ p = mkOPeer t k x)).
  { intros k t Hk. unfold peerCreate. rewrite Hk. split.
    - intros H. apply bind_Ok in H. destruct H as (k' & H & [= <-]). apply setKey_ok in H. destruct H as (-> & H). auto.
    - intros (U & ->). rewrite (proj2 (setKey_ok t k k) (conj eq_refl U)). reflexivity. }
  unfold makePeerX. destruct (x_pubkey x) as [k|] eqn:Hk; [|split; [discriminate|intros (? & ? & ? & _); discriminate]].
  assert (K : forall t, getKeyType k = Ok t -> (peerCreate t x = Ok p <-> exists k0 t0, Some k = Some k0 /\ typed k0 (scheme t0) /\ usable k0 (scheme t0) (sig_alg t0) /\ p = mkOPeer t0 k0 x)).
  { intros t Ht. rewrite (P k t eq_refl). split.
    - intros (U & ->). exists k, t. split; [reflexivity|]. split; [apply keyType_typed; exact Ht|]. auto.
    - intros (k0 & t0 & [= <-] & T & U & ->). apply keyType_typed in T. rewrite Ht in T. injection T as <-. auto. }
  assert (Fl : (forall t, getKeyType k <> Ok t) -> (fail = Ok p <-> exists k0 t0, Some k = Some k0 /\ typed k0 (scheme t0) /\ usable k0 (scheme t0) (sig_alg t0) /\ p = mkOPeer t0 k0 x)).
  { intros N. split; [discriminate|]. intros (k0 & t0 & [= <-] & T & _). apply keyType_typed in T. exfalso. exact (N _ T). }
  unfold getKeyType in K, Fl. destruct (e_id k) eqn:E; try (apply K; reflexivity); try (apply Fl; intros t; discriminate).
  destruct (e_name k) as [[]|] eqn:En; try (apply K; reflexivity). apply Fl; intros t; discriminate.
Qed.
(** A peer's certificate is accepted exactly when OpenSSL reads a certificate from the beginning of its bytes, whose key is one of the five types, and valid.  What follows
    the certificate does not count. *)
Theorem C95_peer L d : (exists p, makePeerBuf L (Some d) = Ok p) <-> d <> [] /\ exists x rest k s a, l_d2i L d = Some (x, rest) /\ x_pubkey x = Some k /\ typed k s /\ usable k s a.
Proof.
  cbn [makePeerBuf]. unfold makePeerRange. split.
  - intros (p & H). destruct d as [|b d]; [discriminate H|]. split; [discriminate|]. destruct (l_d2i L (b :: d)) as [[x rest]|]; [|discriminate H]. apply makePeerX_ok in H. destruct H as (k & t & Hk & T & U & _). exists x, rest, k, (scheme t), (sig_alg t). auto.
  - intros (N & x & rest & k & s & a & Hd & Hk & T & U). destruct d as [|b d]; [congruence|]. rewrite Hd. destruct (usable_scheme _ _ _ U) as (t & -> & ->). exists (mkOPeer t k x). apply makePeerX_ok. exists k, t. auto.
Qed.
(** It accepts a signature exactly if the scheme is the one of its key and OpenSSL accepts it, with that scheme's algorithm, for the content in the context of its use;
    anything else is an error. *)
Theorem C95_peer_verifies L d p : makePeerBuf L (Some d) = Ok p -> exists x rest k s a,
  l_d2i L d = Some (x, rest) /\ x_pubkey x = Some k /\ typed k s /\ usable k s a /\ pc_cert (peer_cert p) = mkCertObj (identity x) (x_der x) /\
  forall sc c tbs sg, (pc_verify (peer_cert p) sc c tbs sg = Ok tt <-> sc = s /\ e_verify k a (covered c tbs) sg = true) /\
    (pc_verify (peer_cert p) sc c tbs sg = Ok tt \/ pc_verify (peer_cert p) sc c tbs sg = fail).
Proof.
  cbn [makePeerBuf]. unfold makePeerRange. destruct d as [|b d]; [discriminate|]. destruct (l_d2i L (b :: d)) as [[x rest]|] eqn:Hd; [|discriminate]. intros H. apply makePeerX_ok in H. destruct H as (k & t & Hk & T & U & ->).
  exists x, rest, k, (scheme t), (sig_alg t). split; [reflexivity|]. split; [exact Hk|]. split; [exact T|]. split; [exact U|]. split; [reflexivity|]. intros sc c tbs sg.
  cbn [peer_cert pc_verify op_type op_key]. unfold certVerify, verify. rewrite covered_is. cbv zeta. destruct (N.eqb_spec sc (scheme t)) as [->|Ns].
  - destruct (e_verify k (sig_alg t) (covered c tbs) sg); split; try (split; intros X; try discriminate X; auto; destruct X; discriminate); auto.
  - split; [split; [discriminate|intros (X & _); contradiction]|right; reflexivity].
Qed.
(** A certificate of our own is made exactly if there is a chain, whose first certificate has a key of one of the five types and matches the private key, which is valid
    for that type, and each compressor succeeds.  (An empty chain is undefined behaviour.) *)
Theorem C95_self L certs key cs : (exists s, makeSelf L certs key cs = Ok s) <->
  exists x r pk sc a m, certs = x :: r /\ x_pubkey x = Some pk /\ typed pk sc /\ l_match L x key = true /\ usable key sc a /\ compressAll (l_comp L) cs (map x_der certs) [] = Ok m.
Proof.
  unfold makeSelf, selfCreate. split.
  - intros (s & H). destruct certs as [|x r]; [discriminate H|]. destruct (x_pubkey x) as [pk|] eqn:Hp; [|discriminate H]. apply bind_Ok in H. destruct H as (t & Ht & H). apply keyType_typed in Ht.
    destruct (l_match L x key) eqn:M; [|discriminate H]. cbn [negb] in H. apply bind_Ok in H. destruct H as (m & Hm & H). apply bind_Ok in H. destruct H as (k & Hk & _). apply setKey_ok in Hk. destruct Hk as (_ & U).
    exists x, r, pk, (scheme t), (sig_alg t), m. auto 10.
  - intros (x & r & pk & sc & a & m & -> & Hp & T & M & U & Hm). rewrite Hp. destruct (usable_scheme _ _ _ U) as (t & -> & ->). rewrite (proj2 (keyType_typed _ _) T). cbn [bind]. rewrite M. cbn [negb]. rewrite Hm. cbn [bind].
    rewrite (proj2 (setKey_ok t key key) (conj eq_refl U)). eexists. reflexivity.
Qed.
Theorem C95_empty_chain L key cs : makeSelf L [] key cs = Err EUB.
Proof. reflexivity. Qed.
Lemma makeSelf_inv L certs key cs s : makeSelf L certs key cs = Ok s -> exists x r pk t m, certs = x :: r /\ x_pubkey x = Some pk /\ typed pk (scheme t) /\ l_match L x key = true /\ usable key (scheme t) (sig_alg t) /\
  s = mkSelf t key certs m.
Proof.
  unfold makeSelf, selfCreate. intros H. destruct certs as [|x r]; [discriminate H|]. destruct (x_pubkey x) as [pk|] eqn:Hp; [|discriminate H]. apply bind_Ok in H. destruct H as (t & Ht & H). apply keyType_typed in Ht.
  destruct (l_match L x key) eqn:M; [|discriminate H]. cbn [negb] in H. apply bind_Ok in H. destruct H as (m & Hm & H). apply bind_Ok in H. destruct H as (k & Hk & [= <-]). apply setKey_ok in Hk. destruct Hk as (-> & U).
  exists x, r, pk, t, m. auto 10.
Qed.
(** It offers the scheme of its key and no other, and signs with that one only, with its algorithm, the content in the context of its use. *)
Theorem C95_self_signs L certs key cs s : makeSelf L certs key cs = Ok s -> exists sc a, usable key sc a /\ selfSchemes s = [sc] /\
  forall sc' c tbs sg, (selfSign s sc' c tbs = Ok sg <-> sc' = sc /\ e_sign key a (covered c tbs) = Some sg) /\ (sc' <> sc -> selfSign s sc' c tbs = fail).
Proof.
  intros H. apply makeSelf_inv in H. destruct H as (x & r & pk & t & m & -> & Hp & T & M & U & ->). exists (scheme t), (sig_alg t). split; [exact U|]. split; [reflexivity|]. intros sc' c tbs sg.
  unfold selfSign, sign. cbn [os_type os_key]. rewrite covered_is. cbv zeta. destruct (N.eqb_spec sc' (scheme t)) as [->|N].
  - split; [|congruence]. destruct (e_sign key (sig_alg t) (covered c tbs)) as [y|]; split; try discriminate; [intros [= ->]; auto|intros (_ & [= ->]); reflexivity|intros (_ & X); discriminate X].
  - split; [split; [discriminate|intros (X & _); contradiction]|reflexivity].
Qed.
(** Laws of OpenSSL: a certificate written as DER is read back; a private key matches a certificate only if it is that of its key: of the same type and curve, and what
    it signs is accepted. *)
Definition law_der (L : lib) (x : x509) : Prop := forall d, x_der x = Some d -> d <> [] /\ l_d2i L d = Some (x, []).
Definition law_match (L : lib) (x : x509) (key : evp) : Prop := l_match L x key = true -> exists pk, x_pubkey x = Some pk /\ e_id pk = e_id key /\ e_check pk = e_check key /\ (forall c, e_same pk c = e_same key c) /\
  (forall a data sg, e_sign key a data = Some sg -> e_verify pk a data sg = true).
(** So what a certificate of our own sends makes a certificate for the peer, of the same identity, which accepts its signatures. *)
Theorem C95_agree L certs key cs s context msg : (forall x r, certs = x :: r -> law_der L x /\ law_match L x key) -> makeSelf L certs key cs = Ok s -> selfMessage s context = Ok msg ->
  exists x r e es p, certs = x :: r /\ cm_context msg = context /\ cm_list msg = e :: es /\ makePeerBuf L (ce_data e) = Ok p /\ pc_cert (peer_cert p) = mkCertObj (identity x) (x_der x) /\
    forall sc c tbs sg, selfSign s sc c tbs = Ok sg -> pc_verify (peer_cert p) sc c tbs sg = Ok tt.
Proof.
  intros Lw H Hm. apply makeSelf_inv in H. destruct H as (x & r & pk & t & m & -> & Hp & T & M & U & ->). unfold selfMessage, getCertMessage in Hm. cbn [os_chain map] in Hm. apply bind_Ok in Hm. destruct Hm as (l & Hl & [= <-]).
  cbn [certEntries] in Hl. destruct (x_der x) as [d|] eqn:Hd; [|discriminate Hl]. apply bind_Ok in Hl. destruct Hl as (es & _ & [= <-]).
  destruct (Lw x r eq_refl) as (Ld & Lm). destruct (Ld d Hd) as (Nd & Rd). destruct (Lm M) as (pk' & Hp' & E1 & E2 & E3 & Sg). rewrite Hp in Hp'. injection Hp' as <-.
  assert (U' : usable pk (scheme t) (sig_alg t)).
  { destruct t; cbn [scheme sig_alg] in *; inversion U as [X|(X & X1 & X2)|(X & X1 & X2)|(X & X1 & X2)|X]; constructor; unfold on_curve; rewrite ?E1, ?E2, ?E3; auto. }
  assert (P : makePeerX x = Ok (mkOPeer t pk x)) by (apply makePeerX_ok; exists pk, t; auto).
  exists x, r, (mkCE (Some d) []), es, (mkOPeer t pk x). split; [reflexivity|]. split; [reflexivity|]. split; [reflexivity|]. split; [|split; [cbn; rewrite Hd; reflexivity|]].
  - cbn [ce_data makePeerBuf]. unfold makePeerRange. destruct d as [|b d]; [congruence|]. rewrite Rd. exact P.
  - intros sc c tbs sg. unfold selfSign, sign. cbn [os_type os_key peer_cert pc_verify op_type op_key]. unfold certVerify, verify. cbv zeta. destruct (sc =? scheme t); [|discriminate].
    destruct (e_sign key (sig_alg t) (prepareSignData c tbs)) as [y|] eqn:Es; [|discriminate]. intros [= ->]. rewrite (Sg _ _ _ Es). reflexivity.
Qed.
(** What is signed in one context for one content is what is signed for no other. *)
Theorem C95_binding c tbs c' tbs' : covered c tbs = covered c' tbs' -> c = c' /\ tbs = tbs'.
Proof. unfold covered. intros H. apply app_inv_head in H. destruct c, c'; cbn in H; try discriminate H; injection H as H; auto. Qed.
(** From text: the certificates and the key that OpenSSL reads; no text is undefined behaviour unless the compressors are. *)
Theorem C95_text L cd kd pw cs s : makeSelfText L cd kd pw cs = Ok s <-> exists certs key, l_pemCerts L cd = Some certs /\ certs <> [] /\ l_pemKey L kd pw = Some key /\ makeSelf L certs key cs = Ok s.
Proof.
  unfold makeSelfText. split.
  - destruct (l_pemCerts L cd) as [[|x r]|]; try discriminate. destruct (l_pemKey L kd pw) as [k|]; [|discriminate]. intros H. exists (x :: r), k. split; [reflexivity|]. split; [discriminate|]. auto.
  - intros (certs & key & -> & N & -> & H). destruct certs; [congruence|exact H].
Qed.
Theorem C95_text_defined L cd kd pw : makeSelfText L cd kd pw [] <> Err EUB.
Proof.
  unfold makeSelfText. destruct (l_pemCerts L cd) as [[|x r]|]; try discriminate. destruct (l_pemKey L kd pw) as [k|]; [|discriminate]. unfold makeSelf, selfCreate. destruct (x_pubkey x) as [pk|]; [|discriminate].
  unfold getKeyType. destruct (e_id pk); try discriminate; try destruct (e_name pk) as [[]|]; try discriminate; cbn [bind]; destruct (l_match L x k); try discriminate; cbn [negb compressAll bind]; unfold setKey, validateECKey, validateEdKey;
    destruct (e_id k); try discriminate; destruct (e_check k); try discriminate; destruct (e_same k _); discriminate.
Qed.
(** The identity is the subject's common name; without one, its whole text; without that, nothing. *)
Theorem C95_identity x : (forall n, x_cn x = Some n -> identity x = n) /\ (forall n, x_cn x = None -> x_subject x = Some n -> identity x = n) /\ (x_cn x = None -> x_subject x = None -> identity x = []).
Proof. unfold identity. repeat split; intros; repeat match goal with H : _ = _ |- _ => rewrite H; clear H end; reflexivity. Qed.
(** How a refusal is reported: no bytes at all, or bytes OpenSSL does not read a certificate from, give an error; a null buffer is undefined behaviour, and the one way to
    it; a peer's certificate never throws. *)
Theorem C95_peer_refused L : makePeerBuf L None = Err EUB /\ makePeerBuf L (Some []) = fail /\ (forall d, l_d2i L d = None -> makePeerBuf L (Some d) = fail) /\
  forall d, (exists p, makePeerBuf L (Some d) = Ok p) \/ makePeerBuf L (Some d) = fail.
Proof.
  split; [reflexivity|]. split; [reflexivity|]. split.
  - intros d H. cbn [makePeerBuf]. unfold makePeerRange. rewrite H. destruct d; reflexivity.
  - intros d. cbn [makePeerBuf]. unfold makePeerRange. destruct d as [|b d]; [right; reflexivity|]. destruct (l_d2i L (b :: d)) as [[x rest]|]; [|right; reflexivity].
    unfold makePeerX, peerCreate. destruct (x_pubkey x) as [k|]; [|right; reflexivity]. unfold setKey, validateECKey, validateEdKey.
    destruct (e_id k) eqn:E; try destruct (e_name k) as [[]|]; rewrite ?E; try (right; reflexivity); try (left; eexists; reflexivity);
      (destruct (e_check k); [|right; reflexivity]); (destruct (e_same k _); [left; eexists; reflexivity|right; reflexivity]).
Qed.
(** Text that is not certificates throws; text with none of them, or without a key, is an error. *)
Theorem C95_text_refused L cd kd pw cs : (l_pemCerts L cd = None -> makeSelfText L cd kd pw cs = Err EThrow) /\ (l_pemCerts L cd = Some [] -> makeSelfText L cd kd pw cs = fail) /\
  (forall certs, l_pemCerts L cd = Some certs -> l_pemKey L kd pw = None -> makeSelfText L cd kd pw cs = fail).
Proof. unfold makeSelfText. split; [intros ->; reflexivity|]. split; [intros ->; reflexivity|]. intros [|c r] -> Hk; [reflexivity|rewrite Hk; reflexivity]. Qed.
(** A peer's certificate put into a ticket or a PSK is the same certificate when it is taken out. *)
Theorem C95_serialized L x d : law_der L x -> serialize x = Ok d -> deserialize L d = makePeerX x.
Proof.
  intros Lw H. unfold serialize in H. destruct (x_der x) as [y|] eqn:Hd; [|discriminate H]. injection H as <-. destruct (Lw y Hd) as (N & R). unfold deserialize, makePeerRange. destruct y; [congruence|]. rewrite R. reflexivity.
Qed.
(** Refuted: that a certificate followed by anything is refused. *)
Theorem C95_trailing L d junk x : d <> [] -> l_d2i L d = Some (x, []) -> l_d2i L (d ++ junk) = Some (x, junk) -> makePeerBuf L (Some (d ++ junk)) = makePeerBuf L (Some d).
Proof. intros N H J. cbn [makePeerBuf]. unfold makePeerRange. rewrite J, H. destruct d; [congruence|reflexivity]. Qed.

(** An example: a signature is the algorithm's number and the data, its DER one byte. *)
Definition exKey (id : pkid) (n : cname) : evp :=
  mkEvp id n true (fun c => match n, c with Named C256, C256 | Named C384, C384 | Named C521, C521 => true | _, _ => false end)
    (fun a b => Some (match a with EcDsa SHA384 => x02 | _ => x01 end :: b)) (fun a b s => bytes_eqb s (match a with EcDsa SHA384 => x02 | _ => x01 end :: b)).
Definition exX : x509 := mkX509 (Some [x2a]) (Some (exKey PEC (Named C384))) None (Some (str "CN=a")).
Definition exLib : lib := mkLib (fun d => match d with x2a :: r => Some (exX, r) | _ => None end) (fun x k => match e_name k with Named C384 => match e_id k with PEC => e_check k | _ => false end | _ => false end)
  (fun _ => Some [exX]) (fun t _ => match t with [] => Some (exKey PEC OtherName) | _ => Some (exKey PEC (Named C384)) end)
  (mkClib (fun _ _ => None) (fun _ _ => None) (fun n => n) (fun _ _ _ => None) (fun _ _ => None) (fun _ _ => None) (fun _ _ => None) (fun n => n)).
Example C95_laws_met : law_der exLib exX /\ law_match exLib exX (exKey PEC (Named C384)).
Proof.
  split.
  - intros d [= <-]. split; [discriminate|reflexivity].
  - intros _. exists (exKey PEC (Named C384)). split; [reflexivity|]. split; [reflexivity|]. split; [reflexivity|]. split; [reflexivity|].
    intros a data sg [= <-]. cbn [e_verify exKey]. apply bytes_eqb_eq. reflexivity.
Qed.
(** A P-384 certificate signs and its peer accepts; another scheme, context or content is refused, as are a key without a named curve and a chain of no certificates. *)
Example C95_met :
  (s <- makeSelfText exLib (str "c") (str "k") None [] ;; m <- selfMessage s None ;;
   match cm_list m with
   | e :: _ => p <- makePeerBuf exLib (ce_data e) ;; sg <- selfSign s 0x0503 CvServer (str "data") ;;
       _ <- pc_verify (peer_cert p) 0x0503 CvServer (str "data") sg ;;
       Ok (selfSchemes s, match pc_verify (peer_cert p) 0x0503 CvClient (str "data") sg with Ok _ => true | _ => false end,
         match pc_verify (peer_cert p) 0x0403 CvServer (str "data") sg with Ok _ => true | _ => false end,
         match pc_verify (peer_cert p) 0x0503 CvServer (str "datb") sg with Ok _ => true | _ => false end,
         match selfSign s 0x0603 CvServer (str "data") with Ok _ => true | _ => false end,
         c_ident (pc_cert (peer_cert p)))
   | [] => fail end) = Ok ([0x0503], false, false, false, false, str "CN=a") /\
  makeSelfText exLib (str "c") [] None [] = fail /\ makePeerX (mkX509 (Some [x2a]) (Some (exKey PEC OtherName)) None None) = fail /\ makePeerX (mkX509 (Some [x2a]) (Some (exKey PEd448 OtherName)) None None) = fail.
Proof. vm_compute. repeat split. Qed.
