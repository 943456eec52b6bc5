(** * C85: OpenSSL's certificate verifier *)
From Coq Require Import Strings.String Strings.Byte.
From Verif Require Import Base Codec CodecSpec Str Hkdf KeySched Handshake HandshakeSpec Extensions ExtensionsSpec ExtensionsProofs RecordBase Record ReadEvent Transcript Ticket Server DelegCred X509Verify.
From Verif Require HelloChecks Negotiate.
From Verif Require Import Crash ServerSpec ServerSpec2 PropsServer2 ServerFacts PropsDelegCred PropsDelegCred2 Client ClientSpec PropsClient Joint PropsServerEx PropsClientEx.
Open Scope N_scope.
Open Scope list_scope.

(** ** Specification *)
Definition txt (s : string) : bytes := list_byte_of_string s.
(** The role whose certificates are checked is the other end's. *)
Definition purpose_of (c : vcontext) : bytes := match c with VcClient => txt "ssl_server" | VcServer => txt "ssl_client" end.
Definition store_of (L : vlib) (s : option store) (p : store) : Prop := s = Some p \/ (s = None /\ vl_default L = Ok p).
(** the X509 of each certificate of the chain *)
Definition ders (l : list peercert) (x : list bytes) : Prop := Forall2 (fun p d => c_der (pc_cert p) = Some d) l x.
(** What OpenSSL is asked about a chain, and its answer: the store, the purpose of the other role, strict checks, the first certificate to verify and the others in their
    order to build paths with. *)
Definition asked (L : vlib) (v : verifier) (chain : list peercert) (answer : option vcode) : Prop :=
  exists leaf rest p, ders chain (leaf :: rest) /\ store_of L (v_store v) p /\
    vl_verify L (mkVparams p (purpose_of (v_context v)) (v_callback v) true) leaf rest = answer.
Definition works (L : vlib) : Prop := forall s, vl_step L s = true.
(** the names of a store's certificates, in its order *)
Inductive names_of : list storeobj -> list bytes -> Prop :=
| nm_nil : names_of [] []
| nm_cert n l r : names_of l r -> names_of (SoCert (Some n) :: l) (n :: r)
| nm_other l r : names_of l r -> names_of (SoOther :: l) r.
(** RFC 8446, 6.2: certificate_revoked(44), certificate_expired(45), unknown_ca(48), bad_certificate(42) *)
Definition alert_for (c : vcode) (a : N) : Prop :=
  (In c [CERT_REVOKED] /\ a = 44) \/ (In c [CERT_NOT_YET_VALID; CERT_HAS_EXPIRED] /\ a = 45) \/
  (In c [CERT_CHAIN_TOO_LONG; DEPTH_ZERO_SELF_SIGNED_CERT; PATH_LENGTH_EXCEEDED; INVALID_CA; SELF_SIGNED_CERT_IN_CHAIN; UNABLE_TO_GET_ISSUER_CERT; UNABLE_TO_GET_ISSUER_CERT_LOCALLY] /\ a = 48) \/
  ((exists n, c = V_OTHER n) /\ a = 42).

(** ** Proofs *)
Lemma getX509s_iff l x : getX509s l = Ok x <-> ders l x.
Proof.
  revert x. induction l as [|p l IH]; intros x; cbn [getX509s].
  - split; [intros [= <-]; constructor|intros H; inversion H; reflexivity].
  - unfold getX509. split.
    + destruct (c_der (pc_cert p)) eqn:E; [|discriminate]. cbn [bind]. destruct (getX509s l) as [xs|] eqn:El; [|discriminate]. intros [= <-]. constructor; [exact E|]. apply IH. reflexivity.
    + intros H. inversion H as [|? ? ? r Hp Hr]; subst. rewrite Hp. cbn [bind]. rewrite (proj2 (IH r) Hr). reflexivity.
Qed.
Lemma theStore_iff L s p : theStore L s = Ok p <-> store_of L s p.
Proof.
  unfold theStore, store_of. destruct s as [s|]; split.
  - intros [= <-]. auto.
  - intros [[= <-]|(H & _)]; [reflexivity|discriminate].
  - auto.
  - intros [H|(_ & H)]; [discriminate|exact H].
Qed.
Lemma store_unique L s p q : store_of L s p -> store_of L s q -> p = q.
Proof. intros A B. apply theStore_iff in A, B. congruence. Qed.
Lemma ders_unique l x y : ders l x -> ders l y -> x = y.
Proof. intros A B. apply getX509s_iff in A, B. congruence. Qed.
Lemma purpose_eq c : (match c with VcServer => [x73; x73; x6c; x5f; x63; x6c; x69; x65; x6e; x74] | VcClient => [x73; x73; x6c; x5f; x73; x65; x72; x76; x65; x72] end) = purpose_of c.
Proof. destruct c; reflexivity. Qed.
Lemma step_ok L s e : step L s e = Ok tt <-> vl_step L s = true.
Proof. unfold step. destruct (vl_step L s); split; congruence. Qed.

(** A chain is accepted exactly if OpenSSL, asked about exactly that chain, accepts it; the certificate reported is the first one of the chain. *)
Theorem C85_verify L v chain c :
  verify L v chain = Ok c <-> works L /\ asked L v chain None /\ exists p r, chain = p :: r /\ c = Some (pc_cert p).
Proof.
  unfold verify. split.
  - intros H. apply bind_Ok in H. destruct H as ([] & H & Hc). unfold verifyWithX509StoreCtx in H. destruct chain as [|p r]; [discriminate|].
    apply bind_Ok in H. destruct H as (xs & Hx & H). repeat (apply bind_Ok in H; destruct H as (? & ? & H)).
    repeat match goal with E : step _ _ _ = Ok ?u |- _ => destruct u; apply step_ok in E end.
    destruct xs as [|leaf rest]; [discriminate|]. cbv zeta in H. rewrite purpose_eq in H. destruct (vl_verify L _ leaf rest) eqn:Ev; [discriminate|].
    split; [intros []; assumption|]. split; [|exists p, r; split; [reflexivity|congruence]].
    match goal with E : theStore L _ = Ok ?q |- _ => exists leaf, rest, q; split; [apply getX509s_iff, Hx|]; split; [apply theStore_iff, E|exact Ev] end.
  - intros (W & (leaf & rest & q & Hd & Hs & Hv) & p & r & -> & ->). unfold verifyWithX509StoreCtx. rewrite (proj2 (getX509s_iff _ _) Hd). cbn [bind]. unfold step. rewrite !W. cbn [bind].
    rewrite (proj2 (theStore_iff _ _ _) Hs). cbn [bind]. cbv zeta. rewrite purpose_eq, Hv. reflexivity.
Qed.
(** A chain that OpenSSL refuses is refused with the alert for its answer, whatever that is. *)
Theorem C85_alert L v chain c : works L -> asked L v chain (Some c) -> exists a, alert_for c a /\ verify L v chain = Err (EStatus (Some a)).
Proof.
  intros W (leaf & rest & q & Hd & Hs & Hv). exists (toTLSAlert c). split.
  - unfold alert_for. destruct c; cbn [toTLSAlert In]; eauto 12 using or_introl.
  - unfold verify, verifyWithX509StoreCtx. destruct chain as [|p r]; [inversion Hd|]. rewrite (proj2 (getX509s_iff _ _) Hd). cbn [bind]. unfold step. rewrite !W. cbn [bind].
    rewrite (proj2 (theStore_iff _ _ _) Hs). cbn [bind]. cbv zeta. rewrite purpose_eq, Hv. reflexivity.
Qed.
(** No certificates, or one that OpenSSL did not read, are refused without asking; and nothing but acceptance, refusal or an error comes out. *)
Theorem C85_refused L v chain : (chain = [] \/ exists p, In p chain /\ c_der (pc_cert p) = None) -> verify L v chain = fail.
Proof.
  intros [->|(p & Hin & Hp)]; [reflexivity|]. unfold verify, verifyWithX509StoreCtx. destruct chain as [|q r]; [destruct Hin|].
  assert (E : getX509s (q :: r) = fail).
  { revert Hin. generalize (q :: r). induction l as [|a l IH]; intros Hin; [destruct Hin|]. cbn [getX509s]. unfold getX509. destruct Hin as [->|Hin]; [rewrite Hp; reflexivity|].
    destruct (c_der (pc_cert a)); [|reflexivity]. cbn [bind]. rewrite IH by exact Hin. reflexivity. }
  rewrite E. reflexivity.
Qed.
Theorem C85_total L v chain : safe (vl_default L) -> safe (verify L v chain).
Proof.
  intros HD. unfold verify. apply safe_bind.
  - unfold verifyWithX509StoreCtx. destruct chain as [|p r]; [exact Logic.I|].
    assert (St : forall s, safe (step L s EThrow)) by (intros s; unfold step; destruct (vl_step L s); exact Logic.I).
    assert (St' : forall s, safe (step L s (EStatus None))) by (intros s; unfold step; destruct (vl_step L s); exact Logic.I).
    assert (G : forall l, safe (getX509s l)).
    { induction l as [|a l IH]; [exact Logic.I|]. cbn [getX509s]. apply safe_bind; [unfold getX509; destruct (c_der (pc_cert a)); exact Logic.I|]. intros ? _. apply safe_bind; [exact IH|]. intros; exact Logic.I. }
    apply safe_bind; [apply G|]. intros xs Hx. apply safe_bind; [apply St|]. intros _ _. apply safe_bind; [apply St|]. intros _ _.
    apply safe_bind; [unfold theStore; destruct (v_store v); [exact Logic.I|exact HD]|]. intros q _. do 2 (apply safe_bind; [apply St'|]; intros _ _). apply safe_bind; [apply St|]; intros _ _.
    do 2 (apply safe_bind; [apply St'|]; intros _ _). apply getX509s_iff in Hx. inversion Hx; subst. cbv zeta. destruct (vl_verify L _ _ _); exact Logic.I.
  - intros [] H. destruct chain; [discriminate|exact Logic.I].
Qed.

(** *** The names sent in a CertificateRequest *)
Lemma createAuthorities_iff l a : createAuthorities l = Ok a <-> exists n, names_of l n /\ a = map Some n.
Proof.
  revert a. induction l as [|[[n|]|] l IH]; intros a; cbn [createAuthorities].
  - split; [intros [= <-]; exists []; split; [constructor|reflexivity]|intros (n & H & ->); inversion H; reflexivity].
  - split.
    + destruct (createAuthorities l) as [b|]; [|discriminate]. intros [= <-]. destruct (proj1 (IH b) eq_refl) as (m & Hm & ->). exists (n :: m). split; [constructor; exact Hm|reflexivity].
    + intros (m & Hm & ->). inversion Hm as [|? ? r Hr|]; subst. rewrite (proj2 (IH (map Some r))) by eauto. reflexivity.
  - split; [discriminate|]. intros (m & Hm & _). inversion Hm.
  - rewrite IH. split; intros (m & Hm & ->); exists m; split; try reflexivity; [constructor; exact Hm|inversion Hm; assumption].
Qed.
(** The verifier is in step with a store: it verifies with it, and sends its names. *)
Definition in_step (L : vlib) (v : verifier) (p : store) : Prop := store_of L (v_store v) p /\ exists n, names_of (st_objects p) n /\ v_authorities v = map Some n.
Theorem C85_create L c s v : create L c s = Ok v -> v_context v = c /\ v_callback v = None /\ exists p, store_of L s p /\ in_step L v p.
Proof.
  unfold create. intros H. apply bind_Ok in H. destruct H as (p & Hp & H). apply bind_Ok in H. destruct H as (a & Ha & H). injection H as <-. split; [reflexivity|]. split; [reflexivity|].
  exists p. apply theStore_iff in Hp. split; [exact Hp|]. split; [exact Hp|]. apply createAuthorities_iff, Ha.
Qed.
(** After a call of setX509Store that succeeded, the verifier is in step with the store given; a callback does not change that; neither changes the role. *)
Theorem C85_set L v s v' : setX509Store L v s = (v', Ok tt) -> v_context v' = v_context v /\ v_callback v' = v_callback v /\ exists p, store_of L s p /\ in_step L v' p.
Proof.
  unfold setX509Store. destruct (p <- theStore L s ;; createAuthorities (st_objects p)) as [a|] eqn:E; intros H; [|discriminate]. injection H as <-. apply bind_Ok in E. destruct E as (p & Hp & Ha).
  split; [reflexivity|]. split; [reflexivity|]. exists p. apply theStore_iff in Hp. split; [exact Hp|]. split; [exact Hp|]. apply createAuthorities_iff, Ha.
Qed.
Theorem C85_callback L v cb p : in_step L v p -> in_step L (setCustomVerifyCallback v cb) p /\ v_context (setCustomVerifyCallback v cb) = v_context v.
Proof. intros H. split; [exact H|reflexivity]. Qed.
(** If the call fails the store is replaced all the same, while the names stay those of the old one. *)
Theorem C85_set_failed_refuted : exists L v p q v', in_step L v p /\ setX509Store L v (Some q) = (v', fail) /\ v_store v' = Some q /\ (exists n, v_authorities v' = [Some n] /\ names_of (st_objects p) [n]) /\
  forall p', ~ in_step L v' p'.
Proof.
  set (p := mkStore 0 [SoCert (Some [x30])]). set (q := mkStore 1 [SoCert None]).
  exists (mkVlib fail (fun _ => true) (fun _ _ _ => None)), (mkVerifier VcClient (Some p) [Some [x30]] None), p, q. eexists.
  split; [split; [left; reflexivity|exists [[x30]]; split; [repeat constructor|reflexivity]]|]. split; [reflexivity|]. split; [reflexivity|].
  split; [exists [x30]; split; [reflexivity|repeat constructor]|]. intros p' ([H|(H & _)] & n & Hn & _); [|discriminate]. injection H as <-. inversion Hn.
Qed.
(** The names that are sent are those the peer reads, in order; sending fails exactly if they take more than 65535 bytes with their lengths. *)
Theorem C85_authorities L v p n : in_step L v p -> names_of (st_objects p) n ->
  (forall l, getCertificateRequestExtensions v = Ok l -> exists e, l = [e] /\ ext_type e = 47 /\
     forall pre post, (forall x, In x pre -> ext_type x <> 47) -> getExtension KCertificateAuthorities (pre ++ e :: post) = Ok (Some (XCertificateAuthorities (map Some n)))) /\
  ((exists l, getCertificateRequestExtensions v = Ok l) <-> (forall x, In x n -> blen x < 2 ^ 16) /\ fold_right (fun x s => 2 + blen x + s) 0 n < 2 ^ 16).
Proof.
  intros (_ & m & Hm & Ha) Hn. assert (m = n).
  { clear -Hm Hn. revert n Hn. induction Hm; intros k Hk; inversion Hk; subst; [reflexivity|f_equal; auto|auto]. } subst m. unfold getCertificateRequestExtensions. rewrite Ha.
  set (x := XCertificateAuthorities (map Some n)). assert (Hw : wf_x x = true) by (cbn [wf_x x]; rewrite forallb_forall; intros b Hb; apply in_map_iff in Hb; destruct Hb as (y & <- & _); reflexivity).
  assert (Hsum : blen (concat (map (opaque 2) (map Some n))) = fold_right (fun x s => 2 + blen x + s) 0 n).
  { clear. induction n as [|y n IH]; [reflexivity|]. cbn [map concat fold_right]. unfold opaque at 1, tls_vec. cbn [bufbytes]. rewrite !blen_app, be_blen, IH. reflexivity. }
  assert (Hfit : fit_x x = true <-> (forall y, In y n -> blen y < 2 ^ 16) /\ fold_right (fun y s => 2 + blen y + s) 0 n < 2 ^ 16).
  { cbn [fit_x x]. unfold fit_list. rewrite Hsum, andb_true_iff, forallb_forall. unfold ofits, fits_len. change (256 ^ N.of_nat 2) with (2 ^ 16). rewrite N.ltb_lt. split; intros (A & B); (split; [|exact B]).
    - intros y Hy. apply N.ltb_lt. apply (A (Some y)). apply in_map, Hy.
    - intros b Hb. apply in_map_iff in Hb. destruct Hb as (y & <- & Hy). apply N.ltb_lt, A, Hy. }
  split.
  - intros l H. apply bind_Ok in H. destruct H as (e & He & H). injection H as <-. exists e. split; [reflexivity|]. pose proof (proj1 (encodeExtension_iff x e Hw) He) as (_ & Ee).
    split; [rewrite Ee; reflexivity|]. intros pre post Hp. apply (getExtension_rt x); [exact Hw|exact He|]. apply no_type_in. exact Hp.
  - rewrite <- Hfit. split.
    + intros (l & H). apply bind_Ok in H. destruct H as (e & He & _). apply (encodeExtension_iff x e Hw) in He. apply He.
    + intros H. rewrite (proj2 (encodeExtension_iff x (mkExt (kind_type (kind_of x)) (Some (w_xbody x))) Hw)) by auto. eexists. reflexivity.
Qed.
(** RFC 8446, 4.2.4 asks for at least one name; a store without certificates (also one that finds them in a directory) sends an empty list. *)
Theorem C85_empty_refuted : exists L v, create L VcServer None = Ok v /\ getCertificateRequestExtensions v = Ok [mkExt 47 (Some [x00; x00])].
Proof. exists (mkVlib (Ok (mkStore 0 [])) (fun _ => true) (fun _ _ _ => None)). eexists. split; reflexivity. Qed.

(** *** In a connection *)
(** A client given this verifier that reports success without a PSK: OpenSSL accepted exactly the chain presented, whose first certificate's key signed the handshake. *)
Theorem C85_client L v k l s L1 early L2 : cenv_ok k -> creach k l s (L1 ++ CEmit (KSuccess early) :: L2) ->
  exists L0 wh Q La w0 cn, cparts k (L0 ++ hello_entry wh Q :: La) L0 wh Q La /\ connected L0 w0 cn /\ (exists M, L1 = (L0 ++ hello_entry wh Q :: La) ++ M) /\
    (cn_verifier cn = Some (verify L v) ->
     (exists p, q_psk Q = Some p /\ cn_psk cn = Some p) \/
     exists La1 w1 x m o1 La2 w2 cv o2 La3 leaf rest sig T,
       La = La1 ++ CRecv w1 (EvHandshake x o1) :: La2 ++ CRecv w2 (EvHandshake (MCertificateVerify cv) o2) :: La3 /\
       cert_message k x m /\ cchain_of k cn w1 true (cm_list m) (leaf :: rest) /\ cv_signature cv = Some sig /\
       ctrans (q_hash Q) ((L0 ++ [hello_entry wh Q]) ++ La1 ++ CRecv w1 (EvHandshake x o1) :: La2) (q_hs Q) T /\
       pc_verify leaf (cv_algorithm cv) CvServer (h_fn (q_hash Q) T) sig = Ok tt /\
       asked L v (leaf :: rest) None).
Proof.
  intros Hk Hr. destruct (C48_success _ _ _ _ _ _ Hk Hr) as (L' & w & vd & orig & pre & L0 & wh & Q & La & w0 & cn & T & c & E1 & P & C & _ & _ & K & _).
  exists L0, wh, Q, La, w0, cn. destruct P as [-> P]. split; [split; [reflexivity|exact P]|]. split; [exact C|]. split; [eexists; exact E1|]. intros HV.
  destruct K as [(p & A & B & _)|(c' & _ & K)]; [left; eauto|right].
  destruct K as (La1 & w1 & x & m & o1 & La2 & w2 & cv & o2 & La3 & leaf & rest & sg & T' & K1 & K2 & _ & K3 & _ & K5 & K6 & K7 & K8).
  exists La1, w1, x, m, o1, La2, w2, cv, o2, La3, leaf, rest, sg, T'. repeat (split; [assumption|]).
  destruct K8 as (lf & rs & [= <- <-] & K8). rewrite HV in K8. destruct K8 as [K8|(K8 & _)]; apply C85_verify in K8; apply K8.
Qed.
(** A server given this verifier that requires a certificate: OpenSSL accepted exactly the chain presented, whose first certificate's key signed the handshake, and that certificate is
    the client's identity. *)
Theorem C85_server L v e l s log : env_ok e -> e_verifier e = Some (verify L v) -> e_authMode e = AuthRequired -> reach e l s log -> s_state s = SAcceptingData ->
  exists P La, handshake e log P La /\
    (p_ticket P <> None \/
     exists L1 w1 m o1 L2 w2 cv o2 L3 leaf rest sig,
       La = L1 ++ Recv w1 (EvHandshake (MCertificate m) o1) :: L2 ++ Recv w2 (EvHandshake (MCertificateVerify cv) o2) :: L3 /\
       chain_of e true (cm_list m) (leaf :: rest) /\ cv_signature cv = Some sig /\
       pc_verify leaf (cv_algorithm cv) CvClient (h_fn (p_hash P) (p_Tsf P ++ client_msgs (L1 ++ Recv w1 (EvHandshake (MCertificate m) o1) :: L2))) sig = Ok tt /\
       asked L v (leaf :: rest) None /\ s_clientCert s = Some (pc_cert leaf)).
Proof.
  intros He HV Ha Hr Hs. destruct (C35_client_certificate _ _ _ _ He Hr Hs) as (P & La & HH & HI). exists P, La. split; [exact HH|].
  unfold client_identity in HI. destruct (p_ticket P) as [[[? ?] r]|]; [left; discriminate|right]. rewrite Ha in HI. destruct HI as (c & Hc & A).
  destruct A as (L1 & w1 & m & o1 & L2 & w2 & cv & o2 & L3 & leaf & rest & sg & K1 & _ & K2 & _ & K4 & K5 & K6).
  exists L1, w1, m, o1, L2, w2, cv, o2, L3, leaf, rest, sg. repeat (split; [assumption|]).
  destruct K6 as (lf & rs & [= <- <-] & K6). rewrite HV in K6.
  assert (K : verify L v (leaf :: rest) = Ok (Some c)) by (destruct K6 as [K6|(K6 & _)]; [exact K6|apply C85_verify in K6; destruct K6 as (_ & _ & ? & ? & _ & K6); discriminate]).
  apply C85_verify in K. destruct K as (_ & K & p & r' & [= <- <-] & E). split; [exact K|congruence].
Qed.
(** The certificates that OpenSSL is asked about are those of the message: with fizz's certificate factory, each is what OpenSSL read from the entry's bytes. *)
Theorem C85_chain O now (entries : list CertificateEntry) chain x :
  Forall2 (fun e p => exists leaf, makePeerCert O now e leaf = Ok p) entries chain -> ders chain x ->
  Forall2 (fun e d => exists w y, ce_data e = Some w /\ o_x509 O w = Some y /\ d = x_der y) entries x.
Proof.
  intros H. revert x. induction H as [|e p es ps (leaf & He) _ IH]; intros x Hx; inversion Hx as [|? d ? r Hd Hr]; subst; [constructor|]. constructor; [|apply IH, Hr].
  assert (R : exists y, readPeer O (ce_data e) = Ok y /\ c_der (pc_cert p) = Some (x_der y)).
  { unfold makePeerCert in He. destruct (negb leaf || _).
    - apply bind_Ok in He. destruct He as (y & Hy & He). exists y. split; [exact Hy|]. unfold makePeer in He. destruct (x_key y); [|discriminate]. repeat (apply bind_Ok in He; destruct He as (? & _ & He)).
      injection He as <-. reflexivity.
    - apply bind_Ok in He. destruct He as (y & Hy & He). exists y. split; [exact Hy|]. apply bind_Ok in He. destruct He as (par & Hpar & He). apply bind_Ok in He. destruct He as ([c|] & _ & He).
      + unfold makeCredential in He. destruct (dc_key c) as [kb|]; [|discriminate]. destruct (o_pubkey O kb); [|discriminate]. repeat (apply bind_Ok in He; destruct He as (? & _ & He)). injection He as <-. reflexivity.
      + injection He as <-. unfold makePeer in Hpar. destruct (x_key y); [|discriminate]. repeat (apply bind_Ok in Hpar; destruct Hpar as (? & _ & Hpar)). injection Hpar as <-. reflexivity. }
  destruct R as (y & Hy & Ed). apply readPeer_iff in Hy. destruct Hy as (w & Hw & _ & Ho). exists w, y. split; [exact Hw|]. split; [exact Ho|congruence].
Qed.
(** When OpenSSL refuses the chain, the connection fails with the alert for its answer: client *)
Theorem C85_client_alert L v k w s cv o leaf rest hc hl sig c : works L ->
  c_state s = CExpectingCertificateVerify -> c_chain s = Some (leaf :: rest) -> c_hctx s = Some hc -> c_hello s = Some hl -> h_verifier hl = Some (verify L v) ->
  In (cv_algorithm cv) (k_sigSchemes k) -> cv_signature cv = Some sig -> pc_verify leaf (cv_algorithm cv) CvServer (hc_context hc) sig = Ok tt -> asked L v (leaf :: rest) (Some c) ->
  exists a, alert_for c a /\
    match cprocess_event k w s (ERead (EvHandshake (MCertificateVerify cv) o)) with
    | (s', outs) => (c_state s' = CError /\ exists pre, outs = pre ++ [KError (Some a)]) \/ c_state s' = CCrash
    end.
Proof.
  intros W Es Ec Eh El Ev Hi Esig Hp Ha. destruct (C85_alert _ _ _ _ W Ha) as (a & A & Hv). exists a. split; [exact A|].
  assert (E : chandle k w s (ERead (EvHandshake (MCertificateVerify cv) o)) = CHErr s (EStatus (Some a))).
  { unfold chandle. rewrite Es. unfold handle_cert_verify. unfold Negotiate.mem, HelloChecks.mem; replace (existsb (N.eqb (cv_algorithm cv)) (k_sigSchemes k)) with true by (symmetry; apply existsb_exists; exists (cv_algorithm cv); split; [exact Hi|apply N.eqb_refl]).
    cbn [ensure bind]. rewrite Ec, Eh, El, Esig. cbn [deref bind]. rewrite Hp. cbn [bind]. rewrite Ev, Hv. reflexivity. }
  unfold cprocess_event. rewrite E. cbn [cfinish]. unfold chandle_error. rewrite Es. destruct (c_write s) as [wl|].
  - destruct (snd (wl_write wl 21 [alert_bytes a])) as [ct|e]; [left; split; [reflexivity|exists [KWrite [ct]]; reflexivity]|].
    destruct e; try (left; split; [reflexivity|exists []; reflexivity]); right; reflexivity.
  - left. split; [reflexivity|exists []; reflexivity].
Qed.
(** ... and server *)
Theorem C85_server_alert L v e w s cv o leaf rest hc sig c : works L ->
  s_state s = SExpectingCertificateVerify -> s_chain s = Some (leaf :: rest) -> s_hctx s = Some hc -> e_verifier e = Some (verify L v) ->
  In (cv_algorithm cv) (e_sigSchemes e) -> cv_signature cv = Some sig -> pc_verify leaf (cv_algorithm cv) CvClient (hc_context hc) sig = Ok tt -> asked L v (leaf :: rest) (Some c) ->
  exists a, alert_for c a /\
    match process_event e w s (SvRead (EvHandshake (MCertificateVerify cv) o)) with
    | (s', outs) => (s_state s' = SError /\ exists pre, outs = pre ++ [OError (Some a)]) \/ s_state s' = SCrash
    end.
Proof.
  intros W Es Ec Eh Ev Hi Esig Hp Ha. destruct (C85_alert _ _ _ _ W Ha) as (a & A & Hv). exists a. split; [exact A|].
  assert (E : handle e w s (SvRead (EvHandshake (MCertificateVerify cv) o)) = HErr s (EStatus (Some a))).
  { unfold handle. rewrite Es. unfold handle_certificate_verify. unfold Negotiate.mem, HelloChecks.mem.
    replace (existsb (N.eqb (cv_algorithm cv)) (e_sigSchemes e)) with true by (symmetry; apply existsb_exists; exists (cv_algorithm cv); split; [exact Hi|apply N.eqb_refl]).
    cbn [ensure bind]. rewrite Ec, Eh, Esig. cbn [deref bind]. rewrite Hp. cbn [bind]. rewrite Ev, Hv. reflexivity. }
  unfold process_event. rewrite E. cbn [finish]. unfold handle_error. rewrite Es. destruct (s_write s) as [wl|].
  - destruct (snd (wl_write wl 21 [alert_bytes a])) as [ct|x]; [left; split; [reflexivity|exists [OWrite [ct]]; reflexivity]|].
    destruct x; try (left; split; [reflexivity|exists []; reflexivity]); right; reflexivity.
  - left. split; [reflexivity|exists []; reflexivity].
Qed.

(** ** Met: connections of the toy client and server whose certificates are verified by OpenSSL in both directions *)
Definition ox_peer (en : CertificateEntry) (leaf : bool) : res peercert :=
  match ce_data en with
  | Some d => Ok (mkPeer (mkCertObj d (Some d)) (fun scheme c m sg => if bytes_eqb sg (tx_sign (unbe d) scheme m) then Ok tt else Err EThrow))
  | None => Err EUB
  end.
Definition ox_store : store := mkStore 1 [SoCert (Some (txt "CN=root")); SoOther; SoCert (Some (txt "CN=other"))].
(** Accepts, for server certificates, a chain of certificate 1 alone, and for client certificates a chain of certificate 6 with 7 to build the path. *)
Definition ox_lib (expired : bool) : vlib := mkVlib (Ok ox_store) (fun _ => true) (fun p leaf rest =>
  if expired then Some CERT_HAS_EXPIRED
  else if negb (vp_strict p) then Some (V_OTHER 1)
  else if bytes_eqb (vp_purpose p) (txt "ssl_server") && bytes_eqb leaf (be 2 1) then match rest with [] => None | _ => Some (V_OTHER 1) end
  else if bytes_eqb (vp_purpose p) (txt "ssl_client") && bytes_eqb leaf (be 2 6) then match rest with d :: _ => if bytes_eqb d (be 2 7) then None else Some (V_OTHER 1) | [] => Some UNABLE_TO_GET_ISSUER_CERT end
  else Some (V_OTHER 26)).
Definition ox_v (c : vcontext) : verifier := match create (ox_lib false) c (Some ox_store) with Ok v => v | Err _ => mkVerifier c None [] None end.
Definition ox_client : cenv := mkCEnv [772] [4865; 4867] [29; 23] [29] [1; 0] [1027] [str "h3"; str "h2"] false true false true
  ShWhenNecessary 1000000000000000%Z None [51] [] (fun _ => Err EThrow) (fun _ => Ok tx_hash) (fun _ => Ok (16, 12, tx_aead)) ox_peer ux_fac
  (Some (fun _ _ _ => Ok (Some (ux_self, 1027)))).
Lemma ox_client_ok : cenv_ok ox_client.
Proof.
  split; cbn [ox_client k_hash k_aead k_versions k_groups k_shares k_sigSchemes k_pskModes k_decompAlgos]; try (repeat constructor; fail).
  - intros c h [= <-]. apply tx_hash_ok.
  - intros c kl il mk [= <- <- <-]. split; discriminate.
Qed.
Definition ox_server (expired : bool) : env := mkEnv [772] [[4867]; [4865]] [29; 23] [1; 0] [1027] [str "h2"] AlpnOptional AuthRequired false
  true false (-10)%Z 10%Z 1000 false true [] (fun _ => Ok tx_hash) (fun _ => Ok (16, 12, tx_aead)) ox_peer (Some (verify (ox_lib expired) (ox_v VcServer)))
  (getCertificateRequestExtensions (ox_v VcServer)) None true true false None None (fun _ _ _ => Ok (Some (tx_self, 1027))).
Lemma ox_server_ok x : env_ok (ox_server x).
Proof.
  split; cbn [ox_server e_hash e_aead e_versions e_groups]; try (repeat constructor; fail).
  - intros c h [= <-]. apply tx_hash_ok.
  - intros c kl il mk [= <- <- <-]. split; discriminate.
Qed.
Definition ox_conn (expired : bool) : conn := mkConn (Some (verify (ox_lib expired) (ox_v VcClient))) (Some (str "example.com")) None false None.
Definition ox_moves (expired : bool) : list move := [ms IAccept; mc (JConnect (ox_conn expired))] ++ ds 1 ++ dc 7 ++ ds 5.
Definition c_success (x : centry) : bool := match x with CEmit (KSuccess _) => true | _ => false end.
Definition c_alert (n : N) (x : centry) : bool := match x with CEmit (KError (Some a)) => a =? n | _ => false end.
Definition s_alert (n : N) (x : entry) : bool := match x with Emit (OError (Some a)) => a =? n | _ => false end.
Definition s_open (s : sstate) : bool :=
  match s_state s, s_clientCert s with SAcceptingData, Some (mkCertObj i (Some d)) => bytes_eqb i (be 2 6) && bytes_eqb d (be 2 6) | _, _ => false end.
Definition c_open (s : cstate) : bool := match c_state s with CEstablished => true | _ => false end.
(** Both ends accept the other's chain; an expired chain ends the connection with the alert 45, at the server and at the client. *)
Theorem C85_met :
  cenv_ok ox_client /\ env_ok (ox_server false) /\ e_authMode (ox_server false) = AuthRequired /\ in_step (ox_lib false) (ox_v VcServer) ox_store /\
  asked (ox_lib false) (ox_v VcClient) [mkPeer (mkCertObj (be 2 1) (Some (be 2 1))) (fun _ _ _ _ => Err EThrow)] None /\
  (exists l s L1 early L2, creach ox_client l s (L1 ++ CEmit (KSuccess early) :: L2) /\ c_state s = CEstablished /\
     connected (L1 ++ CEmit (KSuccess early) :: L2) ux_w (ox_conn false) /\ cn_verifier (ox_conn false) = Some (verify (ox_lib false) (ox_v VcClient)) /\ cn_psk (ox_conn false) = None) /\
  (exists l s log, reach (ox_server false) l s log /\ s_state s = SAcceptingData /\ s_clientCert s = Some (mkCertObj (be 2 6) (Some (be 2 6)))) /\
  (exists l s log, reach (ox_server true) l s log /\ In (Emit (OError (Some 45))) log) /\
  (exists l s log, creach ox_client l s log /\ In (CEmit (KError (Some 45))) log).
Proof.
  split; [apply ox_client_ok|]. split; [apply ox_server_ok|]. split; [reflexivity|].
  split; [split; [left; reflexivity|exists [txt "CN=root"; txt "CN=other"]; split; [repeat constructor|reflexivity]]|].
  split; [exists (be 2 1), [], ox_store; split; [repeat constructor|]; split; [left; reflexivity|vm_compute; reflexivity]|].
  split; [|split; [|split]].
  - assert (H : let j := jrun ox_client (ox_server false) (ox_moves false) in c_open (j_c j) && existsb c_success (j_cl j) = true) by (vm_compute; reflexivity).
    assert (H3 : exists L, j_cl (jrun ox_client (ox_server false) (ox_moves false)) = CCall ux_w (JConnect (ox_conn false)) :: L) by apply jrun_connected.
    destruct (jrun_good ox_client (ox_server false) (ox_moves false)) as (A & _). cbv zeta in H. destruct (jrun _ _ _) as [ci c cl c2s si s sl s2c]. cbn [j_ci j_c j_cl] in *.
    apply andb_true_iff in H. destruct H as (H1 & H2). apply existsb_exists in H2. destruct H2 as (x & Hx & H2). destruct x as [| |[| |b| | | | | | | |]]; try discriminate H2.
    apply in_split in Hx. destruct Hx as (L1 & L2 & ->). exists ci, c, L1, b, L2. split; [exact A|]. split; [unfold c_open in H1; destruct (c_state c); try discriminate H1; reflexivity|].
    split; [exact H3|]. split; reflexivity.
  - assert (H : s_open (j_s (jrun ox_client (ox_server false) (ox_moves false))) = true) by (vm_compute; reflexivity).
    destruct (jrun_good ox_client (ox_server false) (ox_moves false)) as (_ & A). destruct (jrun _ _ _) as [ci c cl c2s si s sl s2c]. cbn [j_si j_s j_sl] in *. exists si, s, sl. split; [exact A|].
    unfold s_open in H. destruct (s_state s); try discriminate H. destruct (s_clientCert s) as [[i [d|]]|]; try discriminate H. apply andb_true_iff in H. destruct H as (H1 & H2). apply bytes_eqb_eq in H1, H2. subst. split; reflexivity.
  - assert (H : existsb (s_alert 45) (j_sl (jrun ox_client (ox_server true) (ox_moves false))) = true) by (vm_compute; reflexivity).
    destruct (jrun_good ox_client (ox_server true) (ox_moves false)) as (_ & A). destruct (jrun _ _ _) as [ci c cl c2s si s sl s2c]. cbn [j_si j_s j_sl] in *. exists si, s, sl. split; [exact A|].
    apply existsb_exists in H. destruct H as (x & Hx & H). destruct x as [|o]; try discriminate H. destruct o as [| | | |[a|]| | | |]; try discriminate H. apply N.eqb_eq in H. subst a. exact Hx.
  - assert (H : existsb (c_alert 45) (j_cl (jrun ox_client (ox_server false) (ox_moves true))) = true) by (vm_compute; reflexivity).
    destruct (jrun_good ox_client (ox_server false) (ox_moves true)) as (A & _). destruct (jrun _ _ _) as [ci c cl c2s si s sl s2c]. cbn [j_ci j_c j_cl] in *. exists ci, c, cl. split; [exact A|].
    apply existsb_exists in H. destruct H as (x & Hx & H). destruct x as [| |o]; try discriminate H. destruct o as [| | | |[a|]| | | | | |]; try discriminate H. apply N.eqb_eq in H. subst a. exact Hx.
Qed.
