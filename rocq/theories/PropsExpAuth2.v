(** * C64, C65: exporters of real connections, and concrete authenticators *)
From Verif Require Import Base Codec CodecSpec Str Hkdf HkdfSpec HkdfProofs KeySched KeySchedSpec KeySchedProofs Handshake HandshakeSpec HandshakeProofs Extensions RecordBase Record
  RecordRT ReadEvent HelloChecks Cookie Token Negotiate Ticket PskSer Kex Hpke Transcript IOBufUtil PropsIOBuf EchConfirm HpkeUtils EchCrypt Server
  ServerSpec ServerFacts ServerSteps ServerFlight ServerInv ServerPreserve ServerSpec2 ExtensionsSpec ExtensionsProofs PropsCodec PropsEch Client ClientSpec ClientSteps ClientHello
  ClientInv ClientAwait ClientFlight ClientPhase ClientPreserve ClientOrigin PropsClient PropsClient2 PropsClient3 ServerSpec3 PropsServer6 PropsServerEx Joint PropsClientEx ExpAuth PropsExpAuth.
Open Scope N_scope.

(** ** C64 on connections *)
(** RFC 8446, 7.1: the exporter master secret of a handshake with this PSK and (EC)DHE secret, over the transcript [T] through the server's
    Finished; and the early one, over the ClientHello. *)
Definition exporter_master (h : hashalg) (psk dh T : bytes) : bytes := DeriveSecret h (MasterSecret h psk dh) (str "exp master") (h_fn h T).
Definition early_exporter_master (h : hashalg) (psk T : bytes) : bytes := DeriveSecret h (EarlySecret h psk) (str "e exp master") (h_fn h T).

Theorem C64_server : forall e l s log label context length, env_ok e -> reach e l s log ->
  In (s_state s) [SAcceptingEarlyData; SExpectingCertificate; SExpectingCertificateVerify; SExpectingFinished; SAcceptingData] ->
  exists L0 w c orig pre cs L2 P, log = L0 ++ Recv w (EvHandshake (MClientHello c) orig) :: map Emit pre ++ Emit (OWrite cs) :: L2 /\ handshake_of e L0 w c orig cs P /\
    (blen label <= 249 -> length < 65536 -> length <= 255 * h_len (p_hash P) ->
     server_export e s label context length =
       Ok (Some (TLS_Exporter (p_hash P) (exporter_master (p_hash P) (p_psk P) (p_dh P) (p_Tsf P)) label (match context with Some b => b | None => [] end) length)) /\
     (s_early s = Some EdAccepted -> server_early_export e s label context length =
       Ok (TLS_Exporter (p_hash P) (early_exporter_master (p_hash P) (p_psk P) (p_T P)) label (match context with Some b => b | None => [] end) length)) /\
     (s_early s <> Some EdAccepted -> server_early_export e s label context length = Err EThrow)).
Proof.
  intros e l s log label context len He Hr Hs. destruct (C60_reports _ _ _ _ He Hr Hs) as (L0 & w & c & orig & pre & cs & L2 & P & o & early & alpn & scert & scheme & HL & HO & HA & HR).
  exists L0, w, c, orig, pre, cs, L2, P. split; [exact HL|]. split; [exact HO|]. intros Hl H16 HL'. pose proof (eo_hash _ He _ _ (ho_hash _ _ _ _ _ _ _ HO)) as Hh.
  unfold server_export, server_early_export. rewrite (re_cipher _ _ _ _ _ _ _ _ _ _ HR), (re_exporter _ _ _ _ _ _ _ _ _ _ HR), (re_earlyExporter _ _ _ _ _ _ _ _ _ _ HR), (ho_hash _ _ _ _ _ _ _ HO).
  cbn [bind]. split; [|split].
  - rewrite C64_exporter; auto. apply DeriveSecret_len; exact Hh.
  - intros Ea. destruct (re_early _ _ _ _ _ _ _ _ _ _ HR) as (c1 & _ & X). rewrite Ea in X. rewrite X. rewrite C64_exporter; auto. apply DeriveSecret_len; exact Hh.
  - intros Ea. destruct (re_early _ _ _ _ _ _ _ _ _ _ HR) as (c1 & _ & X). destruct (s_early s) as [[]|]; try contradiction; try congruence; destruct X as (-> & _); reflexivity.
Qed.
Theorem C64_client : forall k l s log label context length, cenv_ok k -> creach k l s log -> c_state s = CEstablished ->
  exists L0 w Q La Tsf Tcf, cparts k log L0 w Q La /\ cfinished_in Q log Tsf Tcf /\
    (blen label <= 249 -> length < 65536 -> length <= 255 * h_len (q_hash Q) ->
     client_export k s label context length =
       Ok (Some (TLS_Exporter (q_hash Q) (exporter_master (q_hash Q) (q_secret Q) (q_dh Q) Tsf) label (match context with Some b => b | None => [] end) length))).
Proof.
  intros k l s log label context len Hk Hr Hs. pose proof (creach_phase _ _ _ _ Hk Hr) as HP. destruct (cphase_data _ _ _ HP Hs) as (G & F & L & L' & P & X & D).
  exists (y_L0 G), (y_w G), (y_Q G), L, (z_Tsf F), (z_Tcf F). split; [apply past_parts, P|]. split; [rewrite (xd_log _ _ _ _ _ _ D), map_app, <- app_assoc; eapply cfinished_in_of, D|].
  intros Hl H16 HL. destruct (past_parts _ _ _ _ P) as (_ & HO). pose proof (ko_hash _ Hk _ _ (co_hash _ _ _ _ HO)) as Hh.
  unfold client_export. rewrite (fx_cipher _ _ X), (xd_exporter _ _ _ _ _ _ D). rewrite (co_hash _ _ _ _ HO). cbn [bind]. rewrite C64_exporter; auto. apply DeriveSecret_len; exact Hh.
Qed.
(** Before the handshake is over the client exports nothing. *)
Theorem C64_client_null : forall k l s log label context length, cenv_ok k -> creach k l s log ->
  In (c_state s) [CUninitialized; CExpectingServerHello; CExpectingEncryptedExtensions; CExpectingCertificate; CExpectingCertificateVerify; CExpectingFinished] ->
  client_export k s label context length = Ok None.
Proof.
  intros k l s log label context len Hk Hr Hs. pose proof (creach_phase _ _ _ _ Hk Hr) as HP.
  assert (E : c_exporter s = None).
  { destruct HP as [-> _|A HA|G L P X D|G F L L' P X D|E1 _ _ _|T _].
    - reflexivity.
    - apply (aw_none _ _ _ _ HA).
    - apply (xi_none _ _ _ _ _ D).
    - destruct (xd_state _ _ _ _ _ _ D) as [(E & _)|(E & _)]; rewrite E in Hs; cbn [In] in Hs; decompose [or] Hs; try discriminate; contradiction.
    - rewrite E1 in Hs; cbn [In] in Hs; decompose [or] Hs; try discriminate; contradiction.
    - unfold cterminal in T. destruct (c_state s); try contradiction; cbn [In] in Hs; decompose [or] Hs; try discriminate; contradiction. }
  unfold client_export. rewrite E. destruct (g_cipher (c_neg s)); reflexivity.
Qed.
(** ** Requests *)
(** A request made by getAuthenticatorRequest is read back by the other end, whatever follows it; the context is never empty. *)
Theorem C65_request : forall context exts req junk, wf_exts exts = true -> getAuthenticatorRequest context exts = Ok req ->
  exists c, context = Some c /\ c <> [] /\ request_context (req ++ junk) c /\ decodeAuthRequest (Some (req ++ junk)) = Ok (Some c, exts).
Proof.
  intros context exts req junk Hw H. unfold getAuthenticatorRequest in H. destruct context as [[|c0 c]|]; try discriminate H.
  assert (W : wf_msg (MCertificateRequest (mkCR (Some (c0 :: c)) exts)) = true) by (cbn [wf_msg cr_context cr_extensions]; rewrite Hw; reflexivity).
  assert (E : encode_body (MCertificateRequest (mkCR (Some (c0 :: c)) exts)) = Ok (Some req)) by (cbn [encode_body]; rewrite H; reflexivity).
  apply (encode_body_iff _ _ W) in E. destruct E as [F E]. cbn [fit_body w_body cr_context cr_extensions] in F, E. apply andb_true_iff in F. destruct F as [F1 F2].
  assert (Er : req = opaque (lw_nat W8) (Some (c0 :: c)) ++ w_exts exts) by exact E.
  assert (D : decode_cr (req ++ junk) = Ok (mkCR (Some (c0 :: c)) exts, junk)).
  { rewrite Er, <- app_assoc. unfold decode_cr. rewrite (read_buf_ok W8) by (reflexivity || assumption). cbn [bind]. rewrite read_exts_ok by assumption. reflexivity. }
  exists (c0 :: c). split; [reflexivity|]. split; [discriminate|]. split; [right; eauto|]. unfold decodeAuthRequest. destruct (req ++ junk) as [|x y] eqn:Ex; [vm_compute in D; discriminate|].
  rewrite D. reflexivity.
Qed.

(** ** Examples *)
Definition bufeq (a b : res buf) : bool := match a, b with Ok (Some x), Ok (Some y) => bytes_eqb x y | _, _ => false end.
(** A client and a server that have finished their handshake export the same keying material; other labels, contexts and lengths give other bytes. *)
Example C64_met :
  let j := jrun (ux_env [29]) (vx_env AuthRequired None) (firstn 13 jx_full) in
  let c := client_export (ux_env [29]) (j_c j) in let s := server_export (vx_env AuthRequired None) (j_s j) in
  established (j_c j) && match s_state (j_s j) with SAcceptingData => true | _ => false end &&
  bufeq (c (str "EXPORTER-x") (Some (str "y")) 100) (s (str "EXPORTER-x") (Some (str "y")) 100) &&
  negb (bufeq (c (str "EXPORTER-x") (Some (str "y")) 100) (c (str "EXPORTER-x") None 100)) &&
  negb (bufeq (c (str "EXPORTER-x") (Some (str "y")) 100) (c (str "EXPORTER-z") (Some (str "y")) 100)) &&
  negb (bufeq (c (str "EXPORTER-x") None 100) (c (str "EXPORTER-x") None 99)) &&
  bufeq (c (str "EXPORTER-x") None 32) (c (str "EXPORTER-x") (Some []) 32) = true.
Proof. vm_compute. reflexivity. Qed.
Example C64_early_met : match script (tx_env AuthRequired) s_init [] (firstn 2 run_early) with (_, s, _) =>
  match s_state s, s_early s, server_early_export (tx_env AuthRequired) s (str "EXPORTER-x") None 40, server_export (tx_env AuthRequired) s (str "EXPORTER-x") None 40 with
  | SAcceptingEarlyData, Some EdAccepted, Ok a, Ok (Some b) => (blen a =? 40) && (blen b =? 40) && negb (bytes_eqb a b) | _, _, _, _ => false end end = true.
Proof. vm_compute. reflexivity. Qed.

(** A toy certificate: [tx_sign] with key 6. *)
Definition ax_cert (l : list N) : authcert := mkAuthCert l (fun ctx => Ok (Handshake.mkCert ctx [tx_entry 6; tx_entry 7])) (fun s _ m => Ok (tx_sign 6 s m)).
Definition ax_peer (d : bytes) : res peercert :=
  Ok (mkPeer (mkCertObj d None) (fun scheme c m sg => if bytes_eqb sg (tx_sign (unbe d) scheme m) then Ok tt else Err EThrow)).
Example ax_certifies l : certifies (ax_cert l) ax_peer.
Proof.
  intros context. exists (Handshake.mkCert (Some context) [tx_entry 6; tx_entry 7]), (tx_entry 6), [tx_entry 7], (be 2 6). split; [reflexivity|]. split; [reflexivity|]. split; [reflexivity|]. split; [reflexivity|].
  eexists. split; [reflexivity|]. intros s m sg _ [= <-]. cbn [pc_verify]. change (unbe (be 2 6)) with 6. destruct (bytes_eqb _ _) eqn:E; [reflexivity|].
  rewrite (proj2 (bytes_eqb_eq _ _) eq_refl) in E. discriminate.
Qed.
Definition ax_t : transport := mkTransport (Some tx_hash) (Some (be 32 99)) [1027; 2052].
Definition ax_req : bytes := match encodeExtension (XSignatureAlgorithms [2052; 1027]) with Ok x => match getAuthenticatorRequest (Some (str "ctx")) [x] with Ok b => b | _ => [] end | _ => [] end.
Definition ax_auth (l : list N) (d : direction) : bytes := match getAuthenticator ax_t d (ax_cert l) (Some ax_req) with Ok b => b | Err _ => [] end.
Definition verdict (r : res (option (list CertificateEntry))) : N := match r with Ok (Some l) => 1 + N.of_nat (length l) | Ok None => 0 | Err _ => 99 end.
(** Accepted at the other end with both certificates; not by the same direction, not for another request, not with a changed last byte; a
    certificate with no usable scheme gives an authenticator that declines. *)
Example C65_met : is_ok (getAuthenticator ax_t Upstream (ax_cert [2052]) (Some ax_req)) &&
  (verdict (validateAuthenticator ax_t ax_peer Downstream (Some ax_req) (Some (ax_auth [2052] Upstream))) =? 3) &&
  (verdict (validateAuthenticator ax_t ax_peer Upstream (Some ax_req) (Some (ax_auth [2052] Downstream))) =? 3) &&
  (verdict (validateAuthenticator ax_t ax_peer Upstream (Some ax_req) (Some (ax_auth [2052] Upstream))) =? 0) &&
  (verdict (validateAuthenticator ax_t ax_peer Downstream None (Some (ax_auth [2052] Upstream))) =? 0) &&
  (verdict (validateAuthenticator ax_t ax_peer Downstream (Some ax_req) (Some (takeN (blen (ax_auth [2052] Upstream) - 1) (ax_auth [2052] Upstream) ++ [x00]))) =? 0) &&
  (verdict (validateAuthenticator ax_t ax_peer Downstream (Some ax_req) (Some (ax_auth [9] Upstream))) =? 1) &&
  (blen (ax_auth [9] Upstream) =? 36) = true.
Proof. vm_compute. reflexivity. Qed.
(** RFC 9261 asks the receiver to check that the context of the Certificate message is that of its request; fizz leaves this to callers of
    getAuthenticatorContext: here the sender answers with another context and is accepted. *)
Definition ax_other : authcert := mkAuthCert [1027] (fun _ => Ok (Handshake.mkCert (Some (str "other")) [tx_entry 6])) (fun s _ m => Ok (tx_sign 6 s m)).
Example C65_context_unchecked : exists a, getAuthenticator ax_t Upstream ax_other (Some ax_req) = Ok a /\
  verdict (validateAuthenticator ax_t ax_peer Downstream (Some ax_req) (Some a)) = 2 /\ getAuthenticatorContext a = Ok (Some (str "other")) /\
  request_context ax_req (str "ctx").
Proof.
  eexists. split; [vm_compute; reflexivity|]. split; [vm_compute; reflexivity|]. split; [vm_compute; reflexivity|]. right. eexists _, _. vm_compute. reflexivity.
Qed.
(** A scheme that the request does not list is used if no listed one fits. *)
Example C65_unrequested : exists x, encodeExtension (XSignatureAlgorithms [2052]) = Ok x /\ getSignatureScheme [1027; 2052] [1027] [x] = Ok (Some 1027).
Proof. eexists. split; vm_compute; reflexivity. Qed.
(** Before the handshake has produced an exporter secret the Finished key is a null pointer. *)
Example C65_too_early : getAuthenticator (mkTransport (Some tx_hash) None [1027]) Upstream (ax_cert [1027]) None = Err EUB.
Proof. vm_compute. reflexivity. Qed.
(** A request without a context is refused. *)
Example C65_request_context : forall exts, getAuthenticatorRequest None exts = failA al_illegal_parameter /\ getAuthenticatorRequest (Some []) exts = failA al_illegal_parameter.
Proof. split; reflexivity. Qed.
Print Assumptions C64_exporter. Print Assumptions C64_server. Print Assumptions C64_client. Print Assumptions C64_client_null. Print Assumptions C65_request. Print Assumptions C65_sound. Print Assumptions C65_complete. Print Assumptions C65_declines.
Print Assumptions C65_scheme. Print Assumptions C65_roundtrip. Print Assumptions C65_transport. Print Assumptions C65_accepted. Print Assumptions C65_bound. Print Assumptions C65_trailing.
