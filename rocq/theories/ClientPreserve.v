(** * The invariant of a client connection holds after every step *)
From Verif Require Import Base Codec CodecSpec Str Hkdf HkdfSpec HkdfProofs KeySched KeySchedSpec KeySchedProofs Handshake Extensions RecordBase Record
  RecordRT ReadEvent HelloChecks Cookie Token Negotiate Ticket PskSer Kex Hpke Transcript IOBufUtil PropsIOBuf EchConfirm HpkeUtils EchCrypt Server
  ServerSpec ServerFacts ServerSteps ServerFlight ServerInv ServerPreserve ExtensionsSpec ExtensionsProofs PropsCodec PropsEch Client ClientSpec ClientSteps ClientHello
  ClientInv ClientAwait ClientFlight ClientPhase.
Open Scope N_scope.

(** The entry of the log for an event. *)
Definition centry_of (w : cworld) (ev : cevent) : centry :=
  match ev with
  | EConnect cn => CCall w (JConnect cn) | ERead x => CRecv w x | ENewTicket => CCall w JNewTicket
  | EAppWrite q => CCall w (JAppWrite q) | EEarlyAppWrite q => CCall w (JEarlyAppWrite q) | EKeyUpdate r => CCall w (JKeyUpdate r)
  end.

(** ** Handlers *)
Lemma server_certs_chain k w cn : forall l leaf ps, server_certs k w (cn_exts cn) l leaf = Ok ps -> cchain_of k cn w leaf l ps.
Proof.
  induction l as [|x l IH]; intros leaf ps H; cbn [server_certs] in H.
  - injection H as <-. constructor.
  - bo H u Eu. bo H p Ep. bo H ps' Eps. injection H as <-. constructor; [|exact Ep|apply IH, Eps].
    unfold centry_legal. destruct (cn_exts cn).
    + bo Eu sent Es. apply ensure_ok in Eu. exists sent. split; [exact Es|]. rewrite forallb_forall in Eu. intros t Ht.
      apply in_map_iff in Ht. destruct Ht as (y & <- & Hy). apply mem_In, Eu, Hy.
    + apply ensure_ok in Eu. destruct (ce_extensions x); [reflexivity|discriminate].
Qed.
Lemma memb_In x l : memb x l = true -> In x l.
Proof. unfold memb. intros H. apply existsb_exists in H. destruct H as (y & Hy & E). apply bytes_eqb_eq in E. subst. exact Hy. Qed.
Record ee_facts (k : cenv) (s : cstate) (orig : bytes) (s' : cstate) (outs : list cout) (hl : hellost) (hc : hsctx) (pt : psktype) : Prop := mkEF {
  ef_hello : c_hello s = Some hl; ef_hctx : c_hctx s = Some hc; ef_pt : g_psk (c_neg s) = Some pt;
  ef_state : c_state s' = if pskAccepted pt then CExpectingFinished else CExpectingCertificate;
  ef_hctx' : c_hctx s' = Some (hc_append hc orig);
  ef_same : c_read s' = c_read s /\ c_write s' = c_write s /\ c_ks s' = c_ks s /\ c_secrets s' = c_secrets s /\ c_chain s' = c_chain s /\
    c_exporter s' = c_exporter s /\ c_resumption s' = c_resumption s /\ c_selected s' = c_selected s /\ c_earlyw s' = c_earlyw s;
  ef_neg : let g := c_neg s in let g' := c_neg s' in g_version g' = g_version g /\ g_cipher g' = g_cipher g /\ g_group g' = g_group g /\
    g_hsTime g' = g_hsTime g /\ g_psk g' = g_psk g /\ g_server g' = g_server g /\ g_client g' = g_client g /\ g_auth g' = g_auth g;
  ef_hello' : exists hl', c_hello s' = Some hl' /\ h_verifier hl' = h_verifier hl /\ h_exts hl' = h_exts hl /\ h_psk hl' = h_psk hl;
  ef_ech : match c_ech s with Some e => exists e', c_ech s' = Some e' /\ ec_status e' = ec_status e | None => c_ech s' = None end;
  ef_alpn : calpn k s';
  ef_outs : forallb cquiet (map CEmit outs) = true }.
Lemma ee_ok k w s x orig s' outs : handle_ee k w s x orig = Ok (s', outs) -> exists hl hc pt, ee_facts k s orig s' outs hl hc pt.
Proof.
  unfold handle_ee. destruct (c_hello s) as [hl|] eqn:E1; [|discriminate]. destruct (c_hctx s) as [hc|] eqn:E2; [|discriminate].
  destruct (g_psk (c_neg s)) as [pt|] eqn:E3; [|discriminate]. destruct (h_req hl) as [req|]; [|discriminate]. intros H.
  bo H u E4. bo H a E5. bo H alpn E6. bo H e E7. bo H ed E8. bo H rt E9. bo H u2 E10. injection H as <- <-.
  exists hl, hc, pt. constructor; auto; cbn.
  - repeat split; reflexivity.
  - repeat split; auto.
  - eexists. split; [reflexivity|]. auto.
  - destruct (c_ech s) as [es|]; [|reflexivity]. destruct rt as [[n cs]|]; eexists; (split; [reflexivity|reflexivity]).
  - unfold calpn. cbn [c_neg g_alpn].
    assert (Hd : (if k_requireAlpn k then Err (alert al_no_application_protocol) else Ok None) = Ok alpn ->
                 match alpn with Some n => In n (k_alpns k) | None => k_requireAlpn k = false end).
    { destruct (k_requireAlpn k); [discriminate|]. intros [= <-]. reflexivity. }
    destruct a as [a|]; [|exact (Hd E6)]. destruct a; try exact (Hd E6). destruct l as [|b [|? ?]]; try discriminate.
    bo E6 n E11. bo E6 u3 E12. injection E6 as <-. apply ensure_ok in E12. apply memb_In, E12.
  - destruct rt as [[n cs]|]; reflexivity.
Qed.
Lemma cert_request_ok k s m orig s' outs : handle_cert_request k s m orig = Ok (s', outs) ->
  outs = [] /\ exists hc sel au, c_hctx s = Some hc /\ s' = cu_auth s CExpectingCertificate (hc_append hc orig) (c_chain s) sel au (g_server (c_neg s)) (g_sig (c_neg s)) (g_comp (c_neg s)).
Proof.
  unfold handle_cert_request. intros H. bo H u E1. destruct (c_hctx s) as [hc|]; [|discriminate]. destruct (c_hello s) as [hl|]; [|discriminate].
  bo H ctx E2. bo H u2 E3. bo H x E4. destruct x as [x|]; [|discriminate]. destruct x; try discriminate. bo H sel E5. injection H as <- <-.
  split; [reflexivity|]. eexists hc, sel, _. split; reflexivity.
Qed.
Lemma cert_msg_ok k w s m algo orig s' outs : handle_cert_msg k w s m algo orig = Ok (s', outs) ->
  outs = [] /\ exists hc certs au, c_hctx s = Some hc /\ cm_context m = Some [] /\
    (forall cn, (exists hl, c_hello s = Some hl /\ h_exts hl = cn_exts cn) -> cchain_of k cn w true (cm_list m) certs) /\ certs <> [] /\
    s' = cu_auth s CExpectingCertificateVerify (hc_append hc orig) (Some certs) (c_selected s) au (g_server (c_neg s)) (g_sig (c_neg s)) algo.
Proof.
  unfold handle_cert_msg. destruct (c_hctx s) as [hc|]; [|discriminate]. destruct (c_hello s) as [hl|]; [|discriminate]. intros H.
  bo H ctx E2. apply deref_ok in E2. bo H u2 E3. apply ensure_ok in E3. bo H certs E4. bo H u3 E5. apply ensure_ok in E5. injection H as <- <-.
  split; [reflexivity|]. eexists hc, certs, _. split; [reflexivity|]. split; [destruct ctx; [exact E2|discriminate]|].
  split; [intros cn (hl' & [= <-] & Ex); rewrite Ex in E4; eapply server_certs_chain, E4|]. split; [destruct certs; [discriminate|congruence]|]. reflexivity.
Qed.
Lemma as_bad_ok {A} (r : res A) x : as_bad_certificate r = Ok x -> r = Ok x.
Proof. destruct r as [a|[]]; cbn; congruence. Qed.
Lemma compressed_ok k w s m orig s' outs : handle_compressed_cert k w s m orig = Ok (s', outs) ->
  In (cc_algorithm m) (k_decompAlgos k) /\ exists d, k_decompress k m = Ok d /\ handle_cert_msg k w s d (Some (cc_algorithm m)) orig = Ok (s', outs).
Proof.
  unfold handle_compressed_cert. intros H. bo H u1 E1. bo H u2 E2. apply ensure_ok in E2. bo H d E3. apply as_bad_ok in E3.
  split; [apply mem_In, E2|]. exists d. auto.
Qed.
Lemma as_verification_ok (r : res (option cert)) x : as_verification r = Ok x -> r = Ok x.
Proof. destruct r as [a|[[]| | | |]]; cbn; congruence. Qed.
Lemma cverify_ok k s m orig s' outs : handle_cert_verify k s m orig = Ok (s', outs) ->
  outs = [] /\ exists hc hl leaf rest sg c, c_hctx s = Some hc /\ c_hello s = Some hl /\ c_chain s = Some (leaf :: rest) /\ In (cv_algorithm m) (k_sigSchemes k) /\
    cv_signature m = Some sg /\ pc_verify leaf (cv_algorithm m) CvServer (hc_context hc) sg = Ok tt /\ caccepted_as (h_verifier hl) (leaf :: rest) c /\
    s' = cu_auth s CExpectingFinished (hc_append hc orig) None (c_selected s) (g_auth (c_neg s)) (Some c) (Some (cv_algorithm m)) (g_comp (c_neg s)).
Proof.
  unfold handle_cert_verify. intros H. bo H u E1. apply ensure_ok in E1.
  destruct (c_chain s) as [[|leaf rest]|] eqn:Ec; try discriminate. destruct (c_hctx s) as [hc|]; [|discriminate]. destruct (c_hello s) as [hl|]; [|discriminate].
  bo H sg E2. apply deref_ok in E2. bo H u2 E3. destruct u2. bo H c E4. injection H as <- <-. split; [reflexivity|].
  exists hc, hl, leaf, rest, sg, c. split; [reflexivity|]. split; [reflexivity|]. split; [reflexivity|]. split; [apply mem_In, E1|]. split; [exact E2|]. split; [exact E3|].
  split; [|reflexivity]. exists leaf, rest. split; [reflexivity|]. destruct (h_verifier hl) as [v|]; [|congruence].
  bo E4 x E5. apply as_verification_ok in E5. injection E4 as <-. destruct x as [x|]; [left|right]; auto.
Qed.

(** ** Messages of the server's flight *)
Lemma append_data hc b : hc_data (hc_append hc b) = hc_data hc ++ b. Proof. reflexivity. Qed.
Lemma chs_message k log s G L w m orig s' : chs_inv k log s G L ->
  match m with MEncryptedExtensions _ | MCertificateRequest _ | MCertificate _ | MCompressedCertificate _ | MCertificateVerify _ => True | _ => False end ->
  (exists hc, c_hctx s = Some hc /\ c_hctx s' = Some (hc_append hc orig)) ->
  c_read s' = c_read s -> c_write s' = c_write s -> c_ks s' = c_ks s -> c_secrets s' = c_secrets s -> c_exporter s' = c_exporter s -> c_resumption s' = c_resumption s ->
  g_client (c_neg s') = g_client (c_neg s) ->
  forall X, forallb cquiet X = true ->
  (match c_state s' with
    | CExpectingEncryptedExtensions => g_server (c_neg s') = match q_psk (y_Q G) with Some p => pk_server (cp_psk p) | None => None end
    | CExpectingCertificate => calpn k s' /\ (forall p, q_psk (y_Q G) = Some p -> pskAccepted (cp_type p) = false)
    | CExpectingCertificateVerify => calpn k s' /\ (forall p, q_psk (y_Q G) = Some p -> pskAccepted (cp_type p) = false) /\
        exists chain, c_chain s' = Some chain /\ cpresented k (y_cn G) (L ++ CRecv w (EvHandshake m orig) :: X) chain
    | CExpectingFinished => calpn k s' /\ cauthed k G (L ++ CRecv w (EvHandshake m orig) :: X) (g_server (c_neg s'))
    | _ => False
    end) ->
  chs_inv k (log ++ CRecv w (EvHandshake m orig) :: X) s' G (L ++ CRecv w (EvHandshake m orig) :: X).
Proof.
  intros [I1 I2 I3 I4 I5 I6 I7 I8 I9] Hm (hc & E1 & E2) R W K S Ex Re C X HX Hst.
  constructor; rewrite ?R, ?W, ?K, ?S, ?Ex, ?Re, ?C; auto.
  - exists (hc_append hc orig). destruct I1 as (hc0 & A & B & D). assert (hc0 = hc) by congruence. subst hc0. split; [exact E2|]. split; [exact B|].
    rewrite append_data. change (CRecv w (EvHandshake m orig) :: X) with ([CRecv w (EvHandshake m orig)] ++ X). rewrite app_assoc.
    apply ctrans_quiet; [|exact HX]. apply ctrans_recv; [exact D|]. destruct m; auto; contradiction.
  - change (CRecv w (EvHandshake m orig) :: X) with ([CRecv w (EvHandshake m orig)] ++ X). apply no_success_app; [exact I6|].
    apply no_success_app; [|apply quiet_no_success, HX]. destruct m; try contradiction; repeat split.
Qed.

(** ** Finished *)
Lemma first_message ms : forall x rest, encodeHandshake x = Ok ms -> hs_type x < 256 -> hs_type x <> 24 -> bytes_eqb (takeN 1 (ms ++ rest)) (be 1 24) = false.
Proof.
  intros x rest E H1 H2. apply encode_shape in E. destruct E as (body & _ & ->). rewrite <- app_assoc. apply first_byte; assumption.
Qed.
Lemma cfinished_ok k log s G L w vd orig s' outs : cenv_ok k -> cpast k log G L -> cfixed s G -> chs_inv k log s G L -> c_state s = CExpectingFinished ->
  chandle_finished k s vd orig = CHOk s' outs ->
  exists F tail, vd = Some (verify_data (y_h G) (q_shs (y_Q G)) (z_T F)) /\ z_L1 F = L /\ z_w F = w /\ z_orig F = orig /\ z_server F = g_server (c_neg s) /\
    z_early F = (match g_early (c_neg s) with CeAccepted => true | _ => false end) /\
    outs = z_outs G F ++ tail /\ cfinished k G F /\ cflight k s G F /\
    ((tail = [KSuccess (z_early F)] /\ (cn_ech (y_cn G) <> None -> q_ech (y_Q G) = true) /\ cfixed s' G /\
      (exists kk, c_ks s' = Some (y_h G, kk) /\ rel (y_h G) kk (Start, Some (z_tr G F 0 0))) /\
      cread_keyed k (y_h G) (y_cipher G) (server_traffic (y_h G) (z_tr G F 0 0)) (c_read s') /\
      cwrite_keyed k (y_h G) (y_cipher G) (client_traffic (y_h G) (z_tr G F 0 0)) LvAppTraffic (c_write s') /\
      c_state s' = CEstablished /\ c_exporter s' = Some (z_exporter G F) /\ c_resumption s' = Some (z_resumption G F) /\
      g_server (c_neg s') = z_server F /\ g_alpn (c_neg s') = g_alpn (c_neg s)) \/
     (c_state s' = CError /\ c_write s' = None /\ c_read s' = None /\ q_ech (y_Q G) = false /\ cn_ech (y_cn G) <> None /\
      (tail = [KError (Some al_ech_required)] \/ exists al, tail = [KWrite [al]; KError (Some al_ech_required)] /\ ct_type al = 21))).
Proof.
  intros Hk P X [(hc & G1 & G2 & G3) (kk & K1 & K2) I3 I4 I5 I6 I7 I8 I9] Hs H. rewrite Hs in I9. destruct I9 as (Ialpn & Iauth).
  unfold chandle_finished in H. rewrite G1, I3, K1 in H.
  rewrite (fx_version _ _ X), (fx_cipher _ _ X) in H. destruct (g_auth (c_neg s)) as [au|] eqn:Eau; [|discriminate].
  destruct (cno_unparsed s) as [[|]|]; try discriminate.
  assert (Hh : hash_ok (y_h G)) by (eapply (ko_hash k Hk), (co_hash _ _ _ _ (cp_of _ _ _ _ P))).
  assert (Lss : blen (q_shs (y_Q G)) = h_len (y_h G)) by (apply DeriveSecret_len, Hh).
  assert (Lcs : blen (q_chs (y_Q G)) = h_len (y_h G)) by (apply DeriveSecret_len, Hh).
  rewrite finished_ok in H by (rewrite G2; assumption). rewrite G2 in H. destruct vd as [got|]; [|discriminate].
  destruct (crypto_equal _ got) eqn:Eeq; cbn [negb] in H; [|discriminate]. apply C19_equal_iff in Eeq. subst got. cbv zeta in H.
  destruct (finished_prepare k s (hc_append hc orig) (q_chs (y_Q G)) (y_h G) kk au) as [[[[[[eoed msgs] cc] ems] rms] k1]|] eqn:Efp; [|discriminate].
  apply cwith_write_ok in H. destruct H as (wl & wl' & ct & W1 & W2 & H).
  match type of H with context [match ?x with Ok _ => _ | Err _ => _ end] => destruct x as [[[[[k3 ws] wl2] rs] rl]|] eqn:E10 end; [|discriminate].
  bo E10 k2 D1. bo E10 k3' D2. bo E10 ws' D3. bo E10 wl2' D4. bo E10 rs' D5. bo E10 rl' D6.
  assert (k3' = k3 /\ ws' = ws /\ wl2' = wl2 /\ rs' = rs /\ rl' = rl) as (-> & -> & -> & -> & ->) by (repeat split; congruence). clear E10.
  (* the flight *)
  unfold finished_prepare in Efp. bo Efp k1' P1.
  apply bind_Ok in Efp. destruct Efp as ((eoed' & hc1) & P2 & Efp). cbv beta iota in Efp.
  apply bind_Ok in Efp. destruct Efp as (((msgs' & hc2) & cc') & P3 & Efp). cbv beta iota in Efp.
  bo Efp ems' P4. apply bind_Ok in Efp. destruct Efp as ((fin & hc3) & P5 & Efp). cbv beta iota in Efp. bo Efp rms' P6.
  assert (eoed' = eoed /\ msgs' ++ [fin] = msgs /\ cc' = cc /\ ems' = ems /\ rms' = rms /\ k1' = k1) as (-> & Hmsgs & -> & -> & -> & ->) by (repeat split; congruence). clear Efp.
  rename msgs' into ms.
  set (T := hc_data hc). set (eo := match eoed with Some c => ct_plain c | None => [] end).
  assert (Heo : hc1 = mkHc (y_h G) (T ++ orig ++ eo) /\ (match eoed with Some c => is_hs c = true | None => True end) /\
     (if match g_early (c_neg s) with CeAccepted => negb (k_omitEarly k) | _ => false end
      then encodeHandshake MEndOfEarlyData = Ok eo /\ exists c wl wl', (match eoed with Some c => [c] | None => [] end) = [c] /\ ct_type c = 22 /\ ct_plain c = eo /\
             c_earlyw s = Some wl /\ wl_write wl 22 [eo] = (wl', Ok c)
      else eo = [] /\ match eoed with Some c => [c] | None => [] end = [])).
  { assert (H0 : hc_append hc orig = mkHc (y_h G) (T ++ orig ++ [])) by (unfold hc_append; rewrite G2, app_nil_r; reflexivity).
    assert (Hno : Ok (None, hc_append hc orig) = Ok (eoed, hc1) -> hc1 = mkHc (y_h G) (T ++ orig ++ eo) /\ (match eoed with Some c => is_hs c = true | None => True end) /\ eo = [] /\ match eoed with Some c => [c] | None => [] end = []).
    { intros [= <- <-]. subst eo. auto. }
    destruct (g_early (c_neg s)); try (destruct (Hno P2) as (A & B & C); auto; fail).
    destruct (k_omitEarly k); cbn [negb]; [destruct (Hno P2) as (A & B & C); auto; fail|].
    bo P2 m E1. destruct (c_earlyw s) as [wle|]; [|discriminate]. bo P2 cte E2. injection P2 as <- <-.
    destruct (wl_write wle 22 [m]) as [wle' re] eqn:E3. cbn [snd] in E2. subst re. pose proof E3 as E3'. apply wl_write_content in E3'. destruct E3' as (Y1 & Y2 & _).
    cbn [concat] in Y2. rewrite app_nil_r in Y2. subst eo. rewrite Y2. split; [unfold hc_append; cbn [hc_hash hc_data]; rewrite G2, <- app_assoc; reflexivity|].
    split; [unfold is_hs; rewrite Y1; reflexivity|]. split; [exact E1|]. exists cte, wle, wle'. auto 10. }
  destruct Heo as (-> & Heh & Heo).
  set (aut := concat ms).
  assert (Hau : hc2 = mkHc (y_h G) (T ++ orig ++ eo ++ aut) /\
    match Some au with
    | Some CaSent =>
        exists so scheme cm m sg v, c_selected s = Some (so, scheme) /\ so_message so = Ok cm /\ encodeHandshake (MCertificate cm) = Ok m /\
          so_sign so scheme CvClient (h_fn (y_h G) (T ++ orig ++ eo ++ m)) = Ok sg /\ encodeHandshake (MCertificateVerify (mkCV scheme (Some sg))) = Ok v /\ aut = m ++ v
    | Some CaNoMatch => encodeHandshake (MCertificate (mkCert (Some []) [])) = Ok aut
    | _ => aut = []
    end).
  { unfold client_auth in P3. destruct au.
    - injection P3 as <- <- _. subst aut. cbn [concat]. rewrite app_nil_r. auto.
    - destruct (c_selected s) as [[so scheme]|]; [|discriminate]. bo P3 cm E1. bo P3 m E2. cbv zeta in P3. bo P3 sg E3. bo P3 v E4. injection P3 as <- <- _.
      unfold hc_context, hc_append in *. cbn [hc_hash hc_data] in E3 |- *. subst aut. cbn [concat]. rewrite app_nil_r. rewrite <- ?app_assoc in E3. rewrite <- ?app_assoc.
      split; [reflexivity|]. exists so, scheme, cm, m, sg, v. auto 10.
    - bo P3 m E1. injection P3 as <- <- _. subst aut. unfold hc_append. cbn [concat hc_hash hc_data]. rewrite app_nil_r, <- !app_assoc. auto.
    - injection P3 as <- <- _. subst aut. cbn [concat]. rewrite app_nil_r. auto. }
  destruct Hau as (-> & Hau).
  unfold getFinished in P5. rewrite finished_ok in P5 by assumption. cbn [bind hc_hash hc_data] in P5. bo P5 fin' E1. assert (fin' = fin) by congruence. subst fin'.
  assert (hc3 = mkHc (y_h G) (T ++ orig ++ eo ++ aut ++ fin)) as -> by (injection P5 as <-; unfold hc_append; cbn [hc_hash hc_data]; rewrite <- !app_assoc; reflexivity). clear P5.
  destruct (wl_write_content _ _ _ _ _ W2) as (C1 & C2 & C3). rewrite <- Hmsgs, concat_app in C2. cbn [concat] in C2. rewrite app_nil_r in C2. fold aut in C2.
  set (cs := ccs_first k (c_ccs s) ++ match eoed with Some c => [c] | None => [] end ++ [ct]).
  set (F := mkCF L w orig T cs (match g_early (c_neg s) with CeAccepted => true | _ => false end) (g_server (c_neg s))).
  assert (Hih : is_hs ct = true) by (unfold is_hs; rewrite C1; reflexivity).
  assert (Hf : filter is_hs cs = match eoed with Some c => [c] | None => [] end ++ [ct]).
  { subst cs. rewrite filter_app, ccs_first_hs. cbn [app]. rewrite filter_app. cbn [filter]. rewrite Hih. destruct eoed as [c|]; cbn [filter]; [rewrite Heh|]; reflexivity. }
  assert (Hfl : z_fl F = eo ++ aut ++ fin).
  { unfold z_fl. cbn [z_cs F]. change (z_cs F) with cs. rewrite Hf, map_app, concat_app. cbn [map concat]. rewrite app_nil_r, C2. subst eo. destruct eoed; cbn [map concat]; rewrite ?app_nil_r; reflexivity. }
  assert (HTcf : z_Tcf F = T ++ orig ++ eo ++ aut ++ fin) by (unfold z_Tcf, z_Tsf; rewrite Hfl; cbn [z_T z_orig F]; rewrite <- app_assoc; reflexivity).
  (* the key schedule *)
  destruct (kdo_rel _ _ _ DeriveMaster _ Hh K2 Logic.I P1) as (st & o & E & R1). cbn [spec_step] in E. injection E as <- <-.
  assert (Lc : blen (hc_context (hc_append hc orig)) = h_len (y_h G)) by (rewrite hc_ctx_len; cbn [hc_append hc_hash]; rewrite G2; auto).
  assert (Ec : hc_context (hc_append hc orig) = h_fn (y_h G) (z_Tsf F)) by (unfold hc_context; cbn [hc_append hc_hash hc_data]; rewrite G2; reflexivity).
  destruct (kget_rel _ _ _ (GetMaster ExporterMaster (hc_context (hc_append hc orig))) _ Hh R1 ltac:(rewrite <- ?G2 in *; first [exact Lc|exact Logic.I|cbn; auto]) P4) as (st & E). cbn [spec_step master_spec] in E.
  assert (Eems : ems = z_exporter G F) by (unfold z_exporter, z_master; rewrite <- Ec; congruence). clear E st.
  destruct (kget_rel _ _ _ (GetMaster ResumptionMaster (hc_context (mkHc (y_h G) (T ++ orig ++ eo ++ aut ++ fin)))) _ Hh R1 ltac:(apply (hc_ctx_len (mkHc (y_h G) _) Hh)) P6) as (st & E). cbn [spec_step master_spec] in E.
  assert (Erms : rms = z_resumption G F) by (unfold z_resumption, z_master; rewrite HTcf; unfold hc_context in E; cbn [hc_hash hc_data] in E; congruence). clear E st.
  destruct (kdo_rel _ _ _ (DeriveApp (hc_context (hc_append hc orig))) _ Hh R1 ltac:(exact Lc) D1) as (st & o & E & R2). cbn [spec_step] in E.
  assert (st = (Master (q_secret (y_Q G)) (q_dh (y_Q G)), Some (z_tr G F 0 0))) as -> by (unfold z_tr; rewrite <- Ec; congruence). clear E.
  destruct (kdo_rel _ _ _ ClearMaster _ Hh R2 Logic.I D2) as (st & o2 & E & R3). cbn [spec_step] in E. injection E as <- <-.
  destruct (kget_rel _ _ _ (GetApp ClientAppTraffic) _ Hh R3 Logic.I D3) as (st & E). cbn [spec_step] in E.
  assert (Ews : ws = client_traffic (y_h G) (z_tr G F 0 0)) by congruence. clear E st.
  destruct (kget_rel _ _ _ (GetApp ServerAppTraffic) _ Hh R3 Logic.I D5) as (st & E). cbn [spec_step] in E.
  assert (Ers : rs = server_traffic (y_h G) (z_tr G F 0 0)) by congruence. clear E st.
  assert (Lws : blen ws = h_len (y_h G)) by (rewrite Ews; apply ct_len, Hh). assert (Lrs : blen rs = h_len (y_h G)) by (rewrite Ers; apply st_len, Hh).
  pose proof (cnew_write_keyed _ _ _ _ _ _ _ Hk Hh Lws D4) as Kw. destruct (cnew_read_keyed _ _ _ _ _ _ Hk Hh Lrs D6) as (Kr & _). rewrite Ews in Kw. rewrite Ers in Kr.
  exists F.
  assert (HF : cfinished k G F).
  { constructor; change (z_L1 F) with L; change (z_T F) with T; change (z_cs F) with cs.
    - rewrite <- (cp_log _ _ _ _ P). exact G3.
    - change (z_entry G F :: map CEmit (z_outs G F)) with ([z_entry G F] ++ map CEmit (z_outs G F)). rewrite !app_assoc, <- (cp_log _ _ _ _ P).
      rewrite HTcf. unfold z_outs. change (map CEmit _) with (map CEmit [KSecret (KTraffic SkServerApp) (server_traffic (y_h G) (z_tr G F 0 0)); KSecret (KTraffic SkClientApp) (client_traffic (y_h G) (z_tr G F 0 0));
        KSecret KExporter (z_exporter G F); KSecret KResumption (z_resumption G F)] ++ [CEmit (KWrite cs)]). rewrite app_assoc.
      eapply ct_snoc; [eapply ctrans_quiet; [|reflexivity]; eapply (ctrans_recv _ _ _ _ w (MFinished _) orig); [exact G3|exact Logic.I]|].
      unfold ctstep. rewrite Hf. fold T. destruct eoed as [ce|]; cbn [app].
      + split; [reflexivity|]. cbn [map concat]. rewrite app_nil_r, C2. subst eo. rewrite <- !app_assoc. reflexivity.
      + destruct I5 as (ws0 & Ew & _). rewrite Ew in W1. injection W1 as <-. destruct C3 as (C3 & _). rewrite C3. split; [reflexivity|].
        rewrite C2. subst eo. cbn [app]. rewrite <- !app_assoc. reflexivity.
    - exact Iauth.
    - unfold cis_ku_sent. assert (Hcs : cs = [ct] \/ (2 <= length cs)%nat).
      { subst cs. destruct (ccs_first k (c_ccs s)) as [|a l]; [|right; rewrite app_length; destruct eoed; cbn; lia]. destruct eoed; [right; cbn; lia|left; reflexivity]. }
      destruct Hcs as [->|Hlen]; [|destruct cs as [|a [|b l]]; cbn in Hlen; try lia; reflexivity].
      assert (Hau' : aut = [] \/ encodeHandshake (MCertificate (mkCert (Some []) [])) = Ok aut \/ exists cm m v, encodeHandshake (MCertificate cm) = Ok m /\ aut = m ++ v).
      { destruct au; auto. destruct Hau as (so & scheme & cm & m & sg & v & _ & _ & Em & _ & _ & Ea). right. right. eauto. }
      rewrite C2. destruct Hau' as [->|[Em|(cm & m & v & Em & ->)]].
      + cbn [app]. rewrite <- (app_nil_r fin). erewrite first_message; [apply andb_false_r|exact E1|reflexivity|discriminate].
      + erewrite first_message; [apply andb_false_r|exact Em|reflexivity|discriminate].
      + rewrite <- app_assoc. erewrite first_message; [apply andb_false_r|exact Em|reflexivity|discriminate]. }
  assert (HFl : cflight k s G F).
  { exists (match eoed with Some c => [c] | None => [] end), eo, aut, fin, ct. split; [reflexivity|]. split; [exact C1|].
    split. { destruct I5 as (ws0 & Ew & _). rewrite Ew in W1. injection W1 as <-. destruct C3 as (C3 & _). exact C3. }
    split; [exact C2|]. split; [exact Hfl|]. split; [exact Heo|]. unfold z_Tsf. change (z_T F) with T. change (z_orig F) with orig. rewrite <- !app_assoc.
    split; [|exact E1]. rewrite Eau. destruct au; auto. destruct Hau as (so & scheme & cm & m & sg & v & A1 & A2 & A3 & A4 & A5 & A6).
    exists so, scheme, cm, m, sg, v. rewrite <- app_assoc. auto 10. }
  rewrite Eems, Erms, Ews, Ers in H.
  match type of H with context [?a ++ [KSuccess _]] => change a with (z_outs G F) in H end.
  pose proof (fx_ech _ _ X) as Hech.
  assert (Hok : forall e, (match c_ech s with Some x => ec_status x <> CxRejected | None => True end) ->
     CHOk (mkC CEstablished (Some rl) (Some wl2) None (c_ccs s || k_compat k) None (Some (y_h G, k3)) None (c_hello s)
             (mkNegSt (Some (q_version (y_Q G))) (Some (q_cipher (y_Q G))) (g_group (c_neg s)) (g_kexType (c_neg s)) (g_psk (c_neg s)) (g_pskMode (c_neg s)) (g_early (c_neg s))
                (g_alpn (c_neg s)) (g_hsTime (c_neg s)) (g_server (c_neg s)) cc (Some au) (g_sig (c_neg s)) (g_comp (c_neg s)))
             (c_ech s) (c_chain s) None (Some (z_exporter G F)) (Some (z_resumption G F))) (z_outs G F ++ [KSuccess e]) = CHOk s' outs -> e = z_early F ->
     outs = z_outs G F ++ [KSuccess (z_early F)] /\ (cn_ech (y_cn G) <> None -> q_ech (y_Q G) = true) /\ cfixed s' G /\
      (exists kk, c_ks s' = Some (y_h G, kk) /\ rel (y_h G) kk (Start, Some (z_tr G F 0 0))) /\
      cread_keyed k (y_h G) (y_cipher G) (server_traffic (y_h G) (z_tr G F 0 0)) (c_read s') /\
      cwrite_keyed k (y_h G) (y_cipher G) (client_traffic (y_h G) (z_tr G F 0 0)) LvAppTraffic (c_write s') /\
      c_state s' = CEstablished /\ c_exporter s' = Some (z_exporter G F) /\ c_resumption s' = Some (z_resumption G F) /\
      g_server (c_neg s') = z_server F /\ g_alpn (c_neg s') = g_alpn (c_neg s)).
  { intros e Hst [= <- <-] ->. split; [reflexivity|]. split.
    - intros Hne. destruct (c_ech s) as [x|]; [|destruct Hech as [_ Hx]; congruence]. destruct Hech as [Hx _]. rewrite Hx in Hst. unfold ech_status in Hst.
      destruct (q_ech (y_Q G)); [reflexivity|congruence].
    - split; [destruct X; constructor; first [assumption|reflexivity]|]. cbn. split; [exists k3; auto|]. auto 10. }
  destruct (c_ech s) as [e|] eqn:Ee.
  - destruct (ec_status e) eqn:Est.
    + destruct (Hok _ ltac:(congruence) H eq_refl) as (-> & Ho). eexists. repeat (split; [first [reflexivity|assumption]|]). left. auto 12.
    + assert (Hq : q_ech (y_Q G) = false /\ cn_ech (y_cn G) <> None).
      { destruct Hech as [Hx Hy]. split; [|exact Hy]. unfold ech_status in Hx. destruct (q_ech (y_Q G)); congruence. }
      destruct (wl_write _ 21 [alert_bytes al_ech_required]) as [wl3 [al|er]] eqn:Eal in H; cbn [snd] in H.
      * injection H as <- <-. apply wl_write_content in Eal. destruct Eal as (Y1 & _).
        eexists. repeat (split; [first [reflexivity|assumption]|]). right. split; [reflexivity|]. split; [reflexivity|]. split; [reflexivity|]. destruct Hq as [Q1 Q2]. split; [exact Q1|]. split; [exact Q2|]. right. exists al. split; [reflexivity|exact Y1].
      * destruct er; try discriminate; injection H as <- <-;
          (eexists; repeat (split; [first [reflexivity|assumption]|]); right; split; [reflexivity|]; split; [reflexivity|]; split; [reflexivity|]; destruct Hq as [Q1 Q2]; split; [exact Q1|]; split; [exact Q2|];
           left; reflexivity).
    + destruct (Hok _ ltac:(congruence) H eq_refl) as (-> & Ho). eexists. repeat (split; [first [reflexivity|assumption]|]). left. auto 12.
  - destruct (Hok _ Logic.I H eq_refl) as (-> & Ho). eexists. repeat (split; [first [reflexivity|assumption]|]). left. auto 12.
Qed.

(** ** Steps of the machine *)
Lemma cphase_await k log s : cphase k log s -> c_state s = CExpectingServerHello -> exists A, await k log s A.
Proof.
  intros [H _|A H|G L P X I|G F L L' P X I|H _ _ _|H _] E; try (subst s; discriminate); eauto.
  - destruct I as [_ _ _ _ _ _ _ _ I]. rewrite E in I. contradiction.
  - destruct (xd_state _ _ _ _ _ _ I) as [[A _]|[A _]]; congruence.
  - congruence.
  - unfold cterminal in H. rewrite E in H. contradiction.
Qed.
Lemma cphase_hs k log s : cphase k log s ->
  match c_state s with CExpectingEncryptedExtensions | CExpectingCertificate | CExpectingCertificateVerify | CExpectingFinished => True | _ => False end ->
  exists G L, cpast k log G L /\ cfixed s G /\ chs_inv k log s G L.
Proof.
  intros [H _|A H|G L P X I|G F L L' P X I|H _ _ _|H _] E; try (subst s; contradiction); eauto.
  - rewrite (aw_state _ _ _ _ H) in E. contradiction.
  - destruct (xd_state _ _ _ _ _ _ I) as [[A _]|[A _]]; rewrite A in E; contradiction.
  - rewrite H in E. contradiction.
  - unfold cterminal in H. destruct (c_state s); contradiction.
Qed.
Lemma cphase_data k log s : cphase k log s -> c_state s = CEstablished -> exists G F L L', cpast k log G L /\ cfixed s G /\ cdata_inv k log s G F L'.
Proof.
  intros [H _|A H|G L P X I|G F L L' P X I|H _ _ _|H _] E; try (subst s; discriminate); eauto 10.
  - rewrite (aw_state _ _ _ _ H) in E. discriminate.
  - destruct I as [_ _ _ _ _ _ _ _ I]. rewrite E in I. contradiction.
  - congruence.
  - unfold cterminal in H. rewrite E in H. contradiction.
Qed.
(** Nothing happens to the handshake. *)
Lemma cphase_quiet k log s s' X : cphase k log s -> forallb cquiet X = true -> cframe s' = cframe s -> cread_like s s' -> cwrite_like s s' -> s <> c_init ->
  c_write s' = c_write s \/ c_state s <> CExpectingServerHello ->
  cphase k (log ++ X) s'.
Proof.
  intros HP HX F R W Hi Hw. destruct HP as [H1 H2|A H|G L P Fx I|G Fi L L' P Fx I|H1 H2 H3 (w0 & H4)|H Hw0].
  - contradiction.
  - eapply CPAwait. eapply await_quiet; [exact H|exact HX| |].
    + assert (c_write s' = c_write s) as E by (destruct Hw as [E|E]; [exact E|destruct (E (aw_state _ _ _ _ H))]).
      unfold cframe in F. unfold await_frame. rewrite E. assert (F1 : c_state s' = c_state s) by congruence. assert (F2 : c_hctx s' = c_hctx s) by congruence.
      assert (F3 : c_ks s' = c_ks s) by congruence. assert (F4 : c_secrets s' = c_secrets s) by congruence. assert (F5 : c_neg s' = c_neg s) by congruence.
      assert (F6 : c_hello s' = c_hello s) by congruence. assert (F7 : c_exporter s' = c_exporter s) by congruence. assert (F8 : c_resumption s' = c_resumption s) by congruence.
      assert (F9 : c_ech s' = c_ech s) by congruence. congruence.
    + destruct (aw_read _ _ _ _ H) as (r & Hr & _). destruct R as [E|R]; [|exact R]. exists r, r. rewrite E. auto.
  - eapply CPHs; [apply cpast_ext, P| |eapply chs_ext; eassumption]. unfold cframe in F. eapply cfixed_frame; [exact Fx|congruence|congruence|congruence].
  - eapply CPData; [apply cpast_ext, P| |eapply cdata_ext; [exact I|apply quiet_no_success, HX|exact F|exact R|exact W]]. unfold cframe in F. eapply cfixed_frame; [exact Fx|congruence|congruence|congruence].
  - apply CPClosing; [unfold cframe in F; congruence|eapply cwrite_like_none; eassumption|apply no_success_app; [exact H3|apply quiet_no_success, HX]|].
    exists w0. apply in_or_app. auto.
  - assert (E : c_state s' = c_state s) by (unfold cframe in F; congruence). apply CPEnd; [unfold cterminal in *; rewrite E; exact H|].
    destruct Hw0 as [E2|E2]; [left; congruence|right; eapply cwrite_like_none; eassumption].
Qed.
Lemma cwrite_like_wl s wl wl' ty q ct : c_write s = Some wl -> wl_write wl ty q = (wl', Ok ct) -> cwrite_like s (cu_write s (Some wl')).
Proof.
  intros E H. apply wl_write_content in H. destruct H as (_ & _ & H). destruct wl as [|lv ws].
  - destruct H as (_ & ->). left. symmetry. exact E.
  - destruct H as (_ & ws' & -> & K). right. exists lv, ws, ws'. auto.
Qed.
Lemma cwrite_quiet wl ty q wl' ct : wl_write wl ty q = (wl', Ok ct) -> ty <> 22 -> filter is_hs [ct] = [].
Proof.
  intros H Hn. apply wl_write_content in H. destruct H as (H & _). cbn [filter]. unfold is_hs. rewrite H. destruct (N.eqb_spec ty 22); [contradiction|reflexivity].
Qed.
Lemma cku_msg ct req m : encodeHandshake (MKeyUpdate req) = Ok m -> ct_type ct = 22 -> ct_plain ct = m -> cis_ku_sent (CEmit (KWrite [ct])) = true.
Proof.
  intros E H1 H2. apply encode_shape in E. destruct E as (body & _ & ->). unfold cis_ku_sent, is_hs. rewrite H1, H2. cbn [hs_type]. rewrite first_byte_ku. reflexivity.
Qed.
Lemma crekey_write_ok k s f s' outs : crekey_write k s f = CHOk s' outs ->
  exists h k0 version cipher k' ws wl, c_ks s = Some (h, k0) /\ g_version (c_neg s) = Some version /\ g_cipher (c_neg s) = Some cipher /\
    kdo h k0 ClientKeyUpdate = Ok k' /\ kget h k' (GetApp ClientAppTraffic) = Ok ws /\ cnew_write k h LvAppTraffic version cipher ws = Ok wl /\
    f (cu_write (cu_ks s (Some (h, k'))) (Some wl)) ws = CHOk s' outs.
Proof.
  unfold crekey_write. destruct (c_ks s) as [[h k0]|]; [|discriminate]. destruct (g_version (c_neg s)) as [version|]; [|discriminate].
  destruct (g_cipher (c_neg s)) as [cipher|]; [|discriminate].
  match goal with |- context [match ?x with Ok _ => _ | Err _ => _ end] => destruct x as [[[k' ws] wl]|] eqn:E10 end; [|discriminate].
  bo E10 k1 F1. bo E10 ws1 F2. bo E10 wl1 F3. injection E10 as -> -> ->. intros H. exists h, k0, version, cipher, k', ws, wl. auto 10.
Qed.
Lemma ccount_emit_recv o : ccount cis_ku_recv (map CEmit o) = 0%nat.
Proof. induction o as [|x o IH]; [reflexivity|]. exact IH. Qed.

Lemma chstep_preserves k log s w ev s' outs : cenv_ok k -> cphase k log s -> chstep k w s ev s' outs ->
  cphase k (log ++ centry_of w ev :: map CEmit outs) s'.
Proof.
  intros Hk HP HS. destruct HS.
  - (* connect *)
    destruct HP as [-> ->|A HA|G L P X I|G F L L' P X I|E _ _ _|E _].
    + cbn [app centry_of]. destruct (await_connect _ _ _ _ _ Hk H0) as (A & HA). eapply CPAwait, HA.
    + rewrite (aw_state _ _ _ _ HA) in H. discriminate.
    + destruct I as [_ _ _ _ _ _ _ _ I]. rewrite H in I. contradiction.
    + destruct (xd_state _ _ _ _ _ _ I) as [[A _]|[A _]]; congruence.
    + congruence.
    + unfold cterminal in E. rewrite H in E. contradiction.
  - (* HelloRetryRequest *)
    destruct (cphase_await _ _ _ HP H) as (A & HA). destruct (await_retry _ _ _ _ _ _ _ _ _ Hk HA H0) as (A' & HA'). eapply CPAwait, HA'.
  - (* ServerHello *)
    destruct (cphase_await _ _ _ HP H) as (A & HA). destruct (server_hello_facts _ _ _ _ _ _ _ _ _ Hk HA H0) as (Q & <- & <- & [B1 B2 B3 B4 B5 B6 B7 [B8 B8'] B9 B10 B11 B12 B13 B14 B15 B16 B17 B18]).
    set (G := mkCG (a_cn A) (a_w0 A) log w Q).
    assert (P : cpast k (log ++ CRecv w (EvHandshake (MServerHello (q_msg Q)) (q_sh Q)) :: map CEmit outs) G (map CEmit outs)).
    { constructor.
      - unfold y_pre, y_entry, G. cbn [y_L0 y_w y_Q]. rewrite <- app_assoc. reflexivity.
      - exact B1.
      - apply (aw_conn _ _ _ _ HA).
      - apply (aw_quiet _ _ _ _ HA).
      - cbn [y_Q y_cn G]. split; [|exact B16]. intros E. destruct (c_ech s'); [apply B15|destruct B15; congruence]. }
    assert (HX : forallb cquiet (map CEmit outs) = true) by (rewrite B18; reflexivity).
    eapply CPHs with (G := G); [exact P| |].
    + constructor; cbn [y_Q y_cn y_w G]; auto.
    + constructor; auto; unfold y_h, y_cipher; cbn [y_Q y_cn y_w G].
      * eexists. split; [exact B3|]. split; [reflexivity|]. cbn [hc_data]. assert (El : log ++ centry_of w (ERead (EvHandshake (MServerHello (q_msg Q)) (q_sh Q))) :: map CEmit outs = (log ++ [CRecv w (EvHandshake (MServerHello (q_msg Q)) (q_sh Q))]) ++ map CEmit outs) by (rewrite <- app_assoc; reflexivity). rewrite El.
        apply ctrans_quiet; [|exact HX]. apply ctrans_recv; [apply B1|exact Logic.I].
      * apply no_success_app; [apply (aw_quiet _ _ _ _ HA)|]. change (no_success ([CRecv w (EvHandshake (MServerHello (q_msg Q)) (q_sh Q))] ++ map CEmit outs)). apply no_success_app; [repeat split|apply quiet_no_success, HX].
      * rewrite B2. exact B11.
  - (* EncryptedExtensions *)
    destruct (cphase_hs _ _ _ HP) as (G & L & P & X & I); [rewrite H; exact Logic.I|].
    destruct (ee_ok _ _ _ _ _ _ _ H0) as (hl & hc & pt & [F1 F2 F3 F4 F5 (R1 & R2 & R3 & R4 & R5 & R6 & R7 & R8 & R9) F7 F8 F9 F10 F11]). cbv zeta in F7. destruct F7 as (N1 & N2 & N3 & N4 & N5 & N6 & N7 & N8).
    assert (X' : cfixed s' G).
    { destruct X as [X1 X2 X3 X4 X5 X6 X7]. constructor; try congruence.
      - rewrite N5. exact X5.
      - destruct F8 as (hl' & D1 & D2 & D3 & D4). destruct X6 as (hl0 & D5 & D6 & D7 & D8). exists hl'. repeat split; congruence.
      - destruct (c_ech s) as [e|]; [destruct F9 as (e' & -> & ->)|rewrite F9]; exact X7. }
    eapply CPHs; [apply cpast_ext, P|exact X'|].
    pose proof (xi_state _ _ _ _ _ I) as IS. rewrite H in IS. 
    refine (chs_message _ _ _ _ _ w (MEncryptedExtensions x) orig _ I Logic.I _ R1 R2 R3 R4 R6 R7 N7 _ F11 _); [exists hc; auto|].
    destruct X as [_ _ _ _ (pt' & X5 & X5') _ _]. assert (pt' = pt) by congruence. subst pt'.
    rewrite F4. destruct (pskAccepted pt) eqn:Ep; split; auto.
    + left. destruct (q_psk (y_Q G)) as [p|]; [|congruence]. exists p. subst pt. split; [reflexivity|]. split; [exact Ep|]. congruence.
    + intros p Hp. rewrite Hp in X5'. congruence.
  - (* CertificateRequest *)
    destruct (cphase_hs _ _ _ HP) as (G & L & P & X & I); [rewrite H; exact Logic.I|].
    destruct (cert_request_ok _ _ _ _ _ _ H0) as (-> & hc & sel & au & E1 & ->). pose proof (xi_state _ _ _ _ _ I) as IS. rewrite H in IS.
    eapply CPHs; [apply cpast_ext, P|destruct X; constructor; assumption|].
    eapply (chs_message _ _ _ _ _ w (MCertificateRequest m) orig _ I Logic.I); try reflexivity; [exists hc; auto|]. exact IS.
  - (* Certificate *)
    destruct (cphase_hs _ _ _ HP) as (G & L & P & X & I); [rewrite H; exact Logic.I|].
    destruct (cert_msg_ok _ _ _ _ _ _ _ _ H0) as (-> & hc & certs & au & E1 & E2 & E3 & E4 & ->). assert (E3' := E3 (y_cn G) ltac:(destruct (fx_hello _ _ X) as (hl & Z1 & _ & Z2 & _); exists hl; auto)). pose proof (xi_state _ _ _ _ _ I) as IS. rewrite H in IS.
    eapply CPHs; [apply cpast_ext, P|destruct X; constructor; assumption|].
    eapply (chs_message _ _ _ _ _ w (MCertificate m) orig _ I Logic.I); try reflexivity; [exists hc; auto|]. cbn [cu_auth c_state].
    destruct IS as (A & B). split; [exact A|]. split; [exact B|]. exists certs. split; [reflexivity|]. exists L, w, (MCertificate m), m, orig, []. split; [reflexivity|]. split; [left; reflexivity|]. auto.
  - (* CompressedCertificate *)
    destruct (cphase_hs _ _ _ HP) as (G & L & P & X & I); [rewrite H; exact Logic.I|].
    destruct (compressed_ok _ _ _ _ _ _ _ H0) as (Ha & d & Hd & H1).
    destruct (cert_msg_ok _ _ _ _ _ _ _ _ H1) as (-> & hc & certs & au & E1 & E2 & E3 & E4 & ->). assert (E3' := E3 (y_cn G) ltac:(destruct (fx_hello _ _ X) as (hl & Z1 & _ & Z2 & _); exists hl; auto)). pose proof (xi_state _ _ _ _ _ I) as IS. rewrite H in IS.
    eapply CPHs; [apply cpast_ext, P|destruct X; constructor; assumption|].
    eapply (chs_message _ _ _ _ _ w (MCompressedCertificate m) orig _ I Logic.I); try reflexivity; [exists hc; auto|]. cbn [cu_auth c_state].
    destruct IS as (A & B). split; [exact A|]. split; [exact B|]. exists certs. split; [reflexivity|]. exists L, w, (MCompressedCertificate m), d, orig, []. split; [reflexivity|]. split; [right; exists m; auto|]. auto.
  - (* CertificateVerify *)
    destruct (cphase_hs _ _ _ HP) as (G & L & P & X & I); [rewrite H; exact Logic.I|].
    destruct (cverify_ok _ _ _ _ _ _ H0) as (-> & hc & hl & leaf & rest & sg & c & E1 & E2 & E3 & E4 & E5 & E6 & E7 & ->). pose proof (xi_state _ _ _ _ _ I) as IS. rewrite H in IS.
    eapply CPHs; [apply cpast_ext, P|destruct X; constructor; assumption|].
    eapply (chs_message _ _ _ _ _ w (MCertificateVerify m) orig _ I Logic.I); try reflexivity; [exists hc; auto|]. cbn [cu_auth c_state c_neg g_server].
    destruct IS as (A & B & ch & C & (L1 & w1 & x & mm & o1 & L2 & D1 & D2 & D3 & D4 & D5)). split; [exact A|]. right. split; [exact B|]. exists c. split; [reflexivity|].
    destruct (fx_hello _ _ X) as (hl0 & Y1 & Y2 & _). assert (hl0 = hl) by congruence. subst hl0. rewrite Y2 in E7.
    assert (ch = leaf :: rest) by congruence. subst ch. destruct (xi_hctx _ _ _ _ _ I) as (hc0 & Z1 & Z2 & Z3). assert (hc0 = hc) by congruence. subst hc0.
    exists L1, w1, x, mm, o1, L2, w, m, orig, [], leaf, rest, sg, (hc_data hc). split; [rewrite D1, <- app_assoc; reflexivity|].
    split; [exact D2|]. split; [exact D3|]. split; [exact D4|]. split; [exact E4|]. split; [exact E5|]. split; [rewrite <- D1, <- (cp_log _ _ _ _ P); exact Z3|].
    split; [unfold hc_context in E6; rewrite Z2 in E6; exact E6|exact E7].
  - (* Finished *)
    destruct (cphase_hs _ _ _ HP) as (G & L & P & X & I); [rewrite H; exact Logic.I|].
    destruct (cfinished_ok _ _ _ _ _ w _ _ _ _ Hk P X I H H0) as (F & tail & -> & <- & <- & <- & Fs & Fe & -> & HF & HFl & [(-> & C1 & C2 & C3 & C4 & C5 & C6 & C7 & C8 & C9 & C10)|(C1 & C2 & C3 & C4 & C5)]).
    + assert (Hns : no_success (map CEmit (z_outs G F))).
      { split; [reflexivity|]. split; [apply ccount_emit_recv|]. unfold ccount. change (map CEmit (z_outs G F)) with (map CEmit (firstn 4 (z_outs G F)) ++ [CEmit (KWrite (z_cs F))]).
        rewrite filter_app. cbn [filter firstn z_outs map]. change (cis_ku_sent (CEmit (KSecret (KTraffic SkServerApp) (server_traffic (y_h G) (z_tr G F 0 0))))) with false.
        change (cis_ku_sent (CEmit (KSecret (KTraffic SkClientApp) (client_traffic (y_h G) (z_tr G F 0 0))))) with false.
        change (cis_ku_sent (CEmit (KSecret KExporter (z_exporter G F)))) with false. change (cis_ku_sent (CEmit (KSecret KResumption (z_resumption G F)))) with false.
        rewrite (zf_ku _ _ _ HF). reflexivity. }
      assert (N1 : ccount cis_success (log ++ z_entry G F :: map CEmit (z_outs G F ++ [KSuccess (z_early F)])) = 1%nat /\
                   ccount cis_ku_recv (log ++ z_entry G F :: map CEmit (z_outs G F ++ [KSuccess (z_early F)])) = 0%nat /\
                   ccount cis_ku_sent (log ++ z_entry G F :: map CEmit (z_outs G F ++ [KSuccess (z_early F)])) = 0%nat).
      { destruct (xi_quiet _ _ _ _ _ I) as (Y1 & Y2 & Y3). destruct Hns as (M1 & M2 & M3).
        change (z_entry G F :: map CEmit (z_outs G F ++ [KSuccess (z_early F)])) with ([z_entry G F] ++ map CEmit (z_outs G F ++ [KSuccess (z_early F)])).
        rewrite map_app, !ccount_app, Y1, Y2, Y3, M1, M2, M3. repeat split. }
      destruct N1 as (N1 & N2 & N3).
      eapply CPData with (G := G) (F := F) (L' := []); [apply cpast_ext, P|exact C2|].
      change (CRecv (z_w F) (EvHandshake (MFinished (Some (verify_data (y_h G) (q_shs (y_Q G)) (z_T F)))) (z_orig F))) with (z_entry G F).
      constructor; cbn [centry_of]; change (CRecv (z_w F) (EvHandshake (MFinished (Some (verify_data (y_h G) (q_shs (y_Q G)) (z_T F)))) (z_orig F))) with (z_entry G F); rewrite ?N1, ?N2, ?N3; auto.
      * rewrite app_nil_r. rewrite (cp_log _ _ _ _ P) at 1. rewrite <- app_assoc. reflexivity.
      * pose proof (xi_state _ _ _ _ _ I) as IS. rewrite H in IS. destruct IS as (A & _). unfold calpn in *. rewrite C10. exact A.
    + apply CPEnd; [unfold cterminal; rewrite C1; exact Logic.I|right; exact C2].
  - (* NewSessionTicket *)
    destruct (cphase_data _ _ _ HP H) as (G & F & L & L' & P & X & I). unfold handle_ticket in H0.
    assert (s' = s /\ exists p, outs = [KNewPsk p]) as (-> & p & ->).
    { destruct (c_ks s) as [[h0 kk]|]; [|discriminate]. destruct (c_resumption s); [|discriminate]. destruct (g_version _); [|discriminate]. destruct (g_cipher _); [|discriminate].
      destruct (g_hsTime _); [|discriminate]. bo H0 n1 E1. bo H0 n2 E2. bo H0 n3 E3. bo H0 n4 E4. bo H0 n5 E5. cbv zeta in H0. injection H0 as <- <-. eauto. }
    eapply CPData; [apply cpast_ext, P|exact X|]. eapply cdata_ext; [exact I| |reflexivity|left; reflexivity|left; reflexivity]. repeat split.
  - (* delivery *)
    eapply cphase_quiet; [exact HP|reflexivity|reflexivity|left; reflexivity|left; reflexivity|intros ->; destruct H; discriminate|left; reflexivity].
  - (* write *)
    eapply cphase_quiet; [exact HP| |reflexivity|left; reflexivity|eapply cwrite_like_wl; eassumption|intros ->; discriminate|right; congruence].
    cbn [centry_of map forallb cquiet]. rewrite (cwrite_quiet _ _ _ _ _ H1) by discriminate. reflexivity.
  - eapply cphase_quiet; [exact HP| |reflexivity|left; reflexivity|eapply cwrite_like_wl; eassumption|intros ->; discriminate|right; congruence].
    cbn [centry_of map forallb cquiet]. rewrite (cwrite_quiet _ _ _ _ _ H2) by discriminate. reflexivity.
  - (* early write ignored *)
    eapply cphase_quiet; [exact HP|reflexivity|reflexivity|left; reflexivity|left; reflexivity|intros ->; cbn in H; intuition discriminate|left; reflexivity].
  - (* early write *)
    eapply cphase_quiet; [exact HP| |reflexivity|left; reflexivity|left; reflexivity|intros ->; cbn in H; intuition discriminate|left; reflexivity].
    cbn [centry_of map forallb cquiet]. rewrite filter_app, ccs_first_hs. rewrite (cwrite_quiet _ _ _ _ _ H3) by discriminate. reflexivity.
  - (* KeyUpdateInitiation *)
    destruct (cphase_data _ _ _ HP H) as (G & F & L & L' & P & X & I). unfold chandle_ku_init in H0.
    destruct (cno_unparsed s) as [[|]|]; try discriminate. destruct (encodeHandshake (MKeyUpdate req)) as [m|] eqn:Em; [|discriminate].
    apply cwith_write_ok in H0. destruct H0 as (wl & wl' & ct & G1 & G2 & H0).
    apply crekey_write_ok in H0. destruct H0 as (h & k0 & version & cipher & k' & ws & wl2 & R1 & R2 & R3 & R4 & R5 & R6 & [= <- <-]).
    destruct (wl_write_content _ _ _ _ _ G2) as (C1 & C2 & C3). cbn [concat] in C2. rewrite app_nil_r in C2. pose proof (cku_msg ct _ _ Em C1 C2) as Hku.
    destruct I as [I1 I2 (kk & Q1 & Q2) I4 I5 I6 I7 I8 I9 I10 I11].
    cbn [cu_write cu_layers c_ks c_neg] in R1, R2, R3. pose proof (fx_cipher _ _ X) as Fc. assert (h = y_h G /\ k0 = kk /\ cipher = y_cipher G) as (-> & -> & ->) by (unfold y_cipher; repeat split; congruence).
    assert (Hh : hash_ok (y_h G)) by (eapply (ko_hash k Hk), (co_hash _ _ _ _ (cp_of _ _ _ _ P))).
    destruct (kdo_rel _ _ _ ClientKeyUpdate _ Hh Q2 Logic.I R4) as (st & o & E & Hk'). cbn [spec_step z_tr tr_psk tr_dh tr_hash tr_c tr_s] in E.
    assert (st = (Start, Some (z_tr G F (S (ccount cis_ku_sent log)) (ccount cis_ku_recv log)))) as -> by (unfold z_tr; congruence). clear E.
    destruct (kget_rel _ _ _ (GetApp ClientAppTraffic) _ Hh Hk' Logic.I R5) as (st & E). cbn [spec_step] in E.
    assert (Ea : ws = client_traffic (y_h G) (z_tr G F (S (ccount cis_ku_sent log)) (ccount cis_ku_recv log))) by congruence. clear E st.
    assert (La : blen ws = h_len (y_h G)) by (rewrite Ea; apply ct_len, Hh).
    pose proof (cnew_write_keyed _ _ _ _ _ _ _ Hk Hh La R6) as Kw. rewrite Ea in Kw.
    set (Y := centry_of w (EKeyUpdate req) :: map CEmit [KSecret (KTraffic SkClientApp) ws; KWrite [ct]]).
    assert (Zr : ccount cis_ku_recv (log ++ Y) = ccount cis_ku_recv log) by (rewrite ccount_app; apply Nat.add_0_r).
    assert (Zs : ccount cis_ku_sent (log ++ Y) = S (ccount cis_ku_sent log)).
    { rewrite ccount_app. unfold ccount at 2, Y. cbn [centry_of map filter]. change (cis_ku_sent (CEmit (KSecret (KTraffic SkClientApp) ws))) with false.
      change (cis_ku_sent (CCall w (JKeyUpdate req))) with false. rewrite Hku. cbn [length]. rewrite Nat.add_1_r. reflexivity. }
    eapply CPData with (F := F) (L' := L' ++ Y); [apply cpast_ext, P|destruct X; constructor; assumption|].
    constructor; rewrite ?Zr, ?Zs; auto.
    + rewrite I1, <- !app_assoc. cbn [app]. rewrite <- !app_assoc. reflexivity.
    + exists k'. auto.
    + rewrite ccount_app, I11. reflexivity.
  - (* KeyUpdate *)
    destruct (cphase_data _ _ _ HP H) as (G & F & L & L' & P & X & I). unfold chandle_ku in H0.
    destruct (cno_unparsed s) as [[|]|]; try discriminate.
    destruct I as [I1 I2 (kk & Q1 & Q2) I4 I5 I6 I7 I8 I9 I10 I11].
    rewrite Q1, (fx_version _ _ X), (fx_cipher _ _ X) in H0.
    match type of H0 with context [match ?x with Ok _ => _ | Err _ => _ end] => destruct x as [[[k' rs] rl]|] eqn:E10 end; [|discriminate].
    bo E10 k1 F1. bo E10 rs1 F2. bo E10 rl1 F3. injection E10 as -> -> ->.
    assert (Hh : hash_ok (y_h G)) by (eapply (ko_hash k Hk), (co_hash _ _ _ _ (cp_of _ _ _ _ P))).
    destruct (kdo_rel _ _ _ ServerKeyUpdate _ Hh Q2 Logic.I F1) as (st & o & E & Hk'). cbn [spec_step z_tr tr_psk tr_dh tr_hash tr_c tr_s] in E.
    assert (st = (Start, Some (z_tr G F (ccount cis_ku_sent log) (S (ccount cis_ku_recv log))))) as -> by (unfold z_tr; congruence). clear E.
    destruct (kget_rel _ _ _ (GetApp ServerAppTraffic) _ Hh Hk' Logic.I F2) as (st & E). cbn [spec_step] in E.
    assert (Ec : rs = server_traffic (y_h G) (z_tr G F (ccount cis_ku_sent log) (S (ccount cis_ku_recv log)))) by congruence. clear E st.
    assert (Lc : blen rs = h_len (y_h G)) by (rewrite Ec; apply st_len, Hh).
    destruct (cnew_read_keyed _ _ _ _ _ _ Hk Hh Lc F3) as (Kr & _). rewrite Ec in Kr.
    assert (Zr : forall o, ccount cis_ku_recv (log ++ centry_of w (ERead (EvHandshake (MKeyUpdate req) orig)) :: map CEmit o) = S (ccount cis_ku_recv log)).
    { intros l. rewrite !ccount_app. change (ccount cis_ku_recv (centry_of w (ERead (EvHandshake (MKeyUpdate req) orig)) :: map CEmit l)) with (S (ccount cis_ku_recv (map CEmit l))).
      rewrite ccount_emit_recv. lia. }
    destruct (req =? 0).
    + injection H0 as <- <-. set (Y := centry_of w (ERead (EvHandshake (MKeyUpdate req) orig)) :: map CEmit [KSecret (KTraffic SkServerApp) rs]).
      assert (Zs : ccount cis_ku_sent (log ++ Y) = ccount cis_ku_sent log) by (rewrite ccount_app; apply Nat.add_0_r).
      assert (Zr' : ccount cis_ku_recv (log ++ Y) = S (ccount cis_ku_recv log)) by apply Zr.
      destruct I5 as [I5|[E _]]; [|congruence].
      eapply CPData with (F := F) (L' := L' ++ Y); [apply cpast_ext, P|destruct X; constructor; assumption|].
      constructor; rewrite ?Zr', ?Zs; auto.
      * rewrite I1, <- !app_assoc. cbn [app]. rewrite <- !app_assoc. reflexivity.
      * exists k'. auto.
      * rewrite ccount_app, I11. reflexivity.
    + destruct (encodeHandshake (MKeyUpdate 0)) as [m|] eqn:Em; [|discriminate].
      apply cwith_write_ok in H0. destruct H0 as (wl & wl' & ct & G1 & G2 & H0).
      apply crekey_write_ok in H0. destruct H0 as (h & k0 & version & cipher & k'' & ws & wl2 & R1 & R2 & R3 & R4 & R5 & R6 & [= <- <-]).
      destruct (wl_write_content _ _ _ _ _ G2) as (C1 & C2 & C3). cbn [concat] in C2. rewrite app_nil_r in C2. pose proof (cku_msg ct _ _ Em C1 C2) as Hku.
      cbn [cu_write cu_layers cu_ks c_ks c_neg] in R1, R2, R3. pose proof (fx_cipher _ _ X) as Fc. assert (h = y_h G /\ k0 = k' /\ cipher = y_cipher G) as (-> & -> & ->) by (unfold y_cipher; repeat split; congruence).
      destruct (kdo_rel _ _ _ ClientKeyUpdate _ Hh Hk' Logic.I R4) as (st & o2 & E & Hk2). cbn [spec_step z_tr tr_psk tr_dh tr_hash tr_c tr_s] in E.
      assert (st = (Start, Some (z_tr G F (S (ccount cis_ku_sent log)) (S (ccount cis_ku_recv log))))) as -> by (unfold z_tr; congruence). clear E.
      destruct (kget_rel _ _ _ (GetApp ClientAppTraffic) _ Hh Hk2 Logic.I R5) as (st & E). cbn [spec_step] in E.
      assert (Ea : ws = client_traffic (y_h G) (z_tr G F (S (ccount cis_ku_sent log)) (S (ccount cis_ku_recv log)))) by congruence. clear E st.
      assert (La : blen ws = h_len (y_h G)) by (rewrite Ea; apply ct_len, Hh).
      pose proof (cnew_write_keyed _ _ _ _ _ _ _ Hk Hh La R6) as Kw. rewrite Ea in Kw.
      set (Y := centry_of w (ERead (EvHandshake (MKeyUpdate req) orig)) :: map CEmit [KSecret (KTraffic SkServerApp) rs; KSecret (KTraffic SkClientApp) ws; KWrite [ct]]).
      assert (Zr' : ccount cis_ku_recv (log ++ Y) = S (ccount cis_ku_recv log)) by apply Zr.
      assert (Zs : ccount cis_ku_sent (log ++ Y) = S (ccount cis_ku_sent log)).
      { rewrite ccount_app. unfold ccount at 2, Y. cbn [centry_of map filter]. change (cis_ku_sent (CEmit (KSecret (KTraffic SkClientApp) ws))) with false.
        change (cis_ku_sent (CEmit (KSecret (KTraffic SkServerApp) rs))) with false. change (cis_ku_sent (CRecv w (EvHandshake (MKeyUpdate req) orig))) with false. rewrite Hku. cbn [length]. rewrite Nat.add_1_r. reflexivity. }
      eapply CPData with (F := F) (L' := L' ++ Y); [apply cpast_ext, P|destruct X; constructor; assumption|].
      constructor; rewrite ?Zr', ?Zs; auto.
      * rewrite I1, <- !app_assoc. cbn [app]. rewrite <- !app_assoc. reflexivity.
      * exists k''. auto.
      * rewrite ccount_app, I11. reflexivity.
  - (* close_notify *)
    unfold chandle_close in H0. destruct (cno_unparsed s) as [[|]|]; try discriminate. destruct reply.
    + apply cwith_write_ok in H0. destruct H0 as (wl & wl' & ct & G1 & G2 & [= <- <-]). apply CPEnd; [exact Logic.I|right; reflexivity].
    + injection H0 as <- <-. apply CPEnd; [exact Logic.I|right; reflexivity].
Qed.

(** ** All steps, all connections *)
Lemma ccall_entry w i ev : ccall_of i = Some ev -> centry_of w ev = CCall w i.
Proof. destruct i; cbn; try discriminate; intros [= <-]; reflexivity. Qed.
Lemma cphase_read k log s r r' : cphase k log s -> c_read s = Some r -> layer_key (ev_layer r') = layer_key (ev_layer r) -> cphase k log (cu_read s (Some r')).
Proof.
  intros HP Hr Hk. rewrite <- (app_nil_r log). eapply cphase_quiet; [exact HP|reflexivity|reflexivity| |left; reflexivity|intros ->; discriminate|left; reflexivity].
  right. exists r, r'. auto.
Qed.
Lemma cno_success_write ct : ct_type ct = 21 -> no_success [CEmit (KWrite [ct])].
Proof. intros H. split; [reflexivity|]. split; [reflexivity|]. unfold ccount. cbn [filter cis_ku_sent]. unfold is_hs. rewrite H. reflexivity. Qed.
Lemma chandle_error_terminal s a s' outs : chandle_error s a = (s', outs) -> cterminal s'.
Proof.
  unfold chandle_error, cterminal. destruct (c_state s) eqn:Es.
  all: try (intros [= <- _]; rewrite Es; exact Logic.I).
  all: destruct a as [d|]; [|intros [= <- _]; exact Logic.I].
  all: destruct (c_write s) as [wl|]; [|intros [= <- _]; exact Logic.I].
  all: destruct (wl_write wl 21 [alert_bytes d]) as [wl' [ct|[]]]; cbn [snd]; intros [= <- _]; exact Logic.I.
Qed.
Lemma cimmediate_terminal s s' outs : capp_close_immediate s = (s', outs) -> cterminal s'.
Proof.
  unfold capp_close_immediate. destruct (c_write s) as [wl|]; [|intros [= <- _]; exact Logic.I].
  destruct (wl_write wl 21 [alert_bytes 0]) as [wl' [ct|er]]; [intros [= <- _]; exact Logic.I|]. unfold cclose_failed.
  destruct er as [[a|]| | | |]; try (apply chandle_error_terminal); intros [= <- _]; exact Logic.I.
Qed.
Lemma cstep_preserves k log s w i s' outs : cenv_ok k -> cphase k log s -> cstep k w s i = (s', outs) ->
  cphase k (log ++ cinput_log w s i ++ map CEmit outs) s'.
Proof.
  intros Hk HP H. assert (H' := H). apply cstep_cases in H. destruct H as [ev R1 R2 R3|r b r' b' x R1 R2 R3 R4 R5|r b r' b' hint R1 R2 R3 R4 R5 R6|R1 R2 R3 R4 R5|a R1 R2 R3 R4|R1 R2|R1 R2 R3 R4 R5].
  - rewrite R1, <- (ccall_entry _ _ _ R2). exact (chstep_preserves _ _ _ _ _ _ _ Hk HP R3).
  - rewrite R4. assert (HP1 : cphase k log (cu_read s (Some r'))) by (eapply cphase_read; [exact HP|exact R2|eapply read_event_key; rewrite R3; reflexivity]).
    exact (chstep_preserves _ _ _ _ _ _ _ Hk HP1 R5).
  - subst s' outs. rewrite R4. eapply cphase_quiet; [exact HP|reflexivity|reflexivity| |left; reflexivity|intros ->; discriminate|left; reflexivity].
    right. exists r, r'. split; [exact R2|]. split; [reflexivity|]. eapply read_event_key. rewrite R3. reflexivity.
  - apply CPEnd; [unfold cterminal; rewrite R2; exact Logic.I|right; exact R3].
  - apply CPEnd; [unfold cterminal; rewrite R2; exact Logic.I|]. right. apply R3.
    destruct HP as [-> _|A HA|G L P Fx I|G Fi L L' P Fx I|H1 H2 H3 (w0 & H4)|Ht [Hc|Hc]]; try congruence; try discriminate.
    + rewrite (aw_state _ _ _ _ HA) in R1. discriminate.
    + destruct I as [_ _ _ _ _ _ _ _ I]. rewrite R1 in I. contradiction.
    + destruct (xd_state _ _ _ _ _ _ I) as [[A _]|[A _]]; congruence.
  - apply CPEnd; [unfold cterminal; rewrite R1; exact Logic.I|left; exact R1].
  - assert (Hend : cterminal s' -> cphase k (log ++ cinput_log w s i ++ map CEmit outs) s') by (intros Ht; apply CPEnd; [exact Ht|right; exact R4]).
    destruct R3 as [E|E]; [|apply Hend; unfold cterminal; rewrite E; exact Logic.I]. rewrite R1. rewrite R1 in Hend. cbn [app] in Hend |- *.
    assert (Hc : c_state s <> CCrash) by (intros Ec; unfold cinput_log in R1; rewrite Ec in R1; discriminate).
    destruct R2 as [Ei|Ei]; subst i.
    2:{ apply Hend. eapply cimmediate_terminal. unfold cstep in H'. destruct (c_state s); try exact H'. contradiction. }
    assert (Hc' : capp_close s = (s', outs)) by (unfold cstep in H'; destruct (c_state s); try exact H'; contradiction). clear H'.
    assert (Hw : c_write s = None -> cterminal s').
    { intros Ew. unfold capp_close in Hc'. rewrite Ew in Hc'. injection Hc' as <- _. exact Logic.I. }
    assert (Hns : no_success (CCall w JAppClose :: map CEmit outs)).
    { destruct R5 as [->|(wl & ct & _ & Ect & ->)]; [repeat split|]. change (no_success ([CCall w JAppClose] ++ [CEmit (KWrite [ct])])). apply no_success_app; [repeat split|].
      apply cno_success_write. rewrite Ect. reflexivity. }
    assert (Hin : forall l : list centry, exists w0, In (CCall w0 JAppClose) (l ++ CCall w JAppClose :: map CEmit outs)) by (intros l; exists w; apply in_or_app; right; left; reflexivity).
    destruct HP as [-> ->|A HA|G L P Fx I|G Fi L L' P Fx I|H1 H2 H3 (w0 & H4)|Ht [Ht'|Ht']].
    + apply Hend, Hw. reflexivity.
    + subst s'. apply CPClosing; [reflexivity|reflexivity| |apply Hin]. apply no_success_app; [apply (aw_quiet _ _ _ _ HA)|exact Hns].
    + subst s'. apply CPClosing; [reflexivity|reflexivity| |apply Hin]. apply no_success_app; [apply (xi_quiet _ _ _ _ _ I)|exact Hns].
    + subst s'. eapply CPData with (F := Fi) (L' := L' ++ CCall w JAppClose :: map CEmit outs); [apply cpast_ext, P|destruct Fx; constructor; assumption|].
      destruct I as [I1 I2 I3 I4 I5 I6 I7 I8 I9 I10 I11]. destruct Hns as (X1 & X2 & X3).
      constructor; rewrite ?ccount_app, ?X1, ?X2, ?X3, ?Nat.add_0_r; auto.
      rewrite I1, <- !app_assoc. cbn [app]. rewrite <- !app_assoc. reflexivity.
    + apply Hend, Hw, H2.
    + contradiction.
    + apply Hend, Hw, Ht'.
Qed.
Theorem creach_phase k l s log : cenv_ok k -> creach k l s log -> cphase k log s.
Proof.
  intros Hk H. pattern s, log. eapply creach_rect; [| |exact H].
  - apply CPInit; reflexivity.
  - intros. eapply cstep_preserves; eassumption.
Qed.
