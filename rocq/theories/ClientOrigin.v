(** * Where the actions of a client connection come from *)
From Verif Require Import Base Codec CodecSpec Str Hkdf HkdfSpec HkdfProofs KeySched KeySchedSpec KeySchedProofs Handshake Extensions RecordBase Record
  RecordRT ReadEvent HelloChecks Cookie Token Negotiate Ticket PskSer Kex Hpke Transcript IOBufUtil PropsIOBuf EchConfirm HpkeUtils EchCrypt Server
  ServerSpec ServerFacts ServerSteps ServerFlight ServerInv ServerPreserve ExtensionsSpec ExtensionsProofs PropsCodec PropsEch Client ClientSpec ClientSteps ClientHello
  ClientInv ClientAwait ClientFlight ClientPhase ClientPreserve.
Open Scope N_scope.

(** Actions outside of handlers: waiting, errors and alerts. *)
Definition cdull (o : cout) : Prop :=
  (exists n, o = KWait n) \/ (exists a, o = KError a) \/ exists ct, o = KWrite [ct] /\ ct_type ct = 21.
Lemma cread_phase k log s r r' b b' x : cphase k log s -> c_read s = Some r -> read_event r b = RMsg r' b' x -> cphase k log (cu_read s (Some r')).
Proof. intros HP R2 R3. eapply cphase_read; [exact HP|exact R2|eapply read_event_key; rewrite R3; reflexivity]. Qed.
Lemma one_elem {A} (x y : A) pre post : [y] = pre ++ x :: post -> pre = [] /\ post = [] /\ x = y.
Proof. destruct pre as [|a [|b pre]]; intros H; try discriminate; injection H; intros; subst; auto. Qed.
Lemma cemit_chstep k l s log L1 o L2 : cenv_ok k -> creach k l s log -> log = L1 ++ CEmit o :: L2 ->
  (exists l1 s0 log1 s1 w ev s2 pre post L3, creach k l1 s0 log1 /\ c_state s0 = c_state s1 /\ c_neg s0 = c_neg s1 /\ cphase k log1 s1 /\
     chstep k w s1 ev s2 (pre ++ o :: post) /\ L1 = log1 ++ centry_of w ev :: map CEmit pre /\ L2 = map CEmit post ++ L3) \/ cdull o.
Proof.
  intros Hk H Hl. destruct (cemit_origin _ _ _ _ _ _ _ H Hl) as (l1 & s1 & log1 & w & i & s2 & outs & pre & post & L3 & H1 & H2 & -> & -> & HL3).
  pose proof (creach_phase _ _ _ _ Hk H1) as HP. apply cstep_cases in H2.
  destruct H2 as [ev R1 R2 R3|r b r' b' x R1 R2 R3 R4 R5|r b r' b' hint R1 R2 R3 R4 R5 R6|R1 R2 R3 R4 R5|a R1 R2 R3 R4|R1 R2|R1 R2 R3 R4 R5].
  - left. exists l1, s1, log1, s1, w, ev, s2, pre, post, L3. rewrite R1, (ccall_entry _ _ _ R2). auto 10.
  - left. exists l1, s1, log1, (cu_read s1 (Some r')), w, (ERead x), s2, pre, post, L3. rewrite R4.
    split; [exact H1|]. split; [reflexivity|]. split; [reflexivity|]. split; [eapply cread_phase; eassumption|auto].
  - right. symmetry in R6. apply one_elem in R6. destruct R6 as (_ & _ & ->). left. eauto.
  - right. destruct R5 as (a & [E|(d & ct & wl & _ & _ & Ec & E)]).
    + symmetry in E. apply one_elem in E. destruct E as (_ & _ & ->). right. left. eauto.
    + destruct pre as [|? [|? [|? ?]]]; try discriminate.
      * injection E as -> _. right. right. exists ct. split; [reflexivity|]. rewrite Ec. reflexivity.
      * injection E as _ -> _. right. left. eauto.
  - right. symmetry in R4. apply one_elem in R4. destruct R4 as (_ & _ & ->). right. left. eauto.
  - destruct pre; discriminate.
  - right. destruct R5 as [E|(wl & ct & _ & Ec & E)]; [destruct pre; discriminate|].
    symmetry in E. apply one_elem in E. destruct E as (_ & _ & ->). right. right. exists ct. split; [reflexivity|]. rewrite Ec. reflexivity.
Qed.

Definition chs_msg (m : hsmsg) : Prop :=
  match m with MCertificateRequest _ | MCertificate _ | MCompressedCertificate _ | MCertificateVerify _ => True | _ => False end.
(** What each handler does, with the invariant before it (connect, HelloRetryRequest, ServerHello: after it). *)
Inductive cacts (k : cenv) (log : list centry) (w : cworld) (s : cstate) : cevent -> cstate -> list cout -> Prop :=
| KA_connect cn s' d enc rest A : s = c_init -> log = [] -> handle_connect k w c_init cn = Ok (s', KWrite [mkContent LvPlaintext 22 d enc] :: rest) ->
    (rest = [] \/ exists t mx x, rest = [KSecret (KTraffic SkEarly) t; KEarlySuccess mx; KSecret KEarlyExporter x]) ->
    await k (CCall w (JConnect cn) :: map CEmit (KWrite [mkContent LvPlaintext 22 d enc] :: rest)) s' A -> a_cn A = cn -> a_enc A = enc ->
    cacts k log w s (EConnect cn) s' (KWrite [mkContent LvPlaintext 22 d enc] :: rest)
| KA_retry m orig s' ct A A' : await k log s A -> handle_retry k w s m orig = Ok (s', [KWrite (ccs_first k (c_ccs s) ++ [ct])]) ->
    ct_type ct = 22 -> ct_level ct = LvPlaintext -> ct_plain ct = a_enc A' ->
    await k (log ++ [CRecv w (EvHandshake (MHelloRetryRequest m) orig); CEmit (KWrite (ccs_first k (c_ccs s) ++ [ct]))]) s' A' ->
    cacts k log w s (ERead (EvHandshake (MHelloRetryRequest m) orig)) s' [KWrite (ccs_first k (c_ccs s) ++ [ct])]
| KA_hello m orig s' outs A Q : await k log s A -> handle_server_hello k w s m orig = Ok (s', outs) ->
    q_msg Q = m -> q_sh Q = orig -> after_hello k log A w Q s' outs ->
    cacts k log w s (ERead (EvHandshake (MServerHello m) orig)) s' outs
| KA_ee x orig s' outs G L : c_state s = CExpectingEncryptedExtensions -> cpast k log G L -> cfixed s G -> chs_inv k log s G L ->
    handle_ee k w s x orig = Ok (s', outs) -> (outs = [] \/ exists n cs, outs = [KEchRetry n cs]) ->
    cacts k log w s (ERead (EvHandshake (MEncryptedExtensions x) orig)) s' outs
| KA_msg m orig s' G L : cpast k log G L -> cfixed s G -> chs_inv k log s G L -> chs_msg m -> chstep k w s (ERead (EvHandshake m orig)) s' [] ->
    cacts k log w s (ERead (EvHandshake m orig)) s' []
| KA_finished vd orig s' G L F tail : c_state s = CExpectingFinished -> cpast k log G L -> cfixed s G -> chs_inv k log s G L ->
    chandle_finished k s vd orig = CHOk s' (z_outs G F ++ tail) ->
    vd = Some (verify_data (y_h G) (q_shs (y_Q G)) (z_T F)) -> z_L1 F = L -> z_w F = w -> z_orig F = orig -> z_server F = g_server (c_neg s) ->
    z_early F = (match g_early (c_neg s) with CeAccepted => true | _ => false end) -> cfinished k G F -> cflight k s G F ->
    ((tail = [KSuccess (z_early F)] /\ (cn_ech (y_cn G) <> None -> q_ech (y_Q G) = true) /\ c_state s' = CEstablished) \/
     (c_state s' = CError /\ c_write s' = None /\ c_read s' = None /\ q_ech (y_Q G) = false /\ cn_ech (y_cn G) <> None /\
      (tail = [KError (Some al_ech_required)] \/ exists al, tail = [KWrite [al]; KError (Some al_ech_required)] /\ ct_type al = 21))) ->
    cacts k log w s (ERead (EvHandshake (MFinished vd) orig)) s' (z_outs G F ++ tail)
| KA_ticket m orig p G F L L' : c_state s = CEstablished -> cpast k log G L -> cfixed s G -> cdata_inv k log s G F L' ->
    handle_ticket k w s m = Ok (s, [KNewPsk p]) ->
    cacts k log w s (ERead (EvHandshake (MNewSessionTicket m) orig)) s [KNewPsk p]
| KA_deliver d : (c_state s = CEstablished \/ c_state s = CWriteSideClosed) -> cacts k log w s (ERead (EvAppData d)) s [KDeliver d]
| KA_write q ev wl wl' ct G F L L' : c_state s = CEstablished -> cpast k log G L -> cfixed s G -> cdata_inv k log s G F L' ->
    (ev = EAppWrite q \/ (ev = EEarlyAppWrite q /\ g_early (c_neg s) = CeAccepted)) ->
    c_write s = Some wl -> wl_write wl 23 q = (wl', Ok ct) -> ct_type ct = 23 -> ct_plain ct = concat q -> ct_level ct = LvAppTraffic ->
    cacts k log w s ev (cu_write s (Some wl')) [KWrite [ct]]
| KA_ignored q : (c_state s = CExpectingServerHello \/ c_state s = CExpectingEncryptedExtensions \/ c_state s = CExpectingCertificate \/
                  c_state s = CExpectingCertificateVerify \/ c_state s = CExpectingFinished \/ c_state s = CEstablished) ->
    g_early (c_neg s) = CeRejected -> cacts k log w s (EEarlyAppWrite q) s [KEarlyWriteFailed q]
| KA_early q wl wl' ct : (c_state s = CExpectingServerHello \/ c_state s = CExpectingEncryptedExtensions \/ c_state s = CExpectingFinished) ->
    k_omitEarly k = false -> g_early (c_neg s) = CeAttempted \/ g_early (c_neg s) = CeAccepted ->
    c_earlyw s = Some wl -> wl_write wl 23 q = (wl', Ok ct) -> ct_type ct = 23 -> ct_plain ct = concat q ->
    cacts k log w s (EEarlyAppWrite q) (cu_early s (Some wl') (c_ccs s || k_compat k)) [KWrite (ccs_first k (c_ccs s) ++ [ct])]
| KA_ku_init req s' ct ws wl G F L L' : c_state s = CEstablished -> cpast k log G L -> cfixed s G -> cdata_inv k log s G F L' ->
    chandle_ku_init k s req = CHOk s' [KSecret (KTraffic SkClientApp) ws; KWrite [ct]] -> c_write s = Some wl ->
    snd (wl_write wl 22 [ct_plain ct]) = Ok ct -> ct_type ct = 22 -> ct_level ct = LvAppTraffic ->
    encodeHandshake (MKeyUpdate req) = Ok (ct_plain ct) -> c_state s' = CEstablished ->
    ws = client_traffic (y_h G) (z_tr G F (S (ccount cis_ku_sent log)) (ccount cis_ku_recv log)) ->
    cacts k log w s (EKeyUpdate req) s' [KSecret (KTraffic SkClientApp) ws; KWrite [ct]]
| KA_ku req orig s' outs rs G F L L' : c_state s = CEstablished -> cpast k log G L -> cfixed s G -> cdata_inv k log s G F L' -> cno_unparsed s = Some true ->
    chandle_ku k s req = CHOk s' outs -> c_state s' = CEstablished ->
    rs = server_traffic (y_h G) (z_tr G F (ccount cis_ku_sent log) (S (ccount cis_ku_recv log))) ->
    ((req = 0 /\ outs = [KSecret (KTraffic SkServerApp) rs]) \/
     (req <> 0 /\ exists ws ct wl, outs = [KSecret (KTraffic SkServerApp) rs; KSecret (KTraffic SkClientApp) ws; KWrite [ct]] /\
        c_write s = Some wl /\ snd (wl_write wl 22 [ct_plain ct]) = Ok ct /\ ct_type ct = 22 /\ ct_level ct = LvAppTraffic /\
        encodeHandshake (MKeyUpdate 0) = Ok (ct_plain ct) /\
        ws = client_traffic (y_h G) (z_tr G F (S (ccount cis_ku_sent log)) (S (ccount cis_ku_recv log))))) ->
    cacts k log w s (ERead (EvHandshake (MKeyUpdate req) orig)) s' outs
| KA_close post s' outs : cno_unparsed s = Some true -> c_state s' = CClosed -> c_write s' = None -> c_read s' = None ->
    ((c_state s = CEstablished /\ exists ct, outs = [KWrite [ct]; KEndOfData post] /\ ct_type ct = 21 /\ ct_plain ct = alert_bytes 0) \/
     (c_state s = CWriteSideClosed /\ outs = [KEndOfData post])) ->
    cacts k log w s (ERead (EvClose post)) s' outs.

Lemma data_write k log s G F L' wl : cdata_inv k log s G F L' -> c_state s = CEstablished -> c_write s = Some wl -> exists ws, wl = WEnc LvAppTraffic ws.
Proof. intros I H E. destruct (xd_state _ _ _ _ _ _ I) as [[_ (ws & A & _)]|[A _]]; [|congruence]. exists ws. congruence. Qed.
Lemma chstep_acts k log s w ev s' outs : cenv_ok k -> cphase k log s -> chstep k w s ev s' outs -> cacts k log w s ev s' outs.
Proof.
  intros Hk HP HS. pose proof (chstep_preserves _ _ _ _ _ _ _ Hk HP HS) as HP'. destruct HS.
  - (* connect *)
    assert (s = c_init /\ log = []) as (-> & ->).
    { destruct HP as [-> ->|A HA|G L P X I|G F L L' P X I|E _ _ _|E _]; auto; exfalso.
      + rewrite (aw_state _ _ _ _ HA) in H. discriminate.
      + destruct I as [_ _ _ _ _ _ _ _ I]. rewrite H in I. contradiction.
      + destruct (xd_state _ _ _ _ _ _ I) as [[A _]|[A _]]; congruence.
      + congruence.
      + unfold cterminal in E. rewrite H in E. contradiction. }
    destruct (handle_connect_facts _ _ _ _ _ Hk H0) as (hl & kexs & enc & CF).
    destruct (cf_outs _ _ _ _ _ _ _ _ CF) as (d & rest & -> & _).
    destruct (await_connect _ _ _ _ _ Hk H0) as (A & HA).
    assert (Hc : a_cn A = cn) by (destruct (aw_conn _ _ _ _ HA) as (L' & E); cbn [app] in E; congruence).
    assert (Henc : a_enc A = enc).
    { destruct (aw_hello _ _ _ _ HA) as (B1 & _ & _ & _ & B2). destruct (cf_hello _ _ _ _ _ _ _ _ CF) as (D1 & _ & _ & _ & D2). congruence. }
    eapply KA_connect; eauto.
    unfold handle_connect in H0. bo H0 p Ep. bo H0 random Er. cbv zeta in H0. bo H0 sid Es. bo H0 kexs' Ek. bo H0 ech Ee.
    apply bind_Ok in H0. destruct H0 as ((c0 & req0) & Eb & H0). cbv beta iota in H0.
    apply bind_Ok in H0. destruct H0 as (((c1 & enc1) & early) & Ec1 & H0). cbv beta iota in H0.
    apply bind_Ok in H0. destruct H0 as (((((en & req) & sni) & random') & est) & Est & H0). cbv beta iota in H0.
    bo H0 dd Ed. destruct early as [[[[t wl] x] mx]|].
    + destruct (getEarlyDataParams k p) as [ep|]; [right|left].
      * exists t, mx, x. congruence.
      * congruence.
    + left. congruence.
  - (* HelloRetryRequest *)
    destruct (cphase_await _ _ _ HP H) as (A & HA). pose proof (await_retry _ _ _ _ _ _ _ _ _ Hk HA H0) as (A' & HA').
    destruct (handle_retry_facts _ _ _ _ _ _ _ Hk H0) as (hl & hl' & kexs & kexs' & h & v & enc0 & enc & RF).
    destruct (rf_outs _ _ _ _ _ _ _ _ _ _ _ _ _ _ _ RF) as (ccs & ct & Eo & E2 & E3). specialize (E3 (aw_write _ _ _ _ HA)). destruct E3 as (T1 & T2 & T3).
    assert (ccs = ccs_first k (c_ccs s)) as ->.
    { unfold handle_retry in H0. destruct (c_hello s) as [hl0|]; [|discriminate]. destruct (h_req hl0); [|discriminate]. destruct (h_kex hl0); [|discriminate].
      repeat (first [
        match type of H0 with match c_write ?x with Some _ => _ | None => _ end = _ => destruct (c_write x); [|discriminate] end|
        match type of H0 with (let '(_, _) := ?x in _) = _ => destruct x end|
        match type of H0 with match ?x with pair _ _ => _ end = _ => destruct x end|
        apply bind_Ok in H0; destruct H0 as (? & _ & H0); cbv beta iota zeta in H0]).
      rewrite Eo in H0. match type of H0 with Ok (_, [KWrite (_ ++ [?c])]) = _ => assert (E' : ccs ++ [ct] = ccs_first k (c_ccs s) ++ [c]) by congruence end.
      apply app_inj_tail in E'. tauto. }
    rewrite Eo in *. eapply KA_retry; eauto. rewrite T3.
    destruct (aw_hello _ _ _ _ HA') as (B1 & _ & _ & _ & B2). destruct (rf_hello _ _ _ _ _ _ _ _ _ _ _ _ _ _ _ RF) as (B3 & _ & _ & _ & _ & B4). congruence.
  - (* ServerHello *)
    destruct (cphase_await _ _ _ HP H) as (A & HA). destruct (server_hello_facts _ _ _ _ _ _ _ _ _ Hk HA H0) as (Q & <- & <- & AH).
    eapply KA_hello; eauto.
  - (* EncryptedExtensions *)
    destruct (cphase_hs _ _ _ HP) as (G & L & P & X & I); [rewrite H; exact Logic.I|].
    eapply KA_ee; eauto. unfold handle_ee in H0. destruct (c_hello s) as [hl|]; [|discriminate]. destruct (c_hctx s) as [hc|]; [|discriminate].
    destruct (g_psk (c_neg s)) as [pt|]; [|discriminate]. destruct (h_req hl); [|discriminate].
    bo H0 u E4. bo H0 a E5. bo H0 alpn E6. bo H0 e E7. bo H0 ed E8. bo H0 rt E9. bo H0 u2 E10. injection H0 as _ <-. destruct rt as [[n cs]|]; eauto.
  - destruct (cphase_hs _ _ _ HP) as (G & L & P & X & I); [rewrite H; exact Logic.I|].
    destruct (cert_request_ok _ _ _ _ _ _ H0) as (-> & _). eapply KA_msg; eauto; [exact Logic.I|]. apply Ct_request; assumption.
  - destruct (cphase_hs _ _ _ HP) as (G & L & P & X & I); [rewrite H; exact Logic.I|].
    destruct (cert_msg_ok _ _ _ _ _ _ _ _ H0) as (-> & _). eapply KA_msg; eauto; [exact Logic.I|]. apply Ct_certificate; assumption.
  - destruct (cphase_hs _ _ _ HP) as (G & L & P & X & I); [rewrite H; exact Logic.I|].
    destruct (compressed_ok _ _ _ _ _ _ _ H0) as (_ & d & _ & E). destruct (cert_msg_ok _ _ _ _ _ _ _ _ E) as (-> & _).
    eapply KA_msg; eauto; [exact Logic.I|]. apply Ct_compressed; assumption.
  - destruct (cphase_hs _ _ _ HP) as (G & L & P & X & I); [rewrite H; exact Logic.I|].
    destruct (cverify_ok _ _ _ _ _ _ H0) as (-> & _). eapply KA_msg; eauto; [exact Logic.I|]. apply Ct_verify; assumption.
  - (* Finished *)
    destruct (cphase_hs _ _ _ HP) as (G & L & P & X & I); [rewrite H; exact Logic.I|].
    destruct (cfinished_ok _ _ _ _ _ w _ _ _ _ Hk P X I H H0) as (F & tail & E1 & E2 & E3 & E4 & E5 & E6 & -> & E8 & E9 & E10).
    eapply KA_finished; eauto. tauto.
  - (* NewSessionTicket *)
    destruct (cphase_data _ _ _ HP H) as (G & F & L & L' & P & X & I).
    assert (Hs : s' = s /\ exists p, outs = [KNewPsk p]).
    { unfold handle_ticket in H0. destruct (c_ks s) as [[h kk]|]; [|discriminate]. destruct (c_resumption s); [|discriminate]. destruct (g_version _); [|discriminate]. destruct (g_cipher _); [|discriminate].
      destruct (g_hsTime _); [|discriminate]. bo H0 n1 E1. bo H0 n2 E2. bo H0 n3 E3. bo H0 n4 E4. bo H0 n5 E5. cbv zeta in H0. injection H0 as <- <-. eauto. }
    destruct Hs as (-> & p & ->). eapply KA_ticket; eauto.
  - apply KA_deliver. exact H.
  - destruct (cphase_data _ _ _ HP H) as (G & F & L & L' & P & X & I).
    destruct (data_write _ _ _ _ _ _ _ I H H0) as (ws & ->). destruct (wl_write_content _ _ _ _ _ H1) as (W1 & W2 & W3 & _). eapply KA_write; eauto.
  - destruct (cphase_data _ _ _ HP H) as (G & F & L & L' & P & X & I).
    destruct (data_write _ _ _ _ _ _ _ I H H1) as (ws & ->). destruct (wl_write_content _ _ _ _ _ H2) as (W1 & W2 & W3 & _). eapply KA_write; eauto.
  - apply KA_ignored; assumption.
  - destruct (wl_write_content _ _ _ _ _ H3) as (W1 & W2 & _). eapply KA_early; eauto.
  - (* KeyUpdateInitiation *)
    destruct (cphase_data _ _ _ HP H) as (G & F & L & L' & P & X & I). pose proof H0 as H0'. unfold chandle_ku_init in H0.
    destruct (cno_unparsed s) as [[|]|]; try discriminate. destruct (encodeHandshake (MKeyUpdate req)) as [m|] eqn:Em; [|discriminate].
    apply cwith_write_ok in H0. destruct H0 as (wl & wl' & ct & G1 & G2 & H0).
    apply crekey_write_ok in H0. destruct H0 as (h & k0 & version & cipher & k' & ws & wl2 & R1 & R2 & R3 & R4 & R5 & R6 & [= <- <-]).
    destruct (data_write _ _ _ _ _ _ _ I H G1) as (ws0 & ->).
    destruct (wl_write_content _ _ _ _ _ G2) as (C1 & C2 & C3 & _). cbn [concat] in C2. rewrite app_nil_r in C2.
    destruct (xd_ks _ _ _ _ _ _ I) as (kk & Q1 & Q2).
    cbn [cu_write cu_layers c_ks c_neg] in R1, R2, R3. assert (h = y_h G /\ k0 = kk) as (-> & ->) by (split; congruence).
    assert (Hh : hash_ok (y_h G)) by (eapply (ko_hash k Hk), (co_hash _ _ _ _ (cp_of _ _ _ _ P))).
    destruct (kdo_rel _ _ _ ClientKeyUpdate _ Hh Q2 Logic.I R4) as (st & o & E & Hk'). cbn [spec_step z_tr tr_psk tr_dh tr_hash tr_c tr_s] in E.
    assert (st = (Start, Some (z_tr G F (S (ccount cis_ku_sent log)) (ccount cis_ku_recv log)))) as -> by (unfold z_tr; congruence). clear E.
    destruct (kget_rel _ _ _ (GetApp ClientAppTraffic) _ Hh Hk' Logic.I R5) as (st & E). cbn [spec_step] in E.
    eapply KA_ku_init; eauto.
    + rewrite C2, G2. reflexivity.
    + rewrite C2. exact Em.
    + congruence.
  - (* KeyUpdate *)
    destruct (cphase_data _ _ _ HP H) as (G & F & L & L' & P & X & I). pose proof H0 as H0'. unfold chandle_ku in H0.
    destruct (cno_unparsed s) as [[|]|] eqn:Hnu; try discriminate. destruct (xd_ks _ _ _ _ _ _ I) as (kk & Q1 & Q2).
    rewrite Q1, (fx_version _ _ X), (fx_cipher _ _ X) in H0.
    match type of H0 with context [match ?x with Ok _ => _ | Err _ => _ end] => destruct x as [[[k' rs] rl]|] eqn:E10 end; [|discriminate].
    bo E10 k1 F1. bo E10 rs1 F2. bo E10 rl1 F3. injection E10 as -> -> ->.
    assert (Hh : hash_ok (y_h G)) by (eapply (ko_hash k Hk), (co_hash _ _ _ _ (cp_of _ _ _ _ P))).
    destruct (kdo_rel _ _ _ ServerKeyUpdate _ Hh Q2 Logic.I F1) as (st & o & E & Hk'). cbn [spec_step z_tr tr_psk tr_dh tr_hash tr_c tr_s] in E.
    assert (st = (Start, Some (z_tr G F (ccount cis_ku_sent log) (S (ccount cis_ku_recv log))))) as -> by (unfold z_tr; congruence). clear E.
    destruct (kget_rel _ _ _ (GetApp ServerAppTraffic) _ Hh Hk' Logic.I F2) as (st & E). cbn [spec_step] in E.
    assert (Ec : rs = server_traffic (y_h G) (z_tr G F (ccount cis_ku_sent log) (S (ccount cis_ku_recv log)))) by congruence. clear E st.
    destruct (req =? 0) eqn:Eq.
    + apply N.eqb_eq in Eq. injection H0 as <- <-. eapply (KA_ku _ _ _ _ _ _ _ _ rs); eauto.
    + apply N.eqb_neq in Eq. destruct (encodeHandshake (MKeyUpdate 0)) as [m|] eqn:Em; [|discriminate].
      apply cwith_write_ok in H0. destruct H0 as (wl & wl' & ct & G1 & G2 & H0).
      apply crekey_write_ok in H0. destruct H0 as (h & k0 & version & cipher & k'' & ws & wl2 & R1 & R2 & R3 & R4 & R5 & R6 & [= <- <-]).
      destruct (data_write _ _ _ _ _ _ _ I H G1) as (ws0 & ->).
      destruct (wl_write_content _ _ _ _ _ G2) as (C1 & C2 & C3 & _). cbn [concat] in C2. rewrite app_nil_r in C2.
      cbn [cu_write cu_layers cu_ks c_ks c_neg] in R1, R2, R3. assert (h = y_h G /\ k0 = k') as (-> & ->) by (split; congruence).
      destruct (kdo_rel _ _ _ ClientKeyUpdate _ Hh Hk' Logic.I R4) as (st & o2 & E & Hk2). cbn [spec_step z_tr tr_psk tr_dh tr_hash tr_c tr_s] in E.
      assert (st = (Start, Some (z_tr G F (S (ccount cis_ku_sent log)) (S (ccount cis_ku_recv log))))) as -> by (unfold z_tr; congruence). clear E.
      destruct (kget_rel _ _ _ (GetApp ClientAppTraffic) _ Hh Hk2 Logic.I R5) as (st & E). cbn [spec_step] in E.
      eapply (KA_ku _ _ _ _ _ _ _ _ rs); eauto. right. split; [exact Eq|]. exists ws, ct, (WEnc LvAppTraffic ws0). rewrite C2, G2. repeat split; auto. congruence.
  - (* close_notify *)
    unfold chandle_close in H0. destruct (cno_unparsed s) as [[|]|] eqn:Hnu; try discriminate. destruct reply.
    + apply cwith_write_ok in H0. destruct H0 as (wl & wl' & ct & G1 & G2 & [= <- <-]).
      destruct (wl_write_content _ _ _ _ _ G2) as (C1 & C2 & _). cbn [concat] in C2. rewrite app_nil_r in C2.
      apply KA_close; auto. left. split; [exact H|]. exists ct. auto.
    + injection H0 as <- <-. apply KA_close; auto.
Qed.
Lemma cemit_acts k l s log L1 o L2 : cenv_ok k -> creach k l s log -> log = L1 ++ CEmit o :: L2 ->
  (exists l1 s0 log1 s1 w ev s2 pre post L3, creach k l1 s0 log1 /\ c_state s0 = c_state s1 /\ c_neg s0 = c_neg s1 /\ cphase k log1 s1 /\
     cacts k log1 w s1 ev s2 (pre ++ o :: post) /\ L1 = log1 ++ centry_of w ev :: map CEmit pre /\ L2 = map CEmit post ++ L3) \/ cdull o.
Proof.
  intros Hk Hr E. destruct (cemit_chstep _ _ _ _ _ _ _ Hk Hr E) as [(l1 & s0 & log1 & s1 & w & ev & s2 & pre & post & L3 & A & B & B' & C & D & F)|D]; [left|right; exact D].
  exists l1, s0, log1, s1, w, ev, s2, pre, post, L3. split; [exact A|]. split; [exact B|]. split; [exact B'|]. split; [exact C|].
  split; [apply chstep_acts; assumption|exact F].
Qed.
