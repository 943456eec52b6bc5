(** * Where the actions of a server connection come from *)
From Verif Require Import Base Codec CodecSpec Str Hkdf HkdfSpec HkdfProofs KeySched KeySchedSpec KeySchedProofs Handshake HandshakeSpec Extensions
  ExtensionsSpec ExtensionsProofs RecordBase Record RecordRT
  ReadEvent HelloChecks Cookie Token Negotiate Ticket Kex Hpke Transcript IOBufUtil PropsIOBuf
  EchConfirm Server ServerSpec ServerFacts ServerSteps ServerFlight ServerInv ServerPreserve ServerParams.
Open Scope N_scope.

(** Actions outside of handlers: waiting, errors and alerts. *)
Definition dull (o : out) : Prop :=
  (exists n, o = OWait n) \/ (exists a, o = OError a) \/ exists ct, o = OWrite [ct] /\ ct_type ct = 21.
Lemma emit_hstep e l s log L1 o L2 : env_ok e -> reach e l s log -> log = L1 ++ Emit o :: L2 ->
  (exists log1 s1 w ev s2 pre post, phase e log1 s1 /\ hstep e w s1 ev s2 (pre ++ o :: post) /\ L1 = log1 ++ recv_of w ev ++ map Emit pre /\
     exists L3, L2 = map Emit post ++ L3) \/ dull o.
Proof.
  intros He H Hl. destruct (emit_origin _ _ _ _ _ _ _ H Hl) as (l1 & s1 & log1 & w & i & s2 & pre & post & H1 & H2 & -> & HL3).
  pose proof (reach_phase _ _ _ _ He H1) as HP. apply sstep_cases in H2. destruct H2 as [ev R1 R2 R0 R3|r b r' b' x R1 R2 R3 R4 R5|r b r' b' hint R1 R2 R3 R4 R5 R6|R1 R2 R3 R4 R5 R6|R1 R2 R3 R4|R1 R2|R1 R2 R3 R4 R5|wl R1 R2 R3 R4 R5].
  - left. exists log1, s1, w, ev, s2, pre, post. rewrite R1, R2. auto 10.
  - left. exists log1, (upd_read s1 (Some r')), w, (SvRead x), s2, pre, post. split; [|split; [exact R5|split; [rewrite R4; reflexivity|exact HL3]]].
    rewrite <- (app_nil_r log1). eapply phase_read; [exact HP|exact R2|rewrite R3; reflexivity|reflexivity].
  - right. destruct pre as [|? [|? ?]]; try discriminate. injection R6 as -> _. left. eauto.
  - right. destruct R6 as [E|(a & [E|(d & ct & wl & _ & _ & Ec & E)])].
    + destruct pre; discriminate.
    + destruct pre as [|? [|? ?]]; try discriminate. injection E as -> _. right. left. eauto.
    + destruct pre as [|? [|? [|? ?]]]; try discriminate.
      * injection E as -> _. right. right. exists ct. split; [reflexivity|]. rewrite Ec. reflexivity.
      * injection E as _ -> _. right. left. eauto.
  - destruct pre; discriminate.
  - destruct pre; discriminate.
  - right. destruct R5 as [E|(wl & ct & _ & Ec & E)]; [destruct pre; discriminate|].
    destruct pre as [|? [|? ?]]; try discriminate. injection E as -> _. right. right. exists ct. split; [reflexivity|]. rewrite Ec. reflexivity.
  - destruct pre; discriminate.
Qed.

(** The actions of each handler. *)
Lemma retry_outs e log w s c orig s' outs : awaiting e log s -> handle_hello e w s c orig = Ok (s', outs) -> s_state s' = SExpectingClientHello ->
  exists n sid h k hc alpn skew ed early g ct b, hello_facts e w s c orig n sid h k hc alpn skew ed early /\ outs = [OWrite (ct :: ccs_if sid)] /\
    ct_type ct = 22 /\ ct_level ct = LvPlaintext /\ ct_plain ct = b /\ fresh log s /\
    negotiateGroup e (n_hello n) = Ok (g, None) /\ n_cookie n = None /\ hello_retry e s n sid hc g ed = Ok (s', outs).
Proof.
  intros Ha Hh Es. apply handle_hello_facts in Hh. destruct Hh as [d sni E1 E2 E3|n sid h k hc alpn skew ed early g HF Hm Eg Eg0 Eck HR|n sid h k hc alpn skew ed early kt group kex HF Hm HR].
  - subst s'. discriminate.
  - pose proof HR as HR0. apply hello_retry_facts in HR. destruct HR as (h' & m & hrr0 & hrr & b & wl & ct & R1 & R2 & R3 & R4 & R5 & R6 & R7 & R8 & R9).
    exists n, sid, h, k, hc, alpn, skew, ed, early, g, ct, b. split; [exact HF|]. split; [exact R8|].
    rewrite (awaiting_write _ _ _ Ha) in R6. injection R6 as <-.
    destruct (wl_write WPlain 22 [b]) as [wl' rr] eqn:Ewl. cbn [snd] in R7. subst rr.
    apply wl_write_content in Ewl. destruct Ewl as (W1 & W2 & W3 & _). cbn [concat] in W2. rewrite app_nil_r in W2.
    split; [exact W1|]. split; [exact W3|]. split; [exact W2|]. split; [|auto].
    destruct Ha as [Hf|Hr]; [exact Hf|]. destruct (retried_state _ _ _ Hr) as (n' & g' & ed' & h'' & R). pose proof (rt_group _ _ _ _ _ _ _ R). congruence.
  - exfalso. destruct HR as [(k2 & exts & random & sh0 & sh & rtry & bsh & hws & hwl & hrs & hrl & bee & reqExts & creq & scert & ccert & scheme & auth & hc4 & bfin & hc5 & enc & wl & ct & k3 & ems & k4 & aws & awl & F)].
    cbv zeta in F. decompose [and] F. clear F.
    match goal with H : _ \/ _ |- _ => destruct H as [(ets & erl & eexp & _ & _ & _ & [(_ & E)|(_ & E)])|(_ & _ & E)] end;
      subst s'; cbn in Es; try discriminate.
    match type of Es with (if ?q then _ else _) = _ => destruct q; discriminate end.
Qed.

Definition hello_ev c orig := SvRead (EvHandshake (MClientHello c) orig).
Definition no_rest (s : sstate) : Prop := exists r, s_read s = Some r /\ ev_unparsed r = [].
Definition in_hs (s : sstate) : Prop :=
  match s_state s with SAcceptingEarlyData | SExpectingCertificate | SExpectingCertificateVerify | SExpectingFinished => True | _ => False end.
(** What each handler does, with the invariant that holds before it (for the flight: after it). *)
Inductive acts (e : env) (log : list entry) (w : world) (s : sstate) : sevent -> sstate -> list out -> Prop :=
| A_accept s' : s_state s = SUninitialized -> s_state s' = SExpectingClientHello -> acts e log w s SvAccept s' []
| A_fallback c orig d sni : awaiting e log s -> hello_negotiate e w s c orig = Ok (NFallback d sni) -> acts e log w s (hello_ev c orig) (upd_state s SError) [OFallback d sni]
| A_retry c orig s' outs n sid h k hc alpn skew ed early g ct : awaiting e log s -> handle_hello e w s c orig = Ok (s', outs) ->
    s_state s' = SExpectingClientHello ->
    hello_facts e w s c orig n sid h k hc alpn skew ed early -> outs = [OWrite (ct :: ccs_if sid)] ->
    ct_type ct = 22 -> ct_level ct = LvPlaintext -> fresh log s ->
    negotiateGroup e (n_hello n) = Ok (g, None) -> n_cookie n = None -> hello_retry e s n sid hc g ed = Ok (s', outs) ->
    acts e log w s (hello_ev c orig) s' outs
| A_flight c orig s' outs H : awaiting e log s -> handle_hello e w s c orig = Ok (s', outs) ->
    past e (log ++ hello_log w c orig outs) s' H [] -> hs_inv e (log ++ hello_log w c orig outs) s' H [] ->
    i_log H = log -> i_s1 H = s -> i_w H = w -> i_c H = c -> i_orig H = orig -> i_s2 H = s' -> i_outs H = outs ->
    acts e log w s (hello_ev c orig) s' outs
| A_early d H L : s_state s = SAcceptingEarlyData -> past e log s H L -> hs_inv e log s H L -> acts e log w s (SvRead (EvAppData d)) s [ODeliver d]
| A_data d H L : s_state s = SAcceptingData -> past e log s H L -> data_inv e log s H L -> acts e log w s (SvRead (EvAppData d)) s [ODeliver d]
| A_write q ct s' H L : past e log s H L ->
    ((s_state s = SAcceptingEarlyData \/ s_state s = SExpectingFinished) /\ hs_inv e log s H L \/ data_inv e log s H L) -> s_state s' = s_state s ->
    ct_type ct = 23 -> ct_level ct = LvAppTraffic -> ct_plain ct = concat q -> acts e log w s (SvAppWrite q) s' [OWrite [ct]]
| A_quiet m orig s' : (m = MEndOfEarlyData \/ (exists x, m = MCertificate x) \/ (exists x, m = MCertificateVerify x)) ->
    in_hs s -> in_hs s' ->
    acts e log w s (SvRead (EvHandshake m orig)) s' []
| A_finished vd orig s' tk H L : past e log s H L -> hs_inv e log s H L -> s_state s = SExpectingFinished -> s_state s' = SAcceptingData -> no_rest s ->
    vd = Some (verify_data (i_h H) (i_chs H) (i_tsf H ++ client_msgs L)) ->
    (tk = [] \/ exists ct nst m, tk = [OWrite [ct]] /\ ct_type ct = 22 /\ ct_level ct = LvAppTraffic /\
       encodeHandshake (MNewSessionTicket nst) = Ok m /\ ct_plain ct = m) ->
    acts e log w s (SvRead (EvHandshake (MFinished vd) orig)) s' (OSecret' SkClientApp (client_traffic (i_h H) (i_tr H 0 0)) :: tk ++ [OSuccess])
| A_ticket t s' outs H L : past e log s H L -> data_inv e log s H L ->
    (outs = [] \/ exists ct nst m, outs = [OWrite [ct]] /\ ct_type ct = 22 /\ ct_level ct = LvAppTraffic /\
       encodeHandshake (MNewSessionTicket nst) = Ok m /\ ct_plain ct = m /\ ticket_message e w s (s_resumption s) t = Ok (Some m)) -> s_state s' = SAcceptingData ->
    acts e log w s (SvNewTicket t) s' outs
| A_kuinit req s' ct m H L : past e log s H L -> data_inv e log s H L -> no_rest s ->
    ct_type ct = 22 -> ct_level ct = LvAppTraffic -> encodeHandshake (MKeyUpdate req) = Ok m -> ct_plain ct = m -> s_state s' = SAcceptingData ->
    (exists wl, s_write s = Some wl /\ snd (wl_write wl 22 [m]) = Ok ct) ->
    acts e log w s (SvKeyUpdate req) s'
      [OSecret' SkServerApp (server_traffic (i_h H) (i_tr H (count is_ku_recv log) (S (count is_ku_sent log)))); OWrite [ct]]
| A_ku0 orig s' H L : past e log s H L -> data_inv e log s H L -> no_rest s -> s_state s' = SAcceptingData ->
    acts e log w s (SvRead (EvHandshake (MKeyUpdate 0) orig)) s'
      [OSecret' SkClientApp (client_traffic (i_h H) (i_tr H (S (count is_ku_recv log)) (count is_ku_sent log)))]
| A_ku1 req orig s' ct m H L : past e log s H L -> data_inv e log s H L -> no_rest s -> req <> 0 ->
    ct_type ct = 22 -> ct_level ct = LvAppTraffic -> encodeHandshake (MKeyUpdate 0) = Ok m -> ct_plain ct = m -> s_state s' = SAcceptingData ->
    (exists wl, s_write s = Some wl /\ snd (wl_write wl 22 [m]) = Ok ct) ->
    acts e log w s (SvRead (EvHandshake (MKeyUpdate req) orig)) s'
      [OSecret' SkServerApp (server_traffic (i_h H) (i_tr H (S (count is_ku_recv log)) (S (count is_ku_sent log))));
       OSecret' SkClientApp (client_traffic (i_h H) (i_tr H (S (count is_ku_recv log)) (count is_ku_sent log))); OWrite [ct]]
| A_close post s' outs : no_rest s ->
    (s_state s = SAcceptingData /\ (exists H L, past e log s H L /\ data_inv e log s H L) /\
       (exists ct, outs = [OWrite [ct]; OEndOfData post] /\ ct_type ct = 21 /\ ct_plain ct = alert_bytes 0) \/
     s_state s = SExpectingCloseNotify /\ outs = [OEndOfData post]) ->
    s_state s' = SClosed -> s_write s' = None -> s_read s' = None -> acts e log w s (SvRead (EvClose post)) s' outs.

Lemma no_unparsed_true s : no_unparsed s = Some true -> no_rest s.
Proof. unfold no_unparsed. destruct (s_read s) as [r|] eqn:E; [|discriminate]. destruct (ev_unparsed r) eqn:Eu; [|discriminate]. intros _. exists r. auto. Qed.
Lemma app_content e log s H L ty q wl wl' ct : (hs_inv e log s H L \/ data_inv e log s H L) -> s_write s = Some wl -> wl_write wl ty q = (wl', Ok ct) ->
  ct_type ct = ty /\ ct_level ct = LvAppTraffic /\ ct_plain ct = concat q.
Proof.
  intros HI E1 E2. destruct (wl_write_content _ _ _ _ _ E2) as (C1 & C2 & C3).
  assert (exists ws, wl = WEnc LvAppTraffic ws) as (ws & ->).
  { destruct HI as [HI|HI]; [destruct (hi_write _ _ _ _ _ HI) as (ws & W & _)|destruct (di_write _ _ _ _ _ HI) as (ws & W & _)]; exists ws; congruence. }
  split; [exact C1|]. split; [apply C3|exact C2].
Qed.
Lemma hstep_acts e log s w ev s' outs : env_ok e -> phase e log s -> hstep e w s ev s' outs -> acts e log w s ev s' outs.
Proof.
  intros He HP HS. destruct HS.
  - apply A_accept; [exact H|reflexivity].
  - pose proof (phase_hello _ _ _ HP H) as Ha. pose proof H0 as Hf. apply handle_hello_facts in Hf.
    assert (Hc : s_state s' = SExpectingClientHello \/ s_state s' <> SExpectingClientHello) by (destruct (s_state s'); auto; right; discriminate).
    destruct Hc as [Hc|Hc].
    { destruct (retry_outs _ _ _ _ _ _ _ _ Ha H0 Hc) as (n & sid & h & k & hc & alpn & skew & ed & early & g & ct & b & R1 & R2 & R3 & R4 & R5 & R6 & R7 & R8 & R9).
      eapply A_retry; eassumption. }
    assert (Hd : s_state s' = SError \/ s_state s' <> SError) by (destruct (s_state s'); auto; right; discriminate).
    destruct Hd as [Hd|Hd].
    + destruct Hf as [d sni E1 E2 E3|n sid h k hc alpn skew ed early g HF Hm Eg Eg0 Eck HR|n sid h k hc alpn skew ed early kt group kex HF Hm HR].
      * subst. apply A_fallback; [exact Ha|exact E3].
      * exfalso. apply hello_retry_facts in HR. destruct HR as (h' & m & hrr0 & hrr & b & wl & ct & R1 & R2 & R3 & R4 & R5 & R6 & R7 & R8 & R9).
        subst s'. discriminate.
      * exfalso. destruct HR as [(k2 & exts & random & sh0 & sh & rtry & bsh & hws & hwl & hrs & hrl & bee & reqExts & creq & scert & ccert & scheme & auth & hc4 & bfin & hc5 & enc & wl & ct & k3 & ems & k4 & aws & awl & F)].
        cbv zeta in F. decompose [and] F. clear F.
        match goal with H : _ \/ _ |- _ => destruct H as [(ets & erl & eexp & _ & _ & _ & [(_ & E)|(_ & E)])|(_ & _ & E)] end;
          subst s'; cbn [s_state] in Hd; try discriminate.
        match type of Hd with context [if ?q then _ else _] => destruct q; discriminate end.
    + destruct (hello_flight _ _ _ _ _ _ _ _ He Ha H0 Hd Hc) as (Hi & P & I & A1 & A2 & A3 & A4 & A5 & A6 & A7). eapply A_flight; eassumption.
  - destruct H as [H|H].
    + destruct (phase_hs _ _ _ HP (or_introl H)) as (Hi & L & P & I). eapply A_early; eassumption.
    + destruct (phase_data _ _ _ HP H) as (Hi & L & P & I). eapply A_data; eassumption.
  - destruct H as [H|[H|H]].
    + destruct (phase_hs _ _ _ HP (or_introl H)) as (Hi & L & P & I). destruct (app_content _ _ _ _ _ _ _ _ _ _ (or_introl I) H0 H1) as (C1 & C2 & C3).
      eapply A_write; eauto.
    + destruct (phase_hs _ _ _ HP (or_intror (or_intror (or_intror H)))) as (Hi & L & P & I). destruct (app_content _ _ _ _ _ _ _ _ _ _ (or_introl I) H0 H1) as (C1 & C2 & C3).
      eapply A_write; eauto.
    + destruct (phase_data _ _ _ HP H) as (Hi & L & P & I). destruct (app_content _ _ _ _ _ _ _ _ _ _ (or_intror I) H0 H1) as (C1 & C2 & C3).
      eapply A_write; eauto.
  - apply A_quiet; [auto|unfold in_hs; rewrite H; exact Logic.I|exact Logic.I].
  - destruct (phase_hs _ _ _ HP (or_intror (or_introl H))) as (Hi0 & L0 & P0 & _). destruct (certificate_ok _ _ _ _ _ _ (past_asked _ _ _ _ _ P0) H0) as (-> & hc & certs & _ & _ & _ & X). apply A_quiet; [eauto|unfold in_hs; rewrite H; exact Logic.I|].
    destruct X as [(_ & _ & ->)|(_ & ->)]; exact Logic.I.
  - destruct (certverify_ok _ _ _ _ _ _ H0) as (-> & hc & lf & rs & sg & cc & _ & _ & _ & _ & _ & _ & ->). apply A_quiet; [eauto|unfold in_hs; rewrite H; exact Logic.I|exact Logic.I].
  - destruct (phase_hs _ _ _ HP (or_intror (or_intror (or_intror H)))) as (Hi & L & P & I0). pose proof I0 as [I1 I2 I3 I4 I5 I6].
    destruct I1 as (hc0 & G1 & G2 & G3 & G4). destruct I2 as (k0 & Q1 & Q2).
    destruct (finished_facts_ok _ _ _ _ _ _ _ H0) as [(hc & cs & h & k & version & cipher & r & ars & rd & rms & k' & wr & K1 & K2 & K3 & K4 & K5 & K6 & K7 & (got & -> & K8) & K9 & K10 & K11 & K12 & -> & K14)].
    destruct (cipher_past _ _ _ _ _ P) as [Ci Hh]. assert (hc0 = hc) as -> by congruence. assert (h = i_h Hi /\ k0 = k /\ cipher = i_cipher Hi) as (-> & -> & ->) by (repeat split; congruence).
    assert (cs = i_chs Hi) as -> by congruence.
    pose proof (eo_hash e He _ _ Hh) as Hok.
    destruct (kget_rel _ _ _ (GetApp ClientAppTraffic) _ Hok Q2 Logic.I K9) as (st & E). cbn [spec_step] in E.
    assert (Ea : ars = client_traffic (i_h Hi) (i_tr Hi 0 0)) by congruence. clear E st.
    assert (Lv : got = verify_data (i_h Hi) (i_chs Hi) (hc_data hc)).
    { rewrite finished_ok in K8; rewrite ?G2; auto; [|unfold i_chs; apply DeriveSecret_len, Hok]. rewrite G2 in K8. congruence. }
    assert (Hx : exists tk, outs = OSecret' SkClientApp (client_traffic (i_h Hi) (i_tr Hi 0 0)) :: tk ++ [OSuccess] /\
       (tk = [] \/ exists ct nst m, tk = [OWrite [ct]] /\ ct_type ct = 22 /\ ct_level ct = LvAppTraffic /\
       encodeHandshake (MNewSessionTicket nst) = Ok m /\ ct_plain ct = m)).
    { rewrite <- Ea. destruct K14 as [(-> & ->)|(wl & wl' & ct & nst & mm & T1 & -> & T2 & T3 & ->)]; [exists []; auto|].
      exists [OWrite [ct]]. split; [reflexivity|]. right. exists ct, nst, mm.
      destruct (app_content _ _ _ _ _ _ _ _ _ _ (or_introl I0) T1 T3) as (C1 & C2 & C3). cbn [concat] in C3. rewrite app_nil_r in C3. auto 10. }
    destruct Hx as (tk & -> & Hx). eapply (A_finished e log w s _ _ _ tk); try eassumption; [reflexivity|exists r; auto|congruence].
  - destruct (phase_data _ _ _ HP H) as (Hi & L & P & I). unfold handle_new_ticket in H0. eapply A_ticket; [exact P|exact I| |].
    2:{ destruct (ticket_message _ _ _ _ _) as [[m|]|] eqn:Et; [|injection H0 as <- <-; exact H|discriminate].
        apply with_write_ok in H0. destruct H0 as (wl & wl' & ct & G1 & G2 & [= <- <-]). exact H. }
    destruct (ticket_message _ _ _ _ _) as [[m|]|] eqn:Et; [|injection H0 as <- <-; auto|discriminate].
    apply with_write_ok in H0. destruct H0 as (wl & wl' & ct & G1 & G2 & [= <- <-]). destruct (ticket_message_kind _ _ _ _ _ _ Et) as (nst & Hn).
    destruct (app_content _ _ _ _ _ _ _ _ _ _ (or_intror I) G1 G2) as (C1 & C2 & C3). cbn [concat] in C3. rewrite app_nil_r in C3.
    right. exists ct, nst, m. auto 10.
  - destruct (phase_data _ _ _ HP H) as (Hi & L & P & I0). unfold handle_ku_init in H0.
    destruct (no_unparsed s) as [[|]|] eqn:Enu; try discriminate. apply no_unparsed_true in Enu. destruct (encodeHandshake (MKeyUpdate req)) as [m|] eqn:Em; [|discriminate].
    apply with_write_ok in H0. destruct H0 as (wl & wl' & ct & G1 & G2 & H0).
    apply rekey_write_ok in H0. destruct H0 as (h & k & version & cipher & k' & ws & wl2 & R1 & R2 & R3 & R4 & R5 & R6 & [= <- <-]).
    destruct (app_content _ _ _ _ _ _ _ _ _ _ (or_intror I0) G1 G2) as (C1 & C2 & C3). cbn [concat] in C3. rewrite app_nil_r in C3.
    pose proof I0 as [I1 (k0 & Q1 & Q2) I3 I4 I5 I6 I7]. destruct (cipher_past _ _ _ _ _ P) as [Ci Hh].
    cbn [upd_write upd_layers s_ks s_version s_cipher] in R1, R2, R3. assert (h = i_h Hi /\ k0 = k /\ cipher = i_cipher Hi) as (-> & -> & ->) by (repeat split; congruence).
    pose proof (eo_hash e He _ _ Hh) as Hok.
    destruct (kdo_rel _ _ _ ServerKeyUpdate _ Hok Q2 Logic.I R4) as (st & o & E & Hk'). cbn [spec_step i_tr tr_psk tr_dh tr_hash tr_c tr_s] in E.
    assert (st = (Start, Some (i_tr Hi (count is_ku_recv log) (S (count is_ku_sent log))))) as -> by (unfold i_tr; congruence). clear E.
    destruct (kget_rel _ _ _ (GetApp ServerAppTraffic) _ Hok Hk' Logic.I R5) as (st & E). cbn [spec_step] in E.
    assert (Ea : ws = server_traffic (i_h Hi) (i_tr Hi (count is_ku_recv log) (S (count is_ku_sent log)))) by congruence. subst ws.
    eapply A_kuinit; try eassumption. exists wl. split; [exact G1|]. rewrite G2. reflexivity.
  - destruct (phase_data _ _ _ HP H) as (Hi & L & P & I0). unfold handle_ku in H0.
    destruct (no_unparsed s) as [[|]|] eqn:Enu; try discriminate. apply no_unparsed_true in Enu.
    pose proof I0 as [I1 (k0 & Q1 & Q2) I3 I4 I5 I6 I7]. destruct (cipher_past _ _ _ _ _ P) as [Ci Hh].
    rewrite Q1, Ci in H0. destruct (s_version s) as [version|] eqn:Ev; [|discriminate].
    match type of H0 with context [match ?x with Ok _ => _ | Err _ => _ end] => destruct x as [[[k' rs] rl]|] eqn:E10 end; [|discriminate].
    bo E10 k1 F1. bo E10 rs1 F2. bo E10 rl1 F3. injection E10 as -> -> ->.
    pose proof (eo_hash e He _ _ Hh) as Hok.
    destruct (kdo_rel _ _ _ ClientKeyUpdate _ Hok Q2 Logic.I F1) as (st & o & E & Hk'). cbn [spec_step i_tr tr_psk tr_dh tr_hash tr_c tr_s] in E.
    assert (st = (Start, Some (i_tr Hi (S (count is_ku_recv log)) (count is_ku_sent log)))) as -> by (unfold i_tr; congruence). clear E.
    destruct (kget_rel _ _ _ (GetApp ClientAppTraffic) _ Hok Hk' Logic.I F2) as (st & E). cbn [spec_step] in E.
    assert (Ec : rs = client_traffic (i_h Hi) (i_tr Hi (S (count is_ku_recv log)) (count is_ku_sent log))) by congruence. clear E st. subst rs.
    destruct (N.eqb_spec req 0) as [->|Hreq].
    + injection H0 as <- <-. eapply A_ku0; try eassumption.
    + destruct (encodeHandshake (MKeyUpdate 0)) as [m|] eqn:Em; [|discriminate].
      apply with_write_ok in H0. destruct H0 as (wl & wl' & ct & G1 & G2 & H0).
      apply rekey_write_ok in H0. destruct H0 as (h & k & version2 & cipher & k'' & ws & wl2 & R1 & R2 & R3 & R4 & R5 & R6 & [= <- <-]).
      cbn [upd_ks s_write] in G1.
      destruct (app_content _ _ _ _ _ _ _ _ _ _ (or_intror I0) G1 G2) as (C1 & C2 & C3). cbn [concat] in C3. rewrite app_nil_r in C3.
      cbn [upd_write upd_layers upd_ks s_ks s_version s_cipher] in R1, R2, R3. assert (h = i_h Hi /\ k = k' /\ cipher = i_cipher Hi) as (-> & -> & ->) by (repeat split; congruence).
      destruct (kdo_rel _ _ _ ServerKeyUpdate _ Hok Hk' Logic.I R4) as (st & o2 & E & Hk2). cbn [spec_step i_tr tr_psk tr_dh tr_hash tr_c tr_s] in E.
      assert (st = (Start, Some (i_tr Hi (S (count is_ku_recv log)) (S (count is_ku_sent log))))) as -> by (unfold i_tr; congruence). clear E.
      destruct (kget_rel _ _ _ (GetApp ServerAppTraffic) _ Hok Hk2 Logic.I R5) as (st & E). cbn [spec_step] in E.
      assert (Ea : ws = server_traffic (i_h Hi) (i_tr Hi (S (count is_ku_recv log)) (S (count is_ku_sent log)))) by congruence. clear E st. subst ws.
      change (client_traffic (i_h Hi) (i_tr Hi (S (count is_ku_recv log)) (S (count is_ku_sent log)))) with (client_traffic (i_h Hi) (i_tr Hi (S (count is_ku_recv log)) (count is_ku_sent log))).
      eapply A_ku1; try eassumption. exists wl. split; [exact G1|]. rewrite G2. reflexivity.
  - unfold handle_close in H0. destruct (no_unparsed s) as [[|]|] eqn:Enu; try discriminate. apply no_unparsed_true in Enu. destruct reply.
    + destruct (phase_data _ _ _ HP H) as (Hi & L & P & I0).
      apply with_write_ok in H0. destruct H0 as (wl & wl' & ct & G1 & G2 & [= <- <-]).
      destruct (app_content _ _ _ _ _ _ _ _ _ _ (or_intror I0) G1 G2) as (C1 & C2 & C3). cbn [concat] in C3. rewrite app_nil_r in C3.
      apply A_close; [exact Enu| |reflexivity|reflexivity|reflexivity]. left. split; [exact H|]. split; [eauto|]. exists ct. auto.
    + injection H0 as <- <-. apply A_close; [exact Enu| |reflexivity|reflexivity|reflexivity]. right. auto.
Qed.
Lemma emit_acts e l s log L1 o L2 : env_ok e -> reach e l s log -> log = L1 ++ Emit o :: L2 ->
  (exists log1 s1 w ev s2 pre post, phase e log1 s1 /\ acts e log1 w s1 ev s2 (pre ++ o :: post) /\ L1 = log1 ++ recv_of w ev ++ map Emit pre /\
     exists L3, L2 = map Emit post ++ L3) \/ dull o.
Proof.
  intros He H Hl. destruct (emit_hstep _ _ _ _ _ _ _ He H Hl) as [(log1 & s1 & w & ev & s2 & pre & post & A & B & C)|D]; [left|auto].
  exists log1, s1, w, ev, s2, pre, post. split; [exact A|]. split; [|exact C]. eapply hstep_acts; eassumption.
Qed.
