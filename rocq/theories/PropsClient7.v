(** * C58: the client's flight *)
From Verif Require Import Base Codec CodecSpec Str Hkdf HkdfSpec HkdfProofs KeySched KeySchedSpec KeySchedProofs Handshake Extensions RecordBase Record
  RecordRT ReadEvent HelloChecks Cookie Token Negotiate Ticket PskSer Kex Hpke Transcript IOBufUtil PropsIOBuf EchConfirm HpkeUtils EchCrypt Server
  ServerSpec ServerFacts ServerSteps ServerFlight ServerInv ServerPreserve ExtensionsSpec ExtensionsProofs PropsCodec PropsEch Client ClientSpec ClientHelloSpec ClientSteps ClientHello
  ClientBinder ClientInv ClientAwait ClientHello2 ClientFlight ClientPhase ClientPreserve ClientOrigin ClientSide PropsClient PropsClient2 PropsClient3 PropsClient4 PropsClient6.
Open Scope N_scope.

(** ** Specification *)
(** RFC 8446, 4.4: how the client answers the server's CertificateRequest, if any, in [L], with hash [h], when the transcript so far is [T]:
    with the certificate the application selects for the name [n] and a signature over the transcript; with an empty certificate; or,
    if there was no request, with nothing. *)
Definition own_auth (k : cenv) (h : hashalg) (L : list centry) (n : option bytes) (T au : bytes) : Prop :=
  (exists so scheme cm m sg v, answered k n L (Some (so, scheme)) /\ so_message so = Ok cm /\ encodeHandshake (MCertificate cm) = Ok m /\
     so_sign so scheme CvClient (h_fn h (T ++ m)) = Ok sg /\ encodeHandshake (MCertificateVerify (mkCV scheme (Some sg))) = Ok v /\ au = m ++ v) \/
  (answered k n L None /\ encodeHandshake (MCertificate (mkCert (Some []) [])) = Ok au) \/
  (ccount is_creq L = 0%nat /\ au = []).
(** EndOfEarlyData is sent, as early data, if early data was accepted (and the configuration does not omit it); else nothing is. *)
Definition end_of_early (k : cenv) (L : list centry) (eoc : list content) (eo : bytes) : Prop :=
  (early_accepted k L /\ k_omitEarly k = false /\ eo = be 1 5 ++ be 3 0 /\ exists c, eoc = [c] /\ ct_type c = 22 /\ ct_level c = LvEarlyData /\ ct_plain c = eo) \/
  (eoc = [] /\ eo = [] /\ (k_omitEarly k = true \/ early_rejected L \/ forall mx, ~ In (CEmit (KEarlySuccess mx)) L)).
(** [cs] is the flight sent after the server's Finished: [L] is the log before the Finished, [T] the transcript through it. *)
Definition client_flight (k : cenv) (Q : cparams) (L : list centry) (n : option bytes) (T : bytes) (cs : list content) : Prop :=
  exists ccs eoc ct eo au fin, cs = ccs ++ eoc ++ [ct] /\
    (forall c, In c ccs -> ct_type c = 20) /\
    end_of_early k L eoc eo /\ own_auth k (q_hash Q) L n (T ++ eo) au /\
    encodeHandshake (MFinished (Some (verify_data (q_hash Q) (q_chs Q) (T ++ eo ++ au)))) = Ok fin /\
    ct_type ct = 22 /\ ct_level ct = LvHandshake /\ ct_plain ct = au ++ fin /\
    exists ws msgs, ckeyed k (q_hash Q) (q_cipher Q) (q_chs Q) (ws_aead ws) /\ snd (wl_write (WEnc LvHandshake ws) 22 msgs) = Ok ct.

Lemma finished_sealed k s vd orig s' outs : chandle_finished k s vd orig = CHOk s' outs ->
  exists wl msgs ct pre post cs, c_write s = Some wl /\ snd (wl_write wl 22 msgs) = Ok ct /\ outs = pre ++ KWrite (cs ++ [ct]) :: post /\ length pre = 4%nat.
Proof.
  unfold chandle_finished. destruct (c_hctx s) as [hc|]; [|discriminate]. destruct (c_secrets s) as [[cs ss]|]; [|discriminate]. destruct (c_ks s) as [[h k0]|]; [|discriminate].
  destruct (g_version (c_neg s)) as [v|] eqn:Ev; [|discriminate]. destruct (g_cipher (c_neg s)) as [ci|] eqn:Eci; [|discriminate]. destruct (g_auth (c_neg s)) as [au|] eqn:Eau; [|discriminate].
  destruct (cno_unparsed s) as [[|]|]; try discriminate. destruct (hc_finished hc ss) as [ex0|]; [|discriminate]. destruct vd as [got|]; [|discriminate].
  destruct (negb (crypto_equal ex0 got)); [discriminate|]. cbv zeta. destruct (finished_prepare k s (hc_append hc orig) cs h k0 au) as [[[[[[eoed msgs] ccert] ems] rms] k1]|]; [|discriminate].
  intros H. apply cwith_write_ok in H. destruct H as (wl & wl' & ct & Ew & Ec & H). exists wl, msgs, ct.
  match type of H with match ?x with Ok _ => _ | Err _ => _ end = _ => destruct x as [[[[[k3 ws] wl2] rs] rl]|] end; [|discriminate].
  exists [KSecret (KTraffic SkServerApp) rs; KSecret (KTraffic SkClientApp) ws; KSecret KExporter ems; KSecret KResumption rms].
  set (cc := ccs_first k (c_ccs s) ++ match eoed with Some c => [c] | None => [] end). rewrite (app_assoc (ccs_first k (c_ccs s))) in H. fold cc in H.
  assert (X : exists post, outs = [KSecret (KTraffic SkServerApp) rs; KSecret (KTraffic SkClientApp) ws; KSecret KExporter ems; KSecret KResumption rms] ++ KWrite (cc ++ [ct]) :: post).
  { destruct (c_ech s) as [e|]; [|injection H as _ <-; eexists; reflexivity].
    destruct (ec_status e); try (injection H as _ <-; eexists; reflexivity).
    match type of H with match ?x with Ok _ => _ | Err _ => _ end = _ => destruct x as [al|[]] end; try discriminate; injection H as _ <-; eexists; reflexivity. }
  destruct X as (post & X). exists post, cc. split; [exact Ew|]. split; [rewrite Ec; reflexivity|]. split; [exact X|reflexivity].
Qed.
Lemma eoed_bytes eo : encodeHandshake MEndOfEarlyData = Ok eo -> eo = be 1 5 ++ be 3 0.
Proof. intros E. symmetry. exact (f_equal (fun x => match x with Ok y => y | Err _ => [] end) E). Qed.
Lemma not_reported k l s log w0 cn s0 outs0 X s' : cenv_ok k -> creach k l s log -> side k log s' w0 cn s0 outs0 X -> g_early (c_neg s0) = CeNotAttempted ->
  forall mx, ~ In (CEmit (KEarlySuccess mx)) log.
Proof.
  intros Hk Hr D E mx Hin. apply in_split in Hin. destruct Hin as (A & B & EL). rewrite EL in Hr. destruct (early_reported _ _ _ _ _ _ Hk Hr) as (w' & cn' & s'' & pre1 & post1 & L' & -> & _ & HC).
  assert (E2 : CCall w' (JConnect cn') = CCall w0 (JConnect cn)) by (rewrite (sd_log _ _ _ _ _ _ _ _ D) in EL; cbn [app] in EL; congruence).
  injection E2 as -> ->. destruct (side_attempted _ _ _ _ _ _ _ _ Hk D) as [(_ & Hn)|(Hx & _)]; [|congruence].
  rewrite (sd_connect _ _ _ _ _ _ _ _ D) in HC. injection HC as _ ->. apply (Hn mx). apply in_or_app. right. left. reflexivity.
Qed.
(** A handshake message is written under the handshake keys only as part of the client's flight, in answer to the server's (valid)
    Finished.  The name for which a certificate is selected is the one given to connect; only if Encrypted ClientHello was rejected
    it is another one. *)
Theorem C58_flight k l s L1 cs L2 c : cenv_ok k -> creach k l s (L1 ++ CEmit (KWrite cs) :: L2) -> In c cs -> ct_type c = 22 -> ct_level c = LvHandshake ->
  exists L w vd orig pre L0 wh Q La w0 cn T n,
    L1 = L ++ CRecv w (EvHandshake (MFinished (Some vd)) orig) :: map CEmit pre /\
    cparts k L L0 wh Q La /\ connected L0 w0 cn /\ ctrans (q_hash Q) L (q_hs Q) T /\ vd = verify_data (q_hash Q) (q_shs Q) T /\
    client_flight k Q L n (T ++ orig) cs /\ (ech_as_asked cn Q -> n = cn_sni cn) /\
    exists Tcf, ctrans (q_hash Q) (L1 ++ [CEmit (KWrite cs)]) (q_hs Q) Tcf /\ Tcf = T ++ orig ++ concat (map ct_plain (filter is_hs cs)) /\
      pre = map (fun kd => KSecret kd (csecret_of Q (T ++ orig) Tcf kd 0)) [KTraffic SkServerApp; KTraffic SkClientApp; KExporter; KResumption].
Proof.
  intros Hk Hr Hin Ht Hv.
  destruct (cemit_more _ _ _ _ _ _ _ Hk Hr eq_refl) as [(log1 & s1 & w & ev & s2 & pre & post & L3 & HP & HS & (l1 & s0' & Hr1 & Es & En) & HA & -> & _)|D].
  2:{ exfalso. destruct D as [(n & [=])|[(a & [=])|(ct & [= ->] & E)]]. destruct Hin as [<-|[]]. congruence. }
  remember (pre ++ KWrite cs :: post) as outs eqn:Eo.
  assert (Hone : forall ct, [KWrite [ct]] = pre ++ KWrite cs :: post -> ct_type ct <> 22 \/ ct_level ct <> LvHandshake -> False).
  { intros ct E Hn. apply one_elem in E. destruct E as (_ & _ & [= ->]). destruct Hin as [<-|[]]. destruct Hn; congruence. }
  assert (Hccs : forall b ct, In c (ccs_first k b ++ [ct]) -> c = ct).
  { intros b ct Hi. apply in_app_or in Hi. destruct Hi as [Hi|[Hi|[]]]; [|auto]. exfalso. unfold ccs_first in Hi. destruct (k_compat k && negb b); [|exact Hi].
    destruct Hi as [<-|[]]. discriminate. }
  destruct HA; try (destruct pre; discriminate); try (exfalso; apply one_elem in Eo; destruct Eo as (_ & _ & [=]); fail).
  - exfalso. destruct H2 as [->|(t & mx & x & ->)]; destruct pre as [|? [|? [|? [|? [|? ?]]]]]; try discriminate; injection Eo as; subst; destruct Hin as [<-|[]]; discriminate.
  - exfalso. apply one_elem in Eo. destruct Eo as (_ & _ & [= ->]). apply Hccs in Hin. subst ct. congruence.
  - exfalso. rewrite (ah_outs _ _ _ _ _ _ _ H3) in Eo. destruct pre as [|p1 [|p2 [|p3 pre]]]; discriminate.
  - exfalso. destruct H4 as [->|(n & cs' & ->)]; [destruct pre; discriminate|]. apply one_elem in Eo. destruct Eo as (_ & _ & [=]).
  - assert (Hcs : z_cs F = cs /\ pre = [KSecret (KTraffic SkServerApp) (server_traffic (y_h G) (z_tr G F 0 0)); KSecret (KTraffic SkClientApp) (client_traffic (y_h G) (z_tr G F 0 0));
       KSecret KExporter (z_exporter G F); KSecret KResumption (z_resumption G F)]).
    { unfold z_outs in Eo. destruct pre as [|p1 [|p2 [|p3 [|p4 [|p5 pre]]]]]; try discriminate; [injection Eo as; subst; auto|]. exfalso.
      destruct H12 as [(-> & _)|(_ & _ & _ & _ & _ & [->|(al & -> & Ea)])]; destruct pre as [|p6 [|p7 [|p8 pre]]]; try discriminate.
      injection Eo as; subst. destruct Hin as [<-|[]]. congruence. }
    destruct Hcs as (Hcs & Hpre).
    assert (Hl : live s1) by (unfold live; rewrite H; exact Logic.I).
    destruct (sided_hs k log1 s1) as (w0 & cn & s0 & outs0 & X & D); [exact Hl|congruence|exact HS|].
    assert (Hcn : y_cn G = cn).
    { pose proof (cp_conn _ _ _ _ H0) as (L0' & E1). pose proof (cp_log _ _ _ _ H0) as E2. rewrite (sd_log _ _ _ _ _ _ _ _ D) in E2. unfold y_pre in E2. rewrite E1 in E2. cbn [app] in E2. congruence. }
    assert (Hnm : ech_as_asked (y_cn G) (y_Q G) -> name_used cn s1 = cn_sni (y_cn G)).
    { intros He. unfold name_used. pose proof (fx_ech _ _ H1) as Fe. destruct (c_ech s1) as [e|]; [|rewrite Hcn; reflexivity]. destruct Fe as (F1 & F2). rewrite F1. unfold ech_status. rewrite (proj2 He F2), Hcn. reflexivity. }
    exists log1, w, (verify_data (y_h G) (q_shs (y_Q G)) (z_T F)), orig, pre, (y_L0 G), (y_w G), (y_Q G), L, (y_w0 G), (y_cn G), (z_T F), (name_used cn s1).
    split; [rewrite H4; reflexivity|]. split; [apply past_parts; assumption|]. split; [apply H0|].
    split. { pose proof (zf_before _ _ _ H10) as B. rewrite H5, <- (cp_log _ _ _ _ H0) in B. exact B. }
    split; [reflexivity|].
    assert (HT : exists Tcf, ctrans (q_hash (y_Q G)) ((log1 ++ centry_of w (ERead (EvHandshake (MFinished vd) orig)) :: map CEmit pre) ++ [CEmit (KWrite cs)]) (q_hs (y_Q G)) Tcf /\
      Tcf = z_T F ++ orig ++ concat (map ct_plain (filter is_hs cs)) /\ pre = map (fun kd => KSecret kd (csecret_of (y_Q G) (z_T F ++ orig) Tcf kd 0)) [KTraffic SkServerApp; KTraffic SkClientApp; KExporter; KResumption]).
    { exists (z_Tcf F). split.
      - pose proof (zf_after _ _ _ H10) as B. rewrite H5, app_assoc, <- (cp_log _ _ _ _ H0) in B. unfold z_entry, z_outs in B. rewrite Hcs, H6, H7, <- H4 in B.
        cbn [centry_of]. rewrite Hpre, <- app_assoc. exact B.
      - split; [unfold z_Tcf, z_Tsf, z_fl; rewrite Hcs, H7, <- app_assoc; reflexivity|].
        rewrite Hpre. unfold z_tr, z_exporter, z_resumption, z_Tsf. rewrite H7. reflexivity. }
    split; [|split; [exact Hnm|exact HT]].
    destruct H11 as (eoc & eo & au & fin & ct & K1 & K2 & K3 & K4 & K5 & K6 & K7 & K8). rewrite Hcs in K1.
    exists (ccs_first k (c_ccs s1)), eoc, ct, eo, au, fin. split; [exact K1|]. unfold z_Tsf in K7, K8. rewrite H7 in K7, K8.
    split. { intros c' Hc. unfold ccs_first in Hc. destruct (k_compat k && negb (c_ccs s1)); [|destruct Hc]. destruct Hc as [<-|[]]. reflexivity. }
    split.
    { pose proof (sd_early _ _ _ _ _ _ _ _ D) as Hd. unfold end_of_early. destruct (g_early (c_neg s1)).
      - right. destruct K6 as (-> & ->). split; [reflexivity|]. split; [reflexivity|]. right. right. eapply not_reported; eassumption.
      - exfalso. destruct Hd as (_ & [(E & _)|(E & _)]); congruence.
      - right. destruct K6 as (-> & ->). split; [reflexivity|]. split; [reflexivity|]. right. left. apply Hd.
      - destruct (k_omitEarly k); cbn [negb] in K6.
        + right. destruct K6 as (-> & ->). auto.
        + left. destruct K6 as (K6 & c0 & wl & wl' & -> & A1 & A2 & A3 & A4). split; [apply Hd|]. split; [reflexivity|]. split; [exact (eoed_bytes _ K6)|].
          exists c0. split; [reflexivity|]. split; [exact A1|]. split; [eapply plain_early; eassumption|exact A2]. }
    split.
    { pose proof (sd_auth _ _ _ _ _ _ _ _ D) as Hd. unfold own_auth. rewrite <- app_assoc. destruct (g_auth (c_neg s1)) as [[| | |]|].
      - right. right. auto.
      - left. destruct Hd as [E|(a & Ea & Hd)]; [congruence|]. destruct K7 as (so & scheme & cm & m & sg & v & B1 & B2 & B3 & B4 & B5 & B6).
        exists so, scheme, cm, m, sg, v. assert (a = (so, scheme)) by congruence. subst a. rewrite !app_assoc in *. auto 10.
      - right. left. auto.
      - right. right. auto.
      - right. right. auto. }
    split; [exact K8|]. split; [exact K2|]. split; [exact K3|]. split; [exact K4|].
    destruct (finished_sealed _ _ _ _ _ _ H3) as (wl & msgs & ct' & pre' & post' & cs' & W1 & W2 & W3 & W4).
    destruct (xi_write _ _ _ _ _ H2) as (ws & W5 & W6). exists ws, msgs. split; [exact W6|]. assert (wl = WEnc LvHandshake ws) by congruence. subst wl. rewrite W2. f_equal.
    destruct pre' as [|? [|? [|? [|? [|? ?]]]]]; try discriminate W4. unfold z_outs in W3. cbn [app] in W3. assert (E : z_cs F = cs' ++ [ct']) by congruence.
    rewrite Hcs, K1, app_assoc in E. apply app_inj_tail in E. symmetry. apply E.
  - exfalso. revert Eo. intros Eo. eapply Hone; [exact Eo|]. left. rewrite H6. discriminate.
  - exfalso. apply one_elem in Eo. destruct Eo as (_ & _ & [= ->]). apply Hccs in Hin. subst ct. congruence.
  - exfalso. destruct pre as [|p1 [|p2 [|p3 pre]]]; try discriminate. injection Eo as; subst. destruct Hin as [<-|[]]. congruence.
  - exfalso. destruct H7 as [(_ & E)|(_ & ws & ct & wl & E & G1 & G2 & G3 & G4 & _)]; rewrite E in Eo; destruct pre as [|p1 [|p2 [|p3 [|p4 pre]]]]; try discriminate.
    injection Eo as; subst. destruct Hin as [<-|[]]. congruence.
  - exfalso. destruct H3 as [(_ & ct & -> & E & _)|(_ & ->)]; [|apply one_elem in Eo; destruct Eo as (_ & _ & [=])]. destruct pre as [|a [|c0 [|d pre]]]; try discriminate.
    injection Eo as; subst. destruct Hin as [<-|[]]. congruence.
Qed.
(** The flight has been sent when success is reported. *)
Theorem C58_before_success k l s L1 early L2 : cenv_ok k -> creach k l s (L1 ++ CEmit (KSuccess early) :: L2) ->
  exists L' cs c, L1 = L' ++ [CEmit (KWrite cs)] /\ In c cs /\ ct_type c = 22 /\ ct_level c = LvHandshake.
Proof.
  intros Hk Hr. destruct (cemit_acts _ _ _ _ _ _ _ Hk Hr eq_refl) as [(l1 & s0 & log1 & s1 & w & ev & s2 & pre & post & L3 & Hr1 & _ & _ & HP & HA & -> & HL3)|D].
  2:{ destruct D as [(n & [=])|[(a & [=])|(ct & [=] & _)]]. }
  remember (pre ++ KSuccess early :: post) as outs eqn:Eo.
  destruct HA; try (destruct pre; discriminate); try (exfalso; apply one_elem in Eo; destruct Eo as (_ & _ & [=]); fail).
  - exfalso. destruct H2 as [->|(t & mx & x & ->)]; destruct pre as [|? [|? [|? [|? [|? ?]]]]]; discriminate.
  - exfalso. rewrite (ah_outs _ _ _ _ _ _ _ H3) in Eo. destruct pre as [|? [|? [|? ?]]]; discriminate.
  - exfalso. destruct H4 as [->|(n & cs & ->)]; [destruct pre; discriminate|]. apply one_elem in Eo. destruct Eo as (_ & _ & [=]).
  - destruct (csplit_success _ _ _ _ _ _ (tail_cases _ _ _ _ H12) Eo) as (Et & -> & _ & _).
    destruct H11 as (eoc & eo & au & fin & ct & K1 & K2 & K3 & _). unfold z_outs. cbn [map]. eexists (log1 ++ [_; _; _; _; _]), (z_cs F), ct.
    split; [rewrite <- app_assoc; reflexivity|]. split; [rewrite K1; apply in_or_app; right; apply in_or_app; right; left; reflexivity|]. auto.
  - exfalso. destruct pre as [|? [|? [|? ?]]]; discriminate.
  - exfalso. destruct H7 as [(_ & E)|(_ & ws & ct & wl & E & _)]; rewrite E in Eo; destruct pre as [|? [|? [|? [|? ?]]]]; discriminate.
  - exfalso. destruct H3 as [(_ & ct & -> & _)|(_ & ->)]; destruct pre as [|? [|? [|? ?]]]; discriminate.
Qed.
(** Change-cipher-spec records are sent only in compatibility mode, and then at most once. *)
Lemma ccs_alert s outs : cfail_outs s outs -> ccs_sent (map CEmit outs) = 0%nat.
Proof.
  intros (a & [->|(d & ct & wl & -> & _ & Hc & ->)]); [reflexivity|]. cbn [map]. change [CEmit (KWrite [ct]); CEmit (KError (Some d))] with ([CEmit (KWrite [ct])] ++ [CEmit (KError (Some d))]).
  rewrite ccs_app, (ccs_one ct); [reflexivity|]. rewrite Hc. discriminate.
Qed.
Lemma ccs_input w s i : ccs_sent (cinput_log w s i) = 0%nat.
Proof. destruct (cinput_one w s i) as [->|[->|(ev & ->)]]; reflexivity. Qed.
Theorem C58_change_cipher_spec k l s log : cenv_ok k -> creach k l s log -> (ccs_sent log <= b2n (k_compat k))%nat.
Proof.
  intros Hk Hr. pattern s, log. eapply creach_rect; [| |exact Hr]; clear l s log Hr.
  - cbn. lia.
  - intros l s log w i s' outs Hr IH Hst. pose proof (creach_snoc _ _ _ _ _ _ _ _ Hr Hst) as Hr2. pose proof (creach_phase _ _ _ _ Hk Hr) as HP. pose proof (creach_sided _ _ _ _ Hk Hr) as HS.
    assert (Hlive : live s' -> (ccs_sent (log ++ cinput_log w s i ++ map CEmit outs) <= b2n (k_compat k))%nat).
    { intros Hl. destruct (creach_sided _ _ _ _ Hk Hr2 Hl) as [(_ & E)|(w0 & cn & s0 & outs0 & X & D)]; [rewrite E; cbn; lia|].
      destruct (sd_ccs _ _ _ _ _ _ _ _ D) as (E & Hc). rewrite E. destruct (c_ccs s'); [rewrite Hc by reflexivity; lia|cbn; lia]. }
    assert (Hdead : ccs_sent (cinput_log w s i ++ map CEmit outs) = 0%nat -> (ccs_sent (log ++ cinput_log w s i ++ map CEmit outs) <= b2n (k_compat k))%nat).
    { intros E. rewrite ccs_app, E. lia. }
    assert (Main : forall s1 ev, c_state s1 = c_state s -> cphase k log s1 -> (live s1 -> sided k log s1) -> chstep k w s1 ev s' outs -> cinput_log w s i = [centry_of w ev] ->
      (ccs_sent (log ++ cinput_log w s i ++ map CEmit outs) <= b2n (k_compat k))%nat).
    { intros s1 ev Es HP1 HS1 Hc Hi. pose proof (chstep_acts _ _ _ _ _ _ _ Hk HP1 Hc) as HA. rewrite Hi in *. cbn [app] in *. destruct HA.
      - apply Hlive. unfold live. rewrite (aw_state _ _ _ _ H3). exact Logic.I.
      - apply Hlive. unfold live. rewrite (aw_state _ _ _ _ H4). exact Logic.I.
      - apply Hlive. unfold live. rewrite (ah_state _ _ _ _ _ _ _ H3). exact Logic.I.
      - apply Hdead. destruct H4 as [->|(n & cs & ->)]; reflexivity.
      - apply Hdead. reflexivity.
      - destruct H12 as [(_ & _ & E)|(_ & _ & _ & _ & _ & Ht)]; [apply Hlive; unfold live; rewrite E; exact Logic.I|].
        destruct (sided_hs k log s1) as (w0 & cn & s0 & outs0 & X & D); [unfold live; rewrite H; exact Logic.I|congruence|exact HS1|].
        destruct (sd_ccs _ _ _ _ _ _ _ _ D) as (E & Hcc). pose proof (flight_ccs _ _ _ _ H11) as Hf.
        assert (HY : ccs_sent (centry_of w (ERead (EvHandshake (MFinished vd) orig)) :: map CEmit (z_outs G F ++ tail)) = ccs_sent [CEmit (KWrite (z_cs F))]).
        { rewrite ccs_skip by exact Logic.I. rewrite map_app, ccs_app. assert (E2 : ccs_sent (map CEmit tail) = 0%nat).
          { destruct Ht as [->|(al & -> & Ea)]; [reflexivity|]. cbn [map]. change [CEmit (KWrite [al]); CEmit (KError (Some al_ech_required))] with ([CEmit (KWrite [al])] ++ [CEmit (KError (Some al_ech_required))]).
            rewrite ccs_app, (ccs_one al); [reflexivity|]. rewrite Ea. discriminate. }
          rewrite E2, Nat.add_0_r. unfold z_outs. cbn [map]. rewrite !ccs_skip by exact Logic.I. reflexivity. }
        rewrite ccs_app, HY, E. destruct (c_ccs s1), (k_compat k); cbn [b2n orb] in *; try lia; specialize (Hcc eq_refl); discriminate.
      - apply Hdead. reflexivity.
      - apply Hdead. reflexivity.
      - apply Hdead. rewrite ccs_skip by (destruct H3 as [->|(-> & _)]; exact Logic.I). apply ccs_one. rewrite H6. discriminate.
      - apply Hdead. reflexivity.
      - apply Hlive. unfold live. cbn [cu_early c_state]. decompose [or] H; match goal with E : c_state _ = _ |- _ => rewrite E; exact Logic.I end.
      - apply Hlive. unfold live. rewrite H9. exact Logic.I.
      - apply Hlive. unfold live. rewrite H5. exact Logic.I.
      - apply Hdead. destruct H3 as [(_ & ct & -> & E & _)|(_ & ->)]; [|reflexivity]. rewrite ccs_skip by exact Logic.I. cbn [map].
        change [CEmit (KWrite [ct]); CEmit (KEndOfData post)] with ([CEmit (KWrite [ct])] ++ [CEmit (KEndOfData post)]). rewrite ccs_app, ccs_one; [reflexivity|]. rewrite E. discriminate. }
    apply cstep_cases in Hst.
    destruct Hst as [ev R1 R2 R3|r b r' b' x R1 R2 R3 R4 R5|r b r' b' hint R1 R2 R3 R4 R5 R6|R1 R2 R3 R4 R5|a R1 R2 R3 R4|R1 R2|R1 R2 R3 R4 R5].
    + apply (Main s ev); auto. rewrite R1, (ccall_entry _ _ _ R2). reflexivity.
    + apply (Main (cu_read s (Some r')) (ERead x)); auto; [eapply cread_phase; eassumption|].
      intros Hv. specialize (HS Hv). apply sided_keep in HS; [|congruence]. destruct HS as (w0 & cn & s0 & outs0 & X & D).
      right. exists w0, cn, s0, outs0, X. pose proof (side_same _ _ _ (cu_read s (Some r')) _ _ _ _ _ [] D eq_refl eq_refl eq_refl eq_refl (fun _ => eq_refl) eq_refl) as D'.
      rewrite !app_nil_r in D'. exact D'.
    + apply Hdead. rewrite R4, R6. reflexivity.
    + apply Hdead. rewrite ccs_app, (ccs_alert _ _ R5), ccs_input. reflexivity.
    + apply Hdead. rewrite R4, ccs_app, ccs_input. reflexivity.
    + apply Hdead. rewrite R2, ccs_app, ccs_input. reflexivity.
    + apply Hdead. rewrite ccs_app, ccs_input. destruct R5 as [->|(wl & ct & _ & E & ->)]; [reflexivity|]. cbn [map]. rewrite ccs_one; [reflexivity|]. rewrite E. discriminate.
Qed.
