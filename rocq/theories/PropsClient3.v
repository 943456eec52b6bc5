(** * C51, C52: secrets and keys of a client connection *)
From Verif Require Import Base Codec CodecSpec Str Hkdf HkdfSpec HkdfProofs KeySched KeySchedSpec KeySchedProofs Handshake Extensions RecordBase Record
  RecordRT ReadEvent HelloChecks Cookie Token Negotiate Ticket PskSer Kex Hpke Transcript IOBufUtil PropsIOBuf EchConfirm HpkeUtils EchCrypt Server
  ServerSpec ServerFacts ServerSteps ServerFlight ServerInv ServerPreserve ExtensionsSpec ExtensionsProofs PropsCodec PropsEch Client ClientSpec ClientSteps ClientHello
  ClientInv ClientAwait ClientFlight ClientPhase ClientPreserve ClientOrigin PropsClient PropsClient2.
Open Scope N_scope.

(** ** Specification *)
(** RFC 8446, 7.1 and 7.2: the secrets of a handshake with parameters [Q], transcript [Tsf] through the server's Finished and [Tcf] through
    the client's.  Application traffic secrets have generations, the first being 0.  (Early secrets: C56.) *)
Definition capp_traffic (Q : cparams) (Tsf : bytes) (n : nat) : traffic := mkTr (q_secret Q) (q_dh Q) (h_fn (q_hash Q) Tsf) n n.
Definition csecret_of (Q : cparams) (Tsf Tcf : bytes) (kd : cskind) (n : nat) : bytes :=
  let master := MasterSecret (q_hash Q) (q_secret Q) (q_dh Q) in
  match kd with
  | KTraffic SkClientHs => client_hs_secret (q_hash Q) (q_secret Q) (q_dh Q) (q_Tsh Q)
  | KTraffic SkServerHs => server_hs_secret (q_hash Q) (q_secret Q) (q_dh Q) (q_Tsh Q)
  | KTraffic SkClientApp => client_traffic (q_hash Q) (capp_traffic Q Tsf n)
  | KTraffic SkServerApp => server_traffic (q_hash Q) (capp_traffic Q Tsf n)
  | KExporter => DeriveSecret (q_hash Q) master (str "exp master") (h_fn (q_hash Q) Tsf)
  | KResumption => DeriveSecret (q_hash Q) master (str "res master") (h_fn (q_hash Q) Tcf)
  | _ => []
  end.
Definition cis_secret (kd : cskind) (x : centry) : bool :=
  match x with
  | CEmit (KSecret kd' _) =>
      match kd, kd' with
      | KTraffic SkEarly, KTraffic SkEarly | KTraffic SkClientHs, KTraffic SkClientHs | KTraffic SkServerHs, KTraffic SkServerHs
      | KTraffic SkClientApp, KTraffic SkClientApp | KTraffic SkServerApp, KTraffic SkServerApp
      | KExporter, KExporter | KResumption, KResumption | KEarlyExporter, KEarlyExporter => true
      | _, _ => false
      end
  | _ => false
  end.
Definition early_kind (kd : cskind) : Prop := kd = KTraffic SkEarly \/ kd = KEarlyExporter.
Definition hs_kind (kd : cskind) : Prop := kd = KTraffic SkClientHs \/ kd = KTraffic SkServerHs.
Definition app_kind (kd : cskind) : Prop := kd = KTraffic SkClientApp \/ kd = KTraffic SkServerApp.
(** In [log] the server's Finished was accepted and the client's flight, ending with its Finished, sent: [Tsf] is the transcript through the
    one, [Tcf] through the other. *)
Definition cfinished_in (Q : cparams) (log : list centry) (Tsf Tcf : bytes) : Prop :=
  exists Lf w vd o sec cs L', log = Lf ++ CRecv w (EvHandshake (MFinished vd) o) :: map CEmit sec ++ CEmit (KWrite cs) :: L' /\
    sec <> [] /\ (forall x, In x sec -> exists kd b, x = KSecret kd b) /\
    ctrans (q_hash Q) (Lf ++ [CRecv w (EvHandshake (MFinished vd) o)]) (q_hs Q) Tsf /\
    ctrans (q_hash Q) (Lf ++ CRecv w (EvHandshake (MFinished vd) o) :: map CEmit sec ++ [CEmit (KWrite cs)]) (q_hs Q) Tcf.

(** ** How many secrets have been exported *)
Definition csc (kd : cskind) (L : list centry) : nat := ccount (cis_secret kd) L.
Lemma csc_app kd a b : csc kd (a ++ b) = (csc kd a + csc kd b)%nat. Proof. apply ccount_app. Qed.
Definition late_kind (kd : cskind) : Prop := app_kind kd \/ kd = KExporter \/ kd = KResumption.
Definition cexported (log : list centry) (s : cstate) : Prop :=
  match c_state s with
  | CUninitialized => forall kd, csc kd log = 0%nat
  | CExpectingServerHello => forall kd, hs_kind kd \/ late_kind kd -> csc kd log = 0%nat
  | CExpectingEncryptedExtensions | CExpectingCertificate | CExpectingCertificateVerify | CExpectingFinished => forall kd, late_kind kd -> csc kd log = 0%nat
  | CEstablished => csc (KTraffic SkServerApp) log = S (ccount cis_ku_recv log) /\ csc (KTraffic SkClientApp) log = S (ccount cis_ku_sent log)
  | _ => True
  end.
Definition cunexported (X : list centry) : Prop := forall kd, csc kd X = 0%nat.
Lemma cunexported_cons x X : (forall kd, cis_secret kd x = false) -> cunexported X -> cunexported (x :: X).
Proof. intros H HX kd. unfold csc, ccount. cbn [filter]. rewrite H. apply HX. Qed.
Lemma cunexported_app a b : cunexported a -> cunexported b -> cunexported (a ++ b).
Proof. intros A B kd. rewrite csc_app, A, B. reflexivity. Qed.
Lemma csc_entry kd w ev L : csc kd (centry_of w ev :: L) = csc kd L.
Proof. destruct ev; reflexivity. Qed.
Lemma cexported_plain log s s' X : cexported log s -> cunexported X -> (c_state s = CEstablished -> ccount cis_ku_sent X = 0%nat /\ ccount cis_ku_recv X = 0%nat) ->
  c_state s' = c_state s -> cexported (log ++ X) s'.
Proof.
  unfold cexported. intros HE P1 P2 ->.
  destruct (c_state s); try exact Logic.I; try (intros kd; rewrite csc_app, P1, Nat.add_0_r; apply HE).
  destruct (P2 eq_refl) as (A & B). rewrite !csc_app, !P1, !ccount_app, A, B, !Nat.add_0_r. exact HE.
Qed.
Definition cin_hs (s : cstate) : Prop :=
  match c_state s with
  | CExpectingEncryptedExtensions | CExpectingCertificate | CExpectingCertificateVerify | CExpectingFinished => True
  | _ => False
  end.
Lemma cin_hs_exported log s : cin_hs s -> cexported log s <-> (forall kd, late_kind kd -> csc kd log = 0%nat).
Proof. unfold cin_hs, cexported. destruct (c_state s); tauto. Qed.
Lemma hs_exported log s s' X : cin_hs s -> cin_hs s' -> cunexported X -> cexported log s -> cexported (log ++ X) s'.
Proof.
  intros A B C D. apply cin_hs_exported; [exact B|]. pose proof (proj1 (cin_hs_exported log s A) D) as D'. intros kd Hk. rewrite csc_app, C, D' by exact Hk. reflexivity.
Qed.
Lemma chs_in_hs k log s G L : chs_inv k log s G L -> cin_hs s.
Proof. intros I. pose proof (xi_state _ _ _ _ _ I) as S. unfold cin_hs. destruct (c_state s); try contradiction; exact Logic.I. Qed.
Lemma hstep_in_hs k w s m orig s' : chs_msg m -> chstep k w s (ERead (EvHandshake m orig)) s' [] -> cin_hs s'.
Proof.
  intros Hm HS. unfold cin_hs. destruct m; cbn [chs_msg] in Hm; try contradiction; inversion HS; subst;
  match goal with
  | H : handle_cert_msg _ _ _ _ _ _ = Ok _ |- _ => rewrite (cert_msg_state _ _ _ _ _ _ _ _ H); exact Logic.I
  | H : handle_compressed_cert _ _ _ _ _ = Ok _ |- _ => destruct (compressed_ok _ _ _ _ _ _ _ H) as (_ & d & _ & E); rewrite (cert_msg_state _ _ _ _ _ _ _ _ E); exact Logic.I
  | H : handle_cert_request _ _ _ _ = Ok _ |- _ => destruct (cert_request_ok _ _ _ _ _ _ H) as (_ & hc & sel & au & _ & E); rewrite E; exact Logic.I
  | H : handle_cert_verify _ _ _ _ = Ok _ |- _ => destruct (cverify_ok _ _ _ _ _ _ H) as (_ & hc & hl & le & re & sg & c & _ & _ & _ & _ & _ & _ & _ & E); rewrite E; exact Logic.I
  end.
Qed.
Lemma ee_in_hs k w s x orig s' outs : handle_ee k w s x orig = Ok (s', outs) -> cin_hs s'.
Proof.
  intros H. unfold handle_ee in H. destruct (c_hello s) as [hl|]; [|discriminate]. destruct (c_hctx s) as [hc|]; [|discriminate].
  destruct (g_psk (c_neg s)) as [pt|]; [|discriminate]. destruct (h_req hl); [|discriminate].
  bo H u E4. bo H a E5. bo H alpn E6. bo H e E7. bo H ed E8. bo H rt E9. bo H u2 E10. cbv zeta in H. injection H as <- _.
  unfold cin_hs. cbn. destruct (pskAccepted pt); exact Logic.I.
Qed.
Lemma cunexported_write cs X : cunexported X -> cunexported (CEmit (KWrite cs) :: X).
Proof. apply cunexported_cons. intros []; reflexivity. Qed.
Lemma cunexported_nil : cunexported []. Proof. intros kd. reflexivity. Qed.
Lemma cunexported_entry w ev X : cunexported X -> cunexported (centry_of w ev :: X).
Proof. intros H kd. rewrite csc_entry. apply H. Qed.
Lemma centry_ku_sent w ev L : ccount cis_ku_sent (centry_of w ev :: L) = ccount cis_ku_sent L.
Proof. destruct ev; reflexivity. Qed.
Lemma ku_write23 ct : ct_type ct = 23 -> cis_ku_sent (CEmit (KWrite [ct])) = false.
Proof. intros H. cbn [cis_ku_sent]. unfold is_hs. rewrite H. reflexivity. Qed.
Lemma clate_cases kd : late_kind kd -> kd = KTraffic SkClientApp \/ kd = KTraffic SkServerApp \/ kd = KExporter \/ kd = KResumption.
Proof. unfold late_kind, app_kind. tauto. Qed.
Lemma cexported_acts k log w s ev s' outs : cphase k log s -> cacts k log w s ev s' outs -> cexported log s -> cexported (log ++ centry_of w ev :: map CEmit outs) s'.
Proof.
  intros HP HA HE. destruct HA.
  - subst. unfold cexported. rewrite (aw_state _ _ _ _ H3). intros kd Hkd. cbn [app]. rewrite csc_entry.
    destruct H2 as [->|(t & mx & x & ->)]; destruct Hkd as [[->| ->]|Hkd]; try reflexivity; apply clate_cases in Hkd; repeat (destruct Hkd as [->|Hkd]; [reflexivity|]); subst; reflexivity.
  - eapply cexported_plain; [exact HE| | |rewrite (aw_state _ _ _ _ H4), (aw_state _ _ _ _ H); reflexivity].
    + apply cunexported_entry, cunexported_write, cunexported_nil.
    + rewrite (aw_state _ _ _ _ H). discriminate.
  - assert (Hs : cin_hs s') by (unfold cin_hs; rewrite (ah_state _ _ _ _ _ _ _ H3); exact Logic.I).
    apply cin_hs_exported; [exact Hs|]. intros kd Hkd. unfold cexported in HE. rewrite (aw_state _ _ _ _ H) in HE.
    rewrite csc_app, csc_entry, (HE kd) by (right; exact Hkd). rewrite (ah_outs _ _ _ _ _ _ _ H3).
    apply clate_cases in Hkd; repeat (destruct Hkd as [->|Hkd]; [reflexivity|]); subst; reflexivity.
  - eapply hs_exported; [eapply chs_in_hs; eassumption|eapply ee_in_hs; eassumption| |exact HE]. apply cunexported_entry.
    destruct H4 as [->|(n & cs & ->)]; [apply cunexported_nil|apply cunexported_cons; [intros []; reflexivity|apply cunexported_nil]].
  - eapply hs_exported; [eapply chs_in_hs; eassumption|eapply hstep_in_hs; eassumption| |exact HE]. apply cunexported_entry, cunexported_nil.
  - destruct H12 as [(-> & _ & Es)|(Es & _)]; [|unfold cexported; rewrite Es; exact Logic.I].
    pose proof (proj1 (cin_hs_exported log s (chs_in_hs _ _ _ _ _ H2)) HE) as HE'. destruct (xi_quiet _ _ _ _ _ H2) as (_ & Q1 & Q2).
    unfold cexported. rewrite Es, !csc_app, !ccount_app, !csc_entry, centry_ku_sent, Q1, Q2, !HE' by (unfold late_kind, app_kind; auto).
    rewrite map_app, !csc_app, !ccount_app. unfold z_outs.
    assert (X : ccount cis_ku_sent (map CEmit [KSecret (KTraffic SkServerApp) (server_traffic (y_h G) (z_tr G F 0 0)); KSecret (KTraffic SkClientApp) (client_traffic (y_h G) (z_tr G F 0 0));
       KSecret KExporter (z_exporter G F); KSecret KResumption (z_resumption G F); KWrite (z_cs F)]) = 0%nat).
    { unfold ccount. cbn [map filter]. rewrite (zf_ku _ _ _ H10). reflexivity. }
    rewrite X. split; reflexivity.
  - eapply cexported_plain; [exact HE| | |reflexivity].
    + apply cunexported_entry, cunexported_cons; [intros []; reflexivity|apply cunexported_nil].
    + intros _. split; reflexivity.
  - eapply cexported_plain; [exact HE| | |reflexivity].
    + apply cunexported_entry, cunexported_cons; [intros []; reflexivity|apply cunexported_nil].
    + intros _. split; reflexivity.
  - eapply cexported_plain; [exact HE| | |reflexivity].
    + apply cunexported_entry, cunexported_write, cunexported_nil.
    + intros _. rewrite centry_ku_sent. unfold ccount. cbn [map filter]. rewrite (ku_write23 _ H6). destruct H3 as [->|(-> & _)]; split; reflexivity.
  - eapply cexported_plain; [exact HE| | |reflexivity].
    + apply cunexported_entry, cunexported_cons; [intros []; reflexivity|apply cunexported_nil].
    + intros _. split; reflexivity.
  - eapply cexported_plain; [exact HE| | |reflexivity].
    + apply cunexported_entry, cunexported_write, cunexported_nil.
    + intros E. repeat (destruct H as [H|H]); congruence.
  - unfold cexported in *. rewrite H9. rewrite H in HE. destruct HE as (E1 & E2). rewrite !csc_app, !ccount_app, !csc_entry, centry_ku_sent, E1, E2.
    unfold csc, ccount. cbn [map filter cis_secret centry_of cis_ku_recv]. rewrite (cku_msg _ _ _ H8 H6 eq_refl). cbn. lia.
  - unfold cexported in *. rewrite H5. rewrite H in HE. destruct HE as (E1 & E2). rewrite !csc_app, !ccount_app, !csc_entry, centry_ku_sent, E1, E2.
    destruct H7 as [(_ & ->)|(_ & ws & ct & wl & -> & _ & _ & T & _ & M & _)]; unfold csc, ccount; cbn [map filter cis_secret centry_of cis_ku_recv].
    + cbn. lia.
    + rewrite (cku_msg _ _ _ M T eq_refl). cbn. lia.
  - unfold cexported. rewrite H0. exact Logic.I.
Qed.
Lemma cexported_reach k l s log : cenv_ok k -> creach k l s log -> cexported log s.
Proof.
  intros Hk Hr. assert (G : cphase k log s /\ cexported log s); [|apply G].
  pattern s, log. eapply creach_rect; [| |exact Hr]; clear -Hk.
  - split; [apply CPInit; reflexivity|]. intros kd. reflexivity.
  - intros l s log w i s' o Hr (HP & IH) H. split.
    { eapply creach_phase; [exact Hk|]. eapply creach_snoc; eassumption. }
    apply cstep_cases in H.
    destruct H as [ev R1 R2 R3|r b r' b' x R1 R2 R3 R4 R5|r b r' b' hint R1 R2 R3 R4 R5 R6|R1 R2 R3 R4 R5|a R1 R2 R3 R4|R1 R2|R1 R2 R3 R4 R5].
    + rewrite R1, <- (ccall_entry w _ _ R2). eapply cexported_acts; [exact HP| |exact IH]. eapply chstep_acts; eassumption.
    + rewrite R4. change [CRecv w x] with [centry_of w (ERead x)].
      assert (HP' : cphase k log (cu_read s (Some r'))) by (eapply cread_phase; eassumption).
      eapply (cexported_acts _ _ _ (cu_read s (Some r'))); [exact HP'| |exact IH]. eapply chstep_acts; eassumption.
    + rewrite R4, R5, R6. eapply cexported_plain; [exact IH| |intros _; split; reflexivity|reflexivity]. apply cunexported_cons; [intros []; reflexivity|apply cunexported_nil].
    + unfold cexported. rewrite R2. exact Logic.I.
    + unfold cexported. rewrite R2. exact Logic.I.
    + unfold cexported. rewrite R1. exact Logic.I.
    + unfold cexported. destruct R3 as [-> |R3]; [exact Logic.I|rewrite R3; exact Logic.I].
Qed.
Lemma cparts_more k log L0 w Q La X : cparts k log L0 w Q La -> cparts k (log ++ X) L0 w Q (La ++ X).
Proof. intros (-> & H). split; [|exact H]. rewrite <- app_assoc. reflexivity. Qed.
Lemma cclient_gen G F c s : client_traffic (y_h G) (z_tr G F c s) = csecret_of (y_Q G) (z_Tsf F) (z_Tcf F) (KTraffic SkClientApp) c.
Proof. reflexivity. Qed.
Lemma cserver_gen G F c s : server_traffic (y_h G) (z_tr G F c s) = csecret_of (y_Q G) (z_Tsf F) (z_Tcf F) (KTraffic SkServerApp) s.
Proof. reflexivity. Qed.
Lemma cfinished_in_of k G F L' : cfinished k G F -> cfinished_in (y_Q G) (y_pre G ++ z_L1 F ++ z_entry G F :: map CEmit (z_outs G F) ++ L') (z_Tsf F) (z_Tcf F).
Proof.
  intros [A B _ _]. exists (y_pre G ++ z_L1 F), (z_w F), (Some (verify_data (y_h G) (q_shs (y_Q G)) (z_T F))), (z_orig F),
    [KSecret (KTraffic SkServerApp) (server_traffic (y_h G) (z_tr G F 0 0)); KSecret (KTraffic SkClientApp) (client_traffic (y_h G) (z_tr G F 0 0));
     KSecret KExporter (z_exporter G F); KSecret KResumption (z_resumption G F)], (z_cs F), L'.
  split; [rewrite <- app_assoc; reflexivity|]. split; [discriminate|]. split.
  { intros x Hx. cbn [In] in Hx. repeat (destruct Hx as [<-|Hx]; [eauto|]). destruct Hx. }
  split. { apply (ctrans_recv (y_h G)); [exact A|exact Logic.I]. }
  unfold z_outs in B. cbn [map app] in *. rewrite <- app_assoc. exact B.
Qed.
(** ** C51 *)
(** Every secret exported (early ones aside) is the one RFC 8446 (7.1, 7.2, 7.5) prescribes for the parameters of this handshake: the n-th
    application traffic secret of a direction is generation n, and the others are exported once. *)
Theorem C51_secrets k l s L1 kd b L2 : cenv_ok k -> creach k l s (L1 ++ CEmit (KSecret kd b) :: L2) -> ~ early_kind kd ->
  exists L0 w Q La Tsf Tcf, cparts k (L1 ++ CEmit (KSecret kd b) :: L2) L0 w Q La /\
    b = csecret_of Q Tsf Tcf kd (ccount (cis_secret kd) L1) /\
    (app_kind kd \/ ccount (cis_secret kd) L1 = 0%nat) /\
    (hs_kind kd \/ cfinished_in Q (L1 ++ CEmit (KSecret kd b) :: L2) Tsf Tcf).
Proof.
  intros Hk Hr Hne. destruct (cemit_acts _ _ _ _ _ _ _ Hk Hr eq_refl) as [(l1 & s0 & log1 & s1 & w & ev & s2 & pre & post & L3 & Hr1 & Es & _ & HP & HA & HL1 & HL2)|D].
  2:{ destruct D as [(n & [=])|[(a & [=])|(ct & [=] & _)]]. }
  pose proof (cexported_reach _ _ _ _ Hk Hr1) as HE. assert (HE1 : cexported log1 s1) by (unfold cexported in *; rewrite <- Es; exact HE). clear HE.
  assert (Hall : L1 ++ CEmit (KSecret kd b) :: L2 = (log1 ++ centry_of w ev :: map CEmit (pre ++ KSecret kd b :: post)) ++ L3).
  { rewrite HL1, HL2, map_app. cbn [map]. rewrite <- !app_assoc. cbn [app]. rewrite <- app_assoc. reflexivity. }
  rewrite Hall. fold (csc kd L1). assert (Hsc : csc kd L1 = (csc kd log1 + csc kd (map CEmit pre))%nat) by (rewrite HL1, csc_app, csc_entry; reflexivity).
  rewrite Hsc. clear Hsc.
  remember (pre ++ KSecret kd b :: post) as outs eqn:Eo.
  assert (Hone : forall x, (forall a c, x <> KSecret a c) -> [x] = pre ++ KSecret kd b :: post -> False).
  { intros x Hx E. apply one_elem in E. destruct E as (_ & _ & <-). congruence. }
  destruct HA; try (destruct pre; discriminate); try (exfalso; revert Eo; apply Hone; discriminate).
  - exfalso. apply Hne. destruct H2 as [->|(t & mx & x & ->)].
    + revert Eo. intros Eo. exfalso. revert Eo. apply Hone. discriminate.
    + destruct pre as [|? [|? [|? [|? [|? ?]]]]]; try discriminate; injection Eo as; subst; [left|right]; reflexivity.
  - (* ServerHello *)
    exists log1, w, Q, (map CEmit outs ++ L3), [], []. split.
    { split; [|apply H3]. unfold hello_entry. rewrite H1, H2. cbn [centry_of]. rewrite <- !app_assoc. reflexivity. }
    unfold cexported in HE1. rewrite (aw_state _ _ _ _ H) in HE1. rewrite (ah_outs _ _ _ _ _ _ _ H3) in Eo.
    destruct pre as [|p1 [|p2 [|p3 pre]]]; try discriminate; injection Eo as; subst.
    + rewrite (HE1 (KTraffic SkServerHs)) by (left; right; reflexivity). split; [reflexivity|]. split; [right; reflexivity|left; right; reflexivity].
    + rewrite (HE1 (KTraffic SkClientHs)) by (left; left; reflexivity). split; [reflexivity|]. split; [right; reflexivity|left; left; reflexivity].
  - (* EncryptedExtensions *)
    exfalso. destruct H4 as [->|(n & cs & ->)]; [destruct pre; discriminate|]. revert Eo. apply Hone. discriminate.
  - (* Finished *)
    eexists (y_L0 G), (y_w G), (y_Q G), _, (z_Tsf F), (z_Tcf F).
    split; [apply cparts_more, cparts_more, past_parts; eassumption|].
    assert (HF : cfinished_in (y_Q G) ((log1 ++ centry_of w (ERead (EvHandshake (MFinished vd) orig)) :: map CEmit (z_outs G F ++ tail)) ++ L3) (z_Tsf F) (z_Tcf F)).
    { pose proof (cfinished_in_of _ _ _ (map CEmit tail ++ L3) H10) as X. rewrite map_app. rewrite (cp_log _ _ _ _ H0), H4, <- H5, <- H6, <- H7.
      unfold z_entry in X. cbn [centry_of]. rewrite <- !app_assoc. cbn [app]. rewrite <- !app_assoc. exact X. }
    pose proof (proj1 (cin_hs_exported log1 s1 (chs_in_hs _ _ _ _ _ H2)) HE1) as HE'.
    assert (Htail : forall a c, ~ In (KSecret a c) tail) by (intros a c Hin; destruct H12 as [(-> & _)|(_ & _ & _ & _ & _ & [->|(al & -> & _)])]; cbn in Hin; intuition discriminate).
    unfold z_outs in Eo. destruct pre as [|p1 [|p2 [|p3 [|p4 [|p5 pre]]]]]; try discriminate; injection Eo as; subst.
    + rewrite HE' by (left; right; reflexivity). split; [reflexivity|]. split; [left; right; reflexivity|right; exact HF].
    + rewrite HE' by (left; left; reflexivity). split; [reflexivity|]. split; [left; left; reflexivity|right; exact HF].
    + rewrite HE' by (right; left; reflexivity). split; [reflexivity|]. split; [right; reflexivity|right; exact HF].
    + rewrite HE' by (right; right; reflexivity). split; [reflexivity|]. split; [right; reflexivity|right; exact HF].
    + exfalso. eapply (Htail kd b). apply in_or_app. right. left. reflexivity.
  - (* KeyUpdate sent *)
    eexists (y_L0 G), (y_w G), (y_Q G), _, (z_Tsf F), (z_Tcf F).
    split; [apply cparts_more, cparts_more, past_parts; eassumption|].
    unfold cexported in HE1. rewrite H in HE1. destruct HE1 as (Ea & Eb).
    destruct pre as [|p1 [|p2 [|p3 pre]]]; try discriminate. injection Eo as; subst. rewrite Eb. cbn [map]. rewrite Nat.add_0_r. split; [apply cclient_gen|].
    split; [left; left; reflexivity|right]. rewrite (xd_log _ _ _ _ _ _ H2) at 1. rewrite map_app, <- !app_assoc. cbn [app]. rewrite <- !app_assoc. eapply cfinished_in_of, H2.
  - (* KeyUpdate received *)
    eexists (y_L0 G), (y_w G), (y_Q G), _, (z_Tsf F), (z_Tcf F).
    split; [apply cparts_more, cparts_more, past_parts; eassumption|].
    unfold cexported in HE1. rewrite H in HE1. destruct HE1 as (Ea & Eb).
    assert (HF : cfinished_in (y_Q G) ((log1 ++ centry_of w (ERead (EvHandshake (MKeyUpdate req) orig)) :: map CEmit outs) ++ L3) (z_Tsf F) (z_Tcf F)).
    { rewrite (xd_log _ _ _ _ _ _ H2) at 1. rewrite map_app, <- !app_assoc. cbn [app]. rewrite <- !app_assoc. eapply cfinished_in_of, H2. }
    destruct H7 as [(_ & E)|(_ & ws & ct & wl & E & _ & _ & _ & _ & _ & Ews)]; rewrite E in Eo.
    + apply one_elem in Eo. destruct Eo as (-> & -> & X). assert (kd = KTraffic SkServerApp) by congruence. assert (b = rs) by congruence. subst kd b. rewrite Ea. cbn [map]. rewrite Nat.add_0_r.
      rewrite H6. split; [apply cserver_gen|]. split; [left; right; reflexivity|right; exact HF].
    + destruct pre as [|p1 [|p2 [|p3 [|p4 pre]]]]; try discriminate.
      * injection Eo as <- <- _. rewrite Ea. cbn [map]. rewrite Nat.add_0_r.
        rewrite H6. split; [apply cserver_gen|]. split; [left; right; reflexivity|right; exact HF].
      * injection Eo as; subst. rewrite Eb. cbn [map]. unfold csc at 1, ccount at 2. cbn [filter cis_secret length]. rewrite Nat.add_0_r.
        split; [apply cclient_gen|]. split; [left; left; reflexivity|right; exact HF].
  - exfalso. destruct H3 as [(_ & ct & -> & _)|(_ & ->)]; [|revert Eo; apply Hone; discriminate]. destruct pre as [|a [|c [|d pre]]]; discriminate.
Qed.

(** ** C52 *)
(** Reading and writing keys in each state. *)
Definition ckeys_of (k : cenv) (Q : cparams) (Tsf Tcf : bytes) (log : list centry) (s : cstate) : Prop :=
  let sec := fun kd n => csecret_of Q Tsf Tcf (KTraffic kd) n in
  let rk := fun kd n => cread_keyed k (q_hash Q) (q_cipher Q) (sec kd n) (c_read s) in
  let wk := fun kd n lv => cwrite_keyed k (q_hash Q) (q_cipher Q) (sec kd n) lv (c_write s) in
  match c_state s with
  | CExpectingEncryptedExtensions | CExpectingCertificate | CExpectingCertificateVerify | CExpectingFinished =>
      rk SkServerHs 0%nat /\ wk SkClientHs 0%nat LvHandshake
  | CEstablished => rk SkServerApp (ccount cis_ku_recv log) /\ wk SkClientApp (ccount cis_ku_sent log) LvAppTraffic
  | _ => False
  end.
(** From the ServerHello on, records are opened and sealed with the keys RFC 8446 prescribes for the parameters of the handshake; after the
    handshake, with the generation that is the number of KeyUpdate messages received, respectively sent, so far. *)
Theorem C52_keys k l s log : cenv_ok k -> creach k l s log -> (cin_hs s \/ c_state s = CEstablished) ->
  exists L0 w Q La Tsf Tcf, cparts k log L0 w Q La /\ (c_state s = CEstablished -> cfinished_in Q log Tsf Tcf) /\ ckeys_of k Q Tsf Tcf log s.
Proof.
  intros Hk Hr Hst. pose proof (creach_phase _ _ _ _ Hk Hr) as HP. unfold cin_hs in Hst.
  destruct HP as [-> ->|A HA|G L P X I|G F L L' P X I|E1 _ _ E2|T _].
  - destruct Hst as [[]|[=]].
  - rewrite (aw_state _ _ _ _ HA) in Hst. destruct Hst as [[]|[=]].
  - exists (y_L0 G), (y_w G), (y_Q G), L, [], []. split; [apply past_parts, P|].
    pose proof (xi_state _ _ _ _ _ I) as S. split; [intros E; rewrite E in S; contradiction|].
    pose proof (xi_read _ _ _ _ _ I) as R. pose proof (xi_write _ _ _ _ _ I) as W. unfold ckeys_of. destruct (c_state s); try contradiction; (split; [exact R|exact W]).
  - destruct (xd_state _ _ _ _ _ _ I) as [[E W]|[E W]]; [|rewrite E in Hst; destruct Hst as [[]|[=]]].
    exists (y_L0 G), (y_w G), (y_Q G), L, (z_Tsf F), (z_Tcf F). split; [apply past_parts, P|]. split.
    { intros _. rewrite (xd_log _ _ _ _ _ _ I). rewrite map_app, <- app_assoc. eapply cfinished_in_of, I. }
    unfold ckeys_of. rewrite E. split; [exact (xd_read _ _ _ _ _ _ I)|exact W].
  - rewrite E1 in Hst. destruct Hst as [[]|[=]].
  - unfold cterminal in T. destruct (c_state s); try contradiction; destruct Hst as [[]|[=]].
Qed.
(** The step that received a message. *)
Lemma clog_entry k : forall l s0 s L1 x L2, clog k s0 l = (s, L1 ++ x :: L2) -> (forall o, x <> CEmit o) ->
  exists l1 l2 s1 w i s2 outs L3, clog k s0 l1 = (s1, L1) /\ cstep k w s1 i = (s2, outs) /\ cinput_log w s1 i = [x] /\
    L2 = map CEmit outs ++ L3 /\ clog k s2 l2 = (s, L3).
Proof.
  induction l as [|[w i] l IH]; intros s0 s L1 x L2 H Hx; cbn [clog] in H; [destruct L1; discriminate|].
  destruct (cstep k w s0 i) as [s1 o1] eqn:E1. destruct (clog k s1 l) as [s2 log2] eqn:E2. injection H as -> H.
  rewrite app_assoc in H. destruct (split_app _ _ _ _ _ H) as [(r & Ha & Hr)|(r & Hb & ->)].
  - assert (Hb' : L1 = [] /\ cinput_log w s0 i = [x] /\ r = map CEmit o1).
    { assert (Hm : forall X Y, map CEmit o1 = X ++ x :: Y -> False).
      { intros X Y E. destruct (cemit_split _ _ _ _ E) as (p & y & q & _ & E' & _). exact (Hx _ E'). }
      destruct (cinput_one w s0 i) as [Er|[Er|(ev & Er)]]; rewrite Er in Ha |- *.
      - destruct (Hm _ _ Ha).
      - destruct L1 as [|z L1]; cbn [app] in Ha; [injection Ha as <- <-; auto|]. injection Ha as _ Ha. destruct (Hm _ _ Ha).
      - destruct L1 as [|z L1]; cbn [app] in Ha; [injection Ha as <- <-; auto|]. injection Ha as _ Ha. destruct (Hm _ _ Ha). }
    destruct Hb' as (-> & Hi & ->). exists [], l, s0, w, i, s1, o1, log2. auto 10.
  - rewrite Hb in E2. destruct (IH _ _ _ _ _ E2 Hx) as (l1 & l2 & s3 & w' & i' & s4 & outs & L3 & A & B & C & D & F).
    exists ((w, i) :: l1), l2, s3, w', i', s4, outs, L3. split; [cbn [clog]; rewrite E1, A, <- app_assoc; reflexivity|]. auto 10.
Qed.
(** Nothing but errors and a final alert. *)
Definition cending (x : centry) : Prop := cafter x \/ exists ct, x = CEmit (KWrite [ct]) /\ ct_type ct = 21.
Lemma cfail_ending s outs : cfail_outs s outs -> Forall cending (map CEmit outs).
Proof.
  intros (a & [->|(d & ct & wl & -> & _ & Hc & ->)]); [repeat constructor|].
  constructor; [right; exists ct; split; [reflexivity|rewrite Hc; reflexivity]|]. repeat constructor.
Qed.
Lemma cending_log k l0 s log l s' L : cenv_ok k -> creach k l0 s log -> cterminal s -> clog k s l = (s', L) -> Forall cending L.
Proof.
  intros Hk Hr T H. eapply Forall_impl; [|eapply cdead_log; [eapply creach_dead; eassumption|exact H]]. intros x Hx. left. exact Hx.
Qed.
(** The content was sealed with the write key of generation [n]. *)
Definition csealed (k : cenv) (Q : cparams) (Tsf Tcf : bytes) (n : nat) (ct : content) : Prop :=
  exists ws, ckeyed k (q_hash Q) (q_cipher Q) (csecret_of Q Tsf Tcf (KTraffic SkClientApp) n) (ws_aead ws) /\
    snd (wl_write (WEnc LvAppTraffic ws) 22 [ct_plain ct]) = Ok ct.
Lemma ku_plain r ct : encodeHandshake (MKeyUpdate r) = Ok (ct_plain ct) -> ct_plain ct = be 1 24 ++ be 3 1 ++ be 1 r.
Proof. intros E. symmetry. exact (f_equal (fun x => match x with Ok y => y | Err _ => [] end) E). Qed.
(** A KeyUpdate message is answered, if it asks for it, by a KeyUpdate (not requesting one) under the old key; the new secrets are exported;
    otherwise the connection ends. *)
Theorem C52_key_update k l s L1 w req o L2 : cenv_ok k -> creach k l s (L1 ++ CRecv w (EvHandshake (MKeyUpdate req) o) :: L2) ->
  exists outs L3, L2 = map CEmit outs ++ L3 /\
    ((req = 0 /\ exists b, outs = [KSecret (KTraffic SkServerApp) b]) \/
     (req <> 0 /\ exists b1 b2 ct, outs = [KSecret (KTraffic SkServerApp) b1; KSecret (KTraffic SkClientApp) b2; KWrite [ct]] /\
        ct_type ct = 22 /\ ct_plain ct = be 1 24 ++ be 3 1 ++ be 1 0 /\
        exists L0 wh Q La Tsf Tcf, cparts k L1 L0 wh Q La /\ cfinished_in Q L1 Tsf Tcf /\ csealed k Q Tsf Tcf (ccount cis_ku_sent L1) ct) \/
     Forall cending L2).
Proof.
  intros Hk Hr. destruct (clog_entry _ _ _ _ _ _ _ Hr ltac:(discriminate)) as (l1 & l2 & s1 & w' & i & s2 & outs & L3 & A & B & C & -> & D).
  exists outs, L3. split; [reflexivity|]. pose proof (creach_phase _ _ _ _ Hk A) as HP.
  pose proof (creach_snoc _ _ _ _ _ _ _ _ A B) as Hr2.
  assert (HT : cterminal s2 -> Forall cending (map CEmit outs) -> Forall cending (map CEmit outs ++ L3)).
  { intros T F. apply Forall_app. split; [exact F|]. eapply cending_log; eassumption. }
  apply cstep_cases in B.
  destruct B as [ev R1 R2 R3|r b r' b' x R1 R2 R3 R4 R5|r b r' b' hint R1 R2 R3 R4 R5 R6|R1 R2 R3 R4 R5|a R1 R2 R3 R4|R1 R2|R1 R2 R3 R4 R5].
  - rewrite R1 in C. discriminate.
  - rewrite R4 in C. injection C as -> ->. pose proof (chstep_acts _ _ _ _ _ _ _ Hk (cread_phase _ _ _ _ _ _ _ _ HP R2 R3) R5) as HA.
    inversion HA; subst; try contradiction; try (match goal with H : _ \/ _ |- _ => destruct H as [H|(H & _)]; discriminate end).
    match goal with H : (req = 0 /\ _) \/ _ |- _ => destruct H as [(Hq & E)|(Hq & ws & ct & wl & E & W1 & W2 & W3 & W4 & W5 & W6)] end.
    + left. split; [exact Hq|]. eexists. exact E.
    + right. left. split; [exact Hq|]. eexists _, ws, ct. split; [exact E|]. split; [exact W3|]. split; [exact (ku_plain _ _ W5)|].
      match goal with H : cdata_inv _ _ _ _ _ _ |- _ => rename H into I end. match goal with H : cpast _ _ _ _ |- _ => rename H into P end.
      destruct (xd_state _ _ _ _ _ _ I) as [[E1 (w0 & W7 & W8)]|[E1 _]]; [|congruence].
      exists (y_L0 G), (y_w G), (y_Q G), L, (z_Tsf F), (z_Tcf F). split; [apply past_parts, P|]. split.
      { rewrite (xd_log _ _ _ _ _ _ I). rewrite map_app, <- app_assoc. eapply cfinished_in_of, I. }
      exists w0. split; [exact W8|]. rewrite W7 in W1. injection W1 as <-. exact W2.
  - rewrite R4 in C. discriminate.
  - right. right. apply HT; [unfold cterminal; rewrite R2; exact Logic.I|]. eapply cfail_ending, R5.
  - right. right. subst. apply HT; [unfold cterminal; rewrite R2; exact Logic.I|]. repeat constructor.
  - right. right. subst. apply HT; [unfold cterminal; rewrite R1; exact Logic.I|constructor].
  - rewrite R1 in C. discriminate.
Qed.
(** A key update the application asks for is announced by a KeyUpdate message under the old key, and the new secret is exported. *)
Theorem C52_key_update_sent k l s L1 w req L2 : cenv_ok k -> creach k l s (L1 ++ CCall w (JKeyUpdate req) :: L2) ->
  (exists b ct L3, L2 = CEmit (KSecret (KTraffic SkClientApp) b) :: CEmit (KWrite [ct]) :: L3 /\
     ct_type ct = 22 /\ ct_plain ct = be 1 24 ++ be 3 1 ++ be 1 req /\
     exists L0 wh Q La Tsf Tcf, cparts k L1 L0 wh Q La /\ cfinished_in Q L1 Tsf Tcf /\ csealed k Q Tsf Tcf (ccount cis_ku_sent L1) ct) \/
  Forall cending L2.
Proof.
  intros Hk Hr. destruct (clog_entry _ _ _ _ _ _ _ Hr ltac:(discriminate)) as (l1 & l2 & s1 & w' & i & s2 & outs & L3 & A & B & C & -> & D).
  pose proof (creach_phase _ _ _ _ Hk A) as HP. pose proof (creach_snoc _ _ _ _ _ _ _ _ A B) as Hr2.
  assert (HT : cterminal s2 -> Forall cending (map CEmit outs) -> Forall cending (map CEmit outs ++ L3)).
  { intros T F. apply Forall_app. split; [exact F|]. eapply cending_log; eassumption. }
  apply cstep_cases in B.
  destruct B as [ev R1 R2 R3|r b r' b' x R1 R2 R3 R4 R5|r b r' b' hint R1 R2 R3 R4 R5 R6|R1 R2 R3 R4 R5|a R1 R2 R3 R4|R1 R2|R1 R2 R3 R4 R5].
  - rewrite R1 in C. injection C as -> ->. cbn [ccall_of] in R2. injection R2 as <-. pose proof (chstep_acts _ _ _ _ _ _ _ Hk HP R3) as HA.
    inversion HA; subst; try (match goal with H : _ \/ _ |- _ => destruct H as [H|(H & _)]; discriminate end).
    left. eexists _, ct, L3. split; [reflexivity|].
    match goal with H : encodeHandshake _ = Ok _ |- _ => pose proof (ku_plain _ _ H) as HPl end.
    split; [assumption|]. split; [exact HPl|].
    match goal with H : cdata_inv _ _ _ _ _ _ |- _ => rename H into I end. match goal with H : cpast _ _ _ _ |- _ => rename H into P end.
    destruct (xd_state _ _ _ _ _ _ I) as [[E1 (w0 & W7 & W8)]|[E1 _]]; [|congruence].
    exists (y_L0 G), (y_w G), (y_Q G), L, (z_Tsf F), (z_Tcf F). split; [apply past_parts, P|]. split.
    { rewrite (xd_log _ _ _ _ _ _ I). rewrite map_app, <- app_assoc. eapply cfinished_in_of, I. }
    exists w0. split; [exact W8|]. match goal with H : c_write _ = Some wl |- _ => rewrite W7 in H; injection H as <- end. assumption.
  - rewrite R4 in C. discriminate.
  - rewrite R4 in C. discriminate.
  - right. apply HT; [unfold cterminal; rewrite R2; exact Logic.I|]. eapply cfail_ending, R5.
  - right. subst. apply HT; [unfold cterminal; rewrite R2; exact Logic.I|]. repeat constructor.
  - right. subst. apply HT; [unfold cterminal; rewrite R1; exact Logic.I|constructor].
  - rewrite R1 in C. injection C as -> ->. destruct R2; discriminate.
Qed.
