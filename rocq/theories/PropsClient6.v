(** * C56, C58: early data, and the client's flight *)
From Verif Require Import Base Codec CodecSpec Str Hkdf HkdfSpec HkdfProofs KeySched KeySchedSpec KeySchedProofs Handshake Extensions RecordBase Record
  RecordRT ReadEvent HelloChecks Cookie Token Negotiate Ticket PskSer Kex Hpke Transcript IOBufUtil PropsIOBuf EchConfirm HpkeUtils EchCrypt Server
  ServerSpec ServerFacts ServerSteps ServerFlight ServerInv ServerPreserve ExtensionsSpec ExtensionsProofs PropsCodec PropsEch Client ClientSpec ClientHelloSpec ClientSteps ClientHello
  ClientBinder ClientInv ClientAwait ClientHello2 ClientFlight ClientPhase ClientPreserve ClientOrigin ClientSide PropsClient PropsClient2 PropsClient3 PropsClient4.
Open Scope N_scope.

(** ** Specification *)
(** RFC 8446, 7.1: the early secrets for the PSK [q] and the ClientHello encoded as [b]. *)
Definition early_label (kd : cskind) : bytes := match kd with KTraffic SkEarly => str "c e traffic" | _ => str "e exp master" end.
Definition early_secret_of (h : hashalg) (q : cpsk) (b : bytes) (kd : cskind) : bytes :=
  DeriveSecret h (EarlySecret h (pk_secret (cp_psk q))) (early_label kd) (h_fn h b).
(** [ct] is [q], sealed as early data with the keys of the traffic secret [t]. *)
Definition early_sealed (k : cenv) (h : hashalg) (cipher : N) (t : bytes) (q : queue) (ct : content) : Prop :=
  ct_type ct = 23 /\ ct_plain ct = concat q /\ ct_level ct = LvEarlyData /\
  exists ws, ckeyed k h cipher t (ws_aead ws) /\ snd (wl_write (WEnc LvEarlyData ws) 23 q) = Ok ct.
(** The connection started by attempting early data with the PSK [q] and hash [h]; [t] and [x] are the secrets exported. *)
Definition attempted (k : cenv) (L : list centry) (cn : conn) (q : cpsk) (h : hashalg) (b t x : bytes) : Prop :=
  exists w c o i rest, L = CCall w (JConnect cn) :: map CEmit [KWrite [c]; KSecret (KTraffic SkEarly) t; KEarlySuccess (pk_maxEarly (cp_psk q)); KSecret KEarlyExporter x] ++ rest /\
    first_hello k w cn (Some q) (ct_plain c) o i b /\ early_wanted k q /\ k_hash k (pk_cipher (cp_psk q)) = Ok h.

(** ** Lemmas *)
Lemma side_attempted k log s w0 cn s0 outs0 X : cenv_ok k -> side k log s w0 cn s0 outs0 X ->
  (g_early (c_neg s0) = CeNotAttempted /\ forall mx, ~ In (KEarlySuccess mx) outs0) \/
  (g_early (c_neg s0) = CeAttempted /\ exists q h b t x th, attempted k log cn q h b t x /\
     (if k_omitEarly k then c_earlyw s0 = None else cwrite_keyed k h (pk_cipher (cp_psk q)) t LvEarlyData (c_earlyw s0)) /\
     t = DeriveSecret h (EarlySecret h (pk_secret (cp_psk q))) (str "c e traffic") th /\
     x = DeriveSecret h (EarlySecret h (pk_secret (cp_psk q))) (str "e exp master") th /\
     (psk_last k cn -> sized_hashes k -> th = h_fn h b)).
Proof.
  intros Hk D. pose proof (sd_log _ _ _ _ _ _ _ _ D) as HL.
  destruct (connect_early _ _ _ _ _ Hk (sd_connect _ _ _ _ _ _ _ _ D)) as (d & enc & rest & p & o & i & b & Ho & FF).
  destruct (ff_attempt _ _ _ _ _ _ _ _ _ _ FF) as (hl & _ & _ & HE). destruct (getEarlyDataParams k p) as [ep|] eqn:Ep.
  - right. destruct HE as (q & h & t & x & th & -> & Eh & -> & Eg & _ & Ew & Et & Ex & Hth). split; [exact Eg|].
    exists q, h, b, t, x, th. split; [|auto]. exists w0, (mkContent LvPlaintext 22 d enc), o, i, X. split; [rewrite HL, Ho; reflexivity|].
    split; [eapply first_of, FF|]. split; [eapply wanted_ok, Ep|exact Eh].
  - left. destruct HE as (-> & Eg & _). split; [exact Eg|]. intros mx Hin. rewrite Ho in Hin. destruct Hin as [[=]|[]].
Qed.

(** ** C56 *)
(** Early secrets are exported, once, by connect, if early data is attempted; they are those of RFC 8446 for the PSK and the ClientHello
    that counts (if the pre_shared_key extension is last; see C56_grease for what happens otherwise). *)
Theorem C56_secrets k l s L1 kd v L2 : cenv_ok k -> creach k l s (L1 ++ CEmit (KSecret kd v) :: L2) -> early_kind kd ->
  exists cn q h b t x, attempted k (L1 ++ CEmit (KSecret kd v) :: L2) cn q h b t x /\
    match kd with KTraffic _ => v = t /\ length L1 = 2%nat | _ => v = x /\ length L1 = 4%nat end /\
    (psk_last k cn -> sized_hashes k -> v = early_secret_of h q b kd).
Proof.
  intros Hk Hr He. destruct (cemit_full _ _ _ _ _ _ _ Hk Hr eq_refl) as [(log1 & s1 & w & ev & s2 & pre & post & L3 & HP & HS & HA & -> & ->)|D].
  2:{ destruct D as [(n & [=])|[(a & [=])|(ct & [=] & _)]]. }
  remember (pre ++ KSecret kd v :: post) as outs eqn:Eo.
  assert (Hone : forall x, (forall a c, x <> KSecret a c) -> [x] = pre ++ KSecret kd v :: post -> False).
  { intros x Hx E. apply one_elem in E. destruct E as (_ & _ & <-). congruence. }
  assert (Hk' : forall kd', kd = kd' -> (kd' = KTraffic SkEarly \/ kd' = KEarlyExporter -> False) -> False) by (intros kd' -> Hf; exact (Hf He)).
  destruct HA; try (destruct pre; discriminate); try (exfalso; revert Eo; apply Hone; discriminate).
  - rewrite H0. cbn [app centry_of]. pose proof (side_connect _ _ _ _ _ _ _ Hk H1 H2) as D. rewrite Eo in D at 1.
    destruct (side_attempted _ _ _ _ _ _ _ _ Hk D) as [(_ & Hn)|(_ & q & h & b & t & x & th & HA & _ & Et & Ex & Hth)].
    + exfalso. destruct H2 as [->|(t & mx & x & ->)]; [revert Eo; apply Hone; discriminate|]. apply (Hn mx). right. right. left. reflexivity.
    + exists cn, q, h, b, t, x. assert (HA' : attempted k ((CCall w (JConnect cn) :: map CEmit pre) ++ CEmit (KSecret kd v) :: map CEmit post ++ L3) cn q h b t x).
      { destruct HA as (w' & c & o & i & rs & E & R). rewrite map_app in E. cbn [map] in E. exists w', c, o, i, (rs ++ L3). split; [|exact R].
        transitivity ((CCall w (JConnect cn) :: map CEmit pre ++ CEmit (KSecret kd v) :: map CEmit post) ++ L3).
        { cbn [app]. rewrite <- app_assoc. reflexivity. }
        rewrite E. reflexivity. }
      split; [exact HA'|]. destruct HA as (w' & c & o & i & rs & E & _).
      destruct H2 as [->|(t' & mx & x' & ->)]; [exfalso; revert Eo; apply Hone; discriminate|].
      destruct pre as [|p1 [|p2 [|p3 [|p4 [|p5 pre]]]]]; try discriminate; injection Eo as; subst; cbn [map app] in E; injection E as; subst;
        (split; [split; reflexivity|]; intros Hl Hs; unfold early_secret_of; cbn [early_label]; rewrite (Hth Hl Hs); reflexivity).
  - exfalso. rewrite (ah_outs _ _ _ _ _ _ _ H3) in Eo.
    destruct pre as [|p1 [|p2 [|p3 pre]]]; try discriminate; injection Eo as; subst; (eapply Hk'; [reflexivity|intros [Hx|Hx]; discriminate Hx]).
  - exfalso. destruct H4 as [->|(n & cs & ->)]; [destruct pre; discriminate|]. revert Eo. apply Hone. discriminate.
  - exfalso. assert (Htail : forall a c, ~ In (KSecret a c) tail) by (intros a c Hin; destruct H12 as [(-> & _)|(_ & _ & _ & _ & _ & [->|(al & -> & _)])]; cbn in Hin; intuition discriminate).
    unfold z_outs in Eo. destruct pre as [|p1 [|p2 [|p3 [|p4 [|p5 pre]]]]]; try discriminate; try (injection Eo as; subst; (eapply Hk'; [reflexivity|intros [Hx|Hx]; discriminate Hx])).
    injection Eo as; subst. eapply (Htail kd v). apply in_or_app. right. left. reflexivity.
  - exfalso. destruct pre as [|p1 [|p2 [|p3 pre]]]; try discriminate. injection Eo as; subst. eapply Hk'; [reflexivity|intros [Hx|Hx]; discriminate Hx].
  - exfalso. destruct H7 as [(_ & E)|(_ & ws & ct & wl & E & _)]; rewrite E in Eo;
      destruct pre as [|p1 [|p2 [|p3 [|p4 pre]]]]; try discriminate; injection Eo as; subst; (eapply Hk'; [reflexivity|intros [Hx|Hx]; discriminate Hx]).
  - exfalso. destruct H3 as [(_ & ct & -> & _)|(_ & ->)]; [|revert Eo; apply Hone; discriminate]. destruct pre as [|a [|c [|d pre]]]; discriminate.
Qed.
Lemma attempted_ext k L X cn q h b t x : attempted k L cn q h b t x -> attempted k (L ++ X) cn q h b t x.
Proof.
  intros (w & c & o & i & rs & -> & R). exists w, c, o, i, (rs ++ X). split; [|exact R]. rewrite app_comm_cons, <- app_assoc. reflexivity.
Qed.
(** Early data that may still be accepted, or was, has not been rejected. *)
Definition late_state (s : cstate) : Prop :=
  match c_state s with CExpectingCertificate | CExpectingCertificateVerify | CExpectingFinished | CEstablished => True | _ => False end.
Definition still (log : list centry) (s : cstate) : Prop :=
  (g_early (c_neg s) = CeAttempted -> ~ early_rejected log) /\ (g_early (c_neg s) = CeAccepted -> ~ early_rejected log /\ late_state s).
Lemma rejected_app a b : early_rejected (a ++ b) -> early_rejected a \/ early_rejected b.
Proof.
  intros [(w & m & o & H)|(w & xs & o & H & E)]; apply in_app_or in H; destruct H as [H|H].
  - left. left. exists w, m, o. exact H.
  - right. left. exists w, m, o. exact H.
  - left. right. exists w, xs, o. auto.
  - right. right. exists w, xs, o. auto.
Qed.
Lemma rejected_cons x b : early_rejected (x :: b) -> early_rejected [x] \/ early_rejected b.
Proof. apply (rejected_app [x] b). Qed.
Lemma emits_unrejected outs : ~ early_rejected (map CEmit outs).
Proof. intros [(w & m & o & H)|(w & xs & o & H & _)]; apply in_map_iff in H; destruct H as (y & E & _); discriminate. Qed.
Lemma entry_unrejected w ev outs : (forall m o, ev <> ERead (EvHandshake (MHelloRetryRequest m) o)) -> (forall m o, ev <> ERead (EvHandshake (MEncryptedExtensions m) o)) ->
  ~ early_rejected (centry_of w ev :: map CEmit outs).
Proof.
  intros A B H. apply rejected_cons in H. destruct H as [H|H]; [|exact (emits_unrejected _ H)].
  destruct H as [(w1 & m & o & [H|[]])|(w1 & xs & o & [H|[]] & _)]; destruct ev as [|x| | | |]; try discriminate; injection H as _ ->; [eapply A|eapply B]; reflexivity.
Qed.
Lemma still_same log s s' Y : still log s -> g_early (c_neg s') = g_early (c_neg s) -> (late_state s -> late_state s') -> ~ early_rejected Y -> still (log ++ Y) s'.
Proof.
  intros (A & B) E Hs HY. unfold still. rewrite E. split.
  - intros Eg H. apply rejected_app in H. destruct H as [H|H]; [exact (A Eg H)|exact (HY H)].
  - intros Eg. destruct (B Eg) as (B1 & B2). split; [|apply Hs, B2]. intros H. apply rejected_app in H. destruct H as [H|H]; [exact (B1 H)|exact (HY H)].
Qed.
Lemma creach_still k l s log : cenv_ok k -> creach k l s log -> live s -> still log s.
Proof.
  intros Hk Hr Hl. revert Hl. pattern s, log. eapply creach_rect; [| |exact Hr]; clear l s log Hr.
  - intros _. split; discriminate.
  - intros l s log w i s' outs Hr IH H2 Hl. pose proof (creach_phase _ _ _ _ Hk Hr) as HP. pose proof (creach_sided _ _ _ _ Hk Hr) as HS. apply cstep_cases in H2.
    assert (Main : forall s ev, live s -> cphase k log s -> (live s -> sided k log s) -> still log s -> chstep k w s ev s' outs -> still (log ++ centry_of w ev :: map CEmit outs) s').
    { clear IH HP HS H2 Hr s. intros s ev Hv HP HS HD Hc. pose proof (chstep_acts _ _ _ _ _ _ _ Hk HP Hc) as HA. destruct HA.
      - subst log s. split.
        + intros _ H. cbn [app] in H. revert H. apply (entry_unrejected w (EConnect cn)); discriminate.
        + intros E. exfalso. destruct (connect_early _ _ _ _ _ Hk H1) as (d' & enc' & rest' & p & o & c & b & _ & FF). destruct (ff_attempt _ _ _ _ _ _ _ _ _ _ FF) as (hx & _ & _ & X3).
          destruct (getEarlyDataParams k p); [destruct X3 as (? & ? & ? & ? & ? & _ & _ & _ & X3 & _)|destruct X3 as (_ & X3 & _)]; congruence.
      - destruct (retry_delta_ok _ _ _ _ _ _ _ H0) as (hl & hl' & RD). split.
        + intros E. rewrite (rd_early _ _ _ _ _ RD) in E. destruct (g_early (c_neg s)); discriminate.
        + intros E. rewrite (rd_early _ _ _ _ _ RD) in E. destruct HD as (_ & HD). destruct (g_early (c_neg s)); try discriminate. destruct (HD eq_refl) as (_ & HD'). unfold late_state in HD'.
          rewrite (aw_state _ _ _ _ H) in HD'. contradiction.
      - destruct (hello_delta_ok _ _ _ _ _ _ _ H0) as (hl & hl' & RD). apply (still_same log s); auto.
        + apply (hd_early _ _ _ _ _ _ RD).
        + unfold late_state. rewrite (aw_state _ _ _ _ H). contradiction.
        + apply entry_unrejected; discriminate.
      - destruct (ee_delta_ok _ _ _ _ _ _ _ H3) as (hl & hl' & ED). pose proof (ed_early _ _ _ _ _ _ ED) as Ee. destruct HD as (D1 & D2). split.
        + intros E. exfalso. destruct (g_early (c_neg s)); try congruence. destruct Ee as [(Ee & _)|(Ee & _)]; congruence.
        + intros E. assert (Hg : g_early (c_neg s) = CeAttempted).
          { destruct (g_early (c_neg s)) eqn:Eg; try congruence. exfalso. destruct (D2 eq_refl) as (_ & D3). unfold late_state in D3. rewrite H in D3. exact D3. }
          rewrite Hg in Ee. destruct Ee as [(Ee & _)|(_ & Ee & _)]; [congruence|]. split.
          * intros Hj. apply rejected_app in Hj. destruct Hj as [Hj|Hj]; [exact (D1 Hg Hj)|]. apply rejected_cons in Hj. destruct Hj as [Hj|Hj]; [|exact (emits_unrejected _ Hj)].
            destruct Hj as [(w1 & m1 & o1 & [Hj|[]])|(w1 & m1 & o1 & [Hj|[]] & Hj')]; [discriminate|]. cbn [centry_of] in Hj. congruence.
          * unfold late_state. destruct (ee_ok _ _ _ _ _ _ _ H3) as (hl2 & hc & pt & EF). rewrite (ef_state _ _ _ _ _ _ _ _ EF). destruct (pskAccepted pt); exact Logic.I.
      - assert (Hg : g_early (c_neg s') = g_early (c_neg s) /\ late_state s').
        { clear -Hc H2. unfold late_state. destruct m; cbn [chs_msg] in H2; try contradiction; inversion Hc; subst;
          match goal with
          | H : handle_cert_msg _ _ _ _ _ _ = Ok _ |- _ => destruct (cert_msg_full _ _ _ _ _ _ _ _ H) as (hc & cs & ->); split; [reflexivity|exact Logic.I]
          | H : handle_compressed_cert _ _ _ _ _ = Ok _ |- _ => destruct (compressed_ok _ _ _ _ _ _ _ H) as (_ & d & _ & E); destruct (cert_msg_full _ _ _ _ _ _ _ _ E) as (hc & cs & ->); split; [reflexivity|exact Logic.I]
          | H : handle_cert_request _ _ _ _ = Ok _ |- _ => destruct (cert_request_ok _ _ _ _ _ _ H) as (_ & hc & sel & au & _ & ->); split; [reflexivity|exact Logic.I]
          | H : handle_cert_verify _ _ _ _ = Ok _ |- _ => destruct (cverify_ok _ _ _ _ _ _ H) as (_ & hc & hl & le & re & sg & c & _ & _ & _ & _ & _ & _ & _ & ->); split; [reflexivity|exact Logic.I]
          end. }
        destruct Hg as (Hg & Hls). apply (still_same log s); auto. apply entry_unrejected; intros m1 o1 E; injection E as -> _; exact H2.
      - pose proof (finished_delta _ _ _ _ _ _ H3) as (_ & _ & _ & _ & F5 & _). destruct H12 as [(-> & _ & E)|(E & _)]; [|exfalso; unfold live in Hl; rewrite E in Hl; exact Hl].
        apply (still_same log s); auto; [unfold late_state; rewrite E; auto|apply entry_unrejected; discriminate].
      - apply (still_same log s); auto. apply entry_unrejected; discriminate.
      - apply (still_same log s); auto. apply entry_unrejected; discriminate.
      - apply (still_same log s); auto. apply entry_unrejected; destruct H3 as [->|(-> & _)]; discriminate.
      - apply (still_same log s); auto. apply entry_unrejected; discriminate.
      - apply (still_same log s); auto. apply entry_unrejected; discriminate.
      - destruct (ku_init_frame _ _ _ _ _ H3) as (E & _). unfold sframe in E. apply (still_same log s); auto; [congruence|unfold late_state; replace (c_state s') with (c_state s) by congruence; auto|apply entry_unrejected; discriminate].
      - destruct (ku_frame _ _ _ _ _ H4) as (E & _). unfold sframe in E. apply (still_same log s); auto; [congruence|unfold late_state; replace (c_state s') with (c_state s) by congruence; auto|apply entry_unrejected; discriminate].
      - exfalso. unfold live in Hl. rewrite H0 in Hl. exact Hl. }
    destruct H2 as [ev R1 R2 R3|r b r' b' x R1 R2 R3 R4 R5|r b r' b' hint R1 R2 R3 R4 R5 R6|R1 R2 R3 R4 R5|a R1 R2 R3 R4|R1 R2|R1 R2 R3 R4 R5].
    + rewrite R1, <- (ccall_entry _ _ _ R2). cbn [app]. pose proof (chstep_live _ _ _ _ _ _ R3 Hl) as Hl'. apply (Main s); auto.
    + rewrite R4. cbn [app]. pose proof (chstep_live _ _ _ _ _ _ R5 Hl) as Hl'.
      assert (HP' : cphase k log (cu_read s (Some r'))) by (eapply cread_phase; eassumption).
      apply (Main (cu_read s (Some r')) (ERead x)); auto. intros Hv. specialize (HS Hv). apply sided_keep in HS; [|congruence]. destruct HS as (w0 & cn & s0 & outs0 & X & D).
      right. exists w0, cn, s0, outs0, X. pose proof (side_same _ _ _ (cu_read s (Some r')) _ _ _ _ _ [] D eq_refl eq_refl eq_refl eq_refl (fun _ => eq_refl) eq_refl) as D'.
      rewrite !app_nil_r in D'. exact D'.
    + rewrite R4, R6. subst s'. apply (still_same log s); auto. apply (emits_unrejected [KWait hint]).
    + exfalso. unfold live in Hl. rewrite R2 in Hl. exact Hl.
    + exfalso. unfold live in Hl. rewrite R2 in Hl. exact Hl.
    + exfalso. unfold live in Hl. rewrite R1 in Hl. exact Hl.
    + exfalso. unfold live in Hl. destruct R3 as [E|E]; [subst s'; exact Hl|rewrite E in Hl; exact Hl].
Qed.
(** What becomes of early data the application writes: it is sealed with the early traffic keys; or sent as ordinary data, if the handshake
    is over and early data was accepted; or handed back, unsent, if it was rejected; otherwise the connection ends. *)
Theorem C56_data k l s L1 w q L2 : cenv_ok k -> creach k l s (L1 ++ CCall w (JEarlyAppWrite q) :: L2) ->
  (exists ccs ct L3 cn p h b t x, L2 = CEmit (KWrite (ccs ++ [ct])) :: L3 /\ (forall c, In c ccs -> ct_type c = 20) /\
     attempted k L1 cn p h b t x /\ early_sealed k h (pk_cipher (cp_psk p)) t q ct /\ ~ early_rejected L1) \/
  (exists ct L3, L2 = CEmit (KWrite [ct]) :: L3 /\ ct_type ct = 23 /\ ct_plain ct = concat q /\ ct_level ct = LvAppTraffic /\
     early_accepted k L1 /\ ccount cis_success L1 = 1%nat) \/
  (exists L3, L2 = CEmit (KEarlyWriteFailed q) :: L3 /\ early_rejected L1) \/
  Forall cending L2.
Proof.
  intros Hk Hr. destruct (clog_entry _ _ _ _ _ _ _ Hr ltac:(discriminate)) as (l1 & l2 & s1 & w' & i & s2 & outs & L3 & A & B & C & -> & D).
  pose proof (creach_phase _ _ _ _ Hk A) as HP. pose proof (creach_sided _ _ _ _ Hk A) as HS. pose proof (creach_snoc _ _ _ _ _ _ _ _ A B) as Hr2.
  assert (HT : cterminal s2 -> Forall cending (map CEmit outs) -> Forall cending (map CEmit outs ++ L3)).
  { intros T F. apply Forall_app. split; [exact F|]. eapply cending_log; eassumption. }
  apply cstep_cases in B.
  destruct B as [ev R1 R2 R3|r b r' b' x R1 R2 R3 R4 R5|r b r' b' hint R1 R2 R3 R4 R5 R6|R1 R2 R3 R4 R5|a R1 R2 R3 R4|R1 R2|R1 R2 R3 R4 R5].
  - rewrite R1 in C. injection C as -> ->. cbn [ccall_of] in R2. injection R2 as <-. pose proof (chstep_acts _ _ _ _ _ _ _ Hk HP R3) as HA.
    remember (EEarlyAppWrite q) as ev eqn:Eev. destruct HA; try discriminate.
    + right. left. destruct H3 as [->|(E & Ea)]; [discriminate|]. assert (q0 = q) by congruence. subst q0. exists ct, L3.
      split; [reflexivity|]. split; [assumption|]. split; [assumption|]. split; [assumption|]. split; [|apply H2].
      destruct (sided_hs k L1 s1) as (w0 & cn & s0 & outs0 & X & D'); [unfold live; rewrite H; exact Logic.I|congruence|exact HS|].
      pose proof (sd_early _ _ _ _ _ _ _ _ D') as Hd. rewrite Ea in Hd. apply Hd.
    + right. right. left. assert (q0 = q) by congruence. subst q0. exists L3. split; [reflexivity|].
      destruct (sided_hs k L1 s1) as (w0 & cn & s0 & outs0 & X & D'); [unfold live; decompose [or] H; match goal with E : c_state _ = _ |- _ => rewrite E; exact Logic.I end|decompose [or] H; congruence|exact HS|].
      pose proof (sd_early _ _ _ _ _ _ _ _ D') as Hd. rewrite H0 in Hd. apply Hd.
    + left. assert (q0 = q) by congruence. subst q0.
      destruct (sided_hs k L1 s1) as (w0 & cn & s0 & outs0 & X & D'); [unfold live; decompose [or] H; match goal with E : c_state _ = _ |- _ => rewrite E; exact Logic.I end|decompose [or] H; congruence|exact HS|].
      assert (Hs0 : g_early (c_neg s0) = CeAttempted /\ ~ early_rejected L1).
      { pose proof (sd_early _ _ _ _ _ _ _ _ D') as Hd. destruct (creach_still _ _ _ _ Hk A) as (S1 & S2); [unfold live; decompose [or] H; match goal with E : c_state _ = _ |- _ => rewrite E; exact Logic.I end|].
        destruct H1 as [E|E]; rewrite E in Hd; (split; [apply Hd|]); [exact (S1 E)|apply (S2 E)]. }
      destruct (side_attempted _ _ _ _ _ _ _ _ Hk D') as [(E & _)|(_ & p & h & b & t & x & th & HAt & Hw & _)]; [destruct Hs0; congruence|]. rewrite H0 in Hw.
      exists (ccs_first k (c_ccs s1)), ct, L3, cn, p, h, b, t, x. split; [reflexivity|]. split.
      { intros c Hc. unfold ccs_first in Hc. destruct (k_compat k && negb (c_ccs s1)); [|destruct Hc]. destruct Hc as [<-|[]]. reflexivity. }
      split; [exact HAt|]. split; [|apply Hs0]. split; [assumption|]. split; [assumption|].
      split; [eapply plain_early; eassumption|].
      destruct (sd_earlyw _ _ _ _ _ _ _ _ D') as [E|(lv & ws & ws0 & E1 & E2 & E3)]; [congruence|]. destruct Hw as (ws1 & Hw1 & Hw2).
      assert (lv = LvEarlyData /\ ws0 = ws1) as (-> & ->) by (split; congruence). exists ws. split; [rewrite E3; exact Hw2|].
      assert (wl = WEnc LvEarlyData ws) by congruence. subst wl. rewrite H3. reflexivity.
  - rewrite R4 in C. discriminate.
  - rewrite R4 in C. discriminate.
  - right. right. right. apply HT; [unfold cterminal; rewrite R2; exact Logic.I|]. eapply cfail_ending, R5.
  - right. right. right. subst. apply HT; [unfold cterminal; rewrite R2; exact Logic.I|]. repeat constructor.
  - right. right. right. subst. apply HT; [unfold cterminal; rewrite R1; exact Logic.I|constructor].
  - rewrite R1 in C. injection C as -> ->. destruct R2; discriminate.
Qed.
Lemma early_reported k l s L1 mx L2 : cenv_ok k -> creach k l s (L1 ++ CEmit (KEarlySuccess mx) :: L2) ->
  exists w cn s' pre post L3, L1 = CCall w (JConnect cn) :: map CEmit pre /\ L2 = map CEmit post ++ L3 /\
    handle_connect k w c_init cn = Ok (s', pre ++ KEarlySuccess mx :: post).
Proof.
  intros Hk Hr. destruct (cemit_full _ _ _ _ _ _ _ Hk Hr eq_refl) as [(log1 & s1 & w & ev & s2 & pre & post & L3 & HP & HS & HA & -> & ->)|D].
  2:{ destruct D as [(n & [=])|[(a & [=])|(ct & [=] & _)]]. }
  remember (pre ++ KEarlySuccess mx :: post) as outs eqn:Eo.
  assert (Hone : forall x, (forall a, x <> KEarlySuccess a) -> [x] = pre ++ KEarlySuccess mx :: post -> False).
  { intros x Hx E. apply one_elem in E. destruct E as (_ & _ & <-). congruence. }
  destruct HA; try (destruct pre; discriminate); try (exfalso; revert Eo; apply Hone; discriminate).
  - exists w, cn, s', pre, post, L3. rewrite H0. split; [reflexivity|]. split; [reflexivity|]. rewrite <- Eo. exact H1.
  - exfalso. rewrite (ah_outs _ _ _ _ _ _ _ H3) in Eo. destruct pre as [|p1 [|p2 [|p3 pre]]]; discriminate.
  - exfalso. destruct H4 as [->|(n & cs & ->)]; [destruct pre; discriminate|]. revert Eo. apply Hone. discriminate.
  - exfalso. unfold z_outs in Eo. destruct H12 as [(-> & _)|(_ & _ & _ & _ & _ & [->|(al & -> & _)])];
      destruct pre as [|p1 [|p2 [|p3 [|p4 [|p5 [|p6 [|p7 [|p8 pre]]]]]]]]; discriminate.
  - exfalso. destruct pre as [|p1 [|p2 [|p3 pre]]]; discriminate.
  - exfalso. destruct H7 as [(_ & E)|(_ & ws & ct & wl & E & _)]; rewrite E in Eo; destruct pre as [|p1 [|p2 [|p3 [|p4 pre]]]]; discriminate.
  - exfalso. destruct H3 as [(_ & ct & -> & _)|(_ & ->)]; [|revert Eo; apply Hone; discriminate]. destruct pre as [|a [|c [|d pre]]]; discriminate.
Qed.
(** The application is told that early data may be sent only if it is attempted: the PSK allows it. *)
Theorem C56_reported k l s L1 mx L2 : cenv_ok k -> creach k l s (L1 ++ CEmit (KEarlySuccess mx) :: L2) ->
  length L1 = 3%nat /\ exists cn q h b t x, attempted k (L1 ++ CEmit (KEarlySuccess mx) :: L2) cn q h b t x /\ mx = pk_maxEarly (cp_psk q).
Proof.
  intros Hk Hr. destruct (early_reported _ _ _ _ _ _ Hk Hr) as (w & cn & s' & pre & post & L3 & -> & -> & H).
  destruct (connect_early _ _ _ _ _ Hk H) as (d & enc & rest & p & o & i & b & Eo & FF).
  destruct (ff_attempt _ _ _ _ _ _ _ _ _ _ FF) as (hl & _ & _ & HE). destruct (getEarlyDataParams k p) as [ep|] eqn:Ep.
  - destruct HE as (q & h & t & x & th & -> & Eh & -> & _). destruct pre as [|p1 [|p2 [|p3 [|p4 [|p5 pre]]]]]; try discriminate.
    split; [reflexivity|]. injection Eo as -> -> -> ->. exists cn, q, h, b, t, x. split; [|reflexivity].
    exists w, (mkContent LvPlaintext 22 d enc), o, i, L3. split; [reflexivity|]. split; [eapply first_of, FF|]. split; [eapply wanted_ok, Ep|exact Eh].
  - exfalso. destruct HE as (-> & _). destruct pre as [|p1 [|p2 pre]]; discriminate.
Qed.
(** What the application is told about early data at the end of the handshake is true. *)
Theorem C56_outcome k l s L1 early L2 : cenv_ok k -> creach k l s (L1 ++ CEmit (KSuccess early) :: L2) ->
  if early then early_accepted k L1 /\ ~ early_rejected L1 else early_rejected L1 \/ forall mx, ~ In (CEmit (KEarlySuccess mx)) L1.
Proof.
  intros Hk Hr. destruct (cemit_more _ _ _ _ _ _ _ Hk Hr eq_refl) as [(log1 & s1 & w & ev & s2 & pre & post & L3 & HP & HS & (l1 & s0 & Hr1 & Es & En) & HA & -> & ->)|D].
  2:{ destruct D as [(n & [=])|[(a & [=])|(ct & [=] & _)]]. }
  remember (pre ++ KSuccess early :: post) as outs eqn:Eo.
  assert (Hone : forall x, (forall a, x <> KSuccess a) -> [x] = pre ++ KSuccess early :: post -> False).
  { intros x Hx E. apply one_elem in E. destruct E as (_ & _ & <-). congruence. }
  destruct HA; try (destruct pre; discriminate); try (exfalso; revert Eo; apply Hone; discriminate).
  - exfalso. destruct H2 as [->|(t & mx & x & ->)]; destruct pre as [|? [|? [|? [|? [|? ?]]]]]; discriminate.
  - exfalso. rewrite (ah_outs _ _ _ _ _ _ _ H3) in Eo. destruct pre as [|p1 [|p2 [|p3 pre]]]; discriminate.
  - exfalso. destruct H4 as [->|(n & cs & ->)]; [destruct pre; discriminate|]. revert Eo. apply Hone. discriminate.
  - destruct (csplit_success _ _ _ _ _ _ (tail_cases _ _ _ _ H12) Eo) as (Et & -> & -> & ->).
    assert (Hl : live s1) by (unfold live; rewrite H; exact Logic.I). assert (Hl0 : live s0) by (unfold live; rewrite Es, H; exact Logic.I).
    destruct (sided_hs k log1 s1) as (w0 & cn & s0' & outs0 & X & D); [exact Hl|congruence|exact HS|].
    destruct (creach_still _ _ _ _ Hk Hr1 Hl0) as (_ & S2). rewrite En in S2. pose proof (sd_early _ _ _ _ _ _ _ _ D) as Hd.
    assert (HY : ~ early_rejected (centry_of w (ERead (EvHandshake (MFinished vd) orig)) :: map CEmit (z_outs G F))) by (apply entry_unrejected; discriminate).
    rewrite H9. destruct (g_early (c_neg s1)).
    + right. intros mx Hin. apply in_split in Hin. destruct Hin as (A & B & E).
      rewrite E, <- app_assoc in Hr. cbn [app] in Hr. destruct (early_reported _ _ _ _ _ _ Hk Hr) as (w' & cn' & s'' & pre1 & post1 & L' & -> & _ & HC).
      assert (E2 : CCall w' (JConnect cn') = CCall w0 (JConnect cn)) by (rewrite (sd_log _ _ _ _ _ _ _ _ D) in E; cbn [app] in E; congruence).
      injection E2 as -> ->. destruct (side_attempted _ _ _ _ _ _ _ _ Hk D) as [(_ & Hn)|(Hx & _)]; [|congruence].
      rewrite (sd_connect _ _ _ _ _ _ _ _ D) in HC. injection HC as _ ->. apply (Hn mx). apply in_or_app. right. left. reflexivity.
    + exfalso. destruct Hd as (_ & [(E & _)|(E & _)]); congruence.
    + left. apply early_rejected_ext, Hd.
    + destruct (S2 eq_refl) as (S3 & _). split; [apply early_accepted_ext, Hd|]. intros Hj. apply rejected_app in Hj. destruct Hj; auto.
  - exfalso. destruct pre as [|p1 [|p2 [|p3 pre]]]; discriminate.
  - exfalso. destruct H7 as [(_ & E)|(_ & ws & ct & wl & E & _)]; rewrite E in Eo; destruct pre as [|p1 [|p2 [|p3 [|p4 pre]]]]; discriminate.
  - exfalso. destruct H3 as [(_ & ct & -> & _)|(_ & ->)]; [|revert Eo; apply Hone; discriminate]. destruct pre as [|a [|c [|d pre]]]; discriminate.
Qed.
