(** * Every step of a server connection preserves the invariant *)
From Verif Require Import Base Codec CodecSpec Str Hkdf HkdfSpec HkdfProofs KeySched KeySchedSpec KeySchedProofs Handshake Extensions RecordBase Record RecordRT
  ReadEvent HelloChecks PropsHello Cookie Token Negotiate Ticket Kex Hpke Transcript IOBufUtil PropsIOBuf EchConfirm Server ServerSpec ServerFacts ServerSteps ServerFlight
  ServerInv.
Open Scope N_scope.

(** ** Phases and states *)
Lemma hs_states e log s H L : hs_inv e log s H L ->
  s_state s = SAcceptingEarlyData \/ s_state s = SExpectingCertificate \/ s_state s = SExpectingCertificateVerify \/ s_state s = SExpectingFinished.
Proof. intros [_ _ _ _ _ I]. destruct (s_state s); try contradiction; auto. Qed.
Ltac phase_absurd :=
  match goal with
  | H : hs_inv _ _ _ _ _ |- _ => destruct (hs_states _ _ _ _ _ H) as [?|[?|[?|?]]]; congruence
  | H : data_inv _ _ _ _ _ |- _ => pose proof (di_state _ _ _ _ _ H); congruence
  | H : awaiting _ _ _ |- _ => pose proof (proj1 (awaiting_misc _ _ _ H)); congruence
  | H : terminal ?s, E : s_state ?s = _ |- _ => unfold terminal in H; rewrite E in H; contradiction
  | H : ?s = s_init, E : s_state ?s = _ |- _ => subst s; discriminate
  end.
Lemma phase_init e log s : phase e log s -> s_state s = SUninitialized -> s = s_init /\ log = [].
Proof. intros [A B|A|H L P I|H L P I|T] E; auto; exfalso; phase_absurd. Qed.
Lemma phase_hello e log s : phase e log s -> s_state s = SExpectingClientHello -> awaiting e log s.
Proof. intros [A B|A|H L P I|H L P I|T] E; auto; exfalso; phase_absurd. Qed.
Lemma phase_hs e log s : phase e log s ->
  s_state s = SAcceptingEarlyData \/ s_state s = SExpectingCertificate \/ s_state s = SExpectingCertificateVerify \/ s_state s = SExpectingFinished ->
  exists H L, past e log s H L /\ hs_inv e log s H L.
Proof. intros [A B|A|H L P I|H L P I|T] E; eauto; exfalso; destruct E as [E|[E|[E|E]]]; phase_absurd. Qed.
Lemma phase_data e log s : phase e log s -> s_state s = SAcceptingData -> exists H L, past e log s H L /\ data_inv e log s H L.
Proof. intros [A B|A|H L P I|H L P I|T] E; eauto; exfalso; phase_absurd. Qed.

(** ** Reading *)
Lemma upd_read_id s : upd_read s (s_read s) = s.
Proof. destruct s; reflexivity. Qed.
Lemma phase_read e log s r r' b X : phase e log s -> s_read s = Some r -> rres_state (read_event r b) = Some r' ->
  forallb is_wait X = true -> phase e (log ++ X) (upd_read s (Some r')).
Proof.
  intros HP Hr Hk HX.
  assert (HX2 : plain_ext X).
  { split; [apply waits_quiet, HX|]. clear -HX. induction X as [|x X IH]; [auto|].
    cbn in HX. apply andb_true_iff in HX. destruct HX as [Hx HX]. specialize (IH HX). destruct x as [|o]; [discriminate|]. destruct o; try discriminate. exact IH. }
  pose proof HX2 as (_ & X2 & X3 & X4).
  assert (RL : read_like s (upd_read s (Some r'))).
  { right. exists r, r'. split; [exact Hr|]. split; [reflexivity|]. eapply read_event_key, Hk. }
  assert (WL : write_like s (upd_read s (Some r'))) by (left; reflexivity).
  destruct HP as [A B|A|H L P I|H L P I|T].
  - subst s. discriminate.
  - apply PhHello. apply awaiting_ext; [exact A|exact HX|congruence].
  - eapply PhHs; [eapply past_ext; [exact P|reflexivity]|]. eapply hs_ext; eauto.
  - eapply PhData; [eapply past_ext; [exact P|reflexivity]|]. eapply data_ext; eauto.
  - apply PhEnd. exact T.
Qed.

(** ** ClientHello *)
Lemma fresh_counts log s : fresh log s -> count is_success log = 0%nat /\ count is_ku_recv log = 0%nat /\ count is_ku_sent log = 0%nat.
Proof.
  intros (r & _ & H). induction log as [|x log IH]; [auto|]. cbn in H. apply andb_true_iff in H. destruct H as [Hx H].
  specialize (IH H). destruct x as [|o]; [discriminate|]. destruct o; try discriminate. exact IH.
Qed.
Lemma waits_counts W : forallb is_wait W = true -> count is_success W = 0%nat /\ count is_ku_recv W = 0%nat /\ count is_ku_sent W = 0%nat.
Proof.
  induction W as [|x W IH]; [auto|]. cbn. intros H. apply andb_true_iff in H. destruct H as [Hx H]. specialize (IH H).
  destruct x as [|o]; [discriminate|]. destruct o; try discriminate. exact IH.
Qed.
Lemma first_byte n rest : n < 256 -> n <> 24 -> bytes_eqb (takeN 1 (be 1 n ++ rest)) (be 1 24) = false.
Proof.
  intros Hn Hx. rewrite be1. change (takeN 1 ([n2b n] ++ rest)) with [n2b n]. destruct (bytes_eqb [n2b n] (be 1 24)) eqn:E; [|reflexivity].
  apply bytes_eqb_eq in E. rewrite be1 in E. injection E as E. apply (f_equal b2n) in E. rewrite !b2n_n2b in E by lia. congruence.
Qed.
Lemma first_byte_ku rest : bytes_eqb (takeN 1 (be 1 24 ++ rest)) (be 1 24) = true.
Proof. apply bytes_eqb_eq. rewrite be1. reflexivity. Qed.
Lemma ku_sent_msg ct m b : ct_plain ct = b -> encodeHandshake m = Ok b -> hs_type m < 256 -> hs_type m <> 24 ->
  is_ku_sent (Emit (OWrite [ct])) = false.
Proof.
  intros E1 E2 H1 H2. apply encode_shape in E2. destruct E2 as (body & _ & ->). unfold is_ku_sent. rewrite E1, first_byte by assumption.
  apply andb_false_r.
Qed.

Lemma retry_counts e s n sid hc g ed s' outs : hello_retry e s n sid hc g ed = Ok (s', outs) ->
  exists ct, outs = [OWrite (ct :: ccs_if sid)] /\ is_ku_sent (Emit (OWrite (ct :: ccs_if sid))) = false.
Proof.
  intros HR. apply hello_retry_facts in HR. destruct HR as (h' & m & hrr0 & hrr & b & wl & ct & R1 & R2 & R3 & R4 & R5 & R6 & R7 & R8 & R9).
  exists ct. split; [exact R8|]. destruct sid as [|x sid]; [|reflexivity].
  destruct (wl_write wl 22 [b]) as [wl' rr] eqn:Ewl. cbn [snd] in R7. subst rr.
  apply wl_write_content in Ewl. destruct Ewl as (W1 & W2 & W3). cbn [concat] in W2. rewrite app_nil_r in W2.
  eapply ku_sent_msg; [exact W2|exact R5|reflexivity|discriminate].
Qed.

Lemma awaiting_counts e log s : awaiting e log s -> count is_success log = 0%nat /\ count is_ku_recv log = 0%nat /\ count is_ku_sent log = 0%nat.
Proof.
  intros [Hf|(log1 & s1 & w & c & orig & s2 & outs & W & r & Hf & Hh & Es & -> & HW & ->)]; [eapply fresh_counts, Hf|].
  destruct (fresh_counts _ _ Hf) as (C1 & C2 & C3). destruct (waits_counts _ HW) as (D1 & D2 & D3).
  rewrite !count_app, C1, C2, C3, D1, D2, D3, !Nat.add_0_r.
  apply handle_hello_facts in Hh. destruct Hh as [d sni E1 E2 E3|n sid h k hc alpn skew ed early g HF Hm Eg Eg0 Eck HR|n sid h k hc alpn skew ed early kt group kex HF Hm HR].
  - subst s2. discriminate.
  - destruct (retry_counts _ _ _ _ _ _ _ _ _ HR) as (ct & -> & K). unfold count, hello_log. cbn [map filter is_success is_ku_recv app length].
    split; [reflexivity|]. split; [reflexivity|]. change (is_ku_sent (Recv w (EvHandshake (MClientHello c) orig))) with false. rewrite K. reflexivity.
  - exfalso. destruct HR as [(k2 & exts & random & sh0 & sh & rtry & bsh & hws & hwl & hrs & hrl & bee & reqExts & creq & scert & ccert & scheme & auth & hc4 & bfin & hc5 & enc & wl & ct & k3 & ems & k4 & aws & awl & F)].
    cbv zeta in F. decompose [and] F. clear F.
    match goal with H : _ \/ _ |- _ => destruct H as [(ets & erl & eexp & _ & _ & _ & [(_ & E)|(_ & E)])|(_ & _ & E)] end;
      subst s2; cbn in Es; try discriminate.
    match type of Es with (if ?q then _ else _) = _ => destruct q; discriminate end.
Qed.

Lemma flight_counts cs sh fl : flight cs sh fl -> is_ku_sent (Emit (OWrite cs)) = false.
Proof.
  intros (c1 & c2 & H & _). destruct cs as [|a [|b cs]]; [reflexivity| |reflexivity]. cbn in H. destruct (is_hs a); discriminate.
Qed.

Lemma hello_flight e log s w c orig s' outs : env_ok e -> awaiting e log s -> handle_hello e w s c orig = Ok (s', outs) ->
  s_state s' <> SError -> s_state s' <> SExpectingClientHello ->
  exists H, past e (log ++ hello_log w c orig outs) s' H [] /\ hs_inv e (log ++ hello_log w c orig outs) s' H [] /\
    i_log H = log /\ i_s1 H = s /\ i_w H = w /\ i_c H = c /\ i_orig H = orig /\ i_s2 H = s' /\ i_outs H = outs.
Proof.
  intros He Ha Hh0 E1 E2.
  pose proof (awaiting_misc _ _ _ Ha) as (M1 & M2 & M3 & M4 & M5 & M6).
  destruct (flight_facts e log s w c orig s' outs He Ha Hh0 E2 E1) as (n & sid & h & k & hc & alpn & skew & ed & early & kt & group & kex & sh & fl & A1 & A2 & A3 & A4 & A5).
  set (H := mkHist log s w c orig s' outs n ed kex h (hc_data hc) sh fl).
  exists H. split; [|split; [|auto 10]].
  + constructor; try assumption.
    * exists sid, k, hc, alpn, skew, early, kt, group. split; [exact A1|]. split; [exact A2|]. split; [exact A3|]. split; [reflexivity|exact A5].
    * cbn. rewrite app_nil_r. reflexivity.
    * reflexivity.
  + destruct A4. constructor.
    * eexists. split; [exact fo_hctx|]. split; [reflexivity|]. split; [cbn; exact fo_transcript|]. cbn. rewrite app_nil_r. reflexivity.
    * exact fo_ks.
    * exact fo_secret.
    * destruct fo_write as (ws & W1 & _ & W2). exists ws. auto.
    * destruct (awaiting_counts _ _ _ Ha) as (C1 & C2 & C3). rewrite !count_app, C1, C2, C3. cbn [plus].
      destruct fo_outs as (pre & cs & post & Ho & Hfl & Hpp). cbv zeta in Ho. rewrite Ho. apply flight_counts in Hfl.
      unfold count, hello_log. cbn [filter is_success is_ku_recv]. change (is_ku_sent (Recv w (EvHandshake (MClientHello c) orig))) with false.
      destruct Hpp as [(_ & -> & ->)|(_ & -> & ->)]; cbn [app map filter is_success is_ku_recv]; 
        (split; [reflexivity|]; split; [reflexivity|]);
        repeat (cbn [filter]; match goal with |- context [is_ku_sent (Emit ?o)] => first [rewrite Hfl | change (is_ku_sent (Emit o)) with false] end);
        reflexivity.
    * destruct (s_state s') eqn:Es'; try contradiction.
      -- destruct fo_read as (R1 & R2 & R3 & R4). split; [exact Es'|]. split; [|exact R1]. rewrite fo_cert, R3. reflexivity.
      -- destruct fo_read as (R1 & R2 & R3 & R4). split; [exact Es'|]. split; [reflexivity|]. split; [exact R1|]. split; [exact R2|reflexivity].
      -- destruct fo_read as (R1 & R2). split; [exact R1|]. left. unfold H. cbn [i_s2]. rewrite Es'. split; [discriminate|reflexivity].
Qed.
Lemma hello_preserves e log s w c orig s' outs : env_ok e -> awaiting e log s -> handle_hello e w s c orig = Ok (s', outs) ->
  phase e (log ++ hello_log w c orig outs) s'.
Proof.
  intros He Ha Hh. pose proof Hh as Hh0.
  pose proof (awaiting_misc _ _ _ Ha) as (M1 & M2 & M3 & M4 & M5 & M6).
  assert (Hst : s_state s' = SError \/ (s_state s' = SExpectingClientHello /\ s_group s = None /\ exists r, s_read s' = Some r) \/ 
                (s_state s' <> SError /\ s_state s' <> SExpectingClientHello)).
  { apply handle_hello_facts in Hh. destruct Hh as [d sni E1 E2 E3|n sid h k hc alpn skew ed early g HF Hm Eg Eg0 Eck HR|n sid h k hc alpn skew ed early kt group kex HF Hm HR].
    - subst. auto.
    - right. left. apply hello_retry_facts in HR. destruct HR as (h' & m & hrr0 & hrr & b & wl & ct & R1 & R2 & R3 & R4 & R5 & R6 & R7 & R8 & R9).
      subst s'. split; [reflexivity|]. split; [exact Eg0|]. eexists. reflexivity.
    - right. right. destruct HR as [(k2 & exts & random & sh0 & sh & rtry & bsh & hws & hwl & hrs & hrl & bee & reqExts & creq & scert & ccert & scheme & auth & hc4 & bfin & hc5 & enc & wl & ct & k3 & ems & k4 & aws & awl & F)].
      cbv zeta in F. decompose [and] F. clear F.
      match goal with H : _ \/ _ |- _ => destruct H as [(ets & erl & eexp & _ & _ & _ & [(_ & E)|(_ & E)])|(_ & _ & E)] end;
        subst s'; cbn [s_state]; try (split; discriminate).
      match goal with |- context [if ?q then _ else _] => destruct q; split; discriminate end. }
  destruct Hst as [E|[(E & Eg & r & Er)|(E1 & E2)]].
  - apply PhEnd. unfold terminal. rewrite E. exact I.
  - destruct Ha as [Hf|Hr].
    2:{ destruct (retried_state _ _ _ Hr) as (n & g & ed & h' & R). pose proof (rt_group _ _ _ _ _ _ _ R). congruence. }
    apply PhHello. right. exists log, s, w, c, orig, s', outs, [], r.
    split; [exact Hf|]. split; [exact Hh0|]. split; [exact E|]. split; [rewrite app_nil_r; reflexivity|]. split; [reflexivity|].
    rewrite <- Er, upd_read_id. reflexivity.
  - destruct (hello_flight _ _ _ _ _ _ _ _ He Ha Hh0 E1 E2) as (H & A & B & _). eapply PhHs; eassumption.
Qed.

(** ** Client authentication *)
Lemma make_certs_chain e req : (forall t, In t req -> asked_for e t) -> forall l leaf ps, make_certs e req l leaf = Ok ps -> chain_of e leaf l ps.
Proof.
  intros Hq. induction l as [|x l IH]; intros leaf ps H; cbn [make_certs] in H.
  - injection H as <-. constructor.
  - bo H u Eu. bo H p Ep. bo H ps' Eps. injection H as <-. constructor; [|exact Ep|apply IH, Eps].
    destruct (C31_certificate_entry (ce_extensions x) req) as (_ & Hc). 
    assert (Hd : (Forall (cert_allowed req) (map ext_type (ce_extensions x)) /\ NoDup (map ext_type (ce_extensions x))) \/
       ~ (Forall (cert_allowed req) (map ext_type (ce_extensions x)) /\ NoDup (map ext_type (ce_extensions x)))).
    { destruct (Forall_dec (cert_allowed req) (fun t => in_dec N.eq_dec t req) (map ext_type (ce_extensions x))); [|right; tauto].
      destruct (ListDec.NoDup_dec N.eq_dec (map ext_type (ce_extensions x))); [left|right]; tauto. }
    destruct Hd as [(Hd1 & Hd2)|Hd]; [|rewrite (Hc Hd) in Eu; discriminate].
    split; [|exact Hd2]. eapply Forall_impl; [|exact Hd1]. intros t Ht. apply Hq, Ht.
Qed.
Lemma past_asked e log s H L : past e log s H L -> forall t, In t (s_certReqExts s) -> asked_for e t.
Proof.
  intros PA t. pose proof (pa_neg _ _ _ _ _ PA) as Hn. assert (E : s_certReqExts s = s_certReqExts (i_s2 H)) by (unfold negotiated in Hn; congruence).
  rewrite E. clear E Hn. destruct (pa_facts _ _ _ _ _ PA) as (sid & k & hc & alpn & skew & early & kt & group & _ & _ & FF & _).
  destruct FF as [(k2 & exts & random & sh0 & sh & rtry & bsh & hws & hwl & hrs & hrl & bee & reqExts & creq & scert & ccert & scheme & auth & hc4 & bfin & hc5 & enc & wl & ct & k3 & ems & k4 & aws & awl & F)]; cbv zeta in F.
  destruct F as (_ & _ & _ & _ & _ & _ & _ & _ & _ & _ & _ & _ & _ & _ & F15 & _ & _ & _ & _ & _ & _ & _ & _ & _ & _ & F26).
  assert (Es : s_certReqExts (i_s2 H) = reqExts) by (destruct F26 as [(ets & erl & eexp & _ & _ & _ & [(_ & ->)|(_ & ->)])|(_ & _ & ->)]; reflexivity).
  rewrite Es. destruct (match e_authMode e, n_res (i_n H) with AuthNone, _ => false | _, Some _ => false | _, None => true end); [|rewrite F15; contradiction].
  unfold certificateRequest in F15. bo F15 x Ex. bo F15 more Em. bo F15 m Em'. assert (reqExts = 13 :: map ext_type more) as -> by congruence.
  intros [<-|Hin]; [left; reflexivity|]. right. destruct (e_verifier e); [|injection Em as <-; contradiction]. split; [discriminate|]. eauto.
Qed.
Lemma certificate_ok e s m orig s' outs : (forall t, In t (s_certReqExts s) -> asked_for e t) -> handle_certificate e s m orig = Ok (s', outs) ->
  outs = [] /\ exists hc certs, s_hctx s = Some hc /\ cm_context m = Some [] /\ chain_of e true (cm_list m) certs /\
    ((certs = [] /\ e_authMode e = AuthOptional /\
      s' = upd_state (upd_certs (upd_hs s (s_hsRead s) (Some (hc_append hc orig))) None (s_clientCert s)) SExpectingFinished) \/
     (certs <> [] /\ s' = upd_state (upd_certs (upd_hs s (s_hsRead s) (Some (hc_append hc orig))) (Some certs) (s_clientCert s)) SExpectingCertificateVerify)).
Proof.
  intros Hq. unfold handle_certificate. destruct (s_hctx s) as [hc|]; [|discriminate]. intros H. bo H ctx E1. bo H u E2. bo H certs E3.
  apply deref_ok in E1. apply ensure_ok in E2. destruct ctx; [|discriminate].
  assert (outs = []) by (destruct certs; [destruct (e_authMode e)|]; congruence).
  split; [assumption|]. exists hc, certs. split; [reflexivity|]. split; [exact E1|]. split; [eapply make_certs_chain; [exact Hq|exact E3]|].
  destruct certs as [|p ps].
  - left. destruct (e_authMode e); try discriminate. split; [reflexivity|]. split; [reflexivity|]. congruence.
  - right. split; [discriminate|]. congruence.
Qed.
Lemma mem_In x l : mem x l = true -> In x l.
Proof. unfold mem. intros H. apply existsb_exists in H. destruct H as (y & Hy & E). apply N.eqb_eq in E. subst. exact Hy. Qed.
Lemma certverify_ok e s m orig s' outs : handle_certificate_verify e s m orig = Ok (s', outs) ->
  outs = [] /\ exists hc leaf rest sg c, s_hctx s = Some hc /\ s_chain s = Some (leaf :: rest) /\ In (cv_algorithm m) (e_sigSchemes e) /\
    cv_signature m = Some sg /\ pc_verify leaf (cv_algorithm m) CvClient (hc_context hc) sg = Ok tt /\ accepted_as e (leaf :: rest) c /\
    s' = upd_state (upd_certs (upd_hs s (s_hsRead s) (Some (hc_append hc orig))) None (Some c)) SExpectingFinished.
Proof.
  unfold handle_certificate_verify. intros H. bo H u E1. apply ensure_ok in E1.
  destruct (s_chain s) as [[|leaf rest]|] eqn:Ec; try discriminate. destruct (s_hctx s) as [hc|]; [|discriminate].
  bo H sg E2. apply deref_ok in E2. bo H u2 E3. destruct u2. bo H c E4. injection H as <- <-. split; [reflexivity|].
  exists hc, leaf, rest, sg, c. split; [reflexivity|]. split; [reflexivity|]. split; [apply mem_In, E1|]. split; [exact E2|]. split; [exact E3|].
  split; [|reflexivity]. exists leaf, rest. split; [reflexivity|].
  destruct (e_verifier e) as [v|]; [|congruence]. bo E4 x E5.
  assert (Ev : v (leaf :: rest) = Ok x).
  { unfold as_verification in E5. destruct (v (leaf :: rest)) as [y|[[]| | | |]]; try discriminate; exact E5. }
  rewrite Ev. destruct x as [x|]; [left|right]; [congruence|split; [reflexivity|congruence]].
Qed.

(** ** Finished *)
Lemma ticket_message_kind e w s rms t m : ticket_message e w s rms t = Ok (Some m) ->
  exists nst, encodeHandshake (MNewSessionTicket nst) = Ok m.
Proof.
  unfold ticket_message. destruct (s_psk s) as [pt|]; [|destruct (e_ticketCipher e); discriminate].
  destruct (negb (e_ticketCipher e) || _); [discriminate|].
  destruct (s_ks s) as [[h k]|]; [|discriminate]. destruct (s_version s) as [v|]; [|discriminate]. destruct (s_cipher s) as [ci|]; [|discriminate].
  destruct (s_hsTime s) as [ht|]; [|discriminate]. intros H. bo H sec E1. bo H age E2. bo H tk E3. destruct tk as [[ticket lifetime]|]; [|discriminate].
  bo H ex0 E4. bo H m' E5. injection H as <-. eauto.
Qed.
Record finished_facts (e : env) (s : sstate) (vd : buf) (orig : bytes) (s' : sstate) (outs : list out) : Prop := mkFin {
  fin : exists hc cs h k version cipher r ars rd rms k' wr,
    s_hctx s = Some hc /\ s_clientHsSecret s = Some cs /\ s_ks s = Some (h, k) /\ s_version s = Some version /\ s_cipher s = Some cipher /\
    s_read s = Some r /\ ev_unparsed r = [] /\
    (exists got, vd = Some got /\ hc_finished hc cs = Ok got) /\
    kget h k (GetApp ClientAppTraffic) = Ok ars /\ new_read e h version cipher ars false = Ok rd /\
    kget h k (GetMaster ResumptionMaster (hc_context (hc_append hc orig))) = Ok rms /\ kdo h k ClearMaster = Ok k' /\
    s' = upd_state (upd_finished (upd_read (upd_write (upd_ks s (Some (h, k'))) wr) (Some rd)) rms) SAcceptingData /\
    ((wr = s_write s /\ outs = [OSecret' SkClientApp ars; OSuccess]) \/
     exists wl wl' ct nst m, s_write s = Some wl /\ wr = Some wl' /\ encodeHandshake (MNewSessionTicket nst) = Ok m /\
       wl_write wl 22 [m] = (wl', Ok ct) /\ outs = [OSecret' SkClientApp ars; OWrite [ct]; OSuccess]) }.
Lemma finished_facts_ok e w s vd orig s' outs : handle_finished e w s vd orig = HOk s' outs -> finished_facts e s vd orig s' outs.
Proof.
  unfold handle_finished. destruct (s_hctx s) as [hc|] eqn:E1; [|discriminate]. destruct (s_clientHsSecret s) as [cs|] eqn:E2; [|discriminate].
  destruct (s_ks s) as [[h k]|] eqn:E3; [|discriminate]. destruct (s_version s) as [version|] eqn:E4; [|discriminate].
  destruct (s_cipher s) as [cipher|] eqn:E5; [|discriminate].
  destruct (hc_finished hc cs) as [expected|] eqn:E6; [|discriminate]. destruct vd as [got|]; [|discriminate].
  destruct (crypto_equal expected got) eqn:E7; cbn [negb]; [|discriminate]. apply C19_equal_iff in E7. subst got.
  unfold no_unparsed. destruct (s_read s) as [r|] eqn:E8; [|discriminate]. destruct (ev_unparsed r) eqn:E9; [|discriminate].
  match goal with |- context [match ?x with Ok _ => _ | Err _ => _ end] => destruct x as [[[[ars rd] rms] k']|] eqn:E10 end; [|discriminate].
  bo E10 ars' F1. bo E10 rd' F2. bo E10 rms' F3. bo E10 k'' F4. injection E10 as -> -> -> ->.
  cbv zeta. intros H. constructor.
  assert (Hno : s' = upd_state (upd_finished (upd_read (upd_ks s (Some (h, k'))) (Some rd)) rms) SAcceptingData ->
          s' = upd_state (upd_finished (upd_read (upd_write (upd_ks s (Some (h, k'))) (s_write s)) (Some rd)) rms) SAcceptingData).
  { intros ->. destruct s; reflexivity. }
  destruct (negb (e_sendTicket e)).
  { injection H as <- <-. exists hc, cs, h, k, version, cipher, r, ars, rd, rms, k', (s_write s).
    do 6 (split; [assumption|]).
    split; [exact E9|]. split; [exists expected; auto|]. split; [exact F1|]. split; [exact F2|]. split; [exact F3|]. split; [exact F4|].
    split; [apply Hno; reflexivity|]. left. auto. }
  destruct (ticket_message _ _ _ _ _) as [[m|]|] eqn:Et; [|injection H as <- <-|discriminate].
  - apply with_write_ok in H. destruct H as (wl & wl' & ct & G1 & G2 & [= <- <-]).
    destruct (ticket_message_kind _ _ _ _ _ _ Et) as (nst & Hn).
    exists hc, cs, h, k, version, cipher, r, ars, rd, rms, k', (Some wl').
    do 6 (split; [assumption|]).
    split; [exact E9|]. split; [exists expected; auto|]. split; [exact F1|]. split; [exact F2|]. split; [exact F3|]. split; [exact F4|].
    split; [reflexivity|]. right. exists wl, wl', ct, nst, m. auto.
  - exists hc, cs, h, k, version, cipher, r, ars, rd, rms, k', (s_write s).
    do 6 (split; [assumption|]).
    split; [exact E9|]. split; [exists expected; auto|]. split; [exact F1|]. split; [exact F2|]. split; [exact F3|]. split; [exact F4|].
    split; [apply Hno; reflexivity|]. left. auto.
Qed.

(** ** Key updates *)
Lemma rekey_write_ok e s f s' outs : rekey_write e s f = HOk s' outs ->
  exists h k version cipher k' ws wl, s_ks s = Some (h, k) /\ s_version s = Some version /\ s_cipher s = Some cipher /\
    kdo h k ServerKeyUpdate = Ok k' /\ kget h k' (GetApp ServerAppTraffic) = Ok ws /\ new_write e h LvAppTraffic version cipher ws = Ok wl /\
    f (upd_write (upd_ks s (Some (h, k'))) (Some wl)) ws = HOk s' outs.
Proof.
  unfold rekey_write. destruct (s_ks s) as [[h k]|]; [|discriminate]. destruct (s_version s) as [version|]; [|discriminate].
  destruct (s_cipher s) as [cipher|]; [|discriminate].
  match goal with |- context [match ?x with Ok _ => _ | Err _ => _ end] => destruct x as [[[k' ws] wl]|] eqn:E10 end; [|discriminate].
  bo E10 k1 F1. bo E10 ws1 F2. bo E10 wl1 F3. injection E10 as -> -> ->. intros H. exists h, k, version, cipher, k', ws, wl. auto 10.
Qed.
Lemma cipher_past e log s H L : past e log s H L -> s_cipher s = Some (i_cipher H) /\ e_hash e (i_cipher H) = Ok (i_h H).
Proof.
  intros P. pose proof (pa_neg _ _ _ _ _ P) as N. pose proof (pa_flight _ _ _ _ _ P) as F. unfold negotiated in N.
  split; [|apply F]. assert (s_cipher s = s_cipher (i_s2 H)) by congruence. rewrite H0. apply F.
Qed.

Lemma ku_msg ct req m : encodeHandshake (MKeyUpdate req) = Ok m -> ct_type ct = 22 -> ct_plain ct = m -> is_ku_sent (Emit (OWrite [ct])) = true.
Proof.
  intros E H1 H2. apply encode_shape in E. destruct E as (body & _ & ->). unfold is_ku_sent, is_hs. rewrite H1, H2. cbn [hs_type]. rewrite first_byte_ku. reflexivity.
Qed.

Lemma hstep_preserves e log s w ev s' outs : env_ok e -> phase e log s -> hstep e w s ev s' outs ->
  phase e (log ++ recv_of w ev ++ map Emit outs) s'.
Proof.
  intros He HP HS. destruct HS.
  - (* accept *) destruct (phase_init _ _ _ HP H) as [-> ->]. apply PhHello. left. eexists. split; reflexivity.
  - (* ClientHello *) pose proof (phase_hello _ _ _ HP H) as Ha. apply (hello_preserves e log s w c orig s' outs He Ha H0).
  - (* application data *)
    assert (HX : plain_ext [Recv w (EvAppData d); Emit (ODeliver d)]) by (repeat split).
    destruct H as [H|H].
    + destruct (phase_hs _ _ _ HP (or_introl H)) as (Hi & L & P & I). eapply PhHs; [eapply past_ext; [exact P|reflexivity]|].
      eapply hs_ext; [exact I|exact HX|reflexivity|left; reflexivity|left; reflexivity].
    + destruct (phase_data _ _ _ HP H) as (Hi & L & P & I). eapply PhData; [eapply past_ext; [exact P|reflexivity]|].
      eapply data_ext; [exact I|apply HX|apply HX|apply HX|reflexivity|left; reflexivity|left; reflexivity].
  - (* AppWrite *)
    destruct (wl_write_content _ _ _ _ _ H1) as (C1 & C2 & C3).
    assert (HX : plain_ext (recv_of w (SvAppWrite q) ++ map Emit [OWrite [ct]])).
    { unfold plain_ext, count. cbn [recv_of app map forallb filter is_success is_ku_recv length quiet]. unfold is_ku_sent, is_hs. rewrite C1. auto. }
    assert (WL : (exists lv ws, wl = WEnc lv ws) -> write_like s (upd_write s (Some wl'))).
    { intros (lv & ws & ->). destruct C3 as (C3 & ws' & -> & C4). right. exists lv, ws, ws'. auto. }
    assert (HHS : s_state s = SAcceptingEarlyData \/ s_state s = SExpectingFinished -> phase e (log ++ recv_of w (SvAppWrite q) ++ map Emit [OWrite [ct]]) (upd_write s (Some wl'))).
    { intros Hs. destruct (phase_hs _ _ _ HP) as (Hi & L & P & I); [tauto|]. eapply PhHs; [eapply past_ext; [exact P|reflexivity]|].
      eapply hs_ext; [exact I|exact HX|reflexivity|left; reflexivity|apply WL].
      destruct (hi_write _ _ _ _ _ I) as (ws & W1 & _). exists LvAppTraffic, ws. congruence. }
    destruct H as [H|[H|H]]; [auto|auto|].
    destruct (phase_data _ _ _ HP H) as (Hi & L & P & I). eapply PhData; [eapply past_ext; [exact P|reflexivity]|].
    eapply data_ext; [exact I|apply HX|apply HX|apply HX|reflexivity|left; reflexivity|apply WL].
    destruct (di_write _ _ _ _ _ I) as (ws & W1 & _). exists LvAppTraffic, ws. congruence.
  - (* EndOfEarlyData *)
    destruct (phase_hs _ _ _ HP (or_introl H)) as (Hi & L & P & [I1 I2 I3 I4 I5 I6]). eapply PhHs; [eapply past_ext; [exact P|reflexivity]|].
    rewrite H in I6. destruct I6 as (A & B & C & D & D5). destruct I1 as (hc0 & G1 & G2 & G3 & G4). assert (hc0 = hc) as -> by congruence.
    constructor; cbn [recv_of map app].
    + exists (hc_append hc orig). split; [reflexivity|]. split; [exact G2|]. split; [apply transcript_recv; [exact G3|discriminate]|].
      cbn [hc_append hc_data]. rewrite G4, client_msgs_app, <- app_assoc. cbn. rewrite app_nil_r. reflexivity.
    + exact I2.
    + exact I3.
    + exact I4.
    + rewrite !count_app. destruct I5 as (-> & -> & ->). auto.
    + cbn [upd_state s_state]. split; [exact D|]. left. rewrite A. split; [discriminate|exact B].
  - (* Certificate *)
    destruct (phase_hs _ _ _ HP (or_intror (or_introl H))) as (Hi & L & P & [I1 I2 I3 I4 I5 I6]).
    rewrite H in I6. destruct I6 as (A & B & C). destruct I1 as (hc0 & G1 & G2 & G3 & G4).
    destruct (certificate_ok _ _ _ _ _ _ (past_asked _ _ _ _ _ P) H0) as (-> & hc & certs & K1 & K2 & K3 & K4). assert (hc0 = hc) as -> by congruence.
    assert (TR : transcript e (i_h Hi) (log ++ [Recv w (EvHandshake (MCertificate m) orig)]) (hc_data (hc_append hc orig)))
      by (apply transcript_recv; [exact G3|discriminate]).
    assert (CN : count is_success (log ++ [Recv w (EvHandshake (MCertificate m) orig)]) = 0%nat /\
                 count is_ku_recv (log ++ [Recv w (EvHandshake (MCertificate m) orig)]) = 0%nat /\
                 count is_ku_sent (log ++ [Recv w (EvHandshake (MCertificate m) orig)]) = 0%nat).
    { rewrite !count_app. destruct I5 as (-> & -> & ->). auto. }
    destruct K4 as [(-> & K4 & ->)|(K4 & ->)].
    + eapply PhHs; [eapply past_ext; [exact P|reflexivity]|]. constructor; cbn [recv_of map app].
      * exists (hc_append hc orig). split; [reflexivity|]. split; [exact G2|]. split; [exact TR|]. cbn [hc_append hc_data]. rewrite G4, client_msgs_app, <- app_assoc. cbn. rewrite app_nil_r. reflexivity.
      * exact I2.
      * exact I3.
      * exact I4.
      * exact CN.
      * cbn [upd_state s_state]. split; [exact C|]. right. split; [exact A|]. left. split; [exact K4|exact B].
    + eapply PhHs; [eapply past_ext; [exact P|reflexivity]|]. constructor; cbn [recv_of map app].
      * exists (hc_append hc orig). split; [reflexivity|]. split; [exact G2|]. split; [exact TR|]. cbn [hc_append hc_data]. rewrite G4, client_msgs_app, <- app_assoc. cbn. rewrite app_nil_r. reflexivity.
      * exact I2.
      * exact I3.
      * exact I4.
      * exact CN.
      * cbn [upd_state s_state]. split; [exact A|]. split; [exact B|]. split; [exact C|]. exists certs. split; [reflexivity|].
        exists L, w, m, orig, []. auto.
  - (* CertificateVerify *)
    destruct (phase_hs _ _ _ HP (or_intror (or_intror (or_introl H)))) as (Hi & L & P & [I1 I2 I3 I4 I5 I6]).
    rewrite H in I6. destruct I6 as (A & B & C & D). destruct I1 as (hc0 & G1 & G2 & G3 & G4).
    destruct (certverify_ok _ _ _ _ _ _ H0) as (-> & hc & leaf & rest & sg & c & K1 & K2 & K3 & K4 & K5 & K6 & ->). assert (hc0 = hc) as -> by congruence.
    destruct D as (chain & D1 & L1 & w1 & m1 & o1 & L2 & D2 & D3 & D4 & D5). assert (chain = leaf :: rest) as -> by congruence.
    eapply PhHs; [eapply past_ext; [exact P|reflexivity]|]. constructor; cbn [recv_of map app].
    + exists (hc_append hc orig). split; [reflexivity|]. split; [exact G2|]. split; [apply transcript_recv; [exact G3|discriminate]|].
      cbn [hc_append hc_data]. rewrite G4, client_msgs_app, <- app_assoc. cbn. rewrite app_nil_r. reflexivity.
    + exact I2.
    + exact I3.
    + exact I4.
    + rewrite !count_app. destruct I5 as (-> & -> & ->). auto.
    + cbn [upd_state s_state]. split; [exact C|]. right. split; [exact A|]. right. exists c. split; [reflexivity|].
      exists L1, w1, m1, o1, L2, w, m, orig, [], leaf, rest, sg.
      split; [rewrite D2, <- app_assoc; reflexivity|]. split; [exact D3|]. split; [exact D4|].
      split; [exact K3|]. split; [exact K4|]. split; [|exact K6]. unfold hc_context in K5. rewrite G2, G4, D2 in K5. exact K5.
  - (* Finished *)
    destruct (phase_hs _ _ _ HP (or_intror (or_intror (or_intror H)))) as (Hi & L & P & [I1 I2 I3 I4 I5 I6]).
    rewrite H in I6. destruct I6 as (A & B). destruct I1 as (hc0 & G1 & G2 & G3 & G4). destruct I2 as (k0 & Q1 & Q2).
    destruct (finished_facts_ok _ _ _ _ _ _ _ H0) as [(hc & cs & h & k & version & cipher & r & ars & rd & rms & k' & wr & K1 & K2 & K3 & K4 & K5 & K6 & K7 & (got & -> & K8) & K9 & K10 & K11 & K12 & -> & K14)].
    destruct (cipher_past _ _ _ _ _ P) as [Ci Hh]. assert (hc0 = hc) as -> by congruence. assert (h = i_h Hi /\ k0 = k /\ cipher = i_cipher Hi) as (-> & -> & ->) by (repeat split; congruence).
    assert (cs = i_chs Hi) as -> by congruence.
    pose proof (eo_hash e He _ _ Hh) as Hok.
    destruct (kget_rel _ _ _ (GetApp ClientAppTraffic) _ Hok Q2 I K9) as (st & E). cbn [spec_step] in E.
    assert (Ea : ars = client_traffic (i_h Hi) (i_tr Hi 0 0)) by congruence. clear E st.
    assert (Lc : op_ok (i_h Hi) (GetMaster ResumptionMaster (hc_context (hc_append hc orig)))).
    { cbn [op_ok]. rewrite hc_ctx_len; cbn [hc_append hc_hash]; rewrite G2; auto. }
    destruct (kget_rel _ _ _ _ _ Hok Q2 Lc K11) as (st & E). cbn [spec_step master_spec] in E.
    assert (Er : rms = DeriveSecret (i_h Hi) (MasterSecret (i_h Hi) (i_psk Hi) (i_dh Hi)) (str "res master") (h_fn (i_h Hi) (hc_data hc ++ orig))).
    { unfold hc_context in E. cbn [hc_append hc_hash hc_data] in E. rewrite G2 in E. congruence. }
    clear E st.
    destruct (kdo_rel _ _ _ ClearMaster _ Hok Q2 I K12) as (st & o & E & Hk'). cbn [spec_step] in E. injection E as <- <-.
    assert (La : blen ars = h_len (i_h Hi)) by (rewrite Ea; apply ct_len, Hok).
    destruct (new_read_keyed _ _ _ _ _ _ _ He Hok La K10) as (Kr & _). rewrite Ea in Kr.
    assert (Lv : got = verify_data (i_h Hi) (i_chs Hi) (hc_data hc)).
    { rewrite finished_ok in K8; rewrite ?G2; auto; [|unfold i_chs; apply DeriveSecret_len, Hok]. rewrite G2 in K8. congruence. }
    assert (HX : count is_success (map Emit outs) = 1%nat /\ count is_ku_recv (map Emit outs) = 0%nat /\ count is_ku_sent (map Emit outs) = 0%nat /\
                 exists ws, wr = Some (WEnc LvAppTraffic ws) /\ keyed e (i_h Hi) (i_cipher Hi) (server_traffic (i_h Hi) (i_tr Hi 0 0)) (ws_aead ws)).
    { destruct I4 as (ws & W1 & W2). destruct K14 as [(-> & ->)|(wl & wl' & ct & nst & mm & T1 & -> & T2 & T3 & ->)].
      - repeat split. exists ws. auto.
      - destruct (wl_write_content _ _ _ _ _ T3) as (C1 & C2 & C3). cbn [concat] in C2. rewrite app_nil_r in C2.
        pose proof (ku_sent_msg ct _ _ C2 T2 eq_refl ltac:(discriminate)) as Hk.
        unfold count. cbn [map filter is_success is_ku_recv]. cbn [map filter]. rewrite Hk. split; [reflexivity|]. split; [reflexivity|]. split; [reflexivity|].
        assert (wl = WEnc LvAppTraffic ws) as -> by congruence. destruct C3 as (_ & ws' & -> & C4). exists ws'. rewrite C4. auto. }
    destruct HX as (X1 & X2 & X3 & X4). destruct I5 as (Y1 & Y2 & Y3).
    assert (Zr : count is_ku_recv (log ++ recv_of w (SvRead (EvHandshake (MFinished (Some got)) orig)) ++ map Emit outs) = 0%nat).
    { rewrite !count_app, Y2, X2. reflexivity. }
    assert (Zs : count is_ku_sent (log ++ recv_of w (SvRead (EvHandshake (MFinished (Some got)) orig)) ++ map Emit outs) = 0%nat).
    { rewrite !count_app, Y3, X3. reflexivity. }
    eapply PhData; [eapply past_ext; [exact P|reflexivity]|]. constructor; rewrite ?Zr, ?Zs.
    + reflexivity.
    + exists k'. split; [reflexivity|exact Hk'].
    + exact Kr.
    + exact X4.
    + eapply auth_ext; [exact B|reflexivity].
    + rewrite !count_app, Y1, X1. reflexivity.
    + exists L, w, (Some got), orig, (map Emit outs), (hc_data hc). split; [reflexivity|]. split; [exact G4|]. split; [congruence|]. exact Er.
  - (* new ticket *)
    destruct (phase_data _ _ _ HP H) as (Hi & L & P & I). unfold handle_new_ticket in H0.
    destruct (ticket_message _ _ _ _ _) as [[m|]|] eqn:Et; [|injection H0 as <- <-|discriminate].
    + apply with_write_ok in H0. destruct H0 as (wl & wl' & ct & G1 & G2 & [= <- <-]).
      destruct (ticket_message_kind _ _ _ _ _ _ Et) as (nst & Hn). destruct (wl_write_content _ _ _ _ _ G2) as (C1 & C2 & C3).
      cbn [concat] in C2. rewrite app_nil_r in C2. pose proof (ku_sent_msg ct _ _ C2 Hn eq_refl ltac:(discriminate)) as Hk.
      eapply PhData; [eapply past_ext; [exact P|reflexivity]|]. eapply data_ext; [exact I|reflexivity|reflexivity| |reflexivity|left; reflexivity|].
      * unfold count. cbn [recv_of app map filter]. rewrite Hk. reflexivity.
      * destruct (di_write _ _ _ _ _ I) as (ws & W1 & _). assert (wl = WEnc LvAppTraffic ws) as -> by congruence. destruct C3 as (_ & ws' & -> & C4).
        right. exists LvAppTraffic, ws, ws'. auto.
    + eapply PhData; [eapply past_ext; [exact P|reflexivity]|]. eapply data_ext; [exact I|reflexivity|reflexivity|reflexivity|reflexivity|left; reflexivity|left; reflexivity].
  - (* KeyUpdateInitiation *)
    destruct (phase_data _ _ _ HP H) as (Hi & L & P & I). unfold handle_ku_init in H0.
    destruct (no_unparsed s) as [[|]|]; try discriminate. destruct (encodeHandshake (MKeyUpdate req)) as [m|] eqn:Em; [|discriminate].
    apply with_write_ok in H0. destruct H0 as (wl & wl' & ct & G1 & G2 & H0).
    apply rekey_write_ok in H0. destruct H0 as (h & k & version & cipher & k' & ws & wl2 & R1 & R2 & R3 & R4 & R5 & R6 & [= <- <-]).
    destruct (wl_write_content _ _ _ _ _ G2) as (C1 & C2 & C3). cbn [concat] in C2. rewrite app_nil_r in C2. pose proof (ku_msg ct _ _ Em C1 C2) as Hk.
    destruct I as [I1 (k0 & Q1 & Q2) I3 I4 I5 I6 I7]. destruct (cipher_past _ _ _ _ _ P) as [Ci Hh].
    cbn [upd_write upd_layers s_ks s_version s_cipher] in R1, R2, R3. assert (h = i_h Hi /\ k0 = k /\ cipher = i_cipher Hi) as (-> & -> & ->) by (repeat split; congruence).
    pose proof (eo_hash e He _ _ Hh) as Hok.
    destruct (kdo_rel _ _ _ ServerKeyUpdate _ Hok Q2 Logic.I R4) as (st & o & E & Hk'). cbn [spec_step i_tr tr_psk tr_dh tr_hash tr_c tr_s] in E.
    assert (st = (Start, Some (i_tr Hi (count is_ku_recv log) (S (count is_ku_sent log))))) as -> by (unfold i_tr; congruence). clear E.
    destruct (kget_rel _ _ _ (GetApp ServerAppTraffic) _ Hok Hk' Logic.I R5) as (st & E). cbn [spec_step] in E.
    assert (Ea : ws = server_traffic (i_h Hi) (i_tr Hi (count is_ku_recv log) (S (count is_ku_sent log)))) by congruence. clear E st.
    assert (La : blen ws = h_len (i_h Hi)) by (rewrite Ea; apply st_len, Hok).
    destruct (new_write_keyed _ _ _ _ _ _ _ He Hok La R6) as (w2 & -> & Kw & _).
    assert (Zr : count is_ku_recv (log ++ recv_of w (SvKeyUpdate req) ++ map Emit [OSecret' SkServerApp ws; OWrite [ct]]) = count is_ku_recv log).
    { rewrite count_app. unfold count at 2. cbn [recv_of app map filter is_ku_recv length]. apply Nat.add_0_r. }
    assert (Zs : count is_ku_sent (log ++ recv_of w (SvKeyUpdate req) ++ map Emit [OSecret' SkServerApp ws; OWrite [ct]]) = S (count is_ku_sent log)).
    { rewrite count_app. unfold count at 2. cbn [recv_of app map filter]. change (is_ku_sent (Emit (OSecret' SkServerApp ws))) with false.
      rewrite Hk. cbn [length]. rewrite Nat.add_1_r. reflexivity. }
    eapply PhData; [eapply past_ext; [exact P|reflexivity]|]. constructor; rewrite ?Zr, ?Zs.
    + exact I1.
    + exists k'. split; [reflexivity|exact Hk'].
    + exact I3.
    + exists w2. split; [reflexivity|]. rewrite <- Ea. exact Kw.
    + eapply auth_ext; [exact I5|reflexivity].
    + rewrite count_app, I6. reflexivity.
    + destruct I7 as (L1 & w1 & vd & orig & L2 & T & A & B). exists L1, w1, vd, orig, (L2 ++ recv_of w (SvKeyUpdate req) ++ map Emit [OSecret' SkServerApp ws; OWrite [ct]]), T. split; [|exact B].
      rewrite A, <- app_assoc. reflexivity.
  - (* KeyUpdate *)
    destruct (phase_data _ _ _ HP H) as (Hi & L & P & I). unfold handle_ku in H0.
    destruct (no_unparsed s) as [[|]|]; try discriminate.
    destruct I as [I1 (k0 & Q1 & Q2) I3 I4 I5 I6 I7]. destruct (cipher_past _ _ _ _ _ P) as [Ci Hh].
    rewrite Q1, Ci in H0. destruct (s_version s) as [version|] eqn:Ev; [|discriminate].
    match type of H0 with context [match ?x with Ok _ => _ | Err _ => _ end] => destruct x as [[[k' rs] rl]|] eqn:E10 end; [|discriminate].
    bo E10 k1 F1. bo E10 rs1 F2. bo E10 rl1 F3. injection E10 as -> -> ->.
    pose proof (eo_hash e He _ _ Hh) as Hok.
    destruct (kdo_rel _ _ _ ClientKeyUpdate _ Hok Q2 Logic.I F1) as (st & o & E & Hk'). cbn [spec_step i_tr tr_psk tr_dh tr_hash tr_c tr_s] in E.
    assert (st = (Start, Some (i_tr Hi (S (count is_ku_recv log)) (count is_ku_sent log)))) as -> by (unfold i_tr; congruence). clear E.
    destruct (kget_rel _ _ _ (GetApp ClientAppTraffic) _ Hok Hk' Logic.I F2) as (st & E). cbn [spec_step] in E.
    assert (Ec : rs = client_traffic (i_h Hi) (i_tr Hi (S (count is_ku_recv log)) (count is_ku_sent log))) by congruence. clear E st.
    assert (Lc : blen rs = h_len (i_h Hi)) by (rewrite Ec; apply ct_len, Hok).
    destruct (new_read_keyed _ _ _ _ _ _ _ He Hok Lc F3) as (Kr & _).
    assert (Zr : forall o, count is_ku_recv (log ++ recv_of w (SvRead (EvHandshake (MKeyUpdate req) orig)) ++ map Emit o) = S (count is_ku_recv log)).
    { intros l. rewrite !count_app. unfold count at 2. cbn [recv_of filter is_ku_recv length].
      assert (count is_ku_recv (map Emit l) = 0%nat) as -> by (induction l; [reflexivity|assumption]). lia. }
    destruct (req =? 0).
    + injection H0 as <- <-.
      assert (Zs : count is_ku_sent (log ++ recv_of w (SvRead (EvHandshake (MKeyUpdate req) orig)) ++ map Emit [OSecret' SkClientApp rs]) = count is_ku_sent log).
      { rewrite count_app. apply Nat.add_0_r. }
      eapply PhData; [eapply past_ext; [exact P|reflexivity]|]. constructor; rewrite ?Zr, ?Zs.
      * exact I1.
      * exists k'. split; [reflexivity|exact Hk'].
      * rewrite Ec in Kr. exact Kr.
      * exact I4.
      * eapply auth_ext; [exact I5|reflexivity].
      * rewrite count_app, I6. reflexivity.
      * destruct I7 as (L1 & w1 & vd & orig1 & L2 & T & A & B). eexists L1, w1, vd, orig1, (L2 ++ _), T. split; [|exact B].
        rewrite A, <- app_assoc. reflexivity.
    + destruct (encodeHandshake (MKeyUpdate 0)) as [m|] eqn:Em; [|discriminate].
      apply with_write_ok in H0. destruct H0 as (wl & wl' & ct & G1 & G2 & H0).
      apply rekey_write_ok in H0. destruct H0 as (h & k & version2 & cipher & k'' & ws & wl2 & R1 & R2 & R3 & R4 & R5 & R6 & [= <- <-]).
      destruct (wl_write_content _ _ _ _ _ G2) as (C1 & C2 & C3). cbn [concat] in C2. rewrite app_nil_r in C2. pose proof (ku_msg ct _ _ Em C1 C2) as Hk.
      cbn [upd_write upd_layers upd_ks s_ks s_version s_cipher] in R1, R2, R3. assert (h = i_h Hi /\ k = k' /\ cipher = i_cipher Hi) as (-> & -> & ->) by (repeat split; congruence).
      destruct (kdo_rel _ _ _ ServerKeyUpdate _ Hok Hk' Logic.I R4) as (st & o2 & E & Hk2). cbn [spec_step i_tr tr_psk tr_dh tr_hash tr_c tr_s] in E.
      assert (st = (Start, Some (i_tr Hi (S (count is_ku_recv log)) (S (count is_ku_sent log))))) as -> by (unfold i_tr; congruence). clear E.
      destruct (kget_rel _ _ _ (GetApp ServerAppTraffic) _ Hok Hk2 Logic.I R5) as (st & E). cbn [spec_step] in E.
      assert (Ea : ws = server_traffic (i_h Hi) (i_tr Hi (S (count is_ku_recv log)) (S (count is_ku_sent log)))) by congruence. clear E st.
      assert (La : blen ws = h_len (i_h Hi)) by (rewrite Ea; apply st_len, Hok).
      destruct (new_write_keyed _ _ _ _ _ _ _ He Hok La R6) as (w2 & -> & Kw & _).
      assert (Zs : count is_ku_sent (log ++ recv_of w (SvRead (EvHandshake (MKeyUpdate req) orig)) ++ map Emit [OSecret' SkServerApp ws; OSecret' SkClientApp rs; OWrite [ct]]) = S (count is_ku_sent log)).
      { rewrite count_app. unfold count at 2. cbn [recv_of app map filter]. change (is_ku_sent (Emit (OSecret' SkServerApp ws))) with false. change (is_ku_sent (Emit (OSecret' SkClientApp rs))) with false.
        change (is_ku_sent (Recv w (EvHandshake (MKeyUpdate req) orig))) with false.
        rewrite Hk. cbn [length]. rewrite Nat.add_1_r. reflexivity. }
      eapply PhData; [eapply past_ext; [exact P|reflexivity]|]. constructor; rewrite ?Zr, ?Zs.
      * exact I1.
      * exists k''. split; [reflexivity|exact Hk2].
      * rewrite Ec in Kr. exact Kr.
      * exists w2. split; [reflexivity|]. rewrite <- Ea. exact Kw.
      * eapply auth_ext; [exact I5|reflexivity].
      * rewrite count_app, I6. reflexivity.
      * destruct I7 as (L1 & w1 & vd & orig1 & L2 & T & A & B). eexists L1, w1, vd, orig1, (L2 ++ _), T. split; [|exact B].
        rewrite A, <- app_assoc. reflexivity.
  - (* close_notify *)
    apply PhEnd. unfold handle_close in H0. destruct (no_unparsed s) as [[|]|]; try discriminate. destruct reply.
    + apply with_write_ok in H0. destruct H0 as (wl & wl' & ct & G1 & G2 & [= <- <-]). exact I.
    + injection H0 as <- <-. exact I.
Qed.

(** ** All steps, all connections *)
Lemma enc_write_aead ty : forall ws q calls ws' rr, enc_write ty ws q = (calls, ws', rr) -> ws_aead ws' = ws_aead ws.
Proof.
  intros ws q calls ws' rr E. unfold enc_write in E. revert E. generalize (length (concat q)), (@nil byte). intros f out. revert ws q out calls ws' rr.
  induction f as [|f IH]; intros ws q out calls ws' rr; cbn [enc_write_loop].
  + destruct (queue_empty q); congruence.
  + destruct (queue_empty q); [congruence|]. destruct (buf_to_encrypt q (ws_max ws)) as [dd q'].
    destruct (ws_seq ws =? max64); [congruence|].
    destruct (ae_enc _ _ _ _); [|intros [= <- <- <-]; reflexivity].
    destruct (enc_write_loop f ty (w_set_seq ws (ws_seq ws + 1)) q' _) as [[c2 w2] r2] eqn:E2.
    intros [= <- <- ->]. apply IH in E2. exact E2.
Qed.
Lemma step_preserves e log s w i s' outs : env_ok e -> phase e log s -> sstep e w s i = (s', outs) ->
  phase e (log ++ received w s i ++ map Emit outs) s'.
Proof.
  intros He HP H. apply sstep_cases in H. destruct H.
  - rewrite H. cbn [app]. pose proof (hstep_preserves _ _ _ _ _ _ _ He HP H2) as X. rewrite H0 in X. exact X.
  - rewrite H2. assert (HP1 : phase e (log ++ []) (upd_read s (Some r'))) by (eapply phase_read; [exact HP|exact H0|rewrite H1; reflexivity|reflexivity]).
    rewrite app_nil_r in HP1. exact (hstep_preserves _ _ _ _ _ _ _ He HP1 H3).
  - subst. rewrite H2. cbn [app map]. eapply phase_read; [exact HP|exact H0|rewrite H1; reflexivity|reflexivity].
  - apply PhEnd. unfold terminal. rewrite H0. exact I.
  - apply PhEnd. unfold terminal. rewrite H0. exact I.
  - apply PhEnd. unfold terminal. rewrite H. exact I.
  - apply PhEnd. unfold terminal. destruct H1 as [-> | ->]; exact I.
  - subst. rewrite H. cbn [app map]. destruct (wl_write wl 21 [alert_bytes 0]) as [wl' r] eqn:Ew. cbn [fst].
    assert (WL : match wl with WPlain => wl' = WPlain | WEnc lv ws => exists ws', wl' = WEnc lv ws' /\ ws_aead ws' = ws_aead ws end).
    { destruct wl as [|lv ws]; cbn [wl_write] in Ew; [congruence|]. destruct (enc_write 21 ws [alert_bytes 0]) as [[calls ws'] rr] eqn:E.
      injection Ew as <- _. exists ws'. split; [reflexivity|]. eapply enc_write_aead, E. }
    rewrite app_nil_r.
    assert (WK : write_like s (upd_write s (Some wl'))).
    { destruct wl as [|lv ws]; [left; subst wl'; symmetry; exact H1|]. destruct WL as (ws' & -> & K). right. exists lv, ws, ws'. auto. }
    destruct HP as [A B|A|Hi L P I|Hi L P I|T].
    + subst s. discriminate.
    + apply PhHello. rewrite (awaiting_write _ _ _ A) in H1. injection H1 as <-. subst wl'.
      assert (upd_write s (Some WPlain) = s) as ->; [|exact A]. pose proof (awaiting_write _ _ _ A) as E. destruct s; cbn in E |- *. subst. reflexivity.
    + rewrite <- (app_nil_r log). eapply PhHs; [eapply past_ext; [exact P|reflexivity]|]. eapply hs_ext; [exact I|repeat split|reflexivity|left; reflexivity|exact WK].
    + rewrite <- (app_nil_r log). eapply PhData; [eapply past_ext; [exact P|reflexivity]|]. eapply data_ext; [exact I|reflexivity|reflexivity|reflexivity|reflexivity|left; reflexivity|exact WK].
    + apply PhEnd. exact T.
Qed.
Theorem reach_phase e l s log : env_ok e -> reach e l s log -> phase e log s.
Proof.
  intros He H. pattern s, log. eapply reach_rect; [| |exact H].
  - apply PhInit; reflexivity.
  - intros. eapply step_preserves; eassumption.
Qed.
