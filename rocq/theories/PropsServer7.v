(** * C61: session tickets *)
From Verif Require Import Base Codec CodecSpec Str Hkdf HkdfSpec HkdfProofs KeySched KeySchedSpec KeySchedProofs Handshake HandshakeSpec Extensions
  ExtensionsSpec ExtensionsProofs RecordBase Record RecordRT
  ReadEvent HelloChecks Cookie Token Negotiate Ticket Kex Hpke Transcript IOBufUtil PropsIOBuf PropsCodec
  EchConfirm Server ServerSpec ServerFacts ServerSteps ServerFlight ServerInv ServerPreserve ServerParams ServerOrigin ServerSpec2 PropsEch
  PropsServer PropsServer2 PropsServer3 PropsServer4 RecordSpec ServerSpec3 PropsServer6.
Open Scope N_scope.

(** ** Where a ticket comes from *)
Definition ticket_fields (s : sstate) := (s_psk s, s_ks s, s_version s, s_cipher s, s_hsTime s, s_serverCert s, s_clientCert s, s_alpn s).
Lemma same_ticket e w s s' r t : ticket_fields s = ticket_fields s' -> ticket_message e w s r t = ticket_message e w s' r t.
Proof. unfold ticket_fields. intros H. injection H as H1 H2 H3 H4 H5 H6 H7 H8. unfold ticket_message. rewrite H1, H2, H3, H4, H5, H6, H7, H8. reflexivity. Qed.
Lemma finished_ticket e w s vd orig s' outs ct : handle_finished e w s vd orig = HOk s' outs -> In (OWrite [ct]) outs ->
  e_sendTicket e = true /\ s_state s' = SAcceptingData /\ ticket_message e w s' (s_resumption s') None = Ok (Some (ct_plain ct)).
Proof.
  unfold handle_finished. destruct (s_hctx s) as [hc|] eqn:E1; [|discriminate]. destruct (s_clientHsSecret s) as [cs|] eqn:E2; [|discriminate].
  destruct (s_ks s) as [[h k]|] eqn:E3; [|discriminate]. destruct (s_version s) as [version|] eqn:E4; [|discriminate].
  destruct (s_cipher s) as [cipher|] eqn:E5; [|discriminate].
  destruct (hc_finished hc cs) as [expected|] eqn:E6; [|discriminate]. destruct vd as [got|]; [|discriminate].
  destruct (crypto_equal expected got) eqn:E7; cbn [negb]; [|discriminate].
  unfold no_unparsed. destruct (s_read s) as [r|] eqn:E8; [|discriminate]. destruct (ev_unparsed r) eqn:E9; [|discriminate].
  match goal with |- context [match ?x with Ok _ => _ | Err _ => _ end] => destruct x as [[[[ars rd] rms] k']|] eqn:E10 end; [|discriminate].
  cbv zeta. destruct (e_sendTicket e); cbn [negb].
  2:{ intros H Hin. injection H as <- <-. repeat (destruct Hin as [Hin|Hin]; [discriminate Hin|]). contradiction. }
  destruct (ticket_message _ _ _ _ _) as [[m|]|] eqn:Et; [| |discriminate].
  2:{ intros H Hin. injection H as <- <-. repeat (destruct Hin as [Hin|Hin]; [discriminate Hin|]). contradiction. }
  intros H Hin. apply with_write_ok in H. destruct H as (wl & wl' & ct' & G1 & G2 & H). injection H as <- <-. split; [reflexivity|]. split; [reflexivity|].
  destruct Hin as [Hin|[Hin|[Hin|[]]]]; try discriminate Hin. injection Hin as ->. apply wl_write_content in G2. destruct G2 as (_ & G2 & _). cbn [concat] in G2. rewrite app_nil_r in G2. rewrite G2.
  rewrite <- Et. apply same_ticket. reflexivity.
Qed.
Lemma new_ticket e w s t s' outs ct : s_state s = SAcceptingData -> handle_new_ticket e w s t = HOk s' outs -> In (OWrite [ct]) outs ->
  s_state s' = SAcceptingData /\ ticket_message e w s' (s_resumption s') t = Ok (Some (ct_plain ct)).
Proof.
  unfold handle_new_ticket. intros Hs. destruct (ticket_message _ _ _ _ _) as [[m|]|] eqn:Et; [| |discriminate].
  2:{ intros H Hin. injection H as <- <-. destruct Hin. }
  intros H Hin. apply with_write_ok in H. destruct H as (wl & wl' & ct' & G1 & G2 & H). injection H as <- <-. split; [exact Hs|].
  destruct Hin as [Hin|[]]. injection Hin as ->. apply wl_write_content in G2. destruct G2 as (_ & G2 & _). cbn [concat] in G2. rewrite app_nil_r in G2. rewrite G2.
  rewrite <- Et. apply same_ticket. reflexivity.
Qed.
Lemma not_ku nst req m : encodeHandshake (MNewSessionTicket nst) = Ok m -> encodeHandshake (MKeyUpdate req) = Ok m -> False.
Proof.
  intros H1 H2. apply encode_shape in H1, H2. destruct H1 as (b1 & _ & H1), H2 as (b2 & _ & H2). cbn [hs_type] in *.
  rewrite H1 in H2. injection H2 as H2. discriminate.
Qed.
Lemma acts_ticket e log w s ev s' outs ct nst : acts e log w s ev s' outs -> In (OWrite [ct]) outs -> ct_type ct = 22 -> ct_level ct = LvAppTraffic ->
  encodeHandshake (MNewSessionTicket nst) = Ok (ct_plain ct) ->
  (exists vd orig, ev = SvRead (EvHandshake (MFinished vd) orig)) \/ exists t, ev = SvNewTicket t.
Proof.
  intros HA Hin Ht Hl Hn. destruct HA; eauto; exfalso; cbn [In] in Hin;
    try (repeat (destruct Hin as [Hin|Hin]; [discriminate Hin|]); contradiction).
  - rewrite H3 in Hin. destruct Hin as [Hin|[]]. injection Hin as <- _. congruence.
  - apply in_split in Hin. destruct Hin as (a & b & Hab). rewrite Hab in H10. destruct (flight_out _ _ _ _ _ _ _ _ H2 H10) as [(k & b' & [=])|[(cs & Hcs & Hf)|([=] & _)]].
    injection Hcs as <-. destruct Hf as (c1 & c2 & Hf & _). cbn [filter] in Hf. destruct (is_hs ct); discriminate.
  - destruct Hin as [Hin|[]]. injection Hin as <-. congruence.
  - destruct Hin as [Hin|[Hin|[]]]; [discriminate|]. injection Hin as <-. subst m. eapply not_ku; eassumption.
  - destruct Hin as [Hin|[Hin|[Hin|[]]]]; try discriminate. injection Hin as <-. subst m. eapply not_ku; eassumption.
  - destruct H0 as [(_ & _ & ct' & -> & Ht' & _)|(_ & ->)]; cbn [In] in Hin; repeat (destruct Hin as [Hin|Hin]; [try discriminate Hin|]); try contradiction. injection Hin as <-. congruence.
Qed.
Lemma step_ticket e l s log w i s' outs ct nst : env_ok e -> reach e l s log -> sstep e w s i = (s', outs) ->
  In (OWrite [ct]) outs -> ct_type ct = 22 -> ct_level ct = LvAppTraffic -> encodeHandshake (MNewSessionTicket nst) = Ok (ct_plain ct) ->
  match i with INewTicket _ => True | _ => e_sendTicket e = true end /\
  s_state s' = SAcceptingData /\ ticket_message e w s' (s_resumption s') (match i with INewTicket t => t | _ => None end) = Ok (Some (ct_plain ct)).
Proof.
  intros He Hr Hst Hin Ht Hl Hn. pose proof (reach_phase _ _ _ _ He Hr) as HP. apply sstep_cases in Hst.
  destruct Hst as [ev R1 R2 R0 R3|r b r' b' x R1 R2 R3 R4 R5|r b r' b' hint R1 R2 R3 R4 R5 R6|R1 R2 R3 R4 R5 R6|R1 R2 R3 R4|R1 R2|R1 R2 R3 R4 R5|wl R1 R2 R3 R4 R5].
  - destruct (acts_ticket _ _ _ _ _ _ _ _ _ (hstep_acts _ _ _ _ _ _ _ He HP R3) Hin Ht Hl Hn) as [(vd & orig & ->)|(t & ->)]; [discriminate|].
    assert (i = INewTicket t) as -> by (destruct i; try discriminate; cbn in R0; congruence). inversion R3; subst. split; [exact Logic.I|]. eapply new_ticket; eassumption.
  - assert (HP' : phase e log (upd_read s (Some r'))) by (rewrite <- (app_nil_r log); eapply phase_read; [exact HP|exact R2|rewrite R3; reflexivity|reflexivity]).
    destruct (acts_ticket _ _ _ _ _ _ _ _ _ (hstep_acts _ _ _ _ _ _ _ He HP' R5) Hin Ht Hl Hn) as [(vd & orig & Ev)|(t & [=])].
    injection Ev as ->. subst i. inversion R5; subst. eapply finished_ticket; eassumption.
  - exfalso. rewrite R6 in Hin. destruct Hin as [Hin|[]]. discriminate.
  - exfalso. destruct R6 as [->|(a & [->|(d & ct' & wl & _ & _ & E & ->)])]; cbn [In] in Hin; [contradiction|destruct Hin as [Hin|[]]; discriminate|].
    destruct Hin as [Hin|[Hin|[]]]; [|discriminate]. injection Hin as <-. rewrite E in Ht. discriminate.
  - rewrite R4 in Hin. destruct Hin.
  - rewrite R2 in Hin. destruct Hin.
  - exfalso. destruct R5 as [->|(wl & ct' & _ & E & ->)]; [destruct Hin|]. destruct Hin as [Hin|[]]. injection Hin as <-. rewrite E in Ht. discriminate.
  - rewrite R5 in Hin. destruct Hin.
Qed.

(** ** C61 *)
(** A session ticket that a connection hands out was sealed, by the ticket cipher, of that connection's own parameters: version, cipher suite,
    application protocol, the certificates both sides have shown and the time of the first handshake; with a PSK derived from its resumption
    secret, whose transcript ends with the Finished message of the client that was verified.  It is given only after that Finished. *)
Theorem C61_ticket e l s log w i s' outs ct nst0 : env_ok e -> reach e l s log -> sstep e w s i = (s', outs) ->
  In (OWrite [ct]) outs -> ct_type ct = 22 -> ct_level ct = LvAppTraffic -> encodeHandshake (MNewSessionTicket nst0) = Ok (ct_plain ct) ->
  exists L0 wh c orig pre cs La P o early alpn scert scheme ccert Lb wf fin Lc nst,
    log ++ received w s i ++ map Emit outs = L0 ++ Recv wh (EvHandshake (MClientHello c) orig) :: map Emit pre ++ Emit (OWrite cs) :: La /\
    handshake_of e L0 wh c orig cs P /\ answer e L0 wh c orig cs P o early alpn scert scheme /\
    client_identity e P La ccert /\
    La = Lb ++ Recv wf (EvHandshake (MFinished (Some (verify_data (p_hash P) (client_hs_secret (p_hash P) (p_psk P) (p_dh P) (p_Tsh P)) (p_Tsf P ++ client_msgs Lb)))) fin) :: Lc /\
    match i with INewTicket _ => True | _ => e_sendTicket e = true end /\ e_ticketCipher e = true /\ (exists t, psk_kind e wh P t /\ t <> PskNotSupported) /\
    encodeHandshake (MNewSessionTicket nst) = Ok (ct_plain ct) /\
    ticket_says e w P (resumption_psk P (p_Tsf P ++ client_msgs Lb ++ fin)) alpn scert ccert (handshake_time wh P)
      (match i with INewTicket t => t | _ => None end) nst.
Proof.
  intros He Hr Hst Hin Ht Hl Hn. destruct (step_ticket _ _ _ _ _ _ _ _ _ _ He Hr Hst Hin Ht Hl Hn) as (Hsend & Hs' & Hm). clear Hin Ht Hl Hn.
  pose proof (reach_snoc _ _ _ _ _ _ _ _ Hr Hst) as Hr'. pose proof (reach_phase _ _ _ _ He Hr') as HP. set (log' := log ++ received w s i ++ map Emit outs) in *.
  destruct (phase_data _ _ _ HP Hs') as (H & L & PA & DI).
  destruct (past_answer _ _ _ _ _ He PA) as (P & pre & cs & post & o & alpn & scert & scheme & Ho & Hfl & Hpo & HO & SP & AN & RE).
  pose proof (pa_neg _ _ _ _ _ PA) as Hng. unfold negotiated in Hng. injection Hng as N1 N2 N3 N4 N5 N6 N7 N8 N9 N10 N11 N12 N13 N14 N15 N16 N17 N18 N19 N20.
  destruct (di_resumption _ _ _ _ _ DI) as (L1 & wf & vd & fin & L2 & T & EL & ET & Evd & Erm).
  destruct (di_ks _ _ _ _ _ DI) as (k & Ek & Hrel). pose proof SP as SP0. destruct SP0 as [sp1 sp2 sp3 sp4 sp5 sp6 sp7 sp8 sp9 sp10 sp11 sp12 sp13 sp14 sp15 sp16].
  pose proof (eo_hash e He _ _ (ho_hash _ _ _ _ _ _ _ HO)) as Hok.
  assert (Hpm : client_msgs (map Emit post) = []) by (rewrite Hpo; destruct (is_accepted (i_ed H)); reflexivity).
  unfold ticket_message in Hm. rewrite N6 in Hm. destruct (re_psk _ _ _ _ _ _ _ _ _ _ RE) as (pt & Ept & Hkind). rewrite Ept in Hm.
  destruct (e_ticketCipher e) eqn:Etc; [|discriminate]. cbn [negb orb] in Hm.
  rewrite Ek, N1, N2, N17 in Hm. rewrite (re_version _ _ _ _ _ _ _ _ _ _ RE), (re_cipher _ _ _ _ _ _ _ _ _ _ RE), (re_time _ _ _ _ _ _ _ _ _ _ RE) in Hm.
  assert (Hpt : pt <> PskNotSupported) by (intros ->; discriminate).
  assert (Hm' : (sec <- kget (i_h H) k (GetResumption (s_resumption s') []) ;;
          age <- w_ageAdd w ;;
          t <- w_ticketEncrypt w (mkRS (p_version P) (p_cipher P) (Some sec) (s_serverCert s') (s_clientCert s') (s_alpn s') age (w_now w) (match i with INewTicket t => t | _ => None end) (handshake_time (i_w H) P)) ;;
          match t with
          | None => Ok None
          | Some (ticket, lifetime) =>
              ex <- (if acceptEarly e (p_version P) then x <- encodeExtension (XTicketEarlyData (e_maxEarly e)) ;; Ok [x] else Ok []) ;;
              m <- encodeHandshake (MNewSessionTicket (mkNST (lifetime mod 2 ^ 32) age (Some []) (Some ticket) ex)) ;;
              Ok (Some m)
          end) = Ok (Some (ct_plain ct))) by (destruct pt; try exact Hm; congruence).
  clear Hm. bo Hm' sec E1. bo Hm' age E2. bo Hm' t E3. destruct t as [[ticket lifetime]|]; [|discriminate]. bo Hm' exts E4. bo Hm' m E5.
  assert (m = ct_plain ct) as -> by congruence. clear Hm'.
  assert (Hrms : s_resumption s' = resumption_master P (p_Tsf P ++ client_msgs L1 ++ fin)).
  { unfold resumption_master. rewrite Erm, ET, sp5, sp6, sp7, sp10, app_assoc. reflexivity. }
  assert (Hsec : sec = resumption_psk P (p_Tsf P ++ client_msgs L1 ++ fin)).
  { assert (Hop : op_ok (i_h H) (GetResumption (s_resumption s') [])).
    { split; [|vm_compute; discriminate]. rewrite Hrms. unfold resumption_master. rewrite sp5 in *. apply DeriveSecret_len. exact Hok. }
    rewrite sp5 in Hok. destruct (kget_rel _ _ _ _ _ Hok Hrel Hop E1) as (st' & E). cbn [spec_step fst snd] in E. injection E as _ E. rewrite <- E, Hrms. unfold resumption_psk. rewrite sp5. reflexivity. }
  exists (i_log H), (i_w H), (i_c H), (i_orig H), pre, cs, (map Emit post ++ L), P, o, (is_accepted (i_ed H)), alpn, scert, scheme, (s_clientCert s'),
    (map Emit post ++ L1), wf, fin, L2, (mkNST (lifetime mod 2 ^ 32) age (Some []) (Some ticket) exts).
  assert (Hcm : client_msgs (map Emit post ++ L1) = client_msgs L1) by (rewrite client_msgs_app, Hpm; reflexivity).
  split. { rewrite (pa_log _ _ _ _ _ PA), Ho. unfold hello_log. rewrite map_app. cbn [map app]. rewrite <- app_assoc. reflexivity. }
  split; [exact HO|]. split; [exact AN|]. split; [eapply identity_of; [exact He|exact PA|apply DI|exact SP|exact Hpm]|].
  split. { rewrite EL, Hcm, Evd, ET, sp5, sp6, sp7, sp9, sp10, <- app_assoc. reflexivity. }
  split; [exact Hsend|]. split; [reflexivity|]. split; [exists pt; auto|]. split; [exact E5|].
  rewrite Hcm, <- Hsec. exists ticket, lifetime, exts. cbn [nst_age_add nst_lifetime nst_nonce nst_ticket nst_extensions].
  split; [exact E2|]. split. { rewrite <- E3, N9, N10, (re_alpn _ _ _ _ _ _ _ _ _ _ RE), (re_cert _ _ _ _ _ _ _ _ _ _ RE). reflexivity. }
  do 4 (split; [reflexivity|]). destruct (acceptEarly e (p_version P)) eqn:Eac.
  - left. apply acceptEarly_iff in Eac. split; [exact Eac|]. bo E4 x Ex. exists x. split; [exact Ex|congruence].
  - right. split; [|congruence]. intros X. apply acceptEarly_iff in X. congruence.
Qed.

(** Conversely, a ticket is given when there is one to give. *)
Lemma message_some e w s r t x : ticket_message e w s r t = Ok x -> e_ticketCipher e = true -> s_psk s <> Some PskNotSupported ->
  (forall rs, w_ticketEncrypt w rs <> Ok None) -> exists nst m, x = Some m /\ encodeHandshake (MNewSessionTicket nst) = Ok m.
Proof.
  unfold ticket_message. intros H Ht Hp Hw. rewrite Ht in H. destruct (s_psk s) as [pt|]; [|discriminate]. cbn [negb orb] in H.
  assert (Hn : (match pt with PskNotSupported => true | _ => false end) = false) by (destruct pt; try reflexivity; congruence). rewrite Hn in H. clear Hn.
  destruct (s_ks s) as [[h k]|]; [|discriminate]. destruct (s_version s); [|discriminate]. destruct (s_cipher s); [|discriminate]. destruct (s_hsTime s); [|discriminate].
  bo H sec E1. bo H age E2. bo H tk E3. destruct tk as [[ticket lifetime]|]; [|destruct (Hw _ E3)]. bo H exts E4. bo H m E5. injection H as <-. eauto.
Qed.
Lemma acts_success e log w s ev s' outs : acts e log w s ev s' outs -> In OSuccess outs -> exists vd orig, ev = SvRead (EvHandshake (MFinished vd) orig).
Proof.
  intros HA Hin. destruct HA; eauto; exfalso; cbn [In] in Hin;
    try (repeat (destruct Hin as [Hin|Hin]; [discriminate Hin|]); contradiction).
  - rewrite H3 in Hin. destruct Hin as [Hin|[]]. discriminate.
  - apply in_split in Hin. destruct Hin as (a & b & Hab). rewrite Hab in H10. destruct (flight_out _ _ _ _ _ _ _ _ H2 H10) as [(k & b' & [=])|[(cs & Hcs & Hf)|([=] & _)]]. discriminate.
  - destruct H2 as [->|(ct & nst & m & -> & _)]; cbn [In] in Hin; repeat (destruct Hin as [Hin|Hin]; [discriminate Hin|]); contradiction.
  - destruct H0 as [(_ & _ & ct' & -> & Ht' & _)|(_ & ->)]; cbn [In] in Hin; repeat (destruct Hin as [Hin|Hin]; [discriminate Hin|]); contradiction.
Qed.
(** with the handshake's success, if tickets are to be sent by themselves; *)
Theorem C61_sent e l s log w i s' outs : env_ok e -> reach e l s log -> sstep e w s i = (s', outs) -> In OSuccess outs ->
  e_sendTicket e = true -> e_ticketCipher e = true -> s_psk s <> Some PskNotSupported -> (forall rs, w_ticketEncrypt w rs <> Ok None) ->
  exists b ct nst, outs = [OSecret' SkClientApp b; OWrite [ct]; OSuccess] /\ encodeHandshake (MNewSessionTicket nst) = Ok (ct_plain ct).
Proof.
  intros He Hr Hst Hin Hs Ht Hp Hw. pose proof (reach_phase _ _ _ _ He Hr) as HP. apply sstep_cases in Hst.
  destruct Hst as [ev R1 R2 R0 R3|r b r' b' x R1 R2 R3 R4 R5|r b r' b' hint R1 R2 R3 R4 R5 R6|R1 R2 R3 R4 R5 R6|R1 R2 R3 R4|R1 R2|R1 R2 R3 R4 R5|wl R1 R2 R3 R4 R5].
  - exfalso. destruct (acts_success _ _ _ _ _ _ _ (hstep_acts _ _ _ _ _ _ _ He HP R3) Hin) as (vd & orig & ->). discriminate.
  - assert (HP' : phase e log (upd_read s (Some r'))) by (rewrite <- (app_nil_r log); eapply phase_read; [exact HP|exact R2|rewrite R3; reflexivity|reflexivity]).
    destruct (acts_success _ _ _ _ _ _ _ (hstep_acts _ _ _ _ _ _ _ He HP' R5) Hin) as (vd & orig & Ev). injection Ev as ->. inversion R5; subst.
    match goal with HX : handle_finished _ _ _ _ _ = _ |- _ => revert HX end. clear R5 Hin. set (s1 := upd_read s (Some r')). assert (Hpp : s_psk s1 = s_psk s) by reflexivity. clearbody s1.
    unfold handle_finished. destruct (s_hctx s1) as [hc|] eqn:E1; [|discriminate]. destruct (s_clientHsSecret s1) as [cs|] eqn:E2; [|discriminate].
    destruct (s_ks s1) as [[h k]|] eqn:E3; [|discriminate]. destruct (s_version s1) as [version|] eqn:E4; [|discriminate].
    destruct (s_cipher s1) as [cipher|] eqn:E5; [|discriminate].
    destruct (hc_finished hc cs) as [expected|] eqn:E6; [|discriminate]. destruct vd as [got|]; [|discriminate].
    destruct (crypto_equal expected got) eqn:E7; cbn [negb]; [|discriminate].
    unfold no_unparsed. destruct (s_read s1) as [r0|] eqn:E8; [|discriminate]. destruct (ev_unparsed r0) eqn:E9; [|discriminate].
    match goal with |- context [match ?x with Ok _ => _ | Err _ => _ end] => destruct x as [[[[ars rd] rms] k']|] eqn:E10 end; [|discriminate].
    cbv zeta. rewrite Hs. cbn [negb]. destruct (ticket_message _ _ _ _ _) as [x|] eqn:Et; [|discriminate].
    apply message_some in Et; [|exact Ht|change (s_psk s1 <> Some PskNotSupported); rewrite Hpp; exact Hp|exact Hw]. destruct Et as (nst & m & -> & Em).
    intros H. apply with_write_ok in H. destruct H as (wl & wl' & ct & G1 & G2 & H). injection H as <- <-.
    apply wl_write_content in G2. destruct G2 as (_ & G2 & _). cbn [concat] in G2. rewrite app_nil_r in G2. exists ars, ct, nst. split; [reflexivity|]. congruence.
  - exfalso. rewrite R6 in Hin. destruct Hin as [Hin|[]]. discriminate.
  - exfalso. destruct R6 as [->|(a & [->|(d & ct' & wl & _ & _ & E & ->)])]; cbn [In] in Hin; [contradiction|destruct Hin as [Hin|[]]; discriminate|].
    destruct Hin as [Hin|[Hin|[]]]; discriminate.
  - rewrite R4 in Hin. destruct Hin.
  - rewrite R2 in Hin. destruct Hin.
  - exfalso. destruct R5 as [->|(wl & ct' & _ & E & ->)]; [destruct Hin|]. destruct Hin as [Hin|[]]; discriminate.
  - rewrite R5 in Hin. destruct Hin.
Qed.
Lemma finish_terminal s x s' outs : s_state s = SAcceptingData -> finish (HErr s x) = (s', outs) -> s_state s' = SCrash \/ s_state s' = SError.
Proof.
  intros Hs H. assert (HE : forall a, handle_error s a = (s', outs) -> s_state s' = SCrash \/ s_state s' = SError).
  { intros a. unfold handle_error. rewrite Hs. intros E. repeat match type of E with (match ?q with _ => _ end) = _ => destruct q end; injection E as <- <-; auto. }
  unfold finish in H. destruct x as [[a|]| | | |]; try (eapply HE; exact H); injection H as <- <-; auto.
Qed.
(** when the application asks for one, once the handshake is complete, unless that fails. *)
Theorem C61_on_request e l s log w t s' outs : env_ok e -> reach e l s log -> s_state s = SAcceptingData -> sstep e w s (INewTicket t) = (s', outs) ->
  e_ticketCipher e = true -> s_psk s <> Some PskNotSupported -> (forall rs, w_ticketEncrypt w rs <> Ok None) ->
  (exists ct nst, outs = [OWrite [ct]] /\ encodeHandshake (MNewSessionTicket nst) = Ok (ct_plain ct) /\ s_state s' = SAcceptingData) \/
  (s_state s' = SCrash \/ s_state s' = SError).
Proof.
  intros He Hr Hs Hst Ht Hp Hw. pose proof (reach_phase _ _ _ _ He Hr) as HP. unfold sstep in Hst. rewrite Hs in Hst. unfold process_event, handle in Hst. rewrite Hs in Hst. cbv beta iota zeta in Hst.
  unfold handle_new_ticket in Hst. destruct (ticket_message e w s (s_resumption s) t) as [x|x] eqn:Et.
  - apply message_some in Et; [|exact Ht|exact Hp|exact Hw]. destruct Et as (nst & m & -> & Em). unfold with_write in Hst.
    destruct (s_write s) as [wl|] eqn:Ew; [|right; left; cbn in Hst; injection Hst as <- <-; reflexivity].
    destruct (wl_write wl 22 [m]) as [wl' [ct|y]] eqn:Ewl.
    + left. cbn [finish] in Hst. injection Hst as <- <-. apply wl_write_content in Ewl. destruct Ewl as (_ & G2 & _). cbn [concat] in G2. rewrite app_nil_r in G2.
      exists ct, nst. split; [reflexivity|]. split; [congruence|exact Hs].
    + right. eapply finish_terminal; [|exact Hst]. exact Hs.
  - right. eapply finish_terminal; [|exact Hst]. exact Hs.
Qed.
