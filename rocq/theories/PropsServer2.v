(** * C35, C36: client certificates and early data *)
From Verif Require Import Base Codec CodecSpec Str Hkdf HkdfSpec HkdfProofs KeySched KeySchedSpec KeySchedProofs Handshake HandshakeSpec Extensions
  ExtensionsSpec ExtensionsProofs RecordBase Record RecordRT
  ReadEvent HelloChecks Cookie Token Negotiate Ticket Kex Hpke Transcript IOBufUtil PropsIOBuf
  EchConfirm Server ServerSpec ServerFacts ServerSteps ServerFlight ServerInv ServerPreserve ServerParams ServerOrigin ServerSpec2 PropsServer.
Open Scope N_scope.

Lemma authenticated_pre e h Tsf po L c : client_msgs po = [] -> client_authenticated e h Tsf L c -> client_authenticated e h Tsf (po ++ L) c.
Proof.
  intros Hp (L1 & w1 & m & o1 & L2 & w2 & cv & o2 & L3 & leaf & rest & sig & -> & A1 & A2 & A3 & A4 & A5 & A6).
  exists (po ++ L1), w1, m, o1, L2, w2, cv, o2, L3, leaf, rest, sig. split; [rewrite <- app_assoc; reflexivity|].
  split; [exact A1|]. split; [exact A2|]. split; [exact A3|]. split; [exact A4|]. split; [|exact A6].
  rewrite <- app_assoc, (client_msgs_app po), Hp. exact A5.
Qed.
Lemma early_ticket e w c rs version cipher kt ck alpn rc skew : negotiateEarly e w c rs version cipher kt ck alpn rc skew = Ok EdAccepted ->
  exists r k, rs = Some r /\ skew = Some k /\ earlyOffered c = Ok true /\ acceptEarly e version = true /\ rs_cipher r = cipher /\ rs_alpn r = alpn /\
    kt <> Some KexHRR /\ ck = None /\ rc = RNotReplay /\ (e_tolBefore e <= k <= e_tolAfter e)%Z /\ (e_tokenValidator e = true -> w_tokenValid w r = true).
Proof.
  unfold negotiateEarly. intros H. bo H o Eo. destruct o; [|discriminate]. cbn [negb] in H. injection H as H.
  destruct (acceptEarly e version) eqn:E1; [|discriminate]. destruct rs as [r|]; [|discriminate]. cbn [negb] in H.
  destruct (N.eqb_spec (rs_cipher r) cipher) as [E2|]; [|discriminate]. cbn [negb] in H.
  destruct (opt_eqb (rs_alpn r) alpn) eqn:E3; [|discriminate]. cbn [negb] in H.
  destruct (match kt with Some KexHRR => true | _ => false end) eqn:E4; [discriminate|]. destruct ck; [discriminate|]. destruct rc; try discriminate.
  destruct skew as [k|]; [|discriminate]. destruct ((k <? e_tolBefore e) || (e_tolAfter e <? k))%Z eqn:E5; [discriminate|].
  destruct (e_tokenValidator e && negb (w_tokenValid w r)) eqn:E6; [discriminate|].
  exists r, k. split; [reflexivity|]. split; [reflexivity|]. split; [exact Eo|]. split; [reflexivity|]. split; [exact E2|]. split.
  { unfold opt_eqb in E3. destruct (rs_alpn r), alpn; try discriminate; [|reflexivity]. f_equal. apply bytes_eqb_eq, E3. }
  split; [intros ->; discriminate|]. split; [reflexivity|]. split; [reflexivity|]. apply orb_false_iff in E5. split; [lia|].
  intros Ht. rewrite Ht in E6. cbn [andb] in E6. destruct (w_tokenValid w r); [reflexivity|discriminate].
Qed.
(** ** C35 *)
Lemma identity_of e log s H L PP po : env_ok e -> past e log s H L -> auth_done e L s H -> same_params H PP -> client_msgs po = [] ->
  client_identity e PP (po ++ L) (s_clientCert s).
Proof.
  intros He P HA SP Hm.
  pose proof (pa_flight _ _ _ _ _ P) as FO. pose proof (fo_cert _ _ _ _ _ _ _ _ _ _ _ _ _ _ FO) as Ec. pose proof (fo_read _ _ _ _ _ _ _ _ _ _ _ _ _ _ FO) as Er.
  destruct SP. unfold client_identity.
  destruct (p_ticket PP) as [[[id pt] r]|] eqn:Et.
  - destruct HA as [(_ & ->)|(A & _)]; [rewrite Ec, sp_ticket; reflexivity|]. rewrite A in Er. destruct Er as (_ & _ & Er & _). congruence.
  - rewrite sp_ticket in Ec, Er. destruct HA as [(A & B)|(A & B)].
    + rewrite B, Ec. destruct (e_authMode e) eqn:Em; [reflexivity|left; reflexivity|]. exfalso.
      destruct (s_state (i_s2 H)); try contradiction.
      * destruct Er as (_ & _ & Ed & _). destruct (pa_facts _ _ _ _ _ P) as (sid & k & hc & alpn & skew & early & kt & group & F1 & _).
        pose proof (hf_ed _ _ _ _ _ _ _ _ _ _ _ _ _ _ F1) as X. rewrite Ed in X. apply early_ticket in X. destruct X as (r & kk & X & _). congruence.
      * destruct Er as (_ & Er). apply Er; [discriminate|reflexivity].
    + rewrite A in Er. destruct Er as (_ & _ & _ & Er). rewrite sp_hash, sp_Tsf. destruct B as [(B & ->)|(c & -> & B)].
      * rewrite B. auto.
      * apply (authenticated_pre _ _ _ po) in B; [|exact Hm]. destruct (e_authMode e); [contradiction|right|]; eauto.
Qed.
Theorem C35_client_certificate e l s log : env_ok e -> reach e l s log -> s_state s = SAcceptingData ->
  exists P La, handshake e log P La /\ client_identity e P La (s_clientCert s).
Proof.
  intros He Hr Es. pose proof (reach_phase _ _ _ _ He Hr) as HP. destruct (phase_data _ _ _ HP Es) as (H & L & P & I).
  destruct (past_handshake _ _ _ _ _ He P) as (PP & po & HH & Hp & SP). exists PP, (po ++ L). split; [exact HH|].
  eapply identity_of; [exact He|exact P|apply I|exact SP|]. destruct Hp as [(-> & _)|(-> & _)]; reflexivity.
Qed.
(** ** C36 *)
Lemma waits_only L : forallb is_wait L = true -> only_waits L.
Proof.
  intros H x Hx. rewrite forallb_forall in H. specialize (H _ Hx). destruct x as [|o]; [discriminate|]. destruct o; try discriminate. eauto.
Qed.
Lemma past_early e log s H L P cs : env_ok e -> past e log s H L -> same_params H P -> handshake_of e (i_log H) (i_w H) (i_c H) (i_orig H) cs P ->
  i_ed H = EdAccepted -> early_accepted e (i_log H) (i_w H) P.
Proof.
  intros He [P1 P2 P3 (sid & k & hc & alpn & skew & early & kt & group & F1 & F2 & F3 & F4 & F5) P5 P6] [] HO Ed.
  pose proof (hf_ed _ _ _ _ _ _ _ _ _ _ _ _ _ _ F1) as X. rewrite Ed in X. apply early_ticket in X.
  destruct X as (r & kk & X1 & X2 & X3 & X4 & X5 & X6 & X7 & X8 & X9 & X10 & X11).
  pose proof (hf_neg _ _ _ _ _ _ _ _ _ _ _ _ _ _ F1) as HN.
  assert (Hfr : fresh (i_log H) (i_s1 H)).
  { destruct P1 as [P1|P1]; [exact P1|]. exfalso. destruct (retried_state _ _ _ P1) as (n & g & ed & h' & R). apply X7, R. }
  destruct Hfr as (r0 & Es1 & Hw).
  constructor.
  - rewrite sp_version. unfold acceptEarly in X4. destruct (e_earlyFbOnly e); cbn [andb] in X4.
    + destruct (N.eqb_spec (n_version (i_n H)) 0xfb17); cbn [negb andb] in X4; [auto|].
      destruct (N.eqb_spec (n_version (i_n H)) 0xfb1a); cbn [negb andb] in X4; [auto|discriminate].
    + split; [exact X4|discriminate].
  - apply waits_only, Hw.
  - rewrite sp_T, sp_enc, <- F4. destruct (hf_setup _ _ _ _ _ _ _ _ _ _ _ _ _ _ F1) as [_ (hc0 & S1 & S2 & _)].
    rewrite X8 in S1. rewrite S2, S1, Es1. reflexivity.
  - rewrite sp_hello. unfold earlyOffered in X3. bo X3 x Ex. destruct x as [x|]; [|discriminate]. rewrite Ex.
    pose proof Ex as Ex'. apply getExtension_strict in Ex'. destruct Ex' as (Hk & _). destruct x; try discriminate Hk. reflexivity.
  - rewrite sp_hello. pose proof (nf_replay _ _ _ _ _ _ HN) as R. unfold replayResult in R. rewrite X3, X4, X9 in R. cbn [bind negb orb] in R.
    destruct (e_replayCache e); cbn [negb orb] in R; [|discriminate]. auto.
  - rewrite X1 in sp_ticket. destruct (p_ticket P) as [[[id pt] r']|] eqn:Et; [|discriminate]. injection sp_ticket as <-.
    pose proof (ho_ticket _ _ _ _ _ _ _ HO) as T. rewrite Et in T. destruct T as ((ids & bs & age & T1 & T2 & _) & _ & _ & _ & T3 & _).
    exists id, pt, r. split; [reflexivity|]. split; [exact T3|]. split; [rewrite sp_cipher; exact X5|].
    split; [|split; [exact X11|]].
    + destruct ids as [|i0 ids]; [discriminate|]. injection T2 as ->. exists age, ids, bs, kk. split; [exact T1|]. split; [|exact X10].
      pose proof (nf_psk _ _ _ _ _ _ HN) as Hp. rewrite X1 in Hp. destruct Hp as (id' & md & age' & pt' & Q1 & Q2 & Q3 & Q4 & Q5 & Q6).
      rewrite sp_hello in T1. unfold resumptionQuery in Q1. rewrite T1 in Q1. cbn [bind] in Q1. bo Q1 mm Em. cbv zeta in Q1.
      destruct (match mm with Some (XPskKeyExchangeModes l) => Some l | _ => None end) as [ms|]; [|discriminate].
      destruct (e_ticketCipher e); cbn [negb] in Q1; [|discriminate]. destruct (negotiate (e_pskModes e) ms); [|discriminate]. cbn [deref bind] in Q1.
      injection Q1 as _ _ <-. pose proof (hf_skew _ _ _ _ _ _ _ _ _ _ _ _ _ _ F1) as K. rewrite X1, Q3, X2 in K. unfold clockSkew in K.
      bo K d Ek. cbv zeta in K. injection K as <-. unfold chk64 in Ek.
      match type of Ek with (if ?q then _ else _) = _ => destruct q; [|discriminate] end. injection Ek as <-. reflexivity.
    + rewrite sp_fl. pose proof F3 as G.
      destruct G as [(k2 & exts & random & sh0 & sh & rtry & bsh & hws & hwl & hrs & hrl & bee & reqExts & creq & scert & ccert & scheme & auth & hc4 & bfin & hc5 & enc & wl & ct & k3 & ems & k4 & aws & awl & F)].
      cbv zeta in F. destruct F as (_ & _ & _ & _ & _ & _ & _ & _ & G9 & _ & G11 & _ & _ & G14 & _ & _ & _ & G18 & G19 & G20 & _ & _ & _ & _ & _ & G26).
      assert (Hfl : exists rest, i_fl H = bee ++ rest).
      { destruct (fo_outs _ _ _ _ _ _ _ _ _ _ _ _ _ _ P3) as (pre & cs' & post & Ho & (c1 & c2 & U1 & U2 & U3 & U4 & U5) & _). cbv zeta in Ho.
        assert (Hc : cs' = ct :: ccs_if sid ++ [enc]).
        { assert (Hin : In (OWrite cs') (i_outs H)) by (rewrite Ho; apply in_or_app; right; right; right; right; left; reflexivity).
          destruct G26 as [(ets & erl & eexp & _ & _ & E & _)|(_ & E & _)]; rewrite E in Hin; cbn [app In] in Hin.
          - destruct Hin as [[=]|[[=]|[[=]|[[=]|[[= <-]|[[=]|[]]]]]]]. reflexivity.
          - destruct Hin as [[=]|[[=]|[[=]|[[= <-]|[]]]]]. reflexivity. }
        assert (W1 : ct_type ct = 22).
        { destruct (wl_write wl 22 [bsh]) as [wl' rr] eqn:Ew. cbn [snd] in G20. subst rr. apply wl_write_content in Ew. apply Ew. }
        unfold new_write in G11. bo G11 rv E1. bo G11 ae E2. injection G11 as <-.
        destruct (write_flight_content _ _ _ _ _ eq_refl G18) as (_ & W2 & W3).
        assert (filter is_hs cs' = [ct; enc]) as Hf.
        { rewrite Hc. cbn [filter]. unfold is_hs at 1. rewrite W1. change (22 =? 22) with true. cbv iota. f_equal. rewrite filter_app.
          assert (filter is_hs (ccs_if sid) = []) as -> by (destruct sid; reflexivity). cbn [app filter]. unfold is_hs. rewrite W2. change (22 =? 22) with true. reflexivity. }
        rewrite Hf in U1. injection U1 as <- <-. rewrite <- U5, W3. cbn [concat]. eauto. }
      destruct Hfl as (rest & Hfl). unfold encryptedExts in G14. bo G14 e1 E1. bo G14 e2 E2. bo G14 e3 E3. rewrite Ed in E2. bo E2 ea Ea. injection E2 as <-.
      exists e1, ea, (e3 ++ exts), bee, rest. split; [exact Hfl|]. split; [exact G14|]. split; [exact Ea|]. rewrite X6. destruct alpn as [p|]; [|congruence].
      bo E1 a Ea1. injection E1 as <-. exists a. auto.
Qed.
(** Early data is reported accepted only together with the server's flight, and only if every condition holds. *)
Theorem C36_early_data e l s L1 L2 : env_ok e -> reach e l s (L1 ++ Emit OEarlySuccess :: L2) ->
  exists L0 w c orig pre cs P, L1 = L0 ++ Recv w (EvHandshake (MClientHello c) orig) :: map Emit pre ++ [Emit (OWrite cs)] /\
    handshake_of e L0 w c orig cs P /\ early_accepted e L0 w P.
Proof.
  intros He Hr. destruct (emit_acts _ _ _ _ _ _ _ He Hr eq_refl) as [(log1 & s1 & w & ev & s2 & pre & post & HP & HA & -> & HL3)|D].
  2:{ destruct D as [(n & [=])|[(a & [=])|(ct & [=] & _)]]. }
  remember (pre ++ OEarlySuccess :: post) as outs eqn:Eo.
  assert (Hone : forall x, x <> OEarlySuccess -> [x] = pre ++ OEarlySuccess :: post -> False).
  { intros x Hx E. symmetry in E. apply split_one in E. destruct E as (_ & _ & <-). congruence. }
  destruct HA; try (destruct pre; discriminate); try (exfalso; revert Eo; apply Hone; discriminate).
  - exfalso. rewrite H3 in Eo. revert Eo. apply Hone. discriminate.
  - assert (Ho : i_outs H = pre ++ OEarlySuccess :: post) by congruence.
    destruct (flight_out _ _ _ _ _ _ _ _ H2 Ho) as [(k & b & [=])|[(cs & [=] & _)|(_ & Ed)]].
    destruct (past_params _ _ _ _ _ He H2) as (P & pre' & cs & post' & Ho' & Hfl & Hpp & HH & SP).
    destruct Hpp as [(_ & X)|(-> & _)]; [contradiction|].
    assert (Hp : pre = pre' ++ [OWrite cs] /\ post = []).
    { rewrite Ho in Ho'. destruct (past_outs _ _ _ _ _ H2) as (cs' & po & Hx & _ & Hy). rewrite Ed in Hx, Hy. subst po. rewrite Ho in Hx.
      cbn [app] in Hx. destruct pre as [|a0 [|a1 [|a2 [|a3 [|a4 [|a5 pre]]]]]]; try discriminate Hx.
      2:{ injection Hx as _ _ _ _ _ _ Hx. destruct pre; discriminate. }
      injection Hx as -> -> -> -> -> ->. split; [|reflexivity].
      destruct pre' as [|b0 [|b1 [|b2 [|b3 [|b4 pre']]]]]; try discriminate Ho'.
      - injection Ho' as <- <- <- <- ->. reflexivity.
      - injection Ho' as _ _ _ _ _ Ho'. destruct pre' as [|? [|? ?]]; discriminate. }
    destruct Hp as (-> & ->). subst log1 s1 w c orig.
    exists (i_log H), (i_w H), (i_c H), (i_orig H), pre', cs, P. split.
    + rewrite map_app. reflexivity.
    + split; [exact HH|]. eapply past_early; eassumption.
  - exfalso. destruct H6 as [->|(ct & nst & m & -> & _)]; [destruct pre as [|? [|? [|? ?]]]; discriminate|destruct pre as [|? [|? [|? [|? ?]]]]; discriminate].
  - exfalso. destruct H2 as [->|(ct & nst & m & -> & _)]; [destruct pre; discriminate|]. revert Eo. apply Hone. discriminate.
  - exfalso. destruct pre as [|a [|b [|c pre]]]; discriminate.
  - exfalso. destruct pre as [|a [|b [|c [|d' pre]]]]; discriminate.
  - exfalso. destruct H0 as [(_ & _ & ct & -> & _)|(_ & ->)]; [|revert Eo; apply Hone; discriminate]. destruct pre as [|a [|b [|c pre]]]; discriminate.
Qed.
