(** * C37, C38: what a server connection negotiates *)
From Verif Require Import Base Codec CodecSpec Str Hkdf HkdfSpec HkdfProofs KeySched KeySchedSpec KeySchedProofs Handshake HandshakeSpec Extensions
  ExtensionsSpec ExtensionsProofs RecordBase Record RecordRT
  ReadEvent HelloChecks Cookie Token Negotiate Ticket Kex Hpke Transcript IOBufUtil PropsIOBuf PropsCodec
  EchConfirm Server ServerSpec ServerFacts ServerSteps ServerFlight ServerInv ServerPreserve ServerParams ServerOrigin ServerSpec2 PropsServer PropsServer2.
Open Scope N_scope.

(** ** Writes *)
Definition a_retry (e : env) (log : list entry) (w : world) (s : sstate) (c : ClientHello) (orig : bytes) (s' : sstate) (outs : list out) : Prop :=
  exists n sid h k hc alpn skew ed early g, fresh log s /\ hello_facts e w s c orig n sid h k hc alpn skew ed early /\
    negotiateGroup e (n_hello n) = Ok (g, None) /\ hello_retry e s n sid hc g ed = Ok (s', outs).
Definition a_flight (e : env) (log : list entry) (w : world) (s : sstate) (c : ClientHello) (orig : bytes) (s' : sstate) (outs : list out) (H : hist) : Prop :=
  awaiting e log s /\ past e (log ++ hello_log w c orig outs) s' H [] /\
  i_log H = log /\ i_s1 H = s /\ i_w H = w /\ i_c H = c /\ i_orig H = orig /\ i_s2 H = s' /\ i_outs H = outs.
Lemma acts_write e log w s ev s' pre cs post : acts e log w s ev s' (pre ++ OWrite cs :: post) ->
  (exists c orig ct sid, ev = hello_ev c orig /\ pre = [] /\ post = [] /\ cs = ct :: ccs_if sid /\ ct_type ct = 22 /\ ct_level ct = LvPlaintext /\
     a_retry e log w s c orig s' [OWrite cs] /\ handle_hello e w s c orig = Ok (s', [OWrite cs]) /\ s_state s' = SExpectingClientHello) \/
  (exists c orig H, ev = hello_ev c orig /\ a_flight e log w s c orig s' (pre ++ OWrite cs :: post) H /\ flight cs (i_sh H) (i_fl H)) \/
  (exists ct, cs = [ct] /\ (ct_level ct = LvAppTraffic \/ ct_type ct = 21)).
Proof.
  remember (pre ++ OWrite cs :: post) as outs eqn:Eo. intros HA.
  assert (Hone : forall x, [x] = pre ++ OWrite cs :: post -> pre = [] /\ post = [] /\ x = OWrite cs).
  { intros x E. symmetry in E. apply split_one in E. destruct E as (-> & -> & <-). auto. }
  destruct HA; try (destruct pre; discriminate); try (exfalso; apply Hone in Eo; destruct Eo as (_ & _ & Eo); discriminate Eo).
  - left. rewrite H3 in Eo. apply Hone in Eo. destruct Eo as (-> & -> & [= Ec]). exists c, orig, ct, sid.
    split; [reflexivity|]. split; [reflexivity|]. split; [reflexivity|]. split; [symmetry; exact Ec|]. split; [exact H4|]. split; [exact H5|].
    rewrite H3, Ec in *. split; [|split; [exact H0|exact H1]].
    exists n, sid, h, k, hc, alpn, skew, ed, early, g. auto.
  - right. left. exists c, orig, H. split; [reflexivity|]. assert (Ho : i_outs H = pre ++ OWrite cs :: post) by congruence.
    split; [unfold a_flight; subst outs; auto 12|].
    destruct (flight_out _ _ _ _ _ _ _ _ H2 Ho) as [(k & b & [=])|[(cs' & [= <-] & Hf)|([=] & _)]]. exact Hf.
  - right. right. apply Hone in Eo. destruct Eo as (_ & _ & [= <-]). eauto.
  - right. right. destruct H6 as [->|(ct & nst & m & -> & _ & Hl & _)].
    + destruct pre as [|? [|? [|? ?]]]; discriminate.
    + destruct pre as [|? [|? [|? [|? ?]]]]; try discriminate. injection Eo as _ <- _. eauto.
  - right. right. destruct H2 as [->|(ct & nst & m & -> & _ & Hl & _)]; [destruct pre; discriminate|]. apply Hone in Eo. destruct Eo as (_ & _ & [= <-]). eauto.
  - right. right. destruct pre as [|a [|b [|c pre]]]; try discriminate. injection Eo as _ <- _. eauto.
  - right. right. destruct pre as [|a [|b [|c [|d pre]]]]; try discriminate. injection Eo as _ _ <- _. eauto.
  - right. right. destruct H0 as [(_ & _ & ct & -> & Ht & _)|(_ & ->)].
    + destruct pre as [|a [|b [|c pre]]]; try discriminate. injection Eo as <- _. eauto.
    + apply Hone in Eo. destruct Eo as (_ & _ & [=]).
Qed.
Lemma not_flight ct sh fl : flight [ct] sh fl -> False.
Proof. intros (c1 & c2 & E & _). cbn [filter] in E. destruct (is_hs ct); discriminate. Qed.
Lemma retry_not_flight ct sid sh fl : flight (ct :: ccs_if sid) sh fl -> False.
Proof. intros (c1 & c2 & E & _). cbn [filter] in E. rewrite ccs_filter in E. destruct (is_hs ct); discriminate. Qed.
Lemma flight_not_retry cs sh fl b : flight cs sh fl -> retry_request cs b -> False.
Proof. intros (c1 & c2 & E & _) (c & E2 & _). rewrite E in E2. discriminate. Qed.
Lemma lone_not_retry ct b : ct_level ct = LvAppTraffic \/ ct_type ct = 21 -> retry_request [ct] b -> False.
Proof.
  intros H (c & E & E2 & _). cbn [filter] in E. unfold is_hs in E. destruct (N.eqb_spec (ct_type ct) 22) as [Ht|]; [|discriminate]. injection E as ->.
  destruct H as [H|H]; [congruence|]. rewrite Ht in H. discriminate.
Qed.
Lemma flight_unique cs sh fl sh' fl' : flight cs sh fl -> flight cs sh' fl' -> sh = sh' /\ fl = fl'.
Proof. intros (c1 & c2 & E & _ & <- & _ & <-) (d1 & d2 & E2 & _ & <- & _ & <-). rewrite E in E2. injection E2 as -> ->. auto. Qed.
Lemma dull_write o : dull o -> forall cs, o = OWrite cs -> exists ct, cs = [ct] /\ (ct_level ct = LvAppTraffic \/ ct_type ct = 21).
Proof. intros [(n & ->)|[(a & ->)|(ct & -> & Ht)]] cs [= <-]. eauto. Qed.
Lemma flight_origin e l s L1 cs sh fl L2 : env_ok e -> reach e l s (L1 ++ Emit (OWrite cs) :: L2) -> flight cs sh fl ->
  exists log1 s1 w c orig s2 pre post H, phase e log1 s1 /\ a_flight e log1 w s1 c orig s2 (pre ++ OWrite cs :: post) H /\
    L1 = log1 ++ Recv w (EvHandshake (MClientHello c) orig) :: map Emit pre /\ i_sh H = sh /\ i_fl H = fl /\ exists L3, L2 = map Emit post ++ L3.
Proof.
  intros He Hr Hf. destruct (emit_acts _ _ _ _ _ _ _ He Hr eq_refl) as [(log1 & s1 & w & ev & s2 & pre & post & HP & HA & -> & HL3)|D].
  2:{ destruct (dull_write _ D _ eq_refl) as (ct & -> & _). destruct (not_flight _ _ _ Hf). }
  destruct (acts_write _ _ _ _ _ _ _ _ _ HA) as [(c & orig & ct & sid & -> & -> & -> & -> & _)|[(c & orig & H & -> & HF & Hf2)|(ct & -> & _)]].
  - destruct (retry_not_flight _ _ _ _ Hf).
  - destruct (flight_unique _ _ _ _ _ Hf2 Hf) as (<- & <-). exists log1, s1, w, c, orig, s2, pre, post, H. split; [exact HP|]. split; [exact HF|]. auto.
  - destruct (not_flight _ _ _ Hf).
Qed.
(** ** C37 *)
(** The server's flight answers a ClientHello, with parameters that follow from it and from the configuration. *)
Theorem C37_flight e l s L1 cs sh fl L2 : env_ok e -> reach e l s (L1 ++ Emit (OWrite cs) :: L2) -> flight cs sh fl ->
  exists L0 w c orig pre P, L1 = L0 ++ Recv w (EvHandshake (MClientHello c) orig) :: map Emit pre /\
    handshake_of e L0 w c orig cs P /\ p_sh P = sh /\ p_fl P = fl.
Proof.
  intros He Hr Hf. destruct (flight_origin _ _ _ _ _ _ _ _ He Hr Hf) as (log1 & s1 & w & c & orig & s2 & pre & post & H & HP & (A0 & A1 & A2 & A3 & A4 & A5 & A6 & A7 & A8) & -> & <- & <- & _).
  destruct (past_params _ _ _ _ _ He A1) as (P & pre' & cs' & post' & Ho & Hfl & Hpp & HH & SP).
  exists log1, w, c, orig, pre, P. split; [reflexivity|].
  assert (cs' = cs) as ->.
  { destruct (past_outs _ _ _ _ _ A1) as (cs0 & po & Hx & _ & Hy). rewrite A8 in *.
    assert (Hall : forall cs1, In (OWrite cs1) (pre ++ OWrite cs :: post) -> cs1 = cs0).
    { intros cs1 Hin. rewrite Hx in Hin. apply in_app_or in Hin. destruct Hin as [Hin|Hin]; [destruct (i_ed H); try contradiction; destruct Hin as [[=]|[]]|].
      destruct Hin as [[=]|[[=]|[[=]|[[= <-]|Hin]]]]; [reflexivity|]. subst po. destruct (i_ed H); try contradiction. destruct Hin as [[=]|[]]. }
    rewrite (Hall cs); [|apply in_or_app; right; left; reflexivity]. apply Hall. rewrite Ho. apply in_or_app. right. left. reflexivity. }
  rewrite A2, A4, A5, A6 in HH. split; [exact HH|]. destruct SP. auto.
Qed.
(** There is one such flight. *)
Lemma awaiting_writes e log s L1 cs L2 : awaiting e log s -> log = L1 ++ Emit (OWrite cs) :: L2 -> exists ct sid, cs = ct :: ccs_if sid.
Proof.
  assert (Hw : forall W a b, forallb is_wait W = true -> W = a ++ Emit (OWrite cs) :: b -> False).
  { intros W a b HW ->. rewrite forallb_app in HW. cbn in HW. rewrite andb_false_r in HW. discriminate. }
  intros [(r & _ & HW)|(log1 & s1 & w & c & orig & s2 & outs & W & r & Hf & Hh & Es & -> & HW & ->)] E; [destruct (Hw _ _ _ HW E)|].
  destruct (split_app _ _ _ _ _ E) as [(x & E1 & _)|(x & E1 & _)].
  { destruct Hf as (r0 & _ & Hf). destruct (Hw _ _ _ Hf E1). }
  destruct (split_app _ _ _ _ _ E1) as [(y & E2 & _)|(y & E2 & _)]; [|destruct (Hw _ _ _ HW E2)].
  destruct (retry_outs _ _ _ _ _ _ _ _ (or_introl Hf) Hh Es) as (n & sid & h & k & hc & alpn & skew & ed & early & g & ct & b & _ & -> & _).
  unfold hello_log in E2. cbn [map] in E2. destruct x as [|? [|? ?]]; try discriminate. injection E2 as _ <- _. eauto.
  destruct l; discriminate.
Qed.
Theorem C37_one_flight e l s L1 cs1 sh1 fl1 L2 cs2 sh2 fl2 L3 : env_ok e ->
  reach e l s (L1 ++ Emit (OWrite cs1) :: L2 ++ Emit (OWrite cs2) :: L3) -> flight cs1 sh1 fl1 -> flight cs2 sh2 fl2 -> False.
Proof.
  intros He Hr F1 F2. change (L1 ++ Emit (OWrite cs1) :: L2 ++ Emit (OWrite cs2) :: L3) with (L1 ++ (Emit (OWrite cs1) :: L2) ++ Emit (OWrite cs2) :: L3) in Hr.
  rewrite app_assoc in Hr.
  destruct (flight_origin _ _ _ _ _ _ _ _ He Hr F2) as (log1 & s1 & w & c & orig & s2 & pre & post & H & HP & (A0 & A1 & A2 & A3 & A4 & A5 & A6 & A7 & A8) & E & _).
  symmetry in E. destruct (split_app _ _ _ _ _ E) as [(x & E1 & _)|(x & E1 & _)].
  - destruct (awaiting_writes _ _ _ _ _ _ A0 E1) as (ct & sid & ->). destruct (retry_not_flight _ _ _ _ F1).
  - destruct x as [|? x]; [discriminate|]. injection E1 as _ E1. destruct (map_emit_split _ _ _ _ E1) as (p & y & q & Hp & Hy & _). injection Hy as <-.
    destruct (past_outs _ _ _ _ _ A1) as (cs0 & po & Hx & _ & Hy). rewrite A8, Hp in Hx. rewrite <- app_assoc in Hx. cbn [app] in Hx.
    apply (f_equal (fun l => length (filter (fun o => match o with OWrite _ => true | _ => false end) l))) in Hx.
    rewrite !filter_app, !app_length in Hx. cbn [filter length] in Hx. rewrite !filter_app, !app_length in Hx. cbn [filter length] in Hx.
    subst po. destruct (i_ed H); cbn in Hx; lia.
Qed.
(** A HelloRetryRequest answers the first ClientHello, when it lacks a share for the preferred group. *)
Lemma getHrr_says e v c g sid hrr0 : env_ok e -> In v (e_versions e) -> In g (e_groups e) -> getHelloRetryRequest v c g sid = Ok hrr0 -> retry_says hrr0 v c g.
Proof.
  intros He Hv Hg H. unfold getHelloRetryRequest in H. bo H e1 E1. bo H e2 E2. injection H as <-.
  assert (Hv' : v < 2 ^ 16) by (eapply (proj1 (Forall_forall _ _) (eo_versions e He)); exact Hv).
  assert (Hg' : g < 2 ^ 16) by (eapply (proj1 (Forall_forall _ _) (eo_groups e He)); exact Hg).
  split; [reflexivity|]. cbn [hrr_extensions]. split.
  - apply (C04_extension_roundtrip (XServerSupportedVersions v) e1 []); [|exact E1|reflexivity]. cbn. unfold in_u. apply N.ltb_lt. exact Hv'.
  - apply (C04_extension_roundtrip (XHrrKeyShare g) e2 [e1]); [|exact E2|].
    + cbn. unfold in_u. apply N.ltb_lt. exact Hg'.
    + unfold no_type. cbn [forallb]. rewrite (ext_type_of _ _ E1). reflexivity.
Qed.
Lemma hrr_ext_says hrr0 v c g d : retry_says hrr0 v c g ->
  retry_says (mkHRR (hrr_version hrr0) (hrr_session_id hrr0) (hrr_suite hrr0) (hrr_compression hrr0) (hrr_extensions hrr0 ++ [d])) v c g.
Proof.
  assert (Hext : forall k x l, getExtension k l = Ok (Some x) -> getExtension k (l ++ [d]) = Ok (Some x)).
  { intros k x l Hk. unfold getExtension, findExtension in *. destruct (find _ l) as [y|] eqn:Ef; [|discriminate].
    assert (find (fun e0 => ext_type e0 =? kind_type k) (l ++ [d]) = Some y) as ->; [|exact Hk].
    clear Hk. induction l as [|z l IH]; [discriminate|]. cbn in Ef |- *. destruct (ext_type z =? kind_type k); auto. }
  intros (A & B & C). split; [exact A|]. cbn [hrr_extensions]. split; apply Hext; assumption.
Qed.
Lemma retry_params e log w s c orig n sid h k hc alpn skew ed early g s' outs : env_ok e -> awaiting e log s ->
  hello_facts e w s c orig n sid h k hc alpn skew ed early -> negotiateGroup e (n_hello n) = Ok (g, None) -> hello_retry e s n sid hc g ed = Ok (s', outs) ->
  exists b m ct, outs = [OWrite (ct :: ccs_if sid)] /\ retry_request (ct :: ccs_if sid) b /\ encodeHandshake (MHelloRetryRequest m) = Ok b /\
    retry_says m (n_version n) (n_cipher n) g /\ s_version s' = Some (n_version n) /\ s_cipher s' = Some (n_cipher n) /\ s_group s' = Some g /\
    (exists vs, getExtension KSupportedVersions (ch_extensions (n_hello n)) = Ok (Some (XSupportedVersions vs)) /\ preferred (e_versions e) vs (n_version n)) /\
    preferred_tier (e_ciphers e) (ch_suites (n_hello n)) (n_cipher n) /\
    (exists gs ks, getExtension KSupportedGroups (ch_extensions (n_hello n)) = Ok (Some (XSupportedGroups gs)) /\ preferred (e_groups e) gs g /\
       getExtension KClientKeyShare (ch_extensions (n_hello n)) = Ok (Some (XClientKeyShare ks)) /\ ~ In g (map fst ks)).
Proof.
  intros He Ha HF Hg HR. pose proof (hf_neg _ _ _ _ _ _ _ _ _ _ _ _ _ _ HF) as HN.
  apply hello_retry_facts in HR. destruct HR as (h' & m & hrr0 & hrr & b & wl & ct & R1 & R2 & R3 & R4 & R5 & R6 & R7 & R8 & R9).
  exists b, hrr, ct. split; [exact R8|].
  rewrite (awaiting_write _ _ _ Ha) in R6. injection R6 as <-.
  destruct (wl_write WPlain 22 [b]) as [wl' rr] eqn:Ewl. cbn [snd] in R7. subst rr.
  apply wl_write_content in Ewl. destruct Ewl as (W1 & W2 & W3 & _). cbn [concat] in W2. rewrite app_nil_r in W2.
  split. { exists ct. split; [|auto]. cbn [filter]. unfold is_hs at 1. rewrite W1, ccs_filter. reflexivity. }
  split; [exact R5|].
  assert (Hs0 : retry_says hrr0 (n_version n) (n_cipher n) g).
  { eapply getHrr_says; [exact He|eapply negotiateVersion_In, (nf_version _ _ _ _ _ _ HN)|eapply negotiateGroup_In, Hg|exact R3]. }
  split. { destruct (n_ech n); try (assert (hrr = hrr0) as -> by congruence; exact Hs0). unfold setAcceptHRR in R4. bo R4 x Ex. bo R4 a Ea'.
           assert (hrr = _) as -> by (symmetry; injection R4 as R4; exact R4). apply hrr_ext_says, Hs0. }
  split; [subst s'; reflexivity|]. split; [subst s'; reflexivity|]. split; [subst s'; reflexivity|].
  split. { pose proof (nf_version _ _ _ _ _ _ HN) as V. unfold negotiateVersion in V. bo V x Ex. destruct x as [[]|]; try discriminate.
           exists l. split; [exact Ex|]. apply negotiate_preferred. congruence. }
  split; [apply negotiate_tier_preferred, (nf_cipher _ _ _ _ _ _ HN)|].
  unfold negotiateGroup in Hg. bo Hg x Ex. destruct x as [[]|]; try discriminate.
  destruct (negotiate (e_groups e) l) as [g'|] eqn:En; [|discriminate]. bo Hg y Ey. destruct y as [[]|]; try discriminate.
  bo Hg u Eu. destruct (findShare g' l0) as [bb|] eqn:Ef; [bo Hg d Ed; discriminate|]. injection Hg as ->.
  exists l, l0. split; [exact Ex|]. split; [apply negotiate_preferred, En|]. split; [exact Ey|].
  clear -Ef. induction l0 as [|[g' b'] l IH]; [intros []|]. cbn [findShare] in Ef. destruct (N.eqb_spec g' g) as [|Hn]; [discriminate|].
  intros [Hx|Hx]; [apply Hn, Hx|]. exact (IH Ef Hx).
Qed.
Theorem C37_retry e l s L1 cs b L2 : env_ok e -> reach e l s (L1 ++ Emit (OWrite cs) :: L2) -> retry_request cs b ->
  exists L0 w c orig c' enc m version cipher group, L1 = L0 ++ [Recv w (EvHandshake (MClientHello c) orig)] /\ only_waits L0 /\
    hello_taken e c orig c' enc /\ encodeHandshake (MHelloRetryRequest m) = Ok b /\ retry_says m version cipher group /\
    (exists vs, getExtension KSupportedVersions (ch_extensions c') = Ok (Some (XSupportedVersions vs)) /\ preferred (e_versions e) vs version) /\
    preferred_tier (e_ciphers e) (ch_suites c') cipher /\
    (exists gs ks, getExtension KSupportedGroups (ch_extensions c') = Ok (Some (XSupportedGroups gs)) /\ preferred (e_groups e) gs group /\
       getExtension KClientKeyShare (ch_extensions c') = Ok (Some (XClientKeyShare ks)) /\ ~ In group (map fst ks)).
Proof.
  intros He Hr Hq. destruct (emit_acts _ _ _ _ _ _ _ He Hr eq_refl) as [(log1 & s1 & w & ev & s2 & pre & post & HP & HA & -> & HL3)|D].
  2:{ destruct (dull_write _ D _ eq_refl) as (ct & -> & Hx). destruct (lone_not_retry _ _ Hx Hq). }
  destruct (acts_write _ _ _ _ _ _ _ _ _ HA) as [(c & orig & ct & sid & -> & -> & -> & Hcs & Ht & Hl & (n & sid' & h & k & hc & alpn & skew & ed & early & g & R1 & R2 & R3 & R4) & Hh & Hs)|[(c & orig & H & -> & HF & Hf2)|(ct & -> & Hx)]].
  - destruct (retry_params _ _ _ _ _ _ _ _ _ _ _ _ _ _ _ _ _ _ He (or_introl R1) R2 R3 R4) as (b' & m & ct' & E1 & Hq' & Em & Hs' & _ & _ & _ & V & C & G).
    assert (b' = b) as ->. { injection E1 as ->. destruct Hq as (x & X1 & _ & <-), Hq' as (y & Y1 & _ & <-). rewrite X1 in Y1. injection Y1 as ->. reflexivity. }
    exists log1, w, c, orig, (n_hello n), (n_orig n), m, (n_version n), (n_cipher n), g. split; [reflexivity|].
    split; [destruct R1 as (r & _ & R1); apply waits_only, R1|].
    split; [eapply processECH_taken, (nf_ech _ _ _ _ _ _ (hf_neg _ _ _ _ _ _ _ _ _ _ _ _ _ _ R2))|].
    split; [exact Em|]. split; [exact Hs'|]. split; [exact V|]. split; [exact C|exact G].
  - destruct (flight_not_retry _ _ _ _ Hf2 Hq).
  - destruct (lone_not_retry _ _ Hx Hq).
Qed.
(** So there is at most one, and the handshake that follows keeps its version, cipher suite and group. *)
Theorem C37_one_retry e l s L1 cs1 b1 L2 cs2 b2 L3 : env_ok e ->
  reach e l s (L1 ++ Emit (OWrite cs1) :: L2 ++ Emit (OWrite cs2) :: L3) -> retry_request cs1 b1 -> retry_request cs2 b2 -> False.
Proof.
  intros He Hr F1 F2. change (L1 ++ Emit (OWrite cs1) :: L2 ++ Emit (OWrite cs2) :: L3) with (L1 ++ (Emit (OWrite cs1) :: L2) ++ Emit (OWrite cs2) :: L3) in Hr.
  rewrite app_assoc in Hr. destruct (C37_retry _ _ _ _ _ _ _ He Hr F2) as (L0 & w & c & orig & _ & _ & _ & _ & _ & _ & E & HW & _).
  destruct (split_app _ _ _ _ _ (eq_sym E)) as [(x & E1 & _)|(x & E1 & _)].
  - destruct (HW (Emit (OWrite cs1))) as (n & [=]). rewrite E1. apply in_or_app. right. left. reflexivity.
  - destruct x as [|? [|? ?]]; discriminate.
Qed.
Theorem C37_retry_keeps e l s L1 cs1 b1 L2 cs2 sh fl L3 : env_ok e ->
  reach e l s (L1 ++ Emit (OWrite cs1) :: L2 ++ Emit (OWrite cs2) :: L3) -> retry_request cs1 b1 -> flight cs2 sh fl ->
  exists L0 w c orig pre P m group theirs ours dh, L1 ++ Emit (OWrite cs1) :: L2 = L0 ++ Recv w (EvHandshake (MClientHello c) orig) :: map Emit pre /\
    handshake_of e L0 w c orig cs2 P /\ p_sh P = sh /\ p_fl P = fl /\
    encodeHandshake (MHelloRetryRequest m) = Ok b1 /\ retry_says m (p_version P) (p_cipher P) group /\ p_kex P = Some (group, theirs, ours, dh).
Proof.
  intros He Hr F1 F2. change (L1 ++ Emit (OWrite cs1) :: L2 ++ Emit (OWrite cs2) :: L3) with (L1 ++ (Emit (OWrite cs1) :: L2) ++ Emit (OWrite cs2) :: L3) in Hr.
  rewrite app_assoc in Hr.
  destruct (flight_origin _ _ _ _ _ _ _ _ He Hr F2) as (log1 & s1 & w & c & orig & s2 & pre & post & H & HP & (A0 & A1 & A2 & A3 & A4 & A5 & A6 & A7 & A8) & E & Hsh & Hfl & _).
  assert (E' := E). symmetry in E. destruct (split_app _ _ _ _ _ E) as [(x & E1 & _)|(x & E1 & _)].
  2:{ exfalso. destruct x as [|? x]; [discriminate|]. injection E1 as _ E1. destruct (map_emit_split _ _ _ _ E1) as (p & y & q & Hp & Hy & _). injection Hy as <-.
      assert (i_outs H = p ++ OWrite cs1 :: q ++ OWrite cs2 :: post) as Ho by (rewrite A8, Hp, <- app_assoc; reflexivity).
      destruct (flight_out _ _ _ _ _ _ _ _ A1 Ho) as [(k & b & [=])|[(cs' & [= <-] & Hf)|([=] & _)]]. destruct (flight_not_retry _ _ _ _ Hf F1). }
  destruct A0 as [(r & _ & HW)|Hret].
  { exfalso. destruct (waits_only _ HW (Emit (OWrite cs1))) as (n & [=]). rewrite E1. apply in_or_app. right. left. reflexivity. }
  destruct Hret as (log0 & s0 & w0 & c0 & orig0 & s0' & outs0 & W & r & Hf0 & Hh0 & Es0 & El & HW & Es1).
  destruct (retry_outs _ _ _ _ _ _ _ _ (or_introl Hf0) Hh0 Es0) as (n & sid & h & k & hc & alpn & skew & ed & early & g & ct & b & Q1 & Q2 & Q3 & Q4 & Q5 & Q6 & Q7 & Q8 & Q9).
  destruct (retry_params _ _ _ _ _ _ _ _ _ _ _ _ _ _ _ _ _ _ He (or_introl Hf0) Q1 Q7 Q9) as (b' & m & ct' & X1 & Hq' & Em & Hs' & V & C & G & _).
  assert (Hcs : cs1 = ct' :: ccs_if sid).
  { rewrite E1 in El. rewrite X1 in El. unfold hello_log in El. cbn [map app] in El.
    assert (Hin : In (Emit (OWrite cs1)) (log0 ++ Recv w0 (EvHandshake (MClientHello c0) orig0) :: Emit (OWrite (ct' :: ccs_if sid)) :: W))
      by (rewrite <- El; apply in_or_app; right; left; reflexivity).
    apply in_app_or in Hin. destruct Hin as [Hin|[[=]|[[= <-]|Hin]]]; [|reflexivity|].
    - destruct Hf0 as (r0 & _ & Hf0). destruct (waits_only _ Hf0 _ Hin) as (? & [=]).
    - destruct (waits_only _ HW _ Hin) as (? & [=]). }
  subst cs1. assert (b' = b1) as ->. { destruct F1 as (y & Y1 & _ & <-), Hq' as (z & Z1 & _ & <-). rewrite Y1 in Z1. injection Z1 as ->. reflexivity. }
  destruct (past_params _ _ _ _ _ He A1) as (P & pre' & cs' & post' & Ho & Hfl' & Hpp & HH & SP).
  assert (cs' = cs2) as ->.
  { destruct (past_outs _ _ _ _ _ A1) as (cs0 & po & Hx & _ & Hy). rewrite A8 in *.
    assert (Hall : forall cs1, In (OWrite cs1) (pre ++ OWrite cs2 :: post) -> cs1 = cs0).
    { intros cs1 Hin. rewrite Hx in Hin. apply in_app_or in Hin. destruct Hin as [Hin|Hin]; [destruct (i_ed H); try contradiction; destruct Hin as [[=]|[]]|].
      destruct Hin as [[=]|[[=]|[[=]|[[= <-]|Hin]]]]; [reflexivity|]. subst po. destruct (i_ed H); try contradiction. destruct Hin as [[=]|[]]. }
    rewrite (Hall cs2); [|apply in_or_app; right; left; reflexivity]. apply Hall. rewrite Ho. apply in_or_app. right. left. reflexivity. }
  destruct (pa_facts _ _ _ _ _ A1) as (sid2 & k2 & hc2 & alpn2 & skew2 & early2 & kt2 & group2 & F1' & F2' & F3' & F4' & F5').
  pose proof (hf_neg _ _ _ _ _ _ _ _ _ _ _ _ _ _ F1') as HN. rewrite A3, Es1 in HN, F3'.
  assert (Ev : n_version (i_n H) = n_version n) by (apply (nf_sameversion _ _ _ _ _ _ HN); exact V).
  assert (Ec : n_cipher (i_n H) = n_cipher n) by (apply (nf_samecipher _ _ _ _ _ _ HN); exact C).
  destruct SP. destruct (sp_retry g) as (th & ob & dh & Hk); [rewrite A3, Es1; exact G|].
  exists log1, w, c, orig, pre, P, m, g, th, ob, dh. split; [exact E'|].
  rewrite A2, A4, A5, A6 in HH. split; [exact HH|]. split; [congruence|]. split; [congruence|]. split; [exact Em|]. split; [|exact Hk].
  rewrite sp_version, sp_cipher. unfold i_cipher. rewrite Ev, Ec. exact Hs'.
Qed.
(** ** C38 *)
(** The server's hello selects a PSK only if it is the first one offered, it came out of the ticket cipher with the negotiated
    version and the hash of the negotiated cipher suite, and the client has proved to know it, by a MAC over the transcript up to
    the binders. The handshake's secrets then depend on it. *)
Theorem C38_psk e l s L1 cs sh fl L2 : env_ok e -> reach e l s (L1 ++ Emit (OWrite cs) :: L2) -> flight cs sh fl ->
  exists L0 w c orig pre P m, L1 = L0 ++ Recv w (EvHandshake (MClientHello c) orig) :: map Emit pre /\
    handshake_of e L0 w c orig cs P /\ encodeHandshake (MServerHello m) = Ok sh /\
    ((getExtension KServerPresharedKey (sh_extensions m) = Ok None /\ p_psk P = Zero (p_hash P) /\ p_kex P <> None) \/
     (getExtension KServerPresharedKey (sh_extensions m) = Ok (Some (XServerPresharedKey 0)) /\
      exists id age ids bs pt r, e_ticketCipher e = true /\
        getExtension KClientPresharedKey (ch_extensions (p_hello P)) = Ok (Some (XClientPresharedKey ((Some id, age) :: ids, bs))) /\
        w_ticketDecrypt w id = Ok (pt, Some r) /\ rs_secret r = Some (p_psk P) /\ rs_version r = p_version P /\ same_hash (rs_cipher r) (p_cipher P) /\
        binder_ok (p_hash P) pt (p_psk P) (p_T P) (p_enc P) bs)).
Proof.
  intros He Hr Hf. destruct (C37_flight _ _ _ _ _ _ _ _ He Hr Hf) as (L0 & w & c & orig & pre & P & -> & HH & <- & <-).
  destruct (ho_hello _ _ _ _ _ _ _ HH) as (m & M1 & (M2 & M3 & M4 & M5) & _). exists L0, w, c, orig, pre, P, m.
  split; [reflexivity|]. split; [exact HH|]. split; [exact M1|]. pose proof (ho_ticket _ _ _ _ _ _ _ HH) as T. pose proof (ho_kex _ _ _ _ _ _ _ HH) as K.
  destruct (p_ticket P) as [[[id pt] r]|] eqn:Et.
  - right. split; [exact M5|]. destruct T as ((ids & bs & age & T1 & T2 & T3) & T4 & T5 & T6 & T7 & T8 & _).
    destruct ids as [|i0 ids]; [discriminate|]. injection T2 as ->. exists id, age, ids, bs, pt, r. auto 10.
  - left. split; [exact M5|]. split; [unfold p_psk; rewrite Et; reflexivity|]. destruct (p_kex P); [discriminate|]. destruct K as (K & _). contradiction.
Qed.
