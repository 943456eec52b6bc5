(** * The invariant of a client connection that waits for the ServerHello *)
From Verif Require Import Base Codec CodecSpec Str Hkdf HkdfSpec HkdfProofs KeySched KeySchedSpec KeySchedProofs Handshake Extensions RecordBase Record
  RecordRT ReadEvent HelloChecks Cookie Token Negotiate Ticket PskSer Kex Hpke Transcript IOBufUtil PropsIOBuf EchConfirm HpkeUtils EchCrypt Server
  ServerSpec ServerFacts ServerSteps ServerFlight ServerInv ServerPreserve ExtensionsSpec ExtensionsProofs PropsCodec PropsEch Client ClientSpec ClientSteps ClientHello
  ClientInv.
Open Scope N_scope.

(** ** HelloRetryRequest *)
Definition retry_start (h : hashalg) (hello orig : bytes) : bytes := message_hash (h_fn h hello) ++ orig.
Record cretry_facts (k : cenv) (w : cworld) (s : cstate) (m : HelloRetryRequest) (orig : bytes) (s' : cstate) (outs : list cout)
    (hl hl' : hellost) (kexs kexs' : list (N * kex)) (h : hashalg) (version : N) (enc0 enc : bytes) : Prop := mkRF {
  rf_state : c_state s' = CExpectingServerHello;
  rf_layers : c_read s' = c_read s /\ c_write s' = c_write s;
  rf_same : c_ks s' = c_ks s /\ c_secrets s' = c_secrets s /\ c_exporter s' = c_exporter s /\ c_resumption s' = c_resumption s /\ c_chain s' = c_chain s /\
    g_auth (c_neg s') = g_auth (c_neg s) /\ g_server (c_neg s') = g_server (c_neg s);
  rf_hello0 : c_hello s = Some hl /\ h_kex hl = Some kexs /\ h_enc hl = Some enc0;
  rf_first : g_kexType (c_neg s) = None;
  rf_hello : c_hello s' = Some hl' /\ h_verifier hl' = h_verifier hl /\ h_exts hl' = h_exts hl /\ h_sid hl' = h_sid hl /\ h_kex hl' = Some kexs' /\ h_enc hl' = Some enc;
  rf_psk : h_psk hl' = h_psk hl \/ h_psk hl' = None;
  rf_version : In version (k_versions k) /\ getExtension KServerSupportedVersions (hrr_extensions m) = Ok (Some (XServerSupportedVersions version));
  rf_cipher : In (hrr_suite m) (k_ciphers k);
  rf_neg : g_version (c_neg s') = Some version /\ g_cipher (c_neg s') = Some (hrr_suite m) /\ g_kexType (c_neg s') = Some KexHRR;
  rf_hash : k_hash k (hrr_suite m) = Ok h;
  rf_kexs : (kexs' = kexs /\ forall g, getExtension KHrrKeyShare (hrr_extensions m) <> Ok (Some (XHrrKeyShare g))) \/
    exists g x, getExtension KHrrKeyShare (hrr_extensions m) = Ok (Some (XHrrKeyShare g)) /\ In g (k_groups k) /\ (forall y, ~ In (g, y) kexs) /\
      cw_kex w g = Ok x /\ kexs' = [(g, x)];
  rf_small : small_groups kexs -> hello_is k kexs' (h_sid hl) (h_random hl) enc;
  rf_hctx : c_hctx s' = Some (mkHc h (retry_start h enc0 orig ++ enc));
  rf_ech : match c_ech s with
    | None => c_ech s' = None
    | Some e => exists e' i0 i, c_ech s' = Some e' /\ ec_enc e = Some i0 /\ ec_enc e' = Some i /\ ec_random e' = ec_random e /\ ec_neg e' = ec_neg e /\
        ec_hctx e' = Some (mkHc h (retry_start h i0 orig ++ i)) /\ (ec_status e' = CxAccepted \/ ec_status e' = CxRejected) /\
        (small_groups kexs -> hello_is k kexs' (h_sid hl) (ec_random e) i) /\ carries k (ec_neg e) i enc
    end;
  rf_outs : exists ccs ct, outs = [KWrite (ccs ++ [ct])] /\ filter is_hs ccs = [] /\
     (c_write s = Some WPlain -> ct_type ct = 22 /\ ct_level ct = LvPlaintext /\ ct_plain ct = enc) }.
Lemma versionAndCipher_ok k legacy comp suite exts v c : versionAndCipher k legacy comp suite exts = Ok (v, c) ->
  legacy = 771 /\ comp = 0 /\ c = suite /\ In v (k_versions k) /\ In suite (k_ciphers k) /\
  getExtension KServerSupportedVersions exts = Ok (Some (XServerSupportedVersions v)).
Proof.
  unfold versionAndCipher. intros H. bo H u1 E1. bo H u2 E2. bo H x Ex. apply ensure_ok in E1, E2. apply N.eqb_eq in E1, E2.
  destruct x as [x|]; [|discriminate]. destruct x; try discriminate. bo H u3 E3. bo H u4 E4. apply ensure_ok in E3, E4. apply mem_In in E3, E4.
  injection H as <- <-. auto 10.
Qed.
Lemma findKex_none g : forall l, findKex g l = None -> forall x, ~ In (g, x) l.
Proof.
  induction l as [|[g' y] l IH]; intros H x; [intros []|]. cbn [findKex] in H. destruct (g' =? g) eqn:E; [discriminate|]. apply N.eqb_neq in E.
  intros [[= -> ->]|Hin]; [congruence|]. eapply IH; eassumption.
Qed.
Lemma handle_retry_facts k w s m orig s' outs : cenv_ok k -> handle_retry k w s m orig = Ok (s', outs) ->
  exists hl hl' kexs kexs' h version enc0 enc, cretry_facts k w s m orig s' outs hl hl' kexs kexs' h version enc0 enc.
Proof.
  intros Hk. unfold handle_retry. destruct (c_hello s) as [hl|] eqn:Ehl; [|discriminate]. destruct (h_req hl) as [req|]; [|discriminate].
  destruct (h_kex hl) as [kexs|] eqn:Ekx; [|discriminate]. intros H. bo H u0 E0. bo H u1 E1. apply ensure_ok in E1.
  assert (Hf : g_kexType (c_neg s) = None) by (destruct (g_kexType (c_neg s)); [discriminate|reflexivity]). clear E1.
  apply bind_Ok in H. destruct H as ((version & cipher) & Evc & H). cbv beta iota in H.
  destruct (versionAndCipher_ok _ _ _ _ _ _ _ Evc) as (V1 & V2 & -> & V3 & V4 & V5).
  bo H x Ex. bo H group Eg. bo H y Ey. cbv zeta in H. bo H p Ep. bo H kexs' Ek'. bo H c0 Ec0. bo H c1 Ec1. bo H h Eh. bo H en Een. bo H mh Emh. bo H eres Eeres.
  apply bind_Ok in H. destruct H as ((c2 & enc2) & Ec2 & H). cbv beta iota in H.
  apply bind_Ok in H. destruct H as ((enc & est) & Eenc & H). cbv beta iota in H.
  destruct (c_write s) as [wl|] eqn:Ewl; [|discriminate]. bo H ct Ect.
  apply deref_ok in Een. apply encode_message_hash in Emh. destruct Emh as (dg & [= <-] & Emh).
  assert (Hgr : (group = None /\ kexs' = kexs /\ forall g, getExtension KHrrKeyShare (hrr_extensions m) <> Ok (Some (XHrrKeyShare g))) \/
     exists g x, getExtension KHrrKeyShare (hrr_extensions m) = Ok (Some (XHrrKeyShare g)) /\ In g (k_groups k) /\ (forall y, ~ In (g, y) kexs) /\
       cw_kex w g = Ok x /\ kexs' = [(g, x)]).
  { assert (Hn : group = None -> kexs' = kexs) by (intros ->; congruence).
    destruct x as [x|].
    - destruct x; try (left; injection Eg as <-; split; [reflexivity|]; split; [apply Hn; reflexivity|]; intros g0; rewrite Ex; congruence).
      bo Eg u2 E2. injection Eg as <-. apply ensure_ok, mem_In in E2. right. destruct (findKex _ kexs) eqn:Ef; [discriminate|].
      cbn [getKeyExchangers] in Ek'. bo Ek' kx Ekk. injection Ek' as <-. eexists _, kx. split; [exact Ex|]. split; [exact E2|].
      split; [apply findKex_none, Ef|]. split; [exact Ekk|reflexivity].
    - injection Eg as <-. left. split; [reflexivity|]. split; [apply Hn; reflexivity|]. intros g0. rewrite Ex. congruence. }
  assert (Hsm : small_groups kexs -> small_groups kexs').
  { intros Hs. destruct Hgr as [(_ & -> & _)|(g & kx & _ & Hg & _ & _ & ->)]; [exact Hs|].
    constructor; [|constructor]. cbn. pose proof (ko_groups k Hk) as B. rewrite Forall_forall in B. apply B, Hg. }
  assert (C0 : small_groups kexs -> offers k c1 /\ shares_in kexs' c1 /\ ch_session_id c1 = Some (h_sid hl) /\
     ch_random c1 = (match c_ech s with Some e => ec_random e | None => h_random hl end)).
  { intros Hs. destruct (getClientHello_facts _ _ _ _ _ _ _ _ _ _ Hk (Hsm Hs) Ec0) as (A & B & C & D).
    destruct (c_ech s) as [e|]; [|injection Ec1 as <-; auto]. bo Ec1 e' Ee'. injection Ec1 as <-.
    assert (He : ~ core (ext_type e')) by (rewrite (ext_type_of _ _ Ee'); exact not_core_ech). pose proof (alike_app c0 e' He) as Y.
    split; [eapply alike_offers; eassumption|]. split; [eapply alike_shares; eassumption|]. split; assumption. }
  assert (C2 : encodeHandshake (MClientHello c2) = Ok enc2 /\ alike c1 c2 /\ ch_random c2 = ch_random c1).
  { destruct p as [q|].
    - apply bind_Ok in Ec2. destruct Ec2 as ((((c1' & enc1') & k1) & hc) & Eb & Ec2). cbv beta iota in Ec2.
      injection Ec2 as <- <-. destruct (binders_alike _ _ _ _ _ _ _ _ _ Eb) as (A1 & A2 & e & ids & b & -> & _). auto.
    - bo Ec2 en' Een'. injection Ec2 as <- <-. split; [exact Een'|]. split; [apply alike_refl|reflexivity]. }
  destruct C2 as (C2 & C3 & C4).
  assert (Hi : small_groups kexs -> hello_is k kexs' (h_sid hl) (match c_ech s with Some e => ec_random e | None => h_random hl end) enc2).
  { intros Hs. destruct (C0 Hs) as (O1 & O2 & O3 & O4). rewrite <- O4, <- C4. eapply alike_hello; eassumption. }
  assert (Hp : p = h_psk hl \/ p = None).
  { destruct (h_psk hl) as [q|]; [|injection Ep as <-; auto]. bo Ep a Ea. bo Ep b Eb. injection Ep as <-. destruct (a =? b); auto. }
  exists hl. eexists. exists kexs, kexs', h, version, en, enc.
  assert (Hw : c_write s = Some WPlain -> ct_type ct = 22 /\ ct_level ct = LvPlaintext /\ ct_plain ct = enc).
  { intros E. rewrite Ewl in E. injection E as ->. destruct (wl_write WPlain 22 [enc]) as [wl' r] eqn:Ew. cbn [snd] in Ect. subst r.
    apply wl_write_content in Ew. destruct Ew as (W1 & W2 & W3 & _). cbn [concat] in W2. rewrite app_nil_r in W2. auto. }
  assert (Hech : (small_groups kexs -> hello_is k kexs' (h_sid hl) (h_random hl) enc) /\
    match c_ech s with
    | None => est = None
    | Some e => exists e' i0 i, est = Some e' /\ ec_enc e = Some i0 /\ ec_enc e' = Some i /\ ec_random e' = ec_random e /\ ec_neg e' = ec_neg e /\
        ec_hctx e' = Some (mkHc h (retry_start h i0 orig ++ i)) /\ (ec_status e' = CxAccepted \/ ec_status e' = CxRejected) /\
        (small_groups kexs -> hello_is k kexs' (h_sid hl) (ec_random e) i) /\ carries k (ec_neg e) i enc
    end).
  { destruct (c_ech s) as [e|] eqn:Ees.
    - destruct eres as [[[status ec] gp]|]; [|bo Eeres r Erx; discriminate]. bo Eeres r Erx. injection Eeres as ->.
      bo Eenc sni Esni. apply bind_Ok in Eenc. destruct Eenc as ((ctx' & outer) & Eo & Eenc). cbv beta iota in Eenc. bo Eenc eo Eeo. injection Eenc as <- <-.
      unfold hrr_ech in Erx. bo Erx i0 Ei0. bo Erx mh' Emh'. cbv zeta in Erx. bo Erx acc Eacc. bo Erx gp' Egp'. injection Erx as <- <- <-.
      apply deref_ok in Ei0. apply encode_message_hash in Emh'. destruct Emh' as (dg & [= <-] & ->).
      split.
      + intros Hs. destruct (C0 Hs) as (O1 & O2 & O3 & O4). destruct (constructed_same _ _ _ _ _ _ _ _ _ _ _ Eo) as (_ & _ & _ & _ & Hrn & _). rewrite <- Hrn. eapply alike_hello; [|exact O1|exact O2|exact O3|exact Eeo].
        eapply alike_trans; [exact C3|]. eapply alike_constructed, Eo.
      + eexists _, i0, enc2. split; [reflexivity|]. split; [exact Ei0|]. cbn [ec_enc ec_random ec_neg ec_hctx ec_status]. split; [reflexivity|].
        split; [reflexivity|]. split; [reflexivity|]. split; [reflexivity|]. split; [destruct acc; auto|]. split; [exact Hi|].
        eapply constructed_carries; eassumption.
    - destruct eres; [discriminate|]. injection Eenc as <- <-. split; [|reflexivity]. intros Hs. apply Hi, Hs. }
  destruct Hech as (Hech1 & Hech2). injection H as <- <-.
  constructor; cbn [c_state c_read c_write c_ks c_secrets c_exporter c_resumption c_chain c_neg c_hello c_hctx c_ech g_version g_cipher g_kexType g_auth g_server]; auto 10.
  - destruct Hgr as [(_ & A & B)|A]; auto.
  - subst mh. reflexivity.
  - exists (ccs_first k (c_ccs s)), ct. split; [reflexivity|]. split; [apply ccs_first_hs|exact Hw].
Qed.

(** ** Waiting *)
Record awd := mkAwd { a_w0 : cworld; a_cn : conn; a_hl : hellost; a_kexs : list (N * kex); a_enc : bytes }.
Definition no_success (L : list centry) : Prop :=
  ccount cis_success L = 0%nat /\ ccount cis_ku_recv L = 0%nat /\ ccount cis_ku_sent L = 0%nat.
(** No HelloRetryRequest so far. *)
Record await_first (k : cenv) (L : list centry) (s : cstate) (A : awd) : Prop := mkAF {
  af_neg : g_version (c_neg s) = None /\ g_cipher (c_neg s) = None /\ g_kexType (c_neg s) = None;
  af_hctx : c_hctx s = None;
  af_sent : hellos_sent L = [a_enc A];
  af_noretry : filter is_retry L = [];
  af_trans : forall h, ctrans h L [a_enc A] (a_enc A);
  af_ech : forall e i, c_ech s = Some e -> ec_enc e = Some i ->
    ec_status e = CxRequested /\ ec_hctx e = None /\ carries k (ec_neg e) i (a_enc A) /\ forall h, ctrans h L [i] i;
  af_is : hello_is k (a_kexs A) (h_sid (a_hl A)) (h_random (a_hl A)) (a_enc A) }.
(** After a HelloRetryRequest. *)
Record await_second (k : cenv) (L : list centry) (s : cstate) (A : awd) : Prop := mkAS {
  as_retry : exists w m orig v h hc enc0, filter is_retry L = [CRecv w (EvHandshake (MHelloRetryRequest m) orig)] /\
    g_version (c_neg s) = Some v /\ getExtension KServerSupportedVersions (hrr_extensions m) = Ok (Some (XServerSupportedVersions v)) /\
    g_cipher (c_neg s) = Some (hrr_suite m) /\ g_kexType (c_neg s) = Some KexHRR /\ k_hash k (hrr_suite m) = Ok h /\
    c_hctx s = Some hc /\ hc_hash hc = h /\ ctrans h L [enc0; a_enc A] (hc_data hc) /\ hellos_sent L = [enc0; a_enc A] /\
    hc_data hc = retry_start h enc0 orig ++ a_enc A /\
    forall e i, c_ech s = Some e -> ec_enc e = Some i -> exists i0 ec, ec_hctx e = Some ec /\ hc_hash ec = h /\
      ctrans h L [i0; i] (hc_data ec) /\ carries k (ec_neg e) i0 enc0 /\ carries k (ec_neg e) i (a_enc A) /\
      hc_data ec = retry_start h i0 orig ++ i /\ ec_status e <> CxRequested }.
Record await (k : cenv) (L : list centry) (s : cstate) (A : awd) : Prop := mkAw {
  aw_state : c_state s = CExpectingServerHello;
  aw_read : exists r, c_read s = Some r /\ layer_key (ev_layer r) = None;
  aw_write : c_write s = Some WPlain;
  aw_none : c_ks s = None /\ c_secrets s = None /\ c_exporter s = None /\ c_resumption s = None /\ g_auth (c_neg s) = None;
  aw_conn : connected L (a_w0 A) (a_cn A);
  aw_hello : c_hello s = Some (a_hl A) /\ h_verifier (a_hl A) = cn_verifier (a_cn A) /\ h_exts (a_hl A) = cn_exts (a_cn A) /\
    h_kex (a_hl A) = Some (a_kexs A) /\ h_enc (a_hl A) = Some (a_enc A);
  aw_psk : forall p, h_psk (a_hl A) = Some p -> cn_psk (a_cn A) = Some p /\ psk_valid k (cw_now (a_w0 A)) p;
  aw_kexs : forall g x, In (g, x) (a_kexs A) -> g < 2 ^ 16 /\ exists w, In w (worlds L) /\ cw_kex w g = Ok x;
  aw_is : exists rnd, hello_is k (a_kexs A) (h_sid (a_hl A)) rnd (a_enc A);
  aw_ech : match c_ech s with
    | None => cn_ech (a_cn A) = None
    | Some e => cn_ech (a_cn A) <> None /\ exists i, ec_enc e = Some i /\ hello_is k (a_kexs A) (h_sid (a_hl A)) (ec_random e) i
    end;
  aw_quiet : no_success L;
  aw_phase : await_first k L s A \/ await_second k L s A }.

Lemma no_success_app L X : no_success L -> no_success X -> no_success (L ++ X).
Proof. unfold no_success. rewrite !ccount_app. intros (-> & -> & ->) (-> & -> & ->). auto. Qed.
Lemma quiet_no_success X : forallb cquiet X = true -> no_success X.
Proof. intros H. destruct (cquiet_nothing _ H) as (_ & A & B & C & _). split; auto. Qed.
(** What the invariant looks at. *)
Definition await_frame (s : cstate) :=
  (c_state s, c_write s, c_hctx s, c_ks s, c_secrets s, c_hello s, c_neg s, c_ech s, (c_exporter s, c_resumption s)).
Lemma await_quiet k L s A s' X : await k L s A -> forallb cquiet X = true -> await_frame s' = await_frame s ->
  (exists r r', c_read s = Some r /\ c_read s' = Some r' /\ layer_key (ev_layer r') = layer_key (ev_layer r)) -> await k (L ++ X) s' A.
Proof.
  intros [W1 W2 W3 W4 W5 W6 W7 W8 W9 W10 W11 W12] HX F (r & r' & R1 & R2 & R3). unfold await_frame in F.
  assert (F1 : c_state s' = c_state s) by congruence. assert (F2 : c_write s' = c_write s) by congruence. assert (F3 : c_hctx s' = c_hctx s) by congruence.
  assert (F4 : c_ks s' = c_ks s) by congruence. assert (F5 : c_secrets s' = c_secrets s) by congruence. assert (F6 : c_hello s' = c_hello s) by congruence.
  assert (F7 : c_neg s' = c_neg s) by congruence. assert (F8 : c_ech s' = c_ech s) by congruence.
  assert (F9 : c_exporter s' = c_exporter s) by congruence. assert (F10 : c_resumption s' = c_resumption s) by congruence. clear F.
  destruct (cquiet_nothing _ HX) as (X1 & X2 & X3 & X4 & X5).
  constructor; rewrite ?F1, ?F2, ?F4, ?F5, ?F6, ?F7, ?F8, ?F9, ?F10; auto.
  - exists r'. split; [exact R2|]. destruct W2 as (r0 & W2 & W2'). congruence.
  - apply connected_app, W5.
  - intros g x Hin. destruct (W8 g x Hin) as (B & w & C & D). split; [exact B|]. exists w. split; [|exact D]. rewrite worlds_app. apply in_or_app. auto.
  - apply no_success_app; [exact W11|apply quiet_no_success, HX].
  - destruct W12 as [[B1 B2 B3 B4 B5 B6 B6']|[(w & m & orig & v & h & hc & enc0 & B1 & B2 & B3 & B4 & B5 & B6 & B7 & B8 & B9 & B10 & B10' & B11)]].
    + left. constructor; rewrite ?F3, ?F7, ?F8; auto.
      * rewrite hellos_app, B3, X1. reflexivity.
      * rewrite filter_app, B4, X5. reflexivity.
      * intros h. apply ctrans_quiet; auto.
      * intros e i E1 E2. destruct (B6 _ _ E1 E2) as (C1 & C2 & C3 & C4). split; [exact C1|]. split; [exact C2|]. split; [exact C3|].
        intros h. apply ctrans_quiet; auto.
    + right. constructor. exists w, m, orig, v, h, hc, enc0. rewrite F3, F7, F8. rewrite filter_app, B1, X5, app_nil_r. split; [reflexivity|].
      repeat (split; [assumption|]). split; [apply ctrans_quiet; assumption|]. split; [rewrite hellos_app, B10, X1; reflexivity|]. split; [exact B10'|].
      intros e i E1 E2. destruct (B11 _ _ E1 E2) as (i0 & ec & C1 & C2 & C3 & C4). exists i0, ec. split; [exact C1|]. split; [exact C2|].
      split; [apply ctrans_quiet; assumption|exact C4].
Qed.
Lemma worlds_call w i : worlds [CCall w i] = [w]. Proof. reflexivity. Qed.
Lemma await_connect k w cn s' outs : cenv_ok k -> handle_connect k w c_init cn = Ok (s', outs) ->
  exists A, await k (CCall w (JConnect cn) :: map CEmit outs) s' A.
Proof.
  intros Hk H. destruct (handle_connect_facts _ _ _ _ _ Hk H) as (hl & kexs & enc & [C1 [C2 C2'] (C3 & C4 & C5 & C6 & C6' & C6'') (C7 & C8 & C9 & C10 & C11) C12 (C13 & C14 & C15 & C16 & C17) C18 C19 C20 (d & rest & -> & Hq)]).
  exists (mkAwd w cn hl kexs enc). destruct (cquiet_nothing _ Hq) as (X1 & X2 & X3 & X4 & X5).
  assert (T : forall h b, ctrans h [CCall w (JConnect cn); CEmit (KWrite [mkContent LvPlaintext 22 d enc])] [b] b).
  { intros h b. change (ctrans h (([] ++ [CCall w (JConnect cn)]) ++ [CEmit (KWrite [mkContent LvPlaintext 22 d enc])]) [b] b).
    eapply ct_snoc with (hs := []) (T := []); [eapply ct_snoc; [constructor|]; cbn; auto|]. cbn. exists b. auto. }
  assert (T' : forall h b, ctrans h (CCall w (JConnect cn) :: map CEmit (KWrite [mkContent LvPlaintext 22 d enc] :: rest)) [b] b).
  { intros h b. apply (ctrans_quiet h (map CEmit rest) _ _ _ (T h b) Hq). }
  constructor; cbn [a_w0 a_cn a_hl a_kexs a_enc]; auto.
  - rewrite C2. eexists. split; reflexivity.
  - eexists. reflexivity.
  - intros p Ep. rewrite Ep in C12. apply validatePsk_ok in C12. exact C12.
  - intros g x Hin. destruct (C18 _ _ Hin) as (B1 & B2). split; [exact B1|]. exists w. split; [left; reflexivity|exact B2].
  - eexists. exact C19.
  - destruct (c_ech s') as [e|]; [|exact C20]. destruct C20 as (D1 & D2 & D3 & i & D4 & D5 & D6). split; [exact D1|]. exists i. auto.
  - change (no_success ([CCall w (JConnect cn); CEmit (KWrite [mkContent LvPlaintext 22 d enc])] ++ map CEmit rest)).
    apply no_success_app; [|split; auto].
    destruct C19 as (c & E & _). apply encode_shape in E. destruct E as (body & _ & ->).
    split; [reflexivity|]. split; [reflexivity|]. unfold ccount. cbn [filter cis_ku_sent is_hs ct_type ct_plain hs_type]. 
    rewrite first_byte; [reflexivity|reflexivity|discriminate].
  - left. constructor; cbn [a_enc]; auto.
    + change (hellos_sent ([CCall w (JConnect cn); CEmit (KWrite [mkContent LvPlaintext 22 d enc])] ++ map CEmit rest) = [enc]).
      rewrite hellos_app, X1. reflexivity.
    + intros e i E1 E2. rewrite E1 in C20. destruct C20 as (D1 & D2 & D3 & i' & D4 & D5 & D6). assert (i' = i) by congruence. subst i'. auto.
Qed.
Lemma last_snoc {A} (l : list A) x y : l ++ [x] ++ [y] = (l ++ [x]) ++ [y]. Proof. apply app_assoc. Qed.
Lemma await_retry k L s A w m orig s' outs : cenv_ok k -> await k L s A -> handle_retry k w s m orig = Ok (s', outs) ->
  exists A', await k (L ++ CRecv w (EvHandshake (MHelloRetryRequest m) orig) :: map CEmit outs) s' A'.
Proof.
  intros Hk [W1 W2 W3 W4 W5 W6 W7 W8 W9 W10 W11 W12] H.
  destruct (handle_retry_facts _ _ _ _ _ _ _ Hk H) as (hl & hl' & kexs & kexs' & h & v & enc0 & enc & [R1 [R2 R3] (R4 & R5 & R6 & R7 & R8 & R9 & R10) (R11 & R12 & R13) R14
    (R15 & R16 & R17 & R18 & R19 & R20) R21 [R22 R23] R24 (R25 & R26 & R27) R28 R29 R30 R31 R32 (ccs & ct & -> & R33 & R34)]).
  destruct W6 as (Q1 & Q2 & Q3 & Q4 & Q5). assert (hl = a_hl A) by congruence. subst hl. assert (kexs = a_kexs A) by congruence. subst kexs.
  assert (enc0 = a_enc A) by congruence. subst enc0.
  assert (Hsm : small_groups (a_kexs A)) by (apply small_of; intros g x Hin; apply (W8 _ _ Hin)).
  destruct (R34 W3) as (T1 & T2 & T3). clear R34.
  destruct W12 as [[B1 B2 B3 B4 B5 B6 B6']|[(w1 & m1 & orig1 & v1 & h1 & hc1 & e1 & _ & _ & _ & _ & B5 & _)]]; [|congruence].
  assert (Hf : filter is_hs (ccs ++ [ct]) = [ct]).
  { rewrite filter_app, R33. cbn. unfold is_hs. rewrite T1. reflexivity. }
  assert (Hfp : filter plain_hs (ccs ++ [ct]) = [ct]).
  { rewrite filter_app, (filter_plain _ R33). cbn. unfold plain_hs, is_hs. rewrite T1, T2. reflexivity. }
  set (X := [CRecv w (EvHandshake (MHelloRetryRequest m) orig); CEmit (KWrite (ccs ++ [ct]))]).
  assert (HT : forall hello b, ctrans h L [hello] hello -> ctrans h (L ++ X) [hello; b] (retry_start h hello orig ++ b)).
  { intros hello b HT. unfold X. change [CRecv w (EvHandshake (MHelloRetryRequest m) orig); CEmit (KWrite (ccs ++ [ct]))]
      with ([CRecv w (EvHandshake (MHelloRetryRequest m) orig)] ++ [CEmit (KWrite (ccs ++ [ct]))]). rewrite app_assoc.
    eapply ct_snoc; [eapply ct_snoc; [exact HT|]|].
    - cbn. split; reflexivity.
    - unfold ctstep. rewrite Hf, T2. exists b. split; reflexivity. }
  exists (mkAwd (a_w0 A) (a_cn A) hl' kexs' enc). change (await k (L ++ X) s' (mkAwd (a_w0 A) (a_cn A) hl' kexs' enc)).
  constructor; cbn [a_w0 a_cn a_hl a_kexs a_enc].
  - exact R1.
  - rewrite R2. exact W2.
  - congruence.
  - destruct W4 as (D1 & D2 & D3 & D4 & D5). repeat split; congruence.
  - apply connected_app, W5.
  - repeat split; congruence.
  - intros p Hp. destruct R21 as [E|E]; [|congruence]. apply W7. congruence.
  - intros g x Hin. destruct R29 as [[-> _]|(g0 & x0 & _ & Hg & _ & Hx & ->)].
    + destruct (W8 _ _ Hin) as (D1 & w' & D2 & D3). split; [exact D1|]. exists w'. split; [|exact D3]. rewrite worlds_app. apply in_or_app. auto.
    + destruct Hin as [[= <- <-]|[]]. split; [pose proof (ko_groups k Hk) as B; rewrite Forall_forall in B; apply B, Hg|].
      exists w. split; [|exact Hx]. rewrite worlds_app. apply in_or_app. right. left. reflexivity.
  - eexists. rewrite R18. apply R30, Hsm.
  - destruct (c_ech s) as [e|].
    + destruct R32 as (e' & i0 & i & D1 & D2 & D3 & D4 & D5 & D6 & D7 & D8 & D9). rewrite D1. split; [apply W10|]. exists i. split; [exact D3|].
      rewrite D4, R18. apply D8, Hsm.
    + rewrite R32. exact W10.
  - apply no_success_app; [exact W11|]. split; [reflexivity|]. split; [reflexivity|]. unfold ccount, X. cbn [filter cis_ku_sent].
    destruct ccs as [|c0 ccs]; [|destruct ccs; reflexivity]. cbn [app]. rewrite T3. destruct (R30 Hsm) as (c & E & _). apply encode_shape in E. destruct E as (body & _ & ->).
    cbn [hs_type]. rewrite first_byte, andb_false_r; [reflexivity|reflexivity|discriminate].
  - right. constructor. exists w, m, orig, v, h, (mkHc h (retry_start h (a_enc A) orig ++ enc)), (a_enc A). cbn [a_enc hc_hash hc_data].
    split; [rewrite filter_app, B4; reflexivity|]. repeat (split; [assumption|]). split; [reflexivity|]. split; [apply HT, B5|].
    split; [rewrite hellos_app, B3; unfold X, hellos_sent; cbn [flat_map app]; rewrite Hfp; cbn; rewrite T3; reflexivity|]. split; [reflexivity|].
    intros e i E1 E2. destruct (c_ech s) as [e0|]; [|congruence]. destruct R32 as (e' & i0 & i' & D1 & D2 & D3 & D4 & D5 & D6 & D7 & D8 & D9).
    assert (e' = e) by congruence. subst e'. assert (i' = i) by congruence. subst i'. destruct (B6 e0 i0 eq_refl D2) as (F1 & F2 & F3 & F4).
    exists i0. eexists. split; [exact D6|]. cbn [hc_hash hc_data]. split; [reflexivity|]. split; [apply HT, F4|]. rewrite D5. split; [exact F3|]. split; [exact D9|]. split; [reflexivity|].
    destruct D7; congruence.
Qed.
