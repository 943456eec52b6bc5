(** * What the server's handlers do when they succeed (used by the proofs of C34-C43) *)
From Verif Require Import Base Codec Str Hkdf HkdfSpec HkdfProofs KeySched KeySchedSpec KeySchedProofs Handshake Extensions RecordBase Record
  ReadEvent HelloChecks Cookie Token Negotiate Ticket Kex Hpke Transcript IOBufUtil EchConfirm Server ServerSpec.
Open Scope N_scope.

Lemma ensure_ok b x u : ensure b x = Ok u -> b = true.
Proof. unfold ensure. destruct b; [reflexivity|discriminate]. Qed.
Lemma deref_ok b x : deref b = Ok x -> b = Some x.
Proof. destruct b; cbn; congruence. Qed.

(** ** Key schedule calls *)
Lemma kdo_rel h k st op k' : hash_ok h -> rel h k st -> op_ok h op -> kdo h k op = Ok k' ->
  exists st' out, spec_step h st op = Some (st', out) /\ rel h k' st'.
Proof.
  intros Hh Hr Ho. unfold kdo. pose proof (step_ok h Hh k st op Hr Ho) as H.
  destruct (spec_step h st op) as [[st' out]|].
  - destruct H as (s' & -> & Hr'). cbn. intros [= <-]. eauto.
  - destruct H as (x & ->). cbn. discriminate.
Qed.
Lemma kget_rel h k st op b : hash_ok h -> rel h k st -> op_ok h op -> kget h k op = Ok b ->
  exists st', spec_step h st op = Some (st', OSecret b).
Proof.
  intros Hh Hr Ho. unfold kget. pose proof (step_ok h Hh k st op Hr Ho) as H.
  destruct (spec_step h st op) as [[st' out]|].
  - destruct H as (s' & -> & Hr'). cbn. destruct out; try discriminate. intros [= <-]. eauto.
  - destruct H as (x & ->). cbn. discriminate.
Qed.
Lemma hc_ctx_len c : hash_ok (hc_hash c) -> blen (hc_context c) = h_len (hc_hash c).
Proof. intros H. apply (ho_digest _ H). Qed.

(** ** The last part of the ClientHello handler *)
Record finish_facts (e : env) (w : world) (s : sstate) (n : neg) (sid : bytes) (hsTime : Z) (h : hashalg) (k : ks) (hc : hsctx)
    (alpn : option bytes) (skew : option Z) (ed : earlytype) (early : option (bytes * option evstate * bytes))
    (kt : kextype) (group : option N) (kex : option (bytes * bytes)) (s' : sstate) (outs : list out) : Prop := mkFF {
  ff : exists k2 exts random sh0 sh retry bsh hws hwl hrs hrl bee reqExts creq scert ccert scheme auth hc4 bfin hc5 enc wl ct
              k3 ems k4 aws awl,
    let version := n_version n in let cipher := n_cipher n in let c := n_hello n in
    let requestAuth := match e_authMode e, n_res n with AuthNone, _ => false | _, Some _ => false | _, None => true end in
    (match kex with Some (_, dh) => kdo h k (DeriveHandshakeDH dh) | None => kdo h k DeriveHandshake end) = Ok k2 /\
    (match e_extensions e with Some f => f c | None => Ok [] end) = Ok exts /\
    (match s_group s with Some p => group = Some p | None => True end) /\
    (match n_cookie n with
     | Some ck => match ck_group ck, group with Some p, Some g => g = p | _, _ => True end
     | None => True end) /\
    w_random w = Ok random /\
    getServerHello version random cipher (match n_res n with Some _ => true | None => false end)
      (match group, kex with Some g, Some (share, _) => Some (g, share) | _, _ => None end) sid = Ok sh0 /\
    (match n_ech n with EchAccepted => setAcceptSH hc h (ch_random c) sh0 | _ => Ok sh0 end) = Ok sh /\
    (match n_ech n with
     | EchRejected => exists d st r, e_ech e = Some d /\ n_echState n = Some st /\ d_retry d (eh_outerSni st) = Ok r /\ retry = Some r
     | _ => retry = None end) /\
    encodeHandshake (MServerHello sh) = Ok bsh /\
    kget h k2 (GetHandshake ServerHandshakeTraffic (hc_context (hc_append hc bsh))) = Ok hws /\
    new_write e h LvHandshake version cipher hws = Ok hwl /\
    kget h k2 (GetHandshake ClientHandshakeTraffic (hc_context (hc_append hc bsh))) = Ok hrs /\
    new_read e h version cipher hrs (match ed with EdRejected => true | _ => false end) = Ok hrl /\
    encryptedExts alpn ed retry exts = Ok bee /\
    (if requestAuth then certificateRequest e = Ok (reqExts, creq) else reqExts = []) /\
    (let hc3 := (if requestAuth then hc_append (hc_append (hc_append hc bsh) bee) creq else hc_append (hc_append hc bsh) bee) in
     match n_res n with
     | None => exists cert sch m sig hc' v, server_auth e c hc3 = Ok (cert, sch, m, sig, hc') /\
         encodeHandshake (MCertificateVerify (mkCV sch (Some sig))) = Ok v /\
         scert = Some cert /\ ccert = None /\ scheme = Some sch /\ auth = [m; v] /\ hc4 = hc_append hc' v
     | Some r => scert = rs_serverCert r /\ ccert = rs_clientCert r /\ scheme = None /\ auth = [] /\ hc4 = hc3
     end) /\
    getFinished hc4 hws = Ok (bfin, hc5) /\
    write_flight hwl (bee :: (if requestAuth then [creq] else []) ++ auth ++ [bfin]) = Ok enc /\
    s_write s = Some wl /\
    snd (wl_write wl 22 [bsh]) = Ok ct /\
    kdo h k2 DeriveMaster = Ok k3 /\
    kget h k3 (GetMaster ExporterMaster (hc_context hc5)) = Ok ems /\
    kdo h k3 (DeriveApp (hc_context hc5)) = Ok k4 /\
    kget h k4 (GetApp ServerAppTraffic) = Ok aws /\
    new_write e h LvAppTraffic version cipher aws = Ok awl /\
    (let ed_saved := match s_early s with Some x => x | None => ed end in
     let save rd hsrd eexp st :=
        mkS st rd (Some awl) hsrd (Some hc5) (Some (h, k4)) (Some version) (Some cipher) group (Some kt) (Some ed_saved)
          (Some (n_pskType n)) (n_pskMode n) (Some (n_replay n)) alpn (Some hrs) (s_chain s) ccert scert reqExts scheme
          (Some ems) eexp (s_resumption s) skew (match n_res n with Some r => rs_appToken r | None => None end) (Some hsTime)
          (Some (ch_random c)) (n_ech n) (n_echState n) in
     let fl := OWrite (ct :: ccs_if sid ++ [enc]) in
     let secrets := [OSecret' SkClientHs hrs; OSecret' SkServerHs hws; OSecret' SkServerApp aws] in
     (exists ets erl eexp, ed = EdAccepted /\ early = Some (ets, erl, eexp) /\
        outs = OSecret' SkEarly ets :: secrets ++ [fl; OEarlySuccess] /\
        ((e_omitEarly e = true /\ s' = save (Some hrl) (s_hsRead s) (Some eexp) SExpectingFinished) \/
         (e_omitEarly e = false /\ s' = save erl (Some hrl) (Some eexp) SAcceptingEarlyData))) \/
     (ed <> EdAccepted /\ outs = secrets ++ [fl] /\
        s' = save (Some hrl) (s_hsRead s) (s_earlyExporter s) (if requestAuth then SExpectingCertificate else SExpectingFinished))) }.

Ltac bo H x E := apply bind_Ok in H; destruct H as (x & E & H); cbv beta in H.

Lemma hello_finish_facts e w s n sid hsTime h k hc alpn skew ed early kt group kex s' outs :
  hello_finish e w s n sid hsTime h k hc alpn skew ed early kt group kex = Ok (s', outs) ->
  finish_facts e w s n sid hsTime h k hc alpn skew ed early kt group kex s' outs.
Proof.
  intros H. constructor. unfold hello_finish in H.
  bo H k2 E1. bo H exts E2. bo H u1 E3. bo H u2 E4. bo H random E5. bo H sh0 E6. bo H sh E7. bo H rtry E8. bo H bsh E9.
  bo H hws E10. bo H hwl E11. bo H hrs E12. bo H hrl E13. bo H bee E14.
  apply bind_Ok in H. destruct H as ([reqExts creq] & E15 & H). cbv beta iota in H.
  apply bind_Ok in H. destruct H as (((((scert & ccert) & scheme) & auth) & hc4) & E16 & H). cbv beta iota in H.
  apply bind_Ok in H. destruct H as ((bfin & hc5) & E17 & H). cbv beta iota in H.
  bo H enc E18.
  destruct (s_write s) as [wl|] eqn:Ew; [|discriminate].
  bo H ct E19. bo H k3 E20. bo H ems E21. bo H k4 E22. bo H aws E23. bo H awl E24.
  exists k2, exts, random, sh0, sh, rtry, bsh, hws, hwl, hrs, hrl, bee, reqExts, creq, scert, ccert, scheme, auth, hc4, bfin, hc5, enc,
    wl, ct, k3, ems, k4, aws, awl.
  cbv zeta.
  split; [exact E1|]. split; [exact E2|].
  split. { apply ensure_ok in E3. destruct (s_group s); [|exact I]. destruct group; [|discriminate].
           apply N.eqb_eq in E3. congruence. }
  split. { apply ensure_ok in E4. destruct (n_cookie n) as [ck|]; [|exact I]. destruct (ck_group ck); [|exact I].
           destruct group; [|exact I]. apply N.eqb_eq in E4. exact E4. }
  split; [exact E5|]. split; [exact E6|]. split; [exact E7|].
  split. { destruct (n_ech n); try congruence. destruct (e_ech e) as [d|]; [|discriminate].
           destruct (n_echState n) as [st|]; [|discriminate]. bo E8 r Er. exists d, st, r. repeat split; congruence. }
  split; [exact E9|]. split; [exact E10|]. split; [exact E11|]. split; [exact E12|]. split; [exact E13|]. split; [exact E14|].
  split. { destruct (match e_authMode e with AuthNone => false | _ => match n_res n with Some _ => false | None => true end end) eqn:Ea;
             destruct (e_authMode e), (n_res n); cbn in E15 |- *; congruence. }
  split.
  { assert (Hx : forall A (a b : A), match e_authMode e, n_res n with AuthNone, _ => b | _, Some _ => b | _, None => a end =
        if match e_authMode e, n_res n with AuthNone, _ => false | _, Some _ => false | _, None => true end then a else b).
    { intros. destruct (e_authMode e), (n_res n); reflexivity. }
    destruct (n_res n) as [r|] eqn:En.
    - injection E16 as <- <- <- <- <-. repeat split; try reflexivity; destruct (e_authMode e); reflexivity.
    - apply bind_Ok in E16. destruct E16 as (((((cert & sch) & m) & sig) & hc') & Ea & E16). cbv beta iota in E16.
      bo E16 v Ev. injection E16 as <- <- <- <- <-. exists cert, sch, m, sig, hc', v.
      split; [|repeat split; assumption].
      destruct (e_authMode e); exact Ea. }
  split; [exact E17|].
  split. { destruct (e_authMode e), (n_res n); exact E18. }
  split; [reflexivity|]. split; [exact E19|]. split; [exact E20|]. split; [exact E21|]. split; [exact E22|]. split; [exact E23|].
  split; [exact E24|].
  destruct ed.
  - right. injection H as <- <-. split; [discriminate|]. split; [reflexivity|]. destruct (e_authMode e), (n_res n); reflexivity.
  - right. injection H as <- <-. split; [discriminate|]. split; [reflexivity|]. destruct (e_authMode e), (n_res n); reflexivity.
  - left. destruct early as [[[ets erl] eexp]|]; [|discriminate]. exists ets, erl, eexp.
    destruct (e_omitEarly e); injection H as <- <-; (split; [reflexivity|]; split; [reflexivity|]; split; [reflexivity|]); auto.
Qed.

(** ** The first part: what has been checked before anything is sent *)
Record neg_facts (e : env) (w : world) (s : sstate) (c0 : ClientHello) (o0 : bytes) (n : neg) : Prop := mkNF {
  nf_cookie : serverCookie e c0 = Ok (n_cookie n);
  nf_nocookie : s_hctx s <> None -> n_cookie n = None;
  nf_ech : processECH e (n_cookie n) s c0 o0 = Ok (n_ech n, n_echState n, n_hello n, n_orig n);
  nf_logged : snd (HandshakeLog.populate (n_hello n) HandshakeLog.hlog_new) = Ok tt;
  nf_unparsed : exists r, s_read s = Some r /\ ev_unparsed r = [];
  nf_version : negotiateVersion (n_hello n) (e_versions e) = Ok (Some (n_version n));
  nf_sameversion : forall v, s_version s = Some v -> n_version n = v;
  nf_draft : exists v, real_draft_version (n_version n) = Ok v;
  nf_valid : validateClientHello (n_hello n) = Ok tt;
  nf_cipher : negotiate_tiers (e_ciphers e) (ch_suites (n_hello n)) = Some (n_cipher n);
  nf_samecipher : forall v, s_cipher s = Some v -> n_cipher n = v;
  nf_verifycookie : verifyCookie (n_cookie n) (n_version n) (n_cipher n) = Ok tt;
  nf_replay : replayResult e w (n_hello n) (n_version n) = Ok (n_replay n);
  nf_psk : match n_res n with
           | Some r => exists id md age pt, resumptionQuery e (n_hello n) = Ok (inr (id, md, age)) /\ n_pskMode n = Some md /\
               n_age n = Some age /\ w_ticketDecrypt w id = Ok (pt, Some r) /\ n_pskType n = pt /\
               validateResumption r (n_version n) (n_cipher n) = Ok true
           | None => n_pskMode n = None
           end;
  nf_eq : hello_negotiate e w s c0 o0 = Ok (NGo n) }.

Lemma hello_negotiate_facts e w s c0 o0 n : hello_negotiate e w s c0 o0 = Ok (NGo n) -> neg_facts e w s c0 o0 n.
Proof.
  intros H. pose proof H as H0. unfold hello_negotiate in H.
  bo H ck E1. bo H u1 E2. apply bind_Ok in H. destruct H as ((((es & est) & c) & orig) & E3 & H). cbv beta iota in H.
  bo H ul El. bo H u2 E4. bo H v E5. bo H u3 E6.
  destruct v as [version|].
  2:{ bo H ed E7. bo H u4 E8. destruct (e_fallback e); [|discriminate]. bo H d E9. bo H sni E10. discriminate. }
  bo H dv E7. bo H u4 E8. destruct (negotiate_tiers (e_ciphers e) (ch_suites c)) as [cipher|] eqn:E9; [|discriminate].
  bo H u5 E10. bo H u6 E11. bo H q E12. bo H rc E13.
  apply bind_Ok in H. destruct H as ((((pt & rs) & mode) & age) & E14 & H). cbv beta iota in H.
  apply bind_Ok in H. destruct H as (((pt' & rs') & mode') & E15 & H). cbv beta iota in H.
  injection H as <-. constructor; cbn.
  - exact E1.
  - intros Hn. apply ensure_ok in E2. destruct (s_hctx s); [|contradiction]. destruct ck; [discriminate|reflexivity].
  - exact E3.
  - destruct ul. exact El.
  - destruct (s_read s) as [r|]; [|discriminate]. apply ensure_ok in E4. exists r. split; [reflexivity|].
    destruct (ev_unparsed r); [reflexivity|discriminate].
  - exact E5.
  - intros x Hx. apply ensure_ok in E6. rewrite Hx in E6. apply N.eqb_eq, E6.
  - eauto.
  - destruct u4. exact E8.
  - exact E9.
  - intros x Hx. apply ensure_ok in E10. rewrite Hx in E10. apply N.eqb_eq, E10.
  - destruct u6. exact E11.
  - exact E13.
  - destruct rs as [r|].
    + bo E15 b Eb. destruct b; injection E15 as <- <- <-; [|reflexivity].
      destruct q as [t|[[id md] a]]; [discriminate|].
      apply bind_Ok in E14. destruct E14 as ((t & r') & E16 & E14). cbv beta iota in E14. injection E14 as <- -> <- <-.
      exists id, md, a, t. repeat split; assumption.
    + injection E15 as <- <- <-. reflexivity.
  - exact H0.
Qed.

(** ** setupSchedulerAndContext *)
Record setup_facts (e : env) (cipher : N) (c : ClientHello) (orig : bytes) (rs : option resstate) (ck : option cookiest)
    (pt : psktype) (prev : option hsctx) (h : hashalg) (k : ks) (hc : hsctx) : Prop := mkSF {
  sf_hash : e_hash e cipher = Ok h;
  sf_hc : exists hc0,
    match ck with
    | Some x => exists m b hrr, encodeHandshake (MMessageHash (ck_chloHash x)) = Ok m /\
        getExtension KCookie (ch_extensions c) = Ok (Some (XCookie (Some b))) /\
        getStatelessHrr (ck_version x) (ck_cipher x) (ck_group x) b = Ok hrr /\ hc0 = mkHc h (m ++ hrr)
    | None => hc0 = match prev with Some p => p | None => hc_new h end
    end /\ hc = hc_append hc0 orig /\
    match rs with
    | None => k = ks_init
    | Some r => exists psk bk bl ids b bs expected,
        rs_secret r = Some psk /\ kdo h ks_init (DeriveEarly psk) = Ok k /\
        kget h k (GetEarly (match pt with PskExternal => ExternalPskBinder | _ => ResumptionPskBinder end) (h_blank (hc_hash hc0))) = Ok bk /\
        getBinderLength (ch_extensions c) = Ok bl /\ bl <= blen orig /\
        getExtension KClientPresharedKey (ch_extensions c) = Ok (Some (XClientPresharedKey (ids, Some b :: bs))) /\
        hc_finished (hc_append hc0 (takeN (blen orig - bl) orig)) bk = Ok expected /\
        crypto_equal expected b = true
    end }.

Lemma setup_ok e cipher c orig rs ck pt prev h k hc :
  setupScheduler e cipher c orig rs ck pt prev = Ok (h, k, hc) -> setup_facts e cipher c orig rs ck pt prev h k hc.
Proof.
  unfold setupScheduler. intros H. bo H h0 Eh. bo H hc0 Ec.
  assert (Hh : h0 = h).
  { destruct rs as [r|]; [|congruence]. bo H psk E1. bo H k1 E2. bo H bk E3. bo H bl E4. bo H u E5. bo H p E6.
    destruct p as [px|]; [|discriminate]; destruct px; try discriminate; match type of H with context [match ?q with (_, _) => _ end] => destruct q as [ids [|b bs]] end; [discriminate|].
    bo H vd E7. bo H got E8. bo H u2 E9. congruence. }
  subst h0. split; [exact Eh|]. exists hc0. split.
  { destruct ck as [x|]; [|congruence].
    bo Ec m E1. bo Ec y E2. destruct y as [[]|]; try discriminate. bo Ec cb E3. apply deref_ok in E3. subst.
    bo Ec hrr E4. exists m, cb, hrr. repeat split; try assumption. injection Ec as <-. reflexivity. }
  destruct rs as [r|].
  - bo H psk E1. bo H k1 E2. bo H bk E3. bo H bl E4. bo H u E5. bo H p E6.
    destruct p as [px|]; [|discriminate]; destruct px; try discriminate; match type of H with context [match ?q with (_, _) => _ end] => destruct q as [ids [|b bs]] end; [discriminate|].
    bo H vd E7. bo H got E8. bo H u2 E9. injection H as <- <-.
    apply ensure_ok in E5, E9. apply deref_ok in E1, E8. subst b.
    split. { unfold hc_append. cbn. rewrite <- app_assoc, takeN_dropN. reflexivity. }
    exists psk, bk, bl, ids, got, bs, vd. repeat split; try assumption. lia.
  - split; congruence.
Qed.

(** ** HelloRetryRequest *)
Lemma hello_retry_facts e s n sid hc group ed s' outs : hello_retry e s n sid hc group ed = Ok (s', outs) ->
  exists h m hrr0 hrr b wl ct, e_hash e (n_cipher n) = Ok h /\ encodeHandshake (MMessageHash (Some (hc_context hc))) = Ok m /\
    getHelloRetryRequest (n_version n) (n_cipher n) group sid = Ok hrr0 /\
    (match n_ech n with EchAccepted => setAcceptHRR (mkHc h m) h (ch_random (n_hello n)) hrr0 | _ => Ok hrr0 end) = Ok hrr /\
    encodeHandshake (MHelloRetryRequest hrr) = Ok b /\ s_write s = Some wl /\ snd (wl_write wl 22 [b]) = Ok ct /\
    outs = [OWrite (ct :: ccs_if sid)] /\
    s' = upd_state (upd_hello s (Some (mkHc h (m ++ b))) (n_version n) (n_cipher n) (Some group) KexHRR
           (match ed with EdAccepted => EdRejected | x => x end) (n_replay n)
           (Some (mkEv [] (LPlain (mkP (match ed with EdNotAttempted => false | _ => true end) None)))) (n_ech n) (n_echState n))
           SExpectingClientHello.
Proof.
  unfold hello_retry. intros H. bo H h Eh. bo H m Em. bo H hrr0 E0. bo H hrr E1. bo H b Eb.
  destruct (s_write s) as [wl|] eqn:Ew; [|discriminate]. bo H ct Ect. injection H as <- <-.
  exists h, m, hrr0, hrr, b, wl, ct. split; [exact Eh|]. split; [exact Em|]. split; [exact E0|]. split; [exact E1|].
  split; [exact Eb|]. split; [reflexivity|]. split; [exact Ect|]. split; [reflexivity|].
  destruct ed; reflexivity.
Qed.

(** ** The whole handler *)
Record hello_facts (e : env) (w : world) (s : sstate) (c0 : ClientHello) (o0 : bytes) (n : neg) (sid : bytes) (h : hashalg) (k : ks)
    (hc : hsctx) (alpn : option bytes) (skew : option Z) (ed : earlytype) (early : option (bytes * option evstate * bytes)) : Prop := mkHF {
  hf_neg : neg_facts e w s c0 o0 n;
  hf_sid : ch_session_id (n_hello n) = Some sid;
  hf_setup : setup_facts e (n_cipher n) (n_hello n) (n_orig n) (n_res n) (n_cookie n) (n_pskType n) (s_hctx s) h k hc;
  hf_alpn : negotiateAlpn e (n_hello n) = Ok alpn;
  hf_skew : clockSkew (n_res n) (n_age n) (w_now2 w) = Ok skew;
  hf_ed : negotiateEarly e w (n_hello n) (n_res n) (n_version n) (n_cipher n) (s_kexType s) (n_cookie n) alpn (n_replay n) skew = Ok ed;
  hf_early : match ed with
             | EdAccepted => exists x, early_keys e h k hc (n_version n) (n_cipher n) = Ok x /\ early = Some x
             | _ => early = None end }.

Inductive hello_result (e : env) (w : world) (s : sstate) (c0 : ClientHello) (o0 : bytes) (s' : sstate) (outs : list out) : Prop :=
| HrFallback d sni : s' = upd_state s SError -> outs = [OFallback d sni] -> hello_negotiate e w s c0 o0 = Ok (NFallback d sni) -> hello_result e w s c0 o0 s' outs
| HrRetry n sid h k hc alpn skew ed early g :
    hello_facts e w s c0 o0 n sid h k hc alpn skew ed early -> n_pskMode n <> Some 0 ->
    negotiateGroup e (n_hello n) = Ok (g, None) -> s_group s = None -> n_cookie n = None ->
    hello_retry e s n sid hc g ed = Ok (s', outs) -> hello_result e w s c0 o0 s' outs
| HrFinish n sid h k hc alpn skew ed early kt group kex :
    hello_facts e w s c0 o0 n sid h k hc alpn skew ed early ->
    ((n_pskMode n = Some 0 /\ kt = KexNone /\ group = None /\ kex = None) \/
     (n_pskMode n <> Some 0 /\ exists g cs kx, negotiateGroup e (n_hello n) = Ok (g, Some cs) /\ w_kex w g cs = Ok kx /\
        group = Some g /\ kex = Some kx /\ kt = match s_kexType s with Some t => t | None => KexOneRtt end)) ->
    finish_facts e w s n sid (match n_res n with Some r => rs_hsTime r | None => w_now w end) h k hc alpn skew ed early kt group kex s' outs ->
    hello_result e w s c0 o0 s' outs.

Lemma handle_hello_facts e w s c0 o0 s' outs : handle_hello e w s c0 o0 = Ok (s', outs) -> hello_result e w s c0 o0 s' outs.
Proof.
  unfold handle_hello. intros H. bo H r En. destruct r as [d sni|n].
  { injection H as <- <-. eapply HrFallback; [reflexivity|reflexivity|exact En]. }
  bo H sid E1. apply bind_Ok in H. destruct H as (((h & k) & hc) & E2 & H). cbv beta iota in H.
  bo H alpn E3. bo H skew E4. bo H ed E5. bo H early E6.
  assert (HF : hello_facts e w s c0 o0 n sid h k hc alpn skew ed early).
  { constructor; try assumption.
    - apply hello_negotiate_facts, En.
    - apply deref_ok, E1.
    - apply setup_ok, E2.
    - destruct ed; try congruence. bo E6 x Ex. exists x. split; [exact Ex|congruence]. }
  assert (Hm : n_pskMode n = Some 0 \/ n_pskMode n <> Some 0) by (destruct (n_pskMode n) as [[|]|]; auto; right; discriminate).
  destruct Hm as [Hm|Hm].
  - rewrite Hm in H. eapply HrFinish; [exact HF|left; auto|]. apply hello_finish_facts. exact H.
  - assert (H' : ('(g, share) <- negotiateGroup e (n_hello n) ;;
          match share with
          | None => _ <- ensure (match s_group s, n_cookie n with None, None => true | _, _ => false end) (alert al_illegal_parameter) ;;
                    hello_retry e s n sid hc g ed
          | Some cs => kx <- w_kex w g cs ;;
                       hello_finish e w s n sid (match n_res n with Some r => rs_hsTime r | None => w_now w end) h k hc alpn skew ed early
                         (match s_kexType s with Some t => t | None => KexOneRtt end) (Some g) (Some kx)
          end) = Ok (s', outs)).
    { destruct (n_pskMode n) as [[|p]|]; [contradiction| |]; exact H. }
    clear H. apply bind_Ok in H'. destruct H' as ((g & share) & Eg & H). cbv beta iota in H.
    destruct share as [cs|].
    + bo H kx Ek. eapply HrFinish; [exact HF|right; split; [exact Hm|]; exists g, cs, kx; repeat split; assumption|].
      apply hello_finish_facts. exact H.
    + bo H u Eu. apply ensure_ok in Eu.
      eapply HrRetry; [exact HF|exact Hm|exact Eg| | |exact H]; destruct (s_group s), (n_cookie n); try discriminate; reflexivity.
Qed.
