(** * The transcript and the keys after a ClientHello has been processed *)
From Verif Require Import Base Codec CodecSpec Str Hkdf HkdfSpec HkdfProofs KeySched KeySchedSpec KeySchedProofs Handshake Extensions RecordBase Record RecordRT
  ReadEvent HelloChecks Cookie Token Negotiate Ticket Kex Hpke Transcript IOBufUtil EchConfirm Server ServerSpec ServerFacts ServerSteps
  ExtensionsSpec ExtensionsProofs PropsCodec PropsTicket.
From Verif Require PropsEch.
Open Scope N_scope.

(** ** Keys *)
Lemma derive_aead_keyed e h cipher secret a : env_ok e -> hash_ok h -> blen secret = h_len h ->
  derive_aead e h cipher secret = Ok a -> keyed e h cipher secret a.
Proof.
  intros He Hh Hl. unfold derive_aead. intros H.
  apply bind_Ok in H. destruct H as (((kl & il) & mk) & Ea & H). cbv beta iota in H.
  destruct (eo_aead e He _ _ _ _ Ea) as [Hk Hi].
  destruct (hl16 h Hh) as (L1 & L2 & L3).
  pose proof (step_ok h Hh ks_init (Start, None) (GetTrafficKey secret kl il) (rel_init h)) as Hs.
  assert (Ho : op_ok h (GetTrafficKey secret kl il)) by (cbn; repeat split; try assumption; nia).
  specialize (Hs Ho). cbn [spec_step] in Hs. destruct Hs as (s' & Hs & _). rewrite Hs in H. cbn [snd] in H.
  exists kl, il, mk. auto.
Qed.
Lemma new_read_keyed e h version cipher secret skip r : env_ok e -> hash_ok h -> blen secret = h_len h ->
  new_read e h version cipher secret skip = Ok r -> read_keyed e h cipher secret (Some r) /\ ev_unparsed r = [].
Proof.
  intros He Hh Hl. unfold new_read. intros H. bo H rv E1. bo H a E2. injection H as <-.
  split; [|reflexivity]. eexists _, _. split; [reflexivity|]. cbn. eapply derive_aead_keyed; eassumption.
Qed.
Lemma new_write_keyed e h lv version cipher secret l : env_ok e -> hash_ok h -> blen secret = h_len h ->
  new_write e h lv version cipher secret = Ok l ->
  exists ws, l = WEnc lv ws /\ keyed e h cipher secret (ws_aead ws) /\ ws_seq ws = 0.
Proof.
  intros He Hh Hl. unfold new_write. intros H. bo H rv E1. bo H a E2. injection H as <-.
  eexists. split; [reflexivity|]. split; [|reflexivity]. cbn. eapply derive_aead_keyed; eassumption.
Qed.
Lemma finished_ok hc secret : hash_ok (hc_hash hc) -> blen secret = h_len (hc_hash hc) ->
  hc_finished hc secret = Ok (verify_data (hc_hash hc) secret (hc_data hc)).
Proof.
  intros Hh Hl. unfold hc_finished. set (h := hc_hash hc) in *.
  destruct (hl16 h Hh) as (L1 & L2 & L3).
  rewrite (el_ok h Hh secret (str "finished") [] (h_len h)); try assumption; try (vm_compute; discriminate); try lia.
  cbn [bind]. rewrite hmac_ok; [|exact Hh|lia]. cbn [concat]. rewrite app_nil_r. reflexivity.
Qed.

(** ** Messages *)
Lemma encode_shape m b : encodeHandshake m = Ok b ->
  exists body, encode_body m = Ok (Some body) /\ b = be 1 (hs_type m) ++ be 3 (blen body) ++ body.
Proof.
  unfold encodeHandshake. intros H. bo H body E. destruct body as [body|]; [|discriminate]. bo H t Et. bo H l El. injection H as <-.
  apply write_len_inv in El. destruct El as [_ ->]. injection Et as <-. exists body. auto.
Qed.
Lemma encode_message_hash d m : encodeHandshake (MMessageHash d) = Ok m -> exists x, d = Some x /\ m = message_hash x.
Proof. intros H. apply encode_shape in H. destruct H as (body & [= ->] & ->). exists body. auto. Qed.

(** ** Transcript *)
Definition quiet (x : entry) : bool :=
  match x with
  | Recv _ (EvHandshake _ _) => false
  | Recv _ _ => true
  | Emit (OWrite cs) =>
      match filter is_hs cs with [] => true | [c] => match ct_level c with LvPlaintext => false | _ => true end | _ => false end
  | Emit _ => true
  end.
Lemma quiet_step e h T x : quiet x = true -> tstep e h T x T.
Proof.
  destruct x as [w [m o|a|p|d]|o]; cbn; try discriminate; try reflexivity.
  destruct o; try reflexivity. destruct (filter is_hs l) as [|c [|]]; try discriminate.
  - cbn. symmetry. apply app_nil_r.
  - destruct (ct_level c); try discriminate; reflexivity.
Qed.
Lemma transcript_quiet e h L2 : forall L1 T, transcript e h L1 T -> forallb quiet L2 = true -> transcript e h (L1 ++ L2) T.
Proof.
  induction L2 as [|x L2 IH]; intros L1 T H Hq.
  - rewrite app_nil_r. exact H.
  - cbn in Hq. apply andb_true_iff in Hq. destruct Hq as [Hx Hq].
    replace (L1 ++ x :: L2) with ((L1 ++ [x]) ++ L2) by (rewrite <- app_assoc; reflexivity).
    apply IH; [|exact Hq]. eapply tr_snoc; [exact H|]. apply quiet_step, Hx.
Qed.
Lemma transcript_recv e h L T w m orig : transcript e h L T -> (forall c, m <> MClientHello c) ->
  transcript e h (L ++ [Recv w (EvHandshake m orig)]) (T ++ orig).
Proof.
  intros H Hm. eapply tr_snoc; [exact H|]. destruct m; cbn; try reflexivity. destruct (Hm m eq_refl).
Qed.

(** ** Awaiting a ClientHello *)
Definition is_wait (x : entry) : bool := match x with Emit (OWait _) => true | _ => false end.
Lemma waits_quiet L : forallb is_wait L = true -> forallb quiet L = true.
Proof.
  induction L as [|x L IH]; cbn; [reflexivity|]. intros H. apply andb_true_iff in H. destruct H as [Hx H].
  rewrite (IH H), andb_true_r. destruct x as [|o]; [discriminate|]. destruct o; try discriminate; reflexivity.
Qed.
Definition fresh (log : list entry) (s : sstate) : Prop :=
  exists r, s = upd_state (upd_layers s_init (Some r) (Some WPlain)) SExpectingClientHello /\ forallb is_wait log = true.
Definition hello_log (w : world) (c : ClientHello) (orig : bytes) (outs : list out) : list entry :=
  Recv w (EvHandshake (MClientHello c) orig) :: map Emit outs.
Definition retried (e : env) (log : list entry) (s : sstate) : Prop :=
  exists log1 s1 w c orig s2 outs W r, fresh log1 s1 /\ handle_hello e w s1 c orig = Ok (s2, outs) /\ s_state s2 = SExpectingClientHello /\
    log = log1 ++ hello_log w c orig outs ++ W /\ forallb is_wait W = true /\ s = upd_read s2 (Some r).
Definition awaiting (e : env) (log : list entry) (s : sstate) : Prop := fresh log s \/ retried e log s.

Lemma processECH_taken e ck s c0 o0 es est c o : processECH e ck s c0 o0 = Ok (es, est, c, o) -> hello_taken e c0 o0 c o.
Proof.
  unfold processECH. intros H. apply bind_Ok in H. destruct H as ((((status & st) & c') & o') & E & H). cbv beta iota in H.
  assert (Hc : c' = c /\ o' = o).
  { destruct status; try (split; congruence). bo H y Ey. destruct y; [|discriminate]. split; congruence. }
  destruct Hc as [-> ->]. clear H.
  assert (Hh : forall a, (x <- processECHHRR e ck s c0 o0 ;; a x) = Ok (status, st, c, o) ->
          (forall st0 cid c1 o1, a (st0, cid, c1, o1) = Ok (status, st, c, o) -> c1 = c /\ o1 = o) -> hello_taken e c0 o0 c o).
  { intros a Ha Hx. apply bind_Ok in Ha. destruct Ha as ((((st0 & cid) & c1) & o1) & E1 & Ha).
    destruct (Hx _ _ _ _ Ha) as [-> ->]. clear Ha E Hx.
    unfold processECHHRR in E1. bo E1 x Ex.
    assert (Hd : (s_ech s = EchAccepted) \/ (exists k suite, ck = Some k /\ ck_echSuite k = Some suite) \/
                 (c = c0 /\ o = o0)).
    { destruct (s_ech s) eqn:Es; auto; right; (destruct ck as [k|]; [destruct (ck_echSuite k) eqn:Ek|]);
        try (left; eauto; fail); right; cbv beta zeta in E1; rewrite ?Ek in E1; split; congruence. }
    destruct (s_ech s) eqn:Es.
    - destruct ck as [k|]; [destruct (ck_echSuite k) as [suite|] eqn:Ek|]; cbv beta zeta iota in E1;
        try (left; split; congruence).
      destruct (e_ech e) as [d|] eqn:Ee; [|discriminate].
      match type of E1 with context [match ?q with Some p => Some p | None => None end] => idtac | _ => idtac end.
      destruct x as [[]|]; try discriminate. destruct p as [[[[kdf ae] cid'] enc] pl].
      bo E1 en E2. bo E1 u1 E3. bo E1 u2 E4. bo E1 u3 E5. apply bind_Ok in E1. destruct E1 as ((c2 & o2) & E6 & E1).
      right. exists d. split; [exact Ee|]. right. right. cbv beta iota in E1. exists (ck_echEnc k). congruence.
    - destruct (e_ech e) as [d|] eqn:Ee; [|discriminate].
      destruct x as [[]|]; try discriminate. destruct p as [[[[kdf ae] cid'] enc] pl].
      bo E1 en E2. bo E1 u1 E3. destruct (s_echState s) as [est'|]; [|discriminate]. bo E1 u2 E4. bo E1 u3 E5.
      destruct (eh_ctx est') as [hc|]; [|discriminate]. apply bind_Ok in E1. destruct E1 as ((c2 & o2) & E6 & E1).
      right. exists d. split; [exact Ee|]. right. left. cbv beta iota in E1. exists hc. congruence.
    - destruct ck as [k|]; [destruct (ck_echSuite k) as [suite|] eqn:Ek|]; cbv beta zeta iota in E1;
        try (left; split; congruence).
      destruct (e_ech e) as [d|] eqn:Ee; [|discriminate].
      destruct x as [[]|]; try discriminate. destruct p as [[[[kdf ae] cid'] enc] pl].
      bo E1 en E2. bo E1 u1 E3. bo E1 u2 E4. bo E1 u3 E5. apply bind_Ok in E1. destruct E1 as ((c2 & o2) & E6 & E1).
      right. exists d. split; [exact Ee|]. right. right. cbv beta iota in E1. exists (ck_echEnc k). congruence. }
  assert (Hcl : forall f : echstatus * N * ClientHello * bytes -> option echst,
     (x <- processECHHRR e ck s c0 o0 ;; (let '(st0, cid, c1, o1) := x in Ok (st0, f (st0, cid, c1, o1), c1, o1))) = Ok (status, st, c, o) ->
     hello_taken e c0 o0 c o).
  { intros f Hf. eapply Hh; [exact Hf|]. cbv beta iota. intros. split; congruence. }
  destruct (s_hctx s) as [hc|].
  { apply bind_Ok in E. destruct E as ((((st0 & cid) & c1) & o1) & E1 & E).
    eapply (Hcl (fun _ => st)). rewrite E1. cbn. congruence. }
  destruct ck as [k|].
  { apply bind_Ok in E. destruct E as ((((st0 & cid) & c1) & o1) & E1 & E).
    eapply (Hcl (fun _ => st)). rewrite E1. cbn. congruence. }
  destruct (findExtension 65037 (ch_extensions c0)); [|left; split; congruence].
  bo E x Ex. destruct x as [[]|]; try discriminate. destruct p as [[[[kdf ae] cid'] enc] pl].
  bo E sni Esni. destruct (e_ech e) as [d|] eqn:Ee; [|left; split; congruence].
  bo E g Eg. destruct g as [[[c1 o1] hc]|]; [|left; split; congruence].
  right. exists d. split; [exact Ee|]. left. exists hc. congruence.
Qed.

(** ** Processing a ClientHello *)
Definition recv_hello w c orig : entry := Recv w (EvHandshake (MClientHello c) orig).
Lemma fresh_transcript e h log s : fresh log s -> transcript e h log [].
Proof. intros (r & -> & H). apply (transcript_quiet e h log [] []); [constructor|apply waits_quiet, H]. Qed.
Lemma fresh_hctx log s : fresh log s -> s_hctx s = None.
Proof. intros (r & -> & _). reflexivity. Qed.

Lemma serverCookie_inv e c k : serverCookie e c = Ok (Some k) -> exists dec b, e_cookie e = Some dec /\
  getExtension KCookie (ch_extensions c) = Ok (Some (XCookie (Some b))) /\ dec b = Ok (Some k).
Proof.
  unfold serverCookie. intros H. bo H x Ex. destruct x as [[]|]; try discriminate. destruct (e_cookie e) as [dec|]; [|discriminate].
  bo H d Ed. apply deref_ok in Ed. subst. bo H st Est. destruct st as [ck|]; [|discriminate]. bo H u Eu.
  exists dec, d. repeat split; try assumption. congruence.
Qed.

(** The transcript when the previous one (kept by the state) is [T]. *)
Lemma hello_transcript e log s w c0 o0 n sid h k hc alpn skew ed early :
  hello_facts e w s c0 o0 n sid h k hc alpn skew ed early ->
  match s_hctx s with
  | Some p => hc_hash p = h /\ transcript e h log (hc_data p)
  | None => transcript e h log []
  end ->
  hc_hash hc = h /\ transcript e h (log ++ [recv_hello w c0 o0]) (hc_data hc).
Proof.
  intros HF Hp. destruct (hf_setup _ _ _ _ _ _ _ _ _ _ _ _ _ _ HF) as [Eh (hc0 & H0 & -> & _)].
  pose proof (hf_neg _ _ _ _ _ _ _ _ _ _ _ _ _ _ HF) as HN.
  pose proof (processECH_taken _ _ _ _ _ _ _ _ _ (nf_ech _ _ _ _ _ _ HN)) as Ht.
  destruct (n_cookie n) as [ck|] eqn:Eck.
  - assert (Ehc : s_hctx s = None).
    { destruct (s_hctx s) eqn:E; [|reflexivity]. assert (X : n_cookie n = None) by (apply (nf_nocookie _ _ _ _ _ _ HN); congruence). congruence. }
    rewrite Ehc in Hp. destruct H0 as (m & b & hrr & E1 & E2 & E3 & ->).
    split; [reflexivity|]. cbn [hc_append hc_data]. apply encode_message_hash in E1. destruct E1 as (digest & Ed & ->).
    eapply tr_snoc; [exact Hp|]. cbn. exists (n_hello n), (n_orig n), (message_hash digest ++ hrr).
    split; [exact Ht|]. split; [|reflexivity]. right.
    destruct (serverCookie_inv e c0 ck) as (dec & b0 & C1 & C2 & C3). { rewrite <- Eck. apply HN. }
    exists dec, b0, ck, digest, b, hrr. repeat split; assumption.
  - subst hc0. destruct (s_hctx s) as [p|].
    + destruct Hp as [Hh Hp]. split; [exact Hh|]. cbn [hc_append hc_data]. eapply tr_snoc; [exact Hp|].
      cbn. exists (n_hello n), (n_orig n), (hc_data p). split; [exact Ht|]. split; [left; reflexivity|reflexivity].
    + split; [reflexivity|]. cbn [hc_append hc_data hc_new]. eapply tr_snoc; [exact Hp|].
      cbn. exists (n_hello n), (n_orig n), []. split; [exact Ht|]. split; [left; reflexivity|reflexivity].
Qed.

(** The state after a HelloRetryRequest. *)
Record retry_state (e : env) (log : list entry) (s : sstate) (n : neg) (g : N) (ed : earlytype) (h : hashalg) : Prop := mkRS_ {
  rt_state : s_state s = SExpectingClientHello;
  rt_hash : e_hash e (n_cipher n) = Ok h;
  rt_hctx : exists hc, s_hctx s = Some hc /\ hc_hash hc = h /\ transcript e h log (hc_data hc);
  rt_write : s_write s = Some WPlain;
  rt_hsRead : s_hsRead s = None;
  rt_ks : s_ks s = None;
  rt_version : s_version s = Some (n_version n);
  rt_cipher : s_cipher s = Some (n_cipher n);
  rt_group : s_group s = Some g;
  rt_kex : s_kexType s = Some KexHRR;
  rt_early : s_early s = Some ed /\ ed <> EdAccepted;
  rt_chain : s_chain s = None;
  rt_cert : s_clientCert s = None;
  rt_unparsed : exists r, s_read s = Some r }.

Lemma ccs_filter sid : filter is_hs (ccs_if sid) = [].
Proof. destruct sid; reflexivity. Qed.

Lemma retried_state e log s : retried e log s -> exists n g ed h, retry_state e log s n g ed h.
Proof.
  intros (log1 & s1 & w & c & orig & s2 & outs & W & r & Hf & Hh & Es & -> & HW & ->).
  pose proof (fresh_transcript e) as Hft. pose proof (fresh_hctx _ _ Hf) as Hc.
  destruct Hf as (r0 & E0 & Hw0).
  apply handle_hello_facts in Hh. destruct Hh as [d sni E1 E2 E3|n sid h k hc alpn skew ed early g HF Hm Eg Eg0 Eck HR|n sid h k hc alpn skew ed early kt group kex HF Hm HR].
  - subst s2. discriminate.
  - apply hello_retry_facts in HR. destruct HR as (h' & m & hrr0 & hrr & b & wl & ct & R1 & R2 & R3 & R4 & R5 & R6 & R7 & R8 & R9).
    assert (h' = h) as ->. { destruct (hf_setup _ _ _ _ _ _ _ _ _ _ _ _ _ _ HF). congruence. }
    assert (Htr : hc_hash hc = h /\ transcript e h (log1 ++ [recv_hello w c orig]) (hc_data hc)).
    { eapply hello_transcript; [exact HF|]. rewrite Hc. eapply Hft. exists r0. eauto. }
    destruct Htr as [Hhc Htr].
    exists n, g, (match ed with EdAccepted => EdRejected | x => x end), h.
    assert (wl = WPlain) as -> by (subst s1; cbn in R6; congruence).
    destruct (wl_write WPlain 22 [b]) as [wl' rr] eqn:Ewl. cbn [snd] in R7. subst rr.
    apply wl_write_content in Ewl. destruct Ewl as (W1 & W2 & W3 & _).
    subst s2 s1. constructor; try reflexivity; try assumption.
    + exists (mkHc h (m ++ b)). split; [reflexivity|]. split; [reflexivity|]. cbn [hc_data].
      rewrite app_assoc. apply transcript_quiet; [|apply waits_quiet, HW].
      subst outs. unfold hello_log. cbn [map].
      replace (log1 ++ [Recv w (EvHandshake (MClientHello c) orig); Emit (OWrite (ct :: ccs_if sid))])
        with ((log1 ++ [recv_hello w c orig]) ++ [Emit (OWrite (ct :: ccs_if sid))]) by (rewrite <- app_assoc; reflexivity).
      eapply tr_snoc; [exact Htr|]. cbn [tstep filter]. unfold is_hs at 1. rewrite W1, N.eqb_refl, ccs_filter, W3. apply encode_message_hash in R2. destruct R2 as (x & [= <-] & ->).
      cbn [concat] in W2. rewrite app_nil_r in W2. rewrite W2. unfold hc_context. rewrite Hhc. reflexivity.
    + split; [destruct ed; reflexivity|]. destruct ed; discriminate.
    + eexists. reflexivity.
  - exfalso. destruct HR as [(k2 & exts & random & sh0 & sh & rtry & bsh & hws & hwl & hrs & hrl & bee & reqExts & creq & scert & ccert & scheme & auth & hc4 & bfin & hc5 & enc & wl & ct & k3 & ems & k4 & aws & awl & F)].
    cbv zeta in F. decompose [and] F. clear F.
    match goal with H : _ \/ _ |- _ => destruct H as [(ets & erl & eexp & _ & _ & _ & [(_ & E)|(_ & E)])|(_ & _ & E)] end;
      subst s2; cbn in Es; try discriminate.
    match type of Es with (if ?q then _ else _) = _ => destruct q; discriminate end.
Qed.

Lemma awaiting_hctx e log s h : awaiting e log s -> (forall c, s_cipher s = Some c -> e_hash e c = Ok h) ->
  match s_hctx s with
  | Some p => hc_hash p = h /\ transcript e h log (hc_data p)
  | None => transcript e h log []
  end.
Proof.
  intros [Hf|Hr] Hh.
  - rewrite (fresh_hctx _ _ Hf). eapply fresh_transcript, Hf.
  - destruct (retried_state _ _ _ Hr) as (n & g & ed & h' & R). destruct (rt_hctx _ _ _ _ _ _ _ R) as (hc & -> & H1 & H2).
    assert (h' = h) as ->. { pose proof (Hh _ (rt_cipher _ _ _ _ _ _ _ R)). pose proof (rt_hash _ _ _ _ _ _ _ R). congruence. }
    auto.
Qed.
Lemma awaiting_write e log s : awaiting e log s -> s_write s = Some WPlain.
Proof. intros [(r & -> & _)|Hr]; [reflexivity|]. destruct (retried_state _ _ _ Hr) as (n & g & ed & h' & R). apply R. Qed.
Lemma awaiting_misc e log s : awaiting e log s ->
  s_state s = SExpectingClientHello /\ s_hsRead s = None /\ s_chain s = None /\ s_clientCert s = None /\ s_ks s = None /\
  (s_early s = None \/ exists ed, s_early s = Some ed /\ ed <> EdAccepted /\ s_kexType s = Some KexHRR).
Proof.
  intros [(r & -> & _)|Hr]; [cbn; auto 10|]. destruct (retried_state _ _ _ Hr) as (n & g & ed & h' & R).
  destruct (rt_early _ _ _ _ _ _ _ R) as [E1 E2].
  split; [apply R|]. split; [apply R|]. split; [apply R|]. split; [apply R|]. split; [apply R|]. right. exists ed.
  split; [exact E1|]. split; [exact E2|apply R].
Qed.

(** ** The server's flight *)
Definition psk_of (h : hashalg) (r : option resstate) : bytes :=
  match r with Some r => match rs_secret r with Some p => p | None => [] end | None => Zero h end.
Definition dh_of (h : hashalg) (kex : option (bytes * bytes)) : bytes := match kex with Some (_, dh) => dh | None => Zero h end.

Record flight_ok (e : env) (log : list entry) (w : world) (c : ClientHello) (orig : bytes) (s2 : sstate) (outs : list out)
    (n : neg) (ed : earlytype) (kex : option (bytes * bytes)) (h : hashalg) (Tch sh fl : bytes) : Prop := mkFO {
  fo_hash : e_hash e (n_cipher n) = Ok h;
  fo_version : s_version s2 = Some (n_version n);
  fo_cipher : s_cipher s2 = Some (n_cipher n);
  fo_tch : transcript e h (log ++ [recv_hello w c orig]) Tch;
  fo_transcript : transcript e h (log ++ hello_log w c orig outs) (Tch ++ sh ++ fl);
  fo_outs : exists pre cs post,
    let psk := psk_of h (n_res n) in let dh := dh_of h kex in
    outs = pre ++ [OSecret' SkClientHs (client_hs_secret h psk dh (Tch ++ sh)); OSecret' SkServerHs (server_hs_secret h psk dh (Tch ++ sh));
                   OSecret' SkServerApp (server_traffic h (mkTr psk dh (h_fn h (Tch ++ sh ++ fl)) 0 0)); OWrite cs] ++ post /\
    flight cs sh fl /\
    ((ed <> EdAccepted /\ pre = [] /\ post = []) \/
     (ed = EdAccepted /\ post = [OEarlySuccess] /\
      pre = [OSecret' SkEarly (DeriveSecret h (EarlySecret h psk) (str "c e traffic") (h_fn h Tch))]));
  fo_hctx : s_hctx s2 = Some (mkHc h (Tch ++ sh ++ fl));
  fo_ks : exists k, s_ks s2 = Some (h, k) /\
    rel h k (Master (psk_of h (n_res n)) (dh_of h kex), Some (mkTr (psk_of h (n_res n)) (dh_of h kex) (h_fn h (Tch ++ sh ++ fl)) 0 0));
  fo_secret : s_clientHsSecret s2 = Some (client_hs_secret h (psk_of h (n_res n)) (dh_of h kex) (Tch ++ sh));
  fo_exporter : s_exporter s2 = Some (DeriveSecret h (MasterSecret h (psk_of h (n_res n)) (dh_of h kex)) (str "exp master")
                                        (h_fn h (Tch ++ sh ++ fl)));
  fo_write : exists ws, s_write s2 = Some (WEnc LvAppTraffic ws) /\ ws_seq ws = 0 /\
    keyed e h (n_cipher n) (server_traffic h (mkTr (psk_of h (n_res n)) (dh_of h kex) (h_fn h (Tch ++ sh ++ fl)) 0 0)) (ws_aead ws);
  fo_read : match s_state s2 with
    | SAcceptingEarlyData =>
        read_keyed e h (n_cipher n) (DeriveSecret h (EarlySecret h (psk_of h (n_res n))) (str "c e traffic") (h_fn h Tch)) (s_read s2) /\
        read_keyed e h (n_cipher n) (client_hs_secret h (psk_of h (n_res n)) (dh_of h kex) (Tch ++ sh)) (s_hsRead s2) /\
        ed = EdAccepted /\ e_omitEarly e = false
    | SExpectingCertificate => 
        read_keyed e h (n_cipher n) (client_hs_secret h (psk_of h (n_res n)) (dh_of h kex) (Tch ++ sh)) (s_read s2) /\
        ed <> EdAccepted /\ n_res n = None /\ e_authMode e <> AuthNone
    | SExpectingFinished => 
        read_keyed e h (n_cipher n) (client_hs_secret h (psk_of h (n_res n)) (dh_of h kex) (Tch ++ sh)) (s_read s2) /\
        (e_authMode e <> AuthNone -> n_res n <> None)
    | _ => False
    end;
  fo_chain : s_chain s2 = None;
  fo_cert : s_clientCert s2 = match n_res n with Some r => rs_clientCert r | None => None end;
  fo_fin : exists pre, fl = pre ++ be 1 20 ++ be 3 (h_len h) ++
             verify_data h (server_hs_secret h (psk_of h (n_res n)) (dh_of h kex) (Tch ++ sh)) (Tch ++ sh ++ pre) }.

Lemma write_flight_content wl lv ws msgs ct : wl = WEnc lv ws -> write_flight wl msgs = Ok ct ->
  ct_level ct = lv /\ ct_type ct = 22 /\ ct_plain ct = concat msgs.
Proof.
  intros -> H. unfold write_flight in H. destruct (split_at_most 1000 msgs) as [a b] eqn:Es.
  apply split_at_most_spec in Es. destruct Es as (Es & _).
  destruct (wl_write (WEnc lv ws) 22 a) as [wl1 r1] eqn:E1. bo H c1 Ec. subst r1.
  destruct (wl_write_content _ _ _ _ _ E1) as (A1 & A2 & A3 & ws' & -> & _).
  destruct (queue_empty b) eqn:Eb.
  - injection H as <-. apply queue_empty_iff in Eb. rewrite A2, <- Es, Eb, app_nil_r. auto.
  - destruct (wl_write (WEnc lv ws') 22 b) as [wl2 r2] eqn:E2. cbn [snd] in H. bo H c2 Ec2. subst r2.
    destruct (wl_write_content _ _ _ _ _ E2) as (B1 & B2 & B3 & _).
    destruct (ct_data c1), (ct_data c2); try discriminate. injection H as <-. cbn. rewrite A2, B2, <- Es. auto.
Qed.

Lemma spec_kdo_dh h k k2 kex psk : hash_ok h -> (rel h k (Early psk, None) \/ (rel h k (Start, None) /\ psk = Zero h /\ kex <> None)) ->
  (match kex with Some (_, dh) => kdo h k (DeriveHandshakeDH dh) | None => kdo h k DeriveHandshake end) = Ok k2 ->
  rel h k2 (Handshake psk (dh_of h kex), None).
Proof.
  intros Hh Hr H. destruct kex as [[share dh]|]; cbn [dh_of].
  - destruct Hr as [Hr|(Hr & -> & _)].
    + destruct (kdo_rel _ _ _ (DeriveHandshakeDH dh) _ Hh Hr I H) as (st' & o & E & Hr'). injection E as <- <-. exact Hr'.
    + destruct (kdo_rel _ _ _ (DeriveHandshakeDH dh) _ Hh Hr I H) as (st' & o & E & Hr'). injection E as <- <-. exact Hr'.
  - destruct Hr as [Hr|(Hr & -> & Hn)]; [|congruence].
    destruct (kdo_rel _ _ _ DeriveHandshake _ Hh Hr I H) as (st' & o & E & Hr'). injection E as <- <-. exact Hr'.
Qed.

Lemma DeriveSecret_len h s l t : hash_ok h -> blen (DeriveSecret h s l t) = h_len h.
Proof. intros Hh. unfold DeriveSecret. apply ExpandLabel_len, Hh. Qed.

(** ** What a ServerHello says *)
Lemma negotiate_In server client v : negotiate server client = Some v -> In v server /\ In v client.
Proof.
  intros H. pose proof (C29_flat server client) as X. rewrite H in X. destruct X as (l1 & l2 & -> & Hc & _).
  split; [apply in_or_app; right; left; reflexivity|exact Hc].
Qed.
Lemma negotiateVersion_In c l v : negotiateVersion c l = Ok (Some v) -> In v l.
Proof.
  unfold negotiateVersion. intros H. bo H x Ex. destruct x as [[]|]; try discriminate. injection H as H. apply negotiate_In in H. apply H.
Qed.
Lemma negotiateGroup_In e c g sh : negotiateGroup e c = Ok (g, sh) -> In g (e_groups e).
Proof.
  unfold negotiateGroup. intros H. bo H x Ex. destruct x as [[]|]; try discriminate.
  destruct (negotiate (e_groups e) l) as [g'|] eqn:En; [|discriminate]. apply negotiate_In in En. bo H y Ey. destruct y as [[]|]; try discriminate.
  bo H u Eu. assert (g' = g) as <-; [|apply En]. destruct (findShare g' l0) as [b|]; [bo H d Ed|]; congruence.
Qed.
Lemma ext_type_of x e : encodeExtension x = Ok e -> ext_type e = kind_type (kind_of x).
Proof. unfold encodeExtension. intros H. bo H b E. injection H as <-. reflexivity. Qed.
Lemma getExtension_none k l : no_type (kind_type k) l = true -> getExtension k l = Ok None.
Proof.
  intros H. unfold getExtension, findExtension. assert (find (fun e => ext_type e =? kind_type k) l = None) as ->; [|reflexivity].
  induction l as [|x l IH]; [reflexivity|]. cbn in H |- *. apply andb_true_iff in H. destruct H as [H1 H2]. apply negb_true_iff in H1. rewrite H1. auto.
Qed.
Lemma getServerHello_says v r c psk share sid m : v < 2 ^ 16 -> (forall g b, share = Some (g, b) -> g < 2 ^ 16) ->
  getServerHello v r c psk share sid = Ok m ->
  sh_suite m = c /\
  getExtension KServerSupportedVersions (sh_extensions m) = Ok (Some (XServerSupportedVersions v)) /\
  getExtension KServerKeyShare (sh_extensions m) = Ok (match share with Some (g, b) => Some (XServerKeyShare (g, Some b)) | None => None end) /\
  getExtension KServerPresharedKey (sh_extensions m) = Ok (if psk then Some (XServerPresharedKey 0) else None).
Proof.
  intros Hv Hg H. unfold getServerHello in H. bo H e1 E1. bo H e2 E2. bo H e3 E3. injection H as <-. cbn [sh_suite sh_extensions].
  assert (T1 := ext_type_of _ _ E1). cbn [kind_of kind_type] in T1.
  assert (X1 : no_type 51 [e1] = true /\ no_type 41 [e1] = true) by (unfold no_type; cbn; rewrite T1; auto).
  assert (X2 : no_type 41 (e1 :: e2) = true).
  { destruct share as [[g b]|].
    - bo E2 x Ex. injection E2 as <-. pose proof (ext_type_of _ _ Ex) as T. cbn [kind_of kind_type] in T. unfold no_type; cbn. rewrite T1, T. reflexivity.
    - injection E2 as <-. apply X1. }
  assert (X3 : no_type 51 e3 = true /\ no_type 43 e3 = true).
  { destruct psk; [|injection E3 as <-; auto]. bo E3 x Ex. injection E3 as <-. pose proof (ext_type_of _ _ Ex) as T. cbn [kind_of kind_type] in T. unfold no_type; cbn. rewrite T. auto. }
  split; [reflexivity|]. split; [|split].
  - apply (C04_extension_roundtrip (XServerSupportedVersions v) e1 []); [|exact E1|reflexivity]. cbn. unfold in_u. lia.
  - destruct share as [[g b]|].
    + bo E2 x Ex. injection E2 as <-. apply (C04_extension_roundtrip (XServerKeyShare (g, Some b)) x [e1] e3); [|exact Ex|apply X1].
      specialize (Hg _ _ eq_refl). cbn [wf_x]. unfold wf_nb, in_u. cbn [fst snd nonnull]. rewrite andb_true_r. apply N.ltb_lt. exact Hg.
    + injection E2 as <-. cbn [app]. apply getExtension_none. cbn [kind_type]. unfold no_type in *. cbn [forallb] in *. rewrite T1. cbn. apply X3.
  - destruct psk.
    + bo E3 x Ex. injection E3 as <-. apply (C04_extension_roundtrip (XServerPresharedKey 0) x (e1 :: e2) []); [reflexivity|exact Ex|exact X2].
    + injection E3 as <-. rewrite app_nil_r. apply getExtension_none. exact X2.
Qed.

Lemma encoded_form x y : encodeExtension x = Ok y -> ext_type y < 2 ^ 16 /\ ext_data y <> None.
Proof. unfold encodeExtension. intros H. bo H b E. injection H as <-. split; [destruct x; reflexivity|discriminate]. Qed.
Lemma flight_facts e log s w c orig s2 outs : env_ok e -> awaiting e log s -> handle_hello e w s c orig = Ok (s2, outs) ->
  s_state s2 <> SExpectingClientHello -> s_state s2 <> SError ->
  exists n sid h k hc alpn skew ed early kt group kex sh fl,
    hello_facts e w s c orig n sid h k hc alpn skew ed early /\
    ((n_pskMode n = Some 0 /\ kt = KexNone /\ group = None /\ kex = None) \/
     (n_pskMode n <> Some 0 /\ exists g cs kx, negotiateGroup e (n_hello n) = Ok (g, Some cs) /\ w_kex w g cs = Ok kx /\
        group = Some g /\ kex = Some kx /\ kt = match s_kexType s with Some t => t | None => KexOneRtt end)) /\
    finish_facts e w s n sid (match n_res n with Some r => rs_hsTime r | None => w_now w end) h k hc alpn skew ed early kt group kex s2 outs /\
    flight_ok e log w c orig s2 outs n ed kex h (hc_data hc) sh fl /\
    (exists m, encodeHandshake (MServerHello m) = Ok sh /\
       hello_says m (n_version n) (n_cipher n) (match group, kex with Some g, Some (b, _) => Some (g, b) | _, _ => None end)
         (match n_res n with Some _ => true | None => false end) /\ hello_form w m).
Proof.
  intros He Ha Hh N1 N2. apply handle_hello_facts in Hh.
  destruct Hh as [d sni E1 E2 E3|n sid h k hc alpn skew ed early g HF Hm Eg Eg0 Eck HR|n sid h k hc alpn skew ed early kt group kex HF Hm HR].
  { subst s2. contradiction. }
  { apply hello_retry_facts in HR. destruct HR as (h' & m & hrr0 & hrr & b & wl & ct & R1 & R2 & R3 & R4 & R5 & R6 & R7 & R8 & R9).
    subst s2. contradiction. }
  pose proof HR as HR0.
  destruct HR as [(k2 & exts & random & sh0 & sh & rtry & bsh & hws & hwl & hrs & hrl & bee & reqExts & creq & scert & ccert & scheme & auth & hc4 & bfin & hc5 & enc & wl & ct & k3 & ems & k4 & aws & awl & F)].
  cbv zeta in F.
  set (ra := match e_authMode e, n_res n with AuthNone, _ => false | _, Some _ => false | _, None => true end) in *.
  destruct F as (F1 & F2 & F3 & F4 & F5 & F6 & F7 & F8 & F9 & F10 & F11 & F12 & F13 & F14 & F15 & F16 & F17 & F18 & F19 & F20 & F21 & F22 & F23 & F24 & F25 & F26).
  pose proof (hf_setup _ _ _ _ _ _ _ _ _ _ _ _ _ _ HF) as HS. destruct HS as [Eh (hc0 & S1 & S2 & S3)].
  pose proof (eo_hash e He _ _ Eh) as Hok.
  pose proof (hf_neg _ _ _ _ _ _ _ _ _ _ _ _ _ _ HF) as HN.
  assert (Htr : hc_hash hc = h /\ transcript e h (log ++ [recv_hello w c orig]) (hc_data hc)).
  { eapply hello_transcript; [exact HF|]. apply awaiting_hctx; [exact Ha|].
    intros ci Hci. rewrite <- (nf_samecipher _ _ _ _ _ _ HN _ Hci). exact Eh. }
  destruct Htr as [Hhc Htr].
  set (psk := psk_of h (n_res n)). set (dh := dh_of h kex).
  (* key schedule *)
  assert (Hk : rel h k (Early psk, None) \/ (rel h k (Start, None) /\ psk = Zero h /\ kex <> None)).
  { unfold psk, psk_of. destruct (n_res n) as [r|] eqn:En.
    - left. destruct S3 as (p & bk & bl & ids & b & bs & ex & T1 & T2 & _). rewrite T1.
      destruct (kdo_rel _ _ _ (DeriveEarly p) _ Hok (rel_init h) I T2) as (st' & o & E & Hr'). injection E as <- <-. exact Hr'.
    - right. subst k. split; [apply rel_init|]. split; [reflexivity|].
      pose proof (nf_psk _ _ _ _ _ _ HN) as Hp. rewrite En in Hp.
      destruct Hm as [(X & _)|(_ & g & cs & kx & _ & _ & _ & -> & _)]; [congruence|discriminate]. }
  pose proof (spec_kdo_dh h k k2 kex psk Hok Hk F1) as Hk2. fold dh in Hk2.
  assert (C1 : hc_context (hc_append hc bsh) = h_fn h (hc_data hc ++ bsh)) by (unfold hc_context; cbn; rewrite Hhc; reflexivity).
  assert (Ehws : hws = server_hs_secret h psk dh (hc_data hc ++ bsh)).
  { assert (Ho : op_ok h (GetHandshake ServerHandshakeTraffic (hc_context (hc_append hc bsh)))).
    { cbn [op_ok]. rewrite hc_ctx_len; cbn [hc_append hc_hash]; rewrite Hhc; auto. }
    destruct (kget_rel _ _ _ _ _ Hok Hk2 Ho F10) as (st & E). cbn [spec_step] in E. rewrite C1 in E. unfold server_hs_secret. cbn [hs_spec] in E. congruence. }
  assert (Ehrs : hrs = client_hs_secret h psk dh (hc_data hc ++ bsh)).
  { assert (Ho : op_ok h (GetHandshake ClientHandshakeTraffic (hc_context (hc_append hc bsh)))).
    { cbn [op_ok]. rewrite hc_ctx_len; cbn [hc_append hc_hash]; rewrite Hhc; auto. }
    destruct (kget_rel _ _ _ _ _ Hok Hk2 Ho F12) as (st & E). cbn [spec_step] in E. rewrite C1 in E. unfold client_hs_secret. cbn [hs_spec] in E. congruence. }
  (* transcript *)
  set (reqs := if ra then [creq] else []) in *.
  assert (H4 : hc4 = mkHc h (hc_data hc ++ bsh ++ concat (bee :: reqs ++ auth))).
  { assert (H3 : (if ra then hc_append (hc_append (hc_append hc bsh) bee) creq else hc_append (hc_append hc bsh) bee) =
                 mkHc h (hc_data hc ++ bsh ++ bee ++ concat reqs)).
    { unfold reqs. destruct ra; unfold hc_append; cbn; rewrite Hhc; rewrite ?app_nil_r, <- ?app_assoc; reflexivity. }
    rewrite H3 in F16. destruct (n_res n).
    - destruct F16 as (_ & _ & _ & -> & ->). cbn [concat app]. rewrite app_nil_r. reflexivity.
    - destruct F16 as (cert & sch & m & sig & hc' & v & G1 & G2 & _ & _ & _ & -> & ->).
      assert (hc' = hc_append (mkHc h (hc_data hc ++ bsh ++ bee ++ concat reqs)) m).
      { unfold server_auth in G1. apply bind_Ok in G1. destruct G1 as ((so & sc) & P1 & G1). bo G1 algo P2.
        destruct (so_async so) as [f|].
        - apply bind_Ok in G1. destruct G1 as ((m' & sig') & P3 & G1). congruence.
        - bo G1 m' P3. bo G1 sig' P4. congruence. }
      subst hc'. unfold hc_append. cbn [hc_hash hc_data]. f_equal. cbn [concat]. rewrite concat_app. cbn [concat]. rewrite app_nil_r, <- !app_assoc. reflexivity. }
  assert (Hf : exists vd, bfin = be 1 20 ++ be 3 (h_len h) ++ vd /\ vd = verify_data h hws (hc_data hc4) /\ hc5 = hc_append hc4 bfin).
  { unfold getFinished in F17. bo F17 v P1. bo F17 m P2. injection F17 as <- <-. apply encode_shape in P2. destruct P2 as (body & [= ->] & ->).
    rewrite finished_ok in P1; [|subst hc4; exact Hok|subst hc4 hws; apply DeriveSecret_len, Hok].
    assert (body = verify_data (hc_hash hc4) hws (hc_data hc4)) as -> by congruence.
    assert (hc_hash hc4 = h) as -> by (subst hc4; reflexivity).
    exists (verify_data h hws (hc_data hc4)). split; [|auto]. cbn [hs_type].
    assert (blen (verify_data h hws (hc_data hc4)) = h_len h) as -> by (apply HMAC_len, Hok). reflexivity. }
  destruct Hf as (vd & Hfin & Hvd & H5).
  set (fl := concat (bee :: reqs ++ auth ++ [bfin])).
  assert (Hfl : fl = concat (bee :: reqs ++ auth) ++ bfin).
  { unfold fl. rewrite app_assoc. rewrite app_comm_cons, concat_app. cbn [concat]. rewrite app_nil_r. reflexivity. }
  assert (H5' : hc5 = mkHc h (hc_data hc ++ bsh ++ fl)).
  { rewrite H5, H4. unfold hc_append. cbn [hc_hash hc_data]. rewrite Hfl, <- !app_assoc. reflexivity. }
  assert (C5 : hc_context hc5 = h_fn h (hc_data hc ++ bsh ++ fl)) by (rewrite H5'; reflexivity).
  assert (Hc5 : blen (hc_context hc5) = h_len h) by (rewrite C5; apply (ho_digest _ Hok)).
  destruct (kdo_rel _ _ _ DeriveMaster _ Hok Hk2 I F21) as (st3 & o3 & E3 & Hk3). injection E3 as <- <-.
  destruct (kget_rel _ _ _ (GetMaster ExporterMaster (hc_context hc5)) _ Hok Hk3 Hc5 F22) as (st & Eems). cbn [spec_step] in Eems.
  assert (Ee : ems = master_spec h ExporterMaster (MasterSecret h psk dh) (hc_context hc5)) by congruence. clear Eems st.
  destruct (kdo_rel _ _ _ (DeriveApp (hc_context hc5)) _ Hok Hk3 Hc5 F23) as (st4 & o4 & E4 & Hk4). cbn [spec_step] in E4. injection E4 as <- <-.
  destruct (kget_rel _ _ _ (GetApp ServerAppTraffic) _ Hok Hk4 I F24) as (st & Eaws). cbn [spec_step] in Eaws.
  assert (Ea : aws = server_traffic h (mkTr psk dh (hc_context hc5) 0 0)) by congruence. clear Eaws st.
  (* layers *)
  destruct (new_write_keyed _ _ _ _ _ _ _ He Hok (eq_trans (f_equal blen Ehws) (DeriveSecret_len _ _ _ _ Hok)) F11) as (wsh & -> & _ & _).
  assert (La : blen aws = h_len h) by (rewrite Ea; apply st_len, Hok).
  destruct (new_write_keyed _ _ _ _ _ _ _ He Hok La F25) as (wsa & -> & Hka & Hsq).
  destruct (new_read_keyed _ _ _ _ _ _ _ He Hok (eq_trans (f_equal blen Ehrs) (DeriveSecret_len _ _ _ _ Hok)) F13) as (Hkr & _).
  destruct (write_flight_content _ _ _ _ _ eq_refl F18) as (X1 & X2 & X3). fold reqs in X3. fold fl in X3.
  assert (wl = WPlain) as -> by (pose proof (awaiting_write _ _ _ Ha); congruence).
  destruct (wl_write WPlain 22 [bsh]) as [wl' rr] eqn:Ewl. cbn [snd] in F20. subst rr.
  apply wl_write_content in Ewl. destruct Ewl as (W1 & W2 & W3 & _). cbn [concat] in W2. rewrite app_nil_r in W2.
  assert (HFl : flight (ct :: ccs_if sid ++ [enc]) bsh fl).
  { exists ct, enc. split; [|auto]. cbn [filter]. unfold is_hs at 1. rewrite W1, N.eqb_refl. f_equal.
    rewrite filter_app, ccs_filter. cbn. unfold is_hs. rewrite X2. reflexivity. }
  pose proof (awaiting_misc _ _ _ Ha) as (M1 & M2 & M3 & M4 & M5 & M6).
  (* early keys *)
  assert (Hearly : forall ets erl eexp, early = Some (ets, erl, eexp) ->
     ets = DeriveSecret h (EarlySecret h psk) (str "c e traffic") (h_fn h (hc_data hc)) /\
     (e_omitEarly e = false -> read_keyed e h (n_cipher n) ets erl)).
  { intros ets erl eexp ->. pose proof (hf_early _ _ _ _ _ _ _ _ _ _ _ _ _ _ HF) as Hx. destruct ed; try discriminate.
    destruct Hx as (x & Ex & Hx). injection Hx as <-. unfold early_keys in Ex. bo Ex t Et. bo Ex rd Erd. bo Ex xx Exx. injection Ex as <- <- <-.
    assert (Cc : hc_context hc = h_fn h (hc_data hc)) by (unfold hc_context; rewrite Hhc; reflexivity).
    assert (Lc : blen (hc_context hc) = h_len h) by (rewrite Cc; apply (ho_digest _ Hok)).
    assert (Ett : t = DeriveSecret h (EarlySecret h psk) (str "c e traffic") (h_fn h (hc_data hc))).
    { rewrite <- Cc. destruct Hk as [Hk|(Hk & _)].
      - destruct (kget_rel _ _ _ (GetEarly ClientEarlyTraffic (hc_context hc)) _ Hok Hk Lc Et) as (st & E). cbn [spec_step early_spec] in E. congruence.
      - destruct (kget_rel _ _ _ (GetEarly ClientEarlyTraffic (hc_context hc)) _ Hok Hk Lc Et) as (st & E). discriminate. }
    split; [exact Ett|]. intros Ho. rewrite Ho in Erd. bo Erd r Er. injection Erd as <-.
    assert (Lt : blen t = h_len h) by (rewrite Ett; apply DeriveSecret_len, Hok).
    destruct (new_read_keyed _ _ _ _ _ _ _ He Hok Lt Er) as (X & _). exact X. }
  exists n, sid, h, k, hc, alpn, skew, ed, early, kt, group, kex, bsh, fl.
  split; [exact HF|]. split; [exact Hm|]. split; [exact HR0|].
  assert (Hsecrets : [OSecret' SkClientHs hrs; OSecret' SkServerHs hws; OSecret' SkServerApp aws] =
     [OSecret' SkClientHs (client_hs_secret h psk dh (hc_data hc ++ bsh)); OSecret' SkServerHs (server_hs_secret h psk dh (hc_data hc ++ bsh));
      OSecret' SkServerApp (server_traffic h (mkTr psk dh (h_fn h (hc_data hc ++ bsh ++ fl)) 0 0))]).
  { rewrite Ehrs, Ehws, Ea, C5. reflexivity. }
  assert (Houts : exists pre post,
     outs = pre ++ [OSecret' SkClientHs (client_hs_secret h psk dh (hc_data hc ++ bsh)); OSecret' SkServerHs (server_hs_secret h psk dh (hc_data hc ++ bsh));
      OSecret' SkServerApp (server_traffic h (mkTr psk dh (h_fn h (hc_data hc ++ bsh ++ fl)) 0 0)); OWrite (ct :: ccs_if sid ++ [enc])] ++ post /\
      ((ed <> EdAccepted /\ pre = [] /\ post = []) \/
       (ed = EdAccepted /\ post = [OEarlySuccess] /\
        pre = [OSecret' SkEarly (DeriveSecret h (EarlySecret h psk) (str "c e traffic") (h_fn h (hc_data hc)))]))).
  { destruct F26 as [(ets & erl & eexp & Eed & Eer & -> & _)|(Hned & -> & _)].
    - destruct (Hearly _ _ _ Eer) as [-> _]. eexists [_], [_]. split; [|right; auto]. rewrite Hsecrets. reflexivity.
    - exists [], []. split; [|left; auto]. rewrite Hsecrets. reflexivity. }
  destruct Houts as (pre & post & Houts & Hpp).
  split.
  2:{ exists sh. split; [exact F9|].
      assert (Hsame : sh_suite sh = sh_suite sh0 /\ sh_extensions sh = sh_extensions sh0).
      { destruct (n_ech n); try (assert (sh = sh0) as -> by congruence; auto). unfold setAcceptSH in F7. bo F7 a Ea'. assert (sh = _) as -> by (symmetry; injection F7 as F7; exact F7). auto. }
      split.
      2:{ unfold getServerHello in F6. bo F6 e1 Q1. bo F6 e2 Q2. bo F6 e3 Q3.
          assert (Q : sh_version sh0 = 771 /\ sh_session_id sh0 = Some sid /\ sh_compression sh0 = 0 /\ sh_random sh0 = random /\ sh_extensions sh0 = e1 :: e2 ++ e3)
            by (injection F6 as <-; auto). clear F6. destruct Q as (U1 & U2 & U3 & U4 & U5).
          assert (V : sh_version sh = 771 /\ sh_session_id sh = Some sid /\ sh_compression sh = 0 /\ (8 <= blen random -> blen (sh_random sh) = blen random)).
          { destruct (n_ech n); try (assert (sh = sh0) as -> by congruence; rewrite U4; auto).
            assert (W : sh_version sh = sh_version sh0 /\ sh_session_id sh = sh_session_id sh0 /\ sh_compression sh = sh_compression sh0).
            { unfold setAcceptSH in F7. bo F7 a Ea'. injection F7 as <-. auto. }
            destruct W as (-> & -> & ->). split; [exact U1|]. split; [exact U2|]. split; [exact U3|]. intros Hr. rewrite <- U4 in Hr.
            destruct (PropsEch.C42_set_check _ _ _ _ _ Hok Hhc Hr F7) as (_ & tl & Ht & pre0 & old0 & B1 & B2 & B3 & _).
            rewrite <- U4, B1, B3, !blen_app. lia. }
          destruct V as (V1 & V2 & V3 & V4). split; [exact V1|]. split; [rewrite V2; discriminate|]. split; [exact V3|]. split; [exists random; auto|].
          destruct Hsame as [_ ->]. rewrite U5. clear -Q1 Q2 Q3.
          constructor; [exact (encoded_form _ _ Q1)|]. apply Forall_app. split.
          - destruct (match group with Some _ => _ | None => _ end) as [[g b]|]; [bo Q2 x E; injection Q2 as <-; constructor; [exact (encoded_form _ _ E)|constructor]|injection Q2 as <-; constructor].
          - destruct (n_res n); [bo Q3 x E; injection Q3 as <-; constructor; [exact (encoded_form _ _ E)|constructor]|injection Q3 as <-; constructor]. }
      unfold hello_says. destruct Hsame as [-> ->]. eapply getServerHello_says; [| |exact F6].
      - eapply (proj1 (Forall_forall _ _) (eo_versions e He)). eapply negotiateVersion_In, (nf_version _ _ _ _ _ _ HN).
      - intros g b Hgb. destruct group as [g'|]; [|discriminate]. destruct kex as [[b' dh']|]; [|discriminate]. injection Hgb as <- <-.
        destruct Hm as [(_ & _ & X & _)|(_ & g0 & cs & kx & Hg & _ & X & _)]; [discriminate|]. injection X as ->.
        eapply (proj1 (Forall_forall _ _) (eo_groups e He)). eapply negotiateGroup_In, Hg. }
  constructor; fold psk; fold dh.
  - exact Eh.
  - destruct F26 as [(ets & erl & eexp & _ & _ & _ & [(_ & ->)|(_ & ->)])|(_ & _ & ->)]; reflexivity.
  - destruct F26 as [(ets & erl & eexp & _ & _ & _ & [(_ & ->)|(_ & ->)])|(_ & _ & ->)]; reflexivity.
  - exact Htr.
  - rewrite Houts. unfold hello_log. fold (recv_hello w c orig).
    replace (log ++ recv_hello w c orig :: map Emit (pre ++ [OSecret' SkClientHs (client_hs_secret h psk dh (hc_data hc ++ bsh)); OSecret' SkServerHs (server_hs_secret h psk dh (hc_data hc ++ bsh));
      OSecret' SkServerApp (server_traffic h (mkTr psk dh (h_fn h (hc_data hc ++ bsh ++ fl)) 0 0)); OWrite (ct :: ccs_if sid ++ [enc])] ++ post))
     with ((((log ++ [recv_hello w c orig]) ++ map Emit (pre ++ [OSecret' SkClientHs (client_hs_secret h psk dh (hc_data hc ++ bsh)); OSecret' SkServerHs (server_hs_secret h psk dh (hc_data hc ++ bsh));
      OSecret' SkServerApp (server_traffic h (mkTr psk dh (h_fn h (hc_data hc ++ bsh ++ fl)) 0 0))])) ++ [Emit (OWrite (ct :: ccs_if sid ++ [enc]))]) ++ map Emit post)
     by (rewrite !map_app, <- !app_assoc; reflexivity).
    apply transcript_quiet.
    2:{ destruct Hpp as [(_ & _ & ->)|(_ & -> & _)]; reflexivity. }
    eapply tr_snoc.
    { apply transcript_quiet; [exact Htr|]. destruct Hpp as [(_ & -> & _)|(_ & _ & ->)]; reflexivity. }
    destruct HFl as (c1 & c2 & Hfi & L1 & P1 & L2 & P2). cbn [tstep]. rewrite Hfi. cbn [map concat]. rewrite P1, P2, app_nil_r. reflexivity.
  - cbv zeta. exists pre, (ct :: ccs_if sid ++ [enc]), post. auto.
  - rewrite <- H5'. destruct F26 as [(ets & erl & eexp & _ & _ & _ & [(_ & ->)|(_ & ->)])|(_ & _ & ->)]; reflexivity.
  - exists k4. rewrite <- C5. split; [|exact Hk4].
    destruct F26 as [(ets & erl & eexp & _ & _ & _ & [(_ & ->)|(_ & ->)])|(_ & _ & ->)]; reflexivity.
  - rewrite <- Ehrs. destruct F26 as [(ets & erl & eexp & _ & _ & _ & [(_ & ->)|(_ & ->)])|(_ & _ & ->)]; reflexivity.
  - cbn [master_spec] in Ee. rewrite <- C5, <- Ee.
    destruct F26 as [(ets & erl & eexp & _ & _ & _ & [(_ & ->)|(_ & ->)])|(_ & _ & ->)]; reflexivity.
  - exists wsa. rewrite <- C5, <- Ea. split; [|auto].
    destruct F26 as [(ets & erl & eexp & _ & _ & _ & [(_ & ->)|(_ & ->)])|(_ & _ & ->)]; reflexivity.
  - rewrite <- Ehrs. destruct F26 as [(ets & erl & eexp & Eed & Eer & _ & [(Eom & ->)|(Eom & ->)])|(Hned & _ & ->)]; cbn [s_state s_read s_hsRead].
    + split; [exact Hkr|]. intros _ Hn. subst ed.
      pose proof (hf_ed _ _ _ _ _ _ _ _ _ _ _ _ _ _ HF) as Hx. rewrite Hn in Hx. unfold negotiateEarly in Hx. bo Hx o Eo.
      destruct (negb o); [discriminate|]. destruct (negb (acceptEarly e (n_version n))); discriminate.
    + destruct (Hearly _ _ _ Eer) as [<- Hr]. auto.
    + assert (Hra : ra = true -> n_res n = None /\ e_authMode e <> AuthNone).
      { unfold ra. destruct (e_authMode e), (n_res n); intros X; try discriminate; split; congruence. }
      assert (Hra' : ra = false -> e_authMode e <> AuthNone -> n_res n <> None).
      { unfold ra. destruct (e_authMode e), (n_res n); intros; congruence. }
      destruct ra; [destruct (Hra eq_refl); auto|auto].
  - destruct F26 as [(ets & erl & eexp & _ & _ & _ & [(_ & ->)|(_ & ->)])|(_ & _ & ->)]; exact M3.
  - assert (Hc : ccert = match n_res n with Some r => rs_clientCert r | None => None end).
    { destruct (n_res n); [apply F16|]. destruct F16 as (? & ? & ? & ? & ? & ? & _ & _ & _ & X & _). exact X. }
    rewrite <- Hc. destruct F26 as [(ets & erl & eexp & _ & _ & _ & [(_ & ->)|(_ & ->)])|(_ & _ & ->)]; reflexivity.
  - exists (concat (bee :: reqs ++ auth)). rewrite Hfl. f_equal. rewrite Hfin. do 2 f_equal. rewrite Hvd, Ehws, H4. reflexivity.
Qed.
