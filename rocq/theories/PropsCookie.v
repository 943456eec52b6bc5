(** * C25: stateless retry cookies *)
From Verif Require Import Base Codec CodecSpec Handshake HandshakeSpec HandshakeProofs Extensions ExtensionsSpec ExtensionsProofs
  RecordBase Record RecordSpec RecordRT ReadEvent ReadEventProofs Hkdf HkdfSpec HkdfProofs Token Ticket TicketSpec Negotiate Cookie
  PropsRecord PropsKeys PropsTicket.

(** A cookie state whose integers are in range, with an ECH config id whenever there is an ECH suite. *)
Definition ck_ok (s : cookiest) : Prop :=
  ck_version s < 65536 /\ ck_cipher s < 65536 /\ (forall g, ck_group s = Some g -> g < 65536) /\
  (forall k a, ck_echSuite s = Some (k, a) -> k < 65536 /\ a < 65536 /\ exists i, ck_echConfigId s = Some i /\ i < 256).
(** What comes back: null buffers become empty, ECH fields only exist together with the suite. *)
Definition ck_restored (s : cookiest) : cookiest :=
  mkCk (ck_version s) (ck_cipher s) (ck_group s) (Some (bufb (ck_chloHash s))) (Some (bufb (ck_appToken s)))
       (ck_echSuite s) (match ck_echSuite s with Some _ => ck_echConfigId s | None => None end)
       (match ck_echSuite s with Some _ => Some (bufb (ck_echEnc s)) | None => None end).
Definition ck_wire (s : cookiest) : bytes :=
  be 2 (ck_version s) ++ be 2 (ck_cipher s) ++
  (match ck_group s with Some g => be 1 1 ++ be 2 g | None => be 1 0 end) ++
  opaque16 (bufb (ck_chloHash s)) ++ opaque16 (bufb (ck_appToken s)) ++
  (match ck_echSuite s, ck_echConfigId s with
   | Some (k, a), Some i => be 1 1 ++ be 2 k ++ be 2 a ++ be 1 i ++ opaque16 (bufb (ck_echEnc s))
   | _, _ => be 1 0 end).
Definition ck_fits (s : cookiest) : Prop :=
  blen (bufb (ck_chloHash s)) < 65536 /\ blen (bufb (ck_appToken s)) < 65536 /\
  (ck_echSuite s <> None -> blen (bufb (ck_echEnc s)) < 65536).

(** Encoding succeeds exactly when the buffers fit their length fields. *)
Theorem C25_encode : forall s e, ck_ok s ->
  (encodeCookie s = Ok e <-> ck_fits s /\ e = ck_wire s).
Proof.
  intros s e (V & Ci & G & Ec). unfold encodeCookie, ck_fits, ck_wire, write_u. cbn [bind]. split.
  - intros H. apply bind_Ok in H. destruct H as (a3 & E3 & H).
    apply bind_Ok in H. destruct H as (a4 & E4 & H). apply write_buf_inv in E4. destruct E4 as [-> L4].
    apply bind_Ok in H. destruct H as (a5 & E5 & H). apply write_buf_inv in E5. destruct E5 as [-> L5].
    apply bind_Ok in H. destruct H as (a6 & E6 & H).
    match type of H with Ok ?a = Ok ?b => assert (Hab : b = a) by congruence end. rewrite Hab. clear H Hab e.
    assert (a3 = match ck_group s with Some g => be 1 1 ++ be 2 g | None => be 1 0 end) as -> by (destruct (ck_group s); cbn [bind] in E3; congruence).
    destruct (ck_echSuite s) as [[k a]|].
    + destruct (Ec k a eq_refl) as (_ & _ & i & Ei & _). rewrite Ei in E6 |- *. cbn [bind] in E6.
      apply bind_Ok in E6. destruct E6 as (a7 & E7 & E6). apply write_buf_inv in E7. destruct E7 as [-> L7].
      match type of E6 with Ok ?a = Ok ?b => assert (Hab : b = a) by congruence end. rewrite Hab.
      split; [|reflexivity]. split; [exact L4|]. split; [exact L5|]. intros _. exact L7.
    + assert (a6 = be 1 0) as -> by congruence. split; [|reflexivity]. split; [exact L4|]. split; [exact L5|]. congruence.
  - intros [(L4 & L5 & L7) ->].
    assert (W : forall b : buf, blen (bufb b) < 65536 -> write_buf W16 b = Ok (opaque16 (bufb b))).
    { intros b Hb. apply write_buf_ok. exact Hb. }
    rewrite (W _ L4), (W _ L5).
    destruct (ck_group s) as [g|]; cbn [bind]; destruct (ck_echSuite s) as [[k a]|]; cbn [bind]; try reflexivity;
      destruct (Ec k a eq_refl) as (_ & _ & i & Ei & _); rewrite Ei; cbn [bind]; rewrite (W _ (L7 ltac:(discriminate))); reflexivity.
Qed.
Print Assumptions C25_encode.

(** Decoding inverts encoding. *)
Theorem C25_codec_roundtrip : forall s e rest, ck_ok s -> encodeCookie s = Ok e ->
  decodeCookie (e ++ rest) = Ok (ck_restored s).
Proof.
  intros s e rest Hok He. apply C25_encode in He; [|exact Hok]. destruct He as [(L4 & L5 & L7) ->].
  destruct Hok as (V & Ci & G & Ec). unfold decodeCookie, ck_wire. rewrite <- !app_assoc.
  rewrite read_u_app by exact V. cbn [bind]. rewrite read_u_app by exact Ci. cbn [bind].
  set (tail := opaque16 (bufb (ck_chloHash s)) ++ _).
  assert (Hg : exists hg n r3, read_u 1 ((match ck_group s with Some g => be 1 1 ++ be 2 g | None => be 1 0 end) ++ tail) = Ok (hg, n, r3) /\
     (if hg =? 1 then '(g, _, r) <- read_u 2 r3 ;; Ok (Some g, r) else Ok (None, r3)) = Ok (ck_group s, tail)).
  { destruct (ck_group s) as [g|].
    - rewrite <- app_assoc. eexists _, _, _. split; [apply read_u_app; lia|]. change (1 =? 1) with true. cbv iota.
      rewrite read_u_app by (apply G; reflexivity). reflexivity.
    - eexists _, _, _. split; [apply read_u_app; lia|]. reflexivity. }
  destruct Hg as (hg & n & r3 & -> & Hg). cbn [bind]. rewrite Hg. cbn [bind]. unfold tail.
  unfold opaque16 at 1. rewrite <- !app_assoc. rewrite (app_assoc (be 2 _)).
  change (be 2 (blen (bufb (ck_chloHash s)))) with (be (lw_nat W16) (blen (bufb (ck_chloHash s)))).
  rewrite read_buf_app by exact L4. cbn [bind].
  unfold opaque16 at 1. rewrite <- !app_assoc. rewrite (app_assoc (be 2 _)).
  change (be 2 (blen (bufb (ck_appToken s)))) with (be (lw_nat W16) (blen (bufb (ck_appToken s)))).
  rewrite read_buf_app by exact L5. cbn [bind]. unfold ck_restored.
  destruct (ck_echSuite s) as [[k a]|].
  - destruct (Ec k a eq_refl) as (Hk & Ha & i & Ei & Hi). rewrite Ei. rewrite <- !app_assoc.
    rewrite read_u_app by lia. cbn [bind]. change (1 =? 1) with true. cbv iota.
    rewrite read_u_app by exact Hk. cbn [bind]. rewrite read_u_app by exact Ha. cbn [bind].
    rewrite read_u_app by exact Hi. cbn [bind]. unfold opaque16. 
    change (be 2 (blen (bufb (ck_echEnc s)))) with (be (lw_nat W16) (blen (bufb (ck_echEnc s)))).
    rewrite read_buf_app by (apply L7; discriminate). reflexivity.
  - rewrite read_u_app by lia. reflexivity.
Qed.
Print Assumptions C25_codec_roundtrip.

(** ** The HelloRetryRequest *)
Lemma hrr_inv version cipher group cookie m : version < 65536 -> cipher < 65536 -> (forall g, group = Some g -> g < 65536) ->
  getStatelessHrr version cipher group cookie = Ok m ->
  exists exts, let h := mkHRR 771 (Some []) cipher 0 exts in
  encodeHandshake (MHelloRetryRequest h) = Ok m /\ wf_msg (MHelloRetryRequest h) = true /\ blen m <= 131072 + 4 /\ m <> [] /\
  getExtension KServerSupportedVersions exts = Ok (Some (XServerSupportedVersions version)) /\
  getExtension KCookie exts = Ok (Some (XCookie (Some cookie))) /\
  getExtension KHrrKeyShare exts = Ok (option_map XHrrKeyShare group).
Proof.
  intros V Ci G H. unfold getStatelessHrr in H. apply bind_Ok in H. destruct H as (e1 & E1 & H).
  apply bind_Ok in H. destruct H as (es & Es & H). apply bind_Ok in H. destruct H as (e2 & E2 & H).
  exists (e1 :: es ++ [e2]). cbv zeta. split; [exact H|].
  assert (W1 : wf_x (XServerSupportedVersions version) = true) by (unfold wf_x, in_u; apply N.ltb_lt; exact V).
  assert (W2 : wf_x (XCookie (Some cookie)) = true) by reflexivity.
  pose proof (proj1 (encodeExtension_iff _ _ W1) E1) as [F1 X1]. pose proof (proj1 (encodeExtension_iff _ _ W2) E2) as [F2 X2].
  assert (Hes : match group with Some g => exists e, es = [e] /\ encodeExtension (XHrrKeyShare g) = Ok e /\ wf_x (XHrrKeyShare g) = true /\
            e = mkExt 51 (Some (w_xbody (XHrrKeyShare g))) | None => es = [] end).
  { destruct group as [g|]; [|congruence]. apply bind_Ok in Es. destruct Es as (e & Ee & Es). exists e. split; [congruence|]. split; [exact Ee|].
    assert (W : wf_x (XHrrKeyShare g) = true) by (unfold wf_x, in_u; apply N.ltb_lt, G; reflexivity).
    split; [exact W|]. apply encodeExtension_iff in Ee; [|exact W]. apply Ee. }
  assert (Wf : wf_msg (MHelloRetryRequest (mkHRR 771 (Some []) cipher 0 (e1 :: es ++ [e2]))) = true).
  { cbn [wf_msg hrr_version hrr_session_id hrr_suite hrr_compression hrr_extensions]. unfold wf_exts.
    cbn [forallb]. rewrite forallb_app. assert (in_u 2 cipher = true) as -> by (unfold in_u; apply N.ltb_lt; exact Ci).
    rewrite X1, X2. destruct group as [g|]; [destruct Hes as (e & -> & _ & _ & ->)|rewrite Hes]; reflexivity. }
  split; [exact Wf|]. apply encodeHandshake_iff in H; [|exact Wf]. destruct H as [Hf ->].
  assert (Hlen : 4 <= blen (w_msg (MHelloRetryRequest (mkHRR 771 (Some []) cipher 0 (e1 :: es ++ [e2])))) <= 131072 + 4).
  { unfold fit_msg in Hf. apply andb_true_iff in Hf. destruct Hf as [Hf _].
    cbn [fit_body hrr_session_id hrr_extensions] in Hf. apply andb_true_iff in Hf. destruct Hf as [_ Hf].
    unfold fit_exts in Hf. apply andb_true_iff in Hf. destruct Hf as [_ Hf]. unfold fits_len in Hf. apply N.ltb_lt in Hf.
    unfold w_msg, tls_vec. cbn [w_body hrr_version hrr_session_id hrr_suite hrr_compression hrr_extensions].
    unfold w_exts, tls_list, opaque, tls_vec. cbn [bufbytes]. rewrite !blen_app, !be_blen.
    change (blen HrrRandom) with 32. change (blen (@nil byte)) with 0. cbn [N.of_nat Pos.of_succ_nat Pos.succ]. change (256 ^ N.of_nat 2) with 65536 in Hf. lia. }
  split; [apply Hlen|]. split; [intros E; rewrite E in Hlen; change (blen (@nil byte)) with 0 in Hlen; lia|].
  split; [apply (getExtension_rt _ e1 [] (es ++ [e2]) W1 E1); reflexivity|].
  split.
  - change (e1 :: es ++ [e2]) with ((e1 :: es) ++ [e2]).
    apply (getExtension_rt _ e2 (e1 :: es) [] W2 E2). rewrite X1.
    destruct group as [g|]; [destruct Hes as (e & -> & _ & _ & ->)|rewrite Hes]; reflexivity.
  - destruct group as [g|].
    + destruct Hes as (e & -> & Ee & We & _). apply (getExtension_rt _ e [e1] [e2] We Ee). rewrite X1. reflexivity.
    + rewrite Hes, X1, X2. reflexivity.
Qed.

(** End to end.  A first ClientHello (without cookie) gets a stateless response; the bytes are one or more
    plaintext records that a client reassembles to exactly one HelloRetryRequest, which carries the negotiated
    version, cipher and (only if the client's share is missing) group.  The cookie in it, presented to a server
    whose secrets were rotated in the meantime, decrypts to a state that (a) contains the hash of the first
    ClientHello and the application token, (b) determines byte for byte the HelloRetryRequest message that was
    sent, and (c) makes getTokenOrRetry return the application token for any hello that echoes it. *)
Theorem C25_stateless_retry : forall suite_hash h gcm ctx u1 u2 t1 t2 s rest1 pre post salt versions ciphers groups hello app d,
  hash_ok h -> ctx <> [] -> (forall k iv, opens (gcm k iv) (gcm k iv)) ->
  tok_run h (mkToken [] ctx) u1 = Ok t1 -> in_force [] u1 = s :: rest1 ->
  tok_run h (mkToken [] ctx) u2 = Ok t2 -> in_force [] u2 = pre ++ s :: post -> blen salt = 32 ->
  Forall (fun v => v < 65536) versions -> Forall (Forall (fun c => c < 65536)) ciphers -> Forall (fun g => g < 65536) groups ->
  getTokenOrRetry suite_hash h gcm t1 versions ciphers groups salt hello app = Ok (StatelessHRR d) ->
  exists ev rest chlo orig clientVersions version cipher group sh hrr m cookie p',
    read_event (mkEv [] (LPlain (mkP false None))) hello = RMsg ev rest (EvHandshake (MClientHello chlo) orig) /\
    getExtension KCookie (ch_extensions chlo) = Ok None /\
    getExtension KSupportedVersions (ch_extensions chlo) = Ok (Some (XSupportedVersions clientVersions)) /\
    negotiate versions clientVersions = Some version /\ negotiate_tiers ciphers (ch_suites chlo) = Some cipher /\
    getHrrGroup groups chlo = Ok group /\ suite_hash cipher = Some sh /\
    (* what the client sees *)
    ev_drain (mkEv [] (LPlain (mkP false None))) d = ([EvHandshake (MHelloRetryRequest hrr) m], More (mkEv [] (LPlain p')) []) /\
    hrr_suite hrr = cipher /\ hrr_session_id hrr = Some [] /\
    getExtension KServerSupportedVersions (hrr_extensions hrr) = Ok (Some (XServerSupportedVersions version)) /\
    getExtension KHrrKeyShare (hrr_extensions hrr) = Ok (option_map XHrrKeyShare group) /\
    getExtension KCookie (hrr_extensions hrr) = Ok (Some (XCookie (Some cookie))) /\
    (* what a server later recovers *)
    ((forall s', In s' pre -> ae_try (token_aead h gcm ctx s' salt) (dropN 36 cookie) None 0 = Ok None) ->
     cookie_decrypt h gcm t2 cookie =
       Ok (Some (mkCk version cipher group (Some (h_fn sh orig)) (Some (bufb app)) None None None)) /\
     getStatelessHrr version cipher group cookie = Ok m /\
     forall hello2 ev2 rest2 chlo2 orig2 app2 salt2,
       read_event (mkEv [] (LPlain (mkP false None))) hello2 = RMsg ev2 rest2 (EvHandshake (MClientHello chlo2) orig2) ->
       getExtension KCookie (ch_extensions chlo2) = Ok (Some (XCookie (Some cookie))) ->
       getTokenOrRetry suite_hash h gcm t2 versions ciphers groups salt2 hello2 app2 = Ok (AppToken (Some (bufb app)))).
Proof.
  intros suite_hash h gcm ctx u1 u2 t1 t2 s rest1 pre post salt versions ciphers groups hello app d
    Hh Hne Hop H1 F1 H2 F2 Hs Hv Hc Hg H.
  unfold getTokenOrRetry in H at 1.
  destruct (read_event _ hello) as [|ev rest e|] eqn:Er; try discriminate.
  destruct e as [m0 orig| | |]; try discriminate. destruct m0 as [chlo| | | | | | | | | | | |]; try discriminate.
  apply bind_Ok in H. destruct H as (ck & Eck & H).
  assert (Hck : ck = None /\ getStatelessResponse suite_hash h gcm t1 versions ciphers groups salt chlo orig app = Ok d).
  { destruct ck as [x|].
    - destruct (getExtension_strict _ _ _ Eck) as (Hk & _).
      destruct x; try discriminate Hk. exfalso.
      apply bind_Ok in H. destruct H as ([st|] & _ & H); discriminate.
    - apply bind_Ok in H. destruct H as (d' & Ed & H). split; [reflexivity|]. congruence. }
  destruct Hck as [-> Hr]. clear H. unfold getStatelessResponse in Hr.
  apply bind_Ok in Hr. destruct Hr as (st & Est & Hr). apply bind_Ok in Hr. destruct Hr as (e & Ee & Hr).
  apply bind_Ok in Hr. destruct Hr as ([cookie|] & Ec & Hr); [|discriminate].
  apply bind_Ok in Hr. destruct Hr as (m & Em & Hr). apply bind_Ok in Hr. destruct Hr as ([b|] & Ew & Hr); [|discriminate].
  assert (b = d) as -> by congruence. clear Hr.
  unfold getCookieState in Est. apply bind_Ok in Est. destruct Est as (sv & Esv & Est).
  destruct sv as [x|]; [|discriminate]. destruct x as [| | | | | | | | | | |cl| | | | | | | | | | | | | |]; try discriminate.
  destruct (negotiate versions cl) as [version|] eqn:Ev; [|discriminate].
  destruct (negotiate_tiers ciphers (ch_suites chlo)) as [cipher|] eqn:Eci; [|discriminate].
  apply bind_Ok in Est. destruct Est as (group & Egr & Est).
  destruct (suite_hash cipher) as [sh|] eqn:Esh; [|discriminate].
  assert (Hst : st = mkCk version cipher group (Some (h_fn sh orig)) app None None None) by congruence. subst st. clear Est.
  assert (Rv : version < 65536).
  { pose proof (C29_flat versions cl) as Hn. rewrite Ev in Hn. destruct Hn as (l1 & l2 & -> & _).
    apply Forall_app in Hv. destruct Hv as [_ Hv]. inversion Hv. assumption. }
  assert (Rc : cipher < 65536).
  { pose proof (C29_tiers ciphers (ch_suites chlo)) as Hn. rewrite Eci in Hn. destruct Hn as (x1 & tier & x2 & l1 & l2 & -> & _ & Hin & _).
    apply Forall_app in Hc. destruct Hc as [_ Hc]. inversion Hc as [|? ? Ht]. subst. rewrite Forall_forall in Ht. auto. }
  assert (Rg : forall g, group = Some g -> g < 65536).
  { intros g ->. unfold getHrrGroup in Egr. apply bind_Ok in Egr. destruct Egr as (o & _ & Egr).
    destruct o as [x|]; [|discriminate]. destruct x; try discriminate.
    pose proof (C29_flat groups l) as Hn. destruct (negotiate groups l) as [ng|]; [|discriminate].
    apply bind_Ok in Egr. destruct Egr as (o & _ & Egr). destruct o as [x|]; [|discriminate]. destruct x; try discriminate.
    destruct (mem ng _); [discriminate|]. assert (ng = g) as -> by congruence. destruct Hn as (l1 & l2 & -> & _).
    apply Forall_app in Hg. destruct Hg as [_ Hg]. inversion Hg. assumption. }
  cbn [ck_version ck_cipher ck_group] in Em.
  destruct (hrr_inv _ _ _ _ _ Rv Rc Rg Em) as (exts & Ehs & Wf & Hl & Hm & Xv & Xc & Xg). cbv zeta in Ehs, Wf.
  destruct (C05_plaintext_wire _ _ _ Ew) as (fs & (Cc & CF & _) & Hb & _). cbn [m_frag m_type obytes] in Cc, CF, Hb.
  assert (Hdr : exists p', ev_drain (mkEv [] (LPlain (mkP false None))) d =
      ([EvHandshake (MHelloRetryRequest (mkHRR 771 (Some []) cipher 0 exts)) m], More (mkEv [] (LPlain p')) [])).
  { rewrite Hb.
    apply (C11_reassembly_plaintext [MHelloRetryRequest (mkHRR 771 (Some []) cipher 0 exts)] [m] fs 771 (mkP false None)).
    - constructor; [|constructor]. split; [exact Wf|]. split; [reflexivity|]. split; [exact Ehs|exact Hl].
    - cbn [concat]. rewrite app_nil_r. exact Cc.
    - exact CF.
    - reflexivity. }
  destruct Hdr as [p' Hdr].
  exists ev, rest, chlo, orig, cl, version, cipher, group, sh, (mkHRR 771 (Some []) cipher 0 exts), m, cookie, p'.
  split; [reflexivity|]. split; [exact Eck|]. split; [exact Esv|]. split; [exact Ev|]. split; [exact Eci|]. split; [exact Egr|].
  split; [exact Esh|]. split; [exact Hdr|]. cbn [hrr_suite hrr_session_id hrr_extensions]. split; [reflexivity|]. split; [reflexivity|].
  split; [exact Xv|]. split; [exact Xg|]. split; [exact Xc|]. intros Hpre.
  assert (Hck : cookie_decrypt h gcm t2 cookie =
       Ok (Some (mkCk version cipher group (Some (h_fn sh orig)) (Some (bufb app)) None None None))).
  { unfold cookie_decrypt.
    rewrite (C22_roundtrip h gcm ctx u1 u2 t1 t2 s rest1 pre post salt e None cookie Hh Hne Hop H1 F1 H2 F2 Hs Ec Hpre).
    cbn [bind]. rewrite <- (app_nil_r e).
    rewrite (C25_codec_roundtrip (mkCk version cipher group (Some (h_fn sh orig)) app None None None) e []); [reflexivity| |exact Ee].
    split; [exact Rv|]. split; [exact Rc|]. split; [exact Rg|]. cbn [ck_echSuite]. intros k a Hx. discriminate. }
  split; [exact Hck|]. split; [exact Em|].
  intros hello2 ev2 rest2 chlo2 orig2 app2 salt2 Er2 Eck2. unfold getTokenOrRetry. rewrite Er2, Eck2. cbn [bind].
  rewrite Hck. reflexivity.
Qed.
Print Assumptions C25_stateless_retry.

(** An application token is only ever returned for a hello whose cookie authenticates under a secret in force,
    and it is the token inside that cookie. *)
Theorem C25_token_authentic : forall suite_hash h gcm t versions ciphers groups salt hello app a,
  getTokenOrRetry suite_hash h gcm t versions ciphers groups salt hello app = Ok (AppToken a) ->
  exists ev rest chlo orig cookie pt st,
    read_event (mkEv [] (LPlain (mkP false None))) hello = RMsg ev rest (EvHandshake (MClientHello chlo) orig) /\
    getExtension KCookie (ch_extensions chlo) = Ok (Some (XCookie cookie)) /\
    tok_decrypt h gcm t (bufb cookie) None = Ok (Some pt) /\ decodeCookie pt = Ok st /\ ck_appToken st = a.
Proof.
  intros suite_hash h gcm t versions ciphers groups salt hello app a H. unfold getTokenOrRetry in H.
  destruct (read_event _ hello) as [|ev rest e|] eqn:Er; try discriminate.
  destruct e as [m0 orig| | |]; try discriminate. destruct m0 as [chlo| | | | | | | | | | | |]; try discriminate.
  apply bind_Ok in H. destruct H as (ck & Eck & H).
  assert (Hno : forall x, (d <- getStatelessResponse suite_hash h gcm t versions ciphers groups salt chlo orig app ;; Ok (StatelessHRR d)) = Ok x -> x <> AppToken a).
  { intros x Hx. apply bind_Ok in Hx. destruct Hx as (? & _ & Hx). congruence. }
  destruct ck as [x|]; [|exfalso; exact (Hno _ H eq_refl)].
  destruct x as [| | | | | | | | | |b| | | | | | | | | | | | | | |]; try (exfalso; exact (Hno _ H eq_refl)).
  apply bind_Ok in H. destruct H as ([st|] & Es & H); [|discriminate]. unfold cookie_decrypt in Es.
  apply bind_Ok in Es. destruct Es as ([pt|] & Ep & Es); [|discriminate]. apply bind_Ok in Es. destruct Es as (st' & Ed & Es).
  exists ev, rest, chlo, orig, b, pt, st'. split; [reflexivity|]. split; [exact Eck|]. split; [exact Ep|]. split; [exact Ed|]. congruence.
Qed.
Print Assumptions C25_token_authentic.

(** A concrete run: a client offering only group 29 shares meets a server that wants group 23. *)
Definition ex_ext (x : tyext) : Extension := match encodeExtension x with Ok e => e | Err _ => mkExt 0 None end.
Definition ex_hello (extra : list Extension) : bytes :=
  match encodeHandshake (MClientHello (mkCH 771 (repeat x07 32) (Some []) [4865; 4867] [0]
     ([ex_ext (XSupportedVersions [772]); ex_ext (XSupportedGroups [29; 23]); ex_ext (XClientKeyShare [(29, Some [x01])])] ++ extra))) with
  | Ok m => match plain_write_ver (mkMsg ct_handshake m) 771 with Ok (Some b) => b | _ => [] end
  | Err _ => []
  end.
Definition ex_ctok (n : N) : token := mkToken (map (token_secret toy_hash [[x43]]) [exs n; exs 5]) [[x43]].
Definition ex_cookie_run : bool :=
  match getTokenOrRetry (fun _ => Some toy_hash) toy_hash toy_gcm (mkToken [token_secret toy_hash [[x43]] (exs 5)] [[x43]])
          [772] [[4867]; [4865]] [23; 29] (be 32 9) (ex_hello []) (Some [xab; xcd]) with
  | Ok (StatelessHRR d) =>
      match ev_drain (mkEv [] (LPlain (mkP false None))) d with
      | ([EvHandshake (MHelloRetryRequest hrr) m], More _ []) =>
          (hrr_suite hrr =? 4867) &&
          match getExtension KCookie (hrr_extensions hrr), getExtension KHrrKeyShare (hrr_extensions hrr) with
          | Ok (Some (XCookie (Some ck))), Ok (Some (XHrrKeyShare 23)) =>
              match getTokenOrRetry (fun _ => Some toy_hash) toy_hash toy_gcm (ex_ctok 6)
                 [772] [[4867]; [4865]] [23; 29] (be 32 10) (ex_hello [ex_ext (XCookie (Some ck))]) None with
              | Ok (AppToken (Some [xab; xcd])) => true | _ => false end
          | _, _ => false end
      | _ => false end
  | _ => false end.
Example C25_nonvacuous : ex_cookie_run = true.
Proof. vm_compute. reflexivity. Qed.
