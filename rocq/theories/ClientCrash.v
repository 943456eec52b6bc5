(** * The client never aborts (C63): hypotheses and proof *)
From Verif Require Import Base Codec Str Hkdf HkdfSpec HkdfProofs KeySched Handshake HandshakeProofs Extensions RecordBase Record ReadEvent HelloChecks Cookie
  Token Negotiate Ticket PskSer Kex Hpke HpkeUtils EchCrypt Transcript IOBufUtil EchConfirm Server Client ClientSpec Crash Joint ServerCrash CrashParts.
Open Scope N_scope.

(** What the application's objects promise: their calls end normally or with an error the caller handles, and what they return
    contains no null buffer. *)
Record cenv_safe (k : cenv) : Prop := {
  cv_ok : cenv_ok k;
  cv_hash : forall c, safe (k_hash k c);
  cv_aead : forall c, safe (k_aead k c);
  cv_setkey : forall c kl il mk key iv, k_aead k c = Ok (kl, il, mk) -> safe (mk key iv) /\ forall a, mk key iv = Ok a -> aead_safe a;
  cv_peer : forall x l, safe (k_peerCert k x l);
  cv_verify : forall x l p s c t sig, k_peerCert k x l = Ok p -> safe (pc_verify p s c t sig);
  cv_fac : fac_safe (k_fac k);
  cv_decomp : forall m, safe (k_decompress k m);
  cv_decomp_set : forall m d, k_decompress k m = Ok d -> cm_context d <> None;
  cv_cert : forall f n l x, k_getCert k = Some f -> safe (f n l x);
  cv_cert_set : forall f n l x so s, k_getCert k = Some f -> f n l x = Ok (Some (so, s)) -> self_safe so }.
(** the times of a resumption PSK are within 146 years of 1970 *)
Definition timed (q : cpsk) : Prop := cp_type q = PskResumption ->
  (- 2 ^ 62 <= pk_issue (cp_psk q) <= 2 ^ 62)%Z /\ (- 2 ^ 62 <= pk_hsTime (cp_psk q) <= 2 ^ 62)%Z.
Definition verifier_safe (v : option (list peercert -> res (option cert))) : Prop := forall f l, v = Some f -> safe (f l).
Record conn_safe (cn : conn) : Prop := {
  cc_verifier : verifier_safe (cn_verifier cn);
  cc_psk : forall q, cn_psk cn = Some q -> timed q;
  cc_ech : forall l, cn_ech cn = Some l -> Forall (fun c => cfg_set c /\ ec_pk c <> None) l }.
(** the clock is between 1970 and 2116 *)
Record cworld_safe (w : cworld) : Prop := {
  cw_time : (0 <= cw_now w < 2 ^ 62)%Z;
  cw_time2 : (0 <= cw_now2 w < 2 ^ 62)%Z;
  cw_random_safe : safe (cw_random w);
  cw_random2_safe : safe (cw_random2 w);
  cw_sid_safe : safe (cw_sid w);
  cw_kex_safe : forall g, sat kex_safe (cw_kex w g);
  cw_echKex_safe : forall g, sat kex_safe (cw_echKex w g);
  cw_grease_safe : forall n, sat (fun p => snd (fst p) <> None /\ snd p <> None) (cw_greaseEch w n);
  cw_exts_safe : sat (Forall xset) (cw_exts w);
  cw_onEE_safe : forall l, safe (cw_onEE w l) }.
Definition input_safe (i : cinput) : Prop := match i with JConnect cn => conn_safe cn | _ => True end.

(** ** The invariant *)
Definition gset (g : option (list (buf * N) * list buf)) : Prop :=
  forall ids bs, g = Some (ids, bs) -> Forall pfst ids /\ Forall (fun b : buf => b <> None) bs.
Section Client.
Context (k : cenv) (Hk : cenv_safe k).
Definition early_kept (s : cstate) : Prop :=
  k_omitEarly k = false -> g_early (c_neg s) = CeAttempted \/ g_early (c_neg s) = CeAccepted -> c_earlyw s <> None.
Definition hash_of (s : cstate) (hc : hsctx) : Prop := exists c, g_cipher (c_neg s) = Some c /\ k_hash k c = Ok (hc_hash hc).
Record ech_kept (s : cstate) (e : echstate) : Prop := {
  ek_enc : ec_enc e <> None;
  ek_ctx : ctx_ok (ec_ctx e);
  ek_grease : gset (ec_grease e);
  ek_hctx : c_hctx s <> None -> exists ec, ec_hctx e = Some ec /\ hash_of s ec }.
Record hello_kept (s : cstate) : Prop := {
  hk_read : c_read s <> None;
  hk_write : c_write s <> None;
  hk_hello : exists hl req kexs, c_hello s = Some hl /\ h_req hl = Some req /\ h_kex hl = Some kexs /\ h_enc hl <> None /\ Forall (fun p => kex_safe (snd p)) kexs /\
    (forall q, h_psk hl = Some q -> timed q) /\ verifier_safe (h_verifier hl);
  hk_early : early_kept s;
  hk_noacc : g_early (c_neg s) <> CeAccepted;
  hk_hctx : forall hc, c_hctx s = Some hc -> hash_of s hc;
  hk_ech : forall e, c_ech s = Some e -> ech_kept s e;
  hk_sel : c_selected s = None }.
Record cflight (s : cstate) (h : hashalg) : Prop := {
  cf_read : c_read s <> None;
  cf_write : c_write s <> None;
  cf_hash : hash_ok h;
  cf_ks : exists k2, c_ks s = Some (h, k2) /\ khs h k2;
  cf_secrets : exists cs ss, c_secrets s = Some (cs, ss) /\ len_ok h cs /\ len_ok h ss;
  cf_hctx : exists hc, c_hctx s = Some hc /\ hc_hash hc = h;
  cf_hello : exists hl, c_hello s = Some hl /\ verifier_safe (h_verifier hl);
  cf_version : g_version (c_neg s) <> None;
  cf_cipher : g_cipher (c_neg s) <> None;
  cf_time : g_hsTime (c_neg s) <> None;
  cf_early : early_kept s;
  cf_sel : osafe (fun p => self_safe (fst p)) (c_selected s);
  cf_auth : g_auth (c_neg s) = Some CaSent -> c_selected s <> None }.
Record cdata (s : cstate) (h : hashalg) : Prop := {
  cd_read : c_read s <> None;
  cd_write : c_write s <> None;
  cd_hash : hash_ok h;
  cd_ks : exists k2, c_ks s = Some (h, k2) /\ kapp h k2;
  cd_version : g_version (c_neg s) <> None;
  cd_cipher : g_cipher (c_neg s) <> None;
  cd_time : g_hsTime (c_neg s) <> None;
  cd_res : exists rms, c_resumption s = Some rms /\ len_ok h rms }.
Definition cbase (s : cstate) : Prop := osafe ev_safe (c_read s) /\ osafe wl_safe (c_write s) /\ osafe wl_safe (c_earlyw s).
Definition cinv_safe (s : cstate) : Prop :=
  cbase s /\
  match c_state s with
  | CUninitialized => c_hctx s = None /\ c_selected s = None
  | CExpectingServerHello => hello_kept s
  | CExpectingEncryptedExtensions => exists h, cflight s h /\ (exists hl, c_hello s = Some hl /\ h_req hl <> None) /\
      exists pt, g_psk (c_neg s) = Some pt /\ (pskAccepted pt = true -> g_auth (c_neg s) <> None)
  | CExpectingCertificate => exists h, cflight s h
  | CExpectingCertificateVerify => exists h, cflight s h /\ g_auth (c_neg s) <> None /\ exists p l, c_chain s = Some (p :: l) /\ Forall peer_safe (p :: l)
  | CExpectingFinished => exists h, cflight s h /\ g_auth (c_neg s) <> None
  | CEstablished => exists h, cdata s h
  | CWriteSideClosed | CClosed | CError => True
  | CCrash => False
  end.

(** ** Building blocks *)
Lemma caead_ok h cipher sec : hash_ok h -> len_ok h sec -> sat aead_safe (aead_for (k_aead k) h cipher sec).
Proof.
  intros Hh L. unfold aead_for. eapply sat_bind; [apply sat_true, (cv_aead k Hk)|]. intros [[kl il] mk] E _.
  destruct (ko_aead k (cv_ok k Hk) _ _ _ _ E) as [H1 H2]. cbn [ks_step snd].
  destruct (el_len h Hh sec (str "key") [] kl L) as (x & Ex & _); [vm_compute; discriminate|vm_compute; discriminate|exact H1|].
  destruct (el_len h Hh sec (str "iv") [] il L) as (y & Ey & _); [vm_compute; discriminate|vm_compute; discriminate|exact H2|].
  rewrite Ex, Ey. cbn [bind]. destruct (cv_setkey k Hk _ _ _ _ x y E). apply sat_safe; assumption.
Qed.
Lemma cnew_read_safe h v cipher sec : hash_ok h -> len_ok h sec -> sat ev_safe (cnew_read k h v cipher sec).
Proof. intros Hh L. unfold cnew_read. st (version_safe v) as rv E. sb (caead_ok h cipher sec Hh L) as a E2 Ha. exact Ha. Qed.
Lemma cnew_write_safe h lv v cipher sec : hash_ok h -> len_ok h sec -> sat wl_safe (cnew_write k h lv v cipher sec).
Proof. intros Hh L. unfold cnew_write. st (version_safe v) as rv E. sb (caead_ok h cipher sec Hh L) as a E2 Ha. split; [reflexivity|exact Ha]. Qed.
Lemma chash_sat c : sat hash_ok (k_hash k c).
Proof. apply sat_safe; [apply (cv_hash k Hk)|]. intros a E. exact (ko_hash k (cv_ok k Hk) _ _ E). Qed.
Lemma enc_sat x : tset x -> sat xset (encodeExtension x).
Proof. intros T. apply sat_safe; [apply safe_encodeExtension, T|]. intros y. apply encodeExtension_set. Qed.
Lemma one_sat x (b : bool) : tset x -> sat (Forall xset) (when b (encodeExtension x)).
Proof. intros T. unfold when. destruct b; [|constructor]. sb (enc_sat x T) as y E Y. repeat constructor. exact Y. Qed.
Lemma some_set l : Forall (fun b : buf => b <> None) (map (@Some bytes) l).
Proof. apply Forall_map, Forall_forall. discriminate. Qed.
Lemma shares_sat l : Forall (fun p => kex_safe (snd p)) l -> sat (Forall psnd) (keyShares l).
Proof.
  unfold keyShares. induction 1 as [|[g x] l H Hl IH]; cbn [mapR]; [constructor|]. cbn [snd] in H.
  eapply (sat_bind (@psnd N)).
  - st (proj1 H) as b E. cbn. discriminate.
  - intros p _ Hp. sb IH as r Er Hr. constructor; assumption.
Qed.
Lemma hello_sat w random sid shares sni early exts cookie : cworld_safe w -> Forall (fun p => kex_safe (snd p)) shares ->
  sat hello_set (getClientHello k w random sid shares sni early exts cookie).
Proof.
  intros Hw Hs. unfold getClientHello.
  eapply (sat_bind (Forall xset)); [destruct sni; [apply one_sat; repeat constructor; discriminate|constructor]|intros e1 _ H1].
  sb (enc_sat (XSupportedVersions (k_versions k)) Logic.I) as e2 E2 H2. sb (enc_sat (XSupportedGroups (k_groups k)) Logic.I) as e3 E3 H3.
  sb (shares_sat shares Hs) as sh Esh Hsh. sb (enc_sat (XClientKeyShare sh) Hsh) as e4 E4 H4. sb (enc_sat (XSignatureAlgorithms (k_sigSchemes k)) Logic.I) as e5 E5 H5.
  sb (one_sat (XProtocolNameList (map Some (k_alpns k))) (nonempty (k_alpns k)) (some_set (k_alpns k))) as e6 E6 H6.
  sb (one_sat (XPskKeyExchangeModes (k_pskModes k)) (nonempty (k_pskModes k)) Logic.I) as e7 E7 H7. sb (one_sat XClientEarlyData early Logic.I) as e8 E8 H8.
  eapply (sat_bind (Forall xset)); [destruct cookie; [apply one_sat; discriminate|constructor]|intros e9 _ H9].
  sb (one_sat (XCertCompressionAlgs (k_decompAlgos k)) (nonempty (k_decompAlgos k)) Logic.I) as e10 E10 H10.
  eapply (sat_bind (Forall xset)); [destruct exts; [apply (cw_exts_safe w Hw)|constructor]|intros e11 _ H11].
  cbn [sat]. split; [discriminate|]. cbn [ch_extensions]. repeat (apply Forall_app; split; auto).
Qed.
Lemma chk64_safe z : int64 z = true -> safe (chk64 z). Proof. intros H. unfold chk64. rewrite H. exact Logic.I. Qed.
Lemma int64_sub a b : (0 <= a < 2 ^ 62)%Z -> (- 2 ^ 62 <= b <= 2 ^ 62)%Z -> int64 (a - b) = true.
Proof. intros H1 H2. unfold int64. apply andb_true_iff. rewrite Z.leb_le, Z.ltb_lt. change (2 ^ 62)%Z with 4611686018427387904%Z in *. change (2 ^ 63)%Z with 9223372036854775808%Z. lia. Qed.
Lemma psk_sat p now : (0 <= now < 2 ^ 62)%Z -> (forall q, p = Some q -> timed q) -> sat (fun r => forall q, r = Some q -> timed q) (validatePsk k now p).
Proof.
  intros Hn Hp. unfold validatePsk. destruct p as [q|]; [|cbn; discriminate]. specialize (Hp q eq_refl). destruct (negb _); [cbn; discriminate|]. destruct (negb _); [cbn; discriminate|].
  assert (G : forall q', Some q = Some q' -> timed q') by (intros q' [= <-]; exact Hp).
  destruct (cp_type q) eqn:Et; try exact G. destruct (_ <? _)%Z; [cbn; discriminate|].
  eapply sat_bind; [apply sat_true, chk64_safe, int64_sub; [exact Hn|apply Hp, Et]|]. intros d _ _.
  destruct (_ <? _)%Z; [cbn; discriminate|]. destruct (_ <? _)%Z; [cbn; discriminate|exact G].
Qed.
Lemma emplace_all (P : N * kex -> Prop) g x l : P (g, x) -> Forall P l -> Forall P (emplace g x l).
Proof.
  intros Hx. induction 1 as [|[g' y] l H Hl IH]; cbn [emplace]; [repeat constructor; exact Hx|]. destruct (_ <? _); [repeat constructor; auto|]. destruct (_ =? _); constructor; auto.
Qed.
Lemma kexs_sat w : cworld_safe w -> forall gs l, Forall (fun p => kex_safe (snd p)) l -> sat (Forall (fun p => kex_safe (snd p))) (getKeyExchangers w gs l).
Proof.
  intros Hw. induction gs as [|g gs IH]; intros l Hl; cbn [getKeyExchangers]; [exact Hl|]. sb (cw_kex_safe w Hw g) as x E Hx. apply IH, emplace_all; assumption.
Qed.
Lemma encap_sat fa x ng : fac_safe fa -> kex_safe x -> cfg_set (ng_cfg ng) -> ec_pk (ng_cfg ng) <> None -> sat (fun r => ctx_ok (snd r)) (constructHpkeSetupResult fa x ng).
Proof.
  intros Hf [K1 K2] Hc Hp. unfold constructHpkeSetupResult. cbv zeta. st (hashfn_safe (fst (ng_suite ng))) as h E1. st (group_safe (ec_kem (ng_cfg ng))) as g E2.
  st (info_safe _ Hc) as info E3. st (suite_safe (snd (ng_suite ng))) as cs E4. st (sid_safe g h cs) as sd E5. st (fs_aead fa Hf cs) as alg E6. destruct (ec_pk (ng_cfg ng)) as [pk|]; [|congruence].
  unfold setupWithEncap. cbn [uses_auth]. eapply sat_bind.
  - apply sat_true. unfold encap. apply safe_bind; [apply K2|intros ? _]. apply safe_bind; [apply K1|intros ? _]. apply safe_bind; [apply extand_safe, (fs_hash fa Hf)|intros; exact Logic.I].
  - intros [ss enc] _ _. eapply sat_bind; [apply schedule_sat, (fs_hash fa Hf)|]. intros c _ (_ & kk & iv & Ea). cbn [sat snd]. split; rewrite Ea; apply (fs_set fa Hf cs alg kk iv E6).
Qed.
Lemma pick_safe aeads l : safe (pick_suite aeads l).
Proof.
  induction l as [|[kdf ae] l IH]; cbn [pick_suite]; [exact Logic.I|]. destruct (existsb _ _); [|exact IH]. apply safe_bind; [apply suite_safe|intros cs _].
  apply safe_bind; [unfold suiteHash; ifs|intros h _]. apply safe_bind; [exact Logic.I|intros kd _]. destruct (_ =? _); [exact Logic.I|exact IH].
Qed.
Lemma negcfg_sat (P : echcfg -> Prop) kems aeads l : Forall P l -> sat (fun o => forall ng, o = Some ng -> P (ng_cfg ng)) (negotiateECHConfig kems aeads l).
Proof.
  induction 1 as [|c l H Hl IH]; cbn [negotiateECHConfig]; [cbn; discriminate|]. destruct (hasMandatory c); [exact IH|]. destruct (negb _); [exact IH|]. destruct (negb _); [exact IH|].
  st (pick_safe aeads (ec_suites c)) as o E. destruct o; [|exact IH]. cbn. intros ng [= <-]. exact H.
Qed.
Lemma setup_ech_sat w cfgs : cworld_safe w -> (forall l, cfgs = Some l -> Forall (fun c => cfg_set c /\ ec_pk c <> None) l) ->
  sat (fun o => forall ng enc ctx, o = Some (ng, enc, ctx) -> ctx_ok ctx) (setupECH k w cfgs).
Proof.
  intros Hw Hc. unfold setupECH. destruct cfgs as [l|]; [|cbn; discriminate]. sb (negcfg_sat _ (optmap tryGetKEMId (k_groups k)) (optmap tryGetAeadId (k_ciphers k)) l (Hc l eq_refl)) as n En Hn.
  destruct n as [ng|]; [|exact Logic.I]. destruct (Hn ng eq_refl) as [N1 N2]. st (group_safe (ec_kem (ng_cfg ng))) as g Eg. sb (cw_echKex_safe w Hw g) as x Ex Hx.
  sb (encap_sat (k_fac k) x ng (cv_fac k Hk) Hx N1 N2) as r Er Hr. destruct r as [enc ctx]. cbn. intros ng' enc' ctx' [= _ _ <-]. exact Hr.
Qed.
Lemma base_hello_sat w random sid kexs cn early ech : cworld_safe w -> Forall (fun p => kex_safe (snd p)) kexs -> sat (fun r => hello_set (fst r)) (base_hello k w random sid kexs cn early ech).
Proof.
  intros Hw Hx. unfold base_hello. sb (hello_sat w random sid kexs (cn_sni cn) early (cn_exts cn) None Hw Hx) as c E Hc. cbv zeta.
  assert (A : forall e, xset e -> hello_set (with_exts c (ch_extensions c ++ [e]))).
  { intros e He. split; [exact (proj1 Hc)|]. cbn [with_exts ch_extensions]. apply Forall_app. split; [apply Hc|]. repeat constructor; exact He. }
  destruct ech.
  - sb (enc_sat XEchInner Logic.I) as e Ee He. cbn [sat fst]. apply A, He.
  - destruct (k_grease k) as [[]|]; try exact Hc. sb (cw_grease_safe w Hw 0) as g Eg Hg. 
    sb (enc_sat (XEchOuter g) ltac:(destruct g as [[[[? ?] ?] en] pl]; exact Hg)) as e Ee He. cbn [sat fst]. apply A, He.
Qed.
Lemma psk_ext_sat q now : (0 <= now < 2 ^ 62)%Z -> timed q -> sat (fun r => tset (XClientPresharedKey r)) (getPskExtension q now).
Proof.
  intros Hn Hq. unfold getPskExtension. cbv zeta. eapply sat_bind.
  - apply sat_true. destruct (cp_type q) eqn:Et; try exact Logic.I. apply safe_bind; [apply chk64_safe, int64_sub; [exact Hn|apply Hq, Et]|]. intros; exact Logic.I.
  - intros age _ _. st (hash_id_safe (pk_cipher (cp_psk q))) as id E. cbn. repeat constructor; discriminate.
Qed.
Lemma binders_sat c q h hc now : hash_ok h -> hc_hash hc = h -> (0 <= now < 2 ^ 62)%Z -> timed q -> hello_set c ->
  sat (fun r => let '(c2, _, k1, hc') := r in hello_set c2 /\ kearly h k1 /\ hc_hash hc' = h) (encodeAndAddBinders c q h hc now).
Proof.
  intros Hh Hhc Hn Hq Hc. unfold encodeAndAddBinders. sb (sat_ex _ _ (do_early h Hh (pk_secret (cp_psk q)))) as k1 E1 H1.
  assert (Hb : len_ok h (h_blank (hc_hash hc))) by (rewrite Hhc; apply blank_ok, Hh).
  sb (sat_ex _ _ (get_early h Hh k1 (match cp_type q with PskExternal => ExternalPskBinder | _ => ResumptionPskBinder end) _ H1 Hb)) as bk E2 H2.
  assert (Lb : len_ok h bk) by (destruct (cp_type q); exact H2).
  sb (psk_ext_sat q now Hn Hq) as r E3 H3. destruct r as [ids bs]. sb (enc_sat (XClientPresharedKey (ids, bs)) H3) as e E4 H4. cbv zeta.
  assert (A : forall e, xset e -> hello_set (with_exts c (ch_extensions c ++ [e]))).
  { intros e0 He. split; [exact (proj1 Hc)|]. cbn [with_exts ch_extensions]. apply Forall_app. split; [apply Hc|]. repeat constructor; exact He. }
  st (safe_binderLength _ (proj2 (A e H4))) as bl E5. st (safe_encode (MClientHello _) (A e H4)) as pre E6. eapply sat_bind; [apply sat_ensure; exact Logic.I|intros ? _ _].
  subst h. sb (sat_ex _ _ (finished_ok' (hc_hash hc) Hh (hc_append hc (takeN (blen pre - bl) pre)) bk eq_refl Lb)) as b E7 H7.
  assert (T : tset (XClientPresharedKey (ids, [Some b]))) by (split; [apply H3|repeat constructor; discriminate]). sb (enc_sat _ T) as e' E8 H8.
  st (safe_encode (MClientHello _) (A e' H8)) as enc E9. eapply sat_bind; [apply sat_ensure; exact Logic.I|intros ? _ _]. cbn [sat]. split; [apply A, H8|]. split; [exact H1|reflexivity].
Qed.
Lemma early_sat h ks0 hc p : hash_ok h -> hc_hash hc = h -> kearly h ks0 ->
  sat (fun r => let '(_, wl, _) := r in (k_omitEarly k = false -> wl <> None) /\ osafe wl_safe wl) (cearly_keys k h ks0 hc p).
Proof.
  intros Hh Hc Hks. assert (L : len_ok h (hc_context hc)) by (unfold hc_context; rewrite Hc; apply context_len, Hh). unfold cearly_keys.
  sb (sat_ex _ _ (get_early h Hh ks0 ClientEarlyTraffic _ Hks L)) as t E1 H1.
  eapply (sat_bind (fun wl => (k_omitEarly k = false -> wl <> None) /\ osafe wl_safe wl)).
  - destruct (k_omitEarly k); [cbn; split; [discriminate|intros x [=]]|]. sb (cnew_write_safe h LvEarlyData (pk_version p) (pk_cipher p) t Hh H1) as x E2 H2. cbn. split; [discriminate|]. intros y [= <-]. exact H2.
  - intros wl _ Hwl. sb (sat_ex _ _ (get_early h Hh ks0 EarlyExporter _ Hks L)) as x E3 H3. exact Hwl.
Qed.
Lemma grease_items_sat keep rnd : forall ids bs i, Forall pfst ids -> Forall (fun b : buf => b <> None) bs ->
  sat (fun r => Forall pfst (fst r) /\ Forall (fun b : buf => b <> None) (snd r)) (greaseItems keep rnd i ids bs).
Proof.
  induction ids as [|[id a] ids IH]; intros bs i Hi Hb; cbn [greaseItems]; [split; constructor|]. destruct bs as [|b bs]; [exact Logic.I|]. inversion Hi as [|? ? X1 X2]; subst. inversion Hb as [|? ? Y1 Y2]; subst. unfold pfst in X1. cbn [fst] in X1.
  destruct b as [b'|]; [|congruence].
  assert (G : forall id', sat (fun r => Forall (@pfst N) (fst r) /\ Forall (fun b : buf => b <> None) (snd r))
    ('(l, m) <- greaseItems keep rnd (i + 1) ids bs ;; Ok ((Some id', unbe (rev (rnd 4 (3 * i + 1)))) :: l, Some (rnd (blen b') (3 * i + 2)) :: m))).
  { intros id'. sb (IH bs (i + 1) X2 Y2) as r Er Hr. destruct r as [l m]. destruct Hr. cbn [sat fst snd] in *. split; constructor; auto; discriminate. }
  destruct keep; [destruct id as [id|]; [|congruence]|]; apply G.
Qed.
Lemma grease_sat rnd c : hello_set c -> sat gset (generateGreasePSK rnd c).
Proof.
  intros [_ H]. unfold generateGreasePSK. sb (sat_get KClientPresharedKey _ H) as x E Hx. destruct x as [[]|]; try (cbn; unfold gset; discriminate). destruct p as [ids bs].
  destruct (Hx _ eq_refl) as [[T1 T2] _]. sb (grease_items_sat false rnd ids bs 0 T1 T2) as g Eg Hg. cbn. intros i b [= ->]. exact Hg.
Qed.
Lemma grease_hrr_sat rnd p : gset (Some p) -> sat (fun r => gset (Some r)) (generateGreasePSKForHRR rnd p).
Proof.
  intros H. unfold generateGreasePSKForHRR. destruct p as [ids bs]. destruct (H _ _ eq_refl) as [T1 T2]. cbn [fst snd]. eapply sat_weaken; [|apply grease_items_sat; assumption].
  intros [a b] G ids' bs' [= <- <-]. exact G.
Qed.
Lemma remove_set t l : Forall xset l -> Forall xset (removeExt t l).
Proof. induction 1; cbn [removeExt]; [constructor|]. destruct (_ =? _); [assumption|constructor; assumption]. Qed.
Lemma replace_set x l : xset x -> Forall xset l -> Forall xset (replaceOrAdd x l).
Proof. intros Hx. induction 1; cbn [replaceOrAdd]; [repeat constructor; exact Hx|]. destruct (_ =? _); constructor; assumption. Qed.
Lemma replace_first_sat x l : Forall xset x -> Forall xset l -> forall t, In t (map ext_type l) -> sat (Forall xset) (replaceFirst t x l).
Proof.
  intros Hx. induction 1 as [|e l He Hl IH]; intros t Ht; [destruct Ht|]. cbn [replaceFirst]. destruct (ext_type e =? t) eqn:Et; [apply Forall_app; auto|].
  cbn [map In] in Ht. destruct Ht as [Ht|Ht]; [apply N.eqb_neq in Et; congruence|]. sb (IH t Ht) as r Er Hr. constructor; assumption.
Qed.
(* how often a type occurs: the erased ones are all there *)
Lemma replace_first_count x l t r : replaceFirst t x l = Ok r -> forall u, (count_occ N.eq_dec (map ext_type l) u <= count_occ N.eq_dec (map ext_type r) u + (if N.eq_dec t u then 1 else 0))%nat.
Proof.
  revert r. induction l as [|e l IH]; intros r H u; cbn [replaceFirst] in H; [discriminate|]. destruct (ext_type e =? t) eqn:Et.
  - injection H as <-. apply N.eqb_eq in Et. cbn [map]. rewrite map_app, count_occ_app. rewrite <- Et. destruct (N.eq_dec (ext_type e) u) as [Eq|Ne]; [rewrite count_occ_cons_eq by exact Eq|rewrite count_occ_cons_neq by exact Ne]; lia.
  - destruct (bind_Ok _ _ _ H) as (r' & E & K). injection K as <-. specialize (IH _ E u). cbn [map]. destruct (N.eq_dec (ext_type e) u) as [Eq|Ne].
    + rewrite !count_occ_cons_eq by exact Eq. lia.
    + rewrite !count_occ_cons_neq by exact Ne. lia.
Qed.
Lemma erase_sat : forall ts l, Forall xset l -> (forall t, (count_occ N.eq_dec ts t <= count_occ N.eq_dec (map ext_type l) t)%nat) -> sat (Forall xset) (eraseAll ts l).
Proof.
  induction ts as [|t ts IH]; intros l Hl Hc; cbn [eraseAll]; [exact Hl|].
  assert (Hi : In t (map ext_type l)). { apply (count_occ_In N.eq_dec). specialize (Hc t). rewrite count_occ_cons_eq in Hc by reflexivity. lia. }
  eapply sat_bind; [apply replace_first_sat; [constructor|exact Hl|exact Hi]|]. intros l' E Hl'. apply IH; [exact Hl'|]. intros u. specialize (Hc u). pose proof (replace_first_count _ _ _ _ E u) as G.
  destruct (N.eq_dec t u) as [Eq|Ne]; [rewrite count_occ_cons_eq in Hc by exact Eq|rewrite count_occ_cons_neq in Hc by exact Ne]; lia.
Qed.
Lemma filter_count f l t : (count_occ N.eq_dec (filter f l) t <= count_occ N.eq_dec l t)%nat.
Proof. induction l as [|x l IH]; cbn [filter]; [lia|]. destruct (f x); destruct (N.eq_dec x t) as [Eq|Ne]; rewrite ?count_occ_cons_eq by exact Eq; rewrite ?count_occ_cons_neq by exact Ne; try lia. Qed.
Lemma outer_exts_sat exts outer : Forall xset exts -> sat (Forall xset) (generateAndReplaceOuterExtensions exts outer).
Proof.
  intros H. unfold generateAndReplaceOuterExtensions. pose proof (filter_count (fun t => existsb (N.eqb t) outer) (map ext_type exts)) as Hc.
  destruct (filter _ (map ext_type exts)) as [|t ts]; [exact H|]. sb (enc_sat (XEchOuterExtensions (t :: ts)) Logic.I) as o Eo Ho.
  assert (Hi : In t (map ext_type exts)). { apply (count_occ_In N.eq_dec). specialize (Hc t). rewrite count_occ_cons_eq in Hc by reflexivity. lia. }
  eapply sat_bind; [apply replace_first_sat; [repeat constructor; exact Ho|exact H|exact Hi]|]. intros l E Hl. apply erase_sat; [exact Hl|]. intros u. specialize (Hc u). pose proof (replace_first_count _ _ _ _ E u) as G.
  destruct (N.eq_dec t u) as [Eq|Ne]; [rewrite count_occ_cons_eq in Hc by exact Eq|rewrite count_occ_cons_neq in Hc by exact Ne]; lia.
Qed.
Lemma padding_safe c n m : hello_set c -> safe (calculateECHPadding c n m).
Proof.
  intros [_ H]. unfold calculateECHPadding. apply safe_bind; [apply safe_getExtension, H|]. intros x Ex. apply safe_bind; [|intros; exact Logic.I]. destruct x as [[]|]; try exact Logic.I.
  destruct (getExtension_set _ _ _ Ex) as [T _]. destruct l as [|[? [nm|]] ?]; try exact Logic.I. inversion T as [|? ? X _]; subst. unfold psnd in X. cbn in X. congruence.
Qed.
Lemma grease_ext_sat g : gset g -> sat (Forall xset) (greaseExt g).
Proof. intros H. unfold greaseExt. destruct g as [[ids bs]|]; [|constructor]. sb (enc_sat (XClientPresharedKey (ids, bs)) (H _ _ eq_refl)) as x E Hx. repeat constructor. exact Hx. Qed.
Lemma hseal_ok c aad pt : ctx_ok c -> let '(c', b, r) := hseal c aad pt in ctx_ok c' /\ safe r /\ (r = Ok tt -> b <> None).
Proof.
  intros H. unfold hseal. destruct (hc_role c); [|cbn; split; [exact H|]; split; [exact Logic.I|discriminate]].
  pose proof (proj1 (proj1 H) pt aad (hc_seq c)) as S. destruct (ae_enc (hc_aead c) pt aad (hc_seq c)) as [ct|er].
  - unfold incrementSeq. destruct (_ <=? _); (split; [exact H|]; split; [exact Logic.I|intros _; discriminate]).
  - split; [exact H|]. split; [exact S|discriminate].
Qed.
Lemma encrypt_ok ctx suite cid enc inner outer g maxLen types : ctx_ok ctx -> hello_set inner -> hello_set outer -> gset g -> enc <> None ->
  let '(c', r) := encryptImpl ctx suite cid enc inner outer g maxLen types in ctx_ok c' /\ safe r.
Proof.
  intros Hx Hi Ho Hg He. unfold encryptImpl. cbv zeta. match goal with |- context [match ?p with Ok _ => _ | Err _ => _ end] => assert (S : safe p); [|destruct p as [[aad pt]|er]] end.
  - apply (sat_is_safe (fun _ => True)). sb (outer_exts_sat (ch_extensions inner) types (proj2 Hi)) as x E1 H1.
    assert (Hs : hello_set (with_exts (with_sid inner (Some [])) x)) by (split; [discriminate|exact H1]). st (encode_ch_safe _ Hs) as body E2. st (padding_safe inner (blen body) maxLen Hi) as pad E3.
    eapply sat_bind; [apply sat_true; unfold getCipherOverhead; destruct (_ || _); exact Logic.I|intros ov _ _].
    assert (T : tset (XEchOuter (fst suite, snd suite, cid, enc, Some (zeros (blen (body ++ zeros pad) + ov))))) by (split; [exact He|discriminate]). sb (enc_sat _ T) as dummy E4 H4.
    sb (grease_ext_sat g Hg) as gx E5 H5.
    assert (Ho' : hello_set (with_exts outer (ch_extensions outer ++ [dummy] ++ gx))).
    { split; [exact (proj1 Ho)|]. cbn [with_exts ch_extensions]. apply Forall_app. split; [apply Ho|]. constructor; [exact H4|exact H5]. }
    st (encode_ch_safe _ Ho') as aad E6. exact Logic.I.
  - pose proof (hseal_ok ctx (Some aad) pt Hx) as G. destruct (hseal ctx (Some aad) pt) as [[c' b] r]. destruct G as (G1 & G2 & G3).
    destruct b as [ct|], r as [[]|er]; split; auto; try exact Logic.I. exfalso. apply G3; reflexivity.
  - split; [exact Hx|exact S].
Qed.
Lemma encrypted_sat first c ng enc ctx random fake g types : ctx_ok ctx -> hello_set c -> gset g -> sat (fun r => ctx_ok (fst r) /\ hello_set (snd r)) (constructEncrypted first c ng enc ctx random fake g types).
Proof.
  intros Hx Hc Hg. unfold constructEncrypted. cbv zeta.
  assert (T : tset (XServerNameList [(0, Some fake)])) by (repeat constructor; discriminate). sb (enc_sat _ T) as sn E1 H1.
  match goal with |- context [encryptClientHello ng (Some enc) ctx c ?o g types] => set (outer := o) end.
  assert (Ho : hello_set outer).
  { split; [exact (proj1 Hc)|]. subst outer. cbn [ch_extensions]. apply replace_set; [exact H1|]. destruct first; repeat apply remove_set; apply Hc. }
  assert (G : forall en, en <> None -> let '(c', r) := encryptClientHello ng en ctx c outer g types in ctx_ok c' /\ sat (fun x => tset x) r).
  { intros en Hen. unfold encryptClientHello. pose proof (encrypt_ok ctx (ng_suite ng) (ng_id ng) en c outer g (ng_max ng) types Hx Hc Ho Hg Hen) as G.
    destruct (encryptImpl _ _ _ _ _ _ _ _ _) as [c' r]. destruct G as [G1 G2]. split; [exact G1|]. st G2 as ct Ect. split; [exact Hen|discriminate]. }
  assert (F : let '(c', r) := if first then encryptClientHello ng (Some enc) ctx c outer g types else encryptClientHelloHRR ng ctx c outer g types in ctx_ok c' /\ sat (fun x => tset x) r).
  { destruct first; [apply G; discriminate|apply G; discriminate]. }
  match type of F with let '(_, _) := ?p in _ => destruct p as [ctx' r] end. destruct F as [F1 F2]. sb F2 as x E2 H2. eapply (sat_bind hello_set).
  - unfold attachECH. sb (enc_sat x H2) as e E3 H3. sb (grease_ext_sat g Hg) as gx E4 H4. split; [exact (proj1 Ho)|]. cbn [with_exts ch_extensions]. apply Forall_app. split; [apply Ho|]. constructor; assumption.
  - intros o _ Hso. split; assumption.
Qed.

(** ** ClientHello *)
Lemma set_append c x : hello_set c -> xset x -> hello_set (with_exts c (ch_extensions c ++ [x])).
Proof. intros [H1 H2] Hx. split; [exact H1|]. cbn [with_exts ch_extensions]. apply Forall_app. split; [exact H2|]. repeat constructor; exact Hx. Qed.
Lemma connect_sat w s cn : cworld_safe w -> conn_safe cn -> cbase s -> c_hctx s = None -> c_selected s = None ->
  sat (fun r => cinv_safe (fst r)) (handle_connect k w s cn).
Proof.
  intros Hw Hcn (B1 & B2 & B3) Hh Hsel. unfold handle_connect.
  sb (psk_sat (cn_psk cn) (cw_now w) (cw_time w Hw) (cc_psk cn Hcn)) as p Ep Hp.
  st (cw_random_safe w Hw) as random Er. cbv zeta.
  eapply (sat_bind (fun _ => True)); [destruct (k_compat k); [exact (sat_true _ (cw_sid_safe w Hw))|exact Logic.I]|intros sid _ _].
  sb (kexs_sat w Hw (selectedShares k p) [] (Forall_nil _)) as kexs Ek Hkx.
  sb (setup_ech_sat w (cn_ech cn) Hw (cc_ech cn Hcn)) as ech Ee He.
  set (params := getEarlyDataParams k p).
  eapply sat_bind; [apply (base_hello_sat w random sid kexs cn); [exact Hw|exact Hkx]|]. intros [c0 req0] _ Hc0. cbn [fst] in Hc0. cbv beta iota.
  eapply (sat_bind (fun r : ClientHello * bytes * option (bytes * option wlayer * bytes * N) => let '(c1, _, early) := r in hello_set c1 /\
    forall t wl x mx, early = Some ((t, wl, x), mx) -> (k_omitEarly k = false -> wl <> None) /\ osafe wl_safe wl)).
  { destruct p as [q|].
    - sb (chash_sat (pk_cipher (cp_psk q))) as h Eh Hh'.
      sb (binders_sat c0 q h (hc_new h) (cw_now2 w) Hh' eq_refl (cw_time2 w Hw) (Hp q eq_refl) Hc0) as r Er2 Hr. destruct r as [[[c1 enc1] k1] hc]. destruct Hr as (R1 & R2 & R3).
      eapply (sat_bind (fun early : option (bytes * option wlayer * bytes * N) => forall t wl x mx, early = Some ((t, wl, x), mx) -> (k_omitEarly k = false -> wl <> None) /\ osafe wl_safe wl)).
      + destruct params; [|cbn; discriminate]. sb (early_sat h k1 hc (cp_psk q) Hh' R3 R2) as x Ex Hx. destruct x as [[t wl] x]. cbn. intros ? ? ? ? [= <- <- <- <-]. exact Hx.
      + intros early _ Hea. split; assumption.
    - eapply sat_bind; [apply sat_true, safe_encode; exact Hc0|]. intros enc1 _ _. split; [exact Hc0|]. discriminate. }
  intros [[c1 enc1] early] _ [Hc1 Hea]. cbv zeta.
  eapply (sat_bind (fun r => let '(_, _, _, _, est) := r in forall e, est = Some e -> ec_enc e <> None /\ ctx_ok (ec_ctx e) /\ gset (ec_grease e))).
  { destruct ech as [[[ng key] ctx]|].
    - st (cw_random2_safe w Hw) as random2 Er2. sb (grease_sat (cw_rnd w) c1 Hc1) as gp Eg Hg.
      sb (encrypted_sat true c1 ng key ctx random2 (ec_name (ng_cfg ng)) gp (k_outerTypes k) (He _ _ _ eq_refl) Hc1 Hg) as r Er3 Hr. destruct r as [ctx' outer]. destruct Hr as [R1 R2]. cbn [fst snd] in R1, R2.
      eapply sat_bind; [apply sat_true, safe_encode; exact R2|]. intros enc _ _. cbn. intros e [= <-]. cbn. split; [discriminate|]. split; assumption.
    - destruct (k_grease k) as [[]|]; try (cbn; discriminate).
      sb (cw_grease_safe w Hw (blen enc1)) as g Eg Hg. sb (enc_sat (XEchOuter g) ltac:(destruct g as [[[[? ?] ?] en] pl]; exact Hg)) as e Ee2 He2.
      eapply sat_bind; [apply sat_true, safe_encode; exact (set_append c1 e Hc1 He2)|]. intros enc _ _. cbn. discriminate. }
  intros [[[[enc req] sni] random'] est] _ Hest.
  eapply sat_bind; [apply sat_true; unfold plain_write_initial, plain_write_ver; destruct (_ =? _); exact Logic.I|]. intros d _ _.
  assert (G : forall earlyw eparams ed, osafe wl_safe earlyw -> (ed = CeAttempted -> k_omitEarly k = false -> earlyw <> None) -> ed <> CeAccepted -> cinv_safe
    (mkC CExpectingServerHello (Some (mkEv [] (LPlain (mkP false None)))) (Some WPlain) earlyw (c_ccs s) (c_hctx s) (c_ks s) (c_secrets s)
      (Some (mkHello (cn_verifier cn) (cn_exts cn) sni random' sid p (Some kexs) (Some enc) (Some req) eparams))
      (mkNegSt None None None None None None ed None None None None None None None) est (c_chain s) (c_selected s) (c_exporter s) (c_resumption s))).
  { intros earlyw eparams ed G1 G2 G3. unfold cinv_safe. split.
    - split; [intros x [= <-]; exact Logic.I|]. split; [intros x [= <-]; exact Logic.I|exact G1].
    - cbn [c_state]. constructor; cbn; try discriminate.
      + exists (mkHello (cn_verifier cn) (cn_exts cn) sni random' sid p (Some kexs) (Some enc) (Some req) eparams), req, kexs. cbn [h_req h_kex h_enc h_psk h_verifier]. do 3 (split; [reflexivity|]). split; [discriminate|]. split; [exact Hkx|]. split; [exact Hp|exact (cc_verifier cn Hcn)].
      + unfold early_kept. cbn. intros O [E|E]; [auto|contradiction].
      + exact G3.
      + intros hc E. congruence.
      + intros e E. destruct (Hest e E) as (E1 & E2 & E3). constructor; auto. cbn. congruence.
      + exact Hsel. }
  assert (G0 : cinv_safe (mkC CExpectingServerHello (Some (mkEv [] (LPlain (mkP false None)))) (Some WPlain) (c_earlyw s) (c_ccs s) (c_hctx s) (c_ks s) (c_secrets s)
      (Some (mkHello (cn_verifier cn) (cn_exts cn) sni random' sid p (Some kexs) (Some enc) (Some req) None))
      (mkNegSt None None None None None None CeNotAttempted None None None None None None None) est (c_chain s) (c_selected s) (c_exporter s) (c_resumption s))).
  { apply G; [exact B3|discriminate|discriminate]. }
  destruct early as [[[[t wl] x] mx]|]; [|exact G0]. destruct params; [|exact G0]. destruct (Hea _ _ _ _ eq_refl) as [A1 A2]. cbn [sat fst]. apply G; [exact A2|auto|discriminate].
Qed.

(** ** ServerHello *)
Lemma each_safe f l : safe (each f l).
Proof. induction l; cbn [each]; [exact Logic.I|]. destruct (f _); [assumption|exact Logic.I]. Qed.
Lemma vac_safe legacy comp suite exts : Forall xset exts -> safe (versionAndCipher k legacy comp suite exts).
Proof.
  intros H. unfold versionAndCipher. do 2 (apply safe_bind; [apply safe_ensure; exact Logic.I|intros _ _]). apply safe_bind; [apply safe_getExtension, H|]. intros x _. destruct x as [[]|]; try exact Logic.I.
  do 2 (apply safe_bind; [apply safe_ensure; exact Logic.I|intros _ _]). exact Logic.I.
Qed.
Lemma find_kex_in g l x : findKex g l = Some x -> exists g', In (g', x) l.
Proof. induction l as [|[g' y] l IH]; cbn [findKex]; [discriminate|]. destruct (_ =? _); [intros [= <-]; exists g'; left; reflexivity|]. intros E. destruct (IH E) as [z Hz]. exists z. right. exact Hz. Qed.
Lemma sh_params_sat m kexs : Forall xset (sh_extensions m) -> Forall (fun p => kex_safe (snd p)) kexs ->
  sat (fun r => let '(_, _, ex) := r in forall g d kx, ex = Some (g, d, kx) -> kex_safe kx) (shParams k m kexs).
Proof.
  intros H Hx. unfold shParams. st (vac_safe (sh_version m) (sh_compression m) (sh_suite m) _ H) as r Er. destruct r as [v c].
  sb (sat_get KServerKeyShare _ H) as x Ex Hs. destruct x as [[]|]; try (cbn; discriminate). match goal with q : (N * buf)%type |- _ => destruct q as [g b] end. destruct (findKex g kexs) as [kx|] eqn:Ef; [|exact Logic.I].
  destruct (Hs _ eq_refl) as [T _]. sb (sat_deref b T) as d Ed Hd. cbn. intros ? ? ? [= <- <- <-]. destruct (find_kex_in _ _ _ Ef) as [g' Hin]. rewrite Forall_forall in Hx. exact (Hx _ Hin).
Qed.
Lemma neg_psk_sat p m v c exchange : Forall xset (sh_extensions m) ->
  sat (fun r => let '(_, mode, _, _) := r in mode <> None -> p <> None) (negotiatePsk k p m v c exchange).
Proof.
  intros H. unfold negotiatePsk. sb (sat_get KServerPresharedKey _ H) as x Ex Hs. destruct p as [q|], x as [[]|]; try exact Logic.I; try (cbn; congruence).
  eapply sat_bind; [apply sat_ensure; exact Logic.I|intros ? _ _]. eapply sat_bind; [apply sat_ensure; exact Logic.I|intros ? _ _].
  st (hash_id_safe c) as a1 Ea. st (hash_id_safe (pk_cipher (cp_psk q))) as b1 Eb. eapply sat_bind; [apply sat_ensure; exact Logic.I|intros ? _ _]. cbv zeta. eapply sat_bind; [apply sat_ensure; exact Logic.I|intros ? _ _].
  cbn. discriminate.
Qed.
Lemma check_sh_safe c h r m : hash_ok h -> hc_hash c = h -> sh_session_id m <> None -> Forall xset (sh_extensions m) -> safe (checkAcceptSH c h r m).
Proof.
  intros Hh Hc H1 H2. unfold checkAcceptSH. apply safe_bind; [|intros; exact Logic.I]. unfold calcAcceptSH, makeDummyServerHello. destruct (sh_session_id m) eqn:E; [|congruence]. cbn [bind]. apply safe_bind.
  - apply safe_encode. cbn. try rewrite E. split; [discriminate|exact H2].
  - intros d _. destruct (ech_secret_ok h Hh r EchAcceptE (hc_context (hc_append c d))) as (x & Ex & _); [|rewrite Ex; exact Logic.I].
    unfold hc_context, hc_append. cbn [hc_hash]. rewrite Hc. apply context_len, Hh.
Qed.
Lemma check_hrr_safe c h r m : hash_ok h -> hc_hash c = h -> hrr_session_id m <> None -> Forall xset (hrr_extensions m) -> safe (checkAcceptHRR c h r m).
Proof.
  intros Hh Hc H1 H2. unfold checkAcceptHRR. apply safe_bind; [apply dummy_hrr_safe; assumption|]. intros a _. apply safe_bind; [apply safe_getExtension, H2|]. intros x _. destruct x as [[]|]; exact Logic.I.
Qed.
Lemma server_hello_sat w s m o : cworld_safe w -> cbase s -> hello_kept s -> msg_set (MServerHello m) -> sat (fun r => cinv_safe (fst r)) (handle_server_hello k w s m o).
Proof.
  intros Hw (B1 & B2 & B3) H [M1 M2]. unfold handle_server_hello. destruct (hk_hello s H) as (hl & req & kexs & E1 & E2 & E3 & E4 & Hx & Hp & Hv). rewrite E1, E2, E3.
  eapply sat_bind; [apply sat_true, safe_bind; [apply each_safe|intros _ _; apply dup_safe]|]. intros ? _ _.
  sb (sh_params_sat m kexs M2 Hx) as r Er Hr. destruct r as [[version cipher] exchange].
  eapply sat_bind; [apply sat_ensure; exact Logic.I|intros ? _ _].
  eapply (sat_bind (fun _ => forall c, g_cipher (c_neg s) = Some c -> c = cipher)).
  { unfold consistent. eapply sat_bind; [apply sat_ensure; exact Logic.I|intros ? _ _]. eapply sat_weaken; [|apply sat_ensure; exact Logic.I]. intros u Hc c Ec. cbv beta in Hc. rewrite Ec in Hc. apply N.eqb_eq, Hc. }
  intros ? _ Hci. eapply sat_bind; [apply (neg_psk_sat (h_psk hl) m version cipher _ M2)|]. intros [[[pt mode] scert] ccert] _ Hm.
  eapply sat_bind; [apply sat_ensure; exact Logic.I|]. intros ? _ Hex. sb (chash_sat cipher) as h Eh Hh.
  eapply (sat_bind (fun k1 => match mode with Some _ => kearly h k1 | None => k1 = ks_init end)).
  { destruct mode as [md|]; [|reflexivity]. destruct (h_psk hl); [apply sat_ex, do_early, Hh|]. exfalso. apply Hm; [discriminate|reflexivity]. }
  intros k1 _ Hk1. eapply (sat_bind (fun r => khs h (fst (fst r)))).
  { destruct exchange as [[[g share] kx]|].
    - destruct (Hr _ _ _ eq_refl) as [_ K2]. st (K2 share) as dh Edh. eapply sat_bind; [apply sat_ex, (do_hs_dh h Hh k1 dh)|intros k2 _ H2; exact H2]. destruct mode; [left|right]; exact Hk1.
    - destruct mode as [[|?]|]; try discriminate Hex. eapply sat_bind; [apply sat_ex, (do_hs h Hh k1 Hk1)|intros k2 _ H2; exact H2]. }
  intros [[k2 group] kt] _ Hk2. cbn [fst] in Hk2.
  eapply (sat_bind (fun r => hc_hash (fst r) = h /\ (c_ech s <> None -> exists ec, snd r = Some ec /\ hc_hash ec = h))).
  { destruct (c_hctx s) as [x|] eqn:Ex.
    - cbn [sat fst snd]. assert (Ha : forall y, hash_of s y -> hc_hash y = h). { intros y (c & C1 & C2). rewrite (Hci c C1) in C2. congruence. }
      split; [exact (Ha _ (hk_hctx s H x Ex))|]. intros Hne. destruct (c_ech s) as [e|] eqn:Ee; [|congruence]. destruct (ek_hctx s e (hk_ech s H e Ee)) as (ec & C1 & C2); [congruence|]. exists ec. split; [exact C1|exact (Ha _ C2)].
    - sb (sat_deref _ E4) as en Een Hen. eapply (sat_bind (fun ehc => c_ech s <> None -> exists ec, ehc = Some ec /\ hc_hash ec = h)).
      + destruct (c_ech s) as [e|] eqn:Ee; [|cbn; congruence]. sb (sat_deref _ (ek_enc s e (hk_ech s H e Ee))) as i Ei Hi. cbn. intros _. eexists. split; reflexivity.
      + intros ehc _ Hehc. cbn. split; [reflexivity|exact Hehc]. }
  intros [hc ehc] _ [Hhc Hehc]. cbn [fst snd] in Hhc, Hehc.
  eapply (sat_bind (fun r => hc_hash (fst r) = h)).
  { destruct (c_ech s) as [e|] eqn:Ee; [|exact Hhc]. destruct (Hehc ltac:(discriminate)) as (ec & -> & Hec).
    st (check_sh_safe ec h (ec_random e) m Hh Hec M1 M2) as acc Ea. eapply sat_bind; [apply sat_ensure; exact Logic.I|intros ? _ _]. destruct acc; cbn; assumption. }
  intros [hc' status] _ Hhc'. cbn [fst] in Hhc'. eapply sat_bind; [apply sat_ensure; exact Logic.I|intros ? _ _]. cbv zeta.
  eapply (sat_bind (fun _ => True)). { destruct (c_read s) eqn:Erd; [|exfalso; exact (hk_read s H Erd)]. eapply sat_weaken; [|apply sat_ensure; exact Logic.I]. auto. }
  intros ? _ _. assert (L : len_ok h (hc_context (hc_append hc' o))) by (unfold hc_context, hc_append; cbn [hc_hash]; rewrite Hhc'; apply context_len, Hh).
  sb (sat_ex _ _ (get_hs h Hh k2 ClientHandshakeTraffic _ Hk2 L)) as ws E5 L5. sb (cnew_write_safe h LvHandshake version cipher ws Hh L5) as wl E6 W6.
  sb (sat_ex _ _ (get_hs h Hh k2 ServerHandshakeTraffic _ Hk2 L)) as rs E7 L7. sb (cnew_read_safe h version cipher rs Hh L7) as rl E8 R8.
  eapply (sat_bind (fun _ => True)).
  { destruct mode; [|exact Logic.I]. destruct (h_psk hl); [exact Logic.I|]. exfalso. apply Hm; [discriminate|reflexivity]. }
  intros hsTime _ _. cbn [sat fst]. unfold cinv_safe. split.
  - split; [intros x [= <-]; exact R8|]. split; [intros x [= <-]; exact W6|exact B3].
  - cbn [c_state]. exists h. split; [|split].
    + constructor; cbn; try discriminate; try exact Hh.
      * exists k2. auto.
      * exists ws, rs. auto.
      * exists (hc_append hc' o). split; [reflexivity|exact Hhc'].
      * eexists. split; [reflexivity|exact Hv].
      * exact (hk_early s H).
      * rewrite (hk_sel s H). intros x [=].
      * destruct (pskAccepted pt); [|discriminate]. destruct ccert; discriminate.
    + eexists. split; [reflexivity|]. cbn. discriminate.
    + cbn. exists pt. split; [reflexivity|]. intros ->. discriminate.
Qed.

(** ** HelloRetryRequest *)
Lemma mh_safe b : safe (encodeHandshake (MMessageHash (Some b))). Proof. apply safe_encode. discriminate. Qed.
Lemma hrr_ech_sat w h s e m o : hash_ok h -> ech_kept s e -> msg_set (MHelloRetryRequest m) ->
  sat (fun r => let '(_, ec, gp) := r in hc_hash ec = h /\ gset gp) (hrr_ech k w h e m o).
Proof.
  intros Hh He [M1 M2]. unfold hrr_ech. sb (sat_deref _ (ek_enc s e He)) as i Ei Hi. st (mh_safe (hc_context (hc_append (hc_new h) i))) as mh Em. cbv zeta.
  st (check_hrr_safe (hc_append (hc_new h) mh) h (ec_random e) m Hh eq_refl M1 M2) as acc Ea.
  eapply (sat_bind gset).
  - pose proof (ek_grease s e He) as G. destruct (ec_grease e) as [g|]; [|cbn; intros ? ? [=]]. sb (grease_hrr_sat (cw_rnd w) g G) as x Ex Hx. exact Hx.
  - intros gp _ Hg. split; [reflexivity|exact Hg].
Qed.
Lemma retry_client_sat w s m o : cworld_safe w -> cbase s -> hello_kept s -> msg_set (MHelloRetryRequest m) -> sat (fun r => cinv_safe (fst r)) (handle_retry k w s m o).
Proof.
  intros Hw B H M. pose proof B as (B1 & B2 & B3). pose proof M as [M1 M2]. unfold handle_retry. destruct (hk_hello s H) as (hl & req & kexs & E1 & E2 & E3 & E4 & Hx & Hp & Hv). rewrite E1, E2, E3.
  eapply sat_bind; [apply sat_true, safe_bind; [apply each_safe|intros _ _; apply dup_safe]|]. intros ? _ _. eapply sat_bind; [apply sat_ensure; exact Logic.I|intros ? _ _].
  st (vac_safe (hrr_version m) (hrr_compression m) (hrr_suite m) _ M2) as r Er. destruct r as [version cipher].
  sb (sat_get KHrrKeyShare _ M2) as x Ex Hsx. eapply (sat_bind (fun _ => True)).
  { destruct x as [[]|]; try exact Logic.I. eapply sat_bind; [apply sat_ensure; exact Logic.I|intros ? _ _]. exact Logic.I. }
  intros group _ _. sb (sat_get KCookie _ M2) as y Ey Hsy. cbv zeta.
  eapply (sat_bind (fun p => forall q, p = Some q -> timed q)).
  { destruct (h_psk hl) as [q|]; [|cbn; discriminate]. st (hash_id_safe cipher) as a1 Ea1. st (hash_id_safe (pk_cipher (cp_psk q))) as b1 Eb1. cbn. destruct (_ =? _); [|discriminate]. intros q' [= <-]. exact (Hp q eq_refl). }
  intros p _ Hp'. eapply (sat_bind (Forall (fun p => kex_safe (snd p)))).
  { destruct group as [g|]; [|exact Hx]. destruct (findKex g kexs); [exact Logic.I|]. apply (kexs_sat w Hw [g] []). constructor. }
  intros kexs' _ Hx'. eapply sat_bind; [apply hello_sat; [exact Hw|exact Hx']|]. intros c0 _ Hc0.
  eapply (sat_bind hello_set).
  { destruct (c_ech s); [|exact Hc0]. sb (enc_sat XEchInner Logic.I) as ie Ee He. exact (set_append c0 ie Hc0 He). }
  intros c1 _ Hc1. sb (chash_sat cipher) as h Eh Hh. sb (sat_deref _ E4) as en Een Hen. st (mh_safe (hc_context (hc_append (hc_new h) en))) as mh Em.
  eapply (sat_bind (fun eres => match c_ech s with Some _ => exists st ec gp, eres = Some (st, ec, gp) /\ hc_hash ec = h /\ gset gp | None => eres = None end)).
  { destruct (c_ech s) as [e|] eqn:Ee; [|reflexivity]. sb (hrr_ech_sat w h s e m o Hh (hk_ech s H e Ee) M) as r Er2 Hr. destruct r as [[status ec] gp]. cbn. exists status, ec, gp. split; [reflexivity|exact Hr]. }
  intros eres _ Heres. eapply (sat_bind (fun r => hello_set (fst r))).
  { destruct p as [q|].
    - match goal with |- context [encodeAndAddBinders c1 q h ?x (cw_now w)] => set (hcx := x) end.
      assert (Hcx : hc_hash hcx = h). { subst hcx. destruct eres as [[[? ec] ?]|]; [|reflexivity]. destruct (c_ech s); [|discriminate]. destruct Heres as (? & ? & ? & [= <- <- <-] & G & _). exact G. }
      sb (binders_sat c1 q h hcx (cw_now w) Hh Hcx (cw_time w Hw) (Hp' q eq_refl) Hc1) as r Er2 Hr. destruct r as [[[c2 enc2] ?] ?]. apply Hr.
    - eapply sat_bind; [apply sat_true, safe_encode; exact Hc1|]. intros enc2 _ _. exact Hc1. }
  intros [c2 enc2] _ Hc2. cbn [fst] in Hc2.
  eapply (sat_bind (fun r : bytes * option echstate => forall e, snd r = Some e -> ec_enc e <> None /\ ctx_ok (ec_ctx e) /\ gset (ec_grease e) /\ exists ec, ec_hctx e = Some ec /\ hc_hash ec = h)).
  { destruct (c_ech s) as [e|] eqn:Ee; [|subst eres; cbn; discriminate]. destruct Heres as (status & ec & gp & -> & G1 & G2).
    eapply (sat_bind (fun _ => True)); [destruct (h_sni hl); exact Logic.I|]. intros sni _ _.
    sb (encrypted_sat false c2 (ec_neg e) (ec_key e) (ec_ctx e) (h_random hl) sni gp (k_outerTypes k) (ek_ctx s e (hk_ech s H e Ee)) Hc2 G2) as r Er3 Hr. destruct r as [ctx' outer]. destruct Hr as [R1 R2]. cbn [fst snd] in R1, R2.
    eapply sat_bind; [apply sat_true, safe_encode; exact R2|]. intros enc _ _. cbn. intros e' [= <-]. cbn. split; [discriminate|]. split; [exact R1|]. split; [exact G2|]. eexists. split; [reflexivity|exact G1]. }
  intros [enc est] _ Hest. cbn [snd] in Hest. destruct (c_write s) as [wl|] eqn:Ew; [|exfalso; exact (hk_write s H Ew)].
  pose proof (wl_write_safe wl 22 [enc] (B2 _ eq_refl)) as G. destruct (wl_write wl 22 [enc]) as [wl' r]. destruct G as (_ & G & _). cbn [snd]. st G as ct Ect. cbn [sat fst]. unfold cinv_safe. split.
  - split; [exact B1|]. split; [intros z Ez; apply (B2 z); exact Ez|]. intros z [=].
  - cbn [c_state]. set (s' := mkC _ _ _ _ _ _ _ _ _ _ _ _ _ _ _).
    assert (Ho : forall hc, hc_hash hc = h -> hash_of s' hc). { intros hc E. exists cipher. split; [reflexivity|congruence]. }
    constructor; subst s'; cbn; try discriminate.
    + exact (hk_read s H).
    + eexists _, _, kexs'. split; [reflexivity|]. cbn [h_req h_kex h_enc h_psk h_verifier]. do 2 (split; [reflexivity|]). split; [discriminate|]. split; [exact Hx'|]. split; [exact Hp'|exact Hv].
    + unfold early_kept. cbn. intros _ [E|E]; pose proof (hk_noacc s H); destruct (g_early (c_neg s)); congruence.
    + pose proof (hk_noacc s H). destruct (g_early (c_neg s)); congruence.
    + intros hc [= <-]. apply Ho. reflexivity.
    + intros e Ee. destruct (Hest e Ee) as (G1 & G2 & G3 & ec & G4 & G5). constructor; auto. intros _. exists ec. split; [exact G4|apply Ho, G5].
    + exact (hk_sel s H).
Qed.

(** ** The rest of the server's flight *)
Lemma cfg_safe b : safe (decode_cfg b).
Proof.
  unfold decode_cfg. apply safe_bind; [apply safe_read_u|intros [[? ?] ?] _]. apply safe_bind; [apply safe_read_u|intros [[? ?] ?] _]. apply safe_bind; [apply safe_read_buf|intros [[? ?] ?] _].
  apply safe_bind; [exact (safe_read_vec _ _ _ _ csafe_hsuite)|intros [[? ?] ?] _]. apply safe_bind; [apply safe_read_u|intros [[? ?] ?] _]. apply safe_bind; [apply safe_read_buf|intros [[nm ?] ?] _].
  destruct nm as [[|? ?]|]; try exact Logic.I. apply safe_bind; [apply safe_read_exts|intros [? ?] _; exact Logic.I].
Qed.
Lemma configs_safe l : Forall psnd l -> safe (mapR parseSupportedECHConfig l).
Proof.
  induction 1 as [|[v b] l H Hl IH]; cbn [mapR]; [exact Logic.I|]. apply safe_bind; [|intros x _; apply safe_bind; [exact IH|intros; exact Logic.I]].
  unfold parseSupportedECHConfig. cbn [fst snd]. unfold psnd in H. cbn [snd] in H. destruct (_ =? _); [|exact Logic.I]. destruct b as [d|]; [|congruence].
  apply safe_bind; [apply cfg_safe|]. intros [? ?] _. exact Logic.I.
Qed.
Lemma flight_same_c s s' h : cflight s h -> c_read s' <> None -> c_write s' <> None -> c_ks s' = c_ks s -> c_secrets s' = c_secrets s ->
  (exists hc, c_hctx s' = Some hc /\ hc_hash hc = h) -> (exists hl hl', c_hello s = Some hl /\ c_hello s' = Some hl' /\ h_verifier hl' = h_verifier hl) ->
  g_version (c_neg s') = g_version (c_neg s) -> g_cipher (c_neg s') = g_cipher (c_neg s) -> g_hsTime (c_neg s') = g_hsTime (c_neg s) -> early_kept s' ->
  osafe (fun p => self_safe (fst p)) (c_selected s') -> (g_auth (c_neg s') = Some CaSent -> c_selected s' <> None) -> cflight s' h.
Proof.
  intros [F1 F2 F3 F4 F5 F6 F7 F8 F9 F10 F11 F12 F13] E1 E2 E3 E4 E5 (hl & hl' & E6 & E7 & E8) E9 E10 E11 E12 E13 E14. constructor; try congruence; auto.
  - rewrite E3. exact F4.
  - rewrite E4. exact F5.
  - destruct F7 as (x & X1 & X2). exists hl'. split; [exact E7|]. rewrite E8. assert (x = hl) by congruence. subst x. exact X2.
Qed.
Lemma hello_self s h : cflight s h -> exists hl hl', c_hello s = Some hl /\ c_hello s = Some hl' /\ h_verifier hl' = h_verifier hl.
Proof. intros F. destruct (cf_hello s h F) as (hl & E & _). exists hl, hl. auto. Qed.
Lemma ee_sat w s l o : cworld_safe w -> cinv_safe s -> c_state s = CExpectingEncryptedExtensions -> Forall xset l -> sat (fun r => cinv_safe (fst r)) (handle_ee k w s l o).
Proof.
  intros Hw (B & H) E Hl. rewrite E in H. destruct H as (h & F & (hl & E1 & E2) & pt & E3 & E4). unfold handle_ee. destruct (cf_hctx s h F) as (hc & E5 & E6). rewrite E1, E5, E3.
  destruct (h_req hl) as [req|] eqn:Er; [|congruence].
  eapply sat_bind; [apply sat_true, safe_bind; [apply each_safe|intros _ _; apply dup_safe]|]. intros ? _ _.
  sb (sat_get KProtocolNameList _ Hl) as a1 Ea Ha. eapply (sat_bind (fun _ => True)).
  { destruct a1 as [[]|]; try (destruct (k_requireAlpn k); exact Logic.I). destruct (Ha _ eq_refl) as [T _]. destruct l0 as [|b [|? ?]]; try exact Logic.I.
    inversion T as [|? ? T1 _]; subst. sb (sat_deref b T1) as n En Hn. eapply sat_bind; [apply sat_ensure; exact Logic.I|intros ? _ _]. exact Logic.I. }
  intros alpn _ _. sb (sat_get KServerEarlyData _ Hl) as e1 Ee Hee.
  eapply (sat_bind (fun ed => ed = CeAttempted \/ ed = CeAccepted -> g_early (c_neg s) = CeAttempted \/ g_early (c_neg s) = CeAccepted)).
  { destruct (g_early (c_neg s)), e1; try exact Logic.I; try (cbn; auto).
    eapply sat_bind; [apply sat_true|intros ? _ _; cbn; auto]. unfold validateAcceptedEarly. destruct (g_psk (c_neg s)) as [[]|], (h_params hl); try exact Logic.I;
      do 2 (apply safe_bind; [apply safe_ensure; exact Logic.I|intros _ _]); apply safe_ensure; exact Logic.I. }
  intros ed _ Hed. eapply (sat_bind (fun _ => True)).
  { destruct (c_ech s) as [es|]; [|exact Logic.I]. sb (sat_get KEchEncryptedExtensions _ Hl) as x Ex Hx. destruct x as [[]|]; try exact Logic.I. destruct (Hx _ eq_refl) as [T _].
    st (configs_safe _ T) as cfgs Ec. destruct (optmap _ cfgs); exact Logic.I. }
  intros rt _ _. eapply (sat_bind (fun _ => True)); [destruct (h_exts hl); [apply sat_true, (cw_onEE_safe w Hw)|exact Logic.I]|]. intros ? _ _. cbv zeta. cbn [sat fst].
  unfold cinv_safe. split; [exact B|]. cbn [c_state].
  match goal with |- context [mkC ?a ?b ?c ?d ?e ?f ?g ?i ?j ?l ?m ?n ?o ?p ?q] => set (s' := mkC a b c d e f g i j l m n o p q) end.
  assert (F' : cflight s' h).
  { eapply flight_same_c; [exact F|..]; subst s'; cbn; try reflexivity.
    - exact (cf_read s h F).
    - exact (cf_write s h F).
    - eexists. split; [reflexivity|exact E6].
    - exists hl. eexists. split; [exact E1|]. split; reflexivity.
    - unfold early_kept. cbn. intros O X. exact (cf_early s h F O (Hed X)).
    - exact (cf_sel s h F).
    - exact (cf_auth s h F). }
  subst s'. destruct (pskAccepted pt); [exists h; split; [exact F'|cbn; auto]|exists h; exact F'].
Qed.
Lemma auth_inv s h st hc ch sel auth server sg comp : cflight s h -> hc_hash hc = h -> osafe (fun p => self_safe (fst p)) sel -> (auth = Some CaSent -> sel <> None) -> cflight (cu_auth s st hc ch sel auth server sg comp) h.
Proof.
  intros F Hh Hs Ha. eapply flight_same_c; [exact F|..]; cbn; try reflexivity; try assumption.
  - exact (cf_read s h F).
  - exact (cf_write s h F).
  - eexists. split; [reflexivity|exact Hh].
  - exact (hello_self s h F).
  - exact (cf_early s h F).
Qed.
Lemma cert_request_sat s m o : cinv_safe s -> c_state s = CExpectingCertificate -> msg_set (MCertificateRequest m) -> sat (fun r => cinv_safe (fst r)) (handle_cert_request k s m o).
Proof.
  intros (B & H) E [M1 M2]. rewrite E in H. destruct H as (h & F). unfold handle_cert_request. eapply sat_bind; [apply sat_ensure; exact Logic.I|intros ? _ _].
  destruct (cf_hctx s h F) as (hc & E5 & E6). destruct (cf_hello s h F) as (hl & E1 & _). rewrite E5, E1. sb (sat_deref _ M1) as ctx Ec Hc.
  eapply sat_bind; [apply sat_ensure; exact Logic.I|intros ? _ _]. sb (sat_get KSignatureAlgorithms _ M2) as x Ex Hx. destruct x as [[]|]; try exact Logic.I.
  eapply (sat_bind (osafe (fun p : selfobj * N => self_safe (fst p)))).
  { destruct (k_getCert k) as [f|] eqn:Ef; [|intros z [=]]. apply sat_safe; [exact (cv_cert k Hk f _ _ _ Ef)|]. intros sel Es [so sc] ->. exact (cv_cert_set k Hk f _ _ _ so sc Ef Es). }
  intros sel _ Hs. cbn [sat fst]. unfold cinv_safe. split; [exact B|]. cbn [cu_auth c_state]. exists h. apply (auth_inv s h); auto. destruct sel; [discriminate|intros [=]].
Qed.
Lemma server_certs_sat w exts l : cworld_safe w -> forall leaf, sat (Forall peer_safe) (server_certs k w exts l leaf).
Proof.
  intros Hw. induction l as [|x l IH]; intros leaf; cbn [server_certs]; [constructor|]. eapply (sat_bind (fun _ => True)).
  { destruct exts.
    - eapply sat_bind; [apply (cw_exts_safe w Hw)|]. intros sent _ _. eapply sat_weaken; [|apply sat_ensure; exact Logic.I]. auto.
    - eapply sat_weaken; [|apply sat_ensure; exact Logic.I]. auto. }
  intros ? _ _. eapply (sat_bind peer_safe).
  { apply sat_safe; [apply (cv_peer k Hk)|]. intros p Ep s c t sig. exact (cv_verify k Hk x leaf p s c t sig Ep). }
  intros p _ Hp. sb (IH false) as ps Ep Hps. constructor; assumption.
Qed.
Lemma cert_msg_sat w s m a o : cworld_safe w -> cinv_safe s -> c_state s = CExpectingCertificate -> cm_context m <> None -> sat (fun r => cinv_safe (fst r)) (handle_cert_msg k w s m a o).
Proof.
  intros Hw (B & H) E M1. rewrite E in H. destruct H as (h & F). unfold handle_cert_msg. destruct (cf_hctx s h F) as (hc & E5 & E6). destruct (cf_hello s h F) as (hl & E1 & _). rewrite E5, E1.
  sb (sat_deref _ M1) as ctx Ec Hc. eapply sat_bind; [apply sat_ensure; exact Logic.I|intros ? _ _]. sb (server_certs_sat w (h_exts hl) (cm_list m) Hw true) as certs Ecs Hcs.
  eapply sat_bind; [apply sat_ensure; exact Logic.I|]. intros ? _ Hne. cbn [sat fst]. unfold cinv_safe. split; [exact B|]. cbn [cu_auth c_state]. exists h. split; [|split].
  - apply (auth_inv s h); auto; [exact (cf_sel s h F)|]. intros X. destruct (g_auth (c_neg s)) as [[]|] eqn:Eg; try discriminate X. exact (cf_auth s h F Eg).
  - cbn. discriminate.
  - destruct certs as [|p ps]; [discriminate Hne|]. exists p, ps. split; [reflexivity|exact Hcs].
Qed.
Lemma compressed_sat w s m o : cworld_safe w -> cinv_safe s -> c_state s = CExpectingCertificate -> sat (fun r => cinv_safe (fst r)) (handle_compressed_cert k w s m o).
Proof.
  intros Hw H E. unfold handle_compressed_cert. do 2 (eapply sat_bind; [apply sat_ensure; exact Logic.I|intros ? _ _]).
  eapply (sat_bind (fun d => cm_context d <> None)).
  { pose proof (cv_decomp k Hk m) as S. pose proof (cv_decomp_set k Hk m) as T. unfold as_bad_certificate. destruct (k_decompress k m) as [d|[]]; cbn; auto. }
  intros d _ Hd. apply cert_msg_sat; assumption.
Qed.
Lemma cert_verify_sat s m o : cinv_safe s -> c_state s = CExpectingCertificateVerify -> cv_signature m <> None -> sat (fun r => cinv_safe (fst r)) (handle_cert_verify k s m o).
Proof.
  intros (B & H) E M1. rewrite E in H. destruct H as (h & F & A & p & l & Ec & Hc). unfold handle_cert_verify. eapply sat_bind; [apply sat_ensure; exact Logic.I|intros ? _ _].
  destruct (cf_hctx s h F) as (hc & E5 & E6). destruct (cf_hello s h F) as (hl & E1 & Hv). rewrite Ec, E5, E1. sb (sat_deref _ M1) as sg Es Hs.
  inversion Hc as [|? ? Hp _]; subst. st (Hp (cv_algorithm m) CvServer (hc_context hc) sg) as u Eu. eapply (sat_bind (fun _ => True)).
  { destruct (h_verifier hl) as [v|] eqn:Ev; [|exact Logic.I]. eapply sat_bind; [apply sat_true|intros ? _ _; exact Logic.I].
    pose proof (Hv v (p :: l) eq_refl) as S. unfold as_verification. destruct (v (p :: l)) as [|[[]| | | |]]; cbn; auto. }
  intros nc _ _. cbn [sat fst]. unfold cinv_safe. split; [exact B|]. cbn [cu_auth c_state]. exists (hc_hash hc). split; [|exact A].
  apply (auth_inv s (hc_hash hc)); auto; [exact (cf_sel s _ F)|exact (cf_auth s _ F)].
Qed.

(** ** Finished *)
Definition chres_safe (r : chres) : Prop :=
  match r with CHOk s _ => cinv_safe s | CHErr s x => esafe x /\ cbase s | CHSilent s => cbase s end.
Lemma cof_res_safe s r : cbase s -> sat (fun p => cinv_safe (fst p)) r -> chres_safe (cof_res s r).
Proof. intros B H. destruct r as [[s' l]|x]; cbn in *; auto. Qed.
Lemma cbase_write s wl : cbase s -> wl_safe wl -> cbase (cu_write s (Some wl)).
Proof. intros (B1 & B2 & B3) H. split; [exact B1|]. split; [intros x [= <-]; exact H|exact B3]. Qed.
Lemma cwith_write_safe s ty q f : cbase s -> c_write s <> None ->
  (forall wl ct, wl_safe wl -> chres_safe (f (cu_write s (Some wl)) ct)) -> chres_safe (cwith_write s ty q f).
Proof.
  intros B Hw Hf. unfold cwith_write. destruct (c_write s) as [wl|] eqn:E; [|congruence]. pose proof B as (B1 & B2 & B3).
  pose proof (wl_write_safe wl ty q (B2 _ E)) as G. destruct (wl_write wl ty q) as [wl' r]. destruct G as (G1 & G2 & _). cbv zeta.
  destruct r as [ct|x]; [apply Hf, G1|]. cbn. split; [destruct x; exact G2|]. apply cbase_write; assumption.
Qed.
Lemma cunparsed_some s : c_read s <> None -> cno_unparsed s <> None.
Proof. unfold cno_unparsed. destruct (c_read s); congruence. Qed.
Lemma client_auth_sat s auth hc : osafe (fun p => self_safe (fst p)) (c_selected s) -> (auth = CaSent -> c_selected s <> None) -> sat (fun r => hc_hash (snd (fst r)) = hc_hash hc) (client_auth s auth hc).
Proof.
  intros Hs Ha. unfold client_auth. destruct auth; try reflexivity.
  destruct (c_selected s) as [[so scheme]|]; [|exfalso; apply Ha; reflexivity]. pose proof (Hs _ eq_refl) as S. cbn [fst] in S.
    eapply sat_bind; [apply sat_safe; [exact (ss_message so S)|exact (ss_set so S)]|]. intros cm _ Hcm.
    eapply sat_bind; [apply sat_true, safe_encode; exact Hcm|]. intros m _ _. cbv zeta. st (ss_sign so S scheme CvClient (hc_context (hc_append hc m))) as sg Esg.
    eapply sat_bind; [apply sat_true, safe_encode; discriminate|]. intros v _ _. reflexivity.
Qed.
Lemma prepare_sat s hc cs h k0 auth : cflight s h -> cbase s -> hc_hash hc = h -> len_ok h cs -> khs h k0 -> g_auth (c_neg s) = Some auth ->
  sat (fun r => let '(_, _, _, _, rms, k1) := r in kmaster h k1 /\ len_ok h rms) (finished_prepare k s hc cs h k0 auth).
Proof.
  intros F (B1 & B2 & B3) Hc Lc Hk0 Ea. pose proof (cf_hash s h F) as Hh. unfold finished_prepare. sb (sat_ex _ _ (do_master h Hh k0 Hk0)) as k1 E1 H1.
  eapply (sat_bind (fun r => hc_hash (snd r) = h)).
  { destruct (g_early (c_neg s)) eqn:Eg; try exact Hc. destruct (k_omitEarly k) eqn:Eo; [exact Hc|]. eapply sat_bind; [apply sat_true, safe_encode; exact Logic.I|]. intros m _ _.
    destruct (c_earlyw s) as [wl|] eqn:Ew; [|exfalso; exact (cf_early s h F Eo (or_intror Eg) Ew)].
    pose proof (wl_write_safe wl 22 [m] (B3 _ eq_refl)) as G. destruct (wl_write wl 22 [m]) as [wl' r]. destruct G as (_ & G & _). cbn [snd]. st G as ct Ect. exact Hc. }
  intros [eoed hc1] _ Hc1. cbn [snd] in Hc1. eapply sat_bind; [apply client_auth_sat; [exact (cf_sel s h F)|]|].
  { intros ->. exact (cf_auth s h F Ea). }
  intros [[msgs hc2] ccert] _ Hc2. cbn [fst snd] in Hc2.
  assert (L0 : len_ok h (hc_context hc)) by (unfold hc_context; rewrite Hc; apply context_len, Hh).
  sb (sat_ex _ _ (get_master h Hh k1 ExporterMaster _ H1 L0)) as ems E2 H2. sb (get_finished_sat h hc2 cs Hh (eq_trans Hc2 Hc1) Lc) as r Er H3. destruct r as [fin hc3]. cbn [snd] in H3.
  assert (L3 : len_ok h (hc_context hc3)) by (unfold hc_context; rewrite H3; apply context_len, Hh).
  sb (sat_ex _ _ (get_master h Hh k1 ResumptionMaster _ H1 L3)) as rms E4 H4. split; assumption.
Qed.
Lemma cfinished_safe s vd o : cinv_safe s -> c_state s = CExpectingFinished -> c_read s <> None -> vd <> None -> chres_safe (chandle_finished k s vd o).
Proof.
  intros (B & H) E R Hvd. rewrite E in H. destruct H as (h & F & A). pose proof (cf_hash s h F) as Hh. unfold chandle_finished.
  destruct (cf_hctx s h F) as (hc & E1 & E1'). destruct (cf_secrets s h F) as (cs & ss & E2 & L1 & L2). destruct (cf_ks s h F) as (k0 & E3 & K0).
  rewrite E1, E2, E3. destruct (g_version (c_neg s)) as [version|] eqn:Ev; [|exfalso; exact (cf_version s h F Ev)]. destruct (g_cipher (c_neg s)) as [cipher|] eqn:Ec; [|exfalso; exact (cf_cipher s h F Ec)].
  destruct (g_auth (c_neg s)) as [auth|] eqn:Ea; [|congruence]. pose proof (cunparsed_some s R). destruct (cno_unparsed s) as [[]|]; [|cbn; auto|congruence].
  destruct (finished_ok' h Hh hc ss E1' L2) as (expd & Ef & _). rewrite Ef. destruct vd as [got|]; [|congruence]. destruct (negb _); [cbn; auto|]. cbv zeta.
  pose proof (prepare_sat s (hc_append hc o) cs h k0 auth F B E1' L1 K0 Ea) as P. destruct (finished_prepare k s (hc_append hc o) cs h k0 auth) as [[[[[[eoed msgs] ccert] ems] rms] k1]|x]; [|cbn in P |- *; auto].
  destruct P as [P1 P2]. apply cwith_write_safe; [exact B|exact (cf_write s h F)|]. intros wl0 ct Hwl0.
  assert (Lh : len_ok h (hc_context (hc_append hc o))) by (unfold hc_context, hc_append; cbn [hc_hash]; rewrite E1'; apply context_len, Hh).
  destruct (do_app h Hh k1 _ P1 Lh) as (k2 & Q1 & Q2 & Q3). rewrite Q1. cbn [bind]. destruct (do_clear h k2 Q2 Q3) as (k3 & Q4 & Q5). rewrite Q4. cbn [bind].
  destruct (get_app h k3 ClientAppTraffic Q5) as (ws & Q6 & Q7). rewrite Q6. cbn [bind].
  pose proof (cbase_write s wl0 B Hwl0) as B'.
  pose proof (cnew_write_safe h LvAppTraffic version cipher ws Hh Q7) as W. destruct (cnew_write k h LvAppTraffic version cipher ws) as [wl|x]; cbn [bind]; [|cbn in W |- *; auto]. cbn [sat] in W.
  destruct (get_app h k3 ServerAppTraffic Q5) as (rs & Q8 & Q9). rewrite Q8. cbn [bind].
  pose proof (cnew_read_safe h version cipher rs Hh Q9) as Rd. destruct (cnew_read k h version cipher rs) as [rl|x]; cbn [bind]; [|cbn in Rd |- *; auto]. cbn [sat] in Rd.
  match goal with |- context [CHOk ?x (_ ++ [KSuccess _])] => set (s2 := x) end.
  assert (I2 : cinv_safe s2).
  { unfold cinv_safe. subst s2. cbn [c_state]. split.
    - split; [intros z [= <-]; exact Rd|]. split; [intros z [= <-]; exact W|intros z [=]].
    - exists h. constructor; cbn; try discriminate; try exact Hh.
      + exists k3. auto.
      + exact (cf_time s h F).
      + exists rms. auto. }
  assert (Ie : cinv_safe (cu_state (cu_layers s2 None None) CError)).
  { unfold cinv_safe. subst s2. cbn. split; [|exact Logic.I]. split; [intros z [=]|]. split; intros z [=]. }
  destruct (c_ech s) as [e|]; [|exact I2]. destruct (ec_status e); try exact I2.
  change (c_write (cu_write s (Some wl0))) with (Some wl0). cbv iota beta.
  pose proof (wl_write_safe wl0 21 [alert_bytes al_ech_required] Hwl0) as G. destruct (wl_write wl0 21 [alert_bytes al_ech_required]) as [wl' r]. destruct G as (_ & G & _). cbn [snd].
  destruct r as [al|[]]; try exact Ie; destruct G.
Qed.

(** ** After the handshake *)
Definition nst_fits (m : hsmsg) : Prop := match m with MNewSessionTicket n => nst_lifetime n < 2 ^ 32 /\ (forall b, nst_nonce n = Some b -> blen b <= 255) | _ => True end.
Lemma decode_nst_fits b n r : decode_nst b = Ok (n, r) -> nst_fits (MNewSessionTicket n).
Proof.
  unfold decode_nst. intros H. destruct (bind_Ok _ _ _ H) as ([[l x1] r0] & E1 & H1). destruct (bind_Ok _ _ _ H1) as ([[a x2] r1] & E2 & H2). destruct (bind_Ok _ _ _ H2) as ([[nn x3] r2] & E3 & H3).
  destruct (bind_Ok _ _ _ H3) as ([[t x4] r3] & E4 & H4). destruct (bind_Ok _ _ _ H4) as ([ex' r4] & E5 & H5). injection H5 as <- _. cbn.
  apply read_u_inv in E1. destruct E1 as [E1 _]. unfold in_u in E1. apply N.ltb_lt in E1. split; [exact E1|]. intros bb ->.
  apply read_buf_inv in E3. destruct E3 as (_ & E3 & _). unfold HandshakeSpec.ofits, CodecSpec.fits_len in E3. cbn [CodecSpec.bufbytes lw_nat] in E3. apply N.ltb_lt in E3. change (256 ^ N.of_nat 1) with 256 in E3. lia.
Qed.
Lemma parse_fits ty b m : parse_handshake ty b = Ok m -> nst_fits m.
Proof.
  unfold parse_handshake. repeat match goal with |- (if ?x then _ else _) = _ -> _ => destruct x; [|] end; intros H; try discriminate H; try (injection H as <-; exact Logic.I).
  all: destruct (bind_Ok _ _ _ H) as (x & E & K); clear H; apply decode_all_in in E; destruct E as (r & E); try (injection K as <-; exact Logic.I).
  - destruct (bytes_eqb _ _); injection K as <-; exact Logic.I.
  - injection K as <-. exact (decode_nst_fits _ _ _ E).
Qed.
Definition ev_fits (ev : event) : Prop := match ev with EvHandshake m _ => nst_fits m | _ => True end.
Lemma hs_fits u m o r : decode_hs u = Ok (Some (m, o, r)) -> nst_fits m.
Proof.
  unfold decode_hs. destruct u as [|? [|? [|? [|? ?]]]]; try discriminate. cbv zeta. destruct (_ <? _); [discriminate|].
  destruct (take _ _) as [[? ?]|]; [|discriminate]. intros H. destruct (bind_Ok _ _ _ H) as (x & E & K). injection K as <- _ _. exact (parse_fits _ _ _ E).
Qed.
Lemma loop_fits : forall f u l b s' b' ev, ev_loop f u l b = RMsg s' b' ev -> ev_fits ev.
Proof.
  induction f; intros u l b s' b' ev H; [discriminate|]. cbn [ev_loop] in H. destruct (layer_read l b) as [l' b1 hint|l' b1 m|er]; try discriminate.
  destruct (_ && _); [discriminate|]. destruct (m_type m =? ct_alert).
  { destruct (decode_all _ _) as [a|er]; [|discriminate]. destruct (_ =? 0); injection H as <- <- <-; exact Logic.I. }
  destruct (m_type m =? ct_handshake).
  { destruct (decode_hs (u ++ m_frag m)) as [[[[mm oo] rr]|]|er] eqn:E; [|apply (IHf _ _ _ _ _ _ H)|discriminate]. injection H as <- <- <-. exact (hs_fits _ _ _ _ E). }
  destruct (_ =? _); [injection H as <- <- <-; exact Logic.I|discriminate].
Qed.
Lemma read_fits s b s' b' ev : read_event s b = RMsg s' b' ev -> ev_fits ev.
Proof.
  unfold read_event. destruct (ev_unparsed s) as [|x u]; [apply loop_fits|]. destruct (decode_hs (x :: u)) as [[[[mm oo] rr]|]|er] eqn:E; [|apply loop_fits|discriminate].
  intros H. injection H as <- <- <-. exact (hs_fits _ _ _ _ E).
Qed.
Lemma ticket_sat w s m o : cworld_safe w -> cinv_safe s -> c_state s = CEstablished -> ev_set (EvHandshake (MNewSessionTicket m) o) -> nst_fits (MNewSessionTicket m) ->
  sat (fun r => cinv_safe (fst r)) (handle_ticket k w s m).
Proof.
  intros Hw H E (M1 & M2 & M3) [N1 N2]. pose proof H as (B & H'). rewrite E in H'. destruct H' as (h & D). pose proof (cd_hash s h D) as Hh. unfold handle_ticket. cbv zeta.
  destruct (cd_ks s h D) as (k2 & E1 & K2). destruct (cd_res s h D) as (rms & E2 & L2). rewrite E1, E2.
  destruct (g_version (c_neg s)) as [version|] eqn:Ev; [|exfalso; exact (cd_version s h D Ev)]. destruct (g_cipher (c_neg s)) as [cipher|] eqn:Ec; [|exfalso; exact (cd_cipher s h D Ec)].
  destruct (g_hsTime (c_neg s)) as [ht|] eqn:Et; [|exfalso; exact (cd_time s h D Et)].
  sb (sat_deref _ M1) as nonce En Hn. eapply (sat_bind (fun _ => True)).
  { apply sat_true. unfold kget. cbn [ks_step snd]. pose proof (hl_small h Hh).
    destruct (el_len h Hh rms (str "resumption") nonce (h_len h) L2) as (x & Ex & _); [vm_compute; discriminate|exact (N2 _ Hn)|lia|]. rewrite Ex. exact Logic.I. }
  intros sec _ _. sb (sat_deref _ M2) as t Et' Ht. eapply sat_bind; [apply sat_true, chk64_safe|].
  { destruct (cw_time2 w Hw) as [T1 T2]. unfold int64, ns_per_s. apply andb_true_iff. rewrite Z.leb_le, Z.ltb_lt. change (2 ^ 62)%Z with 4611686018427387904%Z in *. change (2 ^ 63)%Z with 9223372036854775808%Z. change (2 ^ 32) with 4294967296 in N1. lia. }
  intros ex' _ _. sb (sat_get KTicketEarlyData _ M3) as x Ex Hx. exact H.
Qed.
Lemma data_same s s' h : cdata s h -> c_read s' <> None -> c_write s' <> None -> c_ks s' = c_ks s -> c_neg s' = c_neg s -> c_resumption s' = c_resumption s -> cdata s' h.
Proof. intros [D1 D2 D3 D4 D5 D6 D7 D8] E1 E2 E3 E4 E5. constructor; rewrite ?E3, ?E4, ?E5; auto. Qed.
Lemma data_inv_c s h : cbase s -> c_state s = CEstablished -> cdata s h -> cinv_safe s.
Proof. intros B E D. unfold cinv_safe. rewrite E. eauto. Qed.
Lemma capp_write_safe s q : cinv_safe s -> c_state s = CEstablished -> chres_safe (chandle_app_write s q).
Proof.
  intros (B & H) E. rewrite E in H. destruct H as (h & D). unfold chandle_app_write. apply cwith_write_safe; [exact B|exact (cd_write s h D)|]. intros wl ct Hwl. cbn [chres_safe].
  apply data_inv_c with h; [apply cbase_write; assumption|exact E|]. eapply data_same; [exact D|exact (cd_read s h D)|discriminate|reflexivity|reflexivity|reflexivity].
Qed.
Lemma crekey_safe s h f : cbase s -> cdata s h ->
  (forall k' wl ws, wl_safe wl -> cdata (cu_write (cu_ks s (Some (h, k'))) (Some wl)) h -> chres_safe (f (cu_write (cu_ks s (Some (h, k'))) (Some wl)) ws)) -> chres_safe (crekey_write k s f).
Proof.
  intros B D Hf. pose proof (cd_hash s h D) as Hh. unfold crekey_write. destruct (cd_ks s h D) as (k2 & E1 & K2). rewrite E1.
  destruct (g_version (c_neg s)) as [version|] eqn:Ev; [|exfalso; exact (cd_version s h D Ev)]. destruct (g_cipher (c_neg s)) as [cipher|] eqn:Ec; [|exfalso; exact (cd_cipher s h D Ec)].
  destruct (do_cku h Hh k2 K2) as (k' & E2 & K'). rewrite E2. cbn [bind]. destruct (get_app h k' ClientAppTraffic K') as (ws & E3 & L3). rewrite E3. cbn [bind].
  pose proof (cnew_write_safe h LvAppTraffic version cipher ws Hh L3) as S. destruct (cnew_write k h LvAppTraffic version cipher ws) as [wl|er]; cbn [bind]; [|cbn in S |- *; auto]. cbn [sat] in S.
  apply Hf; [exact S|]. destruct D as [D1 D2 D3 D4 D5 D6 D7 D8]. constructor; cbn; auto; [discriminate|]. exists k'. auto.
Qed.
Lemma cku_init_safe s req : cinv_safe s -> c_state s = CEstablished -> chres_safe (chandle_ku_init k s req).
Proof.
  intros (B & H) E. rewrite E in H. destruct H as (h & D). unfold chandle_ku_init. pose proof (cunparsed_some s (cd_read s h D)). destruct (cno_unparsed s) as [[]|]; [|cbn; auto|congruence].
  assert (Sm : safe (encodeHandshake (MKeyUpdate req))) by (apply safe_encode; exact Logic.I). destruct (encodeHandshake (MKeyUpdate req)) as [m|er]; [|cbn; auto].
  apply cwith_write_safe; [exact B|exact (cd_write s h D)|]. intros wl ct Hwl. pose proof (cbase_write s wl B Hwl) as B1.
  assert (D1 : cdata (cu_write s (Some wl)) h) by (eapply data_same; [exact D|exact (cd_read s h D)|discriminate|reflexivity|reflexivity|reflexivity]).
  apply crekey_safe with h; [exact B1|exact D1|]. intros k' wl' ws Hwl' D2. cbn [chres_safe]. apply data_inv_c with h; [|exact E|exact D2].
  destruct B1 as (X1 & X2 & X3). split; [exact X1|]. split; [intros x [= <-]; exact Hwl'|exact X3].
Qed.
Lemma cku_safe s req : cinv_safe s -> c_state s = CEstablished -> chres_safe (chandle_ku k s req).
Proof.
  intros (B & H) E. rewrite E in H. destruct H as (h & D). pose proof (cd_hash s h D) as Hh. unfold chandle_ku. pose proof (cunparsed_some s (cd_read s h D)). destruct (cno_unparsed s) as [[]|]; [|cbn; auto|congruence].
  destruct (cd_ks s h D) as (k2 & E1 & K2). rewrite E1.
  destruct (g_version (c_neg s)) as [version|] eqn:Ev; [|exfalso; exact (cd_version s h D Ev)]. destruct (g_cipher (c_neg s)) as [cipher|] eqn:Ec; [|exfalso; exact (cd_cipher s h D Ec)].
  destruct (do_sku h Hh k2 K2) as (k' & E2 & K'). rewrite E2. cbn [bind]. destruct (get_app h k' ServerAppTraffic K') as (rs & E3 & L3). rewrite E3. cbn [bind].
  pose proof (cnew_read_safe h version cipher rs Hh L3) as S. destruct (cnew_read k h version cipher rs) as [rl|er]; cbn [bind]; [|cbn in S |- *; auto]. cbn [sat] in S. cbv zeta.
  set (s1 := cu_ks s (Some (h, k'))). assert (D1 : cdata s1 h). { destruct D as [D1 D2 D3 D4 D5 D6 D7 D8]. subst s1. constructor; cbn; auto. exists k'. auto. }
  assert (B1 : cbase s1) by exact B.
  destruct (req =? 0).
  - cbn [chres_safe]. apply data_inv_c with h; [|exact E|]; [|eapply data_same; [exact D1|discriminate|exact (cd_write s h D)|reflexivity|reflexivity|reflexivity]].
    destruct B as (X1 & X2 & X3). split; [intros x [= <-]; exact S|]. split; [exact X2|exact X3].
  - assert (Sm : safe (encodeHandshake (MKeyUpdate 0))) by (apply safe_encode; exact Logic.I). destruct (encodeHandshake (MKeyUpdate 0)) as [m|er]; [|cbn; auto].
    apply cwith_write_safe; [exact B1|exact (cd_write s h D)|]. intros wl ct Hwl. pose proof (cbase_write s1 wl B1 Hwl) as B2.
    assert (D2 : cdata (cu_write s1 (Some wl)) h) by (eapply data_same; [exact D1|exact (cd_read s h D)|discriminate|reflexivity|reflexivity|reflexivity]).
    apply crekey_safe with h; [exact B2|exact D2|]. intros k3 wl' ws Hwl' D3. cbn [chres_safe]. apply data_inv_c with h; [|exact E|].
    + destruct B2 as (X1 & X2 & X3). split; [intros x [= <-]; exact S|]. split; [intros x [= <-]; exact Hwl'|exact X3].
    + eapply data_same; [exact D3|discriminate|discriminate|reflexivity|reflexivity|reflexivity].
Qed.
Lemma ignore_safe s q : cinv_safe s -> chres_safe (ignore_early s q).
Proof. intros H. unfold ignore_early. destruct (g_early (c_neg s)); cbn; try exact (proj1 H); exact H. Qed.
Lemma late_safe s q : cinv_safe s -> c_state s = CEstablished -> chres_safe (handle_late_early s q).
Proof. intros H E. unfold handle_late_early. destruct (g_early (c_neg s)); try (apply ignore_safe; exact H). apply capp_write_safe; assumption. Qed.
Lemma early_state_inv s wl ccs : cinv_safe s -> c_earlyw s <> None -> wl_safe wl -> cinv_safe (cu_early s (Some wl) ccs).
Proof.
  intros ((B1 & B2 & B3) & H) Hn Hwl. unfold cinv_safe. split; [split; [exact B1|]; split; [exact B2|]; intros x [= <-]; exact Hwl|]. cbn [cu_early c_state].
  assert (FS : forall h, cflight s h -> cflight (cu_early s (Some wl) ccs) h).
  { intros h F. eapply flight_same_c; [exact F|..]; cbn; try reflexivity.
    - exact (cf_read s h F).
    - exact (cf_write s h F).
    - exact (cf_hctx s h F).
    - exact (hello_self s h F).
    - unfold early_kept. cbn. discriminate.
    - exact (cf_sel s h F).
    - exact (cf_auth s h F). }
  destruct (c_state s); auto.
  - destruct H as [A1 A2 A3 A4 A5 A6 A7 A8]. constructor; cbn; auto; [unfold early_kept; cbn; discriminate|]. intros e Ee. destruct (A7 e Ee). constructor; auto.
  - destruct H as (h & F & A). exists h. split; [apply FS, F|exact A].
  - destruct H as (h & F). exists h. apply FS, F.
  - destruct H as (h & F & A). exists h. split; [apply FS, F|exact A].
  - destruct H as (h & F & A). exists h. split; [apply FS, F|exact A].
  - destruct H as (h & D). exists h. eapply data_same; [exact D|exact (cd_read s h D)|exact (cd_write s h D)|reflexivity|reflexivity|reflexivity].
Qed.
Lemma early_write_safe s q : cinv_safe s -> early_kept s -> chres_safe (handle_early k s q).
Proof.
  intros H He. unfold handle_early. destruct (k_omitEarly k) eqn:Eo; [exact (proj1 H)|].
  assert (G : g_early (c_neg s) = CeAttempted \/ g_early (c_neg s) = CeAccepted -> chres_safe
    match c_earlyw s with
      | None => CHErr s EUB
      | Some wl =>
          let '(wl', r) := wl_write wl 23 q in
          match r with
          | Ok ct => CHOk (cu_early s (Some wl') (c_ccs s || k_compat k)) [KWrite (ccs_first k (c_ccs s) ++ [ct])]
          | Err e => CHErr (cu_early s (Some wl') (c_ccs s)) e
          end
      end).
  { intros X. pose proof (He Eo X) as N. destruct (c_earlyw s) as [wl|] eqn:Ew; [|congruence]. pose proof H as ((B1 & B2 & B3) & _).
    pose proof (wl_write_safe wl 23 q (B3 _ Ew)) as G. destruct (wl_write wl 23 q) as [wl' r]. destruct G as (G1 & G2 & _). destruct r as [ct|x].
    - cbn [chres_safe]. apply early_state_inv; [exact H|congruence|exact G1].
    - cbn. split; [destruct x; exact G2|]. split; [exact B1|]. split; [exact B2|]. intros z [= <-]. exact G1. }
  destruct (g_early (c_neg s)) eqn:Eg; [exact (proj1 H)|apply G; auto| |apply G; auto]. apply ignore_safe, H.
Qed.
Lemma cclose_safe s post reply : cinv_safe s -> (c_state s = CEstablished \/ reply = false) -> c_read s <> None -> chres_safe (chandle_close s post reply).
Proof.
  intros (B & H) E R. unfold chandle_close. pose proof (cunparsed_some s R). destruct (cno_unparsed s) as [[]|]; [|cbn; auto|congruence].
  assert (G : forall s', osafe wl_safe (c_earlyw s') -> cinv_safe (cu_state (cu_layers s' None None) CClosed)).
  { intros s' X. unfold cinv_safe. cbn. split; [|exact Logic.I]. split; [intros x [=]|]. split; [intros x [=]|exact X]. }
  destruct reply; [|cbn [chres_safe]; apply G, B]. destruct E as [E|[=]]. rewrite E in H. destruct H as (h & D). apply cwith_write_safe; [exact B|exact (cd_write s h D)|].
  intros wl ct Hwl. cbn [chres_safe]. apply G, B.
Qed.

(** ** The step *)
Lemma inv_read s : cinv_safe s -> match c_state s with CExpectingServerHello | CExpectingEncryptedExtensions | CExpectingFinished => early_kept s | _ => True end.
Proof.
  intros (_ & H). destruct (c_state s); auto; [exact (hk_early s H)|destruct H as (h & F & _); exact (cf_early s h F)|destruct H as (h & F & _); exact (cf_early s h F)].
Qed.
Lemma chandle_safe w s ev : cworld_safe w -> cinv_safe s -> (forall x, ev = ERead x -> ev_set x /\ ev_fits x /\ c_read s <> None) -> (forall cn, ev = EConnect cn -> conn_safe cn) -> chres_safe (chandle k w s ev).
Proof.
  intros Hw H Hev Hcn. pose proof (proj1 H) as B. pose proof (inv_read s H) as He.
  assert (Inv : chres_safe match ev with ERead (EvAlert _) => CHSilent s | _ => CHErr s (alert al_unexpected_message) end).
  { destruct ev as [|[]| | | |]; cbn; auto; split; auto. }
  unfold chandle. cbv zeta. destruct (c_state s) eqn:E.
  - destruct ev as [cn|[]| | | |]; try exact Inv. apply cof_res_safe; [exact B|]. destruct H as (_ & H). rewrite E in H. destruct H as [H1 H2]. apply connect_sat; auto.
  - destruct ev as [cn|[]| | | |]; try exact Inv; [|apply early_write_safe; assumption]. destruct (Hev _ eq_refl) as (Hs & Hf & R). destruct H as (_ & H). rewrite E in H.
    destruct m; try exact Inv; apply cof_res_safe; auto; [apply server_hello_sat|apply retry_client_sat]; assumption.
  - destruct ev as [cn|[]| | | |]; try exact Inv; [|apply early_write_safe; assumption]. destruct (Hev _ eq_refl) as (Hs & Hf & R).
    destruct m; try exact Inv; apply cof_res_safe; auto. apply ee_sat; assumption.
  - destruct ev as [cn|[]| | | |]; try exact Inv; [|apply ignore_safe; assumption]. destruct (Hev _ eq_refl) as (Hs & Hf & R).
    destruct m; try exact Inv; apply cof_res_safe; auto; [apply cert_request_sat; assumption|apply cert_msg_sat; auto; apply Hs|apply compressed_sat; assumption].
  - destruct ev as [cn|[]| | | |]; try exact Inv; [|apply ignore_safe; assumption]. destruct (Hev _ eq_refl) as (Hs & Hf & R).
    destruct m; try exact Inv; apply cof_res_safe; auto. apply cert_verify_sat; assumption.
  - destruct ev as [cn|[]| | | |]; try exact Inv; [|apply early_write_safe; assumption]. destruct (Hev _ eq_refl) as (Hs & Hf & R).
    destruct m; try exact Inv. apply cfinished_safe; assumption.
  - destruct ev as [cn|[]| | | |]; try exact Inv; [|apply cclose_safe; auto; apply (Hev _ eq_refl)|exact H|apply capp_write_safe; assumption|apply late_safe; assumption|apply cku_init_safe; assumption].
    destruct (Hev _ eq_refl) as (Hs & Hf & R). destruct m; try exact Inv; [apply cof_res_safe; auto; eapply ticket_sat; eassumption|apply cku_safe; assumption].
  - destruct ev as [cn|[]| | | |]; try exact Inv; [apply cclose_safe; auto; apply (Hev _ eq_refl)|exact H].
  - exact Inv.
  - exact Inv.
  - exact Inv.
Qed.
Lemma cerror_safe s a : cbase s -> cinv_safe (fst (chandle_error s a)).
Proof.
  intros (B1 & B2 & B3). unfold chandle_error.
  assert (G : cinv_safe (cu_state (cu_layers s None None) CError)).
  { unfold cinv_safe. cbn. split; [|exact Logic.I]. split; [intros x [=]|]. split; [intros x [=]|exact B3]. }
  assert (M : cinv_safe (fst (let s' := cu_state (cu_layers s None None) CError in
      match a, c_write s with
      | Some d, Some wl =>
          match snd (wl_write wl 21 [alert_bytes d]) with
          | Ok ct => (s', [KWrite [ct]; KError a])
          | Err ECheck | Err EUB => (cu_state s CCrash, [])
          | Err _ => (s', [KError a])
          end
      | _, _ => (s', [KError a])
      end))).
  { cbv zeta. destruct a as [d|]; [|exact G]. destruct (c_write s) as [wl|] eqn:E; [|exact G].
    pose proof (wl_write_safe wl 21 [alert_bytes d] (B2 _ eq_refl)) as W. destruct (wl_write wl 21 [alert_bytes d]) as [wl' r]. destruct W as (_ & W & _). cbn [snd].
    destruct r as [ct|[]]; try exact G; destruct W. }
  destruct (c_state s) eqn:Es; try exact M. cbn [fst]. unfold cinv_safe. rewrite Es. split; [|exact Logic.I]. split; [exact B1|]. split; assumption.
Qed.
Lemma cfinish_safe r : chres_safe r -> cinv_safe (fst (cfinish r)).
Proof.
  destruct r as [s l|s x|s]; cbn [chres_safe cfinish]; intros H; [exact H| |apply cerror_safe, H]. destruct H as [X B].
  destruct x as [[a|]| | | |]; try (destruct X; fail); apply cerror_safe, B.
Qed.
Lemma layers_inv s r w : cinv_safe s -> osafe ev_safe r -> osafe wl_safe w -> (c_read s <> None -> r <> None) -> (c_write s <> None -> w <> None) -> cinv_safe (cu_layers s r w).
Proof.
  intros ((B1 & B2 & B3) & H) Hr Hw Nr Nw. unfold cinv_safe. split; [split; [exact Hr|]; split; [exact Hw|exact B3]|]. cbn [cu_layers c_state].
  assert (FS : forall h, cflight s h -> cflight (cu_layers s r w) h).
  { intros h F. eapply flight_same_c; [exact F|..]; cbn; try reflexivity.
    - exact (Nr (cf_read s h F)).
    - exact (Nw (cf_write s h F)).
    - exact (cf_hctx s h F).
    - exact (hello_self s h F).
    - exact (cf_early s h F).
    - exact (cf_sel s h F).
    - exact (cf_auth s h F). }
  destruct (c_state s); auto.
  - destruct H as [A1 A2 A3 A4 A5 A6 A7 A8]. constructor; cbn; auto. intros e Ee. destruct (A7 e Ee). constructor; auto.
  - destruct H as (h & F & A). exists h. split; [apply FS, F|exact A].
  - destruct H as (h & F). exists h. apply FS, F.
  - destruct H as (h & F & A). exists h. split; [apply FS, F|exact A].
  - destruct H as (h & F & A). exists h. split; [apply FS, F|exact A].
  - destruct H as (h & D). exists h. eapply data_same; [exact D|exact (Nr (cd_read s h D))|exact (Nw (cd_write s h D))|reflexivity|reflexivity|reflexivity].
Qed.
Lemma cclose_ok s : cinv_safe s -> cinv_safe (fst (capp_close s)) /\ cinv_safe (fst (capp_close_immediate s)).
Proof.
  intros H. pose proof (proj1 H) as B. pose proof B as (B1 & B2 & B3).
  assert (G : forall st, match st with CWriteSideClosed | CClosed | CError => True | _ => False end -> forall r w, osafe ev_safe r -> w = None -> cinv_safe (cu_state (cu_layers s r w) st)).
  { intros st Hst r w Hr ->. unfold cinv_safe. cbn. split; [split; [exact Hr|]; split; [intros x [=]|exact B3]|]. destruct st; try exact Hst; destruct Hst. }
  assert (N : osafe ev_safe None) by (intros x [=]).
  unfold capp_close, capp_close_immediate. destruct (c_write s) as [wl|] eqn:E; [|split; apply G; auto; exact Logic.I].
  pose proof (wl_write_safe wl 21 [alert_bytes 0] (B2 _ eq_refl)) as W. destruct (wl_write wl 21 [alert_bytes 0]) as [wl' r]. destruct W as (W1 & W & _).
  assert (F : forall x, esafe x -> cinv_safe (fst (cclose_failed s wl' x))).
  { intros x X. assert (B' : cbase (cu_write s (Some wl'))) by (apply cbase_write; assumption). unfold cclose_failed. destruct x as [[a|]| | | |]; try (destruct X; fail); apply cerror_safe, B'. }
  split; destruct r as [ct|x]; cbn [fst]; try (apply F; destruct x; exact W); apply G; auto; exact Logic.I.
Qed.
Lemma csocket_safe w s b : cworld_safe w -> cinv_safe s -> cinv_safe (fst (fst (cprocess_socket k w s b))).
Proof.
  intros Hw H. pose proof (proj1 H) as B. unfold cprocess_socket. destruct (c_read s) as [r|] eqn:Er.
  2:{ pose proof (cerror_safe s None B) as G. destruct (chandle_error s None). exact G. }
  pose proof B as (B1 & B2 & B3). pose proof (read_event_safe r b (B1 _ Er)) as G. destruct (read_event r b) as [r' b' hint|r' b' ev|x] eqn:Ev.
  - apply layers_inv; auto; [intros x [= <-]; exact G|discriminate].
  - destruct G as [G1 G2]. unfold cprocess_event.
    assert (U : cinv_safe (cu_read s (Some r'))) by (apply layers_inv; auto; [intros x [= <-]; exact G1|discriminate]).
    pose proof (cfinish_safe _ (chandle_safe w _ (ERead ev) Hw U ltac:(intros x [= <-]; split; [exact G2|]; split; [exact (read_fits _ _ _ _ _ Ev)|discriminate]) ltac:(discriminate))) as F.
    destruct (cfinish _). exact F.
  - destruct x as [[a|]| | | |]; try (destruct G; fail).
    + pose proof (cerror_safe s (Some a) B) as F. destruct (chandle_error s (Some a)). exact F.
    + pose proof (cerror_safe s (Some al_decode_error) B) as F. destruct (chandle_error s (Some al_decode_error)). exact F.
    + pose proof (cerror_safe s (Some al_decode_error) B) as F. destruct (chandle_error s (Some al_decode_error)). exact F.
Qed.
Lemma cstep_safe w s i : cworld_safe w -> input_safe i -> cinv_safe s -> cinv_safe (fst (cstep k w s i)).
Proof.
  intros Hw Hi H.
  assert (P : forall ev, (forall x, ev <> ERead x) -> (forall cn, ev = EConnect cn -> conn_safe cn) -> cinv_safe (fst (cprocess_event k w s ev))).
  { intros ev Hn Hc. apply cfinish_safe, chandle_safe; auto. intros x Ex. exfalso. exact (Hn x Ex). }
  unfold cstep. destruct (c_state s); try exact H; (destruct i; [apply P; [discriminate|intros cn' [= <-]; exact Hi]|apply csocket_safe; assumption|apply P; discriminate|apply P; discriminate|apply P; discriminate
    |apply (cclose_ok s H)|apply (cclose_ok s H)|apply P; discriminate]).
Qed.
Lemma cinit_safe : cinv_safe c_init.
Proof. unfold cinv_safe. cbn. split; [split; [intros x [=]|]; split; intros x [=]|auto]. Qed.
End Client.
