(** * fizz's own cookie cipher and ECH decrypter meet the hypotheses of C62 *)
From Verif Require Import Base Codec Str Hkdf HkdfSpec HkdfProofs KeySched Handshake Extensions RecordBase Record ReadEvent HelloChecks Cookie
  Token Negotiate Ticket Kex Hpke HpkeUtils EchCrypt Transcript IOBufUtil Server ServerSpec Crash Joint ServerCrash.
Open Scope N_scope.

Definition opener_safe (a : aead) : Prop := forall c ad n, safe (ae_try a c ad n).
Lemma expand_safe h prk info L : hash_ok h -> blen prk = h_len h -> safe (hkdf_expand h prk info L).
Proof.
  intros Hh E. destruct (N.le_gt_cases L (255 * h_len h)).
  - rewrite hkdf_expand_ok by assumption. exact Logic.I.
  - unfold hkdf_expand. cbv zeta. rewrite E, N.eqb_refl. cbn [negb]. apply N.ltb_lt in H. rewrite H. exact Logic.I.
Qed.

(** ** AeadCookieCipher *)
Lemma ctx_len h : hash_ok h -> forall ctx x y, ctx <> [] -> ctx_extract h ctx x = Ok y -> blen y = h_len h.
Proof.
  intros Hh. induction ctx as [|c ctx IH]; intros x y Hc E; [congruence|]. cbn [ctx_extract] in E.
  destruct (extract_len h Hh c x) as (z & Ez & Lz). rewrite Ez in E. cbn [bind] in E. destruct ctx; [|eapply IH; [discriminate|exact E]]. injection E as <-. exact Lz.
Qed.
Lemma set_len h t l t' b : hash_ok h -> tk_ctx t <> [] -> Forall (fun s => blen s = h_len h) (tk_secrets t) -> setSecrets h t l = Ok (t', b) ->
  Forall (fun s => blen s = h_len h) (tk_secrets t') /\ tk_ctx t' = tk_ctx t.
Proof.
  intros Hh Hc Ht E. unfold setSecrets in E. destruct (existsb _ _); [injection E as <- _; auto|]. destruct (bind_Ok _ _ _ E) as (es & E1 & E2). injection E2 as <- _. cbn.
  split; [|reflexivity]. clear E Ht. revert es E1. induction l as [|s l IH]; intros es E1; cbn [map_extract] in E1; [injection E1 as <-; constructor|].
  destruct (bind_Ok _ _ _ E1) as (x & Ex & K). destruct (bind_Ok _ _ _ K) as (xs & Exs & K2). injection K2 as <-. constructor; [exact (ctx_len h Hh _ _ _ Hc Ex)|apply IH; exact Exs].
Qed.
Lemma tok_safe h gcm t c ad : hash_ok h -> (forall k iv, opener_safe (gcm k iv)) -> Forall (fun s => blen s = h_len h) (tk_secrets t) -> safe (tok_decrypt h gcm t c ad).
Proof.
  intros Hh Hg Ht. unfold tok_decrypt.
  assert (T : forall l salt c seq, Forall (fun s => blen s = h_len h) l -> safe (try_secrets h gcm l salt c ad seq)).
  { induction l as [|s l IH]; intros salt c' seq Hl; cbn [try_secrets]; [exact Logic.I|]. inversion Hl; subst. apply safe_bind.
    - unfold createAead. apply safe_bind; [apply expand_safe; assumption|]. intros keys _. destruct (take 16 keys) as [[? r]|]; [|exact Logic.I]. destruct (take 12 r) as [[? ?]|]; exact Logic.I.
    - intros a Ea. apply safe_bind.
      + unfold createAead in Ea. destruct (bind_Ok _ _ _ Ea) as (keys & _ & K). destruct (take 16 keys) as [[k0 r]|]; [|discriminate]. destruct (take 12 r) as [[iv ?]|]; [|discriminate].
        injection K as <-. apply Hg.
      + intros [ch|] _; [exact Logic.I|apply IH; assumption]. }
  destruct (tk_secrets t); [exact Logic.I|]. destruct (take _ c) as [[? r]|]; [|exact Logic.I]. destruct (take 4 r) as [[? ?]|]; [|exact Logic.I]. apply T, Ht.
Qed.
Lemma decode_cookie_safe x : safe (decodeCookie x).
Proof. unfold decodeCookie. sf. Qed.
Lemma cookie_decrypt_safe h gcm t b : hash_ok h -> (forall k iv, opener_safe (gcm k iv)) -> Forall (fun s => blen s = h_len h) (tk_secrets t) -> safe (cookie_decrypt h gcm t b).
Proof.
  intros Hh Hg Ht. unfold cookie_decrypt. apply safe_bind; [apply tok_safe; assumption|]. intros [x|] _; [|exact Logic.I]. apply safe_bind; [apply decode_cookie_safe|]. intros; exact Logic.I.
Qed.
Lemma cookie_decrypt_set h gcm t b ck : cookie_decrypt h gcm t b = Ok (Some ck) -> ck_chloHash ck <> None /\ (ck_echSuite ck <> None -> ck_echEnc ck <> None).
Proof.
  unfold cookie_decrypt. intros H. destruct (bind_Ok _ _ _ H) as ([x|] & _ & K); [|discriminate]. destruct (bind_Ok _ _ _ K) as (s & E & K2). injection K2 as <-.
  unfold decodeCookie in E. inv_bind.
  match goal with E : (if ?x then _ else _) = Ok s |- _ => destruct x end; inv_bind;
    repeat match goal with E : Ok _ = Ok _ |- _ => injection E as; subst end; cbn [ck_chloHash ck_echSuite ck_echEnc];
    repeat match goal with E : read_buf _ _ = Ok _ |- _ => apply read_buf_some in E; destruct E as [E _] end; auto; split; auto; congruence.
Qed.

(** ** ECHConfigManager *)
Definition kex_safe (k : kex) : Prop := safe (kx_share k) /\ forall b, safe (kx_secret k b).
Record fac_safe (fa : echfac) : Prop := {
  fs_hash : forall f, hash_ok (fa_hash fa f);
  fs_aead : forall c, safe (fa_aead fa c);
  fs_set : forall c alg k iv, fa_aead fa c = Ok alg -> aead_safe (ag_set alg k iv) /\ opener_safe (ag_set alg k iv) }.
Definition cfg_set (c : echcfg) : Prop := Forall xset (ec_exts c).
Lemma csafe_hsuite : csafe (fun _ => True) c_hsuite.
Proof. unfold c_hsuite. eapply csafe_weaken; [|apply csafe_pair; apply csafe_u; repeat constructor]. cbv beta. tauto. Qed.
Lemma cfg_encode_safe c : cfg_set c -> safe (encode_cfg c).
Proof.
  intros H. unfold encode_cfg, write_u, cfg_set in *. apply safe_bind; [exact Logic.I|intros ? _]. apply safe_bind; [exact Logic.I|intros ? _].
  apply safe_bind; [apply safe_write_buf|intros ? _]. apply safe_bind; [apply (safe_write_vec (fun _ => True)); [apply csafe_hsuite|apply all_true]|intros ? _].
  apply safe_bind; [exact Logic.I|intros ? _]. apply safe_bind; [apply safe_write_buf|intros ? _]. apply safe_bind; [apply safe_write_exts, H|intros ? _]. exact Logic.I.
Qed.
Lemma info_safe c : cfg_set c -> safe (echInfo c).
Proof. intros H. unfold echInfo, write_u. apply safe_bind; [apply cfg_encode_safe, H|intros ? _]. apply safe_bind; [sf|intros; exact Logic.I]. Qed.
Ltac ifs := repeat match goal with |- safe (if ?x then _ else _) => destruct x end; exact Logic.I.
Lemma group_safe n : safe (getKexGroup n). Proof. unfold getKexGroup. ifs. Qed.
Lemma hashfn_safe n : safe (getHashFunction n). Proof. unfold getHashFunction. ifs. Qed.
Lemma suite_safe n : safe (getCipherSuite n). Proof. unfold getCipherSuite. ifs. Qed.
Lemma sid_safe g h c : safe (generateHpkeSuiteId g h c).
Proof.
  unfold generateHpkeSuiteId, getKEMId, getKDFId, getAeadId. apply safe_bind; [destruct (tryGetKEMId g); exact Logic.I|intros ? _]. apply safe_bind; [exact Logic.I|intros ? _].
  apply safe_bind; [destruct (tryGetAeadId c); exact Logic.I|intros; exact Logic.I].
Qed.
Lemma lextract_sat h pre salt label ikm suite : hash_ok h -> sat (fun x => blen x = h_len h) (labeledExtract h pre salt label ikm suite).
Proof. intros Hh. unfold labeledExtract. apply sat_ex, extract_len, Hh. Qed.
Lemma lexpand_sat h pre prk label info L suite : hash_ok h -> blen prk = h_len h -> safe (labeledExpand h pre prk label info L suite).
Proof. intros Hh E. unfold labeledExpand. destruct (_ <? _); [exact Logic.I|]. apply expand_safe; assumption. Qed.
Lemma sat_is_safe {A} (P : A -> Prop) (r : res A) : sat P r -> safe r. Proof. destruct r as [|[]]; cbn; auto. Qed.
Lemma schedule_sat h pre suite alg m ss info psk rl seq : hash_ok h ->
  sat (fun c => hc_role c = rl /\ exists k iv, hc_aead c = ag_set alg k iv) (keySchedule h pre suite alg m ss info psk rl seq).
Proof.
  intros Hh. unfold keySchedule. destruct (match psk with Some p => p | None => ([], []) end) as [pskv pskid].
  sb (lextract_sat h pre [] (str "psk_id_hash") pskid suite Hh) as a E1 H1. sb (lextract_sat h pre [] (str "info_hash") info suite Hh) as b E2 H2. cbv zeta.
  sb (lextract_sat h pre ss (str "secret") pskv suite Hh) as secret E3 H3.
  eapply sat_bind; [apply sat_true, lexpand_sat; assumption|]. intros key _ _. eapply sat_bind; [apply sat_true, lexpand_sat; assumption|]. intros nonce _ _.
  eapply sat_bind; [apply sat_true, lexpand_sat; assumption|]. intros ex1 _ _. cbn. eauto.
Qed.
Lemma extand_safe h pre g dh ctx : hash_ok h -> safe (extractAndExpand h pre g dh ctx).
Proof.
  intros Hh. apply (sat_is_safe (fun _ => True)). unfold extractAndExpand. eapply sat_bind.
  - apply sat_true. unfold kemSuiteId, getDHKEMId. apply safe_bind; [ifs|intros; exact Logic.I].
  - intros s _ _. sb (lextract_sat h pre [] (str "eae_prk") dh s Hh) as prk E H. apply sat_true, lexpand_sat; assumption.
Qed.
(** an HPKE context whose AEAD behaves *)
Definition ctx_ok (c : hctx) : Prop := aead_safe (hc_aead c) /\ opener_safe (hc_aead c).
Lemma setup_decap_sat fa c suite enc r seq : fac_safe fa -> cfg_set c -> kex_safe r -> enc <> None -> sat ctx_ok (setupDecryptionContext fa c suite enc r seq).
Proof.
  intros Hf Hc [K1 K2] He. unfold setupDecryptionContext. st (group_safe (ec_kem c)) as g E1. st (hashfn_safe (fst suite)) as h E2. st (suite_safe (snd suite)) as cs E3.
  st (sid_safe g h cs) as sd E4. st (fs_aead fa Hf cs) as alg E5. st (info_safe c Hc) as info E6. destruct enc as [enc|]; [|congruence].
  unfold setupWithDecap. cbn [uses_auth]. eapply sat_bind.
  - apply sat_true. unfold decap. apply safe_bind; [apply K2|intros ? _]. apply safe_bind; [apply K1|intros ? _]. apply extand_safe, (fs_hash fa Hf).
  - intros ss _ _. eapply sat_weaken; [|apply schedule_sat, (fs_hash fa Hf)]. intros x (_ & k & iv & Ea). split; rewrite Ea; apply (fs_set fa Hf cs alg k iv E5).
Qed.
Lemma hopen_ok c aad ct : ctx_ok c -> let '(c', b, r) := hopen c aad ct in ctx_ok c' /\ safe r /\ (r = Ok tt -> b <> None).
Proof.
  intros H. unfold hopen. destruct (hc_role c); [cbn; split; [exact H|]; split; [exact Logic.I|discriminate]|]. unfold ae_dec.
  pose proof (proj2 H ct aad (hc_seq c)) as S. destruct (ae_try (hc_aead c) ct aad (hc_seq c)) as [[ch|]|er]; cbn [bind].
  - unfold incrementSeq. destruct (_ <=? _); (split; [exact H|]; split; [exact Logic.I|intros _; discriminate]).
  - split; [exact H|]. split; [exact Logic.I|discriminate].
  - split; [exact H|]. split; [exact S|discriminate].
Qed.
Lemma zero_safe l : Forall xset l -> (exists x, findExtension 65037 l = Some x) -> safe (zeroPayload l) /\ forall l', zeroPayload l = Ok l' -> Forall xset l'.
Proof.
  intros Hl. induction Hl as [|x l Hx Hl IH]; intros [y Ey]; [discriminate|]. cbn [zeroPayload]. cbn [findExtension find] in Ey. destruct (ext_type x =? 65037) eqn:Et.
  - destruct (ext_data x) as [d|] eqn:Ed; [|exfalso; apply Hx; exact Ed]. split.
    + apply safe_bind; [apply safe_read_body|]. intros [z r] Ez. destruct (read_body_set _ _ _ _ Ez) as [S K]. destruct z; try discriminate K. destruct p as [[[[kdf ae] cid] enc] [p|]]; [|exfalso; apply (proj2 S); reflexivity].
      apply safe_bind; [apply safe_encodeExtension; split; [apply S|discriminate]|]. intros; exact Logic.I.
    + intros l' H. destruct (bind_Ok _ _ _ H) as ([z r] & Ez & K). destruct z; try discriminate K. destruct p as [[[[kdf ae] cid] enc] [p|]]; [|discriminate K].
      destruct (bind_Ok _ _ _ K) as (e' & Ee & K2). injection K2 as <-. constructor; [exact (encodeExtension_set _ _ Ee)|exact Hl].
  - destruct IH as [I1 I2]; [unfold findExtension; eauto|]. split.
    + apply safe_bind; [exact I1|]. intros; exact Logic.I.
    + intros l' H. destruct (bind_Ok _ _ _ H) as (r & Er & K). injection K as <-. constructor; [exact Hx|exact (I2 _ Er)].
Qed.
Lemma encode_ch_safe c : hello_set c -> safe (encode_ch c).
Proof. intros [H1 H2]. unfold encode_ch, write_random, write_u. sf. Qed.
Lemma expand_set : forall ts seen outer l s, Forall xset outer -> expandTypes seen ts outer = Some (l, s) -> Forall xset l.
Proof.
  induction ts as [|t ts IH]; intros seen outer l s Ho; cbn [expandTypes]; [intros [= <- _]; constructor|]. destruct (existsb _ _); [discriminate|]. destruct (t =? 65037); [discriminate|].
  assert (S : forall o x o', Forall xset o -> scanOuter t o = Some (x, o') -> xset x /\ Forall xset o').
  { induction o as [|y o IHo]; intros x o' Hy; cbn [scanOuter]; [discriminate|]. inversion Hy; subst. destruct (_ =? _); [intros [= <- <-]; auto|apply IHo; assumption]. }
  destruct (scanOuter t outer) as [[x o']|] eqn:Es; [|discriminate]. destruct (S _ _ _ Ho Es) as [X1 X2]. destruct (expandTypes _ ts o') as [[l' s']|] eqn:Ee; [|discriminate].
  intros [= <- _]. constructor; [exact X1|]. eapply IH; eassumption.
Qed.
Lemma substitute_set : forall inner seen outer l, Forall xset inner -> Forall xset outer -> substituteOuterExtensions seen inner outer = Some l -> Forall xset l.
Proof.
  induction inner as [|x inner IH]; intros seen outer l Hi Ho; cbn [substituteOuterExtensions]; [intros [= <-]; constructor|]. inversion Hi; subst. destruct (existsb _ _); [discriminate|].
  destruct (negb _).
  - destruct (substituteOuterExtensions _ inner outer) eqn:E; [|discriminate]. intros [= <-]. constructor; [assumption|]. apply (IH _ _ _) in E; assumption.
  - destruct (ext_data x); [|discriminate]. destruct (read_ext_body _ _) as [[[] ?]|]; try discriminate. destruct (expandTypes _ _ _) as [[x' s']|] eqn:Ee; [|discriminate].
    destruct (substituteOuterExtensions s' inner outer) eqn:E; [|discriminate]. intros [= <-]. apply Forall_app. split; [exact (expand_set _ _ _ _ _ Ho Ee)|]. apply (IH _ _ _) in E; assumption.
Qed.
Lemma decode_ch_set b c r : decode_ch b = Ok (c, r) -> Forall xset (ch_extensions c).
Proof. unfold decode_ch. intros H. inv_bind. match goal with E : match ?l with [] => _ | _ => _ end = Ok _ |- _ => destruct l end; inv_bind; repeat match goal with E : Ok _ = Ok _ |- _ => injection E as; subst end; cbn; [constructor|]. match goal with E : read_exts _ = Ok _ |- _ => exact (read_exts_in _ _ _ E) end. Qed.
Definition dsafe {A} (r : dres A) : Prop := match r with DErr x => esafe x | _ => True end.
Lemma decrypt_ctx_safe outer pl c : hello_set outer -> (exists x, findExtension 65037 (ch_extensions outer) = Some x) -> pl <> None -> ctx_ok c ->
  let '(c', r) := decryptECHWithContext outer pl c in ctx_ok c' /\ dsafe r /\ forall i o, r = DOk (i, o) -> hello_set i.
Proof.
  intros [Ho1 Ho2] Hf Hp Hc. unfold decryptECHWithContext. unfold outerForAad. destruct (zero_safe _ Ho2 Hf) as [Z1 Z2].
  destruct (zeroPayload (ch_extensions outer)) as [l|er]; cbn [bind]; [|split; [exact Hc|]; split; [exact Z1|discriminate]].
  assert (S : safe (encode_ch (with_exts outer l))) by (apply encode_ch_safe; split; [exact Ho1|exact (Z2 _ eq_refl)]). destruct (encode_ch (with_exts outer l)) as [aad|er]; [|split; [exact Hc|]; split; [exact S|discriminate]].
  destruct pl as [ct|]; [|congruence]. pose proof (hopen_ok c (Some aad) ct Hc) as G. destruct (hopen c (Some aad) ct) as [[c' b] r]. destruct G as (G1 & G2 & G3).
  destruct b as [pt|]; [|destruct r as [[]|er]; [exfalso; apply G3; reflexivity|split; [exact G1|]; split; [exact G2|discriminate]]].
  destruct r as [[]|er]; [|split; [exact G1|]; split; [exact G2|discriminate]]. split; [exact G1|].
  assert (Sd : safe (decode_ch pt)) by (unfold decode_ch; sf). destruct (decode_ch pt) as [[ch rest]|er] eqn:Ed; [|split; [exact Sd|discriminate]].
  destruct (negb _); [split; [exact Logic.I|discriminate]|]. destruct (ch_session_id outer) as [sid|] eqn:Es; [|congruence].
  destruct (substituteOuterExtensions [] (ch_extensions ch) (ch_extensions outer)) as [l'|] eqn:Esub; [|split; [exact Logic.I|discriminate]]. cbv zeta.
  assert (Hs : hello_set (with_exts (with_sid ch (Some sid)) l')) by (split; [discriminate|]; exact (substitute_set _ _ _ _ (decode_ch_set _ _ _ Ed) Ho2 Esub)).
  pose proof (safe_encode (MClientHello (with_exts (with_sid ch (Some sid)) l')) Hs) as Se. destruct (encodeHandshake _) as [o|er]; [|split; [exact Se|discriminate]].
  split; [exact Logic.I|]. intros i o' [= <- _]. exact Hs.
Qed.
Lemma param_sat x ps : xset x -> sat (fun m => forall kdf ae cid enc pl p, m = Some ((kdf, ae, cid, enc, pl), p) -> enc <> None /\ pl <> None /\ In p ps) (decodeAndGetParam x ps).
Proof.
  intros Hx. unfold decodeAndGetParam. destruct (ext_data x) as [d|] eqn:Ed; [|exfalso; apply Hx; exact Ed].
  eapply sat_bind; [apply sat_true, safe_read_body|]. intros [z r] Ez _. destruct (read_body_set _ _ _ _ Ez) as [S K]. destruct z; try discriminate K. destruct p as [[[[kdf ae] cid] enc] pl].
  cbn [sat]. intros kdf' ae' cid' enc' pl' p. destruct (find _ ps) as [q|] eqn:Ef; [|discriminate]. intros [= <- <- <- <- <- <-]. split; [apply S|]. split; [apply S|]. exact (proj1 (find_some _ _ Ef)).
Qed.
Lemma decrypt_sat fa ps c : fac_safe fa -> Forall (fun p => cfg_set (fst p) /\ kex_safe (snd p)) ps -> hello_set c ->
  sat (fun r => forall i o cid x, r = Some (i, o, cid, x) -> hello_set i /\ ctx_ok x) (decryptClientHello fa ps c).
Proof.
  intros Hf Hps Hc. unfold decryptClientHello. destruct (findExtension 65037 (ch_extensions c)) as [x|] eqn:Ex; [|cbn; discriminate].
  sb (param_sat x ps (find_set _ _ _ (proj2 Hc) Ex)) as m Em Hm. destruct m as [[[[[[kdf ae] cid] enc] pl] [cfg kx]]|]; [|cbn; discriminate].
  destruct (Hm _ _ _ _ _ _ eq_refl) as (M1 & M2 & M3). rewrite Forall_forall in Hps. destruct (Hps _ M3) as [Q1 Q2]. cbn [fst snd] in Q1, Q2.
  pose proof (setup_decap_sat fa cfg (kdf, ae) enc kx 0 Hf Q1 Q2 M1) as S. destruct (setupDecryptionContext fa cfg (kdf, ae) enc kx 0) as [ctx|[]]; try exact S; try (cbn; discriminate); try (destruct S; fail).
  pose proof (decrypt_ctx_safe c pl ctx Hc ltac:(eauto) M2 S) as G. destruct (decryptECHWithContext c pl ctx) as [ctx' [[i o]| |er]].
  - destruct G as (G1 & _ & G2). cbn. intros i' o' cid' x' [= <- <- <- <-]. split; [exact (G2 _ _ eq_refl)|exact G1].
  - exact Logic.I.
  - destruct G as (_ & G & _). destruct er; try exact G; cbn; discriminate.
Qed.
Lemma decrypt_hrr_sat fa ps c ctx encKey : fac_safe fa -> Forall (fun p => cfg_set (fst p) /\ kex_safe (snd p)) ps -> hello_set c ->
  match ctx with Some x => ctx_ok x | None => encKey <> None end -> sat (fun r => hello_set (fst (fst r))) (decryptClientHelloHRR fa ps c ctx encKey).
Proof.
  intros Hf Hps Hc Hk. unfold decryptClientHelloHRR. destruct (findExtension 65037 (ch_extensions c)) as [x|] eqn:Ex; [|exact Logic.I].
  sb (param_sat x ps (find_set _ _ _ (proj2 Hc) Ex)) as m Em Hm. destruct m as [[[[[[kdf ae] cid] enc] pl] [cfg kx]]|]; [|exact Logic.I].
  destruct (Hm _ _ _ _ _ _ eq_refl) as (M1 & M2 & M3). rewrite Forall_forall in Hps. destruct (Hps _ M3) as [Q1 Q2]. cbn [fst snd] in Q1, Q2.
  eapply (sat_bind ctx_ok); [destruct ctx; [exact Hk|apply setup_decap_sat; assumption]|]. intros cx _ S.
  pose proof (decrypt_ctx_safe c pl cx Hc ltac:(eauto) M2 S) as G. destruct (decryptECHWithContext c pl cx) as [ctx' [[i o]| |er]].
  - destruct G as (_ & _ & G2). exact (G2 _ _ eq_refl).
  - exact Logic.I.
  - destruct G as (_ & G & _). exact G.
Qed.
Lemma decrypt_hrr_set fa ps c ctx encKey i o x : hello_set c -> decryptClientHelloHRR fa ps c ctx encKey = Ok (i, o, x) -> hello_set i.
Proof.
  intros Hc. unfold decryptClientHelloHRR. destruct (findExtension _ _) as [y|] eqn:Ey; [|discriminate]. intros H. destruct (bind_Ok _ _ _ H) as ([[[[[[kdf ae] cid] enc] pl] [cfg kx]]|] & Em & K); [|discriminate].
  destruct (bind_Ok _ _ _ K) as (cx & Ecx & K2). clear K H Ecx. unfold decryptECHWithContext in K2. destruct (outerForAad c) as [aad|]; [|discriminate K2]. destruct pl as [ct|]; [|discriminate K2].
  destruct (hopen cx (Some aad) ct) as [[c' b] r]. destruct b as [pt|]; [|destruct r as [[]|]; discriminate K2]. destruct r as [[]|]; [|discriminate K2].
  destruct (decode_ch pt) as [[ch rest]|] eqn:Ed; [|discriminate K2]. destruct (negb _); [discriminate K2|]. destruct (ch_session_id c) as [sid|] eqn:Es; [|discriminate K2].
  destruct (substituteOuterExtensions _ _ _) as [l|] eqn:Esub; [|discriminate K2]. destruct (encodeHandshake _); [|discriminate K2]. injection K2 as <- _ _.
  split; [discriminate|]. exact (substitute_set _ _ _ _ (decode_ch_set _ _ _ Ed) (proj2 Hc) Esub).
Qed.
Lemma retry_safe ps sni : Forall (fun p : echcfg * kex => cfg_set (fst p)) ps -> sat (Forall (fun p => snd p <> None)) (getRetryConfigs ps sni).
Proof.
  intros Hps. unfold getRetryConfigs. eapply (sat_bind (Forall (fun q : bool * (N * buf) => snd (snd q) <> None))).
  - induction Hps as [|p ps Hp _ IH]; cbn [mapR]; [constructor|]. eapply (sat_bind (fun q : bool * (N * buf) => snd (snd q) <> None)).
    + unfold retryConfig. eapply (sat_bind (fun q : N * buf => snd q <> None)); [|intros a _ Ha; exact Ha]. eapply sat_bind; [apply sat_true, cfg_encode_safe, Hp|]. intros b _ _. discriminate.
    + intros q _ Hq. eapply sat_bind; [exact IH|]. intros qs _ Hqs. constructor; assumption.
  - intros all _ Ha. cbn. rewrite Forall_forall in Ha. apply Forall_app. split; apply Forall_forall; intros x Hx; apply in_map_iff in Hx; destruct Hx as (q & <- & Hq); apply filter_In in Hq; apply Ha, Hq.
Qed.
Lemma ech_decrypter_safe fa ps : fac_safe fa -> Forall (fun p => cfg_set (fst p) /\ kex_safe (snd p)) ps -> decrypter_safe (ech_decrypter fa ps).
Proof.
  intros Hf Hps. assert (Hps1 : Forall (fun p : echcfg * kex => cfg_set (fst p)) ps) by (eapply Forall_impl; [|exact Hps]; intros p Hp; apply Hp).
  assert (Hd : forall c o c' o' x, hello_set c -> d_hello (ech_decrypter fa ps) c o = Ok (Some (c', o', x)) -> hello_set c' /\ ctx_ok x).
  { intros c o c' o' x Hc H. cbn [ech_decrypter d_hello] in H. pose proof (decrypt_sat fa ps c Hf Hps Hc) as S. destruct (bind_Ok _ _ _ H) as (r & Er & K). rewrite Er in S. destruct r as [[[[i o1] cid] x1]|]; [|discriminate].
    injection K as <- <- <-. exact (S _ _ _ _ eq_refl). }
  constructor; cbn [ech_decrypter d_hello d_hrr d_hrr_enc d_retry].
  - intros c o Hc. apply safe_bind; [exact (sat_is_safe _ _ (decrypt_sat fa ps c Hf Hps Hc))|]. intros; exact Logic.I.
  - intros c o c' o' x Hc H. exact (proj1 (Hd c o c' o' x Hc H)).
  - intros c o x Hc (c1 & o1 & c1' & o1' & Hc1 & Hm). apply safe_bind; [|intros [[? ?] ?] _; exact Logic.I]. eapply sat_is_safe. apply decrypt_hrr_sat; try assumption. exact (proj2 (Hd _ _ _ _ _ Hc1 Hm)).
  - intros c o x c' o' Hc H. destruct (bind_Ok _ _ _ H) as ([[i o1] x1] & E & K). injection K as <- <-. exact (decrypt_hrr_set _ _ _ _ _ _ _ _ Hc E).
  - intros c o x Hc Hx. apply safe_bind; [|intros [[? ?] ?] _; exact Logic.I]. eapply sat_is_safe. apply decrypt_hrr_sat; assumption.
  - intros c o x c' o' Hc H. destruct (bind_Ok _ _ _ H) as ([[i o1] x1] & E & K). injection K as <- <-. exact (decrypt_hrr_set _ _ _ _ _ _ _ _ Hc E).
  - intros n. exact (sat_is_safe _ _ (retry_safe ps n Hps1)).
  - intros n l H. pose proof (retry_safe ps n Hps1) as S. rewrite H in S. exact S.
Qed.
