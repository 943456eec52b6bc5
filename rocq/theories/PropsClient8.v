(** * C57: Encrypted ClientHello, as the client uses it *)
From Verif Require Import Base Codec CodecSpec Str Hkdf HkdfSpec HkdfProofs KeySched KeySchedSpec KeySchedProofs Handshake Extensions RecordBase Record
  RecordRT ReadEvent HelloChecks Cookie Token Negotiate Ticket PskSer Kex Hpke Transcript IOBufUtil PropsIOBuf EchConfirm HpkeUtils EchCrypt Server
  ServerSpec ServerFacts ServerSteps ServerFlight ServerInv ServerPreserve ExtensionsSpec ExtensionsProofs PropsCodec PropsEch Client ClientSpec ClientHelloSpec ClientSteps ClientHello
  ClientBinder ClientInv ClientAwait ClientHello2 ClientFlight ClientPhase ClientPreserve ClientOrigin ClientSide PropsClient PropsClient2 PropsClient3 PropsClient4 PropsClient6.
Open Scope N_scope.

(** ** Specification *)
(** Two PSKs an observer is not meant to tell apart: of the same group, with hashes of the same length (or none at all). *)
Definition same_kind (k : cenv) (p1 p2 : option cpsk) : Prop :=
  match p1, p2 with
  | None, None => True
  | Some q1, Some q2 => pk_group (cp_psk q1) = pk_group (cp_psk q2) /\
      forall h1 h2, k_hash k (pk_cipher (cp_psk q1)) = Ok h1 -> k_hash k (pk_cipher (cp_psk q2)) = Ok h2 -> h_len h1 = h_len h2
  | _, _ => False
  end.
(** [o1] and [o2] are the same hello but for the payloads [p1] and [p2] of the encrypted_client_hello extension. *)
Definition same_but_payload (o1 o2 : ClientHello) (p1 p2 : bytes) : Prop :=
  exists c pre post kdf ae cid enc e1 e2,
    encodeExtension (XEchOuter (kdf, ae, cid, Some enc, Some p1)) = Ok e1 /\ encodeExtension (XEchOuter (kdf, ae, cid, Some enc, Some p2)) = Ok e2 /\
    o1 = with_exts c (pre ++ e1 :: post) /\ o2 = with_exts c (pre ++ e2 :: post).

(** ** Lemmas *)
Definition public_parts (k : cenv) (w : cworld) (exts : bool) (shares : list (N * kex)) : res (list Extension * list Extension) :=
  e2 <- encodeExtension (XSupportedVersions (k_versions k)) ;;
  e3 <- encodeExtension (XSupportedGroups (k_groups k)) ;;
  sh <- keyShares shares ;;
  e4 <- encodeExtension (XClientKeyShare sh) ;;
  e5 <- encodeExtension (XSignatureAlgorithms (k_sigSchemes k)) ;;
  e6 <- when (nonempty (k_alpns k)) (encodeExtension (XProtocolNameList (map Some (k_alpns k)))) ;;
  e7 <- when (nonempty (k_pskModes k)) (encodeExtension (XPskKeyExchangeModes (k_pskModes k))) ;;
  e10 <- when (nonempty (k_decompAlgos k)) (encodeExtension (XCertCompressionAlgs (k_decompAlgos k))) ;;
  e11 <- (if exts then cw_exts w else Ok []) ;;
  Ok ([e2; e3; e4; e5] ++ e6 ++ e7, e10 ++ e11).
Lemma when_nil {A} (r : res A) l : when false r = Ok l -> l = [].
Proof. unfold when. congruence. Qed.
Lemma hello_parts k w r sid kexs n early exts c : getClientHello k w r sid kexs (Some n) early exts None = Ok c ->
  exists sn A e8 B, public_parts k w exts kexs = Ok (A, B) /\ c = mkCH 771 r (Some sid) (k_ciphers k) [0] (sn :: A ++ e8 ++ B) /\ ext_type sn = 0 /\
    (forall t, In t [41; 42; 65037; 0] -> no_type t A = true) /\ (e8 = [] \/ exists e, e8 = [e] /\ ext_type e = 42) /\
    (forall t, In t [41; 42] -> (forall xs, cw_exts w = Ok xs -> no_type t xs = true) -> no_type t B = true).
Proof.
  unfold getClientHello. intros H.
  bo H e1 E1. bo H e2 E2. bo H e3 E3. bo H sh Esh. bo H e4 E4. bo H e5 E5. bo H e6 E6. bo H e7 E7. bo H e8 E8. bo H e9 E9. bo H e10 E10. bo H e11 E11.
  unfold when in E1. bo E1 sn Esn. assert (e1 = [sn]) by congruence. subst e1. assert (e9 = []) by congruence. subst e9.
  exists sn, ([e2; e3; e4; e5] ++ e6 ++ e7), e8, (e10 ++ e11). split.
  { unfold public_parts. rewrite E2, E3, Esh. cbn [bind]. rewrite E4, E5. cbn [bind]. rewrite E6. cbn [bind]. rewrite E7. cbn [bind]. rewrite E10. cbn [bind]. rewrite E11. reflexivity. }
  split.
  { assert (Hc : c = mkCH 771 r (Some sid) (k_ciphers k) [0] ([sn] ++ [e2; e3; e4; e5] ++ e6 ++ e7 ++ e8 ++ [] ++ e10 ++ e11)) by congruence.
    rewrite Hc. cbn [app]. rewrite <- !app_assoc. reflexivity. }
  split; [rewrite (ext_type_of _ _ Esn); reflexivity|]. split.
  { intros t Ht. unfold no_type. rewrite !forallb_app. cbn [forallb]. rewrite (ext_type_of _ _ E2), (ext_type_of _ _ E3), (ext_type_of _ _ E4), (ext_type_of _ _ E5).
    fold (no_type t e6) (no_type t e7). rewrite (when_type _ _ _ _ E6), (when_type _ _ _ _ E7); cbn [kind_of kind_type In] in *; decompose [or] Ht; subst; try reflexivity; try discriminate; contradiction. }
  split.
  { unfold when in E8. destruct early; [|left; congruence]. bo E8 e Ee. right. exists e. split; [congruence|]. rewrite (ext_type_of _ _ Ee). reflexivity. }
  intros t Ht Hx. unfold no_type. rewrite forallb_app. fold (no_type t e10) (no_type t e11). rewrite (when_type _ _ _ _ E10).
  2:{ cbn [kind_of kind_type In] in *; decompose [or] Ht; subst; try discriminate; contradiction. }
  destruct exts; [apply Hx, E11|assert (e11 = []) by congruence; subst e11; reflexivity].
Qed.
Lemma remove_skip t a b : no_type t a = true -> removeExt t (a ++ b) = a ++ removeExt t b.
Proof.
  induction a as [|e a IH]; [reflexivity|]. cbn [no_type forallb]. intros H. apply andb_true_iff in H. destruct H as [H1 H2]. apply negb_true_iff in H1.
  cbn [app removeExt]. rewrite H1. f_equal. apply IH, H2.
Qed.
Lemma remove_in t a b : no_type t a = false -> removeExt t (a ++ b) = removeExt t a ++ b.
Proof.
  induction a as [|e a IH]; [discriminate|]. cbn [no_type forallb app removeExt]. destruct (ext_type e =? t); cbn [negb andb]; [reflexivity|]. intros H. cbn [app]. f_equal. apply IH, H.
Qed.
Lemma remove_none t a : no_type t a = true -> removeExt t a = a.
Proof. intros H. rewrite <- (app_nil_r a) at 1. rewrite remove_skip by exact H. apply app_nil_r. Qed.
Lemma remove_no t u a : no_type t a = true -> no_type t (removeExt u a) = true.
Proof.
  induction a as [|e a IH]; [reflexivity|]. cbn [no_type forallb removeExt]. intros H. apply andb_true_iff in H. destruct H as [H1 H2].
  destruct (ext_type e =? u); [exact H2|]. cbn [forallb]. rewrite H1. apply IH, H2.
Qed.
Lemma no_type_app t a b : no_type t (a ++ b) = no_type t a && no_type t b.
Proof. apply forallb_app. Qed.
(** The extensions of the outer hello, before the encrypted_client_hello extension. *)
Lemma outer_exts sn A e8 B inner pskl : ext_type sn = 0 -> (forall t, In t [41; 42; 65037; 0] -> no_type t A = true) -> (e8 = [] \/ exists e, e8 = [e] /\ ext_type e = 42) ->
  ext_type inner = 65037 -> (pskl = [] \/ exists e, pskl = [e] /\ ext_type e = 41) -> no_type 41 B = true -> no_type 42 B = true ->
  removeExt 42 (removeExt 41 (removeExt 65037 (((sn :: A ++ e8 ++ B) ++ [inner]) ++ pskl))) = sn :: A ++ removeExt 65037 (B ++ [inner]).
Proof.
  intros Hs HA He8 Hi Hp H41 H42.
  assert (N8 : forall t, t <> 42 -> no_type t e8 = true).
  { intros t Ht. destruct He8 as [->|(e & -> & E)]; [reflexivity|]. unfold no_type. cbn [forallb]. rewrite E. assert (42 =? t = false) as -> by (apply N.eqb_neq; congruence). reflexivity. }
  assert (NS : forall t, t <> 0 -> no_type t [sn] = true).
  { intros t Ht. unfold no_type. cbn [forallb]. rewrite Hs. assert (0 =? t = false) as -> by (apply N.eqb_neq; congruence). reflexivity. }
  assert (NB : forall t, (t = 41 \/ t = 42) -> no_type t (removeExt 65037 (B ++ [inner])) = true).
  { intros t Ht. apply remove_no. rewrite no_type_app. unfold no_type at 2. cbn [forallb]. rewrite Hi. destruct Ht as [->| ->]; [rewrite H41|rewrite H42]; reflexivity. }
  assert (NB2 : no_type 65037 (B ++ [inner]) = false).
  { rewrite no_type_app. unfold no_type at 2. cbn [forallb]. rewrite Hi. apply andb_false_r. }
  replace (((sn :: A ++ e8 ++ B) ++ [inner]) ++ pskl) with ([sn] ++ A ++ e8 ++ (B ++ [inner]) ++ pskl) by (cbn [app]; rewrite <- !app_assoc; reflexivity).
  rewrite (remove_skip 65037 [sn]) by (apply NS; discriminate). rewrite (remove_skip 65037 A) by (apply HA; cbn; tauto). rewrite (remove_skip 65037 e8) by (apply N8; discriminate).
  rewrite (remove_in 65037 (B ++ [inner])) by exact NB2. set (B' := removeExt 65037 (B ++ [inner])) in *. clearbody B'.
  rewrite (remove_skip 41 [sn]) by (apply NS; discriminate). rewrite (remove_skip 41 A) by (apply HA; cbn; tauto). rewrite (remove_skip 41 e8) by (apply N8; discriminate).
  rewrite (remove_skip 41 B') by (apply NB; tauto).
  assert (removeExt 41 pskl = []) as ->. { destruct Hp as [->|(e & -> & E)]; [reflexivity|]. cbn [removeExt]. rewrite E. reflexivity. }
  rewrite app_nil_r. rewrite (remove_skip 42 [sn]) by (apply NS; discriminate). rewrite (remove_skip 42 A) by (apply HA; cbn; tauto). cbn [app]. f_equal. f_equal.
  destruct He8 as [->|(e & -> & E)]; [cbn [app]; apply remove_none, NB; tauto|]. cbn [app removeExt]. rewrite E. reflexivity.
Qed.
Lemma binders_shape c p h hc now c2 enc k1 hc' : hash_ok h -> hc_hash hc = h -> encodeAndAddBinders c p h hc now = Ok (c2, enc, k1, hc') ->
  exists e age b, c2 = with_exts c (ch_extensions c ++ [e]) /\ blen b = h_len h /\ ext_type e = 41 /\
    (no_type 41 (ch_extensions c) = true -> getExtension KClientPresharedKey (ch_extensions c2) = Ok (Some (XClientPresharedKey ([(Some (pk_psk (cp_psk p)), age)], [Some b])))).
Proof.
  intros Hh Hc H. unfold encodeAndAddBinders in H. bo H k1' Ek. bo H bk Ebk. apply bind_Ok in H. destruct H as ((ids & bs) & Ep & H). cbv beta iota in H.
  apply psk_ext in Ep. destruct Ep as (age & hid & Hid & -> & -> & Hage & Hu).
  bo H e Ee. cbv zeta in H. bo H bl Ebl. bo H pre Epre. bo H u1 Eu1. bo H b Eb. bo H e' Ee'. bo H enc' Eenc. bo H u2 Eu2.
  assert (c2 = with_exts c (ch_extensions c ++ [e'])) by congruence. subst c2.
  destruct (kdo_rel _ _ _ (DeriveEarly (pk_secret (cp_psk p))) _ Hh (rel_init h) Logic.I Ek) as (st' & o & E & Hk). cbn [spec_step] in E. injection E as <- <-.
  rewrite Hc in Ebk. rewrite (ho_blank _ Hh) in Ebk.
  assert (Lb : forall kd, op_ok h (GetEarly kd (h_fn h []))) by (intros; cbn [op_ok]; apply (ho_digest _ Hh)).
  destruct (kget_rel _ _ _ _ _ Hh Hk (Lb _) Ebk) as (st & E). cbn [spec_step] in E.
  assert (Hbk : blen bk = h_len h).
  { destruct (cp_type p); cbn [early_spec] in E; match type of E with Some (_, OSecret ?x) = _ => assert (bk = x) as -> by congruence end; apply DeriveSecret_len, Hh. }
  set (hc1 := hc_append hc (takeN (blen pre - bl) pre)) in *.
  assert (Hc1 : hc_hash hc1 = h) by (unfold hc1, hc_append; cbn [hc_hash]; auto). clearbody hc1.
  rewrite finished_ok in Eb; rewrite ?Hc1 in *; [|exact Hh|exact Hbk].
  assert (Hb : b = verify_data h bk (hc_data hc1)) by congruence.
  assert (Lvd : blen b = h_len h) by (rewrite Hb; apply (ho_digest _ Hh)).
  exists e', age, b. split; [reflexivity|]. split; [exact Lvd|]. split; [rewrite (ext_type_of _ _ Ee'); reflexivity|]. intros Hn.
  apply (getExtension_rt (XClientPresharedKey ([(Some (pk_psk (cp_psk p)), age)], [Some b])) e' (ch_extensions c) []); [|exact Ee'|exact Hn].
  cbn [wf_x fst snd forallb nonnull]. unfold wf_pskid. cbn [fst snd nonnull]. rewrite Hu. reflexivity.
Qed.

(** The first ClientHello sent when Encrypted ClientHello is asked for. *)
Definition greased (k : cenv) (w : cworld) (p : option cpsk) (gp : option (list (buf * N) * list buf)) : Prop :=
  match p with
  | None => gp = None
  | Some q => exists h, k_hash k (pk_cipher (cp_psk q)) = Ok h /\
      gp = Some ([(Some (cw_rnd w 16 0), unbe (rev (cw_rnd w 4 1)))], [Some (cw_rnd w (h_len h) 2)])
  end.
Lemma connect_outer k w cn l n s' outs : cenv_ok k -> handle_connect k w c_init cn = Ok (s', outs) -> cn_ech cn = Some l -> cn_sni cn = Some n ->
  (forall t xs, In t [41; 42] -> cw_exts w = Ok xs -> no_type t xs = true) ->
  exists p kexs sid ng enc ctx r2 A B inner sn gp g ct x o wire d rest,
    validatePsk k (cw_now w) (cn_psk cn) = Ok p /\ getKeyExchangers w (selectedShares k p) [] = Ok kexs /\ (if k_compat k then cw_sid w else Ok []) = Ok sid /\
    setupECH k w (cn_ech cn) = Ok (Some (ng, enc, ctx)) /\ cw_random2 w = Ok r2 /\ public_parts k w (cn_exts cn) kexs = Ok (A, B) /\
    encodeExtension XEchInner = Ok inner /\ encodeExtension (XServerNameList [(0, Some (ec_name (ng_cfg ng)))]) = Ok sn /\
    greased k w p gp /\ greaseExt gp = Ok g /\
    encodeExtension (XEchOuter (fst (ng_suite ng), snd (ng_suite ng), ng_id ng, Some enc, Some ct)) = Ok x /\
    o = mkCH 771 r2 (Some sid) (k_ciphers k) [0] (sn :: A ++ removeExt 65037 (B ++ [inner]) ++ [x] ++ g) /\
    encodeHandshake (MClientHello o) = Ok wire /\ outs = KWrite [mkContent LvPlaintext 22 d wire] :: rest.
Proof.
  intros Hk H Hech Hsni Hx. unfold handle_connect in H. bo H p Ep. bo H random Er. cbv zeta in H. bo H sid Es. bo H kexs Ek. bo H ech Ee.
  destruct ech as [[[ng enc] ctx]|].
  2:{ rewrite Hech in Ee. unfold setupECH in Ee. bo Ee ng En. destruct ng as [ng|]; [|discriminate]. bo Ee g Eg. bo Ee x Ex. apply bind_Ok in Ee. destruct Ee as ((? & ?) & _ & Ee). discriminate. }
  apply bind_Ok in H. destruct H as ((c0 & req0) & Ec0 & H). cbv beta iota in H.
  apply bind_Ok in H. destruct H as (((c1 & enc1) & early) & Ec1 & H). cbv beta iota in H.
  apply bind_Ok in H. destruct H as (((((wire & req) & sni) & rnd') & est) & Ew & H). cbv beta iota in H.
  bo H d Ed. bo Ew r2 Er2. bo Ew gp Egp. apply bind_Ok in Ew. destruct Ew as ((ctx' & outer) & Eo & Ew). cbv beta iota in Ew. bo Ew wire' Ewire.
  assert (wire' = wire) by congruence. subst wire'.
  unfold base_hello in Ec0. bo Ec0 cc Ecc. cbv zeta in Ec0. bo Ec0 inner Einner. rewrite Hsni in Ecc.
  destruct (hello_parts _ _ _ _ _ _ _ _ _ Ecc) as (sn0 & A & e8 & B & Hpp & Hcc & Hsn0 & HA & He8 & HB).
  assert (Hc0 : c0 = with_exts cc (ch_extensions cc ++ [inner])) by congruence. clear Ec0.
  assert (Ti : ext_type inner = 65037) by (rewrite (ext_type_of _ _ Einner); reflexivity).
  assert (N41 : no_type 41 (ch_extensions c0) = true).
  { rewrite Hc0, Hcc. cbn [ch_extensions with_exts]. change (sn0 :: A ++ e8 ++ B) with ([sn0] ++ A ++ e8 ++ B). rewrite !no_type_app. unfold no_type at 1 5. cbn [forallb]. rewrite Hsn0, Ti.
    rewrite (HA 41) by (cbn; tauto). rewrite (HB 41); [|cbn; tauto|intros xs E; apply (Hx 41 xs); [cbn; tauto|exact E]].
    destruct He8 as [->|(e & -> & E)]; [reflexivity|]. unfold no_type. cbn [forallb]. rewrite E. reflexivity. }
  assert (Hp : exists pskl, c1 = with_exts c0 (ch_extensions c0 ++ pskl) /\ (pskl = [] \/ exists e, pskl = [e] /\ ext_type e = 41) /\ greased k w p gp).
  { destruct p as [q|].
    - bo Ec1 h Eh. apply bind_Ok in Ec1. destruct Ec1 as ((((c1' & enc1') & k1) & hc) & Eb & Ec1). cbv beta iota in Ec1. bo Ec1 ea Eea. assert (c1' = c1) by congruence. subst c1'.
      destruct (binders_shape _ _ h (hc_new h) _ _ _ _ _ (ko_hash k Hk _ _ Eh) eq_refl Eb) as (e & age & b & -> & Lb & Te & Hg). exists [e]. split; [reflexivity|]. split; [right; exists e; auto|].
      exists h. split; [exact Eh|]. unfold generateGreasePSK in Egp. rewrite (Hg N41) in Egp. cbn [bind greaseItems] in Egp. rewrite Lb in Egp. cbn in Egp. change (3 * 0) with 0 in Egp. change (0 + 1) with 1 in Egp. change (0 + 2) with 2 in Egp. symmetry. congruence.
    - bo Ec1 enc1' Eenc. assert (c1 = c0) by congruence. subst c1. exists []. rewrite app_nil_r. split; [destruct c0; reflexivity|]. split; [left; reflexivity|].
      unfold generateGreasePSK in Egp. rewrite (ServerFlight.getExtension_none KClientPresharedKey _ N41) in Egp. cbn in Egp. cbn. congruence. }
  destruct Hp as (pskl & Hc1 & Hpskl & Hgr). clear Ec1.
  unfold constructEncrypted in Eo. cbv zeta in Eo. bo Eo sn Esn.
  match type of Eo with context [encryptClientHello ?a ?b ?c ?d ?e ?f ?g] => destruct (encryptClientHello a b c d e f g) as [cx r] eqn:Er' end.
  bo Eo x Exx. bo Eo oo Eoo. assert (oo = outer) by congruence. subst oo.
  unfold encryptClientHello in Er'. destruct (encryptImpl _ _ _ _ _ _ _ _ _) as [c3 r3]. injection Er' as <- Er'. rewrite Exx in Er'. bo Er' ct Ect. assert (x = XEchOuter (fst (ng_suite ng), snd (ng_suite ng), ng_id ng, Some enc, Some ct)) by congruence. subst x.
  unfold attachECH in Eoo. bo Eoo x Ex2. bo Eoo g Eg.
  assert (Hx2 : removeExt 42 (removeExt 41 (removeExt 65037 (ch_extensions c1))) = sn0 :: A ++ removeExt 65037 (B ++ [inner])).
  { rewrite Hc1, Hc0, Hcc. cbn [ch_extensions with_exts]. apply outer_exts; auto; apply HB; try (cbn; tauto); intros xs E; (eapply Hx; [|exact E]); cbn; tauto. }
  rewrite Hx2 in Eoo. cbn [replaceOrAdd] in Eoo. rewrite Hsn0, (ext_type_of _ _ Esn) in Eoo. cbn [kind_of kind_type] in Eoo. change (0 =? 0) with true in Eoo. cbv iota in Eoo.
  assert (Hrest : exists rest, outs = KWrite [mkContent LvPlaintext 22 d wire] :: rest).
  { destruct early as [[[[t wl] x0] mx]|]; [destruct (getEarlyDataParams k p)|]; match type of H with Ok (_, ?a :: ?b) = _ => exists b; congruence end. }
  destruct Hrest as (rest & Hrest).
  exists p, kexs, sid, ng, enc, ctx, r2, A, B, inner, sn, gp, g, ct, x, outer, wire, d, rest. split; [exact Ep|]. split; [exact Ek|]. split; [exact Es|]. split; [exact Ee|]. split; [exact Er2|]. split; [exact Hpp|]. split; [exact Einner|]. split; [exact Esn|].
  split; [exact Hgr|]. split; [exact Eg|]. split; [exact Ex2|]. split.
  { assert (Ho : outer = with_exts (mkCH (ch_version c1) r2 (ch_session_id c1) (ch_suites c1) (ch_compression c1) (sn :: A ++ removeExt 65037 (B ++ [inner])))
      (sn :: (A ++ removeExt 65037 (B ++ [inner])) ++ [x] ++ g)) by (cbn [ch_extensions with_exts] in Eoo; cbn [app] in Eoo |- *; congruence).
    rewrite Ho, Hc1, Hc0, Hcc. cbn [with_exts ch_version ch_session_id ch_suites ch_compression ch_extensions]. rewrite <- !app_assoc. reflexivity. }
  split; [exact Ewire|].
  exact Hrest.
Qed.
Lemma find_replaced x l r : findExtension (ext_type x) (replaceOrAdd x l ++ r) = Some x.
Proof.
  unfold findExtension. induction l as [|e l IH]; cbn [replaceOrAdd app find]; [rewrite N.eqb_refl; reflexivity|].
  destruct (ext_type e =? ext_type x) eqn:E; cbn [app find]; [rewrite N.eqb_refl; reflexivity|]. rewrite E. exact IH.
Qed.
Lemma constructed_name first c ng enc ctx random fake gp types ctx' o : constructEncrypted first c ng enc ctx random fake gp types = Ok (ctx', o) ->
  getExtension KServerNameList (ch_extensions o) = Ok (Some (XServerNameList [(0, Some fake)])) /\ ch_random o = random.
Proof.
  intros H. split; [|apply (constructed_same _ _ _ _ _ _ _ _ _ _ _ H)]. unfold constructEncrypted in H. cbv zeta in H. bo H sn Esn.
  match type of H with context [if first then encryptClientHello ?a ?b ?c ?d ?e ?f ?g else ?y] => destruct (if first then encryptClientHello a b c d e f g else y) as [cx r] eqn:Er end.
  bo H x Ex. bo H oo Eo. assert (oo = o) by congruence. subst oo. unfold attachECH in Eo. bo Eo e Ee. bo Eo g Eg.
  match type of Eo with Ok ?y = _ => assert (Ho : o = y) by congruence end. rewrite Ho. cbn [with_exts ch_extensions].
  pose proof (getExtension_rt (XServerNameList [(0, Some fake)]) sn [] [] eq_refl Esn eq_refl) as G. cbn [app kind_of] in G. rewrite <- G. unfold getExtension.
  pose proof (ext_type_of _ _ Esn) as Et. cbn [kind_of] in Et. rewrite <- Et, find_replaced. unfold findExtension. cbn [find]. rewrite N.eqb_refl. reflexivity.
Qed.
Lemma negotiate_in kems aeads l ng : negotiateECHConfig kems aeads l = Ok (Some ng) -> In (ng_cfg ng) l.
Proof.
  induction l as [|c l IH]; [discriminate|]. cbn [negotiateECHConfig]. destruct (hasMandatory c); [right; auto|]. destruct (negb _); [right; auto|]. destruct (negb _); [right; auto|].
  intros H. bo H su Es. destruct su; [|right; auto]. left. assert (Hc : Some c = option_map ng_cfg (Some ng)); [|cbn in Hc; congruence].
  match type of H with Ok ?a = _ => assert (Ha : a = Some ng) by congruence end. rewrite <- Ha. reflexivity.
Qed.
Lemma connect_public k w cn l s' outs : handle_connect k w c_init cn = Ok (s', outs) -> cn_ech cn = Some l ->
  exists ng hl e o wire d rest, In (ng_cfg ng) l /\ c_hello s' = Some hl /\ c_ech s' = Some e /\ ec_neg e = ng /\ ec_status e = CxRequested /\ h_sni hl = Some (ec_name (ng_cfg ng)) /\ cw_random2 w = Ok (h_random hl) /\
    encodeHandshake (MClientHello o) = Ok wire /\ getExtension KServerNameList (ch_extensions o) = Ok (Some (XServerNameList [(0, Some (ec_name (ng_cfg ng)))])) /\
    ch_random o = h_random hl /\ outs = KWrite [mkContent LvPlaintext 22 d wire] :: rest.
Proof.
  intros H Hech. unfold handle_connect in H. bo H p Ep. bo H random Er. cbv zeta in H. bo H sid Es. bo H kexs Ek. bo H ech Ee.
  rewrite Hech in Ee. unfold setupECH in Ee. bo Ee ng En. destruct ng as [ng|]; [|discriminate]. bo Ee g Eg. bo Ee x Ex. apply bind_Ok in Ee. destruct Ee as ((key & ctx) & Ehp & Ee). cbv beta iota in Ee.
  assert (ech = Some (ng, key, ctx)) by congruence. subst ech. clear Ee.
  apply bind_Ok in H. destruct H as ((c0 & req0) & Ec0 & H). cbv beta iota in H.
  apply bind_Ok in H. destruct H as (((c1 & enc1) & early) & Ec1 & H). cbv beta iota in H.
  apply bind_Ok in H. destruct H as (((((wire & req) & sni) & rnd') & est) & Ew & H). cbv beta iota in H.
  bo H d Ed. bo Ew r2 Er2. bo Ew gp Egp. apply bind_Ok in Ew. destruct Ew as ((ctx' & outer) & Eo & Ew). cbv beta iota in Ew. bo Ew wire' Ewire.
  destruct (constructed_name _ _ _ _ _ _ _ _ _ _ _ Eo) as (G1 & G2).
  assert (wire' = wire) by congruence. assert (rnd' = r2) by congruence. assert (sni = Some (ec_name (ng_cfg ng))) by congruence. subst wire' rnd' sni.
  match type of Ew with Ok (_, _, _, _, ?e) = _ => assert (He : est = e) by congruence end. clear Ew. rewrite He in H.
  destruct early as [[[[t wl] x0] mx]|]; [destruct (getEarlyDataParams k p)|]; match type of H with Ok (?st, ?a :: ?b) = _ => assert (Hst : s' = st) by congruence; assert (Hos : outs = a :: b) by congruence end;
    rewrite Hst; eexists ng, _, _, outer, wire, d, _; (split; [eapply negotiate_in, En|]); (split; [reflexivity|]); (split; [reflexivity|]); (split; [reflexivity|]); (split; [reflexivity|]); (split; [reflexivity|]);
    (split; [exact Er2|]); (split; [exact Ewire|]); (split; [exact G1|]); (split; [exact G2|exact Hos]).
Qed.
Lemma retry_public k w s m orig s' outs hl e : handle_retry k w s m orig = Ok (s', outs) -> c_hello s = Some hl -> c_ech s = Some e ->
  exists o enc hl' n, h_sni hl = Some n /\ c_hello s' = Some hl' /\ h_enc hl' = Some enc /\ encodeHandshake (MClientHello o) = Ok enc /\
    getExtension KServerNameList (ch_extensions o) = Ok (Some (XServerNameList [(0, Some n)])) /\ ch_random o = h_random hl.
Proof.
  intros H Ehl Eech. unfold handle_retry in H. rewrite Ehl in H. destruct (h_req hl) as [req|]; [|discriminate]. destruct (h_kex hl) as [kexs|]; [|discriminate].
  bo H u0 E0. bo H u1 E1. apply bind_Ok in H. destruct H as ((version & cipher) & Evc & H). cbv beta iota in H.
  bo H x Ex. bo H group Eg. bo H y Ey. cbv zeta in H. bo H p Ep. bo H kexs' Ek'. bo H c0 Ec0. bo H c1 Ec1. bo H h Eh. bo H en Een. bo H mh Emh. bo H eres Eeres.
  apply bind_Ok in H. destruct H as ((c2 & enc2) & Ec2 & H). cbv beta iota in H.
  apply bind_Ok in H. destruct H as ((enc & est) & Eenc & H). cbv beta iota in H.
  destruct (c_write s) as [wl|] eqn:Ewl; [|discriminate]. bo H ct Ect. rewrite Eech in Eenc, Eeres. bo Eeres r Er. destruct r as [[status ec] gp]. assert (eres = Some (status, ec, gp)) by congruence. subst eres.
  bo Eenc sni Esni. destruct (h_sni hl) as [n|]; [|discriminate]. assert (sni = n) by congruence. subst sni.
  apply bind_Ok in Eenc. destruct Eenc as ((ctx' & outer) & Eo & Eenc). cbv beta iota in Eenc. bo Eenc enc' Eenc'. assert (enc' = enc) by congruence. subst enc'.
  destruct (constructed_name _ _ _ _ _ _ _ _ _ _ _ Eo) as (G1 & G2).
  match type of H with Ok (?st, _) = _ => assert (Hst : s' = st) by congruence end. rewrite Hst.
  eexists outer, enc, _, n. split; [reflexivity|]. split; [reflexivity|]. split; [reflexivity|]. auto.
Qed.

(** ** C57 *)
(** With Encrypted ClientHello, every ClientHello on the wire names the public name of a configuration given to connect, and carries a
    random value drawn for it, not that of the ClientHello inside. *)
Theorem C57_public k l s L1 cs L2 c w0 cn cfgs : cenv_ok k -> creach k l s (L1 ++ CEmit (KWrite cs) :: L2) -> In c cs -> plain_hs c = true ->
  connected L1 w0 cn -> cn_ech cn = Some cfgs ->
  exists cfg o, In cfg cfgs /\ encodeHandshake (MClientHello o) = Ok (ct_plain c) /\
    getExtension KServerNameList (ch_extensions o) = Ok (Some (XServerNameList [(0, Some (ec_name cfg))])) /\ cw_random2 w0 = Ok (ch_random o).
Proof.
  intros Hk Hr Hin Hp (L' & HL1) Hech. destruct (plain_origin _ _ _ _ _ _ _ Hk Hr Hin Hp) as [(w & cn' & s' & rest & -> & -> & H)|D].
  - assert (w = w0) by congruence. assert (cn' = cn) by congruence. subst w cn'.
    destruct (connect_public _ _ _ _ _ _ H Hech) as (ng & hl & e & o & wire & d & rest' & A1 & A2 & A3 & A4 & A4' & A5 & A6 & A7 & A8 & A9 & A10).
    assert (wire = ct_plain c) by congruence. subst wire. exists (ng_cfg ng), o. rewrite A9. auto.
  - destruct D as (log1 & w & m & orig & s1 & s' & A & A' & w1 & cn1 & s0 & outs0 & X & -> & -> & Hret & HA & HA' & Hpl & D).
    pose proof (sd_log _ _ _ _ _ _ _ _ D) as HX. assert (w1 = w0 /\ cn1 = cn) as (-> & ->). { rewrite HX in HL1. cbn [app] in HL1. split; congruence. }
    destruct (connect_public _ _ _ _ _ _ (sd_connect _ _ _ _ _ _ _ _ D) Hech) as (ng & hl & e & o0 & wire & d & rest' & A1 & A2 & A3 & A4 & A4' & A5 & A6 & A7 & A8 & A9 & A10).
    assert (Hg : g_kexType (c_neg s1) = None).
    { unfold handle_retry in Hret. destruct (c_hello s1) as [hl1|]; [|discriminate]. destruct (h_req hl1) as [req|]; [|discriminate]. destruct (h_kex hl1) as [kexs|]; [|discriminate].
      bo Hret u0 E0. bo Hret u1 E1. apply ensure_ok in E1. destruct (g_kexType (c_neg s1)); [discriminate|reflexivity]. }
    destruct (sd_first _ _ _ _ _ _ _ _ D (aw_state _ _ _ _ HA) Hg) as (F1 & F2 & _ & _). rewrite A2 in F1. rewrite A3 in F2.
    destruct (retry_public _ _ _ _ _ _ _ _ _ Hret F1 F2) as (o & enc & hl' & n & B1 & B2 & B3 & B4 & B5 & B6).
    destruct (aw_hello _ _ _ _ HA') as (C1 & _ & _ & _ & C2).
    exists (ng_cfg ng), o. split; [exact A1|]. assert (enc = ct_plain c) by (rewrite Hpl; congruence). subst enc. split; [exact B4|]. assert (n = ec_name (ng_cfg ng)) by congruence. subst n. split; [exact B5|]. rewrite B6. exact A6.
Qed.
(** An observer of the first ClientHello learns, outside the encrypted payload, neither the server name nor which PSK (of the same kind)
    is offered nor whether early data is attempted: two clients that differ only in these, in the same environment, write the same bytes
    but for the payload (whose length, by C46, does not tell names within the configuration's limit apart). *)
Lemma offered k now cn p q : validatePsk k now (cn_psk cn) = Ok p -> to_offer k now cn q -> p = q.
Proof.
  intros H1 H2. pose proof (to_offer_ok _ _ _ _ H1) as H3. unfold to_offer in *. destruct p as [a|], q as [b|]; [|..|reflexivity].
  - destruct (H2 a) as (_ & X). symmetry. apply X. apply (H3 a). reflexivity.
  - destruct (H2 a) as (_ & X). symmetry. apply X. apply (H3 a). reflexivity.
  - destruct (H3 b) as (_ & X). apply X. apply (H2 b). reflexivity.
Qed.
Theorem C57_hides k w cn1 cn2 l1 l2 s1 s2 c1 c2 L1 L2 cfgs n1 n2 p1 p2 : cenv_ok k ->
  creach k l1 s1 (CCall w (JConnect cn1) :: CEmit (KWrite [c1]) :: L1) -> creach k l2 s2 (CCall w (JConnect cn2) :: CEmit (KWrite [c2]) :: L2) ->
  plain_hs c1 = true -> plain_hs c2 = true ->
  cn_ech cn1 = Some cfgs -> cn_ech cn2 = Some cfgs -> cn_exts cn1 = cn_exts cn2 -> cn_sni cn1 = Some n1 -> cn_sni cn2 = Some n2 ->
  to_offer k (cw_now w) cn1 p1 -> to_offer k (cw_now w) cn2 p2 -> same_kind k p1 p2 ->
  app_without 41 [CCall w (JConnect cn1)] -> app_without 42 [CCall w (JConnect cn1)] ->
  exists o1 o2 pl1 pl2, encodeHandshake (MClientHello o1) = Ok (ct_plain c1) /\ encodeHandshake (MClientHello o2) = Ok (ct_plain c2) /\ same_but_payload o1 o2 pl1 pl2.
Proof.
  intros Hk R1 R2 P1 P2 E1 E2 Ex N1 N2 O1 O2 Hs A41 A42.
  assert (Hx : forall t xs, In t [41; 42] -> cw_exts w = Ok xs -> no_type t xs = true).
  { intros t xs [<-|[<-|[]]] E; [apply (A41 w)|apply (A42 w)]; try exact E; left; reflexivity. }
  assert (Hc : forall cn c l s L, creach k l s (CCall w (JConnect cn) :: CEmit (KWrite [c]) :: L) -> plain_hs c = true -> exists s' rest, handle_connect k w c_init cn = Ok (s', KWrite [c] :: rest)).
  { intros cn c l s L R P. destruct (plain_origin k l s [CCall w (JConnect cn)] [c] L c Hk R (or_introl eq_refl) P) as [(w' & cn' & s' & rest & Ea & Eb & H)|D].
    - assert (w' = w) by congruence. assert (cn' = cn) by congruence. subst. eauto.
    - destruct D as (log1 & w' & m & orig & s1' & s' & A & A' & w1 & cn1' & s0 & outs0 & X & Ea & _). exfalso. destruct log1 as [|? [|]]; discriminate. }
  destruct (Hc _ _ _ _ _ R1 P1) as (s1' & rest1 & H1). destruct (Hc _ _ _ _ _ R2 P2) as (s2' & rest2 & H2).
  destruct (connect_outer _ _ _ _ _ _ _ Hk H1 E1 N1 Hx) as (q1 & kx1 & sid1 & ng1 & en1 & cx1 & r1 & A1 & B1 & i1 & sn1 & gp1 & g1 & ct1 & x1 & o1 & w1 & d1 & re1 & X1 & X2 & X3 & X4 & X5 & X6 & X7 & X8 & X9 & X10 & X11 & X12 & X13 & X14).
  destruct (connect_outer _ _ _ _ _ _ _ Hk H2 E2 N2 Hx) as (q2 & kx2 & sid2 & ng2 & en2 & cx2 & r2 & A2 & B2 & i2 & sn2 & gp2 & g2 & ct2 & x2 & o2 & w2 & d2 & re2 & Y1 & Y2 & Y3 & Y4 & Y5 & Y6 & Y7 & Y8 & Y9 & Y10 & Y11 & Y12 & Y13 & Y14).
  assert (q1 = p1) by (eapply offered; eassumption). assert (q2 = p2) by (eapply offered; eassumption). subst q1 q2. rewrite E1 in X4. rewrite E2 in Y4.
  assert (ng2 = ng1) by congruence. assert (en2 = en1) by congruence. assert (r2 = r1) by congruence. assert (sid2 = sid1) by congruence. assert (i2 = i1) by congruence. subst ng2 en2 r2 sid2 i2.
  assert (sn2 = sn1) by congruence. subst sn2.
  assert (selectedShares k p1 = selectedShares k p2).
  { unfold selectedShares. destruct p1 as [q1|], p2 as [q2|]; cbn [same_kind] in Hs; try contradiction; [|reflexivity]. destruct Hs as (-> & _). reflexivity. }
  assert (kx2 = kx1) by congruence. subst kx2. rewrite <- Ex in Y6. assert (A2 = A1) by congruence. assert (B2 = B1) by congruence. subst A2 B2.
  assert (gp2 = gp1).
  { destruct p1 as [q1|], p2 as [q2|]; cbn [same_kind greased] in *; try contradiction; [|congruence]. destruct Hs as (_ & Hs). destruct X9 as (h1 & K1 & ->), Y9 as (h2 & K2 & ->). rewrite (Hs h1 h2 K1 K2). reflexivity. }
  subst gp2. assert (g2 = g1) by congruence. subst g2.
  exists o1, o2, ct1, ct2. assert (w1 = ct_plain c1).
  { assert (Hk1 : Some (KWrite [c1]) = Some (KWrite [mkContent LvPlaintext 22 d1 w1])) by congruence. injection Hk1 as ->. reflexivity. }
  assert (w2 = ct_plain c2).
  { assert (Hk1 : Some (KWrite [c2]) = Some (KWrite [mkContent LvPlaintext 22 d2 w2])) by congruence. injection Hk1 as ->. reflexivity. }
  subst w1 w2. split; [exact X13|]. split; [exact Y13|].
  exists o1, (sn1 :: A1 ++ removeExt 65037 (B1 ++ [i1])), g1, (fst (ng_suite ng1)), (snd (ng_suite ng1)), (ng_id ng1), en1, x1, x2.
  split; [exact X11|]. split; [exact Y11|]. rewrite X12, Y12. unfold with_exts. cbn [ch_version ch_random ch_session_id ch_suites ch_compression]. cbn [app]. rewrite <- !app_assoc. auto.
Qed.
(** When the client has sent its flight, either the connection is successful (by C48 and C49 only if Encrypted ClientHello was accepted
    or not asked for), or it was asked for and rejected: then the connection fails with the alert ech_required, without ever having been
    reported successful. *)
Theorem C57_outcome k l s L1 cs L2 c : cenv_ok k -> creach k l s (L1 ++ CEmit (KWrite cs) :: L2) -> In c cs -> ct_type c = 22 -> ct_level c = LvHandshake ->
  (exists early L3, L2 = CEmit (KSuccess early) :: L3) \/
  (exists w0 cn L3, connected L1 w0 cn /\ cn_ech cn <> None /\ ccount cis_success L1 = 0%nat /\ Forall cafter L3 /\
     (L2 = CEmit (KError (Some 121)) :: L3 \/ exists al, ct_type al = 21 /\ L2 = CEmit (KWrite [al]) :: CEmit (KError (Some 121)) :: L3)).
Proof.
  intros Hk Hr Hin Ht Hv.
  destruct (cemit_more _ _ _ _ _ _ _ Hk Hr eq_refl) as [(log1 & s1 & w & ev & s2 & pre & post & L3 & HP & HS & (l1 & s0' & Hr1 & Es & En) & HA & EL1 & EL2)|D].
  2:{ exfalso. destruct D as [(n & [=])|[(a & [=])|(ct & [= ->] & E)]]. destruct Hin as [<-|[]]. congruence. }
  remember (pre ++ KWrite cs :: post) as outs eqn:Eo.
  assert (Hone : forall ct, [KWrite [ct]] = pre ++ KWrite cs :: post -> ct_type ct <> 22 \/ ct_level ct <> LvHandshake -> False).
  { intros ct E Hn. apply one_elem in E. destruct E as (_ & _ & [= ->]). destruct Hin as [<-|[]]. destruct Hn; congruence. }
  assert (Hccs : forall b ct, In c (ccs_first k b ++ [ct]) -> c = ct).
  { intros b ct Hi. apply in_app_or in Hi. destruct Hi as [Hi|[Hi|[]]]; [|auto]. exfalso. unfold ccs_first in Hi. destruct (k_compat k && negb b); [|exact Hi].
    destruct Hi as [<-|[]]. discriminate. }
  destruct HA; try (destruct pre; discriminate); try (exfalso; apply one_elem in Eo; destruct Eo as (_ & _ & [=]); fail).
  - exfalso. destruct H2 as [->|(t & mx & x & ->)]; destruct pre as [|? [|? [|? [|? [|? ?]]]]]; try discriminate; injection Eo as; subst; destruct Hin as [<-|[]]; discriminate.
  - exfalso. apply one_elem in Eo. destruct Eo as (_ & _ & [= ->]). apply Hccs in Hin. subst ct. congruence.
  - exfalso. rewrite (ah_outs _ _ _ _ _ _ _ H3) in Eo. destruct pre as [|p1 [|p2 [|p3 pre]]]; discriminate.
  - exfalso. destruct H4 as [->|(n & cs' & ->)]; [destruct pre; discriminate|]. apply one_elem in Eo. destruct Eo as (_ & _ & [=]).
  - assert (Hcs : tail = post /\ pre = [KSecret (KTraffic SkServerApp) (server_traffic (y_h G) (z_tr G F 0 0)); KSecret (KTraffic SkClientApp) (client_traffic (y_h G) (z_tr G F 0 0));
       KSecret KExporter (z_exporter G F); KSecret KResumption (z_resumption G F)]).
    { unfold z_outs in Eo. destruct pre as [|p1 [|p2 [|p3 [|p4 [|p5 pre]]]]]; try discriminate; [injection Eo as; subst; auto|]. exfalso.
      destruct H12 as [(-> & _)|(_ & _ & _ & _ & _ & [->|(al & -> & Ea)])]; destruct pre as [|p6 [|p7 [|p8 pre]]]; try discriminate.
      injection Eo as; subst. destruct Hin as [<-|[]]. congruence. }
    destruct Hcs as (<- & Hpre).
    destruct H12 as [(-> & _)|(_ & _ & _ & _ & He & Htail)]; [left; exists (z_early F), L3; exact EL2|]. right. exists (y_w0 G), (y_cn G), L3.
    split. { rewrite EL1, (cp_log _ _ _ _ H0). unfold y_pre. apply connected_app, connected_app, connected_app, H0. }
    split; [exact He|]. split.
    { rewrite EL1. unfold ccount. rewrite filter_app, Hpre. cbn [map filter cis_success centry_of app]. rewrite app_nil_r. exact (proj1 (xi_quiet _ _ _ _ _ H2)). }
    assert (Hf : Forall cafter L3).
    { destruct Htail as [->|(al & -> & _)]; cbn [map app] in EL2; rewrite EL2 in Hr.
      - apply (C54_error_final k l s (L1 ++ [CEmit (KWrite cs)]) (Some 121) L3 Hk). rewrite <- app_assoc. exact Hr.
      - apply (C54_error_final k l s (L1 ++ [CEmit (KWrite cs); CEmit (KWrite [al])]) (Some 121) L3 Hk). rewrite <- app_assoc. exact Hr. }
    split; [exact Hf|]. destruct Htail as [->|(al & -> & Ea)]; [left; exact EL2|right; exists al; split; [exact Ea|exact EL2]].
  - exfalso. revert Eo. intros Eo. eapply Hone; [exact Eo|]. left. rewrite H6. discriminate.
  - exfalso. apply one_elem in Eo. destruct Eo as (_ & _ & [= ->]). apply Hccs in Hin. subst ct. congruence.
  - exfalso. destruct pre as [|p1 [|p2 [|p3 pre]]]; try discriminate. injection Eo as; subst. destruct Hin as [<-|[]]. congruence.
  - exfalso. destruct H7 as [(_ & E)|(_ & ws & ct & wl & E & G1 & G2 & G3 & G4 & _)]; rewrite E in Eo; destruct pre as [|p1 [|p2 [|p3 [|p4 pre]]]]; try discriminate.
    injection Eo as; subst. destruct Hin as [<-|[]]. congruence.
  - exfalso. destruct H3 as [(_ & ct & -> & E & _)|(_ & ->)]; [|apply one_elem in Eo; destruct Eo as (_ & _ & [=])]. destruct pre as [|a [|c0 [|d pre]]]; try discriminate.
    injection Eo as; subst. destruct Hin as [<-|[]]. congruence.
Qed.
(** Configurations to retry with are reported as they arrive in EncryptedExtensions: those of its encrypted_client_hello extension that
    this implementation supports, at least one, with the name given to connect; that is before the server is authenticated. *)
Theorem C57_retry_configs k l s L1 n cfgs L2 : cenv_ok k -> creach k l s (L1 ++ CEmit (KEchRetry n cfgs) :: L2) ->
  exists L w x orig w0 cn raw, L1 = L ++ [CRecv w (EvHandshake (MEncryptedExtensions x) orig)] /\ connected L w0 cn /\ cn_ech cn <> None /\
    n = match cn_sni cn with Some m => m | None => [] end /\
    getExtension KEchEncryptedExtensions x = Ok (Some (XEchEncryptedExtensions raw)) /\
    (exists parsed, mapR parseSupportedECHConfig raw = Ok parsed /\ forall c, In c cfgs <-> In (Some c) parsed) /\ cfgs <> [].
Proof.
  intros Hk Hr.
  destruct (cemit_more _ _ _ _ _ _ _ Hk Hr eq_refl) as [(log1 & s1 & w & ev & s2 & pre & post & L3 & HP & HS & (l1 & s0' & Hr1 & Es & En) & HA & EL1 & EL2)|D].
  2:{ exfalso. destruct D as [(? & [=])|[(a & [=])|(ct & [=] & E)]]. }
  remember (pre ++ KEchRetry n cfgs :: post) as outs eqn:Eo.
  destruct HA; try (destruct pre; discriminate); try (exfalso; apply one_elem in Eo; destruct Eo as (_ & _ & [=]); fail).
  - exfalso. destruct H2 as [->|(t & mx & x & ->)]; destruct pre as [|? [|? [|? [|? [|? ?]]]]]; discriminate.
  - exfalso. rewrite (ah_outs _ _ _ _ _ _ _ H3) in Eo. destruct pre as [|p1 [|p2 [|p3 pre]]]; discriminate.
  - destruct H4 as [->|(n' & cs' & ->)]; [destruct pre; discriminate|]. apply one_elem in Eo. destruct Eo as (-> & -> & [= <- <-]).
    destruct (sided_hs k log1 s1) as (w0 & cn & s0 & outs0 & X & D); [unfold live; rewrite H; exact Logic.I|congruence|exact HS|].
    pose proof (sd_sni _ _ _ _ _ _ _ _ D) as (hl' & Ehl' & _ & Hn).
    unfold handle_ee in H3. destruct (c_hello s1) as [hl|] eqn:Ehl; [|discriminate]. destruct (c_hctx s1) as [hc|] eqn:Ehc; [|discriminate]. destruct (g_psk (c_neg s1)) as [pt|] eqn:Ept; [|discriminate].
    destruct (h_req hl); [|discriminate]. bo H3 u E4. bo H3 a E5. bo H3 alpn E6. bo H3 e E7. bo H3 ed E8. bo H3 rt E9. bo H3 u2 E10.
    assert (rt = Some (n, cfgs)). { destruct rt as [[n1 c1]|]; [|discriminate]. f_equal. assert (Heq : [KEchRetry n1 c1] = [KEchRetry n cfgs]) by congruence. congruence. } subst rt.
    destruct (c_ech s1) as [es|] eqn:Ees; [|discriminate]. bo E9 xe Exe. destruct xe as [xe|]; [|discriminate]. pose proof (getExtension_kind _ _ _ Exe) as Hkd. destruct xe; try discriminate. bo E9 parsed Epar.
    assert (Hc : optmap (fun o => o) parsed = cfgs /\ cfgs <> [] /\ n = match ec_sni es with Some n => n | None => [] end).
    { destruct (optmap (fun o => o) parsed) as [|c0 r0]; [discriminate|]. split; [congruence|]. split; [|congruence]. assert (cfgs = c0 :: r0) by congruence. subst. discriminate. }
    destruct Hc as (Hc1 & Hc2 & Hc3). pose proof (fx_ech _ _ H1) as Fe. rewrite Ees in Fe. destruct Fe as (_ & Fe).
    assert (Hcn : y_cn G = cn).
    { pose proof (cp_conn _ _ _ _ H0) as (L0' & E1). pose proof (cp_log _ _ _ _ H0) as E2. rewrite (sd_log _ _ _ _ _ _ _ _ D) in E2. unfold y_pre in E2. rewrite E1 in E2. cbn [app] in E2. congruence. }
    eexists log1, w, x, orig, w0, cn, _. split; [exact EL1|]. split. { rewrite (sd_log _ _ _ _ _ _ _ _ D). eexists. reflexivity. }
    split; [rewrite <- Hcn; exact Fe|]. split; [rewrite Hc3, Hn; reflexivity|]. split; [exact Exe|]. split; [|exact Hc2]. exists parsed. split; [exact Epar|].
    intros c. rewrite <- Hc1. clear. induction parsed as [|[y|] r IH]; cbn [optmap In]; [tauto| |]; split; intros Hc.
    + destruct Hc as [->|Hc]; [auto|right; apply IH, Hc].
    + destruct Hc as [[= ->]|Hc]; [auto|right; apply IH, Hc].
    + right. apply IH, Hc.
    + destruct Hc as [[=]|Hc]. apply IH, Hc.
  - exfalso. unfold z_outs in Eo. destruct H12 as [(-> & _)|(_ & _ & _ & _ & _ & [->|(al & -> & _)])];
      destruct pre as [|p1 [|p2 [|p3 [|p4 [|p5 [|p6 [|p7 [|p8 pre]]]]]]]]; discriminate.
  - exfalso. destruct pre as [|p1 [|p2 [|p3 pre]]]; discriminate.
  - exfalso. destruct H7 as [(_ & E)|(_ & ws & ct & wl & E & _)]; rewrite E in Eo; destruct pre as [|? [|? [|? [|? ?]]]]; discriminate.
  - exfalso. destruct H3 as [(_ & ct & -> & _)|(_ & ->)]; destruct pre as [|? [|? [|? ?]]]; discriminate.
Qed.
