(** * C44-C47: Encrypted ClientHello encryption, decryption, padding and configuration choice *)
From Coq Require Import Sorting.Permutation.
From Verif Require Import Base Codec CodecSpec Str Hkdf HkdfSpec HkdfProofs Kex Record RecordSpec Hpke HpkeSpec HpkeProofs HpkeUtils
  Handshake HandshakeSpec HandshakeProofs Extensions ExtensionsSpec ExtensionsProofs Transcript IOBufUtil EchCrypt EchSpec EchProofs
  PropsRecord PropsKeys PropsHpke.
Open Scope N_scope.

(** The factory's primitives: every hash satisfies the assumptions of HkdfSpec; every AEAD opens what it seals with the same key
    and IV, has a 16 byte tag and keys and IVs of at most 255 bytes. *)
Record good_factory (fa : echfac) : Prop := {
  gf_hash : forall h, hash_ok (fa_hash fa h);
  gf_size : forall cs alg, fa_aead fa cs = Ok alg -> ag_key alg <= 255 /\ ag_iv alg <= 255;
  gf_open : forall cs alg k iv, fa_aead fa cs = Ok alg -> opens (ag_set alg k iv) (ag_set alg k iv);
  gf_tag : forall cs alg k iv, fa_aead fa cs = Ok alg -> ae_overhead (ag_set alg k iv) = 16 }.

(** An inner and an outer hello of one connection attempt: the inner one is a well-formed message small enough to be encoded, the
    outer one carries no ECH extension yet, both have the same session id, and the extensions to be copied from the outer hello can
    be (see [compressible]). *)
Record hello_pair (inner outer : ClientHello) (ots : list N) : Prop := {
  hp_wf : wf_msg (MClientHello inner) = true;
  hp_fit : fit_msg (MClientHello inner) = true;
  hp_none : ~ In 65037 (types (ch_extensions outer));
  hp_sid : ch_session_id outer = ch_session_id inner;
  hp_cmp : compressible (ch_extensions inner) (ch_extensions outer) ots }.

Lemma no_type_in t l : no_type t l = true <-> ~ In t (types l).
Proof.
  unfold no_type, types. split.
  - intros H Hi. apply in_map_iff in Hi. destruct Hi as (e & <- & He). rewrite forallb_forall in H. specialize (H _ He).
    rewrite N.eqb_refl in H. discriminate.
  - intros H. apply forallb_forall. intros e He. apply negb_true_iff, N.eqb_neq. intros E. apply H. rewrite <- E. apply in_map. exact He.
Qed.

Lemma ids_of_group k g : getKexGroup k = Ok g -> exists kid, getDHKEMId g = Ok kid /\ getKEMId g = Ok kid.
Proof.
  unfold getKexGroup. intros H.
  destruct (k =? 16); [|destruct (k =? 17); [|destruct (k =? 18); [|destruct (k =? 32); [|discriminate]]]];
    injection H as <-; eexists; split; reflexivity.
Qed.

(** Client and server derive matching contexts. *)
Lemma contexts fa e r enc pk dh ng enc' cs : good_factory fa -> dh_pair e r enc pk dh -> ec_pk (ng_cfg ng) = Some pk ->
  constructHpkeSetupResult fa e ng = Ok (enc', cs) ->
  enc' = enc /\ hc_role cs = Sender /\ hc_seq cs = 0 /\ ae_overhead (hc_aead cs) = 16 /\
  exists cr, hc_role cr = Receiver /\ opens (hc_aead cs) (hc_aead cr) /\
    forall n, setupDecryptionContext fa (ng_cfg ng) (ng_suite ng) (Some enc) r n = Ok (set_seq cr n).
Proof.
  intros [G1 G2 G3 G4] D Hpk H. unfold constructHpkeSetupResult in H.
  apply bind_Ok in H. destruct H as (h & Eh & H). apply bind_Ok in H. destruct H as (grp & Eg & H).
  apply bind_Ok in H. destruct H as (info & Ei & H). apply bind_Ok in H. destruct H as (cs0 & Ec & H).
  apply bind_Ok in H. destruct H as (sid & Es & H). apply bind_Ok in H. destruct H as (alg & Ea & H).
  rewrite Hpk in H. destruct (ids_of_group _ _ Eg) as (kid & K1 & _).
  destruct (G2 _ _ Ea) as [S1 S2].
  pose proof (ho_pos _ (G1 h)) as Hp.
  assert (B1 : ag_key alg <= 255 * h_len (fa_hash fa h)) by nia.
  assert (B2 : ag_iv alg <= 255 * h_len (fa_hash fa h)) by nia.
  assert (X : forall n, setupWithEncap (fa_hash fa h) (fa_hash fa h) hpke_v1 sid grp alg Base_ e None pk info None n =
                     setupWithEncap (fa_hash fa h) (fa_hash fa h) hpke_v1 sid grp alg Base_ e (Some e) pk info None n) by reflexivity.
  assert (Y : forall n, setupWithDecap (fa_hash fa h) (fa_hash fa h) hpke_v1 sid grp alg Base_ r enc None info None n =
                     setupWithDecap (fa_hash fa h) (fa_hash fa h) hpke_v1 sid grp alg Base_ r enc (Some enc) info None n) by reflexivity.
  pose proof (fun n => C33_setup_agreement _ _ hpke_v1 sid grp kid alg Base_ e r e enc pk enc info None n dh dh
     (G1 h) (G1 h) K1 ltac:(lia) B1 ltac:(lia) B2 D D) as A. cbv zeta in A.
  rewrite X, (proj1 (A 0)) in H. injection H as <- <-.
  split; [reflexivity|]. cbn [hc_role hc_seq hc_aead]. split; [reflexivity|]. split; [reflexivity|]. split; [eapply G4; exact Ea|].
  eexists (mkHctx 0 _ _ _ _ _ Receiver). cbn [hc_role hc_aead]. split; [reflexivity|]. split; [eapply G3; exact Ea|].
  intros n. unfold setupDecryptionContext. rewrite Eg, Eh. cbn [bind]. rewrite Ec. cbn [bind]. rewrite Es. cbn [bind].
  rewrite Ea. cbn [bind]. rewrite Ei. cbn [bind]. rewrite Y, (proj2 (A n)). reflexivity.
Qed.

Lemma get_param outer e g kdf ae cid enc ct ps : ~ In 65037 (types (ch_extensions outer)) ->
  wf_x (XEchOuter (kdf, ae, cid, Some enc, Some ct)) = true ->
  encodeExtension (XEchOuter (kdf, ae, cid, Some enc, Some ct)) = Ok e ->
  findExtension 65037 (ch_extensions (with_exts outer (ch_extensions outer ++ [e] ++ g))) = Some e /\
  decodeAndGetParam e ps = Ok (match find (fun p => cid =? ec_id (fst p)) ps with
                               | Some p => Some ((kdf, ae, cid, Some enc, Some ct), p) | None => None end).
Proof.
  intros Hn Hw He. pose proof He as He'. apply encodeExtension_iff in He'; [|exact Hw]. destruct He' as [Hf Hee].
  split.
  - unfold findExtension. apply find_split. exists (ch_extensions outer), g. cbn [with_exts ch_extensions app].
    split; [reflexivity|]. split; [apply no_type_in; exact Hn|]. rewrite Hee. reflexivity.
  - unfold decodeAndGetParam. rewrite Hee. cbn [ext_data].
    pose proof (read_ext_ok _ [] Hw Hf (fun _ => eq_refl)) as E. rewrite app_nil_r in E. cbn [kind_of] in E. rewrite E. reflexivity.
Qed.

Lemma suite_in ng fa e enc cs : constructHpkeSetupResult fa e ng = Ok (enc, cs) ->
  in_u 2 (fst (ng_suite ng)) = true /\ in_u 2 (snd (ng_suite ng)) = true.
Proof.
  intros H. unfold constructHpkeSetupResult in H.
  apply bind_Ok in H. destruct H as (h & Eh & H). apply bind_Ok in H. destruct H as (grp & Eg & H).
  apply bind_Ok in H. destruct H as (info & Ei & H). apply bind_Ok in H. destruct H as (cs0 & Ec & H).
  unfold getHashFunction in Eh. unfold getCipherSuite in Ec. split.
  - destruct (N.eqb_spec (fst (ng_suite ng)) 1) as [->|]; [reflexivity|]. destruct (N.eqb_spec (fst (ng_suite ng)) 2) as [->|]; [reflexivity|].
    destruct (N.eqb_spec (fst (ng_suite ng)) 3) as [->|]; [reflexivity|discriminate].
  - destruct (N.eqb_spec (snd (ng_suite ng)) 1) as [->|]; [reflexivity|]. destruct (N.eqb_spec (snd (ng_suite ng)) 2) as [->|]; [reflexivity|].
    destruct (N.eqb_spec (snd (ng_suite ng)) 3) as [->|]; [reflexivity|discriminate].
Qed.

(** ** C44: the server recovers exactly the inner hello *)
(** The client holds a configuration [ng]; the server's first configuration with that id is the same one, with the private key
    of its public key. The server decrypts the first outer hello to exactly the client's inner hello, and so does it for a
    second hello after a HelloRetryRequest, both with the context it kept and (stateless) with one rebuilt from the first hello's
    encapsulated key. *)
Theorem C44_roundtrip : forall fa e r enc pk dh ng ps enc' cs inner outer grease ots cs1 x wire,
  good_factory fa -> dh_pair e r enc pk dh -> ec_pk (ng_cfg ng) = Some pk -> ng_id ng < 256 ->
  find (fun p => ng_id ng =? ec_id (fst p)) ps = Some (ng_cfg ng, r) ->
  constructHpkeSetupResult fa e ng = Ok (enc', cs) ->
  encryptClientHello ng (Some enc') cs inner outer grease ots = (cs1, Ok x) -> attachECH outer x grease = Ok wire ->
  hello_pair inner outer ots ->
  exists cr1, decryptClientHello fa ps wire = Ok (Some (inner, w_msg (MClientHello inner), ng_id ng, cr1)) /\
  forall inner2 outer2 grease2 ots2 cs2 x2 wire2,
    encryptClientHelloHRR ng cs1 inner2 outer2 grease2 ots2 = (cs2, Ok x2) -> attachECH outer2 x2 grease2 = Ok wire2 ->
    hello_pair inner2 outer2 ots2 ->
    exists cr2, decryptClientHelloHRR fa ps wire2 (Some cr1) None = Ok (inner2, w_msg (MClientHello inner2), cr2) /\
                decryptClientHelloHRR fa ps wire2 None (Some enc) = Ok (inner2, w_msg (MClientHello inner2), cr2).
Proof.
  intros fa e r enc pk dh ng ps enc' cs inner outer grease ots cs1 x wire G D Hpk Hid Hps Hset Henc Hatt [W F Hn Hs Hc].
  destruct (suite_in _ _ _ _ _ Hset) as [U1 U2].
  assert (U3 : in_u 1 (ng_id ng) = true) by (unfold in_u; change (256 ^ N.of_nat 1) with 256; lia).
  destruct (contexts _ _ _ _ _ _ _ _ _ G D Hpk Hset) as (-> & Rs & Q0 & Ov & cr & Rr & Ho & Hdec).
  unfold encryptClientHello in Henc.
  destruct (encryptImpl cs (ng_suite ng) (ng_id ng) (Some enc) inner outer grease (ng_max ng) ots) as [c rr] eqn:Ei.
  destruct rr as [ct|er]; [|discriminate]. cbn [bind] in Henc. assert (c = cs1) by congruence. subst c.
  assert (Hx : x = XEchOuter (fst (ng_suite ng), snd (ng_suite ng), ng_id ng, Some enc, Some ct)) by congruence. clear Henc. subst x.
  unfold attachECH in Hatt. apply bind_Ok in Hatt. destruct Hatt as (ee & Eee & Hatt).
  apply bind_Ok in Hatt. destruct Hatt as (g & Eg & Hatt). assert (Hw : wire = with_exts outer (ch_extensions outer ++ [ee] ++ g)) by congruence.
  clear Hatt. subst wire.
  assert (Wx : forall en c, wf_x (XEchOuter (fst (ng_suite ng), snd (ng_suite ng), ng_id ng, Some en, Some c)) = true).
  { intros en c. cbn. rewrite U1, U2, U3. reflexivity. }
  destruct (get_param outer ee g _ _ _ _ _ ps Hn (Wx enc ct) Eee) as [P1 P2].
  destruct (ech_open cs (set_seq cr 0) _ _ _ _ _ _ _ _ _ _ _ _ Rs Rr ltac:(cbn; congruence) Ho Ov Ei Eee Eg U1 U2 U3 (proj2 (no_type_in _ _) Hn) Hc W F Hs)
    as [Eo Ecs1].
  exists (set_seq (set_seq cr 0) (0 + 1)). split.
  { unfold decryptClientHello. rewrite P1, P2. cbn [bind]. rewrite Hps.
    replace (fst (ng_suite ng), snd (ng_suite ng)) with (ng_suite ng) by (destruct (ng_suite ng); reflexivity).
    rewrite Hdec. rewrite Eo. reflexivity. }
  clear P1 P2 Eo. intros inner2 outer2 grease2 ots2 cs2 x2 wire2 Henc2 Hatt2 [W2 F2 Hn2 Hs2 Hc2].
  unfold encryptClientHelloHRR, encryptClientHello in Henc2.
  destruct (encryptImpl cs1 (ng_suite ng) (ng_id ng) (Some []) inner2 outer2 grease2 (ng_max ng) ots2) as [c2 rr2] eqn:Ei2.
  destruct rr2 as [ct2|er]; [|discriminate]. cbn [bind] in Henc2.
  assert (Hx : x2 = XEchOuter (fst (ng_suite ng), snd (ng_suite ng), ng_id ng, Some [], Some ct2)) by congruence. clear Henc2. subst x2.
  unfold attachECH in Hatt2. apply bind_Ok in Hatt2. destruct Hatt2 as (ee2 & Eee2 & Hatt2).
  apply bind_Ok in Hatt2. destruct Hatt2 as (g2 & Eg2 & Hatt2).
  assert (Hw : wire2 = with_exts outer2 (ch_extensions outer2 ++ [ee2] ++ g2)) by congruence. clear Hatt2. subst wire2.
  destruct (get_param outer2 ee2 g2 _ _ _ _ _ ps Hn2 (Wx [] ct2) Eee2) as [P1 P2].
  subst cs1.
  destruct (ech_open (set_seq cs (hc_seq cs + 1)) (set_seq cr 1) _ _ _ _ _ _ _ _ _ _ _ _ Rs Rr
      ltac:(cbn [set_seq hc_seq]; rewrite Q0; reflexivity) Ho Ov Ei2 Eee2 Eg2 U1 U2 U3 (proj2 (no_type_in _ _) Hn2) Hc2 W2 F2 Hs2)
    as [Eo _].
  exists (set_seq cr 2). split.
  - unfold decryptClientHelloHRR. rewrite P1, P2. cbn [bind]. rewrite Hps.
    change (set_seq (set_seq cr 0) (0 + 1)) with (set_seq cr 1). cbn [bind]. rewrite Eo. reflexivity.
  - unfold decryptClientHelloHRR. rewrite P1, P2. cbn [bind]. rewrite Hps.
    replace (fst (ng_suite ng), snd (ng_suite ng)) with (ng_suite ng) by (destruct (ng_suite ng); reflexivity).
    rewrite Hdec. cbn [bind]. rewrite Eo. reflexivity.
Qed.
Print Assumptions C44_roundtrip.

(** What expansion of the decrypted hello's extensions can produce: no repeated type, no ech_outer_extensions, every extension comes
    from the decrypted hello or from the outer one, and the ECH extension is never copied from the outer one. *)
Lemma expandTypes_spec : forall ts seen outer l s, expandTypes seen ts outer = Some (l, s) ->
  types l = ts /\ sublist l outer /\ ~ In 65037 ts /\ NoDup ts /\ (forall t, In t ts -> ~ In t seen) /\
  (forall t, In t s <-> In t seen \/ In t ts).
Proof.
  assert (Scan : forall t outer e o', scanOuter t outer = Some (e, o') -> ext_type e = t /\ forall l, sublist l o' -> sublist (e :: l) outer).
  { induction outer as [|a outer IH]; cbn [scanOuter]; [discriminate|]. intros e o'.
    destruct (N.eqb_spec (ext_type a) t) as [E|E].
    - intros H. injection H as <- <-. split; [exact E|]. intros l Hl. apply sub_keep. exact Hl.
    - intros H. destruct (IH _ _ H) as [H1 H2]. split; [exact H1|]. intros l Hl. apply sub_skip. auto. }
  induction ts as [|t ts IH]; intros seen outer l s H; cbn [expandTypes] in H.
  - injection H as <- <-. split; [reflexivity|]. split; [constructor|]. split; [intros []|]. split; [constructor|]. split; [intros t []|].
    intros t. cbn. tauto.
  - destruct (existsb (N.eqb t) seen) eqn:Es; [discriminate|]. apply nin_existsb in Es.
    destruct (N.eqb_spec t 65037) as [|Et]; [discriminate|].
    destruct (scanOuter t outer) as [[e o']|] eqn:Esc; [|discriminate].
    destruct (expandTypes (t :: seen) ts o') as [[l' s']|] eqn:Ex; [|discriminate]. injection H as <- <-.
    destruct (Scan _ _ _ _ Esc) as [S1 S2]. destruct (IH _ _ _ _ Ex) as (I1 & I2 & I3 & I4 & I5 & I6).
    split; [cbn [types map]; rewrite S1; f_equal; exact I1|]. split; [auto|].
    split; [cbn; intros [X|X]; auto|]. split; [constructor; [|exact I4]; intros X; apply (I5 t X); left; reflexivity|].
    split.
    + intros u [<-|Hu]; [exact Es|]. intros X. apply (I5 u Hu). right. exact X.
    + intros u. rewrite I6. cbn. tauto.
Qed.
Lemma subst_spec : forall inner seen outer l, substituteOuterExtensions seen inner outer = Some l ->
  NoDup (types l) /\ (forall t, In t (types l) -> ~ In t seen /\ t <> 64768) /\
  (forall e, In e l -> In e inner \/ (In e outer /\ ext_type e <> 65037)).
Proof.
  induction inner as [|e inner IH]; intros seen outer l H; cbn [substituteOuterExtensions] in H.
  - injection H as <-. split; [constructor|]. split; [intros t []|intros e []].
  - destruct (existsb (N.eqb (ext_type e)) seen) eqn:Es; [discriminate|]. apply nin_existsb in Es.
    destruct (N.eqb_spec (ext_type e) 64768) as [Et|Et]; cbn [negb] in H.
    + destruct (ext_data e) as [d|]; [|discriminate].
      destruct (read_ext_body KEchOuterExtensions d) as [[x rest]|]; [|discriminate].
      destruct x as [| | | | | | | | | | | | | | | | | | | | |ts| | | |]; try discriminate.
      destruct (expandTypes (ext_type e :: seen) ts outer) as [[x s]|] eqn:Ex; [|discriminate].
      destruct (substituteOuterExtensions s inner outer) as [l'|] eqn:El; [|discriminate]. injection H as <-.
      destruct (expandTypes_spec _ _ _ _ _ Ex) as (I1 & I2 & I3 & I4 & I5 & I6).
      destruct (IH _ _ _ El) as (J1 & J2 & J3).
      split.
      * rewrite types_app. apply NoDup_app. split; [rewrite I1; exact I4|]. split; [exact J1|].
        intros t Ht Hl. apply (proj1 (J2 t Hl)). apply I6. right. rewrite <- I1. exact Ht.
      * split.
        -- intros t Ht. rewrite types_app, in_app_iff in Ht. destruct Ht as [Ht|Ht].
           ++ rewrite I1 in Ht. pose proof (I5 t Ht) as X. cbn in X. split; [tauto|]. intros Y. subst t. apply X. left. exact Et.
           ++ destruct (J2 t Ht) as [X Y]. split; [|exact Y]. intros Z. apply X. apply I6. left. right. exact Z.
        -- intros y Hy. apply in_app_iff in Hy. destruct Hy as [Hy|Hy].
           ++ right. split; [apply (sublist_In _ _ I2 _ Hy)|]. intros X. apply I3. rewrite <- I1, <- X. apply in_types. exact Hy.
           ++ destruct (J3 y Hy) as [X|X]; [left; right; exact X|right; exact X].
    + destruct (substituteOuterExtensions (ext_type e :: seen) inner outer) as [l'|] eqn:El; [|discriminate]. injection H as <-.
      destruct (IH _ _ _ El) as (J1 & J2 & J3). split.
      * cbn [types map]. constructor; [|exact J1]. intros X. apply (proj1 (J2 _ X)). left. reflexivity.
      * split.
        -- intros t [<-|Ht]; [auto|]. destruct (J2 t Ht) as [X Y]. split; [|exact Y]. intros Z. apply X. right. exact Z.
        -- intros y [<-|Hy]; [left; left; reflexivity|]. destruct (J3 y Hy) as [X|X]; [left; right; exact X|right; exact X].
Qed.
Theorem C44_expansion_sound : forall inner outer l, substituteOuterExtensions [] inner outer = Some l ->
  NoDup (types l) /\ ~ In 64768 (types l) /\ forall e, In e l -> In e inner \/ (In e outer /\ ext_type e <> 65037).
Proof.
  intros inner outer l H. destruct (subst_spec _ _ _ _ H) as (H1 & H2 & H3). split; [exact H1|]. split; [|exact H3].
  intros X. destruct (H2 _ X) as [_ Y]. apply Y. reflexivity.
Qed.
Print Assumptions C44_expansion_sound.

(** Whatever a client sends, a hello whose ECH extension can be parsed is either accepted, treated as if there were no ECH
    (unknown configuration, HPKE failure, failed decryption, malformed inner hello), or refused with illegal_parameter (47) for
    bad outer extensions. Acceptance requires that the payload opened under the additional data of this very hello. *)
Theorem C44_server_outcome : forall fa ps c p, getExtension KEchOuter (ch_extensions c) = Ok (Some (XEchOuter p)) ->
  ch_session_id c <> None -> (forall q, In q ps -> nonnull (ec_pk (fst q)) = true) ->
  match decryptClientHello fa ps c with
  | Ok None => True
  | Err e => e = EStatus (Some 47) \/ e = ECheck \/ e = EUB
  | Ok (Some (inner, orig, cid, ctx')) =>
      exists kdf ae enc ct cfg kx ctx aad pt, p = (kdf, ae, cid, Some enc, Some ct) /\ In (cfg, kx) ps /\ ec_id cfg = cid /\
        setupDecryptionContext fa cfg (kdf, ae) (Some enc) kx 0 = Ok ctx /\ outerForAad c = Ok aad /\
        hopen ctx (Some aad) ct = (ctx', Some pt, Ok tt) /\
        (exists ch pad, decode_ch pt = Ok (ch, pad) /\ (forall b, In b pad -> b = x00) /\
           ch_version inner = ch_version ch /\ ch_random inner = ch_random ch /\ ch_suites inner = ch_suites ch /\
           ch_compression inner = ch_compression ch /\
           forall e, In e (ch_extensions inner) -> In e (ch_extensions ch) \/ (In e (ch_extensions c) /\ ext_type e <> 65037)) /\
        NoDup (types (ch_extensions inner)) /\ ch_session_id inner = ch_session_id c /\ encodeHandshake (MClientHello inner) = Ok orig
  end.
Proof.
  intros fa ps c p Hx Hsid Hpk. destruct (getExtension_strict _ _ _ Hx) as (_ & Hwf & Hfit & pre & post & rest & He & Hn & Hr).
  specialize (Hr eq_refl). subst rest. rewrite app_nil_r in He.
  destruct p as [[[[kdf ae] cid] enc] pl]. cbn [wf_x wf_echouter] in Hwf. rewrite !andb_true_iff in Hwf.
  destruct enc as [enc|]; [|exfalso; cbn in Hwf; intuition discriminate]. destruct pl as [ct|]; [|exfalso; cbn in Hwf; intuition discriminate].
  unfold decryptClientHello.
  assert (Ef : findExtension 65037 (ch_extensions c) = Some (mkExt 65037 (Some (w_xbody (XEchOuter (kdf, ae, cid, Some enc, Some ct)))))).
  { unfold findExtension. apply find_split. exists pre, post. split; [exact He|]. split; [exact Hn|]. reflexivity. }
  rewrite Ef.
  assert (Ed : decodeAndGetParam (mkExt 65037 (Some (w_xbody (XEchOuter (kdf, ae, cid, Some enc, Some ct))))) ps =
    Ok (match find (fun p => cid =? ec_id (fst p)) ps with Some p => Some ((kdf, ae, cid, Some enc, Some ct), p) | None => None end)).
  { unfold decodeAndGetParam. cbn [ext_data].
    assert (Hwf' : wf_x (XEchOuter (kdf, ae, cid, Some enc, Some ct)) = true) by (cbn; rewrite !andb_true_iff; cbn in Hwf; tauto).
    pose proof (read_ext_ok _ [] Hwf' Hfit (fun _ => eq_refl)) as E. rewrite app_nil_r in E. cbn [kind_of] in E. rewrite E. reflexivity. }
  rewrite Ed. cbn [bind]. destruct (find _ ps) as [[cfg kx]|] eqn:Eps; [|exact Logic.I].
  apply find_some in Eps. destruct Eps as [Hin Hid]. cbn [fst] in Hid. apply N.eqb_eq in Hid.
  destruct (setupDecryptionContext fa cfg (kdf, ae) (Some enc) kx 0) as [ctx|er] eqn:Es; [|destruct er; auto].
  unfold decryptECHWithContext.
  destruct (outerForAad c) as [aad|er] eqn:Ea; [|destruct er; auto].
  destruct (hopen ctx (Some aad) ct) as [[ctx' o] st] eqn:Eo.
  destruct o as [pt|].
  2:{ destruct st as [[]|er]; [auto|destruct er; auto]. }
  destruct st as [[]|er]; [|destruct er; auto].
  destruct (decode_ch pt) as [[ch rest]|er] eqn:Edc; [|destruct er; auto].
  destruct (all_zero rest) eqn:Ez; cbn [negb]; [|exact Logic.I].
  destruct (ch_session_id c) as [sd|] eqn:Esd; [|congruence].
  destruct (substituteOuterExtensions [] (ch_extensions ch) (ch_extensions c)) as [l|] eqn:Esub; [|left; reflexivity].
  destruct (encodeHandshake _) as [or|er] eqn:Eenc; [|destruct er; auto].
  destruct (C44_expansion_sound _ _ _ Esub) as (X1 & _ & X3).
  exists kdf, ae, enc, ct, cfg, kx, ctx, aad, pt. split; [reflexivity|]. split; [exact Hin|]. split; [symmetry; exact Hid|].
  split; [exact Es|]. split; [reflexivity|]. split; [exact Eo|]. split.
  { exists ch, rest. split; [first [reflexivity|exact Edc]|]. split.
    { intros b Hb. unfold all_zero in Ez. rewrite forallb_forall in Ez. apply byte_eqb_eq. auto. }
    cbn [with_exts with_sid ch_version ch_random ch_suites ch_compression ch_extensions]. repeat (split; [reflexivity|]). exact X3. }
  cbn [with_exts with_sid ch_extensions ch_session_id]. split; [exact X1|]. split; [reflexivity|exact Eenc].
Qed.
Print Assumptions C44_server_outcome.

(** *** C44 on concrete values *)
Definition toy_fac : echfac := mkFac (fun _ => toy_hash) (fun _ => Ok toy_alg).
Lemma toy_fac_good : good_factory toy_fac.
Proof.
  split; intros; cbn in *.
  - apply toy_hash_ok.
  - injection H as <-. cbn. lia.
  - injection H as <-. cbn. apply toy_opens.
  - injection H as <-. reflexivity.
Qed.
Definition toy_cfg : echcfg := mkEchCfg 7 32 (Some (be 32 20)) [(1, 1)] 30 (str "public.example") [].
Definition toy_ng : negcfg := mkNeg toy_cfg 7 30 (1, 1).
Definition xsni (name : bytes) : Extension := mkExt 0 (Some (w_xbody (XServerNameList [(0, Some name)]))).
Definition xplain (t : N) : Extension := mkExt t (Some [x01; x02]).
Definition xech_inner : Extension := mkExt 65037 (Some [x01]).
Definition ch_of (rnd : byte) (l : list Extension) : ClientHello := mkCH 771 (repeat rnd 32) (Some [x2a; x2b]) [4865] [0] l.
(** what the server gets out of the hello made of [inner] and [outer] with outer extension types [ots] *)
Definition toy_recovered (inner outer : ClientHello) (ots : list N) : option ClientHello :=
  match constructHpkeSetupResult toy_fac (toy_dh 3) toy_ng with
  | Ok (enc, cs) =>
      match encryptClientHello toy_ng (Some enc) cs inner outer None ots with
      | (_, Ok x) => match attachECH outer x None with
                     | Ok wire => match decryptClientHello toy_fac [(toy_cfg, toy_dh 4)] wire with
                                  | Ok (Some (i, _, _, _)) => Some i
                                  | _ => None
                                  end
                     | _ => None
                     end
      | _ => None
      end
  | _ => None
  end.
Definition toy_inner : ClientHello := ch_of x11 [xsni (str "secret"); xplain 43; xplain 51; xech_inner].
Definition toy_outer : ClientHello := ch_of x22 [xsni (str "public.example"); xplain 43; xplain 10; xplain 51].
Example C44_nonvacuous :
  good_factory toy_fac /\ dh_pair (toy_dh 3) (toy_dh 4) (be 32 15) (be 32 20) (be 64 60) /\
  hello_pair toy_inner toy_outer [51; 43] /\ toy_recovered toy_inner toy_outer [51; 43] = Some toy_inner.
Proof.
  split; [apply toy_fac_good|]. split; [repeat split; vm_compute; reflexivity|]. split.
  - split; try (vm_compute; reflexivity).
    + cbn. lia.
    + split.
      * exists [xsni (str "secret")], [xplain 43; xplain 51], [xech_inner]. split; [reflexivity|].
        split; [intros e [<-|[<-|[]]]; cbn; auto|]. split; [intros e [<-|[<-|[]]]; cbn; lia|].
        split; [apply sub_skip, sub_keep, sub_skip, sub_keep, sub_nil|]. split; [cbn; lia|vm_compute; discriminate].
      * repeat constructor; cbn; lia.
      * repeat constructor; cbn; lia.
      * cbn. lia.
  - vm_compute. reflexivity.
Qed.
(** Without contiguity the claim is false, although client/FizzClientContext.h:121-128 lets the application choose any set of outer
    extension types: with an inner extension between two outer ones the server recovers a hello with its extensions in a different
    order, so a different transcript. *)
Theorem C44_scattered_outer_extensions :
  let inner := ch_of x11 [xplain 43; xsni (str "secret"); xplain 51; xech_inner] in
  exists got, toy_recovered inner toy_outer [43; 51] = Some got /\ got <> inner /\
    Permutation (ch_extensions got) (ch_extensions inner) /\ got = ch_of x11 [xplain 43; xplain 51; xsni (str "secret"); xech_inner].
Proof.
  eexists. split; [vm_compute; reflexivity|]. split; [discriminate|]. split; [|reflexivity].
  cbn [ch_extensions]. apply perm_skip. apply perm_swap.
Qed.
(** An outer extension type the outer hello carries with a different body is silently replaced by the outer body. *)
Theorem C44_outer_value_wins :
  let inner := ch_of x11 [mkExt 43 (Some [x09]); xech_inner] in
  exists got, toy_recovered inner toy_outer [43] = Some got /\ got = ch_of x11 [xplain 43; xech_inner].
Proof. eexists. split; vm_compute; reflexivity. Qed.

(** ** C45: what the sealed payload authenticates *)
(** The additional data of the payload determines the whole outer hello except the payload's bytes. *)
Theorem C45_aad_binds : forall c1 c2 p1 p2 aad,
  wf_msg (MClientHello c1) = true -> wf_msg (MClientHello c2) = true ->
  getExtension KEchOuter (ch_extensions c1) = Ok (Some (XEchOuter p1)) ->
  getExtension KEchOuter (ch_extensions c2) = Ok (Some (XEchOuter p2)) ->
  outerForAad c1 = Ok aad -> outerForAad c2 = Ok aad ->
  exists kdf ae cid enc pl1 pl2 pre post,
    p1 = (kdf, ae, cid, enc, Some pl1) /\ p2 = (kdf, ae, cid, enc, Some pl2) /\ blen pl1 = blen pl2 /\
    ch_extensions c1 = pre ++ mkExt 65037 (Some (w_xbody (XEchOuter p1))) :: post /\
    ch_extensions c2 = pre ++ mkExt 65037 (Some (w_xbody (XEchOuter p2))) :: post /\
    ch_version c1 = ch_version c2 /\ ch_random c1 = ch_random c2 /\ ch_session_id c1 = ch_session_id c2 /\
    ch_suites c1 = ch_suites c2 /\ ch_compression c1 = ch_compression c2.
Proof.
  assert (One : forall c p aad, wf_msg (MClientHello c) = true ->
    getExtension KEchOuter (ch_extensions c) = Ok (Some (XEchOuter p)) -> outerForAad c = Ok aad ->
    exists kdf ae cid enc pl pre post, p = (kdf, ae, cid, Some enc, Some pl) /\ no_type 65037 pre = true /\
      ch_extensions c = pre ++ mkExt 65037 (Some (w_xbody (XEchOuter p))) :: post /\
      let c' := with_exts c (pre ++ mkExt 65037 (Some (w_xbody (XEchOuter (kdf, ae, cid, Some enc, Some (zeros (blen pl)))))) :: post) in
      wf_msg (MClientHello c') = true /\ fit_body (MClientHello c') = true /\ aad = w_body (MClientHello c') /\
      wf_x (XEchOuter (kdf, ae, cid, Some enc, Some (zeros (blen pl)))) = true /\
      fit_x (XEchOuter (kdf, ae, cid, Some enc, Some (zeros (blen pl)))) = true).
  { intros c p aad W G H. destruct (getExtension_strict _ _ _ G) as (_ & Hwf & Hfit & pre & post & rest & He & Hn & Hr).
    specialize (Hr eq_refl). subst rest. rewrite app_nil_r in He. cbn [kind_type] in He, Hn.
    destruct p as [[[[kdf ae] cid] enc] pl]. pose proof Hwf as Hwf'. cbn [wf_x wf_echouter] in Hwf. rewrite !andb_true_iff in Hwf.
    destruct enc as [enc|]; [|exfalso; cbn in Hwf; intuition discriminate]. destruct pl as [ct|]; [|exfalso; cbn in Hwf; intuition discriminate].
    exists kdf, ae, cid, enc, ct, pre, post. split; [reflexivity|]. split; [exact Hn|]. split; [exact He|].
    unfold outerForAad in H. apply bind_Ok in H. destruct H as (l & El & H).
    assert (Hz : exists e', encodeExtension (XEchOuter (kdf, ae, cid, Some enc, Some (zeros (blen ct)))) = Ok e').
    { destruct (encodeExtension (XEchOuter (kdf, ae, cid, Some enc, Some (zeros (blen ct))))) as [e'|er] eqn:E; [eauto|].
      exfalso. rewrite He in El. clear - El E Hn Hwf' Hfit. revert El Hn. generalize l. clear l.
      induction pre as [|a pre IH]; cbn [app zeroPayload]; intros l El Hn.
      - cbn [ext_type ext_data] in El. change (65037 =? 65037) with true in El. cbv iota in El.
        pose proof (read_ext_ok _ [] Hwf' Hfit (fun _ => eq_refl)) as R. rewrite app_nil_r in R. cbn [kind_of] in R.
        rewrite R in El. cbn [bind] in El. rewrite E in El. discriminate.
      - cbn [no_type forallb] in Hn. apply andb_true_iff in Hn. destruct Hn as [N1 N2]. apply negb_true_iff in N1. rewrite N1 in El.
        apply bind_Ok in El. destruct El as (r' & Er & _). exact (IH _ Er N2). }
    destruct Hz as (e' & Ee').
    assert (Wz : wf_x (XEchOuter (kdf, ae, cid, Some enc, Some (zeros (blen ct)))) = true).
    { cbn in Hwf' |- *. exact Hwf'. }
    pose proof Ee' as Ei. apply encodeExtension_iff in Ei; [|exact Wz]. destruct Ei as [Fz Ee].
    rewrite He in El. rewrite (zeroPayload_split pre _ e' post kdf ae cid enc ct Hn Hwf') in El; [|apply encodeExtension_iff; [exact Hwf'|split; [exact Hfit|reflexivity]]|exact Ee'].
    assert (l = pre ++ e' :: post) by congruence. subst l. cbn [kind_of kind_type] in Ee. subst e'.
    assert (W' : wf_msg (MClientHello (with_exts c (pre ++ mkExt 65037 (Some (w_xbody (XEchOuter (kdf, ae, cid, Some enc, Some (zeros (blen ct)))))) :: post))) = true).
    { cbn [wf_msg with_exts ch_version ch_random ch_session_id ch_suites ch_compression ch_extensions] in W |- *. rewrite !andb_true_iff in W |- *.
      destruct W as [W1 W2]. split; [exact W1|]. rewrite He in W2. unfold wf_exts in W2 |- *. rewrite forallb_app in W2 |- *.
      apply andb_true_iff in W2. destruct W2 as [W2 W3]. rewrite W2. exact W3. }
    split; [exact W'|]. destruct (encode_ch_iff _ _ W' H) as [A B]. auto. }
  intros c1 c2 p1 p2 aad W1 W2 G1 G2 A1 A2.
  destruct (One _ _ _ W1 G1 A1) as (kdf & ae & cid & enc & pl1 & pre1 & post1 & -> & N1 & E1 & X1 & F1 & B1 & Y1 & Z1).
  destruct (One _ _ _ W2 G2 A2) as (kdf2 & ae2 & cid2 & enc2 & pl2 & pre2 & post2 & -> & N2 & E2 & X2 & F2 & B2 & Y2 & Z2). clear One.
  pose proof (decode_ch_ok _ [] X1 F1) as D1. pose proof (decode_ch_ok _ [] X2 F2) as D2.
  rewrite app_nil_r in D1, D2. rewrite <- B1 in D1. rewrite <- B2 in D2. rewrite D1 in D2.
  assert (E : with_exts c1 (pre1 ++ mkExt 65037 (Some (w_xbody (XEchOuter (kdf, ae, cid, Some enc, Some (zeros (blen pl1)))))) :: post1) =
              with_exts c2 (pre2 ++ mkExt 65037 (Some (w_xbody (XEchOuter (kdf2, ae2, cid2, Some enc2, Some (zeros (blen pl2)))))) :: post2)) by congruence.
  assert (El : pre1 ++ mkExt 65037 (Some (w_xbody (XEchOuter (kdf, ae, cid, Some enc, Some (zeros (blen pl1)))))) :: post1 =
               pre2 ++ mkExt 65037 (Some (w_xbody (XEchOuter (kdf2, ae2, cid2, Some enc2, Some (zeros (blen pl2)))))) :: post2)
    by exact (f_equal ch_extensions E).
  assert (P : pre1 = pre2 /\ post1 = post2 /\ w_xbody (XEchOuter (kdf, ae, cid, Some enc, Some (zeros (blen pl1)))) =
     w_xbody (XEchOuter (kdf2, ae2, cid2, Some enc2, Some (zeros (blen pl2))))).
  { clear - El N1 N2. revert pre2 El N2. induction pre1 as [|a pre1 IH]; intros [|b pre2] El N2.
    - assert (Hd := f_equal (hd (mkExt 0 None)) El). assert (Tl := f_equal (@tl _) El). cbn [app hd tl] in Hd, Tl.
      split; [reflexivity|]. split; [exact Tl|]. congruence.
    - assert (Hd := f_equal (hd (mkExt 0 None)) El). cbn [app hd] in Hd. subst b. cbn in N2. discriminate.
    - assert (Hd := f_equal (hd (mkExt 0 None)) El). cbn [app hd] in Hd. subst a. cbn in N1. discriminate.
    - assert (Hd := f_equal (hd (mkExt 0 None)) El). assert (Tl := f_equal (@tl _) El). cbn [app hd tl] in Hd, Tl. subst b.
      cbn [no_type forallb] in N1, N2. apply andb_true_iff in N1. apply andb_true_iff in N2.
      destruct (IH (proj2 N1) _ Tl (proj2 N2)) as (-> & -> & ->). auto. }
  destruct P as (<- & <- & Px).
  pose proof (read_ext_ok _ [] Y1 Z1 (fun _ => eq_refl)) as R1. pose proof (read_ext_ok _ [] Y2 Z2 (fun _ => eq_refl)) as R2.
  rewrite app_nil_r in R1, R2. cbn [kind_of] in R1, R2. rewrite Px in R1. rewrite R2 in R1.
  assert (Q : (kdf2, ae2, cid2, enc2, zeros (blen pl2)) = (kdf, ae, cid, enc, zeros (blen pl1))) by congruence.
  assert (Hl : blen pl1 = blen pl2) by (rewrite <- (blen_zeros (blen pl1)), <- (blen_zeros (blen pl2)); congruence).
  assert (kdf2 = kdf /\ ae2 = ae /\ cid2 = cid /\ enc2 = enc) as (-> & -> & -> & ->) by (repeat split; congruence).
  exists kdf, ae, cid, (Some enc), pl1, pl2, pre1, post1. split; [reflexivity|]. split; [reflexivity|]. split; [exact Hl|].
  split; [exact E1|]. split; [exact E2|].
  split; [exact (f_equal ch_version E)|]. split; [exact (f_equal ch_random E)|]. split; [exact (f_equal ch_session_id E)|].
  split; [exact (f_equal ch_suites E)|exact (f_equal ch_compression E)].
Qed.
Print Assumptions C45_aad_binds.
(** Two hellos that differ in the payload have the same additional data; they meet the hypotheses. *)
Definition toy_wire (pl trail : bytes) : ClientHello :=
  ch_of x22 [xplain 43; mkExt 65037 (Some (w_xbody (XEchOuter (1, 1, 7, Some [x09], Some pl)) ++ trail)); xplain 51].
Example C45_nonvacuous : exists aad,
  wf_msg (MClientHello (toy_wire [x01; x02] [])) = true /\ wf_msg (MClientHello (toy_wire [x03; x04] [])) = true /\
  getExtension KEchOuter (ch_extensions (toy_wire [x01; x02] [])) = Ok (Some (XEchOuter (1, 1, 7, Some [x09], Some [x01; x02]))) /\
  getExtension KEchOuter (ch_extensions (toy_wire [x03; x04] [])) = Ok (Some (XEchOuter (1, 1, 7, Some [x09], Some [x03; x04]))) /\
  outerForAad (toy_wire [x01; x02] []) = Ok aad /\ outerForAad (toy_wire [x03; x04] []) = Ok aad.
Proof. eexists. repeat split; vm_compute; reflexivity. Qed.
(** The decrypter itself does not insist that the extension ends with the payload: bytes after it are not authenticated. (The server
    reads the extension strictly before it calls the decrypter.) *)
Theorem C45_trailing_not_bound : forall pl trail, fit_x (XEchOuter (1, 1, 7, Some [x09], Some pl)) = true ->
  outerForAad (toy_wire pl trail) = outerForAad (toy_wire pl []).
Proof.
  intros pl trail F. unfold outerForAad, toy_wire, ch_of. cbn [ch_extensions zeroPayload].
  change (ext_type (xplain 43) =? 65037) with false. cbn [ext_type ext_data]. change (65037 =? 65037) with true. cbv iota.
  pose proof (read_ext_ok (XEchOuter (1, 1, 7, Some [x09], Some pl)) trail eq_refl F ltac:(discriminate)) as R1.
  pose proof (read_ext_ok (XEchOuter (1, 1, 7, Some [x09], Some pl)) [] eq_refl F ltac:(discriminate)) as R2.
  cbn [kind_of] in R1, R2. rewrite R1, R2. cbn [bind]. destruct (encodeExtension _); reflexivity.
Qed.
