(** * The ClientHellos in detail: inversions of connect and of the handler of HelloRetryRequest *)
From Coq Require Import Sorted.
From Verif Require Import Base Codec CodecSpec Str Hkdf HkdfSpec HkdfProofs KeySched KeySchedSpec KeySchedProofs Handshake HandshakeSpec HandshakeProofs Extensions ExtensionsSpec ExtensionsProofs
  RecordBase Record ReadEvent Cookie Ticket PskSer Kex Transcript HpkeUtils EchCrypt Server ServerSpec PropsEch ServerFacts ServerFlight ServerParams ServerPreserve Client ClientSpec ClientHelloSpec ClientHello
  ClientBinder ClientInv ClientAwait.
Open Scope N_scope.

Lemma when_nonempty {A} (l : list A) x r : l <> [] -> when (nonempty l) x = Ok r -> exists e : Extension, x = Ok e /\ r = [e].
Proof. destruct l as [|a l]; [congruence|]. intros _ H. cbn [nonempty when] in H. bo H e E. exists e. split; [exact E|congruence]. Qed.
Lemma when_true x r : when true x = Ok r -> exists e : Extension, x = Ok e /\ r = [e].
Proof. cbn [when]. intros H. bo H e E. exists e. split; [exact E|congruence]. Qed.
Lemma alike_more c e : forall t x, getExtension t (ch_extensions c) = Ok (Some x) -> ext_type e <> kind_type t ->
  getExtension t (ch_extensions (with_exts c (ch_extensions c ++ [e]))) = Ok (Some x).
Proof.
  intros t x H N. erewrite getExtension_find; [exact H|]. cbn [with_exts ch_extensions]. apply find_app_none, no_type_one, N.
Qed.
Lemma extras_app k sni c e : extras k sni c -> ext_type e = 41 \/ ext_type e = 65037 -> extras k sni (with_exts c (ch_extensions c ++ [e])).
Proof.
  intros [A B C D] He. assert (X : forall t x, In (kind_type t) [0; 16; 45; 27] -> getExtension t (ch_extensions c) = Ok (Some x) ->
    getExtension t (ch_extensions (with_exts c (ch_extensions c ++ [e]))) = Ok (Some x)).
  { intros t x Ht G. apply alike_more; [exact G|]. intros E. rewrite E in He. cbn in Ht. destruct He as [He|He]; rewrite He in Ht; repeat (destruct Ht as [Ht|Ht]; [discriminate|]); exact Ht. }
  constructor; intros; (apply X; [cbn; auto 10|auto]).
Qed.
Lemma getClientHello_more k w random sid kexs sni early exts cookie c : cenv_ok k ->
  getClientHello k w random sid kexs sni early exts cookie = Ok c ->
  extras k sni c /\
  (forall b, cookie = Some b -> getExtension KCookie (ch_extensions c) = Ok (Some (XCookie (Some b)))) /\
  (early = true -> getExtension KClientEarlyData (ch_extensions c) = Ok (Some XClientEarlyData)) /\
  (forall t, (t = 41 \/ t = 65037 \/ (t = 42 /\ early = false)) -> (forall xs, cw_exts w = Ok xs -> no_type t xs = true) -> no_type t (ch_extensions c) = true).
Proof.
  intros Hk. unfold getClientHello. intros H.
  bo H e1 E1. bo H e2 E2. bo H e3 E3. bo H sh Esh. bo H e4 E4. bo H e5 E5. bo H e6 E6. bo H e7 E7. bo H e8 E8. bo H e9 E9. bo H e10 E10. bo H e11 E11.
  assert (Hx : ch_extensions c = e1 ++ [e2; e3; e4; e5] ++ e6 ++ e7 ++ e8 ++ e9 ++ e10 ++ e11) by (match type of H with Ok ?y = _ => assert (Hc : c = y) by congruence end; rewrite Hc; reflexivity).
  clear H.
  assert (N1 : forall t, t <> 0 -> no_type t e1 = true).
  { intros t Ht. destruct sni as [n|]; [|injection E1 as <-; reflexivity]. eapply when_type; [exact E1|]. cbn. congruence. }
  assert (NM : forall t, t <> 43 -> t <> 10 -> t <> 51 -> t <> 13 -> no_type t [e2; e3; e4; e5] = true).
  { intros t H1 H2 H3 H4. unfold no_type. cbn [forallb]. rewrite (ext_type_of _ _ E2), (ext_type_of _ _ E3), (ext_type_of _ _ E4), (ext_type_of _ _ E5).
    cbn [kind_of kind_type]. rewrite !andb_true_iff, !negb_true_iff, !N.eqb_neq. repeat split; congruence. }
  assert (N6 : forall t, t <> 16 -> no_type t e6 = true) by (intros t Ht; eapply when_type; [exact E6|]; cbn; congruence).
  assert (N7 : forall t, t <> 45 -> no_type t e7 = true) by (intros t Ht; eapply when_type; [exact E7|]; cbn; congruence).
  assert (N8 : forall t, t <> 42 -> no_type t e8 = true) by (intros t Ht; eapply when_type; [exact E8|]; cbn; congruence).
  assert (N9 : forall t, t <> 44 -> no_type t e9 = true).
  { intros t Ht. destruct cookie; [eapply when_type; [exact E9|]; cbn; congruence|]. injection E9 as <-. reflexivity. }
  assert (N10 : forall t, t <> 27 -> no_type t e10 = true) by (intros t Ht; eapply when_type; [exact E10|]; cbn; congruence).
  assert (M8 : forall t, t <> 42 \/ early = false -> no_type t e8 = true).
  { intros t [Ht|Ht]; [apply N8, Ht|]. subst early. cbn [when] in E8. injection E8 as <-. reflexivity. }
  set (m := [e2; e3; e4; e5]) in *. clearbody m.
  split; [constructor|split; [|split]]; rewrite ?Hx; clear Hx.
  - intros n ->. apply when_true in E1. destruct E1 as (e & Ee & ->). apply (getExtension_rt (XServerNameList [(0, Some n)]) e []); [reflexivity|exact Ee|reflexivity].
  - intros Hne. apply when_nonempty in E6; [|exact Hne]. destruct E6 as (e & Ee & ->).
    replace (e1 ++ m ++ [e] ++ e7 ++ e8 ++ e9 ++ e10 ++ e11) with ((e1 ++ m) ++ e :: e7 ++ e8 ++ e9 ++ e10 ++ e11) by (rewrite <- !app_assoc; reflexivity).
    apply (getExtension_rt (XProtocolNameList (map Some (k_alpns k))) e (e1 ++ m)); [|exact Ee|].
    + cbn [wf_x]. clear. induction (k_alpns k); [reflexivity|exact IHl].
    + cbn. apply no_type_app; [apply N1; discriminate|apply NM; discriminate].
  - intros Hne. apply when_nonempty in E7; [|exact Hne]. destruct E7 as (e & Ee & ->).
    replace (e1 ++ m ++ e6 ++ [e] ++ e8 ++ e9 ++ e10 ++ e11) with (((e1 ++ m) ++ e6) ++ e :: e8 ++ e9 ++ e10 ++ e11) by (rewrite <- !app_assoc; reflexivity).
    apply (getExtension_rt (XPskKeyExchangeModes (k_pskModes k)) e ((e1 ++ m) ++ e6)); [|exact Ee|].
    + cbn [wf_x]. pose proof (ko_modes k Hk) as F. clear - F. apply forallb_forall. intros x Hx. rewrite Forall_forall in F. specialize (F _ Hx). unfold in_u. apply N.ltb_lt. exact F.
    + cbn. apply no_type_app; [apply no_type_app; [apply N1; discriminate|apply NM; discriminate]|apply N6; discriminate].
  - intros Hne. apply when_nonempty in E10; [|exact Hne]. destruct E10 as (e & Ee & ->).
    replace (e1 ++ m ++ e6 ++ e7 ++ e8 ++ e9 ++ [e] ++ e11) with ((e1 ++ m ++ e6 ++ e7 ++ e8 ++ e9) ++ e :: e11) by (rewrite <- !app_assoc; reflexivity).
    apply (getExtension_rt (XCertCompressionAlgs (k_decompAlgos k)) e (e1 ++ m ++ e6 ++ e7 ++ e8 ++ e9)); [|exact Ee|].
    + apply forallb_u2, (ko_algos k Hk).
    + cbn. repeat apply no_type_app; [apply N1|apply NM|apply N6|apply N7|apply N8|apply N9]; discriminate.
  - intros b ->. apply when_true in E9. destruct E9 as (e & Ee & ->).
    replace (e1 ++ m ++ e6 ++ e7 ++ e8 ++ [e] ++ e10 ++ e11) with ((e1 ++ m ++ e6 ++ e7 ++ e8) ++ e :: e10 ++ e11) by (rewrite <- !app_assoc; reflexivity).
    apply (getExtension_rt (XCookie (Some b)) e (e1 ++ m ++ e6 ++ e7 ++ e8)); [reflexivity|exact Ee|].
    cbn. repeat apply no_type_app; [apply N1|apply NM|apply N6|apply N7|apply N8]; discriminate.
  - intros ->. apply when_true in E8. destruct E8 as (e & Ee & ->).
    replace (e1 ++ m ++ e6 ++ e7 ++ [e] ++ e9 ++ e10 ++ e11) with ((e1 ++ m ++ e6 ++ e7) ++ e :: e9 ++ e10 ++ e11) by (rewrite <- !app_assoc; reflexivity).
    apply (getExtension_rt XClientEarlyData e (e1 ++ m ++ e6 ++ e7)); [reflexivity|exact Ee|].
    cbn. repeat apply no_type_app; [apply N1|apply NM|apply N6|apply N7]; discriminate.
  - intros t Ht Ha. assert (N11 : no_type t e11 = true) by (destruct exts; [apply Ha, E11|injection E11 as <-; reflexivity]).
    assert (t = 41 \/ t = 65037 \/ t = 42) by tauto.
    repeat apply no_type_app; [apply N1|apply NM|apply N6|apply N7|apply M8|apply N9|apply N10|exact N11];
      first [tauto|destruct Ht as [->|[->|(-> & He)]]; first [discriminate|right; exact He|left; discriminate]].
Qed.

(** ** Shares *)
Lemma emplace_keys g x : forall l g', In g' (map fst (emplace g x l)) <-> g' = g \/ In g' (map fst l).
Proof.
  induction l as [|[a y] l IH]; intros g'; cbn [emplace].
  - cbn. intuition congruence.
  - destruct (g <? a); [cbn; intuition congruence|]. destruct (g =? a) eqn:E.
    + apply N.eqb_eq in E. subst. cbn. intuition congruence.
    + cbn [map fst In]. rewrite IH. intuition congruence.
Qed.
Definition sorted (l : list (N * kex)) : Prop := StronglySorted N.lt (map fst l).
Lemma emplace_sorted g x : forall l, sorted l -> sorted (emplace g x l).
Proof.
  unfold sorted. induction l as [|[a y] l IH]; intros H; cbn [emplace].
  - constructor; constructor.
  - cbn [map fst] in H. inversion H as [|? ? H1 H2]; subst. destruct (g <? a) eqn:E1.
    + apply N.ltb_lt in E1. cbn [map fst]. constructor; [constructor; assumption|]. constructor; [exact E1|]. eapply Forall_impl; [|exact H2]. cbn. intros z. lia.
    + apply N.ltb_ge in E1. destruct (g =? a) eqn:E2; [exact H|]. apply N.eqb_neq in E2. cbn [map fst]. constructor; [apply IH, H1|].
      apply Forall_forall. intros z Hz. apply emplace_keys in Hz. rewrite Forall_forall in H2. destruct Hz as [->|Hz]; [lia|apply H2, Hz].
Qed.
Lemma sorted_nodup l : StronglySorted N.lt l -> NoDup l.
Proof. induction 1 as [|a l H IH HF]; constructor; [|exact IH]. intros Hin. rewrite Forall_forall in HF. specialize (HF _ Hin). lia. Qed.
Lemma getKex_keys w groups : forall l r, getKeyExchangers w groups l = Ok r -> sorted l ->
  sorted r /\ forall g, In g (map fst r) <-> In g groups \/ In g (map fst l).
Proof.
  induction groups as [|a groups IH]; intros l r; cbn [getKeyExchangers].
  - intros [= <-] H. split; [exact H|]. cbn. tauto.
  - intros H Hs. bo H y Ey. destruct (IH _ _ H (emplace_sorted _ _ _ Hs)) as (A & B). split; [exact A|]. intros g. rewrite B, emplace_keys. cbn. intuition congruence.
Qed.
Lemma keyShares_keys : forall kexs sh, keyShares kexs = Ok sh -> map fst sh = map fst kexs /\
  forall g b, In (g, b) sh -> exists x ours, In (g, x) kexs /\ kx_share x = Ok ours /\ b = Some ours.
Proof.
  unfold keyShares. induction kexs as [|[g x] l IH]; intros sh; cbn [mapR].
  - intros [= <-]. split; [reflexivity|]. intros g b [].
  - intros H. bo H a Ea. bo H r Er. injection H as <-. bo Ea b Eb. injection Ea as <-. cbn [fst snd] in *. destruct (IH _ Er) as (A & B).
    split; [cbn; rewrite A; reflexivity|]. intros g' b' [[= <- <-]|Hin]; [exists x, b; split; [left; reflexivity|auto]|].
    destruct (B _ _ Hin) as (x' & o & C & D). exists x', o. split; [right; exact C|exact D].
Qed.
Lemma fresh w gs kexs sh : getKeyExchangers w gs [] = Ok kexs -> keyShares kexs = Ok sh -> fresh_shares w gs sh.
Proof.
  intros H E. destruct (getKex_keys _ _ _ _ H) as (A & B); [constructor|]. destruct (keyShares_keys _ _ E) as (C & D).
  split; [rewrite C; apply sorted_nodup, A|]. split.
  - intros g. rewrite C, B. cbn. tauto.
  - intros g b Hin. destruct (D _ _ Hin) as (x & o & F & G1 & ->). exists x, o. destruct (getKex_In _ _ _ _ H _ _ F) as [[]|[_ X]]. auto.
Qed.
Lemma selected_chosen k p : selectedShares k p = chosen_shares k p.
Proof. unfold selectedShares, chosen_shares. destruct p as [q|], (k_sendShare k); try reflexivity; destruct (pk_group (cp_psk q)); reflexivity. Qed.

(** ** connect *)
Lemma alike_says k w p c c' : alike c c' -> says_first k w p c -> says_first k w p c'.
Proof.
  intros A (B & (sid & C1 & C2) & l & D1 & D2). split; [eapply alike_offers; eassumption|]. split; [|].
  - exists sid. split; [|exact C2]. destruct A as (_ & -> & _). exact C1.
  - exists l. split; [|exact D2]. unfold shares_of in *. destruct A as (_ & _ & _ & _ & A). erewrite getExtension_find; [exact D1|]. apply A. unfold core; cbn. repeat split; discriminate.
Qed.
(** Early data, as it is after connect. *)
Definition early_start (k : cenv) (w : cworld) (cn : conn) (p : option cpsk) (b : bytes) (s' : cstate) (rest : list cout) : Prop :=
  exists hl, c_hello s' = Some hl /\ h_psk hl = p /\
  match getEarlyDataParams k p with
  | None => rest = [] /\ g_early (c_neg s') = CeNotAttempted /\ c_earlyw s' = None /\ h_params hl = None
  | Some ep => exists q h t x th, p = Some q /\ k_hash k (pk_cipher (cp_psk q)) = Ok h /\
      rest = [KSecret (KTraffic SkEarly) t; KEarlySuccess (pk_maxEarly (cp_psk q)); KSecret KEarlyExporter x] /\
      g_early (c_neg s') = CeAttempted /\
      h_params hl = Some (mkEarly (pk_version (cp_psk q)) (pk_cipher (cp_psk q)) (pk_server (cp_psk q)) (pk_client (cp_psk q)) (pk_alpn (cp_psk q)) (Some x)) /\
      (if k_omitEarly k then c_earlyw s' = None else cwrite_keyed k h (pk_cipher (cp_psk q)) t LvEarlyData (c_earlyw s')) /\
      t = DeriveSecret h (EarlySecret h (pk_secret (cp_psk q))) (str "c e traffic") th /\
      x = DeriveSecret h (EarlySecret h (pk_secret (cp_psk q))) (str "e exp master") th /\
      (psk_last k cn -> sized_hashes k -> th = h_fn h b)
  end.
Record first_facts (k : cenv) (w : cworld) (cn : conn) (p : option cpsk) (enc : bytes) (o c : ClientHello) (b : bytes) (s' : cstate) (rest : list cout) : Prop := mkFF {
  ff_psk : validatePsk k (cw_now w) (cn_psk cn) = Ok p;
  ff_wire : encodeHandshake (MClientHello o) = Ok enc;
  ff_says : says_first k w p o;
  ff_counted : counted k cn enc c b;
  ff_inner : says_first k w p c;
  ff_random : cw_random w = Ok (ch_random c);
  ff_extras : extras k (cn_sni cn) c;
  ff_offer : psk_last k cn -> sized_hashes k -> (forall xs, cw_exts w = Ok xs -> no_type 41 xs = true) ->
    match p with
    | Some q => exists h, k_hash k (pk_cipher (cp_psk q)) = Ok h /\ psk_offer h [] q (cw_now2 w) c b
    | None => no_type 41 (ch_extensions c) = true
    end;
  ff_early : match getEarlyDataParams k p with
    | Some _ => getExtension KClientEarlyData (ch_extensions c) = Ok (Some XClientEarlyData)
    | None => (forall xs, cw_exts w = Ok xs -> no_type 42 xs = true) -> no_type 42 (ch_extensions c) = true
    end;
  ff_attempt : early_start k w cn p b s' rest;
  ff_state : exists hl kexs, c_hello s' = Some hl /\ h_enc hl = Some enc /\ h_kex hl = Some kexs /\ small_groups kexs /\ shares_in kexs o /\ shares_in kexs c /\
    ch_session_id o = Some (h_sid hl) /\ ch_session_id c = Some (h_sid hl) /\ ch_random o = h_random hl /\
    match c_ech s' with
    | None => cn_ech cn = None /\ h_sni hl = cn_sni cn /\ o = c /\ b = enc
    | Some e => cn_ech cn <> None /\ ec_sni e = cn_sni cn /\ ec_random e = ch_random c /\ ec_enc e = Some b /\ carries k (ec_neg e) b enc
    end }.
Lemma base_hello_more k w random sid kexs cn early ech c0 req : cenv_ok k -> base_hello k w random sid kexs cn early ech = Ok (c0, req) ->
  extras k (cn_sni cn) c0 /\ (early = true -> getExtension KClientEarlyData (ch_extensions c0) = Ok (Some XClientEarlyData)) /\
  (forall t, (t = 41 \/ (t = 42 /\ early = false)) -> (forall xs, cw_exts w = Ok xs -> no_type t xs = true) -> no_type t (ch_extensions c0) = true).
Proof.
  intros Hk H. unfold base_hello in H. bo H c Ec. destruct (getClientHello_more _ _ _ _ _ _ _ _ _ _ Hk Ec) as (A & _ & B & C).
  assert (C' : forall t, (t = 41 \/ (t = 42 /\ early = false)) -> (forall xs, cw_exts w = Ok xs -> no_type t xs = true) -> no_type t (ch_extensions c) = true).
  { intros t Ht. apply C. tauto. }
  assert (X : forall e, ext_type e = 65037 -> extras k (cn_sni cn) (with_exts c (ch_extensions c ++ [e])) /\
     (early = true -> getExtension KClientEarlyData (ch_extensions (with_exts c (ch_extensions c ++ [e]))) = Ok (Some XClientEarlyData)) /\
     (forall t, (t = 41 \/ (t = 42 /\ early = false)) -> (forall xs, cw_exts w = Ok xs -> no_type t xs = true) -> no_type t (ch_extensions (with_exts c (ch_extensions c ++ [e]))) = true)).
  { intros e He. split; [apply extras_app; auto|]. split.
    - intros E. apply alike_more; [apply B, E|]. rewrite He. discriminate.
    - intros t Ht Ha. cbn [with_exts ch_extensions]. apply no_type_app; [apply C'; assumption|]. apply no_type_one. rewrite He. destruct Ht as [->|(-> & _)]; discriminate. }
  destruct ech.
  - bo H e Ee. injection H as <- _. apply X. rewrite (ext_type_of _ _ Ee). reflexivity.
  - destruct (k_grease k) as [[|]|].
    + bo H g Eg. bo H e Ee. injection H as <- _. apply X. rewrite (ext_type_of _ _ Ee). reflexivity.
    + injection H as <- _. auto.
    + injection H as <- _. auto.
Qed.
Lemma setup_none k w : forall l, setupECH k w l = Ok None -> l = None.
Proof.
  intros [l|] H; [|reflexivity]. unfold setupECH in H. bo H n En. destruct n as [ng|]; [|discriminate]. bo H g Eg. bo H x Ex.
  apply bind_Ok in H. destruct H as ((a & b) & _ & H). discriminate.
Qed.
Lemma setup_some k w l x : setupECH k w l = Ok (Some x) -> l <> None.
Proof. intros H ->. discriminate. Qed.
Lemma connect_first k w cn s' d enc rest : cenv_ok k -> handle_connect k w c_init cn = Ok (s', KWrite [mkContent LvPlaintext 22 d enc] :: rest) ->
  exists p o c b, first_facts k w cn p enc o c b s' rest.
Proof.
  intros Hk. unfold handle_connect. intros H. bo H p Ep. bo H random Er. cbv zeta in H. bo H sid Es. bo H kexs Ek. bo H ech Ee.
  apply bind_Ok in H. destruct H as ((c0 & req0) & Ec0 & H). cbv beta iota in H.
  apply bind_Ok in H. destruct H as (((c1 & enc1) & early) & Ec1 & H). cbv beta iota in H.
  apply bind_Ok in H. destruct H as (((((enc' & req) & sni) & random') & est) & Est & H). cbv beta iota in H.
  bo H d' Ed. assert (enc' = enc).
  { destruct early as [[[[t wl] x] mx]|]; [destruct (getEarlyDataParams k p)|]; congruence. }
  subst enc'.
  pose proof (getKex_small _ _ _ _ Hk Ek) as Hkx.
  assert (Hsm : small_groups kexs) by (apply small_of; intros g x Hin; apply (Hkx _ _ Hin)).
  destruct (base_hello_facts _ _ _ _ _ _ _ _ _ _ Hk Hsm Ec0) as (B1 & (sh & B2 & B2') & B3 & B4).
  destruct (base_hello_more _ _ _ _ _ _ _ _ _ _ Hk Ec0) as (M1 & M2 & M3).
  assert (S0 : says_first k w p c0).
  { split; [exact B1|]. split.
    - exists sid. split; [exact B3|]. destruct (k_compat k); congruence.
    - exists sh. split; [exact B2'|]. rewrite <- selected_chosen. eapply fresh; eassumption. }
  assert (Hc1 : encodeHandshake (MClientHello c1) = Ok enc1 /\ alike c0 c1 /\ ch_random c1 = random /\ (exists e, ext_type e = 41 /\ c1 = with_exts c0 (ch_extensions c0 ++ [e]) \/ c1 = c0)).
  { destruct p as [q|].
    - bo Ec1 h Eh. apply bind_Ok in Ec1. destruct Ec1 as ((((c1' & enc1') & k1) & hc) & Eb & Ec1). cbv beta iota in Ec1. bo Ec1 ear Eear.
      injection Ec1 as <- <- _. destruct (binders_alike _ _ _ _ _ _ _ _ _ Eb) as (A1 & A2 & e & ids & b & -> & Ae & _). split; [exact A2|]. split; [exact A1|]. split; [exact B4|].
      exists e. left. split; [|reflexivity]. rewrite (ext_type_of _ _ Ae). reflexivity.
    - bo Ec1 en Een. injection Ec1 as <- <- _. split; [exact Een|]. split; [apply alike_refl|]. split; [exact B4|]. exists (mkExt 0 None). right. reflexivity. }
  destruct Hc1 as (C1 & C2 & C3 & e41 & C4).
  assert (M1' : extras k (cn_sni cn) c1) by (destruct C4 as [(T & ->)| ->]; [apply extras_app; auto|exact M1]).
  assert (Moff : sized_hashes k -> (forall xs, cw_exts w = Ok xs -> no_type 41 xs = true) ->
    match p with
    | Some q => exists h, k_hash k (pk_cipher (cp_psk q)) = Ok h /\ psk_offer h [] q (cw_now2 w) c1 enc1
    | None => no_type 41 (ch_extensions c1) = true
    end).
  { intros Hs Ha. assert (N41 : no_type 41 (ch_extensions c0) = true) by (apply M3; auto).
    destruct p as [q|].
    - bo Ec1 h Eh. apply bind_Ok in Ec1. destruct Ec1 as ((((c1' & enc1') & k1) & hc) & Eb & Ec1). cbv beta iota in Ec1. bo Ec1 ear Eear.
      assert (c1' = c1) by congruence. assert (enc1' = enc1) by congruence. subst c1' enc1'. exists h. split; [exact Eh|].
      assert (Hz : forall x, hash_id (pk_cipher (cp_psk q)) = Ok x -> h_len h = hash_size x) by (intros x; apply (sized _ _ _ _ Hs Eh)).
      destruct (binders_ok c0 q h (hc_new h) _ _ _ _ _ (ko_hash k Hk _ _ Eh) eq_refl Hz Eb) as (P & _). exact (P N41).
    - bo Ec1 en Een. injection Ec1 as <- <- _. exact N41. }
  assert (Mearly : match getEarlyDataParams k p with
    | Some _ => getExtension KClientEarlyData (ch_extensions c1) = Ok (Some XClientEarlyData)
    | None => (forall xs, cw_exts w = Ok xs -> no_type 42 xs = true) -> no_type 42 (ch_extensions c1) = true
    end).
  { destruct (getEarlyDataParams k p).
    - destruct C4 as [(T & ->)| ->]; [apply alike_more; [apply M2; reflexivity|rewrite T; discriminate]|apply M2; reflexivity].
    - intros Ha. assert (X : no_type 42 (ch_extensions c0) = true) by (apply M3; auto).
      destruct C4 as [(T & ->)| ->]; [|exact X]. cbn [with_exts ch_extensions]. apply no_type_app; [exact X|]. apply no_type_one. rewrite T. discriminate. }
  assert (S1 : says_first k w p c1) by (eapply alike_says; eassumption).
  assert (Hc1s : ch_session_id c1 = Some sid) by (destruct C2 as (_ & -> & _); exact B3).
  assert (Hc1k : shares_in kexs c1) by (eapply alike_shares; [exact C2|exists sh; split; assumption]).
  assert (Hst : exists hl, c_hello s' = Some hl /\ h_enc hl = Some enc /\ h_kex hl = Some kexs /\ h_sid hl = sid /\ h_random hl = random' /\ h_sni hl = sni /\ c_ech s' = est).
  { destruct early as [[[[t wl] x] mx]|]; [destruct (getEarlyDataParams k p)|];
      (match type of H with Ok (?st, _) = _ => assert (Hs' : s' = st) by congruence end; eexists; split; [rewrite Hs'; cbn [c_hello]; reflexivity|]; rewrite Hs'; auto 10). }
  assert (Est1 : forall b, (psk_last k cn -> b = enc1) -> early_start k w cn p b s' rest).
  { intros b Hb. unfold early_start. destruct p as [q|].
    - bo Ec1 h Eh. apply bind_Ok in Ec1. destruct Ec1 as ((((c1' & enc1') & k1) & hc) & Eb & Ec1). cbv beta iota in Ec1.
      pose proof (ko_hash k Hk _ _ Eh) as Hh. destruct (binders_rel _ _ _ _ _ _ _ _ _ Hh (eq_refl : hc_hash (hc_new h) = h) Eb) as (Rl & Hhc).
      assert (Hep : forall ep, getEarlyDataParams k (Some q) = Some ep -> ep = mkEarly (pk_version (cp_psk q)) (pk_cipher (cp_psk q)) (pk_server (cp_psk q)) (pk_client (cp_psk q)) (pk_alpn (cp_psk q)) None).
      { intros ep. unfold getEarlyDataParams. destruct (negb (k_sendEarly k)); [discriminate|]. destruct (pk_maxEarly (cp_psk q) =? 0); [discriminate|].
        match goal with |- (if ?x then _ else _) = _ -> _ => destruct x; [discriminate|] end. congruence. }
      destruct (getEarlyDataParams k (Some q)) as [ep|].
      + specialize (Hep _ eq_refl). subst ep. bo Ec1 ear Eear. bo Eear y Ey. destruct y as [[t wl] x]. injection Eear as <-.
        assert (enc1' = enc1) by congruence. subst enc1'. assert (early = Some (t, wl, x, pk_maxEarly (cp_psk q))) by congruence. subst early.
        match type of H with Ok (?st, _ :: ?r) = _ => assert (Hs' : s' = st) by congruence; assert (Hrest : rest = r) by congruence end. clear H.
        unfold cearly_keys in Ey. bo Ey t' Et. bo Ey wl' Ewl. bo Ey x' Ex. assert (t' = t /\ wl' = wl /\ x' = x) as (-> & -> & ->) by (repeat split; congruence). clear Ey.
        assert (Lc : blen (hc_context hc) = h_len h) by (rewrite hc_ctx_len; rewrite Hhc; auto).
        destruct (kget_rel _ _ _ (GetEarly ClientEarlyTraffic (hc_context hc)) _ Hh Rl Lc Et) as (st1 & E1). cbn [spec_step early_spec] in E1.
        destruct (kget_rel _ _ _ (GetEarly EarlyExporter (hc_context hc)) _ Hh Rl Lc Ex) as (st2 & E2). cbn [spec_step early_spec] in E2.
        assert (Ht : t = DeriveSecret h (EarlySecret h (pk_secret (cp_psk q))) (str "c e traffic") (hc_context hc)) by congruence.
        eexists. split; [rewrite Hs'; cbn [c_hello]; reflexivity|]. split; [reflexivity|]. exists q, h, t, x, (hc_context hc). split; [reflexivity|]. split; [exact Eh|].
        split; [exact Hrest|]. split; [rewrite Hs'; reflexivity|]. split; [reflexivity|]. split.
        { destruct (k_omitEarly k); rewrite Hs'; cbn [c_earlyw]; [congruence|]. bo Ewl wl2 Ewl2. injection Ewl as <-.
          eapply cnew_write_keyed; [exact Hk|exact Hh| |exact Ewl2]. rewrite Ht. apply DeriveSecret_len, Hh. }
        split; [exact Ht|]. split; [congruence|]. intros Hl Hs. rewrite (Hb Hl).
        assert (Hz : forall x, hash_id (pk_cipher (cp_psk q)) = Ok x -> h_len h = hash_size x) by (intros z; apply (sized _ _ _ _ Hs Eh)).
        destruct (binders_ok c0 q h (hc_new h) _ _ _ _ _ Hh eq_refl Hz Eb) as (_ & _ & _ & D & _). unfold hc_context. rewrite Hhc, D. reflexivity.
      + injection Ec1 as <- <- <-.
        match type of H with Ok (?st, _ :: ?r) = _ => assert (Hs' : s' = st) by congruence; assert (Hrest : rest = r) by congruence end.
        eexists. split; [rewrite Hs'; cbn [c_hello]; reflexivity|]. split; [reflexivity|]. rewrite Hs'. auto.
    - bo Ec1 en Een. injection Ec1 as _ _ <-. assert (Hgn : getEarlyDataParams k None = None) by (unfold getEarlyDataParams; destruct (negb _); reflexivity).
      rewrite Hgn in *. match type of H with Ok (?st, _ :: ?r) = _ => assert (Hs' : s' = st) by congruence; assert (Hrest : rest = r) by congruence end.
      eexists. split; [rewrite Hs'; cbn [c_hello]; reflexivity|]. split; [reflexivity|]. rewrite Hs'. auto. }
  destruct ech as [[[ng key] ctx]|].
  - pose proof (setup_some _ _ _ _ Ee) as Hne.
    bo Est random2 Er2. bo Est gp Egp. apply bind_Ok in Est. destruct Est as ((ctx' & outer) & Eo & Est). cbv beta iota in Est. bo Est en Een.
    assert (en = enc) by congruence. subst en.
    exists p, outer, c1, enc1. constructor; auto.
    + eapply alike_says; [eapply alike_constructed, Eo|exact S1].
    + split; [exact C1|]. destruct (cn_ech cn); [|congruence]. exists ng. eapply constructed_carries; eassumption.
    + congruence.
    + destruct Hst as (hl & Y1 & Y2 & Y3 & Y4 & Y5 & Y6 & Y7). exists hl, kexs. pose proof (alike_constructed _ _ _ _ _ _ _ _ _ _ _ Eo) as Yo.
      split; [exact Y1|]. split; [exact Y2|]. split; [exact Y3|]. split; [exact Hsm|]. split; [eapply alike_shares; [exact Yo|exact Hc1k]|]. split; [exact Hc1k|].
      split; [destruct Yo as (_ & -> & _); congruence|]. split; [congruence|]. destruct (constructed_same _ _ _ _ _ _ _ _ _ _ _ Eo) as (_ & _ & _ & _ & Hrn & _).
      assert (Hest : est = Some (mkEchState CxRequested (Some enc1) (cn_sni cn) ng key ctx' random gp None None)) by congruence.
      split; [congruence|]. rewrite Y7, Hest. cbn [ec_sni ec_random ec_enc ec_neg]. split; [exact Hne|]. split; [reflexivity|]. split; [congruence|]. split; [reflexivity|].
      eapply constructed_carries; eassumption.
  - pose proof (setup_none _ _ _ Ee) as Hno.
    assert (Hsimple : enc = enc1 -> exists p o c b, first_facts k w cn p enc o c b s' rest).
    { intros ->. exists p, c1, c1, enc1. constructor; auto.
      - split; [exact C1|]. rewrite Hno. reflexivity.
      - congruence.
      - destruct Hst as (hl & Y1 & Y2 & Y3 & Y4 & Y5 & Y6 & Y7). exists hl, kexs.
        assert (Hz : random' = random /\ sni = cn_sni cn /\ est = None).
        { destruct (k_grease k) as [[|]|]; try (repeat split; congruence). bo Est g Egr. bo Est e Eee. bo Est en Een. repeat split; congruence. }
        destruct Hz as (Z1 & Z2 & Z3). rewrite Y7, Z3. repeat (split; [first [assumption|congruence]|]). reflexivity. }
    destruct (k_grease k) as [[|]|] eqn:Eg; try (apply Hsimple; congruence).
    bo Est g Egr. bo Est e Eee. bo Est en Een. assert (en = enc) by congruence. subst en.
    assert (T : ext_type e = 65037) by (rewrite (ext_type_of _ _ Eee); reflexivity).
    set (c := with_exts c1 (ch_extensions c1 ++ [e])) in *.
    assert (S2 : says_first k w p c) by (eapply alike_says; [apply alike_app; rewrite T; exact not_core_ech|exact S1]).
    exists p, c, c, enc. constructor; auto.
    + split; [exact Een|]. rewrite Hno. reflexivity.
    + change (ch_random c) with (ch_random c1). congruence.
    + apply extras_app; auto.
    + intros [Y|Y]; congruence.
    + destruct (getEarlyDataParams k p).
      * apply alike_more; [exact Mearly|rewrite T; discriminate].
      * intros Ha. cbn [c with_exts ch_extensions]. apply no_type_app; [apply Mearly, Ha|]. apply no_type_one. rewrite T. discriminate.
    + apply Est1. intros [Y|Y]; congruence.
    + destruct Hst as (hl & Y1 & Y2 & Y3 & Y4 & Y5 & Y6 & Y7). exists hl, kexs.
      assert (Hz : random' = random /\ sni = cn_sni cn /\ est = None) by (repeat split; congruence).
      destruct Hz as (Z1 & Z2 & Z3). rewrite Y7, Z3.
      assert (Hsh : shares_in kexs c) by (eapply alike_shares; [apply alike_app; rewrite T; exact not_core_ech|exact Hc1k]).
      change (ch_session_id c) with (ch_session_id c1). change (ch_random c) with (ch_random c1).
      repeat (split; [first [assumption|congruence|reflexivity]|]). reflexivity.
Qed.

(** ** HelloRetryRequest *)
Record again_facts (k : cenv) (w : cworld) (s : cstate) (m : HelloRetryRequest) (orig : bytes) (hl : hellost) (kexs kexs' : list (N * kex)) (enc : bytes)
    (o c : ClientHello) (b : bytes) : Prop := mkGF {
  gf_wire : encodeHandshake (MClientHello o) = Ok enc;
  gf_inner : encodeHandshake (MClientHello c) = Ok b;
  gf_counted : match c_ech s with None => o = c /\ b = enc | Some e => carries k (ec_neg e) b enc end;
  gf_kexs : (exists g, getExtension KHrrKeyShare (hrr_extensions m) = Ok (Some (XHrrKeyShare g)) /\ In g (k_groups k) /\ ~ In g (map fst kexs) /\
      getKeyExchangers w [g] [] = Ok kexs') \/
     ((forall g, getExtension KHrrKeyShare (hrr_extensions m) <> Ok (Some (XHrrKeyShare g))) /\ kexs' = kexs);
  gf_says : forall x, x = o \/ x = c -> offers k x /\ shares_in kexs' x /\ ch_session_id x = Some (h_sid hl) /\
    (forall ck, getExtension KCookie (hrr_extensions m) = Ok (Some (XCookie (Some ck))) -> getExtension KCookie (ch_extensions x) = Ok (Some (XCookie (Some ck))));
  gf_random : ch_random o = h_random hl /\ ch_random c = (match c_ech s with Some e => ec_random e | None => h_random hl end);
  gf_extras : extras k (match c_ech s with Some e => ec_sni e | None => h_sni hl end) c;
  gf_early : (forall xs, cw_exts w = Ok xs -> no_type 42 xs = true) -> no_type 42 (ch_extensions c) = true;
  gf_offer : sized_hashes k -> (forall xs, cw_exts w = Ok xs -> no_type 41 xs = true) ->
    (no_type 41 (ch_extensions c) = true /\ forall q, h_psk hl = Some q -> ~ same_hash (pk_cipher (cp_psk q)) (hrr_suite m)) \/
    exists q h i, h_psk hl = Some q /\ same_hash (pk_cipher (cp_psk q)) (hrr_suite m) /\ k_hash k (hrr_suite m) = Ok h /\
      (match c_ech s with Some e => ec_enc e | None => h_enc hl end) = Some i /\ psk_offer h (retry_start h i orig) q (cw_now w) c b }.
Lemma sized_same k c1 c2 h x : sized_hashes k -> k_hash k c1 = Ok h -> hash_id c1 = Ok x -> hash_id c2 = Ok x -> forall y, hash_id c2 = Ok y -> h_len h = hash_size y.
Proof. intros S H A B y C. assert (x = y) by congruence. subst y. eapply sized; eassumption. Qed.
Lemma retry_again k w s m orig s' outs hl kexs : cenv_ok k -> handle_retry k w s m orig = Ok (s', outs) -> c_hello s = Some hl -> h_kex hl = Some kexs ->
  small_groups kexs -> exists hl' kexs' enc o c b, c_hello s' = Some hl' /\ h_enc hl' = Some enc /\ again_facts k w s m orig hl kexs kexs' enc o c b.
Proof.
  intros Hk H Ehl Ekx Hsm0. unfold handle_retry in H. rewrite Ehl in H. destruct (h_req hl) as [req|]; [|discriminate]. rewrite Ekx in H.
  bo H u0 E0. bo H u1 E1. clear E1.
  apply bind_Ok in H. destruct H as ((version & cipher) & Evc & H). cbv beta iota in H.
  destruct (versionAndCipher_ok _ _ _ _ _ _ _ Evc) as (V1 & V2 & -> & V3 & V4 & V5).
  bo H x Ex. bo H group Eg. bo H y Ey. cbv zeta in H. bo H p Ep. bo H kexs' Ek'. bo H c0 Ec0. bo H c1 Ec1. bo H h Eh. bo H en Een. bo H mh Emh. bo H eres Eeres.
  apply bind_Ok in H. destruct H as ((c2 & enc2) & Ec2 & H). cbv beta iota in H.
  apply bind_Ok in H. destruct H as ((enc & est) & Eenc & H). cbv beta iota in H.
  destruct (c_write s) as [wl|] eqn:Ewl; [|discriminate]. bo H ct Ect.
  apply deref_ok in Een. apply encode_message_hash in Emh. destruct Emh as (dg & [= <-] & Emh).
  match type of H with Ok (?st, _) = _ => assert (Hs' : s' = st) by congruence end. clear H.
  assert (Hgr : (exists g, getExtension KHrrKeyShare (hrr_extensions m) = Ok (Some (XHrrKeyShare g)) /\ In g (k_groups k) /\ ~ In g (map fst kexs) /\
      getKeyExchangers w [g] [] = Ok kexs') \/
     ((forall g, getExtension KHrrKeyShare (hrr_extensions m) <> Ok (Some (XHrrKeyShare g))) /\ kexs' = kexs)).
  { destruct x as [x|].
    - destruct x; try (right; injection Eg as <-; split; [intros g0; rewrite Ex; congruence|congruence]).
      bo Eg u2 E2. injection Eg as <-. apply ensure_ok, mem_In in E2. left. destruct (findKex _ kexs) eqn:Ef; [discriminate|].
      eexists. split; [exact Ex|]. split; [exact E2|]. split; [|exact Ek']. intros Hin. apply in_map_iff in Hin. destruct Hin as ([g' y'] & Hg & Hin). cbn in Hg. subst g'.
      exact (findKex_none _ _ Ef _ Hin).
    - injection Eg as <-. right. split; [intros g0; rewrite Ex; congruence|congruence]. }
  assert (Hsm : small_groups kexs').
  { destruct Hgr as [(g & _ & Hg & _ & Hx)|(_ & ->)]; [|exact Hsm0]. cbn [getKeyExchangers] in Hx. bo Hx kx Ekk. injection Hx as <-.
    constructor; [|constructor]. cbn. pose proof (ko_groups k Hk) as B. rewrite Forall_forall in B. apply B, Hg. }
  destruct (getClientHello_facts _ _ _ _ _ _ _ _ _ _ Hk Hsm Ec0) as (A & B & C & D).
  destruct (getClientHello_more _ _ _ _ _ _ _ _ _ _ Hk Ec0) as (M1 & M2 & _ & M3).
  assert (Hck : forall ck, getExtension KCookie (hrr_extensions m) = Ok (Some (XCookie (Some ck))) -> getExtension KCookie (ch_extensions c0) = Ok (Some (XCookie (Some ck)))).
  { intros ck Hc. rewrite Ey in Hc. injection Hc as ->. apply M2. reflexivity. }
  assert (M1' : extras k (match c_ech s with Some e => ec_sni e | None => h_sni hl end) c0) by exact M1.
  assert (C1 : (c1 = c0 /\ c_ech s = None) \/ (exists e, ext_type e = 65037 /\ c1 = with_exts c0 (ch_extensions c0 ++ [e]) /\ c_ech s <> None)).
  { destruct (c_ech s) as [e|]; [|left; split; [congruence|reflexivity]]. bo Ec1 e' Ee'. right. exists e'. split; [rewrite (ext_type_of _ _ Ee'); reflexivity|]. split; [congruence|discriminate]. }
  assert (L1 : alike c0 c1 /\ extras k (match c_ech s with Some e => ec_sni e | None => h_sni hl end) c1 /\ ch_random c1 = ch_random c0 /\
    (forall t, (t = 41 \/ t = 42) -> (forall xs, cw_exts w = Ok xs -> no_type t xs = true) -> no_type t (ch_extensions c1) = true)).
  { assert (M3' : forall t, (t = 41 \/ t = 42) -> (forall xs, cw_exts w = Ok xs -> no_type t xs = true) -> no_type t (ch_extensions c0) = true).
    { intros t Ht. apply M3. destruct Ht; auto. }
    destruct C1 as [(-> & _)|(e & T & -> & _)]; [split; [apply alike_refl|]; auto|].
    split; [apply alike_app; rewrite T; exact not_core_ech|]. split; [apply extras_app; auto|]. split; [reflexivity|].
    intros t Ht Ha. cbn [with_exts ch_extensions]. apply no_type_app; [apply M3'; assumption|]. apply no_type_one. rewrite T. destruct Ht as [->| ->]; discriminate. }
  destruct L1 as (L1 & L2 & L3 & L4).
  assert (C2 : encodeHandshake (MClientHello c2) = Ok enc2 /\ alike c1 c2 /\ ch_random c2 = ch_random c1 /\
     ((p = None /\ c2 = c1) \/ exists e, ext_type e = 41 /\ c2 = with_exts c1 (ch_extensions c1 ++ [e]))).
  { destruct p as [q|].
    - apply bind_Ok in Ec2. destruct Ec2 as ((((c1' & enc1') & k1) & hc) & Eb & Ec2). cbv beta iota in Ec2.
      assert (c1' = c2) by congruence. assert (enc1' = enc2) by congruence. subst c1' enc1'.
      destruct (binders_alike _ _ _ _ _ _ _ _ _ Eb) as (A1 & A2 & e & ids & b & Hc2 & Ae & _). split; [exact A2|]. split; [exact A1|].
      split; [rewrite Hc2; reflexivity|]. right. exists e. split; [rewrite (ext_type_of _ _ Ae); reflexivity|exact Hc2].
    - bo Ec2 en' Een'. assert (c1 = c2) by congruence. subst c2. assert (en' = enc2) by congruence. subst en'.
      split; [exact Een'|]. split; [apply alike_refl|]. split; [reflexivity|]. left. auto. }
  destruct C2 as (C2 & C3 & C4 & C5).
  assert (Hpsk : match p with None => forall q, h_psk hl = Some q -> ~ same_hash (pk_cipher (cp_psk q)) (hrr_suite m) | Some q => h_psk hl = Some q /\ same_hash (pk_cipher (cp_psk q)) (hrr_suite m) end).
  { destruct (h_psk hl) as [q|]; [|injection Ep as <-; discriminate]. bo Ep a Ea. bo Ep b' Eb'. destruct (a =? b') eqn:E; injection Ep as <-.
    2:{ apply N.eqb_neq in E. intros q0 [= <-] (z & Z1 & Z2). congruence. }
    apply N.eqb_eq in E. subst b'. split; [reflexivity|]. exists a. auto. }
  assert (Hi : forall e, c_ech s = Some e -> exists status ec gp i0, eres = Some (status, ec, gp) /\ ec_enc e = Some i0 /\ ec = mkHc h (retry_start h i0 orig)).
  { intros e Ee. rewrite Ee in Eeres. bo Eeres r Erx. destruct r as [[status ec] gp]. injection Eeres as <-.
    unfold hrr_ech in Erx. bo Erx i0 Ei0. bo Erx mh' Emh'. cbv zeta in Erx. bo Erx acc Eacc. bo Erx gp' Egp'.
    apply deref_ok in Ei0. apply encode_message_hash in Emh'. destruct Emh' as (dg & [= <-] & ->).
    match type of Erx with Ok (_, ?y, _) = _ => assert (Hec : ec = y) by congruence end.
    exists status, ec, gp, i0. split; [reflexivity|]. split; [exact Ei0|]. rewrite Hec. reflexivity. }
  assert (Hoff : sized_hashes k -> (forall xs, cw_exts w = Ok xs -> no_type 41 xs = true) ->
    (no_type 41 (ch_extensions c2) = true /\ forall q, h_psk hl = Some q -> ~ same_hash (pk_cipher (cp_psk q)) (hrr_suite m)) \/
    exists q h i, h_psk hl = Some q /\ same_hash (pk_cipher (cp_psk q)) (hrr_suite m) /\ k_hash k (hrr_suite m) = Ok h /\
      (match c_ech s with Some e => ec_enc e | None => h_enc hl end) = Some i /\ psk_offer h (retry_start h i orig) q (cw_now w) c2 enc2).
  { intros Hs Ha. assert (N41 : no_type 41 (ch_extensions c1) = true) by (apply L4; auto).
    destruct p as [q|]; [right|left].
    2:{ split; [|exact Hpsk]. destruct C5 as [(_ & ->)|(e & T & Hc2)]; [exact N41|]. bo Ec2 en' Een'. assert (Hcc : c2 = c1) by congruence. rewrite Hcc. exact N41. }
    destruct Hpsk as (P1 & P2). exists q, h.
    apply bind_Ok in Ec2. destruct Ec2 as ((((c1' & enc1') & k1) & hc) & Eb & Ec2). cbv beta iota in Ec2.
    assert (c1' = c2) by congruence. assert (enc1' = enc2) by congruence. subst c1' enc1'. clear Ec2.
    assert (Hz : forall y, hash_id (pk_cipher (cp_psk q)) = Ok y -> h_len h = hash_size y).
    { destruct P2 as (z & Z1 & Z2). apply (sized_same k (hrr_suite m) _ h z Hs Eh Z2 Z1). }
    pose proof (ko_hash k Hk _ _ Eh) as Hok.
    destruct (c_ech s) as [e|] eqn:Ees.
    - destruct (Hi e eq_refl) as (status & ec & gp & i0 & -> & Hi0 & ->). exists i0.
      destruct (binders_ok c1 q h (mkHc h (retry_start h i0 orig)) _ _ _ _ _ Hok eq_refl Hz Eb) as (P & _). specialize (P N41). auto 10.
    - injection Eeres as <-. exists en. subst mh.
      match type of Eb with encodeAndAddBinders _ _ _ ?X _ = _ => change X with (mkHc h (retry_start h en orig)) in Eb end.
      destruct (binders_ok c1 q h (mkHc h (retry_start h en orig)) _ _ _ _ _ Hok eq_refl Hz Eb) as (P & _). specialize (P N41). auto 10. }
  assert (Hsays : forall x, alike c0 x -> offers k x /\ shares_in kexs' x /\ ch_session_id x = Some (h_sid hl) /\
    (forall ck, getExtension KCookie (hrr_extensions m) = Ok (Some (XCookie (Some ck))) -> getExtension KCookie (ch_extensions x) = Ok (Some (XCookie (Some ck))))).
  { intros z Hz. split; [eapply alike_offers; eassumption|]. split; [eapply alike_shares; eassumption|]. split; [destruct Hz as (_ & -> & _); exact C|].
    intros ck Hc. erewrite getExtension_find; [apply Hck, Hc|]. apply Hz. unfold core; cbn. repeat split; discriminate. }
  assert (Hal : alike c0 c2) by (eapply alike_trans; eassumption).
  assert (Hx2 : extras k (match c_ech s with Some e => ec_sni e | None => h_sni hl end) c2) by (destruct C5 as [(_ & ->)|(e & T & ->)]; [exact L2|apply extras_app; auto]).
  assert (He2 : (forall xs, cw_exts w = Ok xs -> no_type 42 xs = true) -> no_type 42 (ch_extensions c2) = true).
  { intros Ha. destruct C5 as [(_ & ->)|(e & T & ->)]; [apply L4; auto|]. cbn [with_exts ch_extensions]. apply no_type_app; [apply L4; auto|]. apply no_type_one. rewrite T. discriminate. }
  destruct (c_ech s) as [e|] eqn:Ees.
  - destruct (Hi e eq_refl) as (status & ec & gp & i0 & Her & Hi0 & Hec). rewrite Her in Eenc.
    bo Eenc sni Esni. apply bind_Ok in Eenc. destruct Eenc as ((ctx' & outer) & Eo & Eenc). cbv beta iota in Eenc. bo Eenc eo Eeo. assert (eo = enc) by congruence. subst eo.
    eexists _, kexs', enc, outer, c2, enc2. split; [rewrite Hs'; cbn [c_hello]; reflexivity|]. split; [reflexivity|].
    constructor; auto.
    + rewrite Ees. eapply constructed_carries; eassumption.
    + intros z [->| ->]; apply Hsays; [|exact Hal]. eapply alike_trans; [exact Hal|]. eapply alike_constructed, Eo.
    + destruct (constructed_same _ _ _ _ _ _ _ _ _ _ _ Eo) as (_ & _ & _ & _ & Hrn & _). rewrite Ees. split; [exact Hrn|]. congruence.
    + rewrite Ees. exact Hx2.
    + rewrite Ees. exact Hoff.
  - injection Eeres as <-. assert (enc2 = enc) by congruence. subst enc2.
    eexists _, kexs', enc, c2, c2, enc. split; [rewrite Hs'; cbn [c_hello]; reflexivity|]. split; [reflexivity|].
    constructor; auto.
    + rewrite Ees. auto.
    + intros z [->| ->]; apply Hsays, Hal.
    + rewrite Ees. split; congruence.
    + rewrite Ees. exact Hx2.
    + rewrite Ees. exact Hoff.
Qed.
