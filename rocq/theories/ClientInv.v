(** * The invariant of a client connection: keys, transcripts, connect *)
From Verif Require Import Base Codec CodecSpec Str Hkdf HkdfSpec HkdfProofs KeySched KeySchedSpec KeySchedProofs Handshake Extensions RecordBase Record
  RecordRT ReadEvent HelloChecks Cookie Token Negotiate Ticket PskSer Kex Hpke Transcript IOBufUtil PropsIOBuf EchConfirm HpkeUtils EchCrypt Server
  ServerSpec ServerFacts ServerSteps ServerFlight ServerInv ServerPreserve ExtensionsSpec ExtensionsProofs PropsCodec PropsEch Client ClientSpec ClientSteps ClientHello.
Open Scope N_scope.

(** ** Keys *)
Lemma aead_for_keyed k h cipher secret a : cenv_ok k -> hash_ok h -> blen secret = h_len h ->
  aead_for (k_aead k) h cipher secret = Ok a -> ckeyed k h cipher secret a.
Proof.
  intros He Hh Hl. unfold aead_for. intros H.
  apply bind_Ok in H. destruct H as (((kl & il) & mk) & Ea & H). cbv beta iota in H.
  destruct (ko_aead k He _ _ _ _ Ea) as [Hk Hi].
  destruct (hl16 h Hh) as (L1 & L2 & L3).
  pose proof (step_ok h Hh ks_init (Start, None) (GetTrafficKey secret kl il) (rel_init h)) as Hs.
  assert (Ho : op_ok h (GetTrafficKey secret kl il)) by (cbn; repeat split; try assumption; nia).
  specialize (Hs Ho). cbn [spec_step] in Hs. destruct Hs as (s' & Hs & _). rewrite Hs in H. cbn [snd] in H.
  exists kl, il, mk. auto.
Qed.
Lemma cnew_read_keyed k h version cipher secret r : cenv_ok k -> hash_ok h -> blen secret = h_len h ->
  cnew_read k h version cipher secret = Ok r -> cread_keyed k h cipher secret (Some r) /\ ev_unparsed r = [].
Proof.
  intros He Hh Hl. unfold cnew_read. intros H. bo H rv E1. bo H a E2. injection H as <-.
  split; [|reflexivity]. eexists _, _. split; [reflexivity|]. cbn. eapply aead_for_keyed; eassumption.
Qed.
Lemma cnew_write_keyed k h lv version cipher secret l : cenv_ok k -> hash_ok h -> blen secret = h_len h ->
  cnew_write k h lv version cipher secret = Ok l -> cwrite_keyed k h cipher secret lv (Some l).
Proof.
  intros He Hh Hl. unfold cnew_write. intros H. bo H rv E1. bo H a E2. injection H as <-.
  eexists. split; [reflexivity|]. cbn. eapply aead_for_keyed; eassumption.
Qed.
Lemma cread_keyed_key k h c sec r r' : cread_keyed k h c sec (Some r) -> layer_key (ev_layer r') = layer_key (ev_layer r) ->
  cread_keyed k h c sec (Some r').
Proof.
  intros (u & es & [= ->] & Hk) E. cbn in E. destruct r' as [u' l']; cbn in E. destruct l' as [p|es']; [discriminate|].
  injection E as E. exists u', es'. split; [reflexivity|]. rewrite E. exact Hk.
Qed.

(** ** Quiet entries *)
(** Not part of the transcript, no key update and no success. *)
Definition cquiet (x : centry) : bool :=
  match x with
  | CRecv _ (EvHandshake _ _) => false
  | CEmit (KWrite cs) => match filter is_hs cs with [] => true | _ => false end
  | CEmit (KSuccess _) => false
  | _ => true
  end.
Lemma cquiet_step h hs T x : cquiet x = true -> ctstep h hs T x hs T.
Proof.
  destruct x as [w i|w [m o|a|p|d]|o]; cbn; try discriminate; auto. destruct o; cbn; auto.
  destruct (filter is_hs l) as [|c [|]]; try discriminate. intros _. split; [reflexivity|]. cbn. rewrite app_nil_r. reflexivity.
Qed.
Lemma ctrans_quiet h X : forall L hs T, ctrans h L hs T -> forallb cquiet X = true -> ctrans h (L ++ X) hs T.
Proof.
  induction X as [|x X IH]; intros L hs T H Hq.
  - rewrite app_nil_r. exact H.
  - cbn in Hq. apply andb_true_iff in Hq. destruct Hq as [Hx Hq].
    replace (L ++ x :: X) with ((L ++ [x]) ++ X) by (rewrite <- app_assoc; reflexivity).
    apply IH; [|exact Hq]. eapply ct_snoc; [exact H|]. apply cquiet_step, Hx.
Qed.
Lemma ctrans_recv h L hs T w m orig : ctrans h L hs T ->
  match m with MHelloRetryRequest _ | MNewSessionTicket _ | MKeyUpdate _ => False | _ => True end ->
  ctrans h (L ++ [CRecv w (EvHandshake m orig)]) hs (T ++ orig).
Proof. intros H Hm. eapply ct_snoc; [exact H|]. destruct m; cbn; try contradiction; auto. Qed.
Lemma ccount_app f a b : ccount f (a ++ b) = (ccount f a + ccount f b)%nat.
Proof. unfold ccount. rewrite filter_app, app_length. reflexivity. Qed.
Lemma plain_hs_hs c : plain_hs c = true -> is_hs c = true.
Proof. unfold plain_hs. destruct (is_hs c); auto. Qed.
Lemma filter_plain cs : filter is_hs cs = [] -> filter plain_hs cs = [].
Proof.
  induction cs as [|c cs IH]; cbn; [auto|]. destruct (is_hs c) eqn:E; [discriminate|]. intros H.
  destruct (plain_hs c) eqn:E2; [|auto]. apply plain_hs_hs in E2. congruence.
Qed.
Lemma hellos_app a b : hellos_sent (a ++ b) = hellos_sent a ++ hellos_sent b.
Proof. apply flat_map_app. Qed.
Lemma worlds_app a b : worlds (a ++ b) = worlds a ++ worlds b.
Proof. apply flat_map_app. Qed.
Definition is_retry (x : centry) : bool := match x with CRecv _ (EvHandshake (MHelloRetryRequest _) _) => true | _ => false end.
Lemma cquiet_nothing X : forallb cquiet X = true ->
  hellos_sent X = [] /\ ccount cis_success X = 0%nat /\ ccount cis_ku_recv X = 0%nat /\ ccount cis_ku_sent X = 0%nat /\ filter is_retry X = [].
Proof.
  induction X as [|x X IH]; [repeat split|]. cbn [forallb]. intros H. apply andb_true_iff in H. destruct H as [Hx H].
  destruct (IH H) as (A & B & C & D & E). change (x :: X) with ([x] ++ X). rewrite hellos_app, !ccount_app, filter_app, A, B, C, D, E.
  destruct x as [w i|w [m o|a|p|d]|o]; try discriminate; auto. destruct o; try discriminate; auto. unfold cquiet in Hx.
  destruct (filter is_hs l) as [|c0 l0] eqn:Ef; [|discriminate]. unfold hellos_sent. cbn [flat_map app]. rewrite (filter_plain _ Ef).
  repeat split. unfold ccount. cbn [filter]. destruct l as [|c [|]]; auto. cbn [cis_ku_sent]. cbn [filter] in Ef. destruct (is_hs c); [discriminate|]. reflexivity.
Qed.
Lemma connected_app L X w cn : connected L w cn -> connected (L ++ X) w cn.
Proof. intros (L' & ->). exists (L' ++ X). reflexivity. Qed.
Lemma ccs_first_hs k b : filter is_hs (ccs_first k b) = [].
Proof. unfold ccs_first. destruct (k_compat k && negb b); reflexivity. Qed.
Lemma ccs_first_plain k b : filter plain_hs (ccs_first k b) = [].
Proof. apply filter_plain, ccs_first_hs. Qed.

(** ** One ClientHello *)
Definition hello_is (k : cenv) (kexs : list (N * kex)) (sid rnd b : bytes) : Prop :=
  exists c, encodeHandshake (MClientHello c) = Ok b /\ offers k c /\ shares_in kexs c /\ ch_session_id c = Some sid /\ ch_random c = rnd.
Lemma alike_hello k kexs sid c c' b : alike c c' -> offers k c -> shares_in kexs c -> ch_session_id c = Some sid ->
  encodeHandshake (MClientHello c') = Ok b -> hello_is k kexs sid (ch_random c') b.
Proof.
  intros A O S I E. exists c'. split; [exact E|]. split; [eapply alike_offers; eassumption|]. split; [eapply alike_shares; eassumption|].
  split; [|reflexivity]. destruct A as (_ & -> & _). exact I.
Qed.
Lemma getKex_small k w p kexs : cenv_ok k -> getKeyExchangers w (selectedShares k p) [] = Ok kexs ->
  forall g x, In (g, x) kexs -> g < 2 ^ 16 /\ cw_kex w g = Ok x.
Proof.
  intros Hk H g x Hin. destruct (getKex_In _ _ _ _ H _ _ Hin) as [[]|[Hg Hx]]. split; [|exact Hx].
  destruct (selectedShares_In _ _ _ Hg) as [A|A].
  - pose proof (ko_shares k Hk) as B. rewrite Forall_forall in B. apply B, A.
  - pose proof (ko_groups k Hk) as B. rewrite Forall_forall in B. apply B, A.
Qed.
Lemma small_of kexs : (forall g x, In (g, x) kexs -> g < 2 ^ 16) -> small_groups kexs.
Proof. intros H. apply Forall_forall. intros [g x] Hin. eapply H, Hin. Qed.
Lemma validatePsk_ok k now q p : validatePsk k now q = Ok (Some p) -> q = Some p /\ psk_valid k now p.
Proof.
  unfold validatePsk. destruct q as [c|]; [|discriminate]. cbv zeta.
  destruct (mem (pk_version (cp_psk c)) (k_versions k)) eqn:E1; [|discriminate]. destruct (mem (pk_cipher (cp_psk c)) (k_ciphers k)) eqn:E2; [|discriminate].
  apply mem_In in E1, E2. cbn [negb]. intros H.
  assert (X : cp_type c = PskResumption -> Ok (Some c) = Ok (Some p) /\ (now <= pk_expire (cp_psk c))%Z /\ (pk_hsTime (cp_psk c) <= now)%Z /\
    (now - pk_hsTime (cp_psk c) <= k_maxPskLife k)%Z).
  { intros T. rewrite T in H. destruct (pk_expire (cp_psk c) <? now)%Z eqn:A; [discriminate|]. apply Z.ltb_ge in A. bo H d Ed.
    unfold chk64 in Ed. destruct (int64 _); [|discriminate]. injection Ed as <-.
    destruct (k_maxPskLife k <? _)%Z eqn:B; [discriminate|]. apply Z.ltb_ge in B.
    destruct (now <? pk_hsTime (cp_psk c))%Z eqn:C; [discriminate|]. apply Z.ltb_ge in C. auto. }
  assert (c = p) as ->.
  { destruct (cp_type c) eqn:T; try congruence. destruct (X eq_refl) as (Y & _). congruence. }
  split; [reflexivity|]. split; [exact E1|]. split; [exact E2|]. intros T. destruct (X T) as (_ & Y). exact Y.
Qed.

(** ** connect *)
Record connect_facts (k : cenv) (w : cworld) (cn : conn) (s' : cstate) (outs : list cout) (hl : hellost) (kexs : list (N * kex)) (enc : bytes) : Prop := mkCF {
  cf_state : c_state s' = CExpectingServerHello;
  cf_layers : c_read s' = Some (mkEv [] (LPlain (mkP false None))) /\ c_write s' = Some WPlain;
  cf_none : c_hctx s' = None /\ c_ks s' = None /\ c_secrets s' = None /\ c_exporter s' = None /\ c_resumption s' = None /\ c_chain s' = None;
  cf_hello : c_hello s' = Some hl /\ h_verifier hl = cn_verifier cn /\ h_exts hl = cn_exts cn /\ h_kex hl = Some kexs /\ h_enc hl = Some enc;
  cf_psk : validatePsk k (cw_now w) (cn_psk cn) = Ok (h_psk hl);
  cf_neg : g_version (c_neg s') = None /\ g_cipher (c_neg s') = None /\ g_kexType (c_neg s') = None /\ g_auth (c_neg s') = None /\ g_server (c_neg s') = None;
  cf_kexs : forall g x, In (g, x) kexs -> g < 2 ^ 16 /\ cw_kex w g = Ok x;
  cf_is : hello_is k kexs (h_sid hl) (h_random hl) enc;
  cf_ech : match c_ech s' with
    | None => cn_ech cn = None
    | Some e => cn_ech cn <> None /\ ec_status e = CxRequested /\ ec_hctx e = None /\ exists i, ec_enc e = Some i /\ hello_is k kexs (h_sid hl) (ec_random e) i /\
        carries k (ec_neg e) i enc
    end;
  cf_outs : exists d rest, outs = KWrite [mkContent LvPlaintext 22 d enc] :: rest /\ forallb cquiet (map CEmit rest) = true }.
Lemma base_hello_facts k w random sid kexs cn early ech c0 req : cenv_ok k -> small_groups kexs ->
  base_hello k w random sid kexs cn early ech = Ok (c0, req) ->
  offers k c0 /\ shares_in kexs c0 /\ ch_session_id c0 = Some sid /\ ch_random c0 = random.
Proof.
  intros Hk Hg H. unfold base_hello in H. bo H c Ec. destruct (getClientHello_facts _ _ _ _ _ _ _ _ _ _ Hk Hg Ec) as (A & B & C & D).
  assert (X : forall e, ~ core (ext_type e) -> offers k (with_exts c (ch_extensions c ++ [e])) /\ shares_in kexs (with_exts c (ch_extensions c ++ [e])) /\
     ch_session_id (with_exts c (ch_extensions c ++ [e])) = Some sid /\ ch_random (with_exts c (ch_extensions c ++ [e])) = random).
  { intros e He. pose proof (alike_app c e He) as Y. split; [eapply alike_offers; eassumption|]. split; [eapply alike_shares; eassumption|]. split; assumption. }
  destruct ech.
  - bo H e Ee. injection H as <- _. apply X. rewrite (ext_type_of _ _ Ee). exact not_core_ech.
  - destruct (k_grease k) as [[|]|].
    + bo H g Eg. bo H e Ee. injection H as <- _. apply X. rewrite (ext_type_of _ _ Ee). exact not_core_ech.
    + injection H as <- _. auto.
    + injection H as <- _. auto.
Qed.
Lemma constructed_carries k first c ng enc ctx random fake gp ctx' o i b :
  constructEncrypted first c ng enc ctx random fake gp (k_outerTypes k) = Ok (ctx', o) ->
  encodeHandshake (MClientHello c) = Ok i -> encodeHandshake (MClientHello o) = Ok b -> carries k ng i b.
Proof.
  intros H E1 E2. destruct (constructed_same _ _ _ _ _ _ _ _ _ _ _ H) as (_ & _ & _ & _ & _ & outer & x & X1 & X2).
  exists c, outer, gp, x, o. split; [exact E1|]. split; [exact E2|]. split; [exact X1|]. destruct first; [left|right]; eauto.
Qed.
Lemma handle_connect_facts k w cn s' outs : cenv_ok k -> handle_connect k w c_init cn = Ok (s', outs) ->
  exists hl kexs enc, connect_facts k w cn s' outs hl kexs enc.
Proof.
  intros Hk. unfold handle_connect. intros H. bo H p Ep. bo H random Er. cbv zeta in H. bo H sid Es. bo H kexs Ek. bo H ech Ee.
  apply bind_Ok in H. destruct H as ((c0 & req0) & Ec0 & H). cbv beta iota in H.
  apply bind_Ok in H. destruct H as (((c1 & enc1) & early) & Ec1 & H). cbv beta iota in H.
  apply bind_Ok in H. destruct H as (((((enc & req) & sni) & random') & est) & Est & H). cbv beta iota in H.
  bo H d Ed.
  pose proof (getKex_small _ _ _ _ Hk Ek) as Hkx.
  assert (Hsm : small_groups kexs) by (apply small_of; intros g x Hin; apply (Hkx _ _ Hin)).
  destruct (base_hello_facts _ _ _ _ _ _ _ _ _ _ Hk Hsm Ec0) as (B1 & B2 & B3 & B4).
  assert (C1 : encodeHandshake (MClientHello c1) = Ok enc1 /\ alike c0 c1 /\ ch_random c1 = random).
  { destruct p as [q|].
    - bo Ec1 h Eh. apply bind_Ok in Ec1. destruct Ec1 as ((((c1' & enc1') & k1) & hc) & Eb & Ec1). cbv beta iota in Ec1. bo Ec1 ear Eear.
      injection Ec1 as <- <- _. destruct (binders_alike _ _ _ _ _ _ _ _ _ Eb) as (A1 & A2 & e & ids & b & -> & _). auto.
    - bo Ec1 en Een. injection Ec1 as <- <- _. split; [exact Een|]. split; [apply alike_refl|exact B4]. }
  destruct C1 as (C1 & C2 & C3).
  assert (Hi : hello_is k kexs sid random enc1) by (rewrite <- C3; eapply alike_hello; eassumption).
  assert (Hst : hello_is k kexs sid random' enc /\
     match est with
     | None => cn_ech cn = None
     | Some e => cn_ech cn <> None /\ ec_status e = CxRequested /\ ec_hctx e = None /\ exists i, ec_enc e = Some i /\ hello_is k kexs sid (ec_random e) i /\
        carries k (ec_neg e) i enc
     end).
  { destruct ech as [[[ng key] ctx]|].
    - bo Est random2 Er2. bo Est gp Egp. apply bind_Ok in Est. destruct Est as ((ctx' & outer) & Eo & Est). cbv beta iota in Est. bo Est en Een.
      injection Est as <- _ _ <- <-. split.
      + destruct (constructed_same _ _ _ _ _ _ _ _ _ _ _ Eo) as (_ & _ & _ & _ & Hrn & _). rewrite <- Hrn. eapply alike_hello; [|exact B1|exact B2|exact B3|exact Een].
        eapply alike_trans; [exact C2|]. eapply alike_constructed, Eo.
      + cbn. split; [|split; [reflexivity|split; [reflexivity|]]].
        * unfold setupECH in Ee. destruct (cn_ech cn); [discriminate|]. congruence.
        * exists enc1. split; [reflexivity|]. split; [exact Hi|]. eapply constructed_carries; eassumption.
    - assert (Hn : cn_ech cn = None).
      { unfold setupECH in Ee. destruct (cn_ech cn) as [l|]; [|reflexivity]. bo Ee n En. destruct n as [ng|]; [|discriminate]. bo Ee g Eg. bo Ee x Ex.
        apply bind_Ok in Ee. destruct Ee as ((a & b) & _ & Ee). discriminate. }
      assert (Hs : (enc, req, sni, random', est) = (enc1, (match p with Some _ => req0 ++ [41] | None => req0 end), cn_sni cn, random, None) ->
        hello_is k kexs sid random' enc /\ match est with
         | None => cn_ech cn = None
         | Some e => cn_ech cn <> None /\ ec_status e = CxRequested /\ ec_hctx e = None /\ exists i, ec_enc e = Some i /\ hello_is k kexs sid (ec_random e) i /\
            carries k (ec_neg e) i enc
         end).
      { intros [= -> -> -> -> ->]. split; [exact Hi|exact Hn]. }
      destruct (k_grease k) as [[|]|]; try (apply Hs; congruence).
      bo Est g Eg. bo Est e Eee. bo Est en Een. injection Est as <- _ _ <- <-. split; [|exact Hn].
      rewrite <- C3. change (ch_random c1) with (ch_random (with_exts c1 (ch_extensions c1 ++ [e]))). eapply alike_hello; [|exact B1|exact B2|exact B3|exact Een].
      eapply alike_trans; [exact C2|]. apply alike_app. rewrite (ext_type_of _ _ Eee). exact not_core_ech. }
  destruct Hst as (Hst1 & Hst2).
  assert (Hout : (exists sec, outs = [KWrite [mkContent LvPlaintext 22 d enc]] ++ sec /\ forallb cquiet (map CEmit sec) = true) /\
     exists earlyw params ed, s' = mkC CExpectingServerHello (Some (mkEv [] (LPlain (mkP false None)))) (Some WPlain) earlyw (c_ccs c_init) (c_hctx c_init) (c_ks c_init) (c_secrets c_init)
      (Some (mkHello (cn_verifier cn) (cn_exts cn) sni random' sid p (Some kexs) (Some enc) (Some req) params))
      (mkNegSt None None None None None None ed None None None None None None None) est (c_chain c_init) (c_selected c_init) (c_exporter c_init) (c_resumption c_init)).
  { destruct early as [[[[t wl] x] mx]|].
    - destruct (getEarlyDataParams k p) as [ep|]; injection H as <- <-; (split; [eexists; split; [reflexivity|]; reflexivity|eexists _, _, _; reflexivity]).
    - injection H as <- <-. split; [exists []; split; reflexivity|eexists _, _, _; reflexivity]. }
  destruct Hout as ((sec & -> & Hq) & earlyw & params & ed & ->).
  eexists _, kexs, enc. constructor; cbn; auto 10.
  - exists d, sec. auto.
Qed.
