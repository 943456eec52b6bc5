(** * The parameters of a handshake, as the specification states them *)
From Verif Require Import Base Codec CodecSpec Str Hkdf HkdfSpec HkdfProofs KeySched KeySchedSpec KeySchedProofs Handshake HandshakeSpec Extensions
  ExtensionsSpec ExtensionsProofs RecordBase Record RecordRT
  ReadEvent HelloChecks Cookie Token Negotiate Ticket Kex Hpke Transcript IOBufUtil PropsIOBuf PropsCodec PropsHello PropsTicket
  EchConfirm Server ServerSpec ServerFacts ServerSteps ServerFlight ServerInv ServerPreserve.
Open Scope N_scope.

(** ** Negotiation *)
Lemma negotiate_preferred mine theirs v : negotiate mine theirs = Some v -> preferred mine theirs v.
Proof. intros H. pose proof (C29_flat mine theirs) as X. rewrite H in X. exact X. Qed.
Lemma negotiate_tier_preferred mine theirs v : negotiate_tiers mine theirs = Some v -> preferred_tier mine theirs v.
Proof. intros H. pose proof (C29_tiers mine theirs) as X. rewrite H in X. exact X. Qed.
Lemma noDup_groups : forall l seen, noDupGroups seen l = true -> NoDup (map fst l) /\ forall g, In g (map fst l) -> ~ In g seen.
Proof.
  induction l as [|[g b] l IH]; intros seen H; cbn [noDupGroups map fst] in *; [split; [constructor|intros g []]|].
  apply andb_true_iff in H. destruct H as [H1 H2]. apply IH in H2. destruct H2 as [N2 S2]. apply negb_true_iff in H1.
  assert (Hs : ~ In g seen).
  { intros Hin. unfold mem in H1. assert (existsb (N.eqb g) seen = true); [|congruence]. apply existsb_exists. exists g. split; [exact Hin|apply N.eqb_refl]. }
  split.
  - constructor; [|exact N2]. intros Hin. apply (S2 _ Hin). left. reflexivity.
  - intros x [<-|Hx]; [exact Hs|]. intros Hi. apply (S2 _ Hx). right. exact Hi.
Qed.
Lemma find_share g : forall l b, findShare g l = Some b -> In (g, b) l.
Proof.
  induction l as [|[g' b'] l IH]; intros b H; cbn [findShare] in H; [discriminate|].
  destruct (N.eqb_spec g' g) as [->|]; [injection H as <-; left; reflexivity|right; apply IH, H].
Qed.

(** ** Binders *)
Lemma blen_concat_opaque1 bs : blen (concat (map (opaque 1) bs)) = fold_right (fun b n => 1 + match b with Some x => blen x | None => 0 end + n) 0 bs.
Proof.
  induction bs as [|b bs IH]; [reflexivity|]. cbn [map concat fold_right]. rewrite blen_app, IH. unfold opaque, tls_vec. rewrite blen_app, be_blen.
  destruct b; cbn [bufbytes]; reflexivity.
Qed.
Lemma binder_length exts ids bs bl : NoDup (map ext_type exts) -> getBinderLength exts = Ok bl ->
  getExtension KClientPresharedKey exts = Ok (Some (XClientPresharedKey (ids, bs))) -> bl = binders_size bs.
Proof.
  intros HN HB HE. apply getExtension_strict in HE. destruct HE as (_ & Hw & Hf & pre & post & rest & -> & _ & Hr).
  specialize (Hr eq_refl). subst rest. rewrite app_nil_r in *. cbn [kind_type] in *.
  assert (Hp : post = []).
  { destruct post as [|y post _] using rev_ind; [reflexivity|]. exfalso.
    unfold getBinderLength in HB. rewrite rev_app_distr in HB. cbn [rev] in HB. rewrite rev_app_distr in HB. cbn [rev app] in HB.
    destruct (ext_type y =? 41) eqn:Ey; cbn [negb] in HB; [|discriminate]. apply N.eqb_eq in Ey.
    rewrite map_app in HN. cbn [map ext_type] in HN. apply NoDup_remove_2 in HN. apply HN. apply in_or_app. right. rewrite map_app. apply in_or_app. right.
    left. exact Ey. }
  subst post. unfold getBinderLength in HB. rewrite rev_app_distr in HB. cbn [rev app ext_type ext_data] in HB.
  change (41 =? 41) with true in HB. cbn [negb] in HB. cbn [w_xbody fst snd] in HB.
  unfold tls_list, tls_vec in HB. cbn [fit_x fst snd] in Hf. apply andb_true_iff in Hf. destruct Hf as [Hf1 Hf2].
  unfold fit_list in Hf1, Hf2. apply andb_true_iff in Hf1, Hf2. destruct Hf1 as [_ Hf1], Hf2 as [_ Hf2]. unfold fits_len in Hf1, Hf2. apply N.ltb_lt in Hf1, Hf2.
  rewrite <- !app_assoc in HB. rewrite read_be_app in HB by assumption. cbn [bind] in HB. rewrite take_app in HB.
  rewrite read_be_app in HB by assumption. cbn [bind] in HB. rewrite N.eqb_refl in HB. injection HB as <-. unfold binders_size. rewrite blen_concat_opaque1. reflexivity.
Qed.

(** ** What the transcript starts with *)
Lemma encode_message_hash_len d m : encodeHandshake (MMessageHash d) = Ok m -> exists x, blen x < 2 ^ 24 /\ d = Some x /\ m = message_hash x.
Proof.
  unfold encodeHandshake. intros H. bo H body E. destruct body as [body|]; [|discriminate]. bo H t Et. bo H l El. injection H as <-.
  apply write_len_inv in El. destruct El as [Hl ->]. injection Et as <-. cbn in E. injection E as ->. exists body.
  split; [|auto]. unfold fits_len in Hl. apply N.ltb_lt in Hl. exact Hl.
Qed.
Lemma awaiting_start e log s : awaiting e log s -> s_hctx s = None \/
  exists h d m b, blen d < 2 ^ 24 /\ encodeHandshake (MHelloRetryRequest m) = Ok b /\ s_hctx s = Some (mkHc h (message_hash d ++ b)).
Proof.
  intros [Hf|(log1 & s1 & w & c & orig & s2 & outs & W & r & Hf & Hh & Es & -> & HW & ->)]; [left; apply (fresh_hctx _ _ Hf)|].
  apply handle_hello_facts in Hh. destruct Hh as [d sni E1 E2 E3|n sid h k hc alpn skew ed early g HF Hm Eg Eg0 Eck HR|n sid h k hc alpn skew ed early kt group kex HF Hm HR].
  - subst s2. discriminate.
  - right. apply hello_retry_facts in HR. destruct HR as (h' & m & hrr0 & hrr & b & wl & ct & R1 & R2 & R3 & R4 & R5 & R6 & R7 & R8 & R9).
    apply encode_message_hash_len in R2. destruct R2 as (x & X1 & _ & ->). exists h', x, hrr, b. subst s2. auto.
  - exfalso. destruct HR as [(k2 & exts & random & sh0 & sh & rtry & bsh & hws & hwl & hrs & hrl & bee & reqExts & creq & scert & ccert & scheme & auth & hc4 & bfin & hc5 & enc & wl & ct & k3 & ems & k4 & aws & awl & F)].
    cbv zeta in F. decompose [and] F. clear F.
    match goal with H : _ \/ _ |- _ => destruct H as [(ets & erl & eexp & _ & _ & _ & [(_ & E)|(_ & E)])|(_ & _ & E)] end;
      subst s2; cbn in Es; try discriminate.
    match type of Es with (if ?q then _ else _) = _ => destruct q; discriminate end.
Qed.

(** ** From the handler's facts to the specification *)
Definition kex_of (group : option N) (cs : bytes) (kex : option (bytes * bytes)) : option (N * bytes * bytes * bytes) :=
  match group, kex with Some g, Some (b, dh) => Some (g, cs, b, dh) | _, _ => None end.
Lemma params_exist e log s w c orig s2 outs : env_ok e -> awaiting e log s -> handle_hello e w s c orig = Ok (s2, outs) ->
  s_state s2 <> SExpectingClientHello -> s_state s2 <> SError ->
  forall n sid h k hc alpn skew ed early kt group kex sh fl pre cs post,
    hello_facts e w s c orig n sid h k hc alpn skew ed early ->
    ((n_pskMode n = Some 0 /\ kt = KexNone /\ group = None /\ kex = None) \/
     (n_pskMode n <> Some 0 /\ exists g cs kx, negotiateGroup e (n_hello n) = Ok (g, Some cs) /\ w_kex w g cs = Ok kx /\
        group = Some g /\ kex = Some kx /\ kt = match s_kexType s with Some t => t | None => KexOneRtt end)) ->
    flight_ok e log w c orig s2 outs n ed kex h (hc_data hc) sh fl ->
    (exists m, encodeHandshake (MServerHello m) = Ok sh /\
       hello_says m (n_version n) (n_cipher n) (match group, kex with Some g, Some (b, _) => Some (g, b) | _, _ => None end)
         (match n_res n with Some _ => true | None => false end) /\ hello_form w m) ->
    outs = pre ++ OWrite cs :: post -> flight cs sh fl ->
    exists P, handshake_of e log w c orig cs P /\
      p_hello P = n_hello n /\ p_enc P = n_orig n /\ p_T P = hc_data hc /\ p_version P = n_version n /\ p_cipher P = n_cipher n /\ p_hash P = h /\
      p_sh P = sh /\ p_fl P = fl /\ p_psk P = psk_of h (n_res n) /\ p_dh P = dh_of h kex /\
      (match p_kex P with Some (g, _, _, _) => group = Some g | None => group = None end) /\
      (match p_ticket P with Some (_, pt, r) => n_res n = Some r /\ n_pskType n = pt | None => n_res n = None end).
Proof.
  intros He Ha Hh N1 N2 n sid h k hc alpn skew ed early kt group kex sh fl pre cs post HF Hm FO Hsay Ho Hfl.
  pose proof (hf_neg _ _ _ _ _ _ _ _ _ _ _ _ _ _ HF) as HN. pose proof (hf_setup _ _ _ _ _ _ _ _ _ _ _ _ _ _ HF) as [Eh (hc0 & S1 & S2 & S3)].
  pose proof (eo_hash e He _ _ Eh) as Hok.
  assert (Htr : hc_hash hc = h) by (eapply hello_transcript; [exact HF|]; apply awaiting_hctx; [exact Ha|];
    intros ci Hci; rewrite <- (nf_samecipher _ _ _ _ _ _ HN _ Hci); exact Eh).
  assert (Hkx : exists theirs, match kex_of group theirs kex with
     | Some (g, th, ours, dh) =>
        (exists gs, getExtension KSupportedGroups (ch_extensions (n_hello n)) = Ok (Some (XSupportedGroups gs)) /\ preferred (e_groups e) gs g) /\
        (exists l, getExtension KClientKeyShare (ch_extensions (n_hello n)) = Ok (Some (XClientKeyShare l)) /\ In (g, Some th) l /\ NoDup (map fst l)) /\
        w_kex w g th = Ok (ours, dh) /\ group = Some g /\ kex = Some (ours, dh)
     | None => n_pskMode n = Some 0 /\ group = None /\ kex = None
     end).
  { destruct Hm as [(M1 & _ & -> & ->)|(_ & g & th & [ours dh] & Hg & Hk & -> & -> & _)]; [exists []; cbn; auto|].
    exists th. cbn [kex_of]. unfold negotiateGroup in Hg. bo Hg x Ex. destruct x as [[]|]; try discriminate.
    destruct (negotiate (e_groups e) l) as [g'|] eqn:En; [|discriminate]. bo Hg y Ey. destruct y as [[]|]; try discriminate.
    bo Hg u Eu. apply ensure_ok in Eu. destruct (findShare g' l0) as [b|] eqn:Ef; [|discriminate]. bo Hg d Ed. apply deref_ok in Ed. injection Hg as -> ->. subst b.
    split; [exists l; split; [exact Ex|apply negotiate_preferred, En]|].
    split; [exists l0; split; [exact Ey|]; split; [apply find_share, Ef|apply (noDup_groups _ _ Eu)]|]. auto. }
  destruct Hkx as (theirs & Hkx).
  assert (Htk : exists tk, match tk with
    | Some (id, pt, r) => n_res n = Some r /\ n_pskType n = pt /\
        (exists ids bs age, getExtension KClientPresharedKey (ch_extensions (n_hello n)) = Ok (Some (XClientPresharedKey (ids, bs))) /\
           hd_error ids = Some (Some id, age) /\ binder_ok h pt (psk_of h (n_res n)) (hc_data hc) (n_orig n) bs) /\
        e_ticketCipher e = true /\ w_ticketDecrypt w id = Ok (pt, Some r) /\ rs_secret r = Some (psk_of h (n_res n)) /\
        rs_version r = n_version n /\ same_hash (rs_cipher r) (n_cipher n) /\
        (exists ms md, getExtension KPskKeyExchangeModes (ch_extensions (n_hello n)) = Ok (Some (XPskKeyExchangeModes ms)) /\
           preferred (e_pskModes e) ms md /\ n_pskMode n = Some md)
    | None => n_res n = None
    end).
  { destruct (n_res n) as [r|] eqn:En; [|exists None; reflexivity].
    pose proof (nf_psk _ _ _ _ _ _ HN) as Hp. rewrite En in Hp. destruct Hp as (id & md & age & pt & Q1 & Q2 & Q3 & Q4 & Q5 & Q6).
    exists (Some (id, pt, r)). split; [reflexivity|]. split; [exact Q5|].
    destruct S3 as (psk & bk & bl & ids & b & bs & expected & T1 & T2 & T3 & T4 & T5 & T6 & T7 & T8).
    unfold resumptionQuery in Q1. rewrite T6 in Q1. cbn [bind] in Q1. bo Q1 m Em.
    destruct m as [m|]; [|discriminate]. destruct m; try discriminate.
    destruct ids as [|[idb ag] ids]; [discriminate|]. destruct (e_ticketCipher e) eqn:Etc; [|discriminate]. cbn [negb] in Q1.
    destruct (negotiate (e_pskModes e) l) as [md'|] eqn:Emd; [|discriminate]. bo Q1 i Ei. apply deref_ok in Ei. injection Q1 as -> -> ->. subst idb.
    assert (Hpsk : psk_of h (Some r) = psk) by (cbn; rewrite T1; reflexivity).
    split.
    { exists ((Some id, age) :: ids), (Some b :: bs), age. split; [exact T6|]. split; [reflexivity|].
      apply C19_equal_iff in T8. subst b.
      assert (Hbl : bl = binders_size (Some expected :: bs)).
      { eapply binder_length; [|exact T4|exact T6]. pose proof (nf_valid _ _ _ _ _ _ HN) as V. unfold validateClientHello in V.
        destruct (ch_compression (n_hello n)) as [|[|?] [|? ?]]; try discriminate. pose proof (C31_duplicates (ch_extensions (n_hello n))) as [_ D].
        assert (Dec : NoDup (map ext_type (ch_extensions (n_hello n))) \/ ~ NoDup (map ext_type (ch_extensions (n_hello n)))).
        { destruct (ListDec.NoDup_dec N.eq_dec (map ext_type (ch_extensions (n_hello n)))); auto. }
        destruct Dec as [Y|Y]; [exact Y|]. rewrite (D Y) in V. discriminate. }
      assert (Hh0 : hc_hash hc0 = h) by (rewrite S2 in Htr; exact Htr).
      exists (hc_data hc0), (takeN (blen (n_orig n) - bl) (n_orig n)), (dropN (blen (n_orig n) - bl) (n_orig n)), expected.
      split; [rewrite S2; reflexivity|]. split; [symmetry; apply takeN_dropN|].
      split. { pose proof (f_equal blen (takeN_dropN (blen (n_orig n) - bl) (n_orig n))) as HL. rewrite blen_app, blen_takeN in HL. rewrite <- Hbl. lia. }
      split; [reflexivity|].
      destruct (kdo_rel _ _ _ (DeriveEarly psk) _ Hok (rel_init h) Logic.I T2) as (st' & o & E & Hk). cbn [spec_step] in E. injection E as <- <-.
      rewrite Hh0 in T3. rewrite (ho_blank _ Hok) in T3.
      assert (Lb : forall kd, op_ok h (GetEarly kd (h_fn h []))) by (intros; cbn [op_ok]; apply (ho_digest _ Hok)).
      destruct (kget_rel _ _ _ _ _ Hok Hk (Lb _) T3) as (st & E). cbn [spec_step] in E.
      assert (Ebk : bk = binder_key h pt (psk_of h (Some r))).
      { rewrite Hpsk. unfold binder_key. rewrite Q5 in E. destruct pt; cbn [early_spec] in E; congruence. }
      rewrite finished_ok in T7; cbn [hc_append hc_hash hc_data] in *; rewrite ?Hh0 in *; [|exact Hok|rewrite Ebk; apply DeriveSecret_len, Hok].
      rewrite Ebk in T7. congruence. }
    split; [reflexivity|]. split; [exact Q4|]. split; [rewrite Hpsk; exact T1|].
    unfold validateResumption in Q6. destruct (N.eqb_spec (rs_version r) (n_version n)) as [Hv|]; cbn [negb] in Q6; [|discriminate].
    split; [exact Hv|]. bo Q6 a Ea. bo Q6 b' Eb. assert (Eab : a =? b' = true) by congruence. apply N.eqb_eq in Eab. subst b'.
    split; [exists a; auto|]. exists l, md. split; [exact Em|]. split; [apply negotiate_preferred, Emd|exact Q2]. }
  destruct Htk as (tk & Htk).
  set (P := mkParams (n_hello n) (n_orig n) (hc_data hc) (n_version n) (n_cipher n) h (kex_of group theirs kex) tk sh fl).
  assert (Ppsk : p_psk P = psk_of h (n_res n)).
  { unfold p_psk, P. cbn [p_ticket p_hash]. destruct tk as [[[id pt] r]|]; [destruct Htk as [-> _]; reflexivity|rewrite Htk; reflexivity]. }
  assert (Pdh : p_dh P = dh_of h kex).
  { unfold p_dh, P. cbn [p_kex p_hash]. destruct (kex_of group theirs kex) as [[[[g th] ours] dh]|].
    - destruct Hkx as (_ & _ & _ & _ & ->). reflexivity.
    - destruct Hkx as (_ & _ & ->). reflexivity. }
  exists P. split; [constructor|]; cbn [P p_hello p_enc p_T p_version p_cipher p_hash p_sh p_fl p_ticket p_kex].
  - eapply processECH_taken, (nf_ech _ _ _ _ _ _ HN).
  - exact Eh.
  - apply FO.
  - rewrite S2. unfold hc_append. cbn [hc_data]. destruct (n_cookie n) as [ck|].
    + destruct S1 as (m & b & hrr & K1 & K2 & K3 & ->). right. apply encode_message_hash_len in K1. destruct K1 as (x & X1 & _ & ->).
      unfold getStatelessHrr in K3. bo K3 e1 Y1. bo K3 es Y2. bo K3 e2 Y3. exists x. eexists. exists hrr. split; [exact X1|]. split; [exact K3|].
      cbn [hc_data]. apply (eq_sym (app_assoc _ _ _)).
    + destruct (awaiting_start _ _ _ Ha) as [E|(h0 & d & m & b & X1 & X2 & E)]; rewrite E in S1; subst hc0; [left; reflexivity|right].
      exists d, m, b. split; [exact X1|]. split; [exact X2|]. cbn [hc_data]. apply (eq_sym (app_assoc _ _ _)).
  - exact Hfl.
  - destruct Hsay as (m & M1 & M2 & M3). exists m. split; [exact M1|]. split; [|exact M3].
    assert (E1 : match kex_of group theirs kex with Some (g, _, b, _) => Some (g, b) | None => None end =
                 match group, kex with Some g, Some (b, _) => Some (g, b) | _, _ => None end) by (destruct group, kex as [[? ?]|]; reflexivity).
    assert (E2 : match tk with Some _ => true | None => false end = match n_res n with Some _ => true | None => false end).
    { destruct tk as [[[id pt] r]|]; [destruct Htk as [-> _]; reflexivity|rewrite Htk; reflexivity]. }
    rewrite E1, E2. exact M2.
  - destruct (fo_fin _ _ _ _ _ _ _ _ _ _ _ _ _ _ FO) as (pr & X). exists pr. rewrite Ppsk, Pdh. unfold p_Tsh. cbn [P p_T p_sh]. rewrite <- app_assoc. exact X.
  - pose proof (nf_version _ _ _ _ _ _ HN) as V. unfold negotiateVersion in V. bo V x Ex. destruct x as [[]|]; try discriminate.
    exists l. split; [exact Ex|]. apply negotiate_preferred. congruence.
  - apply negotiate_tier_preferred, (nf_cipher _ _ _ _ _ _ HN).
  - destruct (kex_of group theirs kex) as [[[[g th] ours] dh]|].
    + destruct Hkx as (A & B & C & _). auto.
    + destruct Hkx as (A & _). destruct tk as [[[id pt] r]|].
      * split; [discriminate|]. destruct Htk as (_ & _ & _ & _ & _ & _ & _ & _ & ms & md & B & C & D). exists ms. split; [exact B|].
        assert (md = 0) as -> by congruence. exact C.
      * pose proof (nf_psk _ _ _ _ _ _ HN) as Hp. rewrite Htk in Hp. congruence.
  - destruct tk as [[[id pt] r]|]; [|exact Logic.I]. rewrite Ppsk. destruct Htk as (_ & _ & A & B & C & D & E & F & ms & md & G1 & G2 & _).
    split; [exact A|]. split; [exact B|]. split; [exact C|]. split; [exact D|]. split; [exact E|]. split; [exact F|]. exists ms, md. auto.
  - split; [reflexivity|]. split; [reflexivity|]. split; [reflexivity|]. split; [reflexivity|]. split; [reflexivity|]. split; [reflexivity|].
    split; [reflexivity|]. split; [reflexivity|]. split; [exact Ppsk|]. split; [exact Pdh|]. split.
    + destruct (kex_of group theirs kex) as [[[[g th] ours] dh]|]; [destruct Hkx as (_ & _ & _ & X & _); exact X|apply Hkx].
    + destruct tk as [[[id pt] r]|]; [split; apply Htk|exact Htk].
Qed.

(** ** The parameters of a connection past its ClientHello *)
Record same_params (H : hist) (P : params) : Prop := mkSP {
  sp_hello : p_hello P = n_hello (i_n H); sp_enc : p_enc P = n_orig (i_n H); sp_version : p_version P = n_version (i_n H);
  sp_cipher : p_cipher P = i_cipher H; sp_hash : p_hash P = i_h H; sp_psk : p_psk P = i_psk H; sp_dh : p_dh P = i_dh H;
  sp_T : p_T P = i_tch H; sp_Tsh : p_Tsh P = i_tsh H; sp_Tsf : p_Tsf P = i_tsf H; sp_sh : p_sh P = i_sh H; sp_fl : p_fl P = i_fl H;
  sp_ticket : match p_ticket P with Some (_, _, r) => n_res (i_n H) = Some r | None => n_res (i_n H) = None end;
  sp_psktype : match p_ticket P with Some (_, pt, _) => n_pskType (i_n H) = pt | None => True end;
  sp_group : s_group (i_s2 H) = match p_kex P with Some (g, _, _, _) => Some g | None => None end;
  sp_retry : forall p, s_group (i_s1 H) = Some p -> exists th b dh, p_kex P = Some (p, th, b, dh) }.
Lemma past_params e log s H L : env_ok e -> past e log s H L -> exists P pre cs post,
  i_outs H = pre ++ OWrite cs :: post /\ flight cs (i_sh H) (i_fl H) /\ (post = [] /\ i_ed H <> EdAccepted \/ post = [OEarlySuccess] /\ i_ed H = EdAccepted) /\
  handshake_of e (i_log H) (i_w H) (i_c H) (i_orig H) cs P /\ same_params H P.
Proof.
  intros He [P1 P2 P3 (sid & k & hc & alpn & skew & early & kt & group & F1 & F2 & F3 & F4 & F5) P5 P6].
  assert (N : s_state (i_s2 H) <> SExpectingClientHello /\ s_state (i_s2 H) <> SError).
  { pose proof (fo_read _ _ _ _ _ _ _ _ _ _ _ _ _ _ P3) as R. destruct (s_state (i_s2 H)); try contradiction; split; discriminate. }
  pose proof P3 as P3'. rewrite <- F4 in P3'.
  destruct (fo_outs _ _ _ _ _ _ _ _ _ _ _ _ _ _ P3) as (pre & cs & post & Ho & Hfl & Hpp). cbv zeta in Ho.
  match type of Ho with _ = pre ++ [?a; ?b; ?c; OWrite cs] ++ post => assert (Ho' : i_outs H = (pre ++ [a; b; c]) ++ OWrite cs :: post)
    by (rewrite Ho, <- app_assoc; reflexivity); set (pre' := pre ++ [a; b; c]) in * end. clearbody pre'.
  destruct (params_exist e _ _ _ _ _ _ _ He P1 P2 (proj1 N) (proj2 N) _ _ _ _ _ _ _ _ _ _ _ _ _ _ _ _ _ F1 F2 P3' F5 Ho' Hfl)
    as (P & HP & Q1 & Q2 & Q3 & Q4 & Q5 & Q6 & Q7 & Q8 & Q9 & Q10 & Q11 & Q12).
  exists P, pre', cs, post. split; [exact Ho'|]. split; [exact Hfl|]. split; [tauto|]. split; [exact HP|].
  rewrite F4 in Q3. constructor; try assumption.
  - unfold p_Tsh, i_tsh. rewrite Q3, Q7. reflexivity.
  - unfold p_Tsf, i_tsf. rewrite Q3, Q7, Q8. reflexivity.
  - destruct (p_ticket P) as [[[id pt] r]|]; [apply Q12|exact Q12].
  - destruct (p_ticket P) as [[[id pt] r]|]; [apply Q12|exact Logic.I].
  - assert (Hgr : s_group (i_s2 H) = group).
    { destruct F3 as [(k2 & exts & random & sh0 & sh & rtry & bsh & hws & hwl & hrs & hrl & bee & reqExts & creq & scert & ccert & scheme & auth & hc4 & bfin & hc5 & enc & wl & ct & k3 & ems & k4 & aws & awl & F)].
      cbv zeta in F. decompose [and] F. clear F.
      match goal with X : _ \/ _ |- _ => destruct X as [(ets & erl & eexp & _ & _ & _ & [(_ & E)|(_ & E)])|(_ & _ & E)] end; rewrite E; reflexivity. }
    rewrite Hgr. destruct (p_kex P) as [[[[g th] b] dh]|]; exact Q11.
  - intros p Ep. destruct F3 as [(k2 & exts & random & sh0 & sh & rtry & bsh & hws & hwl & hrs & hrl & bee & reqExts & creq & scert & ccert & scheme & auth & hc4 & bfin & hc5 & enc & wl & ct & k3 & ems & k4 & aws & awl & F)].
    cbv zeta in F. destruct F as (_ & _ & F & _). rewrite Ep in F. rewrite F in Q11. destruct (p_kex P) as [[[[g th] b] dh]|]; [|discriminate].
    injection Q11 as <-. eauto.
Qed.
Lemma past_handshake e log s H L : env_ok e -> past e log s H L -> exists P post,
  handshake e log P (post ++ L) /\ (post = [] /\ i_ed H <> EdAccepted \/ post = [Emit OEarlySuccess] /\ i_ed H = EdAccepted) /\ same_params H P.
Proof.
  intros He P. destruct (past_params _ _ _ _ _ He P) as (PP & pre & cs & post & Ho & Hfl & Hpp & HH & SP).
  exists PP, (map Emit post). split; [|split; [|exact SP]].
  - exists (i_log H), (i_w H), (i_c H), (i_orig H), pre, cs. split; [|exact HH].
    rewrite (pa_log _ _ _ _ _ P). unfold hello_log. rewrite Ho, map_app. cbn [map app]. rewrite <- !app_assoc. reflexivity.
  - destruct Hpp as [(-> & ?)|(-> & ?)]; [left|right]; auto.
Qed.
