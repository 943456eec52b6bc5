(** * C36: early data that was not accepted *)
From Verif Require Import Base Codec CodecSpec Str Hkdf HkdfSpec HkdfProofs KeySched KeySchedSpec KeySchedProofs Handshake HandshakeSpec Extensions
  ExtensionsSpec ExtensionsProofs RecordBase RecordSpec Record RecordProofs RecordRT PropsRecord PropsHpke2
  ReadEvent ReadEventProofs HelloChecks Cookie Token Negotiate Ticket Kex Hpke Transcript IOBufUtil PropsIOBuf PropsCodec
  EchConfirm Server ServerSpec ServerFacts ServerSteps ServerFlight ServerInv ServerPreserve ServerParams ServerOrigin ServerSpec2 PropsEch
  PropsServer PropsServer2 PropsServer3 PropsServer4 ServerSpec3 PropsServer6.
Open Scope N_scope.

(** A record that is well-formed for the protected record layer but does not open as the first one under [a]; the additional data is
    the record header, except in draft 23, which had none. *)
Definition record_ad (version : N) (r : rawrec) : option bytes :=
  if (version =? 0x7f17) || (version =? 0xfb17) then None else Some (takeN 5 (raw_frame r)).
Record undecryptable (a : aead) (version : N) (r : rawrec) : Prop := mkUndec {
  ud_ok : raw_ok r;
  ud_len : 0 < blen (rr_body r) <= 16640;
  ud_type : rr_ty r <> 20 /\ ~ (rr_ty r = 21 /\ blen (rr_body r) = 2);
  ud_fails : ae_try a (rr_body r) (record_ad version r) 0 = Ok None }.
(** The connection ends with the error decode_error. *)
Definition refused (x : sstate * list out) : Prop :=
  (s_state (fst x) = SError /\ In (OError (Some 50)) (snd x)) \/ s_state (fst x) = SCrash.

Lemma layer_read_shorter l b l' b' m : layer_read l b = RMsg l' b' m -> (length b' < length b)%nat.
Proof.
  intros H. assert (G : forall s b, match read_of layer_iter s b with RMsg _ b' _ => (length b' < length b)%nat | _ => True end).
  { intros s0 b0. pattern s0, b0, (read_of layer_iter s0 b0). apply (read_of_ind _ layer_iter_laws); auto.
    - intros s b1 s' b0' E. destruct (read_of layer_iter s' b0'); auto. apply (il_cont _ layer_iter_laws) in E. lia.
    - intros s b1 s' b0' m0 E. apply (il_msg _ layer_iter_laws) in E. lia. }
  specialize (G l b). unfold layer_read in H. rewrite H in G. exact G.
Qed.
Lemma ev_fuel : forall f1 f2 u l b, (length b < f1)%nat -> (length b < f2)%nat -> ev_loop f1 u l b = ev_loop f2 u l b.
Proof.
  induction f1; intros f2 u l b H1 H2; [lia|]. destruct f2; [lia|]. cbn [ev_loop].
  destruct (layer_read l b) eqn:E; try reflexivity. pose proof (layer_read_shorter _ _ _ _ _ E).
  destruct (_ && _); [reflexivity|]. destruct (m_type m =? ct_alert); [reflexivity|].
  destruct (m_type m =? ct_handshake); [|reflexivity].
  destruct (decode_hs _) as [[[[? ?] ?]|]|]; try reflexivity. apply IHf1; lia.
Qed.
Lemma event_skip l c x : layer_read l (c ++ x) = layer_read l x -> read_event (mkEv [] l) (c ++ x) = read_event (mkEv [] l) x.
Proof.
  intros E. cbn [read_event ev_unparsed ev_layer]. rewrite (ev_fuel _ (S (length (c ++ x))) [] l x) by (rewrite ?app_length; lia).
  cbn [ev_loop]. rewrite E. reflexivity.
Qed.
Lemma event_err l b er : layer_read l b = RErr er -> read_event (mkEv [] l) b = RErr er.
Proof. intros E. cbn [read_event ev_unparsed ev_layer ev_loop]. rewrite E. reflexivity. Qed.
Lemma socket_same e w s r b c : s_read s = Some r -> read_event r b = read_event r c -> sstep e w s (ISocket b) = sstep e w s (ISocket c).
Proof.
  intros E1 E2. unfold sstep, process_socket. rewrite E1, E2. destruct (s_state s); try reflexivity; destruct (read_event r c) as [? ? ?|? ? ?|er]; try reflexivity;
    try (destruct (process_event _ _ _ _); reflexivity); destruct er as [[]| | | |]; try reflexivity; destruct (handle_error _ _); reflexivity.
Qed.
Lemma socket_refused e w s r b : s_read s = Some r -> read_event r b = RErr (EStatus None) -> s_state s <> SError -> s_state s <> SCrash ->
  refused (sstep e w s (ISocket b)).
Proof.
  intros E1 E2 N1 N2. unfold sstep, process_socket. rewrite E1, E2.
  assert (G : refused (let '(s', l) := handle_error s (Some al_decode_error) in (s', l))).
  { unfold handle_error. destruct (s_write s) as [wl|].
    - destruct (snd (wl_write wl 21 [alert_bytes al_decode_error])) as [ct|er]; [|destruct er];
        destruct (s_state s); try congruence; first [left; split; [reflexivity|cbn; auto; fail]|right; reflexivity].
    - destruct (s_state s); try congruence; left; split; try reflexivity; left; reflexivity. }
  destruct (s_state s) eqn:Es; try congruence; destruct (handle_error s (Some al_decode_error)); exact G.
Qed.

Lemma version_ad v rv : real_draft_version v = Ok rv -> negb (rv =? 32535) = negb ((v =? 0x7f17) || (v =? 0xfb17)).
Proof.
  intros H. destruct (real_draft_cases v) as [(_ & rv' & E & I1)|(_ & E)]; [|congruence]. assert (rv' = rv) as -> by congruence. f_equal.
  unfold old_draft in I1. apply Bool.eq_iff_eq_true. rewrite orb_true_iff, !N.eqb_eq. exact I1.
Qed.
(** A step that writes a flight or a HelloRetryRequest is the handling of a ClientHello. *)
Lemma step_acts e l s L0 w b s' outs pre cs post : env_ok e -> reach e l s L0 -> sstep e w s (ISocket b) = (s', outs) -> outs = pre ++ OWrite cs :: post ->
  (exists r' ev, acts e L0 w (upd_read s (Some r')) (SvRead ev) s' outs /\ received w s (ISocket b) = [Recv w ev]) \/ exists ct, cs = [ct] /\ ct_type ct = 21.
Proof.
  intros He Hr Hs Ho. pose proof (reach_phase _ _ _ _ He Hr) as HP. apply sstep_cases in Hs.
  destruct Hs as [ev R1 R2 R0 R3|r b0 r' b' x R1 R2 R3 R4 R5|r b0 r' b' hint R1 R2 R3 R4 R5 R6|R1 R2 R3 R4 R5 R6|R1 R2 R3 R4|R1 R2|R1 R2 R3 R4 R5|wl R1 R2 R3 R4 R5].
  - discriminate.
  - left. exists r', x. split; [|exact R4]. apply hstep_acts; [exact He| |exact R5].
    rewrite <- (app_nil_r L0). eapply phase_read; [exact HP|exact R2|rewrite R3; reflexivity|reflexivity].
  - rewrite Ho in R6. destruct pre as [|? [|? ?]]; discriminate.
  - rewrite Ho in R6. right. destruct R6 as [E|(a & [E|(d & ct & wl & _ & _ & Ec & E)])].
    + destruct pre; discriminate.
    + destruct pre as [|? [|? ?]]; discriminate.
    + destruct pre as [|? [|? [|? ?]]]; try discriminate. injection E as -> _. exists ct. split; [reflexivity|]. rewrite Ec. reflexivity.
  - rewrite Ho in R4. destruct pre; discriminate.
  - rewrite Ho in R2. destruct pre; discriminate.
  - destruct R2; discriminate.
  - destruct R2; discriminate.
Qed.
Lemma in_split_out cs (outs : list out) : In (OWrite cs) outs -> exists pre post, outs = pre ++ OWrite cs :: post.
Proof. apply in_split. Qed.

(** Early data that was offered but not accepted is skipped: while the client's records do not open under the handshake key they have
    no effect whatsoever.  If none was offered, such a record is an error. *)
Theorem C36_rejected_skipped e l s L0 w b s' outs cs sh fl : env_ok e -> reach e l s L0 -> sstep e w s (ISocket b) = (s', outs) ->
  In (OWrite cs) outs -> flight cs sh fl -> ~ In OEarlySuccess outs ->
  exists c orig P a, received w s (ISocket b) = [Recv w (EvHandshake (MClientHello c) orig)] /\ handshake_of e L0 w c orig cs P /\
    keyed e (p_hash P) (p_cipher P) (client_hs_secret (p_hash P) (p_psk P) (p_dh P) (p_Tsh P)) a /\
    (early_offered (p_hello P) -> forall w' rs x, Forall (undecryptable a (p_version P)) rs ->
       sstep e w' s' (ISocket (concat (map raw_frame rs) ++ x)) = sstep e w' s' (ISocket x)) /\
    (~ early_offered (p_hello P) -> forall w' r x, undecryptable a (p_version P) r -> refused (sstep e w' s' (ISocket (raw_frame r ++ x)))).
Proof.
  intros He Hr Hs Hin Hf Hn. destruct (in_split_out _ _ Hin) as (pre & post & Ho).
  destruct (step_acts _ _ _ _ _ _ _ _ _ _ _ He Hr Hs Ho) as [(r' & ev & HA & Hrc)|(ct & -> & _)].
  2:{ destruct (not_flight _ _ _ Hf). }
  rewrite Ho in HA. pose proof HA as HA0.
  destruct (acts_write _ _ _ _ _ _ _ _ _ HA) as [(c & orig & ct & sid & _ & _ & _ & -> & _)|[(c & orig & H & Eev & HF & Hf2)|(ct & -> & _)]].
  1:{ destruct (retry_not_flight _ _ _ _ Hf). }
  2:{ destruct (not_flight _ _ _ Hf). }
  destruct HF as (A0 & A1 & A2 & A3 & A4 & A5 & A6 & A7 & A8). injection Eev as ->.
  assert (HI : exists H', past e (L0 ++ hello_log w c orig outs) s' H' [] /\ hs_inv e (L0 ++ hello_log w c orig outs) s' H' [] /\
     i_log H' = L0 /\ i_w H' = w /\ i_c H' = c /\ i_orig H' = orig /\ i_s2 H' = s' /\ i_outs H' = outs).
  { rewrite <- Ho in HA0. remember (SvRead (EvHandshake (MClientHello c) orig)) as sv eqn:Esv. destruct HA0; try discriminate Esv.
    - destruct pre as [|? [|? ?]]; discriminate.
    - exfalso. rewrite H4 in Ho. destruct pre as [|? [|? ?]]; try discriminate. assert (cs = ct :: ccs_if sid) as -> by (cbn [app] in Ho; congruence). destruct (retry_not_flight _ _ _ _ Hf).
    - injection Esv as -> ->. exists H0. auto 10.
    - exfalso. injection Esv as -> ->. destruct H0 as [H0|[(x & H0)|(x & H0)]]; discriminate. }
  clear H A0 A1 A2 A3 A4 A5 A6 A7 A8 Hf2 HA HA0. destruct HI as (H & A1 & AI & A2 & A4 & A5 & A6 & A7 & A8).
  destruct (past_answer _ _ _ _ _ He A1) as (P & pre' & cs' & post' & o & alpn & scert & scheme & Ho' & Hfl & Hpo & HO & SP & AN & _).
  assert (Hna : i_ed H <> EdAccepted).
  { intros E. rewrite E in Hpo. cbn in Hpo. apply Hn. rewrite <- A8, Ho', Hpo. apply in_or_app. right. right. left. reflexivity. }
  destruct (pa_facts _ _ _ _ _ A1) as (sid & k & hc & alpn' & skew & early & kt & group & HF & _ & HFF & _).
  pose proof (hf_ed _ _ _ _ _ _ _ _ _ _ _ _ _ _ HF) as Hed. pose proof Hed as Hed'. unfold negotiateEarly in Hed'. bo Hed' oo Eo. clear Hed'.
  destruct (early_iff _ _ _ _ _ _ _ _ _ _ _ _ _ Hed Eo) as [I1 _]. destruct (earlyOffered_iff _ _ Eo) as [O1 _].
  destruct HFF as [(k2 & exts & random & sh0 & sh1 & rtry & bsh & hws & hwl & hrs & hrl & bee & reqExts & creq & scert' & ccert & scheme' & auth & hc4 & bfin & hc5 & enc & wl & ct & k3 & ems & k4 & aws & awl & F)].
  cbv zeta in F. destruct F as (F1 & F2 & F3 & F4 & F5 & F6 & F7 & F8 & F9 & F10 & F11 & F12 & F13 & F14 & F15 & F16 & F17 & F18 & F19 & F20 & F21 & F22 & F23 & F24 & F25 & F26).
  destruct F26 as [(ets & erl & eexp & X & _)|(_ & Eouts & Es')]; [contradiction|]. rewrite A7 in Es'.
  assert (Hrd : s_read s' = Some hrl) by (rewrite Es'; reflexivity).
  assert (Hst : s_state s' = SExpectingCertificate \/ s_state s' = SExpectingFinished).
  { rewrite Es'. cbn [s_state]. match goal with |- (if ?q then _ else _) = _ \/ _ => destruct q; auto end. }
  clear Es'. pose proof (hi_state _ _ _ _ _ AI) as HS.
  assert (HK : read_keyed e (i_h H) (i_cipher H) (i_chs H) (s_read s')).
  { destruct Hst as [E|E]; rewrite E in HS; tauto. }
  unfold new_read in F13. bo F13 rv Erv. bo F13 a Ea. injection F13 as <-. rewrite Hrd in HK. destruct HK as (u & es & [= <- <-] & HK). cbn [es_aead] in HK.
  assert (Hpr : forall r x, undecryptable a (p_version P) r ->
      enc_read (mkE 0 (match i_ed H with EdRejected => true | _ => false end) (negb (rv =? 32535)) a) (raw_frame r ++ x) =
      if (match i_ed H with EdRejected => true | _ => false end) then enc_read (mkE 0 true (negb (rv =? 32535)) a) x else RErr (EStatus None)).
  { intros r x [U1 U2 (U3 & U4) U5]. rewrite C10_undecryptable; try assumption; try lia.
    - cbn [es_skip]. destruct (i_ed H); reflexivity.
    - cbn [es_seq]. reflexivity.
    - cbn [es_aead es_seq]. unfold ad_of. cbn [es_ad]. rewrite (version_ad _ _ Erv), <- (sp_version _ _ SP). unfold record_ad in U5.
      rewrite <- (app_nil_r (raw_frame r)) in U5. unfold raw_frame in U5. rewrite frame_head in U5.
      destruct ((p_version P =? 32535) || (p_version P =? 64279)); cbn [negb]; exact U5. }
  rewrite A2, A4, A5, A6 in HO. 
  assert (cs' = cs) as ->.
  { apply (f_equal (filter (fun o => match o with OWrite _ => true | _ => false end))) in Eouts. cbn [filter app] in Eouts.
    pose proof Eouts as Eouts'. rewrite Ho' in Eouts. rewrite A8, Ho in Eouts'. rewrite filter_app in Eouts, Eouts'. cbn [filter] in Eouts, Eouts'.
    destruct (filter _ pre) as [|? [|? ?]]; try discriminate. destruct (filter _ pre') as [|? [|? ?]]; try discriminate. cbn [app] in Eouts, Eouts'. congruence. }
  exists c, orig, P, a. split; [exact Hrc|]. split; [exact HO|].
  split. { rewrite (sp_hash _ _ SP), (sp_cipher _ _ SP), (sp_psk _ _ SP), (sp_dh _ _ SP), (sp_Tsh _ _ SP). exact HK. }
  rewrite (sp_hello _ _ SP). split.
  - intros Hof w' rs x HU. assert (Ei : i_ed H = EdRejected).
    { destruct (i_ed H); try reflexivity; [|contradiction]. apply O1 in Hof. destruct I1 as [I1 _]. specialize (I1 eq_refl). congruence. }
    rewrite Ei in Hpr, Hrd. eapply socket_same; [exact Hrd|]. apply event_skip. rewrite !layer_read_enc. f_equal.
    induction HU as [|r rs Hu HU IH]; [reflexivity|]. cbn [map concat]. rewrite <- app_assoc, Hpr by exact Hu. exact IH.
  - intros Hof w' r x HU. assert (Ei : i_ed H = EdNotAttempted).
    { apply I1. destruct oo; [|reflexivity]. exfalso. apply Hof, O1. reflexivity. }
    rewrite Ei in Hpr, Hrd. eapply socket_refused; [exact Hrd| | |]; try (destruct Hst; congruence).
    apply event_err. rewrite layer_read_enc, Hpr by exact HU. reflexivity.
Qed.
Print Assumptions C36_rejected_skipped.

(** After a HelloRetryRequest the protected records of early data offered with the first ClientHello are skipped, whatever they contain;
    if none was offered they are an error. *)
Theorem C36_retry_skipped e l s L0 w b s' outs cs bb : env_ok e -> reach e l s L0 -> sstep e w s (ISocket b) = (s', outs) ->
  In (OWrite cs) outs -> retry_request cs bb ->
  exists c orig o c' enc, received w s (ISocket b) = [Recv w (EvHandshake (MClientHello c) orig)] /\ only_waits L0 /\ ech_first e c orig o c' enc /\
    (early_offered c' -> forall w' rs x, Forall (fun r => fst r < 65536 /\ blen (snd r) < 65536) rs ->
       sstep e w' s' (ISocket (concat (map (fun r => frame 23 (fst r) (snd r)) rs) ++ x)) = sstep e w' s' (ISocket x)) /\
    (~ early_offered c' -> forall w' ver d x, ver < 65536 -> blen d < 65536 -> refused (sstep e w' s' (ISocket (frame 23 ver d ++ x)))).
Proof.
  intros He Hr Hs Hin Hq. destruct (in_split_out _ _ Hin) as (pre & post & Ho).
  destruct (step_acts _ _ _ _ _ _ _ _ _ _ _ He Hr Hs Ho) as [(r' & ev & HA & Hrc)|(ct & -> & Hx)].
  2:{ destruct (lone_not_retry _ _ (or_intror Hx) Hq). }
  rewrite Ho in HA.
  destruct (acts_write _ _ _ _ _ _ _ _ _ HA) as [(c & orig & ct & sid & Eev & -> & -> & Hcs & Ht & Hl & (n0 & sid' & h & k & hc & alpn & skew & ed0 & early & g & R1 & R2 & R3 & R4) & Hh & Hst)|[(c & orig & H & Eev & HF & Hf2)|(ct & -> & Hx)]].
  2:{ destruct (flight_not_retry _ _ _ _ Hf2 Hq). }
  2:{ destruct (lone_not_retry _ _ Hx Hq). }
  injection Eev as ->.
  destruct (retry_outs _ _ _ _ _ _ _ _ (or_introl R1) Hh Hst) as (n & sid1 & h1 & k1 & hc1 & alpn1 & skew1 & ed & early1 & g1 & ct1 & b1 & Q1 & Q2 & Q3 & Q4 & Q5 & Q6 & Q7 & Q8 & Q9).
  clear R2 R3 R4 n0 sid' h k hc alpn skew ed0 early g. pose proof (hf_neg _ _ _ _ _ _ _ _ _ _ _ _ _ _ Q1) as HN.
  pose proof (nf_ech _ _ _ _ _ _ HN) as Hech. rewrite Q8 in Hech.
  assert (Hi : s_hctx (upd_read s (Some r')) = None /\ s_ech (upd_read s (Some r')) = EchNotRequested) by (destruct R1 as (r0 & -> & _); split; reflexivity).
  destruct (ech_start e _ c orig n (proj1 Hi) (proj2 Hi) Hech) as (o & A & _).
  pose proof (hf_ed _ _ _ _ _ _ _ _ _ _ _ _ _ _ Q1) as Hed. pose proof Hed as Hed'. unfold negotiateEarly in Hed'. bo Hed' oo Eo. clear Hed'.
  destruct (early_iff _ _ _ _ _ _ _ _ _ _ _ _ _ Hed Eo) as [I1 _]. destruct (earlyOffered_iff _ _ Eo) as [O1 _].
  apply hello_retry_facts in Q9. destruct Q9 as (h' & mh & hrr0 & hrr & b' & wl & ct' & S1 & S2 & S3 & S4 & S5 & S6 & S7 & S8 & S9).
  assert (Hrd : s_read s' = Some (mkEv [] (LPlain (mkP (match ed with EdNotAttempted => false | _ => true end) None)))) by (rewrite S9; reflexivity).
  exists c, orig, o, (n_hello n), (n_orig n). split; [exact Hrc|]. split; [destruct R1 as (r0 & _ & HW); apply waits_only, HW|]. split; [exact A|]. split.
  - intros Hof w' rs x HU. assert (Ei : (match ed with EdNotAttempted => false | _ => true end) = true).
    { destruct ed; try reflexivity. apply O1 in Hof. destruct I1 as [I1 _]. specialize (I1 eq_refl). congruence. }
    rewrite Ei in Hrd. eapply socket_same; [exact Hrd|]. apply event_skip. rewrite !layer_read_plain. f_equal.
    induction HU as [|r rs (Hu1 & Hu2) HU IH]; [reflexivity|]. cbn [map concat]. rewrite <- app_assoc.
    rewrite (proj1 (C12_plaintext_skip None (fst r) (snd r) _ Hu1 Hu2)). exact IH.
  - intros Hof w' ver d x Hv Hd. assert (Ei : ed = EdNotAttempted).
    { apply I1. destruct oo; [|reflexivity]. exfalso. apply Hof, O1. reflexivity. }
    rewrite Ei in Hrd. eapply socket_refused; [exact Hrd| | |]; try congruence.
    apply event_err. rewrite layer_read_plain. unfold frame. rewrite <- !app_assoc.
    rewrite C12_plaintext_reject; try assumption; try reflexivity.
    + left. reflexivity.
    + left. cbn [In]. intros [X|[X|[X|[]]]]; discriminate.
Qed.
Print Assumptions C36_retry_skipped.
