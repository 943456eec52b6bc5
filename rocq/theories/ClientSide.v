(** * A second invariant of a client connection: what connect started, early data, client authentication, ChangeCipherSpec *)
From Verif Require Import Base Codec CodecSpec Str Hkdf HkdfSpec HkdfProofs KeySched KeySchedSpec KeySchedProofs Handshake Extensions RecordBase Record
  RecordRT ReadEvent HelloChecks Cookie Token Negotiate Ticket PskSer Kex Hpke Transcript IOBufUtil PropsIOBuf EchConfirm HpkeUtils EchCrypt Server
  ServerSpec ServerFacts ServerSteps ServerFlight ServerInv ServerPreserve ExtensionsSpec ExtensionsProofs PropsCodec PropsEch Client ClientSpec ClientHelloSpec ClientSteps ClientHello
  ClientBinder ClientInv ClientAwait ClientHello2 ClientFlight ClientPhase ClientPreserve ClientOrigin.
Open Scope N_scope.

(** ** Live connections *)
Definition live (s : cstate) : Prop := match c_state s with CClosed | CError | CCrash | CWriteSideClosed => False | _ => True end.
Lemma chstep_live k w s ev s' outs : chstep k w s ev s' outs -> live s' -> live s.
Proof.
  unfold live. destruct 1; intros Hl; try (rewrite H; exact Logic.I).
  - exact Hl.
  - decompose [or] H; match goal with E : c_state s = _ |- _ => rewrite E; exact Logic.I end.
  - decompose [or] H; match goal with E : c_state s = _ |- _ => rewrite E; exact Logic.I end.
  - exfalso. unfold chandle_close in H0. destruct (cno_unparsed s) as [[|]|]; try discriminate. destruct reply.
    + apply cwith_write_ok in H0. destruct H0 as (wl & wl' & ct & _ & _ & [= <- _]). exact Hl.
    + injection H0 as <- _. exact Hl.
Qed.
Lemma creach_live k (P : list centry -> cstate -> Prop) : cenv_ok k ->
  P [] c_init ->
  (forall log s r r', c_read s = Some r -> P log s -> P log (cu_read s (Some r'))) ->
  (forall log s r n, c_read s = Some r -> P log s -> P (log ++ [CEmit (KWait n)]) s) ->
  (forall log s w ev s' outs, live s -> cphase k log s -> P log s -> cacts k log w s ev s' outs -> live s' ->
     P (log ++ centry_of w ev :: map CEmit outs) s') ->
  forall l s log, creach k l s log -> live s -> P log s.
Proof.
  intros Hk P0 Pr Pw Ps l s log H. pattern s, log. eapply creach_rect; [| |exact H]; clear l s log H.
  - intros _. exact P0.
  - intros l s log w i s' outs Hr IH H2 Hl. pose proof (creach_phase _ _ _ _ Hk Hr) as HP. apply cstep_cases in H2.
    destruct H2 as [ev R1 R2 R3|r b r' b' x R1 R2 R3 R4 R5|r b r' b' hint R1 R2 R3 R4 R5 R6|R1 R2 R3 R4 R5|a R1 R2 R3 R4|R1 R2|R1 R2 R3 R4 R5].
    + rewrite R1, <- (ccall_entry _ _ _ R2). cbn [app]. pose proof (chstep_live _ _ _ _ _ _ R3 Hl) as Hl'. apply (Ps _ s); auto. apply chstep_acts; assumption.
    + rewrite R4. cbn [app]. pose proof (chstep_live _ _ _ _ _ _ R5 Hl) as Hl'.
      assert (HP' : cphase k log (cu_read s (Some r'))) by (eapply cread_phase; eassumption).
      apply (Ps _ (cu_read s (Some r'))) with (ev := ERead x); auto; [eapply Pr; eauto|apply chstep_acts; assumption].
    + rewrite R4, R6. cbn [app map]. subst s'. eapply Pw; [reflexivity|]. eapply Pr; [exact R2|]. apply IH, Hl.
    + exfalso. unfold live in Hl. rewrite R2 in Hl. exact Hl.
    + exfalso. unfold live in Hl. rewrite R2 in Hl. exact Hl.
    + exfalso. unfold live in Hl. rewrite R1 in Hl. exact Hl.
    + exfalso. unfold live in Hl. destruct R3 as [E|E]; [subst s'; exact Hl|rewrite E in Hl; exact Hl].
Qed.

(** ** What the handlers change *)
Record retry_delta (k : cenv) (s : cstate) (s' : cstate) (hl hl' : hellost) : Prop := mkRDl {
  rd_hello : c_hello s = Some hl /\ c_hello s' = Some hl';
  rd_first : g_kexType (c_neg s) = None;
  rd_again : g_kexType (c_neg s') = Some KexHRR;
  rd_state : c_state s' = CExpectingServerHello;
  rd_earlyw : c_earlyw s' = None;
  rd_ccs : c_ccs s' = c_ccs s || k_compat k;
  rd_early : g_early (c_neg s') = match g_early (c_neg s) with CeAttempted => CeRejected | x => x end;
  rd_auth : g_auth (c_neg s') = g_auth (c_neg s) /\ c_selected s' = c_selected s;
  rd_params : h_params hl' = h_params hl;
  rd_sni : match c_ech s with
    | None => c_ech s' = None /\ h_sni hl' = h_sni hl
    | Some e => exists e', c_ech s' = Some e' /\ ec_sni e' = ec_sni e /\ ec_neg e' = ec_neg e /\
        h_sni hl' = match ec_status e' with CxAccepted => ec_sni e | _ => h_sni hl end
    end }.
Lemma retry_delta_ok k w s m orig s' outs : handle_retry k w s m orig = Ok (s', outs) -> exists hl hl', retry_delta k s s' hl hl'.
Proof.
  unfold handle_retry. destruct (c_hello s) as [hl|] eqn:Ehl; [|discriminate]. destruct (h_req hl) as [req|]; [|discriminate]. destruct (h_kex hl) as [kexs|]; [|discriminate]. intros H.
  bo H u0 E0. bo H u1 E1. apply ensure_ok in E1.
  apply bind_Ok in H. destruct H as ((version & cipher) & Evc & H). cbv beta iota in H.
  bo H x Ex. bo H group Eg. bo H y Ey. cbv zeta in H. bo H p Ep. bo H kexs' Ek'. bo H c0 Ec0. bo H c1 Ec1. bo H h Eh. bo H en Een. bo H mh Emh. bo H eres Eeres.
  apply bind_Ok in H. destruct H as ((c2 & enc2) & Ec2 & H). cbv beta iota in H.
  apply bind_Ok in H. destruct H as ((enc & est) & Eenc & H). cbv beta iota in H.
  destruct (c_write s) as [wl|] eqn:Ewl; [|discriminate]. bo H ct Ect.
  match type of H with Ok (?st, _) = _ => assert (Hs' : s' = st) by congruence end. clear H. exists hl. eexists. rewrite Hs'. constructor.
  - split; [exact Ehl|reflexivity].
  - destruct (g_kexType (c_neg s)); [discriminate|reflexivity].
  - reflexivity.
  - reflexivity.
  - reflexivity.
  - reflexivity.
  - reflexivity.
  - split; reflexivity.
  - reflexivity.
  - destruct (c_ech s) as [e|].
    + bo Eeres r Er. injection Eeres as <-. destruct r as [[st ec] gp].
      bo Eenc sni Esni. apply bind_Ok in Eenc. destruct Eenc as ((ctx' & outer) & Eo & Eenc). cbv beta iota in Eenc. bo Eenc eo Eeo.
      match type of Eenc with Ok (_, ?x) = _ => assert (Hes : est = x) by congruence end. rewrite Hes. eexists. split; [reflexivity|]. split; [reflexivity|]. split; [reflexivity|].
      cbn [ec_status h_sni]. destruct st; reflexivity.
    + injection Eeres as <-. assert (Hes : est = None) by congruence. rewrite Hes. split; reflexivity.
Qed.
Record hello_delta (k : cenv) (s : cstate) (s' : cstate) (m : ServerHello) (hl hl' : hellost) : Prop := mkHDl {
  hd_hello : c_hello s = Some hl /\ c_hello s' = Some hl';
  hd_earlyw : c_earlyw s' = c_earlyw s;
  hd_ccs : c_ccs s' = c_ccs s;
  hd_early : g_early (c_neg s') = g_early (c_neg s);
  hd_auth : (g_auth (c_neg s') = None \/ g_auth (c_neg s') = Some CaStored \/ g_auth (c_neg s') = Some CaNotRequested) /\ c_selected s' = c_selected s;
  hd_params : h_params hl' = h_params hl;
  hd_psk : h_psk hl <> None -> g_psk (c_neg s') = Some PskRejected \/ getExtension KServerPresharedKey (sh_extensions m) <> Ok None;
  hd_sni : match c_ech s with
    | None => c_ech s' = None /\ h_sni hl' = h_sni hl
    | Some e => exists e', c_ech s' = Some e' /\ ec_sni e' = ec_sni e /\ ec_neg e' = ec_neg e /\ (ec_status e = CxAccepted -> ec_status e' = CxAccepted) /\
        h_sni hl' = match ec_status e' with CxAccepted => ec_sni e | _ => h_sni hl end
    end }.
Lemma hello_delta_ok k w s m orig s' outs : handle_server_hello k w s m orig = Ok (s', outs) -> exists hl hl', hello_delta k s s' m hl hl'.
Proof.
  unfold handle_server_hello. destruct (c_hello s) as [hl|] eqn:Ehl; [|discriminate]. destruct (h_req hl) as [req|]; [|discriminate]. destruct (h_kex hl) as [kexs|]; [|discriminate]. intros H.
  bo H u0 E0. apply bind_Ok in H. destruct H as (((version & cipher) & exchange) & Esp & H). cbv beta iota in H.
  bo H u1 E1. bo H u2 E2. apply bind_Ok in H. destruct H as ((((pt & mode) & scert) & ccert) & Enp & H). cbv beta iota in H.
  bo H u3 E3. bo H h Eh. bo H k1 Ek1. apply bind_Ok in H. destruct H as (((k2 & group) & kt) & Ek2 & H). cbv beta iota in H.
  apply bind_Ok in H. destruct H as ((hc & ehc) & Ehc & H). cbv beta iota in H.
  apply bind_Ok in H. destruct H as ((hc' & status) & Est & H). cbv beta iota in H.
  bo H u4 E4. cbv zeta in H. bo H u5 E5. bo H ws Ews. bo H wl Ewl. bo H rs Ers. bo H rl Erl. bo H ht Eht.
  match type of H with Ok (?st, _) = _ => assert (Hs' : s' = st) by congruence end. clear H. exists hl. eexists. rewrite Hs'. constructor.
  - split; [exact Ehl|reflexivity].
  - reflexivity.
  - reflexivity.
  - reflexivity.
  - split; [|reflexivity]. cbn [c_neg g_auth]. destruct (pskAccepted pt); [|auto]. destruct ccert; auto.
  - reflexivity.
  - intros Hp. cbn [c_neg g_psk]. unfold negotiatePsk in Enp. bo Enp x Ex. destruct (h_psk hl) as [q|]; [|congruence].
    destruct x as [x|]; [right; congruence|left]. congruence.
  - destruct (c_ech s) as [e|].
    + destruct ehc as [ec|]; [|discriminate]. bo Est acc Eacc. bo Est u6 E6.
      destruct acc; (match type of Est with Ok (_, ?x) = _ => assert (Hst : status = x) by congruence end); rewrite Hst;
        eexists; (split; [reflexivity|]); (split; [reflexivity|]); (split; [reflexivity|]); (split; [|reflexivity]); cbn [ec_status]; [reflexivity|].
      intros Hx. rewrite Hx in E6. discriminate.
    + assert (Hst : status = None) by congruence. rewrite Hst. split; reflexivity.
Qed.
Record ee_delta (k : cenv) (s : cstate) (x : list Extension) (s' : cstate) (hl hl' : hellost) : Prop := mkEDl {
  ed_hello : c_hello s = Some hl /\ c_hello s' = Some hl';
  ed_earlyw : c_earlyw s' = c_earlyw s;
  ed_ccs : c_ccs s' = c_ccs s;
  ed_auth : g_auth (c_neg s') = g_auth (c_neg s) /\ c_selected s' = c_selected s;
  ed_params : h_params hl' = h_params hl /\ h_sni hl' = h_sni hl;
  ed_ech : match c_ech s with None => c_ech s' = None | Some e => exists e', c_ech s' = Some e' /\ ec_sni e' = ec_sni e /\ ec_neg e' = ec_neg e /\ ec_status e' = ec_status e end;
  ed_early : match g_early (c_neg s) with
    | CeAttempted => (g_early (c_neg s') = CeRejected /\ getExtension KServerEarlyData x = Ok None) \/
        (g_early (c_neg s') = CeAccepted /\ getExtension KServerEarlyData x = Ok (Some XServerEarlyData) /\ g_psk (c_neg s) <> Some PskRejected /\
         exists p, h_params hl = Some p /\ g_cipher (c_neg s) = Some (ep_cipher p) /\ alpn_says x (ep_alpn p))
    | y => g_early (c_neg s') = y
    end;
  ed_alpn : alpn_says x (g_alpn (c_neg s')) }.
Lemma opt_eqb_ok a b : opt_eqb a b = true -> a = b.
Proof. destruct a, b; cbn; try discriminate; auto. intros H. f_equal. apply bytes_eqb_eq. exact H. Qed.
Lemma ee_delta_ok k w s x orig s' outs : handle_ee k w s x orig = Ok (s', outs) -> exists hl hl', ee_delta k s x s' hl hl'.
Proof.
  unfold handle_ee. destruct (c_hello s) as [hl|] eqn:E1; [|discriminate]. destruct (c_hctx s) as [hc|] eqn:E2; [|discriminate].
  destruct (g_psk (c_neg s)) as [pt|] eqn:E3; [|discriminate]. destruct (h_req hl) as [req|]; [|discriminate]. intros H.
  bo H u E4. bo H a E5. bo H alpn E6. bo H e E7. bo H ed E8. bo H rt E9. bo H u2 E10.
  match type of H with Ok (?st, _) = _ => assert (Hs' : s' = st) by congruence end. clear H.
  assert (Ha : alpn_says x alpn).
  { destruct a as [a|].
    - pose proof (getExtension_kind _ _ _ E5) as Hk. destruct a; try discriminate. destruct l as [|b [|? ?]]; try discriminate.
      bo E6 n E11. bo E6 u3 E12. injection E6 as <-. apply deref_ok in E11. subst b. exact E5.
    - destruct (k_requireAlpn k); [discriminate|]. injection E6 as <-. exact E5. }
  exists hl. eexists. rewrite Hs'. constructor; try reflexivity.
  - split; [exact E1|reflexivity].
  - split; reflexivity.
  - split; reflexivity.
  - cbn [c_ech]. destruct (c_ech s) as [es|]; [|reflexivity]. destruct rt as [[n cs]|]; eexists; (split; [reflexivity|]); repeat split; reflexivity.
  - cbn [c_neg g_early]. destruct (g_early (c_neg s)).
    + destruct e; [discriminate|]. congruence.
    + destruct e as [e|]; [|left; split; [congruence|exact E7]]. right. bo E8 u3 E11. split; [congruence|].
      pose proof (getExtension_kind _ _ _ E7) as Hk. split; [destruct e; try discriminate; exact E7|].
      unfold validateAcceptedEarly in E11. rewrite E3 in E11. split; [destruct pt; congruence|].
      destruct (h_params hl) as [p|]; [|destruct pt; discriminate]. exists p. split; [reflexivity|].
      assert (E12 : (_ <- ensure (match g_cipher (c_neg s) with Some c => ep_cipher p =? c | None => false end) (alert al_illegal_parameter) ;;
                    _ <- ensure (opt_eqb (ep_alpn p) alpn) (alert al_illegal_parameter) ;;
                    ensure (match c_earlyw s with Some _ => true | None => k_omitEarly k end) (alert al_illegal_parameter)) = Ok u3) by (destruct pt; (discriminate || exact E11)).
      bo E12 v1 F1. bo E12 v2 F2. apply ensure_ok in F1, F2. apply opt_eqb_ok in F2. subst alpn.
      split; [|exact Ha]. destruct (g_cipher (c_neg s)); [|discriminate]. apply N.eqb_eq in F1. congruence.
    + destruct e; [discriminate|]. congruence.
    + destruct e; [discriminate|]. congruence.
  - exact Ha.
Qed.

Record connect_delta (k : cenv) (w : cworld) (cn : conn) (s : cstate) (outs : list cout) (hl : hellost) : Prop := mkCDl {
  cd_hello : c_hello s = Some hl;
  cd_state : c_state s = CExpectingServerHello;
  cd_none : g_kexType (c_neg s) = None /\ g_auth (c_neg s) = None /\ c_selected s = None /\ c_ccs s = false;
  cd_ech : match c_ech s with
    | None => h_sni hl = cn_sni cn /\ cn_ech cn = None
    | Some e => ec_sni e = cn_sni cn /\ ec_status e = CxRequested /\ h_sni hl = Some (ec_name (ng_cfg (ec_neg e))) /\ cn_ech cn <> None end;
  cd_outs : exists d enc rest, outs = KWrite [mkContent LvPlaintext 22 d enc] :: rest /\
    (rest = [] \/ exists t mx x, rest = [KSecret (KTraffic SkEarly) t; KEarlySuccess mx; KSecret KEarlyExporter x]) }.
Lemma connect_delta_ok k w cn s' outs : handle_connect k w c_init cn = Ok (s', outs) -> exists hl, connect_delta k w cn s' outs hl.
Proof.
  unfold handle_connect. intros H. bo H p Ep. bo H random Er. cbv zeta in H. bo H sid Es. bo H kexs Ek. bo H ech Ee.
  apply bind_Ok in H. destruct H as ((c0 & req0) & Ec0 & H). cbv beta iota in H.
  apply bind_Ok in H. destruct H as (((c1 & enc1) & early) & Ec1 & H). cbv beta iota in H.
  apply bind_Ok in H. destruct H as (((((enc & req) & sni) & random') & est) & Est & H). cbv beta iota in H.
  bo H d Ed.
  assert (Hx : match est with None => sni = cn_sni cn /\ cn_ech cn = None
    | Some e => ec_sni e = cn_sni cn /\ ec_status e = CxRequested /\ sni = Some (ec_name (ng_cfg (ec_neg e))) /\ cn_ech cn <> None end).
  { destruct ech as [[[ng key] ctx]|].
    - pose proof (setup_some _ _ _ _ Ee) as Hne. bo Est random2 Er2. bo Est gp Egp. apply bind_Ok in Est. destruct Est as ((ctx' & outer) & Eo & Est). cbv beta iota in Est. bo Est en Een.
      match type of Est with Ok (_, _, ?a, _, Some ?b) = _ => assert (H1 : sni = a) by congruence; assert (H2 : est = Some b) by congruence end. rewrite H1, H2. auto.
    - pose proof (setup_none _ _ _ Ee) as Hno. assert (sni = cn_sni cn /\ est = None) as (-> & ->); [|auto].
      destruct (k_grease k) as [[|]|]; try (split; congruence). bo Est g Eg. bo Est e Ee'. bo Est en Een. split; congruence. }
  destruct early as [[[[t wl] x] mx]|]; [destruct (getEarlyDataParams k p)|];
    (match type of H with Ok (?st, ?o) = _ => assert (Hs' : s' = st) by congruence; assert (Ho : outs = o) by congruence end; eexists; rewrite Hs', Ho;
     constructor; cbn [c_hello c_state c_neg c_ech g_kexType g_auth c_selected c_ccs h_sni]; [reflexivity|reflexivity|repeat split|exact Hx|
       eexists _, _, _; split; [reflexivity|eauto 10]]).
Qed.

(** ** The invariant *)
Definition earlyw_like (w w0 : option wlayer) : Prop :=
  w = None \/ exists lv ws ws0, w = Some (WEnc lv ws) /\ w0 = Some (WEnc lv ws0) /\ ws_aead ws = ws_aead ws0.
(** The server selected the PSK with which early data was sent, or rejected it. *)
Definition psk_answer (k : cenv) (log : list centry) (s : cstate) : Prop :=
  g_psk (c_neg s) = Some PskRejected \/
  exists L0 w Q La p, log = L0 ++ CRecv w (EvHandshake (MServerHello (q_msg Q)) (q_sh Q)) :: La /\ chandshake_of k L0 w Q /\ q_psk Q = Some p /\
    g_cipher (c_neg s) = Some (q_cipher Q) /\ ~ retried L0.
Definition name_used (cn : conn) (s : cstate) : option bytes :=
  match c_ech s with
  | None => cn_sni cn
  | Some e => match ec_status e with CxAccepted => cn_sni cn | _ => Some (ec_name (ng_cfg (ec_neg e))) end
  end.
Definition b2n (b : bool) : nat := if b then 1%nat else 0%nat.
Record side (k : cenv) (log : list centry) (s : cstate) (w0 : cworld) (cn : conn) (s0 : cstate) (outs0 : list cout) (X : list centry) : Prop := mkSide {
  sd_connect : handle_connect k w0 c_init cn = Ok (s0, outs0);
  sd_log : log = CCall w0 (JConnect cn) :: map CEmit outs0 ++ X;
  sd_first : c_state s = CExpectingServerHello -> g_kexType (c_neg s) = None ->
    c_hello s = c_hello s0 /\ c_ech s = c_ech s0 /\ c_neg s = c_neg s0 /\ forallb cquiet X = true;
  sd_earlyw : earlyw_like (c_earlyw s) (c_earlyw s0);
  sd_params : exists hl hl0, c_hello s = Some hl /\ c_hello s0 = Some hl0 /\ h_params hl = h_params hl0;
  sd_sni : exists hl, c_hello s = Some hl /\ h_sni hl = name_used cn s /\ match c_ech s with Some e => ec_sni e = cn_sni cn | None => True end;
  sd_early : match g_early (c_neg s) with
    | CeNotAttempted => g_early (c_neg s0) = CeNotAttempted
    | CeAttempted => g_early (c_neg s0) = CeAttempted /\
        ((c_state s = CExpectingServerHello /\ g_kexType (c_neg s) = None) \/ (c_state s = CExpectingEncryptedExtensions /\ psk_answer k log s))
    | CeAccepted => g_early (c_neg s0) = CeAttempted /\ early_accepted k log
    | CeRejected => g_early (c_neg s0) = CeAttempted /\ early_rejected log
    end;
  sd_auth : match g_auth (c_neg s) with
    | Some CaSent => c_state s = CEstablished \/ exists a, c_selected s = Some a /\ answered k (name_used cn s) log (Some a)
    | Some CaNoMatch => answered k (name_used cn s) log None
    | _ => ccount is_creq log = 0%nat
    end;
  sd_ccs : ccs_sent log = b2n (c_ccs s) /\ (c_ccs s = true -> k_compat k = true);
  sd_alpn : match c_state s with
    | CExpectingCertificate | CExpectingCertificateVerify | CExpectingFinished | CEstablished => alpn_of log (g_alpn (c_neg s))
    | _ => True
    end }.
Definition sided (k : cenv) (log : list centry) (s : cstate) : Prop :=
  (s = c_init /\ log = []) \/ exists w0 cn s0 outs0 X, side k log s w0 cn s0 outs0 X.

Lemma ccs_app a b : ccs_sent (a ++ b) = (ccs_sent a + ccs_sent b)%nat.
Proof. unfold ccs_sent. rewrite flat_map_app, app_length. reflexivity. Qed.
Lemma ccs_first_sent k b cs : filter (fun c => ct_type c =? 20) cs = [] ->
  (ccs_sent [CEmit (KWrite (ccs_first k b ++ cs))] + b2n b)%nat = b2n (b || k_compat k).
Proof.
  intros H. unfold ccs_sent. cbn [flat_map]. rewrite app_nil_r, filter_app, H, app_nil_r. unfold ccs_first.
  destruct (k_compat k), b; cbn; reflexivity.
Qed.
Lemma early_accepted_ext k L X : early_accepted k L -> early_accepted k (L ++ X).
Proof.
  intros (L0 & w & Q & La & we & xs & oe & Lb & p & -> & H). exists L0, w, Q, La, we, xs, oe, (Lb ++ X), p. split; [|exact H].
  rewrite <- !app_assoc. cbn [app]. rewrite <- app_assoc. reflexivity.
Qed.
Lemma early_rejected_ext L X : early_rejected L -> early_rejected (L ++ X).
Proof.
  intros [(w & m & o & H)|(w & xs & o & H & E)]; [left; exists w, m, o|right; exists w, xs, o; split; [|exact E]]; apply in_or_app; left; exact H.
Qed.
Lemma alpn_of_ext L X a : alpn_of L a -> alpn_of (L ++ X) a.
Proof. intros (w & xs & o & H & E). exists w, xs, o. split; [apply in_or_app; left; exact H|exact E]. Qed.
Lemma answered_ext k n L X a : answered k n L a -> ccount is_creq X = 0%nat -> answered k n (L ++ X) a.
Proof.
  intros (L1 & w & m & o & L2 & l & -> & A & B & C) HX. exists L1, w, m, o, (L2 ++ X), l. split; [rewrite <- app_assoc; reflexivity|].
  split; [exact A|]. split; [rewrite ccount_app, B, HX; reflexivity|exact C].
Qed.
Lemma psk_answer_ext k L X s s' : psk_answer k L s -> c_neg s' = c_neg s -> psk_answer k (L ++ X) s'.
Proof.
  intros [A|(L0 & w & Q & La & p & -> & A)] E; [left; congruence|right]. exists L0, w, Q, (La ++ X), p. split; [rewrite <- app_assoc; reflexivity|]. rewrite E. exact A.
Qed.
Definition sframe (s : cstate) := (c_hello s, c_neg s, c_ech s, c_selected s, c_state s).
Lemma side_frame k log s s' w0 cn s0 outs0 X Y : side k log s w0 cn s0 outs0 X -> sframe s' = sframe s -> earlyw_like (c_earlyw s') (c_earlyw s) ->
  ccount is_creq Y = 0%nat -> (c_state s = CExpectingServerHello -> forallb cquiet Y = true) ->
  (ccs_sent Y + b2n (c_ccs s))%nat = b2n (c_ccs s') -> (c_ccs s' = true -> c_ccs s = true \/ k_compat k = true) ->
  side k (log ++ Y) s' w0 cn s0 outs0 (X ++ Y).
Proof.
  intros [D1 D2 D3 D4 D5 D6 D7 D8 D9 D10] F Hw HY Hq Hc Hc2. unfold sframe in F. injection F as F1 F2 F3 F4 F5.
  assert (Hn : name_used cn s' = name_used cn s) by (unfold name_used; rewrite F3; reflexivity).
  constructor; auto.
  - rewrite D2. cbn [app]. rewrite <- app_assoc. reflexivity.
  - rewrite F5, F2, F1, F3. intros A B. destruct (D3 A B) as (C1 & C2 & C3 & C4). rewrite forallb_app, C4, (Hq A). auto.
  - destruct Hw as [->|(lv & ws & ws' & E1 & E2 & E3)]; [left; reflexivity|]. right.
    destruct D4 as [D4|(lv2 & ws2 & ws0 & G1 & G2 & G3)]; [congruence|]. exists lv, ws, ws0. assert (lv2 = lv /\ ws2 = ws') as (-> & ->) by (split; congruence).
    repeat split; congruence.
  - rewrite F1. exact D5.
  - rewrite F1, F3, Hn. exact D6.
  - rewrite F2, F5. destruct (g_early (c_neg s)); auto.
    + destruct D7 as (A & [B|(B & C)]); split; auto. right. split; [exact B|]. eapply psk_answer_ext; [exact C|exact F2].
    + destruct D7 as (A & B). split; [exact A|]. apply early_rejected_ext, B.
    + destruct D7 as (A & B). split; [exact A|]. apply early_accepted_ext, B.
  - rewrite F2, F4, F5, Hn. destruct (g_auth (c_neg s)) as [[| | |]|]; try (rewrite ccount_app, D8, HY; reflexivity).
    + destruct D8 as [A|(a & A & B)]; [left; exact A|right]. exists a. split; [exact A|]. apply answered_ext; assumption.
    + apply answered_ext; assumption.
  - destruct D9 as (A & B). rewrite ccs_app, A. split; [lia|]. intros E. destruct (Hc2 E); auto.
  - rewrite F5, F2. destruct (c_state s); auto; apply alpn_of_ext, D10.
Qed.
Lemma earlyw_refl w w0 : earlyw_like w w0 -> earlyw_like w w.
Proof. intros [H|(lv & ws & ws0 & H & _ & _)]; [left; exact H|right]. exists lv, ws, ws. auto. Qed.

Lemma side_same k log s s' w0 cn s0 outs0 X Y : side k log s w0 cn s0 outs0 X -> sframe s' = sframe s -> c_earlyw s' = c_earlyw s -> c_ccs s' = c_ccs s ->
  ccount is_creq Y = 0%nat -> (c_state s = CExpectingServerHello -> forallb cquiet Y = true) -> ccs_sent Y = 0%nat -> side k (log ++ Y) s' w0 cn s0 outs0 (X ++ Y).
Proof.
  intros D F E1 E2 E3 E4 E5. (eapply side_frame; [exact D|exact F| |exact E3|exact E4| |]).
  - rewrite E1. eapply earlyw_refl, (sd_earlyw _ _ _ _ _ _ _ _ D).
  - rewrite E5, E2. reflexivity.
  - rewrite E2. auto.
Qed.
Lemma not_retried L X : filter is_retry L = [] -> ~ retried (L ++ X) \/ retried X.
Proof.
  intros H. destruct (filter is_retry X) as [|x l] eqn:E.
  - left. intros (w & m & o & Hin). apply in_app_or in Hin. assert (is_retry (CRecv w (EvHandshake (MHelloRetryRequest m) o)) = true) as Hr by reflexivity.
    destruct Hin as [Hin|Hin]; (assert (Hf : In (CRecv w (EvHandshake (MHelloRetryRequest m) o)) (filter is_retry (L ++ X))) by (apply filter_In; split; [apply in_or_app; auto|exact Hr])); rewrite filter_app, H, E in Hf; exact Hf.
  - right. assert (Hin : In x (filter is_retry X)) by (rewrite E; left; reflexivity). apply filter_In in Hin. destruct Hin as (Hin & Hr).
    destruct x as [w i|w [m o|a|q|d]|o]; try discriminate. destruct m; try discriminate. eexists _, _, _. exact Hin.
Qed.
Lemma no_retry L : filter is_retry L = [] -> ~ retried L.
Proof. intros H (w & m & o & Hin). assert (Hf : In (CRecv w (EvHandshake (MHelloRetryRequest m) o)) (filter is_retry L)) by (apply filter_In; auto). rewrite H in Hf. exact Hf. Qed.
Lemma emits_dull outs : (forall cs, ~ In (KWrite cs) outs) -> ccs_sent (map CEmit outs) = 0%nat /\ ccount is_creq (map CEmit outs) = 0%nat.
Proof.
  induction outs as [|o outs IH]; intros H; [split; reflexivity|]. destruct IH as (A & B); [intros cs Hin; apply (H cs); right; exact Hin|].
  change (map CEmit (o :: outs)) with ([CEmit o] ++ map CEmit outs). rewrite ccs_app, ccount_app, A, B.
  destruct o; try (split; reflexivity). exfalso. apply (H l). left. reflexivity.
Qed.
Lemma creq_emits outs : ccount is_creq (map CEmit outs) = 0%nat.
Proof. induction outs as [|o outs IH]; [reflexivity|]. exact IH. Qed.
Lemma earlyw_start k w cn p b s' rest : early_start k w cn p b s' rest -> earlyw_like (c_earlyw s') (c_earlyw s').
Proof.
  intros (hl & _ & _ & H). destruct (getEarlyDataParams k p) as [ep|].
  - destruct H as (q & h & t & x & th & _ & _ & _ & _ & _ & H & _). destruct (k_omitEarly k); [left; exact H|]. destruct H as (ws & H & _). right. exists LvEarlyData, ws, ws. auto.
  - destruct H as (_ & _ & H & _). left. exact H.
Qed.
Lemma side_connect k w cn s' d enc rest : cenv_ok k -> handle_connect k w c_init cn = Ok (s', KWrite [mkContent LvPlaintext 22 d enc] :: rest) ->
  (rest = [] \/ exists t mx x, rest = [KSecret (KTraffic SkEarly) t; KEarlySuccess mx; KSecret KEarlyExporter x]) ->
  side k (CCall w (JConnect cn) :: map CEmit (KWrite [mkContent LvPlaintext 22 d enc] :: rest)) s' w cn s' (KWrite [mkContent LvPlaintext 22 d enc] :: rest) [].
Proof.
  intros Hk H Hr. destruct (connect_delta_ok _ _ _ _ _ H) as (hl & [C1 C2 (C3 & C4 & C5 & C6) C7 _]).
  destruct (connect_first _ _ _ _ _ _ _ Hk H) as (p & o & c & b & FF). pose proof (ff_attempt _ _ _ _ _ _ _ _ _ _ FF) as HE.
  constructor; auto.
  - rewrite app_nil_r. reflexivity.
  - eapply earlyw_start, HE.
  - exists hl, hl. auto.
  - exists hl. split; [exact C1|]. unfold name_used. destruct (c_ech s') as [e|].
    + destruct C7 as (A & B & D & _). rewrite B. auto.
    + destruct C7. auto.
  - destruct HE as (hl' & _ & _ & HE). destruct (getEarlyDataParams k p) as [ep|].
    + destruct HE as (q & h & t & x & th & _ & _ & _ & HE & _). rewrite HE. split; [reflexivity|left; split; assumption].
    + destruct HE as (_ & HE & _). rewrite HE. reflexivity.
  - rewrite C4. unfold ccount. cbn [map filter is_creq]. apply (creq_emits rest).
  - rewrite C6. split; [|discriminate]. destruct Hr as [->|(t & mx & x & ->)]; reflexivity.
  - rewrite C2. exact Logic.I.
Qed.

Lemma side_log_app k log s w0 cn s0 outs0 X Y : side k log s w0 cn s0 outs0 X -> log ++ Y = CCall w0 (JConnect cn) :: map CEmit outs0 ++ X ++ Y.
Proof. intros D. rewrite (sd_log _ _ _ _ _ _ _ _ D). cbn [app]. rewrite <- app_assoc. reflexivity. Qed.
Lemma side_retry k log s w m orig s' ct w0 cn s0 outs0 X : side k log s w0 cn s0 outs0 X -> c_state s = CExpectingServerHello ->
  handle_retry k w s m orig = Ok (s', [KWrite (ccs_first k (c_ccs s) ++ [ct])]) -> ct_type ct = 22 ->
  side k (log ++ [CRecv w (EvHandshake (MHelloRetryRequest m) orig); CEmit (KWrite (ccs_first k (c_ccs s) ++ [ct]))]) s' w0 cn s0 outs0
    (X ++ [CRecv w (EvHandshake (MHelloRetryRequest m) orig); CEmit (KWrite (ccs_first k (c_ccs s) ++ [ct]))]).
Proof.
  intros D Hst H Ht. destruct (retry_delta_ok _ _ _ _ _ _ _ H) as (hl & hl' & [(R1 & R2) R3 R4 R5 R6 R7 R8 (R9 & R9') R10 R11]).
  set (Y := [CRecv w (EvHandshake (MHelloRetryRequest m) orig); CEmit (KWrite (ccs_first k (c_ccs s) ++ [ct]))]).
  assert (HY : ccount is_creq Y = 0%nat) by reflexivity.
  assert (HC : (ccs_sent Y + b2n (c_ccs s))%nat = b2n (c_ccs s || k_compat k)).
  { rewrite <- (ccs_first_sent k (c_ccs s) [ct]); [reflexivity|]. cbn [filter]. rewrite Ht. reflexivity. }
  pose proof (side_log_app _ _ _ _ _ _ _ _ Y D) as HL. destruct D as [D1 D2 D3 D4 D5 D6 D7 D8 D9 D10]. destruct (D3 Hst R3) as (F1 & F2 & F3 & F4).
  destruct (connect_delta_ok _ _ _ _ _ D1) as (hl0 & [C1 C2 (C3 & C4 & C5 & C6) C7 _]).
  constructor; auto.
  - rewrite R4. discriminate.
  - left. exact R6.
  - destruct D5 as (a & a0 & A & B & C). exists hl', a0. split; [exact R2|]. split; [exact B|]. congruence.
  - destruct D6 as (a & A & B & C). assert (a = hl) by congruence. subst a. exists hl'. split; [exact R2|]. unfold name_used in *. rewrite <- F2 in C7. destruct (c_ech s) as [e|].
    + destruct C7 as (G1 & G2 & G3 & _). rewrite G2 in B. destruct R11 as (e' & E1 & E2 & E3 & E4). rewrite E1, E2, E3, E4. split; [|exact C]. destruct (ec_status e'); [exact B|exact B|exact C].
    + destruct R11 as (E1 & E2). rewrite E1, E2. auto.
  - rewrite R8. destruct (g_early (c_neg s)); try exact D7.
    + split; [apply D7|]. left. exists w, m, orig. apply in_or_app. right. left. reflexivity.
    + destruct D7 as (A & B). split; [exact A|]. apply early_rejected_ext, B.
    + destruct D7 as (A & B). split; [exact A|]. apply early_accepted_ext, B.
  - rewrite R9, F3, C4. rewrite ccount_app, HY. rewrite F3, C4 in D8. rewrite D8. reflexivity.
  - rewrite R7. destruct D9 as (A & B). rewrite ccs_app, A. split; [lia|]. intros E. apply orb_true_iff in E. destruct E; auto.
  - rewrite R5. exact Logic.I.
Qed.
Lemma connect_early k w cn s0 outs0 : cenv_ok k -> handle_connect k w c_init cn = Ok (s0, outs0) ->
  exists d enc rest p o c b, outs0 = KWrite [mkContent LvPlaintext 22 d enc] :: rest /\ first_facts k w cn p enc o c b s0 rest.
Proof.
  intros Hk H. destruct (connect_delta_ok _ _ _ _ _ H) as (hl & CD). destruct (cd_outs _ _ _ _ _ _ CD) as (d & enc & rest & -> & _).
  destruct (connect_first _ _ _ _ _ _ _ Hk H) as (p & o & c & b & FF). exists d, enc, rest, p, o, c, b. auto.
Qed.
Lemma side_hello k log s w s' outs w0 cn s0 outs0 X A Q : cenv_ok k -> side k log s w0 cn s0 outs0 X -> await k log s A ->
  handle_server_hello k w s (q_msg Q) (q_sh Q) = Ok (s', outs) -> after_hello k log A w Q s' outs ->
  side k (log ++ CRecv w (EvHandshake (MServerHello (q_msg Q)) (q_sh Q)) :: map CEmit outs) s' w0 cn s0 outs0
    (X ++ CRecv w (EvHandshake (MServerHello (q_msg Q)) (q_sh Q)) :: map CEmit outs).
Proof.
  intros Hk D HA H AH. destruct (hello_delta_ok _ _ _ _ _ _ _ H) as (hl & hl' & [(R1 & R2) R3 R4 R5 (R6 & R6') R7 R8 R9]).
  set (Y := CRecv w (EvHandshake (MServerHello (q_msg Q)) (q_sh Q)) :: map CEmit outs).
  pose proof (ah_outs _ _ _ _ _ _ _ AH) as Ho. pose proof (ah_state _ _ _ _ _ _ _ AH) as Hst. pose proof (aw_state _ _ _ _ HA) as Hst0.
  assert (HY : ccount is_creq Y = 0%nat) by (unfold Y; rewrite Ho; reflexivity).
  assert (HC : ccs_sent Y = 0%nat) by (unfold Y; rewrite Ho; reflexivity).
  pose proof (side_log_app _ _ _ _ _ _ _ _ Y D) as HL. destruct D as [D1 D2 D3 D4 D5 D6 D7 D8 D9 D10].
  destruct (connect_delta_ok _ _ _ _ _ D1) as (hl0 & [C1 C2 (C3 & C4 & C5 & C6) C7 _]).
  constructor; auto.
  - rewrite Hst. discriminate.
  - rewrite R3. exact D4.
  - destruct D5 as (a & a0 & G1 & G2 & G3). exists hl', a0. split; [exact R2|]. split; [exact G2|]. congruence.
  - destruct D6 as (a & G1 & G2 & G3). assert (a = hl) by congruence. subst a. exists hl'. split; [exact R2|]. unfold name_used in *. destruct (c_ech s) as [e|].
    + destruct R9 as (e' & E1 & E2 & E3 & E4 & E5). rewrite E1, E2, E3, E5. split; [|exact G3].
      destruct (ec_status e) eqn:Es; [| |rewrite (E4 eq_refl); exact G3]; (destruct (ec_status e'); [exact G2|exact G2|exact G3]).
    + destruct R9 as (E1 & E2). rewrite E1, E2. auto.
  - rewrite R5. destruct (g_early (c_neg s)) eqn:Eg; auto.
    + destruct D7 as (G1 & [(G2 & G3)|(G2 & _)]); [|congruence]. split; [exact G1|]. right. split; [exact Hst|].
      destruct (D3 G2 G3) as (F1 & F2 & F3 & F4).
      destruct (aw_phase _ _ _ _ HA) as [HF|HS].
      2:{ exfalso. destruct (as_retry _ _ _ _ HS) as (? & ? & ? & ? & ? & ? & ? & _ & _ & _ & _ & Hkx & _). congruence. }
      assert (Hp : h_psk hl <> None).
      { rewrite F1 in R1. assert (hl0 = hl) by congruence. subst hl0.
        destruct (connect_early _ _ _ _ _ Hk D1) as (d & enc & rest & p & o & c & b & _ & FF). destruct (ff_attempt _ _ _ _ _ _ _ _ _ _ FF) as (hx & X1 & X2 & X3).
        assert (hx = hl) by congruence. subst hx. rewrite X2. destruct (getEarlyDataParams k p) as [ep|].
        - destruct X3 as (q & h & t & x & th & -> & _). discriminate.
        - destruct X3 as (_ & X3 & _). congruence. }
      destruct (R8 Hp) as [R|R]; [left; exact R|right].
      pose proof (ah_of _ _ _ _ _ _ _ AH) as HO. pose proof (co_says _ _ _ _ HO) as (_ & _ & _ & Hsay). destruct (q_psk Q) as [p|] eqn:Eq; [|congruence].
      exists log, w, Q, (map CEmit outs), p. split; [reflexivity|]. split; [exact HO|]. split; [exact Eq|]. split; [apply (ah_neg _ _ _ _ _ _ _ AH)|].
      apply no_retry, (af_noretry _ _ _ _ HF).
    + destruct D7 as (G1 & G2). split; [exact G1|]. apply early_rejected_ext, G2.
    + destruct D7 as (G1 & G2). split; [exact G1|]. apply early_accepted_ext, G2.
  - assert (Hz : ccount is_creq log = 0%nat) by (destruct (aw_none _ _ _ _ HA) as (_ & _ & _ & _ & Hau); rewrite Hau in D8; exact D8).
    destruct R6 as [R6|[R6|R6]]; rewrite R6; rewrite ccount_app, HY, Hz; reflexivity.
  - rewrite R4. destruct D9 as (G1 & G2). rewrite ccs_app, G1, HC. auto.
  - rewrite Hst. exact Logic.I.
Qed.
Lemma wanted_ok k p ep : getEarlyDataParams k (Some p) = Some ep -> early_wanted k p.
Proof.
  unfold getEarlyDataParams, early_wanted. destruct (k_sendEarly k); [|discriminate]. cbn [negb]. destruct (pk_maxEarly (cp_psk p) =? 0) eqn:E; [discriminate|].
  apply N.eqb_neq in E. intros H. split; [reflexivity|]. split; [lia|]. intros a Ha. rewrite Ha in H. destruct (memb a (k_alpns k)) eqn:Em; [|discriminate]. apply memb_In, Em.
Qed.
Lemma side_ee k log s w x orig s' outs w0 cn s0 outs0 X : cenv_ok k -> side k log s w0 cn s0 outs0 X -> c_state s = CExpectingEncryptedExtensions -> handle_ee k w s x orig = Ok (s', outs) ->
  (outs = [] \/ exists n cs, outs = [KEchRetry n cs]) -> c_state s' <> CExpectingServerHello -> c_state s' <> CExpectingEncryptedExtensions ->
  side k (log ++ CRecv w (EvHandshake (MEncryptedExtensions x) orig) :: map CEmit outs) s' w0 cn s0 outs0 (X ++ CRecv w (EvHandshake (MEncryptedExtensions x) orig) :: map CEmit outs).
Proof.
  intros Hk D Hst H Ho Hs1 Hs2. destruct (ee_delta_ok _ _ _ _ _ _ _ H) as (hl & hl' & [(R1 & R2) R3 R4 (R5 & R5') (R6 & R7) R8 R9 R14]).
  set (Y := CRecv w (EvHandshake (MEncryptedExtensions x) orig) :: map CEmit outs).
  assert (HY : ccount is_creq Y = 0%nat) by (unfold Y; destruct Ho as [->|(n & cs & ->)]; reflexivity).
  assert (HC : ccs_sent Y = 0%nat) by (unfold Y; destruct Ho as [->|(n & cs & ->)]; reflexivity).
  pose proof (side_log_app _ _ _ _ _ _ _ _ Y D) as HL. destruct D as [D1 D2 D3 D4 D5 D6 D7 D8 D9 D10].
  assert (Hn : name_used cn s' = name_used cn s).
  { unfold name_used. destruct (c_ech s) as [e|]; [destruct R8 as (e' & -> & _ & -> & ->)|rewrite R8]; reflexivity. }
  constructor; auto.
  - intros E. congruence.
  - rewrite R3. exact D4.
  - destruct D5 as (a & a0 & G1 & G2 & G3). exists hl', a0. split; [exact R2|]. split; [exact G2|]. congruence.
  - destruct D6 as (a & G1 & G2 & G3). assert (a = hl) by congruence. subst a. exists hl'. split; [exact R2|]. rewrite Hn, R7. split; [exact G2|].
    destruct (c_ech s) as [e|]; [destruct R8 as (e' & -> & -> & _)|rewrite R8]; auto.
  - destruct (g_early (c_neg s)) eqn:Eg.
    + rewrite R9. exact D7.
    + destruct D7 as (G1 & [(G2 & _)|(_ & G2)]); [congruence|]. destruct R9 as [(-> & R9)|(-> & R9 & R10 & p & R11 & R12 & R13)]; [split; [exact G1|right; exists w, x, orig; split; [apply in_or_app; right; left; reflexivity|exact R9]]|]. split; [exact G1|].
      destruct G2 as [G2|(L0 & wq & Q & La & q & G2 & G3 & G4 & G5 & G6)]; [congruence|].
      destruct D5 as (a & a0 & B1 & B2 & B3). assert (a = hl) by congruence. subst a.
      destruct (connect_early _ _ _ _ _ Hk D1) as (d & enc & rest & p0 & o & c & b & _ & FF). destruct (ff_attempt _ _ _ _ _ _ _ _ _ _ FF) as (hx & X1 & X2 & X3).
      assert (hx = a0) by congruence. subst hx. destruct (getEarlyDataParams k p0) as [ep|] eqn:Ep; [|destruct X3 as (_ & X3 & _); congruence].
      destruct X3 as (q' & h & t & x0 & th & -> & _ & _ & _ & X3 & _).
      pose proof (co_psk _ _ _ _ G3) as Hcp. rewrite G4 in Hcp. destruct Hcp as (w1 & cn1 & (L' & HL') & Hq & _).
      destruct (validatePsk_ok _ _ _ _ (ff_psk _ _ _ _ _ _ _ _ _ _ FF)) as (Hv & _).
      assert (cn1 = cn).
      { rewrite G2, HL' in D2. cbn [app] in D2. congruence. }
      subst cn1. assert (q' = q) by congruence. subst q'.
      assert (Hp : p = mkEarly (pk_version (cp_psk q)) (pk_cipher (cp_psk q)) (pk_server (cp_psk q)) (pk_client (cp_psk q)) (pk_alpn (cp_psk q)) (Some x0)) by congruence.
      rewrite Hp in R12, R13. cbn [ep_cipher ep_alpn] in R12, R13.
      exists L0, wq, Q, La, w, x, orig, (map CEmit outs), q. split; [rewrite G2; unfold Y; rewrite <- app_assoc; reflexivity|].
      split; [exact G3|]. split; [exact G6|]. split; [exact G4|]. split; [eapply wanted_ok, Ep|]. split; [congruence|]. split; assumption.
    + rewrite R9. destruct D7 as (G1 & G2). split; [exact G1|]. apply early_rejected_ext, G2.
    + rewrite R9. destruct D7 as (G1 & G2). split; [exact G1|]. apply early_accepted_ext, G2.
  - rewrite R5, R5', Hn. destruct (g_auth (c_neg s)) as [[| | |]|]; try (rewrite ccount_app, D8, HY; reflexivity).
    + right. destruct D8 as [A|(a & A & B)]; [congruence|]. exists a. split; [exact A|]. apply answered_ext; assumption.
    + apply answered_ext; assumption.
  - rewrite R4. destruct D9 as (G1 & G2). rewrite ccs_app, G1, HC. auto.
  - destruct (c_state s'); auto; (exists w, x, orig; split; [apply in_or_app; right; left; reflexivity|exact R14]).
Qed.

Lemma cert_request_full k s m orig s' outs : handle_cert_request k s m orig = Ok (s', outs) -> g_auth (c_neg s) = None /\
  exists hl hc l sel, c_hello s = Some hl /\ cr_context m = Some [] /\ getExtension KSignatureAlgorithms (cr_extensions m) = Ok (Some (XSignatureAlgorithms l)) /\
    match k_getCert k with Some f => f (h_sni hl) l (cr_extensions m) = Ok sel | None => sel = None end /\
    s' = cu_auth s CExpectingCertificate hc (c_chain s) sel (Some (match sel with Some _ => CaSent | None => CaNoMatch end)) (g_server (c_neg s)) (g_sig (c_neg s)) (g_comp (c_neg s)).
Proof.
  unfold handle_cert_request. intros H. bo H u E1. apply ensure_ok in E1. destruct (c_hctx s) as [hc|]; [|discriminate]. destruct (c_hello s) as [hl|]; [|discriminate].
  bo H ctx E2. apply deref_ok in E2. bo H u2 E3. apply ensure_ok in E3. bo H x E4. destruct x as [x|]; [|discriminate]. destruct x; try discriminate. bo H sel E5.
  match type of H with Ok (?st, _) = _ => assert (Hs' : s' = st) by congruence end. rewrite Hs'.
  split; [destruct (g_auth (c_neg s)); [discriminate|reflexivity]|]. eexists hl, _, _, sel. split; [reflexivity|]. split; [destruct ctx; [exact E2|discriminate]|]. split; [exact E4|].
  split; [destruct (k_getCert k); [exact E5|congruence]|]. reflexivity.
Qed.
Lemma cert_msg_full k w s m algo orig s' outs : handle_cert_msg k w s m algo orig = Ok (s', outs) ->
  exists hc certs, s' = cu_auth s CExpectingCertificateVerify hc (Some certs) (c_selected s)
      (Some (match g_auth (c_neg s) with Some a => a | None => CaNotRequested end)) (g_server (c_neg s)) (g_sig (c_neg s)) algo.
Proof.
  unfold handle_cert_msg. destruct (c_hctx s) as [hc|]; [|discriminate]. destruct (c_hello s) as [hl|]; [|discriminate]. intros H.
  bo H ctx E2. bo H u2 E3. bo H certs E4. bo H u3 E5. exists (hc_append hc orig), certs. congruence.
Qed.
(** The certificate messages change only the authentication state. *)
Lemma side_cert k log s s' w0 cn s0 outs0 X y : side k log s w0 cn s0 outs0 X -> 
  (c_state s = CExpectingCertificate \/ c_state s = CExpectingCertificateVerify) -> (c_state s' = CExpectingCertificate \/ c_state s' = CExpectingCertificateVerify \/ c_state s' = CExpectingFinished) ->
  c_hello s' = c_hello s -> c_ech s' = c_ech s -> c_earlyw s' = c_earlyw s -> c_ccs s' = c_ccs s -> g_early (c_neg s') = g_early (c_neg s) -> g_alpn (c_neg s') = g_alpn (c_neg s) ->
  ccs_sent [y] = 0%nat ->
  match g_auth (c_neg s') with
  | Some CaSent => exists a, c_selected s' = Some a /\ answered k (name_used cn s) (log ++ [y]) (Some a)
  | Some CaNoMatch => answered k (name_used cn s) (log ++ [y]) None
  | _ => ccount is_creq (log ++ [y]) = 0%nat
  end ->
  side k (log ++ [y]) s' w0 cn s0 outs0 (X ++ [y]).
Proof.
  intros D Hst Hst' F1 F2 F3 F4 F5 F6 Hy Ha. pose proof (side_log_app _ _ _ _ _ _ _ _ [y] D) as HL. destruct D as [D1 D2 D3 D4 D5 D6 D7 D8 D9 D10].
  assert (Hn : name_used cn s' = name_used cn s) by (unfold name_used; rewrite F2; reflexivity).
  assert (Hs1 : c_state s' <> CExpectingServerHello) by (intros E; rewrite E in Hst'; destruct Hst' as [|[|]]; discriminate).
  assert (Hs2 : c_state s' <> CExpectingEncryptedExtensions) by (intros E; rewrite E in Hst'; destruct Hst' as [|[|]]; discriminate).
  constructor; auto.
  - intros E. congruence.
  - rewrite F3. exact D4.
  - rewrite F1. exact D5.
  - rewrite F1, F2, Hn. exact D6.
  - rewrite F5. destruct (g_early (c_neg s)); auto.
    + exfalso. destruct D7 as (_ & [(E & _)|(E & _)]); rewrite E in Hst; destruct Hst; discriminate.
    + destruct D7 as (G1 & G2). split; [exact G1|]. apply early_rejected_ext, G2.
    + destruct D7 as (G1 & G2). split; [exact G1|]. apply early_accepted_ext, G2.
  - rewrite Hn. destruct (g_auth (c_neg s')) as [[| | |]|]; auto.
  - rewrite F4. destruct D9 as (G1 & G2). rewrite ccs_app, G1, Hy. auto.
  - assert (HD : alpn_of log (g_alpn (c_neg s))) by (destruct Hst as [E|E]; rewrite E in D10; exact D10). rewrite F6. destruct (c_state s'); auto; apply alpn_of_ext, HD.
Qed.
Lemma side_msg k log s w m orig s' w0 cn s0 outs0 X : side k log s w0 cn s0 outs0 X -> chs_msg m -> chstep k w s (ERead (EvHandshake m orig)) s' [] ->
  side k (log ++ [CRecv w (EvHandshake m orig)]) s' w0 cn s0 outs0 (X ++ [CRecv w (EvHandshake m orig)]).
Proof.
  intros D Hm H.
  assert (Hcert : forall s' algo mm y, c_state s = CExpectingCertificate -> handle_cert_msg k w s mm algo orig = Ok (s', []) -> is_creq y = false -> ccs_sent [y] = 0%nat ->
     side k (log ++ [y]) s' w0 cn s0 outs0 (X ++ [y])).
  { intros s1 algo mm y Hst E Hy Hy2. apply cert_msg_full in E. destruct E as (hc & certs & ->).
    assert (Hy3 : ccount is_creq [y] = 0%nat) by (unfold ccount; cbn [filter]; rewrite Hy; reflexivity).
    pose proof (sd_auth _ _ _ _ _ _ _ _ D) as D8.
    apply (side_cert _ _ _ _ _ _ _ _ _ _ D); cbn; auto. destruct (g_auth (c_neg s)) as [[| | |]|]; try (rewrite ccount_app, D8, Hy3; reflexivity).
    - destruct D8 as [A|(a & A & B)]; [congruence|]. exists a. split; [exact A|]. apply answered_ext; assumption.
    - apply answered_ext; assumption. }
  remember (ERead (EvHandshake m orig)) as ev eqn:Eev. remember (@nil cout) as outs eqn:Eo. destruct H; try discriminate; try (injection Eev as <- <-; contradiction); rewrite Eo in *; injection Eev as <- <-.
  - apply cert_request_full in H0. destruct H0 as (G1 & hl & hc & l & sel & G2 & G3 & G4 & G5 & ->).
    pose proof (sd_auth _ _ _ _ _ _ _ _ D) as D8. rewrite G1 in D8.
    destruct (sd_sni _ _ _ _ _ _ _ _ D) as (hl2 & G6 & G7 & _). assert (hl2 = hl) by congruence. subst hl2. rewrite G7 in G5.
    assert (Ha : answered k (name_used cn s) (log ++ [CRecv w (EvHandshake (MCertificateRequest m0) orig0)]) sel).
    { exists log, w, m0, orig0, [], l. split; [reflexivity|]. split; [exact D8|]. split; [reflexivity|]. auto. }
    apply (side_cert _ _ _ _ _ _ _ _ _ _ D); cbn; auto. destruct sel as [a|]; [exists a; auto|exact Ha].
  - eapply Hcert; eauto.
  - apply compressed_ok in H0. destruct H0 as (_ & d & _ & H0). eapply Hcert; eauto.
  - destruct (cverify_ok _ _ _ _ _ _ H0) as (_ & hc & hl & leaf & rest & sg & c & _ & _ & _ & _ & _ & _ & _ & ->).
    pose proof (sd_auth _ _ _ _ _ _ _ _ D) as D8.
    apply (side_cert _ _ _ _ _ _ _ _ _ _ D); cbn; auto. destruct (g_auth (c_neg s)) as [[| | |]|]; try (rewrite ccount_app, D8; reflexivity).
    + destruct D8 as [A|(a & A & B)]; [congruence|]. exists a. split; [exact A|]. apply answered_ext; [assumption|reflexivity].
    + apply answered_ext; [assumption|reflexivity].
Qed.
Lemma finished_delta k s vd orig s' outs : chandle_finished k s vd orig = CHOk s' outs ->
  c_earlyw s' = None /\ c_ccs s' = (c_ccs s || k_compat k) /\ c_hello s' = c_hello s /\ c_ech s' = c_ech s /\ g_early (c_neg s') = g_early (c_neg s) /\ g_auth (c_neg s') = g_auth (c_neg s) /\
  g_alpn (c_neg s') = g_alpn (c_neg s).
Proof.
  unfold chandle_finished. destruct (c_hctx s) as [hc|]; [|discriminate]. destruct (c_secrets s) as [[cs ss]|]; [|discriminate]. destruct (c_ks s) as [[h k0]|]; [|discriminate].
  destruct (g_version (c_neg s)) as [v|] eqn:Ev; [|discriminate]. destruct (g_cipher (c_neg s)) as [ci|] eqn:Eci; [|discriminate]. destruct (g_auth (c_neg s)) as [au|] eqn:Eau; [|discriminate].
  destruct (cno_unparsed s) as [[|]|]; try discriminate. destruct (hc_finished hc ss) as [ex0|]; [|discriminate]. destruct vd as [got|]; [|discriminate].
  destruct (negb (crypto_equal ex0 got)); [discriminate|]. cbv zeta. destruct (finished_prepare k s (hc_append hc orig) cs h k0 au) as [[[[[[eoed msgs] ccert] ems] rms] k1]|]; [|discriminate].
  intros H. apply cwith_write_ok in H. destruct H as (wl & wl' & ct & _ & _ & H).
  match type of H with match ?x with Ok _ => _ | Err _ => _ end = _ => destruct x as [[[[[k3 ws] wl2] rs] rl]|] end; [|discriminate].
  assert (Hs : forall st : cstate, c_earlyw st = None /\ c_ccs st = (c_ccs s || k_compat k) /\ c_hello st = c_hello s /\ c_ech st = c_ech s /\ g_early (c_neg st) = g_early (c_neg s) /\
     g_auth (c_neg st) = Some au /\ g_alpn (c_neg st) = g_alpn (c_neg s) -> s' = st -> c_earlyw s' = None /\ c_ccs s' = (c_ccs s || k_compat k) /\ c_hello s' = c_hello s /\ c_ech s' = c_ech s /\ g_early (c_neg s') = g_early (c_neg s) /\ g_auth (c_neg s') = Some au /\ g_alpn (c_neg s') = g_alpn (c_neg s)).
  { intros st Hst ->. exact Hst. }
  destruct (c_ech s) as [e|] eqn:Ee.
  - destruct (ec_status e).
    + injection H as E _. eapply Hs; [|symmetry; exact E]. cbn. rewrite ?Ee, ?Eau. auto 10.
    + match type of H with match ?x with Ok _ => _ | Err _ => _ end = _ => destruct x as [al|[]] end; try discriminate;
        injection H as E _; (eapply Hs; [|symmetry; exact E]); cbn; rewrite ?Ee, ?Eau; auto 10.
    + injection H as E _. eapply Hs; [|symmetry; exact E]. cbn. rewrite ?Ee, ?Eau. auto 10.
  - injection H as E _. eapply Hs; [|symmetry; exact E]. cbn. rewrite ?Ee, ?Eau. auto 10.
Qed.
Lemma flight_ccs k s G F : cflight k s G F -> (ccs_sent [CEmit (KWrite (z_cs F))] + b2n (c_ccs s))%nat = b2n (c_ccs s || k_compat k).
Proof.
  intros (eoc & eo & au & fin & ct & E & T1 & _ & _ & _ & H & _). rewrite E. apply ccs_first_sent.
  destruct (match g_early (c_neg s) with CeAccepted => negb (k_omitEarly k) | _ => false end).
  - destruct H as (_ & c & wl & wl' & -> & T2 & _). cbn [filter app]. rewrite T1, T2. reflexivity.
  - destruct H as (_ & ->). cbn [filter app]. rewrite T1. reflexivity.
Qed.
Lemma side_finished k log s w vd orig s' G F w0 cn s0 outs0 X : side k log s w0 cn s0 outs0 X -> c_state s = CExpectingFinished ->
  chandle_finished k s vd orig = CHOk s' (z_outs G F ++ [KSuccess (z_early F)]) -> cflight k s G F -> c_state s' = CEstablished ->
  side k (log ++ CRecv w (EvHandshake (MFinished vd) orig) :: map CEmit (z_outs G F ++ [KSuccess (z_early F)])) s' w0 cn s0 outs0
   (X ++ CRecv w (EvHandshake (MFinished vd) orig) :: map CEmit (z_outs G F ++ [KSuccess (z_early F)])).
Proof.
  intros D Hst H HF Hst'. apply finished_delta in H. destruct H as (F1 & F2 & F3 & F4 & F5 & F6 & F7). apply flight_ccs in HF.
  set (Y := CRecv w (EvHandshake (MFinished vd) orig) :: map CEmit (z_outs G F ++ [KSuccess (z_early F)])).
  assert (HY : ccount is_creq Y = 0%nat) by apply (creq_emits (z_outs G F ++ [KSuccess (z_early F)])).
  assert (HC : ccs_sent Y = ccs_sent [CEmit (KWrite (z_cs F))]) by reflexivity.
  pose proof (side_log_app _ _ _ _ _ _ _ _ Y D) as HL. destruct D as [D1 D2 D3 D4 D5 D6 D7 D8 D9 D10].
  assert (Hn : name_used cn s' = name_used cn s) by (unfold name_used; rewrite F4; reflexivity).
  constructor; auto.
  - intros E. congruence.
  - left. exact F1.
  - rewrite F3. exact D5.
  - rewrite F3, F4, Hn. exact D6.
  - rewrite F5. destruct (g_early (c_neg s)); auto.
    + exfalso. destruct D7 as (_ & [(E & _)|(E & _)]); congruence.
    + destruct D7 as (G1 & G2). split; [exact G1|]. apply early_rejected_ext, G2.
    + destruct D7 as (G1 & G2). split; [exact G1|]. apply early_accepted_ext, G2.
  - rewrite F6, Hn. destruct (g_auth (c_neg s)) as [[| | |]|]; try (rewrite ccount_app, D8, HY; reflexivity).
    + left. exact Hst'.
    + apply answered_ext; assumption.
  - rewrite F2, ccs_app, HC. destruct D9 as (G1 & G2). rewrite G1. split; [lia|]. intros E. apply orb_true_iff in E. destruct E; auto.
  - rewrite Hst', F7. rewrite Hst in D10. apply alpn_of_ext, D10.
Qed.
Lemma crekey_frame k s f s' outs : (forall s1 ws s2, f s1 ws = CHOk s2 outs -> sframe s2 = sframe s1 /\ c_earlyw s2 = c_earlyw s1 /\ c_ccs s2 = c_ccs s1) ->
  crekey_write k s f = CHOk s' outs -> sframe s' = sframe s /\ c_earlyw s' = c_earlyw s /\ c_ccs s' = c_ccs s.
Proof.
  intros Hf H. apply crekey_write_ok in H. destruct H as (h & k0 & version & cipher & k' & ws & wl2 & R1 & R2 & R3 & R4 & R5 & R6 & H). apply Hf in H. exact H.
Qed.
Lemma ku_init_frame k s req s' outs : chandle_ku_init k s req = CHOk s' outs -> sframe s' = sframe s /\ c_earlyw s' = c_earlyw s /\ c_ccs s' = c_ccs s.
Proof.
  unfold chandle_ku_init. intros H. destruct (cno_unparsed s) as [[|]|]; try discriminate. destruct (encodeHandshake (MKeyUpdate req)) as [m|]; [|discriminate].
  apply cwith_write_ok in H. destruct H as (wl & wl' & ct & G1 & G2 & H). eapply crekey_frame in H; [exact H|].
  intros s1 ws s2 E. injection E as <- _. auto.
Qed.
Lemma ku_frame k s req s' outs : chandle_ku k s req = CHOk s' outs -> sframe s' = sframe s /\ c_earlyw s' = c_earlyw s /\ c_ccs s' = c_ccs s.
Proof.
  unfold chandle_ku. intros H. destruct (cno_unparsed s) as [[|]|]; try discriminate. destruct (c_ks s) as [[h k0]|]; [|discriminate].
  destruct (g_version (c_neg s)) as [v|]; [|discriminate]. destruct (g_cipher (c_neg s)) as [ci|]; [|discriminate].
  match type of H with match ?x with Ok _ => _ | Err _ => _ end = _ => destruct x as [[[k' rs] rl]|] end; [|discriminate]. cbv zeta in H.
  destruct (req =? 0).
  - injection H as <- _. auto.
  - destruct (encodeHandshake (MKeyUpdate 0)) as [m|]; [|discriminate]. apply cwith_write_ok in H. destruct H as (wl & wl' & ct & G1 & G2 & H).
    eapply crekey_frame in H; [exact H|]. intros s1 ws s2 E. injection E as <- _. auto.
Qed.
Lemma not_sh s a : c_state s = a -> a <> CExpectingServerHello -> forall P : Prop, c_state s = CExpectingServerHello -> P.
Proof. intros A B P C. congruence. Qed.
Lemma data_like wl q wl' ct : wl_write wl 23 q = (wl', Ok ct) -> (exists lv ws, wl = WEnc lv ws) -> earlyw_like (Some wl') (Some wl).
Proof.
  intros H (lv & ws & ->). destruct (wl_write_content _ _ _ _ _ H) as (_ & _ & _ & ws' & -> & E). right. exists lv, ws', ws. auto.
Qed.
Lemma quiet_early k b ct : ct_type ct = 23 -> cquiet (CEmit (KWrite (ccs_first k b ++ [ct]))) = true.
Proof.
  intros E. unfold cquiet. rewrite filter_app. cbn [filter]. unfold is_hs at 2. rewrite E. change (23 =? 22) with false. rewrite app_nil_r.
  unfold ccs_first. destruct (k_compat k && negb b); reflexivity.
Qed.
Lemma ccs_one ct : ct_type ct <> 20 -> ccs_sent [CEmit (KWrite [ct])] = 0%nat.
Proof. intros E. unfold ccs_sent. cbn [flat_map filter]. apply N.eqb_neq in E. rewrite E. reflexivity. Qed.
Lemma ccs_silent outs : (forall cs, ~ In (KWrite cs) outs) -> ccs_sent (map CEmit outs) = 0%nat.
Proof. intros H. apply emits_dull, H. Qed.
Lemma ccs_skip x l : match x with CEmit (KWrite _) => False | _ => True end -> ccs_sent (x :: l) = ccs_sent l.
Proof. unfold ccs_sent. destruct x as [| |o]; try reflexivity. destruct o; try reflexivity. intros []. Qed.
Lemma creq_skip w ev outs : (forall m o, ev <> ERead (EvHandshake (MCertificateRequest m) o)) -> ccount is_creq (centry_of w ev :: map CEmit outs) = 0%nat.
Proof.
  intros H. pose proof (creq_emits outs) as E. unfold ccount in *. cbn [filter]. destruct (is_creq (centry_of w ev)) eqn:Ec; [|exact E]. exfalso.
  destruct ev as [|x| | | |]; try discriminate. destruct x as [m o| | |]; try discriminate. destruct m; try discriminate. eapply H. reflexivity.
Qed.
Lemma live_state s a : c_state s = a -> live s -> match a with CClosed | CError | CCrash | CWriteSideClosed => False | _ => True end.
Proof. intros <- H. exact H. Qed.
Lemma sided_keep k log s : (c_read s <> None) -> sided k log s -> exists w0 cn s0 outs0 X, side k log s w0 cn s0 outs0 X.
Proof. intros H [(-> & _)|D]; [exfalso; apply H; reflexivity|exact D]. Qed.

Theorem creach_sided k l s log : cenv_ok k -> creach k l s log -> live s -> sided k log s.
Proof.
  intros Hk H Hl. revert l s log H Hl. apply creach_live; [exact Hk| | | |].
  - left. auto.
  - intros log s r r' Hr D. apply sided_keep in D; [|congruence]. destruct D as (w0 & cn & s0 & outs0 & X & D).
    right. exists w0, cn, s0, outs0, X. pose proof (side_same _ _ _ (cu_read s (Some r')) _ _ _ _ _ [] D eq_refl eq_refl eq_refl eq_refl (fun _ => eq_refl) eq_refl) as D'.
    rewrite !app_nil_r in D'. exact D'.
  - intros log s r n Hr D. apply sided_keep in D; [|congruence]. destruct D as (w0 & cn & s0 & outs0 & X & D).
    right. exists w0, cn, s0, outs0, (X ++ [CEmit (KWait n)]). apply (side_same _ _ s s _ _ _ _ _ [CEmit (KWait n)] D); reflexivity.
  - intros log s w ev s' outs Hs HP HD HA Hs'. right.
    assert (Hx : (exists cn, ev = EConnect cn) \/ exists w0 cn s0 outs0 X, side k log s w0 cn s0 outs0 X).
    { destruct HD as [(-> & ->)|D]; [|right; exact D]. left. destruct HA; eauto; exfalso; clear HP;
        repeat match goal with H : c_state c_init = _ |- _ => discriminate H | H : c_state c_init = _ \/ _ |- _ => destruct H end;
        try match goal with H : await _ _ c_init _ |- _ => pose proof (aw_state _ _ _ _ H); discriminate end;
        try match goal with H : chs_inv _ _ c_init _ _ |- _ => exact (xi_state _ _ _ _ _ H) end;
        try match goal with H : cno_unparsed c_init = _ |- _ => discriminate H end;
        try discriminate. }
    destruct Hx as [(cn & ->)|(w0 & cn & s0 & outs0 & X & D)].
    { inversion HA; subst; [|match goal with H : _ = _ \/ _ |- _ => destruct H as [?|(? & _)]; discriminate end]. eexists w, _, s', (KWrite [mkContent LvPlaintext 22 d (a_enc A)] :: rest), []. apply side_connect; assumption. }
    exists w0, cn, s0, outs0, (X ++ centry_of w ev :: map CEmit outs). destruct HA.
    + exfalso. pose proof (side_log_app _ _ _ _ _ _ _ _ [] D) as E. rewrite H0 in E. discriminate.
    + apply side_retry; auto. eapply aw_state; eassumption.
    + subst m orig. eapply side_hello; eassumption.
    + destruct (ee_ok _ _ _ _ _ _ _ H3) as (hl & hc & pt & EF). pose proof (ef_state _ _ _ _ _ _ _ _ EF) as E.
      eapply side_ee; eauto; rewrite E; destruct (pskAccepted pt); discriminate.
    + eapply side_msg; eassumption.
    + destruct H12 as [(-> & _ & E)|(E & _)]; [|exfalso; unfold live in Hs'; rewrite E in Hs'; exact Hs'].
      eapply side_finished; eassumption.
    + apply (side_same _ _ s s _ _ _ _ _ _ D); reflexivity || (intros E; congruence).
    + apply (side_same _ _ s s _ _ _ _ _ _ D); reflexivity || (intros E; congruence).
    + apply (side_same _ _ s (cu_write s (Some wl')) _ _ _ _ _ _ D); try reflexivity; try (destruct H3 as [->|(-> & _)]; reflexivity).
      * intros E. congruence.
      * rewrite ccs_skip by (destruct H3 as [->|(-> & _)]; exact Logic.I). apply ccs_one. rewrite H6. discriminate.
    + apply (side_same _ _ s s _ _ _ _ _ _ D); reflexivity.
    + apply (side_frame _ _ s _ _ _ _ _ _ _ D); try reflexivity.
      * cbn [cu_early c_earlyw]. rewrite H2. eapply data_like; [exact H3|].
        destruct (sd_earlyw _ _ _ _ _ _ _ _ D) as [E|(lv & ws & ws0 & E & _)]; [congruence|]. exists lv, ws. congruence.
      * intros _. cbn [map forallb centry_of]. rewrite quiet_early by exact H4. reflexivity.
      * cbn [map centry_of]. rewrite ccs_skip by exact Logic.I. apply ccs_first_sent. cbn [filter]. rewrite H4. reflexivity.
      * cbn [cu_early c_ccs]. intros E. apply orb_true_iff in E. exact E.
    + destruct (ku_init_frame _ _ _ _ _ H3) as (E1 & E2 & E3). apply (side_same _ _ s s' _ _ _ _ _ _ D E1 E2 E3); try reflexivity.
      * intros E. congruence.
      * cbn [map centry_of]. rewrite !ccs_skip by exact Logic.I. apply ccs_one. rewrite H6. discriminate.
    + destruct (ku_frame _ _ _ _ _ H4) as (E1 & E2 & E3). apply (side_same _ _ s s' _ _ _ _ _ _ D E1 E2 E3).
      * apply creq_skip. intros. discriminate.
      * intros E. congruence.
      * cbn [centry_of]. rewrite ccs_skip by exact Logic.I. destruct H7 as [(_ & ->)|(_ & ws & ct & wl & -> & _ & _ & E & _)]; [reflexivity|].
        cbn [map]. rewrite !ccs_skip by exact Logic.I. apply ccs_one. rewrite E. discriminate.
    + exfalso. unfold live in Hs'. rewrite H0 in Hs'. exact Hs'.
Qed.

(** ** Where an action comes from *)
Lemma cemit_more k l s log L1 o L2 : cenv_ok k -> creach k l s log -> log = L1 ++ CEmit o :: L2 ->
  (exists log1 s1 w ev s2 pre post L3, cphase k log1 s1 /\ (live s1 -> sided k log1 s1) /\
     (exists l1 s0, creach k l1 s0 log1 /\ c_state s0 = c_state s1 /\ c_neg s0 = c_neg s1) /\
     cacts k log1 w s1 ev s2 (pre ++ o :: post) /\ L1 = log1 ++ centry_of w ev :: map CEmit pre /\ L2 = map CEmit post ++ L3) \/ cdull o.
Proof.
  intros Hk H Hl. destruct (cemit_origin _ _ _ _ _ _ _ H Hl) as (l1 & s1 & log1 & w & i & s2 & outs & pre & post & L3 & H1 & H2 & -> & -> & HL3).
  pose proof (creach_phase _ _ _ _ Hk H1) as HP. pose proof (creach_sided _ _ _ _ Hk H1) as HS. apply cstep_cases in H2.
  destruct H2 as [ev R1 R2 R3|r b r' b' x R1 R2 R3 R4 R5|r b r' b' hint R1 R2 R3 R4 R5 R6|R1 R2 R3 R4 R5|a R1 R2 R3 R4|R1 R2|R1 R2 R3 R4 R5].
  - left. exists log1, s1, w, ev, s2, pre, post, L3. rewrite R1, (ccall_entry _ _ _ R2). split; [exact HP|]. split; [exact HS|]. split; [exists l1, s1; auto|]. split; [apply chstep_acts; assumption|]. auto.
  - left. exists log1, (cu_read s1 (Some r')), w, (ERead x), s2, pre, post, L3. rewrite R4. assert (HP' : cphase k log1 (cu_read s1 (Some r'))) by (eapply cread_phase; eassumption).
    split; [exact HP'|]. split; [|split; [exists l1, s1; auto|]; split; [apply chstep_acts; assumption|auto]].
    intros Hv. specialize (HS Hv). apply sided_keep in HS; [|congruence]. destruct HS as (w0 & cn & s0 & outs0 & X & D).
    right. exists w0, cn, s0, outs0, X. pose proof (side_same _ _ _ (cu_read s1 (Some r')) _ _ _ _ _ [] D eq_refl eq_refl eq_refl eq_refl (fun _ => eq_refl) eq_refl) as D'.
    rewrite !app_nil_r in D'. exact D'.
  - right. symmetry in R6. apply one_elem in R6. destruct R6 as (_ & _ & ->). left. eauto.
  - right. destruct R5 as (a & [E|(d & ct & wl & _ & _ & Ec & E)]).
    + symmetry in E. apply one_elem in E. destruct E as (_ & _ & ->). right. left. eauto.
    + destruct pre as [|? [|? [|? ?]]]; try discriminate.
      * injection E as -> _. right. right. exists ct. split; [reflexivity|]. rewrite Ec. reflexivity.
      * injection E as _ -> _. right. left. eauto.
  - right. symmetry in R4. apply one_elem in R4. destruct R4 as (_ & _ & ->). right. left. eauto.
  - destruct pre; discriminate.
  - right. destruct R5 as [E|(wl & ct & _ & Ec & E)]; [destruct pre; discriminate|].
    symmetry in E. apply one_elem in E. destruct E as (_ & _ & ->). right. right. exists ct. split; [reflexivity|]. rewrite Ec. reflexivity.
Qed.
Lemma cemit_full k l s log L1 o L2 : cenv_ok k -> creach k l s log -> log = L1 ++ CEmit o :: L2 ->
  (exists log1 s1 w ev s2 pre post L3, cphase k log1 s1 /\ (live s1 -> sided k log1 s1) /\
     cacts k log1 w s1 ev s2 (pre ++ o :: post) /\ L1 = log1 ++ centry_of w ev :: map CEmit pre /\ L2 = map CEmit post ++ L3) \/ cdull o.
Proof.
  intros Hk H Hl. destruct (cemit_more _ _ _ _ _ _ _ Hk H Hl) as [(log1 & s1 & w & ev & s2 & pre & post & L3 & A & B & _ & C)|D]; [left; exists log1, s1, w, ev, s2, pre, post, L3; auto|right; exact D].
Qed.
Lemma sided_hs k log s : live s -> c_state s <> CUninitialized -> (live s -> sided k log s) -> exists w0 cn s0 outs0 X, side k log s w0 cn s0 outs0 X.
Proof. intros A B C. destruct (C A) as [(-> & _)|D]; [exfalso; apply B; reflexivity|exact D]. Qed.
Lemma plain_early k log s w0 cn s0 outs0 X wl q ty wl' c : cenv_ok k -> side k log s w0 cn s0 outs0 X -> c_earlyw s = Some wl -> wl_write wl ty q = (wl', Ok c) ->
  ct_level c = LvEarlyData.
Proof.
  intros Hk D E Hw. destruct (sd_earlyw _ _ _ _ _ _ _ _ D) as [A|(lv & ws & ws0 & A & B & _)]; [congruence|].
  destruct (connect_early _ _ _ _ _ Hk (sd_connect _ _ _ _ _ _ _ _ D)) as (d & enc & rest & p & o & c' & b & _ & FF).
  destruct (ff_attempt _ _ _ _ _ _ _ _ _ _ FF) as (hl & _ & _ & HE). assert (lv = LvEarlyData).
  { destruct (getEarlyDataParams k p) as [ep|]; [|destruct HE as (_ & _ & HE & _); congruence].
    destruct HE as (q0 & h & t & x & th & _ & _ & _ & _ & _ & HE & _). destruct (k_omitEarly k); [congruence|]. destruct HE as (ws1 & HE & _). congruence. }
  subst lv. assert (wl = WEnc LvEarlyData ws) by congruence. subst wl. apply wl_write_content in Hw. apply Hw.
Qed.
(** The messages of the client's flight are encrypted. *)
Lemma flight_plain k log s w0 cn s0 outs0 X G F : cenv_ok k -> side k log s w0 cn s0 outs0 X -> cflight k s G F -> filter plain_hs (z_cs F) = [].
Proof.
  intros Hk D (eoc & eo & au & fin & ct & -> & T1 & T2 & _ & _ & H & _). rewrite !filter_app.
  assert (E1 : filter plain_hs (ccs_first k (c_ccs s)) = []) by (unfold ccs_first; destruct (k_compat k && negb (c_ccs s)); reflexivity).
  assert (E2 : filter plain_hs [ct] = []) by (unfold plain_hs; cbn [filter]; rewrite T2, andb_false_r; reflexivity).
  assert (E3 : filter plain_hs eoc = []).
  { destruct (match g_early (c_neg s) with CeAccepted => negb (k_omitEarly k) | _ => false end).
    - destruct H as (_ & c & wl & wl' & -> & _ & _ & A & B). unfold plain_hs. cbn [filter]. rewrite (plain_early _ _ _ _ _ _ _ _ _ _ _ _ _ Hk D A B), andb_false_r. reflexivity.
    - destruct H as (_ & ->). reflexivity. }
  rewrite E1, E2, E3. reflexivity.
Qed.
Lemma plain_origin k l s L1 cs L2 c : cenv_ok k -> creach k l s (L1 ++ CEmit (KWrite cs) :: L2) -> In c cs -> plain_hs c = true ->
  (exists w cn s' rest, L1 = [CCall w (JConnect cn)] /\ cs = [mkContent LvPlaintext 22 (ct_data c) (ct_plain c)] /\ handle_connect k w c_init cn = Ok (s', KWrite cs :: rest)) \/
  (exists log1 w m orig s1 s' A A' w0 cn s0 outs0 X, L1 = log1 ++ [CRecv w (EvHandshake (MHelloRetryRequest m) orig)] /\ cs = ccs_first k (c_ccs s1) ++ [c] /\
     handle_retry k w s1 m orig = Ok (s', [KWrite cs]) /\ await k log1 s1 A /\ await k (L1 ++ [CEmit (KWrite cs)]) s' A' /\ ct_plain c = a_enc A' /\
     side k log1 s1 w0 cn s0 outs0 X).
Proof.
  intros Hk Hr Hin Hp.
  destruct (cemit_full _ _ _ _ _ _ _ Hk Hr eq_refl) as [(log1 & s1 & w & ev & s2 & pre & post & L3 & HP & HS & HA & -> & _)|D].
  2:{ destruct D as [(n & [=])|[(a & [=])|(ct & [= ->] & E)]]. destruct Hin as [<-|[]]. unfold plain_hs, is_hs in Hp. rewrite E in Hp. discriminate. }
  assert (Hone : forall ct t, [KWrite [ct]] = pre ++ KWrite cs :: post -> ct_type ct = t -> t <> 22 -> False).
  { intros ct t E Et Hn. apply one_elem in E. destruct E as (_ & _ & [= ->]). destruct Hin as [<-|[]]. unfold plain_hs, is_hs in Hp. rewrite Et in Hp. apply N.eqb_neq in Hn. rewrite Hn in Hp. discriminate. }
  assert (Hccs : forall b ct, In c (ccs_first k b ++ [ct]) -> c = ct).
  { intros b ct Hi. apply in_app_or in Hi. destruct Hi as [Hi|[Hi|[]]]; [|auto]. exfalso. unfold ccs_first in Hi. destruct (k_compat k && negb b); [|exact Hi].
    destruct Hi as [<-|[]]. discriminate. }
  remember (pre ++ KWrite cs :: post) as outs eqn:Eo. destruct HA.
  - left. assert (Hpre : pre = [] /\ cs = [mkContent LvPlaintext 22 d enc] /\ post = rest).
    { destruct H2 as [->|(t & mx & x & ->)]; [apply one_elem in Eo; destruct Eo as (-> & -> & [= ->]); auto|].
      destruct pre as [|? [|? [|? [|? [|? ?]]]]]; try discriminate. injection Eo as <- <-. auto. }
    destruct Hpre as (-> & -> & ->). destruct Hin as [<-|[]]. exists w, cn, s', rest. rewrite H0. cbn [map centry_of app ct_data ct_plain]. auto.
  - right. apply one_elem in Eo. destruct Eo as (-> & -> & [= ->]).
    pose proof (Hccs _ _ Hin) as Hct. subst ct. pose proof (aw_state _ _ _ _ H) as Est.
    destruct (sided_hs _ _ _ ltac:(unfold live; rewrite Est; exact Logic.I) ltac:(congruence) HS) as (w0 & cn & s0 & outs0 & X & D).
    exists log1, w, m, orig, s1, s', A, A', w0, cn, s0, outs0, X. cbn [map centry_of]. rewrite <- app_assoc. auto 10.
  - exfalso. rewrite (ah_outs _ _ _ _ _ _ _ H3) in Eo. destruct pre as [|? [|? [|? ?]]]; discriminate.
  - exfalso. destruct H4 as [->|(n & cs' & ->)]; [destruct pre; discriminate|]. apply one_elem in Eo. destruct Eo as (_ & _ & [=]).
  - exfalso. destruct pre; discriminate.
  - exfalso. destruct (sided_hs _ _ _ ltac:(unfold live; rewrite H; exact Logic.I) ltac:(congruence) HS) as (w0 & cn & s0 & outs0 & X & D).
    pose proof (flight_plain _ _ _ _ _ _ _ _ _ _ Hk D H11) as Hf.
    assert (Hcase : cs = z_cs F \/ exists al, cs = [al] /\ ct_type al = 21).
    { assert (Hc : In (KWrite cs) (z_outs G F ++ tail)) by (rewrite Eo; apply in_or_app; right; left; reflexivity). apply in_app_or in Hc. destruct Hc as [Hc|Hc].
      - left. unfold z_outs in Hc. cbn in Hc. intuition congruence.
      - right. destruct H12 as [(-> & _)|(_ & _ & _ & _ & _ & [->|(al & -> & Ea)])]; cbn in Hc; try (intuition discriminate). exists al. split; [|exact Ea]. intuition congruence. }
    destruct Hcase as [->|(al & -> & Ea)].
    + assert (Hb : In c (filter plain_hs (z_cs F))) by (apply filter_In; auto). rewrite Hf in Hb. exact Hb.
    + destruct Hin as [<-|[]]. unfold plain_hs, is_hs in Hp. rewrite Ea in Hp. discriminate.
  - exfalso. apply one_elem in Eo. destruct Eo as (_ & _ & [=]).
  - exfalso. apply one_elem in Eo. destruct Eo as (_ & _ & [=]).
  - exfalso. eapply (Hone ct 23); eauto. discriminate.
  - exfalso. apply one_elem in Eo. destruct Eo as (_ & _ & [=]).
  - exfalso. apply one_elem in Eo. destruct Eo as (_ & _ & [= ->]). apply Hccs in Hin. subst c. unfold plain_hs, is_hs in Hp. rewrite H4 in Hp. discriminate.
  - exfalso. destruct pre as [|? [|? [|? ?]]]; try discriminate. cbn [app] in Eo. assert (cs = [ct]) by congruence. subst cs. destruct Hin as [<-|[]]. unfold plain_hs in Hp. rewrite H7, andb_false_r in Hp. discriminate.
  - exfalso. assert (Hc : In (KWrite cs) outs) by (rewrite Eo; apply in_or_app; right; left; reflexivity).
    destruct H7 as [(_ & E)|(_ & ws & ct & wl & E & _ & _ & _ & El & _)]; rewrite E in Hc; cbn in Hc; try (intuition discriminate).
    assert (cs = [ct]) by intuition congruence. subst cs. destruct Hin as [<-|[]]. unfold plain_hs in Hp. rewrite El, andb_false_r in Hp. discriminate.
  - exfalso. assert (Hc : In (KWrite cs) outs) by (rewrite Eo; apply in_or_app; right; left; reflexivity).
    destruct H3 as [(_ & ct & E & Et & _)|(_ & E)]; rewrite E in Hc; cbn in Hc; try (intuition discriminate).
    assert (cs = [ct]) by intuition congruence. subst cs. destruct Hin as [<-|[]]. unfold plain_hs, is_hs in Hp. rewrite Et in Hp. discriminate.
Qed.
