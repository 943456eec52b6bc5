(** * The steps of a client connection *)
From Verif Require Import Base Codec CodecSpec Str Hkdf HkdfSpec HkdfProofs KeySched KeySchedSpec KeySchedProofs Handshake Extensions RecordBase Record
  ReadEvent HelloChecks Cookie Token Negotiate Ticket PskSer Kex Hpke Transcript IOBufUtil PropsIOBuf EchConfirm HpkeUtils EchCrypt Server
  ServerSpec ServerFacts ServerSteps PropsEch Client ClientSpec.
Open Scope N_scope.

(** ** Logs *)
Lemma clog_app k l1 : forall s l2, clog k s (l1 ++ l2) =
  let '(s1, L1) := clog k s l1 in let '(s2, L2) := clog k s1 l2 in (s2, L1 ++ L2).
Proof.
  induction l1 as [|[w i] l1 IH]; intros s l2; cbn [app clog].
  - destruct (clog k s l2); reflexivity.
  - destruct (cstep k w s i) as [s1 o1]. rewrite IH. destruct (clog k s1 l1) as [s2 L1]. destruct (clog k s2 l2) as [s3 L2].
    rewrite <- !app_assoc. reflexivity.
Qed.
Lemma creach_nil k : creach k [] c_init [].
Proof. reflexivity. Qed.
Lemma creach_snoc k l w i s log s' o : creach k l s log -> cstep k w s i = (s', o) ->
  creach k (l ++ [(w, i)]) s' (log ++ cinput_log w s i ++ map CEmit o).
Proof.
  unfold creach. intros H E. rewrite clog_app, H. cbn [clog]. rewrite E. rewrite app_nil_r. reflexivity.
Qed.
Lemma creach_rect k (P : cstate -> list centry -> Prop) :
  P c_init [] ->
  (forall l s log w i s' o, creach k l s log -> P s log -> cstep k w s i = (s', o) -> P s' (log ++ cinput_log w s i ++ map CEmit o)) ->
  forall l s log, creach k l s log -> P s log.
Proof.
  intros H0 HS l. induction l as [|[w i] l IH] using rev_ind; intros s log H.
  - injection H as <- <-. exact H0.
  - unfold creach in H. rewrite clog_app in H. destruct (clog k c_init l) as [s1 L1] eqn:E. cbn [clog] in H.
    destruct (cstep k w s1 i) as [s2 o] eqn:E2. injection H as <- <-. rewrite app_nil_r.
    eapply HS; [exact E|apply IH; exact E|exact E2].
Qed.
Lemma cemit_split o L1 x L2 : map CEmit o = L1 ++ x :: L2 -> exists p y q, o = p ++ y :: q /\ x = CEmit y /\ L1 = map CEmit p /\ L2 = map CEmit q.
Proof.
  revert L1. induction o as [|a o IH]; intros L1 H; [destruct L1; discriminate|].
  destruct L1 as [|b L1]; cbn in H.
  - exists [], a, o. injection H. intros <- <-. auto.
  - injection H. intros H1 <-. destruct (IH _ H1) as (p & y & q & -> & -> & -> & ->). exists (a :: p), y, q. auto.
Qed.
Lemma cinput_one w s i : cinput_log w s i = [] \/ cinput_log w s i = [CCall w i] \/ exists ev, cinput_log w s i = [CRecv w ev].
Proof.
  unfold cinput_log. destruct (c_state s); auto; destruct i; auto; destruct (c_read s) as [r|]; auto; destruct (read_event r b); eauto.
Qed.
(** An action in the log comes from one step. *)
Lemma cemit_origin k l s log L1 o L2 : creach k l s log -> log = L1 ++ CEmit o :: L2 ->
  exists l1 s1 log1 w i s2 outs pre post L3, creach k l1 s1 log1 /\ cstep k w s1 i = (s2, outs) /\ outs = pre ++ o :: post /\
    L1 = log1 ++ cinput_log w s1 i ++ map CEmit pre /\ L2 = map CEmit post ++ L3.
Proof.
  intros H. revert L1 L2. pattern s, log. eapply creach_rect; [| |exact H]; clear.
  - intros L1 L2 E. destruct L1; discriminate.
  - intros l s log w i s' o' Hr IH E L1 L2 Hl.
    destruct (split_app _ _ _ _ _ Hl) as [(r & Ha & Hr2)|(r & Hb & ->)].
    + destruct (IH _ _ Ha) as (l1 & s1 & log1 & w1 & i1 & s2 & outs & pre & post & L3 & A & B & C & D & F).
      exists l1, s1, log1, w1, i1, s2, outs, pre, post, (L3 ++ cinput_log w s i ++ map CEmit o').
      repeat (split; [assumption|]). rewrite Hr2, F, <- !app_assoc. reflexivity.
    + destruct (split_app _ _ _ _ _ Hb) as [(r2 & Hc & _)|(r2 & Hd & ->)].
      { exfalso. destruct (cinput_one w s i) as [Er|[Er|(ev & Er)]]; rewrite Er in Hc; destruct r as [|? [|? ?]]; discriminate. }
      destruct (cemit_split _ _ _ _ Hd) as (p & y & q & -> & Hy & -> & ->). injection Hy as <-.
      exists l, s, log, w, i, s', (p ++ o :: q), p, q, []. rewrite app_nil_r. auto 10.
Qed.

(** ** Successful handlers *)
Inductive chstep (k : cenv) (w : cworld) (s : cstate) : cevent -> cstate -> list cout -> Prop :=
| Ct_connect cn s' outs : c_state s = CUninitialized -> handle_connect k w s cn = Ok (s', outs) -> chstep k w s (EConnect cn) s' outs
| Ct_retry m orig s' outs : c_state s = CExpectingServerHello -> handle_retry k w s m orig = Ok (s', outs) ->
    chstep k w s (ERead (EvHandshake (MHelloRetryRequest m) orig)) s' outs
| Ct_hello m orig s' outs : c_state s = CExpectingServerHello -> handle_server_hello k w s m orig = Ok (s', outs) ->
    chstep k w s (ERead (EvHandshake (MServerHello m) orig)) s' outs
| Ct_ee x orig s' outs : c_state s = CExpectingEncryptedExtensions -> handle_ee k w s x orig = Ok (s', outs) ->
    chstep k w s (ERead (EvHandshake (MEncryptedExtensions x) orig)) s' outs
| Ct_request m orig s' outs : c_state s = CExpectingCertificate -> handle_cert_request k s m orig = Ok (s', outs) ->
    chstep k w s (ERead (EvHandshake (MCertificateRequest m) orig)) s' outs
| Ct_certificate m orig s' outs : c_state s = CExpectingCertificate -> handle_cert_msg k w s m None orig = Ok (s', outs) ->
    chstep k w s (ERead (EvHandshake (MCertificate m) orig)) s' outs
| Ct_compressed m orig s' outs : c_state s = CExpectingCertificate -> handle_compressed_cert k w s m orig = Ok (s', outs) ->
    chstep k w s (ERead (EvHandshake (MCompressedCertificate m) orig)) s' outs
| Ct_verify m orig s' outs : c_state s = CExpectingCertificateVerify -> handle_cert_verify k s m orig = Ok (s', outs) ->
    chstep k w s (ERead (EvHandshake (MCertificateVerify m) orig)) s' outs
| Ct_finished vd orig s' outs : c_state s = CExpectingFinished -> chandle_finished k s vd orig = CHOk s' outs ->
    chstep k w s (ERead (EvHandshake (MFinished vd) orig)) s' outs
| Ct_ticket m orig s' outs : c_state s = CEstablished -> handle_ticket k w s m = Ok (s', outs) ->
    chstep k w s (ERead (EvHandshake (MNewSessionTicket m) orig)) s' outs
| Ct_deliver d : c_state s = CEstablished \/ c_state s = CWriteSideClosed -> chstep k w s (ERead (EvAppData d)) s [KDeliver d]
| Ct_write q wl wl' ct : c_state s = CEstablished -> c_write s = Some wl -> wl_write wl 23 q = (wl', Ok ct) ->
    chstep k w s (EAppWrite q) (cu_write s (Some wl')) [KWrite [ct]]
| Ct_late q wl wl' ct : c_state s = CEstablished -> g_early (c_neg s) = CeAccepted -> c_write s = Some wl -> wl_write wl 23 q = (wl', Ok ct) ->
    chstep k w s (EEarlyAppWrite q) (cu_write s (Some wl')) [KWrite [ct]]
| Ct_ignored q : (c_state s = CExpectingServerHello \/ c_state s = CExpectingEncryptedExtensions \/ c_state s = CExpectingCertificate \/
                  c_state s = CExpectingCertificateVerify \/ c_state s = CExpectingFinished \/ c_state s = CEstablished) ->
    g_early (c_neg s) = CeRejected -> chstep k w s (EEarlyAppWrite q) s [KEarlyWriteFailed q]
| Ct_early q wl wl' ct : (c_state s = CExpectingServerHello \/ c_state s = CExpectingEncryptedExtensions \/ c_state s = CExpectingFinished) ->
    k_omitEarly k = false -> g_early (c_neg s) = CeAttempted \/ g_early (c_neg s) = CeAccepted ->
    c_earlyw s = Some wl -> wl_write wl 23 q = (wl', Ok ct) ->
    chstep k w s (EEarlyAppWrite q) (cu_early s (Some wl') (c_ccs s || k_compat k)) [KWrite (ccs_first k (c_ccs s) ++ [ct])]
| Ct_ku_init req s' outs : c_state s = CEstablished -> chandle_ku_init k s req = CHOk s' outs -> chstep k w s (EKeyUpdate req) s' outs
| Ct_ku req orig s' outs : c_state s = CEstablished -> chandle_ku k s req = CHOk s' outs ->
    chstep k w s (ERead (EvHandshake (MKeyUpdate req) orig)) s' outs
| Ct_close post reply s' outs : c_state s = (if reply : bool then CEstablished else CWriteSideClosed) ->
    chandle_close s post reply = CHOk s' outs -> chstep k w s (ERead (EvClose post)) s' outs.

Lemma cof_res_ok s r s' outs : cof_res s r = CHOk s' outs -> r = Ok (s', outs).
Proof. destruct r as [[a b]|]; cbn; congruence. Qed.
Lemma cwith_write_ok s ty q f s' outs : cwith_write s ty q f = CHOk s' outs ->
  exists wl wl' ct, c_write s = Some wl /\ wl_write wl ty q = (wl', Ok ct) /\ f (cu_write s (Some wl')) ct = CHOk s' outs.
Proof.
  unfold cwith_write. destruct (c_write s) as [wl|]; [|discriminate]. destruct (wl_write wl ty q) as [wl' [ct|]] eqn:E; [|discriminate].
  intros H. exists wl, wl', ct. auto.
Qed.
Lemma ignore_ok s q s' outs : ignore_early s q = CHOk s' outs -> g_early (c_neg s) = CeRejected /\ s' = s /\ outs = [KEarlyWriteFailed q].
Proof. unfold ignore_early. destruct (g_early (c_neg s)); try discriminate. intros [= <- <-]. auto. Qed.
Lemma early_ok k w s q s' outs : (c_state s = CExpectingServerHello \/ c_state s = CExpectingEncryptedExtensions \/ c_state s = CExpectingFinished) ->
  handle_early k s q = CHOk s' outs -> chstep k w s (EEarlyAppWrite q) s' outs.
Proof.
  intros Hs. unfold handle_early. destruct (k_omitEarly k) eqn:Eo; [discriminate|].
  assert (Hi : ignore_early s q = CHOk s' outs -> chstep k w s (EEarlyAppWrite q) s' outs).
  { intros H. apply ignore_ok in H. destruct H as (E & -> & ->). apply Ct_ignored; [tauto|exact E]. }
  assert (Hw : g_early (c_neg s) = CeAttempted \/ g_early (c_neg s) = CeAccepted ->
    match c_earlyw s with
      | None => CHErr s EUB
      | Some wl =>
          let '(wl', r) := wl_write wl 23 q in
          match r with
          | Ok ct => CHOk (cu_early s (Some wl') (c_ccs s || k_compat k)) [KWrite (ccs_first k (c_ccs s) ++ [ct])]
          | Err e => CHErr (cu_early s (Some wl') (c_ccs s)) e
          end
      end = CHOk s' outs -> chstep k w s (EEarlyAppWrite q) s' outs).
  { intros Hg H. destruct (c_earlyw s) as [wl|] eqn:El; [|discriminate]. destruct (wl_write wl 23 q) as [wl' [ct|]] eqn:Ew; [|discriminate].
    injection H as <- <-. eapply Ct_early; eassumption. }
  destruct (g_early (c_neg s)); auto; discriminate.
Qed.
Lemma chandle_ok k w s ev s' outs : chandle k w s ev = CHOk s' outs -> chstep k w s ev s' outs.
Proof.
  unfold chandle.
  assert (Hi : match ev with ERead (EvAlert _) => CHSilent s | _ => CHErr s (alert al_unexpected_message) end = CHOk s' outs ->
          chstep k w s ev s' outs) by (intros H; destruct ev as [|y| | | |]; try discriminate; destruct y; discriminate).
  destruct (c_state s) eqn:Es; destruct ev as [cn|ev| |q|q|req]; try exact Hi.
  all: try (destruct ev as [m orig|a|p|d]; try exact Hi; try (destruct m; try exact Hi)).
  all: try (apply early_ok; auto; fail).
  all: try (intros H; apply ignore_ok in H; destruct H as (E & -> & ->); apply Ct_ignored; [rewrite Es; tauto|exact E]; fail).
  - intros H. apply cof_res_ok in H. apply Ct_connect; assumption.
  - intros H. apply cof_res_ok in H. apply Ct_hello; assumption.
  - intros H. apply cof_res_ok in H. apply Ct_retry; assumption.
  - intros H. apply cof_res_ok in H. apply Ct_ee; assumption.
  - intros H. apply cof_res_ok in H. first [apply Ct_certificate|apply Ct_compressed|apply Ct_request]; assumption.
  - intros H. apply cof_res_ok in H. first [apply Ct_certificate|apply Ct_compressed|apply Ct_request]; assumption.
  - intros H. apply cof_res_ok in H. first [apply Ct_certificate|apply Ct_compressed|apply Ct_request]; assumption.
  - intros H. apply cof_res_ok in H. apply Ct_verify; assumption.
  - intros H. apply Ct_finished; assumption.
  - intros H. apply cof_res_ok in H. apply Ct_ticket; assumption.
  - intros H. apply Ct_ku; assumption.
  - intros H. eapply (Ct_close k w s p true); assumption.
  - intros [= <- <-]. apply Ct_deliver. auto.
  - intros H. apply cwith_write_ok in H. destruct H as (wl & wl' & ct & E1 & E2 & [= <- <-]). eapply Ct_write; eauto.
  - unfold handle_late_early. destruct (g_early (c_neg s)) eqn:Eg; intros H;
      try (apply ignore_ok in H; destruct H as (E & -> & ->); apply Ct_ignored; [rewrite Es; tauto|congruence]).
    apply cwith_write_ok in H. destruct H as (wl & wl' & ct & E1 & E2 & [= <- <-]). eapply Ct_late; eauto.
  - intros H. apply Ct_ku_init; assumption.
  - intros H. eapply (Ct_close k w s p false); assumption.
  - intros [= <- <-]. apply Ct_deliver. auto.
Qed.

(** ** All steps *)
(** After these nothing is sent or received any more, but for the rest of the peer's data in [CWriteSideClosed]. *)
Definition cterminal (s : cstate) : Prop := match c_state s with CClosed | CError | CCrash => True | _ => False end.
Definition ccall_of (i : cinput) : option cevent :=
  match i with JConnect cn => Some (EConnect cn) | JNewTicket => Some ENewTicket | JAppWrite q => Some (EAppWrite q)
  | JEarlyAppWrite q => Some (EEarlyAppWrite q) | JKeyUpdate r => Some (EKeyUpdate r) | _ => None end.
(** Outputs of a failing step: an alert at most, then the error. *)
Definition cfail_outs (s : cstate) (outs : list cout) : Prop :=
  exists a, outs = [KError a] \/
    (exists d ct wl, a = Some d /\ c_write s = Some wl /\ ct = mkContent (ct_level ct) 21 (ct_data ct) (alert_bytes d) /\ outs = [KWrite [ct]; KError a]).

Inductive cstep_case (k : cenv) (w : cworld) (s : cstate) (i : cinput) (s' : cstate) (outs : list cout) : Prop :=
| CC_call ev : cinput_log w s i = [CCall w i] -> ccall_of i = Some ev -> chstep k w s ev s' outs -> cstep_case k w s i s' outs
| CC_read r b r' b' x : i = JSocket b -> c_read s = Some r -> read_event r b = RMsg r' b' x -> cinput_log w s i = [CRecv w x] ->
    chstep k w (cu_read s (Some r')) (ERead x) s' outs -> cstep_case k w s i s' outs
| CC_wait r b r' b' hint : i = JSocket b -> c_read s = Some r -> read_event r b = RNeed r' b' hint -> cinput_log w s i = [] ->
    s' = cu_read s (Some r') -> outs = [KWait hint] -> cstep_case k w s i s' outs
| CC_fail : c_state s <> CError -> c_state s' = CError -> c_write s' = None -> c_read s' = None -> cfail_outs s outs ->
    cstep_case k w s i s' outs
| CC_failed a : c_state s = CError -> c_state s' = CError -> (c_write s = None -> c_write s' = None) -> outs = [KError a] -> cstep_case k w s i s' outs
| CC_crash : c_state s' = CCrash -> outs = [] -> cstep_case k w s i s' outs
| CC_close : cinput_log w s i = [CCall w i] -> (i = JAppClose \/ i = JAppCloseImmediate) ->
    (s' = cu_state (cu_write s None) CWriteSideClosed \/ c_state s' = CClosed) -> c_write s' = None ->
    (outs = [] \/ exists wl ct, c_write s = Some wl /\
        ct = mkContent (ct_level ct) 21 (ct_data ct) (alert_bytes 0) /\ outs = [KWrite [ct]]) ->
    cstep_case k w s i s' outs.

Definition cerr_state (r : chres) : option cstate := match r with CHOk _ _ => None | CHErr s _ => Some s | CHSilent s => Some s end.
Definition csame_ctl (s s1 : cstate) : Prop := c_state s1 = c_state s /\ (c_write s = None -> c_write s1 = None).
Lemma csame_refl s : csame_ctl s s. Proof. split; auto. Qed.
Lemma csame_trans a b c : csame_ctl a b -> csame_ctl b c -> csame_ctl a c.
Proof. unfold csame_ctl. intros [H1 H2] [H3 H4]. split; [congruence|auto]. Qed.
Lemma cwith_write_err s ty q f s1 : (forall wl ct x, cerr_state (f (cu_write s (Some wl)) ct) = Some x -> c_state x = c_state s) ->
  cerr_state (cwith_write s ty q f) = Some s1 -> csame_ctl s s1.
Proof.
  intros Hf. unfold cwith_write. destruct (c_write s) as [wl|] eqn:Ew; [|intros [= <-]; apply csame_refl].
  destruct (wl_write wl ty q) as [wl' [ct|]].
  - intros H. split; [eapply Hf, H|congruence].
  - intros [= <-]. split; [reflexivity|congruence].
Qed.
Lemma cof_res_err s r s1 : cerr_state (cof_res s r) = Some s1 -> s1 = s.
Proof. destruct r as [[]|]; cbn; congruence. Qed.
Lemma crekey_write_err k s f x : (forall s0 ct x, c_state s0 = c_state s -> cerr_state (f s0 ct) = Some x -> c_state x = c_state s) ->
  cerr_state (crekey_write k s f) = Some x -> c_state x = c_state s.
Proof.
  intros Hf. unfold crekey_write.
  destruct (c_ks s) as [[h kk]|]; [|intros [= <-]; reflexivity].
  destruct (g_version (c_neg s)); [|intros [= <-]; reflexivity]. destruct (g_cipher (c_neg s)); [|intros [= <-]; reflexivity].
  match goal with |- context [match ?x with Ok _ => _ | Err _ => _ end] => destruct x as [[[k' ws] wl]|] end.
  - apply Hf. reflexivity.
  - intros [= <-]. reflexivity.
Qed.
Lemma ignore_err s q s1 : cerr_state (ignore_early s q) = Some s1 -> s1 = s.
Proof. unfold ignore_early. destruct (g_early (c_neg s)); cbn; congruence. Qed.
Lemma early_err k s q s1 : cerr_state (handle_early k s q) = Some s1 -> csame_ctl s s1.
Proof.
  unfold handle_early. destruct (k_omitEarly k); [intros [= <-]; apply csame_refl|].
  destruct (g_early (c_neg s)) eqn:Eg; try (intros H; apply ignore_err in H; subst; apply csame_refl); try (intros [= <-]; apply csame_refl);
    (destruct (c_earlyw s) as [wl|]; [|intros [= <-]; apply csame_refl]; destruct (wl_write wl 23 q) as [wl' [ct|]]; [discriminate|]; intros [= <-]; split; auto).
Qed.
Lemma chandle_err k w s ev s1 : cerr_state (chandle k w s ev) = Some s1 -> csame_ctl s s1.
Proof.
  assert (Hi : cerr_state (match ev with ERead (EvAlert _) => CHSilent s | _ => CHErr s (alert al_unexpected_message) end) = Some s1 -> csame_ctl s s1).
  { intros H. assert (s1 = s) as -> by (destruct ev as [|y| | | |]; try (cbn in H; congruence); destruct y; cbn in H; congruence).
    apply csame_refl. }
  assert (Hr : forall r, cerr_state (cof_res s r) = Some s1 -> csame_ctl s s1) by (intros r H; apply cof_res_err in H; subst; apply csame_refl).
  assert (Hs : forall x, Some x = Some s1 -> x = s -> csame_ctl s s1) by (intros x [= <-] ->; apply csame_refl).
  assert (Hg : forall q, cerr_state (ignore_early s q) = Some s1 -> csame_ctl s s1) by (intros q H; apply ignore_err in H; subst; apply csame_refl).
  unfold chandle. destruct (c_state s) eqn:Es; destruct ev as [cn|ev| |q|q|req]; try exact Hi.
  all: try (destruct ev as [m orig|a|p|d]; try exact Hi; try (destruct m; try exact Hi)).
  all: try apply Hr.
  all: try apply early_err.
  all: try apply Hg.
  all: try discriminate.
  - unfold chandle_finished.
    destruct (c_hctx s) as [hc|]; [|intros H; eapply Hs; eauto].
    destruct (c_secrets s) as [[cs ss]|]; [|intros H; eapply Hs; eauto].
    destruct (c_ks s) as [[h kk]|]; [|intros H; eapply Hs; eauto].
    destruct (g_version (c_neg s)) as [v|]; [|intros H; eapply Hs; eauto].
    destruct (g_cipher (c_neg s)) as [ci|]; [|intros H; eapply Hs; eauto].
    destruct (g_auth (c_neg s)) as [au|]; [|intros H; eapply Hs; eauto].
    destruct (cno_unparsed s) as [[]|]; try (intros H; eapply Hs; eauto; fail).
    destruct (hc_finished hc ss) as [vd|]; [|intros H; eapply Hs; eauto].
    destruct verify_data as [got|]; [|intros H; eapply Hs; eauto].
    destruct (negb (crypto_equal vd got)); [intros H; eapply Hs; eauto|]. cbv zeta.
    destruct (finished_prepare _ _ _ _ _ _ _) as [[[[[[eoed msgs] cc] ems] rms] k1]|]; [|intros H; eapply Hs; eauto].
    apply cwith_write_err. intros wl ct x.
    match goal with |- context [match ?x with Ok _ => _ | Err _ => _ end] => destruct x as [[[[[k3 ws] wl'] rs] rl]|] end; [|intros [= <-]; reflexivity].
    destruct (c_ech s) as [e|]; [|discriminate]. destruct (ec_status e); try discriminate.
    match goal with |- context [match ?x with Ok _ => _ | Err _ => _ end] => destruct x as [al|[]] end; try discriminate; intros [= <-]; reflexivity.
  - unfold chandle_ku. destruct (cno_unparsed s) as [[]|]; try (intros H; eapply Hs; eauto; fail).
    destruct (c_ks s) as [[h kk]|]; [|intros H; eapply Hs; eauto].
    destruct (g_version (c_neg s)) as [v|]; [|intros H; eapply Hs; eauto].
    destruct (g_cipher (c_neg s)) as [ci|]; [|intros H; eapply Hs; eauto].
    match goal with |- context [match ?x with Ok _ => _ | Err _ => _ end] => destruct x as [[[k' rs] rl]|] end;
      [|intros H; eapply Hs; eauto].
    destruct (req =? 0); [discriminate|]. destruct (encodeHandshake _) as [m|]; [|intros [= <-]; split; auto].
    intros H. assert (Hx : csame_ctl (cu_ks s (Some (h, k'))) s1); [|exact Hx].
    eapply cwith_write_err; [|exact H]. intros wl ct x Hx. eapply eq_trans; [eapply crekey_write_err; [|exact Hx]; intros; discriminate|reflexivity].
  - unfold chandle_close. destruct (cno_unparsed s) as [[]|]; try (intros H; eapply Hs; eauto; fail).
    apply cwith_write_err. intros; discriminate.
  - apply cwith_write_err. intros; discriminate.
  - unfold handle_late_early. destruct (g_early (c_neg s)); try apply Hg. apply cwith_write_err. intros; discriminate.
  - unfold chandle_ku_init. destruct (cno_unparsed s) as [[]|]; try (intros H; eapply Hs; eauto; fail).
    destruct (encodeHandshake _) as [m|]; [|intros H; eapply Hs; eauto].
    apply cwith_write_err. intros wl ct x Hx. eapply eq_trans; [eapply crekey_write_err; [|exact Hx]; intros; discriminate|reflexivity].
  - unfold chandle_close. destruct (cno_unparsed s) as [[]|]; try (intros H; eapply Hs; eauto; fail). discriminate.
Qed.
Lemma chandle_in_error k w s ev : c_state s = CError -> chandle k w s ev = CHSilent s \/ exists x, chandle k w s ev = CHErr s (alert x).
Proof.
  intros H. unfold chandle. rewrite H. destruct ev as [cn|ev| |q|q|req]; eauto. destruct ev as [m orig|a|p|d]; eauto.
Qed.
Lemma chandle_error_case k w s0 s i a s' outs : csame_ctl s s0 -> c_state s <> CError ->
  chandle_error s0 a = (s', outs) -> cstep_case k w s i s' outs.
Proof.
  intros [Hs Hw] Hn. unfold chandle_error.
  assert (Hx : (match a, c_write s0 with
                | Some d, Some wl =>
                    match snd (wl_write wl 21 [alert_bytes d]) with
                    | Ok ct => (cu_state (cu_layers s0 None None) CError, [KWrite [ct]; KError a])
                    | Err ECheck | Err EUB => (cu_state s0 CCrash, [])
                    | Err _ => (cu_state (cu_layers s0 None None) CError, [KError a])
                    end
                | _, _ => (cu_state (cu_layers s0 None None) CError, [KError a])
                end) = (s', outs) -> cstep_case k w s i s' outs).
  { assert (H1 : forall o, cfail_outs s o -> (cu_state (cu_layers s0 None None) CError, o) = (s', outs) ->
               cstep_case k w s i s' outs).
    { intros o Hf [= <- <-]. apply CC_fail; auto. }
    assert (H2 : (cu_state s0 CCrash, @nil cout) = (s', outs) -> cstep_case k w s i s' outs).
    { intros [= <- <-]. apply CC_crash; reflexivity. }
    assert (H3 : (cu_state (cu_layers s0 None None) CError, [KError a]) = (s', outs) -> cstep_case k w s i s' outs).
    { apply H1. exists a. left. reflexivity. }
    destruct a as [d|]; [|exact H3]. destruct (c_write s0) as [wl|] eqn:E0; [|exact H3].
    destruct (wl_write wl 21 [alert_bytes d]) as [wl' [ct|er]] eqn:E; cbn [snd].
    - apply H1. exists (Some d). right.
      destruct (c_write s) as [wl0|] eqn:E1; [|specialize (Hw eq_refl); congruence].
      apply wl_write_content in E. destruct E as (E2 & E3 & _). cbn [concat] in E3. rewrite app_nil_r in E3.
      exists d, ct, wl0. repeat split; try exact E1. apply content_eta; assumption.
    - destruct er; assumption. }
  destruct (c_state s0) eqn:E0; try exact Hx. congruence.
Qed.
Lemma cerr_dec s : c_state s = CError \/ c_state s <> CError.
Proof. destruct (c_state s); auto; right; discriminate. Qed.
Lemma chandle_error_in s a : c_state s = CError -> chandle_error s a = (s, [KError a]).
Proof. intros E. unfold chandle_error. rewrite E. reflexivity. Qed.
Lemma chandle_error_any k w s i a s' outs : chandle_error s a = (s', outs) -> cstep_case k w s i s' outs.
Proof.
  intros H. destruct (cerr_dec s) as [Hd|Hd].
  - rewrite (chandle_error_in _ _ Hd) in H. injection H as <- <-. eapply CC_failed; auto.
  - eapply chandle_error_case; [apply csame_refl|exact Hd|exact H].
Qed.
Lemma cfinish_case k w s i s0 ev s' outs :
  csame_ctl s s0 -> c_write s0 = c_write s -> (forall s1 l, chandle k w s0 ev = CHOk s1 l -> cstep_case k w s i s1 l) ->
  cfinish (chandle k w s0 ev) = (s', outs) -> cstep_case k w s i s' outs.
Proof.
  intros Hc Hww Hok H. destruct (cerr_dec s) as [Hd|Hd].
  - assert (E0 : c_state s0 = CError) by (destruct Hc; congruence).
    destruct (chandle_in_error k w s0 ev E0) as [Eh|[x Eh]]; rewrite Eh in H; cbn [cfinish alert] in H; rewrite chandle_error_in in H by exact E0;
      injection H as <- <-; (eapply CC_failed; [exact Hd|exact E0|congruence|reflexivity]).
  - destruct (chandle k w s0 ev) as [s1 l|s1 er|s1] eqn:Eh; cbn [cfinish] in H.
    + injection H as <- <-. apply Hok; reflexivity.
    + assert (Hc1 : csame_ctl s s1) by (eapply csame_trans; [exact Hc|]; eapply chandle_err; rewrite Eh; reflexivity).
      destruct er as [[a|]| | | |]; try (eapply chandle_error_case; eassumption);
        injection H as <- <-; apply CC_crash; reflexivity.
    + assert (Hc1 : csame_ctl s s1) by (eapply csame_trans; [exact Hc|]; eapply chandle_err; rewrite Eh; reflexivity).
      eapply chandle_error_case; eassumption.
Qed.
Lemma cclose_failed_case k w s i wl wl' e s' outs : c_write s = Some wl -> cclose_failed s wl' e = (s', outs) -> cstep_case k w s i s' outs.
Proof.
  intros Hw. unfold cclose_failed.
  assert (Hc : csame_ctl s (cu_write s (Some wl'))) by (split; [reflexivity|congruence]).
  assert (Hx : forall a, chandle_error (cu_write s (Some wl')) a = (s', outs) -> cstep_case k w s i s' outs).
  { intros a H. destruct (cerr_dec s) as [Hd|Hd].
    - rewrite chandle_error_in in H by exact Hd. injection H as <- <-. eapply CC_failed; [exact Hd|exact Hd|congruence|reflexivity].
    - eapply chandle_error_case; eassumption. }
  destruct e as [[a|]| | | |]; try apply Hx; intros [= <- <-]; apply CC_crash; reflexivity.
Qed.
Lemma cstep_cases k w s i s' outs : cstep k w s i = (s', outs) -> cstep_case k w s i s' outs.
Proof.
  unfold cstep. intros H.
  assert (Hd : c_state s = CCrash \/ c_state s <> CCrash) by (destruct (c_state s); auto; right; discriminate).
  destruct Hd as [Hd|Hd].
  { rewrite Hd in H. injection H as <- <-. apply CC_crash; [exact Hd|reflexivity]. }
  assert (H' : match i with
      | JConnect cn => cprocess_event k w s (EConnect cn)
      | JSocket b => fst (cprocess_socket k w s b)
      | JNewTicket => cprocess_event k w s ENewTicket
      | JAppWrite q => cprocess_event k w s (EAppWrite q)
      | JEarlyAppWrite q => cprocess_event k w s (EEarlyAppWrite q)
      | JAppClose => capp_close s
      | JAppCloseImmediate => capp_close_immediate s
      | JKeyUpdate req => cprocess_event k w s (EKeyUpdate req)
      end = (s', outs)) by (destruct (c_state s); auto; contradiction).
  clear H.
  assert (Hrc : cinput_log w s i = match i with
      | JSocket b => match c_read s with Some r => match read_event r b with RMsg _ _ ev => [CRecv w ev] | _ => [] end | None => [] end
      | _ => [CCall w i] end) by (unfold cinput_log; destruct (c_state s); auto; contradiction).
  assert (Hcall : forall ev, cinput_log w s i = [CCall w i] -> ccall_of i = Some ev -> cprocess_event k w s ev = (s', outs) -> cstep_case k w s i s' outs).
  { intros ev E1 E3 E. eapply cfinish_case; [apply csame_refl|reflexivity| |exact E].
    intros s1 l Hh. eapply CC_call; [exact E1|exact E3|]. apply chandle_ok, Hh. }
  destruct i as [cn|b| |q|q| | |req]; try (apply Hcall in H'; [exact H'|exact Hrc|reflexivity]).
  - unfold cprocess_socket in H'. destruct (c_read s) as [r|] eqn:Er.
    2:{ destruct (chandle_error s None) as [s1 l] eqn:E. cbn in H'. injection H' as <- <-. eapply chandle_error_any, E. }
    destruct (read_event r b) as [r' b' hint|r' b' x|er] eqn:Ev.
    + cbn in H'. injection H' as <- <-. eapply CC_wait; eauto.
    + destruct (cprocess_event k w (cu_read s (Some r')) (ERead x)) as [s1 l] eqn:E. cbn in H'. injection H' as <- <-.
      eapply cfinish_case; [| | |exact E]; [split; auto|reflexivity|].
      intros s2 l2 Hh. eapply CC_read; eauto. apply chandle_ok, Hh.
    + destruct er as [[a|]| | | |];
        try (destruct (chandle_error s _) as [s1 l] eqn:E; cbn in H'; injection H' as <- <-; eapply chandle_error_any, E);
        cbn in H'; injection H' as <- <-; apply CC_crash; reflexivity.
  - unfold capp_close in H'. destruct (c_write s) as [wl|] eqn:Ew.
    + destruct (wl_write wl 21 [alert_bytes 0]) as [wl' [ct|er]] eqn:E.
      * injection H' as <- <-. apply wl_write_content in E. destruct E as (E2 & E3 & _). cbn [concat] in E3. rewrite app_nil_r in E3.
        eapply CC_close; auto. right. exists wl, ct. repeat split; [exact Ew|]. apply content_eta; assumption.
      * eapply cclose_failed_case; eassumption.
    + injection H' as <- <-. eapply CC_close; auto.
  - unfold capp_close_immediate in H'. destruct (c_write s) as [wl|] eqn:Ew.
    + destruct (wl_write wl 21 [alert_bytes 0]) as [wl' [ct|er]] eqn:E.
      * injection H' as <- <-. apply wl_write_content in E. destruct E as (E2 & E3 & _). cbn [concat] in E3. rewrite app_nil_r in E3.
        eapply CC_close; auto. right. exists wl, ct. repeat split; [exact Ew|]. apply content_eta; assumption.
      * eapply cclose_failed_case; eassumption.
    + injection H' as <- <-. eapply CC_close; auto.
Qed.
