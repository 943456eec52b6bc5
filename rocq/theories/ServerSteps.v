(** * Steps of a server connection, as a relation; connections as sequences of steps *)
From Verif Require Import Base Codec Str Hkdf HkdfSpec HkdfProofs KeySched KeySchedSpec KeySchedProofs Handshake Extensions RecordBase Record
  ReadEvent HelloChecks Cookie Token Negotiate Ticket Kex Hpke Transcript IOBufUtil EchConfirm Server ServerSpec ServerFacts.
Open Scope N_scope.

(** ** Sequences *)
Lemma slog_app e l1 : forall s l2, slog e s (l1 ++ l2) =
  let '(s1, log1) := slog e s l1 in let '(s2, log2) := slog e s1 l2 in (s2, log1 ++ log2).
Proof.
  induction l1 as [|[w i] l1 IH]; intros s l2; cbn [app slog].
  - destruct (slog e s l2). reflexivity.
  - destruct (sstep e w s i) as [s1 o1]. rewrite IH. destruct (slog e s1 l1) as [s2 log2]. destruct (slog e s2 l2) as [s3 log3].
    rewrite <- !app_assoc. reflexivity.
Qed.
Lemma reach_nil e : reach e [] s_init [].
Proof. reflexivity. Qed.
Lemma reach_snoc e l w i s log s' o : reach e l s log -> sstep e w s i = (s', o) ->
  reach e (l ++ [(w, i)]) s' (log ++ received w s i ++ map Emit o).
Proof.
  unfold reach. intros H E. rewrite slog_app, H. cbn [slog]. rewrite E. rewrite app_nil_r. reflexivity.
Qed.
(** Induction over connections. *)
Lemma reach_rect e (P : sstate -> list entry -> Prop) :
  P s_init [] ->
  (forall l s log w i s' o, reach e l s log -> P s log -> sstep e w s i = (s', o) -> P s' (log ++ received w s i ++ map Emit o)) ->
  forall l s log, reach e l s log -> P s log.
Proof.
  intros H0 HS l. induction l as [|[w i] l IH] using rev_ind; intros s log H.
  - cbv in H. injection H as <- <-. exact H0.
  - unfold reach in H. rewrite slog_app in H. destruct (slog e s_init l) as [s1 log1] eqn:E1.
    cbn [slog] in H. destruct (sstep e w s1 i) as [s2 o] eqn:E2. injection H as <- <-. rewrite app_nil_r.
    eapply HS; [exact E1|apply IH; exact E1|exact E2].
Qed.
(** Where an action of the log comes from. *)
Lemma split_app {A} (a b L1 L2 : list A) (x : A) : a ++ b = L1 ++ x :: L2 ->
  (exists r, a = L1 ++ x :: r /\ L2 = r ++ b) \/ (exists r, b = r ++ x :: L2 /\ L1 = a ++ r).
Proof.
  revert L1. induction a as [|y a IH]; intros L1 H; cbn in H.
  - right. exists L1. auto.
  - destruct L1 as [|z L1]; cbn in H; injection H as -> H.
    + left. exists a. subst. auto.
    + destruct (IH _ H) as [(r & -> & ->)|(r & -> & ->)]; [left|right]; exists r; auto.
Qed.
Lemma map_emit_split o L1 x L2 : map Emit o = L1 ++ x :: L2 ->
  exists p y q, o = p ++ y :: q /\ x = Emit y /\ L1 = map Emit p /\ L2 = map Emit q.
Proof.
  intros H. destruct (map_eq_app _ _ _ _ H) as (p & r & -> & <- & H2). destruct r as [|y q]; [discriminate|].
  cbn in H2. injection H2 as <- <-. exists p, y, q. auto.
Qed.
Lemma received_recv w s i : (received w s i = []) \/ exists ev, received w s i = [Recv w ev].
Proof.
  unfold received. destruct (s_state s); destruct i; auto; destruct (s_read s); auto; destruct (read_event _ _); eauto.
Qed.
Lemma emit_origin e l s log L1 o L2 : reach e l s log -> log = L1 ++ Emit o :: L2 ->
  exists l1 s1 log1 w i s2 pre post, reach e l1 s1 log1 /\ sstep e w s1 i = (s2, pre ++ o :: post) /\
    L1 = log1 ++ received w s1 i ++ map Emit pre /\ exists L3, L2 = map Emit post ++ L3.
Proof.
  intros H. revert L1 L2. pattern s, log. eapply reach_rect; [| |exact H]; clear.
  - intros L1 L2 E. destruct L1; discriminate.
  - intros l s log w i s' o' Hr IH E L1 L2 Hl.
    symmetry in Hl. destruct (split_app _ _ _ _ _ (eq_sym Hl)) as [(r & Ha & Hr2)|(r & Hb & ->)].
    + destruct (IH _ _ Ha) as (l1 & s1 & log1 & w1 & i1 & s2 & pre & post & A & B & C & L3 & D).
      exists l1, s1, log1, w1, i1, s2, pre, post. split; [exact A|]. split; [exact B|]. split; [exact C|]. rewrite Hr2, D, <- app_assoc. eauto.
    + assert (Hb' : exists r2, r = received w s i ++ r2 /\ map Emit o' = r2 ++ Emit o :: L2).
      { destruct (received_recv w s i) as [Er|(ev & Er)]; rewrite Er in Hb |- *.
        - exists r. auto.
        - destruct r as [|z r]; cbn in Hb; [discriminate|]. injection Hb as <- Hb. exists r. auto. }
      destruct Hb' as (r2 & -> & Hm). destruct (map_emit_split _ _ _ _ Hm) as (p & y & q & -> & Hy & -> & Hq).
      injection Hy as <-. exists l, s, log, w, i, s', p, q. split; [assumption|]. split; [assumption|]. split; [reflexivity|].
      exists []. rewrite app_nil_r. auto.
Qed.
Lemma recv_origin e l s log L1 w ev L2 : reach e l s log -> log = L1 ++ Recv w ev :: L2 ->
  exists l1 s1 i s2 outs r b r' b', reach e l1 s1 L1 /\ sstep e w s1 i = (s2, outs) /\ s_state s1 <> SCrash /\
    i = ISocket b /\ s_read s1 = Some r /\ read_event r b = RMsg r' b' ev /\ exists L3, L2 = map Emit outs ++ L3.
Proof.
  intros H. revert L1 L2. pattern s, log. eapply reach_rect; [| |exact H]; clear.
  - intros L1 L2 E. destruct L1; discriminate.
  - intros l s log w0 i s' o' Hr IH E L1 L2 Hl.
    symmetry in Hl. destruct (split_app _ _ _ _ _ (eq_sym Hl)) as [(r & Ha & Hr2)|(r & Hb & ->)].
    + destruct (IH _ _ Ha) as (l1 & s1 & i1 & s2 & outs & r1 & b & r' & b' & A & B & C & D & E1 & E2 & L3 & F).
      exists l1, s1, i1, s2, outs, r1, b, r', b'. repeat (split; [assumption|]). rewrite Hr2, F, <- app_assoc. eauto.
    + destruct (received_recv w0 s i) as [Er|(ev' & Er)]; rewrite Er in Hb.
      * cbn in Hb. destruct (map_emit_split _ _ _ _ Hb) as (p & y & q & _ & Hy & _). discriminate.
      * destruct r as [|z r]; cbn in Hb.
        2:{ injection Hb as _ Hb. destruct (map_emit_split _ _ _ _ Hb) as (p & y & q & _ & Hy & _). discriminate. }
        injection Hb as -> -> Hb. rewrite app_nil_r.
        unfold received in Er.
        assert (Hc : s_state s <> SCrash) by (destruct (s_state s); congruence).
        destruct i as [|b| | | | | |]; destruct (s_state s) eqn:Es; try discriminate; try contradiction;
          (destruct (s_read s) as [rd|] eqn:Erd; [|discriminate]);
          (destruct (read_event rd b) as [| r' b' evx|] eqn:Ev; try discriminate);
          injection Er as ->;
          exists l, s, (ISocket b), s', o', rd, b, r', b'; (split; [assumption|]); (split; [assumption|]); (split; [rewrite Es; discriminate|]);
          (split; [reflexivity|]); (split; [assumption|]); (split; [assumption|]); exists []; rewrite app_nil_r; subst L2; reflexivity.
Qed.

(** ** Successful handlers *)
Inductive hstep (e : env) (w : world) (s : sstate) : sevent -> sstate -> list out -> Prop :=
| St_accept : s_state s = SUninitialized ->
    hstep e w s SvAccept (upd_state (upd_layers s (Some (mkEv [] (LPlain (mkP false None)))) (Some WPlain)) SExpectingClientHello) []
| St_hello c orig s' outs : s_state s = SExpectingClientHello -> handle_hello e w s c orig = Ok (s', outs) ->
    hstep e w s (SvRead (EvHandshake (MClientHello c) orig)) s' outs
| St_deliver d : s_state s = SAcceptingEarlyData \/ s_state s = SAcceptingData ->
    hstep e w s (SvRead (EvAppData d)) s [ODeliver d]
| St_write q wl wl' ct : s_state s = SAcceptingEarlyData \/ s_state s = SExpectingFinished \/ s_state s = SAcceptingData ->
    s_write s = Some wl -> wl_write wl 23 q = (wl', Ok ct) ->
    hstep e w s (SvAppWrite q) (upd_write s (Some wl')) [OWrite [ct]]
| St_eoed orig hc r : s_state s = SAcceptingEarlyData -> s_hctx s = Some hc -> s_read s = Some r -> ev_unparsed r = [] ->
    hstep e w s (SvRead (EvHandshake MEndOfEarlyData orig))
      (upd_state (upd_read (upd_hs s None (Some (hc_append hc orig))) (s_hsRead s)) SExpectingFinished) []
| St_certificate m orig s' outs : s_state s = SExpectingCertificate -> handle_certificate e s m orig = Ok (s', outs) ->
    hstep e w s (SvRead (EvHandshake (MCertificate m) orig)) s' outs
| St_certverify m orig s' outs : s_state s = SExpectingCertificateVerify -> handle_certificate_verify e s m orig = Ok (s', outs) ->
    hstep e w s (SvRead (EvHandshake (MCertificateVerify m) orig)) s' outs
| St_finished vd orig s' outs : s_state s = SExpectingFinished -> handle_finished e w s vd orig = HOk s' outs ->
    hstep e w s (SvRead (EvHandshake (MFinished vd) orig)) s' outs
| St_ticket t s' outs : s_state s = SAcceptingData -> handle_new_ticket e w s t = HOk s' outs -> hstep e w s (SvNewTicket t) s' outs
| St_ku_init req s' outs : s_state s = SAcceptingData -> handle_ku_init e s req = HOk s' outs -> hstep e w s (SvKeyUpdate req) s' outs
| St_ku req orig s' outs : s_state s = SAcceptingData -> handle_ku e s req = HOk s' outs ->
    hstep e w s (SvRead (EvHandshake (MKeyUpdate req) orig)) s' outs
| St_close post reply s' outs : s_state s = (if reply : bool then SAcceptingData else SExpectingCloseNotify) ->
    handle_close s post reply = HOk s' outs -> hstep e w s (SvRead (EvClose post)) s' outs.

Lemma of_res_ok s r s' outs : of_res s r = HOk s' outs -> r = Ok (s', outs).
Proof. destruct r as [[a b]|]; cbn; congruence. Qed.

Lemma with_write_ok s ty q f s' outs : with_write s ty q f = HOk s' outs ->
  exists wl wl' ct, s_write s = Some wl /\ wl_write wl ty q = (wl', Ok ct) /\ f (upd_write s (Some wl')) ct = HOk s' outs.
Proof.
  unfold with_write. destruct (s_write s) as [wl|]; [|discriminate]. destruct (wl_write wl ty q) as [wl' [ct|]] eqn:E; [|discriminate].
  intros H. exists wl, wl', ct. auto.
Qed.

Lemma handle_ok e w s ev s' outs : handle e w s ev = HOk s' outs -> hstep e w s ev s' outs.
Proof.
  unfold handle.
  assert (Hinv : forall x, match ev with SvRead (EvAlert _) => HSilent s | _ => HErr s x end <> HOk s' outs).
  { intros x. destruct ev as [|y| | | |]; try discriminate; destruct y; discriminate. }
  assert (Hi : match ev with SvRead (EvAlert _) => HSilent s | _ => HErr s (alert al_unexpected_message) end = HOk s' outs ->
          hstep e w s ev s' outs) by (intros H; destruct (Hinv _ H)).
  destruct (s_state s) eqn:Es; destruct ev as [|ev|t|q| |req]; try exact Hi.
  all: try (destruct ev as [m orig|a|p|d]; try exact Hi; try (destruct m; try exact Hi)).
  - intros [= <- <-]. apply St_accept, Es.
  - intros H. apply St_hello; [exact Es|apply of_res_ok in H; exact H].
  - intros H. apply St_certificate; [exact Es|apply of_res_ok in H; exact H].
  - intros H. apply St_certverify; [exact Es|apply of_res_ok in H; exact H].
  - unfold handle_eoed, no_unparsed. destruct (s_read s) as [r|] eqn:Er; [|discriminate].
    destruct (ev_unparsed r) eqn:Eu; [|discriminate]. destruct (s_hctx s) as [hc|] eqn:Ec; [|discriminate].
    intros [= <- <-]. eapply St_eoed; eassumption.
  - intros [= <- <-]. apply St_deliver. auto.
  - intros H. apply with_write_ok in H. destruct H as (wl & wl' & ct & E1 & E2 & [= <- <-]). eapply St_write; eauto.
  - intros H. apply St_finished; assumption.
  - intros H. apply with_write_ok in H. destruct H as (wl & wl' & ct & E1 & E2 & [= <- <-]). eapply St_write; eauto.
  - intros H. apply St_ku; assumption.
  - intros H. eapply (St_close e w s p true); assumption.
  - intros [= <- <-]. apply St_deliver. auto.
  - intros H. apply St_ticket; assumption.
  - intros H. apply with_write_ok in H. destruct H as (wl & wl' & ct & E1 & E2 & [= <- <-]). eapply St_write; eauto.
  - intros H. apply St_ku_init; assumption.
  - intros H. eapply (St_close e w s p false); assumption.
Qed.

(** ** All steps *)
Definition terminal (s : sstate) : Prop :=
  match s_state s with SExpectingCloseNotify | SClosed | SError | SCrash => True | _ => False end.
Definition recv_of (w : world) (ev : sevent) : list entry := match ev with SvRead x => [Recv w x] | _ => [] end.
(** The event an application call raises. *)
Definition call_of (i : input) : option sevent :=
  match i with IAccept => Some SvAccept | INewTicket t => Some (SvNewTicket t) | IAppWrite q => Some (SvAppWrite q)
  | IEarlyAppWrite => Some SvEarlyAppWrite | IKeyUpdate r => Some (SvKeyUpdate r) | _ => None end.
(** Outputs of a failing step: an alert at most, then the error. *)
Definition fail_outs (s : sstate) (outs : list out) : Prop :=
  outs = [] \/ exists a, outs = [OError a] \/
    (exists d ct wl, a = Some d /\ s_write s = Some wl /\ ct = mkContent (ct_level ct) 21 (ct_data ct) (alert_bytes d) /\ outs = [OWrite [ct]; OError a]).

Inductive step_case (e : env) (w : world) (s : sstate) (i : input) (s' : sstate) (outs : list out) : Prop :=
| SC_call ev : received w s i = [] -> recv_of w ev = [] -> call_of i = Some ev -> hstep e w s ev s' outs -> step_case e w s i s' outs
| SC_read r b r' b' x : i = ISocket b -> s_read s = Some r -> read_event r b = RMsg r' b' x -> received w s i = [Recv w x] ->
    hstep e w (upd_read s (Some r')) (SvRead x) s' outs -> step_case e w s i s' outs
| SC_wait r b r' b' hint : i = ISocket b -> s_read s = Some r -> read_event r b = RNeed r' b' hint -> received w s i = [] ->
    s' = upd_read s (Some r') -> outs = [OWait hint] -> step_case e w s i s' outs
| SC_fail : s_state s <> SError -> s_state s' = SError -> s_write s' = None -> s_read s' = None -> outs <> [] -> fail_outs s outs ->
    step_case e w s i s' outs
| SC_failed : s_state s = SError -> s_state s' = SError -> s_write s' = s_write s -> outs = [] -> step_case e w s i s' outs
| SC_crash : s_state s' = SCrash -> outs = [] -> step_case e w s i s' outs
| SC_close : received w s i = [] -> (i = IAppClose \/ i = IAppCloseImmediate) ->
    s_state s' = SExpectingCloseNotify \/ s_state s' = SClosed -> s_write s' = None ->
    (outs = [] \/ exists wl ct, s_write s = Some wl /\
        ct = mkContent (ct_level ct) 21 (ct_data ct) (alert_bytes 0) /\ outs = [OWrite [ct]]) ->
    step_case e w s i s' outs
| SC_closefail wl : received w s i = [] -> (i = IAppClose \/ i = IAppCloseImmediate) -> s_write s = Some wl ->
    s' = upd_write s (Some (fst (wl_write wl 21 [alert_bytes 0]))) -> outs = [] -> step_case e w s i s' outs.

Lemma wl_write_content wl ty q wl' ct : wl_write wl ty q = (wl', Ok ct) ->
  ct_type ct = ty /\ ct_plain ct = concat q /\
  match wl with
  | WPlain => ct_level ct = LvPlaintext /\ wl' = WPlain
  | WEnc lv ws => ct_level ct = lv /\ exists ws', wl' = WEnc lv ws' /\ ws_aead ws' = ws_aead ws
  end.
Proof.
  destruct wl as [|lv ws]; cbn [wl_write].
  - destruct (plain_write (mkMsg ty (concat q))) as [d|]; cbn; [|discriminate]. intros [= <- <-]. auto.
  - destruct (enc_write ty ws q) as [[calls ws'] r] eqn:E. destruct r as [d|]; cbn; [|discriminate]. intros [= <- <-].
    cbn. split; [reflexivity|]. split; [reflexivity|]. split; [reflexivity|]. exists ws'. split; [reflexivity|].
    unfold enc_write in E. revert E. generalize (length (concat q)), (@nil byte). intros f out. revert ws q out calls ws' d.
    induction f as [|f IH]; intros ws q out calls ws' d; cbn [enc_write_loop].
    + destruct (queue_empty q); [|discriminate]. congruence.
    + destruct (queue_empty q); [congruence|]. destruct (buf_to_encrypt q (ws_max ws)) as [dd q'].
      destruct (ws_seq ws =? max64); [discriminate|].
      destruct (ae_enc _ _ _ _); [|discriminate].
      destruct (enc_write_loop f ty (w_set_seq ws (ws_seq ws + 1)) q' _) as [[c2 w2] r2] eqn:E2.
      intros [= <- <- ->]. apply IH in E2. exact E2.
Qed.
Lemma content_eta ct ty q : ct_type ct = ty -> ct_plain ct = q -> ct = mkContent (ct_level ct) ty (ct_data ct) q.
Proof. intros <- <-. destruct ct; reflexivity. Qed.

(** A failing handler leaves the state of the machine as it is. *)
Definition err_state (r : hres) : option sstate := match r with HOk _ _ => None | HErr s _ => Some s | HSilent s => Some s end.
Definition same_ctl (s s1 : sstate) : Prop := s_state s1 = s_state s /\ (s_write s = None -> s_write s1 = None).
Lemma same_refl s : same_ctl s s. Proof. split; auto. Qed.
Lemma same_trans a b c : same_ctl a b -> same_ctl b c -> same_ctl a c.
Proof. unfold same_ctl. intros [H1 H2] [H3 H4]. split; [congruence|auto]. Qed.
Lemma with_write_err s ty q f s1 : (forall wl ct x, err_state (f (upd_write s (Some wl)) ct) = Some x -> s_state x = s_state s) ->
  err_state (with_write s ty q f) = Some s1 -> same_ctl s s1.
Proof.
  intros Hf. unfold with_write. destruct (s_write s) as [wl|] eqn:Ew; [|intros [= <-]; apply same_refl].
  destruct (wl_write wl ty q) as [wl' [ct|]].
  - intros H. split; [eapply Hf, H|congruence].
  - intros [= <-]. split; [reflexivity|congruence].
Qed.
Lemma of_res_err s r s1 : err_state (of_res s r) = Some s1 -> s1 = s.
Proof. destruct r as [[]|]; cbn; congruence. Qed.
Lemma rekey_write_err e s f x : (forall s0 ct x, s_state s0 = s_state s -> err_state (f s0 ct) = Some x -> s_state x = s_state s) ->
  err_state (rekey_write e s f) = Some x -> s_state x = s_state s.
Proof.
  intros Hf. unfold rekey_write.
  destruct (s_ks s) as [[h k]|]; [|intros [= <-]; reflexivity].
  destruct (s_version s); [|intros [= <-]; reflexivity]. destruct (s_cipher s); [|intros [= <-]; reflexivity].
  match goal with |- context [match ?x with Ok _ => _ | Err _ => _ end] => destruct x as [[[k' ws] wl]|] end.
  - apply Hf. reflexivity.
  - intros [= <-]. reflexivity.
Qed.
Lemma handle_err e w s ev s1 : err_state (handle e w s ev) = Some s1 -> same_ctl s s1.
Proof.
  assert (Hi : err_state (match ev with SvRead (EvAlert _) => HSilent s | _ => HErr s (alert al_unexpected_message) end) = Some s1 -> same_ctl s s1).
  { intros H. assert (s1 = s) as -> by (destruct ev as [|y| | | |]; try (cbn in H; congruence); destruct y; cbn in H; congruence).
    apply same_refl. }
  assert (Hr : forall r, err_state (of_res s r) = Some s1 -> same_ctl s s1) by (intros r H; apply of_res_err in H; subst; apply same_refl).
  assert (Hs : forall x, Some x = Some s1 -> x = s -> same_ctl s s1) by (intros x [= <-] ->; apply same_refl).
  assert (Hk : forall s0 l (x : sstate), err_state (HOk s0 l) = Some x -> same_ctl s x) by (intros; discriminate).
  unfold handle. destruct (s_state s) eqn:Es; destruct ev as [|ev|t|q| |req]; try exact Hi.
  all: try (destruct ev as [m orig|a|p|d]; try exact Hi; try (destruct m; try exact Hi)).
  all: try apply Hr.
  - discriminate.
  - unfold handle_eoed. destruct (no_unparsed s) as [[]|]; destruct (s_hctx s); try discriminate; intros H; eapply Hs; eauto.
  - discriminate.
  - apply with_write_err. intros; discriminate.
  - unfold handle_finished.
    destruct (s_hctx s) as [hc|]; [|intros H; eapply Hs; eauto].
    destruct (s_clientHsSecret s) as [cs|]; [|intros H; eapply Hs; eauto].
    destruct (s_ks s) as [[h k]|]; [|intros H; eapply Hs; eauto].
    destruct (s_version s) as [v|]; [|intros H; eapply Hs; eauto].
    destruct (s_cipher s) as [ci|]; [|intros H; eapply Hs; eauto].
    destruct (hc_finished hc cs) as [vd|]; [|intros H; eapply Hs; eauto].
    destruct verify_data as [got|]; [|intros H; eapply Hs; eauto].
    destruct (negb (crypto_equal vd got)); [intros H; eapply Hs; eauto|].
    destruct (no_unparsed s) as [[]|]; try (intros H; eapply Hs; eauto; fail).
    match goal with |- context [match ?x with Ok _ => _ | Err _ => _ end] => destruct x as [[[[ars rd] rms] k']|] end;
      [|intros H; eapply Hs; eauto].
    destruct (negb (e_sendTicket e)); [discriminate|].
    destruct (ticket_message _ _ _ _ _) as [[m|]|].
    + intros H. assert (Hx : same_ctl (upd_ks s (Some (h, k'))) s1).
      { eapply with_write_err; [|exact H]. intros; discriminate. }
      exact Hx.
    + discriminate.
    + intros [= <-]. split; auto.
  - apply with_write_err. intros; discriminate.
  - unfold handle_ku. destruct (no_unparsed s) as [[]|]; try (intros H; eapply Hs; eauto; fail).
    destruct (s_ks s) as [[h k]|]; [|intros H; eapply Hs; eauto].
    destruct (s_version s) as [v|]; [|intros H; eapply Hs; eauto].
    destruct (s_cipher s) as [ci|]; [|intros H; eapply Hs; eauto].
    match goal with |- context [match ?x with Ok _ => _ | Err _ => _ end] => destruct x as [[[k' rs] rl]|] end;
      [|intros H; eapply Hs; eauto].
    destruct (req =? 0); [discriminate|]. destruct (encodeHandshake _) as [m|]; [|intros [= <-]; split; auto].
    intros H. assert (Hx : same_ctl (upd_ks s (Some (h, k'))) s1); [|exact Hx].
    eapply with_write_err; [|exact H]. intros wl ct x Hx. eapply eq_trans; [eapply rekey_write_err; [|exact Hx]; intros; discriminate|reflexivity].
  - unfold handle_close. destruct (no_unparsed s) as [[]|]; try (intros H; eapply Hs; eauto; fail).
    apply with_write_err. intros; discriminate.
  - discriminate.
  - unfold handle_new_ticket. destruct (ticket_message _ _ _ _ _) as [[m|]|]; try discriminate; try (intros H; eapply Hs; eauto; fail).
    apply with_write_err. intros; discriminate.
  - apply with_write_err. intros; discriminate.
  - unfold handle_ku_init. destruct (no_unparsed s) as [[]|]; try (intros H; eapply Hs; eauto; fail).
    destruct (encodeHandshake _) as [m|]; [|intros H; eapply Hs; eauto].
    apply with_write_err. intros wl ct x Hx. eapply eq_trans; [eapply rekey_write_err; [|exact Hx]; intros; discriminate|reflexivity].
  - unfold handle_close. destruct (no_unparsed s) as [[]|]; try (intros H; eapply Hs; eauto; fail). discriminate.
Qed.
Lemma handle_in_error e w s ev : s_state s = SError -> handle e w s ev = HSilent s \/ exists x, handle e w s ev = HErr s (alert x).
Proof.
  intros H. unfold handle. rewrite H. destruct ev as [|ev|t|q| |req]; eauto. destruct ev as [m orig|a|p|d]; eauto.
Qed.

Lemma handle_error_case e w s0 s i a s' outs : same_ctl s s0 -> s_state s <> SError ->
  handle_error s0 a = (s', outs) -> step_case e w s i s' outs.
Proof.
  intros [Hs Hw] Hn. unfold handle_error.
  assert (Hx : (match a, s_write s0 with
                | Some d, Some wl =>
                    match snd (wl_write wl 21 [alert_bytes d]) with
                    | Ok ct => (upd_state (upd_layers s0 None None) SError, [OWrite [ct]; OError a])
                    | Err ECheck | Err EUB => (upd_state s0 SCrash, [])
                    | Err _ => (upd_state (upd_layers s0 None None) SError, [OError a])
                    end
                | _, _ => (upd_state (upd_layers s0 None None) SError, [OError a])
                end) = (s', outs) -> step_case e w s i s' outs).
  { assert (H1 : forall o, o <> [] -> fail_outs s o -> (upd_state (upd_layers s0 None None) SError, o) = (s', outs) ->
               step_case e w s i s' outs).
    { intros o Ho Hf [= <- <-]. apply SC_fail; auto. }
    assert (H2 : (upd_state s0 SCrash, @nil out) = (s', outs) -> step_case e w s i s' outs).
    { intros [= <- <-]. apply SC_crash; reflexivity. }
    assert (H3 : (upd_state (upd_layers s0 None None) SError, [OError a]) = (s', outs) -> step_case e w s i s' outs).
    { apply H1; [discriminate|]. right. exists a. left. reflexivity. }
    destruct a as [d|]; [|exact H3]. destruct (s_write s0) as [wl|] eqn:E0; [|exact H3].
    destruct (wl_write wl 21 [alert_bytes d]) as [wl' [ct|er]] eqn:E; cbn [snd].
    - apply H1; [discriminate|]. right. exists (Some d). right.
      destruct (s_write s) as [wl0|] eqn:E1; [|specialize (Hw eq_refl); congruence].
      apply wl_write_content in E. destruct E as (E2 & E3 & _). cbn [concat] in E3. rewrite app_nil_r in E3.
      exists d, ct, wl0. repeat split. apply content_eta; assumption.
    - destruct er; assumption. }
  destruct (s_state s0) eqn:E0; try exact Hx. congruence.
Qed.

Lemma finish_case e w s i s0 ev s' outs :
  same_ctl s s0 -> s_write s0 = s_write s -> (forall s1 l, handle e w s0 ev = HOk s1 l -> step_case e w s i s1 l) ->
  finish (handle e w s0 ev) = (s', outs) -> step_case e w s i s' outs.
Proof.
  intros Hc Hww Hok H.
  assert (Hd : s_state s = SError \/ s_state s <> SError) by (destruct (s_state s); auto; right; discriminate).
  destruct Hd as [Hd|Hd].
  - assert (E0 : s_state s0 = SError) by (destruct Hc; congruence).
    assert (Hh : forall a, handle_error s0 a = (s0, [])) by (intros a; unfold handle_error; rewrite E0; reflexivity).
    destruct (handle_in_error e w s0 ev E0) as [Eh|[x Eh]]; rewrite Eh in H; cbn [finish alert] in H; rewrite Hh in H;
      injection H as <- <-; apply SC_failed; auto.
  - destruct (handle e w s0 ev) as [s1 l|s1 er|s1] eqn:Eh; cbn [finish] in H.
    + injection H as <- <-. apply Hok; reflexivity.
    + assert (Hc1 : same_ctl s s1) by (eapply same_trans; [exact Hc|]; eapply handle_err; rewrite Eh; reflexivity).
      destruct er as [[a|]| | | |]; try (eapply handle_error_case; eassumption);
        injection H as <- <-; apply SC_crash; reflexivity.
    + assert (Hc1 : same_ctl s s1) by (eapply same_trans; [exact Hc|]; eapply handle_err; rewrite Eh; reflexivity).
      eapply handle_error_case; eassumption.
Qed.

Lemma sstep_cases e w s i s' outs : sstep e w s i = (s', outs) -> step_case e w s i s' outs.
Proof.
  unfold sstep. intros H.
  assert (Hd : s_state s = SCrash \/ s_state s <> SCrash) by (destruct (s_state s); auto; right; discriminate).
  destruct Hd as [Hd|Hd].
  { rewrite Hd in H. injection H as <- <-. apply SC_crash; [exact Hd|reflexivity]. }
  assert (H' : match i with
      | IAccept => process_event e w s SvAccept
      | ISocket b => fst (process_socket e w s b)
      | INewTicket t => process_event e w s (SvNewTicket t)
      | IAppWrite q => process_event e w s (SvAppWrite q)
      | IEarlyAppWrite => process_event e w s SvEarlyAppWrite
      | IAppClose => app_close s
      | IAppCloseImmediate => app_close_immediate s
      | IKeyUpdate req => process_event e w s (SvKeyUpdate req)
      end = (s', outs)) by (destruct (s_state s); auto; contradiction).
  clear H.
  assert (Hrc : received w s i = match i, s_read s with
      | ISocket b, Some r => match read_event r b with RMsg _ _ ev => [Recv w ev] | _ => [] end
      | _, _ => [] end) by (unfold received; destruct (s_state s); auto; contradiction).
  assert (Hcall : forall ev, received w s i = [] -> recv_of w ev = [] -> call_of i = Some ev -> process_event e w s ev = (s', outs) -> step_case e w s i s' outs).
  { intros ev E1 E2 E3 E. eapply finish_case; [apply same_refl|reflexivity| |exact E].
    intros s1 l Hh. eapply SC_call; [exact E1|exact E2|exact E3|]. apply handle_ok, Hh. }
  destruct i as [|b|t|q| | | |req]; try (apply Hcall in H'; [exact H'|exact Hrc|reflexivity|reflexivity]).
  - unfold process_socket in H'.
    assert (Hf : forall a, handle_error s a = (s', outs) -> step_case e w s (ISocket b) s' outs).
    { intros a E. assert (Hd2 : s_state s = SError \/ s_state s <> SError) by (destruct (s_state s); auto; right; discriminate).
      destruct Hd2 as [Hd2|Hd2].
      - unfold handle_error in E. rewrite Hd2 in E. injection E as <- <-. apply SC_failed; auto.
      - eapply handle_error_case; [apply same_refl|exact Hd2|exact E]. }
    destruct (s_read s) as [r|] eqn:Er.
    2:{ destruct (handle_error s None) as [s1 l] eqn:E. cbn in H'. injection H' as <- <-. eapply Hf, E. }
    destruct (read_event r b) as [r' b' hint|r' b' x|er] eqn:Ev.
    + cbn in H'. injection H' as <- <-. eapply SC_wait; eauto.
    + destruct (process_event e w (upd_read s (Some r')) (SvRead x)) as [s1 l] eqn:E. cbn in H'. injection H' as <- <-.
      eapply finish_case; [| | |exact E]; [split; auto|reflexivity|].
      intros s2 l2 Hh. eapply SC_read; eauto. apply handle_ok, Hh.
    + destruct er as [[a|]| | | |];
        try (destruct (handle_error s _) as [s1 l] eqn:E; cbn in H'; injection H' as <- <-; eapply Hf, E);
        cbn in H'; injection H' as <- <-; apply SC_crash; reflexivity.
  - unfold app_close in H'. destruct (s_write s) as [wl|] eqn:Ew.
    + destruct (wl_write wl 21 [alert_bytes 0]) as [wl' [ct|er]] eqn:E.
      * injection H' as <- <-. apply wl_write_content in E. destruct E as (E2 & E3 & _). cbn [concat] in E3. rewrite app_nil_r in E3.
        eapply SC_close; auto. right. exists wl, ct. repeat split; [exact Ew|]. apply content_eta; assumption.
      * destruct er; injection H' as <- <-; try (apply SC_crash; reflexivity);
          (eapply SC_closefail; [exact Hrc|auto|exact Ew|rewrite E; reflexivity|reflexivity]).
    + injection H' as <- <-. eapply SC_close; auto.
  - unfold app_close_immediate in H'. destruct (s_write s) as [wl|] eqn:Ew.
    + destruct (wl_write wl 21 [alert_bytes 0]) as [wl' [ct|er]] eqn:E.
      * injection H' as <- <-. apply wl_write_content in E. destruct E as (E2 & E3 & _). cbn [concat] in E3. rewrite app_nil_r in E3.
        eapply SC_close; auto. right. exists wl, ct. repeat split; [exact Ew|]. apply content_eta; assumption.
      * destruct er; injection H' as <- <-; try (apply SC_crash; reflexivity);
          (eapply SC_closefail; [exact Hrc|auto|exact Ew|rewrite E; reflexivity|reflexivity]).
    + injection H' as <- <-. eapply SC_close; auto.
Qed.
