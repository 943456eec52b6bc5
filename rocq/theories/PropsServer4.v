(** * C39: how a server connection ends *)
From Verif Require Import Base Codec CodecSpec Str Hkdf HkdfSpec HkdfProofs KeySched KeySchedSpec KeySchedProofs Handshake HandshakeSpec Extensions
  ExtensionsSpec ExtensionsProofs RecordBase Record RecordRT
  ReadEvent HelloChecks Cookie Token Negotiate Ticket Kex Hpke Transcript IOBufUtil PropsIOBuf PropsCodec
  EchConfirm Server ServerSpec ServerFacts ServerSteps ServerFlight ServerInv ServerPreserve ServerParams ServerOrigin ServerSpec2 PropsServer PropsServer2 PropsServer3.
Open Scope N_scope.

(** ** The step an action comes from, and what follows it *)
Lemma slog_emit e : forall l s0 s L1 o L2, slog e s0 l = (s, L1 ++ Emit o :: L2) ->
  exists l1 w i l2 s1 log1 s2 pre post L3, l = l1 ++ (w, i) :: l2 /\ slog e s0 l1 = (s1, log1) /\ sstep e w s1 i = (s2, pre ++ o :: post) /\
    L1 = log1 ++ received w s1 i ++ map Emit pre /\ L2 = map Emit post ++ L3 /\ slog e s2 l2 = (s, L3).
Proof.
  induction l as [|[w i] l IH]; intros s0 s L1 o L2 H; cbn [slog] in H; [destruct L1; discriminate|].
  destruct (sstep e w s0 i) as [s1 o1] eqn:E1. destruct (slog e s1 l) as [s2 log2] eqn:E2. injection H as -> H.
  rewrite app_assoc in H. destruct (split_app _ _ _ _ _ H) as [(r & Ha & Hr)|(r & Hb & ->)].
  - assert (Hb' : exists r2, L1 = received w s0 i ++ r2 /\ map Emit o1 = r2 ++ Emit o :: r).
    { destruct (received_recv w s0 i) as [Er|(ev & Er)]; rewrite Er in Ha |- *.
      - exists L1. auto.
      - destruct L1 as [|z L1]; cbn in Ha; [discriminate|]. injection Ha as <- Ha. exists L1. auto. }
    destruct Hb' as (r2 & -> & Hm). destruct (map_emit_split _ _ _ _ Hm) as (p & y & q & -> & Hy & -> & ->). injection Hy as <-.
    exists [], w, i, l, s0, [], s1, p, q, log2. auto 10.
  - rewrite Hb in E2. destruct (IH _ _ _ _ _ E2) as (l1 & w' & i' & l2 & s3 & log1 & s4 & pre & post & L3 & -> & A & B & -> & -> & C).
    exists ((w, i) :: l1), w', i', l2, s3, (received w s0 i ++ map Emit o1 ++ log1), s4, pre, post, L3.
    split; [reflexivity|]. split; [cbn [slog]; rewrite E1, A; reflexivity|]. split; [exact B|]. split; [rewrite <- !app_assoc; reflexivity|]. auto.
Qed.
(** ** After the end *)
Definition silent (s : sstate) : Prop := s_state s = SCrash \/ (terminal s /\ s_write s = None).
Definition dead (s : sstate) : Prop := s_state s = SCrash \/ (terminal s /\ s_write s = None /\ s_read s = None).
Lemma crash_step e w s i s' outs : s_state s = SCrash -> sstep e w s i = (s', outs) -> s' = s /\ outs = [] /\ received w s i = [].
Proof. intros E H. unfold sstep in H. rewrite E in H. unfold received. rewrite E. injection H as <- <-. auto. Qed.
Lemma close_out s x s' outs : handle_close s x false = HOk s' outs -> outs = [OEndOfData x] /\ s_state s' = SClosed /\ s_write s' = None /\ s_read s' = None.
Proof. unfold handle_close. destruct (no_unparsed s) as [[|]|]; try discriminate. intros [= <- <-]. auto. Qed.
Lemma terminal_hstep e w s ev s' outs : terminal s -> hstep e w s ev s' outs ->
  exists x, ev = SvRead (EvClose x) /\ outs = [OEndOfData x] /\ s_state s' = SClosed /\ s_write s' = None /\ s_read s' = None.
Proof.
  unfold terminal. intros T HS. destruct HS; try (rewrite H in T; contradiction); try (destruct H as [H|H]; rewrite H in T; contradiction).
  - destruct H as [H|[H|H]]; rewrite H in T; contradiction.
  - destruct reply; [rewrite H in T; contradiction|]. apply close_out in H0. exists post. auto.
Qed.
Lemma recv_after w s i : Forall afterwards (received w s i).
Proof. destruct (received_recv w s i) as [->|(ev & ->)]; repeat constructor. Qed.
Lemma silent_step e w s i s' outs : silent s -> sstep e w s i = (s', outs) -> silent s' /\ Forall afterwards (map Emit outs).
Proof.
  intros [Hc|(T & W)] H.
  { destruct (crash_step _ _ _ _ _ _ Hc H) as (-> & -> & _). split; [left; exact Hc|constructor]. }
  apply sstep_cases in H.
  destruct H as [ev R1 R2 R0 R3|r b r' b' x R1 R2 R3 R4 R5|r b r' b' hint R1 R2 R3 R4 R5 R6|R1 R2 R3 R4 R5 R6|R1 R2 R3 R4|R1 R2|R1 R2 R3 R4 R5|wl R1 R2 R3 R4 R5].
  - destruct (terminal_hstep _ _ _ _ _ _ T R3) as (y & -> & _). discriminate.
  - destruct (terminal_hstep _ _ (upd_read s (Some r')) _ _ _ T R5) as (y & _ & -> & E1 & E2 & _).
    split; [right; split; [unfold terminal; rewrite E1; exact Logic.I|exact E2]|repeat constructor].
  - subst. split; [right; auto|repeat constructor].
  - split; [right; split; [unfold terminal; rewrite R2; exact Logic.I|exact R3]|].
    destruct R6 as [->|(a & [->|(d & ct & wl & _ & X & _)])]; [constructor|repeat constructor|congruence].
  - subst. split; [right; split; [unfold terminal; rewrite R2; exact Logic.I|congruence]|constructor].
  - subst. split; [left; exact R1|constructor].
  - split; [right; split; [unfold terminal; destruct R3 as [-> | ->]; exact Logic.I|exact R4]|].
    destruct R5 as [->|(wl & ct & X & _)]; [constructor|congruence].
  - congruence.
Qed.
Lemma silent_log e : forall l s s' L, silent s -> slog e s l = (s', L) -> Forall afterwards L.
Proof.
  induction l as [|[w i] l IH]; intros s s' L HS H; cbn [slog] in H; [injection H as _ <-; constructor|].
  destruct (sstep e w s i) as [s1 o1] eqn:E1. destruct (slog e s1 l) as [s2 log2] eqn:E2. injection H as -> <-.
  destruct (silent_step _ _ _ _ _ _ HS E1) as (A & B). rewrite !Forall_app. split; [apply recv_after|]. split; [exact B|]. eapply IH; eassumption.
Qed.
Definition is_error (x : entry) : Prop := exists a, x = Emit (OError a).
Lemma dead_step e w s i s' outs : dead s -> sstep e w s i = (s', outs) -> dead s' /\ Forall is_error (map Emit outs) /\ received w s i = [].
Proof.
  intros [Hc|(T & W & R)] H.
  { destruct (crash_step _ _ _ _ _ _ Hc H) as (-> & -> & ->). split; [left; exact Hc|]. split; [constructor|reflexivity]. }
  assert (Hr : received w s i = []) by (unfold received; rewrite R; destruct (s_state s), i; reflexivity).
  rewrite Hr. assert (He : forall a, dead (fst (handle_error s a)) /\ Forall is_error (map Emit (snd (handle_error s a)))).
  { intros a. unfold handle_error. rewrite W. unfold terminal in T. destruct (s_state s) eqn:Es; try contradiction; destruct a; cbn [fst snd map];
      (split; [right; repeat split; auto; unfold terminal; cbn; rewrite ?Es; exact Logic.I|repeat constructor; eexists; reflexivity]). }
  assert (Hev : forall ev, recv_of w ev = [] -> process_event e w s ev = (s', outs) -> dead s' /\ Forall is_error (map Emit outs)).
  { intros ev Hrv E. assert (handle e w s ev = HErr s (alert al_unexpected_message)).
    { unfold handle. unfold terminal in T. destruct (s_state s); try contradiction; destruct ev as [|x| | | |]; try reflexivity; discriminate. }
    unfold process_event in E. rewrite H0 in E. cbn [finish alert] in E. specialize (He (Some al_unexpected_message)).
    unfold alert, finish in E. rewrite E in He. exact He. }
  assert (Hcl : (upd_state (upd_layers s None None) SClosed, []) = (s', outs) -> dead s' /\ Forall is_error (map Emit outs)).
  { intros [= <- <-]. split; [right; auto|constructor]. unfold terminal. cbn. auto. }
  unfold sstep in H. assert (H' : (match i with
      | IAccept => process_event e w s SvAccept
      | ISocket b => fst (process_socket e w s b)
      | INewTicket t => process_event e w s (SvNewTicket t)
      | IAppWrite q => process_event e w s (SvAppWrite q)
      | IEarlyAppWrite => process_event e w s SvEarlyAppWrite
      | IAppClose => app_close s
      | IAppCloseImmediate => app_close_immediate s
      | IKeyUpdate req => process_event e w s (SvKeyUpdate req)
      end = (s', outs)) \/ (s' = s /\ outs = [] /\ s_state s = SCrash)).
  { destruct (s_state s); auto. injection H as <- <-. auto. }
  destruct H' as [H'|(-> & -> & E)]; [|split; [left; exact E|split; [constructor|reflexivity]]]. clear H.
  assert (dead s' /\ Forall is_error (map Emit outs)); [|tauto].
  destruct i as [|b|t|q| | | |req]; try (eapply Hev; [|exact H']; reflexivity).
  - unfold process_socket in H'. rewrite R in H'. specialize (He None). destruct (handle_error s None) as [a b0]. cbn in H', He. injection H' as <- <-. exact He.
  - unfold app_close in H'. rewrite W in H'. auto.
  - unfold app_close_immediate in H'. rewrite W in H'. auto.
Qed.
Lemma dead_log e : forall l s s' L, dead s -> slog e s l = (s', L) -> Forall is_error L.
Proof.
  induction l as [|[w i] l IH]; intros s s' L HS H; cbn [slog] in H; [injection H as _ <-; constructor|].
  destruct (sstep e w s i) as [s1 o1] eqn:E1. destruct (slog e s1 l) as [s2 log2] eqn:E2. injection H as -> <-.
  destruct (dead_step _ _ _ _ _ _ HS E1) as (A & B & ->). cbn [app]. rewrite Forall_app. split; [exact B|]. eapply IH; eassumption.
Qed.
(** ** C39 *)
Lemma hstep_no_error e log w s ev s' outs a : env_ok e -> phase e log s -> hstep e w s ev s' outs -> In (OError a) outs -> False.
Proof.
  intros He HP HS Hin. pose proof (hstep_acts _ _ _ _ _ _ _ He HP HS) as HA. destruct HA; cbn [In] in Hin; try tauto;
    try (destruct Hin as [[=]|[]]; fail); try (destruct Hin as [[=]|[[=]|[]]]; fail); try (destruct Hin as [[=]|[[=]|[[=]|[]]]]; fail).
  - rewrite H3 in Hin. destruct Hin as [[=]|[]].
  - apply in_split in Hin. destruct Hin as (p & q & Hin). rewrite <- H10 in Hin.
    destruct (flight_out _ _ _ _ _ _ _ _ H2 Hin) as [(k & b & [=])|[(cs & [=] & _)|([=] & _)]].
  - destruct Hin as [[=]|Hin]. destruct H6 as [->|(ct & nst & m & -> & _)]; [destruct Hin as [[=]|[]]|destruct Hin as [[=]|[[=]|[]]]].
  - destruct H2 as [->|(ct & nst & m & -> & _)]; [destruct Hin|destruct Hin as [[=]|[]]].
  - destruct H0 as [(_ & _ & ct & -> & _)|(_ & ->)]; [destruct Hin as [[=]|[[=]|[]]]|destruct Hin as [[=]|[]]].
Qed.
(** An error is final: afterwards nothing is read or written, delivered, exported or reported but the error itself. *)
Theorem C39_error_final e l s L1 a L2 : env_ok e -> reach e l s (L1 ++ Emit (OError a) :: L2) -> forall x, In x L2 -> exists a', x = Emit (OError a').
Proof.
  intros He Hr. destruct (slog_emit _ _ _ _ _ _ _ Hr) as (l1 & w & i & l2 & s1 & log1 & s2 & pre & post & L3 & El & A & B & E1 & -> & C).
  pose proof (reach_phase _ _ _ _ He A) as HP. pose proof B as B0. apply sstep_cases in B.
  assert (Hd : dead s2 /\ post = []).
  { destruct B as [ev R1 R2 R0 R3|r b r' b' x R1 R2 R3 R4 R5|r b r' b' hint R1 R2 R3 R4 R5 R6|R1 R2 R3 R4 R5 R6|R1 R2 R3 R4|R1 R2|R1 R2 R3 R4 R5|wl R1 R2 R3 R4 R5].
    - exfalso. eapply hstep_no_error; [exact He|exact HP|exact R3|apply in_or_app; right; left; reflexivity].
    - exfalso. eapply (hstep_no_error e (log1 ++ [])); [exact He| |exact R5|apply in_or_app; right; left; reflexivity].
      eapply phase_read; [exact HP|exact R2|rewrite R3; reflexivity|reflexivity].
    - apply split_one in R6. destruct R6 as (_ & _ & [=]).
    - split; [right; split; [unfold terminal; rewrite R2; exact Logic.I|auto]|].
      destruct R6 as [R6|(a' & [R6|(d & ct & wl & _ & _ & _ & R6)])]; [destruct pre; discriminate|apply split_one in R6; tauto|].
      destruct pre as [|? [|? [|? ?]]]; try discriminate. injection R6 as _ _ ->. reflexivity.
    - destruct pre; discriminate.
    - destruct pre; discriminate.
    - destruct R5 as [R5|(wl & ct & _ & _ & R5)]; [destruct pre; discriminate|]. apply split_one in R5. destruct R5 as (_ & _ & [=]).
    - destruct pre; discriminate. }
  destruct Hd as (Hd & ->). pose proof (dead_log _ _ _ _ _ Hd C) as HF. rewrite Forall_forall in HF. cbn [map app]. intros x Hx. exact (HF x Hx).
Qed.
Lemma ccs_type sid c : In c (ccs_if sid) -> ct_type c = 20.
Proof. destruct sid; cbn; intros H; destruct H as [<-|[]] || destruct H; reflexivity. Qed.
(** Alerts that handlers send: a reply to the peer's close_notify. *)
Lemma acts_alert e log w s ev s' pre cs post c : acts e log w s ev s' (pre ++ OWrite cs :: post) -> In c cs -> ct_type c = 21 ->
  cs = [c] /\ ct_plain c = alert_bytes 0 /\ (exists x, post = [OEndOfData x]) /\ s_state s' = SClosed /\ s_write s' = None /\ s_read s' = None.
Proof.
  remember (pre ++ OWrite cs :: post) as outs eqn:Eo. intros HA Hin Ht.
  assert (Hone : forall x, [x] = pre ++ OWrite cs :: post -> pre = [] /\ post = [] /\ x = OWrite cs).
  { intros x E. symmetry in E. apply split_one in E. destruct E as (-> & -> & <-). auto. }
  destruct HA; try (destruct pre; discriminate); try (exfalso; apply Hone in Eo; destruct Eo as (_ & _ & Eo); discriminate Eo).
  - exfalso. rewrite H3 in Eo. apply Hone in Eo. destruct Eo as (_ & _ & [= <-]). destruct Hin as [<-|Hin]; [rewrite Ht in H4; discriminate|].
    apply ccs_type in Hin. rewrite Ht in Hin. discriminate.
  - exfalso. assert (Hi : In (OWrite cs) (i_outs H)) by (rewrite H10, Eo; apply in_or_app; right; left; reflexivity).
    destruct (flight_shape _ _ _ _ _ _ H2 Hi) as (ct & sid & enc & -> & W1 & W2).
    destruct Hin as [<-|Hin]; [rewrite Ht in W1; discriminate|]. apply in_app_or in Hin. destruct Hin as [Hin|[<-|[]]]; [|rewrite Ht in W2; discriminate].
    apply ccs_type in Hin. rewrite Ht in Hin. discriminate.
  - exfalso. apply Hone in Eo. destruct Eo as (_ & _ & [= <-]). destruct Hin as [<-|[]]. rewrite Ht in *. discriminate.
  - exfalso. destruct H6 as [->|(ct & nst & m & -> & Hl & _)].
    + destruct pre as [|? [|? [|? ?]]]; discriminate.
    + destruct pre as [|? [|? [|? [|? ?]]]]; try discriminate. injection Eo as _ <- _. destruct Hin as [<-|[]]. rewrite Ht in *. discriminate.
  - exfalso. destruct H2 as [->|(ct & nst & m & -> & Hl & _)]; [destruct pre; discriminate|]. apply Hone in Eo. destruct Eo as (_ & _ & [= <-]).
    destruct Hin as [<-|[]]. rewrite Ht in *. discriminate.
  - exfalso. destruct pre as [|a [|b [|d pre]]]; try discriminate. injection Eo as _ <- _. destruct Hin as [<-|[]]. rewrite Ht in *. discriminate.
  - exfalso. destruct pre as [|a [|b [|d [|f pre]]]]; try discriminate. injection Eo as _ _ <- _. destruct Hin as [<-|[]]. rewrite Ht in *. discriminate.
  - destruct H0 as [(_ & _ & ct & -> & Hct & Hp)|(_ & ->)].
    + destruct pre as [|a [|b [|d pre]]]; try discriminate. injection Eo as <- <-. destruct Hin as [<-|[]].
      split; [reflexivity|]. split; [exact Hp|]. eauto.
    + apply Hone in Eo. destruct Eo as (_ & _ & [=]).
Qed.
(** Alerts: an alert is sent alone; it is a close_notify, or the fatal alert of the error that is reported next; and it is the last thing
    the connection sends. *)
Theorem C39_alert e l s L1 cs L2 c : env_ok e -> reach e l s (L1 ++ Emit (OWrite cs) :: L2) -> In c cs -> ct_type c = 21 ->
  cs = [c] /\ (ct_plain c = be 1 2 ++ be 1 0 \/ exists d L3, ct_plain c = be 1 2 ++ be 1 d /\ L2 = Emit (OError (Some d)) :: L3) /\
  Forall afterwards L2.
Proof.
  intros He Hr Hin Ht. destruct (slog_emit _ _ _ _ _ _ _ Hr) as (l1 & w & i & l2 & s1 & log1 & s2 & pre & post & L3 & El & A & B & E1 & -> & C).
  pose proof (reach_phase _ _ _ _ He A) as HP. pose proof B as B0. apply sstep_cases in B.
  assert (HH : forall log s1' ev, phase e log s1' -> hstep e w s1' ev s2 (pre ++ OWrite cs :: post) ->
    cs = [c] /\ ct_plain c = alert_bytes 0 /\ (exists x, post = [OEndOfData x]) /\ silent s2).
  { intros log s1' ev HP' HS. destruct (acts_alert _ _ _ _ _ _ _ _ _ _ (hstep_acts _ _ _ _ _ _ _ He HP' HS) Hin Ht) as (Q1 & Q2 & Q3 & Q4 & Q5 & Q6).
    split; [exact Q1|]. split; [exact Q2|]. split; [exact Q3|]. right. split; [unfold terminal; rewrite Q4; exact Logic.I|exact Q5]. }
  assert (Hcl : cs = [c] /\ ct_plain c = alert_bytes 0 /\ (exists x, post = [OEndOfData x]) /\ silent s2 ->
    cs = [c] /\ (ct_plain c = be 1 2 ++ be 1 0 \/ exists d L3', ct_plain c = be 1 2 ++ be 1 d /\ map Emit post ++ L3 = Emit (OError (Some d)) :: L3') /\
    Forall afterwards (map Emit post ++ L3)).
  { intros (Q1 & Q2 & (x & ->) & Q4). split; [exact Q1|]. split; [left; exact Q2|]. apply Forall_app. split; [repeat constructor|eapply silent_log; eassumption]. }
  destruct B as [ev R1 R2 R0 R3|r b r' b' x R1 R2 R3 R4 R5|r b r' b' hint R1 R2 R3 R4 R5 R6|R1 R2 R3 R4 R5 R6|R1 R2 R3 R4|R1 R2|R1 R2 R3 R4 R5|wl R1 R2 R3 R4 R5].
  - apply Hcl. eapply HH; [exact HP|exact R3].
  - apply Hcl. eapply (HH (log1 ++ [])); [|exact R5]. eapply phase_read; [exact HP|exact R2|rewrite R3; reflexivity|reflexivity].
  - apply split_one in R6. destruct R6 as (_ & _ & [=]).
  - assert (Hs : silent s2) by (right; split; [unfold terminal; rewrite R2; exact Logic.I|exact R3]).
    destruct R6 as [R6|(a' & [R6|(d & ct & wl & -> & _ & Hc & R6)])]; [destruct pre; discriminate|apply split_one in R6; destruct R6 as (_ & _ & [=])|].
    destruct pre as [|? [|? [|? ?]]]; try discriminate. injection R6 as -> ->. destruct Hin as [->|[]]. split; [reflexivity|]. split.
    + right. exists d, L3. split; [rewrite Hc; reflexivity|reflexivity].
    + constructor; [exact Logic.I|]. eapply silent_log; eassumption.
  - destruct pre; discriminate.
  - destruct pre; discriminate.
  - destruct R5 as [R5|(wl & ct & _ & Hc & R5)]; [destruct pre; discriminate|]. apply split_one in R5. destruct R5 as (_ & -> & [= ->]).
    destruct Hin as [->|[]]. split; [reflexivity|]. split; [left; rewrite Hc; reflexivity|]. cbn [map app]. eapply silent_log; [|exact C].
    right. split; [unfold terminal; destruct R3 as [-> | ->]; exact Logic.I|exact R4].
  - destruct pre; discriminate.
Qed.
(** After a fallback or the end of data, no data, secrets or success are reported, and nothing but alerts is written. *)
Lemma terminal_step e w s i s' outs : terminal s -> sstep e w s i = (s', outs) -> terminal s' /\ Forall closing (map Emit outs).
Proof.
  intros T H. apply sstep_cases in H.
  destruct H as [ev R1 R2 R0 R3|r b r' b' x R1 R2 R3 R4 R5|r b r' b' hint R1 R2 R3 R4 R5 R6|R1 R2 R3 R4 R5 R6|R1 R2 R3 R4|R1 R2|R1 R2 R3 R4 R5|wl R1 R2 R3 R4 R5].
  - destruct (terminal_hstep _ _ _ _ _ _ T R3) as (y & -> & _). discriminate.
  - destruct (terminal_hstep _ _ (upd_read s (Some r')) _ _ _ T R5) as (y & _ & -> & E1 & E2 & _).
    split; [unfold terminal; rewrite E1; exact Logic.I|repeat constructor].
  - subst. split; [exact T|repeat constructor].
  - split; [unfold terminal; rewrite R2; exact Logic.I|].
    destruct R6 as [->|(a & [->|(d & ct & wl & _ & X & Hc & ->)])]; [constructor|repeat constructor|].
    constructor; [right; exists ct; split; [reflexivity|rewrite Hc; reflexivity]|repeat constructor].
  - subst. split; [unfold terminal; rewrite R2; exact Logic.I|constructor].
  - subst. split; [unfold terminal; rewrite R1; exact Logic.I|constructor].
  - split; [unfold terminal; destruct R3 as [-> | ->]; exact Logic.I|].
    destruct R5 as [->|(wl & ct & X & Hc & ->)]; [constructor|]. constructor; [right; exists ct; split; [reflexivity|rewrite Hc; reflexivity]|constructor].
  - subst. split; [exact T|constructor].
Qed.
Lemma terminal_log e : forall l s s' L, terminal s -> slog e s l = (s', L) -> Forall closing L.
Proof.
  induction l as [|[w i] l IH]; intros s s' L HS H; cbn [slog] in H; [injection H as _ <-; constructor|].
  destruct (sstep e w s i) as [s1 o1] eqn:E1. destruct (slog e s1 l) as [s2 log2] eqn:E2. injection H as -> <-.
  destruct (terminal_step _ _ _ _ _ _ HS E1) as (A & B). rewrite !Forall_app. split.
  - eapply Forall_impl; [|apply recv_after]. intros x Hx. left. exact Hx.
  - split; [exact B|]. eapply IH; eassumption.
Qed.
Lemma acts_end e log w s ev s' pre o post : acts e log w s ev s' (pre ++ o :: post) -> (exists d x, o = OFallback d x) \/ (exists d, o = OEndOfData d) ->
  terminal s' /\ post = [].
Proof.
  remember (pre ++ o :: post) as outs eqn:Eo. intros HA Ho.
  assert (Hno : forall a, In a outs -> a <> o -> True) by auto.
  assert (Hin : In o outs) by (rewrite Eo; apply in_or_app; right; left; reflexivity).
  destruct HA; cbn [In] in Hin; try tauto;
    try (exfalso; repeat (destruct Hin as [<-|Hin]); try contradiction; destruct Ho as [(? & ? & [=])|(? & [=])]; fail).
  - symmetry in Eo. apply split_one in Eo. destruct Eo as (-> & -> & _). split; [exact Logic.I|reflexivity].
  - exfalso. rewrite H3 in Hin. destruct Hin as [<-|[]]. destruct Ho as [(? & ? & [=])|(? & [=])].
  - exfalso. rewrite Eo in H10. destruct (flight_out _ _ _ _ _ _ _ _ H2 H10) as [(k & b & ->)|[(cs & -> & _)|(-> & _)]]; destruct Ho as [(? & ? & [=])|(? & [=])].
  - exfalso. destruct H6 as [->|(ct & nst & m & -> & _)]; cbn [app In] in Hin; repeat (destruct Hin as [<-|Hin]); try contradiction; destruct Ho as [(? & ? & [=])|(? & [=])].
  - exfalso. destruct H2 as [->|(ct & nst & m & -> & _)]; cbn [app In] in Hin; repeat (destruct Hin as [<-|Hin]); try contradiction; destruct Ho as [(? & ? & [=])|(? & [=])].
  - split; [unfold terminal; rewrite H1; exact Logic.I|]. destruct H0 as [(_ & _ & ct & -> & _)|(_ & ->)].
    + destruct pre as [|a [|b [|d pre]]]; try discriminate; [|injection Eo as _ _ <-; reflexivity]. injection Eo as <- _. destruct Ho as [(? & ? & [=])|(? & [=])].
    + symmetry in Eo. apply split_one in Eo. tauto.
Qed.
Theorem C39_end_final e l s L1 o L2 : env_ok e -> reach e l s (L1 ++ Emit o :: L2) -> (exists d x, o = OFallback d x) \/ (exists d, o = OEndOfData d) ->
  Forall closing L2.
Proof.
  intros He Hr Ho. destruct (slog_emit _ _ _ _ _ _ _ Hr) as (l1 & w & i & l2 & s1 & log1 & s2 & pre & post & L3 & El & A & B & E1 & -> & C).
  pose proof (reach_phase _ _ _ _ He A) as HP. apply sstep_cases in B.
  assert (HH : terminal s2 /\ post = [] -> Forall closing (map Emit post ++ L3)).
  { intros (T & ->). eapply terminal_log; eassumption. }
  destruct B as [ev R1 R2 R0 R3|r b r' b' x R1 R2 R3 R4 R5|r b r' b' hint R1 R2 R3 R4 R5 R6|R1 R2 R3 R4 R5 R6|R1 R2 R3 R4|R1 R2|R1 R2 R3 R4 R5|wl R1 R2 R3 R4 R5].
  - apply HH. eapply acts_end; [eapply hstep_acts; [exact He|exact HP|exact R3]|exact Ho].
  - apply HH. eapply acts_end; [eapply (hstep_acts _ (log1 ++ [])); [exact He| |exact R5]|exact Ho]. eapply phase_read; [exact HP|exact R2|rewrite R3; reflexivity|reflexivity].
  - apply split_one in R6. destruct R6 as (_ & _ & ->). destruct Ho as [(? & ? & [=])|(? & [=])].
  - exfalso. assert (Hin : In o (pre ++ o :: post)) by (apply in_or_app; right; left; reflexivity).
    destruct R6 as [R6|(a & [R6|(d & ct & wl & _ & X & Hc & R6)])]; rewrite R6 in Hin; cbn [In] in Hin; repeat (destruct Hin as [<-|Hin]); try contradiction;
      destruct Ho as [(? & ? & [=])|(? & [=])].
  - destruct pre; discriminate.
  - destruct pre; discriminate.
  - destruct R5 as [R5|(wl & ct & _ & Hc & R5)]; [destruct pre; discriminate|]. apply split_one in R5. destruct R5 as (_ & _ & ->). destruct Ho as [(? & ? & [=])|(? & [=])].
  - destruct pre; discriminate.
Qed.
