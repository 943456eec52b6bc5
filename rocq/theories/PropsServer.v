(** * C34 - C36: what a server connection tells its application *)
From Verif Require Import Base Codec CodecSpec Str Hkdf HkdfSpec HkdfProofs KeySched KeySchedSpec KeySchedProofs Handshake HandshakeSpec Extensions
  ExtensionsSpec ExtensionsProofs RecordBase Record RecordRT
  ReadEvent HelloChecks Cookie Token Negotiate Ticket Kex Hpke Transcript IOBufUtil PropsIOBuf
  EchConfirm Server ServerSpec ServerFacts ServerSteps ServerFlight ServerInv ServerPreserve ServerParams ServerOrigin.
Open Scope N_scope.

(** ** Helpers *)
Lemma split_one {A} (x y : A) pre post : pre ++ x :: post = [y] -> pre = [] /\ post = [] /\ x = y.
Proof. destruct pre as [|a [|b pre]]; intros H; try discriminate; injection H as -> ->; auto. Qed.
Lemma past_outs e log s H L : past e log s H L -> exists cs post, i_outs H =
    (match i_ed H with EdAccepted => [OSecret' SkEarly (DeriveSecret (i_h H) (EarlySecret (i_h H) (i_psk H)) (str "c e traffic") (h_fn (i_h H) (i_tch H)))] | _ => [] end) ++
    [OSecret' SkClientHs (i_chs H); OSecret' SkServerHs (server_hs_secret (i_h H) (i_psk H) (i_dh H) (i_tsh H));
     OSecret' SkServerApp (server_traffic (i_h H) (i_tr H 0 0)); OWrite cs] ++ post /\ flight cs (i_sh H) (i_fl H) /\
    post = match i_ed H with EdAccepted => [OEarlySuccess] | _ => [] end.
Proof.
  intros P. destruct (fo_outs _ _ _ _ _ _ _ _ _ _ _ _ _ _ (pa_flight _ _ _ _ _ P)) as (pre & cs & post & Ho & Hf & Hp). cbv zeta in Ho.
  exists cs, post. split; [|split; [exact Hf|]].
  - rewrite Ho. f_equal. destruct Hp as [(Hn & -> & _)|(-> & _ & ->)]; [|reflexivity]. destruct (i_ed H); try reflexivity. destruct (Hn eq_refl).
  - destruct Hp as [(Hn & _ & ->)|(-> & -> & _)]; [|reflexivity]. destruct (i_ed H); try reflexivity. destruct (Hn eq_refl).
Qed.
(** The flight's actions, one by one. *)
Lemma flight_out e log s H L pre o post : past e log s H L -> i_outs H = pre ++ o :: post ->
  (exists k b, o = OSecret' k b) \/ (exists cs, o = OWrite cs /\ flight cs (i_sh H) (i_fl H)) \/ (o = OEarlySuccess /\ i_ed H = EdAccepted).
Proof.
  intros P E. destruct (past_outs _ _ _ _ _ P) as (cs & po & Ho & Hf & Hp). rewrite Ho in E.
  assert (Hin : In o (pre ++ o :: post)) by (apply in_or_app; right; left; reflexivity). rewrite <- E in Hin. clear E.
  apply in_app_or in Hin. destruct Hin as [Hin|Hin].
  - left. destruct (i_ed H); try contradiction. destruct Hin as [<-|[]]. eauto.
  - destruct Hin as [<-|[<-|[<-|[<-|Hin]]]]; [left; eauto|left; eauto|left; eauto|right; left; eauto|].
    right. right. subst po. destruct (i_ed H); try contradiction. destruct Hin as [<-|[]]. auto.
Qed.
(** ** C34 *)
(** Success is reported only right after a Finished message whose verify_data is the one RFC 8446 (4.4.4) prescribes for the
    transcript of this connection and the client handshake traffic secret of its parameters, and only once. *)
Theorem C34_success e l s L1 L2 : env_ok e -> reach e l s (L1 ++ Emit OSuccess :: L2) ->
  exists L0 w vd orig pre P La, L1 = L0 ++ Recv w (EvHandshake (MFinished vd) orig) :: map Emit pre /\
    handshake e L0 P La /\
    vd = Some (verify_data (p_hash P) (client_hs_secret (p_hash P) (p_psk P) (p_dh P) (p_Tsh P)) (p_Tsf P ++ client_msgs La)) /\
    count is_success L1 = 0%nat.
Proof.
  intros He Hr. destruct (emit_acts _ _ _ _ _ _ _ He Hr eq_refl) as [(log1 & s1 & w & ev & s2 & pre & post & HP & HA & -> & HL3)|D].
  2:{ destruct D as [(n & [=])|[(a & [=])|(ct & [=] & _)]]. }
  remember (pre ++ OSuccess :: post) as outs eqn:Eo.
  assert (Hone : forall x, x <> OSuccess -> [x] = pre ++ OSuccess :: post -> False).
  { intros x Hx E. symmetry in E. apply split_one in E. destruct E as (_ & _ & <-). congruence. }
  destruct HA; try (destruct pre; discriminate); try (exfalso; revert Eo; apply Hone; discriminate).
  - exfalso. rewrite H3 in Eo. revert Eo. apply Hone. discriminate.
  - exfalso. assert (Ho : i_outs H = pre ++ OSuccess :: post) by congruence.
    destruct (flight_out _ _ _ _ _ _ _ _ H2 Ho) as [(k & b & [=])|[(cs & [=] & _)|([=] & _)]].
  - destruct (past_handshake _ _ _ _ _ He H0) as (P & po & HH & Hp & SP).
    assert (Hpre : count is_success (map Emit pre) = 0%nat).
    { apply (f_equal (fun l => count is_success (map Emit l))) in Eo. rewrite map_app, count_app in Eo. cbn [map] in Eo.
      unfold count in Eo at 1 3. cbn [map filter is_success] in Eo. rewrite map_app, filter_app, app_length in Eo. cbn [map filter is_success length] in Eo.
      destruct H6 as [->|(ct & nst & m & -> & _)]; cbn [map filter is_success length] in Eo; lia. }
    exists log1, w, vd, orig, pre, P, (po ++ L). split; [reflexivity|]. split; [exact HH|]. split.
    + rewrite H5. unfold i_chs. destruct SP. rewrite sp_hash, sp_psk, sp_dh, sp_Tsh, sp_Tsf. rewrite client_msgs_app.
      assert (client_msgs po = []) as -> by (destruct Hp as [(-> & _)|(-> & _)]; reflexivity). reflexivity.
    + rewrite count_app. destruct (hi_quiet _ _ _ _ _ H1) as (-> & _). rewrite count_app, Hpre. reflexivity.
  - exfalso. destruct H2 as [->|(ct & nst & m & -> & _)]; [destruct pre; discriminate|]. revert Eo. apply Hone. discriminate.
  - exfalso. destruct pre as [|a [|b [|c pre]]]; discriminate.
  - exfalso. destruct pre as [|a [|b [|c [|d pre]]]]; discriminate.
  - exfalso. destruct H0 as [(_ & _ & ct & -> & _)|(_ & ->)]; [|revert Eo; apply Hone; discriminate]. destruct pre as [|a [|b [|c pre]]]; discriminate.
Qed.
Corollary C34_once e l s log : env_ok e -> reach e l s log -> (count is_success log <= 1)%nat.
Proof.
  intros He Hr. destruct (count is_success log) as [|n] eqn:E; [lia|].
  assert (exists L1 L2, log = L1 ++ Emit OSuccess :: L2 /\ count is_success L2 = 0%nat) as (L1 & L2 & -> & E2).
  { clear -E. revert n E. induction log as [|x log IH] using rev_ind; intros n E; [discriminate|].
    destruct (is_success x) eqn:Ex.
    - exists log, []. split; [|reflexivity]. destruct x as [|o]; [discriminate|]. destruct o; try discriminate. reflexivity.
    - rewrite count_app in E. assert (count is_success [x] = 0%nat) as E0 by (unfold count; cbn; rewrite Ex; reflexivity). rewrite E0, Nat.add_0_r in E.
      destruct (IH _ E) as (L1 & L2 & -> & E2). exists L1, (L2 ++ [x]). split; [rewrite <- app_assoc; reflexivity|]. rewrite count_app, E2, E0. reflexivity. }
  destruct (C34_success _ _ _ _ _ He Hr) as (_ & _ & _ & _ & _ & _ & _ & _ & _ & _ & C). rewrite count_app, C in E. unfold count in E, E2. cbn [filter is_success length] in E. lia.
Qed.
(** Application data is delivered only as it is received, and only after success or, as early data, after early success and before
    the client's next handshake message. *)
Theorem C34_deliver e l s L1 d L2 : env_ok e -> reach e l s (L1 ++ Emit (ODeliver d) :: L2) ->
  exists L0 w, L1 = L0 ++ [Recv w (EvAppData d)] /\
    (In (Emit OSuccess) L0 \/
     exists P La, handshake e L0 P La /\ hd_error La = Some (Emit OEarlySuccess) /\ count is_hs_recv La = 0%nat).
Proof.
  intros He Hr. destruct (emit_acts _ _ _ _ _ _ _ He Hr eq_refl) as [(log1 & s1 & w & ev & s2 & pre & post & HP & HA & -> & HL3)|D].
  2:{ destruct D as [(n & [=])|[(a & [=])|(ct & [=] & _)]]. }
  remember (pre ++ ODeliver d :: post) as outs eqn:Eo.
  assert (Hone : forall x, x <> ODeliver d -> [x] = pre ++ ODeliver d :: post -> False).
  { intros x Hx E. symmetry in E. apply split_one in E. destruct E as (_ & _ & <-). congruence. }
  destruct HA; try (destruct pre; discriminate); try (exfalso; revert Eo; apply Hone; discriminate).
  - exfalso. rewrite H3 in Eo. revert Eo. apply Hone. discriminate.
  - exfalso. assert (Ho : i_outs H = pre ++ ODeliver d :: post) by congruence.
    destruct (flight_out _ _ _ _ _ _ _ _ H2 Ho) as [(k & b & [=])|[(cs & [=] & _)|([=] & _)]].
  - symmetry in Eo. apply split_one in Eo. destruct Eo as (-> & -> & [= <-]). exists log1, w. split; [reflexivity|]. right.
    destruct (past_handshake _ _ _ _ _ He H1) as (P & po & HH & Hp & SP). exists P, (po ++ L). split; [exact HH|].
    pose proof (hi_state _ _ _ _ _ H2) as HS. rewrite H0 in HS. destruct HS as (S1 & _ & _ & _ & S5).
    pose proof (fo_read _ _ _ _ _ _ _ _ _ _ _ _ _ _ (pa_flight _ _ _ _ _ H1)) as R. rewrite S1 in R. destruct R as (_ & _ & Ed & _).
    destruct Hp as [(_ & Hn)|(-> & _)]; [contradiction|]. split; [reflexivity|]. rewrite count_app, S5. reflexivity.
  - symmetry in Eo. apply split_one in Eo. destruct Eo as (-> & -> & [= <-]). exists log1, w. split; [reflexivity|]. left.
    pose proof (di_success _ _ _ _ _ H2) as C. clear -C. induction log1 as [|x log1 IH]; [discriminate|].
    destruct (is_success x) eqn:Ex.
    + left. destruct x as [|o]; [discriminate|]. destruct o; try discriminate. reflexivity.
    + right. apply IH. unfold count in *. cbn [filter] in C. rewrite Ex in C. exact C.
  - exfalso. destruct H6 as [->|(ct & nst & m & -> & _)]; [destruct pre as [|? [|? [|? ?]]]; discriminate|destruct pre as [|? [|? [|? [|? ?]]]]; discriminate].
  - exfalso. destruct H2 as [->|(ct & nst & m & -> & _)]; [destruct pre; discriminate|]. revert Eo. apply Hone. discriminate.
  - exfalso. destruct pre as [|a [|b [|c pre]]]; discriminate.
  - exfalso. destruct pre as [|a [|b [|c [|d' pre]]]]; discriminate.
  - exfalso. destruct H0 as [(_ & _ & ct & -> & _)|(_ & ->)]; [|revert Eo; apply Hone; discriminate]. destruct pre as [|a [|b [|c pre]]]; discriminate.
Qed.

(** Nothing is lost, duplicated or reordered in either direction. *)
Definition app_received (L : list entry) : list bytes := flat_map (fun x => match x with Recv _ (EvAppData d) => [d] | _ => [] end) L.
Definition delivered (L : list entry) : list bytes := flat_map (fun x => match x with Emit (ODeliver d) => [d] | _ => [] end) L.
Definition app_inputs (l : list (world * input)) : list bytes := flat_map (fun x => match snd x with IAppWrite q => [concat q] | _ => [] end) l.
Definition app_written (L : list entry) : list bytes :=
  flat_map (fun x => match x with Emit (OWrite cs) => map ct_plain (filter (fun c => ct_type c =? 23) cs) | _ => [] end) L.
Definition live (s : sstate) : Prop := ~ terminal s.

Definition emits (f : out -> list bytes) (o : list out) : list bytes := flat_map f o.
Definition d_of (o : out) : list bytes := match o with ODeliver d => [d] | _ => [] end.
Definition w_of (o : out) : list bytes := match o with OWrite cs => map ct_plain (filter (fun c => ct_type c =? 23) cs) | _ => [] end.
Lemma delivered_outs o : delivered (map Emit o) = flat_map d_of o.
Proof. induction o as [|x o IH]; [reflexivity|]. cbn [map delivered flat_map]. unfold delivered in IH. rewrite IH. destruct x; reflexivity. Qed.
Lemma written_outs o : app_written (map Emit o) = flat_map w_of o.
Proof. induction o as [|x o IH]; [reflexivity|]. cbn [map app_written flat_map]. unfold app_written in IH. rewrite IH. destruct x; reflexivity. Qed.
Lemma received_outs o : app_received (map Emit o) = [].
Proof. induction o as [|x o IH]; [reflexivity|]. exact IH. Qed.
Lemma ccs_no_app sid : filter (fun c => ct_type c =? 23) (ccs_if sid) = [].
Proof. destruct sid; reflexivity. Qed.
Lemma flight_shape e log s H L cs : past e log s H L -> In (OWrite cs) (i_outs H) ->
  exists ct sid enc, cs = ct :: ccs_if sid ++ [enc] /\ ct_type ct = 22 /\ ct_type enc = 22.
Proof.
  intros P Hin. destruct (pa_facts _ _ _ _ _ P) as (sid & k & hc & alpn & skew & early & kt & group & F1 & F2 & F3 & F4 & F5).
  destruct F3 as [(k2 & exts & random & sh0 & sh & rtry & bsh & hws & hwl & hrs & hrl & bee & reqExts & creq & scert & ccert & scheme & auth & hc4 & bfin & hc5 & enc & wl & ct & k3 & ems & k4 & aws & awl & F)].
  cbv zeta in F.
  destruct F as (_ & _ & _ & _ & _ & _ & _ & _ & _ & _ & F11 & _ & _ & _ & _ & _ & _ & F18 & F19 & F20 & _ & _ & _ & _ & _ & F26).
  assert (Hc : cs = ct :: ccs_if sid ++ [enc]).
  { destruct F26 as [(ets & erl & eexp & _ & _ & E & _)|(_ & E & _)]; rewrite E in Hin; cbn [app In] in Hin.
    - destruct Hin as [[=]|[[=]|[[=]|[[=]|[[= <-]|[[=]|[]]]]]]]. reflexivity.
    - destruct Hin as [[=]|[[=]|[[=]|[[= <-]|[]]]]]. reflexivity. }
  subst cs. destruct (wl_write wl 22 [bsh]) as [wl' rr] eqn:Ew. cbn [snd] in F20. subst rr. apply wl_write_content in Ew. destruct Ew as (W1 & _).
  unfold new_write in F11. bo F11 rv E1. bo F11 ae E2. injection F11 as <-.
  destruct (write_flight_content _ _ _ _ _ eq_refl F18) as (_ & W2 & _).
  exists ct, sid, enc. auto.
Qed.
Lemma flight_types e log s H L cs : past e log s H L -> In (OWrite cs) (i_outs H) -> filter (fun c => ct_type c =? 23) cs = [].
Proof.
  intros P Hin. destruct (flight_shape _ _ _ _ _ _ P Hin) as (ct & sid & enc & -> & W1 & W2).
  cbn [filter]. rewrite W1, filter_app, ccs_no_app. cbn [filter app N.eqb]. rewrite W2. reflexivity.
Qed.
(** What one handler delivers and writes. *)
Definition ev_data (ev : sevent) : list bytes := match ev with SvRead (EvAppData d) => [d] | _ => [] end.
Definition ev_write (ev : sevent) : list bytes := match ev with SvAppWrite q => [concat q] | _ => [] end.
Lemma acts_data e log w s ev s' outs : acts e log w s ev s' outs -> flat_map d_of outs = ev_data ev /\ flat_map w_of outs = ev_write ev.
Proof.
  intros HA. destruct HA; try (split; reflexivity).
  - rewrite H3. cbn [flat_map d_of w_of ev_data ev_write hello_ev filter]. rewrite H4, ccs_no_app. split; reflexivity.
  - destruct (past_outs _ _ _ _ _ H2) as (cs & post & Ho & _ & Hp). rewrite H10 in Ho.
    assert (Hcs : filter (fun c => ct_type c =? 23) cs = []).
    { eapply flight_types; [exact H2|]. rewrite H10, Ho. apply in_or_app. right. right. right. right. left. reflexivity. }
    rewrite Ho, Hp. rewrite !flat_map_app. cbn [flat_map d_of w_of]. rewrite Hcs. destruct (i_ed H); split; reflexivity.
  - cbn [flat_map w_of filter ev_write]. rewrite H3. change (23 =? 23) with true. cbn [map app]. rewrite H5. split; reflexivity.
  - destruct H6 as [->|(ct & nst & m & -> & C & _)]; [split; reflexivity|]. cbn. rewrite C. split; reflexivity.
  - destruct H2 as [->|(ct & nst & m & -> & C & _)]; [split; reflexivity|]. cbn. rewrite C. split; reflexivity.
  - cbn. rewrite H3. split; reflexivity.
  - cbn. rewrite H4. split; reflexivity.
  - destruct H0 as [(_ & _ & ct & -> & C & _)|(_ & ->)]; [|split; reflexivity]. cbn. rewrite C. split; reflexivity.
Qed.
Lemma app_received_app a b : app_received (a ++ b) = app_received a ++ app_received b. Proof. apply flat_map_app. Qed.
Lemma delivered_app a b : delivered (a ++ b) = delivered a ++ delivered b. Proof. apply flat_map_app. Qed.
Lemma app_written_app a b : app_written (a ++ b) = app_written a ++ app_written b. Proof. apply flat_map_app. Qed.
Lemma terminal_dec s : terminal s \/ ~ terminal s.
Proof. unfold terminal. destruct (s_state s); auto. Qed.
(** Handlers run in states that are not terminal, but for close_notify. *)
Lemma hstep_terminal e w s ev s' outs : hstep e w s ev s' outs -> terminal s -> outs = [] \/ exists p, ev = SvRead (EvClose p).
Proof.
  unfold terminal. intros HS T. destruct HS; try (rewrite H in T; contradiction); try (destruct H as [H|H]; rewrite H in T; contradiction).
  - destruct H as [H|[H|H]]; rewrite H in T; contradiction.
  - right. eauto.
Qed.
Lemma hstep_ev_terminal e w s ev s' outs : hstep e w s ev s' outs -> terminal s -> ev_data ev = [] /\ ev_write ev = [].
Proof.
  unfold terminal. intros HS T. destruct HS; try (rewrite H in T; contradiction); try (split; reflexivity).
  - destruct H as [H|H]; rewrite H in T; contradiction.
  - destruct H as [H|[H|H]]; rewrite H in T; contradiction.
Qed.
Lemma fail_no_data s outs : fail_outs s outs -> flat_map d_of outs = [] /\ flat_map w_of outs = [].
Proof.
  intros [->|(a & [->|(d & ct & wl & -> & _ & -> & ->)])]; split; reflexivity.
Qed.
Lemma hstep_stays e w s ev s' outs : hstep e w s ev s' outs -> terminal s -> terminal s'.
Proof.
  unfold terminal. intros HS T. destruct HS; try (rewrite H in T; contradiction); try (destruct H as [H|H]; rewrite H in T; contradiction).
  - destruct H as [H|[H|H]]; rewrite H in T; contradiction.
  - unfold handle_close in H0. destruct (no_unparsed s) as [[|]|]; try discriminate. destruct reply; [rewrite H in T; contradiction|].
    injection H0 as <- <-. exact Logic.I.
Qed.
(** One step: data in, data out. *)
Definition in_write (i : input) : list bytes := match i with IAppWrite q => [concat q] | _ => [] end.
Lemma step_data e log w s i s' outs : env_ok e -> phase e log s -> sstep e w s i = (s', outs) ->
  exists rd rw, app_received (received w s i) = flat_map d_of outs ++ rd /\ in_write i = flat_map w_of outs ++ rw /\
    (live s' -> rd = [] /\ rw = []) /\ (terminal s -> terminal s' /\ flat_map d_of outs = [] /\ flat_map w_of outs = []).
Proof.
  intros He HP H. pose proof H as Hs. apply sstep_cases in H.
  assert (Hid : forall a b : list bytes, a = [] -> b = [] -> live s' \/ terminal s' /\ True -> 
     (terminal s -> terminal s') -> app_received (received w s i) = [] \/ terminal s' -> in_write i = [] \/ terminal s' ->
     a = flat_map d_of outs -> b = flat_map w_of outs ->
     exists rd rw, app_received (received w s i) = flat_map d_of outs ++ rd /\ in_write i = flat_map w_of outs ++ rw /\
    (live s' -> rd = [] /\ rw = []) /\ (terminal s -> terminal s' /\ flat_map d_of outs = [] /\ flat_map w_of outs = [])).
  { intros a b -> -> _ Ht Hr Hw <- <-. exists (app_received (received w s i)), (in_write i). split; [reflexivity|]. split; [reflexivity|].
    split; [|auto]. intros Hl. destruct Hr as [Hr|Hr]; [|contradiction]. destruct Hw as [Hw|Hw]; [|contradiction]. auto. }
  assert (Hact : forall s0 ev, phase e log s0 -> (terminal s -> terminal s0) -> hstep e w s0 ev s' outs -> app_received (received w s i) = ev_data ev -> in_write i = ev_write ev ->
     exists rd rw, app_received (received w s i) = flat_map d_of outs ++ rd /\ in_write i = flat_map w_of outs ++ rw /\
    (live s' -> rd = [] /\ rw = []) /\ (terminal s -> terminal s' /\ flat_map d_of outs = [] /\ flat_map w_of outs = [])).
  { intros s0 ev HP0 Ht HS Er Ew. destruct (acts_data _ _ _ _ _ _ _ (hstep_acts _ _ _ _ _ _ _ He HP0 HS)) as (D1 & D2).
    exists [], []. rewrite D1, D2, !app_nil_r. split; [exact Er|]. split; [exact Ew|]. split; [auto|]. intros T. apply Ht in T.
    split; [|exact (hstep_ev_terminal _ _ _ _ _ _ HS T)]. eapply hstep_stays; eassumption. }
  destruct H as [ev R1 R2 R0 R3|r b r' b' x R1 R2 R3 R4 R5|r b r' b' hint R1 R2 R3 R4 R5 R6|R1 R2 R3 R4 R5 R6|R1 R2 R3 R4|R1 R2|R1 R2 R3 R4 R5|wl R1 R2 R3 R4 R5].
  - eapply Hact; [exact HP|auto|exact R3| |]; [|destruct i; try discriminate; injection R0 as <-; reflexivity].
    rewrite R1. destruct ev; try reflexivity. discriminate.
  - apply (Hact (upd_read s (Some r')) (SvRead x)); [|intros T; exact T|exact R5| |].
    + rewrite <- (app_nil_r log). eapply phase_read; [exact HP|exact R2|rewrite R3; reflexivity|reflexivity].
    + rewrite R4. cbn. destruct x; reflexivity.
    + subst i. reflexivity.
  - subst outs s'. eapply (Hid [] []); try reflexivity; [destruct (terminal_dec s); [right|left]; auto|auto|rewrite R4; auto|subst i; auto].
  - assert (T : terminal s') by (unfold terminal; rewrite R2; exact Logic.I). destruct (fail_no_data _ _ R6) as (F1 & F2).
    eapply (Hid [] []); auto.
  - assert (T : terminal s') by (unfold terminal; rewrite R2; exact Logic.I). subst outs. eapply (Hid [] []); auto.
  - assert (T : terminal s') by (unfold terminal; rewrite R1; exact Logic.I). subst outs. eapply (Hid [] []); auto.
  - assert (T : terminal s') by (unfold terminal; destruct R3 as [-> | ->]; exact Logic.I).
    destruct R5 as [->|(wl & ct & _ & E & ->)]; [eapply (Hid [] []); auto|].
    assert (F : flat_map w_of [OWrite [ct]] = []) by (rewrite E; reflexivity). eapply (Hid [] []); auto.
  - subst outs s'. eapply (Hid [] []); try reflexivity; [destruct (terminal_dec s); [right|left]; auto|auto|rewrite R1; auto|destruct R2 as [-> | ->]; auto].
Qed.
Lemma flow e l s log : env_ok e -> reach e l s log ->
  exists rd rw, app_received log = delivered log ++ rd /\ app_inputs l = app_written log ++ rw /\ (live s -> rd = [] /\ rw = []).
Proof.
  intros He Hr. revert s log Hr. induction l as [|[w i] l IH] using rev_ind; intros s log Hr.
  - cbv in Hr. injection Hr as <- <-. exists [], []. auto.
  - pose proof Hr as Hr0. unfold reach in Hr. rewrite slog_app in Hr. destruct (slog e s_init l) as [s1 log1] eqn:E1.
    cbn [slog] in Hr. destruct (sstep e w s1 i) as [s2 o] eqn:E2. injection Hr as <- <-. rewrite app_nil_r in *.
    destruct (IH _ _ E1) as (rd & rw & A & B & C). pose proof (reach_phase _ _ _ _ He E1) as HP.
    destruct (step_data _ _ _ _ _ _ _ He HP E2) as (rd' & rw' & A' & B' & C' & D').
    assert (Ei : app_inputs (l ++ [(w, i)]) = app_inputs l ++ in_write i) by (unfold app_inputs; rewrite flat_map_app; cbn [flat_map snd]; rewrite app_nil_r; reflexivity).
    rewrite Ei, !app_received_app, !delivered_app, !app_written_app, received_outs, delivered_outs, written_outs, app_nil_r.
    assert (delivered (received w s1 i) = [] /\ app_written (received w s1 i) = []) as (-> & ->).
    { unfold received. destruct (s_state s1); destruct i; try (split; reflexivity); destruct (s_read s1); try (split; reflexivity); destruct (read_event _ _); split; reflexivity. }
    rewrite A, B, A', B'. cbn [app]. destruct (terminal_dec s1) as [T|T].
    + destruct (D' T) as (T2 & E3 & E4). rewrite E3, E4, !app_nil_r. cbn [app].
      exists (rd ++ rd'), (rw ++ rw'). rewrite !app_assoc. split; [reflexivity|]. split; [reflexivity|]. intros X. contradiction.
    + destruct (C T) as (-> & ->). rewrite !app_nil_r, !app_assoc. exists rd', rw'. auto.
Qed.
(** While the connection lives, exactly the application data received has been delivered, in order, and exactly the
    application data handed over has been written; ever after, a prefix of it. *)
Theorem C34_data_exact e l s log : env_ok e -> reach e l s log -> live s ->
  delivered log = app_received log /\ app_written log = app_inputs l.
Proof.
  intros He Hr Hl. destruct (flow _ _ _ _ He Hr) as (rd & rw & A & B & C). destruct (C Hl) as (-> & ->). rewrite app_nil_r in A, B. auto.
Qed.
Theorem C34_data_prefix e l s log : env_ok e -> reach e l s log ->
  (exists rd, app_received log = delivered log ++ rd) /\ (exists rw, app_inputs l = app_written log ++ rw).
Proof. intros He Hr. destruct (flow _ _ _ _ He Hr) as (rd & rw & A & B & _). eauto. Qed.
