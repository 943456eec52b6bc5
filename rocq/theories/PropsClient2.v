(** * C53, C54: data on a client connection, and how it ends *)
From Verif Require Import Base Codec CodecSpec Str Hkdf HkdfSpec HkdfProofs KeySched KeySchedSpec KeySchedProofs Handshake Extensions RecordBase Record
  RecordRT ReadEvent HelloChecks Cookie Token Negotiate Ticket PskSer Kex Hpke Transcript IOBufUtil PropsIOBuf EchConfirm HpkeUtils EchCrypt Server
  ServerSpec ServerFacts ServerSteps ServerFlight ServerInv ServerPreserve ExtensionsSpec ExtensionsProofs PropsCodec PropsEch Client ClientSpec ClientSteps ClientHello
  ClientInv ClientAwait ClientFlight ClientPhase ClientPreserve ClientOrigin PropsClient.
Open Scope N_scope.

(** ** Specification *)
(** Application data received, and delivered to the application. *)
Definition capp_received (L : list centry) : list bytes := flat_map (fun x => match x with CRecv _ (EvAppData d) => [d] | _ => [] end) L.
Definition cdelivered (L : list centry) : list bytes := flat_map (fun x => match x with CEmit (KDeliver d) => [d] | _ => [] end) L.
(** Application data handed over, as early data ([true]) or not. *)
Definition capp_inputs (l : list (cworld * cinput)) : list (bool * bytes) :=
  flat_map (fun x => match snd x with JAppWrite q => [(false, concat q)] | JEarlyAppWrite q => [(true, concat q)] | _ => [] end) l.
(** What became of it: written in application data records ([true]) or returned as an early write that failed ([false]). *)
Definition caccounted (L : list centry) : list (bool * bytes) :=
  flat_map (fun x => match x with
    | CEmit (KWrite cs) => map (fun c => (true, ct_plain c)) (filter (fun c => ct_type c =? 23) cs)
    | CEmit (KEarlyWriteFailed q) => [(false, concat q)]
    | _ => [] end) L.
(** [x] became [y]: the same bytes, and only early data is returned. *)
Definition became (x y : bool * bytes) : Prop := snd x = snd y /\ (fst y = false -> fst x = true).
Definition clive (s : cstate) : Prop := ~ cterminal s.
(** What may still happen once a connection has failed or ended: calls and reports of errors. *)
Definition cafter (x : centry) : Prop := match x with CCall _ _ => True | CEmit (KError _) => True | _ => False end.

(** ** C53 *)
Lemma success_In L : (0 < ccount cis_success L)%nat -> exists b, In (CEmit (KSuccess b)) L.
Proof. intros H. destruct (last_success _ H) as (L1 & b & L2 & -> & _). exists b. apply in_or_app. right. left. reflexivity. Qed.
(** Application data is delivered only as it is received, and only after success (or after the application closed its side). *)
Theorem C53_deliver k l s L1 d L2 : cenv_ok k -> creach k l s (L1 ++ CEmit (KDeliver d) :: L2) ->
  exists L0 w, L1 = L0 ++ [CRecv w (EvAppData d)] /\
    ((exists b, In (CEmit (KSuccess b)) L0) \/ exists w', In (CCall w' JAppClose) L0).
Proof.
  intros Hk Hr. destruct (cemit_acts _ _ _ _ _ _ _ Hk Hr eq_refl) as [(l1 & s0 & log1 & s1 & w & ev & s2 & pre & post & L3 & Hr1 & _ & _ & HP & HA & -> & HL3)|D].
  2:{ destruct D as [(n & [=])|[(a & [=])|(ct & [=] & _)]]. }
  assert (Hin : In (KDeliver d) (pre ++ KDeliver d :: post)) by (apply in_or_app; right; left; reflexivity).
  remember (pre ++ KDeliver d :: post) as outs eqn:Eo.
  destruct HA; try (exfalso; cbn [In] in Hin; repeat (destruct Hin as [[=]|Hin]); contradiction).
  - exfalso. destruct H2 as [->|(t & mx & x & ->)]; cbn [In] in Hin; intuition discriminate.
  - exfalso. rewrite (ah_outs _ _ _ _ _ _ _ H3) in Hin. cbn [In] in Hin; intuition discriminate.
  - exfalso. destruct H4 as [->|(n & cs & ->)]; cbn [In] in Hin; intuition discriminate.
  - exfalso. unfold z_outs in Hin. cbn [app In] in Hin. destruct H12 as [(-> & _)|(_ & _ & _ & _ & _ & [->|(al & -> & _)])]; cbn [In] in Hin; intuition discriminate.
  - apply one_elem in Eo. destruct Eo as (-> & -> & [= ->]). exists log1, w. split; [reflexivity|].
    destruct HP as [-> _|A HA|G L P X I|G F L L' P X I|E1 _ _ E2|T _].
    + destruct H; discriminate.
    + rewrite (aw_state _ _ _ _ HA) in H. destruct H; discriminate.
    + destruct I as [_ _ _ _ _ _ _ _ I]. destruct H as [H|H]; rewrite H in I; contradiction.
    + left. apply success_In. rewrite (xd_success _ _ _ _ _ _ I). lia.
    + right. exact E2.
    + unfold cterminal in T. destruct H as [H|H]; rewrite H in T; contradiction.
  - exfalso. destruct H7 as [(_ & ->)|(_ & ws & ct & wl & -> & _)]; cbn [In] in Hin; intuition discriminate.
  - exfalso. destruct H3 as [(_ & ct & -> & _)|(_ & ->)]; cbn [In] in Hin; intuition discriminate.
Qed.

Definition cd_of (o : cout) : list bytes := match o with KDeliver d => [d] | _ => [] end.
Definition ca_of (o : cout) : list (bool * bytes) :=
  match o with
  | KWrite cs => map (fun c => (true, ct_plain c)) (filter (fun c => ct_type c =? 23) cs)
  | KEarlyWriteFailed q => [(false, concat q)]
  | _ => [] end.
Lemma cdelivered_outs o : cdelivered (map CEmit o) = flat_map cd_of o.
Proof. induction o as [|x o IH]; [reflexivity|]. cbn [map cdelivered flat_map]. unfold cdelivered in IH. rewrite IH. destruct x; reflexivity. Qed.
Lemma caccounted_outs o : caccounted (map CEmit o) = flat_map ca_of o.
Proof. induction o as [|x o IH]; [reflexivity|]. cbn [map caccounted flat_map]. unfold caccounted in IH. rewrite IH. destruct x; reflexivity. Qed.
Lemma creceived_outs o : capp_received (map CEmit o) = [].
Proof. induction o as [|x o IH]; [reflexivity|]. exact IH. Qed.
Lemma ccs_no_app k b : filter (fun c => ct_type c =? 23) (ccs_first k b) = [].
Proof. unfold ccs_first. destruct (k_compat k && negb b); reflexivity. Qed.
Lemma ccs_first_type k b c : In c (ccs_first k b) -> ct_type c = 20.
Proof. unfold ccs_first. destruct (k_compat k && negb b); cbn; intros H; [destruct H as [<-|[]]; reflexivity|destruct H]. Qed.
(** The client's flight consists of ChangeCipherSpec and handshake messages. *)
Lemma cflight_types k s vd orig s' G F tail c : chandle_finished k s vd orig = CHOk s' (z_outs G F ++ tail) -> In c (z_cs F) -> ct_type c = 20 \/ ct_type c = 22.
Proof.
  intros H Hin. unfold chandle_finished in H. destruct (c_hctx s) as [hc|]; [|discriminate]. destruct (c_secrets s) as [[cs ss]|]; [|discriminate].
  destruct (c_ks s) as [[h k0]|]; [|discriminate]. destruct (g_version (c_neg s)); [|discriminate]. destruct (g_cipher (c_neg s)); [|discriminate].
  destruct (g_auth (c_neg s)) as [auth|]; [|discriminate]. destruct (cno_unparsed s) as [[]|]; try discriminate.
  destruct (hc_finished hc ss); [|discriminate]. destruct vd as [got|]; [|discriminate]. destruct (negb _); [discriminate|]. cbv zeta in H.
  destruct (finished_prepare k s _ cs h k0 auth) as [[[[[[eoed msgs] cc] ems] rms] k1]|] eqn:Ep; [|discriminate].
  apply cwith_write_ok in H. destruct H as (wl & wl' & ct & Ew & Ewr & H).
  apply wl_write_content in Ewr. destruct Ewr as (T & _).
  assert (Te : forall x, eoed = Some x -> ct_type x = 22).
  { intros x ->. unfold finished_prepare in Ep. bo Ep k2 E2. apply bind_Ok in Ep. destruct Ep as ((eo & hc1) & E3 & Ep). cbv beta iota in Ep.
    assert (eo = Some x).
    { apply bind_Ok in Ep. destruct Ep as (((ms & h2) & c0) & _ & Ep). cbv beta iota in Ep. bo Ep ee E4. apply bind_Ok in Ep. destruct Ep as ((fi & h3) & _ & Ep). cbv beta iota in Ep.
      bo Ep rr E5. congruence. }
    subst eo. destruct (g_early (c_neg s)); try discriminate. destruct (k_omitEarly k); [discriminate|]. bo E3 m E4. destruct (c_earlyw s) as [we|]; [|discriminate].
    destruct (wl_write we 22 [m]) as [we' r] eqn:Ewe. cbn [snd] in E3. bo E3 c1 Ec1. subst r. injection E3 as -> _. apply wl_write_content in Ewe. tauto. }
  match type of H with match ?x with Ok _ => _ | Err _ => _ end = _ => destruct x as [[[[[k3 ws] wl2] rs] rl]|] end; [|discriminate].
  assert (Ecs : z_cs F = ccs_first k (c_ccs s) ++ match eoed with Some c => [c] | None => [] end ++ [ct]).
  { unfold z_outs in H. destruct (c_ech s) as [e|]; [destruct (ec_status e)|];
      try match type of H with match ?x with Ok _ => _ | Err _ => _ end = _ => destruct x as [al|[]]; try discriminate end;
      injection H; intros; congruence. }
  rewrite Ecs in Hin. apply in_app_or in Hin. destruct Hin as [Hin|Hin]; [left; eapply ccs_first_type, Hin|right].
  apply in_app_or in Hin. destruct Hin as [Hin|[<-|[]]]; [|exact T]. destruct eoed as [x|]; [|destruct Hin]. destruct Hin as [<-|[]]. apply Te. reflexivity.
Qed.
Lemma no23 cs : (forall c, In c cs -> ct_type c = 20 \/ ct_type c = 22) -> filter (fun c => ct_type c =? 23) cs = [].
Proof.
  induction cs as [|c cs IH]; intros H; [reflexivity|]. cbn [filter].
  destruct (H c (or_introl eq_refl)) as [E|E]; rewrite E; apply IH; intros x Hx; apply H; right; exact Hx.
Qed.
(** What one handler delivers and writes. *)
Definition cev_data (ev : cevent) : list bytes := match ev with ERead (EvAppData d) => [d] | _ => [] end.
Definition cev_write (ev : cevent) : list (bool * bytes) := match ev with EAppWrite q => [(false, concat q)] | EEarlyAppWrite q => [(true, concat q)] | _ => [] end.
Lemma cacts_data k log w s ev s' outs : cacts k log w s ev s' outs -> flat_map cd_of outs = cev_data ev /\ Forall2 became (cev_write ev) (flat_map ca_of outs).
Proof.
  assert (Hb : forall b x, Forall2 became [(b, x)] [(true, x)]) by (intros; constructor; [split; [reflexivity|discriminate]|constructor]).
  intros HA. destruct HA; try (split; [reflexivity|apply Forall2_nil]).
  - destruct H2 as [->|(t & mx & x & ->)]; (split; [reflexivity|apply Forall2_nil]).
  - cbn [flat_map cd_of ca_of cev_data cev_write app]. rewrite filter_app, ccs_no_app. cbn [filter]. rewrite H1. split; [reflexivity|apply Forall2_nil].
  - rewrite (ah_outs _ _ _ _ _ _ _ H3). split; [reflexivity|apply Forall2_nil].
  - destruct H4 as [->|(n & cs & ->)]; (split; [reflexivity|apply Forall2_nil]).
  - unfold z_outs. rewrite !flat_map_app. cbn [flat_map cd_of ca_of app]. rewrite (no23 (z_cs F)) by (intros c Hc; eapply cflight_types; eassumption).
    destruct H12 as [(-> & _)|(_ & _ & _ & _ & _ & [->|(al & -> & Ha)])]; try (split; [reflexivity|apply Forall2_nil]).
    cbn [flat_map cd_of ca_of app filter]. rewrite Ha. split; [reflexivity|apply Forall2_nil].
  - cbn [flat_map cd_of ca_of app filter]. rewrite H6. change (23 =? 23) with true. cbn [map]. rewrite H7. destruct H3 as [->|(-> & _)]; split; try reflexivity; apply Hb.
  - split; [reflexivity|]. repeat constructor.
  - cbn [flat_map cd_of ca_of app]. rewrite filter_app, ccs_no_app. cbn [filter app]. rewrite H4. change (23 =? 23) with true. cbn [map]. rewrite H5. split; [reflexivity|apply Hb].
  - cbn [flat_map cd_of ca_of app filter]. rewrite H6. split; [reflexivity|apply Forall2_nil].
  - destruct H7 as [(_ & ->)|(_ & ws & ct & wl & -> & _ & _ & E & _)]; [split; [reflexivity|apply Forall2_nil]|]. cbn [flat_map cd_of ca_of app filter]. rewrite E. split; [reflexivity|apply Forall2_nil].
  - destruct H3 as [(_ & ct & -> & E & _)|(_ & ->)]; [|split; [reflexivity|apply Forall2_nil]]. cbn [flat_map cd_of ca_of app filter]. rewrite E. split; [reflexivity|apply Forall2_nil].
Qed.
Lemma cterminal_dec s : cterminal s \/ ~ cterminal s.
Proof. unfold cterminal. destruct (c_state s); auto. Qed.
Lemma chstep_terminal k w s ev s' outs : chstep k w s ev s' outs -> cterminal s -> False.
Proof.
  unfold cterminal. intros HS T. destruct HS; try (rewrite H in T; contradiction); try (repeat (destruct H as [H|H]); rewrite H in T; contradiction).
  destruct reply; rewrite H in T; contradiction.
Qed.
Lemma cfail_no_data s outs : cfail_outs s outs -> flat_map cd_of outs = [] /\ flat_map ca_of outs = [].
Proof. intros (a & [->|(d & ct & wl & -> & _ & -> & ->)]); split; reflexivity. Qed.
Definition cin_write (i : cinput) : list (bool * bytes) := match i with JAppWrite q => [(false, concat q)] | JEarlyAppWrite q => [(true, concat q)] | _ => [] end.

(** ** After the end *)
Definition cdead (s : cstate) : Prop := c_state s = CCrash \/ (cterminal s /\ c_write s = None /\ c_read s = None).
Lemma cdead_error s a : cdead s -> c_state s <> CCrash -> cdead (fst (chandle_error s a)) /\ snd (chandle_error s a) = [KError a].
Proof.
  intros [Hc|(T & W & R)] Hn; [contradiction|]. unfold chandle_error. rewrite W. unfold cdead, cterminal in *.
  destruct (c_state s) eqn:Es; try contradiction; destruct a; cbn; rewrite ?Es; auto.
Qed.
Lemma cdead_step k w s i s' outs : cdead s -> cstep k w s i = (s', outs) -> cdead s' /\ Forall cafter (cinput_log w s i ++ map CEmit outs).
Proof.
  intros D H.
  assert (Hd : c_state s = CCrash \/ c_state s <> CCrash) by (destruct (c_state s); auto; right; discriminate).
  destruct Hd as [Es|Hn].
  { unfold cstep in H. rewrite Es in H. injection H as <- <-. split; [exact D|]. unfold cinput_log. rewrite Es. constructor. }
  pose proof (fun a => cdead_error s a D Hn) as He.
  destruct D as [D|(T & W & R)]; [congruence|].
  assert (Hl : Forall cafter (cinput_log w s i)) by (unfold cinput_log; rewrite R; destruct (c_state s), i; repeat constructor).
  assert (Hev : forall ev, (forall x, ev <> ERead x) -> cprocess_event k w s ev = (s', outs) -> cdead s' /\ Forall cafter (map CEmit outs)).
  { intros ev Hx E. assert (Hc : chandle k w s ev = CHErr s (alert al_unexpected_message)).
    { unfold chandle. unfold cterminal in T. destruct (c_state s); try contradiction; destruct ev as [|x| | | |]; try (destruct (Hx x eq_refl)); reflexivity. }
    unfold cprocess_event in E. rewrite Hc in E. unfold alert, cfinish in E.
    specialize (He (Some al_unexpected_message)). rewrite E in He. cbn [fst snd] in He. destruct He as (A & ->). split; [exact A|repeat constructor]. }
  assert (Hcl : (cu_state (cu_layers s None None) CClosed, []) = (s', outs) -> cdead s' /\ Forall cafter (map CEmit outs))
    by (intros [= <- <-]; split; [right; cbn; auto|constructor]).
  assert (G : cdead s' /\ Forall cafter (map CEmit outs)); [|destruct G as (G1 & G2); split; [exact G1|apply Forall_app; auto]].
  assert (H' : (match i with
      | JConnect cn => cprocess_event k w s (EConnect cn)
      | JSocket b => fst (cprocess_socket k w s b)
      | JNewTicket => cprocess_event k w s ENewTicket
      | JAppWrite q => cprocess_event k w s (EAppWrite q)
      | JEarlyAppWrite q => cprocess_event k w s (EEarlyAppWrite q)
      | JAppClose => capp_close s
      | JAppCloseImmediate => capp_close_immediate s
      | JKeyUpdate req => cprocess_event k w s (EKeyUpdate req)
      end) = (s', outs)) by (unfold cstep in H; destruct (c_state s); try exact H; congruence).
  clear H. destruct i as [cn|b| |q|q| | |req]; try (eapply Hev; [|exact H']; discriminate).
  - unfold cprocess_socket in H'. rewrite R in H'. specialize (He None). destruct (chandle_error s None) as [a b0]; cbn in H', He. injection H' as <- <-.
    destruct He as (A & ->). split; [exact A|repeat constructor].
  - unfold capp_close in H'; rewrite W in H'. auto.
  - unfold capp_close_immediate in H'; rewrite W in H'. auto.
Qed.
Lemma cdead_log k : forall l s s' L, cdead s -> clog k s l = (s', L) -> Forall cafter L.
Proof.
  induction l as [|[w i] l IH]; intros s s' L HS H; cbn [clog] in H; [injection H as _ <-; constructor|].
  destruct (cstep k w s i) as [s1 o1] eqn:E1. destruct (clog k s1 l) as [s2 log2] eqn:E2. injection H as -> <-.
  destruct (cdead_step _ _ _ _ _ _ HS E1) as (A & B). rewrite app_assoc, Forall_app. split; [exact B|]. eapply IH; eassumption.
Qed.
Lemma cert_msg_state k w s m a orig s' outs : handle_cert_msg k w s m a orig = Ok (s', outs) -> c_state s' = CExpectingCertificateVerify.
Proof. intros H. destruct (cert_msg_ok _ _ _ _ _ _ _ _ H) as (_ & hc & certs & au & _ & _ & _ & _ & ->). reflexivity. Qed.
Lemma cacts_dead k log w s ev s' outs : cacts k log w s ev s' outs -> ~ cterminal s -> cterminal s' -> c_write s' = None /\ c_read s' = None.
Proof.
  intros HA N T. destruct HA; auto; try contradiction.
  - unfold cterminal in T. rewrite (aw_state _ _ _ _ H3) in T. contradiction.
  - unfold cterminal in T. rewrite (aw_state _ _ _ _ H4) in T. contradiction.
  - unfold cterminal in T. rewrite (ah_state _ _ _ _ _ _ _ H3) in T. contradiction.
  - exfalso. unfold cterminal in T. unfold handle_ee in H3. destruct (c_hello s) as [hl|]; [|discriminate]. destruct (c_hctx s) as [hc|]; [|discriminate].
    destruct (g_psk (c_neg s)) as [pt|]; [|discriminate]. destruct (h_req hl); [|discriminate].
    bo H3 u E4. bo H3 a E5. bo H3 alpn E6. bo H3 e E7. bo H3 ed E8. bo H3 rt E9. bo H3 u2 E10. cbv zeta in H3. injection H3 as <- _. cbn in T.
    destruct (pskAccepted pt); contradiction.
  - exfalso. unfold cterminal in T. destruct m; cbn [chs_msg] in H2; try contradiction; inversion H3; subst.
    all: first
      [ rewrite (cert_msg_state _ _ _ _ _ _ _ _ H9) in T; contradiction
      | destruct (compressed_ok _ _ _ _ _ _ _ H9) as (_ & d & _ & E); rewrite (cert_msg_state _ _ _ _ _ _ _ _ E) in T; contradiction
      | destruct (cert_request_ok _ _ _ _ _ _ H9) as (_ & hc & sel & au & _ & E); rewrite E in T; contradiction
      | destruct (cverify_ok _ _ _ _ _ _ H9) as (_ & hc & hl & le & re & sg & c & _ & _ & _ & _ & _ & _ & _ & E); rewrite E in T; contradiction ].
  - destruct H12 as [(_ & _ & E)|(_ & A & B & _)]; [|auto]. unfold cterminal in T. rewrite E in T. contradiction.
  - unfold cterminal in T. rewrite H9 in T. contradiction.
  - unfold cterminal in T. rewrite H5 in T. contradiction.
Qed.
Lemma chandle_error_state s a s' outs : chandle_error s a = (s', outs) -> c_state s' = CError \/ c_state s' = CCrash.
Proof.
  unfold chandle_error. intros H. cbv zeta in H.
  assert (Hx : (match a, c_write s with
                | Some d, Some wl =>
                    match snd (wl_write wl 21 [alert_bytes d]) with
                    | Ok ct => (cu_state (cu_layers s None None) CError, [KWrite [ct]; KError a])
                    | Err ECheck | Err EUB => (cu_state s CCrash, [])
                    | Err _ => (cu_state (cu_layers s None None) CError, [KError a])
                    end
                | _, _ => (cu_state (cu_layers s None None) CError, [KError a])
                end) = (s', outs) -> c_state s' = CError \/ c_state s' = CCrash).
  { destruct a as [d|]; [|intros [= <- <-]; auto]. destruct (c_write s) as [wl|]; [|intros [= <- <-]; auto].
    destruct (snd (wl_write wl 21 [alert_bytes d])) as [ct|[]]; intros [= <- <-]; auto. }
  destruct (c_state s) eqn:Es; try (apply Hx, H). injection H as <- <-. auto.
Qed.
Lemma cclose_layers s0 s' outs : capp_close s0 = (s', outs) \/ capp_close_immediate s0 = (s', outs) -> c_state s' = CClosed -> c_state s0 <> CClosed -> c_write s' = None /\ c_read s' = None.
Proof.
  intros H T N. unfold capp_close, capp_close_immediate in H. destruct (c_write s0) as [wl|] eqn:Ew.
  2:{ destruct H as [[= <- <-]|[= <- <-]]; auto. }
  destruct (wl_write wl 21 [alert_bytes 0]) as [wl' [ct|e]].
  { destruct H as [[= <- <-]|[= <- <-]]; auto. discriminate. }
  assert (Hf : cclose_failed s0 wl' e = (s', outs)) by tauto. clear H.
  assert (He : forall a, chandle_error (cu_write s0 (Some wl')) a = (s', outs) -> c_write s' = None /\ c_read s' = None).
  { intros a E. destruct (chandle_error_state _ _ _ _ E); congruence. }
  unfold cclose_failed in Hf. destruct e as [[a|]| | | |]; try (eapply He, Hf); injection Hf as <- <-; discriminate.
Qed.
(** Every reachable connection that has ended is closed in both directions. *)
Lemma cstep_dead k l s log w i s' outs : cenv_ok k -> creach k l s log -> (cterminal s -> cdead s) -> cstep k w s i = (s', outs) -> cterminal s' -> cdead s'.
Proof.
  intros Hk Hr HD H T. destruct (cterminal_dec s) as [Ts|Ns].
  { eapply cdead_step; eauto. }
  pose proof (creach_phase _ _ _ _ Hk Hr) as HP. pose proof H as H0. apply cstep_cases in H.
  destruct H as [ev R1 R2 R3|r b r' b' x R1 R2 R3 R4 R5|r b r' b' hint R1 R2 R3 R4 R5 R6|R1 R2 R3 R4 R5|a R1 R2 R3 R4|R1 R2|R1 R2 R3 R4 R5].
  - right. split; [exact T|]. eapply cacts_dead; [eapply chstep_acts; eassumption|exact Ns|exact T].
  - right. split; [exact T|]. eapply cacts_dead; [eapply chstep_acts; [exact Hk|eapply cread_phase; eassumption|exact R5]|exact Ns|exact T].
  - subst s'. destruct (Ns T).
  - right. auto.
  - exfalso. apply Ns. unfold cterminal. rewrite R1. exact Logic.I.
  - left. exact R1.
  - right. split; [exact T|]. destruct R3 as [->|E]; [contradiction|].
    assert (N : c_state s <> CClosed) by (intros E'; apply Ns; unfold cterminal; rewrite E'; exact Logic.I).
    eapply cclose_layers; [|exact E|exact N]. unfold cstep in H0. unfold cterminal in Ns. destruct (c_state s) eqn:Es; try (destruct (Ns Logic.I)); destruct R2 as [-> | ->]; eauto.
Qed.
Lemma creach_dead k l s log : cenv_ok k -> creach k l s log -> cterminal s -> cdead s.
Proof.
  intros Hk Hr. revert Hr. revert s log. induction l as [|[w i] l IH] using rev_ind; intros s log Hr.
  - injection Hr as <- <-. intros [].
  - unfold creach in Hr. rewrite clog_app in Hr. destruct (clog k c_init l) as [s1 L1] eqn:E. cbn [clog] in Hr.
    destruct (cstep k w s1 i) as [s2 o] eqn:E2. injection Hr as <- _. eapply cstep_dead; [exact Hk|exact E| |exact E2]. eapply IH, E.
Qed.

(** ** Data *)
Lemma cafter_data L : Forall cafter L -> capp_received L = [] /\ cdelivered L = [] /\ caccounted L = [].
Proof.
  induction 1 as [|x L H HF (A & B & C)]; [auto|]. unfold capp_received, cdelivered, caccounted in *. cbn [flat_map]. rewrite A, B, C.
  destruct x as [| |o]; try contradiction; [auto|]. destruct o; try contradiction. auto.
Qed.
Lemma cin_log_data w s i : (cinput_log w s i = [CCall w i] \/ cinput_log w s i = []) -> capp_received (cinput_log w s i) = [].
Proof. intros [-> | ->]; reflexivity. Qed.
Lemma cin_log_none w s i : cdelivered (cinput_log w s i) = [] /\ caccounted (cinput_log w s i) = [].
Proof. destruct (cinput_one w s i) as [->|[->|(ev & ->)]]; auto. Qed.
Lemma cdelivered_app a b : cdelivered (a ++ b) = cdelivered a ++ cdelivered b. Proof. apply flat_map_app. Qed.
Lemma caccounted_app a b : caccounted (a ++ b) = caccounted a ++ caccounted b. Proof. apply flat_map_app. Qed.
Lemma creceived_app a b : capp_received (a ++ b) = capp_received a ++ capp_received b. Proof. apply flat_map_app. Qed.
Lemma capp_inputs_app a b : capp_inputs (a ++ b) = capp_inputs a ++ capp_inputs b. Proof. apply flat_map_app. Qed.
(** What one step of a connection that has not ended does with data: all of it if the connection goes on, otherwise all or none. *)
Lemma cstep_data k l s log w i s' outs : cenv_ok k -> creach k l s log -> ~ cterminal s -> cstep k w s i = (s', outs) ->
  let R := capp_received (cinput_log w s i) in let D := flat_map cd_of outs in let A := flat_map ca_of outs in
  (D = R /\ Forall2 became (cin_write i) A) \/ (cterminal s' /\ D = [] /\ A = []).
Proof.
  intros Hk Hr Ns H. cbv zeta. pose proof (creach_phase _ _ _ _ Hk Hr) as HP. pose proof H as H0. apply cstep_cases in H.
  destruct H as [ev R1 R2 R3|r b r' b' x R1 R2 R3 R4 R5|r b r' b' hint R1 R2 R3 R4 R5 R6|R1 R2 R3 R4 R5|a R1 R2 R3 R4|R1 R2|R1 R2 R3 R4 R5].
  - left. destruct (cacts_data _ _ _ _ _ _ _ (chstep_acts _ _ _ _ _ _ _ Hk HP R3)) as (A & B). rewrite A, R1.
    destruct i; cbn [ccall_of] in R2; try discriminate; injection R2 as <-; (split; [reflexivity|exact B]).
  - left. destruct (cacts_data _ _ _ _ _ _ _ (chstep_acts _ _ _ _ _ _ _ Hk (cread_phase _ _ _ _ _ _ _ _ HP R2 R3) R5)) as (A & B).
    subst i. rewrite A, R4. cbn [cev_write cin_write] in *. split; [destruct x; reflexivity|exact B].
  - left. subst i outs. rewrite R4. split; [reflexivity|apply Forall2_nil].
  - right. split; [unfold cterminal; rewrite R2; exact Logic.I|]. eapply cfail_no_data, R5.
  - exfalso. apply Ns. unfold cterminal. rewrite R1. exact Logic.I.
  - right. subst outs. split; [unfold cterminal; rewrite R1; exact Logic.I|auto].
  - left. rewrite R1. destruct R5 as [->|(wl & ct & _ & Ec & ->)].
    + destruct R2 as [-> | ->]; (split; [reflexivity|apply Forall2_nil]).
    + cbn [flat_map ca_of cd_of app filter]. rewrite Ec. cbn [ct_type]. change (21 =? 23) with false. cbn [map app].
      destruct R2 as [-> | ->]; (split; [reflexivity|apply Forall2_nil]).
Qed.
Definition cflow (l : list (cworld * cinput)) (s : cstate) (log : list centry) : Prop :=
  exists r1 r2 i1 i2, capp_received log = r1 ++ r2 /\ cdelivered log = r1 /\ capp_inputs l = i1 ++ i2 /\ Forall2 became i1 (caccounted log) /\
    (~ cterminal s -> r2 = [] /\ i2 = []).
Lemma creach_flow k l s log : cenv_ok k -> creach k l s log -> cflow l s log.
Proof.
  intros Hk. revert s log. induction l as [|[w i] l IH] using rev_ind; intros s log Hr.
  - injection Hr as <- <-. exists [], [], [], []. repeat split; auto. apply Forall2_nil.
  - unfold creach in Hr. rewrite clog_app in Hr. destruct (clog k c_init l) as [s1 L1] eqn:E. cbn [clog] in Hr.
    destruct (cstep k w s1 i) as [s2 o] eqn:E2. injection Hr as <- <-. rewrite app_nil_r.
    destruct (IH _ _ E) as (r1 & r2 & i1 & i2 & A & B & C & D & F).
    assert (Hi : capp_inputs [(w, i)] = cin_write i) by (destruct i; reflexivity).
    destruct (cin_log_none w s1 i) as (N1 & N2).
    unfold cflow. rewrite capp_inputs_app, creceived_app, creceived_app, !cdelivered_app, !caccounted_app, Hi, N1, N2, cdelivered_outs, caccounted_outs, creceived_outs, A, B, C, app_nil_r.
    cbn [app]. destruct (cterminal_dec s1) as [T|N].
    + destruct (cdead_step _ _ _ _ _ _ (creach_dead _ _ _ _ Hk E T) E2) as (HD & HF). apply Forall_app in HF. destruct HF as (HF1 & HF2).
      assert (T2 : cterminal s2) by (destruct HD as [Hd|(T2 & _)]; [unfold cterminal; rewrite Hd; exact Logic.I|exact T2]).
      apply cafter_data in HF2. destruct HF2 as (_ & X1 & X2). rewrite cdelivered_outs in X1. rewrite caccounted_outs in X2. rewrite X1, X2, !app_nil_r.
      exists r1, (r2 ++ capp_received (cinput_log w s1 i)), i1, (i2 ++ cin_write i). rewrite !app_assoc.
      split; [reflexivity|]. split; [reflexivity|]. split; [reflexivity|]. split; [exact D|]. contradiction.
    + destruct (F N) as (-> & ->). rewrite !app_nil_r in *.
      destruct (cstep_data _ _ _ _ _ _ _ _ Hk E N E2) as [(X1 & X2)|(T2 & X1 & X2)].
      * exists (r1 ++ capp_received (cinput_log w s1 i)), [], (i1 ++ cin_write i), []. rewrite !app_nil_r, X1. repeat split; auto. apply Forall2_app; assumption.
      * exists r1, (capp_received (cinput_log w s1 i)), i1, (cin_write i). rewrite X1, X2, !app_nil_r. repeat split; auto; contradiction.
Qed.
(** While the connection is open: exactly the data received has been delivered, in order; and exactly the data handed over has been written in
    application data records or, if it was early data, written so or returned as failed, in order. *)
Theorem C53_data_exact k l s log : cenv_ok k -> creach k l s log -> clive s ->
  cdelivered log = capp_received log /\ Forall2 became (capp_inputs l) (caccounted log).
Proof.
  intros Hk Hr N. destruct (creach_flow _ _ _ _ Hk Hr) as (r1 & r2 & i1 & i2 & A & B & C & D & F). destruct (F N) as (-> & ->).
  rewrite A, B, C, !app_nil_r. auto.
Qed.
(** Once it has ended: a prefix of each. *)
Theorem C53_data_prefix k l s log : cenv_ok k -> creach k l s log ->
  (exists r, capp_received log = cdelivered log ++ r) /\ exists i1 i2, capp_inputs l = i1 ++ i2 /\ Forall2 became i1 (caccounted log).
Proof.
  intros Hk Hr. destruct (creach_flow _ _ _ _ Hk Hr) as (r1 & r2 & i1 & i2 & A & B & C & D & F). split; [exists r2; congruence|]. exists i1, i2. auto.
Qed.

(** ** C54 *)
(** The step an action comes from, and what follows it. *)
Lemma clog_emit k : forall l s0 s L1 o L2, clog k s0 l = (s, L1 ++ CEmit o :: L2) ->
  exists l1 w i l2 s1 log1 s2 pre post L3, l = l1 ++ (w, i) :: l2 /\ clog k s0 l1 = (s1, log1) /\ cstep k w s1 i = (s2, pre ++ o :: post) /\
    L1 = log1 ++ cinput_log w s1 i ++ map CEmit pre /\ L2 = map CEmit post ++ L3 /\ clog k s2 l2 = (s, L3).
Proof.
  induction l as [|[w i] l IH]; intros s0 s L1 o L2 H; cbn [clog] in H; [destruct L1; discriminate|].
  destruct (cstep k w s0 i) as [s1 o1] eqn:E1. destruct (clog k s1 l) as [s2 log2] eqn:E2. injection H as -> H.
  rewrite app_assoc in H. destruct (split_app _ _ _ _ _ H) as [(r & Ha & Hr)|(r & Hb & ->)].
  - assert (Hb' : exists r2, L1 = cinput_log w s0 i ++ r2 /\ map CEmit o1 = r2 ++ CEmit o :: r).
    { destruct (cinput_one w s0 i) as [Er|[Er|(ev & Er)]]; rewrite Er in Ha |- *.
      - exists L1. auto.
      - destruct L1 as [|z L1]; cbn in Ha; [discriminate|]. injection Ha as <- Ha. exists L1. auto.
      - destruct L1 as [|z L1]; cbn in Ha; [discriminate|]. injection Ha as <- Ha. exists L1. auto. }
    destruct Hb' as (r2 & -> & Hm). destruct (cemit_split _ _ _ _ Hm) as (p & y & q & -> & Hy & -> & ->). injection Hy as <-.
    exists [], w, i, l, s0, [], s1, p, q, log2. auto 10.
  - rewrite Hb in E2. destruct (IH _ _ _ _ _ E2) as (l1 & w' & i' & l2 & s3 & log1 & s4 & pre & post & L3 & -> & A & B & -> & -> & C).
    exists ((w, i) :: l1), w', i', l2, s3, (cinput_log w s0 i ++ map CEmit o1 ++ log1), s4, pre, post, L3.
    split; [reflexivity|]. split; [cbn [clog]; rewrite E1, A; reflexivity|]. split; [exact B|]. split; [rewrite <- !app_assoc; reflexivity|]. auto.
Qed.
(** The error a handler reports: a server that did not accept ECH. *)
Lemma cacts_error k log w s ev s' pre a post : cacts k log w s ev s' (pre ++ KError a :: post) ->
  post = [] /\ a = Some al_ech_required /\ c_state s' = CError /\ c_write s' = None /\ c_read s' = None.
Proof.
  remember (pre ++ KError a :: post) as outs eqn:Eo. intros HA.
  assert (Hin : In (KError a) outs) by (rewrite Eo; apply in_or_app; right; left; reflexivity).
  destruct HA; try (exfalso; cbn [In] in Hin; repeat (destruct Hin as [[=]|Hin]); contradiction).
  - exfalso. destruct H2 as [->|(t & mx & x & ->)]; cbn [In] in Hin; intuition discriminate.
  - exfalso. rewrite (ah_outs _ _ _ _ _ _ _ H3) in Hin. cbn [In] in Hin; intuition discriminate.
  - exfalso. destruct H4 as [->|(n & cs & ->)]; cbn [In] in Hin; intuition discriminate.
  - unfold z_outs in *. cbn [app In] in Hin. destruct H12 as [(-> & _)|(E1 & E2 & E3 & _ & _ & [->|(al & -> & _)])]; cbn [In] in Hin; [exfalso; intuition discriminate| |].
    + destruct pre as [|? [|? [|? [|? [|? [|? pre]]]]]]; try discriminate. injection Eo as _ _ _ _ _ -> ->. auto.
      exfalso. injection Eo as _ _ _ _ _ _ Eo. destruct pre; discriminate.
    + destruct pre as [|? [|? [|? [|? [|? [|? [|? pre]]]]]]]; try discriminate. injection Eo as _ _ _ _ _ _ -> ->. auto.
      exfalso. injection Eo as _ _ _ _ _ _ _ Eo. destruct pre; discriminate.
  - exfalso. destruct H7 as [(_ & ->)|(_ & ws & ct & wl & -> & _)]; cbn [In] in Hin; intuition discriminate.
  - exfalso. destruct H3 as [(_ & ct & -> & _)|(_ & ->)]; cbn [In] in Hin; intuition discriminate.
Qed.
(** An error is final: afterwards nothing is read or written, delivered, exported or reported but errors. *)
Theorem C54_error_final k l s L1 a L2 : cenv_ok k -> creach k l s (L1 ++ CEmit (KError a) :: L2) -> Forall cafter L2.
Proof.
  intros Hk Hr. destruct (clog_emit _ _ _ _ _ _ _ Hr) as (l1 & w & i & l2 & s1 & log1 & s2 & pre & post & L3 & El & A & B & E1 & -> & C).
  pose proof (creach_phase _ _ _ _ Hk A) as HP. pose proof B as B0. apply cstep_cases in B.
  assert (HH : forall log s1' ev, cphase k log s1' -> chstep k w s1' ev s2 (pre ++ KError a :: post) -> post = [] /\ cterminal s2).
  { intros log s1' ev HP' HS. destruct (cacts_error _ _ _ _ _ _ _ _ _ (chstep_acts _ _ _ _ _ _ _ Hk HP' HS)) as (Q1 & _ & Q2 & _).
    split; [exact Q1|]. unfold cterminal. rewrite Q2. exact Logic.I. }
  assert (Hd : post = [] /\ cterminal s2).
  { destruct B as [ev R1 R2 R3|r b r' b' x R1 R2 R3 R4 R5|r b r' b' hint R1 R2 R3 R4 R5 R6|R1 R2 R3 R4 R5|a0 R1 R2 R3 R4|R1 R2|R1 R2 R3 R4 R5].
    - eapply HH; eassumption.
    - eapply HH; [eapply cread_phase; eassumption|exact R5].
    - symmetry in R6. apply one_elem in R6. destruct R6 as (_ & _ & [=]).
    - split; [|unfold cterminal; rewrite R2; exact Logic.I]. destruct R5 as (a' & [R6|(d & ct & wl & _ & _ & _ & R6)]).
      + symmetry in R6. apply one_elem in R6. tauto.
      + destruct pre as [|? [|? [|? ?]]]; try discriminate. injection R6 as _ _ ->. reflexivity.
    - split; [|unfold cterminal; rewrite R2; exact Logic.I]. symmetry in R4. apply one_elem in R4. tauto.
    - destruct pre; discriminate.
    - destruct R5 as [R5|(wl & ct & _ & _ & R5)]; [destruct pre; discriminate|]. symmetry in R5. apply one_elem in R5. destruct R5 as (_ & _ & [=]). }
  destruct Hd as (-> & T). cbn [map app]. eapply cdead_log; [|exact C]. eapply (creach_dead _ (l1 ++ [(w, i)])); [exact Hk| |exact T].
  eapply creach_snoc; eassumption.
Qed.
(** After the end of the data nothing more happens. *)
Lemma cacts_end k log w s ev s' pre x post : cacts k log w s ev s' (pre ++ KEndOfData x :: post) -> post = [] /\ cterminal s'.
Proof.
  remember (pre ++ KEndOfData x :: post) as outs eqn:Eo. intros HA.
  assert (Hin : In (KEndOfData x) outs) by (rewrite Eo; apply in_or_app; right; left; reflexivity).
  destruct HA; try (exfalso; cbn [In] in Hin; repeat (destruct Hin as [[=]|Hin]); contradiction).
  - exfalso. destruct H2 as [->|(t & mx & y & ->)]; cbn [In] in Hin; intuition discriminate.
  - exfalso. rewrite (ah_outs _ _ _ _ _ _ _ H3) in Hin. cbn [In] in Hin; intuition discriminate.
  - exfalso. destruct H4 as [->|(n & cs & ->)]; cbn [In] in Hin; intuition discriminate.
  - exfalso. unfold z_outs in *. cbn [app In] in Hin. destruct H12 as [(-> & _)|(E1 & E2 & E3 & _ & _ & [->|(al & -> & _)])]; cbn [In] in Hin; intuition discriminate.
  - exfalso. destruct H7 as [(_ & ->)|(_ & ws & ct & wl & -> & _)]; cbn [In] in Hin; intuition discriminate.
  - split; [|unfold cterminal; rewrite H0; exact Logic.I]. destruct H3 as [(_ & ct & -> & _)|(_ & ->)].
    + destruct pre as [|? [|? [|? pre]]]; try discriminate. injection Eo as _ _ <-. reflexivity.
    + apply one_elem in Eo. tauto.
Qed.
Theorem C54_end_final k l s L1 x L2 : cenv_ok k -> creach k l s (L1 ++ CEmit (KEndOfData x) :: L2) -> Forall cafter L2.
Proof.
  intros Hk Hr. destruct (clog_emit _ _ _ _ _ _ _ Hr) as (l1 & w & i & l2 & s1 & log1 & s2 & pre & post & L3 & El & A & B & E1 & -> & C).
  pose proof (creach_phase _ _ _ _ Hk A) as HP. pose proof B as B0. apply cstep_cases in B.
  assert (Hd : post = [] /\ cterminal s2).
  { destruct B as [ev R1 R2 R3|r b r' b' y R1 R2 R3 R4 R5|r b r' b' hint R1 R2 R3 R4 R5 R6|R1 R2 R3 R4 R5|a0 R1 R2 R3 R4|R1 R2|R1 R2 R3 R4 R5].
    - eapply cacts_end, chstep_acts; eassumption.
    - eapply cacts_end, chstep_acts; [exact Hk|eapply cread_phase; eassumption|exact R5].
    - symmetry in R6. apply one_elem in R6. destruct R6 as (_ & _ & [=]).
    - destruct R5 as (a' & [R6|(d & ct & wl & _ & _ & _ & R6)]).
      + symmetry in R6. apply one_elem in R6. destruct R6 as (_ & _ & [=]).
      + destruct pre as [|? [|? [|? ?]]]; discriminate.
    - symmetry in R4. apply one_elem in R4. destruct R4 as (_ & _ & [=]).
    - destruct pre; discriminate.
    - destruct R5 as [R5|(wl & ct & _ & _ & R5)]; [destruct pre; discriminate|]. symmetry in R5. apply one_elem in R5. destruct R5 as (_ & _ & [=]). }
  destruct Hd as (-> & T). cbn [map app]. eapply cdead_log; [|exact C]. eapply (creach_dead _ (l1 ++ [(w, i)])); [exact Hk| |exact T].
  eapply creach_snoc; eassumption.
Qed.
(** Nothing is written any more. *)
Definition cunwritten (x : centry) : Prop := match x with CEmit (KWrite _) => False | _ => True end.
Definition csilent (s : cstate) : Prop := c_state s = CCrash \/ (c_write s = None /\ (cterminal s \/ c_state s = CWriteSideClosed)).
Lemma cafter_unwritten L : Forall cafter L -> Forall cunwritten L.
Proof. apply Forall_impl. intros [| |[]]; cbn; auto. Qed.
Lemma cinput_unwritten w s i : Forall cunwritten (cinput_log w s i).
Proof. destruct (cinput_one w s i) as [->|[->|(ev & ->)]]; repeat constructor. Qed.
Lemma cwsc_hstep k w s ev s' outs : c_state s = CWriteSideClosed -> c_write s = None -> chstep k w s ev s' outs ->
  Forall cunwritten (map CEmit outs) /\ ((c_state s' = CWriteSideClosed /\ c_write s' = None) \/ (c_state s' = CClosed /\ c_write s' = None)).
Proof.
  intros E W HS. destruct HS; try congruence; try (repeat (destruct H as [H|H]); congruence).
  - split; [repeat constructor|left; auto].
  - destruct reply; [congruence|]. unfold chandle_close in H0. destruct (cno_unparsed s) as [[|]|]; try discriminate. injection H0 as <- <-. split; [repeat constructor|auto].
Qed.
Lemma csilent_step k w s i s' outs : (cterminal s -> cdead s) -> csilent s -> cstep k w s i = (s', outs) ->
  (cterminal s' -> cdead s') -> csilent s' /\ Forall cunwritten (map CEmit outs).
Proof.
  intros HD HS H HD'. destruct (cterminal_dec s) as [T|N].
  { destruct (cdead_step _ _ _ _ _ _ (HD T) H) as (A & B). apply Forall_app in B. split; [|apply cafter_unwritten, B].
    destruct A as [A|(A & B' & _)]; [left; exact A|right; auto]. }
  assert (Hw : c_state s = CWriteSideClosed /\ c_write s = None).
  { destruct HS as [E|(W & [T|E])]; [exfalso; apply N; unfold cterminal; rewrite E; exact Logic.I|contradiction|auto]. }
  destruct Hw as (E & W). clear HS. apply cstep_cases in H.
  destruct H as [ev R1 R2 R3|r b r' b' y R1 R2 R3 R4 R5|r b r' b' hint R1 R2 R3 R4 R5 R6|R1 R2 R3 R4 R5|a0 R1 R2 R3 R4|R1 R2|R1 R2 R3 R4 R5].
  - destruct (cwsc_hstep _ _ _ _ _ _ E W R3) as (A & [(B & C)|(B & C)]); (split; [|exact A]); right; (split; [exact C|]); [right; exact B|left; unfold cterminal; rewrite B; exact Logic.I].
  - destruct (cwsc_hstep _ _ (cu_read s (Some r')) _ _ _ E W R5) as (A & [(B & C)|(B & C)]); (split; [|exact A]); right; (split; [exact C|]); [right; exact B|left; unfold cterminal; rewrite B; exact Logic.I].
  - subst. split; [right; auto|repeat constructor].
  - split; [right; split; [exact R3|left; unfold cterminal; rewrite R2; exact Logic.I]|].
    destruct R5 as (a' & [->|(d & ct & wl & _ & X & _)]); [repeat constructor|congruence].
  - congruence.
  - subst. split; [left; exact R1|constructor].
  - split; [right; split; [exact R4|]|].
    + destruct R3 as [-> |R3]; [right; reflexivity|left; unfold cterminal; rewrite R3; exact Logic.I].
    + destruct R5 as [->|(wl & ct & X & _)]; [constructor|congruence].
Qed.
Lemma csilent_log k : cenv_ok k -> forall l l0 s log s' L, creach k l0 s log -> csilent s -> clog k s l = (s', L) -> Forall cunwritten L.
Proof.
  intros Hk. induction l as [|[w i] l IH]; intros l0 s log s' L Hr HS H; cbn [clog] in H; [injection H as _ <-; constructor|].
  destruct (cstep k w s i) as [s1 o1] eqn:E1. destruct (clog k s1 l) as [s2 log2] eqn:E2. injection H as -> <-.
  pose proof (creach_snoc _ _ _ _ _ _ _ _ Hr E1) as Hr1.
  destruct (csilent_step _ _ _ _ _ _ (creach_dead _ _ _ _ Hk Hr) HS E1 (creach_dead _ _ _ _ Hk Hr1)) as (A & B).
  rewrite !Forall_app. split; [apply cinput_unwritten|]. split; [exact B|]. eapply IH; eassumption.
Qed.
Lemma cflight_alert k s vd orig s' G F al x : chandle_finished k s vd orig = CHOk s' (z_outs G F ++ [KWrite [al]; x]) -> ct_plain al = alert_bytes al_ech_required.
Proof.
  intros H. unfold chandle_finished in H. destruct (c_hctx s) as [hc|]; [|discriminate]. destruct (c_secrets s) as [[cs ss]|]; [|discriminate].
  destruct (c_ks s) as [[h k0]|]; [|discriminate]. destruct (g_version (c_neg s)); [|discriminate]. destruct (g_cipher (c_neg s)); [|discriminate].
  destruct (g_auth (c_neg s)) as [auth|]; [|discriminate]. destruct (cno_unparsed s) as [[]|]; try discriminate.
  destruct (hc_finished hc ss); [|discriminate]. destruct vd as [got|]; [|discriminate]. destruct (negb _); [discriminate|]. cbv zeta in H.
  destruct (finished_prepare k s _ cs h k0 auth) as [[[[[[eoed msgs] cc] ems] rms] k1]|] eqn:Ep; [|discriminate].
  apply cwith_write_ok in H. destruct H as (wl & wl' & ct & Ew & Ewr & H).
  match type of H with match ?x with Ok _ => _ | Err _ => _ end = _ => destruct x as [[[[[k3 ws] wl2] rs] rl]|] end; [|discriminate].
  unfold z_outs in H. destruct (c_ech s) as [e|]; [destruct (ec_status e)|];
      try match type of H with match ?x with Ok _ => _ | Err _ => _ end = _ => destruct x as [al'|[]] eqn:Eal; try discriminate end;
      try (injection H; intros; discriminate).
  assert (al' = al) by (injection H; intros; congruence). subst al'.
  match type of Eal with snd (wl_write ?a ?b ?c) = _ => destruct (wl_write a b c) as [wx rx] eqn:Ewx end. cbn [snd] in Eal. subst rx.
  apply wl_write_content in Ewx. destruct Ewx as (_ & E & _). rewrite E. cbn [concat]. apply app_nil_r.
Qed.
(** Alerts that handlers send: a reply to the peer's close_notify, or the alert for a server that did not accept ECH. *)
Lemma cacts_alert k log w s ev s' pre cs post c : cacts k log w s ev s' (pre ++ KWrite cs :: post) -> In c cs -> ct_type c = 21 ->
  cs = [c] /\ c_write s' = None /\ cterminal s' /\
  ((ct_plain c = alert_bytes 0 /\ exists x, post = [KEndOfData x]) \/ (ct_plain c = alert_bytes al_ech_required /\ post = [KError (Some al_ech_required)])).
Proof.
  remember (pre ++ KWrite cs :: post) as outs eqn:Eo. intros HA Hi Ht.
  assert (Hin : In (KWrite cs) outs) by (rewrite Eo; apply in_or_app; right; left; reflexivity).
  assert (H22 : forall ct, ct_type ct = 22 -> In c [ct] -> False) by (intros ct E [->|[]]; congruence).
  assert (H23 : forall ct, ct_type ct = 23 -> In c [ct] -> False) by (intros ct E [->|[]]; congruence).
  assert (Hccs : forall b ct, ct_type ct <> 21 -> In c (ccs_first k b ++ [ct]) -> False).
  { intros b ct E H. apply in_app_or in H. destruct H as [H|[->|[]]]; [apply ccs_first_type in H; congruence|congruence]. }
  destruct HA; try (exfalso; cbn [In] in Hin; repeat (destruct Hin as [[=]|Hin]); contradiction).
  - exfalso. destruct Hin as [Hin|Hin]; [injection Hin as <-; destruct Hi as [<-|[]]; discriminate|].
    destruct H2 as [->|(t & mx & y & ->)]; cbn [In] in Hin; intuition discriminate.
  - exfalso. destruct Hin as [Hin|[]]. injection Hin as <-. eapply Hccs; [|exact Hi]. congruence.
  - exfalso. rewrite (ah_outs _ _ _ _ _ _ _ H3) in Hin. cbn [In] in Hin; intuition discriminate.
  - exfalso. destruct H4 as [->|(n & cs0 & ->)]; cbn [In] in Hin; intuition discriminate.
  - pose proof (fun c => cflight_types _ _ _ _ _ _ _ _ c H3) as Hty.
    destruct H12 as [(-> & _)|(E1 & E2 & E3 & _ & _ & [->|(al & -> & Hal)])].
    + exfalso. unfold z_outs in Hin. cbn [app In] in Hin. repeat (destruct Hin as [Hin|Hin]; [try discriminate Hin|]); try contradiction.
      injection Hin as <-. destruct (Hty c Hi); congruence.
    + exfalso. unfold z_outs in Hin. cbn [app In] in Hin. repeat (destruct Hin as [Hin|Hin]; [try discriminate Hin|]); try contradiction.
      injection Hin as <-. destruct (Hty c Hi); congruence.
    + unfold z_outs in Eo.
      destruct pre as [|? [|? [|? [|? [|? [|? [|? pre]]]]]]]; try discriminate; [injection Eo as _ _ _ _ <- _; exfalso; destruct (Hty c Hi); congruence| |].
      * injection Eo as _ _ _ _ _ <- <-. destruct Hi as [<-|[]]. split; [reflexivity|]. split; [exact E2|]. split; [unfold cterminal; rewrite E1; exact Logic.I|]. right. split; [eapply cflight_alert, H3|reflexivity].
      * exfalso. injection Eo as _ _ _ _ _ _ _ Eo. destruct pre; discriminate.
  - exfalso. destruct Hin as [Hin|[]]. injection Hin as <-. eapply H23; eassumption.
  - exfalso. destruct Hin as [Hin|[]]. injection Hin as <-. eapply Hccs; [|exact Hi]. congruence.
  - exfalso. destruct Hin as [Hin|[Hin|[]]]; [discriminate|]. injection Hin as <-. eapply H22; eassumption.
  - exfalso. destruct H7 as [(_ & ->)|(_ & ws & ct & wl & -> & _ & _ & E & _)]; cbn [In] in Hin; [intuition discriminate|].
    destruct Hin as [Hin|[Hin|[Hin|[]]]]; try discriminate. injection Hin as <-. eapply H22; eassumption.
  - destruct H3 as [(_ & ct & -> & E1 & E2)|(_ & ->)].
    + destruct pre as [|? [|? [|? pre]]]; try discriminate. injection Eo as <- <-. destruct Hi as [<-|[]]. split; [reflexivity|]. split; [exact H1|].
      split; [unfold cterminal; rewrite H0; exact Logic.I|]. left. split; [exact E2|]. eauto.
    + exfalso. destruct Hin as [[=]|[]].
Qed.
(** Alerts: an alert is sent alone; it is a close_notify, or the fatal alert of the error that is reported next; and it is the last thing
    the connection writes. *)
Theorem C54_alert k l s L1 cs L2 c : cenv_ok k -> creach k l s (L1 ++ CEmit (KWrite cs) :: L2) -> In c cs -> ct_type c = 21 ->
  cs = [c] /\ (ct_plain c = be 1 2 ++ be 1 0 \/ exists d L3, ct_plain c = be 1 2 ++ be 1 d /\ L2 = CEmit (KError (Some d)) :: L3) /\
  Forall cunwritten L2.
Proof.
  intros Hk Hr Hin Ht. destruct (clog_emit _ _ _ _ _ _ _ Hr) as (l1 & w & i & l2 & s1 & log1 & s2 & pre & post & L3 & El & A & B & E1 & -> & C).
  pose proof (creach_phase _ _ _ _ Hk A) as HP. pose proof B as B0. apply cstep_cases in B.
  pose proof (creach_snoc _ _ _ _ _ _ _ _ A B0) as Hr2.
  assert (Hu : csilent s2 -> Forall cunwritten (map CEmit post) -> Forall cunwritten (map CEmit post ++ L3)).
  { intros X Y. apply Forall_app. split; [exact Y|]. eapply csilent_log; [exact Hk|exact Hr2|exact X|exact C]. }
  assert (HH : forall log s1' ev, cphase k log s1' -> chstep k w s1' ev s2 (pre ++ KWrite cs :: post) ->
    cs = [c] /\ csilent s2 /\ ((ct_plain c = alert_bytes 0 /\ exists x, post = [KEndOfData x]) \/ (ct_plain c = alert_bytes al_ech_required /\ post = [KError (Some al_ech_required)]))).
  { intros log s1' ev HP' HS. destruct (cacts_alert _ _ _ _ _ _ _ _ _ _ (chstep_acts _ _ _ _ _ _ _ Hk HP' HS) Hin Ht) as (Q1 & Q2 & Q3 & Q4).
    split; [exact Q1|]. split; [right; auto|exact Q4]. }
  assert (Hcl : cs = [c] /\ csilent s2 /\ ((ct_plain c = alert_bytes 0 /\ exists x, post = [KEndOfData x]) \/ (ct_plain c = alert_bytes al_ech_required /\ post = [KError (Some al_ech_required)])) ->
    cs = [c] /\ (ct_plain c = be 1 2 ++ be 1 0 \/ exists d L3', ct_plain c = be 1 2 ++ be 1 d /\ map CEmit post ++ L3 = CEmit (KError (Some d)) :: L3') /\
    Forall cunwritten (map CEmit post ++ L3)).
  { intros (Q1 & Q2 & Q3). split; [exact Q1|]. destruct Q3 as [(Q3 & x & ->)|(Q3 & ->)].
    - split; [left; exact Q3|]. apply Hu; [exact Q2|repeat constructor].
    - split; [right; exists al_ech_required, L3; split; [exact Q3|reflexivity]|]. apply Hu; [exact Q2|repeat constructor]. }
  destruct B as [ev R1 R2 R3|r b r' b' y R1 R2 R3 R4 R5|r b r' b' hint R1 R2 R3 R4 R5 R6|R1 R2 R3 R4 R5|a0 R1 R2 R3 R4|R1 R2|R1 R2 R3 R4 R5].
  - apply Hcl. eapply HH; eassumption.
  - apply Hcl. eapply HH; [eapply cread_phase; eassumption|exact R5].
  - symmetry in R6. apply one_elem in R6. destruct R6 as (_ & _ & [=]).
  - assert (Hs : csilent s2) by (right; split; [exact R3|left; unfold cterminal; rewrite R2; exact Logic.I]).
    destruct R5 as (a' & [R6|(d & ct & wl & -> & _ & Hc & R6)]).
    + symmetry in R6. apply one_elem in R6. destruct R6 as (_ & _ & [=]).
    + destruct pre as [|? [|? [|? ?]]]; try discriminate. injection R6 as -> ->. destruct Hin as [->|[]]. split; [reflexivity|]. split.
      * right. exists d, L3. split; [rewrite Hc; reflexivity|reflexivity].
      * apply Hu; [exact Hs|repeat constructor].
  - symmetry in R4. apply one_elem in R4. destruct R4 as (_ & _ & [=]).
  - destruct pre; discriminate.
  - destruct R5 as [R5|(wl & ct & _ & Hc & R5)]; [destruct pre; discriminate|]. symmetry in R5. apply one_elem in R5. destruct R5 as (_ & -> & [= ->]).
    destruct Hin as [->|[]]. split; [reflexivity|]. split; [left; rewrite Hc; reflexivity|]. apply Hu; [|constructor].
    right. split; [exact R4|]. destruct R3 as [-> |R3]; [right; reflexivity|left; unfold cterminal; rewrite R3; exact Logic.I].
Qed.
