(** * C40, C41: secrets and keys of a server connection *)
From Verif Require Import Base Codec CodecSpec Str Hkdf HkdfSpec HkdfProofs KeySched KeySchedSpec KeySchedProofs Handshake HandshakeSpec Extensions
  ExtensionsSpec ExtensionsProofs RecordBase Record RecordRT
  ReadEvent HelloChecks Cookie Token Negotiate Ticket Kex Hpke Transcript IOBufUtil PropsIOBuf PropsCodec
  EchConfirm Server ServerSpec ServerFacts ServerSteps ServerFlight ServerInv ServerPreserve ServerParams ServerOrigin ServerSpec2 PropsServer PropsServer2 PropsServer3 PropsServer4.
Open Scope N_scope.

(** ** Steps that matter *)
Lemma emit_full e l s L1 o L2 : env_ok e -> reach e l s (L1 ++ Emit o :: L2) ->
  (exists l1 s0 log1 s1 w ev s2 pre post, reach e l1 s0 log1 /\ s_state s1 = s_state s0 /\ phase e log1 s1 /\ acts e log1 w s1 ev s2 (pre ++ o :: post) /\
     L1 = log1 ++ recv_of w ev ++ map Emit pre /\ exists L3, L2 = map Emit post ++ L3) \/ dull o.
Proof.
  intros He H. destruct (emit_origin _ _ _ _ _ _ _ H eq_refl) as (l1 & s1 & log1 & w & i & s2 & pre & post & H1 & H2 & -> & HL3).
  pose proof (reach_phase _ _ _ _ He H1) as HP. apply sstep_cases in H2. destruct H2 as [ev R1 R2 R0 R3|r b r' b' x R1 R2 R3 R4 R5|r b r' b' hint R1 R2 R3 R4 R5 R6|R1 R2 R3 R4 R5 R6|R1 R2 R3 R4|R1 R2|R1 R2 R3 R4 R5|wl R1 R2 R3 R4 R5].
  - left. exists l1, s1, log1, s1, w, ev, s2, pre, post. rewrite R1, R2. split; [exact H1|]. split; [reflexivity|]. split; [exact HP|].
    split; [eapply hstep_acts; eassumption|]. auto.
  - left. assert (HP' : phase e log1 (upd_read s1 (Some r'))).
    { rewrite <- (app_nil_r log1). eapply phase_read; [exact HP|exact R2|rewrite R3; reflexivity|reflexivity]. }
    exists l1, s1, log1, (upd_read s1 (Some r')), w, (SvRead x), s2, pre, post. split; [exact H1|]. split; [reflexivity|]. split; [exact HP'|].
    split; [eapply hstep_acts; eassumption|]. split; [rewrite R4; reflexivity|exact HL3].
  - right. destruct pre as [|? [|? ?]]; try discriminate. injection R6 as -> _. left. eauto.
  - right. destruct R6 as [E|(a & [E|(d & ct & wl & _ & _ & Ec & E)])].
    + destruct pre; discriminate.
    + destruct pre as [|? [|? ?]]; try discriminate. injection E as -> _. right. left. eauto.
    + destruct pre as [|? [|? [|? ?]]]; try discriminate.
      * injection E as -> _. right. right. exists ct. split; [reflexivity|]. rewrite Ec. reflexivity.
      * injection E as _ -> _. right. left. eauto.
  - destruct pre; discriminate.
  - destruct pre; discriminate.
  - right. destruct R5 as [E|(wl & ct & _ & Ec & E)]; [destruct pre; discriminate|].
    destruct pre as [|? [|? ?]]; try discriminate. injection E as -> _. right. right. exists ct. split; [reflexivity|]. rewrite Ec. reflexivity.
  - destruct pre; discriminate.
Qed.

Lemma awaiting_state e log s : awaiting e log s -> s_state s = SExpectingClientHello.
Proof.
  intros [Hf|(log1 & s1 & w & c & orig & s2 & outs & W & r & Hf & Hh & Es & El & HW & ->)]; [|exact Es].
  destruct Hf as (r & -> & _). reflexivity.
Qed.
(** ** How many secrets have been exported *)
Definition sc (k : secretkind) (L : list entry) : nat := count (is_secret k) L.
Definition exported (log : list entry) (s : sstate) : Prop :=
  match s_state s with
  | SUninitialized | SExpectingClientHello => forall k, sc k log = 0%nat
  | SAcceptingEarlyData | SExpectingCertificate | SExpectingCertificateVerify | SExpectingFinished => sc SkServerApp log = 1%nat /\ sc SkClientApp log = 0%nat
  | SAcceptingData => sc SkServerApp log = S (count is_ku_sent log) /\ sc SkClientApp log = S (count is_ku_recv log)
  | _ => True
  end.
Lemma sc_app k a b : sc k (a ++ b) = (sc k a + sc k b)%nat. Proof. apply count_app. Qed.
Lemma sc_recv k w ev : sc k (recv_of w ev) = 0%nat. Proof. destruct ev, k; reflexivity. Qed.
Lemma sc_recv_hello k w c orig : sc k (recv_of w (hello_ev c orig)) = 0%nat. Proof. apply sc_recv. Qed.
(** Entries that leave the counts alone. *)
Definition plain (X : list entry) : Prop := (forall k, sc k X = 0%nat) /\ count is_ku_sent X = 0%nat /\ count is_ku_recv X = 0%nat.
Lemma exported_plain log s s' X : exported log s -> plain X -> s_state s' = s_state s -> exported (log ++ X) s'.
Proof.
  unfold exported. intros HE (P1 & P2 & P3) ->.
  destruct (s_state s); try exact Logic.I; try (intros k; rewrite sc_app, HE, P1; reflexivity); rewrite !sc_app, !P1, ?count_app, ?P2, ?P3, !Nat.add_0_r; exact HE.
Qed.
Lemma in_hs_exported log s s' X : in_hs s -> in_hs s' -> (forall k, sc k X = 0%nat) -> exported log s -> exported (log ++ X) s'.
Proof.
  unfold in_hs, exported. intros A B PX HE. rewrite !sc_app, !PX, !Nat.add_0_r.
  destruct (s_state s); try contradiction; destruct (s_state s'); try contradiction; exact HE.
Qed.
Lemma past_in_hs e log s H L : hs_inv e log s H L -> in_hs s.
Proof. intros HI. pose proof (hi_state _ _ _ _ _ HI) as S. unfold in_hs. destruct (s_state s); try contradiction; exact Logic.I. Qed.
Lemma flight_exports e log s H L : past e log s H L ->
  sc SkServerApp (map Emit (i_outs H)) = 1%nat /\ sc SkClientApp (map Emit (i_outs H)) = 0%nat.
Proof.
  intros P. destruct (past_outs _ _ _ _ _ P) as (cs & post & Ho & _ & Hp). rewrite Ho, Hp. unfold sc, count. destruct (i_ed H); split; reflexivity.
Qed.
Lemma ct23 ct : ct_type ct = 23 -> is_ku_sent (Emit (OWrite [ct])) = false.
Proof. intros H. unfold is_ku_sent, is_hs. rewrite H. reflexivity. Qed.
Lemma ticket_ku ct nst m : encodeHandshake (MNewSessionTicket nst) = Ok m -> ct_plain ct = m -> is_ku_sent (Emit (OWrite [ct])) = false.
Proof. intros H1 H2. eapply ku_sent_msg; [exact H2|exact H1|reflexivity|discriminate]. Qed.
Lemma exported_acts e log w s ev s' outs : phase e log s -> acts e log w s ev s' outs -> exported log s -> exported (log ++ recv_of w ev ++ map Emit outs) s'.
Proof.
  intros HP HA HE. destruct HA.
  - unfold exported in *. rewrite H0. rewrite H in HE. intros k. rewrite sc_app, HE. reflexivity.
  - exact Logic.I.
  - subst outs. assert (Hs : s_state s = SExpectingClientHello) by (apply (awaiting_state _ _ _ H)).
    unfold exported in *. rewrite H1. rewrite Hs in HE. intros k0. rewrite sc_app, HE. destruct k0; reflexivity.
  - assert (Hs : s_state s = SExpectingClientHello) by (apply (awaiting_state _ _ _ H0)).
    pose proof (past_in_hs _ _ _ _ _ H3) as HI. destruct (flight_exports _ _ _ _ _ H2) as (E1 & E2). rewrite H10 in E1, E2.
    unfold exported in *. rewrite Hs in HE. unfold in_hs in HI. rewrite !sc_app, !HE, !sc_recv, E1, E2. destruct (s_state s'); try contradiction; auto.
  - eapply exported_plain; [exact HE| |reflexivity]. split; [intros []; reflexivity|split; reflexivity].
  - eapply exported_plain; [exact HE| |reflexivity]. split; [intros []; reflexivity|split; reflexivity].
  - eapply exported_plain; [exact HE| |exact H2]. split; [intros []; reflexivity|split; [|reflexivity]].
    unfold count. cbn [recv_of app map filter]. rewrite (ct23 _ H3). reflexivity.
  - eapply in_hs_exported; [exact H0|exact H1| |exact HE]. intros []; reflexivity.
  - unfold exported in *. rewrite H3. rewrite H2 in HE. destruct HE as (E1 & E2). destruct (hi_quiet _ _ _ _ _ H1) as (_ & Q1 & Q2).
    rewrite !sc_app, !count_app, E1, E2, Q1, Q2, !sc_recv. destruct H6 as [->|(ct & nst & m & -> & C1 & C2 & C3 & C4)]; [split; reflexivity|].
    unfold sc, count. cbn [recv_of app map filter is_secret is_ku_recv]. change (is_ku_sent (Recv w (EvHandshake (MFinished vd) orig))) with false.
    change (is_ku_sent (Emit OSuccess)) with false. rewrite (ticket_ku _ _ _ C3 C4). split; reflexivity.
  - eapply exported_plain; [exact HE| |]; [|rewrite H3, (di_state _ _ _ _ _ H1); reflexivity].
    destruct H2 as [->|(ct & nst & m & -> & C1 & C2 & C3 & C4 & _)]; [split; [intros []; reflexivity|split; reflexivity]|].
    split; [intros []; reflexivity|]. split; [|reflexivity]. unfold count. cbn [recv_of app map filter]. rewrite (ticket_ku _ _ _ C3 C4). reflexivity.
  - unfold exported in *. rewrite H7. rewrite (di_state _ _ _ _ _ H1) in HE. destruct HE as (E1 & E2).
    rewrite !sc_app, !count_app, E1, E2. unfold sc, count. cbn [recv_of app map filter is_secret is_ku_recv]. rewrite (ku_msg _ _ _ H5 H3 H6). 
    change (is_ku_sent (Emit (OSecret' SkServerApp (server_traffic (i_h H) (i_tr H (length (filter is_ku_recv log)) (S (length (filter is_ku_sent log)))))))) with false.
    cbn [length]. lia.
  - unfold exported in *. rewrite H3. rewrite (di_state _ _ _ _ _ H1) in HE. destruct HE as (E1 & E2).
    rewrite !sc_app, !count_app, E1, E2. unfold sc, count. cbn [recv_of app map filter is_secret is_ku_recv is_ku_sent length]. lia.
  - unfold exported in *. rewrite H8. rewrite (di_state _ _ _ _ _ H1) in HE. destruct HE as (E1 & E2).
    rewrite !sc_app, !count_app, E1, E2. unfold sc, count. cbn [recv_of app map filter is_secret is_ku_recv]. rewrite (ku_msg _ _ _ H6 H4 H7).
    repeat match goal with |- context [is_ku_sent ?x] => change (is_ku_sent x) with false end. cbn [length]. lia.
  - unfold exported. rewrite H1. exact Logic.I.
Qed.
Lemma exported_reach e l s log : env_ok e -> reach e l s log -> exported log s.
Proof.
  intros He Hr. assert (G : phase e log s /\ exported log s); [|apply G].
  pattern s, log. eapply reach_rect; [| |exact Hr]; clear -He.
  - split; [apply PhInit; reflexivity|]. intros k. reflexivity.
  - intros l s log w i s' o Hr (HP & IH) H. split.
    { eapply reach_phase; [exact He|]. eapply reach_snoc; eassumption. }
    apply sstep_cases in H.
    destruct H as [ev R1 R2 R0 R3|r b r' b' x R1 R2 R3 R4 R5|r b r' b' hint R1 R2 R3 R4 R5 R6|R1 R2 R3 R4 R5 R6|R1 R2 R3 R4|R1 R2|R1 R2 R3 R4 R5|wl R1 R2 R3 R4 R5].
    + rewrite R1, <- R2. eapply exported_acts; [exact HP| |exact IH]. eapply hstep_acts; eassumption.
    + rewrite R4. change [Recv w x] with (recv_of w (SvRead x)).
      assert (HP' : phase e log (upd_read s (Some r'))).
      { rewrite <- (app_nil_r log). eapply phase_read; [exact HP|exact R2|rewrite R3; reflexivity|reflexivity]. }
      eapply exported_acts; [exact HP'| |exact IH]. eapply hstep_acts; eassumption.
    + rewrite R4, R5, R6. eapply exported_plain; [exact IH| |reflexivity]. split; [intros []; reflexivity|split; reflexivity].
    + unfold exported. rewrite R2. exact Logic.I.
    + unfold exported. rewrite R2. exact Logic.I.
    + unfold exported. rewrite R1. exact Logic.I.
    + unfold exported. destruct R3 as [-> | ->]; exact Logic.I.
    + rewrite R1, R5, R4. cbn [map app]. rewrite app_nil_r. exact IH.
Qed.
Lemma handshake_more e L P L2 X : handshake e L P L2 -> handshake e (L ++ X) P (L2 ++ X).
Proof.
  intros (L0 & w & c & orig & pre & cs & -> & H). exists L0, w, c, orig, pre, cs. split; [|exact H]. rewrite <- !app_assoc. cbn [app]. rewrite <- !app_assoc. reflexivity.
Qed.
Lemma client_gen P H c s : same_params H P -> client_traffic (i_h H) (i_tr H c s) = secret_of P SkClientApp c.
Proof. intros SP. destruct SP. cbn [secret_of]. unfold app_traffic, i_tr. rewrite sp_hash, sp_psk, sp_dh, sp_Tsf. reflexivity. Qed.
Lemma server_gen P H c s : same_params H P -> server_traffic (i_h H) (i_tr H c s) = secret_of P SkServerApp s.
Proof. intros SP. destruct SP. cbn [secret_of]. unfold app_traffic, i_tr. rewrite sp_hash, sp_psk, sp_dh, sp_Tsf. reflexivity. Qed.
Lemma sc_pre k0 b0 k1 l : sc k0 (map Emit (OSecret' k1 b0 :: l)) = ((if is_secret k0 (Emit (OSecret' k1 b0)) then 1 else 0) + sc k0 (map Emit l))%nat.
Proof. unfold sc, count. cbn [map filter]. destruct (is_secret k0 _); reflexivity. Qed.
(** ** C40 *)
(** Every secret exported is the one RFC 8446 (7.1, 7.2) prescribes for the parameters of this handshake: the n-th application traffic secret
    of a direction is generation n, and the others are exported once. *)
Theorem C40_secrets e l s L1 k b L2 : env_ok e -> reach e l s (L1 ++ Emit (OSecret' k b) :: L2) ->
  exists P La, handshake e (L1 ++ Emit (OSecret' k b) :: L2) P La /\ b = secret_of P k (count (is_secret k) L1) /\
    (k <> SkClientApp -> k <> SkServerApp -> count (is_secret k) L1 = 0%nat).
Proof.
  intros He Hr. destruct (emit_full _ _ _ _ _ _ He Hr) as [(l1 & s0 & log1 & s1 & w & ev & s2 & pre & post & Hr1 & Es & HP & HA & HL1 & L3 & HL2)|D].
  2:{ destruct D as [(n & [=])|[(a & [=])|(ct & [=] & _)]]. }
  pose proof (exported_reach _ _ _ _ He Hr1) as HE. assert (HE1 : exported log1 s1) by (unfold exported in *; rewrite Es; exact HE). clear HE.
  assert (Hall : L1 ++ Emit (OSecret' k b) :: L2 = log1 ++ (recv_of w ev ++ map Emit (pre ++ OSecret' k b :: post)) ++ L3).
  { rewrite HL1, HL2, map_app. cbn [map]. rewrite <- !app_assoc. reflexivity. }
  rewrite Hall. clear Hall. fold (sc k L1). assert (Hsc : sc k L1 = (sc k log1 + sc k (map Emit pre))%nat) by (rewrite HL1, !sc_app, sc_recv; reflexivity).
  rewrite Hsc. clear Hsc HL1.
  remember (pre ++ OSecret' k b :: post) as outs eqn:Eo.
  assert (Hone : forall x, (forall a c, x <> OSecret' a c) -> [x] = pre ++ OSecret' k b :: post -> False).
  { intros x Hx E. symmetry in E. apply split_one in E. destruct E as (_ & _ & <-). congruence. }
  destruct HA; try (destruct pre; discriminate); try (exfalso; revert Eo; apply Hone; discriminate).
  - exfalso. rewrite H3 in Eo. revert Eo. apply Hone. discriminate.
  - destruct (past_handshake _ _ _ _ _ He H2) as (P & po & HH & Hp & SP).
    exists P, ((po ++ []) ++ L3). split; [rewrite app_assoc; apply handshake_more; exact HH|].
    pose proof (awaiting_state _ _ _ H0) as Hs. unfold exported in HE1. rewrite Hs in HE1. rewrite (HE1 k). cbn [Nat.add].
    destruct (past_outs _ _ _ _ _ H2) as (cs & po2 & Ho & _ & Hp2). rewrite H10, Eo in Ho.
    assert (G : forall A, In (OSecret' k b) A -> forall B, (forall x y, ~ In (OSecret' x y) B) -> pre ++ OSecret' k b :: post = A ++ B ->
      exists q, A = pre ++ OSecret' k b :: q).
    { clear. intros A HA B HB E. destruct (split_app _ _ _ _ _ (eq_sym E)) as [(r & -> & _)|(r & Hb & _)]; [eauto|].
      exfalso. apply (HB k b). rewrite Hb. apply in_or_app. right. left. reflexivity. }
    assert (HB : forall x y, ~ In (OSecret' x y) (OWrite cs :: po2)).
    { intros x y [[=]|Hin]. subst po2. destruct (i_ed H); try contradiction. destruct Hin as [[=]|[]]. }
    set (E0 := match i_ed H with EdAccepted => _ | _ => [] end) in Ho.
    match type of Ho with _ = E0 ++ [?a; ?b'; ?c'; _] ++ _ => assert (Ho' : pre ++ OSecret' k b :: post = (E0 ++ [a; b'; c']) ++ OWrite cs :: po2)
      by (rewrite Ho, <- app_assoc; reflexivity) end. clear Ho.
    assert (Hin : exists q, E0 ++ [OSecret' SkClientHs (i_chs H); OSecret' SkServerHs (server_hs_secret (i_h H) (i_psk H) (i_dh H) (i_tsh H));
       OSecret' SkServerApp (server_traffic (i_h H) (i_tr H 0 0))] = pre ++ OSecret' k b :: q).
    { eapply G; [|exact HB|exact Ho']. assert (In (OSecret' k b) (pre ++ OSecret' k b :: post)) as Hi by (apply in_or_app; right; left; reflexivity).
      rewrite Ho' in Hi. apply in_app_or in Hi. destruct Hi as [Hi|Hi]; [exact Hi|destruct (HB _ _ Hi)]. }
    destruct Hin as (q & Hq). pose proof (server_gen P H 0 0 SP) as Hsg. destruct SP.
    assert (S1 : i_chs H = secret_of P SkClientHs 0) by (unfold i_chs; cbn [secret_of]; rewrite sp_hash, sp_psk, sp_dh, sp_Tsh; reflexivity).
    assert (S2 : server_hs_secret (i_h H) (i_psk H) (i_dh H) (i_tsh H) = secret_of P SkServerHs 0) by (cbn [secret_of]; rewrite sp_hash, sp_psk, sp_dh, sp_Tsh; reflexivity).
    assert (S3 : DeriveSecret (i_h H) (EarlySecret (i_h H) (i_psk H)) (str "c e traffic") (h_fn (i_h H) (i_tch H)) = secret_of P SkEarly 0)
      by (cbn [secret_of]; rewrite sp_hash, sp_psk, sp_T; reflexivity).
    rewrite S1, S2, Hsg in Hq. subst E0. rewrite S3 in Hq. clear -Hq.
    destruct (i_ed H); cbn [app] in Hq; (destruct pre as [|p1 [|p2 [|p3 [|p4 pre]]]]; cbn [app] in Hq; try discriminate Hq);
      injection Hq; clear Hq; intros; try (destruct pre; discriminate); subst k b; repeat (match goal with H : _ = ?x |- _ => is_var x; subst x end); (split; [reflexivity|intros; reflexivity]).
  - destruct (past_handshake _ _ _ _ _ He H0) as (P & po & HH & Hp & SP).
    exists P, ((po ++ L) ++ (recv_of w (SvRead (EvHandshake (MFinished vd) orig)) ++
      map Emit (OSecret' SkClientApp (client_traffic (i_h H) (i_tr H 0 0)) :: tk ++ [OSuccess])) ++ L3). split; [apply handshake_more; exact HH|].
    assert (Hpre : pre = [] /\ k = SkClientApp /\ b = client_traffic (i_h H) (i_tr H 0 0)).
    { destruct pre as [|p pre]; [injection Eo as <- <- _; auto|]. exfalso. injection Eo as _ Eo.
      destruct H6 as [->|(ct & nst & m & -> & _)]; [destruct pre as [|? [|? ?]]; discriminate|destruct pre as [|? [|? [|? ?]]]; discriminate]. }
    destruct Hpre as (-> & -> & ->). unfold exported in HE1. rewrite H2 in HE1. destruct HE1 as (_ & ->).
    split; [|intros C; congruence]. rewrite (client_gen P) by exact SP. reflexivity.
  - exfalso. destruct H2 as [->|(ct & nst & m & -> & _)]; [destruct pre; discriminate|]. revert Eo. apply Hone. discriminate.
  - destruct (past_handshake _ _ _ _ _ He H0) as (P & po & HH & Hp & SP).
    eexists P, _. split; [apply handshake_more; exact HH|].
    unfold exported in HE1. rewrite (di_state _ _ _ _ _ H1) in HE1. destruct HE1 as (Ea & Eb).
    destruct pre as [|p1 [|p2 [|p3 pre]]]; try discriminate. injection Eo as <- <- _. rewrite Ea. change (sc SkServerApp (map Emit [])) with 0%nat. rewrite Nat.add_0_r.
    split; [apply server_gen, SP|intros _ C; congruence].
  - destruct (past_handshake _ _ _ _ _ He H0) as (P & po & HH & Hp & SP).
    eexists P, _. split; [apply handshake_more; exact HH|].
    unfold exported in HE1. rewrite (di_state _ _ _ _ _ H1) in HE1. destruct HE1 as (Ea & Eb).
    destruct pre as [|p1 [|p2 pre]]; try discriminate. injection Eo as <- <- _. rewrite Eb. change (sc SkClientApp (map Emit [])) with 0%nat. rewrite Nat.add_0_r.
    split; [apply client_gen, SP|intros C; congruence].
  - destruct (past_handshake _ _ _ _ _ He H0) as (P & po & HH & Hp & SP).
    eexists P, _. split; [apply handshake_more; exact HH|].
    unfold exported in HE1. rewrite (di_state _ _ _ _ _ H1) in HE1. destruct HE1 as (Ea & Eb).
    destruct pre as [|p1 [|p2 [|p3 [|p4 pre]]]]; try discriminate.
    + injection Eo as <- <- _. rewrite Ea. change (sc SkServerApp (map Emit [])) with 0%nat. rewrite Nat.add_0_r.
      split; [apply server_gen, SP|intros _ C; congruence].
    + injection Eo as <- <- <- _. rewrite Eb, sc_pre. change (is_secret SkClientApp (Emit (OSecret' SkServerApp (server_traffic (i_h H) (i_tr H (S (count is_ku_recv log1)) (S (count is_ku_sent log1))))))) with false.
      change (sc SkClientApp (map Emit [])) with 0%nat. cbn [Nat.add]. rewrite Nat.add_0_r.
      split; [apply client_gen, SP|intros C; congruence].
  - exfalso. destruct H0 as [(_ & _ & ct & -> & _)|(_ & ->)]; [|revert Eo; apply Hone; discriminate]. destruct pre as [|a [|c [|d pre]]]; discriminate.
Qed.
(** ** C41 *)
(** Reading and writing keys in each state. *)
Definition keys_of (e : env) (P : params) (log : list entry) (s : sstate) : Prop :=
  let rk := fun k n => read_keyed e (p_hash P) (p_cipher P) (secret_of P k n) in
  let wk := fun k n => write_keyed e (p_hash P) (p_cipher P) (secret_of P k n) in
  match s_state s with
  | SAcceptingEarlyData => rk SkEarly 0%nat (s_read s) /\ wk SkServerApp 0%nat (s_write s)
  | SExpectingCertificate | SExpectingCertificateVerify | SExpectingFinished => rk SkClientHs 0%nat (s_read s) /\ wk SkServerApp 0%nat (s_write s)
  | SAcceptingData => rk SkClientApp (count is_ku_recv log) (s_read s) /\ wk SkServerApp (count is_ku_sent log) (s_write s)
  | _ => True
  end.
(** While the connection lives, records are opened and sealed with the keys RFC 8446 prescribes for the parameters of the handshake; after the
    handshake, with the generation that is the number of KeyUpdate messages received, respectively sent, so far. *)
Theorem C41_keys e l s log : env_ok e -> reach e l s log -> (in_hs s \/ s_state s = SAcceptingData) ->
  exists P La, handshake e log P La /\ keys_of e P log s.
Proof.
  intros He Hr Hst. pose proof (reach_phase _ _ _ _ He Hr) as HP. unfold in_hs in Hst.
  destruct HP as [-> ->|Ha|H L Pa HI|H L Pa HI|T].
  - destruct Hst as [[]|[=]].
  - rewrite (awaiting_state _ _ _ Ha) in Hst. destruct Hst as [[]|[=]].
  - destruct (past_handshake _ _ _ _ _ He Pa) as (P & po & HH & _ & SP). exists P, (po ++ L). split; [exact HH|].
    destruct (hi_write _ _ _ _ _ HI) as (ws & W1 & W2). rewrite (server_gen P) in W2 by exact SP. rewrite <- (sp_hash _ _ SP), <- (sp_cipher _ _ SP) in W2.
    pose proof (hi_state _ _ _ _ _ HI) as S. unfold keys_of.
    assert (WK : write_keyed e (p_hash P) (p_cipher P) (secret_of P SkServerApp 0) (s_write s)) by (exists LvAppTraffic, ws; auto).
    assert (C : i_chs H = secret_of P SkClientHs 0) by (destruct SP; unfold i_chs; cbn [secret_of]; rewrite sp_hash, sp_psk, sp_dh, sp_Tsh; reflexivity).
    assert (C2 : DeriveSecret (i_h H) (EarlySecret (i_h H) (i_psk H)) (str "c e traffic") (h_fn (i_h H) (i_tch H)) = secret_of P SkEarly 0)
      by (destruct SP; cbn [secret_of]; rewrite sp_hash, sp_psk, sp_T; reflexivity).
    rewrite C, C2, <- (sp_hash _ _ SP), <- (sp_cipher _ _ SP) in S.
    destruct (s_state s); try contradiction; (split; [apply S|exact WK]).
  - destruct (past_handshake _ _ _ _ _ He Pa) as (P & po & HH & _ & SP). exists P, (po ++ L). split; [exact HH|].
    destruct (di_write _ _ _ _ _ HI) as (ws & W1 & W2). pose proof (di_read _ _ _ _ _ HI) as R.
    rewrite (server_gen P) in W2 by exact SP. rewrite (client_gen P) in R by exact SP. rewrite <- (sp_hash _ _ SP), <- (sp_cipher _ _ SP) in W2, R.
    unfold keys_of. rewrite (di_state _ _ _ _ _ HI). split; [exact R|]. exists LvAppTraffic, ws. auto.
  - unfold terminal in T. destruct (s_state s); try contradiction; destruct Hst as [[]|[=]].
Qed.
Lemma slog_recv e : forall l s0 s L1 w ev L2, slog e s0 l = (s, L1 ++ Recv w ev :: L2) ->
  exists l1 l2 s1 log1 s2 outs r b r' b' L3, slog e s0 l1 = (s1, log1) /\ sstep e w s1 (ISocket b) = (s2, outs) /\ s_state s1 <> SCrash /\
    s_read s1 = Some r /\ read_event r b = RMsg r' b' ev /\ L1 = log1 /\ L2 = map Emit outs ++ L3 /\ slog e s2 l2 = (s, L3).
Proof.
  induction l as [|[w0 i] l IH]; intros s0 s L1 w ev L2 H; cbn [slog] in H; [destruct L1; discriminate|].
  destruct (sstep e w0 s0 i) as [s1 o1] eqn:E1. destruct (slog e s1 l) as [s2 log2] eqn:E2. injection H as -> H.
  assert (Hd : (exists r, received w0 s0 i = [Recv w ev] /\ L1 = [] /\ r = map Emit o1 ++ log2 /\ L2 = r) \/
               (exists r, L1 = received w0 s0 i ++ map Emit o1 ++ r /\ log2 = r ++ Recv w ev :: L2)).
  { rewrite app_assoc in H. destruct (split_app _ _ _ _ _ H) as [(r & Ha & Hr)|(r & Hb & ->)].
    - left. destruct (received_recv w0 s0 i) as [Er|(ev' & Er)]; rewrite Er in Ha |- *.
      + cbn [app] in Ha. destruct (map_emit_split _ _ _ _ Ha) as (p & y & q & _ & Hy & _). discriminate.
      + destruct L1 as [|z L1]; cbn [app] in Ha.
        2:{ injection Ha as _ Ha. destruct (map_emit_split _ _ _ _ Ha) as (p & y & q & _ & Hy & _). discriminate. }
        injection Ha as -> -> <-. exists (map Emit o1 ++ log2). auto.
    - right. exists r. rewrite <- app_assoc. auto. }
  destruct Hd as [(r & Er & -> & -> & ->)|(r & -> & ->)].
  - unfold received in Er. assert (Hc : s_state s0 <> SCrash) by (destruct (s_state s0); congruence).
    destruct i as [|b| | | | | |]; try (destruct (s_state s0); discriminate Er).
    assert (Er' : match s_read s0 with Some r => match read_event r b with RMsg _ _ ev => [Recv w0 ev] | _ => [] end | None => [] end = [Recv w ev])
      by (destruct (s_state s0); (exact Er || discriminate Er)).
    destruct (s_read s0) as [rd|] eqn:Erd; [|discriminate]. destruct (read_event rd b) as [| r' b' evx|] eqn:Ev; try discriminate. injection Er' as -> ->.
    exists [], l, s0, [], s1, o1, rd, b, r', b', log2. auto 12.
  - destruct (IH _ _ _ _ _ _ E2) as (l1 & l2 & s3 & log1 & s4 & outs & rd & b & r' & b' & L3 & A & B & C & D & F & -> & -> & G).
    exists ((w0, i) :: l1), l2, s3, (received w0 s0 i ++ map Emit o1 ++ log1), s4, outs, rd, b, r', b', L3.
    split; [cbn [slog]; rewrite E1, A; reflexivity|]. auto 12.
Qed.
(** A KeyUpdate message is answered, if it asks for it, by a KeyUpdate (not requesting one) under the old key; the new secrets are exported. *)
Theorem C41_key_update e l s L1 w req o L2 : env_ok e -> reach e l s (L1 ++ Recv w (EvHandshake (MKeyUpdate req) o) :: L2) ->
  exists outs L3, L2 = map Emit outs ++ L3 /\
    ((req = 0 /\ exists b, outs = [OSecret' SkClientApp b]) \/
     (req <> 0 /\ exists b1 b2 ct, outs = [OSecret' SkServerApp b1; OSecret' SkClientApp b2; OWrite [ct]] /\
        ct_type ct = 22 /\ ct_plain ct = be 1 24 ++ be 3 1 ++ be 1 0 /\
        exists P La ws, handshake e L1 P La /\ keyed e (p_hash P) (p_cipher P) (secret_of P SkServerApp (count is_ku_sent L1)) (ws_aead ws) /\
          snd (wl_write (WEnc LvAppTraffic ws) 22 [ct_plain ct]) = Ok ct) \/
     ((outs = [] \/ exists pre a, outs = pre ++ [OError a]) /\ Forall (fun x => closing x) L2)).
Proof.
  intros He Hr. destruct (slog_recv _ _ _ _ _ _ _ _ Hr) as (l1 & l2 & s1 & log1 & s2 & outs & r & b & r' & b' & L3 & A & B & C & E1 & E2 & -> & -> & D).
  cbn [app] in Hr. exists outs, L3. split; [reflexivity|]. pose proof (reach_phase _ _ _ _ He A) as HP.
  assert (HP' : phase e log1 (upd_read s1 (Some r'))).
  { rewrite <- (app_nil_r log1). eapply phase_read; [exact HP|exact E1|rewrite E2; reflexivity|reflexivity]. }
  assert (HT : terminal s2 -> Forall closing (map Emit outs) -> Forall closing (map Emit outs ++ L3)).
  { intros T F. apply Forall_app. split; [exact F|]. eapply terminal_log; eassumption. }
  apply sstep_cases in B.
  destruct B as [ev R1 R2 R0 R3|rr bb r2 b2 x R1 R2 R3 R4 R5|rr bb r2 b2 hint R1 R2 R3 R4 R5 R6|R1 R2 R3 R4 R5 R6|R1 R2 R3 R4|R1 R2|R1 R2 R3 R4 R5|wl R1 R2 R3 R4 R5].
  - discriminate.
  - injection R1 as <-. rewrite E1 in R2. injection R2 as <-. rewrite E2 in R3. injection R3 as <- <- <-.
    pose proof (hstep_acts _ _ _ _ _ _ _ He HP' R5) as HA. inversion HA; subst; try discriminate.
    + exfalso. repeat match goal with H : _ \/ _ |- _ => destruct H end; repeat match goal with H : exists _, _ |- _ => destruct H end; discriminate.
    + left. split; [reflexivity|]. eauto.
    + right. left. match goal with H : req <> 0 |- _ => split; [exact H|] end.
      match goal with H1 : past _ _ _ ?H _, H2 : data_inv _ _ _ ?H _, H3 : encodeHandshake _ = Ok (ct_plain ct), H5 : exists wl, _, H6 : ct_type ct = 22 |- _ =>
        rename H1 into HPa; rename H2 into HD; rename H3 into HE; rename H5 into HW; rename H6 into Hty; rename H into HH end.
      do 3 eexists. split; [reflexivity|]. split; [exact Hty|]. split; [symmetry; exact (f_equal (fun x => match x with Ok y => y | Err _ => [] end) HE)|].
      destruct (past_handshake _ _ _ _ _ He HPa) as (P & po & Hh & _ & SP). destruct (di_write _ _ _ _ _ HD) as (ws & W1 & W2). destruct HW as (wl & W3 & W4).
      rewrite W1 in W3. injection W3 as <-. rewrite (server_gen P) in W2 by exact SP. rewrite <- (sp_hash _ _ SP), <- (sp_cipher _ _ SP) in W2.
      exists P, (po ++ L), ws. auto.
  - rewrite E1 in R2. injection R2 as <-. injection R1 as <-. rewrite E2 in R3. discriminate.
  - right. right. assert (Forall closing (map Emit outs)).
    { destruct R6 as [->|(a & [->|(d & ct & wl & _ & X & Hc & ->)])]; [constructor|repeat constructor|].
      constructor; [right; exists ct; split; [reflexivity|rewrite Hc; reflexivity]|repeat constructor]. }
    split; [|apply HT; [unfold terminal; rewrite R2; exact Logic.I|assumption]].
    destruct R6 as [->|(a & [->|(d & ct & wl & _ & X & Hc & ->)])]; [left; reflexivity|right; exists [], a; reflexivity|right; exists [OWrite [ct]], a; reflexivity].
  - right. right. subst. split; [auto|]. apply HT; [unfold terminal; rewrite R2; exact Logic.I|constructor].
  - right. right. subst. split; [auto|]. apply HT; [unfold terminal; rewrite R1; exact Logic.I|constructor].
  - destruct R2; discriminate.
  - destruct R2; discriminate.
Qed.

(** Read keys change only between messages: if handshake bytes that belong to a record under the present key are left over, the key stays. *)
Lemma hstep_boundary e w s ev s' outs r : hstep e w s ev s' outs -> s_read s = Some r -> (s_state s = SUninitialized -> s_read s = None) ->
  ev_unparsed r <> [] -> s_read s' = Some r \/ terminal s'.
Proof.
  intros HS Hr Hun Hu.
  assert (Hn : no_unparsed s = Some true -> False).
  { intros H. apply no_unparsed_true in H. destruct H as (r0 & H1 & H2). congruence. }
  destruct HS.
  - rewrite Hun in Hr by exact H. discriminate.
  - assert (Hne : forall n, neg_facts e w s c orig n -> False).
    { intros n F. destruct (nf_unparsed _ _ _ _ _ _ F) as (r0 & H1 & H2). congruence. }
    apply handle_hello_facts in H0. destruct H0 as [d sni E1 E2 E3|n sid h k hc alpn skew ed early g HF Hm Eg Eg0 Eck HR|n sid h k hc alpn skew ed early kt group kex HF Hm HR].
    + right. subst. exact Logic.I.
    + destruct (Hne _ (hf_neg _ _ _ _ _ _ _ _ _ _ _ _ _ _ HF)).
    + destruct (Hne _ (hf_neg _ _ _ _ _ _ _ _ _ _ _ _ _ _ HF)).
  - left. exact Hr.
  - left. exact Hr.
  - exfalso. congruence.
  - left. unfold handle_certificate in H0. destruct (s_hctx s) as [hc|]; [|discriminate]. bo H0 ctx E1. bo H0 u E2. bo H0 certs E3.
    destruct certs; [destruct (e_authMode e); try discriminate|]; injection H0 as <- _; exact Hr.
  - left. unfold handle_certificate_verify in H0. bo H0 u E1. destruct (s_chain s) as [[|leaf rest]|]; try discriminate. destruct (s_hctx s) as [hc|]; [|discriminate].
    bo H0 sg E2. bo H0 u2 E3. bo H0 nc E4. injection H0 as <- _. exact Hr.
  - exfalso. unfold handle_finished in H0. destruct (s_hctx s), (s_clientHsSecret s), (s_ks s) as [[hh kk]|], (s_version s), (s_cipher s); try discriminate.
    destruct (hc_finished _ _); [|discriminate]. destruct vd; [|discriminate]. destruct (crypto_equal _ _); [|discriminate]. cbn [negb] in H0.
    destruct (no_unparsed s) as [[|]|]; try discriminate. apply Hn. reflexivity.
  - left. unfold handle_new_ticket in H0. destruct (ticket_message _ _ _ _ _) as [[m|]|]; try discriminate.
    + apply with_write_ok in H0. destruct H0 as (wl & wl' & ct & _ & _ & [= <- _]). exact Hr.
    + injection H0 as <- _. exact Hr.
  - exfalso. unfold handle_ku_init in H0. destruct (no_unparsed s) as [[|]|]; try discriminate. apply Hn. reflexivity.
  - exfalso. unfold handle_ku in H0. destruct (no_unparsed s) as [[|]|]; try discriminate. apply Hn. reflexivity.
  - exfalso. unfold handle_close in H0. destruct (no_unparsed s) as [[|]|]; try discriminate. apply Hn. reflexivity.
Qed.
Theorem C41_boundary e l s log w b r r' b' x s' outs : env_ok e -> reach e l s log -> s_read s = Some r -> read_event r b = RMsg r' b' x ->
  sstep e w s (ISocket b) = (s', outs) -> ev_unparsed r' <> [] ->
  s_read s' = Some r' \/ (forall i w2 s2 outs2 y, sstep e w2 s' i = (s2, outs2) -> In y outs2 -> closing (Emit y)).
Proof.
  intros He Hr E1 E2 Hs Hu. pose proof (reach_phase _ _ _ _ He Hr) as HP.
  assert (HT : terminal s' -> forall i w2 s2 outs2 y, sstep e w2 s' i = (s2, outs2) -> In y outs2 -> closing (Emit y)).
  { intros T i w2 s2 outs2 y H Hin. destruct (terminal_step _ _ _ _ _ _ T H) as (_ & F). rewrite Forall_forall in F. apply F, in_map, Hin. }
  apply sstep_cases in Hs.
  destruct Hs as [ev R1 R2 R0 R3|rr bb r2 b2 x2 R1 R2 R3 R4 R5|rr bb r2 b2 hint R1 R2 R3 R4 R5 R6|R1 R2 R3 R4 R5 R6|R1 R2 R3 R4|R1 R2|R1 R2 R3 R4 R5|wl R1 R2 R3 R4 R5].
  - discriminate.
  - injection R1 as <-. rewrite E1 in R2. injection R2 as <-. rewrite E2 in R3. injection R3 as <- <- <-.
    assert (Hst : s_state (upd_read s (Some r')) = SUninitialized -> s_read (upd_read s (Some r')) = None).
    2:{ destruct (hstep_boundary _ _ _ _ _ _ r' R5 eq_refl Hst Hu) as [H|H]; [left; exact H|right; exact (HT H)]. }
    intros Hst. exfalso. cbn in Hst. destruct HP as [-> ->|Ha|H L Pa HI|H L Pa HI|T].
    + discriminate.
    + rewrite (awaiting_state _ _ _ Ha) in Hst. discriminate.
    + pose proof (hi_state _ _ _ _ _ HI) as S. rewrite Hst in S. exact S.
    + rewrite (di_state _ _ _ _ _ HI) in Hst. discriminate.
    + unfold terminal in T. rewrite Hst in T. exact T.
  - injection R1 as <-. rewrite E1 in R2. injection R2 as <-. rewrite E2 in R3. discriminate.
  - right. apply HT. unfold terminal. rewrite R2. exact Logic.I.
  - right. apply HT. unfold terminal. rewrite R2. exact Logic.I.
  - right. apply HT. unfold terminal. rewrite R1. exact Logic.I.
  - destruct R2; discriminate.
  - destruct R2; discriminate.
Qed.
