(** * The invariant of a server connection *)
From Verif Require Import Base Codec CodecSpec Str Hkdf HkdfSpec HkdfProofs KeySched KeySchedSpec KeySchedProofs Handshake Extensions RecordBase Record RecordRT
  ReadEvent HelloChecks Cookie Token Negotiate Ticket Kex Hpke Transcript IOBufUtil PropsIOBuf EchConfirm Server ServerSpec ServerFacts ServerSteps ServerFlight.
Open Scope N_scope.

(** ** Reading keeps the key *)
Definition layer_key (l : layer) : option aead := match l with LPlain _ => None | LEnc x => Some (es_aead x) end.
Definition iter_state {S M} (i : iter S M) : option S := match i with ICont s _ | INeed s _ _ | IMsg s _ _ => Some s | IErr _ => None end.
Definition rres_state {S M} (i : rres S M) : option S := match i with RNeed s _ _ | RMsg s _ _ => Some s | RErr _ => None end.
Lemma enc_iter_key s b s' : iter_state (enc_iter s b) = Some s' -> es_aead s' = es_aead s.
Proof.
  unfold enc_iter. destruct (header b) as [[[[ty ver] len] rest]|]; [|cbn; congruence].
  destruct (len =? 0); [discriminate|]. destruct (kMaxEncryptedRecordSize <? len); [discriminate|].
  destruct (take len rest) as [[c rest']|]; [|cbn; congruence].
  destruct ((ty =? ct_alert) && (len =? 2)); [discriminate|].
  destruct (ty =? ct_ccs). { destruct (bytes_eqb c [x01]); cbn; congruence. }
  destruct (es_seq s =? max64); [discriminate|]. cbv zeta. destruct (es_skip s).
  - destruct (ae_try _ _ _ _) as [[ch|]|]; [|cbn; congruence|discriminate]. destruct (open_inner ch); cbn; [intros [= <-]; reflexivity|discriminate].
  - destruct (ae_dec _ _ _ _) as [ch|]; [|discriminate]. destruct (open_inner ch); cbn; [intros [= <-]; reflexivity|discriminate].
Qed.
Lemma layer_iter_key s b s' : iter_state (layer_iter s b) = Some s' -> layer_key s' = layer_key s.
Proof.
  destruct s as [p|x]; cbn [layer_iter].
  - destruct (plain_iter p b); cbn; try discriminate; intros [= <-]; reflexivity.
  - pose proof (enc_iter_key x b) as H. destruct (enc_iter x b); cbn; try discriminate; intros [= <-]; cbn; f_equal; apply H; reflexivity.
Qed.
Lemma layer_read_key : forall s b s', rres_state (layer_read s b) = Some s' -> layer_key s' = layer_key s.
Proof.
  intros s b. unfold layer_read, read_of. generalize (S (length b)). intros f. revert s b.
  induction f as [|f IH]; intros s b s'; cbn [read_loop]; [discriminate|].
  pose proof (layer_iter_key s b) as H. destruct (layer_iter s b) as [s1 b1|s1 b1 hn|s1 b1 m|er]; cbn.
  - intros E. rewrite (IH _ _ _ E). apply H. reflexivity.
  - intros [= <-]. apply H. reflexivity.
  - intros [= <-]. apply H. reflexivity.
  - discriminate.
Qed.
Lemma ev_loop_key : forall f u l b s', rres_state (ev_loop f u l b) = Some s' -> layer_key (ev_layer s') = layer_key l.
Proof.
  induction f as [|f IH]; intros u l b s'; cbn [ev_loop]; [discriminate|].
  pose proof (layer_read_key l b) as H. destruct (layer_read l b) as [l1 b1 hn|l1 b1 m|er].
  - intros [= <-]. apply H. reflexivity.
  - specialize (H _ eq_refl). destruct (_ && _); [discriminate|].
    destruct (m_type m =? ct_alert).
    { destruct (decode_all decode_alert (m_frag m)) as [a|]; [|discriminate]. destruct (al_description a =? 0); intros [= <-]; exact H. }
    destruct (m_type m =? ct_handshake).
    { cbv zeta. destruct (decode_hs (u ++ m_frag m)) as [[[[msg orig] rest]|]|]; [|intros E; rewrite (IH _ _ _ _ E); exact H|discriminate].
      intros [= <-]; exact H. }
    destruct (m_type m =? ct_appdata); [|discriminate]. intros [= <-]; exact H.
  - discriminate.
Qed.
Lemma read_event_key r b r' : rres_state (read_event r b) = Some r' -> layer_key (ev_layer r') = layer_key (ev_layer r).
Proof.
  unfold read_event. destruct (ev_unparsed r) as [|x u]; [apply ev_loop_key|].
  destruct (decode_hs (x :: u)) as [[[[msg orig] rest]|]|]; [|apply ev_loop_key|discriminate]. intros [= <-]. reflexivity.
Qed.
Lemma read_keyed_key e h c sec r r' : read_keyed e h c sec (Some r) -> layer_key (ev_layer r') = layer_key (ev_layer r) ->
  read_keyed e h c sec (Some r').
Proof.
  intros (u & es & [= ->] & Hk) E. cbn in E. destruct r' as [u' l']; cbn in E. destruct l' as [p|es']; [discriminate|].
  injection E as E. exists u', es'. split; [reflexivity|]. rewrite E. exact Hk.
Qed.

(** ** History *)
Definition negotiated (s : sstate) :=
  (s_version s, s_cipher s, s_group s, s_kexType s, s_early s, s_psk s, s_pskMode s, s_replay s, s_alpn s, s_serverCert s, s_certReqExts s,
   s_sigScheme s, s_exporter s, s_earlyExporter s, s_skew s, s_appToken s, s_hsTime s, s_clientRandom s, s_ech s, s_echState s).
Record hist := mkHist { i_log : list entry; i_s1 : sstate; i_w : world; i_c : ClientHello; i_orig : bytes; i_s2 : sstate; i_outs : list out;
  i_n : neg; i_ed : earlytype; i_kex : option (bytes * bytes); i_h : hashalg; i_tch : bytes; i_sh : bytes; i_fl : bytes }.
Definition i_psk (H : hist) : bytes := psk_of (i_h H) (n_res (i_n H)).
Definition i_dh (H : hist) : bytes := dh_of (i_h H) (i_kex H).
Definition i_tsh (H : hist) : bytes := i_tch H ++ i_sh H.
Definition i_tsf (H : hist) : bytes := i_tch H ++ i_sh H ++ i_fl H.
Definition i_tr (H : hist) (c s : nat) : traffic := mkTr (i_psk H) (i_dh H) (h_fn (i_h H) (i_tsf H)) c s.
Definition i_chs (H : hist) : bytes := client_hs_secret (i_h H) (i_psk H) (i_dh H) (i_tsh H).
Definition i_cipher (H : hist) : N := n_cipher (i_n H).
Record past (e : env) (log : list entry) (s : sstate) (H : hist) (L : list entry) : Prop := mkPast {
  pa_before : awaiting e (i_log H) (i_s1 H);
  pa_hello : handle_hello e (i_w H) (i_s1 H) (i_c H) (i_orig H) = Ok (i_s2 H, i_outs H);
  pa_flight : flight_ok e (i_log H) (i_w H) (i_c H) (i_orig H) (i_s2 H) (i_outs H) (i_n H) (i_ed H) (i_kex H) (i_h H) (i_tch H) (i_sh H) (i_fl H);
  pa_facts : exists sid k hc alpn skew early kt group,
    hello_facts e (i_w H) (i_s1 H) (i_c H) (i_orig H) (i_n H) sid (i_h H) k hc alpn skew (i_ed H) early /\
    ((n_pskMode (i_n H) = Some 0 /\ kt = KexNone /\ group = None /\ i_kex H = None) \/
     (n_pskMode (i_n H) <> Some 0 /\ exists g cs kx, negotiateGroup e (n_hello (i_n H)) = Ok (g, Some cs) /\ w_kex (i_w H) g cs = Ok kx /\
        group = Some g /\ i_kex H = Some kx /\ kt = match s_kexType (i_s1 H) with Some t => t | None => KexOneRtt end)) /\
    finish_facts e (i_w H) (i_s1 H) (i_n H) sid (match n_res (i_n H) with Some r => rs_hsTime r | None => w_now (i_w H) end)
      (i_h H) k hc alpn skew (i_ed H) early kt group (i_kex H) (i_s2 H) (i_outs H) /\
    hc_data hc = i_tch H /\
    (exists m, encodeHandshake (MServerHello m) = Ok (i_sh H) /\
       hello_says m (n_version (i_n H)) (n_cipher (i_n H)) (match group, i_kex H with Some g, Some (b, _) => Some (g, b) | _, _ => None end)
         (match n_res (i_n H) with Some _ => true | None => false end) /\ hello_form (i_w H) m);
  pa_log : log = i_log H ++ hello_log (i_w H) (i_c H) (i_orig H) (i_outs H) ++ L;
  pa_neg : negotiated s = negotiated (i_s2 H) }.

Definition is_success (x : entry) : bool := match x with Emit OSuccess => true | _ => false end.
Definition presented (e : env) (L : list entry) (chain : list peercert) : Prop :=
  exists L1 w m o L2, L = L1 ++ Recv w (EvHandshake (MCertificate m) o) :: L2 /\ cm_context m = Some [] /\
    chain_of e true (cm_list m) chain /\ chain <> [].
Definition auth_done (e : env) (L : list entry) (s : sstate) (H : hist) : Prop :=
  (s_state (i_s2 H) <> SExpectingCertificate /\ s_clientCert s = s_clientCert (i_s2 H)) \/
  (s_state (i_s2 H) = SExpectingCertificate /\
   ((e_authMode e = AuthOptional /\ s_clientCert s = None) \/
    exists c, s_clientCert s = Some c /\ client_authenticated e (i_h H) (i_tsf H) L c)).

Record hs_inv (e : env) (log : list entry) (s : sstate) (H : hist) (L : list entry) : Prop := mkHI {
  hi_hctx : exists hc, s_hctx s = Some hc /\ hc_hash hc = i_h H /\ transcript e (i_h H) log (hc_data hc) /\ hc_data hc = i_tsf H ++ client_msgs L;
  hi_ks : exists k, s_ks s = Some (i_h H, k) /\ rel (i_h H) k (Master (i_psk H) (i_dh H), Some (i_tr H 0 0));
  hi_secret : s_clientHsSecret s = Some (i_chs H);
  hi_write : exists ws, s_write s = Some (WEnc LvAppTraffic ws) /\ keyed e (i_h H) (i_cipher H) (server_traffic (i_h H) (i_tr H 0 0)) (ws_aead ws);
  hi_quiet : count is_success log = 0%nat /\ count is_ku_recv log = 0%nat /\ count is_ku_sent log = 0%nat;
  hi_state : match s_state s with
    | SAcceptingEarlyData => s_state (i_s2 H) = SAcceptingEarlyData /\ s_clientCert s = s_clientCert (i_s2 H) /\
        read_keyed e (i_h H) (i_cipher H) (DeriveSecret (i_h H) (EarlySecret (i_h H) (i_psk H)) (str "c e traffic") (h_fn (i_h H) (i_tch H))) (s_read s) /\
        read_keyed e (i_h H) (i_cipher H) (i_chs H) (s_hsRead s) /\ count is_hs_recv L = 0%nat
    | SExpectingCertificate => s_state (i_s2 H) = SExpectingCertificate /\ s_clientCert s = None /\
        read_keyed e (i_h H) (i_cipher H) (i_chs H) (s_read s)
    | SExpectingCertificateVerify => s_state (i_s2 H) = SExpectingCertificate /\ s_clientCert s = None /\
        read_keyed e (i_h H) (i_cipher H) (i_chs H) (s_read s) /\ exists chain, s_chain s = Some chain /\ presented e L chain
    | SExpectingFinished => read_keyed e (i_h H) (i_cipher H) (i_chs H) (s_read s) /\ auth_done e L s H
    | _ => False
    end }.

Record data_inv (e : env) (log : list entry) (s : sstate) (H : hist) (L : list entry) : Prop := mkDI {
  di_state : s_state s = SAcceptingData;
  di_ks : exists k, s_ks s = Some (i_h H, k) /\ rel (i_h H) k (Start, Some (i_tr H (count is_ku_recv log) (count is_ku_sent log)));
  di_read : read_keyed e (i_h H) (i_cipher H) (client_traffic (i_h H) (i_tr H (count is_ku_recv log) (count is_ku_sent log))) (s_read s);
  di_write : exists ws, s_write s = Some (WEnc LvAppTraffic ws) /\
    keyed e (i_h H) (i_cipher H) (server_traffic (i_h H) (i_tr H (count is_ku_recv log) (count is_ku_sent log))) (ws_aead ws);
  di_auth : auth_done e L s H;
  di_success : count is_success log = 1%nat;
  di_resumption : exists L1 w vd orig L2 T, L = L1 ++ Recv w (EvHandshake (MFinished vd) orig) :: L2 /\ T = i_tsf H ++ client_msgs L1 /\
    vd = Some (verify_data (i_h H) (i_chs H) T) /\
    s_resumption s = DeriveSecret (i_h H) (MasterSecret (i_h H) (i_psk H) (i_dh H)) (str "res master") (h_fn (i_h H) (T ++ orig)) }.

Inductive phase (e : env) (log : list entry) (s : sstate) : Prop :=
| PhInit : s = s_init -> log = [] -> phase e log s
| PhHello : awaiting e log s -> phase e log s
| PhHs H L : past e log s H L -> hs_inv e log s H L -> phase e log s
| PhData H L : past e log s H L -> data_inv e log s H L -> phase e log s
| PhEnd : terminal s -> phase e log s.

(** ** Extending the log *)
Lemma count_app f a b : count f (a ++ b) = (count f a + count f b)%nat.
Proof. unfold count. rewrite filter_app, app_length. reflexivity. Qed.
Lemma past_ext e log s H L s' X : past e log s H L -> negotiated s' = negotiated s -> past e (log ++ X) s' H (L ++ X).
Proof.
  intros [P1 P2 P3 P4 P5 P6] E. constructor; try assumption.
  - rewrite P5, <- !app_assoc. reflexivity.
  - congruence.
Qed.
Lemma client_msgs_app a b : client_msgs (a ++ b) = client_msgs a ++ client_msgs b.
Proof. apply flat_map_app. Qed.
Lemma quiet_msgs X : forallb quiet X = true -> client_msgs X = [] /\ count is_hs_recv X = 0%nat.
Proof.
  induction X as [|x X IH]; cbn [forallb]; [auto|]. intros H. apply andb_true_iff in H. destruct H as [Hx H]. destruct (IH H) as [A B].
  destruct x as [w [m o|a|p|d]|o]; try discriminate; split; cbn; assumption.
Qed.
Lemma presented_ext e log X ch : presented e log ch -> presented e (log ++ X) ch.
Proof.
  intros (L1 & w & m & o & L2 & -> & A). exists L1, w, m, o, (L2 ++ X). split; [|exact A]. rewrite <- app_assoc. reflexivity.
Qed.
Lemma authenticated_ext e h Tsf log X c : client_authenticated e h Tsf log c -> client_authenticated e h Tsf (log ++ X) c.
Proof.
  intros (L1 & w1 & m & o1 & L2 & w2 & cv & o2 & L3 & leaf & rest & sig & -> & A).
  exists L1, w1, m, o1, L2, w2, cv, o2, (L3 ++ X), leaf, rest, sig. split; [|exact A]. rewrite <- !app_assoc. cbn. rewrite <- !app_assoc. reflexivity.
Qed.
Lemma auth_ext e log X s s' H : auth_done e log s H -> s_clientCert s' = s_clientCert s -> auth_done e (log ++ X) s' H.
Proof.
  intros [[A B]|[A [[B C]|(c & B & C)]]] E; [left|right|right]; rewrite ?E; auto.
  split; [exact A|]. right. exists c. split; [congruence|]. apply authenticated_ext, C.
Qed.
(** [X] is no transcript message, success or key update. *)
Definition plain_ext (X : list entry) : Prop :=
  forallb quiet X = true /\ count is_success X = 0%nat /\ count is_ku_recv X = 0%nat /\ count is_ku_sent X = 0%nat.
(** The parts of the state the invariant looks at, reading and writing excepted. *)
Definition frame_of (s : sstate) := (s_state s, s_hctx s, s_ks s, s_clientHsSecret s, s_hsRead s, s_clientCert s, s_chain s, s_resumption s).
Definition read_like (s s' : sstate) : Prop :=
  s_read s' = s_read s \/ exists r r', s_read s = Some r /\ s_read s' = Some r' /\ layer_key (ev_layer r') = layer_key (ev_layer r).
Definition write_like (s s' : sstate) : Prop :=
  s_write s' = s_write s \/ exists lv w w', s_write s = Some (WEnc lv w) /\ s_write s' = Some (WEnc lv w') /\ ws_aead w' = ws_aead w.
Lemma read_like_keyed s s' e h c sec : read_like s s' -> read_keyed e h c sec (s_read s) -> read_keyed e h c sec (s_read s').
Proof.
  intros [->|(r & r' & E1 & E2 & K)] H; [exact H|]. rewrite E1 in H. rewrite E2. eapply read_keyed_key; eassumption.
Qed.
Lemma write_like_keyed s s' e h c sec lv : write_like s s' ->
  (exists ws, s_write s = Some (WEnc lv ws) /\ keyed e h c sec (ws_aead ws)) ->
  exists ws, s_write s' = Some (WEnc lv ws) /\ keyed e h c sec (ws_aead ws).
Proof.
  intros [->|(lv' & w & w' & E1 & E2 & K)] (ws & A & B); [eauto|]. rewrite E1 in A. injection A as -> ->. exists w'. rewrite E2, K. auto.
Qed.
Lemma hs_ext e log s s' H L X : hs_inv e log s H L -> plain_ext X -> frame_of s' = frame_of s -> read_like s s' -> write_like s s' ->
  hs_inv e (log ++ X) s' H (L ++ X).
Proof.
  intros [I1 I2 I3 I4 (Q1 & Q2 & Q3) I6] (X1 & X2 & X3 & X4) F R W. unfold frame_of in F.
  assert (F1 : s_state s' = s_state s) by congruence. assert (F2 : s_hctx s' = s_hctx s) by congruence.
  assert (F3 : s_ks s' = s_ks s) by congruence. assert (F4 : s_clientHsSecret s' = s_clientHsSecret s) by congruence.
  assert (F5 : s_hsRead s' = s_hsRead s) by congruence. assert (F6 : s_clientCert s' = s_clientCert s) by congruence.
  assert (F7 : s_chain s' = s_chain s) by congruence.
  constructor.
  - rewrite F2. destruct I1 as (hc & A & B & C & D). exists hc. split; [exact A|]. split; [exact B|]. split; [apply transcript_quiet; assumption|].
    rewrite client_msgs_app, (proj1 (quiet_msgs _ X1)), app_nil_r. exact D.
  - rewrite F3. exact I2.
  - rewrite F4. exact I3.
  - eapply write_like_keyed; eassumption.
  - rewrite !count_app, Q1, Q2, Q3, X2, X3, X4. auto.
  - rewrite F1, F5, F6, F7. destruct (s_state s); try exact I6.
    + destruct I6 as (A & B & C). split; [exact A|]. split; [exact B|]. eapply read_like_keyed; eassumption.
    + destruct I6 as (A & B & C & D). split; [exact A|]. split; [exact B|]. split; [eapply read_like_keyed; eassumption|].
      destruct D as (ch & D1 & D2). exists ch. split; [exact D1|]. apply presented_ext, D2.
    + destruct I6 as (A & B & C & D). split; [exact A|]. split; [exact B|]. split; [eapply read_like_keyed; eassumption|].
      rewrite count_app, (proj2 (quiet_msgs _ X1)), Nat.add_0_r. exact D.
    + destruct I6 as (A & B). split; [eapply read_like_keyed; eassumption|]. eapply auth_ext; eassumption.
Qed.
Lemma data_ext e log s s' H L X : data_inv e log s H L -> count is_success X = 0%nat -> count is_ku_recv X = 0%nat -> count is_ku_sent X = 0%nat ->
  frame_of s' = frame_of s -> read_like s s' -> write_like s s' -> data_inv e (log ++ X) s' H (L ++ X).
Proof.
  intros [I1 I2 I3 I4 I5 I6 I7] X2 X3 X4 F R W. unfold frame_of in F.
  assert (F1 : s_state s' = s_state s) by congruence. assert (F2 : s_hctx s' = s_hctx s) by congruence.
  assert (F3 : s_ks s' = s_ks s) by congruence. 
  assert (F5 : s_hsRead s' = s_hsRead s) by congruence. assert (F6 : s_clientCert s' = s_clientCert s) by congruence.
  assert (F7 : s_resumption s' = s_resumption s) by congruence.
  constructor; rewrite ?count_app, ?X2, ?X3, ?X4, ?Nat.add_0_r.
  - congruence.
  - rewrite F3. exact I2.
  - eapply read_like_keyed; eassumption.
  - eapply write_like_keyed; eassumption.
  - eapply auth_ext; eassumption.
  - exact I6.
  - rewrite F7. destruct I7 as (L1 & w & vd & orig & L2 & T & A & B). exists L1, w, vd, orig, (L2 ++ X), T. split; [|exact B].
    rewrite A, <- app_assoc. reflexivity.
Qed.
Lemma awaiting_ext e log s X r : awaiting e log s -> forallb is_wait X = true -> s_read s <> None -> awaiting e (log ++ X) (upd_read s (Some r)).
Proof.
  intros [(r0 & -> & A)|(log1 & s1 & w & c & orig & s2 & outs & W & r0 & A1 & A2 & A3 & -> & A5 & ->)] HX _.
  - left. exists r. split; [reflexivity|]. rewrite forallb_app, A, HX. reflexivity.
  - right. exists log1, s1, w, c, orig, s2, outs, (W ++ X), r.
    split; [exact A1|]. split; [exact A2|]. split; [exact A3|]. split; [rewrite <- !app_assoc; reflexivity|].
    split; [rewrite forallb_app, A5, HX; reflexivity|reflexivity].
Qed.
