(** * C63: no peer can abort the client *)
From Verif Require Import Base Codec CodecSpec Str Hkdf HkdfSpec HkdfProofs KeySched Handshake Extensions RecordBase Record ReadEvent HelloChecks Cookie
  Token Negotiate Ticket PskSer Kex Hpke HpkeUtils EchCrypt Transcript IOBufUtil PropsRecord PropsKeys PropsHpke PropsTicket PropsCookie Server ServerSpec ServerFacts ServerSteps
  Client ClientSpec ClientSteps Crash Joint ServerCrash CrashParts ClientCrash PropsServerEx PropsEchCrypt PropsClient PropsClient5 PropsClientEx PropsCrash.
Open Scope N_scope.

Definition call_safe (p : cworld * cinput) : Prop := cworld_safe (fst p) /\ input_safe (snd p).
(** Whatever the peer sends and whenever the application calls, no CHECK fails, no null pointer is followed and no signed arithmetic
    overflows, provided the objects the application supplied keep the promises of [cenv_safe], [cworld_safe] and [conn_safe]. *)
Theorem C63_no_abort : forall k l s log, cenv_safe k -> Forall call_safe l -> creach k l s log -> c_state s <> CCrash.
Proof.
  intros k l s log Hk Hl Hr. unfold creach in Hr.
  assert (G : forall l s0 s1 L, Forall call_safe l -> cinv_safe k s0 -> clog k s0 l = (s1, L) -> cinv_safe k s1).
  { clear - Hk. induction l as [|[w i] l IH]; intros s0 s1 L Hl H0 E; cbn [clog] in E; [injection E as <- _; exact H0|]. inversion Hl as [|? ? [H1 H2] H3]; subst.
    pose proof (cstep_safe k Hk w s0 i H1 H2 H0) as St. destruct (cstep k w s0 i) as [s' o]. destruct (clog k s' l) as [s2 L2] eqn:E2. injection E as <- _.
    eapply IH; [eassumption|exact St|exact E2]. }
  pose proof (G _ _ _ _ Hl (cinit_safe k) Hr) as [_ H]. intros E. rewrite E in H. exact H.
Qed.

(** A PSK the client itself obtained keeps the promise when it is used for another connection. *)
Lemma log_inputs k : forall l s s' log, clog k s l = (s', log) ->
  (forall w i, In (CCall w i) log -> In (w, i) l) /\ (forall w ev, In (CRecv w ev) log -> exists i, In (w, i) l).
Proof.
  induction l as [|[w i] l IH]; intros s s' log E; cbn [clog] in E; [injection E as <- <-; split; intros ? ? []|].
  destruct (cstep k w s i) as [s1 o]. destruct (clog k s1 l) as [s2 L2] eqn:E2. injection E as <- <-. destruct (IH _ _ _ E2) as [I1 I2].
  assert (G : forall x, In x (cinput_log w s i ++ map CEmit o ++ L2) -> x = CCall w i \/ (exists ev, x = CRecv w ev) \/ (exists y, x = CEmit y) \/ In x L2).
  { intros x H. apply in_app_or in H. destruct H as [H|H].
    - unfold cinput_log in H. destruct (c_state s); try contradiction; destruct i;
        repeat match type of H with In _ (match ?y with _ => _ end) => destruct y end; try contradiction; destruct H as [<-|[]]; eauto.
    - apply in_app_or in H. destruct H as [H|H]; [|auto]. apply in_map_iff in H. destruct H as (y & <- & _). eauto. }
  split; intros ? ? H; destruct (G _ H) as [A|[(ev' & A)|[(y & A)|A]]]; try discriminate A.
  - injection A as -> ->. left; reflexivity.
  - right. exact (I1 _ _ A).
  - injection A as -> _. exists i. left; reflexivity.
  - destruct (I2 _ _ A) as (j & Hj). exists j. right; exact Hj.
Qed.
Theorem C63_own_psk : forall k l s L1 p L2, cenv_ok k -> Forall call_safe l -> creach k l s (L1 ++ CEmit (KNewPsk p) :: L2) ->
  (forall w cn q, In (w, JConnect cn) l -> cn_psk cn = Some q -> cp_type q <> PskResumption -> (- 2 ^ 62 <= pk_hsTime (cp_psk q) <= 2 ^ 62)%Z) ->
  timed p.
Proof.
  intros k l s L1 p L2 Hk Hl Hr Hx. destruct (C55_ticket _ _ _ _ _ _ Hk Hr) as (L & w & m & orig & L0 & wh & Q & La & w0 & cn & Tsf & Tcf & Lf & Lr & c & -> & P & C & _ & _ & T & _).
  destruct (log_inputs _ _ _ _ _ Hr) as [I1 I2]. rewrite Forall_forall in Hl.
  assert (Wn : (0 <= cw_now w < 2 ^ 62)%Z).
  { destruct (I2 w (EvHandshake (MNewSessionTicket m) orig)) as (i & Hi); [apply in_or_app; left; apply in_or_app; right; left; reflexivity|]. exact (cw_time _ (proj1 (Hl _ Hi))). }
  intros _. rewrite (tp_issue _ _ _ _ _ _ T), (tp_time _ _ _ _ _ _ T). split; [lia|].
  destruct P as [PL PH]. assert (Hw : (0 <= cw_now wh < 2 ^ 62)%Z).
  { unfold hello_entry in PL. edestruct (I2 wh) as (i & Hi); [rewrite PL, <- !app_assoc; apply in_or_app; right; left; reflexivity|]. exact (cw_time _ (proj1 (Hl _ Hi))). }
  destruct (q_psk Q) as [q|] eqn:Eq; [|lia]. pose proof (co_psk _ _ _ _ PH) as CP. rewrite Eq in CP. destruct CP as (w1 & cn1 & [L' EL] & Ec & _).
  assert (Hi : In (w1, JConnect cn1) l) by (apply I1; rewrite PL, EL; left; reflexivity).
  destruct (cp_type q) eqn:Et; try (apply (Hx _ _ _ Hi Ec); rewrite Et; discriminate).
  exact (proj2 (cc_psk _ (proj2 (Hl _ Hi)) _ Ec Et)).
Qed.

(** ** The hypotheses are met *)
Lemma toy_fac_safe : fac_safe ux_fac.
Proof.
  constructor; cbn.
  - intros f. apply tx_hash_ok.
  - intros; exact Logic.I.
  - intros c alg k iv [= <-]. exact (tagged_safe toy_tag).
Qed.
Lemma ux_env_safe shares : Forall (fun g => g < 2 ^ 16) shares -> cenv_safe (ux_env shares).
Proof.
  intros H. constructor; cbn [ux_env k_hash k_aead k_peerCert k_fac k_decompress k_getCert]; try (intros; exact Logic.I); try discriminate.
  - apply ux_env_ok, H.
  - intros c kl il mk k iv [= <- <- <-]. split; [exact Logic.I|]. intros a Ha. apply (tx_aead_safe _ _ _ Ha).
  - intros x l. unfold tx_peer. destruct (ce_data x); exact Logic.I.
  - intros x l p s c t sig E. unfold tx_peer in E. destruct (ce_data x); [|discriminate]. injection E as <-. cbn. destruct (bytes_eqb _ _); exact Logic.I.
  - exact toy_fac_safe.
  - intros f n l x [= <-]. exact Logic.I.
  - intros f n l x so s [= <-] [= <- _]. constructor; cbn; try (intros; exact Logic.I); try discriminate.
    intros m [= <-]. split; [discriminate|]. repeat constructor; discriminate.
Qed.
Lemma ux_w_safe : cworld_safe ux_w.
Proof.
  constructor; cbn; try exact Logic.I; try (split; [discriminate|reflexivity]); try (intros; exact Logic.I); try (repeat constructor; fail).
Qed.
Lemma ux_conn_safe p ech : (forall q, p = Some q -> timed q) -> (forall l, ech = Some l -> Forall (fun c => cfg_set c /\ ec_pk c <> None) l) -> conn_safe (ux_conn p ech).
Proof.
  intros Hp He. constructor; cbn [ux_conn cn_verifier cn_psk cn_ech]; [|exact Hp|exact He].
  intros f l [= <-]. unfold ux_verifier. destruct l; [exact Logic.I|]. destruct (bytes_eqb _ _); exact Logic.I.
Qed.
Lemma ux_psk_timed : timed ux_psk.
Proof. intros _. cbn [ux_psk cp_psk pk_issue pk_hsTime]. repeat split; discriminate. Qed.
Lemma toy_cfg_safe : cfg_set toy_cfg /\ ec_pk toy_cfg <> None.
Proof. split; [repeat constructor|discriminate]. Qed.
Definition move_safe (m : move) : Prop := match m with MClient w i => call_safe (w, i) | DClient w => cworld_safe w | _ => True end.
Lemma jrun_safe k e l : Forall move_safe l -> Forall call_safe (j_ci (jrun k e l)).
Proof.
  intros H. unfold jrun. assert (G : forall l j, Forall move_safe l -> Forall call_safe (j_ci j) -> Forall call_safe (j_ci (fold_left (jstep k e) l j))); [|apply G; [exact H|constructor]].
  clear. induction l as [|m l IH]; intros j Hl Hj; [exact Hj|]. inversion Hl as [|? ? Hm Hl']; subst. cbn [fold_left]. apply IH; [exact Hl'|].
  destruct m; cbn [jstep]; unfold jclient, jserver;
    match goal with |- context [match ?x with (_, _) => _ end] => destruct x end; cbn [j_ci]; try exact Hj; (apply Forall_app; split; [exact Hj|constructor; [|constructor]]).
  - exact Hm.
  - split; [exact Hm|exact Logic.I].
Qed.
Definition cstate_after (k : cenv) (e : env) (l : list move) : cst := c_state (j_c (jrun k e l)).
Lemma safe_joint k e l st : cenv_safe k -> Forall move_safe l -> cstate_after k e l = st ->
  exists is s log, cenv_safe k /\ Forall call_safe is /\ creach k is s log /\ c_state s = st.
Proof. intros Hk Hl E. exists (j_ci (jrun k e l)), (j_c (jrun k e l)), (j_cl (jrun k e l)). destruct (jrun_good k e l) as [A _]. pose proof (jrun_safe k e l Hl). auto. Qed.
Lemma mc_safe i : input_safe i -> move_safe (mc i). Proof. intros H. split; [exact ux_w_safe|exact H]. Qed.
Lemma dc_safe : move_safe (DClient ux_w). Proof. exact ux_w_safe. Qed.
Lemma plain_safe : conn_safe (ux_conn None None). Proof. apply ux_conn_safe; discriminate. Qed.
Lemma psk_safe : conn_safe (ux_conn (Some ux_psk) None). Proof. apply ux_conn_safe; [intros q [= <-]; exact ux_psk_timed|discriminate]. Qed.
Lemma psk_ech_safe : conn_safe (ux_conn (Some ux_psk) (Some [toy_cfg])).
Proof. apply ux_conn_safe; [intros q [= <-]; exact ux_psk_timed|intros l [= <-]; repeat constructor; apply toy_cfg_safe]. Qed.
Lemma ech_safe : conn_safe (ux_conn None (Some [toy_cfg])). Proof. apply ux_conn_safe; [discriminate|intros l [= <-]; repeat constructor; apply toy_cfg_safe]. Qed.
Ltac moves := unfold jx_full, jx_early, jx_retry, jx_ech, dc, ds, ms; cbn [repeat app firstn];
  repeat (constructor; [first [exact Logic.I | exact dc_safe | apply mc_safe; first [exact Logic.I | exact plain_safe | exact psk_safe | exact psk_ech_safe | exact ech_safe]]|]); constructor.
Lemma ux29_safe : cenv_safe (ux_env [29]). Proof. apply ux_env_safe. repeat constructor. Qed.
Lemma ux23_safe : cenv_safe (ux_env [23]). Proof. apply ux_env_safe. repeat constructor. Qed.
(** A full handshake with data, tickets, key updates and a close; resumption with early data; a retried handshake with Encrypted ClientHello; one whose
    Encrypted ClientHello is rejected. *)
Example C63_nonvacuous :
  (exists is s log, cenv_safe (ux_env [29]) /\ Forall call_safe is /\ creach (ux_env [29]) is s log /\ c_state s = CClosed) /\
  (exists is s log, cenv_safe (ux_env [29]) /\ Forall call_safe is /\ creach (ux_env [29]) is s log /\ c_state s = CEstablished) /\
  (exists is s log, cenv_safe (ux_env [23]) /\ Forall call_safe is /\ creach (ux_env [23]) is s log /\ c_state s = CEstablished) /\
  (exists is s log, cenv_safe (ux_env [29]) /\ Forall call_safe is /\ creach (ux_env [29]) is s log /\ c_state s = CError).
Proof.
  split; [|split; [|split]].
  - apply (safe_joint _ (vx_env AuthRequired None) jx_full); [exact ux29_safe|moves|vm_compute; reflexivity].
  - apply (safe_joint _ vx_ech (jx_ech (Some ux_psk))); [exact ux29_safe|moves|vm_compute; reflexivity].
  - apply (safe_joint _ vx_ech (jx_ech None)); [exact ux23_safe|moves|vm_compute; reflexivity].
  - apply (safe_joint _ vx_other (jx_ech None)); [exact ux29_safe|moves|vm_compute; reflexivity].
Qed.
Example C63_own_psk_nonvacuous : exists l s L1 p L2, cenv_ok (ux_env [29]) /\ Forall call_safe l /\ creach (ux_env [29]) l s (L1 ++ CEmit (KNewPsk p) :: L2) /\
  (forall w cn q, In (w, JConnect cn) l -> cn_psk cn = Some q -> cp_type q <> PskResumption -> (- 2 ^ 62 <= pk_hsTime (cp_psk q) <= 2 ^ 62)%Z).
Proof.
  assert (H : existsb (fun y => match y with CEmit (KNewPsk _) => true | _ => false end) (j_cl (jrun (ux_env [29]) (vx_env AuthRequired None) jx_full)) = true) by (vm_compute; reflexivity).
  assert (N : forallb (fun p => match p with (_, JConnect cn) => match cn_psk cn with None => true | _ => false end | _ => true end)
    (j_ci (jrun (ux_env [29]) (vx_env AuthRequired None) jx_full)) = true) by (vm_compute; reflexivity).
  assert (M : Forall move_safe jx_full) by moves. pose proof (jrun_safe (ux_env [29]) (vx_env AuthRequired None) _ M) as S. clear M.
  destruct (jrun_good (ux_env [29]) (vx_env AuthRequired None) jx_full) as [A _]. destruct (jrun _ _ _) as [ci c cl c2s si s sl s2c]. cbn [j_ci j_c j_cl] in *.
  apply existsb_exists in H. destruct H as (y & Hin & Hy). apply in_split in Hin. destruct Hin as (L1 & L2 & ->). destruct y as [| |[]]; try discriminate Hy.
  exists ci, c, L1, p, L2. split; [exact ux29|]. split; [exact S|]. split; [exact A|]. intros w cn q Hi Hq. rewrite forallb_forall in N. specialize (N _ Hi). cbn in N. rewrite Hq in N. discriminate.
Qed.

(** ** Without the promises it does abort: a stored PSK whose handshake time is 2^63 ns ago, or a clock so late that a ticket's lifetime overflows *)
Definition old_psk : cpsk := mkCpsk PskResumption (mkPsk (str "ticket") tx_secret 772 4867 (Some 29) (Some (str "h2")) 5 1000000 90000000000
  (Some (tx_cert 1)) (Some (tx_cert 9)) 1000 (- 2 ^ 63)%Z).
Definition late_w : cworld := mkCWorld (2 ^ 63 - 1) (2 ^ 63 - 1) (Ok (be 32 3)) (Ok (be 32 33)) (Ok (be 32 1))
  (fun g => Ok (mkKex (Ok (be 4 9)) (fun theirs => Ok (be 4 (9 + unbe theirs))) 4)) (fun _ => Ok (toy_dh 3))
  (fun n i => repeat x2a (N.to_nat n)) (fun _ => Err EThrow) (Ok []) (fun _ => Ok tt).
Definition jx_late : list move :=
  [ms IAccept; mc (JConnect (ux_conn None None))] ++ ds 1 ++ dc 6 ++ ds 4 ++ [DClient late_w].
Example C63_needs_times :
  cstate_after (ux_env [29]) (vx_env AuthNone None) [mc (JConnect (ux_conn (Some old_psk) None))] = CCrash /\
  cstate_after (ux_env [29]) (vx_env AuthRequired None) jx_late = CCrash.
Proof. split; vm_compute; reflexivity. Qed.

Print Assumptions C63_no_abort.
Print Assumptions C63_own_psk.
