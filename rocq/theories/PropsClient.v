(** * C48, C49: what success means for a client, and what it agreed to *)
From Verif Require Import Base Codec CodecSpec Str Hkdf HkdfSpec HkdfProofs KeySched KeySchedSpec KeySchedProofs Handshake Extensions RecordBase Record
  RecordRT ReadEvent HelloChecks Cookie Token Negotiate Ticket PskSer Kex Hpke Transcript IOBufUtil PropsIOBuf EchConfirm HpkeUtils EchCrypt Server
  ServerSpec ServerFacts ServerSteps ServerFlight ServerInv ServerPreserve ExtensionsSpec ExtensionsProofs PropsCodec PropsEch Client ClientSpec ClientSteps ClientHello
  ClientInv ClientAwait ClientFlight ClientPhase ClientPreserve ClientOrigin.
Open Scope N_scope.

(** ** Specification *)
(** The server is known as [c]: either it proved, by using it, that it knows a PSK the application supplied, and [c] is who that PSK is
    for; or it presented a certificate chain, signed the transcript, and the chain was accepted as [c].  [L0] ends with the ServerHello,
    [L] is what follows. *)
Definition server_known (k : cenv) (cn : conn) (Q : cparams) (L0 L : list centry) (c : option cert) : Prop :=
  (exists p, q_psk Q = Some p /\ cn_psk cn = Some p /\ pskAccepted (cp_type p) = true /\ c = pk_server (cp_psk p)) \/
  (exists c', c = Some c' /\ server_authenticated k cn (q_hash Q) (q_hs Q) L0 L c').
(** The log consists of [L0], the ServerHello with parameters [Q], and [L]. *)
Definition hello_entry (w : cworld) (Q : cparams) : centry := CRecv w (EvHandshake (MServerHello (q_msg Q)) (q_sh Q)).
Definition cparts (k : cenv) (log L0 : list centry) (w : cworld) (Q : cparams) (L : list centry) : Prop :=
  log = L0 ++ hello_entry w Q :: L /\ chandshake_of k L0 w Q.
(** Encrypted ClientHello was accepted if it was asked for, and only then. *)
Definition ech_as_asked (cn : conn) (Q : cparams) : Prop := q_ech Q = true <-> cn_ech cn <> None.

Lemma connected_psk k L w Q w0 cn p : chandshake_of k L w Q -> connected L w0 cn -> q_psk Q = Some p -> cn_psk cn = Some p.
Proof.
  intros H (L' & ->) E. pose proof (co_psk _ _ _ _ H) as P. rewrite E in P. destruct P as (w1 & cn1 & (L1 & E1) & A & _).
  assert (cn1 = cn) by congruence. congruence.
Qed.
Lemma past_parts k log G L : cpast k log G L -> cparts k log (y_L0 G) (y_w G) (y_Q G) L.
Proof. intros P. split; [|apply P]. rewrite (cp_log _ _ _ _ P). unfold y_pre. rewrite <- app_assoc. reflexivity. Qed.
Lemma cauthed_known k log G L L1 c : cpast k log G L -> cauthed k G L1 c -> server_known k (y_cn G) (y_Q G) (y_pre G) L1 c.
Proof.
  intros P [(p & A & B & C)|(A & c' & B & C)]; [left|right; exists c'; auto].
  exists p. split; [exact A|]. split; [|auto]. eapply connected_psk; [apply P|apply P|exact A].
Qed.
Lemma csplit_success G F tail pre b post : (tail = [KSuccess (z_early F)] \/ (forall b, ~ In (KSuccess b) tail)) ->
  z_outs G F ++ tail = pre ++ KSuccess b :: post -> tail = [KSuccess (z_early F)] /\ pre = z_outs G F /\ b = z_early F /\ post = [].
Proof.
  intros Ht E. unfold z_outs in *.
  destruct pre as [|a1 [|a2 [|a3 [|a4 [|a5 pre]]]]]; cbn [app] in E; try discriminate; injection E as <- <- <- <- <- E.
  destruct Ht as [->|Hn].
  - apply one_elem in E. destruct E as (-> & -> & [= ->]). auto.
  - exfalso. eapply (Hn b). rewrite E. apply in_or_app. right. left. reflexivity.
Qed.
Lemma tail_cases G s' F tail :
    ((tail = [KSuccess (z_early F)] /\ (cn_ech (y_cn G) <> None -> q_ech (y_Q G) = true) /\ c_state s' = CEstablished) \/
     (c_state s' = CError /\ c_write s' = None /\ c_read s' = None /\ q_ech (y_Q G) = false /\ cn_ech (y_cn G) <> None /\
      (tail = [KError (Some al_ech_required)] \/ exists al, tail = [KWrite [al]; KError (Some al_ech_required)] /\ ct_type al = 21))) ->
    tail = [KSuccess (z_early F)] \/ (forall b, ~ In (KSuccess b) tail).
Proof.
  intros [(A & _)|(_ & _ & _ & _ & _ & [->|(al & -> & _)])]; [left; exact A|right|right]; intros b Hin; cbn in Hin; intuition discriminate.
Qed.

(** ** C48 *)
(** Success is reported only right after a Finished message whose verify_data is the one RFC 8446 (4.4.4) prescribes for the whole
    transcript and the server handshake traffic secret of the connection's parameters; only if the server has proved who it is; only if
    Encrypted ClientHello was accepted when the application asked for it; and only once. *)
Theorem C48_success k l s L1 early L2 : cenv_ok k -> creach k l s (L1 ++ CEmit (KSuccess early) :: L2) ->
  exists L w vd orig pre L0 wh Q La w0 cn T c,
    L1 = L ++ CRecv w (EvHandshake (MFinished (Some vd)) orig) :: map CEmit pre /\
    cparts k L L0 wh Q La /\ connected L0 w0 cn /\
    ctrans (q_hash Q) L (q_hs Q) T /\ vd = verify_data (q_hash Q) (q_shs Q) T /\
    server_known k cn Q (L0 ++ [hello_entry wh Q]) La c /\
    ech_as_asked cn Q /\ ccount cis_success L1 = 0%nat.
Proof.
  intros Hk Hr. destruct (cemit_acts _ _ _ _ _ _ _ Hk Hr eq_refl) as [(l1 & s0 & log1 & s1 & w & ev & s2 & pre & post & L3 & Hr1 & _ & _ & HP & HA & -> & HL3)|D].
  2:{ destruct D as [(n & [=])|[(a & [=])|(ct & [=] & _)]]. }
  remember (pre ++ KSuccess early :: post) as outs eqn:Eo.
  destruct HA.
  - exfalso. destruct H2 as [->|(t & mx & x & ->)]; destruct pre as [|? [|? [|? [|? [|? ?]]]]]; discriminate.
  - apply one_elem in Eo. destruct Eo as (_ & _ & [=]).
  - exfalso. rewrite (ah_outs _ _ _ _ _ _ _ H3) in Eo. destruct pre as [|? [|? [|? ?]]]; discriminate.
  - exfalso. destruct H4 as [->|(n & cs & ->)]; [destruct pre; discriminate|]. apply one_elem in Eo. destruct Eo as (_ & _ & [=]).
  - destruct pre; discriminate.
  - destruct (csplit_success _ _ _ _ _ _ (tail_cases _ _ _ _ H12) Eo) as (Et & -> & -> & ->).
    exists log1, w, (verify_data (y_h G) (q_shs (y_Q G)) (z_T F)), orig, (z_outs G F), (y_L0 G), (y_w G), (y_Q G), L, (y_w0 G), (y_cn G), (z_T F), (z_server F).
    split; [rewrite H4; reflexivity|]. split; [apply past_parts; assumption|]. split; [apply H0|].
    split. { pose proof (zf_before _ _ _ H10) as B. rewrite H5, <- (cp_log _ _ _ _ H0) in B. exact B. }
    split; [reflexivity|]. split. { eapply cauthed_known; [eassumption|]. rewrite <- H5. apply H10. }
    split.
    { destruct H12 as [(_ & A & _)|(_ & _ & _ & _ & _ & [->|(al & -> & _)])]; try discriminate. split; [apply (cp_ech _ _ _ _ H0)|exact A]. }
    rewrite ccount_app. destruct (xi_quiet _ _ _ _ _ H2) as (-> & _). reflexivity.
  - apply one_elem in Eo. destruct Eo as (_ & _ & [=]).
  - apply one_elem in Eo. destruct Eo as (_ & _ & [=]).
  - apply one_elem in Eo. destruct Eo as (_ & _ & [=]).
  - apply one_elem in Eo. destruct Eo as (_ & _ & [=]).
  - apply one_elem in Eo. destruct Eo as (_ & _ & [=]).
  - destruct pre as [|? [|? [|? ?]]]; discriminate.
  - destruct H7 as [(_ & ->)|(_ & ws & ct & wl & -> & _)]; destruct pre as [|? [|? [|? [|? ?]]]]; discriminate.
  - destruct H3 as [(_ & ct & -> & _)|(_ & ->)]; destruct pre as [|? [|? [|? ?]]]; discriminate.
Qed.
Lemma last_success L : (0 < ccount cis_success L)%nat -> exists L1 b L2, L = L1 ++ CEmit (KSuccess b) :: L2 /\ ccount cis_success L2 = 0%nat.
Proof.
  induction L as [|x L IH] using rev_ind; intros E; [cbv in E; lia|].
  destruct (cis_success x) eqn:Ex.
  - destruct x as [| |o]; try discriminate. destruct o; try discriminate. eexists L, _, []. split; reflexivity.
  - rewrite ccount_app in E. assert (E0 : ccount cis_success [x] = 0%nat) by (unfold ccount; cbn; rewrite Ex; reflexivity). rewrite E0, Nat.add_0_r in E.
    destruct (IH E) as (L1 & b & L2 & -> & E2). exists L1, b, (L2 ++ [x]). split; [rewrite <- app_assoc; reflexivity|]. rewrite ccount_app, E2, E0. reflexivity.
Qed.
Corollary C48_once k l s log : cenv_ok k -> creach k l s log -> (ccount cis_success log <= 1)%nat.
Proof.
  intros Hk Hr. destruct (ccount cis_success log) as [|n] eqn:E; [lia|].
  destruct (last_success log ltac:(lia)) as (L1 & b & L2 & -> & E2).
  destruct (C48_success _ _ _ _ _ _ Hk Hr) as (? & ? & ? & ? & ? & ? & ? & ? & ? & ? & ? & ? & ? & _ & _ & _ & _ & _ & _ & _ & C).
  rewrite ccount_app, C in E. unfold ccount in E, E2. cbn [filter cis_success length] in E. lia.
Qed.

(** ** C49 *)
(** Once the connection is established, the parameters its state reports are those of the ServerHello, all of which the client offered
    ([cparts], [chandshake_of]); the server certificate it reports is that of the authenticated server; the application protocol is one
    the client offered. *)
Theorem C49_parameters k l s log : cenv_ok k -> creach k l s log -> c_state s = CEstablished ->
  exists L0 w Q La w0 cn, cparts k log L0 w Q La /\ connected log w0 cn /\
    g_version (c_neg s) = Some (q_version Q) /\ g_cipher (c_neg s) = Some (q_cipher Q) /\
    g_group (c_neg s) = match q_kex Q with Some (g, _, _) => Some g | None => None end /\
    server_known k cn Q (L0 ++ [hello_entry w Q]) La (g_server (c_neg s)) /\
    match g_alpn (c_neg s) with Some n => In n (k_alpns k) | None => k_requireAlpn k = false end /\
    ech_as_asked cn Q.
Proof.
  intros Hk Hr Hs. pose proof (creach_phase _ _ _ _ Hk Hr) as HP. destruct (cphase_data _ _ _ HP Hs) as (G & F & L & L' & P & X & I).
  exists (y_L0 G), (y_w G), (y_Q G), L, (y_w0 G), (y_cn G). split; [apply past_parts, P|].
  split; [rewrite (cp_log _ _ _ _ P); unfold y_pre; apply connected_app, connected_app, P|].
  split; [apply X|]. split; [apply X|]. split; [apply X|]. split.
  { rewrite (xd_server _ _ _ _ _ _ I). eapply cauthed_known; [exact P|]. pose proof (xd_log _ _ _ _ _ _ I) as E. rewrite (cp_log _ _ _ _ P) in E.
    apply app_inv_head in E. rewrite E. apply cauthed_ext, (xd_fin _ _ _ _ _ _ I). }
  split; [apply I|]. split; [apply (cp_ech _ _ _ _ P)|apply I].
Qed.
