(** * C55: the PSKs a client obtains from tickets *)
From Verif Require Import Base Codec CodecSpec Str Hkdf HkdfSpec HkdfProofs KeySched KeySchedSpec KeySchedProofs Handshake Extensions RecordBase Record
  RecordRT ReadEvent HelloChecks Cookie Token Negotiate Ticket PskSer Kex Hpke Transcript IOBufUtil PropsIOBuf EchConfirm HpkeUtils EchCrypt Server
  ServerSpec ServerFacts ServerSteps ServerFlight ServerInv ServerPreserve ExtensionsSpec ExtensionsProofs PropsCodec PropsEch Client ClientSpec ClientSteps ClientHello
  ClientInv ClientAwait ClientFlight ClientPhase ClientPreserve ClientOrigin PropsClient PropsClient2 PropsClient3 ClientHelloSpec ClientSide.
Open Scope N_scope.

(** ** Specification *)
(** RFC 8446, 4.6.1: [p] is the PSK for the ticket [m], processed while the environment answered as [w], of a connection that performed a
    handshake with parameters [Q] (the ServerHello arriving at [wh]) whose resumption master secret is [rms]. *)
Record ticket_psk (w wh : cworld) (Q : cparams) (rms : bytes) (m : NewSessionTicket) (p : cpsk) : Prop := mkTP {
  tp_type : cp_type p = PskResumption;
  tp_ticket : nst_ticket m = Some (pk_psk (cp_psk p));
  tp_secret : exists nonce, nst_nonce m = Some nonce /\
    pk_secret (cp_psk p) = ExpandLabel (q_hash Q) rms (str "resumption") nonce (h_len (q_hash Q));
  tp_version : pk_version (cp_psk p) = q_version Q;
  tp_cipher : pk_cipher (cp_psk p) = q_cipher Q;
  tp_group : pk_group (cp_psk p) = match q_kex Q with Some (g, _, _) => Some g | None => None end;
  tp_age : pk_ageAdd (cp_psk p) = nst_age_add m;
  tp_issue : pk_issue (cp_psk p) = cw_now w;
  tp_expire : pk_expire (cp_psk p) = (cw_now2 w + Z.of_N (nst_lifetime m) * 1000000000)%Z;
  tp_time : pk_hsTime (cp_psk p) = match q_psk Q with Some p0 => pk_hsTime (cp_psk p0) | None => cw_now wh end;
  tp_early : (exists n, getExtension KTicketEarlyData (nst_extensions m) = Ok (Some (XTicketEarlyData n)) /\ pk_maxEarly (cp_psk p) = n) \/
    (getExtension KTicketEarlyData (nst_extensions m) = Ok None /\ pk_maxEarly (cp_psk p) = 0) }.

Lemma nonce_short h k0 rms nonce b : kget h k0 (GetResumption rms nonce) = Ok b -> blen nonce <= 255.
Proof.
  unfold kget. cbn [ks_step]. unfold expandLabel. cbv zeta. destruct (encodeHkdfLabel _ _ _ _) as [enc|e] eqn:E.
  - intros _. unfold encodeHkdfLabel in E. bo E a E1. bo E b' E2. bo E c E3. unfold write_buf in E3. bo E3 x E4.
    unfold write_len in E4. destruct (blen nonce <? lw_max W8) eqn:El; [|discriminate]. apply N.ltb_lt in El. change (lw_max W8) with 256 in El. lia.
  - cbn. discriminate.
Qed.
Lemma chk64_ok x y : chk64 x = Ok y -> y = x.
Proof. unfold chk64. destruct (int64 x); congruence. Qed.

(** ** C55 *)
(** A PSK is handed to the application only for a NewSessionTicket received after the handshake has been reported successful; it is the
    PSK RFC 8446 prescribes for that ticket and connection, for the server known from the handshake. *)
Theorem C55_ticket k l s L1 p L2 : cenv_ok k -> creach k l s (L1 ++ CEmit (KNewPsk p) :: L2) ->
  exists L w m orig L0 wh Q La w0 cn Tsf Tcf Lf Lr c,
    L1 = L ++ [CRecv w (EvHandshake (MNewSessionTicket m) orig)] /\
    cparts k L L0 wh Q La /\ connected L0 w0 cn /\ cfinished_in Q L Tsf Tcf /\ ccount cis_success L = 1%nat /\
    ticket_psk w wh Q (csecret_of Q Tsf Tcf KResumption 0) m p /\
    La = Lf ++ Lr /\ server_known k cn Q (L0 ++ [hello_entry wh Q]) Lf c /\ pk_server (cp_psk p) = c /\
    alpn_of L (pk_alpn (cp_psk p)) /\ (forall a, pk_alpn (cp_psk p) = Some a -> In a (k_alpns k)).
Proof.
  intros Hk Hr. destruct (cemit_full _ _ _ _ _ _ _ Hk Hr eq_refl) as [(log1 & s1 & w & ev & s2 & pre & post & L3 & HP & HS & HA & -> & HL3)|D].
  2:{ destruct D as [(n & [=])|[(a & [=])|(ct & [=] & _)]]. }
  remember (pre ++ KNewPsk p :: post) as outs eqn:Eo.
  destruct HA; try (destruct pre; discriminate); try (exfalso; apply one_elem in Eo; destruct Eo as (_ & _ & [=]); fail).
  - exfalso. destruct H2 as [->|(t & mx & x & ->)]; destruct pre as [|? [|? [|? [|? [|? ?]]]]]; discriminate.
  - exfalso. rewrite (ah_outs _ _ _ _ _ _ _ H3) in Eo. destruct pre as [|? [|? [|? ?]]]; discriminate.
  - exfalso. destruct H4 as [->|(n & cs & ->)]; [destruct pre; discriminate|]. apply one_elem in Eo. destruct Eo as (_ & _ & [=]).
  - exfalso. destruct H12 as [(-> & _)|(_ & _ & _ & _ & _ & [->|(al & -> & _)])]; unfold z_outs in Eo;
      destruct pre as [|? [|? [|? [|? [|? [|? [|? [|? ?]]]]]]]]; discriminate.
  - apply one_elem in Eo. destruct Eo as (-> & -> & E). assert (p0 = p) by congruence. subst p0. clear E.
    unfold handle_ticket in H3. destruct (xd_ks _ _ _ _ _ _ H2) as (kk & Hks & Hrel). rewrite Hks, (xd_resumption _ _ _ _ _ _ H2), (fx_version _ _ H1), (fx_cipher _ _ H1), (fx_time _ _ H1) in H3.
    bo H3 nonce En. bo H3 sec Es. bo H3 t Et. bo H3 xp Ex. bo H3 x Exx. cbv zeta in H3.
    assert (Hp : p = mkCpsk PskResumption (mkPsk t sec (q_version (y_Q G)) (q_cipher (y_Q G)) (g_group (c_neg s1)) (g_alpn (c_neg s1)) (nst_age_add m) (cw_now w) xp (g_server (c_neg s1)) (g_client (c_neg s1))
       match x with Some (XTicketEarlyData n) => n | _ => 0 end (match q_psk (y_Q G) with Some p => pk_hsTime (cp_psk p) | None => cw_now (y_w G) end))) by congruence.
    clear H3. pose proof (xd_log _ _ _ _ _ _ H2) as HL.
    assert (Hh : hash_ok (y_h G)) by (eapply (ko_hash k Hk), (co_hash _ _ _ _ (cp_of _ _ _ _ H0))).
    exists log1, w, m, orig, (y_L0 G), (y_w G), (y_Q G), L, (y_w0 G), (y_cn G), (z_Tsf F), (z_Tcf F), (z_L1 F), (z_entry G F :: map CEmit (z_outs G F ++ [KSuccess (z_early F)]) ++ L'), (z_server F).
    split; [cbn [centry_of map]; reflexivity|]. split; [apply past_parts; exact H0|]. split; [apply H0|]. split.
    { rewrite HL, map_app, <- app_assoc. eapply cfinished_in_of, H2. }
    split; [apply H2|]. split.
    { rewrite Hp. constructor; cbn [cp_type cp_psk pk_psk pk_secret pk_version pk_cipher pk_group pk_ageAdd pk_issue pk_expire pk_hsTime pk_maxEarly].
      - reflexivity.
      - unfold deref in Et. destruct (nst_ticket m); congruence.
      - exists nonce. split; [unfold deref in En; destruct (nst_nonce m); congruence|].
        assert (Hop : op_ok (y_h G) (GetResumption (z_resumption G F) nonce)).
        { split; [|eapply nonce_short, Es]. unfold z_resumption. apply DeriveSecret_len. exact Hh. }
        destruct (kget_rel _ _ _ _ _ Hh Hrel Hop Es) as (st' & E). cbn [spec_step fst snd] in E. injection E as _ <-. reflexivity.
      - reflexivity.
      - reflexivity.
      - apply H1.
      - reflexivity.
      - reflexivity.
      - apply chk64_ok in Ex. exact Ex.
      - reflexivity.
      - destruct x as [x|]; [|right; split; [exact Exx|reflexivity]].
        pose proof (getExtension_kind _ _ _ Exx) as Kx. destruct x; try discriminate. left. eexists. split; [exact Exx|reflexivity]. }
    split.
    { pose proof (cp_log _ _ _ _ H0) as E. rewrite HL in E. apply app_inv_head in E. symmetry. exact E. }
    split; [eapply cauthed_known; [eassumption|apply H2]|]. rewrite Hp. cbn [cp_psk pk_server pk_alpn]. split; [apply H2|].
    split; [|intros a Ha].
    { destruct (sided_hs k log1 s1) as (w0 & cn & s0 & outs0 & X & D); [unfold live; rewrite H; exact Logic.I|congruence|exact HS|].
      pose proof (sd_alpn _ _ _ _ _ _ _ _ D) as A. rewrite H in A. exact A. }
    pose proof (xd_alpn _ _ _ _ _ _ H2) as A. unfold calpn in A. rewrite Ha in A. exact A.
  - exfalso. destruct pre as [|? [|? [|? ?]]]; discriminate.
  - exfalso. destruct H7 as [(_ & E)|(_ & ws & ct & wl & E & _)]; rewrite E in Eo; destruct pre as [|? [|? [|? [|? ?]]]]; discriminate.
  - exfalso. destruct H3 as [(_ & ct & -> & _)|(_ & ->)]; destruct pre as [|? [|? [|? ?]]]; discriminate.
Qed.
