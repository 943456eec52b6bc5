(** * The invariant of a client connection: the ServerHello *)
From Verif Require Import Base Codec CodecSpec Str Hkdf HkdfSpec HkdfProofs KeySched KeySchedSpec KeySchedProofs Handshake Extensions RecordBase Record
  RecordRT ReadEvent HelloChecks Cookie Token Negotiate Ticket PskSer Kex Hpke Transcript IOBufUtil PropsIOBuf EchConfirm HpkeUtils EchCrypt Server
  ServerSpec ServerFacts ServerSteps ServerFlight ServerInv ServerPreserve ExtensionsSpec ExtensionsProofs PropsCodec PropsEch Client ClientSpec ClientSteps ClientHello
  ClientInv ClientAwait.
Open Scope N_scope.

Lemma getExtension_kind k l x : getExtension k l = Ok (Some x) -> kind_of x = k.
Proof.
  unfold getExtension. destruct (findExtension (kind_type k) l) as [e|]; [|discriminate]. destruct (ext_data e) as [d|]; [|discriminate].
  intros H. apply bind_Ok in H. destruct H as ((y & rest) & E & H). cbv beta iota in H. apply read_ext_inv in E. destruct E as (E & _).
  destruct (checks_end k); [destruct rest; [|discriminate]|]; congruence.
Qed.
Definition kex_opt (x : option (N * bytes * kex)) : option (N * bytes) := match x with Some (g, b, _) => Some (g, b) | None => None end.
Lemma shParams_ok k m kexs v c x : shParams k m kexs = Ok (v, c, x) ->
  In v (k_versions k) /\ In c (k_ciphers k) /\ c = sh_suite m /\
  getExtension KServerSupportedVersions (sh_extensions m) = Ok (Some (XServerSupportedVersions v)) /\
  getExtension KServerKeyShare (sh_extensions m) = Ok (match kex_opt x with Some (g, b) => Some (XServerKeyShare (g, Some b)) | None => None end) /\
  (forall g b kx, x = Some (g, b, kx) -> In (g, kx) kexs).
Proof.
  unfold shParams. intros H. apply bind_Ok in H. destruct H as ((v' & c') & E & H). cbv beta iota in H.
  apply versionAndCipher_ok in E. destruct E as (_ & _ & -> & V1 & V2 & V3). bo H y Ey.
  destruct y as [y|].
  - pose proof (getExtension_kind _ _ _ Ey) as Hk. destruct y; try discriminate. match goal with p : (N * buf)%type |- _ => destruct p as [g b] end.
    destruct (findKex g kexs) as [kx|] eqn:Ef; [|discriminate]. bo H d Ed. apply deref_ok in Ed. injection H as <- <- <-. subst b. cbn [kex_opt].
    repeat (split; [assumption || reflexivity|]). intros g0 b0 kx0 [= <- <- <-]. apply findKex_In, Ef.
  - injection H as <- <- <-. cbn [kex_opt]. repeat (split; [assumption || reflexivity|]). discriminate.
Qed.
Lemma negotiatePsk_ok k p m v c exchange pt mode sc cc : negotiatePsk k p m v c exchange = Ok (pt, mode, sc, cc) ->
  match mode with
  | Some md => exists q, p = Some q /\ getExtension KServerPresharedKey (sh_extensions m) = Ok (Some (XServerPresharedKey 0)) /\
      v = pk_version (cp_psk q) /\ same_hash (pk_cipher (cp_psk q)) c /\ md = (if exchange then 1 else 0) /\ In md (k_pskModes k) /\ pt = cp_type q /\
      sc = pk_server (cp_psk q) /\ cc = pk_client (cp_psk q)
  | None => getExtension KServerPresharedKey (sh_extensions m) = Ok None /\ pskAccepted pt = false /\ sc = None /\ cc = None
  end.
Proof.
  unfold negotiatePsk. intros H. bo H x Ex. destruct p as [q|].
  - destruct x as [x|].
    + destruct x; try discriminate. bo H u1 E1. bo H u2 E2. bo H a Ea. bo H b Eb. bo H u3 E3. cbv zeta in H. bo H u4 E4.
      apply ensure_ok in E1, E2, E3, E4. apply N.eqb_eq in E1, E2, E3. apply mem_In in E4. subst. injection H as <- <- <- <-.
      exists q. split; [reflexivity|]. split; [exact Ex|]. split; [reflexivity|]. split; [exists b; auto|]. auto 10.
    + injection H as <- <- <- <-. auto.
  - destruct x; [discriminate|]. injection H as <- <- <- <-. split; [exact Ex|]. destruct (nonempty _); auto.
Qed.
Lemma buf_eqb_ok a b : buf_eqb a b = true -> a = b.
Proof. destruct a, b; cbn; try discriminate; auto. intros H. f_equal. apply bytes_eqb_eq. exact H. Qed.
Lemma consistent_ok g v c u : consistent g v c = Ok u -> (forall x, g_version g = Some x -> x = v) /\ (forall x, g_cipher g = Some x -> x = c).
Proof.
  unfold consistent. intros H. bo H u1 E1. apply ensure_ok in E1, H. split.
  - intros x Ex. rewrite Ex in E1. apply N.eqb_eq, E1.
  - intros x Ex. rewrite Ex in H. apply N.eqb_eq, H.
Qed.

(** What the client knows after the ServerHello. *)
Definition ech_status (Q : cparams) : cechst := if q_ech Q then CxAccepted else CxRejected.
Record after_hello (k : cenv) (L : list centry) (A : awd) (w : cworld) (Q : cparams) (s : cstate) (outs : list cout) : Prop := mkAH {
  ah_of : chandshake_of k L w Q;
  ah_state : c_state s = CExpectingEncryptedExtensions;
  ah_hctx : c_hctx s = Some (mkHc (q_hash Q) (q_Tsh Q));
  ah_ks : exists kk, c_ks s = Some (q_hash Q, kk) /\ rel (q_hash Q) kk (Handshake (q_secret Q) (q_dh Q), None);
  ah_secrets : c_secrets s = Some (q_chs Q, q_shs Q);
  ah_read : cread_keyed k (q_hash Q) (q_cipher Q) (q_shs Q) (c_read s);
  ah_write : cwrite_keyed k (q_hash Q) (q_cipher Q) (q_chs Q) LvHandshake (c_write s);
  ah_neg : g_version (c_neg s) = Some (q_version Q) /\ g_cipher (c_neg s) = Some (q_cipher Q);
  ah_group : g_group (c_neg s) = match q_kex Q with Some (g, _, _) => Some g | None => None end;
  ah_psk : exists pt, g_psk (c_neg s) = Some pt /\
    match q_psk Q with Some p => pt = cp_type p | None => pskAccepted pt = false end;
  ah_server : g_server (c_neg s) = match q_psk Q with Some p => pk_server (cp_psk p) | None => None end;
  ah_client : g_client (c_neg s) = match q_psk Q with Some p => pk_client (cp_psk p) | None => None end;
  ah_time : g_hsTime (c_neg s) = Some (match q_psk Q with Some p => pk_hsTime (cp_psk p) | None => cw_now w end);
  ah_verifier : exists hl, c_hello s = Some hl /\ h_verifier hl = cn_verifier (a_cn A) /\ h_exts hl = cn_exts (a_cn A) /\ h_psk hl = None;
  ah_ech : match c_ech s with Some e => ec_status e = ech_status Q /\ cn_ech (a_cn A) <> None | None => q_ech Q = false /\ cn_ech (a_cn A) = None end;
  ah_rejected : q_ech Q = false -> cn_ech (a_cn A) <> None -> forall p, q_psk Q = Some p -> pskAccepted (cp_type p) = false;
  ah_none : c_exporter s = None /\ c_resumption s = None;
  ah_outs : outs = [KSecret (KTraffic SkServerHs) (q_shs Q); KSecret (KTraffic SkClientHs) (q_chs Q)] }.
Lemma hello_is_last k kexs sid rnd b hs : hello_is k kexs sid rnd b -> exists c, last_hello (hs ++ [b]) c /\ offers k c /\ shares_in kexs c /\ ch_session_id c = Some sid /\ ch_random c = rnd.
Proof. intros (c & E & H). exists c. split; [exists hs, b; auto|exact H]. Qed.
Lemma retries_In L w m o X : filter is_retry L = X -> In (CRecv w (EvHandshake (MHelloRetryRequest m) o)) L -> In (CRecv w (EvHandshake (MHelloRetryRequest m) o)) X.
Proof. intros <- H. apply filter_In. auto. Qed.

Lemma server_hello_facts k L s A w m orig s' outs : cenv_ok k -> await k L s A -> handle_server_hello k w s m orig = Ok (s', outs) ->
  exists Q, q_msg Q = m /\ q_sh Q = orig /\ after_hello k L A w Q s' outs.
Proof.
  intros Hk [W1 W2 W3 W4 W5 W6 W7 W8 W9 W10 W11 W12] H. unfold handle_server_hello in H.
  destruct W6 as (Q1 & Q2 & Q2' & Q3 & Q4). rewrite Q1 in H. destruct (h_req (a_hl A)) as [req|]; [|discriminate]. rewrite Q3 in H.
  bo H u0 E0. apply bind_Ok in H. destruct H as (((version & cipher) & exchange) & Esp & H). cbv beta iota in H.
  destruct (shParams_ok _ _ _ _ _ _ Esp) as (V1 & V2 & V3 & V4 & V5 & V6).
  bo H u1 E1. apply ensure_ok, buf_eqb_ok in E1. bo H u2 E2. destruct (consistent_ok _ _ _ _ E2) as (N1 & N2).
  apply bind_Ok in H. destruct H as ((((pt & mode) & scert) & ccert) & Enp & H). cbv beta iota in H. apply negotiatePsk_ok in Enp.
  bo H u3 E3. apply ensure_ok in E3. bo H h Eh. assert (Hh : hash_ok h) by (eapply (ko_hash k Hk), Eh).
  bo H k1 Ek1. apply bind_Ok in H. destruct H as (((k2 & group) & kt) & Ek2 & H). cbv beta iota in H.
  apply bind_Ok in H. destruct H as ((hc & ehc) & Ehc & H). cbv beta iota in H.
  apply bind_Ok in H. destruct H as ((hc' & status) & Est & H). cbv beta iota in H.
  bo H u4 E4. apply ensure_ok in E4. cbv zeta in H. bo H u5 E5. bo H ws Ews. bo H wl Ewl. bo H rs Ers. bo H rl Erl. bo H hsTime Eht. injection H as <- <-.
  (* the transcripts *)
  set (acc := match status with Some CxAccepted => true | _ => false end).
  assert (Hst : match c_ech s with Some e => status = Some (if acc then CxAccepted else CxRejected) | None => status = None end).
  { destruct (c_ech s) as [e|]; [|injection Est as _ <-; reflexivity]. destruct ehc as [ec|]; [|discriminate]. bo Est ac Eac. bo Est u6 E6.
    subst acc. destruct ac; injection Est as _ <-; reflexivity. }
  set (started := fun (l : list bytes) (T : bytes) => match l with
    | [b] => T = b
    | [b0; b] => exists w m o, In (CRecv w (EvHandshake (MHelloRetryRequest m) o)) L /\ T = message_hash (h_fn h b0) ++ o ++ b
    | _ => False end).
  assert (HT : exists hs b, ctrans h L (hs ++ [b]) (hc_data hc') /\ started (hs ++ [b]) (hc_data hc') /\ hc_hash hc' = h /\ hellos_used k L acc (hs ++ [b]) /\
     (exists rnd, hello_is k (a_kexs A) (h_sid (a_hl A)) rnd b) /\
     (acc = true -> exists e, c_ech s = Some e /\ hello_is k (a_kexs A) (h_sid (a_hl A)) (ec_random e) b /\ checkAcceptSH hc' h (ec_random e) m = Ok true)).
  { assert (Hout : exists hs, ctrans h L (hs ++ [a_enc A]) (hc_data hc) /\ started (hs ++ [a_enc A]) (hc_data hc) /\ hc_hash hc = h /\ hs ++ [a_enc A] = hellos_sent L).
    { destruct W12 as [[B1 B2 B3 B4 B5 B6 B6']|[(w1 & m1 & orig1 & v1 & h1 & hc1 & e1 & B1 & B2 & B3 & B4 & B5 & B6 & B7 & B8 & B9 & B10 & B10' & B11)]].
      - rewrite B2, Q4 in Ehc. cbn [deref bind] in Ehc. bo Ehc x Ex. injection Ehc as <- _. exists []. cbn. auto.
      - rewrite B7 in Ehc. injection Ehc as <- _. rewrite (N2 _ B4) in B6. assert (Hx : h1 = h) by congruence. rewrite Hx in B8, B9, B10'. exists [e1]. cbn [app]. rewrite B10. split; [exact B9|]. split; [|auto].
        exists w1, m1, orig1. split; [eapply proj1, filter_In; rewrite B1; left; reflexivity|]. rewrite B10'. unfold retry_start. rewrite <- app_assoc. reflexivity. }
    destruct (c_ech s) as [e|] eqn:Ee.
    2:{ injection Est as <- <-. destruct Hout as (hs & O1 & O0 & O2 & O3). exists hs, (a_enc A). subst acc. split; [exact O1|]. split; [exact O0|]. split; [exact O2|]. split; [exact O3|]. split; [exact W9|discriminate]. }
    destruct W10 as (We & i & Ei & Hi). destruct ehc as [ec|]; [|discriminate]. bo Est ac Eac. bo Est u6 E6.
    destruct ac.
    - injection Est as <- <-. subst acc. cbn [hellos_used].
      assert (Hin : exists hs, ctrans h L (hs ++ [i]) (hc_data ec) /\ started (hs ++ [i]) (hc_data ec) /\ hc_hash ec = h /\ Forall2 (carries k (ec_neg e)) (hs ++ [i]) (hellos_sent L)).
      { destruct W12 as [[B1 B2 B3 B4 B5 B6 B6']|[(w1 & m1 & orig1 & v1 & h1 & hc1 & e1 & B1 & B2 & B3 & B4 & B5 & B6 & B7 & B8 & B9 & B10 & B10' & B11)]].
        - rewrite B2, Q4, Ei in Ehc. cbn [deref bind] in Ehc. injection Ehc as _ <-. destruct (B6 e i Ee Ei) as (C1 & C2 & C3 & C4). exists [].
          cbn [app hc_data hc_append hc_hash hc_new]. split; [apply C4|]. split; [reflexivity|]. split; [reflexivity|]. rewrite B3. constructor; [exact C3|constructor].
        - rewrite B7 in Ehc. injection Ehc as _ Ehc. destruct (B11 e i Ee Ei) as (i0 & ec' & C1 & C2 & C3 & C4 & C5 & C5' & C6).
          assert (ec' = ec) by congruence. subst ec'. rewrite (N2 _ B4) in B6. assert (Hx : h1 = h) by congruence. rewrite Hx in C2, C3, C5'. exists [i0]. cbn [app].
          split; [exact C3|]. split.
          { exists w1, m1, orig1. split; [eapply proj1, filter_In; rewrite B1; left; reflexivity|]. rewrite C5'. unfold retry_start. rewrite <- app_assoc. reflexivity. }
          split; [exact C2|]. rewrite B10. constructor; [exact C4|]. constructor; [exact C5|constructor]. }
      destruct Hin as (hs & I1 & I0 & I2 & I3). exists hs, i. split; [exact I1|]. split; [exact I0|]. split; [exact I2|]. split; [exists (ec_neg e); exact I3|].
      split; [eexists; exact Hi|]. intros _. exists e. auto.
    - injection Est as <- <-. subst acc. destruct Hout as (hs & O1 & O0 & O2 & O3). exists hs, (a_enc A). split; [exact O1|]. split; [exact O0|]. split; [exact O2|]. split; [exact O3|]. split; [exact W9|discriminate]. }
  destruct HT as (hs & b & T1 & T0 & T2 & T3 & (rnd & T4) & T5).
  (* key schedule *)
  set (psk := match mode with Some _ => h_psk (a_hl A) | None => None end).
  assert (Hp : match psk with
    | Some q => h_psk (a_hl A) = Some q /\ getExtension KServerPresharedKey (sh_extensions m) = Ok (Some (XServerPresharedKey 0)) /\
        version = pk_version (cp_psk q) /\ same_hash (pk_cipher (cp_psk q)) cipher /\ (exchange = None -> In 0 (k_pskModes k)) /\ pt = cp_type q /\
        scert = pk_server (cp_psk q) /\ ccert = pk_client (cp_psk q) /\ hsTime = pk_hsTime (cp_psk q) /\ rel h k1 (Early (pk_secret (cp_psk q)), None)
    | None => getExtension KServerPresharedKey (sh_extensions m) = Ok None /\ pskAccepted pt = false /\ scert = None /\ ccert = None /\ hsTime = cw_now w /\ k1 = ks_init /\ exchange <> None
    end).
  { subst psk. destruct mode as [md|].
    - destruct Enp as (q & P1 & P2 & P3 & P4 & P5 & P6 & P7 & P8 & P9). rewrite P1 in *. injection Eht as <-.
      split; [reflexivity|]. repeat (split; [assumption|]). split; [intros ->; subst md; exact P6|]. repeat (split; [assumption || reflexivity|]).
      destruct (kdo_rel _ _ _ (DeriveEarly (pk_secret (cp_psk q))) _ Hh (rel_init h) Logic.I Ek1) as (st' & o & E & Hr'). injection E as <- <-. exact Hr'.
    - destruct Enp as (P1 & P2 & P3 & P4). injection Eht as <-. injection Ek1 as <-. split; [exact P1|]. repeat (split; [assumption || reflexivity|]).
      destruct exchange; [discriminate|]. discriminate. }
  assert (Hkex : exists kex, match exchange with
      | Some (g, share, kx) => exists dh, kex = Some (g, share, dh) /\ kx_secret kx share = Ok dh /\ group = Some g
      | None => kex = None /\ group = None end /\
      rel h k2 (Handshake (match psk with Some q => pk_secret (cp_psk q) | None => Zero h end) (match kex with Some (_, _, dh) => dh | None => Zero h end), None)).
  { destruct exchange as [[[g share] kx]|].
    - bo Ek2 dh Edh. bo Ek2 k2' Ek2'. injection Ek2 as -> <- _. exists (Some (g, share, dh)). split; [exists dh; auto|].
      eapply (spec_kdo_dh h k1 k2 (Some (share, dh))); [exact Hh| |exact Ek2']. destruct psk as [q|]; [left; apply Hp|right].
      destruct Hp as (_ & _ & _ & _ & _ & -> & _). split; [apply rel_init|]. split; [reflexivity|discriminate].
    - bo Ek2 k2' Ek2'. injection Ek2 as -> <- _. exists None. split; [auto|]. eapply (spec_kdo_dh h k1 k2 None); [exact Hh| |exact Ek2'].
      destruct psk as [q|]; [left; apply Hp|]. destruct Hp as (_ & _ & _ & _ & _ & _ & Hp). congruence. }
  destruct Hkex as (kex & Hkex & Hrel).
  set (Q := mkCP acc (hs ++ [b]) (hc_data hc') m orig version cipher h kex psk).
  assert (Hctx : blen (hc_context (hc_append hc' orig)) = h_len h) by (unfold hc_context; cbn [hc_append hc_hash]; rewrite T2; apply (ho_digest h Hh)).
  assert (Ws : ws = q_chs Q).
  { destruct (kget_rel _ _ _ (GetHandshake ClientHandshakeTraffic (hc_context (hc_append hc' orig))) _ Hh Hrel Hctx Ews) as (st & E). cbn [spec_step] in E.
    injection E as _ <-. unfold q_chs, client_hs_secret, hc_context, q_Tsh. cbn [hs_spec Q q_hash q_secret q_dh q_T q_sh hc_hash hc_append hc_data]. rewrite T2. reflexivity. }
  assert (Rs : rs = q_shs Q).
  { destruct (kget_rel _ _ _ (GetHandshake ServerHandshakeTraffic (hc_context (hc_append hc' orig))) _ Hh Hrel Hctx Ers) as (st & E). cbn [spec_step] in E.
    injection E as _ <-. unfold q_shs, server_hs_secret, hc_context, q_Tsh. cbn [hs_spec Q q_hash q_secret q_dh q_T q_sh hc_hash hc_append hc_data]. rewrite T2. reflexivity. }
  subst ws rs.
  assert (L1 : blen (q_chs Q) = h_len h) by (apply DeriveSecret_len, Hh). assert (L2 : blen (q_shs Q) = h_len h) by (apply DeriveSecret_len, Hh).
  exists Q. split; [reflexivity|]. split; [reflexivity|].
  destruct (hello_is_last _ _ _ _ _ hs T4) as (c & C1 & C2 & (sh & C3 & C4) & C5 & C6).
  constructor; cbn [c_state c_hctx c_ks c_secrets c_read c_write c_neg g_version g_cipher g_group g_psk g_server g_client g_hsTime c_hello c_ech c_exporter c_resumption]; auto.
  - constructor; unfold Q; cbn [q_ech q_hs q_T q_msg q_sh q_version q_cipher q_hash q_kex q_psk]; auto.
    + split; [congruence|]. split; [exact V4|]. split.
      * rewrite V5. destruct exchange as [[[g share] kx]|]; [destruct Hkex as (dh & -> & _)|destruct Hkex as (-> & _)]; reflexivity.
      * destruct psk; apply Hp.
    + intros w1 m1 o1 Hin. destruct W12 as [[B1 B2 B3 B4 B5 B6 B6']|[(w2 & m2 & orig2 & v2 & h2 & hc2 & e2 & B1 & B2 & B3 & B4 & _)]].
      * eapply retries_In in Hin; [|exact B4]. destruct Hin.
      * eapply retries_In in Hin; [|exact B1]. destruct Hin as [[= -> -> ->]|[]]. rewrite (N1 _ B2) in B3. split; [|exact B3]. apply N2, B4.
    + destruct exchange as [[[g share] kx]|].
      * destruct Hkex as (dh & -> & X1 & X2). pose proof (V6 _ _ _ eq_refl) as Hin. destruct (keyShares_In _ _ _ _ C3 Hin) as (ours & O1 & O2).
        destruct (W8 _ _ Hin) as (_ & wk & K1 & K2). exists c, sh, kx, ours, wk. auto 10.
      * destruct Hkex as (-> & X2). destruct psk as [q|]; [|destruct Hp as (_ & _ & _ & _ & _ & _ & Hp); congruence]. split; [discriminate|]. apply Hp. reflexivity.
    + exists c. split; [exact C1|]. congruence.
    + intros Ha Hr. destruct (T5 Ha) as (e & X1 & X2 & X3). destruct (C42_check _ _ _ _ _ Hh T2 Hr X3) as (pre & tail & d & en & Y1 & Y2 & Y3 & Y4 & Y5).
      destruct (hello_is_last _ _ _ _ _ hs X2) as (c' & Z1 & _ & _ & _ & Z2). exists c', pre, d, en. split; [exact Z1|]. split; [exact Y3|]. split; [exact Y4|].
      rewrite Z2. rewrite (proj1 Y5 eq_refl) in Y1. exact Y1.
    + destruct psk as [q|]; [|exact Logic.I]. destruct Hp as (P1 & P2 & P3 & P4 & _). exists (a_w0 A), (a_cn A). split; [exact W5|].
      destruct (W7 _ P1) as (Z1 & Z2). auto.
  - unfold Q, q_Tsh. cbn. rewrite <- T2. reflexivity.
  - exists k2. split; [reflexivity|]. exact Hrel.
  - apply (cnew_read_keyed k h version cipher (q_shs Q) rl Hk Hh L2 Erl).
  - apply (cnew_write_keyed k h LvHandshake version cipher (q_chs Q) wl Hk Hh L1 Ewl).
  - unfold Q. cbn. destruct exchange as [[[g share] kx]|]; [destruct Hkex as (dh & -> & _ & ->)|destruct Hkex as (-> & ->)]; reflexivity.
  - exists pt. split; [reflexivity|]. unfold Q. cbn. destruct psk; apply Hp.
  - unfold Q. cbn. destruct psk; apply Hp.
  - unfold Q. cbn. destruct psk; apply Hp.
  - f_equal. unfold Q. cbn. destruct psk; apply Hp.
  - eexists. split; [reflexivity|]. cbn. auto.
  - destruct (c_ech s) as [e|].
    + rewrite Hst. cbn [ec_status]. split; [|apply W10]. unfold ech_status, Q. cbn. reflexivity.
    + split; [|exact W10]. unfold Q. cbn. subst acc. rewrite Hst. reflexivity.
  - intros Ha Hn p Hq. unfold Q in Ha, Hq. cbn in Ha, Hq. rewrite Hq in Hp. destruct Hp as (_ & _ & _ & _ & _ & <- & _).
    destruct (c_ech s) as [e|]; [|contradiction]. rewrite Hst, Ha in E4. destruct (pskAccepted pt); [discriminate|reflexivity].
  - destruct W4 as (_ & _ & W4 & W4' & _). auto.
Qed.
