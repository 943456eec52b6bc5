(** * C50: what a client's ClientHellos say *)
From Verif Require Import Base Codec CodecSpec Str Hkdf HkdfSpec HkdfProofs KeySched KeySchedSpec KeySchedProofs Handshake Extensions RecordBase Record
  RecordRT ReadEvent HelloChecks Cookie Token Negotiate Ticket PskSer Kex Hpke Transcript IOBufUtil PropsIOBuf EchConfirm HpkeUtils EchCrypt Server
  ServerSpec ServerFacts ServerSteps ServerFlight ServerInv ServerPreserve ExtensionsSpec ExtensionsProofs PropsCodec PropsEch Client ClientSpec ClientHelloSpec ClientSteps ClientHello
  ClientBinder ClientInv ClientAwait ClientHello2 ClientFlight ClientPhase ClientPreserve ClientOrigin ClientSide.
Open Scope N_scope.

(** ** Specification *)
(** The early_data extension is sent exactly if early data is wanted with the PSK offered ([L] is the log so far). *)
Definition says_early (k : cenv) (p : option cpsk) (L : list centry) (c : ClientHello) : Prop :=
  (forall q, p = Some q -> early_wanted k q -> getExtension KClientEarlyData (ch_extensions c) = Ok (Some XClientEarlyData)) /\
  ((forall q, p = Some q -> ~ early_wanted k q) -> app_without 42 L -> no_type 42 (ch_extensions c) = true).
(** [wire] is the first ClientHello of the connection [connect] started: it is the encoding of [o]; the one that counts is [i], encoded
    as [b]; [p] is the PSK it offers. *)
Record first_hello (k : cenv) (w : cworld) (cn : conn) (p : option cpsk) (wire : bytes) (o i : ClientHello) (b : bytes) : Prop := mkFH {
  fh_psk : to_offer k (cw_now w) cn p;
  fh_wire : encodeHandshake (MClientHello o) = Ok wire;
  fh_counted : counted k cn wire i b;
  fh_says : says_first k w p o /\ says_first k w p i;
  fh_random : cw_random w = Ok (ch_random i);
  fh_extras : extras k (cn_sni cn) i;
  fh_early : says_early k p [CCall w (JConnect cn)] i;
  fh_offer : psk_last k cn -> sized_hashes k -> app_without 41 [CCall w (JConnect cn)] ->
    match p with
    | Some q => exists h, k_hash k (pk_cipher (cp_psk q)) = Ok h /\ psk_offer h [] q (cw_now2 w) i b
    | None => no_type 41 (ch_extensions i) = true
    end }.
(** The second ClientHello [i], encoded as [b], offers the PSK again if it fits the cipher suite the HelloRetryRequest [m], encoded as
    [orig], selects; the binder is over the hash of the first, [b0], the HelloRetryRequest and the second. *)
Definition offer_again (k : cenv) (w : cworld) (p : option cpsk) (b0 : bytes) (m : HelloRetryRequest) (orig : bytes) (i : ClientHello) (b : bytes) : Prop :=
  (no_type 41 (ch_extensions i) = true /\ forall q, p = Some q -> ~ same_hash (pk_cipher (cp_psk q)) (hrr_suite m)) \/
  exists q h, p = Some q /\ same_hash (pk_cipher (cp_psk q)) (hrr_suite m) /\ k_hash k (hrr_suite m) = Ok h /\
    psk_offer h (message_hash (h_fn h b0) ++ orig) q (cw_now w) i b.

Lemma In_mem x l : In x l -> mem x l = true.
Proof. intros H. unfold mem. apply existsb_exists. exists x. split; [exact H|apply N.eqb_refl]. Qed.
Lemma In_memb x l : In x l -> memb x l = true.
Proof. intros H. unfold memb. apply existsb_exists. exists x. split; [exact H|apply bytes_eqb_refl]. Qed.
Lemma to_offer_ok k now cn p : validatePsk k now (cn_psk cn) = Ok p -> to_offer k now cn p.
Proof.
  intros H q. unfold validatePsk in H. destruct (cn_psk cn) as [c|]; [|assert (p = None) by congruence; subst p; split; [discriminate|intros (E & _); discriminate]].
  cbv zeta in H. unfold psk_valid.
  destruct (mem (pk_version (cp_psk c)) (k_versions k)) eqn:E1; cbn [negb] in H.
  2:{ assert (p = None) by congruence. subst p. split; [discriminate|]. intros ([= ->] & A & _). apply In_mem in A. congruence. }
  destruct (mem (pk_cipher (cp_psk c)) (k_ciphers k)) eqn:E2; cbn [negb] in H.
  2:{ assert (p = None) by congruence. subst p. split; [discriminate|]. intros ([= ->] & _ & A & _). apply In_mem in A. congruence. }
  apply mem_In in E1. apply mem_In in E2.
  destruct (cp_type c) eqn:Et; try (assert (p = Some c) by congruence; subst p; split; [intros [= <-]; split; [reflexivity|split; [exact E1|split; [exact E2|congruence]]]|intros ([= ->] & _); reflexivity]).
  destruct (pk_expire (cp_psk c) <? now)%Z eqn:E3.
  { assert (p = None) by congruence. subst p. split; [discriminate|]. intros ([= ->] & _ & _ & A). specialize (A Et). apply Z.ltb_lt in E3. lia. }
  bo H d Ed. assert (Hd : d = (now - pk_hsTime (cp_psk c))%Z) by (unfold chk64 in Ed; destruct (int64 _); congruence).
  destruct (k_maxPskLife k <? d)%Z eqn:E4.
  { assert (p = None) by congruence. subst p. split; [discriminate|]. intros ([= ->] & _ & _ & A). specialize (A Et). apply Z.ltb_lt in E4. lia. }
  destruct (now <? pk_hsTime (cp_psk c))%Z eqn:E5.
  { assert (p = None) by congruence. subst p. split; [discriminate|]. intros ([= ->] & _ & _ & A). specialize (A Et). apply Z.ltb_lt in E5. lia. }
  apply Z.ltb_ge in E3. apply Z.ltb_ge in E4. apply Z.ltb_ge in E5. assert (p = Some c) by congruence. subst p. split; [|intros ([= ->] & _); reflexivity].
  intros [= <-]. split; [reflexivity|]. split; [exact E1|]. split; [exact E2|]. intros _. lia.
Qed.
Lemma wanted_some k q : early_wanted k q -> exists ep, getEarlyDataParams k (Some q) = Some ep.
Proof.
  intros (A & B & C). unfold getEarlyDataParams. rewrite A. cbn [negb]. cbv zeta. destruct (pk_maxEarly (cp_psk q) =? 0) eqn:E; [apply N.eqb_eq in E; lia|].
  destruct (pk_alpn (cp_psk q)) as [a|]; [|eauto]. assert (memb a (k_alpns k) = true) as -> by (apply In_memb, C; reflexivity). cbn [negb]. eauto.
Qed.
Lemma first_of k w cn p wire o i b s' rest : first_facts k w cn p wire o i b s' rest -> first_hello k w cn p wire o i b.
Proof.
  intros [F1 F2 F3 F4 F5 F6 F7 F8 F9 F10 F11]. constructor; auto.
  - apply to_offer_ok, F1.
  - split.
    + intros q -> Hw. apply wanted_some in Hw. destruct Hw as (ep & Hw). rewrite Hw in F9. exact F9.
    + intros Hn Ha. destruct (getEarlyDataParams k p) as [ep|] eqn:Ee; [|apply F9; intros xs; apply Ha; left; reflexivity].
      destruct p as [q|]; [|unfold getEarlyDataParams in Ee; destruct (negb (k_sendEarly k)); discriminate]. exfalso. apply (Hn q eq_refl). eapply wanted_ok, Ee.
  - intros A B C. apply F8; auto. intros xs. apply C. left. reflexivity.
Qed.

(** ** Theorems *)
(** The first ClientHello is the first thing written, by connect. *)
Theorem C50_first k l s L1 cs L2 c : cenv_ok k -> creach k l s (L1 ++ CEmit (KWrite cs) :: L2) -> In c cs -> plain_hs c = true -> hellos_sent L1 = [] ->
  exists w cn p o i b, L1 = [CCall w (JConnect cn)] /\ cs = [c] /\ first_hello k w cn p (ct_plain c) o i b.
Proof.
  intros Hk Hr Hin Hp Hn. destruct (plain_origin _ _ _ _ _ _ _ Hk Hr Hin Hp) as [(w & cn & s' & rest & -> & -> & H)|D].
  - destruct (connect_first _ _ _ _ _ _ _ Hk H) as (p & o & i & b & FF). destruct Hin as [<-|[]]. exists w, cn, p, o, i, b.
    split; [reflexivity|]. split; [reflexivity|]. eapply first_of, FF.
  - exfalso. destruct D as (log1 & w & m & orig & s1 & s' & A & A' & w0 & cn & s0 & outs0 & X & -> & _ & _ & _ & _ & _ & D).
    destruct (connect_early _ _ _ _ _ Hk (sd_connect _ _ _ _ _ _ _ _ D)) as (d & enc & rest & p & o & i & b & -> & _).
    rewrite (sd_log _ _ _ _ _ _ _ _ D) in Hn. discriminate.
Qed.

(** The second answers a HelloRetryRequest: the same as the first but for key shares, cookie, PSK and early data. *)
Lemma quiet_rest k w cn p b s' rest : early_start k w cn p b s' rest -> forallb cquiet (map CEmit rest) = true.
Proof.
  intros (hl & _ & _ & H). destruct (getEarlyDataParams k p) as [ep|].
  - destruct H as (q & h & t & x & th & _ & _ & -> & _). reflexivity.
  - destruct H as (-> & _). reflexivity.
Qed.

Theorem C50_second k l s L1 cs L2 c : cenv_ok k -> creach k l s (L1 ++ CEmit (KWrite cs) :: L2) -> In c cs -> plain_hs c = true -> hellos_sent L1 <> [] ->
  exists w0 cn c0 X w m orig p o0 i0 b0 o i b,
    L1 = CCall w0 (JConnect cn) :: CEmit (KWrite [c0]) :: X ++ [CRecv w (EvHandshake (MHelloRetryRequest m) orig)] /\
    hellos_sent X = [] /\ ~ retried X /\ filter plain_hs cs = [c] /\
    first_hello k w0 cn p (ct_plain c0) o0 i0 b0 /\
    encodeHandshake (MClientHello o) = Ok (ct_plain c) /\ counted k cn (ct_plain c) i b /\
    says_again k w m o0 o /\ says_again k w m i0 i /\ extras k (cn_sni cn) i /\
    (app_without 42 L1 -> no_type 42 (ch_extensions i) = true) /\
    (sized_hashes k -> app_without 41 L1 -> offer_again k w p b0 m orig i b).
Proof.
  intros Hk Hr Hin Hp Hn. destruct (plain_origin _ _ _ _ _ _ _ Hk Hr Hin Hp) as [(w & cn & s' & rest & -> & _)|D].
  { exfalso. apply Hn. reflexivity. }
  destruct D as (log1 & w & m & orig & s1 & s' & A & A' & w0 & cn & s0 & outs0 & X & -> & Hcs & H & HA & HA' & He & D).
  destruct (connect_early _ _ _ _ _ Hk (sd_connect _ _ _ _ _ _ _ _ D)) as (d & enc & rest & p & o0 & i0 & b0 & -> & FF).
  destruct (retry_delta_ok _ _ _ _ _ _ _ H) as (hl1 & hl2 & RD). destruct (rd_hello _ _ _ _ _ RD) as (Rh1 & Rh2).
  destruct (sd_first _ _ _ _ _ _ _ _ D (aw_state _ _ _ _ HA) (rd_first _ _ _ _ _ RD)) as (F1 & F2 & F3 & F4).
  destruct (ff_state _ _ _ _ _ _ _ _ _ _ FF) as (hl & kexs & S1 & S2 & S3 & S4 & S5 & S6 & S7 & S8 & S9 & S10).
  assert (hl1 = hl) by congruence. subst hl1. assert (Ehl : c_hello s1 = Some hl) by congruence.
  destruct (retry_again _ _ _ _ _ _ _ _ _ Hk H Ehl S3 S4) as (hl' & kexs' & enc' & o & i & b & G1 & G2 & [P1 P2 P3 P4 P5 P6 P7 P8 P9]).
  assert (enc' = ct_plain c).
  { destruct (aw_hello _ _ _ _ HA') as (Q1 & _ & _ & _ & Q2). congruence. }
  subst enc'. pose proof (quiet_rest _ _ _ _ _ _ _ (ff_attempt _ _ _ _ _ _ _ _ _ _ FF)) as Hq.
  assert (HX : forallb cquiet (map CEmit rest ++ X) = true) by (rewrite forallb_app, Hq, F4; reflexivity).
  apply cquiet_nothing in HX. destruct HX as (HX1 & _ & _ & _ & HX2).
  assert (Hsh : forall x0 x1, (shares_in kexs x0) -> shares_in kexs' x1 -> exists l0 l1, shares_of x0 l0 /\ shares_of x1 l1 /\
     ((exists g, getExtension KHrrKeyShare (hrr_extensions m) = Ok (Some (XHrrKeyShare g)) /\ In g (k_groups k) /\ ~ In g (map fst l0) /\
         fresh_shares w [g] l1) \/
      ((forall g, getExtension KHrrKeyShare (hrr_extensions m) <> Ok (Some (XHrrKeyShare g))) /\ l1 = l0))).
  { intros x0 x1 (sh0 & K0 & K1) (sh1 & K2 & K3). exists sh0, sh1. split; [exact K1|]. split; [exact K3|].
    destruct P4 as [(g & M1 & M2 & M3 & M4)|(M1 & ->)]; [left|right; split; [exact M1|congruence]].
    exists g. split; [exact M1|]. split; [exact M2|]. split; [|eapply fresh; eassumption].
    destruct (keyShares_keys _ _ K0) as (-> & _). exact M3. }
  assert (Hi : ch_random i0 = match c_ech s1 with Some e => ec_random e | None => h_random hl end).
  { rewrite F2. destruct (c_ech s0) as [e|]; [symmetry; apply S10|]. destruct S10 as (_ & _ & <- & _). exact S9. }
  exists w0, cn, (mkContent LvPlaintext 22 d enc), (map CEmit rest ++ X), w, m, orig, p, o0, i0, b0, o, i, b.
  split; [rewrite (sd_log _ _ _ _ _ _ _ _ D); cbn [map app]; rewrite <- app_assoc; reflexivity|].
  split; [exact HX1|]. split; [apply no_retry, HX2|]. split.
  { rewrite Hcs, filter_app. cbn [filter]. rewrite Hp. unfold ccs_first. destruct (k_compat k && negb (c_ccs s1)); reflexivity. }
  split; [eapply first_of, FF|]. split; [exact P1|].
  split. { split; [exact P2|]. rewrite F2 in P3. destruct (c_ech s0) as [e|].
    - destruct S10 as (S10 & _). destruct (cn_ech cn); [exists (ec_neg e); exact P3|congruence].
    - destruct S10 as (-> & _). apply P3. }
  destruct P6 as (P6a & P6b).
  split. { destruct (P5 o (or_introl eq_refl)) as (U1 & U2 & U3 & U4). split; [exact U1|]. split; [congruence|]. split; [congruence|]. split; [apply Hsh; assumption|exact U4]. }
  split. { destruct (P5 i (or_intror eq_refl)) as (U1 & U2 & U3 & U4). split; [exact U1|]. split; [congruence|]. split; [congruence|]. split; [apply Hsh; assumption|exact U4]. }
  split. { rewrite F2 in P7. destruct (c_ech s0) as [e|]; [destruct S10 as (_ & E & _)|destruct S10 as (_ & E & _)]; rewrite E in P7; exact P7. }
  assert (Hw : In w (worlds (log1 ++ [CRecv w (EvHandshake (MHelloRetryRequest m) orig)]))) by (unfold worlds; rewrite flat_map_app; apply in_or_app; right; left; reflexivity).
  split; [intros Ha; apply P8; intros xs; apply Ha, Hw|].
  intros Hz Ha. destruct (ff_attempt _ _ _ _ _ _ _ _ _ _ FF) as (hl3 & T1 & T2 & _). assert (hl3 = hl) by congruence. subst hl3. rewrite T2 in P9.
  destruct (P9 Hz) as [Hno|(q & h & i' & U1 & U2 & U3 & U4 & U5)]; [intros xs; apply Ha, Hw|left; exact Hno|].
  right. exists q, h. assert (i' = b0).
  { rewrite F2 in U4. destruct (c_ech s0) as [e|]; [destruct S10 as (_ & _ & _ & E & _)|destruct S10 as (_ & _ & _ & ->)]; congruence. }
  subst i'. auto.
Qed.
(** There are no others. *)
Lemma last_plain L : hellos_sent L <> [] -> exists L1 cs L2 c, L = L1 ++ CEmit (KWrite cs) :: L2 /\ In c cs /\ plain_hs c = true /\ hellos_sent L2 = [].
Proof.
  induction L as [|x L IH]; [intros []; reflexivity|]. intros H. destruct (hellos_sent L) as [|h hs] eqn:E.
  - assert (Hx : exists cs c, x = CEmit (KWrite cs) /\ In c (filter plain_hs cs)).
    { change (x :: L) with ([x] ++ L) in H. rewrite hellos_app, E, app_nil_r in H. destruct x as [| |o]; try (exfalso; apply H; reflexivity).
      destruct o; try (exfalso; apply H; reflexivity). unfold hellos_sent in H. cbn [flat_map] in H. rewrite app_nil_r in H.
      destruct (filter plain_hs l) as [|c r] eqn:Ef; [exfalso; apply H; reflexivity|]. exists l, c. split; [reflexivity|]. rewrite Ef. left. reflexivity. }
    destruct Hx as (cs & c & -> & Hin). apply filter_In in Hin. exists [], cs, L, c. split; [reflexivity|]. tauto.
  - destruct IH as (L1 & cs & L2 & c & -> & A); [discriminate|]. exists (x :: L1), cs, L2, c. auto.
Qed.
Theorem C50_count k l s log : cenv_ok k -> creach k l s log -> (length (hellos_sent log) <= 2)%nat /\ (length (hellos_sent log) = 2%nat -> retried log).
Proof.
  intros Hk Hr. destruct (hellos_sent log) as [|h hs] eqn:E; [split; [cbn; lia|discriminate]|]. rewrite <- E.
  destruct (last_plain log) as (L1 & cs & L2 & c & -> & Hin & Hp & H2); [congruence|].
  change (L1 ++ CEmit (KWrite cs) :: L2) with (L1 ++ [CEmit (KWrite cs)] ++ L2). rewrite !hellos_app, H2, app_nil_r, app_length.
  destruct (hellos_sent L1) as [|h1 hs1] eqn:E1.
  - destruct (C50_first _ _ _ _ _ _ _ Hk Hr Hin Hp E1) as (w & cn & p & o & i & b & _ & -> & _). unfold hellos_sent. cbn [flat_map filter]. rewrite Hp. cbn. split; [lia|discriminate].
  - rewrite <- E1. destruct (C50_second _ _ _ _ _ _ _ Hk Hr Hin Hp) as (w0 & cn & c0 & X & w & m & orig & p & o0 & i0 & b0 & o & i & b & -> & HX & _ & Hf & _); [congruence|].
    unfold hellos_sent at 2. cbn [flat_map]. rewrite Hf. unfold hellos_sent at 1. cbn [flat_map app].
    fold (hellos_sent (X ++ [CRecv w (EvHandshake (MHelloRetryRequest m) orig)])). rewrite app_length, hellos_app, HX.
    cbn [hellos_sent flat_map map app length filter]. split.
    + destruct (plain_hs c0); cbn; lia.
    + intros _. exists w, m, orig. right. right. apply in_or_app. left. apply in_or_app. right. left. reflexivity.
Qed.
