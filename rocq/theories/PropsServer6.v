(** * C59: what the server's hello, flight and HelloRetryRequest say *)
From Coq Require Import List ListDec.
From Verif Require Import Base Codec CodecSpec Str Hkdf HkdfSpec HkdfProofs KeySched KeySchedSpec KeySchedProofs Handshake HandshakeSpec Extensions
  ExtensionsSpec ExtensionsProofs RecordBase Record RecordRT
  ReadEvent HelloChecks Cookie Token Negotiate Ticket Kex Hpke Transcript IOBufUtil PropsIOBuf PropsCodec
  EchConfirm Server ServerSpec ServerFacts ServerSteps ServerFlight ServerInv ServerPreserve ServerParams ServerOrigin ServerSpec2 PropsEch
  PropsServer PropsServer2 PropsServer3 PropsServer4 RecordSpec PropsHello ServerSpec3.
Open Scope N_scope.

(** ** Small facts *)
Lemma getSNI_of c n : getSNI c = Ok n -> sni_of c n.
Proof.
  unfold getSNI. intros H. bo H x Ex. destruct x as [x|].
  - destruct x; try (assert (n = None) as -> by congruence; intros t y r E; congruence).
    destruct l as [|[t h] r].
    + assert (n = None) as -> by congruence. intros t y r E. congruence.
    + bo H d Ed. apply deref_ok in Ed. subst h. injection H as <-. exists t, r. exact Ex.
  - assert (n = None) as -> by congruence. intros t y r E. congruence.
Qed.
Lemma bytes_eqb_ex p l : existsb (bytes_eqb p) l = true <-> In p l.
Proof.
  rewrite existsb_exists. split.
  - intros (x & Hx & E). apply bytes_eqb_eq in E. subst. exact Hx.
  - intros H. exists p. split; [exact H|]. apply bytes_eqb_eq. reflexivity.
Qed.
Lemma negotiateB_some mine theirs p : negotiateB mine theirs = Some p ->
  exists pre post, mine = pre ++ p :: post /\ In p theirs /\ forall x, In x pre -> ~ In x theirs.
Proof.
  induction mine as [|a r IH]; [discriminate|]. cbn [negotiateB]. destruct (existsb (bytes_eqb a) theirs) eqn:E.
  - intros [= ->]. exists [], r. split; [reflexivity|]. split; [apply bytes_eqb_ex, E|intros x []].
  - intros H. destruct (IH H) as (pre & post & -> & A & B). exists (a :: pre), post. split; [reflexivity|]. split; [exact A|].
    intros x [<-|Hx]; [|apply B, Hx]. rewrite <- bytes_eqb_ex. congruence.
Qed.
Lemma negotiateB_none mine theirs : negotiateB mine theirs = None -> forall x, In x mine -> ~ In x theirs.
Proof.
  induction mine as [|a r IH]; [intros _ x []|]. cbn [negotiateB]. destruct (existsb (bytes_eqb a) theirs) eqn:E; [discriminate|].
  intros H x [<-|Hx]; [|apply IH; assumption]. rewrite <- bytes_eqb_ex. congruence.
Qed.
Lemma negotiateAlpn_of e c a : negotiateAlpn e c = Ok a -> alpn_chosen e c a.
Proof.
  unfold negotiateAlpn. intros H. bo H x Ex.
  assert (Hno : (forall l, x <> Some (XProtocolNameList l)) -> e_alpnMode e <> AlpnRequired /\ a = None -> alpn_chosen e c a).
  { intros Hx [Hm ->]. right. split; [|exact Hm]. intros l E. apply (Hx l). congruence. }
  assert (Hm : (match e_alpnMode e with AlpnRequired => Err (alert al_no_application_protocol) | _ => Ok None end) = Ok a -> e_alpnMode e <> AlpnRequired /\ a = None).
  { destruct (e_alpnMode e); try discriminate; intros [= <-]; split; try discriminate; reflexivity. }
  destruct x as [x|]; [|apply Hno; [discriminate|apply Hm, H]].
  destruct x; try (apply Hno; [discriminate|apply Hm, H]).
  clear Hno Hm. destruct (negotiateB (e_alpns e) (names l)) as [p|] eqn:En.
  - injection H as <-. apply negotiateB_some in En. destruct En as (pre & post & A & B & C). exists l, pre, post. auto.
  - destruct (e_alpnMode e) eqn:Em; try discriminate. injection H as <-. left. exists l. split; [exact Ex|]. split; [exact Em|]. apply negotiateB_none, En.
Qed.
Lemma negotiate_none mine theirs : negotiate mine theirs = None -> forall x, In x mine -> ~ In x theirs.
Proof.
  induction mine as [|a r IH]; [intros _ x []|]. cbn [negotiate]. destruct (Negotiate.mem a theirs) eqn:E; [discriminate|].
  intros H x [<-|Hx]; [|apply IH; assumption]. intros Hin. unfold Negotiate.mem in E.
  assert (existsb (N.eqb a) theirs = true) by (apply existsb_exists; exists a; split; [exact Hin|apply N.eqb_refl]). congruence.
Qed.
Lemma compression_of e c a : certCompression e c = Ok a -> compressed_with e c a.
Proof.
  unfold certCompression. intros H. bo H x Ex.
  assert (Hno : (forall l, x <> Some (XCertCompressionAlgs l)) -> a = None -> compressed_with e c a).
  { intros Hx ->. intros l E. destruct (Hx l). congruence. }
  destruct x as [x|]; [|apply Hno; [discriminate|congruence]]. destruct x; try (apply Hno; [discriminate|congruence]). clear Hno.
  assert (H' : negotiate (e_compAlgos e) l = a) by (destruct (e_compAlgos e); [cbn; congruence|congruence]). clear H. destruct a as [a|].
  - exists l. split; [exact Ex|]. apply negotiate_preferred, H'.
  - intros l' E. assert (l' = l) as -> by congruence. apply negotiate_none, H'.
Qed.
Lemma serverCookie_none e c : serverCookie e c = Ok None -> no_cookie c.
Proof.
  unfold serverCookie. intros H b E. rewrite E in H. cbn [bind] in H. destruct (e_cookie e); [|discriminate]. bo H d Ed. bo H st Est.
  destruct st; [|discriminate]. bo H u Eu. discriminate.
Qed.
Lemma no_type_find l : no_type 65037 l = match findExtension 65037 l with None => true | Some _ => false end.
Proof.
  destruct (no_type 65037 l) eqn:E; unfold no_type, findExtension in *.
  - apply find_none_iff in E. rewrite E. reflexivity.
  - destruct (find _ l) eqn:F; [reflexivity|]. apply find_none_iff in F. congruence.
Qed.

(** ** Encrypted ClientHello *)
Definition ech_result (c1 : ClientHello) (n : neg) (o : echout) : Prop :=
  match o with
  | EoNone => n_ech n = EchNotRequested
  | EoTaken _ => n_ech n = EchAccepted
  | EoRefused => n_ech n = EchRejected /\ exists st, n_echState n = Some st /\ sni_of c1 (eh_outerSni st)
  end.
Lemma processECH_inner e ck s c0 o0 es est c o : processECH e ck s c0 o0 = Ok (es, est, c, o) -> es = EchAccepted ->
  getExtension KEchInner (ch_extensions c) <> Ok None.
Proof.
  unfold processECH. intros H He. apply bind_Ok in H. destruct H as ((((status & st) & c') & o') & E & H). cbv beta iota in H.
  destruct status; try (exfalso; congruence). bo H y Ey. destruct y; [|discriminate]. assert (c' = c) as -> by congruence. congruence.
Qed.
Lemma ech_start e s c0 o0 n : s_hctx s = None -> s_ech s = EchNotRequested -> processECH e None s c0 o0 = Ok (n_ech n, n_echState n, n_hello n, n_orig n) ->
  exists o, ech_first e c0 o0 o (n_hello n) (n_orig n) /\ ech_result c0 n o /\
    match o with
    | EoTaken (Some x) => exists kdf ae cid en sni, ech_names c0 kdf ae cid en /\ n_echState n = Some (mkEchSt (kdf, ae) cid (Some x) sni)
    | EoTaken None => False
    | _ => True
    end.
Proof.
  unfold processECH. intros Hc Hs H. rewrite Hc, Hs in H. apply bind_Ok in H. destruct H as ((((status & st) & c') & o') & E & H). cbv beta iota in H.
  assert (Hcc : n_ech n = status /\ n_echState n = st /\ n_hello n = c' /\ n_orig n = o').
  { destruct status; try (repeat split; congruence). bo H y Ey. destruct y; [|discriminate]. repeat split; congruence. }
  destruct Hcc as (Q1 & Q2 & Q3 & Q4). clear H. unfold ech_result. rewrite Q1, Q2, Q3, Q4. clear Q1 Q2 Q3 Q4.
  pose proof (no_type_find (ch_extensions c0)) as Hnt.
  destruct (findExtension 65037 (ch_extensions c0)).
  2:{ exists EoNone. cbn [ech_first]. split; [|split; [congruence|exact Logic.I]]. split; [congruence|]. split; [congruence|]. left. exact Hnt. }
  bo E x Ex. destruct x as [[]|]; try discriminate. destruct p as [[[[kdf ae] cid] enc] pl].
  bo E sni Esni. destruct (e_ech e) as [d|] eqn:Ee.
  2:{ exists EoNone. cbn [ech_first]. split; [|split; [congruence|exact Logic.I]]. split; [congruence|]. split; [congruence|]. right. exact Ee. }
  bo E g Eg. destruct g as [[[c1 o1] hc]|].
  - exists (EoTaken (Some hc)). assert (c1 = c' /\ o1 = o') as [-> ->] by (split; congruence). split; [|split; [congruence|]].
    + exists d, hc. auto.
    + exists kdf, ae, cid, enc, sni. split; [|congruence]. exists pl. exact Ex.
  - exists EoRefused. split; [|split; [|exact Logic.I]].
    + split; [congruence|]. split; [congruence|]. exists d. auto.
    + split; [congruence|]. eexists. split; [symmetry; injection E as _ E _ _; exact E|]. cbn [eh_outerSni]. apply getSNI_of, Esni.
Qed.
Lemma first_of_waits L c X w c1 o1 : forallb is_wait L = true -> first_of (L ++ Recv w (EvHandshake (MClientHello c1) o1) :: X) c = c1.
Proof.
  induction L as [|x L IH]; [reflexivity|]. cbn [forallb]. intros H. apply andb_true_iff in H. destruct H as [Hx H].
  destruct x as [|o]; [discriminate|]. destruct o; try discriminate. cbn [app ServerSpec3.first_of]. apply IH, H.
Qed.
Lemma first_of_only_waits L c : forallb is_wait L = true -> first_of L c = c.
Proof.
  induction L as [|x L IH]; [reflexivity|]. cbn [forallb]. intros H. apply andb_true_iff in H. destruct H as [Hx H].
  destruct x as [|o]; [discriminate|]. destruct o; try discriminate. cbn [ServerSpec3.first_of]. apply IH, H.
Qed.
Lemma hrr_none e s c orig x : s_ech s <> EchAccepted -> processECHHRR e None s c orig = Ok x -> exists cid, x = (s_ech s, cid, c, orig).
Proof.
  unfold processECHHRR. intros Hs H. bo H y Ey. destruct (s_ech s); try congruence; injection H as <-; eauto.
Qed.
Lemma ech_of0 e log s c0 o0 n : awaiting e log s -> serverCookie e c0 = Ok (n_cookie n) -> (s_hctx s <> None -> n_cookie n = None) ->
  processECH e (n_cookie n) s c0 o0 = Ok (n_ech n, n_echState n, n_hello n, n_orig n) ->
  exists o, ech_treated e log c0 o0 o (n_hello n) (n_orig n) /\ ech_result (first_of log c0) n o.
Proof.
  intros Ha Hck HNc H.
  destruct Ha as [(r & -> & HW)|(log1 & s1 & w1 & c1 & orig1 & s2 & outs & W & r & Hf & Hh & Es & -> & HW & ->)].
  - rewrite (first_of_only_waits _ _ HW). destruct (n_cookie n) as [ck|].
    + (* a cookie *)
      destruct (serverCookie_inv _ _ _ Hck) as (dec & b & C1 & C2 & C3).
      unfold processECH in H. cbn [s_hctx upd_state upd_layers s_init s_echState] in H.
      apply bind_Ok in H. destruct H as ((((status & st) & c') & o') & E & H). cbv beta iota in H.
      assert (Hcc : n_ech n = status /\ n_echState n = st /\ n_hello n = c' /\ n_orig n = o').
      { destruct status; try (repeat split; congruence). bo H y Ey. destruct y; [|discriminate]. repeat split; congruence. }
      destruct Hcc as (Q1 & Q2 & Q3 & Q4). clear H. unfold ech_result. rewrite Q1, Q2, Q3, Q4. clear Q1 Q2 Q3 Q4.
      apply bind_Ok in E. destruct E as ((((st0 & cid) & c2) & o2) & E1 & E). cbv beta iota in E.
      assert (st0 = status /\ c2 = c' /\ o2 = o') as (-> & -> & ->) by (repeat split; congruence). clear E.
      unfold processECHHRR in E1. bo E1 x Ex. cbn [s_ech upd_state upd_layers s_init] in E1.
      destruct (ck_echSuite ck) as [[kdf ae]|] eqn:Ecs; cbv beta zeta iota in E1.
      * exists (EoTaken None). destruct (e_ech e) as [d|] eqn:Ee; [|discriminate].
        destruct x as [[]|]; try discriminate. destruct p as [[[[kdf' ae'] cid'] enc] pl].
        bo E1 en E2. apply deref_ok in E2. subst enc. bo E1 u1 E3. bo E1 u2 E4. bo E1 u3 E5. apply bind_Ok in E1. destruct E1 as ((c3 & o3) & E6 & E1). cbv beta iota in E1.
        apply ensure_ok in E3, E4, E5. destruct en; [|discriminate]. cbn [fst snd] in E4. apply andb_true_iff in E4. destruct E4 as [E4a E4b].
        apply N.eqb_eq in E4a, E4b. subst kdf' ae'. destruct (ck_echConfigId ck) as [i|] eqn:Eci; [|discriminate]. apply N.eqb_eq in E5. subst i.
        assert (c3 = c' /\ o3 = o') as (-> & ->) by (split; congruence).
        split; [|congruence]. eapply et_cookie; [apply waits_only, HW|exact C1|exact C2|exact C3|]. rewrite Ecs. split; [reflexivity|].
        exists d, cid'. split; [exact Ee|]. split; [exact Eci|]. split; [exists pl; exact Ex|exact E6].
      * exists EoNone. split; [|congruence]. eapply et_cookie; [apply waits_only, HW|exact C1|exact C2|exact C3|]. rewrite Ecs. repeat split; congruence.
    + destruct (ech_start e (upd_state (upd_layers s_init (Some r) (Some WPlain)) SExpectingClientHello) c0 o0 n eq_refl eq_refl H) as (o & A & B & _). exists o. split; [|exact B].
      apply et_first; [apply waits_only, HW|apply (serverCookie_none e), Hck|exact A].
  - destruct (retry_outs _ _ _ _ _ _ _ _ (or_introl Hf) Hh Es) as (n1 & sid1 & h1 & k1 & hc1 & alpn1 & skew1 & ed1 & early1 & g1 & ct1 & b1 & Q1 & Q2 & Q3 & Q4 & Q5 & Q6 & Q7 & Q8 & Q9).
    pose proof (hf_neg _ _ _ _ _ _ _ _ _ _ _ _ _ _ Q1) as HN1. pose proof (nf_ech _ _ _ _ _ _ HN1) as H1. pose proof (nf_cookie _ _ _ _ _ _ HN1) as Hck1.
    rewrite Q8 in H1, Hck1. destruct Hf as (r0 & Ef & HW1).
    assert (Hx : s_hctx s1 = None /\ s_ech s1 = EchNotRequested) by (rewrite Ef; split; reflexivity).
    destruct (ech_start e _ c1 orig1 n1 (proj1 Hx) (proj2 Hx) H1) as (o & A & B & C). clear Hx.
    apply hello_retry_facts in Q9. destruct Q9 as (h' & m & hrr0 & hrr & b & wl & ct & R1 & R2 & R3 & R4 & R5 & R6 & R7 & R8 & R9).
    assert (X1 : s_hctx s2 <> None) by (rewrite R9; discriminate). assert (X2 : s_ech s2 = n_ech n1) by (rewrite R9; reflexivity).
    assert (X3 : s_echState s2 = n_echState n1) by (rewrite R9; reflexivity).
    assert (Hn : n_cookie n = None) by (apply HNc; exact X1). rewrite Hn in H, Hck.
    assert (Hfo : first_of (log1 ++ hello_log w1 c1 orig1 outs ++ W) c0 = c1) by (unfold hello_log; cbn [app]; apply first_of_waits, HW1). rewrite Hfo.
    unfold processECH in H. change (s_hctx (upd_read s2 (Some r))) with (s_hctx s2) in H. destruct (s_hctx s2) as [hx|]; [|congruence].
    apply bind_Ok in H. destruct H as ((((status & st) & c') & o') & E & H). cbv beta iota in H.
    assert (Hcc : n_ech n = status /\ n_echState n = st /\ n_hello n = c' /\ n_orig n = o').
    { destruct status; try (repeat split; congruence). bo H y Ey. destruct y; [|discriminate]. repeat split; congruence. }
    destruct Hcc as (P1 & P2 & P3 & P4). clear H. unfold ech_result in *. rewrite P1, P2, P3, P4. clear P1 P2 P3 P4.
    apply bind_Ok in E. destruct E as ((((st0 & cid) & c2) & o2) & E1 & E). cbv beta iota in E.
    assert (Ein : st = Some (match s_echState s2 with Some p => mkEchSt (eh_suite p) cid (eh_ctx p) (eh_outerSni p) | None => mkEchSt (0, 0) cid None None end))
      by (change (s_echState (upd_read s2 (Some r))) with (s_echState s2) in E; congruence).
    assert (st0 = status /\ c2 = c' /\ o2 = o') as (-> & -> & ->) by (repeat split; congruence). clear E.
    exists o. rewrite Q2. unfold hello_log. cbn [map app].
    assert (Htr : match o with
      | EoTaken (Some x) => exists d kdf ae cid en1, e_ech e = Some d /\ ech_names c1 kdf ae cid en1 /\ ech_names c0 kdf ae cid (Some []) /\ d_hrr d c0 o0 x = Ok (c', o')
      | EoTaken None => False
      | _ => c' = c0 /\ o' = o0
      end /\ status = n_ech n1).
    { destruct o as [|[x|]|]; [| |destruct C|].
      - destruct (hrr_none e (upd_read s2 (Some r)) c0 o0 _ ltac:(change (s_ech (upd_read s2 (Some r))) with (s_ech s2); congruence) E1) as (cid' & Ex).
        injection Ex as -> _ -> ->. split; [split; reflexivity|exact X2].
      - destruct C as (kdf & ae & cid1 & en1 & sni & C1 & C2). unfold processECHHRR in E1. bo E1 x' Ex'.
        change (s_ech (upd_read s2 (Some r))) with (s_ech s2) in E1. change (s_echState (upd_read s2 (Some r))) with (s_echState s2) in E1.
        rewrite X2, B in E1. cbv beta zeta iota in E1. destruct (e_ech e) as [d|] eqn:Ee; [|discriminate].
        destruct x' as [[]|]; try discriminate. destruct p as [[[[kdf' ae'] cid'] enc] pl].
        bo E1 en E2. apply deref_ok in E2. subst enc. bo E1 u1 E3. rewrite X3, C2 in E1. bo E1 u2 E4. bo E1 u3 E5. cbn [eh_ctx] in E1.
        apply bind_Ok in E1. destruct E1 as ((c3 & o3) & E6 & E1). cbv beta iota in E1.
        apply ensure_ok in E3, E4, E5. destruct en; [|discriminate]. cbn [eh_suite eh_config fst snd] in E4, E5. apply andb_true_iff in E4. destruct E4 as [E4a E4b].
        apply N.eqb_eq in E4a, E4b, E5. subst kdf' ae' cid'. split; [|congruence]. exists d, kdf, ae, cid1, en1.
        split; [reflexivity|]. split; [exact C1|]. split; [exists pl; exact Ex'|]. congruence.
      - destruct B as (B & _). destruct (hrr_none e (upd_read s2 (Some r)) c0 o0 _ ltac:(change (s_ech (upd_read s2 (Some r))) with (s_ech s2); congruence) E1) as (cid' & Ex).
        injection Ex as -> _ -> ->. split; [split; reflexivity|exact X2]. }
    destruct Htr as [Htr Hst]. split.
    + eapply et_retry; [apply waits_only, HW1|apply (serverCookie_none e), Hck1|exact A|apply waits_only, HW|apply (serverCookie_none e), Hck|exact Htr].
    + destruct o as [| |]; [congruence|congruence|]. destruct B as (B & st1 & B1 & B2). split; [congruence|].
      rewrite X3, B1 in Ein. eexists. split; [exact Ein|]. exact B2.
Qed.
Lemma ech_of e log s w c0 o0 n : awaiting e log s -> neg_facts e w s c0 o0 n ->
  exists o, ech_treated e log c0 o0 o (n_hello n) (n_orig n) /\ ech_result (first_of log c0) n o.
Proof. intros Ha HN. apply (ech_of0 e log s c0 o0 n Ha); apply HN. Qed.
Lemma psk_kind_of e w s c0 o0 n P : neg_facts e w s c0 o0 n -> p_hello P = n_hello n ->
  match p_ticket P with Some (_, pt, _) => n_pskType n = pt | None => n_res n = None end -> psk_kind e w P (n_pskType n).
Proof.
  intros HN Hh Hp. unfold psk_kind. destruct (p_ticket P) as [[[? ?] ?]|]; [exact Hp|]. rewrite Hh.
  pose proof (nf_eq _ _ _ _ _ _ HN) as H. unfold hello_negotiate in H.
  bo H ck E1. bo H u1 E2. apply bind_Ok in H. destruct H as ((((es & est) & c) & orig) & E3 & H). cbv beta iota in H.
  bo H ul El. bo H u2 E4. bo H v E5. bo H u3 E6. destruct v as [version|].
  2:{ bo H ed E7. bo H u4 E8. destruct (e_fallback e); [|discriminate]. bo H d E9. bo H sni E10. discriminate. }
  bo H dv E7. bo H u4 E8. destruct (negotiate_tiers (e_ciphers e) (ch_suites c)) as [cipher|] eqn:E9; [|discriminate].
  bo H u5 E10. bo H u6 E11. bo H q E12. bo H rc E13.
  apply bind_Ok in H. destruct H as ((((pt & rs) & mode) & age) & E14 & H). cbv beta iota in H.
  apply bind_Ok in H. destruct H as (((pt' & rs') & mode') & E15 & H). cbv beta iota in H.
  injection H as <-. cbn [n_pskType n_hello n_res] in *. subst rs'.
  unfold resumptionQuery in E12. bo E12 p Ep. bo E12 m Em.
  assert (Hsh : match match m with Some (XPskKeyExchangeModes l) => Some l | _ => None end with Some l => negotiate (e_pskModes e) l | None => None end <> None <-> psk_mode_shared e c).
  { unfold psk_mode_shared. rewrite Em. split.
    - intros Hn. destruct m as [[]|]; try congruence. destruct (negotiate (e_pskModes e) l) as [md|] eqn:En; [|congruence].
      apply negotiate_preferred in En. destruct En as (a & b & En & Hi & _). exists l, md. split; [reflexivity|]. rewrite En. split; [apply in_or_app; right; left; reflexivity|exact Hi].
    - intros (ms & md & Eq & H1 & H2). injection Eq as ->. intros Hn. apply (negotiate_none _ _ Hn _ H1 H2). }
  cbv zeta in E12. set (mode0 := match match m with Some (XPskKeyExchangeModes l) => Some l | _ => None end with Some l => negotiate (e_pskModes e) l | None => None end) in *.
  assert (Hq : (exists ids bs, p = Some (XClientPresharedKey (ids, bs))) \/ p = None).
  { destruct p as [p|]; [|auto]. left. pose proof Ep as Ep'. apply getExtension_strict in Ep'. destruct Ep' as (Hk & _). destruct p; try discriminate Hk. destruct p as [ids bs]. eauto. }
  destruct Hq as [(ids & bs & ->)| ->].
  - right. exists ids, bs. split; [exact Ep|]. destruct m as [m|]; [|discriminate]. destruct m; try discriminate.
    destruct ids as [|[id ag] ids].
    + injection E12 as <-. injection E14 as <- <- <- <-. injection E15 as <- <-. reflexivity.
    + destruct (negb (e_ticketCipher e)).
      { injection E12 as <-. injection E14 as <- <- <- <-. injection E15 as <- <-. auto. }
      destruct mode0 as [md|].
      2:{ injection E12 as <-. injection E14 as <- <- <- <-. injection E15 as <- <-. auto. }
      bo E12 i Ei. apply deref_ok in Ei. injection E12 as <-. apply bind_Ok in E14. destruct E14 as ((t & r) & E14 & X). cbv beta iota in X. injection X as <- <- <- <-.
      destruct r as [r|].
      * bo E15 b Eb. destruct b; [discriminate|]. injection E15 as <- <-. auto.
      * injection E15 as <- <-. right. eauto.
  - left. split; [exact Ep|]. destruct mode0 as [md|]; injection E12 as <-; injection E14 as <- <- <- <-; injection E15 as <- <-.
    + right. split; [reflexivity|]. apply Hsh. discriminate.
    + left. split; [reflexivity|]. intros X. apply Hsh in X. congruence.
Qed.

(** ** The conditions on a ClientHello *)
Lemma acceptEarly_iff e v : acceptEarly e v = true <-> accepts_early e v.
Proof.
  unfold acceptEarly, accepts_early. destruct (e_earlyFbOnly e); cbn [andb].
  - destruct (N.eqb_spec v 0xfb17); cbn [negb andb]; [split; [auto|tauto]|].
    destruct (N.eqb_spec v 0xfb1a); cbn [negb andb]; [split; [auto|tauto]|].
    split; [discriminate|]. intros [_ X]. destruct (X eq_refl); congruence.
  - split; [intros ->; split; [reflexivity|discriminate]|tauto].
Qed.
Lemma earlyOffered_iff c o : earlyOffered c = Ok o -> (o = true <-> early_offered c) /\ (o = false <-> getExtension KClientEarlyData (ch_extensions c) = Ok None).
Proof.
  unfold earlyOffered, early_offered. intros H. bo H x Ex. injection H as <-. rewrite Ex. destruct x as [x|].
  - pose proof Ex as Ex'. apply getExtension_strict in Ex'. destruct Ex' as (Hk & _). destruct x; try discriminate Hk. split; split; intros; congruence.
  - split; split; intros; congruence.
Qed.
Lemma negotiate_facts e w s c0 o0 n : neg_facts e w s c0 o0 n -> exists q, resumptionQuery e (n_hello n) = Ok q /\
  match q with
  | inl _ => n_res n = None
  | inr (id, md, age) => n_age n = Some age /\ exists t r0, w_ticketDecrypt w id = Ok (t, r0) /\
      match r0 with
      | None => n_res n = None
      | Some r => exists b, validateResumption r (n_version n) (n_cipher n) = Ok b /\ n_res n = (if b : bool then Some r else None) /\
          n_pskMode n = (if b : bool then Some md else None)
      end
  end.
Proof.
  intros HN. pose proof (nf_eq _ _ _ _ _ _ HN) as H. unfold hello_negotiate in H.
  bo H ck E1. bo H u1 E2. apply bind_Ok in H. destruct H as ((((es & est) & c) & orig) & E3 & H). cbv beta iota in H.
  bo H ul El. bo H u2 E4. bo H v E5. bo H u3 E6. destruct v as [version|].
  2:{ bo H ed E7. bo H u4 E8. destruct (e_fallback e); [|discriminate]. bo H d E9. bo H sni E10. discriminate. }
  bo H dv E7. bo H u4 E8. destruct (negotiate_tiers (e_ciphers e) (ch_suites c)) as [cipher|] eqn:E9; [|discriminate].
  bo H u5 E10. bo H u6 E11. bo H q E12. bo H rc E13.
  apply bind_Ok in H. destruct H as ((((pt & rs) & mode) & age) & E14 & H). cbv beta iota in H.
  apply bind_Ok in H. destruct H as (((pt' & rs') & mode') & E15 & H). cbv beta iota in H.
  injection H as <-. cbn [n_pskType n_hello n_res n_age n_version n_cipher n_pskMode] in *. exists q. split; [exact E12|].
  destruct q as [t|[[id md] ag]].
  - injection E14 as <- <- <- <-. injection E15 as <- <- <-. reflexivity.
  - apply bind_Ok in E14. destruct E14 as ((t & r) & E14 & X). cbv beta iota in X. injection X as <- <- <- <-. split; [reflexivity|].
    exists t, r. split; [exact E14|]. destruct r as [r|]; [|injection E15 as <- <- <-; reflexivity].
    bo E15 b Eb. exists b. split; [exact Eb|]. destruct b; injection E15 as <- <- <-; auto.
Qed.
Lemma validate_iff r v ci b : validateResumption r v ci = Ok b -> (b = true <-> rs_version r = v /\ same_hash (rs_cipher r) ci).
Proof.
  unfold validateResumption, same_hash. intros H. destruct (N.eqb_spec (rs_version r) v) as [E|E]; cbn [negb] in H.
  - bo H x Ex. bo H y Ey. injection H as <-. destruct (N.eqb_spec x y) as [->|Hn].
    + split; [intros _; split; [exact E|]; exists y; auto|reflexivity].
    + split; [discriminate|]. intros (_ & z & Z1 & Z2). congruence.
  - injection H as <-. split; [discriminate|]. intros (X & _). congruence.
Qed.
Lemma populate_readable c g : snd (HandshakeLog.populate c g) = Ok tt -> forall k, In k [KSupportedVersions; KProtocolNameList; KServerNameList; KSupportedGroups; KClientKeyShare; KPskKeyExchangeModes; KSignatureAlgorithms; KCertCompressionAlgs] ->
  exists x, getExtension k (ch_extensions c) = Ok x.
Proof.
  unfold HandshakeLog.populate. intros H.
  assert (F : forall k exts use next g, snd (HandshakeLog.field k exts use next g) = Ok tt -> (exists x, getExtension k exts = Ok x) /\ exists g', snd (next g') = Ok tt).
  { intros k exts use next g0. unfold HandshakeLog.field. destruct (getExtension k exts) as [x|]; [|discriminate]. destruct (use x g0) as [g'|]; [|discriminate]. eauto. }
  apply F in H. destruct H as (X0 & g0 & H). destruct (HandshakeLog.testByte _ _) as [t|]; [|discriminate].
  apply F in H. destruct H as (X1 & g1 & H). apply F in H. destruct H as (X2 & g2 & H). apply F in H. destruct H as (X3 & g3 & H). apply F in H. destruct H as (X4 & g4 & H).
  apply F in H. destruct H as (X5 & g5 & H). apply F in H. destruct H as (X6 & g6 & H). apply F in H. destruct H as (X7 & g7 & H).
  intros k Hk. cbn [In] in Hk. decompose [or] Hk; subst; assumption || contradiction.
Qed.
Lemma legal_of e w s c0 o0 n : neg_facts e w s c0 o0 n -> legal_hello (n_hello n).
Proof.
  intros HN. pose proof (nf_valid _ _ _ _ _ _ HN) as V. unfold validateClientHello in V.
  assert (Hc : ch_compression (n_hello n) = [0] /\ checkDuplicateExtensions (ch_extensions (n_hello n)) = Ok tt).
  { destruct (ch_compression (n_hello n)) as [|[|] [|]]; try discriminate; auto. }
  destruct Hc as [Hc V']. constructor; [exact Hc| | |].
  - destruct (C31_duplicates (ch_extensions (n_hello n))) as [_ D]. destruct (ListDec.NoDup_dec N.eq_dec (map ext_type (ch_extensions (n_hello n)))) as [Y|Y]; [exact Y|].
    rewrite (D Y) in V'. discriminate.
  - intros x Hx. destruct (negotiate_facts _ _ _ _ _ _ HN) as (q & Q & _). unfold resumptionQuery in Q. rewrite Hx in Q. cbn [bind] in Q. bo Q m Em.
    pose proof Hx as Hx'. apply getExtension_strict in Hx'. destruct Hx' as (Hk & _). destruct x; try discriminate Hk. destruct p as [ids bs].
    rewrite Em. destruct m as [m|]; [|discriminate]. destruct m; try discriminate. eauto.
  - eapply populate_readable, (nf_logged _ _ _ _ _ _ HN).
Qed.
Lemma kind_cookie x exts : getExtension KCookie exts = Ok (Some x) -> exists b, x = XCookie b.
Proof. intros H. apply getExtension_strict in H. destruct H as (Hk & _). destruct x; try discriminate Hk. eauto. Qed.
Lemma cookie_of e w s c0 o0 n : neg_facts e w s c0 o0 n -> forall b, getExtension KCookie (ch_extensions c0) = Ok (Some (XCookie b)) ->
  exists dec x ck, e_cookie e = Some dec /\ b = Some x /\ dec x = Ok (Some ck) /\ n_cookie n = Some ck /\ ck_version ck = n_version n /\ ck_cipher ck = n_cipher n.
Proof.
  intros HN b Hb. pose proof (nf_cookie _ _ _ _ _ _ HN) as H. unfold serverCookie in H. rewrite Hb in H. cbn [bind] in H.
  destruct (e_cookie e) as [dec|]; [|discriminate]. bo H d Ed. apply deref_ok in Ed. bo H st Est. destruct st as [ck|]; [|discriminate]. bo H u Eu.
  assert (Hn : n_cookie n = Some ck) by congruence. pose proof (nf_verifycookie _ _ _ _ _ _ HN) as V. rewrite Hn in V. unfold verifyCookie in V. bo V u1 V1.
  apply ensure_ok in V1, V. apply N.eqb_eq in V1, V. exists dec, d, ck. auto 10.
Qed.
Lemma cookie_none e w s c0 o0 n : neg_facts e w s c0 o0 n -> (n_cookie n = None <-> no_cookie c0).
Proof.
  intros HN. split.
  - intros E. pose proof (nf_cookie _ _ _ _ _ _ HN) as H. rewrite E in H. apply serverCookie_none in H. exact H.
  - intros Hc. pose proof (nf_cookie _ _ _ _ _ _ HN) as H. unfold serverCookie in H. bo H x Ex. destruct x as [x|]; [|congruence].
    destruct (kind_cookie _ _ Ex) as (b & ->). destruct (Hc b Ex).
Qed.
(** What the handler makes of a PSK extension. *)
Lemma query_of e c id age ids bs q : getExtension KClientPresharedKey (ch_extensions c) = Ok (Some (XClientPresharedKey ((Some id, age) :: ids, bs))) ->
  resumptionQuery e c = Ok q ->
  match q with
  | inl _ => ~ (e_ticketCipher e = true /\ psk_mode_shared e c)
  | inr (id', md, age') => id' = id /\ age' = age /\ e_ticketCipher e = true /\
      exists ms, getExtension KPskKeyExchangeModes (ch_extensions c) = Ok (Some (XPskKeyExchangeModes ms)) /\ preferred (e_pskModes e) ms md
  end.
Proof.
  intros Hx Q. unfold resumptionQuery in Q. rewrite Hx in Q. cbn [bind] in Q. bo Q m Em. cbv zeta in Q. cbv iota in Q.
  destruct m as [m|]; [|discriminate]. destruct m; try discriminate. cbv iota in Q.
  destruct (e_ticketCipher e); cbn [negb] in Q; [|injection Q as <-; intros [X _]; discriminate].
  destruct (negotiate (e_pskModes e) l) as [md|] eqn:En.
  - cbn [deref bind] in Q. injection Q as <-. split; [reflexivity|]. split; [reflexivity|]. split; [reflexivity|]. exists l. split; [exact Em|]. apply negotiate_preferred, En.
  - injection Q as <-. intros (_ & ms & md & Z1 & Z2 & Z3). assert (ms = l) as -> by congruence. exact (negotiate_none _ _ En _ Z2 Z3).
Qed.
Lemma chk64_ok x d : chk64 x = Ok d -> d = x.
Proof. unfold chk64. match goal with |- (if ?q then _ else _) = _ -> _ => destruct q; [|discriminate] end. congruence. Qed.
Lemma early_iff e w c rs version cipher kt ck alpn rc skew ed o : negotiateEarly e w c rs version cipher kt ck alpn rc skew = Ok ed -> earlyOffered c = Ok o ->
  (ed = EdNotAttempted <-> o = false) /\
  (ed = EdAccepted <-> o = true /\ acceptEarly e version = true /\ kt <> Some KexHRR /\ ck = None /\ rc = RNotReplay /\
     exists r k, rs = Some r /\ skew = Some k /\ rs_cipher r = cipher /\ rs_alpn r = alpn /\ (e_tolBefore e <= k <= e_tolAfter e)%Z /\ (e_tokenValidator e = true -> w_tokenValid w r = true)).
Proof.
  intros H Ho. split.
  - unfold negotiateEarly in H. rewrite Ho in H. cbn [bind] in H. destruct o; cbn [negb] in H; [|split; congruence]. split; [|discriminate]. intros ->. injection H as H.
    destruct (negb (acceptEarly e version)); [discriminate|]. destruct rs as [r|]; [|discriminate]. destruct (negb (rs_cipher r =? cipher)); [discriminate|].
    destruct (negb (opt_eqb (rs_alpn r) alpn)); [discriminate|]. destruct (match kt with Some KexHRR => true | _ => false end); [discriminate|]. destruct ck; [discriminate|].
    destruct rc; try discriminate. destruct skew as [k|]; [|discriminate]. destruct ((k <? e_tolBefore e) || (e_tolAfter e <? k))%Z; [discriminate|].
    destruct (e_tokenValidator e && negb (w_tokenValid w r)); discriminate.
  - split.
    + intros ->. apply early_ticket in H. destruct H as (r & k & X1 & X2 & X3 & X4 & X5 & X6 & X7 & X8 & X9 & X10 & X11).
      split; [congruence|]. split; [exact X4|]. split; [exact X7|]. split; [exact X8|]. split; [exact X9|]. exists r, k. auto 10.
    + intros (-> & Ha & Hk & -> & -> & r & k & -> & -> & E1 & E2 & E3 & E4). unfold negotiateEarly in H. rewrite Ho, Ha in H. cbn [bind negb] in H. injection H as H.
      rewrite E1, N.eqb_refl in H. cbn [negb] in H. assert (E5 : opt_eqb (rs_alpn r) alpn = true).
      { rewrite E2. destruct alpn; [cbn; apply bytes_eqb_eq; reflexivity|reflexivity]. }
      rewrite E5 in H. cbn [negb] in H. destruct (match kt with Some KexHRR => true | _ => false end) eqn:E6; [destruct kt as [[]|]; congruence|].
      assert (E7 : ((k <? e_tolBefore e) || (e_tolAfter e <? k))%Z = false) by (apply orb_false_iff; split; apply Z.ltb_ge; lia). rewrite E7 in H.
      destruct (e_tokenValidator e); [rewrite E4 in H by reflexivity|]; cbn [andb negb] in H; congruence.
Qed.
(** The first ClientHello used, with the early data type that was recorded for it. *)
Lemma first_used_of e log s w c0 o0 n P : awaiting e log s -> neg_facts e w s c0 o0 n -> p_hello P = n_hello n ->
  (s_early s = None /\ only_waits log) \/
  exists c1 o, first_used e log P c1 /\ earlyOffered c1 = Ok o /\ s_early s = Some (if o : bool then EdRejected else EdNotAttempted).
Proof.
  intros Ha HN Hp. destruct Ha as [(r & -> & HW)|Hr]; [left; split; [reflexivity|apply waits_only, HW]|]. right.
  destruct Hr as (log1 & s1 & w1 & c1 & orig1 & s2 & outs & W & r & Hf & Hh & Es & -> & HW & ->).
  destruct (retry_outs _ _ _ _ _ _ _ _ (or_introl Hf) Hh Es) as (n1 & sid1 & h1 & k1 & hc1 & alpn1 & skew1 & ed1 & early1 & g1 & ct1 & b1 & Q1 & Q2 & Q3 & Q4 & Q5 & Q6 & Q7 & Q8 & Q9).
  pose proof (hf_neg _ _ _ _ _ _ _ _ _ _ _ _ _ _ Q1) as HN1. pose proof (nf_ech _ _ _ _ _ _ HN1) as H1. rewrite Q8 in H1.
  assert (Hx : s_hctx s1 = None /\ s_ech s1 = EchNotRequested) by (destruct Hf as (r0 & -> & _); split; reflexivity).
  destruct (ech_start e _ c1 orig1 n1 (proj1 Hx) (proj2 Hx) H1) as (o & A & _). pose proof (hf_ed _ _ _ _ _ _ _ _ _ _ _ _ _ _ Q1) as Hed.
  pose proof Hed as Hed'. unfold negotiateEarly in Hed'. bo Hed' oo Eo. clear Hed'. destruct (early_iff _ _ _ _ _ _ _ _ _ _ _ _ _ Hed Eo) as [I1 _].
  exists (n_hello n1), oo. split; [|split; [exact Eo|]].
  - right. exists log1, w1, c1, orig1. destruct Hf as (r0 & _ & HW1). rewrite Q2. unfold hello_log. cbn [map app].
    do 3 eexists. exists (n_orig n1). split; [reflexivity|]. split; [apply waits_only, HW1|]. split; [apply waits_only, HW|exact A].
  - apply hello_retry_facts in Q9. destruct Q9 as (h' & m & hrr0 & hrr & b & wl1 & ct' & R1 & R2 & R3 & R4 & R5 & R6 & R7 & R8 & R9).
    rewrite R9. cbn [s_early upd_read upd_state upd_hello]. f_equal. destruct oo.
    + destruct ed1; try reflexivity. destruct I1 as [I1 _]. specialize (I1 eq_refl). discriminate.
    + destruct I1 as [_ I1]. rewrite (I1 eq_refl). reflexivity.
Qed.

(** ** The flight *)
Lemma one_write pre0 a b d cs0 post0 pre cs post :
  pre0 ++ [OSecret' SkClientHs a; OSecret' SkServerHs b; OSecret' SkServerApp d; OWrite cs0] ++ post0 = pre ++ OWrite cs :: post ->
  (pre0 = [] \/ exists t, pre0 = [OSecret' SkEarly t]) -> (post0 = [] \/ post0 = [OEarlySuccess]) -> cs = cs0 /\ post = post0.
Proof.
  intros E [->|(t & ->)] [->| ->]; cbn [app] in E; destruct pre as [|? [|? [|? [|? [|? [|? pre]]]]]]; cbn [app] in E; try discriminate;
    try (injection E; intros; subst; auto; fail); exfalso; injection E; intros; destruct pre; discriminate.
Qed.
Lemma ccs_compat sid : ccs_if sid = compat_ccs sid.
Proof. destruct sid; reflexivity. Qed.
Lemma set_confirms h hc inner m0 m : hash_ok h -> hc_hash hc = h -> 8 <= blen (sh_random m0) -> setAcceptSH hc h inner m0 = Ok m ->
  confirms h inner (hc_data hc) m /\ exists pre a b, sh_random m0 = pre ++ a /\ sh_random m = pre ++ b /\ blen a = 8 /\ blen b = 8.
Proof.
  intros Hh Hc Hr H. destruct (C42_set_check _ _ _ _ _ Hh Hc Hr H) as (A & tail & Ht & pre & old & B1 & B2 & B3 & B).
  assert (Hr' : 8 <= blen (sh_random m)) by (rewrite B3, blen_app; lia).
  split.
  - destruct (C42_check _ _ _ _ _ Hh Hc Hr' A) as (pre' & tail' & d & b & D1 & D2 & D3 & D4 & D5). exists pre', tail', d, b.
    split; [exact D1|]. split; [exact D2|]. split; [exact D3|]. split; [exact D4|]. apply D5. reflexivity.
  - exists pre, old, tail. auto.
Qed.
Lemma encrypted_say alpn ed rtry other b : encryptedExts alpn ed rtry other = Ok b ->
  exists al ea rt, encodeHandshake (MEncryptedExtensions (al ++ ea ++ rt ++ other)) = Ok b /\
    one_ext (match alpn with Some p => Some (XProtocolNameList [Some p]) | None => None end) al /\
    one_ext (match ed with EdAccepted => Some XServerEarlyData | _ => None end) ea /\
    one_ext (match rtry with Some r => Some (XEchEncryptedExtensions r) | None => None end) rt.
Proof.
  unfold encryptedExts. intros H. bo H e1 E1. bo H e2 E2. bo H e3 E3. exists e1, e2, e3. split; [exact H|].
  split; [|split].
  - destruct alpn; [bo E1 x Ex; injection E1 as <-; exists x; auto|cbn; congruence].
  - destruct ed; try (cbn; congruence). bo E2 x Ex; injection E2 as <-; exists x; auto.
  - destruct rtry; [bo E3 x Ex; injection E3 as <-; exists x; auto|cbn; congruence].
Qed.
Definition is_accepted (ed : earlytype) : bool := match ed with EdAccepted => true | _ => false end.

Lemma past_answer e log s H L : env_ok e -> past e log s H L -> exists P pre cs post o alpn scert scheme,
  i_outs H = pre ++ OWrite cs :: post /\ flight cs (i_sh H) (i_fl H) /\ post = (if is_accepted (i_ed H) then [OEarlySuccess] else []) /\
  handshake_of e (i_log H) (i_w H) (i_c H) (i_orig H) cs P /\ same_params H P /\
  answer e (i_log H) (i_w H) (i_c H) (i_orig H) cs P o (is_accepted (i_ed H)) alpn scert scheme /\
  reports (i_s2 H) e (i_log H) (i_w H) P o (is_accepted (i_ed H)) alpn scert scheme.
Proof.
  intros He PA. destruct (past_params _ _ _ _ _ He PA) as (P & pre & cs & post & Ho & Hfl & Hpost & HO & SP).
  pose proof (pa_before _ _ _ _ _ PA) as Ha. pose proof (pa_flight _ _ _ _ _ PA) as FO.
  destruct (pa_facts _ _ _ _ _ PA) as (sid & k & hc & alpn & skew & early & kt & group & HF & Hm & FF & Hhc & _).
  destruct FF as [(k2 & exts & random & sh0 & sh & rtry & bsh & hws & hwl & hrs & hrl & bee & reqExts & creq & scert & ccert & scheme & auth & hc4 & bfin & hc5 & enc & wl & ct & k3 & ems & k4 & aws & awl & F)]; cbv zeta in F.
  set (n := i_n H) in *. set (h := i_h H) in *.
  set (ra := match e_authMode e, n_res n with AuthNone, _ => false | _, Some _ => false | _, None => true end) in *.
  destruct F as (F1 & F2 & F3 & F4 & F5 & F6 & F7 & F8 & F9 & F10 & F11 & F12 & F13 & F14 & F15 & F16 & F17 & F18 & F19 & F20 & F21 & F22 & F23 & F24 & F25 & F26).
  pose proof (hf_setup _ _ _ _ _ _ _ _ _ _ _ _ _ _ HF) as HS. destruct HS as [Eh (hc0 & S1 & S2 & S3)].
  pose proof (eo_hash e He _ _ Eh) as Hok. pose proof (hf_neg _ _ _ _ _ _ _ _ _ _ _ _ _ _ HF) as HN. fold n in HN.
  assert (Hhash : hc_hash hc = h).
  { eapply hello_transcript; [exact HF|]. apply awaiting_hctx; [exact Ha|]. intros ci Hci. rewrite <- (nf_samecipher _ _ _ _ _ _ HN _ Hci). exact Eh. }
  destruct (ech_of _ _ _ _ _ _ _ Ha HN) as (o & EO & ER).
  (* the one write *)
  assert (Hw : cs = ct :: ccs_if sid ++ [enc] /\ post = (if is_accepted (i_ed H) then [OEarlySuccess] else [])).
  { destruct F26 as [(ets & erl & eexp & Eed & _ & Eo & _)|(Ned & Eo & _)].
    - rewrite Eo in Ho. change (OSecret' SkEarly ets :: [OSecret' SkClientHs hrs; OSecret' SkServerHs hws; OSecret' SkServerApp aws] ++ [OWrite (ct :: ccs_if sid ++ [enc]); OEarlySuccess])
        with ([OSecret' SkEarly ets] ++ [OSecret' SkClientHs hrs; OSecret' SkServerHs hws; OSecret' SkServerApp aws; OWrite (ct :: ccs_if sid ++ [enc])] ++ [OEarlySuccess]) in Ho.
      apply one_write in Ho; [|eauto|auto]. rewrite Eed. exact Ho.
    - rewrite Eo in Ho. change ([OSecret' SkClientHs hrs; OSecret' SkServerHs hws; OSecret' SkServerApp aws] ++ [OWrite (ct :: ccs_if sid ++ [enc])])
        with ([] ++ [OSecret' SkClientHs hrs; OSecret' SkServerHs hws; OSecret' SkServerApp aws; OWrite (ct :: ccs_if sid ++ [enc])] ++ []) in Ho.
      apply one_write in Ho; [|auto|auto]. destruct (i_ed H); try congruence; exact Ho. }
  destruct Hw as (Hcs & Hpo).
  assert (hwl_enc : exists ws, hwl = WEnc LvHandshake ws).
  { unfold new_write in F11. bo F11 rv Q1. bo F11 aa Q2. injection F11 as <-. eauto. }
  destruct hwl_enc as (wsh & Ehwl). destruct (write_flight_content _ _ _ _ _ Ehwl F18) as (X1 & X2 & X3).
  assert (wl = WPlain) as -> by (pose proof (awaiting_write _ _ _ Ha); congruence).
  destruct (wl_write WPlain 22 [bsh]) as [wl' rr] eqn:Ewl. cbn [snd] in F20. subst rr.
  apply wl_write_content in Ewl. destruct Ewl as (W1 & W2 & W3 & _). cbn [concat] in W2. rewrite app_nil_r in W2.
  assert (HFl : flight cs bsh (concat (bee :: (if ra then [creq] else []) ++ auth ++ [bfin]))).
  { rewrite Hcs. exists ct, enc. split; [|auto]. cbn [filter]. unfold is_hs at 1. rewrite W1, N.eqb_refl. f_equal.
    rewrite filter_app, ccs_filter. cbn. unfold is_hs. rewrite X2. reflexivity. }
  destruct (flight_unique _ _ _ _ _ Hfl HFl) as (Hsh & Hflt).
  pose proof SP as SP0. destruct SP0 as [sp1 sp2 sp3 sp4 sp5 sp6 sp7 sp8 sp9 sp10 sp11 sp12 sp13 sp14 sp15 sp16]. fold n h in sp1, sp2, sp3, sp4, sp5, sp8, sp13, sp14.
  assert (Ehws : hws = server_hs_secret h (p_psk P) (p_dh P) (p_Tsh P)).
  { destruct (fo_outs _ _ _ _ _ _ _ _ _ _ _ _ _ _ FO) as (pr & cs' & po & Eo & _ & Hpp). cbv zeta in Eo. rewrite sp6, sp7, sp9. unfold i_psk, i_dh, i_tsh. fold h.
    destruct F26 as [(ets & erl & eexp & Eed & _ & Eo' & _)|(Ned & Eo' & _)]; destruct Hpp as [(E1 & -> & ->)|(E1 & -> & ->)]; try contradiction; rewrite Eo' in Eo; cbn [app] in Eo;
      [injection Eo as _ _ Eo _ _; exact Eo|injection Eo as _ Eo _ _; exact Eo]. }
  assert (Hreq : p_ticket P = None <-> n_res n = None).
  { destruct (p_ticket P) as [[[? ?] r]|]; [rewrite sp13; split; discriminate|rewrite sp13; split; reflexivity]. }
  assert (Hasks : asks e P = ra).
  { unfold asks, ra. destruct (p_ticket P) as [[[? ?] r]|]; rewrite sp13; destruct (e_authMode e); reflexivity. }
  set (cr := concat (if ra then [creq] else [])).
  assert (Hcr : p_fl P = bee ++ cr ++ concat auth ++ bfin).
  { rewrite sp12, Hflt. unfold cr. cbn [concat]. rewrite !concat_app. cbn [concat]. rewrite app_nil_r. reflexivity. }
  assert (H3 : (if ra then hc_append (hc_append (hc_append hc bsh) bee) creq else hc_append (hc_append hc bsh) bee) = mkHc h (p_Tsh P ++ bee ++ cr)).
  { rewrite sp9. unfold i_tsh. rewrite <- Hhc, Hsh. unfold cr. destruct ra; unfold hc_append; cbn [hc_hash hc_data concat]; rewrite Hhash, ?app_nil_r, <- ?app_assoc; reflexivity. }
  rewrite H3 in F16.
  assert (HA : auth_says e P (p_Tsh P ++ bee ++ cr) (concat auth) scert scheme /\ hc4 = mkHc h (p_Tsh P ++ bee ++ cr ++ concat auth)).
  { unfold auth_says. destruct (p_ticket P) as [[[id pt] r]|].
    - rewrite sp13 in F16. destruct F16 as (-> & _ & -> & -> & ->). cbn [concat]. rewrite app_nil_r. auto.
    - rewrite sp13 in F16. destruct F16 as (crt & sch & m & sg & hc' & v & G1 & G2 & -> & _ & -> & -> & ->).
      unfold server_auth in G1. apply bind_Ok in G1. destruct G1 as ((so & sc) & P1 & G1). cbv beta iota in G1. bo G1 algo P2.
      unfold chooseCert in P1. bo P1 x Ex. destruct x as [x|]; [|discriminate]. destruct x; try discriminate. bo P1 sni Es. bo P1 rc Er. destruct rc as [rc|]; [|discriminate]. assert (rc = (so, sc)) as -> by congruence. clear P1.
      fold n in Ex, Es, Er. rewrite <- sp1 in Ex, Es, Er, P2.
      assert (Hx : so_cert so = crt /\ sc = sch /\ hc' = hc_append (mkHc h (p_Tsh P ++ bee ++ cr)) m /\
         match so_async so with
         | Some f => f algo sch (mkHc h (p_Tsh P ++ bee ++ cr)) = Ok (m, sg)
         | None => so_sign so sch CvServer (h_fn h ((p_Tsh P ++ bee ++ cr) ++ m)) = Ok sg /\ certificateBytes so algo = Ok m
         end).
      { destruct (so_async so) as [f|].
        - apply bind_Ok in G1. destruct G1 as ((m' & sig') & P3 & G1). cbv beta iota in G1. repeat split; congruence.
        - bo G1 m' P3. bo G1 sig' P4. unfold hc_context in P4. cbn [hc_append hc_hash hc_data] in P4.
          assert (m' = m /\ sig' = sg /\ sc = sch) as (-> & -> & ->) by (repeat split; congruence). repeat split; try congruence; assumption. }
      destruct Hx as (<- & -> & -> & Hx). split.
      + exists so, sch, sni, l, algo, m, sg, v. split; [apply getSNI_of, Es|]. split; [exact Ex|]. split; [exact Er|]. split; [reflexivity|]. split; [reflexivity|].
        split; [apply compression_of, P2|]. split; [cbn [concat]; rewrite app_nil_r; reflexivity|]. split; [exact G2|]. rewrite sp5.
        destruct (so_async so); [exact Hx|]. destruct Hx as (Hx1 & Hx2). split; [exact Hx1|]. unfold certificateBytes in Hx2.
        destruct algo; bo Hx2 x' Ex'; exists x'; auto.
      + unfold hc_append. cbn [hc_hash hc_data concat]. rewrite app_nil_r, <- !app_assoc. reflexivity. }
  destruct HA as (HA & H4).
  assert (Hfin : bfin = be 1 20 ++ be 3 (h_len h) ++ verify_data h (server_hs_secret h (p_psk P) (p_dh P) (p_Tsh P)) (p_Tsh P ++ bee ++ cr ++ concat auth)).
  { unfold getFinished in F17. bo F17 v P1. bo F17 m P2. injection F17 as <- <-. apply encode_shape in P2. destruct P2 as (body & [= ->] & ->).
    rewrite finished_ok in P1; [|subst hc4; exact Hok|subst hc4; rewrite Ehws; apply DeriveSecret_len, Hok].
    rewrite H4 in P1. cbn [hc_hash hc_data] in P1. rewrite Ehws in P1. injection P1 as <-. cbn [hs_type].
    do 3 f_equal. apply HMAC_len, Hok. }
  destruct (encrypted_say _ _ _ _ _ F14) as (al & ea & rt & Y1 & Y2 & Y3 & Y4).
  exists P, pre, cs, post, o, alpn, scert, scheme. split; [exact Ho|]. split; [exact Hfl|]. split; [exact Hpo|]. split; [exact HO|]. split; [exact SP|].
  assert (Hofr : exists ofr, earlyOffered (n_hello n) = Ok ofr).
  { pose proof (nf_replay _ _ _ _ _ _ HN) as X. unfold replayResult in X. bo X ofr Eofr. eauto. }
  destruct Hofr as (ofr & Eofr). destruct (earlyOffered_iff _ _ Eofr) as [Of1 Of2]. rewrite <- sp1 in Of1, Of2.
  pose proof (hf_ed _ _ _ _ _ _ _ _ _ _ _ _ _ _ HF) as Hed. fold n in Hed. destruct (early_iff _ _ _ _ _ _ _ _ _ _ _ _ _ Hed Eofr) as [Ed1 Ed2].
  destruct (negotiate_facts _ _ _ _ _ _ HN) as (q & Eq & Hq).
  assert (Htk : forall id t r, p_ticket P = Some (id, t, r) -> exists age ids bs ms md,
    getExtension KClientPresharedKey (ch_extensions (p_hello P)) = Ok (Some (XClientPresharedKey ((Some id, age) :: ids, bs))) /\ skew = Some (skew_of (i_w H) age r) /\
    getExtension KPskKeyExchangeModes (ch_extensions (p_hello P)) = Ok (Some (XPskKeyExchangeModes ms)) /\ preferred (e_pskModes e) ms md /\ n_pskMode n = Some md).
  { intros id t r Et. rewrite Et in sp13. pose proof (ho_ticket _ _ _ _ _ _ _ HO) as T. rewrite Et in T. destruct T as ((ids & bs & age & T1 & T2 & _) & _).
    destruct ids as [|i0 ids]; [discriminate|]. injection T2 as ->. pose proof T1 as T1'. rewrite sp1 in T1'. pose proof (query_of _ _ _ _ _ _ _ T1' Eq) as Hqq.
    destruct q as [|[[id' md] age']]; [congruence|]. destruct Hqq as (-> & -> & _ & ms & Q1 & Q2). destruct Hq as (Hag & t' & r0 & Q3 & Q4).
    destruct r0 as [r0|]; [|congruence]. destruct Q4 as (b & Q4 & Q5 & Q6). destruct b; [|congruence]. assert (r0 = r) as -> by congruence.
    exists age, ids, bs, ms, md. split; [exact T1|]. split; [|split; [rewrite sp1; exact Q1|split; [exact Q2|exact Q6]]].
    pose proof (hf_skew _ _ _ _ _ _ _ _ _ _ _ _ _ _ HF) as K. fold n in K. rewrite sp13, Hag in K. unfold clockSkew in K. bo K d Ek. apply chk64_ok in Ek. cbv zeta in K.
    unfold skew_of. rewrite <- Ek. congruence. }
  assert (Hfirst : s_kexType (i_s1 H) <> Some KexHRR <-> only_waits (i_log H)).
  { destruct Ha as [(r & Er & HW)|Hr]; [rewrite Er; split; [intros _; apply waits_only, HW|discriminate]|].
    destruct (retried_state _ _ _ Hr) as (n' & g' & ed' & h'' & R). rewrite (rt_kex _ _ _ _ _ _ _ R). split; [congruence|].
    destruct Hr as (log1 & s1 & w1 & c1 & orig1 & s2 & outs & W & r & _ & _ & _ & El & _). intros HW.
    destruct (HW (recv_hello w1 c1 orig1)) as (? & [=]). rewrite El. apply in_or_app. right. left. reflexivity. }
  assert (Hrep : acceptEarly e (n_version n) = true /\ e_replayCache e = true /\ ofr = true /\ w_replay (i_w H) (ch_random (n_hello n)) = Ok (n_replay n) \/
    ~ (acceptEarly e (n_version n) = true /\ e_replayCache e = true /\ ofr = true) /\ n_replay n = RNotChecked).
  { pose proof (nf_replay _ _ _ _ _ _ HN) as X. unfold replayResult in X. rewrite Eofr in X. cbn [bind] in X.
    destruct (acceptEarly e (n_version n)), (e_replayCache e), ofr; cbn [negb orb] in X; try (right; split; [intros (?&?&?); discriminate|congruence]). left. auto. }
  split.
  - constructor.
    + rewrite sp1. eapply legal_of. exact HN.
    + intros b Hb. destruct (cookie_of _ _ _ _ _ _ HN b Hb) as (dec & x & ck & C1 & C2 & C3 & C4 & C5 & C6). exists dec, x, ck.
      split; [exact C1|]. split; [exact C2|]. split; [exact C3|]. split; [congruence|]. split; [rewrite sp4; exact C6|].
      intros g g' th ou dh Hg Hk. fold n in F4. rewrite C4, Hg in F4. assert (Hgr : group = Some g').
      { pose proof sp15 as X. rewrite Hk in X. destruct F26 as [(ets & erl & eexp & Eed & Eer & _ & [(_ & Es)|(_ & Es)])|(Ned & _ & Es)]; rewrite Es in X; cbn [s_group] in X; exact X. }
      rewrite Hgr in F4. exact F4.
    + intros id age ids bs t r T1 T2 T3 T4 T5 T6. rewrite sp1 in T1, T3. pose proof (query_of _ _ _ _ _ _ _ T1 Eq) as Hqq.
      destruct q as [|[[id' md] age']]; [destruct Hqq; auto|]. destruct Hqq as (-> & -> & _). destruct Hq as (Hag & t' & r0 & Q3 & Q4). 
      assert (r0 = Some r /\ t' = t) as [-> ->] by (split; congruence). destruct Q4 as (b & Q4 & Q5 & _). apply validate_iff in Q4.
      assert (b = true) as -> by (apply Q4; split; [congruence|rewrite sp4 in T6; exact T6]).
      destruct (p_ticket P) as [[[id2 t2] r2]|] eqn:Et; [|congruence]. pose proof (ho_ticket _ _ _ _ _ _ _ HO) as T. rewrite Et in T.
      destruct T as ((ids2 & bs2 & age2 & U1 & U2 & _) & _ & U3 & _). rewrite sp1, T1 in U1. injection U1 as <- <-. injection U2 as <- <-. congruence.
    + assert (Hacc : is_accepted (i_ed H) = true <-> i_ed H = EdAccepted) by (destruct (i_ed H); cbn; split; congruence). rewrite Hacc, Ed2. unfold early_due.
      rewrite sp3, <- acceptEarly_iff, <- Of1, <- Hfirst, <- (cookie_none _ _ _ _ _ _ HN).
      split.
      * intros (xx1 & xx2 & xx3 & xx4 & xx5 & r & k' & xx6 & xx7 & xx8 & xx9 & xx10 & xx11). split; [exact xx2|]. split; [exact xx3|]. split; [exact xx4|]. split; [exact xx1|].
        destruct Hrep as [(R1 & R2 & R3 & R4)|(R1 & R2)]; [|congruence]. split; [exact R2|]. split; [rewrite sp1; congruence|].
        destruct (p_ticket P) as [[[id t] r2]|] eqn:Et; [|congruence]. destruct (Htk _ _ _ eq_refl) as (age & ids & bs & ms & md & yy1 & yy2 & _).
        assert (r2 = r) as -> by congruence. exists id, t, r, age, ids, bs. split; [reflexivity|]. split; [rewrite sp4; exact xx8|]. split; [exact xx9|]. split; [exact yy1|].
        assert (k' = skew_of (i_w H) age r) as <- by congruence. auto.
      * intros (xx1 & xx2 & xx3 & xx4 & xx5 & xx6 & id & t & r & age & ids & bs & xx7 & xx8 & xx9 & xx10 & xx11 & xx12). split; [exact xx4|]. split; [exact xx1|]. split; [exact xx2|]. split; [exact xx3|].
        split. { destruct Hrep as [(R1 & R2 & R3 & R4)|(R1 & R2)]; [rewrite sp1 in xx6; congruence|]. destruct R1; auto. }
        destruct (Htk _ _ _ xx7) as (age' & ids' & bs' & ms & md & yy1 & yy2 & _). assert (age' = age) as -> by congruence.
        rewrite xx7 in sp13. exists r, (skew_of (i_w H) age r). rewrite sp4 in xx8. auto 10.
    + rewrite sp1, sp2. exact EO.
    + intros Ht. rewrite sp1. eapply processECH_inner; [exact (nf_ech _ _ _ _ _ _ HN)|]. destruct o; try discriminate. exact ER.
    + exists sid, ct, enc. rewrite sp1, <- ccs_compat. split; [apply (hf_sid _ _ _ _ _ _ _ _ _ _ _ _ _ _ HF)|exact Hcs].
    + exists sh, random. rewrite sp11, Hsh, sp1. split; [exact F9|]. split; [exact F5|].
      assert (Hsid := hf_sid _ _ _ _ _ _ _ _ _ _ _ _ _ _ HF). fold n in Hsid. rewrite Hsid.
      assert (H0 : sh_random sh0 = random /\ sh_version sh0 = 771 /\ sh_session_id sh0 = Some sid /\ sh_compression sh0 = 0).
      { unfold getServerHello in F6. bo F6 e1 Q1. bo F6 e2 Q2. bo F6 e3 Q3. injection F6 as <-. auto. }
      destruct H0 as (U1 & U2 & U3 & U4).
      destruct o; cbn [ech_result] in ER; cbn [taken].
      * rewrite ER in F7. assert (sh = sh0) as -> by congruence. auto.
      * rewrite ER in F7. assert (V : sh_version sh = sh_version sh0 /\ sh_session_id sh = sh_session_id sh0 /\ sh_compression sh = sh_compression sh0).
        { unfold setAcceptSH in F7. bo F7 a' Q1. injection F7 as <-. auto. }
        destruct V as (-> & -> & ->). split; [exact U2|]. split; [exact U3|]. split; [exact U4|]. intros Hr. rewrite <- U1 in Hr |- *.
        rewrite sp5, sp8, <- Hhc. exact (set_confirms _ _ _ _ _ Hok Hhash Hr F7).
      * destruct ER as (ER & _). rewrite ER in F7. assert (sh = sh0) as -> by congruence. auto.
    + exists bee, cr, (concat auth), bfin. split; [exact Hcr|]. split.
      * exists al, ea, rt, exts. split; [exact Y1|]. rewrite sp1. split; [apply negotiateAlpn_of, (hf_alpn _ _ _ _ _ _ _ _ _ _ _ _ _ _ HF)|].
        split; [exact Y2|]. split; [destruct (i_ed H); exact Y3|]. split.
        -- destruct o; cbn [ech_result] in ER.
           ++ rewrite ER in F8. rewrite F8 in Y4. exact Y4.
           ++ rewrite ER in F8. rewrite F8 in Y4. exact Y4.
           ++ destruct ER as (ER & st & Z1 & Z2). rewrite ER in F8. destruct F8 as (d & st' & r & V1 & V2 & V3 & ->). assert (st' = st) as -> by congruence.
              exists d, (eh_outerSni st), r. auto.
        -- fold n in F2. destruct (e_extensions e); [exact F2|congruence].
      * split; [|split; [exact HA|rewrite sp5; exact Hfin]]. unfold request_says. rewrite Hasks. unfold cr. destruct ra; [|reflexivity].
        cbn [concat]. rewrite app_nil_r. unfold certificateRequest in F15. bo F15 x Ex. bo F15 more Em. bo F15 m Em'. injection F15 as _ <-.
        exists x, more. split; [exact Ex|]. split; [|exact Em']. destruct (e_verifier e); [exact Em|congruence].
  - pose proof (awaiting_misc _ _ _ Ha) as (M1 & M2 & M3 & M4 & M5 & M6).
    assert (HE : s_earlyExporter (i_s1 H) = None /\ (s_kexType (i_s1 H) = None /\ only_waits (i_log H) \/ s_kexType (i_s1 H) = Some KexHRR /\ ~ only_waits (i_log H))).
    { destruct Ha as [(r & Er & HW)|Hr].
      - rewrite Er. split; [reflexivity|]. left. split; [reflexivity|]. apply waits_only, HW.
      - split.
        + destruct Hr as (log1 & s1 & w1 & c1 & orig1 & s2 & outs & W & r & Hf & Hh & Es & _ & _ & Er).
          destruct (retry_outs _ _ _ _ _ _ _ _ (or_introl Hf) Hh Es) as (n1 & sid1 & h1 & kk1 & hc1 & alpn1 & skew1 & ed1 & early1 & g1 & ct1 & b1 & Q1 & Q2 & Q3 & Q4 & Q5 & Q6 & Q7 & Q8 & Q9).
          apply hello_retry_facts in Q9. destruct Q9 as (h' & m & hrr0 & hrr & b & wl1 & ct' & R1 & R2 & R3 & R4 & R5 & R6 & R7 & R8 & R9).
          rewrite Er, R9. destruct Hf as (r0 & -> & _). reflexivity.
        + right. destruct (retried_state _ _ _ Hr) as (n' & g' & ed' & h'' & R). split; [apply (rt_kex _ _ _ _ _ _ _ R)|].
          destruct Hr as (log1 & s1 & w1 & c1 & orig1 & s2 & outs & W & r & _ & _ & _ & El & _). intros HW.
          destruct (HW (recv_hello w1 c1 orig1)) as (? & [=]). rewrite El. apply in_or_app. right. left. reflexivity. }
    destruct HE as (HE1 & HE2).
    assert (HS2 : exists rd hsrd eexp st, i_s2 H = mkS st rd (Some awl) hsrd (Some hc5) (Some (h, k4)) (Some (n_version n)) (Some (n_cipher n)) group (Some kt)
          (Some (match s_early (i_s1 H) with Some x => x | None => i_ed H end))
          (Some (n_pskType n)) (n_pskMode n) (Some (n_replay n)) alpn (Some hrs) (s_chain (i_s1 H)) ccert scert reqExts scheme
          (Some ems) eexp (s_resumption (i_s1 H)) skew (match n_res n with Some r => rs_appToken r | None => None end) (Some (match n_res n with Some r => rs_hsTime r | None => w_now (i_w H) end))
          (Some (ch_random (n_hello n))) (n_ech n) (n_echState n) /\
          (is_accepted (i_ed H) = true /\ (exists ets erl ee, early = Some (ets, erl, ee) /\ eexp = Some ee) \/ is_accepted (i_ed H) = false /\ eexp = s_earlyExporter (i_s1 H))).
    { destruct F26 as [(ets & erl & eexp & Eed & Eer & _ & [(_ & Es)|(_ & Es)])|(Ned & _ & Es)].
      - eexists _, _, _, _. split; [exact Es|]. left. rewrite Eed. split; [reflexivity|]. eauto.
      - eexists _, _, _, _. split; [exact Es|]. left. rewrite Eed. split; [reflexivity|]. eauto.
      - eexists _, _, _, _. split; [exact Es|]. right. split; [|reflexivity]. destruct (i_ed H); try reflexivity. congruence. }
    destruct HS2 as (rd & hsrd & eexp & st & Es & Hex). 
    assert (Hkx : p_kex P = None <-> i_kex H = None /\ group = None).
    { rewrite Es in sp15. cbn [s_group] in sp15. destruct (p_kex P) as [[[[g th] ou] dh]|]; destruct Hm as [(_ & _ & -> & ->)|(_ & g' & cs' & kx & _ & _ & -> & -> & _)]; try discriminate;
        split; try discriminate; auto; intros X; destruct X; discriminate. }
    rewrite Es. constructor; cbn [s_version s_cipher s_group s_kexType s_early s_psk s_pskMode s_replay s_skew s_alpn s_serverCert s_sigScheme s_clientRandom s_ech s_appToken s_hsTime s_exporter s_earlyExporter].
    + congruence.
    + rewrite sp4. reflexivity.
    + rewrite <- sp15, Es. reflexivity.
    + exists kt. split; [reflexivity|]. destruct Hm as [(_ & -> & Eg & Ek)|(_ & g & cs' & kx & _ & _ & Eg & Ek & ->)].
      * apply Hkx. auto.
      * assert (p_kex P <> None) by (intros X; apply Hkx in X; destruct X; congruence).
        destruct HE2 as [(-> & W)|(-> & W)]; auto.
    + destruct (first_used_of _ _ _ _ _ _ _ P Ha HN sp1) as [(-> & HW)|(c1 & o1 & fu1 & fu2 & fu3)].
      * exists (p_hello P). split; [left; auto|]. destruct (i_ed H) eqn:Ei; cbn [is_accepted]; try reflexivity.
        -- split; [reflexivity|]. apply Of2. apply Ed1. reflexivity.
        -- split; [reflexivity|]. apply Of1. destruct ofr; [reflexivity|]. destruct Ed1 as [_ X]. specialize (X eq_refl). discriminate.
      * exists c1. split; [exact fu1|]. destruct (earlyOffered_iff _ _ fu2) as [fv1 fv2]. rewrite fu3.
        assert (Hna : is_accepted (i_ed H) = false).
        { destruct (i_ed H) eqn:Ei; cbn [is_accepted]; try reflexivity. exfalso. destruct Ed2 as [X _]. destruct (X eq_refl) as (_ & _ & xx3 & _).
          destruct M6 as [M6|(ed' & M6 & Ned & Kh)]; congruence. }
        rewrite Hna. destruct o1; [split; [reflexivity|apply fv1; reflexivity]|split; [reflexivity|apply fv2; reflexivity]].
    + exists (n_pskType n). split; [reflexivity|]. apply (psk_kind_of e (i_w H) _ _ _ n P HN sp1). destruct (p_ticket P) as [[[id pt] r]|]; [exact sp14|exact sp13].
    + destruct (p_ticket P) as [[[id pt] r]|] eqn:Et.
      * destruct (Htk _ _ _ eq_refl) as (age & ids & bs & ms & md & _ & _ & yy1 & yy2 & yy3). eauto.
      * pose proof (nf_psk _ _ _ _ _ _ HN) as X. rewrite sp13 in X. exact X.
    + exists (n_replay n). split; [reflexivity|]. rewrite sp3, <- acceptEarly_iff, <- Of1, sp1. exact Hrep.
    + destruct (p_ticket P) as [[[id pt] r]|] eqn:Et.
      * destruct (Htk _ _ _ eq_refl) as (age & ids & bs & ms & md & yy1 & yy2 & _). eauto.
      * pose proof (hf_skew _ _ _ _ _ _ _ _ _ _ _ _ _ _ HF) as K. fold n in K. rewrite sp13 in K. cbn [clockSkew] in K. congruence.
    + reflexivity.
    + reflexivity.
    + reflexivity.
    + rewrite sp1. reflexivity.
    + destruct o; cbn [ech_result] in ER; try exact ER. apply ER.
    + destruct (p_ticket P) as [[[id pt] r]|]; rewrite sp13; reflexivity.
    + destruct (p_ticket P) as [[[id pt] r]|]; rewrite sp13; reflexivity.
    + pose proof (fo_exporter _ _ _ _ _ _ _ _ _ _ _ _ _ _ FO) as X. rewrite Es in X. cbn [s_exporter] in X. rewrite X, sp5, sp6, sp7, sp10. unfold i_tsf. reflexivity.
    + destruct Hex as [(-> & ets & erl & ee & Ee & ->)|(-> & ->)]; [|exact HE1].
      pose proof (hf_early _ _ _ _ _ _ _ _ _ _ _ _ _ _ HF) as X. destruct (i_ed H); try congruence. destruct X as (x & Ex & X). assert (x = (ets, erl, ee)) as -> by congruence.
      unfold early_keys in Ex. bo Ex t Et. bo Ex rd' Erd. bo Ex xx Exx. assert (xx = ee) as -> by congruence. f_equal.
      assert (Cc : hc_context hc = h_fn h (hc_data hc)) by (unfold hc_context; rewrite Hhash; reflexivity).
      assert (Lc : blen (hc_context hc) = h_len h) by (rewrite Cc; apply (ho_digest _ Hok)).
      assert (Hk : rel h k (Early (p_psk P), None) \/ rel h k (Start, None)).
      { rewrite sp6. unfold i_psk, psk_of. fold n. destruct (n_res n) as [r|] eqn:En.
        - left. destruct S3 as (p & bk & bl & ids & b & bs & ex & T1 & T2 & _). rewrite T1.
          destruct (kdo_rel _ _ _ (DeriveEarly p) _ Hok (rel_init h) Logic.I T2) as (st' & oo & E & Hr'). injection E as <- <-. exact Hr'.
        - right. subst k. apply rel_init. }
      rewrite sp5, sp8, <- Hhc, <- Cc. destruct Hk as [Hk|Hk];
        destruct (kget_rel _ _ _ (GetEarly EarlyExporter (hc_context hc)) _ Hok Hk Lc Exx) as (st' & E); cbn [spec_step early_spec] in E; congruence.
Qed.

(** ** Where a fallback comes from *)
Lemma acts_fallback e log w s ev s' pre d sni post : acts e log w s ev s' (pre ++ OFallback d sni :: post) ->
  exists c orig, ev = hello_ev c orig /\ pre = [] /\ awaiting e log s /\ hello_negotiate e w s c orig = Ok (NFallback d sni).
Proof.
  remember (pre ++ OFallback d sni :: post) as outs eqn:Eo. intros HA.
  assert (Hin : In (OFallback d sni) outs) by (rewrite Eo; apply in_or_app; right; left; reflexivity).
  destruct HA; cbn [In] in Hin; try tauto;
    try (exfalso; repeat (destruct Hin as [Hin|Hin]; [discriminate Hin|]); contradiction).
  - symmetry in Eo. apply split_one in Eo. destruct Eo as (-> & -> & Eo). injection Eo as <- <-. eauto 10.
  - exfalso. rewrite H3 in Hin. destruct Hin as [Hin|[]]. discriminate.
  - exfalso. rewrite Eo in H10. destruct (flight_out _ _ _ _ _ _ _ _ H2 H10) as [(k & b & [=])|[(cs & [=] & _)|([=] & _)]].
  - exfalso. destruct H6 as [->|(ct & nst & m & -> & _)]; cbn [app In] in Hin; repeat (destruct Hin as [Hin|Hin]; [discriminate Hin|]); contradiction.
  - exfalso. destruct H2 as [->|(ct & nst & m & -> & _)]; cbn [app In] in Hin; repeat (destruct Hin as [Hin|Hin]; [discriminate Hin|]); contradiction.
  - exfalso. destruct H0 as [(_ & _ & ct & -> & _)|(_ & ->)]; cbn [app In] in Hin; repeat (destruct Hin as [Hin|Hin]; [discriminate Hin|]); contradiction.
Qed.

(** ** C59 *)
(** The server's flight answers a ClientHello: what comes of Encrypted ClientHello, the ServerHello's fields, EncryptedExtensions,
    CertificateRequest, Certificate, CertificateVerify and Finished are those the configuration and the ClientHello determine. *)
Theorem C59_flight e l s L1 cs sh fl L2 : env_ok e -> reach e l s (L1 ++ Emit (OWrite cs) :: L2) -> flight cs sh fl ->
  exists L0 w c orig pre P o early alpn scert scheme, L1 = L0 ++ Recv w (EvHandshake (MClientHello c) orig) :: map Emit pre /\
    handshake_of e L0 w c orig cs P /\ p_sh P = sh /\ p_fl P = fl /\ answer e L0 w c orig cs P o early alpn scert scheme /\
    exists L3, L2 = (if early then [Emit OEarlySuccess] else []) ++ L3.
Proof.
  intros He Hr Hf. destruct (flight_origin _ _ _ _ _ _ _ _ He Hr Hf) as (log1 & s1 & w & c & orig & s2 & pre & post & H & HP & (A0 & A1 & A2 & A3 & A4 & A5 & A6 & A7 & A8) & -> & <- & <- & L3 & ->).
  destruct (past_answer _ _ _ _ _ He A1) as (P & pre' & cs' & post' & o & alpn & scert & scheme & Ho & Hfl & Hpo & HO & SP & AN & _).
  destruct (fo_outs _ _ _ _ _ _ _ _ _ _ _ _ _ _ (pa_flight _ _ _ _ _ A1)) as (pre0 & cs0 & post0 & Ho0 & _ & Hpp0). cbv zeta in Ho0, Hpp0.
  assert (Hpre1 : pre0 = [] \/ exists t, pre0 = [OSecret' SkEarly t]) by (destruct Hpp0 as [(_ & ? & _)|(_ & _ & ?)]; eauto).
  assert (Hpost1 : post0 = [] \/ post0 = [OEarlySuccess]) by tauto.
  destruct (one_write _ _ _ _ _ _ _ _ _ (eq_trans (eq_sym Ho0) Ho) Hpre1 Hpost1) as (-> & ->).
  destruct (one_write _ _ _ _ _ _ _ _ _ (eq_trans (eq_sym Ho0) A8) Hpre1 Hpost1) as (-> & ->).
  rewrite A2, A4, A5, A6 in HO, AN.
  exists log1, w, c, orig, pre, P, o, (is_accepted (i_ed H)), alpn, scert, scheme. split; [reflexivity|]. split; [exact HO|].
  split; [apply (sp_sh _ _ SP)|]. split; [apply (sp_fl _ _ SP)|]. split; [exact AN|]. exists L3. rewrite Hpo. destruct (is_accepted (i_ed H)); reflexivity.
Qed.
(** A HelloRetryRequest answers the first ClientHello: its fields, and the confirmation if the inner hello was taken. *)
Theorem C59_retry e l s L1 cs b L2 : env_ok e -> reach e l s (L1 ++ Emit (OWrite cs) :: L2) -> retry_request cs b ->
  exists L0 w c orig o c' enc m h sid ct, L1 = L0 ++ [Recv w (EvHandshake (MClientHello c) orig)] /\ only_waits L0 /\ no_cookie c /\
    ech_first e c orig o c' enc /\ legal_hello c' /\
    (exists ks, getExtension KClientKeyShare (ch_extensions c') = Ok (Some (XClientKeyShare ks)) /\ NoDup (map fst ks)) /\
    encodeHandshake (MHelloRetryRequest m) = Ok b /\ hrr_version m = 771 /\ hrr_compression m = 0 /\
    ch_session_id c' = Some sid /\ hrr_session_id m = Some sid /\ cs = ct :: compat_ccs sid /\ e_hash e (hrr_suite m) = Ok h /\
    (if taken o then confirms_retry h (ch_random c') (message_hash (h_fn h enc)) m else no_type 65037 (hrr_extensions m) = true).
Proof.
  intros He Hr Hq. destruct (emit_acts _ _ _ _ _ _ _ He Hr eq_refl) as [(log1 & s1 & w & ev & s2 & pre & post & HP & HA & -> & HL3)|D].
  2:{ destruct (dull_write _ D _ eq_refl) as (ct & -> & Hx). destruct (lone_not_retry _ _ Hx Hq). }
  destruct (acts_write _ _ _ _ _ _ _ _ _ HA) as [(c & orig & ct & sid & -> & -> & -> & Hcs & Ht & Hl & (n & sid' & h & k & hc & alpn & skew & ed & early & g & R1 & R2 & R3 & R4) & Hh & Hs)|[(c & orig & H & -> & HF & Hf2)|(ct & -> & Hx)]].
  2:{ destruct (flight_not_retry _ _ _ _ Hf2 Hq). }
  2:{ destruct (lone_not_retry _ _ Hx Hq). }
  destruct (retry_outs _ _ _ _ _ _ _ _ (or_introl R1) Hh Hs) as (n' & sid1 & h1 & k1 & hc1 & alpn1 & skew1 & ed1 & early1 & g1 & ct1 & b1 & Q1 & Q2 & Q3 & Q4 & Q5 & Q6 & Q7 & Q8 & Q9).
  clear R2 R3 R4 n sid' h k hc alpn skew ed early g. pose proof (hf_neg _ _ _ _ _ _ _ _ _ _ _ _ _ _ Q1) as HN.
  pose proof (nf_ech _ _ _ _ _ _ HN) as Hech. pose proof (nf_cookie _ _ _ _ _ _ HN) as Hck. rewrite Q8 in Hech, Hck.
  assert (Hst : s_hctx s1 = None /\ s_ech s1 = EchNotRequested) by (destruct R1 as (r0 & -> & _); split; reflexivity).
  destruct (ech_start e _ c orig n' (proj1 Hst) (proj2 Hst) Hech) as (o & A & B & _).
  apply hello_retry_facts in Q9. destruct Q9 as (h' & mh & hrr0 & hrr & b' & wl & ct' & S1 & S2 & S3 & S4 & S5 & S6 & S7 & S8 & S9).
  assert (Ecs : cs = ct' :: ccs_if sid1) by congruence.
  rewrite (awaiting_write e log1 s1 (or_introl R1)) in S6. injection S6 as <-.
  destruct (wl_write WPlain 22 [b']) as [wl' rr] eqn:Ewl. cbn [snd] in S7. subst rr.
  apply wl_write_content in Ewl. destruct Ewl as (W1 & W2 & W3 & _). cbn [concat] in W2. rewrite app_nil_r in W2.
  assert (b' = b) as ->.
  { destruct Hq as (x & X1 & _ & <-). rewrite Ecs in X1. cbn [filter] in X1. unfold is_hs at 1 in X1. rewrite W1, ccs_filter in X1. change (22 =? 22) with true in X1. cbv iota in X1. congruence. }
  destruct (hf_setup _ _ _ _ _ _ _ _ _ _ _ _ _ _ Q1) as [Eh (hc0 & T1 & T2 & _)]. rewrite Q8 in T1. destruct R1 as (r0 & Er & HW).
  assert (Hhc : hc1 = mkHc h1 (n_orig n')).
  { rewrite T2, T1. rewrite Er. reflexivity. }
  assert (h' = h1) as -> by congruence. pose proof (eo_hash e He _ _ Eh) as Hok.
  assert (Hmh : mh = message_hash (h_fn h1 (n_orig n'))).
  { rewrite Hhc in S2. unfold hc_context in S2. cbn [hc_hash hc_data] in S2. apply encode_message_hash in S2. destruct S2 as (x & Hx & ->). injection Hx as <-. reflexivity. }
  assert (Hrr0 : hrr_version hrr0 = 771 /\ hrr_compression hrr0 = 0 /\ hrr_session_id hrr0 = Some sid1 /\ hrr_suite hrr0 = n_cipher n' /\ no_type 65037 (hrr_extensions hrr0) = true).
  { unfold getHelloRetryRequest in S3. bo S3 e1 E1. bo S3 e2 E2. injection S3 as <-. cbn [hrr_version hrr_compression hrr_session_id hrr_suite hrr_extensions].
    do 4 (split; [reflexivity|]). apply ext_type_of in E1, E2. unfold no_type. cbn [forallb]. rewrite E1, E2. reflexivity. }
  destruct Hrr0 as (U1 & U2 & U3 & U4 & U5).
  assert (Hm : hrr_version hrr = 771 /\ hrr_compression hrr = 0 /\ hrr_session_id hrr = Some sid1 /\ hrr_suite hrr = n_cipher n' /\
    (if taken o then confirms_retry h1 (ch_random (n_hello n')) (message_hash (h_fn h1 (n_orig n'))) hrr else no_type 65037 (hrr_extensions hrr) = true)).
  { destruct o; cbn [ech_result taken] in B |- *.
    - rewrite B in S4. assert (hrr = hrr0) as -> by congruence. auto.
    - rewrite B in S4. unfold setAcceptHRR in S4. bo S4 zx Ex. assert (zx = mkExt 65037 (Some (repeat x00 8))) as -> by (vm_compute in Ex; injection Ex as <-; reflexivity).
      bo S4 a Ea. destruct (calcHRR_ok h1 (mkHc h1 mh) _ _ _ Hok eq_refl Ea) as (eb & Y1 & Y2).
      assert (Hl8 : blen a = 8) by (rewrite Y2; apply conf_len, Hok).
      rewrite (takeN_all 8 a) in S4 by lia. cbn [ext_type] in S4. injection S4 as <-. cbn [hrr_version hrr_compression hrr_session_id hrr_suite].
      do 4 (split; [assumption|]). exists (hrr_extensions hrr0), eb. cbn [hrr_version hrr_session_id hrr_suite hrr_compression hrr_extensions].
      split; [rewrite Y2; cbn [hc_data]; rewrite Hmh; reflexivity|]. split; [exact U5|]. rewrite <- Y1. f_equal. f_equal. unfold hrr_zeroed.
      cbn [hrr_version hrr_session_id hrr_suite hrr_compression hrr_extensions]. f_equal. rewrite map_app. f_equal.
      clear -U5. induction (hrr_extensions hrr0) as [|x r IH]; [reflexivity|]. unfold no_type in *. cbn [forallb map] in *. apply andb_true_iff in U5. destruct U5 as [U5 U6].
        rewrite <- (IH U6). apply negb_true_iff in U5. rewrite U5. reflexivity.
    - destruct B as (B & _). rewrite B in S4. assert (hrr = hrr0) as -> by congruence. auto. }
  destruct Hm as (V1 & V2 & V3 & V4 & V5).
  exists log1, w, c, orig, o, (n_hello n'), (n_orig n'), hrr, h1, sid1, ct'. split; [reflexivity|]. split; [apply waits_only, HW|].
  split; [apply (serverCookie_none e), Hck|]. split; [exact A|]. split; [eapply legal_of; exact HN|].
  split. { clear -Q7. unfold negotiateGroup in Q7. bo Q7 x Ex. destruct x as [x|]; [|discriminate]. destruct x; try discriminate. destruct (negotiate (e_groups e) l) as [g|]; [|discriminate].
    bo Q7 y Ey. destruct y as [y|]; [|discriminate]. destruct y; try discriminate. bo Q7 u Eu. apply ensure_ok, noDup_groups in Eu. eexists. split; [exact Ey|apply Eu]. }
  split; [exact S5|]. split; [exact V1|]. split; [exact V2|].
  split; [apply (hf_sid _ _ _ _ _ _ _ _ _ _ _ _ _ _ Q1)|]. split; [exact V3|]. split; [rewrite Ecs, ccs_compat; reflexivity|]. split; [rewrite V4; exact Eh|exact V5].
Qed.
(** The connection is handed to an older implementation only if configured, for a first ClientHello without a common TLS 1.3 version and
    without early data; it gets the very bytes, framed again, and the name asked for. *)
Theorem C59_fallback e l s L1 d sni L2 : env_ok e -> reach e l s (L1 ++ Emit (OFallback d sni) :: L2) ->
  exists L0 w c orig o c' enc fs, L1 = L0 ++ [Recv w (EvHandshake (MClientHello c) orig)] /\ only_waits L0 /\ e_fallback e = true /\
    ech_treated e L0 c orig o c' enc /\ no_version e c' /\ getExtension KClientEarlyData (ch_extensions c') = Ok None /\ sni_of c' sni /\
    cuts 16384 enc fs /\ obytes d = concat (map (frame 22 769) fs).
Proof.
  intros He Hr. destruct (emit_acts _ _ _ _ _ _ _ He Hr eq_refl) as [(log1 & s1 & w & ev & s2 & pre & post & HP & HA & -> & _)|D].
  2:{ exfalso. unfold dull in D. decompose [or and ex] D; discriminate. }
  destruct (acts_fallback _ _ _ _ _ _ _ _ _ _ HA) as (c & orig & -> & -> & Ha & H). clear HA HP.
  unfold hello_negotiate in H.
  bo H ck E1. bo H u1 E2. apply bind_Ok in H. destruct H as ((((es & est) & c') & enc) & E3 & H). cbv beta iota in H.
  bo H ul El. bo H u2 E4. bo H v E5. bo H u3 E6. destruct v as [version|].
  { bo H dv E7. bo H u4 E8. destruct (negotiate_tiers (e_ciphers e) (ch_suites c')) as [cipher|] eqn:E9; [|discriminate].
    bo H u5 E10. bo H u6 E11. bo H q E12. bo H rc E13.
    apply bind_Ok in H. destruct H as ((((pt & rs) & mode) & age) & E14 & H). cbv beta iota in H.
    apply bind_Ok in H. destruct H as (((pt' & rs') & mode') & E15 & H). cbv beta iota in H. discriminate. }
  bo H ed E7. bo H u4 E8. apply ensure_ok in E8. destruct ed; [discriminate|]. destruct (e_fallback e) eqn:Ef; [|discriminate]. bo H d' E9. bo H sni' E10.
  assert (d' = d /\ sni' = sni) as (-> & ->) by (split; congruence). clear H.
  set (n := mkNeg c' enc ck es est 0 0 PskRejected None None None RNotChecked).
  assert (Hn : exists o, ech_treated e log1 c orig o (n_hello n) (n_orig n) /\ ech_result (first_of log1 c) n o).
  { apply (ech_of0 e log1 s1 c orig n Ha E1); [|exact E3]. intros Hx. cbn [n_cookie n]. apply ensure_ok in E2. destruct (s_hctx s1); [|congruence]. destruct ck; [discriminate|reflexivity]. }
  destruct Hn as (o & Ht & _). unfold plain_write_initial in E9. apply plain_write_spec in E9. destruct E9 as (_ & fs & F1 & F2 & _).
  exists log1, w, c, orig, o, c', enc, fs. split; [reflexivity|]. split.
  { destruct Ha as [(r & _ & HW)|Hr']; [apply waits_only, HW|]. exfalso. destruct (retried_state _ _ _ Hr') as (n' & g' & ed' & h'' & R).
    apply ensure_ok in E6. rewrite (rt_version _ _ _ _ _ _ _ R) in E6. discriminate. }
  split; [reflexivity|]. split; [exact Ht|]. split.
  { unfold negotiateVersion in E5. bo E5 x Ex. unfold no_version. destruct x as [x|]; [|left; exact Ex]. pose proof Ex as Ex'. apply getExtension_strict in Ex'.
    destruct Ex' as (Hk & _). destruct x; try discriminate Hk. right. exists l0. split; [exact Ex|]. apply negotiate_none. congruence. }
  split. { unfold earlyOffered in E7. bo E7 x Ex. destruct x; [discriminate|]. exact Ex. }
  split; [apply getSNI_of, E10|]. split; [exact F1|exact F2].
Qed.

(** ** C60 *)
(** Once the flight has been sent, the connection's getters report the parameters of the handshake, whatever happens afterwards. *)
Theorem C60_reports e l s log : env_ok e -> reach e l s log ->
  In (s_state s) [SAcceptingEarlyData; SExpectingCertificate; SExpectingCertificateVerify; SExpectingFinished; SAcceptingData] ->
  exists L0 w c orig pre cs L2 P o early alpn scert scheme,
    log = L0 ++ Recv w (EvHandshake (MClientHello c) orig) :: map Emit pre ++ Emit (OWrite cs) :: L2 /\
    handshake_of e L0 w c orig cs P /\ answer e L0 w c orig cs P o early alpn scert scheme /\ reports s e L0 w P o early alpn scert scheme.
Proof.
  intros He Hr Hs. pose proof (reach_phase _ _ _ _ He Hr) as HP.
  assert (HX : exists H L, past e log s H L).
  { cbn [In] in Hs. assert (Hc : (s_state s = SAcceptingEarlyData \/ s_state s = SExpectingCertificate \/ s_state s = SExpectingCertificateVerify \/ s_state s = SExpectingFinished) \/
      s_state s = SAcceptingData) by (decompose [or] Hs; auto; contradiction).
    destruct Hc as [Hx|Hx].
    - destruct (phase_hs _ _ _ HP Hx) as (H & L & X & _). eauto.
    - destruct (phase_data _ _ _ HP Hx) as (H & L & X & _). eauto. }
  destruct HX as (H & L & PA). destruct (past_answer _ _ _ _ _ He PA) as (P & pre & cs & post & o & alpn & scert & scheme & Ho & Hfl & Hpo & HO & SP & AN & RE).
  exists (i_log H), (i_w H), (i_c H), (i_orig H), pre, cs, (map Emit post ++ L), P, o, (is_accepted (i_ed H)), alpn, scert, scheme.
  split. { rewrite (pa_log _ _ _ _ _ PA), Ho. unfold hello_log. rewrite map_app. cbn [map app]. rewrite <- app_assoc. reflexivity. }
  split; [exact HO|]. split; [exact AN|]. pose proof (pa_neg _ _ _ _ _ PA) as Hn. unfold negotiated in Hn.
  injection Hn as N1 N2 N3 N4 N5 N6 N7 N8 N9 N10 N11 N12 N13 N14 N15 N16 N17 N18 N19 N20.
  destruct RE. constructor; rewrite ?N1, ?N2, ?N3, ?N4, ?N5, ?N6, ?N7, ?N8, ?N15, ?N9, ?N10, ?N12, ?N13, ?N14, ?N16, ?N17, ?N18, ?N19; assumption.
Qed.
