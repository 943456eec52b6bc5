(** * C47: choosing an ECH configuration, retry configurations, the configuration's encoding *)
From Coq Require Import Sorting.Permutation.
From Verif Require Import Base Codec CodecSpec Str Hkdf HkdfSpec HkdfProofs Kex Record RecordSpec Hpke HpkeSpec HpkeUtils
  Handshake HandshakeSpec HandshakeProofs Extensions ExtensionsSpec ExtensionsProofs Transcript IOBufUtil EchCrypt EchSpec EchProofs
  PropsRecord PropsKeys PropsHpke PropsEchCrypt.
Open Scope N_scope.

(** ** Which configurations are acceptable *)
(** A suite is usable if its AEAD is supported and its KDF is the one fizz ties to that AEAD. *)
Definition usable (aeads : list N) (s : N * N) : Prop := In (snd s) aeads /\ kdf_of_aead (snd s) = Some (fst s).
(** A configuration is acceptable if it has no mandatory extension (high bit of the 16 bit type), a proper public name and a
    supported KEM. *)
Definition acceptable (kems : list N) (c : echcfg) : Prop :=
  (forall e, In e (ec_exts c) -> ext_type e < 32768) /\ public_name (ec_name c) /\ In (ec_kem c) kems.

(** [isValidPublicName] *)
Lemma ldh_iff b : ldh b = true <-> ldh_char b.
Proof.
  unfold ldh, isalnum, ldh_char. rewrite !orb_true_iff, !andb_true_iff, !N.leb_le.
  assert (byte_eqb b x2d = true <-> b2n b = 45).
  { rewrite byte_eqb_eq. split; [intros ->; reflexivity|]. intros H. apply b2n_inj. exact H. }
  tauto.
Qed.
Lemma split_join l : l <> [] -> (forall p, In p l -> ~ In x2e p) -> split_dot (join_dot l) = l.
Proof.
  induction l as [|p l IH]; intros Hne Hd; [congruence|]. clear Hne.
  assert (Hp : ~ In x2e p) by (apply Hd; left; reflexivity).
  assert (A : forall q r, ~ In x2e q -> split_dot (q ++ x2e :: r) = q :: split_dot r).
  { induction q as [|b q IHq]; intros r Hq; cbn [app split_dot].
    - reflexivity.
    - cbn in Hq. destruct (byte_eqb b x2e) eqn:E; [apply byte_eqb_eq in E; subst b; tauto|]. rewrite IHq by tauto. reflexivity. }
  assert (B : forall q, ~ In x2e q -> split_dot q = [q]).
  { induction q as [|b q IHq]; intros Hq; cbn [split_dot]; [reflexivity|].
    cbn in Hq. destruct (byte_eqb b x2e) eqn:E; [apply byte_eqb_eq in E; subst b; tauto|]. rewrite IHq by tauto. reflexivity. }
  destruct l as [|p2 l].
  - cbn [join_dot]. apply B. exact Hp.
  - change (join_dot (p :: p2 :: l)) with (p ++ x2e :: join_dot (p2 :: l)). rewrite A by exact Hp. f_equal. apply IH; [discriminate|].
    intros q Hq. apply Hd. right. exact Hq.
Qed.
Lemma join_split s : join_dot (split_dot s) = s /\ split_dot s <> [].
Proof.
  induction s as [|b s [IH1 IH2]]; cbn [split_dot]; [split; [reflexivity|discriminate]|].
  destruct (byte_eqb b x2e) eqn:E.
  - apply byte_eqb_eq in E. subst b. split; [|discriminate]. destruct (split_dot s) as [|p l]; [congruence|]. cbn [join_dot app] in *.
    f_equal. exact IH1.
  - destruct (split_dot s) as [|p l]; [congruence|]. split; [|discriminate]. destruct l as [|p2 l]; cbn [join_dot app] in *; congruence.
Qed.
Lemma split_trail r : exists i, i <> [] /\ split_dot (r ++ [x2e]) = i ++ [[]].
Proof.
  induction r as [|b r (i & Hi & E)]; cbn [app split_dot].
  - exists [[]]. split; [discriminate|reflexivity].
  - rewrite E. destruct (byte_eqb b x2e).
    + exists ([] :: i). split; [discriminate|reflexivity].
    + destruct i as [|p i]; [congruence|]. cbn [app]. exists ((b :: p) :: i). split; [discriminate|reflexivity].
Qed.
(** A name is accepted exactly when it is a dot-separated sequence of non-empty labels of letters, digits and hyphens. *)
Theorem C47_public_name : forall s, isValidPublicName s = true <-> public_name s.
Proof.
  assert (Core : forall s, forallb (fun p => match p with [] => false | _ => forallb ldh p end) (split_dot s) = true <-> public_name s).
  { intros s. rewrite forallb_forall. split.
    - intros H. destruct (join_split s) as [J1 J2]. exists (split_dot s). split; [exact J2|]. split; [|congruence].
      intros p Hp. specialize (H p Hp). destruct p as [|b p]; [discriminate|]. split; [discriminate|].
      intros x Hx. rewrite forallb_forall in H. apply ldh_iff. auto.
    - intros (l & Hne & Hl & ->). rewrite split_join.
      + intros p Hp. destruct (Hl p Hp) as [N1 N2]. destruct p as [|b p]; [congruence|]. apply forallb_forall. intros x Hx. apply ldh_iff. auto.
      + exact Hne.
      + intros p Hp Hx. destruct (Hl p Hp) as [_ N2]. specialize (N2 _ Hx). unfold ldh_char in N2. change (b2n x2e) with 46 in N2. lia. }
  intros s. rewrite <- Core. unfold isValidPublicName. destruct s as [|b s].
  - split; [discriminate|]. intros H. exact H.
  - destruct (byte_eqb b x2e || byte_eqb (last (b :: s) x00) x2e) eqn:E; [|reflexivity].
    split; [discriminate|]. intros H. exfalso. apply orb_true_iff in E. destruct E as [E|E].
    + cbn [split_dot] in H. rewrite E in H. cbn in H. discriminate.
    + apply byte_eqb_eq in E.
      assert (Hs : b :: s = removelast (b :: s) ++ [x2e]) by (rewrite <- E; apply app_removelast_last; discriminate).
      destruct (split_trail (removelast (b :: s))) as (i & _ & Hi). rewrite Hs, Hi, forallb_app in H. apply andb_true_iff in H.
      destruct H as [_ H]. discriminate.
Qed.
Print Assumptions C47_public_name.

(** ** negotiation *)
Lemma mandatory_iff c : hasMandatory c = false <-> forall e, In e (ec_exts c) -> N.land 32768 (ext_type e) = 0.
Proof.
  unfold hasMandatory. split.
  - intros H e He. destruct (N.eqb_spec (N.land 32768 (ext_type e)) 0) as [|X]; [assumption|]. exfalso.
    assert (existsb (fun e => negb (N.land 32768 (ext_type e) =? 0)) (ec_exts c) = true); [|congruence].
    apply existsb_exists. exists e. split; [exact He|]. apply N.eqb_neq in X. rewrite X. reflexivity.
  - intros H. destruct (existsb _ _) eqn:E; [|reflexivity]. apply existsb_exists in E. destruct E as (e & He & X). rewrite (H e He) in X. discriminate.
Qed.
Lemma high_bit t : t < 65536 -> (N.land 32768 t = 0 <-> t < 32768).
Proof.
  intros Ht. assert (E : N.land 32768 t = if N.testbit t 15 then 32768 else 0).
  { apply N.bits_inj. intros k. rewrite N.land_spec. change 32768 with (2 ^ 15) at 1. rewrite N.pow2_bits_eqb.
    destruct (N.eqb_spec 15 k) as [<-|X].
    - cbn [andb]. destruct (N.testbit t 15) eqn:B; [reflexivity|]. rewrite N.bits_0. reflexivity.
    - cbn [andb]. destruct (N.testbit t 15); [|rewrite N.bits_0; reflexivity]. change 32768 with (2 ^ 15). rewrite N.pow2_bits_eqb.
      apply N.eqb_neq in X. rewrite X. reflexivity. }
  rewrite E. destruct (N.testbit t 15) eqn:B.
  - split; [discriminate|]. intros Hl. exfalso. destruct (N.eq_dec t 0) as [->|Hz]; [cbn in B; discriminate|].
    rewrite N.bits_above_log2 in B; [discriminate|]. apply N.log2_lt_pow2; [lia|]. change (2 ^ 15) with 32768. exact Hl.
  - split; [|reflexivity]. intros _. destruct (N.lt_ge_cases t 32768) as [|Hge]; [assumption|]. exfalso.
    assert (Hlog : N.log2 t = 15).
    { apply N.log2_unique; [lia|]. change (2 ^ 15) with 32768. change (2 ^ N.succ 15) with 65536. lia. }
    pose proof (N.bit_log2 t ltac:(lia)) as X. rewrite Hlog in X. congruence.
Qed.
Lemma kdf_code a : (cs <- getCipherSuite a ;; h <- suiteHash cs ;; getKDFId h) = match kdf_of_aead a with Some k => Ok k | None => fail end.
Proof.
  unfold getCipherSuite, kdf_of_aead. destruct (a =? 1); [reflexivity|]. destruct (a =? 2); [reflexivity|]. destruct (a =? 3); reflexivity.
Qed.
(** The AEAD ids this HPKE implementation knows. *)
Definition known_aead (a : N) : Prop := a = 1 \/ a = 2 \/ a = 3.
Lemma pick_suite_spec aeads : (forall a, In a aeads -> known_aead a) -> forall l,
  match pick_suite aeads l with
  | Ok (Some s) => exists pre post, l = pre ++ s :: post /\ usable aeads s /\ forall x, In x pre -> ~ usable aeads x
  | Ok None => forall x, In x l -> ~ usable aeads x
  | Err _ => False
  end.
Proof.
  intros Hk. induction l as [|[kdf ae] l IH]; cbn [pick_suite]; [intros x []|].
  assert (Skip : ~ usable aeads (kdf, ae) ->
    match pick_suite aeads l with
    | Ok (Some s) => exists pre post, (kdf, ae) :: l = pre ++ s :: post /\ usable aeads s /\ forall x, In x pre -> ~ usable aeads x
    | Ok None => forall x, In x ((kdf, ae) :: l) -> ~ usable aeads x
    | Err _ => False
    end).
  { intros Hu. destruct (pick_suite aeads l) as [[s|]|]; [| |exact IH].
    - destruct IH as (pre & post & -> & U & P). exists ((kdf, ae) :: pre), post. split; [reflexivity|]. split; [exact U|].
      intros x [<-|Hx]; auto.
    - intros x [<-|Hx]; auto. }
  destruct (existsb (N.eqb ae) aeads) eqn:Ea.
  - apply in_existsb in Ea. pose proof (kdf_code ae) as K.
    assert (Hka : exists k, kdf_of_aead ae = Some k).
    { destruct (Hk _ Ea) as [->|[->| ->]]; eexists; reflexivity. }
    destruct Hka as (k & Hka). rewrite Hka in K.
    destruct (getCipherSuite ae) as [cs|]; [|discriminate]. cbn [bind] in *. destruct (suiteHash cs) as [h|]; [|discriminate]. cbn [bind] in *.
    rewrite K. cbn [bind]. destruct (N.eqb_spec kdf k) as [->|X].
    + exists [], l. split; [reflexivity|]. split; [split; [exact Ea|exact Hka]|intros x []].
    + apply Skip. intros [_ U]. cbn [fst snd] in U. congruence.
  - apply nin_existsb in Ea. apply Skip. intros [U _]. apply Ea. exact U.
Qed.
Lemma acceptable_code kems c : (forall e, In e (ec_exts c) -> ext_type e < 65536) ->
  (acceptable kems c <-> hasMandatory c = false /\ isValidPublicName (ec_name c) = true /\ existsb (N.eqb (ec_kem c)) kems = true).
Proof.
  intros Ht. unfold acceptable. rewrite mandatory_iff, C47_public_name, in_existsb.
  assert (E : (forall e, In e (ec_exts c) -> ext_type e < 32768) <-> (forall e, In e (ec_exts c) -> N.land 32768 (ext_type e) = 0)).
  { split; intros H e He; apply (high_bit _ (Ht e He)); auto. }
  tauto.
Qed.
(** The client uses the first acceptable configuration that has a usable suite, with its first usable suite; it uses none exactly
    when there is none. Other configurations are skipped, whatever they contain. *)
Theorem C47_negotiate : forall kems aeads l,
  (forall a, In a aeads -> known_aead a) -> (forall c e, In c l -> In e (ec_exts c) -> ext_type e < 65536) ->
  match negotiateECHConfig kems aeads l with
  | Ok (Some ng) =>
      exists pre post spre spost, l = pre ++ ng_cfg ng :: post /\ acceptable kems (ng_cfg ng) /\
        ec_suites (ng_cfg ng) = spre ++ ng_suite ng :: spost /\ usable aeads (ng_suite ng) /\ (forall s, In s spre -> ~ usable aeads s) /\
        (forall c, In c pre -> ~ (acceptable kems c /\ exists s, In s (ec_suites c) /\ usable aeads s)) /\
        ng_id ng = ec_id (ng_cfg ng) /\ ng_max ng = ec_maxname (ng_cfg ng)
  | Ok None => forall c, In c l -> ~ (acceptable kems c /\ exists s, In s (ec_suites c) /\ usable aeads s)
  | Err _ => False
  end.
Proof.
  intros kems aeads l Hk. induction l as [|c l IH]; intros Ht; cbn [negotiateECHConfig]; [intros c []|].
  specialize (IH (fun c e Hc He => Ht c e (or_intror Hc) He)).
  pose proof (acceptable_code kems c (fun e He => Ht c e (or_introl eq_refl) He)) as A.
  assert (Skip : ~ (acceptable kems c /\ exists s, In s (ec_suites c) /\ usable aeads s) ->
    match negotiateECHConfig kems aeads l with
    | Ok (Some ng) =>
        exists pre post spre spost, c :: l = pre ++ ng_cfg ng :: post /\ acceptable kems (ng_cfg ng) /\
          ec_suites (ng_cfg ng) = spre ++ ng_suite ng :: spost /\ usable aeads (ng_suite ng) /\ (forall s, In s spre -> ~ usable aeads s) /\
          (forall c, In c pre -> ~ (acceptable kems c /\ exists s, In s (ec_suites c) /\ usable aeads s)) /\
          ng_id ng = ec_id (ng_cfg ng) /\ ng_max ng = ec_maxname (ng_cfg ng)
    | Ok None => forall c', In c' (c :: l) -> ~ (acceptable kems c' /\ exists s, In s (ec_suites c') /\ usable aeads s)
    | Err _ => False
    end).
  { intros Hu. destruct (negotiateECHConfig kems aeads l) as [[ng|]|]; [| |exact IH].
    - destruct IH as (pre & post & spre & spost & -> & I). exists (c :: pre), post, spre, spost. split; [reflexivity|].
      destruct I as (I1 & I2 & I3 & I4 & I5 & I6). repeat (split; [assumption|]). split; [|exact I6].
      intros c' [<-|Hc]; auto.
    - intros c' [<-|Hc]; auto. }
  destruct (hasMandatory c) eqn:Em; [apply Skip; intros [X _]; apply A in X; intuition discriminate|].
  destruct (isValidPublicName (ec_name c)) eqn:En; cbn [negb]; [|apply Skip; intros [X _]; apply A in X; intuition discriminate].
  destruct (existsb (N.eqb (ec_kem c)) kems) eqn:Ek; cbn [negb]; [|apply Skip; intros [X _]; apply A in X; intuition discriminate].
  pose proof (pick_suite_spec aeads Hk (ec_suites c)) as P.
  destruct (pick_suite aeads (ec_suites c)) as [[s|]|]; [| |contradiction]; cbn [bind].
  - destruct P as (spre & spost & Es & U & P). exists [], l, spre, spost. cbn [ng_cfg ng_suite ng_id ng_max app].
    split; [reflexivity|]. split; [apply A; auto|]. split; [exact Es|]. split; [exact U|]. split; [exact P|]. split; [intros c' []|]. auto.
  - apply Skip. intros [_ (s & Hs & U)]. exact (P s Hs U).
Qed.
Print Assumptions C47_negotiate.
(** An AEAD id this implementation does not know in the application's list of supported ones makes the whole choice fail with an
    error as soon as a configuration offers it, instead of being skipped. *)
Theorem C47_unknown_aead_throws : exists e,
  negotiateECHConfig [32] [9; 1] [mkEchCfg 1 32 (Some []) [(1, 9); (1, 1)] 0 (str "a") []] = Err e.
Proof. eexists. vm_compute. reflexivity. Qed.
Example C47_nonvacuous :
  negotiateECHConfig [32] [1; 2] [mkEchCfg 1 32 (Some []) [(1, 1)] 0 (str "a") [mkExt 32768 (Some [])];
                                  mkEchCfg 2 32 (Some []) [(1, 1)] 0 (str "a..b") [];
                                  mkEchCfg 3 16 (Some []) [(1, 1)] 0 (str "a.b") [];
                                  mkEchCfg 4 32 (Some []) [(2, 1); (1, 2); (2, 2); (1, 1)] 9 (str "a.b") [mkExt 32767 (Some [])]] =
    Ok (Some (mkNeg (mkEchCfg 4 32 (Some []) [(2, 1); (1, 2); (2, 2); (1, 1)] 9 (str "a.b") [mkExt 32767 (Some [])]) 4 9 (2, 2))).
Proof. vm_compute. reflexivity. Qed.

(** ** the configuration's encoding (draft-ietf-tls-esni section 4) *)
Definition w_suite2 (s : N * N) : bytes := be 2 (fst s) ++ be 2 (snd s).
Definition w_cfg (c : echcfg) : bytes :=
  be 1 (ec_id c) ++ be 2 (ec_kem c) ++ opaque 2 (ec_pk c) ++ tls_list 2 w_suite2 (ec_suites c) ++ be 1 (ec_maxname c) ++
  tls_vec 1 (ec_name c) ++ w_exts (ec_exts c).
Definition wf_cfg (c : echcfg) : bool :=
  in_u 1 (ec_id c) && in_u 2 (ec_kem c) && nonnull (ec_pk c) && forallb (fun s => in_u 2 (fst s) && in_u 2 (snd s)) (ec_suites c) &&
  in_u 1 (ec_maxname c) && wf_exts (ec_exts c).
Definition fit_cfg (c : echcfg) : bool :=
  ofits 2 (ec_pk c) && fits_len 2 (blen (concat (map w_suite2 (ec_suites c)))) && fits_len 1 (blen (ec_name c)) && fit_exts (ec_exts c).
Lemma lawful_hsuites : lawful (forallb (fun s => in_u 2 (fst s) && in_u 2 (snd s)))
  (fun l => forallb (fun p : N * N => true && true) l && fits_len 2 (blen (concat (map w_suite2 l)))) (tls_list 2 w_suite2) (c_vec W16 c_hsuite).
Proof. exact (lawful_vec _ _ _ _ (lawful_pair _ _ _ _ _ _ _ _ (lawful_u 2 ltac:(lia)) (lawful_u 2 ltac:(lia))) W16). Qed.
Lemma hs_all (l : list (N * N)) : forallb (fun p : N * N => true && true) l = true.
Proof. apply forallb_true. Qed.

Lemma hs_fit (l : list (N * N)) : fits_len 2 (blen (concat (map w_suite2 l))) = true ->
  forallb (fun p : N * N => true && true) l && fits_len 2 (blen (concat (map w_suite2 l))) = true.
Proof. intros H. rewrite hs_all, H. reflexivity. Qed.

Theorem C47_encode : forall c b, wf_cfg c = true -> (encode_cfg c = Ok b <-> fit_cfg c = true /\ b = w_cfg c).
Proof.
  intros c b W. unfold wf_cfg in W. rewrite !andb_true_iff in W. destruct W as (((((W1 & W2) & W3) & W4) & W5) & W6).
  unfold encode_cfg, fit_cfg, w_cfg. rewrite !andb_true_iff. split.
  - intros H. apply bind_Ok in H. destruct H as (i & Ei & H). apply bind_Ok in H. destruct H as (k & Ek & H).
    apply bind_Ok in H. destruct H as (p & Ep & H). apply bind_Ok in H. destruct H as (s & Es & H).
    apply bind_Ok in H. destruct H as (m & Em & H). apply bind_Ok in H. destruct H as (n & En & H).
    apply bind_Ok in H. destruct H as (x & Ex & H).
    apply (law_wr_inv _ _ _ _ (lawful_buf W16)) in Ep; [|exact W3]. apply (law_wr_inv _ _ _ _ lawful_hsuites) in Es; [|exact W4].
    apply (law_wr_inv _ _ _ _ (lawful_buf W8) (Some (ec_name c))) in En; [|reflexivity]. apply write_exts_inv in Ex; [|exact W6].
    destruct Ep as [F1 ->], Es as [F2 ->], En as [F3 ->], Ex as [F4 ->]. apply andb_true_iff in F2. unfold write_u in *.
    assert (i = be 1 (ec_id c)) by congruence. assert (k = be 2 (ec_kem c)) by congruence. assert (m = be 1 (ec_maxname c)) by congruence. subst i k m.
    split; [|symmetry; exact (f_equal (fun r => match r with Ok y => y | Err _ => [] end) H)]. split; [split; [split|]|]; [exact F1|tauto|exact F3|exact F4].
  - intros [(((F1 & F2) & F3) & F4) ->]. unfold write_u. cbn [bind].
    rewrite (law_wr _ _ _ _ (lawful_buf W16) (ec_pk c) W3 F1 : write_buf W16 (ec_pk c) = _). cbn [bind].
    rewrite (law_wr _ _ _ _ lawful_hsuites (ec_suites c) W4 (hs_fit _ F2) : write_vec W16 c_hsuite (ec_suites c) = _). cbn [bind].
    rewrite (law_wr _ _ _ _ (lawful_buf W8) (Some (ec_name c)) eq_refl F3 : write_buf W8 (Some (ec_name c)) = _). cbn [bind].
    rewrite write_exts_ok by assumption. reflexivity.
Qed.
(** What is written is read back, with anything after it left over; a configuration with an empty public name is written but not
    read back; what is read is the encoding of the result. *)
Theorem C47_config_roundtrip : forall c b rest, wf_cfg c = true -> encode_cfg c = Ok b ->
  decode_cfg (b ++ rest) = (match ec_name c with [] => fail | _ => Ok (c, rest) end).
Proof.
  intros c b rest W H. apply (C47_encode c b W) in H. destruct H as [F ->].
  unfold wf_cfg in W. rewrite !andb_true_iff in W. destruct W as (((((W1 & W2) & W3) & W4) & W5) & W6).
  unfold fit_cfg in F. rewrite !andb_true_iff in F. destruct F as (((F1 & F2) & F3) & F4).
  unfold w_cfg, decode_cfg. rewrite <- !app_assoc. rewrite read_u_ok by (assumption || lia). cbn [bind]. rewrite read_u_ok by (assumption || lia). cbn [bind].
  unfold opaque. rewrite (law_rt _ _ _ _ (lawful_buf W16) (ec_pk c) _ W3 F1 : read_buf W16 _ = _). cbn [bind].
  rewrite (law_rt _ _ _ _ lawful_hsuites (ec_suites c) _ W4 (hs_fit _ F2) : read_vec W16 c_hsuite _ = _). cbn [bind].
  rewrite read_u_ok by (assumption || lia). cbn [bind].
  rewrite (law_rt _ _ _ _ (lawful_buf W8) (Some (ec_name c)) _ eq_refl F3 : read_buf W8 _ = _). cbn [bind].
  destruct (ec_name c) eqn:En; [reflexivity|]. rewrite read_exts_ok by assumption. cbn [bind]. rewrite <- En. destruct c. reflexivity.
Qed.
Theorem C47_config_canonical : forall inp c rest, decode_cfg inp = Ok (c, rest) ->
  wf_cfg c = true /\ fit_cfg c = true /\ ec_name c <> [] /\ inp = w_cfg c ++ rest.
Proof.
  intros inp c rest H. unfold decode_cfg in H.
  apply bind_Ok in H. destruct H as ([[i ?] r0] & Ei & H). apply bind_Ok in H. destruct H as ([[k ?] r1] & Ek & H).
  apply bind_Ok in H. destruct H as ([[p ?] r2] & Ep & H). apply bind_Ok in H. destruct H as ([[s ?] r3] & Es & H).
  apply bind_Ok in H. destruct H as ([[m ?] r4] & Em & H). apply bind_Ok in H. destruct H as ([[nm ?] r5] & En & H).
  destruct nm as [[|nb nl]|]; try discriminate. apply bind_Ok in H. destruct H as ([x r6] & Ex & H).
  assert (c = mkEchCfg i k p s m (nb :: nl) x) by congruence. assert (r6 = rest) by congruence. subst c r6. clear H.
  apply read_u_inv in Ei. apply read_u_inv in Ek. apply read_u_inv in Em.
  apply (law_canon _ _ _ _ (lawful_buf W16)) in Ep. apply (law_canon _ _ _ _ lawful_hsuites) in Es.
  apply (law_canon _ _ _ _ (lawful_buf W8)) in En. apply read_exts_inv in Ex.
  destruct Ei as [I1 ->], Ek as [I2 ->], Em as [I3 Em], Ep as (P1 & P2 & -> & _), Es as (S1 & S2 & -> & _), En as (N1 & N2 & En & _), Ex as (X1 & X2 & Ex).
  subst r5 r4 r3. apply andb_true_iff in S2. unfold wf_cfg, fit_cfg, w_cfg. cbn [ec_id ec_kem ec_pk ec_suites ec_maxname ec_name ec_exts].
  rewrite !andb_true_iff. split; [repeat split; assumption|]. split; [repeat split; try assumption; tauto|]. split; [discriminate|].
  rewrite <- !app_assoc. reflexivity.
Qed.
Print Assumptions C47_config_canonical.
(** Parsing: an ECHConfig of another version is skipped; for this version the content may be followed by anything. *)
Theorem C47_parse : forall v d,
  parseSupportedECHConfig (v, Some d) =
    if v =? 65037 then match decode_cfg d with Ok (c, _) => Ok (Some c) | Err e => Err e end else Ok None.
Proof. intros v d. unfold parseSupportedECHConfig. cbn [fst snd]. destruct (v =? 65037); [|reflexivity]. destruct (decode_cfg d) as [[c r]|]; reflexivity. Qed.
Theorem C47_trailing_ignored : forall c b junk, wf_cfg c = true -> encode_cfg c = Ok b -> ec_name c <> [] ->
  parseSupportedECHConfig (65037, Some (b ++ junk)) = Ok (Some c).
Proof.
  intros c b junk W H N0. rewrite C47_parse. change (65037 =? 65037) with true. cbv iota. rewrite (C47_config_roundtrip c b junk W H).
  destruct (ec_name c); [congruence|reflexivity].
Qed.

(** ** retry configurations *)
(** All configurations are returned, those whose public name is the requested server name first, and otherwise in the order they were
    added. *)
Definition published (p : echcfg * kex) : N * buf := (65037, match encode_cfg (fst p) with Ok b => Some b | Err _ => None end).
Theorem C47_retry_configs : forall ps sni l, getRetryConfigs ps sni = Ok l ->
  (forall p, In p ps -> exists b, encode_cfg (fst p) = Ok b) /\
  exists same others, l = map published (same ++ others) /\ sublist same ps /\ sublist others ps /\ Permutation (same ++ others) ps /\
    (forall p, In p same -> sni = Some (ec_name (fst p))) /\ (forall p, In p others -> sni <> Some (ec_name (fst p))).
Proof.
  assert (Sub : forall A (f : A -> bool) l, sublist (filter f l) l).
  { induction l as [|a l IH]; cbn [filter]; [constructor|]. destruct (f a); [apply sub_keep|apply sub_skip]; exact IH. }
  assert (Perm : forall A (f : A -> bool) l, Permutation (filter f l ++ filter (fun x => negb (f x)) l) l).
  { induction l as [|a l IH]; cbn [filter]; [constructor|]. destruct (f a); cbn [negb app]; [apply perm_skip; exact IH|].
    symmetry. apply Permutation_cons_app. symmetry. exact IH. }
  intros ps sni l H. unfold getRetryConfigs in H. apply bind_Ok in H. destruct H as (all & Ea & H). injection H as <-.
  assert (K : (forall p, In p ps -> exists b, encode_cfg (fst p) = Ok b) /\ all = map (fun p => (matchesSni sni p, published p)) ps).
  { revert all Ea. induction ps as [|p ps IH]; intros all Ea; cbn [mapR] in *.
    - injection Ea as <-. split; [intros p []|reflexivity].
    - apply bind_Ok in Ea. destruct Ea as ([bm x] & E1 & Ea). apply bind_Ok in Ea. destruct Ea as (r & Er & Ea). injection Ea as <-.
      unfold retryConfig in E1. apply bind_Ok in E1. destruct E1 as (y & E1 & E2). apply bind_Ok in E1. destruct E1 as (b & Eb & E1).
      destruct (IH r Er) as [I1 ->]. split; [intros q [<-|Hq]; eauto|]. cbn [map]. f_equal. unfold published. rewrite Eb. congruence. }
  destruct K as [K1 ->]. split; [exact K1|].
  exists (filter (matchesSni sni) ps), (filter (fun p => negb (matchesSni sni p)) ps).
  assert (M : forall p, matchesSni sni p = true <-> sni = Some (ec_name (fst p))).
  { intros p. unfold matchesSni. destruct sni as [s|]; [|split; discriminate]. rewrite bytes_eqb_eq. split; [intros ->; reflexivity|congruence]. }
  split.
  - rewrite map_app. f_equal.
    + clear. induction ps as [|p ps IH]; cbn [map filter fst]; [reflexivity|]. destruct (matchesSni sni p); cbn [map snd]; [f_equal; exact IH|exact IH].
    + clear. induction ps as [|p ps IH]; cbn [map filter fst]; [reflexivity|]. destruct (matchesSni sni p); cbn [negb map snd]; [exact IH|f_equal; exact IH].
  - split; [apply Sub|]. split; [apply Sub|]. split; [apply Perm|]. split.
    + intros p Hp. apply filter_In in Hp. apply M. tauto.
    + intros p Hp X. apply filter_In in Hp. apply M in X. rewrite X in Hp. destruct Hp as [_ Hp]. discriminate.
Qed.
Print Assumptions C47_retry_configs.
Example C47_retry_nonvacuous :
  exists l, getRetryConfigs [(mkEchCfg 1 32 (Some []) [] 0 (str "a") [], toy_dh 1); (mkEchCfg 2 32 (Some []) [] 0 (str "b") [], toy_dh 2)]
    (Some (str "b")) = Ok l /\ map (fun c => match snd c with Some (i :: _) => b2n i | _ => 0 end) l = [2; 1].
Proof. eexists. split; vm_compute; reflexivity. Qed.

(** ** The KEM's hash *)
(** RFC 9180 fixes the hash inside a KEM by the KEM's identifier (SHA-256 for X25519 and P-256, SHA-384 for P-384, SHA-512 for P-521).
    Here it is the hash of the suite's KDF: with X25519 and HKDF-SHA384 both ends use SHA-384 inside the KEM. Two fizz endpoints agree
    (C44), an endpoint following RFC 9180 would not. *)
Theorem C47_kem_hash_is_kdf_hash : forall fa e ng enc ctx h pk, constructHpkeSetupResult fa e ng = Ok (enc, ctx) ->
  getHashFunction (fst (ng_suite ng)) = Ok h -> ec_pk (ng_cfg ng) = Some pk ->
  exists group suite alg info, getKexGroup (ec_kem (ng_cfg ng)) = Ok group /\
    setupWithEncap (fa_hash fa h) (fa_hash fa h) hpke_v1 suite group alg Base_ e None pk info None 0 = Ok (enc, ctx).
Proof.
  intros fa e ng enc ctx h pk H Hh Hpk. unfold constructHpkeSetupResult in H. rewrite Hh, Hpk in H. cbn [bind] in H.
  apply bind_Ok in H. destruct H as (grp & Eg & H). apply bind_Ok in H. destruct H as (info & Ei & H).
  apply bind_Ok in H. destruct H as (cs0 & Ec & H). apply bind_Ok in H. destruct H as (sid & Es & H).
  apply bind_Ok in H. destruct H as (alg & Ea & H). exists grp, sid, alg, info. auto.
Qed.
Theorem C47_kem_hash_not_rfc9180 :
  let ng := mkNeg (mkEchCfg 7 32 (Some (be 32 20)) [(2, 2)] 30 (str "public.example") []) 7 30 (2, 2) in
  let sha384 := mkHash 48 128 (fun m => be 48 (2 * unbe m + 1)) (be 48 1) in
  let fa := mkFac (fun h => match h with Sha384 => sha384 | _ => toy_hash end) (fun _ => Ok toy_alg) in
  getHashFunctionForKEM 32 = Ok Sha256 /\ is_ok (constructHpkeSetupResult fa (toy_dh 3) ng) = true /\
  forall e, constructHpkeSetupResult (mkFac (fun h => match h with Sha384 => sha384 | _ => mkHash 0 0 (fun _ => []) [] end) (fun _ => Ok toy_alg)) e ng =
            constructHpkeSetupResult fa e ng.
Proof.
  cbv zeta. split; [vm_compute; reflexivity|]. split; [vm_compute; reflexivity|]. intros e. reflexivity.
Qed.
