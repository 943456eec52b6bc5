(** * Delegated credentials: properties (RFC 9345) *)
From Verif Require Import Base Codec CodecSpec Str Handshake HandshakeSpec HandshakeProofs Extensions ExtensionsSpec ExtensionsProofs Transcript Ticket Server DelegCred.
From Verif Require Import PropsEch.
From Verif Require CertManager PropsCert.
From Coq Require Import ZArith Lia.
Open Scope N_scope.

(** ** Specification *)
(** struct { uint32 valid_time; SignatureScheme dc_cert_verify_algorithm; opaque public_key<0..2^24-1>; } Credential; followed by the
    SignatureScheme of the signature, RFC 9345 section 4 *)
Definition cred_tbs (valid scheme : N) (key : bytes) (credScheme : N) : bytes :=
  be 4 valid ++ be 2 scheme ++ be 3 (blen key) ++ key ++ be 2 credScheme.
Definition cred_wire (valid scheme : N) (key : bytes) (credScheme : N) (sg : bytes) : bytes :=
  cred_tbs valid scheme key credScheme ++ be 2 (blen sg) ++ sg.
(** The bytes a signature of a delegated credential, or of a handshake, covers: 64 spaces, a context string, a zero, the content *)
Definition covered (context content : bytes) : bytes := repeat x20 64 ++ context ++ [x00] ++ content.
(** The contents of the first extension with this type, if any *)
Definition first_ext (ty : N) (l : list Extension) (b : buf) : Prop :=
  exists pre post, l = pre ++ mkExt ty b :: post /\ forall e, In e pre -> ext_type e <> ty.
(** Under which context a credential is signed, and a handshake with it *)
Definition cred_context (ctx : cvctx) : bytes :=
  match ctx with CvServer => str "TLS, server delegated credentials" | _ => str "TLS, client delegated credentials" end.
Definition hs_context (ctx : cvctx) : bytes :=
  match ctx with
  | CvServer => str "TLS 1.3, server CertificateVerify" | CvClient => str "TLS 1.3, client CertificateVerify" | CvAuthenticator => str "Exported Authenticator"
  | CvClientDC => str "TLS, client delegated credentials" | CvServerDC => str "TLS, server delegated credentials"
  end.
(** A usable key of the type *)
Definition usable_key (t : keytype) (k : pubkey) : Prop := pk_type k = Some t /\ pk_valid k = true.
(** At time [now], the entry's certificate delegates to a key that signed [tbs] as [sg]. *)
Record delegated (O : ossl) (now : Z) (e : CertificateEntry) (scheme : N) (ctx : cvctx) (tbs sg : bytes)
    (cert : bytes) (x : x509) (valid : N) (keyb : bytes) (credScheme : N) (credSig : bytes) (pk k : pubkey) (t : keytype) : Prop := {
  dl_cert : ce_data e = Some cert; dl_nonempty : cert <> []; dl_x509 : o_x509 O cert = Some x; dl_parent : x_key x = Some pk;
  dl_ext : exists rest, first_ext 34 (ce_extensions e) (Some (cred_wire valid scheme keyb credScheme credSig ++ rest));
  dl_fits : valid < 2 ^ 32 /\ scheme < 2 ^ 16 /\ credScheme < 2 ^ 16 /\ blen keyb < 2 ^ 24 /\ blen credSig < 2 ^ 16;
  dl_key : o_pubkey O keyb = Some k;
  dl_types : usable_key t pk /\ usable_key t k;
  dl_usage : x_delegation x = true /\ x_keyUsage x = true /\ x_digSig x = true;
  dl_time : let expiry := (x_notBefore x + Z.of_N valid * 1000000000)%Z in
    (now < expiry <= now + 7 * 24 * 3600 * 1000000000 /\ expiry < x_notAfter x)%Z;
  dl_schemes : credScheme = key_scheme t /\ scheme = key_scheme t;
  dl_signed : pk_check pk (covered (cred_context ctx) (x_der x ++ cred_tbs valid scheme keyb credScheme)) credSig = Ok tt;
  dl_proof : pk_check k (covered (hs_context ctx) tbs) sg = Ok tt }.
Definition times_ok (x : x509) : Prop := (- 2 ^ 63 <= x_notBefore x < 2 ^ 63 /\ - 2 ^ 63 <= x_notAfter x < 2 ^ 63)%Z.

(** ** Proofs *)
Lemma app_eq {A} (a b c d : list A) : length a = length c -> a ++ b = c ++ d -> a = c /\ b = d.
Proof.
  revert c. induction a as [|x a IH]; intros [|y c] L H; try discriminate; [auto|]. cbn in H. inversion H; subst. destruct (IH c) as (-> & ->); auto.
Qed.
Lemma covered_sign ctx b : prepareSignData ctx b = covered (hs_context ctx) b.
Proof. destruct ctx; reflexivity. Qed.
Lemma covered_cred ctx b : prepareSignData (dc_ctx ctx) b = covered (cred_context ctx) b.
Proof. destruct ctx; reflexivity. Qed.
Lemma getKeyType_iff k t : getKeyType k = Ok t <-> pk_type k = Some t.
Proof. unfold getKeyType. destruct (pk_type k); split; intros H; try discriminate; inversion H; reflexivity. Qed.
Lemma keytype_eqb_iff a b : keytype_eqb a b = true <-> a = b.
Proof. destruct a, b; split; intros H; try reflexivity; discriminate H. Qed.
Lemma setKey_iff t k k' : setKey t k = Ok k' <-> k' = k /\ usable_key t k.
Proof.
  unfold setKey, usable_key. destruct (pk_type k) as [t'|]; [|split; [discriminate|intros (_ & H & _); discriminate]].
  destruct (keytype_eqb t t') eqn:E; [apply keytype_eqb_iff in E; subst t'|].
  - cbn [andb]. destruct (pk_valid k); split; intros H; try discriminate.
    + inversion H. auto.
    + destruct H as (-> & _). reflexivity.
    + destruct H as (_ & _ & H). discriminate.
  - cbn [andb]. split; [discriminate|]. intros (_ & H & _). inversion H; subst. rewrite (proj2 (keytype_eqb_iff t t) eq_refl) in E. discriminate.
Qed.
Lemma verify_key_iff t k s ctx tbs sg : verify_key t k s ctx tbs sg = Ok tt <-> s = key_scheme t /\ pk_check k (prepareSignData ctx tbs) sg = Ok tt.
Proof.
  unfold verify_key. destruct (N.eqb_spec s (key_scheme t)); [tauto|]. split; [discriminate|tauto].
Qed.
Lemma no_type_in ty l : no_type ty l = true <-> forall e, In e l -> ext_type e <> ty.
Proof.
  unfold no_type. rewrite forallb_forall. split; intros H e He; specialize (H e He).
  - apply negb_true_iff, N.eqb_neq in H. exact H.
  - apply negb_true_iff, N.eqb_neq, H.
Qed.
Lemma w_dc_wire v s k cs sg : w_dc (v, s, Some k, cs, Some sg) = cred_wire v s k cs sg.
Proof. unfold w_dc, cred_wire, cred_tbs, opaque, tls_vec. cbn [bufbytes]. rewrite <- !app_assoc. reflexivity. Qed.
Definition cred_fits (v s : N) (k : bytes) (cs : N) (sg : bytes) : Prop := v < 2 ^ 32 /\ s < 2 ^ 16 /\ cs < 2 ^ 16 /\ blen k < 2 ^ 24 /\ blen sg < 2 ^ 16.
Lemma dc_wf_fit v s k cs sg :
  (wf_x (XDelegatedCredential (v, s, Some k, cs, Some sg)) = true /\ fit_x (XDelegatedCredential (v, s, Some k, cs, Some sg)) = true) <-> cred_fits v s k cs sg.
Proof.
  unfold cred_fits. cbn [wf_x wf_dc fit_x nonnull]. unfold ofits, fits_len, in_u. cbn [bufbytes]. rewrite !andb_true_iff, !N.ltb_lt.
  change (256 ^ N.of_nat 4) with (2 ^ 32). change (256 ^ N.of_nat 2) with (2 ^ 16). change (256 ^ N.of_nat 3) with (2 ^ 24). tauto.
Qed.
Lemma getCredential_inv l c : getCredential l = Ok (Some c) ->
  exists v s k cs sg rest, c = mkCred v s (Some k) cs (Some sg) /\ cred_fits v s k cs sg /\ first_ext 34 l (Some (cred_wire v s k cs sg ++ rest)).
Proof.
  unfold getCredential. intros H. apply bind_Ok in H. destruct H as ([x|] & Hx & H); [|discriminate]. apply getExtension_strict in Hx.
  destruct Hx as (Hk & Hw & Hf & pre & post & rest & -> & Hp & _).
  destruct x as [ | | | | | | | | | | | | | | | | | | | | | | |[[[[v s] k] cs] sg]| | ] eqn:Ex; try discriminate Hk.
  destruct k as [k|]; [|cbn [wf_x wf_dc nonnull] in Hw; rewrite !andb_false_r in Hw; discriminate].
  destruct sg as [sg|]; [|cbn [wf_x wf_dc nonnull] in Hw; rewrite !andb_false_r in Hw; discriminate].
  exists v, s, k, cs, sg, rest. assert (c = mkCred v s (Some k) cs (Some sg)) by congruence. split; [assumption|]. split; [apply dc_wf_fit; auto|].
  exists pre, post. rewrite <- w_dc_wire. split; [reflexivity|]. apply no_type_in, Hp.
Qed.
Lemma first_ext_unique ty l a b : first_ext ty l a -> first_ext ty l b -> a = b.
Proof.
  intros (p1 & q1 & -> & H1) (p2 & q2 & E & H2). revert p2 E H2. induction p1 as [|x p1 IH]; intros [|y p2] E H2; cbn [app] in E.
  - congruence.
  - inversion E; subst. exfalso. apply (H2 (mkExt ty a)); [left; reflexivity|reflexivity].
  - inversion E; subst. exfalso. apply (H1 (mkExt ty b)); [left; reflexivity|reflexivity].
  - inversion E; subst. apply (IH (fun e He => H1 e (or_intror He)) p2); [assumption|]. intros e He. apply H2. right. exact He.
Qed.
Lemma getCredential_ok l v s k cs sg rest : cred_fits v s k cs sg -> first_ext 34 l (Some (cred_wire v s k cs sg ++ rest)) ->
  getCredential l = Ok (Some (mkCred v s (Some k) cs (Some sg))).
Proof.
  intros Hf (pre & post & -> & Hp). apply dc_wf_fit in Hf. destruct Hf as [Hw Hf]. rewrite <- w_dc_wire.
  unfold getCredential, getExtension, findExtension.
  rewrite (proj2 (find_split (fun e => ext_type e =? 34) _ (mkExt 34 (Some (w_dc (v, s, Some k, cs, Some sg) ++ rest))))).
  - cbn [ext_data]. pose proof (read_ext_ok _ rest Hw Hf (fun E => match E with eq_refl => Logic.I end)) as E. cbn [kind_of w_xbody] in E. rewrite E. reflexivity.
  - exists pre, post. split; [reflexivity|]. split; [|reflexivity]. apply no_type_in, Hp.
Qed.
Lemma getCredential_none l : getCredential l = Ok None <-> forall e, In e l -> ext_type e <> 34.
Proof.
  rewrite <- no_type_in. change 34 with (kind_type KDelegatedCredential). rewrite <- getExtension_none. unfold getCredential. split; intros H.
  - apply bind_Ok in H. destruct H as ([x|] & Hx & H); [|exact Hx]. apply getExtension_strict in Hx. destruct Hx as (Hk & _).
    destruct x as [ | | | | | | | | | | | | | | | | | | | | | | |[[[[v s] k] cs] sg]| | ]; discriminate.
  - rewrite H. reflexivity.
Qed.
Lemma prepareCred_ok v s k cs sg der : cred_fits v s k cs sg -> prepareCred (mkCred v s (Some k) cs (Some sg)) der = Ok (der ++ cred_tbs v s k cs).
Proof.
  intros (H1 & H2 & H3 & H4 & H5). unfold prepareCred, write_u. cbn [dc_valid dc_scheme dc_key dc_credScheme bind]. rewrite write_buf_any.
  - cbn [bind]. unfold cred_tbs, opaque, tls_vec. cbn [bufbytes lw_nat]. rewrite <- !app_assoc. reflexivity.
  - unfold ofits, fits_len. cbn [bufbytes lw_nat]. apply N.ltb_lt. exact H4.
Qed.
Lemma checkExtensions_iff x : checkExtensions x = Ok tt <-> x_delegation x = true /\ x_keyUsage x = true /\ x_digSig x = true.
Proof.
  unfold checkExtensions. destruct (x_delegation x); cbn [negb]; [|split; [discriminate|intros (H & _); discriminate]].
  destruct (x_keyUsage x); cbn [negb]; [|split; [discriminate|intros (_ & H & _); discriminate]].
  destruct (x_digSig x); cbn [negb]; [tauto|split; [discriminate|intros (_ & _ & H); discriminate]].
Qed.
Lemma chk64_iff z r : chk64 z = Ok r <-> r = z /\ (- 2 ^ 63 <= z < 2 ^ 63)%Z.
Proof.
  unfold chk64, int64. destruct ((- 2 ^ 63 <=? z)%Z && (z <? 2 ^ 63)%Z) eqn:E; split; intros H; try discriminate.
  - assert (r = z) by congruence. subst r. apply andb_true_iff in E. rewrite Z.leb_le, Z.ltb_lt in E. auto.
  - destruct H as (-> & _). reflexivity.
  - destruct H as (_ & H1 & H2). apply Z.leb_le in H1. apply Z.ltb_lt in H2. rewrite H1, H2 in E. discriminate.
Qed.
Definition in_time (now : Z) (x : x509) (valid : N) : Prop :=
  let expiry := (x_notBefore x + Z.of_N valid * 1000000000)%Z in (now < expiry <= now + 7 * 24 * 3600 * 1000000000 /\ expiry < x_notAfter x)%Z.
Lemma checkTime_sound now x c : checkTime now x c = Ok tt -> in_time now x (dc_valid c).
Proof.
  unfold checkTime, expiresTime, in_time, week, ns_per_s. intros H. apply bind_Ok in H. destruct H as (e & He & H). apply chk64_iff in He. destruct He as (-> & _).
  destruct (Z.leb_spec (x_notBefore x + Z.of_N (dc_valid c) * 1000000000) now); [discriminate|].
  apply bind_Ok in H. destruct H as (d & Hd & H'). apply chk64_iff in Hd. destruct Hd as (-> & _).
  match type of H' with (if (?a <? ?b)%Z then _ else _) = _ => destruct (Z.ltb_spec a b); [discriminate|] end.
  match type of H' with (if (?a <=? ?b)%Z then _ else _) = _ => destruct (Z.leb_spec a b); [discriminate|] end. lia.
Qed.
Lemma checkTime_complete now x c : times_ok x -> in_time now x (dc_valid c) -> checkTime now x c = Ok tt.
Proof.
  unfold checkTime, expiresTime, in_time, week, ns_per_s, times_ok. intros (Ha & Hb) (Hc & Hd).
  change (2 ^ 63)%Z with 9223372036854775808%Z in *.
  assert (E : chk64 (x_notBefore x + Z.of_N (dc_valid c) * 1000000000) = Ok (x_notBefore x + Z.of_N (dc_valid c) * 1000000000)%Z).
  { apply chk64_iff. change (2 ^ 63)%Z with 9223372036854775808%Z. lia. }
  rewrite E. cbn [bind]. destruct (Z.leb_spec (x_notBefore x + Z.of_N (dc_valid c) * 1000000000) now); [lia|].
  assert (E' : chk64 (x_notBefore x + Z.of_N (dc_valid c) * 1000000000 - now) = Ok (x_notBefore x + Z.of_N (dc_valid c) * 1000000000 - now)%Z).
  { apply chk64_iff. change (2 ^ 63)%Z with 9223372036854775808%Z. lia. }
  rewrite E'. cbn [bind].
  match goal with |- (if (?a <? ?b)%Z then _ else _) = _ => destruct (Z.ltb_spec a b); [lia|] end.
  match goal with |- (if (?a <=? ?b)%Z then _ else _) = _ => destruct (Z.leb_spec a b); [lia|] end. reflexivity.
Qed.
Lemma readPeer_iff O b x : readPeer O b = Ok x <-> exists d, b = Some d /\ d <> [] /\ o_x509 O d = Some x.
Proof.
  unfold readPeer. destruct b as [[|c d]|]; split; try discriminate.
  - intros (d & E & N & _). inversion E. subst. contradiction.
  - destruct (o_x509 O (c :: d)) eqn:E; [|discriminate]. intros H. inversion H; subst. exists (c :: d). repeat split; [discriminate|assumption].
  - intros (d' & E & _ & H). inversion E; subst. rewrite H. reflexivity.
  - intros (d' & E & _). discriminate.
Qed.

(** ** A delegated credential is accepted exactly as RFC 9345 says *)
(** A leaf certificate entry with a delegated_credential extension: a signature with it is accepted only if ... *)
Theorem C66_sound O now e p scheme ctx tbs sg :
  (exists x, In x (ce_extensions e) /\ ext_type x = 34) ->
  makePeerCert O now e true = Ok p -> pc_verify p scheme ctx tbs sg = Ok tt ->
  exists cert x valid keyb credScheme credSig pk k t, delegated O now e scheme ctx tbs sg cert x valid keyb credScheme credSig pk k t.
Proof.
  intros (e0 & He0 & Ht0) H Hv. unfold makePeerCert in H. cbn [negb orb] in H.
  destruct (ce_extensions e) as [|e1 es] eqn:Ex; [destruct He0|]. rewrite <- Ex in *. apply bind_Ok in H. destruct H as (x & Hx & H).
  apply bind_Ok in H. destruct H as (parent & _ & H). apply bind_Ok in H. destruct H as ([c|] & Hc & H); [|exfalso; exact (proj1 (getCredential_none _) Hc _ He0 Ht0)].
  apply getCredential_inv in Hc. destruct Hc as (v & s & kb & cs & csg & rest & -> & Hf & Hfe).
  apply readPeer_iff in Hx. destruct Hx as (d & Hd & Hn & Hx).
  unfold makeCredential in H. cbn [dc_key] in H. destruct (o_pubkey O kb) as [k|] eqn:Ek; [|discriminate].
  apply bind_Ok in H. destruct H as (t & Ht & H). apply bind_Ok in H. destruct H as (pk & Hpk & H). apply bind_Ok in H. destruct H as (k' & Hk' & H).
  apply getKeyType_iff in Ht. apply setKey_iff in Hk'. destruct Hk' as (-> & Uk). unfold peerKey in Hpk. destruct (x_key x) as [pk'|] eqn:Exk; [|discriminate].
  apply setKey_iff in Hpk. destruct Hpk as (-> & Upk).
  assert (Hp : pc_verify p = dcVerify now t x pk' k (mkCred v s (Some kb) cs (Some csg))) by (inversion H; reflexivity). rewrite Hp in Hv. clear H Hp.
  unfold dcVerify in Hv. cbn [dc_scheme dc_credScheme dc_signature] in Hv. destruct (N.eqb_spec scheme s) as [->|]; [|discriminate]. cbn [negb] in Hv.
  apply bind_Ok in Hv. destruct Hv as ([] & Hu & Hv). apply bind_Ok in Hv. destruct Hv as ([] & Hti & Hv). rewrite (prepareCred_ok _ _ _ _ _ _ Hf) in Hv. cbn [bind] in Hv.
  destruct (verify_key t pk' cs (dc_ctx ctx) (x_der x ++ cred_tbs v s kb cs) csg) as [[]|[]] eqn:E1; try discriminate.
  apply verify_key_iff in E1. destruct E1 as (-> & E1). apply verify_key_iff in Hv. destruct Hv as (-> & E2).
  rewrite covered_cred in E1. rewrite covered_sign in E2. apply checkExtensions_iff in Hu. apply checkTime_sound in Hti.
  exists d, x, v, kb, (key_scheme t), csg, pk', k, t. constructor; auto. exists rest. exact Hfe.
Qed.
(** ... and then it is. *)
Theorem C66_complete O now e scheme ctx tbs sg cert x valid keyb credScheme credSig pk k t :
  times_ok x -> delegated O now e scheme ctx tbs sg cert x valid keyb credScheme credSig pk k t ->
  exists p, makePeerCert O now e true = Ok p /\ pc_verify p scheme ctx tbs sg = Ok tt /\ pc_cert p = mkCertObj (x_ident x) (Some (x_der x)).
Proof.
  intros HT [D1 D2 D3 D4 (rest & D5) D6 D7 (D8 & D8') D9 D10 (-> & ->) D11 D12].
  unfold makePeerCert. cbn [negb orb]. pose proof D5 as (pre & post & El & _). destruct (ce_extensions e) as [|e1 es] eqn:Ex; [destruct pre; discriminate|].
  rewrite <- Ex in *. rewrite (proj2 (readPeer_iff O (ce_data e) x)) by eauto. cbn [bind]. unfold makePeer. rewrite D4.
  rewrite (proj2 (getKeyType_iff pk t) (proj1 D8)). cbn [bind]. rewrite (proj2 (setKey_iff t pk pk) (conj eq_refl D8)). cbn [bind].
  rewrite (getCredential_ok _ _ _ _ _ _ _ D6 D5). cbn [bind]. unfold makeCredential. cbn [dc_key]. rewrite D7.
  rewrite (proj2 (getKeyType_iff k t) (proj1 D8')). cbn [bind]. unfold peerKey. rewrite D4. rewrite (proj2 (setKey_iff t pk pk) (conj eq_refl D8)). cbn [bind].
  rewrite (proj2 (setKey_iff t k k) (conj eq_refl D8')). cbn [bind]. eexists. split; [reflexivity|]. cbn [pc_verify pc_cert]. split; [|reflexivity].
  unfold dcVerify. cbn [dc_scheme dc_credScheme dc_signature]. rewrite N.eqb_refl. cbn [negb]. rewrite (proj2 (checkExtensions_iff x) D9). cbn [bind].
  rewrite (checkTime_complete now x (mkCred valid (key_scheme t) (Some keyb) (key_scheme t) (Some credSig)) HT D10). cbn [bind]. rewrite (prepareCred_ok _ _ _ _ _ _ D6). cbn [bind].
  rewrite (proj2 (verify_key_iff t pk (key_scheme t) (dc_ctx ctx) _ credSig)) by (rewrite covered_cred; auto).
  apply verify_key_iff. rewrite covered_sign. auto.
Qed.
(** A certificate that is empty or unreadable is an error. *)
Theorem C66_unreadable O now e leaf d : ce_data e = Some d -> d = [] \/ o_x509 O d = None -> makePeerCert O now e leaf = fail.
Proof.
  intros Hd H. unfold makePeerCert. assert (R : readPeer O (ce_data e) = fail).
  { rewrite Hd. unfold readPeer. destruct H as [->|H]; [reflexivity|]. destruct d; [reflexivity|]. rewrite H. reflexivity. }
  rewrite R. destruct (negb leaf || _); reflexivity.
Qed.
(** What a client or server tells a peer whose delegated credential it refuses: certificate_expired if it has expired, illegal_parameter if its key cannot be read, or is not for
    the scheme that was used, or the certificate does not delegate, or it is valid for too long, or its signature is wrong. *)
Theorem C66_alerts O now e d x v s kb cs csg rest pk t :
  ce_data e = Some d -> d <> [] -> o_x509 O d = Some x -> x_key x = Some pk -> usable_key t pk ->
  cred_fits v s kb cs csg -> first_ext 34 (ce_extensions e) (Some (cred_wire v s kb cs csg ++ rest)) ->
  let expiry := (x_notBefore x + Z.of_N v * 1000000000)%Z in
  (- 2 ^ 63 <= expiry < 2 ^ 63 /\ expiry - now < 2 ^ 63)%Z ->
  (o_pubkey O kb = None -> makePeerCert O now e true = failA al_illegal_parameter) /\
  (forall k, o_pubkey O kb = Some k -> ~ usable_key t k -> makePeerCert O now e true = fail) /\
  (forall k, o_pubkey O kb = Some k -> usable_key t k -> exists p, makePeerCert O now e true = Ok p /\ forall sc ctx tbs sg,
    let delegates := x_delegation x = true /\ x_keyUsage x = true /\ x_digSig x = true in
    (sc <> s \/ ~ delegates -> pc_verify p sc ctx tbs sg = failA al_illegal_parameter) /\
    (sc = s -> delegates -> (expiry <= now)%Z -> pc_verify p sc ctx tbs sg = failA 45) /\
    (sc = s -> delegates -> (now < expiry)%Z -> (now + 7 * 24 * 3600 * 1000000000 < expiry \/ x_notAfter x <= expiry)%Z -> pc_verify p sc ctx tbs sg = failA al_illegal_parameter) /\
    (sc = s -> delegates -> in_time now x v -> cs <> key_scheme t \/ pk_check pk (covered (cred_context ctx) (x_der x ++ cred_tbs v s kb cs)) csg = fail ->
      pc_verify p sc ctx tbs sg = failA al_illegal_parameter)).
Proof.
  intros Hd Hn Hx Hk Ut Hf Hfe expiry HE.
  assert (S : makePeerCert O now e true = makeCredential O now (mkCred v s (Some kb) cs (Some csg)) x).
  { unfold makePeerCert. cbn [negb orb]. pose proof Hfe as (pre & post & El & _). destruct (ce_extensions e) as [|e1 es] eqn:Ex; [destruct pre; discriminate|]. rewrite <- Ex in *.
    rewrite (proj2 (readPeer_iff O (ce_data e) x)) by eauto. cbn [bind]. unfold makePeer. rewrite Hk. rewrite (proj2 (getKeyType_iff pk t) (proj1 Ut)). cbn [bind].
    rewrite (proj2 (setKey_iff t pk pk) (conj eq_refl Ut)). cbn [bind]. rewrite (getCredential_ok _ _ _ _ _ _ _ Hf Hfe). reflexivity. }
  rewrite S. unfold makeCredential. cbn [dc_key]. split; [intros ->; reflexivity|]. split.
  - intros k -> N. unfold getKeyType, peerKey. rewrite Hk. destruct (pk_type k) as [t'|] eqn:Et; [|reflexivity]. cbn [bind]. unfold setKey. rewrite (proj1 Ut), (proj2 Ut), Et, (proj2 (keytype_eqb_iff t' t') eq_refl).
    destruct (keytype_eqb t' t) eqn:E; [|reflexivity]. apply keytype_eqb_iff in E. subst t'. cbn [andb bind]. destruct (pk_valid k) eqn:V; [|reflexivity]. exfalso. apply N. split; assumption.
  - intros k -> U. rewrite (proj2 (getKeyType_iff k t) (proj1 U)). cbn [bind]. unfold peerKey. rewrite Hk, (proj2 (setKey_iff t pk pk) (conj eq_refl Ut)). cbn [bind].
    rewrite (proj2 (setKey_iff t k k) (conj eq_refl U)). cbn [bind]. eexists. split; [reflexivity|]. intros sc ctx tbs sg. set (delegates := x_delegation x = true /\ x_keyUsage x = true /\ x_digSig x = true). cbn [pc_verify]. unfold dcVerify. cbn [dc_scheme dc_credScheme dc_signature].
    assert (CE : delegates -> checkExtensions x = Ok tt) by (intros D; apply checkExtensions_iff; exact D).
    assert (EX : expiresTime x (mkCred v s (Some kb) cs (Some csg)) = Ok expiry) by (unfold expiresTime, ns_per_s; cbn [dc_valid]; apply chk64_iff; split; [reflexivity|exact (proj1 HE)]).
    split; [|split; [|split]].
    + intros [N|N].
      * destruct (N.eqb_spec sc s); [contradiction|reflexivity].
      * destruct (sc =? s); [|reflexivity]. cbn [negb]. unfold delegates in N. unfold checkExtensions. destruct (x_delegation x); [|reflexivity]. destruct (x_keyUsage x); [|reflexivity]. destruct (x_digSig x); [|reflexivity]. exfalso. apply N. auto.
    + intros -> D L. rewrite N.eqb_refl, (CE D). cbn [negb bind]. unfold checkTime. rewrite EX. cbn [bind]. destruct (Z.leb_spec expiry now); [reflexivity|lia].
    + intros -> D L F. rewrite N.eqb_refl, (CE D). cbn [negb bind]. unfold checkTime. rewrite EX. cbn [bind]. destruct (Z.leb_spec expiry now); [lia|].
      assert (E2 : chk64 (expiry - now) = Ok (expiry - now)%Z). { apply chk64_iff. split; [reflexivity|]. change (2 ^ 63)%Z with 9223372036854775808%Z in *. lia. }
      rewrite E2. cbn [bind]. change week with (7 * 24 * 3600 * 1000000000)%Z. destruct (Z.ltb_spec (7 * 24 * 3600 * 1000000000) (expiry - now)); [reflexivity|]. destruct (Z.leb_spec (x_notAfter x) expiry); [reflexivity|lia].
    + intros -> D IT F. rewrite N.eqb_refl, (CE D). cbn [negb bind].
      assert (CT : checkTime now x (mkCred v s (Some kb) cs (Some csg)) = Ok tt).
      { unfold in_time in IT. fold expiry in IT. unfold checkTime. rewrite EX. cbn [bind]. destruct (Z.leb_spec expiry now); [lia|].
        assert (E2 : chk64 (expiry - now) = Ok (expiry - now)%Z). { apply chk64_iff. split; [reflexivity|]. change (2 ^ 63)%Z with 9223372036854775808%Z in *. lia. }
        rewrite E2. cbn [bind]. change week with (7 * 24 * 3600 * 1000000000)%Z. destruct (Z.ltb_spec (7 * 24 * 3600 * 1000000000) (expiry - now)); [lia|]. destruct (Z.leb_spec (x_notAfter x) expiry); [lia|reflexivity]. }
      rewrite CT. cbn [bind]. rewrite (prepareCred_ok _ _ _ _ _ _ Hf). cbn [bind]. unfold verify_key. destruct F as [F|F].
      * destruct (N.eqb_spec cs (key_scheme t)); [contradiction|reflexivity].
      * destruct (N.eqb_spec cs (key_scheme t)); [|reflexivity]. rewrite covered_cred, F. reflexivity.
Qed.
(** Without the extension, or below the leaf, the certificate is an ordinary one. *)
Theorem C66_plain O now e leaf : leaf = false \/ (forall x, In x (ce_extensions e) -> ext_type x <> 34) ->
  makePeerCert O now e leaf = (x <- readPeer O (ce_data e) ;; makePeer x).
Proof.
  unfold makePeerCert. intros [->|H]; [reflexivity|]. destruct (negb leaf || _); [reflexivity|].
  destruct (readPeer O (ce_data e)) as [x|]; [|reflexivity]. cbn [bind]. destruct (makePeer x); [|reflexivity]. cbn [bind].
  rewrite (proj2 (getCredential_none _) H). reflexivity.
Qed.
(** The signature of a credential binds the certificate's use of it: which peer's credential it is, its lifetime, key and schemes *)
Theorem C66_binds ctx ctx' der v s k cs v' s' k' cs' sg sg' :
  cred_fits v s k cs sg -> cred_fits v' s' k' cs' sg' ->
  covered (cred_context ctx) (der ++ cred_tbs v s k cs) = covered (cred_context ctx') (der ++ cred_tbs v' s' k' cs') ->
  cred_context ctx = cred_context ctx' /\ v = v' /\ s = s' /\ k = k' /\ cs = cs'.
Proof.
  intros (A1 & A2 & A3 & A4 & _) (B1 & B2 & B3 & B4 & _) H. rewrite <- !covered_cred in H. apply C43_injective in H. destruct H as (Hc & H).
  split; [destruct ctx, ctx'; try reflexivity; discriminate Hc|]. apply app_inv_head in H. unfold cred_tbs in H.
  apply app_eq in H; [|rewrite !be_length; reflexivity]. destruct H as (H1 & H). apply app_eq in H; [|rewrite !be_length; reflexivity]. destruct H as (H2 & H).
  apply app_eq in H; [|rewrite !be_length; reflexivity]. destruct H as (H3 & H). apply be_inj in H1; [|exact A1|exact B1]. apply be_inj in H2; [|exact A2|exact B2].
  apply be_inj in H3; [|exact A4|exact B4]. apply app_eq in H; [|unfold blen in H3; lia]. destruct H as (H4 & H). apply be_inj in H; [|exact A3|exact B3]. auto.
Qed.

(** The other peers' times: a certificate whose times a peer chose can make the check overflow *)
Lemma in_time_future now x valid : (now + 7 * 24 * 3600 * 1000000000 < x_notBefore x)%Z -> ~ in_time now x valid.
Proof. unfold in_time. lia. Qed.

(** ** Generated credentials are accepted *)
(** The owner of certificate [x] and its key [pk] signs only what [pk] verifies; likewise a private key and its public key. *)
Definition signs_for (s : signer) (t : keytype) (pk : pubkey) : Prop :=
  x_key (sn_x509 s) = Some pk /\ usable_key t pk /\ forall ctx b sg, sn_sign s (key_scheme t) ctx b = Ok sg -> pk_check pk (prepareSignData ctx b) sg = Ok tt.
Definition key_pair (t : keytype) (k : privkey) (pub : pubkey) : Prop :=
  pv_type k = Some t /\ pv_valid k = true /\ usable_key t pub /\ forall b sg, pv_sign k b = Ok sg -> pk_check pub b sg = Ok tt.
Definition role_dc (server : bool) : cvctx := if server then CvServerDC else CvClientDC.
Definition role_cv (server : bool) : cvctx := if server then CvServer else CvClient.
Lemma dc_role server : dc_ctx (role_cv server) = role_dc server.
Proof. destruct server; reflexivity. Qed.
Lemma seconds_left a (n : Z) : (0 <= a)%Z -> cast_s a = n -> (0 <= n /\ n * 1000000000 <= a < n * 1000000000 + 1000000000)%Z.
Proof.
  intros Ha <-. unfold cast_s, ns_per_s. rewrite Z.quot_div_nonneg by lia. pose proof (Z.div_mod a 1000000000 ltac:(lia)). pose proof (Z.mod_pos_bound a 1000000000 ltac:(lia)).
  split; [apply Z.div_pos; lia|lia].
Qed.
Lemma generate_inv now s kt pub ss vs ctx valid c : generateCredential now s true (Some kt) pub ss vs ctx valid = Ok c ->
  (ctx = CvServerDC \/ ctx = CvClientDC) /\ (valid <= 604800)%Z /\ checkExtensions (sn_x509 s) = Ok tt /\ vs = key_scheme kt /\ In ss (sn_schemes s) /\
  exists sg b, c = mkCred (Z.to_N (cast_s (now + valid * 1000000000 - x_notBefore (sn_x509 s)) mod 2 ^ 32)) vs (Some pub) ss (Some sg) /\
    prepareCred (mkCred (dc_valid c) vs (Some pub) ss None) (x_der (sn_x509 s)) = Ok b /\ sn_sign s ss ctx b = Ok sg.
Proof.
  unfold generateCredential. intros H.
  assert (Hc : ctx = CvServerDC \/ ctx = CvClientDC) by (destruct ctx; try discriminate H; auto). split; [exact Hc|].
  assert (H' : (if (604800 <? valid)%Z then fail else _ <- checkExtensions (sn_x509 s) ;;
    if negb (vs =? key_scheme kt) then fail else if negb (existsb (N.eqb ss) (sn_schemes s)) then fail else
    d <- chk64 (valid * ns_per_s)%Z ;; e <- chk64 (now + d)%Z ;; l <- chk64 (e - x_notBefore (sn_x509 s))%Z ;;
    b <- prepareCred (mkCred (Z.to_N (cast_s l mod 2 ^ 32)%Z) vs (Some pub) ss None) (x_der (sn_x509 s)) ;;
    sg <- sn_sign s ss ctx b ;; Ok (mkCred (Z.to_N (cast_s l mod 2 ^ 32)%Z) vs (Some pub) ss (Some sg))) = Ok c).
  { destruct Hc as [-> | ->]; exact H. } clear H. revert H'.
  destruct (Z.ltb_spec 604800 valid); [discriminate|]. intros H'. apply bind_Ok in H'. destruct H' as ([] & Hx & H').
  destruct (N.eqb_spec vs (key_scheme kt)); [|discriminate]. cbn [negb] in H'. destruct (existsb (N.eqb ss) (sn_schemes s)) eqn:Es; [|discriminate]. cbn [negb] in H'.
  apply bind_Ok in H'. destruct H' as (d & Hd & H'). apply bind_Ok in H'. destruct H' as (e1 & He & H'). apply bind_Ok in H'. destruct H' as (l & Hl & H').
  apply bind_Ok in H'. destruct H' as (b & Hb & H'). apply bind_Ok in H'. destruct H' as (sg & Hs & H').
  apply chk64_iff in Hd, He, Hl. destruct Hd as (-> & _), He as (-> & _), Hl as (-> & _). unfold ns_per_s in *.
  split; [assumption|]. split; [exact Hx|]. split; [assumption|]. split.
  { apply existsb_exists in Es. destruct Es as (y & Hy & E). apply N.eqb_eq in E. subst. exact Hy. }
  assert (Ec : c = mkCred (Z.to_N (cast_s (now + valid * 1000000000 - x_notBefore (sn_x509 s)) mod 2 ^ 32)) vs (Some pub) ss (Some sg)) by congruence.
  exists sg, b. split; [exact Ec|]. rewrite Ec. cbn [dc_valid]. auto.
Qed.
Lemma prepareCred_sig v s k cs sg sg' der : prepareCred (mkCred v s k cs sg) der = prepareCred (mkCred v s k cs sg') der.
Proof. reflexivity. Qed.
(** A credential generated at [now0] for [valid] seconds (the certificate being no older than 2^32 seconds, and outliving it), installed with its private key,
    sent and used, is accepted by the peer from [now0] until one second before that. *)
Theorem C66_generated O now0 now s t pk pub k priv ss vs server valid c rest sd context m e es tbs sg :
  signs_for s t pk -> key_pair t priv k -> o_pubkey O pub = Some k ->
  o_x509 O (x_der (sn_x509 s)) = Some (sn_x509 s) -> x_der (sn_x509 s) <> [] -> times_ok (sn_x509 s) -> ss = key_scheme t ->
  generateCredential now0 s true (Some t) pub ss vs (role_dc server) valid = Ok c ->
  (0 <= now0 + valid * 1000000000 - x_notBefore (sn_x509 s) < 2 ^ 32 * 1000000000)%Z -> (now0 + valid * 1000000000 < x_notAfter (sn_x509 s))%Z ->
  selfCreate t server (sn_x509 s :: rest) priv c = Ok sd -> sdMessage sd context = Ok m -> cm_list m = e :: es ->
  sdSign sd vs (role_cv server) tbs = Ok sg ->
  (now0 <= now /\ now + 1000000000 <= now0 + valid * 1000000000)%Z ->
  exists p, makePeerCert O now e true = Ok p /\ pc_verify p vs (role_cv server) tbs sg = Ok tt /\
    pc_cert p = mkCertObj (x_ident (sn_x509 s)) (Some (x_der (sn_x509 s))).
Proof.
  intros (S1 & S2 & S3) (K1 & K2 & K3 & K4) Hpub Hx Hne HT -> HG Hw Hna HS HM HE Hsg Hnow.
  apply generate_inv in HG. destruct HG as (_ & Hv & Hu & -> & _ & sg1 & b & -> & Hb & Hs). cbn [dc_valid] in Hb.
  unfold selfCreate in HS. rewrite K1, (proj2 (keytype_eqb_iff t t) eq_refl) in HS. cbn [negb] in HS. rewrite Hu in HS. cbn [bind] in HS. rewrite K2 in HS. cbn [negb dc_scheme] in HS.
  rewrite N.eqb_refl in HS. cbn [negb] in HS. rewrite (prepareCred_sig _ _ _ _ _ None), Hb in HS. cbn [bind] in HS. apply bind_Ok in HS. destruct HS as (pp & _ & HS).
  cbn [dc_signature dc_credScheme] in HS. apply bind_Ok in HS. destruct HS as (_ & _ & HS). set (V := Z.to_N (cast_s (now0 + valid * 1000000000 - x_notBefore (sn_x509 s)) mod 2 ^ 32)) in *.
  assert (Esd : sd = mkSelfCred t (sn_x509 s :: rest) priv (mkCred V (key_scheme t) (Some pub) (key_scheme t) (Some sg1))) by congruence. subst sd. clear HS.
  unfold sdMessage in HM. cbn [sd_chain sd_cred] in HM. apply bind_Ok in HM. destruct HM as (x1 & Hx1 & HM).
  assert (Em : cm_list m = mkCE (Some (x_der (sn_x509 s))) [x1] :: map (fun y => mkCE (Some (x_der y)) []) rest) by (inversion HM; reflexivity).
  rewrite HE in Em. assert (Ee : e = mkCE (Some (x_der (sn_x509 s))) [x1]) by congruence. clear HM Em HE.
  unfold encodeCredential in Hx1. cbn [dc_valid dc_scheme dc_key dc_credScheme dc_signature] in Hx1.
  destruct (seconds_left _ _ (proj1 Hw) eq_refl) as (Q1 & Q2).
  assert (EV : V = Z.to_N (cast_s (now0 + valid * 1000000000 - x_notBefore (sn_x509 s)))).
  { unfold V. f_equal. apply Z.mod_small. change (2 ^ 32)%Z with 4294967296%Z in *. lia. }
  assert (HV : Z.of_N V = cast_s (now0 + valid * 1000000000 - x_notBefore (sn_x509 s))) by (rewrite EV; apply Z2N.id, Q1).
  assert (Hwf : wf_x (XDelegatedCredential (V, key_scheme t, Some pub, key_scheme t, Some sg1)) = true).
  { cbn [wf_x wf_dc nonnull]. unfold in_u. change (256 ^ N.of_nat 4) with (2 ^ 32). change (256 ^ N.of_nat 2) with (2 ^ 16).
    assert (V < 2 ^ 32). { change (2 ^ 32) with 4294967296. change (2 ^ 32)%Z with 4294967296%Z in *. lia. }
    rewrite (proj2 (N.ltb_lt V (2 ^ 32)) H). destruct t; reflexivity. }
  apply encodeExtension_iff in Hx1; [|exact Hwf]. destruct Hx1 as (Hfit & ->). cbn [kind_of kind_type w_xbody] in Ee. rewrite w_dc_wire in Ee.
  pose proof (proj1 (dc_wf_fit V (key_scheme t) pub (key_scheme t) sg1) (conj Hwf Hfit)) as Hf. clear Hwf Hfit.
  rewrite (prepareCred_sig _ _ _ _ None (Some sg1)), (prepareCred_ok _ _ _ _ _ _ Hf) in Hb.
  assert (b = x_der (sn_x509 s) ++ cred_tbs V (key_scheme t) pub (key_scheme t)) by congruence. subst b. clear Hb.
  apply S3 in Hs. rewrite <- dc_role, covered_cred in Hs.
  unfold sdSign in Hsg. cbn [sd_type sd_key] in Hsg. rewrite N.eqb_refl in Hsg. apply K4 in Hsg. rewrite covered_sign in Hsg.
  assert (D : delegated O now e (key_scheme t) (role_cv server) tbs sg (x_der (sn_x509 s)) (sn_x509 s) V pub (key_scheme t) sg1 pk k t).
  { constructor; auto.
    - rewrite Ee. reflexivity.
    - exists [], [], []. rewrite app_nil_r, Ee. split; [reflexivity|]. intros ? [].
    - apply checkExtensions_iff, Hu.
    - cbv zeta. rewrite HV. lia. }
  destruct (C66_complete _ _ _ _ _ _ _ _ _ _ _ _ _ _ _ _ HT D) as (p & ? & ? & ?). exists p. auto.
Qed.
(** No signature with a generated credential is accepted once its time is over. *)
Theorem C66_expires O now0 now s kt pub ss vs ctx valid c e p scheme ctx' tbs sg rest :
  generateCredential now0 s true (Some kt) pub ss vs ctx valid = Ok c ->
  (0 <= now0 + valid * 1000000000 - x_notBefore (sn_x509 s))%Z ->
  ce_data e = Some (x_der (sn_x509 s)) -> o_x509 O (x_der (sn_x509 s)) = Some (sn_x509 s) ->
  (exists sg', dc_signature c = Some sg' /\ first_ext 34 (ce_extensions e) (Some (cred_wire (dc_valid c) vs pub ss sg' ++ rest)) /\ cred_fits (dc_valid c) vs pub ss sg') ->
  makePeerCert O now e true = Ok p -> pc_verify p scheme ctx' tbs sg = Ok tt -> (now < now0 + valid * 1000000000)%Z.
Proof.
  intros HG Hw Hd Hx (sg' & Hsg & Hfe & Hfit) Hp Hv. apply generate_inv in HG. destruct HG as (_ & _ & _ & _ & _ & sg1 & b & -> & _). cbn [dc_valid dc_signature] in *.
  assert (Hin : exists x, In x (ce_extensions e) /\ ext_type x = 34).
  { destruct Hfe as (pre & post & -> & _). eexists. split; [apply in_or_app; right; left; reflexivity|reflexivity]. }
  destruct (C66_sound _ _ _ _ _ _ _ _ Hin Hp Hv) as (cert & x & v & kb & cs & csg & pk & k & t & D).
  pose proof (dl_x509 _ _ _ _ _ _ _ _ _ _ _ _ _ _ _ _ D) as D1. pose proof (dl_cert _ _ _ _ _ _ _ _ _ _ _ _ _ _ _ _ D) as D2. rewrite Hd in D2.
  assert (cert = x_der (sn_x509 s)) by congruence. subst cert. assert (x = sn_x509 s) by congruence. subst x.
  destruct (dl_ext _ _ _ _ _ _ _ _ _ _ _ _ _ _ _ _ D) as (r' & D3). pose proof (dl_fits _ _ _ _ _ _ _ _ _ _ _ _ _ _ _ _ D) as D4.
  pose proof (first_ext_unique _ _ _ _ Hfe D3) as E.
  assert (Ev : v = Z.to_N (cast_s (now0 + valid * 1000000000 - x_notBefore (sn_x509 s)) mod 2 ^ 32)).
  { apply (f_equal (fun o => match o with Some b => b | None => [] end)) in E. cbv beta iota in E. unfold cred_wire, cred_tbs in E. rewrite <- !app_assoc in E. apply app_eq in E; [|rewrite !be_length; reflexivity]. destruct E as (E & _).
    symmetry. eapply be_inj; [| |exact E]; [apply Hfit|apply D4]. }
  pose proof (dl_time _ _ _ _ _ _ _ _ _ _ _ _ _ _ _ _ D) as D5. cbv zeta in D5. destruct (seconds_left _ _ Hw eq_refl) as (Q1 & Q2).
  set (C := cast_s (now0 + valid * 1000000000 - x_notBefore (sn_x509 s))) in *.
  assert (0 <= C mod 2 ^ 32 <= C)%Z by (split; [apply Z.mod_pos_bound; lia|apply Z.mod_le; lia]).
  assert (Z.of_N v = C mod 2 ^ 32)%Z by (rewrite Ev; apply Z2N.id; lia). clear Ev. lia.
Qed.
