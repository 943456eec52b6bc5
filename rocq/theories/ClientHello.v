(** * The ClientHellos a client sends *)
From Verif Require Import Base Codec CodecSpec Str Hkdf HkdfSpec HkdfProofs KeySched KeySchedSpec KeySchedProofs Handshake Extensions RecordBase Record
  RecordRT ReadEvent HelloChecks Cookie Token Negotiate Ticket PskSer Kex Hpke Transcript IOBufUtil PropsIOBuf EchConfirm HpkeUtils EchCrypt Server
  ServerSpec ServerFacts ServerSteps ServerFlight ExtensionsSpec ExtensionsProofs PropsCodec Client ClientSpec ClientSteps.
Open Scope N_scope.

(** ** Looking up extensions *)
Lemma getExtension_find k l l' : findExtension (kind_type k) l = findExtension (kind_type k) l' -> getExtension k l = getExtension k l'.
Proof. unfold getExtension. intros ->. reflexivity. Qed.
Lemma find_remove t u l : t <> u -> findExtension t (removeExt u l) = findExtension t l.
Proof.
  intros H. unfold findExtension. induction l as [|e l IH]; [reflexivity|]. cbn [removeExt find]. destruct (ext_type e =? u) eqn:E.
  - apply N.eqb_eq in E. assert (ext_type e =? t = false) as ->; [|reflexivity]. apply N.eqb_neq. congruence.
  - cbn [find]. rewrite IH. reflexivity.
Qed.
Lemma find_replace t x l : ext_type x <> t -> findExtension t (replaceOrAdd x l) = findExtension t l.
Proof.
  intros H. unfold findExtension. apply N.eqb_neq in H. induction l as [|e l IH]; cbn [replaceOrAdd find].
  - rewrite H. reflexivity.
  - destruct (ext_type e =? ext_type x) eqn:E; cbn [find].
    + rewrite H. apply N.eqb_eq in E. rewrite E, H. reflexivity.
    + rewrite IH. reflexivity.
Qed.
Lemma find_app_none t l r : no_type t r = true -> findExtension t (l ++ r) = findExtension t l.
Proof.
  intros H. unfold findExtension. induction l as [|e l IH]; cbn [app find].
  - apply find_none_iff. exact H.
  - rewrite IH. reflexivity.
Qed.
Lemma no_type_one t e : ext_type e <> t -> no_type t [e] = true.
Proof. intros H. apply N.eqb_neq in H. unfold no_type. cbn. rewrite H. reflexivity. Qed.
Lemma no_type_app t a b : no_type t a = true -> no_type t b = true -> no_type t (a ++ b) = true.
Proof. unfold no_type. intros. rewrite forallb_app, H, H0. reflexivity. Qed.

Definition core (t : N) : Prop := t <> 0 /\ t <> 41 /\ t <> 42 /\ t <> 65037.
Lemma find_constructed t first c ng enc ctx random fake gp types ctx' o : core t ->
  constructEncrypted first c ng enc ctx random fake gp types = Ok (ctx', o) ->
  findExtension t (ch_extensions o) = findExtension t (ch_extensions c).
Proof.
  intros (H0 & H1 & H2 & H3). unfold constructEncrypted. cbv zeta. intros H. bo H sn Esn.
  match type of H with context [if first then encryptClientHello ?a ?b ?c ?d ?e ?f ?g else ?y] => 
     destruct (if first then encryptClientHello a b c d e f g else y) as [cx r] eqn:Er end.
  bo H x Ex. bo H oo Eo. injection H as <- <-.
  unfold attachECH in Eo. bo Eo e Ee. bo Eo g Eg. injection Eo as <-. cbn [with_exts ch_extensions].
  assert (Tx : ext_type e = 65037).
  { rewrite (ext_type_of _ _ Ee). subst r. destruct first; unfold encryptClientHelloHRR, encryptClientHello in Er;
      (destruct (encryptImpl _ _ _ _ _ _ _ _ _) as [a b]; destruct b as [ct|]; cbn in Er; [injection Er as _ <-; reflexivity|discriminate]). }
  rewrite find_app_none.
  2:{ apply (no_type_app t [e] g); [apply no_type_one; congruence|]. destruct gp as [p|]; cbn in Eg; [|injection Eg as <-; reflexivity].
      bo Eg y Ey. injection Eg as <-. apply no_type_one. rewrite (ext_type_of _ _ Ey). cbn. congruence. }
  rewrite find_replace by (rewrite (ext_type_of _ _ Esn); cbn; congruence).
  destruct first; rewrite ?find_remove by congruence; reflexivity.
Qed.
Lemma constructed_same first c ng enc ctx random fake gp types ctx' o :
  constructEncrypted first c ng enc ctx random fake gp types = Ok (ctx', o) ->
  ch_version o = ch_version c /\ ch_session_id o = ch_session_id c /\ ch_suites o = ch_suites c /\ ch_compression o = ch_compression c /\
  ch_random o = random /\
  exists outer x, attachECH outer x gp = Ok o /\
    (if first then encryptClientHello ng (Some enc) ctx c outer gp types else encryptClientHelloHRR ng ctx c outer gp types) = (ctx', Ok x).
Proof.
  unfold constructEncrypted. cbv zeta. intros H. bo H sn Esn.
  match type of H with context [if first then encryptClientHello ?a ?b ?c ?d ?e ?f ?g else ?y] => 
     destruct (if first then encryptClientHello a b c d e f g else y) as [cx r] eqn:Er end.
  bo H x Ex. bo H oo Eo. injection H as <- <-.
  assert (X := Eo). unfold attachECH in Eo. bo Eo e Ee. bo Eo g Eg. injection Eo as <-. cbn.
  repeat (split; [reflexivity|]). eexists _, x. split; [exact X|]. rewrite <- Ex. exact Er.
Qed.

(** ** The plain hello *)
Definition shares_in (kexs : list (N * kex)) (c : ClientHello) : Prop :=
  exists sh, keyShares kexs = Ok sh /\ getExtension KClientKeyShare (ch_extensions c) = Ok (Some (XClientKeyShare sh)).
Definition small_groups (kexs : list (N * kex)) : Prop := Forall (fun p => fst p < 2 ^ 16) kexs.
Lemma keyShares_wf kexs sh : small_groups kexs -> keyShares kexs = Ok sh -> forallb (wf_nb 2) sh = true.
Proof.
  unfold keyShares. intros H. revert sh. induction H as [|[g x] l Hg Hl IH]; intros sh; cbn [mapR].
  - intros [= <-]. reflexivity.
  - intros E. bo E a Ea. bo E r Er. injection E as <-. cbn [forallb]. rewrite (IH _ Er), andb_true_r.
    cbn [snd fst] in *. bo Ea b Eb. injection Ea as <-. unfold wf_nb, in_u. cbn [fst snd nonnull]. rewrite andb_true_r. apply N.ltb_lt. exact Hg.
Qed.
Lemma forallb_u2 l : Forall (fun v => v < 2 ^ 16) l -> forallb (in_u 2) l = true.
Proof. intros H. apply forallb_forall. intros x Hx. rewrite Forall_forall in H. specialize (H _ Hx). unfold in_u. apply N.ltb_lt. exact H. Qed.
Lemma when_type b x l t : when b (encodeExtension x) = Ok l -> kind_type (kind_of x) <> t -> no_type t l = true.
Proof.
  destruct b; cbn [when]; intros H Hn; [|injection H as <-; reflexivity]. bo H e E. injection H as <-. apply no_type_one. rewrite (ext_type_of _ _ E). exact Hn.
Qed.
Lemma at3 {A} (e1 : list A) e2 e3 r : e1 ++ e2 :: e3 :: r = (e1 ++ [e2]) ++ e3 :: r.
Proof. rewrite <- app_assoc. reflexivity. Qed.
Lemma at4 {A} (e1 : list A) e2 e3 e4 r : e1 ++ e2 :: e3 :: e4 :: r = (e1 ++ [e2; e3]) ++ e4 :: r.
Proof. rewrite <- app_assoc. reflexivity. Qed.
Lemma at5 {A} (e1 : list A) e2 e3 e4 e5 r : e1 ++ e2 :: e3 :: e4 :: e5 :: r = (e1 ++ [e2; e3; e4]) ++ e5 :: r.
Proof. rewrite <- app_assoc. reflexivity. Qed.
Lemma getClientHello_facts k w random sid kexs sni early exts cookie c : cenv_ok k -> small_groups kexs ->
  getClientHello k w random sid kexs sni early exts cookie = Ok c ->
  offers k c /\ shares_in kexs c /\ ch_session_id c = Some sid /\ ch_random c = random.
Proof.
  intros Hk Hg. unfold getClientHello. intros H.
  bo H e1 E1. bo H e2 E2. bo H e3 E3. bo H sh Esh. bo H e4 E4. bo H e5 E5. bo H e6 E6. bo H e7 E7. bo H e8 E8. bo H e9 E9. bo H e10 E10. bo H e11 E11.
  injection H as <-.
  assert (N1 : forall t, t <> 0 -> no_type t e1 = true).
  { intros t Ht. destruct sni as [n|]; [|injection E1 as <-; reflexivity]. eapply when_type; [exact E1|]. cbn. congruence. }
  assert (T2 := ext_type_of _ _ E2). assert (T3 := ext_type_of _ _ E3). assert (T4 := ext_type_of _ _ E4). assert (T5 := ext_type_of _ _ E5).
  cbn in T2, T3, T4, T5.
  split; [constructor; try reflexivity|split; [|split; reflexivity]]; cbn [ch_extensions app].
  - apply (getExtension_rt (XSupportedVersions (k_versions k)) e2 e1); [|exact E2|apply N1; discriminate].
    apply forallb_u2, (ko_versions k Hk).
  - rewrite (at3 e1 e2 e3). apply (getExtension_rt (XSupportedGroups (k_groups k)) e3); [|exact E3|].
    + apply forallb_u2, (ko_groups k Hk).
    + apply no_type_app; [apply N1; discriminate|apply no_type_one; rewrite T2; discriminate].
  - rewrite (at5 e1 e2 e3 e4). apply (getExtension_rt (XSignatureAlgorithms (k_sigSchemes k)) e5); [|exact E5|].
    + apply forallb_u2, (ko_sigs k Hk).
    + apply no_type_app; [apply N1; discriminate|]. unfold no_type. cbn. rewrite T2, T3, T4. reflexivity.
  - exists sh. split; [exact Esh|].
    rewrite (at4 e1 e2 e3). apply (getExtension_rt (XClientKeyShare sh) e4); [|exact E4|].
    + eapply keyShares_wf; eassumption.
    + apply no_type_app; [apply N1; discriminate|]. unfold no_type. cbn. rewrite T2, T3. reflexivity.
Qed.
(** What a hello keeps when extensions of other types change. *)
Definition alike (c c' : ClientHello) : Prop :=
  ch_version c' = ch_version c /\ ch_session_id c' = ch_session_id c /\ ch_suites c' = ch_suites c /\ ch_compression c' = ch_compression c /\
  forall t, core t -> findExtension t (ch_extensions c') = findExtension t (ch_extensions c).
Lemma alike_refl c : alike c c. Proof. repeat split. Qed.
Lemma alike_trans a b c : alike a b -> alike b c -> alike a c.
Proof. intros (A1 & A2 & A3 & A4 & A5) (B1 & B2 & B3 & B4 & B5). repeat split; try congruence. intros t Ht. rewrite B5, A5 by exact Ht. reflexivity. Qed.
Lemma alike_app c e : ~ core (ext_type e) -> alike c (with_exts c (ch_extensions c ++ [e])).
Proof.
  intros He. repeat split. intros t Ht. cbn [with_exts ch_extensions]. apply find_app_none, no_type_one. intros <-. exact (He Ht).
Qed.
Lemma alike_offers k c c' : alike c c' -> offers k c -> offers k c'.
Proof.
  intros (A1 & A2 & A3 & A4 & A5) [B1 B2 B3 B4 B5 B6].
  constructor; try congruence; (erewrite getExtension_find; [eassumption|]; apply A5; unfold core; cbn; repeat split; discriminate).
Qed.
Lemma alike_shares kexs c c' : alike c c' -> shares_in kexs c -> shares_in kexs c'.
Proof.
  intros (A1 & A2 & A3 & A4 & A5) (sh & E & X). exists sh. split; [exact E|].
  erewrite getExtension_find; [eassumption|]. apply A5. unfold core; cbn. repeat split; discriminate.
Qed.
Lemma alike_constructed first c ng enc ctx random fake gp types ctx' o :
  constructEncrypted first c ng enc ctx random fake gp types = Ok (ctx', o) -> alike c o.
Proof.
  intros H. destruct (constructed_same _ _ _ _ _ _ _ _ _ _ _ H) as (A1 & A2 & A3 & A4 & _).
  repeat split; try assumption. intros t Ht. eapply find_constructed; eassumption.
Qed.
Lemma not_core_41 : ~ core 41. Proof. intros (_ & H & _). congruence. Qed.
Lemma not_core_ech : ~ core 65037. Proof. intros (_ & _ & _ & H). congruence. Qed.

(** ** Binders *)
Lemma binders_alike c p h hc now c2 enc kk hc' : encodeAndAddBinders c p h hc now = Ok (c2, enc, kk, hc') ->
  alike c c2 /\ encodeHandshake (MClientHello c2) = Ok enc /\ exists e ids b, c2 = with_exts c (ch_extensions c ++ [e]) /\
    encodeExtension (XClientPresharedKey (ids, [Some b])) = Ok e /\ ids = [(Some (pk_psk (cp_psk p)), snd (hd (None, 0) ids))].
Proof.
  unfold encodeAndAddBinders. intros H. bo H k1 E1. bo H bk E2. apply bind_Ok in H. destruct H as ((ids & bs) & E3 & H). cbv beta iota in H.
  bo H e E4. cbv zeta in H. bo H bl E5. bo H pre E6. bo H u E7. bo H b E8. bo H e' E9. bo H en E10. bo H u' E11. injection H as <- <- <- <-.
  assert (T := ext_type_of _ _ E9). cbn in T.
  split; [apply alike_app; rewrite T; apply not_core_41|]. split; [exact E10|]. exists e', ids, b. split; [reflexivity|]. split; [exact E9|].
  unfold getPskExtension in E3. bo E3 age E31. bo E3 hid E32. injection E3 as <- _. reflexivity.
Qed.

(** ** Key exchanges *)
Lemma emplace_In g x : forall l p, In p (emplace g x l) -> p = (g, x) \/ In p l.
Proof.
  induction l as [|[g' y] l IH]; intros p; cbn [emplace].
  - intros [<-|[]]. auto.
  - destruct (g <? g'); [intros [<-|H]; auto|]. destruct (g =? g'); [auto|]. intros [<-|H]; [right; left; reflexivity|].
    destruct (IH _ H) as [->|H']; [auto|right; right; exact H'].
Qed.
Lemma getKex_In w groups : forall l r, getKeyExchangers w groups l = Ok r ->
  forall g x, In (g, x) r -> In (g, x) l \/ (In g groups /\ cw_kex w g = Ok x).
Proof.
  induction groups as [|a groups IH]; intros l r; cbn [getKeyExchangers].
  - intros [= <-]. auto.
  - intros H g x Hin. bo H y Ey. destruct (IH _ _ H _ _ Hin) as [Hl|[Hg Hx]]; [|right; split; [right; exact Hg|exact Hx]].
    destruct (emplace_In _ _ _ _ Hl) as [E|E]; [|auto]. injection E as -> ->. right. split; [left; reflexivity|exact Ey].
Qed.
Lemma selectedShares_In k p g : In g (selectedShares k p) -> In g (k_shares k) \/ In g (k_groups k).
Proof.
  unfold selectedShares. intros H. destruct (k_sendShare k), p as [q|]; auto;
    destruct (pk_group (cp_psk q)) as [g'|]; auto; try contradiction;
    (destruct (mem g' (k_groups k)) eqn:E; auto; destruct H as [<-|[]]; right; unfold mem in E; apply existsb_exists in E;
     destruct E as (y & Hy & E); apply N.eqb_eq in E; subst; exact Hy).
Qed.
Lemma findKex_In g : forall l x, findKex g l = Some x -> In (g, x) l.
Proof.
  induction l as [|[g' y] l IH]; intros x; cbn [findKex]; [discriminate|]. destruct (g' =? g) eqn:E.
  - apply N.eqb_eq in E. subst. intros [= ->]. left. reflexivity.
  - intros H. right. apply IH, H.
Qed.
Lemma keyShares_In kexs : forall sh g x, keyShares kexs = Ok sh -> In (g, x) kexs -> exists b, kx_share x = Ok b /\ In (g, Some b) sh.
Proof.
  unfold keyShares. induction kexs as [|[g' y] l IH]; intros sh g x; cbn [mapR]; [intros _ []|].
  intros E Hin. bo E a Ea. bo E r Er. injection E as <-. bo Ea b Eb. injection Ea as <-. cbn [fst snd] in *.
  destruct Hin as [[= <- <-]|Hin].
  - exists b. split; [exact Eb|]. left. reflexivity.
  - destruct (IH _ _ _ Er Hin) as (b' & B1 & B2). exists b'. split; [exact B1|]. right. exact B2.
Qed.
