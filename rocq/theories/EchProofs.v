From Verif Require Import Base Codec CodecSpec Str Hkdf HkdfSpec HkdfProofs Kex Record RecordSpec Hpke HpkeSpec HpkeProofs HpkeUtils
  Handshake HandshakeSpec HandshakeProofs Extensions ExtensionsSpec ExtensionsProofs Transcript IOBufUtil EchCrypt EchSpec.

Lemma in_existsb t l : existsb (N.eqb t) l = true <-> In t l.
Proof.
  rewrite existsb_exists. split.
  - intros (x & Hi & E). apply N.eqb_eq in E. subst. exact Hi.
  - intros H. exists t. rewrite N.eqb_refl. auto.
Qed.
Lemma nin_existsb t l : existsb (N.eqb t) l = false <-> ~ In t l.
Proof. rewrite <- in_existsb. destruct (existsb _ _); split; congruence. Qed.

Lemma filter_none {A} (f : A -> bool) l : (forall a, In a l -> f a = false) -> filter f l = [].
Proof. induction l as [|a l IH]; intros H; cbn; [reflexivity|]. rewrite (H a) by (left; auto). apply IH. firstorder. Qed.
Lemma filter_all {A} (f : A -> bool) l : (forall a, In a l -> f a = true) -> filter f l = l.
Proof. induction l as [|a l IH]; intros H; cbn; [reflexivity|]. rewrite (H a) by (left; auto). f_equal. apply IH. firstorder. Qed.

Lemma replaceFirst_split t x e pre post : ext_type e = t -> ~ In t (types pre) ->
  replaceFirst t x (pre ++ e :: post) = Ok (pre ++ x ++ post).
Proof.
  intros He. induction pre as [|a pre IH]; intros Hn; cbn [app replaceFirst].
  - rewrite He, N.eqb_refl. reflexivity.
  - cbn in Hn. destruct (N.eqb_spec (ext_type a) t) as [E|E]; [exfalso; apply Hn; left; exact E|].
    rewrite IH by tauto. reflexivity.
Qed.
Lemma eraseAll_block mid : forall pre post, NoDup (types mid) -> (forall t, In t (types mid) -> ~ In t (types pre)) ->
  eraseAll (types mid) (pre ++ mid ++ post) = Ok (pre ++ post).
Proof.
  induction mid as [|e mid IH]; intros pre post Hd Hp; cbn [types map eraseAll app].
  - reflexivity.
  - rewrite replaceFirst_split; [|reflexivity|apply Hp; left; reflexivity]. cbn [bind app].
    fold (types mid). apply IH.
    + inversion Hd; assumption.
    + intros t Ht. apply Hp. right. exact Ht.
Qed.

Lemma NoDup_app {A} (l m : list A) : NoDup (l ++ m) <-> NoDup l /\ NoDup m /\ (forall x, In x l -> ~ In x m).
Proof.
  induction l as [|a l IH]; cbn [app].
  - split; [intros H; repeat split; auto; constructor|tauto].
  - rewrite !NoDup_cons_iff, IH, in_app_iff. split.
    + intros (H1 & H2 & H3 & H4). repeat split; auto; try tauto. intros x [<-|Hx]; [tauto|auto].
    + intros ((H1 & H2) & H3 & H4). repeat split; auto.
      * intros [Hl|Hm]; [tauto|]. exact (H4 a (or_introl eq_refl) Hm).
      * intros x Hx. apply H4. right. exact Hx.
Qed.
Lemma types_app l m : types (l ++ m) = types l ++ types m.
Proof. apply map_app. Qed.
Lemma in_types e l : In e l -> In (ext_type e) (types l).
Proof. apply in_map. Qed.

Lemma gen_outer inner outerTypes pre e mid post o :
  inner = pre ++ (e :: mid) ++ post ->
  (forall x, In x (e :: mid) -> In (ext_type x) outerTypes) ->
  (forall x, In x (pre ++ post) -> ~ In (ext_type x) outerTypes) ->
  NoDup (types inner) -> ~ In 64768 (types inner) ->
  encodeExtension (XEchOuterExtensions (types (e :: mid))) = Ok o ->
  generateAndReplaceOuterExtensions inner outerTypes = Ok (pre ++ o :: post).
Proof.
  intros -> Hm Ho Hd Hk He. unfold generateAndReplaceOuterExtensions.
  assert (Ef : filter (fun t => existsb (N.eqb t) outerTypes) (map ext_type (pre ++ (e :: mid) ++ post)) = types (e :: mid)).
  { rewrite !map_app, !filter_app.
    rewrite (filter_none _ (map ext_type pre)), (filter_none _ (map ext_type post)), (filter_all _ (map ext_type (e :: mid))).
    - cbn [app]. rewrite app_nil_r. reflexivity.
    - intros t Ht. apply in_map_iff in Ht. destruct Ht as (x & <- & Hx). apply in_existsb. auto.
    - intros t Ht. apply in_map_iff in Ht. destruct Ht as (x & <- & Hx). apply nin_existsb. apply Ho. apply in_or_app; auto.
    - intros t Ht. apply in_map_iff in Ht. destruct Ht as (x & <- & Hx). apply nin_existsb. apply Ho. apply in_or_app; auto. }
  rewrite Ef. cbn [types map]. change (map ext_type mid) with (types mid).
  change (ext_type e :: types mid) with (types (e :: mid)). rewrite He. cbn [bind].
  rewrite !types_app, !NoDup_app in Hd. destruct Hd as (Hd1 & (Hd2 & Hd3 & Hd4) & Hd5).
  cbn [app]. rewrite replaceFirst_split; [|reflexivity|].
  2:{ intros Hx. apply (Hd5 _ Hx). apply in_or_app. left. left. reflexivity. }
  cbn [bind]. cbn [app]. replace (pre ++ o :: mid ++ post) with ((pre ++ [o]) ++ mid ++ post) by (rewrite <- app_assoc; reflexivity).
  rewrite eraseAll_block.
  - rewrite <- app_assoc. reflexivity.
  - cbn [types map] in Hd2. inversion Hd2; assumption.
  - intros t Ht. rewrite types_app, in_app_iff. cbn. intros [Hp|[Hp|[]]].
    + apply (Hd5 _ Hp). apply in_or_app. left. right. exact Ht.
    + unfold encodeExtension in He. apply bind_Ok in He. destruct He as (b & _ & He). injection He as <-. cbn in Hp.
      subst t. apply Hk. rewrite !types_app, !in_app_iff. cbn. tauto.
Qed.

Lemma gen_none inner outerTypes :
  (forall x, In x inner -> ~ In (ext_type x) outerTypes) -> generateAndReplaceOuterExtensions inner outerTypes = Ok inner.
Proof.
  intros H. unfold generateAndReplaceOuterExtensions. rewrite filter_none; [reflexivity|].
  intros t Ht. apply in_map_iff in Ht. destruct Ht as (x & <- & Hx). apply nin_existsb. auto.
Qed.

(** ** The reverse direction *)
Lemma subst_plain l : forall seen r outer, NoDup (types l) -> (forall t, In t (types l) -> ~ In t seen) -> ~ In 64768 (types l) ->
  substituteOuterExtensions seen (l ++ r) outer =
  match substituteOuterExtensions (rev (types l) ++ seen) r outer with Some x => Some (l ++ x) | None => None end.
Proof.
  induction l as [|e l IH]; intros seen r outer Hd Hs Hk; cbn [app types map rev].
  - destruct (substituteOuterExtensions seen r outer); reflexivity.
  - cbn [substituteOuterExtensions].
    assert (E : existsb (N.eqb (ext_type e)) seen = false) by (apply nin_existsb; apply Hs; left; reflexivity).
    rewrite E. assert (E2 : (ext_type e =? 64768) = false) by (apply N.eqb_neq; intros X; apply Hk; left; exact X).
    rewrite E2. cbn [negb].
    cbn [types map] in Hd. inversion Hd as [|? ? Hn Hd']; subst.
    rewrite IH.
    + rewrite <- app_assoc. cbn [app]. destruct (substituteOuterExtensions _ r outer); reflexivity.
    + exact Hd'.
    + intros t Ht. cbn. intros [X|X]; [subst; contradiction|]. exact (Hs t (or_intror Ht) X).
    + intros X. apply Hk. right. exact X.
Qed.

Lemma sublist_In {A} (l m : list A) : sublist l m -> forall x, In x l -> In x m.
Proof. induction 1; intros x Hx; cbn in *; [contradiction|auto|destruct Hx; auto]. Qed.

Lemma expand_sub : forall mid outer, sublist mid outer -> forall tail seen, NoDup (types outer) -> NoDup (types mid) ->
  (forall t, In t (types mid) -> ~ In t seen) -> ~ In 65037 (types mid) ->
  exists s, expandTypes seen (types mid) (outer ++ tail) = Some (mid, s) /\
            (forall t, In t s <-> In t seen \/ In t (types mid)).
Proof.
  induction 1 as [m|a l m H IH|a l m H IH]; intros tail seen Ho Hm Hs Hk.
  - exists seen. cbn. split; [reflexivity|tauto].
  - cbn [types map] in Ho. inversion Ho as [|? ? Hn Ho']; subst.
    destruct (IH tail seen Ho' Hm Hs Hk) as (s & E & Hin). exists s. split; [|exact Hin].
    destruct l as [|b l]; [exact E|].
    cbn [types map expandTypes app] in *.
    destruct (existsb (N.eqb (ext_type b)) seen); [discriminate|].
    destruct (ext_type b =? 65037); [discriminate|].
    cbn [scanOuter].
    assert (X : (ext_type a =? ext_type b) = false).
    { apply N.eqb_neq. intros X. apply Hn. rewrite X. apply in_types. apply (sublist_In _ _ H). left. reflexivity. }
    rewrite X. exact E.
  - cbn [types map] in Ho, Hm. inversion Ho as [|? ? Hn Ho']; subst. inversion Hm as [|? ? Hn2 Hm']; subst.
    destruct (IH tail (ext_type a :: seen) Ho' Hm') as (s & E & Hin).
    + intros t Ht [X|X]; [subst; contradiction|]. exact (Hs t (or_intror Ht) X).
    + intros X. apply Hk. right. exact X.
    + exists s. cbn [types map expandTypes app scanOuter].
      rewrite (proj2 (nin_existsb _ _) (Hs (ext_type a) (or_introl eq_refl))).
      rewrite (proj2 (N.eqb_neq _ _)) by (intros X; apply Hk; left; exact X).
      rewrite N.eqb_refl. change (map ext_type l) with (types l). rewrite E. split; [reflexivity|].
      intros t. rewrite Hin. cbn. tauto.
Qed.

(** Compressing and expanding yields the original extensions. *)
Lemma outer_roundtrip inner outer tail outerTypes x :
  compressible inner outer outerTypes -> forallb (in_u 2) (types inner) = true ->
  generateAndReplaceOuterExtensions inner outerTypes = Ok x ->
  substituteOuterExtensions [] x (outer ++ tail) = Some inner.
Proof.
  intros [(pre & mid & post & Hi & Hm & Ho & Hsub & Hech & Hlen) Hdi Hdo Hk] Hu Hg.
  destruct mid as [|e mid].
  - cbn [app] in Hi. subst inner. rewrite gen_none in Hg by exact Ho. injection Hg as <-.
    pose proof (subst_plain (pre ++ post) [] [] (outer ++ tail) Hdi (fun _ _ X => X) Hk) as E.
    rewrite app_nil_r in E. rewrite E. cbn [substituteOuterExtensions]. rewrite app_nil_r. reflexivity.
  - assert (Hu' : forallb (in_u 2) (types (e :: mid)) = true).
    { rewrite Hi, !types_app, !forallb_app in Hu. rewrite !andb_true_iff in Hu. tauto. }
    assert (He : encodeExtension (XEchOuterExtensions (types (e :: mid))) =
                 Ok (mkExt 64768 (Some (w_xbody (XEchOuterExtensions (types (e :: mid))))))).
    { apply (encodeExtension_iff (XEchOuterExtensions (types (e :: mid)))); [exact Hu'|].
      split; [|reflexivity]. cbn [fit_x]. unfold fit_list, fits_len. apply andb_true_iff. split; [apply forallb_forall; reflexivity|].
      assert (X : forall l, blen (concat (map (be 2) l)) = 2 * blen l).
      { induction l as [|a l IH]; [reflexivity|]. cbn [map concat]. rewrite blen_app, be_blen, blen_cons, IH. lia. }
      rewrite X. unfold types. unfold blen. rewrite map_length. unfold blen in Hlen. lia. }
    rewrite (gen_outer inner outerTypes pre e mid post _ Hi Hm Ho Hdi Hk He) in Hg.
    match type of Hg with Ok ?a = _ => assert (Hx : x = a) by congruence; clear Hg; subst x end.
    rewrite Hi, !types_app, !NoDup_app in Hdi. destruct Hdi as (Hd1 & (Hd2 & Hd3 & Hd4) & Hd5).
    rewrite Hi, !types_app, !in_app_iff in Hk.
    rewrite subst_plain by (auto; tauto).
    cbn [substituteOuterExtensions ext_type ext_data].
    rewrite app_nil_r. change (64768 =? 64768) with true. cbn [negb].
    rewrite (proj2 (nin_existsb _ _)) by (rewrite <- in_rev; tauto).
    assert (Er : read_ext_body KEchOuterExtensions (w_xbody (XEchOuterExtensions (types (e :: mid)))) =
                 Ok (XEchOuterExtensions (types (e :: mid)), [])).
    { rewrite <- (app_nil_r (w_xbody _)).
      apply (read_ext_ok (XEchOuterExtensions (types (e :: mid)))); [exact Hu'| |discriminate].
      apply (encodeExtension_iff (XEchOuterExtensions (types (e :: mid)))) in He; [|exact Hu']. apply He. }
    rewrite Er.
    destruct (expand_sub _ _ Hsub tail (64768 :: rev (types pre)) Hdo Hd2) as (s & Es & Hin).
    + intros t Ht [X|X]; [subst; tauto|]. rewrite <- in_rev in X. apply (Hd5 t X). apply in_or_app. auto.
    + exact Hech.
    + rewrite Es.
      pose proof (subst_plain post s [] (outer ++ tail) Hd3) as E. rewrite app_nil_r in E. rewrite E.
      * cbn [substituteOuterExtensions]. rewrite app_nil_r, Hi. reflexivity.
      * intros t Ht X. apply Hin in X. cbn in X. rewrite <- in_rev in X. destruct X as [[X|X]|X].
        -- subst t. tauto.
        -- apply (Hd5 t X). apply in_or_app. auto.
        -- exact (Hd4 t X Ht).
      * tauto.
Qed.

Lemma all_zero_zeros n : all_zero (zeros n) = true.
Proof. apply forallb_forall. intros b Hb. apply repeat_spec in Hb. subst b. reflexivity. Qed.
Lemma blen_zeros n : blen (zeros n) = n.
Proof. unfold blen, zeros. rewrite repeat_length. lia. Qed.

Lemma gen_wf inner outer outerTypes x : compressible inner outer outerTypes -> wf_exts inner = true ->
  generateAndReplaceOuterExtensions inner outerTypes = Ok x -> wf_exts x = true.
Proof.
  intros [(pre & mid & post & Hi & Hm & Ho & Hsub & Hech & Hlen) Hdi Hdo Hk] Hw Hg.
  destruct mid as [|e mid].
  - cbn [app] in Hi. subst inner. rewrite gen_none in Hg by exact Ho. injection Hg as <-. exact Hw.
  - destruct (encodeExtension (XEchOuterExtensions (types (e :: mid)))) as [o|er] eqn:He.
    + rewrite (gen_outer inner outerTypes pre e mid post _ Hi Hm Ho Hdi Hk He) in Hg.
      assert (Hx : x = pre ++ o :: post) by congruence. subst x inner.
      unfold wf_exts in *. rewrite !forallb_app in *. cbn [forallb].
      unfold encodeExtension in He. apply bind_Ok in He. destruct He as (b & _ & He).
      assert (Hb : o = mkExt 64768 (Some b)) by (cbn [kind_of kind_type] in He; congruence). subst o.
      rewrite !andb_true_iff in *. cbn. tauto.
    + exfalso. unfold generateAndReplaceOuterExtensions in Hg.
      assert (Ef : filter (fun t => existsb (N.eqb t) outerTypes) (map ext_type inner) = types (e :: mid)).
      { subst inner. rewrite !map_app, !filter_app.
        rewrite (filter_none _ (map ext_type pre)), (filter_none _ (map ext_type post)), (filter_all _ (map ext_type (e :: mid))).
        - cbn [app]. rewrite app_nil_r. reflexivity.
        - intros t Ht. apply in_map_iff in Ht. destruct Ht as (y & <- & Hy). apply in_existsb. auto.
        - intros t Ht. apply in_map_iff in Ht. destruct Ht as (y & <- & Hy). apply nin_existsb. apply Ho. apply in_or_app; auto.
        - intros t Ht. apply in_map_iff in Ht. destruct Ht as (y & <- & Hy). apply nin_existsb. apply Ho. apply in_or_app; auto. }
      rewrite Ef in Hg. cbn [types map] in Hg. change (ext_type e :: map ext_type mid) with (types (e :: mid)) in Hg.
      rewrite He in Hg. discriminate.
Qed.

Lemma zeroPayload_split l e e' g kdf ae cid enc p : no_type 65037 l = true ->
  wf_x (XEchOuter (kdf, ae, cid, Some enc, Some p)) = true ->
  encodeExtension (XEchOuter (kdf, ae, cid, Some enc, Some p)) = Ok e ->
  encodeExtension (XEchOuter (kdf, ae, cid, Some enc, Some (zeros (blen p)))) = Ok e' ->
  zeroPayload (l ++ e :: g) = Ok (l ++ e' :: g).
Proof.
  intros Hn Hw He He'. induction l as [|a l IH]; cbn [app zeroPayload].
  - apply encodeExtension_iff in He; [|exact Hw]. destruct He as [Hf ->]. cbn [ext_type ext_data kind_of kind_type].
    change (65037 =? 65037) with true. cbv iota.
    pose proof (read_ext_ok _ [] Hw Hf (fun _ => eq_refl)) as E. rewrite app_nil_r in E. cbn [kind_of] in E. rewrite E. cbn [bind].
    rewrite He'. reflexivity.
  - cbn [no_type forallb] in Hn. apply andb_true_iff in Hn. destruct Hn as [H1 H2].
    destruct (ext_type a =? 65037); [discriminate|]. rewrite IH by exact H2. reflexivity.
Qed.

Lemma encode_ch_iff c b : wf_msg (MClientHello c) = true -> encode_ch c = Ok b ->
  fit_body (MClientHello c) = true /\ b = w_body (MClientHello c).
Proof.
  intros Hw He. apply (proj1 (encode_body_iff (MClientHello c) b Hw)). cbn [encode_body]. rewrite He. reflexivity.
Qed.

Lemma ech_open cs cr suite cid enc inner outer grease maxLen ots cs' ct e g :
  hc_role cs = Sender -> hc_role cr = Receiver -> hc_seq cr = hc_seq cs -> opens (hc_aead cs) (hc_aead cr) ->
  ae_overhead (hc_aead cs) = 16 ->
  encryptImpl cs suite cid (Some enc) inner outer grease maxLen ots = (cs', Ok ct) ->
  encodeExtension (XEchOuter (fst suite, snd suite, cid, Some enc, Some ct)) = Ok e -> greaseExt grease = Ok g ->
  in_u 2 (fst suite) = true -> in_u 2 (snd suite) = true -> in_u 1 cid = true ->
  no_type 65037 (ch_extensions outer) = true ->
  compressible (ch_extensions inner) (ch_extensions outer) ots ->
  wf_msg (MClientHello inner) = true -> fit_msg (MClientHello inner) = true ->
  ch_session_id outer = ch_session_id inner ->
  decryptECHWithContext (with_exts outer (ch_extensions outer ++ [e] ++ g)) (Some ct) cr =
    (set_seq cr (hc_seq cr + 1), DOk (inner, w_msg (MClientHello inner))) /\
  cs' = set_seq cs (hc_seq cs + 1).
Proof.
  intros Rs Rr Hq Ho Hov He Hx Hg U1 U2 U3 Hn Hc Hw Hf Hs.
  unfold encryptImpl in He.
  match type of He with match ?p with Ok _ => _ | Err _ => _ end = _ => destruct p as [[aad pt]|er] eqn:Ep; [|discriminate] end.
  apply bind_Ok in Ep. destruct Ep as (x & Egen & Ep).
  apply bind_Ok in Ep. destruct Ep as (body & Ebody & Ep).
  apply bind_Ok in Ep. destruct Ep as (pad & Epad & Ep).
  apply bind_Ok in Ep. destruct Ep as (ov & Eov & Ep).
  apply bind_Ok in Ep. destruct Ep as (dummy & Edum & Ep).
  apply bind_Ok in Ep. destruct Ep as (g' & Eg' & Ep).
  apply bind_Ok in Ep. destruct Ep as (aad' & Eaad & Ep).
  assert (Hov' : ov = 16).
  { unfold getCipherOverhead in Eov. destruct ((snd suite =? 1) || (snd suite =? 2) || (snd suite =? 3)); [congruence|discriminate]. }
  subst ov. rewrite Hg in Eg'. injection Eg' as <-.
  assert (aad' = aad) by congruence. subst aad'. assert (Hpt : pt = body ++ zeros pad) by congruence. clear Ep.
  unfold hseal in He. rewrite Rs in He.
  destruct (ae_enc (hc_aead cs) pt (Some aad) (hc_seq cs)) as [ct'|er] eqn:Eenc; [|discriminate].
  unfold incrementSeq in He. destruct (max64 - 1 <=? hc_seq cs) eqn:El; [discriminate|].
  injection He as <- ->.
  destruct (Ho _ _ _ _ Eenc) as (Hlen & ch & Hch & Hcat & Htry).
  split; [|reflexivity].
  set (wire := with_exts outer (ch_extensions outer ++ [e] ++ g)).
  assert (Ea : outerForAad wire = Ok aad).
  { unfold outerForAad, wire. cbn [with_exts ch_extensions app].
    rewrite (zeroPayload_split (ch_extensions outer) e dummy g (fst suite) (snd suite) cid enc ct Hn).
    - cbn [bind]. exact Eaad.
    - cbn. rewrite U1, U2, U3. reflexivity.
    - exact Hx.
    - rewrite Hlen, Hov, Hpt. exact Edum. }
  unfold decryptECHWithContext. rewrite Ea.
  unfold hopen. rewrite Rr. unfold ae_dec. rewrite Hq, Htry. cbn [bind]. unfold incrementSeq. rewrite Hq, El. f_equal.
  rewrite Hcat, Hpt.
  set (strip := with_exts (with_sid inner (Some [])) x) in *.
  assert (Hwi : wf_msg (MClientHello strip) = true).
  { unfold strip. cbn [wf_msg with_exts with_sid ch_version ch_random ch_session_id ch_suites ch_compression ch_extensions nonnull].
    cbn [wf_msg] in Hw. rewrite !andb_true_iff in *. repeat split; try tauto.
    eapply gen_wf; [exact Hc|tauto|exact Egen]. }
  destruct (encode_ch_iff _ _ Hwi Ebody) as [Hfs ->].
  rewrite decode_ch_ok by assumption. rewrite all_zero_zeros. cbn [negb].
  change (ch_session_id wire) with (ch_session_id outer). rewrite Hs.
  assert (Hsid : exists sd, ch_session_id inner = Some sd).
  { cbn [wf_msg] in Hw. rewrite !andb_true_iff in Hw. destruct (ch_session_id inner); [eauto|]. cbn in Hw. intuition discriminate. }
  destruct Hsid as [sd Hsd]. rewrite Hsd.
  unfold wire. cbn [with_exts ch_extensions].
  change (ch_extensions strip) with x.
  assert (Hu : forallb (in_u 2) (types (ch_extensions inner)) = true).
  { cbn [wf_msg] in Hw. rewrite !andb_true_iff in Hw. destruct Hw as [_ Hw].
    unfold wf_exts in Hw. apply forallb_forall. intros t Ht. apply in_map_iff in Ht. destruct Ht as (y & <- & Hy).
    rewrite forallb_forall in Hw. specialize (Hw _ Hy). unfold wf_ext in Hw. apply andb_true_iff in Hw. tauto. }
  rewrite (outer_roundtrip _ _ _ _ _ Hc Hu Egen).
  assert (Er : with_exts (with_sid strip (Some sd)) (ch_extensions inner) = inner).
  { unfold strip, with_exts, with_sid. rewrite <- Hsd. destruct inner; reflexivity. }
  rewrite Er. rewrite (proj2 (encodeHandshake_iff (MClientHello inner) _ Hw) (conj Hf eq_refl)). reflexivity.
Qed.
