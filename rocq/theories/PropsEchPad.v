(** * C46: padding of the encrypted ClientHello *)
From Verif Require Import Base Codec CodecSpec Str Hkdf HkdfSpec HkdfProofs Kex Record RecordSpec Hpke HpkeSpec HpkeUtils
  Handshake HandshakeSpec HandshakeProofs Extensions ExtensionsSpec ExtensionsProofs Transcript IOBufUtil EchCrypt EchSpec EchProofs
  PropsRecord PropsKeys PropsHpke PropsEchCrypt.
Open Scope N_scope.

(** An AEAD whose ciphertext is the plaintext plus a 16 byte tag. *)
Definition tag16 (a : aead) : Prop := forall p ad seq c, ae_enc a p ad seq = Ok c -> blen c = blen p + 16.

(** What a successful encryption did. *)
Lemma encrypt_shape ctx suite cid enc inner outer grease maxLen ots ctx' ct :
  tag16 (hc_aead ctx) -> encryptImpl ctx suite cid enc inner outer grease maxLen ots = (ctx', Ok ct) ->
  exists x body pad, generateAndReplaceOuterExtensions (ch_extensions inner) ots = Ok x /\
    encode_ch (with_exts (with_sid inner (Some [])) x) = Ok body /\ calculateECHPadding inner (blen body) maxLen = Ok pad /\
    blen ct = blen body + pad + 16.
Proof.
  intros T H. unfold encryptImpl in H.
  match type of H with match ?p with Ok _ => _ | Err _ => _ end = _ => destruct p as [[aad pt]|er] eqn:Ep; [|discriminate] end.
  apply bind_Ok in Ep. destruct Ep as (x & Egen & Ep). apply bind_Ok in Ep. destruct Ep as (body & Ebody & Ep).
  apply bind_Ok in Ep. destruct Ep as (pad & Epad & Ep). apply bind_Ok in Ep. destruct Ep as (ov & Eov & Ep).
  apply bind_Ok in Ep. destruct Ep as (dummy & Edum & Ep). apply bind_Ok in Ep. destruct Ep as (g & Eg & Ep).
  apply bind_Ok in Ep. destruct Ep as (aad' & Eaad & Ep). assert (Hpt : pt = body ++ zeros pad) by congruence.
  unfold hseal in H. destruct (hc_role ctx); [|discriminate].
  destruct (ae_enc (hc_aead ctx) pt (Some aad) (hc_seq ctx)) as [c|] eqn:E; [|discriminate].
  destruct (incrementSeq ctx) as [c'|]; [|discriminate]. assert (c = ct) by congruence. subst c.
  exists x, body, pad. repeat (split; [assumption|]). rewrite (T _ _ _ _ E), Hpt, blen_app, blen_zeros. reflexivity.
Qed.
Lemma encode_ch_pos c b : encode_ch c = Ok b -> 1 <= blen b.
Proof.
  unfold encode_ch. intros H. apply bind_Ok in H. destruct H as (v & Ev & H).
  assert (Hv : blen v = 2).
  { unfold write_u in Ev. assert (v = be 2 (ch_version c)) by congruence. subst v. apply be_blen. }
  repeat (apply bind_Ok in H; destruct H as (? & _ & H)). injection H as <-. rewrite !blen_app. lia.
Qed.

(** The sealed plaintext is a whole number of 32 byte blocks. *)
Theorem C46_blocks : forall ctx suite cid enc inner outer grease maxLen ots ctx' ct,
  tag16 (hc_aead ctx) -> encryptImpl ctx suite cid enc inner outer grease maxLen ots = (ctx', Ok ct) ->
  exists n, blen ct = 32 * n + 16.
Proof.
  intros until ct. intros T H. destruct (encrypt_shape _ _ _ _ _ _ _ _ _ _ _ T H) as (x & body & pad & _ & Eb & Ep & ->).
  apply encode_ch_pos in Eb. unfold calculateECHPadding in Ep. apply bind_Ok in Ep. destruct Ep as (o & _ & Ep).
  apply bind_Ok in Ep. destruct Ep as (p & _ & Ep). assert (Hp : pad = p + (31 - (blen body + p - 1) mod 32)) by congruence.
  exists ((blen body + p - 1) / 32 + 1). pose proof (N.div_mod (blen body + p - 1) 32 ltac:(lia)) as D.
  pose proof (N.mod_lt (blen body + p - 1) 32 ltac:(lia)). lia.
Qed.
Print Assumptions C46_blocks.

(** The hello with, or without, a server name between [pre] and [post]. *)
Definition named (base : ClientHello) (pre post : list Extension) (name : option bytes) : ClientHello :=
  with_exts base (pre ++ match name with Some n => [xsni n] | None => [] end ++ post).

(** Operations on a list with a part [m] in the middle that no searched type occurs in. *)
Definition rz (t : N) (x : list Extension) (z : list Extension * list Extension) : res (list Extension * list Extension) :=
  match replaceFirst t x (fst z) with
  | Ok p => Ok (p, snd z)
  | Err _ => q <- replaceFirst t x (snd z) ;; Ok (fst z, q)
  end.
Lemma replaceFirst_z t x m p q : ~ In t (types m) ->
  replaceFirst t x (p ++ m ++ q) = ('(p', q') <- rz t x (p, q) ;; Ok (p' ++ m ++ q')).
Proof.
  intros Hm. unfold rz. cbn [fst snd]. induction p as [|a p IH].
  - cbn [app replaceFirst]. induction m as [|e m IHm].
    + cbn [app]. destruct (replaceFirst t x q); reflexivity.
    + cbn [app replaceFirst]. cbn in Hm. destruct (N.eqb_spec (ext_type e) t); [exfalso; apply Hm; left; assumption|].
      rewrite IHm by tauto. destruct (replaceFirst t x q); reflexivity.
  - cbn [app replaceFirst]. destruct (ext_type a =? t).
    + cbn [bind]. rewrite <- app_assoc. reflexivity.
    + rewrite IH. destruct (replaceFirst t x p); cbn [bind]; [reflexivity|]. destruct (replaceFirst t x q); reflexivity.
Qed.
Fixpoint ez (ts : list N) (z : list Extension * list Extension) : res (list Extension * list Extension) :=
  match ts with [] => Ok z | t :: r => z' <- rz t [] z ;; ez r z' end.
Lemma eraseAll_z m ts : (forall t, In t ts -> ~ In t (types m)) -> forall p q,
  eraseAll ts (p ++ m ++ q) = ('(p', q') <- ez ts (p, q) ;; Ok (p' ++ m ++ q')).
Proof.
  induction ts as [|t ts IH]; intros Hm p q; cbn [eraseAll ez]; [reflexivity|].
  rewrite replaceFirst_z by (apply Hm; left; reflexivity).
  destruct (rz t [] (p, q)) as [[p' q']|]; cbn [bind]; [|reflexivity]. apply IH. intros u Hu. apply Hm. right. exact Hu.
Qed.
Definition gz (z : list Extension * list Extension) (ots : list N) : res (list Extension * list Extension) :=
  match filter (fun t => existsb (N.eqb t) ots) (map ext_type (fst z ++ snd z)) with
  | [] => Ok z
  | t :: ts => o <- encodeExtension (XEchOuterExtensions (t :: ts)) ;; l <- rz t [o] z ;; ez ts l
  end.
Lemma gen_z m p q ots : (forall t, In t (types m) -> ~ In t ots) ->
  generateAndReplaceOuterExtensions (p ++ m ++ q) ots = ('(p', q') <- gz (p, q) ots ;; Ok (p' ++ m ++ q')).
Proof.
  intros Hm. unfold generateAndReplaceOuterExtensions, gz. cbn [fst snd].
  assert (E : filter (fun t => existsb (N.eqb t) ots) (map ext_type (p ++ m ++ q)) = filter (fun t => existsb (N.eqb t) ots) (map ext_type (p ++ q))).
  { rewrite !map_app, !filter_app. rewrite (filter_none _ (map ext_type m)); [reflexivity|]. intros t Ht. apply nin_existsb, Hm. exact Ht. }
  rewrite E. destruct (filter (fun t => existsb (N.eqb t) ots) (map ext_type (p ++ q))) as [|t ts] eqn:Ef; [reflexivity|].
  assert (Hin : forall u, In u (t :: ts) -> ~ In u (types m)).
  { intros u Hu Hi. rewrite <- Ef in Hu. apply filter_In in Hu. apply (Hm u Hi), in_existsb. tauto. }
  destruct (encodeExtension (XEchOuterExtensions (t :: ts))) as [o|]; cbn [bind]; [|reflexivity].
  rewrite replaceFirst_z by (apply Hin; left; reflexivity).
  destruct (rz t [o] (p, q)) as [[p' q']|]; cbn [bind]; [|reflexivity]. apply eraseAll_z. intros u Hu. apply Hin. right. exact Hu.
Qed.

(** lengths *)
Lemma write_all_app {T} (c : codec T) p : forall q b, write_all c (p ++ q) = Ok b <->
  exists b1 b2, write_all c p = Ok b1 /\ write_all c q = Ok b2 /\ b = b1 ++ b2.
Proof.
  induction p as [|a p IH]; intros q b; cbn [app write_all].
  - split; [intros H; exists [], b; auto|]. intros (b1 & b2 & H1 & H2 & ->). injection H1 as <-. exact H2.
  - split.
    + intros H. apply bind_Ok in H. destruct H as (w & Ew & H). apply bind_Ok in H. destruct H as (y & Ey & H).
      apply IH in Ey. destruct Ey as (b1 & b2 & E1 & E2 & ->). injection H as <-. exists (w ++ b1), b2. rewrite Ew, E1, <- app_assoc. auto.
    + intros (b1 & b2 & H1 & H2 & ->). apply bind_Ok in H1. destruct H1 as (w & Ew & H1). apply bind_Ok in H1. destruct H1 as (y & Ey & H1).
      injection H1 as <-. rewrite Ew. cbn [bind]. rewrite (proj2 (IH q (y ++ b2))) by eauto. cbn [bind]. rewrite <- app_assoc. reflexivity.
Qed.
Lemma encode_ch_mid m1 m2 p q c b1 b2 : encode_ch (with_exts c (p ++ m1 ++ q)) = Ok b1 -> encode_ch (with_exts c (p ++ m2 ++ q)) = Ok b2 ->
  exists w1 w2, write_all c_ext m1 = Ok w1 /\ write_all c_ext m2 = Ok w2 /\ blen b1 + blen w2 = blen b2 + blen w1.
Proof.
  unfold encode_ch. cbn [with_exts ch_version ch_random ch_session_id ch_suites ch_compression ch_extensions].
  intros H H'.
  apply bind_Ok in H. destruct H as (x & E & H). rewrite E in H'. cbn [bind] in H'.
  apply bind_Ok in H. destruct H as (x0 & E0 & H). rewrite E0 in H'. cbn [bind] in H'.
  apply bind_Ok in H. destruct H as (x1 & E1 & H). rewrite E1 in H'. cbn [bind] in H'.
  apply bind_Ok in H. destruct H as (x2 & E2 & H). rewrite E2 in H'. cbn [bind] in H'.
  apply bind_Ok in H. destruct H as (x3 & E3 & H). rewrite E3 in H'. cbn [bind] in H'.
  apply bind_Ok in H. destruct H as (x4 & E4 & H).
  apply bind_Ok in H'. destruct H' as (y & Ey & H'). assert (b1 = x ++ x0 ++ x1 ++ x2 ++ x3 ++ x4) by congruence.
  assert (b2 = x ++ x0 ++ x1 ++ x2 ++ x3 ++ y) by congruence. subst b1 b2. clear H H' E E0 E1 E2 E3.
  unfold write_exts, write_vec in E4, Ey.
  apply bind_Ok in E4. destruct E4 as (n1 & _ & E4). apply bind_Ok in E4. destruct E4 as (l1 & L1 & E4).
  apply bind_Ok in E4. destruct E4 as (a1 & A1 & E4).
  apply bind_Ok in Ey. destruct Ey as (n2 & _ & Ey). apply bind_Ok in Ey. destruct Ey as (l2 & L2 & Ey).
  apply bind_Ok in Ey. destruct Ey as (a2 & A2 & Ey).
  apply write_all_app in A1. destruct A1 as (u1 & v1 & U1 & V1 & ->). apply write_all_app in V1. destruct V1 as (w1 & z1 & W1 & Z1 & ->).
  apply write_all_app in A2. destruct A2 as (u2 & v2 & U2 & V2 & ->). apply write_all_app in V2. destruct V2 as (w2 & z2 & W2 & Z2 & ->).
  exists w1, w2. split; [exact W1|]. split; [exact W2|].
  assert (X : forall n l, write_len W16 n = Ok l -> blen l = 2).
  { intros n l. unfold write_len. destruct (_ <? _); [|discriminate]. intros Z. assert (l = be (lw_nat W16) n) by congruence. subst l. rewrite be_blen. reflexivity. }
  apply X in L1. apply X in L2. assert (x4 = l1 ++ u1 ++ w1 ++ z1) by congruence. assert (y = l2 ++ u2 ++ w2 ++ z2) by congruence. subst x4 y.
  assert (u1 = u2) by congruence. assert (z1 = z2) by congruence. subst. rewrite !blen_app. lia.
Qed.
Lemma sni_len n w : c_wr c_ext (xsni n) = Ok w -> blen w = 9 + blen n.
Proof.
  unfold xsni. cbn [c_wr c_ext c_iso c_pair ext_type ext_data fst snd c_u c_buf].
  set (body := w_xbody (XServerNameList [(0, Some n)])).
  assert (Hb : blen body = 5 + blen n).
  { unfold body. cbn [w_xbody]. unfold tls_list, tls_vec. rewrite blen_app, be_blen. cbn [map concat]. unfold w_nb, opaque, tls_vec, bufbytes. cbn [fst snd].
    rewrite !blen_app, !be_blen. change (blen []) with 0. lia. }
  intros H. apply bind_Ok in H. destruct H as (a & Ea & H). apply bind_Ok in H. destruct H as (b & Eb & H).
  assert (w = a ++ b) by congruence. subst w. rewrite blen_app.
  assert (Ha : blen a = 2). { unfold write_u in Ea. assert (a = be 2 0) by congruence. subst a. apply be_blen. }
  unfold write_buf in Eb. apply bind_Ok in Eb. destruct Eb as (l & El & Eb). assert (b = l ++ body) by congruence. subst b.
  unfold write_len in El. destruct (_ <? _); [|discriminate]. assert (Hl : blen l = 2). { assert (l = be (lw_nat W16) (blen body)) by congruence. subst l. rewrite be_blen. reflexivity. }
  rewrite blen_app. lia.
Qed.
Lemma padding_named base pre post n maxLen size : no_type 0 pre = true -> blen n <= maxLen -> maxLen < 256 ->
  calculateECHPadding (named base pre post (Some n)) size maxLen = 
    Ok ((maxLen - blen n) + (31 - ((size + (maxLen - blen n) - 1) mod 32))).
Proof.
  intros Hn Hl Hm.
  assert (Hf : fit_x (XServerNameList [(0, Some n)]) = true).
  { cbn [fit_x]. unfold fit_list. cbn [forallb map concat]. unfold w_nb, fit_nb, ofits, fits_len, opaque, tls_vec, bufbytes. cbn [fst snd].
    rewrite !blen_app, !be_blen. change (blen []) with 0. rewrite !andb_true_iff. repeat split; lia. }
  unfold calculateECHPadding, named. cbn [with_exts ch_extensions].
  assert (E : getExtension KServerNameList (pre ++ [xsni n] ++ post) = Ok (Some (XServerNameList [(0, Some n)]))).
  { unfold getExtension.
    assert (F : findExtension 0 (pre ++ [xsni n] ++ post) = Some (xsni n)).
    { unfold findExtension. apply find_split. exists pre, post. split; [reflexivity|]. split; [exact Hn|reflexivity]. }
    cbn [kind_type]. rewrite F. unfold xsni. cbn [ext_data].
    pose proof (read_ext_ok (XServerNameList [(0, Some n)]) [] eq_refl Hf ltac:(discriminate)) as R. rewrite app_nil_r in R. cbn [kind_of] in R.
    rewrite R. reflexivity. }
  rewrite E. cbn [bind].
  destruct (N.ltb_spec (blen n) maxLen); cbn [bind]; [reflexivity|]. replace (maxLen - blen n) with 0 by lia. reflexivity.
Qed.
Lemma padding_unnamed base pre post maxLen size : no_type 0 pre = true -> no_type 0 post = true ->
  calculateECHPadding (named base pre post None) size maxLen = Ok ((maxLen + 9) + (31 - ((size + (maxLen + 9) - 1) mod 32))).
Proof.
  intros H1 H2. unfold calculateECHPadding, named. cbn [with_exts ch_extensions app].
  assert (E : getExtension KServerNameList (pre ++ post) = Ok None).
  { unfold getExtension, findExtension. cbn [kind_type].
    destruct (find _ (pre ++ post)) as [e|] eqn:F; [|reflexivity]. exfalso. apply find_some in F. destruct F as [F1 F2].
    apply in_app_iff in F1. unfold no_type in *. rewrite forallb_forall in H1, H2.
    destruct F1 as [F1|F1]; [specialize (H1 _ F1); apply N.eqb_eq in F2; rewrite F2 in H1; discriminate|
                             specialize (H2 _ F1); apply N.eqb_eq in F2; rewrite F2 in H2; discriminate]. }
  rewrite E. reflexivity.
Qed.

(** Whatever the server name (no longer than the configuration's maximum), and whether there is one at all, the length of the payload
    is the same, as long as server_name is not among the outer extension types. *)
Theorem C46_name_hidden : forall base pre post n1 n2 maxLen ots ctx1 suite1 cid1 enc1 outer1 grease1 ctx1' ct1 ctx2 suite2 cid2 enc2 outer2 grease2 ctx2' ct2,
  no_type 0 pre = true -> no_type 0 post = true -> ~ In 0 ots -> maxLen < 256 ->
  (forall n, n1 = Some n \/ n2 = Some n -> blen n <= maxLen) -> tag16 (hc_aead ctx1) -> tag16 (hc_aead ctx2) ->
  encryptImpl ctx1 suite1 cid1 enc1 (named base pre post n1) outer1 grease1 maxLen ots = (ctx1', Ok ct1) ->
  encryptImpl ctx2 suite2 cid2 enc2 (named base pre post n2) outer2 grease2 maxLen ots = (ctx2', Ok ct2) ->
  blen ct1 = blen ct2.
Proof.
  intros until ct2. intros Hp Hq H0 Hm Hn T1 T2 E1 E2.
  destruct (encrypt_shape _ _ _ _ _ _ _ _ _ _ _ T1 E1) as (x1 & b1 & pad1 & G1 & B1 & P1 & ->).
  destruct (encrypt_shape _ _ _ _ _ _ _ _ _ _ _ T2 E2) as (x2 & b2 & pad2 & G2 & B2 & P2 & ->).
  set (mid := fun o : option bytes => match o with Some n => [xsni n] | None => [] end).
  assert (Mt : forall o t, In t (types (mid o)) -> ~ In t ots).
  { intros [n|] t; cbn; [intros [<-|[]]; exact H0|intros []]. }
  unfold named in G1, G2. cbn [with_exts ch_extensions] in G1, G2. fold (mid n1) in G1. fold (mid n2) in G2.
  rewrite (gen_z (mid n1) pre post ots (Mt n1)) in G1. rewrite (gen_z (mid n2) pre post ots (Mt n2)) in G2.
  destruct (gz (pre, post) ots) as [[p' q']|]; [|discriminate]. cbn [bind] in G1, G2.
  assert (x1 = p' ++ mid n1 ++ q') by congruence. assert (x2 = p' ++ mid n2 ++ q') by congruence. subst x1 x2. clear G1 G2.
  assert (B1' : encode_ch (with_exts (with_sid base (Some [])) (p' ++ mid n1 ++ q')) = Ok b1) by exact B1.
  assert (B2' : encode_ch (with_exts (with_sid base (Some [])) (p' ++ mid n2 ++ q')) = Ok b2) by exact B2.
  destruct (encode_ch_mid _ _ _ _ _ _ _ B1' B2') as (w1 & w2 & W1 & W2 & L).
  assert (K : forall o (w b : bytes) pad, write_all c_ext (mid o) = Ok w -> 1 <= blen b -> (forall n, o = Some n -> blen n <= maxLen) ->
     calculateECHPadding (named base pre post o) (blen b) maxLen = Ok pad ->
     let t := blen b + (maxLen + 9) - blen w in blen w <= maxLen + 9 /\ blen b + pad = t + (31 - (t - 1) mod 32)).
  { intros o w b pad W Hb Ho P. cbv zeta. destruct o as [n|].
    - rewrite (padding_named base pre post n maxLen (blen b) Hp (Ho n eq_refl) Hm) in P.
      cbn [mid write_all] in W. apply bind_Ok in W. destruct W as (w' & Ew & W). cbn [bind] in W.
      assert (w = w' ++ []) by congruence. subst w. rewrite app_nil_r. rewrite (sni_len _ _ Ew). specialize (Ho n eq_refl).
      replace (blen b + (maxLen + 9) - (9 + blen n)) with (blen b + (maxLen - blen n)) by lia.
      assert (Hpad : pad = maxLen - blen n + (31 - (blen b + (maxLen - blen n) - 1) mod 32)) by congruence. split; lia.
    - rewrite padding_unnamed in P by assumption. cbn [mid write_all] in W. assert (w = []) by congruence. subst w. change (blen []) with 0.
      rewrite N.sub_0_r. assert (Hpad : pad = maxLen + 9 + (31 - (blen b + (maxLen + 9) - 1) mod 32)) by congruence. split; lia. }
  pose proof (encode_ch_pos _ _ B1') as O1. pose proof (encode_ch_pos _ _ B2') as O2.
  destruct (K n1 w1 b1 pad1 W1 O1 (fun n H => Hn n (or_introl H)) P1) as [S1 R1].
  destruct (K n2 w2 b2 pad2 W2 O2 (fun n H => Hn n (or_intror H)) P2) as [S2 R2].
  rewrite R1, R2. replace (blen b1 + (maxLen + 9) - blen w1) with (blen b2 + (maxLen + 9) - blen w2) by lia. reflexivity.
Qed.
Print Assumptions C46_name_hidden.

(** Concretely: three hellos (short name, long name, none) have 16 + 32*n bytes of payload. *)
Definition toy_payload (name : option bytes) (ots : list N) : option N :=
  match constructHpkeSetupResult toy_fac (toy_dh 3) toy_ng with
  | Ok (enc, cs) =>
      match encryptImpl cs (1, 1) 7 (Some enc) (named (ch_of x11 []) [xplain 43] [xplain 51; xech_inner] name) toy_outer None 30 ots with
      | (_, Ok ct) => Some (blen ct) | _ => None end
  | _ => None
  end.
Example C46_nonvacuous : toy_payload (Some (str "a.b")) [51] = Some 144 /\ toy_payload (Some (str "averylongname.example.com")) [51] = Some 144 /\
  toy_payload None [51] = Some 144 /\ tag16 toy_aead.
Proof.
  repeat split; try (vm_compute; reflexivity). intros p ad seq c H. unfold toy_aead, ae_enc in H. injection H as <-.
  rewrite blen_app, toy_tag_blen. reflexivity.
Qed.
(** A name longer than the maximum shows in the length, up to the block size. *)
Theorem C46_long_name_leaks : toy_payload (Some (repeat x61 63)) [51] = Some 176 /\ toy_payload (Some (repeat x61 30)) [51] = Some 144.
Proof. split; vm_compute; reflexivity. Qed.

(** ** GREASE pre-shared keys in the outer hello *)
(** The fake pre_shared_key offered in the outer hello has as many identities as the real one, binders of the same lengths, and is
    otherwise a function of the random generator alone: hellos with different identities (even of different lengths) and ticket ages
    yield the same fake offer from the same random bytes. *)
Definition same_binder_lengths (a b : list buf) : Prop := map (option_map (@blen byte)) a = map (option_map (@blen byte)) b.
Theorem C46_grease_psk : forall rnd i ids bs l m, (forall n k, blen (rnd n k) = n) ->
  greaseItems false rnd i ids bs = Ok (l, m) ->
  length l = length ids /\ (forall p, In p l -> exists x, fst p = Some x /\ blen x = 16) /\
  (length bs = length ids -> same_binder_lengths m bs) /\
  (forall ids' bs', length ids' = length ids -> same_binder_lengths bs' bs -> greaseItems false rnd i ids' bs' = Ok (l, m)).
Proof.
  intros rnd i ids. revert i. induction ids as [|[id age] ids IH]; intros i bs l m Hr H; cbn [greaseItems] in H.
  - injection H as <- <-. split; [reflexivity|]. split; [intros p []|]. split.
    + destruct bs; [intros _; reflexivity|discriminate].
    + intros [|] bs' H1 H2; [reflexivity|discriminate].
  - destruct bs as [|[b|] bs]; [discriminate| |discriminate]. cbv iota in H. apply bind_Ok in H. destruct H as ([l' m'] & Eg & H).
    assert (l = (Some (rnd 16 (3 * i)), unbe (rev (rnd 4 (3 * i + 1)))) :: l') by congruence.
    assert (m = Some (rnd (blen b) (3 * i + 2)) :: m') by congruence. subst l m. clear H.
    destruct (IH _ _ _ _ Hr Eg) as (I1 & I2 & I3 & I4). split; [cbn [length]; congruence|]. split.
    + intros p [<-|Hp]; [|auto]. exists (rnd 16 (3 * i)). split; [reflexivity|apply Hr].
    + split.
      * cbn [length]. intros L. injection L as L. unfold same_binder_lengths in *. cbn [map option_map]. rewrite Hr, (I3 L). reflexivity.
      * intros [|[id2 age2] ids'] bs' L S; [discriminate|]. cbn [length] in L. injection L as L. unfold same_binder_lengths in S.
        destruct bs' as [|[b'|] bs']; [discriminate| |discriminate]. cbn [map option_map] in S.
        assert (Sb : blen b' = blen b) by congruence. assert (S2 : same_binder_lengths bs' bs) by (unfold same_binder_lengths; congruence).
        cbn [greaseItems]. rewrite (I4 ids' bs' L S2). cbn [bind]. rewrite Sb. reflexivity.
Qed.
Print Assumptions C46_grease_psk.
(** After a HelloRetryRequest the fake identities are those of the first hello. *)
Theorem C46_grease_hrr : forall rnd i ids bs l m, greaseItems true rnd i ids bs = Ok (l, m) -> map fst l = map fst ids.
Proof.
  intros rnd i ids. revert i. induction ids as [|[id age] ids IH]; intros i bs l m H; cbn [greaseItems] in H.
  - injection H as <- <-. reflexivity.
  - destruct bs as [|b bs]; [discriminate|]. destruct id as [id|]; [|discriminate]. destruct b as [b|]; [|discriminate].
    apply bind_Ok in H. destruct H as ([l' m'] & Eg & H).
    assert (l = (Some id, unbe (rev (rnd 4 (3 * i + 1)))) :: l') by congruence. subst l. cbn [map fst]. f_equal. eapply IH. exact Eg.
Qed.
Example C46_grease_nonvacuous : exists l m, greaseItems false (fun n _ => zeros n) 0 [(Some [x01], 5); (Some [], 6)] [Some (zeros 32); Some (zeros 48)] = Ok (l, m) /\
  length l = 2%nat /\ map (option_map (@blen byte)) m = [Some 32; Some 48].
Proof. eexists _, _. split; [vm_compute; reflexivity|]. split; vm_compute; reflexivity. Qed.
