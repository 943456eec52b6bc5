(** * The client's PSK binder is the one RFC 8446 (4.2.11.2) asks for. *)
From Verif Require Import Base Codec CodecSpec Str Hkdf HkdfSpec HkdfProofs KeySched KeySchedSpec KeySchedProofs Handshake HandshakeSpec HandshakeProofs Extensions ExtensionsSpec ExtensionsProofs
  RecordBase Record ReadEvent Cookie Ticket PskSer Kex Transcript HpkeUtils EchCrypt Server ServerSpec PropsEch ServerFacts ServerFlight ServerParams Client ClientSpec ClientHelloSpec ClientHello.
Open Scope N_scope.

Lemma write_all_snoc {T} (c : codec T) e : forall l r, write_all c (l ++ [e]) = Ok r ->
  exists a b, write_all c l = Ok a /\ c_wr c e = Ok b /\ r = a ++ b.
Proof.
  induction l as [|x l IH]; intros r H; cbn [app write_all] in *.
  - bo H b Eb. injection H as <-. exists [], b. split; [reflexivity|]. split; [exact Eb|]. apply app_nil_r.
  - bo H a Ea. bo H y Ey. injection H as <-. destruct (IH _ Ey) as (a' & b & A1 & A2 & ->). rewrite Ea, A1. cbn [bind]. exists (a ++ a'), b. split; [reflexivity|]. split; [exact A2|]. apply app_assoc.
Qed.
Lemma size_all_snoc {T} (c : codec T) e : forall l n, size_all c (l ++ [e]) = Ok n ->
  exists a b, size_all c l = Ok a /\ c_sz c e = Ok b /\ n = a + b.
Proof.
  induction l as [|x l IH]; intros r H; cbn [app size_all] in *.
  - bo H b Eb. injection H as <-. exists 0, b. split; [reflexivity|]. split; [exact Eb|lia].
  - bo H a Ea. bo H y Ey. injection H as <-. destruct (IH _ Ey) as (a' & b & A1 & A2 & ->). rewrite Ea, A1. cbn [bind]. exists (a + a'), b.
    split; [reflexivity|]. split; [exact A2|lia].
Qed.
(** The last extension's data ends the encoding, and what precedes it only depends on its length. *)
Lemma encode_tail c xs t (p b1 b2 : bytes) r1 r2 : blen b1 = blen b2 ->
  encodeHandshake (MClientHello (with_exts c (xs ++ [mkExt t (Some (p ++ b1))]))) = Ok r1 ->
  encodeHandshake (MClientHello (with_exts c (xs ++ [mkExt t (Some (p ++ b2))]))) = Ok r2 ->
  exists q, r1 = q ++ b1 /\ r2 = q ++ b2.
Proof.
  intros HL. assert (Hpl : blen (p ++ b1) = blen (p ++ b2)) by (rewrite !blen_app, HL; reflexivity).
  unfold encodeHandshake. cbn [encode_body hs_type]. unfold encode_ch. cbn [with_exts ch_version ch_random ch_session_id ch_suites ch_compression ch_extensions].
  destruct (write_u 2 (ch_version c)) as [v|]; [cbn [bind]|discriminate].
  destruct (write_random (ch_random c)) as [rn|]; [cbn [bind]|discriminate].
  destruct (write_buf W8 (ch_session_id c)) as [sid|]; [cbn [bind]|discriminate].
  destruct (write_vec W16 (c_u 2) (ch_suites c)) as [su|]; [cbn [bind]|discriminate].
  destruct (write_vec W8 (c_u 1) (ch_compression c)) as [co|]; [cbn [bind]|discriminate].
  unfold write_exts, write_vec.
  intros H1 H2. bo H1 f1 F1. bo F1 g1 G1. bo G1 xx1 X1. bo X1 n1 N1. bo X1 l1 L1. bo X1 w1 W1.
  bo H2 f2 F2. bo F2 g2 G2. bo G2 xx2 X2. bo X2 n2 N2. bo X2 l2 L2. bo X2 w2 W2.
  apply size_all_snoc in N1, N2. destruct N1 as (a1 & m1 & S1 & M1 & ->), N2 as (a2 & m2 & S2 & M2 & ->).
  assert (a1 = a2) by congruence. subst a2.
  assert (m1 = m2). { cbn in M1, M2. rewrite Hpl in M1. congruence. } subst m2. assert (l1 = l2) by congruence. subst l2.
  apply write_all_snoc in W1, W2. destruct W1 as (y1 & z1 & Y1 & Z1 & ->), W2 as (y2 & z2 & Y2 & Z2 & ->).
  assert (y1 = y2) by congruence. subst y2.
  assert (exists q, z1 = q ++ b1 /\ z2 = q ++ b2) as (q & -> & ->).
  { unfold c_ext in Z1, Z2. cbn [c_wr c_iso c_pair fst snd ext_type ext_data c_u c_buf] in Z1, Z2. bo Z1 u1 U1. bo Z1 v1 V1. bo Z2 u2 U2. bo Z2 v2 V2.
    unfold write_buf in V1, V2. bo V1 k1 K1. bo V2 k2 K2. assert (u1 = u2) by congruence. subst u2. rewrite Hpl in K1. assert (k1 = k2) by congruence. subst k2.
    exists (u1 ++ k1 ++ p). assert (z1 = u1 ++ k1 ++ p ++ b1) by congruence. assert (z2 = u1 ++ k1 ++ p ++ b2) by congruence. subst. rewrite !app_assoc. auto. }
  assert (xx1 = l1 ++ y1 ++ q ++ b1) by congruence. assert (xx2 = l1 ++ y1 ++ q ++ b2) by congruence. subst xx1 xx2. clear X1 X2.
  set (P := v ++ rn ++ sid ++ su ++ co ++ l1 ++ y1 ++ q).
  assert (g1 = P ++ b1) by (unfold P; rewrite <- !app_assoc; congruence). assert (g2 = P ++ b2) by (unfold P; rewrite <- !app_assoc; congruence). subst g1 g2.
  clearbody P. assert (f1 = Some (P ++ b1)) by congruence. assert (f2 = Some (P ++ b2)) by congruence. subst f1 f2.
  assert (HP : blen (P ++ b1) = blen (P ++ b2)) by (rewrite !blen_app, HL; reflexivity).
  bo H1 t1 T1. bo H1 k1 K1. bo H2 t2 T2. bo H2 k2 K2. rewrite HP in K1. assert (t1 = t2) by congruence. assert (k1 = k2) by congruence. subst t2 k2.
  exists (t1 ++ k1 ++ P). assert (r1 = t1 ++ k1 ++ P ++ b1) by congruence. assert (r2 = t1 ++ k1 ++ P ++ b2) by congruence. subst. rewrite <- !app_assoc. auto.
Qed.
Lemma chk64_ok z d : chk64 z = Ok d -> d = z.
Proof. unfold chk64. destruct (int64 z); congruence. Qed.
Lemma mod32 z : Z.of_N (Z.to_N (z mod 2 ^ 32)) = (z mod 2 ^ 32)%Z.
Proof. apply Z2N.id. apply Z.mod_pos_bound. reflexivity. Qed.
Lemma psk_ext p now ids bs : getPskExtension p now = Ok (ids, bs) -> exists age hid, hash_id (pk_cipher (cp_psk p)) = Ok hid /\
  ids = [(Some (pk_psk (cp_psk p)), age)] /\ bs = [Some (zeros (hash_size hid))] /\ age_of p now age /\ in_u 4 age = true.
Proof.
  unfold getPskExtension. intros H. bo H age Ea. bo H hid Ei. assert (ids = [(Some (pk_psk (cp_psk p)), age)]) by congruence.
  assert (bs = [Some (zeros (hash_size hid))]) by congruence. clear H. exists age, hid. split; [exact Ei|]. split; [assumption|]. split; [assumption|].
  unfold age_of, in_u. destruct (cp_type p); try (injection Ea as <-; split; reflexivity).
  bo Ea d Ed. apply chk64_ok in Ed. subst d. assert (age = Z.to_N ((Z.quot (now - pk_issue (cp_psk p)) 1000000 + Z.of_N (pk_ageAdd (cp_psk p))) mod 2 ^ 32)) by congruence.
  subst age. clear Ea. rewrite mod32. split; [reflexivity|]. apply N.ltb_lt.
  match goal with |- Z.to_N (?z mod _) < _ => pose proof (Z.mod_pos_bound z (2 ^ 32) eq_refl) as B end.
  change (256 ^ N.of_nat 4) with (Z.to_N (2 ^ 32)). apply Z2N.inj_lt; [apply B|discriminate|apply B].
Qed.
Lemma hash_id_cases c x : hash_id c = Ok x -> x = 256 \/ x = 384 \/ x = 512.
Proof. unfold hash_id. intros H. repeat match type of H with (if ?b then _ else _) = _ => destruct b end; first [discriminate|injection H as <-; auto]. Qed.
Lemma sized k c h x : sized_hashes k -> k_hash k c = Ok h -> hash_id c = Ok x -> h_len h = hash_size x.
Proof. intros S H I. destruct (S _ _ H) as (A & B & C). destruct (hash_id_cases _ _ I) as [->|[->| ->]]; cbn; auto. Qed.
(** encodeAndAddBinders, given a hash of the right size *)
Lemma binders_ok c p h hc now c2 enc k1 hc' : hash_ok h -> hc_hash hc = h ->
  (forall x, hash_id (pk_cipher (cp_psk p)) = Ok x -> h_len h = hash_size x) ->
  encodeAndAddBinders c p h hc now = Ok (c2, enc, k1, hc') ->
  (no_type 41 (ch_extensions c) = true -> psk_offer h (hc_data hc) p now c2 enc) /\ encodeHandshake (MClientHello c2) = Ok enc /\ hc_hash hc' = h /\ hc_data hc' = hc_data hc ++ enc /\
  rel h k1 (Early (pk_secret (cp_psk p)), None).
Proof.
  intros Hh Hc Hsz H. unfold encodeAndAddBinders in H. bo H k1' Ek. bo H bk Ebk. apply bind_Ok in H. destruct H as ((ids & bs) & Ep & H). cbv beta iota in H.
  apply psk_ext in Ep. destruct Ep as (age & hid & Hid & -> & -> & Hage & Hu).
  bo H e Ee. cbv zeta in H. bo H bl Ebl. bo H pre Epre. bo H u1 Eu1. bo H b Eb. bo H e' Ee'. bo H enc' Eenc. bo H u2 Eu2.
  assert (c2 = with_exts c (ch_extensions c ++ [e'])) by congruence. assert (enc' = enc) by congruence. assert (k1' = k1) by congruence. subst c2 enc' k1'.
  match type of H with Ok (_, _, _, ?x) = _ => assert (hc' = x) by congruence end. subst hc'. clear H.
  destruct (kdo_rel _ _ _ (DeriveEarly (pk_secret (cp_psk p))) _ Hh (rel_init h) Logic.I Ek) as (st' & o & E & Hk). cbn [spec_step] in E. injection E as <- <-.
  rewrite Hc in Ebk. rewrite (ho_blank _ Hh) in Ebk.
  assert (Lb : forall kd, op_ok h (GetEarly kd (h_fn h []))) by (intros; cbn [op_ok]; apply (ho_digest _ Hh)).
  destruct (kget_rel _ _ _ _ _ Hh Hk (Lb _) Ebk) as (st & E). cbn [spec_step] in E.
  assert (Hbk : bk = binder_key h (cp_type p) (pk_secret (cp_psk p))).
  { unfold binder_key. destruct (cp_type p); cbn [early_spec] in E; congruence. }
  clear E st Ebk.
  set (hc1 := hc_append hc (takeN (blen pre - bl) pre)) in *.
  assert (Hc1 : hc_hash hc1 = h /\ hc_data hc1 = hc_data hc ++ takeN (blen pre - bl) pre) by (unfold hc1, hc_append; cbn [hc_hash hc_data]; auto).
  clearbody hc1. destruct Hc1 as (Hc1 & Hd1).
  rewrite finished_ok in Eb; rewrite ?Hc1 in *; [|exact Hh|rewrite Hbk; apply DeriveSecret_len, Hh].
  assert (Hb : b = verify_data h bk (hc_data hc1)) by congruence. clear Eb.
  assert (Lvd : blen b = h_len h) by (rewrite Hb; apply (ho_digest _ Hh)).
  assert (W : forall x : bytes, wf_x (XClientPresharedKey ([(Some (pk_psk (cp_psk p)), age)], [Some x])) = true).
  { intros x. cbn [wf_x fst snd forallb nonnull]. unfold wf_pskid. cbn [fst snd nonnull]. rewrite Hu. reflexivity. }
  pose proof Ee' as Ee''. apply encodeExtension_iff in Ee; [|apply W]. apply encodeExtension_iff in Ee'; [|apply W].
  destruct Ee as (Fe & He), Ee' as (Fe' & He'). cbn [kind_of kind_type] in He, He'.
  assert (Hbody : forall x : bytes, blen x = h_len h -> w_xbody (XClientPresharedKey ([(Some (pk_psk (cp_psk p)), age)], [Some x])) =
     tls_list 2 w_pskid [(Some (pk_psk (cp_psk p)), age)] ++ (be 2 (1 + h_len h) ++ be 1 (h_len h) ++ x)).
  { intros x Hx. cbn [w_xbody fst snd]. f_equal. unfold tls_list, tls_vec. cbn [map concat]. rewrite app_nil_r. unfold opaque, tls_vec. cbn [bufbytes].
    rewrite blen_app, be_blen, Hx. reflexivity. }
  rewrite (Hbody b Lvd) in He'. rewrite (Hbody (zeros (hash_size hid))) in He by (rewrite blen_zeros; symmetry; apply Hsz, Hid).
  set (P := tls_list 2 w_pskid [(Some (pk_psk (cp_psk p)), age)]) in *.
  set (B := be 2 (1 + h_len h) ++ be 1 (h_len h) ++ b) in *. set (Z := be 2 (1 + h_len h) ++ be 1 (h_len h) ++ zeros (hash_size hid)) in *.
  assert (LB : blen B = 3 + h_len h) by (unfold B; rewrite !blen_app, !be_blen, Lvd; lia).
  assert (LZ : blen Z = 3 + h_len h) by (unfold Z; rewrite !blen_app, !be_blen, blen_zeros, <- (Hsz _ Hid); lia).
  assert (Hbl : bl = 3 + h_len h).
  { cbn [with_exts ch_extensions] in Ebl. unfold getBinderLength in Ebl. rewrite rev_app_distr in Ebl. cbn [rev app] in Ebl. rewrite He in Ebl. cbn [ext_type ext_data] in Ebl.
    change (41 =? 41) with true in Ebl. cbn [negb] in Ebl.
    cbn [fit_x fst snd] in Fe. apply andb_true_iff in Fe. destruct Fe as [Hf1 Hf2].
    unfold fit_list in Hf1, Hf2. apply andb_true_iff in Hf1, Hf2. destruct Hf1 as [_ Hf1], Hf2 as [_ Hf2]. unfold fits_len in Hf1, Hf2. apply N.ltb_lt in Hf1, Hf2.
    unfold P, tls_list, tls_vec in Ebl. rewrite <- !app_assoc in Ebl. rewrite read_be_app in Ebl by assumption. cbn [bind] in Ebl. rewrite take_app in Ebl.
    unfold Z in Ebl. rewrite read_be_app in Ebl.
    2:{ cbn [map concat] in Hf2. rewrite app_nil_r in Hf2. unfold opaque, tls_vec in Hf2. cbn [bufbytes] in Hf2. rewrite blen_app, be_blen, blen_zeros, <- (Hsz _ Hid) in Hf2. exact Hf2. }
    cbn [bind] in Ebl. rewrite blen_app, be_blen, blen_zeros, <- (Hsz _ Hid) in Ebl. change (N.of_nat 1) with 1 in Ebl. rewrite N.eqb_refl in Ebl.
    assert (bl = 2 + (1 + h_len h)) by congruence. lia. }
  clear Ebl. rewrite He in Epre. rewrite He' in Eenc.
  destruct (encode_tail _ _ _ _ _ _ _ _ (eq_trans LZ (eq_sym LB)) Epre Eenc) as (q & Hpre & Henc).
  assert (Tk : takeN (blen pre - bl) pre = q).
  { rewrite Hpre, blen_app, LZ, Hbl. apply takeN_app; lia. }
  assert (Dr : dropN (blen enc - bl) enc = B).
  { rewrite Henc, blen_app, LB, Hbl. apply dropN_app; lia. }
  rewrite Tk in Hd1. rewrite Dr.
  split; [|split; [rewrite He'; exact Eenc|split; [exact Hc1|split; [unfold hc_append; cbn [hc_data]; rewrite Hd1, Henc, app_assoc; reflexivity|exact Hk]]]].
  intros Hn. exists (ch_extensions c), e', age, b. split; [reflexivity|]. split; [rewrite He'; reflexivity|]. split; [exact Hn|].
  split. { apply (getExtension_rt (XClientPresharedKey ([(Some (pk_psk (cp_psk p)), age)], [Some b])) e' (ch_extensions c) []); [apply W|exact Ee''|exact Hn]. }
  split; [exact Hage|].
  exists (hc_data hc), q, B, b. split; [reflexivity|]. split; [exact Henc|]. split. { rewrite LB. unfold binders_size. cbn [fold_right]. rewrite Lvd. lia. }
  split; [reflexivity|]. rewrite Hb, Hd1, Hbk. reflexivity.
Qed.
Lemma binders_rel c p h hc now c2 enc k1 hc' : hash_ok h -> hc_hash hc = h -> encodeAndAddBinders c p h hc now = Ok (c2, enc, k1, hc') ->
  rel h k1 (Early (pk_secret (cp_psk p)), None) /\ hc_hash hc' = h.
Proof.
  intros Hh Hc H. unfold encodeAndAddBinders in H. bo H k1' Ek. bo H bk Ebk. apply bind_Ok in H. destruct H as ((ids & bs) & Ep & H). cbv beta iota in H.
  bo H e Ee. cbv zeta in H. bo H bl Ebl. bo H pre Epre. bo H u1 Eu1. bo H b Eb. bo H e' Ee'. bo H enc' Eenc. bo H u2 Eu2.
  assert (k1' = k1) by congruence. subst k1'. match type of H with Ok (_, _, _, ?x) = _ => assert (hc' = x) by congruence end. subst hc'. clear H.
  destruct (kdo_rel _ _ _ (DeriveEarly (pk_secret (cp_psk p))) _ Hh (rel_init h) Logic.I Ek) as (st' & o & E & Hk). cbn [spec_step] in E. injection E as <- <-.
  split; [exact Hk|exact Hc].
Qed.
