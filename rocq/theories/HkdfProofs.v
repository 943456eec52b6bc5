From Verif Require Import Base Codec CodecSpec Nonce Hkdf HkdfSpec.
From Verif Require Import Str.

Lemma blen_repeat {A} (x : A) n : blen (repeat x n) = N.of_nat n.
Proof. unfold blen. rewrite repeat_length. reflexivity. Qed.
Lemma blen_zeros n : blen (zeros n) = n.
Proof. unfold zeros. rewrite blen_repeat. lia. Qed.
Lemma takeN_0 {A} (l : list A) : takeN 0 l = [].
Proof. reflexivity. Qed.
Lemma dropN_0 {A} (l : list A) : dropN 0 l = l.
Proof. reflexivity. Qed.
Lemma poke_ok arr off src : off + blen src <= blen arr ->
  poke arr off src = Ok (takeN off arr ++ src ++ dropN (off + blen src) arr).
Proof. intros H. unfold poke. destruct (N.ltb_spec (blen arr) (off + blen src)); [lia|reflexivity]. Qed.
Lemma takeN_all {A} n (l : list A) : blen l <= n -> takeN n l = l.
Proof. intros H. unfold takeN. apply firstn_all2. unfold blen in H. lia. Qed.
Lemma dropN_all {A} n (l : list A) : blen l <= n -> dropN n l = [].
Proof. intros H. unfold dropN. apply skipn_all2. unfold blen in H. lia. Qed.
Lemma takeN_app_le {A} n (a b : list A) : n <= blen a -> takeN n (a ++ b) = takeN n a.
Proof.
  intros H. unfold takeN. rewrite firstn_app. replace (N.to_nat n - length a)%nat with 0%nat.
  - cbn. apply app_nil_r.
  - unfold blen in H. lia.
Qed.
Lemma takeN_app_ge {A} n (a b : list A) : blen a <= n -> takeN n (a ++ b) = a ++ takeN (n - blen a) b.
Proof.
  intros H. unfold takeN. rewrite firstn_app. f_equal.
  - apply firstn_all2. unfold blen in H. lia.
  - f_equal. unfold blen in *. lia.
Qed.
Lemma dropN_app_le {A} n (a b : list A) : n <= blen a -> dropN n (a ++ b) = dropN n a ++ b.
Proof.
  intros H. unfold dropN. rewrite skipn_app. replace (N.to_nat n - length a)%nat with 0%nat.
  - reflexivity.
  - unfold blen in H. lia.
Qed.
Lemma dropN_app_ge {A} n (a b : list A) : blen a <= n -> dropN n (a ++ b) = dropN (n - blen a) b.
Proof.
  intros H. unfold dropN. rewrite skipn_app.
  rewrite skipn_all2 by (unfold blen in H; lia). cbn. f_equal. unfold blen in *. lia.
Qed.
Lemma takeN_takeN {A} n m (l : list A) : takeN n (takeN m l) = takeN (N.min n m) l.
Proof. unfold takeN. rewrite firstn_firstn. f_equal. lia. Qed.
Lemma takeN_repeat {A} n m (x : A) : n <= N.of_nat m -> takeN n (repeat x m) = repeat x (N.to_nat n).
Proof.
  intros H. unfold takeN. replace m with (N.to_nat n + (m - N.to_nat n))%nat by lia.
  rewrite repeat_app, firstn_app, repeat_length, Nat.sub_diag. cbn. rewrite app_nil_r.
  apply firstn_all2. rewrite repeat_length. lia.
Qed.
Lemma dropN_repeat {A} n m (x : A) : dropN n (repeat x m) = repeat x (m - N.to_nat n).
Proof.
  unfold dropN. revert m. induction (N.to_nat n) as [|k IH]; intros m.
  - cbn. f_equal. lia.
  - destruct m as [|m]; [reflexivity|]. cbn [repeat skipn]. rewrite IH. f_equal.
Qed.
Lemma xor_repeat x k : xor_bytes (repeat x (length k)) k = map (bxor x) k.
Proof. induction k as [|y k IH]; [reflexivity|]. cbn. rewrite IH. reflexivity. Qed.
Lemma xor_map_len x k : blen (map (bxor x) k) = blen k.
Proof. unfold blen. rewrite map_length. reflexivity. Qed.

(** The state of finalKey after initialisation. *)
Lemma final_key h key j : hash_ok h -> blen j = 128 ->
  exists k0 k, poke j 0 (repeat x00 (N.to_nat (h_block h))) = Ok k0 /\
    (if h_block h <? blen key then poke k0 0 (h_fn h key) else poke k0 0 key) = Ok k /\
    takeN (h_block h) k = rfc2104_key (h_fn h) (h_block h) key.
Proof.
  intros [Hp Hle Hmax Hd _] Hj.
  set (B := h_block h) in *.
  assert (E0 : poke j 0 (repeat x00 (N.to_nat B)) = Ok (repeat x00 (N.to_nat B) ++ dropN B j)).
  { rewrite poke_ok by (rewrite blen_repeat; lia). cbn [takeN app].
    rewrite blen_repeat. rewrite takeN_0. cbn [app]. do 3 f_equal. lia. }
  set (kk := if B <? blen key then h_fn h key else key).
  assert (Hk : blen kk <= B).
  { unfold kk. destruct (N.ltb_spec B (blen key)); [rewrite Hd; lia|lia]. }
  assert (E1 : poke (repeat x00 (N.to_nat B) ++ dropN B j) 0 kk =
               Ok (kk ++ repeat x00 (N.to_nat B - length kk) ++ dropN B j)).
  { rewrite poke_ok.
    2:{ rewrite blen_app, blen_repeat, blen_dropN. lia. }
    rewrite takeN_0. cbn [app]. f_equal. f_equal.
    rewrite dropN_app_le by (rewrite blen_repeat; lia). f_equal.
    rewrite dropN_repeat. f_equal. unfold blen. lia. }
  exists (repeat x00 (N.to_nat B) ++ dropN B j), (kk ++ repeat x00 (N.to_nat B - length kk) ++ dropN B j).
  split; [exact E0|]. split.
  - unfold kk in *. destruct (B <? blen key); exact E1.
  - unfold rfc2104_key. fold kk. rewrite app_assoc. apply takeN_app.
    rewrite blen_app, blen_repeat. unfold blen in *. lia.
Qed.
Lemma rfc2104_key_len h key : hash_ok h -> blen (rfc2104_key (h_fn h) (h_block h) key) = h_block h.
Proof.
  intros [Hp Hle Hmax Hd _]. unfold rfc2104_key. rewrite blen_app, blen_repeat.
  destruct (N.ltb_spec (h_block h) (blen key)).
  - pose proof (Hd key) as E. unfold blen in *. lia.
  - unfold blen in *. lia.
Qed.

Lemma xor_step B x k j : B <= blen j -> blen (takeN B k) = B ->
  exists b, poke j 0 (repeat x (N.to_nat B)) = Ok b /\
    takeN B (xor_prefix B b k) = map (bxor x) (takeN B k) /\ blen (xor_prefix B b k) = blen j.
Proof.
  intros Hj Hk. rewrite poke_ok by (rewrite blen_repeat; lia).
  eexists; split; [reflexivity|]. rewrite takeN_0. cbn [app].
  unfold xor_prefix.
  rewrite (takeN_app (repeat x (N.to_nat B))) by (rewrite blen_repeat; lia).
  rewrite (dropN_app (repeat x (N.to_nat B))) by (rewrite blen_repeat; lia).
  assert (E : xor_bytes (repeat x (N.to_nat B)) (takeN B k) = map (bxor x) (takeN B k)).
  { replace (N.to_nat B) with (length (takeN B k)).
    - apply xor_repeat.
    - unfold blen in Hk. lia. }
  rewrite E. split.
  - apply takeN_app. rewrite xor_map_len, Hk. reflexivity.
  - rewrite blen_app, xor_map_len, Hk, blen_dropN, blen_repeat. lia.
Qed.

Lemma hmac_mem_ok h j1 j2 key text n : hash_ok h -> blen j1 = 128 -> blen j2 = 128 -> h_len h <= n ->
  hmac_mem h j1 j2 key text n = Ok (rfc2104 (h_fn h) (h_block h) key (concat text)).
Proof.
  intros Hh Hj1 Hj2 Hn. pose proof Hh as [Hp Hle Hmax Hd _].
  unfold hmac_mem.
  destruct (N.ltb_spec n (h_len h)); [lia|].
  destruct (N.eqb_spec (h_block h) 0); [lia|].
  destruct (final_key h key j1 Hh Hj1) as (k0 & k & E0 & E1 & Ek).
  rewrite E0. cbn [bind]. rewrite E1. cbn [bind].
  pose proof (rfc2104_key_len h key Hh) as HKl. rewrite <- Ek in HKl.
  destruct (xor_step (h_block h) HMAC_IPAD k j2 ltac:(lia) HKl) as (b1 & -> & Ei & Li). cbn [bind].
  destruct (xor_step (h_block h) HMAC_OPAD k (xor_prefix (h_block h) b1 k) ltac:(lia) HKl) as (b2 & -> & Eo & Lo).
  cbn [bind]. rewrite Ei, Eo.
  rewrite poke_ok by (rewrite Hd; lia). cbn [bind]. f_equal.
  unfold rfc2104. rewrite <- Ek. unfold HMAC_OPAD, HMAC_IPAD. f_equal. f_equal.
  rewrite takeN_0. cbn [app]. apply takeN_app. symmetry. apply Hd.
Qed.
Lemma hmac_ok h key text n : hash_ok h -> h_len h <= n ->
  hmac h key text n = Ok (HMAC h key (concat text)).
Proof. intros. unfold hmac. rewrite hmac_mem_ok; auto; apply blen_zeros. Qed.
Lemma HMAC_len h key text : hash_ok h -> blen (HMAC h key text) = h_len h.
Proof. intros Hh. unfold HMAC, rfc2104. apply (ho_digest h Hh). Qed.

Lemma hkdf_extract_ok h salt ikm : hash_ok h -> hkdf_extract h salt ikm = Ok (Extract h salt ikm).
Proof.
  intros Hh. unfold hkdf_extract, Extract. rewrite hmac_ok by (auto; lia). cbn [concat].
  rewrite app_nil_r. reflexivity.
Qed.
Lemma Extract_len h s i : hash_ok h -> blen (Extract h s i) = h_len h.
Proof. intros. apply HMAC_len; assumption. Qed.

Lemma T_S h prk info j : T h prk info (S j) = HMAC h prk (T h prk info j ++ info ++ [n2b (N.of_nat (S j))]).
Proof. reflexivity. Qed.
Lemma T_len h prk info i : hash_ok h -> blen (T h prk info (S i)) = h_len h.
Proof. intros. rewrite T_S. apply HMAC_len; assumption. Qed.

Lemma concat_T_len h prk info n : hash_ok h ->
  blen (concat (map (T h prk info) (seq 1 n))) = N.of_nat n * h_len h.
Proof.
  intros Hh. induction n as [|n IH]; [reflexivity|].
  rewrite seq_S, map_app, concat_app, blen_app, IH. cbn [map concat].
  rewrite app_nil_r. change (1 + n)%nat with (S n). rewrite T_len by assumption. lia.
Qed.

Lemma expand_loop_ok h prk info : hash_ok h -> forall fuel r t b,
  (1 <= r)%nat -> blen t = h_len h ->
  expand_loop h prk (blen info) fuel (N.of_nat r + 1) (t ++ info ++ [b])
    (concat (map (T h prk info) (seq 1 r))) =
  Ok (concat (map (T h prk info) (seq 1 (r + fuel)))).
Proof.
  intros Hh. induction fuel as [|f IH]; intros r t b Hr Ht.
  - cbn [expand_loop]. rewrite Nat.add_0_r. reflexivity.
  - cbn [expand_loop].
    destruct r as [|r]; [lia|].
    assert (Et : takeN (h_len h) (dropN ((N.of_nat (S r) + 1 - 2) * h_len h)
        (concat (map (T h prk info) (seq 1 (S r))))) = T h prk info (S r)).
    { rewrite seq_S, map_app, concat_app. rewrite dropN_app.
      2:{ rewrite concat_T_len by assumption. lia. }
      cbn [map concat]. rewrite app_nil_r. change (1 + r)%nat with (S r).
      apply takeN_all. rewrite T_len by assumption. lia. }
    rewrite Et.
    rewrite poke_ok.
    2:{ rewrite T_len, !blen_app by assumption. lia. }
    rewrite T_len by assumption. rewrite takeN_0. cbn [app bind].
    rewrite dropN_app by lia.
    rewrite poke_ok.
    2:{ rewrite !blen_app, T_len by assumption. rewrite ?blen_cons, ?(@blen_nil byte). lia. }
    cbn [bind].
    rewrite (app_assoc (T h prk info (S r)) info [b]).
    rewrite takeN_app by (rewrite blen_app, T_len by assumption; reflexivity).
    rewrite dropN_all.
    2:{ rewrite !blen_app, T_len, !blen_cons by assumption. lia. }
    rewrite app_nil_r.
    rewrite hmac_ok by (auto; lia). cbn [bind concat]. rewrite app_nil_r.
    replace ((T h prk info (S r) ++ info) ++ [n2b (N.of_nat (S r) + 1)])
      with (T h prk info (S r) ++ info ++ [n2b (N.of_nat (S (S r)))]).
    2:{ rewrite app_assoc. do 3 f_equal. lia. }
    rewrite <- T_S.
    replace (concat (map (T h prk info) (seq 1 (S r))) ++ T h prk info (S (S r)))
      with (concat (map (T h prk info) (seq 1 (S (S r))))).
    2:{ rewrite (seq_S (S r) 1), map_app, concat_app. cbn [map concat]. rewrite app_nil_r. reflexivity. }
    replace (N.of_nat (S r) + 1 + 1) with (N.of_nat (S (S r)) + 1) by lia.
    rewrite IH; [|lia|apply T_len; assumption].
    do 4 f_equal. lia.
Qed.

Lemma hkdf_expand_ok h prk info L : hash_ok h -> blen prk = h_len h -> L <= 255 * h_len h ->
  hkdf_expand h prk info L = Ok (Expand h prk (concat info) L).
Proof.
  intros Hh Hp HL. unfold hkdf_expand. rewrite Hp, N.eqb_refl. cbn [negb].
  destruct (N.ltb_spec (255 * h_len h) L); [lia|].
  pose proof (ho_pos h Hh) as Hpos.
  destruct (N.eqb_spec L 0) as [->|Hn0].
  { unfold Expand. rewrite takeN_0. reflexivity. }
  set (i := concat info).
  rewrite poke_ok by (rewrite blen_zeros; lia).
  cbn [bind]. replace (takeN (h_len h) (zeros (h_len h + blen i + 1))) with (zeros (h_len h))
    by (unfold zeros; rewrite takeN_repeat by lia; reflexivity).
  assert (Ed : dropN (h_len h + blen i) (zeros (h_len h + blen i + 1)) = [x00]).
  { unfold zeros. rewrite dropN_repeat.
    replace (N.to_nat (h_len h + blen i + 1) - N.to_nat (h_len h + blen i))%nat with 1%nat by lia. reflexivity. }
  rewrite Ed.
  rewrite poke_ok by (rewrite !blen_app, blen_zeros, !blen_cons, !(@blen_nil byte); lia).
  cbn [bind]. rewrite (app_assoc (zeros (h_len h)) i).
  rewrite (takeN_app (zeros (h_len h) ++ i)) by (rewrite blen_app, blen_zeros; reflexivity).
  rewrite (dropN_all (h_len h + blen i + blen [n2b 1]))
    by (rewrite !blen_app, blen_zeros, !blen_cons, !(@blen_nil byte); lia).
  rewrite app_nil_r.
  rewrite <- (app_assoc (zeros (h_len h)) i).
  rewrite dropN_app by (rewrite blen_zeros; reflexivity).
  rewrite hmac_ok by (auto; lia). cbn [bind concat]. rewrite app_nil_r.
  set (N0 := (L + h_len h - 1) / h_len h).
  assert (HN : 1 <= N0 /\ N0 * h_len h - L < h_len h /\ L <= N0 * h_len h).
  { unfold N0. pose proof (N.div_mod (L + h_len h - 1) (h_len h) ltac:(lia)).
    pose proof (N.mod_lt (L + h_len h - 1) (h_len h) ltac:(lia)).
    assert (1 <= (L + h_len h - 1) / h_len h) by (apply N.div_le_lower_bound; lia).
    nia. }
  pose proof (expand_loop_ok h prk i Hh (N.to_nat (N0 - 1)) 1%nat (zeros (h_len h)) (n2b 1) ltac:(lia) (blen_zeros _)) as E.
  assert (ET : concat (map (T h prk i) (seq 1 1)) = HMAC h prk (i ++ [n2b 1])).
  { cbn [seq map concat]. rewrite T_S. cbn [T app]. rewrite app_nil_r. reflexivity. }
  rewrite ET in E. change (N.of_nat 1 + 1) with 2 in E. rewrite E. cbn [bind].
  replace (1 + N.to_nat (N0 - 1))%nat with (N.to_nat N0) by lia.
  unfold Expand. fold N0. f_equal. f_equal. rewrite concat_T_len by assumption.
  rewrite N2Nat.id. lia.
Qed.

Lemma ceil_le h L : hash_ok h -> L <= N.of_nat (N.to_nat ((L + h_len h - 1) / h_len h)) * h_len h.
Proof.
  intros Hh. pose proof (ho_pos h Hh). rewrite N2Nat.id.
  pose proof (N.div_mod (L + h_len h - 1) (h_len h) ltac:(lia)).
  pose proof (N.mod_lt (L + h_len h - 1) (h_len h) ltac:(lia)). nia.
Qed.
Lemma Expand_len h prk info L : hash_ok h -> blen (Expand h prk info L) = L.
Proof.
  intros Hh. unfold Expand. rewrite blen_takeN, concat_T_len by assumption.
  pose proof (ceil_le h L Hh). lia.
Qed.
Lemma Expand_prefix h prk info L1 L2 : hash_ok h -> L1 <= L2 ->
  takeN L1 (Expand h prk info L2) = Expand h prk info L1.
Proof.
  intros Hh HL. unfold Expand. rewrite takeN_takeN. replace (N.min L1 L2) with L1 by lia.
  set (n1 := N.to_nat ((L1 + h_len h - 1) / h_len h)). set (n2 := N.to_nat ((L2 + h_len h - 1) / h_len h)).
  pose proof (ho_pos h Hh).
  assert ((n1 <= n2)%nat).
  { unfold n1, n2. assert ((L1 + h_len h - 1) / h_len h <= (L2 + h_len h - 1) / h_len h) by (apply N.div_le_mono; lia). lia. }
  replace n2 with (n1 + (n2 - n1))%nat by lia. rewrite seq_app, map_app, concat_app.
  apply takeN_app_le. rewrite concat_T_len by assumption. apply ceil_le; assumption.
Qed.

(** ** HkdfLabel *)
Lemma encodeHkdfLabel_ok prefix L label hv :
  blen prefix + blen label <= 255 -> blen (match hv with Some c => c | None => [] end) <= 255 ->
  encodeHkdfLabel prefix L label hv =
  Ok (be 2 L ++ be 1 (blen prefix + blen label) ++ prefix ++ label ++
      be 1 (blen (match hv with Some c => c | None => [] end)) ++ (match hv with Some c => c | None => [] end)).
Proof.
  intros H1 H2. unfold encodeHkdfLabel, write_u, write_buf, write_len.
  rewrite blen_app. change (lw_max W8) with 256.
  destruct (N.ltb_spec (blen prefix + blen label) 256); [|lia]. cbn [bind].
  destruct hv as [c|]; cbn [bind] in *.
  - destruct (N.ltb_spec (blen c) 256); [|lia]. cbn [bind]. change (lw_nat W8) with 1%nat.
    rewrite <- !app_assoc. reflexivity.
  - change (0 <? 256) with true. change (lw_nat W8) with 1%nat. cbn [bind].
    rewrite <- !app_assoc, app_nil_r. reflexivity.
Qed.
Lemma encodeHkdfLabel_big prefix L label hv :
  255 < blen prefix + blen label \/ 255 < blen (match hv with Some c => c | None => [] end) ->
  encodeHkdfLabel prefix L label hv = Err EThrow.
Proof.
  intros H. unfold encodeHkdfLabel, write_u, write_buf, write_len.
  rewrite blen_app. change (lw_max W8) with 256. cbn [bind].
  destruct (N.ltb_spec (blen prefix + blen label) 256); cbn [bind]; [|reflexivity].
  destruct hv as [c|]; cbn [bind].
  - destruct (N.ltb_spec (blen c) 256); [|reflexivity]. lia.
  - rewrite (@blen_nil byte) in H. lia.
Qed.
Lemma expandLabel_ok h secret label hv L : hash_ok h -> blen secret = h_len h ->
  blen label <= 249 -> blen (match hv with Some c => c | None => [] end) <= 255 ->
  L < 65536 -> L <= 255 * h_len h ->
  expandLabel h secret label hv L =
  Ok (ExpandLabel h secret label (match hv with Some c => c | None => [] end) L).
Proof.
  intros Hh Hs Hl Hc H16 HL. unfold expandLabel. rewrite N.mod_small by assumption.
  rewrite encodeHkdfLabel_ok.
  2:{ change (blen kHkdfLabelPrefix) with 6. lia. }
  2:{ assumption. }
  cbn [bind]. rewrite hkdf_expand_ok by assumption. unfold ExpandLabel, HkdfLabel.
  change (blen kHkdfLabelPrefix) with 6. cbn [concat]. rewrite app_nil_r. reflexivity.
Qed.
Lemma deriveSecret_ok h secret label th L : hash_ok h -> blen secret = h_len h -> blen th = h_len h ->
  blen label <= 249 -> 0 < L -> L < 65536 -> L <= 255 * h_len h ->
  deriveSecret h secret label th L = Ok (ExpandLabel h secret label th L).
Proof.
  intros Hh Hs Ht Hl H0 H16 HL. unfold deriveSecret. rewrite N.mod_small by assumption.
  rewrite Hs, Ht, N.eqb_refl. cbn [negb].
  destruct (N.eqb_spec L 0); [lia|].
  rewrite expandLabel_ok; auto.
  2:{ pose proof (ho_le h Hh). pose proof (ho_max h Hh). lia. }
  cbn [bind]. f_equal. apply takeN_app. unfold ExpandLabel. rewrite Expand_len by assumption. reflexivity.
Qed.
