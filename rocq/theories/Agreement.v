(** * When two Finished messages can be equal.
    A Finished message is the end of a chain of hash computations that starts from the transcript, the PSK and the key-exchange secret.
    If two such chains end with the same value and no two different strings hashed along them collide, they started from the same
    values. *)
From Verif Require Import Base Nonce Str Hkdf HkdfSpec HkdfProofs KeySched KeySchedSpec KeySchedProofs ServerSpec ServerFlight.
Open Scope N_scope.

(** ** Specification *)
(** The strings hashed by HMAC (RFC 2104). *)
Definition hmac_hashed (h : hashalg) (K x : bytes) : list bytes :=
  let K' := rfc2104_key (h_fn h) (h_block h) K in
  let inner := map (bxor x36) K' ++ x in [inner; map (bxor x5c) K' ++ h_fn h inner].
(** The strings hashed by Derive-Secret and HKDF-Expand-Label with output length Hash.length (one block). *)
Definition label_hashed (h : hashalg) (secret label context : bytes) : list bytes := hmac_hashed h secret (HkdfLabel (h_len h) label context ++ [x01]).
(** All the strings hashed to compute the verify_data of a Finished message (RFC 8446, 4.4.4 and 7.1): [label] is the label of the
    sender's handshake traffic secret, [Tsh] the transcript through the ServerHello, [T] that covered by the Finished message. *)
Definition finished_hashed (h : hashalg) (label psk dh Tsh T : bytes) : list bytes :=
  let derived := DeriveSecret h (EarlySecret h psk) (str "derived") (h_fn h []) in
  let secret := DeriveSecret h (HandshakeSecret h psk dh) label (h_fn h Tsh) in
  [Tsh; T] ++
  hmac_hashed h (Zero h) psk ++ label_hashed h (EarlySecret h psk) (str "derived") (h_fn h []) ++
  hmac_hashed h derived dh ++ label_hashed h (HandshakeSecret h psk dh) label (h_fn h Tsh) ++
  label_hashed h secret (str "finished") [] ++ hmac_hashed h (finished_key h secret) (h_fn h T).
(** The strings of the list do not collide. *)
Definition no_collision (h : hashalg) (l : list bytes) : Prop := forall x y, In x l -> In y l -> h_fn h x = h_fn h y -> x = y.

(** ** Proof *)
Lemma bxor_map_inj k a b : map (bxor k) a = map (bxor k) b -> a = b.
Proof.
  revert b. induction a as [|x a IH]; intros [|y b] E; try discriminate; [reflexivity|]. cbn [map] in E.
  assert (E1 : bxor k x = bxor k y) by congruence. assert (E2 : map (bxor k) a = map (bxor k) b) by congruence.
  rewrite (IH _ E2). f_equal. apply (f_equal (bxor k)) in E1. rewrite !bxor_inv in E1. exact E1.
Qed.
Section S.
  Variable h : hashalg.
  Hypothesis Hh : hash_ok h.
  Lemma key_inj K K2 : blen K = h_len h -> blen K2 = h_len h -> rfc2104_key (h_fn h) (h_block h) K = rfc2104_key (h_fn h) (h_block h) K2 -> K = K2.
  Proof.
    intros E1 E2. unfold rfc2104_key. pose proof (ho_le _ Hh) as Hle. rewrite E1, E2. destruct (N.ltb_spec (h_block h) (h_len h)); [lia|].
    intros E. apply app_inj_len in E; [apply E|]. unfold blen in *. lia.
  Qed.
  Variable S0 : list bytes.
  Hypothesis NC : no_collision h S0.
  Lemma hmac_inj K x K2 x2 : blen K = h_len h -> blen K2 = h_len h -> incl (hmac_hashed h K x) S0 -> incl (hmac_hashed h K2 x2) S0 ->
    HMAC h K x = HMAC h K2 x2 -> K = K2 /\ x = x2.
  Proof.
    intros L1 L2 I1 I2 E. unfold HMAC, rfc2104 in E. cbv zeta in E. unfold hmac_hashed in I1, I2. cbv zeta in I1, I2.
    assert (A : forall K, length (rfc2104_key (h_fn h) (h_block h) K) = N.to_nat (h_block h)).
    { intros K0. pose proof (rfc2104_key_len h K0 Hh) as X. unfold blen in X. lia. }
    apply NC in E; [|apply I1; right; left; reflexivity|apply I2; right; left; reflexivity].
    apply app_inj_len in E; [|unfold blen; rewrite !map_length, !A; reflexivity]. destruct E as (E1 & E2). apply bxor_map_inj in E1.
    apply NC in E2; [|apply I1; left; reflexivity|apply I2; left; reflexivity].
    apply app_inj_len in E2; [|unfold blen; rewrite !map_length, !A; reflexivity]. split; [apply key_inj; assumption|apply E2].
  Qed.
  Lemma label_one s lb c : ExpandLabel h s lb c (h_len h) = HMAC h s (HkdfLabel (h_len h) lb c ++ [x01]).
  Proof.
    unfold ExpandLabel, Expand. pose proof (ho_pos _ Hh).
    assert ((h_len h + h_len h - 1) / h_len h = 1) as -> by (symmetry; apply (N.div_unique _ _ 1 (h_len h - 1)); lia).
    change (N.to_nat 1) with 1%nat. cbn [seq map concat]. rewrite app_nil_r.
    rewrite takeN_all; [reflexivity|]. rewrite T_len by assumption. lia.
  Qed.
  Lemma label_inj s lb c s2 lb2 c2 : blen s = h_len h -> blen s2 = h_len h -> incl (label_hashed h s lb c) S0 -> incl (label_hashed h s2 lb2 c2) S0 ->
    ExpandLabel h s lb c (h_len h) = ExpandLabel h s2 lb2 c2 (h_len h) -> s = s2 /\ HkdfLabel (h_len h) lb c = HkdfLabel (h_len h) lb2 c2.
  Proof.
    intros L1 L2 I1 I2 E. rewrite !label_one in E. apply hmac_inj in E; try assumption. destruct E as (-> & E). split; [reflexivity|].
    apply app_inj_tail in E. apply E.
  Qed.
  Lemma context_inj L lb c c2 : blen c = blen c2 -> HkdfLabel L lb c = HkdfLabel L lb c2 -> c = c2.
  Proof. unfold HkdfLabel. intros E H. rewrite E in H. repeat apply app_inv_head in H. exact H. Qed.
  Lemma extract_len s x : blen (Extract h s x) = h_len h. Proof. apply Extract_len, Hh. Qed.
  Lemma zero_len : blen (Zero h) = h_len h. Proof. unfold Zero. rewrite blen_repeat. lia. Qed.
  Lemma extract_hmac s x : blen s = h_len h -> Extract h s x = HMAC h s x.
  Proof. intros E. unfold Extract. destruct s; [|reflexivity]. pose proof (ho_pos _ Hh). unfold blen in E. cbn [length] in E. lia. Qed.
End S.
Theorem finished_binds h label psk dh Tsh T psk2 dh2 Tsh2 T2 : hash_ok h ->
  no_collision h (finished_hashed h label psk dh Tsh T ++ finished_hashed h label psk2 dh2 Tsh2 T2) ->
  verify_data h (DeriveSecret h (HandshakeSecret h psk dh) label (h_fn h Tsh)) T =
  verify_data h (DeriveSecret h (HandshakeSecret h psk2 dh2) label (h_fn h Tsh2)) T2 ->
  T = T2 /\ Tsh = Tsh2 /\ psk = psk2 /\ dh = dh2.
Proof.
  intros Hh NC E. set (S0 := finished_hashed h label psk dh Tsh T ++ finished_hashed h label psk2 dh2 Tsh2 T2) in *.
  assert (I1 : incl (finished_hashed h label psk dh Tsh T) S0) by (intros x Hx; apply in_or_app; left; exact Hx).
  assert (I2 : incl (finished_hashed h label psk2 dh2 Tsh2 T2) S0) by (intros x Hx; apply in_or_app; right; exact Hx).
  clearbody S0. unfold finished_hashed in I1, I2. cbv zeta in I1, I2.
  apply incl_app_inv in I1. destruct I1 as (A0 & I1). apply incl_app_inv in I1. destruct I1 as (A1 & I1). apply incl_app_inv in I1. destruct I1 as (A2 & I1).
  apply incl_app_inv in I1. destruct I1 as (A3 & I1). apply incl_app_inv in I1. destruct I1 as (A4 & I1). apply incl_app_inv in I1. destruct I1 as (A5 & A6).
  apply incl_app_inv in I2. destruct I2 as (B0 & I2). apply incl_app_inv in I2. destruct I2 as (B1 & I2). apply incl_app_inv in I2. destruct I2 as (B2 & I2).
  apply incl_app_inv in I2. destruct I2 as (B3 & I2). apply incl_app_inv in I2. destruct I2 as (B4 & I2). apply incl_app_inv in I2. destruct I2 as (B5 & B6).
  pose proof (DeriveSecret_len h) as DL. unfold verify_data in E.
  pose proof (extract_len h Hh) as XL.
  apply (hmac_inj h Hh S0 NC) in E; try assumption; try (unfold finished_key; apply ExpandLabel_len; assumption).
  destruct E as (E & ET). apply NC in ET; [|apply A0; right; left; reflexivity|apply B0; right; left; reflexivity]. split; [exact ET|].
  unfold finished_key in E. apply (label_inj h Hh S0 NC) in E; try assumption; try (apply ExpandLabel_len; assumption).
  destruct E as (E & _). unfold DeriveSecret in E at 1 2. unfold HandshakeSecret in E. apply (label_inj h Hh S0 NC) in E; try assumption; try apply XL.
  destruct E as (E & Ec). apply context_inj in Ec; [|rewrite !(ho_digest _ Hh); reflexivity].
  apply NC in Ec; [|apply A0; left; reflexivity|apply B0; left; reflexivity]. split; [exact Ec|].
  rewrite !(extract_hmac h Hh) in E by (apply ExpandLabel_len; assumption).
  apply (hmac_inj h Hh S0 NC) in E; try assumption; try (apply ExpandLabel_len; assumption). destruct E as (E & Ed).
  split; [|exact Ed]. unfold DeriveSecret in E. apply (label_inj h Hh S0 NC) in E; try assumption; try apply XL.
  destruct E as (E & _). unfold EarlySecret in E. rewrite !(extract_hmac h Hh) in E by apply zero_len.
  apply (hmac_inj h Hh S0 NC) in E; try assumption; try apply zero_len. apply E.
Qed.
