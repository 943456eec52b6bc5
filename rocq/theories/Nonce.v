(** * Per-record nonce (crypto/aead/CryptoUtil.h:19-32) and XOR (crypto/Utils) *)
From Verif Require Import Base.

(** xor of two bytes *)
Definition bxor (a b : byte) : byte := n2b (N.lxor (b2n a) (b2n b)).
(** XOR(first, second) (crypto/aead/IOBufUtil.h / util): CHECK equal sizes, second ^= first. *)
Fixpoint xor_bytes (a b : bytes) : bytes :=
  match a, b with
  | x :: a', y :: b' => bxor x y :: xor_bytes a' b'
  | _, _ => []
  end.
Definition xor_checked (a b : bytes) : res bytes :=
  if blen a =? blen b then Ok (xor_bytes a b) else Err ECheck.

(** createIV: the 64-bit big-endian sequence number, left-padded with zeros to
    ivLength, xored with the traffic IV.  ivLength < 8 makes prefixLength underflow. *)
Definition createIV (seq : N) (ivLength : N) (iv : bytes) : res bytes :=
  if ivLength <? 8 then Err EUB
  else xor_checked iv (repeat x00 (N.to_nat (ivLength - 8)) ++ be 8 seq).

Lemma lxor_bound a b : a < 256 -> b < 256 -> N.lxor a b < 256.
Proof.
  intros Ha Hb. destruct (N.eq_dec (N.lxor a b) 0) as [->|Hn]; [lia|].
  change 256 with (2 ^ 8). apply N.log2_lt_pow2; [lia|].
  pose proof (N.log2_lxor a b).
  assert (Hl : forall x, x < 256 -> N.log2 x < 8).
  { intros x Hx. destruct (N.eq_dec x 0) as [->|]; [reflexivity|].
    apply N.log2_lt_pow2; [lia|exact Hx]. }
  pose proof (Hl _ Ha). pose proof (Hl _ Hb). lia.
Qed.
Lemma b2n_bxor a b : b2n (bxor a b) = N.lxor (b2n a) (b2n b).
Proof. unfold bxor. apply b2n_n2b, lxor_bound; apply b2n_bound. Qed.
Lemma bxor_inv a b : bxor a (bxor a b) = b.
Proof.
  apply b2n_inj. rewrite !b2n_bxor, <- N.lxor_assoc, N.lxor_nilpotent, N.lxor_0_l. reflexivity.
Qed.
Lemma xor_bytes_len a b : blen a = blen b -> blen (xor_bytes a b) = blen b.
Proof.
  revert b; induction a as [|x a IH]; intros [|y b]; cbn [xor_bytes]; rewrite ?blen_cons, ?(@blen_nil byte);
    intros H; try lia.
  rewrite IH; lia.
Qed.
Lemma xor_bytes_inv a b : blen a = blen b -> xor_bytes a (xor_bytes a b) = b.
Proof.
  revert b; induction a as [|x a IH]; intros [|y b]; cbn [xor_bytes]; rewrite ?blen_cons, ?(@blen_nil byte);
    intros H; try reflexivity; try lia.
  rewrite bxor_inv, IH by lia. reflexivity.
Qed.
Lemma seqpad_len k n : blen (repeat x00 k ++ be 8 n) = N.of_nat k + 8.
Proof. rewrite blen_app, be_blen. unfold blen. rewrite repeat_length. lia. Qed.
Lemma createIV_inj s1 s2 l iv n1 n2 : s1 < 2 ^ 64 -> s2 < 2 ^ 64 ->
  createIV s1 l iv = Ok n1 -> createIV s2 l iv = Ok n2 -> n1 = n2 -> s1 = s2.
Proof.
  intros H1 H2. unfold createIV, xor_checked. destruct (l <? 8); [discriminate|].
  rewrite !seqpad_len.
  destruct (N.eqb_spec (blen iv) (N.of_nat (N.to_nat (l - 8)) + 8)); [|discriminate].
  intros E1 E2 E. assert (E3 : xor_bytes iv (repeat x00 (N.to_nat (l - 8)) ++ be 8 s1) =
     xor_bytes iv (repeat x00 (N.to_nat (l - 8)) ++ be 8 s2)) by congruence.
  apply (f_equal (xor_bytes iv)) in E3.
  rewrite !xor_bytes_inv in E3 by (rewrite seqpad_len; assumption).
  apply app_inv_head in E3. apply be_inj in E3; assumption.
Qed.
Lemma createIV_len s l iv n : createIV s l iv = Ok n -> blen n = l.
Proof.
  unfold createIV, xor_checked. destruct (N.ltb_spec l 8); [discriminate|].
  rewrite seqpad_len. destruct (N.eqb_spec (blen iv) (N.of_nat (N.to_nat (l - 8)) + 8)) as [E|]; [|discriminate].
  intros E0.
  assert (n = xor_bytes iv (repeat x00 (N.to_nat (l - 8)) ++ be 8 s)) as -> by congruence.
  rewrite xor_bytes_len; rewrite seqpad_len; lia.
Qed.
