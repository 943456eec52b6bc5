(** * Base: bytes, fixed width integers, results.

    Conventions used by every model file.  Nothing here models a specific
    fizz function except where a comment says so. *)
From Coq Require Export List NArith ZArith Lia Bool.
From Coq Require Export Init.Byte.
From Coq Require Import Strings.Byte.
From Coq Require Export ZifyBool ZifyNat ZifyN.
Export ListNotations.
Open Scope N_scope.

Ltac Zify.zify_post_hook ::= Z.div_mod_to_equations.

Arguments N.add : simpl never.
Arguments N.mul : simpl never.
Arguments N.sub : simpl never.
Arguments N.pow : simpl never.
Arguments N.div : simpl never.
Arguments N.modulo : simpl never.
Arguments N.of_nat : simpl never.
Arguments N.to_nat : simpl never.
Arguments N.ltb : simpl never.
Arguments N.leb : simpl never.
Arguments N.eqb : simpl never.

Notation bytes := (list byte).

(** A possibly-null [std::unique_ptr<folly::IOBuf>] (fizz [Buf],
    record/Types.h:28): [None] is nullptr, [Some b] an IOBuf chain whose data
    is [b] (the chaining is abstracted away). *)
Notation buf := (option (list byte)).

(** How a fizz call can end other than normally.
    - [EStatus a]: it returned [Status::Fail] through [err.error(msg, alert)]
      (util/Status.h, util/Error.h); [a] is the alert description, if any.
    - [EThrow]: a C++ exception propagates (folly::io::Cursor underflow,
      folly::to range error, std::runtime_error, ...).
    - [ECheck]: a glog CHECK / folly assertion aborts the process.
    - [EUB]: undefined behaviour (null dereference, out-of-bounds access, % 0).
    - [EFuel]: the model's own recursion budget ran out (never happens: each
      property theorem excludes it). *)
Inductive err : Type :=
| EStatus (a : option N)
| EThrow
| ECheck
| EUB
| EFuel.

Inductive res (A : Type) : Type :=
| Ok (a : A)
| Err (e : err).
Arguments Ok {A} a.
Arguments Err {A} e.

Definition bind {A B} (m : res A) (f : A -> res B) : res B :=
  match m with Ok a => f a | Err e => Err e end.

Notation "x <- m ;; k" := (bind m (fun x => k))
  (at level 61, m at next level, right associativity).
Notation "' p <- m ;; k" := (bind m (fun x => match x with p => k end))
  (at level 61, p pattern, m at next level, right associativity).

Definition fail {A} : res A := Err (EStatus None).
Definition failA {A} (alert : N) : res A := Err (EStatus (Some alert)).

Definition is_ok {A} (r : res A) : bool :=
  match r with Ok _ => true | Err _ => false end.

Lemma bind_Ok {A B} (m : res A) (f : A -> res B) b :
  bind m f = Ok b -> exists a, m = Ok a /\ f a = Ok b.
Proof. destruct m as [a|e]; cbn; [eauto|discriminate]. Qed.

Lemma bind_Err {A B} (m : res A) (f : A -> res B) e :
  bind m f = Err e -> m = Err e \/ exists a, m = Ok a /\ f a = Err e.
Proof. destruct m as [a|e']; cbn; [right; eauto|left; congruence]. Qed.

(** Inverts every [bind _ _ = Ok _] hypothesis. *)
Ltac inv_bind :=
  repeat match goal with
  | H : bind _ _ = Ok _ |- _ =>
      let a := fresh "v" in let H1 := fresh "E" in
      apply bind_Ok in H; destruct H as [a [H1 H]];
      try match type of a with
          | (_ * _)%type => destruct a
          end;
      try match goal with | x : (_ * _)%type |- _ => destruct x end;
      cbv beta iota in H
  | H : Ok _ = Ok _ |- _ => injection H; clear H; intros; subst
  | H : Err _ = Ok _ |- _ => discriminate H
  | H : fail = Ok _ |- _ => discriminate H
  | H : failA _ = Ok _ |- _ => discriminate H
  end.

(** ** Bytes and numbers *)

Definition b2n (b : byte) : N := Byte.to_N b.
Definition n2b (n : N) : byte :=
  match Byte.of_N (n mod 256) with Some b => b | None => x00 end.

Lemma b2n_bound b : b2n b < 256.
Proof. unfold b2n. pose proof (Byte.to_N_bounded b). lia. Qed.

Lemma n2b_b2n b : n2b (b2n b) = b.
Proof.
  unfold n2b. pose proof (b2n_bound b).
  rewrite N.mod_small by assumption.
  unfold b2n. rewrite Byte.of_to_N. reflexivity.
Qed.

Lemma b2n_n2b_mod n : b2n (n2b n) = n mod 256.
Proof.
  unfold n2b. destruct (Byte.of_N (n mod 256)) eqn:E.
  - apply Byte.to_of_N in E. exact E.
  - apply Byte.of_N_None_iff in E. lia.
Qed.

Lemma b2n_n2b n : n < 256 -> b2n (n2b n) = n.
Proof. intros. rewrite b2n_n2b_mod. apply N.mod_small; assumption. Qed.

Lemma b2n_inj a b : b2n a = b2n b -> a = b.
Proof. intros H. rewrite <- (n2b_b2n a), <- (n2b_b2n b), H. reflexivity. Qed.

Definition byte_eqb (a b : byte) : bool := b2n a =? b2n b.
Lemma byte_eqb_eq a b : byte_eqb a b = true <-> a = b.
Proof.
  unfold byte_eqb. rewrite N.eqb_eq. split; [apply b2n_inj|congruence].
Qed.

Fixpoint bytes_eqb (a b : bytes) : bool :=
  match a, b with
  | [], [] => true
  | x :: a', y :: b' => byte_eqb x y && bytes_eqb a' b'
  | _, _ => false
  end.
Lemma bytes_eqb_eq a b : bytes_eqb a b = true <-> a = b.
Proof.
  revert b; induction a as [|x a IH]; intros [|y b]; cbn; split; intros H;
    try discriminate; auto.
  - apply andb_true_iff in H. destruct H as [H1 H2].
    apply byte_eqb_eq in H1. apply IH in H2. congruence.
  - injection H as -> ->. apply andb_true_iff. split.
    + apply byte_eqb_eq; reflexivity.
    + apply IH; reflexivity.
Qed.
Lemma bytes_eqb_refl a : bytes_eqb a a = true.
Proof. apply bytes_eqb_eq; reflexivity. Qed.
Lemma bytes_eqb_neq a b : bytes_eqb a b = false <-> a <> b.
Proof.
  split.
  - intros H E. subst. rewrite bytes_eqb_refl in H. discriminate.
  - intros H. destruct (bytes_eqb a b) eqn:E; [|reflexivity].
    apply bytes_eqb_eq in E. contradiction.
Qed.

Definition byte_eq_dec (a b : byte) : {a = b} + {a <> b}.
Proof.
  destruct (byte_eqb a b) eqn:E.
  - left. apply byte_eqb_eq. exact E.
  - right. intros H. apply byte_eqb_eq in H. congruence.
Defined.

(** Length of a buffer as a number. *)
Definition blen {A} (l : list A) : N := N.of_nat (length l).
Lemma blen_nil {A} : blen (@nil A) = 0.
Proof. reflexivity. Qed.
Lemma blen_cons {A} (x : A) l : blen (x :: l) = 1 + blen l.
Proof. unfold blen. cbn [length]. lia. Qed.
Lemma blen_app {A} (a b : list A) : blen (a ++ b) = blen a + blen b.
Proof. unfold blen. rewrite app_length. lia. Qed.
Lemma blen_0 {A} (a : list A) : blen a = 0 -> a = [].
Proof. destruct a; [reflexivity|rewrite blen_cons; lia]. Qed.

(** Big-endian encoding of [n] on [k] bytes ([appender.writeBE]) and its
    inverse ([cursor.readBE]). *)
Fixpoint be (k : nat) (n : N) : bytes :=
  match k with
  | O => []
  | S k' => be k' (n / 256) ++ [n2b n]
  end.

Definition unbe (l : bytes) : N := fold_left (fun a b => a * 256 + b2n b) l 0.

Lemma be_length k n : length (be k n) = k.
Proof.
  revert n; induction k as [|k IH]; intros n; cbn [be]; [reflexivity|].
  rewrite app_length, IH. cbn. lia.
Qed.
Lemma be_blen k n : blen (be k n) = N.of_nat k.
Proof. unfold blen. rewrite be_length. reflexivity. Qed.

Lemma unbe_snoc l b : unbe (l ++ [b]) = unbe l * 256 + b2n b.
Proof. unfold unbe. rewrite fold_left_app. reflexivity. Qed.

Lemma pow256_S k : 256 ^ N.of_nat (S k) = 256 * 256 ^ N.of_nat k.
Proof.
  replace (N.of_nat (S k)) with (N.succ (N.of_nat k)) by lia.
  apply N.pow_succ_r'.
Qed.

Lemma unbe_be k n : n < 256 ^ N.of_nat k -> unbe (be k n) = n.
Proof.
  revert n; induction k as [|k IH]; intros n H.
  - cbn in *. change (256 ^ N.of_nat 0) with 1 in H. unfold unbe; cbn. lia.
  - cbn [be]. rewrite unbe_snoc, b2n_n2b_mod. rewrite pow256_S in H.
    rewrite IH.
    + lia.
    + apply N.div_lt_upper_bound; lia.
Qed.

Lemma unbe_be_mod k n : unbe (be k n) = n mod 256 ^ N.of_nat k.
Proof.
  revert n; induction k as [|k IH]; intros n.
  - cbn. change (256 ^ N.of_nat 0) with 1. rewrite N.mod_1_r. reflexivity.
  - cbn [be]. rewrite unbe_snoc, b2n_n2b_mod, IH, pow256_S.
    rewrite N.mod_mul_r by (try apply N.pow_nonzero; lia). lia.
Qed.

Lemma snoc_cases {A} (l : list A) : l = [] \/ exists l' x, l = l' ++ [x].
Proof.
  destruct l as [|a l] using rev_ind; [left; reflexivity|right; eauto].
Qed.

Lemma unbe_bound l : unbe l < 256 ^ N.of_nat (length l).
Proof.
  induction l as [|b l IH] using rev_ind.
  - cbn. lia.
  - rewrite unbe_snoc, app_length. cbn [length].
    replace (length l + 1)%nat with (S (length l)) by lia.
    rewrite pow256_S. pose proof (b2n_bound b). lia.
Qed.

Lemma be_unbe k l : length l = k -> be k (unbe l) = l.
Proof.
  revert l; induction k as [|k IH]; intros l H.
  - destruct l; [reflexivity|discriminate].
  - destruct (snoc_cases l) as [->|[l' [x ->]]]; [discriminate|].
    rewrite app_length in H; cbn in H.
    cbn [be]. rewrite unbe_snoc. pose proof (b2n_bound x).
    replace ((unbe l' * 256 + b2n x) / 256) with (unbe l') by lia.
    rewrite IH by lia. f_equal. f_equal. apply b2n_inj.
    rewrite b2n_n2b_mod. lia.
Qed.

Lemma be_inj k a b :
  a < 256 ^ N.of_nat k -> b < 256 ^ N.of_nat k -> be k a = be k b -> a = b.
Proof.
  intros Ha Hb H. rewrite <- (unbe_be k a), <- (unbe_be k b), H by assumption.
  reflexivity.
Qed.

Lemma unbe_inj k a b :
  length a = k -> length b = k -> unbe a = unbe b -> a = b.
Proof.
  intros Ha Hb H. rewrite <- (be_unbe k a), <- (be_unbe k b), H by assumption.
  reflexivity.
Qed.

(** ** Splitting a buffer *)

(** [take n l]: the first [n] bytes and the rest, [None] when there are fewer
    (folly::io::Cursor underflow). *)
Definition take {A} (n : N) (l : list A) : option (list A * list A) :=
  if blen l <? n then None
  else Some (firstn (N.to_nat n) l, skipn (N.to_nat n) l).

Lemma take_app {A} (a b : list A) : take (blen a) (a ++ b) = Some (a, b).
Proof.
  unfold take. rewrite blen_app.
  destruct (N.ltb_spec (blen a + blen b) (blen a)); [lia|].
  unfold blen. rewrite Nat2N.id.
  rewrite firstn_app, skipn_app, firstn_all, skipn_all, Nat.sub_diag.
  cbn [firstn skipn]. rewrite app_nil_r. reflexivity.
Qed.

Lemma take_app_n {A} n (a b : list A) : blen a = n -> take n (a ++ b) = Some (a, b).
Proof. intros <-. apply take_app. Qed.

Lemma take_Some {A} n (l a b : list A) :
  take n l = Some (a, b) -> l = a ++ b /\ blen a = n.
Proof.
  unfold take. destruct (N.ltb_spec (blen l) n) as [Hl|Hl]; [discriminate|].
  injection 1 as <- <-. split.
  - symmetry. apply firstn_skipn.
  - unfold blen in *. rewrite firstn_length. lia.
Qed.

Lemma take_None {A} n (l : list A) : take n l = None <-> blen l < n.
Proof.
  unfold take. destruct (N.ltb_spec (blen l) n) as [Hl|Hl]; split; intros;
    try discriminate; auto; lia.
Qed.

Lemma app_inj_len {A} (a1 a2 b1 b2 : list A) :
  blen a1 = blen a2 -> a1 ++ b1 = a2 ++ b2 -> a1 = a2 /\ b1 = b2.
Proof.
  unfold blen. revert a2; induction a1 as [|x a1 IH]; intros [|y a2] Hl H;
    cbn [length] in Hl; try lia; [auto|].
  cbn in H. injection H as -> H. destruct (IH a2) as [-> ->]; auto.
  lia.
Qed.

(** [trimStart]-like total helpers, only used under length guards. *)
Definition dropN {A} (n : N) (l : list A) : list A := skipn (N.to_nat n) l.
Definition takeN {A} (n : N) (l : list A) : list A := firstn (N.to_nat n) l.
Lemma takeN_dropN {A} n (l : list A) : takeN n l ++ dropN n l = l.
Proof. apply firstn_skipn. Qed.
Lemma blen_takeN {A} n (l : list A) : blen (takeN n l) = N.min n (blen l).
Proof. unfold blen, takeN. rewrite firstn_length. lia. Qed.
Lemma blen_dropN {A} n (l : list A) : blen (dropN n l) = blen l - n.
Proof. unfold blen, dropN. rewrite skipn_length. lia. Qed.
Lemma take_takeN {A} n (l : list A) :
  n <= blen l -> take n l = Some (takeN n l, dropN n l).
Proof.
  intros H. unfold take, takeN, dropN.
  destruct (N.ltb_spec (blen l) n); [lia|reflexivity].
Qed.
Lemma takeN_app {A} (a b : list A) n : n = blen a -> takeN n (a ++ b) = a.
Proof.
  intros ->. unfold takeN, blen. rewrite Nat2N.id, firstn_app, firstn_all,
    Nat.sub_diag. cbn. apply app_nil_r.
Qed.
Lemma dropN_app {A} (a b : list A) n : n = blen a -> dropN n (a ++ b) = b.
Proof.
  intros ->. unfold dropN, blen. rewrite Nat2N.id, skipn_app, skipn_all,
    Nat.sub_diag. reflexivity.
Qed.
