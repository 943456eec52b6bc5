(** * Generic shape of the record readers.

    Both record layers are "while (true)" loops over an IOBufQueue
    (record/PlaintextRecordLayer.cpp:28-105, record/EncryptedRecordLayer.cpp:27-120).
    [iter] is the result of one loop iteration; [read_loop] the loop; [drain]/[feed]
    are the caller's side: append what the socket delivered, then call read until it
    says that it needs more bytes. *)
From Verif Require Import Base.

Inductive iter (S M : Type) : Type :=
| ICont (s : S) (b : bytes)              (* continue: a record was dropped *)
| INeed (s : S) (b : bytes) (hint : N)   (* noneWithSizeHint *)
| IMsg (s : S) (b : bytes) (m : M)       (* ReadResult::from *)
| IErr (e : err).                        (* err.error(..) *)
Arguments ICont {S M}. Arguments INeed {S M}. Arguments IMsg {S M}. Arguments IErr {S M}.

Inductive rres (S M : Type) : Type :=
| RNeed (s : S) (b : bytes) (hint : N)
| RMsg (s : S) (b : bytes) (m : M)
| RErr (e : err).
Arguments RNeed {S M}. Arguments RMsg {S M}. Arguments RErr {S M}.

Section Loop.
  Context {S M : Type}.
  Variable it : S -> bytes -> iter S M.

  (** the while loop, with a recursion budget *)
  Fixpoint read_loop (fuel : nat) (s : S) (b : bytes) : rres S M :=
    match fuel with
    | O => RErr EFuel
    | Datatypes.S f =>
        match it s b with
        | ICont s' b' => read_loop f s' b'
        | INeed s' b' h => RNeed s' b' h
        | IMsg s' b' m => RMsg s' b' m
        | IErr e => RErr e
        end
    end.

  (** Every dropped record shortens the queue, so this budget is never exhausted. *)
  Definition read_of (s : S) (b : bytes) : rres S M :=
    read_loop (Datatypes.S (length b)) s b.

  (** What one iteration must satisfy. *)
  Record iter_laws : Prop := {
    il_cont : forall s b s' b', it s b = ICont s' b' ->
      (length b' < length b)%nat /\ forall x, it s (b ++ x) = ICont s' (b' ++ x);
    il_msg : forall s b s' b' m, it s b = IMsg s' b' m ->
      (length b' < length b)%nat /\ forall x, it s (b ++ x) = IMsg s' (b' ++ x) m;
    il_err : forall s b e, it s b = IErr e -> e <> EFuel /\ forall x, it s (b ++ x) = IErr e;
    il_need : forall s b s' b' h, it s b = INeed s' b' h ->
      b' = b /\ 0 < h /\
      (forall x, it s (b ++ x) = it s' (b ++ x)) /\
      (forall x, blen x < h -> it s (b ++ x) = INeed s' (b ++ x) (h - blen x))
  }.
End Loop.

(** The laws of a [read] function that the driver needs; [mu] is a termination
    measure, [inv] an invariant of the reader's state, [term] marks events after which nothing more is read, [view] what an
    observer compares. *)
Record read_laws {S M V : Type} (read : S -> bytes -> rres S M) (mu : S -> bytes -> nat)
    (inv : S -> Prop) (view : M -> V) (term : M -> bool) : Prop := {
  rl_msg : forall s b s' b' m, inv s -> read s b = RMsg s' b' m ->
    inv s' /\ (mu s' b' < mu s b)%nat /\
    (term m = false -> forall x, read s (b ++ x) = RMsg s' (b' ++ x) m) /\
    (term m = true -> forall x, exists s2 b2 m2, read s (b ++ x) = RMsg s2 b2 m2 /\
       view m2 = view m /\ term m2 = true);
  rl_err : forall s b e, inv s -> read s b = RErr e -> e <> EFuel /\ forall x, read s (b ++ x) = RErr e;
  rl_need : forall s b s' b' h, inv s -> read s b = RNeed s' b' h ->
    inv s' /\ 0 < h /\ (mu s' b' <= mu s b)%nat /\
    (forall x, read s (b ++ x) = read s' (b' ++ x)) /\
    (forall x, blen x < h -> read s (b ++ x) = RNeed s' (b' ++ x) (h - blen x))
}.

Lemma read_loop_fuel {S M} (it : S -> bytes -> iter S M) (L : iter_laws it) :
  forall f1 f2 s b, (length b < f1)%nat -> (length b < f2)%nat ->
  read_loop it f1 s b = read_loop it f2 s b.
Proof.
  induction f1; intros f2 s b H1 H2; [lia|]. destruct f2; [lia|]. simpl.
  destruct (it s b) eqn:E; try reflexivity.
  apply (il_cont _ L) in E. destruct E as [E _]. apply IHf1; lia.
Qed.

Lemma read_of_step {S M} (it : S -> bytes -> iter S M) (L : iter_laws it) s b :
  read_of it s b = match it s b with
        | ICont s' b' => read_of it s' b'
        | INeed s' b' h => RNeed s' b' h
        | IMsg s' b' m => RMsg s' b' m
        | IErr e => RErr e
        end.
Proof.
  unfold read_of at 1. simpl. destruct (it s b) eqn:E; try reflexivity.
  pose proof (proj1 (il_cont _ L _ _ _ _ E)).
  apply read_loop_fuel; [assumption|lia|lia].
Qed.

(** induction principle over the loop *)
Lemma read_of_ind {S M} (it : S -> bytes -> iter S M) (L : iter_laws it)
  (P : S -> bytes -> rres S M -> Prop) :
  (forall s b s' b', it s b = ICont s' b' -> P s' b' (read_of it s' b') -> P s b (read_of it s' b')) ->
  (forall s b s' b' h, it s b = INeed s' b' h -> P s b (RNeed s' b' h)) ->
  (forall s b s' b' m, it s b = IMsg s' b' m -> P s b (RMsg s' b' m)) ->
  (forall s b e, it s b = IErr e -> P s b (RErr e)) ->
  forall s b, P s b (read_of it s b).
Proof.
  intros H1 H2 H3 H4 s b. remember (length b) as n eqn:En.
  revert s b En. induction n as [n IH] using lt_wf_ind. intros s b En.
  rewrite (read_of_step it L). destruct (it s b) eqn:E; eauto.
  apply H1; [assumption|]. apply (IH (length b0)); [|reflexivity].
  subst n. apply (il_cont _ L _ _ _ _ E).
Qed.

Lemma read_of_laws {S M} (it : S -> bytes -> iter S M) (L : iter_laws it) :
  read_laws (read_of it) (fun _ b => length b) (fun _ => True) (fun m => m) (fun _ => false).
Proof.
  constructor.
  - intros s b s' b' m _. revert s' b' m. pattern s, b, (read_of it s b). apply read_of_ind; [assumption|..].
    + intros s0 b0 s' b' E IH s1 b1 m H. destruct (IH _ _ _ H) as (_ & A & B & C).
      destruct (il_cont _ L _ _ _ _ E) as [A' B']. split; [exact I|]. split; [lia|]. split; [|discriminate].
      intros _ x. rewrite (read_of_step it L), B'. apply B; reflexivity.
    + discriminate.
    + intros s0 b0 s' b' m E s1 b1 m1 [= <- <- <-].
      destruct (il_msg _ L _ _ _ _ _ E) as [A B]. split; [exact I|]. split; [assumption|]. split; [|discriminate].
      intros _ x. rewrite (read_of_step it L), B. reflexivity.
    + discriminate.
  - intros s b e _. revert e. pattern s, b, (read_of it s b). apply read_of_ind; [assumption|..].
    + intros s0 b0 s' b' E IH e H. destruct (IH _ H) as [A B]. split; [assumption|].
      intros x. rewrite (read_of_step it L), (proj2 (il_cont _ L _ _ _ _ E)). apply B.
    + discriminate.
    + discriminate.
    + intros s0 b0 e E e0 [= <-]. destruct (il_err _ L _ _ _ E) as [A B]. split; [assumption|].
      intros x. rewrite (read_of_step it L), B. reflexivity.
  - intros s b s' b' h _. revert s' b' h. pattern s, b, (read_of it s b). apply read_of_ind; [assumption|..].
    + intros s0 b0 s' b' E IH s1 b1 h H. destruct (IH _ _ _ H) as (_ & A & B & C & D).
      destruct (il_cont _ L _ _ _ _ E) as [A' B']. repeat split; [assumption|lia|..].
      * intros x. rewrite (read_of_step it L s0), B'. apply C.
      * intros x Hx. rewrite (read_of_step it L s0), B'. apply D; assumption.
    + intros s0 b0 s' b' h E s1 b1 h1 [= <- <- <-].
      destruct (il_need _ L _ _ _ _ _ E) as (-> & A & B & C). repeat split; [assumption|lia|..].
      * intros x. rewrite !(read_of_step it L _ (b0 ++ x)), B. reflexivity.
      * intros x Hx. rewrite (read_of_step it L), C by assumption. reflexivity.
    + discriminate.
    + discriminate.
Qed.

(** ** The caller's side *)

(** Waiting for more bytes in state [s] with [b] still queued; failed; or stopped at
    an event after which nothing is read (close_notify). *)
Inductive outcome (S : Type) : Type :=
| More (s : S) (b : bytes)
| Failed (e : err)
| Closed.
Arguments More {S}. Arguments Failed {S}. Arguments Closed {S}.

Section Driver.
  Context {S M V : Type}.
  Variable read : S -> bytes -> rres S M.
  Variable mu : S -> bytes -> nat.
  Variable view : M -> V.
  Variable term : M -> bool.
  (** what the owner of the reader does with its state after each message: the
      protocol state machine may change keys or flags *)
  Variable after : M -> S -> S.

  (** Call read until it asks for more data; collect the messages. *)
  Fixpoint drain_f (fuel : nat) (s : S) (b : bytes) : list V * outcome S :=
    match fuel with
    | O => ([], Failed EFuel)
    | Datatypes.S f =>
        match read s b with
        | RNeed s' b' _ => ([], More s' b')
        | RErr e => ([], Failed e)
        | RMsg s' b' m =>
            if term m then ([view m], Closed)
            else let '(ms, o) := drain_f f (after m s') b' in (view m :: ms, o)
        end
    end.
  Definition drain (s : S) (b : bytes) : list V * outcome S :=
    drain_f (Datatypes.S (mu s b)) s b.

  (** Bytes arrive in chunks; after each arrival everything available is read. *)
  Fixpoint feed (s : S) (b : bytes) (chunks : list bytes) : list V * outcome S :=
    match chunks with
    | [] => ([], More s b)
    | c :: cs =>
        match drain s (b ++ c) with
        | (ms, More s' b') => let '(ms2, o) := feed s' b' cs in (ms ++ ms2, o)
        | (ms, o) => (ms, o)
        end
    end.

  Variable inv : S -> Prop.
  Hypothesis L : read_laws read mu inv view term.
  Hypothesis after_mu : forall m s b, (mu (after m s) b <= mu s b)%nat.
  Hypothesis after_inv : forall m s, inv s -> inv (after m s).

  Lemma drain_fuel : forall f1 f2 s b, inv s -> (mu s b < f1)%nat -> (mu s b < f2)%nat ->
    drain_f f1 s b = drain_f f2 s b.
  Proof.
    induction f1; intros f2 s b I H1 H2; [lia|]. destruct f2; [lia|]. simpl.
    destruct (read s b) eqn:E; try reflexivity.
    destruct (rl_msg _ _ _ _ _ L _ _ _ _ _ I E) as (I' & A & _).
    destruct (term m); [reflexivity|].
    pose proof (after_mu m s0 b0).
    rewrite (IHf1 f2); [reflexivity|auto|lia|lia].
  Qed.

  Lemma drain_step s b : inv s ->
    drain s b = match read s b with
        | RNeed s' b' _ => ([], More s' b')
        | RErr e => ([], Failed e)
        | RMsg s' b' m =>
            if term m then ([view m], Closed)
            else let '(ms, o) := drain (after m s') b' in (view m :: ms, o)
        end.
  Proof.
    intros I. unfold drain at 1. simpl. destruct (read s b) eqn:E; try reflexivity.
    destruct (rl_msg _ _ _ _ _ L _ _ _ _ _ I E) as (I' & A & _).
    destruct (term m); [reflexivity|].
    pose proof (after_mu m s0 b0).
    rewrite (drain_fuel _ (Datatypes.S (mu (after m s0) b0))); [reflexivity|auto|lia|lia].
  Qed.

  (** draining a prefix first does not change anything *)
  Lemma drain_app : forall s b x, inv s ->
    drain s (b ++ x) =
    match drain s b with
    | (ms, More s' b') => let '(ms2, o) := drain s' (b' ++ x) in (ms ++ ms2, o)
    | (ms, o) => (ms, o)
    end.
  Proof.
    intros s b x. remember (mu s b) as n eqn:En. revert s b En.
    induction n as [n IH] using lt_wf_ind. intros s b En I.
    rewrite (drain_step s b) by assumption. destruct (read s b) eqn:E.
    - destruct (rl_need _ _ _ _ _ L _ _ _ _ _ I E) as (I' & _ & _ & A & _).
      rewrite (drain_step s), (drain_step s0 (b0 ++ x)), A by assumption.
      destruct (read s0 (b0 ++ x)); try reflexivity.
      destruct (term m); [reflexivity|]. destruct (drain (after m s1) b1). reflexivity.
    - destruct (rl_msg _ _ _ _ _ L _ _ _ _ _ I E) as (I' & A & B & C).
      rewrite (drain_step s) by assumption. destruct (term m) eqn:T.
      + destruct (C eq_refl x) as (s2 & b2 & m2 & -> & Hv & ->). rewrite Hv. reflexivity.
      + rewrite (B eq_refl x), T. pose proof (after_mu m s0 b0).
        rewrite (IH (mu (after m s0) b0)) with (b := b0); [|lia|reflexivity|auto].
        destruct (drain (after m s0) b0) as [ms o]. destruct o; try reflexivity.
        destruct (drain s1 (b1 ++ x)). reflexivity.
    - destruct (rl_err _ _ _ _ _ L _ _ _ I E) as [_ A]. rewrite (drain_step s), A by assumption. reflexivity.
  Qed.

  Definition quiescent (s : S) (b : bytes) : Prop := drain s b = ([], More s b).

  Lemma drain_quiescent : forall s b ms s' b', inv s ->
    drain s b = (ms, More s' b') -> quiescent s' b' /\ inv s'.
  Proof.
    intros s b. remember (mu s b) as n eqn:En. revert s b En.
    induction n as [n IH] using lt_wf_ind. intros s b En ms s' b' I H.
    rewrite drain_step in H by assumption. destruct (read s b) eqn:E.
    - injection H as <- <- <-. unfold quiescent.
      destruct (rl_need _ _ _ _ _ L _ _ _ _ _ I E) as (I' & Hh & _ & A & B).
      split; [|assumption]. rewrite drain_step by assumption.
      specialize (A []). specialize (B []). rewrite !app_nil_r in *.
      rewrite <- A, B by (unfold blen; simpl; lia). reflexivity.
    - destruct (rl_msg _ _ _ _ _ L _ _ _ _ _ I E) as (I' & A & _ & _).
      destruct (term m); [discriminate|]. pose proof (after_mu m s0 b0).
      destruct (drain (after m s0) b0) eqn:D. injection H as <- ->.
      eapply (IH (mu (after m s0) b0)); [lia|reflexivity| |eassumption]. auto.
    - discriminate.
  Qed.

  (** Chunk independence. *)
  Theorem feed_concat : forall chunks s b, inv s -> quiescent s b ->
    feed s b chunks = drain s (b ++ concat chunks).
  Proof.
    induction chunks as [|c cs IH]; intros s b I Q.
    - simpl. rewrite app_nil_r. symmetry. exact Q.
    - change (feed s b (c :: cs)) with
        (match drain s (b ++ c) with
        | (ms, More s' b') => let '(ms2, o) := feed s' b' cs in (ms ++ ms2, o)
        | (ms, o) => (ms, o)
        end).
      cbn [concat]. rewrite app_assoc, (drain_app s (b ++ c) (concat cs)) by assumption.
      destruct (drain s (b ++ c)) as [ms o] eqn:E. destruct o; try reflexivity.
      apply drain_quiescent in E; [|assumption]. destruct E as [E1 E2].
      rewrite IH by assumption. reflexivity.
  Qed.

  (** the recursion budget is never exhausted *)
  Lemma drain_no_fuel : forall s b ms, inv s -> drain s b <> (ms, Failed EFuel).
  Proof.
    intros s b. remember (mu s b) as n eqn:En. revert s b En.
    induction n as [n IH] using lt_wf_ind. intros s b En ms I H.
    rewrite drain_step in H by assumption. destruct (read s b) eqn:E.
    - discriminate.
    - destruct (rl_msg _ _ _ _ _ L _ _ _ _ _ I E) as (I' & A & _ & _).
      destruct (term m); [discriminate|]. pose proof (after_mu m s0 b0).
      destruct (drain (after m s0) b0) as [ms' o] eqn:D. injection H as <- ->.
      eapply (IH (mu (after m s0) b0)); [lia|reflexivity| |eassumption]. auto.
    - destruct (rl_err _ _ _ _ _ L _ _ _ I E) as [A _]. congruence.
  Qed.
End Driver.
