(** * What a time-bucketed replay filter is supposed to remember (spec, independent of bit arrays). *)
From Verif Require Import Base Bloom.

(** The identifiers checked, grouped by the timer period they were checked in; the current period first. *)
Fixpoint history (h : list (list bytes)) (evs : list bloom_ev) : list (list bytes) :=
  match evs with
  | [] => h
  | Check q :: r => history (match h with e :: t => (q :: e) :: t | [] => [[q]] end) r
  | Tick :: r => history ([] :: h) r
  end.

(** [q] collides with period [p]: each of its hash positions was also a hash position of some
    identifier checked in that period. *)
Definition covered (hashers : list (bytes -> N)) (size : N) (p : list bytes) (q : bytes) : Prop :=
  forall h, In h hashers -> exists q' h', In q' p /\ In h' hashers /\ h q mod size = h' q' mod size.

(** The number of timer expirations in a trace. *)
Fixpoint ticks (evs : list bloom_ev) : N :=
  match evs with [] => 0 | Tick :: r => 1 + ticks r | Check _ :: r => ticks r end.

(** A schedule of checks at absolute times (ms since construction), with the timer firing at every
    multiple of [w]. *)
Fixpoint timed (w start : N) (l : list (N * bytes)) : list bloom_ev :=
  match l with
  | [] => []
  | (t, q) :: r => repeat Tick (N.to_nat (t / w - start)) ++ Check q :: timed w (t / w) r
  end.
Fixpoint increasing (t0 : N) (l : list (N * bytes)) : Prop :=
  match l with [] => True | (t, _) :: r => t0 <= t /\ increasing t r end.
