(** * SlidingBloomReplayCache (fizz/server/SlidingBloomReplayCache.{h,cpp}).

    Not modelled: the floating point computation of the number of cells (the number is a parameter [size]),
    SpookyHash and its random seeds (the hash functions are parameters), the executor hop of [check]
    (folly::via on the cache's own EventBase thread: checks and timer callbacks are serialised there, which
    is what the event list below represents). *)
From Verif Require Import Base.

(** SlidingBloomReplayCache.cpp:27-28 *)
Definition kBucketCount : N := 12.
Definition kHashCount : N := 4.

(** bitBuf_ and currentBucket_ (SlidingBloomReplayCache.h:61-67) *)
Record bloom := { cells : list N; cur : N }.

(** bitBuf_[i] = v on a plain array *)
Fixpoint upd (i : nat) (v : N) (l : list N) : list N :=
  match l, i with
  | [], _ => []
  | _ :: t, O => v :: t
  | x :: t, S j => x :: upd j v t
  end.

Section Bloom.
  Variable hashers : list (bytes -> N).
  Variable size : N.

  (** [hasher(query) % bitSize_]; [% 0] is undefined behaviour *)
  Definition cell_of (h : bytes -> N) (q : bytes) : N := h q mod size.

  (** SlidingBloomReplayCache.cpp:53-100, constructor (cells value-initialised to 0) *)
  Definition bloom_init : bloom := {| cells := repeat 0 (N.to_nat size); cur := 0 |}.

  (** SlidingBloomReplayCache.cpp:108-120, set *)
  Fixpoint set_loop (hs : list (bytes -> N)) (mask : N) (q : bytes) (c : list N) : list N :=
    match hs with
    | [] => c
    | h :: r => let i := N.to_nat (cell_of h q) in set_loop r mask q (upd i (N.lor (nth i c 0) mask) c)
    end.
  (** SlidingBloomReplayCache.cpp:122-136, test *)
  Fixpoint test_loop (hs : list (bytes -> N)) (ret : N) (q : bytes) (c : list N) : N :=
    match hs with
    | [] => ret
    | h :: r => test_loop r (N.land ret (nth (N.to_nat (cell_of h q)) c 0)) q c
    end.
  (** SlidingBloomReplayCache.cpp:138-154, testAndSet: reads and writes interleaved *)
  Fixpoint tas_loop (hs : list (bytes -> N)) (mask ret : N) (q : bytes) (c : list N) : N * list N :=
    match hs with
    | [] => (ret, c)
    | h :: r =>
        let i := N.to_nat (cell_of h q) in
        let ret' := N.land ret (nth i c 0) in
        tas_loop r mask ret' q (upd i (N.lor (nth i c 0) mask) c)
    end.

  Definition kAllOnes : N := N.ones 64.   (* numeric_limits<CellType>::max() *)

  Definition bloom_set (b : bloom) (q : bytes) : res bloom :=
    if size =? 0 then Err EUB
    else Ok {| cells := set_loop hashers (N.shiftl 1 (cur b)) q (cells b); cur := cur b |}.
  Definition bloom_test (b : bloom) (q : bytes) : res bool :=
    if size =? 0 then Err EUB else Ok (negb (test_loop hashers kAllOnes q (cells b) =? 0)).
  (** check (lines 156-167): [true] is ReplayCacheResult::MaybeReplay, [false] is NotReplay *)
  Definition bloom_check (b : bloom) (q : bytes) : res (bloom * bool) :=
    if size =? 0 then Err EUB
    else let '(ret, c) := tas_loop hashers (N.shiftl 1 (cur b)) kAllOnes q (cells b) in
         Ok ({| cells := c; cur := cur b |}, negb (ret =? 0)).

  (** SlidingBloomReplayCache.cpp:169-177, clearBucket: [&= ~(1 << bucket)] on 64-bit cells *)
  Definition clearBucket (bucket : N) (c : list N) : list N :=
    map (fun x => N.land x (N.lxor (N.shiftl 1 bucket) (N.ones 64))) c.
  (** SlidingBloomReplayCache.cpp:179-190, clear / timeoutExpired *)
  Definition bloom_tick (b : bloom) : bloom :=
    let nb := (cur b + 1) mod kBucketCount in
    {| cells := clearBucket nb (cells b); cur := nb |}.

  Inductive bloom_ev := Check (q : bytes) | Tick.
  Definition bloom_step (b : bloom) (e : bloom_ev) : res bloom :=
    match e with
    | Check q => '(b', _) <- bloom_check b q ;; Ok b'
    | Tick => Ok (bloom_tick b)
    end.
  Fixpoint bloom_run (b : bloom) (evs : list bloom_ev) : res bloom :=
    match evs with [] => Ok b | e :: r => b' <- bloom_step b e ;; bloom_run b' r end.
End Bloom.

(** SlidingBloomReplayCache.cpp:75-76: bucketWidthInMs_ *)
Definition bucketWidthMs (ttlSecs : N) : N := ttlSecs * 1000 / kBucketCount + 1.
