(** * Chained-buffer utilities (crypto/aead/IOBufUtil.{h,cpp}) and CryptoUtils::equal (crypto/Utils.cpp).

    An input chain is the list of its buffers' contents.  An output chain is given by the list of its
    buffers' lengths; what is written is the flat byte sequence stored from the start of the chain (the
    chain itself is that sequence re-cut by the lengths).  The function argument is a state machine:
    current state and input bytes give the new state and the bytes it writes. *)
From Verif Require Import Base Nonce Hkdf.

(** ** transformBuffer (IOBufUtil.h:46-73) *)
Section TB.
  Context {St : Type}.
  Variable f : St -> bytes -> St * bytes.
  (** [caps]: lengths of the output buffers from the current one on, the first reduced by [offset].
      Running out of output buffers wraps around to the first one in the code; the documented
      precondition excludes it, the model reports it as undefined. *)
  Fixpoint transform (fuel : nat) (s : St) (ins : list bytes) (caps : list N) (out : bytes)
    : res (St * bytes) :=
    match ins with
    | [] => Ok (s, out)
    | cur :: rest =>
        if blen cur =? 0 then
          match fuel with O => Err EFuel | S g => transform g s rest caps out end
        else
        match caps, fuel with
        | [], _ => Err EUB
        | _, O => Err EFuel
        | c :: cs, S g =>
            let sel := N.min c (blen cur) in
            let '(s', o) := f s (takeN sel cur) in
            let caps' := if c - sel =? 0 then cs else (c - sel) :: cs in
            transform g s' (dropN sel cur :: rest) caps' (out ++ o)
        end
    end.
  Definition transformBuffer (s : St) (ins : list bytes) (caps : list N) : res (St * bytes) :=
    transform (length ins + length caps + length (concat ins)) s ins caps [].

  (** ** transformBufferBlocks (IOBufUtil.h:87-182) *)
  (** Cursor::peekBytes skips empty buffers. *)
  Fixpoint skip0 (caps : list N) : list N :=
    match caps with c :: cs => if c =? 0 then skip0 cs else caps | [] => [] end.
  Fixpoint skipE (ins : list bytes) : list bytes :=
    match ins with c :: cs => if blen c =? 0 then skipE cs else ins | [] => [] end.
  (** RWCursor::push / skip: advance over [n] bytes of room, throwing when there is not enough. *)
  Fixpoint advance (caps : list N) (n : N) : res (list N) :=
    if n =? 0 then Ok caps
    else match caps with
         | [] => Err EThrow
         | c :: cs => if c <=? n then advance cs (n - c) else Ok ((c - n) :: cs)
         end.
  Definition kMaxBlock : N := 128.
  Fixpoint blocks (fuel : nat) (bs : N) (bb : bytes) (s : St) (ib : N) (ins : list bytes) (caps : list N)
      (out : bytes) : res (St * bytes) :=
    match skipE ins with
    | [] => Ok (s, out)
    | cur :: rest =>
        match fuel with
        | O => Err EFuel
        | S g =>
            let inputLen := blen cur in
            let caps := skip0 caps in
            let outputLen := match caps with c :: _ => c | [] => 0 end in
            if inputLen + ib <? bs then
              let '(s', o) := f s cur in
              bb' <- poke bb 0 o ;;
              blocks g bs bb' s' (ib + inputLen) rest caps out
            else if outputLen <? bs then
              let '(s', o) := f s (takeN (bs - ib) cur) in
              bb' <- poke bb 0 o ;;
              caps' <- advance caps bs ;;
              blocks g bs bb' s' 0 (dropN (bs - ib) cur :: rest) caps' (out ++ takeN bs bb')
            else
              let shared := N.min outputLen (inputLen + ib) in
              let nblk := shared - shared mod bs in
              let maxToTake := (nblk - ib) + (bs - 1) in
              let numToTake := N.min inputLen maxToTake in
              let '(s', o) := f s (takeN numToTake cur) in
              if outputLen <? blen o then Err EUB
              else
                caps' <- advance caps (blen o) ;;
                blocks g bs bb s' ((ib + numToTake) mod bs) (dropN numToTake cur :: rest) caps' (out ++ o)
        end
    end.
  Definition transformBufferBlocks (bs : N) (s : St) (ins : list bytes) (caps : list N) : res (St * bytes) :=
    if (bs =? 0) || (kMaxBlock <? bs) then fail
    else blocks (length (concat ins)) bs (zeros kMaxBlock) s 0 ins caps [].
End TB.

(** ** trimStart (IOBufUtil.cpp:34-44): the loop runs at least once and stops at the end of the chain. *)
Fixpoint trimStart (chain : list bytes) (n : N) : list bytes :=
  match chain with
  | [] => []
  | c :: rest =>
      let amt := N.min (blen c) n in
      let n' := n - amt in
      dropN amt c :: (if 0 <? n' then trimStart rest n' else rest)
  end.

(** ** trimBytes (IOBufUtil.cpp:15-32), on the reversed chain (the walk starts at buf.prev());
    returns the remaining reversed chain and the bytes copied into [trimmed].  Walking past the head is
    the caller's error (DCHECK). *)
Fixpoint trim_rev (rchain : list bytes) (n : N) : res (list bytes * bytes) :=
  match rchain with
  | [] => if n =? 0 then Ok ([], []) else Err EUB
  | c :: rest =>
      let t := N.min n (blen c) in
      let kept := takeN (blen c - t) c in
      let cut := dropN (blen c - t) c in
      if n - t =? 0 then Ok (kept :: rest, cut)
      else '(rest', pre) <- trim_rev rest (n - t) ;; Ok (kept :: rest', pre ++ cut)
  end.
Definition trimBytes (chain : list bytes) (n : N) : res (list bytes * bytes) :=
  '(r, t) <- trim_rev (rev chain) n ;; Ok (rev r, t).

(** ** CryptoUtils::equal (crypto/Utils.cpp:85-90) with fizz_secure_memcmp (:39-53). *)
Fixpoint or_diff (d : N) (a b : bytes) : N :=
  match a, b with
  | x :: a', y :: b' => or_diff (N.lor d (N.lxor (b2n x) (b2n y))) a' b'
  | _, _ => d
  end.
(** [(1 & ((d - 1) >> 8)) - 1] in int arithmetic *)
Definition secure_memcmp (a b : bytes) : Z :=
  (Z.land 1 (Z.shiftr (Z.of_N (or_diff 0 a b) - 1) 8) - 1)%Z.
Definition crypto_equal (a b : bytes) : bool :=
  if negb (blen a =? blen b) then false else (secure_memcmp a b =? 0)%Z.
