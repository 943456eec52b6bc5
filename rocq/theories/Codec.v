(** * Codec: the Writer / Reader / Sizer templates of record/Types-inl.h.

    A reader works on the remaining bytes of a [folly::io::Cursor]; a cursor
    underflow is the C++ exception std::out_of_range ([EThrow]).  A writer
    returns the bytes it appends to the [Appender]; bytes appended before a
    failure are dropped because every caller discards the buffer on failure. *)
From Verif Require Import Base.

(** Length-prefix types used as template argument N: uint8_t, uint16_t,
    [detail::bits24] (Types-inl.h:17-20) and uint32_t. *)
Inductive lenw := W8 | W16 | W24 | W32.

(** sizeof(N) / bits24::size. *)
Definition lw_nat (w : lenw) : nat :=
  match w with W8 => 1 | W16 => 2 | W24 => 3 | W32 => 4 end%nat.
Definition lw (w : lenw) : N := N.of_nat (lw_nat w).
Definition lw_max (w : lenw) : N := 256 ^ lw w.

(** [out.writeBE<N>(folly::to<N>(len))] (throws on overflow) or
    [writeBits24] (Types-inl.h:106-128, returns an error on overflow). *)
Definition write_len (w : lenw) (n : N) : res bytes :=
  if n <? lw_max w then Ok (be (lw_nat w) n)
  else match w with W24 => fail | _ => Err EThrow end.

(** [cursor.readBE<UT>] (folly), [readBits24] (Types-inl.h:254-261). *)
Definition read_be (k : nat) (inp : bytes) : res (N * bytes) :=
  match take (N.of_nat k) inp with
  | Some (a, rest) => Ok (unbe a, rest)
  | None => Err EThrow
  end.

(** Writer<U>, Reader<U> for enums and unsigned integers of [k] bytes
    (Types-inl.h:76-104, 284-316).  The value is a fixed-width C++ integer: the
    model's [writeBE] truncates to [k] bytes, values are assumed in range by the
    [fits_u] well-formedness predicate. *)
Definition write_u (k : nat) (n : N) : res bytes := Ok (be k n).
Definition read_u (k : nat) (inp : bytes) : res (N * N * bytes) :=
  '(v, rest) <- read_be k inp ;; Ok (v, N.of_nat k, rest).
Definition in_u (k : nat) (n : N) : bool := n <? 256 ^ N.of_nat k.

(** writeBuf<N> (Types-inl.h:194-203, 221-231): a null buffer is written as
    length zero. *)
Definition write_buf (w : lenw) (b : buf) : res bytes :=
  match b with
  | None => write_len w 0
  | Some d => l <- write_len w (blen d) ;; Ok (l ++ d)
  end.

(** readBuf<N> (Types-inl.h:263-275): clones [len] bytes, the result is never
    null. Returns the claimed size [sizeof(N)+len] and the remaining bytes. *)
Definition read_buf (w : lenw) (inp : bytes) : res (buf * N * bytes) :=
  '(len, rest) <- read_be (lw_nat w) inp ;;
  match take len rest with
  | Some (d, rest') => Ok (Some d, lw w + len, rest')
  | None => Err EThrow
  end.

(** getBufSize<N> (Types-inl.h:34-42): dereferences the pointer. *)
Definition buf_size (w : lenw) (b : buf) : res N :=
  match b with None => Err EUB | Some d => Ok (lw w + blen d) end.

(** A serialisable element type: Writer<T>, Sizer<T>, Reader<T>.  The reader
    returns the value, the number of bytes it *claims* to have read, and the
    remaining cursor. *)
Record codec (T : Type) := Codec {
  c_wr : T -> res bytes;
  c_sz : T -> res N;
  c_rd : bytes -> res (T * N * bytes);
}.
Arguments Codec {T}.
Arguments c_wr {T}.
Arguments c_sz {T}.
Arguments c_rd {T}.

Definition c_u (k : nat) : codec N :=
  Codec (write_u k) (fun _ => Ok (N.of_nat k)) (read_u k).

Definition c_buf (w : lenw) : codec buf :=
  Codec (write_buf w) (buf_size w) (read_buf w).

(** Writing/reading two fields one after the other, sizes added; models the
    bodies of Writer/Sizer/Reader specialisations that handle the fields of a
    struct in sequence. *)
Definition c_pair {A B} (a : codec A) (b : codec B) : codec (A * B) :=
  Codec
    (fun p => x <- c_wr a (fst p) ;; y <- c_wr b (snd p) ;; Ok (x ++ y))
    (fun p => x <- c_sz a (fst p) ;; y <- c_sz b (snd p) ;; Ok (x + y))
    (fun inp => '(x, n, r) <- c_rd a inp ;; '(y, m, r') <- c_rd b r ;;
                Ok ((x, y), n + m, r')).

(** The element loop of writeVector (Types-inl.h:149-152, 170-173). *)
Fixpoint write_all {T} (c : codec T) (l : list T) : res bytes :=
  match l with
  | [] => Ok []
  | t :: l' => x <- c_wr c t ;; y <- write_all c l' ;; Ok (x ++ y)
  end.
Fixpoint size_all {T} (c : codec T) (l : list T) : res N :=
  match l with
  | [] => Ok 0
  | t :: l' => x <- c_sz c t ;; y <- size_all c l' ;; Ok (x + y)
  end.

(** writeVector<N,T> (Types-inl.h:135-181): computes the size first, writes it
    as the prefix, then writes the elements. *)
Definition write_vec {T} (w : lenw) (c : codec T) (l : list T) : res bytes :=
  n <- size_all c l ;;
  p <- write_len w n ;;
  body <- write_all c l ;;
  Ok (p ++ body).

(** The loop [while (consumed < len)] of readVector (Types-inl.h:323-386).
    [fuel] bounds the number of iterations; the cursor is not bounded by the
    vector, exactly as in the code. *)
Fixpoint read_loop {T} (c : codec T) (fuel : nat) (len consumed : N)
    (inp : bytes) : res (list T * bytes) :=
  if consumed <? len then
    match fuel with
    | O => Err EFuel
    | S f =>
        '(t, n, rest) <- c_rd c inp ;;
        '(l, rest') <- read_loop c f len (consumed + n) rest ;;
        Ok (t :: l, rest')
    end
  else if consumed =? len then Ok ([], inp)
  else fail.

Definition read_vec {T} (w : lenw) (c : codec T) (inp : bytes)
  : res (list T * N * bytes) :=
  '(len, rest) <- read_be (lw_nat w) inp ;;
  if blen rest <? len then fail
  else
    '(l, rest') <- read_loop c (S (length rest)) len 0 rest ;;
    Ok (l, len + lw w, rest').

Definition c_vec {T} (w : lenw) (c : codec T) : codec (list T) :=
  Codec (write_vec w c)
        (fun l => n <- size_all c l ;; Ok (lw w + n))
        (read_vec w c).

(** Change of representation (struct fields <-> tuple). *)
Definition c_iso {A B} (to : A -> B) (from : B -> A) (c : codec A) : codec B :=
  Codec (fun b => c_wr c (from b)) (fun b => c_sz c (from b))
        (fun inp => '(a, n, r) <- c_rd c inp ;; Ok (to a, n, r)).

(** Random = std::array<uint8_t,32>; Writer<Random>, Reader<Random>
    (Types-inl.h:211-219, 388-397). *)
Definition write_random (r : bytes) : res bytes := Ok r.
Definition read_random (inp : bytes) : res (bytes * bytes) :=
  match take 32 inp with
  | Some p => Ok p
  | None => Err EThrow
  end.
