(** * protocol/AsyncFizzBase.cpp: the queue of application writes

    writeChain hands the data of a write to writeAppData (implemented by AsyncFizzClient and AsyncFizzServer) at once, or queues it
    and hands it down in pieces.  Queued requests are heap objects linked by [next_]; the model keeps the heap and the pointers, and
    addresses of deleted objects may be used again.
    User callbacks, and the layers below, may call back into the object at any time; the model is a machine with an explicit stack of
    the places where foreign code has been called.
    Not modelled: the exception object, the byte counters appBytesWritten_ and the getters other than getAppBytesBuffered. *)
From Verif Require Import Base.
Open Scope N_scope.

(** kPartialWriteThreshold :29; WriteFlags::CORK (folly) is bit 0 *)
Definition kPartialWriteThreshold : N := 128 * 1024.
Definition CORK : N := 1.

(** QueuedWriteRequest, AsyncFizzBase.h:557-600.  [r_w] identifies the call of writeChain that made it, [r_cb] is whether its callback
    is not null, [r_base] whether asyncFizzBase_ is not null, [r_chain] is entireChainBytesBuffered. *)
Record req := mkReq { r_w : N; r_cb : bool; r_base : bool; r_data : bytes; r_next : option N; r_written : N; r_flags : N; r_chain : N }.

(** The callback given to writeAppData: that of the caller of writeChain, or a request (at address [p]). *)
Inductive target := TUser (w : N) (cb : bool) | TReq (p : N).
(** Places where foreign code has been called and has not returned: writeAppData; a user's write callback called from below;
    writeSuccess of a user, called from QueuedWriteRequest::writeSuccess, with its [next]; writeErr of a user, called from
    deliverSingleWriteErr, with the [next] it returns; readErr or readEOF, called from deliverError; the rest of deliverError. *)
Inductive frame := FLow | FUser | FSucc (next : option N) | FErr (next : option N) | FRead | FAfter.
(** What happens at the interface.  Every write has an outcome, which is reported if its callback is not null. *)
Inductive wev :=
| WCall (w : N) (cb : bool) (data : bytes) (flags : N)     (* writeChain is called: the [w]-th call *)
| WPush (w : N) (b : bytes) (flags : N)                    (* bytes of write [w] are given to writeAppData *)
| WLow (w : N) (ok : bool)                                 (* the layer below reports on a piece of [w] *)
| WOk (w : N) (cb : bool)                                  (* writeSuccess of write [w] *)
| WErr (w : N) (cb : bool) (written : option N).           (* writeErr of write [w]; the count is the layer below's if None *)

(** The members used, the heap, the stack; [wq_out] are the callbacks the layers below hold (their contract). *)
Record wq := mkWq {
  wq_heap : N -> option req; wq_tail : option N; wq_pending : option N; wq_whole : bool (* disablePartialWrites_ *); wq_alive : bool;
  wq_n : N; wq_out : list target; wq_stack : list frame; wq_log : list wev }.
Definition wq_init (whole : bool) : wq := mkWq (fun _ => None) None None whole true 0 [] [] [].

Definition hset (h : N -> option req) (p : N) (r : option req) : N -> option req := fun q => if q =? p then r else h q.
Definition put (s : wq) (p : N) (r : option req) : wq := mkWq (hset (wq_heap s) p r) (wq_tail s) (wq_pending s) (wq_whole s) (wq_alive s) (wq_n s) (wq_out s) (wq_stack s) (wq_log s).
Definition set_tail (s : wq) (t : option N) : wq := mkWq (wq_heap s) t (wq_pending s) (wq_whole s) (wq_alive s) (wq_n s) (wq_out s) (wq_stack s) (wq_log s).
Definition set_pending (s : wq) (t : option N) : wq := mkWq (wq_heap s) (wq_tail s) t (wq_whole s) (wq_alive s) (wq_n s) (wq_out s) (wq_stack s) (wq_log s).
Definition enter (s : wq) (f : frame) : wq := mkWq (wq_heap s) (wq_tail s) (wq_pending s) (wq_whole s) (wq_alive s) (wq_n s) (wq_out s) (f :: wq_stack s) (wq_log s).
Definition say (s : wq) (e : wev) : wq := mkWq (wq_heap s) (wq_tail s) (wq_pending s) (wq_whole s) (wq_alive s) (wq_n s) (wq_out s) (wq_stack s) (wq_log s ++ [e]).
Definition hold (s : wq) (t : target) : wq := mkWq (wq_heap s) (wq_tail s) (wq_pending s) (wq_whole s) (wq_alive s) (wq_n s) (t :: wq_out s) (wq_stack s) (wq_log s).
(** Access through a pointer: undefined behaviour if the object is gone. *)
Definition obj (s : wq) (p : N) : res req := match wq_heap s p with Some r => Ok r | None => Err EUB end.
(** Access to *asyncFizzBase_ from a request. *)
Definition base (s : wq) : res unit := if wq_alive s then Ok tt else Err EUB.

(** splitAtMost and move of folly's IOBufQueue.  move would return null, which is dereferenced, if nothing had been appended; but the
    constructor :86-94 appends the caller's buffer, and startWriting is called again only if data is left (:131). *)
Definition split (whole : bool) (data : bytes) : bytes * bytes :=
  if whole then (data, []) else (takeN kPartialWriteThreshold data, dropN kPartialWriteThreshold data).
(** startWriting :96-112; writeAppData is foreign code that now holds the request as its callback *)
Definition startWriting (s : wq) (p : N) : res wq :=
  r <- obj s p ;;
  _ <- base s ;;
  let '(buf, rest) := split (wq_whole s) (r_data r) in
  let flags := match rest with [] => r_flags r | _ => N.lor (r_flags r) CORK end in
  let len := blen buf in
  let s := put s p (Some (mkReq (r_w r) (r_cb r) (r_base r) rest (r_next r) (r_written r + len) (r_flags r) (r_chain r))) in
  _ <- (if r_base r then Ok tt else Err ECheck) ;;
  t <- match wq_tail s with Some t => Ok t | None => Err ECheck end ;;
  rt <- obj s t ;;
  let s := put s t (Some (mkReq (r_w rt) (r_cb rt) (r_base rt) (r_data rt) (r_next rt) (r_written rt) (r_flags rt) ((r_chain rt + 2 ^ 64 - len mod 2 ^ 64) mod 2 ^ 64))) in
  Ok (enter (hold (say s (WPush (r_w r) buf flags)) (TReq p)) FLow).
(** advanceOnBase :182-187 *)
Definition advanceOnBase (s : wq) (p : N) : res wq :=
  r <- obj s p ;;
  match r_next r with
  | None => if r_base r then
      _ <- base s ;;
      match wq_tail s with Some t => if t =? p then Ok (set_tail s None) else Err ECheck | None => Err ECheck end
    else Ok s
  | Some _ => Ok s
  end.
(** writeSuccess :130-152, up to the call of the user's callback.  A null callback is treated as one that is called and can do anything. *)
Definition reqSuccess (s : wq) (p : N) : res wq :=
  r <- obj s p ;;
  match r_data r with
  | _ :: _ => startWriting s p
  | [] =>
      s <- advanceOnBase s p ;;
      let s := put s p None in
      _ <- base s ;;
      match wq_pending s with
      | Some _ => Err ECheck
      | None => Ok (enter (say (set_pending s (r_next r)) (WOk (r_w r) (r_cb r))) (FSucc (r_next r)))
      end
  end.
(** and after it (:147-150); the object is alive, as the guard of :140 holds it *)
Definition afterSuccess (s : wq) (next : option N) : res wq :=
  _ <- base s ;;
  match next, wq_pending s with
  | Some n, Some q => if q =? n then startWriting (set_pending s None) n else Ok s
  | _, _ => Ok s
  end.
(** deliverSingleWriteErr :166-180, up to the user's callback; the loop of writeErr :154-164 goes on when it returns *)
Definition reqErr (s : wq) (p : N) : res wq :=
  r <- obj s p ;;
  s <- advanceOnBase s p ;;
  Ok (enter (say (put s p None) (WErr (r_w r) (r_cb r) (Some (r_written r)))) (FErr (r_next r))).
(** deliverError :317-358 after the read callback: fail (:125-128) the request about to be started *)
Definition failPending (s : wq) : res wq :=
  let s := enter s FAfter in
  match wq_pending s with
  | Some q => reqErr (set_pending s None) q
  | None => Ok s
  end.

(** writeChain :189-220 with data in a buffer that is [shared]; [buffering]: the transport has bytes buffered; [early]: connecting or not
    replay safe; [addr]: where a new request is allocated *)
Definition writeChain (s : wq) (cb : bool) (data : bytes) (flags : N) (shared buffering early : bool) (addr : N) : res wq :=
  let w := wq_n s in
  let s := mkWq (wq_heap s) (wq_tail s) (wq_pending s) (wq_whole s) (wq_alive s) (w + 1) (wq_out s) (wq_stack s) (wq_log s ++ [WCall w cb data flags]) in
  let large := negb (wq_whole s) && (kPartialWriteThreshold <? blen data) in
  let needs := (large || buffering) && shared && negb early in
  match wq_tail s with
  | Some t =>
      rt <- obj s t ;;
      let s := put s addr (Some (mkReq w cb true data None 0 flags (blen data))) in
      (* append :114-119 *)
      _ <- match r_next rt with None => Ok tt | Some _ => Err ECheck end ;;
      let s := put s t (Some (mkReq (r_w rt) (r_cb rt) (r_base rt) (r_data rt) (Some addr) (r_written rt) (r_flags rt) 0)) in
      let s := put s addr (Some (mkReq w cb true data None 0 flags ((blen data + r_chain rt) mod 2 ^ 64))) in
      Ok (set_tail s (Some addr))
  | None =>
      if needs then
        let s := put s addr (Some (mkReq w cb true data None 0 flags (blen data mod 2 ^ 64))) in
        startWriting (set_tail s (Some addr)) addr
      else Ok (enter (hold (say s (WPush w data flags)) (TUser w cb)) FLow)
  end.
(** getAppBytesBuffered :230-234, the part of the queue *)
Definition queueBuffered (s : wq) : res N := match wq_tail s with Some t => r <- obj s t ;; Ok (r_chain r) | None => Ok 0 end.

(** ~AsyncFizzBase :41-46 *)
Definition destruct (s : wq) : res wq :=
  let s' := mkWq (wq_heap s) (wq_tail s) (wq_pending s) (wq_whole s) false (wq_n s) (wq_out s) (wq_stack s) (wq_log s) in
  match wq_tail s with
  | Some t => r <- obj s t ;; Ok (put s' t (Some (mkReq (r_w r) (r_cb r) false (r_data r) (r_next r) (r_written r) (r_flags r) (r_chain r))))
  | None => Ok s'
  end.

(** ** The moves of foreign code *)
Inductive move :=
| MWrite (cb : bool) (data : bytes) (flags : N) (shared buffering early : bool) (addr : N)
| MReport (t : target) (ok : bool)          (* the layers below call writeSuccess or writeErr of a callback they hold, once *)
| MDeliverError (reader : bool)             (* deliverError is called, with a read callback set or not *)
| MReturn                                   (* the foreign code on top of the stack returns *)
| MDestroy.
Definition teq (a b : target) : bool := match a, b with TUser x _, TUser y _ | TReq x, TReq y => x =? y | _, _ => false end.
Fixpoint drop1 (t : target) (l : list target) : list target := match l with [] => [] | x :: r => if teq t x then r else x :: drop1 t r end.
Definition release (s : wq) (t : target) : wq := mkWq (wq_heap s) (wq_tail s) (wq_pending s) (wq_whole s) (wq_alive s) (wq_n s) (drop1 t (wq_out s)) (wq_stack s) (wq_log s).
Definition leave (s : wq) (stk : list frame) : wq := mkWq (wq_heap s) (wq_tail s) (wq_pending s) (wq_whole s) (wq_alive s) (wq_n s) (wq_out s) stk (wq_log s).
Definition may_die (f : frame) : bool := match f with FUser | FErr _ => true | _ => false end.
(** What the caller of the object may do: no calls after its destruction; it is not destroyed while a DestructorGuard is held or one of
    its functions is running (other than from the loop of writeErr, which holds no guard); the allocator returns unused addresses; the
    layers below report only on callbacks they hold, and, once the object is destroyed, only errors. *)
Definition allowed (s : wq) (m : move) : Prop :=
  match m with
  | MWrite _ _ _ _ _ _ addr => wq_alive s = true /\ wq_heap s addr = None
  | MReport t ok => In t (wq_out s) /\ (wq_alive s = true \/ ok = false)
  | MDeliverError _ => wq_alive s = true
  | MReturn => wq_stack s <> []
  | MDestroy => wq_alive s = true /\ forallb may_die (wq_stack s) = true
  end.
Definition wstep (s : wq) (m : move) : res wq :=
  match m with
  | MWrite cb data flags shared buffering early addr => writeChain s cb data flags shared buffering early addr
  | MReport t ok =>
      let s := release s t in
      match t with
      | TUser w cb => Ok (enter (say (say s (WLow w ok)) (if ok then WOk w cb else WErr w cb None)) FUser)
      | TReq p =>
          r <- obj s p ;;
          let s := say s (WLow (r_w r) ok) in
          if ok then reqSuccess s p else reqErr s p
      end
  | MDeliverError true => Ok (enter s FRead)
  | MDeliverError false => failPending s
  | MReturn =>
      match wq_stack s with
      | [] => Ok s
      | f :: stk =>
          let s := leave s stk in
          match f with
          | FLow | FUser | FAfter | FErr None => Ok s
          | FSucc next => afterSuccess s next
          | FErr (Some n) => reqErr s n
          | FRead => failPending s
          end
      end
  | MDestroy => destruct s
  end.
(** A history: any allowed moves. *)
Inductive whist (whole : bool) : wq -> Prop :=
| wh_init : whist whole (wq_init whole)
| wh_step s m s' : whist whole s -> allowed s m -> wstep s m = Ok s' -> whist whole s'.
