(** * experimental/ktls/AsyncKTLSSocket.cpp: AsyncKTLSRxSocket's queue of writes

    A large write of a shared buffer is handed to the record layer in pieces, as a request whose callback is called by the socket below; later writes wait behind it.
    The requests, linked by next_, are a list here (the pointers of the same queue of AsyncFizzBase are modelled in AsyncWrite).  User callbacks, and the socket below, may
    call writeChain again: the machine has a stack of the foreign code that has been called and has not returned.
    Not modelled: destruction, a record layer that fails (writeAppData then throws), the counters appBytesWritten_ and entireChainBytesBuffered. *)
From Verif Require Import Base.
Open Scope N_scope.

(** kPartialWriteThreshold :308; WriteFlags::CORK (folly) is bit 0 *)
Definition kThreshold : N := 128 * 1024.
Definition kCork : N := 1.
(** QueuedWriteRequest, AsyncKTLSSocket.h:222-262; [k_w]: the call of writeChain that made it *)
Record kreq := mkKreq { k_w : N; k_cb : bool; k_data : bytes; k_flags : N; k_written : N }.
(** The callback given to AsyncSocket::writeChain: the caller's, or the request at the front *)
Inductive ktarget := KUser (w : N) (cb : bool) | KReq.
(** Foreign code called: AsyncSocket::writeChain or a user's callback, after which nothing is left to do; a user's writeSuccess, after which the next request is started;
    a user's writeErr, after which the next request is failed *)
Inductive kframe := KDone | KStart | KFail.
Inductive kev :=
| KCall (w : N) (data : bytes) (flags : N)                 (* writeChain is called: the [w]-th call *)
| KPush (w : N) (queued : bool) (b : bytes) (flags : N)    (* bytes of write [w] are given to the record layer, with the callback of a request or of the user *)
| KOk (w : N) (cb : bool)                                  (* writeSuccess of write [w], if it has a callback *)
| KErr (w : N) (cb : bool) (written : option N).           (* writeErr; the count is the socket's if None *)
Record kq := mkKq { kq_q : list kreq; kq_held : list ktarget; kq_n : N; kq_stack : list kframe; kq_log : list kev }.
Definition kq_init : kq := mkKq [] [] 0 [] [].

(** writeAppData :426-439: the socket gets the record and the callback only if there is data to send.  (The record layer's output is empty exactly if its input is: C80_rx_write.) *)
Definition kpush (s : kq) (t : ktarget) (w : N) (b : bytes) (flags : N) : kq :=
  let log := kq_log s ++ [KPush w (match t with KReq => true | _ => false end) b flags] in
  match b with
  | [] => mkKq (kq_q s) (kq_held s) (kq_n s) (kq_stack s) log
  | _ => mkKq (kq_q s) (t :: kq_held s) (kq_n s) (KDone :: kq_stack s) log
  end.
(** startWriting :310-324, of the request at the front *)
Definition kstart (s : kq) : kq :=
  match kq_q s with
  | [] => s
  | r :: q =>
      let buf := takeN kThreshold (k_data r) in
      let rest := dropN kThreshold (k_data r) in
      let flags := match rest with [] => k_flags r | _ => N.lor (k_flags r) kCork end in
      kpush (mkKq (mkKreq (k_w r) (k_cb r) rest (k_flags r) (k_written r + blen buf) :: q) (kq_held s) (kq_n s) (kq_stack s) (kq_log s)) KReq (k_w r) buf flags
  end.
(** writeChain :394-424; [buffering]: the transport has bytes buffered; [early]: connecting or not replay safe *)
Definition kwrite (s : kq) (cb : bool) (data : bytes) (flags : N) (shared buffering early : bool) : kq :=
  let w := kq_n s in
  let s := mkKq (kq_q s) (kq_held s) (w + 1) (kq_stack s) (kq_log s ++ [KCall w data flags]) in
  let needs := ((kThreshold <? blen data) || buffering) && shared && negb early in
  let r := mkKreq w cb data flags 0 in
  match kq_q s with
  | _ :: _ => mkKq (kq_q s ++ [r]) (kq_held s) (kq_n s) (kq_stack s) (kq_log s)
  | [] => if needs then kstart (mkKq [r] (kq_held s) (kq_n s) (kq_stack s) (kq_log s)) else kpush s (KUser w cb) w data flags
  end.
(** deliverSingleWriteErr :371-385 of the request at the front, to the user's callback; the loop of writeErr :359-369 goes on with the next one *)
Definition kfail (s : kq) : kq :=
  match kq_q s with
  | [] => s
  | r :: q => mkKq q (kq_held s) (kq_n s) ((match q with [] => KDone | _ => KFail end) :: kq_stack s) (kq_log s ++ [KErr (k_w r) (k_cb r) (Some (k_written r))])
  end.
(** writeSuccess :338-357 of the request at the front, to the user's callback *)
Definition ksuccess (s : kq) : kq :=
  match kq_q s with
  | [] => s
  | r :: q => match k_data r with
      | _ :: _ => kstart s
      | [] => mkKq q (kq_held s) (kq_n s) ((match q with [] => KDone | _ => KStart end) :: kq_stack s) (kq_log s ++ [KOk (k_w r) (k_cb r)])
      end
  end.
Inductive kmove :=
| KWrite (cb : bool) (data : bytes) (flags : N) (shared buffering early : bool)
| KReport (t : ktarget) (ok : bool)       (* the socket below calls writeSuccess or writeErr of a callback it holds *)
| KReturn.                                (* the foreign code called last returns *)
Definition kteq (a b : ktarget) : bool := match a, b with KUser x _, KUser y _ => x =? y | KReq, KReq => true | _, _ => false end.
Fixpoint kdrop (t : ktarget) (l : list ktarget) : list ktarget := match l with [] => [] | x :: r => if kteq t x then r else x :: kdrop t r end.
(** The socket below reports on callbacks it holds, once, in any order, at any time. *)
Definition kallowed (s : kq) (m : kmove) : Prop := match m with KWrite _ _ _ _ _ _ => True | KReport t _ => In t (kq_held s) | KReturn => kq_stack s <> [] end.
Definition kstep (s : kq) (m : kmove) : kq :=
  match m with
  | KWrite cb data flags shared buffering early => kwrite s cb data flags shared buffering early
  | KReport t ok =>
      let s := mkKq (kq_q s) (kdrop t (kq_held s)) (kq_n s) (kq_stack s) (kq_log s) in
      match t with
      | KUser w cb => mkKq (kq_q s) (kq_held s) (kq_n s) (KDone :: kq_stack s) (kq_log s ++ [if ok then KOk w cb else KErr w cb None])
      | KReq => if ok then ksuccess s else kfail s
      end
  | KReturn =>
      match kq_stack s with
      | [] => s
      | f :: k =>
          let s := mkKq (kq_q s) (kq_held s) (kq_n s) k (kq_log s) in
          match f with KDone => s | KStart => kstart s | KFail => kfail s end
      end
  end.
Inductive khist : kq -> kq -> Prop :=
| kh_nil s : khist s s
| kh_step s s' m : khist s s' -> kallowed s' m -> khist s (kstep s' m).
