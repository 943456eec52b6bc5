(** * server/AsyncFizzServer-inl.h with server/FizzServer-inl.h: the handshake callback, writes and the version fallback

    Foreign code (callbacks, the transport, the layers below) may call back into the object at any time; the model is a machine with an
    explicit stack of the foreign code that has been called and has not returned.  The state machine's actions come one at a time and may come
    at any time, which allows more than the event loop does (C32); what the state machine does is not modelled here (Server.v).  Not
    modelled: lifetime (DestructorGuard), getters, secrets, tickets, key updates, what deliverError does (C69, C70), pause, and
    AsyncFizzBase::wroteApplicationBytes. *)
From Verif Require Import Base AsyncEarly.
Open Scope N_scope.

(** state_.state(): Closed, Error, or any other *)
Inductive sterm := TRunning | TClosed | TError.
Inductive sact :=
| ASuccess (early : bool)            (* ReportEarlyHandshakeSuccess, ReportHandshakeSuccess *)
| AError                             (* ReportError *)
| AFallback (hello : bytes)          (* AttemptVersionFallback *)
| AEnd                               (* EndOfData *)
| AMutate (t : sterm)                (* MutateState *)
| AWait                              (* WaitForData *)
| AOther.                            (* DeliverAppData, WriteToSocket, SecretAvailable: calls of foreign code *)
(** What foreign code answers: transport_->good() (and not transport_->error(), which a good transport does not report); transport_->connecting(); endOfTLSCallback_ is set *)
Record squery := mkSq { sq_good : bool; sq_conn : bool; sq_eot : bool }.
Inductive sev :=
| SAccept                            (* accept *)
| SRecv (d : bytes)                  (* bytes arrived from the transport *)
| STake (d : bytes)                  (* the state machine read these bytes *)
| SAct (a : sact) (q : squery)       (* an action of the state machine *)
| SBroken                            (* transportError was called: an error or the end of the transport, or the handshake timed out *)
| SClose (now : bool) (q : squery)   (* close; closeNow or closeWithReset *)
| SImmediate                         (* fizzServer_.appCloseImmediate() *)
| SFail                              (* deliverAllErrors was entered *)
| SV2 (b : bytes)                    (* the bytes that arrived look like an SSLv2 ClientHello *)
| SHsOk | SHsErr | SHsFallback (b : bytes)    (* the handshake callback *)
| SWrite (w : wr)                    (* a write was taken *)
| SRefuse (w : wr)                   (* a write was refused; writeErr if it has a callback *)
| SApp (w : wr)                      (* the state machine was given the write *)
| SErr (w : wr)                      (* the write fails; writeErr if it has a callback *)
| SDeliver (close : bool).           (* deliverError *)
(** Foreign code that has been called, and what is left to be done after it: nothing; moveToErrorState and deliverError (the handshake
    callback was called by deliverAllErrors); the rest of moveToErrorState's loop and deliverError; deliverAllErrors (the
    handshake callback was called by ReportError; or appCloseImmediate by closeNow, which does not close the transport in it). *)
Inductive sframe := KDown | KHsErr (close : bool) | KFlush (close : bool) | KAll (close : bool).
(** handshakeCallback_, state_.state(), externalError_, checkV2Hello_, waitForData_, transportReadBuf_, the writes in pendingEvents_ *)
Record asv := mkAsv { as_cb : bool; as_term : sterm; as_ext : bool; as_v2 : bool; as_wait : bool; as_buf : bytes; as_pend : list wr; as_stack : list sframe; as_log : list sev }.
Definition as_init : asv := mkAsv false TRunning false false true [] [] [] [].
Definition ssay (s : asv) (e : sev) : asv := mkAsv (as_cb s) (as_term s) (as_ext s) (as_v2 s) (as_wait s) (as_buf s) (as_pend s) (as_stack s) (as_log s ++ [e]).
Definition scall (s : asv) (f : sframe) : asv := mkAsv (as_cb s) (as_term s) (as_ext s) (as_v2 s) (as_wait s) (as_buf s) (as_pend s) (f :: as_stack s) (as_log s).
Definition sset_cb (s : asv) (b : bool) : asv := mkAsv b (as_term s) (as_ext s) (as_v2 s) (as_wait s) (as_buf s) (as_pend s) (as_stack s) (as_log s).
Definition sset_term (s : asv) (t : sterm) : asv := mkAsv (as_cb s) t (as_ext s) (as_v2 s) (as_wait s) (as_buf s) (as_pend s) (as_stack s) (as_log s).
Definition sset_ext (s : asv) (b : bool) : asv := mkAsv (as_cb s) (as_term s) b (as_v2 s) (as_wait s) (as_buf s) (as_pend s) (as_stack s) (as_log s).
Definition sset_v2 (s : asv) (b : bool) : asv := mkAsv (as_cb s) (as_term s) (as_ext s) b (as_wait s) (as_buf s) (as_pend s) (as_stack s) (as_log s).
Definition sset_wait (s : asv) (b : bool) : asv := mkAsv (as_cb s) (as_term s) (as_ext s) (as_v2 s) b (as_buf s) (as_pend s) (as_stack s) (as_log s).
Definition sset_buf (s : asv) (b : bytes) : asv := mkAsv (as_cb s) (as_term s) (as_ext s) (as_v2 s) (as_wait s) b (as_pend s) (as_stack s) (as_log s).
Definition sset_pend (s : asv) (l : list wr) : asv := mkAsv (as_cb s) (as_term s) (as_ext s) (as_v2 s) (as_wait s) (as_buf s) l (as_stack s) (as_log s).
Definition sset_stack (s : asv) (k : list sframe) : asv := mkAsv (as_cb s) (as_term s) (as_ext s) (as_v2 s) (as_wait s) (as_buf s) (as_pend s) k (as_log s).

(** inTerminalState, FizzBase-inl.h:117-121; good :46-48 *)
Definition sterminal (s : asv) : bool := as_ext s || match as_term s with TRunning => false | _ => true end.
Definition sgood (s : asv) (q : squery) : bool := negb (sterminal s) && sq_good q.

(** moveToErrorState's loop, FizzBase-inl.h:75-97, then deliverError, AsyncFizzServer-inl.h:290 *)
Fixpoint sflush (s : asv) (l : list wr) (close : bool) : asv :=
  match l with
  | [] => scall (ssay (sset_pend s []) (SDeliver close)) KDown
  | w :: r => if wr_cb w then scall (ssay (sset_pend s r) (SErr w)) (KFlush close) else sflush (ssay s (SErr w)) r close
  end.
(** moveToErrorState, FizzBase-inl.h:64-74 *)
Definition smove (s : asv) (close : bool) : asv :=
  if as_ext s then scall (ssay s (SDeliver close)) KDown else sflush (sset_ext s true) (as_pend s) close.
(** deliverAllErrors :278-291 with deliverHandshakeError :294-300 *)
Definition sdeliverAll (s : asv) (close : bool) : asv :=
  let s := ssay s SFail in
  if as_cb s then scall (ssay (sset_cb s false) SHsErr) (KHsErr close) else smove s close.
(** transportError :249-253 *)
Definition stransportError (s : asv) : asv := sdeliverAll (ssay s SBroken) true.

(** writeAppData :220-246; FizzBase::appWrite *)
Definition swrite (s : asv) (w : wr) (q : squery) : asv :=
  if sgood s q then ssay (sset_pend s (as_pend s ++ [w])) (SWrite w)
  else let s := ssay s (SRefuse w) in if wr_cb w then scall s KDown else s.
(** the fallback action :391-410 *)
Definition sfallback (s : asv) (hello : bytes) : asv :=
  if as_cb s then scall (ssay (sset_buf (sset_cb s false) []) (SHsFallback (hello ++ as_buf s))) KDown else s.
(** looksLikeV2ClientHello, FizzServer.cpp:14-29: [byte1 & 0x80] *)
Definition looksLikeV2 (b : bytes) : bool :=
  match b with b1 :: _ :: b3 :: _ => (128 <=? Byte.to_N b1) && (Byte.to_N b3 =? 1) | _ => false end.
(** newTransportData, FizzServer-inl.h:26-49, FizzBase-inl.h:57-60; [busy]: actionProcessing() *)
Definition snewData (s : asv) (busy : bool) : asv :=
  if as_v2 s && negb busy && looksLikeV2 (as_buf s) then
    sfallback (sset_buf (sset_term (ssay s (SV2 (as_buf s))) TError) []) (as_buf s)
  else sset_wait (sset_v2 s false) false.
(** ActionMoveVisitor :308-431 *)
Definition sact_visit (s : asv) (a : sact) (q : squery) : asv :=
  let s := ssay s (SAct a q) in
  match a with
  | ASuccess _ => if sgood s q then (if as_cb s then scall (ssay (sset_cb s false) SHsOk) KDown else s) else stransportError s
  | AError => if as_cb s then scall (ssay (sset_cb s false) SHsErr) (KAll true) else sdeliverAll s true
  | AFallback hello => sfallback s hello
  | AEnd => if as_cb s || sq_conn q then stransportError s                                (* AsyncFizzBase.cpp:505-511 *)
            else if sq_eot q then scall s KDown else stransportError s                    (* :513-521 *)
  | AMutate t => sset_term s t
  | AWait => sset_wait s true
  | AOther => scall s KDown
  end.

(** ** Moves *)
Inductive smv :=
| MAccept
| MWrite (w : wr) (q : squery)
| MData (d : bytes) (busy : bool)
| MTake (n : N)
| MApp
| MAct (a : sact) (q : squery)
| MBroken
| MClose (q : squery)                 (* close :102-113 *)
| MCloseNow (q : squery)              (* closeNow :162-172, closeWithReset :149-160 *)
| MReturn.
Definition is_accept (e : sev) : bool := match e with SAccept => true | _ => false end.
Definition swrites (L : list sev) : list wr := concat (map (fun e => match e with SWrite w | SRefuse w => [w] | _ => [] end) L).
(** accept is called once; the transport is read only after that (startTransportReads), and the state machine's actions follow it; the event
    loop reads or hands over a write only as in FizzBase-inl.h:170-212. *)
Definition sallowed (s : asv) (m : smv) : Prop :=
  match m with
  | MAccept => existsb is_accept (as_log s) = false
  | MWrite w _ => ~ In (wr_id w) (map wr_id (swrites (as_log s)))
  | MData _ _ | MAct _ _ => existsb is_accept (as_log s) = true
  | MTake n => sterminal s = false /\ as_wait s = false /\ n <= blen (as_buf s)
  | MApp => sterminal s = false /\ as_wait s = true /\ as_pend s <> []
  | MBroken | MClose _ | MCloseNow _ => True
  | MReturn => as_stack s <> []
  end.
(** [v2]: context->getVersionFallbackEnabled() *)
Definition sstep (v2 : bool) (s : asv) (m : smv) : asv :=
  match m with
  | MAccept => scall (sset_v2 (sset_cb (ssay s SAccept) true) v2) KDown
  | MWrite w q => swrite s w q
  | MData d busy => snewData (sset_buf (ssay s (SRecv d)) (as_buf s ++ d)) busy
  | MTake n => sset_buf (ssay s (STake (takeN n (as_buf s)))) (dropN n (as_buf s))
  | MApp => match as_pend s with [] => s | w :: r => ssay (sset_pend s r) (SApp w) end
  | MAct a q => sact_visit s a q
  | MBroken => stransportError s
  | MClose q => let s := ssay s (SClose false q) in if sq_good q then scall (ssay s SImmediate) KDown else sdeliverAll s false
  | MCloseNow q => let s := ssay s (SClose true q) in if sq_good q then scall (ssay s SImmediate) (KAll false) else sdeliverAll s false
  | MReturn =>
      match as_stack s with
      | [] => s
      | f :: k =>
          let s := sset_stack s k in
          match f with
          | KDown => s
          | KHsErr close => smove s close
          | KFlush close => sflush s (as_pend s) close
          | KAll close => sdeliverAll s close
          end
      end
  end.
Inductive shist (v2 : bool) : asv -> Prop :=
| sh_init : shist v2 as_init
| sh_step s m : shist v2 s -> sallowed s m -> shist v2 (sstep v2 s m).
