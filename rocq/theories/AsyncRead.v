(** * protocol/AsyncFizzBase.cpp: delivery of application data and read errors

    The user's read callback and the layers below may call back into the object at any time; the model is a machine with an explicit
    stack.  Not modelled: the buffers themselves (bytes are lists; a null appDataBuf_ is None), the write side of deliverError (C69)
    and the clearing of the secret callback; isBufferMovable and getReadBuffer call nothing, and isBufferMovable does not change its
    answer between two calls that are not separated by a delivery. *)
From Verif Require Import Base.
Open Scope N_scope.

(** kMaxBufSize :23 *)
Definition kMaxBufSize : N := 64 * 1024.

(** Who has been called and has not returned, inner first.  [FCall]: a method called by foreign code ([guarded]: with a DestructorGuard on
    the object); [FSetK]: setReadCB, in deliverAppData; the others are foreign code called by deliverAppData (readDataAvailable, with the
    data still to be given; readBufferAvailable), by deliverError (readErr or readEOF; then write callbacks and transport_->close()) and
    by setReadCB (transport_->setReadCB). *)
Inductive rframe := FCall (guarded : bool) | FSetK | FPull (rest : bytes) | FMoved | FErrCb | FTail (delivered : bool) | FStart.
Inductive rctl := Foreign | Returning.
Inductive rdev :=
| RRecv (d : bytes)                  (* application data from the state machine *)
| RSet (c : option N)                (* setReadCB *)
| RError (ex : N)                    (* an error from below, or setReadCB was called in a bad state *)
| RGive (c : N) (d : bytes)          (* data given to read callback [c] *)
| RFail (lost : bytes)               (* getReadBuffer threw or returned no buffer *)
| RErr (c : N) (ex : N).             (* readErr or readEOF of read callback [c] *)
(** readCallback_, appDataBuf_, pendingReadEx_, whether the object is alive, and whether it is installed as reader of the transport. *)
(** [rd_dying]: destroy() has been called *)
Record rd := mkRd { rd_cb : option N; rd_buf : option bytes; rd_pend : option N; rd_alive : bool; rd_dying : bool; rd_reading : bool; rd_stack : list rframe; rd_ctl : rctl; rd_log : list rdev }.
Definition rd_init : rd := mkRd None None None true false true [] Foreign [].
(** What foreign code answers in a step: isBufferMovable, the space of getReadBuffer (None: it throws), good(), the length of transportReadBuf_. *)
Record rquery := mkRq { q_movable : bool; q_space : option N; q_good : bool; q_tlen : N }.
(** exceptions made here: getReadBuffer failed; setReadCB in bad state *)
Definition exBadArgs : N := 1.
Definition exNotOpen : N := 2.

Definition rsay (s : rd) (e : rdev) : rd := mkRd (rd_cb s) (rd_buf s) (rd_pend s) (rd_alive s) (rd_dying s) (rd_reading s) (rd_stack s) (rd_ctl s) (rd_log s ++ [e]).
Definition rset_cb (s : rd) (c : option N) : rd := mkRd c (rd_buf s) (rd_pend s) (rd_alive s) (rd_dying s) (rd_reading s) (rd_stack s) (rd_ctl s) (rd_log s).
Definition rset_buf (s : rd) (b : option bytes) : rd := mkRd (rd_cb s) b (rd_pend s) (rd_alive s) (rd_dying s) (rd_reading s) (rd_stack s) (rd_ctl s) (rd_log s).
Definition rset_pend (s : rd) (p : option N) : rd := mkRd (rd_cb s) (rd_buf s) p (rd_alive s) (rd_dying s) (rd_reading s) (rd_stack s) (rd_ctl s) (rd_log s).
Definition rset_reading (s : rd) (b : bool) : rd := mkRd (rd_cb s) (rd_buf s) (rd_pend s) (rd_alive s) (rd_dying s) b (rd_stack s) (rd_ctl s) (rd_log s).
Definition rset_stack (s : rd) (k : list rframe) : rd := mkRd (rd_cb s) (rd_buf s) (rd_pend s) (rd_alive s) (rd_dying s) (rd_reading s) k (rd_ctl s) (rd_log s).
(** Call foreign code; return. *)
Definition rcall (s : rd) (f : rframe) : rd := mkRd (rd_cb s) (rd_buf s) (rd_pend s) (rd_alive s) (rd_dying s) (rd_reading s) (f :: rd_stack s) Foreign (rd_log s).
Definition rret (s : rd) : rd := mkRd (rd_cb s) (rd_buf s) (rd_pend s) (rd_alive s) (rd_dying s) (rd_reading s) (rd_stack s) Returning (rd_log s).

(** checkBufLen :488-494 *)
Definition checkBufLen (s : rd) (q : rquery) : rd :=
  match rd_cb s with
  | Some _ => s
  | None => if (kMaxBufSize <=? q_tlen q) || (match rd_buf s with Some b => kMaxBufSize <=? blen b | None => false end) then rset_reading s false else s
  end.
(** deliverError :317-358 *)
Definition deliverError (s : rd) (ex : N) : rd :=
  match rd_cb s with
  | Some c => rcall (rsay (rset_cb s None) (RErr c ex)) FErrCb
  | None => rcall (match rd_pend s with None => rset_pend s (Some ex) | Some _ => s end) (FTail false)
  end.
(** the loop of deliverAppData :260-315, up to the next call of foreign code *)
Definition pump (s : rd) (data : option bytes) (q : rquery) : rd :=
  match data with
  | None => rret (checkBufLen s q)
  | Some d =>
      match rd_cb s with
      | None => rret (checkBufLen (rset_buf s (Some d)) q)
      | Some c =>
          if q_movable q then rcall (rsay s (RGive c d)) FMoved
          else match d with
          | [] => rret (checkBufLen s q)
          | _ :: _ =>
              match q_space q with
              | None | Some 0 => deliverError (rsay s (RFail d)) exBadArgs
              | Some n => rcall (rsay s (RGive c (takeN n d))) (FPull (dropN n d))
              end
          end
      end
  end.
(** deliverAppData :247-258 *)
Definition deliverAppData (s : rd) (data : option bytes) (q : rquery) : rd :=
  match rd_buf s with
  | Some b => pump (rset_buf s None) (Some (b ++ match data with Some d => d | None => [] end)) q
  | None => pump s data q
  end.
(** setReadCB :71-82, after deliverAppData *)
Definition setRest (s : rd) (q : rquery) : rd :=
  match rd_cb s, rd_pend s with
  | Some _, Some ex => deliverError (rset_pend s None) ex
  | _, _ => if q_good q then rcall (rset_reading s true) FStart else deliverError (rsay s (RError exNotOpen)) exNotOpen
  end.
(** setReadCB :63-84 *)
Definition setReadCB (s : rd) (c : option N) (q : rquery) : rd :=
  let s := rset_cb s c in
  match c with
  | None => rret s
  | Some _ => match rd_buf s with
      | Some _ => deliverAppData (rset_stack s (FSetK :: rd_stack s)) None q
      | None => setRest s q
      end
  end.

(** ** Moves of foreign code *)
Inductive rmove :=
| RMArrive (d : bytes) (q : rquery)          (* the state machine's DeliverAppData *)
| RMSet (c : option N) (q : rquery)
| RMError (ex : N)                           (* deliverError, e.g. from transportError *)
| RMReturn (q : rquery)                      (* the foreign code returns *)
| RMGo (q : rquery)                          (* the object's own code goes on *)
| RMDestroy.                                 (* destroy(), which waits for guards *)
Definition guard (f : rframe) : bool := match f with FCall g => g | FErrCb | FTail _ => true | _ => false end.
Definition is_foreign (f : rframe) : bool := match f with FCall _ | FSetK => false | _ => true end.
Definition rallowed (s : rd) (m : rmove) : Prop :=
  match m with
  | RMArrive _ _ | RMSet _ _ | RMError _ | RMDestroy => rd_ctl s = Foreign /\ rd_alive s = true
  | RMReturn _ => rd_ctl s = Foreign /\ exists f k, rd_stack s = f :: k /\ is_foreign f = true
  | RMGo _ => rd_ctl s = Returning
  end.
(** The object is deleted when it is to be destroyed and no guard is held. *)
Definition settle (s : rd) : rd :=
  if rd_dying s && negb (existsb guard (rd_stack s)) then mkRd (rd_cb s) (rd_buf s) (rd_pend s) false (rd_dying s) (rd_reading s) (rd_stack s) (rd_ctl s) (rd_log s) else s.
Definition alive (s : rd) : res unit := if rd_alive s then Ok tt else Err EUB.
Definition rstep (s : rd) (m : rmove) : res rd :=
  match m with
  | RMArrive d q => Ok (deliverAppData (rsay (rset_stack s (FCall true :: rd_stack s)) (RRecv d)) (Some d) q)
  | RMSet c q => Ok (setReadCB (rsay (rset_stack s (FCall false :: rd_stack s)) (RSet c)) c q)
  | RMError ex => Ok (deliverError (rsay (rset_stack s (FCall true :: rd_stack s)) (RError ex)) ex)
  | RMDestroy => Ok (settle (mkRd (rd_cb s) (rd_buf s) (rd_pend s) (rd_alive s) true (rd_reading s) (rd_stack s) (rd_ctl s) (rd_log s)))
  | RMReturn q =>
      match rd_stack s with
      | FPull rest :: k => _ <- alive s ;; Ok (pump (rset_stack s k) (match rest with [] => None | _ => Some rest end) q)
      | FErrCb :: k => _ <- alive s ;; Ok (rcall (rset_stack s k) (FTail true))
      | FTail delivered :: k => _ <- alive s ;; Ok (settle (rret (if delivered then rset_pend (rset_stack s k) None else rset_stack s k)))
      | _ :: k => Ok (rret (rset_stack s k))
      | [] => Err ECheck
      end
  | RMGo q =>
      match rd_stack s with
      | FSetK :: k => _ <- alive s ;; Ok (setRest (rset_stack s k) q)
      | FCall _ :: k => Ok (settle (mkRd (rd_cb s) (rd_buf s) (rd_pend s) (rd_alive s) (rd_dying s) (rd_reading s) k Foreign (rd_log s)))
      | _ => Err ECheck
      end
  end.
(** Histories: any moves that are allowed and satisfy [P]. *)
Inductive rhist (P : rd -> rmove -> Prop) : rd -> Prop :=
| rh_init : rhist P rd_init
| rh_step s m s' : rhist P s -> rallowed s m -> P s m -> rstep s m = Ok s' -> rhist P s'.
