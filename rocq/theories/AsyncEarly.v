(** * client/AsyncFizzClient-inl.h: application writes before the handshake is complete

    The object (AsyncFizzClientT) sits between the application (or AsyncFizzBase's write queue, AsyncWrite.v) and the state machine with its
    event queue (FizzClient).  The layers below and the application's callbacks may call back into the object; the model is a machine with an
    explicit stack.  Not modelled: the read side (AsyncRead.v), timers, hooks, the PSK cache, write flags, AEAD options, byte counters and
    destruction.  While the actions of the state machine are processed (ReportHandshakeSuccess), appWrite only queues the write in FizzClient
    (protocol/FizzBase-inl.h: processPendingEvents does nothing when called while it runs or while an action is being processed), so no foreign
    code runs in between. *)
From Verif Require Import Base.
Open Scope N_scope.

(** ** client/EarlyDataRejectionPolicy.cpp *)
(** A certificate is represented by its identity (getIdentity). *)
Record epar := mkEpar { ep_version : N; ep_cipher : N; ep_alpn : option bytes; ep_server : option bytes; ep_client : option bytes }.
Definition tls13 : N := 772.        (* ProtocolVersion::tls_1_3 = 0x0304 *)
Definition tls13_26_fb : N := 64282. (* ProtocolVersion::tls_1_3_26_fb = 0xfb1a *)
Definition oeqb (a b : option bytes) : bool := match a, b with Some x, Some y => bytes_eqb x y | None, None => true | _, _ => false end.
(** certIdentityMatch :14-20 *)
Definition certIdentityMatch (a b : option bytes) : bool :=
  match a, b with
  | None, None => true
  | Some x, Some y => bytes_eqb x y
  | _, _ => false
  end.
(** earlyParametersMatch :22-54; [st] the state's, [ed] earlyDataParams *)
Definition earlyParametersMatch (st ed : epar) : bool :=
  if negb (ep_version st =? ep_version ed) && (negb (ep_version st =? tls13) || negb (ep_version ed =? tls13_26_fb)) then false
  else if negb (ep_cipher st =? ep_cipher ed) then false
  else if negb (oeqb (ep_alpn st) (ep_alpn ed)) then false
  else if negb (certIdentityMatch (ep_server st) (ep_server ed)) then false
  else if negb (certIdentityMatch (ep_client st) (ep_client ed)) then false
  else true.

(** ** The object *)
(** A call of writeAppData: a name, the data, and whether there is a write callback. *)
Record wr := mkWr { wr_id : N; wr_data : bytes; wr_cb : bool }.
(** What never changes: fizzContext_->getSendEarlyData(), and whether earlyDataRejectionPolicy_ is AutomaticResend. *)
Record ecfg := mkEcfg { ec_early : bool; ec_resend : bool }.
(** EarlyDataState, AsyncFizzClient.h: remainingEarlyData, pendingAppWrites, resendBuffer (None: empty) *)
Record est := mkEst { es_left : N; es_pend : list wr; es_resend : option bytes }.
Inductive cev :=
| EConnect
| EWrite (w : wr)                                  (* a write was taken *)
| ERefuse (w : wr)                                 (* a write was refused; writeErr if it has a callback *)
| EEarlyOn (max : N)                               (* ReportEarlyHandshakeSuccess *)
| ESuccess (accepted : bool) (st ed : epar)        (* ReportHandshakeSuccess *)
| EEarly (w : wr)                                  (* fizzClient_.earlyAppWrite, with the write's callback *)
| EApp (w : wr)                                    (* fizzClient_.appWrite, with the write's callback *)
| EResend (d : bytes)                              (* fizzClient_.appWrite, without callback *)
| EErr (w : wr)                                    (* the write fails; writeErr if it has a callback *)
| EFail                                            (* deliverAllErrors *)
| EMoved                                           (* fizzClient_.moveToErrorState *)
| EHsErr | EHsOk | EReplaySafe                     (* the handshake callback; the replay safety callback *)
| ESetReplay                                       (* setReplaySafetyCallback *)
| EOk (w : wr)                                     (* ReportEarlyWriteFailed: writeSuccess if it has a callback *)
| EClosed.                                         (* transport_->closeNow() after early data was rejected *)
(** Foreign code that has been called and has not returned, inner first.  [FDown]: nothing is left to be done after it.  The others: the
    handshake callback, a write callback ([early]: in the second loop), moveToErrorState's callbacks and deliverError in deliverAllErrors ([rej]: called because early data
    was rejected), and the handshake callback of ReportHandshakeSuccess. *)
Inductive cframe := FDown | FHsErr (rej : bool) | FErrs (rej early : bool) | FMoved (rej : bool) | FDeliver (rej : bool) | FHsOk.
(** callback_, pendingHandshakeAppWrites_, earlyDataState_, replaySafetyCallback_, whether the state machine has been moved to the error state *)
Record acl := mkAcl { cl_cb : bool; cl_hs : list wr; cl_early : option est; cl_replay : bool; cl_err : bool; cl_stack : list cframe; cl_log : list cev }.
Definition cl_init : acl := mkAcl false [] None false false [] [].
Definition say (s : acl) (e : cev) : acl := mkAcl (cl_cb s) (cl_hs s) (cl_early s) (cl_replay s) (cl_err s) (cl_stack s) (cl_log s ++ [e]).
Definition call (s : acl) (f : cframe) : acl := mkAcl (cl_cb s) (cl_hs s) (cl_early s) (cl_replay s) (cl_err s) (f :: cl_stack s) (cl_log s).
Definition set_cb (s : acl) (b : bool) : acl := mkAcl b (cl_hs s) (cl_early s) (cl_replay s) (cl_err s) (cl_stack s) (cl_log s).
Definition set_hs (s : acl) (l : list wr) : acl := mkAcl (cl_cb s) l (cl_early s) (cl_replay s) (cl_err s) (cl_stack s) (cl_log s).
Definition set_early (s : acl) (e : option est) : acl := mkAcl (cl_cb s) (cl_hs s) e (cl_replay s) (cl_err s) (cl_stack s) (cl_log s).
Definition set_replay (s : acl) (b : bool) : acl := mkAcl (cl_cb s) (cl_hs s) (cl_early s) b (cl_err s) (cl_stack s) (cl_log s).
Definition set_err (s : acl) (b : bool) : acl := mkAcl (cl_cb s) (cl_hs s) (cl_early s) (cl_replay s) b (cl_stack s) (cl_log s).
Definition set_stack (s : acl) (k : list cframe) : acl := mkAcl (cl_cb s) (cl_hs s) (cl_early s) (cl_replay s) (cl_err s) k (cl_log s).

(** isReplaySafe :195-198 *)
Definition isReplaySafe (s : acl) : bool := match cl_early s with Some _ => false | None => true end.
(** writeAppData :317-384, performAppWrite; [good]: good(), [tconn]: transport_->connecting() *)
Definition writeAppData (c : ecfg) (s : acl) (w : wr) (good tconn : bool) : acl :=
  if negb good then let s := say s (ERefuse w) in if wr_cb w then call s FDown else s
  else
    let s := say s (EWrite w) in
    match cl_early s with
    | Some e =>
        let size := blen (wr_data w) in
        if (match es_pend e with [] => false | _ :: _ => true end) || (es_left e <? size)
        then set_early s (Some (mkEst 0 (es_pend e ++ [w]) (es_resend e)))
        else
          let rb := if ec_resend c then Some (match es_resend e with Some b => b | None => [] end ++ wr_data w) else es_resend e in
          call (say (set_early s (Some (mkEst (es_left e - size) (es_pend e) rb))) (EEarly w)) FDown
    | None =>
        if (cl_cb s || tconn) && negb (ec_early c) then set_hs s (cl_hs s ++ [w])
        else call (say s (EApp w)) FDown
    end.
(** deliverAllErrors :411-449, from the loops on, up to the next call of foreign code.  A write without callback is dropped. *)
Fixpoint skip (s : acl) (l : list wr) : acl * option (wr * list wr) :=
  match l with
  | [] => (s, None)
  | w :: l' => if wr_cb w then (say s (EErr w), Some (w, l')) else skip (say s (EErr w)) l'
  end.
Definition errors_early (s : acl) (rej : bool) : acl :=
  match cl_early s with
  | None => call (say (set_err s true) EMoved) (FMoved rej)
  | Some e =>
      match skip s (es_pend e) with
      | (s', Some (_, l)) => call (set_early s' (Some (mkEst (es_left e) l (es_resend e)))) (FErrs rej true)
      | (s', None) => call (say (set_err (set_early s' (Some (mkEst (es_left e) [] (es_resend e)))) true) EMoved) (FMoved rej)
      end
  end.
Definition errors (s : acl) (rej : bool) : acl :=
  match skip s (cl_hs s) with
  | (s', Some (_, l)) => call (set_hs s' l) (FErrs rej false)
  | (s', None) => errors_early (set_hs s' []) rej
  end.
(** deliverAllErrors :411-424; deliverHandshakeError :451-487 *)
Definition deliverAllErrors (s : acl) (rej : bool) : acl :=
  let s := say s EFail in
  if cl_cb s then call (say (set_cb s false) EHsErr) (FHsErr rej) else errors (set_replay s false) rej.
(** ReportEarlyHandshakeSuccess :505-529 *)
Definition earlySuccess (s : acl) (max : N) : acl :=
  let s := set_early (say s (EEarlyOn max)) (Some (mkEst max [] None)) in
  if cl_cb s then call (say (set_cb s false) EHsOk) FDown else s.
Definition flush (s : acl) (l : list wr) : acl := fold_left (fun s w => say s (EApp w)) l s.
(** the rest of ReportHandshakeSuccess :628-634, after the handshake callback *)
Definition replay (s : acl) : acl := if cl_replay s then call (say (set_replay s false) EReplaySafe) FDown else s.
Definition finish (s : acl) : acl := if cl_cb s then call (say (set_cb s false) EHsOk) FHsOk else replay s.
(** handleEarlyReject :531-560: [None] if an error is returned *)
Definition handleEarlyReject (c : ecfg) (s : acl) (e : est) (st ed : epar) : option acl :=
  if ec_resend c then
    if earlyParametersMatch st ed then Some (match es_resend e with Some b => say s (EResend b) | None => s end) else None
  else None.
(** ReportHandshakeSuccess :570-634 *)
Definition success (c : ecfg) (s : acl) (accepted : bool) (st ed : epar) : acl :=
  let s := say s (ESuccess accepted st ed) in
  let s := set_hs (flush s (cl_hs s)) [] in
  match cl_early s with
  | Some e =>
      match (if accepted then Some s else handleEarlyReject c s e st ed) with
      | None => deliverAllErrors s true
      | Some s => finish (set_early (flush s (es_pend e)) None)
      end
  | None => finish s
  end.

(** ** Moves *)
Inductive cmove :=
| MConnect (good : bool)
| MWrite (w : wr) (good tconn : bool)
| MSetReplay
| MEarlyOn (max : N)
| MSuccess (accepted : bool) (st ed : epar)
| MEarlyFailed (w : wr)
| MFail                                           (* deliverAllErrors: transport errors, close, ReportError, connectErr *)
| MReturn.
Definition is_connect (e : cev) : bool := match e with EConnect => true | _ => false end.
Definition is_on (e : cev) : bool := match e with EEarlyOn _ => true | _ => false end.
Definition is_success (e : cev) : bool := match e with ESuccess _ _ _ => true | _ => false end.
Definition writes (L : list cev) : list wr := concat (map (fun e => match e with EWrite w | ERefuse w => [w] | _ => [] end) L).
(** What the environment may do: writes follow connect and have new names; connect is called once; the state machine reports the completed
    handshake once, and before that the early one, only if early data is to be sent; good() is false in the error state; a transport whose handshake
    is complete is not connecting; the replay safety callback is not set when there is nothing to wait for (DCHECK :202). *)
Definition callowed (c : ecfg) (s : acl) (m : cmove) : Prop :=
  match m with
  | MConnect _ => existsb is_connect (cl_log s) = false
  | MWrite w good tconn => existsb is_connect (cl_log s) = true /\ ~ In (wr_id w) (map wr_id (writes (cl_log s))) /\ (cl_err s = true -> good = false) /\ (existsb is_success (cl_log s) = true -> tconn = false)
  | MSetReplay => isReplaySafe s = false
  | MEarlyOn _ => ec_early c = true /\ existsb is_connect (cl_log s) = true /\ existsb is_on (cl_log s) = false /\ existsb is_success (cl_log s) = false /\ cl_err s = false
  | MSuccess _ _ _ => existsb is_connect (cl_log s) = true /\ existsb is_success (cl_log s) = false /\ cl_err s = false
  | MEarlyFailed w => In (EEarly w) (cl_log s) /\ ~ In (EOk w) (cl_log s)
  | MFail => True
  | MReturn => cl_stack s <> []
  end.
Definition cstep (c : ecfg) (s : acl) (m : cmove) : acl :=
  match m with
  | MConnect good => let s := set_cb (say s EConnect) true in if good then call s FDown else deliverAllErrors s false    (* connect :75-112 *)
  | MWrite w good tconn => writeAppData c s w good tconn
  | MSetReplay => set_replay (say s ESetReplay) true
  | MEarlyOn max => earlySuccess s max
  | MSuccess a st ed => success c s a st ed
  | MEarlyFailed w => let s := say s (EOk w) in if wr_cb w then call s FDown else s                                       (* :637-653 *)
  | MFail => deliverAllErrors s false
  | MReturn =>
      match cl_stack s with
      | [] => s
      | f :: k =>
          let s := set_stack s k in
          match f with
          | FDown => s
          | FHsErr rej => errors (set_replay s false) rej
          | FErrs rej false => errors s rej
          | FErrs rej true => errors_early s rej
          | FMoved rej => call s (FDeliver rej)
          | FDeliver rej => if rej then call (say s EClosed) FDown else s                                                 (* :598-599 *)
          | FHsOk => replay s
          end
      end
  end.
Inductive chist (c : ecfg) : acl -> Prop :=
| ch_init : chist c cl_init
| ch_step s m : chist c s -> callowed c s m -> chist c (cstep c s m).
