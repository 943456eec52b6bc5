(** * protocol/FizzBase-inl.h: the event loop shared by FizzClient and FizzServer

    The methods call user code (visitor callbacks inside visitActions, the callback of moveToErrorState) that may call
    any method again.  The model is a machine with an explicit stack of the methods that have been entered and not
    left; between two returns of user code to the library the user makes any sequence of calls.
    Not modelled: C++ exceptions thrown by the state machine, lifetime (DestructorGuard only keeps owner_ alive;
    [guard] is whether actionGuard_ holds a value). *)
From Verif Require Import Base.
Open Scope N_scope.

(** detail::PendingEvent, FizzBase.h:22-38; payloads are identified by a number, tokens may be null *)
Inductive pevent :=
| PAppWrite (id : N) (token : bool)
| PEarlyAppWrite (id : N) (token : bool)
| PAppClose (id : N) (wait : bool)
| PTicket (id : N)
| PKeyUpdate (id : N).

(** methods entered and not left *)
Inductive frame :=
| FPpe     (* processPendingEvents :157-213, at the top of its while loop or inside startActions *)
| FVisit   (* processActions :130-140, inside visitActions: user code runs *)
| FErr     (* moveToErrorState :64-98, at the top of its while loop *)
| FErrCb.  (* moveToErrorState, inside cb(token): user code runs *)

(** what can be observed *)
Inductive obs :=
| OSubmit (e : pevent)             (* an API call handed over e *)
| OStart (e : option pevent)       (* the state machine was given e, or (None) the transport data *)
| OExternal                        (* accept()/connect()/version fallback started an action *)
| ODone                            (* the action's results have all been visited *)
| OReturned (e : pevent)           (* cb(token of e) was called *)
| ODropped (e : pevent).           (* e was discarded without a callback *)

(** members, FizzBase.h:170-196, the terminal states of state_, and the execution state *)
Record conf := mkConf {
  pending : list pevent; waitForData : bool; guard : bool; inPpe : bool; extErr : bool; paused : bool;
  smTerm : bool;            (* state_.state() is Error or Closed *)
  inflight : bool;          (* an asynchronous result that has not arrived *)
  stack : list frame;
  trace : list obs }.
Definition fb_init : conf := mkConf [] true false false false false false false [] [].

(** inTerminalState :117-121 *)
Definition inTerminal (c : conf) : bool := smTerm c || extErr c.

Definition with_stack (c : conf) (s : list frame) : conf :=
  mkConf (pending c) (waitForData c) (guard c) (inPpe c) (extErr c) (paused c) (smTerm c) (inflight c) s (trace c).
(** entering processPendingEvents :157-168 *)
Definition call_ppe (c : conf) : conf :=
  if inPpe c then c
  else mkConf (pending c) (waitForData c) (guard c) true (extErr c) (paused c) (smTerm c) (inflight c) (FPpe :: stack c) (trace c).
(** startActions (server/FizzServer-inl.h:75-99, client likewise): results are visited at once or arrive later *)
Definition start (c : conf) (now : bool) (pend : list pevent) (o : obs) : conf :=
  mkConf pend (waitForData c) true (inPpe c) (extErr c) (paused c) (smTerm c) (negb now)
         (if now then FVisit :: stack c else stack c) (trace c ++ [o]).

Inductive label :=
(* calls made by user code *)
| LSubmit (e : pevent)        (* appWrite, earlyAppWrite, appClose, appCloseImmediate, writeNewSessionTicket, initiateKeyUpdate :12-49 *)
| LWaitForData                (* :52-54 *)
| LNewData                    (* :57-60 *)
| LError                      (* moveToErrorState :64-98 *)
| LPause                      (* :101-103 *)
| LResume                     (* :106-109 *)
| LExternal (now : bool)      (* addProcessingActions :143-150 *)
| LSetTerm (b : bool)         (* a MutateState action changes state_ *)
| LReturn                     (* user code returns to the method that called it *)
| LComplete                   (* the executor delivers the asynchronous result: processActions *)
(* one step of a running method *)
| LTau (now : bool).

Definition user_turn (c : conf) : bool := match stack c with [] | FVisit :: _ | FErrCb :: _ => true | _ => false end.

Definition has_token (e : pevent) : bool :=
  match e with PAppWrite _ t | PEarlyAppWrite _ t => t | _ => false end.

(** None: the label is not possible here *)
Definition step (c : conf) (l : label) : option conf :=
  match l with
  | LTau now =>
      match stack c with
      | FPpe :: r =>
          (* the loop :170-212 *)
          if negb (guard c) && negb (inTerminal c) && negb (paused c) then
            if negb (waitForData c) then Some (start c now (pending c) (OStart None))
            else match pending c with
                 | e :: p => Some (start c now p (OStart (Some e)))
                 | [] => Some (mkConf [] (waitForData c) false false (extErr c) (paused c) (smTerm c) (inflight c) r (trace c))
                 end
          else Some (mkConf (pending c) (waitForData c) (guard c) false (extErr c) (paused c) (smTerm c) (inflight c) r (trace c))
      | FErr :: r =>
          match pending c with
          | [] => Some (with_stack c r)
          | e :: p =>
              Some (mkConf p (waitForData c) (guard c) (inPpe c) (extErr c) (paused c) (smTerm c) (inflight c)
                           ((if has_token e then FErrCb else FErr) :: r)
                           (trace c ++ [if has_token e then OReturned e else ODropped e]))
          end
      | _ => None
      end
  | _ =>
      if negb (user_turn c) then None else
      match l with
      | LSubmit e => Some (call_ppe (mkConf (pending c ++ [e]) (waitForData c) (guard c) (inPpe c) (extErr c) (paused c) (smTerm c) (inflight c) (stack c) (trace c ++ [OSubmit e])))
      | LWaitForData => Some (mkConf (pending c) true (guard c) (inPpe c) (extErr c) (paused c) (smTerm c) (inflight c) (stack c) (trace c))
      | LNewData => Some (call_ppe (mkConf (pending c) false (guard c) (inPpe c) (extErr c) (paused c) (smTerm c) (inflight c) (stack c) (trace c)))
      | LError => if extErr c then Some c
                  else Some (mkConf (pending c) (waitForData c) (guard c) (inPpe c) true (paused c) (smTerm c) (inflight c) (FErr :: stack c) (trace c))
      | LPause => Some (mkConf (pending c) (waitForData c) (guard c) (inPpe c) (extErr c) true (smTerm c) (inflight c) (stack c) (trace c))
      | LResume => Some (call_ppe (mkConf (pending c) (waitForData c) (guard c) (inPpe c) (extErr c) false (smTerm c) (inflight c) (stack c) (trace c)))
      | LExternal now => if guard c then None (* FIZZ_DCHECK *) else Some (start c now (pending c) OExternal)
      | LSetTerm b => match stack c with
                      | FVisit :: _ => Some (mkConf (pending c) (waitForData c) (guard c) (inPpe c) (extErr c) (paused c) b (inflight c) (stack c) (trace c))
                      | _ => None
                      end
      | LReturn =>
          match stack c with
          | FVisit :: r => Some (call_ppe (mkConf (pending c) (waitForData c) false (inPpe c) (extErr c) (paused c) (smTerm c) (inflight c) r (trace c ++ [ODone])))
          | FErrCb :: r => Some (with_stack c (FErr :: r))
          | _ => None
          end
      | LComplete => if inflight c
                     then Some (mkConf (pending c) (waitForData c) (guard c) (inPpe c) (extErr c) (paused c) (smTerm c) false (FVisit :: stack c) (trace c))
                     else None
      | LTau _ => None
      end
  end.
Fixpoint run (c : conf) (ls : list label) : option conf :=
  match ls with [] => Some c | l :: r => match step c l with None => None | Some c' => run c' r end end.
