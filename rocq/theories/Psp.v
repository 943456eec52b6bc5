(** * experimental/psp/PSP.cpp: the PSP upgrade protocol V0

    The messages, and the upgrade operation as a machine.  The transport and callbacks may call back into the operation, or destroy it, while one of their functions
    runs: the model has an explicit stack of the foreign code that has been called and has not returned.  Calls of the kernel interface and of
    setReadCB(nullptr) do not call back; their results, and timeouts, come from the event loop, when no call is open (.via(evb), AsyncTimeout).  Not modelled:
    the texts of errors, the threads of the kernel interface, getUnderlyingTransport (whether there is a socket is a parameter). *)
From Verif Require Import Base Hkdf.
Open Scope N_scope.

(** ** Messages *)
(** struct SA, PSP.h:34-38 *)
Record psa := mkPsa { sa_version : N; sa_spi : N; sa_key : bytes }.
Definition kTagLength : N := 2.
Definition kKeyMax : N := 32.
(** PSP.cpp: kPSPV0SAMsgSize :14-18 *)
Definition kSAMsg : N := 4 + 1 + 3 + kKeyMax.
(** keyLength :384-395 *)
Definition keyLength (v : N) : option N :=
  if (v =? 0) || (v =? 2) then Some 16 else if (v =? 1) || (v =? 3) then Some 32 else None.
(** encodeTLV :397-416.  uint32_t and uint8_t fields: what is above their size is not there. *)
Definition encodeTLV (sa : psa) : res bytes :=
  if kKeyMax <? blen (sa_key sa) then Err ECheck
  else Ok (be 1 1 ++ be 1 kSAMsg ++ be 4 (sa_spi sa) ++ be 1 (sa_version sa) ++ zeros 3 ++ sa_key sa ++ zeros (kKeyMax - blen (sa_key sa))).
(** tryDecodeSA :418-443 *)
Definition tryDecodeSA (m : bytes) : res psa :=
  if blen m <? kSAMsg then fail
  else match take 4 m with
       | None => Err EUB
       | Some (spi, m1) => match take 1 m1 with
         | None => Err EUB
         | Some (ver, m2) => match take 3 m2 with
           | None => Err EUB
           | Some (_, m3) => match keyLength (unbe ver) with
             | None => fail
             | Some n => if kKeyMax <? n then Err ECheck
                         else match take n m3 with None => Err EUB | Some (key, _) => Ok (mkPsa (unbe ver) (unbe spi) key) end
             end
           end
         end
       end.
(** readTLV :445-462: tag, message, what is left of the buffer *)
Definition readTLV (b : bytes) : option (N * bytes * bytes) :=
  if blen b <? kTagLength then None
  else match take 1 b with
       | None => None
       | Some (tag, b1) => match take 1 b1 with
         | None => None
         | Some (len, b2) => match take (unbe len) b2 with None => None | Some (msg, rest) => Some (unbe tag, msg, rest) end
         end
       end.
(** makeErrorTLV :39-49 *)
Definition makeErrorTLV (code : N) : bytes := be 1 0 ++ be 1 1 ++ be 1 code.

(** ** The operation *)
Inductive pst := PInit | PRxDone | PWriteDone | PReadData | PTxDone.
Inductive pev :=
| EStart                    (* start *)
| ERx                       (* ops_->rxAssoc(version_, fd_) *)
| ERxRes (r : option psa)   (* its result *)
| ESend (m : bytes)         (* writeChain(this, m) *)
| EWrote (ok : bool)        (* writeSuccess, writeErr *)
| EListen                   (* setReadCB(this) *)
| EData (d : bytes)         (* bytes arrived *)
| EEnd                      (* readEOF, readErr *)
| ETx (sa : psa)            (* ops_->txAssoc(sa, fd_) *)
| ETxRes (ok : bool)        (* its result *)
| ETimeout                  (* timeoutExpired *)
| EDestroy                  (* the frame's destructor is entered *)
| EErrMsg (m : bytes)       (* writeChain(nullptr, m) *)
| EClose                    (* transport_->closeNow() *)
| EDone (ok : bool)         (* pspSuccess, pspError *)
| EBadUse                   (* a destroyed frame, or a part of it that is gone, is used *)
| EDie.                     (* a FIZZ_CHECK fails *)
(** Foreign code called and what is left to do: nothing; the rest of error after writeChain(nullptr, .); the rest of prepareForTerminalCallback after closeNow, and pspError;
    the end of the destructor *)
Inductive pframe := FDown | FSend | FClose | FDead.
(** awaiter_; transport_ is not null; state_; readBuf_; ioErr_; asyncState_ is there; asyncState_->sa and txAssocResult; rxAssoc, txAssoc not done; timeout scheduled;
    the read callback is installed; the write is not reported; alive; in the destructor; stopped (after EBadUse or EDie) *)
Record psp := mkPsp { p_await : bool; p_trans : bool; p_st : pst; p_buf : bytes; p_io : bool; p_async : bool; p_sa : option (option psa); p_tx : option bool;
  p_rxp : bool; p_txp : bool; p_timer : bool; p_reading : bool; p_writing : bool; p_alive : bool; p_dying : bool; p_stop : bool; p_stack : list pframe; p_log : list pev }.
Definition p_init : psp := mkPsp false true PInit [] false false None None false false false false false true false false [] [].
Definition psay (s : psp) (e : pev) : psp :=
  mkPsp (p_await s) (p_trans s) (p_st s) (p_buf s) (p_io s) (p_async s) (p_sa s) (p_tx s) (p_rxp s) (p_txp s) (p_timer s) (p_reading s) (p_writing s) (p_alive s) (p_dying s) (p_stop s) (p_stack s) (p_log s ++ [e]).
Definition pcall (s : psp) (f : pframe) : psp :=
  mkPsp (p_await s) (p_trans s) (p_st s) (p_buf s) (p_io s) (p_async s) (p_sa s) (p_tx s) (p_rxp s) (p_txp s) (p_timer s) (p_reading s) (p_writing s) (p_alive s) (p_dying s) (p_stop s) (f :: p_stack s) (p_log s).
Definition pstop (s : psp) (e : pev) : psp :=
  mkPsp (p_await s) (p_trans s) (p_st s) (p_buf s) (p_io s) (p_async s) (p_sa s) (p_tx s) (p_rxp s) (p_txp s) (p_timer s) (p_reading s) (p_writing s) (p_alive s) (p_dying s) true (p_stack s) (p_log s ++ [e]).
Definition set_st (s : psp) (st : pst) (reading writing rxp txp : bool) : psp :=
  mkPsp (p_await s) (p_trans s) st (p_buf s) (p_io s) (p_async s) (p_sa s) (p_tx s) rxp txp (p_timer s) reading writing (p_alive s) (p_dying s) (p_stop s) (p_stack s) (p_log s).
Definition set_in (s : psp) (buf : bytes) (io : bool) (sa : option (option psa)) (tx : option bool) : psp :=
  mkPsp (p_await s) (p_trans s) (p_st s) buf io (p_async s) sa tx (p_rxp s) (p_txp s) (p_timer s) (p_reading s) (p_writing s) (p_alive s) (p_dying s) (p_stop s) (p_stack s) (p_log s).
Definition set_own (s : psp) (await trans async timer alive dying : bool) : psp :=
  mkPsp await trans (p_st s) (p_buf s) (p_io s) async (p_sa s) (p_tx s) (p_rxp s) (p_txp s) timer (p_reading s) (p_writing s) alive dying (p_stop s) (p_stack s) (p_log s).
Definition set_stack (s : psp) (k : list pframe) : psp :=
  mkPsp (p_await s) (p_trans s) (p_st s) (p_buf s) (p_io s) (p_async s) (p_sa s) (p_tx s) (p_rxp s) (p_txp s) (p_timer s) (p_reading s) (p_writing s) (p_alive s) (p_dying s) (p_stop s) k (p_log s).

(** prepareForTerminalCallback :330-350, the second part, and the terminal callback *)
Definition pfinish (s : psp) (ok : bool) : psp :=
  pcall (psay (set_own s (p_await s) (p_trans s) false false (p_alive s) (p_dying s)) (EDone ok)) FDown.
(** prepareForTerminalCallback, to closeNow *)
Definition pprepare (s : psp) (ok : bool) : psp :=
  let s := set_own s false (p_trans s) (p_async s) (p_timer s) (p_alive s) (p_dying s) in
  if p_trans s then pcall (psay (set_st s (p_st s) false (p_writing s) (p_rxp s) (p_txp s)) EClose) FClose
  else pfinish s ok.
(** error :321-329 *)
Definition perror (s : psp) (send : option N) : psp :=
  match send with
  | Some c => if p_trans s then pcall (psay s (EErrMsg (makeErrorTLV c))) FSend else pprepare s false
  | None => pprepare s false
  end.
(** resume :141-270; [fd]: the transport has a socket; [tmo]: a timeout was asked for *)
Definition presume (fd tmo : bool) (s : psp) : psp :=
  match p_st s with
  | PInit =>
      let s := set_own (set_st s PInit false (p_writing s) (p_rxp s) (p_txp s)) (p_await s) (p_trans s) true (p_timer s) (p_alive s) (p_dying s) in
      if negb fd then perror s (Some 0)
      else psay (set_st (set_own s (p_await s) (p_trans s) true tmo (p_alive s) (p_dying s)) PRxDone false (p_writing s) true (p_txp s)) ERx
  | PRxDone =>
      if negb (p_async s) then pstop s EBadUse
      else match p_sa s with
           | None => pstop s EDie
           | Some None => perror s (Some 1)
           | Some (Some sa) => match encodeTLV sa with
                               | Err _ => pstop s EDie
                               | Ok m => pcall (psay (set_st s PWriteDone (p_reading s) true (p_rxp s) (p_txp s)) (ESend m)) FDown
                               end
           end
  | PWriteDone =>
      if p_io s then perror s None
      else pcall (psay (set_st s PReadData true (p_writing s) (p_rxp s) (p_txp s)) EListen) FDown
  | PReadData =>
      if p_io s then perror s None
      else match readTLV (p_buf s) with
           | None => s
           | Some (tag, msg, rest) =>
               let s := set_in (set_st s PReadData false (p_writing s) (p_rxp s) (p_txp s)) rest (p_io s) (p_sa s) (p_tx s) in
               if tag =? 1 then
                 match tryDecodeSA msg with
                 | Err (EStatus _) => perror s None
                 | Err _ => pstop s EDie
                 | Ok sa => psay (set_st s PTxDone false (p_writing s) (p_rxp s) true) (ETx sa)
                 end
               else perror s None
           end
  | PTxDone =>
      if negb (p_async s) then pstop s EBadUse
      else match p_tx s with
           | None => pstop s EDie
           | Some false => perror s None
           | Some true => pprepare (set_own s (p_await s) false (p_async s) (p_timer s) (p_alive s) (p_dying s)) true
           end
  end.

Inductive pmv :=
| MvStart | MvRx (r : option psa) | MvTx (ok : bool) | MvWrote (ok : bool) | MvData (d : bytes) | MvEnd | MvTimeout | MvDestroy | MvReturn.
Definition pstep (fd tmo : bool) (s : psp) (m : pmv) : psp :=
  if p_stop s then s else
  match m with
  | MvStart =>                                                                     (* start :109-115 *)
      if p_await s then pstop s EDie
      else presume fd tmo (psay (set_own s true (p_trans s) (p_async s) (p_timer s) (p_alive s) (p_dying s)) EStart)
  | MvRx r =>                                                                      (* the closures :162-171, :243-252 *)
      let s := psay (set_st s (p_st s) (p_reading s) (p_writing s) false (p_txp s)) (ERxRes r) in
      if p_async s then presume fd tmo (set_in s (p_buf s) (p_io s) (Some r) (p_tx s)) else s
  | MvTx ok =>
      let s := psay (set_st s (p_st s) (p_reading s) (p_writing s) (p_rxp s) false) (ETxRes ok) in
      if p_async s then presume fd tmo (set_in s (p_buf s) (p_io s) (p_sa s) (Some ok)) else s
  | MvWrote ok =>                                                                  (* writeSuccess, writeErr :297-309 *)
      let s := psay (set_st s (p_st s) (p_reading s) false (p_rxp s) (p_txp s)) (EWrote ok) in
      if negb (p_alive s) then pstop s EBadUse
      else let s := if ok then s else set_in s (p_buf s) true (p_sa s) (p_tx s) in
           if p_await s then presume fd tmo s else s
  | MvData d =>                                                                    (* readBufferAvailable, readDataAvailable :272-290 *)
      if negb (p_alive s) then pstop s EBadUse
      else presume fd tmo (psay (set_in s (p_buf s ++ d) (p_io s) (p_sa s) (p_tx s)) (EData d))
  | MvEnd =>                                                                       (* readEOF, readErr :311-319; the transport does not use the callback any more *)
      if negb (p_alive s) then pstop s EBadUse
      else presume fd tmo (psay (set_in (set_st s (p_st s) false (p_writing s) (p_rxp s) (p_txp s)) (p_buf s) true (p_sa s) (p_tx s)) EEnd)
  | MvTimeout =>                                                                   (* timeoutExpired :137-139 *)
      perror (psay (set_own s (p_await s) (p_trans s) (p_async s) false (p_alive s) (p_dying s)) ETimeout) None
  | MvDestroy =>                                                                   (* ~AsyncPSPUpgradeImpl :103-108 *)
      let s := psay s EDestroy in
      if p_await s then perror (pcall (set_own s (p_await s) (p_trans s) (p_async s) (p_timer s) true true) FDead) None
      else set_own s (p_await s) (p_trans s) (p_async s) false false (p_dying s)
  | MvReturn =>
      match p_stack s with
      | [] => s
      | FDown :: k => set_stack s k
      | FSend :: k => if p_alive s then pprepare (set_stack s k) false else pstop (set_stack s k) EBadUse
      | FClose :: k => if p_alive s then pfinish (set_stack s k) false else pstop (set_stack s k) EBadUse
      | FDead :: k => let s := set_stack s k in set_own s (p_await s) (p_trans s) (p_async s) false false (p_dying s)
      end
  end.
(** What can happen: start is called once; the event loop runs only when no call is open; the transport reports the write once and gives data only to an installed callback; closeNow
    reports the write before it returns; the frame is destroyed once, and if [careful] not by code called from within the transport's writeChain and closeNow while it fails. *)
Definition pallowed (careful : bool) (s : psp) (m : pmv) : Prop :=
  match m with
  | MvStart => p_alive s = true /\ p_dying s = false /\ p_stack s = [] /\ ~ In EStart (p_log s)
  | MvRx _ => p_rxp s = true /\ p_stack s = []
  | MvTx _ => p_txp s = true /\ p_stack s = []
  | MvWrote _ => p_writing s = true
  | MvData _ => p_reading s = true
  | MvEnd => p_reading s = true
  | MvTimeout => p_timer s = true /\ p_stack s = []
  | MvDestroy => p_alive s = true /\ p_dying s = false /\ (careful = true -> ~ In FSend (p_stack s) /\ ~ In FClose (p_stack s))
  | MvReturn => match p_stack s with FClose :: _ => p_writing s = false | _ => True end
  end.
Inductive phist (careful fd tmo : bool) : psp -> Prop :=
| ph_init : phist careful fd tmo p_init
| ph_step s m : phist careful fd tmo s -> pallowed careful s m -> phist careful fd tmo (pstep fd tmo s m).
