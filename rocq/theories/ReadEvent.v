(** * Handshake reassembly: ReadRecordLayer::readEvent (record/RecordLayer.cpp) *)
From Verif Require Import Base RecordBase Record Codec Handshake.

(** The Param variants readEvent can return (protocol/Params.h).  A handshake message
    carries its original encoding; CloseNotify carries whatever was still queued. *)
Inductive event :=
| EvHandshake (m : hsmsg) (original : bytes)
| EvAlert (a : Alert)
| EvClose (ignored : bytes)
| EvAppData (data : bytes).

(** kMaxHandshakeSize (record/Types.h:76), kHandshakeHeaderSize (RecordLayer.cpp:16-17). *)
Definition kMaxHandshakeSize : N := 131072.

(** ReadRecordLayer::decodeHandshakeMessage (RecordLayer.cpp:153-217), on the flat
    content of the queue; returns the message, its original encoding and the rest. *)
Definition decode_hs (u : bytes) : res (option (hsmsg * bytes * bytes)) :=
  match u with
  | t :: l1 :: l2 :: l3 :: r =>
      let len := unbe [l1; l2; l3] in
      if kMaxHandshakeSize <? len then fail
      else match take len r with
           | None => Ok None
           | Some (body, rest) =>
               m <- parse_handshake (b2n t) body ;;
               Ok (Some (m, t :: l1 :: l2 :: l3 :: body, rest))
           end
  | _ => Ok None
  end.

(** unparsedHandshakeData_ and the virtual read's own state. *)
Record evstate := mkEv { ev_unparsed : bytes; ev_layer : layer }.

(** The while loop of readEvent (RecordLayer.cpp:21-116).  The re-allocation of the
    unparsed buffer is not modelled, only its content. *)
Fixpoint ev_loop (fuel : nat) (u : bytes) (l : layer) (b : bytes) : rres evstate event :=
  match fuel with
  | O => RErr EFuel
  | S f =>
      match layer_read l b with
      | RNeed l' b' h => RNeed (mkEv u l') b' h
      | RErr e => RErr e
      | RMsg l' b' m =>
          if (match u with [] => false | _ => true end) && negb (m_type m =? ct_handshake)
          then RErr (EStatus None)
          else if m_type m =? ct_alert then
            match decode_all decode_alert (m_frag m) with
            | Err e => RErr e
            | Ok a => if al_description a =? 0 then RMsg (mkEv u l') [] (EvClose b')
                      else RMsg (mkEv u l') b' (EvAlert a)
            end
          else if m_type m =? ct_handshake then
            let u' := u ++ m_frag m in
            match decode_hs u' with
            | Err e => RErr e
            | Ok (Some (msg, orig, rest)) => RMsg (mkEv rest l') b' (EvHandshake msg orig)
            | Ok None => ev_loop f u' l' b'
            end
          else if m_type m =? ct_appdata then RMsg (mkEv u l') b' (EvAppData (m_frag m))
          else RErr (EStatus None)
      end
  end.

(** ReadRecordLayer::readEvent (RecordLayer.cpp:21-116). *)
Definition read_event (s : evstate) (b : bytes) : rres evstate event :=
  match ev_unparsed s with
  | [] => ev_loop (S (length b)) [] (ev_layer s) b
  | u =>
      match decode_hs u with
      | Err e => RErr e
      | Ok (Some (msg, orig, rest)) => RMsg (mkEv rest (ev_layer s)) b (EvHandshake msg orig)
      | Ok None => ev_loop (S (length b)) u (ev_layer s) b
      end
  end.
