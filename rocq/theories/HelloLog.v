(** * The ClientHello handler with its logging (ServerProtocol.cpp:485-505, 1420, 1434)

    A connection has a HandshakeLogging from Accept (:461) on unless the application takes it out of the state.
    Server.handle_hello has what filling it in can do to the handshake (throw); here are the values. *)
From Verif Require Import Base Codec Handshake Extensions HandshakeLog RecordBase Record ReadEvent Ticket Server.
Open Scope N_scope.

(** getReceivedRecordVersion, PlaintextRecordLayer.h:36-38, where the read layer is one (ServerProtocol.cpp:500-505) *)
Definition recordVersion (s : sstate) (g : hlog) : hlog :=
  match s_read s with Some r => match ev_layer r with LPlain p => set_record (ps_version p) g | _ => g end | None => g end.
(** The ClientHello handler with its logging: before processECH (ServerProtocol.cpp:1420), and after it (:1434) of the hello to go on with.  What precedes and follows is
    Server.handle_hello, which computes cookie and hello (and whether logging throws) again: they are functions of the same arguments. *)
Definition effectiveHello (e : env) (s : sstate) (c0 : ClientHello) (orig0 : bytes) : res ClientHello :=
  ck <- serverCookie e c0 ;;
  _ <- ensure (negb (match s_hctx s, ck with Some _, Some _ => true | _, _ => false end)) (alert al_illegal_parameter) ;;
  '(_, _, c, _) <- processECH e ck s c0 orig0 ;; Ok c.
Definition logged_hello (e : env) (w : world) (s : sstate) (g : option hlog) (c0 : ClientHello) (orig0 : bytes) : option hlog * res (sstate * list out) :=
  match g with
  | None => (None, handle_hello e w s c0 orig0)
  | Some g =>
      let g := populatePre c0 orig0 g in
      match effectiveHello e s c0 orig0 with
      | Err x => (Some g, Err x)
      | Ok c =>
          match populate c g with
          | (g, Err x) => (Some g, Err x)
          | (g, Ok _) => (Some (recordVersion s g), handle_hello e w s c0 orig0)
          end
      end
  end.
