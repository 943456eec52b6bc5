(** * Kernel TLS: experimental/ktls/ (KTLS.cpp, AsyncFizzBaseKTLS.h, AsyncKTLSSocket.cpp, AsyncFizzBaseKTLS.cpp, FizzKTLSCallback.cpp)
    Not modelled: the sockets themselves, makeConnectedTCPPair and the probe behind platformSupportsKTLS (its answer is an input), the certificates handed on,
    and the write queue of AsyncKTLSRxSocket (a copy of AsyncFizzBase's, see AsyncWrite.v). *)
From Verif Require Import Base Codec Str Hkdf KeySched Handshake Extensions RecordBase Record ReadEvent Cookie Token Ticket PskSer Server Client.
Open Scope N_scope.

(** ** Parameters *)
(** KTLSCryptoParams (KTLS.h:43-65) with TrafficKey (crypto/aead/Aead.h): the buffers may be null *)
Record kparams := mkKP { kp_suite : N; kp_key : option bytes; kp_iv : option bytes; kp_seq : N }.
(** RecordLayerState (record/RecordLayer.h): optional traffic key, optional sequence number *)
Record rlstate := mkRL { rl_key : option (option bytes * option bytes); rl_seq : option N }.
(** getKTLSLayout (KTLS.cpp:56-80): key length, IV length, cipher type; sizes from LinuxKTLS.h and linux/tls.h *)
Definition ktls_layout (suite : N) : option (N * N * N) :=
  if suite =? 4865 then Some (16, 12, 51)       (* TLS_AES_128_GCM_SHA256: TLS_CIPHER_AES_GCM_128 *)
  else if suite =? 4866 then Some (32, 12, 52)  (* TLS_AES_256_GCM_SHA384: TLS_CIPHER_AES_GCM_256 *)
  else None.
(** A uint16_t in the host's byte order *)
Definition native16 (little : bool) (n : N) : bytes := if little then rev (be 2 n) else be 2 n.
(** KTLSCryptoParams::fromRecordState (KTLS.cpp:82-94) *)
Definition fromRecordState (suite : N) (r : rlstate) : res kparams :=
  match rl_key r, rl_seq r with
  | Some (key, iv), Some seq => Ok (mkKP suite key iv seq)
  | _, _ => Err EThrow
  end.
(** KTLSCryptoParams::toSockoptFormat (KTLS.cpp:96-183); 772 = TLS_1_3_VERSION, 4 = kLegacyFixedIVSize *)
Definition toSockopt (little : bool) (p : kparams) : option bytes :=
  match ktls_layout (kp_suite p) with
  | None => None
  | Some (keyLen, ivLen, ctype) =>
      match kp_iv p, kp_key p with
      | Some iv, Some key =>
          if negb (blen iv =? ivLen) then None
          else if negb (blen key =? keyLen) then None
          else Some (native16 little 772 ++ native16 little ctype ++ dropN 4 iv ++ key ++ takeN 4 iv ++ be 8 (kp_seq p))
      | _, _ => None
      end
  end.

(** ** Enabling *)
(** The setsockopt calls made on the socket *)
Inductive sockopt := SoUlp | SoRx (b : bytes) | SoTx (b : bytes) | SoNoPad (b : bool).
(** The two tryEnableKTLS (KTLS.cpp:280-333 and :335-376), [tx] present for the first; [answer] is whether setsockopt succeeds.  Returns the calls made and
    whether the socket is a kTLS socket. *)
Definition tryEnable (little platform : bool) (answer : sockopt -> bool) (rx : kparams) (tx : option kparams) (noPad : bool) : list sockopt * bool :=
  if negb platform then ([], false)
  else match tx with
  | Some t =>
      if negb (kp_suite rx =? kp_suite t) then ([], false)
      else match toSockopt little rx, toSockopt little t with
      | Some rxs, Some txs =>
          if negb (answer SoUlp) then ([SoUlp], false)
          else if negb (answer (SoRx rxs)) then ([SoUlp; SoRx rxs], false)
          else if negb (answer (SoTx txs)) then ([SoUlp; SoRx rxs; SoTx txs], false)
          else ([SoUlp; SoRx rxs; SoTx txs; SoNoPad noPad], true)
      | _, _ => ([], false)
      end
  | None =>
      match toSockopt little rx with
      | Some rxs =>
          if negb (answer SoUlp) then ([SoUlp], false)
          else if negb (answer (SoRx rxs)) then ([SoUlp; SoRx rxs], false)
          else ([SoUlp; SoRx rxs; SoNoPad noPad], true)
      | None => ([], false)
      end
  end.
(** tryConvertKTLSBase (AsyncFizzBaseKTLS.h:66-174): [good], [connecting], [has] are the fizz socket's good(), connecting() and whether it sits on an
    AsyncSocket; [both] the socket type.  fromRecordState may throw out of it. *)
Definition tryConvert (little platform : bool) (answer : sockopt -> bool) (good connecting has both : bool) (suite : N) (rstate wstate : rlstate) (noPad : bool) : res (list sockopt * bool) :=
  if negb good || connecting then Ok ([], false)
  else if negb has then Ok ([], false)
  else rx <- fromRecordState suite rstate ;;
       if both then tx <- fromRecordState suite wstate ;; Ok (tryEnable little platform answer rx (Some tx) noPad)
       else Ok (tryEnable little platform answer rx None noPad).

(** ** Reading *)
(** What recvmsg answers: an error, EAGAIN, 0, or a part of one record (its first control message, if any: type and record type; at least one byte) *)
Inductive krecv := KError_ | KAgain | KEof_ | KRec (cmsg : option (N * N)) (d : bytes).
(** ReadResult; [RCrash] an exception or a failed check leaves performReadMsg *)
Inductive kres := RData (d : bytes) | RBlocking | REof | RError | RCrash (e : err).
(** The socket: unparsedHandshakeData_.  One step gives the new state, the tickets given to the TLS callback and the result. *)
Definition kstep := (option bytes * list NewSessionTicket * kres)%type.
(** processAlert (AsyncKTLSSocket.cpp:143-185); what follows the two bytes is not looked at *)
Definition processAlert (u : option bytes) (d : bytes) : kstep :=
  match decode_alert d with
  | Err _ => (u, [], RError)
  | Ok (a, _) => if al_description a =? 0 then (u, [], REof) else (u, [], RError)
  end.
(** An error of decodeHandshakeMessage: a Status or an exception becomes READ_ERROR (AsyncKTLSSocket.cpp:211-245) *)
Definition hs_error (e : err) : kres := match e with EStatus _ | EThrow => RError | _ => RCrash e end.
(** The switch at AsyncKTLSSocket.cpp:257-280; [cb] is the TLS callback, which may fail *)
Definition dispatch (cb : NewSessionTicket -> res unit) (m : hsmsg) : list NewSessionTicket * kres :=
  match m with
  | MNewSessionTicket t => ([t], match cb t with Ok _ => RBlocking | Err e => RCrash e end)
  | _ => ([], RError)
  end.
(** processHandshakeData (AsyncKTLSSocket.cpp:187-285) *)
Definition processHandshakeData (cb : NewSessionTicket -> res unit) (u : option bytes) (d : bytes) : kstep :=
  match u with
  | None =>
      match decode_hs d with
      | Err e => (None, [], hs_error e)
      | Ok None => (Some d, [], RBlocking)
      | Ok (Some (m, _, _)) => let '(ts, r) := dispatch cb m in (None, ts, r)
      end
  | Some b =>
      match decode_hs (b ++ d) with
      | Err e => (Some (b ++ d), [], hs_error e)
      | Ok None => (Some (b ++ d), [], RBlocking)
      | Ok (Some (m, _, _)) => let '(ts, r) := dispatch cb m in (None, ts, r)
      end
  end.
(** handleNonApplicationData (AsyncKTLSSocket.cpp:102-141); [cb] is [None] without a TLS callback *)
Definition handleNonApp (cb : option (NewSessionTicket -> res unit)) (u : option bytes) (ty : N) (d : bytes) : kstep :=
  if (match u with Some _ => true | None => false end) && negb (ty =? ct_handshake) then (u, [], RError)
  else if ty =? ct_alert then processAlert u d
  else if ty =? ct_handshake then match cb with None => (u, [], RError) | Some f => processHandshakeData f u d end
  else (u, [], RError).
(** performReadMsg (AsyncKTLSSocket.cpp:21-100); 2 = TLS_GET_RECORD_TYPE; EINTR is retried *)
Definition performReadMsg (cb : option (NewSessionTicket -> res unit)) (u : option bytes) (i : krecv) : kstep :=
  match i with
  | KError_ => (u, [], RError)
  | KAgain => (u, [], RBlocking)
  | KEof_ => (u, [], REof)
  | KRec None _ => (u, [], RError)
  | KRec (Some (ct, ty)) d =>
      if negb (ct =? 2) then (u, [], RError)
      else if ty =? ct_appdata then match u with Some _ => (u, [], RError) | None => (u, [], RData d) end
      else handleNonApp cb u ty d
  end.
(** What a user of the socket sees: AsyncSocket reads until an error or the end of file *)
Inductive kout := ODat (d : bytes) | OTicket (t : NewSessionTicket) | OEnd (r : kres).
Definition more (r : kres) : bool := match r with RData _ | RBlocking => true | _ => false end.
Definition kouts (ts : list NewSessionTicket) (r : kres) : list kout :=
  map OTicket ts ++ match r with RData d => [ODat d] | RBlocking => [] | _ => [OEnd r] end.
Fixpoint kread (cb : option (NewSessionTicket -> res unit)) (u : option bytes) (l : list krecv) : option bytes * list kout :=
  match l with
  | [] => (u, [])
  | i :: rest =>
      let '(u', ts, r) := performReadMsg cb u i in
      if more r then let '(u'', o) := kread cb u' rest in (u'', kouts ts r ++ o) else (u', kouts ts r)
  end.

(** ** Tickets *)
(** What makeTicketHandler keeps of the client's state (AsyncFizzBaseKTLS.cpp:60-75), and the hash of the key scheduler *)
Record khandler := mkKH { kh_hash : hashalg; kh_ks : ks; kh_rms : bytes; kh_version : N; kh_cipher : N; kh_group : option N; kh_alpn : option bytes;
  kh_server : option cert; kh_client : option cert; kh_time : Z }.
(** The ticket handler (AsyncFizzBaseKTLS.cpp:25-95, FizzKTLSCallback.cpp): [now1], [now2] the two readings of the clock.  Gives what is put into the PSK cache. *)
Definition handleTicket (H : khandler) (now1 now2 : Z) (m : NewSessionTicket) : res cpsk :=
  nonce <- deref (nst_nonce m) ;;
  sec <- kget (kh_hash H) (kh_ks H) (GetResumption (kh_rms H) nonce) ;;
  t <- deref (nst_ticket m) ;;
  ex <- chk64 (now2 + Z.of_N (nst_lifetime m) * ns_per_s)%Z ;;
  x <- getExtension KTicketEarlyData (nst_extensions m) ;;
  let mx := match x with Some (XTicketEarlyData n) => n | _ => 0 end in
  Ok (mkCpsk PskResumption (mkPsk t sec (kh_version H) (kh_cipher H) (kh_group H) (kh_alpn H) (nst_age_add m) now1 ex (kh_server H) (kh_client H) mx (kh_time H))).
(** KTLSCallbackImpl::receivedNewSessionTicket (FizzKTLSCallback.cpp:21-28) without and with a handler; fizz errors are thrown (FIZZ_THROW_ON_ERROR) *)
Definition ktls_callback (H : option khandler) (now1 now2 : Z) (m : NewSessionTicket) : res unit :=
  match H with
  | None => Ok tt
  | Some H => match handleTicket H now1 now2 m with Ok _ => Ok tt | Err (EStatus _) => Err EThrow | Err e => Err e end
  end.

(** ** Writing with the fizz record layer *)
(** AsyncKTLSRxSocket::writeAppData (AsyncKTLSSocket.cpp:426-439): what is handed to AsyncSocket::writeChain together with the callback; [Ok None]: nothing, and the
    callback is dropped; an error is thrown *)
Definition rxWriteAppData (s : wstate) (q : list bytes) : wstate * res (option bytes) :=
  let '(_, s', r) := enc_write 23 s q in
  (s', match r with Ok [] => Ok None | Ok out => Ok (Some out) | Err (EStatus _) => Err EThrow | Err e => Err e end).
