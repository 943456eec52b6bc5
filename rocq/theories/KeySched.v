(** * KeyScheduler (protocol/KeyScheduler.{h,cpp}) on top of KeyDerivationImpl. *)
From Verif Require Import Base Str Hkdf.

(** KeySchedulerSecret variant (KeyScheduler.h:194-243). *)
Inductive ksecret := KEarly (s : bytes) | KHandshake (s : bytes) | KMaster (s : bytes).
(** AppTrafficSecret (KeyScheduler.h:201-212). *)
Record apptraffic := mkApp { at_client : bytes; at_cgen : N; at_server : bytes; at_sgen : N }.
Record ks := mkKs { ks_secret : option ksecret; ks_app : option apptraffic }.
Definition ks_init : ks := mkKs None None.

Inductive early_secrets := ExternalPskBinder | ResumptionPskBinder | ClientEarlyTraffic | EarlyExporter
  | EchAcceptE | HrrEchAccept.
Inductive hs_secrets := ClientHandshakeTraffic | ServerHandshakeTraffic | EchAcceptH.
Inductive master_secrets := ExporterMaster | ResumptionMaster.
Inductive app_secrets := ClientAppTraffic | ServerAppTraffic.

(** The public calls (KeyScheduler.h:76-170). *)
Inductive ks_op :=
| DeriveEarly (psk : bytes)
| DeriveHandshake
| DeriveHandshakeDH (ecdhe : bytes)
| DeriveMaster
| DeriveApp (transcript : bytes)
| ClearMaster
| ClientKeyUpdate
| ServerKeyUpdate
| GetEarly (s : early_secrets) (transcript : bytes)
| GetHandshake (s : hs_secrets) (transcript : bytes)
| GetMaster (s : master_secrets) (transcript : bytes)
| GetApp (s : app_secrets)
| GetTrafficKey (secret : bytes) (keyLength ivLength : N)
| GetResumption (rms nonce : bytes).
Inductive ks_out := ODone | OSecret (b : bytes) | OGen (n : N) | OKeyIv (k iv : bytes).

(** kEchAcceptConfirmationSize (protocol/ech/Types.h:22). *)
Definition kEchAcceptConfirmationSize : N := 8.

(** [*secret_->asX()] (util/Variant.h:17-22): empty Optional throws, wrong alternative is a null
    dereference; [secret_->tryAsX] (Variant.h:24-30) returns an error instead. *)
Definition as_early (s : option ksecret) : res bytes :=
  match s with None => Err EThrow | Some (KEarly b) => Ok b | Some _ => Err EUB end.
Definition try_early (s : option ksecret) : res bytes :=
  match s with None => Err EThrow | Some (KEarly b) => Ok b | Some _ => fail end.
Definition as_handshake (s : option ksecret) : res bytes :=
  match s with None => Err EThrow | Some (KHandshake b) => Ok b | Some _ => Err EUB end.
Definition try_handshake (s : option ksecret) : res bytes :=
  match s with None => Err EThrow | Some (KHandshake b) => Ok b | Some _ => fail end.
Definition as_master (s : option ksecret) : res bytes :=
  match s with None => Err EThrow | Some (KMaster b) => Ok b | Some _ => Err EUB end.
Definition deref_app (s : option apptraffic) : res apptraffic :=
  match s with None => Err EThrow | Some a => Ok a end.

Definition put {A} (s : ks) (r : res A) (f : A -> ks * res ks_out) : ks * res ks_out :=
  match r with Ok a => f a | Err e => (s, Err e) end.

(** labels, KeyScheduler.cpp:15-34; lengths from getSecret *)
Definition early_label (s : early_secrets) : bytes :=
  match s with
  | ExternalPskBinder => str "ext binder"
  | ResumptionPskBinder => str "res binder"
  | ClientEarlyTraffic => str "c e traffic"
  | EarlyExporter => str "e exp master"
  | EchAcceptE => str "ech accept confirmation"
  | HrrEchAccept => str "hrr ech accept confirmation"
  end.
Definition early_length (h : hashalg) (s : early_secrets) : N :=
  match s with EchAcceptE | HrrEchAccept => kEchAcceptConfirmationSize | _ => h_len h end.
Definition hs_label (s : hs_secrets) : bytes :=
  match s with
  | ClientHandshakeTraffic => str "c hs traffic"
  | ServerHandshakeTraffic => str "s hs traffic"
  | EchAcceptH => str "ech accept confirmation"
  end.
Definition hs_length (h : hashalg) (s : hs_secrets) : N :=
  match s with EchAcceptH => kEchAcceptConfirmationSize | _ => h_len h end.
Definition master_label (s : master_secrets) : bytes :=
  match s with ExporterMaster => str "exp master" | ResumptionMaster => str "res master" end.

(** One call.  The state is returned also on failure: deriveHandshakeSecret(ecdhe) installs the
    zero-PSK early secret before it can fail. *)
Definition ks_step (h : hashalg) (s : ks) (op : ks_op) : ks * res ks_out :=
  let hl := h_len h in
  match op with
  | DeriveEarly psk =>                                            (* cpp:38-49 *)
      match ks_secret s with
      | Some _ => (s, fail)
      | None => put s (hkdf_extract h (zeros hl) psk) (fun x => (mkKs (Some (KEarly x)) (ks_app s), Ok ODone))
      end
  | DeriveHandshake =>                                            (* cpp:51-67 *)
      put s (e <- as_early (ks_secret s) ;;
             p <- deriveSecret h e (str "derived") (h_blank h) hl ;;
             hkdf_extract h p (zeros hl))
        (fun x => (mkKs (Some (KHandshake x)) (ks_app s), Ok ODone))
  | DeriveHandshakeDH dh =>                                       (* cpp:69-94 *)
      let '(s1, r1) := match ks_secret s with
                | Some _ => (s, Ok ODone)
                | None => put s (hkdf_extract h (zeros hl) (zeros hl))
                            (fun x => (mkKs (Some (KEarly x)) (ks_app s), Ok ODone))
                end in
      put s1 r1 (fun _ =>
      put s1 (e <- try_early (ks_secret s1) ;;
             p <- deriveSecret h e (str "derived") (h_blank h) hl ;;
             hkdf_extract h p dh)
        (fun x => (mkKs (Some (KHandshake x)) (ks_app s1), Ok ODone)))
  | DeriveMaster =>                                               (* cpp:96-114 *)
      put s (e <- try_handshake (ks_secret s) ;;
             p <- deriveSecret h e (str "derived") (h_blank h) hl ;;
             hkdf_extract h p (zeros hl))
        (fun x => (mkKs (Some (KMaster x)) (ks_app s), Ok ODone))
  | DeriveApp th =>                                               (* cpp:116-138 *)
      put s (m <- as_master (ks_secret s) ;;
             c <- deriveSecret h m (str "c ap traffic") th hl ;;
             v <- deriveSecret h m (str "s ap traffic") th hl ;;
             Ok (mkApp c 0 v 0))
        (fun a => (mkKs (ks_secret s) (Some a), Ok ODone))
  | ClearMaster =>                                                (* cpp:140-146 *)
      match ks_secret s with
      | None => (s, Err EThrow)
      | Some (KMaster _) => (mkKs None (ks_app s), Ok ODone)
      | Some _ => (s, fail)
      end
  | ClientKeyUpdate =>                                            (* cpp:148-162 *)
      put s (a <- deref_app (ks_app s) ;;
             b <- expandLabel h (at_client a) (str "traffic upd") (Some []) hl ;;
             Ok (mkApp b ((at_cgen a + 1) mod 2 ^ 32) (at_server a) (at_sgen a)))
        (fun a => (mkKs (ks_secret s) (Some a), Ok (OGen (at_cgen a))))
  | ServerKeyUpdate =>                                            (* cpp:164-178 *)
      put s (a <- deref_app (ks_app s) ;;
             b <- expandLabel h (at_server a) (str "traffic upd") (Some []) hl ;;
             Ok (mkApp (at_client a) (at_cgen a) b ((at_sgen a + 1) mod 2 ^ 32)))
        (fun a => (mkKs (ks_secret s) (Some a), Ok (OGen (at_sgen a))))
  | GetEarly k th =>                                              (* cpp:180-225 *)
      (s, e <- as_early (ks_secret s) ;;
          x <- deriveSecret h e (early_label k) th (early_length h k) ;; Ok (OSecret x))
  | GetHandshake k th =>                                          (* cpp:227-262 *)
      (s, e <- as_handshake (ks_secret s) ;;
          x <- deriveSecret h e (hs_label k) th (hs_length h k) ;; Ok (OSecret x))
  | GetMaster k th =>                                             (* cpp:264-293 *)
      (s, e <- as_master (ks_secret s) ;;
          x <- deriveSecret h e (master_label k) th hl ;; Ok (OSecret x))
  | GetApp k =>                                                   (* cpp:295-309 *)
      (s, a <- deref_app (ks_app s) ;;
          Ok (OSecret (match k with ClientAppTraffic => at_client a | ServerAppTraffic => at_server a end)))
  | GetTrafficKey secret kl il =>                                 (* cpp:311-343 *)
      (s, k <- expandLabel h secret (str "key") (Some []) kl ;;
          i <- expandLabel h secret (str "iv") (Some []) il ;; Ok (OKeyIv k i))
  | GetResumption rms nonce =>                                    (* cpp:345-358 *)
      (s, x <- expandLabel h rms (str "resumption") (Some nonce) hl ;; Ok (OSecret x))
  end.

(** A caller that makes the calls in order, observing every result. *)
Fixpoint ks_run (h : hashalg) (s : ks) (ops : list ks_op) : ks * list (res ks_out) :=
  match ops with
  | [] => (s, [])
  | o :: ops' =>
      let '(s1, r) := ks_step h s o in
      let '(s2, rs) := ks_run h s1 ops' in (s2, r :: rs)
  end.
