(** * The key schedule of RFC 8446, section 7.1, as an automaton over the scheduler's calls. *)
From Verif Require Import Base Str Hkdf HkdfSpec KeySched.

Section S.
  Variable h : hashalg.
  Definition Zero : bytes := repeat x00 (N.to_nat (h_len h)).
  Definition EarlySecret (psk : bytes) : bytes := Extract h Zero psk.
  Definition HandshakeSecret (psk dh : bytes) : bytes :=
    Extract h (DeriveSecret h (EarlySecret psk) (str "derived") (h_fn h [])) dh.
  Definition MasterSecret (psk dh : bytes) : bytes :=
    Extract h (DeriveSecret h (HandshakeSecret psk dh) (str "derived") (h_fn h [])) Zero.
  (** section 7.2 *)
  Definition NextTraffic (s : bytes) : bytes := ExpandLabel h s (str "traffic upd") [] (h_len h).

  (** Where the schedule is: which inputs have been absorbed. *)
  Inductive stage := Start | Early (psk : bytes) | Handshake (psk dh : bytes) | Master (psk dh : bytes).
  (** Application traffic secrets: inputs, and the number of updates of each direction. *)
  Record traffic := mkTr { tr_psk : bytes; tr_dh : bytes; tr_hash : bytes; tr_c : nat; tr_s : nat }.
  Definition client_traffic (t : traffic) : bytes :=
    Nat.iter (tr_c t) NextTraffic (DeriveSecret h (MasterSecret (tr_psk t) (tr_dh t)) (str "c ap traffic") (tr_hash t)).
  Definition server_traffic (t : traffic) : bytes :=
    Nat.iter (tr_s t) NextTraffic (DeriveSecret h (MasterSecret (tr_psk t) (tr_dh t)) (str "s ap traffic") (tr_hash t)).

  (** RFC 8446 section 7.1 table and the ECH draft's two confirmation values (8 bytes). *)
  Definition early_spec (k : early_secrets) (es th : bytes) : bytes :=
    match k with
    | ExternalPskBinder => DeriveSecret h es (str "ext binder") th
    | ResumptionPskBinder => DeriveSecret h es (str "res binder") th
    | ClientEarlyTraffic => DeriveSecret h es (str "c e traffic") th
    | EarlyExporter => DeriveSecret h es (str "e exp master") th
    | EchAcceptE => ExpandLabel h es (str "ech accept confirmation") th 8
    | HrrEchAccept => ExpandLabel h es (str "hrr ech accept confirmation") th 8
    end.
  Definition hs_spec (k : hs_secrets) (s th : bytes) : bytes :=
    match k with
    | ClientHandshakeTraffic => DeriveSecret h s (str "c hs traffic") th
    | ServerHandshakeTraffic => DeriveSecret h s (str "s hs traffic") th
    | EchAcceptH => ExpandLabel h s (str "ech accept confirmation") th 8
    end.
  Definition master_spec (k : master_secrets) (s th : bytes) : bytes :=
    match k with
    | ExporterMaster => DeriveSecret h s (str "exp master") th
    | ResumptionMaster => DeriveSecret h s (str "res master") th
    end.

  (** [None]: the call must be rejected and must not change anything. *)
  Definition spec_step (st : stage * option traffic) (op : ks_op) : option ((stage * option traffic) * ks_out) :=
    let '(g, t) := st in
    match op, g, t with
    | DeriveEarly psk, Start, _ => Some ((Early psk, t), ODone)
    | DeriveHandshake, Early psk, _ => Some ((Handshake psk Zero, t), ODone)
    | DeriveHandshakeDH dh, Start, _ => Some ((Handshake Zero dh, t), ODone)
    | DeriveHandshakeDH dh, Early psk, _ => Some ((Handshake psk dh, t), ODone)
    | DeriveMaster, Handshake psk dh, _ => Some ((Master psk dh, t), ODone)
    | DeriveApp th, Master psk dh, _ => Some ((g, Some (mkTr psk dh th 0 0)), ODone)
    | ClearMaster, Master _ _, _ => Some ((Start, t), ODone)
    | ClientKeyUpdate, _, Some t =>
        Some ((g, Some (mkTr (tr_psk t) (tr_dh t) (tr_hash t) (S (tr_c t)) (tr_s t))),
              OGen (N.of_nat (S (tr_c t)) mod 2 ^ 32))
    | ServerKeyUpdate, _, Some t =>
        Some ((g, Some (mkTr (tr_psk t) (tr_dh t) (tr_hash t) (tr_c t) (S (tr_s t)))),
              OGen (N.of_nat (S (tr_s t)) mod 2 ^ 32))
    | GetEarly k th, Early psk, _ => Some (st, OSecret (early_spec k (EarlySecret psk) th))
    | GetHandshake k th, Handshake psk dh, _ => Some (st, OSecret (hs_spec k (HandshakeSecret psk dh) th))
    | GetMaster k th, Master psk dh, _ => Some (st, OSecret (master_spec k (MasterSecret psk dh) th))
    | GetApp ClientAppTraffic, _, Some t => Some (st, OSecret (client_traffic t))
    | GetApp ServerAppTraffic, _, Some t => Some (st, OSecret (server_traffic t))
    | GetTrafficKey s kl il, _, _ =>
        Some (st, OKeyIv (ExpandLabel h s (str "key") [] kl) (ExpandLabel h s (str "iv") [] il))
    | GetResumption rms nonce, _, _ => Some (st, OSecret (ExpandLabel h rms (str "resumption") nonce (h_len h)))
    | _, _, _ => None
    end.

  Fixpoint spec_run (st : stage * option traffic) (ops : list ks_op) : list (option ks_out) :=
    match ops with
    | [] => []
    | o :: ops' => match spec_step st o with
                   | Some (st', out) => Some out :: spec_run st' ops'
                   | None => None :: spec_run st ops'
                   end
    end.

  (** Arguments of the documented sizes: transcripts and secrets are hash outputs, lengths fit. *)
  Definition op_ok (o : ks_op) : Prop :=
    match o with
    | DeriveApp th | GetEarly _ th | GetHandshake _ th | GetMaster _ th => blen th = h_len h
    | GetTrafficKey s kl il => blen s = h_len h /\ kl < 65536 /\ kl <= 255 * h_len h /\ il < 65536 /\ il <= 255 * h_len h
    | GetResumption rms nonce => blen rms = h_len h /\ blen nonce <= 255
    | _ => True
    end.
  Definition agrees (r : res ks_out) (o : option ks_out) : Prop :=
    match o with Some x => r = Ok x | None => exists e, r = Err e end.
End S.
Arguments mkTr : clear implicits.
