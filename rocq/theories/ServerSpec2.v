(** * What a server connection promises about early data and client certificates. Only definitions. *)
From Verif Require Import Base Codec Str Hkdf HkdfSpec KeySched KeySchedSpec Handshake Extensions RecordBase Record ReadEvent Cookie
  Ticket Transcript Server ServerSpec.
Open Scope N_scope.

(** Nothing happened but waiting for data. *)
Definition only_waits (L : list entry) : Prop := forall x, In x L -> exists n, x = Emit (OWait n).

(** RFC 8446, 4.2.10 and 8: when early data may be accepted. [P] is the handshake made of the ClientHello received while the
    environment answered as [w], after log [L0]. *)
Record early_accepted (e : env) (L0 : list entry) (w : world) (P : params) : Prop := mkEA {
  ea_configured : e_acceptEarly e = true /\ (e_earlyFbOnly e = true -> p_version P = 0xfb17 \/ p_version P = 0xfb1a);
  (* the ClientHello is the first one, and its own whole transcript: neither a HelloRetryRequest nor a cookie came before *)
  ea_first : only_waits L0;
  ea_transcript : p_T P = p_enc P;
  ea_offered : getExtension KClientEarlyData (ch_extensions (p_hello P)) = Ok (Some XClientEarlyData);
  (* the replay cache has not seen the ClientHello's random *)
  ea_replay : e_replayCache e = true /\ w_replay w (ch_random (p_hello P)) = Ok RNotReplay;
  (* a ticket is resumed with its cipher suite and application protocol; its age is within tolerance; the application agrees *)
  ea_ticket : exists id pt r, p_ticket P = Some (id, pt, r) /\ rs_version r = p_version P /\ rs_cipher r = p_cipher P /\
    (exists age ids bs skew, getExtension KClientPresharedKey (ch_extensions (p_hello P)) = Ok (Some (XClientPresharedKey ((Some id, age) :: ids, bs))) /\
       skew = ((Z.of_N age - Z.of_N (rs_ageAdd r)) mod 2 ^ 32 - (w_now2 w - rs_issue r) ÷ 1000000)%Z /\
       (e_tolBefore e <= skew <= e_tolAfter e)%Z) /\
    (e_tokenValidator e = true -> w_tokenValid w r = true) /\
    (* the client is told: the flight starts with EncryptedExtensions, with the ticket's application protocol and early_data *)
    exists al ea other ee rest, p_fl P = ee ++ rest /\ encodeHandshake (MEncryptedExtensions (al ++ ea :: other)) = Ok ee /\
      encodeExtension XServerEarlyData = Ok ea /\
      match rs_alpn r with Some p => exists a, encodeExtension (XProtocolNameList [Some p]) = Ok a /\ al = [a] | None => al = [] end }.

(** Whose certificate the connection may report as the client's. *)
Definition client_identity (e : env) (P : params) (La : list entry) (c : option cert) : Prop :=
  match p_ticket P with
  | Some (_, _, r) => c = rs_clientCert r
  | None =>
      match e_authMode e with
      | AuthNone => c = None
      | AuthOptional => c = None \/ exists x, c = Some x /\ client_authenticated e (p_hash P) (p_Tsf P) La x
      | AuthRequired => exists x, c = Some x /\ client_authenticated e (p_hash P) (p_Tsf P) La x
      end
  end.

(** RFC 8446, 7.1 and 7.2: the traffic secrets of a handshake. Application traffic secrets have generations, the first being 0. *)
Definition app_traffic (P : params) (generation : nat) : traffic :=
  mkTr (p_psk P) (p_dh P) (h_fn (p_hash P) (p_Tsf P)) generation generation.
Definition secret_of (P : params) (k : secretkind) (generation : nat) : bytes :=
  match k with
  | SkEarly => DeriveSecret (p_hash P) (EarlySecret (p_hash P) (p_psk P)) (str "c e traffic") (h_fn (p_hash P) (p_T P))
  | SkClientHs => client_hs_secret (p_hash P) (p_psk P) (p_dh P) (p_Tsh P)
  | SkServerHs => server_hs_secret (p_hash P) (p_psk P) (p_dh P) (p_Tsh P)
  | SkClientApp => client_traffic (p_hash P) (app_traffic P generation)
  | SkServerApp => server_traffic (p_hash P) (app_traffic P generation)
  end.
Definition is_secret (k : secretkind) (x : entry) : bool :=
  match x, k with
  | Emit (OSecret' SkEarly _), SkEarly | Emit (OSecret' SkClientHs _), SkClientHs | Emit (OSecret' SkServerHs _), SkServerHs
  | Emit (OSecret' SkClientApp _), SkClientApp | Emit (OSecret' SkServerApp _), SkServerApp => true
  | _, _ => false
  end.
(** All that can come after the end of a connection. *)
Definition afterwards (x : entry) : Prop :=
  match x with
  | Recv _ _ => True
  | Emit (OWait _) | Emit (OError _) | Emit (OEndOfData _) => True
  | Emit _ => False
  end.
(** ... or, if it has not been torn down by an error, an alert. *)
Definition closing (x : entry) : Prop :=
  afterwards x \/ exists c, x = Emit (OWrite [c]) /\ ct_type c = 21.
