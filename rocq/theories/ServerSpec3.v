(** * What a server's messages have to say besides the parameters: Encrypted ClientHello, EncryptedExtensions, certificates, tickets.
    Only definitions: nothing here is used by the model. *)
From Verif Require Import Base Codec Str Hkdf HkdfSpec KeySched KeySchedSpec Handshake Extensions ExtensionsProofs RecordBase Record ReadEvent Cookie
  Ticket Transcript Hpke Server ServerSpec ServerSpec2 PropsEch.
Open Scope N_scope.

(** ** Encrypted ClientHello *)
(** What came of it: it was not used; the inner hello was taken, with the HPKE context if the server kept it; it was refused. *)
Inductive echout := EoNone | EoTaken (x : option hctx) | EoRefused.
(** The first ClientHello [c]: one with the extension is given to the decrypter, if there is one. *)
Definition ech_first (e : env) (c : ClientHello) (orig : bytes) (o : echout) (c' : ClientHello) (enc : bytes) : Prop :=
  match o with
  | EoTaken x => exists d ctx, x = Some ctx /\ e_ech e = Some d /\ no_type 65037 (ch_extensions c) = false /\ d_hello d c orig = Ok (Some (c', enc, ctx))
  | EoRefused => c' = c /\ enc = orig /\ exists d, e_ech e = Some d /\ no_type 65037 (ch_extensions c) = false /\ d_hello d c orig = Ok None
  | EoNone => c' = c /\ enc = orig /\ (no_type 65037 (ch_extensions c) = true \/ e_ech e = None)
  end.
(** The cipher suite, configuration and encapsulated key the extension of [c] names. *)
Definition ech_names (c : ClientHello) (kdf ae cid : N) (enc : buf) : Prop :=
  exists payload, getExtension KEchOuter (ch_extensions c) = Ok (Some (XEchOuter (kdf, ae, cid, enc, payload))).
Definition no_cookie (c : ClientHello) : Prop := forall b, getExtension KCookie (ch_extensions c) <> Ok (Some (XCookie b)).
(** The server, after log [L0], continues with [c'] instead of the received [c].  After a retry, what came of the first hello stands:
    if the inner hello was taken the second hello must use the same suite and configuration and no new encapsulated key. *)
Inductive ech_treated (e : env) : list entry -> ClientHello -> bytes -> echout -> ClientHello -> bytes -> Prop :=
| et_first L0 c orig o c' enc : only_waits L0 -> no_cookie c -> ech_first e c orig o c' enc -> ech_treated e L0 c orig o c' enc
| et_cookie L0 c orig o c' enc dec b ck : only_waits L0 -> e_cookie e = Some dec ->
    getExtension KCookie (ch_extensions c) = Ok (Some (XCookie (Some b))) -> dec b = Ok (Some ck) ->
    match ck_echSuite ck with
    | None => o = EoNone /\ c' = c /\ enc = orig
    | Some (kdf, ae) => o = EoTaken None /\ exists d cid, e_ech e = Some d /\ ck_echConfigId ck = Some cid /\
        ech_names c kdf ae cid (Some []) /\ d_hrr_enc d c orig (ck_echEnc ck) = Ok (c', enc)
    end -> ech_treated e L0 c orig o c' enc
| et_retry La w1 c1 o1 cs Lb c1' enc1 c orig o c' enc : only_waits La -> no_cookie c1 -> ech_first e c1 o1 o c1' enc1 -> only_waits Lb -> no_cookie c ->
    match o with
    | EoTaken (Some x) => exists d kdf ae cid en1, e_ech e = Some d /\ ech_names c1 kdf ae cid en1 /\ ech_names c kdf ae cid (Some []) /\
        d_hrr d c orig x = Ok (c', enc)
    | EoTaken None => False
    | _ => c' = c /\ enc = orig
    end -> ech_treated e (La ++ Recv w1 (EvHandshake (MClientHello c1) o1) :: Emit (OWrite cs) :: Lb) c orig o c' enc.
Definition taken (o : echout) : bool := match o with EoTaken _ => true | _ => false end.
(** draft-ietf-tls-esni, 7.2: the ServerHello [m] after transcript [T] confirms that the inner hello with random [inner] was taken. *)
Definition confirms (h : hashalg) (inner T : bytes) (m : ServerHello) : Prop :=
  exists pre tail d b, sh_random m = pre ++ tail /\ blen tail = 8 /\ same_but_tail m d (repeat x00 8) /\ encodeHandshake (MServerHello d) = Ok b /\
    tail = accept_confirmation h (str "ech accept confirmation") inner (T ++ b).
(** 7.2.1: the HelloRetryRequest [m], [T] being what precedes it in the transcript. *)
Definition confirms_retry (h : hashalg) (inner T : bytes) (m : HelloRetryRequest) : Prop :=
  exists exts b, hrr_extensions m = exts ++ [mkExt 65037 (Some (accept_confirmation h (str "hrr ech accept confirmation") inner (T ++ b)))] /\
    no_type 65037 exts = true /\
    encodeHandshake (MHelloRetryRequest (mkHRR (hrr_version m) (hrr_session_id m) (hrr_suite m) (hrr_compression m)
      (exts ++ [mkExt 65037 (Some (repeat x00 8))]))) = Ok b.

(** ** EncryptedExtensions *)
Definition name_of (b : buf) : bytes := match b with Some x => x | None => [] end.
(** The application protocol: the first of ours the client offered; none only if the configuration allows it. *)
Definition alpn_chosen (e : env) (c : ClientHello) (a : option bytes) : Prop :=
  match a with
  | Some p => exists l pre post, getExtension KProtocolNameList (ch_extensions c) = Ok (Some (XProtocolNameList l)) /\
      e_alpns e = pre ++ p :: post /\ In p (map name_of l) /\ forall x, In x pre -> ~ In x (map name_of l)
  | None =>
      (exists l, getExtension KProtocolNameList (ch_extensions c) = Ok (Some (XProtocolNameList l)) /\ e_alpnMode e = AlpnAllowMismatch /\
         forall x, In x (e_alpns e) -> ~ In x (map name_of l)) \/
      ((forall l, getExtension KProtocolNameList (ch_extensions c) <> Ok (Some (XProtocolNameList l))) /\ e_alpnMode e <> AlpnRequired)
  end.
(** The name the client asks for. *)
Definition sni_of (c : ClientHello) (n : option bytes) : Prop :=
  match n with
  | Some x => exists t r, getExtension KServerNameList (ch_extensions c) = Ok (Some (XServerNameList ((t, Some x) :: r)))
  | None => forall t x r, getExtension KServerNameList (ch_extensions c) <> Ok (Some (XServerNameList ((t, x) :: r)))
  end.
(** The first ClientHello of the connection, if [c] comes after log [L]. *)
Fixpoint first_of (L : list entry) (c : ClientHello) : ClientHello :=
  match L with
  | [] => c
  | Recv _ (EvHandshake (MClientHello c1) _) :: _ => c1
  | _ :: r => first_of r c
  end.
Definition one_ext (x : option tyext) (l : list Extension) : Prop :=
  match x with Some t => exists y, encodeExtension t = Ok y /\ l = [y] | None => l = [] end.
(** EncryptedExtensions: application protocol, early data, retry configurations exactly if ECH was refused, then the application's. *)
Definition extensions_say (e : env) (L0 : list entry) (c c' : ClientHello) (o : echout) (alpn : option bytes) (early : bool) (ee : bytes) : Prop :=
  exists al ea rt more, encodeHandshake (MEncryptedExtensions (al ++ ea ++ rt ++ more)) = Ok ee /\
    alpn_chosen e c' alpn /\ one_ext (match alpn with Some p => Some (XProtocolNameList [Some p]) | None => None end) al /\
    one_ext (if early then Some XServerEarlyData else None) ea /\
    match o with
    | EoRefused => exists d sni r, e_ech e = Some d /\ sni_of (first_of L0 c) sni /\ d_retry d sni = Ok r /\ one_ext (Some (XEchEncryptedExtensions r)) rt
    | _ => rt = []
    end /\
    match e_extensions e with Some f => f c' = Ok more | None => more = [] end.

(** ** CertificateRequest, Certificate and CertificateVerify *)
Definition asks (e : env) (P : params) : bool :=
  match e_authMode e, p_ticket P with AuthNone, _ => false | _, Some _ => false | _, None => true end.
Definition request_says (e : env) (P : params) (creq : bytes) : Prop :=
  if asks e P then exists x more, encodeExtension (XSignatureAlgorithms (e_sigSchemes e)) = Ok x /\
      (match e_verifier e with Some _ => e_verifierExts e = Ok more | None => more = [] end) /\
      encodeHandshake (MCertificateRequest (mkCR (Some []) (x :: more))) = Ok creq
  else creq = [].
(** How the certificate is compressed: with our most preferred algorithm of those the client supports, if any. *)
Definition compressed_with (e : env) (c : ClientHello) (algo : option N) : Prop :=
  match algo with
  | Some a => exists l, getExtension KCertCompressionAlgs (ch_extensions c) = Ok (Some (XCertCompressionAlgs l)) /\ preferred (e_compAlgos e) l a
  | None => forall l, getExtension KCertCompressionAlgs (ch_extensions c) = Ok (Some (XCertCompressionAlgs l)) -> forall a, In a (e_compAlgos e) -> ~ In a l
  end.
(** Without a PSK: the certificate the certificate manager has for the name and schemes the client asks for, and its signature over the
    transcript ([T] is what precedes) in the server's context. *)
Definition auth_says (e : env) (P : params) (T auth : bytes) (scert : option cert) (scheme : option N) : Prop :=
  match p_ticket P with
  | Some (_, _, r) => auth = [] /\ scert = rs_serverCert r /\ scheme = None
  | None => exists so sch sni schemes algo m sig cv, sni_of (p_hello P) sni /\
      getExtension KSignatureAlgorithms (ch_extensions (p_hello P)) = Ok (Some (XSignatureAlgorithms schemes)) /\
      e_getCert e sni schemes (p_hello P) = Ok (Some (so, sch)) /\ scert = Some (so_cert so) /\ scheme = Some sch /\
      compressed_with e (p_hello P) algo /\ auth = m ++ cv /\
      encodeHandshake (MCertificateVerify (mkCV sch (Some sig))) = Ok cv /\
      match so_async so with
      | Some f => f algo sch (mkHc (p_hash P) T) = Ok (m, sig)
      | None => so_sign so sch CvServer (h_fn (p_hash P) (T ++ m)) = Ok sig /\
          match algo with
          | Some a => exists x, so_compressed so a = Ok x /\ encodeHandshake (MCompressedCertificate x) = Ok m
          | None => exists x, so_message so = Ok x /\ encodeHandshake (MCertificate x) = Ok m
          end
      end
  end.

(** ** Getters *)
(** A mode both sides support. *)
Definition psk_mode_shared (e : env) (c : ClientHello) : Prop :=
  exists ms md, getExtension KPskKeyExchangeModes (ch_extensions c) = Ok (Some (XPskKeyExchangeModes ms)) /\ In md (e_pskModes e) /\ In md ms.
(** What is said about PSKs: the ticket cipher's word for one that is used; otherwise, without an offer, whether one could have been used;
    for an offer, that it was rejected (or what the ticket cipher says of a ticket it does not open). *)
Definition psk_kind (e : env) (w : world) (P : params) (t : psktype) : Prop :=
  match p_ticket P with
  | Some (_, pt, _) => t = pt
  | None =>
      (getExtension KClientPresharedKey (ch_extensions (p_hello P)) = Ok None /\
         (t = PskNotSupported /\ ~ psk_mode_shared e (p_hello P) \/ t = PskNotAttempted /\ psk_mode_shared e (p_hello P))) \/
      (exists ids bs, getExtension KClientPresharedKey (ch_extensions (p_hello P)) = Ok (Some (XClientPresharedKey (ids, bs))) /\
         match ids with
         | [] => t = PskNotAttempted
         | (id, _) :: _ => t = PskRejected \/ exists i, id = Some i /\ w_ticketDecrypt w i = Ok (t, None)
         end)
  end.

(** ** The server's answer *)
(** A ClientHello that is answered is legal: no compression, no extension twice, a PSK only with its modes. *)
Record legal_hello (c : ClientHello) : Prop := mkLegal {
  lh_compression : ch_compression c = [0];
  lh_extensions : NoDup (map ext_type (ch_extensions c));
  lh_psk : forall x, getExtension KClientPresharedKey (ch_extensions c) = Ok (Some x) ->
    exists ms, getExtension KPskKeyExchangeModes (ch_extensions c) = Ok (Some (XPskKeyExchangeModes ms));
  (* what the connection's log is filled in from can be read, whether it is used or not *)
  lh_readable : forall k, In k [KSupportedVersions; KProtocolNameList; KServerNameList; KSupportedGroups; KClientKeyShare; KPskKeyExchangeModes; KSignatureAlgorithms; KCertCompressionAlgs] ->
    exists x, getExtension k (ch_extensions c) = Ok x }.
(** After a stateless retry the cookie's parameters stand. *)
Definition cookie_stands (e : env) (c : ClientHello) (P : params) : Prop :=
  forall b, getExtension KCookie (ch_extensions c) = Ok (Some (XCookie b)) ->
    exists dec x ck, e_cookie e = Some dec /\ b = Some x /\ dec x = Ok (Some ck) /\ ck_version ck = p_version P /\ ck_cipher ck = p_cipher P /\
      forall g g' theirs ours dh, ck_group ck = Some g -> p_kex P = Some (g', theirs, ours, dh) -> g' = g.
(** A ticket that could be used is used. *)
Definition ticket_due (e : env) (w : world) (P : params) : Prop :=
  forall id age ids bs t r, getExtension KClientPresharedKey (ch_extensions (p_hello P)) = Ok (Some (XClientPresharedKey ((Some id, age) :: ids, bs))) ->
    e_ticketCipher e = true -> psk_mode_shared e (p_hello P) -> w_ticketDecrypt w id = Ok (t, Some r) ->
    rs_version r = p_version P -> same_hash (rs_cipher r) (p_cipher P) -> p_ticket P = Some (id, t, r).
(** Whether the configuration allows early data with this version (it may be limited to two of the drafts). *)
Definition accepts_early (e : env) (v : N) : Prop := e_acceptEarly e = true /\ (e_earlyFbOnly e = true -> v = 0xfb17 \/ v = 0xfb1a).
(** The difference, in milliseconds, between the ticket's age the client claims and the one the server sees. *)
Definition skew_of (w : world) (age : N) (r : resstate) : Z :=
  ((Z.of_N age - Z.of_N (rs_ageAdd r)) mod 2 ^ 32 - (w_now2 w - rs_issue r) ÷ 1000000)%Z.
Definition early_offered (c : ClientHello) : Prop := getExtension KClientEarlyData (ch_extensions c) = Ok (Some XClientEarlyData).
(** Early data is accepted exactly if ...: *)
Definition early_due (e : env) (L0 : list entry) (w : world) (c : ClientHello) (P : params) (alpn : option bytes) : Prop :=
  accepts_early e (p_version P) /\ only_waits L0 /\ no_cookie c /\ early_offered (p_hello P) /\
  e_replayCache e = true /\ w_replay w (ch_random (p_hello P)) = Ok RNotReplay /\
  exists id t r age ids bs, p_ticket P = Some (id, t, r) /\ rs_cipher r = p_cipher P /\ rs_alpn r = alpn /\
    getExtension KClientPresharedKey (ch_extensions (p_hello P)) = Ok (Some (XClientPresharedKey ((Some id, age) :: ids, bs))) /\
    (e_tolBefore e <= skew_of w age r <= e_tolAfter e)%Z /\ (e_tokenValidator e = true -> w_tokenValid w r = true).
(** The first ClientHello that was used (that is, the inner one if it was taken). *)
Definition first_used (e : env) (L0 : list entry) (P : params) (c1 : ClientHello) : Prop :=
  (only_waits L0 /\ c1 = p_hello P) \/
  exists La w1 c o1 cs Lb o enc1, L0 = La ++ Recv w1 (EvHandshake (MClientHello c) o1) :: Emit (OWrite cs) :: Lb /\ only_waits La /\ only_waits Lb /\
    ech_first e c o1 o c1 enc1.
(** RFC 8446, D.4: a change_cipher_spec record, exactly if the client asks for the compatibility mode with a session id. *)
Definition compat_ccs (sid : bytes) : list content :=
  match sid with [] => [] | _ :: _ => [mkContent LvPlaintext 20 (Some [x14; x03; x03; x00; x01; x01]) []] end.
(** What the write [cs] says that answers the ClientHello [c] received after log [L0] with parameters [P]: ECH came out as [o], early data
    was accepted iff [early], the application protocol is [alpn], the server authenticates with [scert] and [scheme]. *)
Record answer (e : env) (L0 : list entry) (w : world) (c : ClientHello) (orig : bytes) (cs : list content) (P : params) (o : echout) (early : bool)
    (alpn : option bytes) (scert : option cert) (scheme : option N) : Prop := mkAns {
  an_legal : legal_hello (p_hello P);
  an_cookie : cookie_stands e c P;
  an_ticket : ticket_due e w P;
  an_early : early = true <-> early_due e L0 w c P alpn;
  an_ech : ech_treated e L0 c orig o (p_hello P) (p_enc P);
  an_inner : taken o = true -> getExtension KEchInner (ch_extensions (p_hello P)) <> Ok None;
  an_ccs : exists sid c1 c2, ch_session_id (p_hello P) = Some sid /\ cs = c1 :: compat_ccs sid ++ [c2];
  an_hello : exists m r, encodeHandshake (MServerHello m) = Ok (p_sh P) /\ w_random w = Ok r /\
    sh_version m = 771 /\ sh_session_id m = ch_session_id (p_hello P) /\ sh_compression m = 0 /\
    (if taken o then 8 <= blen r -> confirms (p_hash P) (ch_random (p_hello P)) (p_T P) m /\
        exists pre a b, r = pre ++ a /\ sh_random m = pre ++ b /\ blen a = 8 /\ blen b = 8
     else sh_random m = r);
  an_flight : exists ee creq auth fin, p_fl P = ee ++ creq ++ auth ++ fin /\
    extensions_say e L0 c (p_hello P) o alpn early ee /\
    request_says e P creq /\
    auth_says e P (p_Tsh P ++ ee ++ creq) auth scert scheme /\
    fin = be 1 20 ++ be 3 (h_len (p_hash P)) ++
      verify_data (p_hash P) (server_hs_secret (p_hash P) (p_psk P) (p_dh P) (p_Tsh P)) (p_Tsh P ++ ee ++ creq ++ auth) }.

(** What the connection's getters (server/State.h) report once the flight has been sent. *)
Record reports (s : sstate) (e : env) (L0 : list entry) (w : world) (P : params) (o : echout) (early : bool)
    (alpn : option bytes) (scert : option cert) (scheme : option N) : Prop := mkReports {
  re_version : s_version s = Some (p_version P);
  re_cipher : s_cipher s = Some (p_cipher P);
  re_group : s_group s = match p_kex P with Some (g, _, _, _) => Some g | None => None end;
  re_kex : exists kt, s_kexType s = Some kt /\ match kt with
    | KexNone => p_kex P = None
    | KexOneRtt => p_kex P <> None /\ only_waits L0
    | KexHRR => p_kex P <> None /\ ~ only_waits L0
    end;
  (* what came of early data: about the first ClientHello, if there was a retry *)
  re_early : exists c1, first_used e L0 P c1 /\ match s_early s with
    | Some EdAccepted => early = true
    | Some EdRejected => early = false /\ early_offered c1
    | Some EdNotAttempted => early = false /\ getExtension KClientEarlyData (ch_extensions c1) = Ok None
    | None => False
    end;
  re_psk : exists t, s_psk s = Some t /\ psk_kind e w P t;
  re_pskMode : match p_ticket P with
    | Some _ => exists ms md, getExtension KPskKeyExchangeModes (ch_extensions (p_hello P)) = Ok (Some (XPskKeyExchangeModes ms)) /\
        preferred (e_pskModes e) ms md /\ s_pskMode s = Some md
    | None => s_pskMode s = None
    end;
  re_replay : exists x, s_replay s = Some x /\
    (accepts_early e (p_version P) /\ e_replayCache e = true /\ early_offered (p_hello P) /\ w_replay w (ch_random (p_hello P)) = Ok x \/
     ~ (accepts_early e (p_version P) /\ e_replayCache e = true /\ early_offered (p_hello P)) /\ x = RNotChecked);
  re_skew : match p_ticket P with
    | Some (id, _, r) => exists age ids bs, getExtension KClientPresharedKey (ch_extensions (p_hello P)) = Ok (Some (XClientPresharedKey ((Some id, age) :: ids, bs))) /\
        s_skew s = Some (skew_of w age r)
    | None => s_skew s = None
    end;
  re_alpn : s_alpn s = alpn;
  re_cert : s_serverCert s = scert;
  re_scheme : s_sigScheme s = scheme;
  re_random : s_clientRandom s = Some (ch_random (p_hello P));
  re_ech : s_ech s = match o with EoNone => EchNotRequested | EoTaken _ => EchAccepted | EoRefused => EchRejected end;
  re_token : s_appToken s = match p_ticket P with Some (_, _, r) => rs_appToken r | None => None end;
  re_time : s_hsTime s = Some (match p_ticket P with Some (_, _, r) => rs_hsTime r | None => w_now w end);
  re_exporter : s_exporter s = Some (DeriveSecret (p_hash P) (MasterSecret (p_hash P) (p_psk P) (p_dh P)) (str "exp master") (h_fn (p_hash P) (p_Tsf P)));
  re_earlyExporter : s_earlyExporter s =
    if early then Some (DeriveSecret (p_hash P) (EarlySecret (p_hash P) (p_psk P)) (str "e exp master") (h_fn (p_hash P) (p_T P))) else None }.

(** ** Tickets *)
(** RFC 8446, 7.1 and 4.6.1: the PSK of a ticket (its nonce is empty), [T] being the transcript through the client's Finished. *)
Definition resumption_master (P : params) (T : bytes) : bytes :=
  DeriveSecret (p_hash P) (MasterSecret (p_hash P) (p_psk P) (p_dh P)) (str "res master") (h_fn (p_hash P) T).
Definition resumption_psk (P : params) (T : bytes) : bytes :=
  ExpandLabel (p_hash P) (resumption_master P T) (str "resumption") [] (h_len (p_hash P)).
(** When the first handshake of a chain of resumptions took place. *)
Definition handshake_time (w : world) (P : params) : Z := match p_ticket P with Some (_, _, r) => rs_hsTime r | None => w_now w end.
(** The ticket [nst] made while the environment answers as [w]: the ticket cipher's sealing of this connection's parameters and of the PSK. *)
Definition ticket_says (e : env) (w : world) (P : params) (psk : bytes) (alpn : option bytes) (scert ccert : option cert) (time : Z) (token : buf)
    (nst : NewSessionTicket) : Prop :=
  exists ticket lifetime ext, w_ageAdd w = Ok (nst_age_add nst) /\
    w_ticketEncrypt w (mkRS (p_version P) (p_cipher P) (Some psk) scert ccert alpn (nst_age_add nst) (w_now w) token time) = Ok (Some (ticket, lifetime)) /\
    nst_lifetime nst = lifetime mod 2 ^ 32 /\ nst_nonce nst = Some [] /\ nst_ticket nst = Some ticket /\ nst_extensions nst = ext /\
    (accepts_early e (p_version P) /\ (exists x, encodeExtension (XTicketEarlyData (e_maxEarly e)) = Ok x /\ ext = [x]) \/
     ~ accepts_early e (p_version P) /\ ext = []).

(** ** Falling back to an older protocol *)
Definition no_version (e : env) (c : ClientHello) : Prop :=
  getExtension KSupportedVersions (ch_extensions c) = Ok None \/
  exists vs, getExtension KSupportedVersions (ch_extensions c) = Ok (Some (XSupportedVersions vs)) /\ forall v, In v (e_versions e) -> ~ In v vs.
