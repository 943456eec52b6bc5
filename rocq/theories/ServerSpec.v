(** * What can be observed of a server connection, and the transcript RFC 8446 (4.4.1) prescribes for it.
    Only definitions: nothing here is used by the model. *)
From Verif Require Import Base Codec Str Hkdf HkdfSpec KeySched KeySchedSpec Handshake Extensions RecordBase Record ReadEvent Cookie
  Ticket Transcript Server.
Open Scope N_scope.

(** ** The log of a connection *)
(** What was read from the wire (with the answers the environment gives while it is processed), and the actions handed to the
    application, in order. *)
Inductive entry := Recv (w : world) (ev : event) | Emit (o : out).
Definition received (w : world) (s : sstate) (i : input) : list entry :=
  match s_state s with
  | SCrash => []
  | _ =>
      match i, s_read s with
      | ISocket b, Some r => match read_event r b with RMsg _ _ ev => [Recv w ev] | _ => [] end
      | _, _ => []
      end
  end.
Fixpoint slog (e : env) (s : sstate) (l : list (world * input)) : sstate * list entry :=
  match l with
  | [] => (s, [])
  | (w, i) :: r =>
      let '(s1, o1) := sstep e w s i in
      let '(s2, log) := slog e s1 r in (s2, received w s i ++ map Emit o1 ++ log)
  end.
(** [log] is the log of the connection after the inputs [l], and [s] its state. *)
Definition reach (e : env) (l : list (world * input)) (s : sstate) (log : list entry) : Prop :=
  slog e s_init l = (s, log).

(** ** Configurations *)
(** The factory's hash functions are hash functions, its AEADs have sane key sizes, and code points are 16 bits (their C++ types). *)
Record env_ok (e : env) : Prop := {
  eo_hash : forall c h, e_hash e c = Ok h -> hash_ok h;
  eo_aead : forall c kl il mk, e_aead e c = Ok (kl, il, mk) -> kl <= 255 /\ il <= 255;
  eo_versions : Forall (fun v => v < 2 ^ 16) (e_versions e);
  eo_groups : Forall (fun g => g < 2 ^ 16) (e_groups e) }.

(** ** Transcript *)
Definition is_hs (c : content) : bool := ct_type c =? 22.
(** struct { HandshakeType message_hash = 254; uint24 length; Hash(messages so far) } *)
Definition message_hash (digest : bytes) : bytes := be 1 254 ++ be 3 (blen digest) ++ digest.
(** The ClientHello the server goes on with: the one received or, with Encrypted ClientHello, the one the decrypter took out. *)
Definition hello_taken (e : env) (c : ClientHello) (orig : bytes) (c' : ClientHello) (enc : bytes) : Prop :=
  (c' = c /\ enc = orig) \/
  exists d, e_ech e = Some d /\
    ((exists x, d_hello d c orig = Ok (Some (c', enc, x))) \/
     (exists x, d_hrr d c orig x = Ok (c', enc)) \/
     (exists x, d_hrr_enc d c orig x = Ok (c', enc))).
(** What precedes that ClientHello: what was exchanged before, or what an accepted stateless-retry cookie stands for. *)
Definition hello_start (e : env) (c c' : ClientHello) (T T0 : bytes) : Prop :=
  T0 = T \/
  exists dec b ck digest b' hrr, T = [] /\ e_cookie e = Some dec /\
    getExtension KCookie (ch_extensions c) = Ok (Some (XCookie (Some b))) /\ dec b = Ok (Some ck) /\ ck_chloHash ck = Some digest /\
    getExtension KCookie (ch_extensions c') = Ok (Some (XCookie (Some b'))) /\
    getStatelessHrr (ck_version ck) (ck_cipher ck) (ck_group ck) b' = Ok hrr /\
    T0 = message_hash digest ++ hrr.
(** One log entry: a message received is appended; a ServerHello and the encrypted flight are appended; a lone unencrypted
    handshake message is a HelloRetryRequest, which replaces what precedes it by its hash; encrypted messages sent later
    (tickets, key updates), records of other types and other actions are not part of the transcript. *)
Definition tstep (e : env) (h : hashalg) (T : bytes) (x : entry) (T' : bytes) : Prop :=
  match x with
  | Recv _ (EvHandshake (MClientHello c) orig) =>
      exists c' enc T0, hello_taken e c orig c' enc /\ hello_start e c c' T T0 /\ T' = T0 ++ enc
  | Recv _ (EvHandshake _ orig) => T' = T ++ orig
  | Emit (OWrite cs) =>
      match filter is_hs cs with
      | [c] => match ct_level c with LvPlaintext => T' = message_hash (h_fn h T) ++ ct_plain c | _ => T' = T end
      | l => T' = T ++ concat (map ct_plain l)
      end
  | _ => T' = T
  end.
Inductive transcript (e : env) (h : hashalg) : list entry -> bytes -> Prop :=
| tr_nil : transcript e h [] []
| tr_snoc : forall L T x T', transcript e h L T -> tstep e h T x T' -> transcript e h (L ++ [x]) T'.

(** The write that carries the ServerHello [sh] and the encrypted rest of the server's flight [fl]. *)
Definition flight (cs : list content) (sh fl : bytes) : Prop :=
  exists c1 c2, filter is_hs cs = [c1; c2] /\ ct_level c1 = LvPlaintext /\ ct_plain c1 = sh /\
                ct_level c2 = LvHandshake /\ ct_plain c2 = fl.
(** The transcript through the ServerHello, and through the server's Finished, in log [L]. *)
Definition through_server_hello (e : env) (h : hashalg) (L : list entry) (Tsh : bytes) : Prop :=
  exists L1 T1 cs sh fl L2, L = L1 ++ Emit (OWrite cs) :: L2 /\ flight cs sh fl /\ transcript e h L1 T1 /\ Tsh = T1 ++ sh.
Definition through_server_finished (e : env) (h : hashalg) (L : list entry) (Tsf : bytes) : Prop :=
  exists L1 T1 cs sh fl L2, L = L1 ++ Emit (OWrite cs) :: L2 /\ flight cs sh fl /\ transcript e h L1 T1 /\ Tsf = T1 ++ sh ++ fl.

(** ** RFC 8446, 4.4.4 and 7.1 *)
Definition finished_key (h : hashalg) (secret : bytes) : bytes := ExpandLabel h secret (str "finished") [] (h_len h).
Definition verify_data (h : hashalg) (secret T : bytes) : bytes := HMAC h (finished_key h secret) (h_fn h T).
Definition client_hs_secret (h : hashalg) (psk dh Tsh : bytes) : bytes :=
  DeriveSecret h (HandshakeSecret h psk dh) (str "c hs traffic") (h_fn h Tsh).
Definition server_hs_secret (h : hashalg) (psk dh Tsh : bytes) : bytes :=
  DeriveSecret h (HandshakeSecret h psk dh) (str "s hs traffic") (h_fn h Tsh).
(** RFC 8446, 7.3: [a] is the factory's AEAD keyed with the traffic key and IV of [secret]. *)
Definition keyed (e : env) (h : hashalg) (cipher : N) (secret : bytes) (a : aead) : Prop :=
  exists kl il mk, e_aead e cipher = Ok (kl, il, mk) /\
    mk (ExpandLabel h secret (str "key") [] kl) (ExpandLabel h secret (str "iv") [] il) = Ok a.
Definition read_keyed (e : env) (h : hashalg) (cipher : N) (secret : bytes) (r : option evstate) : Prop :=
  exists u es, r = Some (mkEv u (LEnc es)) /\ keyed e h cipher secret (es_aead es).
Definition write_keyed (e : env) (h : hashalg) (cipher : N) (secret : bytes) (l : option wlayer) : Prop :=
  exists lv ws, l = Some (WEnc lv ws) /\ keyed e h cipher secret (ws_aead ws).

(** ** Client certificates *)
(** The extension types the CertificateRequest names: signature_algorithms and the verifier's. *)
Definition asked_for (e : env) (t : N) : Prop :=
  t = 13 \/ (e_verifier e <> None /\ exists more, e_verifierExts e = Ok more /\ In t (map ext_type more)).
(** RFC 8446, 4.4.2: extensions of a certificate answer the CertificateRequest. *)
Definition entry_legal (e : env) (x : CertificateEntry) : Prop :=
  Forall (asked_for e) (map ext_type (ce_extensions x)) /\ NoDup (map ext_type (ce_extensions x)).
(** The factory's certificates for the entries of a Certificate message, the first one being the leaf. *)
Inductive chain_of (e : env) : bool -> list CertificateEntry -> list peercert -> Prop :=
| co_nil leaf : chain_of e leaf [] []
| co_cons leaf x r p ps : entry_legal e x -> e_peerCert e x leaf = Ok p -> chain_of e false r ps -> chain_of e leaf (x :: r) (p :: ps).
(** What the verifier (if there is one) makes of a chain. *)
Definition accepted_as (e : env) (chain : list peercert) (c : cert) : Prop :=
  exists leaf rest, chain = leaf :: rest /\
    match e_verifier e with
    | None => c = pc_cert leaf
    | Some v => v chain = Ok (Some c) \/ (v chain = Ok None /\ c = pc_cert leaf)
    end.
(** The handshake messages received in a log. *)
Definition client_msgs (L : list entry) : bytes := flat_map (fun x => match x with Recv _ (EvHandshake _ orig) => orig | _ => [] end) L.
Definition is_hs_recv (x : entry) : bool := match x with Recv _ (EvHandshake _ _) => true | _ => false end.
(** In log [L], which follows a server flight with transcript [Tsf], the client presented a chain and signed the transcript with
    its leaf, and the chain was accepted as [c]. *)
Definition client_authenticated (e : env) (h : hashalg) (Tsf : bytes) (L : list entry) (c : cert) : Prop :=
  exists L1 w1 m o1 L2 w2 cv o2 L3 leaf rest sig,
    L = L1 ++ Recv w1 (EvHandshake (MCertificate m) o1) :: L2 ++ Recv w2 (EvHandshake (MCertificateVerify cv) o2) :: L3 /\
    cm_context m = Some [] /\ chain_of e true (cm_list m) (leaf :: rest) /\
    In (cv_algorithm cv) (e_sigSchemes e) /\ cv_signature cv = Some sig /\
    pc_verify leaf (cv_algorithm cv) CvClient
      (h_fn h (Tsf ++ client_msgs (L1 ++ Recv w1 (EvHandshake (MCertificate m) o1) :: L2))) sig = Ok tt /\
    accepted_as e (leaf :: rest) c.
(** A PSK was accepted while the environment answered as [w]: the ticket cipher opened an identity to [r]. *)
Definition psk_from (w : world) (r : resstate) : Prop := exists id pt, w_ticketDecrypt w id = Ok (pt, Some r).

(** KeyUpdate messages received and sent in a log. *)
Definition is_ku_recv (x : entry) : bool := match x with Recv _ (EvHandshake (MKeyUpdate _) _) => true | _ => false end.
Definition is_ku_sent (x : entry) : bool :=
  match x with Emit (OWrite [c]) => is_hs c && bytes_eqb (takeN 1 (ct_plain c)) (be 1 24) | _ => false end.
Definition count (f : entry -> bool) (L : list entry) : nat := length (filter f L).

(** ** What the server's messages say *)
(** ServerHello: version, cipher suite, key share and whether the first PSK was chosen. *)
Definition hello_says (m : ServerHello) (version cipher : N) (share : option (N * bytes)) (psk : bool) : Prop :=
  sh_suite m = cipher /\
  getExtension KServerSupportedVersions (sh_extensions m) = Ok (Some (XServerSupportedVersions version)) /\
  getExtension KServerKeyShare (sh_extensions m) =
    Ok (match share with Some (g, b) => Some (XServerKeyShare (g, Some b)) | None => None end) /\
  getExtension KServerPresharedKey (sh_extensions m) = Ok (if psk then Some (XServerPresharedKey 0) else None).
(** Its legacy fields and its random: that of the environment, but for the last eight bytes if Encrypted ClientHello is accepted. *)
Definition hello_form (w : world) (m : ServerHello) : Prop :=
  sh_version m = 771 /\ sh_session_id m <> None /\ sh_compression m = 0 /\
  (exists r, w_random w = Ok r /\ (8 <= blen r -> blen (sh_random m) = blen r)) /\
  Forall (fun x => ext_type x < 2 ^ 16 /\ ext_data x <> None) (sh_extensions m).
(** HelloRetryRequest: version, cipher suite, group. *)
Definition retry_says (m : HelloRetryRequest) (version cipher group : N) : Prop :=
  hrr_suite m = cipher /\
  getExtension KServerSupportedVersions (hrr_extensions m) = Ok (Some (XServerSupportedVersions version)) /\
  getExtension KHrrKeyShare (hrr_extensions m) = Ok (Some (XHrrKeyShare group)).
(** A write that carries the HelloRetryRequest [b]: a lone unencrypted handshake message. *)
Definition retry_request (cs : list content) (b : bytes) : Prop :=
  exists c, filter is_hs cs = [c] /\ ct_level c = LvPlaintext /\ ct_plain c = b.

(** ** What client and server agree on *)
(** The first of [mine] that the peer also has. *)
Definition preferred (mine theirs : list N) (v : N) : Prop :=
  exists a b, mine = a ++ v :: b /\ In v theirs /\ forall x, In x a -> ~ In x theirs.
(** Preference tiers: the first tier with a common element, and within it the client's order. *)
Definition preferred_tier (tiers : list (list N)) (theirs : list N) (v : N) : Prop :=
  exists t1 tier t2 l1 l2, tiers = t1 ++ tier :: t2 /\ theirs = l1 ++ v :: l2 /\ In v tier /\
    (forall t x, In t t1 -> In x t -> ~ In x theirs) /\ (forall x, In x l1 -> ~ In x tier).
(** The parameters of one handshake: the ClientHello answered with its encoding and the transcript through it; version, cipher
    suite and its hash; group, client share, server share and shared secret of the key exchange; the ticket accepted as PSK with
    what the ticket cipher says about it; ServerHello and encrypted flight. *)
Record params := mkParams {
  p_hello : ClientHello; p_enc : bytes; p_T : bytes; p_version : N; p_cipher : N; p_hash : hashalg;
  p_kex : option (N * bytes * bytes * bytes); p_ticket : option (bytes * psktype * resstate); p_sh : bytes; p_fl : bytes }.
(** RFC 8446, 7.1: the inputs of the key schedule; a missing one is replaced by a string of zeros. *)
Definition p_psk (P : params) : bytes :=
  match p_ticket P with Some (_, _, r) => match rs_secret r with Some k => k | None => [] end | None => Zero (p_hash P) end.
Definition p_dh (P : params) : bytes := match p_kex P with Some (_, _, _, dh) => dh | None => Zero (p_hash P) end.
Definition p_Tsh (P : params) : bytes := p_T P ++ p_sh P.
Definition p_Tsf (P : params) : bytes := p_T P ++ p_sh P ++ p_fl P.
(** RFC 8446, 4.2.11.2: the binders are the last thing in the ClientHello, and the first of them is a MAC over all that precedes
    them, under a key derived from the PSK. *)
Definition binders_size (bs : list buf) : N := 2 + fold_right (fun b n => 1 + match b with Some x => blen x | None => 0 end + n) 0 bs.
Definition binder_key (h : hashalg) (pt : psktype) (psk : bytes) : bytes :=
  DeriveSecret h (EarlySecret h psk) (match pt with PskExternal => str "ext binder" | _ => str "res binder" end) (h_fn h []).
Definition binder_ok (h : hashalg) (pt : psktype) (psk : bytes) (T enc : bytes) (bs : list buf) : Prop :=
  exists T0 trunc tail b, T = T0 ++ enc /\ enc = trunc ++ tail /\ blen tail = binders_size bs /\
    hd_error bs = Some (Some b) /\ b = verify_data h (binder_key h pt psk) (T0 ++ trunc).
(** RFC 8446, 4.2.11: a PSK is used with the hash of its cipher suite. *)
Definition same_hash (c1 c2 : N) : Prop := exists x, hash_id c1 = Ok x /\ hash_id c2 = Ok x.

(** [P] is what the server, in configuration [e], after log [L0], made of the ClientHello [c] (with encoding [orig], the
    environment answering as [w]), and [cs] is the write that tells the client. *)
Record handshake_of (e : env) (L0 : list entry) (w : world) (c : ClientHello) (orig : bytes) (cs : list content) (P : params) : Prop := mkHO {
  ho_taken : hello_taken e c orig (p_hello P) (p_enc P);
  ho_hash : e_hash e (p_cipher P) = Ok (p_hash P);
  ho_transcript : transcript e (p_hash P) (L0 ++ [Recv w (EvHandshake (MClientHello c) orig)]) (p_T P);
  ho_start : p_T P = p_enc P \/
    exists digest m b, blen digest < 2 ^ 24 /\ encodeHandshake (MHelloRetryRequest m) = Ok b /\ p_T P = message_hash digest ++ b ++ p_enc P;
  ho_flight : flight cs (p_sh P) (p_fl P);
  ho_hello : exists m, encodeHandshake (MServerHello m) = Ok (p_sh P) /\
    hello_says m (p_version P) (p_cipher P) (match p_kex P with Some (g, _, b, _) => Some (g, b) | None => None end)
      (match p_ticket P with Some _ => true | None => false end) /\ hello_form w m;
  ho_finished : exists pre, p_fl P = pre ++ be 1 20 ++ be 3 (h_len (p_hash P)) ++
    verify_data (p_hash P) (server_hs_secret (p_hash P) (p_psk P) (p_dh P) (p_Tsh P)) (p_Tsh P ++ pre);
  ho_version : exists vs, getExtension KSupportedVersions (ch_extensions (p_hello P)) = Ok (Some (XSupportedVersions vs)) /\
    preferred (e_versions e) vs (p_version P);
  ho_cipher : preferred_tier (e_ciphers e) (ch_suites (p_hello P)) (p_cipher P);
  ho_kex : match p_kex P with
    | Some (g, theirs, ours, dh) =>
        (exists gs, getExtension KSupportedGroups (ch_extensions (p_hello P)) = Ok (Some (XSupportedGroups gs)) /\ preferred (e_groups e) gs g) /\
        (exists l, getExtension KClientKeyShare (ch_extensions (p_hello P)) = Ok (Some (XClientKeyShare l)) /\ In (g, Some theirs) l /\
           NoDup (map fst l)) /\
        w_kex w g theirs = Ok (ours, dh)
    | None => p_ticket P <> None /\
        exists ms, getExtension KPskKeyExchangeModes (ch_extensions (p_hello P)) = Ok (Some (XPskKeyExchangeModes ms)) /\ preferred (e_pskModes e) ms 0
    end;
  ho_ticket : match p_ticket P with
    | Some (id, pt, r) =>
        (exists ids bs age, getExtension KClientPresharedKey (ch_extensions (p_hello P)) = Ok (Some (XClientPresharedKey (ids, bs))) /\
           hd_error ids = Some (Some id, age) /\ binder_ok (p_hash P) pt (p_psk P) (p_T P) (p_enc P) bs) /\
        e_ticketCipher e = true /\ w_ticketDecrypt w id = Ok (pt, Some r) /\ rs_secret r = Some (p_psk P) /\
        rs_version r = p_version P /\ same_hash (rs_cipher r) (p_cipher P) /\
        (exists ms md, getExtension KPskKeyExchangeModes (ch_extensions (p_hello P)) = Ok (Some (XPskKeyExchangeModes ms)) /\
           preferred (e_pskModes e) ms md)
    | None => True
    end }.
(** [P] are the parameters of the handshake in log [L], and [L2] is what follows the server's flight. *)
Definition handshake (e : env) (L : list entry) (P : params) (L2 : list entry) : Prop :=
  exists L0 w c orig pre cs, L = L0 ++ Recv w (EvHandshake (MClientHello c) orig) :: map Emit pre ++ Emit (OWrite cs) :: L2 /\
    handshake_of e L0 w c orig cs P.
