(** * What can be observed of a client connection, and the transcript RFC 8446 (4.4.1) prescribes for it.
    Only definitions: nothing here is used by the model. *)
From Verif Require Import Base Codec Str Hkdf HkdfSpec KeySched KeySchedSpec Handshake Extensions RecordBase Record ReadEvent Cookie
  Ticket PskSer Kex Transcript HpkeUtils EchCrypt Server ServerSpec PropsEch Client.
Open Scope N_scope.

(** ** The log of a connection *)
(** What the application called and what was read from the wire (with the answers the environment gives while it is processed),
    and the actions handed to the application, in order. *)
Inductive centry := CCall (w : cworld) (i : cinput) | CRecv (w : cworld) (ev : event) | CEmit (o : cout).
Definition cinput_log (w : cworld) (s : cstate) (i : cinput) : list centry :=
  match c_state s with
  | CCrash => []
  | _ =>
      match i with
      | JSocket b =>
          match c_read s with
          | Some r => match read_event r b with RMsg _ _ ev => [CRecv w ev] | _ => [] end
          | None => []
          end
      | _ => [CCall w i]
      end
  end.
Fixpoint clog (k : cenv) (s : cstate) (l : list (cworld * cinput)) : cstate * list centry :=
  match l with
  | [] => (s, [])
  | (w, i) :: r =>
      let '(s1, o1) := cstep k w s i in
      let '(s2, log) := clog k s1 r in (s2, cinput_log w s i ++ map CEmit o1 ++ log)
  end.
(** [log] is the log of the connection after the inputs [l], and [s] its state. *)
Definition creach (k : cenv) (l : list (cworld * cinput)) (s : cstate) (log : list centry) : Prop :=
  clog k c_init l = (s, log).

(** ** Configurations *)
(** The factory's hash functions are hash functions, its AEADs have sane key sizes, and code points have the width of their C++ types. *)
Record cenv_ok (k : cenv) : Prop := {
  ko_hash : forall c h, k_hash k c = Ok h -> hash_ok h;
  ko_aead : forall c kl il mk, k_aead k c = Ok (kl, il, mk) -> kl <= 255 /\ il <= 255;
  ko_versions : Forall (fun v => v < 2 ^ 16) (k_versions k);
  ko_groups : Forall (fun g => g < 2 ^ 16) (k_groups k);
  ko_shares : Forall (fun g => g < 2 ^ 16) (k_shares k);
  ko_sigs : Forall (fun g => g < 2 ^ 16) (k_sigSchemes k);
  ko_modes : Forall (fun g => g < 2 ^ 8) (k_pskModes k);
  ko_algos : Forall (fun g => g < 2 ^ 16) (k_decompAlgos k) }.

(** ** Transcript *)
Definition plain_hs (c : content) : bool := is_hs c && match ct_level c with LvPlaintext => true | _ => false end.
(** The ClientHellos written: the unencrypted handshake messages. *)
Definition hellos_sent (L : list centry) : list bytes :=
  flat_map (fun x => match x with CEmit (KWrite cs) => map ct_plain (filter plain_hs cs) | _ => [] end) L.
(** One log entry: [hs] are the ClientHellos so far and [T] the transcript.  A HelloRetryRequest replaces what precedes it by its
    hash; other messages received are appended but for NewSessionTicket and KeyUpdate, which are not part of the handshake; an
    unencrypted handshake message sent stands for a ClientHello (the one written or, with Encrypted ClientHello, the one inside);
    what is sent under the handshake keys is appended, and so is the EndOfEarlyData message before it. *)
Definition ctstep (h : hashalg) (hs : list bytes) (T : bytes) (x : centry) (hs' : list bytes) (T' : bytes) : Prop :=
  match x with
  | CRecv _ (EvHandshake (MHelloRetryRequest _) orig) => hs' = hs /\ T' = message_hash (h_fn h T) ++ orig
  | CRecv _ (EvHandshake (MNewSessionTicket _) _) | CRecv _ (EvHandshake (MKeyUpdate _) _) => hs' = hs /\ T' = T
  | CRecv _ (EvHandshake _ orig) => hs' = hs /\ T' = T ++ orig
  | CEmit (KWrite cs) =>
      match filter is_hs cs with
      | [c] => match ct_level c with
               | LvPlaintext => exists b, hs' = hs ++ [b] /\ T' = T ++ b
               | LvAppTraffic => hs' = hs /\ T' = T
               | _ => hs' = hs /\ T' = T ++ ct_plain c
               end
      | l => hs' = hs /\ T' = T ++ concat (map ct_plain l)
      end
  | _ => hs' = hs /\ T' = T
  end.
Inductive ctrans (h : hashalg) : list centry -> list bytes -> bytes -> Prop :=
| ct_nil : ctrans h [] [] []
| ct_snoc : forall L hs T x hs' T', ctrans h L hs T -> ctstep h hs T x hs' T' -> ctrans h (L ++ [x]) hs' T'.

(** ** Encrypted ClientHello *)
(** The ClientHello [o] written carries the ClientHello [i]: it is [outer] with an encrypted_client_hello extension whose payload is
    [inner] encrypted for the configuration [ng] (EchCrypt.v; C44-C47 say what that means for the server). *)
Definition carries (k : cenv) (ng : negcfg) (i o : bytes) : Prop :=
  exists inner outer gp x wire, encodeHandshake (MClientHello inner) = Ok i /\ encodeHandshake (MClientHello wire) = Ok o /\
    attachECH outer x gp = Ok wire /\
    ((exists enc ctx ctx', encryptClientHello ng enc ctx inner outer gp (k_outerTypes k) = (ctx', Ok x)) \/
     (exists ctx ctx', encryptClientHelloHRR ng ctx inner outer gp (k_outerTypes k) = (ctx', Ok x))).
(** The ClientHellos that count: those written or, if the server accepted Encrypted ClientHello, those inside. *)
Definition hellos_used (k : cenv) (L : list centry) (accepted : bool) (hs : list bytes) : Prop :=
  if accepted then exists ng, Forall2 (carries k ng) hs (hellos_sent L) else hs = hellos_sent L.

(** ** RFC 8446, 7.3 *)
Definition ckeyed (k : cenv) (h : hashalg) (cipher : N) (secret : bytes) (a : aead) : Prop :=
  exists kl il mk, k_aead k cipher = Ok (kl, il, mk) /\
    mk (ExpandLabel h secret (str "key") [] kl) (ExpandLabel h secret (str "iv") [] il) = Ok a.
Definition cread_keyed (k : cenv) (h : hashalg) (cipher : N) (secret : bytes) (r : option evstate) : Prop :=
  exists u es, r = Some (mkEv u (LEnc es)) /\ ckeyed k h cipher secret (es_aead es).
Definition cwrite_keyed (k : cenv) (h : hashalg) (cipher : N) (secret : bytes) (lv : level) (l : option wlayer) : Prop :=
  exists ws, l = Some (WEnc lv ws) /\ ckeyed k h cipher secret (ws_aead ws).

(** ** The parameters of one handshake *)
(** Whether Encrypted ClientHello was accepted, the ClientHellos that count, the transcript through the last of them; the ServerHello
    and its encoding; version, cipher suite and its hash; group, server share and shared secret of the key exchange; the PSK the
    server accepted. *)
Record cparams := mkCP { q_ech : bool; q_hs : list bytes; q_T : bytes; q_msg : ServerHello; q_sh : bytes; q_version : N; q_cipher : N;
  q_hash : hashalg; q_kex : option (N * bytes * bytes); q_psk : option cpsk }.
Definition q_secret (Q : cparams) : bytes := match q_psk Q with Some p => pk_secret (cp_psk p) | None => Zero (q_hash Q) end.
Definition q_dh (Q : cparams) : bytes := match q_kex Q with Some (_, _, dh) => dh | None => Zero (q_hash Q) end.
Definition q_Tsh (Q : cparams) : bytes := q_T Q ++ q_sh Q.
Definition q_chs (Q : cparams) : bytes := client_hs_secret (q_hash Q) (q_secret Q) (q_dh Q) (q_Tsh Q).
Definition q_shs (Q : cparams) : bytes := server_hs_secret (q_hash Q) (q_secret Q) (q_dh Q) (q_Tsh Q).
(** The key exchange of group [g] was generated while the environment answered as one of the worlds of the log. *)
Definition worlds (L : list centry) : list cworld :=
  flat_map (fun x => match x with CCall w _ | CRecv w _ => [w] | CEmit _ => [] end) L.
(** [c] is the last ClientHello of [hs]. *)
Definition last_hello (hs : list bytes) (c : ClientHello) : Prop :=
  exists hs0 b, hs = hs0 ++ [b] /\ encodeHandshake (MClientHello c) = Ok b.

(** What every ClientHello of a client configured as [k] says. *)
Record offers (k : cenv) (c : ClientHello) : Prop := mkOffers {
  of_version : ch_version c = 771;
  of_suites : ch_suites c = k_ciphers k;
  of_compression : ch_compression c = [0];
  of_versions : getExtension KSupportedVersions (ch_extensions c) = Ok (Some (XSupportedVersions (k_versions k)));
  of_groups : getExtension KSupportedGroups (ch_extensions c) = Ok (Some (XSupportedGroups (k_groups k)));
  of_sigs : getExtension KSignatureAlgorithms (ch_extensions c) = Ok (Some (XSignatureAlgorithms (k_sigSchemes k))) }.

(** The call of connect, which is the first thing in the log. *)
Definition connected (L : list centry) (w : cworld) (cn : conn) : Prop := exists L', L = CCall w (JConnect cn) :: L'.
(** A PSK that may be offered: known version and cipher suite and, for a resumption PSK, neither expired nor older than allowed nor
    from the future. *)
Definition psk_valid (k : cenv) (now : Z) (p : cpsk) : Prop :=
  In (pk_version (cp_psk p)) (k_versions k) /\ In (pk_cipher (cp_psk p)) (k_ciphers k) /\
  (cp_type p = PskResumption -> (now <= pk_expire (cp_psk p))%Z /\ (pk_hsTime (cp_psk p) <= now)%Z /\
     (now - pk_hsTime (cp_psk p) <= k_maxPskLife k)%Z).

(** [Q] is what the client, in configuration [k], after log [L0], made of the ServerHello [q_msg Q]. *)
Record chandshake_of (k : cenv) (L0 : list centry) (w : cworld) (Q : cparams) : Prop := mkCHO {
  co_hash : k_hash k (q_cipher Q) = Ok (q_hash Q);
  co_transcript : ctrans (q_hash Q) L0 (q_hs Q) (q_T Q);
  co_start : match q_hs Q with
    | [b] => q_T Q = b
    | [b0; b] => exists w m o, In (CRecv w (EvHandshake (MHelloRetryRequest m) o)) L0 /\ q_T Q = message_hash (h_fn (q_hash Q) b0) ++ o ++ b
    | _ => False
    end;
  co_hellos : hellos_used k L0 (q_ech Q) (q_hs Q);
  co_says : hello_says (q_msg Q) (q_version Q) (q_cipher Q) (match q_kex Q with Some (g, b, _) => Some (g, b) | None => None end)
              (match q_psk Q with Some _ => true | None => false end);
  co_version : In (q_version Q) (k_versions k);
  co_cipher : In (q_cipher Q) (k_ciphers k);
  co_retry : forall w m o, In (CRecv w (EvHandshake (MHelloRetryRequest m) o)) L0 ->
    hrr_suite m = q_cipher Q /\
    getExtension KServerSupportedVersions (hrr_extensions m) = Ok (Some (XServerSupportedVersions (q_version Q)));
  co_kex : match q_kex Q with
    | Some (g, theirs, dh) =>
        exists c l x ours wk, last_hello (q_hs Q) c /\
          getExtension KClientKeyShare (ch_extensions c) = Ok (Some (XClientKeyShare l)) /\ In (g, Some ours) l /\
          In wk (worlds L0) /\ cw_kex wk g = Ok x /\ kx_share x = Ok ours /\ kx_secret x theirs = Ok dh
    | None => q_psk Q <> None /\ In 0 (k_pskModes k)
    end;
  co_session : exists c, last_hello (q_hs Q) c /\ sh_session_id (q_msg Q) = ch_session_id c;
  co_ech : q_ech Q = true -> 8 <= blen (sh_random (q_msg Q)) -> exists c pre d e, last_hello (q_hs Q) c /\
    same_but_tail (q_msg Q) d (repeat x00 8) /\ encodeHandshake (MServerHello d) = Ok e /\
    sh_random (q_msg Q) = pre ++ accept_confirmation (q_hash Q) (str "ech accept confirmation") (ch_random c) (q_T Q ++ e);
  co_psk : match q_psk Q with
    | Some p =>
        exists w0 cn, connected L0 w0 cn /\ cn_psk cn = Some p /\ psk_valid k (cw_now w0) p /\
          pk_version (cp_psk p) = q_version Q /\ same_hash (pk_cipher (cp_psk p)) (q_cipher Q)
    | None => True
    end }.
(** [Q] are the parameters of the handshake in log [L], and [L2] is what follows the ServerHello. *)
Definition chandshake (k : cenv) (L : list centry) (Q : cparams) (L2 : list centry) : Prop :=
  exists L0 w, L = L0 ++ CRecv w (EvHandshake (MServerHello (q_msg Q)) (q_sh Q)) :: L2 /\ chandshake_of k L0 w Q.

(** ** Counting *)
Definition cis_success (x : centry) : bool := match x with CEmit (KSuccess _) => true | _ => false end.
Definition cis_ku_recv (x : centry) : bool := match x with CRecv _ (EvHandshake (MKeyUpdate _) _) => true | _ => false end.
Definition cis_ku_sent (x : centry) : bool :=
  match x with CEmit (KWrite [c]) => is_hs c && bytes_eqb (takeN 1 (ct_plain c)) (be 1 24) | _ => false end.
Definition ccount (f : centry -> bool) (L : list centry) : nat := length (filter f L).

(** ** Server authentication *)
(** The extensions of a certificate entry must have been asked for: they can only answer those the application adds to the ClientHello
    (if it was given to connect). *)
Definition centry_legal (cn : conn) (w : cworld) (x : CertificateEntry) : Prop :=
  if cn_exts cn then exists sent, cw_exts w = Ok sent /\ incl (map ext_type (ce_extensions x)) (map ext_type sent) else ce_extensions x = [].
(** The chain a Certificate message received while the environment answers as [w] presents. *)
Inductive cchain_of (k : cenv) (cn : conn) (w : cworld) : bool -> list CertificateEntry -> list peercert -> Prop :=
| cc_nil leaf : cchain_of k cn w leaf [] []
| cc_cons leaf x r p ps : centry_legal cn w x -> k_peerCert k x leaf = Ok p -> cchain_of k cn w false r ps -> cchain_of k cn w leaf (x :: r) (p :: ps).
Definition caccepted_as (v : option (list peercert -> res (option cert))) (chain : list peercert) (c : cert) : Prop :=
  exists leaf rest, chain = leaf :: rest /\
    match v with
    | None => c = pc_cert leaf
    | Some f => f chain = Ok (Some c) \/ (f chain = Ok None /\ c = pc_cert leaf)
    end.
(** The Certificate message received, possibly compressed with an algorithm the client offered. *)
Definition cert_message (k : cenv) (x : hsmsg) (m : CertificateMsg) : Prop :=
  x = MCertificate m \/ exists z, x = MCompressedCertificate z /\ In (cc_algorithm z) (k_decompAlgos k) /\ k_decompress k z = Ok m.
(** In log [L0 ++ L], [L] following the ServerHello, the server presented a chain and signed the transcript with its leaf, and the
    chain was accepted as [c] by the verifier given to connect. *)
Definition server_authenticated (k : cenv) (cn : conn) (h : hashalg) (hs : list bytes)
    (L0 L : list centry) (c : cert) : Prop :=
  exists L1 w1 x m o1 L2 w2 cv o2 L3 leaf rest sig T,
    L = L1 ++ CRecv w1 (EvHandshake x o1) :: L2 ++ CRecv w2 (EvHandshake (MCertificateVerify cv) o2) :: L3 /\
    cert_message k x m /\ cm_context m = Some [] /\ cchain_of k cn w1 true (cm_list m) (leaf :: rest) /\
    In (cv_algorithm cv) (k_sigSchemes k) /\ cv_signature cv = Some sig /\
    ctrans h (L0 ++ L1 ++ CRecv w1 (EvHandshake x o1) :: L2) hs T /\
    pc_verify leaf (cv_algorithm cv) CvServer (h_fn h T) sig = Ok tt /\
    caccepted_as (cn_verifier cn) (leaf :: rest) c.
