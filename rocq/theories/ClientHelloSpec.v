(** * What the ClientHellos of a client have to say.  Only definitions: nothing here is used by the model. *)
From Verif Require Import Base Codec Str Hkdf HkdfSpec KeySched KeySchedSpec Handshake Extensions ExtensionsProofs RecordBase Record ReadEvent Cookie
  Ticket PskSer Kex Transcript HpkeUtils EchCrypt Server ServerSpec PropsEch Client ClientSpec.
Open Scope N_scope.

(** The ClientHello that counts: what is written or, if connect was given ECH configurations, what the written one carries. *)
Definition counted (k : cenv) (cn : conn) (wire : bytes) (c : ClientHello) (b : bytes) : Prop :=
  encodeHandshake (MClientHello c) = Ok b /\ match cn_ech cn with None => b = wire | Some _ => exists ng, carries k ng b wire end.

(** The groups to send key shares for: with a PSK that is offered, that of the PSK (if it is supported), or none if the PSK had no
    key exchange and shares are only sent when necessary; the configured default groups otherwise. *)
Definition chosen_shares (k : cenv) (offered : option cpsk) : list N :=
  match offered, k_sendShare k with
  | Some p, ShAlways | Some p, ShWhenNecessary =>
      match pk_group (cp_psk p), k_sendShare k with
      | Some g, _ => if existsb (N.eqb g) (k_groups k) then [g] else k_shares k
      | None, ShWhenNecessary => []
      | None, _ => k_shares k
      end
  | _, _ => k_shares k
  end.
(** [l] has one fresh share for each of the groups [gs] and no other. *)
Definition fresh_shares (w : cworld) (gs : list N) (l : list (N * buf)) : Prop :=
  NoDup (map fst l) /\ (forall g, In g (map fst l) <-> In g gs) /\
  forall g b, In (g, b) l -> exists x ours, cw_kex w g = Ok x /\ kx_share x = Ok ours /\ b = Some ours.
Definition shares_of (c : ClientHello) (l : list (N * buf)) : Prop :=
  getExtension KClientKeyShare (ch_extensions c) = Ok (Some (XClientKeyShare l)).

(** The PSK to offer. *)
Definition to_offer (k : cenv) (now : Z) (cn : conn) (p : option cpsk) : Prop :=
  forall q, p = Some q <-> cn_psk cn = Some q /\ psk_valid k now q.

(** RFC 8446, 4.2.11.1: milliseconds since the ticket was issued plus ticket_age_add, modulo 2^32; zero for other PSKs. *)
Definition age_of (p : cpsk) (now : Z) (age : N) : Prop :=
  match cp_type p with
  | PskResumption => Z.of_N age = ((Z.quot (now - pk_issue (cp_psk p)) 1000000 + Z.of_N (pk_ageAdd (cp_psk p))) mod 2 ^ 32)%Z
  | _ => age = 0
  end.
(** RFC 8446, 4.2.11: the ClientHello [c], encoded as [b] and following the transcript [T0], offers the PSK [p] in its last extension. *)
Definition psk_offer (h : hashalg) (T0 : bytes) (p : cpsk) (now : Z) (c : ClientHello) (b : bytes) : Prop :=
  exists xs x age binder, ch_extensions c = xs ++ [x] /\ ext_type x = 41 /\ no_type 41 xs = true /\
    getExtension KClientPresharedKey (ch_extensions c) =
      Ok (Some (XClientPresharedKey ([(Some (pk_psk (cp_psk p)), age)], [Some binder]))) /\
    age_of p now age /\ binder_ok h (cp_type p) (pk_secret (cp_psk p)) (T0 ++ b) b [Some binder].

(** The factory's hash functions have the sizes of the cipher suites' hash functions (RFC 8446, B.4). *)
Definition sized_hashes (k : cenv) : Prop := forall c h, k_hash k c = Ok h ->
  (hash_id c = Ok 256 -> h_len h = 32) /\ (hash_id c = Ok 384 -> h_len h = 48) /\ (hash_id c = Ok 512 -> h_len h = 64).
(** The application adds no extension of type [t]. *)
Definition app_without (t : N) (L : list centry) : Prop := forall w xs, In w (worlds L) -> cw_exts w = Ok xs -> no_type t xs = true.
(** The other extensions the configuration and connect ask for. *)
Record extras (k : cenv) (sni : option bytes) (c : ClientHello) : Prop := mkExtras {
  xt_sni : forall n, sni = Some n -> getExtension KServerNameList (ch_extensions c) = Ok (Some (XServerNameList [(0, Some n)]));
  xt_alpn : k_alpns k <> [] -> getExtension KProtocolNameList (ch_extensions c) = Ok (Some (XProtocolNameList (map Some (k_alpns k))));
  xt_modes : k_pskModes k <> [] -> getExtension KPskKeyExchangeModes (ch_extensions c) = Ok (Some (XPskKeyExchangeModes (k_pskModes k)));
  xt_algos : k_decompAlgos k <> [] -> getExtension KCertCompressionAlgs (ch_extensions c) = Ok (Some (XCertCompressionAlgs (k_decompAlgos k))) }.
(** What the first ClientHello says: the session id is empty unless in compatibility mode. *)
Definition says_first (k : cenv) (w : cworld) (offered : option cpsk) (c : ClientHello) : Prop :=
  offers k c /\ (exists sid, ch_session_id c = Some sid /\ if k_compat k then cw_sid w = Ok sid else sid = []) /\
  exists l, shares_of c l /\ fresh_shares w (chosen_shares k offered) l.
(** The second ClientHello [c1], after [c0] was answered by the HelloRetryRequest [m]. *)
Definition says_again (k : cenv) (w : cworld) (m : HelloRetryRequest) (c0 c1 : ClientHello) : Prop :=
  offers k c1 /\ ch_session_id c1 = ch_session_id c0 /\ ch_random c1 = ch_random c0 /\
  (exists l0 l1, shares_of c0 l0 /\ shares_of c1 l1 /\
     ((exists g, getExtension KHrrKeyShare (hrr_extensions m) = Ok (Some (XHrrKeyShare g)) /\ In g (k_groups k) /\ ~ In g (map fst l0) /\
         fresh_shares w [g] l1) \/
      ((forall g, getExtension KHrrKeyShare (hrr_extensions m) <> Ok (Some (XHrrKeyShare g))) /\ l1 = l0))) /\
  (forall b, getExtension KCookie (hrr_extensions m) = Ok (Some (XCookie (Some b))) ->
     getExtension KCookie (ch_extensions c1) = Ok (Some (XCookie (Some b)))).
(** The pre_shared_key extension stays last: it does with Encrypted ClientHello, and if no GREASE extension computed from the hello
    is appended. *)
Definition psk_last (k : cenv) (cn : conn) : Prop := cn_ech cn <> None \/ k_grease k <> Some GComputed.

(** ** Early data *)
(** Early data is attempted with PSK [p]: enabled, allowed by the ticket, and the ticket's application protocol is still offered. *)
Definition early_wanted (k : cenv) (p : cpsk) : Prop :=
  k_sendEarly k = true /\ 0 < pk_maxEarly (cp_psk p) /\ (forall a, pk_alpn (cp_psk p) = Some a -> In a (k_alpns k)).
(** The application protocol the EncryptedExtensions select. *)
Definition alpn_says (xs : list Extension) (a : option bytes) : Prop :=
  match a with
  | Some n => getExtension KProtocolNameList xs = Ok (Some (XProtocolNameList [Some n]))
  | None => getExtension KProtocolNameList xs = Ok None
  end.
Definition retried (L : list centry) : Prop := exists w m o, In (CRecv w (EvHandshake (MHelloRetryRequest m) o)) L.
(** RFC 8446, 4.2.10: the server accepted early data: it did not ask for a retry, selected the PSK offered, with the PSK's cipher suite
    and application protocol, and its EncryptedExtensions have the early_data extension. *)
Definition early_accepted (k : cenv) (L : list centry) : Prop :=
  exists L0 w Q La we xs oe Lb p,
    L = L0 ++ CRecv w (EvHandshake (MServerHello (q_msg Q)) (q_sh Q)) :: La ++ CRecv we (EvHandshake (MEncryptedExtensions xs) oe) :: Lb /\
    chandshake_of k L0 w Q /\ ~ retried L0 /\ q_psk Q = Some p /\ early_wanted k p /\ q_cipher Q = pk_cipher (cp_psk p) /\
    getExtension KServerEarlyData xs = Ok (Some XServerEarlyData) /\ alpn_says xs (pk_alpn (cp_psk p)).

(** The server rejected early data: it asked for a retry, or its EncryptedExtensions lack the early_data extension. *)
Definition early_rejected (L : list centry) : Prop :=
  retried L \/ exists w xs o, In (CRecv w (EvHandshake (MEncryptedExtensions xs) o)) L /\ getExtension KServerEarlyData xs = Ok None.
(** The server's EncryptedExtensions select the application protocol [a], or none. *)
Definition alpn_of (L : list centry) (a : option bytes) : Prop :=
  exists w xs o, In (CRecv w (EvHandshake (MEncryptedExtensions xs) o)) L /\ alpn_says xs a.

(** ** Client certificates *)
Definition is_creq (x : centry) : bool := match x with CRecv _ (EvHandshake (MCertificateRequest _) _) => true | _ => false end.
(** The server asked for a certificate, once, and the answer for the name [sni] is [ans]: a certificate and a scheme. *)
Definition answered (k : cenv) (sni : option bytes) (L : list centry) (ans : option (selfobj * N)) : Prop :=
  exists L1 w m o L2 l, L = L1 ++ CRecv w (EvHandshake (MCertificateRequest m) o) :: L2 /\ ccount is_creq L1 = 0%nat /\ ccount is_creq L2 = 0%nat /\
    cr_context m = Some [] /\ getExtension KSignatureAlgorithms (cr_extensions m) = Ok (Some (XSignatureAlgorithms l)) /\
    match k_getCert k with Some f => f sni l (cr_extensions m) = Ok ans | None => ans = None end.

(** ** ChangeCipherSpec *)
Definition ccs_sent (L : list centry) : nat :=
  length (flat_map (fun x => match x with CEmit (KWrite cs) => filter (fun c => ct_type c =? 20) cs | _ => [] end) L).
