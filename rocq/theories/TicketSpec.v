(** * Specifications for C22-C26 and C29 (independent of the model's control flow) *)
From Verif Require Import Base Codec CodecSpec HandshakeSpec Hkdf HkdfSpec Record Token Ticket PskSer Negotiate.

(** ** Tokens *)
(** The secret list in force after a sequence of updates: the last one whose secrets are all at least 32
    bytes long. *)
Fixpoint in_force (cur : list bytes) (updates : list (list bytes)) : list bytes :=
  match updates with
  | [] => cur
  | u :: r => in_force (if forallb (fun s => 32 <=? blen s) u then u else cur) r
  end.
(** Key schedule: HKDF-Extract over the context strings in order, then HKDF-Expand with the salt. *)
Definition token_secret (h : hashalg) (ctx : list bytes) (secret : bytes) : bytes :=
  fold_left (fun ikm c => Extract h c ikm) ctx secret.
Definition token_aead (h : hashalg) (gcm : bytes -> bytes -> aead) (ctx : list bytes) (secret salt : bytes) : aead :=
  let k := Expand h (token_secret h ctx secret) salt 28 in gcm (takeN 16 k) (dropN 16 k).

(** Running a sequence of setSecrets calls. *)
Fixpoint tok_run (h : hashalg) (t : token) (updates : list (list bytes)) : res token :=
  match updates with
  | [] => Ok t
  | u :: r => '(t', _) <- setSecrets h t u ;; tok_run h t' r
  end.

(** AES-GCM as a function: decryption succeeds exactly on what encryption under the same key, nonce and
    associated data produces. *)
Definition authentic (a : aead) : Prop :=
  forall c ad n ch, ae_try a c ad n = Ok (Some ch) -> ae_enc a (concat ch) ad n = Ok c.

(** ** Tickets *)
Definition opaque16 (b : bytes) : bytes := be 2 (blen b) ++ b.
Definition opaque8 (b : bytes) : bytes := be 1 (blen b) ++ b.
Definition opaque32 (b : bytes) : bytes := be 4 (blen b) ++ b.
Definition ident_of (c : option cert) : bytes := match c with Some c => c_ident c | None => [] end.
(** what is stored for the client certificate *)
Definition client_wire (st : storage) (c : option cert) : bytes :=
  match st, c with
  | SX509, Some (mkCertObj _ (Some der)) => be 1 1 ++ opaque16 der
  | SX509, Some (mkCertObj i None) | SIdent, Some (mkCertObj i _) => be 1 2 ++ opaque16 i
  | _, _ => be 1 0
  end.
(** what is restored for it *)
Definition client_restored (mkPeer : bytes -> res cert) (mkIdent : bytes -> cert) (st : storage) (c : option cert)
  : res (option cert) :=
  match st, c with
  | SX509, Some (mkCertObj _ (Some der)) => x <- mkPeer der ;; Ok (Some x)
  | SX509, Some (mkCertObj i None) | SIdent, Some (mkCertObj i _) => Ok (Some (mkIdent i))
  | _, _ => Ok None
  end.
Definition whole_seconds (t : Z) : Z := (Z.quot t 1000000000 * 1000000000)%Z.
Definition nonempty (o : option bytes) : option bytes := match o with Some [] => None | _ => o end.
Definition bufb (b : buf) : bytes := match b with Some d => d | None => [] end.

(** the three formats, oldest first *)
Definition ticket_wire_v0 (st : storage) (r : resstate) : bytes :=
  be 2 (rs_version r) ++ be 2 (rs_cipher r) ++ opaque16 (bufb (rs_secret r)) ++
  opaque16 (ident_of (rs_serverCert r)) ++ client_wire st (rs_clientCert r) ++ be 4 (rs_ageAdd r) ++
  be 8 (to_u64 (Z.quot (rs_issue r) 1000000000)) ++ opaque8 (bufb (rs_alpn r)).
Definition ticket_wire_v1 st r := ticket_wire_v0 st r ++ opaque16 (bufb (rs_appToken r)).
Definition ticket_wire st r := ticket_wire_v1 st r ++ be 8 (to_u64 (Z.quot (rs_hsTime r) 1000000000)).

Definition rs_ok (r : resstate) : Prop :=
  rs_version r < 2 ^ 16 /\ rs_cipher r < 2 ^ 16 /\ rs_ageAdd r < 2 ^ 32 /\
  int64 (rs_issue r) = true /\ int64 (rs_hsTime r) = true.
Definition rs_fits (st : storage) (r : resstate) : Prop :=
  blen (bufb (rs_secret r)) < 2 ^ 16 /\ blen (ident_of (rs_serverCert r)) < 2 ^ 16 /\
  (match rs_clientCert r with
   | Some c => match st with SNone => True
               | SIdent => blen (c_ident c) < 2 ^ 16
               | SX509 => match c_der c with Some d => blen d < 2 ^ 16 | None => blen (c_ident c) < 2 ^ 16 end end
   | None => True end) /\
  blen (bufb (rs_alpn r)) < 2 ^ 8 /\ blen (bufb (rs_appToken r)) < 2 ^ 16.
Definition rs_restored (getCert : bytes -> option cert) (r : resstate) (cc : option cert) : resstate :=
  mkRS (rs_version r) (rs_cipher r) (Some (bufb (rs_secret r))) (getCert (ident_of (rs_serverCert r))) cc
       (nonempty (rs_alpn r)) (rs_ageAdd r) (whole_seconds (rs_issue r)) (Some (bufb (rs_appToken r)))
       (whole_seconds (rs_hsTime r)).

(** ** Cached PSKs *)
Definition psk_ok (p : psk) : Prop :=
  pk_version p < 2 ^ 16 /\ pk_cipher p < 2 ^ 16 /\ (forall g, pk_group p = Some g -> g < 2 ^ 16) /\
  pk_ageAdd p < 2 ^ 32 /\ pk_maxEarly p < 2 ^ 32 /\
  (0 <= pk_issue p < 2 ^ 63 /\ 0 <= pk_expire p < 2 ^ 63 /\ 0 <= pk_hsTime p < 2 ^ 63)%Z.
Definition cert_restored (ser : cert -> option bytes) (deser : bytes -> option cert) (c : option cert) : option cert :=
  match c with
  | None => None
  | Some c => match ser c with Some [] => None | Some b => deser b | None => None end
  end.
Definition psk_restored ser deser (p : psk) : psk :=
  mkPsk (pk_psk p) (pk_secret p) (pk_version p) (pk_cipher p) (pk_group p) (nonempty (pk_alpn p)) (pk_ageAdd p)
    (Z.quot (pk_issue p) 1000000 * 1000000)%Z (Z.quot (pk_expire p) 1000000000 * 1000000000)%Z
    (cert_restored ser deser (pk_server p)) (cert_restored ser deser (pk_client p)) (pk_maxEarly p)
    (Z.quot (pk_hsTime p) 1000000 * 1000000)%Z.
