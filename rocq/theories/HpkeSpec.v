(** * RFC 9180 key schedule and DHKEM, written from the RFC. *)
From Verif Require Import Base Str Hkdf HkdfSpec Hpke.

Section S.
  Variables (h : hashalg) (pre : bytes) (suite_id : bytes).
  (** section 4; [pre] is "HPKE-v1" *)
  Definition LabeledExtract (salt label ikm : bytes) : bytes := Extract h salt (pre ++ suite_id ++ label ++ ikm).
  Definition LabeledExpand (prk label info : bytes) (L : N) : bytes :=
    Expand h prk (be 2 L ++ pre ++ suite_id ++ label ++ info) L.
  (** section 5.1 *)
  Definition KS_context (m : hmode) (info psk_id : bytes) : bytes :=
    be 1 (mode_id m) ++ LabeledExtract [] (str "psk_id_hash") psk_id ++ LabeledExtract [] (str "info_hash") info.
  Definition KS_secret (ss psk : bytes) : bytes := LabeledExtract ss (str "secret") psk.
  Definition KS_key m ss info psk psk_id Nk := LabeledExpand (KS_secret ss psk) (str "key") (KS_context m info psk_id) Nk.
  Definition KS_nonce m ss info psk psk_id Nn := LabeledExpand (KS_secret ss psk) (str "base_nonce") (KS_context m info psk_id) Nn.
  Definition KS_exporter m ss info psk psk_id := LabeledExpand (KS_secret ss psk) (str "exp") (KS_context m info psk_id) (h_len h).
End S.
(** section 4.1: ExtractAndExpand of DHKEM, suite_id = "KEM" || kem_id *)
Definition KemSecret (h : hashalg) (pre : bytes) (kem_id : N) (dh ctx : bytes) : bytes :=
  LabeledExpand h pre (str "KEM" ++ be 2 kem_id)
    (LabeledExtract h pre (str "KEM" ++ be 2 kem_id) [] (str "eae_prk") dh) (str "shared_secret") ctx (h_len h).

(** A Diffie-Hellman style agreement between the holders of two key pairs. *)
Record dh_pair (p q : Kex.kex) (pk_p pk_q s : bytes) : Prop := {
  dp_p : Kex.kx_share p = Ok pk_p; dp_q : Kex.kx_share q = Ok pk_q;
  dp_1 : Kex.kx_secret p pk_q = Ok s; dp_2 : Kex.kx_secret q pk_p = Ok s }.
