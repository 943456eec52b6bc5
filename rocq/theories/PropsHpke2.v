(** * Further theorems for C07, C20 and C33 *)
From Verif Require Import Base Codec Str Hkdf HkdfSpec HkdfProofs Kex Record RecordSpec Hpke HpkeSpec HpkeProofs HpkeUtils PropsKeys PropsRecord PropsHpke.
Open Scope N_scope.

(** ** C07: which versions use the record header as additional data *)
(** 772 TLS 1.3; 32535/64279 draft 23 (and its _fb variant); 32538/64282 draft 26; 32540 draft 28. *)
Definition known_version (v : N) : Prop := In v [772; 32535; 64279; 32538; 64282; 32540].
Definition old_draft (v : N) : Prop := v = 32535 \/ v = 64279.
Lemma real_draft_cases v : (known_version v /\ exists rv, real_draft_version v = Ok rv /\ (rv = 32535 <-> old_draft v)) \/
  (~ known_version v /\ real_draft_version v = Err (EStatus None)).
Proof.
  unfold real_draft_version, known_version, old_draft. cbn [In].
  destruct (N.eqb_spec v 772); [left; split; [auto|]; eexists; split; [reflexivity|]; lia|].
  destruct (N.eqb_spec v 32535); [left; split; [auto 10|]; eexists; split; [reflexivity|]; lia|].
  destruct (N.eqb_spec v 64279); [left; split; [auto 10|]; eexists; split; [reflexivity|]; lia|]. cbn [orb].
  destruct (N.eqb_spec v 32538); [left; split; [auto 10|]; eexists; split; [reflexivity|]; lia|].
  destruct (N.eqb_spec v 64282); [left; split; [auto 10|]; eexists; split; [reflexivity|]; lia|]. cbn [orb].
  destruct (N.eqb_spec v 32540); [left; split; [auto 10|]; eexists; split; [reflexivity|]; lia|].
  right. split; [|reflexivity]. intros H. repeat (destruct H as [H|H]; [congruence|]). exact H.
Qed.
(** Both directions switch additional data off exactly for draft 23, change nothing else, and refuse unknown versions. *)
Theorem C07_version_additional_data : forall v w r,
  (known_version v ->
     exists w' r', w_set_version w v = Ok w' /\ enc_set_version r v = Ok r' /\ (ws_ad w' = false <-> old_draft v) /\ (es_ad r' = false <-> old_draft v) /\
       (ws_seq w', ws_max w', ws_policy w', ws_aead w') = (ws_seq w, ws_max w, ws_policy w, ws_aead w) /\
       (es_seq r', es_skip r', es_aead r') = (es_seq r, es_skip r, es_aead r)) /\
  (~ known_version v -> w_set_version w v = Err (EStatus None) /\ enc_set_version r v = Err (EStatus None)).
Proof.
  intros v w r. unfold w_set_version, enc_set_version. destruct (real_draft_cases v) as [(K & rv & -> & E)|(K & ->)]; split; intros H; try tauto.
  - cbn [bind]. eexists _, _. split; [reflexivity|]. split; [reflexivity|]. cbn. destruct (N.eqb_spec rv 32535); cbn; intuition congruence.
Qed.
(** The record header is what the cipher is given as additional data when the writer uses it, and nothing otherwise. *)
Example C07_version_nonvacuous : exists w, w_set_version ex_ws 32535 = Ok w /\ ws_ad w = false /\ ws_ad ex_ws = true.
Proof. eexists. vm_compute. auto. Qed.

(** ** C20 *)
Theorem C20_zero_size_refused : forall a b,
  (exists k, hybrid_generate (Ok a) (Ok b) = Ok k) <-> kx_size a <> 0 /\ kx_size b <> 0.
Proof.
  intros a b. unfold hybrid_generate. cbn [bind]. destruct (N.eqb_spec (kx_size a) 0), (N.eqb_spec (kx_size b) 0); cbn [orb]; split; intros H;
    try (destruct H as (k & H); discriminate); try tauto; try (split; assumption). eexists. reflexivity.
Qed.
Theorem C20_component_failure : forall a b, is_ok a = false \/ is_ok b = false -> is_ok (hybrid_generate a b) = false.
Proof. intros [a|?] [b|?] [H|H]; try discriminate; reflexivity. Qed.

(** ** C33 *)
(** RFC 9180, tables 2, 3 and 5: group, KEM id, hash of the KEM, length of the encapsulated key; KDF ids; AEAD ids. *)
Definition kem_table : list (N * N * hashfn * N) := [(23, 16, Sha256, 65); (24, 17, Sha384, 97); (25, 18, Sha512, 133); (29, 32, Sha256, 32)].
Definition kdf_table : list (hashfn * N) := [(Sha256, 1); (Sha384, 2); (Sha512, 3)].
Definition aead_table : list (N * N) := [(4865, 1); (4866, 2); (4867, 3)].
Theorem C33_identifiers : 
  (forall g k, getKEMId g = Ok k <-> exists h n, In (g, k, h, n) kem_table) /\
  (forall g k, getDHKEMId g = Ok k <-> exists h n, In (g, k, h, n) kem_table) /\
  (forall g k, getKexGroup k = Ok g <-> exists h n, In (g, k, h, n) kem_table) /\
  (forall k h, getHashFunctionForKEM k = Ok h <-> exists g n, In (g, k, h, n) kem_table) /\
  (forall k n, nenc k = Ok n <-> exists g h, In (g, k, h, n) kem_table) /\
  (forall h k, getKDFId h = Ok k <-> In (h, k) kdf_table) /\ (forall h k, getHashFunction k = Ok h <-> In (h, k) kdf_table) /\
  (forall s k, getAeadId s = Ok k <-> In (s, k) aead_table) /\ (forall s k, getCipherSuite k = Ok s <-> In (s, k) aead_table).
Proof.
  unfold getKEMId, tryGetKEMId, getDHKEMId, getKexGroup, getHashFunctionForKEM, nenc, getKDFId, getHashFunction, getAeadId, tryGetAeadId, getCipherSuite.
  repeat split; unfold kem_table, kdf_table, aead_table; cbn [In]; intros H.
  all: try (repeat match type of H with context [?x =? ?y] => destruct (N.eqb_spec x y); [subst|] end; try discriminate; injection H as <-; eauto 10; fail).
  all: try (destruct h; injection H as <-; auto; fail).
  all: repeat match goal with H : exists _, _ |- _ => destruct H end;
    repeat match goal with H : _ \/ _ |- _ => destruct H as [H|H]; [injection H as; subst; reflexivity|] end; contradiction.
Qed.
(** The exporter interface is RFC 9180's Context.Export. *)
Theorem C33_export : forall c ectx L, hash_ok (hc_hash c) -> blen (hc_exporter c) = h_len (hc_hash c) -> L <= 255 * h_len (hc_hash c) ->
  hexport c ectx L = Ok (LabeledExpand (hc_hash c) (hc_pre c) (hc_suite c) (hc_exporter c) (str "sec") ectx L).
Proof.
  intros c ectx L Hh He HL. unfold hexport. destruct (N.ltb_spec (255 * h_len (hc_hash c)) L); [lia|].
  apply lexp_ok; auto. pose proof (ho_le _ Hh). pose proof (ho_max _ Hh). lia.
Qed.
Theorem C33_export_too_long : forall c ectx L, 255 * h_len (hc_hash c) < L -> hexport c ectx L = Err (EStatus None).
Proof. intros c ectx L H. unfold hexport. destruct (N.ltb_spec (255 * h_len (hc_hash c)) L); [reflexivity|lia]. Qed.
Example C33_export_nonvacuous : exists c, hash_ok (hc_hash c) /\ blen (hc_exporter c) = h_len (hc_hash c) /\ is_ok (hexport c (str "x") 16) = true.
Proof.
  exists (mkHctx 0 toy_aead (be 32 1) toy_hash (str "HPKE-v1") (hpkeSuiteId 32 1 1) Sender).
  split; [apply toy_hash_ok|]. split; vm_compute; reflexivity.
Qed.
