(** * Properties C13-C16: HKDF, HMAC, HkdfLabel, key schedule *)
From Verif Require Import Base Codec CodecSpec Str Nonce Hkdf HkdfSpec HkdfProofs KeySched KeySchedSpec KeySchedProofs.

(** A toy 32-byte "hash" meeting [hash_ok] (and, like SHA-256, with a 64-byte block). *)
Definition toy_hash : hashalg := mkHash 32 64 (fun m => be 32 (unbe m + blen m)) (be 32 0).
Lemma toy_hash_ok : hash_ok toy_hash.
Proof.
  split; try (vm_compute; (reflexivity || discriminate)).
Qed.

(** ** C13 *)
Theorem C13_expand_is_rfc5869 : forall h prk info L, hash_ok h -> blen prk = h_len h ->
  hkdf_expand h prk info L =
  if 255 * h_len h <? L then Err (EStatus None) else Ok (Expand h prk (concat info) L).
Proof.
  intros h prk info L Hh Hp. destruct (N.ltb_spec (255 * h_len h) L).
  - unfold hkdf_expand. rewrite Hp, N.eqb_refl. cbn [negb].
    destruct (N.ltb_spec (255 * h_len h) L); [reflexivity|lia].
  - apply hkdf_expand_ok; assumption.
Qed.
Print Assumptions C13_expand_is_rfc5869.

Theorem C13_expand_length : forall h prk info L out, hash_ok h ->
  hkdf_expand h prk info L = Ok out -> blen out = L.
Proof.
  intros h prk info L out Hh H.
  assert (Hp : blen prk = h_len h).
  { unfold hkdf_expand in H. destruct (N.eqb_spec (blen prk) (h_len h)); [assumption|discriminate]. }
  rewrite C13_expand_is_rfc5869 in H by assumption.
  destruct (255 * h_len h <? L); [discriminate|]. injection H as <-. apply Expand_len; assumption.
Qed.
Print Assumptions C13_expand_length.

Theorem C13_expand_prefix : forall h prk info L1 L2 o1 o2, hash_ok h -> L1 <= L2 ->
  hkdf_expand h prk info L1 = Ok o1 -> hkdf_expand h prk info L2 = Ok o2 ->
  exists rest, o2 = o1 ++ rest.
Proof.
  intros h prk info L1 L2 o1 o2 Hh HL H1 H2.
  assert (Hp : blen prk = h_len h).
  { unfold hkdf_expand in H1. destruct (N.eqb_spec (blen prk) (h_len h)); [assumption|discriminate]. }
  rewrite C13_expand_is_rfc5869 in H1, H2 by assumption.
  destruct (255 * h_len h <? L1); [discriminate|]. destruct (255 * h_len h <? L2); [discriminate|].
  injection H1 as <-. injection H2 as <-. exists (dropN L1 (Expand h prk (concat info) L2)).
  rewrite <- (Expand_prefix h prk (concat info) L1 L2) by assumption. symmetry. apply takeN_dropN.
Qed.
Print Assumptions C13_expand_prefix.

(** The whole HKDF: extract then expand, for every salt (absent = empty), chaining of info and length. *)
Theorem C13_hkdf_is_rfc5869 : forall h ikm salt info L, hash_ok h -> L <= 255 * h_len h ->
  hkdf_full h ikm salt info L = Ok (Expand h (Extract h salt ikm) (concat info) L).
Proof.
  intros h ikm salt info L Hh HL. unfold hkdf_full. rewrite hkdf_extract_ok by assumption. cbn [bind].
  apply hkdf_expand_ok; auto. apply Extract_len; assumption.
Qed.
Print Assumptions C13_hkdf_is_rfc5869.

Example C13_nonvacuous :
  hash_ok toy_hash /\ exists o, hkdf_expand toy_hash (repeat x2a 32) [[x01]; [x02]] 70 = Ok o /\ blen o = 70.
Proof.
  split; [apply toy_hash_ok|]. eexists. split; [vm_compute; reflexivity|reflexivity].
Qed.
Example C13_limit : hkdf_expand toy_hash (repeat x2a 32) [[x01]] 8161 = Err (EStatus None).
Proof. reflexivity. Qed.

(** ** C14: whatever the two stack arrays contained before, for every key length and chaining of the text *)
Theorem C14_hmac_is_rfc2104 : forall h j1 j2 key text outSize, hash_ok h ->
  blen j1 = 128 -> blen j2 = 128 -> h_len h <= outSize ->
  hmac_mem h j1 j2 key text outSize = Ok (rfc2104 (h_fn h) (h_block h) key (concat text)).
Proof. exact hmac_mem_ok. Qed.
Print Assumptions C14_hmac_is_rfc2104.

Example C14_nonvacuous_long_key :
  hmac_mem toy_hash (repeat x55 128) (repeat xaa 128) (repeat x01 65) [[x61]; []; [x62]] 32 =
  Ok (rfc2104 (h_fn toy_hash) 64 (repeat x01 65) [x61; x62]).
Proof. vm_compute. reflexivity. Qed.

(** ** C15 *)
Theorem C15_label_injective : forall prefix L1 l1 c1 L2 l2 c2 e, L1 < 65536 -> L2 < 65536 ->
  encodeHkdfLabel prefix L1 l1 c1 = Ok e -> encodeHkdfLabel prefix L2 l2 c2 = Ok e ->
  L1 = L2 /\ l1 = l2 /\
  match c1 with Some b => b | None => [] end = match c2 with Some b => b | None => [] end.
Proof.
  intros prefix L1 l1 c1 L2 l2 c2 e H1 H2 E1 E2.
  assert (B : forall L l c, encodeHkdfLabel prefix L l c = Ok e ->
    blen prefix + blen l <= 255 /\ blen (match c with Some c => c | None => [] end) <= 255).
  { intros L l c E.
    destruct (N.le_gt_cases (blen prefix + blen l) 255);
      destruct (N.le_gt_cases (blen (match c with Some c => c | None => [] end)) 255); auto;
      rewrite encodeHkdfLabel_big in E; (discriminate || auto). }
  destruct (B _ _ _ E1) as [B1 B1']. destruct (B _ _ _ E2) as [B2 B2'].
  rewrite encodeHkdfLabel_ok in E1, E2 by assumption.
  set (d1 := match c1 with Some b => b | None => [] end) in *.
  set (d2 := match c2 with Some b => b | None => [] end) in *.
  assert (E : be 2 L1 ++ be 1 (blen prefix + blen l1) ++ prefix ++ l1 ++ be 1 (blen d1) ++ d1 =
              be 2 L2 ++ be 1 (blen prefix + blen l2) ++ prefix ++ l2 ++ be 1 (blen d2) ++ d2) by congruence.
  clear E1 E2.
  apply app_inj_len in E; [|rewrite !be_blen; reflexivity]. destruct E as [EL E].
  apply be_inj in EL; [|exact H1|exact H2].
  apply app_inj_len in E; [|rewrite !be_blen; reflexivity]. destruct E as [Ell E].
  apply be_inj in Ell; [|change (256 ^ N.of_nat 1) with 256; lia|change (256 ^ N.of_nat 1) with 256; lia].
  apply app_inv_head in E. apply app_inj_len in E; [|lia]. destruct E as [El E].
  apply app_inj_len in E; [|rewrite !be_blen; reflexivity]. destruct E as [_ Ed].
  auto.
Qed.
Print Assumptions C15_label_injective.

Theorem C15_overlong_rejected : forall prefix L label c,
  (255 < blen prefix + blen label \/ 255 < blen (match c with Some b => b | None => [] end)) <->
  ~ exists e, encodeHkdfLabel prefix L label c = Ok e.
Proof.
  intros prefix L label c. split.
  - intros H [e E]. rewrite encodeHkdfLabel_big in E by assumption. discriminate.
  - intros H.
    destruct (N.le_gt_cases (blen prefix + blen label) 255); [|auto].
    destruct (N.le_gt_cases (blen (match c with Some b => b | None => [] end)) 255); [|auto].
    exfalso. apply H. eexists. apply encodeHkdfLabel_ok; assumption.
Qed.
Print Assumptions C15_overlong_rejected.

(** What expandLabel hands to HKDF-Expand is the HkdfLabel structure of RFC 8446. *)
Theorem C15_expandLabel_is_rfc8446 : forall h secret label ctx L, hash_ok h -> blen secret = h_len h ->
  blen label <= 249 -> blen ctx <= 255 -> L < 65536 -> L <= 255 * h_len h ->
  expandLabel h secret label (Some ctx) L = Ok (ExpandLabel h secret label ctx L).
Proof. intros. apply (expandLabel_ok h secret label (Some ctx) L); assumption. Qed.
Print Assumptions C15_expandLabel_is_rfc8446.

(** expandLabel's length parameter is a uint16_t: a caller passing a size_t above 65535
    (getTrafficKey takes size_t) silently gets a shorter output instead of an error. *)
Theorem C15_length_narrowing_refuted : exists h secret out,
  hash_ok h /\ blen secret = h_len h /\
  ks_step h ks_init (GetTrafficKey secret 65552 12) = (ks_init, Ok out) /\
  exists k iv, out = OKeyIv k iv /\ blen k = 16.
Proof.
  exists toy_hash, (repeat x2a 32). eexists. split; [apply toy_hash_ok|]. split; [reflexivity|].
  split; [vm_compute; reflexivity|]. eexists _, _. split; reflexivity.
Qed.
Print Assumptions C15_length_narrowing_refuted.

Example C15_nonvacuous : exists e, encodeHkdfLabel kHkdfLabelPrefix 16 (str "key") (Some []) = Ok e /\ blen e = 13.
Proof. eexists. split; [vm_compute; reflexivity|reflexivity]. Qed.
Example C15_boundary : (exists e, encodeHkdfLabel kHkdfLabelPrefix 16 (repeat x61 249) (Some (repeat x62 255)) = Ok e) /\
  encodeHkdfLabel kHkdfLabelPrefix 16 (repeat x61 250) None = Err EThrow.
Proof. split; [eexists; vm_compute; reflexivity|vm_compute; reflexivity]. Qed.

(** ** C16 *)
(** For every sequence of calls on a fresh scheduler, every result is the one RFC 8446's schedule
    prescribes, and every call the schedule does not allow at that point is rejected without effect. *)
Theorem C16_refines_rfc8446 : forall h ops, hash_ok h -> Forall (op_ok h) ops ->
  Forall2 agrees (snd (ks_run h ks_init ops)) (spec_run h (Start, None) ops).
Proof. intros h ops Hh Ho. apply (run_ok h Hh); [apply rel_init|exact Ho]. Qed.
Print Assumptions C16_refines_rfc8446.

(** No call can reach a secret of a stage the schedule has left or not entered: concrete consequences. *)
Definition derives_master (o : ks_op) : bool := match o with DeriveMaster => true | _ => false end.
Definition wants_master (o : ks_op) : bool :=
  match o with GetMaster _ _ | DeriveApp _ | ClearMaster => true | _ => false end.

Lemma no_master_step h s o : (forall b, ks_secret s <> Some (KMaster b)) -> derives_master o = false ->
  (forall b, ks_secret (fst (ks_step h s o)) <> Some (KMaster b)) /\
  (wants_master o = true -> exists e, snd (ks_step h s o) = Err e).
Proof.
  intros Hn Hd. destruct s as [sec app]. cbn [ks_secret] in *.
  destruct sec as [[x|x|x]|]; [| |exfalso; eapply Hn; reflexivity|];
  destruct o; cbn [derives_master] in Hd; try discriminate;
  cbn [ks_step ks_secret ks_app wants_master as_early try_early as_handshake try_handshake as_master bind];
  unfold put;
  repeat match goal with |- context [match ?y with _ => _ end] => destruct y eqn:? end;
  cbn [fst snd ks_secret]; split; intros; first [discriminate | eexists; reflexivity | idtac];
  try match goal with H : (match ?y with _ => _ end) = (?k, _) |- _ => destruct y end;
  match goal with H : (_, _) = (?k, _) |- _ => injection H; intros; subst; cbn [ks_secret] in *; discriminate end.
Qed.

Theorem C16_cleared_master_unreachable : forall h s s' out ops,
  ks_step h s ClearMaster = (s', Ok out) -> Forall (fun o => derives_master o = false) ops ->
  Forall2 (fun o r => wants_master o = true -> exists e, r = Err e) ops (snd (ks_run h s' ops)).
Proof.
  intros h s s' out ops H Ho.
  assert (Hn : forall b, ks_secret s' <> Some (KMaster b)).
  { cbn [ks_step] in H. destruct (ks_secret s) as [[]|]; try discriminate. injection H as <- _. discriminate. }
  clear H. revert s' Hn. induction Ho as [|o ops Ho1 Ho2 IH]; intros s' Hn; [constructor|].
  cbn [ks_run]. pose proof (no_master_step h s' o Hn Ho1) as [A B].
  destruct (ks_step h s' o) as [s1 r]. cbn [fst snd] in *. specialize (IH s1 A).
  destruct (ks_run h s1 ops). constructor; assumption.
Qed.
Print Assumptions C16_cleared_master_unreachable.

(** Key updates: whatever the interleaving, each direction's secret depends only on the number of
    its own updates, and is the corresponding iterate of the update function. *)
Definition is_update (o : ks_op) : bool := match o with ClientKeyUpdate | ServerKeyUpdate => true | _ => false end.
Definition count (o : ks_op) (l : list ks_op) : nat :=
  List.length (filter (fun x => match o, x with
    | ClientKeyUpdate, ClientKeyUpdate => true | ServerKeyUpdate, ServerKeyUpdate => true | _, _ => false end) l).
Theorem C16_key_updates : forall h s s' ops c v cg vg, hash_ok h ->
  ks_app s = Some (mkApp c cg v vg) -> blen c = h_len h -> blen v = h_len h ->
  cg < 2 ^ 32 -> vg < 2 ^ 32 ->
  Forall (fun o => is_update o = true) ops -> s' = fst (ks_run h s ops) ->
  ks_app s' = Some (mkApp
    (Nat.iter (count ClientKeyUpdate ops) (NextTraffic h) c) ((cg + N.of_nat (count ClientKeyUpdate ops)) mod 2 ^ 32)
    (Nat.iter (count ServerKeyUpdate ops) (NextTraffic h) v) ((vg + N.of_nat (count ServerKeyUpdate ops)) mod 2 ^ 32)) /\
  ks_secret s' = ks_secret s.
Proof.
  intros h s s' ops c v cg vg Hh Ha Hc Hv Hcg Hvg Ho ->.
  revert s c v cg vg Ha Hc Hv Hcg Hvg. induction Ho as [|o ops Ho1 Ho2 IH]; intros s c v cg vg Ha Hc Hv Hcg Hvg.
  - cbn [ks_run fst count filter List.length Nat.iter nat_rect].
    change (N.of_nat 0) with 0. rewrite !N.add_0_r, !N.mod_small by assumption. auto.
  - pose proof (hl16 h Hh) as [H1 [H2 H3]].
    assert (Hit : forall n x, Nat.iter n (NextTraffic h) (NextTraffic h x) = NextTraffic h (Nat.iter n (NextTraffic h) x)).
    { intros n x. induction n as [|n IHn]; [reflexivity|]. 
      change (NextTraffic h (Nat.iter n (NextTraffic h) (NextTraffic h x)) =
              NextTraffic h (NextTraffic h (Nat.iter n (NextTraffic h) x))). rewrite IHn. reflexivity. }
    assert (Hm : forall a n, ((a + 1) mod 2 ^ 32 + N.of_nat n) mod 2 ^ 32 = (a + N.of_nat (S n)) mod 2 ^ 32).
    { intros a n. rewrite N.add_mod_idemp_l by discriminate. f_equal. lia. }
    destruct o; cbn [is_update] in Ho1; try discriminate; cbn [ks_run ks_step].
    + rewrite Ha. cbn [deref_app bind at_client at_cgen at_server at_sgen].
      rewrite (el_ok h Hh) by (auto; try (vm_compute; discriminate); lia).
      fold (NextTraffic h c). cbn [bind put].
      match goal with |- context [ks_run h ?s1 ops] =>
        destruct (IH s1 (NextTraffic h c) v ((cg + 1) mod 2 ^ 32) vg) as [E1 E2]; auto end.
      { apply (ExpandLabel_len h Hh). }
      { apply N.mod_lt. discriminate. }
      destruct (ks_run h _ ops) as [s2 rs]. cbn [fst] in *. rewrite E1, E2. cbn [ks_secret].
      split; [|reflexivity]. unfold count. cbn [filter List.length]. rewrite Hm, Hit. reflexivity.
    + rewrite Ha. cbn [deref_app bind at_client at_cgen at_server at_sgen].
      rewrite (el_ok h Hh) by (auto; try (vm_compute; discriminate); lia).
      fold (NextTraffic h v). cbn [bind put].
      match goal with |- context [ks_run h ?s1 ops] =>
        destruct (IH s1 c (NextTraffic h v) cg ((vg + 1) mod 2 ^ 32)) as [E1 E2]; auto end.
      { apply (ExpandLabel_len h Hh). }
      { apply N.mod_lt. discriminate. }
      destruct (ks_run h _ ops) as [s2 rs]. cbn [fst] in *. rewrite E1, E2. cbn [ks_secret].
      split; [|reflexivity]. unfold count. cbn [filter List.length]. rewrite Hm, Hit. reflexivity.
Qed.
Print Assumptions C16_key_updates.

(** A full 1-RTT schedule with two client updates and a server update goes through; a second
    early-secret derivation and a premature read of a master secret are rejected. *)
Definition ex_ops : list ks_op :=
  [GetMaster ExporterMaster (repeat x00 32); DeriveEarly [x01]; DeriveEarly [x01];
   GetEarly ResumptionPskBinder (repeat x05 32); DeriveHandshakeDH [x02];
   GetHandshake ServerHandshakeTraffic (repeat x06 32); DeriveMaster; DeriveApp (repeat x07 32);
   ClientKeyUpdate; ServerKeyUpdate; ClientKeyUpdate; GetApp ClientAppTraffic; ClearMaster;
   GetMaster ResumptionMaster (repeat x08 32)].
Example C16_nonvacuous : Forall (op_ok toy_hash) ex_ops /\
  map is_ok (snd (ks_run toy_hash ks_init ex_ops)) =
  [false; true; false; true; true; true; true; true; true; true; true; true; true; false].
Proof. split; [repeat constructor|vm_compute; reflexivity]. Qed.
