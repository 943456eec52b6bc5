(** * Properties C17 (HPKE contexts), C20 (hybrid key exchange), C33 (HPKE setup) *)
From Verif Require Import Base Codec Str Hkdf HkdfSpec HkdfProofs Kex Record RecordSpec Hpke HpkeSpec HpkeProofs PropsRecord PropsKeys.
From Coq Require Import FinFun.

(** The sequence numbers of the seals and opens that succeeded, in call order. *)
Definition uses_nonce (o : hop) : bool := match o with HExport _ _ => false | _ => true end.
Definition succ_seqs (l : list (hop * N * option bytes * res unit)) : list N :=
  map (fun '(_, n, _, _) => n) (filter (fun '(o, _, _, r) => uses_nonce o && is_ok r) l).

(** ** C17 *)
Theorem C17_in_order : forall ops c c' l, hrun c ops = (c', l) ->
  succ_seqs l = map (fun i => hc_seq c + N.of_nat i) (seq 0 (length (succ_seqs l))) /\
  hc_seq c' = hc_seq c + blen (succ_seqs l).
Proof.
  induction ops as [|o ops IH]; intros c c' l H.
  - cbn [hrun] in H. injection H as <- <-. unfold succ_seqs. cbn. split; [reflexivity|unfold blen; cbn; lia].
  - cbn [hrun] in H. destruct (hstep c o) as [[c1 b] r] eqn:E. destruct (hrun c1 ops) as [c2 l1] eqn:E1.
    injection H as <- <-. destruct (IH _ _ _ E1) as [I1 I2].
    destruct (hstep_seq _ _ _ _ _ E) as [S1 S2].
    unfold succ_seqs. cbn [filter].
    destruct (uses_nonce o && is_ok r) eqn:Eu.
    + apply andb_true_iff in Eu. destruct Eu as [Eu Er]. destruct r as [[]|]; [|discriminate].
      assert (c1 = set_seq c (hc_seq c + 1)) as ->.
      { destruct o; [apply (S2 aad pt); auto|apply (S2 aad ct); auto|discriminate]. }
      cbn [map]. fold (succ_seqs l1). cbn [set_seq hc_seq] in I1, I2. split.
      * cbn [length seq map]. f_equal; [lia|]. rewrite I1 at 1. rewrite <- seq_shift, map_map.
        apply map_ext. intros i. lia.
      * rewrite I2, blen_cons. lia.
    + fold (succ_seqs l1).
      assert (c1 = c) as ->; [|auto].
      destruct S1 as [->|(-> & -> & _)]; [reflexivity|].
      destruct o; cbn in Eu; try discriminate.
      unfold hstep in E. destruct (hexport c ectx L); [|discriminate]. injection E as <- _. reflexivity.
Qed.
Print Assumptions C17_in_order.

(** Hence no two successful seals of a context share a sequence number. *)
Theorem C17_no_reuse : forall ops c c' l, hrun c ops = (c', l) -> NoDup (succ_seqs l).
Proof.
  intros ops c c' l H. destruct (C17_in_order _ _ _ _ H) as [-> _].
  apply FinFun.Injective_map_NoDup; [|apply seq_NoDup]. intros i j. lia.
Qed.
Print Assumptions C17_no_reuse.

Theorem C17_failure_keeps_counter : forall c o c' b e, hstep c o = (c', b, Err e) -> c' = c.
Proof.
  intros c o c' b e H. destruct (hstep_seq _ _ _ _ _ H) as [[->|(_ & E & _)] _]; [reflexivity|discriminate].
Qed.
Print Assumptions C17_failure_keeps_counter.

Theorem C17_roles : forall c aad x,
  (hc_role c = Receiver -> hseal c aad x = (c, None, Err (EStatus None))) /\
  (hc_role c = Sender -> hopen c aad x = (c, None, Err (EStatus None))).
Proof. intros c aad x. unfold hseal, hopen. split; intros ->; reflexivity. Qed.
Print Assumptions C17_roles.

Theorem C17_limit : forall c aad x, 2 ^ 64 - 2 <= hc_seq c ->
  (exists e, snd (hseal c aad x) = Err e) /\ (exists e, snd (hopen c aad x) = Err e).
Proof.
  intros c aad x H. unfold hseal, hopen, incrementSeq.
  assert (E : (max64 - 1 <=? hc_seq c) = true) by (apply N.leb_le; unfold max64; lia).
  rewrite E. split.
  - destruct (hc_role c); [|eexists; reflexivity]. destruct (ae_enc _ _ _ _); eexists; reflexivity.
  - destruct (hc_role c); [eexists; reflexivity|]. destruct (ae_dec _ _ _ _); eexists; reflexivity.
Qed.
Print Assumptions C17_limit.

(** At the limit the cipher is invoked, and its output stored, before the limit is noticed: two calls
    with different plaintexts then hand out ciphertexts made with the same nonce (both report failure). *)
Theorem C17_limit_ciphertext_refuted : exists c p1 p2 ct1 ct2 e1 e2,
  p1 <> p2 /\ hc_seq c = 2 ^ 64 - 2 /\
  hseal c None p1 = (c, Some ct1, Err e1) /\ hseal c None p2 = (c, Some ct2, Err e2) /\
  ae_enc (hc_aead c) p1 None (hc_seq c) = Ok ct1 /\ ae_enc (hc_aead c) p2 None (hc_seq c) = Ok ct2.
Proof.
  exists (mkHctx (2 ^ 64 - 2) toy_aead [] toy_hash [] [] Sender), [x01], [x02].
  eexists _, _, _, _. split; [discriminate|]. repeat split.
Qed.
Print Assumptions C17_limit_ciphertext_refuted.

(** What the sender sealed, opened in the same order by a receiver with the same key. *)
Theorem C17_roundtrip : forall (msgs : list (option bytes * bytes)) cts cs cs' cr,
  hc_role cs = Sender -> hc_role cr = Receiver -> hc_seq cr = hc_seq cs ->
  opens (hc_aead cs) (hc_aead cr) ->
  hrun cs (map (fun '(a, p) => HSeal a p) msgs) =
    (cs', map (fun '(a, p, n, ct) => (HSeal a p, n, Some ct, Ok tt)) cts) ->
  exists cr', hrun cr (map (fun '(a, p, n, ct) => HOpen a ct) cts) =
    (cr', map (fun '(a, p, n, ct) => (HOpen a ct, n, Some p, Ok tt)) cts) /\
    hc_seq cr' = hc_seq cs' /\ map (fun '(a, p, n, ct) => (a, p)) cts = msgs.
Proof.
  induction msgs as [|[a p] msgs IH]; intros cts cs cs' cr Rs Rr Hq Ho H.
  - cbn [map hrun] in H. injection H as <- H. destruct cts as [|[[[? ?] ?] ?]]; [|discriminate].
    exists cr. cbn. auto.
  - cbn [map hrun hstep] in H.
    destruct (hseal cs a p) as [[c1 b] r] eqn:E.
    destruct (hrun c1 (map (fun '(a, p) => HSeal a p) msgs)) as [c2 l1] eqn:E1.
    injection H as <- H. destruct cts as [|[[[a0 p0] n0] ct] cts]; [discriminate|].
    cbn [map] in H. injection H as <- <- Hn Hb Hr Hl. subst n0 b r l1.
    unfold hseal in E. rewrite Rs in E. destruct (ae_enc (hc_aead cs) p a (hc_seq cs)) as [x|] eqn:Ee; [|discriminate].
    unfold incrementSeq in E. destruct (max64 - 1 <=? hc_seq cs) eqn:El; [discriminate|]. injection E as <- <-.
    destruct (Ho _ _ _ _ Ee) as [_ (ch & _ & Hch & Ht)].
    destruct (IH cts (set_seq cs (hc_seq cs + 1)) c2 (set_seq cr (hc_seq cs + 1))) as (cr' & E2 & E3 & E4); auto.
    exists cr'. cbn [map hrun hstep].
    assert (Eo : hopen cr a x = (set_seq cr (hc_seq cs + 1), Some p, Ok tt)).
    { unfold hopen. rewrite Rr. unfold ae_dec. rewrite Hq, Ht. cbn [bind]. unfold incrementSeq. rewrite Hq, El.
      rewrite Hch. reflexivity. }
    rewrite Eo, E2. rewrite Hq. split; [reflexivity|]. split; [exact E3|]. rewrite E4. reflexivity.
Qed.
Print Assumptions C17_roundtrip.

Example C17_nonvacuous : exists cs',
  hrun (mkHctx 7 toy_aead [] toy_hash [] [] Sender) (map (fun '(a, p) => HSeal a p) [(None, [x01]); (Some [x02], [x03; x04])]) =
  (cs', map (fun '(a, p, n, ct) => (HSeal a p, n, Some ct, Ok tt))
     [(None, [x01], 7, [x01] ++ toy_tag None 7); (Some [x02], [x03; x04], 8, [x03; x04] ++ toy_tag (Some [x02]) 8)]).
Proof. eexists. vm_compute. reflexivity. Qed.

(** ** C20 *)
Theorem C20_hybrid_agreement : forall a1 b1 a2 b2, agree a1 a2 -> agree b1 b2 ->
  agree (hybrid a1 b1) (hybrid a2 b2) /\
  forall sa sb s1 t1, kx_share a2 = Ok sa -> kx_share b2 = Ok sb ->
    kx_secret a1 sa = Ok s1 -> kx_secret b1 sb = Ok t1 ->
    kx_secret (hybrid a1 b1) (sa ++ sb) = Ok (s1 ++ t1).
Proof.
  assert (X : forall a b sa sb s t, blen sa = kx_size a -> blen sb = kx_size b ->
    kx_secret a sa = Ok s -> kx_secret b sb = Ok t -> kx_secret (hybrid a b) (sa ++ sb) = Ok (s ++ t)).
  { intros a b sa sb s t La Lb Ea Eb. cbn [hybrid kx_secret]. rewrite blen_app, La, Lb, N.eqb_refl. cbn [negb].
    rewrite takeN_app by auto. rewrite Ea. cbn [bind].
    rewrite dropN_app by lia. rewrite Eb. reflexivity. }
  intros a1 b1 a2 b2 (pa & qa & sa & H1 & H2 & H3 & H4 & H5 & H6) (pb & qb & sb & G1 & G2 & G3 & G4 & G5 & G6).
  split.
  - exists (pa ++ pb), (qa ++ qb), (sa ++ sb). cbn [hybrid kx_share kx_size]. rewrite H1, G1, H2, G2. cbn [bind].
    split; [reflexivity|]. split; [reflexivity|].
    split; [apply X; assumption|]. split; [apply X; assumption|].
    rewrite !blen_app. lia.
  - intros sa' sb' s1 t1 E1 E2 E3 E4. apply X; try assumption; congruence.
Qed.
Print Assumptions C20_hybrid_agreement.

(** The share is cut at the first component's size, both parts have exactly the expected sizes, and any
    other total size is rejected before a component sees anything. *)
Theorem C20_share_splitting : forall a b ks s,
  kx_secret (hybrid a b) ks = Ok s <->
  exists x y s1 s2, ks = x ++ y /\ blen x = kx_size a /\ blen y = kx_size b /\
    kx_secret a x = Ok s1 /\ kx_secret b y = Ok s2 /\ s = s1 ++ s2.
Proof.
  intros a b ks s. cbn [hybrid kx_secret]. split.
  - destruct (N.eqb_spec (blen ks) (kx_size a + kx_size b)) as [El|]; [|discriminate]. cbn [negb].
    intros H. apply bind_Ok in H. destruct H as (s1 & E1 & H). apply bind_Ok in H. destruct H as (s2 & E2 & H).
    injection H as <-.
    replace (blen ks - kx_size b) with (kx_size a) in E2 by lia.
    exists (takeN (kx_size a) ks), (dropN (kx_size a) ks), s1, s2.
    rewrite takeN_dropN, blen_takeN, blen_dropN. repeat split; auto; lia.
  - intros (x & y & s1 & s2 & -> & Hx & Hy & E1 & E2 & ->).
    rewrite blen_app, Hx, Hy, N.eqb_refl. cbn [negb]. rewrite takeN_app by auto. rewrite E1. cbn [bind].
    rewrite dropN_app by lia. rewrite E2. reflexivity.
Qed.
Print Assumptions C20_share_splitting.

Theorem C20_wrong_size_rejected : forall a b ks, blen ks <> kx_size a + kx_size b ->
  kx_secret (hybrid a b) ks = Err (EStatus None).
Proof.
  intros a b ks H. cbn [hybrid kx_secret]. destruct (N.eqb_spec (blen ks) (kx_size a + kx_size b)); [contradiction|reflexivity].
Qed.
Print Assumptions C20_wrong_size_rejected.

(** toy KEM-like exchange: shares of different sizes on the two sides *)
Definition toy_kex (own : bytes) (size : N) : kex :=
  mkKex (Ok own) (fun peer => if blen peer =? size then Ok (be 4 (unbe own * unbe peer)) else fail) size.
Example C20_nonvacuous : agree (hybrid (toy_kex [x02; x03] 1) (toy_kex [x05] 3)) (hybrid (toy_kex [x07] 2) (toy_kex [x00; x01; x02] 1)).
Proof.
  apply C20_hybrid_agreement; (eexists _, _, _; repeat split; vm_compute; reflexivity).
Qed.

(** ** C33 *)
(** Both setups, in every mode, with matching inputs and key pairs: the receiver's context has the
    sender's key, base nonce and exporter secret, namely RFC 9180's. *)
Theorem C33_setup_agreement : forall hk h pre suite group kid alg m e r s enc pkR pkS info psk seq dh adh,
  hash_ok hk -> hash_ok h -> getDHKEMId group = Ok kid ->
  ag_key alg <= 65535 -> ag_key alg <= 255 * h_len h -> ag_iv alg <= 65535 -> ag_iv alg <= 255 * h_len h ->
  dh_pair e r enc pkR dh -> dh_pair s r pkS pkR adh ->
  let ss := if uses_auth m then KemSecret hk pre kid (dh ++ adh) (enc ++ pkR ++ pkS)
            else KemSecret hk pre kid dh (enc ++ pkR) in
  let pv := match psk with Some p => fst p | None => [] end in
  let pid := match psk with Some p => snd p | None => [] end in
  let ctx rl := mkHctx seq (ag_set alg (KS_key h pre suite m ss info pv pid (ag_key alg))
                                      (KS_nonce h pre suite m ss info pv pid (ag_iv alg)))
                  (KS_exporter h pre suite m ss info pv pid) h pre suite rl in
  setupWithEncap hk h pre suite group alg m e (Some s) pkR info psk seq = Ok (enc, ctx Sender) /\
  setupWithDecap hk h pre suite group alg m r enc (Some pkS) info psk seq = Ok (ctx Receiver).
Proof.
  intros hk h pre suite group kid alg m e r s enc pkR pkS info psk sq dh adh Hk Hh Hg A1 A2 A3 A4
    [D1 D2 D3 D4] [G1 G2 G3 G4] ss pv pid ctx.
  unfold setupWithEncap, setupWithDecap.
  assert (Ess : (if uses_auth m then authEncap hk pre group e (Some s) pkR else encap hk pre group e pkR) = Ok (ss, enc)).
  { unfold ss. destruct (uses_auth m).
    - unfold authEncap. rewrite D3, G3, D1, G1. cbn [bind]. rewrite (eae_ok hk pre Hk _ kid) by exact Hg. reflexivity.
    - unfold encap. rewrite D3, D1. cbn [bind]. rewrite (eae_ok hk pre Hk _ kid) by exact Hg. reflexivity. }
  assert (Esr : (if uses_auth m then authDecap hk pre group r enc pkS else decap hk pre group r enc) = Ok ss).
  { unfold ss. destruct (uses_auth m).
    - unfold authDecap. rewrite D4, G4, D2. cbn [bind]. apply (eae_ok hk pre Hk); exact Hg.
    - unfold decap. rewrite D4, D2. cbn [bind]. apply (eae_ok hk pre Hk); exact Hg. }
  rewrite Ess, Esr. cbn [bind]. rewrite !ks_ok by assumption.
  unfold ctx, pv, pid. destruct psk as [[? ?]|]; split; reflexivity.
Qed.
Print Assumptions C33_setup_agreement.

(** Consequently whatever the sender seals after setup the receiver opens. *)
Theorem C33_setup_then_messages : forall hk h pre suite group kid alg m e r s enc pkR pkS info psk dh adh cs cr msgs cts cs',
  hash_ok hk -> hash_ok h -> getDHKEMId group = Ok kid ->
  ag_key alg <= 65535 -> ag_key alg <= 255 * h_len h -> ag_iv alg <= 65535 -> ag_iv alg <= 255 * h_len h ->
  (forall k iv, opens (ag_set alg k iv) (ag_set alg k iv)) ->
  dh_pair e r enc pkR dh -> dh_pair s r pkS pkR adh ->
  setupWithEncap hk h pre suite group alg m e (Some s) pkR info psk 0 = Ok (enc, cs) ->
  setupWithDecap hk h pre suite group alg m r enc (Some pkS) info psk 0 = Ok cr ->
  hrun cs (map (fun '(a, p) => HSeal a p) msgs) =
    (cs', map (fun '(a, p, n, ct) => (HSeal a p, n, Some ct, Ok tt)) cts) ->
  (exists cr', hrun cr (map (fun '(a, p, n, ct) => HOpen a ct) cts) =
    (cr', map (fun '(a, p, n, ct) => (HOpen a ct, n, Some p, Ok tt)) cts)) /\
  forall ectx L, hexport cs ectx L = hexport cr ectx L.
Proof.
  intros hk h pre suite group kid alg m e r s enc pkR pkS info psk dh adh cs cr msgs cts cs'
    Hk Hh Hg A1 A2 A3 A4 Ho De Ds Es Er Hr.
  destruct (C33_setup_agreement hk h pre suite group kid alg m e r s enc pkR pkS info psk 0 dh adh Hk Hh Hg A1 A2 A3 A4 De Ds)
    as [Fs Fr].
  rewrite Fs in Es. rewrite Fr in Er. injection Es as <-. injection Er as <-.
  split; [|reflexivity].
  edestruct C17_roundtrip as (cr' & H1 & _); [| | | |exact Hr|].
  5:{ exists cr'. exact H1. }
  - reflexivity.
  - reflexivity.
  - reflexivity.
  - apply Ho.
Qed.
Print Assumptions C33_setup_then_messages.

(** PSK inputs are accepted exactly when both or neither are given and the mode wants what is given. *)
Theorem C33_psk_inputs : forall m psk id, 
  psk_create m (Some psk) (Some id) = Ok (Some psk, Some id) <->
  (psk <> [] <-> id <> []) /\ (psk <> [] <-> uses_psk m = true).
Proof.
  intros m psk id. unfold psk_create.
  destruct psk as [|x psk], id as [|y id], (uses_psk m); cbn [Bool.eqb negb andb]; split; intros H;
    try discriminate; try reflexivity;
    try (repeat split; intros; (discriminate || congruence));
    destruct H as [[H1 H2] [H3 H4]];
    solve [ exfalso; first [apply (H2 ltac:(discriminate)); reflexivity
      | apply (H1 ltac:(discriminate)); reflexivity | apply (H4 eq_refl); reflexivity
      | discriminate (H3 ltac:(discriminate))] ].
Qed.
Print Assumptions C33_psk_inputs.

(** Groups without a KEM id are rejected by both sides. *)
Theorem C33_unknown_group : forall hk h pre suite group alg m e s r pkR enc pkS info psk seq dh adh,
  ~ In group [23; 24; 25; 29] -> kx_secret e pkR = Ok dh -> kx_secret s pkR = Ok adh ->
  kx_secret r enc = Ok dh -> kx_secret r pkS = Ok adh -> is_ok (kx_share e) = true ->
  is_ok (kx_share s) = true -> is_ok (kx_share r) = true ->
  setupWithEncap hk h pre suite group alg m e (Some s) pkR info psk seq = Err (EStatus None) /\
  setupWithDecap hk h pre suite group alg m r enc (Some pkS) info psk seq = Err (EStatus None).
Proof.
  intros hk h pre suite group alg m e s r pkR enc pkS info psk sq dh adh Hg E1 E2 E3 E4 E5 E6 E7.
  assert (G : getDHKEMId group = Err (EStatus None)).
  { unfold getDHKEMId. destruct (N.eqb_spec group 23); [subst; exfalso; apply Hg; cbn; auto|].
    destruct (N.eqb_spec group 24); [subst; exfalso; apply Hg; cbn; auto|].
    destruct (N.eqb_spec group 25); [subst; exfalso; apply Hg; cbn; auto|].
    destruct (N.eqb_spec group 29); [subst; exfalso; apply Hg; cbn; auto|]. reflexivity. }
  unfold setupWithEncap, setupWithDecap, authEncap, encap, authDecap, decap, extractAndExpand, kemSuiteId.
  rewrite E1, E2, E3, E4, G.
  destruct (kx_share e); [|discriminate]. destruct (kx_share s); [|discriminate]. destruct (kx_share r); [|discriminate].
  destruct (uses_auth m); split; reflexivity.
Qed.
Print Assumptions C33_unknown_group.

Definition toy_alg : aeadalg := mkAlg 16 12 (fun _ _ => toy_aead).
Definition toy_dh (x : N) : kex :=
  mkKex (Ok (be 32 (5 * x))) (fun peer => Ok (be 64 (x * unbe peer))) 32.
Example C33_nonvacuous :
  dh_pair (toy_dh 3) (toy_dh 4) (be 32 15) (be 32 20) (be 64 60) /\
  dh_pair (toy_dh 9) (toy_dh 4) (be 32 45) (be 32 20) (be 64 180) /\
  is_ok (setupWithEncap toy_hash toy_hash (str "HPKE-v1") (hpkeSuiteId 32 1 1) 29 toy_alg AuthPsk_ (toy_dh 3) (Some (toy_dh 9))
     (be 32 20) (str "info") (Some ([x01], [x02])) 0) = true.
Proof. repeat split; vm_compute; reflexivity. Qed.
