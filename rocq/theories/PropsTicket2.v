(** * C24 ticket policy, C23 end to end, C26 cached PSK serialization *)
From Verif Require Import Base Codec CodecSpec Hkdf HkdfSpec HkdfProofs Record RecordSpec Token Ticket PskSer Negotiate TicketSpec PropsRecord PropsKeys PropsTicket.

(** ** C24 *)
Lemma chk64_Ok z v : chk64 z = Ok v -> v = z /\ int64 z = true.
Proof. unfold chk64. destruct (int64 z); [|discriminate]. intros H. split; congruence. Qed.
Lemma getValidity_Ok p now r v : getValidity p now r = Ok v ->
  v = Z.quot (rs_hsTime r + po_hs p * 1000000000 - now) 1000000000.
Proof.
  unfold getValidity. intros H.
  apply bind_Ok in H. destruct H as (a & Ea & H). apply chk64_Ok in Ea. destruct Ea as [-> _].
  apply bind_Ok in H. destruct H as (b & Eb & H). apply chk64_Ok in Eb. destruct Eb as [-> _].
  apply bind_Ok in H. destruct H as (c & Ec & H). apply chk64_Ok in Ec. destruct Ec as [-> _].
  unfold cast_s, ns_per_s in H. congruence.
Qed.

(** Every issued ticket has a positive lifetime that exceeds neither setting nor what remains of the
    original handshake's validity. *)
Theorem C24_issue : forall h gcm st t p now salt r b v,
  ticket_encrypt h gcm st t p now salt r = Ok (Some (b, v)) ->
  (0 < v /\ v <= po_ticket p /\ v <= po_hs p /\ now + v * 1000000000 <= rs_hsTime r + po_hs p * 1000000000)%Z.
Proof.
  intros h gcm st t p now salt r b v H. unfold ticket_encrypt in H.
  apply bind_Ok in H. destruct H as (w & Ew & H). unfold remainingValidity in Ew.
  apply bind_Ok in Ew. destruct Ew as (g & Eg & Ew). apply getValidity_Ok in Eg.
  destruct (Z.leb_spec w 0); [discriminate|].
  apply bind_Ok in H. destruct H as (e & Ee & H). apply bind_Ok in H. destruct H as ([k|] & Ek & H); [|discriminate].
  assert (v = w) as -> by congruence. assert (w = Z.min g (Z.min (po_hs p) (po_ticket p))) by congruence.
  subst g. lia.
Qed.
Print Assumptions C24_issue.

(** ... and the lifetime is as long as these three limits allow; a ticket is withheld only when there is no
    whole second left (or no secret is configured). *)
Theorem C24_issue_maximal : forall h gcm st t p now salt r o,
  ticket_encrypt h gcm st t p now salt r = Ok o ->
  let v := Z.min (Z.quot (rs_hsTime r + po_hs p * 1000000000 - now) 1000000000) (Z.min (po_hs p) (po_ticket p)) in
  match o with
  | Some (_, v') => v' = v
  | None => (v <= 0)%Z \/ tk_secrets t = []
  end.
Proof.
  intros h gcm st t p now salt r o H v. unfold ticket_encrypt in H.
  apply bind_Ok in H. destruct H as (w & Ew & H). unfold remainingValidity in Ew.
  apply bind_Ok in Ew. destruct Ew as (g & Eg & Ew). apply getValidity_Ok in Eg.
  assert (Hw : w = v) by (unfold v; rewrite <- Eg; congruence).
  destruct (Z.leb_spec w 0).
  - injection H as <-. left. lia.
  - apply bind_Ok in H. destruct H as (e & Ee & H). apply bind_Ok in H. destruct H as ([k|] & Ek & H).
    + injection H as <-. exact Hw.
    + injection H as <-. right. unfold tok_encrypt in Ek. destruct (tk_secrets t); [reflexivity|].
      apply bind_Ok in Ek. destruct Ek as (a & _ & Ek). apply bind_Ok in Ek. destruct Ek as (c & _ & Ek). discriminate.
Qed.
Print Assumptions C24_issue_maximal.

(** A ticket is accepted only while at least one whole second of the handshake validity is left. *)
Theorem C24_accept : forall h gcm mkPeer mkIdent getCert t p now b r,
  ticket_decrypt h gcm mkPeer mkIdent getCert t p now b = Ok (Some r) ->
  (now + 1000000000 <= rs_hsTime r + po_hs p * 1000000000)%Z /\
  exists x, tok_decrypt h gcm t b None = Ok (Some x) /\ ticket_decode mkPeer mkIdent getCert x = Ok r.
Proof.
  intros h gcm mkPeer mkIdent getCert t p now b r H. unfold ticket_decrypt in H.
  apply bind_Ok in H. destruct H as ([x|] & Ex & H); [|discriminate].
  destruct (ticket_decode mkPeer mkIdent getCert x) as [r'|[| | | |]] eqn:Ed; try discriminate.
  apply bind_Ok in H. destruct H as (acc & Ea & H). unfold shouldAccept in Ea.
  apply bind_Ok in Ea. destruct Ea as (v & Ev & Ea). apply getValidity_Ok in Ev.
  destruct acc; [|discriminate]. assert (r' = r) as -> by congruence.
  assert (Hv : (0 <? v)%Z = true) by congruence. split; [|eauto]. lia.
Qed.
Print Assumptions C24_accept.

(** Resumption state reachable from a full handshake at time [t0] by any number of renewals: each time a
    ticket is issued, comes back (under possibly different secrets and policy), is accepted, and the
    resumed connection keeps the handshake time (ServerProtocol.cpp:1566-1570, 2571). *)
Inductive derived (h : hashalg) (gcm : bytes -> bytes -> aead) mkPeer mkIdent getCert st (t0 : Z) : resstate -> Prop :=
| d_full r : rs_hsTime r = t0 -> derived h gcm mkPeer mkIdent getCert st t0 r
| d_renew r tokA polA nowA salt b life e tokB polB nowB r' r'' :
    derived h gcm mkPeer mkIdent getCert st t0 r ->
    ticket_encrypt h gcm st tokA polA nowA salt r = Ok (Some (b, life)) ->
    ticket_encode st r = Ok e -> tok_decrypt h gcm tokB b None = Ok (Some e) -> (* C22_roundtrip *)
    rs_ok r ->
    ticket_decrypt h gcm mkPeer mkIdent getCert tokB polB nowB b = Ok (Some r') ->
    rs_hsTime r'' = rs_hsTime r' ->
    derived h gcm mkPeer mkIdent getCert st t0 r''.

Lemma decode_inv_client mkPeer mkIdent getCert st r e r' : rs_ok r -> ticket_encode st r = Ok e ->
  ticket_decode mkPeer mkIdent getCert e = Ok r' ->
  exists cc, client_restored mkPeer mkIdent st (rs_clientCert r) = Ok cc.
Proof.
  intros Hok He Hd. unfold client_restored. destruct st, (rs_clientCert r) as [[i [d|]]|] eqn:Ec; eauto.
  destruct (mkPeer d) as [x|er] eqn:Ex; [eexists; reflexivity|]. exfalso.
  apply C23_wire in He. destruct He as [(L3 & L4 & L5 & L8 & L9) ->]. destruct Hok as (V & Ci & _).
  unfold ticket_decode, ticket_wire, ticket_wire_v1, ticket_wire_v0, opaque16 in Hd. rewrite <- !app_assoc in Hd.
  rewrite read_u_app in Hd by exact V. cbn [bind] in Hd. rewrite read_u_app in Hd by exact Ci. cbn [bind] in Hd.
  rewrite (app_assoc (be 2 (blen (bufb (rs_secret r))))) in Hd.
  change (be 2 (blen (bufb (rs_secret r)))) with (be (lw_nat W16) (blen (bufb (rs_secret r)))) in Hd.
  rewrite read_buf_app in Hd by exact L3. cbn [bind] in Hd.
  rewrite (app_assoc (be 2 (blen (ident_of (rs_serverCert r))))) in Hd.
  change (be 2 (blen (ident_of (rs_serverCert r)))) with (be (lw_nat W16) (blen (ident_of (rs_serverCert r)))) in Hd.
  rewrite read_buf_app in Hd by exact L4. cbn [bind] in Hd.
  rewrite Ec in Hd, L5. unfold client_wire, opaque16, readClientCert in Hd. cbn [c_der] in L5.
  rewrite <- !app_assoc in Hd. rewrite read_u_app in Hd by lia. cbn [bind] in Hd.
  change (1 =? 1) with true in Hd. cbv iota in Hd.
  rewrite (app_assoc (be 2 (blen d))) in Hd. change (be 2 (blen d)) with (be (lw_nat W16) (blen d)) in Hd.
  rewrite read_buf_app in Hd by exact L5. cbn [bind] in Hd. rewrite Ex in Hd. discriminate.
Qed.

(** However often the ticket is renewed, resumption is only possible while the original full handshake is
    within the validity period of the policy that judges it. *)
Theorem C24_renewal : forall h gcm mkPeer mkIdent getCert st t0 r, (0 <= t0)%Z ->
  derived h gcm mkPeer mkIdent getCert st t0 r ->
  (t0 - 1000000000 < rs_hsTime r <= t0)%Z /\
  forall tok pol now salt b life e r',
    ticket_encrypt h gcm st tok pol now salt r = Ok (Some (b, life)) -> rs_ok r ->
    ticket_encode st r = Ok e ->
    forall tokB polB nowB, tok_decrypt h gcm tokB b None = Ok (Some e) ->
    ticket_decrypt h gcm mkPeer mkIdent getCert tokB polB nowB b = Ok (Some r') ->
    (nowB < t0 + po_hs polB * 1000000000)%Z.
Proof.
  intros h gcm mkPeer mkIdent getCert st t0 r Ht0 H.
  assert (Hstep : forall r e tokB polB nowB b r', rs_ok r -> ticket_encode st r = Ok e ->
     tok_decrypt h gcm tokB b None = Ok (Some e) ->
     ticket_decrypt h gcm mkPeer mkIdent getCert tokB polB nowB b = Ok (Some r') ->
     rs_hsTime r' = whole_seconds (rs_hsTime r) /\ (nowB + 1000000000 <= rs_hsTime r' + po_hs polB * 1000000000)%Z).
  { intros r0 e tokB polB nowB b r' Hok He Ht Hd. apply C24_accept in Hd. destruct Hd as (Hnow & x & Ex & Ed).
    rewrite Ht in Ex. assert (x = e) as -> by congruence.
    destruct (decode_inv_client _ _ _ _ _ _ _ Hok He Ed) as [cc Hcc].
    rewrite (C23_roundtrip mkPeer mkIdent getCert st r0 e cc Hok He Hcc) in Ed.
    assert (r' = rs_restored getCert r0 cc) as -> by congruence. cbn [rs_restored rs_hsTime] in *. auto. }
  assert (Hinv : (t0 - 1000000000 < rs_hsTime r <= t0)%Z /\ (rs_hsTime r = t0 \/ rs_hsTime r = whole_seconds t0)).
  { induction H as [r Hr|r tokA polA nowA salt b life e tokB polB nowB r' r'' Hd IH He Hen Ht Hok Hdec Hr].
    - split; [lia|auto].
    - destruct (Hstep _ _ _ _ _ _ _ Hok Hen Ht Hdec) as [E _].
      rewrite Hr, E. destruct IH as [IH1 [IH2|IH2]]; rewrite IH2 in *; unfold whole_seconds in *.
      + split; [lia|]. right; reflexivity.
      + assert (Z.quot (Z.quot t0 1000000000 * 1000000000) 1000000000 = Z.quot t0 1000000000) as ->
          by (apply Z.quot_mul; lia). split; [exact IH1|right; reflexivity]. }
  split; [apply Hinv|]. intros tok pol now salt b life e r' He Hok Hen tokB polB nowB Ht Hd.
  destruct (Hstep _ _ _ _ _ _ _ Hok Hen Ht Hd) as [E Hn]. rewrite E in Hn.
  destruct Hinv as [Hb [Hq|Hq]]; rewrite Hq in *; unfold whole_seconds in *.
  - lia.
  - assert (Eq : Z.quot (Z.quot t0 1000000000 * 1000000000) 1000000000 = Z.quot t0 1000000000)
      by (apply Z.quot_mul; lia). rewrite Eq in Hn. lia.
Qed.
Print Assumptions C24_renewal.

(** ** C23/C22 end to end: a ticket issued under secret [s] and presented to a cipher whose secrets were
    rotated but still include [s] resumes with the restored state if the handshake is recent enough, and is
    rejected otherwise. *)
Theorem C23_end_to_end : forall h gcm mkPeer mkIdent getCert st ctx u1 u2 t1 t2 s rest1 pre post salt p1 p2 now1 now2 r b v cc,
  hash_ok h -> ctx <> [] -> (forall k iv, opens (gcm k iv) (gcm k iv)) ->
  tok_run h (mkToken [] ctx) u1 = Ok t1 -> in_force [] u1 = s :: rest1 ->
  tok_run h (mkToken [] ctx) u2 = Ok t2 -> in_force [] u2 = pre ++ s :: post ->
  blen salt = 32 -> rs_ok r ->
  ticket_encrypt h gcm st t1 p1 now1 salt r = Ok (Some (b, v)) ->
  (forall s', In s' pre -> ae_try (token_aead h gcm ctx s' salt) (dropN 36 b) None 0 = Ok None) ->
  client_restored mkPeer mkIdent st (rs_clientCert r) = Ok cc ->
  forall o, ticket_decrypt h gcm mkPeer mkIdent getCert t2 p2 now2 b = Ok o ->
  o = if (now2 + 1000000000 <=? whole_seconds (rs_hsTime r) + po_hs p2 * 1000000000)%Z
      then Some (rs_restored getCert r cc) else None.
Proof.
  intros h gcm mkPeer mkIdent getCert st ctx u1 u2 t1 t2 s rest1 pre post salt p1 p2 now1 now2 r b v cc
    Hh Hne Hop H1 F1 H2 F2 Hs Hok He Hpre Hcc o Hd.
  unfold ticket_encrypt in He. apply bind_Ok in He. destruct He as (w & Ew & He).
  destruct (w <=? 0)%Z; [discriminate|]. apply bind_Ok in He. destruct He as (e & Ee & He).
  apply bind_Ok in He. destruct He as ([k|] & Ek & He); [|discriminate]. assert (k = b) as -> by congruence.
  pose proof (C22_roundtrip h gcm ctx u1 u2 t1 t2 s rest1 pre post salt e None b Hh Hne Hop H1 F1 H2 F2 Hs Ek Hpre) as Hrt.
  unfold ticket_decrypt in Hd. rewrite Hrt in Hd. cbn [bind] in Hd.
  rewrite (C23_roundtrip mkPeer mkIdent getCert st r e cc Hok Ee Hcc) in Hd.
  apply bind_Ok in Hd. destruct Hd as (acc & Ea & Hd). unfold shouldAccept in Ea.
  apply bind_Ok in Ea. destruct Ea as (g & Eg & Ea). apply getValidity_Ok in Eg. cbn [rs_restored rs_hsTime] in Eg.
  assert (Hacc : acc = (0 <? g)%Z) by congruence.
  assert (Heq : acc = (now2 + 1000000000 <=? whole_seconds (rs_hsTime r) + po_hs p2 * 1000000000)%Z).
  { rewrite Hacc, Eg. generalize (whole_seconds (rs_hsTime r) + po_hs p2 * 1000000000)%Z as a. intros a.
    destruct (Z.leb_spec (now2 + 1000000000) a) as [Hl|Hl];
      [apply Z.ltb_lt|apply Z.ltb_ge]; lia. }
  rewrite <- Heq. destruct acc; congruence.
Qed.
Print Assumptions C23_end_to_end.

(** The lifetime announced with the ticket is not enforced by the server: one issued with a lifetime of one
    hour is accepted two hours later (the handshake is still valid). *)
Definition ex_rs : resstate := mkRS 772 4865 (Some [x01; x02]) None None (Some [x68; x32]) 7 1000000000000 (Some []) 1000000000000.
Definition ex_tok : token := mkToken [token_secret toy_hash [ticketLabel] (exs 5)] [ticketLabel].
Theorem C24_ticket_lifetime_not_enforced_refuted : exists b v r',
  ticket_encrypt toy_hash toy_gcm SNone ex_tok (mkPol 3600 259200) 1000000000000 (be 32 9) ex_rs = Ok (Some (b, v)) /\
  v = 3600%Z /\
  ticket_decrypt toy_hash toy_gcm (fun _ => fail) (fun i => mkCertObj i None) (fun _ => None) ex_tok (mkPol 3600 259200)
    (1000000000000 + 7200 * 1000000000) b = Ok (Some r').
Proof.
  destruct (ticket_encrypt toy_hash toy_gcm SNone ex_tok (mkPol 3600 259200) 1000000000000 (be 32 9) ex_rs)
    as [[[b v]|]|] eqn:E; try (vm_compute in E; discriminate).
  assert (Hv : v = 3600%Z /\ exists r', ticket_decrypt toy_hash toy_gcm (fun _ => fail) (fun i => mkCertObj i None) (fun _ => None)
            ex_tok (mkPol 3600 259200) (1000000000000 + 7200 * 1000000000) b = Ok (Some r')).
  { vm_compute in E. injection E as <- <-. split; [reflexivity|]. eexists. vm_compute. reflexivity. }
  destruct Hv as (Hv & r' & Hr). eauto 10.
Qed.
Print Assumptions C24_ticket_lifetime_not_enforced_refuted.

(** ** C26 *)
Theorem C26_clamp : forall unit v, (0 < unit)%Z -> (0 <= clampTimePoint unit v < 2 ^ 63)%Z.
Proof.
  intros unit v Hu. unfold clampTimePoint. set (M := Z.quot (2 ^ 63 - 1) unit).
  assert (HM : (0 <= M)%Z) by (apply Z.quot_pos; lia).
  assert (HMu : (M * unit <= 2 ^ 63 - 1)%Z) by (unfold M; rewrite Z.mul_comm; apply Z.mul_quot_le; lia).
  clearbody M.
  assert (Hz : (0 <= Z.of_N (N.min v (Z.to_N M)) <= M)%Z) by lia.
  split; [apply Z.mul_nonneg_nonneg; lia|].
  assert (Z.of_N (N.min v (Z.to_N M)) * unit <= M * unit)%Z by (apply Z.mul_le_mono_nonneg_r; lia). lia.
Qed.
Print Assumptions C26_clamp.

(** Whatever the bytes, a successfully read PSK has times that fit the clock (no overflow), and the only other
    outcome is a clean error. *)
Theorem C26_total : forall deser nowT inp,
  match deserializePsk deser nowT inp with
  | Ok p => (0 <= pk_issue p < 2 ^ 63 /\ 0 <= pk_expire p < 2 ^ 63 /\ (0 <= pk_hsTime p < 2 ^ 63 \/ pk_hsTime p = nowT))%Z
  | Err e => e = EThrow
  end.
Proof.
  intros deser nowT inp. unfold deserializePsk.
  assert (Hu : forall k i e, read_u k i = Err e -> e = EThrow).
  { intros k i e. unfold read_u, read_be. destruct (take _ i) as [[? ?]|]; cbn [bind]; congruence. }
  assert (Hb : forall w i e, read_buf w i = Err e -> e = EThrow).
  { intros w i e. unfold read_buf, read_be. destruct (take _ i) as [[a ?]|]; cbn [bind]; [|congruence].
    destruct (take _ _) as [[? ?]|]; congruence. }
  assert (Hc : forall i e, tryReadCert deser i = Err e -> e = EThrow).
  { intros i e H. unfold tryReadCert in H. apply bind_Err in H. destruct H as [H|([[? ?] ?] & _ & H)]; [eapply Hb, H|discriminate]. }
  destruct (read_buf W16 inp) as [[[? ?] r1]|] eqn:E1; cbn [bind]; [|eapply Hb, E1].
  destruct (read_buf W16 r1) as [[[? ?] r2]|] eqn:E2; cbn [bind]; [|eapply Hb, E2].
  destruct (read_u 2 r2) as [[[? ?] r3]|] eqn:E3; cbn [bind]; [|eapply Hu, E3].
  destruct (read_u 2 r3) as [[[? ?] r4]|] eqn:E4; cbn [bind]; [|eapply Hu, E4].
  destruct (read_u 1 r4) as [[[hg ?] r5]|] eqn:E5; cbn [bind]; [|eapply Hu, E5].
  match goal with |- context [bind ?m _] => destruct m as [[? r6]|] eqn:E6 end; cbn [bind].
  2:{ destruct (hg =? 1); [|discriminate]. apply bind_Err in E6. destruct E6 as [E6|([[? ?] ?] & _ & E6)]; [eapply Hu, E6|discriminate]. }
  destruct (read_buf W8 r6) as [[[? ?] r7]|] eqn:E7; cbn [bind]; [|eapply Hb, E7].
  destruct (read_u 4 r7) as [[[? ?] r8]|] eqn:E8; cbn [bind]; [|eapply Hu, E8].
  destruct (read_u 8 r8) as [[[? ?] r9]|] eqn:E9; cbn [bind]; [|eapply Hu, E9].
  destruct (read_u 8 r9) as [[[? ?] r10]|] eqn:E10; cbn [bind]; [|eapply Hu, E10].
  destruct (tryReadCert deser r10) as [[? r11]|] eqn:E11; cbn [bind]; [|eapply Hc, E11].
  destruct (tryReadCert deser r11) as [[? r12]|] eqn:E12; cbn [bind]; [|eapply Hc, E12].
  destruct (read_u 4 r12) as [[[? ?] r13]|] eqn:E13; cbn [bind]; [|eapply Hu, E13].
  destruct r13 as [|x l] eqn:Er13; cbn [bind pk_issue pk_expire pk_hsTime].
  - split; [apply C26_clamp; reflexivity|]. split; [apply C26_clamp; reflexivity|]. right. reflexivity.
  - destruct (read_u 8 (x :: l)) as [[[? ?] ?]|] eqn:E14; cbn [bind pk_issue pk_expire pk_hsTime]; [|eapply Hu, E14].
    split; [apply C26_clamp; reflexivity|]. split; [apply C26_clamp; reflexivity|]. left. apply C26_clamp. reflexivity.
Qed.
Print Assumptions C26_total.

Lemma clamp_rt unit t : (1 < unit)%Z -> (0 <= t < 2 ^ 63)%Z ->
  clampTimePoint unit (to_u64 (Z.quot t unit)) = (Z.quot t unit * unit)%Z /\ to_u64 (Z.quot t unit) < 2 ^ 64.
Proof.
  intros Hu Ht. assert (Hq : (0 <= Z.quot t unit <= Z.quot (2 ^ 63 - 1) unit)%Z).
  { split; [apply Z.quot_pos; lia|apply Z.quot_le_mono; lia]. }
  assert (Hq2 : (Z.quot (2 ^ 63 - 1) unit <= 2 ^ 63 - 1)%Z).
  { apply Z.quot_le_upper_bound; [lia|]. nia. }
  unfold clampTimePoint, to_u64. set (q := Z.quot t unit) in *. set (M := Z.quot (2 ^ 63 - 1) unit) in *. clearbody q M.
  rewrite Z.mod_small by lia. split; [|lia]. f_equal. lia.
Qed.

Lemma read_cert_rt ser deser c x rest : tryWriteCert ser c = Ok x ->
  tryReadCert deser (x ++ rest) = Ok (cert_restored ser deser c, rest).
Proof.
  unfold tryWriteCert, tryReadCert. intros H. apply write_buf_inv in H. destruct H as [-> Hl].
  rewrite read_buf_app by exact Hl. cbn [bind].
  unfold cert_restored. destruct c as [c|]; [|reflexivity]. destruct (ser c) as [[|y l]|]; reflexivity.
Qed.

(** Reading back a written PSK: everything is restored, issue and handshake times in whole milliseconds,
    expiry in whole seconds. *)
Theorem C26_roundtrip : forall ser deser nowT p bs, psk_ok p -> serializePsk ser p = Ok bs ->
  deserializePsk deser nowT bs = Ok (psk_restored ser deser p).
Proof.
  intros ser deser nowT p bs (V & Ci & G & Ag & Me & T1 & T2 & T3) H.
  unfold serializePsk, write_u in H. cbn [bind] in H.
  apply bind_Ok in H. destruct H as (a1 & E1 & H). apply write_buf_inv in E1. destruct E1 as [-> L1].
  apply bind_Ok in H. destruct H as (a2 & E2 & H). apply write_buf_inv in E2. destruct E2 as [-> L2].
  apply bind_Ok in H. destruct H as (a5 & E5 & H).
  apply bind_Ok in H. destruct H as (a6 & E6 & H). apply write_buf_inv in E6. destruct E6 as [-> L6].
  apply bind_Ok in H. destruct H as (a10 & E10 & H). apply bind_Ok in H. destruct H as (a11 & E11 & H).
  match type of H with Ok ?a = Ok ?b => assert (Hab : b = a) by congruence end. rewrite Hab. clear H Hab bs.
  unfold deserializePsk. cbn [bufb] in *.
  rewrite read_buf_app by exact L1. cbn [bind]. rewrite read_buf_app by exact L2. cbn [bind].
  rewrite read_u_app by exact V. cbn [bind]. rewrite read_u_app by exact Ci. cbn [bind].
  assert (Hg : forall rest, ('(hasg, _, r5) <- read_u 1 (a5 ++ rest) ;;
            (if hasg =? 1 then '(g, _, r) <- read_u 2 r5 ;; Ok (Some g, r) else Ok (None, r5))) = Ok (pk_group p, rest)).
  { intros rest. destruct (pk_group p) as [g|] eqn:Eg.
    - assert (a5 = be 1 1 ++ be 2 g) as -> by congruence. rewrite <- app_assoc, read_u_app by lia. cbn [bind].
      change (1 =? 1) with true. cbv iota. rewrite read_u_app by (apply G; reflexivity). reflexivity.
    - assert (a5 = be 1 0) as -> by congruence. rewrite read_u_app by lia. reflexivity. }
  set (tail := (be (lw_nat W8) _ ++ _) ++ _). specialize (Hg tail).
  destruct (read_u 1 (a5 ++ tail)) as [[[hg ?] r5]|] eqn:Eh; [|discriminate]. cbn [bind] in Hg |- *.
  rewrite Hg. cbn [bind]. unfold tail. rewrite read_buf_app by exact L6. cbn [bind].
  rewrite read_u_app by exact Ag. cbn [bind].
  destruct (clamp_rt ns_per_ms _ ltac:(reflexivity) T1) as [C1 B1].
  destruct (clamp_rt ns_per_s _ ltac:(reflexivity) T2) as [C2 B2].
  destruct (clamp_rt ns_per_ms _ ltac:(reflexivity) T3) as [C3 B3].
  rewrite read_u_app by exact B1. cbn [bind]. rewrite read_u_app by exact B2. cbn [bind].
  rewrite (read_cert_rt ser deser _ _ _ E10). cbn [bind]. rewrite (read_cert_rt ser deser _ _ _ E11). cbn [bind].
  rewrite read_u_app by exact Me. cbn [bind].
  set (ts := be 8 _). assert (Hne : exists a b, ts = a :: b).
  { destruct ts as [|a' b'] eqn:E; [|eauto]. pose proof (be_blen 8 (to_u64 (Z.quot (pk_hsTime p) ns_per_ms))) as Hb.
    fold ts in Hb. rewrite E in Hb. discriminate. }
  destruct Hne as (a' & b' & Et). rewrite Et, <- Et. unfold ts. rewrite <- (app_nil_r (be 8 _)).
  rewrite read_u_app by exact B3. cbn [bind]. rewrite C1, C2, C3. unfold psk_restored.
  assert (Ea : match bufb (pk_alpn p) with x :: l => Some (x :: l) | [] => None end = nonempty (pk_alpn p)).
  { destruct (pk_alpn p) as [[|x l]|]; reflexivity. }
  rewrite Ea. reflexivity.
Qed.
Print Assumptions C26_roundtrip.

(** Times before 1970 do not survive: the unsigned round trip turns them into the clamp value. *)
Theorem C26_pre_epoch_refuted : exists p bs p', (pk_issue p = -1000000)%Z /\
  serializePsk (fun _ => None) p = Ok bs /\ deserializePsk (fun _ => None) 0 bs = Ok p' /\
  (pk_issue p' = 9223372036854000000)%Z.
Proof.
  eexists (mkPsk [x01] [x02] 772 4865 None None 0 (-1000000)%Z 5000000000%Z None None 0 0%Z), _, _.
  split; [reflexivity|]. split; [vm_compute; reflexivity|]. split; [vm_compute; reflexivity|]. reflexivity.
Qed.
Print Assumptions C26_pre_epoch_refuted.
Example C26_nonvacuous :
  let p := mkPsk [x01] [x02; x03] 772 4865 (Some 29) (Some [x68]) 99 1700000000123456789 1700003600000000001
            (Some (mkCertObj [x61] None)) None 1024 1700000000123000000 in
  psk_ok p /\ (bs <- serializePsk (fun c => Some (c_ident c)) p ;;
   deserializePsk (fun b => Some (mkCertObj b None)) 0 bs) =
   Ok (mkPsk [x01] [x02; x03] 772 4865 (Some 29) (Some [x68]) 99 1700000000123000000 1700003600000000000
            (Some (mkCertObj [x61] None)) None 1024 1700000000123000000).
Proof.
  cbv zeta. split; [|vm_compute; reflexivity].
  unfold psk_ok. cbn. repeat split; try lia. intros g H. assert (g = 29) as -> by congruence. lia.
Qed.
Example C23_nonvacuous :
  let r := mkRS 772 4865 (Some [x01; x02]) (Some (mkCertObj [x73] None)) (Some (mkCertObj [x63] (Some [x30; x31])))
      (Some [x68; x32]) 7 1700000000123456789 (Some [x41]) 1690000000000000000 in
  rs_ok r /\
  (bs <- ticket_encode SX509 r ;;
   ticket_decode (fun d => Ok (mkCertObj [x63] (Some d))) (fun i => mkCertObj i None) (fun i => Some (mkCertObj i None)) bs) =
  Ok (mkRS 772 4865 (Some [x01; x02]) (Some (mkCertObj [x73] None)) (Some (mkCertObj [x63] (Some [x30; x31])))
      (Some [x68; x32]) 7 1700000000000000000 (Some [x41]) 1690000000000000000).
Proof. cbv zeta. split; [repeat split; vm_compute; reflexivity|vm_compute; reflexivity]. Qed.
