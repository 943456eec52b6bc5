(** * C22-C24, C26, C29 *)
From Verif Require Import Base Codec CodecSpec Hkdf HkdfSpec HkdfProofs Record RecordSpec Token Ticket PskSer Negotiate TicketSpec PropsRecord PropsKeys.

(** ** C22 tokens *)
Lemma ctx_extract_ok h ctx : hash_ok h -> forall s, ctx_extract h ctx s = Ok (token_secret h ctx s).
Proof.
  intros Hh. induction ctx as [|c r IH]; intros s; cbn [ctx_extract]; [reflexivity|].
  rewrite hkdf_extract_ok by assumption. cbn [bind]. apply IH.
Qed.
Lemma map_extract_ok h ctx l : hash_ok h -> map_extract h ctx l = Ok (map (token_secret h ctx) l).
Proof.
  intros Hh. induction l as [|s r IH]; cbn [map_extract map]; [reflexivity|].
  rewrite ctx_extract_ok by assumption. cbn [bind]. rewrite IH. reflexivity.
Qed.
Lemma existsb_short l : existsb (fun s : bytes => blen s <? kMinTokenSecretLength) l = negb (forallb (fun s => 32 <=? blen s) l).
Proof.
  unfold kMinTokenSecretLength. induction l as [|s r IH]; [reflexivity|]. cbn [existsb forallb]. rewrite IH, negb_andb, N.ltb_antisym. reflexivity.
Qed.
Lemma token_secret_len h ctx : hash_ok h -> ctx <> [] -> forall s, blen (token_secret h ctx s) = h_len h.
Proof.
  intros Hh. unfold token_secret. induction ctx as [|c r IH]; intros Hne s; [contradiction|]. cbn [fold_left].
  destruct r as [|c' r]; [cbn [fold_left]; apply Extract_len, Hh|]. apply IH. discriminate.
Qed.

(** A rejected update changes nothing; an accepted one replaces all secrets. *)
Theorem C22_update : forall h t u, hash_ok h ->
  setSecrets h t u =
  if forallb (fun s => 32 <=? blen s) u then Ok (mkToken (map (token_secret h (tk_ctx t)) u) (tk_ctx t), true)
  else Ok (t, false).
Proof.
  intros h t u Hh. unfold setSecrets. rewrite existsb_short. destruct (forallb _ u); cbn [negb]; [|reflexivity].
  rewrite map_extract_ok by assumption. reflexivity.
Qed.
Print Assumptions C22_update.

Theorem C22_in_force : forall h ctx updates, hash_ok h ->
  tok_run h (mkToken [] ctx) updates = Ok (mkToken (map (token_secret h ctx) (in_force [] updates)) ctx).
Proof.
  intros h ctx updates Hh. change (@nil bytes) with (map (token_secret h ctx) []) at 1.
  generalize (@nil bytes) as cur. induction updates as [|u r IH]; intros cur; cbn [tok_run in_force]; [reflexivity|].
  rewrite C22_update by assumption. cbn [tk_ctx]. destruct (forallb _ u); cbn [bind]; apply IH.
Qed.
Print Assumptions C22_in_force.

Lemma createAead_ok h gcm ctx s salt : hash_ok h -> ctx <> [] ->
  createAead h gcm (token_secret h ctx s) salt = Ok (token_aead h gcm ctx s salt).
Proof.
  intros Hh Hne. unfold createAead. pose proof (ho_pos h Hh).
  rewrite hkdf_expand_ok by (auto using token_secret_len; lia). cbn [bind concat]. rewrite app_nil_r.
  set (k := Expand h (token_secret h ctx s) salt (16 + 12)).
  assert (Hk : blen k = 28).
  { pose proof (C13_expand_length h (token_secret h ctx s) [salt] 28 k Hh) as H0. apply H0.
    rewrite hkdf_expand_ok by (auto using token_secret_len; lia). cbn [concat]. rewrite app_nil_r. reflexivity. }
  rewrite take_takeN by lia. rewrite take_takeN by (rewrite blen_dropN; lia).
  unfold token_aead. change 28 with (16 + 12) at 1 2. fold k. f_equal. f_equal.
  apply takeN_all. rewrite blen_dropN. lia.
Qed.

(** What a token looks like. *)
Theorem C22_token_format : forall h gcm ctx updates t s rest salt pt ad, hash_ok h -> ctx <> [] ->
  tok_run h (mkToken [] ctx) updates = Ok t -> in_force [] updates = s :: rest ->
  tok_encrypt h gcm t salt pt ad =
    (c <- ae_enc (token_aead h gcm ctx s salt) pt ad 0 ;; Ok (Some (salt ++ [x00; x00; x00; x00] ++ c))).
Proof.
  intros h gcm ctx updates t s rest salt pt ad Hh Hne Ht Hf.
  rewrite C22_in_force in Ht by assumption. rewrite Hf in Ht. injection Ht as <-.
  unfold tok_encrypt. cbn [map tk_secrets]. rewrite createAead_ok by assumption. reflexivity.
Qed.
Print Assumptions C22_token_format.

Lemma try_ok h gcm ctx salt c ad n : hash_ok h -> ctx <> [] -> forall pre s post,
  (forall s', In s' pre -> ae_try (token_aead h gcm ctx s' salt) c ad n = Ok None) ->
  forall ch, ae_try (token_aead h gcm ctx s salt) c ad n = Ok (Some ch) ->
  try_secrets h gcm (map (token_secret h ctx) (pre ++ s :: post)) salt c ad n = Ok (Some (concat ch)).
Proof.
  intros Hh Hne. induction pre as [|x pre IH]; intros s post Hpre ch Hs; cbn [map app try_secrets].
  - rewrite createAead_ok by assumption. cbn [bind]. rewrite Hs. reflexivity.
  - rewrite createAead_ok by assumption. cbn [bind]. rewrite Hpre by (left; reflexivity). cbn [bind].
    apply IH; [|exact Hs]. intros; apply Hpre; right; assumption.
Qed.

(** A token made while [s] was the first secret decrypts to its plaintext for any later configuration that
    still has [s] somewhere, provided no secret listed before it happens to authenticate the token. *)
Theorem C22_roundtrip : forall h gcm ctx updates1 updates2 t1 t2 s rest1 pre post salt pt ad tok,
  hash_ok h -> ctx <> [] -> (forall k iv, opens (gcm k iv) (gcm k iv)) ->
  tok_run h (mkToken [] ctx) updates1 = Ok t1 -> in_force [] updates1 = s :: rest1 ->
  tok_run h (mkToken [] ctx) updates2 = Ok t2 -> in_force [] updates2 = pre ++ s :: post ->
  blen salt = 32 -> tok_encrypt h gcm t1 salt pt ad = Ok (Some tok) ->
  (forall s', In s' pre -> ae_try (token_aead h gcm ctx s' salt) (dropN 36 tok) ad 0 = Ok None) ->
  tok_decrypt h gcm t2 tok ad = Ok (Some pt).
Proof.
  intros h gcm ctx u1 u2 t1 t2 s rest1 pre post salt pt ad tok Hh Hne Hop Ht1 Hf1 Ht2 Hf2 Hs He Hpre.
  rewrite (C22_token_format h gcm ctx u1 t1 s rest1 salt pt ad Hh Hne Ht1 Hf1) in He.
  apply bind_Ok in He. destruct He as (c & Ec & He).
  assert (tok = salt ++ [x00; x00; x00; x00] ++ c) as -> by congruence. clear He.
  destruct (Hop _ _ _ _ _ _ Ec) as (_ & ch & _ & Ep & Etry).
  rewrite C22_in_force in Ht2 by assumption. rewrite Hf2 in Ht2. injection Ht2 as <-.
  assert (Hd : dropN 36 (salt ++ [x00; x00; x00; x00] ++ c) = c).
  { rewrite app_assoc. apply dropN_app. rewrite blen_app, Hs. reflexivity. }
  unfold tok_decrypt. cbn [tk_secrets].
  assert (Hnn : exists a b, map (token_secret h ctx) (pre ++ s :: post) = a :: b) by (destruct pre; cbn; eauto).
  destruct Hnn as (a & b & Eab). rewrite Eab, <- Eab.
  rewrite (take_app_n kSaltLength salt) by exact Hs.
  rewrite (take_app_n 4 [x00; x00; x00; x00] c) by reflexivity.
  change (unbe [x00; x00; x00; x00]) with 0.
  rewrite Hd in Hpre. rewrite (try_ok h gcm ctx salt c ad 0 Hh Hne pre s post Hpre ch Etry), Ep. reflexivity.
Qed.
Print Assumptions C22_roundtrip.

(** Whatever decrypts was sealed under one of the secrets in force (with this cipher's context strings):
    any other byte string is rejected. *)
Theorem C22_foreign_rejected : forall h gcm ctx updates t tok ad p,
  hash_ok h -> ctx <> [] -> (forall k iv, authentic (gcm k iv)) ->
  tok_run h (mkToken [] ctx) updates = Ok t -> tok_decrypt h gcm t tok ad = Ok (Some p) ->
  exists s salt seq c, In s (in_force [] updates) /\ blen salt = 32 /\ tok = salt ++ be 4 seq ++ c /\
    ae_enc (token_aead h gcm ctx s salt) p ad seq = Ok c.
Proof.
  intros h gcm ctx u t tok ad p Hh Hne Hau Ht Hd. rewrite C22_in_force in Ht by assumption. injection Ht as <-.
  unfold tok_decrypt in Hd. cbn [tk_secrets] in Hd.
  destruct (map (token_secret h ctx) (in_force [] u)) as [|a b] eqn:Em; [discriminate|]. rewrite <- Em in Hd.
  destruct (take kSaltLength tok) as [[salt r]|] eqn:E1; [|discriminate].
  destruct (take 4 r) as [[sq c]|] eqn:E2; [|discriminate].
  apply take_Some in E1. destruct E1 as [-> L1]. apply take_Some in E2. destruct E2 as [-> L2].
  clear Em a b. induction (in_force [] u) as [|s l IH]; cbn [map try_secrets] in Hd; [discriminate|].
  rewrite createAead_ok in Hd by assumption. cbn [bind] in Hd. apply bind_Ok in Hd.
  destruct Hd as ([ch|] & Et & Hd).
  - injection Hd as <-. exists s, salt, (unbe sq), c. split; [left; reflexivity|]. split; [exact L1|]. split.
    + rewrite be_unbe by (unfold blen in L2; lia). reflexivity.
    + unfold token_aead in *. apply Hau in Et. exact Et.
  - destruct (IH Hd) as (s' & sa & q & c' & Hin & H). exists s', sa, q, c'. split; [right; exact Hin|exact H].
Qed.
Print Assumptions C22_foreign_rejected.

Theorem C22_no_secrets : forall h gcm ctx salt pt tok ad,
  tok_encrypt h gcm (mkToken [] ctx) salt pt ad = Ok None /\ tok_decrypt h gcm (mkToken [] ctx) tok ad = Ok None.
Proof. intros. split; reflexivity. Qed.
Print Assumptions C22_no_secrets.

Theorem C22_short_token : forall h gcm t tok ad, blen tok < 36 -> tok_decrypt h gcm t tok ad = Ok None.
Proof.
  intros h gcm t tok ad H. unfold tok_decrypt. destruct (tk_secrets t) as [|a b]; [reflexivity|].
  destruct (take kSaltLength tok) as [[salt r]|] eqn:E; [|reflexivity]. apply take_Some in E. destruct E as [-> E].
  rewrite blen_app in H. destruct (take 4 r) as [[sq c]|] eqn:E2; [|reflexivity]. apply take_Some in E2. destruct E2 as [-> E2].
  rewrite blen_app in H. unfold kSaltLength in E. lia.
Qed.
Print Assumptions C22_short_token.

(** Without context strings the raw secret is used as HKDF pseudo-random key, whose length is CHECKed: a
    perfectly acceptable secret longer than the hash aborts the process at the first encryption. *)
Theorem C22_no_context_refuted : forall h gcm s salt pt ad, hash_ok h -> h_len h = 32 -> 32 < blen s ->
  exists t, setSecrets h (mkToken [] []) [s] = Ok (t, true) /\ tok_encrypt h gcm t salt pt ad = Err ECheck.
Proof.
  intros h gcm s salt pt ad Hh Hl Hs. exists (mkToken [s] []). rewrite C22_update by assumption. cbn [forallb tk_ctx map].
  destruct (N.leb_spec 32 (blen s)); [|lia]. split; [reflexivity|].
  unfold tok_encrypt, createAead, hkdf_expand. cbn [tk_secrets]. rewrite Hl.
  destruct (N.eqb_spec (blen s) 32); [lia|]. reflexivity.
Qed.
Print Assumptions C22_no_context_refuted.

Definition toy_gcm (k iv : bytes) : aead := mkAead 16
  (fun p ad n => Ok (p ++ be 16 (unbe k + unbe iv + n)))
  (fun c ad n => match take (blen c - 16) c with
                 | Some (p, t) => Ok (if bytes_eqb t (be 16 (unbe k + unbe iv + n)) then Some [p] else None)
                 | None => Ok None
                 end).
Lemma toy_gcm_opens k iv : opens (toy_gcm k iv) (toy_gcm k iv).
Proof.
  intros p ad n c H. cbn [toy_gcm ae_enc ae_overhead] in *.
  set (t := be 16 (unbe k + unbe iv + n)) in *. assert (Hl : blen t = 16) by (unfold t; rewrite be_blen; reflexivity).
  assert (c = p ++ t) as -> by congruence.
  split; [rewrite blen_app, Hl; reflexivity|]. exists [p]. split; [discriminate|]. split; [cbn [concat]; apply app_nil_r|].
  cbn [toy_gcm ae_try]. fold t. rewrite blen_app, Hl. replace (blen p + 16 - 16) with (blen p) by lia.
  rewrite take_app, bytes_eqb_refl. reflexivity.
Qed.
Lemma toy_gcm_authentic k iv : authentic (toy_gcm k iv).
Proof.
  intros c ad n ch. cbn [toy_gcm ae_try ae_enc]. destruct (take _ c) as [[p t]|] eqn:E; [|discriminate].
  destruct (bytes_eqb t _) eqn:Eb; [|discriminate]. intros H. assert (ch = [p]) as -> by congruence.
  apply bytes_eqb_eq in Eb. apply take_Some in E. destruct E as [-> _]. cbn [concat]. rewrite app_nil_r, <- Eb. reflexivity.
Qed.
Definition exs (n : N) : bytes := be 33 n.
Example C22_nonvacuous :
  let t1 := tok_run toy_hash (mkToken [] [[x61]; [x62]]) [[exs 1; exs 2]; [[x01]]] in
  let t2 := tok_run toy_hash (mkToken [] [[x61]; [x62]]) [[exs 9]; [exs 3; exs 1]] in
  (t <- t1 ;; u <- t2 ;; e <- tok_encrypt toy_hash toy_gcm t (be 32 77) [x05; x06] None ;;
   match e with Some k => tok_decrypt toy_hash toy_gcm u k None | None => fail end) = Ok (Some [x05; x06]).
Proof. vm_compute. reflexivity. Qed.

(** ** C29 negotiation *)
Lemma mem_In x l : mem x l = true <-> In x l.
Proof.
  unfold mem. rewrite existsb_exists. split.
  - intros (y & Hy & E). apply N.eqb_eq in E. subst. exact Hy.
  - intros H. exists x. rewrite N.eqb_refl. auto.
Qed.
Lemma mem_nIn x l : mem x l = false <-> ~ In x l.
Proof. rewrite <- mem_In. destruct (mem x l); split; intros H; try discriminate; try reflexivity. contradiction H; reflexivity. Qed.
Lemma first_in_spec tier client :
  match first_in tier client with
  | Some v => exists l1 l2, client = l1 ++ v :: l2 /\ In v tier /\ forall x, In x l1 -> ~ In x tier
  | None => forall x, In x client -> ~ In x tier
  end.
Proof.
  induction client as [|p r IH]; cbn [first_in]; [intros x []|].
  destruct (mem p tier) eqn:E.
  - exists [], r. split; [reflexivity|]. split; [apply mem_In, E|]. intros x [].
  - apply mem_nIn in E. destruct (first_in tier r) as [v|].
    + destruct IH as (l1 & l2 & -> & Hv & Hn). exists (p :: l1), l2. split; [reflexivity|]. split; [exact Hv|].
      intros x [<-|Hx]; auto.
    + intros x [<-|Hx]; auto.
Qed.

(** Tiered: the result is in both lists, no earlier tier intersects the client's list, and within its tier
    it is the client's most preferred; nothing is returned exactly when the two sides share no value. *)
Theorem C29_tiers : forall server client,
  match negotiate_tiers server client with
  | Some v => exists t1 tier t2 l1 l2, server = t1 ++ tier :: t2 /\ client = l1 ++ v :: l2 /\ In v tier /\
      (forall t x, In t t1 -> In x t -> ~ In x client) /\ (forall x, In x l1 -> ~ In x tier)
  | None => forall t x, In t server -> In x t -> ~ In x client
  end.
Proof.
  induction server as [|tier rest IH]; intros client; cbn [negotiate_tiers]; [intros t x []|].
  assert (Hone : (match tier with [x] => if mem x client then Some x else None | _ => first_in tier client end)
                 = first_in tier client).
  { destruct tier as [|x [|y t]]; try reflexivity. induction client as [|p r IHc]; [reflexivity|].
    cbn [first_in mem existsb]. rewrite orb_false_r. fold (mem x r). rewrite (N.eqb_sym x p).
    destruct (N.eqb_spec p x) as [->|]; [reflexivity|]. exact IHc. }
  rewrite Hone. pose proof (first_in_spec tier client) as H. destruct (first_in tier client) as [v|].
  - destruct H as (l1 & l2 & E & Hv & Hn). exists [], tier, rest, l1, l2. split; [reflexivity|]. split; [exact E|].
    split; [exact Hv|]. split; [intros t x []|exact Hn].
  - specialize (IH client). destruct (negotiate_tiers rest client) as [v|].
    + destruct IH as (t1 & tr & t2 & l1 & l2 & -> & E & Hv & Ht & Hn). exists (tier :: t1), tr, t2, l1, l2.
      split; [reflexivity|]. split; [exact E|]. split; [exact Hv|]. split; [|exact Hn].
      intros t x [<-|Hin] Hx; [intros Hc; exact (H x Hc Hx)|exact (Ht t x Hin Hx)].
    + intros t x [<-|Hin] Hx; [intros Hc; exact (H x Hc Hx)|exact (IH t x Hin Hx)].
Qed.
Print Assumptions C29_tiers.

(** Flat: the server's first choice that the client supports. *)
Theorem C29_flat : forall server client,
  match negotiate server client with
  | Some v => exists l1 l2, server = l1 ++ v :: l2 /\ In v client /\ forall x, In x l1 -> ~ In x client
  | None => forall x, In x server -> ~ In x client
  end.
Proof.
  induction server as [|p r IH]; intros client; cbn [negotiate]; [intros x []|].
  destruct (mem p client) eqn:E.
  - exists [], r. split; [reflexivity|]. split; [apply mem_In, E|]. intros x [].
  - apply mem_nIn in E. specialize (IH client). destruct (negotiate r client) as [v|].
    + destruct IH as (l1 & l2 & -> & Hv & Hn). exists (p :: l1), l2. split; [reflexivity|]. split; [exact Hv|].
      intros x [<-|Hx]; auto.
    + intros x [<-|Hx]; auto.
Qed.
Print Assumptions C29_flat.
Example C29_nonvacuous : negotiate_tiers [[7]; [1; 2; 3]; [4]] [4; 3; 1] = Some 3 /\ negotiate [7; 2; 4] [4; 2] = Some 2.
Proof. split; reflexivity. Qed.

(** ** Codec helpers *)
Lemma read_u_app k n r : n < 256 ^ N.of_nat k -> read_u k (be k n ++ r) = Ok (n, N.of_nat k, r).
Proof. intros H. unfold read_u. rewrite read_be_app by exact H. reflexivity. Qed.
Lemma read_buf_app w d r : blen d < lw_max w ->
  read_buf w ((be (lw_nat w) (blen d) ++ d) ++ r) = Ok (Some d, lw w + blen d, r).
Proof.
  intros H. unfold read_buf. rewrite <- app_assoc, read_be_app by (unfold lw_max, lw in H; exact H). cbn [bind].
  rewrite take_app. reflexivity.
Qed.
Lemma write_buf_inv w b x : write_buf w b = Ok x -> x = be (lw_nat w) (blen (bufb b)) ++ bufb b /\ blen (bufb b) < lw_max w.
Proof.
  destruct b as [d|]; cbn [write_buf bufb]; intros H.
  - apply bind_Ok in H. destruct H as (l & E & H). unfold write_len in E. destruct (N.ltb_spec (blen d) (lw_max w)) as [Hl|].
    + split; [congruence|exact Hl].
    + destruct w; discriminate.
  - unfold write_len in H. rewrite (@blen_nil byte). destruct (N.ltb_spec 0 (lw_max w)) as [Hl|].
    + rewrite app_nil_r. split; [congruence|exact Hl].
    + destruct w; discriminate.
Qed.
Lemma write_buf_ok w b : blen (bufb b) < lw_max w -> write_buf w b = Ok (be (lw_nat w) (blen (bufb b)) ++ bufb b).
Proof.
  intros H. destruct b as [d|]; cbn [write_buf bufb] in *; unfold write_len.
  - destruct (N.ltb_spec (blen d) (lw_max w)); [reflexivity|lia].
  - rewrite (@blen_nil byte) in *. destruct (N.ltb_spec 0 (lw_max w)); [|lia]. rewrite app_nil_r. reflexivity.
Qed.

(** ** C23 *)
Theorem C23_wire : forall st r bs, ticket_encode st r = Ok bs <-> rs_fits st r /\ bs = ticket_wire st r.
Proof.
  intros st r bs. unfold ticket_encode, write_u. cbn [bind].
  assert (Hc : forall x, appendClientCert st (rs_clientCert r) = Ok x <->
    (match rs_clientCert r with
     | Some c => match st with SNone => True
               | SIdent => blen (c_ident c) < 2 ^ 16
               | SX509 => match c_der c with Some d => blen d < 2 ^ 16 | None => blen (c_ident c) < 2 ^ 16 end end
     | None => True end) /\ x = client_wire st (rs_clientCert r)).
  { intros x. unfold appendClientCert, client_wire, write_u, opaque16. destruct (rs_clientCert r) as [[i [d|]]|], st;
      cbn [c_der c_ident bind];
      try (split; [intros E; split; [exact I|congruence]|intros [_ ->]; reflexivity]);
      (split; [intros E; apply bind_Ok in E; destruct E as (y & Ey & E); apply write_buf_inv in Ey; cbn [bufb] in Ey;
                destruct Ey as [-> Hl]; split; [exact Hl|cbn [lw_nat] in E; congruence]
              |intros [Hl ->]; rewrite write_buf_ok by exact Hl; reflexivity]). }
  unfold rs_fits, ticket_wire, ticket_wire_v1, ticket_wire_v0, opaque16, opaque8. split.
  - intros H.
    apply bind_Ok in H. destruct H as (a3 & E3 & H). apply write_buf_inv in E3. destruct E3 as [-> L3].
    apply bind_Ok in H. destruct H as (a4 & E4 & H). apply write_buf_inv in E4. destruct E4 as [-> L4].
    apply bind_Ok in H. destruct H as (a5 & E5 & H). apply Hc in E5. destruct E5 as [L5 ->].
    apply bind_Ok in H. destruct H as (a8 & E8 & H). apply write_buf_inv in E8. destruct E8 as [-> L8].
    apply bind_Ok in H. destruct H as (a9 & E9 & H). apply write_buf_inv in E9. destruct E9 as [-> L9].
    split.
    + split; [exact L3|]. split; [exact L4|]. split; [exact L5|]. split; [exact L8|exact L9].
    + cbn [lw_nat bufb] in H. rewrite <- !app_assoc. unfold ident_of, cast_s, ns_per_s in *. 
      match type of H with Ok ?a = Ok ?b => assert (Hab : a = b) by congruence end. rewrite <- Hab, <- !app_assoc. reflexivity.
  - intros [(L3 & L4 & L5 & L8 & L9) ->].
    rewrite write_buf_ok by exact L3. cbn [bind]. rewrite write_buf_ok by exact L4. cbn [bind].
    rewrite (proj2 (Hc _) (conj L5 eq_refl)). cbn [bind]. rewrite write_buf_ok by exact L8. cbn [bind].
    rewrite write_buf_ok by exact L9. cbn [bind]. cbn [lw_nat bufb]. rewrite <- !app_assoc. reflexivity.
Qed.
Print Assumptions C23_wire.

Lemma u64_rt z : int64 z = true -> of_u64 (to_u64 z) = z /\ to_u64 z < 2 ^ 64.
Proof.
  unfold int64, of_u64, to_u64. intros H.
  assert (Hm : (0 <= z mod 2 ^ 64 < 2 ^ 64)%Z) by (apply Z.mod_pos_bound; reflexivity).
  rewrite Z2N.id by lia. split; [|lia].
  destruct (Z.ltb_spec (z mod 2 ^ 64) (2 ^ 63)); lia.
Qed.
Lemma tp_rt t : int64 t = true -> tp_of_s (to_u64 (Z.quot t 1000000000)) = Ok (whole_seconds t) /\
  to_u64 (Z.quot t 1000000000) < 2 ^ 64.
Proof.
  intros H. assert (Hq : int64 (Z.quot t 1000000000) = true).
  { unfold int64 in *. lia. }
  destruct (u64_rt _ Hq) as [E1 E2]. split; [|exact E2].
  unfold tp_of_s, chk64. rewrite E1. unfold whole_seconds, ns_per_s.
  assert (int64 (Z.quot t 1000000000 * 1000000000) = true) as ->; [|reflexivity].
  unfold int64 in *. lia.
Qed.

Lemma read_client st c mkPeer mkIdent cc rest :
  (match c with
   | Some c => match st with SNone => True
               | SIdent => blen (c_ident c) < 2 ^ 16
               | SX509 => match c_der c with Some d => blen d < 2 ^ 16 | None => blen (c_ident c) < 2 ^ 16 end end
   | None => True end) ->
  client_restored mkPeer mkIdent st c = Ok cc ->
  readClientCert mkPeer mkIdent (client_wire st c ++ rest) = Ok (cc, rest).
Proof.
  unfold readClientCert, client_wire, client_restored, opaque16.
  destruct c as [[i [d|]]|], st; cbn [c_der c_ident]; intros Hl Hr; rewrite <- ?app_assoc, read_u_app by lia; cbn [bind];
    try (assert (cc = None) as -> by congruence; reflexivity).
  all: change (1 =? 1) with true; change (2 =? 1) with false; change (2 =? 2) with true; cbv iota.
  all: rewrite app_assoc; change 2%nat with (lw_nat W16); rewrite read_buf_app by exact Hl; cbn [bind].
  - apply bind_Ok in Hr. destruct Hr as (x & -> & Hr). cbn [bind]. congruence.
  - congruence.
  - congruence.
  - congruence.
Qed.

Lemma decode_v0 mkPeer mkIdent getCert st r cc rest : rs_ok r -> rs_fits st r ->
  client_restored mkPeer mkIdent st (rs_clientCert r) = Ok cc ->
  ticket_decode mkPeer mkIdent getCert (ticket_wire_v0 st r ++ rest) =
  let x app ht := mkRS (rs_version r) (rs_cipher r) (Some (bufb (rs_secret r))) (getCert (ident_of (rs_serverCert r))) cc
       (nonempty (rs_alpn r)) (rs_ageAdd r) (whole_seconds (rs_issue r)) app ht in
  match rest with
  | [] => Ok (x None (whole_seconds (rs_issue r)))
  | _ => '(app, _, r9) <- read_buf W16 rest ;;
         match r9 with
         | [] => Ok (x app (whole_seconds (rs_issue r)))
         | _ => '(hs, _, _) <- read_u 8 r9 ;; ht <- tp_of_s hs ;; Ok (x app ht)
         end
  end.
Proof.
  intros (V & Ci & Ag & Ti & Th) (L3 & L4 & L5 & L8 & L9) Hcc.
  unfold ticket_decode, ticket_wire_v0, opaque16, opaque8. rewrite <- !app_assoc.
  rewrite read_u_app by exact V. cbn [bind]. rewrite read_u_app by exact Ci. cbn [bind].
  rewrite (app_assoc (be 2 (blen (bufb (rs_secret r))))). change (be 2 (blen (bufb (rs_secret r)))) with (be (lw_nat W16) (blen (bufb (rs_secret r)))).
  rewrite read_buf_app by exact L3. cbn [bind].
  rewrite (app_assoc (be 2 (blen (ident_of (rs_serverCert r))))).
  change (be 2 (blen (ident_of (rs_serverCert r)))) with (be (lw_nat W16) (blen (ident_of (rs_serverCert r)))).
  rewrite read_buf_app by exact L4. cbn [bind].
  rewrite (read_client st _ mkPeer mkIdent cc) by assumption. cbn [bind].
  rewrite read_u_app by exact Ag. cbn [bind].
  destruct (tp_rt _ Ti) as [E1 E2].
  rewrite read_u_app by exact E2. cbn [bind].
  rewrite (app_assoc (be 1 (blen (bufb (rs_alpn r))))).
  change (be 1 (blen (bufb (rs_alpn r)))) with (be (lw_nat W8) (blen (bufb (rs_alpn r)))).
  rewrite read_buf_app by exact L8. cbn [bind]. rewrite E1. cbn [bind].
  assert (Ea : match bufb (rs_alpn r) with x :: l => Some (x :: l) | [] => None end = nonempty (rs_alpn r)).
  { destruct (rs_alpn r) as [[|x l]|]; reflexivity. }
  rewrite Ea. reflexivity.
Qed.

(** Decoding what was encoded restores everything, times truncated to whole seconds. *)
Theorem C23_roundtrip : forall mkPeer mkIdent getCert st r bs cc, rs_ok r ->
  ticket_encode st r = Ok bs -> client_restored mkPeer mkIdent st (rs_clientCert r) = Ok cc ->
  ticket_decode mkPeer mkIdent getCert bs = Ok (rs_restored getCert r cc).
Proof.
  intros mkPeer mkIdent getCert st r bs cc Hok He Hcc. apply C23_wire in He. destruct He as [Hf ->].
  unfold ticket_wire, ticket_wire_v1, opaque16. rewrite <- app_assoc.
  rewrite (decode_v0 mkPeer mkIdent getCert st r cc) by assumption. cbv zeta.
  destruct Hf as (_ & _ & _ & _ & L9). destruct Hok as (_ & _ & _ & _ & Th).
  set (rest := (be 2 _ ++ _) ++ _).
  assert (Hne : exists a b, rest = a :: b).
  { unfold rest. destruct (be 2 (blen (bufb (rs_appToken r)))) as [|a l] eqn:E.
    - pose proof (be_blen 2 (blen (bufb (rs_appToken r)))) as H. rewrite E in H. discriminate.
    - cbn [app]. eauto. }
  destruct Hne as (a & b & Er). rewrite Er, <- Er. unfold rest.
  change (be 2 (blen (bufb (rs_appToken r)))) with (be (lw_nat W16) (blen (bufb (rs_appToken r)))).
  rewrite read_buf_app by exact L9. cbn [bind].
  destruct (tp_rt _ Th) as [E1 E2].
  set (ts := be 8 _).
  assert (Hne : exists a b, ts = a :: b).
  { destruct ts as [|a' b'] eqn:E; [|eauto]. pose proof (be_blen 8 (to_u64 (Z.quot (rs_hsTime r) 1000000000))) as H.
    fold ts in H. rewrite E in H. discriminate. }
  destruct Hne as (a' & b' & Et). rewrite Et, <- Et. unfold ts. rewrite <- (app_nil_r (be 8 _)).
  rewrite read_u_app by exact E2. cbn [bind]. rewrite E1. reflexivity.
Qed.
Print Assumptions C23_roundtrip.

(** Nothing at all is lost when the certificates can be looked up again, times are whole seconds, and no
    buffer is null or ALPN empty. *)
Theorem C23_lossless : forall mkPeer mkIdent getCert st r bs, rs_ok r -> ticket_encode st r = Ok bs ->
  getCert (ident_of (rs_serverCert r)) = rs_serverCert r ->
  client_restored mkPeer mkIdent st (rs_clientCert r) = Ok (rs_clientCert r) ->
  rs_secret r <> None -> rs_appToken r <> None -> rs_alpn r <> Some [] ->
  (exists k, rs_issue r = k * 1000000000)%Z -> (exists k, rs_hsTime r = k * 1000000000)%Z ->
  ticket_decode mkPeer mkIdent getCert bs = Ok r.
Proof.
  intros mkPeer mkIdent getCert st r bs Hok He Hs Hc H1 H2 H3 [k1 Hk1] [k2 Hk2].
  rewrite (C23_roundtrip mkPeer mkIdent getCert st r bs _ Hok He Hc). unfold rs_restored, whole_seconds.
  rewrite Hs, Hk1, Hk2, !Z.quot_mul by lia. destruct r as [v c [s|] sc cc al ag it [ap|] ht]; cbn in *; try congruence.
  subst. destruct al as [[|]|]; cbn [nonempty]; congruence.
Qed.
Print Assumptions C23_lossless.

(** Old tickets: without application token and handshake time, and without handshake time. *)
Theorem C23_old_formats : forall mkPeer mkIdent getCert st r cc, rs_ok r -> rs_fits st r ->
  client_restored mkPeer mkIdent st (rs_clientCert r) = Ok cc ->
  (exists x, ticket_decode mkPeer mkIdent getCert (ticket_wire_v0 st r) = Ok x /\
     rs_appToken x = None /\ rs_hsTime x = whole_seconds (rs_issue r) /\ rs_issue x = whole_seconds (rs_issue r) /\
     rs_secret x = Some (bufb (rs_secret r)) /\ rs_version x = rs_version r /\ rs_cipher x = rs_cipher r) /\
  (exists x, ticket_decode mkPeer mkIdent getCert (ticket_wire_v1 st r) = Ok x /\
     rs_appToken x = Some (bufb (rs_appToken r)) /\ rs_hsTime x = whole_seconds (rs_issue r) /\
     rs_issue x = whole_seconds (rs_issue r) /\
     rs_secret x = Some (bufb (rs_secret r)) /\ rs_version x = rs_version r /\ rs_cipher x = rs_cipher r).
Proof.
  intros mkPeer mkIdent getCert st r cc Hok Hf Hcc. split.
  - eexists. split.
    + rewrite <- (app_nil_r (ticket_wire_v0 st r)). rewrite (decode_v0 mkPeer mkIdent getCert st r cc) by assumption. reflexivity.
    + cbn. auto 10.
  - eexists. split.
    + unfold ticket_wire_v1. rewrite (decode_v0 mkPeer mkIdent getCert st r cc) by assumption. cbv zeta.
      set (rest := opaque16 _).
      assert (Hne : exists a b, rest = a :: b).
      { unfold rest, opaque16. destruct (be 2 (blen (bufb (rs_appToken r)))) as [|a l] eqn:E.
        - pose proof (be_blen 2 (blen (bufb (rs_appToken r)))) as H. rewrite E in H. discriminate.
        - cbn [app]. eauto. }
      destruct Hne as (a & b & Er). rewrite Er, <- Er. unfold rest, opaque16.
      rewrite <- (app_nil_r (be 2 _ ++ _)).
      change (be 2 (blen (bufb (rs_appToken r)))) with (be (lw_nat W16) (blen (bufb (rs_appToken r)))).
      destruct Hf as (_ & _ & _ & _ & L9). rewrite read_buf_app by exact L9. cbn [bind]. reflexivity.
    + cbn. auto 10.
Qed.
Print Assumptions C23_old_formats.
