(** * C87: the key exchanges of the default factory *)
From Verif Require Import Base Kex HkdfProofs KexObj.
Open Scope N_scope.

(** ** Specification: what is asked of the libraries *)
(** Elliptic-curve Diffie-Hellman: keys that pass OpenSSL's checks have encodings of the curve's uncompressed length which decode, and two of them derive the same secret. *)
Definition ec_law (o : ossl) : Prop := forall c n m, ec_valid o c n = true -> ec_valid o c m = true ->
  exists bn bm pn pm z, ec_encode o c n = Some bn /\ ec_encode o c m = Some bm /\ blen bn = keyShareLength c /\ blen bm = keyShareLength c /\
    ec_decode o c bn = Some pn /\ ec_decode o c bm = Some pm /\ ec_derive o c n pm = Some z /\ ec_derive o c m pn = Some z.
Definition x_law (o : sodium) : Prop := (forall s, blen s = 32 -> blen (x_base o s) = 32) /\
  forall s t, blen s = 32 -> blen t = 32 -> exists z, x_mult o s (x_base o t) = Some z /\ x_mult o t (x_base o s) = Some z.
(** [P a p s]: a key pair of the KEM *)
Definition kem_law (o : oqs) (P : kemalg -> bytes -> bytes -> Prop) : Prop :=
  (forall a, 0 < q_pk o a /\ 0 < q_sk o a /\ 0 < q_ct o a) /\ forall a p s, P a p s -> blen p = q_pk o a /\ blen s = q_sk o a.
Record lawful (L : klibs) (P : kemalg -> bytes -> bytes -> Prop) : Prop := mkLawful {
  lw_ec : ec_law (l_ossl L); lw_x : x_law (l_sodium L); lw_kem : forall o, l_oqs L = Some o -> kem_law o P }.
(** What the libraries draw at a call: an X25519 pair; a KEM pair; a ciphertext that every secret key of the pair opens. *)
Record draws_ok (L : klibs) (P : kemalg -> bytes -> bytes -> Prop) (d : draws) : Prop := mkDok {
  dk_x : forall s p, d_x d = Some (s, p) -> blen s = 32 /\ p = x_base (l_sodium L) s;
  dk_pair : forall a p s, d_keypair d a = (true, (p, s)) -> P a p s;
  dk_ct : forall o a p c x, l_oqs L = Some o -> d_encaps d a p = (true, (c, x)) -> blen c = q_ct o a /\ forall s, P a p s -> q_decaps o a c s = (true, x) }.
(** The groups: an exchange of one kind, or a KEM with X25519 *)
Inductive kind := GEc (c : curve) | GX | GHybrid (a : kemalg).
Definition group_kind (L : klibs) (g : N) (k : kind) : Prop :=
  (g = 23 /\ k = GEc P256) \/ (g = 24 /\ k = GEc P384) \/ (g = 25 /\ k = GEc P521) \/ (g = 29 /\ k = GX) \/
  (exists o, l_oqs L = Some o /\ ((g = 4588 /\ k = GHybrid MLKEM768 /\ q_new o MLKEM768 = true) \/ (g = 65026 /\ k = GHybrid MLKEM512 /\ q_new o MLKEM512 = true))).
(** All that the calls draw succeeds *)
Definition drawn_client (L : klibs) (d : draws) (k : kind) : Prop :=
  match k with
  | GEc c => exists n, d_ec d c = Some n /\ ec_valid (l_ossl L) c n = true
  | GX => d_x d <> None
  | GHybrid a => d_x d <> None /\ fst (d_keypair d a) = true
  end.
Definition drawn_server (L : klibs) (d : draws) (k : kind) (theirs : bytes) : Prop :=
  match k with
  | GEc c => exists n, d_ec d c = Some n /\ ec_valid (l_ossl L) c n = true
  | GX => d_x d <> None
  | GHybrid a => d_x d <> None /\ forall o, l_oqs L = Some o -> fst (d_encaps d a (takeN (q_pk o a) theirs)) = true
  end.

(** ** Proofs *)
Lemma make_kind L g r k : makeKeyExchange L g r = Ok k ->
  (exists c, group_kind L g (GEc c) /\ k = KEc c None) \/ (group_kind L g GX /\ k = KX None) \/
  exists o a, l_oqs L = Some o /\ group_kind L g (GHybrid a) /\ k = KHybrid (match r with RServer => KKemServer a o None | RClient => KKemClient a o None end) (KX None).
Proof.
  unfold makeKeyExchange, makeOqs, g_p256, g_p384, g_p521, g_x25519, g_x25519mlkem768, g_x25519mlkem512, group_kind. intros H.
  destruct (N.eqb_spec g 23); [injection H as <-; left; exists P256; auto 10|]. destruct (N.eqb_spec g 24); [injection H as <-; left; exists P384; auto 10|].
  destruct (N.eqb_spec g 25); [injection H as <-; left; exists P521; auto 10|]. destruct (N.eqb_spec g 29); [injection H as <-; right; left; auto 10|].
  destruct (l_oqs L) as [o|]; [|discriminate]. right; right.
  destruct (N.eqb_spec g 4588).
  - destruct (q_new o MLKEM768) eqn:E; [|discriminate]. cbn [bind] in H. injection H as <-. exists o, MLKEM768. split; [reflexivity|]. split; [|destruct r; reflexivity]. right; right; right; right. exists o. auto.
  - destruct (N.eqb_spec g 65026); [|discriminate]. destruct (q_new o MLKEM512) eqn:E; [|discriminate]. cbn [bind] in H. injection H as <-. exists o, MLKEM512. split; [reflexivity|]. split; [|destruct r; reflexivity].
    right; right; right; right. exists o. auto.
Qed.
(** The factory makes an exchange for exactly these groups, for both roles. *)
Theorem C87_groups L g r : (exists k, makeKeyExchange L g r = Ok k) <-> exists k, group_kind L g k.
Proof.
  split.
  - intros (k & H). apply make_kind in H. destruct H as [(c & H & _)|[[H _]|(o & a & _ & H & _)]]; eauto.
  - intros (k & H). unfold group_kind in H. unfold makeKeyExchange, makeOqs.
    destruct H as [[-> _]|[[-> _]|[[-> _]|[[-> _]|(o & Ho & [(-> & _ & Hq)|(-> & _ & Hq)])]]]]; cbn; rewrite ?Ho; cbn [N.eqb Pos.eqb]; rewrite ?Hq; cbn [bind]; eexists; reflexivity.
Qed.
Lemma kind_fun L g k k' : group_kind L g k -> group_kind L g k' -> k = k'.
Proof.
  unfold group_kind. intros H H'.
  destruct H as [[-> ->]|[[-> ->]|[[-> ->]|[[-> ->]|(o & Ho & [(-> & -> & Hq)|(-> & -> & Hq)])]]]];
    destruct H' as [[E ->]|[[E ->]|[[E ->]|[[E ->]|(o' & Ho' & [(E & -> & Hq')|(E & -> & Hq')])]]]]; try discriminate E; reflexivity.
Qed.
Lemma make_server L g k : group_kind L g k -> forall r, makeKeyExchange L g r = Ok (match k with
  | GEc c => KEc c None | GX => KX None | GHybrid a => KHybrid (match l_oqs L with Some o => match r with RServer => KKemServer a o None | RClient => KKemClient a o None end | None => KX None end) (KX None) end).
Proof.
  unfold group_kind, makeKeyExchange, makeOqs. intros H r.
  destruct H as [[-> ->]|[[-> ->]|[[-> ->]|[[-> ->]|(o & Ho & [(-> & -> & Hq)|(-> & -> & Hq)])]]]]; cbn; rewrite ?Ho, ?Hq; reflexivity.
Qed.
(** What a client with a key pair is *)
Definition client_obj (L : klibs) (d : draws) (k : kind) (x : kobj) : Prop :=
  match k with
  | GEc c => exists n, d_ec d c = Some n /\ ec_valid (l_ossl L) c n = true /\ x = KEc c (Some n)
  | GX => exists p, d_x d = Some p /\ x = KX (Some p)
  | GHybrid a => exists o p q, l_oqs L = Some o /\ d_keypair d a = (true, p) /\ d_x d = Some q /\ x = KHybrid (KKemClient a o (Some p)) (KX (Some q))
  end.
Lemma client_made L P d g x : lawful L P -> clientKex L d g = Ok x ->
  exists k o, group_kind L g k /\ client_obj L d k o /\ x = mkKex (share L o) (fun b => snd (secret L d o b)) (ksize o).
Proof.
  intros HL H. unfold clientKex in H. apply bind_Ok in H. destruct H as (k & Hk & H). apply make_kind in Hk.
  destruct Hk as [(c & Hg & ->)|[[Hg ->]|(o & a & Ho & Hg & ->)]]; cbn [generate] in H.
  - destruct (d_ec d c) as [n|] eqn:En; [|discriminate]. destruct (ec_valid _ c n) eqn:Ev; [|discriminate]. injection H as <-.
    exists (GEc c), (KEc c (Some n)). split; [exact Hg|]. split; [exists n; auto|reflexivity].
  - destruct (d_x d) as [p|] eqn:Ex; [|discriminate]. injection H as <-. exists GX, (KX (Some p)). split; [exact Hg|]. split; [exists p; auto|reflexivity].
  - destruct (d_keypair d a) as [[] p] eqn:Ep; [|discriminate]. destruct (d_x d) as [q|] eqn:Ex; [|discriminate].
    destruct (lw_kem L P HL o Ho) as [Hs _]. specialize (Hs a). unfold clientInit in H. destruct p as [p s].
    replace (q_pk o a =? 0) with false in H by (symmetry; apply N.eqb_neq; lia). replace (q_sk o a =? 0) with false in H by (symmetry; apply N.eqb_neq; lia). cbn [orb ksize] in H.
    replace (q_ct o a =? 0) with false in H by (symmetry; apply N.eqb_neq; lia). cbn in H. injection H as <-.
    exists (GHybrid a), (KHybrid (KKemClient a o (Some (p, s))) (KX (Some q))). split; [exact Hg|]. split; [exists o, (p, s), q; auto|reflexivity].
Qed.
(** A client's share is always there, of the length its server expects. *)
Definition server_size (L : klibs) (k : kind) : N := match k with GEc c => keyShareLength c | GX => 32 | GHybrid a => match l_oqs L with Some o => q_pk o a + 32 | None => 0 end end.
Definition client_size (L : klibs) (k : kind) : N := match k with GEc c => keyShareLength c | GX => 32 | GHybrid a => match l_oqs L with Some o => q_ct o a + 32 | None => 0 end end.
Theorem C87_share L P d g x : lawful L P -> draws_ok L P d -> clientKex L d g = Ok x ->
  exists k b, group_kind L g k /\ kx_share x = Ok b /\ blen b = server_size L k /\ kx_size x = client_size L k.
Proof.
  intros HL Hd H. destruct (client_made L P d g x HL H) as (k & o & Hg & Ho & ->). destruct k as [c| |a]; cbn [client_obj] in Ho.
  - destruct Ho as (n & _ & Hv & ->). destruct (lw_ec L P HL c n n Hv Hv) as (b & _ & _ & _ & _ & He & _ & Hb & _). exists (GEc c), b. cbn. rewrite He. auto.
  - destruct Ho as ([s p] & Hp & ->). destruct (dk_x _ _ _ Hd s p Hp) as [Hs ->]. exists GX, (x_base (l_sodium L) s). cbn. split; [exact Hg|]. split; [reflexivity|]. split; [apply (lw_x L P HL), Hs|reflexivity].
  - destruct Ho as (o' & [p s] & [t q] & Ho' & Hp & Hq & ->). destruct (dk_x _ _ _ Hd t q Hq) as [Ht ->]. destruct (lw_kem L P HL o' Ho') as [_ Hl]. destruct (Hl a p s (dk_pair _ _ _ Hd a p s Hp)) as [Lp _].
    exists (GHybrid a), (p ++ x_base (l_sodium L) t). cbn. rewrite Ho'. split; [exact Hg|]. split; [reflexivity|]. split; [rewrite blen_app, Lp, (proj1 (lw_x L P HL) t Ht); reflexivity|reflexivity].
Qed.
(** Client and server derive the same secret, whatever was drawn; the server's share has the length the client expects. *)
Theorem C87_agree L P dc ds g x b ours z : lawful L P -> draws_ok L P dc -> draws_ok L P ds -> clientKex L dc g = Ok x -> kx_share x = Ok b ->
  serverKex L ds g b = Ok (ours, z) -> kx_secret x ours = Ok z /\ blen ours = kx_size x.
Proof.
  intros HL Hc Hs Hx Hb H. destruct (client_made L P dc g x HL Hx) as (k & o & Hg & Ho & ->). cbn [kx_share kx_secret kx_size] in *.
  unfold serverKex in H. rewrite (make_server L g k Hg RServer) in H. cbn [bind] in H. destruct k as [c| |a]; cbn [client_obj] in Ho.
  - destruct Ho as (n & _ & Hv & ->). cbn [generate] in H. destruct (d_ec ds c) as [m|] eqn:Em; [|discriminate]. destruct (ec_valid _ c m) eqn:Ev; [|discriminate].
    destruct (lw_ec L P HL c n m Hv Ev) as (bn & bm & pn & pm & y & E1 & E2 & L1 & L2 & D1 & D2 & X1 & X2).
    cbn [share] in Hb. rewrite E1 in Hb. injection Hb as <-. cbn [secret bind] in H. rewrite D1, X2 in H. cbn [bind share] in H. rewrite E2 in H. injection H as <- <-.
    cbn. rewrite D2, X1. auto.
  - destruct Ho as ([s p] & Hp & ->). destruct (dk_x _ _ _ Hc s p Hp) as [Hl ->]. cbn [share] in Hb. injection Hb as <-.
    cbn [generate] in H. destruct (d_x ds) as [[t q]|] eqn:Et; [|discriminate]. destruct (dk_x _ _ _ Hs t q Et) as [Ht ->].
    destruct (lw_x L P HL) as [B M]. destruct (M s t Hl Ht) as (y & M1 & M2). cbn [secret bind] in H. rewrite (B s Hl) in H. cbn [N.eqb Pos.eqb negb] in H. rewrite M2 in H. cbn in H. injection H as <- <-.
    cbn. rewrite (B t Ht). cbn. rewrite M1. auto.
  - destruct Ho as (o' & [p s] & [t q] & Ho' & Hp & Hq & ->). destruct (dk_x _ _ _ Hc t q Hq) as [Ht ->]. destruct (lw_kem L P HL o' Ho') as [Hz Hl].
    destruct (Hl a p s (dk_pair _ _ _ Hc a p s Hp)) as [Lp _]. cbn [share bind] in Hb. injection Hb as <-. rewrite Ho' in H. cbn [generate] in H.
    destruct (d_x ds) as [[v w]|] eqn:Et; [|discriminate]. destruct (dk_x _ _ _ Hs v w Et) as [Hv ->]. specialize (Hz a). cbn [ksize] in H.
    replace (q_pk o' a =? 0) with false in H by (symmetry; apply N.eqb_neq; lia). cbn [orb N.eqb bind] in H. destruct (lw_x L P HL) as [B M]. cbn [secret] in H. cbn [ksize] in H.
    assert (Hlen : blen (p ++ x_base (l_sodium L) t) = q_pk o' a + 32) by (rewrite blen_app, Lp, (B t Ht); reflexivity).
    rewrite Hlen, N.eqb_refl in H. cbn [negb] in H. rewrite (takeN_app p _ (q_pk o' a) (eq_sym Lp)) in H.
    rewrite Lp, N.eqb_refl in H. cbn [negb] in H. destruct (d_encaps ds a p) as [[] [ct y]] eqn:Ee; [|discriminate].
    destruct (dk_ct _ _ _ Hs o' a p ct y Ho' Ee) as [Lc De]. replace (q_pk o' a + 32 - 32) with (blen p) in H by lia. rewrite (dropN_app p _ (blen p) eq_refl) in H. rewrite (B t Ht) in H. cbn [N.eqb Pos.eqb negb] in H.
    destruct (M t v Ht Hv) as (u & M1 & M2). rewrite M2 in H. unfold serverInit in H. replace (q_ct o' a =? 0) with false in H by (symmetry; apply N.eqb_neq; lia). cbn in H. injection H as <- <-.
    assert (Hlo : blen (ct ++ x_base (l_sodium L) v) = q_ct o' a + 32) by (rewrite blen_app, Lc, (B v Hv); reflexivity).
    split; [|exact Hlo]. cbn [secret ksize]. rewrite Hlo, N.eqb_refl. cbn [negb]. rewrite (takeN_app ct _ (q_ct o' a) (eq_sym Lc)).
    rewrite Lc, N.eqb_refl. cbn [negb]. rewrite (De s (dk_pair _ _ _ Hc a p s Hp)). replace (q_ct o' a + 32 - 32) with (blen ct) by lia. rewrite (dropN_app ct _ (blen ct) eq_refl), (B v Hv). cbn [N.eqb Pos.eqb negb]. rewrite M1. reflexivity.
Qed.
(** A server answers every client of the same libraries if what it draws succeeds. *)
Theorem C87_answered L P dc ds g k x b : lawful L P -> draws_ok L P dc -> draws_ok L P ds -> group_kind L g k -> clientKex L dc g = Ok x -> kx_share x = Ok b ->
  drawn_server L ds k b -> exists ours z, serverKex L ds g b = Ok (ours, z).
Proof.
  intros HL Hc Hs Hk Hx Hb Hd. destruct (client_made L P dc g x HL Hx) as (k' & o & Hg & Ho & ->). pose proof (kind_fun L g k k' Hk Hg) as <-. cbn [kx_share] in Hb.
  unfold serverKex. rewrite (make_server L g k Hg RServer). cbn [bind]. destruct k as [c| |a]; cbn [client_obj drawn_server] in Ho, Hd.
  - destruct Ho as (n & _ & Hv & ->). destruct Hd as (m & Em & Ev). cbn [generate]. rewrite Em, Ev.
    destruct (lw_ec L P HL c n m Hv Ev) as (bn & bm & pn & pm & y & E1 & E2 & L1 & L2 & D1 & D2 & X1 & X2).
    cbn [share] in Hb. rewrite E1 in Hb. injection Hb as <-. cbn [secret bind]. rewrite D1, X2. cbn [bind share]. rewrite E2. cbn [bind]. eauto.
  - destruct Ho as ([s p] & Hp & ->). destruct (dk_x _ _ _ Hc s p Hp) as [Hl ->]. cbn [share] in Hb. injection Hb as <-.
    cbn [generate]. destruct (d_x ds) as [[t q]|] eqn:Et; [|congruence]. destruct (dk_x _ _ _ Hs t q Et) as [Ht ->].
    destruct (lw_x L P HL) as [B M]. destruct (M s t Hl Ht) as (y & M1 & M2). cbn [secret bind]. rewrite (B s Hl). cbn [N.eqb Pos.eqb negb]. rewrite M2. change (32 =? 32) with true. cbn. eauto.
  - destruct Ho as (o' & [p s] & [t q] & Ho' & Hp & Hq & ->). destruct (dk_x _ _ _ Hc t q Hq) as [Ht ->]. destruct (lw_kem L P HL o' Ho') as [Hz Hl].
    destruct (Hl a p s (dk_pair _ _ _ Hc a p s Hp)) as [Lp _]. cbn [share bind] in Hb. injection Hb as <-. rewrite Ho'. cbn [generate].
    destruct Hd as [Hx2 He]. specialize (He o' Ho'). rewrite (takeN_app p _ (q_pk o' a) (eq_sym Lp)) in He.
    destruct (d_x ds) as [[v w]|] eqn:Et; [|congruence]. destruct (dk_x _ _ _ Hs v w Et) as [Hv ->]. specialize (Hz a). cbn [ksize].
    replace (q_pk o' a =? 0) with false by (symmetry; apply N.eqb_neq; lia). cbn [orb N.eqb bind]. destruct (lw_x L P HL) as [B M]. cbn [secret ksize].
    assert (Hlen : blen (p ++ x_base (l_sodium L) t) = q_pk o' a + 32) by (rewrite blen_app, Lp, (B t Ht); reflexivity).
    rewrite Hlen, N.eqb_refl. cbn [negb]. rewrite (takeN_app p _ (q_pk o' a) (eq_sym Lp)). rewrite Lp, N.eqb_refl. cbn [negb].
    destruct (d_encaps ds a p) as [[] [ct y]] eqn:Ee; [|discriminate He]. replace (q_pk o' a + 32 - 32) with (blen p) by lia.
    rewrite (dropN_app p _ (blen p) eq_refl), (B t Ht). cbn [N.eqb Pos.eqb negb]. destruct (M t v Ht Hv) as (u & M1 & M2). rewrite M2. unfold serverInit.
    replace (q_ct o' a =? 0) with false by (symmetry; apply N.eqb_neq; lia). cbn. change (32 =? 0) with false. cbn [bind]. cbn. eexists _, _. reflexivity.
Qed.

(** ** Any use of an object *)
Inductive kop := KGenerate (d : draws) | KSecret (d : draws) (b : bytes) | KSetEc (n : N) | KSetX (b : option bytes) | KClone.
(** The object after the call (a clone: the clone if there is one) *)
Definition kstep (L : klibs) (k : kobj) (o : kop) : kobj :=
  match o with
  | KGenerate d => fst (generate L d k) | KSecret d b => fst (secret L d k b) | KSetEc n => fst (setEcKey L k n) | KSetX b => fst (setXKey L k b)
  | KClone => match clone L k with Ok k' => k' | Err _ => k end
  end.
Definition kreach (L : klibs) (g : N) (r : role) (k : kobj) : Prop := exists k0 ops, makeKeyExchange L g r = Ok k0 /\ k = fold_left (kstep L) ops k0.

(** The shape of an object of the group *)
Definition kshape (L : klibs) (r : role) (kd : kind) (k : kobj) : Prop :=
  match kd with
  | GEc c => exists n, k = KEc c n /\ (forall m, n = Some m -> ec_valid (l_ossl L) c m = true)
  | GX => exists x, k = KX x
  | GHybrid a => exists o y, l_oqs L = Some o /\ q_new o a = true /\ match r with RClient => exists x, k = KHybrid (KKemClient a o x) (KX y) | RServer => exists x, k = KHybrid (KKemServer a o x) (KX y) end
  end.
Lemma clone_same L : forall k k', clone L k = Ok k' -> k' = k.
Proof.
  induction k as [c n|x|a q x|a q x|f IH1 s IH2]; intros k' H; cbn [clone] in H.
  - destruct n as [n|]; [|discriminate]. destruct (ec_valid _ _ _); [injection H as <-; reflexivity|discriminate].
  - destruct x; [injection H as <-; reflexivity|discriminate].
  - destruct x; [|discriminate]. destruct (q_new q a); [injection H as <-; reflexivity|discriminate].
  - destruct x; [|discriminate]. destruct (q_new q a); [injection H as <-; reflexivity|discriminate].
  - apply bind_Ok in H. destruct H as (x & Hx & H). apply bind_Ok in H. destruct H as (y & Hy & H). injection H as <-. rewrite (IH1 _ Hx), (IH2 _ Hy). reflexivity.
Qed.
Lemma kstep_shape L r kd k o : kshape L r kd k -> kshape L r kd (kstep L k o).
Proof.
  intros H. destruct o as [d|d b|n|b|]; cbn [kstep]; [| | | |destruct (clone L k) eqn:E; [rewrite (clone_same L k _ E)|]; exact H].
  - destruct kd as [c| |a]; cbn [kshape] in *.
    + destruct H as (n & -> & Hn). cbn [generate]. destruct (d_ec d c) as [m|]; [|exists n; auto]. destruct (ec_valid _ c m) eqn:E; cbn [fst]; eexists; split; try reflexivity; [intros ? [= <-]; exact E|exact Hn].
    + destruct H as (x & ->). cbn [generate]. destruct (d_x d); eexists; reflexivity.
    + destruct H as (o & y & Ho & Hq & H). destruct r; destruct H as (x & ->); cbn [generate].
      * destruct (d_keypair d a) as [[] p]; [destruct (d_x d); cbn [fst]|cbn [fst]]; do 2 eexists; (split; [exact Ho|]; split; [exact Hq|]; eexists; reflexivity).
      * destruct (d_x d); cbn [fst]; do 2 eexists; (split; [exact Ho|]; split; [exact Hq|]; eexists; reflexivity).
  - destruct kd as [c| |a]; cbn [kshape] in *.
    + destruct H as (n & -> & Hn). cbn [secret fst]. eauto.
    + destruct H as (x & ->). cbn [secret fst]. eauto.
    + destruct H as (o & y & Ho & Hq & H). destruct r; destruct H as (x & ->); cbn [secret].
      * destruct (negb _); cbn [fst]; [do 2 eexists; split; [exact Ho|]; split; [exact Hq|]; eexists; reflexivity|].
        destruct x as [[p s]|]; [|cbn [fst]; do 2 eexists; split; [exact Ho|]; split; [exact Hq|]; eexists; reflexivity].
        destruct (negb (blen (takeN _ b) =? _)); [cbn [fst]; do 2 eexists; split; [exact Ho|]; split; [exact Hq|]; eexists; reflexivity|].
        destruct (q_decaps o a _ s) as [[] z]; [|cbn [fst]; do 2 eexists; split; [exact Ho|]; split; [exact Hq|]; eexists; reflexivity].
        match goal with |- context [match ?m with Ok _ => _ | Err _ => _ end] => destruct m end; cbn [fst]; do 2 eexists; (split; [exact Ho|]; split; [exact Hq|]; eexists; reflexivity).
      * destruct (negb _); cbn [fst]; [do 2 eexists; split; [exact Ho|]; split; [exact Hq|]; eexists; reflexivity|].
        destruct (negb (blen (takeN _ b) =? _)); [cbn [fst]; do 2 eexists; split; [exact Ho|]; split; [exact Hq|]; eexists; reflexivity|].
        destruct (d_encaps d a _) as [[] [ct z]]; [|cbn [fst]; do 2 eexists; split; [exact Ho|]; split; [exact Hq|]; eexists; reflexivity].
        match goal with |- context [match ?m with Ok _ => _ | Err _ => _ end] => destruct m end; cbn [fst]; do 2 eexists; (split; [exact Ho|]; split; [exact Hq|]; eexists; reflexivity).
  - destruct kd as [c| |a]; cbn [kshape] in *.
    + destruct H as (m & -> & Hn). cbn [setEcKey]. destruct (ec_valid _ c n) eqn:E; cbn [fst]; eexists; split; try reflexivity; [intros ? [= <-]; exact E|exact Hn].
    + destruct H as (x & ->). eexists; reflexivity.
    + destruct H as (o & y & Ho & Hq & H). destruct r; destruct H as (x & ->); do 2 eexists; (split; [exact Ho|]; split; [exact Hq|]; eexists; reflexivity).
  - destruct kd as [c| |a]; cbn [kshape] in *.
    + destruct H as (m & -> & Hn). exists m; auto.
    + destruct H as (x & ->). cbn [setXKey]. destruct b as [s|]; [destruct (blen s =? 32)|]; eexists; reflexivity.
    + destruct H as (o & y & Ho & Hq & H). destruct r; destruct H as (x & ->); do 2 eexists; (split; [exact Ho|]; split; [exact Hq|]; eexists; reflexivity).
Qed.
Lemma reach_shape L g r k : kreach L g r k -> exists kd, group_kind L g kd /\ kshape L r kd k.
Proof.
  intros (k0 & ops & Hk & ->). apply make_kind in Hk.
  assert (E : exists kd, group_kind L g kd /\ kshape L r kd k0).
  { destruct Hk as [(c & Hg & ->)|[[Hg ->]|(o & a & Ho & Hg & ->)]]; eexists; (split; [exact Hg|]); cbn [kshape]; [eexists; split; [reflexivity|discriminate]|eauto|].
    exists o, None. split; [exact Ho|]. split; [|destruct r; eexists; reflexivity].
    destruct Hg as [[_ E]|[[_ E]|[[_ E]|[[_ E]|(o' & Ho' & [(_ & E & Hq)|(_ & E & Hq)])]]]]; try discriminate E; injection E as ->; congruence. }
  destruct E as (kd & Hg & H). exists kd. split; [exact Hg|]. clear Hk. revert k0 H. induction ops as [|o ops IH]; intros k0 H; [exact H|]. cbn [fold_left]. apply IH, kstep_shape, H.
Qed.
(** After any history, the size an object expects of the peer is its group's. *)
Theorem C87_size L g r k kd : kreach L g r k -> group_kind L g kd -> ksize k = match r with RClient => client_size L kd | RServer => server_size L kd end.
Proof.
  intros H Hg. destruct (reach_shape _ _ _ _ H) as (kd' & Hg' & Hs). rewrite (kind_fun L g kd kd' Hg Hg'). destruct kd' as [c| |a]; cbn [kshape] in Hs.
  - destruct Hs as (n & -> & _). destruct r; reflexivity.
  - destruct Hs as (x & ->). destruct r; reflexivity.
  - destruct Hs as (o & y & Ho & _ & Hs). cbn [client_size server_size]. rewrite Ho. destruct r; destruct Hs as (x & ->); reflexivity.
Qed.
(** A peer's share of another length is refused, with nothing changed, by X25519 and the hybrids. *)
Theorem C87_length L g r k d b : kreach L g r k -> g <> 23 -> g <> 24 -> g <> 25 -> blen b <> ksize k -> secret L d k b = (k, fail).
Proof.
  intros H N1 N2 N3 Hb. destruct (reach_shape _ _ _ _ H) as (kd & Hg & Hs). destruct kd as [c| |a]; cbn [kshape] in Hs.
  - destruct Hg as [[E _]|[[E _]|[[E _]|[[E Hk]|(o' & Ho' & [(E & Hk & _)|(E & Hk & _)])]]]]; try contradiction; discriminate Hk.
  - destruct Hs as (x & ->). cbn [secret ksize] in *. destruct x as [[s p]|]; [|reflexivity]. destruct (N.eqb_spec (blen b) 32); [contradiction|reflexivity].
  - destruct Hs as (o & y & Ho & _ & Hs). destruct r; destruct Hs as (x & ->); cbn [secret]; cbn [ksize] in *;
      (match goal with |- context [blen b =? ?n] => destruct (N.eqb_spec (blen b) n); [contradiction|reflexivity] end).
Qed.
(** A client's object is not changed by computing a secret, whether or not that succeeds; so the secret of a share does not depend on other shares tried before. *)
Theorem C87_client_pure L g k d b : kreach L g RClient k -> fst (secret L d k b) = k.
Proof.
  intros H. destruct (reach_shape _ _ _ _ H) as (kd & Hg & Hs). destruct kd as [c| |a]; cbn [kshape] in Hs.
  - destruct Hs as (n & -> & _). reflexivity.
  - destruct Hs as (x & ->). reflexivity.
  - destruct Hs as (o & y & Ho & _ & x & ->). cbn [secret]. destruct (negb _); [reflexivity|]. match goal with |- context [match ?m with Ok _ => _ | Err _ => _ end] => destruct m end; [|reflexivity].
    match goal with |- context [match ?m with Ok _ => _ | Err _ => _ end] => destruct m end; reflexivity.
Qed.
(** A clone is the same object; an object can be cloned as soon as it has its keys and, at a server, has made a secret. *)
Definition keyed (r : role) (k : kobj) : Prop :=
  match k with KEc _ n => n <> None | KX x => x <> None | KHybrid (KKemClient _ _ x) (KX y) => r = RClient /\ x <> None /\ y <> None | KHybrid (KKemServer _ _ x) (KX y) => r = RServer /\ x <> None /\ y <> None | _ => False end.
Theorem C87_clone L g r k : kreach L g r k -> (keyed r k -> clone L k = Ok k) /\ (~ keyed r k -> clone L k = fail) /\ (forall k', clone L k = Ok k' -> k' = k).
Proof.
  intros H. destruct (reach_shape _ _ _ _ H) as (kd & Hg & Hs). split; [|split; [|intros k'; apply clone_same]]; destruct kd as [c| |a]; cbn [kshape] in Hs.
  - destruct Hs as (n & -> & Hn). cbn [keyed]. intros Hk. destruct n as [n|]; [|contradiction]. cbn [clone]. rewrite (Hn n eq_refl). reflexivity.
  - destruct Hs as (x & ->). cbn. intros Hk. destruct x; [reflexivity|contradiction].
  - destruct Hs as (o & y & Ho & Hq & Hs). destruct r; destruct Hs as (x & ->); cbn; intros (_ & Hx & Hy); (destruct x; [|contradiction]); (destruct y; [|contradiction]); rewrite Hq; reflexivity.
  - destruct Hs as (n & -> & Hn). cbn [keyed]. intros Hk. destruct n as [n|]; [|reflexivity]. exfalso. apply Hk. discriminate.
  - destruct Hs as (x & ->). cbn. intros Hk. destruct x; [|reflexivity]. exfalso. apply Hk. discriminate.
  - destruct Hs as (o & y & Ho & Hq & Hs). destruct r; destruct Hs as (x & ->); cbn; intros Hk; (destruct x; [|reflexivity]); rewrite Hq; cbn [bind]; (destruct y; [|reflexivity]); exfalso; apply Hk; (split; [reflexivity|]); split; discriminate.
Qed.
(** Without keys there is no share and no secret. *)
Theorem C87_unkeyed L g r k d b : kreach L g r k -> ~ keyed r k -> share L k = fail /\ (r = RClient -> exists e, snd (secret L d k b) = Err e).
Proof.
  intros H. destruct (reach_shape _ _ _ _ H) as (kd & Hg & Hs). destruct kd as [c| |a]; cbn [kshape] in Hs.
  - destruct Hs as (n & -> & Hn). cbn [keyed]. intros Hk. destruct n as [n|]; [exfalso; apply Hk; discriminate|]. split; [reflexivity|]. intros _. cbn. destruct (ec_decode _ _ _); eexists; reflexivity.
  - destruct Hs as (x & ->). cbn. intros Hk. destruct x; [exfalso; apply Hk; discriminate|]. split; [reflexivity|eexists; reflexivity].
  - destruct Hs as (o & y & Ho & Hq & Hs). destruct r; destruct Hs as (x & ->); cbn [keyed]; intros Hk.
    + split.
      * cbn. destruct x as [[p s]|]; [|reflexivity]. destruct y as [[? ?]|]; [|reflexivity]. exfalso. apply Hk. split; [reflexivity|]. split; discriminate.
      * intros _. cbn [secret]. destruct (negb _); [eexists; reflexivity|]. destruct x as [[p s]|]; [|eexists; reflexivity].
        destruct y as [[? ?]|]; [exfalso; apply Hk; split; [reflexivity|]; split; discriminate|]. match goal with |- context [match ?m with Ok _ => _ | Err _ => _ end] => destruct m end; eexists; reflexivity.
    + split; [|discriminate]. cbn. destruct x; [|reflexivity]. destruct y as [[? ?]|]; [|reflexivity]. exfalso. apply Hk. split; [reflexivity|]. split; discriminate.
Qed.
(** The last key pair wins: once a pair was drawn, the share is that pair's through any series of secrets and clones. *)
Definition quiet (o : kop) : Prop := match o with KSecret _ _ | KClone => True | _ => False end.
Theorem C87_latest L g k d k1 ops : kreach L g RClient k -> generate L d k = (k1, Ok tt) -> Forall quiet ops -> fold_left (kstep L) ops k1 = k1.
Proof.
  intros (k0 & h & Hk & ->) Hgen Hq. assert (Hr : kreach L g RClient k1).
  { exists k0, (h ++ [KGenerate d]). split; [exact Hk|]. rewrite fold_left_app. cbn [fold_left kstep]. rewrite Hgen. reflexivity. }
  clear - Hr Hq. induction Hq as [|o ops Ho Hq IH]; [reflexivity|]. cbn [fold_left]. replace (kstep L k1 o) with k1; [exact IH|].
  destruct o as [?|d b|?|?|]; try contradiction; cbn [kstep]; [symmetry; eapply C87_client_pure, Hr|]. destruct (clone L k1) eqn:E; [symmetry; apply (clone_same L), E|reflexivity].
Qed.
(** A key generation that succeeds leaves what it would have made of a new object: nothing of earlier keys. *)
Theorem C87_fresh L g k d k1 k0 : kreach L g RClient k -> makeKeyExchange L g RClient = Ok k0 -> generate L d k = (k1, Ok tt) -> generate L d k0 = (k1, Ok tt).
Proof.
  intros H H0. destruct (reach_shape _ _ _ _ H) as (kd & Hg & Hs). rewrite (make_server L g kd Hg RClient) in H0. injection H0 as <-.
  destruct kd as [c| |a]; cbn [kshape] in Hs.
  - destruct Hs as (n & -> & _). cbn [generate]. destruct (d_ec d c) as [m|]; [destruct (ec_valid _ c m)|]; try discriminate. intros [= <-]. reflexivity.
  - destruct Hs as (x & ->). cbn [generate]. destruct (d_x d); [|discriminate]. intros [= <-]. reflexivity.
  - destruct Hs as (o & y & Ho & _ & x & ->). rewrite Ho. cbn [generate]. destruct (d_keypair d a) as [[] p]; [|discriminate]. destruct (d_x d); [|discriminate]. cbn [ksize]. intros E. exact E.
Qed.
(** A failed key generation keeps the keys of a curve's object or X25519's ... *)
Theorem C87_failed_keeps L g r k d k1 e : kreach L g r k -> g < 30 -> generate L d k = (k1, Err e) -> k1 = k.
Proof.
  intros H Hlt. destruct (reach_shape _ _ _ _ H) as (kd & Hg & Hs). destruct kd as [c| |a]; cbn [kshape] in Hs.
  - destruct Hs as (n & -> & _). cbn [generate]. destruct (d_ec d c) as [m|]; [destruct (ec_valid _ c m)|]; intros [= <- <-]; reflexivity.
  - destruct Hs as (x & ->). cbn. destruct (d_x d); intros [= <- <-]; reflexivity.
  - destruct Hg as [[E Hk]|[[E Hk]|[[E Hk]|[[E Hk]|(o' & Ho' & [(E & Hk & _)|(E & Hk & _)])]]]]; try discriminate Hk; lia.
Qed.
(** The first [ksize] bytes of a hybrid's share and secret are the KEM's, the rest X25519's. *)
Theorem C87_concat L g r f s d b x : kreach L g r (KHybrid f s) -> snd (secret L d (KHybrid f s) b) = Ok x ->
  exists y z, x = y ++ z /\ snd (secret L d f (takeN (ksize f) b)) = Ok y /\ snd (secret L d s (dropN (ksize f) b)) = Ok z.
Proof.
  intros H. cbn [secret]. destruct (N.eqb_spec (blen b) (ksize f + ksize s)) as [E|E]; cbn [negb]; [|discriminate].
  replace (blen b - ksize s) with (ksize f) by lia. destruct (secret L d f (takeN (ksize f) b)) as [f' [y|e]]; [|discriminate].
  destruct (secret L d s _) as [s' [z|e]]; [|discriminate]. cbn. intros [= <-]. exists y, z. auto.
Qed.

(** ** Concrete cases *)
Definition ko_ossl : ossl := mkOssl (fun c n => Some (n2b n :: repeat x00 (N.to_nat (keyShareLength c) - 1))) (fun _ b => match b with a :: _ => Some (b2n a) | [] => None end)
  (fun _ n m => Some (be 4 (n * m))) (fun _ n => (0 <? n) && (n <? 256)).
Definition ko_sodium : sodium := mkSodium (fun s => s) (fun s t => Some (be 32 (unbe s * unbe t))).
Definition ko_oqs : oqs := mkOqs (fun _ => true) (fun _ => 4) (fun _ => 4) (fun _ => 2) (fun _ c s => (true, c ++ s)).
Definition ko_libs : klibs := mkLibs ko_ossl ko_sodium (Some ko_oqs).
Definition ko_pair (_ : kemalg) (p s : bytes) : Prop := p = s /\ blen p = 4.
Definition ko_draws (ok : bool) (m : N) : draws := mkDraws (fun _ => Some m) (Some (be 32 (7 * m), be 32 (7 * m))) (fun _ => (ok, (be 4 m, be 4 m))) (fun _ p => (ok, (be 2 m, be 2 m ++ p))).
Lemma ko_lawful : lawful ko_libs ko_pair.
Proof.
  constructor.
  - intros c n m Hn Hm. cbn in *. apply andb_prop in Hn, Hm. destruct Hn as [_ Hn], Hm as [_ Hm]. apply N.ltb_lt in Hn, Hm.
    do 5 eexists. do 2 (split; [reflexivity|]). split; [destruct c; reflexivity|]. split; [destruct c; reflexivity|]. do 2 (split; [reflexivity|]).
    split; [reflexivity|]. cbv beta. rewrite !b2n_n2b by lia. rewrite N.mul_comm. reflexivity.
  - split; [auto|]. intros s t _ _. eexists. split; [reflexivity|]. cbn. rewrite N.mul_comm. reflexivity.
  - intros o [= <-]. split; [intros a; cbn; lia|]. intros a p s [-> H]. auto.
Qed.
Lemma ko_dok ok m : draws_ok ko_libs ko_pair (ko_draws ok m).
Proof.
  constructor.
  - intros s p [= <- <-]. split; reflexivity.
  - intros a p s [= _ <- <-]. split; reflexivity.
  - intros o a p c x [= <-] [= _ <- <-]. split; [reflexivity|]. intros s [-> _]. reflexivity.
Qed.
Definition ko_run (g : N) : option (bytes * bytes * bytes) :=
  match clientKex ko_libs (ko_draws true 5) g with
  | Ok x => match kx_share x with Ok b => match serverKex ko_libs (ko_draws true 9) g b with Ok (ours, z) => Some (b, ours, z) | Err _ => None end | Err _ => None end
  | Err _ => None
  end.
Example C87_met :
  option_map (fun t => let '(b, ours, z) := t in (blen b, blen ours, blen z)) (ko_run 25) = Some (133, 133, 4) /\
  option_map (fun t => let '(b, ours, z) := t in (blen b, blen ours, blen z)) (ko_run 29) = Some (32, 32, 32) /\
  option_map (fun t => let '(b, ours, z) := t in (blen b, blen ours, blen z, takeN 6 z)) (ko_run 4588) = Some (36, 34, 38, be 2 9 ++ be 4 5) /\ ko_run 26 = None /\
  exists k, kreach ko_libs 4588 RServer k /\ keyed RServer k.
Proof.
  repeat (split; [vm_compute; reflexivity|]).
  eexists. split; [eexists _, [KGenerate (ko_draws true 5); KSecret (ko_draws true 9) (be 4 5 ++ be 32 3)]; split; reflexivity|]. vm_compute. split; [reflexivity|]. split; discriminate.
Qed.
(** ... those of a hybrid are replaced by whatever the library wrote before it failed: the object goes on offering a share it has no right secret for.  A server's
    share, too, after a second secret that failed. *)
Theorem C87_failed_keeps_refuted :
  (exists k b b', kreach ko_libs 4588 RClient k /\ share ko_libs k = Ok b /\ snd (generate ko_libs (ko_draws false 6) k) = fail /\
     share ko_libs (fst (generate ko_libs (ko_draws false 6) k)) = Ok b' /\ b <> b') /\
  (exists k b b' t, kreach ko_libs 4588 RServer k /\ share ko_libs k = Ok b /\ snd (secret ko_libs (ko_draws false 6) k t) = fail /\
     share ko_libs (fst (secret ko_libs (ko_draws false 6) k t)) = Ok b' /\ b <> b').
Proof.
  split.
  - eexists _, _, _. split; [eexists _, [KGenerate (ko_draws true 5)]; split; reflexivity|]. do 3 (split; [reflexivity|]). intros E. apply (f_equal (takeN 4)) in E. vm_compute in E. discriminate E.
  - eexists _, _, _, (be 4 5 ++ be 32 3). split; [eexists _, [KGenerate (ko_draws true 5); KSecret (ko_draws true 9) (be 4 5 ++ be 32 3)]; split; reflexivity|].
    do 3 (split; [reflexivity|]). intros E. apply (f_equal (takeN 2)) in E. vm_compute in E. discriminate E.
Qed.
(** For the curves the length is left to OpenSSL's decoder: a share of a shorter encoding is accepted where the decoder takes it. *)
Theorem C87_length_refuted : exists k b x, kreach ko_libs 23 RServer k /\ snd (secret ko_libs (ko_draws true 5) k b) = Ok x /\ blen b < ksize k.
Proof. eexists _, [x02; x11], _. split; [eexists _, [KGenerate (ko_draws true 5)]; split; reflexivity|]. split; [reflexivity|]. vm_compute. reflexivity. Qed.
