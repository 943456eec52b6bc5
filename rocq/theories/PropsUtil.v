(** * C88: FizzUtil's protocol lists, ciphers and keys; C89: padding and the client's delegated credentials *)
From Coq Require Import ZArith.
From Verif Require Import Base Codec CodecSpec HandshakeSpec Hkdf HkdfSpec HkdfProofs Record RecordSpec Token Ticket TicketSpec PropsTicket PropsKeys HexLog PropsHexLog KexObj PropsKexObj Handshake Extensions ExtensionsProofs ExtensionsSpec
  HandshakeProofs DualTicket PropsDualTicket PropsDelegCred2 Str Util.
Open Scope N_scope.

(** ** C88 *)
(** The list taken is that of the last item heavier than the first, or the first item's. *)
Theorem C88_alpn l r : getAlpnsFromNpnList l = Ok r <->
  exists x rest, l = x :: rest /\
    (((forall i, In i rest -> (np_weight i <= np_weight x)%Z) /\ r = np_protocols x) \/
     exists a i b, rest = a ++ i :: b /\ (np_weight x < np_weight i)%Z /\ (forall j, In j b -> (np_weight j <= np_weight x)%Z) /\ r = np_protocols i).
Proof.
  destruct l as [|x rest]; cbn [getAlpnsFromNpnList]; [split; [discriminate|intros (x & rest & [=] & _)]|]. cbn [fold_left]. rewrite Z.ltb_irrefl.
  assert (S : forall l b0, let best := fold_left (fun best i => if (np_weight x <? np_weight i)%Z then i else best) l b0 in
    ((forall i, In i l -> (np_weight i <= np_weight x)%Z) /\ best = b0) \/ exists a i b, l = a ++ i :: b /\ (np_weight x < np_weight i)%Z /\ (forall j, In j b -> (np_weight j <= np_weight x)%Z) /\ best = i).
  { induction l as [|i l IH]; intros b0; cbn [fold_left]; [left; split; [intros ? []|reflexivity]|]. destruct (Z.ltb_spec (np_weight x) (np_weight i)) as [E|E].
    - destruct (IH i) as [[A B]|(a & j & b & -> & A)]; [right; exists [], i, l; auto|right; exists (i :: a), j, b; split; [reflexivity|exact A]].
    - destruct (IH b0) as [[A B]|(a & j & b & -> & A)]; [left; split; [intros j [<-|Hj]; auto|exact B]|right; exists (i :: a), j, b; split; [reflexivity|exact A]]. }
  specialize (S rest x). cbv zeta in S. set (best := fold_left _ rest x) in *. clearbody best. split.
  - intros [= <-]. exists x, rest. split; [reflexivity|]. destruct S as [[A ->]|(a & i & b & H1 & H2 & H3 & ->)]; [left; auto|right; exists a, i, b; auto].
  - intros (x' & rest' & [= <- <-] & H). f_equal. destruct S as [[A ->]|(a & i & b & H1 & H2 & H3 & ->)]; destruct H as [[B ->]|(a' & i' & b' & H1' & H2' & H3' & ->)].
    + reflexivity.
    + specialize (A i'). rewrite H1' in A. specialize (A ltac:(apply in_or_app; right; left; reflexivity)). lia.
    + specialize (B i). rewrite H1 in B. specialize (B ltac:(apply in_or_app; right; left; reflexivity)). lia.
    + subst rest. assert (E : i = i').
      { clear -H1' H2 H2' H3 H3'. revert a' H1'. induction a as [|y a IH]; intros [|z a'] H1'; cbn [app] in H1'; injection H1' as E H1'; [congruence| | |eapply IH; exact H1'].
        - subst. specialize (H3 i' ltac:(apply in_or_app; right; left; reflexivity)). lia.
        - subst. specialize (H3' i ltac:(apply in_or_app; right; left; reflexivity)). lia. }
      subst i'. reflexivity.
Qed.
(** That is a heaviest item's list if no two items are heavier than the first. *)
Theorem C88_alpn_heaviest x rest r : getAlpnsFromNpnList (x :: rest) = Ok r ->
  (forall a i b j c, rest = a ++ i :: b ++ j :: c -> (np_weight i <= np_weight x)%Z \/ (np_weight j <= np_weight x)%Z) ->
  exists i, In i (x :: rest) /\ r = np_protocols i /\ forall j, In j (x :: rest) -> (np_weight j <= np_weight i)%Z.
Proof.
  intros H U. apply C88_alpn in H. destruct H as (x' & rest' & [= <- <-] & [[A ->]|(a & i & b & E & A & B & ->)]).
  - exists x. split; [left; reflexivity|]. split; [reflexivity|]. intros j [<-|Hj]; [lia|auto].
  - exists i. split; [right; rewrite E; apply in_or_app; right; left; reflexivity|]. split; [reflexivity|]. intros j [<-|Hj]; [lia|]. rewrite E in Hj. apply in_app_or in Hj. destruct Hj as [Hj|[<-|Hj]]; [|lia|specialize (B j Hj); lia].
    apply in_split in Hj. destruct Hj as (p & q & ->). specialize (U p j q i b). rewrite E, <- app_assoc in U. destruct (U eq_refl); lia.
Qed.
(** Refuted in general: "we use the highest weighted list" (FizzUtil.h). *)
Theorem C88_alpn_heaviest_refuted : exists l i, getAlpnsFromNpnList l = Ok (np_protocols i) /\ In i l /\ exists j, In j l /\ (np_weight i < np_weight j)%Z /\ np_protocols j <> np_protocols i.
Proof.
  exists [mkNpn 1 [str "a"]; mkNpn 9 [str "h2"]; mkNpn 2 [str "http/1.1"]], (mkNpn 2 [str "http/1.1"]). split; [reflexivity|]. split; [right; right; left; reflexivity|].
  exists (mkNpn 9 [str "h2"]). split; [right; left; reflexivity|]. split; [reflexivity|discriminate].
Qed.

(** The secrets a cipher is made with: the current one unless it is empty, then the old, then the new ones *)
Definition listed (old : list bytes) (current : bytes) (new : list bytes) (s : bytes) : Prop := (s = current /\ s <> []) \/ In s old \/ In s new.
Definition ticket_contexts (psk : option bytes) : list bytes := str "Fizz Ticket Codec v2" :: match psk with Some c => [c] | None => [] end.
Lemma compile_in old cur new s : In s (compileSecrets old cur new) <-> listed old cur new s.
Proof.
  unfold compileSecrets, listed. rewrite !in_app_iff. destruct cur as [|c cur]; cbn [In]; split; intros H.
  - destruct H as [[]|H]; auto.
  - destruct H as [[-> []]|H]; auto.
  - destruct H as [[<-|[]]|H]; auto. left. split; [reflexivity|discriminate].
  - destruct H as [[-> _]|H]; auto.
Qed.
Lemma long_forallb (l : list bytes) : (forall s, In s l -> 32 <= blen s) <-> forallb (fun s => 32 <=? blen s) l = true.
Proof. rewrite forallb_forall. split; intros H s Hs; specialize (H s Hs); [apply N.leb_le, H|apply N.leb_le in H; exact H]. Qed.
Lemma create_run h old cur new psk label : createTokenCipher h old cur new psk label = tok_run h (mkToken [] (contexts label psk)) [compileSecrets old cur new].
Proof. unfold createTokenCipher. cbn [tok_run]. destruct (setSecrets h _ _) as [[t b]|]; reflexivity. Qed.
Lemma in_force_all old cur new : (forall s, listed old cur new s -> 32 <= blen s) -> in_force [] [compileSecrets old cur new] = compileSecrets old cur new.
Proof. intros H. cbn [in_force]. replace (forallb _ _) with true; [reflexivity|]. symmetry. apply long_forallb. intros s Hs. apply H, compile_in, Hs. Qed.
Lemma ctx_ne label psk : contexts label psk <> []. Proof. discriminate. Qed.

(** Rotation: what was sealed by a cipher whose current secret is [cur1] is opened by every cipher that lists [cur1] - as its current, an old or a new secret -,
    whatever else either lists, if the contexts are the same and no other secret of the second opens it by chance. *)
Theorem C88_rotation h gcm old1 cur1 new1 old2 cur2 new2 psk label t1 t2 salt pt ad tok :
  hash_ok h -> (forall k iv, opens (gcm k iv) (gcm k iv)) -> cur1 <> [] ->
  (forall s, listed old1 cur1 new1 s -> 32 <= blen s) -> (forall s, listed old2 cur2 new2 s -> 32 <= blen s) -> listed old2 cur2 new2 cur1 ->
  createTokenCipher h old1 cur1 new1 psk label = Ok t1 -> createTokenCipher h old2 cur2 new2 psk label = Ok t2 ->
  blen salt = 32 -> tok_encrypt h gcm t1 salt pt ad = Ok (Some tok) ->
  (forall s, listed old2 cur2 new2 s -> s <> cur1 -> ae_try (token_aead h gcm (contexts label psk) s salt) (dropN 36 tok) ad 0 = Ok None) ->
  tok_decrypt h gcm t2 tok ad = Ok (Some pt).
Proof.
  intros Hh Hg Hc L1 L2 Hl H1 H2 Hs He Ho. rewrite create_run in H1, H2. pose proof (in_force_all _ _ _ L1) as F1. pose proof (in_force_all _ _ _ L2) as F2.
  apply compile_in in Hl. assert (Hd : exists pre post, compileSecrets old2 cur2 new2 = pre ++ cur1 :: post /\ ~ In cur1 pre).
  { clear -Hl. induction (compileSecrets old2 cur2 new2) as [|y l IH]; [destruct Hl|]. destruct (bytes_eqb y cur1) eqn:E.
    - apply bytes_eqb_eq in E. subst. exists [], l. split; [reflexivity|intros []].
    - destruct Hl as [->|Hl]; [rewrite (proj2 (bytes_eqb_eq cur1 cur1) eq_refl) in E; discriminate E|]. destruct (IH Hl) as (p & q & -> & N). exists (y :: p), q. split; [reflexivity|].
      intros [->|K]; [rewrite (proj2 (bytes_eqb_eq cur1 cur1) eq_refl) in E; discriminate E|auto]. }
  destruct Hd as (pre & post & Ed & Np).
  assert (Ef : exists rest, compileSecrets old1 cur1 new1 = cur1 :: rest) by (unfold compileSecrets; destruct cur1; [contradiction|eexists; reflexivity]). destruct Ef as (rest & Ef).
  eapply (C22_roundtrip h gcm (contexts label psk) _ _ t1 t2 cur1 rest pre post salt pt ad tok Hh (ctx_ne _ _) Hg H1 (eq_trans F1 Ef) H2 (eq_trans F2 Ed) Hs He).
  intros s Hi. apply Ho; [apply compile_in; rewrite Ed; apply in_or_app; left; exact Hi|]. intros ->. contradiction.
Qed.
(** What a cipher opens was sealed under one of the secrets listed and its contexts. *)
Theorem C88_only h gcm old cur new psk label t tok ad p : hash_ok h -> (forall k iv, authentic (gcm k iv)) ->
  createTokenCipher h old cur new psk label = Ok t -> tok_decrypt h gcm t tok ad = Ok (Some p) ->
  exists s salt seq c, listed old cur new s /\ blen salt = 32 /\ tok = salt ++ be 4 seq ++ c /\ ae_enc (token_aead h gcm (contexts label psk) s salt) p ad seq = Ok c.
Proof.
  intros Hh Ha H Hd. rewrite create_run in H. destruct (C22_foreign_rejected h gcm _ _ t tok ad p Hh (ctx_ne _ _) Ha H Hd) as (s & salt & q & c & Hi & A).
  exists s, salt, q, c. split; [|exact A]. apply compile_in. cbn [in_force] in Hi. destruct (forallb _ _); [exact Hi|destruct Hi].
Qed.
(** One secret that is too short, wherever it is listed, and the cipher made seals and opens nothing, silently. *)
Theorem C88_too_short h gcm old cur new psk label s : hash_ok h -> listed old cur new s -> blen s < 32 ->
  exists t, createTokenCipher h old cur new psk label = Ok t /\ forall salt pt tok ad, tok_encrypt h gcm t salt pt ad = Ok None /\ tok_decrypt h gcm t tok ad = Ok None.
Proof.
  intros Hh Hl Hs. exists (mkToken [] (contexts label psk)). split; [|intros; apply C22_no_secrets]. unfold createTokenCipher. rewrite C22_update by exact Hh.
  replace (forallb _ _) with false; [reflexivity|]. symmetry. apply not_true_is_false. intros E. apply long_forallb with (s := s) in E; [lia|]. apply compile_in, Hl.
Qed.
(** A ticket cipher has the codec's label, then the application's context, as contexts. *)
Theorem C88_ticket h old cur new psk : createTicketCipher h old cur new psk = createTokenCipher h old cur new psk (str "Fizz Ticket Codec v2") /\ contexts (str "Fizz Ticket Codec v2") psk = ticket_contexts psk.
Proof. split; reflexivity. Qed.
(** Refuted: tickets are never sealed under an old secret.  Without a current secret the first old one is used. *)
Theorem C88_old_seals_refuted : exists old new t, createTicketCipher toy_hash old [] new None = Ok t /\ new <> [] /\
  tk_secrets t = map (token_secret toy_hash (ticket_contexts None)) (old ++ new) /\ length old = 1%nat.
Proof.
  exists [be 32 1], [be 32 2]. eexists. split; [|split; [discriminate|split; [|reflexivity]]].
  - unfold createTicketCipher, createTokenCipher. rewrite C22_update by exact toy_hash_ok. reflexivity.
  - reflexivity.
Qed.

(** Keys from text.  For X25519 the text is the hexadecimal form of 32 bytes, in either case. *)
Theorem C88_x25519 L pem b k : createKeyExchangeFromBuf L pem 32 b = Ok (Some k) <-> exists s, hex_of b s /\ blen s = 32 /\ k = KX (Some (s, x_base (l_sodium L) s)).
Proof.
  unfold createKeyExchangeFromBuf, kem_p256, kem_p384, kem_p521, kem_x25519. cbn [N.eqb Pos.eqb]. destruct (unhexlify b) as [s|e] eqn:E.
  - cbn [setXKey]. destruct (N.eqb_spec (blen s) 32) as [Hs|Hs]; cbn [bind]; split.
    + intros [= <-]. exists s. split; [apply C83_unhexlify, E|]. auto.
    + intros (s' & Hx & _ & ->). apply C83_unhexlify in Hx. assert (s' = s) as -> by congruence. reflexivity.
    + discriminate.
    + intros (s' & Hx & Hl & ->). apply C83_unhexlify in Hx. assert (s' = s) as -> by congruence. contradiction.
  - split; [discriminate|]. intros (s & Hx & _). apply C83_unhexlify in Hx. congruence.
Qed.
Definition curve_kem (c : curve) : N := match c with P256 => 16 | P384 => 17 | P521 => 18 end.
Theorem C88_curve L pem c b k : createKeyExchangeFromBuf L pem (curve_kem c) b = Ok (Some k) <-> exists n, pem b = Some n /\ ec_valid (l_ossl L) c n = true /\ k = KEc c (Some n).
Proof.
  assert (E : createKeyExchangeFromBuf L pem (curve_kem c) b = ecFromBuf L pem c b) by (destruct c; reflexivity). rewrite E. unfold ecFromBuf. destruct (pem b) as [n|]; [|split; [discriminate|intros (n & [=] & _)]].
  cbn [setEcKey]. destruct (ec_valid (l_ossl L) c n) eqn:V; cbn [bind]; split.
  - intros [= <-]. eauto.
  - intros (m & [= <-] & _ & ->). reflexivity.
  - discriminate.
  - intros (m & [= <-] & V' & _). congruence.
Qed.
(** No object is made of anything that is not a key of one of the four - though for other KEMs the call succeeds, with no object. *)
Theorem C88_other L pem kem b : kem <> 16 -> kem <> 17 -> kem <> 18 -> kem <> 32 -> createKeyExchangeFromBuf L pem kem b = Ok None.
Proof.
  intros A B C D. unfold createKeyExchangeFromBuf, kem_p256, kem_p384, kem_p521, kem_x25519. rewrite (proj2 (N.eqb_neq _ _) A), (proj2 (N.eqb_neq _ _) B), (proj2 (N.eqb_neq _ _) C), (proj2 (N.eqb_neq _ _) D). reflexivity.
Qed.
Theorem C88_none L pem kem b : createKeyExchangeFromBuf L pem kem b = Ok None <-> (kem <> 16 /\ kem <> 17 /\ kem <> 18 /\ kem <> 32).
Proof.
  split; [|intros (A & B & C & D); apply C88_other; assumption]. unfold createKeyExchangeFromBuf, kem_p256, kem_p384, kem_p521, kem_x25519, ecFromBuf.
  destruct (N.eqb_spec kem 16); [|destruct (N.eqb_spec kem 17); [|destruct (N.eqb_spec kem 18); [|destruct (N.eqb_spec kem 32); [|auto]]]];
    try (destruct (pem b) as [v|]; [cbn [setEcKey]; match goal with |- context [ec_valid ?o ?c v] => destruct (ec_valid o c v) end|]; cbn; discriminate).
  destruct (unhexlify b) as [v|]; [cbn [setXKey]; destruct (blen v =? 32)|]; cbn; discriminate.
Qed.
(** A pair written by generateKeypairCurve25519 is read back: the object's share is the public key written, and with any key [t] it has the secret of [t] with that
    public key. *)
Theorem C88_keypair L P pem s p tp ts : lawful L P -> blen s = 32 -> p = x_base (l_sodium L) s -> generateKeypairCurve25519 (Some (s, p)) = Ok (tp, ts) ->
  exists k, createKeyExchangeFromBuf L pem 32 ts = Ok (Some k) /\ share L k = Ok p /\ unhexlify tp = Ok p /\ blen tp = 64 /\ blen ts = 64 /\
    forall d t, blen t = 32 -> exists z, snd (secret L d k (x_base (l_sodium L) t)) = Ok z /\ x_mult (l_sodium L) t p = Some z.
Proof.
  intros HL Hs -> E. unfold generateKeypairCurve25519 in E. injection E as <- <-. destruct (lw_x L P HL) as [B M]. destruct (C83_hexlify s) as (Hx & _ & Ls & _). destruct (C83_hexlify (x_base (l_sodium L) s)) as (_ & Hu & Lp & _).
  exists (KX (Some (s, x_base (l_sodium L) s))). split; [apply C88_x25519; exists s; auto|]. split; [reflexivity|]. split; [exact Hu|]. split; [rewrite Lp, (B s Hs); reflexivity|]. split; [rewrite Ls, Hs; reflexivity|].
  intros d t Ht. destruct (M s t Hs Ht) as (z & M1 & M2). exists z. split; [|exact M2]. cbn [secret snd]. rewrite (B t Ht), M1. reflexivity.
Qed.
Example C88_met :
  (t1 <- createTicketCipher toy_hash [exs 1] (exs 2) [exs 3] (Some (str "app")) ;; t2 <- createTicketCipher toy_hash [exs 2] (exs 3) [exs 4] (Some (str "app")) ;;
   e <- tok_encrypt toy_hash toy_gcm t1 (be 32 77) [x05; x06] None ;; match e with Some k => tok_decrypt toy_hash toy_gcm t2 k None | None => fail end) = Ok (Some [x05; x06]) /\
  (t1 <- createTicketCipher toy_hash [exs 1] (exs 2) [[x01]] None ;; tok_encrypt toy_hash toy_gcm t1 (be 32 77) [x05; x06] None) = Ok None /\
  (x <- generateKeypairCurve25519 (Some (be 32 7, be 32 7)) ;; k <- createKeyExchangeFromBuf ko_libs (fun _ => None) 32 (snd x) ;; match k with Some y => share ko_libs y | None => fail end) = Ok (be 32 7) /\
  createKeyExchangeFromBuf ko_libs (fun _ => None) 32 (repeat x30 63) = Err EThrow /\ createKeyExchangeFromBuf ko_libs (fun _ => None) 32 (repeat x30 62) = fail /\
  getAlpnsFromNpnList [mkNpn 1 [str "a"]; mkNpn 2 [str "h2"]] = Ok [str "h2"].
Proof. repeat (split; [vm_compute; reflexivity|]). reflexivity. Qed.

(** ** C89 *)
(** The padding extension, anywhere among a hello's extensions, takes the number of bytes asked for (at least the four of its header), all zero after the
    header; the hello cannot be written exactly if its extensions then exceed 65535 bytes. *)
Theorem C89_padding total l b : total < 2 ^ 16 -> wf_exts l = true -> write_exts l = Ok b ->
  (blen b + N.max 4 total < 2 ^ 16 + 2 ->
   exists n, 4 + n = N.max 4 total /\
     write_exts (l ++ [paddingExtension total]) = Ok (be 2 (blen b - 2 + N.max 4 total) ++ dropN 2 b ++ be 2 21 ++ be 2 n ++ repeat x00 (N.to_nat n))) /\
  (2 ^ 16 + 2 <= blen b + N.max 4 total -> forall b', write_exts (l ++ [paddingExtension total]) <> Ok b').
Proof.
  intros H Hw Hb. apply write_exts_inv in Hb; [|exact Hw]. destruct Hb as [Hf ->]. change (2 ^ 16) with 65536 in *. unfold paddingExtension. change (2 + 2) with 4.
  set (n := if total <? 4 then 0 else total - 4). assert (Hn : 4 + n = N.max 4 total) by (unfold n; destruct (N.ltb_spec total 4); lia). rewrite <- Hn.
  set (e := mkExt 21 (Some (repeat x00 (N.to_nat n)))). assert (Hr : blen (repeat x00 (N.to_nat n)) = n) by (rewrite blen_repeat; lia).
  assert (We : w_ext e = be 2 21 ++ be 2 n ++ repeat x00 (N.to_nat n)) by (unfold w_ext, e, opaque, tls_vec; cbn [ext_type ext_data bufbytes]; rewrite Hr; reflexivity).
  assert (Le : blen (w_ext e) = 4 + n) by (rewrite We, !blen_app, Hr; change (blen (be 2 21)) with 2; change (blen (be 2 n)) with 2; lia).
  unfold w_exts, tls_list, tls_vec. set (B := concat (map w_ext l)) in *.
  assert (Ec : concat (map w_ext (l ++ [e])) = B ++ w_ext e) by (rewrite map_app, concat_app; cbn; rewrite app_nil_r; reflexivity).
  assert (Lb : blen (be 2 (blen B) ++ B) = 2 + blen B) by (rewrite blen_app; reflexivity). rewrite Lb.
  assert (Wl : wf_exts (l ++ [e]) = true) by (unfold wf_exts in *; rewrite forallb_app, Hw; reflexivity). split.
  - intros Hs. exists n. split; [lia|]. rewrite write_exts_ok; [|exact Wl|].
    + unfold w_exts, tls_list, tls_vec. rewrite Ec, blen_app, Le, We. rewrite (dropN_app (be 2 (blen B)) B 2 eq_refl). replace (2 + blen B - 2 + (4 + n)) with (blen B + (4 + n)) by lia. reflexivity.
    + unfold fit_exts in *. rewrite Ec, blen_app, Le, forallb_app. apply andb_prop in Hf. destruct Hf as [Hf _]. rewrite Hf. cbn [forallb andb]. unfold e, ofits. cbn [ext_data bufbytes]. rewrite Hr. unfold fits_len. apply andb_true_intro.
      split; [rewrite andb_true_r|]; apply N.ltb_lt; change (2 ^ (8 * N.of_nat 2)) with 65536; lia.
  - intros Hs b' Hb'. apply write_exts_inv in Hb'; [|exact Wl]. destruct Hb' as [Hf' _]. unfold fit_exts in Hf'. apply andb_prop in Hf'. destruct Hf' as [_ Hf']. rewrite Ec, blen_app, Le in Hf'. unfold fits_len in Hf'. apply N.ltb_lt in Hf'.
    change (2 ^ (8 * N.of_nat 2)) with 65536 in Hf'. lia.
Qed.

(** What was added of each kind, in order *)
Definition dcc_dcs (ops : list dccop) : list (bool * option scert) := flat_map (fun o => match o with DccAddDc b c => [(b, c)] | DccAdd _ _ => [] end) ops.
Definition dcc_plains (ops : list dccop) : list (bool * option scert) := flat_map (fun o => match o with DccAdd b c => [(b, c)] | DccAddDc _ _ => [] end) ops.
Definition dccRun (ops : list dccop) : dcclient := fold_left dccStep ops (mkDcc [] []).
(** The choice of C76 from what was added, for the peer's schemes [peer] *)
Definition chosen (hist : list (bool * option scert)) (supported peer : list N) (c : scert) (s : N) : Prop :=
  exists x y, supported = x ++ s :: y /\ In s peer /\ for_scheme hist s c /\ forall k, In k x -> ~ (In k peer /\ offered hist k).
Definition nothing (hist : list (bool * option scert)) (supported peer : list N) : Prop := forall s, In s supported -> In s peer -> ~ offered hist s.
Lemma dccRun_maps ops : dccRun ops = mkDcc (cmRun (dcc_dcs ops)) (cmRun (dcc_plains ops)).
Proof.
  unfold dccRun. induction ops as [|o ops IH] using rev_ind; [reflexivity|]. rewrite fold_left_app, IH. cbn [fold_left]. unfold dcc_dcs, dcc_plains. rewrite !flat_map_app. cbn [flat_map].
  destruct o as [b c|b c]; cbn [dccStep dcc_creds dcc_plain]; rewrite ?app_nil_r, ?cmRun_snoc; reflexivity.
Qed.
Lemma dcc_get ops sup peer exts r : dccGetCert (dccRun ops) sup peer exts = Ok r ->
  (exists l, offers_dc exts l /\ r = match clientGetCert (cmRun (dcc_dcs ops)) sup l with Some x => Some x | None => clientGetCert (cmRun (dcc_plains ops)) sup peer end) \/
  ((forall e, In e exts -> ext_type e <> 34) /\ r = clientGetCert (cmRun (dcc_plains ops)) sup peer).
Proof.
  rewrite dccRun_maps. unfold dccGetCert. cbn [dcc_creds dcc_plain]. intros H. apply bind_Ok in H. destruct H as ([x|] & Hx & H).
  - pose proof (proj1 (getExtension_strict _ _ _ Hx)) as Hk. destruct x as [ | | | | | | | | | | | | | | | | | | | | | | | |l| ]; try discriminate Hk. apply offers_of in Hx. injection H as <-. left. exists l. auto.
  - injection H as <-. right. split; [|reflexivity]. apply getExtension_none in Hx. change (kind_type KDelegatedCredentialSupport) with 34 in Hx. apply PropsDelegCred.no_type_in, Hx.
Qed.
(** A delegated credential is used exactly if the server announced the extension and one was added for a scheme of ours that it lists there; then it is the one
    C76 describes for those schemes; otherwise the certificate C76 describes for the schemes of the request. *)
Theorem C89_choice ops sup peer exts c s : dccGetCert (dccRun ops) sup peer exts = Ok (Some (c, s)) ->
  (exists l, offers_dc exts l /\ chosen (dcc_dcs ops) sup l c s) \/
  (((forall e, In e exts -> ext_type e <> 34) \/ exists l, offers_dc exts l /\ nothing (dcc_dcs ops) sup l) /\ chosen (dcc_plains ops) sup peer c s).
Proof.
  intros H. destruct (dcc_get _ _ _ _ _ H) as [(l & Ho & E)|[Hn E]].
  - destruct (clientGetCert (cmRun (dcc_dcs ops)) sup l) as [[c' s']|] eqn:G.
    + injection E as -> ->. left. exists l. split; [exact Ho|]. apply C76_choice, G.
    + right. split; [right; exists l; split; [exact Ho|exact (proj1 (C76_none _ _ _) G)]|]. symmetry in E. apply C76_choice, E.
  - right. split; [left; exact Hn|]. symmetry in E. apply C76_choice, E.
Qed.
Theorem C89_none ops sup peer exts : dccGetCert (dccRun ops) sup peer exts = Ok None ->
  nothing (dcc_plains ops) sup peer /\ ((forall e, In e exts -> ext_type e <> 34) \/ exists l, offers_dc exts l /\ nothing (dcc_dcs ops) sup l).
Proof.
  intros H. destruct (dcc_get _ _ _ _ _ H) as [(l & Ho & E)|[Hn E]].
  - destruct (clientGetCert (cmRun (dcc_dcs ops)) sup l) as [[c' s']|] eqn:G; [discriminate E|]. symmetry in E. split; [exact (proj1 (C76_none _ _ _) E)|]. right. exists l. split; [exact Ho|exact (proj1 (C76_none _ _ _) G)].
  - symmetry in E. split; [exact (proj1 (C76_none _ _ _) E)|left; exact Hn].
Qed.
(** It answers whenever the extension is absent or readable. *)
Theorem C89_answers ops sup peer exts : (forall e, In e exts -> ext_type e <> 34) \/ (exists l, offers_dc exts l /\ 2 * N.of_nat (length l) < 2 ^ 16) -> exists r, dccGetCert (dccRun ops) sup peer exts = Ok r.
Proof.
  intros [H|(l & H & Hn)]; unfold dccGetCert.
  - apply PropsDelegCred.no_type_in in H. change 34 with (kind_type KDelegatedCredentialSupport) in H. apply getExtension_none in H. rewrite H. eexists. reflexivity.
  - rewrite (getExtension_offers _ _ H Hn). eexists. reflexivity.
Qed.
(** The certificates added are always there: hasDelegatedCredential says whether a delegated credential with a scheme was ever added. *)
Theorem C89_has ops : dccHas (dccRun ops) = true <-> exists s, offered (dcc_dcs ops) s.
Proof.
  rewrite dccRun_maps. unfold dccHas, hasCerts. cbn [dcc_creds]. destruct (cmRun (dcc_dcs ops)) as [|[k c] r] eqn:E.
  - split; [discriminate|]. intros (s & Hs). exfalso. destruct (cmRun_find (dcc_dcs ops) s) as [_ F]. rewrite E in F. exact (F eq_refl Hs).
  - split; [intros _; exists k|reflexivity]. destruct (cmRun_find (dcc_dcs ops) k) as [F _]. rewrite E in F. cbn [cmFind] in F. rewrite N.eqb_refl in F. destruct (F c eq_refl) as [K|[_ K]]; [exact (offered_over _ _ _ K)|exact (offered_first _ _ _ K)].
Qed.
(** Without the extension, or without delegated credentials, it is the plain manager. *)
Theorem C89_plain ops sup peer exts r : (forall e, In e exts -> ext_type e <> 34) \/ dcc_dcs ops = [] -> dccGetCert (dccRun ops) sup peer exts = Ok r -> r = clientGetCert (cmRun (dcc_plains ops)) sup peer.
Proof.
  intros Hd H. destruct (dcc_get _ _ _ _ _ H) as [(l & Ho & E)|[Hn E]]; [|exact E]. destruct Hd as [Hd|Hd].
  - destruct Ho as (rest & (pre & post & -> & _) & _). exfalso. eapply Hd; [apply in_or_app; right; left; reflexivity|reflexivity].
  - rewrite Hd in E. replace (clientGetCert (cmRun []) sup l) with (@None (scert * N)) in E; [exact E|]. symmetry. apply C76_none. intros s _ _ (p & c & [] & _).
Qed.
(** Refuted: our own order of schemes decides between a delegated credential and a certificate; the delegated credential goes first even for our last scheme. *)
Theorem C89_order_refuted : exists ops sup peer exts c, dccGetCert (dccRun ops) sup peer exts = Ok (Some (c, 2052)) /\ sup = [1027; 2052] /\ offered (dcc_plains ops) 1027 /\ In 1027 peer.
Proof.
  exists [DccAdd false (Some (mkSc 1 [1027])); DccAddDc false (Some (mkSc 2 [2052]))], [1027; 2052], [1027; 2052], [mkExt 34 (Some (be 2 2 ++ be 2 2052))], (mkSc 2 [2052]).
  split; [vm_compute; reflexivity|]. split; [reflexivity|]. split; [|left; reflexivity]. exists false, (mkSc 1 [1027]). split; [left; reflexivity|left; reflexivity].
Qed.
Example C89_met : let ops := [DccAdd false (Some (mkSc 1 [1027])); DccAddDc false (Some (mkSc 2 [2052])); DccAddDc true (Some (mkSc 3 [2052; 1027]))] in
  map (fun ex => dccGetCert (dccRun ops) [1027; 2052] [1027; 2052] ex) [[]; [mkExt 34 (Some (be 2 2 ++ be 2 2052))]; [mkExt 34 (Some (be 2 2 ++ be 2 1025))]; [mkExt 34 (Some [x00])]] =
    [Ok (Some (mkSc 1 [1027], 1027)); Ok (Some (mkSc 3 [2052; 1027], 2052)); Ok (Some (mkSc 1 [1027], 1027)); Err EThrow] /\ dccHas (dccRun ops) = true /\
  write_exts [paddingExtension 7; paddingExtension 2] = Ok (be 2 11 ++ be 2 21 ++ be 2 3 ++ [x00; x00; x00] ++ be 2 21 ++ be 2 0).
Proof. vm_compute. repeat split. Qed.
