(** * C72: token binding *)
From Verif Require Import Base Codec CodecSpec Handshake Extensions ExtensionsSpec ExtensionsProofs Negotiate PropsCodec TokenBinding.
Open Scope N_scope.

(** ** Specification *)
(** RFC 8471, 3.3: what is signed: the type, the key parameters and the exported keying material. *)
Definition signed_data (type params : N) (ekm : bytes) : bytes := be 1 type ++ be 1 params ++ ekm.
(** The signature [sg] under [key] (both as on the wire) is one over [msg].  ECDSA: RFC 8471, 3.2 and 3.3: a length byte 64 and the point; r and s of 32 bytes
    each.  What follows the point and s is not looked at; an Ed25519 key must be of one piece, what follows in further pieces is not looked at. *)
Inductive signs (O : tbossl) (peek : N) (params : N) (key sg msg : bytes) : Prop :=
| signs_ec xy j1 p r s j2 : params = 2 -> key = x40 :: xy ++ j1 -> blen xy = 64 -> to_point O (x04 :: xy) = Some p ->
    sg = be 32 r ++ be 32 s ++ j2 -> r < 256 ^ 32 -> s < 256 ^ 32 -> to_ecverify O p (to_sha256 O msg) r s = true -> signs O peek params key sg msg
| signs_ed k j : params = 239 -> key = x20 :: k ++ j -> blen k = 32 -> N.min peek (blen (k ++ j)) = 32 -> to_edverify O k msg sg = true -> signs O peek params key sg msg.
(** A token binding as decoded: no null pointers, fields in range. *)
Definition nb (b : buf) : bool := match b with Some _ => true | None => false end.
Definition wf_id (i : tbid) : bool := in_u 1 (ti_params i) && nb (ti_key i).
Definition wf_tb (t : tbind) : bool := in_u 1 (tb_type t) && wf_id (tb_id t) && nb (tb_sig t) && nb (tb_exts t).
(** The wire form (RFC 8471, 3.1). *)
Definition w_id (i : tbid) : bytes := be 1 (ti_params i) ++ tls_vec 2 (bufbytes (ti_key i)).
Definition w_tb (t : tbind) : bytes := be 1 (tb_type t) ++ w_id (tb_id t) ++ tls_vec 2 (bufbytes (tb_sig t)) ++ tls_vec 2 (bufbytes (tb_exts t)).
Definition small (b : buf) : bool := blen (bufbytes b) <? 65536.
Definition fit_tb (t : tbind) : bool := small (ti_key (tb_id t)) && small (tb_sig t) && small (tb_exts t).
(** A usable configuration: versions and parameters in range, what setSupportedVersions accepts. *)
Definition good_ctx (c : tbctx) : Prop :=
  setSupportedVersions c (tc_versions c) = Ok c /\ forallb (in_u 2) (tc_versions c) = true /\ forallb (in_u 1) (tc_params c) = true /\ blen (tc_params c) < 256.

(** ** Proofs *)
Lemma unbe_inv (b : bytes) : blen b = 32 -> b = be 32 (unbe b) /\ unbe b < 256 ^ 32.
Proof.
  intros H. assert (E : length b = 32%nat) by (unfold blen in H; lia). split; [symmetry; apply be_unbe, E|]. pose proof (unbe_bound b) as U. rewrite E in U. exact U.
Qed.
Lemma verify_iff O peek params key sg msg : verify O peek params key sg msg = Ok tt <-> signs O peek params key sg msg.
Proof.
  unfold verify, k_ecdsap256, k_ed25519. destruct (N.eqb_spec params 2) as [->|N2]; [|destruct (N.eqb_spec params 239) as [->|N3]].
  - unfold constructEcKeyFromBuf, constructECDSASig. split.
    + intros H. apply bind_Ok in H. destruct H as (p & E1 & H). apply bind_Ok in E1. destruct E1 as ([len rest] & E1 & E2). apply read_be_inv in E1. destruct E1 as [_ ->].
      destruct (N.eqb_spec len 64) as [->|]; cbn [negb] in E2; [|discriminate E2]. destruct (take 64 rest) as [[d j1]|] eqn:E3; [|discriminate E2]. apply take_Some in E3. destruct E3 as [-> L1].
      destruct (to_point O (x04 :: d)) as [p'|] eqn:E4; [|discriminate E2]. injection E2 as <-.
      apply bind_Ok in H. destruct H as ([r s] & E5 & H). destruct (take 32 sg) as [[a rest]|] eqn:E6; [|discriminate E5]. apply take_Some in E6. destruct E6 as [-> L2].
      destruct (take 32 rest) as [[b j2]|] eqn:E7; [|discriminate E5]. apply take_Some in E7. destruct E7 as [-> L3]. injection E5 as <- <-.
      destruct (unbe_inv a L2) as [A1 A2]. destruct (unbe_inv b L3) as [B1 B2]. destruct (to_ecverify O p' _ _ _) eqn:V; [|discriminate H].
      eapply signs_ec with (xy := d) (j1 := j1) (r := unbe a) (s := unbe b) (j2 := j2); try eassumption; [reflexivity|reflexivity|]. rewrite <- A1, <- B1. reflexivity.
    + intros [xy j1 p r s j2 _ -> L1 P -> R S V|k j N _ _ _ _]; [|discriminate N]. change (x40 :: xy ++ j1) with (be 1 64 ++ (xy ++ j1)). rewrite read_be_app by (cbn; lia). cbn [bind]. rewrite N.eqb_refl. cbn [negb].
      rewrite take_app_n by exact L1. rewrite P. cbn [bind]. rewrite (take_app_n 32) by (rewrite be_blen; reflexivity). rewrite (take_app_n 32) by (rewrite be_blen; reflexivity). cbn [bind]. rewrite !unbe_be by assumption. rewrite V. reflexivity.
  - split.
    + intros H. apply bind_Ok in H. destruct H as ([len rest] & E1 & H). apply read_be_inv in E1. destruct E1 as [_ ->]. destruct (N.eqb_spec len 32) as [->|]; cbn [negb] in H; [|discriminate H].
      cbv zeta in H. destruct (N.eqb_spec (blen (takeN peek rest)) 32) as [L|]; cbn [negb] in H; [|discriminate H]. destruct (to_edverify O _ _ _) eqn:V; [|discriminate H].
      eapply signs_ed with (k := takeN peek rest) (j := dropN peek rest); [reflexivity| |exact L| |exact V]; rewrite takeN_dropN; [reflexivity|]. rewrite blen_takeN in L. exact L.
    + intros [xy j1 p r s j2 N _ _ _ _ _ _ _|k j _ -> L M V]; [discriminate N|]. change (x20 :: k ++ j) with (be 1 32 ++ (k ++ j)). rewrite read_be_app by (cbn; lia). cbn [bind]. rewrite N.eqb_refl. cbn [negb].
      assert (T : takeN peek (k ++ j) = k).
      { rewrite blen_app in M. destruct (N.le_gt_cases peek 32) as [Hp|Hp].
        - assert (peek = 32) by lia. subst peek. apply takeN_app. symmetry. exact L.
        - assert (j = []) by (apply blen_0; lia). subst j. rewrite app_nil_r. unfold takeN. apply firstn_all2. unfold blen in *. lia. }
      rewrite T, L, N.eqb_refl. cbn [negb]. rewrite V. reflexivity.
  - split; [discriminate|]. intros [xy j1 p r s j2 N|k j N]; congruence.
Qed.
Lemma message_ok type params ekm : constructMessage type params ekm = Ok (signed_data type params ekm). Proof. reflexivity. Qed.
Definition id_key (t : tbind) : bytes := bufbytes (ti_key (tb_id t)).
Definition the_sig (t : tbind) : bytes := bufbytes (tb_sig t).
Lemma construct_iff O peek tb ekm : wf_tb tb = true ->
  (constructAndVerifyMessage O peek tb ekm = Ok (Some (tb_id tb)) /\ signs O peek (ti_params (tb_id tb)) (id_key tb) (the_sig tb) (signed_data (tb_type tb) (ti_params (tb_id tb)) ekm)) \/
  (constructAndVerifyMessage O peek tb ekm = Ok None /\ ~ signs O peek (ti_params (tb_id tb)) (id_key tb) (the_sig tb) (signed_data (tb_type tb) (ti_params (tb_id tb)) ekm)).
Proof.
  intros W. unfold constructAndVerifyMessage, id_key, the_sig. rewrite message_ok. cbn [bind]. unfold wf_tb, wf_id in W. rewrite !andb_true_iff in W. destruct W as (((_ & _ & K) & S) & _).
  destruct (ti_key (tb_id tb)) as [key|]; [|discriminate K]. destruct (tb_sig tb) as [sg|]; [|discriminate S]. cbn [deref bind bufbytes].
  pose proof (verify_iff O peek (ti_params (tb_id tb)) key sg (signed_data (tb_type tb) (ti_params (tb_id tb)) ekm)) as V. set (m := signed_data _ _ _) in *. clearbody m.
  destruct (verify O peek (ti_params (tb_id tb)) key sg m) as [[]|e] eqn:E; [left; split; [reflexivity|apply V; reflexivity]|].
  right. split; [|intros X; apply V in X; discriminate X]. destruct e; try reflexivity. exfalso. revert E. clear. unfold verify, constructEcKeyFromBuf, constructECDSASig, read_be, fail.
  destruct (_ =? _); [|destruct (_ =? _)].
  - destruct (take _ key) as [[a rest]|]; cbn [bind]; [|discriminate]. destruct (negb _); cbn [bind]; [discriminate|]. destruct (take _ rest) as [[b j]|]; cbn [bind]; [|discriminate]. destruct (to_point O _); cbn [bind]; [|discriminate].
    destruct (take 32 sg) as [[c r]|]; cbn [bind]; [|discriminate]. destruct (take 32 r) as [[d r2]|]; cbn [bind]; [|discriminate]. destruct (to_ecverify O _ _ _ _); discriminate.
  - destruct (take _ key) as [[a rest]|]; cbn [bind]; [|discriminate]. destruct (negb _); [discriminate|]. cbv zeta. destruct (negb _); [discriminate|]. destruct (to_edverify O _ _ _); discriminate.
  - discriminate.
Qed.
(** A token binding is accepted exactly if it uses the negotiated parameters and its key signed type, parameters and EKM; the ID returned is the one in it; and
    there is no other outcome than acceptance or refusal. *)
Theorem C72_validate O peek tb ekm n : wf_tb tb = true ->
  (forall i, validateTokenBinding O peek tb ekm n = Ok (Some i) <-> i = tb_id tb /\ ti_params i = n /\ signs O peek n (id_key tb) (the_sig tb) (signed_data (tb_type tb) n ekm)) /\
  exists r, validateTokenBinding O peek tb ekm n = Ok r.
Proof.
  intros W. unfold validateTokenBinding. destruct (N.eqb_spec (ti_params (tb_id tb)) n) as [<-|N]; cbn [negb].
  - destruct (construct_iff O peek tb ekm W) as [[E S]|[E S]]; rewrite E; (split; [|eauto]); intros i; split.
    + intros [= <-]. auto.
    + intros (-> & _). reflexivity.
    + discriminate.
    + intros (-> & _ & X). contradiction.
  - split; [|eauto]. intros i. split; [discriminate|]. intros (-> & X & _). contradiction.
Qed.
(** The same with a list of supported parameters. *)
Theorem C72_validate_supported O peek tb ekm l : wf_tb tb = true ->
  forall i, validateSupported O peek tb ekm l = Ok (Some i) <-> i = tb_id tb /\ In (ti_params i) l /\ signs O peek (ti_params i) (id_key tb) (the_sig tb) (signed_data (tb_type tb) (ti_params i) ekm).
Proof.
  intros W i. unfold validateSupported. assert (M : mem (ti_params (tb_id tb)) l = true <-> In (ti_params (tb_id tb)) l).
  { unfold mem. rewrite existsb_exists. split; [intros (x & H1 & H2); apply N.eqb_eq in H2; subst; exact H1|intros H; eexists; split; [exact H|apply N.eqb_refl]]. }
  destruct (mem _ l); cbn [negb].
  - destruct (construct_iff O peek tb ekm W) as [[E S]|[E S]]; rewrite E; split; [intros [= <-]; intuition|intros (-> & _); reflexivity|discriminate|intros (-> & _ & X); contradiction].
  - split; [discriminate|]. intros (-> & X & _). apply M in X. discriminate X.
Qed.
Lemma be1_inj a b : in_u 1 a = true -> in_u 1 b = true -> be 1 a = be 1 b -> a = b.
Proof. unfold in_u. intros A B E. apply N.ltb_lt in A. apply N.ltb_lt in B. rewrite <- (unbe_be 1 a A), <- (unbe_be 1 b B), E. reflexivity. Qed.
Lemma signed_inj t1 p1 e1 t2 p2 e2 : in_u 1 t1 = true -> in_u 1 t2 = true -> in_u 1 p1 = true -> in_u 1 p2 = true -> signed_data t1 p1 e1 = signed_data t2 p2 e2 -> t1 = t2 /\ p1 = p2 /\ e1 = e2.
Proof.
  unfold signed_data. intros A B C D E. apply app_inj_len in E; [|rewrite !be_blen; reflexivity]. destruct E as [E1 E]. apply app_inj_len in E; [|rewrite !be_blen; reflexivity]. destruct E as [E2 E].
  auto using be1_inj.
Qed.
(** A binding made for another connection is not accepted: if whoever holds the key signed only bindings in [made] (type and EKM), then an accepted binding is
    one of them, for this connection's EKM, or two messages have the same hash. *)
Theorem C72_bound O peek tb ekm xy p (made : list (N * bytes)) : wf_tb tb = true -> id_key tb = x40 :: xy -> blen xy = 64 -> to_point O (x04 :: xy) = Some p -> (forall t e, In (t, e) made -> in_u 1 t = true) ->
  (forall h r s, to_ecverify O p h r s = true -> exists t e, In (t, e) made /\ h = to_sha256 O (signed_data t 2 e)) ->
  validateTokenBinding O peek tb ekm 2 = Ok (Some (tb_id tb)) ->
  In (tb_type tb, ekm) made \/ (exists m1 m2, m1 <> m2 /\ to_sha256 O m1 = to_sha256 O m2).
Proof.
  intros W K L P R S H. apply (proj1 (C72_validate O peek tb ekm 2 W)) in H. destruct H as (_ & _ & H). destruct H as [xy' j1 p' r s j2 _ K' L' P' _ _ _ V|k j N]; [|discriminate N].
  rewrite K in K'. injection K' as K'. rewrite <- (app_nil_r xy) in K'. apply app_inj_len in K'; [|congruence]. destruct K' as [<- _]. rewrite P in P'. injection P' as <-.
  destruct (S _ _ _ V) as (t & e & I & E). unfold wf_tb in W. rewrite !andb_true_iff in W. destruct W as (((T & _) & _) & _).
  destruct (list_eq_dec Byte.byte_eq_dec (signed_data (tb_type tb) 2 ekm) (signed_data t 2 e)) as [X|X]; [|right; eauto].
  left. apply signed_inj in X; [|exact T|eapply R; exact I|reflexivity|reflexivity]. destruct X as (-> & _ & ->). exact I.
Qed.
(** What the client makes the server accepts, after encoding and decoding, among any other bindings and whatever follows the message. *)
Lemma law_tbid : lawful wf_id (fun i => fits_buf W16 (ti_key i)) w_id c_tbid.
Proof.
  eapply lawful_ext; [| | |unfold c_tbid; apply lawful_iso; [intros [? ?]; reflexivity|intros [? ?]; reflexivity|apply lawful_pair; [apply (lawful_u 1); lia|apply (lawful_buf W16)]]]; intros [k b]; reflexivity.
Qed.
Lemma law_tbind : lawful wf_tb fit_tb w_tb c_tbind.
Proof.
  eapply lawful_ext; [| | |unfold c_tbind; apply lawful_iso; [intros [? ? ? ?]; reflexivity|intros [[[? ?] ?] ?]; reflexivity|
    apply lawful_pair; [apply lawful_pair; [apply lawful_pair; [apply (lawful_u 1); lia|apply law_tbid]|apply (lawful_buf W16)]|apply (lawful_buf W16)]]];
    intros [t i s x]; cbn [fst snd tb_type tb_id tb_sig tb_exts]; try reflexivity.
  unfold w_tb. cbn [tb_type tb_id tb_sig tb_exts]. unfold spec_buf. rewrite <- !app_assoc. reflexivity.
Qed.
Theorem C72_message l bs rest : forallb wf_tb l = true -> encodeMessage l = Ok bs -> bs = tls_list 2 w_tb l /\ decodeMessage (bs ++ rest) = Ok l.
Proof.
  intros W H. pose proof (lawful_vec _ _ _ _ law_tbind W16) as L. destruct (law_wr_inv _ _ _ _ L l bs W H) as [F ->]. split; [reflexivity|].
  unfold decodeMessage. pose proof (law_rt _ _ _ _ L l rest W F) as R. cbn [c_vec c_rd] in R. rewrite R. reflexivity.
Qed.
Theorem C72_message_canonical inp l : decodeMessage inp = Ok l -> forallb wf_tb l = true /\ exists rest, inp = tls_list 2 w_tb l ++ rest.
Proof.
  unfold decodeMessage. intros H. apply bind_Ok in H. destruct H as ([[l' n] rest] & E & H). injection H as <-.
  destruct (law_canon _ _ _ _ (lawful_vec _ _ _ _ law_tbind W16) inp l' n rest E) as (A & _ & B & _). eauto.
Qed.
Theorem C72_created O k ekm type tb p peek : in_u 1 type = true -> createTokenBinding O k ekm 2 type = Ok tb ->
  (forall b, to_encode O k = Ok b -> exists xy, b = x04 :: xy /\ to_point O b = Some p) -> (forall h r s, to_sign O k h = Some (r, s) -> to_ecverify O p h r s = true) ->
  wf_tb tb = true /\ tb_type tb = type /\ validateTokenBinding O peek tb ekm 2 = Ok (Some (tb_id tb)) /\
  forall l1 l2 bs rest, forallb wf_tb l1 = true -> forallb wf_tb l2 = true -> encodeMessage (l1 ++ tb :: l2) = Ok bs -> exists l, decodeMessage (bs ++ rest) = Ok l /\ In tb l.
Proof.
  intros T H HE HS. unfold createTokenBinding in H. change (2 =? k_ecdsap256) with true in H. cbn [negb] in H. destruct (to_isec O k); cbn [negb] in H; [|discriminate H]. rewrite message_ok in H. cbn [bind] in H.
  apply bind_Ok in H. destruct H as (sg & E1 & H). apply bind_Ok in H. destruct H as (key & E2 & H). injection H as <-.
  unfold signWithEcKey in E1. destruct (to_sign O k _) as [[r s]|] eqn:ES; [|discriminate E1]. apply bind_Ok in E1. destruct E1 as (a & A & E1). apply bind_Ok in E1. destruct E1 as (b & B & E1). injection E1 as <-.
  unfold addBignum in A, B. destruct (N.leb_spec (256 ^ 32) r) as [|R]; [discriminate A|]. injection A as <-. destruct (N.leb_spec (256 ^ 32) s) as [|S]; [discriminate B|]. injection B as <-.
  unfold encodeEcKey in E2. apply bind_Ok in E2. destruct E2 as (bb & E3 & E2). destruct (N.eqb_spec (blen bb) 65) as [L|]; cbn [negb] in E2; [|discriminate E2]. injection E2 as <-.
  destruct (HE _ E3) as (xy & -> & P). change (dropN 1 (x04 :: xy)) with xy in *.
  assert (W : wf_tb (mkTb type (mkTbid 2 (Some (x40 :: xy))) (Some (be 32 r ++ be 32 s)) (Some [])) = true) by (unfold wf_tb; cbn [tb_type tb_id]; rewrite T; reflexivity).
  split; [exact W|]. split; [reflexivity|]. split.
  - apply (proj1 (C72_validate O peek _ ekm 2 W)). split; [reflexivity|]. split; [reflexivity|]. eapply signs_ec with (xy := xy) (j1 := []) (r := r) (s := s) (j2 := []).
    + reflexivity.
    + unfold id_key. cbn [tb_id ti_key bufbytes]. rewrite app_nil_r. reflexivity.
    + unfold blen in *. cbn [length] in L. lia.
    + exact P.
    + unfold the_sig. cbn [tb_sig bufbytes]. rewrite app_nil_r. reflexivity.
    + exact R.
    + exact S.
    + apply HS, ES.
  - intros l1 l2 bs rest W1 W2 H. exists (l1 ++ mkTb type (mkTbid 2 (Some (x40 :: xy))) (Some (be 32 r ++ be 32 s)) (Some []) :: l2). split; [|apply in_or_app; right; left; reflexivity].
    eapply C72_message; [|exact H]. rewrite forallb_app, W1. cbn [forallb]. rewrite W, W2. reflexivity.
Qed.
(** ** Negotiation *)
Lemma mem_In x l : mem x l = true <-> In x l.
Proof. unfold mem. rewrite existsb_exists. split; [intros (y & H1 & H2); apply N.eqb_eq in H2; subst; exact H1|intros H; eexists; split; [exact H|apply N.eqb_refl]]. Qed.
Lemma negotiate_some sv cl k : negotiate sv cl = Some k <-> exists a b, sv = a ++ k :: b /\ In k cl /\ forall x, In x a -> ~ In x cl.
Proof.
  induction sv as [|p sv IH]; cbn [negotiate].
  - split; [discriminate|]. intros ([|] & ? & E & _); discriminate E.
  - destruct (mem p cl) eqn:M.
    + apply mem_In in M. split; [intros [= <-]; exists [], sv; repeat split; [exact M|intros ? []]|]. intros ([|y a] & b & E & I & N); injection E as <- E; [reflexivity|]. destruct (N p (or_introl eq_refl) M).
    + assert (M' : ~ In p cl) by (intros X; apply mem_In in X; congruence). rewrite IH. split.
      * intros (a & b & -> & I & N). exists (p :: a), b. split; [reflexivity|]. split; [exact I|]. intros x [<-|X]; [exact M'|apply N, X].
      * intros ([|y a] & b & E & I & N); injection E as <- E; [contradiction|]. exists a, b. split; [exact E|]. split; [exact I|]. intros x X. apply N. right. exact X.
Qed.
Lemma negotiate_none sv cl : negotiate sv cl = None <-> forall x, In x sv -> ~ In x cl.
Proof.
  induction sv as [|p sv IH]; cbn [negotiate]; [split; [intros _ ? []|reflexivity]|]. destruct (mem p cl) eqn:M.
  - apply mem_In in M. split; [discriminate|]. intros H. destruct (H p (or_introl eq_refl) M).
  - assert (M' : ~ In p cl) by (intros X; apply mem_In in X; congruence). rewrite IH. split; [intros H x [<-|X]; [exact M'|apply H, X]|intros H x X; apply H; right; exact X].
Qed.
Fixpoint descending (l : list N) : Prop := match l with a :: r => (forall x, In x r -> x < a) /\ descending r | [] => True end.
Lemma set_versions c v c' : setSupportedVersions c v = Ok c' <-> descending v /\ c' = mkTbctx v (tc_params c).
Proof.
  unfold setSupportedVersions. assert (D : is_sorted_desc v = true /\ no_repeat v = true <-> descending v).
  { induction v as [|a [|b v] IH]; [cbn; tauto|cbn; intuition|]. change (is_sorted_desc (a :: b :: v)) with (negb (a <? b) && is_sorted_desc (b :: v)). change (no_repeat (a :: b :: v)) with (negb (a =? b) && no_repeat (b :: v)).
    cbn [descending]. rewrite !andb_true_iff, !negb_true_iff, N.ltb_ge, N.eqb_neq. split.
    - intros [[A B] [C D]]. destruct (proj1 IH (conj B D)) as [E F]. split; [|split; assumption]. intros x [<-|X]; [lia|]. apply E in X. lia.
    - intros [A B]. destruct (proj2 IH B) as [C D]. specialize (A b (or_introl eq_refl)). repeat split; try assumption; lia. }
  destruct (is_sorted_desc v), (no_repeat v); cbn [negb]; split; try discriminate.
  - intros [= <-]. split; [apply D; auto|reflexivity].
  - intros [_ ->]. reflexivity.
  - intros [X _]. apply D in X. destruct X as [_ X]. discriminate X.
  - intros [X _]. apply D in X. destruct X as [X _]. discriminate X.
  - intros [X _]. apply D in X. destruct X as [X _]. discriminate X.
Qed.
Theorem C72_versions c v c' : setSupportedVersions c v = Ok c' <-> descending v /\ c' = mkTbctx v (tc_params c). Proof. apply set_versions. Qed.
Lemma version_some vs best v : descending vs -> (negotiateVersion vs best = Some v <-> In v vs /\ v <= best /\ forall x, In x vs -> x <= best -> x <= v).
Proof.
  induction vs as [|p vs IH]; cbn [negotiateVersion]; intros D; [split; [discriminate|intros [[] _]]|]. destruct D as [D1 D2]. destruct (N.leb_spec p best) as [L|L].
  - split.
    + intros [= <-]. split; [left; reflexivity|]. split; [exact L|]. intros x [<-|X] _; [lia|]. apply D1 in X. lia.
    + intros ([<-|I] & A & B); [reflexivity|]. specialize (B p (or_introl eq_refl) L). apply D1 in I. lia.
  - rewrite (IH D2). split; intros (I & A & B).
    + split; [right; exact I|]. split; [exact A|]. intros x [<-|X] Y; [lia|]. apply B; assumption.
    + destruct I as [<-|I]; [lia|]. split; [exact I|]. split; [exact A|]. intros x X. apply B. right. exact X.
Qed.
Lemma version_none vs best : negotiateVersion vs best = None <-> forall x, In x vs -> best < x.
Proof.
  induction vs as [|p vs IH]; cbn [negotiateVersion]; [split; [intros _ ? []|reflexivity]|]. destruct (N.leb_spec p best).
  - split; [discriminate|]. intros H0. specialize (H0 p (or_introl eq_refl)). lia.
  - rewrite IH. split; [intros H0 x [<-|X]; [assumption|apply H0, X]|intros H0 x X; apply H0; right; exact X].
Qed.
Lemma wf_params v ks : in_u 2 v = true -> forallb (in_u 1) ks = true -> wf_x (XTokenBinding (v, ks)) = true. Proof. intros A B. cbn [wf_x fst snd]. rewrite A, B. reflexivity. Qed.
Lemma params_enc v ks : in_u 2 v = true -> forallb (in_u 1) ks = true -> blen ks < 256 -> encodeExtension (XTokenBinding (v, ks)) = Ok (mkExt 24 (Some (w_xbody (XTokenBinding (v, ks))))).
Proof.
  intros A B C. apply C03_extension_exact; [apply wf_params; assumption|]. split; [|reflexivity]. cbn [fit_x snd]. unfold fit_list, fits_len, tls_list, tls_vec.
  assert (E : blen (concat (map (be 1) ks)) = blen ks). { clear. induction ks as [|k ks IH]; [reflexivity|]. cbn [map concat]. rewrite blen_app, IH, be_blen. unfold blen. cbn [length]. lia. }
  rewrite E. apply andb_true_iff. split; [|apply N.ltb_lt; exact C]. apply forallb_forall. reflexivity.
Qed.
Lemma getParams_rt pre v ks post : in_u 2 v = true -> forallb (in_u 1) ks = true -> blen ks < 256 -> no_type 24 pre = true -> getParams (pre ++ mkExt 24 (Some (w_xbody (XTokenBinding (v, ks)))) :: post) = Ok (Some (v, ks)).
Proof. intros A B C D. unfold getParams. change KTokenBinding with (kind_of (XTokenBinding (v, ks))). rewrite (C04_extension_roundtrip (XTokenBinding (v, ks)) _ pre post (wf_params v ks A B) (params_enc v ks A B C) D). reflexivity. Qed.
Lemma forall_In {A} (f : A -> bool) l x : forallb f l = true -> In x l -> f x = true. Proof. rewrite forallb_forall. auto. Qed.
(** RFC 8472: client and server with any two configurations.  The server answers with its highest version not above the client's and its first parameters that
    the client lists, or not at all if there are none; the client takes the answer if it supports that version, and otherwise there is no token binding. *)
Theorem C72_negotiate cc cs e pre post : good_ctx cc -> good_ctx cs -> clientExtensions cc = Ok [e] -> no_type 24 pre = true ->
  exists best bs, tc_versions cc = best :: bs /\
  ((exists v k e', serverExtensions cs (pre ++ e :: post) = Ok ([e'], Some k) /\
      (In v (tc_versions cs) /\ v <= best /\ forall x, In x (tc_versions cs) -> x <= best -> x <= v) /\
      (exists a b, tc_params cs = a ++ k :: b /\ In k (tc_params cc) /\ forall x, In x a -> ~ In x (tc_params cc)) /\
      forall pre' post', no_type 24 pre' = true -> onEncryptedExtensions cc (pre' ++ e' :: post') = Ok (if mem v (tc_versions cc) then Some (v, k) else None))
   \/ (serverExtensions cs (pre ++ e :: post) = Ok ([], None) /\ ((forall x, In x (tc_versions cs) -> best < x) \/ (forall x, In x (tc_params cs) -> ~ In x (tc_params cc))))).
Proof.
  intros (C1 & C2 & C3 & C4) (S1 & S2 & S3 & S4) H D. unfold clientExtensions in H. destruct (tc_versions cc) as [|best bs] eqn:EV; [discriminate H|]. destruct (tc_params cc) as [|q qs] eqn:EP; [discriminate H|]. rewrite <- EP in *. exists best, bs. split; [reflexivity|].
  assert (B2 : in_u 2 best = true) by (eapply forall_In; [exact C2|left; reflexivity]). rewrite (params_enc best (tc_params cc) B2 C3 C4) in H. cbn [bind] in H. assert (Ee : e = mkExt 24 (Some (w_xbody (XTokenBinding (best, tc_params cc))))) by congruence. subst e. clear H.
  unfold serverExtensions. rewrite (getParams_rt pre best (tc_params cc) post B2 C3 C4 D). cbn [bind].
  apply set_versions in S1. destruct S1 as [S1 _].
  destruct (negotiate (tc_params cs) (tc_params cc)) as [k|] eqn:NK; [|right; split; [reflexivity|right; apply negotiate_none, NK]].
  destruct (negotiateVersion (tc_versions cs) best) as [v|] eqn:NV; [|right; split; [reflexivity|left; apply version_none, NV]].
  apply negotiate_some in NK. pose proof NK as (a & b & EA & IK & _). apply (version_some _ _ _ S1) in NV. pose proof NV as (IV & LV & _).
  assert (V2 : in_u 2 v = true) by (eapply forall_In; [exact S2|exact IV]). assert (K2 : forallb (in_u 1) [k] = true) by (cbn [forallb]; rewrite (forall_In _ _ k C3 IK); reflexivity).
  rewrite (params_enc v [k] V2 K2 ltac:(reflexivity)). cbn [bind]. left. exists v, k. eexists. split; [reflexivity|]. split; [exact NV|]. split; [exact NK|].
  intros pre' post' D'. unfold onEncryptedExtensions. rewrite (getParams_rt pre' v [k] post' V2 K2 ltac:(reflexivity) D'). cbn [bind]. rewrite EV. destruct (N.ltb_spec best v); [lia|]. apply mem_In in IK. rewrite IK. cbn [negb]. destruct (mem v (best :: bs)); reflexivity.
Qed.
(** Whatever the server sends, a client takes only what it offered: a version and parameters of its own, those in the server's extension. *)
Theorem C72_client cc ee v k : onEncryptedExtensions cc ee = Ok (Some (v, k)) -> In v (tc_versions cc) /\ In k (tc_params cc) /\ (forall best bs, tc_versions cc = best :: bs -> v <= best) /\ getParams ee = Ok (Some (v, [k])).
Proof.
  unfold onEncryptedExtensions. intros H. apply bind_Ok in H. destruct H as ([[v' ks]|] & E & H); [|discriminate H]. destruct ks as [|k' [|? ?]]; [discriminate H| |discriminate H].
  destruct (tc_versions cc) as [|best bs] eqn:EV; [discriminate H|]. destruct (N.ltb_spec best v'); [discriminate H|]. destruct (mem k' (tc_params cc)) eqn:M1; cbn [negb] in H; [|discriminate H]. destruct (mem v' (best :: bs)) eqn:M2; [|discriminate H].
  injection H as <- <-. apply mem_In in M1. apply mem_In in M2. split; [exact M2|]. split; [exact M1|]. split; [intros ? ? [= <- <-]; assumption|exact E].
Qed.
(** Several sets of extensions: all of them, in order; failure if one fails. *)
Theorem C72_multi l r : multiExtensions l = Ok r <-> exists rs, l = map Ok rs /\ r = concat rs.
Proof.
  revert r. induction l as [|x l IH]; intros r; cbn [multiExtensions].
  - split; [intros [= <-]; exists []; auto|]. intros ([|] & E & ->); [reflexivity|discriminate E].
  - split.
    + intros H. apply bind_Ok in H. destruct H as (a & -> & H). apply bind_Ok in H. destruct H as (b & E & H). injection H as <-. apply IH in E. destruct E as (rs & -> & ->). exists (a :: rs). auto.
    + intros ([|a rs] & E & ->); [discriminate E|]. injection E as -> E. cbn [bind concat]. rewrite (proj2 (IH (concat rs))) by eauto. reflexivity.
Qed.

(** ** Concrete cases *)
(** A toy: the hash is the identity on messages; the point is the key; a signature (r, s) is good if r = s = the number of bytes of the digest. *)
Definition tk_o : tbossl := mkTbossl (fun m => m) bytes (fun b => match b with x04 :: xy => Some xy | _ => None end) (fun _ h r s => (r =? blen h) && (s =? blen h)) (fun _ m sg => blen m =? blen sg) unit (fun _ => true) (fun _ h => Some (blen h, blen h)) (fun _ => Ok (x04 :: repeat x07 64)).
Definition tk_ekm : bytes := repeat x09 32.
Definition tk_c : tbctx := mkTbctx [512; 256] [239; 2].
Definition tk_s : tbctx := mkTbctx [768; 256] [1; 2; 239].
Example tk_created : exists tb, createTokenBinding tk_o tt tk_ekm 2 1 = Ok tb /\ validateTokenBinding tk_o 0 tb tk_ekm 2 = Ok (Some (tb_id tb)) /\ validateTokenBinding tk_o 0 tb [] 2 = Ok None /\ validateTokenBinding tk_o 0 tb tk_ekm 239 = Ok None.
Proof. eexists. split; [vm_compute; reflexivity|]. split; [|split]; vm_compute; reflexivity. Qed.
Example tk_good : good_ctx tk_c /\ good_ctx tk_s /\ exists e, clientExtensions tk_c = Ok [e]. 
Proof. split; [|split]; [repeat split; vm_compute; reflexivity..|]. eexists. vm_compute. reflexivity. Qed.
(** Both ends agree on version 256 and ECDSA. *)
Example tk_run : (e <- clientExtensions tk_c ;; '(a, k) <- serverExtensions tk_s e ;; r <- onEncryptedExtensions tk_c a ;; Ok (k, r)) = Ok (Some 2, Some (256, 2)).
Proof. vm_compute. reflexivity. Qed.
(** ** What is not promised *)
(** The server takes token binding to be negotiated although the client, which does not support the lower version, does not. *)
Theorem C72_one_sided : exists cc cs, good_ctx cc /\ good_ctx cs /\ (e <- clientExtensions cc ;; '(a, k) <- serverExtensions cs e ;; r <- onEncryptedExtensions cc a ;; Ok (k, r)) = Ok (Some 2, None).
Proof. exists (mkTbctx [512] [2]), (mkTbctx [256] [2]). split; [|split]; [repeat split; vm_compute; reflexivity..|]. vm_compute. reflexivity. Qed.
(** Token binding IDs are not unique for a key, nor signatures: bytes may be appended to an ECDSA key and to its signature, and the extensions are not signed:
    the server accepts the changed binding under another ID. *)
Theorem C72_malleable O peek tb ekm j1 j2 x : wf_tb tb = true -> validateTokenBinding O peek tb ekm 2 = Ok (Some (tb_id tb)) ->
  let tb' := mkTb (tb_type tb) (mkTbid 2 (Some (id_key tb ++ j1))) (Some (the_sig tb ++ j2)) (Some x) in
  validateTokenBinding O peek tb' ekm 2 = Ok (Some (mkTbid 2 (Some (id_key tb ++ j1)))).
Proof.
  intros W H tb'. apply (proj1 (C72_validate O peek tb ekm 2 W)) in H. destruct H as (_ & E & H).
  assert (W' : wf_tb tb' = true). { unfold wf_tb in *. rewrite !andb_true_iff in *. cbn [tb' tb_type tb_id tb_sig tb_exts]. destruct W as (((A & B) & _) & _). auto. }
  apply (proj1 (C72_validate O peek tb' ekm 2 W')). split; [reflexivity|]. split; [reflexivity|]. destruct H as [xy a p r s b _ K L P S R1 R2 V|k j N]; [|discriminate N].
  eapply signs_ec with (xy := xy) (j1 := a ++ j1) (r := r) (s := s) (j2 := b ++ j2); try eassumption; [reflexivity| |].
  - change (id_key tb') with (id_key tb ++ j1). rewrite K. cbn [app]. rewrite <- app_assoc. reflexivity.
  - change (the_sig tb') with (the_sig tb ++ j2). rewrite S. rewrite <- !app_assoc. reflexivity.
Qed.
(** Bytes after the message, and after the parameters in the hello extension, are ignored. *)
Theorem C72_trailing : (exists inp l, decodeMessage inp = Ok l /\ decodeMessage (inp ++ [xff]) = Ok l) /\
  (exists d, getParams [mkExt 24 (Some d)] = Ok (Some (256, [2])) /\ getParams [mkExt 24 (Some (d ++ [xff]))] = Ok (Some (256, [2]))).
Proof. split; [exists [x00; x00], []|exists [x01; x00; x01; x02]]; split; vm_compute; reflexivity. Qed.
(** An Ed25519 key that arrives in two pieces is refused. *)
Theorem C72_pieces : exists O tb ekm, wf_tb tb = true /\ validateTokenBinding O 32 tb ekm 239 = Ok (Some (tb_id tb)) /\ validateTokenBinding O 31 tb ekm 239 = Ok None.
Proof. exists tk_o, (mkTb 0 (mkTbid 239 (Some (x20 :: repeat x01 32))) (Some (repeat x00 34)) (Some [])), tk_ekm. split; [|split]; vm_compute; reflexivity. Qed.
