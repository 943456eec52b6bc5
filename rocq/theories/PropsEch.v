(** * C42, C43: ECH accept confirmation, and what certificates sign *)
From Verif Require Import Base Codec CodecSpec Str Hkdf HkdfSpec HkdfProofs KeySched KeySchedSpec KeySchedProofs Handshake HandshakeSpec Extensions
  ExtensionsSpec ExtensionsProofs IOBufUtil PropsIOBuf PropsKeys PropsCookie Transcript EchConfirm HelloChecks ServerFacts.
Open Scope N_scope.

(** ** Specification *)
(** draft-ietf-tls-esni, 7.2: accept_confirmation = HKDF-Expand-Label(HKDF-Extract(0, ClientHelloInner.random), label, transcript, 8). *)
Definition accept_confirmation (h : hashalg) (label inner T : bytes) : bytes := ExpandLabel h (EarlySecret h inner) label (h_fn h T) 8.
(** [m'] is [m] with [tail] for the last eight bytes of its random. *)
Definition same_but_tail (m m' : ServerHello) (tail : bytes) : Prop :=
  exists pre old, sh_random m = pre ++ old /\ blen old = 8 /\ sh_random m' = pre ++ tail /\
    sh_version m' = sh_version m /\ sh_session_id m' = sh_session_id m /\ sh_suite m' = sh_suite m /\ sh_compression m' = sh_compression m /\
    sh_extensions m' = sh_extensions m.

(** ** Proofs *)
Lemma ech_secret_ok h inner which th : hash_ok h -> blen th = h_len h -> (which = EchAcceptE \/ which = HrrEchAccept) ->
  ech_secret h inner which th = Ok (ExpandLabel h (EarlySecret h inner) (if match which with EchAcceptE => true | _ => false end
    then str "ech accept confirmation" else str "hrr ech accept confirmation") th 8).
Proof.
  intros Hh Ht Hw. unfold ech_secret.
  pose proof (step_ok h Hh ks_init (Start, None) (DeriveEarly inner) (rel_init h) Logic.I) as S. cbn [spec_step] in S. destruct S as (k & -> & S1). cbn [bind].
  pose proof (step_ok h Hh k _ (GetEarly which th) S1 Ht) as S. cbn [spec_step] in S. destruct S as (k2 & -> & _).
  cbn [snd]. destruct Hw as [-> | ->]; reflexivity.
Qed.
Lemma digest_len h x : hash_ok h -> blen (h_fn h x) = h_len h. Proof. intros H. apply (ho_digest h H). Qed.
Lemma tail_split {A} n (l : list A) : n <= blen l -> l = takeN (blen l - n) l ++ dropN (blen l - n) l /\ blen (dropN (blen l - n) l) = n.
Proof.
  intros H. split; [symmetry; apply firstn_skipn|]. unfold dropN, blen in *. rewrite skipn_length. lia.
Qed.

Lemma calcSH_ok h c inner m a : hash_ok h -> hc_hash c = h -> 8 <= blen (sh_random m) -> calcAcceptSH c h inner m = Ok a ->
  exists d e, same_but_tail m d (repeat x00 8) /\ encodeHandshake (MServerHello d) = Ok e /\
    a = accept_confirmation h (str "ech accept confirmation") inner (hc_data c ++ e).
Proof.
  intros Hh Hc Hr H. unfold calcAcceptSH in H. bo H d E1. bo H e E2. exists d, e.
  rewrite ech_secret_ok in H; [|exact Hh|unfold hc_context; cbn; rewrite Hc; apply digest_len, Hh|auto].
  unfold makeDummyServerHello in E1. destruct (sh_session_id m) as [sid|] eqn:Es; [|discriminate].
  destruct (tail_split 8 (sh_random m) Hr) as (T1 & T2). injection E1 as <-. split; [|split; [exact E2|]].
  - exists (takeN (blen (sh_random m) - 8) (sh_random m)), (dropN (blen (sh_random m) - 8) (sh_random m)). cbn [sh_random sh_version sh_session_id sh_suite sh_compression sh_extensions].
    split; [exact T1|]. split; [exact T2|]. split; [reflexivity|]. auto.
  - injection H as <-. unfold accept_confirmation, hc_context. cbn [hc_append hc_hash hc_data]. rewrite Hc. reflexivity.
Qed.
Lemma conf_len h l i T : hash_ok h -> blen (accept_confirmation h l i T) = 8. Proof. intros H. apply ExpandLabel_len, H. Qed.
Lemma last8 (pre tail : bytes) : blen tail = 8 -> dropN (blen (pre ++ tail) - 8) (pre ++ tail) = tail.
Proof. intros H. rewrite blen_app, H. replace (blen pre + 8 - 8) with (blen pre) by lia. rewrite dropN_app_ge by lia. rewrite N.sub_diag. apply dropN_0. Qed.
Lemma first_of (pre tail : bytes) : blen tail = 8 -> takeN (blen (pre ++ tail) - 8) (pre ++ tail) = pre.
Proof. intros H. rewrite blen_app, H. replace (blen pre + 8 - 8) with (blen pre) by lia. rewrite takeN_app_le by lia. apply takeN_all. lia. Qed.
(** ** C42 *)
(** A ServerHello counts as accepting ECH exactly if the last eight bytes of its random are the accept confirmation for the inner
    ClientHello's random and the transcript with those bytes zeroed. *)
Theorem C42_check h c inner m b : hash_ok h -> hc_hash c = h -> 8 <= blen (sh_random m) -> checkAcceptSH c h inner m = Ok b ->
  exists pre tail d e, sh_random m = pre ++ tail /\ blen tail = 8 /\ same_but_tail m d (repeat x00 8) /\ encodeHandshake (MServerHello d) = Ok e /\
    (b = true <-> tail = accept_confirmation h (str "ech accept confirmation") inner (hc_data c ++ e)).
Proof.
  intros Hh Hc Hr H. unfold checkAcceptSH in H. bo H a E. injection H as <-.
  destruct (calcSH_ok _ _ _ _ _ Hh Hc Hr E) as (d & e & D1 & D2 & ->). destruct (tail_split 8 (sh_random m) Hr) as (T1 & T2).
  exists (takeN (blen (sh_random m) - 8) (sh_random m)), (dropN (blen (sh_random m) - 8) (sh_random m)), d, e.
  split; [exact T1|]. split; [exact T2|]. split; [exact D1|]. split; [exact D2|].
  rewrite C19_equal_iff. rewrite takeN_all by (rewrite conf_len by exact Hh; lia). reflexivity.
Qed.
(** What the server makes of an accepted ServerHello is recognised by the client that has the same transcript and inner random, and differs only
    in those eight bytes. *)
Theorem C42_set_check h c inner m m' : hash_ok h -> hc_hash c = h -> 8 <= blen (sh_random m) -> setAcceptSH c h inner m = Ok m' ->
  checkAcceptSH c h inner m' = Ok true /\ exists tail, blen tail = 8 /\ same_but_tail m m' tail.
Proof.
  intros Hh Hc Hr H. unfold setAcceptSH in H. bo H a E.
  destruct (tail_split 8 (sh_random m) Hr) as (T1 & T2).
  assert (Ha : blen a = 8) by (destruct (calcSH_ok _ _ _ _ _ Hh Hc Hr E) as (d & e & _ & _ & ->); apply conf_len, Hh).
  rewrite (takeN_all 8 a) in H by lia. set (pre := takeN (blen (sh_random m) - 8) (sh_random m)) in *.
  assert (Hm : m' = mkSH (sh_version m) (pre ++ a) (sh_session_id m) (sh_suite m) (sh_compression m) (sh_extensions m)) by congruence. clear H.
  split.
  - unfold checkAcceptSH. assert (E' : calcAcceptSH c h inner m' = Ok a).
    { rewrite <- E. unfold calcAcceptSH. f_equal. subst m'. unfold makeDummyServerHello. cbn [sh_session_id sh_random sh_version sh_suite sh_compression sh_extensions].
      destruct (sh_session_id m); [|reflexivity]. unfold zero_tail. rewrite first_of by exact Ha. reflexivity. }
    rewrite E'. cbn [bind]. f_equal. apply C19_equal_iff. subst m'. cbn [sh_random]. rewrite last8 by exact Ha. rewrite takeN_all by lia. reflexivity.
  - exists a. split; [exact Ha|]. exists pre, (dropN (blen (sh_random m) - 8) (sh_random m)). subst m'. cbn. auto 10.
Qed.
Lemma getExt_app k l e : (forall x, In x l -> ext_type x <> kind_type k) -> ext_type e = kind_type k ->
  getExtension k (l ++ [e]) = getExtension k [e].
Proof.
  intros H He. unfold getExtension, findExtension. replace (find _ (l ++ [e])) with (find (fun e0 => ext_type e0 =? kind_type k) [e]); [reflexivity|].
  induction l as [|x l IH]; [reflexivity|].
  cbn [app find]. destruct (N.eqb_spec (ext_type x) (kind_type k)) as [E|E]; [exfalso; eapply H; [left; reflexivity|exact E]|].
  apply IH. intros y Hy. apply H. right. exact Hy.
Qed.
Lemma zero_ech_id l : (forall x, In x l -> ext_type x <> 65037) -> map zero_ech l = l.
Proof.
  induction l as [|x l IH]; intros H; [reflexivity|]. cbn [map]. rewrite IH by (intros y Hy; apply H; right; exact Hy). f_equal.
  unfold zero_ech. destruct (N.eqb_spec (ext_type x) 65037) as [E|E]; [|reflexivity]. exfalso. eapply H; [left; reflexivity|exact E].
Qed.
(** The message with eight zero bytes for the confirmation in every encrypted_client_hello extension. *)
Definition hrr_zeroed (m : HelloRetryRequest) : HelloRetryRequest :=
  mkHRR (hrr_version m) (hrr_session_id m) (hrr_suite m) (hrr_compression m)
    (map (fun x => if ext_type x =? 65037 then mkExt 65037 (Some (repeat x00 8)) else x) (hrr_extensions m)).
Lemma calcHRR_ok h c inner m a : hash_ok h -> hc_hash c = h -> calcAcceptHRR c h inner m = Ok a ->
  exists e, encodeHandshake (MHelloRetryRequest (hrr_zeroed m)) = Ok e /\
    a = accept_confirmation h (str "hrr ech accept confirmation") inner (hc_data c ++ e).
Proof.
  intros Hh Hc H. unfold calcAcceptHRR in H. bo H d E1. bo H e E2. bo H s E3.
  rewrite ech_secret_ok in E3; [|exact Hh|unfold hc_context; cbn; rewrite Hc; apply digest_len, Hh|auto].
  unfold makeDummyHRR in E1. destruct (hrr_session_id m) as [sid|] eqn:Es; [|discriminate].
  exists e. split.
  - rewrite <- E2. f_equal. f_equal. unfold hrr_zeroed. rewrite Es. injection E1 as <-. f_equal.
  - destruct (blen s <? 8); [discriminate|]. injection H as <-. injection E3 as <-. unfold accept_confirmation, hc_context.
    cbn [hc_append hc_hash hc_data]. rewrite Hc. reflexivity.
Qed.
Lemma read_conf d v : read_ext_body KEchHrr d = Ok v -> exists conf rest, v = (XEchHrr conf, rest) /\ d = conf ++ rest /\ blen conf = 8.
Proof.
  intros H. cbn [read_ext_body] in H. destruct (N.eqb_spec (blen d) 8) as [E|E]; [|discriminate]. injection H as <-.
  exists d, []. rewrite app_nil_r. auto.
Qed.

(** A HelloRetryRequest counts as accepting ECH exactly if its first encrypted_client_hello extension is the eight-byte accept confirmation
    for the inner ClientHello's random and the transcript with that extension zeroed. *)
Theorem C42_check_retry h c inner m b : hash_ok h -> hc_hash c = h -> checkAcceptHRR c h inner m = Ok b ->
  exists e, encodeHandshake (MHelloRetryRequest (hrr_zeroed m)) = Ok e /\
    (b = true <-> exists x, find (fun x => ext_type x =? 65037) (hrr_extensions m) = Some x /\
                    ext_data x = Some (accept_confirmation h (str "hrr ech accept confirmation") inner (hc_data c ++ e))).
Proof.
  intros Hh Hc H. unfold checkAcceptHRR in H. bo H a E. bo H x E2.
  destruct (calcHRR_ok _ _ _ _ _ Hh Hc E) as (e & D2 & ->). exists e. split; [exact D2|].
  unfold getExtension, findExtension in E2. cbn [kind_type] in E2. destruct (find _ (hrr_extensions m)) as [y|] eqn:F.
  2:{ injection E2 as <-. injection H as <-. split; [discriminate|]. intros (? & ? & ?). discriminate. }
  destruct (ext_data y) as [d|] eqn:Ed; [|discriminate]. bo E2 v E3. destruct (read_conf _ _ E3) as (conf & rest & -> & -> & Hl). cbn [checks_end] in E2.
  destruct rest; [|discriminate]. injection E2 as <-. injection H as <-.
  rewrite C19_equal_iff, takeN_all by (rewrite conf_len by exact Hh; lia). rewrite app_nil_r in Ed. split.
  - intros ->. exists y. split; [reflexivity|exact Ed].
  - intros (z & [= <-] & Hz). congruence.
Qed.
(** What the server adds to an accepting HelloRetryRequest is one extension at the end, and the client with the same transcript and inner
    random recognises it. *)
Theorem C42_set_check_retry h c inner m m' : hash_ok h -> hc_hash c = h -> (forall x, In x (hrr_extensions m) -> ext_type x <> 65037) ->
  setAcceptHRR c h inner m = Ok m' ->
  checkAcceptHRR c h inner m' = Ok true /\
  exists conf, blen conf = 8 /\ m' = mkHRR (hrr_version m) (hrr_session_id m) (hrr_suite m) (hrr_compression m) (hrr_extensions m ++ [mkExt 65037 (Some conf)]).
Proof.
  intros Hh Hc Hx H. unfold setAcceptHRR in H. bo H e Ee. assert (He : e = mkExt 65037 (Some (zeros 8))) by (vm_compute in Ee; injection Ee as <-; reflexivity).
  clear Ee. subst e. bo H a E. cbn [ext_type] in H.
  assert (Ha : blen a = 8) by (destruct (calcHRR_ok _ _ _ _ _ Hh Hc E) as (e & _ & ->); apply conf_len, Hh).
  rewrite (takeN_all 8 a) in H by lia. injection H as <-. split.
  - unfold checkAcceptHRR.
    match type of E with _ = Ok a => assert (E' : calcAcceptHRR c h inner (mkHRR (hrr_version m) (hrr_session_id m) (hrr_suite m) (hrr_compression m) (hrr_extensions m ++ [mkExt 65037 (Some a)])) = Ok a) end.
    { rewrite <- E. unfold calcAcceptHRR. f_equal. unfold makeDummyHRR. cbn [hrr_session_id hrr_version hrr_suite hrr_compression hrr_extensions].
      destruct (hrr_session_id m); [|reflexivity]. f_equal. f_equal. rewrite !map_app. f_equal. }
    rewrite E'. cbn [bind hrr_extensions]. rewrite getExt_app by (cbn; auto).
    unfold getExtension, findExtension. cbn [find kind_type ext_type]. change (65037 =? 65037) with true. cbv iota. cbn [ext_data].
    replace (read_ext_body KEchHrr a) with (Ok (XEchHrr a, @nil byte)).
    + cbn [bind checks_end]. f_equal. apply C19_equal_iff. rewrite takeN_all by lia. reflexivity.
    + cbn [read_ext_body]. rewrite Ha. reflexivity.
  - exists a. split; [exact Ha|reflexivity].
Qed.

(** ** C43 *)
(** RFC 8446 4.4.3, RFC 9261, RFC 9345: 64 spaces, the context string, a zero byte, the content. *)
Definition context_string (c : cvctx) : bytes :=
  match c with
  | CvServer => str "TLS 1.3, server CertificateVerify"
  | CvClient => str "TLS 1.3, client CertificateVerify"
  | CvAuthenticator => str "Exported Authenticator"
  | CvClientDC => str "TLS, client delegated credentials"
  | CvServerDC => str "TLS, server delegated credentials"
  end.
Theorem C43_layout c tbs : prepareSignData c tbs = repeat x20 64 ++ context_string c ++ [x00] ++ tbs.
Proof. reflexivity. Qed.
Lemma no_zero c : ~ In x00 (cv_label c).
Proof. intros H. assert (E : existsb (Byte.eqb x00) (cv_label c) = true).
  { apply existsb_exists. exists x00. split; [exact H|reflexivity]. }
  destruct c; vm_compute in E; discriminate. Qed.
Lemma cut_zero (a b x y : bytes) : ~ In x00 a -> ~ In x00 b -> a ++ x00 :: x = b ++ x00 :: y -> a = b /\ x = y.
Proof.
  revert b. induction a as [|c a IH]; intros [|d b] Ha Hb H; cbn in H.
  - injection H as ->. auto.
  - injection H as <- _. exfalso. apply Hb. left. reflexivity.
  - injection H as -> _. exfalso. apply Ha. left. reflexivity.
  - injection H as -> H. destruct (IH b) as (-> & ->); auto.
    + intros K; apply Ha; right; exact K. + intros K; apply Hb; right; exact K.
Qed.
Lemma label_inj c d : cv_label c = cv_label d -> c = d.
Proof. destruct c, d; intros H; try reflexivity; exfalso; vm_compute in H; discriminate. Qed.
(** A signed content is never valid for another context or another content. *)
Theorem C43_injective c d s t : prepareSignData c s = prepareSignData d t -> c = d /\ s = t.
Proof.
  intros H. unfold prepareSignData in H. apply app_inv_head in H. apply cut_zero in H; try apply no_zero. destruct H as (H & ->).
  split; [apply label_inj, H|reflexivity].
Qed.
(** Every signed content starts with 64 spaces, so it cannot be taken for the TLS 1.2 ServerKeyExchange content whose first bytes are a random
    chosen by the peer, unless that random is all spaces. *)
Theorem C43_not_tls12 c s random params : blen random = 32 -> prepareSignData c s = random ++ params -> random = repeat x20 32.
Proof.
  intros Hr H. unfold prepareSignData in H. change (repeat x20 64) with (repeat x20 32 ++ repeat x20 32) in H. rewrite <- app_assoc in H.
  apply (f_equal (firstn 32)) in H. rewrite firstn_app in H. unfold blen in Hr.
  replace (32 - length (repeat x20 32))%nat with 0%nat in H by reflexivity. rewrite firstn_O, app_nil_r, firstn_all2 in H by (cbn; lia).
  rewrite firstn_app in H. replace (32 - length random)%nat with 0%nat in H by lia. rewrite firstn_O, app_nil_r, firstn_all2 in H by lia. symmetry; exact H.
Qed.

(** ** The hypotheses can be met *)
Definition ee_ctx : hsctx := mkHc toy_hash (be 4 77).
Definition ee_sh : ServerHello := mkSH 771 (be 32 12345678901234567890) (Some []) 4865 0 [mkExt 43 (Some (be 2 772))].
Definition ee_hrr : HelloRetryRequest := mkHRR 771 (Some (be 3 9)) 4865 0 [mkExt 43 (Some (be 2 772))].
Example C42_nonvacuous : exists m', setAcceptSH ee_ctx toy_hash (be 32 5) ee_sh = Ok m' /\ checkAcceptSH ee_ctx toy_hash (be 32 5) m' = Ok true /\
  checkAcceptSH ee_ctx toy_hash (be 32 5) ee_sh = Ok false.
Proof. eexists. split; [vm_compute; reflexivity|]. split; vm_compute; reflexivity. Qed.
Example C42_retry_nonvacuous : exists m', setAcceptHRR ee_ctx toy_hash (be 32 5) ee_hrr = Ok m' /\ checkAcceptHRR ee_ctx toy_hash (be 32 5) m' = Ok true /\
  checkAcceptHRR ee_ctx toy_hash (be 32 5) ee_hrr = Ok false.
Proof. eexists. split; [vm_compute; reflexivity|]. split; vm_compute; reflexivity. Qed.
Example C43_nonvacuous : prepareSignData CvServer (be 32 1) <> prepareSignData CvClient (be 32 1).
Proof. intros H. apply C43_injective in H. destruct H; discriminate. Qed.
