(** * C75: two ticket ciphers; C76: the client's certificates *)
From Verif Require Import Base Codec CodecSpec Hkdf HkdfSpec HkdfProofs Record RecordSpec Token Ticket TicketSpec PropsRecord PropsKeys PropsTicket PropsTicket2 DualTicket.
Open Scope N_scope.

(** ** C75 *)
(** A ticket made by the pair is one made by the first cipher. *)
Theorem C75_issue h gcm mp mi gc st t1 p1 now salt fb r b v :
  tc_encrypt (dual (aeadCipher h gcm mp mi gc st t1 p1 now salt) fb) r = Ok (Some (b, v)) ->
  ticket_encrypt h gcm st t1 p1 now salt r = Ok (Some (b, v)) /\
  (0 < v /\ v <= po_ticket p1 /\ v <= po_hs p1 /\ now + v * 1000000000 <= rs_hsTime r + po_hs p1 * 1000000000)%Z.
Proof. intro H. cbn [dual tc_encrypt aeadCipher] in H. split; [exact H|]. exact (C24_issue _ _ _ _ _ _ _ _ _ _ H). Qed.

(** Rotation: a ticket issued under secret [s] by a cipher (with the same context strings) resumes as long as [s] is in force in either
    of the two and the handshake is recent enough for that one's policy, whichever it is. *)
Section Rotation.
  Variables (h : hashalg) (gcm : bytes -> bytes -> aead) (mp : bytes -> res cert) (mi : bytes -> cert) (gc : bytes -> option cert).
  Variables (st : storage) (ctx : list bytes) (u0 u1 u2 : list (list bytes)) (t0 t1 t2 : token) (s : bytes).
  Variables (salt : bytes) (p0 p1 p2 : policy) (now0 now : Z) (r : resstate) (b : bytes) (v : Z) (cc : option cert).
  Definition recent (p : policy) : Prop := (now + 1000000000 <= whole_seconds (rs_hsTime r) + po_hs p * 1000000000)%Z.
  Definition sealed_by (t : token) (u : list (list bytes)) : Prop := tok_run h (mkToken [] ctx) u = Ok t.
  (** no secret of the list opens this ticket *)
  Definition none_opens (l : list bytes) : Prop := forall s', In s' l -> ae_try (token_aead h gcm ctx s' salt) (dropN 36 b) None 0 = Ok None.
  Hypothesis Hh : hash_ok h.
  Hypothesis Hc : ctx <> [].
  Hypothesis Hop : forall k iv, opens (gcm k iv) (gcm k iv).
  Hypothesis H0 : sealed_by t0 u0.
  Hypothesis F0 : exists rest, in_force [] u0 = s :: rest.
  Hypothesis H1 : sealed_by t1 u1.
  Hypothesis H2 : sealed_by t2 u2.
  Hypothesis Hs : blen salt = 32.
  Hypothesis Hr : rs_ok r.
  Hypothesis He : ticket_encrypt h gcm st t0 p0 now0 salt r = Ok (Some (b, v)).
  Hypothesis Hcc : client_restored mp mi st (rs_clientCert r) = Ok cc.
  Let c1 := aeadCipher h gcm mp mi gc st t1 p1 now salt.
  Let c2 := aeadCipher h gcm mp mi gc st t2 p2 now salt.

  Lemma one_cipher t u p pre post o : sealed_by t u -> in_force [] u = pre ++ s :: post -> none_opens pre ->
    ticket_decrypt h gcm mp mi gc t p now b = Ok o ->
    o = if (now + 1000000000 <=? whole_seconds (rs_hsTime r) + po_hs p * 1000000000)%Z then Some (rs_restored gc r cc) else None.
  Proof.
    intros A B C D. destruct F0 as [rest F0']. exact (C23_end_to_end h gcm mp mi gc st ctx u0 u t0 t s rest pre post salt p0 p now0 now r b v cc Hh Hc Hop H0 F0' A B Hs Hr He C Hcc o D).
  Qed.

Theorem C75_primary pre post : in_force [] u1 = pre ++ s :: post -> none_opens pre -> recent p1 ->
    forall o, tc_decrypt (dual c1 c2) b = Ok o -> o = Some (rs_restored gc r cc).
  Proof.
    intros B C D o H. cbn [dual tc_decrypt c1 aeadCipher] in H. apply bind_Ok in H. destruct H as [o1 [E H]].
    pose proof (one_cipher t1 u1 p1 pre post o1 H1 B C E) as K. unfold recent in D. apply Z.leb_le in D. rewrite D in K. subst o1. congruence.
  Qed.
  (** the primary does not know the secret (no secret of it opens the ticket) *)
Theorem C75_fallback pre post : none_opens (in_force [] u1) -> in_force [] u2 = pre ++ s :: post -> none_opens pre -> recent p2 ->
    forall o, tc_decrypt (dual c1 c2) b = Ok o -> o = Some (rs_restored gc r cc).
  Proof.
    intros N B C D o H. cbn [dual tc_decrypt c1 c2 aeadCipher] in H. clear c1 c2. apply bind_Ok in H. destruct H as [o1 [E H]].
    assert (o1 = None) as ->.
    { destruct o1 as [r1|]; [|reflexivity]. exfalso. apply C24_accept in E. destruct E as [_ [x [E _]]].
      unfold sealed_by in H1. rewrite C22_in_force in H1 by assumption. injection H1 as <-.
      unfold tok_decrypt in E. cbn [tk_secrets] in E. destruct (map (token_secret h ctx) (in_force [] u1)) as [|a l] eqn:Em; [discriminate|]. rewrite <- Em in E. clear Em a l.
      destruct (take kSaltLength b) as [[sa r1']|] eqn:E1; [|discriminate]. destruct (take 4 r1') as [[sq c]|] eqn:E2; [|discriminate].
      assert (Q : sa = salt /\ unbe sq = 0 /\ c = dropN 36 b).
      { unfold ticket_encrypt in He. apply bind_Ok in He. destruct He as (w & _ & Q). destruct (w <=? 0)%Z; [discriminate|].
        apply bind_Ok in Q. destruct Q as (e & _ & Q). apply bind_Ok in Q. destruct Q as ([k|] & Ek & Q); [|discriminate]. injection Q as -> _.
        destruct F0 as [rest F0']. rewrite (C22_token_format h gcm ctx u0 t0 s rest salt e None Hh Hc H0 F0') in Ek. apply bind_Ok in Ek. destruct Ek as (ct & _ & Ek). injection Ek as <-.
        apply take_Some in E1. destruct E1 as [E1 L1]. apply take_Some in E2. destruct E2 as [E2 L2]. rewrite E2 in E1.
        apply app_inj_len in E1; [|rewrite L1, Hs; reflexivity]. destruct E1 as [<- E1]. change (([x00; x00; x00; x00] ++ ct) = sq ++ c) in E1. apply app_inj_len in E1; [|rewrite L2; reflexivity]. destruct E1 as [<- <-].
        split; [reflexivity|]. split; [reflexivity|]. change (ct = dropN 36 (salt ++ [x00; x00; x00; x00] ++ ct)). rewrite app_assoc. rewrite dropN_app by (rewrite blen_app, Hs; reflexivity). reflexivity. }
      destruct Q as [-> [Q ->]]. rewrite Q in E. clear - E N Hh Hc Hs. unfold none_opens in N.
      induction (in_force [] u1) as [|s1 l IH]; cbn [map try_secrets] in E; [discriminate|].
      rewrite createAead_ok in E by assumption. cbn [bind] in E. apply bind_Ok in E. destruct E as (o & Et & E).
      assert (o = None) as -> by (pose proof (N s1 (or_introl eq_refl)) as K; rewrite K in Et; congruence).
      apply IH; [intros s' K; apply N; right; exact K|exact E]. }
    pose proof (one_cipher t2 u2 p2 pre post o H2 B C H) as K. unfold recent in D. apply Z.leb_le in D. rewrite D in K. exact K.
  Qed.
  (** The two policies are both asked: too old for the first, the ticket is still taken if the second knows the secret and is more lenient. *)
Theorem C75_lenient pre1 post1 pre2 post2 : in_force [] u1 = pre1 ++ s :: post1 -> none_opens pre1 -> ~ recent p1 ->
    in_force [] u2 = pre2 ++ s :: post2 -> none_opens pre2 -> recent p2 ->
    forall o, tc_decrypt (dual c1 c2) b = Ok o -> o = Some (rs_restored gc r cc).
  Proof.
    intros B1 C1 D1 B2 C2 D2 o H. cbn [dual tc_decrypt c1 c2 aeadCipher] in H. apply bind_Ok in H. destruct H as [o1 [E H]].
    pose proof (one_cipher t1 u1 p1 pre1 post1 o1 H1 B1 C1 E) as K. unfold recent in *.
    destruct (now + 1000000000 <=? whole_seconds (rs_hsTime r) + po_hs p1 * 1000000000)%Z eqn:Q; [apply Z.leb_le in Q; contradiction|]. subst o1.
    pose proof (one_cipher t2 u2 p2 pre2 post2 o H2 B2 C2 H) as K2. apply Z.leb_le in D2. rewrite D2 in K2. exact K2.
  Qed.
End Rotation.

(** Whatever the pair accepts was sealed under a secret in force in one of the two, for a handshake that is recent enough for that one. *)
Theorem C75_only h gcm mp mi gc st1 st2 ctx1 ctx2 u1 u2 t1 t2 p1 p2 now salt1 salt2 b r :
  hash_ok h -> ctx1 <> [] -> ctx2 <> [] -> (forall k iv, authentic (gcm k iv)) ->
  tok_run h (mkToken [] ctx1) u1 = Ok t1 -> tok_run h (mkToken [] ctx2) u2 = Ok t2 ->
  tc_decrypt (dual (aeadCipher h gcm mp mi gc st1 t1 p1 now salt1) (aeadCipher h gcm mp mi gc st2 t2 p2 now salt2)) b = Ok (Some r) ->
  exists ctx u p s salt seq c x, ((ctx = ctx1 /\ u = u1 /\ p = p1) \/ (ctx = ctx2 /\ u = u2 /\ p = p2)) /\
    In s (in_force [] u) /\ b = salt ++ be 4 seq ++ c /\ ae_enc (token_aead h gcm ctx s salt) x None seq = Ok c /\
    ticket_decode mp mi gc x = Ok r /\ (now + 1000000000 <= rs_hsTime r + po_hs p * 1000000000)%Z.
Proof.
  intros Hh N1 N2 Ha H1 H2 H. cbn [dual tc_decrypt aeadCipher] in H. apply bind_Ok in H. destruct H as [[r1|] [E H]].
  - injection H as ->. apply C24_accept in E. destruct E as [T [x [E D]]].
    destruct (C22_foreign_rejected h gcm ctx1 u1 t1 b None x Hh N1 Ha H1 E) as (s & sa & q & c & I & _ & Eb & Ec).
    exists ctx1, u1, p1, s, sa, q, c, x. split; [left; auto|]. auto.
  - apply C24_accept in H. destruct H as [T [x [E' D]]].
    destruct (C22_foreign_rejected h gcm ctx2 u2 t2 b None x Hh N2 Ha H2 E') as (s & sa & q & c & I & _ & Eb & Ec).
    exists ctx2, u2, p2, s, sa, q, c, x. split; [right; auto|]. auto.
Qed.
(** an error of the first is an error of the pair: the second is not asked *)
Theorem C75_error c1 c2 b e : tc_decrypt c1 b = Err e -> tc_decrypt (dual c1 c2) b = Err e.
Proof. intro H. cbn [dual tc_decrypt]. rewrite H. reflexivity. Qed.

(** ** C76: the client's certificates *)
(** which certificate the calls made so far leave for a scheme: the last one added with override, else the first one added *)
Definition has_scheme (s : N) (a : bool * option scert) (c : scert) : Prop := snd a = Some c /\ In s (sc_schemes c).
Definition overridden (l : list (bool * option scert)) (s : N) (c : scert) : Prop :=
  exists x y, l = x ++ (true, Some c) :: y /\ In s (sc_schemes c) /\ (forall d, In (true, Some d) y -> ~ In s (sc_schemes d)).
Definition first_added (l : list (bool * option scert)) (s : N) (c : scert) : Prop :=
  exists o x y, l = x ++ (o, Some c) :: y /\ In s (sc_schemes c) /\ (forall p d, In (p, Some d) x -> ~ In s (sc_schemes d)).
Definition for_scheme (l : list (bool * option scert)) (s : N) (c : scert) : Prop :=
  overridden l s c \/ ((forall d, ~ overridden l s d) /\ first_added l s c).
Definition offered (l : list (bool * option scert)) (s : N) : Prop := exists p c, In (p, Some c) l /\ In s (sc_schemes c).

Lemma cmFind_set s k c m : cmFind s (cmSet k c m) = if s =? k then Some c else cmFind s m.
Proof.
  induction m as [|[j d] m IH]; cbn [cmSet cmFind]; [reflexivity|]. destruct (k =? j) eqn:E; cbn [cmFind].
  - apply N.eqb_eq in E. subst. destruct (s =? j); reflexivity.
  - rewrite IH. destruct (s =? j) eqn:F; [|reflexivity]. destruct (s =? k) eqn:G; [lia|reflexivity].
Qed.
Lemma add_find (over : bool) x s : forall (l : list N) (m : certmap),
  cmFind s (fold_left (fun (m : certmap) s => match cmFind s m with Some _ => if over then cmSet s x m else m | None => cmSet s x m end) l m) =
  if existsb (N.eqb s) l then (match cmFind s m with Some c => if over then Some x else Some c | None => Some x end) else cmFind s m.
Proof.
  induction l as [|k l IH]; intro m; cbn [fold_left existsb]; [reflexivity|]. rewrite IH. clear IH.
  assert (E : cmFind s (match cmFind k m with Some _ => if over then cmSet k x m else m | None => cmSet k x m end) =
              if s =? k then (match cmFind s m with Some c => if over then Some x else Some c | None => Some x end) else cmFind s m).
  { destruct (s =? k) eqn:E.
    - apply N.eqb_eq in E. subst k. destruct (cmFind s m) eqn:F; [destruct over; [rewrite cmFind_set, N.eqb_refl; reflexivity|exact F]|rewrite cmFind_set, N.eqb_refl; reflexivity].
    - destruct (cmFind k m); [destruct over; [rewrite cmFind_set, E; reflexivity|reflexivity]|rewrite cmFind_set, E; reflexivity]. }
  rewrite E. destruct (s =? k); cbn [orb]; destruct (existsb (N.eqb s) l); destruct (cmFind s m); destruct over; reflexivity.
Qed.
Lemma existsb_In s l : existsb (N.eqb s) l = true <-> In s l.
Proof. rewrite existsb_exists. split; [intros [x [H E]]; apply N.eqb_eq in E; subst; exact H|intro H; exists s; split; [exact H|apply N.eqb_refl]]. Qed.

Lemma cmRun_snoc l a : cmRun (l ++ [a]) = addCert (fst a) (snd a) (cmRun l).
Proof. unfold cmRun. rewrite fold_left_app. reflexivity. Qed.
Lemma over_snoc l a s c : overridden (l ++ [a]) s c <-> (a = (true, Some c) /\ In s (sc_schemes c)) \/
  (overridden l s c /\ ~ (exists d, a = (true, Some d) /\ In s (sc_schemes d))).
Proof.
  split.
  - intros [x [y [E [I F]]]]. destruct y as [|y0 y] using rev_ind.
    + apply app_inj_tail in E. destruct E as [_ ->]. left. auto.
    + clear IHy. right. change (x ++ (true, Some c) :: y ++ [y0]) with (x ++ ((true, Some c) :: y) ++ [y0]) in E. rewrite app_assoc in E. apply app_inj_tail in E. destruct E as [-> ->]. split.
      * exists x, y. split; [reflexivity|]. split; [exact I|]. intros d K. apply F. apply in_or_app. auto.
      * intros [d [-> K]]. apply (F d); [apply in_or_app; right; left; reflexivity|exact K].
  - intros [[-> I]|[[x [y [-> [I F]]]] N]].
    + exists l, []. split; [reflexivity|]. split; [exact I|]. intros ? [].
    + exists x, (y ++ [a]). split; [rewrite <- app_assoc; reflexivity|]. split; [exact I|]. intros d K1 K2. apply in_app_or in K1. destruct K1 as [K1|[->|[]]]; [exact (F d K1 K2)|]. apply N. eauto.
Qed.
Lemma first_snoc l a s c : first_added (l ++ [a]) s c <-> first_added l s c \/ (~ offered l s /\ snd a = Some c /\ In s (sc_schemes c)).
Proof.
  split.
  - intros [o [x [y [E [I F]]]]]. destruct y as [|y0 y] using rev_ind.
    + apply app_inj_tail in E. destruct E as [-> ->]. right. split; [|auto]. intros [p [d [K1 K2]]]. exact (F p d K1 K2).
    + clear IHy. left. change (x ++ (o, Some c) :: y ++ [y0]) with (x ++ ((o, Some c) :: y) ++ [y0]) in E. rewrite app_assoc in E. apply app_inj_tail in E. destruct E as [-> ->].
      exists o, x, y. auto.
  - intros [[o [x [y [-> [I F]]]]]|[N [E I]]].
    + exists o, x, (y ++ [a]). split; [rewrite <- app_assoc; reflexivity|auto].
    + destruct a as [o a]. cbn [snd] in E. subst a. exists o, l, []. split; [reflexivity|]. split; [exact I|]. intros p d K1 K2. apply N. exists p, d. auto.
Qed.
Lemma offered_first l s c : first_added l s c -> offered l s.
Proof. intros [o [x [y [-> [I _]]]]]. exists o, c. split; [apply in_or_app; right; left; reflexivity|exact I]. Qed.
Lemma offered_over l s c : overridden l s c -> offered l s.
Proof. intros [x [y [-> [I _]]]]. exists true, c. split; [apply in_or_app; right; left; reflexivity|exact I]. Qed.

Lemma over_unique l s c d : overridden l s c -> overridden l s d -> c = d.
Proof.
  revert c d; induction l as [|a l IH] using rev_ind; intros c d H K; [destruct H as [x [y [E _]]]; destruct x; discriminate|].
  apply over_snoc in H. apply over_snoc in K. destruct H as [[-> H1]|[H1 H2]], K as [[E K1]|[K1 K2]].
  - congruence.
  - exfalso. apply K2. eauto.
  - exfalso. apply H2. eauto.
  - auto.
Qed.
Lemma first_unique l s c d : first_added l s c -> first_added l s d -> c = d.
Proof.
  revert c d; induction l as [|a l IH] using rev_ind; intros c d H K; [destruct H as [o [x [y [E _]]]]; destruct x; discriminate|].
  apply first_snoc in H. apply first_snoc in K. destruct H as [H|[H1 [H2 _]]], K as [K|[K1 [K2 _]]].
  - auto.
  - exfalso. apply K1. exact (offered_first _ _ _ H).
  - exfalso. apply H1. exact (offered_first _ _ _ K).
  - congruence.
Qed.
Lemma cmRun_find l s : (forall c, cmFind s (cmRun l) = Some c -> for_scheme l s c) /\ (cmFind s (cmRun l) = None -> ~ offered l s).
Proof.
  induction l as [|a l [IH1 IH2]] using rev_ind.
  - split; [discriminate|]. intros _ [p [c [[] _]]].
  - rewrite cmRun_snoc. destruct a as [o [x|]]; cbn [fst snd addCert].
    + rewrite add_find. destruct (existsb (N.eqb s) (sc_schemes x)) eqn:E.
      * apply existsb_In in E. split; [|destruct (cmFind s (cmRun l)); [destruct o|]; discriminate].
        intros c H. destruct (cmFind s (cmRun l)) as [c0|] eqn:F.
        -- destruct o.
           ++ injection H as <-. left. apply over_snoc. left. auto.
           ++ injection H as <-. destruct (IH1 c0 eq_refl) as [K|[K1 K2]].
              ** left. apply over_snoc. right. split; [exact K|]. intros [d [Q _]]. discriminate.
              ** right. split; [|apply first_snoc; left; exact K2]. intros d Q. apply over_snoc in Q. destruct Q as [[Q _]|[Q _]]; [discriminate|exact (K1 d Q)].
        -- injection H as <-. specialize (IH2 eq_refl). destruct o.
           ++ left. apply over_snoc. left. auto.
           ++ right. split.
              ** intros d Q. apply over_snoc in Q. destruct Q as [[Q _]|[Q _]]; [discriminate|]. apply IH2. exact (offered_over _ _ _ Q).
              ** apply first_snoc. right. auto.
      * assert (E' : ~ In s (sc_schemes x)) by (intro K; apply existsb_In in K; congruence). split.
        -- intros c H. destruct (IH1 c H) as [K|[K1 K2]].
           ++ left. apply over_snoc. right. split; [exact K|]. intros [d [Q1 Q2]]. injection Q1 as _ <-. contradiction.
           ++ right. split; [|apply first_snoc; left; exact K2]. intros d Q. apply over_snoc in Q. destruct Q as [[Q1 Q2]|[Q _]]; [injection Q1 as _ <-; contradiction|exact (K1 d Q)].
        -- intros H [p [c [K1 K2]]]. apply in_app_or in K1. destruct K1 as [K1|[K1|[]]]; [exact (IH2 H (ex_intro _ p (ex_intro _ c (conj K1 K2))))|]. injection K1 as _ <-. contradiction.
    + split.
      * intros c H. destruct (IH1 c H) as [K|[K1 K2]].
        -- left. apply over_snoc. right. split; [exact K|]. intros [d [Q1 Q2]]. discriminate.
        -- right. split; [|apply first_snoc; left; exact K2]. intros d Q. apply over_snoc in Q. destruct Q as [[Q1 Q2]|[Q _]]; [discriminate|exact (K1 d Q)].
      * intros H [p [c [K1 K2]]]. apply in_app_or in K1. destruct K1 as [K1|[K1|[]]]; [exact (IH2 H (ex_intro _ p (ex_intro _ c (conj K1 K2))))|]. discriminate.
Qed.

(** The certificate chosen: the first of the client's schemes that the server lists and for which a certificate was added, with the
    certificate last added for it with override or else the first one added; none exactly if there is no such scheme. *)
Theorem C76_choice l supported peer c s : clientGetCert (cmRun l) supported peer = Some (c, s) ->
  exists x y, supported = x ++ s :: y /\ In s peer /\ for_scheme l s c /\ (forall k, In k x -> ~ (In k peer /\ offered l k)).
Proof.
  induction supported as [|k r IH]; cbn [clientGetCert]; [discriminate|].
  destruct (cmRun_find l k) as [F1 F2]. destruct (cmFind k (cmRun l)) as [d|] eqn:E.
  - destruct (existsb (N.eqb k) peer) eqn:P.
    + intro H. injection H as -> ->. exists [], r. split; [reflexivity|]. split; [apply existsb_In, P|]. split; [apply F1; reflexivity|]. intros ? [].
    + intro H. destruct (IH H) as [x [y [-> [A [B C]]]]]. exists (k :: x), y. split; [reflexivity|]. split; [exact A|]. split; [exact B|].
      intros j [<-|K]; [|exact (C j K)]. intros [Q _]. apply existsb_In in Q. congruence.
  - intro H. destruct (IH H) as [x [y [-> [A [B C]]]]]. exists (k :: x), y. split; [reflexivity|]. split; [exact A|]. split; [exact B|].
    intros j [<-|K]; [|exact (C j K)]. intros [_ Q]. exact (F2 eq_refl Q).
Qed.
Theorem C76_none l supported peer : clientGetCert (cmRun l) supported peer = None <-> forall s, In s supported -> In s peer -> ~ offered l s.
Proof.
  induction supported as [|k r IH]; cbn [clientGetCert]; [split; [intros _ s []|reflexivity]|].
  destruct (cmRun_find l k) as [F1 F2]. destruct (cmFind k (cmRun l)) as [d|] eqn:E.
  - assert (O : offered l k) by (destruct (F1 d eq_refl) as [K|[_ K]]; [exact (offered_over _ _ _ K)|exact (offered_first _ _ _ K)]).
    destruct (existsb (N.eqb k) peer) eqn:P.
    + split; [discriminate|]. intro H. exfalso. apply (H k); [left; reflexivity|apply existsb_In, P|exact O].
    + rewrite IH. split.
      * intros H s [<-|K]; [|auto]. intro Q. apply existsb_In in Q. congruence.
      * intros H s K. apply H. right. exact K.
  - rewrite IH. split.
    + intros H s [<-|K] Q; [exact (F2 eq_refl)|exact (H s K Q)].
    + intros H s K. apply H. right. exact K.
Qed.
(** what is meant is one certificate *)
Theorem C76_unique l s c d : for_scheme l s c -> for_scheme l s d -> c = d.
Proof.
  intros [H|[H1 H2]] [K|[K1 K2]]; [exact (over_unique _ _ _ _ H K)|exfalso; exact (K1 c H)|exfalso; exact (H1 d K)|exact (first_unique _ _ _ _ H2 K2)].
Qed.
Example cm_run : let a := mkSc 1 [1027; 2052] in let b := mkSc 2 [2052] in let c := mkSc 3 [2052; 1283] in
  clientGetCert (cmRun [(false, Some a); (true, Some b); (false, None); (false, Some c)]) [1025; 2052; 1027] [1027; 2052] = Some (b, 2052) /\
  clientGetCert (cmRun [(false, Some a); (false, Some b); (false, Some c)]) [1025; 2052; 1027] [1027; 2052] = Some (a, 2052) /\
  clientGetCert (cmRun [(false, Some a)]) [1283] [1027; 1283] = None.
Proof. repeat split. Qed.

(** a ticket of the old cipher (secret 5), after the new one (secret 6) was put in front: taken by the fallback; and with a stricter
    policy in front of the same secret, taken by the fallback as well *)
(** a hash whose values depend on everything *)
Definition dx_four (x : N) : bytes := be 8 x ++ be 8 x ++ be 8 x ++ be 8 x.
Definition dx_fn (m : bytes) : bytes := dx_four (fold_left (fun a b => N.land (a * 65599 + b2n b + 1) 0xffffffffffffffff) m 7).
Definition dx_hash : hashalg := mkHash 32 64 dx_fn (dx_four 7).
Definition dx_cipher (n : N) (p : policy) (now : Z) : tcipher :=
  aeadCipher dx_hash toy_gcm (fun _ => fail) (fun i => mkCertObj i None) (fun _ => None) SNone
    (mkToken [token_secret dx_hash [ticketLabel] (exs n)] [ticketLabel]) p now (be 32 9).
Definition dx_try (c : tcipher) : res (option resstate) :=
  t <- tc_encrypt (dx_cipher 5 (mkPol 3600 259200) 1000000000000) ex_rs ;;
  match t with Some (b, _) => tc_decrypt c b | None => fail end.
Definition dx_taken (r : res (option resstate)) : bool := match r with Ok (Some _) => true | _ => false end.
Example dx_run :
  dx_taken (dx_try (dual (dx_cipher 6 (mkPol 3600 259200) 1000000000000) (dx_cipher 5 (mkPol 3600 259200) 1000000000000))) = true /\
  dx_taken (dx_try (dual (dx_cipher 5 (mkPol 0 0) 1000000000000) (dx_cipher 5 (mkPol 3600 259200) 1000000000000))) = true /\
  dx_taken (dx_try (dual (dx_cipher 6 (mkPol 3600 259200) 1000000000000) (dx_cipher 7 (mkPol 3600 259200) 1000000000000))) = false.
Proof. vm_compute. repeat split. Qed.
