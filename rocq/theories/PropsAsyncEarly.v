(** * C71: application writes around early data *)
From Verif Require Import Base AsyncEarly.
From Coq Require Import Permutation.
Open Scope N_scope.

(** ** Specification *)
Definition gather {A B} (f : A -> list B) (L : list A) : list B := concat (map f L).
(** Writes that were taken; those handed to the state machine, in order; those that have an outcome here (handed down or failed). *)
Definition taken : list cev -> list wr := gather (fun e => match e with EWrite w => [w] | _ => [] end).
Definition handed : list cev -> list wr := gather (fun e => match e with EEarly w | EApp w => [w] | _ => [] end).
Definition outcomes : list cev -> list wr := gather (fun e => match e with EEarly w | EApp w | EErr w => [w] | _ => [] end).
Definition datas (l : list wr) : bytes := concat (map wr_data l).
(** The bytes handed to the state machine as early data; as ordinary application data. *)
Definition early_data : list cev -> bytes := gather (fun e => match e with EEarly w => wr_data w | _ => [] end).
Definition app_data : list cev -> bytes := gather (fun e => match e with EApp w => wr_data w | EResend d => d | _ => [] end).
Definition is_fail (e : cev) : bool := match e with EFail => true | _ => false end.
Definition is_moved (e : cev) : bool := match e with EMoved => true | _ => false end.
Definition is_resend (e : cev) : bool := match e with EResend _ => true | _ => false end.
Definition is_told (e : cev) : bool := match e with EHsOk | EHsErr => true | _ => false end.
(** Early data was rejected and is not to be sent again. *)
Definition is_lost (c : ecfg) (e : cev) : bool := match e with ESuccess a st ed => negb a && negb (ec_resend c && earlyParametersMatch st ed) | _ => false end.
Definition lost (c : ecfg) (L : list cev) : bool := existsb is_on L && existsb (is_lost c) L.
Definition all_events (P : list cev -> cev -> Prop) (L : list cev) : Prop := forall L1 e L2, L = L1 ++ e :: L2 -> P L1 e.
(** What may follow a log. *)
Definition legal (c : ecfg) (L : list cev) (e : cev) : Prop :=
  match e with
  | EEarly w =>
      In w (taken L) /\ ~ In w (outcomes L) /\ existsb is_moved L = false /\ (existsb is_fail L = false -> taken L = handed L ++ [w])
      /\ (exists max, In (EEarlyOn max) L /\ blen (early_data L) + blen (wr_data w) <= max) /\ (existsb is_success L = true -> lost c L = true /\ wr_data w = [])
  | EApp w =>
      In w (taken L) /\ ~ In w (outcomes L) /\ existsb is_moved L = false /\ (existsb is_fail L = false -> exists rest, taken L = handed L ++ w :: rest)
      /\ (existsb is_on L = true -> existsb is_success L = true) /\ lost c L = false
  | EErr w => In w (taken L) /\ ~ In w (outcomes L) /\ existsb is_fail L = true
  | EResend d => d = early_data L /\ existsb is_resend L = false /\ ec_resend c = true /\ (exists st ed, In (ESuccess false st ed) L /\ earlyParametersMatch st ed = true)
  | EEarlyOn _ => existsb is_on L = false /\ existsb is_success L = false
  | EHsOk => existsb is_told L = false /\ (existsb is_on L = true \/ existsb is_success L = true)
  | EHsErr => existsb is_told L = false /\ existsb is_fail L = true
  | EReplaySafe => existsb is_success L = true /\ lost c L = false
  | EClosed => lost c L = true /\ existsb is_moved L = true
  | _ => True
  end.
(** The same parameters: the version may also be 1.3 where it was Facebook's draft 26, which is the same but for its number. *)
Definition same_params (st ed : epar) : Prop :=
  (ep_version st = ep_version ed \/ (ep_version st = 772 /\ ep_version ed = 64282)) /\ ep_cipher st = ep_cipher ed /\ ep_alpn st = ep_alpn ed /\ ep_server st = ep_server ed /\ ep_client st = ep_client ed.

(** ** Proofs *)
Lemma oeqb_eq a b : oeqb a b = true <-> a = b.
Proof. destruct a as [x|], b as [y|]; cbn [oeqb]; [rewrite bytes_eqb_eq|..]; split; congruence. Qed.
Lemma cim_eq a b : certIdentityMatch a b = true <-> a = b.
Proof. destruct a as [x|], b as [y|]; cbn [certIdentityMatch]; [rewrite bytes_eqb_eq|..]; split; congruence. Qed.
Theorem C71_match st ed : earlyParametersMatch st ed = true <-> same_params st ed.
Proof.
  unfold earlyParametersMatch, same_params, tls13, tls13_26_fb.
  rewrite <- oeqb_eq, <- (cim_eq (ep_server st)), <- (cim_eq (ep_client st)), <- (N.eqb_eq (ep_cipher st)).
  rewrite <- (N.eqb_eq (ep_version st) (ep_version ed)), <- (N.eqb_eq (ep_version st) 772), <- (N.eqb_eq (ep_version ed) 64282).
  destruct (ep_version st =? ep_version ed), (ep_version st =? 772), (ep_version ed =? 64282); cbn [negb andb orb];
    destruct (ep_cipher st =? ep_cipher ed); cbn [negb]; destruct (oeqb _ _); cbn [negb]; destruct (certIdentityMatch (ep_server st) _); cbn [negb]; destruct (certIdentityMatch (ep_client st) _); cbn [negb];
    intuition congruence.
Qed.

Lemma gather_snoc {A B} (f : A -> list B) L e : gather f (L ++ [e]) = gather f L ++ f e.
Proof. unfold gather. rewrite map_app, concat_app. cbn [map concat]. rewrite app_nil_r. reflexivity. Qed.
Lemma ex_snoc (f : cev -> bool) L e : existsb f (L ++ [e]) = existsb f L || f e.
Proof. rewrite existsb_app. cbn [existsb]. rewrite orb_false_r. reflexivity. Qed.
Lemma all_snoc P L e : all_events P L -> P L e -> all_events P (L ++ [e]).
Proof.
  intros H He L1 x L2 E. destruct L2 as [|y L2] using rev_ind.
  - apply app_inj_tail in E. destruct E as [-> ->]. exact He.
  - clear IHL2. rewrite app_comm_cons, app_assoc in E. apply app_inj_tail in E. destruct E as [E _]. eapply H, E.
Qed.
Definition pend (s : acl) : list wr := match cl_early s with Some e => es_pend e | None => [] end.
Definition queue (s : acl) : list wr := cl_hs s ++ pend s.
Definition errs_frame (f : cframe) : bool := match f with FHsErr _ | FErrs _ _ => true | _ => false end.
Definition rej_frame (f : cframe) : bool := match f with FHsErr true | FErrs true _ | FMoved true | FDeliver true => true | _ => false end.
Definition mv_frame (f : cframe) : bool := match f with FMoved _ | FDeliver _ => true | _ => false end.
(** Everything but what needs an error handler that is still running. *)
Record core (c : ecfg) (s : acl) : Prop := mkCore {
  i_legal : all_events (legal c) (cl_log s);
  i_ids : NoDup (map wr_id (writes (cl_log s)));
  i_part : Permutation (taken (cl_log s)) (outcomes (cl_log s) ++ queue s);
  i_hs : cl_hs s <> [] -> ec_early c = false /\ existsb is_success (cl_log s) = false;
  i_early : cl_early s <> None -> ec_early c = true /\ existsb is_on (cl_log s) = true /\ cl_cb s = false;
  i_early2 : existsb is_on (cl_log s) = true -> cl_early s <> None \/ (existsb is_success (cl_log s) = true /\ lost c (cl_log s) = false);
  i_left : forall e, cl_early s = Some e -> (es_pend e <> [] -> es_left e = 0) /\ exists max, In (EEarlyOn max) (cl_log s) /\ blen (early_data (cl_log s)) + es_left e <= max;
  i_nf : existsb is_fail (cl_log s) = false -> taken (cl_log s) = handed (cl_log s) ++ queue s;
  i_cb : cl_cb s = true -> existsb is_told (cl_log s) = false /\ existsb is_success (cl_log s) = false;
  i_cb2 : existsb is_fail (cl_log s) = false -> existsb is_connect (cl_log s) = true -> existsb is_success (cl_log s) = false -> ec_early c = false -> cl_cb s = true;
  i_conn : existsb is_connect (cl_log s) = false -> cl_cb s = false /\ taken (cl_log s) = [] /\ existsb is_told (cl_log s) = false /\ existsb is_success (cl_log s) = false /\ existsb is_on (cl_log s) = false;
  i_succ : existsb is_success (cl_log s) = true -> cl_early s = None \/ lost c (cl_log s) = true;
  i_lost : lost c (cl_log s) = true -> cl_early s <> None;
  i_noearly : existsb is_on (cl_log s) = false -> early_data (cl_log s) = [];
  i_noresend : existsb is_success (cl_log s) = false -> existsb is_resend (cl_log s) = false;
  i_resend : forall e, cl_early s = Some e -> existsb is_success (cl_log s) = false -> ec_resend c = true -> early_data (cl_log s) = match es_resend e with Some b => b | None => [] end;
  i_data : existsb is_fail (cl_log s) = false -> existsb is_success (cl_log s) = false -> datas (handed (cl_log s)) = app_data (cl_log s) ++ early_data (cl_log s);
  i_data2 : existsb is_fail (cl_log s) = false -> lost c (cl_log s) = false -> forall st ed, In (ESuccess false st ed) (cl_log s) -> datas (handed (cl_log s)) = app_data (cl_log s);
  i_hsok : In FHsOk (cl_stack s) -> existsb is_success (cl_log s) = true /\ lost c (cl_log s) = false;
  i_rejf : existsb rej_frame (cl_stack s) = true -> lost c (cl_log s) = true;
  i_mvf : existsb mv_frame (cl_stack s) = true -> cl_err s = true;
  i_err : cl_err s = existsb is_moved (cl_log s);
  i_err2 : cl_err s = true -> queue s = [] /\ existsb is_fail (cl_log s) = true }.
Record inv (c : ecfg) (s : acl) : Prop := mkInv {
  i_core : core c s;
  i_fail : existsb is_fail (cl_log s) = true -> cl_err s = true \/ existsb errs_frame (cl_stack s) = true;
  i_lostfail : lost c (cl_log s) = true -> existsb is_fail (cl_log s) = true;
  i_rej : lost c (cl_log s) = true -> cl_err s = false -> forall e, cl_early s = Some e -> es_left e = 0 }.

Lemma taken_snoc L e : taken (L ++ [e]) = taken L ++ match e with EWrite w => [w] | _ => [] end. Proof. apply gather_snoc. Qed.
Lemma handed_snoc L e : handed (L ++ [e]) = handed L ++ match e with EEarly w | EApp w => [w] | _ => [] end. Proof. apply gather_snoc. Qed.
Lemma outcomes_snoc L e : outcomes (L ++ [e]) = outcomes L ++ match e with EEarly w | EApp w | EErr w => [w] | _ => [] end. Proof. apply gather_snoc. Qed.
Lemma early_snoc L e : early_data (L ++ [e]) = early_data L ++ match e with EEarly w => wr_data w | _ => [] end. Proof. apply gather_snoc. Qed.
Lemma app_snoc L e : app_data (L ++ [e]) = app_data L ++ match e with EApp w => wr_data w | EResend d => d | _ => [] end. Proof. apply gather_snoc. Qed.
Lemma writes_snoc L e : writes (L ++ [e]) = writes L ++ match e with EWrite w | ERefuse w => [w] | _ => [] end.
Proof. unfold writes. rewrite map_app, concat_app. cbn [map concat]. rewrite app_nil_r. reflexivity. Qed.
Lemma lost_snoc c L e : lost c (L ++ [e]) = (existsb is_on L || is_on e) && (existsb (is_lost c) L || is_lost c e). Proof. unfold lost. rewrite !ex_snoc. reflexivity. Qed.
Lemma lost_same c L e : is_on e = false -> is_lost c e = false -> lost c (L ++ [e]) = lost c L. Proof. intros E1 E2. rewrite lost_snoc, E1, E2, !orb_false_r. reflexivity. Qed.
Lemma datas_app a b : datas (a ++ b) = datas a ++ datas b. Proof. unfold datas. rewrite map_app. apply concat_app. Qed.
Lemma lost_succ c L : lost c L = true -> existsb is_success L = true.
Proof. unfold lost. intros H. apply andb_true_iff in H. destruct H as [_ H]. apply existsb_exists in H. destruct H as (e & H1 & H2). apply existsb_exists. exists e. split; [exact H1|]. destruct e; try discriminate H2. reflexivity. Qed.
Lemma lost_on c L : lost c L = true -> existsb is_on L = true. Proof. unfold lost. intros H. apply andb_true_iff in H. apply H. Qed.
Ltac lg := rewrite ?taken_snoc, ?handed_snoc, ?outcomes_snoc, ?early_snoc, ?app_snoc, ?writes_snoc, ?ex_snoc, ?lost_same by reflexivity;
  cbn [is_fail is_moved is_resend is_told is_on is_success is_connect is_lost]; rewrite ?orb_false_r, ?orb_true_r, ?app_nil_r.
(** Only the stack changes. *)
Lemma core_stack c s s' : core c s -> cl_cb s' = cl_cb s -> cl_hs s' = cl_hs s -> cl_early s' = cl_early s -> cl_err s' = cl_err s -> cl_log s' = cl_log s ->
  (In FHsOk (cl_stack s') -> existsb is_success (cl_log s) = true /\ lost c (cl_log s) = false) -> (existsb rej_frame (cl_stack s') = true -> lost c (cl_log s) = true) ->
  (existsb mv_frame (cl_stack s') = true -> cl_err s = true) -> core c s'.
Proof.
  intros [H1 H2 H3 H4 H5 H6 H7 H8 H9 H10 H11 H12 H13 H14 H15 H16 H17 H18 H19 H20 H21 H22 H23] E1 E2 E3 E4 E5 E6 E7 E8.
  split; unfold queue, pend in *; rewrite ?E1, ?E2, ?E3, ?E4, ?E5; assumption.
Qed.
(** A foreign frame that means nothing is pushed; a frame is popped. *)
Lemma core_push c s f : core c s -> f <> FHsOk -> rej_frame f = false -> mv_frame f = false -> core c (call s f).
Proof.
  intros H E1 E2 E3. eapply (core_stack c s); [exact H|reflexivity..| | |]; unfold call; cbn [cl_stack In existsb]; rewrite ?E2, ?E3; cbn [orb].
  - intros [X|X]; [congruence|]. apply (i_hsok _ _ H X).
  - apply H.
  - apply H.
Qed.
Lemma core_pop c s f k : core c s -> cl_stack s = f :: k -> core c (set_stack s k).
Proof.
  intros H E. eapply (core_stack c s); [exact H|reflexivity..| | |]; unfold set_stack; cbn [cl_stack].
  - intros X. apply (i_hsok _ _ H). rewrite E. right. exact X.
  - intros X. apply (i_rejf _ _ H). rewrite E. cbn [existsb]. rewrite X. apply orb_true_r.
  - intros X. apply (i_mvf _ _ H). rewrite E. cbn [existsb]. rewrite X. apply orb_true_r.
Qed.
Lemma core_replay c s b : core c s -> core c (set_replay s b).
Proof. intros H. eapply (core_stack c s); [exact H|reflexivity..| | |]; apply H. Qed.
(** Events that change nothing. *)
Definition quiet (e : cev) : bool := match e with EOk _ | EClosed | EReplaySafe | ESetReplay => true | _ => false end.
Lemma in_snoc {A} (x : A) L e : In x L -> In x (L ++ [e]). Proof. intros H. apply in_or_app. left. exact H. Qed.
Ltac boring H7 H18 :=
  lg; try assumption;
  try (let e := fresh in let E := fresh in intros e E; destruct (H7 e E) as [? (? & ? & ?)]; split; [assumption|]; eexists; split; [apply in_snoc; eassumption|assumption]);
  try (let F := fresh in let X := fresh in let G := fresh in intros F G ? ? X; apply in_app_or in X; destruct X as [X|[X|[]]]; [eapply H18; eassumption|discriminate X]).
Lemma core_quiet c s e : core c s -> quiet e = true -> legal c (cl_log s) e -> core c (say s e).
Proof.
  intros [H1 H2 H3 H4 H5 H6 H7 H8 H9 H10 H11 H12 H13 H14 H15 H16 H17 H18 H19 H20 H21 H22 H23] Hq Hl.
  destruct e; try discriminate Hq; (split; unfold say, queue, pend in *; cbn [cl_cb cl_hs cl_early cl_err cl_stack cl_log]; [apply all_snoc; assumption|..]); boring H7 H18.
Qed.
(** deliverAllErrors begins. *)
Lemma core_fail c s : core c s -> core c (say s EFail).
Proof.
  intros [H1 H2 H3 H4 H5 H6 H7 H8 H9 H10 H11 H12 H13 H14 H15 H16 H17 H18 H19 H20 H21 H22 H23].
  split; unfold say, queue, pend in *; cbn [cl_cb cl_hs cl_early cl_err cl_stack cl_log]; [apply all_snoc; [assumption|exact Logic.I]|..]; boring H7 H18; try discriminate.
  intros X. split; [apply H23, X|reflexivity].
Qed.
Lemma core_told c s e : core c s -> cl_cb s = true -> (e = EHsErr /\ existsb is_fail (cl_log s) = true) \/ (e = EHsOk /\ (existsb is_on (cl_log s) = true \/ existsb is_success (cl_log s) = true)) ->
  (existsb is_fail (cl_log s) = false -> existsb is_success (cl_log s) = false -> ec_early c = true) -> core c (say (set_cb s false) e).
Proof.
  intros [H1 H2 H3 H4 H5 H6 H7 H8 H9 H10 H11 H12 H13 H14 H15 H16 H17 H18 H19 H20 H21 H22 H23] Hc He Hx.
  assert (C : existsb is_connect (cl_log s) = false -> False) by (intros E; destruct (H11 E) as (A1 & _); congruence).
  assert (Hl : legal c (cl_log s) e) by (destruct He as [[-> He]|[-> He]]; (split; [apply H9, Hc|exact He])).
  destruct He as [[-> He]|[-> He]]; (split; unfold say, set_cb, queue, pend in *; cbn [cl_cb cl_hs cl_early cl_err cl_stack cl_log]; [apply all_snoc; assumption|..]); boring H7 H18; try discriminate; try (intros X; destruct (C X)).
  - intros X. destruct (H5 X) as (A1 & A2 & A3). auto.
  - congruence.
  - intros X. destruct (H5 X) as (A1 & A2 & A3). auto.
  - intros X1 X2 X3 X4. rewrite (Hx X1 X3) in X4. discriminate X4.
Qed.
(** A queued write fails. *)
Lemma perm_err (a b : list wr) w l : Permutation a (b ++ w :: l) -> Permutation a ((b ++ [w]) ++ l). Proof. rewrite <- app_assoc. exact (fun H => H). Qed.
Lemma nodup_taken (L : list cev) : NoDup (map wr_id (writes L)) -> NoDup (taken L).
Proof.
  intros Hn. apply NoDup_map_inv in Hn. revert Hn. unfold writes, taken, gather. induction L as [|e L IH]; cbn [map concat]; [constructor|]. intros H. destruct e; cbn [app] in *; try (apply IH, H).
  - inversion H as [|? ? N1 N2]; subst. constructor; [|apply IH, N2]. intros X. apply N1. clear - X. revert X. induction L as [|e L IH]; cbn [map concat]; [auto|]. intros X. apply in_app_or in X. apply in_or_app. destruct X as [X|X]; [left; destruct e; cbn [In] in *; auto; destruct X|right; auto].
  - inversion H as [|? ? N1 N2]; subst. apply IH, N2.
Qed.
Lemma nodup_perm_out (L : list cev) w l q : NoDup (map wr_id (writes L)) -> Permutation (taken L) (outcomes L ++ q) -> q = w :: l -> In w (taken L) /\ ~ In w (outcomes L).
Proof.
  intros Hn Hp ->. pose proof (nodup_taken _ Hn) as Ht. split.
  - eapply Permutation_in; [apply Permutation_sym, Hp|]. apply in_or_app. right. left. reflexivity.
  - pose proof (Permutation_NoDup Hp Ht) as X. apply NoDup_remove_2 in X. intros Y. apply X. apply in_or_app. left. exact Y.
Qed.
Lemma core_err_hs c s w l : core c (set_hs s (w :: l)) -> existsb is_fail (cl_log s) = true -> core c (set_hs (say s (EErr w)) l).
Proof.
  intros [H1 H2 H3 H4 H5 H6 H7 H8 H9 H10 H11 H12 H13 H14 H15 H16 H17 H18 H19 H20 H21 H22 H23] Hf. unfold set_hs, queue, pend in *. cbn [cl_cb cl_hs cl_early cl_err cl_stack cl_log] in *.
  destruct (nodup_perm_out _ _ _ _ H2 H3 eq_refl) as [N1 N2].
  split; unfold say, queue, pend in *; cbn [cl_cb cl_hs cl_early cl_err cl_stack cl_log]; [apply all_snoc; [assumption|split; [exact N1|split; [exact N2|exact Hf]]]|..]; boring H7 H18; try (intros; congruence).
  - apply perm_err, H3.
  - intros X. apply H4. discriminate.
  - intros X. destruct (H23 X) as [Y _]. discriminate Y.
Qed.
Lemma core_err_early c s w l n r : core c (set_early s (Some (mkEst n (w :: l) r))) -> cl_hs s = [] -> existsb is_fail (cl_log s) = true -> core c (set_early (say s (EErr w)) (Some (mkEst n l r))).
Proof.
  intros [H1 H2 H3 H4 H5 H6 H7 H8 H9 H10 H11 H12 H13 H14 H15 H16 H17 H18 H19 H20 H21 H22 H23] Hh Hf. unfold set_early, queue, pend in *. cbn [cl_cb cl_hs cl_early cl_err cl_stack cl_log es_pend es_left] in *. rewrite Hh in *. cbn [app] in *.
  destruct (nodup_perm_out _ _ _ _ H2 H3 eq_refl) as [N1 N2].
  split; unfold say, queue, pend in *; cbn [cl_cb cl_hs cl_early cl_err cl_stack cl_log es_pend es_left]; rewrite ?Hh; cbn [app]; [apply all_snoc; [assumption|split; [exact N1|split; [exact N2|exact Hf]]]|..]; boring H7 H18; try (intros; congruence).
  - apply perm_err, H3.
  - intros X. apply H5. discriminate.
  - intros X. destruct (H6 X) as [Y|Y]; [left; discriminate|right; exact Y].
  - intros e E. injection E as <-. cbn [es_pend es_left]. destruct (H7 _ eq_refl) as [A1 (m & A2 & A3)]. cbn [es_pend es_left] in *. split; [intros _; apply A1; discriminate|]. exists m. split; [apply in_snoc, A2|]. exact A3.
  - intros X. destruct (H12 X) as [Y|Y]; [discriminate Y|right; exact Y].
  - intros e E X1 X2. injection E as <-. apply (H16 _ eq_refl X1 X2).
  - intros X. destruct (H23 X) as [Y _]. discriminate Y.
Qed.
Lemma skip_hs c l : forall s, core c (set_hs s l) -> existsb is_fail (cl_log s) = true ->
  existsb is_fail (cl_log (fst (skip s l))) = true /\ core c (set_hs (fst (skip s l)) (match snd (skip s l) with Some (_, l') => l' | None => [] end)) /\
  cl_cb (fst (skip s l)) = cl_cb s /\ cl_early (fst (skip s l)) = cl_early s /\ cl_err (fst (skip s l)) = cl_err s /\ cl_stack (fst (skip s l)) = cl_stack s /\ lost c (cl_log (fst (skip s l))) = lost c (cl_log s).
Proof.
  induction l as [|w l IH]; intros s H Hf; cbn [skip]; [cbn [fst snd]; auto 10|]. pose proof (core_err_hs _ _ _ _ H Hf) as H2.
  assert (F2 : existsb is_fail (cl_log (say s (EErr w))) = true) by (unfold say; cbn [cl_log]; lg; exact Hf). assert (L2 : lost c (cl_log (say s (EErr w))) = lost c (cl_log s)) by (unfold say; cbn [cl_log]; lg; reflexivity).
  destruct (wr_cb w); [cbn [fst snd]; split; [exact F2|]; split; [exact H2|]; auto 10|]. destruct (IH _ H2 F2) as (A1 & A2 & A3 & A4 & A5 & A6 & A7). rewrite A3, A4, A5, A6, A7, L2. split; [exact A1|]. split; [exact A2|]. auto 10.
Qed.
Lemma skip_early c n r l : forall s, core c (set_early s (Some (mkEst n l r))) -> cl_hs s = [] -> existsb is_fail (cl_log s) = true ->
  existsb is_fail (cl_log (fst (skip s l))) = true /\ core c (set_early (fst (skip s l)) (Some (mkEst n (match snd (skip s l) with Some (_, l') => l' | None => [] end) r))) /\
  cl_hs (fst (skip s l)) = [] /\ cl_cb (fst (skip s l)) = cl_cb s /\ cl_err (fst (skip s l)) = cl_err s /\ lost c (cl_log (fst (skip s l))) = lost c (cl_log s) /\ cl_stack (fst (skip s l)) = cl_stack s.
Proof.
  induction l as [|w l IH]; intros s H Hh Hf; cbn [skip]; [cbn [fst snd]; auto 10|]. pose proof (core_err_early _ _ _ _ _ _ H Hh Hf) as H2.
  assert (F2 : existsb is_fail (cl_log (say s (EErr w))) = true) by (unfold say; cbn [cl_log]; lg; exact Hf). assert (L2 : lost c (cl_log (say s (EErr w))) = lost c (cl_log s)) by (unfold say; cbn [cl_log]; lg; reflexivity).
  destruct (wr_cb w); [cbn [fst snd]; split; [exact F2|]; split; [exact H2|]; auto 10|]. destruct (IH _ H2 Hh F2) as (A1 & A2 & A3 & A4 & A5 & A6 & A7). rewrite A4, A5, A6, A7, L2. split; [exact A1|]. split; [exact A2|]. auto 10.
Qed.
Lemma core_moved c s : core c s -> queue s = [] -> existsb is_fail (cl_log s) = true -> core c (say (set_err s true) EMoved).
Proof.
  intros [H1 H2 H3 H4 H5 H6 H7 H8 H9 H10 H11 H12 H13 H14 H15 H16 H17 H18 H19 H20 H21 H22 H23] Hq Hf.
  split; unfold say, set_err, queue, pend in *; cbn [cl_cb cl_hs cl_early cl_err cl_stack cl_log]; [apply all_snoc; [assumption|exact Logic.I]|..]; boring H7 H18; auto.
Qed.
Lemma core_push2 c s f : core c s -> f <> FHsOk -> (rej_frame f = true -> lost c (cl_log s) = true) -> (mv_frame f = true -> cl_err s = true) -> core c (call s f).
Proof.
  intros H E1 E2 E3. eapply (core_stack c s); [exact H|reflexivity..| | |]; unfold call; cbn [cl_stack In existsb].
  - intros [X|X]; [congruence|]. apply (i_hsok _ _ H X).
  - destruct (rej_frame f); [auto|]. apply H.
  - destruct (mv_frame f); [auto|]. apply H.
Qed.
Definition rejok (c : ecfg) (s : acl) (rej : bool) : Prop := rej = true -> lost c (cl_log s) = true.
Lemma errors_early_inv c s rej : core c s -> cl_hs s = [] -> existsb is_fail (cl_log s) = true -> rejok c s rej -> inv c (errors_early s rej).
Proof.
  intros H Hh Hf Hr. unfold errors_early. destruct (cl_early s) as [[n l r]|] eqn:Ee; cbn [es_pend es_left es_resend].
  - assert (H0 : core c (set_early s (Some (mkEst n l r)))) by (eapply (core_stack c s); [exact H|reflexivity|reflexivity|symmetry; exact Ee|reflexivity|reflexivity|apply H|apply H|apply H]).
    destruct (skip_early c n r l s H0 Hh Hf) as (A1 & A2 & A3 & A4 & A5 & A6 & A7). pose proof (i_left _ _ H _ Ee) as [B1 _]. cbn [es_pend es_left] in B1.
    assert (Hl : match snd (skip s l) with Some _ => l <> [] | None => True end) by (destruct l; cbn [skip snd]; [exact Logic.I|]; destruct (wr_cb w); cbn [snd]; [discriminate|]; destruct (snd (skip _ l)); [discriminate|exact Logic.I]).
    destruct (skip s l) as [s' [[w l']|]] eqn:Es; cbn [fst snd] in *.
    + split.
      * apply core_push2; [exact A2|discriminate| |discriminate]. destruct rej; [|discriminate]. intros _. cbn [cl_log set_early]. rewrite A6. apply Hr. reflexivity.
      * intros _. right. reflexivity.
      * intros _. exact A1.
      * intros _ _ e E. cbn [call set_early cl_early] in E. injection E as <-. cbn [es_left]. apply B1, Hl.
    + assert (M : core c (say (set_err (set_early s' (Some (mkEst n [] r))) true) EMoved)). { apply core_moved; [exact A2| |exact A1]. unfold queue, pend, set_early. cbn [cl_hs cl_early es_pend]. rewrite A3. reflexivity. }
      split.
      * apply core_push2; [exact M|discriminate| |reflexivity]. destruct rej; [|discriminate]. intros _. cbn [cl_log set_early set_err say]. lg. rewrite A6. apply Hr. reflexivity.
      * intros _. left. reflexivity.
      * intros _. cbn [call say set_err set_early cl_log]. lg. exact A1.
      * intros _ E. discriminate E.
  - assert (M : core c (say (set_err s true) EMoved)). { apply core_moved; [exact H| |exact Hf]. unfold queue, pend. rewrite Ee, Hh. reflexivity. }
    split.
    * apply core_push2; [exact M|discriminate| |reflexivity]. destruct rej; [|discriminate]. intros _. cbn [cl_log set_err say]. lg. apply Hr. reflexivity.
    * intros _. left. reflexivity.
    * intros _. cbn [call say set_err set_early cl_log]. lg. exact Hf.
    * intros _ E. discriminate E.
Qed.
Lemma errors_inv c s rej : core c s -> existsb is_fail (cl_log s) = true -> rejok c s rej -> inv c (errors s rej).
Proof.
  intros H Hf Hr. unfold errors. assert (H0 : core c (set_hs s (cl_hs s))) by (eapply (core_stack c s); [exact H|reflexivity..|apply H|apply H|apply H]).
  destruct (skip_hs c (cl_hs s) s H0 Hf) as (A1 & A2 & A3 & A4 & A5 & A6 & A7).
  assert (Hl : match snd (skip s (cl_hs s)) with Some _ => cl_hs s <> [] | None => True end) by (destruct (cl_hs s) as [|w l]; cbn [skip snd]; [exact Logic.I|]; destruct (wr_cb w); cbn [snd]; [discriminate|]; destruct (snd (skip _ l)); [discriminate|exact Logic.I]).
  destruct (skip s (cl_hs s)) as [s' [[w l']|]] eqn:Es; cbn [fst snd] in *.
  - split.
    + apply core_push2; [exact A2|discriminate| |discriminate]. destruct rej; [|discriminate]. intros _. cbn [cl_log set_hs]. rewrite A7. apply Hr. reflexivity.
    + intros _. right. reflexivity.
    + intros _. exact A1.
    + cbn [call set_hs cl_log]. rewrite A7. intros X. apply lost_succ in X. destruct (i_hs _ _ H Hl) as [_ Y]. congruence.
  - apply errors_early_inv; [exact A2|reflexivity|exact A1|]. intros X. cbn [cl_log set_hs]. rewrite A7. apply Hr, X.
Qed.
Lemma deliverAll_inv c s rej : core c s -> rejok c s rej -> (rej = true -> cl_cb s = false) -> inv c (deliverAllErrors s rej).
Proof.
  intros H Hr Hc. unfold deliverAllErrors. cbv zeta. pose proof (core_fail _ _ H) as HF. set (t := say s EFail) in *. assert (Ft : existsb is_fail (cl_log t) = true) by (unfold t, say; cbn [cl_log]; lg; reflexivity).
  assert (Rt : rejok c t rej) by (intros X; unfold t, say; cbn [cl_log]; lg; apply Hr, X). change (cl_cb t) with (cl_cb s). destruct (cl_cb s) eqn:Ec.
  - destruct rej; [discriminate (Hc eq_refl)|]. split.
    + apply core_push; [|discriminate|reflexivity|reflexivity]. apply core_told; [exact HF|exact Ec|left; auto|]. congruence.
    + intros _. right. reflexivity.
    + intros _. cbn [call say set_cb cl_log]. lg. exact Ft.
    + intros X. apply lost_succ in X. revert X. cbn [call say set_cb cl_log]. lg. intros X. destruct (i_cb _ _ HF Ec) as [_ Y]. congruence.
  - apply errors_inv; [apply core_replay, HF|exact Ft|exact Rt].
Qed.
Lemma nodup_snoc_id (L : list cev) w : NoDup (map wr_id (writes L)) -> ~ In (wr_id w) (map wr_id (writes L)) -> NoDup (map wr_id (writes L ++ [w])).
Proof. intros H1 H2. rewrite map_app. cbn [map]. apply NoDup_rev in H1. rewrite <- (rev_involutive (map wr_id (writes L) ++ [wr_id w])). apply NoDup_rev. rewrite rev_app_distr. cbn [rev app]. constructor; [|exact H1]. rewrite <- in_rev. exact H2. Qed.
Lemma in_ids (L : list cev) w : In w (taken L) -> In (wr_id w) (map wr_id (writes L)).
Proof. intros H. apply in_map. revert H. unfold writes, taken, gather. induction L as [|e L IH]; cbn [map concat]; [auto|]. intros X. apply in_app_or in X. apply in_or_app. destruct X as [X|X]; [left; destruct e; cbn [In] in *; auto; destruct X|right; auto]. Qed.
Lemma write_inv c s w good tconn : inv c s -> callowed c s (MWrite w good tconn) -> inv c (writeAppData c s w good tconn).
Proof.
  intros HI (Hcon & Hid & Hg & Ht). destruct HI as [H HF HL HR]. unfold writeAppData. destruct good; cbn [negb]; cbv zeta.
  2:{ assert (X : core c (say s (ERefuse w))).
      { destruct H as [H1 H2 H3 H4 H5 H6 H7 H8 H9 H10 H11 H12 H13 H14 H15 H16 H17 H18 H19 H20 H21 H22 H23].
        split; unfold say, queue, pend in *; cbn [cl_cb cl_hs cl_early cl_err cl_stack cl_log]; [apply all_snoc; [assumption|exact Logic.I]|..]; boring H7 H18. apply nodup_snoc_id; assumption. }
      assert (Y : inv c (say s (ERefuse w))) by (split; [exact X|..]; unfold say; cbn [cl_log cl_err cl_stack cl_early]; lg; assumption).
      destruct (wr_cb w); [|exact Y]. split; [apply core_push; [exact X|discriminate|reflexivity|reflexivity]|..]; apply Y. }
  assert (He : cl_err s = false) by (destruct (cl_err s); [discriminate (Hg eq_refl)|reflexivity]). assert (Hm : existsb is_moved (cl_log s) = false) by (rewrite <- (i_err _ _ H); exact He).
  assert (Hnt : ~ In w (taken (cl_log s))) by (intros X; apply Hid, in_ids, X).
  assert (Hno : ~ In w (outcomes (cl_log s))). { intros X. apply Hnt. eapply Permutation_in; [apply Permutation_sym, (i_part _ _ H)|]. apply in_or_app. left. exact X. }
  unfold say at 1. cbn [cl_early]. destruct (cl_early s) as [[n p r]|] eqn:Ee; cbn [es_pend es_left es_resend].
  - assert (Eh : cl_hs s = []). { destruct (cl_hs s) eqn:E; [reflexivity|]. exfalso. destruct (i_hs _ _ H ltac:(congruence)) as [A _]. destruct (i_early _ _ H ltac:(congruence)) as [B _]. congruence. }
    destruct ((match p with [] => false | _ :: _ => true end) || (n <? blen (wr_data w))) eqn:Eb.
    + assert (X : core c (set_early (say s (EWrite w)) (Some (mkEst 0 (p ++ [w]) r)))).
      { destruct H as [H1 H2 H3 H4 H5 H6 H7 H8 H9 H10 H11 H12 H13 H14 H15 H16 H17 H18 H19 H20 H21 H22 H23]. unfold queue, pend in *. rewrite Ee, Eh in *. cbn [es_pend app] in *.
        split; unfold say, set_early, queue, pend; cbn [cl_cb cl_hs cl_early cl_err cl_stack cl_log es_pend]; rewrite ?Eh; cbn [app]; [apply all_snoc; [assumption|exact Logic.I]|..]; boring H7 H18; try (intros; congruence).
        - apply nodup_snoc_id; assumption.
        - rewrite app_assoc. apply Permutation_app_tail, H3.
        - intros _. apply H5. discriminate.
        - intros _. left. discriminate.
        - intros e E. injection E as <-. cbn [es_pend es_left]. split; [reflexivity|]. destruct (H7 _ eq_refl) as [_ (m & A1 & A2)]. exists m. split; [apply in_snoc, A1|]. cbn [es_left] in A2. lia.
        - intros X. rewrite (H8 X), app_assoc. reflexivity.
        - intros X. destruct (H12 X) as [Y|Y]; [discriminate Y|right; exact Y].
        - intros e E X1 X2. injection E as <-. apply (H16 _ eq_refl X1 X2). }
      split; [exact X|..]; unfold set_early, say; cbn [cl_log cl_err cl_stack cl_early]; lg; try assumption. intros _ _ e E. injection E as <-. reflexivity.
    + apply orb_false_iff in Eb. destruct Eb as [Eb1 Eb2]. destruct p; [|discriminate Eb1]. clear Eb1. apply N.ltb_ge in Eb2.
      set (rb := if ec_resend c then _ else _). set (X := say (set_early _ _) _).
      assert (CX : core c X).
      { pose proof H as H0. destruct H as [H1 H2 H3 H4 H5 H6 H7 H8 H9 H10 H11 H12 H13 H14 H15 H16 H17 H18 H19 H20 H21 H22 H23]. unfold queue, pend in *. rewrite Ee, Eh in *. cbn [es_pend app] in *. rewrite app_nil_r in *.
        assert (Hs : existsb is_success (cl_log s) = true -> lost c (cl_log s) = true /\ wr_data w = []).
        { intros Y. destruct (H12 Y) as [Z|Z]; [discriminate Z|]. split; [exact Z|]. pose proof (HR Z He _ eq_refl) as Z2. cbn [es_left] in Z2. apply blen_0. lia. }
        split; unfold X, say, set_early, queue, pend; cbn [cl_cb cl_hs cl_early cl_err cl_stack cl_log es_pend]; rewrite ?Eh; cbn [app]; [|..]; boring H7 H18; try (intros; congruence).
        - apply all_snoc; [apply all_snoc; [assumption|exact Logic.I]|]. cbn [legal]. lg. split; [apply in_or_app; right; left; reflexivity|]. split; [exact Hno|]. split; [exact Hm|]. split.
          + intros Y. rewrite (H8 Y), ?app_nil_r. reflexivity.
          + split; [|exact Hs]. destruct (H7 _ eq_refl) as [_ (m & A1 & A2)]. exists m. split; [apply in_snoc, A1|]. cbn [es_left] in A2. lia.
        - apply nodup_snoc_id; assumption.
        - apply Permutation_app_tail, H3.
        - intros _. apply H5. discriminate.
        - intros _. left. discriminate.
        - intros e E. injection E as <-. cbn [es_pend es_left]. split; [congruence|]. destruct (H7 _ eq_refl) as [_ (m & A1 & A2)]. exists m. split; [apply in_snoc, in_snoc, A1|]. cbn [es_left] in A2. rewrite blen_app. lia.
        - intros Y. rewrite (H8 Y), ?app_nil_r. reflexivity.
        - intros Y. destruct (H12 Y) as [Z|Z]; [discriminate Z|right; exact Z].
        - intros Y. destruct (H5 ltac:(discriminate)) as (_ & Z & _). congruence.
        - intros e E Y1 Y2. injection E as <-. cbn [es_resend]. unfold rb. rewrite Y2. rewrite (H16 _ eq_refl Y1 Y2). reflexivity.
        - intros Y1 Y2. rewrite datas_app, (H17 Y1 Y2). unfold datas at 1. cbn [map concat]. rewrite app_nil_r, app_assoc. reflexivity.
        - intros Y1 Y2 st ed Y3. exfalso. assert (Z : existsb is_success (cl_log s) = true). { apply in_app_or in Y3. destruct Y3 as [Y3|[Y3|[]]]; [|discriminate Y3]. apply in_app_or in Y3. destruct Y3 as [Y3|[Y3|[]]]; [|discriminate Y3]. apply existsb_exists. exists (ESuccess false st ed). auto. }
          destruct (Hs Z) as [Z1 _]. congruence. }
      split; [apply core_push; [exact CX|discriminate|reflexivity|reflexivity]|..]; unfold X, call, say, set_early; cbn [cl_log cl_err cl_stack cl_early]; lg; try assumption.
      intros Y1 Y2 e E. injection E as <-. cbn [es_left]. pose proof (HR Y1 Y2 _ eq_refl) as Z. cbn [es_left] in Z. lia.
  - change (cl_cb (say s (EWrite w))) with (cl_cb s). destruct ((cl_cb s || tconn) && negb (ec_early c)) eqn:Eb.
    + apply andb_true_iff in Eb. destruct Eb as [Eb1 Eb2]. apply negb_true_iff in Eb2.
      assert (Es : existsb is_success (cl_log s) = false). { destruct (existsb is_success (cl_log s)) eqn:E; [|reflexivity]. rewrite (Ht eq_refl), orb_false_r in Eb1. destruct (i_cb _ _ H Eb1). congruence. }
      assert (X : core c (set_hs (say s (EWrite w)) (cl_hs s ++ [w]))).
      { destruct H as [H1 H2 H3 H4 H5 H6 H7 H8 H9 H10 H11 H12 H13 H14 H15 H16 H17 H18 H19 H20 H21 H22 H23]. unfold queue, pend in *. rewrite Ee in *. rewrite app_nil_r in *.
        split; unfold say, set_hs, queue, pend; cbn [cl_cb cl_hs cl_early cl_err cl_stack cl_log es_pend]; rewrite ?Ee; [apply all_snoc; [assumption|exact Logic.I]|..]; boring H7 H18; try (intros; congruence).
        - apply nodup_snoc_id; assumption.
        - rewrite app_assoc. apply Permutation_app_tail, H3.
        - intros _. auto.
        - intros Y. rewrite (H8 Y), app_assoc. reflexivity. }
      split; [exact X|..]; unfold set_hs, say; cbn [cl_log cl_err cl_stack cl_early]; lg; try assumption. intros _ _ e E. congruence.
    + assert (Elost : lost c (cl_log s) = false). { destruct (lost c (cl_log s)) eqn:E; [|reflexivity]. destruct (i_lost _ _ H E Ee). }
      assert (Eon : existsb is_on (cl_log s) = true -> existsb is_success (cl_log s) = true). { intros Y. destruct (i_early2 _ _ H Y) as [Z|[Z _]]; [congruence|exact Z]. }
      set (X := say (say s (EWrite w)) (EApp w)). assert (CX : core c X).
      { destruct H as [H1 H2 H3 H4 H5 H6 H7 H8 H9 H10 H11 H12 H13 H14 H15 H16 H17 H18 H19 H20 H21 H22 H23]. unfold queue, pend in *. rewrite Ee in *. rewrite app_nil_r in *.
        assert (Eh : existsb is_fail (cl_log s) = false -> cl_hs s = []).
        { intros Y. destruct (cl_hs s) eqn:E; [reflexivity|]. exfalso. destruct (H4 ltac:(congruence)) as [A1 A2]. rewrite (H10 Y Hcon A2 A1), A1 in Eb. discriminate Eb. }
        split; unfold X, say, queue, pend; cbn [cl_cb cl_hs cl_early cl_err cl_stack cl_log es_pend]; rewrite ?Ee; [|..]; boring H7 H18; try (intros; congruence).
        - apply all_snoc; [apply all_snoc; [assumption|exact Logic.I]|]. cbn [legal]. lg. split; [apply in_or_app; right; left; reflexivity|]. split; [exact Hno|]. split; [exact Hm|]. split.
          + intros Y. exists []. rewrite (H8 Y), (Eh Y), app_nil_r. reflexivity.
          + split; [exact Eon|exact Elost].
        - apply nodup_snoc_id; assumption.
        - eapply perm_trans; [apply Permutation_app_tail, H3|]. rewrite <- !app_assoc. apply Permutation_app_head, Permutation_app_comm.
        - intros Y. rewrite (H8 Y), (Eh Y), !app_nil_r. reflexivity.
        - intros Y1 Y2. rewrite datas_app, (H17 Y1 Y2). assert (Z : early_data (cl_log s) = []). { apply H14. destruct (existsb is_on (cl_log s)); [|reflexivity]. rewrite (Eon eq_refl) in Y2. discriminate Y2. }
          rewrite Z, !app_nil_r. unfold datas. cbn [map concat]. rewrite app_nil_r. reflexivity.
        - intros Y1 Y2 st ed Y3. rewrite datas_app, (H18 Y1 Y2 st ed); [unfold datas; cbn [map concat]; rewrite app_nil_r; reflexivity|]. apply in_app_or in Y3. destruct Y3 as [Y3|[Y3|[]]]; [|discriminate Y3]. apply in_app_or in Y3. destruct Y3 as [Y3|[Y3|[]]]; [exact Y3|discriminate Y3]. }
      split; [apply core_push; [exact CX|discriminate|reflexivity|reflexivity]|..]; unfold X, call, say, set_early; cbn [cl_log cl_err cl_stack cl_early]; lg; try assumption. intros _ _ e E. congruence.
Qed.
Lemma core_hsok c s : core c s -> cl_cb s = false -> existsb is_told (cl_log s) = false -> existsb is_on (cl_log s) = true \/ existsb is_success (cl_log s) = true -> core c (say s EHsOk).
Proof.
  intros [H1 H2 H3 H4 H5 H6 H7 H8 H9 H10 H11 H12 H13 H14 H15 H16 H17 H18 H19 H20 H21 H22 H23] Hc Ht Ho.
  split; unfold say, queue, pend in *; cbn [cl_cb cl_hs cl_early cl_err cl_stack cl_log]; [apply all_snoc; [assumption|split; assumption]|..]; boring H7 H18.
  - congruence.
  - intros X. destruct (H11 X) as (A1 & A2 & A3 & A4 & A5). destruct Ho; congruence.
Qed.
Lemma nolost c L : existsb is_success L = false -> existsb (is_lost c) L = false.
Proof. induction L as [|e L IH]; cbn [existsb]; [auto|]. intros H. apply orb_false_iff in H. destruct H as [H1 H2]. rewrite (IH H2), orb_false_r. destruct e; try reflexivity. discriminate H1. Qed.
Lemma core_nocb c s : core c s -> (existsb is_fail (cl_log s) = true \/ existsb is_success (cl_log s) = true \/ ec_early c = true) -> core c (set_cb s false).
Proof.
  intros [H1 H2 H3 H4 H5 H6 H7 H8 H9 H10 H11 H12 H13 H14 H15 H16 H17 H18 H19 H20 H21 H22 H23] Hc.
  split; unfold set_cb, queue, pend in *; cbn [cl_cb cl_hs cl_early cl_err cl_stack cl_log]; try assumption; try discriminate.
  - intros X. destruct (H5 X) as (A1 & A2 & A3). auto.
  - intros X1 X2 X3 X4. destruct Hc as [Y|[Y|Y]]; congruence.
  - intros X. destruct (H11 X) as (A1 & A2). auto.
Qed.
Lemma earlyOn_inv c s max : inv c s -> callowed c s (MEarlyOn max) -> inv c (earlySuccess s max).
Proof.
  intros [H HF HL HR] (Hc & Hcon & Hon & Hsu & He). unfold earlySuccess. cbv zeta.
  assert (En : cl_early s = None). { destruct (cl_early s) eqn:E; [|reflexivity]. destruct (i_early _ _ H ltac:(congruence)) as (_ & A & _). congruence. }
  assert (Eh : cl_hs s = []). { destruct (cl_hs s) eqn:E; [reflexivity|]. destruct (i_hs _ _ H ltac:(congruence)). congruence. }
  assert (X : core c (set_early (say (set_cb s false) (EEarlyOn max)) (Some (mkEst max [] None)))).
  { assert (Hn : core c (set_cb s false)) by (apply core_nocb; auto). clear H. destruct Hn as [H1 H2 H3 H4 H5 H6 H7 H8 H9 H10 H11 H12 H13 H14 H15 H16 H17 H18 H19 H20 H21 H22 H23].
    unfold queue, pend, set_cb in *. cbn [cl_cb cl_hs cl_early cl_err cl_stack cl_log] in *. rewrite En, Eh in *. cbn [app] in *. rewrite app_nil_r in *.
    assert (Elost : lost c (cl_log s ++ [EEarlyOn max]) = false) by (rewrite lost_snoc, (nolost _ _ Hsu); cbn [is_lost orb]; apply andb_false_r).
    split; unfold say, set_early, set_cb, queue, pend; cbn [cl_cb cl_hs cl_early cl_err cl_stack cl_log es_pend]; rewrite ?Eh, ?Elost; cbn [app]; [apply all_snoc; [assumption|split; assumption]|..]; lg; try assumption; try discriminate; try (intros; congruence).
    - auto.
    - intros _. left. discriminate.
    - intros e E. injection E as <-. cbn [es_pend es_left]. split; [congruence|]. exists max. split; [apply in_or_app; right; left; reflexivity|]. rewrite (H14 Hon). change (blen []) with 0. lia.
    - intros e E X1 X2. injection E as <-. apply H14, Hon.
    - intros X1 X2 st ed X3. exfalso. apply in_app_or in X3. destruct X3 as [X3|[X3|[]]]; [|discriminate X3]. assert (Z : existsb is_success (cl_log s) = true) by (apply existsb_exists; exists (ESuccess false st ed); auto). congruence.
    - intros Y. destruct (H19 Y) as [Z _]. congruence.
    - intros Y. pose proof (lost_succ _ _ (H20 Y)) as Z. congruence. }
  assert (Y : inv c (set_early (say (set_cb s false) (EEarlyOn max)) (Some (mkEst max [] None)))).
  { split; [exact X|..]; unfold set_early, say, set_cb; cbn [cl_log cl_err cl_stack cl_early]; lg; try assumption; rewrite lost_snoc, (nolost _ _ Hsu); cbn [is_lost orb]; rewrite andb_false_r; discriminate. }
  change (cl_cb (set_early (say s (EEarlyOn max)) (Some (mkEst max [] None)))) with (cl_cb s). destruct (cl_cb s) eqn:Ec.
  - assert (T : core c (say (set_early (say (set_cb s false) (EEarlyOn max)) (Some (mkEst max [] None))) EHsOk)).
    { apply core_hsok; [exact X|reflexivity| |]; unfold set_early, say, set_cb; cbn [cl_log]; lg; [apply (i_cb _ _ H Ec)|auto]. }
    split; [apply core_push; [exact T|discriminate|reflexivity|reflexivity]|..]; unfold call, set_early, say, set_cb; cbn [cl_log cl_err cl_stack cl_early]; lg; try assumption; rewrite lost_snoc, (nolost _ _ Hsu); cbn [is_lost orb]; rewrite andb_false_r; discriminate.
  - replace (set_early (say s (EEarlyOn max)) (Some (mkEst max [] None))) with (set_early (say (set_cb s false) (EEarlyOn max)) (Some (mkEst max [] None))); [exact Y|]. unfold set_early, say, set_cb. cbn [cl_cb cl_hs cl_early cl_replay cl_err cl_stack cl_log]. rewrite Ec. reflexivity.
Qed.
(** The handshake completes. *)
Lemma flush_log l : forall s, flush s l = mkAcl (cl_cb s) (cl_hs s) (cl_early s) (cl_replay s) (cl_err s) (cl_stack s) (cl_log s ++ map EApp l).
Proof.
  induction l as [|w l IH]; intros s; cbn [flush fold_left map]; [rewrite app_nil_r; destruct s; reflexivity|]. change (fold_left _ l (say s (EApp w))) with (flush (say s (EApp w)) l). rewrite IH. unfold say. cbn [cl_cb cl_hs cl_early cl_replay cl_err cl_stack cl_log]. rewrite <- app_assoc. reflexivity.
Qed.
Lemma gather_app {A B} (f : A -> list B) L M : gather f (L ++ M) = gather f L ++ gather f M. Proof. unfold gather. rewrite map_app. apply concat_app. Qed.
Lemma gather_nil {B} (f : cev -> list B) l : (forall w, f (EApp w) = []) -> gather f (map EApp l) = []. Proof. intros H. induction l as [|w l IH]; [reflexivity|]. unfold gather in *. cbn [map concat]. rewrite H, IH. reflexivity. Qed.
Lemma taken_apps L l : taken (L ++ map EApp l) = taken L. Proof. unfold taken. rewrite gather_app, gather_nil by reflexivity. apply app_nil_r. Qed.
Lemma early_apps L l : early_data (L ++ map EApp l) = early_data L. Proof. unfold early_data. rewrite gather_app, gather_nil by reflexivity. apply app_nil_r. Qed.
Lemma writes_apps L l : writes (L ++ map EApp l) = writes L. Proof. unfold writes. change (concat (map ?f ?x)) with (gather f x). rewrite gather_app, gather_nil by reflexivity. apply app_nil_r. Qed.
Lemma handed_apps L l : handed (L ++ map EApp l) = handed L ++ l. Proof. unfold handed. rewrite gather_app. f_equal. induction l as [|w l IH]; [reflexivity|]. unfold gather in *. cbn [map concat app]. rewrite IH. reflexivity. Qed.
Lemma outcomes_apps L l : outcomes (L ++ map EApp l) = outcomes L ++ l. Proof. unfold outcomes. rewrite gather_app. f_equal. induction l as [|w l IH]; [reflexivity|]. unfold gather in *. cbn [map concat app]. rewrite IH. reflexivity. Qed.
Lemma app_apps L l : app_data (L ++ map EApp l) = app_data L ++ datas l. Proof. unfold app_data. rewrite gather_app. f_equal. induction l as [|w l IH]; [reflexivity|]. unfold gather, datas in *. cbn [map concat app]. rewrite IH. reflexivity. Qed.
Lemma ex_apps f L l : (forall w, f (EApp w) = false) -> existsb f (L ++ map EApp l) = existsb f L.
Proof. intros H. rewrite existsb_app. assert (E : existsb f (map EApp l) = false) by (induction l as [|w l IH]; [reflexivity|]; cbn [map existsb]; rewrite H, IH; reflexivity). rewrite E. apply orb_false_r. Qed.
Lemma lost_apps c L l : lost c (L ++ map EApp l) = lost c L. Proof. unfold lost. rewrite !ex_apps by reflexivity. reflexivity. Qed.
Lemma legal_apps c l : forall L, all_events (legal c) L -> NoDup (map wr_id (writes L)) -> Permutation (taken L) (outcomes L ++ l) -> (existsb is_fail L = false -> taken L = handed L ++ l) ->
  existsb is_moved L = false -> existsb is_success L = true -> lost c L = false -> all_events (legal c) (L ++ map EApp l).
Proof.
  induction l as [|w l IH]; intros L H1 H2 H3 H4 H5 H6 H7; cbn [map]; [rewrite app_nil_r; exact H1|]. rewrite (app_assoc L [EApp w] (map EApp l) : L ++ EApp w :: map EApp l = _). apply IH; lg; auto.
  - apply all_snoc; [exact H1|]. destruct (nodup_perm_out _ _ _ _ H2 H3 eq_refl) as [N1 N2]. cbn [legal]. split; [exact N1|]. split; [exact N2|]. split; [exact H5|]. split; [|auto]. intros X. exists l. apply H4, X.
  - apply perm_err, H3.
  - intros X. rewrite (H4 X), <- app_assoc. reflexivity.
Qed.
Ltac lga := rewrite ?taken_apps, ?handed_apps, ?outcomes_apps, ?early_apps, ?app_apps, ?writes_apps, ?lost_apps, ?ex_apps by reflexivity.
Lemma core_done c s a st ed R : core c s -> cl_err s = false -> existsb is_connect (cl_log s) = true -> existsb is_success (cl_log s) = false ->
  existsb is_on (cl_log s) && is_lost c (ESuccess a st ed) = false ->
  (R = [] /\ (a = false -> early_data (cl_log s) = [])) \/ (R = [EResend (early_data (cl_log s))] /\ a = false /\ ec_resend c = true /\ earlyParametersMatch st ed = true) ->
  core c (mkAcl false [] None (cl_replay s) (cl_err s) (cl_stack s) (((cl_log s ++ [ESuccess a st ed]) ++ R) ++ map EApp (queue s))).
Proof.
  intros H He Hc Hs Hl HR. set (L2 := (cl_log s ++ [ESuccess a st ed]) ++ R).
  assert (E : taken L2 = taken (cl_log s) /\ handed L2 = handed (cl_log s) /\ outcomes L2 = outcomes (cl_log s) /\ early_data L2 = early_data (cl_log s) /\ writes L2 = writes (cl_log s) /\ existsb is_fail L2 = existsb is_fail (cl_log s) /\
    existsb is_moved L2 = existsb is_moved (cl_log s) /\ existsb is_on L2 = existsb is_on (cl_log s) /\ existsb is_connect L2 = true /\ existsb is_told L2 = existsb is_told (cl_log s) /\ existsb is_success L2 = true /\ lost c L2 = false).
  { assert (X : existsb (is_lost c) (cl_log s) = false) by (apply nolost, Hs). unfold L2. destruct HR as [[-> _]|(-> & _)]; rewrite ?app_nil_r; lg; rewrite ?lost_same by reflexivity; rewrite ?lost_snoc, ?X; cbn [is_on]; rewrite ?orb_false_r, ?orb_false_l; auto 20. }
  destruct E as (E1 & E2 & E3 & E4 & E5 & E6 & E7 & E8 & E9 & E10 & E11 & E12).
  destruct H as [H1 H2 H3 H4 H5 H6 H7 H8 H9 H10 H11 H12 H13 H14 H15 H16 H17 H18 H19 H20 H21 H22 H23].
  assert (AL : all_events (legal c) L2).
  { unfold L2. assert (A1 : all_events (legal c) (cl_log s ++ [ESuccess a st ed])) by (apply all_snoc; [exact H1|exact Logic.I]). destruct HR as [[-> _]|(-> & -> & X2 & X3)]; [rewrite app_nil_r; exact A1|].
    apply all_snoc; [exact A1|]. cbn [legal]. lg. split; [reflexivity|]. split; [apply H15, Hs|]. split; [exact X2|]. exists st, ed. split; [apply in_or_app; right; left; reflexivity|exact X3]. }
  assert (Q0 : forall b r e k L, queue (mkAcl b [] None r e k L) = []) by reflexivity.
  split; cbn [cl_cb cl_hs cl_early cl_err cl_stack cl_log]; rewrite ?Q0; lga; rewrite ?E1, ?E2, ?E3, ?E4, ?E5, ?E6, ?E7, ?E8, ?E9, ?E10, ?E11, ?E12; try discriminate; try congruence; auto.
  - apply legal_apps; rewrite ?E1, ?E2, ?E3, ?E4, ?E5, ?E6, ?E7, ?E11; auto. congruence.
  - rewrite app_nil_r. exact H3.
  - rewrite app_nil_r. exact H8.
  - intros X1 _ st' ed' X3. rewrite datas_app, (H17 X1 Hs). assert (Z : a = false).
    { apply in_app_or in X3. destruct X3 as [X3|X3]; [|apply in_map_iff in X3; destruct X3 as (? & X3 & _); discriminate X3]. unfold L2 in X3. apply in_app_or in X3. destruct X3 as [X3|X3]; [|destruct HR as [[-> _]|(-> & _)]; [destruct X3|destruct X3 as [X3|[]]; discriminate X3]].
      apply in_app_or in X3. destruct X3 as [X3|[X3|[]]]; [|congruence]. exfalso. assert (Z : existsb is_success (cl_log s) = true) by (apply existsb_exists; exists (ESuccess false st' ed'); auto). congruence. }
    unfold L2. destruct HR as [[-> X4]|(-> & _)]; rewrite ?app_nil_r; lg; [rewrite (X4 Z), app_nil_r|]; reflexivity.
  - intros X. pose proof (lost_succ _ _ (H20 X)). congruence.
Qed.
Lemma replay_inv c s : inv c s -> existsb is_success (cl_log s) = true -> lost c (cl_log s) = false -> inv c (replay s).
Proof.
  intros [H HF HL HR] Hs Hl. unfold replay. destruct (cl_replay s); [|split; assumption].
  assert (X : core c (say (set_replay s false) EReplaySafe)) by (apply core_quiet; [apply core_replay, H|reflexivity|split; assumption]).
  split; [apply core_push; [exact X|discriminate|reflexivity|reflexivity]|..]; unfold call, say, set_replay; cbn [cl_log cl_err cl_stack cl_early]; lg; assumption.
Qed.
Lemma finish_inv c s : core c (set_cb s false) -> (existsb is_fail (cl_log s) = true -> cl_err s = true \/ existsb errs_frame (cl_stack s) = true) -> existsb is_success (cl_log s) = true -> lost c (cl_log s) = false ->
  (cl_cb s = true -> existsb is_told (cl_log s) = false) -> inv c (finish s).
Proof.
  intros H HF Hs Hl Ht. unfold finish. destruct (cl_cb s) eqn:Ec.
  - assert (X : core c (say (set_cb s false) EHsOk)) by (apply core_hsok; [exact H|reflexivity|apply Ht; reflexivity|right; exact Hs]).
    split.
    + eapply core_stack; [exact X|reflexivity..| | |]; unfold call, say, set_cb; cbn [cl_stack cl_log cl_err In existsb rej_frame mv_frame orb]; lg.
      * intros _. auto.
      * apply (i_rejf _ _ H).
      * apply (i_mvf _ _ H).
    + unfold call, say, set_cb; cbn [cl_log cl_err cl_stack existsb]. lg. exact HF.
    + unfold call, say, set_cb; cbn [cl_log]. lg. congruence.
    + unfold call, say, set_cb; cbn [cl_log]. lg. congruence.
  - apply replay_inv; [|exact Hs|exact Hl]. replace (set_cb s false) with s in H by (unfold set_cb; destruct s; cbn in *; congruence). split; [exact H|exact HF|congruence|congruence].
Qed.
Lemma success_inv c s a st ed : inv c s -> callowed c s (MSuccess a st ed) -> inv c (success c s a st ed).
Proof.
  intros [H HF HL HR] (Hc & Hs & He). unfold success. cbv zeta. rewrite flush_log. unfold set_hs at 1. cbn [cl_early say cl_hs].
  assert (Hlost : lost c (cl_log s ++ [ESuccess a st ed]) = existsb is_on (cl_log s) && is_lost c (ESuccess a st ed)) by (rewrite lost_snoc, (nolost _ _ Hs); cbn [is_on]; rewrite orb_false_r, orb_false_l; reflexivity).
  assert (Fin : forall R t, existsb is_on (cl_log s) && is_lost c (ESuccess a st ed) = false ->
    (R = [] /\ (a = false -> early_data (cl_log s) = [])) \/ (R = [EResend (early_data (cl_log s))] /\ a = false /\ ec_resend c = true /\ earlyParametersMatch st ed = true) ->
    t = mkAcl (cl_cb s) [] None (cl_replay s) (cl_err s) (cl_stack s) (((cl_log s ++ [ESuccess a st ed]) ++ R) ++ map EApp (queue s)) -> inv c (finish t)).
  { intros R t X1 X2 ->. pose proof (core_done c s a st ed R H He Hc Hs X1 X2) as X3. apply finish_inv; cbn [cl_log cl_err cl_stack cl_cb].
    - exact X3.
    - lga. destruct X2 as [[-> _]|(-> & _)]; rewrite ?app_nil_r; lg; exact HF.
    - lga. destruct X2 as [[-> _]|(-> & _)]; rewrite ?app_nil_r; lg; reflexivity.
    - lga. destruct X2 as [[-> _]|(-> & _)]; rewrite ?app_nil_r; lg; rewrite Hlost; exact X1.
    - intros Y. lga. destruct X2 as [[-> _]|(-> & _)]; rewrite ?app_nil_r; lg; apply (i_cb _ _ H Y). }
  destruct (cl_early s) as [[n p r]|] eqn:Ee; cbn [es_pend].
  - destruct (i_early _ _ H ltac:(congruence)) as (A1 & A2 & A3). assert (Eh : cl_hs s = []). { destruct (cl_hs s) eqn:E; [reflexivity|]. destruct (i_hs _ _ H ltac:(congruence)). congruence. }
    rewrite Eh. cbn [map say cl_log]. rewrite app_nil_r. assert (Q : queue s = p) by (unfold queue, pend; rewrite Ee, Eh; reflexivity).
    set (t := set_hs _ []). assert (Et : t = mkAcl (cl_cb s) [] (cl_early s) (cl_replay s) (cl_err s) (cl_stack s) (cl_log s ++ [ESuccess a st ed])) by (rewrite Ee; reflexivity). clearbody t.
    destruct a; [|unfold handleEarlyReject; cbn [es_resend]; destruct (ec_resend c) eqn:Er; [destruct (earlyParametersMatch st ed) eqn:Em|]].
    + apply (Fin []); [apply andb_false_r|left; split; [reflexivity|discriminate]|]. rewrite flush_log, Et, Q. unfold set_early. cbn [cl_cb cl_hs cl_replay cl_err cl_stack cl_log]. rewrite app_nil_r. reflexivity.
    + assert (Eb : early_data (cl_log s) = match r with Some b => b | None => [] end) by (apply (i_resend _ _ H _ Ee Hs Er)). destruct r as [b|].
      * apply (Fin [EResend b]); [cbn [is_lost]; rewrite Er, Em; apply andb_false_r|right; rewrite Eb; auto|]. rewrite flush_log, Et, Q. unfold set_early, say. cbn [cl_cb cl_hs cl_replay cl_err cl_stack cl_log]. reflexivity.
      * apply (Fin []); [cbn [is_lost]; rewrite Er, Em; apply andb_false_r|left; auto|]. rewrite flush_log, Et, Q. unfold set_early. cbn [cl_cb cl_hs cl_replay cl_err cl_stack cl_log]. rewrite app_nil_r. reflexivity.
    + assert (El : lost c (cl_log s ++ [ESuccess false st ed]) = true) by (rewrite Hlost, A2; cbn [is_lost]; rewrite Er, Em; reflexivity). apply deliverAll_inv; [|intros _; rewrite Et; exact El|intros _; rewrite Et; exact A3].
      clear Fin. rewrite Et. clear Et. destruct H as [H1 H2 H3 H4 H5 H6 H7 H8 H9 H10 H11 H12 H13 H14 H15 H16 H17 H18 H19 H20 H21 H22 H23]. unfold queue, pend in *. rewrite Ee, Eh in *.
      split; unfold queue, pend; cbn [cl_cb cl_hs cl_early cl_err cl_stack cl_log]; [apply all_snoc; [exact H1|exact Logic.I]|..]; rewrite ?El; boring H7 H18; try (intros; congruence); try (intros _; left; discriminate); auto.
      * intros X. destruct (H19 X) as [Y _]. congruence.
    + assert (El : lost c (cl_log s ++ [ESuccess false st ed]) = true) by (rewrite Hlost, A2; cbn [is_lost]; rewrite Er; reflexivity). apply deliverAll_inv; [|intros _; rewrite Et; exact El|intros _; rewrite Et; exact A3].
      clear Fin. rewrite Et. clear Et. destruct H as [H1 H2 H3 H4 H5 H6 H7 H8 H9 H10 H11 H12 H13 H14 H15 H16 H17 H18 H19 H20 H21 H22 H23]. unfold queue, pend in *. rewrite Ee, Eh in *.
      split; unfold queue, pend; cbn [cl_cb cl_hs cl_early cl_err cl_stack cl_log]; [apply all_snoc; [exact H1|exact Logic.I]|..]; rewrite ?El; boring H7 H18; try (intros; congruence); try (intros _; left; discriminate); auto.
      * intros X. destruct (H19 X) as [Y _]. congruence.
  - assert (Eon : existsb is_on (cl_log s) = false). { destruct (existsb is_on (cl_log s)) eqn:E; [|reflexivity]. destruct (i_early2 _ _ H E) as [X|[X _]]; [congruence|congruence]. }
    apply (Fin []); [rewrite Eon; reflexivity|left; split; [reflexivity|intros _; apply (i_noearly _ _ H Eon)]|]. unfold set_hs, say, queue, pend. cbn [cl_cb cl_hs cl_early cl_replay cl_err cl_stack cl_log]. rewrite Ee, !app_nil_r. reflexivity.
Qed.
(** The frames of deliverAllErrors. *)
Definition early_frame (f : cframe) : bool := match f with FErrs _ true => true | _ => false end.
Definition fok (L : list cev) (f : cframe) : Prop := (errs_frame f = true -> existsb is_fail L = true) /\ (early_frame f = true -> existsb is_on L = true).
(** The replay safety callback is called only if it was set since it was last called. *)
Definition armed : list cev -> bool := fun L => fold_left (fun b e => match e with ESetReplay => true | EReplaySafe => false | _ => b end) L false.
Definition set_before (L : list cev) (e : cev) : Prop := e = EReplaySafe -> armed L = true.
Definition is_rs (e : cev) : bool := match e with EReplaySafe => true | _ => false end.
Lemma armed_snoc L e : armed (L ++ [e]) = match e with ESetReplay => true | EReplaySafe => false | _ => armed L end. Proof. unfold armed. rewrite fold_left_app. destruct e; reflexivity. Qed.
Definition frm (s : acl) : Prop := Forall (fok (cl_log s)) (cl_stack s) /\ (cl_early s <> None -> existsb is_on (cl_log s) = true) /\ (cl_replay s = true -> armed (cl_log s) = true) /\ all_events set_before (cl_log s).
Lemma fok_snoc L e k : Forall (fok L) k -> Forall (fok (L ++ [e])) k.
Proof. intros H. eapply Forall_impl; [|exact H]. intros f [A B]. split; intros X; rewrite ex_snoc; [rewrite (A X)|rewrite (B X)]; reflexivity. Qed.
Lemma frm_say s e : is_rs e = false -> frm s -> frm (say s e).
Proof.
  intros N (H1 & H2 & H3 & H4). unfold frm, say; cbn [cl_log cl_stack cl_early cl_replay]. split; [apply fok_snoc, H1|]. split; [intros X; rewrite ex_snoc, (H2 X); reflexivity|].
  split; [|apply all_snoc; [exact H4|intros ->; discriminate N]]. intros X. rewrite armed_snoc, (H3 X). destruct e; try reflexivity. discriminate N.
Qed.
Lemma frm_call s f : frm s -> fok (cl_log s) f -> frm (call s f). Proof. intros (H1 & H2) X. split; [constructor; assumption|exact H2]. Qed.
Lemma frm_same s s' : frm s -> cl_log s' = cl_log s -> cl_stack s' = cl_stack s -> (cl_early s' <> None -> cl_early s <> None) -> (cl_replay s' = true -> cl_replay s = true) -> frm s'.
Proof. intros (H1 & H2 & H3 & H4) E1 E2 E3 E4. unfold frm. rewrite E1, E2. split; [exact H1|]. split; [auto|]. split; [auto|exact H4]. Qed.
Ltac fsame H := refine (frm_same _ _ H _ _ _ _); [reflexivity|reflexivity|try exact (fun X => X); cbn [set_early say set_hs set_err set_cb set_replay cl_early] in *; congruence|first [exact (fun X => X)|cbn [set_early say set_hs set_err set_cb set_replay cl_replay]; congruence]].
Lemma skip_frm l : forall s s' r, frm s -> skip s l = (s', r) -> frm s' /\ (forall f, existsb f (cl_log s) = true -> existsb f (cl_log s') = true) /\ cl_early s' = cl_early s.
Proof.
  induction l as [|w l IH]; intros s s' r H; cbn [skip]; [intros [= <- <-]; auto|].
  assert (M : forall f, existsb f (cl_log s) = true -> existsb f (cl_log (say s (EErr w))) = true) by (intros f X; unfold say; cbn [cl_log]; rewrite ex_snoc, X; reflexivity).
  destruct (wr_cb w); [intros [= <- <-]; split; [(apply frm_say; [reflexivity|exact H])|auto]|]. intros E. destruct (IH _ _ _ (frm_say _ (EErr w) eq_refl H) E) as (A1 & A2 & A3). split; [exact A1|]. split; [auto|rewrite A3; reflexivity].
Qed.
Lemma fok_none L f : errs_frame f = false -> early_frame f = false -> fok L f. Proof. intros A B. split; congruence. Qed.
Lemma errors_early_frm s rej : frm s -> existsb is_fail (cl_log s) = true -> frm (errors_early s rej).
Proof.
  intros H F. unfold errors_early. destruct (cl_early s) as [e|] eqn:Ee; [|apply frm_call; [|apply fok_none; reflexivity]; (apply frm_say; [reflexivity|fsame H])].
  assert (O : existsb is_on (cl_log s) = true) by (apply H; congruence).
  destruct (skip s (es_pend e)) as [s' [[w l]|]] eqn:E; destruct (skip_frm _ _ _ _ H E) as (A1 & A2 & A3).
  - apply frm_call; [fsame A1|]. split; intros _; [apply A2, F|apply A2, O].
  - apply frm_call; [|apply fok_none; reflexivity]. apply frm_say; [reflexivity|fsame A1].
Qed.
Lemma errors_frm s rej : frm s -> existsb is_fail (cl_log s) = true -> frm (errors s rej).
Proof.
  intros H F. unfold errors. destruct (skip s (cl_hs s)) as [s' [[w l]|]] eqn:E; destruct (skip_frm _ _ _ _ H E) as (A1 & A2 & A3).
  - apply frm_call; [fsame A1|]. split; [intros _; apply A2, F|discriminate].
  - apply errors_early_frm; [fsame A1|apply A2, F].
Qed.
Lemma deliver_frm s rej : frm s -> frm (deliverAllErrors s rej).
Proof.
  intros H. unfold deliverAllErrors. cbv zeta. assert (F : existsb is_fail (cl_log (say s EFail)) = true) by (unfold say; cbn [cl_log]; rewrite ex_snoc; apply orb_true_r).
  pose proof (frm_say s EFail eq_refl H) as X. destruct (cl_cb _).
  - apply frm_call; [(apply frm_say; [reflexivity|fsame X])|]. split; [intros _|discriminate]. unfold say, set_cb in *. cbn [cl_log] in *. rewrite ex_snoc, F. reflexivity.
  - apply errors_frm; [fsame X|exact F].
Qed.
Lemma flush_frm l : forall s, frm s -> frm (flush s l).
Proof. induction l as [|w l IH]; intros s H; [exact H|]. unfold flush. cbn [fold_left]. apply IH, frm_say; [reflexivity|exact H]. Qed.
Lemma replay_frm s : frm s -> frm (replay s).
Proof.
  intros H. unfold replay. destruct (cl_replay s) eqn:E; [|exact H]. apply frm_call; [|apply fok_none; reflexivity]. destruct H as (H1 & H2 & H3 & H4). unfold frm, say, set_replay. cbn [cl_log cl_stack cl_early cl_replay].
  split; [apply fok_snoc, H1|]. split; [intros X; rewrite ex_snoc, (H2 X); reflexivity|]. split; [discriminate|]. apply all_snoc; [exact H4|]. intros _. apply H3, E.
Qed.
Lemma finish_frm s : frm s -> frm (finish s).
Proof. intros H. unfold finish. destruct (cl_cb s); [|apply replay_frm, H]. apply frm_call; [(apply frm_say; [reflexivity|fsame H])|apply fok_none; reflexivity]. Qed.
Lemma step_frm c s m : frm s -> frm (cstep c s m).
Proof.
  intros H. destruct m as [good|w good tconn| |max|a st ed|w| |]; cbn [cstep].
  - cbv zeta. pose proof (frm_say s EConnect eq_refl H) as X. destruct good; [apply frm_call; [fsame X|apply fok_none; reflexivity]|apply deliver_frm; fsame X].
  - unfold writeAppData. destruct good; cbn [negb].
    + cbv zeta. pose proof (frm_say s (EWrite w) eq_refl H) as X. destruct (cl_early (say s (EWrite w))) as [e|] eqn:Ee.
      * destruct (_ || _); [fsame X|]. apply frm_call; [|apply fok_none; reflexivity]. apply frm_say; [reflexivity|fsame X].
      * destruct (_ && _); [fsame X|]. apply frm_call; [|apply fok_none; reflexivity]. (apply frm_say; [reflexivity|exact X]).
    + cbv zeta. destruct (wr_cb w); [apply frm_call; [|apply fok_none; reflexivity]|]; (apply frm_say; [reflexivity|exact H]).
  - destruct H as (H1 & H2 & H3 & H4). unfold frm, say, set_replay. cbn [cl_log cl_stack cl_early cl_replay]. split; [apply fok_snoc, H1|]. split; [intros X; rewrite ex_snoc, (H2 X); reflexivity|]. split; [intros _; apply armed_snoc|]. apply all_snoc; [exact H4|discriminate].
  - unfold earlySuccess. cbv zeta. assert (X : frm (set_early (say s (EEarlyOn max)) (Some (mkEst max [] None)))).
    { destruct (frm_say s (EEarlyOn max) eq_refl H) as (A & B & C & D). split; [exact A|]. split; [|split; [exact C|exact D]]. intros _. unfold set_early, say. cbn [cl_log]. rewrite ex_snoc. apply orb_true_r. }
    destruct (cl_cb _); [|exact X]. apply frm_call; [|apply fok_none; reflexivity]. apply frm_say; [reflexivity|fsame X].
  - unfold success. cbv zeta. set (t := flush _ _). assert (X : frm (set_hs t [])). { assert (Y : frm t) by (apply flush_frm, frm_say; [reflexivity|exact H]). fsame Y. }
    destruct (cl_early (set_hs t [])) as [e|] eqn:Ee; [|apply finish_frm, X].
    assert (G : forall t', frm t' -> frm (finish (set_early (flush t' (es_pend e)) None))). { intros t' Y. apply finish_frm. pose proof (flush_frm (es_pend e) _ Y) as Z. fsame Z. }
    destruct a; [apply G, X|]. unfold handleEarlyReject. destruct (ec_resend c); [|apply deliver_frm, X]. destruct (earlyParametersMatch st ed); [|apply deliver_frm, X]. apply G. destruct (es_resend e); [(apply frm_say; [reflexivity|exact X])|exact X].
  - cbv zeta. destruct (wr_cb w); [apply frm_call; [|apply fok_none; reflexivity]|]; (apply frm_say; [reflexivity|exact H]).
  - apply deliver_frm, H.
  - destruct (cl_stack s) as [|f k] eqn:Ek; [exact H|]. cbv zeta. pose proof H as (H1 & H2). rewrite Ek in H1. pose proof (Forall_inv H1) as [F1 F2]. pose proof (Forall_inv_tail H1) as H3.
    assert (P : frm (set_stack s k)) by (split; [exact H3|exact H2]).
    destruct f as [|rej|rej [|]|rej|rej|].
    + exact P.
    + apply errors_frm; [fsame P|apply F1; reflexivity].
    + apply errors_early_frm; [exact P|apply F1; reflexivity].
    + apply errors_frm; [exact P|apply F1; reflexivity].
    + apply frm_call; [exact P|apply fok_none; reflexivity].
    + destruct rej; [|exact P]. apply frm_call; [(apply frm_say; [reflexivity|exact P])|apply fok_none; reflexivity].
    + apply replay_frm, P.
Qed.
Lemma step_inv c s m : inv c s -> frm s -> callowed c s m -> inv c (cstep c s m).
Proof.
  intros HI FR Ha. pose proof HI as [H HF HL HR]. destruct m as [good|w good tconn| |max|a st ed|w| |]; cbn [cstep].
  - cbn [callowed] in Ha. cbv zeta. destruct (i_conn _ _ H Ha) as (A1 & A2 & A3 & A4 & A5).
    assert (En : cl_early s = None). { destruct (cl_early s) eqn:E; [|reflexivity]. destruct (i_early _ _ H ltac:(congruence)) as (_ & A & _). congruence. }
    assert (X : core c (set_cb (say s EConnect) true)).
    { destruct H as [H1 H2 H3 H4 H5 H6 H7 H8 H9 H10 H11 H12 H13 H14 H15 H16 H17 H18 H19 H20 H21 H22 H23].
      split; unfold say, set_cb, queue, pend in *; cbn [cl_cb cl_hs cl_early cl_err cl_stack cl_log]; [apply all_snoc; [assumption|exact Logic.I]|..]; boring H7 H18; try (intros; congruence). auto. }
    destruct good; [|apply deliverAll_inv; [exact X|discriminate|discriminate]].
    split; [apply core_push; [exact X|discriminate|reflexivity|reflexivity]|..]; unfold call, say, set_cb; cbn [cl_log cl_err cl_stack cl_early]; lg; assumption.
  - apply write_inv; assumption.
  - assert (X : core c (say s ESetReplay)) by (apply core_quiet; [exact H|reflexivity|exact Logic.I]). split; [apply core_replay, X|..]; unfold say, set_replay; cbn [cl_log cl_err cl_stack cl_early]; lg; assumption.
  - apply earlyOn_inv; assumption.
  - apply success_inv; assumption.
  - cbv zeta. assert (X : core c (say s (EOk w))) by (apply core_quiet; [exact H|reflexivity|exact Logic.I]).
    assert (Y : inv c (say s (EOk w))) by (split; [exact X|..]; unfold say; cbn [cl_log cl_err cl_stack cl_early]; lg; assumption).
    destruct (wr_cb w); [|exact Y]. split; [apply core_push; [exact X|discriminate|reflexivity|reflexivity]|..]; apply Y.
  - apply deliverAll_inv; [exact H|discriminate|discriminate].
  - destruct (cl_stack s) as [|f k] eqn:Ek; [exact HI|]. cbv zeta. pose proof (core_pop _ _ _ _ H Ek) as P.
    destruct FR as [FR1 _]. rewrite Ek in FR1. pose proof (Forall_inv FR1) as [Ff Fe].
    assert (G : errs_frame f = false -> inv c (set_stack s k)).
    { intros E. split; [exact P| |exact HL|exact HR]. unfold set_stack. cbn [cl_log cl_err cl_stack]. intros X. destruct (HF X) as [Y|Y]; [auto|]. cbn [existsb] in Y. rewrite E in Y. auto. }
    destruct f as [|rej|rej ea|rej|rej|].
    + apply G. reflexivity.
    + apply errors_inv; [apply core_replay, P|apply Ff; reflexivity|intros ->; apply (i_rejf _ _ H); rewrite Ek; reflexivity].
    + assert (R : rejok c (set_stack s k) rej) by (intros ->; apply (i_rejf _ _ H); rewrite Ek; reflexivity).
      destruct ea; [|apply errors_inv; [exact P|apply Ff; reflexivity|exact R]]. apply errors_early_inv; [exact P| |apply Ff; reflexivity|exact R].
      cbn [set_stack cl_hs]. destruct (cl_hs s) as [|w l] eqn:Eh; [reflexivity|]. exfalso. destruct (i_hs _ _ H ltac:(congruence)) as [A1 A2].
      destruct (i_early2 _ _ H (Fe eq_refl)) as [X|[X _]]; [destruct (i_early _ _ H X)|]; congruence.
    + assert (R : rejok c s rej) by (intros ->; apply (i_rejf _ _ H); rewrite Ek; reflexivity). specialize (G eq_refl).
      split; [apply core_push2; [exact P|discriminate| |]|..]; try apply G.
      * destruct rej; [intros _; apply R; reflexivity|discriminate].
      * intros _. apply (i_mvf _ _ H). rewrite Ek. reflexivity.
    + assert (R : rejok c s rej) by (intros ->; apply (i_rejf _ _ H); rewrite Ek; reflexivity). specialize (G eq_refl). destruct rej; [|exact G].
      assert (X : core c (say (set_stack s k) EClosed)).
      { apply core_quiet; [exact P|reflexivity|]. split; [apply R; reflexivity|]. cbn [set_stack cl_log]. rewrite <- (i_err _ _ H). apply (i_mvf _ _ H). rewrite Ek. reflexivity. }
      destruct G as [_ G1 G2 G3]. split; [apply core_push; [exact X|discriminate|reflexivity|reflexivity]|..]; unfold call, say; cbn [cl_log cl_err cl_stack cl_early]; lg; assumption.
    + destruct (i_hsok _ _ H) as [X1 X2]; [rewrite Ek; left; reflexivity|]. apply replay_inv; [apply G; reflexivity|exact X1|exact X2].
Qed.
Lemma hist_inv c s : chist c s -> inv c s /\ frm s.
Proof.
  induction 1 as [|s m H [I1 I2] Ha]; [|split; [apply step_inv; assumption|apply step_frm, I2]].
  split; [|split; [constructor|split; [cbn; congruence|split; [discriminate|intros [|? ?] ? ? E; discriminate E]]]].
  split; [split|..]; unfold queue, pend, lost; cbn [cl_init cl_log cl_hs cl_early cl_cb cl_err cl_stack existsb app andb]; try discriminate; try congruence; auto.
  - intros [|? ?] ? ? E; discriminate E.
  - constructor.
Qed.

(** ** Theorems *)
(** Every event of every history is allowed by the specification. *)
Theorem C71_history c s : chist c s -> all_events (legal c) (cl_log s).
Proof. intros H. apply hist_inv in H. apply H. Qed.
(** As long as nothing has failed, writes are handed down in the order in which they were taken, and none is left out: what has not been handed down
    is held, and once the handshake is complete nothing is held. *)
Theorem C71_stream c s : chist c s -> existsb is_fail (cl_log s) = false -> taken (cl_log s) = handed (cl_log s) ++ queue s /\ (existsb is_success (cl_log s) = true -> queue s = []).
Proof.
  intros H F. apply hist_inv in H. destruct H as [[H HF HL HR] _]. split; [apply H, F|]. intros S. unfold queue, pend.
  assert (E1 : cl_hs s = []). { destruct (cl_hs s) eqn:E; [reflexivity|]. destruct (i_hs _ _ H ltac:(congruence)). congruence. }
  assert (E2 : cl_early s = None). { destruct (i_succ _ _ H S) as [X|X]; [exact X|]. apply HL in X. congruence. }
  rewrite E1, E2. reflexivity.
Qed.
(** If the server rejects early data and nothing has failed, then what is sent as ordinary application data is exactly what was written, from the first
    byte on. *)
Theorem C71_resent c s st ed : chist c s -> existsb is_fail (cl_log s) = false -> In (ESuccess false st ed) (cl_log s) -> app_data (cl_log s) = datas (taken (cl_log s)).
Proof.
  intros H F S. destruct (C71_stream c s H F) as [E1 E2]. assert (X : existsb is_success (cl_log s) = true) by (apply existsb_exists; eexists; split; [exact S|reflexivity]).
  rewrite E1, (E2 X), app_nil_r. apply hist_inv in H. destruct H as [[H HF HL HR] _]. symmetry. eapply (i_data2 _ _ H F); [|exact S]. destruct (lost c (cl_log s)); [|reflexivity]. specialize (HL eq_refl). congruence.
Qed.
(** No more early data than the ticket allows. *)
Theorem C71_limit c s max : chist c s -> In (EEarlyOn max) (cl_log s) -> blen (early_data (cl_log s)) <= max.
Proof.
  intros H X. pose proof (C71_history c s H) as A.
  assert (U : forall m, In (EEarlyOn m) (cl_log s) -> m = max).
  { intros m Y. apply in_split in X. destruct X as (L1 & L2 & E). pose proof (A L1 _ L2 E) as [B _]. rewrite E in Y. apply in_app_or in Y. destruct Y as [Y|[Y|Y]]; [|congruence|].
    - assert (existsb is_on L1 = true) by (apply existsb_exists; eexists; split; [exact Y|reflexivity]). congruence.
    - apply in_split in Y. destruct Y as (M1 & M2 & ->). rewrite app_comm_cons, app_assoc in E. pose proof (A _ _ _ E) as [C _]. rewrite existsb_app in C. cbn [existsb is_on] in C. rewrite orb_true_r in C. discriminate C. }
  assert (G : forall L1 L2, cl_log s = L1 ++ L2 -> blen (early_data L1) <= max); [|apply (G _ []); symmetry; apply app_nil_r].
  induction L1 as [|e L1 IH] using rev_ind; intros L2 E; [change (early_data []) with ([] : bytes); rewrite blen_nil; lia|]. rewrite <- app_assoc in E. specialize (IH _ E). rewrite early_snoc, blen_app.
  destruct e; rewrite ?blen_nil; try lia. pose proof (A L1 _ L2 E) as (_ & _ & _ & _ & (m & B & C) & _). rewrite (U m) in C by (rewrite E; apply in_or_app; left; exact B). exact C.
Qed.
(** Every write that was taken has at most one outcome; it has one or is held; and nothing is held when, with no call open, the handshake is complete or
    something has failed. *)
Theorem C71_one c s : chist c s -> NoDup (outcomes (cl_log s)) /\ Permutation (taken (cl_log s)) (outcomes (cl_log s) ++ queue s) /\
  (cl_stack s = [] -> existsb is_success (cl_log s) = true \/ existsb is_fail (cl_log s) = true -> queue s = []).
Proof.
  intros H. pose proof (C71_stream c s H) as ST. apply hist_inv in H. destruct H as [[H HF HL HR] _]. pose proof (i_part _ _ H) as P. split; [|split; [exact P|]].
  - pose proof (nodup_taken _ (i_ids _ _ H)) as N. eapply Permutation_NoDup in N; [|exact P]. revert N. generalize (outcomes (cl_log s)). clear. induction l as [|x l IH]; intros N; [constructor|]. cbn [app] in N. inversion N; subst. constructor; [|auto]. intros X. apply H1, in_or_app. left. exact X.
  - intros E X. destruct (existsb is_fail (cl_log s)) eqn:F; [|destruct X as [X|X]; [apply ST; [reflexivity|exact X]|discriminate X]].
    destruct (HF eq_refl) as [Y|Y]; [|rewrite E in Y; discriminate Y]. apply (i_err2 _ _ H Y).
Qed.
(** isReplaySafe: early data was never on, or the handshake is complete and early data was accepted or is sent again. *)
Theorem C71_replay_safe c s : chist c s -> (isReplaySafe s = true <-> existsb is_on (cl_log s) = false \/ (existsb is_success (cl_log s) = true /\ lost c (cl_log s) = false)).
Proof.
  intros H. apply hist_inv in H. destruct H as [[H HF HL HR] _]. unfold isReplaySafe. destruct (cl_early s) eqn:E.
  - split; [discriminate|]. destruct (i_early _ _ H ltac:(congruence)) as (_ & A & _). intros [X|[X1 X2]]; [congruence|]. destruct (i_succ _ _ H X1); congruence.
  - split; [intros _|reflexivity]. destruct (existsb is_on (cl_log s)) eqn:O; [|auto]. destruct (i_early2 _ _ H O) as [X|X]; [congruence|auto].
Qed.
(** The replay safety callback is called only when set, once for each time it is set. *)
Theorem C71_replay_callback c s : chist c s -> all_events set_before (cl_log s).
Proof. intros H. apply hist_inv in H. apply H. Qed.
(** The handshake callback is called at most once; never with success unless the early or the whole handshake is complete. *)
Theorem C71_told c s : chist c s -> (length (filter is_told (cl_log s)) <= 1)%nat.
Proof.
  intros H. pose proof (C71_history c s H) as A. assert (G : forall L1 L2, cl_log s = L1 ++ L2 -> (length (filter is_told L1) <= if existsb is_told L1 then 1 else 0)%nat).
  { induction L1 as [|e L1 IH] using rev_ind; intros L2 E; [cbn; lia|]. rewrite <- app_assoc in E. specialize (IH _ E). pose proof (A L1 _ L2 E) as B. rewrite filter_app, app_length, ex_snoc. cbn [filter].
    destruct (is_told e) eqn:T; cbn [length]; rewrite ?orb_true_r, ?orb_false_r; [|lia]. destruct e; try discriminate T; destruct B as [B _]; rewrite B in IH; lia. }
  specialize (G _ [] (eq_sym (app_nil_r _))). destruct (existsb is_told _); lia.
Qed.
