(** * C70: delivery of application data and read errors *)
From Verif Require Import Base AsyncRead.
Open Scope N_scope.

(** ** Specification *)
(** The bytes received; those given to read callbacks or lost because getReadBuffer failed; the read callback set. *)
Definition received (L : list rdev) : bytes := concat (map (fun e => match e with RRecv d => d | _ => [] end) L).
Definition consumed (L : list rdev) : bytes := concat (map (fun e => match e with RGive _ d | RFail d => d | _ => [] end) L).
Definition cur (L : list rdev) : option N := fold_left (fun c e => match e with RSet c' => c' | RErr _ _ => None | _ => c end) L None.
Definition is_fail (e : rdev) : bool := match e with RFail _ => true | _ => false end.
Definition rlegal (L : list rdev) (e : rdev) : Prop :=
  match e with
  | RGive c d => cur L = Some c /\ exists rest, received L = consumed L ++ d ++ rest
  | RFail d => cur L <> None /\ received L = consumed L ++ d
  | RErr c ex => cur L = Some c
  | _ => True
  end.
(** An error is given at once, or after all data. *)
Definition rlegal_err (L : list rdev) (e : rdev) : Prop :=
  match e with
  | RErr c ex => (exists L', L = L' ++ [RError ex]) \/ (exists L' d, L = L' ++ [RFail d]) \/ received L = consumed L
  | _ => True
  end.
Definition all_events (P : list rdev -> rdev -> Prop) (L : list rdev) : Prop := forall L1 e L2, L = L1 ++ e :: L2 -> P L1 e.
(** The bytes a call of deliverAppData that has called the read callback has still to give. *)
Definition pulls (k : list rframe) : bytes := concat (map (fun f => match f with FPull r => r | _ => [] end) k).
(** No data arrives while the read callback is being given data of which more is to be given. *)
Definition no_nested_data (s : rd) (m : rmove) : Prop := match m with RMArrive _ _ => pulls (rd_stack s) = [] | _ => True end.
(** And no read callback is set then. *)
Definition no_nested (s : rd) (m : rmove) : Prop := match m with RMArrive _ _ | RMSet (Some _) _ => pulls (rd_stack s) = [] | _ => True end.

(** The errors that have come; an error is given at once or is one that came earlier, the first one if none has been given. *)
Definition is_err (e : rdev) : bool := match e with RErr _ _ => true | _ => false end.
Definition errors (L : list rdev) : list N := concat (map (fun e => match e with RError ex => [ex] | RFail _ => [exBadArgs] | _ => [] end) L).
Definition rlegal_first (L : list rdev) (e : rdev) : Prop :=
  match e with
  | RErr c ex => (exists L', L = L' ++ [RError ex]) \/ (exists L' d, L = L' ++ [RFail d] /\ ex = exBadArgs) \/ (In ex (errors L) /\ (existsb is_err L = false -> hd_error (errors L) = Some ex))
  | _ => True
  end.

(** ** Proofs *)
Definition obytes (b : option bytes) : bytes := match b with Some x => x | None => [] end.
Fixpoint one (k : list rframe) : Prop := match k with [] => True | f :: k' => (match f with FPull r => r <> [] -> pulls k' = [] | _ => True end) /\ one k' end.
Fixpoint sets (k : list rframe) : Prop := match k with [] => True | f :: k' => (match f with FSetK => pulls k' = [] | _ => True end) /\ sets k' end.
Record rinv (s : rd) : Prop := mkRinv {
  v_legal : all_events rlegal (rd_log s);
  v_bytes : received (rd_log s) = consumed (rd_log s) ++ pulls (rd_stack s) ++ obytes (rd_buf s);
  v_buf : pulls (rd_stack s) <> [] -> rd_buf s = None;
  v_one : one (rd_stack s);
  v_cb : rd_cb s <> None -> rd_buf s = None;
  v_cur : rd_cb s = cur (rd_log s) }.
Lemma received_snoc L e : received (L ++ [e]) = received L ++ match e with RRecv d => d | _ => [] end.
Proof. unfold received. rewrite map_app, concat_app. cbn [map concat]. rewrite app_nil_r. reflexivity. Qed.
Lemma consumed_snoc L e : consumed (L ++ [e]) = consumed L ++ match e with RGive _ d | RFail d => d | _ => [] end.
Proof. unfold consumed. rewrite map_app, concat_app. cbn [map concat]. rewrite app_nil_r. reflexivity. Qed.
Lemma cur_snoc L e : cur (L ++ [e]) = match e with RSet c' => c' | RErr _ _ => None | _ => cur L end.
Proof. unfold cur. rewrite fold_left_app. reflexivity. Qed.
Lemma all_snoc P L e : all_events P L -> P L e -> all_events P (L ++ [e]).
Proof.
  intros H He L1 x L2 E. destruct L2 as [|y L2] using rev_ind.
  - apply app_inj_tail in E. destruct E as [-> ->]. exact He.
  - clear IHL2. rewrite app_comm_cons, app_assoc in E. apply app_inj_tail in E. destruct E as [E _]. eapply H, E.
Qed.
Lemma pulls_cons f k : pulls (f :: k) = (match f with FPull r => r | _ => [] end) ++ pulls k. Proof. reflexivity. Qed.
(** Frames that hold no data. *)
Definition plain (f : rframe) : bool := match f with FPull _ => false | _ => true end.
Lemma inv_frame s s' k : rinv s -> rd_cb s' = rd_cb s -> rd_buf s' = rd_buf s -> rd_log s' = rd_log s -> rd_stack s' = k -> pulls k = pulls (rd_stack s) -> one k -> rinv s'.
Proof. intros [H1 H2 H3 H4 H5 H6] E1 E2 E3 E4 E5 E6. split; rewrite ?E1, ?E2, ?E3, ?E4, ?E5; assumption. Qed.
Lemma err_rinv s ex : rinv s -> rinv (deliverError s ex).
Proof.
  intros H. unfold deliverError. destruct (rd_cb s) as [c|] eqn:Ec.
  - destruct H as [H1 H2 H3 H4 H5 H6]. split; unfold rcall, rsay, rset_cb; cbn [rd_cb rd_buf rd_stack rd_log].
    + apply all_snoc; [exact H1|]. cbn [rlegal]. congruence.
    + rewrite received_snoc, consumed_snoc, !app_nil_r. exact H2.
    + exact H3.
    + split; [exact Logic.I|exact H4].
    + congruence.
    + rewrite cur_snoc. reflexivity.
  - assert (X : forall t, rd_cb t = rd_cb s -> rd_buf t = rd_buf s -> rd_log t = rd_log s -> rd_stack t = rd_stack s -> rinv (rcall t (FTail false))).
    { intros t E1 E2 E3 E4. eapply (inv_frame s); [exact H|exact E1|exact E2|exact E3|reflexivity| |]; unfold rcall; cbn [rd_stack]; rewrite E4; [reflexivity|]. split; [exact Logic.I|]. apply H. }
    destruct (rd_pend s); apply X; reflexivity.
Qed.
Lemma check_same s q : rd_cb (checkBufLen s q) = rd_cb s /\ rd_buf (checkBufLen s q) = rd_buf s /\ rd_log (checkBufLen s q) = rd_log s /\ rd_stack (checkBufLen s q) = rd_stack s /\ rd_pend (checkBufLen s q) = rd_pend s.
Proof. unfold checkBufLen. destruct (rd_cb s) eqn:E; [auto 10|]. set (b := (_ || _)%bool). destruct b; auto 10. Qed.
Lemma pump_none s q : rinv s -> rinv (pump s None q).
Proof.
  intros H. cbn [pump]. destruct (check_same s q) as (E1 & E2 & E3 & E4 & _). eapply (inv_frame s); [exact H|exact E1|exact E2|exact E3|reflexivity| |]; unfold rret; cbn [rd_stack]; rewrite E4; [reflexivity|apply H].
Qed.
(** deliverAppData with all the data not given yet. *)
Definition holds (s : rd) (d : bytes) : Prop :=
  all_events rlegal (rd_log s) /\ received (rd_log s) = consumed (rd_log s) ++ d /\ pulls (rd_stack s) = [] /\ one (rd_stack s) /\ rd_cb s = cur (rd_log s) /\ rd_buf s = None.
Lemma pump_some s d q : holds s d -> rinv (pump s (Some d) q).
Proof.
  intros (H1 & H2 & H3 & H4 & H5 & H6). cbn [pump]. destruct (rd_cb s) as [c|] eqn:Ec.
  - destruct (q_movable q).
    + split; unfold rcall, rsay; cbn [rd_cb rd_buf rd_stack rd_log].
      * apply all_snoc; [exact H1|]. cbn [rlegal]. split; [congruence|]. exists []. rewrite app_nil_r. exact H2.
      * rewrite received_snoc, consumed_snoc, pulls_cons, H3, H6, app_nil_r, H2. cbn [obytes app]. rewrite !app_nil_r. reflexivity.
      * intros _. exact H6.
      * split; [exact Logic.I|exact H4].
      * intros _. exact H6.
      * rewrite cur_snoc, Ec. exact H5.
    + destruct d as [|x d].
      * destruct (check_same s q) as (E1 & E2 & E3 & E4 & _). split; unfold rret; cbn [rd_cb rd_buf rd_stack rd_log]; rewrite ?E1, ?E2, ?E3, ?E4, ?Ec, ?H6, ?H3; try assumption; try congruence; try reflexivity.
      * assert (X : rinv (deliverError (rsay s (RFail (x :: d))) exBadArgs)).
        { apply err_rinv. split; unfold rsay; cbn [rd_cb rd_buf rd_stack rd_log].
          - apply all_snoc; [exact H1|]. cbn [rlegal]. split; [congruence|exact H2].
          - rewrite received_snoc, consumed_snoc, H3, H6, app_nil_r, H2. cbn [obytes app]. rewrite !app_nil_r. reflexivity.
          - intros _. exact H6.
          - exact H4.
          - intros _. exact H6.
          - rewrite cur_snoc, Ec. exact H5. }
        destruct (q_space q) as [[|n]|]; [exact X| |exact X]. clear X. set (D := x :: d) in *. set (k := N.pos n).
        split; unfold rcall, rsay; cbn [rd_cb rd_buf rd_stack rd_log].
        -- apply all_snoc; [exact H1|]. cbn [rlegal]. split; [congruence|]. exists (dropN k D). rewrite takeN_dropN. exact H2.
        -- rewrite received_snoc, consumed_snoc, pulls_cons, H3, H6, app_nil_r, H2. cbn [obytes]. rewrite !app_nil_r, <- app_assoc, takeN_dropN. reflexivity.
        -- intros _. exact H6.
        -- split; [intros _; exact H3|exact H4].
        -- intros _. exact H6.
        -- rewrite cur_snoc, Ec. exact H5.
  - match goal with |- rinv (rret (checkBufLen ?t q)) => destruct (check_same t q) as (E1 & E2 & E3 & E4 & _) end. split; unfold rret; cbn [rd_cb rd_buf rd_stack rd_log]; rewrite ?E1, ?E2, ?E3, ?E4; unfold rset_buf; cbn [rd_cb rd_buf rd_stack rd_log obytes].
    + exact H1.
    + rewrite H3. exact H2.
    + rewrite H3. congruence.
    + exact H4.
    + congruence.
    + congruence.
Qed.
Lemma setRest_rinv s q : rinv s -> rinv (setRest s q).
Proof.
  intros H. unfold setRest.
  assert (X : rinv (if q_good q then rcall (rset_reading s true) FStart else deliverError (rsay s (RError exNotOpen)) exNotOpen)).
  { destruct (q_good q); [|apply err_rinv; destruct H as [H1 H2 H3 H4 H5 H6]; split; unfold rsay; cbn [rd_cb rd_buf rd_stack rd_log]; rewrite ?received_snoc, ?consumed_snoc, ?app_nil_r, ?cur_snoc; try assumption; apply all_snoc; [exact H1|exact Logic.I]]. eapply (inv_frame s); [exact H|reflexivity..|]. split; [exact Logic.I|apply H]. }
  destruct (rd_cb s) as [c|] eqn:Ec; [|exact X]. destruct (rd_pend s) as [ex|]; [|exact X]. apply err_rinv. eapply (inv_frame s); [exact H|reflexivity..|apply H].
Qed.
Lemma settle_same s : rd_cb (settle s) = rd_cb s /\ rd_buf (settle s) = rd_buf s /\ rd_log (settle s) = rd_log s /\ rd_stack (settle s) = rd_stack s /\ rd_pend (settle s) = rd_pend s.
Proof. unfold settle. destruct (rd_dying s && negb (existsb guard (rd_stack s))); auto. Qed.
Lemma settle_rinv s : rinv s -> rinv (settle s).
Proof. intros H. destruct (settle_same s) as (E1 & E2 & E3 & E4 & _). eapply (inv_frame s); [exact H|exact E1|exact E2|exact E3|exact E4|reflexivity|apply H]. Qed.
Lemma rstep_rinv s m s' : rinv s -> no_nested_data s m -> rstep s m = Ok s' -> rinv s'.
Proof.
  intros H Hm E. destruct m as [d q|c q|ex|q|q|]; cbn [rstep no_nested_data] in *.
  - injection E as <-. unfold deliverAppData. cbn [rd_buf rsay rset_stack]. destruct H as [H1 H2 H3 H4 H5 H6].
    assert (G : forall b t, b = obytes (rd_buf s) -> rd_cb t = rd_cb s -> rd_buf t = None -> rd_log t = rd_log s ++ [RRecv d] -> rd_stack t = FCall true :: rd_stack s -> holds t (b ++ d)).
    { intros b t -> E1 E2 E3 E4. unfold holds. rewrite E1, E2, E3, E4. split; [apply all_snoc; [exact H1|exact Logic.I]|]. rewrite received_snoc, consumed_snoc, cur_snoc, app_nil_r, H2, Hm, pulls_cons, Hm. cbn [app].
      rewrite <- app_assoc. split; [reflexivity|]. split; [reflexivity|]. split; [split; [exact Logic.I|exact H4]|]. auto. }
    destruct (rd_buf s) as [b|] eqn:Eb.
    + apply pump_some, G; reflexivity.
    + apply pump_some. apply (G [] _); try reflexivity. unfold rsay, rset_stack. cbn [rd_buf]. exact Eb.
  - injection E as <-. unfold setReadCB. cbv zeta. destruct H as [H1 H2 H3 H4 H5 H6].
    assert (G : c = None \/ rd_buf s = None -> forall t, rd_cb t = c -> rd_buf t = rd_buf s -> rd_log t = rd_log s ++ [RSet c] -> rd_stack t = FCall false :: rd_stack s -> rinv t).
    { intros Hc t E1 E2 E3 E4. split; rewrite ?E1, ?E2, ?E3, ?E4.
      - apply all_snoc; [exact H1|exact Logic.I].
      - rewrite received_snoc, consumed_snoc, !app_nil_r, pulls_cons. exact H2.
      - rewrite pulls_cons. exact H3.
      - split; [exact Logic.I|exact H4].
      - intros X. destruct Hc as [Hc|Hc]; [congruence|exact Hc].
      - rewrite cur_snoc. reflexivity. }
    destruct c as [c|]; [|apply G; try reflexivity; left; reflexivity]. cbn [rd_buf rset_cb rsay rset_stack]. destruct (rd_buf s) as [b|] eqn:Eb.
    + unfold deliverAppData. cbn [rd_buf rset_cb rsay rset_stack]. rewrite Eb. rewrite app_nil_r. apply pump_some.
      assert (Hp : pulls (rd_stack s) = []). { destruct (pulls (rd_stack s)); [reflexivity|]. assert (X : Some b = None) by (apply H3; discriminate). discriminate X. }
      unfold holds, rset_buf, rset_cb, rsay, rset_stack. cbn [rd_cb rd_buf rd_stack rd_log]. split; [apply all_snoc; [exact H1|exact Logic.I]|]. rewrite received_snoc, consumed_snoc, cur_snoc, !app_nil_r, H2, Hp, !pulls_cons, Hp. cbn [app obytes].
      repeat split. exact H4.
    + apply setRest_rinv. apply G; try reflexivity; [right; reflexivity|]. exact Eb.
  - injection E as <-. apply err_rinv. destruct H as [H1 H2 H3 H4 H5 H6]. split; unfold rsay, rset_stack; cbn [rd_cb rd_buf rd_stack rd_log].
    + apply all_snoc; [exact H1|exact Logic.I].
    + rewrite received_snoc, consumed_snoc, !app_nil_r, pulls_cons. exact H2.
    + rewrite pulls_cons. exact H3.
    + split; [exact Logic.I|exact H4].
    + exact H5.
    + rewrite cur_snoc. exact H6.
  - destruct (rd_stack s) as [|f k] eqn:Ek; [discriminate E|].
    assert (Hk : one k) by (pose proof (v_one _ H) as X; rewrite Ek in X; apply X).
    assert (G : plain f = true -> forall t, rd_cb t = rd_cb s -> rd_buf t = rd_buf s -> rd_log t = rd_log s -> rd_stack t = k -> rinv t).
    { intros Hf t E1 E2 E3 E4. eapply (inv_frame s); [exact H|exact E1|exact E2|exact E3|exact E4| |exact Hk]. rewrite Ek, pulls_cons. destruct f; try discriminate Hf; reflexivity. }
    destruct f as [g| |rest| | |dv|]; try (injection E as <-; apply (G eq_refl); reflexivity).
    + apply bind_Ok in E. destruct E as (? & _ & E). injection E as <-. destruct H as [H1 H2 H3 H4 H5 H6]. rewrite Ek in *. destruct rest as [|x0 rest].
      * apply pump_none. split; cbn; assumption.
      * apply pump_some. destruct H4 as [H4 _]. specialize (H4 ltac:(discriminate)). rewrite pulls_cons in H2, H3. rewrite H4, app_nil_r in H2, H3. specialize (H3 ltac:(discriminate)). rewrite H3 in H2. cbn [obytes] in H2. rewrite app_nil_r in H2.
        unfold holds, rset_stack. cbn [rd_cb rd_buf rd_stack rd_log]. auto 10.
    + apply bind_Ok in E. destruct E as (? & _ & E). injection E as <-. eapply (inv_frame s); [exact H|reflexivity|reflexivity|reflexivity|reflexivity| |].
      * cbn [rd_stack rset_stack]. rewrite Ek. reflexivity.
      * split; [exact Logic.I|exact Hk].
    + apply bind_Ok in E. destruct E as (? & _ & E). injection E as <-. apply settle_rinv. destruct dv; apply (G eq_refl); reflexivity.
  - destruct (rd_stack s) as [|f k] eqn:Ek; [discriminate E|].
    assert (Hk : one k) by (pose proof (v_one _ H) as X; rewrite Ek in X; apply X).
    assert (G : plain f = true -> forall t, rd_cb t = rd_cb s -> rd_buf t = rd_buf s -> rd_log t = rd_log s -> rd_stack t = k -> rinv t).
    { intros Hf t E1 E2 E3 E4. eapply (inv_frame s); [exact H|exact E1|exact E2|exact E3|exact E4| |exact Hk]. rewrite Ek, pulls_cons. destruct f; try discriminate Hf; reflexivity. }
    destruct f as [g| |rest| | |dv|]; try discriminate E.
    + injection E as <-. apply settle_rinv, (G eq_refl); reflexivity.
    + apply bind_Ok in E. destruct E as (? & _ & E). injection E as <-. apply setRest_rinv, (G eq_refl); reflexivity.
  - injection E as <-. apply settle_rinv. eapply (inv_frame s); [exact H|reflexivity..|apply H].
Qed.
Lemma rhist_rinv s : rhist no_nested_data s -> rinv s.
Proof.
  induction 1 as [|s m s' _ IH _ Hm E]; [|eapply rstep_rinv; eassumption].
  split; cbn; try reflexivity; try congruence; try exact Logic.I. intros L1 e L2 X. destruct L1; discriminate X.
Qed.

(** Errors. *)
Definition is_error (e : rdev) : bool := match e with RError _ => true | _ => false end.
Record rinv2 (s : rd) : Prop := mkRinv2 {
  u_set : rd_cb s <> None -> rd_pend s <> None -> In FSetK (rd_stack s);
  u_pend : existsb is_error (rd_log s) = true -> existsb is_err (rd_log s) = false -> rd_pend s <> None;
  u_err : In FErrCb (rd_stack s) \/ In (FTail true) (rd_stack s) -> existsb is_err (rd_log s) = true }.
Lemma ex_snoc f (L : list rdev) e : existsb f (L ++ [e]) = existsb f L || f e.
Proof. rewrite existsb_app. cbn [existsb]. rewrite orb_false_r. reflexivity. Qed.
Lemma inv2_frame s s' : rinv2 s -> rd_cb s' = rd_cb s -> rd_pend s' = rd_pend s -> rd_log s' = rd_log s -> (In FSetK (rd_stack s) -> In FSetK (rd_stack s')) ->
  (In FErrCb (rd_stack s') -> In FErrCb (rd_stack s)) -> (In (FTail true) (rd_stack s') -> In (FTail true) (rd_stack s)) -> rinv2 s'.
Proof. intros [H1 H2 H3] E1 E2 E3 E4 E5 E6. split; rewrite ?E1, ?E2, ?E3; [intros A B; apply E4, H1; assumption|exact H2|]. intros [X|X]; apply H3; auto. Qed.
Lemma err_rinv2 s ex : (In FErrCb (rd_stack s) \/ In (FTail true) (rd_stack s) -> existsb is_err (rd_log s) = true) -> rinv2 (deliverError s ex).
Proof.
  intros H. unfold deliverError. destruct (rd_cb s) as [c|] eqn:Ec.
  - split; unfold rcall, rsay, rset_cb; cbn [rd_cb rd_pend rd_stack rd_log]; rewrite ?ex_snoc; cbn [is_err is_error]; rewrite ?orb_true_r; congruence.
  - assert (X : forall t, rd_cb t = rd_cb s -> rd_pend t <> None -> rd_log t = rd_log s -> rd_stack t = rd_stack s -> rinv2 (rcall t (FTail false))).
    { intros t E1 E2 E3 E4. split; unfold rcall; cbn [rd_cb rd_pend rd_stack rd_log]; rewrite ?E1, ?E3, ?E4.
      - congruence.
      - auto.
      - intros [[X|X]|[X|X]]; try discriminate X; apply H; auto. }
    destruct (rd_pend s) eqn:Ep; apply X; try reflexivity; cbn [rd_pend rset_pend]; congruence.
Qed.
Lemma in_pull (k : list rframe) : forall f g, In g (f :: k) -> f <> g -> In g k. Proof. intros f g [X|X] H; congruence. Qed.
Lemma pump_rinv2 s d q : rinv2 s -> rinv2 (pump s d q).
Proof.
  intros H. assert (C : forall t, rinv2 t -> rinv2 (rret (checkBufLen t q))).
  { intros t Ht. destruct (check_same t q) as (E1 & E2 & E3 & E4 & E5). eapply (inv2_frame t); [exact Ht|exact E1|exact E5|exact E3|..]; unfold rret; cbn [rd_stack]; rewrite E4; auto. }
  assert (G : forall e f, is_error e = false -> is_err e = false -> is_foreign f = true -> f <> FErrCb -> f <> FTail true -> rinv2 (rcall (rsay s e) f)).
  { intros e f E1 E2 E3 E4 E5. destruct H as [H1 H2 H3]. split; unfold rcall, rsay; cbn [rd_cb rd_pend rd_stack rd_log]; rewrite ?ex_snoc, ?E1, ?E2, ?orb_false_r.
    - intros A B. right. apply H1; assumption.
    - exact H2.
    - intros [X|X]; apply in_pull in X; auto. }
  destruct d as [d|]; cbn [pump]; [|apply C, H]. destruct (rd_cb s) as [c|] eqn:Ec.
  - destruct (q_movable q); [apply G; try reflexivity; discriminate|]. destruct d as [|x d]; [apply C, H|].
    assert (X : rinv2 (deliverError (rsay s (RFail (x :: d))) exBadArgs)) by (apply err_rinv2; unfold rsay; cbn [rd_stack rd_log]; rewrite ex_snoc, orb_false_r; apply H).
    destruct (q_space q) as [[|n]|]; [exact X| |exact X]. apply G; try reflexivity; discriminate.
  - apply C. eapply (inv2_frame s); [exact H|reflexivity..|auto|auto|auto].
Qed.
Lemma deliver_rinv2 s d q : rinv2 s -> rinv2 (deliverAppData s d q).
Proof. intros H. unfold deliverAppData. destruct (rd_buf s); apply pump_rinv2; [|exact H]. eapply (inv2_frame s); [exact H|reflexivity..|auto|auto|auto]. Qed.
Lemma setRest_rinv2 s q : (existsb is_error (rd_log s) = true -> existsb is_err (rd_log s) = false -> rd_pend s <> None) ->
  (In FErrCb (rd_stack s) \/ In (FTail true) (rd_stack s) -> existsb is_err (rd_log s) = true) -> rinv2 (setRest s q).
Proof.
  intros H1 H2. unfold setRest.
  assert (X : rd_cb s = None \/ rd_pend s = None -> rinv2 (if q_good q then rcall (rset_reading s true) FStart else deliverError (rsay s (RError exNotOpen)) exNotOpen)).
  { intros Hc. destruct (q_good q); [|apply err_rinv2; unfold rsay; cbn [rd_stack rd_log]; rewrite ex_snoc, orb_false_r; exact H2]. split; unfold rcall, rset_reading; cbn [rd_cb rd_pend rd_stack rd_log].
    - intros A B. destruct Hc; congruence.
    - exact H1.
    - intros [Y|Y]; apply in_pull in Y; try discriminate; auto. }
  destruct (rd_cb s) as [c|] eqn:Ec; [|apply X; auto]. destruct (rd_pend s) as [ex|] eqn:Ep; [|apply X; auto]. apply err_rinv2. exact H2.
Qed.
Lemma settle_rinv2 s : rinv2 s -> rinv2 (settle s).
Proof. intros H. destruct (settle_same s) as (E1 & E2 & E3 & E4 & E5). eapply (inv2_frame s); [exact H|exact E1|exact E5|exact E3|..]; rewrite E4; auto. Qed.
Lemma rstep_rinv2 s m s' : rinv2 s -> rallowed s m -> rstep s m = Ok s' -> rinv2 s'.
Proof.
  intros H Ha E. destruct m as [d q|c q|ex|q|q|]; cbn [rstep] in *.
  - injection E as <-. apply deliver_rinv2. destruct H as [H1 H2 H3]. split; unfold rsay, rset_stack; cbn [rd_cb rd_pend rd_stack rd_log]; rewrite ?ex_snoc, ?orb_false_r.
    + intros A B. right. apply H1; assumption.
    + exact H2.
    + intros [Y|Y]; apply in_pull in Y; try discriminate; auto.
  - injection E as <-. unfold setReadCB. cbv zeta. destruct H as [H1 H2 H3].
    assert (G : forall t, rd_pend t = rd_pend s -> rd_log t = rd_log s ++ [RSet c] -> existsb is_error (rd_log t) = true -> existsb is_err (rd_log t) = false -> rd_pend t <> None).
    { intros t E1 E2. rewrite E1, E2, !ex_snoc, !orb_false_r. exact H2. }
    destruct c as [c|].
    + cbn [rd_buf rset_cb rsay rset_stack]. destruct (rd_buf s) as [b|] eqn:Eb.
      * apply deliver_rinv2. split; [intros _ _; left; reflexivity|apply G; reflexivity|]. unfold rset_cb, rsay, rset_stack. cbn [rd_stack rd_log]. rewrite ex_snoc, orb_false_r.
        intros [Y|Y]; apply in_pull in Y; try discriminate; apply in_pull in Y; try discriminate; auto.
      * apply setRest_rinv2; [apply G; reflexivity|]. unfold rset_cb, rsay, rset_stack. cbn [rd_stack rd_log]. rewrite ex_snoc, orb_false_r. intros [Y|Y]; apply in_pull in Y; try discriminate; auto.
    + split; unfold rret, rset_cb, rsay, rset_stack; cbn [rd_cb rd_pend rd_stack rd_log]; [congruence|apply (G (rsay (rset_stack s []) (RSet None))); reflexivity|]. rewrite ex_snoc, orb_false_r.
      intros [Y|Y]; apply in_pull in Y; try discriminate; auto.
  - injection E as <-. apply err_rinv2. unfold rsay, rset_stack. cbn [rd_stack rd_log]. rewrite ex_snoc, orb_false_r. intros [Y|Y]; apply in_pull in Y; try discriminate; apply H; auto.
  - destruct Ha as (_ & f & k & Ek & Hf). rewrite Ek in E.
    assert (G : forall t, rd_cb t = rd_cb s -> rd_pend t = rd_pend s -> rd_log t = rd_log s -> rd_stack t = k -> rinv2 t).
    { intros t E1 E2 E3 E4. eapply (inv2_frame s); [exact H|exact E1|exact E2|exact E3|..]; rewrite E4, Ek; [intros Y; apply in_pull in Y; [exact Y|intros ->; discriminate Hf]|right; assumption|right; assumption]. }
    destruct f as [g| |rest| | |dv|]; try discriminate Hf; try (injection E as <-; apply G; reflexivity).
    + apply bind_Ok in E. destruct E as (? & _ & E). injection E as <-. apply pump_rinv2, G; reflexivity.
    + apply bind_Ok in E. destruct E as (? & _ & E). injection E as <-. destruct H as [H1 H2 H3]. rewrite Ek in *. split; unfold rcall, rset_stack; cbn [rd_cb rd_pend rd_stack rd_log].
      * intros A B. right. destruct (H1 A B) as [Y|Y]; [discriminate Y|exact Y].
      * exact H2.
      * intros _. apply H3. left. left. reflexivity.
    + apply bind_Ok in E. destruct E as (? & _ & E). injection E as <-. apply settle_rinv2. destruct dv; [|apply G; reflexivity].
      destruct H as [H1 H2 H3]. rewrite Ek in *. assert (X : existsb is_err (rd_log s) = true) by (apply H3; right; left; reflexivity).
      split; unfold rret, rset_pend, rset_stack; cbn [rd_cb rd_pend rd_stack rd_log]; [congruence|congruence|]. intros _. exact X.
  - destruct (rd_stack s) as [|f k] eqn:Ek; [discriminate E|]. destruct H as [H1 H2 H3]. rewrite Ek in *. destruct f as [g| |rest| | |dv|]; try discriminate E.
    + injection E as <-. apply settle_rinv2. split; cbn [rd_cb rd_pend rd_stack rd_log]; [|exact H2|intros [Y|Y]; apply H3; [left|right]; right; exact Y].
      intros A B. destruct (H1 A B) as [Y|Y]; [discriminate Y|exact Y].
    + apply bind_Ok in E. destruct E as (? & _ & E). injection E as <-. apply setRest_rinv2; [exact H2|]. unfold rset_stack. cbn [rd_stack rd_log]. intros [Y|Y]; apply H3; [left|right]; right; exact Y.
  - injection E as <-. apply settle_rinv2. eapply (inv2_frame s); [exact H|reflexivity..|auto|auto|auto].
Qed.
Lemma rhist_rinv2 P s : rhist P s -> rinv2 s.
Proof. induction 1 as [|s m s' _ IH Ha _ E]; [|eapply rstep_rinv2; eassumption]. split; cbn; try congruence. intros [[]|[]]. Qed.

(** Errors come after data. *)
Record rinv3 (s : rd) : Prop := mkRinv3 { t_legal : all_events rlegal_err (rd_log s); t_sets : sets (rd_stack s) }.
Lemma err_rinv3 s ex : rinv3 s -> (rd_cb s <> None -> (exists L', rd_log s = L' ++ [RError ex]) \/ (exists L' d, rd_log s = L' ++ [RFail d]) \/ received (rd_log s) = consumed (rd_log s)) -> rinv3 (deliverError s ex).
Proof.
  intros [H1 H2] H. unfold deliverError. destruct (rd_cb s) as [c|] eqn:Ec.
  - split; unfold rcall, rsay, rset_cb; cbn [rd_stack rd_log]; [|split; [exact Logic.I|exact H2]]. apply all_snoc; [exact H1|]. cbn [rlegal_err]. apply H. discriminate.
  - destruct (rd_pend s); (split; [exact H1|split; [exact Logic.I|exact H2]]).
Qed.
Lemma inv3_same s s' : rinv3 s -> rd_log s' = rd_log s -> rd_stack s' = rd_stack s -> rinv3 s'. Proof. intros [H1 H2] E1 E2. split; rewrite ?E1, ?E2; assumption. Qed.
Lemma inv3_say s s' e : rinv3 s -> is_err e = false -> rd_log s' = rd_log s ++ [e] -> sets (rd_stack s') -> rinv3 s'.
Proof. intros [H1 H2] He E1 E2. split; [|exact E2]. rewrite E1. apply all_snoc; [exact H1|]. destruct e; try exact Logic.I. discriminate He. Qed.
Lemma pump_rinv3 s d q : rinv3 s -> rinv3 (pump s d q).
Proof.
  intros H. assert (C : forall t, rinv3 t -> rinv3 (rret (checkBufLen t q))) by (intros t Ht; destruct (check_same t q) as (E1 & E2 & E3 & E4 & E5); eapply (inv3_same t); [exact Ht|exact E3|exact E4]).
  destruct d as [d|]; cbn [pump]; [|apply C, H]. destruct (rd_cb s) as [c|] eqn:Ec.
  - destruct (q_movable q); [eapply (inv3_say s); [exact H| |reflexivity|split; [exact Logic.I|apply H]]; reflexivity|]. destruct d as [|x d]; [apply C, H|].
    assert (X : rinv3 (deliverError (rsay s (RFail (x :: d))) exBadArgs)).
    { apply err_rinv3; [eapply (inv3_say s); [exact H| |reflexivity|apply H]; reflexivity|]. intros _. right. left. unfold rsay. cbn [rd_log]. eauto. }
    destruct (q_space q) as [[|n]|]; [exact X| |exact X]. eapply (inv3_say s); [exact H| |reflexivity|split; [exact Logic.I|apply H]]; reflexivity.
  - apply C. eapply (inv3_same s); [exact H|reflexivity..].
Qed.
Lemma setRest_rinv3 s q : rinv s -> rinv3 s -> pulls (rd_stack s) = [] -> rinv3 (setRest s q).
Proof.
  intros H0 H Hp. unfold setRest.
  assert (Hc : rd_cb s <> None -> received (rd_log s) = consumed (rd_log s)).
  { intros X. rewrite (v_bytes _ H0), Hp, (v_cb _ H0 X). cbn [obytes app]. rewrite app_nil_r. reflexivity. }
  assert (X : rinv3 (if q_good q then rcall (rset_reading s true) FStart else deliverError (rsay s (RError exNotOpen)) exNotOpen)).
  { destruct (q_good q); [split; [apply H|split; [exact Logic.I|apply H]]|]. apply err_rinv3; [eapply (inv3_say s); [exact H| |reflexivity|apply H]; reflexivity|]. intros _. left. unfold rsay. cbn [rd_log]. eauto. }
  destruct (rd_cb s) as [c|] eqn:Ec; [|exact X]. destruct (rd_pend s) as [ex|] eqn:Ep; [|exact X]. apply err_rinv3; [eapply (inv3_same s); [exact H|reflexivity..]|]. intros _. right. right. apply Hc. discriminate.
Qed.
Lemma no_nested_weak s m : no_nested s m -> no_nested_data s m. Proof. destruct m as [d q|c q|ex|q|q|]; cbn; auto. Qed.
Lemma settle_rinv3 s : rinv3 s -> rinv3 (settle s).
Proof. intros H. destruct (settle_same s) as (E1 & E2 & E3 & E4 & E5). eapply (inv3_same s); [exact H|exact E3|exact E4]. Qed.
Lemma rstep_rinv3 s m s' : rinv s -> rinv3 s -> no_nested s m -> rstep s m = Ok s' -> rinv3 s'.
Proof.
  intros H0 H Hm E. destruct m as [d q|c q|ex|q|q|]; cbn [rstep no_nested] in *.
  - injection E as <-. set (t := rsay _ _). assert (X : rinv3 t) by (eapply (inv3_say s); [exact H| |reflexivity|split; [exact Logic.I|apply H]]; reflexivity).
    unfold deliverAppData. destruct (rd_buf t); apply pump_rinv3; [|exact X]. eapply (inv3_same t); [exact X|reflexivity..].
  - injection E as <-. unfold setReadCB. cbv zeta. assert (X : forall c', rinv3 (rset_cb (rsay (rset_stack s (FCall false :: rd_stack s)) (RSet c)) c')) by (intros c'; eapply (inv3_say s); [exact H| |reflexivity|split; [exact Logic.I|apply H]]; reflexivity).
    destruct c as [c|]; [|eapply (inv3_same _ _ (X None)); reflexivity]. specialize (X (Some c)). set (t := rset_cb _ _) in *. destruct (rd_buf t) as [b|] eqn:Eb.
    + unfold deliverAppData. cbn [rd_buf rset_stack]. rewrite Eb. apply pump_rinv3. split; [apply X|]. split; [|apply X]. unfold t. cbn [rd_stack rset_cb rsay rset_stack]. rewrite pulls_cons, Hm. reflexivity.
    + apply setRest_rinv3; [|exact X|].
      * destruct H0 as [A1 A2 A3 A4 A5 A6]. change (rd_buf t) with (rd_buf s) in Eb. split; unfold t, rset_cb, rsay, rset_stack; cbn [rd_cb rd_buf rd_stack rd_log].
        -- apply all_snoc; [exact A1|exact Logic.I].
        -- rewrite received_snoc, consumed_snoc, !app_nil_r, pulls_cons. exact A2.
        -- rewrite pulls_cons. exact A3.
        -- split; [exact Logic.I|exact A4].
        -- intros _. exact Eb.
        -- rewrite cur_snoc. reflexivity.
      * unfold t, rset_cb, rsay, rset_stack. cbn [rd_stack]. rewrite pulls_cons. exact Hm.
  - injection E as <-. apply err_rinv3; [eapply (inv3_say s); [exact H| |reflexivity|split; [exact Logic.I|apply H]]; reflexivity|]. intros _. left. unfold rsay, rset_stack. cbn [rd_log]. eauto.
  - destruct (rd_stack s) as [|f k] eqn:Ek; [discriminate E|].
    assert (Hk : sets k) by (pose proof (t_sets _ H) as X; rewrite Ek in X; apply X).
    assert (G : forall t, rd_log t = rd_log s -> rd_stack t = k -> rinv3 t) by (intros t E1 E2; split; rewrite ?E1, ?E2; [apply H|exact Hk]).
    destruct f as [g| |rest| | |dv|]; try (injection E as <-; apply G; reflexivity); apply bind_Ok in E; destruct E as (? & _ & E); injection E as <-.
    + apply pump_rinv3, G; reflexivity.
    + split; [apply H|split; [exact Logic.I|exact Hk]].
    + apply settle_rinv3. destruct dv; apply G; reflexivity.
  - destruct (rd_stack s) as [|f k] eqn:Ek; [discriminate E|].
    assert (Hk : sets (f :: k)) by (pose proof (t_sets _ H) as X; rewrite Ek in X; apply X). destruct Hk as [Hf Hk].
    assert (G : forall t, rd_log t = rd_log s -> rd_stack t = k -> rinv3 t) by (intros t E1 E2; split; rewrite ?E1, ?E2; [apply H|exact Hk]).
    destruct f as [g| |rest| | |dv|]; try discriminate E; [injection E as <-; apply settle_rinv3, G; reflexivity|].
    apply bind_Ok in E; destruct E as (? & _ & E); injection E as <-. apply setRest_rinv3; [|apply G; reflexivity|exact Hf].
    eapply (inv_frame s); [exact H0|reflexivity|reflexivity|reflexivity|reflexivity|rewrite Ek; reflexivity|]. pose proof (v_one _ H0) as X. rewrite Ek in X. apply X.
  - injection E as <-. apply settle_rinv3. eapply (inv3_same s); [exact H|reflexivity..].
Qed.
Lemma rhist_weak s : rhist no_nested s -> rhist no_nested_data s.
Proof. induction 1 as [|s m s' _ IH Ha Hm E]; [constructor|]. eapply rh_step; [exact IH|exact Ha|apply no_nested_weak, Hm|exact E]. Qed.
Lemma rhist_rinv3 s : rhist no_nested s -> rinv3 s.
Proof.
  induction 1 as [|s m s' Hs IH Ha Hm E]; [|eapply rstep_rinv3; [apply rhist_rinv, rhist_weak, Hs|eassumption..]]. split; [|exact Logic.I]. intros L1 e L2 X. destruct L1; discriminate X.
Qed.

(** Control. *)
Fixpoint wf (k : list rframe) : Prop :=
  match k with
  | [] => True
  | FSetK :: FCall false :: k' => match k' with [] => True | f :: _ => is_foreign f = true end /\ wf k'
  | FSetK :: _ => False
  | FCall _ :: k' => match k' with [] => True | f :: _ => is_foreign f = true end /\ wf k'
  | _ :: k' => match k' with [] => False | f :: _ => is_foreign f = false end /\ wf k'
  end.
(** Calls that go on with the object when what they have called returns, and hold no guard of it themselves. *)
Definition touches (f : rframe) : bool := match f with FPull _ | FSetK => true | _ => false end.
(** destroy() is not called while such a call is going on, unless it has been called under a guard: that is within setReadCB while it gives
    data, but not within deliverError, nor within setReadCB if it gives an error. *)
Definition safe_destroy (s : rd) (m : rmove) : Prop :=
  match m with RMDestroy => forall k1 f k2, rd_stack s = k1 ++ f :: k2 -> touches f = true -> existsb guard k2 = true | _ => True end.
Fixpoint sure (k : list rframe) : Prop := match k with [] => True | f :: k' => (touches f = true -> existsb guard k' = true) /\ sure k' end.
Lemma sure_all k : (forall k1 f k2, k = k1 ++ f :: k2 -> touches f = true -> existsb guard k2 = true) -> sure k.
Proof. induction k as [|f k IH]; intros H; [exact Logic.I|]. split; [apply (H [] f k eq_refl)|]. apply IH. intros k1 g k2 E. apply (H (f :: k1) g k2). rewrite E. reflexivity. Qed.
Definition ctl_ok (s : rd) : Prop := match rd_ctl s with Foreign => match rd_stack s with [] => True | f :: _ => is_foreign f = true end | Returning => match rd_stack s with [] => False | f :: _ => is_foreign f = false end end.
Record rinv4 (s : rd) : Prop := mkRinv4 {
  w_wf : wf (rd_stack s);
  w_ctl : ctl_ok s;
  w_sure : rd_dying s = true -> sure (rd_stack s);
  w_dead : rd_alive s = false -> rd_dying s = true /\ existsb guard (rd_stack s) = false;
  w_live : rd_alive s = true -> rd_dying s = true -> existsb guard (rd_stack s) = true }.
Lemma wf_tail f k : wf (f :: k) -> wf k.
Proof. destruct f; cbn [wf]; try (intros [_ H]; exact H). destruct k as [|f k]; [intros []|]. destruct f as [[|]| | | | | |]; cbn [wf]; try (intros []; fail). exact (fun H => H). Qed.
Lemma settle_rinv4 s : wf (rd_stack s) -> ctl_ok s -> (rd_dying s = true -> sure (rd_stack s)) -> rd_alive s = true \/ (rd_dying s = true /\ existsb guard (rd_stack s) = false) -> rinv4 (settle s).
Proof.
  intros H1 H2 H3 H4. unfold settle. destruct (rd_dying s && negb (existsb guard (rd_stack s))) eqn:E.
  - apply andb_true_iff in E. destruct E as [E1 E2]. apply negb_true_iff in E2. split; unfold ctl_ok; cbn [rd_stack rd_ctl rd_dying rd_alive]; auto. discriminate.
  - split; auto.
    + intros X. destruct H4 as [H4|H4]; [congruence|exact H4].
    + intros _ X. rewrite X in E. cbn [andb] in E. apply negb_false_iff in E. exact E.
Qed.
(** The methods end by calling foreign code or returning. *)
Definition runs (s s' : rd) : Prop :=
  rd_alive s' = rd_alive s /\ rd_dying s' = rd_dying s /\ ((rd_ctl s' = Returning /\ rd_stack s' = rd_stack s) \/ (rd_ctl s' = Foreign /\ exists f, is_foreign f = true /\ rd_stack s' = f :: rd_stack s)).
Lemma err_runs s t ex : rd_alive t = rd_alive s -> rd_dying t = rd_dying s -> rd_stack t = rd_stack s -> runs s (deliverError t ex).
Proof.
  intros E1 E2 E3. unfold deliverError. destruct (rd_cb t).
  - split; [exact E1|]. split; [exact E2|]. right. split; [reflexivity|]. exists FErrCb. cbn. rewrite E3. auto.
  - destruct (rd_pend t); (split; [exact E1|]; split; [exact E2|]; right; split; [reflexivity|]; exists (FTail false); cbn; rewrite E3; auto).
Qed.
Lemma check_runs s t q : rd_alive t = rd_alive s -> rd_dying t = rd_dying s -> rd_stack t = rd_stack s -> runs s (rret (checkBufLen t q)).
Proof.
  intros E1 E2 E3. assert (X : rd_alive (checkBufLen t q) = rd_alive t /\ rd_dying (checkBufLen t q) = rd_dying t /\ rd_stack (checkBufLen t q) = rd_stack t).
  { unfold checkBufLen. destruct (rd_cb t); [auto|]. set (b := (_ || _)%bool). destruct b; auto. }
  destruct X as (X1 & X2 & X3). split; [cbn; congruence|]. split; [cbn; congruence|]. left. split; [reflexivity|]. cbn. congruence.
Qed.
Lemma pump_runs s t d q : rd_alive t = rd_alive s -> rd_dying t = rd_dying s -> rd_stack t = rd_stack s -> runs s (pump t d q).
Proof.
  intros E1 E2 E3. destruct d as [d|]; cbn [pump]; [|apply check_runs; assumption]. destruct (rd_cb t) as [c|].
  - destruct (q_movable q).
    + split; [exact E1|]. split; [exact E2|]. right. split; [reflexivity|]. exists FMoved. cbn. rewrite E3. auto.
    + destruct d as [|x d]; [apply check_runs; assumption|]. destruct (q_space q) as [[|n]|]; [apply err_runs; assumption| |apply err_runs; assumption].
      split; [exact E1|]. split; [exact E2|]. right. split; [reflexivity|]. eexists (FPull _). cbn. rewrite E3. split; reflexivity.
  - apply check_runs; assumption.
Qed.
Lemma deliver_runs s t d q : rd_alive t = rd_alive s -> rd_dying t = rd_dying s -> rd_stack t = rd_stack s -> runs s (deliverAppData t d q).
Proof. intros E1 E2 E3. unfold deliverAppData. destruct (rd_buf t); apply pump_runs; assumption. Qed.
Lemma setRest_runs s t q : rd_alive t = rd_alive s -> rd_dying t = rd_dying s -> rd_stack t = rd_stack s -> runs s (setRest t q).
Proof.
  intros E1 E2 E3. unfold setRest.
  assert (X : runs s (if q_good q then rcall (rset_reading t true) FStart else deliverError (rsay t (RError exNotOpen)) exNotOpen)).
  { destruct (q_good q); [|apply err_runs; assumption]. split; [exact E1|]. split; [exact E2|]. right. split; [reflexivity|]. exists FStart. cbn. rewrite E3. auto. }
  destruct (rd_cb t); [|exact X]. destruct (rd_pend t); [|exact X]. apply err_runs; assumption.
Qed.
Lemma runs_rinv4 s s' : rd_alive s = true -> wf (rd_stack s) -> match rd_stack s with [] => False | f :: _ => is_foreign f = false end -> (rd_dying s = true -> sure (rd_stack s) /\ existsb guard (rd_stack s) = true) -> runs s s' -> rinv4 s'.
Proof.
  intros Ha H1 H2 H3 (E1 & E2 & [[E3 E4]|(E3 & f & Hf & E4)]); split; unfold ctl_ok; rewrite ?E1, ?E2, ?E3, ?E4; try assumption; try congruence; try (intros X; apply H3, X); try (intros _ X; apply H3, X).
  - destruct f; try discriminate Hf; (split; [exact H2|exact H1]).
  - intros X. destruct (H3 X) as [X1 X2]. split; auto.
  - intros _ X. destruct (H3 X) as [X1 X2]. cbn [existsb]. rewrite X2. apply orb_true_r.
Qed.
Lemma rstep_rinv4 s m : rinv4 s -> rallowed s m -> safe_destroy s m -> exists s', rstep s m = Ok s' /\ rinv4 s'.
Proof.
  intros [H1 H2 H3 H4 H5] Ha Hm. unfold ctl_ok in H2. destruct m as [d q|c q|ex|q|q|]; cbn [rstep rallowed safe_destroy] in *.
  - destruct Ha as [Hc Ha]. rewrite Hc in H2. eexists. split; [reflexivity|]. set (t := rsay _ _). apply (runs_rinv4 t); [exact Ha|split; [exact H2|exact H1]|reflexivity| |apply deliver_runs; reflexivity].
    intros X. split; [|reflexivity]. split; [discriminate|apply H3, X].
  - destruct Ha as [Hc Ha]. rewrite Hc in H2. eexists. split; [reflexivity|]. unfold setReadCB. cbv zeta. set (t := rset_cb _ _).
    assert (B : rd_dying s = true -> sure (FCall false :: rd_stack s) /\ existsb guard (FCall false :: rd_stack s) = true).
    { intros X. split; [split; [discriminate|apply H3, X]|]. cbn [existsb guard orb]. apply H5; assumption. }
    destruct c as [c|].
    + destruct (rd_buf t).
      * apply (runs_rinv4 (rset_stack t (FSetK :: rd_stack t))); [exact Ha|split; [exact H2|exact H1]|reflexivity| |apply deliver_runs; reflexivity].
        intros X. destruct (B X) as [B1 B2]. split; [split; [intros _; exact B2|exact B1]|exact B2].
      * apply (runs_rinv4 t); [exact Ha|split; [exact H2|exact H1]|reflexivity|exact B|apply setRest_runs; reflexivity].
    + split; unfold t, ctl_ok, rret, rset_cb, rsay, rset_stack; cbn [rd_stack rd_ctl rd_dying rd_alive]; [split; assumption|reflexivity|apply B|congruence|intros _; apply B].
  - destruct Ha as [Hc Ha]. rewrite Hc in H2. eexists. split; [reflexivity|]. set (t := rsay _ _). apply (runs_rinv4 t); [exact Ha|split; [exact H2|exact H1]|reflexivity| |apply err_runs; reflexivity].
    intros X. split; [|reflexivity]. split; [discriminate|apply H3, X].
  - destruct Ha as (Hc & f & k & Ek & Hf). rewrite Ek in *.
    assert (Hk : wf k /\ match k with [] => False | f :: _ => is_foreign f = false end) by (destruct f; try discriminate Hf; destruct H1 as [X1 X2]; auto). destruct Hk as [Hk1 Hk2].
    assert (Hb : rd_dying s = true -> sure k) by (intros X; apply (H3 X)).
    assert (R : guard f = false -> rinv4 (rret (rset_stack s k))).
    { intros Hg. split; unfold ctl_ok, rret, rset_stack; cbn [rd_stack rd_ctl rd_dying rd_alive]; [exact Hk1|exact Hk2|exact Hb| |].
      - intros X. destruct (H4 X) as [X1 X2]. cbn [existsb] in X2. rewrite Hg in X2. auto.
      - intros X1 X2. specialize (H5 X1 X2). cbn [existsb] in H5. rewrite Hg in H5. exact H5. }
    assert (Hal : guard f = true \/ touches f = true -> rd_alive s = true).
    { intros X. destruct (rd_alive s); [reflexivity|]. exfalso. destruct (H4 eq_refl) as [X1 X2]. cbn [existsb] in X2. apply orb_false_iff in X2. destruct X2 as [X2 X3]. destruct X as [X|X]; [congruence|]. destruct (H3 X1) as [X4 _]. rewrite (X4 X) in X3. discriminate X3. }
    unfold alive. destruct f as [g| |rest| | |dv|]; try discriminate Hf; try rewrite (Hal ltac:(cbn; auto)); cbn [bind]; (eexists; split; [reflexivity|]); try (apply R; reflexivity).
    + assert (Ha : rd_alive s = true) by (apply Hal; auto). apply (runs_rinv4 (rset_stack s k)); [exact Ha|exact Hk1|exact Hk2| |apply pump_runs; reflexivity]. intros X. split; [apply Hb, X|]. exact (H5 Ha X).
    + assert (Ha : rd_alive s = true) by (apply Hal; auto). split; unfold ctl_ok, rcall, rset_stack; cbn [rd_stack rd_ctl rd_dying rd_alive]; [split; assumption|reflexivity|intros X; split; [discriminate|apply Hb, X]|congruence|reflexivity].
    + assert (Ha : rd_alive s = true) by (apply Hal; auto). destruct dv; (apply settle_rinv4; [exact Hk1|exact Hk2|exact Hb|left; exact Ha]).
  - rewrite Ha in H2. destruct (rd_stack s) as [|f k] eqn:Ek; [destruct H2|].
    unfold alive. destruct f as [g| |rest| | |dv|]; try discriminate H2.
    + eexists. split; [reflexivity|]. destruct H1 as [X1 X2]. apply settle_rinv4; unfold ctl_ok; cbn [rd_stack rd_ctl rd_dying rd_alive]; [exact X2|exact X1|intros X; apply (H3 X)|].
      destruct (rd_alive s); [auto|]. right. destruct (H4 eq_refl) as [Y1 Y2]. cbn [existsb] in Y2. apply orb_false_iff in Y2. tauto.
    + assert (Hal : rd_alive s = true). { destruct (rd_alive s); [reflexivity|]. exfalso. destruct (H4 eq_refl) as [X1 X2]. cbn [existsb guard orb] in X2. destruct (H3 X1) as [X4 _]. rewrite (X4 eq_refl) in X2. discriminate X2. }
      rewrite Hal. cbn [bind]. eexists. split; [reflexivity|]. destruct k as [|f2 k]; [destruct H1|]. destruct f2 as [[|]| | | | | |]; try (destruct H1; fail).
      apply (runs_rinv4 (rset_stack s (FCall false :: k))); [exact Hal|exact H1|reflexivity| |apply setRest_runs; reflexivity].
      intros X. split; [apply (H3 X)|]. exact (H5 Hal X).
  - destruct Ha as [Hc Ha]. eexists. split; [reflexivity|]. apply settle_rinv4; unfold ctl_ok; cbn [rd_stack rd_ctl rd_dying rd_alive]; [exact H1|exact H2| |auto].
    intros _. apply sure_all, Hm.
Qed.
Lemma rhist_rinv4 s : rhist safe_destroy s -> rinv4 s.
Proof.
  induction 1 as [|s m s' _ IH Ha Hm E]; [split; cbn; try congruence; try exact Logic.I; discriminate|]. destruct (rstep_rinv4 s m IH Ha Hm) as (s2 & E2 & H2). congruence.
Qed.

(** ** Theorems *)
(** Which error. *)
Record rinv5 (s : rd) : Prop := mkRinv5 {
  y_first : existsb is_err (rd_log s) = false -> rd_pend s = hd_error (errors (rd_log s));
  y_in : forall ex, rd_pend s = Some ex -> In ex (errors (rd_log s));
  y_legal : all_events rlegal_first (rd_log s) }.
Lemma errors_snoc L e : errors (L ++ [e]) = errors L ++ match e with RError ex => [ex] | RFail _ => [exBadArgs] | _ => [] end.
Proof. unfold errors. rewrite map_app, concat_app. cbn [map concat]. rewrite app_nil_r. reflexivity. Qed.
Lemma inv5_same s s' : rinv5 s -> rd_pend s' = rd_pend s -> rd_log s' = rd_log s -> rinv5 s'.
Proof. intros [H1 H2 H3] E1 E2. split; rewrite ?E1, ?E2; assumption. Qed.
Lemma inv5_say s s' e : rinv5 s -> match e with RRecv _ | RSet _ | RGive _ _ => True | _ => False end -> rd_pend s' = rd_pend s -> rd_log s' = rd_log s ++ [e] -> rinv5 s'.
Proof.
  intros [H1 H2 H3] He E1 E2. split; rewrite ?E1, ?E2, ?ex_snoc, ?errors_snoc.
  - destruct e; try destruct He; cbn [is_err]; rewrite orb_false_r, app_nil_r; exact H1.
  - intros ex E. apply in_or_app. left. auto.
  - apply all_snoc; [exact H3|]. destruct e; try exact Logic.I; destruct He.
Qed.
Lemma err_rinv5 s t e ex : rinv5 s -> (e = RError ex \/ exists d, e = RFail d /\ ex = exBadArgs /\ rd_cb t <> None) -> rd_pend t = rd_pend s -> rd_log t = rd_log s ++ [e] -> rinv5 (deliverError t ex).
Proof.
  intros [H1 H2 H3] He E1 E2. assert (Ee : errors (rd_log t) = errors (rd_log s) ++ [ex]) by (rewrite E2, errors_snoc; destruct He as [->|(d & -> & -> & _)]; reflexivity).
  assert (Ei : existsb is_err (rd_log t) = existsb is_err (rd_log s)) by (rewrite E2, ex_snoc; destruct He as [->|(d & -> & _)]; cbn [is_err]; apply orb_false_r).
  assert (El : all_events rlegal_first (rd_log t)) by (rewrite E2; apply all_snoc; [exact H3|]; destruct He as [->|(d & -> & _)]; exact Logic.I).
  unfold deliverError. destruct (rd_cb t) as [c|] eqn:Ec.
  - split; unfold rcall, rsay, rset_cb; cbn [rd_pend rd_log]; rewrite ?ex_snoc, ?errors_snoc, ?app_nil_r, ?Ee.
    + cbn [is_err]. rewrite orb_true_r. discriminate.
    + intros x E. apply in_or_app. left. apply H2. congruence.
    + apply all_snoc; [exact El|]. cbn [rlegal_first]. rewrite E2. destruct He as [->|(d & -> & -> & _)]; [left; eauto|right; left; eauto].
  - destruct He as [->|(d & _ & _ & X)]; [|congruence].
    assert (X : forall u, rd_log u = rd_log t -> rd_pend u = match rd_pend s with Some x => Some x | None => Some ex end -> rinv5 u).
    { intros u F1 F2. split; rewrite ?F1, ?F2, ?Ei, ?Ee; [| |exact El].
      - intros Hn. rewrite (H1 Hn). destruct (errors (rd_log s)); reflexivity.
      - intros x E. apply in_or_app. destruct (rd_pend s) as [y|] eqn:Ep; [left; apply H2; congruence|right; left; congruence]. }
    destruct (rd_pend t) as [x|] eqn:Ep; apply X; try reflexivity; cbn [rcall rd_pend rset_pend]; rewrite <- E1; [exact Ep|reflexivity].
Qed.
Lemma pump_rinv5 s d q : rinv5 s -> rinv5 (pump s d q).
Proof.
  intros H. assert (C : forall t, rinv5 t -> rinv5 (rret (checkBufLen t q))) by (intros t Ht; destruct (check_same t q) as (E1 & E2 & E3 & E4 & E5); eapply (inv5_same t); [exact Ht|exact E5|exact E3]).
  destruct d as [d|]; cbn [pump]; [|apply C, H]. destruct (rd_cb s) as [c|] eqn:Ec.
  - destruct (q_movable q); [eapply (inv5_say s); [exact H| |reflexivity|reflexivity]; exact Logic.I|]. destruct d as [|x d]; [apply C, H|].
    assert (X : rinv5 (deliverError (rsay s (RFail (x :: d))) exBadArgs)).
    { eapply (err_rinv5 s); [exact H| |reflexivity|reflexivity]. right. exists (x :: d). split; [reflexivity|]. split; [reflexivity|]. cbn [rd_cb rsay]. congruence. }
    destruct (q_space q) as [[|n]|]; [exact X| |exact X]. eapply (inv5_say s); [exact H| |reflexivity|reflexivity]; exact Logic.I.
  - apply C. eapply (inv5_same s); [exact H|reflexivity..].
Qed.
Lemma deliver_rinv5 s d q : rinv5 s -> rinv5 (deliverAppData s d q).
Proof. intros H. unfold deliverAppData. destruct (rd_buf s); apply pump_rinv5; [|exact H]. eapply (inv5_same s); [exact H|reflexivity..]. Qed.
Lemma setRest_rinv5 s q : rinv5 s -> rinv5 (setRest s q).
Proof.
  intros H. unfold setRest.
  assert (X : rinv5 (if q_good q then rcall (rset_reading s true) FStart else deliverError (rsay s (RError exNotOpen)) exNotOpen)).
  { destruct (q_good q); [eapply (inv5_same s); [exact H|reflexivity..]|]. eapply (err_rinv5 s); [exact H|left; reflexivity|reflexivity|reflexivity]. }
  destruct (rd_cb s) as [c|] eqn:Ec; [|exact X]. destruct (rd_pend s) as [ex|] eqn:Ep; [|exact X]. destruct H as [H1 H2 H3].
  unfold deliverError. cbn [rset_pend rd_cb]. rewrite Ec. split; unfold rcall, rsay, rset_cb; cbn [rd_pend rd_log]; rewrite ?ex_snoc; [cbn [is_err]; rewrite orb_true_r; discriminate|discriminate|].
  cbn [rset_pend rd_log]. apply all_snoc; [exact H3|]. cbn [rlegal_first]. right. right. split; [apply H2, Ep|]. intros Hn. rewrite <- (H1 Hn). exact Ep.
Qed.
Lemma settle_rinv5 s : rinv5 s -> rinv5 (settle s).
Proof. intros H. destruct (settle_same s) as (E1 & E2 & E3 & E4 & E5). eapply (inv5_same s); [exact H|exact E5|exact E3]. Qed.
Lemma rstep_rinv5 s m s' : rinv2 s -> rinv5 s -> rstep s m = Ok s' -> rinv5 s'.
Proof.
  intros H2 H E. destruct m as [d q|c q|ex|q|q|]; cbn [rstep] in *.
  - injection E as <-. apply deliver_rinv5. eapply (inv5_say s); [exact H| |reflexivity|reflexivity]; exact Logic.I.
  - injection E as <-. unfold setReadCB. cbv zeta. assert (X : forall k c', rinv5 (rset_cb (rsay (rset_stack s k) (RSet c)) c')) by (intros k c'; eapply (inv5_say s); [exact H| |reflexivity|reflexivity]; exact Logic.I).
    destruct c as [c|]; [|eapply inv5_same; [apply (X []  None)|reflexivity..]]. destruct (rd_buf _); [|apply setRest_rinv5, X]. apply deliver_rinv5. eapply inv5_same; [apply (X [] (Some c))|reflexivity..].
  - injection E as <-. eapply (err_rinv5 s); [exact H|left; reflexivity|reflexivity|reflexivity].
  - destruct (rd_stack s) as [|f k] eqn:Ek; [discriminate E|].
    assert (G : forall t, rd_pend t = rd_pend s -> rd_log t = rd_log s -> rinv5 t) by (intros t E1 E2; eapply (inv5_same s); [exact H|exact E1|exact E2]).
    destruct f as [g| |rest| | |dv|]; try (injection E as <-; apply G; reflexivity).
    + apply bind_Ok in E. destruct E as (? & _ & E). injection E as <-. apply pump_rinv5, G; reflexivity.
    + apply bind_Ok in E. destruct E as (? & _ & E). injection E as <-. apply G; reflexivity.
    + apply bind_Ok in E. destruct E as (? & _ & E). injection E as <-. apply settle_rinv5. destruct dv; [|apply G; reflexivity].
      assert (X : existsb is_err (rd_log s) = true) by (apply (u_err _ H2); rewrite Ek; right; left; reflexivity).
      split; unfold rret, rset_pend, rset_stack; cbn [rd_pend rd_log]; [congruence|discriminate|apply H].
  - destruct (rd_stack s) as [|f k] eqn:Ek; [discriminate E|]. destruct f as [g| |rest| | |dv|]; try discriminate E.
    + injection E as <-. apply settle_rinv5. eapply (inv5_same s); [exact H|reflexivity..].
    + apply bind_Ok in E. destruct E as (? & _ & E). injection E as <-. apply setRest_rinv5. eapply (inv5_same s); [exact H|reflexivity..].
  - injection E as <-. apply settle_rinv5. eapply (inv5_same s); [exact H|reflexivity..].
Qed.
Lemma rhist_rinv5 P s : rhist P s -> rinv5 s.
Proof.
  intros H. induction H as [|s m s' Hs IH Ha _ E]; [split; [reflexivity|discriminate|]; intros [|? ?] e L2 X; discriminate X|]. eapply rstep_rinv5; [eapply rhist_rinv2, Hs|exact IH|exact E].
Qed.

(** Data is given in the order it is received, none twice, and none is lost except by a failing getReadBuffer: what has been received is
    what has been given or lost so, what a running delivery still holds, and what is buffered. *)
Theorem C70_order s : rhist no_nested_data s -> all_events rlegal (rd_log s) /\ received (rd_log s) = consumed (rd_log s) ++ pulls (rd_stack s) ++ obytes (rd_buf s).
Proof. intros H. apply rhist_rinv in H. split; apply H. Qed.
(** An error that was not given at once is given only when all data received has been. *)
Theorem C70_error_last s : rhist no_nested s -> all_events rlegal_err (rd_log s).
Proof. intros H. apply rhist_rinv3 in H. apply H. Qed.
(** When all calls have returned, a read callback that is set has been given everything, and no error is waiting for it. *)
Theorem C70_rest s : rhist no_nested_data s -> rd_stack s = [] -> rd_cb s <> None -> received (rd_log s) = consumed (rd_log s) /\ rd_pend s = None.
Proof.
  intros H Hs Hc. pose proof (rhist_rinv _ H) as I1. pose proof (rhist_rinv2 _ _ H) as I2. split.
  - rewrite (v_bytes _ I1), Hs, (v_cb _ I1 Hc). cbn [obytes pulls map concat app]. rewrite app_nil_r. reflexivity.
  - destruct (rd_pend s) as [ex|] eqn:E; [|reflexivity]. exfalso. pose proof (u_set _ I2 Hc ltac:(congruence)) as X. rewrite Hs in X. destruct X.
Qed.
(** As long as no error has been given the first that came is kept. *)
Theorem C70_error_kept P s : rhist P s -> existsb is_err (rd_log s) = false -> rd_pend s = hd_error (errors (rd_log s)).
Proof. intros H. apply (y_first _ (rhist_rinv5 _ _ H)). Qed.
(** An error given has just come, or came earlier; then it is the first, if none has been given. *)
Theorem C70_error_first P s : rhist P s -> all_events rlegal_first (rd_log s).
Proof. intros H. apply (y_legal _ (rhist_rinv5 _ _ H)). Qed.
(** Back pressure: when data arrives with no read callback and 64 KiB are buffered, decrypted or not, the transport is no longer read. *)
Theorem C70_pressure s d q s' : rd_cb s = None -> rstep s (RMArrive d q) = Ok s' -> 65536 <= blen (obytes (rd_buf s) ++ d) \/ 65536 <= q_tlen q -> rd_reading s' = false.
Proof.
  intros Hc E Hl. cbn [rstep] in E. injection E as <-. unfold deliverAppData. cbn [rd_buf rsay rset_stack].
  assert (X : forall t b, rd_cb t = None -> 65536 <= blen b \/ 65536 <= q_tlen q -> rd_reading (pump t (Some b) q) = false).
  { intros t b E1 E2. cbn [pump]. rewrite E1. unfold checkBufLen, rset_buf. cbn [rd_cb rd_buf]. rewrite E1. unfold kMaxBufSize. change (64 * 1024) with 65536. destruct E2 as [E2|E2]; apply N.leb_le in E2; rewrite E2, ?orb_true_r; reflexivity. }
  destruct (rd_buf s) as [b|]; apply X; try assumption.
Qed.
(** No check fails, and no deleted object is used, as long as destroy is not called while setReadCB, not called under a guard, gives data. *)
Theorem C70_safe s m : rhist safe_destroy s -> rallowed s m -> safe_destroy s m -> exists s', rstep s m = Ok s'.
Proof. intros H Ha Hm. destruct (rstep_rinv4 s m (rhist_rinv4 _ H) Ha Hm) as (s' & E & _). eauto. Qed.
