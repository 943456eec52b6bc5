(** * C32: the event loop *)
From Verif Require Import Base FizzBase.
Open Scope N_scope.

(** ** Specification: functions of the observable trace *)
Definition is_start (o : obs) : bool := match o with OStart _ | OExternal => true | _ => false end.
Definition is_done (o : obs) : bool := match o with ODone => true | _ => false end.
Definition count {A} (f : A -> bool) (l : list A) : nat := length (filter f l).
(** events handed over by the user *)
Definition submitted (t : list obs) : list pevent := flat_map (fun o => match o with OSubmit e => [e] | _ => [] end) t.
(** events that have left the queue: given to the state machine, returned or dropped *)
Definition consumed (t : list obs) : list pevent :=
  flat_map (fun o => match o with OStart (Some e) => [e] | OReturned e => [e] | ODropped e => [e] | _ => [] end) t.
Definition processed (t : list obs) : list pevent := flat_map (fun o => match o with OStart (Some e) => [e] | _ => [] end) t.

Lemma count_app {A} (f : A -> bool) a b : count f (a ++ b) = (count f a + count f b)%nat.
Proof. unfold count. rewrite filter_app, app_length. reflexivity. Qed.
Lemma submitted_app a b : submitted (a ++ b) = submitted a ++ submitted b.
Proof. apply flat_map_app. Qed.
Lemma consumed_app a b : consumed (a ++ b) = consumed a ++ consumed b.
Proof. apply flat_map_app. Qed.
Lemma processed_app a b : processed (a ++ b) = processed a ++ processed b.
Proof. apply flat_map_app. Qed.

Definition isV (f : frame) : bool := match f with FVisit => true | _ => false end.
Definition isP (f : frame) : bool := match f with FPpe => true | _ => false end.
Definition isE (f : frame) : bool := match f with FErr | FErrCb => true | _ => false end.
Definition b2nat (b : bool) : nat := if b then 1 else 0.

(** one action at a time: whenever an action starts, every earlier one is done *)
Definition serial (t : list obs) : Prop := forall pre o post, t = pre ++ o :: post -> is_start o = true -> count is_start pre = count is_done pre.

Record IB (c : conf) : Prop := {
  ib_guard : (count isV (stack c) + b2nat (inflight c) = b2nat (guard c))%nat;
  ib_ppe : count isP (stack c) = b2nat (inPpe c);
  ib_fifo : submitted (trace c) = consumed (trace c) ++ pending c;
  ib_bal : count is_start (trace c) = (count is_done (trace c) + b2nat (guard c))%nat;
  ib_serial : serial (trace c);
  ib_quiet : inPpe c = false -> guard c = false -> inTerminal c = false -> paused c = false -> pending c = [] /\ waitForData c = true;
  ib_err : (0 < count isE (stack c))%nat -> extErr c = true
}.

Lemma IB_init : IB fb_init.
Proof. split; try reflexivity; cbn; auto. - intros pre o post E. destruct pre; discriminate. - lia. Qed.

Lemma serial_snoc t o : serial t -> (is_start o = true -> count is_start t = count is_done t) -> serial (t ++ [o]).
Proof.
  intros Hs Ho pre x post E Hx. destruct post as [|y post] using rev_ind.
  - apply app_inj_tail in E. destruct E as [<- <-]. auto.
  - clear IHpost. rewrite app_comm_cons, app_assoc in E. apply app_inj_tail in E. destruct E as [-> _]. eapply Hs; [reflexivity|exact Hx].
Qed.

Lemma IB_call_ppe c : (count isV (stack c) + b2nat (inflight c) = b2nat (guard c))%nat -> count isP (stack c) = b2nat (inPpe c) ->
  submitted (trace c) = consumed (trace c) ++ pending c -> count is_start (trace c) = (count is_done (trace c) + b2nat (guard c))%nat ->
  serial (trace c) -> ((0 < count isE (stack c))%nat -> extErr c = true) -> IB (call_ppe c).
Proof.
  intros H1 H2 H3 H4 H5 H6. unfold call_ppe. destruct (inPpe c) eqn:E.
  - split; try assumption; [congruence|]. intros; congruence.
  - split; cbn [stack inflight guard inPpe trace pending extErr paused smTerm waitForData]; try assumption.
    + unfold count in *. cbn [filter isP length]. rewrite H2. reflexivity.
    + discriminate.
Qed.

Ltac projs := cbn [stack inflight guard inPpe trace pending extErr paused smTerm waitForData] in *.

Lemma IB_step c l c' : IB c -> step c l = Some c' -> IB c'.
Proof.
  intros [H1 H2 H3 H4 H5 H6 H7] E.
  assert (Hstart : forall now p o, guard c = false -> is_start o = true -> is_done o = false -> (submitted [o] = []) -> (consumed [o] ++ p = pending c) ->
     IB (start c now p o)).
  { intros now p o Hg Ho Hd Hsub Hcon. unfold start. rewrite Hg in *. cbn [b2nat] in *. assert (Hi : inflight c = false) by (destruct (inflight c); [cbn in H1; lia|reflexivity]).
    rewrite Hi in *. split; projs.
    - unfold count in *. destruct now; cbn [filter isV negb b2nat length]; cbn [b2nat] in H1; lia.
    - rewrite <- H2. destruct now; reflexivity.
    - rewrite submitted_app, consumed_app, Hsub, app_nil_r, H3, <- app_assoc, Hcon. reflexivity.
    - rewrite !count_app, H4. unfold count. cbn [filter]. rewrite Ho, Hd. cbn [length b2nat]. lia.
    - apply serial_snoc; [exact H5|]. intros _. lia.
    - discriminate.
    - intros Hc. apply H7. destruct now; [|exact Hc]. unfold count in *. cbn [filter isE] in Hc. exact Hc. }
  destruct l as [e| | | | | |now|b| | |now]; cbn [step] in E.
  - destruct (user_turn c); [|discriminate]. cbn [negb] in E. injection E as <-. apply IB_call_ppe; projs; try assumption.
    + rewrite submitted_app, consumed_app, H3. cbn. rewrite app_nil_r, app_assoc. reflexivity.
    + rewrite !count_app. cbn. lia.
    + apply serial_snoc; [exact H5|discriminate].
  - destruct (user_turn c); [|discriminate]. cbn [negb] in E. injection E as <-. split; projs; try assumption.
    intros A B C D. split; [|reflexivity]. apply H6; assumption.
  - destruct (user_turn c); [|discriminate]. cbn [negb] in E. injection E as <-. apply IB_call_ppe; projs; assumption.
  - destruct (user_turn c); [|discriminate]. cbn [negb] in E. destruct (extErr c) eqn:Ee; injection E as <-; [split; try assumption; intros; congruence|].
    split; projs; try assumption; try reflexivity. intros A B C. unfold inTerminal in C. projs. rewrite orb_true_r in C. discriminate.
  - destruct (user_turn c); [|discriminate]. cbn [negb] in E. injection E as <-. split; projs; try assumption. discriminate.
  - destruct (user_turn c); [|discriminate]. cbn [negb] in E. injection E as <-. apply IB_call_ppe; projs; assumption.
  - destruct (user_turn c); [|discriminate]. cbn [negb] in E. destruct (guard c) eqn:Eg; [discriminate|]. injection E as <-. apply Hstart; reflexivity.
  - destruct (user_turn c); [|discriminate]. cbn [negb] in E. destruct (stack c) as [|[] r] eqn:Es; try discriminate. injection E as <-.
    assert (Hg : guard c = true). { destruct (guard c); [reflexivity|]. unfold count in H1. cbn in H1. lia. }
    split; projs; try assumption; try (rewrite Es; assumption). intros; congruence.
  - destruct (user_turn c); [|discriminate]. cbn [negb] in E. destruct (stack c) as [|[] r] eqn:Es; try discriminate; injection E as <-.
    + assert (Hg : guard c = true). { destruct (guard c); [reflexivity|]. unfold count in H1. cbn in H1. lia. }
      rewrite Hg in *. cbn [b2nat] in *. apply IB_call_ppe; projs.
      * unfold count in *. cbn [filter isV length b2nat] in *. lia.
      * exact H2.
      * rewrite submitted_app, consumed_app, H3. cbn. rewrite !app_nil_r. reflexivity.
      * rewrite !count_app, H4. cbn. lia.
      * apply serial_snoc; [exact H5|discriminate].
      * exact H7.
    + unfold with_stack. split; projs; try assumption.
  - destruct (user_turn c); [|discriminate]. cbn [negb] in E. destruct (inflight c) eqn:Ei; [|discriminate]. injection E as <-. split; projs; try assumption.
    unfold count in *. cbn [filter isV length b2nat] in *. lia.
  - destruct (stack c) as [|[] r] eqn:Es; try discriminate.
    + destruct (negb (guard c) && negb (inTerminal c) && negb (paused c)) eqn:Ec.
      * rewrite !andb_true_iff, !negb_true_iff in Ec. destruct Ec as [[Eg Et] Ep].
        destruct (waitForData c) eqn:Ew; cbn [negb] in E.
        -- destruct (pending c) as [|e p] eqn:Epe; injection E as <-.
           ++ split; projs; try assumption; rewrite ?Eg in *.
              ** exact H1.
              ** unfold count in *. cbn [filter isP length] in H2. cbn. destruct (inPpe c); cbn in H2; lia.
              ** exact H4.
              ** intros; auto.
           ++ apply Hstart; reflexivity || assumption.
        -- injection E as <-. apply Hstart; reflexivity || assumption.
      * injection E as <-. split; projs; try assumption.
        -- unfold count in *. cbn [filter isP length] in H2. cbn. destruct (inPpe c); cbn in H2; lia.
        -- intros _ A B C. unfold inTerminal in *. projs. rewrite A, B, C in Ec. discriminate.
    + destruct (pending c) as [|e p] eqn:Epe; injection E as <-.
      * assert (Hx : extErr c = true) by (apply H7; unfold count; cbn; lia).
        split; unfold with_stack, inTerminal; projs; try assumption; [congruence| |].
        -- intros. rewrite Hx, orb_true_r in *. discriminate.
        -- intros _. exact Hx.
      * assert (Hx : extErr c = true) by (apply H7; unfold count; cbn; lia).
        assert (Hf : forall s, (if has_token e then FErrCb else FErr) = s -> isV s = false /\ isP s = false) by (intros s <-; destruct (has_token e); auto).
        destruct (Hf _ eq_refl) as [Hv Hp].
        split; projs.
        -- rewrite <- H1. unfold count. cbn [filter]. rewrite Hv. reflexivity.
        -- rewrite <- H2. unfold count. cbn [filter]. rewrite Hp. reflexivity.
        -- rewrite submitted_app, consumed_app, H3. destruct (has_token e); cbn; rewrite app_nil_r, <- app_assoc; reflexivity.
        -- rewrite !count_app, H4. destruct (has_token e); cbn; lia.
        -- apply serial_snoc; [exact H5|destruct (has_token e); discriminate].
        -- unfold inTerminal. projs. rewrite Hx, orb_true_r. discriminate.
        -- intros _. exact Hx.
Qed.
Lemma IB_run ls : forall c c', IB c -> run c ls = Some c' -> IB c'.
Proof. induction ls as [|l ls IH]; intros c c' HI E; cbn [run] in E; [congruence|]. destruct (step c l) as [c1|] eqn:E1; [|discriminate]. eapply IH; [eapply IB_step; eassumption|exact E]. Qed.
Definition reachable (c : conf) : Prop := exists ls, run fb_init ls = Some c.
Lemma reach_IB c : reachable c -> IB c.
Proof. intros [ls E]. eapply IB_run; [apply IB_init|exact E]. Qed.

(** ** Theorems *)
(** While an action is in flight nothing else is given to the state machine: every action that starts finds all
    earlier ones done.  actionProcessing() says exactly whether one is. *)
Theorem C32_serial : forall c, reachable c ->
  serial (trace c) /\ count is_start (trace c) = (count is_done (trace c) + b2nat (guard c))%nat.
Proof. intros c H. apply reach_IB in H. split; apply H. Qed.
Print Assumptions C32_serial.

(** Events leave the queue in the order of submission, none twice and none lost: those submitted are those consumed
    followed by those still queued. *)
Theorem C32_fifo : forall c, reachable c -> submitted (trace c) = consumed (trace c) ++ pending c.
Proof. intros c H. apply reach_IB in H. apply H. Qed.

(** trace only grows *)
Lemma step_trace c l c' : step c l = Some c' -> exists t, trace c' = trace c ++ t.
Proof.
  assert (Hn : forall a, trace a = trace c -> exists t, trace (call_ppe a) = trace c ++ t).
  { intros a E. exists []. unfold call_ppe. destruct (inPpe a); rewrite app_nil_r; exact E. }
  assert (Hn2 : forall a o, trace a = trace c ++ [o] -> exists t, trace (call_ppe a) = trace c ++ t).
  { intros a o E. exists [o]. unfold call_ppe. destruct (inPpe a); exact E. }
  assert (Hz : exists t, trace c = trace c ++ t) by (exists []; rewrite app_nil_r; reflexivity).
  destruct l as [e| | | | | |now|b| | |now]; cbn [step]; try (destruct (user_turn c); [|discriminate]; cbn [negb]).
  - intros E. injection E as <-. eapply Hn2. reflexivity.
  - intros E. injection E as <-. exact Hz.
  - intros E. injection E as <-. apply Hn. reflexivity.
  - destruct (extErr c); intros E; injection E as <-; exact Hz.
  - intros E. injection E as <-. exact Hz.
  - intros E. injection E as <-. apply Hn. reflexivity.
  - destruct (guard c); [discriminate|]. intros E. injection E as <-. eexists. reflexivity.
  - destruct (stack c) as [|[] r]; try discriminate. intros E. injection E as <-. exact Hz.
  - destruct (stack c) as [|[] r]; try discriminate; intros E; injection E as <-; [eapply Hn2; reflexivity|exact Hz].
  - destruct (inflight c); [|discriminate]. intros E. injection E as <-. exact Hz.
  - destruct (stack c) as [|[] r]; try discriminate.
    + destruct (_ && _)%bool; [destruct (waitForData c); cbn [negb]; [destruct (pending c)|]|]; intros E; injection E as <-; try exact Hz; eexists; reflexivity.
    + destruct (pending c); intros E; injection E as <-; [exact Hz|eexists; reflexivity].
Qed.

Definition user_start (o : obs) : bool := match o with OStart _ => true | _ => false end.
(** one step that starts an event happens only outside terminal states and pauses *)
Lemma step_start c l c' t : step c l = Some c' -> trace c' = trace c ++ t -> (0 < count user_start t)%nat ->
  guard c = false /\ inTerminal c = false /\ paused c = false.
Proof.
  intros E Et Hc.
  assert (Hz : forall a, trace a = trace c ++ a.(trace) -> True) by auto. clear Hz.
  assert (Hnil : trace c' = trace c -> False).
  { intros Hx. rewrite Hx in Et. rewrite <- (app_nil_r (trace c)) in Et at 1. apply app_inv_head in Et. subst t. cbn in Hc. lia. }
  assert (Hone : forall o, trace c' = trace c ++ [o] -> user_start o = false -> False).
  { intros o Hx Ho. rewrite Hx in Et. apply app_inv_head in Et. subst t. unfold count in Hc. cbn [filter] in Hc. rewrite Ho in Hc. cbn in Hc. lia. }
  assert (Hp : forall a, trace (call_ppe a) = trace a) by (intros a; unfold call_ppe; destruct (inPpe a); reflexivity).
  destruct l as [e| | | | | |now|b| | |now]; cbn [step] in E; try (destruct (user_turn c); [|discriminate]; cbn [negb] in E).
  - injection E as <-. exfalso. eapply Hone; [rewrite Hp; reflexivity|reflexivity].
  - injection E as <-. exfalso. apply Hnil. reflexivity.
  - injection E as <-. exfalso. apply Hnil. rewrite Hp. reflexivity.
  - destruct (extErr c); injection E as <-; exfalso; apply Hnil; reflexivity.
  - injection E as <-. exfalso. apply Hnil. reflexivity.
  - injection E as <-. exfalso. apply Hnil. rewrite Hp. reflexivity.
  - destruct (guard c); [discriminate|]. injection E as <-. exfalso. eapply Hone; reflexivity.
  - destruct (stack c) as [|[] r]; try discriminate. injection E as <-. exfalso. apply Hnil. reflexivity.
  - destruct (stack c) as [|[] r]; try discriminate; injection E as <-; exfalso; [eapply Hone; [rewrite Hp; reflexivity|reflexivity]|apply Hnil; reflexivity].
  - destruct (inflight c); [|discriminate]. injection E as <-. exfalso. apply Hnil. reflexivity.
  - destruct (stack c) as [|[] r]; try discriminate.
    + destruct (negb (guard c) && negb (inTerminal c) && negb (paused c))%bool eqn:Ec.
      * rewrite !andb_true_iff, !negb_true_iff in Ec. tauto.
      * injection E as <-. exfalso. apply Hnil. reflexivity.
    + destruct (pending c) as [|e p]; injection E as <-; exfalso; [apply Hnil; reflexivity|eapply Hone; [reflexivity|destruct (has_token e); reflexivity]].
Qed.

(** ... and it consumes nothing except through the state machine unless the error flush is running *)
Lemma run_trace ls : forall c c', run c ls = Some c' -> exists t, trace c' = trace c ++ t.
Proof.
  induction ls as [|l ls IH]; intros c c' E; cbn [run] in E; [injection E as <-; exists []; rewrite app_nil_r; reflexivity|].
  destruct (step c l) as [c1|] eqn:E1; [|discriminate]. destruct (step_trace _ _ _ E1) as [t1 H1]. destruct (IH _ _ E) as [t2 H2]. exists (t1 ++ t2). rewrite H2, H1, app_assoc. reflexivity.
Qed.

Lemma no_start_run (P : conf -> Prop) (okl : label -> Prop) :
  (forall c, P c -> inTerminal c = true \/ paused c = true) -> (forall c l c', P c -> okl l -> step c l = Some c' -> P c') ->
  forall ls c c' t, P c -> Forall okl ls -> run c ls = Some c' -> trace c' = trace c ++ t -> count user_start t = 0%nat.
Proof.
  intros HP Hst. induction ls as [|l ls IH]; intros c c' t Hc Hf E Et; cbn [run] in E.
  - injection E as <-. rewrite <- (app_nil_r (trace c)) in Et at 1. apply app_inv_head in Et. subst. reflexivity.
  - destruct (step c l) as [c1|] eqn:E1; [|discriminate]. inversion Hf; subst. destruct (step_trace _ _ _ E1) as [t1 Ht1]. destruct (run_trace _ _ _ E) as [t2 Ht2].
    assert (t = t1 ++ t2) as ->. { rewrite Ht2, Ht1, <- app_assoc in Et. apply app_inv_head in Et. congruence. }
    rewrite count_app, (IH c1 c' t2 (Hst _ _ _ Hc H1 E1) H2 E Ht2).
    destruct (count user_start t1) eqn:Ec; [reflexivity|]. exfalso. destruct (step_start _ _ _ _ E1 Ht1 ltac:(lia)) as (_ & A & B). destruct (HP _ Hc); congruence.
Qed.

Lemma call_ppe_flags c : extErr (call_ppe c) = extErr c /\ paused (call_ppe c) = paused c /\ smTerm (call_ppe c) = smTerm c.
Proof. unfold call_ppe. destruct (inPpe c); auto. Qed.
Lemma step_flags c l c' : step c l = Some c' ->
  (extErr c = true -> extErr c' = true) /\ (l <> LResume -> paused c = true -> paused c' = true) /\ ((forall b, l <> LSetTerm b) -> smTerm c' = smTerm c).
Proof.
  assert (HF : forall a, (extErr c = true -> extErr a = true) /\ (l <> LResume -> paused c = true -> paused a = true) /\ ((forall b, l <> LSetTerm b) -> smTerm a = smTerm c) ->
     (extErr c = true -> extErr (call_ppe a) = true) /\ (l <> LResume -> paused c = true -> paused (call_ppe a) = true) /\ ((forall b, l <> LSetTerm b) -> smTerm (call_ppe a) = smTerm c)).
  { intros a H. destruct (call_ppe_flags a) as (-> & -> & ->). exact H. }
  destruct l as [e| | | | | |now|b| | |now]; cbn [step]; try (destruct (user_turn c); [|discriminate]; cbn [negb]).
  - intros E. injection E as <-. apply HF. auto.
  - intros E. injection E as <-. auto.
  - intros E. injection E as <-. apply HF. auto.
  - destruct (extErr c) eqn:Ee; intros E; injection E as <-; rewrite ?Ee; auto.
  - intros E. injection E as <-. auto.
  - intros E. injection E as <-. apply HF. split; [auto|]. split; [intros H; contradiction H; reflexivity|auto].
  - destruct (guard c); [discriminate|]. intros E. injection E as <-. auto.
  - destruct (stack c) as [|[] r]; try discriminate. intros E. injection E as <-. split; [auto|]. split; [auto|]. intros H. exfalso. apply (H b). reflexivity.
  - destruct (stack c) as [|[] r]; try discriminate; intros E; injection E as <-; [apply HF|]; auto.
  - destruct (inflight c); [|discriminate]. intros E. injection E as <-. auto.
  - destruct (stack c) as [|[] r]; try discriminate.
    + destruct (_ && _)%bool; [destruct (waitForData c); cbn [negb]; [destruct (pending c)|]|]; intros E; injection E as <-; auto.
    + destruct (pending c); intros E; injection E as <-; auto.
Qed.

(** After moveToErrorState, whatever happens, nothing is given to the state machine any more. *)
Theorem C32_after_error : forall ls c c' t, extErr c = true -> run c ls = Some c' -> trace c' = trace c ++ t -> count user_start t = 0%nat.
Proof.
  intros ls c c' t He. apply (no_start_run (fun c => extErr c = true) (fun _ => True)); try exact He.
  - intros a Ha. left. unfold inTerminal. rewrite Ha. apply orb_true_r.
  - intros a l a' Ha _ Es. apply (step_flags _ _ _ Es), Ha.
  - apply Forall_forall. auto.
Qed.
Print Assumptions C32_after_error.
(** Nor after the state machine itself is in Error or Closed, as long as no action takes it out of there. *)
Theorem C32_after_terminal : forall ls c c' t, smTerm c = true -> Forall (fun l => l <> LSetTerm false) ls ->
  run c ls = Some c' -> trace c' = trace c ++ t -> count user_start t = 0%nat.
Proof.
  intros ls c c' t He Hf. apply (no_start_run (fun c => smTerm c = true) (fun l => l <> LSetTerm false)); try assumption.
  - intros a Ha. left. unfold inTerminal. rewrite Ha. reflexivity.
  - intros a l a' Ha Hl Es. destruct l as [e| | | | | |now|b| | |now]; try (rewrite (proj2 (proj2 (step_flags _ _ _ Es))); [exact Ha|congruence]).
    destruct b; [|congruence]. cbn [step] in Es. destruct (user_turn a); [|discriminate]. cbn [negb] in Es. destruct (stack a) as [|[] r]; try discriminate. injection Es as <-. reflexivity.
Qed.
Print Assumptions C32_after_terminal.
(** Nor while paused; and pausing loses nothing (C32_fifo holds throughout). *)
Theorem C32_paused : forall ls c c' t, paused c = true -> Forall (fun l => l <> LResume) ls ->
  run c ls = Some c' -> trace c' = trace c ++ t -> count user_start t = 0%nat.
Proof.
  intros ls c c' t He Hf. apply (no_start_run (fun c => paused c = true) (fun l => l <> LResume)); try assumption.
  - intros a Ha. right. exact Ha.
  - intros a l a' Ha Hl Es. apply (step_flags _ _ _ Es); assumption.
Qed.

(** No event is left lying about: when no method is running and no action is in flight, then unless the connection
    is in a terminal state or paused, the queue is empty and all transport data has been offered. *)
Theorem C32_quiescent : forall c, reachable c -> stack c = [] -> guard c = false -> inTerminal c = false -> paused c = false ->
  pending c = [] /\ waitForData c = true.
Proof.
  intros c H Hs. pose proof (reach_IB c H) as HI. apply (ib_quiet c HI). pose proof (ib_ppe c HI) as Hp. rewrite Hs in Hp. destruct (inPpe c); [discriminate|reflexivity].
Qed.
Print Assumptions C32_quiescent.

(** Methods terminate: a running method always can take a step, and each step shortens the stack, consumes an event, or
    hands control to user code or to the executor. *)
Theorem C32_progress : forall c now, user_turn c = false -> exists c', step c (LTau now) = Some c' /\
  (user_turn c' = true \/ (length (stack c') < length (stack c))%nat \/ (length (pending c') < length (pending c))%nat \/ guard c' = true).
Proof.
  intros c now H. cbn [step]. unfold user_turn in *. destruct (stack c) as [|[] r] eqn:Es; try discriminate.
  - destruct (_ && _)%bool; [destruct (waitForData c); cbn [negb]; [destruct (pending c)|]|]; eexists; (split; [reflexivity|]); unfold start; projs; auto; right; left; cbn [length]; lia.
  - destruct (pending c); eexists; (split; [reflexivity|]); unfold with_stack; projs; right; [left|right; left]; cbn [length]; lia.
Qed.

(** ** moveToErrorState returns what was queued *)
Definition flush_obs (o : obs) : bool := match o with OReturned e => has_token e | ODropped e => negb (has_token e) | _ => false end.
Definition flushed (t : list obs) : list pevent := flat_map (fun o => match o with OReturned e => [e] | ODropped e => [e] | _ => [] end) t.

Lemma step_obs c l c' t : step c l = Some c' -> trace c' = trace c ++ t ->
  Forall (fun o => match o with OReturned e => has_token e = true | ODropped e => has_token e = false | _ => True end) t.
Proof.
  intros E Et.
  assert (Hnil : trace c' = trace c -> t = []).
  { intros Hx. rewrite Hx in Et. rewrite <- (app_nil_r (trace c)) in Et at 1. apply app_inv_head in Et. congruence. }
  assert (Hone : forall o, trace c' = trace c ++ [o] -> t = [o]).
  { intros o Hx. rewrite Hx in Et. apply app_inv_head in Et. congruence. }
  assert (Hp : forall a, trace (call_ppe a) = trace a) by (intros a; unfold call_ppe; destruct (inPpe a); reflexivity).
  assert (Hq : (t = [] \/ exists o, t = [o] /\ match o with OReturned e => has_token e = true | ODropped e => has_token e = false | _ => True end) ->
     Forall (fun o => match o with OReturned e => has_token e = true | ODropped e => has_token e = false | _ => True end) t).
  { intros [->|(o & -> & Ho)]; [constructor|]. constructor; [exact Ho|constructor]. }
  apply Hq. clear Hq.
  destruct l as [e| | | | | |now|b| | |now]; cbn [step] in E; try (destruct (user_turn c); [|discriminate]; cbn [negb] in E).
  - injection E as <-. right. eexists. split; [apply Hone; rewrite Hp; reflexivity|exact I].
  - injection E as <-. left. apply Hnil. reflexivity.
  - injection E as <-. left. apply Hnil. rewrite Hp. reflexivity.
  - destruct (extErr c); injection E as <-; left; apply Hnil; reflexivity.
  - injection E as <-. left. apply Hnil. reflexivity.
  - injection E as <-. left. apply Hnil. rewrite Hp. reflexivity.
  - destruct (guard c); [discriminate|]. injection E as <-. right. eexists. split; [apply Hone; reflexivity|exact I].
  - destruct (stack c) as [|[] r]; try discriminate. injection E as <-. left. apply Hnil. reflexivity.
  - destruct (stack c) as [|[] r]; try discriminate; injection E as <-; [right; eexists; split; [apply Hone; rewrite Hp; reflexivity|exact I]|left; apply Hnil; reflexivity].
  - destruct (inflight c); [|discriminate]. injection E as <-. left. apply Hnil. reflexivity.
  - destruct (stack c) as [|[] r]; try discriminate.
    + destruct (_ && _)%bool; [destruct (waitForData c); cbn [negb] in E; [destruct (pending c)|]|]; injection E as <-;
        try (left; apply Hnil; reflexivity); right; eexists; (split; [apply Hone; reflexivity|exact I]).
    + destruct (pending c) as [|e p]; injection E as <-; [left; apply Hnil; reflexivity|]. right. eexists. split; [apply Hone; reflexivity|]. destruct (has_token e) eqn:Eh; exact Eh.
Qed.
(** Only events without a token are dropped silently; only events with one are handed to the callback. *)
Theorem C32_returned_iff_token : forall c, reachable c -> forall o, In o (trace c) ->
  match o with OReturned e => has_token e = true | ODropped e => has_token e = false | _ => True end.
Proof.
  intros c [ls E]. rewrite <- Forall_forall.
  assert (G : forall ls a b, Forall (fun o => match o with OReturned e => has_token e = true | ODropped e => has_token e = false | _ => True end) (trace a) ->
    run a ls = Some b -> Forall (fun o => match o with OReturned e => has_token e = true | ODropped e => has_token e = false | _ => True end) (trace b)).
  { clear. induction ls as [|l ls IH]; intros a b Ha E; cbn [run] in E; [congruence|]. destruct (step a l) as [a1|] eqn:E1; [|discriminate].
    apply (fun H => IH a1 b H E). destruct (step_trace _ _ _ E1) as [t Ht]. rewrite Ht. apply Forall_app. split; [exact Ha|]. eapply step_obs; eassumption. }
  apply (G ls fb_init c); [constructor|exact E].
Qed.
Print Assumptions C32_returned_iff_token.

(** stack discipline: the flush frame stays until the queue is empty *)
Fixpoint noE (s : list frame) : Prop := match s with [] => True | f :: r => isE f = false /\ noE r end.
Lemma noE_count s : noE s <-> count isE s = 0%nat.
Proof. unfold count. induction s as [|f r IH]; cbn [noE filter]; [split; auto|]. destruct (isE f); cbn [length]; rewrite ?IH; split; intuition (lia || congruence). Qed.

(** Until the flush returns, its frame is on the stack; when it returns the queue is empty. *)
Definition flushing (n : nat) (c : conf) : Prop := (n <= length (consumed (trace c)))%nat \/ (0 < count isE (stack c))%nat.
Lemma consumed_mono c l c' : step c l = Some c' -> (length (consumed (trace c)) <= length (consumed (trace c')))%nat.
Proof. intros E. destruct (step_trace _ _ _ E) as [t ->]. rewrite consumed_app, app_length. lia. Qed.
Lemma submitted_mono c l c' : step c l = Some c' -> exists t, submitted (trace c') = submitted (trace c) ++ t.
Proof. intros E. destruct (step_trace _ _ _ E) as [t ->]. rewrite submitted_app. eauto. Qed.

Lemma flushing_step n c l c' : IB c -> (n <= length (submitted (trace c)))%nat -> flushing n c -> step c l = Some c' -> flushing n c'.
Proof.
  intros HI Hn [H|H] E; [left; pose proof (consumed_mono _ _ _ E); lia|].
  assert (Hpp : forall a, (0 < count isE (stack a))%nat -> (0 < count isE (stack (call_ppe a)))%nat).
  { intros a Ha. unfold call_ppe. destruct (inPpe a); exact Ha. }
  destruct l as [e| | | | | |now|b| | |now]; cbn [step] in E; try (destruct (user_turn c); [|discriminate]; cbn [negb] in E).
  - injection E as <-. right. apply Hpp. exact H.
  - injection E as <-. right. exact H.
  - injection E as <-. right. apply Hpp. exact H.
  - destruct (extErr c); injection E as <-; right; [exact H|]. cbn [stack]. unfold count. cbn [filter isE length]. lia.
  - injection E as <-. right. exact H.
  - injection E as <-. right. apply Hpp. exact H.
  - destruct (guard c); [discriminate|]. injection E as <-. right. unfold start. cbn [stack]. destruct now; exact H.
  - destruct (stack c) as [|[] r] eqn:Es; try discriminate. injection E as <-. right. cbn [stack]. rewrite ?Es. exact H.
  - destruct (stack c) as [|[] r] eqn:Es; try discriminate; injection E as <-; right.
    + apply Hpp. exact H.
    + exact H.
  - destruct (inflight c); [|discriminate]. injection E as <-. right. exact H.
  - destruct (stack c) as [|[] r] eqn:Es; try discriminate.
    + destruct (_ && _)%bool; [destruct (waitForData c); cbn [negb] in E; [destruct (pending c)|]|]; injection E as <-; right; unfold start; cbn [stack]; try exact H;
        rewrite ?Es; destruct now; exact H.
    + destruct (pending c) as [|e p] eqn:Ep; injection E as <-.
      * left. unfold with_stack. cbn [trace]. pose proof (ib_fifo c HI) as Hf. rewrite Ep, app_nil_r in Hf. congruence.
      * right. cbn [stack]. unfold count. destruct (has_token e); cbn [filter isE length]; lia.
Qed.

(** Once moveToErrorState has been called and every call of it has returned, all events that were queued when it was
    called have been handed back (those with a token, in order) or dropped: none is still queued, none is processed. *)
Theorem C32_error_flush : forall c ls c1 c2, reachable c -> extErr c = false -> step c LError = Some c1 -> run c1 ls = Some c2 ->
  (forall f, In f (stack c2) -> isE f = false) ->
  exists t rest, trace c2 = trace c ++ t /\ flushed t = pending c ++ rest /\ processed t = [].
Proof.
  intros c ls c1 c2 Hr He E1 E2 HnE. pose proof (reach_IB c Hr) as HI. pose proof (IB_step _ _ _ HI E1) as HI1.
  assert (Ec1 : c1 = mkConf (pending c) (waitForData c) (guard c) (inPpe c) true (paused c) (smTerm c) (inflight c) (FErr :: stack c) (trace c)).
  { cbn [step] in E1. destruct (user_turn c); [|discriminate]. cbn [negb] in E1. rewrite He in E1. congruence. }
  assert (Et1 : trace c1 = trace c) by (rewrite Ec1; reflexivity).
  set (n := length (submitted (trace c))).
  assert (G : forall ls a b, IB a -> (n <= length (submitted (trace a)))%nat -> flushing n a -> run a ls = Some b -> flushing n b).
  { clear. induction ls as [|l ls IH]; intros a b HI Hn Hf E; cbn [run] in E; [congruence|]. destruct (step a l) as [a1|] eqn:E1; [|discriminate].
    apply (IH a1 b); [eapply IB_step; eassumption| |eapply flushing_step; eassumption|exact E]. destruct (submitted_mono _ _ _ E1) as [t ->]. rewrite app_length. lia. }
  assert (Hfl : flushing n c2).
  { apply (G ls c1 c2 HI1); [rewrite Et1; lia| |exact E2]. right. rewrite Ec1. cbn [stack]. unfold count. cbn [filter isE length]. lia. }
  destruct Hfl as [Hfl|Hfl].
  2:{ exfalso. assert (count isE (stack c2) = 0%nat); [|lia]. apply noE_count. clear -HnE. induction (stack c2) as [|f r IH]; [exact I|]. split; [apply HnE; left; reflexivity|apply IH; intros g Hg; apply HnE; right; exact Hg]. }
  destruct (run_trace _ _ _ E2) as [t Ht]. rewrite Et1 in Ht.
  pose proof (C32_after_error ls c1 c2 t ltac:(rewrite Ec1; reflexivity) E2 ltac:(rewrite Et1; exact Ht)) as Hz.
  assert (Hnp : processed t = [] /\ consumed t = flushed t).
  { clear -Hz. unfold count in Hz. induction t as [|o t IH]; [auto|]. cbn [filter] in Hz. destruct o as [e|[e|]| | |e|e]; cbn [user_start] in Hz; try (cbn [length] in Hz; discriminate); destruct (IH Hz) as [A B];
      cbn [processed consumed flushed flat_map app]; fold (processed t) (consumed t) (flushed t); rewrite ?A, ?B; auto. }
  destruct Hnp as [Hnp Hcf].
  pose proof (ib_fifo c HI) as F1. pose proof (ib_fifo c2 (IB_run _ _ _ HI1 E2)) as F2. rewrite Ht, submitted_app, consumed_app, F1, Hcf in F2.
  rewrite <- !app_assoc in F2. apply app_inv_head in F2.
  assert (Hlen : (length (pending c) <= length (flushed t))%nat).
  { unfold n in Hfl. rewrite F1, Ht, consumed_app, !app_length, Hcf in Hfl. lia. }
  exists t, (skipn (length (pending c)) (flushed t)). split; [exact Ht|]. split; [|exact Hnp].
  rewrite <- (firstn_skipn (length (pending c)) (flushed t)) at 1. f_equal.
  apply (f_equal (firstn (length (pending c)))) in F2. rewrite !firstn_app, Nat.sub_diag, firstn_all in F2. cbn [firstn] in F2. rewrite app_nil_r in F2.
  replace (length (pending c) - length (flushed t))%nat with 0%nat in F2 by lia. cbn [firstn] in F2. rewrite app_nil_r in F2. congruence.
Qed.
Print Assumptions C32_error_flush.

(** "Each exactly once or returned" does not hold for writes submitted after the error: they stay in the queue and the
    callback is not called for them (the I/O layer has to check inErrorState first). *)
Theorem C32_late_write_refuted : exists c, reachable c /\ stack c = [] /\ guard c = false /\ extErr c = true /\ pending c = [PAppWrite 7 true] /\
  forall ls c' t, run c ls = Some c' -> trace c' = trace c ++ t -> consumed t = [].
Proof.
  set (c := mkConf [PAppWrite 7 true] true false false true false false false [] [OSubmit (PAppWrite 7 true)]).
  exists c. split; [exists [LError; LTau true; LSubmit (PAppWrite 7 true); LTau true]; reflexivity|]. do 4 (split; [reflexivity|]).
  assert (G : forall ls a b t, extErr a = true -> noE (stack a) -> run a ls = Some b -> trace b = trace a ++ t -> consumed t = []).
  { clear. induction ls as [|l ls IH]; intros a b t He Hn E Et; cbn [run] in E.
    - injection E as <-. rewrite <- (app_nil_r (trace a)) in Et at 1. apply app_inv_head in Et. subst. reflexivity.
    - destruct (step a l) as [a1|] eqn:E1; [|discriminate]. destruct (step_trace _ _ _ E1) as [t1 Ht1]. destruct (run_trace _ _ _ E) as [t2 Ht2].
      assert (t = t1 ++ t2) as ->. { rewrite Ht2, Ht1, <- app_assoc in Et. apply app_inv_head in Et. congruence. }
      assert (Hnp : consumed t1 = [] /\ noE (stack a1)).
      { assert (Hnil : trace a1 = trace a -> consumed t1 = []).
        { intros Hx. rewrite Hx in Ht1. rewrite <- (app_nil_r (trace a)) in Ht1 at 1. apply app_inv_head in Ht1. subst. reflexivity. }
        assert (Hone : forall o, trace a1 = trace a ++ [o] -> consumed [o] = [] -> consumed t1 = []).
        { intros o Hx Ho. rewrite Hx in Ht1. apply app_inv_head in Ht1. congruence. }
        assert (Hp : forall x, trace (call_ppe x) = trace x /\ (noE (stack x) -> noE (stack (call_ppe x)))).
        { intros x. unfold call_ppe. destruct (inPpe x); [auto|]. cbn. auto. }
        destruct l as [e| | | | | |now|b0| | |now]; cbn [step] in E1; try (destruct (user_turn a); [|discriminate]; cbn [negb] in E1).
        - injection E1 as <-. split; [eapply Hone; [rewrite (proj1 (Hp _)); reflexivity|reflexivity]|apply Hp; exact Hn].
        - injection E1 as <-. split; [apply Hnil; reflexivity|exact Hn].
        - injection E1 as <-. split; [apply Hnil; rewrite (proj1 (Hp _)); reflexivity|apply Hp; exact Hn].
        - rewrite He in E1. injection E1 as <-. split; [apply Hnil; reflexivity|exact Hn].
        - injection E1 as <-. split; [apply Hnil; reflexivity|exact Hn].
        - injection E1 as <-. split; [apply Hnil; rewrite (proj1 (Hp _)); reflexivity|apply Hp; exact Hn].
        - destruct (guard a); [discriminate|]. injection E1 as <-. split; [eapply Hone; reflexivity|]. unfold start. cbn [stack]. destruct now; cbn; auto.
        - destruct (stack a) as [|[] r] eqn:Es; try discriminate. injection E1 as <-. split; [apply Hnil; reflexivity|]. cbn [stack]. rewrite ?Es. exact Hn.
        - destruct (stack a) as [|[] r] eqn:Es; try discriminate; injection E1 as <-.
          + split; [eapply Hone; [rewrite (proj1 (Hp _)); reflexivity|reflexivity]|]. apply Hp. apply Hn.
          + destruct Hn as [Hn _]. discriminate.
        - destruct (inflight a); [|discriminate]. injection E1 as <-. split; [apply Hnil; reflexivity|]. cbn. auto.
        - destruct (stack a) as [|[] r] eqn:Es; try discriminate.
          + assert (inTerminal a = true) as Ht by (unfold inTerminal; rewrite He; apply orb_true_r). rewrite Ht in E1. cbn [negb] in E1. rewrite andb_false_r in E1. cbn [andb] in E1.
            injection E1 as <-. split; [apply Hnil; reflexivity|]. apply Hn.
          + destruct Hn as [Hn _]. discriminate. }
      destruct Hnp as [Hnp1 Hnp2]. rewrite consumed_app, Hnp1. cbn [app].
      apply (IH a1 b t2); try assumption. apply (step_flags _ _ _ E1), He. }
  intros ls c' t. apply G; [reflexivity|exact I].
Qed.
Print Assumptions C32_late_write_refuted.

(** Example: a re-entrant write from inside a callback, an asynchronous action, an error with queued events. *)
Definition w (i : N) := PAppWrite i true.
Definition ex_ls : list label :=
  [LExternal true; LReturn; LTau true; LSubmit (w 1); LTau true; LSubmit (w 2); LReturn; LTau false; LTau true;
   LSubmit (w 3); LTau true; LSubmit (PKeyUpdate 4); LTau true; LSubmit (w 5); LTau true; LError; LTau true; LReturn; LTau true; LTau true; LReturn; LTau true].
Example C32_nonvacuous : option_map trace (run fb_init ex_ls) =
  Some [OExternal; ODone; OSubmit (w 1); OStart (Some (w 1)); OSubmit (w 2); ODone; OStart (Some (w 2));
        OSubmit (w 3); OSubmit (PKeyUpdate 4); OSubmit (w 5); OReturned (w 3); ODropped (PKeyUpdate 4); OReturned (w 5)].
Proof. reflexivity. Qed.
