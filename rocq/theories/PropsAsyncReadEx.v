(** * C70: concrete histories of the read side *)
From Verif Require Import Base AsyncRead PropsAsyncRead.
Open Scope N_scope.

Definition rallowedb (s : rd) (m : rmove) : bool :=
  match m with
  | RMArrive _ _ | RMSet _ _ | RMError _ | RMDestroy => match rd_ctl s with Foreign => rd_alive s | Returning => false end
  | RMReturn _ => match rd_ctl s, rd_stack s with Foreign, f :: _ => is_foreign f | _, _ => false end
  | RMGo _ => match rd_ctl s with Returning => true | Foreign => false end
  end.
Lemma rallowedb_ok s m : rallowedb s m = true -> rallowed s m.
Proof.
  destruct m as [d q|c q|ex|q|q|]; cbn [rallowedb rallowed]; destruct (rd_ctl s); intros H; try discriminate H; try (split; [reflexivity|exact H]); try reflexivity.
  destruct (rd_stack s) as [|f k] eqn:E; [discriminate H|]. split; [reflexivity|]. eauto.
Qed.
Definition isnil (b : bytes) : bool := match b with [] => true | _ => false end.
Definition quietb (sets : bool) (s : rd) (m : rmove) : bool := match m with RMArrive _ _ => isnil (pulls (rd_stack s)) | RMSet (Some _) _ => negb sets || isnil (pulls (rd_stack s)) | _ => true end.
Lemma quietb_data s m : quietb false s m = true -> no_nested_data s m.
Proof. destruct m; cbn; auto. destruct (pulls (rd_stack s)); [auto|discriminate]. Qed.
Lemma quietb_all s m : quietb true s m = true -> no_nested s m.
Proof. destruct m as [| [c|] q| | | |]; cbn; auto; destruct (pulls (rd_stack s)); auto; discriminate. Qed.
Fixpoint rrun (p : rd -> rmove -> bool) (s : rd) (ms : list rmove) : option rd :=
  match ms with [] => Some s | m :: ms' => if rallowedb s m && p s m then match rstep s m with Ok s' => rrun p s' ms' | Err _ => None end else None end.
Lemma rrun_hist (P : rd -> rmove -> Prop) p : (forall s m, p s m = true -> P s m) -> forall ms s s', rhist P s -> rrun p s ms = Some s' -> rhist P s'.
Proof.
  intros Hp. induction ms as [|m ms IH]; cbn [rrun]; intros s s' H E; [congruence|]. destruct (rallowedb s m && p s m) eqn:Ea; [|discriminate E]. apply andb_true_iff in Ea. destruct Ea as [Ea Eb].
  destruct (rstep s m) as [s1|] eqn:E1; [|discriminate E]. eapply IH, E. eapply rh_step; [exact H|apply rallowedb_ok, Ea|apply Hp, Eb|exact E1].
Qed.
Definition anyb (s : rd) (m : rmove) : bool := true.
Definition anything (s : rd) (m : rmove) : Prop := True.
(** a callback that takes up to [n] bytes; one that takes buffers *)
Definition qn (n : N) : rquery := mkRq false (Some n) true 0.
Definition qm : rquery := mkRq true None true 0.

(** Data and an error arrive with no callback set; a callback is set that takes two bytes at a time. *)
Theorem C70_met : exists s, rhist no_nested s /\ rd_stack s = [] /\ rd_log s = [RRecv [x01; x02]; RRecv [x03]; RError 7; RSet (Some 5); RGive 5 [x01; x02]; RGive 5 [x03]; RErr 5 7].
Proof.
  destruct (rrun (quietb true) rd_init [RMArrive [x01; x02] qm; RMGo qm; RMArrive [x03] qm; RMGo qm; RMError 7; RMReturn qm; RMGo qm;
    RMSet (Some 5) (qn 2); RMReturn (qn 2); RMReturn (qn 2); RMGo qm; RMReturn qm; RMReturn qm; RMGo qm]) as [s|] eqn:E; [|vm_compute in E; discriminate E].
  exists s. split; [eapply (rrun_hist _ _ quietb_all), E; constructor|]. vm_compute in E. injection E as <-. auto.
Qed.
(** And data after that. *)
Theorem C70_rest_met : exists s, rhist no_nested_data s /\ rd_stack s = [] /\ rd_cb s <> None /\ rd_log s = [RRecv [x01; x02]; RSet (Some 5); RGive 5 [x01]; RSet (Some 6); RGive 6 [x02]; RRecv [x03]; RGive 6 [x03]].
Proof.
  destruct (rrun (quietb false) rd_init [RMArrive [x01; x02] qm; RMGo qm; RMSet (Some 5) (qn 1); RMSet (Some 6) qm; RMReturn qm; RMGo qm; RMReturn qm; RMReturn qm; RMGo qm; RMReturn qm; RMGo qm;
    RMArrive [x03] qm; RMReturn qm; RMGo qm]) as [s|] eqn:E; [|vm_compute in E; discriminate E].
  exists s. split; [eapply (rrun_hist _ _ quietb_data), E; constructor|]. vm_compute in E. injection E as <-. repeat split. discriminate.
Qed.
(** Finding: if the callback, while it is given data, sets a read callback, a waiting error (or end of file) overtakes the rest of the data. *)
Theorem C70_truncation : exists s c, rhist no_nested_data s /\ rd_log s = [RRecv [x01; x02]; RError 7; RSet (Some 5); RGive 5 [x01]; RSet (Some c); RErr c 7] /\ rd_stack s = [] /\ rd_buf s = Some [x02].
Proof.
  destruct (rrun (quietb false) rd_init [RMArrive [x01; x02] qm; RMGo qm; RMError 7; RMReturn qm; RMGo qm; RMSet (Some 5) (qn 1); RMSet (Some 5) (qn 1); RMReturn qm; RMReturn qm; RMGo qm;
    RMReturn (qn 1); RMGo qm; RMReturn qm; RMGo qm]) as [s|] eqn:E; [|vm_compute in E; discriminate E].
  exists s, 5. split; [eapply (rrun_hist _ _ quietb_data), E; constructor|]. vm_compute in E. injection E as <-. auto.
Qed.
(** Finding: data that arrives while the callback is given earlier data (e.g. because it calls resumeEvents, under setReadCB) overtakes it, *)
Theorem C70_overtaken : exists s, rhist anything s /\ rd_log s = [RRecv [x01; x02]; RSet (Some 5); RGive 5 [x01]; RRecv [x03]; RGive 5 [x03]; RGive 5 [x02]].
Proof.
  destruct (rrun anyb rd_init [RMArrive [x01; x02] qm; RMGo qm; RMSet (Some 5) (qn 1); RMArrive [x03] (qn 1); RMReturn (qn 1); RMGo qm; RMReturn (qn 1)]) as [s|] eqn:E; [|vm_compute in E; discriminate E].
  exists s. split; [eapply (rrun_hist anything anyb ltac:(intros; exact Logic.I)), E; constructor|]. vm_compute in E. injection E as <-. auto.
Qed.
(** or, if the callback has been unset, is lost. *)
Theorem C70_lost : exists s, rhist anything s /\ rd_stack s = [] /\ rd_log s = [RRecv [x01; x02]; RSet (Some 5); RGive 5 [x01]; RSet None; RRecv [x03]] /\ rd_buf s = Some [x02].
Proof.
  destruct (rrun anyb rd_init [RMArrive [x01; x02] qm; RMGo qm; RMSet (Some 5) (qn 1); RMSet None qm; RMGo qm; RMArrive [x03] qm; RMGo qm; RMReturn (qn 1); RMGo qm; RMReturn qm; RMGo qm]) as [s|] eqn:E; [|vm_compute in E; discriminate E].
  exists s. split; [eapply (rrun_hist anything anyb ltac:(intros; exact Logic.I)), E; constructor|]. vm_compute in E. injection E as <-. auto.
Qed.
(** Finding: what a failing getReadBuffer should have taken is lost; a callback set later gets what comes after it. *)
Theorem C70_hole : exists s, rhist no_nested s /\ rd_log s = [RSet (Some 5); RRecv [x01; x02]; RFail [x01; x02]; RErr 5 exBadArgs; RRecv [x03]; RSet (Some 6); RGive 6 [x03]].
Proof.
  destruct (rrun (quietb true) rd_init [RMSet (Some 5) qm; RMReturn qm; RMGo qm; RMArrive [x01; x02] (qn 0); RMReturn qm; RMReturn qm; RMGo qm; RMArrive [x03] qm; RMGo qm; RMSet (Some 6) qm]) as [s|] eqn:E; [|vm_compute in E; discriminate E].
  exists s. split; [eapply (rrun_hist _ _ quietb_all), E; constructor|]. vm_compute in E. injection E as <-. auto.
Qed.
(** Finding: setReadCB holds no guard: a read callback that it gives buffered data must not destroy the transport. *)
Theorem C70_destroyed : exists s, rhist anything s /\ rallowed s (RMGo qm) /\ rstep s (RMGo qm) = Err EUB.
Proof.
  destruct (rrun anyb rd_init [RMArrive [x01] qm; RMGo qm; RMSet (Some 5) qm; RMDestroy; RMReturn qm]) as [s|] eqn:E; [|vm_compute in E; discriminate E].
  exists s. split; [eapply (rrun_hist anything anyb ltac:(intros; exact Logic.I)), E; constructor|]. vm_compute in E. injection E as <-. split; reflexivity.
Qed.
(** ... while it may from data that arrives, *)
Fixpoint sureb (k : list rframe) : bool := match k with [] => true | f :: k' => (negb (touches f) || existsb guard k') && sureb k' end.
Lemma sureb_ok k : sureb k = true -> forall k1 f k2, k = k1 ++ f :: k2 -> touches f = true -> existsb guard k2 = true.
Proof.
  induction k as [|g k IH]; intros H k1 f k2 E Hf; [destruct k1; discriminate E|]. cbn [sureb] in H. apply andb_true_iff in H. destruct H as [H1 H2].
  destruct k1 as [|g1 k1]; injection E as -> E; [subst k2; rewrite Hf in H1; exact H1|]. eapply IH; eassumption.
Qed.
Definition safeb (s : rd) (m : rmove) : bool := match m with RMDestroy => sureb (rd_stack s) | _ => true end.
Lemma safeb_ok s m : safeb s m = true -> safe_destroy s m.
Proof. destruct m; cbn; auto. intros H. apply sureb_ok, H. Qed.
Theorem C70_destroyed_met : exists s, rhist safe_destroy s /\ rd_alive s = false /\ rd_stack s = [] /\ rd_log s = [RSet (Some 5); RRecv [x01; x02]; RGive 5 [x01]; RGive 5 [x02]].
Proof.
  destruct (rrun safeb rd_init [RMSet (Some 5) qm; RMReturn qm; RMGo qm; RMArrive [x01; x02] (qn 1); RMDestroy; RMReturn (qn 1); RMReturn qm; RMGo qm]) as [s|] eqn:E; [|vm_compute in E; discriminate E].
  exists s. split; [eapply (rrun_hist _ _ safeb_ok), E; constructor|]. vm_compute in E. injection E as <-. auto.
Qed.
(** and from the error that setReadCB gives. *)
Theorem C70_destroyed_met2 : exists s, rhist safe_destroy s /\ rd_alive s = false /\ rd_stack s = [] /\ rd_log s = [RError 7; RSet (Some 5); RErr 5 7].
Proof.
  destruct (rrun safeb rd_init [RMError 7; RMReturn qm; RMGo qm; RMSet (Some 5) qm; RMDestroy; RMReturn qm; RMReturn qm; RMGo qm]) as [s|] eqn:E; [|vm_compute in E; discriminate E].
  exists s. split; [eapply (rrun_hist _ _ safeb_ok), E; constructor|]. vm_compute in E. injection E as <-. auto.
Qed.
(** Finding: if the callback unsets itself while setReadCB gives it data, the transport is read again although 64 KiB are buffered. *)
Definition rbig : bytes := N.recursion [] (fun _ l => x07 :: l) 65538.
Definition rmoves : list rmove := [RMArrive rbig qm; RMGo qm; RMSet (Some 5) (qn 1); RMSet None qm; RMGo qm; RMReturn (qn 1); RMGo qm; RMReturn qm; RMGo qm].
Lemma rrun_big : option_map (fun s => (rd_stack s, rd_cb s, blen (obytes (rd_buf s)), rd_reading s)) (rrun (quietb true) rd_init rmoves) = Some ([], None, 65537, true).
Proof. vm_compute. reflexivity. Qed.
Theorem C70_pressure_undone : exists s, rhist no_nested s /\ rd_stack s = [] /\ rd_cb s = None /\ blen (obytes (rd_buf s)) = 65537 /\ rd_reading s = true.
Proof.
  pose proof rrun_big as F. destruct (rrun (quietb true) rd_init rmoves) as [s|] eqn:E; [|discriminate F]. exists s. split; [eapply (rrun_hist _ _ quietb_all), E; constructor|].
  cbn [option_map] in F. injection F as F1 F2 F3 F4. auto.
Qed.
