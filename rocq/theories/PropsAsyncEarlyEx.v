(** * C71: histories that meet the hypotheses, and what the code does not promise *)
From Verif Require Import Base AsyncEarly PropsAsyncEarly.
Open Scope N_scope.

Definition wr_eqb (a b : wr) : bool := (wr_id a =? wr_id b) && bytes_eqb (wr_data a) (wr_data b) && Bool.eqb (wr_cb a) (wr_cb b).
Lemma wr_eqb_eq a b : wr_eqb a b = true <-> a = b.
Proof.
  unfold wr_eqb. rewrite !andb_true_iff, N.eqb_eq, bytes_eqb_eq, Bool.eqb_true_iff. destruct a, b; cbn. split; [intros [[-> ->] ->]; reflexivity|intros [= -> -> ->]; auto].
Qed.
Definition allowedb (c : ecfg) (s : acl) (m : cmove) : bool :=
  match m with
  | MConnect _ => negb (existsb is_connect (cl_log s))
  | MWrite w good tconn => existsb is_connect (cl_log s) && negb (existsb (N.eqb (wr_id w)) (map wr_id (writes (cl_log s)))) && implb (cl_err s) (negb good) && implb (existsb is_success (cl_log s)) (negb tconn)
  | MSetReplay => negb (isReplaySafe s)
  | MEarlyOn _ => ec_early c && existsb is_connect (cl_log s) && negb (existsb is_on (cl_log s)) && negb (existsb is_success (cl_log s)) && negb (cl_err s)
  | MSuccess _ _ _ => existsb is_connect (cl_log s) && negb (existsb is_success (cl_log s)) && negb (cl_err s)
  | MEarlyFailed w => existsb (fun e => match e with EEarly w' => wr_eqb w w' | _ => false end) (cl_log s) && negb (existsb (fun e => match e with EOk w' => wr_eqb w w' | _ => false end) (cl_log s))
  | MFail => true
  | MReturn => match cl_stack s with [] => false | _ => true end
  end.
Lemma allowedb_ok c s m : allowedb c s m = true -> callowed c s m.
Proof.
  destruct m as [good|w good tconn| |max|a st ed|w| |]; cbn [allowedb callowed]; rewrite ?andb_true_iff, ?negb_true_iff; try tauto.
  - intros (((A & B) & C) & D). split; [exact A|]. split; [|split; [intros E; rewrite E in C; destruct good; [discriminate C|reflexivity]|intros E; rewrite E in D; destruct tconn; [discriminate D|reflexivity]]].
    intros X. rewrite <- not_true_iff_false in B. apply B, existsb_exists. exists (wr_id w). split; [exact X|apply N.eqb_refl].
  - intros [A B]. split.
    + apply existsb_exists in A. destruct A as (e & A1 & A2). destruct e; try discriminate A2. apply wr_eqb_eq in A2. subst. exact A1.
    + intros X. rewrite <- not_true_iff_false in B. apply B, existsb_exists. exists (EOk w). split; [exact X|apply wr_eqb_eq; reflexivity].
  - destruct (cl_stack s); [discriminate|intros _; discriminate].
Qed.
Fixpoint crun (c : ecfg) (s : acl) (l : list cmove) : option acl :=
  match l with [] => Some s | m :: l' => if allowedb c s m then crun c (cstep c s m) l' else None end.
Lemma crun_hist c l : forall s s', chist c s -> crun c s l = Some s' -> chist c s'.
Proof.
  induction l as [|m l IH]; intros s s' H; cbn [crun]; [intros [= <-]; exact H|]. destruct (allowedb c s m) eqn:E; [|discriminate]. apply IH. constructor; [exact H|apply allowedb_ok, E].
Qed.
Lemma crun_app c l l' : forall s, crun c s (l ++ l') = match crun c s l with Some t => crun c t l' | None => None end.
Proof. induction l as [|m l IH]; intros s; cbn [app crun]; [reflexivity|]. destruct (allowedb c s m); [apply IH|reflexivity]. Qed.

Definition yw (n : N) (d : bytes) : wr := mkWr n d true.
Definition yc : ecfg := mkEcfg true true.      (* early data, AutomaticResend *)
Definition yf : ecfg := mkEcfg true false.     (* early data, FatalConnectionError *)
Definition yp : ecfg := mkEcfg false false.    (* no early data *)
Definition ypar : epar := mkEpar 772 4865 (Some [x68; x32]) (Some [x61]) None.
Definition ypar2 : epar := mkEpar 772 4866 (Some [x68; x32]) (Some [x61]) None.
Definition yw1 := yw 1 [x01; x02]. Definition yw2 := yw 2 [x03; x04; x05; x06]. Definition yw3 := yw 3 [x07]. Definition yw4 := yw 4 [x08].
(** Five bytes of early data are allowed; the first write goes out early, the others wait; a fourth write follows the handshake. *)
Definition y_start : list cmove := [MConnect true; MReturn; MEarlyOn 5; MSetReplay; MReturn; MWrite yw1 true false; MReturn; MWrite yw2 true false; MWrite yw3 true false].
Definition y_ok : list cmove := y_start ++ [MSuccess true ypar ypar; MReturn; MWrite yw4 true false; MReturn].
Definition y_resend : list cmove := y_start ++ [MSuccess false ypar ypar; MReturn; MWrite yw4 true false; MReturn].
Definition y_lost : list cmove := y_start ++ [MSuccess false ypar2 ypar; MReturn; MReturn; MReturn; MReturn; MReturn].
Definition y_plain : list cmove := [MConnect true; MWrite yw1 true true; MWrite yw2 true false; MReturn; MSuccess true ypar ypar; MReturn; MReturn].
Definition ylog (c : ecfg) (l : list cmove) : option (list cev) := match crun c cl_init l with Some s => if match cl_stack s with [] => true | _ => false end then Some (cl_log s) else None | None => None end.
Example y_ok_run : ylog yc y_ok = Some [EConnect; EEarlyOn 5; EHsOk; ESetReplay; EWrite yw1; EEarly yw1; EWrite yw2; EWrite yw3; ESuccess true ypar ypar; EApp yw2; EApp yw3; EReplaySafe; EWrite yw4; EApp yw4].
Proof. vm_compute. reflexivity. Qed.
Example y_resend_run : ylog yc y_resend = Some [EConnect; EEarlyOn 5; EHsOk; ESetReplay; EWrite yw1; EEarly yw1; EWrite yw2; EWrite yw3; ESuccess false ypar ypar; EResend [x01; x02]; EApp yw2; EApp yw3; EReplaySafe; EWrite yw4; EApp yw4].
Proof. vm_compute. reflexivity. Qed.
Example y_lost_run : ylog yc y_lost = Some [EConnect; EEarlyOn 5; EHsOk; ESetReplay; EWrite yw1; EEarly yw1; EWrite yw2; EWrite yw3; ESuccess false ypar2 ypar; EFail; EErr yw2; EErr yw3; EMoved; EClosed].
Proof. vm_compute. reflexivity. Qed.
Example y_plain_run : ylog yp (removelast y_plain) = Some [EConnect; EWrite yw1; EWrite yw2; ESuccess true ypar ypar; EApp yw1; EApp yw2; EHsOk].
Proof. vm_compute. reflexivity. Qed.
Lemma crun_met c l L : ylog c l = Some L -> exists s, chist c s /\ cl_stack s = [] /\ cl_log s = L.
Proof.
  unfold ylog. destruct (crun c cl_init l) as [s|] eqn:E; [|discriminate]. destruct (cl_stack s) eqn:K; [|discriminate]. intros [= <-]. exists s. split; [eapply crun_hist; [constructor|exact E]|auto].
Qed.
(** The hypotheses of C71_stream, C71_resent, C71_limit, C71_one and C71_replay_safe are met. *)
Theorem C71_met : (exists s, chist yc s /\ existsb is_fail (cl_log s) = false /\ existsb is_success (cl_log s) = true /\ existsb is_on (cl_log s) = true /\ taken (cl_log s) = [yw1; yw2; yw3; yw4]) /\
  (exists s, chist yc s /\ existsb is_fail (cl_log s) = false /\ In (ESuccess false ypar ypar) (cl_log s) /\ In (EEarlyOn 5) (cl_log s) /\ early_data (cl_log s) = [x01; x02] /\ app_data (cl_log s) = [x01; x02; x03; x04; x05; x06; x07; x08]) /\
  (exists s, chist yc s /\ cl_stack s = [] /\ existsb is_fail (cl_log s) = true /\ lost yc (cl_log s) = true /\ isReplaySafe s = false) /\
  (exists s, chist yp s /\ cl_stack s = [] /\ existsb is_success (cl_log s) = true /\ handed (cl_log s) = [yw1; yw2]).
Proof.
  split; [|split; [|split]].
  - destruct (crun_met _ _ _ y_ok_run) as (s & H & _ & E). exists s. rewrite E. repeat split; try reflexivity. exact H.
  - destruct (crun_met _ _ _ y_resend_run) as (s & H & _ & E). exists s. rewrite E. repeat split; try reflexivity; [exact H|cbn; tauto..].
  - destruct (crun_met _ _ _ y_lost_run) as (s & H & K & E). exists s. assert (X : lost yc (cl_log s) = true) by (rewrite E; reflexivity). rewrite E in *. repeat split; try reflexivity; [exact H|exact K|].
    destruct (isReplaySafe s) eqn:R; [|reflexivity]. apply (C71_replay_safe _ _ H) in R. rewrite E in R. destruct R as [R|[_ R]]; [discriminate R|congruence].
  - destruct (crun_met _ _ _ y_plain_run) as (s & H & K & E). exists s. rewrite E. repeat split; try reflexivity; [exact H|exact K].
Qed.

(** ** What is not promised *)
(** With FatalConnectionError a write is reported as successful (the socket could not send it as early data any more) although it reached nobody
    and the connection then fails. *)
Theorem C71_success_lost : exists s, chist yf s /\ cl_stack s = [] /\ In (EOk yw1) (cl_log s) /\ lost yf (cl_log s) = true /\ app_data (cl_log s) = [] /\ ~ In (EErr yw1) (cl_log s).
Proof.
  destruct (crun_met yf [MConnect true; MReturn; MEarlyOn 5; MReturn; MWrite yw1 true false; MReturn; MEarlyFailed yw1; MReturn; MSuccess false ypar ypar; MReturn; MReturn; MReturn]
    [EConnect; EEarlyOn 5; EHsOk; EWrite yw1; EEarly yw1; EOk yw1; ESuccess false ypar ypar; EFail; EMoved; EClosed] ltac:(vm_compute; reflexivity)) as (s & H & K & E).
  exists s. rewrite E. repeat split; try reflexivity; [exact H|exact K|cbn; tauto|]. cbn. intuition discriminate.
Qed.
(** deliverAllErrors does not end as long as the application writes again when told that a write failed: in one call of it, any number of writes fail and
    the state machine has still not been moved to the error state. *)
Definition is_err (e : cev) : bool := match e with EErr _ => true | _ => false end.
Definition y_again (n : nat) : list cmove := [MWrite (yw (3 + N.of_nat n) [x01]) true false; MReturn].
Fixpoint y_loop (n : nat) : list cmove := match n with O => [MConnect true; MReturn; MEarlyOn 1; MReturn; MWrite (yw 2 [x03; x04]) true false; MFail] | S n => y_loop n ++ y_again n end.
Theorem C71_retry_loop (n : nat) : exists s, chist yc s /\ length (filter is_fail (cl_log s)) = 1%nat /\ length (filter is_err (cl_log s)) = S n /\ cl_err s = false /\ length (cl_stack s) = 1%nat.
Proof.
  assert (G : exists s, crun yc cl_init (y_loop n) = Some s /\ length (filter is_fail (cl_log s)) = 1%nat /\ length (filter is_err (cl_log s)) = S n /\ cl_err s = false /\ cl_stack s = [FErrs false true] /\
    cl_early s = Some (mkEst 0 [] None) /\ cl_hs s = [] /\ existsb is_connect (cl_log s) = true /\ existsb is_success (cl_log s) = false /\ (forall i, In i (map wr_id (writes (cl_log s))) -> i < 3 + N.of_nat n)).
  { induction n as [|n (s & E & F1 & F2 & F3 & F4 & F5 & F6 & F7 & F8 & F9)].
    - eexists. split; [vm_compute; reflexivity|]. repeat split; try reflexivity. cbn. intros i [<-|[]]. lia.
    - cbn [y_loop]. rewrite crun_app, E. unfold y_again. set (w := yw (3 + N.of_nat n) [x01]).
      assert (Ew : existsb (N.eqb (wr_id w)) (map wr_id (writes (cl_log s))) = false).
      { apply not_true_iff_false. intros X. apply existsb_exists in X. destruct X as (i & X1 & X2). apply N.eqb_eq in X2. apply F9 in X1. cbn [w yw wr_id] in X2. lia. }
      destruct s as [cb hs ea rs er st L]. cbn [cl_log cl_err cl_stack cl_early cl_hs] in *. subst hs ea er st. cbn [crun allowedb cl_log cl_err]. rewrite F7, Ew. cbn [andb negb implb]. rewrite F8. cbn [implb].
      exists (mkAcl cb [] (Some (mkEst 0 [] None)) rs false [FErrs false true] ((L ++ [EWrite w]) ++ [EErr w])). split; [reflexivity|]. cbn [cl_log cl_err cl_stack cl_early cl_hs].
      rewrite !filter_app, !app_length, !existsb_app, F1, F2. unfold writes. rewrite !map_app, !concat_app, !map_app. fold (writes L).
      repeat split; try reflexivity; [cbn; lia|rewrite F7; reflexivity|rewrite F8; reflexivity|]. intros i X. apply in_app_or in X. destruct X as [X|X]; [|destruct X]. apply in_app_or in X. destruct X as [X|X]; [apply F9 in X; lia|]. cbn in X. destruct X as [<-|[]]. lia. }
  destruct G as (s & E & F1 & F2 & F3 & F4 & _). exists s. split; [eapply crun_hist; [constructor|exact E]|]. rewrite F4. auto.
Qed.
(** After early data was rejected for good, and before the state machine is moved to the error state, an empty write is still handed down as early data. *)
Theorem C71_empty_early : exists s w L, chist yf s /\ cl_log s = L ++ [EEarly w] /\ lost yf L = true.
Proof.
  set (w := yw 9 []). destruct (crun yf cl_init [MConnect true; MReturn; MEarlyOn 1; MReturn; MWrite yw1 true false; MSuccess false ypar ypar; MWrite w true false]) as [s|] eqn:E; [|vm_compute in E; discriminate E].
  exists s, w, (removelast (cl_log s)). split; [eapply crun_hist; [constructor|exact E]|]. vm_compute in E. injection E as <-. split; reflexivity.
Qed.
