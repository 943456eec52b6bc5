(** * C69: concrete histories of the write queue *)
From Verif Require Import Base AsyncWrite PropsAsyncWrite.
Open Scope N_scope.

Definition teqb (a b : target) : bool := match a, b with TUser x c, TUser y d => (x =? y) && Bool.eqb c d | TReq x, TReq y => x =? y | _, _ => false end.
Definition allowedb (s : wq) (m : move) : bool :=
  match m with
  | MWrite _ _ _ _ _ _ addr => wq_alive s && (match wq_heap s addr with None => true | _ => false end)
  | MReport t ok => existsb (teqb t) (wq_out s) && (wq_alive s || negb ok)
  | MDeliverError _ => wq_alive s
  | MReturn => match wq_stack s with [] => false | _ => true end
  | MDestroy => wq_alive s && forallb may_die (wq_stack s)
  end.
Lemma allowedb_ok s m : allowedb s m = true -> allowed s m.
Proof.
  destruct m as [cb data flags shared buffering early addr|t ok|reader| |]; cbn [allowedb allowed]; intros H.
  - apply andb_true_iff in H. destruct H as [H1 H2]. split; [exact H1|]. destruct (wq_heap s addr); [discriminate H2|reflexivity].
  - apply andb_true_iff in H. destruct H as [H1 H2]. split.
    + apply existsb_exists in H1. destruct H1 as (x & H1 & H3). assert (t = x); [|subst x; exact H1].
      destruct t as [w c|p], x as [w' c'|p']; cbn [teqb] in H3; try discriminate H3.
      * apply andb_true_iff in H3. destruct H3 as [H3 H4]. apply N.eqb_eq in H3. apply Bool.eqb_prop in H4. congruence.
      * apply N.eqb_eq in H3. congruence.
    + apply orb_true_iff in H2. destruct H2 as [H2|H2]; [left; exact H2|right]. destruct ok; [discriminate H2|reflexivity].
  - exact H.
  - destruct (wq_stack s); [discriminate H|congruence].
  - apply andb_true_iff in H. exact H.
Qed.
Definition splitb (m : move) : bool := match m with MWrite _ _ _ shared _ early _ => shared && negb early | _ => true end.
Fixpoint wrun (s : wq) (ms : list move) : option wq :=
  match ms with [] => Some s | m :: ms' => if allowedb s m then match wstep s m with Ok s' => wrun s' ms' | Err _ => None end else None end.
Lemma wrun_hist whole ms : forall s s', whist whole s -> wrun s ms = Some s' -> whist whole s'.
Proof.
  induction ms as [|m ms IH]; cbn [wrun]; intros s s' H E; [congruence|]. destruct (allowedb s m) eqn:Ea; [|discriminate E]. destruct (wstep s m) as [s1|] eqn:E1; [|discriminate E].
  eapply IH, E. eapply wh_step; [exact H|apply allowedb_ok, Ea|exact E1].
Qed.
(** events, with lengths for bytes *)
Inductive wsum := SCall (w : N) (len flags : N) | SPush (w : N) (len flags : N) | SLow (w : N) (ok : bool) | SOk (w : N) | SErr (w : N) (n : option N).
Definition sum1 (e : wev) : wsum := match e with WCall w _ d f => SCall w (blen d) f | WPush w d f => SPush w (blen d) f | WLow w ok => SLow w ok | WOk w _ => SOk w | WErr w _ n => SErr w n end.

(** A direct write, one of 128 KiB + 2 bytes, two that wait, of which the second is made in the callback of the large one, and an error. *)
Definition big : bytes := N.recursion [] (fun _ l => x07 :: l) 131074.
Definition moves1 : list move :=
  [ MWrite true [x01; x02] 4 false false false 0; MReturn;
    MWrite true big 0 true false false 10; MReturn;
    MWrite false [x03] 0 false false false 11;
    MReport (TUser 0 true) true; MReturn;
    MReport (TReq 10) true; MReturn;
    MReport (TReq 10) true; MWrite true [x05; x06] 2 true true false 10; MReturn; MReturn;
    MReport (TReq 11) false; MReturn; MReturn ].
Definition log1 : list wsum := [ SCall 0 2 4; SPush 0 2 4; SCall 1 131074 0; SPush 1 131072 1; SCall 2 1 0; SLow 0 true; SOk 0; SLow 1 true; SPush 1 2 0; SLow 1 true; SOk 1;
  SCall 3 2 2; SPush 2 1 0; SLow 2 false; SErr 2 (Some 1); SErr 3 (Some 0) ].
Lemma run1 : option_map (fun s => (wq_out s, wq_stack s, map sum1 (wq_log s))) (wrun (wq_init false) moves1) = Some ([], [], log1).
Proof. vm_compute. reflexivity. Qed.
Theorem C69_met : exists s, whist false s /\ wq_out s = [] /\ wq_stack s = [] /\ map sum1 (wq_log s) = log1.
Proof.
  pose proof run1 as F. destruct (wrun (wq_init false) moves1) as [s|] eqn:E; [|discriminate F]. exists s. split; [eapply wrun_hist, E; constructor|].
  cbn [option_map] in F. injection F as F1 F2 F3. auto.
Qed.
(** A callback may destroy the object: later writes fail. *)
Theorem C69_destroyed_met : exists s, whist true s /\ wq_alive s = false /\ wq_out s = [] /\ wq_stack s = [] /\
  map sum1 (wq_log s) = [ SCall 0 1 0; SPush 0 1 0; SCall 1 2 0; SLow 0 false; SErr 0 (Some 1); SErr 1 (Some 0) ].
Proof.
  destruct (wrun (wq_init true) [ MWrite true [x09] 0 true true false 0; MReturn; MWrite true [x08; x08] 0 false false false 1; MReport (TReq 0) false; MDestroy; MReturn; MReturn ]) as [s|] eqn:E; [|vm_compute in E; discriminate E].
  exists s. split; [eapply wrun_hist, E; constructor|]. vm_compute in E. injection E as <-. auto.
Qed.
(** Finding: while the callbacks of failed writes run, getAppBytesBuffered still counts the bytes of writes that are over. *)
Definition moves2 : list move := [ MWrite true big 0 true false false 0; MReturn; MWrite true [x08] 0 false false false 1; MReport (TReq 0) false ].
Lemma run2 : option_map (fun s => (wq_alive s, queueBuffered s, unsent (wq_log s))) (wrun (wq_init false) moves2) = Some (true, Ok 3, 1).
Proof. vm_compute. reflexivity. Qed.
Theorem C69_over_reported : exists s n, whist false s /\ wq_alive s = true /\ queueBuffered s = Ok n /\ unsent (wq_log s) = 1 /\ n = 3.
Proof.
  pose proof run2 as F. destruct (wrun (wq_init false) moves2) as [s|] eqn:E; [|discriminate F]. exists s, 3. split; [eapply wrun_hist, E; constructor|].
  cbn [option_map] in F. injection F as F1 F2 F3. auto.
Qed.
Lemma wrun_shared whole ms : forallb splitb ms = true -> forall s s', whist_shared whole s -> wrun s ms = Some s' -> whist_shared whole s'.
Proof.
  induction ms as [|m ms IH]; cbn [wrun forallb]; intros Hb s s' H E; [congruence|]. apply andb_true_iff in Hb. destruct Hb as [Hb1 Hb2]. destruct (allowedb s m) eqn:Ea; [|discriminate E].
  destruct (wstep s m) as [s1|] eqn:E1; [|discriminate E]. eapply (IH Hb2), E. eapply ws_step; [exact H|apply allowedb_ok, Ea| |exact E1].
  destruct m; cbn [splitb splittable] in *; try exact Logic.I. apply andb_true_iff in Hb1. destruct Hb1 as [-> Hb1]. split; [reflexivity|]. destruct early; [discriminate Hb1|reflexivity].
Qed.
Definition moves3 : list move := [ MWrite true big 0 true false false 0; MReturn; MWrite true big 0 true false false 1; MReport (TReq 0) true; MReturn; MReport (TReq 0) true; MReturn ].
Lemma run3 : option_map (fun s => map sum1 (wq_log s)) (wrun (wq_init false) moves3) =
  Some [ SCall 0 131074 0; SPush 0 131072 1; SCall 1 131074 0; SLow 0 true; SPush 0 2 0; SLow 0 true; SOk 0; SPush 1 131072 1 ].
Proof. vm_compute. reflexivity. Qed.
Theorem C69_split_met : exists s, whist_shared false s /\ map sum1 (wq_log s) = [ SCall 0 131074 0; SPush 0 131072 1; SCall 1 131074 0; SLow 0 true; SPush 0 2 0; SLow 0 true; SOk 0; SPush 1 131072 1 ].
Proof.
  pose proof run3 as F. destruct (wrun (wq_init false) moves3) as [s|] eqn:E; [|discriminate F]. exists s. split; [eapply (wrun_shared _ moves3 eq_refl), E; constructor|].
  cbn [option_map] in F. injection F as F1. exact F1.
Qed.
