(** * C77: the server transport *)
From Coq Require Import Lia Permutation.
From Verif Require Import Base AsyncEarly AsyncServer.
Open Scope N_scope.

(** ** Specification: what a log says *)
Definition is_outcome (e : sev) : bool := match e with SHsOk | SHsErr | SHsFallback _ => true | _ => false end.
Definition is_fail (e : sev) : bool := match e with SFail => true | _ => false end.
Definition is_err (e : sev) : bool := match e with SErr _ => true | _ => false end.
Definition is_v2 (e : sev) : bool := match e with SV2 _ => true | _ => false end.
Definition cnt (f : sev -> bool) (L : list sev) : N := N.of_nat (length (filter f L)).
(** bytes that arrived; bytes the state machine has read *)
Definition recvd (L : list sev) : bytes := concat (map (fun e => match e with SRecv d => d | _ => [] end) L).
Definition takenb (L : list sev) : bytes := concat (map (fun e => match e with STake d => d | _ => [] end) L).
(** writes taken; writes given to the state machine or failed, in this order *)
Definition taken (L : list sev) : list wr := concat (map (fun e => match e with SWrite w => [w] | _ => [] end) L).
Definition settled (L : list sev) : list wr := concat (map (fun e => match e with SApp w | SErr w => [w] | _ => [] end) L).
(** the state machine's state: what it was last set to *)
Definition after (t : sterm) (e : sev) : sterm := match e with SAct (AMutate t') _ => t' | SV2 _ => TError | _ => t end.
Definition machine (L : list sev) : sterm := fold_left after L TRunning.
(** what follows accept *)
Fixpoint since_accept (L : list sev) : list sev := match L with [] => [] | e :: r => if is_accept e then r else since_accept r end.
Definition all_events (P : list sev -> sev -> Prop) (L : list sev) : Prop := forall L1 e L2, L = L1 ++ e :: L2 -> P L1 e.
(** An SSLv2 ClientHello: the high bit of the first byte (a two byte length) and message type 1 in the third *)
Definition v2_hello (b : bytes) : Prop := exists b1 b2 b3 r, b = b1 :: b2 :: b3 :: r /\ N.testbit (Byte.to_N b1) 7 = true /\ Byte.to_N b3 = 1.
(** success is reported only directly when the state machine reports it, the transport being good, the state machine neither closed nor failed,
    and nothing having failed before; a fallback only directly on the state machine's request, with the hello it gives and
    all bytes not read yet, or because all bytes received, none of which has been read, look like an SSLv2 hello and fallback is enabled; a write is given to the state
    machine only as long as none has failed; and it fails only after an error. *)
Definition legal (v2 : bool) (L : list sev) (e : sev) : Prop :=
  match e with
  | SHsOk => exists L0 early q, L = L0 ++ [SAct (ASuccess early) q] /\ sq_good q = true /\ machine L0 = TRunning /\ existsb is_fail L0 = false
  | SHsFallback b =>
      (exists L0 hello q rest, L = L0 ++ [SAct (AFallback hello) q] /\ recvd L0 = takenb L0 ++ rest /\ b = hello ++ rest) \/
      (exists L0, L = L0 ++ [SV2 b] /\ v2 = true /\ takenb L0 = [] /\ recvd L0 = b /\ v2_hello b)
  | SHsErr => existsb is_fail L = true \/ exists L0 q, L = L0 ++ [SAct AError q]
  | SApp w => existsb is_err L = false /\ machine L = TRunning
  | SErr w => existsb is_fail L = true
  | SWrite w => machine L = TRunning /\ existsb is_err L = false
  | _ => True
  end.

(** ** Proofs *)
Lemma cnt_app f L M : cnt f (L ++ M) = cnt f L + cnt f M.
Proof. unfold cnt. rewrite filter_app, app_length. lia. Qed.
Lemma cnt_one f e : cnt f [e] = if f e then 1 else 0.
Proof. unfold cnt. cbn. destruct (f e); reflexivity. Qed.
Lemma recvd_app L M : recvd (L ++ M) = recvd L ++ recvd M.
Proof. unfold recvd. rewrite map_app, concat_app. reflexivity. Qed.
Lemma takenb_app L M : takenb (L ++ M) = takenb L ++ takenb M.
Proof. unfold takenb. rewrite map_app, concat_app. reflexivity. Qed.
Lemma taken_app L M : taken (L ++ M) = taken L ++ taken M.
Proof. unfold taken. rewrite map_app, concat_app. reflexivity. Qed.
Lemma settled_app L M : settled (L ++ M) = settled L ++ settled M.
Proof. unfold settled. rewrite map_app, concat_app. reflexivity. Qed.
Lemma machine_snoc L e : machine (L ++ [e]) = after (machine L) e.
Proof. unfold machine. rewrite fold_left_app. reflexivity. Qed.
Lemma exb_app (f : sev -> bool) L M : existsb f (L ++ M) = existsb f L || existsb f M.
Proof. apply existsb_app. Qed.
Lemma since_app L M : existsb is_accept L = true -> since_accept (L ++ M) = since_accept L ++ M.
Proof. induction L as [|e r IH]; [discriminate|]. cbn. destruct (is_accept e); [reflexivity|]. cbn. exact IH. Qed.
Lemma since_none L : existsb is_accept L = false -> since_accept L = [].
Proof. induction L as [|e r IH]; [reflexivity|]. cbn. destruct (is_accept e); [discriminate|]. cbn. exact IH. Qed.
Lemma since_none_app L M : existsb is_accept L = false -> since_accept (L ++ M) = since_accept M.
Proof. induction L as [|e r IH]; [reflexivity|]. cbn. destruct (is_accept e); [discriminate|]. cbn. exact IH. Qed.
Lemma all_snoc P L e : all_events P L -> P L e -> all_events P (L ++ [e]).
Proof.
  intros A B L1 x L2 E. destruct (exists_last (l := x :: L2) ltac:(discriminate)) as (M & y & E'). rewrite E' in E.
  rewrite app_assoc in E. apply app_inj_tail in E. destruct E as [-> ->]. destruct M as [|x' M]; cbn in E'; injection E' as -> ->.
  - rewrite app_nil_r in *. exact B.
  - apply (A L1 x' M). reflexivity.
Qed.
Lemma looksLikeV2_iff b : looksLikeV2 b = true <-> v2_hello b.
Proof.
  unfold looksLikeV2, v2_hello. split.
  - destruct b as [|b1 [|b2 [|b3 r]]]; try discriminate. intros H. apply andb_prop in H. destruct H as [H1 H2]. exists b1, b2, b3, r. split; [reflexivity|].
    split; [|apply N.eqb_eq; exact H2]. clear H2. destruct b1; (reflexivity || discriminate H1).
  - intros (b1 & b2 & b3 & r & -> & H1 & ->). clear -H1. destruct b1; (reflexivity || discriminate H1).
Qed.
Definition isHsErr (f : sframe) : bool := match f with KHsErr _ => true | _ => false end.
Definition isFlush (f : sframe) : bool := match f with KFlush _ => true | _ => false end.
Definition is_fb (e : sev) : bool := match e with SV2 _ | SHsFallback _ => true | _ => false end.
Definition b2n (b : bool) : N := if b then 1 else 0.
Record J0 (v2 : bool) (s : asv) : Prop := mkJ0 {
  j_one : cnt is_outcome (as_log s) + b2n (as_cb s) = cnt is_accept (as_log s);
  j_acc : cnt is_accept (as_log s) = b2n (existsb is_accept (as_log s));
  j_fail2 : existsb is_fail (since_accept (as_log s)) = true -> as_cb s = false;
  j_fail3 : existsb is_fail (as_log s) = true -> as_ext s = true \/ as_cb s = false;
  j_wr : taken (as_log s) = settled (as_log s) ++ as_pend s;
  j_term : machine (as_log s) = as_term s;
  j_fb : existsb is_fb (as_log s) = true -> as_cb s = false /\ existsb is_accept (as_log s) = true;
  j_buf : existsb is_fb (as_log s) = false -> recvd (as_log s) = takenb (as_log s) ++ as_buf s;
  j_v2 : as_v2 s = true -> v2 = true /\ as_wait s = true /\ takenb (as_log s) = [];
  j_pre : existsb is_accept (as_log s) = false -> as_cb s = false /\ as_wait s = true /\ as_v2 s = false /\ takenb (as_log s) = [];
  j_legal : all_events (legal v2) (as_log s)
}.
Record J1 (s : asv) : Prop := mkJ1 {
  j_fail : existsb is_fail (as_log s) = true -> as_ext s = true \/ existsb isHsErr (as_stack s) = true;
  j_pend : as_ext s = true -> as_pend s = [] \/ existsb isFlush (as_stack s) = true;
  j_err : as_ext s = false -> existsb is_err (as_log s) = false;
  j_hf : existsb isHsErr (as_stack s) = true \/ existsb isFlush (as_stack s) = true \/ as_ext s = true -> existsb is_fail (as_log s) = true;
  j_hf2 : existsb isFlush (as_stack s) = true -> as_ext s = true;
  j_ph : existsb is_accept (as_log s) = false -> existsb isHsErr (as_stack s) = false
}.
Definition J (v2 : bool) (s : asv) : Prop := J0 v2 s /\ J1 s.
Lemma cnt_ex f L : existsb f L = false -> cnt f L = 0.
Proof. unfold cnt. induction L as [|e r IH]; [reflexivity|]. cbn. destruct (f e); [discriminate|]. cbn. exact IH. Qed.

Ltac projs := cbn [as_cb as_term as_ext as_v2 as_wait as_buf as_pend as_stack as_log ssay scall sset_cb sset_term sset_ext sset_v2 sset_wait sset_buf sset_pend sset_stack] in *.
Ltac logs := rewrite ?cnt_app, ?cnt_one, ?recvd_app, ?takenb_app, ?taken_app, ?settled_app, ?machine_snoc, ?exb_app in *;
  cbn [existsb is_outcome is_fail is_err is_v2 is_accept is_fb after recvd takenb taken settled map concat app orb isHsErr isFlush b2n] in *;
  rewrite ?app_nil_r, ?orb_false_r, ?orb_true_r, ?N.add_0_r in *.

(** saying something that changes nothing *)
Definition quiet (e : sev) : bool := match e with SImmediate | SClose _ _ | SBroken | SDeliver _ | SRefuse _ => true | SAct (AMutate _) _ => false | SAct _ _ => true | _ => false end.
Lemma since_snoc_quiet L e f : is_accept e = false -> f e = false -> existsb f (since_accept (L ++ [e])) = existsb f (since_accept L).
Proof.
  intros Ha Hf. destruct (existsb is_accept L) eqn:E.
  - rewrite since_app, existsb_app by exact E. cbn. rewrite Hf, !orb_false_r. reflexivity.
  - rewrite since_none_app, (since_none L) by exact E. cbn. rewrite Ha. reflexivity.
Qed.
Lemma J_quiet v2 s e : quiet e = true -> J v2 s -> J v2 (ssay s e).
Proof.
  intros Q [[A B D D' H I K L M N' O] [C E F G G' P]]. assert (Hacc : is_accept e = false /\ is_fail e = false /\ is_outcome e = false /\ is_err e = false /\ is_fb e = false /\ (forall t, after t e = t) /\ recvd [e] = [] /\ takenb [e] = [] /\ taken [e] = [] /\ settled [e] = [] /\ forall L, legal v2 L e).
  { destruct e as [| | |[]| | | | | | | | | | | | |]; try discriminate Q; repeat split. }
  destruct Hacc as (h1 & h2 & h3 & h4 & h5 & h6 & h7 & h8 & h9 & h10 & h11).
  split; constructor; projs; rewrite ?cnt_app, ?cnt_one, ?recvd_app, ?takenb_app, ?taken_app, ?settled_app, ?machine_snoc, ?exb_app, ?h7, ?h8, ?h9, ?h10, ?h6; cbn [existsb];
    rewrite ?h1, ?h2, ?h3, ?h4, ?h5, ?app_nil_r, ?orb_false_r, ?N.add_0_r; try assumption.
  - rewrite since_snoc_quiet by assumption. exact D.
  - apply all_snoc; [exact O|apply h11].
Qed.
Lemma J_down v2 s : J v2 s -> J v2 (scall s KDown).
Proof. intros [[A B D D' H I K L M N' O] [C E F G G' P]]. split; constructor; projs; cbn [existsb isHsErr isFlush orb]; assumption. Qed.
Lemma since_snoc_fail L e : is_accept e = false -> existsb is_fail (since_accept (L ++ [e])) = true -> existsb is_accept L = true.
Proof. intros Ha. destruct (existsb is_accept L) eqn:E; [reflexivity|]. rewrite since_none_app by exact E. cbn. rewrite Ha. discriminate. Qed.

(** the loop of moveToErrorState: two ends *)
Lemma sflush_cases c : forall l s,
  (sflush s l c = scall (ssay (mkAsv (as_cb s) (as_term s) (as_ext s) (as_v2 s) (as_wait s) (as_buf s) [] (as_stack s) (as_log s ++ map SErr l)) (SDeliver c)) KDown) \/
  (exists p w r, l = p ++ w :: r /\ sflush s l c = scall (mkAsv (as_cb s) (as_term s) (as_ext s) (as_v2 s) (as_wait s) (as_buf s) r (as_stack s) (as_log s ++ map SErr (p ++ [w]))) (KFlush c)).
Proof.
  induction l as [|w r IH]; intros s; cbn [sflush].
  - left. cbn [map]. rewrite app_nil_r. reflexivity.
  - destruct (wr_cb w).
    + right. exists [], w, r. split; reflexivity.
    + destruct (IH (ssay s (SErr w))) as [E|(p & w' & r' & -> & E)]; rewrite E; projs.
      * left. cbn [map]. rewrite <- !app_assoc. reflexivity.
      * right. exists (w :: p), w', r'. split; [reflexivity|]. cbn [map app]. rewrite <- !app_assoc. reflexivity.
Qed.
(** failing writes while externalError_ is set *)
Section Errs.
  Variable p : list wr.
  Variable L : list sev.
  Notation M := (L ++ map SErr p).
  Lemma er_cnt f : (forall w, f (SErr w) = false) -> cnt f M = cnt f L.
  Proof. intros Hf. rewrite cnt_app. assert (cnt f (map SErr p) = 0) as ->; [|lia]. apply cnt_ex. induction p as [|w r IH]; [reflexivity|]. cbn. rewrite Hf. exact IH. Qed.
  Lemma er_ex f : (forall w, f (SErr w) = false) -> existsb f M = existsb f L.
  Proof. intros Hf. rewrite existsb_app. assert (existsb f (map SErr p) = false) as ->; [|apply orb_false_r]. induction p as [|w r IH]; [reflexivity|]. cbn. rewrite Hf. exact IH. Qed.
  Lemma er_recvd : recvd M = recvd L.
  Proof. rewrite recvd_app. assert (recvd (map SErr p) = []) as ->; [|apply app_nil_r]. induction p as [|w r IH]; [reflexivity|exact IH]. Qed.
  Lemma er_takenb : takenb M = takenb L.
  Proof. rewrite takenb_app. assert (takenb (map SErr p) = []) as ->; [|apply app_nil_r]. induction p as [|w r IH]; [reflexivity|exact IH]. Qed.
  Lemma er_taken : taken M = taken L.
  Proof. rewrite taken_app. assert (taken (map SErr p) = []) as ->; [|apply app_nil_r]. induction p as [|w r IH]; [reflexivity|exact IH]. Qed.
  Lemma er_settled : settled M = settled L ++ p.
  Proof. rewrite settled_app. f_equal. induction p as [|w r IH]; [reflexivity|]. cbn. f_equal. exact IH. Qed.
  Lemma er_machine : machine M = machine L.
  Proof. unfold machine. rewrite fold_left_app. generalize (fold_left after L TRunning). induction p as [|w r IH]; intros t; [reflexivity|]. cbn. apply IH. Qed.
End Errs.
Lemma er_since p : forall L, existsb is_fail (since_accept (L ++ map SErr p)) = existsb is_fail (since_accept L).
Proof.
  induction p as [|w r IH]; intros L; [cbn; rewrite app_nil_r; reflexivity|]. cbn [map]. change (SErr w :: map SErr r) with ([SErr w] ++ map SErr r). rewrite app_assoc, IH.
  apply since_snoc_quiet; reflexivity.
Qed.
Lemma er_all v2 p : forall L, existsb is_fail L = true -> all_events (legal v2) L -> all_events (legal v2) (L ++ map SErr p).
Proof.
  induction p as [|w r IH]; intros L F A; [cbn; rewrite app_nil_r; exact A|]. cbn [map]. change (SErr w :: map SErr r) with ([SErr w] ++ map SErr r). rewrite app_assoc. apply IH.
  - rewrite existsb_app, F. reflexivity.
  - apply all_snoc; [exact A|exact F].
Qed.
Lemma J_errs v2 s p r k : J0 v2 s -> existsb is_fail (as_log s) = true -> as_pend s = p ++ r -> (r = [] \/ existsb isFlush k = true) -> (existsb is_accept (as_log s) = false -> existsb isHsErr k = false) ->
  J v2 (mkAsv (as_cb s) (as_term s) true (as_v2 s) (as_wait s) (as_buf s) r k (as_log s ++ map SErr p)).
Proof.
  intros [A B D D' H I K L M N' O] HF Ep Hk Hp.
  split; constructor; projs; rewrite ?er_recvd, ?er_takenb, ?er_taken, ?er_settled, ?er_machine, ?er_since, ?er_cnt, ?er_ex by reflexivity; try assumption; auto; try discriminate.
  - rewrite H, Ep, <- app_assoc. reflexivity.
  - apply er_all; assumption.
Qed.
Lemma J_flush v2 s k c : J0 v2 s -> existsb is_fail (as_log s) = true -> (existsb is_accept (as_log s) = false -> existsb isHsErr k = false) -> J v2 (sflush (sset_ext (sset_stack s k) true) (as_pend s) c).
Proof.
  intros HJ HF Hp. destruct (sflush_cases c (as_pend s) (sset_ext (sset_stack s k) true)) as [E|(p & w & r & Ep & E)]; rewrite E.
  - apply J_down, J_quiet; [reflexivity|]. projs. apply J_errs; auto. rewrite app_nil_r. reflexivity.
  - apply (J_errs v2 s (p ++ [w]) r (KFlush c :: k)); auto. rewrite Ep, <- app_assoc. reflexivity.
Qed.
(** [smove] after an error was recorded *)
Lemma J_move v2 s k c : J0 v2 s -> existsb is_fail (as_log s) = true -> (as_ext s = true -> J1 (sset_stack s k)) -> (existsb is_accept (as_log s) = false -> existsb isHsErr k = false) -> J v2 (smove (sset_stack s k) c).
Proof.
  intros HJ HF Hk Hp. unfold smove. projs. destruct (as_ext s) eqn:He.
  - apply J_down, J_quiet; [reflexivity|]. split; [|apply Hk; reflexivity]. destruct HJ as [A B D D' H I K L M N' O]. constructor; projs; assumption.
  - apply (J_flush v2 s k c HJ HF Hp).
Qed.
Lemma sset_stack_id s : sset_stack s (as_stack s) = s.
Proof. destruct s; reflexivity. Qed.
(** An error; the stack may have lost a frame *)
Lemma J_fail v2 s k c : J0 v2 s -> (as_ext s = true -> as_pend s = [] \/ existsb isFlush k = true) -> (as_ext s = false -> existsb is_err (as_log s) = false) -> (existsb isFlush k = true -> as_ext s = true) -> (existsb is_accept (as_log s) = false -> existsb isHsErr k = false) ->
  J v2 (sdeliverAll (sset_stack s k) c).
Proof.
  intros HJ X1 X2 X3 X4. unfold sdeliverAll. projs. destruct (as_cb s) eqn:Ecb.
  - destruct HJ as [A B D D' H I K L M N' O]. rewrite Ecb in *. cbn [b2n] in A.
    split; constructor; projs; rewrite <- ?app_assoc; cbn [app]; rewrite ?cnt_app, ?recvd_app, ?takenb_app, ?taken_app, ?settled_app, ?exb_app; cbn; rewrite ?app_nil_r, ?orb_true_r, ?orb_false_r; auto.
    + change (cnt is_outcome [SFail; SHsErr]) with 1. change (cnt is_accept [SFail; SHsErr]) with 0. lia.
    + change (cnt is_accept [SFail; SHsErr]) with 0. rewrite N.add_0_r. exact B.
    + change (as_log s ++ [SFail; SHsErr]) with (as_log s ++ ([SFail] ++ [SHsErr])). rewrite app_assoc, !machine_snoc. exact I.
    + intros X. split; [reflexivity|]. apply K, X.
    + intros X. specialize (N' X). destruct N' as (N1 & N2). split; [reflexivity|exact N2].
    + change (as_log s ++ [SFail; SHsErr]) with (as_log s ++ ([SFail] ++ [SHsErr])). rewrite app_assoc. apply all_snoc; [apply all_snoc; [exact O|exact Logic.I]|]. left. rewrite existsb_app. cbn. apply orb_true_r.
    + intros X. destruct (N' X) as [Y _]. discriminate Y.
  - change (ssay (sset_stack s k) SFail) with (sset_stack (ssay s SFail) k). apply J_move.
    + destruct HJ as [A B D D' H I K L M N' O]. rewrite Ecb in *.
      constructor; projs; rewrite ?cnt_app, ?cnt_one, ?recvd_app, ?takenb_app, ?taken_app, ?settled_app, ?machine_snoc, ?exb_app; cbn; rewrite ?app_nil_r, ?orb_false_r, ?N.add_0_r, ?Ecb; auto.
      apply all_snoc; [exact O|exact Logic.I].
    + projs. rewrite existsb_app. cbn. apply orb_true_r.
    + projs. intros He. constructor; projs; rewrite ?exb_app; cbn; rewrite ?orb_true_r, ?orb_false_r; auto.
    + projs. rewrite exb_app. cbn. rewrite orb_false_r. exact X4.
Qed.
Lemma J_fail0 v2 s c : J v2 s -> J v2 (sdeliverAll s c).
Proof. intros [HJ [C E F G G' P]]. rewrite <- (sset_stack_id s). apply J_fail; assumption. Qed.
Lemma J_broken v2 s : J v2 s -> J v2 (stransportError s).
Proof. intros H. apply J_fail0, J_quiet; [reflexivity|exact H]. Qed.
(** the handshake callback is called with success or a fallback *)
Lemma fail_since L : existsb is_accept L = false -> existsb is_fail (since_accept L) = false.
Proof. intros H. rewrite since_none by exact H. reflexivity. Qed.
Lemma J_cb v2 s e b : J v2 s -> as_cb s = true -> (e = SHsOk /\ b = as_buf s \/ exists x, e = SHsFallback x) -> legal v2 (as_log s) e -> J v2 (ssay (sset_buf (sset_cb s false) b) e).
Proof.
  intros [[A B D D' H I K L M N' O] [C E F G G' P]] Ecb He Hl. rewrite Ecb in *. cbn [b2n] in A.
  assert (h : is_accept e = false /\ is_fail e = false /\ is_outcome e = true /\ is_err e = false /\ (forall t, after t e = t) /\ recvd [e] = [] /\ takenb [e] = [] /\ taken [e] = [] /\ settled [e] = []).
  { destruct He as [[-> _]|[x ->]]; repeat split. }
  destruct h as (h1 & h2 & h3 & h4 & h6 & h7 & h8 & h9 & h10).
  assert (Hacc : existsb is_accept (as_log s) = true).
  { destruct (existsb is_accept (as_log s)) eqn:X; [reflexivity|]. destruct (N' eq_refl) as [Y _]. discriminate. }
  split; constructor; projs; rewrite ?cnt_app, ?cnt_one, ?recvd_app, ?takenb_app, ?taken_app, ?settled_app, ?machine_snoc, ?exb_app, ?h7, ?h8, ?h9, ?h10, ?h6; cbn [existsb];
    rewrite ?h1, ?h2, ?h3, ?h4, ?app_nil_r, ?orb_false_r, ?N.add_0_r; auto.
  - destruct He as [[-> ->]|[x ->]]; cbn [is_fb]; [rewrite orb_false_r; exact L|rewrite orb_true_r; discriminate].
  - congruence.
  - apply all_snoc; assumption.
Qed.
Lemma J_fallback v2 s hello : J v2 s -> (as_cb s = true -> legal v2 (as_log s) (SHsFallback (hello ++ as_buf s))) -> J v2 (sfallback s hello).
Proof.
  intros HJ Hl. unfold sfallback. destruct (as_cb s) eqn:Ecb; [|exact HJ]. apply J_down. apply J_cb; eauto.
Qed.
Lemma J_init v2 : J v2 as_init.
Proof.
  split; constructor; cbn; try reflexivity; try discriminate; auto.
  - intros [|] ? ? E; discriminate E.
  - intros [X|[X|X]]; discriminate X.
Qed.
Lemma J_step v2 s m : J v2 s -> sallowed s m -> J v2 (sstep v2 s m).
Proof.
  intros HJ. destruct m as [|w q|d busy|n| |a q| |q|q| ]; cbn [sallowed sstep].
  - (* accept *) intros Ha. apply J_down. destruct HJ as [[A B D D' H I K L M N' O] [C E F G G' P]]. destruct (N' Ha) as (n1 & n2 & n3 & n4).
    split; constructor; projs; rewrite ?cnt_app, ?cnt_one, ?recvd_app, ?takenb_app, ?taken_app, ?settled_app, ?machine_snoc, ?exb_app; cbn; rewrite ?app_nil_r, ?orb_true_r, ?orb_false_r; auto; try discriminate.
    + rewrite n1 in A. cbn in A. lia.
    + rewrite B, Ha. reflexivity.
    + rewrite since_none_app by exact Ha. cbn. discriminate.
    + intros X. destruct (C X) as [Y|Y]; [left; exact Y|]. rewrite (P Ha) in Y. discriminate Y.
    + intros X. destruct (K X) as [_ Y]. congruence.
    + apply all_snoc; [exact O|exact Logic.I].
  - (* write *) intros _. unfold swrite. destruct (sgood s q) eqn:Eg.
    + unfold sgood, sterminal in Eg. destruct HJ as [[A B D D' H I K L M N' O] [C E F G G' P]].
      destruct (as_ext s) eqn:Ex; [discriminate|]. destruct (as_term s) eqn:Et; try discriminate Eg.
      split; constructor; projs; rewrite ?cnt_app, ?cnt_one, ?recvd_app, ?takenb_app, ?taken_app, ?settled_app, ?machine_snoc, ?exb_app; cbn; rewrite ?app_nil_r, ?orb_true_r, ?orb_false_r, ?N.add_0_r, ?Ex, ?Et; auto; try discriminate.
      * rewrite since_snoc_quiet by reflexivity. exact D.
      * rewrite H, app_assoc. reflexivity.
      * apply all_snoc; [exact O|]. split; [exact I|apply F; reflexivity].
    + assert (J v2 (ssay s (SRefuse w))) by (apply J_quiet; [reflexivity|exact HJ]). destruct (wr_cb w); [apply J_down|]; assumption.
  - (* data *) intros Ha. unfold snewData. projs. destruct (as_v2 s && negb busy && looksLikeV2 (as_buf s ++ d)) eqn:Ev.
    + apply andb_prop in Ev. destruct Ev as [Ev Elk]. apply andb_prop in Ev. destruct Ev as [Ev _]. apply looksLikeV2_iff in Elk.
      destruct HJ as [[A B D D' H I K L M N' O] [C E F G G' P]]. destruct (M Ev) as (m1 & m2 & m3).
      set (x := as_buf s ++ d) in *.
      assert (Hleg : as_cb s = true -> legal v2 ((as_log s ++ [SRecv d]) ++ [SV2 x]) (SHsFallback (x ++ []))).
      { intros Ecb. rewrite app_nil_r. right. exists (as_log s ++ [SRecv d]). split; [reflexivity|]. split; [exact m1|]. rewrite takenb_app, recvd_app, m3, L.
        2:{ destruct (existsb is_fb (as_log s)) eqn:X; [destruct (K eq_refl); congruence|reflexivity]. }
        rewrite m3. cbn [app]. split; [reflexivity|]. split; [|exact Elk]. unfold x, recvd. cbn. rewrite app_nil_r. reflexivity. }
      unfold sfallback. projs. destruct (as_cb s) eqn:Ecb.
      * apply J_down. cbn [b2n] in A. specialize (Hleg eq_refl). rewrite app_nil_r in Hleg.
        split; constructor; projs; rewrite ?machine_snoc, ?cnt_app, ?cnt_one, ?recvd_app, ?takenb_app, ?taken_app, ?settled_app, ?exb_app; cbn; rewrite ?app_nil_r, ?orb_true_r, ?orb_false_r, ?N.add_0_r; auto; try discriminate; try congruence.
        apply all_snoc; [|exact Hleg]. apply all_snoc; [apply all_snoc; [exact O|exact Logic.I]|exact Logic.I].
      * split; constructor; projs; rewrite ?machine_snoc, ?cnt_app, ?cnt_one, ?recvd_app, ?takenb_app, ?taken_app, ?settled_app, ?exb_app; cbn; rewrite ?app_nil_r, ?orb_true_r, ?orb_false_r, ?N.add_0_r, ?Ecb; auto; try discriminate; try congruence.
        apply all_snoc; [apply all_snoc; [exact O|exact Logic.I]|exact Logic.I].
    + destruct HJ as [[A B D D' H I K L M N' O] [C E F G G' P]].
      split; constructor; projs; rewrite ?machine_snoc, ?cnt_app, ?cnt_one, ?recvd_app, ?takenb_app, ?taken_app, ?settled_app, ?exb_app; cbn; rewrite ?app_nil_r, ?orb_true_r, ?orb_false_r, ?N.add_0_r; auto; try discriminate.
      * rewrite since_snoc_quiet by reflexivity. exact D.
      * intros X. rewrite (L X), app_assoc. reflexivity.
      * congruence.
      * apply all_snoc; [exact O|exact Logic.I].
  - (* take *) intros (Ht & Hw & Hn). destruct HJ as [[A B D D' H I K L M N' O] [C E F G G' P]].
    split; constructor; projs; rewrite ?machine_snoc, ?cnt_app, ?cnt_one, ?recvd_app, ?takenb_app, ?taken_app, ?settled_app, ?exb_app; cbn; rewrite ?app_nil_r, ?orb_true_r, ?orb_false_r, ?N.add_0_r; auto; try discriminate.
    + rewrite since_snoc_quiet by reflexivity. exact D.
    + intros X. rewrite (L X), <- app_assoc, takeN_dropN. reflexivity.
    + intros X. destruct (M X) as (_ & Y & _). congruence.
    + intros X. destruct (N' X) as (_ & Y & _). congruence.
    + apply all_snoc; [exact O|exact Logic.I].
  - (* app *) intros (Ht & Hw & Hn). destruct (as_pend s) as [|w r] eqn:Ep; [contradiction|]. unfold sterminal in Ht. apply orb_false_elim in Ht. destruct Ht as [Hx Ht].
    destruct (as_term s) eqn:Et; try discriminate Ht. destruct HJ as [[A B D D' H I K L M N' O] [C E F G G' P]].
    split; constructor; projs; rewrite ?machine_snoc, ?cnt_app, ?cnt_one, ?recvd_app, ?takenb_app, ?taken_app, ?settled_app, ?exb_app; cbn; rewrite ?app_nil_r, ?orb_true_r, ?orb_false_r, ?N.add_0_r; auto; try congruence.
    + rewrite since_snoc_quiet by reflexivity. exact D.
    + rewrite H, Ep, <- app_assoc. reflexivity.
    + apply all_snoc; [exact O|]. split; [apply F; exact Hx|congruence].
  - (* action *) intros Ha. unfold sact_visit.
    destruct a as [early| |hello| |t| | ].
    + assert (HQ : J v2 (ssay s (SAct (ASuccess early) q))) by (apply J_quiet; [reflexivity|exact HJ]).
      destruct (sgood (ssay s (SAct (ASuccess early) q)) q) eqn:Eg; [|apply J_broken; exact HQ].
      projs. destruct (as_cb s) eqn:Ecb; [|exact HQ]. apply J_down. apply (J_cb v2 _ SHsOk (as_buf s) HQ); [exact Ecb|left; auto|].
      exists (as_log s), early, q. unfold sgood, sterminal in Eg. projs. destruct HJ as [[A B D D' H I K L M N' O] [C E F G G' P]].
      destruct (as_ext s) eqn:Ex; [discriminate Eg|]. destruct (as_term s) eqn:Et; try discriminate Eg.
      split; [reflexivity|]. split; [exact Eg|]. split; [exact I|].
      destruct (existsb is_fail (as_log s)) eqn:X; [|reflexivity]. destruct (D' eq_refl); congruence.
    + assert (HQ : J v2 (ssay s (SAct AError q))) by (apply J_quiet; [reflexivity|exact HJ]).
      projs. destruct (as_cb s) eqn:Ecb; [|apply J_fail0; exact HQ].
      destruct HQ as [[A B D D' H I K L M N' O] [C E F G G' P]]. projs. rewrite Ecb in A. cbn [b2n] in A.
      assert (Hf : legal v2 (as_log s ++ [SAct AError q]) SHsErr) by (right; eauto).
      set (L0 := as_log s ++ [SAct AError q]) in *.
      split; constructor; projs; fold L0; rewrite ?machine_snoc, ?cnt_app, ?cnt_one, ?recvd_app, ?takenb_app, ?taken_app, ?settled_app, ?exb_app; cbn; rewrite ?app_nil_r, ?orb_true_r, ?orb_false_r, ?N.add_0_r; auto; try congruence.
      * intros X. split; [reflexivity|]. apply (K X).
      * intros X. destruct (N' X) as (_ & Y). split; [reflexivity|exact Y].
      * apply all_snoc; assumption.
    + apply J_fallback; [apply J_quiet; [reflexivity|exact HJ]|]. projs. intros Ecb. left. exists (as_log s), hello, q, (as_buf s). split; [reflexivity|]. split; [|reflexivity].
      destruct HJ as [HJ _]. apply (j_buf _ _ HJ). destruct (existsb is_fb (as_log s)) eqn:X; [|reflexivity]. destruct (j_fb _ _ HJ X). congruence.
    + assert (HQ : J v2 (ssay s (SAct AEnd q))) by (apply J_quiet; [reflexivity|exact HJ]).
      projs. destruct (as_cb s || sq_conn q); [apply J_broken; exact HQ|]. destruct (sq_eot q); [apply J_down; exact HQ|apply J_broken; exact HQ].
    + destruct HJ as [[A B D D' H I K L M N' O] [C E F G G' P]].
      split; constructor; projs; rewrite ?machine_snoc, ?cnt_app, ?cnt_one, ?recvd_app, ?takenb_app, ?taken_app, ?settled_app, ?exb_app; cbn; rewrite ?app_nil_r, ?orb_true_r, ?orb_false_r, ?N.add_0_r; auto; try congruence.
      * rewrite since_snoc_quiet by reflexivity. exact D.
      * apply all_snoc; [exact O|exact Logic.I].
    + assert (HQ : J v2 (ssay s (SAct AWait q))) by (apply J_quiet; [reflexivity|exact HJ]).
      destruct HQ as [[A B D D' H I K L M N' O] [C E F G G' P]]. split; constructor; projs; auto.
      * intros X. destruct (M X) as (x1 & x2 & x3). auto.
      * intros X. destruct (N' X) as (x1 & x2 & x3). auto.
    + apply J_down, J_quiet; [reflexivity|exact HJ].
  - (* broken *) intros _. apply J_broken, HJ.
  - (* close *) intros _. assert (HQ : J v2 (ssay s (SClose false q))) by (apply J_quiet; [reflexivity|exact HJ]).
    destruct (sq_good q); [apply J_down, J_quiet; [reflexivity|exact HQ]|apply J_fail0; exact HQ].
  - (* closeNow *) intros _. assert (HQ : J v2 (ssay s (SClose true q))) by (apply J_quiet; [reflexivity|exact HJ]).
    destruct (sq_good q); [|apply J_fail0; exact HQ]. apply (J_quiet v2 _ SImmediate) in HQ; [|reflexivity].
    destruct HQ as [[A B D D' H I K L M N' O] [C E F G G' P]]. split; constructor; projs; auto.
  - (* return *) intros _. destruct (as_stack s) as [|f k] eqn:Es; [exact HJ|].
    destruct HJ as [HJ0 HJ1]. destruct f as [|c|c|c].
    + destruct HJ0 as [A B D D' H I K L M N' O], HJ1 as [C E F G G' P]. rewrite Es in *. split; constructor; projs; auto.
    + assert (HF : existsb is_fail (as_log s) = true) by (apply (j_hf _ HJ1); left; rewrite Es; reflexivity).
      assert (HP : existsb is_accept (as_log s) = false -> existsb isHsErr k = false) by (intros X; pose proof (j_ph _ HJ1 X) as Y; rewrite Es in Y; discriminate Y).
      apply J_move; [exact HJ0|exact HF| |exact HP]. intros Hx. destruct HJ1 as [C E F G G' P]. rewrite Es in *. constructor; projs; auto.
    + assert (HF : existsb is_fail (as_log s) = true) by (apply (j_hf _ HJ1); right; left; rewrite Es; reflexivity).
      assert (Hx : as_ext s = true) by (apply (j_hf2 _ HJ1); rewrite Es; reflexivity).
      change (as_pend (sset_stack s k)) with (as_pend s). replace (sset_stack s k) with (sset_ext (sset_stack s k) true) by (unfold sset_ext, sset_stack; projs; rewrite Hx; reflexivity).
      apply J_flush; [exact HJ0|exact HF|]. intros X. pose proof (j_ph _ HJ1 X) as Y. rewrite Es in Y. exact Y.
    + destruct HJ1 as [C E F G G' P]. rewrite Es in *. apply J_fail; assumption.
Qed.
Lemma hist_J v2 s : shist v2 s -> J v2 s.
Proof. induction 1; [apply J_init|apply J_step; assumption]. Qed.

(** ** Theorems *)
(** The handshake callback is called at most once for an accept: the calls made, and the one still to be made, are together as many as accepts. *)
Theorem C77_once v2 s : shist v2 s -> cnt is_outcome (as_log s) + (if as_cb s then 1 else 0) = cnt is_accept (as_log s) /\ cnt is_accept (as_log s) <= 1.
Proof. intros H. apply hist_J in H. destruct H as [H _]. split; [apply (j_one _ _ H)|]. rewrite (j_acc _ _ H). unfold b2n. destruct (existsb _ _); lia. Qed.
(** Every event of every history is as the specification says. *)
Theorem C77_history v2 s : shist v2 s -> all_events (legal v2) (as_log s).
Proof. intros H. apply hist_J in H. apply H. Qed.
(** After an error, when all calls have returned: the handshake callback has been called (once, C77_once), no write is left waiting, and the transport is not
    good any more, whatever the transport below says. *)
Theorem C77_error v2 s : shist v2 s -> as_stack s = [] ->
  (existsb is_fail (since_accept (as_log s)) = true -> cnt is_outcome (as_log s) = 1) /\
  (existsb is_fail (as_log s) = true -> as_pend s = [] /\ taken (as_log s) = settled (as_log s) /\ forall q, sgood s q = false).
Proof.
  intros H Es. destruct (hist_J _ _ H) as [H0 H1]. split.
  - intros X. pose proof (j_fail2 _ _ H0 X) as Y. pose proof (j_one _ _ H0) as A. rewrite Y in A. cbn [b2n] in A. rewrite N.add_0_r in A. rewrite A, (j_acc _ _ H0).
    destruct (existsb is_accept (as_log s)) eqn:Z; [reflexivity|]. rewrite since_none in X by exact Z. discriminate X.
  - intros X. destruct (j_fail _ H1 X) as [Y|Y]; [|rewrite Es in Y; discriminate Y]. destruct (j_pend _ H1 Y) as [Z|Z]; [|rewrite Es in Z; discriminate Z].
    split; [exact Z|]. split; [rewrite (j_wr _ _ H0), Z, app_nil_r; reflexivity|]. intros q. unfold sgood, sterminal. rewrite Y. reflexivity.
Qed.
(** Writes have at most one outcome, in the order in which they were taken: those given to the state machine, then those that failed, then those
    waiting.  A write is taken exactly if the transport is good. *)
Definition app_of (L : list sev) : list wr := concat (map (fun e => match e with SApp w => [w] | _ => [] end) L).
Definition err_of (L : list sev) : list wr := concat (map (fun e => match e with SErr w => [w] | _ => [] end) L).
Lemma settled_split v2 L : all_events (legal v2) L -> settled L = app_of L ++ err_of L.
Proof.
  induction L as [|e L IH] using rev_ind; intros A; [reflexivity|].
  assert (A0 : all_events (legal v2) L). { intros L1 x L2 E. apply (A L1 x (L2 ++ [e])). rewrite E, <- app_assoc. reflexivity. }
  specialize (A L e [] eq_refl). unfold settled, app_of, err_of in *. rewrite !map_app, !concat_app. rewrite (IH A0). cbn [map concat].
  destruct e; rewrite ?app_nil_r; try reflexivity.
  - destruct A as [A _]. assert (concat (map (fun e => match e with SErr w0 => [w0] | _ => [] end) L) = []) as ->; [|rewrite !app_nil_r; reflexivity].
    clear -A. induction L as [|x r IH]; [reflexivity|]. cbn in *. destruct x; cbn in A; try discriminate A; apply IH; exact A.
  - rewrite <- app_assoc. reflexivity.
Qed.
Lemma swrites_app L M : swrites (L ++ M) = swrites L ++ swrites M.
Proof. unfold swrites. rewrite map_app, concat_app. reflexivity. Qed.
Lemma taken_sub L : exists r, Permutation (swrites L) (taken L ++ r).
Proof.
  induction L as [|e L [r IH]]; [exists []; constructor|]. unfold swrites, taken in *. cbn [map concat].
  destruct e; cbn [app]; try (exists r; exact IH).
  - exists r. constructor. exact IH.
  - exists (w :: r). apply Permutation_cons_app. exact IH.
Qed.
Lemma swrites_sflush c l : forall s, swrites (as_log (sflush s l c)) = swrites (as_log s).
Proof.
  induction l as [|w r IH]; intros s; cbn [sflush].
  - projs. rewrite swrites_app. cbn. apply app_nil_r.
  - destruct (wr_cb w); [projs; rewrite swrites_app; cbn; apply app_nil_r|]. rewrite IH. projs. rewrite swrites_app. cbn. apply app_nil_r.
Qed.
Lemma swrites_move s c : swrites (as_log (smove s c)) = swrites (as_log s).
Proof. unfold smove. destruct (as_ext s); [projs; rewrite swrites_app; cbn; apply app_nil_r|rewrite swrites_sflush; reflexivity]. Qed.
Lemma swrites_all s c : swrites (as_log (sdeliverAll s c)) = swrites (as_log s).
Proof.
  unfold sdeliverAll. projs. destruct (as_cb s); [projs; rewrite !swrites_app; cbn; rewrite !app_nil_r; reflexivity|]. rewrite swrites_move. projs. rewrite swrites_app. cbn. apply app_nil_r.
Qed.
Lemma swrites_fb s h : swrites (as_log (sfallback s h)) = swrites (as_log s).
Proof. unfold sfallback. destruct (as_cb s); projs; [rewrite swrites_app; cbn; apply app_nil_r|reflexivity]. Qed.
Lemma swrites_step v2 s m : swrites (as_log (sstep v2 s m)) = swrites (as_log s) ++ match m with MWrite w _ => [w] | _ => [] end.
Proof.
  assert (Q : forall e, (forall w, e <> SWrite w) -> (forall w, e <> SRefuse w) -> swrites (as_log s ++ [e]) = swrites (as_log s)).
  { intros e H1 H2. rewrite swrites_app. destruct e; try (cbn; apply app_nil_r); exfalso; [eapply H1|eapply H2]; reflexivity. }
  assert (TE : forall x, swrites (as_log (stransportError x)) = swrites (as_log x)).
  { intros x. unfold stransportError. rewrite swrites_all. projs. rewrite swrites_app. cbn. apply app_nil_r. }
  destruct m as [|w q|d busy|n| |a q| |q|q| ]; cbn [sstep]; rewrite ?app_nil_r.
  - projs. apply Q; discriminate.
  - unfold swrite. destruct (sgood s q); [|destruct (wr_cb w)]; projs; rewrite swrites_app; reflexivity.
  - unfold snewData. destruct (_ && _)%bool; [rewrite swrites_fb|]; projs; rewrite ?swrites_app; cbn; rewrite !app_nil_r; reflexivity.
  - projs. apply Q; discriminate.
  - destruct (as_pend s); [reflexivity|]. projs. apply Q; discriminate.
  - unfold sact_visit. destruct a as [early| |hello| |t| | ]; projs; try (apply Q; discriminate).
    + destruct (sgood _ q); [destruct (as_cb s)|]; projs; rewrite ?TE; projs; rewrite ?swrites_app; cbn; rewrite ?app_nil_r; reflexivity.
    + destruct (as_cb s); [|rewrite swrites_all]; projs; rewrite ?swrites_app; cbn; rewrite ?app_nil_r; reflexivity.
    + rewrite swrites_fb. projs. apply Q; discriminate.
    + destruct (as_cb s || sq_conn q)%bool; [|destruct (sq_eot q)]; rewrite ?TE; projs; apply Q; discriminate.
  - apply TE.
  - destruct (sq_good q); rewrite ?swrites_all; projs; rewrite ?swrites_app; cbn; rewrite ?app_nil_r; reflexivity.
  - destruct (sq_good q); rewrite ?swrites_all; projs; rewrite ?swrites_app; cbn; rewrite ?app_nil_r; reflexivity.
  - destruct (as_stack s) as [|f k]; [reflexivity|]. destruct f; rewrite ?swrites_move, ?swrites_sflush, ?swrites_all; reflexivity.
Qed.
Lemma hist_names v2 s : shist v2 s -> NoDup (map wr_id (swrites (as_log s))).
Proof.
  induction 1 as [|s m H IH Ha]; [constructor|]. rewrite swrites_step, map_app. destruct m; cbn [map]; rewrite ?app_nil_r; try exact IH.
  cbn [sallowed] in Ha. clear -IH Ha. revert IH Ha. generalize (map wr_id (swrites (as_log s))) as l. induction l as [|x l IH]; intros H1 H2; cbn; [constructor; [intros []|constructor]|].
  inversion H1; subst. constructor.
  - intros X. apply in_app_or in X. destruct X as [X|[X|[]]]; [contradiction|]. apply H2. left. symmetry. exact X.
  - apply IH; [assumption|]. intros X. apply H2. right. exact X.
Qed.
Theorem C77_writes v2 s : shist v2 s ->
  taken (as_log s) = app_of (as_log s) ++ err_of (as_log s) ++ as_pend s /\ NoDup (map wr_id (taken (as_log s))).
Proof.
  intros H. destruct (hist_J _ _ H) as [H0 _]. split.
  - rewrite (j_wr _ _ H0), (settled_split v2) by apply H0. rewrite <- app_assoc. reflexivity.
  - pose proof (hist_names _ _ H) as N. destruct (taken_sub (as_log s)) as [r P]. apply (Permutation_map wr_id) in P.
    apply (Permutation_NoDup P) in N. rewrite map_app in N. clear -N. induction (map wr_id (taken (as_log s))) as [|x l IH]; [constructor|].
    cbn in N. inversion N; subst. constructor; [intros X; apply H1, in_or_app; left; exact X|apply IH; assumption].
Qed.
Theorem C77_write v2 s w q : shist v2 s -> sallowed s (MWrite w q) ->
  let s' := sstep v2 s (MWrite w q) in
  if sgood s q then as_log s' = as_log s ++ [SWrite w] else as_log s' = as_log s ++ [SRefuse w].
Proof. intros _ _. cbn [sstep]. unfold swrite. destruct (sgood s q); [reflexivity|]. destruct (wr_cb w); reflexivity. Qed.

(** Nothing but accept and arriving data changes what has been accepted or received, and checkV2Hello_. *)
Definition is_recv (e : sev) : bool := match e with SRecv _ => true | _ => false end.
Definition acc (s : asv) : bool * bool * bool := (as_v2 s, existsb is_accept (as_log s), existsb is_recv (as_log s)).
Lemma acc_sflush c l : forall s, acc (sflush s l c) = acc s.
Proof.
  unfold acc. induction l as [|w r IH]; intros s; cbn [sflush].
  - projs. rewrite !existsb_app. cbn. rewrite !orb_false_r. reflexivity.
  - destruct (wr_cb w); [|rewrite IH]; projs; rewrite !existsb_app; cbn; rewrite !orb_false_r; reflexivity.
Qed.
Lemma acc_move s c : acc (smove s c) = acc s.
Proof. unfold smove. destruct (as_ext s); [|rewrite acc_sflush; reflexivity]. unfold acc. projs. rewrite !existsb_app. cbn. rewrite !orb_false_r. reflexivity. Qed.
Lemma acc_say s e : is_accept e = false -> is_recv e = false -> acc (ssay s e) = acc s.
Proof. intros A B. unfold acc. projs. rewrite !existsb_app. cbn. rewrite A, B, !orb_false_r. reflexivity. Qed.
Lemma acc_all s c : acc (sdeliverAll s c) = acc s.
Proof.
  unfold sdeliverAll. projs. destruct (as_cb s); [|rewrite acc_move, acc_say by reflexivity; reflexivity].
  change (acc (ssay (ssay s SFail) SHsErr) = acc s). rewrite !acc_say by reflexivity. reflexivity.
Qed.
Lemma acc_fb s h : acc (sfallback s h) = acc s.
Proof. unfold sfallback. destruct (as_cb s); [|reflexivity]. change (acc (ssay s (SHsFallback (h ++ as_buf s))) = acc s). apply acc_say; reflexivity. Qed.
Lemma acc_step v2 s m : (match m with MAccept | MData _ _ => False | _ => True end) -> acc (sstep v2 s m) = acc s.
Proof.
  assert (TE : forall x, acc (stransportError x) = acc x). { intros x. unfold stransportError. rewrite acc_all, acc_say by reflexivity. reflexivity. }
  destruct m as [|w q|d busy|n| |a q| |q|q| ]; cbn [sstep]; intros X; try contradiction; clear X.
  - unfold swrite. destruct (sgood s q); [|destruct (wr_cb w)]; [change (acc (ssay s (SWrite w)) = acc s)|change (acc (ssay s (SRefuse w)) = acc s)|change (acc (ssay s (SRefuse w)) = acc s)]; apply acc_say; reflexivity.
  - change (acc (ssay s (STake (takeN n (as_buf s)))) = acc s). apply acc_say; reflexivity.
  - destruct (as_pend s); [reflexivity|]. change (acc (ssay s (SApp w)) = acc s). apply acc_say; reflexivity.
  - unfold sact_visit. assert (Q : acc (ssay s (SAct a q)) = acc s) by (apply acc_say; reflexivity).
    destruct a as [early| |hello| |t| | ]; try exact Q.
    + destruct (sgood _ q); [destruct (as_cb _)|]; [change (acc (ssay (ssay s (SAct (ASuccess early) q)) SHsOk) = acc s); rewrite acc_say by reflexivity; exact Q|exact Q|rewrite TE; exact Q].
    + destruct (as_cb _); [change (acc (ssay (ssay s (SAct AError q)) SHsErr) = acc s); rewrite acc_say by reflexivity; exact Q|rewrite acc_all; exact Q].
    + rewrite acc_fb. exact Q.
    + destruct (_ || _)%bool; [rewrite TE; exact Q|]. destruct (sq_eot q); [exact Q|rewrite TE; exact Q].
  - apply TE.
  - destruct (sq_good q); [change (acc (ssay (ssay s (SClose false q)) SImmediate) = acc s); rewrite !acc_say by reflexivity; reflexivity|rewrite acc_all, acc_say by reflexivity; reflexivity].
  - destruct (sq_good q); [change (acc (ssay (ssay s (SClose true q)) SImmediate) = acc s); rewrite !acc_say by reflexivity; reflexivity|rewrite acc_all, acc_say by reflexivity; reflexivity].
  - destruct (as_stack s) as [|f k]; [reflexivity|]. destruct f; rewrite ?acc_move, ?acc_sflush, ?acc_all; reflexivity.
Qed.
Lemma v2_kept v2 s : shist v2 s -> existsb is_accept (as_log s) = true -> existsb is_recv (as_log s) = false -> as_v2 s = v2.
Proof.
  induction 1 as [|s m H IH A]; [discriminate|]. intros Ha Hn.
  assert (G : (match m with MAccept | MData _ _ => False | _ => True end) -> as_v2 (sstep v2 s m) = v2).
  { intros X. pose proof (acc_step v2 s m X) as E. unfold acc in E. injection E as E1 E2 E3. rewrite E1. apply IH; congruence. }
  destruct m; try (apply G; exact Logic.I).
  - reflexivity.
  - exfalso. cbn [sstep] in Hn. unfold snewData in Hn. projs. destruct (_ && _)%bool in Hn; projs.
    + match type of Hn with existsb is_recv (as_log (sfallback ?x ?h)) = _ => pose proof (acc_fb x h) as E end. unfold acc in E. injection E as _ _ E3. rewrite E3 in Hn. projs.
      rewrite !existsb_app in Hn. cbn in Hn. rewrite orb_true_r in Hn. discriminate Hn.
    + rewrite existsb_app in Hn. cbn in Hn. rewrite orb_true_r in Hn. discriminate Hn.
Qed.
(** The first bytes that arrive after accept, if they look like an SSLv2 ClientHello and fallback is enabled, are handed to the fallback at once. *)
Theorem C77_v2 s d : shist true s -> as_cb s = true -> existsb is_recv (as_log s) = false -> v2_hello d ->
  as_log (sstep true s (MData d false)) = as_log s ++ [SRecv d; SV2 d; SHsFallback d].
Proof.
  intros H Hc Hn Hd. destruct (hist_J _ _ H) as [H0 _].
  assert (Ha : existsb is_accept (as_log s) = true). { destruct (existsb is_accept (as_log s)) eqn:X; [reflexivity|]. destruct (j_pre _ _ H0 X); congruence. }
  assert (V : as_v2 s = true) by (apply (v2_kept true s H Ha Hn)).
  assert (B : as_buf s = []).
  { assert (X : existsb is_fb (as_log s) = false). { destruct (existsb is_fb (as_log s)) eqn:X; [|reflexivity]. destruct (j_fb _ _ H0 X); congruence. }
    pose proof (j_buf _ _ H0 X) as Y. assert (Hr : recvd (as_log s) = []).
    { clear -Hn. unfold recvd. induction (as_log s) as [|e r IH]; [reflexivity|]. cbn in *. destruct e; cbn in Hn; try discriminate Hn; apply IH; exact Hn. }
    rewrite Hr in Y. symmetry in Y. apply app_eq_nil in Y. apply Y. }
  apply looksLikeV2_iff in Hd. cbn [sstep]. unfold snewData. projs. rewrite V, B. cbn [app]. rewrite Hd. cbn [andb negb]. unfold sfallback. projs. rewrite Hc. projs.
  rewrite app_nil_r, <- !app_assoc. reflexivity.
Qed.
Theorem C77_v2_disabled s d b : shist false s -> as_log (sstep false s (MData d b)) = as_log s ++ [SRecv d].
Proof.
  intros H. destruct (hist_J _ _ H) as [H0 _]. assert (V : as_v2 s = false). { destruct (as_v2 s) eqn:X; [|reflexivity]. destruct (j_v2 _ _ H0 X) as [Y _]. discriminate Y. }
  cbn [sstep]. unfold snewData. projs. rewrite V. reflexivity.
Qed.

(** ** What counts as a failure: the transport broke, the state machine reported an error, closeNow, closing a broken transport, a success reported
    over a transport that is not good, the end of the data if nobody takes over. *)
Definition is_trigger (e : sev) : bool :=
  match e with
  | SBroken | SAct AError _ | SClose true _ => true
  | SClose false q => negb (sq_good q)
  | SAct (ASuccess _) q => negb (sq_good q)
  | SAct AEnd q => sq_conn q || negb (sq_eot q)
  | _ => false
  end.
Definition isAll (f : sframe) : bool := match f with KAll _ => true | _ => false end.
Definition Tr (L : list sev) (k : list sframe) : Prop := existsb is_trigger L = true -> existsb is_fail L = true \/ existsb isAll k = true.
Definition TR (s : asv) : Prop := Tr (as_log s) (as_stack s) /\ Tr (since_accept (as_log s)) (as_stack s).
Lemma Tr_ext L k new k' : Tr L k -> (existsb isAll k = true -> existsb isAll k' = true \/ existsb is_fail new = true) ->
  (existsb is_trigger new = true -> existsb is_fail new = true \/ existsb isAll k' = true) -> Tr (L ++ new) k'.
Proof.
  unfold Tr. intros H A B. rewrite !exb_app. intros X. apply orb_prop in X. destruct X as [X|X].
  - destruct (H X) as [Y|Y]; [left; rewrite Y; reflexivity|]. destruct (A Y) as [Z|Z]; [right; exact Z|left; rewrite Z; apply orb_true_r].
  - destruct (B X) as [Z|Z]; [left; rewrite Z; apply orb_true_r|right; exact Z].
Qed.
Lemma TR_ext s s' new : TR s -> as_log s' = as_log s ++ new -> existsb is_accept new = false ->
  (existsb isAll (as_stack s) = true -> existsb isAll (as_stack s') = true \/ existsb is_fail new = true) ->
  (existsb is_trigger new = true -> existsb is_fail new = true \/ existsb isAll (as_stack s') = true) -> TR s'.
Proof.
  intros [H1 H2] E Ha A B. unfold TR. rewrite E. split; [apply (Tr_ext _ (as_stack s)); assumption|].
  destruct (existsb is_accept (as_log s)) eqn:X.
  - rewrite since_app by exact X. apply (Tr_ext _ (as_stack s)); assumption.
  - rewrite since_none_app by exact X. rewrite since_none by exact Ha. intros Y. discriminate Y.
Qed.
Lemma TR_say s e : TR s -> is_accept e = false -> is_trigger e = false -> TR (ssay s e).
Proof. intros H A B. apply (TR_ext s _ [e] H); cbn; rewrite ?A, ?B, ?orb_false_r; auto; discriminate. Qed.
Lemma TR_fields s cb t e v w b p : TR s -> TR (mkAsv cb t e v w b p (as_stack s) (as_log s)).
Proof. intros H. exact H. Qed.
Lemma TR_call s f : TR s -> TR (scall s f).
Proof. intros H. apply (TR_ext s _ [] H); cbn; rewrite ?app_nil_r; auto. intros X. rewrite X. rewrite orb_true_r. auto. Qed.
Lemma errs_quiet l : existsb is_accept (map SErr l) = false /\ existsb is_trigger (map SErr l) = false.
Proof. induction l as [|x r IH]; [split; reflexivity|exact IH]. Qed.
Lemma TR_flush s l c : TR s -> TR (sflush s l c).
Proof.
  intros H. destruct (sflush_cases c l s) as [E|(p & w & r & _ & E)]; rewrite E; apply TR_call.
  - apply TR_say; [|reflexivity|reflexivity]. apply (TR_ext s _ (map SErr l) H); projs; auto; destruct (errs_quiet l) as [A B]; [exact A|rewrite B; discriminate].
  - apply (TR_ext s _ (map SErr (p ++ [w])) H); projs; auto; destruct (errs_quiet (p ++ [w])) as [A B]; [exact A|rewrite B; discriminate].
Qed.
Lemma TR_move s c : TR s -> TR (smove s c).
Proof. intros H. unfold smove. destruct (as_ext s); [apply TR_call, TR_say; auto|apply TR_flush, TR_fields, H]. Qed.
(** [s] after events whose failure is being delivered *)
Lemma TR_all s s' new c : TR s -> as_log s' = as_log s ++ new -> existsb is_accept new = false -> TR (sdeliverAll s' c).
Proof.
  intros H E Ha. unfold sdeliverAll.
  assert (Q : forall x, as_log x = as_log s ++ new ++ [SFail] -> TR x).
  { intros x Ex. apply (TR_ext s _ (new ++ [SFail]) H); auto; rewrite !exb_app; [rewrite Ha; reflexivity|right|left]; cbn [existsb is_fail orb]; apply orb_true_r. }
  projs. destruct (as_cb s').
  - apply TR_call, TR_say; [|reflexivity|reflexivity]. apply Q. projs. rewrite E, <- app_assoc. reflexivity.
  - apply TR_move, Q. projs. rewrite E, <- app_assoc. reflexivity.
Qed.
Lemma TR_broken s s' new : TR s -> as_log s' = as_log s ++ new -> existsb is_accept new = false -> TR (stransportError s').
Proof.
  intros H E Ha. unfold stransportError. apply (TR_all s _ (new ++ [SBroken]) true H); [projs; rewrite E, <- app_assoc; reflexivity|].
  rewrite exb_app, Ha. reflexivity.
Qed.
Lemma TR_step v2 s m : TR s -> sallowed s m -> TR (sstep v2 s m).
Proof.
  intros H Ha. destruct m as [|w q|d busy|n| |a q| |q|q| ]; cbn [sstep sallowed] in *.
  - apply TR_call. unfold TR. projs. rewrite since_none_app by exact Ha. cbn. split; [|intros X; discriminate X].
    apply (Tr_ext _ (as_stack s)); [apply H|auto|discriminate].
  - unfold swrite. destruct (sgood s q); [apply TR_say; auto; apply TR_fields, H|]. destruct (wr_cb w); [apply TR_call|]; apply TR_say; auto.
  - assert (A : TR (ssay s (SRecv d))) by (apply TR_say; auto). unfold snewData. projs. destruct (as_v2 s && negb busy && looksLikeV2 (as_buf s ++ d)).
    + unfold sfallback. projs. destruct (as_cb s).
      * apply TR_call, TR_say; auto. apply (TR_fields (ssay (ssay s (SRecv d)) (SV2 (as_buf s ++ d)))). apply TR_say; auto.
      * apply (TR_fields (ssay (ssay s (SRecv d)) (SV2 (as_buf s ++ d)))). apply TR_say; auto.
    + apply (TR_fields (ssay s (SRecv d))), A.
  - apply (TR_fields (ssay s (STake (takeN n (as_buf s))))). apply TR_say; auto.
  - destruct (as_pend s); [exact H|]. apply TR_say; auto; apply TR_fields, H.
  - unfold sact_visit. destruct a as [early| |hello| |t| | ].
    + change (sgood (ssay s (SAct (ASuccess early) q)) q) with (sgood s q). destruct (sgood s q) eqn:G.
      * assert (A : TR (ssay s (SAct (ASuccess early) q))). { apply TR_say; auto. cbn. unfold sgood in G. apply andb_prop in G. destruct G as [_ ->]. reflexivity. }
        destruct (as_cb _); [apply TR_call, TR_say; [apply (TR_fields _ _ _ _ _ _ _ _ A)|reflexivity|reflexivity]|exact A].
      * apply (TR_broken s _ [SAct (ASuccess early) q] H); reflexivity.
    + destruct (as_cb _).
      * apply (TR_ext s _ [SAct AError q; SHsErr] H); projs; try reflexivity; [rewrite <- app_assoc; reflexivity|left; reflexivity|right; reflexivity].
      * apply (TR_all s _ [SAct AError q] true H); reflexivity.
    + assert (A : TR (ssay s (SAct (AFallback hello) q))) by (apply TR_say; auto). unfold sfallback. destruct (as_cb _); [|exact A].
      apply TR_call, TR_say; [apply (TR_fields _ _ _ _ _ _ _ _ A)|reflexivity|reflexivity].
    + destruct (as_cb _ || sq_conn q) eqn:E1; [apply (TR_broken s _ [SAct AEnd q] H); reflexivity|].
      destruct (sq_eot q) eqn:E2; [|apply (TR_broken s _ [SAct AEnd q] H); reflexivity].
      apply TR_call, TR_say; auto. cbn. rewrite E2. apply orb_false_elim in E1. destruct E1 as [_ ->]. reflexivity.
    + apply (TR_fields (ssay s (SAct (AMutate t) q))). apply TR_say; auto.
    + apply (TR_fields (ssay s (SAct AWait q))). apply TR_say; auto.
    + apply TR_call, TR_say; auto.
  - apply (TR_broken s s [] H); [rewrite app_nil_r; reflexivity|reflexivity].
  - destruct (sq_good q) eqn:G.
    + apply TR_call, TR_say; auto. apply TR_say; auto. cbn. rewrite G. reflexivity.
    + apply (TR_all s _ [SClose false q] false H); reflexivity.
  - destruct (sq_good q) eqn:G.
    + apply (TR_ext s _ [SClose true q; SImmediate] H); projs; try reflexivity; [rewrite <- app_assoc; reflexivity|left; reflexivity|right; reflexivity].
    + apply (TR_all s _ [SClose true q] false H); reflexivity.
  - destruct (as_stack s) as [|f k] eqn:Es; [exact H|].
    assert (A : isAll f = false -> TR (sset_stack s k)).
    { intros X. apply (TR_ext s _ [] H); projs; rewrite ?app_nil_r; auto. rewrite Es. cbn. rewrite X. auto. }
    destruct f as [|close|close|close]; [apply A; reflexivity|apply TR_move, A; reflexivity|apply TR_flush, A; reflexivity|].
    apply (TR_all s _ [] close H); [rewrite app_nil_r; reflexivity|reflexivity].
Qed.
(** Every failure is delivered, at the latest when all calls have returned. *)
Theorem C77_failure v2 s : shist v2 s -> as_stack s = [] ->
  (existsb is_trigger (since_accept (as_log s)) = true -> cnt is_outcome (as_log s) = 1) /\
  (existsb is_trigger (as_log s) = true -> as_pend s = [] /\ taken (as_log s) = settled (as_log s) /\ forall q, sgood s q = false).
Proof.
  intros H Es. assert (T : TR s).
  { clear Es. induction H as [|s m H IH Ha]; [split; intros X; discriminate X|apply TR_step; assumption]. }
  destruct (C77_error v2 s H Es) as [A B]. destruct T as [T1 T2]. rewrite Es in T1, T2. split.
  - intros X. apply A. destruct (T2 X) as [Y|Y]; [exact Y|discriminate Y].
  - intros X. apply B. destruct (T1 X) as [Y|Y]; [exact Y|discriminate Y].
Qed.

(** ** Concrete histories, and what does not hold *)
Fixpoint srun (v2 : bool) (s : asv) (l : list smv) : asv := match l with [] => s | m :: r => srun v2 (sstep v2 s m) r end.
Fixpoint sok (v2 : bool) (s : asv) (l : list smv) : Prop := match l with [] => True | m :: r => sallowed s m /\ sok v2 (sstep v2 s m) r end.
Lemma srun_hist v2 l : forall s, shist v2 s -> sok v2 s l -> shist v2 (srun v2 s l).
Proof. induction l as [|m r IH]; intros s H A; [exact H|]. destruct A as [A B]. cbn [srun]. apply IH; [constructor; assumption|exact B]. Qed.
Definition up : squery := mkSq true false false.
Definition down : squery := mkSq false false false.
Definition w1 : wr := mkWr 1 [x01] true.
Definition w2 : wr := mkWr 2 [x02] false.
Definition w3 : wr := mkWr 3 [x03] true.
Ltac okay := cbn; repeat match goal with |- _ /\ _ => split | |- True => exact Logic.I end; try reflexivity; try discriminate; try (intros X; repeat (destruct X as [X|X]; [discriminate X|]); exact X); try (intros []).
(** success; two writes of which one is given to the state machine; then an error *)
Definition hx_moves : list smv := [MAccept; MReturn; MData [x16] false; MTake 1; MAct AWait up; MAct (ASuccess false) up; MReturn; MWrite w1 up; MWrite w2 up; MWrite w3 up; MApp; MBroken; MReturn; MReturn; MWrite (mkWr 4 [] true) up; MReturn].
Example C77_error_met : exists s, shist false s /\ as_stack s = [] /\ existsb is_fail (since_accept (as_log s)) = true /\ taken (as_log s) = [w1; w2; w3] /\ app_of (as_log s) = [w1] /\ err_of (as_log s) = [w2; w3].
Proof. exists (srun false as_init hx_moves). split; [apply srun_hist; [constructor|okay]|]. repeat split. Qed.
(** a version fallback: the hello, then what was not read *)
Example C77_fallback_met : exists s L, shist true s /\ as_log s = L ++ [SHsFallback [x16; x03; x99]].
Proof.
  exists (srun true as_init [MAccept; MReturn; MData [x16; x03] false; MTake 2; MData [x99] false; MAct (AMutate TError) up; MAct (AFallback [x16; x03]) up]).
  exists [SAccept; SRecv [x16; x03]; STake [x16; x03]; SRecv [x99]; SAct (AMutate TError) up; SAct (AFallback [x16; x03]) up].
  split; [apply srun_hist; [constructor|okay]|]; vm_compute; try reflexivity; discriminate.
Qed.
Example C77_v2_met : exists s, shist true s /\ as_cb s = true /\ existsb is_recv (as_log s) = false /\ v2_hello [x80; x2e; x01].
Proof.
  exists (srun true as_init [MAccept]). split; [apply srun_hist; [constructor|okay]|]. do 2 (split; [reflexivity|]). exists x80, x2e, x01, []. repeat split.
Qed.
(** An SSLv2 hello whose first bytes arrive alone is not recognised: the check is made only once, also when fewer than three bytes are there. *)
Theorem C77_v2_split_refuted : exists s, shist true s /\ v2_hello (recvd (as_log s)) /\ takenb (as_log s) = [] /\ as_cb s = true /\ as_v2 s = false /\ as_wait s = false /\ as_term s = TRunning.
Proof.
  exists (srun true as_init [MAccept; MReturn; MData [x80] false; MData [x2e; x01] false]). split; [apply srun_hist; [constructor|okay]|]. split; [|repeat split].
  exists x80, x2e, x01, []. repeat split.
Qed.
(** close() during a handshake over a good transport ends neither the handshake nor the writes that wait: nothing that arrives, is written or returns afterwards
    calls the handshake callback or any of their write callbacks; only an error of the transport (or closeNow) does. *)
Definition idle (m : smv) : Prop := match m with MData _ _ | MWrite _ _ | MTake _ | MApp | MReturn => True | MClose q => sq_good q = true | _ => False end.
Theorem C77_close_silent_refuted : exists s, shist false s /\ as_stack s = [] /\ In SImmediate (as_log s) /\ as_cb s = true /\ as_pend s = [w1] /\
  forall l, Forall idle l -> sok false s l -> as_cb (srun false s l) = true /\ as_pend (srun false s l) = [w1] /\ cnt is_outcome (as_log (srun false s l)) = 0.
Proof.
  set (s0 := srun false as_init [MAccept; MReturn; MData [x16] false; MWrite w1 up; MTake 1; MClose up; MAct AOther up; MReturn; MAct (AMutate TClosed) up; MReturn]).
  exists s0. split; [apply srun_hist; [constructor|okay]; vm_compute; discriminate|]. do 4 (split; [vm_compute; auto 20|]).
  intros l Hi Ho. assert (G : forall l s, Forall idle l -> sok false s l -> as_term s = TClosed -> as_v2 s = false -> Forall (fun f => f = KDown) (as_stack s) ->
    as_cb (srun false s l) = as_cb s /\ as_pend (srun false s l) = as_pend s /\ cnt is_outcome (as_log (srun false s l)) = cnt is_outcome (as_log s)).
  { clear. induction l as [|m r IH]; intros s Hi Ho Ht Hv Hk; [auto|]. inversion Hi as [|? ? Hm Hr]; subst. destruct Ho as [Ha Ho]. cbn [srun].
    assert (T : sterminal s = true) by (unfold sterminal; rewrite Ht; apply orb_true_r).
    assert (S : as_term (sstep false s m) = TClosed /\ as_v2 (sstep false s m) = false /\ Forall (fun f => f = KDown) (as_stack (sstep false s m)) /\ as_cb (sstep false s m) = as_cb s /\ as_pend (sstep false s m) = as_pend s /\ cnt is_outcome (as_log (sstep false s m)) = cnt is_outcome (as_log s)).
    { destruct m as [|w q|d busy|n| |a q| |q|q| ]; cbn [idle sallowed] in *; try contradiction; cbn [sstep].
      - unfold swrite, sgood. rewrite T. cbn [negb andb]. destruct (wr_cb w); projs; rewrite cnt_app, cnt_one; cbn; rewrite N.add_0_r; repeat split; auto.
      - unfold snewData. projs. rewrite Hv. cbn [andb]. projs. rewrite cnt_app, cnt_one. cbn. rewrite N.add_0_r. repeat split; auto.
      - destruct Ha as [X _]. congruence.
      - destruct Ha as [X _]. congruence.
      - rewrite Hm. projs. rewrite !cnt_app, !cnt_one. cbn. rewrite !N.add_0_r. repeat split; auto.
      - destruct (as_stack s) as [|f k] eqn:Ek; [rewrite Ek in *; repeat split; auto|]. inversion Hk; subst. projs. repeat split; auto. }
    destruct S as (S1 & S2 & S3 & S4 & S5 & S6). destruct (IH _ Hr Ho S1 S2 S3) as (I1 & I2 & I3). repeat split; congruence. }
  destruct (G l s0 Hi Ho) as (A & B & C); try (vm_compute; auto; fail).
Qed.
