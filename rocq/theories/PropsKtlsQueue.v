(** * PropsKtlsQueue: C96, writes to a kernel-TLS socket *)
From Coq Require Import Lia Sorting.Sorted.
From Verif Require Import Base HkdfProofs KtlsQueue.
Open Scope N_scope.

(** ** Specification, over what happens at the interface *)
Definition asks (w : N) (e : kev) : bytes := match e with KCall x d _ => if x =? w then d else [] | _ => [] end.
Definition gives (w : N) (e : kev) : bytes := match e with KPush x _ b _ => if x =? w then b else [] | _ => [] end.
(** The bytes of write [w], and those of them given to the record layer, in this order *)
Definition asked (w : N) (l : list kev) : bytes := flat_map (asks w) l.
Definition given (w : N) (l : list kev) : bytes := flat_map (gives w) l.
Definition ends (w : N) (e : kev) : bool := match e with KOk x _ | KErr x _ _ => x =? w | _ => false end.
Definition outcomes (w : N) (l : list kev) : nat := length (filter (ends w) l).
Definition pushed (l : list kev) : list N := flat_map (fun e => match e with KPush w _ _ _ => [w] | _ => [] end) l.
Definition reach (s : kq) : Prop := khist kq_init s.
(** All is quiet: the socket below has reported on everything it was given, and no call is open. *)
Definition quiet (s : kq) : Prop := kq_held s = [] /\ kq_stack s = [].
(** A request without data has been given to the record layer. *)
Definition emptied (l : list kev) : Prop := exists w f, In (KPush w true [] f) l.

(** ** Proofs *)
Definition isreq (t : ktarget) : bool := match t with KReq => true | _ => false end.
Definition isuser (w : N) (t : ktarget) : bool := match t with KUser x _ => x =? w | _ => false end.
Definition isnext (f : kframe) : bool := match f with KDone => false | _ => true end.
Definition lost (w : N) (e : kev) : bool := match e with KPush x false [] _ => x =? w | _ => false end.
Definition stuckb (w : N) (e : kev) : bool := match e with KPush x true [] _ => x =? w | _ => false end.
Definition count {A} (f : A -> bool) (l : list A) : nat := length (filter f l).
Definition evw (e : kev) : N := match e with KCall w _ _ | KPush w _ _ _ | KOk w _ | KErr w _ _ => w end.
Lemma count_app {A} (f : A -> bool) a b : count f (a ++ b) = (count f a + count f b)%nat.
Proof. unfold count. rewrite filter_app, app_length. reflexivity. Qed.
Lemma count_cons {A} (f : A -> bool) x b : count f (x :: b) = ((if f x then 1 else 0) + count f b)%nat.
Proof. unfold count. cbn. destruct (f x); reflexivity. Qed.
Lemma asked_app w a b : asked w (a ++ b) = asked w a ++ asked w b. Proof. apply flat_map_app. Qed.
Lemma given_app w a b : given w (a ++ b) = given w a ++ given w b. Proof. apply flat_map_app. Qed.
Lemma asked_nil n l w : Forall (fun e => evw e < n) l -> n <= w -> asked w l = [] /\ given w l = [] /\ outcomes w l = 0%nat.
Proof.
  intros H Hw. induction H as [|e l He _ (IH1 & IH2 & IH3)]; [auto|]. assert (E : evw e =? w = false) by (apply N.eqb_neq; lia).
  unfold asked, given, outcomes in *. cbn. destruct e; cbn in *; rewrite ?E; cbn; auto.
Qed.
(** [wt]: the request at the front has not been started *)
Definition waiting (s : kq) (wt : bool) : list kreq := if wt then kq_q s else tl (kq_q s).
Record core (s : kq) (wt : bool) : Prop := {
  c_ev : Forall (fun e => evw e < kq_n s) (kq_log s);
  c_bal : forall w, (outcomes w (kq_log s) + count (fun r => N.eqb (k_w r) w) (kq_q s) + count (isuser w) (kq_held s) + count (lost w) (kq_log s) = if (w <? kq_n s)%N then 1 else 0)%nat;
  c_sorted : StronglySorted N.lt (map k_w (kq_q s));
  c_data : forall r, In r (kq_q s) -> asked (k_w r) (kq_log s) = given (k_w r) (kq_log s) ++ k_data r;
  c_wait : forall r, In r (waiting s wt) -> ~ In (k_w r) (pushed (kq_log s));
  c_order : StronglySorted N.le (pushed (kq_log s));
  c_before : forall w r, In w (pushed (kq_log s)) -> In r (kq_q s) -> w <= k_w r;
  c_held : forall w cb, In (KUser w cb) (kq_held s) -> asked w (kq_log s) = given w (kq_log s);
  c_ok : forall w cb, In (KOk w cb) (kq_log s) -> asked w (kq_log s) = given w (kq_log s);
  c_empty : forall w qd f, In (KPush w qd [] f) (kq_log s) -> asked w (kq_log s) = [];
  c_size : forall w b f, In (KPush w true b f) (kq_log s) -> blen b <= 131072;
  c_pref : forall w, exists rest, asked w (kq_log s) = given w (kq_log s) ++ rest }.
Definition stuck (s : kq) : nat := match kq_q s with [] => 0 | r :: _ => if existsb (stuckb (k_w r)) (kq_log s) then 1 else 0 end.
(** Whether the front is started by whoever runs: [p] = 1 *)
Definition mode (s : kq) (p : nat) : Prop :=
  (p + count isreq (kq_held s) + count isnext (kq_stack s) + stuck s = match kq_q s with [] => 0 | _ => 1 end)%nat.
Definition nwait (s : kq) : bool := match count isnext (kq_stack s) with O => false | _ => true end.
Definition inv (s : kq) : Prop := core s (nwait s) /\ mode s 0.

Lemma pushed_app a b : pushed (a ++ b) = pushed a ++ pushed b. Proof. apply flat_map_app. Qed.
Lemma outcomes_app w a b : outcomes w (a ++ b) = (outcomes w a + outcomes w b)%nat. Proof. apply count_app. Qed.
Lemma not_pushed w l : ~ In w (pushed l) -> given w l = [] /\ existsb (stuckb w) l = false.
Proof.
  induction l as [|e l IH]; [auto|]. intros H. assert (H' : ~ In w (pushed l)) by (intros X; apply H; unfold pushed; cbn; apply in_or_app; right; exact X).
  destruct (IH H') as (A & B). unfold given in *. cbn. rewrite A, B. destruct e as [| x q b f| |]; cbn; auto.
  assert (E : x =? w = false) by (apply N.eqb_neq; intros ->; apply H; left; reflexivity). destruct q, b; rewrite ?E; auto.
Qed.
Lemma fresh n l w : Forall (fun e => evw e < n) l -> n <= w -> ~ In w (pushed l).
Proof. intros H Hw X. apply in_flat_map in X. destruct X as (e & He & X). rewrite Forall_forall in H. specialize (H e He). destruct e; cbn in *; try contradiction. destruct X as [->|[]]. lia. Qed.
Lemma count_In {A} (f : A -> bool) x l : In x l -> f x = true -> (1 <= count f l)%nat.
Proof. induction l as [|y l IH]; [intros []|]. rewrite count_cons. intros [->|H] E; [rewrite E; lia|]. specialize (IH H E). lia. Qed.
Lemma ok_outcome w cb l : In (KOk w cb) l -> (1 <= outcomes w l)%nat.
Proof. intros H. apply (count_In (ends w) _ _ H). cbn. apply N.eqb_refl. Qed.
Lemma snoc_sorted l w : StronglySorted N.le l -> (forall x, In x l -> x <= w) -> StronglySorted N.le (l ++ [w]).
Proof.
  induction 1 as [|x l S IH F]; intros H; cbn; [constructor; constructor|]. constructor; [apply IH; intros y Hy; apply H; right; exact Hy|].
  apply Forall_app. split; [exact F|]. constructor; [|constructor]. apply H. left. reflexivity.
Qed.
Lemma snoc_lt l w : StronglySorted N.lt l -> (forall x, In x l -> x < w) -> StronglySorted N.lt (l ++ [w]).
Proof.
  induction 1 as [|x l S IH F]; intros H; cbn; [constructor; constructor|]. constructor; [apply IH; intros y Hy; apply H; right; exact Hy|].
  apply Forall_app. split; [exact F|]. constructor; [|constructor]. apply H. left. reflexivity.
Qed.
Lemma kdrop_count f t l : (forall x, kteq t x = true -> f x = f t) -> In t l -> (count f (kdrop t l) + (if f t then 1 else 0) = count f l)%nat.
Proof.
  intros Hf. induction l as [|x l IH]; [intros []|]. intros H. cbn [kdrop]. destruct (kteq t x) eqn:E; [rewrite count_cons, (Hf _ E); lia|].
  rewrite !count_cons. destruct H as [->|H]; [destruct t; cbn in E; rewrite ?N.eqb_refl in E; discriminate|]. specialize (IH H). lia.
Qed.
Lemma kdrop_In t x l : In x (kdrop t l) -> In x l.
Proof. induction l as [|y l IH]; [intros []|]. cbn. destruct (kteq t y); [intros H; right; exact H|]. intros [->|H]; [left; reflexivity|right; auto]. Qed.
Lemma in_q_lt s wt r : core s wt -> In r (kq_q s) -> k_w r < kq_n s.
Proof.
  intros C H. pose proof (c_bal _ _ C (k_w r)) as B. pose proof (count_In (fun x => k_w x =? k_w r) r _ H (N.eqb_refl _)). destruct (N.ltb_spec (k_w r) (kq_n s)); [assumption|lia].
Qed.
Lemma core_false s wt : core s wt -> core s false.
Proof. intros [c1 c2 c3 c4 c5 c6 c7 c8 c9 c10 c11 c12]. constructor; auto. intros r Hr. apply c5. unfold waiting in *. destruct wt; [|exact Hr]. destruct (kq_q s); [destruct Hr|right; exact Hr]. Qed.
(** Everything but the stack, and requests below *)
Lemma core_ext s wt held stk : core s wt -> (forall w, count (isuser w) held = count (isuser w) (kq_held s)) -> (forall t, In t held -> In t (kq_held s) \/ t = KReq) -> core (mkKq (kq_q s) held (kq_n s) stk (kq_log s)) wt.
Proof.
  intros [c1 c2 c3 c4 c5 c6 c7 c8 c9 c10 c11 c12] Hc Hi. constructor; cbn [kq_q kq_held kq_n kq_log]; auto.
  - intros w. rewrite Hc. apply c2.
  - intros w cb H. destruct (Hi _ H) as [X|X]; [eauto|discriminate X].
Qed.
Lemma start_core s wt r q : core s wt -> kq_q s = r :: q -> (k_data r = [] -> ~ In (k_w r) (pushed (kq_log s))) -> core (kstart s) false.
Proof.
  intros C Eq He. pose proof C as [c1 c2 c3 c4 c5 c6 c7 c8 c9 c10 c11 c12]. unfold kstart. rewrite Eq.
  set (b := takeN kThreshold (k_data r)). set (d := dropN kThreshold (k_data r)). cbv zeta. set (f := match d with [] => _ | _ => _ end).
  assert (Ebd : b ++ d = k_data r) by apply takeN_dropN.
  assert (Hw : k_w r < kq_n s) by (apply (in_q_lt s wt); [exact C|rewrite Eq; left; reflexivity]).
  assert (Hlt : forall r2, In r2 q -> k_w r < k_w r2). { rewrite Eq in c3. cbn in c3. inversion c3 as [|? ? _ F]; subst. rewrite Forall_forall in F. intros r2 H2. apply F, in_map, H2. }
  assert (H1 : (1 <= count (fun x => (k_w x =? k_w r)%N) (kq_q s))%nat). { apply (count_In _ r); [rewrite Eq; left; reflexivity|apply N.eqb_refl]. }
  set (r' := mkKreq (k_w r) (k_cb r) d (k_flags r) (k_written r + blen b)).
  assert (G : forall held stk, (forall w, count (isuser w) held = count (isuser w) (kq_held s)) -> (forall t, In t held -> In t (kq_held s) \/ t = KReq) ->
    core (mkKq (r' :: q) held (kq_n s) stk (kq_log s ++ [KPush (k_w r) true b f])) false).
  { intros held stk Hc Hi. assert (Hg : forall w, w <> k_w r -> given w (kq_log s ++ [KPush (k_w r) true b f]) = given w (kq_log s)).
    { intros w Nw. rewrite given_app. cbn. rewrite (proj2 (N.eqb_neq _ _)) by congruence. apply app_nil_r. }
    assert (Ha : forall w, asked w (kq_log s ++ [KPush (k_w r) true b f]) = asked w (kq_log s)) by (intros w; rewrite asked_app; apply app_nil_r).
    constructor; cbn [kq_q kq_held kq_n kq_log].
    - apply Forall_app. split; [exact c1|]. constructor; [exact Hw|constructor].
    - intros w. rewrite outcomes_app, Hc, count_app. specialize (c2 w). rewrite Eq in c2. rewrite count_cons in *. cbn. unfold outcomes in *. cbn. lia.
    - rewrite Eq in c3. exact c3.
    - intros x [<-|Hx].
      + cbn [k_w k_data r']. rewrite Ha, given_app. cbn. rewrite N.eqb_refl, app_nil_r, <- app_assoc, Ebd. apply c4. rewrite Eq. left. reflexivity.
      + specialize (Hlt _ Hx). rewrite Ha, Hg by lia. apply c4. rewrite Eq. right. exact Hx.
    - intros x Hx. cbn [waiting tl kq_q] in Hx. specialize (Hlt _ Hx). rewrite pushed_app. cbn. intros X. apply in_app_or in X. destruct X as [X|[X|[]]]; [|lia].
      revert X. apply c5. unfold waiting. rewrite Eq. destruct wt; [right|]; exact Hx.
    - rewrite pushed_app. cbn. apply snoc_sorted; [exact c6|]. intros x Hx. apply c7; [exact Hx|rewrite Eq; left; reflexivity].
    - intros w x Hp Hx. rewrite pushed_app in Hp. apply in_app_or in Hp. destruct Hp as [Hp|[<-|[]]].
      + destruct Hx as [<-|Hx]; [change (k_w r') with (k_w r)|]; apply c7; auto; rewrite Eq; [left; reflexivity|right; exact Hx].
      + destruct Hx as [<-|Hx]; [cbn; lia|]. specialize (Hlt _ Hx). lia.
    - intros w cb H. destruct (Hi _ H) as [X|X]; [|discriminate X]. assert (w <> k_w r).
      { intros ->. pose proof (count_In (isuser (k_w r)) _ _ X (N.eqb_refl _)). specialize (c2 (k_w r)). destruct (k_w r <? kq_n s); lia. }
      rewrite Ha, Hg by assumption. eauto.
    - intros w cb H. apply in_app_or in H. destruct H as [H|[H|[]]]; [|discriminate H]. assert (w <> k_w r).
      { intros ->. apply ok_outcome in H. specialize (c2 (k_w r)). destruct (k_w r <? kq_n s); lia. }
      rewrite Ha, Hg by assumption. eauto.
    - intros w qd f0 H. rewrite Ha. apply in_app_or in H. destruct H as [H|[H|[]]]; [eauto|]. injection H as <- _ Eb _.
      assert (Ed : k_data r = []). { pose proof (f_equal (@blen _) Eb) as X. unfold b in X. rewrite blen_takeN in X. change (blen []) with 0 in X. unfold kThreshold in X. destruct (k_data r) as [|y l]; [reflexivity|]. exfalso. rewrite blen_cons in X. lia. }
      rewrite (c4 r) by (rewrite Eq; left; reflexivity). rewrite Ed, app_nil_r. apply not_pushed. exact (He Ed).
    - intros w b0 f0 H. apply in_app_or in H. destruct H as [H|[H|[]]]; [eauto|]. injection H as _ <- _. unfold b. rewrite blen_takeN. unfold kThreshold. lia.
    - intros w. destruct (N.eq_dec w (k_w r)) as [->|Nw]; [|rewrite Ha, Hg by exact Nw; apply c12]. exists d. rewrite Ha, given_app. cbn. rewrite N.eqb_refl, app_nil_r, <- app_assoc, Ebd. apply c4. rewrite Eq. left. reflexivity. }
  unfold kpush. cbn [kq_q kq_held kq_n kq_stack kq_log]. fold r'. destruct b eqn:Eb; apply G; auto.
  - intros t [<-|H]; auto.
Qed.
Lemma start_mode s r q : mode s 1 -> kq_q s = r :: q -> mode (kstart s) 0 /\ count isnext (kq_stack (kstart s)) = 0%nat.
Proof.
  unfold mode, kstart, stuck. intros M Eq. rewrite Eq in *. cbv zeta. set (f := match dropN _ _ with [] => _ | _ => _ end).
  destruct (existsb (stuckb (k_w r)) (kq_log s)) eqn:Es; [lia|]. unfold kpush. cbn [kq_q kq_held kq_n kq_stack kq_log k_w].
  destruct (takeN kThreshold (k_data r)); cbn [kq_q kq_held kq_n kq_stack kq_log k_w]; rewrite existsb_app, Es, ?count_cons; cbn [existsb stuckb isreq isnext orb]; rewrite ?N.eqb_refl; cbn [orb]; split; lia.
Qed.
Lemma start_inv s wt r q : core s wt -> mode s 1 -> kq_q s = r :: q -> (k_data r = [] -> ~ In (k_w r) (pushed (kq_log s))) -> inv (kstart s).
Proof. intros C M Eq He. destruct (start_mode s r q M Eq) as (M' & Z). split; [|exact M']. unfold nwait. rewrite Z. eapply start_core; eauto. Qed.
Lemma pop_core s wt wt' r q e stk : core s wt -> kq_q s = r :: q -> evw e = k_w r -> (exists c, e = KOk (k_w r) c /\ k_data r = [] \/ exists wr, e = KErr (k_w r) c wr) ->
  core (mkKq q (kq_held s) (kq_n s) stk (kq_log s ++ [e])) wt'.
Proof.
  intros C Eq Hew He. pose proof C as [c1 c2 c3 c4 c5 c6 c7 c8 c9 c10 c11 c12].
  assert (Hw : k_w r < kq_n s) by (apply (in_q_lt s wt); [exact C|rewrite Eq; left; reflexivity]).
  assert (Ea : forall w, asked w (kq_log s ++ [e]) = asked w (kq_log s)). { intros w. rewrite asked_app. destruct He as (c & [(-> & _)|(wr & ->)]); apply app_nil_r. }
  assert (Eg : forall w, given w (kq_log s ++ [e]) = given w (kq_log s)). { intros w. rewrite given_app. destruct He as (c & [(-> & _)|(wr & ->)]); apply app_nil_r. }
  assert (Ep : pushed (kq_log s ++ [e]) = pushed (kq_log s)). { rewrite pushed_app. destruct He as (c & [(-> & _)|(wr & ->)]); apply app_nil_r. }
  constructor; cbn [kq_q kq_held kq_n kq_log].
  - apply Forall_app. split; [exact c1|]. constructor; [rewrite Hew; exact Hw|constructor].
  - intros w. rewrite outcomes_app, count_app. specialize (c2 w). rewrite Eq, count_cons in c2. unfold outcomes in *. destruct He as (c & [(-> & _)|(wr & ->)]); cbn; destruct (k_w r =? w); cbn; lia.
  - rewrite Eq in c3. inversion c3; assumption.
  - intros x Hx. rewrite Ea, Eg. apply c4. rewrite Eq. right. exact Hx.
  - intros x Hx. rewrite Ep. apply c5. unfold waiting in *. cbn [kq_q] in Hx. rewrite Eq. assert (In x q) by (destruct wt'; [exact Hx|destruct q; [destruct Hx|right; exact Hx]]). destruct wt; [right|]; assumption.
  - rewrite Ep. exact c6.
  - rewrite Ep. intros w x H1 H2. apply c7; [exact H1|rewrite Eq; right; exact H2].
  - intros w cb H. rewrite Ea, Eg. eauto.
  - intros w cb H. rewrite Ea, Eg. apply in_app_or in H. destruct H as [H|[->|[]]]; [eauto|]. destruct He as (c & [(E & Ed)|(wr & E)]); [|discriminate E]. injection E as -> _.
    rewrite (c4 r) by (rewrite Eq; left; reflexivity). rewrite Ed. apply app_nil_r.
  - intros w qd f H. rewrite Ea. apply in_app_or in H. destruct H as [H|[->|[]]]; [eauto|]. destruct He as (c & [(E & _)|(wr & E)]); discriminate E.
  - intros w b f H. apply in_app_or in H. destruct H as [H|[->|[]]]; [eauto|]. destruct He as (c & [(E & _)|(wr & E)]); discriminate E.
  - intros w. rewrite Ea, Eg. apply c12.
Qed.
Lemma pop_inv s wt r q e fr : core s wt -> mode s 1 -> kq_q s = r :: q -> evw e = k_w r -> (exists c, e = KOk (k_w r) c /\ k_data r = [] \/ exists wr, e = KErr (k_w r) c wr) -> isnext fr = true ->
  inv (mkKq q (kq_held s) (kq_n s) ((match q with [] => KDone | _ => fr end) :: kq_stack s) (kq_log s ++ [e])).
Proof.
  intros C M Eq Hew He Hf. split; [eapply pop_core; eauto|]. unfold mode in *. cbn [kq_q kq_held kq_n kq_stack kq_log]. rewrite Eq in M. rewrite count_cons.
  destruct q as [|r2 q]; [cbn; lia|]. rewrite Hf. assert (Z : stuck (mkKq (r2 :: q) (kq_held s) (kq_n s) (fr :: kq_stack s) (kq_log s ++ [e])) = 0%nat); [|rewrite Z; lia].
  unfold stuck. cbn [kq_q kq_log]. rewrite existsb_app. rewrite (proj2 (not_pushed (k_w r2) (kq_log s) ltac:(apply (c_wait _ _ (core_false _ _ C)); cbn; rewrite Eq; left; reflexivity))).
  destruct He as (c & [(-> & _)|(wr & ->)]); reflexivity.
Qed.
Lemma fail_inv s wt : core s wt -> mode s 1 -> inv (kfail s).
Proof.
  intros C M. unfold kfail. destruct (kq_q s) as [|r q] eqn:Eq; [unfold mode in M; rewrite Eq in M; lia|]. eapply pop_inv; eauto.
Qed.
Lemma success_inv s wt : core s wt -> mode s 1 -> inv (ksuccess s).
Proof.
  intros C M. unfold ksuccess. destruct (kq_q s) as [|r q] eqn:Eq; [unfold mode in M; rewrite Eq in M; lia|]. destruct (k_data r) eqn:Ed.
  - eapply pop_inv; eauto.
  - eapply start_inv; eauto. rewrite Ed. discriminate.
Qed.
(** A request made by a call *)
Lemma call_core s wt wt' cb data flags stk : core s wt -> (wt' = true -> wt = true \/ kq_q s = []) ->
  core (mkKq (kq_q s ++ [mkKreq (kq_n s) cb data flags 0]) (kq_held s) (kq_n s + 1) stk (kq_log s ++ [KCall (kq_n s) data flags])) wt'.
Proof.
  intros C Hwt. pose proof C as [c1 c2 c3 c4 c5 c6 c7 c8 c9 c10 c11 c12]. set (n := kq_n s) in *.
  destruct (asked_nil n _ n c1 (N.le_refl _)) as (An & Gn & On). pose proof (fresh n _ n c1 (N.le_refl _)) as Pn.
  assert (Ea : forall w, w <> n -> asked w (kq_log s ++ [KCall n data flags]) = asked w (kq_log s)). { intros w Nw. rewrite asked_app. cbn. rewrite (proj2 (N.eqb_neq _ _)) by congruence. apply app_nil_r. }
  assert (Eg : forall w, given w (kq_log s ++ [KCall n data flags]) = given w (kq_log s)) by (intros w; rewrite given_app; apply app_nil_r).
  assert (Ep : pushed (kq_log s ++ [KCall n data flags]) = pushed (kq_log s)) by (rewrite pushed_app; apply app_nil_r).
  assert (Lt : forall r, In r (kq_q s) -> k_w r < n) by (intros r; apply (in_q_lt s wt); exact C).
  assert (Hin : forall e, In e (kq_log s) -> evw e < n) by (rewrite Forall_forall in c1; exact c1).
  constructor; cbn [kq_q kq_held kq_n kq_log].
  - apply Forall_app. split; [eapply Forall_impl; [|exact c1]; cbn; intros; lia|]. constructor; [cbn; lia|constructor].
  - intros w. rewrite outcomes_app, !count_app. specialize (c2 w). cbn [count filter]. unfold count at 2. cbn [filter k_w]. unfold outcomes at 2. cbn.
    destruct (N.eqb_spec n w) as [<-|Nw]; cbn [length].
    + rewrite N.ltb_irrefl in c2. rewrite (proj2 (N.ltb_lt n (n + 1))) by lia. lia.
    + assert (X : (w <? n + 1) = (w <? n)) by (destruct (N.ltb_spec w n), (N.ltb_spec w (n + 1)); lia). rewrite X. lia.
  - rewrite map_app. cbn. apply snoc_lt; [exact c3|]. intros x Hx. apply in_map_iff in Hx. destruct Hx as (r & <- & Hr). auto.
  - intros r Hr. rewrite Eg. apply in_app_or in Hr. destruct Hr as [Hr|[<-|[]]]; [rewrite Ea by (specialize (Lt _ Hr); lia); auto|]. cbn [k_w k_data].
    rewrite asked_app, An, Gn. cbn. rewrite N.eqb_refl. apply app_nil_r.
  - intros r Hr. rewrite Ep. unfold waiting in Hr. cbn [kq_q] in Hr.
    assert (X : In r (waiting s wt) \/ k_w r = n).
    { assert (Y : In r (if wt' then kq_q s else tl (kq_q s)) \/ k_w r = n).
      { destruct wt'; [apply in_app_or in Hr; destruct Hr as [Hr|[<-|[]]]; auto|]. destruct (kq_q s) as [|y l]; [destruct Hr|]. cbn in Hr. apply in_app_or in Hr. destruct Hr as [Hr|[<-|[]]]; auto. }
      destruct Y as [Y|Y]; [|auto]. left. unfold waiting. destruct wt'; [destruct (Hwt eq_refl) as [->|E]; [exact Y|rewrite E in Y; destruct Y]|]. destruct wt; [|exact Y]. destruct (kq_q s); [destruct Y|right; exact Y]. }
    destruct X as [X| ->]; [auto|exact Pn].
  - rewrite Ep. exact c6.
  - rewrite Ep. intros w r Hp Hr. apply in_app_or in Hr. destruct Hr as [Hr|[<-|[]]]; [auto|]. cbn. destruct (N.le_gt_cases w n) as [X|X]; [exact X|]. exfalso. revert Hp. apply (fresh n); [exact c1|lia].
  - intros w b H. rewrite Eg. rewrite Ea; [eauto|]. intros ->. pose proof (count_In (isuser n) _ _ H (N.eqb_refl _)). specialize (c2 n). rewrite N.ltb_irrefl in c2. lia.
  - intros w b H. apply in_app_or in H. destruct H as [H|[H|[]]]; [|discriminate H]. rewrite Eg. rewrite Ea; [eauto|]. intros ->. specialize (Hin _ H). cbn in Hin. lia.
  - intros w qd f H. apply in_app_or in H. destruct H as [H|[H|[]]]; [|discriminate H]. rewrite Ea; [eauto|]. intros ->. specialize (Hin _ H). cbn in Hin. lia.
  - intros w b f H. apply in_app_or in H. destruct H as [H|[H|[]]]; [|discriminate H]. eauto.
  - intros w. rewrite Eg. destruct (N.eq_dec w n) as [->|Nw]; [|rewrite Ea by exact Nw; apply c12]. rewrite Gn. eexists. reflexivity.
Qed.

Lemma nwait_stack s s' : kq_stack s = kq_stack s' -> nwait s = nwait s'. Proof. unfold nwait. intros ->. reflexivity. Qed.
Lemma write_inv s cb data flags shared buffering early : inv s -> inv (kwrite s cb data flags shared buffering early).
Proof.
  intros (C & M). unfold kwrite. cbv zeta. cbn [kq_q kq_held kq_n kq_stack kq_log]. set (r := mkKreq (kq_n s) cb data flags 0).
  assert (St : existsb (stuckb (kq_n s)) (kq_log s ++ [KCall (kq_n s) data flags]) = false).
  { rewrite existsb_app, (proj2 (not_pushed _ _ (fresh _ _ _ (c_ev _ _ C) (N.le_refl _)))). reflexivity. }
  destruct (kq_q s) as [|r0 q] eqn:Eq.
  - destruct ((_ || _) && _ && _).
    + pose proof (call_core s (nwait s) true cb data flags (kq_stack s) C (fun _ => or_intror Eq)) as C'. rewrite Eq in C'. cbn [app] in C'. fold r in C'. eapply start_inv; [exact C'| |reflexivity|].
      * unfold mode, stuck in *. cbn [kq_q kq_held kq_n kq_stack kq_log k_w r]. rewrite Eq in M. rewrite St. lia.
      * intros _. apply (c_wait _ _ C'). left. reflexivity.
    + assert (Z : count isnext (kq_stack s) = 0%nat) by (unfold mode in M; rewrite Eq in M; lia).
      pose proof C as [c1 c2 c3 c4 c5 c6 c7 c8 c9 c10 c11 c12]. set (n := kq_n s) in *. destruct (asked_nil n _ n c1 (N.le_refl _)) as (An & Gn & On).
      set (log := (kq_log s ++ [KCall n data flags]) ++ [KPush n false data flags]).
      assert (Ea : forall w, w <> n -> asked w log = asked w (kq_log s)). { intros w Nw. unfold log. rewrite !asked_app. cbn. rewrite (proj2 (N.eqb_neq _ _)) by congruence. rewrite !app_nil_r. reflexivity. }
      assert (Eg : forall w, w <> n -> given w log = given w (kq_log s)). { intros w Nw. unfold log. rewrite !given_app. cbn. rewrite (proj2 (N.eqb_neq _ _)) by congruence. rewrite !app_nil_r. reflexivity. }
      assert (En : asked n log = data /\ given n log = data). { unfold log. rewrite !asked_app, !given_app, An, Gn. cbn. rewrite N.eqb_refl, !app_nil_r. auto. }
      assert (Hin : forall e, In e (kq_log s) -> evw e < n) by (rewrite Forall_forall in c1; exact c1).
      assert (G : forall held stk, (forall w, (count (isuser w) held + count (lost w) log = count (isuser w) (kq_held s) + count (lost w) (kq_log s) + if (n =? w)%N then 1 else 0)%nat) ->
        (forall t, In t held -> In t (kq_held s) \/ t = KUser n cb) -> core (mkKq [] held (n + 1) stk log) false).
      { intros held stk Hc Hi. constructor; cbn [kq_q kq_held kq_n kq_log].
        - unfold log. rewrite !Forall_app. split; [split; [eapply Forall_impl; [|exact c1]; cbn; intros; lia|]|]; (constructor; [cbn; lia|constructor]).
        - intros w. specialize (c2 w). specialize (Hc w). rewrite Eq in c2. assert (Oo : outcomes w log = outcomes w (kq_log s)) by (unfold log; rewrite !outcomes_app; cbn; lia). rewrite Oo. change (count (fun r1 : kreq => (k_w r1 =? w)%N) []) with 0%nat in *.
          destruct (N.eqb_spec n w) as [<-|Nw]; [rewrite N.ltb_irrefl in c2; rewrite (proj2 (N.ltb_lt n (n + 1))) by lia; lia|].
          assert (X : (w <? n + 1) = (w <? n)) by (destruct (N.ltb_spec w n), (N.ltb_spec w (n + 1)); lia). rewrite X. lia.
        - constructor.
        - intros x [].
        - intros x [].
        - unfold log. rewrite !pushed_app. cbn. rewrite app_nil_r. apply snoc_sorted; [exact c6|]. intros x Hx. apply in_flat_map in Hx. destruct Hx as (e & He & Hx). specialize (Hin _ He). destruct e; cbn in *; try contradiction. destruct Hx as [->|[]]. lia.
        - intros w x _ [].
        - intros w b H. destruct (N.eq_dec w n) as [->|Nw]; [destruct En; congruence|]. rewrite Ea, Eg by exact Nw. destruct (Hi _ H) as [X|X]; [eauto|congruence].
        - intros w b H. destruct (N.eq_dec w n) as [->|Nw]; [destruct En; congruence|]. rewrite Ea, Eg by exact Nw. unfold log in H. apply in_app_or in H. destruct H as [H|[H|[]]]; [|discriminate H]. apply in_app_or in H. destruct H as [H|[H|[]]]; [eauto|discriminate H].
        - intros w qd f H. unfold log in H. apply in_app_or in H. destruct H as [H|[H|[]]].
          + apply in_app_or in H. destruct H as [H|[H|[]]]; [|discriminate H]. rewrite Ea; [eauto|]. specialize (Hin _ H). cbn in Hin. lia.
          + injection H as <- _ Ed _. destruct En as (-> & _). exact Ed.
        - intros w b f H. unfold log in H. apply in_app_or in H. destruct H as [H|[H|[]]]; [|discriminate H]. apply in_app_or in H. destruct H as [H|[H|[]]]; [eauto|discriminate H].
        - intros w. destruct (N.eq_dec w n) as [->|Nw]; [|rewrite Ea, Eg by exact Nw; apply c12]. destruct En as (-> & ->). exists []. symmetry. apply app_nil_r. }
      unfold mode in M. rewrite Eq in M. unfold kpush. cbn [kq_q kq_held kq_n kq_stack kq_log]. fold log. destruct data as [|y l] eqn:Ed.
      * split; [unfold nwait; cbn [kq_stack]; rewrite Z; apply G; auto|unfold mode; cbn [kq_q kq_held kq_stack]; unfold stuck in *; cbn [kq_q]; rewrite Eq in M; lia].
        intros w. unfold log. rewrite !count_app. rewrite (count_cons (lost w) (KPush _ _ _ _)), (count_cons (lost w) (KCall _ _ _)). cbn [lost]. change (count (lost w) []) with 0%nat. lia.
      * split; [unfold nwait; cbn [kq_stack]; rewrite count_cons; cbn [isnext]; rewrite Z; cbn [plus]; apply G|unfold mode; cbn [kq_q kq_held kq_stack]; rewrite !count_cons; cbn [isreq isnext]; unfold stuck in *; cbn [kq_q]; rewrite Eq in M; lia].
        -- intros w. rewrite count_cons. unfold log. rewrite !count_app. rewrite (count_cons (lost w) (KPush _ _ _ _)), (count_cons (lost w) (KCall _ _ _)). cbn [lost isuser]. change (count (lost w) []) with 0%nat. lia.
        -- intros t [<-|H]; auto.
  - split.
    + unfold nwait. cbn [kq_stack]. fold (nwait s). pose proof (call_core s (nwait s) (nwait s) cb data flags (kq_stack s) C (fun H => or_introl H)) as C'. rewrite Eq in C'. exact C'.
    + unfold mode, stuck in *. cbn [kq_q kq_held kq_stack kq_log]. rewrite Eq in M. cbn [app]. rewrite existsb_app. cbn [existsb stuckb]. rewrite orb_false_r. exact M.
Qed.
Lemma step_inv s m : inv s -> kallowed s m -> inv (kstep s m).
Proof.
  intros I A. pose proof I as (C & M). destruct m as [cb data flags shared buffering early|t ok|]; [apply write_inv; exact I| |]; cbn [kstep kallowed] in *.
  - assert (Hd : forall w, (count (isuser w) (kdrop t (kq_held s)) + (if isuser w t then 1 else 0) = count (isuser w) (kq_held s))%nat).
    { intros w. apply kdrop_count; [|exact A]. intros x Hx. destruct t as [a ca|], x as [b cx|]; cbn in *; try discriminate Hx; [apply N.eqb_eq in Hx; subst; reflexivity|reflexivity]. }
    assert (Hr : (count isreq (kdrop t (kq_held s)) + (if isreq t then 1 else 0) = count isreq (kq_held s))%nat).
    { apply kdrop_count; [|exact A]. intros x Hx. destruct t, x; cbn in *; try discriminate Hx; reflexivity. }
    cbv zeta. cbn [kq_q kq_held kq_n kq_stack kq_log]. destruct t as [w cb|].
    + pose proof C as [c1 c2 c3 c4 c5 c6 c7 c8 c9 c10 c11 c12]. set (e := if ok then KOk w cb else KErr w cb None).
      assert (Hn : w < kq_n s). { pose proof (count_In (isuser w) _ _ A (N.eqb_refl _)). specialize (c2 w). destruct (N.ltb_spec w (kq_n s)); [assumption|lia]. }
      assert (Ea : forall x, asked x (kq_log s ++ [e]) = asked x (kq_log s)) by (intros x; rewrite asked_app; unfold e; destruct ok; apply app_nil_r).
      assert (Eg : forall x, given x (kq_log s ++ [e]) = given x (kq_log s)) by (intros x; rewrite given_app; unfold e; destruct ok; apply app_nil_r).
      assert (Ep : pushed (kq_log s ++ [e]) = pushed (kq_log s)) by (rewrite pushed_app; unfold e; destruct ok; apply app_nil_r).
      split.
      * assert (Nw : nwait (mkKq (kq_q s) (kdrop (KUser w cb) (kq_held s)) (kq_n s) (KDone :: kq_stack s) (kq_log s ++ [e])) = nwait s) by (unfold nwait; cbn [kq_stack]; rewrite count_cons; reflexivity).
        rewrite Nw. constructor; cbn [kq_q kq_held kq_n kq_log]; unfold waiting; cbn [kq_q]; fold (waiting s (nwait s)).
        -- apply Forall_app. split; [exact c1|]. constructor; [unfold e; destruct ok; exact Hn|constructor].
        -- intros x. rewrite outcomes_app, count_app. specialize (c2 x). specialize (Hd x). cbn [isuser] in Hd. assert (X : outcomes x [e] = if (w =? x)%N then 1%nat else 0%nat) by (unfold e, outcomes; destruct ok; cbn; destruct (w =? x); reflexivity).
           assert (Y : count (lost x) [e] = 0%nat) by (unfold e; destruct ok; reflexivity). rewrite X, Y. lia.
        -- exact c3.
        -- intros r H. rewrite Ea, Eg. auto.
        -- intros r H. rewrite Ep. auto.
        -- rewrite Ep. exact c6.
        -- rewrite Ep. exact c7.
        -- intros x b H. rewrite Ea, Eg. apply kdrop_In in H. eauto.
        -- intros x b H. rewrite Ea, Eg. apply in_app_or in H. destruct H as [H|[H|[]]]; [eauto|]. unfold e in H. destruct ok; [|discriminate H]. injection H as <- <-. eauto.
        -- intros x qd f H. rewrite Ea. apply in_app_or in H. destruct H as [H|[H|[]]]; [eauto|]. unfold e in H. destruct ok; discriminate H.
        -- intros x b f H. apply in_app_or in H. destruct H as [H|[H|[]]]; [eauto|]. unfold e in H. destruct ok; discriminate H.
        -- intros x. rewrite Ea, Eg. apply c12.
      * unfold mode, stuck in *. cbn [kq_q kq_held kq_stack kq_log]. cbn [isreq] in Hr. rewrite count_cons. cbn [isnext]. destruct (kq_q s) as [|r q]; [lia|]. rewrite existsb_app. assert (X : existsb (stuckb (k_w r)) [e] = false) by (unfold e; destruct ok; reflexivity). rewrite X, orb_false_r. lia.
    + set (s1 := mkKq (kq_q s) (kdrop KReq (kq_held s)) (kq_n s) (kq_stack s) (kq_log s)). cbn [isreq isuser] in *.
      assert (C1 : core s1 (nwait s)). { apply core_ext; [exact C|intros w; specialize (Hd w); lia|intros t H; left; eapply kdrop_In; exact H]. }
      assert (M1 : mode s1 1). { unfold mode, stuck in *. cbn [s1 kq_q kq_held kq_stack kq_log]. lia. }
      destruct ok; [eapply success_inv|eapply fail_inv]; eassumption.
  - destruct (kq_stack s) as [|f k] eqn:Ek; [contradiction|]. set (s1 := mkKq (kq_q s) (kq_held s) (kq_n s) k (kq_log s)).
    assert (C1 : core s1 (nwait s)) by (apply core_ext; auto).
    assert (M1 : mode s1 (if isnext f then 1 else 0)). { unfold mode, stuck in *. cbn [s1 kq_q kq_held kq_stack kq_log]. rewrite Ek, count_cons in M. destruct (isnext f); lia. }
    destruct f; cbn [isnext] in M1.
    + split; [|exact M1]. assert (X : nwait s1 = nwait s) by (unfold nwait; cbn [s1 kq_stack]; rewrite Ek, count_cons; reflexivity). rewrite X. exact C1.
    + assert (X : nwait s = true) by (unfold nwait; rewrite Ek, count_cons; reflexivity). rewrite X in C1. destruct (kq_q s1) as [|r q] eqn:Eq; [unfold mode in M1; rewrite Eq in M1; lia|].
      eapply start_inv; [exact C1|exact M1|exact Eq|]. intros _. apply (c_wait _ _ C1). unfold waiting. rewrite Eq. left. reflexivity.
    + eapply fail_inv; eassumption.
Qed.
Lemma reach_inv s : reach s -> inv s.
Proof.
  unfold reach. intros H. remember kq_init as s0 eqn:E. induction H as [s|s s' m H IH A]; [|apply step_inv; auto]. subst s. split; [|reflexivity].
  constructor; cbn; try (intros; contradiction); try constructor; intros w; [destruct w; reflexivity|exists []; reflexivity].
Qed.
Lemma call_lt s w d f : core s (nwait s) -> In (KCall w d f) (kq_log s) -> w < kq_n s.
Proof. intros C H. pose proof (c_ev _ _ C) as E. rewrite Forall_forall in E. exact (E _ H). Qed.

(** ** Theorems *)
(** What the record layer is given: the bytes of the writes in the order of the calls, none twice, and all of a write that is reported to have succeeded; of queued writes
    no more than 128 KiB at a time. *)
Theorem C96_stream s : reach s -> StronglySorted N.le (pushed (kq_log s)) /\ (forall w, exists rest, asked w (kq_log s) = given w (kq_log s) ++ rest) /\
  (forall w cb, In (KOk w cb) (kq_log s) -> given w (kq_log s) = asked w (kq_log s)) /\ (forall w b f, In (KPush w true b f) (kq_log s) -> blen b <= 131072).
Proof.
  intros H. destruct (reach_inv s H) as ([] & _). repeat split; auto. intros w cb X. symmetry. eauto.
Qed.
(** No write is reported on twice, and the socket below has one request at most. *)
Theorem C96_once s w : reach s -> (outcomes w (kq_log s) <= 1)%nat /\ (length (filter (fun t => match t with KReq => true | _ => false end) (kq_held s)) <= 1)%nat.
Proof.
  intros H. destruct (reach_inv s H) as (C & M). pose proof (c_bal _ _ C w) as B. split; [destruct (w <? kq_n s); lia|].
  unfold mode in M. change (length (filter _ (kq_held s))) with (count isreq (kq_held s)). destruct (kq_q s); lia.
Qed.
(** When all is quiet every write with data has been reported on, if no queued write without data was given to the record layer. *)
Theorem C96_answered s w d f : reach s -> quiet s -> ~ emptied (kq_log s) -> In (KCall w d f) (kq_log s) -> asked w (kq_log s) <> [] -> outcomes w (kq_log s) = 1%nat.
Proof.
  intros H (Qh & Qs) E Hc Hd. destruct (reach_inv s H) as (C & M). pose proof (call_lt _ _ _ _ C Hc) as Hw. pose proof (c_bal _ _ C w) as B. rewrite (proj2 (N.ltb_lt _ _) Hw), Qh in B.
  unfold mode in M. rewrite Qh, Qs in M. unfold stuck in M. destruct (kq_q s) as [|r q].
  - assert (L : count (lost w) (kq_log s) = 0%nat); [|unfold count in *; cbn in B; lia]. unfold count. destruct (filter (lost w) (kq_log s)) as [|e l] eqn:F; [reflexivity|]. exfalso.
    assert (X : In e (filter (lost w) (kq_log s))) by (rewrite F; left; reflexivity). apply filter_In in X. destruct X as (X & L). destruct e as [|x qd b fl| |]; try discriminate L. destruct qd, b; try discriminate L. cbn in L. apply N.eqb_eq in L. subst x.
    apply Hd. eapply (c_empty _ _ C). exact X.
  - destruct (existsb (stuckb (k_w r)) (kq_log s)) eqn:X; [|cbn in M; lia]. apply existsb_exists in X. destruct X as (e & He & X). destruct e as [|x qd b fl| |]; try discriminate X. destruct qd, b; try discriminate X. exfalso. apply E. exists x, fl. exact He.
Qed.
(** So when no write is without data *)
Corollary C96_answered_nonempty s w d f : reach s -> quiet s -> (forall w, asked w (kq_log s) = [] -> forall d f, ~ In (KCall w d f) (kq_log s)) -> In (KCall w d f) (kq_log s) -> outcomes w (kq_log s) = 1%nat.
Proof.
  intros H Q N Hc. eapply C96_answered; eauto; [|intros X; exact (N _ X _ _ Hc)]. intros (x & fl & X). destruct (reach_inv s H) as (C & _). pose proof (c_empty _ _ C _ _ _ X) as A.
  assert (Y : exists d f, In (KCall x d f) (kq_log s)).
  { clear - H X. unfold reach in H. remember kq_init as s0 eqn:E. revert X. assert (G : forall y, In y (pushed (kq_log s)) \/ In y (map k_w (kq_q s)) -> exists d f, In (KCall y d f) (kq_log s)).
    2:{ intros X. apply G. left. apply in_flat_map. eexists. split; [exact X|]. left. reflexivity. }
    induction H as [s|s s' m H IH Al]; [subst; intros y [[]|[]]|]. specialize (IH E).
    assert (S : forall y, (In y (pushed (kq_log s')) \/ In y (map k_w (kq_q s'))) -> exists d f, In (KCall y d f) (kq_log s')) by exact IH. clear IH.
    assert (St : forall t, (forall y, In y (pushed (kq_log t)) \/ In y (map k_w (kq_q t)) -> exists d f, In (KCall y d f) (kq_log t)) -> forall y, In y (pushed (kq_log (kstart t))) \/ In y (map k_w (kq_q (kstart t))) -> exists d f, In (KCall y d f) (kq_log (kstart t))).
    { intros t Ht y. unfold kstart. destruct (kq_q t) as [|r q] eqn:Eq; [rewrite Eq; apply Ht|]. cbv zeta. set (fl' := match dropN _ _ with [] => _ | _ => _ end). unfold kpush. cbn [kq_q kq_held kq_n kq_stack kq_log].
      intros Hy. assert (Z : In y (pushed (kq_log t)) \/ In y (map k_w (r :: q))).
      { destruct (takeN kThreshold (k_data r)); cbn [kq_q kq_log] in Hy; rewrite pushed_app in Hy; cbn in Hy |- *; (destruct Hy as [Hy|Hy]; [apply in_app_or in Hy; destruct Hy as [Hy|[<-|[]]]; auto|auto]). }
      destruct (Ht _ Z) as (d & f & W). exists d, f. destruct (takeN kThreshold (k_data r)); cbn [kq_log]; apply in_or_app; left; exact W. }
    assert (Fa : forall t, (forall y, In y (pushed (kq_log t)) \/ In y (map k_w (kq_q t)) -> exists d f, In (KCall y d f) (kq_log t)) -> forall y, In y (pushed (kq_log (kfail t))) \/ In y (map k_w (kq_q (kfail t))) -> exists d f, In (KCall y d f) (kq_log (kfail t))).
    { intros t Ht y. unfold kfail. destruct (kq_q t) as [|r q] eqn:Eq; [rewrite Eq; apply Ht|]. cbn [kq_q kq_log]. rewrite pushed_app. cbn. rewrite app_nil_r. intros Hy.
      destruct (Ht y) as (d & f & W); [cbn; destruct Hy; auto|]. exists d, f. apply in_or_app. left. exact W. }
    destruct m as [cb data flags shared buffering early|t ok|]; cbn [kstep].
    - unfold kwrite. cbv zeta. cbn [kq_q kq_held kq_n kq_stack kq_log]. destruct (kq_q s') as [|r q] eqn:Eq.
      + destruct ((_ || _) && _ && _).
        * apply St. cbn [kq_q kq_log]. intros y. rewrite pushed_app. cbn. rewrite app_nil_r. intros [Hy|[<-|[]]]; [|eexists; eexists; apply in_or_app; right; left; reflexivity].
          destruct (S y (or_introl Hy)) as (d & f & W). exists d, f. apply in_or_app. left. exact W.
        * intros y Hy. assert (Z : In y (pushed (kq_log s')) \/ y = kq_n s').
          { unfold kpush in Hy. destruct data; cbn [kq_q kq_log] in Hy; rewrite !pushed_app in Hy; cbn in Hy; rewrite app_nil_r in Hy; (destruct Hy as [Hy|[]]); apply in_app_or in Hy; destruct Hy as [Hy|[<-|[]]]; auto. }
          assert (W : exists d f, In (KCall y d f) (kq_log s' ++ [KCall (kq_n s') data flags])).
          { destruct Z as [Z| ->]; [|eexists; eexists; apply in_or_app; right; left; reflexivity]. destruct (S y (or_introl Z)) as (d & f & W). exists d, f. apply in_or_app. left. exact W. }
          destruct W as (d & f & W). exists d, f. unfold kpush. destruct data; cbn [kq_log]; apply in_or_app; left; exact W.
      + cbn [kq_q kq_log]. intros y. rewrite pushed_app. cbn [pushed flat_map]. rewrite app_nil_r, map_app. intros Hy. assert (Z : (In y (pushed (kq_log s')) \/ In y (map k_w (r :: q))) \/ y = kq_n s').
        { destruct Hy as [Hy|Hy]; [auto|]. apply in_app_or in Hy. destruct Hy as [Hy|[<-|[]]]; auto. }
        destruct Z as [Z| ->]; [|eexists; eexists; apply in_or_app; right; left; reflexivity]. destruct (S y Z) as (d & f & W). exists d, f. apply in_or_app. left. exact W.
    - cbv zeta. destruct t as [w0 cb|].
      + cbn [kq_q kq_log]. intros y. rewrite pushed_app. assert (P : pushed [if ok then KOk w0 cb else KErr w0 cb None] = []) by (destruct ok; reflexivity). rewrite P, app_nil_r. intros Hy. destruct (S y Hy) as (d & f & W). exists d, f. apply in_or_app. left. exact W.
      + destruct ok; [|apply Fa; exact S]. unfold ksuccess. cbn [kq_q]. destruct (kq_q s') as [|r q] eqn:Eq; [cbn [kq_q kq_log]; exact S|]. destruct (k_data r); [|apply St; cbn [kq_q kq_log]; exact S].
        cbn [kq_q kq_log]. intros y. rewrite pushed_app. cbn [pushed flat_map]. rewrite app_nil_r. intros Hy. destruct (S y) as (d & f & W); [destruct Hy; [auto|right; right; assumption]|]. exists d, f. apply in_or_app. left. exact W.
    - destruct (kq_stack s') as [|g k]; [exact S|]. cbv zeta. destruct g; [exact S|apply St; exact S|apply Fa; exact S]. }
  destruct Y as (d1 & f1 & Y). exact (N _ A _ _ Y).
Qed.

(** ** Examples *)
Definition run (l : list kmove) : kq := fold_left kstep l kq_init.
Fixpoint may (s : kq) (l : list kmove) : Prop := match l with [] => True | m :: r => kallowed s m /\ may (kstep s m) r end.
Lemma run_reach l : may kq_init l -> reach (run l).
Proof.
  unfold run, reach. assert (G : forall l s, khist kq_init s -> may s l -> khist kq_init (fold_left kstep l s)); [|apply G; constructor].
  clear l. induction l as [|m l IH]; intros s H M; [exact H|]. destruct M as (A & M). apply IH; [constructor; assumption|exact M].
Qed.
Definition wr (d : bytes) : kmove := KWrite true d 0 true true false.
(** Two writes behind one, one of which fails with what is behind it; the callback of the first makes the fourth, which fails too. *)
Definition ex_run : list kmove := [wr [x61]; KReturn; wr [x62]; wr [x63]; KReport KReq true; wr [x64]; KReturn; KReturn; KReport KReq false; KReturn; KReturn; KReturn].
Example C96_met : reach (run ex_run) /\ quiet (run ex_run) /\ ~ emptied (kq_log (run ex_run)) /\
  kq_log (run ex_run) = [KCall 0 [x61] 0; KPush 0 true [x61] 0; KCall 1 [x62] 0; KCall 2 [x63] 0; KOk 0 true; KCall 3 [x64] 0; KPush 1 true [x62] 0; KErr 1 true (Some 1); KErr 2 true (Some 0); KErr 3 true (Some 0)].
Proof.
  split; [apply run_reach; vm_compute; intuition discriminate|]. split; [split; vm_compute; reflexivity|]. split; [|vm_compute; reflexivity]. intros (w & f & X). vm_compute in X. intuition discriminate.
Qed.
(** A write without data between two others: nothing is reported of it, nor of the one behind it. *)
Definition ex_stuck : list kmove := [wr [x61]; KReturn; wr []; wr [x63]; KReport KReq true; KReturn].
Example C96_stuck_met : reach (run ex_stuck) /\ quiet (run ex_stuck) /\ emptied (kq_log (run ex_stuck)) /\
  kq_log (run ex_stuck) = [KCall 0 [x61] 0; KPush 0 true [x61] 0; KCall 1 [] 0; KCall 2 [x63] 0; KOk 0 true; KPush 1 true [] 0].
Proof.
  split; [apply run_reach; vm_compute; intuition discriminate|]. split; [split; vm_compute; reflexivity|]. split; [|vm_compute; reflexivity]. exists 1, 0. vm_compute. tauto.
Qed.
(** Refuted: that every write with data is reported on in the end. *)
Theorem C96_answered_refuted : ~ (forall s w d f, reach s -> quiet s -> In (KCall w d f) (kq_log s) -> d <> [] -> outcomes w (kq_log s) = 1%nat).
Proof.
  intros H. destruct C96_stuck_met as (R & Q & _ & E). specialize (H _ 2 [x63] 0 R Q). rewrite E in H. specialize (H ltac:(cbn; tauto) ltac:(discriminate)). discriminate H.
Qed.
