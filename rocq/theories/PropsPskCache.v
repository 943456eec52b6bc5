(** * C73: the client's PSK caches *)
From Verif Require Import Base PskSer Server Client PskCache.
Open Scope N_scope.

(** ** Words used by the statements *)
(** the identity a call is about *)
Definition about (c : call) : bytes := match fst c with OGet i _ => i | OPut i _ => i | ORemove i => i end.
Definition is_get (c : call) : Prop := match fst c with OGet _ _ => True | _ => False end.
(** a call that uses an entry: it stores it, or it is answered with it *)
Definition uses (c : call) (i : bytes) (p : cpsk) : Prop :=
  match c with
  | (OPut j q, _) => j = i /\ q = p
  | (OGet j _, Some q) => j = i /\ q = p
  | _ => False
  end.
(** the identities used by the calls of a history *)
Definition usedBy (c : call) : list bytes := match c with (OPut j _, _) => [j] | (OGet j _, Some _) => [j] | _ => [] end.
Definition used (l : list call) : list bytes := flat_map usedBy l.
(** number of distinct identities used *)
Definition distinct (l : list bytes) : N := N.of_nat (length (nodup (list_eq_dec Byte.byte_eq_dec) l)).
Definition unexpired (p : cpsk) (now : Z) : Prop := (now <= pk_expire (cp_psk p))%Z.
(** what the history says is stored under an identity: the last of its puts, with no removal since *)
Definition stored (h : list call) (i : bytes) (p : cpsk) (since : list call) : Prop :=
  exists a r, h = a ++ (OPut i p, r) :: since /\ (forall c, In c since -> about c = i -> is_get c).
Definition lru_history (mapMax : N) (h : list call) : Prop := exists os, fst (lruRun (emptyLru mapMax) os) = h.
Definition basic_history (h : list call) : Prop := exists os, fst (basicRun [] os) = h.

(** ** Facts about the map *)
Notation beq_dec := (list_eq_dec Byte.byte_eq_dec).
Lemma beqb_refl i : bytes_eqb i i = true. Proof. apply bytes_eqb_eq; reflexivity. Qed.
Lemma beqb_neq i j : i <> j -> bytes_eqb i j = false.
Proof. intro N. destruct (bytes_eqb i j) eqn:E; [apply bytes_eqb_eq in E; contradiction|reflexivity]. Qed.

Lemma lookup_In i p l : lookup i l = Some p -> In (i, p) l.
Proof.
  induction l as [|[j q] l IH]; cbn; [discriminate|]. destruct (bytes_eqb i j) eqn:E; intro H.
  - apply bytes_eqb_eq in E. injection H as <-. left. congruence.
  - right. auto.
Qed.
Lemma lookup_none i l : lookup i l = None <-> ~ In i (map fst l).
Proof.
  induction l as [|[j q] l IH]; cbn; [tauto|]. destruct (bytes_eqb i j) eqn:E.
  - apply bytes_eqb_eq in E. subst. split; [discriminate|tauto].
  - rewrite IH. split; [|tauto]. intros H [->|]; [rewrite beqb_refl in E; discriminate|tauto].
Qed.
Lemma without_In i e l : In e (without i l) <-> In e l /\ fst e <> i.
Proof.
  unfold without. rewrite filter_In. split; intros [A B]; split; auto.
  - intro E. subst. rewrite beqb_refl in B. discriminate.
  - rewrite beqb_neq; auto.
Qed.
Lemma without_keys i j l : In j (map fst (without i l)) <-> In j (map fst l) /\ j <> i.
Proof.
  rewrite !in_map_iff. split.
  - intros [e [<- H]]. apply without_In in H. destruct H. split; eauto.
  - intros [[e [<- H]] N]. exists e. split; [reflexivity|]. apply without_In. auto.
Qed.
Lemma without_nodup i l : NoDup (map fst l) -> NoDup (map fst (without i l)).
Proof.
  induction l as [|[j q] l IH]; cbn; intro H; [constructor|]. inversion H as [|? ? H1 H2]; subst.
  destruct (negb (bytes_eqb i j)); cbn; [|auto]. constructor; auto. intro K. apply without_keys in K. tauto.
Qed.
Lemma without_id i l : ~ In i (map fst l) -> without i l = l.
Proof.
  induction l as [|[j q] l IH]; cbn; intro H; [reflexivity|]. rewrite beqb_neq by (intro; subst; tauto). cbn. unfold without in IH. rewrite IH; tauto.
Qed.
Lemma without_app i l m : without i (l ++ m) = without i l ++ without i m.
Proof. unfold without. apply filter_app. Qed.
Lemma without_len i l : (length (without i l) <= length l)%nat.
Proof. unfold without. induction l as [|e l IH]; cbn; [lia|]. destruct (negb _); cbn; lia. Qed.
Lemma without_len_in i l : In i (map fst l) -> (length (without i l) < length l)%nat.
Proof.
  induction l as [|[j q] l IH]; cbn; [tauto|]. intros [->|H].
  - rewrite beqb_refl. cbn. pose proof (without_len i l). unfold without in *. lia.
  - specialize (IH H). unfold without in *. destruct (negb _); cbn; lia.
Qed.
Lemma nodup_lookup i p l : NoDup (map fst l) -> In (i, p) l -> lookup i l = Some p.
Proof.
  induction l as [|[j q] l IH]; cbn; [tauto|]. intros H K. inversion H as [|? ? H1 H2]; subst.
  destruct (bytes_eqb i j) eqn:E.
  - apply bytes_eqb_eq in E. subst. destruct K as [K|K]; [congruence|]. exfalso. apply H1. apply in_map_iff. exists (j, p). auto.
  - destruct K as [K|K]; [|auto]. injection K as -> ->. rewrite beqb_refl in E. discriminate.
Qed.
Lemma removelast_In {A} (x : A) l : In x (removelast l) -> In x l.
Proof. induction l as [|a l IH]; cbn; [tauto|]. destruct l; cbn in *; [tauto|]. intros [->|H]; auto. Qed.
Lemma removelast_nodup (l : entries) : NoDup (map fst l) -> NoDup (map fst (removelast l)).
Proof.
  induction l as [|a l IH]; cbn; intro H; [constructor|]. inversion H as [|? ? H1 H2]; subst. destruct l as [|b l]; [constructor|].
  cbn [map]. constructor; auto. intro K. apply H1. apply in_map_iff in K. destruct K as [e [E K]]. apply removelast_In in K.
  apply in_map_iff. eauto.
Qed.
Lemma removelast_len {A} (l : list A) : length (removelast l) = pred (length l).
Proof. induction l as [|a l IH]; [reflexivity|]. destruct l; [reflexivity|]. cbn [removelast length] in *. rewrite IH. reflexivity. Qed.

(** what the map always satisfies *)
Definition wf (m : lru) : Prop :=
  NoDup (map fst (lr_list m)) /\ (0 < lr_max m -> N.of_nat (length (lr_list m)) <= lr_max m).
Lemma front_nodup i (p : cpsk) l : NoDup (map fst l) -> NoDup (map fst ((i, p) :: without i l)).
Proof. intro H. cbn. constructor; [|apply without_nodup, H]. intro K. apply without_keys in K. tauto. Qed.
Lemma find_wf m i r m1 : lruFind m i = (r, m1) -> wf m -> wf m1 /\ lr_max m1 = lr_max m.
Proof.
  unfold lruFind. destruct (lookup i (lr_list m)) eqn:E; intro H; injection H as <- <-; [|tauto]. intros [A B]. split; [|reflexivity]. split.
  - apply front_nodup, A.
  - cbn [lr_max lr_list]. intro H. specialize (B H). pose proof (without_len_in i (lr_list m)) as W.
    apply lookup_In in E. assert (In i (map fst (lr_list m))) by (apply in_map_iff; exists (i, c); auto). specialize (W H0).
    cbn [length]. lia.
Qed.
Lemma erase_wf m i : wf m -> wf (lruErase m i).
Proof. intros [A B]. split; cbn; [apply without_nodup, A|]. intro H. specialize (B H). pose proof (without_len i (lr_list m)). lia. Qed.
Lemma set_wf m i p : wf m -> wf (lruSet m i p).
Proof.
  intros [A B]. unfold lruSet. split.
  - cbn [lr_list]. destruct (_ && _); [apply removelast_nodup|]; apply front_nodup, A.
  - cbn [lr_max lr_list]. intro H. specialize (B H). destruct (0 <? lr_max m) eqn:E; [|lia]. cbn [andb].
    destruct (lr_max m <? _) eqn:F; [|lia]. rewrite removelast_len. cbn [length]. pose proof (without_len i (lr_list m)). lia.
Qed.
Lemma step_wf m o : wf m -> wf (snd (lruStep m o)) /\ lr_max (snd (lruStep m o)) = lr_max m.
Proof.
  intro W. destruct o as [i now|i p|i]; cbn [lruStep].
  - destruct (lruFind m i) as [r m1] eqn:E. destruct (find_wf _ _ _ _ E W) as [W1 M1].
    unfold lruCheck. destruct r as [p|]; cbn [snd]; [|auto]. destruct (_ <? now)%Z; cbn [snd]; [|auto]. split; [apply erase_wf, W1|exact M1].
  - cbn [snd]. split; [apply set_wf, W|reflexivity].
  - cbn [snd]. split; [apply erase_wf, W|reflexivity].
Qed.
Lemma run_app m a b : lruRun m (a ++ b) = (fst (lruRun m a) ++ fst (lruRun (snd (lruRun m a)) b), snd (lruRun (snd (lruRun m a)) b)).
Proof.
  revert m; induction a as [|o a IH]; intro m; cbn [app lruRun fst snd]; [destruct (lruRun m b); reflexivity|].
  destruct (lruStep m o) as [r m1]. rewrite IH. destruct (lruRun m1 a) as [l m2]. cbn [fst snd]. reflexivity.
Qed.
Lemma run_ops m os : map fst (fst (lruRun m os)) = os.
Proof.
  revert m; induction os as [|o os IH]; intro m; cbn [lruRun]; [reflexivity|]. destruct (lruStep m o) as [r m1]. specialize (IH m1).
  destruct (lruRun m1 os). cbn [fst map]. f_equal. exact IH.
Qed.
Lemma run_wf m os : wf m -> wf (snd (lruRun m os)) /\ lr_max (snd (lruRun m os)) = lr_max m.
Proof.
  revert m; induction os as [|o os IH]; intros m W; cbn [lruRun]; [auto|]. destruct (step_wf m o W) as [W1 M1].
  destruct (lruStep m o) as [r m1]. cbn [snd] in *. specialize (IH m1 W1). destruct (lruRun m1 os). cbn [snd] in *. intuition congruence.
Qed.
Lemma empty_wf n : wf (emptyLru n). Proof. split; cbn; [constructor|lia]. Qed.
(** a history split at a call *)
Lemma hist_split n h l1 c l2 : lru_history n h -> h = l1 ++ c :: l2 ->
  exists m, m = snd (lruRun (emptyLru n) (map fst l1)) /\ fst (lruRun (emptyLru n) (map fst l1)) = l1 /\ wf m /\ lr_max m = n
    /\ fst (lruStep m (fst c)) = snd c.
Proof.
  intros [os H] E. assert (O : os = map fst l1 ++ fst c :: map fst l2) by (rewrite <- (run_ops (emptyLru n) os), H, E, map_app; reflexivity).
  subst os. rewrite run_app in H. cbn [fst] in H. rewrite E in H.
  assert (L : length (fst (lruRun (emptyLru n) (map fst l1))) = length l1)
    by (rewrite <- (map_length fst (fst (lruRun _ _))), run_ops, map_length; reflexivity).
  apply app_inj_len in H; [|unfold blen; rewrite L; reflexivity]. destruct H as [H1 H2].
  destruct (run_wf (emptyLru n) (map fst l1) (empty_wf n)) as [W M]. eexists. split; [reflexivity|]. split; [exact H1|]. split; [exact W|]. split; [exact M|].
  cbn [lruRun] in H2. destruct (lruStep _ (fst c)) as [r m1]. destruct (lruRun m1 (map fst l2)). cbn [fst] in *. injection H2 as H2 _.
  destruct c; cbn [fst snd] in *. congruence.
Qed.

(** ** What a history leaves in the map *)
Lemma step_In m o i p : wf m -> In (i, p) (lr_list (snd (lruStep m o))) ->
  o = OPut i p \/ (In (i, p) (lr_list m) /\ (match o with OGet j _ => j | OPut j _ => j | ORemove j => j end = i -> exists now, o = OGet i now /\ fst (lruStep m o) = Some p)).
Proof.
  intros [W _]. destruct o as [j now|j q|j]; cbn [lruStep].
  - unfold lruFind. destruct (lookup j (lr_list m)) as [q|] eqn:E; cbn [lruCheck].
    + destruct (_ <? now)%Z; cbn [fst snd lr_list lruErase]; intro H.
      * apply without_In in H. destruct H as [H1 H2]. cbn [fst] in H2. destruct H1 as [H1|H1]; [injection H1 as -> ->; contradiction|].
        apply without_In in H1. right. split; [tauto|]. intro; subst; contradiction.
      * destruct H as [H|H].
        -- injection H as -> ->. right. split; [apply lookup_In, E|]. intros _. eauto.
        -- apply without_In in H. destruct H as [H1 H2]. right. split; [exact H1|]. cbn [fst] in H2. intro; subst; contradiction.
    + cbn [fst snd]. intro H. right. split; [exact H|]. intros ->. apply lookup_none in E. exfalso. apply E. apply in_map_iff. exists (i, p). auto.
  - cbn [snd]. unfold lruSet. cbn [lr_list]. intro H.
    assert (H' : In (i, p) ((j, q) :: without j (lr_list m))) by (destruct (_ && _) in H; [apply removelast_In|]; exact H). clear H.
    destruct H' as [H|H]; [left; congruence|]. apply without_In in H. destruct H as [H1 H2]. right. split; [exact H1|]. intro; subst; cbn in H2; contradiction.
  - cbn [snd lruErase lr_list]. intro H. apply without_In in H. destruct H as [H1 H2]. right. split; [exact H1|]. intro; subst; cbn in H2; contradiction.
Qed.

Lemma kept_In n os i p : In (i, p) (lr_list (snd (lruRun (emptyLru n) os))) ->
  exists since, stored (fst (lruRun (emptyLru n) os)) i p since /\ (forall c, In c since -> about c = i -> snd c = Some p).
Proof.
  induction os as [|o os IH] using rev_ind; [cbn; tauto|]. rewrite run_app. cbn [fst snd lruRun].
  destruct (run_wf (emptyLru n) os (empty_wf n)) as [W _].
  pose proof (step_In (snd (lruRun (emptyLru n) os)) o i p W) as S.
  destruct (lruStep (snd (lruRun (emptyLru n) os)) o) as [r m1] eqn:E. cbn [fst snd] in *. intro H.
  destruct (S H) as [->|[H1 H2]].
  - exists []. split; [|intros ? []]. eexists _, r. split; [reflexivity|]. intros ? [].
  - destruct (IH H1) as [since [[a [r0 [E1 E2]]] A]]. exists (since ++ [(o, r)]). split.
    + exists a, r0. split; [rewrite E1, <- app_assoc; reflexivity|].
      intros c K K1. apply in_app_or in K. destruct K as [K|[<-|[]]]; [auto|]. destruct (H2 K1) as [now [-> _]]. exact Logic.I.
    + intros c K K1. apply in_app_or in K. destruct K as [K|[<-|[]]]; [auto|]. destruct (H2 K1) as [now [_ R]]. exact R.
Qed.

(** ** C73: what a get returns *)
(** A PSK handed out is the one last stored under that identity, not removed since, not expired, and every lookup since the put was answered with it. *)
Theorem C73_get n h l1 i now p l2 : lru_history n h -> h = l1 ++ (OGet i now, Some p) :: l2 ->
  unexpired p now /\ exists since, stored l1 i p since /\ (forall c, In c since -> about c = i -> snd c = Some p).
Proof.
  intros H E. destruct (hist_split _ _ _ _ _ H E) as [m [Em [El [W [M R]]]]]. cbn [fst snd lruStep] in R.
  unfold lruFind in R. destruct (lookup i (lr_list m)) as [q|] eqn:L; cbn [lruCheck] in R; [|discriminate].
  destruct (_ <? now)%Z eqn:T; cbn [fst] in R; [discriminate|]. injection R as ->. split.
  - unfold unexpired. lia.
  - apply lookup_In in L. subst m. destruct (kept_In _ _ _ _ L) as [since K]. rewrite El in K. eauto.
Qed.

(** ** C73: what is kept *)
Lemma usedBy_get j now q : usedBy (OGet j now, Some q) = [j]. Proof. reflexivity. Qed.
Lemma split_len (F B : entries) e : length (F ++ e :: B) = (length F + 1 + length B)%nat.
Proof. rewrite app_length. cbn. lia. Qed.
Lemma distinct_bound (F : list bytes) U : NoDup F -> incl F U -> N.of_nat (length F) <= distinct U.
Proof.
  intros N I. unfold distinct. apply (NoDup_incl_length N) with (l' := nodup beq_dec U) || idtac.
  assert (length F <= length (nodup beq_dec U))%nat; [|lia]. apply NoDup_incl_length; [exact N|]. intros x K. apply nodup_In, I, K.
Qed.
Lemma distinct_bound2 (F : list bytes) U : incl U F -> distinct U <= N.of_nat (length F).
Proof.
  intro I. unfold distinct. assert (length (nodup beq_dec U) <= length F)%nat; [|lia].
  apply NoDup_incl_length; [apply NoDup_nodup|]. intros x K. apply nodup_In in K. auto.
Qed.
Lemma without_split i p j F B : i <> j -> without j (F ++ (i, p) :: B) = without j F ++ (i, p) :: without j B.
Proof. intro N. rewrite without_app. cbn [without filter]. unfold without at 2. cbn [filter fst]. rewrite beqb_neq by congruence. reflexivity. Qed.
Lemma keys_incl j l : incl (map fst (without j l)) (map fst l).
Proof. intros x K. apply without_keys in K. tauto. Qed.
Lemma removelast_split (F B : entries) e : B <> [] -> removelast (F ++ e :: B) = F ++ e :: removelast B.
Proof.
  intro H. induction F as [|f F IH].
  - cbn [app]. destruct B; [contradiction|reflexivity].
  - cbn [app]. rewrite <- IH. destruct F; reflexivity.
Qed.

(** one call about another identity keeps the entry unless the map overflows with entries used since *)
Lemma step_split m o i p F B U : wf m -> lr_list m = F ++ (i, p) :: B ->
  match o with OGet j _ => j | OPut j _ => j | ORemove j => j end <> i ->
  incl (map fst F) U -> incl (usedBy (o, fst (lruStep m o))) U -> (lr_max m = 0 \/ distinct U < lr_max m) ->
  exists F' B', lr_list (snd (lruStep m o)) = F' ++ (i, p) :: B' /\ incl (map fst F') U.
Proof.
  intros W E N I V C. destruct o as [j now|j q|j]; cbn [lruStep] in *.
  - unfold lruFind in *. destruct (lookup j (lr_list m)) as [q|] eqn:L; cbn [lruCheck] in *; [|cbn [snd]; eauto].
    destruct (_ <? now)%Z; cbn [fst snd lr_list lruErase] in *.
    + rewrite E, without_split by congruence. change ((j, q) :: ?x) with ([(j, q)] ++ x). rewrite without_app, without_split by congruence.
      exists (without j [(j, q)] ++ without j (without j F)), (without j (without j B)). rewrite <- app_assoc. split; [reflexivity|].
      rewrite map_app. apply incl_app.
      * intros x K. apply without_keys in K. cbn in K. destruct K as [[->|[]] K]. congruence.
      * intros x K. apply I. apply keys_incl in K. apply keys_incl in K. exact K.
    + rewrite E, without_split by congruence. exists ((j, q) :: without j F), (without j B). split; [reflexivity|].
      cbn [map fst]. intros x [<-|K]; [apply V; left; reflexivity|]. apply I. apply keys_incl in K. exact K.
  - cbn [fst snd] in *. pose proof (set_wf m j q W) as W'. unfold lruSet in *. cbn [lr_list lr_max] in *. destruct W' as [ND _].
    rewrite E, without_split in * by congruence. change ((j, q) :: without j F ++ (i, p) :: without j B) with (((j, q) :: without j F) ++ (i, p) :: without j B) in *.
    assert (I' : incl (map fst ((j, q) :: without j F)) U).
    { cbn [map fst]. intros x [<-|K]; [apply V; left; reflexivity|]. apply I. apply keys_incl in K. exact K. }
    destruct ((0 <? lr_max m) && (lr_max m <? _)) eqn:O; [|eauto].
    destruct (without j B) as [|e B'] eqn:EB.
    + exfalso. rewrite ?O in ND. rewrite ?EB in ND. rewrite ?EB in O. rewrite removelast_app in ND by discriminate. cbn [removelast] in ND. rewrite app_nil_r in ND.
      pose proof (distinct_bound _ _ ND I') as D. rewrite map_length in D. rewrite split_len in O. cbn [length lr_list] in *. lia.
    + rewrite removelast_split by discriminate. eauto.
  - cbn [snd lruErase lr_list]. rewrite E, without_split by congruence. exists (without j F), (without j B). split; [reflexivity|].
    intros x K. apply I. apply keys_incl in K. exact K.
Qed.

Lemma window_kept i p U : forall os m F B, wf m -> lr_list m = F ++ (i, p) :: B -> (forall c, In c (fst (lruRun m os)) -> about c <> i) ->
  incl (map fst F) U -> incl (used (fst (lruRun m os))) U -> (lr_max m = 0 \/ distinct U < lr_max m) ->
  exists F' B', lr_list (snd (lruRun m os)) = F' ++ (i, p) :: B'.
Proof.
  induction os as [|o os IH]; intros m F B W E A I V C; cbn [lruRun] in *; [cbn [snd]; eauto|].
  destruct (step_wf m o W) as [W1 M1]. pose proof (step_split m o i p F B U W E) as S.
  destruct (lruStep m o) as [r m1] eqn:Es. specialize (IH m1). destruct (lruRun m1 os) as [l m2] eqn:Er. cbn [fst snd used flat_map] in *.
  destruct S as [F' [B' [S1 S2]]]; [apply (A (o, r)); left; reflexivity|exact I|intros x K; apply V; apply in_or_app; left; exact K|exact C|].
  apply (IH F' B' W1 S1); [intros c K; apply A; right; exact K|exact S2|intros x K; apply V; apply in_or_app; right; exact K|rewrite M1; exact C].
Qed.

Lemma use_front m c i p : wf m -> fst (lruStep m (fst c)) = snd c -> uses c i p -> exists B, lr_list (snd (lruStep m (fst c))) = (i, p) :: B.
Proof.
  destruct c as [o r]. cbn [fst snd]. intros W R U. destruct o as [j now|j q|j]; cbn [uses] in U.
  - destruct r as [q|]; [|contradiction]. destruct U as [-> ->]. cbn [lruStep] in *. unfold lruFind in *. destruct (lookup i (lr_list m)) as [q|] eqn:L; cbn [lruCheck] in *; [|discriminate].
    destruct (_ <? now)%Z; cbn [fst snd] in *; [discriminate|]. injection R as ->. cbn [lr_list]. eauto.
  - destruct U as [-> ->]. cbn [lruStep snd]. unfold lruSet. cbn [lr_list]. destruct ((0 <? lr_max m) && (lr_max m <? _)) eqn:O; [|eauto].
    cbn [length] in O. destruct (without i (lr_list m)) as [|e B] eqn:E; [rewrite ?E in O; cbn [length] in O; lia|]. cbn [removelast]. eauto.
  - contradiction.
Qed.

Lemma hist_window n h a c b d l2 : lru_history n h -> h = a ++ c :: b ++ d :: l2 ->
  exists m0 m, wf m0 /\ lr_max m0 = n /\ fst (lruStep m0 (fst c)) = snd c /\
    lruRun (snd (lruStep m0 (fst c))) (map fst b) = (b, m) /\ fst (lruStep m (fst d)) = snd d.
Proof.
  intros H E. destruct (hist_split n h a c (b ++ d :: l2) H E) as [m0 [E0 [El [W [M R]]]]].
  assert (E' : h = (a ++ c :: b) ++ d :: l2) by (rewrite E, <- app_assoc; reflexivity).
  destruct (hist_split n h _ d l2 H E') as [m [Em [El' [_ [_ R']]]]].
  rewrite map_app in *. rewrite run_app in Em, El'. rewrite <- E0 in *. rewrite El in El'. cbn [fst snd map lruRun] in *.
  destruct (lruStep m0 (fst c)) as [r m1] eqn:Es. destruct (lruRun m1 (map fst b)) as [lb m2] eqn:Er. cbn [fst snd] in *.
  apply app_inv_head in El'. injection El' as _ ->. exists m0, m2. rewrite Es. cbn [fst snd]. subst m. auto.
Qed.

(** An entry is still there as long as fewer than [n] other identities have been used since it was last used. *)
Theorem C73_retained n h a c b i p now r l2 : lru_history n h -> h = a ++ c :: b ++ (OGet i now, r) :: l2 ->
  uses c i p -> (forall d, In d b -> about d <> i) -> (n = 0 \/ distinct (used b) < n) -> unexpired p now -> r = Some p.
Proof.
  intros H E U A C X. destruct (hist_window _ _ _ _ _ _ _ H E) as [m0 [m [W [M [R [Er R']]]]]]. cbn [fst snd] in R'.
  destruct (use_front m0 c i p W R U) as [B EB]. destruct (step_wf m0 (fst c) W) as [W1 M1].
  pose proof (window_kept i p (used b) (map fst b) (snd (lruStep m0 (fst c))) [] B W1 EB) as K. rewrite Er in K. cbn [fst snd] in K.
  destruct K as [F' [B' K]]; auto; [intros ? []|intros ? x; exact x|rewrite M1, M; exact C|].
  pose proof (run_wf (snd (lruStep m0 (fst c))) (map fst b) W1) as [[ND _] _]. rewrite Er in ND. cbn [snd] in ND.
  assert (L : lookup i (lr_list m) = Some p) by (apply nodup_lookup; [exact ND|rewrite K; apply in_or_app; right; left; reflexivity]).
  cbn [lruStep] in R'. unfold lruFind in R'. rewrite L in R'. cbn [lruCheck] in R'. unfold unexpired in X.
  destruct (_ <? now)%Z eqn:T; [lia|]. cbn [fst] in R'. congruence.
Qed.

(** ** C73: what is evicted *)
Definition front_or_gone (i : bytes) (p : cpsk) (U : list bytes) (m : lru) : Prop :=
  lookup i (lr_list m) = None \/ exists F B, lr_list m = F ++ (i, p) :: B /\ incl U (map fst F).
Lemma gone_step m o i : wf m -> match o with OGet j _ => j | OPut j _ => j | ORemove j => j end <> i ->
  lookup i (lr_list m) = None -> lookup i (lr_list (snd (lruStep m o))) = None.
Proof.
  intros W N L. apply lookup_none. intro K. apply in_map_iff in K. destruct K as [[j q] [E K]]. cbn [fst] in E. subst j.
  destruct (step_In m o i q W K) as [->|[H _]]; [contradiction|]. apply lookup_none in L. apply L. apply in_map_iff. exists (i, q). auto.
Qed.
Lemma front_step m o i p U : wf m -> front_or_gone i p U m ->
  match o with OGet j _ => j <> i /\ fst (lruStep m o) <> None | OPut j _ => j <> i | ORemove j => False end ->
  front_or_gone i p (usedBy (o, fst (lruStep m o)) ++ U) (snd (lruStep m o)).
Proof.
  intros W [G|[F [B [E I]]]] N.
  - left. apply gone_step; auto. destruct o; tauto.
  - destruct o as [j now|j q|j]; [| |contradiction]; cbn [lruStep] in *.
    + destruct N as [N S]. unfold lruFind in *. destruct (lookup j (lr_list m)) as [q|] eqn:L; cbn [lruCheck] in *; [|cbn in S; contradiction].
      destruct (_ <? now)%Z; cbn [fst snd] in *; [contradiction|]. right. cbn [lr_list]. rewrite E, without_split by congruence.
      exists ((j, q) :: without j F), (without j B). split; [reflexivity|]. cbn [usedBy app map fst]. intros x [<-|K]; [left; reflexivity|].
      destruct (beq_dec x j) as [->|D]; [left; reflexivity|]. right. apply without_keys. auto.
    + cbn [fst snd usedBy app]. pose proof (set_wf m j q W) as [ND _]. unfold front_or_gone. unfold lruSet in *. cbn [lr_list lr_max] in *.
      rewrite E, without_split in * by congruence.
      change ((j, q) :: without j F ++ (i, p) :: without j B) with (((j, q) :: without j F) ++ (i, p) :: without j B) in *.
      assert (I' : incl (j :: U) (map fst ((j, q) :: without j F))).
      { cbn [map fst]. intros x [<-|K]; [left; reflexivity|]. destruct (beq_dec x j) as [->|D]; [left; reflexivity|]. right. apply without_keys. auto. }
      destruct (_ && _); [|right; eauto]. destruct (without j B) as [|e B'] eqn:EB.
      * left. rewrite removelast_app by discriminate. cbn [removelast]. rewrite app_nil_r. apply lookup_none. cbn [map fst]. intros [K|K]; [congruence|].
        apply without_keys in K. destruct W as [W _]. rewrite E in W. rewrite map_app in W. cbn [map fst] in W. apply NoDup_remove_2 in W. apply W. apply in_or_app. tauto.
      * right. rewrite removelast_split by discriminate. eauto.
Qed.
Lemma window_gone i p : forall os m U, wf m -> front_or_gone i p U m ->
  (forall c, In c (fst (lruRun m os)) -> about c <> i /\ usedBy c <> []) ->
  exists V, front_or_gone i p V (snd (lruRun m os)) /\ incl (used (fst (lruRun m os))) V /\ incl U V.
Proof.
  induction os as [|o os IH]; intros m U W G A; cbn [lruRun] in *.
  - exists U. cbn. split; [exact G|]. split; [intros ? []|intros ? x; exact x].
  - destruct (step_wf m o W) as [W1 M1]. pose proof (front_step m o i p U W G) as S.
    destruct (lruStep m o) as [r m1] eqn:Es. specialize (IH m1 (usedBy (o, r) ++ U)). destruct (lruRun m1 os) as [l m2] eqn:Er. cbn [fst snd used flat_map] in *.
    destruct IH as [V [V1 [V2 V3]]]; [exact W1| |intros d K; apply A; right; exact K|].
    + apply S. destruct (A (o, r)) as [A1 A2]; [left; reflexivity|]. unfold about in A1. cbn [fst] in A1. destruct o; cbn [usedBy] in A2; [destruct r|..]; try contradiction; auto. split; [exact A1|discriminate].
    + exists V. split; [exact V1|]. split; [|intros x K; apply V3, in_or_app; right; exact K].
      intros x K. apply in_app_or in K. destruct K as [K|K]; [apply V3, in_or_app; left; exact K|apply V2, K].
Qed.

(** With nothing removed in between, once [n] other identities have been used since its last use the entry is gone. *)
Theorem C73_evicted n h a c b i p now r l2 : lru_history n h -> h = a ++ c :: b ++ (OGet i now, r) :: l2 ->
  uses c i p -> (forall d, In d b -> about d <> i /\ usedBy d <> []) -> 0 < n <= distinct (used b) -> r = None.
Proof.
  intros H E U A C. destruct (hist_window _ _ _ _ _ _ _ H E) as [m0 [m [W [M [R [Er R']]]]]]. cbn [fst snd] in R'.
  destruct (use_front m0 c i p W R U) as [B EB]. destruct (step_wf m0 (fst c) W) as [W1 M1].
  pose proof (window_gone i p (map fst b) (snd (lruStep m0 (fst c))) [] W1) as K. rewrite Er in K. cbn [fst snd] in K.
  destruct K as [V [K1 [K2 _]]]; auto; [right; exists [], B; split; [exact EB|intros ? []]|].
  pose proof (run_wf (snd (lruStep m0 (fst c))) (map fst b) W1) as [[_ L] MM]. rewrite Er in *. cbn [snd] in *. rewrite MM, M1, M in L.
  destruct K1 as [K1|[F [B' [K1 K3]]]].
  - cbn [lruStep] in R'. unfold lruFind in R'. rewrite K1 in R'. cbn in R'. congruence.
  - exfalso. specialize (L ltac:(lia)). rewrite K1, split_len in L.
    assert (I2 : incl (used b) (map fst F)) by (intros x Kx; apply K3, K2, Kx).
    pose proof (distinct_bound2 _ _ I2) as D. rewrite map_length in D. lia.
Qed.

(** ** C73: the size *)
(** After any history at most [n] identities are answered. *)
Theorem C73_bounded n h ids : 0 < n -> NoDup ids ->
  (forall i, In i ids -> exists now p, lru_history n (h ++ [(OGet i now, Some p)])) -> N.of_nat (length ids) <= n.
Proof.
  intros P ND H. destruct ids as [|i0 ids0] eqn:Ei; [cbn; lia|]. rewrite <- Ei in *.
  assert (K : incl ids (map fst (lr_list (snd (lruRun (emptyLru n) (map fst h)))))).
  { intros i Ki. destruct (H i Ki) as [now [p Hp]]. destruct (hist_split n _ h _ [] Hp eq_refl) as [m [-> [_ [_ [_ R]]]]].
    cbn [fst snd lruStep] in R. unfold lruFind in R. destruct (lookup i _) as [q|] eqn:L; [|cbn in R; discriminate].
    apply lookup_In in L. apply in_map_iff. exists (i, q). auto. }
  destruct (run_wf (emptyLru n) (map fst h) (empty_wf n)) as [[W1 W2] M]. pose proof (NoDup_incl_length ND K) as L. rewrite map_length in L.
  cbn [emptyLru lr_max] in M. rewrite M in W2. specialize (W2 P). lia.
Qed.

(** ** C73: the unbounded cache *)
Lemma brun_app m a b : basicRun m (a ++ b) = (fst (basicRun m a) ++ fst (basicRun (snd (basicRun m a)) b), snd (basicRun (snd (basicRun m a)) b)).
Proof.
  revert m; induction a as [|o a IH]; intro m; cbn [app basicRun fst snd]; [destruct (basicRun m b); reflexivity|].
  destruct (basicStep m o) as [r m1]. rewrite IH. destruct (basicRun m1 a) as [l m2]. cbn [fst snd]. reflexivity.
Qed.
Lemma brun_ops m os : map fst (fst (basicRun m os)) = os.
Proof.
  revert m; induction os as [|o os IH]; intro m; cbn [basicRun]; [reflexivity|]. destruct (basicStep m o) as [r m1]. specialize (IH m1).
  destruct (basicRun m1 os). cbn [fst map]. f_equal. exact IH.
Qed.
Lemma lookup_front i j p l : lookup i ((j, p) :: without j l) = if bytes_eqb i j then Some p else lookup i l.
Proof.
  cbn [lookup]. destruct (bytes_eqb i j) eqn:E; [reflexivity|]. induction l as [|[k q] l IH]; [reflexivity|].
  cbn [without filter fst]. destruct (bytes_eqb j k) eqn:F; cbn [negb lookup].
  - apply bytes_eqb_eq in F. subst k. rewrite E. exact IH.
  - destruct (bytes_eqb i k); [reflexivity|exact IH].
Qed.
Lemma lookup_without i j l : lookup i (without j l) = if bytes_eqb i j then None else lookup i l.
Proof.
  destruct (bytes_eqb i j) eqn:E.
  - apply bytes_eqb_eq in E. subst. apply lookup_none. intro K. apply without_keys in K. tauto.
  - pose proof (lookup_front i j (mkCpsk PskNotSupported (mkPsk [] [] 0 0 None None 0 0 0 None None 0 0)) l) as H. cbn [lookup] in H. rewrite E in H. exact H.
Qed.
Lemma stored_snoc_other h i p since c : stored h i p since -> (about c = i -> is_get c) -> stored (h ++ [c]) i p (since ++ [c]).
Proof.
  intros [a [r [E A]]] K. exists a, r. split; [rewrite E, <- app_assoc; reflexivity|]. intros d D. apply in_app_or in D. destruct D as [D|[<-|[]]]; auto.
Qed.
Lemma stored_snoc_inv h i p since c : stored (h ++ [c]) i p since -> ~ (about c = i /\ ~ is_get c) -> exists s, since = s ++ [c] /\ stored h i p s.
Proof.
  intros [a [r [E A]]] K. destruct since as [|d s] using rev_ind.
  - apply app_inj_tail in E. destruct E as [_ ->]. exfalso. apply K. split; [reflexivity|]. cbn. tauto.
  - clear IHs. change (a ++ (OPut i p, r) :: s ++ [d]) with (a ++ ((OPut i p, r) :: s) ++ [d]) in E. rewrite app_assoc in E. apply app_inj_tail in E. destruct E as [E ->].
    exists s. split; [reflexivity|]. exists a, r. split; [exact E|]. intros e Ke. apply A, in_or_app. auto.
Qed.
Lemma basic_lookup os i p : lookup i (snd (basicRun [] os)) = Some p <-> exists since, stored (fst (basicRun [] os)) i p since.
Proof.
  induction os as [|o os IH] using rev_ind.
  - cbn. split; [discriminate|]. intros [s [a [r [E _]]]]. destruct a; discriminate.
  - rewrite brun_app. cbn [fst snd basicRun]. destruct (basicRun [] os) as [h l] eqn:Eb. cbn [fst snd] in *.
    destruct o as [j now|j q|j]; cbn [basicStep fst snd].
    + rewrite IH. split.
      * intros [s S]. exists (s ++ [(OGet j now, lookup j l)]). apply stored_snoc_other; [exact S|]. intros _. exact Logic.I.
      * intros [s S]. apply stored_snoc_inv in S; [|intros [_ K]; apply K; exact Logic.I]. destruct S as [s' [_ S]]. eauto.
    + rewrite lookup_front. destruct (bytes_eqb i j) eqn:E.
      * apply bytes_eqb_eq in E. subst j. split.
        -- intro H. injection H as ->. exists [], h, None. split; [reflexivity|]. intros ? [].
        -- intros [s [a [r [E A]]]]. destruct s as [|d s] using rev_ind.
           ++ apply app_inj_tail in E. destruct E as [_ E]. congruence.
           ++ clear IHs. change (a ++ (OPut i p, r) :: s ++ [d]) with (a ++ ((OPut i p, r) :: s) ++ [d]) in E. rewrite app_assoc in E. apply app_inj_tail in E. destruct E as [_ E].
              exfalso. apply (A d); [apply in_or_app; right; left; reflexivity|subst d; reflexivity] || idtac.
              specialize (A d ltac:(apply in_or_app; right; left; reflexivity)). rewrite <- E in A. cbn in A. exact (A eq_refl).
      * rewrite IH. split.
        -- intros [s S]. exists (s ++ [(OPut j q, None)]). apply stored_snoc_other; [exact S|]. cbn. intros ->. rewrite beqb_refl in E. discriminate.
        -- intros [s S]. apply stored_snoc_inv in S; [destruct S as [s' [_ S]]; eauto|]. cbn. intros [-> _]. rewrite beqb_refl in E. discriminate.
    + rewrite lookup_without. destruct (bytes_eqb i j) eqn:E.
      * apply bytes_eqb_eq in E. subst j. split; [discriminate|]. intros [s [a [r [E A]]]]. destruct s as [|d s] using rev_ind.
        -- apply app_inj_tail in E. destruct E as [_ E]. discriminate.
        -- clear IHs. change (a ++ (OPut i p, r) :: s ++ [d]) with (a ++ ((OPut i p, r) :: s) ++ [d]) in E. rewrite app_assoc in E. apply app_inj_tail in E. destruct E as [_ E].
           specialize (A d ltac:(apply in_or_app; right; left; reflexivity)). rewrite <- E in A. cbn in A. destruct (A eq_refl).
      * rewrite IH. split.
        -- intros [s S]. exists (s ++ [(ORemove j, None)]). apply stored_snoc_other; [exact S|]. cbn. intros ->. rewrite beqb_refl in E. discriminate.
        -- intros [s S]. apply stored_snoc_inv in S; [destruct S as [s' [_ S]]; eauto|]. cbn. intros [-> _]. rewrite beqb_refl in E. discriminate.
Qed.

(** BasicPskCache answers exactly with the PSK last put and not removed since, expired or not. *)
Theorem C73_basic h l1 i now r l2 : basic_history h -> h = l1 ++ (OGet i now, r) :: l2 ->
  forall p, r = Some p <-> exists since, stored l1 i p since.
Proof.
  intros [os H] E p. assert (O : os = map fst l1 ++ OGet i now :: map fst l2) by (rewrite <- (brun_ops [] os), H, E, map_app; reflexivity).
  subst os. rewrite brun_app in H. cbn [fst] in H. rewrite E in H.
  assert (L : length (fst (basicRun [] (map fst l1))) = length l1)
    by (rewrite <- (map_length fst (fst (basicRun _ _))), brun_ops, map_length; reflexivity).
  apply app_inj_len in H; [|unfold blen; rewrite L; reflexivity]. destruct H as [H1 H2].
  pose proof (basic_lookup (map fst l1) i p) as K. rewrite H1 in K. rewrite <- K. cbn [basicRun basicStep] in H2.
  destruct (basicRun (snd (basicRun [] (map fst l1))) (map fst l2)) as [x y]. cbn [fst] in H2. injection H2 as H2 _. rewrite H2. reflexivity.
Qed.

(** ** C73: threads *)
Definition midway (m : lru) (s : tst) (now : lru) : Prop :=
  match s with
  | TLocked _ => now = m
  | TFound i r => lruFind m i = (r, now)
  | TDone o r => lruStep m o = (r, now)
  | _ => False
  end.
Definition holds (s : tst) : Prop := match s with TLocked _ | TFound _ _ | TDone _ _ => True | _ => False end.
Definition cinv (n : N) (c : conc) : Prop :=
  exists m, lruRun (emptyLru n) (map fst (map snd (cc_returned c))) = (map snd (cc_returned c), m) /\
    match cc_lock c with
    | None => cc_map c = m /\ forall t, ~ holds (cc_thread c t)
    | Some t => midway m (cc_thread c t) (cc_map c) /\ forall u, u <> t -> ~ holds (cc_thread c u)
    end.
Lemma upd_same f t x : upd f t x t = x. Proof. unfold upd. rewrite Nat.eqb_refl. reflexivity. Qed.
Lemma upd_other f t x u : u <> t -> upd f t x u = f u.
Proof. intro N. unfold upd. destruct (Nat.eqb_spec u t); [contradiction|reflexivity]. Qed.
Lemma holder c n t : cinv n c -> holds (cc_thread c t) -> cc_lock c = Some t.
Proof.
  intros [m [_ I]] H. destruct (cc_lock c) as [u|].
  - destruct I as [_ I]. destruct (Nat.eq_dec t u) as [->|N]; [reflexivity|]. exfalso. exact (I t N H).
  - exfalso. exact (proj2 I t H).
Qed.
Lemma midway_holds m s x : midway m s x -> holds s. Proof. destruct s; cbn; auto. Qed.
Lemma cstep_inv n c d : cinv n c -> cstep c d -> cinv n d.
Proof.
  intros J S. destruct S as [c t q E|c t q E L|c t i E|c t i r now E|c t i p E|c t i E|c t o r E].
  - destruct J as [m [R I]]. exists m. cbn [cc_returned cc_lock cc_map cc_thread]. split; [exact R|]. destruct (cc_lock c) as [u|].
    + destruct I as [I1 I2]. assert (u <> t) by (intros ->; rewrite E in I1; exact I1). split; [rewrite upd_other; auto|].
      intros v V. destruct (Nat.eq_dec v t) as [->|N]; [rewrite upd_same; cbn; auto|rewrite upd_other; auto].
    + destruct I as [I1 I2]. split; [exact I1|]. intro v. destruct (Nat.eq_dec v t) as [->|N]; [rewrite upd_same; cbn; auto|rewrite upd_other; auto].
  - destruct J as [m [R I]]. exists m. cbn [cc_returned cc_lock cc_map cc_thread]. split; [exact R|]. rewrite L in I. destruct I as [I1 I2].
    rewrite upd_same. cbn [midway]. split; [exact I1|]. intros v V. rewrite upd_other; auto.
  - pose proof (holder c n t J) as K. rewrite E in K. specialize (K Logic.I). destruct J as [m [R I]]. rewrite K in I. destruct I as [I1 I2].
    exists m. cbn [cc_returned cc_lock cc_map cc_thread]. rewrite K. split; [exact R|]. rewrite upd_same. rewrite E in I1. cbn [midway] in *. subst m.
    split; [destruct (lruFind (cc_map c) i); reflexivity|]. intros v V. rewrite upd_other; auto.
  - pose proof (holder c n t J) as K. rewrite E in K. specialize (K Logic.I). destruct J as [m [R I]]. rewrite K in I. destruct I as [I1 I2].
    exists m. cbn [cc_returned cc_lock cc_map cc_thread]. rewrite K. split; [exact R|]. rewrite upd_same. rewrite E in I1. cbn [midway] in *.
    split; [cbn [lruStep]; rewrite I1; destruct (lruCheck _ _ _ _); reflexivity|]. intros v V. rewrite upd_other; auto.
  - pose proof (holder c n t J) as K. rewrite E in K. specialize (K Logic.I). destruct J as [m [R I]]. rewrite K in I. destruct I as [I1 I2].
    exists m. cbn [cc_returned cc_lock cc_map cc_thread]. rewrite K. split; [exact R|]. rewrite upd_same. rewrite E in I1. cbn [midway lruStep] in *. subst m.
    split; [reflexivity|]. intros v V. rewrite upd_other; auto.
  - pose proof (holder c n t J) as K. rewrite E in K. specialize (K Logic.I). destruct J as [m [R I]]. rewrite K in I. destruct I as [I1 I2].
    exists m. cbn [cc_returned cc_lock cc_map cc_thread]. rewrite K. split; [exact R|]. rewrite upd_same. rewrite E in I1. cbn [midway lruStep] in *. subst m.
    split; [reflexivity|]. intros v V. rewrite upd_other; auto.
  - pose proof (holder c n t J) as K. rewrite E in K. specialize (K Logic.I). destruct J as [m [R I]]. rewrite K in I. destruct I as [I1 I2].
    rewrite E in I1. cbn [midway] in I1. exists (cc_map c). cbn [cc_returned cc_lock cc_map cc_thread]. split.
    + rewrite !map_app, run_app, R. cbn [fst snd map lruRun]. rewrite I1. reflexivity.
    + split; [reflexivity|]. intro v. destruct (Nat.eq_dec v t) as [->|N]; [rewrite upd_same; cbn; auto|rewrite upd_other; auto].
Qed.
Lemma creaches_inv n c : creaches n c -> cinv n c.
Proof.
  induction 1 as [|c d H IH S]; [|eapply cstep_inv; eauto]. exists (emptyLru n). split; [reflexivity|]. split; [reflexivity|]. cbn. auto.
Qed.

(** However the threads' steps interleave, the calls that have returned, in the order they returned, form a history of the
    sequential cache with the same answers (so C73_get, C73_retained, C73_evicted and C73_bounded hold of it). *)
Theorem C73_threads n c : creaches n c -> lru_history n (map snd (cc_returned c)).
Proof. intro H. destruct (creaches_inv n c H) as [m [R _]]. eexists. rewrite R. reflexivity. Qed.

(** No call is stuck: while any thread is in a call, some thread in a call can take a step. *)
Theorem C73_progress n c t : creaches n c -> cc_thread c t <> TIdle ->
  exists u d, cstep c d /\ cc_thread c u <> TIdle /\ (cc_thread d u <> cc_thread c u).
Proof.
  intros H T. pose proof (creaches_inv n c H) as J. destruct J as [m [_ I]]. destruct (cc_lock c) as [u|] eqn:L.
  - destruct I as [I _]. pose proof (midway_holds _ _ _ I) as Hh. destruct (cc_thread c u) as [|q|q|i r|o r] eqn:E; try contradiction.
    + destruct q as [i|i p|i]; exists u; eexists; (split; [first [eapply CFind; exact E|eapply CSet; exact E|eapply CErase; exact E]|]); cbn [cc_thread]; rewrite E, upd_same; split; discriminate.
    + exists u; eexists; split; [eapply (CCheck c u i r 0%Z); exact E|]. cbn [cc_thread]. rewrite E, upd_same; split; discriminate.
    + exists u; eexists; split; [eapply CReturn; exact E|]. cbn [cc_thread]. rewrite E, upd_same; split; discriminate.
  - destruct I as [_ I]. destruct (cc_thread c t) as [|q|q|i r|o r] eqn:E; try contradiction; try (exfalso; apply (I t); rewrite E; exact Logic.I).
    exists t; eexists; split; [eapply CLock; [exact E|exact L]|]. cbn [cc_thread]. rewrite E, upd_same; split; discriminate.
Qed.

(** ** Examples *)
Definition px (e : Z) : cpsk := mkCpsk PskResumption (mkPsk [x01] [x02] 772 4865 None None 0 0 e None None 0 0).
Definition ia : bytes := [x61]. Definition ib : bytes := [x62]. Definition ic : bytes := [x63].
(** a cache of two: the entry used least recently goes; an expired one is not handed out and is gone afterwards *)
Example px_history : lru_history 2
  [(OPut ia (px 10), None); (OPut ib (px 20), None); (OGet ia 5, Some (px 10)); (OPut ic (px 30), None); (OGet ib 5, None);
   (OGet ia 10, Some (px 10)); (OGet ia 11, None); (OGet ia 9, None); (OGet ic 9, Some (px 30)); (ORemove ic, None); (OGet ic 9, None)].
Proof.
  exists [OPut ia (px 10); OPut ib (px 20); OGet ia 5; OPut ic (px 30); OGet ib 5; OGet ia 10; OGet ia 11; OGet ia 9; OGet ic 9; ORemove ic; OGet ic 9].
  vm_compute. reflexivity.
Qed.
Example px_window : distinct (used [(OPut ic (px 30), None)]) < 2 /\ 2 <= distinct (used [(OGet ia 5%Z, Some (px 10)); (OPut ic (px 30), None)]).
Proof. vm_compute. split; [reflexivity|discriminate]. Qed.
(** a capacity of 0 is no bound *)
Example px_zero : lru_history 0 [(OPut ia (px 10), None); (OPut ib (px 20), None); (OPut ic (px 30), None); (OGet ia 1, Some (px 10))].
Proof. exists [OPut ia (px 10); OPut ib (px 20); OPut ic (px 30); OGet ia 1]. vm_compute. reflexivity. Qed.
(** BasicPskCache hands out a PSK after its expiry *)
Theorem C73_basic_expired : exists h p, basic_history (h ++ [(OGet ia 11%Z, Some p)]) /\ ~ unexpired p 11.
Proof.
  exists [(OPut ia (px 10), None)], (px 10). split; [|unfold unexpired; cbn; lia]. exists [OPut ia (px 10); OGet ia 11]. vm_compute. reflexivity.
Qed.
(** two threads: the second get waits for the first *)
Example px_threads : exists c, creaches 2 c /\ cc_returned c = [(1%nat, (OPut ia (px 10), None)); (0%nat, (OGet ia 5, Some (px 10)))].
Proof.
  pose proof (CR0 2) as H0.
  assert (S : forall c d, creaches 2 c -> cstep c d -> creaches 2 d) by (intros; eapply CRS; eauto).
  pose proof (S _ _ H0 (CCall (conc0 2) 0 (RGet ia) eq_refl)) as H1.
  match type of H1 with creaches _ ?c => pose proof (S _ _ H1 (CCall c 1 (RPut ia (px 10)) eq_refl)) as H2 end.
  match type of H2 with creaches _ ?c => pose proof (S _ _ H2 (CLock c 1 (RPut ia (px 10)) eq_refl eq_refl)) as H3 end.
  match type of H3 with creaches _ ?c => pose proof (S _ _ H3 (CSet c 1 ia (px 10) eq_refl)) as H4 end. vm_compute in H4.
  match type of H4 with creaches _ ?c => pose proof (S _ _ H4 (CReturn c 1 (OPut ia (px 10)) None eq_refl)) as H5 end. vm_compute in H5.
  match type of H5 with creaches _ ?c => pose proof (S _ _ H5 (CLock c 0 (RGet ia) eq_refl eq_refl)) as H6 end. vm_compute in H6.
  match type of H6 with creaches _ ?c => pose proof (S _ _ H6 (CFind c 0 ia eq_refl)) as H7 end. vm_compute in H7.
  match type of H7 with creaches _ ?c => pose proof (S _ _ H7 (CCheck c 0 ia (Some (px 10)) 5%Z eq_refl)) as H8 end. vm_compute in H8.
  match type of H8 with creaches _ ?c => pose proof (S _ _ H8 (CReturn c 0 (OGet ia 5) (Some (px 10)) eq_refl)) as H9 end. vm_compute in H9.
  match type of H9 with creaches _ ?c => exists c end. split; [exact H9|]. reflexivity.
Qed.
