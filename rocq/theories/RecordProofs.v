(** * Proofs about the record layers *)
From Verif Require Import Base RecordBase Record.

(** ** Headers and take under appending *)
Lemma header_app b x t v l r : header b = Some (t, v, l, r) ->
  header (b ++ x) = Some (t, v, l, r ++ x) /\ blen b = 5 + blen r /\
  takeN 5 (b ++ x) = takeN 5 b /\ (length r < length b)%nat.
Proof.
  unfold header. destruct b as [|b0 [|b1 [|b2 [|b3 [|b4 r']]]]]; try discriminate.
  intros [= <- <- <- <-]. simpl. repeat split; [|lia].
  rewrite !blen_cons. lia.
Qed.

Lemma header_none b : header b = None -> blen b < 5.
Proof.
  unfold header. destruct b as [|b0 [|b1 [|b2 [|b3 [|b4 r']]]]]; try discriminate;
  intros _; vm_compute; reflexivity.
Qed.
Lemma header_none_iff b : header b = None <-> blen b < 5.
Proof.
  split; [apply header_none|]. intros H.
  destruct b as [|b0 [|b1 [|b2 [|b3 [|b4 r']]]]]; try reflexivity.
  rewrite !blen_cons in H. lia.
Qed.

Lemma take_app_r {A} n (r x a r' : list A) :
  take n r = Some (a, r') -> take n (r ++ x) = Some (a, r' ++ x) /\ (length r' <= length r)%nat.
Proof.
  intros H. apply take_Some in H. destruct H as [-> Hl]. split.
  - rewrite <- app_assoc. apply take_app_n. assumption.
  - rewrite app_length. lia.
Qed.

Lemma take_none_app {A} n (r x : list A) :
  blen r + blen x < n -> take n (r ++ x) = None.
Proof. intros. apply take_None. rewrite blen_app. lia. Qed.

(** ** The plaintext reader satisfies the iteration laws *)
Ltac killb :=
  repeat match goal with
  | H : (if ?c then _ else _) = _ |- _ =>
      let E := fresh "E" in destruct c eqn:E; try discriminate H
  | H : match ?c with _ => _ end = _ |- _ =>
      let E := fresh "E" in destruct c eqn:E; try discriminate H
  end.

Lemma plain_iter_laws : iter_laws plain_iter.
Proof.
  constructor.
  - intros s b s' b' H. unfold plain_iter in H |- *.
    destruct (header b) as [[[[t v] l] r]|] eqn:Hh; [|discriminate].
    destruct (header_app b [] _ _ _ _ Hh) as (_ & _ & _ & Hlt).
    assert (Hx := fun x => proj1 (header_app _ x _ _ _ _ Hh)).
    destruct (take l r) as [[f r']|] eqn:Ht; [|killb; discriminate].
    assert (Hy := fun x => take_app_r _ _ x _ _ Ht).
    split.
    + pose proof (proj2 (Hy [])). killb; injection H as <- <-; lia.
    + intros x. rewrite Hx, (proj1 (Hy x)).
      killb; injection H as <- <-; reflexivity.
  - intros s b s' b' m H. unfold plain_iter in H |- *.
    destruct (header b) as [[[[t v] l] r]|] eqn:Hh; [|discriminate].
    destruct (header_app b [] _ _ _ _ Hh) as (_ & _ & _ & Hlt).
    assert (Hx := fun x => proj1 (header_app _ x _ _ _ _ Hh)).
    destruct (take l r) as [[f r']|] eqn:Ht; [|killb; discriminate].
    assert (Hy := fun x => take_app_r _ _ x _ _ Ht).
    split.
    + pose proof (proj2 (Hy [])). killb; injection H as <- <- <-; lia.
    + intros x. rewrite Hx, (proj1 (Hy x)).
      killb; injection H as <- <- <-; reflexivity.
  - intros s b e H. unfold plain_iter in H |- *.
    destruct (header b) as [[[[t v] l] r]|] eqn:Hh; [|discriminate].
    assert (Hx := fun x => proj1 (header_app _ x _ _ _ _ Hh)).
    split; [killb; injection H as <-; discriminate|].
    intros x. rewrite Hx. destruct (take l r) as [[f r']|] eqn:Ht.
    + rewrite (proj1 (take_app_r _ _ x _ _ Ht)). killb; injection H as <-; reflexivity.
    + killb; injection H as <-; reflexivity.
  - intros s b s' b' h H. unfold plain_iter in H |- *.
    destruct (header b) as [[[[t v] l] r]|] eqn:Hh.
    + assert (Hx : forall x, header (b ++ x) = Some (t, v, l, r ++ x)) by
        (intros x; apply (header_app _ x _ _ _ _ Hh)).
      destruct (header_app b [] _ _ _ _ Hh) as (_ & Hbl & _ & Hlt).
      destruct (take l r) as [[f r']|] eqn:Ht; [killb; discriminate|].
      apply take_None in Ht.
      killb; injection H as <- <- <-; (split; [reflexivity|]); (split; [lia|]); split;
        intros x.
      * rewrite Hx, ?E. reflexivity.
      * intros Hlx. rewrite Hx, ?E. rewrite take_none_app by lia. f_equal. rewrite blen_app. lia.
      * rewrite Hx, ?E. cbn [ps_skip].
        replace (if ps_skip s && negb (t =? ct_ccs) then false else ps_skip s)
          with (ps_skip s && (t =? ct_ccs)) by (destruct (ps_skip s), (t =? ct_ccs); reflexivity).
        destruct (t =? ct_ccs) eqn:Ec.
        -- rewrite andb_true_r. rewrite E, ?E0, ?E1, ?E2, ?E3. simpl. rewrite andb_false_r.
           destruct (take l (r ++ x)) as [[? ?]|]; reflexivity.
        -- rewrite !andb_false_r. simpl. rewrite ?E0, ?E1, ?E2, ?E3. reflexivity.
      * intros Hlx. rewrite Hx, ?E, ?E0, ?E1, ?E2, ?E3. rewrite take_none_app by lia. f_equal.
        rewrite blen_app. lia.
    + injection H as <- <- <-. pose proof (header_none _ Hh).
      split; [reflexivity|]. split; [lia|]. split; [reflexivity|].
      intros x Hlx. assert (header (b ++ x) = None) as ->.
      { apply header_none_iff. rewrite blen_app. lia. }
      f_equal. rewrite blen_app. lia.
Qed.

(** ** The encrypted reader satisfies the iteration laws *)
Lemma open_inner_no_fuel ch : open_inner ch <> Err EFuel.
Proof.
  unfold open_inner. destruct ch; [discriminate|].
  destruct (strip_chain _) as [[t rc]|]; [|discriminate].
  destruct (negb _); [discriminate|]. destruct (concat (rev rc)); [|discriminate].
  destruct (_ =? _); discriminate.
Qed.

Lemma enc_iter_laws : iter_laws enc_iter.
Proof.
  constructor.
  - intros s b s' b' H. unfold enc_iter in H |- *.
    destruct (header b) as [[[[t v] l] r]|] eqn:Hh; [|discriminate].
    destruct (header_app b [] _ _ _ _ Hh) as (_ & _ & _ & Hlt).
    assert (Hx := fun x => proj1 (header_app _ x _ _ _ _ Hh)).
    assert (Hd := fun x => proj1 (proj2 (proj2 (header_app _ x _ _ _ _ Hh)))).
    destruct (take l r) as [[f r']|] eqn:Ht; [|killb; discriminate].
    assert (Hy := fun x => take_app_r _ _ x _ _ Ht).
    destruct (l =? 0) eqn:E0; [discriminate|].
    destruct (kMaxEncryptedRecordSize <? l) eqn:E1; [discriminate|].
    destruct ((t =? ct_alert) && (l =? 2)) eqn:E2; [discriminate|].
    split.
    + pose proof (proj2 (Hy [])). killb; injection H as <- <-; lia.
    + intros x. rewrite Hx, E0, E1, (proj1 (Hy x)), E2, Hd.
      killb; injection H as <- <-; reflexivity.
  - intros s b s' b' m H. unfold enc_iter in H |- *.
    destruct (header b) as [[[[t v] l] r]|] eqn:Hh; [|discriminate].
    destruct (header_app b [] _ _ _ _ Hh) as (_ & _ & _ & Hlt).
    assert (Hx := fun x => proj1 (header_app _ x _ _ _ _ Hh)).
    assert (Hd := fun x => proj1 (proj2 (proj2 (header_app _ x _ _ _ _ Hh)))).
    destruct (take l r) as [[f r']|] eqn:Ht; [|killb; discriminate].
    assert (Hy := fun x => take_app_r _ _ x _ _ Ht).
    destruct (l =? 0) eqn:E0; [discriminate|].
    destruct (kMaxEncryptedRecordSize <? l) eqn:E1; [discriminate|].
    destruct ((t =? ct_alert) && (l =? 2)) eqn:E2; [discriminate|].
    split.
    + pose proof (proj2 (Hy [])). killb; injection H as <- <- <-; lia.
    + intros x. rewrite Hx, E0, E1, (proj1 (Hy x)), E2, Hd.
      killb; injection H as <- <- <-; reflexivity.
  - intros s b e H. unfold enc_iter in H |- *.
    destruct (header b) as [[[[t v] l] r]|] eqn:Hh; [|discriminate].
    assert (Hx := fun x => proj1 (header_app _ x _ _ _ _ Hh)).
    assert (Hd := fun x => proj1 (proj2 (proj2 (header_app _ x _ _ _ _ Hh)))).
    split.
    + killb; injection H as <-; try discriminate;
      match goal with E : open_inner ?c = Err ?e |- _ =>
        intros ->; exact (open_inner_no_fuel _ E) end.
    + intros x. rewrite Hx.
      destruct (l =? 0) eqn:E0; [exact H|].
      destruct (kMaxEncryptedRecordSize <? l) eqn:E1; [exact H|].
      destruct (take l r) as [[f r']|] eqn:Ht; [|discriminate].
      rewrite (proj1 (take_app_r _ _ x _ _ Ht)), Hd.
      killb; injection H as <-; reflexivity.
  - intros s b s' b' h H. unfold enc_iter in H |- *.
    destruct (header b) as [[[[t v] l] r]|] eqn:Hh.
    + assert (Hx := fun x => proj1 (header_app _ x _ _ _ _ Hh)).
      destruct (header_app b [] _ _ _ _ Hh) as (_ & Hbl & _ & Hlt).
      destruct (l =? 0) eqn:E0; [discriminate|].
      destruct (kMaxEncryptedRecordSize <? l) eqn:E1; [discriminate|].
      destruct (take l r) as [[f r']|] eqn:Ht; [killb; discriminate|].
      apply take_None in Ht.
      injection H as <- <- <-. split; [reflexivity|]. split; [lia|]. split; [reflexivity|].
      intros x Hlx. rewrite Hx, E0, E1, take_none_app by lia. f_equal. rewrite blen_app. lia.
    + injection H as <- <- <-. pose proof (header_none _ Hh).
      split; [reflexivity|]. split; [lia|]. split; [reflexivity|].
      intros x Hlx. assert (header (b ++ x) = None) as ->.
      { apply header_none_iff. rewrite blen_app. lia. }
      f_equal. rewrite blen_app. lia.
Qed.

Lemma lift_laws {A} (f : A -> layer) (it : A -> bytes -> iter A tlsmsg)
  (F : forall a b, layer_iter (f a) b = lift_iter f (it a b))
  (L : iter_laws it) : forall a b,
  match layer_iter (f a) b with
  | ICont s' b' => (length b' < length b)%nat /\ forall x, layer_iter (f a) (b ++ x) = ICont s' (b' ++ x)
  | IMsg s' b' m => (length b' < length b)%nat /\ forall x, layer_iter (f a) (b ++ x) = IMsg s' (b' ++ x) m
  | IErr e => e <> EFuel /\ forall x, layer_iter (f a) (b ++ x) = IErr e
  | INeed s' b' h => b' = b /\ 0 < h /\
      (forall x, layer_iter (f a) (b ++ x) = layer_iter s' (b ++ x)) /\
      (forall x, blen x < h -> layer_iter (f a) (b ++ x) = INeed s' (b ++ x) (h - blen x))
  end.
Proof.
  intros a b. rewrite F. destruct (it a b) eqn:E; simpl.
  - destruct (il_cont _ L _ _ _ _ E) as [H1 H2]. split; [assumption|]. intros x. rewrite F, H2. reflexivity.
  - destruct (il_need _ L _ _ _ _ _ E) as (H1 & H2 & H3 & H4). repeat split; try assumption.
    + intros x. rewrite !F, H3. reflexivity.
    + intros x Hx. rewrite F, H4 by assumption. reflexivity.
  - destruct (il_msg _ L _ _ _ _ _ E) as [H1 H2]. split; [assumption|]. intros x. rewrite F, H2. reflexivity.
  - destruct (il_err _ L _ _ _ E) as [H1 H2]. split; [assumption|]. intros x. rewrite F, H2. reflexivity.
Qed.

Lemma layer_iter_laws : iter_laws layer_iter.
Proof.
  assert (K : forall s b,
  match layer_iter s b with
  | ICont s' b' => (length b' < length b)%nat /\ forall x, layer_iter s (b ++ x) = ICont s' (b' ++ x)
  | IMsg s' b' m => (length b' < length b)%nat /\ forall x, layer_iter s (b ++ x) = IMsg s' (b' ++ x) m
  | IErr e => e <> EFuel /\ forall x, layer_iter s (b ++ x) = IErr e
  | INeed s' b' h => b' = b /\ 0 < h /\
      (forall x, layer_iter s (b ++ x) = layer_iter s' (b ++ x)) /\
      (forall x, blen x < h -> layer_iter s (b ++ x) = INeed s' (b ++ x) (h - blen x))
  end).
  { intros [p|e] b.
    - apply (lift_laws LPlain plain_iter); [reflexivity|apply plain_iter_laws].
    - apply (lift_laws LEnc enc_iter); [reflexivity|apply enc_iter_laws]. }
  constructor; intros s b; specialize (K s b).
  - intros s' b' E. rewrite E in K. exact K.
  - intros s' b' m E. rewrite E in K. exact K.
  - intros e E. rewrite E in K. exact K.
  - intros s' b' h E. rewrite E in K. exact K.
Qed.

Lemma plain_laws : read_laws plain_read (fun _ b => length b) (fun _ => True) (fun m => m) (fun _ => false).
Proof. apply read_of_laws, plain_iter_laws. Qed.
Lemma enc_laws : read_laws enc_read (fun _ b => length b) (fun _ => True) (fun m => m) (fun _ => false).
Proof. apply read_of_laws, enc_iter_laws. Qed.
Lemma layer_laws : read_laws layer_read (fun _ b => length b) (fun _ => True) (fun m => m) (fun _ => false).
Proof. apply read_of_laws, layer_iter_laws. Qed.
