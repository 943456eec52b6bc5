(** * Proofs about the batch Merkle tree *)
From Verif Require Import Base Codec Hkdf Merkle MerkleSpec.
Open Scope N_scope.

Notation "'p2' k" := (2 ^ N.of_nat k) (at level 9).
Lemma p2_S k : p2 (S k) = 2 * p2 k.
Proof. rewrite Nnat.Nat2N.inj_succ, N.pow_succ_r'. reflexivity. Qed.
Lemma p2_pos k : 1 <= p2 k.
Proof. assert (2 ^ N.of_nat k <> 0) by (apply N.pow_nonzero; discriminate). lia. Qed.
Lemma p2_add a b : p2 (a + b) = p2 a * p2 b.
Proof. rewrite Nnat.Nat2N.inj_add, N.pow_add_r. reflexivity. Qed.

Section P.
  Variable h : hashalg.
  Notation I := (internalNode h).

  (** chain of nodes written by addNode *)
  Definition onc (hh : nat) (o : N) (k : nat) (x : N) : bool :=
    Nat.leb hh k && ((x + 1) * p2 (k - hh) =? o + 1).

  Lemma onc_spec hh o k x : onc hh o k x = true <-> (hh <= k)%nat /\ (x + 1) * p2 (k - hh) = o + 1.
  Proof. unfold onc. rewrite andb_true_iff, Nat.leb_le, N.eqb_eq. reflexivity. Qed.

  Lemma size_bound o : o < p2 (N.size_nat o).
  Proof.
    destruct o as [|p]; [reflexivity|]. cbn [N.size_nat].
    induction p as [p IH|p IH|]; cbn [Pos.size_nat]; rewrite ?p2_S; try lia.
  Qed.

  Lemma addNode_spec : forall fuel t v hh o (V : nat -> N -> bytes),
    o < p2 fuel -> V hh o = v ->
    (forall d y, (2 * y + 2) * p2 d = o + 1 ->
       exists L, mt_map t (hh + d) (2 * y) = Some L /\ V (S (hh + d)) y = I L (V (hh + d)%nat (2 * y + 1))) ->
    exists t', addNode h (S fuel) t v hh o = Ok t' /\ mt_max t' = mt_max t /\ mt_next t' = mt_next t /\
      (forall k x, mt_map t' k x = if onc hh o k x then Some (V k x) else mt_map t k x) /\
      (mt_height t <= mt_height t')%nat /\ (forall k x, onc hh o k x = true -> (k <= mt_height t')%nat) /\
      (mt_height t' = mt_height t \/ exists x, onc hh o (mt_height t') x = true).
  Proof.
    induction fuel as [|f IH]; intros t v hh o V Hf Hv Hs.
    - change (p2 0) with 1 in Hf. assert (o = 0) as -> by lia. cbn [addNode]. change (0 mod 2 =? 1) with false. cbv iota.
      eexists. split; [reflexivity|]. cbn [mt_max mt_next mt_map mt_height]. split; [reflexivity|]. split; [reflexivity|].
      assert (Ho : forall k x, onc hh 0 k x = Nat.eqb k hh && (x =? 0)).
      { intros k x. apply eq_iff_eq_true. rewrite onc_spec, andb_true_iff, Nat.eqb_eq, N.eqb_eq. split.
        - intros [H1 H2]. pose proof (p2_pos (k - hh)).
          assert ((k - hh)%nat = 0%nat) as E.
          { destruct (k - hh)%nat eqn:E; [reflexivity|]. rewrite p2_S in H2. pose proof (p2_pos n). nia. }
          rewrite E in H2. change (p2 0) with 1 in H2. split; [lia|lia].
        - intros [-> ->]. rewrite Nat.sub_diag. split; [lia|reflexivity]. }
      split; [|split; [|split]].
      + intros k x. rewrite Ho. unfold upd. destruct (Nat.eqb_spec k hh), (N.eqb_spec x 0); cbn [andb]; subst; reflexivity.
      + destruct (Nat.ltb_spec (mt_height t) hh); lia.
      + intros k x. rewrite Ho, andb_true_iff, Nat.eqb_eq. intros [-> _]. destruct (Nat.ltb_spec (mt_height t) hh); lia.
      + destruct (Nat.ltb_spec (mt_height t) hh); [right|left; reflexivity]. exists 0. rewrite Ho, Nat.eqb_refl. reflexivity.
    - remember (S f) as g eqn:Eg. cbn [addNode]. 
      destruct (N.eqb_spec (o mod 2) 1) as [Ho|Ho].
      + set (y := o / 2). assert (Eo : o = 2 * y + 1) by (unfold y; pose proof (N.div_mod o 2 ltac:(discriminate)); lia).
        destruct (Hs 0%nat y) as (L & HL & HV). { change (p2 0) with 1. lia. }
        rewrite Nat.add_0_r in HL, HV. unfold at_.
        assert (E1 : upd (mt_map t) hh o v hh (o - 1) = Some L).
        { unfold upd. destruct (N.eqb_spec (o - 1) o) as [E|_]; [lia|]. rewrite andb_false_r.
          replace (o - 1) with (2 * y) by lia. exact HL. }
        rewrite E1. assert (E2 : upd (mt_map t) hh o v hh o = Some v) by (unfold upd; rewrite Nat.eqb_refl, N.eqb_refl; reflexivity).
        rewrite E2. set (r := if Nat.ltb (mt_height t) hh then hh else mt_height t).
        subst g. destruct (IH (mkTree (mt_max t) (mt_next t) r (upd (mt_map t) hh o v)) (I L v) (S hh) y V) as (t' & Et & Em & En & Hm & Hh1 & Hh2 & Hh3).
        * rewrite p2_S in Hf. lia.
        * rewrite HV, <- Eo, Hv. reflexivity.
        * intros d z Hz. destruct (Hs (S d) z) as (L' & HL' & HV'); [rewrite p2_S; lia|]. exists L'. cbn [mt_map]. split.
          -- unfold upd. destruct (Nat.eqb_spec (S hh + d) hh); [lia|]. cbn [andb]. replace (S hh + d)%nat with (hh + S d)%nat by lia. exact HL'.
          -- replace (S (S hh + d)) with (S (hh + S d)) by lia. replace (S hh + d)%nat with (hh + S d)%nat by lia. exact HV'.
        * exists t'. cbn [mt_max mt_next mt_map mt_height] in *. split; [exact Et|]. split; [exact Em|]. split; [exact En|].
          assert (Hoc : forall k x, onc hh o k x = onc (S hh) y k x || (Nat.eqb k hh && (x =? o))).
          { intros k x. apply eq_iff_eq_true. rewrite orb_true_iff, !onc_spec, andb_true_iff, Nat.eqb_eq, N.eqb_eq. split.
            - intros [H1 H2]. destruct (Nat.eq_dec k hh) as [->|Hne].
              + right. rewrite Nat.sub_diag in H2. change (p2 0) with 1 in H2. lia.
              + left. split; [lia|]. replace (k - hh)%nat with (S (k - S hh)) in H2 by lia. rewrite p2_S in H2. lia.
            - intros [[H1 H2]|[-> ->]].
              + split; [lia|]. replace (k - hh)%nat with (S (k - S hh)) by lia. rewrite p2_S. lia.
              + rewrite Nat.sub_diag. change (p2 0) with 1. lia. }
          split; [|split; [|split]].
          -- intros k x. rewrite Hm, Hoc. destruct (onc (S hh) y k x); [reflexivity|]. cbn [orb]. unfold upd.
             destruct (Nat.eqb_spec k hh) as [->|], (N.eqb_spec x o) as [->|]; cbn [andb]; try reflexivity. rewrite Hv; reflexivity.
          -- assert (mt_height t <= r)%nat by (unfold r; destruct (Nat.ltb_spec (mt_height t) hh); lia). lia.
          -- intros k x. rewrite Hoc, orb_true_iff, andb_true_iff, Nat.eqb_eq. intros [Hx|[-> _]]; [eapply Hh2, Hx|].
             assert (hh <= r)%nat by (unfold r; destruct (Nat.ltb_spec (mt_height t) hh); lia). lia.
          -- destruct Hh3 as [Hr|[x Hx]].
             ++ unfold r in Hr. destruct (Nat.ltb_spec (mt_height t) hh); [right|left; exact Hr]. exists o.
                rewrite Hr, Hoc, Nat.eqb_refl, N.eqb_refl, orb_true_r. reflexivity.
             ++ right. exists x. rewrite Hoc, Hx. reflexivity.
      + eexists. split; [reflexivity|]. cbn [mt_max mt_next mt_map mt_height]. split; [reflexivity|]. split; [reflexivity|].
        assert (Hoc : forall k x, onc hh o k x = Nat.eqb k hh && (x =? o)).
        { intros k x. apply eq_iff_eq_true. rewrite onc_spec, andb_true_iff, Nat.eqb_eq, N.eqb_eq. split.
          - intros [H1 H2]. destruct (k - hh)%nat as [|e] eqn:E.
            + change (p2 0) with 1 in H2. lia.
            + exfalso. rewrite p2_S in H2. apply Ho.
              assert (o = 2 * ((x + 1) * p2 e - 1) + 1) as -> by (pose proof (p2_pos e); nia).
              rewrite N.add_comm, N.mul_comm, N.mod_add by discriminate. reflexivity.
          - intros [-> ->]. rewrite Nat.sub_diag. change (p2 0) with 1. lia. }
        split; [|split; [|split]].
        * intros k x. rewrite Hoc. unfold upd. destruct (Nat.eqb_spec k hh), (N.eqb_spec x o); cbn [andb]; subst; reflexivity.
        * destruct (Nat.ltb_spec (mt_height t) hh); lia.
        * intros k x. rewrite Hoc, andb_true_iff, Nat.eqb_eq. intros [-> _]. destruct (Nat.ltb_spec (mt_height t) hh); lia.
        * destruct (Nat.ltb_spec (mt_height t) hh); [right|left; reflexivity]. exists o. rewrite Hoc, Nat.eqb_refl, N.eqb_refl. reflexivity.
  Qed.

  (** node values; [n] leaves given by [leaf] *)
  Fixpoint cur (n : N) (k : nat) : N := match k with O => n - 1 | S k' => cur n k' / 2 end.
  Fixpoint tv (n : N) (leaf : N -> bytes) (k : nat) (o : N) : bytes :=
    match k with
    | O => leaf o
    | S k' => I (tv n leaf k' (2 * o)) (if 2 * o + 1 <=? cur n k' then tv n leaf k' (2 * o + 1) else tv n leaf k' 0)
    end.

  Lemma cur_div n k : cur n k = (n - 1) / p2 k.
  Proof.
    induction k as [|k IH]; cbn [cur]; [change (p2 0) with 1; rewrite N.div_1_r; reflexivity|].
    rewrite IH, p2_S, N.div_div by (pose proof (p2_pos k); lia). f_equal. lia.
  Qed.
  Lemma cur_add n i d : cur n (i + d) = cur n i / p2 d.
  Proof. rewrite !cur_div, p2_add. rewrite N.div_div by (pose proof (p2_pos i); pose proof (p2_pos d); lia). reflexivity. Qed.
  Lemma cur_lb n k x : x <= cur n k <-> x * p2 k <= n - 1.
  Proof.
    rewrite cur_div. pose proof (p2_pos k). rewrite N.mul_comm. split; intros Hx.
    - pose proof (N.mul_div_le (n - 1) (p2 k) ltac:(lia)). nia.
    - apply N.div_le_lower_bound; lia.
  Qed.
  Lemma cur_ub n k : 0 < n -> n <= (cur n k + 1) * p2 k.
  Proof.
    intros Hn. rewrite cur_div. pose proof (p2_pos k). pose proof (N.mul_succ_div_gt (n - 1) (p2 k) ltac:(lia)). lia.
  Qed.
  Lemma below_complete n k o : 0 < n -> o < cur n k -> (o + 1) * p2 k <= n.
  Proof. intros Hn Ho. assert (o + 1 <= cur n k) by lia. apply cur_lb in H. lia. Qed.

  Lemma tv_agree n n' leaf leaf' : (forall i, i < n -> leaf i = leaf' i) -> n <= n' -> forall k o, (o + 1) * p2 k <= n ->
    tv n leaf k o = tv n' leaf' k o.
  Proof.
    intros Hl Hn. induction k as [|k IH]; intros o Ho; cbn [tv].
    - change (p2 0) with 1 in Ho. apply Hl. lia.
    - rewrite p2_S in Ho. pose proof (p2_pos k).
      assert (H1 : (2 * o + 1 <=? cur n k) = true) by (apply N.leb_le, cur_lb; nia).
      assert (H2 : (2 * o + 1 <=? cur n' k) = true) by (apply N.leb_le, cur_lb; nia).
      rewrite H1, H2. rewrite !IH by nia. reflexivity.
  Qed.

  Record Inv (n : N) (leaf : N -> bytes) (t : mtree) : Prop := {
    iv_next : mt_next t = n;
    iv_ok : forall k o, (o + 1) * p2 k <= n -> mt_map t k o = Some (tv n leaf k o);
    iv_dom : forall k o, mt_map t k o <> None -> (k <= mt_height t)%nat;
    iv_h : forall k, (k < mt_height t)%nat -> 1 <= cur n k }.

  Lemma Inv_new m leaf : Inv 0 leaf (newTree m).
  Proof.
    constructor; cbn; [reflexivity| |congruence|lia]. intros k o H. pose proof (p2_pos k). nia.
  Qed.

  Lemma append_Inv n leaf leaf' t msg : Inv n leaf t -> n < mt_max t -> (forall i, i < n -> leaf i = leaf' i) ->
    leaf' n = leafNode h msg ->
    exists t', append h t msg = Ok (t', Some n) /\ Inv (n + 1) leaf' t' /\ mt_max t' = mt_max t.
  Proof.
    intros HI Hn Hl Hm. unfold append. rewrite (iv_next _ _ _ HI). destruct (N.leb_spec (mt_max t) n); [lia|]. unfold add.
    destruct (addNode_spec (N.size_nat n) t (leafNode h msg) 0 n (tv (n + 1) leaf')) as (t' & -> & Em & En & Hmap & H1 & H2 & H3).
    - apply size_bound.
    - exact Hm.
    - intros d y Hy. rewrite Nat.add_0_l. exists (tv n leaf d (2 * y)). pose proof (p2_pos d). split.
      + apply (iv_ok _ _ _ HI). nia.
      + cbn [tv]. assert (Hc : (2 * y + 1 <=? cur (n + 1) d) = true) by (apply N.leb_le, cur_lb; nia). rewrite Hc. f_equal. symmetry.
        apply tv_agree; [exact Hl|lia|nia].
    - cbn [bind]. eexists. split; [rewrite En, (iv_next _ _ _ HI); reflexivity|]. split; [|exact Em]. constructor; cbn [mt_next mt_map mt_height].
      + reflexivity.
      + intros k o Ho. rewrite Hmap. destruct (onc 0 n k o) eqn:E; [reflexivity|].
        assert (Hle : (o + 1) * p2 k <= n).
        { destruct (N.eq_dec ((o + 1) * p2 k) (n + 1)) as [Eq|]; [|lia].
          assert (onc 0 n k o = true) by (apply onc_spec; rewrite Nat.sub_0_r; split; [lia|exact Eq]). congruence. }
        rewrite (iv_ok _ _ _ HI) by exact Hle. f_equal. apply tv_agree; [exact Hl|lia|exact Hle].
      + intros k o. rewrite Hmap. destruct (onc 0 n k o) eqn:E; [intros _; eapply H2, E|]. intros Hd. apply (iv_dom _ _ _ HI) in Hd. lia.
      + intros k Hk. apply cur_lb. rewrite N.mul_1_l. replace (n + 1 - 1) with n by lia. destruct H3 as [Hh|[x Hx]].
        * rewrite Hh in Hk. apply (iv_h _ _ _ HI) in Hk. apply cur_lb in Hk. lia.
        * apply onc_spec in Hx. rewrite Nat.sub_0_r in Hx. destruct Hx as [_ Hx].
          assert (Hp : 2 * p2 k <= p2 (mt_height t')).
          { rewrite <- p2_S. apply N.pow_le_mono_r; [discriminate|lia]. }
          pose proof (p2_pos k). nia.
  Qed.

  (** finalizeTree *)
  Definition Lvl (n : N) leaf (t : mtree) (k : nat) : Prop := forall o, o <= cur n k -> mt_map t k o = Some (tv n leaf k o).
  Definition Pad (n : N) leaf (t : mtree) (k : nat) : Prop :=
    cur n k mod 2 = 0 -> mt_map t k (cur n k + 1) = Some (tv n leaf k 0).
  Definition Pch (n : N) leaf (t : mtree) (i : nat) : Prop :=
    forall d, (cur n (i + d) + 1) * p2 d = cur n i + 1 -> mt_map t (i + d) (cur n (i + d)) = Some (tv n leaf (i + d) (cur n (i + d))).

  Lemma Pch_Lvl n leaf t i : 0 < n -> Inv n leaf t -> Pch n leaf t i -> Lvl n leaf t i.
  Proof.
    intros Hn HI HP o Ho. destruct (N.eq_dec o (cur n i)) as [->|Hne].
    - specialize (HP 0%nat). rewrite Nat.add_0_r in HP. apply HP. change (p2 0) with 1. lia.
    - apply (iv_ok _ _ _ HI). apply below_complete; lia.
  Qed.

  Lemma fin_loop_spec n leaf : 0 < n -> forall fuel t i, Inv n leaf t -> (i <= mt_height t)%nat -> Pch n leaf t i ->
    (forall k, (k < i)%nat -> Lvl n leaf t k /\ Pad n leaf t k) -> cur n i < p2 fuel ->
    exists t', fin_loop h (S fuel) t i (cur n i) = Ok t' /\ Inv n leaf t' /\ mt_max t' = mt_max t /\ cur n (mt_height t') = 0 /\
      Lvl n leaf t' (mt_height t') /\ (forall k, (k < mt_height t')%nat -> Lvl n leaf t' k /\ Pad n leaf t' k).
  Proof.
    intros Hn. induction fuel as [|f IH]; intros t i HI Hi HP Hd Hf.
    - change (p2 0) with 1 in Hf. cbn [fin_loop]. destruct (Nat.ltb_spec i (mt_height t)) as [Hlt|Hge].
      + exfalso. apply (iv_h _ _ _ HI) in Hlt. lia.
      + assert (mt_height t = i) by lia. exists t. rewrite H. split; [reflexivity|]. split; [exact HI|]. split; [reflexivity|].
        split; [lia|]. split; [apply Pch_Lvl; assumption|exact Hd].
    - remember (S f) as g eqn:Eg. cbn [fin_loop]. destruct (Nat.ltb_spec i (mt_height t)) as [Hlt|Hge].
      + pose proof (iv_h _ _ _ HI _ Hlt) as Hc1. pose proof (Pch_Lvl _ _ _ _ Hn HI HP) as HL.
        assert (Hnext : cur n (S i) < p2 f).
        { cbn [cur]. rewrite Eg, p2_S in Hf. apply N.div_lt_upper_bound; lia. }
        destruct (N.eqb_spec (cur n i mod 2) 0) as [He|Ho].
        * set (y := cur n i / 2). assert (Ey : cur n i = 2 * y) by (unfold y; pose proof (N.div_mod (cur n i) 2 ltac:(discriminate)); lia).
          assert (H0 : mt_map t i 0 = Some (tv n leaf i 0)) by (apply HL; lia).
          unfold at_. rewrite H0. unfold add.
          assert (Hinc : n < (cur n i + 2) * p2 i).
          { pose proof (cur_ub n i Hn). pose proof (p2_pos i). nia. }
          destruct (addNode_spec (N.size_nat (cur n i + 1)) (mkTree (mt_max t) (mt_next t) (mt_height t) (mt_map t)) (tv n leaf i 0) i (cur n i + 1)
             (fun k x => if Nat.eqb k i then tv n leaf i 0 else tv n leaf k x)) as (t1 & Et & Em & En & Hmap & H1 & H2 & H3).
          { apply size_bound. }
          { rewrite Nat.eqb_refl. reflexivity. }
          { intros d z Hz. cbn [mt_map]. destruct d as [|d].
            - change (p2 0) with 1 in Hz. assert (z = y) as -> by lia. rewrite Nat.add_0_r. exists (tv n leaf i (cur n i)).
              rewrite <- Ey. split; [apply HL; lia|]. destruct (Nat.eqb_spec (S i) i); [lia|]. rewrite Nat.eqb_refl. cbn [tv].
              assert (Hx : (2 * y + 1 <=? cur n i) = false) by (apply N.leb_gt; lia). rewrite Hx, <- Ey. reflexivity.
            - rewrite p2_S in Hz. assert (Hz' : (2 * z + 2) * p2 d = y + 1) by nia. pose proof (p2_pos d).
              assert (Hcd : cur n (i + S d) = 2 * z + 1).
              { replace (i + S d)%nat with (S i + d)%nat by lia. rewrite cur_add. cbn [cur]. fold y.
                assert (y = (2 * z + 1) * p2 d + (p2 d - 1)) as -> by nia.
                rewrite N.add_comm, N.div_add by lia. rewrite N.div_small by lia. lia. }
              exists (tv n leaf (i + S d) (2 * z)). split.
              + apply (iv_ok _ _ _ HI). apply below_complete; lia.
              + destruct (Nat.eqb_spec (S (i + S d)) i); [lia|]. destruct (Nat.eqb_spec (i + S d) i); [lia|].
                cbn [tv]. rewrite Hcd, N.leb_refl. reflexivity. }
          cbn [mt_max mt_next mt_map mt_height] in *. rewrite Et. cbn [bind]. fold y. change y with (cur n (S i)).
          assert (Honi : forall x, onc i (cur n i + 1) i x = true -> x = cur n i + 1).
          { intros x Hx. apply onc_spec in Hx. rewrite Nat.sub_diag in Hx. change (p2 0) with 1 in Hx. lia. }
          assert (HI1 : Inv n leaf t1).
          { constructor.
            - rewrite En. apply (iv_next _ _ _ HI).
            - intros k o Ho. rewrite Hmap. destruct (onc i (cur n i + 1) k o) eqn:E; [|apply (iv_ok _ _ _ HI), Ho]. exfalso.
              apply onc_spec in E. destruct E as [Hk E]. assert (p2 k = p2 (k - i) * p2 i) as Ek by (rewrite <- p2_add; f_equal; f_equal; lia).
              rewrite Ek, N.mul_assoc, E in Ho. replace (cur n i + 1 + 1) with (cur n i + 2) in Ho by lia. lia.
            - intros k o. rewrite Hmap. destruct (onc i (cur n i + 1) k o) eqn:E; [intros _; eapply H2, E|].
              intros Hx. apply (iv_dom _ _ _ HI) in Hx. lia.
            - intros k Hk. destruct H3 as [Hh|[x Hx]]; [apply (iv_h _ _ _ HI); lia|].
              destruct (Nat.le_gt_cases k i) as [Hki|Hki].
              + apply (iv_h _ _ _ HI). lia.
              + apply onc_spec in Hx. destruct Hx as [Hx1 Hx2]. replace k with (i + (k - i))%nat by lia. rewrite cur_add.
                set (e := (k - i)%nat) in *. assert (2 <= p2 e).
                { assert (exists e', e = S e') as [e' ->] by (exists (pred e); lia). rewrite p2_S. pose proof (p2_pos e'). lia. }
                assert (2 * p2 e <= p2 (mt_height t1 - i)).
                { rewrite <- p2_S. apply N.pow_le_mono_r; [discriminate|lia]. }
                apply N.div_le_lower_bound; nia. }
          destruct (IH t1 (S i) HI1) as (t' & Er & HI' & Hmax & Hc & HL' & Hd').
          { lia. }
          { intros d Hdd. rewrite Hmap. assert (onc i (cur n i + 1) (S i + d) (cur n (S i + d)) = true) as ->.
            { apply onc_spec. split; [lia|]. replace (S i + d - i)%nat with (S d) by lia. rewrite p2_S.
              change (cur n (S i)) with y in Hdd. nia. }
            destruct (Nat.eqb_spec (S i + d) i); [lia|reflexivity]. }
          { intros k Hk. destruct (Nat.eq_dec k i) as [->|Hne].
            - split.
              + intros o Ho. rewrite Hmap. destruct (onc i (cur n i + 1) i o) eqn:E; [apply Honi in E; lia|apply HL, Ho].
              + intros _. rewrite Hmap. assert (onc i (cur n i + 1) i (cur n i + 1) = true) as ->.
                { apply onc_spec. rewrite Nat.sub_diag. change (p2 0) with 1. lia. } rewrite Nat.eqb_refl. reflexivity.
            - destruct (Hd k ltac:(lia)) as [Hk1 Hk2]. assert (Hno : forall x, onc i (cur n i + 1) k x = false).
              { intros x. unfold onc. destruct (Nat.leb_spec i k); [lia|reflexivity]. }
              split; [intros o Ho; rewrite Hmap, Hno; apply Hk1, Ho|intros Hp; rewrite Hmap, Hno; apply Hk2, Hp]. }
          { exact Hnext. }
          subst g. exists t'. split; [exact Er|]. split; [exact HI'|]. split; [congruence|]. split; [exact Hc|]. split; [exact HL'|exact Hd'].
        * cbn [bind]. change (cur n i / 2) with (cur n (S i)). subst g. apply IH; [exact HI|lia| | |exact Hnext].
          -- intros d Hdd. replace (S i + d)%nat with (i + S d)%nat by lia. apply HP. replace (i + S d)%nat with (S i + d)%nat by lia.
             rewrite p2_S. cbn [cur] in Hdd. pose proof (N.div_mod (cur n i) 2 ltac:(discriminate)).
             pose proof (N.mod_upper_bound (cur n i) 2 ltac:(discriminate)).
             change (cur n (S i + d)) with (cur n (i + d) / 2). change (cur n (S i + d)) with (cur n (i + d) / 2) in Hdd. nia.
          -- intros k Hk. destruct (Nat.eq_dec k i) as [->|Hne]; [|apply Hd; lia]. split; [exact HL|]. intros Hp. lia.
      + assert (Ei : mt_height t = i) by lia. exists t. rewrite Ei. split; [reflexivity|]. split; [exact HI|]. split; [reflexivity|].
        split; [|split; [apply Pch_Lvl; assumption|exact Hd]].
        destruct (N.eq_dec (cur n i) 0) as [|Hne]; [assumption|]. exfalso.
        assert (Hs : mt_map t (S i) (if cur n i =? 1 then 0 else 0) <> None); [|apply (iv_dom _ _ _ HI) in Hs; lia].
        destruct (N.eqb_spec (cur n i) 1) as [E1|E1].
        * specialize (HP 1%nat). rewrite Nat.add_1_r in HP. cbn [cur] in HP. rewrite E1 in HP. change (1 / 2) with 0 in HP.
          rewrite HP by reflexivity. discriminate.
        * rewrite (iv_ok _ _ _ HI); [discriminate|]. assert (Hc : 2 <= cur n i) by lia. apply cur_lb in Hc. rewrite p2_S. lia.
  Qed.

  Lemma finalize_spec n leaf t : 0 < n -> n <= 2 ^ 31 -> Inv n leaf t ->
    exists t', finalizeTree h t = Ok t' /\ Inv n leaf t' /\ mt_max t' = mt_max t /\ cur n (mt_height t') = 0 /\
      Lvl n leaf t' (mt_height t') /\ (forall k, (k < mt_height t')%nat -> Lvl n leaf t' k /\ Pad n leaf t' k).
  Proof.
    intros Hn Hb HI. unfold finalizeTree. rewrite (iv_next _ _ _ HI). destruct (N.ltb_spec 1 n) as [H1|H1].
    - destruct (N.ltb_spec (2 ^ 31) n); [lia|]. change (n - 1) with (cur n 0). apply fin_loop_spec; [exact Hn|exact HI|lia| |lia|].
      + intros d Hd. rewrite Nat.add_0_l in *. apply (iv_ok _ _ _ HI). rewrite Hd. cbn [cur]. lia.
      + rewrite p2_S. cbn [cur]. pose proof (size_bound n). lia.
    - assert (n = 1) as -> by lia. exists t. split; [reflexivity|]. split; [exact HI|]. split; [reflexivity|].
      assert (Hc : forall k, cur 1 k = 0) by (intros k; rewrite cur_div; apply N.div_0_l; pose proof (p2_pos k); lia).
      assert (Hh : mt_height t = 0%nat).
      { destruct (mt_height t) eqn:E; [reflexivity|]. exfalso. pose proof (iv_h _ _ _ HI 0%nat) as Hx. rewrite Hc, E in Hx. specialize (Hx ltac:(lia)). lia. }
      rewrite Hh. split; [apply Hc|]. split; [|intros k Hk; lia]. intros o Ho. rewrite Hc in Ho. assert (o = 0) as -> by lia.
      apply (iv_ok _ _ _ HI). change (p2 0) with 1. lia.
  Qed.

  (** paths *)
  Definition sib (n : N) leaf (k : nat) (o : N) : bytes :=
    if o mod 2 =? 0 then (if o + 1 <=? cur n k then tv n leaf k (o + 1) else tv n leaf k 0) else tv n leaf k (o - 1).
  Fixpoint spath (n : N) leaf (m i : nat) (o : N) : bytes :=
    match m with O => [] | S m' => sib n leaf i o ++ spath n leaf m' (S i) (o / 2) end.

  Lemma sib_half o : (if o mod 2 =? 0 then o + 1 else o - 1) / 2 = o / 2.
  Proof.
    pose proof (N.div_mod o 2 ltac:(discriminate)). pose proof (N.mod_upper_bound o 2 ltac:(discriminate)).
    destruct (N.eqb_spec (o mod 2) 0).
    - symmetry. apply (N.div_unique (o + 1) 2 (o / 2) 1); lia.
    - symmetry. apply (N.div_unique (o - 1) 2 (o / 2) 0); lia.
  Qed.

  Lemma path_loop_spec n leaf t H : (forall k, (k < H)%nat -> Lvl n leaf t k /\ Pad n leaf t k) ->
    forall m i o, (i + m = H)%nat -> o <= cur n i -> path_loop t m i o = Ok (spath n leaf m i o).
  Proof.
    intros HL. induction m as [|m IH]; intros i o Hi Ho; cbn [path_loop spath]; [reflexivity|].
    rewrite sib_half. destruct (HL i ltac:(lia)) as [L P].
    assert (Hs : mt_map t i (if o mod 2 =? 0 then o + 1 else o - 1) = Some (sib n leaf i o)).
    { unfold sib. destruct (N.eqb_spec (o mod 2) 0) as [E|E].
      - destruct (N.leb_spec (o + 1) (cur n i)); [apply L; assumption|]. assert (o = cur n i) as -> by lia. apply P, E.
      - apply L. lia. }
    rewrite Hs, IH; [reflexivity|lia|]. cbn [cur]. apply N.div_le_mono; [discriminate|exact Ho].
  Qed.

  Lemma takeN_app_l {A} (a b : list A) : takeN (blen a) (a ++ b) = a.
  Proof. unfold takeN, blen. rewrite Nnat.Nat2N.id, firstn_app, Nat.sub_diag, firstn_all, firstn_O, app_nil_r. reflexivity. Qed.
  Lemma dropN_app_l {A} (a b : list A) : dropN (blen a) (a ++ b) = b.
  Proof. unfold dropN, blen. rewrite Nnat.Nat2N.id, skipn_app, Nat.sub_diag, skipn_all, skipn_O. reflexivity. Qed.

  Variable Hlen : forall x, blen (h_fn h x) = h_len h.

  Lemma tv_len n leaf : (forall i, blen (leaf i) = h_len h) -> forall k o, blen (tv n leaf k o) = h_len h.
  Proof. intros Hl [|k] o; cbn [tv]; [apply Hl|unfold internalNode; apply Hlen]. Qed.
  Lemma sib_len n leaf : (forall i, blen (leaf i) = h_len h) -> forall k o, blen (sib n leaf k o) = h_len h.
  Proof. intros Hl k o. unfold sib. destruct (o mod 2 =? 0); [destruct (o + 1 <=? cur n k)|]; apply tv_len; assumption. Qed.
  Lemma spath_len n leaf : (forall i, blen (leaf i) = h_len h) -> forall m i o, blen (spath n leaf m i o) = N.of_nat m * h_len h.
  Proof.
    intros Hl. induction m as [|m IH]; intros i o; cbn [spath]; [reflexivity|]. rewrite blen_app, IH, sib_len by assumption. lia.
  Qed.

  Lemma compute_spath n leaf : (forall i, blen (leaf i) = h_len h) -> forall m i o, o <= cur n i -> 
    compute_loop h m (tv n leaf i o) o (spath n leaf m i o) = tv n leaf (i + m) (o / p2 m).
  Proof.
    intros Hl. induction m as [|m IH]; intros i o Ho; cbn [compute_loop spath].
    - rewrite Nat.add_0_r. change (p2 0) with 1. rewrite N.div_1_r. reflexivity.
    - rewrite <- (sib_len n leaf Hl i o). rewrite takeN_app_l, dropN_app_l. 
      pose proof (N.div_mod o 2 ltac:(discriminate)) as Hdm. pose proof (N.mod_upper_bound o 2 ltac:(discriminate)).
      set (y := o / 2) in *.
      assert (E : (if o mod 2 =? 0 then I (tv n leaf i o) (sib n leaf i o) else I (sib n leaf i o) (tv n leaf i o)) = tv n leaf (S i) y).
      { clearbody y. cbn [tv]. unfold sib. destruct (N.eqb_spec (o mod 2) 0) as [E|E].
        - assert (2 * y = o) as -> by lia. reflexivity.
        - assert (o = 2 * y + 1) as -> by lia. replace (2 * y + 1 - 1) with (2 * y) by lia.
          assert ((2 * y + 1 <=? cur n i) = true) as -> by (apply N.leb_le; exact Ho). reflexivity. }
      rewrite E, IH.
      + replace (S i + m)%nat with (i + S m)%nat by lia. f_equal. rewrite p2_S. unfold y. apply N.div_div; [discriminate|]. pose proof (p2_pos m). lia.
      + cbn [cur]. unfold y. apply N.div_le_mono; [discriminate|exact Ho].
  Qed.

  (** levels as lists *)
  Definition level (n : N) leaf (k : nat) : list bytes :=
    map (fun j => tv n leaf k (N.of_nat j)) (seq 0 (S (N.to_nat (cur n k)))).

  Lemma pairs_length l : length (pairs I l) = (length l / 2)%nat.
  Proof.
    assert (forall m l, (length l <= m)%nat -> length (pairs I l) = (length l / 2)%nat) as G; [|apply (G (length l)); lia].
    induction m as [|m IH]; intros [|a [|b r]] Hm; cbn [pairs length] in *; try reflexivity; try lia.
    rewrite IH by lia. symmetry. replace (S (S (length r))) with (length r + 1 * 2)%nat by lia. rewrite Nat.div_add by discriminate. lia.
  Qed.
  Lemma pairs_nth : forall j l, (2 * j + 1 < length l)%nat -> nth j (pairs I l) [] = I (nth (2 * j) l []) (nth (2 * j + 1) l []).
  Proof.
    induction j as [|j IH]; intros [|a [|b r]] Hj; cbn [length] in Hj; try lia; [reflexivity|].
    cbn [pairs nth]. rewrite IH by lia. replace (2 * S j)%nat with (S (S (2 * j))) by lia. reflexivity.
  Qed.

  Lemma level_length n leaf k : length (level n leaf k) = S (N.to_nat (cur n k)).
  Proof. unfold level. rewrite map_length, seq_length. reflexivity. Qed.
  Lemma level_nth n leaf k j : (j <= N.to_nat (cur n k))%nat -> nth j (level n leaf k) [] = tv n leaf k (N.of_nat j).
  Proof.
    intros Hj. unfold level. rewrite (nth_indep _ [] (tv n leaf k (N.of_nat 0))) by (rewrite map_length, seq_length; lia).
    rewrite (map_nth (fun j => tv n leaf k (N.of_nat j))). rewrite seq_nth by lia. reflexivity.
  Qed.

  Lemma level_step n leaf k : 1 <= cur n k -> pairs I (even_out (level n leaf k)) = level n leaf (S k).
  Proof.
    intros Hc. set (c := cur n k) in *. set (y := c / 2).
    pose proof (N.div_mod c 2 ltac:(discriminate)) as Hdm. fold y in Hdm. pose proof (N.mod_upper_bound c 2 ltac:(discriminate)).
    assert (Hodd : Nat.odd (length (level n leaf k)) = (c mod 2 =? 0)).
    { rewrite level_length. fold c. apply eq_iff_eq_true. rewrite Nat.odd_spec, N.eqb_eq. split.
      - intros [m Hm]. assert (c = 2 * N.of_nat m) by lia. rewrite H0, N.mul_comm. apply N.mod_mul. discriminate.
      - intros E. exists (N.to_nat y). lia. }
    assert (Hel : length (even_out (level n leaf k)) = (2 * S (N.to_nat y))%nat).
    { unfold even_out. rewrite Hodd. destruct (N.eqb_spec (c mod 2) 0).
      - rewrite app_length, firstn_length, level_length. fold c. lia.
      - rewrite level_length. fold c. lia. }
    apply (nth_ext _ _ [] []).
    - rewrite pairs_length, Hel, level_length. cbn [cur]. fold c y. rewrite Nat.mul_comm, Nat.div_mul by discriminate. reflexivity.
    - intros j Hj. rewrite pairs_length, Hel, Nat.mul_comm, Nat.div_mul in Hj by discriminate.
      rewrite pairs_nth by lia. rewrite (level_nth n leaf (S k)) by (cbn [cur]; fold c y; lia). cbn [tv]. fold c. f_equal.
      + unfold even_out. destruct (Nat.odd _).
        * rewrite app_nth1 by (rewrite level_length; fold c; lia). rewrite level_nth by (fold c; lia). f_equal. lia.
        * rewrite level_nth by (fold c; lia). f_equal. lia.
      + unfold even_out. rewrite Hodd. destruct (N.leb_spec (2 * N.of_nat j + 1) c) as [Hle|Hgt].
        * assert (Hn : nth (2 * j + 1) (level n leaf k) [] = tv n leaf k (2 * N.of_nat j + 1)) by (rewrite level_nth by (fold c; lia); f_equal; lia).
          destruct (c mod 2 =? 0); [rewrite app_nth1 by (rewrite level_length; fold c; lia)|]; exact Hn.
        * destruct (N.eqb_spec (c mod 2) 0); [|exfalso; lia].
          assert (2 * j + 1 = length (level n leaf k))%nat as -> by (rewrite level_length; fold c; lia).
          rewrite app_nth2, Nat.sub_diag by lia. unfold level. cbn [seq map firstn nth]. reflexivity.
  Qed.

  Lemma level_Root n leaf H : cur n H = 0 -> (forall k, (k < H)%nat -> 1 <= cur n k) ->
    forall m i, (i + m = H)%nat -> Root I (level n leaf i) m (tv n leaf H 0).
  Proof.
    intros H0 Hk. induction m as [|m IH]; intros i Hi.
    - assert (i = H) as -> by lia. unfold level. rewrite H0. constructor.
    - constructor; [rewrite level_length; pose proof (Hk i ltac:(lia)); lia|].
      rewrite level_step by (apply Hk; lia). apply IH. lia.
  Qed.
End P.
