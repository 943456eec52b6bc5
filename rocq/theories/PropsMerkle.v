(** * C27: inclusion proofs of the batch Merkle tree *)
From Verif Require Import Base Codec Hkdf HkdfSpec HkdfProofs Merkle MerkleSpec MerkleProofs PropsKeys.
Open Scope N_scope.

(** Any use of a tree before it is finalized for signing; it may even have been finalized before. *)
Inductive mop := OAppend (msg : bytes) | OTranscript (msg rnd : bytes) | OFinalize.
Fixpoint run_ops (h : hashalg) (t : mtree) (ops : list mop) : res mtree :=
  match ops with
  | [] => Ok t
  | OAppend m :: r => '(t', _) <- append h t m ;; run_ops h t' r
  | OTranscript m rnd :: r => '(t', _) <- appendTranscript h t m rnd ;; run_ops h t' r
  | OFinalize :: r => t' <- finalizeTree h t ;; run_ops h t' r
  end.
Definition appended (ops : list mop) : list bytes :=
  flat_map (fun o => match o with OAppend m => [m] | OTranscript m r => [m; r] | OFinalize => [] end) ops.
(** Appends beyond the capacity are refused. *)
Definition leaves (maxMsg : N) (ops : list mop) : list bytes := takeN (2 * maxMsg) (appended ops).

Definition leaf_fn (h : hashalg) (l : list bytes) (i : N) : bytes := leafNode h (nth (N.to_nat i) l []).

Lemma append_step h l t m : hash_ok h -> Inv h (blen l) (leaf_fn h l) t ->
  exists t' i, append h t m = Ok (t', i) /\ mt_max t' = mt_max t /\
  (if blen l <? mt_max t then i = Some (blen l) /\ Inv h (blen (l ++ [m])) (leaf_fn h (l ++ [m])) t'
   else i = None /\ t' = t).
Proof.
  intros Hh HI. destruct (N.ltb_spec (blen l) (mt_max t)) as [Hlt|Hge].
  - destruct (append_Inv h (blen l) (leaf_fn h l) (leaf_fn h (l ++ [m])) t m HI Hlt) as (t' & E & HI' & Em).
    + intros i Hi. unfold leaf_fn. rewrite app_nth1; [reflexivity|]. unfold blen in Hi. lia.
    + unfold leaf_fn, blen. rewrite Nnat.Nat2N.id, app_nth2, Nat.sub_diag by lia. reflexivity.
    + exists t', (Some (blen l)). split; [exact E|]. split; [exact Em|]. split; [reflexivity|].
      rewrite blen_app. change (blen [m]) with 1. exact HI'.
  - exists t, None. unfold append. rewrite (iv_next _ _ _ _ HI). destruct (N.leb_spec (mt_max t) (blen l)); [|lia]. auto.
Qed.

Lemma takeN_snoc {A} n (l : list A) m : takeN n (takeN n l ++ [m]) = takeN n (l ++ [m]) /\
  (blen (takeN n l) < n -> takeN n l ++ [m] = takeN n (l ++ [m])) /\ (~ blen (takeN n l) < n -> takeN n l = takeN n (l ++ [m])).
Proof.
  rewrite blen_takeN. unfold takeN. destruct (N.le_gt_cases n (blen l)) as [H|H]; unfold blen in H.
  - assert (E : firstn (N.to_nat n) (l ++ [m]) = firstn (N.to_nat n) l) by (rewrite firstn_app; replace (N.to_nat n - length l)%nat with 0%nat by lia; rewrite firstn_O, app_nil_r; reflexivity).
    rewrite E. split; [|split].
    + rewrite firstn_app, firstn_firstn, Nat.min_id, firstn_length. replace (N.to_nat n - _)%nat with 0%nat by lia. rewrite firstn_O, app_nil_r. reflexivity.
    + unfold blen. lia.
    + reflexivity.
  - rewrite (firstn_all2 l) by lia. split; [reflexivity|]. rewrite (firstn_all2 (l ++ [m])) by (rewrite app_length; cbn [length]; lia).
    split; [reflexivity|]. unfold blen. lia.
Qed.

Lemma run_Inv h maxMsg : hash_ok h -> forall ops pre t, mt_max t = 2 * maxMsg ->
  Inv h (blen (takeN (2 * maxMsg) pre)) (leaf_fn h (takeN (2 * maxMsg) pre)) t ->
  blen (takeN (2 * maxMsg) (pre ++ appended ops)) <= 2 ^ 31 ->
  exists t', run_ops h t ops = Ok t' /\ mt_max t' = 2 * maxMsg /\
    Inv h (blen (takeN (2 * maxMsg) (pre ++ appended ops))) (leaf_fn h (takeN (2 * maxMsg) (pre ++ appended ops))) t'.
Proof.
  intros Hh. set (M := 2 * maxMsg).
  assert (Hone : forall pre t m, mt_max t = M -> Inv h (blen (takeN M pre)) (leaf_fn h (takeN M pre)) t ->
     exists t' i, append h t m = Ok (t', i) /\ mt_max t' = M /\ Inv h (blen (takeN M (pre ++ [m]))) (leaf_fn h (takeN M (pre ++ [m]))) t').
  { intros pre t m Hm HI. destruct (append_step h _ t m Hh HI) as (t' & i & E & Em & Hc). exists t', i.
    split; [exact E|]. split; [congruence|]. rewrite Hm in Hc. destruct (takeN_snoc M pre m) as (_ & T1 & T2).
    destruct (N.ltb_spec (blen (takeN M pre)) M) as [Hl|Hl].
    - rewrite <- (T1 Hl). apply Hc.
    - rewrite <- (T2 ltac:(lia)). destruct Hc as [_ ->]. exact HI. }
  induction ops as [|o r IH]; intros pre t Hm HI Hb; cbn [run_ops appended flat_map] in *.
  - rewrite app_nil_r. eauto.
  - destruct o as [m|m rnd|].
    + destruct (Hone pre t m Hm HI) as (t' & i & -> & Hm' & HI'). cbn [bind].
      change ([m] ++ _) with ([m] ++ appended r) in *. rewrite app_assoc in *. apply IH; assumption.
    + unfold appendTranscript. destruct (Hone pre t m Hm HI) as (t1 & i & -> & Hm1 & HI1). cbn [bind].
      destruct (Hone _ t1 rnd Hm1 HI1) as (t2 & j & -> & Hm2 & HI2). cbn [bind].
      change ([m; rnd] ++ _) with ([m] ++ [rnd] ++ appended r) in *. rewrite !app_assoc in *. apply IH; assumption.
    + cbn [app] in *. fold (appended r) in *.
      destruct (N.eq_dec (blen (takeN M pre)) 0) as [E|E].
      * assert (Ef : finalizeTree h t = Ok t).
        { unfold finalizeTree. rewrite (iv_next _ _ _ _ HI), E. reflexivity. }
        rewrite Ef. cbn [bind]. apply IH; assumption.
      * destruct (finalize_spec h (blen (takeN M pre)) (leaf_fn h (takeN M pre)) t) as (t' & -> & HI' & Em & _); [lia| |exact HI|].
        -- etransitivity; [|exact Hb]. rewrite !blen_takeN, blen_app. lia.
        -- cbn [bind]. apply IH; [congruence|exact HI'|exact Hb].
Qed.

Lemma leaf_fn_len h l i : hash_ok h -> blen (leaf_fn h l i) = h_len h.
Proof. intros Hh. unfold leaf_fn, leafNode. apply (ho_digest h Hh). Qed.

Lemma level0 h l : l <> [] -> level h (blen l) (leaf_fn h l) 0 = map (leafNode h) l.
Proof.
  intros Hne. unfold level. cbn [cur tv]. assert (E : S (N.to_nat (blen l - 1)) = length l).
  { unfold blen. destruct l; [contradiction|]. cbn [length]. lia. }
  rewrite E. apply (nth_ext _ _ [] []); [rewrite !map_length, seq_length; reflexivity|].
  intros j Hj. rewrite map_length, seq_length in Hj.
  rewrite (nth_indep _ [] (leaf_fn h l (N.of_nat 0))) by (rewrite map_length, seq_length; exact Hj).
  rewrite (map_nth (fun j => leaf_fn h l (N.of_nat j))), seq_nth by exact Hj.
  rewrite (nth_indep _ [] (leafNode h [])) by (rewrite map_length; exact Hj). rewrite map_nth.
  unfold leaf_fn. rewrite Nat.add_0_l, Nnat.Nat2N.id. reflexivity.
Qed.

(** After any sequence of appends and finalizations with at least one accepted leaf, finalizing succeeds, the root
    is the root of the level-by-level tree over the leaves, and for every leaf the issued path recomputes it. *)
Theorem C27_inclusion : forall h maxMsg ops, hash_ok h ->
  let l := leaves maxMsg ops in l <> [] -> blen l <= 2 ^ 31 ->
  exists t t' root, run_ops h (newTree maxMsg) ops = Ok t /\ finalizeTree h t = Ok t' /\ getRootValue t' = Ok root /\
    Root (internalNode h) (map (leafNode h) l) (mt_height t') root /\ (mt_height t' <= 31)%nat /\
    forall i msg, nth_error l i = Some msg ->
      exists path, getPath t' (N.of_nat i) = Ok path /\ blen path = N.of_nat (mt_height t') * h_len h /\
                   computeRootFromPath h msg (N.of_nat i) path = Ok root.
Proof.
  intros h maxMsg ops Hh l Hne Hb.
  assert (Hlen : forall x, blen (h_fn h x) = h_len h) by (intros; apply (ho_digest h Hh)).
  destruct (run_Inv h maxMsg Hh ops [] (newTree maxMsg)) as (t & Et & _ & HI).
  { reflexivity. }
  { unfold takeN. rewrite firstn_nil. change (blen (@nil bytes)) with 0. apply Inv_new. }
  { exact Hb. }
  cbn [app] in HI. fold (leaves maxMsg ops) in HI. fold l in HI.
  assert (Hn : 0 < blen l) by (unfold blen; destruct l; [contradiction|cbn [length]; lia]).
  destruct (finalize_spec h (blen l) (leaf_fn h l) t Hn Hb HI) as (t' & Ef & HI' & _ & Hc & HL & Hd).
  set (H := mt_height t') in *.
  assert (Hroot : getRootValue t' = Ok (tv h (blen l) (leaf_fn h l) H 0)).
  { unfold getRootValue. fold H. rewrite (HL 0) by lia. reflexivity. }
  exists t, t', (tv h (blen l) (leaf_fn h l) H 0).
  split; [exact Et|]. split; [exact Ef|]. split; [exact Hroot|].
  split; [|split].
  - rewrite <- level0 by exact Hne. apply level_Root; [exact Hlen|exact Hc|intros k Hk; apply (iv_h _ _ _ _ HI'), Hk|reflexivity].
  - destruct (Nat.le_gt_cases H 31) as [|Hgt]; [assumption|]. exfalso. 
    pose proof (iv_h _ _ _ _ HI' 31%nat ltac:(fold H; lia)) as Hx. apply cur_lb in Hx. change (N.of_nat 31) with 31 in Hx. lia.
  - intros i msg Hi. assert (Hil : (i < length l)%nat) by (apply nth_error_Some; congruence).
    assert (Hic : N.of_nat i <= cur (blen l) 0) by (cbn [cur]; unfold blen; lia).
    exists (spath h (blen l) (leaf_fn h l) H 0 (N.of_nat i)).
    assert (Hpl : blen (spath h (blen l) (leaf_fn h l) H 0 (N.of_nat i)) = N.of_nat H * h_len h).
    { apply spath_len; [exact Hlen|]. intros j; apply leaf_fn_len, Hh. }
    split; [|split; [exact Hpl|]].
    + unfold getPath. rewrite Hroot. cbn [bind]. apply (path_loop_spec h (blen l) (leaf_fn h l) t' H); [exact Hd|reflexivity|exact Hic].
    + unfold computeRootFromPath. pose proof (ho_pos h Hh). rewrite Hpl, N.mod_mul, N.div_mul by lia. change (negb (0 =? 0)) with false. cbv iota. rewrite Nnat.Nat2N.id.
      assert (Em : leafNode h msg = tv h (blen l) (leaf_fn h l) 0 (N.of_nat i)).
      { cbn [tv]. unfold leaf_fn. rewrite Nnat.Nat2N.id. rewrite (nth_error_nth _ _ _ Hi). reflexivity. }
      rewrite Em, compute_spath; [|exact Hlen|intros j; apply leaf_fn_len, Hh|exact Hic]. cbn [Nat.add]. f_equal. f_equal.
      apply N.div_small. pose proof (cur_ub (blen l) H Hn) as Hu. rewrite Hc in Hu. cbn [cur] in Hic. lia.
Qed.
Print Assumptions C27_inclusion.

(** ** Binding *)
Lemma bytes_dec (a b : bytes) : {a = b} + {a <> b}.
Proof. apply list_eq_dec. apply Byte.byte_eq_dec. Qed.

Lemma app_inj_len {A} (a b c d : list A) : blen a = blen c -> a ++ b = c ++ d -> a = c /\ b = d.
Proof.
  intros Hl. revert c Hl. induction a as [|x a IH]; intros [|y c] Hl E; unfold blen in Hl; cbn [length] in Hl; try lia; [auto|].
  cbn [app] in E. injection E as -> E. destruct (IH c) with (2 := E) as [-> ->]; [unfold blen; lia|auto].
Qed.
Lemma internal_inj h a b c d : blen a = blen c -> internalNode h a b = internalNode h c d -> (a = c /\ b = d) \/ collision (h_fn h).
Proof.
  intros Hl E. unfold internalNode in E. destruct (bytes_dec (x01 :: a ++ b) (x01 :: c ++ d)) as [Eq|Ne].
  - left. injection Eq as Eq. apply app_inj_len; assumption.
  - right. exists (x01 :: a ++ b), (x01 :: c ++ d). auto.
Qed.
Lemma leaf_internal h m a b : leafNode h m = internalNode h a b -> collision (h_fn h).
Proof. intros E. exists (x00 :: m), (x01 :: a ++ b). split; [discriminate|exact E]. Qed.
Lemma leaf_inj h m m' : leafNode h m = leafNode h m' -> m = m' \/ collision (h_fn h).
Proof.
  intros E. destruct (bytes_dec m m') as [|Ne]; [auto|]. right. exists (x00 :: m), (x00 :: m'). split; [congruence|exact E].
Qed.

Lemma skipn_add {A} (b a : nat) (l : list A) : skipn b (skipn a l) = skipn (a + b) l.
Proof. revert l. induction a as [|a IH]; intros l; cbn [Nat.add]; [reflexivity|]. destruct l; [rewrite !skipn_nil; reflexivity|]. cbn [skipn]. apply IH. Qed.

Section Bind.
  Variable h : hashalg.
  Variable Hh : hash_ok h.
  Let Hlen : forall x, blen (h_fn h x) = h_len h := ho_digest h Hh.

  Lemma step_len s v o : blen (if o mod 2 =? 0 then internalNode h v s else internalNode h s v) = h_len h.
  Proof. destruct (o mod 2 =? 0); apply Hlen. Qed.

  (** walking down from a node of the tree *)
  Lemma compute_down n leaf : (forall i, blen (leaf i) = h_len h) -> forall m i v o path x,
    N.of_nat m * h_len h <= blen path -> blen v = h_len h -> x <= cur n (i + m) ->
    compute_loop h m v o path = tv h n leaf (i + m) x ->
    (exists y, y <= cur n i /\ v = tv h n leaf i y /\ (o <= cur n i -> x = o / p2 m -> y = o)) \/ collision (h_fn h).
  Proof.
    intros Hl. induction m as [|m IH]; intros i v o path x Hp Hv Hx E; cbn [compute_loop] in E.
    - rewrite Nat.add_0_r in *. left. exists x. split; [exact Hx|]. split; [exact E|]. change (p2 0) with 1. rewrite N.div_1_r. auto.
    - replace (i + S m)%nat with (S i + m)%nat in * by lia.
      set (s := takeN (h_len h) path) in *. assert (Hs : blen s = h_len h) by (unfold s; rewrite blen_takeN; lia).
      destruct (fun a b c => IH (S i) _ _ _ x a b c E) as [(y & Hy & Ey & Hyo)|Hc].
      + rewrite blen_dropN. lia.
      + apply step_len.
      + exact Hx.
      + cbn [tv] in Ey. cbn [cur] in Hy.
        pose proof (N.div_mod (cur n i) 2 ltac:(discriminate)) as D1. pose proof (N.mod_upper_bound (cur n i) 2 ltac:(discriminate)) as D2.
        pose proof (N.div_mod o 2 ltac:(discriminate)) as D3. pose proof (N.mod_upper_bound o 2 ltac:(discriminate)) as D4.
        assert (Hyo' : o <= cur n i -> x = o / p2 (S m) -> y = o / 2).
        { intros Ho Hxo. apply Hyo; [cbn [cur]; apply N.div_le_mono; [discriminate|exact Ho]|].
          rewrite Hxo, p2_S, N.div_div by (pose proof (p2_pos m); lia). reflexivity. }
        destruct (N.eqb_spec (o mod 2) 0) as [He|He].
        * apply internal_inj in Ey; [|rewrite tv_len by assumption; exact Hv]. destruct Ey as [[Ey _]|Hc]; [left|right; exact Hc].
          exists (2 * y). split; [lia|]. split; [exact Ey|]. intros Ho Hxo. rewrite (Hyo' Ho Hxo). lia.
        * apply internal_inj in Ey; [|rewrite tv_len by assumption; exact Hs]. destruct Ey as [[_ Ey]|Hc]; [left|right; exact Hc].
          destruct (N.leb_spec (2 * y + 1) (cur n i)) as [Hle|Hgt].
          -- exists (2 * y + 1). split; [exact Hle|]. split; [exact Ey|]. intros Ho Hxo. rewrite (Hyo' Ho Hxo). lia.
          -- exists 0. split; [lia|]. split; [exact Ey|]. intros Ho Hxo. rewrite (Hyo' Ho Hxo) in Hgt. lia.
      + right. exact Hc.
  Qed.

  Lemma compute_split a : forall b v o path, compute_loop h (a + b) v o path =
    compute_loop h b (compute_loop h a v o path) (o / p2 a) (dropN (N.of_nat a * h_len h) path).
  Proof.
    induction a as [|a IH]; intros b v o path; cbn [Nat.add compute_loop].
    - change (p2 0) with 1. rewrite N.div_1_r. reflexivity.
    - rewrite IH, p2_S, N.div_div by (try discriminate; pose proof (p2_pos a); lia). f_equal. unfold dropN. rewrite skipn_add. f_equal. lia.
  Qed.
End Bind.

Lemma Root_level h n leaf : (forall x, blen (h_fn h x) = h_len h) -> forall l k r, Root (internalNode h) l k r -> forall i, l = level h n leaf i ->
  cur n (i + k) = 0 /\ r = tv h n leaf (i + k) 0.
Proof.
  intros Hlen l k r H. induction H as [x|l k r H1 H2 IH]; intros i E.
  - rewrite Nat.add_0_r. assert (El : length [x] = length (level h n leaf i)) by congruence. rewrite level_length in El. cbn [length] in El.
    assert (Hc : cur n i = 0) by lia. split; [exact Hc|]. unfold level in E. rewrite Hc in E. change (N.to_nat 0) with 0%nat in E. cbn [seq map] in E. injection E as ->. reflexivity.
  - assert (Hc : 1 <= cur n i) by (rewrite E, level_length in H1; lia).
    destruct (IH (S i)) as [G1 G2]; [rewrite E; apply level_step; assumption|]. replace (i + S k)%nat with (S i + k)%nat by lia. auto.
Qed.

(** Whatever index and path a verifier is given: if they recompute the root of a tree, then the message is one of
    the leaves of that tree and the path has exactly the tree's height - or two inputs with the same hash are
    known.  If the index is that of a leaf, the message is that leaf. *)
Theorem C27_binding : forall h msgs k root msg index path, hash_ok h -> msgs <> [] ->
  Root (internalNode h) (map (leafNode h) msgs) k root -> computeRootFromPath h msg index path = Ok root ->
  (In msg msgs /\ blen path = N.of_nat k * h_len h /\ (index < blen msgs -> nth_error msgs (N.to_nat index) = Some msg))
  \/ collision (h_fn h).
Proof.
  intros h msgs k root msg index path Hh Hne HR Hc.
  assert (Hlen : forall x, blen (h_fn h x) = h_len h) by (intros; apply (ho_digest h Hh)).
  assert (Hll : forall i, blen (leaf_fn h msgs i) = h_len h) by (intros; apply leaf_fn_len, Hh).
  set (n := blen msgs). set (lf := leaf_fn h msgs).
  destruct (Root_level h n lf Hlen _ _ _ HR 0%nat) as [Hk ->]; [symmetry; apply level0, Hne|]. cbn [Nat.add] in *.
  unfold computeRootFromPath in Hc. destruct (N.eqb_spec (blen path mod h_len h) 0) as [Hm|Hm]; [|discriminate]. cbn [negb] in Hc.
  pose proof (ho_pos h Hh) as Hpos. set (m := N.to_nat (blen path / h_len h)) in *.
  assert (Hpm : blen path = N.of_nat m * h_len h).
  { unfold m. rewrite Nnat.N2Nat.id. pose proof (N.div_mod (blen path) (h_len h) ltac:(lia)). lia. }
  injection Hc as Hc. pose proof (leaf_fn_len h [msg] 0 Hh) as Hv. unfold leaf_fn in Hv. change (nth (N.to_nat 0) [msg] []) with msg in Hv.
  assert (Hnn : 0 < n) by (unfold n, blen; destruct msgs; [contradiction|cbn [length]; lia]).
  destruct (Nat.lt_trichotomy m k) as [Hlt|[Heq|Hgt]].
  - (* too short: a leaf would be an inner node *)
    right. replace k with ((k - m) + m)%nat in Hc by lia.
    destruct (compute_down h Hh n lf Hll m (k - m) _ index path 0 ltac:(lia) Hv ltac:(lia) Hc) as [(y & _ & Ey & _)|]; [|assumption].
    assert (exists j, (k - m)%nat = S j) as [j Ej] by (exists (pred (k - m)); lia). rewrite Ej in Ey. cbn [tv] in Ey.
    eapply leaf_internal, Ey.
  - subst m. rewrite Heq in *.
    destruct (compute_down h Hh n lf Hll k 0 _ index path 0 ltac:(lia) Hv ltac:(lia) Hc) as [(y & Hy & Ey & Hyo)|]; [|right; assumption].
    cbn [tv cur] in Ey, Hy. unfold lf, leaf_fn in Ey. apply leaf_inj in Ey. destruct Ey as [Ey|]; [left|right; assumption].
    assert (Hyl : (N.to_nat y < length msgs)%nat) by (unfold n, blen in *; lia).
    split; [rewrite Ey; apply nth_In, Hyl|]. split; [exact Hpm|].
    intros Hi. assert (y = index) as <-.
    { apply Hyo; [cbn [cur]; fold n in Hi; lia|]. symmetry. apply N.div_small. pose proof (cur_ub n k Hnn) as Hu. rewrite Hk in Hu. fold n in Hi. lia. }
    rewrite Ey. apply nth_error_nth'. exact Hyl.
  - (* too long: an inner node would be a leaf *)
    right. replace m with ((m - k) + k)%nat in Hc by lia. rewrite compute_split in Hc by exact Hh.
    assert (exists j, (m - k)%nat = S j) as [j Ej] by (exists (pred (m - k)); lia).
    assert (Hin : forall a v o p, exists l r, compute_loop h (S a) v o p = internalNode h l r).
    { induction a as [|a IH]; intros v o p.
      - cbn [compute_loop]. destruct (o mod 2 =? 0); eauto.
      - destruct (IH (if o mod 2 =? 0 then internalNode h v (takeN (h_len h) p) else internalNode h (takeN (h_len h) p) v) (o / 2) (dropN (h_len h) p)) as (l & r & E).
        exists l, r. exact E. }
    destruct (Hin j (leafNode h msg) index path) as (a & b & Eab). rewrite <- Ej in Eab. rewrite Eab in Hc.
    destruct (fun a1 a2 a3 => compute_down h Hh n lf Hll k 0 (internalNode h a b) _ _ 0 a1 a2 a3 Hc) as [(y & _ & Ey & _)|].
    + rewrite blen_dropN. nia.
    + apply Hlen.
    + lia.
    + cbn [tv] in Ey. unfold lf, leaf_fn in Ey. symmetry in Ey. eapply leaf_internal, Ey.
    + assumption.
Qed.
Print Assumptions C27_binding.

(** The index is only bound up to a multiple of 2^height: a verifier accepts the same proof with a different index. *)
Theorem C27_index_malleable_refuted : forall h msgs k root msg index path, hash_ok h -> msgs <> [] ->
  Root (internalNode h) (map (leafNode h) msgs) k root -> blen path = N.of_nat k * h_len h ->
  computeRootFromPath h msg index path = Ok root -> computeRootFromPath h msg (index + 2 ^ N.of_nat k) path = Ok root.
Proof.
  intros h msgs k root msg index path Hh _ _ Hp H. unfold computeRootFromPath in *. pose proof (ho_pos h Hh).
  rewrite Hp, N.mod_mul, N.div_mul, Nnat.Nat2N.id in * by lia. change (negb (0 =? 0)) with false in *. cbv iota in *. rewrite <- H. f_equal.
  clear H Hp. revert index path. generalize (leafNode h msg) as v. induction k as [|k IH]; intros v index path; [reflexivity|].
  cbn [compute_loop]. rewrite p2_S.
  assert (E1 : (index + 2 * p2 k) mod 2 = index mod 2) by (rewrite (N.mul_comm 2), N.mod_add by discriminate; reflexivity).
  assert (E2 : (index + 2 * p2 k) / 2 = index / 2 + p2 k) by (rewrite (N.mul_comm 2), N.div_add by discriminate; reflexivity).
  rewrite E1, E2. apply IH.
Qed.
Print Assumptions C27_index_malleable_refuted.

(** Examples: three transcripts (six leaves, uneven levels), with an early finalization in between. *)
Definition ex_mops : list mop := [OTranscript [x61] [x01]; OFinalize; OTranscript [x62] [x02]; OTranscript [x63] [x03]; OTranscript [x64] [x04]].
Definition ex_mrun : res (nat * bool) :=
  t <- run_ops toy_hash (newTree 3) ex_mops ;; t' <- finalizeTree toy_hash t ;; r <- getRootValue t' ;;
  p <- getPath t' 4 ;; r' <- computeRootFromPath toy_hash [x63] 4 p ;; Ok (mt_height t', bytes_eqb r r').
Example C27_nonvacuous : leaves 3 ex_mops = [[x61]; [x01]; [x62]; [x02]; [x63]; [x03]] /\ ex_mrun = Ok (3%nat, true).
Proof. split; vm_compute; reflexivity. Qed.
