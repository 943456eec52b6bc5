(** * Properties C18, C19: chained-buffer transforms and constant-time comparison *)
From Verif Require Import Base Nonce Hkdf HkdfProofs IOBufUtil.

Fixpoint sumN (l : list N) : N := match l with [] => 0 | c :: l' => c + sumN l' end.
(** Running a state machine over a list of pieces, outputs concatenated. *)
Fixpoint run_calls {St} (f : St -> bytes -> St * bytes) (s : St) (cs : list bytes) : St * bytes :=
  match cs with
  | [] => (s, [])
  | c :: cs' => let '(s1, o1) := f s c in let '(s2, o2) := run_calls f s1 cs' in (s2, o1 ++ o2)
  end.
(** A streaming function: cutting the input does not change the result. *)
Definition streaming {St} (f : St -> bytes -> St * bytes) : Prop :=
  (forall s, f s [] = (s, [])) /\
  (forall s a b, f s (a ++ b) = let '(s1, o1) := f s a in let '(s2, o2) := f s1 b in (s2, o1 ++ o2)).
Lemma run_streaming {St} (f : St -> bytes -> St * bytes) : streaming f ->
  forall cs s, run_calls f s cs = f s (concat cs).
Proof.
  intros [H0 H1]. induction cs as [|c cs IH]; intros s; cbn [run_calls concat].
  - symmetry. apply H0.
  - rewrite H1. destruct (f s c) as [s1 o1]. rewrite IH. reflexivity.
Qed.

Lemma blen_concat_cons (c : bytes) l : blen (concat (c :: l)) = blen c + blen (concat l).
Proof. cbn [concat]. apply blen_app. Qed.

(** ** C18, streaming variant *)
Lemma transform_ok {St} (f : St -> bytes -> St * bytes) : forall fuel s ins caps out,
  blen (concat ins) <= sumN caps ->
  (length ins + length caps + length (concat ins) <= fuel)%nat ->
  exists cs s' o, transform f fuel s ins caps out = Ok (s', out ++ o) /\
    concat cs = concat ins /\ run_calls f s cs = (s', o).
Proof.
  induction fuel as [|g IH]; intros s ins caps out Hc Hf.
  - destruct ins; [|cbn in Hf; lia]. exists [], s, []. cbn. rewrite app_nil_r. auto.
  - destruct ins as [|cur rest].
    { exists [], s, []. cbn. rewrite app_nil_r. auto. }
    cbn [transform]. destruct (N.eqb_spec (blen cur) 0) as [E0|E0].
    + apply blen_0 in E0. subst cur. cbn [length] in Hf.
      destruct (IH s rest caps out) as (cs & s' & o & H1 & H2 & H3).
      * exact Hc.
      * cbn [concat app] in Hf. lia.
      * exists cs, s', o. auto.
    + rewrite blen_concat_cons in Hc.
      destruct caps as [|c caps]; [cbn [sumN] in Hc; lia|].
      set (sel := N.min c (blen cur)).
      destruct (f s (takeN sel cur)) as [s1 o1] eqn:Ef.
      destruct (IH s1 (dropN sel cur :: rest) (if c - sel =? 0 then caps else c - sel :: caps) (out ++ o1))
        as (cs & s' & o & H1 & H2 & H3).
      * rewrite blen_concat_cons, blen_dropN. cbn [sumN] in Hc.
        destruct (N.eqb_spec (c - sel) 0); cbn [sumN]; lia.
      * pose proof (blen_dropN sel cur) as Hd. cbn [concat length] in *. rewrite app_length in *. cbn [length] in Hf.
        unfold blen in *. destruct (N.eqb_spec (c - sel) 0); cbn [length]; lia.
      * exists (takeN sel cur :: cs), s', (o1 ++ o). rewrite H1, <- app_assoc. split; [reflexivity|].
        cbn [concat run_calls] in *. rewrite H2, app_assoc, takeN_dropN, Ef, H3. auto.
Qed.

(** For any function (streaming or not), any cutting of the input and output chains: the function sees
    the input exactly once and in order, and its outputs are stored back to back. *)
Theorem C18_transform_calls : forall St (f : St -> bytes -> St * bytes) s ins caps,
  blen (concat ins) <= sumN caps ->
  exists cs s' o, transformBuffer f s ins caps = Ok (s', o) /\
    concat cs = concat ins /\ run_calls f s cs = (s', o).
Proof.
  intros St f s ins caps H. unfold transformBuffer.
  destruct (transform_ok f _ s ins caps [] H (le_n _)) as (cs & s' & o & H1 & H2 & H3).
  exists cs, s', o. auto.
Qed.
Print Assumptions C18_transform_calls.

Theorem C18_transform_flat : forall St (f : St -> bytes -> St * bytes) s ins caps, streaming f ->
  blen (concat ins) <= sumN caps ->
  transformBuffer f s ins caps = Ok (f s (concat ins)).
Proof.
  intros St f s ins caps Hs H. destruct (C18_transform_calls St f s ins caps H) as (cs & s' & o & H1 & H2 & H3).
  rewrite H1, <- H2, <- (run_streaming f Hs), H3. reflexivity.
Qed.
Print Assumptions C18_transform_flat.

(** ** C18, block variant *)
(** A block function of block size [bs] keeps [held s] bytes and writes only whole blocks. *)
Definition block_fn {St} (bs : N) (held : St -> N) (f : St -> bytes -> St * bytes) : Prop :=
  forall s x, held s < bs ->
    held (fst (f s x)) = (held s + blen x) mod bs /\
    blen (snd (f s x)) = (held s + blen x) - (held s + blen x) mod bs.

Lemma skipE_concat ins : concat (skipE ins) = concat ins.
Proof.
  induction ins as [|c cs IH]; [reflexivity|]. cbn [skipE]. destruct (N.eqb_spec (blen c) 0) as [E|E]; [|reflexivity].
  apply blen_0 in E. subst c. exact IH.
Qed.
Lemma skipE_head ins c cs : skipE ins = c :: cs -> 0 < blen c.
Proof.
  induction ins as [|d ds IH]; [discriminate|]. cbn [skipE]. destruct (N.eqb_spec (blen d) 0); [exact IH|].
  intros [= -> ->]. lia.
Qed.
Lemma skip0_sum caps : sumN (skip0 caps) = sumN caps.
Proof.
  induction caps as [|c cs IH]; [reflexivity|]. cbn [skip0]. destruct (N.eqb_spec c 0); [|reflexivity].
  subst. cbn [sumN]. rewrite IH. reflexivity.
Qed.
Lemma advance_ok n : forall caps, n <= sumN caps -> exists caps', advance caps n = Ok caps' /\ sumN caps' = sumN caps - n.
Proof.
  intros caps. revert n. induction caps as [|c cs IH]; intros n H; cbn [advance sumN] in *.
  - destruct (N.eqb_spec n 0); [|lia]. exists []. cbn. split; [reflexivity|lia].
  - destruct (N.eqb_spec n 0).
    + exists (c :: cs). cbn [sumN]. split; [reflexivity|lia].
    + destruct (N.leb_spec c n).
      * destruct (IH (n - c)) as (caps' & E1 & E2); [lia|]. exists caps'. split; [exact E1|lia].
      * eexists. split; [reflexivity|]. cbn [sumN]. lia.
Qed.

Lemma floor_aux bs n m q r q' r' : 0 < bs -> n = bs * q + r -> r < bs -> m = bs * q' + r' -> r' < bs ->
  m - r' <= n -> n < m - r' + bs -> n - r = m - r'.
Proof.
  intros Hb -> Hr -> Hr' H1 H2.
  assert (q = q').
  { destruct (N.lt_trichotomy q q') as [Hq|[Hq|Hq]]; [|exact Hq|].
    - assert (bs * (q + 1) <= bs * q') by (apply N.mul_le_mono_l; lia). lia.
    - assert (bs * (q' + 1) <= bs * q) by (apply N.mul_le_mono_l; lia). lia. }
  subst q'. lia.
Qed.
Lemma floor_cases bs n m : 0 < bs -> m - m mod bs <= n -> n < m - m mod bs + bs -> n - n mod bs = m - m mod bs.
Proof.
  intros Hb H1 H2.
  apply (floor_aux bs n m (n / bs) (n mod bs) (m / bs) (m mod bs)); try assumption;
    first [apply N.div_mod; lia | apply N.mod_lt; lia].
Qed.
Lemma floor_ge bs n : 0 < bs -> bs <= n -> bs <= n - n mod bs.
Proof.
  intros Hb H. assert (1 <= n / bs) as Hq by (apply N.div_le_lower_bound; lia).
  pose proof (N.div_mod n bs ltac:(lia)) as E. pose proof (N.mul_le_mono_l _ _ bs Hq).
  generalize dependent (n mod bs). generalize dependent (n / bs). intros. lia.
Qed.

Lemma floor_rest bs h nt c R nblk S : 0 < bs -> nt <= c -> (h + nt) - (h + nt) mod bs = nblk ->
  h + (c + R) - (h + (c + R)) mod bs <= S ->
  (h + nt) mod bs + (c - nt + R) - ((h + nt) mod bs + (c - nt + R)) mod bs <= S - nblk.
Proof.
  intros Hb Hn E H.
  assert (Hm : ((h + nt) mod bs + (c - nt + R)) mod bs = (h + (c + R)) mod bs).
  { rewrite N.add_mod_idemp_l by lia. f_equal. lia. }
  rewrite Hm. set (M := (h + (c + R)) mod bs) in *. clearbody M. clear Hm.
  pose proof (N.mod_le (h + nt) bs ltac:(lia)) as Hl.
  set (A := (h + nt) mod bs) in *. clearbody A. lia.
Qed.

Lemma blocks_ok {St} bs held (f : St -> bytes -> St * bytes) : 0 < bs -> bs <= 128 -> block_fn bs held f ->
  forall fuel bb s ins caps out,
  held s < bs -> blen bb = 128 ->
  held s + blen (concat ins) - (held s + blen (concat ins)) mod bs <= sumN caps ->
  (length (concat ins) <= fuel)%nat ->
  exists cs s' o, blocks f fuel bs bb s (held s) ins caps out = Ok (s', out ++ o) /\
    concat cs = concat ins /\ run_calls f s cs = (s', o).
Proof.
  intros Hb0 Hb1 Hf. induction fuel as [|g IH]; intros bb s ins caps out Hs Hbb Hcap Hfu; cbn [blocks];
    rewrite <- (skipE_concat ins) in *; destruct (skipE ins) as [|cur rest] eqn:Ei;
    try (exists [], s, []; cbn; rewrite app_nil_r; auto; fail);
    pose proof (skipE_head _ _ _ Ei) as Hcur.
  - exfalso. cbn [concat] in Hfu. rewrite app_length in Hfu. unfold blen in Hcur. lia.
  - clear Ei ins. rewrite blen_concat_cons in Hcap. rewrite <- (skip0_sum caps) in Hcap.
    set (caps0 := skip0 caps) in *. set (R := blen (concat rest)) in *.
    assert (Hlen : (length cur + length (concat rest) <= S g)%nat).
    { cbn [concat] in Hfu. rewrite app_length in Hfu. exact Hfu. }
    set (oL := match caps0 with c :: _ => c | [] => 0 end).
    destruct (N.ltb_spec (blen cur + held s) bs) as [Hlt|Hge].
    + (* not a full block yet *)
      pose proof (Hf s cur Hs) as [F1 F2]. destruct (f s cur) as [s1 o1] eqn:Ef. cbn [fst snd] in *.
      rewrite N.mod_small in F1, F2 by lia.
      assert (o1 = []) as -> by (apply blen_0; lia).
      rewrite poke_ok by (rewrite (@blen_nil byte); lia). cbn [bind]. rewrite takeN_0, dropN_0. cbn [app].
      change (dropN (0 + blen (@nil byte)) bb) with bb.
      destruct (IH bb s1 rest caps0 out) as (cs & s' & o & H1 & H2 & H3).
      * rewrite F1. lia.
      * exact Hbb.
      * rewrite F1. fold R. replace (held s + blen cur + R) with (held s + (blen cur + R)) by lia. exact Hcap.
      * unfold blen in Hcur. lia.
      * rewrite F1 in H1. exists (cur :: cs), s', o. rewrite H1. split; [reflexivity|].
        cbn [concat run_calls]. rewrite H2, Ef, H3. auto.
    + destruct (N.ltb_spec oL bs) as [Hol|Hol].
      * (* one block through the bounce buffer *)
        pose proof (Hf s (takeN (bs - held s) cur) Hs) as [F1 F2].
        rewrite blen_takeN in F1, F2. replace (N.min (bs - held s) (blen cur)) with (bs - held s) in F1, F2 by lia.
        replace (held s + (bs - held s)) with bs in F1, F2 by lia.
        rewrite N.mod_same in F1, F2 by lia. rewrite N.sub_0_r in F2.
        destruct (f s (takeN (bs - held s) cur)) as [s1 o1] eqn:Ef. cbn [fst snd] in *.
        rewrite poke_ok by lia. cbn [bind]. rewrite takeN_0. cbn [app].
        assert (Hfl : bs <= sumN caps0).
        { eapply N.le_trans; [|exact Hcap].
          apply floor_ge; lia. }
        destruct (advance_ok bs caps0 Hfl) as (caps' & Ea & Es). rewrite Ea. cbn [bind].
        rewrite takeN_app by lia. rewrite N.add_0_l.
        destruct (IH (o1 ++ dropN (blen o1) bb) s1 (dropN (bs - held s) cur :: rest) caps' (out ++ o1))
          as (cs & s' & o & H1 & H2 & H3).
        -- lia.
        -- rewrite blen_app, blen_dropN. lia.
        -- rewrite F1, N.add_0_l, blen_concat_cons, blen_dropN, Es. fold R.
           set (n := blen cur - (bs - held s) + R).
           replace (held s + (blen cur + R)) with (n + 1 * bs) in Hcap by lia.
           rewrite N.mod_add in Hcap by lia. pose proof (N.mod_le n bs ltac:(lia)). lia.
        -- cbn [concat]. rewrite app_length. pose proof (blen_dropN (bs - held s) cur) as Hd. unfold blen in *. lia.
        -- rewrite F1 in H1. rewrite H1. exists (takeN (bs - held s) cur :: cs), s', (o1 ++ o).
           rewrite <- app_assoc. split; [reflexivity|].
           cbn [concat run_calls] in *. rewrite H2, app_assoc, takeN_dropN, Ef, H3. auto.
      * (* as many blocks as fit directly *)
        set (sh := N.min oL (blen cur + held s)). set (nblk := sh - sh mod bs).
        set (nt := N.min (blen cur) (nblk - held s + (bs - 1))).
        assert (Hsh : bs <= sh) by lia.
        assert (Hnb : bs <= nblk /\ nblk <= sh).
        { unfold nblk. split; [apply floor_ge; lia|apply N.le_sub_l]. }
        assert (Hfloor : (held s + nt) - (held s + nt) mod bs = nblk).
        { unfold nblk. apply floor_cases; [lia|fold nblk; lia|fold nblk; lia]. }
        pose proof (Hf s (takeN nt cur) Hs) as [F1 F2].
        rewrite blen_takeN in F1, F2. rewrite (N.min_l nt (blen cur)) in F1, F2 by apply N.le_min_l.
        rewrite Hfloor in F2.
        destruct (f s (takeN nt cur)) as [s1 o1] eqn:Ef. cbn [fst snd] in *.
        destruct (N.ltb_spec oL (blen o1)) as [Hbad|_].
        { exfalso. assert (Hsh3 : sh <= oL) by apply N.le_min_l. rewrite F2 in Hbad. destruct Hnb as [_ Hnb].
          clear - Hbad Hsh3 Hnb. clearbody sh nblk oL. lia. }
        assert (Hol2 : oL <= sumN caps0).
        { unfold oL. destruct caps0; cbn [sumN]; lia. }
        assert (Hsh2 : sh <= oL) by apply N.le_min_l.
        destruct (advance_ok (blen o1) caps0) as (caps' & Ea & Es).
        { rewrite F2. apply N.le_trans with sh; [apply Hnb|]. apply N.le_trans with oL; assumption. }
        rewrite Ea. cbn [bind].
        rewrite <- F1.
        destruct (IH bb s1 (dropN nt cur :: rest) caps' (out ++ o1)) as (cs & s' & o & H1 & H2 & H3).
        -- rewrite F1. apply N.mod_lt. lia.
        -- exact Hbb.
        -- rewrite F1, blen_concat_cons, blen_dropN, Es, F2. fold R.
           apply floor_rest; [assumption|apply N.le_min_l|exact Hfloor|exact Hcap].
        -- cbn [concat]. rewrite app_length. pose proof (blen_dropN nt cur) as Hd.
           assert (Hnt : 1 <= nt).
           { apply N.min_glb; [lia|]. destruct Hnb as [Hnb _]. clear - Hnb Hs Hb0. clearbody nblk. lia. }
           assert (Hntc : nt <= blen cur) by apply N.le_min_l.
           clearbody nt. clear - Hnt Hntc Hd Hlen. unfold blen in *. lia.
        -- rewrite H1. exists (takeN nt cur :: cs), s', (o1 ++ o).
           rewrite <- app_assoc. split; [reflexivity|].
           cbn [concat run_calls] in *. rewrite H2, app_assoc, takeN_dropN, Ef, H3. auto.
Qed.

(** For any block function starting with nothing buffered and any cutting of both chains (room for the
    whole blocks is enough): the function sees the input exactly once, in order, and what is stored is
    the concatenation of the whole blocks it wrote. *)
Theorem C18_blocks_calls : forall St bs held (f : St -> bytes -> St * bytes) s ins caps,
  0 < bs -> bs <= 128 -> block_fn bs held f -> held s = 0 ->
  blen (concat ins) - blen (concat ins) mod bs <= sumN caps ->
  exists cs s' o, transformBufferBlocks f bs s ins caps = Ok (s', o) /\
    concat cs = concat ins /\ run_calls f s cs = (s', o).
Proof.
  intros St bs held f s ins caps H0 H1 Hf Hs Hc. unfold transformBufferBlocks.
  destruct (N.eqb_spec bs 0); [lia|]. destruct (N.ltb_spec kMaxBlock bs) as [Hk|_]; [unfold kMaxBlock in Hk; lia|].
  cbn [orb].
  destruct (blocks_ok bs held f H0 H1 Hf (length (concat ins)) (zeros kMaxBlock) s ins caps [])
    as (cs & s' & o & E1 & E2 & E3).
  - lia.
  - apply blen_zeros.
  - rewrite Hs, N.add_0_l. exact Hc.
  - lia.
  - rewrite Hs in E1. exists cs, s', o. auto.
Qed.
Print Assumptions C18_blocks_calls.

Theorem C18_blocks_flat : forall St bs held (f : St -> bytes -> St * bytes) s ins caps,
  0 < bs -> bs <= 128 -> block_fn bs held f -> streaming f -> held s = 0 ->
  blen (concat ins) - blen (concat ins) mod bs <= sumN caps ->
  transformBufferBlocks f bs s ins caps = Ok (f s (concat ins)).
Proof.
  intros St bs held f s ins caps H0 H1 Hf Hst Hs Hc.
  destruct (C18_blocks_calls St bs held f s ins caps H0 H1 Hf Hs Hc) as (cs & s' & o & E1 & E2 & E3).
  rewrite E1, <- E2, <- (run_streaming f Hst), E3. reflexivity.
Qed.
Print Assumptions C18_blocks_flat.

Theorem C18_block_size_checked : forall St (f : St -> bytes -> St * bytes) bs s ins caps,
  bs = 0 \/ 128 < bs -> transformBufferBlocks f bs s ins caps = Err (EStatus None).
Proof.
  intros St f bs s ins caps H. unfold transformBufferBlocks, kMaxBlock.
  destruct (N.eqb_spec bs 0); [reflexivity|]. destruct (N.ltb_spec 128 bs); [reflexivity|lia].
Qed.
Print Assumptions C18_block_size_checked.

(** The smallest block function: buffers its input, emits whole blocks unchanged. *)
Definition echo_fn (bs : N) (h : bytes) (x : bytes) : bytes * bytes :=
  let t := h ++ x in let n := blen t - blen t mod bs in (dropN n t, takeN n t).
Lemma echo_block bs : 0 < bs -> block_fn bs (fun h : bytes => blen h) (echo_fn bs).
Proof.
  intros Hb h x Hh. unfold echo_fn. cbn [fst snd]. rewrite blen_dropN, blen_takeN, !blen_app.
  pose proof (N.mod_le (blen h + blen x) bs ltac:(lia)). lia.
Qed.
Example C18_nonvacuous :
  transformBufferBlocks (echo_fn 4) 4 [] [[x01; x02; x03]; []; [x04; x05; x06; x07; x08; x09]] [3; 0; 2; 5] =
  Ok ([x09], [x01; x02; x03; x04; x05; x06; x07; x08]).
Proof. vm_compute. reflexivity. Qed.
Example C18_nonvacuous_stream :
  transformBuffer (fun (n : N) x => (n + blen x, map (fun b => n2b (b2n b + 1)) x)) 0
    [[]; [x01; x02; x03]; [x04]] [1; 0; 5] = Ok (4, [x02; x03; x04; x05]).
Proof. vm_compute. reflexivity. Qed.

(** ** trimStart / trimBytes on chains *)
Theorem C18_trimStart : forall chain n, concat (trimStart chain n) = dropN n (concat chain).
Proof.
  induction chain as [|c rest IH]; intros n; cbn [trimStart concat].
  - unfold dropN. rewrite skipn_nil. reflexivity.
  - destruct (N.ltb_spec 0 (n - N.min (blen c) n)) as [H|H].
    + rewrite IH. rewrite dropN_app_ge by lia. rewrite dropN_all by lia. cbn [app]. f_equal. lia.
    + rewrite dropN_app_le by lia. f_equal. f_equal. lia.
Qed.
Print Assumptions C18_trimStart.

Lemma trim_rev_ok r : forall n, n <= blen (concat (rev r)) ->
  exists r' t, trim_rev r n = Ok (r', t) /\ concat (rev r') ++ t = concat (rev r) /\ blen t = n.
Proof.
  induction r as [|c rest IH]; intros n H; cbn [trim_rev].
  - change (blen (concat (rev (@nil bytes)))) with 0 in H. destruct (N.eqb_spec n 0) as [->|]; [|lia]. exists [], []. auto.
  - cbn [rev] in H. rewrite concat_app, blen_app in H. cbn [concat] in H. rewrite app_nil_r in H.
    set (t := N.min n (blen c)). destruct (N.eqb_spec (n - t) 0).
    + eexists _, _. split; [reflexivity|]. cbn [rev]. rewrite !concat_app. cbn [concat]. rewrite !app_nil_r.
      rewrite <- app_assoc, takeN_dropN. split; [reflexivity|]. rewrite blen_dropN. lia.
    + destruct (IH (n - t)) as (r' & pre & E1 & E2 & E3); [lia|]. rewrite E1. cbn [bind].
      eexists _, _. split; [reflexivity|].
      assert (Et : t = blen c) by lia. rewrite Et, N.sub_diag, takeN_0, dropN_0.
      cbn [rev]. rewrite !concat_app. cbn [concat]. rewrite !app_nil_r. rewrite app_assoc, E2.
      split; [reflexivity|]. rewrite blen_app. lia.
Qed.
Theorem C18_trimBytes : forall chain n, n <= blen (concat chain) ->
  exists chain' t, trimBytes chain n = Ok (chain', t) /\ concat chain' ++ t = concat chain /\ blen t = n.
Proof.
  intros chain n H. unfold trimBytes.
  destruct (trim_rev_ok (rev chain) n) as (r' & t & E1 & E2 & E3); [rewrite rev_involutive; exact H|].
  rewrite E1. cbn [bind]. rewrite rev_involutive in E2. eauto.
Qed.
Print Assumptions C18_trimBytes.

(** ** C19 *)
Lemma lor_bound a b : a < 256 -> b < 256 -> N.lor a b < 256.
Proof.
  intros Ha Hb. destruct (N.eq_dec (N.lor a b) 0) as [->|Hn]; [lia|].
  change 256 with (2 ^ 8). apply N.log2_lt_pow2; [lia|]. rewrite N.log2_lor.
  assert (Hl : forall x, x < 256 -> N.log2 x < 8).
  { intros x Hx. destruct (N.eq_dec x 0) as [->|]; [reflexivity|]. apply N.log2_lt_pow2; [lia|exact Hx]. }
  pose proof (Hl _ Ha). pose proof (Hl _ Hb). lia.
Qed.
Lemma or_diff_spec a : forall d b, length a = length b -> d < 256 ->
  or_diff d a b < 256 /\ (or_diff d a b = 0 <-> d = 0 /\ a = b).
Proof.
  induction a as [|x a IH]; intros d [|y b] Hl Hd; cbn [length] in Hl; try discriminate; cbn [or_diff].
  - split; [exact Hd|]. split; [auto|intros [? _]; assumption].
  - pose proof (lxor_bound (b2n x) (b2n y) (b2n_bound x) (b2n_bound y)) as Hx.
    destruct (IH (N.lor d (N.lxor (b2n x) (b2n y))) b ltac:(lia) (lor_bound _ _ Hd Hx)) as [I1 I2].
    split; [exact I1|]. rewrite I2. split.
    + intros [E ->]. apply N.lor_eq_0_iff in E. destruct E as [-> E]. apply N.lxor_eq in E.
      apply b2n_inj in E. subst. auto.
    + intros [-> [= -> ->]]. rewrite N.lxor_nilpotent. auto.
Qed.
Theorem C19_equal_iff : forall a b, crypto_equal a b = true <-> a = b.
Proof.
  intros a b. unfold crypto_equal. destruct (N.eqb_spec (blen a) (blen b)) as [El|El]; cbn [negb].
  - assert (Hl : length a = length b) by (unfold blen in El; lia).
    destruct (or_diff_spec a 0 b Hl ltac:(lia)) as [Hb Hz].
    unfold secure_memcmp. rewrite Z.eqb_eq. destruct (N.eq_dec (or_diff 0 a b) 0) as [E|E].
    + rewrite E. split; [intros _; apply Hz, E|intros _; reflexivity].
    + assert (Hs : Z.shiftr (Z.of_N (or_diff 0 a b) - 1) 8 = 0%Z).
      { rewrite Z.shiftr_div_pow2 by lia. apply Z.div_small. change (2 ^ 8)%Z with 256%Z. lia. }
      rewrite Hs. split; [intros H; discriminate H|].
      intros ->. exfalso. apply E, Hz. auto.
  - split; [discriminate|]. intros ->. contradiction.
Qed.
Print Assumptions C19_equal_iff.
Example C19_nonvacuous : crypto_equal [x01; xff] [x01; xff] = true /\ crypto_equal [x01; xff] [x01; x7f] = false.
Proof. split; reflexivity. Qed.
