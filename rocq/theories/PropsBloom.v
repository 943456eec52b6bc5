(** * C21: sliding Bloom replay cache *)
From Verif Require Import Base Bloom BloomSpec.

Section B.
  Variable hashers : list (bytes -> N).
  Variable size : N.
  Hypothesis Hsize : 0 < size.

  Lemma upd_length i v l : length (upd i v l) = length l.
  Proof. revert i; induction l as [|x l IH]; intros [|i]; cbn; auto. Qed.
  Lemma upd_nth i v l j : (i < length l)%nat -> nth j (upd i v l) 0 = if Nat.eqb j i then v else nth j l 0.
  Proof.
    revert i j; induction l as [|x l IH]; intros [|i] [|j] H; cbn in *; try lia; try reflexivity.
    apply IH. lia.
  Qed.

  Lemma nth_map0 (f : N -> N) : f 0 = 0 -> forall l j, nth j (map f l) 0 = f (nth j l 0).
  Proof. intros H. induction l as [|x l IH]; intros [|j]; cbn; auto. Qed.

  Definition bit (c : list N) (i b : N) : bool := N.testbit (nth (N.to_nat i) c 0) b.
  Lemma cell_lt h q : cell_of size h q < size.
  Proof. apply N.mod_lt. lia. Qed.

  Lemma shl1_bit m b : N.testbit (N.shiftl 1 m) b = (b =? m).
  Proof.
    rewrite N.shiftl_1_l. destruct (N.eqb_spec b m) as [->|H]; [apply N.pow2_bits_true|apply N.pow2_bits_false; congruence].
  Qed.

  Lemma tas_cells m q : forall hs ret c, N.of_nat (length c) = size ->
    let c' := snd (tas_loop size hs (N.shiftl 1 m) ret q c) in
    N.of_nat (length c') = size /\
    (forall i b, i < size -> bit c' i b = true <->
        bit c i b = true \/ (b = m /\ exists h, In h hs /\ cell_of size h q = i)).
  Proof.
    induction hs as [|h hs IH]; intros ret c Hl; cbn [tas_loop].
    - cbn. split; [exact Hl|]. intros i b Hi. split; [auto|]. intros [?|(_ & h & [] & _)]; assumption.
    - pose proof (cell_lt h q) as Hc.
      set (i0 := N.to_nat (cell_of size h q)).
      specialize (IH (N.land ret (nth i0 c 0)) (upd i0 (N.lor (nth i0 c 0) (N.shiftl 1 m)) c)).
      rewrite upd_length in IH. specialize (IH Hl). destruct IH as [I1 I2]. split; [exact I1|].
      intros i b Hi. rewrite I2 by exact Hi. unfold bit. rewrite upd_nth by (unfold i0; lia).
      destruct (Nat.eqb_spec (N.to_nat i) i0) as [E|E].
      + assert (Ei : i = cell_of size h q) by (unfold i0 in E; lia).
        rewrite <- E, N.lor_spec, shl1_bit, orb_true_iff, N.eqb_eq. split.
        * intros [[?|?]|(? & h' & ? & ?)]; [left; assumption|right|right]; split; try assumption.
          -- exists h. split; [left; reflexivity|congruence].
          -- exists h'. split; [right|]; assumption.
        * intros [?|(? & _)]; left; auto.
      + split.
        * intros [?|(? & h' & ? & ?)]; [left; assumption|right]; split; [assumption|]. exists h'. split; [right|]; assumption.
        * intros [?|(? & h' & [<-|?] & ?)]; [left; assumption|exfalso; apply E; unfold i0; congruence|].
          right. split; [assumption|]. exists h'. split; assumption.
  Qed.

  (** the returned mask: exactly the intersection of the cells' contents before the call *)
  Lemma tas_ret m q : forall hs ret c c0, N.of_nat (length c) = size ->
    (* every cell of [c] is the old cell, or an old cell already intersected into [ret] with the bit added *)
    (forall i, i < size -> nth (N.to_nat i) c 0 = nth (N.to_nat i) c0 0 \/
       (nth (N.to_nat i) c 0 = N.lor (nth (N.to_nat i) c0 0) (N.shiftl 1 m) /\
        forall b, N.testbit ret b = true -> bit c0 i b = true)) ->
    fst (tas_loop size hs (N.shiftl 1 m) ret q c) = test_loop size hs ret q c0.
  Proof.
    induction hs as [|h hs IH]; intros ret c c0 Hl Hinv; cbn [tas_loop test_loop]; [reflexivity|].
    pose proof (cell_lt h q) as Hc. set (i0 := N.to_nat (cell_of size h q)).
    assert (Er : N.land ret (nth i0 c 0) = N.land ret (nth i0 c0 0)).
    { destruct (Hinv _ Hc) as [E|[E Hb]]; fold i0 in E; rewrite E; [reflexivity|].
      apply N.bits_inj. intros b. rewrite !N.land_spec, N.lor_spec.
      destruct (N.testbit ret b) eqn:Eb; [|reflexivity]. cbn [andb].
      specialize (Hb b Eb). unfold bit in Hb. fold i0 in Hb. rewrite Hb. reflexivity. }
    rewrite Er. apply IH; [rewrite upd_length; exact Hl|].
    intros i Hi. rewrite upd_nth by (unfold i0; lia).
    destruct (Nat.eqb_spec (N.to_nat i) i0) as [E|E].
    - right. rewrite <- E. split.
      + destruct (Hinv _ Hi) as [Ei|[Ei _]]; rewrite Ei; [reflexivity|].
        rewrite <- N.lor_assoc, N.lor_diag. reflexivity.
      + intros b. rewrite N.land_spec, andb_true_iff. unfold bit. tauto.
    - destruct (Hinv _ Hi) as [Ei|[Ei Hb]]; [left; exact Ei|right]. split; [exact Ei|].
      intros b. rewrite N.land_spec, andb_true_iff. intros [H _]. apply Hb, H.
  Qed.

  Lemma test_bits q c : forall hs ret b, N.testbit (test_loop size hs ret q c) b = true <->
    N.testbit ret b = true /\ forall h, In h hs -> bit c (cell_of size h q) b = true.
  Proof.
    induction hs as [|h hs IH]; intros ret b; cbn [test_loop].
    - split; [intros H; split; [exact H|intros ? []]|tauto].
    - rewrite IH, N.land_spec, andb_true_iff. split.
      + intros [[H1 H2] H3]. split; [exact H1|]. intros h' [<-|Hin]; [exact H2|apply H3, Hin].
      + intros [H1 H2]. split; [split; [exact H1|apply H2; left; reflexivity]|]. intros h' Hin. apply H2. right; exact Hin.
  Qed.

  (** ** the invariant *)
  Definition marked (p : list bytes) (i : N) : Prop :=
    exists q h, In q p /\ In h hashers /\ h q mod size = i.
  Definition bucket (c d : N) : N := (c + 12 - d) mod 12.
  Definition inv (hist : list (list bytes)) (s : bloom) : Prop :=
    N.of_nat (length (cells s)) = size /\ cur s < 12 /\ hist <> [] /\
    forall i b, i < size -> bit (cells s) i b = true <->
      exists d, d < 12 /\ bucket (cur s) d = b /\ marked (nth (N.to_nat d) hist []) i.

  Lemma inv_init : inv [[]] (bloom_init size).
  Proof.
    split; [|split; [|split]].
    - cbn. rewrite repeat_length. lia.
    - cbn. lia.
    - discriminate.
    - intros i b Hi. unfold bit. cbn [bloom_init cells]. rewrite nth_repeat, N.bits_0. split; [discriminate|].
      intros (d & _ & _ & q & h & Hin & _). destruct (N.to_nat d) as [|[|]]; destruct Hin.
  Qed.

  Lemma bucket_inj c d d' : c < 12 -> d < 12 -> d' < 12 -> bucket c d = bucket c d' -> d = d'.
  Proof. unfold bucket. intros. lia. Qed.
  Lemma bucket_0 c : c < 12 -> bucket c 0 = c.
  Proof. unfold bucket. intros. lia. Qed.
  Lemma bucket_next c d : c < 12 -> d < 12 -> bucket ((c + 1) mod 12) (d + 1) = bucket c d.
  Proof. unfold bucket. intros. lia. Qed.
  Lemma bucket_lt c d : bucket c d < 12.
  Proof. unfold bucket. apply N.mod_lt. lia. Qed.

  Lemma inv_check hist s q s' r : inv hist s -> bloom_check hashers size s q = Ok (s', r) ->
    inv (history hist [Check q]) s' /\
    (r = true <-> exists d, d < 12 /\ covered hashers size (nth (N.to_nat d) hist []) q).
  Proof.
    intros (Hl & Hc & Hne & Hb) H. unfold bloom_check in H. destruct (N.eqb_spec size 0); [lia|].
    pose proof (tas_cells (cur s) q hashers kAllOnes (cells s) Hl) as [C1 C2].
    pose proof (tas_ret (cur s) q hashers kAllOnes (cells s) (cells s) Hl) as C3.
    destruct (tas_loop size hashers (N.shiftl 1 (cur s)) kAllOnes q (cells s)) as [ret c]. cbn [fst snd] in *.
    injection H as <- <-. split.
    - cbn [history]. destruct hist as [|p0 hist]; [contradiction|].
      split; [exact C1|split; [exact Hc|split; [discriminate|]]].
      intros i b Hi. cbn [cells cur]. rewrite C2, Hb by exact Hi. split.
      + intros [(d & Hd & Ed & q' & h & Hq & Hh & Eh)|(-> & h & Hh & Eh)].
        * exists d. repeat (split; [assumption|]). exists q', h. split; [|auto].
          destruct (N.to_nat d); [right|]; exact Hq.
        * exists 0. split; [lia|]. split; [apply bucket_0, Hc|]. exists q, h. split; [left; reflexivity|]. auto.
      + intros (d & Hd & Ed & q' & h & Hq & Hh & Eh). destruct (N.to_nat d) as [|n'] eqn:En.
        * cbn [nth] in Hq. destruct Hq as [<-|Hq].
          -- right. assert (d = 0) as -> by lia. rewrite bucket_0 in Ed by exact Hc. split; [congruence|]. exists h. auto.
          -- left. exists d. repeat (split; [assumption|]). rewrite En. exists q', h. auto.
        * left. exists d. repeat (split; [assumption|]). rewrite En. exists q', h. auto.
    - rewrite negb_true_iff, N.eqb_neq. rewrite C3 by (intros; left; reflexivity).
      split.
      + intros Hnz. destruct (N.eq_dec (test_loop size hashers kAllOnes q (cells s)) 0) as [|_]; [contradiction|].
        set (v := test_loop size hashers kAllOnes q (cells s)) in *.
        assert (Hbit : N.testbit v (N.log2 v) = true) by (apply N.bit_log2; exact Hnz).
        unfold v in Hbit at 1. apply test_bits in Hbit. destruct Hbit as [Hones Hall].
        (* all marked cells share bucket [log2 v] *)
        destruct hashers as [|h0 hs] eqn:Eh.
        { exists 0. split; [lia|]. intros h []. }
        rewrite <- Eh in *. assert (Hh0 : In h0 hashers) by (rewrite Eh; left; reflexivity).
        pose proof (proj1 (Hb _ _ (cell_lt h0 q)) (Hall h0 Hh0)) as (d & Hd & Ed & _).
        exists d. split; [exact Hd|]. intros h Hh.
        pose proof (proj1 (Hb _ _ (cell_lt h q)) (Hall h Hh)) as (d' & Hd' & Ed' & q' & h' & Hq & Hh' & E').
        assert (d' = d) as -> by (apply (bucket_inj (cur s)); congruence).
        exists q', h'. repeat (split; [assumption|]). symmetry. exact E'.
      + intros (d & Hd & Hcov) Hz.
        assert (Hbit : N.testbit (test_loop size hashers kAllOnes q (cells s)) (bucket (cur s) d) = true).
        { apply test_bits. split.
          - unfold kAllOnes. apply N.ones_spec_low. pose proof (bucket_lt (cur s) d). lia.
          - intros h Hh. apply Hb; [apply cell_lt|]. exists d. repeat (split; [assumption|]). split; [reflexivity|].
            destruct (Hcov h Hh) as (q' & h' & Hq & Hh' & E). exists q', h'. auto. }
        rewrite Hz, N.bits_0 in Hbit. discriminate.
  Qed.

  Lemma inv_tick hist s : inv hist s -> inv ([] :: hist) (bloom_tick s).
  Proof.
    intros (Hl & Hc & Hne & Hb). unfold bloom_tick, kBucketCount. set (nb := (cur s + 1) mod 12).
    assert (Hnb : nb < 12) by (apply N.mod_lt; lia).
    split; [|split; [|split]]; cbn [cells cur].
    - unfold clearBucket. rewrite map_length. exact Hl.
    - exact Hnb.
    - discriminate.
    - intros i b Hi. unfold bit, clearBucket.
      rewrite (nth_map0 (fun x => N.land x (N.lxor (N.shiftl 1 nb) (N.ones 64)))) by reflexivity.
      rewrite N.land_spec, N.lxor_spec, shl1_bit, andb_true_iff.
      change (N.testbit (nth (N.to_nat i) (cells s) 0) b) with (bit (cells s) i b). rewrite Hb by exact Hi. split.
      + intros [(d & Hd & Ed & Hm) Hx].
        exists (d + 1). destruct (N.eq_dec d 11) as [->|Hne11].
        { exfalso. unfold bucket in Ed. unfold nb in Hx. replace ((cur s + 12 - 11) mod 12) with ((cur s + 1) mod 12) in Ed by lia.
          rewrite <- Ed, N.eqb_refl, N.ones_spec_low in Hx by (fold nb; lia). discriminate. }
        split; [lia|]. split; [unfold nb; rewrite bucket_next by assumption; exact Ed|].
        replace (N.to_nat (d + 1)) with (S (N.to_nat d)) by lia. exact Hm.
      + intros (d & Hd & Ed & Hm). destruct (N.to_nat d) as [|n] eqn:En.
        { destruct Hm as (q & h & [] & _). }
        assert (Ed' : bucket (cur s) (d - 1) = b).
        { rewrite <- Ed. unfold nb. rewrite <- (bucket_next (cur s) (d - 1)) by lia. f_equal. lia. }
        split.
        * exists (d - 1). split; [lia|]. split; [exact Ed'|].
          replace (N.to_nat (d - 1)) with n by lia. exact Hm.
        * rewrite N.ones_spec_low by (subst b; pose proof (bucket_lt nb d); lia).
          destruct (N.eqb_spec b nb) as [E|E]; [|reflexivity].
          exfalso. rewrite <- (bucket_0 nb Hnb) in E. rewrite <- Ed in E.
          apply bucket_inj in E; [lia|exact Hnb|exact Hd|lia].
  Qed.

  Lemma history_app evs1 : forall h evs2, history h (evs1 ++ evs2) = history (history h evs1) evs2.
  Proof. induction evs1 as [|[q|] r IH]; intros h evs2; cbn [app history]; auto. Qed.

  Lemma check_total s q : exists s' r, bloom_check hashers size s q = Ok (s', r).
  Proof.
    unfold bloom_check. destruct (N.eqb_spec size 0); [lia|].
    destruct (tas_loop size hashers (N.shiftl 1 (cur s)) kAllOnes q (cells s)). eauto.
  Qed.

  Lemma run_inv evs : forall hist s, inv hist s ->
    exists s', bloom_run hashers size s evs = Ok s' /\ inv (history hist evs) s'.
  Proof.
    induction evs as [|[q|] r IH]; intros hist s Hi; cbn [bloom_run bloom_step].
    - exists s. auto.
    - destruct (check_total s q) as (s1 & b & E). rewrite E. cbn [bind].
      destruct (inv_check _ _ _ _ _ Hi E) as [I1 _].
      destruct (IH _ _ I1) as (s' & E1 & E2). exists s'. split; [exact E1|].
      change (Check q :: r) with ([Check q] ++ r). rewrite history_app. exact E2.
    - cbn [bind]. destruct (IH _ _ (inv_tick _ _ Hi)) as (s' & E1 & E2). exists s'. auto.
  Qed.
End B.

(** ** Exact behaviour, for every trace: a check reports MaybeReplay iff one of the last twelve timer
    periods (the current one included) covers every hash position of the identifier.  Total: no trace
    makes a cache with at least one cell fail. *)
Theorem C21_exact : forall hashers size evs, 0 < size ->
  exists s, bloom_run hashers size (bloom_init size) evs = Ok s /\
  forall q, exists s' r, bloom_check hashers size s q = Ok (s', r) /\
    (r = true <-> exists d, d < 12 /\ covered hashers size (nth (N.to_nat d) (history [[]] evs) []) q).
Proof.
  intros hashers size evs Hs. destruct (run_inv hashers size Hs evs [[]] _ (inv_init hashers size Hs)) as (s & E & I).
  exists s. split; [exact E|]. intros q. destruct (check_total hashers size Hs s q) as (s' & r & E2).
  exists s', r. split; [exact E2|]. apply (inv_check hashers size Hs _ _ _ _ _ I E2).
Qed.
Print Assumptions C21_exact.

Lemma hist_ne evs : forall h, h <> [] -> history h evs <> [].
Proof.
  induction evs as [|[x|] t IH]; intros h X; cbn [history]; [exact X|apply IH; destruct h; discriminate|apply IH; discriminate].
Qed.
Lemma hist_old evs : forall h n, (n < length h)%nat ->
  nth (N.to_nat (ticks evs) + n) (history h evs) [] = nth n h [] \/
  (n = 0%nat /\ exists extra, nth (N.to_nat (ticks evs)) (history h evs) [] = extra ++ nth 0 h []).
Proof.
  induction evs as [|[q|] r IH]; intros h n Hn; cbn [ticks history].
  - left. reflexivity.
  - destruct h as [|e t]; [cbn in Hn; lia|].
    destruct (IH ((q :: e) :: t) n Hn) as [E|(-> & ex & E)].
    + destruct n as [|n]; [right|left; exact E]. split; [reflexivity|]. exists [q]. cbn in E.
      rewrite Nat.add_0_r in E. exact E.
    + right. split; [reflexivity|]. exists (ex ++ [q]). rewrite E, <- app_assoc. reflexivity.
  - replace (N.to_nat (1 + ticks r)) with (S (N.to_nat (ticks r))) by lia.
    destruct (IH ([] :: h) (S n) ltac:(cbn; lia)) as [E|(? & _)]; [|discriminate].
    replace (S (N.to_nat (ticks r)) + n)%nat with (N.to_nat (ticks r) + S n)%nat by lia.
    left. rewrite E. reflexivity.
Qed.

(** ** No false negatives: an identifier that was checked is reported as a possible replay by any later
    check with fewer than 12 timer expirations in between, whatever else happened. *)
Theorem C21_no_false_negative : forall hashers size before q between s s' r, 0 < size ->
  ticks between < 12 ->
  bloom_run hashers size (bloom_init size) (before ++ Check q :: between) = Ok s ->
  bloom_check hashers size s q = Ok (s', r) -> r = true.
Proof.
  intros hashers size before q between s s' r Hs Ht Hr Hc.
  destruct (C21_exact hashers size (before ++ Check q :: between) Hs) as (s0 & E & Hall).
  rewrite Hr in E. injection E as <-. destruct (Hall q) as (s1 & r1 & E1 & Hiff).
  rewrite Hc in E1. injection E1 as <- <-. apply Hiff. exists (ticks between). split; [exact Ht|].
  rewrite history_app. cbn [history].
  set (h0 := history [[]] before).
  assert (Hne : h0 <> []).
  { apply hist_ne. discriminate. }
  destruct h0 as [|e t] eqn:Eh; [contradiction|].
  intros h Hh. exists q, h. split; [|auto].
  destruct (hist_old between ((q :: e) :: t) 0 ltac:(cbn; lia)) as [E|(_ & ex & E)].
  - rewrite Nat.add_0_r in E. rewrite E. left. reflexivity.
  - rewrite E. apply in_or_app. right. left. reflexivity.
Qed.
Print Assumptions C21_no_false_negative.

(** Nothing older than twelve periods influences the answer: the answer is that of a fresh cache on the
    part of the trace since then. *)
Theorem C21_forgets : forall hashers size old recent, 0 < size -> hashers <> [] -> 12 <= ticks recent ->
  forall q, exists s1 s2 r s1' s2',
    bloom_run hashers size (bloom_init size) (old ++ recent) = Ok s1 /\
    bloom_run hashers size (bloom_init size) recent = Ok s2 /\
    bloom_check hashers size s1 q = Ok (s1', r) /\ bloom_check hashers size s2 q = Ok (s2', r).
Proof.
  intros hashers size old recent Hs Hnn Ht q.
  destruct (C21_exact hashers size (old ++ recent) Hs) as (s1 & E1 & A1).
  destruct (C21_exact hashers size recent Hs) as (s2 & E2 & A2).
  destruct (A1 q) as (s1' & r1 & C1 & I1). destruct (A2 q) as (s2' & r2 & C2 & I2).
  exists s1, s2, r1, s1', s2'. repeat (split; [assumption|]).
  assert (Hp : forall evs h h' d, h <> [] -> h' <> [] -> d < ticks evs ->
     nth (N.to_nat d) (history h evs) [] = nth (N.to_nat d) (history h' evs) []).
  { assert (Hgen : forall evs p h h', (forall n, (n < length p)%nat -> True) ->
      forall n, (n < length p + N.to_nat (ticks evs))%nat -> p <> [] ->
      nth n (history (p ++ h) evs) [] = nth n (history (p ++ h') evs) []).
    { induction evs as [|[x|] t IH]; intros p h h' _ n Hn Hne; cbn [history ticks] in *.
      - rewrite !app_nth1 by lia. reflexivity.
      - destruct p as [|e p]; [contradiction|]. cbn [app].
        apply (IH ((x :: e) :: p)); [trivial|cbn in *; lia|discriminate].
      - change ([] :: p ++ h) with (([] :: p) ++ h). change ([] :: p ++ h') with (([] :: p) ++ h').
        apply IH; [trivial|cbn; lia|discriminate]. }
    induction evs as [|[x|] t IH]; intros h h' d Hh Hh' Hd; cbn [history ticks] in *.
    - lia.
    - apply IH; [destruct h; discriminate|destruct h'; discriminate|exact Hd].
    - change ([] :: h) with ([[]] ++ h). change ([] :: h') with ([[]] ++ h').
      apply Hgen; [trivial|cbn; lia|discriminate]. }
  assert (r1 = r2) as ->; [|exact C2].
  assert (Heq : r1 = true <-> r2 = true).
  { rewrite I1, I2. rewrite history_app.
    split; intros (d & Hd & Hcov); exists d; (split; [exact Hd|]).
    - rewrite <- (Hp recent (history [[]] old) [[]] d); [exact Hcov|apply hist_ne; discriminate|discriminate|lia].
    - rewrite (Hp recent (history [[]] old) [[]] d); [exact Hcov|apply hist_ne; discriminate|discriminate|lia]. }
  destruct r1, r2; try reflexivity; exfalso; [assert (false = true) by tauto|assert (false = true) by tauto]; discriminate.
Qed.
Print Assumptions C21_forgets.

(** ** Wall-clock window *)
Lemma ticks_app a : forall b, ticks (a ++ b) = ticks a + ticks b.
Proof. induction a as [|[q|] r IH]; intros b; cbn [app ticks]; rewrite ?IH; lia. Qed.
Lemma ticks_repeat n : ticks (repeat Tick n) = N.of_nat n.
Proof. induction n; cbn [repeat ticks]; lia. Qed.
Lemma timed_ticks w l : 0 < w -> forall t0, increasing t0 l ->
  ticks (timed w (t0 / w) l) = last (map fst l) t0 / w - t0 / w /\ t0 <= last (map fst l) t0.
Proof.
  intros Hw. induction l as [|[t q] r IH]; intros t0 Hi; cbn [timed increasing map] in *.
  - cbn. lia.
  - destruct Hi as [H1 H2]. destruct (IH t H2) as [I1 I2].
    rewrite ticks_app, ticks_repeat. cbn [ticks]. rewrite I1.
    assert (El : last (fst (t, q) :: map fst r) t0 = last (map fst r) t).
    { cbn [fst]. clear. revert t t0. induction (map fst r) as [|a m IH]; intros t t0; [reflexivity|].
      change (last (t :: a :: m) t0) with (last (a :: m) t0). destruct m; [reflexivity|].
      change (last (n :: m) t0 = last (n :: m) t). clear. revert n. induction m; intros; [reflexivity|]. cbn. apply IHm. }
    rewrite El. pose proof (N.div_le_mono _ _ w ltac:(lia) H1). pose proof (N.div_le_mono _ _ w ltac:(lia) I2).
    rewrite N2Nat.id. split; [|lia].
    set (a := t0 / w) in *. set (b := t / w) in *. set (c := last (map fst r) t / w) in *. clearbody a b c. lia.
Qed.

Lemma timed_app w l1 : forall start l2,
  timed w start (l1 ++ l2) = timed w start l1 ++ timed w (last (map (fun x => fst x / w) l1) start) l2.
Proof.
  induction l1 as [|[t q] r IH]; intros start l2; [reflexivity|].
  cbn [app timed]. rewrite IH, <- app_assoc. cbn [app]. do 3 f_equal.
  cbn [map fst]. clear. revert start. generalize (map (fun x : N * bytes => fst x / w) r) as m. intros m.
  destruct m as [|a m]; intros; [reflexivity|].
  change (last (t / w :: a :: m) start) with (last (a :: m) start).
  revert a. induction m; intros; [reflexivity|]. cbn. apply IHm.
Qed.

Lemma last_snoc {A} (l : list A) (x d : A) : last (l ++ [x]) d = x.
Proof. apply last_last. Qed.

(** Any two checks of the same identifier at most 11 bucket widths apart: the second one is reported.
    [pre] is everything that happened before the second check. *)
Theorem C21_window : forall hashers size w before t q mid t' pre s s' r, 0 < size -> 0 < w ->
  increasing 0 (before ++ (t, q) :: mid ++ [(t', q)]) -> t' - t <= 11 * w ->
  timed w 0 (before ++ (t, q) :: mid ++ [(t', q)]) = pre ++ [Check q] ->
  bloom_run hashers size (bloom_init size) pre = Ok s ->
  bloom_check hashers size s q = Ok (s', r) -> r = true.
Proof.
  intros hashers size w before t q mid t' pre s s' r Hs Hw Hi Ht Hpre Hr Hc.
  rewrite timed_app in Hpre. cbn [timed] in Hpre.
  set (st := last _ _) in Hpre. clearbody st.
  assert (Hi2 : increasing t (mid ++ [(t', q)])).
  { clear - Hi. revert Hi. generalize 0 as t0. induction before as [|[a c] b IH]; intros t0 Hi.
    - cbn [app] in Hi. cbn [increasing] in Hi. apply Hi.
    - cbn [app increasing] in Hi. apply (IH a). apply Hi. }
  destruct (timed_ticks w _ Hw t Hi2) as [T1 T2].
  rewrite map_app in T1, T2. cbn [map fst] in T1, T2. rewrite last_snoc in T1, T2.
  rewrite timed_app in Hpre, T1. cbn [timed] in Hpre, T1.
  set (m1 := timed w (t / w) mid) in *. set (k := repeat Tick _) in Hpre at 2. fold k in T1.
  assert (Hpre' : pre = (timed w 0 before ++ repeat Tick (N.to_nat (t / w - st))) ++ Check q :: (m1 ++ k)).
  { apply (app_inj_tail pre _ (Check q) (Check q)). rewrite <- Hpre, <- !app_assoc. cbn [app]. rewrite <- !app_assoc. reflexivity. }
  apply (C21_no_false_negative hashers size (timed w 0 before ++ repeat Tick (N.to_nat (t / w - st))) q (m1 ++ k) s s' r Hs).
  - rewrite !ticks_app in T1. cbn [ticks] in T1. rewrite ticks_app. rewrite !N.add_0_r in T1. rewrite T1.
    assert (t' <= t + 11 * w) by lia.
    assert (t' / w <= (t + 11 * w) / w) by (apply N.div_le_mono; lia).
    rewrite N.div_add in H0 by lia. set (a := t / w) in *. set (b := t' / w) in *. clearbody a b. lia.
  - rewrite <- Hpre'. exact Hr.
  - exact Hc.
Qed.
Print Assumptions C21_window.

Lemma run_check_witness hashers size evs q b :
  match bloom_run hashers size (bloom_init size) evs with
  | Ok s => match bloom_check hashers size s q with Ok (_, r) => Bool.eqb r b | Err _ => false end
  | Err _ => false end = true ->
  exists s s', bloom_run hashers size (bloom_init size) evs = Ok s /\ bloom_check hashers size s q = Ok (s', b).
Proof.
  destruct (bloom_run hashers size (bloom_init size) evs) as [s|]; [|discriminate].
  destruct (bloom_check hashers size s q) as [[s' r]|] eqn:E; [|discriminate].
  intros H. apply eqb_prop in H. subst. eauto.
Qed.

(** The window is shorter than the TTL the constructor was given: with ttl = 12s the bucket width is
    1001ms, and an identifier checked at 1000ms is forgotten at 12012ms, 11012ms later.  (The expected
    statement "any second check within ttl is reported" is false.) *)
Theorem C21_ttl_refuted : exists hashers size ttl t t' q s s', 0 < size /\ t <= t' /\ t' - t < ttl * 1000 /\
  bloom_run hashers size (bloom_init size)
    (timed (bucketWidthMs ttl) 0 [(t, q)] ++ repeat Tick (N.to_nat (t' / bucketWidthMs ttl - t / bucketWidthMs ttl))) = Ok s /\
  bloom_check hashers size s q = Ok (s', false).
Proof.
  destruct (run_check_witness [fun q => blen q] 8
    (timed (bucketWidthMs 12) 0 [(1000, [x01])] ++
      repeat Tick (N.to_nat (12012 / bucketWidthMs 12 - 1000 / bucketWidthMs 12))) [x01] false) as (s & s' & E1 & E2).
  - vm_compute. reflexivity.
  - exists [fun q => blen q], 8, 12, 1000, 12012, [x01], s, s'. repeat (split; [lia|]). split; assumption.
Qed.
Print Assumptions C21_ttl_refuted.

(** Eleven twelfths of the TTL (and always more than ttl - ttl/12 - 1ms) is covered. *)
Theorem C21_width : forall ttl, 0 < ttl -> ttl * 1000 < 12 * bucketWidthMs ttl /\ 11 * (ttl * 1000) < 12 * (11 * bucketWidthMs ttl).
Proof. intros ttl H. unfold bucketWidthMs, kBucketCount. lia. Qed.
Print Assumptions C21_width.

(** With zero cells (the constructor computes that for 0 requests per second) every check is undefined. *)
Theorem C21_zero_cells_refuted : forall hashers b q, bloom_check hashers 0 b q = Err EUB.
Proof. reflexivity. Qed.

Definition toyh (k : N) (q : bytes) : N := fold_left (fun a b => (a * 31 + b2n b + k) mod 2 ^ 64) q k.
Example C21_nonvacuous : exists s s',
  bloom_run (map toyh [1; 2; 3; 4]) 64 (bloom_init 64)
    ([Check [x01]; Tick; Check [x02]] ++ Check [x07; x08] :: repeat Tick 5 ++ [Check [x09]] ++ repeat Tick 6) = Ok s /\
  bloom_check (map toyh [1; 2; 3; 4]) 64 s [x07; x08] = Ok (s', true).
Proof. apply run_check_witness. vm_compute. reflexivity. Qed.
