(** * C28: batched signing *)
From Coq Require Import Sorting.Permutation.
From Verif Require Import Base Codec CodecSpec Str Hkdf HkdfSpec HkdfProofs Merkle MerkleSpec MerkleProofs PropsKeys PropsMerkle TicketSpec PropsTicket Batcher.
Open Scope N_scope.

(** ** Specification vocabulary *)
(** the messages added, in the order in which the threads got the lock (with the random blinding leaf of each) *)
Definition added (ls : list blabel) : list (bytes * bytes) :=
  flat_map (fun l => match l with LAdd m r => [(m, r)] | LSign _ _ => [] end) ls.
(** the slot of the j-th message *)
Definition slot (thr j : nat) : N * N := (N.of_nat (2 * (j mod thr)), N.of_nat (j / thr)).
(** the messages of epoch [e] *)
Definition segment (thr e : nat) (hist : list (bytes * bytes)) : list (bytes * bytes) := firstn thr (skipn (e * thr) hist).
Definition leaves_of (seg : list (bytes * bytes)) : list bytes := flat_map (fun p => [fst p; snd p]) seg.
Definition epochs_signed (s : sb) : list N := map (fun x => fst (fst x)) (sb_done s).
Definition epochs_pending (s : sb) : list N := map fst (sb_pend s).

(** ** One epoch *)
Definition trs (seg : list (bytes * bytes)) : list mop := map (fun p => OTranscript (fst p) (snd p)) seg.
Lemma appended_trs seg : appended (trs seg) = leaves_of seg.
Proof. induction seg as [|[m r] s IH]; [reflexivity|]. cbn. f_equal. f_equal. exact IH. Qed.
Lemma leaves_of_len seg : blen (leaves_of seg) = 2 * blen seg.
Proof. unfold blen. induction seg as [|[m r] s IH]; [reflexivity|]. cbn [leaves_of flat_map app length] in *. fold (leaves_of s). lia. Qed.
Lemma takeN_id {A} n (l : list A) : blen l <= n -> takeN n l = l.
Proof. intros H. unfold takeN. apply firstn_all2. unfold blen in H. lia. Qed.
Lemma run_ops_app h : forall a b t, run_ops h t (a ++ b) = (t' <- run_ops h t a ;; run_ops h t' b).
Proof.
  induction a as [|o a IH]; intros b t; [reflexivity|]. cbn [app run_ops]. destruct o.
  - destruct (append h t msg) as [[t' i]|e]; cbn [bind]; [apply IH|reflexivity].
  - destruct (appendTranscript h t msg rnd) as [[t' i]|e]; cbn [bind]; [apply IH|reflexivity].
  - destruct (finalizeTree h t) as [t'|e]; cbn [bind]; [apply IH|reflexivity].
Qed.

Lemma epoch_tree h thr seg : hash_ok h -> blen seg <= thr -> thr <= 2 ^ 30 ->
  exists t, run_ops h (newTree thr) (trs seg) = Ok t /\ mt_max t = 2 * thr /\ Inv h (blen (leaves_of seg)) (leaf_fn h (leaves_of seg)) t.
Proof.
  intros Hh Hl Hb. destruct (run_Inv h thr Hh (trs seg) [] (newTree thr)) as (t & E & Em & HI).
  - reflexivity.
  - unfold takeN. rewrite firstn_nil. change (blen (@nil bytes)) with 0. apply Inv_new.
  - cbn [app]. rewrite appended_trs, takeN_id; rewrite leaves_of_len; lia.
  - cbn [app] in HI. rewrite appended_trs, takeN_id in HI by (rewrite leaves_of_len; lia). eauto.
Qed.

Lemma epoch_add h thr seg t m r : hash_ok h -> blen seg < thr -> thr <= 2 ^ 30 -> run_ops h (newTree thr) (trs seg) = Ok t ->
  exists t', appendTranscript h t m r = Ok (t', Some (2 * blen seg)) /\ run_ops h (newTree thr) (trs (seg ++ [(m, r)])) = Ok t' /\
             countMessages t' = blen seg + 1.
Proof.
  intros Hh Hl Hb E. destruct (epoch_tree h thr seg Hh ltac:(lia) Hb) as (t0 & E0 & Em & HI).
  assert (t0 = t) as -> by congruence. clear E0.
  destruct (append_step h _ t m Hh HI) as (t1 & i & E1 & Em1 & Hc). rewrite Em, leaves_of_len in Hc.
  destruct (N.ltb_spec (2 * blen seg) (2 * thr)); [|lia]. destruct Hc as [-> HI1].
  destruct (append_step h _ t1 r Hh HI1) as (t2 & j & E2 & Em2 & Hc2). rewrite Em1, Em, blen_app, leaves_of_len in Hc2.
  change (blen [m]) with 1 in Hc2. destruct (N.ltb_spec (2 * blen seg + 1) (2 * thr)); [|lia]. destruct Hc2 as [-> HI2].
  assert (EA : appendTranscript h t m r = Ok (t2, Some (2 * blen seg))) by (unfold appendTranscript; rewrite E1; cbn [bind]; rewrite E2; reflexivity).
  exists t2. split; [exact EA|]. split.
  - unfold trs. rewrite map_app, run_ops_app. fold (trs seg). rewrite E. cbn [bind map run_ops fst snd]. rewrite EA. reflexivity.
  - unfold countMessages. pose proof (iv_next _ _ _ _ HI2) as Hn. rewrite !blen_app, leaves_of_len in Hn. change (blen [m]) with 1 in Hn. change (blen [r]) with 1 in Hn.
    rewrite Hn. replace (2 * blen seg + 1 + 1) with ((blen seg + 1) * 2) by lia. apply N.div_mul. discriminate.
Qed.

Lemma epoch_sign h sc thr seg t o : hash_ok h -> seg <> [] -> blen seg <= thr -> thr <= 2 ^ 30 -> run_ops h (newTree thr) (trs seg) = Ok t ->
  exists t' root tbs, signTree h sc t o = Ok (tbs, match o with Some s => Some (t', s) | None => None end) /\
    encodeToBeSigned root sc = Ok tbs /\ Root (internalNode h) (map (leafNode h) (leaves_of seg)) (mt_height t') root /\ (mt_height t' <= 31)%nat /\
    forall i msg, nth_error (leaves_of seg) i = Some msg ->
      exists path, getPath t' (N.of_nat i) = Ok path /\ blen path = N.of_nat (mt_height t') * h_len h /\
                   computeRootFromPath h msg (N.of_nat i) path = Ok root.
Proof.
  intros Hh Hne Hl Hb E.
  assert (El : leaves thr (trs seg) = leaves_of seg).
  { unfold leaves. rewrite appended_trs. apply takeN_id. rewrite leaves_of_len. lia. }
  destruct (C27_inclusion h thr (trs seg) Hh) as (t0 & t' & root & E0 & Ef & Er & HR & Hk & HP).
  - rewrite El. destruct seg as [|[a b] s]; [contradiction|]. discriminate.
  - rewrite El, leaves_of_len. lia.
  - assert (t0 = t) as -> by congruence. rewrite El in *. exists t', root, (tbs_prefix ++ be 2 sc ++ root).
    split; [|split; [reflexivity|]].
    + unfold signTree. rewrite Ef. cbn [bind]. rewrite Er. reflexivity.
    + auto.
Qed.

Lemma nth_error_firstn' {A} : forall n k (l : list A), nth_error (firstn n l) k = if Nat.ltb k n then nth_error l k else None.
Proof.
  induction n as [|n IH]; intros [|k] [|x l]; try reflexivity.
  - cbn [firstn nth_error]. destruct (Nat.ltb (S k) (S n)); reflexivity.
  - cbn [firstn nth_error]. rewrite IH. reflexivity.
Qed.
Lemma nth_error_skipn' {A} : forall n k (l : list A), nth_error (skipn n l) k = nth_error l (n + k).
Proof.
  induction n as [|n IH]; intros k [|x l]; try reflexivity.
  - destruct k; reflexivity.
  - cbn [skipn Nat.add nth_error]. apply IH.
Qed.

(** ** The invariant *)
Section Inv.
  Variable h : hashalg.
  Variable sc : N.
  Variable thr : nat.
  Hypothesis Hh : hash_ok h.
  Hypothesis Hthr : (1 <= thr)%nat.
  Hypothesis Hmax : N.of_nat thr <= 2 ^ 30.
  Notation T := (N.of_nat thr).

  Record BI (hist : list (bytes * bytes)) (s : sb) : Prop := {
    bi_thr : sb_thr s = T;
    bi_ep : sb_epoch s = N.of_nat (length hist / thr);
    bi_tree : run_ops h (newTree T) (trs (skipn (length hist / thr * thr) hist)) = Ok (sb_tree s);
    bi_pend : Forall (fun p => exists e, fst p = N.of_nat e /\ (e < length hist / thr)%nat /\
                 run_ops h (newTree T) (trs (segment thr e hist)) = Ok (snd p)) (sb_pend s);
    bi_done : Forall (fun d => exists e t o, fst (fst d) = N.of_nat e /\ (e < length hist / thr)%nat /\
                 run_ops h (newTree T) (trs (segment thr e hist)) = Ok t /\ signTree h sc t o = Ok (snd (fst d), snd d)) (sb_done s);
    bi_perm : Permutation (epochs_pending s ++ epochs_signed s) (map N.of_nat (seq 0 (length hist / thr)))
  }.

  Lemma BI_new : BI [] (sb_new T).
  Proof.
    assert (E0 : (length (@nil (bytes*bytes)) / thr = 0)%nat) by (cbn [length]; apply Nat.div_small; lia).
    split; rewrite ?E0; try reflexivity; constructor.
  Qed.

  Lemma segment_stable e hist x : (e < length hist / thr)%nat -> segment thr e (hist ++ [x]) = segment thr e hist.
  Proof.
    intros He. assert (Hx : ((e + 1) * thr <= length hist)%nat).
    { pose proof (Nat.div_mod (length hist) thr ltac:(lia)). nia. }
    unfold segment. rewrite skipn_app, firstn_app. rewrite skipn_length.
    replace (thr - (length hist - e * thr))%nat with 0%nat by nia. rewrite firstn_O, app_nil_r. reflexivity.
  Qed.

  Lemma take_pend_spec e : forall l t p, take_pend e l = Some (t, p) -> exists a b, l = a ++ (e, t) :: b /\ p = a ++ b.
  Proof.
    induction l as [|[e' t'] l IH]; intros t p E; cbn [take_pend] in E; [discriminate|].
    destruct (N.eqb_spec e' e) as [->|].
    - injection E as -> ->. exists [], p. auto.
    - destruct (take_pend e l) as [[t1 r1]|] eqn:E1; [|discriminate]. injection E as -> <-.
      destruct (IH _ _ eq_refl) as (a & b & -> & ->). exists ((e', t') :: a), b. auto.
  Qed.
  Lemma take_pend_in e : forall l, In e (map fst l) -> exists t p, take_pend e l = Some (t, p).
  Proof.
    induction l as [|[e' t'] l IH]; intros H; [destruct H|]. cbn [take_pend]. destruct (N.eqb_spec e' e) as [->|Hn]; [eauto|].
    destruct H as [H|H]; [contradiction|]. destruct (IH H) as (t & p & ->). eauto.
  Qed.

  Lemma BI_add hist s m r : BI hist s ->
    exists s', addMessage h s m r = Ok (s', slot thr (length hist)) /\ BI (hist ++ [(m, r)]) s'.
  Proof.
    intros [H1 H2 H3 H4 H5 H6]. set (n := length hist) in *. set (q := (n / thr)%nat) in *.
    assert (Hn : n = (q * thr + n mod thr)%nat) by (unfold q; pose proof (Nat.div_mod n thr ltac:(lia)); lia).
    pose proof (Nat.mod_upper_bound n thr ltac:(lia)) as Hm. set (k := (n mod thr)%nat) in *.
    assert (Hseg : blen (skipn (q * thr) hist) = N.of_nat k) by (unfold blen; rewrite skipn_length; fold n; lia).
    destruct (epoch_add h T (skipn (q * thr) hist) (sb_tree s) m r Hh ltac:(lia) Hmax H3) as (t' & EA & ER & EC).
    assert (Esk : skipn (q * thr) (hist ++ [(m, r)]) = skipn (q * thr) hist ++ [(m, r)]).
    { rewrite skipn_app. fold n. replace (q * thr - n)%nat with 0%nat by lia. reflexivity. }
    assert (Hlen : length (hist ++ [(m, r)]) = S n) by (rewrite app_length; cbn [length]; fold n; lia).
    assert (Hout : (2 * N.of_nat k, N.of_nat q) = slot thr n) by (unfold slot; fold k q; f_equal; lia).
    assert (Hp' : Forall (fun p => exists e, fst p = N.of_nat e /\ (e < q)%nat /\
                 run_ops h (newTree T) (trs (segment thr e (hist ++ [(m, r)]))) = Ok (snd p)) (sb_pend s)).
    { eapply Forall_impl; [|exact H4]. intros p (e & Ee & He & Er). exists e. rewrite segment_stable by exact He. auto. }
    assert (Hd' : Forall (fun d => exists e t o, fst (fst d) = N.of_nat e /\ (e < q)%nat /\
                 run_ops h (newTree T) (trs (segment thr e (hist ++ [(m, r)]))) = Ok t /\ signTree h sc t o = Ok (snd (fst d), snd d)) (sb_done s)).
    { eapply Forall_impl; [|exact H5]. intros p (e & t & o & Ee & He & Er & Es). exists e, t, o. rewrite segment_stable by exact He. auto. }
    unfold addMessage. rewrite EA. cbn [bind]. rewrite Hseg, H2, H1, EC, Hseg.
    destruct (N.leb_spec T (N.of_nat k + 1)) as [Hge|Hlt].
    - assert (Hq' : (length (hist ++ [(m, r)]) / thr = S q)%nat).
      { rewrite Hlen. symmetry. apply (Nat.div_unique (S n) thr (S q) 0); lia. }
      eexists. split; [rewrite Hout; reflexivity|]. split; cbn [sb_thr sb_epoch sb_tree sb_pend sb_done epochs_pending epochs_signed]; rewrite ?Hq'.
      + reflexivity.
      + lia.
      + rewrite skipn_all2 by (rewrite Hlen; lia). reflexivity.
      + apply Forall_app. split; [eapply Forall_impl; [|exact Hp']; intros p (e & ? & ? & ?); exists e; repeat split; [assumption|lia|assumption]|].
        constructor; [|constructor]. exists q. cbn [fst snd]. split; [reflexivity|]. split; [lia|].
        unfold segment. rewrite Esk, firstn_all2; [exact ER|]. rewrite app_length, skipn_length. cbn [length]. fold n. lia.
      + eapply Forall_impl; [|exact Hd']. intros p (e & t & o & ? & ? & ?); exists e, t, o. split; [assumption|]. split; [lia|assumption].
      + unfold epochs_pending, epochs_signed. cbn [sb_pend sb_done]. rewrite seq_S, !map_app. cbn [map fst Nat.add].
        rewrite <- app_assoc. cbn [app]. eapply perm_trans; [symmetry; apply Permutation_middle|].
        eapply perm_trans; [|apply Permutation_cons_append]. apply perm_skip. exact H6.
    - assert (Hq' : (length (hist ++ [(m, r)]) / thr = q)%nat).
      { rewrite Hlen. symmetry. apply (Nat.div_unique (S n) thr q (S k)); lia. }
      eexists. split; [rewrite Hout; reflexivity|]. split; cbn [sb_thr sb_epoch sb_tree sb_pend sb_done]; rewrite ?Hq'; try assumption; try reflexivity.
      rewrite Esk. exact ER.
  Qed.

  Lemma segment_len hist e : (e < length hist / thr)%nat -> length (segment thr e hist) = thr.
  Proof.
    intros He. pose proof (Nat.div_mod (length hist) thr ltac:(lia)). unfold segment. rewrite firstn_length, skipn_length. nia.
  Qed.
  Lemma segment_ne hist e : (e < length hist / thr)%nat -> segment thr e hist <> [].
  Proof. intros He E. pose proof (segment_len hist e He). rewrite E in *. cbn [length] in *. lia. Qed.

  Lemma BI_sign hist s e o : BI hist s -> In e (epochs_pending s) ->
    exists s', bstep h sc s (LSign e o) = Some (s', []) /\ BI hist s'.
  Proof.
    intros [H1 H2 H3 H4 H5 H6] Hin. cbn [bstep]. destruct (take_pend_in _ _ Hin) as (t & p & E). rewrite E.
    destruct (take_pend_spec _ _ _ _ E) as (a & b & Ep & ->).
    rewrite Ep in H4. pose proof (Forall_elt _ _ _ H4) as (e0 & Ee & He & Er). cbn [fst snd] in *. subst e.
    destruct (epoch_sign h sc T (segment thr e0 hist) t o Hh) as (t' & root & tbs & Es & _ & _); try assumption.
    { apply segment_ne, He. }
    { unfold blen. rewrite segment_len by exact He. lia. }
    rewrite Es. eexists. split; [reflexivity|]. split; cbn [sb_thr sb_epoch sb_tree sb_pend sb_done]; try assumption.
    - apply Forall_app in H4. destruct H4 as [G1 G2]. inversion G2; subst. apply Forall_app. auto.
    - apply Forall_app. split; [assumption|]. constructor; [|constructor]. exists e0, t, o. auto.
    - eapply perm_trans; [|exact H6]. unfold epochs_pending, epochs_signed. cbn [sb_pend sb_done]. rewrite Ep, !map_app. cbn [map fst].
      rewrite <- !app_assoc. apply Permutation_app_head. cbn [app]. rewrite (app_assoc (map fst b)). symmetry. apply Permutation_cons_append.
  Qed.

  Lemma BI_run : forall ls hist s s' outs, BI hist s -> brun h sc s ls = Some (s', outs) ->
    BI (hist ++ added ls) s' /\ outs = map (slot thr) (seq (length hist) (length (added ls))).
  Proof.
    induction ls as [|l ls IH]; intros hist s s' outs HB E; cbn [brun] in E.
    - injection E as <- <-. cbn [added flat_map]. rewrite app_nil_r. auto.
    - destruct (bstep h sc s l) as [[s1 o1]|] eqn:E1; [|discriminate]. destruct (brun h sc s1 ls) as [[s2 o2]|] eqn:E2; [|discriminate].
      injection E as -> <-. destruct l as [m r|e o].
      + destruct (BI_add hist s m r HB) as (s0 & EA & HB'). cbn [bstep] in E1. rewrite EA in E1. injection E1 as <- <-.
        destruct (IH _ _ _ _ HB' E2) as [G1 G2]. rewrite <- app_assoc in G1. split; [exact G1|].
        cbn [added flat_map app length seq map]. fold (added ls). rewrite G2. f_equal. rewrite app_length. cbn [length]. f_equal. f_equal. lia.
      + assert (Hin : In e (epochs_pending s)).
        { cbn [bstep] in E1. destruct (take_pend e (sb_pend s)) as [[t p]|] eqn:Et; [|discriminate]. destruct (take_pend_spec _ _ _ _ Et) as (a & b & Ep & _).
          unfold epochs_pending. rewrite Ep, map_app. apply in_or_app. right. left. reflexivity. }
        destruct (BI_sign hist s e o HB Hin) as (s0 & ES & HB'). rewrite ES in E1. injection E1 as <- <-.
        destruct (IH _ _ _ _ HB' E2) as [G1 G2]. split; [exact G1|exact G2].
  Qed.
End Inv.

(** ** Theorems *)
Definition thr_ok (thr : nat) : Prop := (1 <= thr)%nat /\ N.of_nat thr <= 2 ^ 30.

(** Whatever the schedule, the j-th message (in lock order) gets slot j: its own index of its own epoch. *)
Theorem C28_slots : forall h sc thr ls s outs, hash_ok h -> thr_ok thr ->
  brun h sc (sb_new (N.of_nat thr)) ls = Some (s, outs) ->
  outs = map (slot thr) (seq 0 (length (added ls))).
Proof.
  intros h sc thr ls s outs Hh [H1 H2] E. apply (BI_run h sc thr Hh H1 H2 ls [] _ s outs (BI_new h sc thr H1 H2) E).
Qed.
Print Assumptions C28_slots.
(** ... and no two messages share one. *)
Theorem C28_slots_distinct : forall thr i j, (1 <= thr)%nat -> slot thr i = slot thr j -> i = j.
Proof.
  intros thr i j H E. unfold slot in E.
  assert (E1 : (i mod thr = j mod thr)%nat) by (assert (N.of_nat (2 * (i mod thr)) = N.of_nat (2 * (j mod thr))) by congruence; lia).
  assert (E2 : (i / thr = j / thr)%nat) by (assert (N.of_nat (i / thr) = N.of_nat (j / thr)) by congruence; lia).
  rewrite (Nat.div_mod i thr), (Nat.div_mod j thr) by lia. rewrite E1, E2. reflexivity.
Qed.

(** Adding never fails, and in particular never blocks on signatures that are still outstanding; signing an epoch
    whose turn has come never fails. *)
Theorem C28_progress : forall h sc thr ls s outs, hash_ok h -> thr_ok thr ->
  brun h sc (sb_new (N.of_nat thr)) ls = Some (s, outs) ->
  (forall m r, exists s', addMessage h s m r = Ok (s', slot thr (length (added ls)))) /\
  (forall e o, In e (epochs_pending s) -> exists s', bstep h sc s (LSign e o) = Some (s', [])).
Proof.
  intros h sc thr ls s outs Hh [H1 H2] E. destruct (BI_run h sc thr Hh H1 H2 ls [] _ s outs (BI_new h sc thr H1 H2) E) as [HB _]. split.
  - intros m r. destruct (BI_add h sc thr Hh H1 H2 _ s m r HB) as (s' & G & _). eauto.
  - intros e o Hin. destruct (BI_sign h sc thr Hh H1 H2 _ s e o HB Hin) as (s' & G & _). eauto.
Qed.
Print Assumptions C28_progress.

(** The epochs handed to the signer or waiting for it are exactly the full ones, each exactly once. *)
Theorem C28_signed_once : forall h sc thr ls s outs, hash_ok h -> thr_ok thr ->
  brun h sc (sb_new (N.of_nat thr)) ls = Some (s, outs) ->
  NoDup (epochs_pending s ++ epochs_signed s) /\
  (forall e, In e (epochs_pending s ++ epochs_signed s) <-> (e + 1) * N.of_nat thr <= blen (added ls)).
Proof.
  intros h sc thr ls s outs Hh [H1 H2] E. destruct (BI_run h sc thr Hh H1 H2 ls [] _ s outs (BI_new h sc thr H1 H2) E) as [[_ _ _ _ _ HP] _].
  cbn [app] in HP. split.
  - eapply Permutation_NoDup; [symmetry; exact HP|]. apply FinFun.Injective_map_NoDup; [intros a b; lia|apply seq_NoDup].
  - intros e. pose proof (Nat.div_mod (length (added ls)) thr ltac:(lia)) as HD. pose proof (Nat.mod_upper_bound (length (added ls)) thr ltac:(lia)) as HM.
    rewrite HP, in_map_iff. unfold blen. split.
    + intros (x & <- & Hx). apply in_seq in Hx. set (q := (length (added ls) / thr)%nat) in *. clearbody q. nia.
    + intros He. exists (N.to_nat e). split; [lia|]. apply in_seq. set (q := (length (added ls) / thr)%nat) in *. clearbody q.
      assert ((N.to_nat e + 1) * thr <= length (added ls))%nat by nia. nia.
Qed.
Print Assumptions C28_signed_once.

(** ** The batch signatures verify *)
Lemma bs_roundtrip i p s w : i < 2 ^ 32 -> bs_encode i p s = Ok w -> forall trail, bs_decode (w ++ trail) = Ok (i, p, s).
Proof.
  intros Hi E trail. unfold bs_encode, write_u in E. cbn [bind] in E. apply bind_Ok in E. destruct E as (b & E1 & E). apply bind_Ok in E. destruct E as (c & E2 & E).
  apply write_buf_inv in E1. apply write_buf_inv in E2. cbn [bufb] in *. destruct E1 as [-> L1], E2 as [-> L2].
  assert (w = be 4 i ++ (be (lw_nat W16) (blen p) ++ p) ++ (be (lw_nat W16) (blen s) ++ s)) as -> by congruence.
  unfold bs_decode. rewrite <- app_assoc, read_u_app by exact Hi. cbn [bind].
  rewrite <- (app_assoc (be (lw_nat W16) (blen p) ++ p)), read_buf_app by exact L1. cbn [bind]. rewrite read_buf_app by exact L2. reflexivity.
Qed.
Lemma bs_encode_ok i p s : blen p < 2 ^ 16 -> blen s < 2 ^ 16 -> exists w, bs_encode i p s = Ok w.
Proof.
  intros H1 H2. unfold bs_encode, write_u. cbn [bind]. rewrite (write_buf_ok W16 (Some p)) by exact H1. cbn [bind].
  rewrite (write_buf_ok W16 (Some s)) by exact H2. cbn [bind]. eauto.
Qed.

Lemma nth_leaves_of seg : forall k m r, nth_error seg k = Some (m, r) -> nth_error (leaves_of seg) (2 * k) = Some m.
Proof.
  induction seg as [|[a b] seg IH]; intros [|k] m r E; try discriminate.
  - cbn in E. injection E as -> ->. reflexivity.
  - cbn [nth_error] in E. replace (2 * S k)%nat with (S (S (2 * k))) by lia. cbn [leaves_of flat_map app nth_error]. eapply IH, E.
Qed.

(** For every message of an epoch the signer signed: the signer was given the draft's encoding of the root of the tree
    over exactly the messages of that epoch; the batch signature made from the slot of that message is accepted by
    the peer if and only if the peer's base verifier accepts the signer's answer for what it was given. *)
Theorem C28_verifies : forall h sc thr ls s outs, hash_ok h -> thr_ok thr ->
  brun h sc (sb_new (N.of_nat thr)) ls = Some (s, outs) ->
  forall e tbs t sg, In (N.of_nat e, tbs, Some (t, sg)) (sb_done s) -> blen sg < 2 ^ 16 ->
  (exists root k, Root (internalNode h) (map (leafNode h) (leaves_of (segment thr e (added ls)))) k root /\ encodeToBeSigned root sc = Ok tbs) /\
  forall j m r, nth_error (added ls) j = Some (m, r) -> snd (slot thr j) = N.of_nat e ->
  exists w, batchSig t (fst (slot thr j)) sg = Ok w /\
    forall base b, getBatchSchemeInfo sc [] = Some b -> peer_verify h base sc m w = base b tbs sg.
Proof.
  intros h sc thr ls s outs Hh [H1 H2] E e tbs t sg Hin Hsg.
  destruct (BI_run h sc thr Hh H1 H2 ls [] _ s outs (BI_new h sc thr H1 H2) E) as [HB _]. cbn [app] in HB.
  pose proof (bi_done _ _ _ _ _ HB) as HD. rewrite Forall_forall in HD. destruct (HD _ Hin) as (e' & t0 & o & Ee & He & Er & Es). cbn [fst snd] in *.
  assert (e' = e) as -> by lia.
  assert (Hbs : blen (segment thr e (added ls)) = N.of_nat thr) by (unfold blen; rewrite segment_len by assumption; reflexivity).
  destruct (epoch_sign h sc (N.of_nat thr) (segment thr e (added ls)) t0 o Hh) as (t' & root & tbs' & Es' & Et & HR & Hk & HP); try assumption.
  { apply segment_ne; assumption. }
  { lia. }
  rewrite Es in Es'. destruct o as [sg'|]; [|discriminate]. injection Es' as <- <- <-.
  split; [eauto|]. intros j m r Hj Hs. cbn [slot fst snd] in *.
  assert (Hje : (j / thr = e)%nat) by lia. pose proof (Nat.div_mod j thr ltac:(lia)) as HD1. pose proof (Nat.mod_upper_bound j thr ltac:(lia)) as HD2. rewrite Hje in HD1.
  set (k := (j mod thr)%nat) in *.
  assert (Hnth : nth_error (segment thr e (added ls)) k = Some (m, r)).
  { unfold segment. rewrite nth_error_firstn'. destruct (Nat.ltb_spec k thr); [|lia]. rewrite nth_error_skipn'. rewrite <- Hj. f_equal. lia. }
  destruct (HP (2 * k)%nat m (nth_leaves_of _ _ _ _ Hnth)) as (path & Ep & Epl & Ec).
  pose proof (ho_pos h Hh). pose proof (ho_le h Hh). pose proof (ho_max h Hh).
  destruct (bs_encode_ok (N.of_nat (2 * k)) path sg) as (w & Ew); [rewrite Epl; nia|exact Hsg|].
  exists w. split.
  { unfold batchSig. rewrite Ep. cbn [bind]. exact Ew. }
  intros base b Hb. unfold peer_verify. rewrite Hb. unfold batchSigVerify.
  pose proof (bs_roundtrip (N.of_nat (2 * k)) path sg w ltac:(lia) Ew []) as Edec. rewrite app_nil_r in Edec. rewrite Edec. cbn [bind].
  destruct (N.ltb_spec (2 ^ 32) (N.of_nat (2 * k))); [lia|]. rewrite Epl, N.div_mul by lia.
  destruct (N.ltb_spec 32 (N.of_nat (mt_height t))); [lia|]. rewrite Ec. cbn [bind]. rewrite Et. reflexivity.
Qed.
Print Assumptions C28_verifies.

(** A threshold of zero: every add throws (the tree has no room), so nothing is ever signed. *)
Theorem C28_zero_threshold : forall h m r, addMessage h (sb_new 0) m r = Err EThrow.
Proof. reflexivity. Qed.

(** ** Thread-local batchers: each thread sees a batcher of its own *)
Theorem C28_thread_local : forall h sc ls m m' outs, tlrun h sc m ls = Some (m', outs) ->
  forall th, brun h sc (m th) (map snd (filter (fun x => fst x =? th) ls)) =
             Some (m' th, map snd (filter (fun x => fst x =? th) outs)).
Proof.
  induction ls as [|[t l] ls IH]; intros m m' outs E th; cbn [tlrun] in E.
  - injection E as <- <-. reflexivity.
  - destruct (bstep h sc (m t) l) as [[s1 o1]|] eqn:E1; [|discriminate].
    destruct (tlrun h sc (fun x => if x =? t then s1 else m x) ls) as [[m2 o2]|] eqn:E2; [|discriminate].
    injection E as -> <-. specialize (IH _ _ _ E2 th). cbv beta in IH. rewrite filter_app, map_app. cbn [filter fst].
    assert (Hf : forall o, map snd (filter (fun x : N * (N * N) => fst x =? th) (map (pair t) o)) = if t =? th then o else []).
    { intros o. destruct (N.eqb_spec t th) as [->|Hn]; induction o as [|a o IHo]; try reflexivity; cbn [map filter fst].
      - rewrite N.eqb_refl. cbn [map snd]. f_equal. exact IHo.
      - destruct (N.eqb_spec t th); [contradiction|]. exact IHo. }
    rewrite Hf. rewrite (N.eqb_sym th t) in IH. destruct (N.eqb_spec t th) as [->|Hn].
    + cbn [map snd brun]. rewrite E1, IH. reflexivity.
    + cbn [app]. exact IH.
Qed.
Print Assumptions C28_thread_local.

(** ** Selection of the scheme *)
(** Whatever scheme a batcher uses, the peer maps its batch scheme back to the signer's own base scheme. *)
Theorem C28_scheme_agrees : forall signer batch bse, batcher_schemes signer = Some (batch, bse) ->
  In bse signer /\ getBatchSchemeInfo batch [] = Some bse.
Proof.
  intros signer batch bse. unfold batcher_schemes.
  assert (G : forall acc, fold_left (fun acc s => match getFromBaseScheme s with Some b => Some (b, s) | None => acc end) signer acc = Some (batch, bse) ->
     acc = Some (batch, bse) \/ (In bse signer /\ getFromBaseScheme bse = Some batch)).
  { induction signer as [|x l IH]; intros acc E; cbn [fold_left] in E; [auto|]. destruct (IH _ E) as [E'|[H1 H2]]; [|right; cbn; auto].
    destruct (getFromBaseScheme x) as [b|] eqn:Ex; [|auto]. right. injection E' as -> ->. cbn. auto. }
  intros E. destruct (G _ E) as [E'|[H1 H2]]; [discriminate|]. split; [exact H1|]. unfold getFromBaseScheme in H2.
  destruct (N.eqb_spec bse ecdsa_secp256r1_sha256) as [->|]; [injection H2 as <-; reflexivity|].
  destruct (N.eqb_spec bse rsa_pss_sha256) as [->|]; [injection H2 as <-; reflexivity|discriminate].
Qed.
Print Assumptions C28_scheme_agrees.
(** The constructor's comment says "select the first matched batch scheme"; it takes the last one. *)
Theorem C28_first_scheme_refuted :
  ~ (forall signer pre s b rest, signer = pre ++ s :: rest -> (forall x, In x pre -> getFromBaseScheme x = None) ->
       getFromBaseScheme s = Some b -> batcher_schemes signer = Some (b, s)).
Proof.
  intros H. specialize (H [ecdsa_secp256r1_sha256; rsa_pss_sha256] [] ecdsa_secp256r1_sha256 ecdsa_secp256r1_sha256_batch [rsa_pss_sha256] eq_refl).
  specialize (H (fun x f => match f with end) eq_refl). discriminate H.
Qed.

(** ** Example: threshold 2, five messages, signatures out of order and late *)
Definition ex_bls : list blabel :=
  [LAdd [x61] [x01]; LAdd [x62] [x02]; LAdd [x63] [x03]; LAdd [x64] [x04]; LSign 1 (Some [x55]); LAdd [x65] [x05]; LSign 0 (Some [x66])].
Definition ex_brun : option (list (N * N) * list N * list N * bool) :=
  match brun toy_hash ecdsa_secp256r1_sha256_batch (sb_new 2) ex_bls with
  | None => None
  | Some (s, outs) =>
      Some (outs, epochs_pending s, epochs_signed s,
            match sb_done s with
            | (_, tbs, Some (t, sg)) :: _ =>
                match batchSig t 2 sg with
                | Ok w => is_ok (peer_verify toy_hash (fun sch m s => if (sch =? ecdsa_secp256r1_sha256) && bytes_eqb m tbs && bytes_eqb s [x55] then Ok tt else Err EThrow)
                                             ecdsa_secp256r1_sha256_batch [x64] w)
                | Err _ => false
                end
            | _ => false
            end)
  end.
Example C28_nonvacuous : thr_ok 2 /\ ex_brun = Some ([(0, 0); (2, 0); (0, 1); (2, 1); (0, 2)], [], [1; 0], true).
Proof. split; [split; [lia|vm_compute; discriminate]|vm_compute; reflexivity]. Qed.

(** What is signed for a tree: 64 spaces, "TLS batch signature", a zero byte, the batch scheme, the root; hence the scheme and
    the root are both bound. *)
Theorem C28_signed_content : forall root scheme,
  encodeToBeSigned root scheme = Ok (repeat x20 64 ++ str "TLS batch signature" ++ [x00] ++ be 2 scheme ++ root) /\
  forall root' scheme', scheme < 65536 -> scheme' < 65536 -> encodeToBeSigned root scheme = encodeToBeSigned root' scheme' ->
    scheme = scheme' /\ root = root'.
Proof.
  intros root scheme. unfold encodeToBeSigned, write_u. cbn [bind]. split.
  - unfold tbs_prefix. rewrite <- !app_assoc. reflexivity.
  - intros r' s' H1 H2 H.
    assert (E : be 2 scheme ++ root = be 2 s' ++ r') by (apply (app_inv_head tbs_prefix); congruence).
    pose proof (read_be_app 2 scheme root) as R1. pose proof (read_be_app 2 s' r') as R2.
    rewrite E in R1. rewrite R1 in R2 by exact H1. specialize (R2 H2). injection R2 as -> ->. auto.
Qed.
Print Assumptions C28_signed_content.
