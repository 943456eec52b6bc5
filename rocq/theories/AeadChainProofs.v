(** * AEADs over chains of buffers: lemmas for property C78 *)
From Verif Require Import Base Nonce Hkdf HkdfProofs IOBufUtil PropsIOBuf AeadChain AeadChainSpec.
Open Scope N_scope.

(** ** Writing into memory *)
Definition put (m : bytes) (p : N) (o : bytes) : bytes := takeN p m ++ o ++ dropN (p + blen o) m.
Lemma poke_put m p o : p + blen o <= blen m -> poke m p o = Ok (put m p o).
Proof. apply poke_ok. Qed.
Lemma blen_put m p o : p + blen o <= blen m -> blen (put m p o) = blen m.
Proof. intros H. unfold put. rewrite !blen_app, blen_takeN, blen_dropN. lia. Qed.
Lemma dropN_dropN {A} n m (l : list A) : dropN n (dropN m l) = dropN (m + n) l.
Proof.
  destruct (N.le_gt_cases m (blen l)) as [H|H].
  - rewrite <- (takeN_dropN m l) at 2. rewrite dropN_app_ge by (rewrite blen_takeN; lia). f_equal. rewrite blen_takeN. lia.
  - rewrite (dropN_all m) by lia. rewrite (dropN_all (m + n)) by lia. apply dropN_all. rewrite blen_nil. lia.
Qed.
Lemma put_nil m p : put m p [] = m.
Proof. unfold put. rewrite blen_nil, N.add_0_r. apply takeN_dropN. Qed.
Lemma put_drop m p o q : p + blen o <= q -> p + blen o <= blen m -> dropN q (put m p o) = dropN q m.
Proof.
  intros H Hm. unfold put. rewrite app_assoc, dropN_app_ge by (rewrite blen_app, blen_takeN; lia).
  rewrite dropN_dropN. f_equal. rewrite blen_app, blen_takeN. lia.
Qed.
Lemma rd_put m p o q n : p + blen o <= q -> p + blen o <= blen m -> rd (put m p o) q n = rd m q n.
Proof. intros H Hm. unfold rd. rewrite put_drop by assumption. reflexivity. Qed.
Lemma put_put m p o1 o2 : p + blen o1 + blen o2 <= blen m -> put (put m p o1) (p + blen o1) o2 = put m p (o1 ++ o2).
Proof.
  intros H. unfold put at 1. rewrite put_drop by lia.
  assert (E : takeN (p + blen o1) (put m p o1) = takeN p m ++ o1).
  { unfold put. rewrite app_assoc. apply takeN_app. rewrite blen_app, blen_takeN. lia. }
  rewrite E. unfold put. rewrite blen_app, <- !app_assoc, N.add_assoc. reflexivity.
Qed.
Lemma rd_split m p a b : rd m p (a + b) = rd m p a ++ rd m (p + a) b.
Proof.
  unfold rd. rewrite <- dropN_dropN. generalize (dropN p m). intros l. destruct (N.le_gt_cases a (blen l)) as [H|H].
  - rewrite <- (takeN_dropN a l) at 1. rewrite takeN_app_ge by (rewrite blen_takeN; lia). f_equal. f_equal. rewrite blen_takeN. lia.
  - rewrite (dropN_all a) by lia. rewrite !takeN_all by (rewrite ?blen_nil; lia). rewrite app_nil_r. reflexivity.
Qed.
Lemma rd_all m : rd m 0 (blen m) = m.
Proof. unfold rd. rewrite dropN_0. apply takeN_all. lia. Qed.
Lemma blen_rd m p n : p + n <= blen m -> blen (rd m p n) = n.
Proof. intros H. unfold rd. rewrite blen_takeN, blen_dropN. lia. Qed.
Lemma rd_0 m p : rd m p 0 = [].
Proof. unfold rd. apply takeN_0. Qed.

Lemma sumL_sumN l : sumL l = sumN l.
Proof. induction l as [|x r IH]; [reflexivity|]. cbn. rewrite IH. reflexivity. Qed.
Lemma skip0_sumL l : sumL (skip0 l) = sumL l.
Proof. rewrite !sumL_sumN. apply skip0_sum. Qed.
Lemma advance_sumL n l : n <= sumL l -> exists l', advance l n = Ok l' /\ sumL l' = sumL l - n.
Proof. rewrite sumL_sumN. intros H. destruct (advance_ok n l H) as (l' & A & B). exists l'. rewrite sumL_sumN. auto. Qed.
Lemma skip0_head l n r : skip0 l = n :: r -> 0 < n.
Proof. induction l as [|d ds IH]; [discriminate|]. cbn [skip0]. destruct (N.eqb_spec d 0); [exact IH|]. intros [= -> ->]. lia. Qed.
Lemma skip0_Forall (P : N -> Prop) l : Forall P l -> Forall P (skip0 l).
Proof. induction l as [|d ds IH]; [auto|]. cbn [skip0]. intros H. destruct (N.eqb_spec d 0); [|exact H]. inversion H; auto. Qed.

Section Run.
  Context {St : Type}.
  Variable f : St -> bytes -> option (St * bytes).
  Variable same : bool.
  (** [F] is [f] without the limit on the length of one call *)
  Variable F : St -> bytes -> option (St * bytes).
  Variable lim : N.
  Hypothesis Hf : forall s x, blen x <= lim -> f s x = F s x.
  Hypothesis F0 : forall s, F s [] = Some (s, []).
  Hypothesis Fapp : forall s a b, F s (a ++ b) = match F s a with
                                        | Some (s1, o1) => match F s1 b with Some (s2, o2) => Some (s2, o1 ++ o2) | None => None end
                                        | None => None end.
  Lemma tb_ok : (forall s x s' o, F s x = Some (s', o) -> blen o = blen x) ->
    forall fuel s mi mo ip op il ol,
    (length il + length ol + N.to_nat (sumL il) <= fuel)%nat -> sumL il <= sumL ol -> Forall (fun n => n <= lim) il ->
    ip + sumL il <= blen mi -> op + sumL ol <= blen mo -> (same = true -> mi = mo /\ ip = op) ->
    match F s (rd mi ip (sumL il)) with
    | Some (s', o) => exists mi', tb f same fuel s mi mo ip op il ol = (mi', put mo op o, Ok s')
    | None => exists mi' mo', tb f same fuel s mi mo ip op il ol = (mi', mo', fail) /\ blen mo' = blen mo
    end.
  Proof.
    intros Flen. induction fuel as [|g IH]; intros s mi mo ip op il ol Hfu Hc Hl Hi Ho Hs.
    - destruct il; [|cbn in Hfu; lia]. cbn. rewrite rd_0, F0, put_nil. eauto.
    - destruct il as [|n r]; [cbn; rewrite rd_0, F0, put_nil; eauto|]. cbn [tb]. cbn [sumL length] in Hfu, Hc, Hi. cbn [sumL].
      inversion Hl as [|? ? Hn Hr]; subst. destruct (N.eqb_spec n 0) as [->|Hn0].
      { rewrite N.add_0_l in *. apply IH; try assumption. lia. }
      destruct ol as [|c cs]; [cbn [sumL] in Hc; lia|]. cbn [sumL length] in Hc, Ho, Hfu.
      set (sel := N.min c n). assert (Hsel : sel <= n /\ sel <= c) by (unfold sel; lia).
      replace (n + sumL r) with (sel + (n - sel + sumL r)) by lia. rewrite rd_split, Fapp.
      rewrite Hf by (rewrite blen_rd by lia; lia).
      destruct (F s (rd mi ip sel)) as [[s1 o1]|] eqn:E1; [|eauto]. pose proof (Flen _ _ _ _ E1) as L1. rewrite blen_rd in L1 by lia.
      rewrite poke_put by lia. set (mi1 := if same then put mo op o1 else mi).
      assert (R : rd mi (ip + sel) (n - sel + sumL r) = rd mi1 (ip + sel) (n - sel + sumL r)).
      { unfold mi1. destruct same; [|reflexivity]. destruct (Hs eq_refl) as [-> ->]. symmetry. apply rd_put; lia. }
      rewrite R.
      assert (Hb : blen mi1 = blen mi). { unfold mi1. destruct same; [|reflexivity]. destruct (Hs eq_refl) as [-> ->]. apply blen_put. lia. }
      specialize (IH s1 mi1 (put mo op o1) (ip + sel) (op + sel) (n - sel :: r) (if c - sel =? 0 then cs else c - sel :: cs)).
      cbn [sumL length] in IH. rewrite Hb, blen_put in IH by lia.
      assert (IH' := fun a b c d e h => IH a b c d e h). clear IH.
      destruct (F s1 (rd mi1 (ip + sel) (n - sel + sumL r))) as [[s2 o2]|] eqn:E2.
      + destruct IH' as [mi' E].
        * destruct (N.eqb_spec (c - sel) 0); cbn [length sumL]; lia.
        * destruct (N.eqb_spec (c - sel) 0); cbn [sumL]; lia.
        * constructor; [lia|assumption].
        * lia.
        * destruct (N.eqb_spec (c - sel) 0); cbn [sumL]; lia.
        * unfold mi1. intros X. rewrite X. destruct (Hs X) as [_ ->]. auto.
        * exists mi'. rewrite E. do 2 f_equal. rewrite <- put_put.
          -- rewrite L1. reflexivity.
          -- pose proof (Flen _ _ _ _ E2) as L2. rewrite blen_rd in L2 by (rewrite Hb; lia). lia.
      + destruct IH' as (mi' & mo' & E & Eb).
        * destruct (N.eqb_spec (c - sel) 0); cbn [length sumL]; lia.
        * destruct (N.eqb_spec (c - sel) 0); cbn [sumL]; lia.
        * constructor; [lia|assumption].
        * lia.
        * destruct (N.eqb_spec (c - sel) 0); cbn [sumL]; lia.
        * unfold mi1. intros X. rewrite X. destruct (Hs X) as [_ ->]. auto.
        * exists mi', mo'. split; [exact E|exact Eb].
  Qed.
  Lemma bl_ok held bs : 0 < bs -> bs <= 128 -> bs <= lim ->
    (forall s x s' o, F s x = Some (s', o) -> held s < bs -> held s' = (held s + blen x) mod bs /\ blen o = held s + blen x - (held s + blen x) mod bs) ->
    forall fuel bb s mi mo ip op il ol,
    held s < bs -> blen bb = 128 -> (N.to_nat (sumL il) <= fuel)%nat ->
    held s + sumL il - (held s + sumL il) mod bs <= sumL ol -> Forall (fun n => n <= lim) il ->
    ip + sumL il <= blen mi -> op + sumL ol <= blen mo -> (same = true -> mi = mo /\ ip = op + held s) ->
    match F s (rd mi ip (sumL il)) with
    | Some (s', o) => exists mi' ol', bl f same fuel bs bb s mi mo ip op (held s) il ol = (mi', put mo op o, Ok (s', op + blen o, ol')) /\ sumL ol' = sumL ol - blen o
    | None => exists mi' mo', bl f same fuel bs bb s mi mo ip op (held s) il ol = (mi', mo', fail) /\ blen mo' = blen mo
    end.
  Proof.
    intros Hb0 Hb1 Hb2 HF. induction fuel as [|g IH]; intros bb s mi mo ip op il ol Hs Hbb Hfu Hcap Hl Hi Ho Hsm; cbn [bl];
      rewrite <- (skip0_sumL il) in *; apply skip0_Forall in Hl; destruct (skip0 il) as [|n r] eqn:Ei;
      try (cbn [sumL]; rewrite rd_0, F0, put_nil; exists mi, ol; rewrite blen_nil, N.add_0_r, N.sub_0_r; auto; fail);
      pose proof (skip0_head _ _ _ Ei) as Hn.
    - exfalso. cbn [sumL] in Hfu. lia.
    - clear Ei il. cbn [sumL] in Hfu, Hcap, Hi |- *. inversion Hl as [|? ? Hnl Hr]; subst. rewrite <- (skip0_sumL ol) in *. set (ol0 := skip0 ol) in *. set (R := sumL r) in *.
      set (oL := hd 0 ol0). assert (HoL : oL <= sumL ol0) by (unfold oL; destruct ol0; cbn [hd sumL]; lia).
      (* one call with [k] bytes, writing [o1] at [op] *)
      assert (Step : forall k s1 o1, k <= n -> F s (rd mi ip k) = Some (s1, o1) ->
         held s1 = (held s + k) mod bs /\ blen o1 = held s + k - (held s + k) mod bs /\ blen o1 <= sumL ol0 /\
         op + blen o1 <= blen mo /\
         let mi1 := if same then put mo op o1 else mi in
         blen mi1 = blen mi /\ rd mi (ip + k) (n - k + R) = rd mi1 (ip + k) (n - k + R) /\ (same = true -> mi1 = put mo op o1 /\ ip + k = op + blen o1 + held s1) /\
         held s1 + (n - k + R) - (held s1 + (n - k + R)) mod bs <= sumL ol0 - blen o1).
      { intros k s1 o1 Hk E. destruct (HF _ _ _ _ E Hs) as [A B]. rewrite blen_rd in A, B by lia.
        assert (C : held s1 + (n - k + R) - (held s1 + (n - k + R)) mod bs <= sumL ol0 - blen o1 /\ blen o1 <= sumL ol0).
        { rewrite A, B. split; [apply (floor_rest bs (held s) k n R); auto|].
          eapply N.le_trans; [|exact Hcap]. apply N.le_trans with (held s + (k + 0) - (held s + (k + 0)) mod bs); [rewrite N.add_0_r; reflexivity|].
          rewrite N.add_0_r.
          assert (M : forall x y, x <= y -> x - x mod bs <= y - y mod bs).
          { intros x y Hxy. pose proof (N.div_mod x bs ltac:(lia)) as X. pose proof (N.div_mod y bs ltac:(lia)) as Y.
            pose proof (N.div_le_mono x y bs ltac:(lia) Hxy) as Z. apply (N.mul_le_mono_l _ _ bs) in Z. lia. }
          apply M. lia. }
        destruct C as [C1 C2]. split; [exact A|]. split; [exact B|]. split; [exact C2|]. split; [lia|]. cbn zeta.
        pose proof (N.mod_le (held s + k) bs ltac:(lia)) as ML.
        split. { destruct same; [|reflexivity]. destruct (Hsm eq_refl) as [-> _]. apply blen_put. lia. }
        split. { destruct same; [|reflexivity]. destruct (Hsm eq_refl) as [-> ->]. symmetry. apply rd_put; lia. }
        split; [|exact C1]. intros X. rewrite X. destruct (Hsm X) as [_ ->]. split; [reflexivity|]. rewrite A, B. lia. }
      assert (Hcall : forall k, k <= n -> f s (rd mi ip k) = F s (rd mi ip k)) by (intros k Hk; apply Hf; rewrite blen_rd by lia; lia).
      (* what follows a call *)
      assert (Next : forall k s1 o1 bb1 ol1, 0 < k -> k <= n -> F s (rd mi ip k) = Some (s1, o1) -> blen bb1 = 128 -> sumL ol1 = sumL ol0 - blen o1 ->
         match F s (rd mi ip (n + R)) with
         | Some (s', o) => exists mi' ol', bl f same g bs bb1 s1 (if same then put mo op o1 else mi) (put mo op o1) (ip + k) (op + blen o1) (held s1) (n - k :: r) ol1 =
                                           (mi', put mo op o, Ok (s', op + blen o, ol')) /\ sumL ol' = sumL ol0 - blen o
         | None => exists mi' mo', bl f same g bs bb1 s1 (if same then put mo op o1 else mi) (put mo op o1) (ip + k) (op + blen o1) (held s1) (n - k :: r) ol1 = (mi', mo', fail) /\ blen mo' = blen mo
         end).
      { intros k s1 o1 bb1 ol1 Hk0 Hk E1 Hbb1 Hol1. destruct (Step k s1 o1 Hk E1) as (A & B & C & D & Eb & ER & ES & EC). cbn zeta in *.
        replace (n + R) with (k + (n - k + R)) by lia. rewrite rd_split, Fapp, E1, ER.
        set (mi1 := if same then put mo op o1 else mi) in *.
        specialize (IH bb1 s1 mi1 (put mo op o1) (ip + k) (op + blen o1) (n - k :: r) ol1). cbn [sumL] in IH. fold R in IH.
        assert (J : held s1 < bs) by (rewrite A; apply N.mod_lt; lia).
        specialize (IH J Hbb1 ltac:(lia) ltac:(rewrite Hol1; exact EC) ltac:(constructor; [lia|assumption]) ltac:(rewrite Eb; lia)
          ltac:(rewrite blen_put by lia; lia) ES).
        assert (Q : ip + k + (n - k + R) <= blen mi1) by (rewrite Eb; clear - Hi Hk; lia).
        destruct (F s1 (rd mi1 (ip + k) (n - k + R))) as [[s2 o2]|] eqn:E2.
        - destruct IH as (mi' & ol' & X & Y). exists mi', ol'. rewrite X, blen_app. split; [|rewrite Y, Hol1; clear; lia].
          destruct (HF _ _ _ _ E2 J) as [_ B2]. rewrite blen_rd in B2 by exact Q. rewrite <- B2 in EC.
          rewrite put_put by (clear - Ho EC C; lia). rewrite N.add_assoc. reflexivity.
        - destruct IH as (mi' & mo' & X & Y). exists mi', mo'. split; [exact X|]. rewrite Y. apply blen_put. exact D. }
      destruct (N.ltb_spec (n + held s) bs) as [Hlt|Hge].
      + rewrite Hcall by lia. destruct (F s (rd mi ip n)) as [[s1 o1]|] eqn:E1.
        2:{ rewrite rd_split, Fapp, E1. eauto. }
        destruct (Step n s1 o1 ltac:(lia) E1) as (A & B & _). rewrite N.mod_small in A, B by lia.
        assert (o1 = []) as -> by (apply blen_0; lia). rewrite poke_ok by (rewrite (@blen_nil byte); lia). rewrite takeN_0. cbn [app].
        change (dropN (0 + blen (@nil byte)) bb) with bb.
        specialize (Next n s1 [] bb ol0 Hn ltac:(lia) E1 Hbb ltac:(rewrite blen_nil; lia)).
        rewrite put_nil, blen_nil, N.add_0_r in Next. rewrite N.sub_diag in Next.
        assert (Z : forall X1 X2 X3 X4 X5 X6 X7, bl f same g bs X1 X2 X3 X4 X5 X6 X7 (0 :: r) ol0 = bl f same g bs X1 X2 X3 X4 X5 X6 X7 r ol0)
          by (intros; destruct g; reflexivity).
        rewrite Z, A in Next.
        assert (Mi : (if same then mo else mi) = mi). { destruct same; [|reflexivity]. destruct (Hsm eq_refl) as [-> _]. reflexivity. }
        rewrite Mi in Next. exact Next.
      + destruct (N.ltb_spec oL bs) as [Hol|Hol].
        * rewrite Hcall by lia. destruct (F s (rd mi ip (bs - held s))) as [[s1 o1]|] eqn:E1.
          2:{ replace (n + R) with (bs - held s + (n - (bs - held s) + R)) by lia. rewrite rd_split, Fapp, E1. eauto. }
          destruct (Step (bs - held s) s1 o1 ltac:(lia) E1) as (A & B & C & D & _). replace (held s + (bs - held s)) with bs in A, B by lia.
          rewrite N.mod_same in A, B by lia. rewrite N.sub_0_r in B.
          rewrite poke_ok by lia. rewrite takeN_0. cbn [app]. rewrite takeN_app by lia. rewrite poke_put by lia.
          destruct (advance_sumL bs ol0 ltac:(lia)) as (ol1 & Ea & Es). rewrite Ea.
          specialize (Next (bs - held s) s1 o1 (o1 ++ dropN (0 + blen o1) bb) ol1 ltac:(lia) ltac:(lia) E1 ltac:(rewrite blen_app, blen_dropN; lia) ltac:(lia)).
          rewrite A, B in Next. rewrite B. exact Next.
        * set (sh := N.min oL (n + held s)). set (nblk := sh - sh mod bs). set (nt := N.min n (nblk - held s + (bs - 1))).
          assert (Hnb : bs <= nblk /\ nblk <= sh). { unfold nblk. split; [apply floor_ge; unfold sh; lia|apply N.le_sub_l]. }
          assert (Hfloor : (held s + nt) - (held s + nt) mod bs = nblk).
          { unfold nblk. apply floor_cases; [lia|fold nblk; unfold nt, sh in *; lia|fold nblk; unfold nt, sh in *; lia]. }
          assert (Hnt : nt <= n) by apply N.le_min_l.
          assert (Hnt0 : 0 < nt). { unfold nt. destruct Hnb as [Hnb _]. clear - Hn Hnb Hb0 Hs. clearbody nblk. lia. }
          rewrite Hcall by exact Hnt. destruct (F s (rd mi ip nt)) as [[s1 o1]|] eqn:E1.
          2:{ replace (n + R) with (nt + (n - nt + R)) by lia. rewrite rd_split, Fapp, E1. eauto. }
          destruct (Step nt s1 o1 Hnt E1) as (A & B & C & D & _). rewrite Hfloor in B.
          assert (Hsh : sh <= oL) by apply N.le_min_l.
          destruct (N.ltb_spec oL (blen o1)) as [Hbad|_]; [exfalso; destruct Hnb as [_ Hnb]; rewrite B in Hbad; clear - Hbad Hsh Hnb; clearbody sh nblk oL; lia|].
          destruct (advance_sumL (blen o1) ol0 C) as (ol1 & Ea & Es). rewrite Ea, poke_put by exact D.
          specialize (Next nt s1 o1 bb ol1 Hnt0 Hnt E1 Hbb Es). rewrite A in Next. exact Next.
  Qed.
End Run.
