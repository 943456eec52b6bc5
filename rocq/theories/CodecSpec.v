(** * CodecSpec: the TLS presentation language (RFC 8446 section 3), written
    independently of the model, and the laws relating a codec to it. *)
From Verif Require Import Base Codec.

(** [opaque x<0..2^(8w)-1>]: a [w]-byte big-endian length followed by that many
    bytes. *)
Definition tls_vec (w : nat) (body : bytes) : bytes := be w (blen body) ++ body.

(** A vector of elements. *)
Definition tls_list {T} (w : nat) (el : T -> bytes) (l : list T) : bytes :=
  tls_vec w (concat (map el l)).

Definition fits_len (w : nat) (n : N) : bool := n <? 256 ^ N.of_nat w.

Definition nonnull (b : buf) : bool := match b with Some _ => true | None => false end.
Definition bufbytes (b : buf) : bytes := match b with Some d => d | None => [] end.

(** [lawful P fits spec c]: on values satisfying [P] (well-typed, no null
    buffers) the writer succeeds exactly when the value [fits] its length
    prefixes and then produces [spec t]; the sizer agrees; the reader inverts the
    writer, accepts only what the writer can produce, and reports exactly the
    number of bytes it consumed. *)
Record lawful {T} (P fits : T -> bool) (spec : T -> bytes) (c : codec T) : Prop := {
  law_wr : forall t, P t = true -> fits t = true -> c_wr c t = Ok (spec t);
  law_wr_inv : forall t bs, P t = true -> c_wr c t = Ok bs ->
               fits t = true /\ bs = spec t;
  law_sz : forall t, P t = true -> c_sz c t = Ok (blen (spec t));
  law_rt : forall t rest, P t = true -> fits t = true ->
           c_rd c (spec t ++ rest) = Ok (t, blen (spec t), rest);
  law_canon : forall inp t n rest, c_rd c inp = Ok (t, n, rest) ->
              P t = true /\ fits t = true /\ inp = spec t ++ rest /\
              n = blen (spec t);
  law_pos : forall t, P t = true -> 1 <= blen (spec t);
  law_fuel : forall inp, c_rd c inp <> Err EFuel;
}.

Lemma lw_eq w : lw w = N.of_nat (lw_nat w).
Proof. reflexivity. Qed.
Lemma lw_pos w : 1 <= lw w.
Proof. unfold lw; destruct w; cbn [lw_nat]; lia. Qed.

Lemma write_len_ok w n :
  fits_len (lw_nat w) n = true -> write_len w n = Ok (be (lw_nat w) n).
Proof. unfold fits_len, write_len, lw_max, lw. intros ->. reflexivity. Qed.
Lemma write_len_inv w n bs :
  write_len w n = Ok bs -> fits_len (lw_nat w) n = true /\ bs = be (lw_nat w) n.
Proof.
  unfold fits_len, write_len, lw_max, lw.
  destruct (n <? _) eqn:E; [|destruct w; discriminate].
  injection 1 as <-. auto.
Qed.

Lemma read_be_app k n rest :
  n < 256 ^ N.of_nat k -> read_be k (be k n ++ rest) = Ok (n, rest).
Proof.
  intros H. unfold read_be. rewrite (take_app_n _ (be k n) rest).
  - rewrite unbe_be by assumption. reflexivity.
  - apply be_blen.
Qed.
Lemma read_be_inv k inp n rest :
  read_be k inp = Ok (n, rest) -> n < 256 ^ N.of_nat k /\ inp = be k n ++ rest.
Proof.
  unfold read_be. destruct (take _ inp) as [[a r]|] eqn:E; [|discriminate].
  injection 1 as <- <-. apply take_Some in E. destruct E as [-> Hl].
  assert (length a = k) by (unfold blen in Hl; lia).
  split; [subst k; apply unbe_bound|]. rewrite be_unbe by assumption. reflexivity.
Qed.
Lemma read_be_fuel k inp : read_be k inp <> Err EFuel.
Proof. unfold read_be. destruct (take _ inp) as [[? ?]|]; discriminate. Qed.

Lemma lawful_u k : (1 <= k)%nat -> lawful (in_u k) (fun _ => true) (be k) (c_u k).
Proof.
  intros Hk. split; cbn [c_u c_wr c_sz c_rd].
  - reflexivity.
  - unfold write_u. intros t bs _ [= <-]. auto.
  - intros t _. rewrite be_blen. reflexivity.
  - intros t rest Ht _. unfold read_u. rewrite read_be_app.
    + cbn. rewrite be_blen. reflexivity.
    + unfold in_u in Ht. lia.
  - intros inp t n rest H. unfold read_u in H. inv_bind.
    match goal with H : read_be _ _ = _ |- _ => apply read_be_inv in H; destruct H as [H1 ->] end.
    unfold in_u. rewrite be_blen. repeat split; auto. lia.
  - intros t _. rewrite be_blen. lia.
  - intros inp H. unfold read_u in H. apply bind_Err in H.
    destruct H as [H|[[? ?] [_ H]]]; [exact (read_be_fuel _ _ H)|discriminate].
Qed.

Definition spec_buf (w : lenw) (b : buf) : bytes := tls_vec (lw_nat w) (bufbytes b).
Definition fits_buf (w : lenw) (b : buf) : bool := fits_len (lw_nat w) (blen (bufbytes b)).

Lemma lawful_buf w : lawful nonnull (fits_buf w) (spec_buf w) (c_buf w).
Proof.
  split; cbn [c_buf c_wr c_sz c_rd]; unfold spec_buf, fits_buf, tls_vec.
  - intros [d|] Hn Hf; [|discriminate]. cbn [write_buf bufbytes] in *.
    rewrite write_len_ok by exact Hf. reflexivity.
  - intros [d|] bs Hn H; [|discriminate]. cbn [write_buf bufbytes] in *.
    inv_bind.
    match goal with H : write_len _ _ = _ |- _ => apply write_len_inv in H; destruct H as [? ->] end.
    auto.
  - intros [d|] Hn; [|discriminate]. cbn [buf_size bufbytes].
    rewrite blen_app, be_blen. reflexivity.
  - intros [d|] rest Hn Hf; [|discriminate]. cbn [bufbytes] in *.
    unfold read_buf. rewrite <- app_assoc, read_be_app by (unfold fits_len in Hf; lia).
    cbn [bind]. rewrite take_app. rewrite blen_app, be_blen. reflexivity.
  - intros inp t n rest H. unfold read_buf in H. inv_bind.
    match goal with H : read_be _ _ = _ |- _ => apply read_be_inv in H; destruct H as [H1 ->] end.
    destruct (take _ _) as [[d r]|] eqn:Ht; [|discriminate]. inv_bind.
    apply take_Some in Ht. destruct Ht as [-> <-]. cbn [nonnull bufbytes].
    repeat split.
    + unfold fits_len. lia.
    + rewrite <- app_assoc. reflexivity.
    + rewrite blen_app, be_blen. reflexivity.
  - intros t _. rewrite blen_app, be_blen. unfold lw; destruct w; cbn [lw_nat]; lia.
  - intros inp H. unfold read_buf in H. apply bind_Err in H.
    destruct H as [H|[[? ?] [_ H]]]; [exact (read_be_fuel _ _ H)|].
    destruct (take _ _) as [[? ?]|]; discriminate.
Qed.

Lemma lawful_pair {A B} Pa fa sa (a : codec A) Pb fb sb (b : codec B) :
  lawful Pa fa sa a -> lawful Pb fb sb b ->
  lawful (fun p => Pa (fst p) && Pb (snd p))
         (fun p => fa (fst p) && fb (snd p))
         (fun p => sa (fst p) ++ sb (snd p))
         (c_pair a b).
Proof.
  intros La Lb. split; cbn [c_pair c_wr c_sz c_rd].
  - intros [x y] HP Hf; cbn [fst snd] in *. apply andb_true_iff in HP, Hf.
    destruct HP as [P1 P2], Hf as [f1 f2].
    rewrite (law_wr _ _ _ _ La), (law_wr _ _ _ _ Lb) by assumption. reflexivity.
  - intros [x y] bs HP H; cbn [fst snd] in *. apply andb_true_iff in HP.
    destruct HP as [P1 P2]. inv_bind.
    repeat match goal with
    | H : c_wr a _ = _ |- _ => apply (law_wr_inv _ _ _ _ La) in H; [|assumption]; destruct H as [? ->]
    | H : c_wr b _ = _ |- _ => apply (law_wr_inv _ _ _ _ Lb) in H; [|assumption]; destruct H as [? ->]
    end.
    split; [apply andb_true_iff|]; auto.
  - intros [x y] HP; cbn [fst snd] in *. apply andb_true_iff in HP.
    destruct HP as [P1 P2].
    rewrite (law_sz _ _ _ _ La), (law_sz _ _ _ _ Lb) by assumption.
    cbn [bind]. rewrite blen_app. reflexivity.
  - intros [x y] rest HP Hf; cbn [fst snd] in *. apply andb_true_iff in HP, Hf.
    destruct HP as [P1 P2], Hf as [f1 f2].
    rewrite <- app_assoc, (law_rt _ _ _ _ La) by assumption. cbn [bind].
    rewrite (law_rt _ _ _ _ Lb) by assumption. cbn [bind].
    rewrite blen_app. reflexivity.
  - intros inp [x y] n rest H. inv_bind.
    repeat match goal with
    | H : c_rd a _ = _ |- _ => apply (law_canon _ _ _ _ La) in H; destruct H as (? & ? & -> & ->)
    | H : c_rd b _ = _ |- _ => apply (law_canon _ _ _ _ Lb) in H; destruct H as (? & ? & -> & ->)
    end.
    cbn [fst snd]. rewrite !andb_true_iff, blen_app, app_assoc. auto.
  - intros [x y] HP; cbn [fst snd] in *. apply andb_true_iff in HP.
    destruct HP as [P1 P2]. rewrite blen_app.
    pose proof (law_pos _ _ _ _ La x P1). lia.
  - intros inp H. apply bind_Err in H.
    destruct H as [H|[[[? ?] ?] [_ H]]]; [exact (law_fuel _ _ _ _ La _ H)|].
    apply bind_Err in H.
    destruct H as [H|[[[? ?] ?] [_ H]]]; [exact (law_fuel _ _ _ _ Lb _ H)|discriminate].
Qed.

Lemma lawful_iso {A B} (to : A -> B) (from : B -> A) P f s (c : codec A) :
  (forall b, to (from b) = b) -> (forall a, from (to a) = a) ->
  lawful P f s c ->
  lawful (fun b => P (from b)) (fun b => f (from b)) (fun b => s (from b))
         (c_iso to from c).
Proof.
  intros H1 H2 L. split; cbn [c_iso c_wr c_sz c_rd].
  - intros; apply (law_wr _ _ _ _ L); assumption.
  - intros; apply (law_wr_inv _ _ _ _ L); assumption.
  - intros; apply (law_sz _ _ _ _ L); assumption.
  - intros t rest HP Hf. rewrite (law_rt _ _ _ _ L) by assumption.
    cbn [bind]. rewrite H1. reflexivity.
  - intros inp t n rest H. inv_bind. rewrite H2.
    match goal with H : c_rd c _ = _ |- _ => apply (law_canon _ _ _ _ L) in H end.
    assumption.
  - intros; apply (law_pos _ _ _ _ L); assumption.
  - intros inp H. apply bind_Err in H.
    destruct H as [H|[[[? ?] ?] [_ H]]]; [exact (law_fuel _ _ _ _ L _ H)|discriminate].
Qed.

(** Replaces the predicates of a [lawful] by extensionally equal ones. *)
Lemma lawful_ext {T} P P' f f' s s' (c : codec T) :
  (forall t, P t = P' t) -> (forall t, f t = f' t) -> (forall t, s t = s' t) ->
  lawful P f s c -> lawful P' f' s' c.
Proof.
  intros HP Hf Hs L. split.
  - intros t. rewrite <- HP, <- Hf, <- Hs. apply (law_wr _ _ _ _ L).
  - intros t bs. rewrite <- HP, <- Hf, <- Hs. apply (law_wr_inv _ _ _ _ L).
  - intros t. rewrite <- HP, <- Hs. apply (law_sz _ _ _ _ L).
  - intros t rest. rewrite <- HP, <- Hf, <- Hs. apply (law_rt _ _ _ _ L).
  - intros inp t n rest. rewrite <- HP, <- Hf, <- Hs. apply (law_canon _ _ _ _ L).
  - intros t. rewrite <- HP, <- Hs. apply (law_pos _ _ _ _ L).
  - apply (law_fuel _ _ _ _ L).
Qed.

(** ** Vectors *)
Section Vec.
  Context {T : Type} (P f : T -> bool) (s : T -> bytes) (c : codec T).
  Hypothesis L : lawful P f s c.

  Lemma size_all_ok l :
    forallb P l = true -> size_all c l = Ok (blen (concat (map s l))).
  Proof.
    induction l as [|t l IH]; cbn [forallb size_all map concat]; intros H; [reflexivity|].
    apply andb_true_iff in H. destruct H as [H1 H2].
    rewrite (law_sz _ _ _ _ L), IH by assumption. cbn [bind].
    rewrite blen_app. reflexivity.
  Qed.

  Lemma write_all_ok l :
    forallb P l = true -> forallb f l = true ->
    write_all c l = Ok (concat (map s l)).
  Proof.
    induction l as [|t l IH]; cbn [forallb write_all map concat]; intros H Hf; [reflexivity|].
    apply andb_true_iff in H, Hf. destruct H as [H1 H2], Hf as [F1 F2].
    rewrite (law_wr _ _ _ _ L), IH by assumption. reflexivity.
  Qed.

  Lemma write_all_inv l bs :
    forallb P l = true -> write_all c l = Ok bs ->
    forallb f l = true /\ bs = concat (map s l).
  Proof.
    revert bs; induction l as [|t l IH]; cbn [forallb write_all map concat];
      intros bs H Hw.
    - inv_bind. auto.
    - apply andb_true_iff in H. destruct H as [H1 H2]. inv_bind.
      match goal with H : c_wr c t = _ |- _ =>
        apply (law_wr_inv _ _ _ _ L) in H; [|assumption]; destruct H as [? ->] end.
      match goal with H : write_all c l = _ |- _ =>
        apply IH in H; [|assumption]; destruct H as [? ->] end.
      split; [apply andb_true_iff|]; auto.
  Qed.

  Lemma read_loop_ok l : forall fuel consumed rest,
    forallb P l = true -> forallb f l = true ->
    (length l <= fuel)%nat ->
    read_loop c fuel (consumed + blen (concat (map s l))) consumed
              (concat (map s l) ++ rest) = Ok (l, rest).
  Proof.
    induction l as [|t l IH]; intros fuel consumed rest HP Hf Hfuel;
      cbn [map concat forallb] in *.
    - rewrite (@blen_nil byte), N.add_0_r. destruct fuel; cbn [read_loop];
        rewrite N.ltb_irrefl, N.eqb_refl; reflexivity.
    - apply andb_true_iff in HP, Hf. destruct HP as [H1 H2], Hf as [F1 F2].
      cbn [length] in Hfuel. destruct fuel as [|fuel]; [lia|].
      cbn [read_loop]. rewrite blen_app.
      pose proof (law_pos _ _ _ _ L t H1).
      destruct (N.ltb_spec consumed (consumed + (blen (s t) + blen (concat (map s l)))));
        [|lia].
      rewrite <- app_assoc, (law_rt _ _ _ _ L) by assumption. cbn [bind].
      rewrite N.add_assoc. rewrite IH by (assumption || lia). reflexivity.
  Qed.

  Lemma concat_ge l : forallb P l = true -> N.of_nat (length l) <= blen (concat (map s l)).
  Proof.
    induction l as [|t l IH]; cbn [map concat forallb length]; intros H.
    - rewrite (@blen_nil byte). lia.
    - apply andb_true_iff in H. destruct H as [H1 H2]. rewrite blen_app.
      pose proof (law_pos _ _ _ _ L t H1). specialize (IH H2). lia.
  Qed.

  Lemma read_loop_inv fuel : forall len consumed inp l rest,
    read_loop c fuel len consumed inp = Ok (l, rest) ->
    forallb P l = true /\ forallb f l = true /\
    inp = concat (map s l) ++ rest /\ len = consumed + blen (concat (map s l)).
  Proof.
    induction fuel as [|fuel IH]; intros len consumed inp l rest; cbn [read_loop].
    - destruct (N.ltb_spec consumed len); [discriminate|].
      destruct (N.eqb_spec consumed len); [|discriminate].
      injection 1 as <- <-. cbn. rewrite (@blen_nil byte). repeat split. lia.
    - destruct (N.ltb_spec consumed len).
      + intros Hr. inv_bind.
        match goal with H : c_rd c _ = _ |- _ =>
          apply (law_canon _ _ _ _ L) in H; destruct H as (? & ? & -> & ->) end.
        match goal with H : read_loop c fuel _ _ _ = _ |- _ =>
          apply IH in H; destruct H as (? & ? & -> & ->) end.
        cbn [forallb map concat]. rewrite blen_app, !andb_true_iff, app_assoc.
        repeat split; auto. lia.
      + destruct (N.eqb_spec consumed len); [|discriminate].
        injection 1 as <- <-. cbn. rewrite (@blen_nil byte). repeat split. lia.
  Qed.

  Lemma read_loop_fuel fuel : forall len consumed inp,
    len - consumed < N.of_nat fuel \/ blen inp < N.of_nat fuel ->
    read_loop c fuel len consumed inp <> Err EFuel.
  Proof.
    induction fuel as [|fuel IH]; intros len consumed inp Hf; cbn [read_loop].
    - lia.
    - destruct (N.ltb_spec consumed len).
      + intros H1. apply bind_Err in H1.
        destruct H1 as [H1|[[[t n] r] [Hr H1]]]; [exact (law_fuel _ _ _ _ L _ H1)|].
        apply (law_canon _ _ _ _ L) in Hr. destruct Hr as (HP & _ & -> & ->).
        pose proof (law_pos _ _ _ _ L t HP). rewrite blen_app in Hf.
        apply bind_Err in H1. destruct H1 as [H1|[[? ?] [_ H1]]]; [|discriminate].
        eapply IH; [|exact H1]. lia.
      + destruct (N.eqb_spec consumed len); discriminate.
  Qed.

  Lemma lawful_vec w :
    lawful (forallb P)
           (fun l => forallb f l && fits_len (lw_nat w) (blen (concat (map s l))))
           (tls_list (lw_nat w) s)
           (c_vec w c).
  Proof.
    split; cbn [c_vec c_wr c_sz c_rd]; unfold tls_list, tls_vec.
    - intros l HP Hf. apply andb_true_iff in Hf. destruct Hf as [F1 F2].
      unfold write_vec. rewrite size_all_ok by assumption. cbn [bind].
      rewrite write_len_ok by assumption. cbn [bind].
      rewrite write_all_ok by assumption. reflexivity.
    - intros l bs HP H. unfold write_vec in H.
      rewrite size_all_ok in H by assumption. cbn [bind] in H. inv_bind.
      match goal with H : write_len _ _ = _ |- _ => apply write_len_inv in H; destruct H as [? ->] end.
      match goal with H : write_all _ _ = _ |- _ => apply write_all_inv in H; [|assumption]; destruct H as [? ->] end.
      rewrite andb_true_iff. auto.
    - intros l HP. rewrite size_all_ok by assumption. cbn [bind].
      rewrite blen_app, be_blen. reflexivity.
    - intros l rest HP Hf. apply andb_true_iff in Hf. destruct Hf as [F1 F2].
      unfold read_vec. rewrite <- app_assoc, read_be_app by (unfold fits_len in F2; lia).
      cbn [bind]. rewrite blen_app.
      destruct (N.ltb_spec (blen (concat (map s l)) + blen rest) (blen (concat (map s l)))); [lia|].
      rewrite (read_loop_ok l _ 0 rest); try assumption.
      + cbn [bind]. rewrite blen_app, be_blen. f_equal. f_equal. f_equal. unfold lw. lia.
      + pose proof (concat_ge l HP). rewrite app_length. unfold blen in *. lia.
    - intros inp l n rest H. unfold read_vec in H. inv_bind.
      match goal with H : read_be _ _ = _ |- _ => apply read_be_inv in H; destruct H as [H1 ->] end.
      match goal with H : (if blen ?r <? ?m then _ else _) = Ok _ |- _ =>
        destruct (N.ltb_spec (blen r) m); [discriminate|] end. inv_bind.
      match goal with H : read_loop _ _ _ _ _ = _ |- _ => apply read_loop_inv in H; destruct H as (? & ? & -> & ->) end.
      rewrite N.add_0_l in *.
      repeat split.
      + assumption.
      + rewrite andb_true_iff. split; [assumption|]. unfold fits_len. lia.
      + rewrite <- app_assoc. reflexivity.
      + rewrite blen_app, be_blen. unfold lw. lia.
    - intros l _. rewrite blen_app, be_blen. unfold lw; destruct w; cbn [lw_nat]; lia.
    - intros inp H. unfold read_vec in H. apply bind_Err in H.
      destruct H as [H|[[len r] [_ H]]]; [exact (read_be_fuel _ _ H)|].
      destruct (N.ltb_spec (blen r) len); [discriminate|].
      apply bind_Err in H. destruct H as [H|[[? ?] [_ H]]]; [|discriminate].
      eapply read_loop_fuel; [|exact H]. right. unfold blen. lia.
  Qed.
End Vec.
