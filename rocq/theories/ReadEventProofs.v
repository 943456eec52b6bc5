(** * Proofs about readEvent *)
From Verif Require Import Base RecordBase Record RecordProofs RecordSpec RecordRT
  Codec CodecSpec Handshake HandshakeSpec HandshakeProofs ReadEvent.

(** ** Facts about the layer's read *)
Definition lift_r {A} (f : A -> layer) (i : rres A tlsmsg) : rres layer tlsmsg :=
  match i with
  | RNeed s b h => RNeed (f s) b h
  | RMsg s b m => RMsg (f s) b m
  | RErr e => RErr e
  end.
Lemma layer_read_plain p b : layer_read (LPlain p) b = lift_r LPlain (plain_read p b).
Proof.
  unfold layer_read, plain_read, read_of. generalize (S (length b)) as f.
  intros f. revert p b. induction f; intros p b; [reflexivity|]. simpl.
  destruct (plain_iter p b); simpl; auto.
Qed.
Lemma layer_read_enc p b : layer_read (LEnc p) b = lift_r LEnc (enc_read p b).
Proof.
  unfold layer_read, enc_read, read_of. generalize (S (length b)) as f.
  intros f. revert p b. induction f; intros p b; [reflexivity|]. simpl.
  destruct (enc_iter p b); simpl; auto.
Qed.

(** the AEAD does not expand on decryption *)
Definition shrinking (l : layer) : Prop :=
  match l with
  | LPlain _ => True
  | LEnc e => forall c ad n ch, ae_try (es_aead e) c ad n = Ok (Some ch) -> blen (concat ch) <= blen c
  end.

Lemma frame_length ty ver c : length (frame ty ver c) = (5 + length c)%nat.
Proof. unfold frame. rewrite !app_length, !be_length. lia. Qed.

Lemma layer_read_msg_len l b l' b' m : shrinking l -> layer_read l b = RMsg l' b' m ->
  shrinking l' /\ (length (m_frag m) + length b' + 5 <= length b)%nat.
Proof.
  intros Hs H. destruct l as [p|e].
  - rewrite layer_read_plain in H. destruct (plain_read p b) eqn:E; try discriminate.
    injection H as <- <- <-. split; [exact I|].
    apply plain_read_msg_inv in E. destruct E as (dr & ver & -> & _).
    rewrite !app_length, frame_length. lia.
  - rewrite layer_read_enc in H. destruct (enc_read e b) eqn:E; try discriminate.
    injection H as <- <- <-.
    apply enc_read_msg_inv in E.
    destruct E as (dr & r & ch & -> & _ & _ & _ & _ & _ & _ & _ & Ha & Ho & ->).
    split; [exact Hs|]. apply Hs in Ha. apply open_inner_inv in Ho.
    destruct Ho as (_ & _ & pad & Hc). rewrite Hc, inner_len in Ha.
    rewrite !app_length. unfold raw_frame. rewrite frame_length. unfold blen in *. lia.
Qed.

Lemma enc_read_need_aead : forall s b s' b' h, enc_read s b = RNeed s' b' h -> s' = s.
Proof.
  intros s b. unfold enc_read. pattern s, b, (read_of enc_iter s b).
  apply read_of_ind; [apply enc_iter_laws|..]; try discriminate.
  - intros s0 b0 s' b' E IH s1 b1 h H. apply enc_iter_cont_inv in E. destruct E as [-> _]. eauto.
  - intros s0 b0 s' b' h E s1 b1 h1 [= <- <- <-]. unfold enc_iter in E.
    destruct (header b0) as [[[[t v] l] r]|]; [|congruence].
    killb; congruence.
Qed.
Lemma layer_read_need l b l' b' h : shrinking l -> layer_read l b = RNeed l' b' h -> shrinking l'.
Proof.
  intros Hs H. destruct l as [p|e].
  - rewrite layer_read_plain in H. destruct (plain_read p b) eqn:E; try discriminate.
    injection H as <- <- <-. exact I.
  - rewrite layer_read_enc in H. destruct (enc_read e b) eqn:E; try discriminate.
    injection H as <- <- <-. apply enc_read_need_aead in E. subst. exact Hs.
Qed.

(** ** decode_hs *)
Lemma decode_hs_nil : decode_hs [] = Ok None. Proof. reflexivity. Qed.
Lemma decode_hs_some u m o r x : decode_hs u = Ok (Some (m, o, r)) ->
  decode_hs (u ++ x) = Ok (Some (m, o, r ++ x)) /\ u = o ++ r /\ (length r + 4 <= length u)%nat.
Proof.
  unfold decode_hs. destruct u as [|t [|l1 [|l2 [|l3 r0]]]]; try discriminate. cbn [app].
  destruct (_ <? _); [discriminate|]. destruct (take _ r0) as [[body rest]|] eqn:Et; [|discriminate].
  rewrite (proj1 (take_app_r _ _ x _ _ Et)).
  destruct (parse_handshake _ body) as [m0|]; [|discriminate]. cbn [bind].
  intros [= <- <- <-]. split; [reflexivity|]. apply take_Some in Et. destruct Et as [-> _].
  split; [reflexivity|]. cbn [length]. rewrite app_length. lia.
Qed.
Lemma decode_hs_err u e x : decode_hs u = Err e -> decode_hs (u ++ x) = Err e /\ e <> EFuel.
Proof.
  unfold decode_hs. destruct u as [|t [|l1 [|l2 [|l3 r0]]]]; try discriminate. cbn [app].
  destruct (_ <? _); [intros H; split; [exact H|]; injection H as <-; discriminate|].
  destruct (take _ r0) as [[body rest]|] eqn:Et; [|discriminate].
  rewrite (proj1 (take_app_r _ _ x _ _ Et)).
  destruct (parse_handshake _ body) as [m0|] eqn:Ep; [discriminate|]. cbn [bind].
  intros [= <-]. split; [reflexivity|]. intros ->. exact (parse_handshake_fuel _ _ Ep).
Qed.
Lemma read_event_eq s b : read_event s b =
  match decode_hs (ev_unparsed s) with
  | Err e => RErr e
  | Ok (Some (msg, orig, rest)) => RMsg (mkEv rest (ev_layer s)) b (EvHandshake msg orig)
  | Ok None => ev_loop (S (length b)) (ev_unparsed s) (ev_layer s) b
  end.
Proof. destruct s as [[|] l]; reflexivity. Qed.

(** the loop, unfolded; the budget never runs out *)
Lemma ev_loop_fuel : forall f1 f2 u l b, shrinking l -> (length b < f1)%nat -> (length b < f2)%nat ->
  ev_loop f1 u l b = ev_loop f2 u l b.
Proof.
  induction f1; intros f2 u l b Hs H1 H2; [lia|]. destruct f2; [lia|]. cbn [ev_loop].
  destruct (layer_read l b) eqn:E; try reflexivity.
  destruct (layer_read_msg_len _ _ _ _ _ Hs E) as [Hs' Hl].
  destruct (_ && _); [reflexivity|]. destruct (m_type m =? ct_alert); [reflexivity|].
  destruct (m_type m =? ct_handshake); [|reflexivity].
  destruct (decode_hs _) as [[[[? ?] ?]|]|]; try reflexivity. apply IHf1; [assumption|lia|lia].
Qed.

Lemma read_event_handshake u l b l1 b1 fr : shrinking l -> decode_hs u = Ok None ->
  layer_read l b = RMsg l1 b1 (mkMsg ct_handshake fr) ->
  read_event (mkEv u l) b = read_event (mkEv (u ++ fr) l1) b1.
Proof.
  intros Hs Hu Hr. rewrite !read_event_eq. cbn [ev_unparsed ev_layer]. rewrite Hu.
  assert (Hf : forall x, ev_loop (S (length b1)) (u ++ fr) l1 b1 = x ->
               ev_loop (length b) (u ++ fr) l1 b1 = x).
  { intros x <-. destruct (layer_read_msg_len _ _ _ _ _ Hs Hr) as [Hs' Hl].
    apply ev_loop_fuel; [assumption|lia|lia]. }
  revert Hf. generalize (ev_loop (S (length b1)) (u ++ fr) l1 b1) as R. intros R Hf.
  cbn [ev_loop]. rewrite Hr. cbn [m_type m_frag]. rewrite andb_false_r.
  change (ct_handshake =? ct_alert) with false. change (ct_handshake =? ct_handshake) with true.
  cbv iota.
  destruct (decode_hs (u ++ fr)) as [[[[? ?] ?]|]|]; try reflexivity.
  apply Hf. reflexivity.
Qed.

(** ** Chunk independence of readEvent *)
Definition ev_inv (s : evstate) : Prop := shrinking (ev_layer s).
Definition ev_mu (s : evstate) (b : bytes) : nat := (length (ev_unparsed s) + length b)%nat.
(** everything but the bytes that happened to be queued behind a close_notify *)
Definition ev_view (e : event) : event := match e with EvClose _ => EvClose [] | _ => e end.
Definition ev_term (e : event) : bool := match e with EvClose _ => true | _ => false end.

Lemma decode_alert_no_fuel b : decode_all decode_alert b <> Err EFuel.
Proof.
  unfold decode_all, decode_alert, read_u, read_be.
  destruct (take _ b) as [[? ?]|]; cbn [bind]; [|discriminate].
  destruct (take _ l0) as [[? ?]|]; cbn [bind]; [|discriminate]. destruct l2; discriminate.
Qed.

(** all laws at once, by induction on the queue *)
Lemma read_event_laws_aux : forall n u l b, (length b <= n)%nat -> shrinking l -> decode_hs u = Ok None ->
  let s := mkEv u l in
  match read_event s b with
  | RMsg s' b' m => ev_inv s' /\ (ev_mu s' b' < ev_mu s b)%nat /\
      (ev_term m = false -> forall x, read_event s (b ++ x) = RMsg s' (b' ++ x) m) /\
      (ev_term m = true -> forall x, exists s2 b2 m2, read_event s (b ++ x) = RMsg s2 b2 m2 /\
         ev_view m2 = ev_view m /\ ev_term m2 = true)
  | RErr e => e <> EFuel /\ forall x, read_event s (b ++ x) = RErr e
  | RNeed s' b' h => ev_inv s' /\ 0 < h /\ (ev_mu s' b' <= ev_mu s b)%nat /\
      (forall x, read_event s (b ++ x) = read_event s' (b' ++ x)) /\
      (forall x, blen x < h -> read_event s (b ++ x) = RNeed s' (b' ++ x) (h - blen x))
  end.
Proof.
  induction n as [n IHn] using lt_wf_ind. intros u l b Hn Hs Hu s.
  assert (Hev : forall x, read_event s (b ++ x) = ev_loop (S (length (b ++ x))) u l (b ++ x)).
  { intros x. unfold s. rewrite read_event_eq. cbn [ev_unparsed ev_layer]. rewrite Hu. reflexivity. }
  destruct (layer_read l b) as [l' b' h|l' b' m|e] eqn:Er.
  - (* need *)
    pose proof (rl_need _ _ _ _ _ layer_laws _ _ _ _ _ I Er) as (_ & Hh & Hm & Hc & Hx).
    assert (Hr : read_event s b = RNeed (mkEv u l') b' h).
    { rewrite <- (app_nil_r b), Hev, app_nil_r. cbn [ev_loop]. rewrite Er. reflexivity. }
    pose proof (layer_read_need _ _ _ _ _ Hs Er) as Hs'.
    rewrite Hr. split; [exact Hs'|]. split; [assumption|]. split; [unfold ev_mu; simpl; lia|]. split.
    + intros x. rewrite Hev, read_event_eq. cbn [ev_unparsed ev_layer]. rewrite Hu.
      cbn [ev_loop]. rewrite Hc. destruct (layer_read l' (b' ++ x)) as [| |] eqn:E2; try reflexivity.
      destruct (layer_read_msg_len _ _ _ _ _ Hs' E2) as [Hs2 Hl2].
      destruct (_ && _); [reflexivity|]. destruct (m_type m =? ct_alert); [reflexivity|].
      destruct (m_type m =? ct_handshake); [|reflexivity].
      destruct (decode_hs (u ++ m_frag m)) as [[[[? ?] ?]|]|]; try reflexivity.
      apply ev_loop_fuel; [assumption| |lia]. rewrite !app_length in *. lia.
    + intros x Hlx. rewrite Hev. cbn [ev_loop]. rewrite Hx by assumption. reflexivity.
  - (* record *)
    pose proof (rl_msg _ _ _ _ _ layer_laws _ _ _ _ _ I Er) as (_ & Hm & Hst & _).
    specialize (Hst eq_refl).
    destruct (layer_read_msg_len _ _ _ _ _ Hs Er) as [Hs' Hl].
    destruct (N.eqb_spec (m_type m) ct_handshake) as [Eh|Eh].
    + (* handshake *)
      assert (Em : m = mkMsg ct_handshake (m_frag m)) by (destruct m; cbn in *; subst; reflexivity).
      assert (Hgo : forall x, read_event s (b ++ x) = read_event (mkEv (u ++ m_frag m) l') (b' ++ x)).
      { intros x. apply read_event_handshake; [assumption|assumption|]. rewrite Hst, <- Em. reflexivity. }
      assert (Hgo0 := Hgo []). rewrite !app_nil_r in Hgo0. rewrite Hgo0.
      assert (Hmu : (ev_mu (mkEv (u ++ m_frag m) l') b' <= ev_mu s b)%nat).
      { unfold ev_mu, s. cbn [ev_unparsed]. rewrite app_length. lia. }
      destruct (decode_hs (u ++ m_frag m)) as [[[[msg o] r]|]|e] eqn:Ed.
      * rewrite read_event_eq. cbn [ev_unparsed ev_layer]. rewrite Ed. cbn [ev_term].
        split; [exact Hs'|]. destruct (decode_hs_some _ _ _ _ [] Ed) as (_ & _ & Hl3).
        split; [unfold ev_mu in *; cbn [ev_unparsed] in *; lia|]. split; [|discriminate].
        intros _ x. rewrite Hgo, read_event_eq. cbn [ev_unparsed ev_layer]. rewrite Ed. reflexivity.
      * specialize (IHn (length b') ltac:(lia) (u ++ m_frag m) l' b' ltac:(lia) Hs' Ed). cbv zeta in IHn.
        destruct (read_event (mkEv (u ++ m_frag m) l') b') as [s2 b2 h2|s2 b2 m2|e2].
        -- destruct IHn as (I1 & I2 & I3 & I4 & I5). split; [assumption|]. split; [assumption|].
           split; [lia|]. split; intros x; [rewrite Hgo; apply I4|intros Hx; rewrite Hgo; apply I5; assumption].
        -- destruct IHn as (I1 & I2 & I3 & I4). split; [assumption|]. split; [lia|].
           split; intros T x; rewrite Hgo; [apply I3; assumption|apply I4; assumption].
        -- destruct IHn as (I1 & I2). split; [assumption|]. intros x. rewrite Hgo. apply I2.
      * rewrite read_event_eq. cbn [ev_unparsed ev_layer]. rewrite Ed.
        split; [apply (decode_hs_err _ _ [] Ed)|].
        intros x. rewrite Hgo, read_event_eq. cbn [ev_unparsed ev_layer]. rewrite Ed. reflexivity.
    + (* anything else: decided by this record *)
      assert (Hr : forall x, read_event s (b ++ x) =
        if match u with [] => false | _ => true end then RErr (EStatus None)
        else if m_type m =? ct_alert then
            match decode_all decode_alert (m_frag m) with
            | Err e => RErr e
            | Ok a => if al_description a =? 0 then RMsg (mkEv u l') [] (EvClose (b' ++ x))
                      else RMsg (mkEv u l') (b' ++ x) (EvAlert a)
            end
        else if m_type m =? ct_appdata then RMsg (mkEv u l') (b' ++ x) (EvAppData (m_frag m))
        else RErr (EStatus None)).
      { intros x. rewrite Hev. cbn [ev_loop]. rewrite Hst.
        destruct (N.eqb_spec (m_type m) ct_handshake); [congruence|]. cbn [negb]. rewrite andb_true_r.
        reflexivity. }
      assert (Hr0 := Hr []). rewrite !app_nil_r in Hr0. rewrite Hr0.
      destruct u as [|u0 u1].
      * destruct (m_type m =? ct_alert).
        -- destruct (decode_all decode_alert (m_frag m)) as [a|e] eqn:Ea.
           ++ destruct (al_description a =? 0).
              ** cbn [ev_term]. split; [exact Hs'|]. unfold ev_mu. cbn [ev_unparsed s].
                 split; [simpl; lia|]. split; [discriminate|].
                 intros _ x. rewrite Hr. eexists _, _, _. split; [reflexivity|]. split; reflexivity.
              ** cbn [ev_term]. split; [exact Hs'|]. split; [unfold ev_mu; simpl; lia|].
                 split; [|discriminate]. intros _ x. rewrite Hr. reflexivity.
           ++ split; [intros ->; exact (decode_alert_no_fuel _ Ea)|]. intros x. rewrite Hr. reflexivity.
        -- destruct (m_type m =? ct_appdata).
           ++ cbn [ev_term]. split; [exact Hs'|]. split; [unfold ev_mu; simpl; lia|].
              split; [|discriminate]. intros _ x. rewrite Hr. reflexivity.
           ++ split; [discriminate|]. intros x. rewrite Hr. reflexivity.
      * split; [discriminate|]. intros x. rewrite Hr. reflexivity.
  - pose proof (rl_err _ _ _ _ _ layer_laws _ _ _ I Er) as (Hf & Hst).
    assert (Hr0 := Hev []). rewrite app_nil_r in Hr0. rewrite Hr0. cbn [ev_loop]. rewrite Er.
    split; [assumption|]. intros x. rewrite Hev. cbn [ev_loop]. rewrite Hst. reflexivity.
Qed.

Lemma read_event_laws : read_laws read_event ev_mu ev_inv ev_view ev_term.
Proof.
  assert (K : forall s b, ev_inv s ->
  match read_event s b with
  | RMsg s' b' m => ev_inv s' /\ (ev_mu s' b' < ev_mu s b)%nat /\
      (ev_term m = false -> forall x, read_event s (b ++ x) = RMsg s' (b' ++ x) m) /\
      (ev_term m = true -> forall x, exists s2 b2 m2, read_event s (b ++ x) = RMsg s2 b2 m2 /\
         ev_view m2 = ev_view m /\ ev_term m2 = true)
  | RErr e => e <> EFuel /\ forall x, read_event s (b ++ x) = RErr e
  | RNeed s' b' h => ev_inv s' /\ 0 < h /\ (ev_mu s' b' <= ev_mu s b)%nat /\
      (forall x, read_event s (b ++ x) = read_event s' (b' ++ x)) /\
      (forall x, blen x < h -> read_event s (b ++ x) = RNeed s' (b' ++ x) (h - blen x))
  end).
  { intros [u l] b Hi. destruct (decode_hs u) as [[[[m o] r]|]|e] eqn:Ed.
    - rewrite read_event_eq. cbn [ev_unparsed ev_layer]. rewrite Ed. cbn [ev_term].
      split; [exact Hi|]. destruct (decode_hs_some _ _ _ _ [] Ed) as (_ & _ & Hl).
      split; [unfold ev_mu; cbn [ev_unparsed]; lia|]. split; [|discriminate].
      intros _ x. rewrite read_event_eq. cbn [ev_unparsed ev_layer]. rewrite Ed. reflexivity.
    - apply (read_event_laws_aux (length b)); [lia|exact Hi|exact Ed].
    - rewrite read_event_eq. cbn [ev_unparsed ev_layer]. rewrite Ed.
      split; [apply (decode_hs_err _ _ [] Ed)|].
      intros x. rewrite read_event_eq. cbn [ev_unparsed ev_layer]. rewrite Ed. reflexivity. }
  constructor; intros s b.
  - intros s' b' m Hi E. specialize (K s b Hi). rewrite E in K. exact K.
  - intros e Hi E. specialize (K s b Hi). rewrite E in K. exact K.
  - intros s' b' h Hi E. specialize (K s b Hi). rewrite E in K. exact K.
Qed.

(** ** Reassembly depends only on the concatenation *)
Definition rec_drain (l : layer) (b : bytes) : list tlsmsg * outcome layer :=
  drain layer_read (fun _ b => length b) (fun m => m) (fun _ => false) (fun _ s => s) l b.
Definition ev_drain (s : evstate) (b : bytes) : list event * outcome evstate :=
  drain read_event ev_mu ev_view ev_term (fun _ s => s) s b.

Lemma ev_drain_step s b : ev_inv s -> ev_drain s b =
  match read_event s b with
  | RNeed s' b' _ => ([], More s' b')
  | RErr e => ([], Failed e)
  | RMsg s' b' m => if ev_term m then ([ev_view m], Closed)
                    else let '(ms, o) := ev_drain s' b' in (ev_view m :: ms, o)
  end.
Proof.
  intros Hi. unfold ev_drain. rewrite (drain_step _ _ _ _ _ _ read_event_laws); [reflexivity|intros; lia|auto|exact Hi].
Qed.
Lemma rec_drain_step l b : rec_drain l b =
  match layer_read l b with
  | RNeed s' b' _ => ([], More s' b')
  | RErr e => ([], Failed e)
  | RMsg s' b' m => let '(ms, o) := rec_drain s' b' in (m :: ms, o)
  end.
Proof.
  unfold rec_drain. rewrite (drain_step _ _ _ _ _ _ layer_laws); [reflexivity|intros; lia|auto|exact I].
Qed.

(** decoding a flat handshake byte stream *)
Fixpoint hs_run_f (fuel : nat) (u : bytes) : list event * (bytes + err) :=
  match fuel with
  | O => ([], inr EFuel)
  | S f => match decode_hs u with
           | Err e => ([], inr e)
           | Ok None => ([], inl u)
           | Ok (Some (m, o, r)) =>
               let '(evs, x) := hs_run_f f r in (EvHandshake m o :: evs, x)
           end
  end.
Definition hs_run (u : bytes) := hs_run_f (S (length u)) u.
Lemma hs_run_fuel : forall f1 f2 u, (length u < f1)%nat -> (length u < f2)%nat ->
  hs_run_f f1 u = hs_run_f f2 u.
Proof.
  induction f1; intros f2 u H1 H2; [lia|]. destruct f2; [lia|]. cbn [hs_run_f].
  destruct (decode_hs u) as [[[[m o] r]|]|] eqn:E; try reflexivity.
  destruct (decode_hs_some _ _ _ _ [] E) as (_ & _ & Hl). rewrite (IHf1 f2); [reflexivity|lia|lia].
Qed.
Lemma hs_run_step u : hs_run u =
  match decode_hs u with
  | Err e => ([], inr e)
  | Ok None => ([], inl u)
  | Ok (Some (m, o, r)) => let '(evs, x) := hs_run r in (EvHandshake m o :: evs, x)
  end.
Proof.
  unfold hs_run at 1. cbn [hs_run_f]. destruct (decode_hs u) as [[[[m o] r]|]|] eqn:E; try reflexivity.
  destruct (decode_hs_some _ _ _ _ [] E) as (_ & _ & Hl).
  rewrite (hs_run_fuel _ (S (length r))); [reflexivity|lia|lia].
Qed.

Definition fin (l : layer) (b : bytes) (x : bytes + err) : outcome evstate :=
  match x with inl r => More (mkEv r l) b | inr e => Failed e end.

Lemma ev_drain_handshakes : forall ms l b l' b' u, shrinking l ->
  rec_drain l b = (ms, More l' b') ->
  Forall (fun m => m_type m = ct_handshake) ms ->
  ev_drain (mkEv u l) b =
  let '(evs, x) := hs_run (u ++ concat (map m_frag ms)) in (evs, fin l' b' x).
Proof.
  intros ms. remember (length ms) as k eqn:Ek. revert ms Ek.
  induction k as [|k IHk]; intros ms Ek l b l' b' u Hs Hd HF;
  (remember (length u) as n eqn:En; revert u En; induction n as [n IHn] using lt_wf_ind; intros u En).
  all: rewrite hs_run_step, ev_drain_step by exact Hs; rewrite read_event_eq;
       cbn [ev_unparsed ev_layer];
       destruct (decode_hs u) as [[[[m o] r]|]|e] eqn:Ed;
       [ (* a complete message is already buffered *)
         destruct (decode_hs_some _ _ _ _ (concat (map m_frag ms)) Ed) as (-> & _ & Hl);
         cbn [ev_term ev_view]; rewrite (IHn (length r)) by (lia || reflexivity);
         destruct (hs_run (r ++ concat (map m_frag ms))); reflexivity
       | | rewrite (proj1 (decode_hs_err _ _ (concat (map m_frag ms)) Ed)); reflexivity ].
  - destruct ms; [|discriminate]. cbn [map concat]. rewrite app_nil_r, Ed.
    rewrite rec_drain_step in Hd. cbn [ev_loop].
    destruct (layer_read l b) eqn:Er; try discriminate.
    + injection Hd as <- <-. reflexivity.
    + destruct (rec_drain s b0); discriminate.
  - destruct ms as [|m ms]; [discriminate|]. cbn [length] in Ek.
    rewrite rec_drain_step in Hd. destruct (layer_read l b) as [|l1 b1 m1|] eqn:Er; try discriminate.
    destruct (rec_drain l1 b1) as [ms1 o1] eqn:E1. injection Hd as -> -> ->.
    inversion HF as [|? ? Hm HF']; subst.
    destruct (layer_read_msg_len _ _ _ _ _ Hs Er) as [Hs1 _].
    assert (Em : m = mkMsg ct_handshake (m_frag m)) by (destruct m; cbn in *; subst; reflexivity).
    rewrite Em in Er.
    pose proof (read_event_handshake u l b l1 b1 (m_frag m) Hs Ed Er) as Hgo.
    rewrite read_event_eq in Hgo. cbn [ev_unparsed ev_layer] in Hgo. rewrite Ed in Hgo.
    rewrite Hgo. cbn [map concat].
    pose proof (IHk ms ltac:(lia) l1 b1 l' b' (u ++ m_frag m) Hs1 E1 HF') as IH.
    rewrite ev_drain_step in IH by exact Hs1. rewrite IH.
    rewrite <- app_assoc. rewrite <- hs_run_step. reflexivity.
Qed.

(** ** A well-formed stream of messages *)
Lemma decode_hs_enc m bs x : wf_msg m = true -> receivable m = true ->
  encodeHandshake m = Ok bs -> blen bs <= 131072 + 4 ->
  decode_hs (bs ++ x) = Ok (Some (m, bs, x)).
Proof.
  intros Hwf Hr He Hl. apply encodeHandshake_iff in He; [|assumption].
  destruct He as [Hf ->]. unfold fit_msg in Hf. apply andb_true_iff in Hf.
  unfold w_msg, tls_vec in Hl |- *. set (body := w_body m) in *.
  assert (Hp : parse_handshake (hs_type m) body = Ok m) by (apply parse_ok; tauto).
  rewrite !blen_app, !be_blen in Hl.
  assert (Hty : hs_type m < 256) by (destruct m; vm_compute; reflexivity).
  assert (Hu : unbe (be 3 (blen body)) = blen body) by (apply unbe_be; simpl; lia).
  change (be 3 (blen body)) with [n2b (blen body / 256 / 256); n2b (blen body / 256); n2b (blen body)] in *.
  rewrite be1. rewrite <- !app_assoc. cbn [app decode_hs]. rewrite Hu.
  unfold kMaxHandshakeSize. destruct (N.ltb_spec 131072 (blen body)); [lia|].
  rewrite take_app, b2n_n2b, Hp by assumption. reflexivity.
Qed.

Lemma hs_run_stream : forall ms encs,
  Forall2 (fun m bs => wf_msg m = true /\ receivable m = true /\ encodeHandshake m = Ok bs /\
                       blen bs <= 131072 + 4) ms encs ->
  hs_run (concat encs) = (map (fun mb => EvHandshake (fst mb) (snd mb)) (combine ms encs), inl []).
Proof.
  intros ms encs H. induction H as [|m bs ms encs (H1 & H2 & H3 & H4) H IH]; [reflexivity|].
  cbn [concat]. rewrite hs_run_step, (decode_hs_enc m) by assumption. rewrite IH. reflexivity.
Qed.

(** plaintext records carrying handshake bytes *)
Lemma rec_drain_plain p b : rec_drain (LPlain p) b =
  (fst (plain_drain p b),
   match snd (plain_drain p b) with More s b' => More (LPlain s) b' | Failed e => Failed e | Closed => Closed end).
Proof.
  remember (length b) as n eqn:En. revert p b En. induction n as [n IH] using lt_wf_ind. intros p b En.
  rewrite rec_drain_step, plain_drain_step, layer_read_plain.
  destruct (plain_read p b) as [| |] eqn:E; cbn [lift_r]; try reflexivity.
  pose proof (rl_msg _ _ _ _ _ plain_laws _ _ _ _ _ I E) as (_ & Hl & _).
  rewrite (IH (length b0)) by (lia || reflexivity). destruct (plain_drain s b0) as [ms o].
  reflexivity.
Qed.
Lemma rec_drain_enc p b : rec_drain (LEnc p) b =
  (fst (enc_drain p b),
   match snd (enc_drain p b) with More s b' => More (LEnc s) b' | Failed e => Failed e | Closed => Closed end).
Proof.
  remember (length b) as n eqn:En. revert p b En. induction n as [n IH] using lt_wf_ind. intros p b En.
  rewrite rec_drain_step, enc_drain_step, layer_read_enc.
  destruct (enc_read p b) as [| |] eqn:E; cbn [lift_r]; try reflexivity.
  pose proof (rl_msg _ _ _ _ _ enc_laws _ _ _ _ _ I E) as (_ & Hl & _).
  rewrite (IH (length b0)) by (lia || reflexivity). destruct (enc_drain s b0) as [ms o].
  reflexivity.
Qed.

(** ** Needing more data *)
Definition waiting (b : bytes) (h : N) : Prop :=
  (blen b < 5 /\ h = 5 - blen b) \/
  exists ty ver len part, b = be 1 ty ++ be 2 ver ++ be 2 len ++ part /\
     blen part < len /\ len < 65536 /\ h = len - blen part.

Lemma waiting_of b t v l r : header b = Some (t, v, l, r) -> take l r = None ->
  waiting b (5 + l - blen b).
Proof.
  intros Hh Ht. right. apply take_None in Ht.
  destruct (header_app b [] _ _ _ _ Hh) as (_ & Hb & _ & _).
  apply header_inv in Hh. destruct Hh as (H1 & H2 & H3 & H4).
  exists t, v, l, r. repeat split; [assumption|assumption|assumption|lia].
Qed.
Lemma layer_iter_need s b s' b' h : layer_iter s b = INeed s' b' h -> b' = b /\ waiting b h.
Proof.
  destruct s as [p|e]; cbn [layer_iter].
  - destruct (plain_iter p b) eqn:E; try discriminate. intros [= <- <- <-].
    unfold plain_iter in E. destruct (header b) as [[[[t v] l] r]|] eqn:Hh.
    + destruct (take l r) as [[? ?]|] eqn:Ht; [killb; discriminate|].
      pose proof (waiting_of _ _ _ _ _ Hh Ht). killb; injection E as <- <- <-; auto.
    + injection E as <- <- <-. split; [reflexivity|]. left. split; [apply header_none; assumption|reflexivity].
  - destruct (enc_iter e b) eqn:E; try discriminate. intros [= <- <- <-].
    unfold enc_iter in E. destruct (header b) as [[[[t v] l] r]|] eqn:Hh.
    + destruct (take l r) as [[? ?]|] eqn:Ht; [killb; discriminate|].
      pose proof (waiting_of _ _ _ _ _ Hh Ht). killb; injection E as <- <- <-; auto.
    + injection E as <- <- <-. split; [reflexivity|]. left. split; [apply header_none; assumption|reflexivity].
Qed.
Lemma layer_iter_cont s b s' b' : layer_iter s b = ICont s' b' -> exists d, raw_ok d /\ b = raw_frame d ++ b'.
Proof.
  destruct s as [p|e]; cbn [layer_iter].
  - destruct (plain_iter p b) eqn:E; try discriminate. intros [= <- <-].
    unfold plain_iter in E. destruct (header b) as [[[[t v] l] r]|] eqn:Hh; [|discriminate].
    destruct (take l r) as [[c r']|] eqn:Ht; [|killb; discriminate].
    destruct (header_take_inv _ _ _ _ _ _ _ Hh Ht) as (H1 & H2 & H3 & H4 & H5).
    exists (mkRaw t v c). split; [repeat split; assumption|]. killb; injection E as <- <-; assumption.
  - destruct (enc_iter e b) eqn:E; try discriminate. intros [= <- <-].
    apply enc_iter_cont_inv in E. destruct E as (_ & r & H1 & H2 & _). eauto.
Qed.
Lemma layer_read_need_inv : forall s b s' b' h, layer_read s b = RNeed s' b' h ->
  waiting b' h /\ exists dropped, Forall raw_ok dropped /\ b = concat (map raw_frame dropped) ++ b'.
Proof.
  intros s b. unfold layer_read. pattern s, b, (read_of layer_iter s b).
  apply read_of_ind; [apply layer_iter_laws|..]; try discriminate.
  - intros s0 b0 s' b' E IH s1 b1 h H. apply layer_iter_cont in E. destruct E as (d & Hd & ->).
    destruct (IH _ _ _ H) as (Hw & dr & Hdr & ->). split; [assumption|].
    exists (d :: dr). split; [constructor; assumption|]. cbn [map concat]. rewrite <- app_assoc. reflexivity.
  - intros s0 b0 s' b' h E s1 b1 h1 [= <- <- <-]. apply layer_iter_need in E. destruct E as [-> E].
    split; [assumption|]. exists []. split; [constructor|reflexivity].
Qed.
