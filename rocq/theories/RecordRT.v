(** * Round-trip and structure proofs for the record layers *)
From Verif Require Import Base RecordBase Record RecordProofs RecordSpec.

(** ** Frames *)
Lemma be1 n : be 1 n = [n2b n].
Proof. reflexivity. Qed.
Lemma be2 n : be 2 n = [n2b (n / 256); n2b n].
Proof. reflexivity. Qed.

Lemma header_frame ty ver c x : ty < 256 -> ver < 65536 -> blen c < 65536 ->
  header (frame ty ver c ++ x) = Some (ty, ver, blen c, c ++ x).
Proof.
  intros H1 H2 H3. unfold frame.
  assert (Hv : unbe (be 2 ver) = ver) by (apply unbe_be; exact H2).
  assert (Hl : unbe (be 2 (blen c)) = blen c) by (apply unbe_be; exact H3).
  rewrite !be2 in *. rewrite be1. rewrite <- !app_assoc. cbn [app header].
  rewrite Hv, Hl, b2n_n2b by assumption. reflexivity.
Qed.

Lemma frame_head ty ver c x : takeN 5 (frame ty ver c ++ x) = be 1 ty ++ be 2 ver ++ be 2 (blen c).
Proof. reflexivity. Qed.

Lemma frame_inj t v c x t' v' c' x' :
  t < 256 -> v < 65536 -> blen c < 65536 -> t' < 256 -> v' < 65536 -> blen c' < 65536 ->
  frame t v c ++ x = frame t' v' c' ++ x' -> t = t' /\ v = v' /\ c = c' /\ x = x'.
Proof.
  intros H1 H2 H3 H4 H5 H6 E.
  assert (K : header (frame t v c ++ x) = header (frame t' v' c' ++ x')) by (rewrite E; reflexivity).
  rewrite !header_frame in K by assumption. injection K as -> -> Hl Hc.
  apply app_inj_len in Hc; [tauto|]. exact Hl.
Qed.

(** every buffer with a complete record starts with a frame *)
Lemma header_inv b t v l r : header b = Some (t, v, l, r) ->
  t < 256 /\ v < 65536 /\ l < 65536 /\
  b = be 1 t ++ be 2 v ++ be 2 l ++ r.
Proof.
  unfold header. destruct b as [|b0 [|b1 [|b2 [|b3 [|b4 r']]]]]; try discriminate.
  intros [= <- <- <- <-].
  pose proof (unbe_bound [b1; b2]). pose proof (unbe_bound [b3; b4]).
  repeat split.
  - apply b2n_bound.
  - assumption.
  - assumption.
  - rewrite !be_unbe by reflexivity. rewrite be1, n2b_b2n. reflexivity.
Qed.

Lemma header_take_inv b t v l r c r' : header b = Some (t, v, l, r) -> take l r = Some (c, r') ->
  t < 256 /\ v < 65536 /\ blen c < 65536 /\ l = blen c /\ b = frame t v c ++ r'.
Proof.
  intros H Ht. apply header_inv in H. destruct H as (H1 & H2 & H3 & ->).
  apply take_Some in Ht. destruct Ht as [-> <-].
  repeat split; assumption.
Qed.

(** ** Plaintext *)
Lemma plain_read_frame s ty ver f x :
  ty = ct_handshake \/ ty = ct_alert -> ver < 65536 -> 0 < blen f -> blen f <= 16384 ->
  plain_read s (frame ty ver f ++ x) = RMsg (mkP false (Some ver)) x (mkMsg ty f).
Proof.
  intros Hty Hv H0 Hmax. unfold plain_read. rewrite (read_of_step _ plain_iter_laws).
  unfold plain_iter. rewrite header_frame; [|destruct Hty; subst; vm_compute; reflexivity|assumption|lia].
  replace (ps_skip s && (ty =? ct_appdata)) with false
    by (destruct Hty as [-> | ->]; rewrite andb_comm; reflexivity).
  replace (negb ((ty =? ct_handshake) || (ty =? ct_alert) || (ty =? ct_ccs))) with false
    by (destruct Hty as [-> | ->]; reflexivity).
  unfold kMaxPlaintextRecordSize.
  destruct (N.ltb_spec 16384 (blen f)); [lia|].
  destruct (N.eqb_spec (blen f) 0); [lia|].
  rewrite take_app.
  replace (ty =? ct_ccs) with false by (destruct Hty as [-> | ->]; reflexivity).
  cbn [negb]. rewrite andb_true_r. destruct (ps_skip s); reflexivity.
Qed.

Lemma plain_drain_step s b : plain_drain s b =
  match plain_read s b with
  | RNeed s' b' _ => ([], More s' b')
  | RErr e => ([], Failed e)
  | RMsg s' b' m => let '(ms, o) := plain_drain s' b' in (m :: ms, o)
  end.
Proof.
  unfold plain_drain. rewrite (drain_step _ _ _ _ _ _ plain_laws); [|intros; lia|auto|exact I].
  reflexivity.
Qed.

Lemma plain_drain_frames ty ver : ty = ct_handshake \/ ty = ct_alert -> ver < 65536 ->
  forall fs s x, Forall (fun f => 0 < blen f /\ blen f <= 16384) fs ->
  fs <> [] ->
  plain_drain s (concat (map (frame ty ver) fs) ++ x) =
  let '(ms, o) := plain_drain (mkP false (Some ver)) x in (map (mkMsg ty) fs ++ ms, o).
Proof.
  intros Hty Hv. induction fs as [|f fs IH]; intros s x HF Hne; [congruence|].
  inversion HF as [|? ? [Hf1 Hf2] HF']; subst. cbn [map concat]. rewrite <- app_assoc.
  rewrite plain_drain_step, plain_read_frame by assumption.
  destruct fs as [|f2 fs].
  - cbn [map concat app]. destruct (plain_drain _ x). reflexivity.
  - rewrite IH by (assumption || discriminate).
    destruct (plain_drain _ x). reflexivity.
Qed.

(** the fragments written *)
Fixpoint frags (fuel : nat) (n : N) (p : bytes) : list bytes :=
  match fuel, p with
  | _, [] => []
  | O, _ => []
  | S f, _ => takeN n p :: frags f n (dropN n p)
  end.

Lemma plain_frags_map ty ver : forall f p,
  plain_frags f ty ver p = concat (map (frame ty ver) (frags f 16384 p)).
Proof.
  induction f; intros p; destruct p; try reflexivity.
  cbn [plain_frags frags map concat]. unfold frame at 1. rewrite IHf, <- !app_assoc. reflexivity.
Qed.

Lemma frags_cuts n : 0 < n -> forall f p, (length p <= f)%nat -> cuts n p (frags f n p).
Proof.
  intros Hn. induction f; intros p Hl; destruct p as [|b p].
  - repeat split; [constructor|]. intros pre l E. destruct pre; discriminate.
  - simpl in Hl. lia.
  - repeat split; [constructor|]. intros pre l E. destruct pre; discriminate.
  - cbn [frags]. set (q := b :: p) in *.
    assert (Hq : 0 < blen q) by (unfold q; rewrite blen_cons; lia).
    destruct (IHf (dropN n q)) as (H1 & H2 & H3).
    { unfold dropN. rewrite skipn_length. unfold q in *. cbn [length] in *. lia. }
    split; [|split].
    + cbn [concat]. rewrite H1. apply takeN_dropN.
    + constructor; [|assumption]. rewrite blen_takeN. lia.
    + intros pre l E. destruct pre as [|f0 pre].
      * constructor.
      * cbn [app] in E. injection E as E0 E1. constructor; [|eapply H3; eassumption].
        rewrite <- E0, blen_takeN.
        (* the rest is non-empty, so the first piece is full *)
        assert (0 < blen (dropN n q)).
        { rewrite <- H1, E1. rewrite concat_app, blen_app. cbn [concat].
          rewrite app_nil_r. rewrite E1 in H2. apply Forall_app in H2. destruct H2 as [_ H2].
          inversion H2; subst. lia. }
        rewrite blen_dropN in H. lia.
Qed.

Definition obytes (o : option bytes) : bytes := match o with Some b => b | None => [] end.

Lemma plain_write_spec m ver o : plain_write_ver m ver = Ok o ->
  m_type m <> ct_appdata /\
  exists fs, cuts 16384 (m_frag m) fs /\ obytes o = concat (map (frame (m_type m) ver) fs) /\
             (o = None <-> m_frag m = []).
Proof.
  unfold plain_write_ver. destruct (N.eqb_spec (m_type m) ct_appdata); [discriminate|].
  intros H. split; [assumption|].
  remember (match m_frag m with [] => None | _ => _ end) as w eqn:Ew in H.
  injection H as <-.
  exists (frags (length (m_frag m)) 16384 (m_frag m)).
  split; [apply frags_cuts; [lia|reflexivity]|].
  destruct (m_frag m) eqn:E.
  - subst w. split; [reflexivity|]. tauto.
  - subst w. split; [apply plain_frags_map|]. split; discriminate.
Qed.

Lemma plain_roundtrip_drain : forall ms outs s,
  Forall (fun m => (m_type m = ct_handshake \/ m_type m = ct_alert) /\ m_frag m <> []) ms ->
  Forall2 (fun m o => plain_write m = Ok o) ms outs ->
  exists fss,
    Forall2 (fun m fs => cuts 16384 (m_frag m) fs) ms fss /\
    exists s', (ms = [] -> s' = s) /\ (ms <> [] -> s' = mkP false (Some 771)) /\
    plain_drain s (concat (map obytes outs)) =
    (concat (map (fun mf => map (mkMsg (m_type (fst mf))) (snd mf)) (combine ms fss)), More s' []).
Proof.
  induction ms as [|m ms IH]; intros outs s HF HW; inversion HW; subst; clear HW.
  - exists []. split; [constructor|]. exists s. split; [reflexivity|]. split; [congruence|]. reflexivity.
  - inversion HF as [|? ? [Ht Hne] HF']; subst; clear HF.
    destruct (plain_write_spec _ _ _ H1) as (_ & fs & Hc & Ho & _).
    destruct (IH _ (mkP false (Some 771)) HF' H3) as (fss & H2 & s' & Ha & Hb & Hd).
    exists (fs :: fss). split; [constructor; assumption|].
    exists s'. split; [discriminate|]. split.
    { intros _. destruct ms; [apply Ha; reflexivity|apply Hb; discriminate]. }
    cbn [map concat combine fst snd]. rewrite Ho.
    rewrite plain_drain_frames.
    + rewrite Hd. reflexivity.
    + assumption.
    + lia.
    + apply Hc.
    + destruct Hc as [Hc _]. destruct fs; [|discriminate]. simpl in Hc. congruence.
Qed.

(** ** Trailing zero stripping on chains *)
Lemma strip_zeros_app a b : strip_zeros (a ++ b) =
  match strip_zeros a with
  | Some (t, r) => Some (t, r ++ b)
  | None => strip_zeros b
  end.
Proof.
  induction a as [|c a IH]; simpl; [reflexivity|]. destruct (byte_eqb c x00); [apply IH|reflexivity].
Qed.

Lemma strip_chain_spec : forall rc,
  match strip_chain rc with
  | Some (t, rc') => strip_zeros (rev (concat (rev rc))) = Some (t, rev (concat (rev rc')))
  | None => strip_zeros (rev (concat (rev rc))) = None
  end.
Proof.
  induction rc as [|b rc IH]; [reflexivity|]. cbn [strip_chain rev].
  rewrite concat_app, rev_app_distr, strip_zeros_app. cbn [concat]. rewrite app_nil_r.
  destruct (strip_zeros (rev b)) as [[t r]|].
  - cbn [rev]. rewrite concat_app, rev_app_distr. cbn [concat]. rewrite app_nil_r, rev_involutive. reflexivity.
  - destruct (strip_chain rc) as [[t r]|]; [|assumption].
    cbn [rev]. rewrite concat_app. cbn [concat]. rewrite !app_nil_r. exact IH.
Qed.

Lemma strip_zeros_repeat n l : strip_zeros (repeat x00 n ++ l) = strip_zeros l.
Proof. induction n; [reflexivity|]. exact IHn. Qed.

Lemma rev_repeat {A} (x : A) n : rev (repeat x n) = repeat x n.
Proof.
  induction n; [reflexivity|]. simpl. rewrite IHn. symmetry. apply repeat_cons.
Qed.

Lemma strip_zeros_Some : forall r t r', strip_zeros r = Some (t, r') ->
  t <> x00 /\ exists n, r = repeat x00 n ++ t :: r'.
Proof.
  induction r as [|c r IH]; [discriminate|]. intros t r'. simpl.
  destruct (byte_eqb c x00) eqn:E.
  - apply byte_eqb_eq in E. subst c. intros H. destruct (IH _ _ H) as (H1 & n & ->).
    split; [assumption|]. exists (S n). reflexivity.
  - intros [= <- <-]. split; [|exists O; reflexivity].
    intros ->. discriminate.
Qed.
Lemma strip_zeros_None : forall r, strip_zeros r = None -> r = repeat x00 (length r).
Proof.
  induction r as [|c r IH]; [reflexivity|]. simpl. destruct (byte_eqb c x00) eqn:E; [|discriminate].
  apply byte_eqb_eq in E. subst c. intros H. rewrite <- IH by assumption. reflexivity.
Qed.

(** what [open_inner] computes, in terms of the flat plaintext *)
Lemma open_inner_ok ch ty content pad : ch <> [] -> concat ch = inner ty content pad ->
  ty = ct_handshake \/ ty = ct_alert \/ ty = ct_appdata ->
  (content <> [] \/ ty = ct_appdata) ->
  open_inner ch = Ok (mkMsg ty content).
Proof.
  intros Hne Hc Hty Hcont. unfold open_inner. destruct ch as [|c0 ch0]; [congruence|].
  set (ch := c0 :: ch0) in *. pose proof (strip_chain_spec (rev ch)) as K.
  rewrite rev_involutive, Hc in K. unfold inner in K.
  rewrite !rev_app_distr, rev_repeat, <- app_assoc, strip_zeros_repeat in K.
  rewrite be1 in K. cbn [rev app] in K.
  assert (Hb : byte_eqb (n2b ty) x00 = false).
  { destruct Hty as [-> | [-> | ->]]; reflexivity. }
  cbn [strip_zeros] in K. rewrite Hb in K.
  destruct (strip_chain (rev ch)) as [[t rc]|]; [|discriminate].
  injection K as <- Hr. apply (f_equal (@rev byte)) in Hr. rewrite !rev_involutive in Hr.
  rewrite <- Hr. rewrite b2n_n2b by (destruct Hty as [-> | [-> | ->]]; vm_compute; reflexivity).
  replace (negb ((ty =? ct_handshake) || (ty =? ct_alert) || (ty =? ct_appdata))) with false
    by (destruct Hty as [-> | [-> | ->]]; reflexivity).
  destruct content; [|reflexivity]. destruct Hcont as [Hcont | ->]; [congruence|reflexivity].
Qed.

Lemma open_inner_inv ch m : open_inner ch = Ok m ->
  (m_type m = ct_handshake \/ m_type m = ct_alert \/ m_type m = ct_appdata) /\
  (m_frag m <> [] \/ m_type m = ct_appdata) /\
  exists pad, concat ch = inner (m_type m) (m_frag m) pad.
Proof.
  unfold open_inner. destruct ch as [|c0 ch0]; [discriminate|].
  set (ch := c0 :: ch0) in *. pose proof (strip_chain_spec (rev ch)) as K.
  rewrite rev_involutive in K.
  destruct (strip_chain (rev ch)) as [[t rc]|]; [|discriminate].
  apply strip_zeros_Some in K. destruct K as (Ht & n & K).
  apply (f_equal (@rev byte)) in K. rewrite rev_app_distr, rev_repeat in K.
  cbn [rev] in K. rewrite !rev_involutive in K.
  set (content := concat (rev rc)) in *.
  assert (Hin : concat ch = inner (b2n t) content (N.of_nat n)).
  { rewrite K. unfold inner. rewrite be1, n2b_b2n, Nnat.Nat2N.id, <- app_assoc. reflexivity. }
  destruct (negb _) eqn:E; [discriminate|]. apply negb_false_iff in E.
  assert (Hty : b2n t = ct_handshake \/ b2n t = ct_alert \/ b2n t = ct_appdata).
  { rewrite !orb_true_iff, !N.eqb_eq in E. tauto. }
  destruct content as [|c1 c2] eqn:Ec.
  - destruct (N.eqb_spec (b2n t) ct_appdata); [|discriminate].
    intros [= <-]. cbn [m_type m_frag]. split; [assumption|]. split; [right; assumption|]. eauto.
  - intros [= <-]. cbn [m_type m_frag]. split; [assumption|]. split; [left; discriminate|]. eauto.
Qed.

(** ** Encrypted writer: the queue *)
Lemma queue_empty_iff q : queue_empty q = true <-> concat q = [].
Proof.
  induction q as [|[|b c] q IH]; simpl; [tauto|assumption|]. split; discriminate.
Qed.

Lemma split_at_most_spec : forall q n a r, split_at_most n q = (a, r) ->
  concat a ++ concat r = concat q /\ blen (concat a) = N.min n (blen (concat q)).
Proof.
  induction q as [|c q IH]; intros n a r; simpl.
  - destruct (n =? 0); intros [= <- <-]; (split; [reflexivity|]); simpl; unfold blen; simpl; lia.
  - destruct (N.eqb_spec n 0).
    + intros [= <- <-]. simpl. split; [reflexivity|]. unfold blen. simpl. lia.
    + destruct (N.leb_spec (blen c) n).
      * destruct (split_at_most (n - blen c) q) as [a' r'] eqn:E. intros [= <- <-].
        apply IH in E. destruct E as [E1 E2]. cbn [concat]. split.
        -- rewrite <- app_assoc, E1. reflexivity.
        -- rewrite !blen_app, E2. lia.
      * intros [= <- <-]. cbn [concat]. rewrite app_nil_r. split.
        -- rewrite app_assoc, takeN_dropN. reflexivity.
        -- rewrite blen_takeN, blen_app. lia.
Qed.

Lemma buf_to_encrypt_spec q mx d q' : 0 < mx -> buf_to_encrypt q mx = (d, q') ->
  concat q <> [] ->
  concat d ++ concat q' = concat q /\ concat d <> [] /\ blen (concat d) <= mx.
Proof.
  intros Hmx. unfold buf_to_encrypt. destruct q as [|c q]; [intros; exfalso; auto|].
  intros H Hne.
  assert (Hb : 0 < blen (concat (c :: q))).
  { destruct (concat (c :: q)); [congruence|]. rewrite blen_cons. lia. }
  assert (Hpos : forall l : bytes, 0 < blen l -> l <> []) by (intros [|] ?; [rewrite (@blen_nil byte) in *; lia|discriminate]).
  destruct (N.ltb_spec mx (blen c)).
  - apply split_at_most_spec in H. destruct H as [H1 H2]. split; [assumption|].
    split; [apply Hpos|]; lia.
  - destruct (N.leb_spec kMinSuggestedRecordSize (blen c)).
    + injection H as <- <-. cbn [concat]. rewrite app_nil_r. split; [reflexivity|].
      unfold kMinSuggestedRecordSize in *. split; [apply Hpos; lia|assumption].
    + apply split_at_most_spec in H. destruct H as [H3 H4]. split; [assumption|].
      unfold kMinSuggestedRecordSize in *. split; [apply Hpos|]; lia.
Qed.

Lemma padding_bound p mx len : mx < 65536 -> len <= mx -> padding p mx len + len <= mx.
Proof.
  intros H1 H2. unfold padding. destruct p as [m|c].
  - destruct (N.ltb_spec 0 m); [|lia].
    rewrite (N.mod_small len) by lia.
    replace ((mx + 65536 - len) mod 65536) with (mx - len) by lia.
    pose proof (N.mod_le (mx - len) m). lia.
  - destruct (N.ltb_spec 0 c); [|lia].
    rewrite (N.mod_small len) by lia.
    replace ((mx + 65536 - len) mod 65536) with (mx - len) by lia. lia.
Qed.

(** modulo policy: content plus padding is congruent to the maximum *)
Lemma padding_modulo m mx len : 0 < m -> mx < 65536 -> len <= mx ->
  (mx - (len + padding (PModulo m) mx len)) mod m = 0.
Proof.
  intros H0 H1 H2. unfold padding. destruct (N.ltb_spec 0 m); [|lia].
  rewrite (N.mod_small len) by lia.
  replace ((mx + 65536 - len) mod 65536) with (mx - len) by lia.
  rewrite N.sub_add_distr. rewrite (N.div_mod (mx - len) m) at 1 by lia.
  rewrite N.add_sub. rewrite N.mul_comm. apply N.mod_mul. lia.
Qed.

(** ** Encrypted writer: structure of the output *)
Record wrec := mkR { wr_data : bytes; wr_pad : N; wr_cipher : bytes }.

Definition w_hdr (s : wstate) (len : N) : bytes := be 1 23 ++ be 2 771 ++ be 2 (len + ae_overhead (ws_aead s)).
Definition w_adof (s : wstate) (len : N) : option bytes :=
  if ws_ad s then Some (w_hdr s len) else None.

(** the i-th record of [rs] was encrypted with sequence number [seq + i] *)
Fixpoint enc_ok (ty : N) (s : wstate) (seq : N) (rs : list wrec) : Prop :=
  match rs with
  | [] => True
  | r :: rs' =>
      let p := inner ty (wr_data r) (wr_pad r) in
      ae_enc (ws_aead s) p (w_adof s (blen p)) seq = Ok (wr_cipher r) /\
      seq < max64 /\
      wr_data r <> [] /\ blen (wr_data r) + wr_pad r <= ws_max s /\
      enc_ok ty s (seq + 1) rs'
  end.

Lemma w_set_seq_id s : w_set_seq s (ws_seq s) = s.
Proof. destruct s; reflexivity. Qed.

Lemma enc_ok_set ty s n : forall rs seq, enc_ok ty (w_set_seq s n) seq rs -> enc_ok ty s seq rs.
Proof.
  induction rs as [|r rs IH]; intros seq; [tauto|]. cbn [enc_ok].
  intros (H1 & H2 & H3 & H4 & H5). repeat split; try assumption. apply IH, H5.
Qed.

Lemma enc_write_loop_ok ty : forall f s q out calls s' out',
  0 < ws_max s -> ws_max s < 65536 -> ws_seq s <= max64 ->
  enc_write_loop f ty s q out = (calls, s', Ok out') ->
  exists rs,
    concat (map wr_data rs) = concat q /\
    enc_ok ty s (ws_seq s) rs /\
    out' = out ++ concat (map (fun r => w_hdr s (blen (inner ty (wr_data r) (wr_pad r))) ++ wr_cipher r) rs) /\
    s' = w_set_seq s (ws_seq s + blen rs) /\
    (rs = [] <-> concat q = []) /\
    map ec_plain calls = map (fun r => inner ty (wr_data r) (wr_pad r)) rs.
Proof.
  induction f; intros s q out calls s' out' Hm1 Hm2 Hs H; cbn [enc_write_loop] in H.
  - destruct (queue_empty q) eqn:E; [|discriminate]. injection H as <- <- <-.
    apply queue_empty_iff in E. exists []. rewrite E. simpl. rewrite app_nil_r.
    rewrite (@blen_nil wrec), N.add_0_r, w_set_seq_id. repeat split; reflexivity.
  - destruct (queue_empty q) eqn:E.
    + injection H as <- <- <-.
      apply queue_empty_iff in E. exists []. rewrite E. simpl. rewrite app_nil_r.
      rewrite (@blen_nil wrec), N.add_0_r, w_set_seq_id. repeat split; reflexivity.
    + assert (Hne : concat q <> []).
      { intros K. apply queue_empty_iff in K. congruence. }
      destruct (buf_to_encrypt q (ws_max s)) as [d q'] eqn:Eb.
      destruct (buf_to_encrypt_spec _ _ _ _ Hm1 Eb Hne) as (Hd1 & Hd2 & Hd3).
      destruct (N.eqb_spec (ws_seq s) max64); [discriminate|].
      set (pad := padding (ws_policy s) (ws_max s) (blen (concat d))) in *.
      change (concat d ++ be 1 ty ++ repeat x00 (N.to_nat pad)) with (inner ty (concat d) pad) in H.
      set (p := inner ty (concat d) pad) in *.
      change (be 1 ct_appdata ++ be 2 771 ++ be 2 (blen p + ae_overhead (ws_aead s)))
        with (w_hdr s (blen p)) in H.
      change (if ws_ad s then Some (w_hdr s (blen p)) else None) with (w_adof s (blen p)) in H.
      destruct (ae_enc (ws_aead s) p (w_adof s (blen p)) (ws_seq s)) as [c|] eqn:Ee; [|discriminate].
      destruct (enc_write_loop f ty (w_set_seq s (ws_seq s + 1)) q' (out ++ w_hdr s (blen p) ++ c)) as [[calls2 s2] r] eqn:El.
      injection H as <- <- ->.
      apply IHf in El; [|assumption|assumption|cbn [ws_seq w_set_seq]; lia].
      destruct El as (rs & R1 & R2 & R3 & R4 & R5 & R6).
      exists (mkR (concat d) pad c :: rs). cbn [map concat enc_ok wr_data wr_pad wr_cipher].
      fold p. rewrite R1, R3, R4.
      split; [assumption|]. split; [|split; [|split; [|split]]].
      * split; [exact Ee|]. split; [lia|]. split; [assumption|].
        split; [pose proof (padding_bound (ws_policy s) (ws_max s) (blen (concat d))); unfold pad; lia|].
        eapply enc_ok_set. exact R2.
      * rewrite <- !app_assoc. reflexivity.
      * cbn [w_set_seq ws_seq]. unfold w_set_seq. cbn [ws_ad ws_max ws_policy ws_aead].
        rewrite blen_cons. f_equal. lia.
      * split; [discriminate|]. intros K. rewrite K in *. exfalso. auto.
      * rewrite R6. reflexivity.
Qed.

(** ** Reading what the encrypted writer produced *)
Lemma enc_read_frame r c x ch m :
  0 < blen c -> blen c <= 16640 -> es_seq r < max64 ->
  ae_try (es_aead r) c (if es_ad r then Some (be 1 23 ++ be 2 771 ++ be 2 (blen c)) else None)
    (es_seq r) = Ok (Some ch) ->
  open_inner ch = Ok m ->
  enc_read r (frame 23 771 c ++ x) =
  RMsg (mkE (es_seq r + 1) false (es_ad r) (es_aead r)) x m.
Proof.
  intros H0 Hmax Hs Ht Ho. unfold enc_read. rewrite (read_of_step _ enc_iter_laws).
  unfold enc_iter. rewrite header_frame by lia.
  destruct (N.eqb_spec (blen c) 0); [lia|].
  unfold kMaxEncryptedRecordSize. destruct (N.ltb_spec (16384 + 256) (blen c)); [lia|].
  rewrite take_app. change ((23 =? ct_alert) && (blen c =? 2)) with false.
  change (23 =? ct_ccs) with false. cbv iota.
  destruct (N.eqb_spec (es_seq r) max64); [lia|].
  rewrite frame_head. unfold ae_dec. rewrite Ht. cbn [bind]. rewrite Ho.
  destruct (es_skip r); reflexivity.
Qed.

Lemma enc_drain_step s b : enc_drain s b =
  match enc_read s b with
  | RNeed s' b' _ => ([], More s' b')
  | RErr e => ([], Failed e)
  | RMsg s' b' m => let '(ms, o) := enc_drain s' b' in (m :: ms, o)
  end.
Proof.
  unfold enc_drain. rewrite (drain_step _ _ _ _ _ _ enc_laws); [|intros; lia|auto|exact I].
  reflexivity.
Qed.

Lemma be2_mod a b : a mod 65536 = b mod 65536 -> be 2 a = be 2 b.
Proof.
  intros H. rewrite <- (be_unbe 2 (be 2 a)) by apply be_length.
  rewrite <- (be_unbe 2 (be 2 b)) by apply be_length.
  rewrite !unbe_be_mod. f_equal. exact H.
Qed.

Definition cipher_bounds (mx : N) (ov : N) (c : bytes) : Prop :=
  0 < blen c /\ blen c <= mx + 1 + ov.

Lemma inner_len ty d p : blen (inner ty d p) = blen d + 1 + p.
Proof.
  unfold inner. rewrite !blen_app, be_blen. unfold blen at 2. rewrite repeat_length. lia.
Qed.

Lemma enc_ok_frames ty s ra : opens (ws_aead s) ra ->
  forall rs seq, enc_ok ty s seq rs ->
  concat (map (fun r => w_hdr s (blen (inner ty (wr_data r) (wr_pad r))) ++ wr_cipher r) rs) =
  concat (map (fun r => frame 23 771 (wr_cipher r)) rs) /\
  Forall (fun r => blen (wr_cipher r) = blen (wr_data r) + 1 + wr_pad r + ae_overhead (ws_aead s)) rs.
Proof.
  intros Hop. induction rs as [|r rs IH]; intros seq H; [split; [reflexivity|constructor]|].
  cbn [enc_ok] in H. destruct H as (H1 & H2 & H3 & H4 & H5).
  destruct (IH _ H5) as [I1 I2]. destruct (Hop _ _ _ _ H1) as [Hl _].
  cbn [map concat]. rewrite I1. split.
  - f_equal. unfold w_hdr, frame. rewrite Hl, <- !app_assoc. reflexivity.
  - constructor; [|assumption]. rewrite Hl, inner_len. lia.
Qed.

Lemma enc_drain_written ty s : ty = ct_handshake \/ ty = ct_alert \/ ty = ct_appdata ->
  ws_max s <= 16384 -> ae_overhead (ws_aead s) <= 255 ->
  forall rs r x, opens (ws_aead s) (es_aead r) -> es_ad r = ws_ad s ->
  enc_ok ty s (es_seq r) rs -> rs <> [] ->
  enc_drain r (concat (map (fun r => frame 23 771 (wr_cipher r)) rs) ++ x) =
  let '(ms, o) := enc_drain (mkE (es_seq r + blen rs) false (es_ad r) (es_aead r)) x in
  (map (fun r => mkMsg ty (wr_data r)) rs ++ ms, o).
Proof.
  intros Hty Hmx Hov. induction rs as [|w rs IH]; intros r x Hop Had H Hne; [congruence|].
  cbn [enc_ok] in H. destruct H as (H1 & H2 & H3 & H4 & H5).
  destruct (Hop _ _ _ _ H1) as [Hl (ch & Hch1 & Hch2 & Hch3)].
  cbn [map concat]. rewrite <- app_assoc. rewrite enc_drain_step.
  assert (Hin := inner_len ty (wr_data w) (wr_pad w)).
  rewrite (enc_read_frame r _ _ ch (mkMsg ty (wr_data w))).
  - destruct rs as [|w2 rs].
    + cbn [map concat app]. rewrite blen_cons, (@blen_nil wrec).
      replace (es_seq r + (1 + 0)) with (es_seq r + 1) by lia.
      destruct (enc_drain _ x). reflexivity.
    + rewrite IH; [|assumption|assumption|exact H5|discriminate].
      cbn [es_seq es_ad es_aead]. rewrite (blen_cons w).
      replace (es_seq r + (1 + blen (w2 :: rs))) with (es_seq r + 1 + blen (w2 :: rs)) by lia.
      destruct (enc_drain _ x). reflexivity.
  - lia.
  - lia.
  - assumption.
  - rewrite <- Hch3, Had. unfold w_adof, w_hdr. rewrite Hl. reflexivity.
  - eapply open_inner_ok; [assumption|eassumption|assumption|left; assumption].
Qed.

Definition wsub (s : wstate) (o : wop) : wstate :=
  mkW (ws_seq s) (ws_ad s) (wo_max o) (wo_policy o) (ws_aead s).

Lemma write_seq_drain : forall ops s s' out r,
  opens (ws_aead s) (es_aead r) -> es_ad r = ws_ad s -> es_seq r = ws_seq s ->
  ws_seq s <= max64 -> ae_overhead (ws_aead s) <= 255 ->
  Forall (fun o => (wo_ty o = ct_handshake \/ wo_ty o = ct_alert \/ wo_ty o = ct_appdata) /\
                   0 < wo_max o /\ wo_max o <= 16384) ops ->
  write_seq s ops = Ok (s', out) ->
  exists fss,
    Forall2 (fun o fs => concat fs = concat (wo_data o) /\
                         Forall (fun f => f <> [] /\ blen f <= wo_max o) fs) ops fss /\
    exists r', es_seq r' = ws_seq s' /\ es_ad r' = es_ad r /\ es_aead r' = es_aead r /\
      (concat fss <> [] -> es_skip r' = false) /\
      enc_drain r out =
      (concat (map (fun of => map (mkMsg (wo_ty (fst of))) (snd of)) (combine ops fss)), More r' []).
Proof.
  induction ops as [|o ops IH]; intros s s' out r Hop Had Hseq Hs Hov HF H.
  - injection H as <- <-. exists []. split; [constructor|]. exists r.
    repeat split; try assumption. intros K; cbn in K; congruence.
  - inversion HF as [|? ? (Hty & Hm0 & Hm1) HF']; subst. cbn [write_seq] in H.
    fold (wsub s o) in H.
    destruct (enc_write (wo_ty o) (wsub s o) (wo_data o)) as [[calls s2] [out1|e]] eqn:Ew; [|discriminate].
    destruct (write_seq s2 ops) as [[s3 out2]|] eqn:Er; [|discriminate].
    cbn [bind] in H. injection H as <- <-.
    unfold enc_write in Ew. apply enc_write_loop_ok in Ew; [|cbn; lia|cbn; lia|exact Hs].
    destruct Ew as (rs & R1 & R2 & R3 & R4 & R5 & _). cbn [app] in R3.
    destruct (enc_ok_frames (wo_ty o) (wsub s o) _ Hop _ _ R2) as [R6 R7].
    rewrite R6 in R3.
    assert (Hs2 : ws_seq s2 <= max64).
    { subst s2. cbn [w_set_seq ws_seq]. clear - R2 Hs. cbn [wsub ws_seq] in *.
      revert R2. generalize dependent (ws_seq s). induction rs as [|w rs IH]; intros n Hn H.
      - rewrite (@blen_nil wrec). lia.
      - cbn [enc_ok] in H. destruct H as (_ & H2 & _ & _ & H5). rewrite blen_cons.
        specialize (IH (n + 1)). lia || (assert (n + 1 + blen rs <= max64) by (apply IH; [lia|assumption]); lia). }
    destruct (IH s2 s3 out2 (mkE (ws_seq s2) (if (match rs with [] => true | _ => false end) then es_skip r else false) (es_ad r) (es_aead r)))
      as (fss & F1 & r' & F2 & F3 & F4 & F5 & F6).
    { subst s2. exact Hop. } { subst s2. exact Had. } { reflexivity. } { exact Hs2. }
    { subst s2. exact Hov. } { assumption. } { exact Er. }
    exists (map wr_data rs :: fss). split.
    { constructor; [|assumption]. split; [assumption|]. clear - R2.
      cbn [wsub ws_seq] in R2. revert R2. generalize (ws_seq s). induction rs as [|w rs IH]; intros n H; [constructor|].
      cbn [enc_ok] in H. destruct H as (_ & _ & H3 & H4 & H5). cbn [wsub ws_max] in H4.
      constructor; [split; [assumption|lia]|]. eapply IH; eassumption. }
    exists r'. split; [assumption|]. split; [assumption|]. split; [assumption|]. split.
    { intros K. destruct rs as [|w rs].
      - apply F5. intros K2. apply K. exact K2.
      - destruct (concat fss) eqn:Ec; [|apply F5; discriminate].
        (* nothing was written afterwards: the state is unchanged *)
        assert (Hcomb : concat (map (fun of => map (mkMsg (wo_ty (fst of))) (snd of)) (combine ops fss)) = []).
        { clear - Ec F1. revert Ec. induction F1 as [|a b l1 l2 Hab F1 IHF]; intros Ec; [reflexivity|].
          cbn [concat] in Ec. apply app_eq_nil in Ec. destruct Ec as [-> Ec].
          cbn [combine map concat fst snd app]. apply IHF. exact Ec. }
        assert (out2 = []).
        { rewrite Hcomb in F6. clear - F1 F6 Ec Er.
          revert s2 s3 out2 Er F6. induction F1 as [|a b l1 l2 Hab F1 IHF]; intros s2 s3 out2 Er F6.
          - injection Er as <- <-. reflexivity.
          - cbn [concat] in Ec. apply app_eq_nil in Ec. destruct Ec as [-> Ec].
            cbn [write_seq] in Er. destruct Hab as [Hab _]. cbn [concat] in Hab.
            unfold enc_write in Er. rewrite <- Hab in Er. cbn [length enc_write_loop] in Er.
            assert (queue_empty (wo_data a) = true) as Hq by (apply queue_empty_iff; congruence).
            rewrite Hq in Er. cbv beta iota in Er.
            destruct (write_seq _ l1) as [[s4 out4]|] eqn:E4; [|discriminate].
            cbn [bind app] in Er. injection Er as <- <-.
            eapply IHF; eassumption. }
        subst out2. rewrite Hcomb in F6. rewrite enc_drain_step in F6.
        change (enc_read (mkE (ws_seq s2) false (es_ad r) (es_aead r)) [])
          with (@RNeed estate tlsmsg (mkE (ws_seq s2) false (es_ad r) (es_aead r)) [] 5) in F6.
        injection F6 as <-. reflexivity. }
    cbn [map combine concat fst snd]. rewrite R3.
    destruct rs as [|w rs].
    + cbn [map concat app]. rewrite (@blen_nil wrec), N.add_0_r in R4. cbn [wsub ws_seq] in R4.
      subst s2. cbn [w_set_seq ws_seq] in F6.
      replace r with (mkE (ws_seq s) (es_skip r) (es_ad r) (es_aead r)) by (rewrite <- Hseq; destruct r; reflexivity).
      exact F6.
    + rewrite (enc_drain_written (wo_ty o) (wsub s o)); try assumption.
      * rewrite Hseq. rewrite R4 in F6. cbn [w_set_seq ws_seq wsub] in F6. rewrite F6.
        rewrite map_map. reflexivity.
      * rewrite Hseq. exact R2.
      * discriminate.
Qed.

(** ** Sequence numbers (C09) *)
Lemma upfrom_app n j k : upfrom n (j + k) = upfrom n j ++ upfrom (n + N.of_nat j) k.
Proof.
  revert n; induction j; intros n; simpl.
  - f_equal. lia.
  - rewrite IHj. do 3 f_equal. lia.
Qed.
Lemma upfrom_In n k x : In x (upfrom n k) <-> n <= x /\ x < n + N.of_nat k.
Proof.
  revert n; induction k; intros n; simpl; [lia|]. rewrite IHk. lia.
Qed.
Lemma upfrom_NoDup n k : NoDup (upfrom n k).
Proof.
  revert n; induction k; intros n; simpl; [constructor|]. constructor; [|apply IHk].
  rewrite upfrom_In. lia.
Qed.
Lemma upfrom_length n k : length (upfrom n k) = k.
Proof. revert n; induction k; intros; simpl; [reflexivity|]. rewrite IHk. reflexivity. Qed.

Lemma enc_write_loop_calls ty : forall f s q out calls s' r,
  ws_seq s <= max64 ->
  enc_write_loop f ty s q out = (calls, s', r) ->
  map ec_seq calls = upfrom (ws_seq s) (length calls) /\
  s' = w_set_seq s (ws_seq s + blen calls) /\
  ws_seq s' <= max64 /\
  Forall (fun c => ec_aead c = ws_aead s) calls.
Proof.
  assert (Z : forall s, w_set_seq s (ws_seq s + blen (@nil enc_call)) = s).
  { intros s. rewrite (@blen_nil enc_call), N.add_0_r. apply w_set_seq_id. }
  induction f; intros s q out calls s' r Hs H; cbn [enc_write_loop] in H.
  - destruct (queue_empty q); injection H as <- <- <-; rewrite Z; repeat split; (assumption || constructor).
  - destruct (queue_empty q); [injection H as <- <- <-; rewrite Z; repeat split; (assumption || constructor)|].
    destruct (buf_to_encrypt q (ws_max s)) as [d q'].
    destruct (N.eqb_spec (ws_seq s) max64);
      [injection H as <- <- <-; rewrite Z; repeat split; (assumption || constructor)|].
    destruct (ae_enc _ _ _ _) as [c|e].
    + destruct (enc_write_loop f ty (w_set_seq s (ws_seq s + 1)) q' _) as [[calls2 s2] r2] eqn:El.
      injection H as <- <- <-. apply IHf in El; [|cbn [w_set_seq ws_seq]; lia].
      destruct El as (L1 & L2 & L3 & L4). cbn [map ec_seq length upfrom].
      rewrite L1. split; [reflexivity|]. split; [|split; [assumption|]].
      * rewrite L2. unfold w_set_seq. cbn [ws_seq ws_ad ws_max ws_policy ws_aead].
        rewrite blen_cons. f_equal. lia.
      * constructor; [reflexivity|assumption].
    + injection H as <- <- <-. cbn [map ec_seq length upfrom].
      split; [reflexivity|]. split; [|split].
      * reflexivity.
      * cbn [w_set_seq ws_seq]. lia.
      * constructor; [reflexivity|constructor].
Qed.

Lemma keep_seq s r : (forall s', r = Ok s' -> ws_seq s' = ws_seq s) -> ws_seq (keep s r) = ws_seq s.
Proof. destruct r; simpl; auto. Qed.

Lemma history_calls : forall ops s calls s', ws_seq s <= max64 ->
  history s ops = (calls, s') ->
  map ec_seq calls = upfrom (ws_seq s) (length calls) /\
  ws_seq s' = ws_seq s + blen calls /\ ws_seq s' <= max64 /\
  (0 < ws_seq s -> Forall (fun c => ec_aead c = ws_aead s) calls) /\
  (exists a, Forall (fun c => ec_aead c = a) calls).
Proof.
  assert (SA : forall s a, ws_seq (keep s (w_set_aead s a)) = ws_seq s /\
             (0 < ws_seq s -> keep s (w_set_aead s a) = s)).
  { intros s a. unfold w_set_aead. destruct (N.eqb_spec (ws_seq s) 0); split; intros; try reflexivity.
    lia. }
  assert (SM : forall s n, ws_seq (keep s (w_set_max s n)) = ws_seq s /\
             ws_aead (keep s (w_set_max s n)) = ws_aead s).
  { intros s n. unfold w_set_max. destruct (0 <? n); split; reflexivity. }
  assert (SV : forall s n, ws_seq (keep s (w_set_version s n)) = ws_seq s /\
             ws_aead (keep s (w_set_version s n)) = ws_aead s).
  { intros s n. unfold w_set_version. destruct (real_draft_version n); split; reflexivity. }
  induction ops as [|op ops IH]; intros s calls s' Hs H.
  - injection H as <- <-. rewrite (@blen_nil enc_call). repeat split; try (constructor || lia).
    exists (ws_aead s). constructor.
  - destruct op as [ty q|a|n|p|v]; cbn [history] in H.
    + destruct (enc_write ty s q) as [[c1 s1] r1] eqn:E1.
      destruct (history s1 ops) as [c2 s2] eqn:E2. injection H as <- <-.
      apply enc_write_loop_calls in E1; [|assumption]. destruct E1 as (A1 & A2 & A3 & A4).
      destruct (IH _ _ _ A3 E2) as (B1 & B2 & B3 & B4 & B5).
      assert (Hq : ws_seq s1 = ws_seq s + blen c1) by (rewrite A2; reflexivity).
      rewrite map_app, app_length, upfrom_app, A1, B1, Hq. split; [reflexivity|].
      split; [rewrite B2, Hq, blen_app; lia|]. split; [assumption|].
      assert (Ha : ws_aead s1 = ws_aead s) by (rewrite A2; reflexivity).
      rewrite <- Ha in A4. split.
      * intros H0. rewrite <- Ha. apply Forall_app. split; [assumption|]. apply B4. lia.
      * destruct c1 as [|c0 c1].
        -- exact B5.
        -- exists (ws_aead s1). apply Forall_app. split; [assumption|]. apply B4.
           rewrite Hq, blen_cons. lia.
    + destruct (SA s a) as [S1 S2]. destruct (IH _ _ _ ltac:(rewrite S1; exact Hs) H) as (B1 & B2 & B3 & B4 & B5).
      rewrite S1 in *. repeat split; try assumption. intros H0. rewrite (S2 H0) in B4. auto.
    + destruct (SM s n) as [S1 S2]. destruct (IH _ _ _ ltac:(rewrite S1; exact Hs) H) as (B1 & B2 & B3 & B4 & B5).
      rewrite S1, S2 in *. repeat split; assumption.
    + destruct (IH (w_set_policy s p) _ _ Hs H) as (B1 & B2 & B3 & B4 & B5). repeat split; assumption.
    + destruct (SV s v) as [S1 S2]. destruct (IH _ _ _ ltac:(rewrite S1; exact Hs) H) as (B1 & B2 & B3 & B4 & B5).
      rewrite S1, S2 in *. repeat split; assumption.
Qed.

(** the loop budget is enough *)
Lemma enc_write_loop_fuel ty : forall f s q out calls s' r,
  0 < ws_max s -> (forall p ad n, ae_enc (ws_aead s) p ad n <> Err EFuel) ->
  (length (concat q) <= f)%nat ->
  enc_write_loop f ty s q out = (calls, s', r) -> r <> Err EFuel.
Proof.
  induction f; intros s q out calls s' r Hm Ha Hf H; cbn [enc_write_loop] in H.
  - assert (queue_empty q = true) as Hq.
    { apply queue_empty_iff. destruct (concat q); [reflexivity|]. simpl in Hf. lia. }
    rewrite Hq in H. injection H as <- <- <-. discriminate.
  - destruct (queue_empty q) eqn:E; [injection H as <- <- <-; discriminate|].
    assert (Hne : concat q <> []).
    { intros K. apply queue_empty_iff in K. congruence. }
    destruct (buf_to_encrypt q (ws_max s)) as [d q'] eqn:Eb.
    destruct (buf_to_encrypt_spec _ _ _ _ Hm Eb Hne) as (Hd1 & Hd2 & Hd3).
    destruct (ws_seq s =? max64); [injection H as <- <- <-; discriminate|].
    destruct (ae_enc _ _ _ _) as [c|e] eqn:Ee.
    + destruct (enc_write_loop f ty (w_set_seq s (ws_seq s + 1)) q' _) as [[calls2 s2] r2] eqn:El.
      injection H as <- <- <-. apply (IHf (w_set_seq s (ws_seq s + 1)) _ _ _ _ _ Hm Ha) in El; [exact El|].
      apply (f_equal (@length byte)) in Hd1. rewrite app_length in Hd1.
      destruct (concat d); [congruence|]. simpl in Hd1. lia.
    + injection H as <- <- <-. intros [= ->]. exact (Ha _ _ _ Ee).
Qed.

(** ** What a successful read consumed (C10, C12) *)
Record rawrec := mkRaw { rr_ty : N; rr_ver : N; rr_body : bytes }.
Definition raw_frame (r : rawrec) : bytes := frame (rr_ty r) (rr_ver r) (rr_body r).
Definition raw_hdr (r : rawrec) : bytes := be 1 (rr_ty r) ++ be 2 (rr_ver r) ++ be 2 (blen (rr_body r)).
Definition raw_ok (r : rawrec) : Prop :=
  rr_ty r < 256 /\ rr_ver r < 65536 /\ blen (rr_body r) < 65536.
Definition ccs_rec (r : rawrec) : Prop := rr_ty r = ct_ccs /\ rr_body r = [x01].
Definition ad_of (s : estate) (r : rawrec) : option bytes :=
  if es_ad s then Some (raw_hdr r) else None.

Lemma enc_iter_cont_inv s b s' b' : enc_iter s b = ICont s' b' ->
  s' = s /\ exists r, raw_ok r /\ b = raw_frame r ++ b' /\
   (ccs_rec r \/
    (es_skip s = true /\ rr_ty r <> ct_ccs /\ es_seq s <> max64 /\
     ae_try (es_aead s) (rr_body r) (ad_of s r) (es_seq s) = Ok None)).
Proof.
  unfold enc_iter. destruct (header b) as [[[[t v] l] r]|] eqn:Hh; [|discriminate].
  destruct (N.eqb_spec l 0); [discriminate|].
  destruct (kMaxEncryptedRecordSize <? l); [discriminate|].
  destruct (take l r) as [[c r']|] eqn:Ht; [|discriminate].
  destruct (header_take_inv _ _ _ _ _ _ _ Hh Ht) as (H1 & H2 & H3 & H4 & H5).
  destruct ((t =? ct_alert) && (l =? 2)); [discriminate|].
  destruct (N.eqb_spec t ct_ccs).
  - destruct (bytes_eqb c [x01]) eqn:Ec; [|discriminate]. apply bytes_eqb_eq in Ec.
    intros [= <- <-]. split; [reflexivity|]. exists (mkRaw t v c).
    repeat split; try assumption. left. split; assumption.
  - destruct (N.eqb_spec (es_seq s) max64); [discriminate|].
    destruct (es_skip s) eqn:Es.
    + destruct (ae_try _ _ _ _) as [[ch|]|] eqn:Ea; try discriminate.
      * destruct (open_inner ch); discriminate.
      * intros [= <- <-]. split; [reflexivity|]. exists (mkRaw t v c).
        repeat split; try assumption. right. repeat split; try assumption.
        rewrite H5, frame_head in Ea. exact Ea.
    + destruct (ae_dec _ _ _ _) as [ch|]; [|discriminate]. destruct (open_inner ch); discriminate.
Qed.

Lemma enc_iter_msg_inv s b s' b' m : enc_iter s b = IMsg s' b' m ->
  s' = mkE (es_seq s + 1) false (es_ad s) (es_aead s) /\
  exists r ch, raw_ok r /\ b = raw_frame r ++ b' /\ rr_ty r <> ct_ccs /\
    0 < blen (rr_body r) /\ blen (rr_body r) <= 16640 /\ es_seq s <> max64 /\
    ~ (rr_ty r = ct_alert /\ blen (rr_body r) = 2) /\
    ae_try (es_aead s) (rr_body r) (ad_of s r) (es_seq s) = Ok (Some ch) /\
    open_inner ch = Ok m.
Proof.
  unfold enc_iter. destruct (header b) as [[[[t v] l] r]|] eqn:Hh; [|discriminate].
  destruct (N.eqb_spec l 0); [discriminate|].
  destruct (N.ltb_spec kMaxEncryptedRecordSize l); [discriminate|].
  destruct (take l r) as [[c r']|] eqn:Ht; [|discriminate].
  destruct (header_take_inv _ _ _ _ _ _ _ Hh Ht) as (H1 & H2 & H3 & H4 & H5).
  destruct ((t =? ct_alert) && (l =? 2)) eqn:Eal; [discriminate|].
  destruct (N.eqb_spec t ct_ccs); [destruct (bytes_eqb c [x01]); discriminate|].
  destruct (N.eqb_spec (es_seq s) max64); [discriminate|].
  unfold kMaxEncryptedRecordSize in *.
  assert (Hal : ~ (t = ct_alert /\ blen c = 2)).
  { intros [-> K]. rewrite H4, K in Eal. discriminate. }
  assert (Hfin : forall ch, ae_try (es_aead s) c (if es_ad s then Some (takeN 5 b) else None) (es_seq s) = Ok (Some ch) ->
      open_inner ch = Ok m ->
      exists r0 ch0, raw_ok r0 /\ b = raw_frame r0 ++ r' /\ rr_ty r0 <> ct_ccs /\
      0 < blen (rr_body r0) /\ blen (rr_body r0) <= 16640 /\ es_seq s <> max64 /\
      ~ (rr_ty r0 = ct_alert /\ blen (rr_body r0) = 2) /\
      ae_try (es_aead s) (rr_body r0) (ad_of s r0) (es_seq s) = Ok (Some ch0) /\ open_inner ch0 = Ok m).
  { intros ch K1 K2. exists (mkRaw t v c), ch. cbn [rr_ty rr_ver rr_body].
    repeat split; try assumption; try lia. rewrite H5, frame_head in K1. exact K1. }
  destruct (es_skip s) eqn:Es.
  - destruct (ae_try _ _ _ _) as [[ch|]|] eqn:Ea; try discriminate.
    destruct (open_inner ch) as [m'|] eqn:Eo; [|discriminate].
    intros [= <- <- ->]. split; [reflexivity|]. eapply Hfin; [reflexivity|exact Eo].
  - unfold ae_dec. destruct (ae_try _ _ _ _) as [[ch|]|] eqn:Ea; try discriminate. cbn [bind].
    destruct (open_inner ch) as [m'|] eqn:Eo; [|discriminate].
    intros [= <- <- ->]. split; [reflexivity|]. eapply Hfin; [reflexivity|exact Eo].
Qed.

Lemma enc_read_msg_inv : forall s b s' b' m, enc_read s b = RMsg s' b' m ->
  exists dropped r ch,
    b = concat (map raw_frame dropped) ++ raw_frame r ++ b' /\
    Forall (fun d => raw_ok d /\ (ccs_rec d \/
             (es_skip s = true /\
              ae_try (es_aead s) (rr_body d) (ad_of s d) (es_seq s) = Ok None))) dropped /\
    raw_ok r /\ 0 < blen (rr_body r) /\ blen (rr_body r) <= 16640 /\ rr_ty r <> ct_ccs /\
    ~ (rr_ty r = ct_alert /\ blen (rr_body r) = 2) /\
    es_seq s <> max64 /\
    ae_try (es_aead s) (rr_body r) (ad_of s r) (es_seq s) = Ok (Some ch) /\
    open_inner ch = Ok m /\
    s' = mkE (es_seq s + 1) false (es_ad s) (es_aead s).
Proof.
  intros s b. unfold enc_read. pattern s, b, (read_of enc_iter s b).
  apply read_of_ind; [apply enc_iter_laws|..].
  - intros s0 b0 s' b' E IH s1 b1 m H.
    apply enc_iter_cont_inv in E. destruct E as (-> & d & D1 & D2 & D3).
    destruct (IH _ _ _ H) as (dr & r & ch & R1 & R2 & R3).
    exists (d :: dr), r, ch. split; [|split; [|exact R3]].
    + cbn [map concat]. rewrite D2, R1, <- app_assoc. reflexivity.
    + constructor; [|assumption]. split; [assumption|]. destruct D3 as [D3|(D3 & _ & _ & D4)]; auto.
  - discriminate.
  - intros s0 b0 s' b' m E s1 b1 m1 [= <- <- <-].
    apply enc_iter_msg_inv in E. destruct E as (-> & r & ch & R).
    exists [], r, ch. cbn [map concat app]. intuition. 
  - discriminate.
Qed.

Lemma plain_read_msg_inv : forall s b s' b' m, plain_read s b = RMsg s' b' m ->
  exists dropped ver,
    b = concat (map raw_frame dropped) ++ frame (m_type m) ver (m_frag m) ++ b' /\
    Forall (fun d => raw_ok d /\ (ccs_rec d \/ (ps_skip s = true /\ rr_ty d = ct_appdata))) dropped /\
    (m_type m = ct_handshake \/ m_type m = ct_alert) /\
    0 < blen (m_frag m) /\ blen (m_frag m) <= 16384 /\
    s' = mkP false (Some ver).
Proof.
  intros s b. unfold plain_read. pattern s, b, (read_of plain_iter s b).
  apply read_of_ind; [apply plain_iter_laws|..].
  - intros s0 b0 s' b' E IH s1 b1 m H.
    destruct (IH _ _ _ H) as (dr & ver & R1 & R2 & R3). clear IH H.
    assert (exists d, raw_ok d /\ b0 = raw_frame d ++ b' /\
              (ccs_rec d \/ (ps_skip s0 = true /\ rr_ty d = ct_appdata)) /\
              (ps_skip s' = true -> ps_skip s0 = true)) as (d & D1 & D2 & D3 & D4).
    { unfold plain_iter in E.
      destruct (header b0) as [[[[t v] l] r]|] eqn:Hh; [|discriminate].
      destruct (take l r) as [[c r']|] eqn:Ht; [|killb; discriminate].
      destruct (header_take_inv _ _ _ _ _ _ _ Hh Ht) as (H1 & H2 & H3 & H4 & H5).
      exists (mkRaw t v c). destruct (ps_skip s0 && (t =? ct_appdata)) eqn:E1.
      - injection E as <- <-. apply andb_true_iff in E1. rewrite N.eqb_eq in E1.
        repeat split; try assumption; try tauto.
      - destruct (negb _); [discriminate|]. destruct (_ <? l); [discriminate|].
        destruct (l =? 0); [discriminate|]. destruct (N.eqb_spec t ct_ccs); [|discriminate].
        destruct (bytes_eqb c [x01]) eqn:Ec; [|discriminate]. apply bytes_eqb_eq in Ec.
        injection E as <- <-. repeat split; try assumption.
        + left. split; assumption.
        + cbn [ps_skip negb]. rewrite andb_false_r. tauto. }
    exists (d :: dr), ver. split; [|split; [|exact R3]].
    + cbn [map concat]. rewrite D2, R1, <- app_assoc. reflexivity.
    + constructor; [split; assumption|]. eapply Forall_impl; [|exact R2].
      intros x [K1 K2]. split; [assumption|]. tauto.
  - discriminate.
  - intros s0 b0 s' b' m E s1 b1 m1 [= <- <- <-].
    unfold plain_iter in E.
    destruct (header b0) as [[[[t v] l] r]|] eqn:Hh; [|discriminate].
    destruct (take l r) as [[c r']|] eqn:Ht; [|killb; discriminate].
    destruct (header_take_inv _ _ _ _ _ _ _ Hh Ht) as (H1 & H2 & H3 & H4 & H5).
    destruct (ps_skip s0 && (t =? ct_appdata)) eqn:E1; [discriminate|].
    destruct (negb _) eqn:E2; [discriminate|]. destruct (N.ltb_spec kMaxPlaintextRecordSize l); [discriminate|].
    destruct (N.eqb_spec l 0); [discriminate|].
    apply negb_false_iff in E2. rewrite !orb_true_iff, !N.eqb_eq in E2.
    destruct (N.eqb_spec t ct_ccs); [destruct (bytes_eqb c [x01]); discriminate|].
    injection E as <- <- <-. exists [], v. cbn [map concat app m_type m_frag].
    unfold kMaxPlaintextRecordSize in *. subst l.
    split; [assumption|]. split; [constructor|]. split; [tauto|]. split; [lia|]. split; [lia|].
    cbn [negb]. rewrite andb_true_r. destruct (ps_skip s0); reflexivity.
  - discriminate.
Qed.
