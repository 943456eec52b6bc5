From Verif Require Import Base Str Hkdf HkdfSpec HkdfProofs KeySched KeySchedSpec.

Section P.
  Variable h : hashalg.
  Hypothesis Hh : hash_ok h.

  Definition enc_stage (g : stage) : option ksecret :=
    match g with
    | Start => None
    | Early psk => Some (KEarly (EarlySecret h psk))
    | Handshake psk dh => Some (KHandshake (HandshakeSecret h psk dh))
    | Master psk dh => Some (KMaster (MasterSecret h psk dh))
    end.
  Definition enc_traffic (t : traffic) : apptraffic :=
    mkApp (client_traffic h t) (N.of_nat (tr_c t) mod 2 ^ 32) (server_traffic h t) (N.of_nat (tr_s t) mod 2 ^ 32).
  Definition rel (s : ks) (st : stage * option traffic) : Prop :=
    ks_secret s = enc_stage (fst st) /\ ks_app s = option_map enc_traffic (snd st) /\
    match snd st with Some t => blen (tr_hash t) = h_len h | None => True end.

  Lemma hl16 : h_len h < 65536 /\ h_len h <= 255 /\ 0 < h_len h.
  Proof. destruct Hh. lia. Qed.
  Lemma es_len psk : blen (EarlySecret h psk) = h_len h.
  Proof. apply Extract_len, Hh. Qed.
  Lemma hs_len psk dh : blen (HandshakeSecret h psk dh) = h_len h.
  Proof. apply Extract_len, Hh. Qed.
  Lemma ms_len psk dh : blen (MasterSecret h psk dh) = h_len h.
  Proof. apply Extract_len, Hh. Qed.
  Lemma ExpandLabel_len s l c L : blen (ExpandLabel h s l c L) = L.
  Proof. apply Expand_len, Hh. Qed.
  Lemma iter_len n x : blen x = h_len h -> blen (Nat.iter n (NextTraffic h) x) = h_len h.
  Proof.
    intros H. destruct n; [exact H|]. cbn [Nat.iter nat_rect]. unfold NextTraffic. apply ExpandLabel_len.
  Qed.
  Lemma ct_len t : blen (client_traffic h t) = h_len h.
  Proof. apply iter_len, ExpandLabel_len. Qed.
  Lemma st_len t : blen (server_traffic h t) = h_len h.
  Proof. apply iter_len, ExpandLabel_len. Qed.
  Lemma ds_ok secret label th : blen secret = h_len h -> blen th = h_len h -> blen label <= 249 ->
    deriveSecret h secret label th (h_len h) = Ok (DeriveSecret h secret label th).
  Proof. intros. unfold DeriveSecret. pose proof hl16. apply deriveSecret_ok; auto; lia. Qed.
  Lemma ds8_ok secret label th : blen secret = h_len h -> blen th = h_len h -> blen label <= 249 ->
    deriveSecret h secret label th 8 = Ok (ExpandLabel h secret label th 8).
  Proof. intros. pose proof hl16. apply deriveSecret_ok; auto; lia. Qed.
  Lemma blank_len : blen (h_blank h) = h_len h.
  Proof. rewrite (ho_blank h Hh). apply (ho_digest h Hh). Qed.
  Lemma derived_ok secret : blen secret = h_len h ->
    deriveSecret h secret (str "derived") (h_blank h) (h_len h) =
    Ok (DeriveSecret h secret (str "derived") (h_fn h [])).
  Proof.
    intros. rewrite ds_ok; auto; [|apply blank_len|vm_compute; discriminate].
    rewrite (ho_blank h Hh). reflexivity.
  Qed.
  Lemma el_ok secret label c L : blen secret = h_len h -> blen c <= 255 -> blen label <= 249 ->
    L < 65536 -> L <= 255 * h_len h ->
    expandLabel h secret label (Some c) L = Ok (ExpandLabel h secret label c L).
  Proof. intros. apply (expandLabel_ok h secret label (Some c) L); auto. Qed.
  Lemma extract_zero x : hkdf_extract h (zeros (h_len h)) x = Ok (EarlySecret h x).
  Proof. rewrite hkdf_extract_ok by exact Hh. reflexivity. Qed.

  Lemma mod_succ n : (n mod 2 ^ 32 + 1) mod 2 ^ 32 = (n + 1) mod 2 ^ 32.
  Proof. rewrite N.add_mod_idemp_l by discriminate. reflexivity. Qed.

  Ltac lab := vm_compute; discriminate.

  Lemma step_ok s st op : rel s st -> op_ok h op ->
    match spec_step h st op with
    | Some (st', out) => exists s', ks_step h s op = (s', Ok out) /\ rel s' st'
    | None => exists e, ks_step h s op = (s, Err e)
    end.
  Proof.
    destruct st as [g t]. intros (Hs & Ha & Ht) Hop. cbn [fst snd] in *.
    destruct s as [sec app]. cbn [ks_secret ks_app] in *. subst sec app.
    pose proof hl16 as Hl16.
    destruct op; cbn [spec_step ks_step op_ok ks_secret ks_app] in *.
    - destruct g; cbn [enc_stage]; try (eexists; reflexivity).
      rewrite extract_zero. cbn [put]. eexists; split; [reflexivity|]. repeat split; assumption.
    - destruct g; cbn [enc_stage as_early bind put]; try (eexists; reflexivity).
      rewrite derived_ok by apply es_len. cbn [bind]. rewrite hkdf_extract_ok by exact Hh. cbn [put].
      eexists; split; [reflexivity|]. repeat split; assumption.
    - destruct g; cbn [enc_stage try_early bind put ks_secret ks_app]; try (eexists; reflexivity).
      + rewrite extract_zero. cbn [put ks_secret ks_app try_early bind].
        rewrite derived_ok by apply es_len. cbn [bind]. rewrite hkdf_extract_ok by exact Hh. cbn [put].
        eexists; split; [reflexivity|]. repeat split; assumption.
      + rewrite derived_ok by apply es_len. cbn [bind]. rewrite hkdf_extract_ok by exact Hh. cbn [put].
        eexists; split; [reflexivity|]. repeat split; assumption.
    - destruct g; cbn [enc_stage try_handshake bind put]; try (eexists; reflexivity).
      rewrite derived_ok by apply hs_len. cbn [bind]. rewrite hkdf_extract_ok by exact Hh. cbn [put].
      eexists; split; [reflexivity|]. repeat split; assumption.
    - destruct g; cbn [enc_stage as_master bind put]; try (eexists; reflexivity).
      rewrite !ds_ok by (auto using ms_len; lab). cbn [bind put].
      eexists; split; [reflexivity|]. repeat split. exact Hop.
    - destruct g; cbn [enc_stage]; try (eexists; reflexivity).
      eexists; split; [reflexivity|]. repeat split; assumption.
    - destruct t as [t|]; cbn [option_map deref_app bind put].
      2:{ destruct g; eexists; reflexivity. }
      destruct g; cbn [at_client at_cgen enc_traffic];
        rewrite el_ok by (auto using ct_len; try lab; lia); cbn [bind put];
        (eexists; split; [cbn [at_cgen]; f_equal; f_equal; f_equal; rewrite mod_succ; f_equal; lia|]);
        (split; [reflexivity|split; [|exact Ht]]);
        cbn [ks_app snd option_map]; f_equal; unfold enc_traffic;
        cbn [tr_c tr_s at_server at_sgen]; f_equal; rewrite mod_succ; f_equal; lia.
    - destruct t as [t|]; cbn [option_map deref_app bind put].
      2:{ destruct g; eexists; reflexivity. }
      destruct g; cbn [at_server at_sgen enc_traffic];
        rewrite el_ok by (auto using st_len; try lab; lia); cbn [bind put];
        (eexists; split; [cbn [at_sgen]; f_equal; f_equal; f_equal; rewrite mod_succ; f_equal; lia|]);
        (split; [reflexivity|split; [|exact Ht]]);
        cbn [ks_app snd option_map]; f_equal; unfold enc_traffic;
        cbn [tr_c tr_s at_client at_cgen]; f_equal; rewrite mod_succ; f_equal; lia.
    - destruct g; cbn [enc_stage as_early bind]; try (eexists; reflexivity).
      match goal with |- exists s', (?s0, _) = _ /\ _ => exists s0 end.
      split; [|repeat split; assumption].
      destruct s; cbn [early_label early_length early_spec];
        try (rewrite ds_ok by (auto using es_len; lab); reflexivity);
        (unfold kEchAcceptConfirmationSize; rewrite ds8_ok by (auto using es_len; lab); reflexivity).
    - destruct g; cbn [enc_stage as_handshake bind]; try (eexists; reflexivity).
      match goal with |- exists s', (?s0, _) = _ /\ _ => exists s0 end.
      split; [|repeat split; assumption].
      destruct s; cbn [hs_label hs_length hs_spec];
        try (rewrite ds_ok by (auto using hs_len; lab); reflexivity);
        (unfold kEchAcceptConfirmationSize; rewrite ds8_ok by (auto using hs_len; lab); reflexivity).
    - destruct g; cbn [enc_stage as_master bind]; try (eexists; reflexivity).
      match goal with |- exists s', (?s0, _) = _ /\ _ => exists s0 end.
      split; [|repeat split; assumption].
      destruct s; cbn [master_label master_spec]; rewrite ds_ok by (auto using ms_len; lab); reflexivity.
    - destruct t as [t|]; cbn [option_map deref_app bind].
      2:{ destruct s, g; eexists; reflexivity. }
      destruct s, g; (eexists; split; [reflexivity|repeat split; assumption]).
    - destruct Hop as (? & ? & ? & ? & ?).
      match goal with |- exists s', (?s0, _) = _ /\ _ => exists s0 end.
      split; [|repeat split; assumption].
      rewrite !el_ok by (auto; try lab; try (rewrite (@blen_nil byte); lia)). reflexivity.
    - destruct Hop as (? & ?).
      match goal with |- exists s', (?s0, _) = _ /\ _ => exists s0 end.
      split; [|repeat split; assumption].
      rewrite el_ok by (auto; try lab; lia). reflexivity.
  Qed.

  Lemma run_ok ops : forall s st, rel s st -> Forall (op_ok h) ops ->
    Forall2 agrees (snd (ks_run h s ops)) (spec_run h st ops).
  Proof.
    induction ops as [|o ops IH]; intros s st Hr Ho; [constructor|].
    inversion Ho as [|? ? Ho1 Ho2]; subst. cbn [ks_run spec_run].
    pose proof (step_ok s st o Hr Ho1) as H.
    destruct (spec_step h st o) as [[st' out]|].
    - destruct H as (s' & -> & Hr'). specialize (IH s' st' Hr' Ho2).
      destruct (ks_run h s' ops). constructor; [reflexivity|exact IH].
    - destruct H as (e & ->). specialize (IH s st Hr Ho2).
      destruct (ks_run h s ops). constructor; [exists e; reflexivity|exact IH].
  Qed.
End P.

Lemma rel_init h : rel h ks_init (Start, None).
Proof. repeat split. Qed.
