From Verif Require Import Base Codec CodecSpec Handshake HandshakeSpec.

(** ** Elements *)
Lemma lawful_ext_codec :
  lawful wf_ext (fun e => ofits 2 (ext_data e)) w_ext c_ext.
Proof.
  eapply lawful_ext; [| | |
    apply (lawful_iso _ _ _ _ _ _) with (3 := lawful_pair _ _ _ _ _ _ _ _
       (lawful_u 2 ltac:(lia)) (lawful_buf W16))].
  - intros t; reflexivity.
  - intros t; reflexivity.
  - intros t; reflexivity.
  - intros []; reflexivity.
  - intros []; reflexivity.
Qed.

Lemma lawful_exts : lawful wf_exts fit_exts w_exts (c_vec W16 c_ext).
Proof. exact (lawful_vec _ _ _ _ lawful_ext_codec W16). Qed.

Lemma lawful_ce : lawful wf_ce fit_ce w_ce c_cert_entry.
Proof.
  eapply lawful_ext; [| | |
    apply (lawful_iso _ _ _ _ _ _) with (3 := lawful_pair _ _ _ _ _ _ _ _
       (lawful_buf W24) lawful_exts)].
  - intros t; reflexivity.
  - intros t; reflexivity.
  - intros t; reflexivity.
  - intros []; reflexivity.
  - intros []; reflexivity.
Qed.

Definition lawful_ces := lawful_vec _ _ _ _ lawful_ce W24.
Definition lawful_suites := lawful_vec _ _ _ _ (lawful_u 2 ltac:(lia)) W16.
Definition lawful_comps := lawful_vec _ _ _ _ (lawful_u 1 ltac:(lia)) W8.

(** ** Statement-level lemmas for the sequential encoders/decoders *)

Lemma write_buf_any w b :
  ofits (lw_nat w) b = true -> write_buf w b = Ok (opaque (lw_nat w) b).
Proof.
  unfold ofits, opaque, tls_vec. destruct b as [d|]; cbn [write_buf bufbytes]; intros H.
  - rewrite write_len_ok by exact H. reflexivity.
  - rewrite write_len_ok by exact H. cbn [bind]. rewrite app_nil_r. reflexivity.
Qed.
Lemma write_buf_any_inv w b bs :
  write_buf w b = Ok bs -> ofits (lw_nat w) b = true /\ bs = opaque (lw_nat w) b.
Proof.
  unfold ofits, opaque, tls_vec. destruct b as [d|]; cbn [write_buf bufbytes]; intros H.
  - inv_bind. match goal with H : write_len _ _ = _ |- _ => apply write_len_inv in H; destruct H as [? ->] end. auto.
  - apply write_len_inv in H. rewrite app_nil_r. exact H.
Qed.
Lemma read_buf_ok w b rest :
  nonnull b = true -> ofits (lw_nat w) b = true ->
  read_buf w (opaque (lw_nat w) b ++ rest) = Ok (b, blen (opaque (lw_nat w) b), rest).
Proof. exact (law_rt _ _ _ _ (lawful_buf w) b rest). Qed.
Lemma read_buf_inv w inp b n rest :
  read_buf w inp = Ok (b, n, rest) ->
  nonnull b = true /\ ofits (lw_nat w) b = true /\ inp = opaque (lw_nat w) b ++ rest.
Proof.
  intros H. apply (law_canon _ _ _ _ (lawful_buf w)) in H. intuition.
Qed.
Lemma read_u_ok k n rest :
  (1 <= k)%nat -> in_u k n = true -> read_u k (be k n ++ rest) = Ok (n, N.of_nat k, rest).
Proof.
  intros Hk H. pose proof (law_rt _ _ _ _ (lawful_u k Hk) n rest H eq_refl) as E.
  cbn in E. rewrite be_blen in E. exact E.
Qed.
Lemma read_u_inv k inp v n rest :
  read_u k inp = Ok (v, n, rest) -> in_u k v = true /\ inp = be k v ++ rest.
Proof.
  unfold read_u. intros H. inv_bind.
  match goal with H : read_be _ _ = _ |- _ => apply read_be_inv in H; destruct H as [? ->] end.
  unfold in_u. split; [lia|reflexivity].
Qed.
Lemma read_random_ok r rest :
  len32 r = true -> read_random (r ++ rest) = Ok (r, rest).
Proof.
  unfold len32, read_random. intros H. rewrite take_app_n by lia. reflexivity.
Qed.
Lemma read_random_inv inp r rest :
  read_random inp = Ok (r, rest) -> len32 r = true /\ inp = r ++ rest.
Proof.
  unfold read_random, len32. destruct (take 32 inp) as [[a b]|] eqn:E; [|discriminate].
  injection 1 as <- <-. apply take_Some in E. destruct E as [-> E]. split; [lia|reflexivity].
Qed.
Lemma read_exts_ok l rest :
  wf_exts l = true -> fit_exts l = true -> read_exts (w_exts l ++ rest) = Ok (l, rest).
Proof.
  intros H1 H2. unfold read_exts.
  pose proof (law_rt _ _ _ _ lawful_exts l rest H1 H2) as E. cbn [c_vec c_rd] in E.
  rewrite E. reflexivity.
Qed.
Lemma read_exts_inv inp l rest :
  read_exts inp = Ok (l, rest) ->
  wf_exts l = true /\ fit_exts l = true /\ inp = w_exts l ++ rest.
Proof.
  unfold read_exts. intros H. inv_bind.
  match goal with H : read_vec _ _ _ = _ |- _ =>
    apply (law_canon _ _ _ _ lawful_exts) in H end. intuition.
Qed.
Lemma write_exts_ok l :
  wf_exts l = true -> fit_exts l = true -> write_exts l = Ok (w_exts l).
Proof. exact (law_wr _ _ _ _ lawful_exts l). Qed.
Lemma write_exts_inv l bs :
  wf_exts l = true -> write_exts l = Ok bs -> fit_exts l = true /\ bs = w_exts l.
Proof. exact (law_wr_inv _ _ _ _ lawful_exts l bs). Qed.

Definition fit_suites (l : list N) := fits_len 2 (blen (concat (map (be 2) l))).
Definition fit_comps (l : list N) := fits_len 1 (blen (concat (map (be 1) l))).
Definition fit_ces (l : list CertificateEntry) :=
  forallb fit_ce l && fits_len 3 (blen (concat (map w_ce l))).

Lemma forallb_true {A} (l : list A) : forallb (fun _ => true) l = true.
Proof. induction l; auto. Qed.

Lemma suites_ok l : forallb (in_u 2) l = true -> fit_suites l = true ->
  write_vec W16 (c_u 2) l = Ok (tls_list 2 (be 2) l).
Proof.
  intros H1 H2. apply (law_wr _ _ _ _ lawful_suites l H1).
  rewrite forallb_true. exact H2.
Qed.
Lemma suites_inv l bs : forallb (in_u 2) l = true -> write_vec W16 (c_u 2) l = Ok bs ->
  fit_suites l = true /\ bs = tls_list 2 (be 2) l.
Proof.
  intros H1 H2. apply (law_wr_inv _ _ _ _ lawful_suites l bs H1) in H2.
  rewrite forallb_true in H2. exact H2.
Qed.
Lemma suites_rd l rest : forallb (in_u 2) l = true -> fit_suites l = true ->
  read_vec W16 (c_u 2) (tls_list 2 (be 2) l ++ rest) =
  Ok (l, blen (tls_list 2 (be 2) l), rest).
Proof.
  intros H1 H2. apply (law_rt _ _ _ _ lawful_suites l rest H1).
  rewrite forallb_true. exact H2.
Qed.
Lemma suites_rd_inv inp l n rest : read_vec W16 (c_u 2) inp = Ok (l, n, rest) ->
  forallb (in_u 2) l = true /\ fit_suites l = true /\ inp = tls_list 2 (be 2) l ++ rest.
Proof.
  intros H. apply (law_canon _ _ _ _ lawful_suites) in H.
  rewrite forallb_true in H. destruct H as (H1 & H2 & H3 & _). auto.
Qed.
Lemma comps_ok l : forallb (in_u 1) l = true -> fit_comps l = true ->
  write_vec W8 (c_u 1) l = Ok (tls_list 1 (be 1) l).
Proof.
  intros H1 H2. apply (law_wr _ _ _ _ lawful_comps l H1).
  rewrite forallb_true. exact H2.
Qed.
Lemma comps_inv l bs : forallb (in_u 1) l = true -> write_vec W8 (c_u 1) l = Ok bs ->
  fit_comps l = true /\ bs = tls_list 1 (be 1) l.
Proof.
  intros H1 H2. apply (law_wr_inv _ _ _ _ lawful_comps l bs H1) in H2.
  rewrite forallb_true in H2. exact H2.
Qed.
Lemma comps_rd l rest : forallb (in_u 1) l = true -> fit_comps l = true ->
  read_vec W8 (c_u 1) (tls_list 1 (be 1) l ++ rest) =
  Ok (l, blen (tls_list 1 (be 1) l), rest).
Proof.
  intros H1 H2. apply (law_rt _ _ _ _ lawful_comps l rest H1).
  rewrite forallb_true. exact H2.
Qed.
Lemma comps_rd_inv inp l n rest : read_vec W8 (c_u 1) inp = Ok (l, n, rest) ->
  forallb (in_u 1) l = true /\ fit_comps l = true /\ inp = tls_list 1 (be 1) l ++ rest.
Proof.
  intros H. apply (law_canon _ _ _ _ lawful_comps) in H.
  rewrite forallb_true in H. destruct H as (H1 & H2 & H3 & _). auto.
Qed.
Lemma ces_ok l : forallb wf_ce l = true -> fit_ces l = true ->
  write_vec W24 c_cert_entry l = Ok (tls_list 3 w_ce l).
Proof. exact (law_wr _ _ _ _ lawful_ces l). Qed.
Lemma ces_inv l bs : forallb wf_ce l = true -> write_vec W24 c_cert_entry l = Ok bs ->
  fit_ces l = true /\ bs = tls_list 3 w_ce l.
Proof. exact (law_wr_inv _ _ _ _ lawful_ces l bs). Qed.
Lemma ces_rd l rest : forallb wf_ce l = true -> fit_ces l = true ->
  read_vec W24 c_cert_entry (tls_list 3 w_ce l ++ rest) =
  Ok (l, blen (tls_list 3 w_ce l), rest).
Proof. exact (law_rt _ _ _ _ lawful_ces l rest). Qed.
Lemma ces_rd_inv inp l n rest : read_vec W24 c_cert_entry inp = Ok (l, n, rest) ->
  forallb wf_ce l = true /\ fit_ces l = true /\ inp = tls_list 3 w_ce l ++ rest.
Proof.
  intros H. apply (law_canon _ _ _ _ lawful_ces) in H. destruct H as (H1 & H2 & H3 & _). auto.
Qed.

Ltac split_andb :=
  repeat match goal with
  | H : (_ && _)%bool = true |- _ => apply andb_true_iff in H; destruct H
  end.
Ltac join_andb :=
  repeat match goal with |- (_ && _)%bool = true => apply andb_true_iff; split end;
  try assumption; try reflexivity.

(** Inverts successful component writes. *)
Ltac inv_writes :=
  repeat match goal with
  | H : write_u _ _ = Ok _ |- _ => unfold write_u in H; injection H; clear H; intros; subst
  | H : write_random _ = Ok _ |- _ => unfold write_random in H; injection H; clear H; intros; subst
  | H : write_buf _ _ = Ok _ |- _ => apply write_buf_any_inv in H; destruct H as [? ->]
  | H : write_len _ _ = Ok _ |- _ => apply write_len_inv in H; destruct H as [? ->]
  | H : write_exts _ = Ok _ |- _ => apply write_exts_inv in H; [|assumption]; destruct H as [? ->]
  | H : write_vec W16 (c_u 2) _ = Ok _ |- _ => apply suites_inv in H; [|assumption]; destruct H as [? ->]
  | H : write_vec W8 (c_u 1) _ = Ok _ |- _ => apply comps_inv in H; [|assumption]; destruct H as [? ->]
  | H : write_vec W24 c_cert_entry _ = Ok _ |- _ => apply ces_inv in H; [|assumption]; destruct H as [? ->]
  end.
Ltac inv_reads :=
  repeat match goal with
  | H : read_u _ _ = Ok _ |- _ => apply read_u_inv in H; destruct H as [? ->]
  | H : read_be _ _ = Ok _ |- _ => apply read_be_inv in H; destruct H as [? ->]
  | H : read_random _ = Ok _ |- _ => apply read_random_inv in H; destruct H as [? ->]
  | H : read_buf _ _ = Ok _ |- _ => apply read_buf_inv in H; destruct H as (? & ? & ->)
  | H : read_exts _ = Ok _ |- _ => apply read_exts_inv in H; destruct H as (? & ? & ->)
  | H : read_vec W16 (c_u 2) _ = Ok _ |- _ => apply suites_rd_inv in H; destruct H as (? & ? & ->)
  | H : read_vec W8 (c_u 1) _ = Ok _ |- _ => apply comps_rd_inv in H; destruct H as (? & ? & ->)
  | H : read_vec W24 c_cert_entry _ = Ok _ |- _ => apply ces_rd_inv in H; destruct H as (? & ? & ->)
  end.
Ltac do_writes :=
  repeat (first
    [ rewrite (write_buf_any W8) by assumption
    | rewrite (write_buf_any W16) by assumption
    | rewrite (write_buf_any W24) by assumption
    | rewrite write_len_ok by assumption
    | rewrite write_exts_ok by assumption
    | rewrite suites_ok by assumption
    | rewrite comps_ok by assumption
    | rewrite ces_ok by assumption
    | progress unfold write_u, write_random ]; cbn [bind]).
Ltac do_reads :=
  rewrite <- ?app_assoc;
  repeat (first
    [ rewrite read_u_ok by (assumption || lia)
    | rewrite read_be_app by (assumption || lia)
    | rewrite read_random_ok by assumption
    | rewrite (read_buf_ok W8) by assumption
    | rewrite (read_buf_ok W16) by assumption
    | rewrite (read_buf_ok W24) by assumption
    | rewrite suites_rd by assumption
    | rewrite comps_rd by assumption
    | rewrite ces_rd by assumption
    | rewrite read_exts_ok by assumption ]; cbn [bind]).

(** ** encode succeeds exactly when everything fits, and yields the RFC format *)
Lemma encode_body_iff m bs :
  wf_msg m = true ->
  (encode_body m = Ok (Some bs) <-> fit_body m = true /\ bs = w_body m).
Proof.
  intros Hwf. split.
  - intros H. destruct m as [m|m|m| |l|m|m|m|m|m|k|b|b]; cbn [encode_body wf_msg fit_body w_body] in *.
    + unfold encode_ch in H. split_andb. inv_bind. inv_writes. split; [join_andb|reflexivity].
    + unfold encode_sh in H. split_andb.
      destruct m as [v r sid cs cm ex]; cbn [sh_version sh_random sh_session_id sh_suite sh_compression sh_extensions] in *.
      destruct sid as [sid|]; [|discriminate].
      inv_bind. inv_writes. split; [join_andb|reflexivity].
    + unfold encode_hrr in H. split_andb. inv_bind. inv_writes. split; [join_andb|reflexivity].
    + unfold encode_eoed in H. inv_bind. auto.
    + unfold encode_ee in H. inv_bind. inv_writes. auto.
    + unfold encode_cr in H. split_andb. inv_bind. inv_writes. split; [join_andb|reflexivity].
    + unfold encode_cert in H. split_andb. inv_bind. inv_writes.
      match goal with H : fit_ces _ = true |- _ => unfold fit_ces in H end. split_andb.
      split; [join_andb|reflexivity].
    + unfold encode_cc in H. split_andb. inv_bind. inv_writes. split; [join_andb|reflexivity].
    + unfold encode_cv in H. split_andb. inv_bind. inv_writes. split; [join_andb|reflexivity].
    + unfold encode_nst in H. split_andb.
      destruct m as [l a n t ex]; cbn [nst_lifetime nst_age_add nst_nonce nst_ticket nst_extensions] in *.
      destruct n as [n|]; [|discriminate].
      inv_bind. inv_writes. split; [join_andb|reflexivity].
    + unfold encode_ku in H. inv_bind. inv_writes. auto.
    + injection H as ->. auto.
    + injection H as ->. auto.
  - intros [Hf ->].
    destruct m as [m|m|m| |l|m|m|m|m|m|k|b|b]; cbn [encode_body wf_msg fit_body w_body] in *; split_andb.
    + unfold encode_ch. do_writes. reflexivity.
    + unfold encode_sh.
      destruct m as [v r sid cs cm ex]; cbn [sh_version sh_random sh_session_id sh_suite sh_compression sh_extensions] in *.
      destruct sid as [sid|]; [|discriminate]. do_writes. reflexivity.
    + unfold encode_hrr. do_writes. reflexivity.
    + reflexivity.
    + unfold encode_ee. do_writes. reflexivity.
    + unfold encode_cr. do_writes. reflexivity.
    + unfold encode_cert. rewrite ces_ok by (assumption || (unfold fit_ces; join_andb)).
      do_writes. reflexivity.
    + unfold encode_cc. do_writes. reflexivity.
    + unfold encode_cv. do_writes. reflexivity.
    + unfold encode_nst.
      destruct m as [l a n t ex]; cbn [nst_lifetime nst_age_add nst_nonce nst_ticket nst_extensions] in *.
      destruct n as [n|]; [|discriminate]. do_writes. reflexivity.
    + reflexivity.
    + destruct b; [reflexivity|discriminate].
    + destruct b; [reflexivity|discriminate].
Qed.

(** ** decode inverts encode *)
Lemma decode_all_ok {T} (d : bytes -> res (T * bytes)) b t :
  d (b ++ []) = Ok (t, []) -> decode_all d b = Ok t.
Proof. rewrite app_nil_r. unfold decode_all. intros ->. reflexivity. Qed.
Lemma decode_all_inv {T} (d : bytes -> res (T * bytes)) b t :
  decode_all d b = Ok t -> d b = Ok (t, []).
Proof.
  unfold decode_all. intros H. inv_bind.
  match goal with H : match ?l with [] => _ | _ => _ end = _ |- _ => destruct l; [|discriminate] end.
  inv_bind. assumption.
Qed.

Lemma w_exts_len l : 2 <= blen (w_exts l).
Proof. unfold w_exts, tls_list, tls_vec. rewrite blen_app, be_blen. lia. Qed.

Lemma decode_ch_ok c rest :
  wf_msg (MClientHello c) = true -> fit_body (MClientHello c) = true ->
  decode_ch (w_body (MClientHello c) ++ rest) = Ok (c, rest).
Proof.
  cbn [wf_msg fit_body w_body]. intros Hwf Hf. split_andb.
  unfold decode_ch. do_reads.
  destruct (w_exts (ch_extensions c) ++ rest) eqn:E.
  - pose proof (w_exts_len (ch_extensions c)) as H'.
    apply (f_equal blen) in E. rewrite blen_app, blen_nil in E. lia.
  - destruct c; reflexivity.
Qed.

Lemma parse_ok m :
  receivable m = true -> wf_msg m = true -> fit_body m = true ->
  parse_handshake (hs_type m) (w_body m) = Ok m.
Proof.
  intros Hr Hwf Hf. unfold parse_handshake.
  destruct m as [m|m|m| |l|m|m|m|m|m|k|b|b]; try discriminate Hr;
    cbn [hs_type];
    repeat match goal with |- context [?a =? ?b] =>
      let v := eval vm_compute in (a =? b) in change (a =? b) with v; cbv iota end.
  - erewrite decode_all_ok; [reflexivity|]. apply decode_ch_ok; assumption.
  - cbn [wf_msg fit_body w_body] in *. split_andb.
    erewrite decode_all_ok.
    2:{ unfold decode_sh. do_reads. reflexivity. }
    cbn [bind sh_random]. destruct (bytes_eqb _ _) eqn:E; [discriminate|].
    destruct m; reflexivity.
  - cbn [wf_msg fit_body w_body] in *. split_andb.
    erewrite decode_all_ok.
    2:{ unfold decode_sh. rewrite <- !app_assoc.
        rewrite read_u_ok by (assumption || lia). cbn [bind].
        rewrite read_random_ok by reflexivity. cbn [bind]. do_reads. reflexivity. }
    cbn [bind sh_random]. rewrite bytes_eqb_refl. destruct m; reflexivity.
  - reflexivity.
  - cbn [wf_msg fit_body w_body] in *.
    erewrite decode_all_ok; [reflexivity|]. unfold decode_ee. do_reads. reflexivity.
  - cbn [wf_msg fit_body w_body] in *. split_andb.
    erewrite decode_all_ok; [reflexivity|]. unfold decode_cr. do_reads. destruct m; reflexivity.
  - cbn [wf_msg fit_body w_body] in *. split_andb.
    erewrite decode_all_ok; [reflexivity|]. unfold decode_cert. rewrite <- app_assoc.
    rewrite (read_buf_ok W8) by assumption. cbn [bind].
    rewrite ces_rd by (assumption || (unfold fit_ces; join_andb)). cbn [bind].
    destruct m; reflexivity.
  - cbn [wf_msg fit_body w_body] in *. split_andb.
    erewrite decode_all_ok; [reflexivity|]. unfold decode_cc. unfold fits_len in *.
    do_reads. destruct m; reflexivity.
  - cbn [wf_msg fit_body w_body] in *. split_andb.
    erewrite decode_all_ok; [reflexivity|]. unfold decode_cv. do_reads. destruct m; reflexivity.
  - cbn [wf_msg fit_body w_body] in *. split_andb.
    erewrite decode_all_ok; [reflexivity|]. unfold decode_nst. do_reads. destruct m; reflexivity.
  - cbn [wf_msg fit_body w_body] in *.
    erewrite decode_all_ok; [reflexivity|]. unfold decode_ku. do_reads. reflexivity.
  - cbn [wf_msg w_body] in *. destruct b; [reflexivity|discriminate].
Qed.

(** ** decode accepts only canonical encodings *)

(** What [parse_handshake] accepts: a canonical encoding, or a ClientHello whose
    (empty) extensions block is missing. *)
Definition ch_no_exts (m : hsmsg) (body : bytes) : Prop :=
  exists c, m = MClientHello c /\ ch_extensions c = [] /\
            w_body m = body ++ [x00; x00].

Lemma parse_canon ty body m :
  parse_handshake ty body = Ok m ->
  receivable m = true /\ wf_msg m = true /\ fit_body m = true /\ hs_type m = ty /\
  (body = w_body m \/ ch_no_exts m body).
Proof.
  unfold parse_handshake. intros H.
  repeat match goal with
  | H : (if ?t =? ?k then _ else _) = Ok _ |- _ =>
      destruct (N.eqb_spec t k) as [->|?]
  end; inv_bind;
  repeat match goal with H : decode_all _ _ = Ok _ |- _ => apply decode_all_inv in H end.
  - (* ClientHello *)
    unfold decode_ch in *. inv_bind.
    match goal with H : match ?l with [] => _ | _ => _ end = _ |- _ =>
      destruct l as [|x r] eqn:?; inv_bind; inv_reads end.
    + cbn [receivable wf_msg fit_body hs_type w_body
           ch_version ch_random ch_session_id ch_suites ch_compression ch_extensions].
      repeat split; try (join_andb; fail). right. eexists. split; [reflexivity|].
      split; [reflexivity|]. cbn [w_body ch_version ch_random ch_session_id ch_suites ch_compression ch_extensions].
      rewrite <- !app_assoc. reflexivity.
    + cbn [receivable wf_msg fit_body hs_type w_body
           ch_version ch_random ch_session_id ch_suites ch_compression ch_extensions].
      rewrite app_nil_r.
      repeat split; try (join_andb; fail). left. reflexivity.
  - (* ServerHello / HelloRetryRequest *)
    unfold decode_sh in *. inv_bind. inv_reads.
    cbn [sh_random] in *. destruct (bytes_eqb _ HrrRandom) eqn:Eh; inv_bind;
    cbn [receivable wf_msg fit_body hs_type w_body
         sh_version sh_random sh_session_id sh_suite sh_compression sh_extensions
         hrr_version hrr_session_id hrr_suite hrr_compression hrr_extensions];
    rewrite ?app_nil_r.
    + apply bytes_eqb_eq in Eh. subst. repeat split; try (join_andb; fail). left. reflexivity.
    + repeat split; try (join_andb; fail).
      * join_andb. rewrite Eh. reflexivity.
      * left. reflexivity.
  - (* EndOfEarlyData *)
    unfold decode_eoed in *. inv_bind. repeat split. left. reflexivity.
  - (* NewSessionTicket *)
    unfold decode_nst in *. inv_bind. inv_reads.
    cbn [receivable wf_msg fit_body hs_type w_body
         nst_lifetime nst_age_add nst_nonce nst_ticket nst_extensions].
    rewrite app_nil_r. repeat split; try (join_andb; fail). left. reflexivity.
  - (* EncryptedExtensions *)
    unfold decode_ee in *. inv_reads. cbn [receivable wf_msg fit_body hs_type w_body].
    rewrite app_nil_r. repeat split; try (join_andb; fail). left. reflexivity.
  - (* Certificate *)
    unfold decode_cert in *. inv_bind. inv_reads.
    cbn [receivable wf_msg fit_body hs_type w_body cm_context cm_list].
    match goal with H : fit_ces _ = true |- _ => unfold fit_ces in H end. split_andb.
    rewrite app_nil_r. repeat split; try (join_andb; fail). left. reflexivity.
  - (* CompressedCertificate *)
    unfold decode_cc in *. inv_bind. inv_reads.
    cbn [receivable wf_msg fit_body hs_type w_body cc_algorithm cc_uncompressed_length cc_message].
    rewrite app_nil_r. repeat split.
    + join_andb. unfold in_u. apply N.ltb_lt.
      match goal with H : _ < 256 ^ N.of_nat 3 |- _ => eapply N.lt_trans; [exact H|] end.
      vm_compute. reflexivity.
    + join_andb. unfold fits_len. apply N.ltb_lt. assumption.
    + left. reflexivity.
  - (* CertificateRequest *)
    unfold decode_cr in *. inv_bind. inv_reads.
    cbn [receivable wf_msg fit_body hs_type w_body cr_context cr_extensions].
    rewrite app_nil_r. repeat split; try (join_andb; fail). left. reflexivity.
  - (* CertificateVerify *)
    unfold decode_cv in *. inv_bind. inv_reads.
    cbn [receivable wf_msg fit_body hs_type w_body cv_algorithm cv_signature].
    rewrite app_nil_r. repeat split; try (join_andb; fail). left. reflexivity.
  - (* Finished *)
    repeat split. left. reflexivity.
  - (* KeyUpdate *)
    unfold decode_ku in *. inv_bind. inv_reads.
    cbn [receivable wf_msg fit_body hs_type w_body].
    rewrite app_nil_r. repeat split; try (join_andb; fail). left. reflexivity.
Qed.

(** ** Full framing, alerts, fuel *)
Lemma hs_type_u1 m : in_u 1 (hs_type m) = true.
Proof. destruct m; reflexivity. Qed.

Lemma encodeHandshake_iff m bs :
  wf_msg m = true ->
  (encodeHandshake m = Ok bs <-> fit_msg m = true /\ bs = w_msg m).
Proof.
  intros Hwf. unfold encodeHandshake, fit_msg, w_msg. split.
  - intros H. inv_bind.
    match goal with H : match ?v with Some _ => _ | None => _ end = _ |- _ =>
      destruct v as [body|]; [|discriminate] end.
    match goal with H : encode_body _ = _ |- _ => apply encode_body_iff in H; [|assumption]; destruct H as [Hf ->] end.
    inv_bind. inv_writes. split; [join_andb|reflexivity].
  - intros [Hf ->]. split_andb.
    rewrite (proj2 (encode_body_iff m (w_body m) Hwf)) by auto. cbn [bind].
    unfold write_u. cbn [bind]. rewrite write_len_ok by assumption. reflexivity.
Qed.

Lemma alert_rt a bs :
  in_u 1 (al_level a) && in_u 1 (al_description a) = true ->
  encode_alert a = Ok bs -> decode_all decode_alert bs = Ok a.
Proof.
  intros H He. split_andb.
  assert (bs = be 1 (al_level a) ++ be 1 (al_description a)) as ->
    by (unfold encode_alert, write_u in He; cbn [bind] in He; congruence).
  apply decode_all_ok. unfold decode_alert.
  do_reads. destruct a; reflexivity.
Qed.
Lemma alert_canon bs a :
  decode_all decode_alert bs = Ok a ->
  in_u 1 (al_level a) && in_u 1 (al_description a) = true /\ encode_alert a = Ok bs.
Proof.
  intros H. apply decode_all_inv in H. unfold decode_alert in H. inv_bind. inv_reads.
  cbn [al_level al_description]. split; [join_andb|].
  unfold encode_alert, write_u. cbn [bind al_level al_description]. rewrite app_nil_r. reflexivity.
Qed.

Lemma read_u_fuel k inp : read_u k inp <> Err EFuel.
Proof.
  intros H. apply bind_Err in H.
  destruct H as [H|[[? ?] [_ H]]]; [exact (read_be_fuel _ _ H)|discriminate].
Qed.
Lemma read_random_fuel inp : read_random inp <> Err EFuel.
Proof. unfold read_random. destruct (take _ _); discriminate. Qed.
Lemma read_exts_fuel inp : read_exts inp <> Err EFuel.
Proof.
  intros H. apply bind_Err in H.
  destruct H as [H|[[[? ?] ?] [_ H]]]; [exact (law_fuel _ _ _ _ lawful_exts _ H)|discriminate].
Qed.

Ltac no_fuel :=
  repeat match goal with
  | H : bind _ _ = Err EFuel |- _ =>
      apply bind_Err in H; destruct H as [H|[? [_ H]]]; cbv beta in H
  | H : (match ?x with pair _ _ => _ end) = Err EFuel |- _ => destruct x
  | H : read_u _ _ = Err EFuel |- _ => exact (read_u_fuel _ _ H)
  | H : read_be _ _ = Err EFuel |- _ => exact (read_be_fuel _ _ H)
  | H : read_random _ = Err EFuel |- _ => exact (read_random_fuel _ H)
  | H : read_exts _ = Err EFuel |- _ => exact (read_exts_fuel _ H)
  | H : read_buf ?w _ = Err EFuel |- _ => exact (law_fuel _ _ _ _ (lawful_buf w) _ H)
  | H : read_vec W16 (c_u 2) _ = Err EFuel |- _ => exact (law_fuel _ _ _ _ lawful_suites _ H)
  | H : read_vec W8 (c_u 1) _ = Err EFuel |- _ => exact (law_fuel _ _ _ _ lawful_comps _ H)
  | H : read_vec W24 c_cert_entry _ = Err EFuel |- _ => exact (law_fuel _ _ _ _ lawful_ces _ H)
  | H : Ok _ = Err _ |- _ => discriminate H
  | H : Err _ = Err EFuel |- _ => discriminate H
  | H : fail = Err EFuel |- _ => discriminate H
  | H : match ?l with [] => _ | _ :: _ => _ end = Err EFuel |- _ => destruct l
  | H : (if ?b then _ else _) = Err EFuel |- _ => destruct b
  end.

Lemma parse_handshake_fuel ty body : parse_handshake ty body <> Err EFuel.
Proof.
  unfold parse_handshake, decode_all, decode_ch, decode_sh, decode_eoed, decode_nst,
    decode_ee, decode_cert, decode_cc, decode_cr, decode_cv, decode_ku.
  intros H. no_fuel.
Qed.
