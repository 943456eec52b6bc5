From Verif Require Import Base Codec CodecSpec Handshake HandshakeSpec HandshakeProofs
  Extensions ExtensionsSpec.

Lemma L_u2s w : lawful (forallb (in_u 2)) (fit_list (lw_nat w) (be 2) yes)
                       (tls_list (lw_nat w) (be 2)) (c_vec w (c_u 2)).
Proof. exact (lawful_vec _ _ _ _ (lawful_u 2 ltac:(lia)) w). Qed.
Lemma L_u1s w : lawful (forallb (in_u 1)) (fit_list (lw_nat w) (be 1) yes)
                       (tls_list (lw_nat w) (be 1)) (c_vec w (c_u 1)).
Proof. exact (lawful_vec _ _ _ _ (lawful_u 1 ltac:(lia)) w). Qed.
Lemma L_nb k : (1 <= k)%nat -> lawful (wf_nb k) fit_nb (w_nb k) (c_pair (c_u k) (c_buf W16)).
Proof.
  intros Hk. eapply lawful_ext; [| | |exact (lawful_pair _ _ _ _ _ _ _ _ (lawful_u k Hk) (lawful_buf W16))];
    intros; reflexivity.
Qed.
Lemma L_nbs k : (1 <= k)%nat -> lawful (forallb (wf_nb k)) (fit_list 2 (w_nb k) fit_nb)
   (tls_list 2 (w_nb k)) (c_vec W16 (c_pair (c_u k) (c_buf W16))).
Proof. intros Hk. exact (lawful_vec _ _ _ _ (L_nb k Hk) W16). Qed.
Lemma L_bufs w v : lawful (forallb nonnull) (fit_list (lw_nat w) (opaque (lw_nat v)) (ofits (lw_nat v)))
   (tls_list (lw_nat w) (opaque (lw_nat v))) (c_vec w (c_buf v)).
Proof. exact (lawful_vec _ _ _ _ (lawful_buf v) w). Qed.
Lemma L_pskid : lawful wf_pskid (fun i => ofits 2 (fst i)) w_pskid c_psk_identity.
Proof.
  eapply lawful_ext; [| | |exact (lawful_pair _ _ _ _ _ _ _ _ (lawful_buf W16) (lawful_u 4 ltac:(lia)))];
    intros; try reflexivity. cbn. rewrite andb_true_r. reflexivity.
Qed.
Lemma L_cpsk : lawful (fun p => forallb wf_pskid (fst p) && forallb nonnull (snd p))
  (fun p => fit_list 2 w_pskid (fun i => ofits 2 (fst i)) (fst p) &&
            fit_list 2 (opaque 1) (ofits 1) (snd p))
  (fun p => tls_list 2 w_pskid (fst p) ++ tls_list 2 (opaque 1) (snd p)) c_client_psk.
Proof. exact (lawful_pair _ _ _ _ _ _ _ _ (lawful_vec _ _ _ _ L_pskid W16) (L_bufs W16 W8)). Qed.
Lemma L_echouter : lawful wf_echouter
  (fun p => let '(_, _, _, enc, payload) := p in ofits 2 enc && ofits 2 payload)
  w_echouter c_ech_outer.
Proof.
  unfold c_ech_outer.
  eapply lawful_ext; [| | |
    apply lawful_pair; [apply lawful_pair; [apply lawful_pair; [apply lawful_pair;
      [apply (lawful_u 2); lia|apply (lawful_u 2); lia]|apply (lawful_u 1); lia]
      |apply (lawful_buf W16)]|apply (lawful_buf W16)]].
  - intros [[[[a b] c] d] e]; reflexivity.
  - intros [[[[a b] c] d] e]; reflexivity.
  - intros [[[[a b] c] d] e]; cbn [fst snd w_echouter]. rewrite <- !app_assoc. reflexivity.
Qed.
Lemma L_dc : lawful wf_dc
  (fun p => let '(_, _, pk, _, sig) := p in ofits 3 pk && ofits 2 sig) w_dc c_deleg_cred.
Proof.
  unfold c_deleg_cred.
  eapply lawful_ext; [| | |
    apply lawful_pair; [apply lawful_pair; [apply lawful_pair; [apply lawful_pair;
      [apply (lawful_u 4); lia|apply (lawful_u 2); lia]|apply (lawful_buf W24)]
      |apply (lawful_u 2); lia]|apply (lawful_buf W16)]].
  - intros [[[[a b] c] d] e]; reflexivity.
  - intros [[[[a b] c] d] e]; cbn [fst snd]. rewrite andb_true_r. reflexivity.
  - intros [[[[a b] c] d] e]; cbn [fst snd w_dc]. rewrite <- !app_assoc. reflexivity.
Qed.
Lemma L_tb : lawful (fun p => in_u 2 (fst p) && forallb (in_u 1) (snd p))
  (fun p => fit_list 1 (be 1) yes (snd p))
  (fun p => be 2 (fst p) ++ tls_list 1 (be 1) (snd p)) c_token_binding.
Proof. exact (lawful_pair _ _ _ _ _ _ _ _ (lawful_u 2 ltac:(lia)) (L_u1s W8)). Qed.
Lemma L_u k : (1 <= k)%nat -> lawful (in_u k) yes (be k) (c_u k).
Proof. apply lawful_u. Qed.
Lemma L_buf w : lawful nonnull (ofits (lw_nat w)) (opaque (lw_nat w)) (c_buf w).
Proof. exact (lawful_buf w). Qed.

(** Generic consequences in the shape used by the extension functions. *)
Lemma wr_iff {T} P f s (c : codec T) (L : lawful P f s c) t bs :
  P t = true -> (c_wr c t = Ok bs <-> f t = true /\ bs = s t).
Proof.
  intros HP. split.
  - apply (law_wr_inv _ _ _ _ L); assumption.
  - intros [Hf ->]. apply (law_wr _ _ _ _ L); assumption.
Qed.
Lemma rd_ok {T} P f s (c : codec T) (L : lawful P f s c) {B} (F : T -> B) t rest :
  P t = true -> f t = true ->
  ('(a, r) <- drop_len (c_rd c (s t ++ rest)) ;; Ok (F a, r)) = Ok (F t, rest).
Proof. intros HP Hf. rewrite (law_rt _ _ _ _ L) by assumption. reflexivity. Qed.
Lemma rd_inv {T} P f s (c : codec T) (L : lawful P f s c) {B} (F : T -> B) inp x rest :
  ('(a, r) <- drop_len (c_rd c inp) ;; Ok (F a, r)) = Ok (x, rest) ->
  exists t, x = F t /\ P t = true /\ f t = true /\ inp = s t ++ rest.
Proof.
  intros H. unfold drop_len in H. inv_bind.
  match goal with H : c_rd c _ = _ |- _ => apply (law_canon _ _ _ _ L) in H;
    destruct H as (? & ? & -> & _) end. eauto.
Qed.
Lemma rd_fuel {T} P f s (c : codec T) (L : lawful P f s c) {B} (F : T -> B) inp :
  ('(a, r) <- drop_len (c_rd c inp) ;; Ok (F a, r)) <> Err EFuel.
Proof.
  intros H. unfold drop_len in H. apply bind_Err in H.
  destruct H as [H|[[? ?] [_ H]]]; [|discriminate].
  apply bind_Err in H. destruct H as [H|[[[? ?] ?] [_ H]]]; [|discriminate].
  exact (law_fuel _ _ _ _ L _ H).
Qed.

Lemma write_ext_iff x bs :
  wf_x x = true -> (write_ext_body x = Ok bs <-> fit_x x = true /\ bs = w_xbody x).
Proof.
  destruct x; cbn [wf_x write_ext_body fit_x w_xbody]; intros Hwf.
  - exact (wr_iff _ _ _ _ (L_u2s W16) _ _ Hwf).
  - exact (wr_iff _ _ _ _ (L_u2s W16) _ _ Hwf).
  - exact (wr_iff _ _ _ _ (L_nbs 2 ltac:(lia)) _ _ Hwf).
  - exact (wr_iff _ _ _ _ (L_nb 2 ltac:(lia)) _ _ Hwf).
  - exact (wr_iff _ _ _ _ (L_u 2 ltac:(lia)) _ _ Hwf).
  - exact (wr_iff _ _ _ _ L_cpsk _ _ Hwf).
  - exact (wr_iff _ _ _ _ (L_u 2 ltac:(lia)) _ _ Hwf).
  - intuition congruence.
  - intuition congruence.
  - exact (wr_iff _ _ _ _ (L_u 4 ltac:(lia)) _ _ Hwf).
  - exact (wr_iff _ _ _ _ (L_buf W16) _ _ Hwf).
  - exact (wr_iff _ _ _ _ (L_u2s W8) _ _ Hwf).
  - exact (wr_iff _ _ _ _ (L_u 2 ltac:(lia)) _ _ Hwf).
  - exact (wr_iff _ _ _ _ (L_u1s W8) _ _ Hwf).
  - exact (wr_iff _ _ _ _ (L_bufs W16 W8) _ _ Hwf).
  - exact (wr_iff _ _ _ _ (L_nbs 1 ltac:(lia)) _ _ Hwf).
  - exact (wr_iff _ _ _ _ (L_bufs W16 W16) _ _ Hwf).
  - exact (wr_iff _ _ _ _ (L_u2s W8) _ _ Hwf).
  - pose proof (wr_iff _ _ _ _ L_echouter p) as I. split.
    + intros H. unfold write_u in H. cbn [bind] in H. inv_bind.
      match goal with H : c_wr _ _ = _ |- _ => apply I in H; [|assumption]; destruct H as [? ->] end.
      auto.
    + intros [Hf ->]. unfold write_u. cbn [bind].
      rewrite (proj2 (I (w_echouter p) Hwf)) by auto. reflexivity.
  - unfold write_u. intuition congruence.
  - exact (wr_iff _ _ _ _ (L_nbs 2 ltac:(lia)) _ _ Hwf).
  - exact (wr_iff _ _ _ _ (L_u2s W8) _ _ Hwf).
  - intuition congruence.
  - exact (wr_iff _ _ _ _ L_dc _ _ Hwf).
  - exact (wr_iff _ _ _ _ (L_u2s W16) _ _ Hwf).
  - exact (wr_iff _ _ _ _ L_tb _ _ Hwf).
Qed.

(** The Optional confirmation needs the cursor to hold exactly 8 bytes, so the
    statement with a tail excludes it. *)
Lemma read_ext_ok x rest :
  wf_x x = true -> fit_x x = true -> (kind_of x = KEchHrr -> rest = []) ->
  read_ext_body (kind_of x) (w_xbody x ++ rest) = Ok (x, rest).
Proof.
  destruct x; cbn [wf_x kind_of read_ext_body fit_x w_xbody]; intros Hwf Hf Hr.
  - exact (rd_ok _ _ _ _ (L_u2s W16) _ _ _ Hwf Hf).
  - exact (rd_ok _ _ _ _ (L_u2s W16) _ _ _ Hwf Hf).
  - exact (rd_ok _ _ _ _ (L_nbs 2 ltac:(lia)) _ _ _ Hwf Hf).
  - exact (rd_ok _ _ _ _ (L_nb 2 ltac:(lia)) _ _ _ Hwf Hf).
  - exact (rd_ok _ _ _ _ (L_u 2 ltac:(lia)) _ _ _ Hwf Hf).
  - exact (rd_ok _ _ _ _ L_cpsk _ _ _ Hwf Hf).
  - exact (rd_ok _ _ _ _ (L_u 2 ltac:(lia)) _ _ _ Hwf Hf).
  - reflexivity.
  - reflexivity.
  - exact (rd_ok _ _ _ _ (L_u 4 ltac:(lia)) _ _ _ Hwf Hf).
  - exact (rd_ok _ _ _ _ (L_buf W16) _ _ _ Hwf Hf).
  - exact (rd_ok _ _ _ _ (L_u2s W8) _ _ _ Hwf Hf).
  - exact (rd_ok _ _ _ _ (L_u 2 ltac:(lia)) _ _ _ Hwf Hf).
  - exact (rd_ok _ _ _ _ (L_u1s W8) _ _ _ Hwf Hf).
  - exact (rd_ok _ _ _ _ (L_bufs W16 W8) _ _ _ Hwf Hf).
  - exact (rd_ok _ _ _ _ (L_nbs 1 ltac:(lia)) _ _ _ Hwf Hf).
  - exact (rd_ok _ _ _ _ (L_bufs W16 W16) _ _ _ Hwf Hf).
  - exact (rd_ok _ _ _ _ (L_u2s W8) _ _ _ Hwf Hf).
  - rewrite <- app_assoc. rewrite read_u_ok by (reflexivity || lia).
    cbn [drop_len bind]. change (0 =? 0) with true. cbv iota.
    exact (rd_ok _ _ _ _ L_echouter _ _ _ Hwf Hf).
  - rewrite read_u_ok by (reflexivity || lia). reflexivity.
  - exact (rd_ok _ _ _ _ (L_nbs 2 ltac:(lia)) _ _ _ Hwf Hf).
  - exact (rd_ok _ _ _ _ (L_u2s W8) _ _ _ Hwf Hf).
  - rewrite (Hr eq_refl), app_nil_r, Hwf. reflexivity.
  - exact (rd_ok _ _ _ _ L_dc _ _ _ Hwf Hf).
  - exact (rd_ok _ _ _ _ (L_u2s W16) _ _ _ Hwf Hf).
  - exact (rd_ok _ _ _ _ L_tb _ _ _ Hwf Hf).
Qed.

Ltac rdinv L H :=
  apply (rd_inv _ _ _ _ L) in H; destruct H as (? & -> & ? & ? & ->);
  cbn [wf_x kind_of fit_x w_xbody]; auto.

Lemma read_ext_inv k inp x rest :
  read_ext_body k inp = Ok (x, rest) ->
  kind_of x = k /\ wf_x x = true /\ fit_x x = true /\ inp = w_xbody x ++ rest.
Proof.
  destruct k; cbn [read_ext_body]; intros H.
  - rdinv (L_u2s W16) H.
  - rdinv (L_u2s W16) H.
  - rdinv (L_nbs 2 ltac:(lia)) H.
  - rdinv (L_nb 2 ltac:(lia)) H.
  - rdinv (L_u 2 ltac:(lia)) H.
  - rdinv L_cpsk H.
  - rdinv (L_u 2 ltac:(lia)) H.
  - injection H as <- <-. auto.
  - injection H as <- <-. auto.
  - rdinv (L_u 4 ltac:(lia)) H.
  - rdinv (L_buf W16) H.
  - rdinv (L_u2s W8) H.
  - rdinv (L_u 2 ltac:(lia)) H.
  - rdinv (L_u1s W8) H.
  - rdinv (L_bufs W16 W8) H.
  - rdinv (L_nbs 1 ltac:(lia)) H.
  - rdinv (L_bufs W16 W16) H.
  - rdinv (L_u2s W8) H.
  - apply bind_Ok in H. destruct H as [[t r0] [H1 H]].
    unfold drop_len in H1. inv_bind. inv_reads.
    destruct (N.eqb_spec t 0) as [->|?]; [|discriminate].
    apply (rd_inv _ _ _ _ L_echouter) in H. destruct H as (p & -> & ? & ? & ->).
    cbn [wf_x kind_of fit_x w_xbody]. rewrite app_assoc. auto.
  - apply bind_Ok in H. destruct H as [[t r0] [H1 H]].
    unfold drop_len in H1. inv_bind. inv_reads.
    destruct (N.eqb_spec t 1) as [->|?]; [|discriminate]. injection H as <- <-. auto.
  - rdinv (L_nbs 2 ltac:(lia)) H.
  - rdinv (L_u2s W8) H.
  - destruct (blen inp =? 8) eqn:E; [|discriminate]. injection H as <- <-.
    cbn [wf_x kind_of fit_x w_xbody]. rewrite app_nil_r. auto.
  - rdinv L_dc H.
  - rdinv (L_u2s W16) H.
  - rdinv L_tb H.
Qed.

Lemma read_ext_fuel k inp : read_ext_body k inp <> Err EFuel.
Proof.
  destruct k; cbn [read_ext_body].
  - exact (rd_fuel _ _ _ _ (L_u2s W16) _ _).
  - exact (rd_fuel _ _ _ _ (L_u2s W16) _ _).
  - exact (rd_fuel _ _ _ _ (L_nbs 2 ltac:(lia)) _ _).
  - exact (rd_fuel _ _ _ _ (L_nb 2 ltac:(lia)) _ _).
  - exact (rd_fuel _ _ _ _ (L_u 2 ltac:(lia)) _ _).
  - exact (rd_fuel _ _ _ _ L_cpsk _ _).
  - exact (rd_fuel _ _ _ _ (L_u 2 ltac:(lia)) _ _).
  - discriminate.
  - discriminate.
  - exact (rd_fuel _ _ _ _ (L_u 4 ltac:(lia)) _ _).
  - exact (rd_fuel _ _ _ _ (L_buf W16) _ _).
  - exact (rd_fuel _ _ _ _ (L_u2s W8) _ _).
  - exact (rd_fuel _ _ _ _ (L_u 2 ltac:(lia)) _ _).
  - exact (rd_fuel _ _ _ _ (L_u1s W8) _ _).
  - exact (rd_fuel _ _ _ _ (L_bufs W16 W8) _ _).
  - exact (rd_fuel _ _ _ _ (L_nbs 1 ltac:(lia)) _ _).
  - exact (rd_fuel _ _ _ _ (L_bufs W16 W16) _ _).
  - exact (rd_fuel _ _ _ _ (L_u2s W8) _ _).
  - intros H. unfold drop_len in H. no_fuel.
    exact (law_fuel _ _ _ _ L_echouter _ H).
  - intros H. unfold drop_len in H. no_fuel.
  - exact (rd_fuel _ _ _ _ (L_nbs 2 ltac:(lia)) _ _).
  - exact (rd_fuel _ _ _ _ (L_u2s W8) _ _).
  - destruct (blen inp =? 8); discriminate.
  - exact (rd_fuel _ _ _ _ L_dc _ _).
  - exact (rd_fuel _ _ _ _ (L_u2s W16) _ _).
  - exact (rd_fuel _ _ _ _ L_tb _ _).
Qed.

(** ** Extension lists *)
Lemma find_split {A} (p : A -> bool) l e :
  find p l = Some e <->
  exists pre post, l = pre ++ e :: post /\ forallb (fun x => negb (p x)) pre = true /\ p e = true.
Proof.
  split.
  - induction l as [|a l IH]; cbn [find]; [discriminate|].
    destruct (p a) eqn:E.
    + injection 1 as <-. exists [], l. auto.
    + intros H. destruct (IH H) as (pre & post & -> & Hp & He).
      exists (a :: pre), post. cbn [forallb app]. rewrite E. auto.
  - intros (pre & post & -> & Hp & He). induction pre as [|a pre IH]; cbn [app find].
    + rewrite He. reflexivity.
    + cbn [forallb] in Hp. apply andb_true_iff in Hp. destruct Hp as [H1 H2].
      destruct (p a); [discriminate|]. auto.
Qed.

Definition no_type (ty : N) (l : list Extension) : bool :=
  forallb (fun e => negb (ext_type e =? ty)) l.

Lemma find_none_iff {A} (p : A -> bool) l :
  find p l = None <-> forallb (fun x => negb (p x)) l = true.
Proof.
  induction l as [|a l IH]; cbn [find forallb]; [tauto|].
  destruct (p a); cbn [negb andb]; [split; discriminate|exact IH].
Qed.

Lemma encodeExtension_iff x e :
  wf_x x = true ->
  (encodeExtension x = Ok e <->
   fit_x x = true /\ e = mkExt (kind_type (kind_of x)) (Some (w_xbody x))).
Proof.
  intros Hwf. unfold encodeExtension. split.
  - intros H. inv_bind.
    match goal with H : write_ext_body _ = _ |- _ => apply write_ext_iff in H; [|assumption]; destruct H as [? ->] end.
    auto.
  - intros [Hf ->]. rewrite (proj2 (write_ext_iff x (w_xbody x) Hwf)) by auto. reflexivity.
Qed.

Lemma getExtension_rt x e pre post :
  wf_x x = true -> encodeExtension x = Ok e ->
  no_type (kind_type (kind_of x)) pre = true ->
  getExtension (kind_of x) (pre ++ e :: post) = Ok (Some x).
Proof.
  intros Hwf He Hp. apply encodeExtension_iff in He; [|assumption]. destruct He as [Hf ->].
  unfold getExtension, findExtension.
  rewrite (proj2 (find_split (fun e => ext_type e =? kind_type (kind_of x)) _
             (mkExt (kind_type (kind_of x)) (Some (w_xbody x))))).
  - cbn [ext_data]. pose proof (read_ext_ok x [] Hwf Hf (fun _ => eq_refl)) as E.
    rewrite app_nil_r in E. rewrite E. cbn [bind]. destruct (checks_end _); reflexivity.
  - exists pre, post. cbn [ext_type]. rewrite N.eqb_refl. auto.
Qed.

Lemma getExtension_none k l :
  getExtension k l = Ok None <-> no_type (kind_type k) l = true.
Proof.
  unfold getExtension, no_type, findExtension. rewrite <- find_none_iff.
  destruct (find _ l) as [e|]; [|tauto].
  split; [|discriminate]. destruct (ext_data e) as [d|]; [|discriminate].
  intros H. inv_bind. destruct (checks_end k); [|discriminate].
  match goal with H : match ?r with [] => _ | _ => _ end = _ |- _ => destruct r; discriminate end.
Qed.

Lemma getExtension_strict k l x :
  getExtension k l = Ok (Some x) ->
  kind_of x = k /\ wf_x x = true /\ fit_x x = true /\
  exists pre post rest,
    l = pre ++ mkExt (kind_type k) (Some (w_xbody x ++ rest)) :: post /\
    no_type (kind_type k) pre = true /\
    (checks_end k = true -> rest = []).
Proof.
  unfold getExtension. destruct (findExtension _ l) as [e|] eqn:Ef; [|discriminate].
  unfold findExtension in Ef. apply find_split in Ef.
  destruct Ef as (pre & post & -> & Hp & He).
  destruct e as [ty [d|]]; cbn [ext_data ext_type] in *; [|discriminate].
  intros H. inv_bind.
  match goal with H : read_ext_body _ _ = _ |- _ => apply read_ext_inv in H; destruct H as (<- & Hw & Hf & ->) end.
  apply N.eqb_eq in He. subst ty.
  destruct (checks_end _) eqn:Ec.
  - match goal with H : match ?r with [] => _ | _ => _ end = _ |- _ => destruct r; [|discriminate] end.
    inv_bind. repeat split; auto. exists pre, post, []. auto.
  - inv_bind. repeat split; auto. exists pre, post. eexists. repeat split; auto. discriminate.
Qed.
