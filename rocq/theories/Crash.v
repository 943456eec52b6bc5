(** * Which calls can abort the process: lemmas shared by the server and the client (C62, C63)

    [safe r]: the call ended normally or with an error the caller handles (a failed Status or a C++ exception); it did not run
    into a CHECK, a null dereference or another undefined operation. *)
From Verif Require Import Base Codec CodecSpec Str Hkdf HkdfSpec HkdfProofs KeySched Handshake HandshakeProofs Extensions ExtensionsProofs
  RecordBase Record RecordProofs RecordRT ReadEvent HelloChecks Cookie Transcript IOBufUtil EchConfirm Server ServerFacts.
Open Scope N_scope.

Definition safe {A} (r : res A) : Prop := match r with Err ECheck | Err EUB | Err EFuel => False | _ => True end.
Definition esafe (e : err) : Prop := match e with ECheck | EUB | EFuel => False | _ => True end.

Lemma safe_bind {A B} (m : res A) (f : A -> res B) : safe m -> (forall a, m = Ok a -> safe (f a)) -> safe (bind m f).
Proof. destruct m as [a|[]]; cbn; auto. Qed.
Lemma safe_ok {A} (a : A) : safe (Ok a). Proof. exact Logic.I. Qed.
Lemma safe_err {A} (r : res A) x : safe r -> r = Err x -> esafe x. Proof. intros H ->. exact H. Qed.
Lemma esafe_err {A} x : esafe x -> safe (@Err A x). Proof. exact (fun h => h). Qed.
Lemma safe_ensure b x : esafe x -> safe (ensure b x). Proof. destruct b; cbn; auto. Qed.
Lemma safe_deref b : b <> None -> safe (deref b). Proof. destruct b; cbn; auto. Qed.
#[global] Hint Resolve safe_ok : safe.

(** ** Codecs *)
(** Reading never aborts and gives values in [P]; writing and sizing values in [P] never aborts. *)
Record csafe {T} (P : T -> Prop) (c : codec T) : Prop := {
  cs_wr : forall t, P t -> safe (c_wr c t);
  cs_sz : forall t, P t -> safe (c_sz c t);
  cs_rd : forall inp, safe (c_rd c inp);
  cs_in : forall inp t n r, c_rd c inp = Ok (t, n, r) -> P t /\ 0 < n }.
Lemma safe_write_len w n : safe (write_len w n).
Proof. unfold write_len. destruct (_ <? _); [exact Logic.I|destruct w; exact Logic.I]. Qed.
Lemma safe_write_buf w b : safe (write_buf w b).
Proof. destruct b; cbn [write_buf]; [apply safe_bind; [apply safe_write_len|intros; exact Logic.I]|apply safe_write_len]. Qed.
Lemma safe_read_be k inp : safe (read_be k inp).
Proof. unfold read_be. destruct (take _ _) as [[? ?]|]; exact Logic.I. Qed.
Lemma safe_read_u k inp : safe (read_u k inp).
Proof. unfold read_u. apply safe_bind; [apply safe_read_be|]. intros [? ?] _. exact Logic.I. Qed.
Lemma safe_read_buf w inp : safe (read_buf w inp).
Proof. unfold read_buf. apply safe_bind; [apply safe_read_be|]. intros [? ?] _. destruct (take _ _) as [[? ?]|]; exact Logic.I. Qed.
Lemma read_buf_some w inp b n r : read_buf w inp = Ok (b, n, r) -> b <> None /\ 0 < n.
Proof.
  unfold read_buf. intros H. destruct (bind_Ok _ _ _ H) as ([l x] & _ & K). cbv beta iota in K.
  destruct (take l x) as [[d y]|]; [|discriminate]. injection K as <- <- _. pose proof (lw_pos w). split; [discriminate|lia].
Qed.
Lemma csafe_u k : (0 < k)%nat -> csafe (fun _ => True) (c_u k).
Proof.
  intros Hk. split; intros; try exact Logic.I; [apply safe_read_u|]. split; [exact Logic.I|]. cbn [c_u c_rd] in H. unfold read_u in H.
  destruct (bind_Ok _ _ _ H) as ([l x] & _ & K). cbv beta iota in K. injection K as _ <- _. lia.
Qed.
Lemma csafe_buf w : csafe (fun b : buf => b <> None) (c_buf w).
Proof.
  split; cbn [c_buf c_wr c_sz c_rd].
  - intros; apply safe_write_buf.
  - intros [|] H; [exact Logic.I|congruence].
  - intros; apply safe_read_buf.
  - intros inp t n r H. exact (read_buf_some _ _ _ _ _ H).
Qed.
Lemma csafe_pair {A B} (P : A -> Prop) (Q : B -> Prop) (a : codec A) (b : codec B) : csafe P a -> csafe Q b -> csafe (fun p => P (fst p) /\ Q (snd p)) (c_pair a b).
Proof.
  intros Ha Hb. split; cbn [c_pair c_wr c_sz c_rd].
  - intros t [H1 H2]. apply safe_bind; [apply (cs_wr _ _ Ha); exact H1|]. intros ? _. apply safe_bind; [apply (cs_wr _ _ Hb); exact H2|]. intros; exact Logic.I.
  - intros t [H1 H2]. apply safe_bind; [apply (cs_sz _ _ Ha); exact H1|]. intros ? _. apply safe_bind; [apply (cs_sz _ _ Hb); exact H2|]. intros; exact Logic.I.
  - intros inp. apply safe_bind; [apply (cs_rd _ _ Ha)|]. intros [[? ?] ?] _. apply safe_bind; [apply (cs_rd _ _ Hb)|]. intros [[? ?] ?] _; exact Logic.I.
  - intros inp t n r H. destruct (bind_Ok _ _ _ H) as ([[x i] y] & E1 & K). cbv beta iota in K.
    destruct (bind_Ok _ _ _ K) as ([[x2 i2] y2] & E2 & K2). cbv beta iota in K2. injection K2 as <- <- _. cbn [fst snd].
    destruct (cs_in _ _ Ha _ _ _ _ E1), (cs_in _ _ Hb _ _ _ _ E2). repeat split; try assumption. lia.
Qed.
Lemma csafe_iso {A B} (P : A -> Prop) (to : A -> B) (from : B -> A) (c : codec A) : (forall a, P a -> P (from (to a))) -> csafe P c ->
  csafe (fun b => P (from b)) (c_iso to from c).
Proof.
  intros Hi Hc. split; cbn [c_iso c_wr c_sz c_rd].
  - intros; apply (cs_wr _ _ Hc); assumption.
  - intros; apply (cs_sz _ _ Hc); assumption.
  - intros. apply safe_bind; [apply (cs_rd _ _ Hc)|]. intros [[? ?] ?] _; exact Logic.I.
  - intros inp t n r H. destruct (bind_Ok _ _ _ H) as ([[x i] y] & E1 & K). cbv beta iota in K. injection K as <- <- _.
    destruct (cs_in _ _ Hc _ _ _ _ E1). split; [apply Hi|]; assumption.
Qed.
Lemma safe_size_all {T} P (c : codec T) l : csafe P c -> Forall P l -> safe (size_all c l).
Proof.
  intros Hc. induction 1; cbn [size_all]; [exact Logic.I|]. apply safe_bind; [apply (cs_sz _ _ Hc); assumption|]. intros ? _.
  apply safe_bind; [assumption|]. intros; exact Logic.I.
Qed.
Lemma safe_write_all {T} P (c : codec T) l : csafe P c -> Forall P l -> safe (write_all c l).
Proof.
  intros Hc. induction 1; cbn [write_all]; [exact Logic.I|]. apply safe_bind; [apply (cs_wr _ _ Hc); assumption|]. intros ? _.
  apply safe_bind; [assumption|]. intros; exact Logic.I.
Qed.
Lemma safe_write_vec {T} P w (c : codec T) l : csafe P c -> Forall P l -> safe (write_vec w c l).
Proof.
  intros Hc Hl. unfold write_vec. apply safe_bind; [apply (safe_size_all P); assumption|]. intros ? _.
  apply safe_bind; [apply safe_write_len|]. intros ? _. apply safe_bind; [apply (safe_write_all P); assumption|]. intros; exact Logic.I.
Qed.
Lemma read_loop_in {T} P (c : codec T) : csafe P c -> forall f len n inp l r, Codec.read_loop c f len n inp = Ok (l, r) -> Forall P l.
Proof.
  intros Hc. induction f; intros len n inp l r H; cbn [Codec.read_loop] in H; destruct (n <? len).
  - discriminate.
  - destruct (n =? len); [injection H as <- _; constructor|discriminate].
  - destruct (bind_Ok _ _ _ H) as ([[t i] x] & E1 & K). cbv beta iota in K. destruct (bind_Ok _ _ _ K) as ([l2 y] & E2 & K2). cbv beta iota in K2.
    injection K2 as <- _. constructor; [exact (proj1 (cs_in _ _ Hc _ _ _ _ E1))|exact (IHf _ _ _ _ _ E2)].
  - destruct (n =? len); [injection H as <- _; constructor|discriminate].
Qed.
Lemma safe_read_loop {T} P (c : codec T) : csafe P c -> forall f len n inp, len < n + N.of_nat f -> safe (Codec.read_loop c f len n inp).
Proof.
  intros Hc. induction f; intros len n inp H; cbn [Codec.read_loop] in *; destruct (N.ltb_spec n len).
  - lia.
  - destruct (n =? len); exact Logic.I.
  - apply safe_bind; [apply (cs_rd _ _ Hc)|]. intros [[t i] x] E. apply (cs_in _ _ Hc) in E. apply safe_bind.
    + apply IHf. lia.
    + intros [? ?] _. exact Logic.I.
  - destruct (n =? len); exact Logic.I.
Qed.
Lemma safe_read_vec {T} P w (c : codec T) inp : csafe P c -> safe (read_vec w c inp).
Proof.
  intros Hc. unfold read_vec. apply safe_bind; [apply safe_read_be|]. intros [len rest] _. destruct (N.ltb_spec (blen rest) len); [exact Logic.I|].
  apply safe_bind; [apply (safe_read_loop P); [exact Hc|unfold blen in *; lia]|]. intros [? ?] _. exact Logic.I.
Qed.
Lemma read_vec_in {T} P w (c : codec T) inp l n r : csafe P c -> read_vec w c inp = Ok (l, n, r) -> Forall P l /\ 0 < n.
Proof.
  intros Hc H. unfold read_vec in H. destruct (bind_Ok _ _ _ H) as ([len rest] & _ & K). cbv beta iota in K. destruct (_ <? _); [discriminate|].
  destruct (bind_Ok _ _ _ K) as ([l2 r2] & E & K2). cbv beta iota in K2. injection K2 as <- <- _. pose proof (lw_pos w).
  split; [exact (read_loop_in P c Hc _ _ _ _ _ _ E)|lia].
Qed.
Lemma csafe_vec {T} P w (c : codec T) : csafe P c -> csafe (Forall P) (c_vec w c).
Proof.
  intros Hc. split; cbn [c_vec c_wr c_sz c_rd].
  - intros; apply (safe_write_vec P); assumption.
  - intros. apply safe_bind; [apply (safe_size_all P); assumption|]. intros; exact Logic.I.
  - intros; apply (safe_read_vec P); assumption.
  - intros inp t n r H. exact (read_vec_in P w c _ _ _ _ Hc H).
Qed.
Lemma csafe_weaken {T} (P Q : T -> Prop) c : (forall t, P t <-> Q t) -> csafe P c -> csafe Q c.
Proof.
  intros Hw Hc. split; intros.
  - apply (cs_wr _ _ Hc), Hw; assumption.
  - apply (cs_sz _ _ Hc), Hw; assumption.
  - apply (cs_rd _ _ Hc).
  - destruct (cs_in _ _ Hc _ _ _ _ H). split; [apply Hw|]; assumption.
Qed.

(** ** Messages: no null buffer *)
Definition xset (x : Extension) : Prop := ext_data x <> None.
Definition hello_set (c : ClientHello) : Prop := ch_session_id c <> None /\ Forall xset (ch_extensions c).
Definition centry_set (x : CertificateEntry) : Prop := ce_data x <> None /\ Forall xset (ce_extensions x).
Definition cmsg_set (m : CertificateMsg) : Prop := cm_context m <> None /\ Forall centry_set (cm_list m).
(** what a decoded message is known to contain *)
Definition msg_set (m : hsmsg) : Prop :=
  match m with
  | MClientHello c => hello_set c
  | MServerHello s => sh_session_id s <> None /\ Forall xset (sh_extensions s)
  | MHelloRetryRequest h => hrr_session_id h <> None /\ Forall xset (hrr_extensions h)
  | MEndOfEarlyData => True
  | MEncryptedExtensions l => Forall xset l
  | MCertificateRequest c => cr_context c <> None /\ Forall xset (cr_extensions c)
  | MCertificate c => cmsg_set c
  | MCompressedCertificate c => cc_message c <> None
  | MCertificateVerify c => cv_signature c <> None
  | MNewSessionTicket n => nst_nonce n <> None /\ nst_ticket n <> None /\ Forall xset (nst_extensions n)
  | MKeyUpdate _ => True
  | MFinished b => b <> None
  | MMessageHash b => b <> None
  end.
Lemma csafe_ext : csafe xset c_ext.
Proof.
  eapply csafe_weaken; [|apply csafe_iso; [|apply csafe_pair; [apply csafe_u; repeat constructor|apply csafe_buf]]].
  - intros t. unfold xset. cbn [fst snd]. intuition.
  - intros [a b] H. exact H.
Qed.
Lemma csafe_ce : csafe centry_set c_cert_entry.
Proof.
  eapply csafe_weaken; [|apply csafe_iso; [|apply csafe_pair; [apply csafe_buf|apply csafe_vec, csafe_ext]]].
  - intros t. unfold centry_set. cbn [fst snd]. intuition.
  - intros [a b] H. exact H.
Qed.
Lemma safe_write_exts l : Forall xset l -> safe (write_exts l).
Proof. apply safe_write_vec, csafe_ext. Qed.
Lemma safe_read_exts inp : safe (read_exts inp).
Proof. unfold read_exts. apply safe_bind; [apply (safe_read_vec _ _ _ _ csafe_ext)|]. intros [[? ?] ?] _. exact Logic.I. Qed.
Lemma read_exts_in inp l r : read_exts inp = Ok (l, r) -> Forall xset l.
Proof.
  unfold read_exts. intros H. destruct (bind_Ok _ _ _ H) as ([[l2 n] r2] & E & K). cbv beta iota in K. injection K as <- _.
  exact (proj1 (read_vec_in _ _ _ _ _ _ _ csafe_ext E)).
Qed.
Lemma safe_read_random inp : safe (read_random inp).
Proof. unfold read_random. destruct (take _ _); exact Logic.I. Qed.

Ltac sf :=
  repeat first
   [ exact Logic.I
   | apply safe_write_buf | apply safe_write_len | apply safe_read_be | apply safe_read_u | apply safe_read_buf | apply safe_read_exts
   | apply safe_read_random | apply safe_write_exts; assumption
   | apply (safe_write_vec (fun _ => True)); [apply csafe_u; repeat constructor|apply Forall_forall; intros; exact Logic.I]
   | apply (safe_read_vec (fun _ => True)); apply csafe_u; repeat constructor
   | apply safe_read_vec with (1 := csafe_ce) | apply safe_read_vec with (1 := csafe_ext)
   | apply safe_write_vec with (1 := csafe_ce); assumption
   | match goal with |- safe (bind _ _) => apply safe_bind; [|intros; cbv beta; try match goal with |- context [match ?x with pair _ _ => _ end] => destruct x end] end
   | match goal with |- safe (match ?x with _ => _ end) => destruct x end ].

Lemma safe_encode m : msg_set m -> safe (encodeHandshake m).
Proof.
  intros H. unfold encodeHandshake. apply safe_bind.
  - destruct m; cbn [encode_body msg_set] in *; unfold encode_ch, encode_sh, encode_hrr, encode_eoed, encode_ee, encode_cr, encode_cert, encode_cc,
      encode_cv, encode_nst, encode_ku, write_random, write_u, hello_set, cmsg_set in *; repeat match goal with H : _ /\ _ |- _ => destruct H end; sf.
  - intros b E. destruct b as [b|].
    + apply safe_bind; [exact Logic.I|]. intros ? _. apply safe_bind; [apply safe_write_len|]. intros; exact Logic.I.
    + destruct m; cbn [encode_body msg_set] in *; try (destruct (bind_Ok _ _ _ E) as (? & _ & K); discriminate); congruence.
Qed.
Lemma safe_decode_all {T} (d : bytes -> res (T * bytes)) b : safe (d b) -> safe (decode_all d b).
Proof. intros H. unfold decode_all. apply safe_bind; [exact H|]. intros [? r] _. destruct r; exact Logic.I. Qed.
Lemma decode_all_in {T} (d : bytes -> res (T * bytes)) b t : decode_all d b = Ok t -> exists r, d b = Ok (t, r).
Proof.
  unfold decode_all. intros H. destruct (bind_Ok _ _ _ H) as ([x r] & E & K). cbv beta iota in K. destruct r; [injection K as <-; eauto|discriminate].
Qed.
Lemma safe_parse ty b : safe (parse_handshake ty b).
Proof.
  unfold parse_handshake. repeat match goal with |- safe (if ?x then _ else _) => destruct x end; try exact Logic.I;
    (apply safe_bind; [apply safe_decode_all; unfold decode_ch, decode_sh, decode_ee, decode_eoed, decode_cr, decode_cert, decode_cc, decode_cv, decode_nst, decode_ku; sf|
      intros; try match goal with |- safe (if ?x then _ else _) => destruct x end; exact Logic.I]).
Qed.
Lemma parse_set ty b m : parse_handshake ty b = Ok m -> msg_set m.
Proof.
  unfold parse_handshake.
  assert (R : forall inp l r, read_exts inp = Ok (l, r) -> Forall xset l) by exact read_exts_in.
  assert (B : forall w inp b n r, read_buf w inp = Ok (b, n, r) -> b <> None) by (intros w inp b0 n r E; exact (proj1 (read_buf_some _ _ _ _ _ E))).
  repeat match goal with |- (if ?x then _ else _) = _ -> _ => destruct x; [|] end; intros H; try discriminate H;
    try (injection H as <-; cbn; discriminate).
  all: destruct (bind_Ok _ _ _ H) as (x & E & K); clear H; apply decode_all_in in E; destruct E as (r & E);
    unfold decode_ch, decode_sh, decode_ee, decode_eoed, decode_cr, decode_cert, decode_cc, decode_cv, decode_nst, decode_ku in E; inv_bind;
    try match goal with E : match ?l with [] => _ | _ => _ end = Ok _ |- _ => destruct l end; inv_bind;
    repeat match goal with E : Ok (_, _) = Ok (_, _) |- _ => injection E as; subst | E : Ok _ = Ok _ |- _ => injection E as; subst end;
    cbn [msg_set] in *; unfold hello_set, cmsg_set; cbn; try exact Logic.I; eauto.
  - destruct (bytes_eqb _ _); injection K as <-; cbn; eauto.
  - repeat split; eauto.
  - split; [eauto|]. match goal with H : read_vec W24 _ _ = _ |- _ => exact (proj1 (read_vec_in _ _ _ _ _ _ _ csafe_ce H)) end.
Qed.

(** ** Typed extensions *)
Definition psnd {A} (p : A * buf) : Prop := snd p <> None.
Definition pfst {A} (p : buf * A) : Prop := fst p <> None.
Definition tset (x : tyext) : Prop :=
  match x with
  | XClientKeyShare l => Forall psnd l
  | XServerKeyShare p => psnd p
  | XClientPresharedKey (ids, bs) => Forall pfst ids /\ Forall (fun b : buf => b <> None) bs
  | XCookie b => b <> None
  | XProtocolNameList l => Forall (fun b : buf => b <> None) l
  | XServerNameList l => Forall psnd l
  | XCertificateAuthorities l => Forall (fun b : buf => b <> None) l
  | XEchOuter (_, _, _, enc, payload) => enc <> None /\ payload <> None
  | XEchEncryptedExtensions l => Forall psnd l
  | XDelegatedCredential (_, _, k, _, sg) => k <> None /\ sg <> None
  | _ => True
  end.
Lemma csafe_ks k w : (0 < k)%nat -> csafe (@psnd N) (c_pair (c_u k) (c_buf w)).
Proof. intros Hk. eapply csafe_weaken; [|apply csafe_pair; [apply csafe_u; exact Hk|apply csafe_buf]]. intros t. unfold psnd. cbn. intuition. Qed.
Lemma csafe_id : csafe (@pfst N) c_psk_identity.
Proof. eapply csafe_weaken; [|apply csafe_pair; [apply csafe_buf|apply csafe_u; repeat constructor]]. intros t. unfold pfst. cbn. intuition. Qed.
Lemma csafe_psk : csafe (fun p => Forall pfst (fst p) /\ Forall (fun b : buf => b <> None) (snd p)) c_client_psk.
Proof. apply csafe_pair; apply csafe_vec; [apply csafe_id|apply csafe_buf]. Qed.
Lemma csafe_outer : csafe (fun p : N * N * N * buf * buf => snd (fst p) <> None /\ snd p <> None) c_ech_outer.
Proof.
  eapply csafe_weaken; [|apply csafe_pair; [apply csafe_pair; [apply csafe_pair; [apply csafe_pair; apply csafe_u; repeat constructor|apply csafe_u; repeat constructor]|apply csafe_buf]|apply csafe_buf]].
  intros [[[[? ?] ?] ?] ?]. cbn. intuition.
Qed.
Lemma csafe_deleg : csafe (fun p : N * N * buf * N * buf => snd (fst (fst p)) <> None /\ snd p <> None) c_deleg_cred.
Proof.
  eapply csafe_weaken; [|apply csafe_pair; [apply csafe_pair; [apply csafe_pair; [apply csafe_pair; apply csafe_u; repeat constructor|apply csafe_buf]|apply csafe_u; repeat constructor]|apply csafe_buf]].
  intros [[[[? ?] ?] ?] ?]. cbn. intuition.
Qed.
Lemma csafe_tb : csafe (fun _ => True) c_token_binding.
Proof.
  eapply csafe_weaken; [|apply csafe_pair; [apply csafe_u; repeat constructor|apply csafe_vec, csafe_u; repeat constructor]].
  intros t. cbn. intuition. apply Forall_forall. intros; exact Logic.I.
Qed.
Lemma csafe_n k : (0 < k)%nat -> csafe (fun _ : N => True) (c_u k). Proof. exact (csafe_u k). Qed.
Lemma all_true {T} (l : list T) : Forall (fun _ => True) l. Proof. apply Forall_forall. intros; exact Logic.I. Qed.
Lemma safe_encodeExtension x : tset x -> safe (encodeExtension x).
Proof.
  intros H. unfold encodeExtension. apply safe_bind; [|intros; exact Logic.I].
  destruct x; cbn [write_ext_body tset] in *; try exact Logic.I; try apply safe_write_buf;
    try (apply (safe_write_vec (fun _ => True)); [apply csafe_u; repeat constructor|apply all_true]).
  - apply (safe_write_vec psnd); [apply csafe_ks; repeat constructor|exact H].
  - apply (cs_wr _ _ (csafe_ks 2 W16 ltac:(repeat constructor))). exact H.
  - destruct p. apply (cs_wr _ _ csafe_psk). exact H.
  - apply (safe_write_vec (fun b : buf => b <> None)); [apply csafe_buf|exact H].
  - apply (safe_write_vec psnd); [apply csafe_ks; repeat constructor|exact H].
  - apply (safe_write_vec (fun b : buf => b <> None)); [apply csafe_buf|exact H].
  - apply safe_bind; [exact Logic.I|]. intros ? _. apply safe_bind; [|intros; exact Logic.I].
    destruct p as [[[[? ?] ?] ?] ?]. apply (cs_wr _ _ csafe_outer). exact H.
  - apply (safe_write_vec psnd); [apply csafe_ks; repeat constructor|exact H].
  - destruct p as [[[[? ?] ?] ?] ?]. apply (cs_wr _ _ csafe_deleg). exact H.
  - apply (cs_wr _ _ csafe_tb). exact Logic.I.
Qed.
Lemma encodeExtension_set x y : encodeExtension x = Ok y -> xset y.
Proof. unfold encodeExtension. intros H. destruct (bind_Ok _ _ _ H) as (b & _ & K). injection K as <-. discriminate. Qed.
Lemma read_body_set k inp x r : read_ext_body k inp = Ok (x, r) -> tset x /\ kind_of x = k.
Proof.
  destruct k; cbn [read_ext_body]; intros H; unfold drop_len in H.
  all: try (destruct (_ =? _); [|discriminate]).
  all: inv_bind; try (split; [exact Logic.I|reflexivity]).
  - split; [|reflexivity]. exact (proj1 (read_vec_in _ _ _ _ _ _ _ (csafe_ks 2 W16 ltac:(repeat constructor)) E0)).
  - split; [|reflexivity]. exact (proj1 (cs_in _ _ (csafe_ks 2 W16 ltac:(repeat constructor)) _ _ _ _ E0)).
  - split; [|reflexivity]. exact (proj1 (cs_in _ _ csafe_psk _ _ _ _ E0)).
  - split; [|reflexivity]. exact (proj1 (read_buf_some _ _ _ _ _ E0)).
  - split; [|reflexivity]. exact (proj1 (read_vec_in _ _ _ _ _ _ _ (csafe_buf W8) E0)).
  - split; [|reflexivity]. exact (proj1 (read_vec_in _ _ _ _ _ _ _ (csafe_ks 1 W16 ltac:(repeat constructor)) E0)).
  - split; [|reflexivity]. exact (proj1 (read_vec_in _ _ _ _ _ _ _ (csafe_buf W16) E0)).
  - destruct (_ =? _); [|discriminate]. inv_bind. split; [|reflexivity].
    match goal with E : c_rd c_ech_outer _ = _ |- _ => pose proof (proj1 (cs_in _ _ csafe_outer _ _ _ _ E)) as G end.
    repeat match goal with p : (_ * _)%type |- _ => destruct p end. exact G.
  - destruct (_ =? _); [|discriminate]. inv_bind. split; [exact Logic.I|reflexivity].
  - split; [|reflexivity]. exact (proj1 (read_vec_in _ _ _ _ _ _ _ (csafe_ks 2 W16 ltac:(repeat constructor)) E0)).
  - split; [|reflexivity].
    match goal with E : c_rd c_deleg_cred _ = _ |- _ => pose proof (proj1 (cs_in _ _ csafe_deleg _ _ _ _ E)) as G end.
    repeat match goal with p : (_ * _)%type |- _ => destruct p end. exact G.
Qed.
Lemma safe_drop {A} (r : res (A * N * bytes)) : safe r -> safe (drop_len r).
Proof. intros H. unfold drop_len. apply safe_bind; [exact H|]. intros [[? ?] ?] _. exact Logic.I. Qed.
Lemma safe_read_body k inp : safe (read_ext_body k inp).
Proof.
  destruct k; cbn [read_ext_body]; try exact Logic.I;
    try (apply safe_bind; [apply safe_drop|intros [? ?] _; try exact Logic.I]);
    try (apply (safe_read_vec (fun _ => True)); apply csafe_u; repeat constructor); try apply safe_read_u; try apply safe_read_buf.
  - apply (safe_read_vec psnd), csafe_ks; repeat constructor.
  - apply (cs_rd _ _ (csafe_ks 2 W16 ltac:(repeat constructor))).
  - apply (cs_rd _ _ csafe_psk).
  - apply (safe_read_vec (fun b : buf => b <> None)), csafe_buf.
  - apply (safe_read_vec psnd), csafe_ks; repeat constructor.
  - apply (safe_read_vec (fun b : buf => b <> None)), csafe_buf.
  - destruct (_ =? _); [|exact Logic.I]. apply safe_bind; [apply safe_drop, (cs_rd _ _ csafe_outer)|]. intros [? ?] _. exact Logic.I.
  - destruct (_ =? _); exact Logic.I.
  - apply (safe_read_vec psnd), csafe_ks; repeat constructor.
  - destruct (_ =? _); exact Logic.I.
  - apply (cs_rd _ _ csafe_deleg).
  - apply (cs_rd _ _ csafe_tb).
Qed.
Lemma find_set ty l x : Forall xset l -> findExtension ty l = Some x -> xset x.
Proof. intros H E. unfold findExtension in E. apply find_some in E. rewrite Forall_forall in H. apply H, E. Qed.
Lemma safe_getExtension k l : Forall xset l -> safe (getExtension k l).
Proof.
  intros H. unfold getExtension. destruct (findExtension _ l) as [x|] eqn:E; [|exact Logic.I]. pose proof (find_set _ _ _ H E) as X. unfold xset in X.
  destruct (ext_data x); [|congruence]. apply safe_bind; [apply safe_read_body|]. intros [? r] _. destruct (checks_end k); [destruct r|]; exact Logic.I.
Qed.
Lemma getExtension_set k l x : getExtension k l = Ok (Some x) -> tset x /\ kind_of x = k.
Proof.
  unfold getExtension. destruct (findExtension _ l) as [y|]; [|discriminate]. destruct (ext_data y) as [d|]; [|discriminate]. intros H.
  destruct (bind_Ok _ _ _ H) as ([z r] & E & K). cbv beta iota in K.
  assert (z = x) by (destruct (checks_end k); [destruct r; [|discriminate]|]; congruence). subst z. exact (read_body_set _ _ _ _ E).
Qed.
Lemma safe_binderLength l : Forall xset l -> safe (getBinderLength l).
Proof.
  intros H. unfold getBinderLength. destruct (rev l) as [|x r] eqn:E; [exact Logic.I|]. destruct (negb _); [exact Logic.I|].
  assert (X : xset x) by (rewrite Forall_forall in H; apply H, in_rev; rewrite E; left; reflexivity). unfold xset in X.
  destruct (ext_data x); [|congruence]. apply safe_bind; [apply safe_read_be|]. intros [il r0] _. destruct (take il r0) as [[? ?]|]; [|exact Logic.I].
  apply safe_bind; [apply safe_read_be|]. intros [? ?] _. destruct (_ =? _); exact Logic.I.
Qed.

(** ** Key derivation *)
Section Keys.
  Context (h : hashalg) (Hh : hash_ok h).
  Definition len_ok (b : bytes) : Prop := blen b = h_len h.
  Lemma hl_small : 0 < h_len h /\ h_len h <= 128.
  Proof. pose proof (ho_pos h Hh); pose proof (ho_le h Hh); pose proof (ho_max h Hh). lia. Qed.
  Lemma context_len x : len_ok (h_fn h x). Proof. apply (ho_digest h Hh). Qed.
  Lemma blank_ok : len_ok (h_blank h). Proof. red. rewrite (ho_blank h Hh). apply (ho_digest h Hh). Qed.
  Lemma el_len s label c L : len_ok s -> blen label <= 249 -> blen c <= 255 -> L <= 255 ->
    exists x, expandLabel h s label (Some c) L = Ok x /\ blen x = L.
  Proof.
    intros Hs Hl Hc HL. pose proof hl_small. eexists. rewrite (expandLabel_ok h s label (Some c) L Hh Hs Hl Hc) by lia. split; [reflexivity|].
    unfold ExpandLabel. apply Expand_len, Hh.
  Qed.
  Lemma ds_len s label c L : len_ok s -> len_ok c -> blen label <= 249 -> 0 < L -> L <= 255 ->
    exists x, deriveSecret h s label c L = Ok x /\ blen x = L.
  Proof.
    intros Hs Hc Hl H0 HL. pose proof hl_small. eexists. rewrite (deriveSecret_ok h s label c L Hh Hs Hc Hl) by lia. split; [reflexivity|].
    unfold ExpandLabel. apply Expand_len, Hh.
  Qed.
  Lemma extract_len s i : exists x, hkdf_extract h s i = Ok x /\ len_ok x.
  Proof. eexists. rewrite (hkdf_extract_ok h s i Hh). split; [reflexivity|apply Extract_len, Hh]. Qed.

  Definition kearly (k : ks) : Prop := exists b, ks_secret k = Some (KEarly b) /\ len_ok b.
  Definition khs (k : ks) : Prop := exists b, ks_secret k = Some (KHandshake b) /\ len_ok b.
  Definition kmaster (k : ks) : Prop := exists b, ks_secret k = Some (KMaster b) /\ len_ok b.
  Definition kapp (k : ks) : Prop := exists a, ks_app k = Some a /\ len_ok (at_client a) /\ len_ok (at_server a).

  Ltac lab := vm_compute; discriminate.
  Lemma do_early psk : exists k, kdo h ks_init (DeriveEarly psk) = Ok k /\ kearly k.
  Proof.
    unfold kdo. cbn [ks_step ks_init ks_secret]. destruct (extract_len (zeros (h_len h)) psk) as (x & E & L). rewrite E. cbn [put bind].
    eexists. split; [reflexivity|]. exists x. split; [reflexivity|exact L].
  Qed.
  Lemma get_early k s c : kearly k -> len_ok c -> exists x, kget h k (GetEarly s c) = Ok x /\ blen x = early_length h s.
  Proof.
    intros (b & Eb & Lb) Lc. unfold kget. cbn [ks_step snd]. rewrite Eb. cbn [as_early bind]. pose proof hl_small.
    destruct (ds_len b (early_label s) c (early_length h s) Lb Lc) as (x & E & L).
    - destruct s; lab.
    - destruct s; cbn; unfold kEchAcceptConfirmationSize; lia.
    - destruct s; cbn; unfold kEchAcceptConfirmationSize; lia.
    - rewrite E. exists x. split; [reflexivity|exact L].
  Qed.
  Lemma do_hs k : kearly k -> exists k', kdo h k DeriveHandshake = Ok k' /\ khs k'.
  Proof.
    intros (b & Eb & Lb). unfold kdo. cbn [ks_step]. rewrite Eb. cbn [as_early bind]. pose proof hl_small.
    destruct (ds_len b (str "derived") (h_blank h) (h_len h) Lb blank_ok) as (x & E & L); [lab|lia|lia|]. rewrite E. cbn [bind].
    destruct (extract_len x (zeros (h_len h))) as (y & Ey & Ly). rewrite Ey. cbn [put bind]. eexists. split; [reflexivity|]. exists y. auto.
  Qed.
  Lemma do_hs_dh k dh : kearly k \/ k = ks_init -> exists k', kdo h k (DeriveHandshakeDH dh) = Ok k' /\ khs k'.
  Proof.
    intros Hk. unfold kdo. cbn [ks_step]. pose proof hl_small.
    destruct Hk as [(b & Eb & Lb)| ->].
    - rewrite Eb. cbn [put try_early bind]. rewrite Eb. cbn [try_early bind].
      destruct (ds_len b (str "derived") (h_blank h) (h_len h) Lb blank_ok) as (x & E & L); [lab|lia|lia|]. rewrite E. cbn [bind].
      destruct (extract_len x dh) as (y & Ey & Ly). rewrite Ey. cbn [put bind]. eexists. split; [reflexivity|]. exists y. auto.
    - cbn [ks_init ks_secret]. destruct (extract_len (zeros (h_len h)) (zeros (h_len h))) as (b & Eb & Lb). rewrite Eb. cbn [put ks_secret ks_app try_early bind].
      destruct (ds_len b (str "derived") (h_blank h) (h_len h) Lb blank_ok) as (x & E & L); [lab|lia|lia|]. rewrite E. cbn [bind].
      destruct (extract_len x dh) as (y & Ey & Ly). rewrite Ey. cbn [put bind]. eexists. split; [reflexivity|]. exists y. auto.
  Qed.
  Lemma get_hs k s c : khs k -> len_ok c -> exists x, kget h k (GetHandshake s c) = Ok x /\ blen x = hs_length h s.
  Proof.
    intros (b & Eb & Lb) Lc. unfold kget. cbn [ks_step snd]. rewrite Eb. cbn [as_handshake bind]. pose proof hl_small.
    destruct (ds_len b (hs_label s) c (hs_length h s) Lb Lc) as (x & E & L).
    - destruct s; lab.
    - destruct s; cbn; unfold kEchAcceptConfirmationSize; lia.
    - destruct s; cbn; unfold kEchAcceptConfirmationSize; lia.
    - rewrite E. exists x. split; [reflexivity|exact L].
  Qed.
  Lemma do_master k : khs k -> exists k', kdo h k DeriveMaster = Ok k' /\ kmaster k'.
  Proof.
    intros (b & Eb & Lb). unfold kdo. cbn [ks_step]. rewrite Eb. cbn [try_handshake bind]. pose proof hl_small.
    destruct (ds_len b (str "derived") (h_blank h) (h_len h) Lb blank_ok) as (x & E & L); [lab|lia|lia|]. rewrite E. cbn [bind].
    destruct (extract_len x (zeros (h_len h))) as (y & Ey & Ly). rewrite Ey. cbn [put bind]. eexists. split; [reflexivity|]. exists y. auto.
  Qed.
  Lemma get_master k s c : kmaster k -> len_ok c -> exists x, kget h k (GetMaster s c) = Ok x /\ len_ok x.
  Proof.
    intros (b & Eb & Lb) Lc. unfold kget. cbn [ks_step snd]. rewrite Eb. cbn [as_master bind]. pose proof hl_small.
    destruct (ds_len b (master_label s) c (h_len h) Lb Lc) as (x & E & L); [destruct s; lab|lia|lia|]. rewrite E. exists x. split; [reflexivity|exact L].
  Qed.
  Lemma do_app k c : kmaster k -> len_ok c -> exists k', kdo h k (DeriveApp c) = Ok k' /\ kmaster k' /\ kapp k'.
  Proof.
    intros (b & Eb & Lb) Lc. unfold kdo. cbn [ks_step]. rewrite Eb. cbn [as_master bind]. pose proof hl_small.
    destruct (ds_len b (str "c ap traffic") c (h_len h) Lb Lc) as (x & E & L); [lab|lia|lia|].
    destruct (ds_len b (str "s ap traffic") c (h_len h) Lb Lc) as (y & E2 & L2); [lab|lia|lia|]. rewrite E. cbn [bind]. rewrite E2. cbn [put bind].
    eexists. split; [reflexivity|]. split; [exists b; cbn; auto|]. eexists. split; [reflexivity|]. split; assumption.
  Qed.
  Lemma do_clear k : kmaster k -> kapp k -> exists k', kdo h k ClearMaster = Ok k' /\ kapp k'.
  Proof. intros (b & Eb & Lb) Ha. unfold kdo. cbn [ks_step]. rewrite Eb. cbn [bind]. eexists. split; [reflexivity|]. exact Ha. Qed.
  Lemma get_app k s : kapp k -> exists x, kget h k (GetApp s) = Ok x /\ len_ok x.
  Proof. intros (a & Ea & L1 & L2). unfold kget. cbn [ks_step snd]. rewrite Ea. cbn [deref_app bind]. destruct s; eexists; (split; [reflexivity|assumption]). Qed.
  Lemma do_cku k : kapp k -> exists k', kdo h k ClientKeyUpdate = Ok k' /\ kapp k'.
  Proof.
    intros (a & Ea & L1 & L2). unfold kdo. cbn [ks_step]. rewrite Ea. cbn [deref_app bind]. pose proof hl_small.
    destruct (el_len (at_client a) (str "traffic upd") [] (h_len h) L1) as (x & E & L); [lab|lab|lia|]. rewrite E. cbn [bind put].
    eexists. split; [reflexivity|]. eexists. split; [reflexivity|]. split; assumption.
  Qed.
  Lemma do_sku k : kapp k -> exists k', kdo h k ServerKeyUpdate = Ok k' /\ kapp k'.
  Proof.
    intros (a & Ea & L1 & L2). unfold kdo. cbn [ks_step]. rewrite Ea. cbn [deref_app bind]. pose proof hl_small.
    destruct (el_len (at_server a) (str "traffic upd") [] (h_len h) L2) as (x & E & L); [lab|lab|lia|]. rewrite E. cbn [bind put].
    eexists. split; [reflexivity|]. eexists. split; [reflexivity|]. split; assumption.
  Qed.
  Lemma get_resumption k rms : len_ok rms -> exists x, kget h k (GetResumption rms []) = Ok x /\ len_ok x.
  Proof.
    intros L. unfold kget. cbn [ks_step snd]. pose proof hl_small.
    destruct (el_len rms (str "resumption") [] (h_len h) L) as (x & E & Lx); [lab|lab|lia|]. rewrite E. eexists. split; [reflexivity|exact Lx].
  Qed.
  Lemma finished_ok' c s : hc_hash c = h -> len_ok s -> exists x, hc_finished c s = Ok x /\ len_ok x.
  Proof.
    intros E L. unfold hc_finished. rewrite E. pose proof hl_small.
    destruct (el_len s (str "finished") [] (h_len h) L) as (x & Ex & Lx); [lab|lab|lia|]. rewrite Ex. cbn [bind].
    rewrite (hmac_ok h x _ (h_len h) Hh) by lia. eexists. split; [reflexivity|apply HMAC_len, Hh].
  Qed.
  Lemma ech_secret_ok psk s c : len_ok c -> exists x, ech_secret h psk s c = Ok x /\ blen x = early_length h s.
  Proof.
    intros Lc. unfold ech_secret. cbn [ks_step ks_init ks_secret]. destruct (extract_len (zeros (h_len h)) psk) as (b & Eb & Lb). rewrite Eb. cbn [put bind ks_secret ks_app].
    destruct (get_early (mkKs (Some (KEarly b)) None) s c) as (x & Ex & Lx); [exists b; auto|exact Lc|]. unfold kget in Ex. cbn [ks_step snd] in Ex.
    cbn [ks_step snd ks_secret ks_app]. change (ks_app ks_init) with (@None apptraffic).
    cbn [ks_secret] in Ex |- *. destruct (x0 <- as_early _ ;; _) as [[]|]; try discriminate Ex. injection Ex as ->. eauto.
  Qed.
End Keys.

(** ** Record layers *)
(** An AEAD whose calls do not abort; decrypt never returns a null chain. *)
Definition aead_safe (a : aead) : Prop :=
  (forall p ad n, safe (ae_enc a p ad n)) /\ (forall c ad n, ae_try a c ad n <> Ok (Some [])).
Definition layer_safe (l : layer) : Prop := match l with LPlain _ => True | LEnc e => aead_safe (es_aead e) end.
Definition ev_safe (r : evstate) : Prop := layer_safe (ev_layer r).
Definition wl_safe (w : wlayer) : Prop := match w with WPlain => True | WEnc _ w => 0 < ws_max w /\ aead_safe (ws_aead w) end.

Lemma open_inner_safe ch : ch <> [] -> safe (open_inner ch).
Proof.
  intros H. destruct ch; [congruence|]. cbn [open_inner]. destruct (strip_chain _) as [[? ?]|]; [|exact Logic.I]. destruct (negb _); [exact Logic.I|].
  destruct (concat _); [destruct (_ =? _)|]; exact Logic.I.
Qed.
Lemma enc_iter_safe s b : aead_safe (es_aead s) ->
  match enc_iter s b with
  | ICont s' _ | INeed s' _ _ | IMsg s' _ _ => aead_safe (es_aead s')
  | IErr e => esafe e
  end.
Proof.
  intros [H1 H2]. unfold enc_iter. destruct (header b) as [[[[ty ver] len] rest]|]; [|split; assumption].
  destruct (len =? 0); [exact Logic.I|]. destruct (_ <? len); [exact Logic.I|]. destruct (take len rest) as [[c rest']|]; [|split; assumption].
  destruct (_ && _); [exact Logic.I|]. destruct (ty =? ct_ccs); [destruct (bytes_eqb _ _); [split; assumption|exact Logic.I]|].
  destruct (es_seq s =? max64); [exact Logic.I|]. cbv zeta. unfold ae_dec.
  destruct (ae_try (es_aead s) c (if es_ad s then Some (takeN 5 b) else None) (es_seq s)) as [[ch|]|er] eqn:E; cbn [bind].
  - assert (Hn : ch <> []) by (intros ->; exact (H2 _ _ _ E)). pose proof (open_inner_safe ch Hn) as G.
    destruct (es_skip s); destruct (open_inner ch) as [|[]]; cbn in *; try exact G; split; assumption.
  - destruct (es_skip s); [split; assumption|exact Logic.I].
  - destruct (es_skip s); exact Logic.I.
Qed.
Lemma layer_iter_safe l b : layer_safe l ->
  match layer_iter l b with
  | ICont s' _ | INeed s' _ _ | IMsg s' _ _ => layer_safe s'
  | IErr e => esafe e
  end.
Proof.
  destruct l as [p|s]; cbn [layer_iter layer_safe]; intros H.
  - unfold plain_iter. destruct (header b) as [[[[ty ver] len] rest]|]; [|exact Logic.I]. destruct (_ && _).
    + destruct (take len rest) as [[? ?]|]; exact Logic.I.
    + destruct (negb _); [exact Logic.I|]. cbv zeta. destruct (_ <? len); [exact Logic.I|]. destruct (len =? 0); [exact Logic.I|].
      destruct (take len rest) as [[? ?]|]; [|exact Logic.I]. destruct (ty =? ct_ccs); [destruct (bytes_eqb _ _)|]; exact Logic.I.
  - pose proof (enc_iter_safe s b H) as G. destruct (enc_iter s b); exact G.
Qed.
Lemma layer_read_safe l b : layer_safe l ->
  match layer_read l b with
  | RNeed s' _ _ => layer_safe s'
  | RMsg s' b' _ => layer_safe s' /\ (length b' < length b)%nat
  | RErr e => esafe e
  end.
Proof.
  unfold layer_read. pattern l, b, (read_of layer_iter l b). apply (read_of_ind _ layer_iter_laws).
  - intros s c s' c' E IH Hs. pose proof (layer_iter_safe s c Hs) as G. rewrite E in G. specialize (IH G).
    apply (il_cont _ layer_iter_laws) in E. destruct (read_of layer_iter s' c'); [exact IH|split; [apply IH|destruct IH; lia]|exact IH].
  - intros s c s' c' hint E Hs. pose proof (layer_iter_safe s c Hs) as G. rewrite E in G. exact G.
  - intros s c s' c' m E Hs. pose proof (layer_iter_safe s c Hs) as G. rewrite E in G. split; [exact G|]. apply (il_msg _ layer_iter_laws) in E. lia.
  - intros s c e E Hs. pose proof (layer_iter_safe s c Hs) as G. rewrite E in G. exact G.
Qed.
Definition ev_set (ev : event) : Prop := match ev with EvHandshake m _ => msg_set m | _ => True end.
Lemma decode_hs_safe u : safe (decode_hs u).
Proof.
  unfold decode_hs. destruct u as [|? [|? [|? [|? ?]]]]; try exact Logic.I. cbv zeta. destruct (_ <? _); [exact Logic.I|].
  destruct (take _ _) as [[? ?]|]; [|exact Logic.I]. apply safe_bind; [apply safe_parse|]. intros; exact Logic.I.
Qed.
Lemma decode_hs_set u m o r : decode_hs u = Ok (Some (m, o, r)) -> msg_set m.
Proof.
  unfold decode_hs. destruct u as [|? [|? [|? [|? ?]]]]; try discriminate. cbv zeta. destruct (_ <? _); [discriminate|].
  destruct (take _ _) as [[? ?]|]; [|discriminate]. intros H. destruct (bind_Ok _ _ _ H) as (x & E & K). injection K as <- _ _. exact (parse_set _ _ _ E).
Qed.
Lemma ev_loop_safe : forall f u l b, layer_safe l -> (length b < f)%nat ->
  match ev_loop f u l b with
  | RNeed s' _ _ => ev_safe s'
  | RMsg s' _ ev => ev_safe s' /\ ev_set ev
  | RErr e => esafe e
  end.
Proof.
  induction f; intros u l b Hl Hf; [lia|]. cbn [ev_loop]. pose proof (layer_read_safe l b Hl) as G.
  destruct (layer_read l b) as [l' b' hint|l' b' m|er]; [exact G| |exact G]. destruct G as [G1 G2].
  destruct (_ && _); [exact Logic.I|]. destruct (m_type m =? ct_alert).
  { assert (S : safe (decode_all decode_alert (m_frag m))) by (apply safe_decode_all; unfold decode_alert; sf).
    destruct (decode_all _ _) as [a|er]; [|exact S]. destruct (_ =? 0); (split; [exact G1|exact Logic.I]). }
  destruct (m_type m =? ct_handshake).
  { pose proof (decode_hs_safe (u ++ m_frag m)) as S. destruct (decode_hs (u ++ m_frag m)) as [[[[? ?] ?]|]|er] eqn:E; [|apply IHf; [exact G1|lia]|exact S].
    split; [exact G1|exact (decode_hs_set _ _ _ _ E)]. }
  destruct (_ =? _); [split; [exact G1|exact Logic.I]|exact Logic.I].
Qed.
Lemma read_event_safe s b : ev_safe s ->
  match read_event s b with
  | RNeed s' _ _ => ev_safe s'
  | RMsg s' _ ev => ev_safe s' /\ ev_set ev
  | RErr e => esafe e
  end.
Proof.
  intros H. unfold read_event. destruct (ev_unparsed s) as [|x u]; [apply ev_loop_safe; [exact H|lia]|].
  pose proof (decode_hs_safe (x :: u)) as S. destruct (decode_hs (x :: u)) as [[[[? ?] ?]|]|er] eqn:E; [|apply ev_loop_safe; [exact H|lia]|exact S].
  split; [exact H|exact (decode_hs_set _ _ _ _ E)].
Qed.

Lemma enc_loop_safe ty : forall f s q out, 0 < ws_max s -> aead_safe (ws_aead s) -> (length (concat q) <= f)%nat ->
  let '(_, s', r) := enc_write_loop f ty s q out in 0 < ws_max s' /\ aead_safe (ws_aead s') /\ safe r.
Proof.
  induction f; intros s q out Hm Ha Hf; cbn [enc_write_loop].
  - assert (Hq : queue_empty q = true) by (apply queue_empty_iff; destruct (concat q); [reflexivity|simpl in Hf; lia]).
    rewrite Hq. auto with safe.
  - destruct (queue_empty q) eqn:Eq; [auto with safe|].
    assert (Hne : concat q <> []) by (intros K; apply queue_empty_iff in K; congruence).
    destruct (buf_to_encrypt q (ws_max s)) as [d q'] eqn:Eb.
    destruct (buf_to_encrypt_spec _ _ _ _ Hm Eb Hne) as (Hd1 & Hd2 & Hd3). cbv zeta.
    destruct (ws_seq s =? max64); [repeat split; try assumption; apply Ha|].
    match goal with |- context [ae_enc ?a ?p ?ad ?n] => pose proof (proj1 Ha p ad n) as Se; destruct (ae_enc a p ad n) as [c|er] eqn:Ee end.
    + match goal with |- context [enc_write_loop f ty ?s1 q' ?o] => pose proof (IHf s1 q' o) as G; destruct (enc_write_loop f ty s1 q' o) as [[calls2 s2] r2] end.
      apply G; [exact Hm|exact Ha|]. apply (f_equal (@length byte)) in Hd1. rewrite app_length in Hd1. destruct (concat d); [congruence|]. simpl in Hd1. lia.
    + repeat split; try assumption; apply Ha.
Qed.
Lemma wl_write_safe w ty q : wl_safe w -> let '(w', r) := wl_write w ty q in
  wl_safe w' /\ safe r /\ (w <> WPlain -> w' <> WPlain /\ forall ct, r = Ok ct -> ct_data ct <> None).
Proof.
  destruct w as [|lv w]; cbn [wl_safe wl_write].
  - intros _. split; [exact Logic.I|]. split; [|congruence]. unfold plain_write, plain_write_ver. destruct (_ =? _); exact Logic.I.
  - intros [H1 H2]. unfold enc_write. pose proof (enc_loop_safe ty (length (concat q)) w q [] H1 H2 (le_n _)) as G.
    destruct (enc_write_loop _ _ _ _ _) as [[calls w'] r]. destruct G as (G1 & G2 & G3). split; [split; assumption|]. split.
    + apply safe_bind; [exact G3|]. intros; exact Logic.I.
    + intros _. split; [discriminate|]. intros ct K. destruct (bind_Ok _ _ _ K) as (d & _ & K2). injection K2 as <-. discriminate.
Qed.
