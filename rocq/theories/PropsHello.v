(** * C31: extensions of received messages *)
From Coq Require Import Sorting.Permutation.
From Verif Require Import Base Handshake HelloChecks.
Open Scope N_scope.

Lemma insert_perm x l : Permutation (insert x l) (x :: l).
Proof. induction l as [|y l IH]; [reflexivity|]. cbn [insert]. destruct (x <=? y); [reflexivity|]. rewrite IH. apply perm_swap. Qed.
Lemma sort_perm l : Permutation (sort l) l.
Proof. induction l as [|x l IH]; [reflexivity|]. cbn [sort]. rewrite insert_perm, IH. reflexivity. Qed.
Inductive sorted : list N -> Prop := sn : sorted [] | sc x l : Forall (fun y => x <= y) l -> sorted l -> sorted (x :: l).
Lemma insert_sorted x l : sorted l -> sorted (insert x l).
Proof.
  induction 1 as [|y l Hf Hs IH]; cbn [insert]; [constructor; [constructor|constructor]|].
  destruct (N.leb_spec x y).
  - constructor; [|constructor; assumption]. constructor; [assumption|]. eapply Forall_impl; [|exact Hf]. cbv beta. intros; lia.
  - constructor; [|exact IH]. rewrite insert_perm. constructor; [lia|exact Hf].
Qed.
Lemma sort_sorted l : sorted (sort l).
Proof. induction l; [constructor|]. apply insert_sorted. assumption. Qed.
Lemma unique_le l : (length (unique l) <= length l)%nat.
Proof. induction l as [|x [|y l] IH]; [auto|auto|]. change (unique (x :: y :: l)) with (if x =? y then unique (y :: l) else x :: unique (y :: l)). destruct (x =? y); cbn [length] in *; lia. Qed.
Lemma unique_nodup l : sorted l -> (length (unique l) = length l <-> NoDup l).
Proof.
  induction l as [|x [|y l] IH]; intros Hs.
  - split; [constructor|reflexivity].
  - split; [intros _; constructor; [intros []|constructor]|reflexivity].
  - inversion Hs as [|? ? Hf Hs']; subst. specialize (IH Hs').
    change (unique (x :: y :: l)) with (if x =? y then unique (y :: l) else x :: unique (y :: l)). pose proof (unique_le (y :: l)) as Hl.
    destruct (N.eqb_spec x y) as [->|Hn].
    + split; [intros E; cbn [length] in *; lia|]. intros H. inversion H; subst. exfalso. apply H2. left. reflexivity.
    + cbn [length] in *. split.
      * intros E. constructor; [|apply IH; lia]. intros [->|Hin]; [congruence|]. inversion Hs' as [|? ? Hf' _]; subst. rewrite Forall_forall in Hf'. specialize (Hf' _ Hin).
        inversion Hf as [|? ? Hxy _]; subst. lia.
      * intros H. inversion H; subst. apply IH in H3. lia.
Qed.

(** Duplicates, and only duplicates, are refused. *)
Theorem C31_duplicates : forall exts,
  (NoDup (map ext_type exts) -> checkDuplicateExtensions exts = Ok tt) /\
  (~ NoDup (map ext_type exts) -> checkDuplicateExtensions exts = failA illegal_parameter).
Proof.
  intros exts. unfold checkDuplicateExtensions. pose proof (unique_nodup _ (sort_sorted (map ext_type exts))) as H.
  pose proof (sort_perm (map ext_type exts)) as HP.
  destruct (Nat.eqb_spec (length (unique (sort (map ext_type exts)))) (length (sort (map ext_type exts)))) as [E|E]; cbn [negb]; split; intros Hn; try reflexivity.
  - exfalso. apply Hn. eapply Permutation_NoDup; [exact HP|]. apply H, E.
  - exfalso. apply E, H. eapply Permutation_NoDup; [symmetry; exact HP|exact Hn].
Qed.
Print Assumptions C31_duplicates.

(** What each message may carry, given what the client (or, for certificate entries, the requester) offered. *)
Definition ee_allowed (req : list N) (t : N) : Prop :=
  In t req /\ ~ In t [13; 51; 41; 45; 44; 43].
Definition sh_allowed (req : list N) (t : N) : Prop := In t req /\ In t [51; 41; 43].
Definition hrr_allowed (req : list N) (t : N) : Prop := In t [44; 51; 43] \/ (t = 0xfe0d /\ In t req).
Definition cert_allowed (req : list N) (t : N) : Prop := In t req.
Definition accept_spec (allowed : N -> Prop) (exts : list Extension) (r : res unit) : Prop :=
  let ok := Forall allowed (map ext_type exts) /\ NoDup (map ext_type exts) in
  (ok -> r = Ok tt) /\ (~ ok -> r = failA 47).

Lemma mem_In x l : mem x l = true <-> In x l.
Proof. unfold mem. rewrite existsb_exists. split; [intros (y & Hy & E); apply N.eqb_eq in E; subst; exact Hy|intros H; exists x; split; [exact H|apply N.eqb_refl]]. Qed.

Lemma each_spec ok allowed exts : (forall t, ok t = true <-> allowed t) ->
  accept_spec allowed exts (_ <- each ok exts ;; checkDuplicateExtensions exts).
Proof.
  intros H. assert (HE : (each ok exts = Ok tt /\ Forall allowed (map ext_type exts)) \/ (each ok exts = failA illegal_parameter /\ ~ Forall allowed (map ext_type exts))).
  { induction exts as [|e r IH]; [left; split; [reflexivity|constructor]|]. cbn [each map]. destruct (ok (ext_type e)) eqn:E.
    - destruct IH as [[-> IH]|[-> IH]]; [left; split; [reflexivity|]; constructor; [apply H, E|exact IH]|right; split; [reflexivity|]; intros Hf; inversion Hf; contradiction].
    - right. split; [reflexivity|]. intros Hf. inversion Hf; subst. apply H in H2. congruence. }
  destruct (C31_duplicates exts) as [D1 D2]. unfold accept_spec. destruct HE as [[-> HE]|[-> HE]]; cbn [bind].
  - split; [intros [_ Hn]; apply D1, Hn|]. intros Hn. apply D2. intros Hd. apply Hn. split; assumption.
  - split; [intros [Hf _]; contradiction|]. reflexivity.
Qed.

Theorem C31_encrypted_extensions : forall exts req, accept_spec (ee_allowed req) exts (checkEE exts req).
Proof.
  intros exts req. apply each_spec. intros t. unfold ee_ok, ee_allowed.
  change [et_signature_algorithms; et_key_share; et_pre_shared_key; et_psk_key_exchange_modes; et_cookie; et_supported_versions] with [13; 51; 41; 45; 44; 43].
  destruct (mem t [13; 51; 41; 45; 44; 43]) eqn:E.
  - apply mem_In in E. split; [discriminate|tauto].
  - rewrite mem_In. assert (~ In t [13; 51; 41; 45; 44; 43]) by (intros Hi; apply mem_In in Hi; congruence). tauto.
Qed.
Theorem C31_server_hello : forall exts req, accept_spec (sh_allowed req) exts (checkSH exts req).
Proof.
  intros exts req. apply each_spec. intros t. unfold sh_ok, sh_allowed, et_key_share, et_pre_shared_key, et_supported_versions.
  rewrite <- (mem_In t req). cbn [In]. destruct (mem t req), (N.eqb_spec t 51), (N.eqb_spec t 41), (N.eqb_spec t 43); cbn [negb orb andb]; intuition congruence.
Qed.
Theorem C31_hello_retry_request : forall exts req, accept_spec (hrr_allowed req) exts (checkHRR exts req).
Proof.
  intros exts req. apply each_spec. intros t. unfold hrr_ok, hrr_allowed, et_cookie, et_key_share, et_supported_versions, et_encrypted_client_hello.
  rewrite <- (mem_In t req). cbn [In]. destruct (mem t req), (N.eqb_spec t 44), (N.eqb_spec t 51), (N.eqb_spec t 43), (N.eqb_spec t 0xfe0d); cbn [negb orb andb]; intuition congruence.
Qed.
Theorem C31_certificate_entry : forall exts req, accept_spec (cert_allowed req) exts (checkCertEntry exts req).
Proof.
  intros exts req. pose proof (each_spec (fun t => mem t req) (cert_allowed req) exts ltac:(intros; apply mem_In)) as H.
  assert (E : checkCertEntry exts req = (_ <- each (fun t => mem t req) exts ;; checkDuplicateExtensions exts)); [|rewrite E; exact H].
  unfold checkCertEntry. generalize (checkDuplicateExtensions exts) as k. clear. intros k. induction exts as [|e r IH]; [reflexivity|].
  cbn [forallb each]. destruct (mem (ext_type e) req); cbn [andb]; [exact IH|reflexivity].
Qed.
Print Assumptions C31_encrypted_extensions.
Print Assumptions C31_certificate_entry.

Example C31_nonvacuous :
  checkHRR [mkExt 44 (Some []); mkExt 51 (Some []); mkExt 43 (Some [])] [51; 43] = Ok tt /\
  checkHRR [mkExt 44 (Some []); mkExt 51 (Some []); mkExt 44 (Some [])] [51; 43] = failA 47 /\
  checkSH [mkExt 51 (Some []); mkExt 43 None] [10; 43; 51] = Ok tt /\ checkSH [mkExt 10 (Some [])] [10; 43; 51] = failA 47 /\
  checkEE [mkExt 16 (Some []); mkExt 10 None] [10; 16] = Ok tt /\ checkEE [mkExt 16 None] [10] = failA 47.
Proof. vm_compute. repeat split. Qed.
