From Verif Require Import Base Codec Str Hkdf HkdfSpec HkdfProofs Kex Record RecordSpec Hpke HpkeSpec.

Section P.
  Variables (h : hashalg) (pre : bytes).
  Hypothesis Hh : hash_ok h.
  Lemma lext_ok salt label ikm suite :
    labeledExtract h pre salt label ikm suite = Ok (LabeledExtract h pre suite salt label ikm).
  Proof. unfold labeledExtract. rewrite hkdf_extract_ok by exact Hh. reflexivity. Qed.
  Lemma lext_len salt label ikm suite : blen (LabeledExtract h pre suite salt label ikm) = h_len h.
  Proof. apply Extract_len, Hh. Qed.
  Lemma lexp_ok prk label info L suite : blen prk = h_len h -> L <= 65535 -> L <= 255 * h_len h ->
    labeledExpand h pre prk label info L suite = Ok (LabeledExpand h pre suite prk label info L).
  Proof.
    intros Hp H1 H2. unfold labeledExpand. destruct (N.ltb_spec 65535 L); [lia|].
    rewrite hkdf_expand_ok by assumption. cbn [concat]. rewrite app_nil_r. reflexivity.
  Qed.
  Lemma eae_ok group kid dh ctx : getDHKEMId group = Ok kid ->
    extractAndExpand h pre group dh ctx = Ok (KemSecret h pre kid dh ctx).
  Proof.
    intros E. unfold extractAndExpand, kemSuiteId. rewrite E. cbn [bind]. rewrite lext_ok. cbn [bind].
    pose proof (ho_le h Hh). pose proof (ho_max h Hh).
    rewrite lexp_ok by (rewrite ?lext_len; auto; lia). reflexivity.
  Qed.
  Lemma ks_ok suite alg m ss info psk rl seq :
    ag_key alg <= 65535 -> ag_key alg <= 255 * h_len h -> ag_iv alg <= 65535 -> ag_iv alg <= 255 * h_len h ->
    keySchedule h pre suite alg m ss info psk rl seq =
    let '(pv, pid) := match psk with Some p => p | None => ([], []) end in
    Ok (mkHctx seq (ag_set alg (KS_key h pre suite m ss info pv pid (ag_key alg))
                              (KS_nonce h pre suite m ss info pv pid (ag_iv alg)))
          (KS_exporter h pre suite m ss info pv pid) h pre suite rl).
  Proof.
    intros H1 H2 H3 H4. unfold keySchedule.
    destruct (match psk with Some p => p | None => ([], []) end) as [pv pid].
    pose proof (ho_le h Hh). pose proof (ho_max h Hh).
    rewrite !lext_ok. cbn [bind].
    rewrite lexp_ok by (rewrite ?lext_len; auto). cbn [bind].
    rewrite lexp_ok by (rewrite ?lext_len; auto). cbn [bind].
    rewrite lexp_ok by (rewrite ?lext_len; auto; lia). cbn [bind]. reflexivity.
  Qed.
End P.

Lemma hstep_seq c o c' b r : hstep c o = (c', b, r) ->
  (c' = c \/ (c' = set_seq c (hc_seq c + 1) /\ r = Ok tt /\ hc_seq c + 1 <= max64 - 1)) /\
  (forall a p, o = HSeal a p \/ o = HOpen a p -> r = Ok tt -> c' = set_seq c (hc_seq c + 1)).
Proof.
  intros H. unfold hstep, hseal, hopen, incrementSeq in H.
  destruct o.
  - destruct (hc_role c); [|injection H as <- <- <-; split; [auto|intros ? ? ? E; discriminate E]].
    destruct (ae_enc _ _ _ _); [|injection H as <- <- <-; split; [auto|intros ? ? ? E; discriminate E]].
    destruct (N.leb_spec (max64 - 1) (hc_seq c)); injection H as <- <- <-; (split; [auto|]).
    + intros ? ? ? E; discriminate E.
    + right. split; [reflexivity|]. split; [reflexivity|lia].
    + auto.
  - destruct (hc_role c); [injection H as <- <- <-; split; [auto|intros ? ? ? E; discriminate E]|].
    destruct (ae_dec _ _ _ _); [|injection H as <- <- <-; split; [auto|intros ? ? ? E; discriminate E]].
    destruct (N.leb_spec (max64 - 1) (hc_seq c)); injection H as <- <- <-; (split; [auto|]).
    + intros ? ? ? E; discriminate E.
    + right. split; [reflexivity|]. split; [reflexivity|lia].
    + auto.
  - destruct (hexport _ _ _); injection H as <- <- <-; (split; [auto|]); intros ? ? [E|E]; discriminate E.
Qed.
