(** * C82: GREASE ECH extensions *)
From Verif Require Import Base Codec CodecSpec Handshake HandshakeSpec HandshakeProofs Extensions ExtensionsSpec ExtensionsProofs GreaseEch Crash.
From Verif Require PropsDelegCred.
Open Scope N_scope.

(** ** Specification *)
(** The generator gives what is asked for *)
Definition works (rng : N -> N -> res bytes) : Prop := forall i n, exists b, rng i n = Ok b /\ blen b = n.
(** Settings of the types of the code: bytes, 16 bit enumerations and sizes, 64 bit sizes *)
Definition typed (s : setting) : Prop :=
  gs_minId s < 256 /\ gs_maxId s < 256 /\ gs_minPayload s < 2 ^ 64 /\ gs_maxPayload s < 2 ^ 64 /\
  (forall x, In x (gs_keySizes s) \/ In x (gs_kdfs s) \/ In x (gs_aeads s) -> x < 2 ^ 16) /\
  N.of_nat (length (gs_keySizes s)) < 2 ^ 62 /\ N.of_nat (length (gs_kdfs s)) < 2 ^ 62 /\ N.of_nat (length (gs_aeads s)) < 2 ^ 62.
(** Settings a value can be chosen from *)
Definition choosable (s : setting) : Prop :=
  gs_kdfs s <> [] /\ gs_aeads s <> [] /\ gs_keySizes s <> [] /\ gs_minId s <= gs_maxId s /\ gs_minPayload s <= gs_maxPayload s /\
  (gs_strategy s = Computed -> forall a, In a (gs_aeads s) -> 1 <= a <= 3).
(** What the settings ask for: the size of the payload is in the range, or the range beyond the hello's encoding and the AEAD's tag *)
Record asked (s : setting) (chlo kdf aead id : N) (enc payload : bytes) : Prop := {
  as_kdf : In kdf (gs_kdfs s);
  as_aead : In aead (gs_aeads s);
  as_id : gs_minId s <= id <= gs_maxId s;
  as_enc : In (blen enc) (gs_keySizes s);
  as_payload : match gs_strategy s with
               | UniformRandom => gs_minPayload s <= blen payload <= gs_maxPayload s
               | Computed => chlo + 16 + gs_minPayload s <= blen payload <= chlo + 16 + gs_maxPayload s
               end }.

(** ** Proofs *)
Lemma genNumber_ok rng i lo hi n : genNumber rng i lo hi = Ok n -> lo <= n <= hi.
Proof.
  unfold genNumber. destruct (N.ltb_spec hi lo); [discriminate|]. destruct (_ =? _); [discriminate|]. intros H'. apply bind_Ok in H'. destruct H' as (raw & _ & E). injection E as <-.
  pose proof (N.mod_lt raw (hi - lo + 1) ltac:(lia)). lia.
Qed.
Lemma select_range (l : list N) : l <> [] -> N.of_nat (length l) < 2 ^ 62 -> (N.of_nat (length l) + u64 - 1) mod u64 = N.of_nat (length l) - 1.
Proof.
  intros H Hl. assert (length l <> 0%nat) by (destruct l; [congruence|cbn; lia]). unfold u64. change (2 ^ 64) with 18446744073709551616. change (2 ^ 62) with 4611686018427387904 in Hl. lia.
Qed.
Lemma select_ok rng i l x : N.of_nat (length l) < 2 ^ 62 -> select rng i l = Ok x -> In x l.
Proof. intros _ H. unfold select in H. apply bind_Ok in H. destruct H as (j & _ & H). destruct (nth_error l (N.to_nat j)) eqn:E; [|discriminate]. injection H as <-. apply nth_error_In in E. exact E. Qed.
Lemma randomBuf_ok limit rng i n b : works rng -> randomBuf limit rng i n = Ok b -> blen b = n /\ n <= limit.
Proof.
  intros W. unfold randomBuf. destruct (N.ltb_spec limit n); [discriminate|]. destruct (N.ltb_spec 0 n) as [P|P]; intros E.
  - destruct (W i n) as (b' & Hb & Hl). split; [|assumption]. congruence.
  - injection E as <-. split; [rewrite blen_nil; lia|assumption].
Qed.
(** Everything generated is as asked (if memory is, as it must be, smaller than the address space), and encodes as an extension that any parser reads back as the same outer ECH hello,
    if the payload fits. *)
Theorem C82_asked limit rng s chlo kdf aead id enc payload : works rng -> typed s -> limit < 2 ^ 62 -> chlo < 2 ^ 62 -> gs_maxPayload s < 2 ^ 62 ->
  generateGreaseECH limit rng s chlo = Ok (kdf, aead, id, enc, payload) ->
  exists e p, enc = Some e /\ payload = Some p /\ asked s chlo kdf aead id e p.
Proof.
  intros W (T1 & T2 & T3 & T4 & T5 & T6 & T7 & T8) HL HC HM H. unfold generateGreaseECH in H.
  apply bind_Ok in H. destruct H as (kdf' & Hk & H). apply bind_Ok in H. destruct H as (a' & Ha & H). apply bind_Ok in H. destruct H as (i' & Hi & H).
  apply bind_Ok in H. destruct H as (ks & Hs & H). apply bind_Ok in H. destruct H as (e & He & H). apply bind_Ok in H. destruct H as (p & Hp & H).
  apply bind_Ok in H. destruct H as (n & Hn & H). apply bind_Ok in H. destruct H as (pl & Hpl & H). injection H as <- <- <- <- <-. exists e, pl. split; [reflexivity|]. split; [reflexivity|].
  apply select_ok in Hk, Ha, Hs; try assumption. apply genNumber_ok in Hi, Hp. apply randomBuf_ok in He, Hpl; try assumption. destruct He as (He & _), Hpl as (Hpl & _).
  constructor; [assumption|assumption| |rewrite He; assumption|].
  - rewrite N.mod_small by lia. exact Hi.
  - destruct (gs_strategy s).
    + injection Hn as <-. rewrite Hpl. exact Hp.
    + apply bind_Ok in Hn. destruct Hn as (c & Hc & Hn). unfold overhead in Hc. destruct (_ || _); [|discriminate]. injection Hc as <-. injection Hn as <-. rewrite Hpl.
      unfold u64. change (2 ^ 64) with 18446744073709551616. change (2 ^ 62) with 4611686018427387904 in *. rewrite (N.mod_small (chlo + 16)) by lia. rewrite N.mod_small by lia. lia.
Qed.
Theorem C82_wire limit rng s chlo g : works rng -> typed s -> generateGreaseECH limit rng s chlo = Ok g ->
  match g with (_, _, _, _, Some p) => blen p < 2 ^ 16 | _ => False end ->
  exists e, encodeExtension (XEchOuter g) = Ok e /\ ext_type e = 65037 /\ (forall pre post, (forall x, In x pre -> ext_type x <> 65037) -> getExtension KEchOuter (pre ++ e :: post) = Ok (Some (XEchOuter g))).
Proof.
  intros W (T1 & T2 & T3 & T4 & T5 & T6 & T7 & T8) H HP. unfold generateGreaseECH in H.
  apply bind_Ok in H. destruct H as (kdf' & Hk & H). apply bind_Ok in H. destruct H as (a' & Ha & H). apply bind_Ok in H. destruct H as (i' & Hi & H).
  apply bind_Ok in H. destruct H as (ks & Hs & H). apply bind_Ok in H. destruct H as (e & He & H). apply bind_Ok in H. destruct H as (p & Hp & H).
  apply bind_Ok in H. destruct H as (n & Hn & H). apply bind_Ok in H. destruct H as (pl & Hpl & H).
  apply select_ok in Hk, Ha, Hs; try assumption. apply randomBuf_ok in He; try assumption. destruct He as (He & _).
  assert (Eg : g = (kdf', a', i' mod 256, Some e, Some pl)) by congruence. clear H. subst g.
  set (x := XEchOuter _). assert (Hw : wf_x x = true).
  { unfold x. cbn [wf_x wf_echouter nonnull]. unfold in_u. change (256 ^ N.of_nat 2) with (2 ^ 16). change (256 ^ N.of_nat 1) with 256.
    rewrite (proj2 (N.ltb_lt kdf' (2 ^ 16))), (proj2 (N.ltb_lt a' (2 ^ 16))) by (apply T5; tauto). rewrite (proj2 (N.ltb_lt (i' mod 256) 256)) by (apply N.mod_lt; discriminate). reflexivity. }
  assert (Hf : fit_x x = true).
  { unfold x. cbn [fit_x]. unfold ofits, fits_len. cbn [bufbytes]. change (256 ^ N.of_nat 2) with (2 ^ 16). rewrite !(proj2 (N.ltb_lt _ (2 ^ 16))); [reflexivity|exact HP|]. rewrite He. apply T5. tauto. }
  exists (mkExt 65037 (Some (w_xbody x))). split; [apply encodeExtension_iff; [exact Hw|]; split; [exact Hf|reflexivity]|]. split; [reflexivity|].
  intros pre post Hpre. apply (getExtension_rt x); [exact Hw|apply encodeExtension_iff; [exact Hw|split; [exact Hf|reflexivity]]|]. apply PropsDelegCred.no_type_in. exact Hpre.
Qed.

(** Generation fails only for settings nothing can be chosen from, or a payload too large for memory. *)
Lemma genNumber_works rng i lo hi : works rng -> lo <= hi -> hi - lo <> u64 - 1 -> exists n, genNumber rng i lo hi = Ok n /\ lo <= n <= hi.
Proof.
  intros W H1 H2. unfold genNumber. destruct (N.ltb_spec hi lo); [lia|]. destruct (N.eqb_spec (hi - lo) (u64 - 1)); [contradiction|]. unfold draw. destruct (W i 8) as (b & -> & _). cbn [bind].
  eexists. split; [reflexivity|]. pose proof (N.mod_lt (unle b) (hi - lo + 1) ltac:(lia)). lia.
Qed.
Lemma select_works rng i l : works rng -> l <> [] -> N.of_nat (length l) < 2 ^ 62 -> exists x, select rng i l = Ok x /\ In x l.
Proof.
  intros W Hn Hl. unfold select. rewrite select_range by assumption. assert (length l <> 0%nat) by (destruct l; [congruence|cbn; lia]).
  destruct (genNumber_works rng i 0 (N.of_nat (length l) - 1) W ltac:(lia)) as (j & -> & Hj); [unfold u64; change (2 ^ 64) with 18446744073709551616; change (2 ^ 62) with 4611686018427387904 in Hl; lia|].
  cbn [bind]. destruct (nth_error l (N.to_nat j)) eqn:E; [eexists; split; [reflexivity|]; apply nth_error_In in E; exact E|]. apply nth_error_None in E. lia.
Qed.
Theorem C82_generates limit rng s chlo : works rng -> typed s -> choosable s -> 2 ^ 16 <= limit ->
  (match gs_strategy s with UniformRandom => gs_maxPayload s | Computed => chlo + 16 + gs_maxPayload s end) <= limit -> limit < 2 ^ 62 ->
  exists g, generateGreaseECH limit rng s chlo = Ok g.
Proof.
  intros W (T1 & T2 & T3 & T4 & T5 & T6 & T7 & T8) (C1 & C2 & C3 & C4 & C5 & C6) HL HS HB. unfold generateGreaseECH. change (2 ^ 62) with 4611686018427387904 in HB. change (2 ^ 16) with 65536 in *.
  destruct (select_works rng 0 _ W C1 T7) as (kdf & -> & _). cbn [bind]. destruct (select_works rng 1 _ W C2 T8) as (a & -> & Ha). cbn [bind].
  destruct (genNumber_works rng 2 _ _ W C4) as (i & -> & _); [unfold u64; change (2 ^ 64) with 18446744073709551616; lia|]. cbn [bind].
  destruct (select_works rng 3 _ W C3 T6) as (ks & -> & Hk). cbn [bind]. specialize (T5 ks (or_introl Hk)).
  assert (RB : forall j n, n <= limit -> exists b, randomBuf limit rng j n = Ok b).
  { intros j n Hn. unfold randomBuf. destruct (N.ltb_spec limit n); [lia|]. destruct (0 <? n); [destruct (W j n) as (b & -> & _)|]; eauto. }
  destruct (RB 4 ks ltac:(lia)) as (e & ->). cbn [bind].
  destruct (genNumber_works rng 5 _ _ W C5) as (p & -> & Hp); [unfold u64; change (2 ^ 64) with 18446744073709551616; destruct (gs_strategy s); lia|]. cbn [bind].
  destruct (gs_strategy s).
  - cbn [bind]. destruct (RB 6 p ltac:(lia)) as (b & ->). cbn [bind]. eauto.
  - specialize (C6 eq_refl a Ha). unfold overhead. destruct (_ || _) eqn:E; [|exfalso; assert (a = 1 \/ a = 2 \/ a = 3) as [-> | [-> | ->]] by lia; discriminate E]. cbn [bind].
    assert (En : (p + (chlo + 16) mod u64) mod u64 = p + (chlo + 16)) by (unfold u64; change (2 ^ 64) with 18446744073709551616; rewrite (N.mod_small (chlo + 16)) by lia; apply N.mod_small; lia).
    rewrite En. destruct (RB 6 (p + (chlo + 16)) ltac:(lia)) as (b & ->). cbn [bind]. eauto.
Qed.
(** And whatever the settings, nothing is read outside a list: with nothing to choose from it is an error. *)
Lemma select_safe rng i l : (forall i n, safe (rng i n)) -> N.of_nat (length l) < 2 ^ 62 -> safe (select rng i l).
Proof.
  intros W Hl. unfold select. destruct l as [|x l].
  - unfold genNumber. change ((N.of_nat (length (@nil N)) + u64 - 1) mod u64) with (u64 - 1). exact Logic.I.
  - rewrite select_range by (try discriminate; exact Hl). unfold genNumber. cbn [length]. destruct (N.ltb_spec (N.of_nat (S (length l)) - 1) 0); [lia|]. destruct (_ =? _); [exact Logic.I|].
    unfold draw. specialize (W i 8). destruct (rng i 8) as [b|e]; [|exact W]. cbn [bind]. clear W.
    destruct (nth_error (x :: l) _) eqn:E; [exact Logic.I|]. apply nth_error_None in E. cbn [length] in E.
    pose proof (N.mod_lt (unle b) (N.of_nat (S (length l)) - 1 - 0 + 1) ltac:(lia)). lia.
Qed.
Theorem C82_safe limit rng s chlo : (forall i n, safe (rng i n)) -> typed s -> safe (generateGreaseECH limit rng s chlo).
Proof.
  intros W (T1 & T2 & T3 & T4 & T5 & T6 & T7 & T8).
  assert (G : forall i lo hi, safe (genNumber rng i lo hi)).
  { intros. unfold genNumber. destruct (_ <? _); [exact Logic.I|]. destruct (_ =? _); [exact Logic.I|]. unfold draw. specialize (W i 8). destruct (rng i 8); [exact Logic.I|exact W]. }
  assert (R : forall i n, safe (randomBuf limit rng i n)) by (intros; unfold randomBuf; destruct (_ <? _); [exact Logic.I|]; destruct (_ <? _); [apply W|exact Logic.I]).
  unfold generateGreaseECH. apply safe_bind; [apply select_safe; assumption|]. intros ? _. apply safe_bind; [apply select_safe; assumption|]. intros ? _. apply safe_bind; [apply G|]. intros ? _.
  apply safe_bind; [apply select_safe; assumption|]. intros ? _. apply safe_bind; [apply R|]. intros ? _. apply safe_bind; [apply G|]. intros ? _. apply safe_bind.
  - destruct (gs_strategy s); [exact Logic.I|]. unfold overhead. destruct (_ || _); exact Logic.I.
  - intros ? _. apply safe_bind; [apply R|]. intros ? _. exact Logic.I.
Qed.
(** Every value of a range is drawn, and none is more likely than another by more than one 64-bit draw in 2^64: those giving lo + r are exactly r, r + range, r + 2*range, ... *)
Fixpoint le8 (k : nat) (n : N) : bytes := match k with O => [] | S k => n2b (n mod 256) :: le8 k (n / 256) end.
Lemma unle_le8 k n : n < 256 ^ N.of_nat k -> unle (le8 k n) = n /\ blen (le8 k n) = N.of_nat k.
Proof.
  revert n. induction k as [|k IH]; intros n H.
  - change (256 ^ N.of_nat 0) with 1 in H. split; [cbn; lia|reflexivity].
  - rewrite Nat2N.inj_succ, N.pow_succ_r' in H. cbn [le8 unle]. destruct (IH (n / 256)) as (E1 & E2); [apply N.div_lt_upper_bound; lia|]. rewrite E1, blen_cons, E2.
    rewrite b2n_n2b by (apply N.mod_lt; discriminate). split; [|lia]. pose proof (N.div_mod n 256 ltac:(discriminate)). lia.
Qed.
Lemma unle_bound b : unle b < 256 ^ blen b.
Proof.
  induction b as [|x b IH]; [reflexivity|]. cbn [unle]. rewrite blen_cons, N.pow_add_r, N.pow_1_r. pose proof (b2n_bound x). lia.
Qed.
Theorem C82_uniform rng i lo hi n b : lo <= hi -> hi - lo < 2 ^ 64 - 1 -> rng i 8 = Ok b -> blen b = 8 ->
  (genNumber rng i lo hi = Ok n <-> lo <= n <= hi /\ exists k, unle b = (n - lo) + k * (hi - lo + 1)).
Proof.
  intros H1 H2 Hb Hl. unfold genNumber. destruct (N.ltb_spec hi lo); [lia|]. destruct (N.eqb_spec (hi - lo) (u64 - 1)) as [E|_]; [unfold u64 in E; lia|]. unfold draw. rewrite Hb. cbn [bind].
  set (R := hi - lo + 1). assert (HR : R <> 0) by (unfold R; lia). pose proof (N.div_mod (unle b) R HR) as D. pose proof (N.mod_lt (unle b) R HR) as M. split.
  - intros E. assert (lo + unle b mod R = n) by congruence. subst n. split; [unfold R in *; lia|]. exists (unle b / R). clear -D. lia.
  - intros (Hn & k & E). f_equal. rewrite E. rewrite N.mod_add by exact HR. rewrite N.mod_small by (unfold R; lia). lia.
Qed.
(** every raw draw is the value of 8 bytes, so all values occur *)
Theorem C82_all_values lo hi n i : lo <= n <= hi -> hi - lo < 2 ^ 64 - 1 -> n < 2 ^ 64 ->
  exists b, blen b = 8 /\ forall rng, rng i 8 = Ok b -> genNumber rng i lo hi = Ok n.
Proof.
  intros H1 H2 H3. exists (le8 8 (n - lo)). destruct (unle_le8 8 (n - lo)) as (E1 & E2); [change (256 ^ N.of_nat 8) with (2 ^ 64); lia|]. split; [exact E2|].
  intros rng Hr. apply (C82_uniform rng i lo hi n _ ltac:(lia) H2 Hr E2). split; [exact H1|]. exists 0. rewrite E1. lia.
Qed.

(** ** Met *)
Definition gg_rng (i n : N) : res bytes := Ok (repeat (n2b (7 * i + 200)) (N.to_nat n)).
Definition gg_default : setting := mkSetting 0 255 UniformRandom 100 200 [32; 48; 64] [1; 2; 3] [1; 2; 3].
Definition gg_shape (r : res (N * N * N * buf * buf)) : option (N * N * N * N * N) :=
  match r with Ok (a, b, c, Some d, Some e) => Some (a, b, c, blen d, blen e) | _ => None end.
Theorem C82_met : works gg_rng /\ typed gg_default /\ choosable gg_default /\
  gg_shape (generateGreaseECH 65536 gg_rng gg_default 500) = Some (2, 1, 214, 48, 160) /\
  gg_shape (generateGreaseECH 65536 gg_rng (mkSetting 3 9 Computed 100 200 [32] [1] [2]) 500) = Some (1, 2, 9, 32, 676).
Proof.
  split; [intros i n; eexists; split; [reflexivity|]; unfold blen; rewrite repeat_length; lia|].
  split; [unfold typed, gg_default; cbn [gs_minId gs_maxId gs_minPayload gs_maxPayload gs_keySizes gs_kdfs gs_aeads length In]; repeat (split; [reflexivity|]); split; [|repeat split; reflexivity]|].
  - intros x H. change (2 ^ 16) with 65536. destruct H as [H|[H|H]]; cbn in H; lia.
  - split; [unfold choosable, gg_default; cbn; repeat (split; [try discriminate; lia|]); discriminate|]. split; vm_compute; reflexivity.
Qed.
(** With nothing to choose from, or the whole range of size_t, generation fails - and with it the connection attempt. *)
Theorem C82_empty limit chlo : generateGreaseECH limit gg_rng (mkSetting 0 255 UniformRandom 0 0 [32] [] [1]) chlo = fail /\
  (forall rng i, genNumber rng i 0 (2 ^ 64 - 1) = fail).
Proof. split; reflexivity. Qed.
(** A setting may ask for what cannot be sent: a payload of 65536 bytes is generated and its extension cannot be encoded. *)
Theorem C82_too_long_refuted : exists g, generateGreaseECH (2 ^ 20) gg_rng (mkSetting 0 255 UniformRandom 65536 65536 [32] [1] [1]) 0 = Ok g /\
  match encodeExtension (XEchOuter g) with Ok _ => False | Err _ => True end.
Proof.
  set (G := generateGreaseECH _ _ _ _). assert (H : match G with Ok g => match encodeExtension (XEchOuter g) with Ok _ => false | Err _ => true end | Err _ => false end = true) by (vm_compute; reflexivity).
  clearbody G. destruct G as [g|]; [|discriminate]. exists g. split; [reflexivity|]. destruct (encodeExtension (XEchOuter g)); [discriminate|exact Logic.I].
Qed.
