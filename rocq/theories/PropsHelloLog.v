(** * C86: handshake logging *)
From Verif Require Import Base Codec CodecSpec Handshake Extensions ExtensionsSpec ExtensionsProofs RecordBase Record ReadEvent Ticket HandshakeLog Server HelloLog.
From Verif Require Import Str PropsCookie Crash ServerSpec PropsDelegCred PropsServer6 PropsServerEx.
Open Scope N_scope.

(** ** Specification *)
(** The first extension of the type of [x] encodes [x] (what follows it is ignored where the code ignores it); there is none of type [t] *)
Definition has (exts : list Extension) (x : tyext) : Prop :=
  wf_x x = true /\ exists pre post rest, exts = pre ++ mkExt (kind_type (kind_of x)) (Some (w_xbody x ++ rest)) :: post /\ forall y, In y pre -> ext_type y <> kind_type (kind_of x).
Definition lacks (exts : list Extension) (t : N) : Prop := forall y, In y exts -> ext_type y <> t.
(** the last one-byte extension of type 0xff04 *)
Definition test_byte (exts : list Extension) (old new : option byte) : Prop :=
  (exists pre post b, exts = pre ++ mkExt 65284 (Some [b]) :: post /\ new = Some b /\ forall y c, In y post -> y <> mkExt 65284 (Some [c])) \/
  ((forall y c, In y exts -> y <> mkExt 65284 (Some [c])) /\ new = old).
(** What the log says after the hello [c], having been [g] before *)
Record describes (g : hlog) (c : ClientHello) (g' : hlog) : Prop := {
  ds_version : g_version g' = Some (ch_version c);
  ds_random : g_random g' = Some (ch_random c);
  ds_sid : g_sid g' = Some true <-> exists b r, ch_session_id c = Some (b :: r);
  ds_sid' : g_sid g' <> None;
  ds_ciphers : g_ciphers g' = ch_suites c;
  ds_extensions : g_extensions g' = map ext_type (ch_extensions c);
  ds_versions : (exists l, has (ch_extensions c) (XSupportedVersions l) /\ g_versions g' = l) \/ (lacks (ch_extensions c) 43 /\ g_versions g' = g_versions g);
  ds_alpns : (exists l, has (ch_extensions c) (XProtocolNameList (map Some l)) /\ g_alpns g' = l) \/ (lacks (ch_extensions c) 16 /\ g_alpns g' = []);
  ds_sni : (exists t n l, has (ch_extensions c) (XServerNameList ((t, Some n) :: l)) /\ g_sni g' = Some n) \/ ((has (ch_extensions c) (XServerNameList []) \/ lacks (ch_extensions c) 0) /\ g_sni g' = g_sni g);
  ds_groups : (exists l, has (ch_extensions c) (XSupportedGroups l) /\ g_groups g' = l) \/ (lacks (ch_extensions c) 10 /\ g_groups g' = g_groups g);
  ds_shares : (g_shares g <> None /\ g_shares g' = g_shares g) \/
    (g_shares g = None /\ ((exists l, has (ch_extensions c) (XClientKeyShare l) /\ g_shares g' = Some (map fst l)) \/ (lacks (ch_extensions c) 51 /\ g_shares g' = None)));
  ds_modes : (exists l, has (ch_extensions c) (XPskKeyExchangeModes l) /\ g_modes g' = l) \/ (lacks (ch_extensions c) 45 /\ g_modes g' = g_modes g);
  ds_schemes : (exists l, has (ch_extensions c) (XSignatureAlgorithms l) /\ g_schemes g' = l) \/ (lacks (ch_extensions c) 13 /\ g_schemes g' = g_schemes g);
  ds_compression : (exists l, has (ch_extensions c) (XCertCompressionAlgs l) /\ g_compression g' = l) \/ (lacks (ch_extensions c) 27 /\ g_compression g' = g_compression g);
  ds_test : test_byte (ch_extensions c) (g_test g) (g_test g');
  ds_outer : g_outer g' = g_outer g /\ g_size g' = g_size g /\ g_record g' = g_record g }.

Definition logged_kinds : list xkind := [KSupportedVersions; KProtocolNameList; KServerNameList; KSupportedGroups; KClientKeyShare; KPskKeyExchangeModes; KSignatureAlgorithms; KCertCompressionAlgs].

(** ** Proofs *)
Lemma has_of k exts x : getExtension k exts = Ok (Some x) -> kind_of x = k /\ has exts x.
Proof.
  intros H. apply getExtension_strict in H. destruct H as (<- & Hw & _ & pre & post & rest & -> & Hp & _). split; [reflexivity|]. split; [exact Hw|].
  exists pre, post, rest. split; [reflexivity|]. exact (proj1 (no_type_in _ _) Hp).
Qed.
Lemma lacks_of k exts : getExtension k exts = Ok None -> lacks exts (kind_type k).
Proof. intros H. apply getExtension_none in H. exact (proj1 (no_type_in _ _) H). Qed.
Lemma field_ok k exts use next g g' : field k exts use next g = (g', Ok tt) -> exists x g1, getExtension k exts = Ok x /\ use x g = Ok g1 /\ next g1 = (g', Ok tt).
Proof.
  unfold field. destruct (getExtension k exts) as [x|] eqn:E; [|discriminate]. destruct (use x g) as [g1|] eqn:Eu; [|discriminate]. eauto.
Qed.
Lemma derefs_ok l n : derefs l = Ok n -> l = map Some n.
Proof.
  revert n. induction l as [|[b|] l IH]; intros n; cbn [derefs deref bind]; [intros [= <-]; reflexivity| |discriminate].
  destruct (derefs l) as [ds|]; [|discriminate]. intros [= <-]. cbn [map]. rewrite <- (IH ds eq_refl). reflexivity.
Qed.
Lemma testByte_ok t l u : testByte t l = Ok u -> test_byte l t u.
Proof.
  revert t. induction l as [|x l IH]; intros t; cbn [testByte].
  - intros [= <-]. right. split; [intros y c []|reflexivity].
  - destruct (N.eqb_spec (ext_type x) 65284) as [Ex|Ex].
    + destruct (ext_data x) as [[|b [|b' r]]|] eqn:Ed; try discriminate; intros H; apply IH in H.
      * destruct H as [(pre & post & c & -> & H1 & H2)|(H1 & ->)]; [left; exists (x :: pre), post, c; auto|right]. split; [|reflexivity].
        intros y c [<-|Hy]; [intros ->; discriminate|apply H1, Hy].
      * destruct H as [(pre & post & c & -> & H1 & H2)|(H1 & ->)]; [left; exists (x :: pre), post, c; auto|left]. exists [], l, b. split; [destruct x; cbn in *; subst; reflexivity|]. split; [reflexivity|exact H1].
      * destruct H as [(pre & post & c & -> & H1 & H2)|(H1 & ->)]; [left; exists (x :: pre), post, c; auto|right]. split; [|reflexivity].
        intros y c [<-|Hy]; [intros ->; discriminate|apply H1, Hy].
    + intros H. apply IH in H. destruct H as [(pre & post & c & -> & H1 & H2)|(H1 & ->)]; [left; exists (x :: pre), post, c; auto|right]. split; [|reflexivity].
      intros y c [<-|Hy]; [intros ->; apply Ex; reflexivity|apply H1, Hy].
Qed.
Ltac fld H := let x := fresh "x" in let g1 := fresh "g" in let A := fresh "A" in let B := fresh "B" in apply field_ok in H; destruct H as (x & g1 & A & B & H).
(** After a hello whose extensions are well-formed the log describes it. *)
Theorem C86_describes c g g' : populate c g = (g', Ok tt) -> describes g c g'.
Proof.
  unfold populate. intros H. fld H. destruct (testByte (g_test g0) (ch_extensions c)) as [t|] eqn:Et; [|discriminate]. apply testByte_ok in Et. do 7 fld H. injection H as <-.
  assert (V : forall k o, getExtension k (ch_extensions c) = Ok o -> (exists y, o = Some y /\ kind_of y = k /\ has (ch_extensions c) y) \/ (o = None /\ lacks (ch_extensions c) (kind_type k))).
  { intros k [y|] Hk; [left; exists y; split; [reflexivity|apply has_of, Hk]|right; split; [reflexivity|apply lacks_of, Hk]]. }
  apply V in A, A0, A1, A2, A3, A4, A5, A6. clear V.
  assert (eta : forall o (z : hlog), g_shares z = o -> z = set_shares o z) by (intros o z <-; destruct z; reflexivity).
  set (exts := ch_extensions c) in *.
  set (gv := set_version (Some (ch_version c)) g) in *.
  assert (E0 : exists v, g0 = set_versions v gv /\ ((exists l, has exts (XSupportedVersions l) /\ v = l) \/ (lacks exts 43 /\ v = g_versions gv))).
  { injection B as <-. destruct A as [(y & -> & K & A)|[-> A]]; [destruct y; try discriminate K; eexists; split; [reflexivity|eauto]|]. exists (g_versions gv). split; [destruct gv; reflexivity|right; split; [exact A|reflexivity]]. }
  clear A B. destruct E0 as (v0 & -> & V0).
  set (ga := set_alpns [] _) in *.
  assert (E0 : exists v, g1 = set_alpns v ga /\ ((exists l, has exts (XProtocolNameList (map Some l)) /\ v = l) \/ (lacks exts 16 /\ v = []))).
  { destruct A0 as [(y & -> & K & A0)|[-> A0]]; [destruct y; try discriminate K|injection B0 as <-; exists []; split; [reflexivity|right; split; [exact A0|reflexivity]]].
    destruct (derefs l) as [ns|] eqn:Ed; [|discriminate]. injection B0 as <-. apply derefs_ok in Ed. subst l. exists ns. split; [reflexivity|left; eauto]. }
  clear A0 B0. destruct E0 as (v1 & -> & V1). subst ga.
  assert (E0 : exists v, g2 = set_sni v (set_alpns v1 (set_extensions (map ext_type exts) t (set_ciphers (ch_suites c) (set_versions v0 gv)))) /\ ((exists t n l, has exts (XServerNameList ((t, Some n) :: l)) /\ v = Some n) \/ ((has exts (XServerNameList []) \/ lacks exts 0) /\ v = g_sni gv))).
  { destruct A1 as [(y & -> & K & A1)|[-> A1]]; [destruct y; try discriminate K; destruct l as [|[ty [h|]] l]; [| |discriminate B1]|]; injection B1 as <-;
      [exists (g_sni gv); split; [reflexivity|auto]|eexists; split; [reflexivity|left; eauto]|exists (g_sni gv); split; [reflexivity|auto]]. }
  clear A1 B1. destruct E0 as (v2 & -> & V2).
  match type of B2 with context [set_groups _ ?x] => set (gb := x) in * end.
  assert (E0 : exists v, g3 = set_groups v gb /\ ((exists l, has exts (XSupportedGroups l) /\ v = l) \/ (lacks exts 10 /\ v = g_groups gv))).
  { injection B2 as <-. destruct A2 as [(y & -> & K & A2)|[-> A2]]; [destruct y; try discriminate K; eexists; split; [reflexivity|eauto]|]. exists (g_groups gv). split; [reflexivity|right; split; [exact A2|reflexivity]]. }
  clear A2 B2. destruct E0 as (v3 & -> & V3). subst gb.
  match type of B3 with context [set_shares _ ?x] => set (gb := x) in * end.
  assert (E0 : exists v, g4 = set_shares v gb /\ ((g_shares gv <> None /\ v = g_shares gv) \/
    (g_shares gv = None /\ ((exists l, has exts (XClientKeyShare l) /\ v = Some (map fst l)) \/ (lacks exts 51 /\ v = None))))).
  { injection B3 as <-. change (g_shares g) with (g_shares gv). destruct (g_shares gv) as [sh|] eqn:Es.
    - exists (Some sh). split; [|left; split; [discriminate|reflexivity]]. assert (Eg := eta (Some sh) gb Es). destruct x3 as [[]|]; exact Eg.
    - destruct A3 as [(y & -> & K & A3)|[-> A3]]; [destruct y; try discriminate K; eexists; split; [reflexivity|right; split; [reflexivity|left; eauto]]|]. exists None. split; [exact (eta None gb Es)|right; split; [reflexivity|right; split; [exact A3|reflexivity]]]. }
  clear A3 B3. destruct E0 as (v4 & -> & V4). subst gb.
  match type of B4 with context [set_modes _ ?x] => set (gb := x) in * end.
  assert (E0 : exists v, g5 = set_modes v gb /\ ((exists l, has exts (XPskKeyExchangeModes l) /\ v = l) \/ (lacks exts 45 /\ v = g_modes gv))).
  { injection B4 as <-. destruct A4 as [(y & -> & K & A4)|[-> A4]]; [destruct y; try discriminate K; eexists; split; [reflexivity|eauto]|]. exists (g_modes gv). split; [reflexivity|right; split; [exact A4|reflexivity]]. }
  clear A4 B4. destruct E0 as (v5 & -> & V5). subst gb.
  match type of B5 with context [set_schemes _ ?x] => set (gb := x) in * end.
  assert (E0 : exists v, g6 = set_schemes v gb /\ ((exists l, has exts (XSignatureAlgorithms l) /\ v = l) \/ (lacks exts 13 /\ v = g_schemes gv))).
  { injection B5 as <-. destruct A5 as [(y & -> & K & A5)|[-> A5]]; [destruct y; try discriminate K; eexists; split; [reflexivity|eauto]|]. exists (g_schemes gv). split; [reflexivity|right; split; [exact A5|reflexivity]]. }
  clear A5 B5. destruct E0 as (v6 & -> & V6). subst gb.
  match type of B6 with context [set_compression _ ?x] => set (gb := x) in * end.
  assert (E0 : exists v, g7 = set_compression v gb /\ ((exists l, has exts (XCertCompressionAlgs l) /\ v = l) \/ (lacks exts 27 /\ v = g_compression gv))).
  { injection B6 as <-. destruct A6 as [(y & -> & K & A6)|[-> A6]]; [destruct y; try discriminate K; eexists; split; [reflexivity|eauto]|]. exists (g_compression gv). split; [reflexivity|right; split; [exact A6|reflexivity]]. }
  clear A6 B6. destruct E0 as (v7 & -> & V7). subst gb.
  constructor; try (assumption || reflexivity).
  - cbn. destruct (ch_session_id c) as [[|b r]|]; split; try discriminate; try (intros (? & ? & [=])); eauto.
  - discriminate.
  - repeat split; reflexivity.
Qed.

Lemma field_same k exts use next g h : (forall x g1 h1, use x g = Ok g1 -> use x h = Ok h1 -> snd (next g1) = snd (next h1)) -> (forall x, (exists g1, use x g = Ok g1) <-> exists h1, use x h = Ok h1) ->
  (forall x a b, use x g = Err a -> use x h = Err b -> a = b) -> snd (field k exts use next g) = snd (field k exts use next h).
Proof.
  intros Hn Hu He. unfold field. destruct (getExtension k exts) as [x|]; [|reflexivity]. specialize (Hu x). specialize (Hn x). specialize (He x).
  destruct (use x g) as [g1|a]; destruct (use x h) as [h1|b]; [apply Hn; reflexivity| | |cbn; rewrite (He a b eq_refl eq_refl); reflexivity].
  - destruct Hu as [Hu _]. destruct Hu as (? & Hu); [eauto|discriminate].
  - destruct Hu as [_ Hu]. destruct Hu as (? & Hu); [eauto|discriminate].
Qed.
Lemma testByte_same t u l : match testByte t l, testByte u l with Ok _, Ok _ => True | Err a, Err b => a = b | _, _ => False end.
Proof.
  revert t u. induction l as [|x l IH]; intros t u; [exact Logic.I|]. cbn [testByte]. destruct (_ =? _); [|apply IH]. destruct (ext_data x) as [[|? [|? ?]]|]; [apply IH..|reflexivity].
Qed.
(** Whether filling in the log throws, and what, depends on the hello only, *)
Theorem C86_logging c g h : snd (populate c g) = snd (populate c h).
Proof.
  unfold populate.
  apply field_same; [|intros [[]|]; split; eauto|intros [[]|] ? ?; discriminate]. intros _ g0 h0 _ _.
  pose proof (testByte_same (g_test g0) (g_test h0) (ch_extensions c)) as T.
  destruct (testByte (g_test g0) _) as [t|]; destruct (testByte (g_test h0) _) as [u|]; try contradiction; [|cbn; congruence].
  apply field_same; [|intros [[]|]; try (split; eauto; fail); destruct (derefs l); split; intros (? & ?); try discriminate; eexists; reflexivity|intros [[]|] ? ?; try discriminate; destruct (derefs l); cbn [bind]; congruence]. intros _ g1 h1 _ _.
  apply field_same; [|intros [[]|]; try (split; eauto; fail); destruct l as [|[? [?|]] ?]; split; intros (? & ?); try discriminate; eexists; reflexivity|intros [[]|] ? ?; try discriminate; destruct l as [|[? [?|]] ?]; try discriminate; cbn; congruence]. intros _ g2 h2 _ _.
  apply field_same; [|intros [[]|]; split; eauto|intros [[]|] ? ?; discriminate]. intros _ g3 h3 _ _.
  apply field_same; [|intros [[]|]; split; eauto|intros [[]|] ? ?; discriminate]. intros _ g4 h4 _ _.
  apply field_same; [|intros [[]|]; split; eauto|intros [[]|] ? ?; discriminate]. intros _ g5 h5 _ _.
  apply field_same; [|intros [[]|]; split; eauto|intros [[]|] ? ?; discriminate]. intros _ g6 h6 _ _.
  apply field_same; [|intros [[]|]; split; eauto|intros [[]|] ? ?; discriminate]. intros _ g7 h7 _ _. reflexivity.
Qed.
(** so the handler with the log does what it does without looking at it: *)
Theorem C86_transparent e w s g c0 o0 : snd (logged_hello e w s g c0 o0) = handle_hello e w s c0 o0.
Proof.
  unfold logged_hello. destruct g as [g|]; [|reflexivity]. unfold effectiveHello, handle_hello, hello_negotiate.
  destruct (serverCookie e c0) as [ck|]; [|reflexivity]. cbn [bind]. destruct (ensure _ _) as [u|]; [|reflexivity]. cbn [bind].
  destruct (processECH e ck s c0 o0) as [[[[es est] c] o]|]; [|reflexivity]. cbn [bind].
  rewrite (C86_logging c hlog_new (populatePre c0 o0 g)). destruct (populate c (populatePre c0 o0 g)) as [g' [[]|x]]; reflexivity.
Qed.
(** It throws exactly if one of eight extensions cannot be read: all of them may then be of no use to the connection. *)
Theorem C86_refused c g : hello_set c -> (snd (populate c g) = Ok tt <-> forall k, In k logged_kinds -> exists x, getExtension k (ch_extensions c) = Ok x).
Proof.
  intros [_ Hs]. split; [apply populate_readable|]. intros H.
  assert (F : forall k use next z, In k logged_kinds -> (forall x, getExtension k (ch_extensions c) = Ok x -> exists g', use x z = Ok g') -> (forall g', snd (next g') = Ok tt) -> snd (field k (ch_extensions c) use next z) = Ok tt).
  { intros k use next z Hk Hu Hn. unfold field. destruct (H k Hk) as (x & Ex). rewrite Ex. destruct (Hu x Ex) as (g' & ->). apply Hn. }
  assert (B : forall t l, Forall xset l -> exists u, testByte t l = Ok u).
  { intros t l Hl. revert t. induction Hl as [|x l Hx Hl IH]; intros t; [eexists; reflexivity|]. cbn [testByte]. unfold xset in Hx.
    destruct (_ =? _); [destruct (ext_data x) as [[|? [|? ?]]|]; [..|contradiction]|]; apply IH. }
  assert (D : forall l, forallb nonnull l = true -> exists n, derefs l = Ok n).
  { induction l as [|b l IH]; intros Hl; [eexists; reflexivity|]. cbn [forallb] in Hl. apply andb_true_iff in Hl. destruct Hl as [H1 H2]. destruct b as [b|]; [|discriminate]. cbn [derefs HandshakeLog.deref bind].
    destruct (IH H2) as (n & ->). eexists. reflexivity. }
  unfold populate. apply F; [cbn; auto|eauto|]. intros g0. destruct (B (g_test g0) _ Hs) as (u & ->). unfold logged_kinds in F. cbn [In] in F.
  apply F; [auto 20| |].
  { intros x Ex. destruct x as [x|]; [|eauto]. apply getExtension_strict in Ex. destruct Ex as (_ & Hw & _). destruct x; eauto. destruct (D _ Hw) as (n & ->). eexists. reflexivity. }
  intros g'. apply F; [auto 20| |].
  { intros x Ex. destruct x as [x|]; [|eauto]. apply getExtension_strict in Ex. destruct Ex as (_ & Hw & _). destruct x; eauto. destruct l as [|[ty h] l]; [eauto|].
    cbn in Hw. apply andb_true_iff in Hw. destruct Hw as [Hw _]. destruct h; [eexists; reflexivity|]. unfold wf_nb in Hw. cbn in Hw. rewrite andb_false_r in Hw. discriminate. }
  do 5 (intros ?; apply F; [auto 20|eauto|]). intros ?. reflexivity.
Qed.
(** The log of a hello that is handled describes the hello gone on with (the decrypted inner one if there is one), names the one received
    by its random and length, and says with what version its record came. *)
Theorem C86_handled e w s g c0 o0 g' r : logged_hello e w s (Some g) c0 o0 = (g', Ok r) ->
  exists c h g1, effectiveHello e s c0 o0 = Ok c /\ g' = Some h /\ describes (populatePre c0 o0 g) c g1 /\
    h = (match s_read s with Some {| ev_layer := LPlain p |} => set_record (ps_version p) g1 | _ => g1 end) /\
    g_outer h = Some (ch_random c0) /\ g_size h = blen o0 /\
    (forall rd p, s_read s = Some rd -> ev_layer rd = LPlain p -> g_record h = ps_version p).
Proof.
  unfold logged_hello. intros H. destruct (effectiveHello e s c0 o0) as [c|]; [|discriminate]. destruct (populate c (populatePre c0 o0 g)) as [g1 [[]|]] eqn:Ep; [|discriminate].
  injection H as <- H. apply C86_describes in Ep. exists c, (recordVersion s g1), g1. split; [reflexivity|]. split; [reflexivity|]. split; [exact Ep|].
  destruct Ep. destruct ds_outer0 as (O1 & O2 & O3). unfold recordVersion. destruct (s_read s) as [[u l]|]; cbn [ev_layer].
  - destruct l as [p|x].
    + split; [reflexivity|]. split; [exact O1|]. split; [exact O2|]. intros rd q [= <-] [= <-]. reflexivity.
    + split; [reflexivity|]. split; [exact O1|]. split; [exact O2|]. intros rd q [= <-]. discriminate.
  - split; [reflexivity|]. split; [exact O1|]. split; [exact O2|]. discriminate.
Qed.
(** ** Examples *)
Definition lx_state : sstate := snd (fst (script (tx_env AuthNone) s_init [] [say IAccept])).
Definition lx_run (c : ClientHello) : option hlog * res (sstate * list out) := logged_hello (tx_env AuthNone) tx_w lx_state (Some hlog_new) c (tx_enc (MClientHello c)).
Definition is_ok {A} (r : res A) : bool := match r with Ok _ => true | Err _ => false end.
Definition err_of {A} (r : res A) : option err := match r with Ok _ => None | Err x => Some x end.
Definition lx_sees (o : option hlog) := match o with
  | Some g => Some (g_version g, g_versions g, g_ciphers g, g_extensions g, g_sni g, g_groups g, g_shares g, g_modes g, g_schemes g, g_compression g, g_sid g, g_alpns g, g_size g)
  | None => None end.
Example C86_met : is_ok (snd (lx_run tx_h0)) = true /\
  lx_sees (fst (lx_run tx_h0)) = Some (Some 771, [771; 772], [4865; 4867], [43; 10; 51; 13; 16; 45], None, [23; 29], Some [29], [1], [1027], [], Some true, [str "h3"; str "h2"], blen (tx_enc (MClientHello tx_h0))).
Proof. split; vm_compute; reflexivity. Qed.
(** A connection that has no use for certificate compression ends because of a malformed list of its algorithms. *)
Definition lx_bad : ClientHello := mkCH 771 (be 32 3) (Some (be 8 1)) [4865; 4867] [0] (ch_extensions tx_h0 ++ [mkExt 27 (Some [x05])]).
Theorem C86_unused_matters : is_ok (handle_hello (tx_env AuthNone) tx_w lx_state tx_h0 (tx_enc (MClientHello tx_h0))) = true /\
  err_of (handle_hello (tx_env AuthNone) tx_w lx_state lx_bad (tx_enc (MClientHello lx_bad))) = Some (EStatus None).
Proof. split; vm_compute; reflexivity. Qed.
(** After a retry the log may hold what the hello before it said: what an extension the second one lacks said, and always the first key shares. *)
Definition lx_second : ClientHello := mkCH 771 (be 32 3) (Some (be 8 1)) [4865] [0] (map ex_ext [XSupportedVersions [772]; XClientKeyShare [(23, Some [x09])]]).
Theorem C86_stale_refuted : lacks (ch_extensions lx_second) 10 /\ has (ch_extensions lx_second) (XClientKeyShare [(23, Some [x09])]) /\
  let g1 := fst (populate tx_h0 hlog_new) in let g2 := fst (populate lx_second g1) in
  snd (populate tx_h0 hlog_new) = Ok tt /\ snd (populate lx_second g1) = Ok tt /\ g_versions g2 = [772] /\ g_groups g2 = [23; 29] /\ g_shares g2 = Some [29].
Proof.
  split. { intros y [<-|[<-|[]]]; vm_compute; discriminate. }
  split. { apply (has_of KClientKeyShare). vm_compute. reflexivity. }
  cbv zeta. repeat split; vm_compute; reflexivity.
Qed.
Print Assumptions C86_describes. Print Assumptions C86_logging. Print Assumptions C86_transparent. Print Assumptions C86_refused.
Print Assumptions C86_handled. Print Assumptions C86_unused_matters. Print Assumptions C86_stale_refuted.
