(** * Property C80: kernel TLS *)
From Verif Require Import Base Codec Str Hkdf HkdfSpec HkdfProofs KeySched KeySchedSpec KeySchedProofs Handshake HandshakeSpec HandshakeProofs Extensions RecordBase Record RecordProofs RecordSpec RecordRT
  ReadEvent ReadEventProofs Nonce Cookie Token Ticket PskSer Crash PropsExpAuth PropsKeys Server ServerFacts Client Ktls.
Open Scope N_scope.

(** ** Specification *)
(** What the kernel reads from the parameters given to it for TLS_RX or TLS_TX (struct tls12_crypto_info_aes_gcm_128/256 of linux/tls.h): *)
Record kinfo := mkKI { ki_version : N; ki_cipher : N; ki_iv : bytes; ki_key : bytes; ki_salt : bytes; ki_seq : bytes }.
Definition u16_host (little : bool) (b : bytes) : N := if little then unbe (rev b) else unbe b.
Definition kernel_reads (little : bool) (b : bytes) (i : kinfo) : Prop :=
  exists v c, b = v ++ c ++ ki_iv i ++ ki_key i ++ ki_salt i ++ ki_seq i /\ blen v = 2 /\ blen c = 2 /\ ki_version i = u16_host little v /\ ki_cipher i = u16_host little c /\
    blen (ki_iv i) = 8 /\ blen (ki_salt i) = 4 /\ blen (ki_seq i) = 8 /\
    (ki_cipher i = 51 /\ blen (ki_key i) = 16 \/ ki_cipher i = 52 /\ blen (ki_key i) = 32).
(** The nonce of its n-th record from then on: salt and iv, xor the record sequence number, which counts up *)
Definition kernel_nonce (i : kinfo) (n : N) : bytes := xor_bytes (ki_salt i ++ ki_iv i) (zeros 4 ++ be 8 (unbe (ki_seq i) + n)).
(** [b] makes the kernel go on with key and IV of a fizz record layer for the given suite, from record number [seq] on *)
Definition goes_on (little : bool) (b : bytes) (suite : N) (key iv : bytes) (seq : N) : Prop :=
  exists i, kernel_reads little b i /\ ki_version i = 772 /\ ki_key i = key /\ (suite = 4865 /\ ki_cipher i = 51 \/ suite = 4866 /\ ki_cipher i = 52) /\ unbe (ki_seq i) = seq /\
    forall n, seq + n < 2 ^ 64 -> createIV (seq + n) 12 iv = Ok (kernel_nonce i n).
Definition fits (suite : N) (key iv : bytes) : Prop := blen iv = 12 /\ (suite = 4865 /\ blen key = 16 \/ suite = 4866 /\ blen key = 32).
(** Both directions of a record layer's state *)
Definition layer_has (r : rlstate) (key iv : bytes) (seq : N) : Prop := rl_key r = Some (Some key, Some iv) /\ rl_seq r = Some seq.

(** ** Parameters *)
Lemma host16 little n : n < 65536 -> u16_host little (native16 little n) = n.
Proof. intros H. unfold u16_host, native16. destruct little; rewrite ?rev_involutive; apply (unbe_be 2); exact H. Qed.
Lemma native16_len little n : blen (native16 little n) = 2.
Proof. unfold native16. destruct little; [unfold blen; rewrite rev_length, be_length; reflexivity|apply be_blen]. Qed.
Theorem C80_params little suite key iv seq b : seq < 2 ^ 64 ->
  toSockopt little (mkKP suite (Some key) (Some iv) seq) = Some b -> fits suite key iv /\ goes_on little b suite key iv seq.
Proof.
  intros Hs. unfold toSockopt, ktls_layout. cbn [kp_suite kp_key kp_iv kp_seq].
  assert (K : forall ct kl, blen key = kl -> blen iv = 12 -> (suite = 4865 /\ ct = 51 /\ kl = 16 \/ suite = 4866 /\ ct = 52 /\ kl = 32) ->
     goes_on little (native16 little 772 ++ native16 little ct ++ dropN 4 iv ++ key ++ takeN 4 iv ++ be 8 seq) suite key iv seq).
  { intros ct kl Lk Li Hc. exists (mkKI 772 ct (dropN 4 iv) key (takeN 4 iv) (be 8 seq)).
    assert (L4 : blen (takeN 4 iv) = 4) by (rewrite blen_takeN; lia).
    assert (L8 : blen (dropN 4 iv) = 8). { pose proof (f_equal blen (takeN_dropN 4 iv)) as X. rewrite blen_app in X. lia. }
    split.
    { exists (native16 little 772), (native16 little ct). cbn [ki_version ki_cipher ki_iv ki_key ki_salt ki_seq]. rewrite !native16_len, !host16 by (destruct Hc as [(_ & -> & _)|(_ & -> & _)]; reflexivity).
      rewrite be_blen. repeat split; try assumption; try reflexivity. destruct Hc as [(_ & -> & E)|(_ & -> & E)]; [left|right]; (split; [reflexivity|lia]). }
    cbn [ki_version ki_key ki_cipher ki_seq]. split; [reflexivity|]. split; [reflexivity|]. split; [destruct Hc as [(-> & -> & _)|(-> & -> & _)]; auto|].
    split; [apply (unbe_be 8); exact Hs|]. intros n Hn. unfold createIV, xor_checked. change (12 <? 8) with false. cbv iota.
    rewrite seqpad_len. change (N.of_nat (N.to_nat (12 - 8)) + 8) with 12. rewrite Li, N.eqb_refl. unfold kernel_nonce. cbn [ki_salt ki_iv ki_seq].
    rewrite takeN_dropN, (unbe_be 8) by exact Hs. reflexivity. }
  destruct (N.eqb_spec suite 4865) as [->|N1].
  - destruct (N.eqb_spec (blen iv) 12) as [Li|]; [|discriminate]. destruct (N.eqb_spec (blen key) 16) as [Lk|]; [|discriminate]. cbn [negb]. intros E. injection E as <-.
    split; [split; [exact Li|auto]|]. apply (K 51 16); auto.
  - destruct (N.eqb_spec suite 4866) as [->|N2]; [|discriminate].
    destruct (N.eqb_spec (blen iv) 12) as [Li|]; [|discriminate]. destruct (N.eqb_spec (blen key) 32) as [Lk|]; [|discriminate]. cbn [negb]. intros E. injection E as <-.
    split; [split; [exact Li|auto]|]. apply (K 52 32); auto.
Qed.
Lemma sockopt_fits little suite key iv seq : fits suite key iv -> exists b, toSockopt little (mkKP suite (Some key) (Some iv) seq) = Some b.
Proof.
  intros (Li & [[-> Lk]|[-> Lk]]); unfold toSockopt, ktls_layout; cbn [kp_suite kp_key kp_iv kp_seq].
  - change (4865 =? 4865) with true. cbv iota. rewrite Li, Lk, !N.eqb_refl. cbn [negb]. eexists. reflexivity.
  - change (4866 =? 4865) with false. change (4866 =? 4866) with true. cbv iota. rewrite Li, Lk, !N.eqb_refl. cbn [negb]. eexists. reflexivity.
Qed.
Lemma sockopt_some little p b : toSockopt little p = Some b -> exists key iv, kp_key p = Some key /\ kp_iv p = Some iv.
Proof.
  unfold toSockopt. destruct (ktls_layout _) as [[[? ?] ?]|]; [|discriminate]. destruct (kp_iv p); [|discriminate]. destruct (kp_key p); [|discriminate]. eauto.
Qed.

(** ** Conversion *)
(** A connection is converted exactly if it is good, its handshake is complete, the platform supports kTLS, its suite and keys fit, and the kernel takes everything; then the kernel goes on with both record layers (or with the reading one). *)
Theorem C80_convert little platform answer good connecting has suite rs ws noPad calls :
  (forall s, rl_seq rs = Some s -> s < 2 ^ 64) -> (forall s, rl_seq ws = Some s -> s < 2 ^ 64) ->
  tryConvert little platform answer good connecting has true suite rs ws noPad = Ok (calls, true) <->
  exists kr ir sr kw iw sw br bw, good = true /\ connecting = false /\ has = true /\ platform = true /\
    layer_has rs kr ir sr /\ layer_has ws kw iw sw /\ fits suite kr ir /\ fits suite kw iw /\
    goes_on little br suite kr ir sr /\ goes_on little bw suite kw iw sw /\
    toSockopt little (mkKP suite (Some kr) (Some ir) sr) = Some br /\ toSockopt little (mkKP suite (Some kw) (Some iw) sw) = Some bw /\
    answer SoUlp = true /\ answer (SoRx br) = true /\ answer (SoTx bw) = true /\ calls = [SoUlp; SoRx br; SoTx bw; SoNoPad noPad].
Proof.
  intros Hr Hw. unfold tryConvert. split.
  - destruct good; [|discriminate]. destruct connecting; [discriminate|]. destruct has; [|discriminate]. cbn [negb orb].
    unfold fromRecordState. destruct (rl_key rs) as [[kr ir]|] eqn:E1; [|discriminate]. destruct (rl_seq rs) as [sr|] eqn:E2; [|discriminate].
    destruct (rl_key ws) as [[kw iw]|] eqn:E3; [|discriminate]. destruct (rl_seq ws) as [sw|] eqn:E4; [|discriminate]. cbn [bind].
    unfold tryEnable. destruct platform; [|discriminate]. cbn [negb kp_suite]. rewrite N.eqb_refl. cbn [negb].
    destruct (toSockopt little (mkKP suite kr ir sr)) as [br|] eqn:Er; [|discriminate]. destruct (toSockopt little (mkKP suite kw iw sw)) as [bw|] eqn:Ew; [|discriminate].
    destruct (sockopt_some _ _ _ Er) as (kr' & ir' & X1 & X2). destruct (sockopt_some _ _ _ Ew) as (kw' & iw' & X3 & X4). cbn in X1, X2, X3, X4. subst.
    destruct (answer SoUlp) eqn:A1; [|discriminate]. destruct (answer (SoRx br)) eqn:A2; [|discriminate]. destruct (answer (SoTx bw)) eqn:A3; [|discriminate].
    cbn [negb]. intros E. injection E as <-. destruct (C80_params _ _ _ _ _ _ (Hr _ eq_refl) Er). destruct (C80_params _ _ _ _ _ _ (Hw _ eq_refl) Ew).
    exists kr', ir', sr, kw', iw', sw, br, bw. unfold layer_has. auto 20.
  - intros (kr & ir & sr & kw & iw & sw & br & bw & -> & -> & -> & -> & [R1 R2] & [W1 W2] & _ & _ & _ & _ & Er & Ew & A1 & A2 & A3 & ->).
    unfold fromRecordState. rewrite R1, R2, W1, W2. cbn [negb orb bind]. unfold tryEnable. cbn [negb kp_suite]. rewrite N.eqb_refl, Er, Ew, A1, A2, A3. reflexivity.
Qed.
Theorem C80_convert_rx little platform answer good connecting has suite rs ws noPad calls :
  (forall s, rl_seq rs = Some s -> s < 2 ^ 64) ->
  tryConvert little platform answer good connecting has false suite rs ws noPad = Ok (calls, true) <->
  exists kr ir sr br, good = true /\ connecting = false /\ has = true /\ platform = true /\ layer_has rs kr ir sr /\ fits suite kr ir /\ goes_on little br suite kr ir sr /\
    toSockopt little (mkKP suite (Some kr) (Some ir) sr) = Some br /\ answer SoUlp = true /\ answer (SoRx br) = true /\ calls = [SoUlp; SoRx br; SoNoPad noPad].
Proof.
  intros Hr. unfold tryConvert. split.
  - destruct good; [|discriminate]. destruct connecting; [discriminate|]. destruct has; [|discriminate]. cbn [negb orb].
    unfold fromRecordState. destruct (rl_key rs) as [[kr ir]|] eqn:E1; [|discriminate]. destruct (rl_seq rs) as [sr|] eqn:E2; [|discriminate]. cbn [bind].
    unfold tryEnable. destruct platform; [|discriminate]. cbn [negb].
    destruct (toSockopt little (mkKP suite kr ir sr)) as [br|] eqn:Er; [|discriminate]. destruct (sockopt_some _ _ _ Er) as (kr' & ir' & X1 & X2). cbn in X1, X2. subst.
    destruct (answer SoUlp) eqn:A1; [|discriminate]. destruct (answer (SoRx br)) eqn:A2; [|discriminate].
    cbn [negb]. intros E. injection E as <-. destruct (C80_params _ _ _ _ _ _ (Hr _ eq_refl) Er). exists kr', ir', sr, br. unfold layer_has. auto 20.
  - intros (kr & ir & sr & br & -> & -> & -> & -> & [R1 R2] & _ & _ & Er & A1 & A2 & ->).
    unfold fromRecordState. rewrite R1, R2. cbn [negb orb bind]. unfold tryEnable. cbn [negb]. rewrite Er, A1, A2. reflexivity.
Qed.
(** When it fails the kernel has no key for sending, and one for receiving only if it refused the one for sending. *)
Theorem C80_failure little platform answer good connecting has both suite rs ws noPad calls :
  tryConvert little platform answer good connecting has both suite rs ws noPad = Ok (calls, false) ->
  (forall b, In (SoTx b) calls -> answer (SoTx b) = false) /\
  (forall b, In (SoRx b) calls -> answer (SoRx b) = false \/ exists b', In (SoTx b') calls /\ answer (SoTx b') = false).
Proof.
  assert (K : forall rx tx, tryEnable little platform answer rx tx noPad = (calls, false) ->
    (forall b, In (SoTx b) calls -> answer (SoTx b) = false) /\ (forall b, In (SoRx b) calls -> answer (SoRx b) = false \/ exists b', In (SoTx b') calls /\ answer (SoTx b') = false)).
  { assert (N0 : @nil sockopt = calls -> (forall b, In (SoTx b) calls -> answer (SoTx b) = false) /\ (forall b, In (SoRx b) calls -> answer (SoRx b) = false \/ exists b', In (SoTx b') calls /\ answer (SoTx b') = false)).
    { intros <-. split; intros ? []. }
    intros rx tx. unfold tryEnable. destruct platform; [|intros E; apply N0; injection E as E; exact E]. cbn [negb].
    destruct tx as [tx|].
    - destruct (kp_suite rx =? kp_suite tx); [|intros E; apply N0; injection E as E; exact E]. cbn [negb].
      destruct (toSockopt little rx) as [br|]; [|intros E; apply N0; injection E as E; exact E]. destruct (toSockopt little tx) as [bw|]; [|intros E; apply N0; injection E as E; exact E].
      destruct (answer SoUlp); cbn [negb]; [|intros E; injection E as <-; cbn; split; intros; intuition discriminate].
      destruct (answer (SoRx br)) eqn:A; cbn [negb]; [|intros E; injection E as <-; cbn; split; intros b Hb; [intuition discriminate|left; intuition congruence]].
      destruct (answer (SoTx bw)) eqn:A'; cbn [negb]; [discriminate|]. intros E. injection E as <-. split; [intros b [X|[X|[X|[]]]]; try discriminate X; injection X as <-; exact A'|intros b _; right; exists bw; split; [right; right; left; reflexivity|exact A']].
    - destruct (toSockopt little rx) as [br|]; [|intros E; apply N0; injection E as E; exact E].
      destruct (answer SoUlp); cbn [negb]; [|intros E; injection E as <-; cbn; split; intros; intuition discriminate].
      destruct (answer (SoRx br)) eqn:A; cbn [negb]; [discriminate|intros E; injection E as <-; cbn; split; intros b Hb; [intuition discriminate|left; intuition congruence]]. }
  unfold tryConvert. destruct (_ || _); [intros E; injection E as <-; split; intros ? []|]. destruct (negb has); [intros E; injection E as <-; split; intros ? []|].
  destruct (fromRecordState suite rs) as [rx|]; [|discriminate]. cbn [bind]. destruct both.
  - destruct (fromRecordState suite ws) as [tx|]; [|discriminate]. cbn [bind]. intros E. apply (K rx (Some tx)). injection E as E. exact E.
  - intros E. apply (K rx None). injection E as E. exact E.
Qed.

(** ** Reading *)
(** A stream as the peer's TLS stack sends it, one message not sharing a record with another: application data, and tickets in any number of pieces *)
Inductive kitem := IApp (d : bytes) | ITick (t : NewSessionTicket) (cs : list bytes).
Definition message_of (m : hsmsg) (cs : list bytes) : Prop :=
  wf_msg m = true /\ receivable m = true /\ encodeHandshake m = Ok (concat cs) /\ blen (concat cs) <= 131072 + 4 /\ Forall (fun c => c <> []) cs.
Definition item_ok (i : kitem) : Prop := match i with IApp _ => True | ITick t cs => message_of (MNewSessionTicket t) cs end.
Definition hs_rec (c : bytes) : krecv := KRec (Some (2, 22)) c.
Definition feed (i : kitem) : list krecv := match i with IApp d => [KRec (Some (2, 23)) d] | ITick _ cs => map hs_rec cs end.
Definition gives (i : kitem) : kout := match i with IApp d => ODat d | ITick t _ => OTicket t end.
Definition not_again (i : krecv) : bool := match i with KAgain => false | _ => true end.
Definition ends (o : list kout) : bool := existsb (fun x => match x with OEnd _ => true | _ => false end) o.

Lemma kread_again cb : forall l u, kread cb u l = kread cb u (filter not_again l).
Proof.
  induction l as [|i l IH]; intros u; [reflexivity|]. destruct i; cbn [filter not_again]; try (cbn [kread]; destruct (performReadMsg cb u _) as [[u' ts] r]; rewrite IH; reflexivity).
  cbn [kread performReadMsg more]. rewrite IH. destruct (kread cb u (filter not_again l)) as [u' o]. reflexivity.
Qed.
Lemma hs_prefix p q m : decode_hs (p ++ q) = Ok (Some (m, p ++ q, [])) -> q <> [] -> decode_hs p = Ok None.
Proof.
  intros H Hq. destruct (decode_hs p) as [[[[m' o'] r']|]|e] eqn:E; [|reflexivity|].
  - apply (decode_hs_some _ _ _ _ q) in E. destruct E as (E & _). rewrite H in E. injection E as _ _ E. symmetry in E. apply app_eq_nil in E. tauto.
  - apply (decode_hs_err _ _ q) in E. destruct E as [E _]. congruence.
Qed.
(** Pieces of one message, read one after the other *)
Lemma kread_pieces f m : forall cs b rest,
  decode_hs (b ++ concat cs) = Ok (Some (m, b ++ concat cs, [])) -> cs <> [] -> Forall (fun c => c <> []) cs ->
  kread (Some f) (match b with [] => None | _ => Some b end) (map hs_rec cs ++ rest) =
    let '(ts, r) := dispatch f m in
    if more r then let '(u, o) := kread (Some f) None rest in (u, kouts ts r ++ o) else (None, kouts ts r).
Proof.
  induction cs as [|c cs IH]; intros b rest H Hn F; [congruence|]. inversion F as [|? ? Hc F']. subst. cbn [concat] in H.
  cbn [map app kread]. unfold hs_rec at 1, performReadMsg. change (negb (2 =? 2)) with false. change (22 =? ct_appdata) with false. cbv iota.
  unfold handleNonApp. change (22 =? ct_handshake) with true. change (22 =? ct_alert) with false. cbn [negb]. rewrite andb_false_r. cbv iota.
  destruct cs as [|c2 cs].
  - cbn [concat] in H. rewrite app_nil_r in H. unfold processHandshakeData. destruct b as [|b0 b]; cbn [app] in H |- *; rewrite H; destruct (dispatch f m) as [ts r]; reflexivity.
  - assert (D : decode_hs (b ++ c) = Ok None).
    { rewrite app_assoc in H. apply (hs_prefix _ _ _ H). inversion F' as [|? ? Hc2 _]. subst. cbn [concat]. destruct c2; [congruence|discriminate]. }
    specialize (IH (b ++ c) rest). rewrite <- app_assoc in IH. specialize (IH H ltac:(discriminate) F').
    assert (Hbc : b ++ c <> []) by (destruct b; [exact Hc|discriminate]).
    assert (E : processHandshakeData f match b with [] => None | _ => Some b end c = (match b ++ c with [] => None | _ => Some (b ++ c) end, [], RBlocking)).
    { unfold processHandshakeData. destruct b as [|b0 b]; cbn [app] in D |- *; rewrite D; [|reflexivity]. destruct c; [congruence|reflexivity]. }
    destruct b as [|b0 b]; rewrite E; cbn [more]; (destruct (b0 :: b ++ c) || idtac); rewrite IH; destruct (dispatch f m) as [ts r]; destruct (more r); try reflexivity; destruct (kread (Some f) None rest); reflexivity.
Qed.
Lemma message_decodes m cs : message_of m cs -> decode_hs (concat cs) = Ok (Some (m, concat cs, [])) /\ cs <> [].
Proof.
  intros (A & B & C & D & _). pose proof (decode_hs_enc m _ [] A B C D) as E. rewrite app_nil_r in E. split; [exact E|]. intros ->. cbn in E. discriminate E.
Qed.
Lemma kread_items f : (forall t, is_ok (f t) = true) -> forall items rest, Forall item_ok items ->
  kread (Some f) None (flat_map feed items ++ rest) = let '(u, o) := kread (Some f) None rest in (u, map gives items ++ o).
Proof.
  intros Hf. induction items as [|i items IH]; intros rest F; [cbn [flat_map map app]; destruct (kread _ _ _); reflexivity|]. inversion F as [|? ? Hi F']. subst. cbn [flat_map map]. rewrite <- app_assoc.
  destruct i as [d|t cs]; cbn [feed gives].
  - cbn [app kread]. unfold performReadMsg at 1. change (negb (2 =? 2)) with false. change (23 =? ct_appdata) with true. cbv iota. cbn [more]. rewrite IH by exact F'. destruct (kread _ _ _). reflexivity.
  - destruct (message_decodes _ _ Hi) as [D Hn]. destruct Hi as (_ & _ & _ & _ & Fc).
    rewrite (kread_pieces f (MNewSessionTicket t) cs [] _ D Hn Fc). cbn [dispatch]. specialize (Hf t). destruct (f t); [|discriminate]. cbn [more]. rewrite IH by exact F'. destruct (kread _ _ _). reflexivity.
Qed.
(** Everything is delivered in order: application data and tickets, whatever the pieces and whenever there is nothing to read. *)
Theorem C80_delivers f items l : (forall t, is_ok (f t) = true) -> Forall item_ok items -> filter not_again l = flat_map feed items ->
  kread (Some f) None l = (None, map gives items).
Proof.
  intros Hf F E. rewrite kread_again, E. pose proof (kread_items f Hf items [] F) as H. rewrite app_nil_r in H. rewrite H. cbn. rewrite app_nil_r. reflexivity.
Qed.
(** Any other handshake message (KeyUpdate among them) ends the connection with an error, after what came before. *)
Theorem C80_other f items m cs l rest : (forall t, is_ok (f t) = true) -> Forall item_ok items -> message_of m cs -> (forall t, m <> MNewSessionTicket t) ->
  filter not_again l = flat_map feed items ++ map hs_rec cs ++ rest ->
  kread (Some f) None l = (None, map gives items ++ [OEnd RError]).
Proof.
  intros Hf F M Ht E. rewrite kread_again, E, kread_items by assumption. destruct (message_decodes _ _ M) as [D Hn]. destruct M as (_ & _ & _ & _ & Fc).
  rewrite (kread_pieces f m cs [] rest D Hn Fc). assert (X : dispatch f m = ([], RError)) by (destruct m; try reflexivity; exfalso; eapply Ht; reflexivity). rewrite X. reflexivity.
Qed.
(** Nothing may come between the pieces of a message. *)
Theorem C80_spliced f items t cs cs' ct ty d l rest : (forall t, is_ok (f t) = true) -> Forall item_ok items -> message_of (MNewSessionTicket t) (cs ++ cs') -> cs <> [] -> cs' <> [] ->
  ty <> 22 -> filter not_again l = flat_map feed items ++ map hs_rec cs ++ KRec (Some (ct, ty)) d :: rest ->
  exists u, kread (Some f) None l = (u, map gives items ++ [OEnd RError]).
Proof.
  intros Hf F M Hc Hc' Hty E. rewrite kread_again, E, kread_items by assumption. destruct (message_decodes _ _ M) as [D _]. destruct M as (_ & _ & _ & _ & Fc).
  rewrite concat_app in D. apply Forall_app in Fc. destruct Fc as [F1 F2].
  assert (Q : concat cs' <> []) by (destruct cs' as [|[|] ?]; [congruence|inversion F2; congruence|discriminate]).
  assert (P : forall cs0 b, cs0 <> [] -> Forall (fun c => c <> []) cs0 -> decode_hs (b ++ concat cs0 ++ concat cs') = Ok (Some (MNewSessionTicket t, b ++ concat cs0 ++ concat cs', [])) ->
     exists u, kread (Some f) (match b with [] => None | _ => Some b end) (map hs_rec cs0 ++ KRec (Some (ct, ty)) d :: rest) = (Some u, [OEnd RError])).
  { induction cs0 as [|c cs0 IH]; intros b Hn Fn Dn; [congruence|]. inversion Fn as [|? ? Hcc Fn']. subst. cbn [concat] in Dn. rewrite <- app_assoc in Dn.
    cbn [map app kread]. unfold hs_rec at 1, performReadMsg at 1. change (negb (2 =? 2)) with false. change (22 =? ct_appdata) with false. cbv iota.
    unfold handleNonApp. change (22 =? ct_handshake) with true. change (22 =? ct_alert) with false. cbn [negb]. rewrite andb_false_r. cbv iota.
    assert (Dp : decode_hs (b ++ c) = Ok None).
    { rewrite app_assoc in Dn. apply (hs_prefix _ _ _ Dn). destruct (concat cs0); [exact Q|discriminate]. }
    assert (Hbc : b ++ c <> []) by (destruct b; [exact Hcc|discriminate]).
    assert (Ep : processHandshakeData f match b with [] => None | _ => Some b end c = (Some (b ++ c), [], RBlocking)).
    { unfold processHandshakeData. destruct b as [|b0 b]; cbn [app] in Dp |- *; rewrite Dp; reflexivity. }
    assert (G : exists u, kread (Some f) (Some (b ++ c)) (map hs_rec cs0 ++ KRec (Some (ct, ty)) d :: rest) = (Some u, [OEnd RError])).
    { destruct cs0 as [|c0 cs0].
      - cbn [map app kread]. unfold performReadMsg, handleNonApp. apply N.eqb_neq in Hty. change ct_handshake with 22. rewrite Hty. cbn [negb andb]. destruct (negb (ct =? 2)); [eexists; reflexivity|]. destruct (ty =? ct_appdata); eexists; reflexivity.
      - specialize (IH (b ++ c) ltac:(discriminate) Fn'). rewrite <- app_assoc in IH. specialize (IH Dn). destruct (b ++ c); [congruence|exact IH]. }
    destruct G as [u G]. exists u. destruct b as [|b0 b]; rewrite Ep; cbn [more]; rewrite G; reflexivity. }
  destruct (P cs [] Hc F1 D) as [u G]. rewrite G. exists (Some u). reflexivity.
Qed.
(** *** Any stream *)
Fixpoint datas (o : list kout) : list bytes := match o with [] => [] | ODat d :: r => d :: datas r | _ :: r => datas r end.
Fixpoint tickets (o : list kout) : list NewSessionTicket := match o with [] => [] | OTicket t :: r => t :: tickets r | _ :: r => tickets r end.
Fixpoint apps (l : list krecv) : list bytes := match l with [] => [] | KRec (Some (ct, ty)) d :: r => if (ct =? 2) && (ty =? 23) then d :: apps r else apps r | _ :: r => apps r end.
Lemma datas_app a b : datas (a ++ b) = datas a ++ datas b.
Proof. induction a as [|[d|t|r] a IH]; cbn; rewrite ?IH; reflexivity. Qed.
Lemma tickets_app a b : tickets (a ++ b) = tickets a ++ tickets b.
Proof. induction a as [|[d|t|r] a IH]; cbn; rewrite ?IH; reflexivity. Qed.
Lemma ends_app a b : ends (a ++ b) = ends a || ends b.
Proof. unfold ends. apply existsb_app. Qed.
Lemma datas_tickets ts : datas (map OTicket ts) = [].
Proof. induction ts; [reflexivity|exact IHts]. Qed.
Lemma ends_tickets ts : ends (map OTicket ts) = false.
Proof. induction ts; [reflexivity|exact IHts]. Qed.
Lemma apps_cons i l : apps (i :: l) = (match i with KRec (Some (ct, ty)) d => if (ct =? 2) && (ty =? 23) then [d] else [] | _ => [] end) ++ apps l.
Proof. destruct i as [| | |[[ct ty]|] d]; try reflexivity. cbn [apps]. destruct (_ && _); reflexivity. Qed.
(** One step: the application data it gives is what arrived *)
Lemma dispatch_data f m ts r : dispatch f m = (ts, r) -> (exists t, m = MNewSessionTicket t /\ ts = [t] /\ (f t = Ok tt /\ r = RBlocking \/ exists e, f t = Err e /\ r = RCrash e)) \/ ((forall t, m <> MNewSessionTicket t) /\ ts = [] /\ r = RError).
Proof.
  destruct m; cbn [dispatch]; intros E; injection E as <- <-; try (right; split; [discriminate|auto]; fail). left. eexists. split; [reflexivity|]. split; [reflexivity|].
  destruct (f m) as [[]|e]; [left; auto|right; eauto].
Qed.
Lemma hs_error_cases e : esafe e -> hs_error e = RError.
Proof. destruct e; cbn; tauto. Qed.
(** The possible steps *)
Inductive kstep_spec (cb : option (NewSessionTicket -> res unit)) (u : option bytes) : krecv -> option bytes -> list NewSessionTicket -> kres -> Prop :=
| ks_again : kstep_spec cb u KAgain u [] RBlocking
| ks_app d : u = None -> kstep_spec cb u (KRec (Some (2, 23)) d) None [] (RData d)
| ks_part d b : decode_hs b = Ok None -> b = match u with Some x => x ++ d | None => d end -> kstep_spec cb u (KRec (Some (2, 22)) d) (Some b) [] RBlocking
| ks_ticket d f b t o r0 r : cb = Some f -> b = match u with Some x => x ++ d | None => d end -> decode_hs b = Ok (Some (MNewSessionTicket t, o, r0)) ->
    (f t = Ok tt /\ r = RBlocking \/ exists e, f t = Err e /\ r = RCrash e) -> kstep_spec cb u (KRec (Some (2, 22)) d) None [t] r
| ks_eof : kstep_spec cb u KEof_ u [] REof
| ks_close a d : u = None -> kstep_spec cb u (KRec (Some (2, 21)) (a :: x00 :: d)) None [] REof
| ks_error i u' : kstep_spec cb u i u' [] RError.
Lemma alert_close d a r : decode_alert d = Ok (a, r) -> al_description a = 0 -> exists x y, d = x :: x00 :: y.
Proof.
  unfold decode_alert, read_u, read_be. destruct d as [|x [|y d]]; [discriminate|discriminate|].
  change (x :: y :: d) with ([x] ++ [y] ++ d). rewrite (take_app_n 1 [x]) by reflexivity. cbn [bind]. rewrite (take_app_n 1 [y]) by reflexivity. cbn [bind]. intros E Z.
  assert (Ea : a = mkAlert (unbe [x]) (unbe [y])) by congruence. rewrite Ea in Z. cbn [al_description] in Z.
  exists x, d. replace y with x00; [reflexivity|]. apply b2n_inj. change (b2n x00) with 0. rewrite <- Z. reflexivity.
Qed.
Lemma performReadMsg_spec cb u i u' ts r : performReadMsg cb u i = (u', ts, r) -> kstep_spec cb u i u' ts r.
Proof.
  destruct i as [| | |[[ct ty]|] d]; cbn [performReadMsg]; try (intros E; injection E as <- <- <-; constructor; fail).
  destruct (N.eqb_spec ct 2) as [->|]; [|intros E; injection E as <- <- <-; constructor]. cbn [negb].
  destruct (N.eqb_spec ty ct_appdata) as [->|Ha]; [destruct u; intros E; injection E as <- <- <-; constructor; reflexivity|].
  unfold handleNonApp. destruct (match u with Some _ => true | None => false end && negb (ty =? ct_handshake)) eqn:E0; [intros E; injection E as <- <- <-; constructor|].
  destruct (N.eqb_spec ty ct_alert) as [->|Hal].
  { assert (u = None) as -> by (destruct u; [discriminate E0|reflexivity]).
    unfold processAlert. destruct (decode_alert d) as [[a r0]|e] eqn:D; [|intros E; injection E as <- <- <-; constructor].
    destruct (N.eqb_spec (al_description a) 0) as [Z|]; intros E; injection E as <- <- <-; [|constructor].
    destruct (alert_close _ _ _ D Z) as (x & y & ->). apply ks_close. reflexivity. }
  destruct (N.eqb_spec ty ct_handshake) as [->|]; [|intros E; injection E as <- <- <-; constructor]. change ct_handshake with 22.
  destruct cb as [f|]; [|intros E; injection E as <- <- <-; constructor].
  unfold processHandshakeData. set (b := match u with Some x => x ++ d | None => d end).
  assert (G : forall u0, match decode_hs b with
     | Err e => (u0, [], hs_error e) | Ok None => (Some b, [], RBlocking) | Ok (Some (m, _, _)) => let '(ts, r) := dispatch f m in (None, ts, r) end = (u', ts, r) ->
     kstep_spec (Some f) u (KRec (Some (2, 22)) d) u' ts r).
  { intros u0. pose proof (decode_hs_safe b) as S. destruct (decode_hs b) as [[[[m o] r0]|]|e] eqn:D.
    - destruct (dispatch f m) as [ts0 r1] eqn:Di. intros E. injection E as <- <- <-. destruct (dispatch_data _ _ _ _ Di) as [(t & -> & -> & X)|(_ & -> & ->)]; [|constructor].
      eapply ks_ticket; [reflexivity|reflexivity|exact D|exact X].
    - intros E. injection E as <- <- <-. apply ks_part; [exact D|reflexivity].
    - intros E. injection E as <- <- <-. rewrite hs_error_cases by exact S. constructor. }
  destruct u as [x|]; [apply (G (Some b))|apply (G None)].
Qed.
(** Application data: what the kernel gave before the end, all of it, in order. *)
Theorem C80_data cb l u o : kread cb None l = (u, o) ->
  exists l1 l2, l = l1 ++ l2 /\ datas o = apps l1 /\ (ends o = false -> l2 = []).
Proof.
  generalize (@None bytes). intros u0. revert u0 u o. induction l as [|i l IH]; intros u0 u o H; cbn [kread] in H.
  { injection H as <- <-. exists [], []. auto. }
  destruct (performReadMsg cb u0 i) as [[u' ts] r] eqn:E. apply performReadMsg_spec in E.
  destruct (more r) eqn:M.
  - destruct (kread cb u' l) as [u'' o'] eqn:K. injection H as <- <-. destruct (IH _ _ _ K) as (l1 & l2 & -> & D & X). exists (i :: l1), l2. split; [reflexivity|].
    unfold kouts. split.
    + rewrite !datas_app, datas_tickets, D, apps_cons. destruct E; try discriminate M; try reflexivity.
      match goal with H : _ \/ _ |- _ => destruct H as [[_ ->]|(e & _ & ->)] end; [reflexivity|discriminate M].
    + intros Z. apply X. rewrite ends_app in Z. apply orb_false_iff in Z. tauto.
  - injection H as <- <-. exists [], (i :: l). split; [reflexivity|]. unfold kouts. split.
    + rewrite datas_app, datas_tickets. destruct r; try discriminate M; reflexivity.
    + rewrite ends_app, ends_tickets. destruct r; try discriminate M; discriminate.
Qed.
(** Tickets: each is the message at the start of what a run of handshake records carries. *)
Definition hs_run (l : list krecv) (cs : list bytes) : Prop := filter not_again l = map hs_rec cs.
Theorem C80_tickets cb l u o t : kread cb None l = (u, o) -> In t (tickets o) ->
  exists l1 run l2 cs m rest, l = l1 ++ run ++ l2 /\ hs_run run cs /\ concat cs = m ++ rest /\ encodeHandshake (MNewSessionTicket t) = Ok m /\
    (forall p q, cs = p ++ q -> q <> [] -> decode_hs (concat p) = Ok None).
Proof.
  intros H Ht.
  assert (G : forall l u0 u o, kread cb u0 l = (u, o) -> In t (tickets o) ->
    forall pre cs0, hs_run pre cs0 -> u0 = match cs0 with [] => None | _ => Some (concat cs0) end -> (forall p q, cs0 = p ++ q -> decode_hs (concat p) = Ok None) ->
    exists l1 run l2 cs m rest, pre ++ l = l1 ++ run ++ l2 /\ hs_run run cs /\ concat cs = m ++ rest /\ encodeHandshake (MNewSessionTicket t) = Ok m /\
      (forall p q, cs = p ++ q -> q <> [] -> decode_hs (concat p) = Ok None)).
  { clear l u o H Ht. induction l as [|i l IH]; intros u0 u o H Ht pre cs0 Hp Hu Hn; cbn [kread] in H; [injection H as <- <-; destruct Ht|].
    destruct (performReadMsg cb u0 i) as [[u' ts] r] eqn:E. apply performReadMsg_spec in E.
    assert (Restart : forall o', kread cb None l = (u, o') -> In t (tickets o') -> exists l1 run l2 cs m rest, pre ++ i :: l = l1 ++ run ++ l2 /\ hs_run run cs /\ concat cs = m ++ rest /\ encodeHandshake (MNewSessionTicket t) = Ok m /\ (forall p q, cs = p ++ q -> q <> [] -> decode_hs (concat p) = Ok None)).
    { intros o' K I. destruct (IH _ _ _ K I [] [] eq_refl eq_refl) as (l1 & run & l2 & cs & m & rest & El & X).
      { intros p q Epq. symmetry in Epq. apply app_eq_nil in Epq. destruct Epq as [-> _]. reflexivity. }
      exists (pre ++ i :: l1), run, l2, cs, m, rest. split; [|exact X]. cbn [app] in El. rewrite El, <- app_assoc. reflexivity. }
    assert (Tick : forall d b t' r0 r1, i = KRec (Some (2, 22)) d -> b = match u0 with Some x => x ++ d | None => d end -> decode_hs b = Ok (Some (MNewSessionTicket t', r0, r1)) -> t' = t ->
      exists l1 run l2 cs m rest, pre ++ i :: l = l1 ++ run ++ l2 /\ hs_run run cs /\ concat cs = m ++ rest /\ encodeHandshake (MNewSessionTicket t) = Ok m /\ (forall p q, cs = p ++ q -> q <> [] -> decode_hs (concat p) = Ok None)).
    { intros d b t' m rest -> Eb D ->. destruct (decode_hs_canon _ _ _ _ D ltac:(discriminate)) as (Ec & Em & _).
      exists [], (pre ++ [KRec (Some (2, 22)) d]), l, (cs0 ++ [d]), m, rest. split; [rewrite <- app_assoc; reflexivity|]. split.
      { unfold hs_run in *. rewrite filter_app, Hp, map_app. reflexivity. }
      split; [|split; [exact Em|]].
      { rewrite concat_app. cbn [concat]. rewrite app_nil_r, <- Ec, Eb, Hu. destruct cs0; reflexivity. }
      intros p q Epq Hq. destruct (exists_last Hq) as (q' & z & ->). rewrite app_assoc in Epq. apply app_inj_tail in Epq. destruct Epq as [Epq _]. exact (Hn _ _ Epq). }
    destruct (more r) eqn:M.
    - destruct (kread cb u' l) as [u'' o'] eqn:K. assert (u'' = u) by congruence. subst u''. assert (Eo : o = kouts ts r ++ o') by congruence. clear H. rewrite Eo in Ht. unfold kouts in Ht. rewrite !tickets_app in Ht.
      destruct E as [ |d Eu|d b D Eb|d f b t0 o0 r0 r Ef Eb D X| |a d Eu|i u1]; try discriminate M.
      + apply (IH _ _ _ K Ht (pre ++ [KAgain]) cs0) in Hn; [|unfold hs_run in *; rewrite filter_app, Hp; cbn; rewrite app_nil_r; reflexivity|exact Hu].
        rewrite <- app_assoc in Hn. exact Hn.
      + exact (Restart _ K Ht).
      + assert (Hn' : forall p q, cs0 ++ [d] = p ++ q -> decode_hs (concat p) = Ok None).
        { intros p q Epq. destruct q as [|z q] using rev_ind.
          - rewrite app_nil_r in Epq. rewrite <- Epq, concat_app. cbn [concat]. rewrite app_nil_r. rewrite <- D, Eb, Hu. destruct cs0; reflexivity.
          - rewrite app_assoc in Epq. apply app_inj_tail in Epq. destruct Epq as [Epq _]. exact (Hn _ _ Epq). }
        destruct (IH _ _ _ K Ht (pre ++ [KRec (Some (2, 22)) d]) (cs0 ++ [d])) as (l1 & Y); [unfold hs_run in *; rewrite filter_app, Hp, map_app; reflexivity| |exact Hn'|].
        { rewrite Eb, Hu, concat_app. cbn [concat]. rewrite app_nil_r. destruct cs0 as [|c cs0]; reflexivity. }
        rewrite <- app_assoc in Y. exists l1. exact Y.
      + destruct X as [[_ ->]|(e & _ & ->)]; [|discriminate M]. cbn [map tickets app] in Ht. destruct Ht as [Ht|Ht]; [|exact (Restart _ K Ht)].
        eapply Tick; [reflexivity|exact Eb|exact D|exact Ht].
    - injection H as <- <-. unfold kouts in Ht. rewrite tickets_app in Ht.
      destruct E as [ |d Eu|d b D Eb|d f b t0 o0 r0 r Ef Eb D X| |a d Eu|i u1]; try discriminate M; try (destruct Ht; fail).
      destruct X as [[_ ->]|(e & _ & ->)]; [discriminate M|]. cbn in Ht. destruct Ht as [Ht|[]]. eapply Tick; [reflexivity|exact Eb|exact D|exact Ht]. }
  destruct (G l None u o H Ht [] [] eq_refl eq_refl) as (l1 & run & l2 & cs & m & rest & X); [|exists l1, run, l2, cs, m, rest; exact X].
  intros p q Epq. symmetry in Epq. apply app_eq_nil in Epq. destruct Epq as [-> _]. reflexivity.
Qed.
(** What ends the reading: the end of the stream or a close_notify between messages; an exception only if the callback lets one out; everything else is an error. *)
Theorem C80_end cb l u o r : kread cb None l = (u, o) -> In (OEnd r) o ->
  exists l1 i l2, l = l1 ++ i :: l2 /\
  match r with
  | REof => i = KEof_ \/ exists a d, i = KRec (Some (2, 21)) (a :: x00 :: d)
  | RError => True
  | RCrash e => exists f t, cb = Some f /\ f t = Err e /\ In t (tickets o)
  | _ => False
  end.
Proof.
  generalize (@None bytes). intros u0. revert u0 u o. induction l as [|i l IH]; intros u0 u o H Hin; cbn [kread] in H; [injection H as <- <-; destruct Hin|].
  destruct (performReadMsg cb u0 i) as [[u' ts] r0] eqn:E. apply performReadMsg_spec in E.
  assert (NT : forall ts, ~ In (OEnd r) (map OTicket ts)) by (intros ts0 X; apply in_map_iff in X; destruct X as (? & X & _); discriminate X).
  destruct (more r0) eqn:M.
  - destruct (kread cb u' l) as [u'' o'] eqn:K. injection H as <- <-. unfold kouts in Hin. rewrite !in_app_iff in Hin. destruct Hin as [[Hin|Hin]|Hin]; [destruct (NT _ Hin)| |].
    { exfalso. destruct r0; cbn in M, Hin; try discriminate M; intuition discriminate. }
    destruct (IH _ _ _ K Hin) as (l1 & i' & l2 & -> & X). exists (i :: l1), i', l2. split; [reflexivity|]. destruct r; try exact X.
    destruct X as (f & t & A & B & C). exists f, t. split; [exact A|]. split; [exact B|]. rewrite tickets_app. apply in_or_app. right. exact C.
  - injection H as <- <-. exists [], i, l. split; [reflexivity|]. unfold kouts in Hin |- *. rewrite in_app_iff in Hin. destruct Hin as [Hin|Hin]; [destruct (NT _ Hin)|].
    assert (r0 = r) as -> by (destruct r0; cbn in M, Hin; try discriminate M; destruct Hin as [Hin|[]]; congruence).
    destruct E as [ |d Eu|d b D Eb|d f b t0 o0 r1 r Ef Eb D X| |a d Eu|i u1]; try discriminate M; try exact Logic.I.
    + destruct X as [[_ ->]|(e & Ee & ->)]; [discriminate M|]. exists f, t0. split; [exact Ef|]. split; [exact Ee|]. cbn. auto.
    + left. reflexivity.
    + right. exists a, d. reflexivity.
Qed.
(** No more is kept than one message of the largest size. *)
Theorem C80_bounded cb l b o : kread cb None l = (Some b, o) -> ends o = false -> blen b < 4 + 131072.
Proof.
  assert (G : forall l u0 u o, kread cb u0 l = (u, o) -> ends o = false -> (forall x, u0 = Some x -> decode_hs x = Ok None) -> forall x, u = Some x -> decode_hs x = Ok None).
  { clear. induction l as [|i l IH]; intros u0 u o H He H0 x Hx; cbn [kread] in H; [injection H as <- <-; auto|].
    destruct (performReadMsg cb u0 i) as [[u' ts] r0] eqn:E. apply performReadMsg_spec in E. destruct (more r0) eqn:M.
    - destruct (kread cb u' l) as [u'' o'] eqn:K. injection H as <- <-. rewrite ends_app in He. apply orb_false_iff in He. destruct He as [_ He].
      apply (IH _ _ _ K He); [|exact Hx]. destruct E as [ |d Eu|d b D Eb|d f b t0 o0 r1 r Ef Eb D X| |a d Eu|i u1]; intros y Hy; try discriminate Hy; try discriminate M; [apply H0; exact Hy|congruence].
    - injection H as <- <-. unfold kouts in He. rewrite ends_app in He. apply orb_false_iff in He. destruct He as [_ He]. destruct r0; try discriminate M; discriminate He. }
  intros H He. specialize (G l None (Some b) o H He ltac:(discriminate) b eq_refl). clear -G. unfold decode_hs in G.
  destruct b as [|x [|y [|z [|w b]]]]; try (unfold blen; cbn; lia). cbv zeta in G. destruct (N.ltb_spec kMaxHandshakeSize (unbe [y; z; w])) as [L|L]; [discriminate G|]. unfold kMaxHandshakeSize in L.
  destruct (take _ b) as [[? ?]|] eqn:Et; [destruct (parse_handshake _ _); discriminate G|]. apply take_None in Et. rewrite !blen_cons. lia.
Qed.
(** Whatever the peer sends, nothing but a callback that fails lets an exception out of the read function, and no check fails. *)
Corollary C80_safe f l u o e : (forall t, is_ok (f t) = true) -> kread (Some f) None l = (u, o) -> ~ In (OEnd (RCrash e)) o.
Proof. intros Hf H X. destruct (C80_end _ _ _ _ _ H X) as (_ & _ & _ & _ & g & t & Eg & Ee & _). injection Eg as <-. specialize (Hf t). rewrite Ee in Hf. discriminate Hf. Qed.

(** ** Tickets *)
(** What the client's state machine would have kept and reported for a ticket, the handler stores. *)
Definition handler_of (h : hashalg) (s : cstate) (k0 : ks) (rms : bytes) (version cipher : N) (ht : Z) : khandler :=
  mkKH h k0 rms version cipher (g_group (c_neg s)) (g_alpn (c_neg s)) (g_server (c_neg s)) (g_client (c_neg s)) ht.
Theorem C80_ticket k w s m h k0 rms version cipher ht :
  c_ks s = Some (h, k0) -> c_resumption s = Some rms -> g_version (c_neg s) = Some version -> g_cipher (c_neg s) = Some cipher -> g_hsTime (c_neg s) = Some ht ->
  forall p, handleTicket (handler_of h s k0 rms version cipher ht) (cw_now w) (cw_now2 w) m = Ok p <-> handle_ticket k w s m = Ok (s, [KNewPsk p]).
Proof.
  intros E1 E2 E3 E4 E5 p. unfold handleTicket, handle_ticket, handler_of. rewrite E1, E2, E3, E4, E5. cbn [kh_hash kh_ks kh_rms kh_version kh_cipher kh_group kh_alpn kh_server kh_client kh_time].
  destruct (deref (nst_nonce m)) as [nonce|]; cbn [bind]; [|split; discriminate]. destruct (kget h k0 (GetResumption rms nonce)) as [sec|]; cbn [bind]; [|split; discriminate].
  destruct (deref (nst_ticket m)) as [t|]; cbn [bind]; [|split; discriminate]. destruct (chk64 _) as [x|]; cbn [bind]; [|split; discriminate].
  destruct (getExtension KTicketEarlyData (nst_extensions m)) as [ee|]; cbn [bind]; [|split; discriminate]. cbv zeta. split; intros H; congruence.
Qed.
Lemma resumption_nonce h k0 rms nonce b : kget h k0 (GetResumption rms nonce) = Ok b -> blen nonce <= 255.
Proof.
  unfold kget. cbn [ks_step]. unfold expandLabel. cbv zeta. destruct (encodeHkdfLabel _ _ _ _) as [enc|e] eqn:E.
  - intros _. unfold encodeHkdfLabel in E. bo E a E1. bo E b' E2. bo E c E3. unfold write_buf in E3. bo E3 x E4.
    unfold write_len in E4. destruct (blen nonce <? lw_max W8) eqn:El; [|discriminate]. apply N.ltb_lt in El. change (lw_max W8) with 256 in El. lia.
  - cbn. discriminate.
Qed.
Lemma chk64_same x y : chk64 x = Ok y -> y = x.
Proof. unfold chk64. destruct (int64 x); congruence. Qed.
Theorem C80_ticket_psk H now1 now2 m p : hash_ok (kh_hash H) -> blen (kh_rms H) = h_len (kh_hash H) -> handleTicket H now1 now2 m = Ok p ->
  cp_type p = PskResumption /\ nst_ticket m = Some (pk_psk (cp_psk p)) /\
  (exists nonce, nst_nonce m = Some nonce /\ pk_secret (cp_psk p) = ExpandLabel (kh_hash H) (kh_rms H) (str "resumption") nonce (h_len (kh_hash H))) /\
  pk_version (cp_psk p) = kh_version H /\ pk_cipher (cp_psk p) = kh_cipher H /\ pk_group (cp_psk p) = kh_group H /\ pk_alpn (cp_psk p) = kh_alpn H /\
  pk_server (cp_psk p) = kh_server H /\ pk_client (cp_psk p) = kh_client H /\ pk_hsTime (cp_psk p) = kh_time H /\
  pk_ageAdd (cp_psk p) = nst_age_add m /\ pk_issue (cp_psk p) = now1 /\ pk_expire (cp_psk p) = (now2 + Z.of_N (nst_lifetime m) * 1000000000)%Z /\
  ((exists n, getExtension KTicketEarlyData (nst_extensions m) = Ok (Some (XTicketEarlyData n)) /\ pk_maxEarly (cp_psk p) = n) \/
   (getExtension KTicketEarlyData (nst_extensions m) = Ok None /\ pk_maxEarly (cp_psk p) = 0)).
Proof.
  intros Hh Hl E. unfold handleTicket in E. destruct (deref (nst_nonce m)) as [nonce|] eqn:En; [|discriminate E]. cbn [bind] in E.
  destruct (kget (kh_hash H) (kh_ks H) (GetResumption (kh_rms H) nonce)) as [sec|] eqn:Es; [|discriminate E]. cbn [bind] in E.
  destruct (deref (nst_ticket m)) as [t|] eqn:Et; [|discriminate E]. cbn [bind] in E. destruct (chk64 _) as [x|] eqn:Ex; [|discriminate E]. cbn [bind] in E.
  destruct (getExtension KTicketEarlyData (nst_extensions m)) as [ee|] eqn:Ee; [|discriminate E]. cbn [bind] in E. cbv zeta in E.
  apply chk64_same in Ex. subst x. injection E as <-. cbn [cp_type cp_psk pk_psk pk_secret pk_version pk_cipher pk_group pk_alpn pk_server pk_client pk_hsTime pk_ageAdd pk_issue pk_expire pk_maxEarly].
  split; [reflexivity|]. split; [unfold deref in Et; destruct (nst_ticket m); congruence|]. split.
  { exists nonce. split; [unfold deref in En; destruct (nst_nonce m); congruence|]. pose proof (resumption_nonce _ _ _ _ _ Es) as Ln.
    unfold kget in Es. cbn [ks_step snd] in Es. rewrite (el_ok (kh_hash H) Hh) in Es; [injection Es as <-; reflexivity|exact Hl|exact Ln|vm_compute; discriminate|..]; pose proof (ho_pos _ Hh); pose proof (ho_le _ Hh); pose proof (ho_max _ Hh); lia. }
  repeat (split; [reflexivity|]). destruct ee as [ee|]; [|right; auto]. pose proof (proj2 (getExtension_set _ _ _ Ee)) as Kx. destruct ee; try discriminate Kx. left. eexists. split; reflexivity.
Qed.
(** fizz's own callback fails only for a ticket whose early_data extension is malformed (or at times out of range). *)
Definition time_ok (now2 : Z) (m : NewSessionTicket) : Prop := (-(2 ^ 63) <= now2 + Z.of_N (nst_lifetime m) * 1000000000 < 2 ^ 63)%Z.
Lemma tickets_parsed cb t : forall l u0 u o, kread cb u0 l = (u, o) -> In t (tickets o) -> exists b o' r', decode_hs b = Ok (Some (MNewSessionTicket t, o', r')).
Proof.
  assert (MT : forall ts, tickets (map OTicket ts) = ts) by (induction ts; cbn; congruence).
  induction l as [|i l IH]; intros u0 u o K It; cbn [kread] in K; [injection K as <- <-; destruct It|]. destruct (performReadMsg _ u0 i) as [[u' ts] r] eqn:E. apply performReadMsg_spec in E.
  assert (T : In t ts \/ (exists o', kread cb u' l = (u, o') /\ In t (tickets o'))).
  { destruct (more r).
    - destruct (kread _ u' l) as [u'' o'] eqn:K'. assert (u'' = u) by congruence. subst u''. assert (Eo : o = kouts ts r ++ o') by congruence. rewrite Eo in It. unfold kouts in It.
      rewrite !tickets_app, !in_app_iff, MT in It. destruct It as [[It|It]|It]; [left; exact It|exfalso; destruct r; destruct It|right; eauto].
    - injection K as <- <-. unfold kouts in It. rewrite !tickets_app, !in_app_iff, MT in It. destruct It as [It|It]; [left; exact It|exfalso; destruct r; destruct It]. }
  destruct T as [T|(o' & K' & It')]; [|exact (IH _ _ _ K' It')]. destruct E; try (destruct T; fail). destruct T as [->|[]]. eauto.
Qed.
Lemma ticket_nonce t m n : encodeHandshake (MNewSessionTicket t) = Ok m -> nst_nonce t = Some n -> blen n <= 255.
Proof.
  intros H En. unfold encodeHandshake in H. cbn [encode_body] in H. bo H b Eb. unfold encode_nst in Eb. rewrite En in Eb. bo Eb b0 Eb0. bo Eb0 x1 E1. bo Eb0 x2 E2. bo Eb0 x3 E3.
  unfold write_buf in E3. bo E3 x4 E4. unfold write_len in E4. destruct (blen n <? lw_max W8) eqn:El; [|discriminate E4]. apply N.ltb_lt in El. change (lw_max W8) with 256 in El. lia.
Qed.
Theorem C80_callback_safe H now1 now2 l u o e : (forall H', H = Some H' -> hash_ok (kh_hash H') /\ blen (kh_rms H') = h_len (kh_hash H')) ->
  kread (Some (ktls_callback H now1 now2)) None l = (u, o) -> In (OEnd (RCrash e)) o ->
  exists t, In t (tickets o) /\ (e = EThrow /\ (exists x, getExtension KTicketEarlyData (nst_extensions t) = Err x) \/ ~ time_ok now2 t).
Proof.
  intros Hh K X. destruct (C80_end _ _ _ _ _ K X) as (_ & _ & _ & _ & f & t & Ef & Ee & It). injection Ef as <-. exists t. split; [exact It|].
  destruct (tickets_parsed _ _ _ _ _ _ K It) as (b & o' & r' & D). destruct (decode_hs_canon _ _ _ _ D ltac:(discriminate)) as (_ & Em & _).
  pose proof (decode_hs_set _ _ _ _ D) as (S1 & S2 & S3). cbn [ktls_callback] in Ee. destruct H as [H|]; [|discriminate Ee]. destruct (Hh H eq_refl) as [Ho Hl].
  unfold ktls_callback in Ee. unfold handleTicket in Ee. unfold deref in Ee. destruct (nst_nonce t) as [n|] eqn:En; [|congruence]. destruct (nst_ticket t) as [tk|]; [|congruence]. cbn [bind] in Ee.
  pose proof (ticket_nonce _ _ _ Em En) as Ln.
  assert (Es : kget (kh_hash H) (kh_ks H) (GetResumption (kh_rms H) n) = Ok (ExpandLabel (kh_hash H) (kh_rms H) (str "resumption") n (h_len (kh_hash H)))).
  { unfold kget. cbn [ks_step snd]. rewrite (el_ok (kh_hash H) Ho); [reflexivity|exact Hl|exact Ln|vm_compute; discriminate|..]; pose proof (ho_pos _ Ho); pose proof (ho_le _ Ho); pose proof (ho_max _ Ho); lia. }
  rewrite Es in Ee. cbn [bind] in Ee. unfold chk64 in Ee. change ns_per_s with 1000000000%Z in Ee.
  destruct (int64 (now2 + Z.of_N (nst_lifetime t) * 1000000000)) eqn:Ei.
  - left. cbn [bind] in Ee. pose proof (safe_getExtension KTicketEarlyData _ S3) as Sg. destruct (getExtension KTicketEarlyData (nst_extensions t)) as [x|x]; [discriminate Ee|]. cbn [bind] in Ee.
    split; [|eauto]. destruct x; cbn in Sg; try contradiction; congruence.
  - right. intros [A B]. unfold int64 in Ei. apply andb_false_iff in Ei. destruct Ei as [Ei|Ei]; lia.
Qed.

(** ** Writing with fizz's record layer *)
(** What is written becomes records of it, handed down with the callback (see C08 for their content); a failure of the record layer is thrown. *)
Theorem C80_rx_write s q s' out : 0 < ws_max s -> ws_max s < 65536 -> ws_seq s <= max64 -> rxWriteAppData s q = (s', Ok out) ->
  exists rs, concat (map wr_data rs) = concat q /\ enc_ok 23 s (ws_seq s) rs /\ s' = w_set_seq s (ws_seq s + blen rs) /\
    match out with Some o => concat q <> [] /\ o = concat (map (fun r => w_hdr s (blen (inner 23 (wr_data r) (wr_pad r))) ++ wr_cipher r) rs) | None => concat q = [] end.
Proof.
  intros H1 H2 H3 H. unfold rxWriteAppData in H. destruct (enc_write 23 s q) as [[calls s1] r] eqn:E. destruct r as [o|e]; [|exfalso; destruct e; cbn in H; congruence].
  unfold enc_write in E. destruct (enc_write_loop_ok _ _ _ _ _ _ _ _ H1 H2 H3 E) as (rs & A & B & C & D & F & _). exists rs. cbn [app] in C.
  assert (Es : s' = s1) by (destruct o; congruence). split; [exact A|]. split; [exact B|]. split; [congruence|].
  destruct rs as [|r0 rs].
  - cbn in C. rewrite C in H. injection H as _ <-. apply F. reflexivity.
  - assert (Hq : concat q <> []) by (intros Z; apply F in Z; discriminate Z). assert (Ho : o <> []) by (rewrite C; cbn; discriminate).
    destruct o as [|o0 o]; [congruence|]. injection H as _ <-. split; [exact Hq|exact C].
Qed.

(** ** Concrete cases, and what does not hold *)
Definition ex_t (n : byte) (xs : list Extension) : NewSessionTicket := mkNST 3600 7 (Some [x01]) (Some [n]) xs.
Definition raw_of (t : NewSessionTicket) : bytes := match encodeHandshake (MNewSessionTicket t) with Ok b => b | Err _ => [] end.
Definition ok_cb (t : NewSessionTicket) : res unit := Ok tt.
Definition ex_items : list kitem := [IApp [x61]; ITick (ex_t x0a []) [takeN 3 (raw_of (ex_t x0a [])); dropN 3 (raw_of (ex_t x0a []))]; IApp [x62]].
Example C80_delivers_nonvacuous : Forall item_ok ex_items /\ kread (Some ok_cb) None (KAgain :: flat_map feed ex_items) = (None, [ODat [x61]; OTicket (ex_t x0a []); ODat [x62]]).
Proof.
  split; [|vm_compute; reflexivity]. repeat constructor; try discriminate.
Qed.
Definition ex_rs : rlstate := mkRL (Some (Some (repeat x11 16), Some (repeat x22 12))) (Some 3).
Definition ex_ws : rlstate := mkRL (Some (Some (repeat x33 16), Some (repeat x44 12))) (Some 5).
Example C80_convert_nonvacuous : exists calls, tryConvert true true (fun _ => true) true false true true 4865 ex_rs ex_ws false = Ok (calls, true) /\ length calls = 4%nat.
Proof. eexists. split; [vm_compute; reflexivity|reflexivity]. Qed.
(** Two tickets in one record: the second is lost. *)
Theorem C80_coalesced_refuted : ~ (forall f ts raws cs, (forall t, is_ok (f t) = true) -> map (fun t => encodeHandshake (MNewSessionTicket t)) ts = map Ok raws -> concat cs = concat raws -> Forall (fun c => c <> []) cs ->
  tickets (snd (kread (Some f) None (map hs_rec cs))) = ts).
Proof.
  intros H. specialize (H ok_cb [ex_t x0a []; ex_t x0b []] [raw_of (ex_t x0a []); raw_of (ex_t x0b [])] [raw_of (ex_t x0a []) ++ raw_of (ex_t x0b [])] ltac:(reflexivity) ltac:(vm_compute; reflexivity) ltac:(vm_compute; reflexivity) ltac:(repeat constructor; discriminate)).
  vm_compute in H. discriminate H.
Qed.
(** An end of the stream without close_notify, even within a message, is reported like an orderly one. *)
Theorem C80_truncation_refuted : ~ (forall l u o, kread (Some ok_cb) None l = (u, o) -> In (OEnd REof) o -> u = None /\ exists a d, In (KRec (Some (2, 21)) (a :: x00 :: d)) l).
Proof.
  intros H. destruct (H [hs_rec [x04]; KEof_] (Some [x04]) [OEnd REof] ltac:(vm_compute; reflexivity) ltac:(left; reflexivity)) as [X _]. discriminate X.
Qed.
(** A peer's ticket with a malformed early_data extension lets an exception out of the read function of a client that caches tickets. *)
Definition bad_ticket : NewSessionTicket := ex_t x0a [mkExt 42 (Some [x00])].
Theorem C80_no_exception_refuted : ~ (forall H now1 now2 l u o e, hash_ok (kh_hash H) -> blen (kh_rms H) = h_len (kh_hash H) -> (forall t, In t (tickets o) -> time_ok now2 t) ->
  kread (Some (ktls_callback (Some H) now1 now2)) None l = (u, o) -> ~ In (OEnd (RCrash e)) o).
Proof.
  intros H. apply (H (mkKH toy_hash ks_init (be 32 9) 772 4865 None None None None 0%Z) 0%Z 0%Z [hs_rec (raw_of bad_ticket)] None [OTicket bad_ticket; OEnd (RCrash EThrow)] EThrow toy_hash_ok).
  - reflexivity.
  - intros t [<-|[]]. unfold time_ok. cbn. lia.
  - vm_compute. reflexivity.
  - right. left. reflexivity.
Qed.
(** After a failed conversion the socket may already decrypt in the kernel, and fizz can no longer read from it. *)
Theorem C80_failure_harmless_refuted : ~ (forall little platform answer good connecting has both suite rs ws noPad calls,
  tryConvert little platform answer good connecting has both suite rs ws noPad = Ok (calls, false) -> forall b, In (SoRx b) calls -> answer (SoRx b) = false).
Proof.
  intros H. set (ans := fun s => match s with SoTx _ => false | _ => true end).
  assert (E : exists br bw, tryConvert true true ans true false true true 4865 ex_rs ex_ws false = Ok ([SoUlp; SoRx br; SoTx bw], false)) by (eexists; eexists; vm_compute; reflexivity).
  destruct E as (br & bw & E). specialize (H _ _ _ _ _ _ _ _ _ _ _ _ E br ltac:(right; left; reflexivity)). discriminate H.
Qed.
(** The callback of a write without data is never told anything. *)
Theorem C80_write_answered_refuted : ~ (forall s q s' out, 0 < ws_max s -> ws_max s < 65536 -> ws_seq s <= max64 -> rxWriteAppData s q = (s', Ok out) -> out <> None).
Proof.
  intros H. set (s := mkW 0 true 16384 (PConst 0) (mkAead 16 (fun p _ _ => Ok p) (fun c _ _ => Ok (Some [c])))).
  apply (H s [] s None); try reflexivity; vm_compute; discriminate.
Qed.
