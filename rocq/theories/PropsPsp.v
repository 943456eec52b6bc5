(** * Property C79: the PSP upgrade protocol *)
From Verif Require Import Base Hkdf HkdfProofs Psp.
Open Scope N_scope.

(** ** Specification *)
(** The security association that a message of the peer carries: 32 bits of SPI, the version, 3 bytes of anything, the key of the length the version implies, anything *)
Definition sa_layout (m : bytes) (sa : psa) : Prop :=
  exists spi res key pad, m = spi ++ [n2b (sa_version sa)] ++ res ++ key ++ pad /\
    blen spi = 4 /\ sa_spi sa = unbe spi /\ blen res = 3 /\ sa_key sa = key /\ 40 <= blen m /\
    ((sa_version sa = 0 \/ sa_version sa = 2) /\ blen key = 16 \/ (sa_version sa = 1 \/ sa_version sa = 3) /\ blen key = 32).
(** An association that the kernel may give: its key has the length its version implies *)
Definition sa_ok (sa : psa) : Prop :=
  sa_spi sa < 2 ^ 32 /\ ((sa_version sa = 0 \/ sa_version sa = 2) /\ blen (sa_key sa) = 16 \/ (sa_version sa = 1 \/ sa_version sa = 3) /\ blen (sa_key sa) = 32).
Definition is_done (e : pev) : bool := match e with EDone _ => true | _ => false end.
Definition dones (l : list pev) : nat := length (filter is_done l).
Fixpoint recvd (l : list pev) : bytes := match l with [] => [] | EData d :: r => d ++ recvd r | _ :: r => recvd r end.
(** What the operation does itself *)
Definition own (e : pev) : bool := match e with ERx | ESend _ | EListen | ETx _ | EErrMsg _ | EClose | EDone _ | EBadUse | EDie => true | _ => false end.
(** What may happen after [h] *)
Definition legal (careful fd : bool) (h : list pev) (e : pev) : Prop :=
  (own e = true -> e <> EBadUse -> dones h = 0%nat) /\
  match e with
  | ERx => h = [EStart] /\ fd = true
  | ESend m => exists sa, h = [EStart; ERx; ERxRes (Some sa)] /\ encodeTLV sa = Ok m
  | EListen => exists sa m, h = [EStart; ERx; ERxRes (Some sa); ESend m; EWrote true]
  | ETx sa => exists sa0 m ds msg rest, h = [EStart; ERx; ERxRes (Some sa0); ESend m; EWrote true; EListen] ++ map EData ds /\
                readTLV (concat ds) = Some (1, msg, rest) /\ sa_layout msg sa
  | EErrMsg m => fd = false /\ h = [EStart] /\ m = [x00; x01; x00] \/ h = [EStart; ERx; ERxRes None] /\ m = [x00; x01; x01]
  | EClose => In EStart h /\ ~ In EClose h
  | EDone true => exists sa0 m ds sa, h = [EStart; ERx; ERxRes (Some sa0); ESend m; EWrote true; EListen] ++ map EData ds ++ [ETx sa; ETxRes true]
  | EDone false => In EClose h
  | EBadUse => careful = false /\ In EDestroy h
  | EDie => exists sa, In (ERxRes (Some sa)) h /\ 32 < blen (sa_key sa)
  | _ => True
  end.

(** ** Messages *)
Lemma take_eq {A} n (a b : list A) : blen a = n -> take n (a ++ b) = Some (a, b).
Proof. intros H. apply take_app_n. exact H. Qed.
Lemma unbe1 b : unbe [b] = b2n b.
Proof. reflexivity. Qed.
Lemma unbe_n2b v : v < 256 -> unbe [n2b v] = v.
Proof. intros H. rewrite unbe1. apply b2n_n2b. exact H. Qed.
(** Every message is decoded or refused. *)
Theorem C79_decode m : (exists sa, tryDecodeSA m = Ok sa /\ sa_layout m sa) \/ (tryDecodeSA m = fail /\ forall sa, ~ sa_layout m sa).
Proof.
  unfold tryDecodeSA. destruct (N.ltb_spec (blen m) kSAMsg) as [H|H].
  { right. split; [reflexivity|]. intros sa (spi & rs & key & pad & _ & _ & _ & _ & _ & L & _). unfold kSAMsg, kKeyMax in H. lia. }
  unfold kSAMsg, kKeyMax in H.
  assert (S : forall n (x : bytes), n <= blen x -> exists a b, x = a ++ b /\ blen a = n).
  { intros n x L. exists (takeN n x), (dropN n x). rewrite takeN_dropN, blen_takeN. split; [reflexivity|lia]. }
  destruct (S 4 m ltac:(lia)) as (spi & m1 & -> & L1). rewrite blen_app in H. rewrite (take_eq 4) by exact L1.
  destruct (S 1 m1 ltac:(lia)) as (ver & m2 & -> & L2). rewrite blen_app in H. rewrite (take_eq 1) by exact L2.
  destruct (S 3 m2 ltac:(lia)) as (rs & m3 & -> & L3). rewrite blen_app in H. rewrite (take_eq 3) by exact L3.
  destruct ver as [|v [|? ?]]; [rewrite blen_nil in L2; lia| |unfold blen in L2; cbn in L2; lia]. rewrite unbe1.
  assert (Hv : forall sa, sa_layout (spi ++ [v] ++ rs ++ m3) sa -> sa_version sa = b2n v /\ (sa_version sa < 4)).
  { intros sa (spi' & rs' & key & pad & E & A & _ & _ & _ & _ & D). apply app_inj_len in E; [|unfold blen in *; lia]. destruct E as [_ E].
    cbn [app] in E. injection E as E _. rewrite E, b2n_n2b; [split; [reflexivity|]|]; destruct D as [[[D|D] _]|[[D|D] _]]; rewrite D; lia. }
  unfold keyLength.
  destruct ((b2n v =? 0) || (b2n v =? 2)) eqn:E1.
  - left. destruct (S 16 m3 ltac:(lia)) as (key & pad & -> & L4). assert (H' : 40 <= blen spi + (blen [v] + (blen rs + (blen key + blen pad)))) by (rewrite blen_app in H; lia). rewrite (take_eq 16) by exact L4.
    eexists. split; [reflexivity|]. exists spi, rs, key, pad. cbn [sa_version sa_spi sa_key]. rewrite n2b_b2n.
    split; [reflexivity|]. split; [exact L1|]. split; [reflexivity|]. split; [exact L3|]. split; [reflexivity|]. split; [rewrite !blen_app; exact H'|].
    left. split; [|exact L4]. apply orb_prop in E1. destruct E1 as [E1|E1]; apply N.eqb_eq in E1; auto.
  - destruct ((b2n v =? 1) || (b2n v =? 3)) eqn:E2.
    + left. destruct (S 32 m3 ltac:(lia)) as (key & pad & -> & L4). assert (H' : 40 <= blen spi + (blen [v] + (blen rs + (blen key + blen pad)))) by (rewrite blen_app in H; lia). rewrite (take_eq 32) by exact L4.
      eexists. split; [reflexivity|]. exists spi, rs, key, pad. cbn [sa_version sa_spi sa_key]. rewrite n2b_b2n.
      split; [reflexivity|]. split; [exact L1|]. split; [reflexivity|]. split; [exact L3|]. split; [reflexivity|]. split; [rewrite !blen_app; exact H'|].
      right. split; [|exact L4]. apply orb_prop in E2. destruct E2 as [E2|E2]; apply N.eqb_eq in E2; auto.
    + right. split; [reflexivity|]. intros sa L. destruct (Hv _ L) as [A B]. destruct L as (? & ? & ? & ? & _ & _ & _ & _ & _ & _ & D).
      apply orb_false_iff in E1, E2. destruct E1 as [E1 E1'], E2 as [E2 E2']. apply N.eqb_neq in E1, E1', E2, E2'.
      destruct D as [[[D|D] _]|[[D|D] _]]; lia.
Qed.
Lemma layout_inj m sa sa' : sa_layout m sa -> sa_layout m sa' -> sa = sa'.
Proof.
  intros (spi & rs & key & pd & E & A1 & A2 & A3 & A4 & _ & A5) (spi' & rs' & key' & pd' & E' & B1 & B2 & B3 & B4 & _ & B5).
  rewrite E in E'. apply app_inj_len in E'; [|congruence]. destruct E' as [<- E']. cbn [app] in E'. injection E' as Ev E'.
  apply app_inj_len in E'; [|congruence]. destruct E' as [<- E'].
  assert (Lv : sa_version sa < 256) by (destruct A5 as [[[X|X] _]|[[X|X] _]]; lia). assert (Lv' : sa_version sa' < 256) by (destruct B5 as [[[X|X] _]|[[X|X] _]]; lia).
  assert (EV : sa_version sa = sa_version sa') by (rewrite <- (b2n_n2b (sa_version sa)), <- (b2n_n2b (sa_version sa')) by assumption; congruence).
  apply app_inj_len in E'; [|unfold blen in *; destruct A5 as [[? ?]|[? ?]], B5 as [[? ?]|[? ?]]; lia]. destruct E' as [<- _].
  destruct sa, sa'; cbn in *; congruence.
Qed.
(** What the kernel gave is what the peer's kernel is given, in whatever pieces it arrives and whatever follows; before its last byte nothing is taken. *)
Lemma readTLV_app b x t m r : readTLV b = Some (t, m, r) -> readTLV (b ++ x) = Some (t, m, r ++ x).
Proof.
  unfold readTLV. destruct (N.ltb_spec (blen b) kTagLength) as [H|H]; [discriminate|]. unfold kTagLength in H. rewrite blen_app.
  destruct (N.ltb_spec (blen b + blen x) kTagLength) as [H'|H']; [unfold kTagLength in H'; lia|].
  destruct b as [|b0 [|b1 b]]; [unfold blen in H; cbn in H; lia|unfold blen in H; cbn in H; lia|].
  change (b0 :: b1 :: b) with ([b0] ++ [b1] ++ b). rewrite <- !app_assoc. rewrite !(take_eq 1 [b0]) by reflexivity. rewrite !(take_eq 1 [b1]) by reflexivity.
  destruct (take (unbe [b1]) b) as [[a c]|] eqn:E; [|discriminate]. intros X. injection X as <- <- <-. apply take_Some in E. destruct E as [-> L].
  rewrite <- app_assoc, take_eq by exact L. reflexivity.
Qed.
Theorem C79_message sa : sa_ok sa ->
  exists msg tlv, encodeTLV sa = Ok tlv /\ blen tlv = 42 /\ sa_layout msg sa /\ tryDecodeSA msg = Ok sa /\
    (forall rest, readTLV (tlv ++ rest) = Some (1, msg, rest)) /\
    (forall p q, tlv = p ++ q -> q <> [] -> readTLV p = None).
Proof.
  intros [Hs Hk]. assert (Lk : blen (sa_key sa) <= 32) by (destruct Hk as [[_ H]|[_ H]]; lia). assert (Lv : sa_version sa < 256) by (destruct Hk as [[[H|H] _]|[[H|H] _]]; lia).
  unfold encodeTLV. destruct (N.ltb_spec kKeyMax (blen (sa_key sa))) as [H|H]; [unfold kKeyMax in H; lia|].
  set (pad := zeros (kKeyMax - blen (sa_key sa))). assert (Lp : blen pad = 32 - blen (sa_key sa)) by (unfold pad; rewrite blen_zeros; reflexivity).
  assert (E1 : be 1 (sa_version sa) = [n2b (sa_version sa)]).
  { cbn [be]. f_equal. rewrite ?N.pow_0_r, ?N.div_1_r, ?N.mod_small by exact Lv. reflexivity. }
  set (msg := be 4 (sa_spi sa) ++ be 1 (sa_version sa) ++ zeros 3 ++ sa_key sa ++ pad).
  assert (Lm : blen msg = 40). { unfold msg. rewrite !blen_app, !be_blen, blen_zeros. lia. }
  assert (La : sa_layout msg sa).
  { exists (be 4 (sa_spi sa)), (zeros 3), (sa_key sa), pad. rewrite <- E1. split; [reflexivity|]. rewrite be_blen, unbe_be by exact Hs. rewrite blen_zeros.
    split; [reflexivity|]. split; [reflexivity|]. split; [reflexivity|]. split; [reflexivity|]. split; [lia|exact Hk]. }
  assert (T : forall rest, readTLV ((be 1 1 ++ be 1 kSAMsg ++ msg) ++ rest) = Some (1, msg, rest)).
  { intros rest. unfold readTLV. rewrite !blen_app, !be_blen. destruct (N.ltb_spec (N.of_nat 1 + (N.of_nat 1 + blen msg) + blen rest) kTagLength) as [X|X]; [unfold kTagLength in X; lia|].
    rewrite <- !app_assoc, take_eq by reflexivity. rewrite take_eq by reflexivity. change (unbe (be 1 kSAMsg)) with 40. rewrite take_eq by exact Lm. reflexivity. }
  exists msg, (be 1 1 ++ be 1 kSAMsg ++ msg). split; [reflexivity|]. split; [rewrite !blen_app, !be_blen; lia|]. split; [exact La|]. split.
  { destruct (C79_decode msg) as [(sa' & D & La')|[_ N0]]; [|exfalso; apply (N0 _ La)]. rewrite D. f_equal.
    symmetry. apply (layout_inj _ _ _ La La'). }
  split; [exact T|]. intros p q E Hq. destruct (readTLV p) as [[[t mm] r]|] eqn:Er; [|reflexivity]. exfalso.
  apply (readTLV_app _ q) in Er. rewrite <- E in Er. specialize (T []). rewrite app_nil_r in T. rewrite T in Er. injection Er as _ _ Er.
  symmetry in Er. apply app_eq_nil in Er. tauto.
Qed.

(** ** The operation *)
Section Machine.
  Variables careful fd tmo : bool.
  Notation legal := (legal careful fd).
  Inductive lawful : list pev -> Prop := lw_nil : lawful [] | lw_snoc l e : lawful l -> legal l e -> lawful (l ++ [e]).
  Definition downs (k : list pframe) : Prop := Forall (eq FDown) k.
  Definition base (k : list pframe) : Prop := downs k \/ exists k', k = FSend :: k' /\ downs k'.
  Definition head sa m := [EStart; ERx; ERxRes (Some sa); ESend m].
  (** What runs; the stack and whether the frame is alive and in its destructor; the log *)
  Inductive inv : psp -> Prop :=
  | i_idle : inv p_init
  | i_gone : inv (mkPsp false true PInit [] false false None None false false false false false false false false [] [EDestroy])
  | i_rx t k : fd = true -> downs k -> inv (mkPsp true true PRxDone [] false true None None true false t false false true false false k [EStart; ERx])
  | i_wr sa m t k : fd = true -> downs k -> encodeTLV sa = Ok m ->
      inv (mkPsp true true PWriteDone [] false true (Some (Some sa)) None false false t false true true false false k (head sa m))
  | i_rd sa m ds t k : fd = true -> downs k -> encodeTLV sa = Ok m -> readTLV (concat ds) = None ->
      inv (mkPsp true true PReadData (concat ds) false true (Some (Some sa)) None false false t true false true false false k (head sa m ++ [EWrote true; EListen] ++ map EData ds))
  | i_tx sa m ds sa' msg rest t k : fd = true -> downs k -> encodeTLV sa = Ok m -> readTLV (concat ds) = Some (1, msg, rest) -> sa_layout msg sa' ->
      inv (mkPsp true true PTxDone rest false true (Some (Some sa)) None false true t false false true false false k (head sa m ++ [EWrote true; EListen] ++ map EData ds ++ [ETx sa']))
  | i_send st buf io asy sa tx rxp txp t k l : downs k -> lawful l -> dones l = 0%nat -> In EStart l -> ~ In EClose l ->
      inv (mkPsp true true st buf io asy sa tx rxp txp t false false true false false (FSend :: k) l)
  | i_close st buf io asy sa tx rxp txp t wr alive k l : downs k -> lawful l -> dones l = 0%nat -> In EStart l -> In EClose l -> (alive = false -> careful = false /\ In EDestroy l) ->
      inv (mkPsp false true st buf io asy sa tx rxp txp t false wr alive false false (FClose :: k) l)
  | i_close_d st buf io asy sa tx rxp txp t wr k l : base k -> lawful l -> dones l = 0%nat -> In EStart l -> In EClose l -> In EDestroy l -> (In FSend k -> careful = false) ->
      inv (mkPsp false true st buf io asy sa tx rxp txp t false wr true true false (FClose :: FDead :: k) l)
  | i_done tr st buf io sa tx rxp txp alive k l : downs k -> lawful l -> dones l = 1%nat -> In EStart l -> (alive = false -> In EDestroy l) ->
      inv (mkPsp false tr st buf io false sa tx rxp txp false false false alive false false k l)
  | i_done_d tr st buf io sa tx rxp txp d k l : downs d -> base k -> lawful l -> dones l = 1%nat -> In EStart l -> In EDestroy l -> (In FSend k -> careful = false) ->
      inv (mkPsp false tr st buf io false sa tx rxp txp false false false true true false (d ++ FDead :: k) l)
  | i_dead tr st buf io sa tx rxp txp k l : base k -> lawful l -> dones l = 1%nat -> In EStart l -> In EDestroy l -> (In FSend k -> careful = false) ->
      inv (mkPsp false tr st buf io false sa tx rxp txp false false false false true false k l)
  | i_stop s : p_stop s = true -> lawful (p_log s) -> (dones (p_log s) <= 1)%nat -> In EBadUse (p_log s) \/ In EDie (p_log s) -> inv s.

  Lemma dones_app a b : dones (a ++ b) = (dones a + dones b)%nat.
  Proof. unfold dones. rewrite filter_app, app_length. reflexivity. Qed.
  Lemma dones_data ds : dones (map EData ds) = 0%nat.
  Proof. induction ds; [reflexivity|exact IHds]. Qed.
  Lemma downs_In k f : downs k -> In f k -> f = FDown.
  Proof. intros H I. unfold downs in H. rewrite Forall_forall in H. symmetry. apply H, I. Qed.
  Lemma downs_cons k : downs k -> downs (FDown :: k).
  Proof. constructor; auto. Qed.
  (** events from outside *)
  Lemma lw_in l e : own e = false -> lawful l -> lawful (l ++ [e]).
  Proof. intros H L. constructor; [exact L|]. split; [rewrite H; discriminate|]. destruct e; try discriminate H; exact Logic.I. Qed.
  Lemma lw_start : lawful [EStart].
  Proof. apply (lw_in [] EStart eq_refl). constructor. Qed.
  Lemma lw_rx : fd = true -> lawful [EStart; ERx].
  Proof. intros H. apply (lw_snoc [EStart] ERx lw_start). split; [reflexivity|auto]. Qed.
  Lemma lw_head sa m : fd = true -> encodeTLV sa = Ok m -> lawful (head sa m).
  Proof.
    intros H E. apply (lw_snoc [EStart; ERx; ERxRes (Some sa)] (ESend m)); [apply (lw_in [EStart; ERx] (ERxRes (Some sa)) eq_refl), lw_rx, H|]. split; [reflexivity|]. exists sa. auto.
  Qed.
  Lemma lw_read sa m ds : fd = true -> encodeTLV sa = Ok m -> lawful (head sa m ++ [EWrote true; EListen] ++ map EData ds).
  Proof.
    intros H E. induction ds as [|d ds IH] using rev_ind.
    - apply (lw_snoc (head sa m ++ [EWrote true]) EListen); [apply (lw_in _ (EWrote true) eq_refl), lw_head; assumption|]. split; [reflexivity|]. exists sa, m. reflexivity.
    - rewrite map_app, !app_assoc in *. apply (lw_in _ (EData d) eq_refl), IH.
  Qed.
  Lemma lw_tx sa m ds sa' msg rest : fd = true -> encodeTLV sa = Ok m -> readTLV (concat ds) = Some (1, msg, rest) -> sa_layout msg sa' ->
    lawful (head sa m ++ [EWrote true; EListen] ++ map EData ds ++ [ETx sa']).
  Proof.
    intros H E R L. pose proof (lw_read sa m ds H E) as X. rewrite !app_assoc in *. constructor; [exact X|]. split.
    - intros _ _. rewrite !dones_app, dones_data. reflexivity.
    - exists sa, m, ds, msg, rest. split; [reflexivity|]. auto.
  Qed.
  Lemma noclose_data sa m ds : ~ In EClose (head sa m ++ [EWrote true; EListen] ++ map EData ds).
  Proof.
    intros X. rewrite !in_app_iff in X. cbn in X. destruct X as [X|[X|X]]; [intuition discriminate|intuition discriminate|]. apply in_map_iff in X. destruct X as (? & X & _). discriminate X.
  Qed.

  Lemma in_snoc {A} (e : A) l x : In x l -> In x (l ++ [e]).
  Proof. intros H. apply in_or_app. left. exact H. Qed.
  Lemma in_last {A} (e : A) l : In e (l ++ [e]).
  Proof. apply in_or_app. right. left. reflexivity. Qed.
  Lemma not_snoc {A} (e : A) l x : ~ In x l -> e <> x -> ~ In x (l ++ [e]).
  Proof. intros H N X. apply in_app_or in X. destruct X as [X|[X|[]]]; auto. Qed.
  Lemma dones_snoc l e : dones (l ++ [e]) = (dones l + if is_done e then 1 else 0)%nat.
  Proof. rewrite dones_app. destruct e; reflexivity. Qed.

  Ltac pr := cbv beta iota zeta delta [pstep presume pprepare perror pfinish pcall psay pstop set_st set_in set_own set_stack p_init negb
    p_await p_trans p_st p_buf p_io p_async p_sa p_tx p_rxp p_txp p_timer p_reading p_writing p_alive p_dying p_stop p_stack p_log].
  Ltac prx := cbv beta iota zeta delta [pstep presume perror pfinish pcall psay pstop set_st set_in set_own set_stack p_init negb
    p_await p_trans p_st p_buf p_io p_async p_sa p_tx p_rxp p_txp p_timer p_reading p_writing p_alive p_dying p_stop p_stack p_log].
  (** error, to closeNow *)
  Lemma prep st buf io asy sa tx rxp txp t rd wr k l : downs k -> lawful l -> dones l = 0%nat -> In EStart l -> ~ In EClose l ->
    inv (pprepare (mkPsp true true st buf io asy sa tx rxp txp t rd wr true false false k l) false).
  Proof.
    intros. pr. apply i_close; auto; try discriminate.
    - constructor; [assumption|]. split; [auto|]. auto.
    - rewrite dones_snoc. cbn. lia.
    - apply in_snoc. assumption.
    - apply in_last.
  Qed.
  Lemma prep_d st buf io asy sa tx rxp txp t rd wr k l : base k -> lawful l -> dones l = 0%nat -> In EStart l -> ~ In EClose l -> In EDestroy l -> (In FSend k -> careful = false) ->
    inv (pprepare (mkPsp true true st buf io asy sa tx rxp txp t rd wr true true false (FDead :: k) l) false).
  Proof.
    intros. pr. apply i_close_d; auto; try (apply in_snoc; assumption); try apply in_last.
    - constructor; [assumption|]. split; [auto|]. auto.
    - rewrite dones_snoc. cbn. lia.
  Qed.
  (** The end: the terminal callback *)
  Lemma lw_done l : lawful l -> dones l = 0%nat -> In EClose l -> lawful (l ++ [EDone false]) /\ dones (l ++ [EDone false]) = 1%nat.
  Proof. intros L D C. split; [constructor; [exact L|split; [auto|exact C]]|rewrite dones_snoc, D; reflexivity]. Qed.
  (** A run that is interrupted *)
  Definition runs (l : list pev) : Prop := lawful l /\ dones l = 0%nat /\ In EStart l /\ ~ In EClose l.
  Lemma runs_in l e : own e = false -> e <> EClose -> is_done e = false -> runs l -> runs (l ++ [e]).
  Proof.
    intros H N D (? & ? & ? & ?). split; [|split; [|split]]; [apply lw_in; assumption|rewrite dones_snoc, D; lia|apply in_snoc; assumption|apply not_snoc; assumption].
  Qed.
  Lemma runs_rx : fd = true -> runs [EStart; ERx].
  Proof. intros H. split; [|split; [|split]]; [apply lw_rx, H|reflexivity|left; reflexivity|]. cbn. intuition discriminate. Qed.
  Lemma runs_head sa m : fd = true -> encodeTLV sa = Ok m -> runs (head sa m).
  Proof. intros. split; [|split; [|split]]; [apply lw_head; assumption|reflexivity|left; reflexivity|]. cbn. intuition discriminate. Qed.
  Lemma runs_read sa m ds : fd = true -> encodeTLV sa = Ok m -> runs (head sa m ++ [EWrote true; EListen] ++ map EData ds).
  Proof.
    intros. split; [|split; [|split]]; [apply lw_read; assumption| |left; reflexivity|apply noclose_data]. rewrite !dones_app, dones_data. reflexivity.
  Qed.
  Lemma runs_tx sa m ds sa' msg rest : fd = true -> encodeTLV sa = Ok m -> readTLV (concat ds) = Some (1, msg, rest) -> sa_layout msg sa' ->
    runs (head sa m ++ [EWrote true; EListen] ++ map EData ds ++ [ETx sa']).
  Proof.
    intros. split; [|split; [|split]]; [eapply lw_tx; eassumption| |left; reflexivity|].
    - rewrite !dones_app, dones_data. reflexivity.
    - rewrite !app_assoc. apply not_snoc; [|discriminate]. rewrite <- app_assoc. apply noclose_data.
  Qed.
  Lemma destroyed_run st buf io asy sa tx rxp txp t rd wr k l : downs k -> runs l ->
    inv (pstep fd tmo (mkPsp true true st buf io asy sa tx rxp txp t rd wr true false false k l) MvDestroy).
  Proof.
    intros Hk R. prx. apply (runs_in l EDestroy) in R; try reflexivity; try discriminate. destruct R as (? & ? & ? & ?). apply prep_d; auto.
    - left. exact Hk.
    - apply in_last.
    - intros X. apply (downs_In _ _ Hk) in X. discriminate X.
  Qed.
  Lemma timeout_run st buf io asy sa tx rxp txp t rd wr k l : downs k -> runs l ->
    inv (pstep fd tmo (mkPsp true true st buf io asy sa tx rxp txp t rd wr true false false k l) MvTimeout).
  Proof. intros Hk R. prx. apply (runs_in l ETimeout) in R; try reflexivity; try discriminate. destruct R as (? & ? & ? & ?). apply prep; auto. Qed.
  Ltac nope A := try discriminate A;
    try (match type of A with
         | _ /\ ?q => solve [discriminate (proj1 A) | discriminate (proj2 A) | discriminate (proj1 (proj2 A)) | discriminate (proj1 (proj2 (proj2 A))) | destruct A as [_ A]; match type of A with ?d ++ _ = _ => destruct d; discriminate A end]
         end).
  Lemma inv_step s m : inv s -> pallowed careful s m -> inv (pstep fd tmo s m).
  Proof.
    intros I A. destruct I as [| |t k Hfd Hk|sa m0 t k Hfd Hk He|sa m0 ds t k Hfd Hk He Hn|sa m0 ds sa' msg rest t k Hfd Hk He Hr Hl
      |st buf io asy sa tx rxp txp t k l Hk L D S C|st buf io asy sa tx rxp txp t wr alive k l Hk L D S C Z|st buf io asy sa tx rxp txp t wr k l Hk L D S C Y Z
      |tr st buf io sa tx rxp txp alive k l Hk L D S Z|tr st buf io sa tx rxp txp d k l Hd Hk L D S Y Z|tr st buf io sa tx rxp txp k l Hk L D S Y Z|s Hs L D X].
    - (* idle *) destruct m; cbn in A; nope A.
      + prx. destruct fd eqn:Ef; prx.
        * apply i_rx; auto. constructor.
        * pr. apply i_send; [constructor| |reflexivity|left; reflexivity|cbn; intuition discriminate].
          apply (lw_snoc [EStart]); [apply lw_start|]. split; [reflexivity|]. left. auto.
      + pr. apply i_gone.
      + pr. apply i_idle.
    - (* destroyed before it began *) destruct m; cbn in A; nope A. pr. apply i_gone.
    - (* the kernel is asked *) destruct m; cbn in A; nope A.
      + destruct A as (_ & _ & _ & A). exfalso. apply A. left. reflexivity.
      + destruct r as [sa|]; prx.
        * destruct (encodeTLV sa) as [m|e] eqn:E; [apply (i_wr sa m); auto; apply downs_cons; exact Hk|].
          apply i_stop; pr; auto.
          -- apply (lw_snoc [EStart; ERx; ERxRes (Some sa)] EDie); [apply (lw_in [EStart; ERx] (ERxRes (Some sa)) eq_refl), lw_rx, Hfd|].
             split; [reflexivity|]. exists sa. split; [cbn; auto|]. unfold encodeTLV in E. destruct (N.ltb_spec kKeyMax (blen (sa_key sa))) as [H|H]; [exact H|discriminate E].
          -- right. cbn. auto.
        * pr. apply i_send; [exact Hk| |reflexivity|left; reflexivity|cbn; intuition discriminate].
          apply (lw_snoc [EStart; ERx; ERxRes None]); [apply (lw_in [EStart; ERx] (ERxRes None) eq_refl), lw_rx, Hfd|].
          split; [reflexivity|]. right. auto.
      + apply timeout_run; [exact Hk|apply runs_rx, Hfd].
      + apply destroyed_run; [exact Hk|apply runs_rx, Hfd].
      + destruct k as [|f k]; [pr; apply i_rx; auto|]. inversion Hk; subst. pr. apply i_rx; auto.
    - (* the message is being written *) destruct m; cbn in A; nope A.
      + destruct A as (_ & _ & _ & A). exfalso. apply A. left. reflexivity.
      + pose proof (runs_in _ (EWrote ok) eq_refl ltac:(discriminate) eq_refl (runs_head sa m0 Hfd He)) as R. destruct ok; prx.
        * apply (i_rd sa m0 []); auto. apply downs_cons, Hk.
        * destruct R as (? & ? & ? & ?). apply prep; auto.
      + apply timeout_run; [exact Hk|apply runs_head; assumption].
      + apply destroyed_run; [exact Hk|apply runs_head; assumption].
      + destruct k as [|f k]; [pr; apply i_wr; auto|]. inversion Hk; subst. pr. apply i_wr; auto.
    - (* reading *) pose proof (runs_read sa m0 ds Hfd He) as R0. destruct m; cbn in A; nope A.
      + destruct A as (_ & _ & _ & A). exfalso. apply A. left. reflexivity.
      + (* data *) assert (EL : (head sa m0 ++ [EWrote true; EListen] ++ map EData ds) ++ [EData d] = head sa m0 ++ [EWrote true; EListen] ++ map EData (ds ++ [d]))
          by (rewrite map_app, <- !app_assoc; reflexivity).
        assert (EB : concat ds ++ d = concat (ds ++ [d])) by (rewrite concat_app; cbn; rewrite app_nil_r; reflexivity).
        pose proof (runs_in _ (EData d) eq_refl ltac:(discriminate) eq_refl R0) as R. rewrite EL in R.
        prx. rewrite EL, EB.
        destruct (readTLV (concat (ds ++ [d]))) as [[[tag msg] rest]|] eqn:Er; [|apply i_rd; auto].
        destruct (N.eqb_spec tag 1) as [->|]; prx.
        * destruct (C79_decode msg) as [(sa' & Ed & La)|[Ed _]]; rewrite Ed; prx.
          -- assert (EL2 : (head sa m0 ++ [EWrote true; EListen] ++ map EData (ds ++ [d])) ++ [ETx sa'] = head sa m0 ++ [EWrote true; EListen] ++ map EData (ds ++ [d]) ++ [ETx sa'])
               by (rewrite <- !app_assoc; reflexivity).
             rewrite EL2. eapply i_tx; eauto.
          -- destruct R as (? & ? & ? & ?). apply prep; auto.
        * destruct R as (? & ? & ? & ?). apply prep; auto.
      + (* the end *) pose proof (runs_in _ EEnd eq_refl ltac:(discriminate) eq_refl R0) as R. prx. destruct R as (? & ? & ? & ?). apply prep; auto.
      + apply timeout_run; [exact Hk|exact R0].
      + apply destroyed_run; [exact Hk|exact R0].
      + destruct k as [|f k]; [pr; apply i_rd; auto|]. inversion Hk; subst. pr. apply i_rd; auto.
    - (* the kernel is given the peer's association *) pose proof (runs_tx sa m0 ds sa' msg rest Hfd He Hr Hl) as R0.
      destruct m; cbn in A; nope A.
      + destruct A as (_ & _ & _ & A). exfalso. apply A. left. reflexivity.
      + pose proof (runs_in _ (ETxRes ok) eq_refl ltac:(discriminate) eq_refl R0) as R. destruct ok; prx.
        * pr. destruct R as (L & D & S & C). apply i_done; try discriminate.
          -- apply downs_cons, Hk.
          -- constructor; [exact L|]. split; [auto|]. exists sa, m0, ds, sa'. rewrite <- !app_assoc. reflexivity.
          -- rewrite dones_snoc, D. reflexivity.
          -- apply in_snoc, S.
        * destruct R as (? & ? & ? & ?). apply prep; auto.
      + apply timeout_run; [exact Hk|exact R0].
      + apply destroyed_run; [exact Hk|exact R0].
      + destruct k as [|f k]; [pr; eapply i_tx; eauto|]. inversion Hk; subst. pr. eapply i_tx; eauto.
    - (* the error message is being written *)
      destruct m; cbn in A; nope A.
      + destruct A as (_ & _ & A). prx. assert (R : runs l) by (repeat split; assumption). apply (runs_in l EDestroy) in R; try reflexivity; try discriminate. destruct R as (? & ? & ? & ?).
        apply prep_d; auto.
        * right. exists k. auto.
        * apply in_last.
        * intros _. destruct careful; [|reflexivity]. exfalso. destruct (A eq_refl) as [A1 _]. apply A1. left. reflexivity.
      + prx. apply prep; auto.
    - (* closing *)
      destruct m; cbn in A; nope A.
      + pr. destruct alive; pr.
        * destruct ok; pr; (apply i_close; auto; [apply lw_in; auto|rewrite dones_snoc, D; reflexivity|apply in_snoc, S|apply in_snoc, C|discriminate]).
        * destruct (Z eq_refl) as [Z1 Z2]. apply i_stop; pr; auto.
          -- constructor; [apply lw_in; auto|]. split; [congruence|]. split; [exact Z1|]. apply in_snoc, Z2.
          -- rewrite !dones_snoc, D. cbn. lia.
          -- left. apply in_last.
      + destruct A as (A1 & _ & A). subst alive. pr. apply i_close; auto; [apply lw_in; auto|rewrite dones_snoc, D; reflexivity|apply in_snoc, S|apply in_snoc, C|].
        intros _. split; [|apply in_last]. destruct careful; [|reflexivity]. exfalso. destruct (A eq_refl) as [_ A2]. apply A2. left. reflexivity.
      + subst wr. pr. destruct alive; pr.
        * destruct (lw_done l L D C) as [L' D']. apply i_done; auto; [apply downs_cons, Hk|apply in_snoc, S|discriminate].
        * destruct (Z eq_refl) as [Z1 Z2]. apply i_stop; pr; auto.
          -- constructor; [exact L|]. split; [congruence|]. auto.
          -- rewrite !dones_snoc, D. cbn. lia.
          -- left. apply in_last.
    - (* closing in the destructor *)
      destruct m; cbn in A; nope A.
      + destruct ok; pr; (apply i_close_d; auto; [apply lw_in; auto|rewrite dones_snoc, D; reflexivity|apply in_snoc, S|apply in_snoc, C|apply in_snoc, Y]).
      + subst wr. pr. destruct (lw_done l L D C) as [L' D'].
        apply (i_done_d true st buf io sa tx rxp txp [FDown] k); auto; [apply downs_cons; constructor|apply in_snoc, S|apply in_snoc, Y].
    - (* done *)
      assert (In1 : forall e, own e = false -> is_done e = false -> inv (mkPsp false tr st buf io false sa tx rxp txp false false false alive false false k (l ++ [e]))).
      { intros e H1 H2. apply i_done; auto; [apply lw_in; auto|rewrite dones_snoc, D, H2; reflexivity|apply in_snoc, S|intros X; apply in_snoc, Z, X]. }
      destruct m; cbn in A; nope A.
      + exfalso. destruct A as (_ & _ & _ & A). auto.
      + pr. apply i_done; auto; [apply lw_in; auto|rewrite dones_snoc, D; reflexivity|apply in_snoc, S|intros X; apply in_snoc, Z, X].
      + pr. apply i_done; auto; [apply lw_in; auto|rewrite dones_snoc, D; reflexivity|apply in_snoc, S|intros X; apply in_snoc, Z, X].
      + pr. apply i_done; auto; [apply lw_in; auto|rewrite dones_snoc, D; reflexivity|apply in_snoc, S|intros X; apply in_last].
      + destruct k as [|f k]; [pr; apply i_done; auto|]. inversion Hk; subst. pr. apply i_done; auto.
    - (* done, in the destructor *)
      destruct m; cbn in A; nope A.
      destruct d as [|f d].
      + pr. apply i_dead; auto.
      + inversion Hd; subst. pr. apply i_done_d; auto.
    - (* destroyed *)
      destruct m; cbn in A; nope A.
      + pr. apply i_dead; auto; [apply lw_in; auto|rewrite dones_snoc, D; reflexivity|apply in_snoc, S|apply in_snoc, Y].
      + pr. apply i_dead; auto; [apply lw_in; auto|rewrite dones_snoc, D; reflexivity|apply in_snoc, S|apply in_snoc, Y].
      + destruct Hk as [Hk|(k' & -> & Hk)].
        * destruct k as [|f k]; [pr; apply i_dead; auto; left; exact Hk|]. inversion Hk; subst. pr. apply i_dead; auto; [left; assumption|]. intros X. apply Z. right. exact X.
        * pr. apply i_stop; pr; auto.
          -- constructor; [exact L|]. split; [congruence|]. split; [apply Z; left; reflexivity|exact Y].
          -- rewrite dones_snoc, D. cbn. lia.
          -- left. apply in_last.
    - (* stopped *) unfold pstep. rewrite Hs. apply i_stop; assumption.
  Qed.
  Lemma phist_inv s : phist careful fd tmo s -> inv s.
  Proof. induction 1 as [|s m H IH A]; [apply i_idle|apply inv_step; assumption]. Qed.
End Machine.

(** *** Every event of every history is in order. *)
Lemma lawful_split careful fd l : lawful careful fd l -> forall h e t, l = h ++ e :: t -> legal careful fd h e.
Proof.
  induction 1 as [|l e L IH Hl]; intros h x t E; [destruct h; discriminate E|].
  destruct t as [|y t] using rev_ind.
  - apply app_inj_tail in E. destruct E as [<- <-]. exact Hl.
  - clear IHt. rewrite app_comm_cons, app_assoc in E. apply app_inj_tail in E. destruct E as [E _]. apply (IH _ _ _ E).
Qed.
Lemma inv_lawful careful fd s : inv careful fd s -> lawful careful fd (p_log s).
Proof.
  destruct 1; cbn [p_log]; try assumption.
  - constructor.
  - apply (lw_in _ _ [] EDestroy eq_refl). constructor.
  - apply lw_rx; assumption.
  - apply lw_head; assumption.
  - apply lw_read; assumption.
  - eapply lw_tx; eassumption.
Qed.
Theorem C79_history careful fd tmo s : phist careful fd tmo s -> forall h e t, p_log s = h ++ e :: t -> legal careful fd h e.
Proof. intros H. apply lawful_split, inv_lawful, (phist_inv _ _ tmo), H. Qed.
(** *** One outcome: never two; when no call is open it has been told, or the operation waits for something that will be reported; it has been told if the frame is destroyed. *)
Lemma dones_run careful fd l : runs careful fd l -> dones l = 0%nat.
Proof. intros (_ & H & _). exact H. Qed.
Theorem C79_once careful fd tmo s : phist careful fd tmo s ->
  (dones (p_log s) <= 1)%nat /\
  (In EStart (p_log s) -> p_stack s = [] -> p_stop s = false ->
     dones (p_log s) = 1%nat \/ (p_alive s = true /\ dones (p_log s) = 0%nat /\ (p_rxp s = true \/ p_writing s = true \/ p_reading s = true \/ p_txp s = true))).
Proof.
  intros H. apply phist_inv in H. destruct H; cbn [p_log p_stack p_stop p_alive p_rxp p_writing p_reading p_txp];
    try (rewrite ?(dones_run careful fd) by (first [apply runs_rx|apply runs_head|apply runs_read|eapply runs_tx]; eassumption)); split; try lia; try (intros; discriminate); try (intros; left; assumption); auto 8.
  - intros [X|[]]; discriminate X.
  - intros _ _ X. congruence.
Qed.
(** *** Nothing gone is used, if the frame is not destroyed from within closeNow or the write of the error message; and no check fails if the kernel's keys have at most 32 bytes. *)
Theorem C79_safe careful fd tmo s : phist careful fd tmo s ->
  (careful = true -> ~ In EBadUse (p_log s)) /\
  ((forall sa, In (ERxRes (Some sa)) (p_log s) -> blen (sa_key sa) <= 32) -> ~ In EDie (p_log s)).
Proof.
  intros H. split.
  - intros -> X. apply in_split in X. destruct X as (h & t & E). destruct (C79_history _ _ _ _ H _ _ _ E) as [_ (X & _)]. discriminate X.
  - intros K X. apply in_split in X. destruct X as (h & t & E). destruct (C79_history _ _ _ _ H _ _ _ E) as [_ (sa & X & Y)].
    specialize (K sa). rewrite E in K. specialize (K (in_or_app _ _ _ (or_introl X))). lia.
Qed.
(** *** Success: the own association was sent, in full, and the kernel has taken the one that the peer's message carries; the transport is not closed. *)
Lemma recvd_app a b : recvd (a ++ b) = recvd a ++ recvd b.
Proof. induction a as [|e a IH]; [reflexivity|]. destruct e; cbn; rewrite ?IH, <- ?app_assoc; reflexivity. Qed.
Lemma recvd_data ds : recvd (map EData ds) = concat ds.
Proof. induction ds as [|d ds IH]; [reflexivity|]. cbn. rewrite IH. reflexivity. Qed.
Theorem C79_success careful fd tmo s : phist careful fd tmo s -> In (EDone true) (p_log s) ->
  exists sa0 m ds sa msg rest t,
    p_log s = [EStart; ERx; ERxRes (Some sa0); ESend m; EWrote true; EListen] ++ map EData ds ++ [ETx sa; ETxRes true; EDone true] ++ t /\
    encodeTLV sa0 = Ok m /\ readTLV (concat ds) = Some (1, msg, rest) /\ sa_layout msg sa /\ Forall (fun e => own e = false \/ e = EBadUse) t.
Proof.
  intros H X. apply in_split in X. destruct X as (h & t & E). pose proof (C79_history _ _ _ _ H) as L. destruct (L _ _ _ E) as [_ (sa0 & m & ds & sa & Eh)].
  assert (E1 : p_log s = [EStart; ERx; ERxRes (Some sa0)] ++ ESend m :: ([EWrote true; EListen] ++ map EData ds ++ [ETx sa; ETxRes true; EDone true] ++ t)).
  { rewrite E, Eh, <- !app_assoc. reflexivity. }
  assert (E2 : p_log s = ([EStart; ERx; ERxRes (Some sa0); ESend m; EWrote true; EListen] ++ map EData ds) ++ ETx sa :: ([ETxRes true; EDone true] ++ t)).
  { rewrite E, Eh, <- !app_assoc. reflexivity. }
  destruct (L _ _ _ E1) as [_ (sa1 & X1 & X2)]. destruct (L _ _ _ E2) as [_ (sa2 & m2 & ds2 & msg & rest & Y1 & Y2 & Y3)].
  assert (sa1 = sa0) by (injection X1 as X1; congruence). subst sa1.
  assert (Ed : concat ds2 = concat ds). { apply (f_equal recvd) in Y1. rewrite !recvd_app, !recvd_data in Y1. cbn in Y1. congruence. }
  exists sa0, m, ds, sa, msg, rest, t. split; [rewrite E, Eh, <- !app_assoc; reflexivity|]. split; [exact X2|]. split; [rewrite <- Ed; exact Y2|]. split; [exact Y3|].
  apply Forall_forall. intros e He. apply in_split in He. destruct He as (t1 & t2 & Et). subst t.
  assert (E3 : p_log s = (h ++ EDone true :: t1) ++ e :: t2) by (rewrite E, <- app_assoc; reflexivity). destruct (L _ _ _ E3) as [Z _].
  destruct (own e) eqn:Eo; [|auto]. right. assert (D : dones (h ++ EDone true :: t1) <> 0%nat).
  { rewrite dones_app. change (EDone true :: t1) with ([EDone true] ++ t1). rewrite dones_app. cbn. lia. }
  destruct e; try reflexivity; exfalso; apply D, Z; congruence.
Qed.
(** *** Failure: before the callback is told, the transport has been closed; afterwards nothing more is done. *)
Theorem C79_failure careful fd tmo s : phist careful fd tmo s -> In (EDone false) (p_log s) ->
  exists h t, p_log s = h ++ EDone false :: t /\ In EClose h /\ Forall (fun e => own e = false \/ e = EBadUse) t.
Proof.
  intros H X. apply in_split in X. destruct X as (h & t & E). pose proof (C79_history _ _ _ _ H) as L. destruct (L _ _ _ E) as [_ C]. exists h, t. split; [exact E|]. split; [exact C|].
  apply Forall_forall. intros e He. apply in_split in He. destruct He as (t1 & t2 & Et). subst t.
  assert (E3 : p_log s = (h ++ EDone false :: t1) ++ e :: t2) by (rewrite E, <- app_assoc; reflexivity). destruct (L _ _ _ E3) as [Z _].
  destruct (own e) eqn:Eo; [|auto]. right. assert (D : dones (h ++ EDone false :: t1) <> 0%nat).
  { rewrite dones_app. change (EDone false :: t1) with ([EDone false] ++ t1). rewrite dones_app. cbn. lia. }
  destruct e; try reflexivity; exfalso; apply D, Z; congruence.
Qed.
(** *** Both ends: if what one end received is a prefix of what the other wrote, and it succeeded, its kernel was given the association of the other's kernel. *)
Fixpoint wrote (l : list pev) : bytes := match l with [] => [] | ESend m :: r | EErrMsg m :: r => m ++ wrote r | _ :: r => wrote r end.
Lemma wrote_app a b : wrote (a ++ b) = wrote a ++ wrote b.
Proof. induction a as [|e a IH]; [reflexivity|]. destruct e; cbn; rewrite ?IH, <- ?app_assoc; reflexivity. Qed.
Lemma wrote_what careful fd l : lawful careful fd l ->
  wrote l = [] \/ (exists c, wrote l = [x00; x01; c]) \/ exists sa m, In (ERxRes (Some sa)) l /\ encodeTLV sa = Ok m /\ wrote l = m.
Proof.
  induction 1 as [|l e L IH [_ Hl]]; [left; reflexivity|]. rewrite wrote_app.
  assert (K : wrote [e] = [] -> wrote l ++ wrote [e] = [] \/ (exists c, wrote l ++ wrote [e] = [x00; x01; c]) \/ exists sa m, In (ERxRes (Some sa)) (l ++ [e]) /\ encodeTLV sa = Ok m /\ wrote l ++ wrote [e] = m).
  { intros E. rewrite E, app_nil_r. destruct IH as [IH|[IH|(sa & m & A & B & C)]]; [auto|auto|]. right. right. exists sa, m. split; [apply in_or_app; left; exact A|auto]. }
  destruct e; try (apply K; reflexivity).
  - destruct Hl as (sa & -> & E). right. right. exists sa, m. split; [cbn; auto|]. split; [exact E|]. cbn. apply app_nil_r.
  - right. left. destruct Hl as [(_ & -> & ->)|(-> & ->)]; cbn; eauto.
Qed.
Theorem C79_agree c1 c2 fd1 fd2 t1 t2 a b : phist c1 fd1 t1 a -> phist c2 fd2 t2 b ->
  (exists y, wrote (p_log b) = recvd (p_log a) ++ y) -> (forall sb, In (ERxRes (Some sb)) (p_log b) -> sa_ok sb) ->
  In (EDone true) (p_log a) ->
  exists sb, In (ERxRes (Some sb)) (p_log b) /\ In (ETx sb) (p_log a) /\ forall sa, In (ETx sa) (p_log a) -> sa = sb.
Proof.
  intros Ha Hb (y & W) K D. destruct (C79_success _ _ _ _ Ha D) as (sa0 & m & ds & sa & msg & rest & t & El & _ & Er & La & Ft).
  assert (R : readTLV (wrote (p_log b)) = Some (1, msg, rest ++ recvd t ++ y)).
  { rewrite W, El, !recvd_app, recvd_data. cbn [recvd app]. rewrite <- !app_assoc. apply readTLV_app, Er. }
  destruct (wrote_what _ _ _ (inv_lawful _ _ _ (phist_inv _ _ t2 _ Hb))) as [E|[[c E]|(sb & mb & I1 & Eb & E)]].
  - rewrite E in R. discriminate R.
  - rewrite E in R. unfold readTLV in R. cbn in R. discriminate R.
  - destruct (C79_message sb (K sb I1)) as (msg' & tlv & E' & _ & Lb & _ & T & _). rewrite E' in Eb. injection Eb as <-. rewrite E in R. specialize (T []). rewrite app_nil_r in T.
    rewrite T in R. injection R as <- _. pose proof (layout_inj _ _ _ La Lb). subst sb. exists sa. split; [exact I1|]. split; [rewrite El, !in_app_iff; right; right; left; cbn; auto|].
    intros sa' I2. rewrite El, !in_app_iff in I2. cbn in I2. destruct I2 as [I2|[I2|[I2|I2]]].
    + intuition discriminate.
    + apply in_map_iff in I2. destruct I2 as (? & X & _). discriminate X.
    + intuition congruence.
    + rewrite Forall_forall in Ft. specialize (Ft _ I2). destruct Ft as [X|X]; discriminate X.
Qed.

(** ** Concrete histories, and what does not hold *)
Fixpoint prun (fd tmo : bool) (s : psp) (l : list pmv) : psp := match l with [] => s | m :: r => prun fd tmo (pstep fd tmo s m) r end.
Fixpoint pok (c fd tmo : bool) (s : psp) (l : list pmv) : Prop := match l with [] => True | m :: r => pallowed c s m /\ pok c fd tmo (pstep fd tmo s m) r end.
Lemma prun_hist c fd tmo l : forall s, phist c fd tmo s -> pok c fd tmo s l -> phist c fd tmo (prun fd tmo s l).
Proof. induction l as [|m l IH]; intros s H P; [exact H|]. destruct P as [A P]. apply IH; [apply ph_step; assumption|exact P]. Qed.
Definition key16 : bytes := repeat x11 16.
Definition key32 : bytes := repeat x22 32.
Definition sa_a : psa := mkPsa 0 258 key16.
Definition sa_b : psa := mkPsa 1 99 key32.
Definition tlv_of (sa : psa) : bytes := match encodeTLV sa with Ok m => m | Err _ => [] end.
Definition good_run : list pmv :=
  [MvStart; MvRx (Some sa_a); MvWrote true; MvReturn; MvReturn; MvData (takeN 7 (tlv_of sa_b)); MvData (dropN 7 (tlv_of sa_b) ++ [x77]); MvTx true; MvReturn; MvDestroy].
Ltac allowed := cbn; repeat split; try reflexivity; try discriminate; try (intros X; cbn in X; intuition discriminate).
Example C79_good : phist true true true (prun true true p_init good_run) /\ In (EDone true) (p_log (prun true true p_init good_run)) /\ sa_ok sa_a /\ sa_ok sa_b.
Proof.
  split; [apply prun_hist; [constructor|]; vm_compute; repeat split; try reflexivity; try discriminate; intuition discriminate|].
  split; [vm_compute; tauto|]. split; (split; [reflexivity|]); [left|right]; (split; [auto|reflexivity]).
Qed.
(** The frame is used after it was destroyed by code that closeNow called (say, the callback of another write on the transport). *)
Definition bad_run : list pmv := [MvStart; MvTimeout; MvDestroy; MvReturn].
Theorem C79_destroyed_in_close_refuted : ~ (forall fd tmo s, phist false fd tmo s -> ~ In EBadUse (p_log s)).
Proof.
  intros H. apply (H true true (prun true true p_init bad_run)); [apply prun_hist; [constructor|]; vm_compute; repeat split; try reflexivity; try discriminate; intuition discriminate|].
  vm_compute. tauto.
Qed.
(** The two directions may end up with different PSP versions: that of the peer's association is not compared. *)
Theorem C79_same_version_refuted : ~ (forall fd tmo s sa sb, phist true fd tmo s -> In (EDone true) (p_log s) -> In (ERxRes (Some sa)) (p_log s) -> In (ETx sb) (p_log s) -> sa_version sa = sa_version sb).
Proof.
  intros H. destruct C79_good as (A & B & _). specialize (H _ _ _ sa_a sa_b A B ltac:(vm_compute; tauto) ltac:(vm_compute; tauto)). discriminate H.
Qed.
(** What the peer sent after its association is lost. *)
Theorem C79_nothing_lost_refuted : ~ (forall fd tmo s msg rest, phist true fd tmo s -> In (EDone true) (p_log s) -> readTLV (recvd (p_log s)) = Some (1, msg, rest) -> rest = []).
Proof. intros H. destruct C79_good as (A & B & _). specialize (H _ _ _ _ [x77] A B ltac:(vm_compute; reflexivity)). discriminate H. Qed.
