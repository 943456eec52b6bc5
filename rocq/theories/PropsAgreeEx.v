(** * C68: its hypotheses are met *)
From Verif Require Import Base Codec CodecSpec Str Hkdf HkdfSpec HkdfProofs KeySched KeySchedSpec Handshake Extensions RecordBase Record
  ReadEvent HelloChecks Cookie Token Negotiate Ticket PskSer Kex Hpke HpkeUtils Transcript EchConfirm EchCrypt PropsHpke PropsEchCrypt
  Server ServerSpec PropsServerEx Client ClientSpec ClientSteps Joint PropsClientEx Agreement PropsAgree.
Open Scope N_scope.

(** The decrypter of protocol/ech/Decrypter.cpp (the model of EchCrypt.v) returns the encoding of the hello it returns. *)
Lemma ech_decrypter_encodes fa ps : decrypter_encodes (ech_decrypter fa ps).
Proof.
  assert (G : forall c pl cx ctx' i o, decryptECHWithContext c pl cx = (ctx', DOk (i, o)) -> encodeHandshake (MClientHello i) = Ok o).
  { intros c pl cx ctx' i o. unfold decryptECHWithContext. destruct (outerForAad c) as [aad|]; [|discriminate]. destruct pl as [ct|]; [|discriminate].
    destruct (hopen cx (Some aad) ct) as [[c' [pt|]] [[]|]]; try discriminate. destruct (decode_ch pt) as [[ch rest]|]; [|discriminate].
    destruct (negb (all_zero rest)); [discriminate|]. destruct (ch_session_id c); [|discriminate]. destruct (substituteOuterExtensions _ _ _) as [lx|]; [|discriminate].
    cbv zeta. destruct (encodeHandshake _) eqn:E; [|discriminate]. intros H. injection H as _ <- <-. exact E. }
  assert (G2 : forall c x enc i o ctx', decryptClientHelloHRR fa ps c x enc = Ok (i, o, ctx') -> encodeHandshake (MClientHello i) = Ok o).
  { intros c x enc i o ctx'. unfold decryptClientHelloHRR. destruct (findExtension 65037 _); [|discriminate]. intros H. apply bind_Ok in H. destruct H as ([[[[[[kdf ae] cid] en] pl] [cfg kx]]|] & _ & H); [|discriminate].
    apply bind_Ok in H. destruct H as (cx & _ & H). destruct (decryptECHWithContext c pl cx) as [c2 [[i' o']| |]] eqn:E; try discriminate. injection H as <- <- _. eapply G, E. }
  split; [|split]; cbn [ech_decrypter d_hello d_hrr d_hrr_enc]; intros c o.
  - intros c' enc x H. apply bind_Ok in H. destruct H as ([[[[i o'] ?] ctx]|] & E & H); [|discriminate]. injection H as <- <- _.
    unfold decryptClientHello in E. destruct (findExtension 65037 _); [|discriminate]. apply bind_Ok in E. destruct E as ([[[[[[kdf ae] cid] en] pl] [cfg kx]]|] & _ & E); [|discriminate].
    destruct (setupDecryptionContext _ _ _ _ _ _) as [cx|[]]; try discriminate. destruct (decryptECHWithContext c pl cx) as [c2 [[i' o'']| |[]]] eqn:E2; try discriminate.
    injection E as <- <- _ _. eapply G, E2.
  - intros x c' enc H. apply bind_Ok in H. destruct H as ([[i o'] ?] & E & H). injection H as <- <-. eapply G2, E.
  - intros x c' enc H. apply bind_Ok in H. destruct H as ([[i o'] ?] & E & H). injection H as <- <-. eapply G2, E.
Qed.
Lemma vx_env_ok auth ech : env_ok (vx_env auth ech).
Proof.
  split; cbn [vx_env e_hash e_aead e_versions e_groups].
  - intros c h [= <-]. apply tx_hash_ok.
  - intros c kl il mk [= <- <- <-]. split; discriminate.
  - repeat constructor.
  - repeat constructor.
Qed.

(** The full handshake of [C48_nonvacuous].  The client's log: its flight is entry 14, after the server's Finished (entry 9) and four
    secrets; the server's log: its flight is entry 4, its report of success entry 10, after the client's Finished (entry 7). *)
Definition ag_run : joint := jrun (ux_env [29]) (vx_env AuthRequired None) jx_full.
Definition ag_dh : bytes := be 4 38.
Definition hs_bytes (cs : list content) : bytes := concat (map ct_plain (filter is_hs cs)).
Definition written (y : centry) : bytes := match y with CEmit (KWrite cs) => hs_bytes cs | _ => [] end.
Definition swritten (n : nat) (y : entry) : bytes := match y with Emit (OWrite cs) => match nth_error (filter is_hs cs) n with Some c => ct_plain c | None => [] end | _ => [] end.
Definition got (y : centry) : bytes := match y with CRecv _ (EvHandshake _ o) => o | _ => [] end.
Definition sgot (y : entry) : bytes := match y with Recv _ (EvHandshake _ o) => o | _ => [] end.
Definition cl (n : nat) : centry := nth n (j_cl ag_run) (CEmit (KWait 0)).
Definition sl (n : nat) : entry := nth n (j_sl ag_run) (Emit OSuccess).
Definition ag_ch : bytes := Eval vm_compute in written (cl 1).
Definition ag_sh : bytes := Eval vm_compute in swritten 0 (sl 4).
Definition ag_fl : bytes := Eval vm_compute in swritten 1 (sl 4).
Definition ag_fin : bytes := Eval vm_compute in got (cl 9).
Definition ag_cfl : bytes := Eval vm_compute in written (cl 14).
Definition ag_cfin : bytes := Eval vm_compute in sgot (sl 7).
Definition ag_fl0 : bytes := Eval vm_compute in takeN (blen ag_fl - 36) ag_fl.
Definition ag_cfl0 : bytes := Eval vm_compute in takeN (blen ag_cfl - 36) ag_cfl.
Definition ag_secret (label : bytes) : bytes := DeriveSecret tx_hash (HandshakeSecret tx_hash (Zero tx_hash) ag_dh) label (h_fn tx_hash (ag_ch ++ ag_sh)).
Definition ag_hashed (label T : bytes) : list bytes := finished_hashed tx_hash label (Zero tx_hash) ag_dh (ag_ch ++ ag_sh) T.
Definition noc (h : hashalg) (l : list bytes) : bool := forallb (fun x => forallb (fun y => negb (bytes_eqb (h_fn h x) (h_fn h y)) || bytes_eqb x y) l) l.

Lemma noc_sound h l : noc h l = true -> no_collision h (l ++ l).
Proof.
  unfold noc. intros H x y Hx Hy E. assert (Hx' : In x l) by (apply in_app_or in Hx; tauto). assert (Hy' : In y l) by (apply in_app_or in Hy; tauto).
  rewrite forallb_forall in H. specialize (H _ Hx'). rewrite forallb_forall in H. specialize (H _ Hy'). apply orb_true_iff in H. destruct H as [H|H].
  - apply negb_true_iff in H. rewrite E in H. assert (bytes_eqb (h_fn h y) (h_fn h y) = true) by (apply bytes_eqb_eq; reflexivity). congruence.
  - apply bytes_eqb_eq, H.
Qed.
Lemma cut_at {A} (d : A) : forall n l, (n < length l)%nat -> l = firstn n l ++ nth n l d :: skipn (S n) l.
Proof. induction n as [|n IH]; intros [|a l] H; cbn [length] in H; try lia; [reflexivity|]. cbn [firstn nth app]. change (skipn (S (S n)) (a :: l)) with (skipn (S n) l). f_equal. apply IH. lia. Qed.
Lemma firstn_cut {A} (d : A) n l m : (n < m)%nat -> (m <= length l)%nat -> firstn m l = firstn n l ++ nth n l d :: firstn (m - S n) (skipn (S n) l).
Proof. intros H H2. rewrite (cut_at d n l) at 1 by lia. rewrite firstn_app, firstn_length_le by lia. rewrite firstn_firstn, Nat.min_r by lia. f_equal. replace (m - n)%nat with (S (m - S n)) by lia. reflexivity. Qed.
Lemma all_emits l : forallb (fun y => match y with CEmit _ => true | _ => false end) l = true -> exists pre, l = map CEmit pre.
Proof. induction l as [|y l IH]; intros H; [exists []; reflexivity|]. apply andb_true_iff in H. destruct H as [H1 H2]. destruct (IH H2) as (pre & ->). destruct y; try discriminate. exists (o :: pre). reflexivity. Qed.
Lemma all_semits l : forallb (fun y => match y with Emit _ => true | _ => false end) l = true -> exists pre, l = map Emit pre.
Proof. induction l as [|y l IH]; intros H; [exists []; reflexivity|]. apply andb_true_iff in H. destruct H as [H1 H2]. destruct (IH H2) as (pre & ->). destruct y; try discriminate. exists (o :: pre). reflexivity. Qed.
Definition hs_level (c : content) : bool := (ct_type c =? 22) && level_is LvHandshake c.
Definition fin_msg (y : centry) : bool := match y with CRecv _ (EvHandshake (MFinished (Some _)) o) => bytes_eqb o ag_fin | _ => false end.
Definition sfin_msg (y : entry) : bool := match y with Recv _ (EvHandshake (MFinished _) o) => bytes_eqb o ag_cfin | _ => false end.
Definition client_part (l : list centry) : bool :=
  (Nat.leb 15 (length l)) && match nth 14 l (CEmit (KWait 0)) with CEmit (KWrite cs) => existsb hs_level cs && bytes_eqb (hs_bytes cs) ag_cfl | _ => false end &&
  fin_msg (nth 9 l (CEmit (KWait 0))) && forallb (fun y => match y with CEmit _ => true | _ => false end) (firstn 4 (skipn 10 l)).
Definition sflight (y : entry) : bool := match y with Emit (OWrite cs) =>
    match filter is_hs cs with [c1; c2] => level_is LvPlaintext c1 && level_is LvHandshake c2 && bytes_eqb (ct_plain c1) ag_sh && bytes_eqb (ct_plain c2) ag_fl | _ => false end | _ => false end.
Definition server_part (l : list entry) : bool :=
  (Nat.leb 11 (length l)) && sflight (nth 4 l (Emit OSuccess)) && match nth 10 l (Emit OEarlySuccess) with Emit OSuccess => true | _ => false end &&
  sfin_msg (nth 7 l (Emit OSuccess)) && forallb (fun y => match y with Emit _ => true | _ => false end) (firstn 2 (skipn 8 l)) &&
  forallb (fun y => match y with Recv w _ => match w_random w with Ok r => blen r =? 32 | Err _ => true end | _ => true end) l.
Lemma client_part_ok : client_part (j_cl ag_run) = true. Proof. vm_compute. reflexivity. Qed.
Lemma server_part_ok : server_part (j_sl ag_run) = true. Proof. vm_compute. reflexivity. Qed.
Lemma ag_good : jgood (ux_env [29]) (vx_env AuthRequired None) ag_run. Proof. exact (jrun_good (ux_env [29]) (vx_env AuthRequired None) jx_full). Qed.
Opaque ag_run.
Lemma ag_same : same_functions (ux_env [29]) (vx_env AuthRequired None). Proof. intros c c' h h' [= <-] [= <-] _. reflexivity. Qed.
Lemma ag_client : exists csc c0 C2 w vd pre, creach (ux_env [29]) (j_ci ag_run) (j_c ag_run) (firstn 14 (j_cl ag_run) ++ CEmit (KWrite csc) :: C2) /\
  In c0 csc /\ ct_type c0 = 22 /\ ct_level c0 = LvHandshake /\ hs_bytes csc = ag_cfl /\
  firstn 14 (j_cl ag_run) = firstn 9 (j_cl ag_run) ++ CRecv w (EvHandshake (MFinished (Some vd)) ag_fin) :: map CEmit pre.
Proof.
  pose proof client_part_ok as H. destruct ag_good as (A & _). set (l := j_cl ag_run) in *. clearbody l.
  unfold client_part in H. apply andb_true_iff in H. destruct H as [H H4]. apply andb_true_iff in H. destruct H as [H H3]. apply andb_true_iff in H. destruct H as [H1 H2].
  apply Nat.leb_le in H1. rewrite (cut_at (CEmit (KWait 0)) 14 l) in A by lia. destruct (nth 14 l _) as [| |[cs| | | | | | | | | |]]; try discriminate H2.
  apply andb_true_iff in H2. destruct H2 as [H2 H5]. apply existsb_exists in H2. destruct H2 as (c0 & Hin & H2). apply andb_true_iff in H2. destruct H2 as [H2 H6].
  pose proof (firstn_cut (CEmit (KWait 0)) 9 l 14 ltac:(lia) ltac:(lia)) as E. change (14 - 10)%nat with 4%nat in E. destruct (all_emits _ H4) as (pre & Ep). rewrite Ep in E.
  unfold fin_msg in H3. destruct (nth 9 l _) as [|w [m o| | |]|]; try discriminate H3. destruct m as [| | | | | | | | | | |[vd|]|]; try discriminate H3. apply bytes_eqb_eq in H3. subst o.
  exists cs, c0, (skipn 15 l), w, vd, pre. split; [exact A|]. split; [exact Hin|]. split; [apply N.eqb_eq, H2|]. split; [|split; [apply bytes_eqb_eq, H5|exact E]].
  unfold level_is in H6. destruct (ct_level c0); try discriminate H6. reflexivity.
Qed.
Lemma ag_typed : typed (vx_env AuthRequired None) (j_sl ag_run).
Proof.
  split.
  - repeat constructor.
  - intros w ev r Hin Hr. pose proof server_part_ok as H. unfold server_part in H. apply andb_true_iff in H. destruct H as [_ H]. rewrite forallb_forall in H.
    specialize (H _ Hin). cbv beta iota in H. rewrite Hr in H. apply N.eqb_eq, H.
  - intros d [=].
Qed.
Lemma ag_server : exists cs w vd pre S2 S3, reach (vx_env AuthRequired None) (j_si ag_run) (j_s ag_run) (j_sl ag_run) /\
  j_sl ag_run = firstn 4 (j_sl ag_run) ++ Emit (OWrite cs) :: S2 /\ flight cs ag_sh ag_fl /\
  j_sl ag_run = firstn 10 (j_sl ag_run) ++ Emit OSuccess :: S3 /\
  firstn 10 (j_sl ag_run) = firstn 7 (j_sl ag_run) ++ Recv w (EvHandshake (MFinished vd) ag_cfin) :: map Emit pre.
Proof.
  pose proof server_part_ok as H. destruct ag_good as (_ & A). set (l := j_sl ag_run) in *. clearbody l.
  unfold server_part in H. apply andb_true_iff in H. destruct H as [H H6]. apply andb_true_iff in H. destruct H as [H H5]. apply andb_true_iff in H. destruct H as [H H4].
  apply andb_true_iff in H. destruct H as [H H3]. apply andb_true_iff in H. destruct H as [H1 H2]. apply Nat.leb_le in H1.
  pose proof (cut_at (Emit OSuccess) 4 l ltac:(lia)) as E4. pose proof (cut_at (Emit OEarlySuccess) 10 l ltac:(lia)) as E10.
  pose proof (firstn_cut (Emit OSuccess) 7 l 10 ltac:(lia) ltac:(lia)) as E. change (10 - 8)%nat with 2%nat in E. destruct (all_semits _ H5) as (pre & Ep). rewrite Ep in E.
  unfold sflight in H2. destruct (nth 4 l _) as [|[cs| | | | | | | |]]; try discriminate H2.
  destruct (filter is_hs cs) as [|c1 [|c2 [|]]] eqn:Ef; try discriminate H2. apply andb_true_iff in H2. destruct H2 as [H2 P2]. apply andb_true_iff in H2. destruct H2 as [H2 P1].
  apply andb_true_iff in H2. destruct H2 as [Q1 Q2].
  destruct (nth 10 l _) as [|[]]; try discriminate H3.
  unfold sfin_msg in H4. destruct (nth 7 l _) as [w [m o| | |]|]; try discriminate H4. destruct m; try discriminate H4. apply bytes_eqb_eq in H4. subst o.
  exists cs. eexists w, _, pre, (skipn 5 l), (skipn 11 l). split; [exact A|]. split; [exact E4|]. split; [|split; [exact E10|exact E]].
  exists c1, c2. split; [exact Ef|]. split; [unfold level_is in Q1; destruct (ct_level c1); try discriminate Q1; reflexivity|]. split; [apply bytes_eqb_eq, P1|].
  split; [unfold level_is in Q2; destruct (ct_level c2); try discriminate Q2; reflexivity|apply bytes_eqb_eq, P2].
Qed.
(** The hypotheses of [C68_client], the Finished message received is the one sent, and what is hashed for it (with the PSK, the
    key-exchange secret and the transcripts of this run) does not collide. *)
Example C68_client_met : exists csc c0 C2 w vd pre cs S2,
  creach (ux_env [29]) (j_ci ag_run) (j_c ag_run) (firstn 14 (j_cl ag_run) ++ CEmit (KWrite csc) :: C2) /\ In c0 csc /\ ct_type c0 = 22 /\ ct_level c0 = LvHandshake /\
  firstn 14 (j_cl ag_run) = firstn 9 (j_cl ag_run) ++ CRecv w (EvHandshake (MFinished (Some vd)) ag_fin) :: map CEmit pre /\
  reach (vx_env AuthRequired None) (j_si ag_run) (j_s ag_run) (firstn 4 (j_sl ag_run) ++ Emit (OWrite cs) :: S2) /\ flight cs ag_sh ag_fl /\
  typed (vx_env AuthRequired None) (firstn 4 (j_sl ag_run) ++ Emit (OWrite cs) :: S2) /\ ag_fl = ag_fl0 ++ ag_fin /\
  ag_fin = finished_message tx_hash (verify_data tx_hash (ag_secret (str "s hs traffic")) (ag_ch ++ ag_sh ++ ag_fl0)) /\
  no_collision tx_hash (ag_hashed (str "s hs traffic") (ag_ch ++ ag_sh ++ ag_fl0) ++ ag_hashed (str "s hs traffic") (ag_ch ++ ag_sh ++ ag_fl0)).
Proof.
  destruct ag_client as (csc & c0 & C2 & w & vd & pre & A1 & A2 & A3 & A4 & _ & A5). destruct ag_server as (cs & _ & _ & _ & S2 & _ & B1 & B2 & B3 & _).
  pose proof ag_typed as Ht. rewrite B2 in B1, Ht. exists csc, c0, C2, w, vd, pre, cs, S2.
  split; [exact A1|]. split; [exact A2|]. split; [exact A3|]. split; [exact A4|]. split; [exact A5|].
  split. { rewrite <- B2. rewrite <- B2 in B1. exact B1. } split; [exact B3|].
  split. { rewrite <- B2. rewrite <- B2 in Ht. exact Ht. }
  split; [vm_compute; reflexivity|]. split; [vm_compute; reflexivity|]. apply noc_sound. vm_compute. reflexivity.
Qed.
Example C68_server_met : exists csc c0 C2 w vd pre S3,
  creach (ux_env [29]) (j_ci ag_run) (j_c ag_run) (firstn 14 (j_cl ag_run) ++ CEmit (KWrite csc) :: C2) /\ In c0 csc /\ ct_type c0 = 22 /\ ct_level c0 = LvHandshake /\
  hs_bytes csc = ag_cfl0 ++ ag_cfin /\
  reach (vx_env AuthRequired None) (j_si ag_run) (j_s ag_run) (firstn 10 (j_sl ag_run) ++ Emit OSuccess :: S3) /\
  typed (vx_env AuthRequired None) (firstn 10 (j_sl ag_run) ++ Emit OSuccess :: S3) /\
  firstn 10 (j_sl ag_run) = firstn 7 (j_sl ag_run) ++ Recv w (EvHandshake (MFinished vd) ag_cfin) :: map Emit pre /\
  ag_cfin = finished_message tx_hash (verify_data tx_hash (ag_secret (str "c hs traffic")) (ag_ch ++ ag_sh ++ ag_fl ++ ag_cfl0)) /\
  no_collision tx_hash (ag_hashed (str "c hs traffic") (ag_ch ++ ag_sh ++ ag_fl ++ ag_cfl0) ++ ag_hashed (str "c hs traffic") (ag_ch ++ ag_sh ++ ag_fl ++ ag_cfl0)).
Proof.
  destruct ag_client as (csc & c0 & C2 & _ & _ & _ & A1 & A2 & A3 & A4 & A5 & _). destruct ag_server as (_ & w & vd & pre & _ & S3 & B1 & _ & _ & B2 & B3).
  pose proof ag_typed as Ht. exists csc, c0, C2, w, vd, pre, S3.
  split; [exact A1|]. split; [exact A2|]. split; [exact A3|]. split; [exact A4|]. split; [rewrite A5; vm_compute; reflexivity|].
  split; [rewrite <- B2; exact B1|]. split; [rewrite <- B2; exact Ht|]. split; [exact B3|].
  split; [vm_compute; reflexivity|]. apply noc_sound. vm_compute. reflexivity.
Qed.
