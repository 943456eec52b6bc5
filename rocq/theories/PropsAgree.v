(** * C68: a client and a server that exchange Finished messages agree *)
From Verif Require Import Base Codec CodecSpec Str Hkdf HkdfSpec HkdfProofs KeySched KeySchedSpec KeySchedProofs Handshake HandshakeSpec HandshakeProofs Extensions RecordBase Record
  RecordRT ReadEvent ReadEventProofs HelloChecks Cookie Token Negotiate Ticket PskSer Kex Hpke Transcript IOBufUtil PropsIOBuf EchConfirm HpkeUtils EchCrypt Server
  ServerSpec ServerFacts ServerSteps ServerFlight ServerInv ServerPreserve ServerParams ServerSpec2 ExtensionsSpec ExtensionsProofs PropsCodec PropsServer PropsServer3 PropsEch
  Client ClientSpec ClientHelloSpec ClientSteps ClientPhase PropsClient PropsClient3 PropsClient7 Agreement.
Open Scope N_scope.

(** ** Specification *)
(** A handshake message on the wire: type, length, body. *)
Definition message (f : bytes) : Prop := exists t body, t < 256 /\ blen body < 2 ^ 24 /\ f = be 1 t ++ be 3 (blen body) ++ body.
(** The two factories know the same hash functions. *)
Definition same_functions (k : cenv) (e : env) : Prop :=
  forall c c' h h', k_hash k c = Ok h -> e_hash e c' = Ok h' -> h_len h = h_len h' -> h = h'.
(** The server's code points have the width of their C++ types, its random values have 32 bytes, and its Encrypted ClientHello
    decrypter returns the encoding of the ClientHello it returns. *)
Definition decrypter_encodes (d : decrypter) : Prop :=
  (forall c o c' enc x, d_hello d c o = Ok (Some (c', enc, x)) -> encodeHandshake (MClientHello c') = Ok enc) /\
  (forall c o x c' enc, d_hrr d c o x = Ok (c', enc) -> encodeHandshake (MClientHello c') = Ok enc) /\
  (forall c o x c' enc, d_hrr_enc d c o x = Ok (c', enc) -> encodeHandshake (MClientHello c') = Ok enc).
Record typed (e : env) (L : list entry) : Prop := mkTyped {
  ty_ciphers : Forall (Forall (fun c => c < 2 ^ 16)) (e_ciphers e);
  ty_random : forall w ev r, In (Recv w ev) L -> w_random w = Ok r -> blen r = 32;
  ty_ech : forall d, e_ech e = Some d -> decrypter_encodes d }.

(** The client's view [Q] and the server's view [P] of the parameters are the same. *)
Record agree (Q : cparams) (P : params) : Prop := mkAgree {
  ag_hash : q_hash Q = p_hash P;
  ag_version : q_version Q = p_version P;
  ag_cipher : q_cipher Q = p_cipher P;
  (* the ClientHello the server answered is the client's last, and what came before it is the same *)
  ag_hello : exists hs, q_hs Q = hs ++ [p_enc P];
  ag_start : q_T Q = p_T P;
  ag_answer : q_sh Q = p_sh P;
  (* group and server share, the key-exchange secret *)
  ag_kex : match q_kex Q, p_kex P with
           | Some (g, share, _), Some (g', _, share', _) => g = g' /\ share = share'
           | None, None => True
           | _, _ => False
           end;
  ag_dh : q_dh Q = p_dh P;
  (* whether a PSK is used, and which *)
  ag_resumed : q_psk Q = None <-> p_ticket P = None;
  ag_psk : q_secret Q = p_psk P }.
(** The strings hashed for the Finished messages of the client's and of the server's view. *)
Definition q_hashed (Q : cparams) (label T : bytes) : list bytes := finished_hashed (q_hash Q) label (q_secret Q) (q_dh Q) (q_Tsh Q) T.
Definition p_hashed (P : params) (label T : bytes) : list bytes := finished_hashed (p_hash P) label (p_psk P) (p_dh P) (p_Tsh P) T.
(** The encoded Finished message. *)
Definition finished_message (h : hashalg) (vd : bytes) : bytes := be 1 20 ++ be 3 (h_len h) ++ vd.

(** ** Framing *)
Lemma message_inj f g r r' : message f -> message g -> f ++ r = g ++ r' -> f = g /\ r = r'.
Proof.
  intros (t & b & Ht & Hb & ->) (t' & b' & Ht' & Hb' & ->) E. rewrite <- !app_assoc in E.
  apply app_inj_len in E; [|rewrite !be_blen; reflexivity]. destruct E as (E1 & E). apply be_inj in E1; [|exact Ht|exact Ht']. subst t'.
  apply app_inj_len in E; [|rewrite !be_blen; reflexivity]. destruct E as (E1 & E). apply be_inj in E1; [|exact Hb|exact Hb'].
  apply app_inj_len in E; [|exact E1]. destruct E as (-> & ->). auto.
Qed.
Lemma message_ne f : message f -> f <> [].
Proof. intros (t & b & _ & _ & ->) E. apply (f_equal (@blen byte)) in E. rewrite !blen_app, !be_blen in E. unfold blen in E at 2. cbn [length] in E. lia. Qed.
Lemma messages_inj : forall l l', Forall message l -> Forall message l' -> concat l = concat l' -> l = l'.
Proof.
  induction l as [|f l IH]; intros [|g l'] H H' E; [reflexivity| | |].
  - exfalso. inversion H'; subst. cbn [concat] in E. destruct g; [eapply message_ne; eauto|discriminate].
  - exfalso. inversion H; subst. cbn [concat] in E. destruct f; [eapply message_ne; eauto|discriminate].
  - inversion H; inversion H'; subst. cbn [concat] in E. apply message_inj in E; [|assumption|assumption]. destruct E as (-> & E). f_equal. apply IH; assumption.
Qed.
Lemma hs_type_small m : hs_type m < 256. Proof. destruct m; reflexivity. Qed.
Lemma encoded_message m b : encodeHandshake m = Ok b -> exists body, encode_body m = Ok (Some body) /\ blen body < 2 ^ 24 /\ b = be 1 (hs_type m) ++ be 3 (blen body) ++ body.
Proof.
  unfold encodeHandshake. intros H. bo H body E. destruct body as [body|]; [|discriminate]. bo H t Et. bo H l El. injection H as <-.
  apply write_len_inv in El. destruct El as [Hl ->]. injection Et as <-. exists body. split; [exact E|]. split; [|reflexivity].
  unfold fits_len in Hl. apply N.ltb_lt in Hl. exact Hl.
Qed.
Lemma encode_is_message m b : encodeHandshake m = Ok b -> message b.
Proof. intros H. destruct (encoded_message _ _ H) as (body & _ & Hl & ->). exists (hs_type m), body. split; [apply hs_type_small|auto]. Qed.
Lemma message_hash_is d : blen d < 2 ^ 24 -> message (message_hash d).
Proof. intros H. exists 254, d. split; [reflexivity|]. split; [exact H|reflexivity]. Qed.

(** ** Messages received *)
Definition hs_wire (m : hsmsg) (o : bytes) : Prop := exists body, blen body < 2 ^ 24 /\ o = be 1 (hs_type m) ++ be 3 (blen body) ++ body /\ parse_handshake (hs_type m) body = Ok m.
Lemma decode_hs_wire u m o r : decode_hs u = Ok (Some (m, o, r)) -> hs_wire m o.
Proof.
  unfold decode_hs. destruct u as [|t [|l1 [|l2 [|l3 r0]]]]; try discriminate. cbv zeta. destruct (_ <? _); [discriminate|].
  destruct (take _ r0) as [[body rest]|] eqn:Et; [|discriminate]. intros H. bo H x E. injection H as <- <- <-. apply take_Some in Et. destruct Et as [_ Hl].
  destruct (parse_canon _ _ _ E) as (_ & _ & _ & Hty & _). exists body. rewrite Hl.
  assert (Hu : unbe [l1; l2; l3] < 2 ^ 24) by (pose proof (unbe_bound [l1; l2; l3]) as X; exact X).
  split; [exact Hu|]. rewrite Hty. split; [|exact E].
  rewrite (be_unbe 3 [l1; l2; l3] eq_refl). change (b2n t) with (unbe [t]) at 1. rewrite (be_unbe 1 [t] eq_refl). reflexivity.
Qed.
Lemma ev_loop_wire : forall f u l b s' b' m o, ev_loop f u l b = RMsg s' b' (EvHandshake m o) -> hs_wire m o.
Proof.
  induction f as [|f IH]; intros u l b s' b' m o E; [discriminate|]. cbn [ev_loop] in E. destruct (layer_read l b) as [| l' b2 x|]; try discriminate.
  destruct (_ && _); [discriminate|]. destruct (m_type x =? ct_alert). { destruct (decode_all _ _); [|discriminate]. destruct (_ =? 0); discriminate. }
  destruct (m_type x =? ct_handshake).
  - cbv zeta in E. destruct (decode_hs (u ++ m_frag x)) as [[[[msg orig] rest]|]|] eqn:Ed; [|eapply IH; exact E|discriminate]. injection E as _ _ <- <-. eapply decode_hs_wire, Ed.
  - destruct (_ =? _); discriminate.
Qed.
Lemma read_event_wire s b s' b' m o : read_event s b = RMsg s' b' (EvHandshake m o) -> hs_wire m o.
Proof.
  unfold read_event. destruct (ev_unparsed s) as [|x u]; [apply ev_loop_wire|].
  destruct (decode_hs (x :: u)) as [[[[msg orig] rest]|]|] eqn:Ed; [|apply ev_loop_wire|discriminate]. intros E. injection E as _ _ <- <-. eapply decode_hs_wire, Ed.
Qed.
Lemma client_received k l s log w m o : creach k l s log -> In (CRecv w (EvHandshake m o)) log -> hs_wire m o.
Proof.
  intros H. pattern s, log. eapply creach_rect; [| |exact H]; clear.
  - intros [].
  - intros l s log w0 i s' o' Hr IH E Hin. apply in_app_or in Hin. destruct Hin as [Hin|Hin]; [exact (IH Hin)|]. apply in_app_or in Hin. destruct Hin as [Hin|Hin].
    + unfold cinput_log in Hin. destruct (c_state s); try contradiction;
        (destruct i; try (destruct Hin as [[=]|[]]); destruct (c_read s) as [r|]; [|contradiction];
         destruct (read_event r b) as [| r' b' ev|] eqn:Er; try contradiction; destruct Hin as [Hin|[]]; injection Hin as _ ->; eapply read_event_wire, Er).
    + apply in_map_iff in Hin. destruct Hin as (? & [=] & _).
Qed.
Lemma server_received e l s log w m o : reach e l s log -> In (Recv w (EvHandshake m o)) log -> hs_wire m o.
Proof.
  intros H. pattern s, log. eapply reach_rect; [| |exact H]; clear.
  - intros [].
  - intros l s log w0 i s' o' Hr IH E Hin. apply in_app_or in Hin. destruct Hin as [Hin|Hin]; [exact (IH Hin)|]. apply in_app_or in Hin. destruct Hin as [Hin|Hin].
    + unfold received in Hin. destruct (s_state s); try contradiction;
        (destruct i; try contradiction; destruct (s_read s) as [r|]; [|contradiction];
         destruct (read_event r b) as [| r' b' ev|] eqn:Er; try contradiction; destruct Hin as [Hin|[]]; injection Hin as _ ->; eapply read_event_wire, Er).
    + apply in_map_iff in Hin. destruct Hin as (? & [=] & _).
Qed.
Lemma wire_message m o : hs_wire m o -> message o.
Proof. intros (body & Hl & -> & _). exists (hs_type m), body. split; [apply hs_type_small|auto]. Qed.

(** ** The ServerHello *)
Lemma same_hello w m b q : hello_form w m -> (forall r, w_random w = Ok r -> blen r = 32) -> sh_suite m < 2 ^ 16 -> encodeHandshake (MServerHello m) = Ok b ->
  hs_wire (MServerHello q) b -> q = m.
Proof.
  intros (F1 & F2 & F3 & (r & F4 & F5) & F6) Hr Hs E (body & Hl & E2 & Hp). destruct (encoded_message _ _ E) as (body' & Eb & Hl' & ->).
  cbn [hs_type] in *. repeat rewrite <- app_assoc in E2. apply app_inv_head in E2. apply app_inj_len in E2; [|rewrite !be_blen; reflexivity]. destruct E2 as (_ & <-).
  specialize (Hr _ F4). rewrite Hr in F5. specialize (F5 ltac:(lia)).
  assert (W : wf_exts (sh_extensions m) = true).
  { apply forallb_forall. intros x Hx. rewrite Forall_forall in F6. destruct (F6 _ Hx) as (A & B). unfold wf_ext. apply andb_true_iff. split; [apply N.ltb_lt; exact A|].
    destruct (ext_data x); [reflexivity|congruence]. }
  destruct (sh_session_id m) as [sid|] eqn:Es; [|congruence].
  destruct (bytes_eqb (sh_random m) HrrRandom) eqn:Eh.
  - exfalso. apply bytes_eqb_eq in Eh. set (h := mkHRR (sh_version m) (Some sid) (sh_suite m) (sh_compression m) (sh_extensions m)).
    assert (Ebh : encode_body (MHelloRetryRequest h) = Ok (Some body')).
    { rewrite <- Eb. cbn [encode_body]. unfold encode_sh, encode_hrr, h. cbn [hrr_version hrr_session_id hrr_suite hrr_compression hrr_extensions]. rewrite Es, Eh. reflexivity. }
    assert (Wh : wf_msg (MHelloRetryRequest h) = true).
    { cbn [wf_msg]. unfold h. cbn [hrr_version hrr_session_id hrr_suite hrr_compression hrr_extensions nonnull]. rewrite F1, F3, W.
      assert (in_u 2 (sh_suite m) = true) as -> by (apply N.ltb_lt; exact Hs). reflexivity. }
    apply (encode_body_iff _ _ Wh) in Ebh. destruct Ebh as (Hf & ->). pose proof (parse_ok (MHelloRetryRequest h) eq_refl Wh Hf) as X. cbn [hs_type] in X. congruence.
  - assert (Wm : wf_msg (MServerHello m) = true).
    { cbn [wf_msg]. rewrite F1, F3, W, Es, Eh. unfold len32. rewrite F5. assert (in_u 2 (sh_suite m) = true) as -> by (apply N.ltb_lt; exact Hs). reflexivity. }
    apply (encode_body_iff _ _ Wm) in Eb. destruct Eb as (Hf & ->). pose proof (parse_ok (MServerHello m) eq_refl Wm Hf) as X. cbn [hs_type] in X. congruence.
Qed.
Lemma says_unique m v c sh p v' c' sh' p' : hello_says m v c sh p -> hello_says m v' c' sh' p' -> v = v' /\ c = c' /\ sh = sh' /\ p = p'.
Proof.
  intros (A1 & A2 & A3 & A4) (B1 & B2 & B3 & B4). split; [congruence|]. split; [congruence|]. split.
  - rewrite A3 in B3. destruct sh as [[? ?]|], sh' as [[? ?]|]; congruence.
  - rewrite A4 in B4. destruct p, p'; congruence.
Qed.

(** ** From equal verify_data to agreement *)
(** [ls] is the log of the server up to its flight; [lc] the client's. *)
Lemma agreement k e lc sc Lc le se Le wh Q L0 w c orig cs P label T T' : cenv_ok k -> env_ok e -> same_functions k e ->
  creach k lc sc Lc -> reach e le se Le -> typed e Le ->
  (exists La, Lc = fst L0 ++ hello_entry wh Q :: La) -> chandshake_of k (fst L0) wh Q ->
  (exists La, Le = snd L0 ++ Recv w (EvHandshake (MClientHello c) orig) :: La) -> handshake_of e (snd L0) w c orig cs P ->
  h_len (q_hash Q) = h_len (p_hash P) -> no_collision (q_hash Q) (q_hashed Q label T ++ p_hashed P label T') ->
  verify_data (q_hash Q) (DeriveSecret (q_hash Q) (HandshakeSecret (q_hash Q) (q_secret Q) (q_dh Q)) label (h_fn (q_hash Q) (q_Tsh Q))) T =
  verify_data (p_hash P) (DeriveSecret (p_hash P) (HandshakeSecret (p_hash P) (p_psk P) (p_dh P)) label (h_fn (p_hash P) (p_Tsh P))) T' ->
  agree Q P /\ T = T'.
Proof.
  destruct L0 as (Lc0 & Ls0). cbn [fst snd]. intros Hk He Hsf Hrc Hrs Hty (Lac & ELc) HQ (Las & ELs) HP Hlen NC E.
  assert (Hh : q_hash Q = p_hash P) by (eapply Hsf; [apply HQ|apply HP|exact Hlen]).
  assert (Hok : hash_ok (q_hash Q)) by (eapply (ko_hash k Hk), HQ).
  unfold q_hashed, p_hashed in NC. rewrite <- Hh in E, NC. apply (finished_binds _ _ _ _ _ _ _ _ _ _ Hok NC) in E. destruct E as (ET & Esh & Epsk & Edh).
  split; [|exact ET].
  (* framing *)
  assert (Hin_sh : In (hello_entry wh Q) Lc) by (rewrite ELc; apply in_or_app; right; left; reflexivity).
  pose proof (client_received _ _ _ _ _ _ _ Hrc Hin_sh) as Wsh.
  assert (Mq : exists fs hs b, Forall message (fs ++ [b]) /\ q_T Q = concat (fs ++ [b]) /\ q_hs Q = hs ++ [b]).
  { assert (Hl : exists hs b, q_hs Q = hs ++ [b] /\ message b).
    { destruct (co_session _ _ _ _ HQ) as (c0 & (hs & b & Eb & Ec) & _). exists hs, b. split; [exact Eb|]. exact (encode_is_message _ _ Ec). }
    destruct Hl as (hs & b & Eb & Mb). pose proof (co_start _ _ _ _ HQ) as St. rewrite Eb in St.
    destruct hs as [|b0 [|b1 [|b2 hs]]]; cbn [app] in St; try contradiction.
    - exists [], [], b. rewrite St. cbn [concat app]. rewrite app_nil_r. auto.
    - destruct St as (w1 & m1 & o1 & Hin & ->). exists [message_hash (h_fn (q_hash Q) b0); o1], [b0], b. split; [|split; [|exact Eb]].
      + constructor; [|constructor; [|constructor; [exact Mb|constructor]]].
        * apply message_hash_is. rewrite (ho_digest _ Hok). pose proof (ho_le _ Hok). pose proof (ho_max _ Hok). change (2 ^ 24) with 16777216. lia.
        * eapply wire_message, client_received; [exact Hrc|]. rewrite ELc. apply in_or_app. left. exact Hin.
      + cbn [concat app]. rewrite app_nil_r. reflexivity. }
  assert (Hin_ch : In (Recv w (EvHandshake (MClientHello c) orig)) Le) by (rewrite ELs; apply in_or_app; right; left; reflexivity).
  assert (Menc : message (p_enc P)).
  { destruct (ho_taken _ _ _ _ _ _ _ HP) as [(_ & ->)|(d & Ed & D)]; [eapply wire_message, server_received; eassumption|].
    destruct (ty_ech _ _ Hty _ Ed) as (D1 & D2 & D3). destruct D as [(x & D)|[(x & D)|(x & D)]]; eapply encode_is_message; eauto. }
  assert (Mp : exists fs, Forall message (fs ++ [p_enc P]) /\ p_T P = concat (fs ++ [p_enc P])).
  { destruct (ho_start _ _ _ _ _ _ _ HP) as [->|(d & m1 & b1 & Hd & Eb & ->)].
    - exists []. cbn [concat app]. rewrite app_nil_r. auto.
    - exists [message_hash d; b1]. split; [|cbn [concat app]; rewrite app_nil_r; reflexivity].
      constructor; [apply message_hash_is, Hd|]. constructor; [exact (encode_is_message _ _ Eb)|]. auto. }
  destruct Mq as (fs & hs & b & M1 & M2 & M3). destruct Mp as (gs & M4 & M5).
  destruct (ho_hello _ _ _ _ _ _ _ HP) as (m & N1 & N2 & N3).
  assert (El : (fs ++ [b]) ++ [q_sh Q] = (gs ++ [p_enc P]) ++ [p_sh P]).
  { apply messages_inj.
    - apply Forall_app. split; [exact M1|]. constructor; [exact (wire_message _ _ Wsh)|constructor].
    - apply Forall_app. split; [exact M4|]. constructor; [exact (encode_is_message _ _ N1)|constructor].
    - rewrite (concat_app (fs ++ [b])), (concat_app (gs ++ [p_enc P])), <- M2, <- M5. cbn [concat]. rewrite !app_nil_r. exact Esh. }
  apply app_inj_tail in El. destruct El as (El & Eq). assert (EqT : q_T Q = p_T P) by (rewrite M2, M5, El; reflexivity).
  apply app_inj_tail in El. destruct El as (_ & Eb).
  (* the ServerHello *)
  assert (Hsuite : sh_suite m < 2 ^ 16).
  { destruct N2 as (-> & _). destruct (ho_cipher _ _ _ _ _ _ _ HP) as (t1 & tier & t2 & l1 & l2 & Et & _ & Hv & _).
    pose proof (ty_ciphers _ _ Hty) as Hc. rewrite Et in Hc. apply Forall_app in Hc. destruct Hc as (_ & Hc). inversion Hc; subst. rewrite Forall_forall in H1. exact (H1 _ Hv). }
  rewrite Eq in Wsh. assert (Em : q_msg Q = m) by (eapply same_hello; try eassumption; intros r Hr; eapply ty_random; eassumption).
  pose proof (co_says _ _ _ _ HQ) as Sq. rewrite Em in Sq. destruct (says_unique _ _ _ _ _ _ _ _ _ Sq N2) as (U1 & U2 & U3 & U4).
  constructor; try assumption.
  - exists hs. rewrite M3, Eb. reflexivity.
  - destruct (q_kex Q) as [[[g sq] ?]|], (p_kex P) as [[[[g' ?] sp] ?]|]; try discriminate; [|exact Logic.I]. injection U3 as -> ->. auto.
  - destruct (q_psk Q), (p_ticket P); try discriminate; split; intros; congruence || reflexivity.
Qed.

(** The secrets the server exports with its flight. *)
Lemma flight_secrets e l s L1 cs sh fl L2 : env_ok e -> reach e l s (L1 ++ Emit (OWrite cs) :: L2) -> flight cs sh fl ->
  exists L0 w c orig pre P, L1 = L0 ++ Recv w (EvHandshake (MClientHello c) orig) :: map Emit pre /\
    handshake_of e L0 w c orig cs P /\ p_sh P = sh /\ p_fl P = fl /\
    exists first, pre = first ++ map (fun kd => OSecret' kd (secret_of P kd 0)) [SkClientHs; SkServerHs; SkServerApp].
Proof.
  intros He Hr Hf. destruct (flight_origin _ _ _ _ _ _ _ _ He Hr Hf) as (log1 & s1 & w & c & orig & s2 & pre & post & H & HP & (A0 & A1 & A2 & A3 & A4 & A5 & A6 & A7 & A8) & -> & <- & <- & _).
  destruct (past_params _ _ _ _ _ He A1) as (P & pre' & cs' & post' & Ho & Hfl & Hpp & HH & SP).
  destruct (fo_outs _ _ _ _ _ _ _ _ _ _ _ _ _ _ (pa_flight _ _ _ _ _ A1)) as (pre0 & cs0 & post0 & Ho0 & Hf0 & Hpp0). cbv zeta in Ho0.
  assert (Hone : forall p q c', i_outs H = p ++ OWrite c' :: q -> c' = cs0 /\ exists first, p = first ++ [OSecret' SkClientHs (client_hs_secret (i_h H) (psk_of (i_h H) (n_res (i_n H))) (dh_of (i_h H) (i_kex H)) (i_tch H ++ i_sh H));
    OSecret' SkServerHs (server_hs_secret (i_h H) (psk_of (i_h H) (n_res (i_n H))) (dh_of (i_h H) (i_kex H)) (i_tch H ++ i_sh H));
    OSecret' SkServerApp (server_traffic (i_h H) (mkTr (psk_of (i_h H) (n_res (i_n H))) (dh_of (i_h H) (i_kex H)) (h_fn (i_h H) (i_tch H ++ i_sh H ++ i_fl H)) 0 0))]).
  { intros p q c' E. rewrite Ho0 in E.
    destruct Hpp0 as [(_ & -> & ->)|(_ & -> & ->)]; cbn [app] in E;
      destruct p as [|p1 [|p2 [|p3 [|p4 [|p5 [|p6 p]]]]]]; try discriminate E; try (destruct p; discriminate E); injection E as; subst.
    - split; [reflexivity|]. exists []. reflexivity.
    - split; [reflexivity|]. eexists [_]. reflexivity. }
  destruct (Hone _ _ _ Ho) as (-> & _). destruct (Hone pre post cs) as (-> & first & ->); [rewrite A8; reflexivity|].
  eexists log1, w, c, orig, _, P. split; [reflexivity|]. rewrite A2, A4, A5, A6 in HH. split; [exact HH|]. destruct SP. split; [assumption|]. split; [assumption|].
  exists first. unfold secret_of, app_traffic. cbn [map]. rewrite sp_hash, sp_psk, sp_dh, sp_Tsh, sp_Tsf. reflexivity.
Qed.
Lemma finished_wire vd o : hs_wire (MFinished (Some vd)) o -> o = be 1 20 ++ be 3 (blen vd) ++ vd.
Proof.
  intros (body & _ & -> & Hp). destruct (parse_canon _ _ _ Hp) as (_ & _ & _ & _ & [->|C]); [reflexivity|]. destruct C as (c' & E & _). discriminate E.
Qed.
Lemma small_len h : hash_ok h -> h_len h < 2 ^ 24.
Proof. intros H. pose proof (ho_le _ H). pose proof (ho_max _ H). change (2 ^ 24) with 16777216. lia. Qed.
Lemma vd_len h s T : hash_ok h -> blen (verify_data h s T) = h_len h. Proof. intros H. apply HMAC_len, H. Qed.

(** ** C68 *)
(** [c0] in [csc] is the client's Finished flight; it follows the server's Finished message [orig].  The server's flight [cs] ends with
    the Finished message [fin].  If they are the same message, and nothing hashed for it collides, then the client and the server agree
    on the parameters and on the transcript, and the application secrets the client exports are those of the server. *)
Theorem C68_client k e lc sc C1 csc C2 c0 ls ss S1 cs sh fl S2 : cenv_ok k -> env_ok e -> same_functions k e ->
  creach k lc sc (C1 ++ CEmit (KWrite csc) :: C2) -> In c0 csc -> ct_type c0 = 22 -> ct_level c0 = LvHandshake ->
  reach e ls ss (S1 ++ Emit (OWrite cs) :: S2) -> flight cs sh fl -> typed e (S1 ++ Emit (OWrite cs) :: S2) ->
  exists L w vd orig pre L0 wh Q La T L0' w' c o pre' P fl0 fin,
    C1 = L ++ CRecv w (EvHandshake (MFinished (Some vd)) orig) :: map CEmit pre /\ cparts k L L0 wh Q La /\ ctrans (q_hash Q) L (q_hs Q) T /\
    S1 = L0' ++ Recv w' (EvHandshake (MClientHello c) o) :: map Emit pre' /\ handshake_of e L0' w' c o cs P /\ p_sh P = sh /\ p_fl P = fl /\
    fl = fl0 ++ fin /\ fin = finished_message (p_hash P) (verify_data (p_hash P) (secret_of P SkServerHs 0) (p_Tsh P ++ fl0)) /\
    (orig = fin ->
     no_collision (q_hash Q) (q_hashed Q (str "s hs traffic") T ++ p_hashed P (str "s hs traffic") (p_Tsh P ++ fl0)) ->
     agree Q P /\ T ++ orig = p_Tsf P /\
     (exists first, pre' = first ++ map (fun kd => OSecret' kd (secret_of P kd 0)) [SkClientHs; SkServerHs; SkServerApp]) /\
     exists resumption, pre = [KSecret (KTraffic SkServerApp) (secret_of P SkServerApp 0); KSecret (KTraffic SkClientApp) (secret_of P SkClientApp 0);
       KSecret KExporter (DeriveSecret (p_hash P) (MasterSecret (p_hash P) (p_psk P) (p_dh P)) (str "exp master") (h_fn (p_hash P) (p_Tsf P)));
       KSecret KResumption resumption]).
Proof.
  intros Hk He Hsf Hrc Hin Ht Hl Hrs Hf Hty.
  destruct (C58_flight _ _ _ _ _ _ _ Hk Hrc Hin Ht Hl) as (L & w & vd & orig & pre & L0 & wh & Q & La & w0 & cn & T & n & EC & HQ & _ & HT & Hvd & _ & _ & Tcf & _ & _ & Epre).
  destruct (flight_secrets _ _ _ _ _ _ _ _ He Hrs Hf) as (L0' & w' & c & o & pre' & P & ES & HP & Esh & Efl & Hsec).
  destruct (ho_finished _ _ _ _ _ _ _ HP) as (fl0 & Ef).
  exists L, w, vd, orig, pre, L0, wh, Q, La, T, L0', w', c, o, pre', P, fl0. eexists.
  split; [exact EC|]. split; [exact HQ|]. split; [exact HT|]. split; [exact ES|]. split; [exact HP|]. split; [exact Esh|]. split; [exact Efl|].
  split; [rewrite <- Efl; exact Ef|]. split; [reflexivity|]. intros Eo NC. destruct HQ as (EL & HQ).
  assert (Hokq : hash_ok (q_hash Q)) by (eapply (ko_hash k Hk), HQ). assert (Hokp : hash_ok (p_hash P)) by (eapply (eo_hash e He), HP).
  assert (Hw : hs_wire (MFinished (Some vd)) orig).
  { eapply client_received; [exact Hrc|]. rewrite EC. apply in_or_app. left. apply in_or_app. right. left. reflexivity. }
  apply finished_wire in Hw. rewrite Hvd, vd_len in Hw by exact Hokq. rewrite Hw in Eo. apply app_inv_head in Eo.
  apply app_inj_len in Eo; [|rewrite !be_blen; reflexivity]. destruct Eo as (E1 & E2). apply be_inj in E1; [|apply small_len, Hokq|apply small_len, Hokp].
  destruct (agreement k e lc sc _ ls ss _ wh Q (L0, L0') w' c o cs P (str "s hs traffic") T (p_Tsh P ++ fl0) Hk He Hsf Hrc Hrs Hty) as (HA & ETT); try assumption.
  - eexists. rewrite EC, EL. cbn [fst]. rewrite <- !app_assoc. cbn [app]. reflexivity.
  - eexists. rewrite ES. cbn [snd]. rewrite <- !app_assoc. cbn [app]. reflexivity.
  - split; [exact HA|]. assert (Etsf : T ++ orig = p_Tsf P).
    { rewrite Hw, E1, E2, ETT. unfold p_Tsf. rewrite Ef. unfold p_Tsh. rewrite <- !app_assoc. reflexivity. }
    split; [exact Etsf|]. split; [exact Hsec|]. exists (csecret_of Q (T ++ orig) Tcf KResumption 0). rewrite Epre. cbn [map]. unfold csecret_of, capp_traffic, secret_of, app_traffic.
    rewrite Etsf, (ag_hash _ _ HA), (ag_psk _ _ HA), (ag_dh _ _ HA). reflexivity.
Qed.
(** [c0] in [csc] is the client's Finished flight, with the Finished message [fin]; the server reports success right after the Finished
    message [orig].  If they are the same message, and nothing hashed for it collides, then both agree on the parameters and on the whole
    transcript, and the client's resumption secret is the server's. *)
Theorem C68_server k e lc sc C1 csc C2 c0 ls ss S1 S2 : cenv_ok k -> env_ok e -> same_functions k e ->
  creach k lc sc (C1 ++ CEmit (KWrite csc) :: C2) -> In c0 csc -> ct_type c0 = 22 -> ct_level c0 = LvHandshake ->
  reach e ls ss (S1 ++ Emit OSuccess :: S2) -> typed e (S1 ++ Emit OSuccess :: S2) ->
  exists L w vd o pre L0 wh Q La T x fin Ls w' vd' orig pre' P Las,
    C1 = L ++ CRecv w (EvHandshake (MFinished (Some vd)) o) :: map CEmit pre /\ cparts k L L0 wh Q La /\ ctrans (q_hash Q) L (q_hs Q) T /\
    concat (map ct_plain (filter is_hs csc)) = x ++ fin /\ fin = finished_message (q_hash Q) (verify_data (q_hash Q) (q_chs Q) (T ++ o ++ x)) /\
    S1 = Ls ++ Recv w' (EvHandshake (MFinished vd') orig) :: map Emit pre' /\ handshake e Ls P Las /\
    (orig = fin ->
     no_collision (q_hash Q) (q_hashed Q (str "c hs traffic") (T ++ o ++ x) ++ p_hashed P (str "c hs traffic") (p_Tsf P ++ client_msgs Las)) ->
     agree Q P /\ T ++ o ++ x = p_Tsf P ++ client_msgs Las /\
     In (KSecret KResumption (DeriveSecret (p_hash P) (MasterSecret (p_hash P) (p_psk P) (p_dh P)) (str "res master")
       (h_fn (p_hash P) (p_Tsf P ++ client_msgs Las ++ orig)))) pre).
Proof.
  intros Hk He Hsf Hrc Hin Ht Hl Hrs Hty.
  destruct (C58_flight _ _ _ _ _ _ _ Hk Hrc Hin Ht Hl) as (L & w & vd & o & pre & L0 & wh & Q & La & w0 & cn & T & n & EC & HQ & _ & HT & _ & Hfl & _ & Tcf & _ & ETcf & Epre).
  destruct (C34_success _ _ _ _ _ He Hrs) as (Ls & w' & vd' & orig & pre' & P & Las & ES & HP & Hvd & _).
  destruct Hfl as (ccs & eoc & ct & eo & au & fin & Ecs & Hccs & Heo & _ & Efin & Ht' & Hl' & Epl & _).
  assert (Hokq : hash_ok (q_hash Q)) by (eapply (ko_hash k Hk), (proj2 HQ)).
  assert (Econ : concat (map ct_plain (filter is_hs csc)) = (eo ++ au) ++ fin).
  { rewrite Ecs, !filter_app. assert (filter is_hs ccs = []) as ->.
    { clear -Hccs. induction ccs as [|a l IH]; [reflexivity|]. cbn [filter]. unfold is_hs at 1. rewrite (Hccs a) by (left; reflexivity).
      change (20 =? 22) with false. apply IH. intros; apply Hccs; right; assumption. }
    cbn [app filter]. unfold is_hs at 2. rewrite Ht', N.eqb_refl, map_app, concat_app. cbn [map concat]. rewrite app_nil_r, Epl, <- app_assoc. f_equal.
    destruct Heo as [(_ & _ & _ & c1 & -> & E1 & _ & E2)|(-> & -> & _)]; [|reflexivity]. cbn [filter]. unfold is_hs. rewrite E1, N.eqb_refl. cbn [map concat]. rewrite app_nil_r. exact E2. }
  assert (Efin' : fin = finished_message (q_hash Q) (verify_data (q_hash Q) (q_chs Q) (T ++ o ++ eo ++ au))).
  { destruct (encoded_message _ _ Efin) as (body & Eb & _ & ->). cbn [encode_body] in Eb. assert (body = verify_data (q_hash Q) (q_chs Q) ((T ++ o) ++ eo ++ au)) by congruence. subst body.
    rewrite vd_len by exact Hokq. rewrite <- app_assoc. reflexivity. }
  exists L, w, vd, o, pre, L0, wh, Q, La, T, (eo ++ au), fin, Ls, w', vd', orig, pre', P, Las.
  split; [exact EC|]. split; [exact HQ|]. split; [exact HT|]. split; [exact Econ|]. split; [exact Efin'|]. split; [exact ES|]. split; [exact HP|]. intros Eo NC.
  destruct HQ as (EL & HQ). destruct HP as (L0' & wf & c & oc & prs & cs & ELs & HP).
  assert (Hokp : hash_ok (p_hash P)) by (eapply (eo_hash e He), HP).
  assert (Hw : hs_wire (MFinished vd') orig).
  { eapply server_received; [exact Hrs|]. rewrite ES. apply in_or_app. left. apply in_or_app. right. left. reflexivity. }
  rewrite Hvd in Hw. apply finished_wire in Hw. rewrite vd_len in Hw by exact Hokp. pose proof Eo as Eo'. rewrite Hw, Efin' in Eo'. apply app_inv_head in Eo'.
  apply app_inj_len in Eo'; [|rewrite !be_blen; reflexivity]. destruct Eo' as (E1 & E2). apply be_inj in E1; [|apply small_len, Hokp|apply small_len, Hokq].
  destruct (agreement k e lc sc _ ls ss _ wh Q (L0, L0') wf c oc cs P (str "c hs traffic") (T ++ o ++ eo ++ au) (p_Tsf P ++ client_msgs Las) Hk He Hsf Hrc Hrs Hty) as (HA & ETT); try assumption.
  - eexists. rewrite EC, EL. cbn [fst]. rewrite <- !app_assoc. cbn [app]. reflexivity.
  - eexists. rewrite ES, ELs. cbn [snd]. rewrite <- !app_assoc. cbn [app]. reflexivity.
  - symmetry. exact E1.
  - symmetry. exact E2.
  - split; [exact HA|]. split; [exact ETT|]. rewrite Epre. right. right. right. left. unfold csecret_of. cbv zeta. rewrite ETcf, Econ, Eo.
    assert (T ++ o ++ (eo ++ au) ++ fin = p_Tsf P ++ client_msgs Las ++ fin) as -> by (rewrite !app_assoc in *; rewrite ETT; reflexivity).
    rewrite (ag_hash _ _ HA), (ag_psk _ _ HA), (ag_dh _ _ HA). reflexivity.
Qed.
