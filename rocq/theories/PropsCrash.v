(** * C62: no peer can abort the server *)
From Verif Require Import Base Codec CodecSpec Str Hkdf HkdfSpec HkdfProofs KeySched Handshake Extensions RecordBase Record ReadEvent HelloChecks Cookie
  Token Negotiate Ticket Kex Hpke HpkeUtils EchCrypt Transcript IOBufUtil PropsRecord PropsKeys PropsHpke PropsTicket PropsCookie Server ServerSpec ServerFacts ServerSteps Crash
  Joint ServerCrash CrashParts PropsServerEx PropsEchCrypt PropsClientEx.
Open Scope N_scope.

(** Whatever the peer sends and whenever the application calls, no CHECK fails, no null pointer is followed and no signed arithmetic
    overflows, provided the objects the application supplied keep the promises of [env_safe] and [world_safe]. *)
Theorem C62_no_abort : forall e l s log,
  env_safe e -> Forall (fun p => world_safe (fst p)) l -> reach e l s log -> s_state s <> SCrash.
Proof.
  intros e l s log He Hl Hr. unfold reach in Hr.
  assert (G : forall l s0 s1 L, Forall (fun p => world_safe (fst p)) l -> inv_safe e s0 -> slog e s0 l = (s1, L) -> inv_safe e s1).
  { clear - He. induction l as [|[w i] l IH]; intros s0 s1 L Hl H0 E; cbn [slog] in E; [injection E as <- _; exact H0|]. inversion Hl; subst.
    pose proof (step_safe e He w s0 i) as St. cbn [fst] in *. destruct (sstep e w s0 i) as [s' o]. destruct (slog e s' l) as [s2 L2] eqn:E2. injection E as <- _.
    eapply IH; [eassumption|apply St; assumption|exact E2]. }
  pose proof (G _ _ _ _ Hl (init_safe e) Hr) as (_ & _ & _ & H). intros E. rewrite E in H. exact H.
Qed.

(** The server's own cookie cipher keeps them: any token with a context string, any secrets. *)
Theorem C62_cookie : forall h gcm ctx l t b, hash_ok h -> (forall k iv, opener_safe (gcm k iv)) -> ctx <> [] ->
  setSecrets h (mkToken [] ctx) l = Ok (t, b) ->
  forall c, safe (cookie_decrypt h gcm t c) /\
    forall ck, cookie_decrypt h gcm t c = Ok (Some ck) -> ck_chloHash ck <> None /\ (ck_echSuite ck <> None -> ck_echEnc ck <> None).
Proof.
  intros h gcm ctx l t b Hh Hg Hc E c. destruct (set_len h (mkToken [] ctx) l t b Hh Hc ltac:(constructor) E) as [H _]. split.
  - apply cookie_decrypt_safe; assumption.
  - intros ck. apply cookie_decrypt_set.
Qed.
(** The server's own Encrypted ClientHello decrypter keeps them, for any configurations and keys. *)
Theorem C62_ech : forall fa ps, fac_safe fa -> Forall (fun p => cfg_set (fst p) /\ kex_safe (snd p)) ps -> decrypter_safe (ech_decrypter fa ps).
Proof. exact ech_decrypter_safe. Qed.

(** The server's own ticket cipher: what it opens holds a secret, and an issue time at or after the epoch is near enough. *)
Theorem C62_ticket : forall h gcm mkPeer mkIdent getCert t p now b r,
  ticket_decrypt h gcm mkPeer mkIdent getCert t p now b = Ok (Some r) ->
  rs_secret r <> None /\ forall now2, int64 now2 = true -> (0 <= now2)%Z -> (0 <= rs_issue r)%Z -> int64 (now2 - rs_issue r) = true.
Proof.
  intros h gcm mkPeer mkIdent getCert t p now b r E. unfold ticket_decrypt in E. destruct (bind_Ok _ _ _ E) as ([x|] & _ & K); [|discriminate]. clear E.
  destruct (ticket_decode _ _ _ x) as [r'|] eqn:D; [|destruct e; discriminate]. destruct (bind_Ok _ _ _ K) as (acc & _ & K2). destruct acc; [|discriminate]. injection K2 as ->. clear K.
  unfold ticket_decode in D.
  repeat match goal with H : bind _ _ = Ok _ |- _ => let z := fresh "z" in let Ez := fresh "Ez" in let K := fresh "K" in
    destruct (bind_Ok _ _ _ H) as (z & Ez & K); clear H; try destruct z as [[? ?] ?]; try destruct z as [? ?]; cbv beta iota in K end.
  assert (G : rs_secret r = o /\ rs_issue r = z).
  { destruct l6; [injection K as <-; cbn; auto|]. destruct (bind_Ok _ _ _ K) as ([[app ?] r9] & _ & K3). cbv beta iota in K3. destruct r9; [injection K3 as <-; cbn; auto|].
    destruct (bind_Ok _ _ _ K3) as ([[hs ?] ?] & _ & K4). cbv beta iota in K4. destruct (bind_Ok _ _ _ K4) as (ht & _ & K5). injection K5 as <-. cbn; auto. }
  destruct G as [-> ->]. split; [exact (proj1 (read_buf_some _ _ _ _ _ Ez1))|]. intros now2 H1 H2 H3.
  unfold tp_of_s, chk64 in Ez7. destruct (int64 _) eqn:Ei in Ez7; [|discriminate]. injection Ez7 as Ez7. rewrite Ez7 in Ei. unfold int64 in *.
  apply andb_true_iff in H1, Ei. rewrite Z.leb_le, Z.ltb_lt in H1, Ei. apply andb_true_iff. rewrite Z.leb_le, Z.ltb_lt. lia.
Qed.

(** ** The hypotheses are met *)
Definition tagged (tag : buf -> N -> bytes) : aead := mkAead 16
  (fun p ad n => Ok (p ++ tag ad n))
  (fun c ad n => match take (blen c - 16) c with
                 | Some (p, t) => Ok (if bytes_eqb t (tag ad n) then Some [p] else None)
                 | None => Ok None end).
Lemma tagged_safe tag : aead_safe (tagged tag) /\ opener_safe (tagged tag).
Proof.
  unfold aead_safe, opener_safe, tagged; cbn [ae_enc ae_try]. split; [split|].
  - intros; exact Logic.I.
  - intros c ad n. destruct (take _ _) as [[p t]|]; [|discriminate]. destruct (bytes_eqb _ _); discriminate.
  - intros c ad n. destruct (take _ _) as [[p t]|]; exact Logic.I.
Qed.
Lemma tx_aead_safe k iv a : tx_aead k iv = Ok a -> aead_safe a /\ opener_safe a.
Proof. intros [= <-]. exact (tagged_safe (tx_tag k iv)). Qed.
Lemma vx_env_safe auth ech : (forall d, ech = Some d -> decrypter_safe d) -> env_safe (vx_env auth ech).
Proof.
  intros Hd. constructor; cbn [vx_env e_hash e_aead e_peerCert e_verifier e_verifierExts e_cookie e_ech e_extensions e_getCert]; try (intros; exact Logic.I); try discriminate.
  - split; cbn [vx_env e_hash e_aead e_versions e_groups]; [intros c h [= <-]; apply tx_hash_ok|intros c kl il mk [= <- <- <-]; split; discriminate|repeat constructor|repeat constructor].
  - intros c kl il mk k iv [= <- <- <-]. split; [exact Logic.I|]. intros a Ha. apply (tx_aead_safe _ _ _ Ha).
  - intros x l. unfold tx_peer. destruct (ce_data x); exact Logic.I.
  - intros x l p s c t sig E. unfold tx_peer in E. destruct (ce_data x); [|discriminate]. injection E as <-. cbn. destruct (bytes_eqb _ _); exact Logic.I.
  - intros l [= <-]. constructor.
  - exact Hd.
  - intros n l c so s [= <- _]. constructor; cbn; try (intros; exact Logic.I); try discriminate.
    intros m [= <-]. split; [discriminate|]. repeat constructor. discriminate.
Qed.
Lemma tx_world_safe now : int64 (now - 1000000) = true -> world_safe (tx_world now).
Proof.
  intros Hi. constructor; cbn; try (intros; exact Logic.I). intros b t r. destruct (bytes_eqb _ _); [|discriminate]. intros [= _ <-]. split; [discriminate|exact Hi].
Qed.
Lemma toy_dec_safe : decrypter_safe (ech_decrypter ux_fac vx_keys).
Proof.
  apply C62_ech.
  - constructor; cbn.
    + intros f. apply tx_hash_ok.
    + intros; exact Logic.I.
    + intros c alg k iv [= <-]. exact (tagged_safe toy_tag).
  - repeat constructor.
Qed.
Lemma script_worlds (P : world -> Prop) e : forall l s log is s2 log2, Forall (fun f => forall log, P (fst (f log))) l -> script e s log l = (is, s2, log2) ->
  Forall (fun p => P (fst p)) is.
Proof.
  induction l as [|f l IH]; intros s log is s2 log2 Hl H; cbn [script] in H; [injection H as <- _ _; constructor|]. inversion Hl as [|? ? H1 H2]; subst. specialize (H1 log).
  destruct (f log) as [w i]. destruct (sstep e w s i) as [s1 o1]. destruct (script e s1 _ l) as [[is' s2'] log2'] eqn:E2. injection H as <- <- <-. constructor; [exact H1|]. eapply IH; eassumption.
Qed.
Lemma tx_w_safe : world_safe tx_w. Proof. apply tx_world_safe. reflexivity. Qed.
Lemma say_safe i log : world_safe (fst (say i log)). Proof. exact tx_w_safe. Qed.
Lemma send_safe k q t m log : world_safe (fst (send k q t m log)). Proof. exact tx_w_safe. Qed.
Definition state_after (e : env) (l : list tx_step) : sst := s_state (snd (fst (script e s_init [] l))).
Definition all_safe (l : list (world * input)) : Prop := Forall (fun p => world_safe (fst p)) l.
Lemma safe_script e l st : Forall (fun f => forall log, world_safe (fst (f log))) l -> state_after e l = st ->
  exists is s log, all_safe is /\ reach e is s log /\ s_state s = st.
Proof.
  intros H E. unfold state_after in E. destruct (script e s_init [] l) as [[is s] log] eqn:E2. exists is, s, log. split; [exact (script_worlds _ _ _ _ _ _ _ _ H E2)|].
  split; [exact (script_reach _ _ _ _ _ E2)|exact E].
Qed.
Lemma safe_steps l : Forall (fun f => (exists i, f = say i) \/ exists k q t m, f = send k q t m) l -> Forall (fun f => forall log, world_safe (fst (f log))) l.
Proof. apply Forall_impl. intros f [(i & ->)|(k & q & t & m & ->)] log; [apply say_safe|apply send_safe]. Qed.
Ltac steps := apply safe_steps; repeat (constructor; [first [left; eexists; reflexivity|right; do 4 eexists; reflexivity]|]); constructor.
Lemma tx_env_safe auth : env_safe (tx_env auth). Proof. apply (vx_env_safe auth None). discriminate. Qed.
Example C62_nonvacuous : env_safe (tx_env AuthRequired) /\
  (exists l s log, all_safe l /\ reach (tx_env AuthRequired) l s log /\ s_state s = SClosed) /\
  (exists l s log, all_safe l /\ reach (tx_env AuthRequired) l s log /\ s_state s = SAcceptingEarlyData) /\
  (exists l s log, all_safe l /\ reach (tx_env AuthRequired) l s log /\ s_state s = SError).
Proof.
  split; [apply tx_env_safe|]. split; [|split].
  - apply (safe_script _ run_full); [steps|vm_compute; reflexivity].
  - apply (safe_script _ (firstn 3 run_early)); [steps|vm_compute; reflexivity].
  - apply (safe_script _ run_wrong); [steps|vm_compute; reflexivity].
Qed.
(** A server with the real Encrypted ClientHello decrypter and its keys meets them too. *)
Example C62_ech_nonvacuous : env_safe vx_ech.
Proof. apply vx_env_safe. intros d [= <-]. exact toy_dec_safe. Qed.
Example C62_cookie_nonvacuous : exists t, setSecrets toy_hash (mkToken [] [str "ctx"]) [be 32 1; be 40 2] = Ok (t, true) /\ (forall k iv, opener_safe (toy_gcm k iv)) /\ hash_ok toy_hash.
Proof.
  eexists. split; [vm_compute; reflexivity|]. split; [|exact toy_hash_ok]. intros k iv. exact (proj2 (tagged_safe (fun _ n => be 16 (unbe k + unbe iv + n)))).
Qed.

(** ** Without the promises it does abort: a ticket that decrypts to a state without secret, or with an issue time 2^63 ns away *)
Definition bad_world (r : resstate) : world := mkWorld 2000000 2000000 (Ok (be 32 4)) (Ok 7) (fun _ => Ok (PskResumption, Some r))
  (fun _ => Ok (Some (str "new", 60))) (fun _ => Ok RNotReplay) (fun g b => Ok (be 4 g, be 4 (unbe b + g))) (fun _ => true).
Definition bad_run (r : resstate) : list tx_step := [say IAccept; (fun _ => (bad_world r, ISocket (tx_plain (tx_enc (MClientHello (tx_h2 tx_binder))))))].
Example C62_needs_secret :
  state_after (tx_env AuthNone) (bad_run (mkRS 772 4867 None None None (Some (str "h2")) 5 1000000%Z None 1000%Z)) = SCrash /\
  state_after (tx_env AuthNone) (bad_run (mkRS 772 4867 (Some tx_secret) None None (Some (str "h2")) 5 (- 2 ^ 63)%Z None 1000%Z)) = SCrash.
Proof. split; vm_compute; reflexivity. Qed.

Print Assumptions C62_no_abort.
Print Assumptions C62_cookie.
Print Assumptions C62_ech.
Print Assumptions C62_ticket.
