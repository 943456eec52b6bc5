(** * Concrete server connections: the hypotheses of C34 to C41 and C59 to C61 are met *)
From Verif Require Import Base Codec CodecSpec Str Hkdf HkdfSpec HkdfProofs KeySched KeySchedSpec KeySchedProofs Handshake HandshakeSpec Extensions
  ExtensionsSpec ExtensionsProofs RecordBase Record RecordRT
  ReadEvent HelloChecks Cookie Token Negotiate Ticket Kex Hpke Transcript IOBufUtil PropsIOBuf PropsKeys PropsCookie
  EchConfirm Server ServerSpec ServerFacts ServerSteps ServerSpec2.
Open Scope N_scope.

(** ** A toy environment *)
(** A hash that depends on all of its input. *)
Definition tx_four (x : N) : bytes := be 8 x ++ be 8 x ++ be 8 x ++ be 8 x.
Definition tx_fn (m : bytes) : bytes := tx_four (fold_left (fun a b => N.land (a * 65599 + b2n b + 1) 0xffffffffffffffff) m 7).
Definition tx_hash : hashalg := mkHash 32 64 tx_fn (tx_four 7).
Lemma tx_hash_ok : hash_ok tx_hash.
Proof. split; try (vm_compute; (reflexivity || discriminate)). Qed.
(** An AEAD whose tag depends on key, IV, nonce and associated data. *)
Definition tx_tag (k iv : bytes) (ad : option bytes) (n : N) : bytes :=
  be 8 (unbe k + 3 * unbe iv + n) ++ be 8 (match ad with Some a => 1 + unbe a | None => 0 end).
Definition tx_aead (k iv : bytes) : res aead := Ok (mkAead 16
  (fun p ad n => Ok (p ++ tx_tag k iv ad n))
  (fun c ad n => match take (blen c - 16) c with
                 | Some (p, t) => Ok (if bytes_eqb t (tx_tag k iv ad n) then Some [p] else None)
                 | None => Ok None end)).
Definition tx_cert (n : N) : cert := mkCertObj (be 2 n) None.
Definition tx_sign (key scheme : N) (m : bytes) : bytes := be 2 key ++ be 2 scheme ++ m.
Definition tx_entry (n : N) : CertificateEntry := mkCE (Some (be 2 n)) [].
Definition tx_self : selfobj := mkSelf (tx_cert 1) (Ok (Handshake.mkCert (Some []) [tx_entry 1])) (fun _ => Err EThrow)
  (fun scheme _ m => Ok (tx_sign 1 scheme m)) None.
Definition tx_peer (x : CertificateEntry) (leaf : bool) : res peercert :=
  match ce_data x with
  | Some d => Ok (mkPeer (mkCertObj d None) (fun scheme c m sg => if bytes_eqb sg (tx_sign (unbe d) scheme m) then Ok tt else Err EThrow))
  | None => Err EThrow
  end.
Definition tx_env (auth : authmode) : env := mkEnv [772] [[4867]; [4865]] [29; 23] [1; 0] [1027] [str "h2"] AlpnOptional auth false
  true false (-10)%Z 10%Z 1000 false true [] (fun _ => Ok tx_hash) (fun _ => Ok (16, 12, tx_aead)) tx_peer None (Ok []) None true true false None None
  (fun _ _ _ => Ok (Some (tx_self, 1027))).
Definition tx_secret : bytes := be 32 77.
Definition tx_ticket : resstate := mkRS 772 4867 (Some tx_secret) (Some (tx_cert 1)) (Some (tx_cert 9)) (Some (str "h2")) 5 1000000%Z None 1000%Z.
Definition tx_world (now : Z) : world := mkWorld now now (Ok (be 32 4)) (Ok 7)
  (fun id => Ok (PskResumption, if bytes_eqb id (str "ticket") then Some tx_ticket else None))
  (fun _ => Ok (Some (str "new", 60))) (fun _ => Ok RNotReplay) (fun g b => Ok (be 4 g, be 4 (unbe b + g))) (fun _ => true).
Lemma tx_env_ok auth : env_ok (tx_env auth).
Proof.
  split; cbn [tx_env e_hash e_aead e_versions e_groups].
  - intros c h [= <-]. apply tx_hash_ok.
  - intros c kl il mk [= <- <- <-]. split; discriminate.
  - repeat constructor.
  - repeat constructor.
Qed.

(** ** A scripted client, which looks at the log of the server *)
Definition tx_step : Type := list entry -> world * input.
Fixpoint script (e : env) (s : sstate) (log : list entry) (l : list tx_step) : list (world * input) * sstate * list entry :=
  match l with
  | [] => ([], s, log)
  | f :: r => let '(w, i) := f log in let '(s1, o1) := sstep e w s i in
              let '(is, s2, log2) := script e s1 (log ++ received w s i ++ map Emit o1) r in ((w, i) :: is, s2, log2)
  end.
Lemma script_slog e : forall l s log is s2 log2, script e s log l = (is, s2, log2) -> exists L, slog e s is = (s2, L) /\ log2 = log ++ L.
Proof.
  induction l as [|f l IH]; intros s log is s2 log2 H; cbn [script] in H.
  - injection H as <- <- <-. exists []. split; [reflexivity|rewrite app_nil_r; reflexivity].
  - destruct (f log) as [w i]. destruct (sstep e w s i) as [s1 o1] eqn:E1. destruct (script e s1 _ l) as [[is' s2'] log2'] eqn:E2. injection H as <- <- <-.
    destruct (IH _ _ _ _ _ E2) as (L & A & ->). exists (received w s i ++ map Emit o1 ++ L). cbn [slog]. rewrite E1, A, <- !app_assoc. auto.
Qed.
Lemma script_reach e l is s log : script e s_init [] l = (is, s, log) -> reach e is s log.
Proof. intros H. destruct (script_slog _ _ _ _ _ _ _ H) as (L & A & ->). exact A. Qed.
(** The last secret of a kind the server exported. *)
Definition last_secret (k : secretkind) (log : list entry) : bytes :=
  fold_left (fun b x => match x with Emit (OSecret' _ y) => if is_secret k x then y else b | _ => b end) log [].
(** The handshake messages so far (without HelloRetryRequest). *)
Definition tx_transcript (log : list entry) : bytes :=
  flat_map (fun x => match x with Recv _ (EvHandshake _ o) => o | Emit (OWrite cs) => concat (map ct_plain (filter is_hs cs)) | _ => [] end) log.
Definition tx_seal (secret : bytes) (seq ty : N) (m : bytes) : bytes :=
  match tx_aead (ExpandLabel tx_hash secret (str "key") [] 16) (ExpandLabel tx_hash secret (str "iv") [] 12) with
  | Ok a => match enc_write ty (mkW seq true kMaxPlaintextRecordSize (PConst 0) a) [m] with (_, _, Ok d) => d | _ => [] end
  | Err _ => []
  end.
Definition tx_enc (m : hsmsg) : bytes := match encodeHandshake m with Ok b => b | Err _ => [] end.
Definition tx_plain (m : bytes) : bytes := match plain_write (mkMsg 22 m) with Ok (Some b) => b | _ => [] end.
Definition tx_w : world := tx_world 2000000.
Definition say (i : input) : tx_step := fun _ => (tx_w, i).
Definition send (k : secretkind) (seq ty : N) (m : list entry -> bytes) : tx_step :=
  fun log => (tx_w, ISocket (tx_seal (last_secret k log) seq ty (m log))).
Definition tx_hello (groups : list N) (shares : list (N * buf)) (extra : list tyext) (binders : list tyext) : ClientHello :=
  mkCH 771 (be 32 3) (Some (be 8 1)) [4865; 4867] [0]
    (map ex_ext ([XSupportedVersions [771; 772]; XSupportedGroups groups; XClientKeyShare shares; XSignatureAlgorithms [1027];
                  XProtocolNameList [Some (str "h3"); Some (str "h2")]; XPskKeyExchangeModes [1]] ++ extra ++ binders)).
Definition tx_h0 : ClientHello := tx_hello [23; 29] [(29, Some [x09])] [] [].
Definition m_finished (log : list entry) : bytes := tx_enc (MFinished (Some (verify_data tx_hash (last_secret SkClientHs log) (tx_transcript log)))).

(** ** A full handshake with a client certificate, data, key updates in both directions, and a close *)
Definition m_certificate (_ : list entry) : bytes := tx_enc (MCertificate (Handshake.mkCert (Some []) [tx_entry 6; tx_entry 7])).
Definition m_verify (log : list entry) : bytes :=
  tx_enc (MCertificateVerify (mkCV 1027 (Some (tx_sign 6 1027 (h_fn tx_hash (tx_transcript log)))))).
Definition run_full : list tx_step :=
  [say IAccept; say (ISocket (takeN 20 (tx_plain (tx_enc (MClientHello tx_h0))))); say (ISocket (tx_plain (tx_enc (MClientHello tx_h0))));
   send SkClientHs 0 22 m_certificate; send SkClientHs 1 22 m_verify; send SkClientHs 2 22 m_finished;
   send SkClientApp 0 23 (fun _ => str "hello"); say (IAppWrite [str "wor"; str "ld"]);
   send SkClientApp 1 22 (fun _ => tx_enc (MKeyUpdate 1)); send SkClientApp 0 23 (fun _ => str "again"); say (INewTicket None); say (IKeyUpdate 0);
   send SkClientApp 1 21 (fun _ => be 1 1 ++ be 1 0)].
Definition shape (x : entry) : N :=
  match x with
  | Recv _ (EvHandshake m _) => hs_type m
  | Recv _ (EvAppData _) => 100 | Recv _ _ => 101
  | Emit (OWrite cs) => 200 + N.of_nat (length cs)
  | Emit (ODeliver _) => 110 | Emit OSuccess => 111 | Emit OEarlySuccess => 112 | Emit (OError (Some a)) => 300 + a | Emit (OError None) => 300
  | Emit (OSecret' SkEarly _) => 121 | Emit (OSecret' SkClientHs _) => 122 | Emit (OSecret' SkServerHs _) => 123
  | Emit (OSecret' SkClientApp _) => 124 | Emit (OSecret' SkServerApp _) => 125
  | Emit (OEndOfData _) => 113 | Emit (OFallback _ _) => 114 | Emit (OWait _) => 115
  end.
Definition shapes (auth : authmode) (l : list tx_step) : list N := map shape (snd (script (tx_env auth) s_init [] l)).
(** ** A HelloRetryRequest *)
Definition tx_h1 : ClientHello := tx_hello [23; 29] [(23, Some [x09])] [] [].
Definition tx_retry (log : list entry) : bytes :=   (* the transcript after the retry *)
  let ch1 := tx_enc (MClientHello tx_h1) in
  let hrr := flat_map (fun x => match x with Emit (OWrite cs) => match filter is_hs cs with [c] => ct_plain c | _ => [] end | _ => [] end) log in
  message_hash (h_fn tx_hash ch1) ++ hrr ++ dropN (blen (ch1 ++ hrr)) (tx_transcript log).
Definition run_retry : list tx_step :=
  [say IAccept; say (ISocket (tx_plain (tx_enc (MClientHello tx_h1)))); say (ISocket (tx_plain (tx_enc (MClientHello tx_h0))));
   send SkClientHs 0 22 (fun log => tx_enc (MFinished (Some (verify_data tx_hash (last_secret SkClientHs log) (tx_retry log)))));
   send SkClientApp 0 23 (fun _ => str "hello"); send SkClientApp 0 23 (fun _ => str "replayed"); say (IAppWrite [str "more"])].
(** ** Resumption with early data *)
Definition tx_h2 (binder : bytes) : ClientHello :=
  tx_hello [23; 29] [(29, Some [x09])] [XClientEarlyData] [XClientPresharedKey ([(Some (str "ticket"), 6)], [Some binder])].
Definition tx_binder : bytes :=
  let m := tx_enc (MClientHello (tx_h2 (be 32 0))) in
  verify_data tx_hash (binder_key tx_hash PskResumption tx_secret) (takeN (blen m - 35) m).
Definition run_early : list tx_step :=
  [say IAccept; say (ISocket (tx_plain (tx_enc (MClientHello (tx_h2 tx_binder)))));
   send SkEarly 0 23 (fun _ => str "early"); say (IAppWrite [str "half"]); send SkEarly 1 22 (fun _ => tx_enc MEndOfEarlyData);
   send SkClientHs 0 22 m_finished; send SkClientApp 0 23 (fun _ => str "hello"); say IAppClose; send SkClientApp 1 21 (fun _ => be 1 1 ++ be 1 0)].
(** ** Without the right key nothing is accepted *)
Definition run_wrong : list tx_step :=
  [say IAccept; say (ISocket (tx_plain (tx_enc (MClientHello tx_h0))));
   send SkClientHs 0 22 (fun log => tx_enc (MFinished (Some (verify_data tx_hash (last_secret SkServerHs log) (tx_transcript log)))));
   say (IAppWrite [str "x"])].

(** ** The hypotheses of the theorems are met *)
Definition shapes_of (auth : authmode) (l : list tx_step) (n : list N) : Prop :=
  exists is s log, reach (tx_env auth) is s log /\ map shape log = n.
Lemma shapes_reach auth l n : shapes auth l = n -> shapes_of auth l n.
Proof.
  unfold shapes. destruct (script (tx_env auth) s_init [] l) as [[is s] log] eqn:E. cbn [snd]. intros H.
  exists is, s, log. split; [eapply script_reach; exact E|exact H].
Qed.
Lemma shape_at auth l a x b : shapes_of auth l (a ++ x :: b) ->
  exists is s L1 y L2, env_ok (tx_env auth) /\ reach (tx_env auth) is s (L1 ++ y :: L2) /\ map shape L1 = a /\ shape y = x /\ map shape L2 = b.
Proof.
  intros (is & s & log & Hr & Hm). apply map_eq_app in Hm. destruct Hm as (L1 & L2 & -> & A & B). destruct L2 as [|y L2]; [discriminate|].
  injection B as B1 B2. exists is, s, L1, y, L2. split; [apply tx_env_ok|]. auto.
Qed.
Example C34_nonvacuous : shapes_of AuthRequired run_full
  [115; 1; 122; 123; 125; 203; 11; 15; 20; 124; 201; 111; 100; 110; 201; 24; 125; 124; 201; 100; 110; 201; 125; 201; 101; 201; 113].
Proof. apply shapes_reach. vm_compute. reflexivity. Qed.
Example C36_nonvacuous : shapes_of AuthRequired run_early
  [1; 121; 122; 123; 125; 203; 112; 100; 110; 201; 5; 20; 124; 201; 111; 100; 110; 201; 101; 113].
Proof. apply shapes_reach. vm_compute. reflexivity. Qed.
Example C37_nonvacuous : shapes_of AuthNone run_retry [1; 202; 1; 122; 123; 125; 203; 20; 124; 201; 111; 100; 110; 201; 350].
Proof. apply shapes_reach. vm_compute. reflexivity. Qed.
Example C34_wrong_finished : shapes_of AuthNone run_wrong [1; 122; 123; 125; 203; 20; 300].
Proof. apply shapes_reach. vm_compute. reflexivity. Qed.
Lemma entry_met auth l (f : entry -> bool) : existsb f (snd (script (tx_env auth) s_init [] l)) = true ->
  exists is s L1 y L2, env_ok (tx_env auth) /\ reach (tx_env auth) is s (L1 ++ y :: L2) /\ f y = true.
Proof.
  destruct (script (tx_env auth) s_init [] l) as [[is s] log] eqn:E. cbn [snd]. intros H. apply existsb_exists in H. destruct H as (y & Hin & Hy).
  apply in_split in Hin. destruct Hin as (L1 & L2 & ->). exists is, s, L1, y, L2. split; [apply tx_env_ok|]. split; [eapply script_reach; exact E|exact Hy].
Qed.
Example C34_success_met : exists l s L1 L2, env_ok (tx_env AuthRequired) /\ reach (tx_env AuthRequired) l s (L1 ++ Emit OSuccess :: L2).
Proof.
  destruct (entry_met AuthRequired run_full (fun y => match y with Emit OSuccess => true | _ => false end)) as (l & s & L1 & y & L2 & A & B & C); [vm_compute; reflexivity|].
  destruct y as [|[]]; try discriminate C. eauto 8.
Qed.
Example C34_deliver_met : exists l s L1 L2, env_ok (tx_env AuthRequired) /\ reach (tx_env AuthRequired) l s (L1 ++ Emit (ODeliver (str "again")) :: L2).
Proof.
  destruct (entry_met AuthRequired run_full (fun y => match y with Emit (ODeliver d) => bytes_eqb d (str "again") | _ => false end)) as (l & s & L1 & y & L2 & A & B & C); [vm_compute; reflexivity|].
  destruct y as [|[]]; try discriminate C. apply bytes_eqb_eq in C. subst. eauto 8.
Qed.
Example C35_met : exists l s log, env_ok (tx_env AuthRequired) /\ reach (tx_env AuthRequired) l s log /\ s_state s = SAcceptingData /\
  s_clientCert s = Some (tx_cert 6).
Proof.
  assert (H : match script (tx_env AuthRequired) s_init [] (firstn 10 run_full) with (_, s, _) =>
    match s_state s, s_clientCert s with SAcceptingData, Some c => bytes_eqb (c_ident c) (be 2 6) && match c_der c with None => true | _ => false end | _, _ => false end end = true)
    by (vm_compute; reflexivity).
  destruct (script (tx_env AuthRequired) s_init [] (firstn 10 run_full)) as [[is s] log] eqn:E. exists is, s, log. split; [apply tx_env_ok|].
  split; [eapply script_reach; exact E|]. destruct (s_state s); try discriminate H. split; [reflexivity|]. destruct (s_clientCert s) as [[a b]|]; [|discriminate H].
  apply andb_true_iff in H. destruct H as [H1 H2]. cbn in H1, H2. apply bytes_eqb_eq in H1. destruct b; [discriminate|]. subst. reflexivity.
Qed.
Example C36_met : exists l s L1 L2, env_ok (tx_env AuthRequired) /\ reach (tx_env AuthRequired) l s (L1 ++ Emit OEarlySuccess :: L2).
Proof.
  destruct (entry_met AuthRequired run_early (fun y => match y with Emit OEarlySuccess => true | _ => false end)) as (l & s & L1 & y & L2 & A & B & C); [vm_compute; reflexivity|].
  destruct y as [|[]]; try discriminate C. eauto 8.
Qed.
Definition level_is (l : level) (c : content) : bool := match l, ct_level c with LvPlaintext, LvPlaintext | LvHandshake, LvHandshake => true | _, _ => false end.
Definition is_flight (y : entry) : bool :=
  match y with Emit (OWrite cs) => match filter is_hs cs with [c1; c2] => level_is LvPlaintext c1 && level_is LvHandshake c2 | _ => false end | _ => false end.
Definition is_retry (y : entry) : bool :=
  match y with Emit (OWrite cs) => match filter is_hs cs with [c1] => level_is LvPlaintext c1 | _ => false end | _ => false end.
Example C37_met : exists l s L1 cs1 b L2 cs2 sh fl L3, env_ok (tx_env AuthNone) /\
  reach (tx_env AuthNone) l s (L1 ++ Emit (OWrite cs1) :: L2 ++ Emit (OWrite cs2) :: L3) /\ retry_request cs1 b /\ flight cs2 sh fl.
Proof.
  assert (H : match snd (script (tx_env AuthNone) s_init [] run_retry) with
    _ :: y1 :: _ :: _ :: _ :: _ :: y2 :: _ => is_retry y1 && is_flight y2 | _ => false end = true) by (vm_compute; reflexivity).
  destruct (script (tx_env AuthNone) s_init [] run_retry) as [[is s] log] eqn:E. cbn [snd] in H.
  destruct log as [|a1 [|y1 [|a2 [|a3 [|a4 [|a5 [|y2 L3]]]]]]]; try discriminate H. apply andb_true_iff in H. destruct H as [H1 H2].
  unfold is_retry in H1. unfold is_flight in H2. destruct y1 as [|[cs1| | | | | | | |]]; try discriminate H1. destruct y2 as [|[cs2| | | | | | | |]]; try discriminate H2.
  destruct (filter is_hs cs1) as [|c1 [|]] eqn:F1; try discriminate H1. destruct (filter is_hs cs2) as [|d1 [|d2 [|]]] eqn:F2; try discriminate H2.
  apply andb_true_iff in H2. destruct H2 as [H2 H3]. unfold level_is in *.
  destruct (ct_level c1) eqn:V1; try discriminate H1. destruct (ct_level d1) eqn:V2; try discriminate H2. destruct (ct_level d2) eqn:V3; try discriminate H3.
  exists is, s, [a1], cs1, (ct_plain c1), [a2; a3; a4; a5], cs2, (ct_plain d1), (ct_plain d2), L3.
  split; [apply tx_env_ok|]. split; [eapply script_reach; exact E|]. split; [exists c1; auto|]. exists d1, d2. auto 8.
Qed.
Example C39_error_met : exists l s L1 c L2, env_ok (tx_env AuthNone) /\ reach (tx_env AuthNone) l s (L1 ++ Emit (OWrite [c]) :: Emit (OError (Some 50)) :: L2) /\ ct_type c = 21.
Proof.
  assert (H : match rev (snd (script (tx_env AuthNone) s_init [] run_retry)) with
    Emit (OError (Some a)) :: Emit (OWrite [c]) :: _ => (a =? 50) && (ct_type c =? 21) | _ => false end = true) by (vm_compute; reflexivity).
  destruct (script (tx_env AuthNone) s_init [] run_retry) as [[is s] log] eqn:E. cbn [snd] in H. rewrite <- (rev_involutive log) in E.
  destruct (rev log) as [|[|[| | | |[a|]| | | |]] [|[|[[|c [|]]| | | | | | | |]] r]]; try discriminate H. apply andb_true_iff in H. destruct H as [H1 H2].
  apply N.eqb_eq in H1, H2. subst a. cbn [rev] in E. rewrite <- app_assoc in E. exists is, s, (rev r), c, []. split; [apply tx_env_ok|]. split; [|exact H2].
  eapply script_reach. exact E.
Qed.
Example C41_key_update_met : exists l s L1 w o L2, env_ok (tx_env AuthRequired) /\ reach (tx_env AuthRequired) l s (L1 ++ Recv w (EvHandshake (MKeyUpdate 1) o) :: L2).
Proof.
  destruct (entry_met AuthRequired run_full (fun y => match y with Recv _ (EvHandshake (MKeyUpdate q) _) => q =? 1 | _ => false end)) as (l & s & L1 & y & L2 & A & B & C); [vm_compute; reflexivity|].
  destruct y as [w [m o| | |]|]; try discriminate C. destruct m; try discriminate C. apply N.eqb_eq in C. subst. exists l, s, L1, w, o, L2. auto.
Qed.

(** *** C59 to C61 *)
(** The flight and the HelloRetryRequest of [C37_met] also meet the hypotheses of [C59_flight] and [C59_retry]; the state of [C35_met] those of [C60_reports]. *)
Example C59_early_met : exists l s L1 cs sh fl L2, env_ok (tx_env AuthRequired) /\ reach (tx_env AuthRequired) l s (L1 ++ Emit (OWrite cs) :: Emit OEarlySuccess :: L2) /\ flight cs sh fl.
Proof.
  assert (H : match snd (script (tx_env AuthRequired) s_init [] run_early) with
    _ :: _ :: _ :: _ :: _ :: y :: Emit OEarlySuccess :: _ => is_flight y | _ => false end = true) by (vm_compute; reflexivity).
  destruct (script (tx_env AuthRequired) s_init [] run_early) as [[is s] log] eqn:E. cbn [snd] in H.
  destruct log as [|a1 [|a2 [|a3 [|a4 [|a5 [|y [|z L]]]]]]]; try discriminate H. destruct z as [|[]]; try discriminate H.
  unfold is_flight in H. destruct y as [|[cs| | | | | | | |]]; try discriminate H. destruct (filter is_hs cs) as [|d1 [|d2 [|]]] eqn:F; try discriminate H.
  apply andb_true_iff in H. destruct H as [H2 H3]. unfold level_is in *.
  destruct (ct_level d1) eqn:V2; try discriminate H2. destruct (ct_level d2) eqn:V3; try discriminate H3.
  exists is, s, [a1; a2; a3; a4; a5], cs, (ct_plain d1), (ct_plain d2), L.
  split; [apply tx_env_ok|]. split; [eapply script_reach; exact E|]. exists d1, d2. auto 8.
Qed.
Definition tx_fallback : env := mkEnv [772] [[4867]; [4865]] [29; 23] [1; 0] [1027] [str "h2"] AlpnOptional AuthNone true
  true false (-10)%Z 10%Z 1000 false true [] (fun _ => Ok tx_hash) (fun _ => Ok (16, 12, tx_aead)) tx_peer None (Ok []) None true true false None None
  (fun _ _ _ => Ok (Some (tx_self, 1027))).
Lemma tx_fallback_ok : env_ok tx_fallback.
Proof.
  split; cbn [tx_fallback e_hash e_aead e_versions e_groups].
  - intros c h [= <-]. apply tx_hash_ok.
  - intros c kl il mk [= <- <- <-]. split; discriminate.
  - repeat constructor.
  - repeat constructor.
Qed.
Definition tx_old : ClientHello := mkCH 771 (be 32 3) (Some (be 8 1)) [4865; 4867] [0] (map ex_ext [XSupportedVersions [771]; XSupportedGroups [23]]).
Example C59_fallback_met : exists l s L1 d sni L2, env_ok tx_fallback /\ reach tx_fallback l s (L1 ++ Emit (OFallback d sni) :: L2).
Proof.
  assert (H : existsb (fun y => match y with Emit (OFallback _ _) => true | _ => false end)
    (snd (script tx_fallback s_init [] [say IAccept; say (ISocket (tx_plain (tx_enc (MClientHello tx_old))))])) = true) by (vm_compute; reflexivity).
  destruct (script tx_fallback s_init [] _) as [[is s] log] eqn:E. cbn [snd] in H. apply existsb_exists in H. destruct H as (y & Hin & Hy).
  apply in_split in Hin. destruct Hin as (L1 & L2 & ->). destruct y as [|[]]; try discriminate Hy. exists is, s, L1. do 3 eexists.
  split; [apply tx_fallback_ok|]. eapply script_reach. exact E.
Qed.
Example C61_met : exists l s log s' ct nst, env_ok (tx_env AuthRequired) /\ reach (tx_env AuthRequired) l s log /\
  sstep (tx_env AuthRequired) tx_w s (INewTicket None) = (s', [OWrite [ct]]) /\ ct_type ct = 22 /\ ct_level ct = LvAppTraffic /\
  encodeHandshake (MNewSessionTicket nst) = Ok (ct_plain ct).
Proof.
  set (n := mkNST 60 7 (Some []) (Some (str "new")) [ex_ext (XTicketEarlyData 1000)]).
  assert (H : match script (tx_env AuthRequired) s_init [] (firstn 10 run_full) with (_, s, _) =>
    match sstep (tx_env AuthRequired) tx_w s (INewTicket None) with
    | (_, [OWrite [ct]]) => (ct_type ct =? 22) && match ct_level ct with LvAppTraffic => true | _ => false end && bytes_eqb (ct_plain ct) (tx_enc (MNewSessionTicket n))
    | _ => false end end = true) by (vm_compute; reflexivity).
  destruct (script (tx_env AuthRequired) s_init [] (firstn 10 run_full)) as [[is s] log] eqn:E.
  destruct (sstep (tx_env AuthRequired) tx_w s (INewTicket None)) as [s' outs] eqn:E2.
  destruct outs as [|[[|ct [|]]| | | | | | | |] [|]]; try discriminate H. apply andb_true_iff in H. destruct H as [H H3]. apply andb_true_iff in H. destruct H as [H1 H2].
  destruct (ct_level ct) eqn:El; try discriminate H2.
  exists is, s, log, s', ct, n. split; [apply tx_env_ok|]. split; [eapply script_reach; exact E|]. split; [exact E2|]. split; [apply N.eqb_eq, H1|]. split; [exact El|].
  apply bytes_eqb_eq in H3. rewrite H3. vm_compute. reflexivity.
Qed.

(** *** C36: rejected early data *)
Definition tx_replayed : world := mkWorld 2000000 2000000 (Ok (be 32 4)) (Ok 7)
  (fun id => Ok (PskResumption, if bytes_eqb id (str "ticket") then Some tx_ticket else None))
  (fun _ => Ok (Some (str "new", 60))) (fun _ => Ok RMaybeReplay) (fun g b => Ok (be 4 g, be 4 (unbe b + g))) (fun _ => true).
Definition tx_junk : bytes := tx_seal (be 32 5) 0 23 (str "early").
(** The ticket is used but the early data is not: two of its records are skipped, then the handshake goes on. *)
Definition run_rejected : list tx_step :=
  [say IAccept; (fun _ => (tx_replayed, ISocket (tx_plain (tx_enc (MClientHello (tx_h2 tx_binder))))));
   say (ISocket (tx_junk ++ tx_junk)); send SkClientHs 0 22 m_finished; send SkClientApp 0 23 (fun _ => str "hello")].
Example C36_rejected_nonvacuous : shapes_of AuthRequired run_rejected [1; 122; 123; 125; 203; 115; 20; 124; 201; 111; 100; 110].
Proof. apply shapes_reach. vm_compute. reflexivity. Qed.
(** After a retry likewise. *)
Definition tx_h3 : ClientHello := tx_hello [23; 29] [(23, Some [x09])] [XClientEarlyData] [].
Definition run_retry_early : list tx_step :=
  [say IAccept; say (ISocket (tx_plain (tx_enc (MClientHello tx_h3)))); say (ISocket (tx_junk ++ tx_junk));
   say (ISocket (tx_plain (tx_enc (MClientHello tx_h0))))].
Example C36_retry_nonvacuous : shapes_of AuthRequired run_retry_early [1; 202; 115; 1; 122; 123; 125; 203].
Proof. apply shapes_reach. vm_compute. reflexivity. Qed.
(** Without an offer the same records end the connection. *)
Example C36_unexpected_nonvacuous : shapes_of AuthRequired [say IAccept; say (ISocket (tx_plain (tx_enc (MClientHello tx_h0)))); say (ISocket (tx_junk ++ tx_junk))]
  [1; 122; 123; 125; 203; 201; 350].
Proof. apply shapes_reach. vm_compute. reflexivity. Qed.
