(** * Concrete client connections: the hypotheses of C48 to C57 are met *)
From Verif Require Import Base Codec CodecSpec Str Hkdf HkdfSpec HkdfProofs KeySched KeySchedSpec Handshake Extensions RecordBase Record
  ReadEvent HelloChecks Cookie Token Negotiate Ticket PskSer Kex Hpke HpkeUtils Transcript EchConfirm EchCrypt PropsHpke PropsEchCrypt
  Server ServerSpec PropsServerEx Client ClientSpec ClientSteps Joint.
Open Scope N_scope.

(** ** A toy client for the toy server *)
Definition ux_fac : echfac := mkFac (fun _ => tx_hash) (fun _ => Ok toy_alg).
Definition ux_self : selfobj := mkSelf (tx_cert 6) (Ok (Handshake.mkCert (Some []) [tx_entry 6; tx_entry 7])) (fun _ => Err EThrow)
  (fun scheme _ m => Ok (tx_sign 6 scheme m)) None.
Definition ux_env (shares : list N) : cenv := mkCEnv [772] [4865; 4867] [29; 23] shares [1; 0] [1027] [str "h3"; str "h2"] false true false true
  ShWhenNecessary 1000000000000000%Z None [51] [] (fun _ => Err EThrow) (fun _ => Ok tx_hash) (fun _ => Ok (16, 12, tx_aead)) tx_peer ux_fac
  (Some (fun _ _ _ => Ok (Some (ux_self, 1027)))).
Lemma ux_env_ok shares : Forall (fun g => g < 2 ^ 16) shares -> cenv_ok (ux_env shares).
Proof.
  intros H. split; cbn [ux_env k_hash k_aead k_versions k_groups k_shares k_sigSchemes k_pskModes k_decompAlgos].
  - intros c h [= <-]. apply tx_hash_ok.
  - intros c kl il mk [= <- <- <-]. split; discriminate.
  - repeat constructor.
  - repeat constructor.
  - exact H.
  - repeat constructor.
  - repeat constructor.
  - repeat constructor.
Qed.
Definition ux_w : cworld := mkCWorld 2000000 2000000 (Ok (be 32 3)) (Ok (be 32 33)) (Ok (be 32 1))
  (fun g => Ok (mkKex (Ok (be 4 9)) (fun theirs => Ok (be 4 (9 + unbe theirs))) 4)) (fun _ => Ok (toy_dh 3))
  (fun n i => repeat x2a (N.to_nat n)) (fun _ => Err EThrow) (Ok []) (fun _ => Ok tt).
(** The verifier accepts chains whose leaf is certificate 1. *)
Definition ux_verifier (l : list peercert) : res (option cert) :=
  match l with p :: _ => if bytes_eqb (c_ident (pc_cert p)) (be 2 1) then Ok None else Err EThrow | [] => Err EThrow end.
Definition ux_conn (p : option cpsk) (ech : option (list echcfg)) : conn := mkConn (Some ux_verifier) (Some (str "example.com")) p false ech.
Definition ux_psk : cpsk := mkCpsk PskResumption (mkPsk (str "ticket") tx_secret 772 4867 (Some 29) (Some (str "h2")) 5 1000000 90000000000
  (Some (tx_cert 1)) (Some (tx_cert 9)) 1000 1000%Z).
(** The server with Encrypted ClientHello keys, or without. *)
Definition vx_env (auth : authmode) (ech : option decrypter) : env := mkEnv [772] [[4867]; [4865]] [29; 23] [1; 0] [1027] [str "h2"] AlpnOptional auth false
  true false (-10)%Z 10%Z 1000 false true [] (fun _ => Ok tx_hash) (fun _ => Ok (16, 12, tx_aead)) tx_peer None (Ok []) None true true false ech None
  (fun _ _ _ => Ok (Some (tx_self, 1027))).
Definition vx_keys : list (echcfg * kex) := [(toy_cfg, toy_dh 4)].
Definition cshape (x : centry) : N :=
  match x with
  | CCall _ (JConnect _) => 1000 | CCall _ (JAppWrite _) => 1001 | CCall _ (JEarlyAppWrite _) => 1002 | CCall _ (JKeyUpdate _) => 1003
  | CCall _ JAppClose => 1004 | CCall _ _ => 1005
  | CRecv _ (EvHandshake m _) => hs_type m
  | CRecv _ (EvAppData _) => 100 | CRecv _ _ => 101
  | CEmit (KWrite cs) => 200 + N.of_nat (length cs)
  | CEmit (KDeliver _) => 110 | CEmit (KSuccess b) => if b then 118 else 111 | CEmit (KEarlySuccess _) => 112
  | CEmit (KError (Some a)) => 300 + a | CEmit (KError None) => 300
  | CEmit (KSecret (KTraffic SkEarly) _) => 121 | CEmit (KSecret (KTraffic SkClientHs) _) => 122 | CEmit (KSecret (KTraffic SkServerHs) _) => 123
  | CEmit (KSecret (KTraffic SkClientApp) _) => 124 | CEmit (KSecret (KTraffic SkServerApp) _) => 125
  | CEmit (KSecret KEarlyExporter _) => 126 | CEmit (KSecret KExporter _) => 127 | CEmit (KSecret KResumption _) => 128
  | CEmit (KEndOfData _) => 113 | CEmit (KNewPsk _) => 130 | CEmit (KEarlyWriteFailed _) => 131 | CEmit (KEchRetry _ _) => 132 | CEmit (KWait _) => 115
  end.
Definition mc (i : cinput) : move := MClient ux_w i.
Definition ms (i : input) : move := MServer tx_w i.
Definition dc (n : nat) : list move := repeat (DClient ux_w) n.
Definition ds (n : nat) : list move := repeat (DServer tx_w) n.

(** ** A full handshake with a client certificate, data, tickets, key updates in both directions, and a close *)
Definition jx_full : list move :=
  [ms IAccept; mc (JConnect (ux_conn None None))] ++ ds 1 ++ dc 6 ++ ds 4 ++ [mc (JAppWrite [str "hel"; str "lo"])] ++ ds 1 ++
  [ms (IAppWrite [str "world"])] ++ dc 2 ++ [mc (JKeyUpdate 1)] ++ ds 1 ++ dc 1 ++ [ms (IKeyUpdate 1)] ++ dc 1 ++ ds 1 ++ [mc (JAppWrite [str "again"])] ++ ds 1 ++
  [ms (IAppWrite [str "twice"]); ms IAppClose] ++ dc 2 ++ ds 1.
(** ** HelloRetryRequest *)
Definition jx_retry : list move :=
  [ms IAccept; mc (JConnect (ux_conn None None))] ++ ds 1 ++ dc 1 ++ ds 2 ++ dc 6 ++ ds 4 ++ [mc (JAppWrite [str "hel"; str "lo"])] ++ ds 1.
(** ** Resumption with early data *)
Definition jx_early : list move :=
  [ms IAccept; mc (JConnect (ux_conn (Some ux_psk) None)); mc (JEarlyAppWrite [str "early"])] ++ ds 3 ++ dc 6 ++ ds 4 ++ [mc (JAppWrite [str "hel"; str "lo"])] ++ ds 1.
(** ** Encrypted ClientHello: accepted (first hello; after a retry), rejected *)
Definition jx_ech (p : option cpsk) : list move :=
  [ms IAccept; mc (JConnect (ux_conn p (Some [toy_cfg])))] ++ ds 1 ++ dc 1 ++ ds 2 ++ dc 6 ++ ds 4 ++ [mc (JAppWrite [str "hel"; str "lo"])] ++ ds 1.
Definition vx_ech : env := vx_env AuthNone (Some (ech_decrypter ux_fac vx_keys)).
Definition vx_other : env := vx_env AuthNone (Some (ech_decrypter ux_fac [(mkEchCfg 8 32 (Some (be 32 25)) [(1, 1)] 30 (str "public.example") [], toy_dh 5)])).

(** ** What happens in them *)
Definition jshapes (k : cenv) (e : env) (l : list move) : list N * list N := let j := jrun k e l in (map cshape (j_cl j), map shape (j_sl j)).
Definition cshapes_of (k : cenv) (e : env) (n1 n2 : list N) : Prop :=
  exists l1 s1 log1 l2 s2 log2, creach k l1 s1 log1 /\ reach e l2 s2 log2 /\ map cshape log1 = n1 /\ map shape log2 = n2.
Lemma jshapes_of k e l n1 n2 : jshapes k e l = (n1, n2) -> cshapes_of k e n1 n2.
Proof.
  intros H. destruct (jrun_good k e l) as (A & B). unfold jshapes in H. cbv zeta in H. injection H as H1 H2.
  exists (j_ci (jrun k e l)), (j_c (jrun k e l)), (j_cl (jrun k e l)), (j_si (jrun k e l)), (j_s (jrun k e l)), (j_sl (jrun k e l)). auto.
Qed.
Example C48_nonvacuous : cshapes_of (ux_env [29]) (vx_env AuthRequired None)
  [1000; 201; 2; 123; 122; 8; 13; 11; 15; 20; 125; 124; 127; 128; 202; 111; 1001; 201; 4; 130; 100; 110; 1003; 124; 201; 24; 125; 24; 125;
   124; 201; 1001; 201; 100; 110; 101; 201; 113]
  [1; 122; 123; 125; 203; 11; 15; 20; 124; 201; 111; 115; 100; 110; 201; 24; 125; 124; 201; 125; 201; 24; 124; 100; 110; 201; 201; 101; 113].
Proof. apply (jshapes_of _ _ jx_full). vm_compute. reflexivity. Qed.
Example C50_nonvacuous : cshapes_of (ux_env [23]) (vx_env AuthNone None)
  [1000; 201; 2; 202; 2; 123; 122; 8; 11; 15; 20; 125; 124; 127; 128; 201; 111; 115; 1001; 201]
  [1; 202; 1; 122; 123; 125; 203; 115; 20; 124; 201; 111; 115; 115; 115; 100; 110].
Proof. apply (jshapes_of _ _ jx_retry). vm_compute. reflexivity. Qed.
Example C56_nonvacuous : cshapes_of (ux_env [29]) (vx_env AuthNone None)
  [1000; 201; 121; 112; 126; 1002; 202; 2; 123; 122; 8; 20; 125; 124; 127; 128; 202; 118; 115; 115; 115; 1001; 201]
  [1; 121; 122; 123; 125; 203; 112; 100; 110; 115; 5; 20; 124; 201; 111; 115; 115; 100; 110].
Proof. apply (jshapes_of _ _ jx_early). vm_compute. reflexivity. Qed.
Example C57_nonvacuous : cshapes_of (ux_env [29]) vx_ech
  [1000; 201; 121; 112; 126; 2; 123; 122; 8; 20; 125; 124; 127; 128; 203; 118; 115; 115; 115; 115; 1001; 201]
  [1; 121; 122; 123; 125; 203; 112; 115; 115; 5; 20; 124; 201; 111; 115; 115; 100; 110].
Proof. apply (jshapes_of _ _ (jx_ech (Some ux_psk))). vm_compute. reflexivity. Qed.
Example C57_retry_nonvacuous : cshapes_of (ux_env [23]) vx_ech
  [1000; 201; 2; 202; 2; 123; 122; 8; 11; 15; 20; 125; 124; 127; 128; 201; 111; 115; 1001; 201]
  [1; 202; 1; 122; 123; 125; 203; 115; 20; 124; 201; 111; 115; 115; 115; 100; 110].
Proof. apply (jshapes_of _ _ (jx_ech None)). vm_compute. reflexivity. Qed.
(** Rejected: the client reports the retry configuration (132), completes the handshake (20; 202) and ends with ech_required (300 + 121).
    The alert is sealed under the handshake key although the Finished message before it ended its use, so the server, which has
    changed keys, cannot read it: it ends the connection with decode_error (300 + 50) of its own. *)
Example C57_rejected_nonvacuous : cshapes_of (ux_env [29]) vx_other
  [1000; 201; 2; 123; 122; 8; 132; 11; 15; 20; 125; 124; 127; 128; 202; 201; 421; 300; 300; 1001; 310]
  [1; 122; 123; 125; 203; 115; 115; 20; 124; 201; 111; 201; 350].
Proof. apply (jshapes_of _ _ (jx_ech None)). vm_compute. reflexivity. Qed.

(** ** The hypotheses of the theorems are met *)
Lemma centry_met k e l (f : centry -> bool) : cenv_ok k -> existsb f (j_cl (jrun k e l)) = true ->
  exists is s L1 y L2, cenv_ok k /\ creach k is s (L1 ++ y :: L2) /\ f y = true.
Proof.
  intros Hk H. destruct (jrun_good k e l) as (A & _). destruct (jrun k e l) as [ci c cl c2s si s sl s2c]. cbn [j_ci j_c j_cl] in *.
  apply existsb_exists in H. destruct H as (y & Hin & Hy). apply in_split in Hin. destruct Hin as (L1 & L2 & ->). exists ci, c, L1, y, L2. auto.
Qed.
Lemma ux29 : cenv_ok (ux_env [29]). Proof. apply ux_env_ok. repeat constructor. Qed.
Lemma ux23 : cenv_ok (ux_env [23]). Proof. apply ux_env_ok. repeat constructor. Qed.
Example C48_met : exists l s L1 b L2, cenv_ok (ux_env [29]) /\ creach (ux_env [29]) l s (L1 ++ CEmit (KSuccess b) :: L2).
Proof.
  destruct (centry_met _ (vx_env AuthRequired None) jx_full (fun y => match y with CEmit (KSuccess _) => true | _ => false end) ux29) as (l & s & L1 & y & L2 & A & B & C);
    [vm_compute; reflexivity|].
  destruct y as [| |[]]; try discriminate C. eauto 8.
Qed.
Definition established (s : cstate) : bool := match c_state s with CEstablished => true | _ => false end.
Example C49_met : exists l s log, cenv_ok (ux_env [29]) /\ creach (ux_env [29]) l s log /\ c_state s = CEstablished /\
  match g_server (c_neg s) with Some c => c_ident c = be 2 1 | None => False end /\ g_alpn (c_neg s) = Some (str "h2").
Proof.
  assert (H : match jrun (ux_env [29]) (vx_env AuthRequired None) (firstn 13 jx_full) with mkJoint _ s _ _ _ _ _ _ =>
    established s && match g_server (c_neg s), g_alpn (c_neg s) with Some c, Some a => bytes_eqb (c_ident c) (be 2 1) && bytes_eqb a (str "h2") | _, _ => false end end = true)
    by (vm_compute; reflexivity).
  destruct (jrun_good (ux_env [29]) (vx_env AuthRequired None) (firstn 13 jx_full)) as (A & _). destruct (jrun _ _ _) as [ci c cl c2s si s sl s2c]. cbn [j_ci j_c j_cl] in *.
  exists ci, c, cl. split; [apply ux29|]. split; [exact A|]. apply andb_true_iff in H. destruct H as [H1 H2]. unfold established in H1.
  destruct (c_state c); try discriminate H1. split; [reflexivity|]. destruct (g_server (c_neg c)); [|discriminate]. destruct (g_alpn (c_neg c)); [|discriminate].
  apply andb_true_iff in H2. destruct H2 as [H2 H3]. apply bytes_eqb_eq in H2, H3. subst. auto.
Qed.
Example C51_met : exists l s L1 b L2, cenv_ok (ux_env [29]) /\ creach (ux_env [29]) l s (L1 ++ CEmit (KSecret KResumption b) :: L2).
Proof.
  destruct (centry_met _ (vx_env AuthRequired None) jx_full (fun y => match y with CEmit (KSecret KResumption _) => true | _ => false end) ux29) as (l & s & L1 & y & L2 & A & B & C);
    [vm_compute; reflexivity|].
  destruct y as [| |[| | | | |kd b| | | | |]]; try discriminate C. destruct kd; try discriminate C. eauto 8.
Qed.
Example C52_key_update_met : exists l s L1 w o L2, cenv_ok (ux_env [29]) /\ creach (ux_env [29]) l s (L1 ++ CRecv w (EvHandshake (MKeyUpdate 1) o) :: L2).
Proof.
  destruct (centry_met _ (vx_env AuthRequired None) jx_full (fun y => match y with CRecv _ (EvHandshake (MKeyUpdate q) _) => q =? 1 | _ => false end) ux29)
    as (l & s & L1 & y & L2 & A & B & C); [vm_compute; reflexivity|].
  destruct y as [|w [m o| | |]|]; try discriminate C. destruct m; try discriminate C. apply N.eqb_eq in C. subst. exists l, s, L1, w, o, L2. auto.
Qed.
Example C52_key_update_sent_met : exists l s L1 w req L2, cenv_ok (ux_env [29]) /\ creach (ux_env [29]) l s (L1 ++ CCall w (JKeyUpdate req) :: L2).
Proof.
  destruct (centry_met _ (vx_env AuthRequired None) jx_full (fun y => match y with CCall _ (JKeyUpdate _) => true | _ => false end) ux29)
    as (l & s & L1 & y & L2 & A & B & C); [vm_compute; reflexivity|].
  destruct y as [w []| |]; try discriminate C. eauto 9.
Qed.
Example C53_met : exists l s L1 L2, cenv_ok (ux_env [29]) /\ creach (ux_env [29]) l s (L1 ++ CEmit (KDeliver (str "twice")) :: L2).
Proof.
  destruct (centry_met _ (vx_env AuthRequired None) jx_full (fun y => match y with CEmit (KDeliver d) => bytes_eqb d (str "twice") | _ => false end) ux29)
    as (l & s & L1 & y & L2 & A & B & C); [vm_compute; reflexivity|].
  destruct y as [| |[]]; try discriminate C. apply bytes_eqb_eq in C. subst. eauto 8.
Qed.
Example C54_met : exists l s L1 c L2, cenv_ok (ux_env [29]) /\ creach (ux_env [29]) l s (L1 ++ CEmit (KWrite [c]) :: L2) /\ ct_type c = 21 /\
  exists L3, L2 = CEmit (KError (Some 121)) :: L3.
Proof.
  assert (H : match skipn 15 (j_cl (jrun (ux_env [29]) vx_other (jx_ech None))) with
    CEmit (KWrite [c]) :: CEmit (KError (Some a)) :: _ => (a =? 121) && (ct_type c =? 21) | _ => false end = true) by (vm_compute; reflexivity).
  destruct (jrun_good (ux_env [29]) vx_other (jx_ech None)) as (A & _). destruct (jrun _ _ _) as [ci c cl c2s si s sl s2c]. cbn [j_ci j_c j_cl] in *.
  rewrite <- (firstn_skipn 15 cl) in A. destruct (skipn 15 cl) as [|[| |[[|ct [|]]| | | | | | | | | |]] r]; try discriminate H.
  destruct r as [|[| |[| | | |[a|]| | | | | |]] r]; try discriminate H. apply andb_true_iff in H. destruct H as [H1 H2]. apply N.eqb_eq in H1, H2. subst a.
  exists ci, c, (firstn 15 cl), ct. eexists. split; [apply ux29|]. split; [exact A|]. split; [exact H2|]. eexists. reflexivity.
Qed.

(** ** Data from a server that has not been authenticated *)
(** A client whose verifier refuses every certificate closes its side during the handshake and still delivers data: whoever answered
    its ClientHello (here without presenting any certificate) may send application data under the handshake keys. *)
Definition refusing : conn := mkConn (Some (fun _ => Err EThrow)) (Some (str "example.com")) None false None.
Definition jx_hello : list move := [ms IAccept; mc (JConnect refusing)] ++ ds 1 ++ dc 1.
Definition jx_secret : bytes :=
  fold_left (fun b x => match x with CEmit (KSecret (KTraffic SkServerHs) y) => y | _ => b end) (j_cl (jrun (ux_env [29]) (vx_env AuthNone None) jx_hello)) [].
Definition jx_evil : list move := jx_hello ++ [mc JAppClose; mc (JSocket (tx_seal jx_secret 0 23 (str "evil")))].
Definition authenticated_entry (x : centry) : bool :=
  match x with CRecv _ (EvHandshake (MCertificate _) _) | CRecv _ (EvHandshake (MFinished _) _) | CEmit (KSuccess _) => true | _ => false end.
Lemma jrun_more k e : forall l j, exists L, j_cl (fold_left (jstep k e) l j) = j_cl j ++ L.
Proof.
  induction l as [|m l IH]; intros j; [exists []; rewrite app_nil_r; reflexivity|]. cbn [fold_left]. destruct (IH (jstep k e j m)) as (L & ->).
  assert (H : exists L', j_cl (jstep k e j m) = j_cl j ++ L').
  { destruct m; cbn [jstep]; unfold jclient, jserver;
      try (match goal with |- context [cstep ?a ?b ?c ?d] => destruct (cstep a b c d) end; cbn [j_cl]; eauto);
      match goal with |- context [sstep ?a ?b ?c ?d] => destruct (sstep a b c d) end; cbn [j_cl]; exists []; rewrite app_nil_r; reflexivity. }
  destruct H as (L' & ->). rewrite <- app_assoc. eauto.
Qed.
Lemma jrun_connected k e w cn r : exists L, j_cl (jrun k e (ms IAccept :: MClient w (JConnect cn) :: r)) = CCall w (JConnect cn) :: L.
Proof.
  unfold jrun. cbn [fold_left]. destruct (jrun_more k e r (jstep k e (jstep k e j_init (ms IAccept)) (MClient w (JConnect cn)))) as (L & ->).
  unfold ms. cbn [jstep]. unfold jserver. destruct (sstep e tx_w (j_s j_init) IAccept) as [s' o]. unfold jclient. cbn [j_c j_cl j_init].
  destruct (cstep k w c_init (JConnect cn)) as [s2 o2]. cbn [j_cl]. eexists. reflexivity.
Qed.
Example C53_unauthenticated : exists l s L1 L2, cenv_ok (ux_env [29]) /\ creach (ux_env [29]) l s (L1 ++ CEmit (KDeliver (str "evil")) :: L2) /\
  connected (L1 ++ CEmit (KDeliver (str "evil")) :: L2) ux_w refusing /\ Forall (fun x => authenticated_entry x = false) (L1 ++ CEmit (KDeliver (str "evil")) :: L2).
Proof.
  assert (H : match rev (j_cl (jrun (ux_env [29]) (vx_env AuthNone None) jx_evil)) with
    CEmit (KDeliver d) :: _ => bytes_eqb d (str "evil") | _ => false end = true) by (vm_compute; reflexivity).
  assert (H2 : existsb authenticated_entry (j_cl (jrun (ux_env [29]) (vx_env AuthNone None) jx_evil)) = false) by (vm_compute; reflexivity).
  assert (H3 : exists L, j_cl (jrun (ux_env [29]) (vx_env AuthNone None) jx_evil) = CCall ux_w (JConnect refusing) :: L) by apply jrun_connected.
  destruct (jrun_good (ux_env [29]) (vx_env AuthNone None) jx_evil) as (A & _). destruct (jrun _ _ _) as [ci c cl c2s si s sl s2c]. cbn [j_ci j_c j_cl] in *.
  rewrite <- (rev_involutive cl) in A, H2, H3. destruct (rev cl) as [|[| |[|d| | | | | | | | |]] r]; try discriminate H. apply bytes_eqb_eq in H. subst d.
  cbn [rev] in A, H2, H3. exists ci, c, (rev r), []. split; [apply ux29|]. split; [exact A|]. split; [exact H3|].
  apply Forall_forall. intros x Hx. destruct (authenticated_entry x) eqn:E; [|reflexivity]. exfalso.
  assert (F : existsb authenticated_entry (rev r ++ [CEmit (KDeliver (str "evil"))]) = true) by (apply existsb_exists; eauto). congruence.
Qed.
