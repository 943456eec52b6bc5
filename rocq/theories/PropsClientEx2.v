(** * Concrete client connections, continued: the hypotheses of C50 and C55 to C58 are met; what GREASE does to the ClientHello *)
From Verif Require Import Base Codec CodecSpec Str Hkdf HkdfSpec HkdfProofs KeySched KeySchedSpec Handshake Extensions ExtensionsProofs RecordBase Record
  ReadEvent HelloChecks Cookie Token Negotiate Ticket PskSer Kex Hpke HpkeUtils Transcript EchConfirm EchCrypt PropsHpke PropsEchCrypt
  Server ServerSpec PropsServerEx Client ClientSpec ClientHelloSpec ClientSteps Joint PropsClient4 PropsClient6 PropsClient8 PropsClientEx.
Open Scope N_scope.

Lemma centry_at k e l n (f : list centry -> centry -> list centry -> bool) : cenv_ok k ->
  (let cl := j_cl (jrun k e l) in match skipn n cl with y :: r => f (firstn n cl) y r | [] => false end) = true ->
  exists is s L1 y L2, cenv_ok k /\ creach k is s (L1 ++ y :: L2) /\ f L1 y L2 = true.
Proof.
  cbv zeta. intros Hk H. destruct (jrun_good k e l) as (A & _). destruct (jrun k e l) as [ci c cl c2s si s sl s2c]. cbn [j_ci j_c j_cl] in *.
  rewrite <- (firstn_skipn n cl) in A. destruct (skipn n cl) as [|y r]; [discriminate|]. exists ci, c, (firstn n cl), y, r. auto.
Qed.
Lemma first_plain cs : existsb plain_hs cs = true -> exists c, In c cs /\ plain_hs c = true.
Proof. intros H. apply existsb_exists in H. exact H. Qed.
(** C50: a first ClientHello, and a second *)
Example C50_met : exists l s L1 cs L2 c, cenv_ok (ux_env [23]) /\ creach (ux_env [23]) l s (L1 ++ CEmit (KWrite cs) :: L2) /\ In c cs /\ plain_hs c = true /\ hellos_sent L1 = [].
Proof.
  destruct (centry_at _ (vx_env AuthNone None) jx_retry 1 (fun L1 y _ => match y with CEmit (KWrite cs) => existsb plain_hs cs && match hellos_sent L1 with [] => true | _ => false end | _ => false end) ux23)
    as (l & s & L1 & y & L2 & A & B & C); [vm_compute; reflexivity|].
  destruct y as [| |[cs| | | | | | | | | |]]; try discriminate C. apply andb_true_iff in C. destruct C as [C1 C2]. destruct (first_plain _ C1) as (c & Hc & Hp). destruct (hellos_sent L1) eqn:E; [|discriminate].
  exists l, s, L1, cs, L2, c. auto 6.
Qed.
Example C50_second_met : exists l s L1 cs L2 c, cenv_ok (ux_env [23]) /\ creach (ux_env [23]) l s (L1 ++ CEmit (KWrite cs) :: L2) /\ In c cs /\ plain_hs c = true /\ hellos_sent L1 <> [].
Proof.
  destruct (centry_at _ (vx_env AuthNone None) jx_retry 3 (fun L1 y _ => match y with CEmit (KWrite cs) => existsb plain_hs cs && match hellos_sent L1 with [] => false | _ => true end | _ => false end) ux23)
    as (l & s & L1 & y & L2 & A & B & C); [vm_compute; reflexivity|].
  destruct y as [| |[cs| | | | | | | | | |]]; try discriminate C. apply andb_true_iff in C. destruct C as [C1 C2]. destruct (first_plain _ C1) as (c & Hc & Hp).
  exists l, s, L1, cs, L2, c. repeat (split; [assumption|]). intros E. rewrite E in C2. discriminate.
Qed.
Example C55_met : exists l s L1 p L2, cenv_ok (ux_env [29]) /\ creach (ux_env [29]) l s (L1 ++ CEmit (KNewPsk p) :: L2).
Proof.
  destruct (centry_met _ (vx_env AuthRequired None) jx_full (fun y => match y with CEmit (KNewPsk _) => true | _ => false end) ux29) as (l & s & L1 & y & L2 & A & B & C);
    [vm_compute; reflexivity|].
  destruct y as [| |[| | | | | |p| | | |]]; try discriminate C. eauto 8.
Qed.
(** C56: early data that is sealed, sent after the handshake (accepted), and handed back (rejected) *)
Definition jx_early_late : list move := jx_early ++ [mc (JEarlyAppWrite [str "late"])].
Definition jx_early_rejected : list move :=
  [ms IAccept; mc (JConnect (ux_conn (Some ux_psk) None)); mc (JEarlyAppWrite [str "early"])] ++ ds 1 ++ dc 6 ++ [mc (JEarlyAppWrite [str "late"])].
(** The server of [jx_early] without early data. *)
Definition vx_noearly : env := mkEnv [772] [[4867]; [4865]] [29; 23] [1; 0] [1027] [str "h2"] AlpnOptional AuthNone false
  false false (-10)%Z 10%Z 1000 false true [] (fun _ => Ok tx_hash) (fun _ => Ok (16, 12, tx_aead)) tx_peer None (Ok []) None true true false None None
  (fun _ _ _ => Ok (Some (tx_self, 1027))).
Definition early_case (f : list centry -> bool) (y : centry) (L2 : list centry) : bool := match y with CCall _ (JEarlyAppWrite _) => f L2 | _ => false end.
Definition is_sealed (L : list centry) : bool := match L with CEmit (KWrite cs) :: _ => existsb (fun c => match ct_level c with LvEarlyData => true | _ => false end) cs | _ => false end.
Definition is_sent (L : list centry) : bool := match L with CEmit (KWrite [c]) :: _ => match ct_level c with LvAppTraffic => true | _ => false end | _ => false end.
Definition is_back (L : list centry) : bool := match L with CEmit (KEarlyWriteFailed _) :: _ => true | _ => false end.
Lemma early_met e l n f : (let cl := j_cl (jrun (ux_env [29]) e l) in match skipn n cl with y :: r => early_case f y r | [] => false end) = true ->
  exists is s L1 w q L2, cenv_ok (ux_env [29]) /\ creach (ux_env [29]) is s (L1 ++ CCall w (JEarlyAppWrite q) :: L2) /\ f L2 = true.
Proof.
  intros H. destruct (centry_at _ _ _ _ (fun _ y r => early_case f y r) ux29 H) as (is & s & L1 & y & L2 & A & B & C).
  destruct y as [w []| |]; try discriminate C. eauto 10.
Qed.
Example C56_sealed_met : exists is s L1 w q L2, cenv_ok (ux_env [29]) /\ creach (ux_env [29]) is s (L1 ++ CCall w (JEarlyAppWrite q) :: L2) /\ is_sealed L2 = true.
Proof. apply (early_met (vx_env AuthNone None) jx_early_late 5). vm_compute. reflexivity. Qed.
Example C56_sent_met : exists is s L1 w q L2, cenv_ok (ux_env [29]) /\ creach (ux_env [29]) is s (L1 ++ CCall w (JEarlyAppWrite q) :: L2) /\ is_sent L2 = true.
Proof. apply (early_met (vx_env AuthNone None) jx_early_late 23). vm_compute. reflexivity. Qed.
Example C56_back_met : exists is s L1 w q L2, cenv_ok (ux_env [29]) /\ creach (ux_env [29]) is s (L1 ++ CCall w (JEarlyAppWrite q) :: L2) /\ is_back L2 = true.
Proof. apply (early_met vx_noearly jx_early_rejected 21). vm_compute. reflexivity. Qed.
Example C56_outcome_met : exists is s L1 L2, cenv_ok (ux_env [29]) /\ creach (ux_env [29]) is s (L1 ++ CEmit (KSuccess true) :: L2).
Proof.
  destruct (centry_met _ (vx_env AuthNone None) jx_early (fun y => match y with CEmit (KSuccess b) => b | _ => false end) ux29) as (l & s & L1 & y & L2 & A & B & C);
    [vm_compute; reflexivity|].
  destruct y as [| |[| |b| | | | | | | |]]; try discriminate C. subst. eauto 8.
Qed.
(** C57 and C58: the client's flight, followed by success; and by ech_required *)
Definition flight_in (cs : list content) : bool := existsb (fun c => (ct_type c =? 22) && match ct_level c with LvHandshake => true | _ => false end) cs.
Lemma flight_met e l n (f : list centry -> bool) :
  (let cl := j_cl (jrun (ux_env [29]) e l) in match skipn n cl with y :: r => match y with CEmit (KWrite cs) => flight_in cs && f r | _ => false end | [] => false end) = true ->
  exists is s L1 cs L2 c, cenv_ok (ux_env [29]) /\ creach (ux_env [29]) is s (L1 ++ CEmit (KWrite cs) :: L2) /\ In c cs /\ ct_type c = 22 /\ ct_level c = LvHandshake /\ f L2 = true.
Proof.
  intros H. destruct (centry_at _ _ _ _ (fun _ y r => match y with CEmit (KWrite cs) => flight_in cs && f r | _ => false end) ux29 H) as (is & s & L1 & y & L2 & A & B & C).
  destruct y as [| |[cs| | | | | | | | | |]]; try discriminate C. apply andb_true_iff in C. destruct C as [C1 C2]. apply existsb_exists in C1. destruct C1 as (c & Hin & Hc).
  apply andb_true_iff in Hc. destruct Hc as [H1 H2]. apply N.eqb_eq in H1. exists is, s, L1, cs, L2, c. destruct (ct_level c); try discriminate H2. auto 8.
Qed.
Definition then_success (L : list centry) : bool := match L with CEmit (KSuccess _) :: _ => true | _ => false end.
Definition then_required (L : list centry) : bool := match L with CEmit (KWrite [al]) :: CEmit (KError (Some a)) :: _ => (ct_type al =? 21) && (a =? 121) | _ => false end.
Example C58_met : exists is s L1 cs L2 c, cenv_ok (ux_env [29]) /\ creach (ux_env [29]) is s (L1 ++ CEmit (KWrite cs) :: L2) /\ In c cs /\ ct_type c = 22 /\ ct_level c = LvHandshake /\
  then_success L2 = true.
Proof. apply (flight_met (vx_env AuthRequired None) jx_full 14). vm_compute. reflexivity. Qed.
Example C57_outcome_met : exists is s L1 cs L2 c, cenv_ok (ux_env [29]) /\ creach (ux_env [29]) is s (L1 ++ CEmit (KWrite cs) :: L2) /\ In c cs /\ ct_type c = 22 /\ ct_level c = LvHandshake /\
  then_required L2 = true.
Proof. apply (flight_met vx_other (jx_ech None) 14). vm_compute. reflexivity. Qed.
Example C57_retry_configs_met : exists l s L1 n cfgs L2, cenv_ok (ux_env [29]) /\ creach (ux_env [29]) l s (L1 ++ CEmit (KEchRetry n cfgs) :: L2).
Proof.
  destruct (centry_met _ vx_other (jx_ech None) (fun y => match y with CEmit (KEchRetry _ _) => true | _ => false end) ux29) as (l & s & L1 & y & L2 & A & B & C);
    [vm_compute; reflexivity|].
  destruct y as [| |[| | | | | | | | |n cfgs|]]; try discriminate C. eauto 9.
Qed.

(** ** One call *)
Definition c_one (k : cenv) (w : cworld) (cn : conn) : cstate * list cout := cstep k w c_init (JConnect cn).
Lemma one_reach k w cn : creach k [(w, JConnect cn)] (fst (c_one k w cn)) (CCall w (JConnect cn) :: map CEmit (snd (c_one k w cn))).
Proof.
  unfold c_one. destruct (cstep k w c_init (JConnect cn)) as [s' o] eqn:E. exact (creach_snoc k [] w (JConnect cn) c_init [] s' o (creach_nil k) E).
Qed.
Lemma one_met k w cn (f : list cout -> bool) : f (snd (c_one k w cn)) = true ->
  exists l s o, creach k l s (CCall w (JConnect cn) :: map CEmit o) /\ f o = true.
Proof. intros H. eexists _, _, _. split; [apply one_reach|exact H]. Qed.
Definition other_psk : cpsk := mkCpsk PskResumption (mkPsk (str "another, longer ticket") (tx_secret ++ tx_secret) 772 4867 (Some 29) None 77 1500000 90000000000
  (Some (tx_cert 1)) None 0 1500%Z).
Definition cn_a : conn := mkConn (Some ux_verifier) (Some (str "example.com")) (Some ux_psk) false (Some [toy_cfg]).
Definition cn_b : conn := mkConn (Some ux_verifier) (Some (str "other.example")) (Some other_psk) false (Some [toy_cfg]).
Definition plain_first (o : list cout) : bool := match o with KWrite [c] :: _ => plain_hs c | _ => false end.
Lemma ux_offer q cn : validatePsk (ux_env [29]) (cw_now ux_w) (cn_psk cn) = Ok q -> to_offer (ux_env [29]) (cw_now ux_w) cn q.
Proof. apply to_offer_ok. Qed.
Example C57_hides_met : exists l1 l2 s1 s2 c1 c2 L1 L2, cenv_ok (ux_env [29]) /\
  creach (ux_env [29]) l1 s1 (CCall ux_w (JConnect cn_a) :: CEmit (KWrite [c1]) :: L1) /\ creach (ux_env [29]) l2 s2 (CCall ux_w (JConnect cn_b) :: CEmit (KWrite [c2]) :: L2) /\
  plain_hs c1 = true /\ plain_hs c2 = true /\ cn_ech cn_a = Some [toy_cfg] /\ cn_ech cn_b = Some [toy_cfg] /\ cn_exts cn_a = cn_exts cn_b /\
  to_offer (ux_env [29]) (cw_now ux_w) cn_a (Some ux_psk) /\ to_offer (ux_env [29]) (cw_now ux_w) cn_b (Some other_psk) /\ same_kind (ux_env [29]) (Some ux_psk) (Some other_psk) /\
  app_without 41 [CCall ux_w (JConnect cn_a)] /\ app_without 42 [CCall ux_w (JConnect cn_a)].
Proof.
  destruct (one_met (ux_env [29]) ux_w cn_a plain_first) as (l1 & s1 & o1 & R1 & P1); [vm_compute; reflexivity|].
  destruct (one_met (ux_env [29]) ux_w cn_b plain_first) as (l2 & s2 & o2 & R2 & P2); [vm_compute; reflexivity|].
  destruct o1 as [|[[|c1 [|]]| | | | | | | | | |] o1]; try discriminate P1. destruct o2 as [|[[|c2 [|]]| | | | | | | | | |] o2]; try discriminate P2.
  exists l1, l2, s1, s2, c1, c2, (map CEmit o1), (map CEmit o2). split; [apply ux29|]. split; [exact R1|]. split; [exact R2|]. split; [exact P1|]. split; [exact P2|].
  split; [reflexivity|]. split; [reflexivity|]. split; [reflexivity|]. split; [apply ux_offer; vm_compute; reflexivity|]. split; [apply ux_offer; vm_compute; reflexivity|].
  split; [split; [reflexivity|intros h1 h2 [= <-] [= <-]; reflexivity]|]. split; intros w xs [<-|[]] [= <-]; reflexivity.
Qed.

(** ** A GREASE extension computed from the ClientHello breaks the offer of a PSK *)
(** With that setting the client appends an encrypted_client_hello extension after pre_shared_key, which RFC 8446 (4.2.11) requires to be
    the last extension; servers (this one too) reject such a ClientHello.  The early secrets and the binder are those of the
    ClientHello without it, so they do not fit the one sent either. *)
Definition gx_env : cenv := mkCEnv [772] [4865; 4867] [29; 23] [29] [1; 0] [1027] [str "h3"; str "h2"] false true false true
  ShWhenNecessary 1000000000000000%Z (Some GComputed) [51] [] (fun _ => Err EThrow) (fun _ => Ok tx_hash) (fun _ => Ok (16, 12, tx_aead)) tx_peer ux_fac None.
Definition gx_w : cworld := mkCWorld 2000000 2000000 (Ok (be 32 3)) (Ok (be 32 33)) (Ok (be 32 1))
  (fun g => Ok (mkKex (Ok (be 4 9)) (fun theirs => Ok (be 4 (9 + unbe theirs))) 4)) (fun _ => Ok (toy_dh 3))
  (fun n i => repeat x2a (N.to_nat n)) (fun n => Ok (1, 1, 7, Some (be 32 5), Some (be 8 n))) (Ok []) (fun _ => Ok tt).
Definition gx_conn : conn := ux_conn (Some ux_psk) None.
Definition sent_hello (c : content) : res ClientHello := '(m, r) <- decode_ch (dropN 4 (ct_plain c)) ;; Ok m.
Definition greased_hello (o : list cout) : bool :=
  match o with
  | KWrite [c] :: KSecret (KTraffic SkEarly) t :: _ =>
      match sent_hello c with
      | Ok m => match encodeHandshake (MClientHello m), rev (map ext_type (ch_extensions m)) with
                | Ok b, x :: y :: _ => bytes_eqb b (ct_plain c) && (x =? 65037) && (y =? 41) &&
                    negb (bytes_eqb t (early_secret_of tx_hash ux_psk (ct_plain c) (KTraffic SkEarly)))
                | _, _ => false end
      | Err _ => false end
  | _ => false
  end.
Lemma gx_ok : cenv_ok gx_env.
Proof.
  split; cbn [gx_env k_hash k_aead k_versions k_groups k_shares k_sigSchemes k_pskModes k_decompAlgos].
  - intros c h [= <-]. apply tx_hash_ok.
  - intros c kl il mk [= <- <- <-]. split; discriminate.
  - repeat constructor.
  - repeat constructor.
  - repeat constructor.
  - repeat constructor.
  - repeat constructor.
  - repeat constructor.
Qed.
Lemma gx_run : exists l s c t L m, cenv_ok gx_env /\ creach gx_env l s (CCall gx_w (JConnect gx_conn) :: CEmit (KWrite [c]) :: CEmit (KSecret (KTraffic SkEarly) t) :: L) /\
  encodeHandshake (MClientHello m) = Ok (ct_plain c) /\ (exists pre, map ext_type (ch_extensions m) = pre ++ [41; 65037]) /\
  t <> early_secret_of tx_hash ux_psk (ct_plain c) (KTraffic SkEarly).
Proof.
  destruct (one_met gx_env gx_w gx_conn greased_hello) as (l & s & o & R & P); [vm_compute; reflexivity|].
  destruct o as [|[[|c [|]]| | | | | | | | | |] [|[| | | | |[[]| | |] t| | | | |] o]]; try discriminate P. unfold greased_hello in P.
  destruct (sent_hello c) as [m|]; [|discriminate]. destruct (encodeHandshake (MClientHello m)) as [b|] eqn:Eb; [|discriminate]. destruct (rev _) as [|x [|y r]] eqn:Er; try discriminate.
  apply andb_true_iff in P. destruct P as [P P4]. apply andb_true_iff in P. destruct P as [P P3]. apply andb_true_iff in P. destruct P as [P1 P2].
  apply bytes_eqb_eq in P1. apply N.eqb_eq in P2, P3. apply negb_true_iff in P4. subst x y b.
  exists l, s, c, t, (map CEmit o), m. split; [apply gx_ok|]. split; [exact R|]. split; [exact Eb|]. split.
  - exists (rev r). rewrite <- (rev_involutive (map ext_type (ch_extensions m))), Er. cbn [rev]. rewrite <- app_assoc. reflexivity.
  - intros E. rewrite <- E in P4. assert (bytes_eqb t t = true) by (apply bytes_eqb_eq; reflexivity). congruence.
Qed.
Theorem C50_grease : exists l s c L m, cenv_ok gx_env /\ creach gx_env l s (CCall gx_w (JConnect gx_conn) :: CEmit (KWrite [c]) :: L) /\
  encodeHandshake (MClientHello m) = Ok (ct_plain c) /\ exists pre, map ext_type (ch_extensions m) = pre ++ [41; 65037].
Proof. destruct gx_run as (l & s & c & t & L & m & A & B & C & D & _). exists l, s, c. eexists _, m. eauto. Qed.
Theorem C56_grease : exists l s c t L, cenv_ok gx_env /\ creach gx_env l s (CCall gx_w (JConnect gx_conn) :: CEmit (KWrite [c]) :: CEmit (KSecret (KTraffic SkEarly) t) :: L) /\
  t <> early_secret_of tx_hash ux_psk (ct_plain c) (KTraffic SkEarly).
Proof. destruct gx_run as (l & s & c & t & L & m & A & B & _ & _ & E). exists l, s, c, t, L. auto. Qed.
