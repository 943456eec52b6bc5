(** * The server never aborts (C62): hypotheses and proof *)
From Verif Require Import Base Codec Str Hkdf HkdfSpec HkdfProofs KeySched Handshake Extensions RecordBase Record ReadEvent HelloChecks Cookie
  Token Negotiate Ticket Kex Hpke Transcript IOBufUtil EchConfirm Server ServerSpec ServerFacts Crash.
From Verif Require Import CodecSpec ExtensionsSpec ExtensionsProofs.
Open Scope N_scope.

(** What the application's objects promise: their calls end normally or with an error the caller handles, and what they return
    contains no null buffer. *)
Record self_safe (so : selfobj) : Prop := {
  ss_message : safe (so_message so);
  ss_set : forall m, so_message so = Ok m -> cmsg_set m;
  ss_compressed : forall a, safe (so_compressed so a);
  ss_sign : forall a x t, safe (so_sign so a x t);
  ss_async : forall f, so_async so = Some f -> forall a s c, safe (f a s c) }.
(** an HPKE context this decrypter handed out for a ClientHello *)
Definition made (d : decrypter) (x : hctx) : Prop := exists c o c' o', hello_set c /\ d_hello d c o = Ok (Some (c', o', x)).
Record decrypter_safe (d : decrypter) : Prop := {
  ds_hello : forall c o, hello_set c -> safe (d_hello d c o);
  ds_hello_set : forall c o c' o' x, hello_set c -> d_hello d c o = Ok (Some (c', o', x)) -> hello_set c';
  ds_hrr : forall c o x, hello_set c -> made d x -> safe (d_hrr d c o x);
  ds_hrr_set : forall c o x c' o', hello_set c -> d_hrr d c o x = Ok (c', o') -> hello_set c';
  ds_enc : forall c o x, hello_set c -> x <> None -> safe (d_hrr_enc d c o x);
  ds_enc_set : forall c o x c' o', hello_set c -> d_hrr_enc d c o x = Ok (c', o') -> hello_set c';
  ds_retry : forall n, safe (d_retry d n);
  ds_retry_set : forall n l, d_retry d n = Ok l -> Forall (fun p => snd p <> None) l }.
Record env_safe (e : env) : Prop := {
  en_ok : env_ok e;
  en_hash : forall c, safe (e_hash e c);
  en_aead : forall c, safe (e_aead e c);
  en_setkey : forall c kl il mk k iv, e_aead e c = Ok (kl, il, mk) -> safe (mk k iv) /\ forall a, mk k iv = Ok a -> aead_safe a;
  en_peer : forall x l, safe (e_peerCert e x l);
  en_verify : forall x l p s c t sig, e_peerCert e x l = Ok p -> safe (pc_verify p s c t sig);
  en_verifier : forall v l, e_verifier e = Some v -> safe (v l);
  en_vexts : safe (e_verifierExts e);
  en_vexts_set : forall l, e_verifierExts e = Ok l -> Forall xset l;
  en_cookie : forall d b, e_cookie e = Some d -> safe (d b);
  en_cookie_set : forall d b ck, e_cookie e = Some d -> d b = Ok (Some ck) -> ck_chloHash ck <> None /\ (ck_echSuite ck <> None -> ck_echEnc ck <> None);
  en_ech : forall d, e_ech e = Some d -> decrypter_safe d;
  en_exts : forall f c, e_extensions e = Some f -> hello_set c -> safe (f c);
  en_exts_set : forall f c l, e_extensions e = Some f -> f c = Ok l -> Forall xset l;
  en_cert : forall n l c, hello_set c -> safe (e_getCert e n l c);
  en_cert_set : forall n l c so s, e_getCert e n l c = Ok (Some (so, s)) -> self_safe so }.
(** ... and what they promise about one call: the tickets they decrypt hold a secret and an issue time within 2^63 ns of now. *)
Record world_safe (w : world) : Prop := {
  wn_random : safe (w_random w);
  wn_age : safe (w_ageAdd w);
  wn_dec : forall b, safe (w_ticketDecrypt w b);
  wn_dec_set : forall b t r, w_ticketDecrypt w b = Ok (t, Some r) -> rs_secret r <> None /\ int64 (w_now2 w - rs_issue r) = true;
  wn_enc : forall r, safe (w_ticketEncrypt w r);
  wn_replay : forall r, safe (w_replay w r);
  wn_kex : forall g s, safe (w_kex w g s) }.

(** ** The invariant *)
Definition osafe {A} (P : A -> Prop) (o : option A) : Prop := forall x, o = Some x -> P x.
Record kept (e : env) (s : sstate) (h : hashalg) (k : ks) : Prop := {
  ke_ks : s_ks s = Some (h, k);
  ke_hash : hash_ok h;
  ke_version : s_version s <> None;
  ke_cipher : s_cipher s <> None;
  ke_time : s_hsTime s <> None;
  ke_app : kapp h k }.
Record in_flight (e : env) (s : sstate) (h : hashalg) (k : ks) : Prop := {
  if_kept : kept e s h k;
  if_read : s_read s <> None;
  if_write : s_write s <> None;
  if_master : kmaster h k;
  if_hctx : exists hc, s_hctx s = Some hc /\ hc_hash hc = h;
  if_secret : exists x, s_clientHsSecret s = Some x /\ len_ok h x }.
Definition hello_ready (e : env) (s : sstate) : Prop :=
  s_read s <> None /\ s_write s <> None /\
  (s_hctx s = None -> s_ech s = EchNotRequested) /\
  (forall hc, s_hctx s = Some hc -> exists c, s_cipher s = Some c /\ e_hash e c = Ok (hc_hash hc)) /\
  (s_ech s = EchAccepted -> exists st x d, s_echState s = Some st /\ eh_ctx st = Some x /\ e_ech e = Some d /\ made d x) /\
  (s_ech s = EchRejected -> e_ech e <> None).
Definition peer_safe (p : peercert) : Prop := forall s c t sig, safe (pc_verify p s c t sig).
Definition inv_safe (e : env) (s : sstate) : Prop :=
  osafe ev_safe (s_read s) /\ osafe ev_safe (s_hsRead s) /\ osafe wl_safe (s_write s) /\
  match s_state s with
  | SUninitialized => s_hctx s = None /\ s_ech s = EchNotRequested
  | SExpectingClientHello => hello_ready e s
  | SExpectingCertificate | SExpectingFinished => exists h k, in_flight e s h k
  | SAcceptingEarlyData => s_hsRead s <> None /\ exists h k, in_flight e s h k
  | SExpectingCertificateVerify => (exists p l, s_chain s = Some (p :: l) /\ Forall peer_safe (p :: l)) /\ exists h k, in_flight e s h k
  | SAcceptingData => s_read s <> None /\ s_write s <> None /\ exists h k, kept e s h k /\ len_ok h (s_resumption s)
  | SExpectingCloseNotify | SClosed | SError => True
  | SCrash => False
  end.

(** ** Hoare-style *)
Definition sat {A} (P : A -> Prop) (r : res A) : Prop := match r with Ok a => P a | Err x => esafe x end.
Lemma sat_bind {A B} (Q : A -> Prop) (P : B -> Prop) (m : res A) (f : A -> res B) :
  sat Q m -> (forall a, m = Ok a -> Q a -> sat P (f a)) -> sat P (bind m f).
Proof. destruct m; cbn; auto. Qed.
Lemma sat_safe {A} (P : A -> Prop) (r : res A) : safe r -> (forall a, r = Ok a -> P a) -> sat P r.
Proof. destruct r as [|[]]; cbn; auto. Qed.
Lemma sat_true {A} (r : res A) : safe r -> sat (fun _ => True) r. Proof. destruct r as [|[]]; cbn; auto. Qed.
Lemma sat_weaken {A} (P Q : A -> Prop) (r : res A) : (forall a, P a -> Q a) -> sat P r -> sat Q r.
Proof. destruct r; cbn; auto. Qed.
Lemma sat_ensure b x : esafe x -> sat (fun _ => b = true) (ensure b x). Proof. destruct b; cbn; auto. Qed.
Lemma sat_deref b : b <> None -> sat (fun x => b = Some x) (deref b). Proof. destruct b; cbn; congruence. Qed.
Lemma sat_ex {A} (P : A -> Prop) (r : res A) : (exists x, r = Ok x /\ P x) -> sat P r.
Proof. intros (x & -> & H). exact H. Qed.
Lemma sat_get k l : Forall xset l -> sat (fun o => forall x, o = Some x -> tset x /\ kind_of x = k) (getExtension k l).
Proof. intros H. apply sat_safe; [apply safe_getExtension, H|]. intros a E x ->. exact (getExtension_set _ _ _ E). Qed.
(* bind with a postcondition; the result is called [a] *)
Tactic Notation "sb" constr(L) "as" simple_intropattern(a) simple_intropattern(E) simple_intropattern(H) :=
  eapply sat_bind; [exact L|intros a E H; cbv beta in H; cbv beta iota].
Tactic Notation "st" constr(L) "as" simple_intropattern(a) simple_intropattern(E) :=
  eapply sat_bind; [exact (sat_true _ L)|intros a E _; cbv beta iota].

Section Server.
Context (e : env) (He : env_safe e).

Lemma traffic_ok h cipher sec : hash_ok h -> len_ok h sec -> sat aead_safe (derive_aead e h cipher sec).
Proof.
  intros Hh L. unfold derive_aead. eapply sat_bind; [apply sat_true, (en_aead e He)|]. intros [[kl il] mk] E _.
  destruct (eo_aead e (en_ok e He) _ _ _ _ E) as [H1 H2]. cbn [ks_step snd].
  destruct (el_len h Hh sec (str "key") [] kl L) as (x & Ex & _); [vm_compute; discriminate|vm_compute; discriminate|exact H1|].
  destruct (el_len h Hh sec (str "iv") [] il L) as (y & Ey & _); [vm_compute; discriminate|vm_compute; discriminate|exact H2|].
  rewrite Ex, Ey. cbn [bind]. destruct (en_setkey e He _ _ _ _ x y E). apply sat_safe; assumption.
Qed.
Lemma version_safe v : safe (real_draft_version v).
Proof. unfold real_draft_version. repeat match goal with |- safe (if ?x then _ else _) => destruct x end; exact Logic.I. Qed.
Lemma new_read_safe h v cipher sec skip : hash_ok h -> len_ok h sec -> sat ev_safe (new_read e h v cipher sec skip).
Proof.
  intros Hh L. unfold new_read. st (version_safe v) as rv E. sb (traffic_ok h cipher sec Hh L) as a E2 Ha. exact Ha.
Qed.
Lemma new_write_safe h lv v cipher sec : hash_ok h -> len_ok h sec -> sat (fun w => wl_safe w /\ w <> WPlain) (new_write e h lv v cipher sec).
Proof.
  intros Hh L. unfold new_write. st (version_safe v) as rv E. sb (traffic_ok h cipher sec Hh L) as a E2 Ha. split; [split; [reflexivity|exact Ha]|discriminate].
Qed.
Lemma hash_sat c : sat hash_ok (e_hash e c).
Proof. apply sat_safe; [apply (en_hash e He)|]. intros a E. exact (eo_hash e (en_ok e He) _ _ E). Qed.

(** ** The pieces of the ClientHello handler *)
Lemma cookie_sat c : hello_set c -> sat (fun ck => forall k, ck = Some k -> ck_chloHash k <> None /\ (ck_echSuite k <> None -> ck_echEnc k <> None)) (serverCookie e c).
Proof.
  intros [_ H]. unfold serverCookie. sb (sat_get KCookie _ H) as x E Hx. destruct x as [[]|]; try (cbn; congruence).
  destruct (Hx _ eq_refl) as [S _]. destruct (e_cookie e) as [dec|] eqn:Ed; [|exact Logic.I]. sb (sat_deref b S) as d E2 H2.
  st (en_cookie e He dec d Ed) as o E3. destruct o as [ck|]; [|exact Logic.I]. eapply sat_bind; [apply sat_ensure; exact Logic.I|]. intros ? _ _. cbn. intros k [= <-].
  exact (en_cookie_set e He dec d ck Ed E3).
Qed.
Lemma sni_safe c : hello_set c -> safe (getSNI c).
Proof.
  intros [_ H]. unfold getSNI. apply safe_bind; [apply safe_getExtension, H|]. intros o E. destruct o as [[]|]; try exact Logic.I.
  destruct (getExtension_set _ _ _ E) as [S _]. destruct l as [|[? hb] ?]; [exact Logic.I|]. inversion S; subst. apply safe_bind; [apply safe_deref; assumption|].
  intros; exact Logic.I.
Qed.
Definition ech_post (s : sstate) (ck : option cookiest) (r : echstatus * option echst * ClientHello * bytes) : Prop :=
  let '(status, st, c, _) := r in
  hello_set c /\ (status = EchRejected -> e_ech e <> None /\ st <> None) /\
  (status = EchAccepted -> ck = None -> exists p x d, st = Some p /\ eh_ctx p = Some x /\ e_ech e = Some d /\ made d x).
Lemma hrr_sat ck s c o : hello_set c -> hello_ready e s -> (forall k, ck = Some k -> ck_echSuite k <> None -> ck_echEnc k <> None) ->
  sat (fun r => let '(status, _, c', _) := r in hello_set c' /\ (status = EchRejected -> e_ech e <> None) /\ (status = EchAccepted -> ck = None -> s_ech s = EchAccepted))
    (processECHHRR e ck s c o).
Proof.
  intros Hc (_ & _ & _ & _ & Ha & Hr) Hck. unfold processECHHRR. sb (sat_get KEchOuter _ (proj2 Hc)) as x E Hx.
  set (ext := match x with Some (XEchOuter p) => Some p | _ => None end).
  assert (Hext : forall kdf ae cid enc pl, ext = Some (kdf, ae, cid, enc, pl) -> enc <> None).
  { intros kdf ae cid enc pl Eq. subst ext. destruct x as [[]|]; try discriminate. injection Eq as ->. exact (proj1 (proj1 (Hx _ eq_refl))). }
  clearbody ext. cbv zeta.
  assert (Acc : s_ech s = EchAccepted -> sat (fun r => let '(status, _, c', _) := r in hello_set c' /\ (status = EchRejected -> e_ech e <> None) /\ (status = EchAccepted -> ck = None -> s_ech s = EchAccepted))
     (match e_ech e with
      | None => Err (alert al_internal_error)
      | Some d =>
          match ext with
          | None => Err (alert al_missing_extension)
          | Some (kdf, ae, cid, enc, _) =>
              en <- deref enc ;;
              _ <- ensure (match en with [] => true | _ => false end) (alert al_illegal_parameter) ;;
              match s_echState s with
              | None => Err EThrow
              | Some st =>
                  _ <- ensure ((fst (eh_suite st) =? kdf) && (snd (eh_suite st) =? ae)) (alert al_illegal_parameter) ;;
                  _ <- ensure (eh_config st =? cid) (alert al_illegal_parameter) ;;
                  match eh_ctx st with
                  | None => Err EUB
                  | Some hc => '(c', o') <- d_hrr d c o hc ;; Ok (EchAccepted, cid, c', o')
                  end
              end
          end
      end)).
  { intros Es. destruct (e_ech e) as [d|] eqn:Ed; [|exact Logic.I]. destruct ext as [[[[[kdf ae] cid] enc] pl]|]; [|exact Logic.I].
    sb (sat_deref enc (Hext _ _ _ _ _ eq_refl)) as en E1 H1. eapply sat_bind; [apply sat_ensure; exact Logic.I|intros ? _ _].
    destruct (Ha Es) as (st & hc & d' & E2 & E3 & E3' & Hm). assert (d' = d) as -> by congruence. rewrite E2. eapply sat_bind; [apply sat_ensure; exact Logic.I|intros ? _ _].
    eapply sat_bind; [apply sat_ensure; exact Logic.I|intros ? _ _]. rewrite E3. st (ds_hrr d (en_ech e He d Ed) c o hc Hc Hm) as p E4. destruct p as [c' o'].
    split; [exact (ds_hrr_set d (en_ech e He d Ed) _ _ _ _ _ Hc E4)|]. split; [discriminate|]. intros _ _. exact Es. }
  destruct ck as [k|]; [destruct (ck_echSuite k) as [suite|] eqn:Esu|].
  - assert (Cook : sat (fun r => let '(status, _, c', _) := r in hello_set c' /\ (status = EchRejected -> e_ech e <> None) /\ (status = EchAccepted -> Some k = None -> s_ech s = EchAccepted))
      match e_ech e with
      | None => Err (alert al_internal_error)
      | Some d =>
          match ext with
          | None => Err (alert al_missing_extension)
          | Some (kdf, ae, cid, enc, _) =>
              en <- deref enc ;;
              _ <- ensure (match en with [] => true | _ => false end) (alert al_illegal_parameter) ;;
              _ <- ensure ((fst suite =? kdf) && (snd suite =? ae)) (alert al_illegal_parameter) ;;
              _ <- ensure (match ck_echConfigId k with Some i => i =? cid | None => false end) (alert al_illegal_parameter) ;;
              '(c', o') <- d_hrr_enc d c o (ck_echEnc k) ;; Ok (EchAccepted, cid, c', o')
          end
      end).
    { destruct (e_ech e) as [d|] eqn:Ed; [|exact Logic.I]. destruct ext as [[[[[kdf ae] cid] enc] pl]|]; [|exact Logic.I].
      sb (sat_deref enc (Hext _ _ _ _ _ eq_refl)) as en E1 H1. do 3 (eapply sat_bind; [apply sat_ensure; exact Logic.I|intros ? _ _]).
      st (ds_enc d (en_ech e He d Ed) c o (ck_echEnc k) Hc (Hck k eq_refl ltac:(rewrite Esu; discriminate))) as p E4. destruct p as [c' o'].
      split; [exact (ds_enc_set d (en_ech e He d Ed) _ _ _ _ _ Hc E4)|]. split; discriminate. }
    destruct (s_ech s) eqn:Es; [exact Cook|exact (Acc eq_refl)|exact Cook].
  - destruct (s_ech s) eqn:Es; [|exact (Acc eq_refl)|]; cbn; (split; [exact Hc|split; [auto|congruence]]).
  - destruct (s_ech s) eqn:Es; [|exact (Acc eq_refl)|]; cbn; (split; [exact Hc|split; [auto|congruence]]).
Qed.
Lemma ech_sat ck s c o : hello_set c -> hello_ready e s -> (forall k, ck = Some k -> ck_echSuite k <> None -> ck_echEnc k <> None) -> sat (ech_post s ck) (processECH e ck s c o).
Proof.
  intros Hc Hr Hck. unfold processECH.
  assert (Main : sat (ech_post s ck) (match s_hctx s, ck with
     | None, None =>
         match findExtension 65037 (ch_extensions c) with
         | None => Ok (s_ech s, None, c, o)
         | Some _ =>
             x <- getExtension KEchOuter (ch_extensions c) ;;
             match x with
             | Some (XEchOuter (kdf, ae, cid, _, _)) =>
                 sni <- getSNI c ;;
                 match e_ech e with
                 | None => Ok (s_ech s, Some (mkEchSt (kdf, ae) cid None sni), c, o)
                 | Some d =>
                     g <- d_hello d c o ;;
                     match g with
                     | Some (c', o', hc) => Ok (EchAccepted, Some (mkEchSt (kdf, ae) cid (Some hc) sni), c', o')
                     | None => Ok (EchRejected, Some (mkEchSt (kdf, ae) cid None sni), c, o)
                     end
                 end
             | _ => Err EThrow
             end
         end
     | _, _ =>
         '(st, cid, c', o') <- processECHHRR e ck s c o ;;
         Ok (st, Some (match s_echState s with
                       | Some p => mkEchSt (eh_suite p) cid (eh_ctx p) (eh_outerSni p)
                       | None => mkEchSt (0, 0) cid None None end), c', o')
     end)).
  { assert (Later : sat (ech_post s ck) ('(st, cid, c', o') <- processECHHRR e ck s c o ;;
         Ok (st, Some (match s_echState s with
                       | Some p => mkEchSt (eh_suite p) cid (eh_ctx p) (eh_outerSni p)
                       | None => mkEchSt (0, 0) cid None None end), c', o'))).
    { sb (hrr_sat ck s c o Hc Hr Hck) as r E Hp. destruct r as [[[st cid] c'] o']. destruct Hp as (H1 & H2 & H3).
      split; [exact H1|]. split; [intros X; split; [exact (H2 X)|discriminate]|]. intros X Y. destruct Hr as (_ & _ & _ & _ & Ha & _).
      destruct (Ha (H3 X Y)) as (p & x & d & E1 & E2). rewrite E1. exists (mkEchSt (eh_suite p) cid (eh_ctx p) (eh_outerSni p)), x, d. auto. }
    destruct (s_hctx s) eqn:Eh; [exact Later|]. destruct ck as [k|]; [exact Later|]. clear Later.
    destruct Hr as (_ & _ & Hn & _). specialize (Hn Eh).
    destruct (findExtension _ _) as [ff|]; [|rewrite Hn; cbn; split; [exact Hc|split; discriminate]].
    sb (sat_get KEchOuter _ (proj2 Hc)) as x E Hx. destruct x as [[]|]; try exact Logic.I. destruct p as [[[[kdf ae] cid] enc] pl].
    st (sni_safe c Hc) as sni E2. destruct (e_ech e) as [d|] eqn:Ed; [|rewrite Hn; cbn; split; [exact Hc|split; discriminate]].
    st (ds_hello d (en_ech e He d Ed) c o Hc) as g E3. destruct g as [[[c' o'] hc]|]; cbn.
    - split; [exact (ds_hello_set d (en_ech e He d Ed) _ _ _ _ _ Hc E3)|]. split; [discriminate|]. intros _ _. eexists; eexists; exists d. split; [reflexivity|]. split; [reflexivity|]. split; [exact Ed|]. exists c, o, c', o'. auto.
    - split; [exact Hc|]. split; [rewrite Ed; split; discriminate|discriminate]. }
  eapply sat_bind; [exact Main|]. intros [[[status st] c'] o'] E Hp. destruct status; try exact Hp.
  destruct Hp as (H1 & H2 & H3). sb (sat_get KEchInner _ (proj2 H1)) as y E2 Hy. destruct y; [|exact Logic.I]. split; auto.
Qed.
Record neg_safe (s : sstate) (w : world) (n : neg) : Prop := {
  ns_hello : hello_set (n_hello n);
  ns_cookie : forall k, n_cookie n = Some k -> ck_chloHash k <> None;
  ns_one : s_hctx s <> None -> n_cookie n = None;
  ns_cipher : forall p, s_cipher s = Some p -> n_cipher n = p;
  ns_rejected : n_ech n = EchRejected -> e_ech e <> None /\ n_echState n <> None;
  ns_accepted : n_ech n = EchAccepted -> n_cookie n = None -> exists p x d, n_echState n = Some p /\ eh_ctx p = Some x /\ e_ech e = Some d /\ made d x;
  ns_res : forall r, n_res n = Some r -> rs_secret r <> None /\ int64 (w_now2 w - rs_issue r) = true;
  ns_mode : n_pskMode n <> None -> n_res n <> None }.
Lemma offered_safe c : hello_set c -> safe (earlyOffered c).
Proof. intros [_ H]. unfold earlyOffered. apply safe_bind; [apply safe_getExtension, H|]. intros; exact Logic.I. Qed.
Lemma query_safe c : hello_set c -> safe (resumptionQuery e c).
Proof.
  intros [_ H]. unfold resumptionQuery. apply safe_bind; [apply safe_getExtension, H|]. intros p E. apply safe_bind; [apply safe_getExtension, H|]. intros m _.
  cbv zeta. set (modes := match m with Some (XPskKeyExchangeModes l) => Some l | _ => None end).
  set (mode := match modes with Some l => negotiate (e_pskModes e) l | None => None end). clearbody mode.
  destruct p as [[]|]; try (destruct mode; exact Logic.I). destruct (getExtension_set _ _ _ E) as [S _]. destruct p as [ids bs]. destruct S as [S _].
  destruct modes; [|exact Logic.I]. destruct ids as [|[id age] ids]; [exact Logic.I|]. inversion S; subst. destruct (negb _); [exact Logic.I|]. destruct mode; [|exact Logic.I].
  apply safe_bind; [apply safe_deref; assumption|]. intros; exact Logic.I.
Qed.
Lemma hash_id_safe c : safe (hash_id c).
Proof. unfold hash_id. repeat match goal with |- safe (if ?x then _ else _) => destruct x end; exact Logic.I. Qed.
Lemma resumption_safe r v cipher : safe (validateResumption r v cipher).
Proof.
  unfold validateResumption. destruct (negb _); [exact Logic.I|]; apply safe_bind; [apply hash_id_safe|intros; apply safe_bind; [apply hash_id_safe|intros; exact Logic.I]].
Qed.
Lemma dup_safe l : safe (checkDuplicateExtensions l).
Proof. unfold checkDuplicateExtensions. cbv zeta. destruct (negb _); exact Logic.I. Qed.
Lemma validate_safe c : safe (validateClientHello c).
Proof. unfold validateClientHello. destruct (ch_compression c) as [|[|?] [|? ?]]; try exact Logic.I. apply dup_safe. Qed.
Lemma safe_field k exts use next g : Forall xset exts -> (forall x, getExtension k exts = Ok x -> exists g', use x g = Ok g') -> (forall g', safe (snd (next g'))) -> safe (snd (HandshakeLog.field k exts use next g)).
Proof.
  intros Hs Hu Hn. unfold HandshakeLog.field. pose proof (safe_getExtension k exts Hs) as H. destruct (getExtension k exts) as [x|er]; [|exact H].
  destruct (Hu x eq_refl) as (g' & ->). apply Hn.
Qed.
Lemma log_safe c : hello_set c -> safe (snd (HandshakeLog.populate c HandshakeLog.hlog_new)).
Proof.
  intros [_ Hs]. unfold HandshakeLog.populate.
  assert (B : forall t l, Forall xset l -> exists u, HandshakeLog.testByte t l = Ok u).
  { intros t l H. revert t. induction H as [|x l Hx Hl IH]; intros t; [eexists; reflexivity|]. cbn [HandshakeLog.testByte]. unfold xset in Hx.
    destruct (_ =? _); [destruct (ext_data x) as [[|? [|? ?]]|]; [..|contradiction]|]; apply IH. }
  assert (D : forall l, forallb nonnull l = true -> exists n, HandshakeLog.derefs l = Ok n).
  { induction l as [|b l IH]; intros H; [eexists; reflexivity|]. cbn [forallb] in H. apply andb_true_iff in H. destruct H as [H1 H2]. destruct b as [b|]; [|discriminate]. cbn [HandshakeLog.derefs HandshakeLog.deref bind].
    destruct (IH H2) as (n & ->). eexists. reflexivity. }
  apply safe_field; [exact Hs|eauto|]. intros g. destruct (B (HandshakeLog.g_test g) (ch_extensions c) Hs) as (u & ->).
  apply safe_field; [exact Hs| |].
  { intros x Ex. destruct x as [x|]; [|eauto]. apply getExtension_strict in Ex. destruct Ex as (_ & Hw & _). destruct x; eauto. destruct (D _ Hw) as (n & ->). eexists. reflexivity. }
  intros g'. apply safe_field; [exact Hs| |].
  { intros x Ex. destruct x as [x|]; [|eauto]. apply getExtension_strict in Ex. destruct Ex as (_ & Hw & _). destruct x; eauto. destruct l as [|[ty h] l]; [eauto|].
    cbn in Hw. apply andb_true_iff in Hw. destruct Hw as [Hw _]. destruct h; [eexists; reflexivity|]. unfold wf_nb in Hw. cbn in Hw. rewrite andb_false_r in Hw. discriminate. }
  do 5 (intros ?; apply safe_field; [exact Hs|eauto|]). intros ?. exact Logic.I.
Qed.
Lemma negotiate_sat w s c o : world_safe w -> hello_set c -> hello_ready e s ->
  sat (fun r => match r with NFallback _ _ => True | NGo n => neg_safe s w n end) (hello_negotiate e w s c o).
Proof.
  intros Hw Hc Hr. unfold hello_negotiate. sb (cookie_sat c Hc) as ck E1 H1. eapply sat_bind; [apply sat_ensure; exact Logic.I|]. intros ? _ Hone.
  sb (ech_sat ck s c o Hc Hr ltac:(intros k Ek; exact (proj2 (H1 k Ek)))) as r E2 H2. destruct r as [[[es est] c'] o']. destruct H2 as (S & Rj & Ac).
  st (log_safe c' S) as ul El.
  destruct (s_read s) as [rd|] eqn:Er; [|exfalso; apply (proj1 Hr), Er]. eapply sat_bind; [apply sat_ensure; exact Logic.I|]. intros ? _ _.
  eapply sat_bind; [apply sat_true; unfold negotiateVersion; apply safe_bind; [apply safe_getExtension, (proj2 S)|intros x _; destruct x as [[]|]; exact Logic.I]|].
  intros v _ _. eapply sat_bind; [apply sat_ensure; exact Logic.I|]. intros ? _ _. destruct v as [v|].
  2:{ st (offered_safe c' S) as ed E3. eapply sat_bind; [apply sat_ensure; exact Logic.I|]. intros ? _ _. destruct (e_fallback e); [|exact Logic.I].
      eapply sat_bind; [apply sat_true; unfold plain_write_initial, plain_write_ver; destruct (_ =? _); exact Logic.I|]. intros d _ _.
      st (sni_safe c' S) as sni E4. exact Logic.I. }
  st (version_safe v) as rv E3.
  st (validate_safe c') as u0 E3'. destruct (negotiate_tiers _ _) as [cipher|]; [|exact Logic.I]. eapply sat_bind; [apply sat_ensure; exact Logic.I|]. intros ? _ Hci.
  eapply sat_bind; [apply sat_true; unfold verifyCookie; destruct ck; [apply safe_bind; [apply safe_ensure; exact Logic.I|intros; apply safe_ensure; exact Logic.I]|exact Logic.I]|]. intros ? _ _.
  st (query_safe c' S) as q E4.
  eapply sat_bind; [apply sat_true; unfold replayResult; apply safe_bind; [apply offered_safe, S|intros; destruct (_ || _); [exact Logic.I|apply (wn_replay w Hw)]]|]. intros rc _ _.
  eapply (sat_bind (fun r => let '(t, rs, mode, age) := r in (forall r, rs = Some r -> rs_secret r <> None /\ int64 (w_now2 w - rs_issue r) = true))).
  { destruct q as [t|[[id md] age]]; [cbn; discriminate|]. st (wn_dec w Hw id) as p E5. destruct p as [t rs]. cbn. intros r ->. exact (wn_dec_set w Hw _ _ _ E5). }
  intros [[[pt rs] mode] age] _ Hrs.
  eapply (sat_bind (fun r => let '(t, rs', mode') := r in (forall r, rs' = Some r -> rs_secret r <> None /\ int64 (w_now2 w - rs_issue r) = true) /\ (mode' <> None -> rs' <> None))).
  { destruct rs as [r|]; [|cbn; split; [discriminate|congruence]].
    st (resumption_safe r v cipher) as ok E6. destruct ok; cbn; [split; [exact Hrs|discriminate]|split; [discriminate|congruence]]. }
  intros [[pt' rs'] mode'] _ [Hrs' Hm]. cbn. constructor; cbn [n_hello n_cookie n_cipher n_ech n_echState n_res n_pskMode].
  - exact S.
  - intros k Ek. exact (proj1 (H1 k Ek)).
  - intros Hx. destruct (s_hctx s); [|congruence]. destruct ck; [discriminate Hone|reflexivity].
  - intros p Ep. rewrite Ep in Hci. apply N.eqb_eq, Hci.
  - exact Rj.
  - exact Ac.
  - exact Hrs'.
  - exact Hm.
Qed.
Lemma setup_sat cipher c o rs ck pt prev :
  hello_set c -> (forall k, ck = Some k -> ck_chloHash k <> None) -> (forall r, rs = Some r -> rs_secret r <> None) ->
  (forall hc, prev = Some hc -> ck = None -> e_hash e cipher = Ok (hc_hash hc)) ->
  sat (fun r => let '(h, k, hc) := r in hash_ok h /\ hc_hash hc = h /\ match rs with Some _ => kearly h k | None => k = ks_init end)
    (setupScheduler e cipher c o rs ck pt prev).
Proof.
  intros [Hs Hc] Hck Hrs Hp. unfold setupScheduler. sb (hash_sat cipher) as h Eh Hh.
  eapply (sat_bind (fun hc => hc_hash hc = h)).
  { destruct ck as [k|].
    - assert (S : safe (encodeHandshake (MMessageHash (ck_chloHash k)))) by (apply safe_encode; exact (Hck _ eq_refl)). st S as m Em.
      sb (sat_get KCookie _ Hc) as x Ex Hx. destruct x as [[]|]; try exact Logic.I. destruct (Hx _ eq_refl) as [Sb _]. sb (sat_deref b Sb) as cb Ecb Hcb.
      eapply sat_bind; [|intros hrr _ Hz; exact Hz]. apply sat_safe; [|reflexivity]. unfold getStatelessHrr.
      apply safe_bind; [apply safe_encodeExtension; exact Logic.I|]. intros e1 X1.
      assert (T1 := encodeExtension_set _ _ X1).
      apply safe_bind; [destruct (ck_group k); [apply safe_bind; [apply safe_encodeExtension; exact Logic.I|intros; exact Logic.I]|exact Logic.I]|]. intros l X2.
      assert (T2 : Forall xset l).
      { destruct (ck_group k); [|injection X2 as <-; constructor]. destruct (bind_Ok _ _ _ X2) as (y & Y & Z). injection Z as <-. constructor; [exact (encodeExtension_set _ _ Y)|constructor]. }
      apply safe_bind; [apply safe_encodeExtension; discriminate|]. intros e2 X3. assert (T3 := encodeExtension_set _ _ X3).
      apply safe_encode. cbn. split; [discriminate|]. constructor; [exact T1|]. apply Forall_app. split; [exact T2|]. constructor; [exact T3|constructor].
    - cbn. destruct prev as [p|]; [|reflexivity]. specialize (Hp _ eq_refl eq_refl). congruence. }
  intros hc _ Hhc. destruct rs as [r|]; [|cbn; auto].
  sb (sat_deref (rs_secret r) (Hrs _ eq_refl)) as psk E1 H1. sb (sat_ex _ _ (do_early h Hh psk)) as k1 E2 H2.
  assert (Hb : len_ok h (h_blank (hc_hash hc))) by (rewrite Hhc; apply blank_ok, Hh).
  sb (sat_ex _ _ (get_early h Hh k1 (match pt with PskExternal => ExternalPskBinder | _ => ResumptionPskBinder end) _ H2 Hb)) as bk E3 H3.
  assert (Lb : len_ok h bk) by (destruct pt; exact H3). st (safe_binderLength _ Hc) as bl E4. eapply sat_bind; [apply sat_ensure; exact Logic.I|]. intros ? _ _. cbv zeta.
  sb (sat_get KClientPresharedKey _ Hc) as p Ep Hpp. destruct p as [[]|]; try exact Logic.I. destruct p as [ids [|b bs]]; [exact Logic.I|].
  destruct (Hpp _ eq_refl) as [[_ Sb] _]. apply Forall_inv in Sb. subst h.
  sb (sat_ex _ _ (finished_ok' (hc_hash hc) Hh (hc_append hc (takeN (blen o - bl) o)) bk eq_refl Lb)) as ex1 E5 H5.
  sb (sat_deref b Sb) as got E6 H6. eapply sat_bind; [apply sat_ensure; exact Logic.I|]. intros ? _ _. cbn. auto.
Qed.
Definition base (s : sstate) : Prop := osafe ev_safe (s_read s) /\ osafe ev_safe (s_hsRead s) /\ osafe wl_safe (s_write s).
Lemma base_inv s : inv_safe e s -> base s. Proof. intros (H1 & H2 & H3 & _). exact (conj H1 (conj H2 H3)). Qed.
Lemma dummy_hrr_safe c h psk m : hash_ok h -> hc_hash c = h -> hrr_session_id m <> None -> Forall xset (hrr_extensions m) -> safe (calcAcceptHRR c h psk m).
Proof.
  intros Hh Hc H1 H2. unfold calcAcceptHRR, makeDummyHRR. destruct (hrr_session_id m) eqn:E; [|congruence]. cbn [bind]. apply safe_bind.
  - apply safe_encode. cbn. try rewrite E. split; [discriminate|]. apply Forall_map. eapply Forall_impl; [|exact H2]. intros x Hx. unfold zero_ech.
    destruct (_ =? _); [discriminate|exact Hx].
  - intros d _. destruct (ech_secret_ok h Hh psk HrrEchAccept (hc_context (hc_append c d))) as (x & Ex & _).
    { unfold hc_context, hc_append. cbn [hc_hash]. rewrite Hc. apply context_len, Hh. }
    rewrite Ex. cbn [bind]. destruct (_ <? _); exact Logic.I.
Qed.
Lemma accept_hrr_sat c h psk m : hash_ok h -> hc_hash c = h -> hrr_session_id m <> None -> Forall xset (hrr_extensions m) ->
  sat (fun m' => hrr_session_id m' <> None /\ Forall xset (hrr_extensions m')) (setAcceptHRR c h psk m).
Proof.
  intros Hh Hc H1 H2. unfold setAcceptHRR. eapply sat_bind; [apply sat_true, safe_encodeExtension; exact Logic.I|]. intros x Ex _. cbv zeta.
  assert (X := encodeExtension_set _ _ Ex).
  eapply sat_bind; [apply sat_true, dummy_hrr_safe; cbn [hrr_session_id hrr_extensions]; [exact Hh|exact Hc|exact H1|apply Forall_app; split; [exact H2|repeat constructor; exact X]]|].
  intros a _ _. cbn. split; [exact H1|]. apply Forall_app. split; [exact H2|]. repeat constructor. discriminate.
Qed.
Lemma accept_sh_sat c h psk m : hash_ok h -> hc_hash c = h -> sh_session_id m <> None -> Forall xset (sh_extensions m) ->
  sat (fun m' => sh_session_id m' <> None /\ Forall xset (sh_extensions m')) (setAcceptSH c h psk m).
Proof.
  intros Hh Hc H1 H2. unfold setAcceptSH. eapply sat_bind.
  - apply sat_true. unfold calcAcceptSH, makeDummyServerHello. destruct (sh_session_id m) eqn:E; [|congruence]. cbn [bind]. apply safe_bind.
    + apply safe_encode. cbn. try rewrite E. split; [discriminate|exact H2].
    + intros d _. destruct (ech_secret_ok h Hh psk EchAcceptE (hc_context (hc_append c d))) as (x & Ex & _); [|rewrite Ex; exact Logic.I].
      unfold hc_context, hc_append. cbn [hc_hash]. rewrite Hc. apply context_len, Hh.
  - intros a _ _. cbn. auto.
Qed.
Lemma retry_sat s w n sid hc group ed : base s -> hello_ready e s -> neg_safe s w n -> n_cookie n = None ->
  sat (fun r => inv_safe e (fst r)) (hello_retry e s n sid hc group ed).
Proof.
  intros (B1 & B2 & B3) Hr Hn Hck. unfold hello_retry. sb (hash_sat (n_cipher n)) as h Eh Hh.
  eapply sat_bind; [apply sat_true, safe_encode; discriminate|]. intros m _ _. cbv zeta.
  eapply (sat_bind (fun m' => hrr_session_id m' <> None /\ Forall xset (hrr_extensions m'))).
  { unfold getHelloRetryRequest. eapply sat_bind; [apply sat_true, safe_encodeExtension; exact Logic.I|]. intros e1 X1 _.
    eapply sat_bind; [apply sat_true, safe_encodeExtension; exact Logic.I|]. intros e2 X2 _. cbn. split; [discriminate|].
    repeat constructor; eapply encodeExtension_set; eassumption. }
  intros hrr0 _ [Z1 Z2]. eapply (sat_bind (fun m' => hrr_session_id m' <> None /\ Forall xset (hrr_extensions m'))).
  { destruct (n_ech n); [cbn; auto|apply accept_hrr_sat; auto|cbn; auto]. }
  intros hrr _ [Y1 Y2]. eapply sat_bind; [apply sat_true, safe_encode; split; assumption|]. intros b _ _.
  destruct (s_write s) as [wl|] eqn:Ew; [|exfalso; exact (proj1 (proj2 Hr) Ew)].
  pose proof (wl_write_safe wl 22 [b] (B3 _ eq_refl)) as Gw. destruct (wl_write wl 22 [b]) as [wl' r]. destruct Gw as (_ & Gw & _). cbn [snd].
  st Gw as ct Ect. cbn [sat fst]. unfold inv_safe.
  cbn [upd_state upd_hello s_state s_read s_hsRead s_write s_hctx s_ech s_echState s_cipher]. split; [|split; [exact B2|split; [rewrite Ew; exact B3|]]].
  - intros x [= <-]. exact Logic.I.
  - unfold hello_ready. cbn [upd_state upd_hello s_state s_read s_hsRead s_write s_hctx s_ech s_echState s_cipher]. split; [discriminate|]. split; [try rewrite Ew; discriminate|]. split; [discriminate|].
    split; [|split; [intros X; exact (ns_accepted s w n Hn X Hck)|intros X; exact (proj1 (ns_rejected s w n Hn X))]].
    intros hc' [= <-]. exists (n_cipher n). split; [reflexivity|]. exact Eh.
Qed.
Lemma sh_sat v random cipher psk share sid : sat (fun m => sh_session_id m <> None /\ Forall xset (sh_extensions m)) (getServerHello v random cipher psk share sid).
Proof.
  unfold getServerHello. eapply sat_bind; [apply sat_true, safe_encodeExtension; exact Logic.I|]. intros e1 X1 _.
  eapply (sat_bind (Forall xset)).
  { destruct share as [[g b]|]; [|constructor]. eapply sat_bind; [apply sat_true, safe_encodeExtension; discriminate|]. intros x X _. repeat constructor. exact (encodeExtension_set _ _ X). }
  intros e2 _ X2. eapply (sat_bind (Forall xset)).
  { destruct psk; [|constructor]. eapply sat_bind; [apply sat_true, safe_encodeExtension; exact Logic.I|]. intros x X _. repeat constructor. exact (encodeExtension_set _ _ X). }
  intros e3 _ X3. cbn. split; [discriminate|]. constructor; [exact (encodeExtension_set _ _ X1)|]. apply Forall_app. auto.
Qed.
Lemma ee_safe alpn ed retry other : (forall l, retry = Some l -> Forall (fun p => snd p <> None) l) -> Forall xset other -> safe (encryptedExts alpn ed retry other).
Proof.
  intros Hr Ho. unfold encryptedExts.
  assert (S : forall x (b : bool), tset x -> sat (Forall xset) (if b then y <- encodeExtension x ;; Ok [y] else Ok [])).
  { intros x b T. destruct b; [|constructor]. eapply sat_bind; [apply sat_true, safe_encodeExtension, T|]. intros y Y _. repeat constructor. exact (encodeExtension_set _ _ Y). }
  assert (F : forall A (P : A -> Prop) r, sat P r -> safe r) by (intros A P [|[]]; cbn; auto).
  apply (F _ (fun _ => True)). eapply (sat_bind (Forall xset)).
  { destruct alpn as [p|]; [|constructor]. apply (S (XProtocolNameList [Some p]) true). repeat constructor. discriminate. }
  intros e1 _ X1. eapply (sat_bind (Forall xset)).
  { destruct ed; first [apply (S XServerEarlyData true); exact Logic.I|constructor]. }
  intros e2 _ X2. eapply (sat_bind (Forall xset)).
  { destruct retry as [l|]; [|constructor]. apply (S (XEchEncryptedExtensions l) true). exact (Hr _ eq_refl). }
  intros e3 _ X3. apply sat_true, safe_encode. cbn. repeat (apply Forall_app; split); assumption.
Qed.
Lemma request_safe : safe (certificateRequest e).
Proof.
  unfold certificateRequest. apply safe_bind; [apply safe_encodeExtension; exact Logic.I|]. intros x X.
  apply safe_bind; [destruct (e_verifier e); [apply (en_vexts e He)|exact Logic.I]|]. intros l Hl. apply safe_bind; [|intros; exact Logic.I].
  apply safe_encode. cbn. split; [discriminate|]. constructor; [exact (encodeExtension_set _ _ X)|].
  destruct (e_verifier e); [exact (en_vexts_set e He _ Hl)|injection Hl as <-; constructor].
Qed.
Lemma auth_sat c hc : hello_set c -> sat (fun r => hc_hash (snd r) = hc_hash hc) (server_auth e c hc).
Proof.
  intros Hc. unfold server_auth. eapply (sat_bind (fun p => self_safe (fst p))).
  { unfold chooseCert. sb (sat_get KSignatureAlgorithms _ (proj2 Hc)) as x E Hx. destruct x as [[]|]; try exact Logic.I. st (sni_safe c Hc) as sni E2.
    st (en_cert e He sni l c Hc) as r E3. destruct r as [[so sc]|]; [|exact Logic.I]. exact (en_cert_set e He _ _ _ _ _ E3). }
  intros [so scheme] _ Hs. cbn [fst] in Hs.
  eapply sat_bind; [apply sat_true; unfold certCompression; apply safe_bind; [apply safe_getExtension, (proj2 Hc)|intros x _; destruct x as [[]|]; try exact Logic.I; destruct (e_compAlgos e); exact Logic.I]|].
  intros algo _ _. destruct (so_async so) as [f|] eqn:Ea.
  - st (ss_async so Hs f Ea algo scheme hc) as p E. destruct p. reflexivity.
  - eapply sat_bind.
    { apply sat_true. unfold certificateBytes. destruct algo as [a|].
      - apply safe_bind; [apply (ss_compressed so Hs)|]. intros m _. unfold encodeHandshake. cbn [encode_body].
        apply safe_bind; [apply safe_bind; [|intros; exact Logic.I]|intros [b|] E; [|destruct (bind_Ok _ _ _ E) as (? & _ & K); discriminate]].
        + unfold encode_cc. sf.
        + sf.
      - apply safe_bind; [apply (ss_message so Hs)|]. intros m E. apply safe_encode. exact (ss_set so Hs m E). }
    intros m _ _. cbv zeta. st (ss_sign so Hs scheme CvServer (hc_context (hc_append hc m))) as sg E. reflexivity.
Qed.
Lemma flight_safe wl q : wl_safe wl -> wl <> WPlain -> safe (write_flight wl q).
Proof.
  intros Hw Hp. unfold write_flight. destruct (split_at_most 1000 q) as [a b]. pose proof (wl_write_safe wl 22 a Hw) as G. destruct (wl_write wl 22 a) as [wl1 r1].
  destruct G as (G1 & G2 & G3). destruct (G3 Hp) as [G4 G5]. apply safe_bind; [exact G2|]. intros c1 E1. destruct (queue_empty b); [exact Logic.I|].
  pose proof (wl_write_safe wl1 22 b G1) as F. destruct (wl_write wl1 22 b) as [wl2 r2]. destruct F as (F1 & F2 & F3). destruct (F3 G4) as [F4 F5]. cbn [snd].
  apply safe_bind; [exact F2|]. intros c2 E2. pose proof (G5 _ E1). pose proof (F5 _ E2). destruct (ct_data c1); [|congruence]. destruct (ct_data c2); [exact Logic.I|congruence].
Qed.

Definition key_stage (h : hashalg) (rs : option resstate) (k : ks) : Prop := match rs with Some _ => kearly h k | None => k = ks_init end.
Definition early_ready (ed : earlytype) (early : option (bytes * option evstate * bytes)) : Prop :=
  ed = EdAccepted -> exists t rl x, early = Some (t, rl, x) /\ (e_omitEarly e = false -> exists r, rl = Some r /\ ev_safe r).
Lemma early_keys_sat h k hc v cipher : hash_ok h -> hc_hash hc = h -> kearly h k ->
  sat (fun r => let '(_, rl, _) := r in e_omitEarly e = false -> exists r, rl = Some r /\ ev_safe r) (early_keys e h k hc v cipher).
Proof.
  intros Hh Hc Hk. assert (L : len_ok h (hc_context hc)) by (unfold hc_context; rewrite Hc; apply context_len, Hh). unfold early_keys.
  sb (sat_ex _ _ (get_early h Hh k ClientEarlyTraffic _ Hk L)) as t E1 H1.
  eapply (sat_bind (fun rl => e_omitEarly e = false -> exists r, rl = Some r /\ ev_safe r)).
  { destruct (e_omitEarly e); [cbn; discriminate|]. sb (new_read_safe h v cipher t false Hh H1) as r E2 H2. cbn. eauto. }
  intros rl _ Hr. sb (sat_ex _ _ (get_early h Hh k EarlyExporter _ Hk L)) as x E3 H3. exact Hr.
Qed.
Lemma get_finished_sat h hc sec : hash_ok h -> hc_hash hc = h -> len_ok h sec -> sat (fun p => hc_hash (snd p) = h) (getFinished hc sec).
Proof.
  intros Hh Hc L. unfold getFinished. sb (sat_ex _ _ (finished_ok' h Hh hc sec Hc L)) as v E1 H1.
  eapply sat_bind; [apply sat_true, safe_encode; discriminate|]. intros m _ _. exact Hc.
Qed.
Lemma finish_sat w s n sid t h k hc alpn skew ed early kt group kex :
  world_safe w -> base s -> hello_ready e s -> neg_safe s w n -> hash_ok h -> hc_hash hc = h -> key_stage h (n_res n) k ->
  early_ready ed early -> (kex = None -> n_res n <> None) ->
  sat (fun r => inv_safe e (fst r)) (hello_finish e w s n sid t h k hc alpn skew ed early kt group kex).
Proof.
  intros Hw (B1 & B2 & B3) Hr Hn Hh Hc Hk Hed Hkex. unfold hello_finish. cbv zeta.
  eapply (sat_bind (khs h)).
  { destruct kex as [[sh dh]|].
    - apply sat_ex, do_hs_dh; [exact Hh|]. unfold key_stage in Hk. destruct (n_res n); [left|right]; exact Hk.
    - apply sat_ex, do_hs; [exact Hh|]. unfold key_stage in Hk. destruct (n_res n); [exact Hk|]. exfalso. apply Hkex; reflexivity. }
  intros k2 _ H2. eapply (sat_bind (Forall xset)).
  { destruct (e_extensions e) as [f|] eqn:Ef; [|constructor]. apply sat_safe; [exact (en_exts e He f _ Ef (ns_hello s w n Hn))|]. intros l El. exact (en_exts_set e He f _ l Ef El). }
  intros exts _ Hx. eapply sat_bind; [apply sat_ensure; exact Logic.I|intros ? _ _]. eapply sat_bind; [apply sat_ensure; exact Logic.I|intros ? _ _].
  st (wn_random w Hw) as random Er.
  eapply sat_bind; [apply sh_sat|]. intros sh0 _ [Z1 Z2].
  eapply (sat_bind (fun m => sh_session_id m <> None /\ Forall xset (sh_extensions m))).
  { destruct (n_ech n); [split; assumption|apply accept_sh_sat; assumption|split; assumption]. }
  intros sh _ [Y1 Y2]. eapply (sat_bind (fun r => forall l, r = Some l -> Forall (fun p => snd p <> None) l)).
  { destruct (n_ech n) eqn:Ee; try (cbn; discriminate). destruct (ns_rejected s w n Hn Ee) as [R1 R2].
    destruct (e_ech e) as [d|] eqn:Ed; [|congruence]. destruct (n_echState n) as [p|]; [|congruence].
    st (ds_retry d (en_ech e He d Ed) (eh_outerSni p)) as r Er2. cbn. intros l [= <-]. exact (ds_retry_set d (en_ech e He d Ed) _ _ Er2). }
  intros retry _ Hre. eapply sat_bind; [apply sat_true, safe_encode; split; assumption|]. intros bsh _ _.
  assert (L1 : len_ok h (hc_context (hc_append hc bsh))) by (unfold hc_context, hc_append; cbn [hc_hash]; rewrite Hc; apply context_len, Hh).
  sb (sat_ex _ _ (get_hs h Hh k2 ServerHandshakeTraffic _ H2 L1)) as hws E3 H3.
  sb (new_write_safe h LvHandshake (n_version n) (n_cipher n) hws Hh H3) as hwl E4 H4.
  sb (sat_ex _ _ (get_hs h Hh k2 ClientHandshakeTraffic _ H2 L1)) as hrs E5 H5.
  eapply sat_bind; [apply (new_read_safe h (n_version n) (n_cipher n) hrs _ Hh H5)|]. intros hrl _ H6.
  st (ee_safe alpn ed retry exts Hre Hx) as bee E7.
  set (ra := match e_authMode e with AuthNone => _ | _ => _ end).
  eapply (sat_bind (fun _ => True)).
  { destruct ra; [apply sat_true, request_safe|exact Logic.I]. }
  intros [reqExts creq] _ _.
  match goal with |- context [server_auth e _ ?x] => set (hc3 := x) end.
  assert (Hc3 : hc_hash hc3 = h) by (subst hc3; destruct ra; unfold hc_append; cbn [hc_hash]; exact Hc).
  eapply (sat_bind (fun r => hc_hash (snd r) = h)).
  { destruct (n_res n) as [r|]; [exact Hc3|]. sb (auth_sat (n_hello n) hc3 (ns_hello s w n Hn)) as r Er2 H8. destruct r as [[[[cert scheme] m] sig] hc']. cbn [snd] in H8.
    eapply sat_bind; [apply sat_true, safe_encode; discriminate|]. intros v _ _. cbn. congruence. }
  intros [[[[scert ccert] scheme] auth] hc4] _ H8. cbn [snd] in H8.
  sb (get_finished_sat h hc4 hws Hh H8 H3) as r Er2 H9. destruct r as [bfin hc5]. cbn [snd] in H9.
  eapply sat_bind; [apply sat_true, flight_safe; apply H4|]. intros enc _ _.
  destruct (s_write s) as [wl|] eqn:Ew; [|exfalso; exact (proj1 (proj2 Hr) Ew)].
  pose proof (wl_write_safe wl 22 [bsh] (B3 _ eq_refl)) as Gw. destruct (wl_write wl 22 [bsh]) as [wl' r]. destruct Gw as (_ & Gw & _). cbn [snd].
  st Gw as ct Ect. sb (sat_ex _ _ (do_master h Hh k2 H2)) as k3 E10 H10.
  assert (L5 : len_ok h (hc_context hc5)) by (unfold hc_context; rewrite H9; apply context_len, Hh).
  sb (sat_ex _ _ (get_master h Hh k3 ExporterMaster _ H10 L5)) as ems E11 H11.
  sb (sat_ex _ _ (do_app h Hh k3 _ H10 L5)) as k4 E12 H12. destruct H12 as [H12 H13].
  sb (sat_ex _ _ (get_app h k4 ServerAppTraffic H13)) as aws E14 H14.
  sb (new_write_safe h LvAppTraffic (n_version n) (n_cipher n) aws Hh H14) as awl E15 H15.
  cbv zeta.
  match goal with |- sat _ (match ed with _ => _ end) => idtac end.
  assert (InF : forall st' : sstate, s_ks st' = Some (h, k4) -> s_version st' <> None -> s_cipher st' <> None -> s_hsTime st' <> None -> s_read st' <> None ->
     s_write st' <> None -> s_hctx st' = Some hc5 -> s_clientHsSecret st' = Some hrs -> in_flight e st' h k4).
  { intros st' I1 I2 I3 I4 I5 I6 I7 I8. constructor; auto; [constructor; auto|exists hc5; auto|exists hrs; auto]. }
  assert (Rd : osafe ev_safe (Some hrl)) by (intros x [= <-]; exact H6).
  assert (Wr : osafe wl_safe (Some awl)) by (intros x [= <-]; apply H15).
  assert (Other : forall eexp st', (st' = SExpectingCertificate \/ st' = SExpectingFinished) -> inv_safe e
     (mkS st' (Some hrl) (Some awl) (s_hsRead s) (Some hc5) (Some (h, k4)) (Some (n_version n)) (Some (n_cipher n)) group (Some kt)
        (Some match s_early s with Some x => x | None => ed end) (Some (n_pskType n)) (n_pskMode n) (Some (n_replay n)) alpn (Some hrs) (s_chain s) ccert scert reqExts scheme
        (Some ems) eexp (s_resumption s) skew (match n_res n with Some r => rs_appToken r | None => None end) (Some t)
        (Some (ch_random (n_hello n))) (n_ech n) (n_echState n))).
  { intros eexp st' Hst. unfold inv_safe. cbn [s_read s_hsRead s_write s_state]. split; [exact Rd|]. split; [exact B2|]. split; [exact Wr|].
    destruct Hst as [-> | ->]; exists h, k4; apply InF; cbn; try reflexivity; discriminate. }
  destruct ed.
  - cbn [sat fst]. apply Other. destruct ra; auto.
  - cbn [sat fst]. apply Other. destruct ra; auto.
  - destruct (Hed eq_refl) as (ets & erl & eexp & -> & He2). destruct (e_omitEarly e).
    + cbn [sat fst]. apply Other. auto.
    + destruct (He2 eq_refl) as (r0 & -> & Hr0). cbn [sat fst]. unfold inv_safe. cbn [s_read s_hsRead s_write s_state].
      split; [intros x [= <-]; exact Hr0|]. split; [exact Rd|]. split; [exact Wr|]. split; [discriminate|]. exists h, k4. apply InF; cbn; try reflexivity; discriminate.
Qed.
Lemma hello_sat w s c o : world_safe w -> base s -> hello_ready e s -> hello_set c -> sat (fun r => inv_safe e (fst r)) (handle_hello e w s c o).
Proof.
  intros Hw B Hr Hc. unfold handle_hello. sb (negotiate_sat w s c o Hw Hc Hr) as r E Hn. destruct r as [d sni|n].
  { cbn. destruct B as (B1 & B2 & B3). unfold inv_safe. cbn. auto. }
  cbv zeta. pose proof (ns_hello s w n Hn) as Hs. sb (sat_deref _ (proj1 Hs)) as sid E1 H1.
  eapply sat_bind; [apply setup_sat|].
  - exact Hs.
  - exact (ns_cookie s w n Hn).
  - intros r Er. apply (ns_res s w n Hn r Er).
  - intros hc Eh _. destruct Hr as (_ & _ & _ & Hx & _). destruct (Hx hc Eh) as (p & Ep & Eq). rewrite (ns_cipher s w n Hn p Ep). exact Eq.
  - intros [[h k] hc] _ (Hh & Hhc & Hk).
    eapply sat_bind; [apply sat_true; unfold negotiateAlpn; apply safe_bind; [apply safe_getExtension, (proj2 Hs)|]; intros x _; destruct x as [[]|]; try (destruct (e_alpnMode e); exact Logic.I);
      destruct (negotiateB _ _); [exact Logic.I|destruct (e_alpnMode e); exact Logic.I]|].
    intros alpn _ _.
    eapply sat_bind; [apply sat_true; unfold clockSkew; destruct (n_res n) as [r|] eqn:Er; [|exact Logic.I]; destruct (n_age n); [|exact Logic.I]; unfold chk64;
      rewrite (proj2 (ns_res s w n Hn r Er)); exact Logic.I|].
    intros skew _ _.
    eapply (sat_bind (fun ed => ed = EdAccepted -> n_res n <> None)).
    { unfold negotiateEarly. st (offered_safe (n_hello n) Hs) as oo Eo. destruct (negb oo); [cbn; discriminate|]. destruct (negb _); [cbn; discriminate|].
      destruct (n_res n); [|cbn; discriminate]. apply sat_safe; [exact Logic.I|]. discriminate. }
    intros ed _ Hed. eapply (sat_bind (early_ready ed)).
    { destruct ed; try (unfold early_ready; cbn; discriminate). unfold key_stage. destruct (n_res n); [|exfalso; apply Hed; reflexivity].
      sb (early_keys_sat h k hc (n_version n) (n_cipher n) Hh Hhc Hk) as x Ex Hx. destruct x as [[t rl] x]. unfold early_ready. cbn. intros _. exists t, rl, x. auto. }
    intros early _ Her.
    assert (Full : sat (fun r => inv_safe e (fst r)) ('(g, share) <- negotiateGroup e (n_hello n) ;;
          match share with
          | None =>
              _ <- ensure (match s_group s, n_cookie n with None, None => true | _, _ => false end) (alert al_illegal_parameter) ;;
              hello_retry e s n sid hc g ed
          | Some cs =>
              kx <- w_kex w g cs ;;
              hello_finish e w s n sid match n_res n with Some r => rs_hsTime r | None => w_now w end h k hc alpn skew ed early
                (match s_kexType s with Some t => t | None => KexOneRtt end) (Some g) (Some kx)
          end)).
    { eapply sat_bind.
      - apply sat_true. unfold negotiateGroup. apply safe_bind; [apply safe_getExtension, (proj2 Hs)|]. intros x _. destruct x as [[]|]; try exact Logic.I.
        destruct (negotiate _ _); [|exact Logic.I]. apply safe_bind; [apply safe_getExtension, (proj2 Hs)|]. intros y Ey. destruct y as [[]|]; try exact Logic.I.
        apply safe_bind; [apply safe_ensure; exact Logic.I|]. intros _ _. destruct (findShare _ _) as [b|] eqn:Ef; [|exact Logic.I].
        apply safe_bind; [apply safe_deref|intros; exact Logic.I]. destruct (getExtension_set _ _ _ Ey) as [S _]. cbn in S.
        clear - Ef S. revert Ef. induction l0 as [|[g' b'] l0 IH]; cbn [findShare]; [discriminate|]. inversion S; subst. destruct (_ =? _); [intros [= <-]; assumption|auto].
      - intros [g [cs|]] _ _.
        + st (wn_kex w Hw g cs) as kx Ek. apply finish_sat; auto. discriminate.
        + eapply sat_bind; [apply sat_ensure; exact Logic.I|]. intros ? _ Hck. apply (retry_sat s w); auto. destruct (s_group s), (n_cookie n); try discriminate; reflexivity. }
    destruct (n_pskMode n) as [[|?]|] eqn:Em; [|exact Full|exact Full]. apply finish_sat; auto. intros _. apply (ns_mode s w n Hn). rewrite Em. discriminate.
Qed.

(** ** The other handlers *)
Definition hres_safe (r : hres) : Prop :=
  match r with HOk s _ => inv_safe e s | HErr s x => esafe x /\ base s | HSilent s => base s end.
Lemma of_res_safe s r : base s -> sat (fun p => inv_safe e (fst p)) r -> hres_safe (of_res s r).
Proof. intros B H. destruct r as [[s' l]|x]; cbn in *; auto. Qed.
Lemma with_write_safe s ty q f : base s -> s_write s <> None ->
  (forall wl ct, wl_safe wl -> hres_safe (f (upd_write s (Some wl)) ct)) -> hres_safe (with_write s ty q f).
Proof.
  intros (B1 & B2 & B3) Hw Hf. unfold with_write. destruct (s_write s) as [wl|] eqn:E; [|congruence].
  pose proof (wl_write_safe wl ty q (B3 _ eq_refl)) as G. destruct (wl_write wl ty q) as [wl' r]. destruct G as (G1 & G2 & _). cbv zeta.
  destruct r as [ct|x]; [apply Hf, G1|]. cbn. split; [destruct x; exact G2|]. unfold base. cbn. split; [exact B1|]. split; [exact B2|]. intros y [= <-]. exact G1.
Qed.
Lemma kept_same s s' h k : kept e s h k -> s_ks s' = s_ks s -> s_version s' = s_version s -> s_cipher s' = s_cipher s -> s_hsTime s' = s_hsTime s -> kept e s' h k.
Proof. intros [K1 K2 K3 K4 K5 K6] E1 E2 E3 E4. constructor; congruence. Qed.
Lemma flight_same s s' h k : in_flight e s h k -> s_ks s' = s_ks s -> s_version s' = s_version s -> s_cipher s' = s_cipher s -> s_hsTime s' = s_hsTime s ->
  s_read s' <> None -> s_write s' <> None -> s_clientHsSecret s' = s_clientHsSecret s ->
  (s_hctx s' = s_hctx s \/ exists hc b, s_hctx s = Some hc /\ s_hctx s' = Some (hc_append hc b)) -> in_flight e s' h k.
Proof.
  intros [K1 K2 K3 K4 (hc & K5 & K5') (x & K6 & K6')] E1 E2 E3 E4 E5 E6 E7 E8. constructor; auto.
  - exact (kept_same s s' h k K1 E1 E2 E3 E4).
  - destruct E8 as [E8|(hc' & b & Ea & Eb)]; [exists hc; split; congruence|]. exists (hc_append hc' b). split; [exact Eb|]. unfold hc_append. cbn [hc_hash]. congruence.
  - exists x. split; congruence.
Qed.
Lemma unparsed_some s : s_read s <> None -> no_unparsed s <> None.
Proof. unfold no_unparsed. destruct (s_read s); congruence. Qed.

Lemma app_write_safe s q : inv_safe e s -> s_state s = SAcceptingEarlyData \/ s_state s = SExpectingFinished \/ s_state s = SAcceptingData -> hres_safe (handle_app_write s q).
Proof.
  intros H Hst. pose proof (base_inv s H) as B. destruct H as (H1 & H2 & H3 & H4). unfold handle_app_write. apply with_write_safe; [exact B| |].
  - destruct Hst as [E|[E|E]]; rewrite E in H4.
    + destruct H4 as (_ & h & k & F). exact (if_write _ _ _ _ F).
    + destruct H4 as (h & k & F). exact (if_write _ _ _ _ F).
    + apply H4.
  - intros wl ct Hwl. cbn. unfold inv_safe. cbn [upd_layers upd_write s_read s_hsRead s_write s_state]. split; [exact H1|]. split; [exact H2|]. split; [intros x [= <-]; exact Hwl|].
    destruct Hst as [E|[E|E]]; rewrite E in H4 |- *.
    + destruct H4 as (R & h & k & F). split; [exact R|]. exists h, k. eapply flight_same; [exact F| | | | | | | |]; cbn; auto; [exact (if_read _ _ _ _ F)|discriminate].
    + destruct H4 as (h & k & F). exists h, k. eapply flight_same; [exact F| | | | | | | |]; cbn; auto; [exact (if_read _ _ _ _ F)|discriminate].
    + destruct H4 as (R & W & h & k & K & L). split; [exact R|]. split; [discriminate|]. exists h, k. split; [|exact L]. eapply kept_same; [exact K| | | |]; reflexivity.
Qed.
Lemma eoed_safe s o : inv_safe e s -> s_state s = SAcceptingEarlyData -> hres_safe (handle_eoed s o).
Proof.
  intros H E. pose proof (base_inv s H) as B. destruct H as (H1 & H2 & H3 & H4). rewrite E in H4. destruct H4 as (R & h & k & F). unfold handle_eoed.
  pose proof (unparsed_some s (if_read _ _ _ _ F)). destruct (if_hctx _ _ _ _ F) as (hc & Eh & Hh). rewrite Eh.
  destruct (no_unparsed s) as [[]|]; [|cbn; auto|congruence]. cbn. unfold inv_safe. cbn [upd_layers upd_state upd_read upd_hs s_read s_hsRead s_write s_state].
  split; [exact H2|]. split; [intros x [=]|]. split; [exact H3|]. exists h, k. eapply flight_same; [exact F| | | | | | | |]; cbn; auto.
  - exact (if_write _ _ _ _ F).
  - right. exists hc, o. auto.
Qed.
Lemma entry_safe l r : safe (checkCertEntry l r).
Proof. unfold checkCertEntry. destruct (forallb _ _); [apply dup_safe|exact Logic.I]. Qed.
Lemma make_certs_sat req l : forall leaf, sat (Forall peer_safe) (make_certs e req l leaf).
Proof.
  induction l as [|x l IH]; intros leaf; cbn [make_certs]; [constructor|].
  st (entry_safe (ce_extensions x) req) as u Eu. eapply (sat_bind peer_safe).
  { apply sat_safe; [apply (en_peer e He)|]. intros p Ep s c t sig. exact (en_verify e He x leaf p s c t sig Ep). }
  intros p _ Hp. sb (IH false) as ps Ep Hps. constructor; assumption.
Qed.
Lemma certificate_sat s m o : inv_safe e s -> s_state s = SExpectingCertificate -> cmsg_set m -> sat (fun r => inv_safe e (fst r)) (handle_certificate e s m o).
Proof.
  intros (H1 & H2 & H3 & H4) E Hm. rewrite E in H4. destruct H4 as (h & k & F). unfold handle_certificate. destruct (if_hctx _ _ _ _ F) as (hc & Eh & Hh). rewrite Eh. cbv zeta.
  sb (sat_deref _ (proj1 Hm)) as ctx E1 H5. eapply sat_bind; [apply sat_ensure; exact Logic.I|]. intros ? _ _.
  sb (make_certs_sat (s_certReqExts s) (cm_list m) true) as certs Ec Hc.
  assert (Fl : forall ch cc st', in_flight e (upd_state (upd_certs (upd_hs s (s_hsRead s) (Some (hc_append hc o))) ch cc) st') h k).
  { intros. eapply flight_same; [exact F| | | | | | | |]; cbn; auto; [exact (if_read _ _ _ _ F)|exact (if_write _ _ _ _ F)|]. right. exists hc, o. auto. }
  destruct certs as [|p ps].
  - destruct (e_authMode e); try exact Logic.I. cbn [sat fst]. unfold inv_safe. cbn [upd_layers upd_state upd_certs upd_hs s_read s_hsRead s_write s_state].
    split; [exact H1|]. split; [exact H2|]. split; [exact H3|]. exists h, k. apply Fl.
  - cbn [sat fst]. unfold inv_safe. cbn [upd_layers upd_state upd_certs upd_hs s_read s_hsRead s_write s_state s_chain].
    split; [exact H1|]. split; [exact H2|]. split; [exact H3|]. split; [exists p, ps; auto|]. exists h, k. apply Fl.
Qed.
Lemma certificate_verify_sat s m o : inv_safe e s -> s_state s = SExpectingCertificateVerify -> cv_signature m <> None ->
  sat (fun r => inv_safe e (fst r)) (handle_certificate_verify e s m o).
Proof.
  intros (H1 & H2 & H3 & H4) E Hm. rewrite E in H4. destruct H4 as ((p & l & Ec & Hp) & h & k & F). unfold handle_certificate_verify. destruct (if_hctx _ _ _ _ F) as (hc & Eh & Hh).
  eapply sat_bind; [apply sat_ensure; exact Logic.I|]. intros ? _ _. rewrite Ec, Eh. sb (sat_deref _ Hm) as sg E1 H5. pose proof (Forall_inv Hp) as Hp1.
  st (Hp1 (cv_algorithm m) CvClient (hc_context hc) sg) as u Eu.
  eapply (sat_bind (fun _ => True)).
  { destruct (e_verifier e) as [v|] eqn:Ev; [|exact Logic.I]. apply sat_true. apply safe_bind; [|intros; exact Logic.I].
    pose proof (en_verifier e He v (p :: l) Ev) as Sv. unfold as_verification. destruct (v (p :: l)) as [|[[aa|]| | | |]]; try exact Logic.I; exact Sv. }
  intros nc _ _. cbn [sat fst]. unfold inv_safe. cbn [upd_layers upd_state upd_certs upd_hs s_read s_hsRead s_write s_state s_chain].
  split; [exact H1|]. split; [exact H2|]. split; [exact H3|]. exists h, k. eapply flight_same; [exact F| | | | | | | |]; cbn; auto; [exact (if_read _ _ _ _ F)|exact (if_write _ _ _ _ F)|].
  right. exists hc, o. auto.
Qed.
Lemma ticket_safe w s rms tok h k : world_safe w -> kept e s h k -> len_ok h rms -> safe (ticket_message e w s rms tok).
Proof.
  intros Hw K L. unfold ticket_message. destruct (s_psk s) as [pt|]; [|destruct (e_ticketCipher e); exact Logic.I]. destruct (_ || _); [exact Logic.I|].
  rewrite (ke_ks _ _ _ _ K). pose proof (ke_version _ _ _ _ K). pose proof (ke_cipher _ _ _ _ K). pose proof (ke_time _ _ _ _ K).
  destruct (s_version s); [|congruence]. destruct (s_cipher s); [|congruence]. destruct (s_hsTime s); [|congruence].
  destruct (get_resumption h (ke_hash _ _ _ _ K) k rms L) as (sec & Es & _). rewrite Es. cbn [bind]. apply safe_bind; [apply (wn_age w Hw)|]. intros age _.
  apply safe_bind; [apply (wn_enc w Hw)|]. intros t _. destruct t as [[tk lt]|]; [|exact Logic.I].
  apply safe_bind.
  - destruct (acceptEarly _ _); [apply safe_bind; [apply safe_encodeExtension; exact Logic.I|intros; exact Logic.I]|exact Logic.I].
  - intros x Ex. apply safe_bind; [|intros; exact Logic.I]. apply safe_encode. cbn. split; [discriminate|]. split; [discriminate|].
    destruct (acceptEarly _ _); [|injection Ex as <-; constructor]. destruct (bind_Ok _ _ _ Ex) as (y & Y & Z). injection Z as <-. repeat constructor. exact (encodeExtension_set _ _ Y).
Qed.
Lemma finished_safe w s vd o : world_safe w -> inv_safe e s -> s_state s = SExpectingFinished -> vd <> None -> hres_safe (handle_finished e w s vd o).
Proof.
  intros Hw H E Hv. pose proof (base_inv s H) as B. destruct H as (H1 & H2 & H3 & H4). rewrite E in H4. destruct H4 as (h & k & F).
  pose proof (if_kept _ _ _ _ F) as K. pose proof (ke_hash _ _ _ _ K) as Hh. unfold handle_finished.
  destruct (if_hctx _ _ _ _ F) as (hc & Eh & Hhc). destruct (if_secret _ _ _ _ F) as (cs & Ecs & Lcs). rewrite Eh, Ecs, (ke_ks _ _ _ _ K).
  pose proof (ke_version _ _ _ _ K) as Kv. pose proof (ke_cipher _ _ _ _ K) as Kc.
  destruct (s_version s) as [version|] eqn:Ev; [|congruence]. destruct (s_cipher s) as [cipher|] eqn:Eci; [|congruence].
  destruct (finished_ok' h Hh hc cs Hhc Lcs) as (x & Ex & _). rewrite Ex. destruct vd as [got|]; [|congruence].
  destruct (crypto_equal x got); [|exact B]. cbn [negb]. pose proof (unparsed_some s (if_read _ _ _ _ F)). destruct (no_unparsed s) as [[]|]; [|exact B|congruence].
  destruct (get_app h k ClientAppTraffic (ke_app _ _ _ _ K)) as (ars & Ea & La). rewrite Ea. cbn [bind].
  pose proof (new_read_safe h version cipher ars false Hh La) as Sr. destruct (new_read e h version cipher ars false) as [rd|er]; [|cbn in Sr |- *; auto]. cbn [bind].
  assert (Lc : len_ok h (hc_context (hc_append hc o))) by (unfold hc_context, hc_append; cbn [hc_hash]; rewrite Hhc; apply context_len, Hh).
  destruct (get_master h Hh k ResumptionMaster _ (if_master _ _ _ _ F) Lc) as (rms & Em & Lm). rewrite Em. cbn [bind].
  destruct (do_clear h k (if_master _ _ _ _ F) (ke_app _ _ _ _ K)) as (k' & Ek & Hk). rewrite Ek. cbn [bind].
  set (s1 := upd_ks s (Some (h, k'))).
  assert (K1 : kept e s1 h k').
  { constructor; subst s1; cbn; auto; [rewrite Ev; discriminate|rewrite Eci; discriminate|exact (ke_time _ _ _ _ K)]. }
  assert (Fin : forall wl, wl_safe wl -> inv_safe e (upd_state (upd_finished (upd_read (upd_write s1 (Some wl)) (Some rd)) rms) SAcceptingData)).
  { intros wl Hwl. unfold inv_safe. cbn [upd_layers upd_state upd_finished upd_read upd_write s_read s_hsRead s_write s_state s_resumption]. split; [intros y [= <-]; exact Sr|].
    split; [exact H2|]. split; [intros y [= <-]; exact Hwl|]. split; [discriminate|]. split; [discriminate|]. exists h, k'. split; [|exact Lm].
    eapply kept_same; [exact K1| | | |]; reflexivity. }
  assert (Fin1 : inv_safe e (upd_state (upd_finished (upd_read s1 (Some rd)) rms) SAcceptingData)).
  { pose proof (if_write _ _ _ _ F) as W. unfold inv_safe. cbn [upd_layers upd_state upd_finished upd_read upd_write s_read s_hsRead s_write s_state s_resumption]. split; [intros y [= <-]; exact Sr|].
    split; [exact H2|]. split; [exact H3|]. split; [discriminate|]. split; [exact W|]. exists h, k'. split; [|exact Lm].
    eapply kept_same; [exact K1| | | |]; reflexivity. }
  destruct (negb (e_sendTicket e)); [exact Fin1|].
  pose proof (ticket_safe w s1 rms None h k' Hw K1 Lm) as St. destruct (ticket_message e w s1 rms None) as [[m|]|er].
  - apply with_write_safe; [exact B|exact (if_write _ _ _ _ F)|]. intros wl ct Hwl. apply Fin, Hwl.
  - exact Fin1.
  - cbn. split; [exact St|exact B].
Qed.
Lemma new_ticket_safe w s tok : world_safe w -> inv_safe e s -> s_state s = SAcceptingData -> hres_safe (handle_new_ticket e w s tok).
Proof.
  intros Hw H E. pose proof H as HI. pose proof (base_inv s H) as B. destruct H as (H1 & H2 & H3 & H4). rewrite E in H4. destruct H4 as (R & W & h & k & K & L). unfold handle_new_ticket.
  pose proof (ticket_safe w s (s_resumption s) tok h k Hw K L) as St. destruct (ticket_message _ _ _ _ _) as [[m|]|er]; [|exact HI|cbn; auto].
  apply with_write_safe; [exact B|exact W|]. intros wl ct Hwl. cbn. unfold inv_safe. cbn [upd_layers upd_write s_read s_hsRead s_write s_state]. rewrite E.
  split; [exact H1|]. split; [exact H2|]. split; [intros x [= <-]; exact Hwl|]. split; [exact R|]. split; [discriminate|]. exists h, k. split; [|exact L]. eapply kept_same; [exact K| | | |]; reflexivity.
Qed.
Lemma rekey_safe s f h k : base s -> kept e s h k ->
  (forall k' wl ws, kapp h k' -> wl_safe wl -> hres_safe (f (upd_write (upd_ks s (Some (h, k'))) (Some wl)) ws)) -> hres_safe (rekey_write e s f).
Proof.
  intros B K Hf. unfold rekey_write. rewrite (ke_ks _ _ _ _ K). pose proof (ke_version _ _ _ _ K). pose proof (ke_cipher _ _ _ _ K).
  destruct (s_version s) as [version|]; [|congruence]. destruct (s_cipher s) as [cipher|]; [|congruence]. pose proof (ke_hash _ _ _ _ K) as Hh.
  destruct (do_sku h Hh k (ke_app _ _ _ _ K)) as (k' & E1 & A1). rewrite E1. cbn [bind]. destruct (get_app h k' ServerAppTraffic A1) as (ws & E2 & L2). rewrite E2. cbn [bind].
  pose proof (new_write_safe h LvAppTraffic version cipher ws Hh L2) as S. destruct (new_write e h LvAppTraffic version cipher ws) as [wl|er]; cbn [bind]; [|cbn in S |- *; auto].
  apply Hf; [exact A1|apply S].
Qed.
Lemma data_inv_safe s h k : osafe ev_safe (s_read s) -> osafe ev_safe (s_hsRead s) -> osafe wl_safe (s_write s) -> s_state s = SAcceptingData ->
  s_read s <> None -> s_write s <> None -> kept e s h k -> len_ok h (s_resumption s) -> inv_safe e s.
Proof. intros. unfold inv_safe. rewrite H2. eauto 10. Qed.
Lemma ku_init_safe s req : inv_safe e s -> s_state s = SAcceptingData -> hres_safe (handle_ku_init e s req).
Proof.
  intros H E. pose proof (base_inv s H) as B. destruct H as (H1 & H2 & H3 & H4). rewrite E in H4. destruct H4 as (R & W & h & k & K & L). unfold handle_ku_init.
  pose proof (unparsed_some s R). destruct (no_unparsed s) as [[]|]; [|exact B|congruence].
  assert (Sm : safe (encodeHandshake (MKeyUpdate req))) by (apply safe_encode; exact Logic.I). destruct (encodeHandshake (MKeyUpdate req)) as [m|er]; [|cbn; auto].
  apply with_write_safe; [exact B|exact W|]. intros wl ct Hwl. assert (K1 : kept e (upd_write s (Some wl)) h k) by (eapply kept_same; [exact K| | | |]; reflexivity).
  apply rekey_safe with (h := h) (k := k).
  - destruct B as (B1 & B2 & B3). split; [exact B1|]. split; [exact B2|]. intros x [= <-]. exact Hwl.
  - exact K1.
  - intros k' wl' ws Hk Hwl'. cbn [hres_safe]. apply data_inv_safe with h k'; cbn; auto; [intros x [= <-]; exact Hwl'|discriminate|]. destruct K; constructor; cbn; auto.
Qed.
Lemma ku_safe s req : inv_safe e s -> s_state s = SAcceptingData -> hres_safe (handle_ku e s req).
Proof.
  intros H E. pose proof (base_inv s H) as B. destruct H as (H1 & H2 & H3 & H4). rewrite E in H4. destruct H4 as (R & W & h & k & K & L). unfold handle_ku.
  pose proof (unparsed_some s R). destruct (no_unparsed s) as [[]|]; [|exact B|congruence].
  rewrite (ke_ks _ _ _ _ K). pose proof (ke_version _ _ _ _ K) as Kv. pose proof (ke_cipher _ _ _ _ K) as Kc.
  destruct (s_version s) as [version|] eqn:Ev; [|congruence]. destruct (s_cipher s) as [cipher|] eqn:Eci; [|congruence]. pose proof (ke_hash _ _ _ _ K) as Hh.
  destruct (do_cku h Hh k (ke_app _ _ _ _ K)) as (k' & E1 & A1). rewrite E1. cbn [bind]. destruct (get_app h k' ClientAppTraffic A1) as (rs & E2 & L2). rewrite E2. cbn [bind].
  pose proof (new_read_safe h version cipher rs false Hh L2) as S. destruct (new_read e h version cipher rs false) as [rl|er]; cbn [bind]; [|cbn in S |- *; auto]. cbn in S.
  set (s1 := upd_ks s (Some (h, k'))).
  assert (K1 : kept e s1 h k') by (constructor; subst s1; cbn; auto; [rewrite Ev; discriminate|rewrite Eci; discriminate|exact (ke_time _ _ _ _ K)]).
  destruct (req =? 0).
  - cbn [hres_safe]. apply data_inv_safe with h k'; auto; [intros x [= <-]; exact S|discriminate|]. eapply kept_same; [exact K1| | | |]; reflexivity.
  - assert (Sm : safe (encodeHandshake (MKeyUpdate 0))) by (apply safe_encode; exact Logic.I). destruct (encodeHandshake (MKeyUpdate 0)) as [m|er]; [|cbn; auto].
    apply with_write_safe; [exact B|exact W|]. intros wl ct Hwl. assert (K2 : kept e (upd_write s1 (Some wl)) h k') by (eapply kept_same; [exact K1| | | |]; reflexivity).
    apply rekey_safe with (h := h) (k := k').
    + destruct B as (B1 & B2 & B3). split; [exact B1|]. split; [exact B2|]. intros x [= <-]. exact Hwl.
    + exact K2.
    + intros k2 wl' ws Hk Hwl'. cbn [hres_safe]. apply data_inv_safe with h k2; auto; try discriminate; try (intros x [= <-]; assumption).
      destruct K2; constructor; cbn in *; auto.
Qed.
Lemma close_safe s post reply : inv_safe e s -> s_state s = SAcceptingData \/ (s_state s = SExpectingCloseNotify /\ reply = false) -> s_read s <> None -> hres_safe (handle_close s post reply).
Proof.
  intros H E R. pose proof (base_inv s H) as B. destruct H as (H1 & H2 & H3 & H4). unfold handle_close.
  pose proof (unparsed_some s R). destruct (no_unparsed s) as [[]|]; [|cbn; auto|congruence]. destruct reply.
  - destruct E as [E|[_ [=]]]. rewrite E in H4. apply with_write_safe; [exact B|apply H4|]. intros wl ct Hwl. cbn. unfold inv_safe. cbn.
    split; [intros x [=]|]. split; [exact H2|]. split; [intros x [=]|exact Logic.I].
  - cbn. unfold inv_safe. cbn. split; [intros x [=]|]. split; [exact H2|]. split; [intros x [=]|exact Logic.I].
Qed.

(** ** The step *)
Lemma handle_safe w s ev : world_safe w -> inv_safe e s -> (forall x, ev = SvRead x -> ev_set x /\ s_read s <> None) -> hres_safe (handle e w s ev).
Proof.
  intros Hw H Hev. pose proof (base_inv s H) as B.
  assert (Inv : hres_safe match ev with SvRead (EvAlert _) => HSilent s | _ => HErr s (alert al_unexpected_message) end).
  { destruct ev as [|[]| | | |]; cbn; auto; split; auto. }
  unfold handle. destruct (s_state s) eqn:E.
  - destruct ev; try exact Inv. unfold handle_accept. cbn. destruct H as (H1 & H2 & H3 & H4). rewrite E in H4. destruct H4 as [H4 H5]. unfold inv_safe. cbn.
    split; [intros x [= <-]; exact Logic.I|]. split; [exact H2|]. split; [intros x [= <-]; exact Logic.I|]. unfold hello_ready. cbn. rewrite H4, H5.
    repeat split; try discriminate.
  - destruct ev as [|[]| | | |]; try exact Inv. destruct m; try exact Inv. destruct (Hev _ eq_refl) as [Hs R]. apply of_res_safe; [exact B|]. apply hello_sat; auto.
    destruct H as (_ & _ & _ & H4). rewrite E in H4. exact H4.
  - destruct ev as [|[]| | | |]; try exact Inv. destruct m; try exact Inv. destruct (Hev _ eq_refl) as [Hs R]. apply of_res_safe; [exact B|]. apply certificate_sat; auto.
  - destruct ev as [|[]| | | |]; try exact Inv. destruct m; try exact Inv. destruct (Hev _ eq_refl) as [Hs R]. apply of_res_safe; [exact B|]. apply certificate_verify_sat; auto.
  - destruct ev as [|[]| | | |]; try exact Inv; [destruct m; try exact Inv; apply eoed_safe; auto|exact H|apply app_write_safe; auto].
  - destruct ev as [|[]| | | |]; try exact Inv; [destruct m; try exact Inv; destruct (Hev _ eq_refl) as [Hs R]; apply finished_safe; auto|apply app_write_safe; auto].
  - destruct ev as [|[]| | | |]; try exact Inv; [destruct m; try exact Inv; apply ku_safe; auto|apply close_safe; auto; apply (Hev _ eq_refl)|exact H|apply new_ticket_safe; auto|apply app_write_safe; auto|apply ku_init_safe; auto].
  - destruct ev as [|[]| | | |]; try exact Inv. apply close_safe; auto. apply (Hev _ eq_refl).
  - exact Inv.
  - exact Inv.
  - exact Inv.
Qed.
Lemma error_safe s a : base s -> inv_safe e (fst (handle_error s a)).
Proof.
  intros (B1 & B2 & B3). unfold handle_error.
  assert (G : inv_safe e (upd_state (upd_layers s None None) SError)).
  { unfold inv_safe. cbn. split; [intros x [=]|]. split; [exact B2|]. split; [intros x [=]|exact Logic.I]. }
  assert (M : inv_safe e (fst (let s' := upd_state (upd_layers s None None) SError in
      match a, s_write s with
      | Some d, Some wl =>
          match snd (wl_write wl 21 [alert_bytes d]) with
          | Ok ct => (s', [OWrite [ct]; OError a])
          | Err ECheck | Err EUB => (upd_state s SCrash, [])
          | Err _ => (s', [OError a])
          end
      | _, _ => (s', [OError a])
      end))).
  { cbv zeta. destruct a as [d|]; [|exact G]. destruct (s_write s) as [wl|] eqn:E; [|exact G].
    pose proof (wl_write_safe wl 21 [alert_bytes d] (B3 _ eq_refl)) as W. destruct (wl_write wl 21 [alert_bytes d]) as [wl' r]. destruct W as (_ & W & _). cbn [snd].
    destruct r as [ct|[]]; try exact G; destruct W. }
  destruct (s_state s) eqn:Es; try exact M. cbn [fst]. unfold inv_safe. rewrite Es. auto.
Qed.
Lemma finish_safe r : hres_safe r -> inv_safe e (fst (finish r)).
Proof.
  destruct r as [s l|s x|s]; cbn [hres_safe finish]; intros H; [exact H| |apply error_safe, H]. destruct H as [X B].
  destruct x as [[a|]| | | |]; try (destruct X; fail); apply error_safe, B.
Qed.
Lemma close_ok s : inv_safe e s -> inv_safe e (fst (app_close s)) /\ inv_safe e (fst (app_close_immediate s)).
Proof.
  intros H. pose proof (base_inv s H) as (B1 & B2 & B3).
  assert (G : forall st, match st with SExpectingCloseNotify | SClosed | SError => True | _ => False end -> forall r w, (r = None \/ r = s_read s) -> w = None -> inv_safe e (upd_state (upd_layers s r w) st)).
  { intros st Hst r w Hr ->. unfold inv_safe. cbn. split; [destruct Hr as [-> | ->]; [intros x [=]|exact B1]|]. split; [exact B2|]. split; [intros x [=]|]. destruct st; try exact Hst; destruct Hst. }
  unfold app_close, app_close_immediate. destruct (s_write s) as [wl|] eqn:E; [|split; apply G; auto; exact Logic.I].
  pose proof (wl_write_safe wl 21 [alert_bytes 0] (B3 _ eq_refl)) as W. destruct (wl_write wl 21 [alert_bytes 0]) as [wl' r]. destruct W as (W1 & W & _).
  assert (U : inv_safe e (upd_write s (Some wl'))).
  { destruct H as (H1 & H2 & H3 & H4). unfold inv_safe. cbn [upd_layers upd_write s_read s_hsRead s_write s_state s_hctx s_ech s_chain s_resumption]. split; [exact H1|]. split; [exact H2|]. split; [intros x [= <-]; exact W1|].
    assert (FS : forall h k, in_flight e s h k -> in_flight e (upd_write s (Some wl')) h k).
    { intros h k F. eapply flight_same; [exact F| | | | | | | |]; cbn; auto; [exact (if_read _ _ _ _ F)|discriminate]. }
    destruct (s_state s); auto.
    - destruct H4 as (A1 & A2 & A3 & A4). unfold hello_ready in *. cbn. repeat split; try tauto; try discriminate; apply A4.
    - destruct H4 as (h & k & F). eauto 6.
    - destruct H4 as (A & h & k & F). split; [exact A|]. eauto 6.
    - destruct H4 as (A & h & k & F). eauto 6.
    - destruct H4 as (h & k & F). eauto 6.
    - destruct H4 as (A1 & A2 & h & k & K & L). split; [exact A1|]. split; [discriminate|]. exists h, k. split; [|exact L]. eapply kept_same; [exact K| | | |]; reflexivity. }
  split; destruct r as [ct|[]]; try exact U; try (destruct W; fail); cbn [fst].
  - unfold inv_safe. cbn. split; [exact B1|]. split; [exact B2|]. split; [intros x [=]|exact Logic.I].
  - apply G; auto.
Qed.
Lemma upd_read_safe s r : inv_safe e s -> ev_safe r -> inv_safe e (upd_read s (Some r)).
Proof.
  intros (H1 & H2 & H3 & H4) Hr. unfold inv_safe. cbn [upd_layers upd_read s_read s_hsRead s_write s_state s_hctx s_ech s_chain s_resumption]. split; [intros x [= <-]; exact Hr|]. split; [exact H2|]. split; [exact H3|].
  assert (FS : forall h k, in_flight e s h k -> in_flight e (upd_read s (Some r)) h k).
  { intros h k F. eapply flight_same; [exact F| | | | | | | |]; cbn; auto; [discriminate|exact (if_write _ _ _ _ F)]. }
  destruct (s_state s); auto.
  - destruct H4 as (A1 & A2 & A3 & A4). unfold hello_ready in *. cbn. repeat split; try tauto; try discriminate; apply A4.
  - destruct H4 as (h & k & F). eauto 6.
  - destruct H4 as (A & h & k & F). split; [exact A|]. eauto 6.
  - destruct H4 as (A & h & k & F). eauto 6.
  - destruct H4 as (h & k & F). eauto 6.
  - destruct H4 as (A1 & A2 & h & k & K & L). split; [discriminate|]. split; [exact A2|]. exists h, k. split; [|exact L]. eapply kept_same; [exact K| | | |]; reflexivity.
Qed.
Lemma socket_safe w s b : world_safe w -> inv_safe e s -> inv_safe e (fst (fst (process_socket e w s b))).
Proof.
  intros Hw H. pose proof (base_inv s H) as B. unfold process_socket. destruct (s_read s) as [r|] eqn:Er.
  2:{ pose proof (error_safe s None B) as G. destruct (handle_error s None). exact G. }
  destruct B as (B1 & B2 & B3). pose proof (read_event_safe r b (B1 _ Er)) as G. destruct (read_event r b) as [r' b' hint|r' b' ev|x].
  - apply upd_read_safe; assumption.
  - destruct G as [G1 G2]. unfold process_event.
    pose proof (finish_safe _ (handle_safe w _ (SvRead ev) Hw (upd_read_safe s r' H G1) ltac:(intros x [= <-]; split; [exact G2|discriminate]))) as F.
    destruct (finish _). exact F.
  - pose proof (base_inv s H) as B. destruct x as [[a|]| | | |]; try (destruct G; fail).
    + pose proof (error_safe s (Some a) B) as F. destruct (handle_error s (Some a)). exact F.
    + pose proof (error_safe s (Some al_decode_error) B) as F. destruct (handle_error s (Some al_decode_error)). exact F.
    + pose proof (error_safe s (Some al_decode_error) B) as F. destruct (handle_error s (Some al_decode_error)). exact F.
Qed.
Lemma step_safe w s i : world_safe w -> inv_safe e s -> inv_safe e (fst (sstep e w s i)).
Proof.
  intros Hw H.
  assert (P : forall ev, (forall x, ev <> SvRead x) -> inv_safe e (fst (process_event e w s ev))).
  { intros ev Hn. apply finish_safe, handle_safe; auto. intros x Ex. exfalso. exact (Hn x Ex). }
  unfold sstep. destruct (s_state s); try exact H; (destruct i; [apply P; discriminate|apply socket_safe; assumption|apply P; discriminate|apply P; discriminate|apply P; discriminate
    |apply (close_ok s H)|apply (close_ok s H)|apply P; discriminate]).
Qed.
Lemma init_safe : inv_safe e s_init.
Proof. unfold inv_safe. cbn. split; [intros x [=]|]. split; [intros x [=]|]. split; [intros x [=]|]. auto. Qed.
End Server.
