(** * Delegated credentials: in a connection, choosing them, examples *)
From Verif Require Import Base Codec CodecSpec Str Handshake HandshakeSpec HandshakeProofs Extensions ExtensionsSpec ExtensionsProofs Transcript Ticket Server DelegCred.
From Verif Require Import Hkdf KeySched RecordBase Record ReadEvent PropsEch Client ClientSpec PropsClient ServerSpec ServerSpec2 PropsServer2 PropsDelegCred.
From Verif Require CertManager CertSpec PropsCert.
From Coq Require Import ZArith Lia.
Open Scope N_scope.

(** The certificate of [e], or the key it delegates to, signed [tbs] as [sg]. *)
Definition has_cred (e : CertificateEntry) : Prop := exists x, In x (ce_extensions e) /\ ext_type x = 34.
Definition proved_by (O : ossl) (now : Z) (e : CertificateEntry) (scheme : N) (ctx : cvctx) (tbs sg : bytes) : Prop :=
  (has_cred e /\ exists cert x valid keyb credScheme credSig pk k t, delegated O now e scheme ctx tbs sg cert x valid keyb credScheme credSig pk k t) \/
  (~ has_cred e /\ exists cert x pk t, ce_data e = Some cert /\ o_x509 O cert = Some x /\ x_key x = Some pk /\ usable_key t pk /\ scheme = key_scheme t /\
    pk_check pk (covered (hs_context ctx) tbs) sg = Ok tt).
Lemma has_cred_dec e : has_cred e \/ ~ has_cred e.
Proof.
  unfold has_cred. induction (ce_extensions e) as [|x l [IH|IH]].
  - right. intros (x & [] & _).
  - left. destruct IH as (y & H & E). exists y. split; [right; exact H|exact E].
  - destruct (N.eq_dec (ext_type x) 34) as [E|E]; [left; exists x; split; [left; reflexivity|exact E]|].
    right. intros (y & [->|H] & Ey); [contradiction|]. apply IH. eauto.
Qed.
Lemma proved_of O now e p scheme ctx tbs sg : makePeerCert O now e true = Ok p -> pc_verify p scheme ctx tbs sg = Ok tt -> proved_by O now e scheme ctx tbs sg.
Proof.
  intros Hp Hv. destruct (has_cred_dec e) as [H|H]; [left; split; [exact H|]; eapply C66_sound; eassumption|right; split; [exact H|]].
  rewrite C66_plain in Hp by (right; intros x Hx E; apply H; exists x; auto).
  apply bind_Ok in Hp. destruct Hp as (x & Hx & Hp). apply readPeer_iff in Hx. destruct Hx as (d & Hd & _ & Hx). unfold makePeer in Hp.
  destruct (x_key x) as [pk|] eqn:Ek; [|discriminate]. apply bind_Ok in Hp. destruct Hp as (t & Ht & Hp). apply bind_Ok in Hp. destruct Hp as (k' & Hk & Hp).
  apply setKey_iff in Hk. destruct Hk as (-> & U). assert (Ep : pc_verify p = verify_key t pk) by (inversion Hp; reflexivity). rewrite Ep in Hv.
  apply verify_key_iff in Hv. destruct Hv as (-> & Hv). rewrite covered_sign in Hv. exists d, x, pk, t. repeat split; auto; apply U.
Qed.
(** A client with this certificate factory that reports a successful handshake without a PSK: the holder of the leaf certificate's key signed the transcript, or
    delegated, for a time that includes now, to a key whose holder did; and the client had asked for delegated credentials. *)
Theorem C66_client k l s L1 early L2 O now : cenv_ok k -> k_peerCert k = makePeerCert O now ->
  creach k l s (L1 ++ CEmit (KSuccess early) :: L2) ->
  exists L0 wh Q La w0 cn, cparts k (L0 ++ hello_entry wh Q :: La) L0 wh Q La /\ connected L0 w0 cn /\
    (exists M, L1 = (L0 ++ hello_entry wh Q :: La) ++ M) /\
    ((exists p, q_psk Q = Some p /\ cn_psk cn = Some p) \/
     exists La1 w1 x m o1 La2 w2 cv o2 La3 e es sig T,
       La = La1 ++ CRecv w1 (EvHandshake x o1) :: La2 ++ CRecv w2 (EvHandshake (MCertificateVerify cv) o2) :: La3 /\
       cert_message k x m /\ cm_list m = e :: es /\ cv_signature cv = Some sig /\ In (cv_algorithm cv) (k_sigSchemes k) /\
       ctrans (q_hash Q) ((L0 ++ [hello_entry wh Q]) ++ La1 ++ CRecv w1 (EvHandshake x o1) :: La2) (q_hs Q) T /\
       proved_by O now e (cv_algorithm cv) CvServer (h_fn (q_hash Q) T) sig /\
       (has_cred e -> cn_exts cn = true /\ exists sent, cw_exts w1 = Ok sent /\ In 34 (map ext_type sent))).
Proof.
  intros Hk HO Hr. destruct (C48_success _ _ _ _ _ _ Hk Hr) as (L & w & vd & orig & pre & L0 & wh & Q & La & w0 & cn & T & c & E1 & P & C & _ & _ & K & _).
  exists L0, wh, Q, La, w0, cn. destruct P as [-> P]. split; [split; [reflexivity|exact P]|]. split; [exact C|]. split; [eexists; exact E1|].
  destruct K as [(p & A & B & _)|(c' & _ & K)]; [left; eauto|right].
  destruct K as (La1 & w1 & x & m & o1 & La2 & w2 & cv & o2 & La3 & leaf & rest & sg & T' & K1 & K2 & _ & K3 & K4 & K5 & K6 & K7 & _).
  inversion K3 as [|lf e es p ps Hle Hpe Hrest E2 E3 E4]; subst. rewrite HO in Hpe.
  exists La1, w1, x, m, o1, La2, w2, cv, o2, La3, e, es, sg, T'. split; [reflexivity|]. split; [exact K2|]. split; [symmetry; exact E3|]. split; [exact K5|].
  split; [exact K4|]. split; [exact K6|]. split; [eapply proved_of; eassumption|].
  intros (y & Hy & Ey). unfold centry_legal in Hle. destruct (cn_exts cn); [|rewrite Hle in Hy; destruct Hy].
  split; [reflexivity|]. destruct Hle as (sent & Hs & Hi). exists sent. split; [exact Hs|]. apply Hi. rewrite <- Ey. apply in_map, Hy.
Qed.
(** Likewise a server and a client's certificate *)
Theorem C66_server e l s log O now : env_ok e -> e_peerCert e = makePeerCert O now -> e_authMode e = AuthRequired ->
  reach e l s log -> s_state s = SAcceptingData ->
  exists P La, handshake e log P La /\
    (p_ticket P <> None \/
     exists L1 w1 m o1 L2 w2 cv o2 L3 x xs sig,
       La = L1 ++ Recv w1 (EvHandshake (MCertificate m) o1) :: L2 ++ Recv w2 (EvHandshake (MCertificateVerify cv) o2) :: L3 /\
       cm_list m = x :: xs /\ cv_signature cv = Some sig /\ In (cv_algorithm cv) (e_sigSchemes e) /\
       proved_by O now x (cv_algorithm cv) CvClient
         (h_fn (p_hash P) (p_Tsf P ++ client_msgs (L1 ++ Recv w1 (EvHandshake (MCertificate m) o1) :: L2))) sig /\
       (has_cred x -> asked_for e 34)).
Proof.
  intros He HO Ha Hr Hs. destruct (C35_client_certificate _ _ _ _ He Hr Hs) as (P & La & HH & HI). exists P, La. split; [exact HH|].
  unfold client_identity in HI. destruct (p_ticket P) as [[[? ?] r]|]; [left; discriminate|right]. rewrite Ha in HI. destruct HI as (c & _ & A).
  destruct A as (L1 & w1 & m & o1 & L2 & w2 & cv & o2 & L3 & leaf & rest & sg & K1 & _ & K2 & K3 & K4 & K5 & _).
  inversion K2 as [|lf x xs p ps Hle Hpe Hrest E2 E3 E4]; subst. rewrite HO in Hpe.
  exists L1, w1, m, o1, L2, w2, cv, o2, L3, x, xs, sg. split; [reflexivity|]. split; [symmetry; exact E3|]. split; [exact K4|]. split; [exact K3|].
  split; [eapply proved_of; eassumption|]. intros (y & Hy & Ey). destruct Hle as (Hf & _). rewrite Forall_forall in Hf. apply Hf. rewrite <- Ey. apply in_map, Hy.
Qed.

(** ** Choosing a delegated credential *)
(** delegated_credential in a ClientHello: SignatureScheme supported_signature_algorithm<2..2^16-2> *)
Definition offers_dc (exts : list Extension) (l : list N) : Prop :=
  exists rest, first_ext 34 exts (Some (be 2 (2 * N.of_nat (length l)) ++ flat_map (be 2) l ++ rest)) /\ Forall (fun s => s < 2 ^ 16) l.
Lemma flat2 l : blen (flat_map (be 2) l) = 2 * N.of_nat (length l).
Proof. induction l as [|a l IH]; [reflexivity|]. cbn [flat_map length]. rewrite blen_app, be_blen, IH. lia. Qed.
Lemma offers_of exts l : getExtension KDelegatedCredentialSupport exts = Ok (Some (XDelegatedCredentialSupport l)) -> offers_dc exts l.
Proof.
  intros H. apply getExtension_strict in H. destruct H as (_ & Hw & _ & pre & post & rest & -> & Hp & _). exists rest. split.
  - exists pre, post. split; [|apply no_type_in, Hp]. cbn [kind_type w_xbody]. unfold tls_list, tls_vec. rewrite <- flat_map_concat_map, flat2, <- app_assoc. reflexivity.
  - cbn [wf_x] in Hw. rewrite forallb_forall in Hw. apply Forall_forall. intros s Hs. specialize (Hw s Hs). unfold in_u in Hw. apply N.ltb_lt in Hw. exact Hw.
Qed.
Lemma getCert_usable hist sni sup peer c s mt : CertManager.getCert (CertManager.addAll CertManager.cm_new hist) sni sup peer = Some (c, s, mt) ->
  In c (map fst hist) /\ PropsCert.usable sup peer c s.
Proof.
  rewrite PropsCert.C30_select. unfold PropsCert.select. intros E.
  assert (G : exists key, PropsCert.first_usable (map fst hist) key sup peer = Some (c, s)).
  { destruct sni as [n|].
    - destruct (PropsCert.first_usable (map fst hist) (CertManager.toLowerAscii n) sup peer) as [[c1 s1]|] eqn:E1; [exists (CertManager.toLowerAscii n); congruence|].
      destruct (CertManager.from_dot (CertManager.toLowerAscii n)) as [w|].
      + destruct (PropsCert.first_usable (map fst hist) w sup peer) as [[c2 s2]|] eqn:E2; [exists w; congruence|].
        exists (PropsCert.default_key hist). destruct (PropsCert.first_usable (map fst hist) (PropsCert.default_key hist) _ _) as [[c3 s3]|]; [congruence|discriminate].
      + exists (PropsCert.default_key hist). destruct (PropsCert.first_usable (map fst hist) (PropsCert.default_key hist) _ _) as [[c3 s3]|]; [congruence|discriminate].
    - exists (PropsCert.default_key hist). destruct (PropsCert.first_usable (map fst hist) (PropsCert.default_key hist) _ _) as [[c3 s3]|]; [congruence|discriminate]. }
  destruct G as (key & G). destruct (PropsCert.first_usable_some _ _ _ _ _ _ G) as (A & B & C & D & b & a & -> & _). split; [exact A|]. repeat split; try assumption. apply in_elt.
Qed.
(** What is chosen: a delegated credential only when the client offered to take one, and then with a scheme in that offer; otherwise an ordinary certificate with a scheme in
    the client's signature_algorithms. *)
Theorem C67_choice hd hp sni sup peer exts c s mt :
  dcGetCert (CertManager.addAll CertManager.cm_new hd) (CertManager.addAll CertManager.cm_new hp) sni sup peer exts = Ok (Some (c, s, mt)) ->
  (exists l, offers_dc exts l /\ In c (map fst hd) /\ PropsCert.usable sup l c s) \/ (In c (map fst hp) /\ PropsCert.usable sup peer c s).
Proof.
  unfold dcGetCert. intros H. apply bind_Ok in H. destruct H as ([x|] & Hx & H).
  - pose proof (proj1 (getExtension_strict _ _ _ Hx)) as Hk.
    destruct x as [ | | | | | | | | | | | | | | | | | | | | | | | |l| ]; try discriminate Hk. apply offers_of in Hx.
    destruct (CertManager.getCert (CertManager.addAll CertManager.cm_new hd) sni sup l) as [[[c1 s1] mt1]|] eqn:E.
    + apply getCert_usable in E. left. exists l. assert (c1 = c) by congruence. assert (s1 = s) by congruence. subst. tauto.
    + right. apply (getCert_usable _ sni _ _ _ _ mt). congruence.
  - right. apply (getCert_usable _ sni _ _ _ _ mt). congruence.
Qed.
(** A client that does not offer them gets exactly what it would without delegated credentials. *)
Theorem C67_unoffered dc hp sni sup peer exts : (forall e, In e exts -> ext_type e <> 34) ->
  dcGetCert dc hp sni sup peer exts = Ok (CertManager.getCert hp sni sup peer).
Proof.
  intros H. unfold dcGetCert. apply no_type_in in H. change 34 with (kind_type KDelegatedCredentialSupport) in H. apply getExtension_none in H. rewrite H. reflexivity.
Qed.
Lemma getExtension_offers exts l : offers_dc exts l -> 2 * N.of_nat (length l) < 2 ^ 16 -> getExtension KDelegatedCredentialSupport exts = Ok (Some (XDelegatedCredentialSupport l)).
Proof.
  intros (rest & (pre & post & -> & Hp) & Hl) Hn. unfold getExtension, findExtension.
  match goal with |- context [mkExt 34 ?b] => rewrite (proj2 (find_split (fun e => ext_type e =? kind_type KDelegatedCredentialSupport) _ (mkExt 34 b))) end.
  - cbn [ext_data].
    assert (Hb : blen (flat_map (be 2) l) = 2 * N.of_nat (length l)).
    { clear. induction l as [|a l IH]; [reflexivity|]. cbn [flat_map length]. rewrite blen_app, be_blen, IH. lia. }
    assert (Hw : wf_x (XDelegatedCredentialSupport l) = true).
    { cbn [wf_x]. apply forallb_forall. intros s Hs. rewrite Forall_forall in Hl. unfold in_u. apply N.ltb_lt. apply (Hl s Hs). }
    assert (Hf : fit_x (XDelegatedCredentialSupport l) = true).
    { cbn [fit_x]. unfold fit_list, fits_len. apply andb_true_iff. split; [clear; induction l; [reflexivity|assumption]|].
      apply N.ltb_lt. rewrite <- flat_map_concat_map, Hb. exact Hn. }
    pose proof (read_ext_ok _ rest Hw Hf (fun E => match E with eq_refl => Logic.I end)) as E. cbn [kind_of w_xbody] in E.
    unfold tls_list, tls_vec in E. rewrite <- flat_map_concat_map, Hb, <- app_assoc in E. rewrite E. reflexivity.
  - exists pre, post. split; [reflexivity|]. split; [apply no_type_in, Hp|reflexivity].
Qed.
(** When it does, and a delegated credential for the requested name is usable with its offer, it gets a delegated credential for that name. *)
Theorem C67_preferred hd plain n sup peer exts l c0 i0 s0 : offers_dc exts l -> 2 * N.of_nat (length l) < 2 ^ 16 ->
  Forall (fun x => CertSpec.wf_cert (fst x)) hd -> (exists a r, n = a :: r /\ a <> CertManager.star /\ a <> CertManager.dot) ->
  In c0 (map fst hd) -> In i0 (CertSpec.idents c0) -> CertSpec.ci_eq i0 n -> PropsCert.usable sup l c0 s0 ->
  exists c s i, dcGetCert (CertManager.addAll CertManager.cm_new hd) plain (Some n) sup peer exts = Ok (Some (c, s, CertManager.Direct)) /\
    In c (map fst hd) /\ In i (CertSpec.idents c) /\ CertSpec.ci_eq i n /\ PropsCert.usable sup l c s.
Proof.
  intros Ho Hn Hw Hs Hc Hi He Hu. destruct (PropsCert.C30_exact_preferred _ _ _ _ _ _ _ Hw Hs Hc Hi He Hu) as (c & s & i & b & a & h1 & h2 & G & A & B & C & D & E & F & _).
  exists c, s, i. unfold dcGetCert. rewrite (getExtension_offers _ _ Ho Hn). cbn [bind]. rewrite G. split; [reflexivity|]. rewrite F. split; [apply in_elt|]. split; [exact A|]. split; [exact B|].
  rewrite E. repeat split; try assumption. apply in_elt.
Qed.

(** ** Examples *)
Definition dx_pub (i : byte) (t : keytype) : pubkey := mkKey (Some t) true (fun d s => if bytes_eqb s (i :: d) then Ok tt else fail).
Definition dx_priv (i : byte) (t : keytype) : privkey := mkPriv (Some t) true (fun d => Ok (i :: d)).
Definition dx_x509 (t : keytype) (nb na : Z) : x509 := mkX509 [x30; x01] (str "a") (Some (dx_pub x01 t)) true true true nb na.
Definition dx_parent : x509 := dx_x509 KtP256 0 1000000000000000000.
Definition dx_O : ossl := mkOssl (fun d => if bytes_eqb d [x30; x01] then Some dx_parent else None) (fun d => if bytes_eqb d [x30; x02] then Some (dx_pub x02 KtP256) else None).
Definition dx_signer : signer := mkSigner dx_parent [1027] (fun _ c b => Ok (x01 :: prepareSignData c b)).
Definition sec (n : Z) : Z := (n * 1000000000)%Z.
Definition dx_cred : res cred := generateCredential (sec 1000) dx_signer true (Some KtP256) [x30; x02] 1027 1027 CvServerDC 100.
(** the first entry of the certificate message, and a signature of "t" *)
Definition dx_use (now : Z) : res unit :=
  c <- dx_cred ;; sd <- selfCreate KtP256 true [dx_parent] (dx_priv x02 KtP256) c ;; m <- sdMessage sd (Some []) ;; sg <- sdSign sd 1027 CvServer (str "t") ;;
  match cm_list m with e :: _ => p <- makePeerCert dx_O now e true ;; pc_verify p 1027 CvServer (str "t") sg | [] => fail end.
Theorem C66_met :
  signs_for dx_signer KtP256 (dx_pub x01 KtP256) /\ key_pair KtP256 (dx_priv x02 KtP256) (dx_pub x02 KtP256) /\ times_ok dx_parent /\
  (exists c, dx_cred = Ok c /\ dc_valid c = 1100) /\
  map (fun s => dx_use (sec s)) [1000; 1050; 1099; 1100; 2000]%Z = [Ok tt; Ok tt; Ok tt; failA 45; failA 45].
Proof.
  split; [|split; [|split; [|split]]].
  - split; [reflexivity|]. split; [split; reflexivity|]. intros ctx b sg H. assert (sg = x01 :: prepareSignData ctx b) by (injection H as H; symmetry; exact H). subst sg.
    cbn [pk_check dx_pub]. rewrite bytes_eqb_refl. reflexivity.
  - split; [reflexivity|]. split; [reflexivity|]. split; [split; reflexivity|]. intros b sg H. assert (sg = x02 :: b) by (injection H as H; symmetry; exact H). subst sg.
    cbn [pk_check dx_pub]. rewrite bytes_eqb_refl. reflexivity.
  - vm_compute. repeat split; discriminate.
  - eexists. split; vm_compute; reflexivity.
  - vm_compute. reflexivity.
Qed.
(** Not every delegation RFC 9345 allows is taken: the key delegated to must be of the type of the certificate's key, although a credential for another one can be made. *)
Theorem C66_key_types_refuted O now e p cert x pk rest v s kb cs sg k : 
  ce_data e = Some cert -> o_x509 O cert = Some x -> x_key x = Some pk -> first_ext 34 (ce_extensions e) (Some (cred_wire v s kb cs sg ++ rest)) -> cred_fits v s kb cs sg ->
  o_pubkey O kb = Some k -> pk_type k <> pk_type pk -> makePeerCert O now e true <> Ok p.
Proof.
  intros Hd Hx Hk Hf Hft Ho Hne H. unfold makePeerCert in H. cbn [negb orb] in H. pose proof Hf as (pre & post & El & _).
  destruct (ce_extensions e) as [|e1 es] eqn:Ex; [destruct pre; discriminate|]. rewrite <- Ex in *. apply bind_Ok in H. destruct H as (x' & Hx' & H).
  apply readPeer_iff in Hx'. destruct Hx' as (d & Hd' & _ & Hx'). assert (d = cert) by congruence. subst d. assert (x' = x) by congruence. subst x'.
  apply bind_Ok in H. destruct H as (pp & _ & H). rewrite (getCredential_ok _ _ _ _ _ _ _ Hft Hf) in H. cbn [bind] in H. unfold makeCredential in H. cbn [dc_key] in H. rewrite Ho in H.
  apply bind_Ok in H. destruct H as (t & Ht & H). apply getKeyType_iff in Ht. apply bind_Ok in H. destruct H as (pk' & Hpk & H). unfold peerKey in Hpk. rewrite Hk in Hpk.
  apply setKey_iff in Hpk. destruct Hpk as (_ & E & _). congruence.
Qed.
Theorem C66_key_types_made : exists c, generateCredential (sec 1000) dx_signer true (Some KtEd25519) [x30; x02] 1027 2055 CvServerDC 100 = Ok c.
Proof. eexists. vm_compute. reflexivity. Qed.
(** The check of a credential's time is made before the chain is verified, on a time the peer chose: if the certificate's notBefore is within valid_time of the largest time, it overflows. *)
Definition dx_late : ossl := mkOssl (fun _ => Some (dx_x509 KtP256 9223372036000000000 9223372036000000001)) (fun _ => Some (dx_pub x02 KtP256)).
Definition dx_entry (valid : N) : CertificateEntry := mkCE (Some [x30]) [mkExt 34 (Some (cred_wire valid 1027 [x30; x02] 1027 []))].
Theorem C66_overflow : exists p, makePeerCert dx_late (sec 1000) (dx_entry 604800) true = Ok p /\ pc_verify p 1027 CvServer [] [] = Err EUB.
Proof. eexists. split; [reflexivity|]. vm_compute. reflexivity. Qed.
(** The private key installed with a credential need not be the one the credential is for: then creation succeeds and no peer accepts it. *)
Theorem C66_private_key_unchecked :
  exists c sd m e sg p, dx_cred = Ok c /\ selfCreate KtP256 true [dx_parent] (dx_priv x03 KtP256) c = Ok sd /\ sdMessage sd (Some []) = Ok m /\ cm_list m = [e] /\
    sdSign sd 1027 CvServer (str "t") = Ok sg /\ makePeerCert dx_O (sec 1000) e true = Ok p /\ pc_verify p 1027 CvServer (str "t") sg = fail.
Proof. do 6 eexists. split; [vm_compute; reflexivity|]. do 5 (split; [vm_compute; reflexivity|]). vm_compute. reflexivity. Qed.
(** C67: the same server answers a client with, without, and with an unusable offer *)
Definition dx_c (i : N) (s : list N) : CertManager.selfcert := CertManager.mkCert i (str "a.c") [] s.
Definition dx_sup (l : list N) : list Extension := [mkExt 34 (Some (be 2 (2 * N.of_nat (length l)) ++ flat_map (be 2) l))].
Theorem C67_met :
  map (fun ex => dcGetCert (CertManager.addAll CertManager.cm_new [(dx_c 1 [1027], false)]) (CertManager.addAll CertManager.cm_new [(dx_c 2 [2052], true)]) (Some (str "a.c")) [1027; 2052] [2052] ex)
    [dx_sup [1027]; []; dx_sup [2055]; [mkExt 34 (Some [x00; x04; x04])]] =
  [Ok (Some (dx_c 1 [1027], 1027, CertManager.Direct)); Ok (Some (dx_c 2 [2052], 2052, CertManager.Direct)); Ok (Some (dx_c 2 [2052], 2052, CertManager.Direct)); fail] /\
  offers_dc (dx_sup [1027]) [1027] /\ CertSpec.wf_cert (dx_c 1 [1027]).
Proof.
  split; [vm_compute; reflexivity|]. split.
  - exists []. split; [exists [], []; split; [reflexivity|intros ? []]|]. constructor; [vm_compute; reflexivity|constructor].
  - constructor; [|constructor]. left. split; [vm_compute; intros [H|[H|[H|[]]]]; discriminate H|]. eexists _, _. split; [reflexivity|vm_compute; discriminate].
Qed.
