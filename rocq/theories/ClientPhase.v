(** * The invariant of a client connection: phases *)
From Verif Require Import Base Codec CodecSpec Str Hkdf HkdfSpec HkdfProofs KeySched KeySchedSpec KeySchedProofs Handshake Extensions RecordBase Record
  RecordRT ReadEvent HelloChecks Cookie Token Negotiate Ticket PskSer Kex Hpke Transcript IOBufUtil PropsIOBuf EchConfirm HpkeUtils EchCrypt Server
  ServerSpec ServerFacts ServerSteps ServerFlight ServerInv ServerPreserve ExtensionsSpec ExtensionsProofs PropsCodec PropsEch Client ClientSpec ClientSteps ClientHello
  ClientInv ClientAwait ClientFlight.
Open Scope N_scope.

(** ** What has happened *)
Record cghost := mkCG { y_cn : conn; y_w0 : cworld; y_L0 : list centry; y_w : cworld; y_Q : cparams }.
Definition y_entry (G : cghost) : centry := CRecv (y_w G) (EvHandshake (MServerHello (q_msg (y_Q G))) (q_sh (y_Q G))).
Definition y_pre (G : cghost) : list centry := y_L0 G ++ [y_entry G].
Definition y_h (G : cghost) : hashalg := q_hash (y_Q G).
Definition y_cipher (G : cghost) : N := q_cipher (y_Q G).
Record cpast (k : cenv) (log : list centry) (G : cghost) (L : list centry) : Prop := mkCPast {
  cp_log : log = y_pre G ++ L;
  cp_of : chandshake_of k (y_L0 G) (y_w G) (y_Q G);
  cp_conn : connected (y_L0 G) (y_w0 G) (y_cn G);
  cp_before : no_success (y_L0 G);
  cp_ech : (q_ech (y_Q G) = true -> cn_ech (y_cn G) <> None) /\
    (q_ech (y_Q G) = false -> cn_ech (y_cn G) <> None -> forall p, q_psk (y_Q G) = Some p -> pskAccepted (cp_type p) = false) }.
(** The parts of the state that no longer change. *)
Record cfixed (s : cstate) (G : cghost) : Prop := mkFx {
  fx_version : g_version (c_neg s) = Some (q_version (y_Q G));
  fx_cipher : g_cipher (c_neg s) = Some (q_cipher (y_Q G));
  fx_group : g_group (c_neg s) = match q_kex (y_Q G) with Some (g, _, _) => Some g | None => None end;
  fx_time : g_hsTime (c_neg s) = Some (match q_psk (y_Q G) with Some p => pk_hsTime (cp_psk p) | None => cw_now (y_w G) end);
  fx_psk : exists pt, g_psk (c_neg s) = Some pt /\ match q_psk (y_Q G) with Some p => pt = cp_type p | None => pskAccepted pt = false end;
  fx_hello : exists hl, c_hello s = Some hl /\ h_verifier hl = cn_verifier (y_cn G) /\ h_exts hl = cn_exts (y_cn G) /\ h_psk hl = None;
  fx_ech : match c_ech s with
    | Some e => ec_status e = ech_status (y_Q G) /\ cn_ech (y_cn G) <> None
    | None => q_ech (y_Q G) = false /\ cn_ech (y_cn G) = None end }.
Definition cpresented (k : cenv) (cn : conn) (L : list centry) (chain : list peercert) : Prop :=
  exists L1 w x m o L2, L = L1 ++ CRecv w (EvHandshake x o) :: L2 /\ cert_message k x m /\ cm_context m = Some [] /\
    cchain_of k cn w true (cm_list m) chain /\ chain <> [].
(** The server is who it should be: it knows the PSK, or was authenticated by certificate. *)
Definition cauthed (k : cenv) (G : cghost) (L : list centry) (server : option cert) : Prop :=
  (exists p, q_psk (y_Q G) = Some p /\ pskAccepted (cp_type p) = true /\ server = pk_server (cp_psk p)) \/
  ((forall p, q_psk (y_Q G) = Some p -> pskAccepted (cp_type p) = false) /\
   exists c, server = Some c /\ server_authenticated k (y_cn G) (y_h G) (q_hs (y_Q G)) (y_pre G) L c).
Definition calpn (k : cenv) (s : cstate) : Prop :=
  match g_alpn (c_neg s) with Some n => In n (k_alpns k) | None => k_requireAlpn k = false end.

Record chs_inv (k : cenv) (log : list centry) (s : cstate) (G : cghost) (L : list centry) : Prop := mkXI {
  xi_hctx : exists hc, c_hctx s = Some hc /\ hc_hash hc = y_h G /\ ctrans (y_h G) log (q_hs (y_Q G)) (hc_data hc);
  xi_ks : exists kk, c_ks s = Some (y_h G, kk) /\ rel (y_h G) kk (Handshake (q_secret (y_Q G)) (q_dh (y_Q G)), None);
  xi_secrets : c_secrets s = Some (q_chs (y_Q G), q_shs (y_Q G));
  xi_read : cread_keyed k (y_h G) (y_cipher G) (q_shs (y_Q G)) (c_read s);
  xi_write : cwrite_keyed k (y_h G) (y_cipher G) (q_chs (y_Q G)) LvHandshake (c_write s);
  xi_quiet : no_success log;
  xi_none : c_exporter s = None /\ c_resumption s = None;
  xi_client : g_client (c_neg s) = match q_psk (y_Q G) with Some p => pk_client (cp_psk p) | None => None end;
  xi_state : match c_state s with
    | CExpectingEncryptedExtensions => g_server (c_neg s) = match q_psk (y_Q G) with Some p => pk_server (cp_psk p) | None => None end
    | CExpectingCertificate => calpn k s /\ (forall p, q_psk (y_Q G) = Some p -> pskAccepted (cp_type p) = false)
    | CExpectingCertificateVerify => calpn k s /\ (forall p, q_psk (y_Q G) = Some p -> pskAccepted (cp_type p) = false) /\
        exists chain, c_chain s = Some chain /\ cpresented k (y_cn G) L chain
    | CExpectingFinished => calpn k s /\ cauthed k G L (g_server (c_neg s))
    | _ => False
    end }.

(** ** The server's Finished and the client's flight *)
Record cfin := mkCF { z_L1 : list centry; z_w : cworld; z_orig : bytes; z_T : bytes; z_cs : list content; z_early : bool; z_server : option cert }.
Definition z_entry (G : cghost) (F : cfin) : centry :=
  CRecv (z_w F) (EvHandshake (MFinished (Some (verify_data (y_h G) (q_shs (y_Q G)) (z_T F)))) (z_orig F)).
(** Transcript through the server's Finished, and through the client's. *)
Definition z_Tsf (F : cfin) : bytes := z_T F ++ z_orig F.
Definition z_fl (F : cfin) : bytes := concat (map ct_plain (filter is_hs (z_cs F))).
Definition z_Tcf (F : cfin) : bytes := z_Tsf F ++ z_fl F.
Definition z_tr (G : cghost) (F : cfin) (c s : nat) : traffic :=
  mkTr (q_secret (y_Q G)) (q_dh (y_Q G)) (h_fn (y_h G) (z_Tsf F)) c s.
Definition z_master (G : cghost) : bytes := MasterSecret (y_h G) (q_secret (y_Q G)) (q_dh (y_Q G)).
Definition z_exporter (G : cghost) (F : cfin) : bytes := DeriveSecret (y_h G) (z_master G) (str "exp master") (h_fn (y_h G) (z_Tsf F)).
Definition z_resumption (G : cghost) (F : cfin) : bytes := DeriveSecret (y_h G) (z_master G) (str "res master") (h_fn (y_h G) (z_Tcf F)).
Definition z_outs (G : cghost) (F : cfin) : list cout :=
  [KSecret (KTraffic SkServerApp) (server_traffic (y_h G) (z_tr G F 0 0)); KSecret (KTraffic SkClientApp) (client_traffic (y_h G) (z_tr G F 0 0));
   KSecret KExporter (z_exporter G F); KSecret KResumption (z_resumption G F); KWrite (z_cs F)].
(** What the client sends: EndOfEarlyData if early data was accepted, its own authentication if asked for, and its Finished over all of it. *)
Definition cflight (k : cenv) (s : cstate) (G : cghost) (F : cfin) : Prop :=
  exists eoc eo au fin ct, z_cs F = ccs_first k (c_ccs s) ++ eoc ++ [ct] /\ ct_type ct = 22 /\ ct_level ct = LvHandshake /\ ct_plain ct = au ++ fin /\
    z_fl F = eo ++ au ++ fin /\
    (if match g_early (c_neg s) with CeAccepted => negb (k_omitEarly k) | _ => false end
     then encodeHandshake MEndOfEarlyData = Ok eo /\ exists c wl wl', eoc = [c] /\ ct_type c = 22 /\ ct_plain c = eo /\ c_earlyw s = Some wl /\ wl_write wl 22 [eo] = (wl', Ok c)
     else eo = [] /\ eoc = []) /\
    match g_auth (c_neg s) with
    | Some CaSent =>
        exists so scheme cm m sg v, c_selected s = Some (so, scheme) /\ so_message so = Ok cm /\ encodeHandshake (MCertificate cm) = Ok m /\
          so_sign so scheme CvClient (h_fn (y_h G) (z_Tsf F ++ eo ++ m)) = Ok sg /\ encodeHandshake (MCertificateVerify (mkCV scheme (Some sg))) = Ok v /\ au = m ++ v
    | Some CaNoMatch => encodeHandshake (MCertificate (mkCert (Some []) [])) = Ok au
    | _ => au = []
    end /\
    encodeHandshake (MFinished (Some (verify_data (y_h G) (q_chs (y_Q G)) (z_Tsf F ++ eo ++ au)))) = Ok fin.
Record cfinished (k : cenv) (G : cghost) (F : cfin) : Prop := mkFin {
  zf_before : ctrans (y_h G) (y_pre G ++ z_L1 F) (q_hs (y_Q G)) (z_T F);
  zf_after : ctrans (y_h G) (y_pre G ++ z_L1 F ++ z_entry G F :: map CEmit (z_outs G F)) (q_hs (y_Q G)) (z_Tcf F);
  zf_auth : cauthed k G (z_L1 F) (z_server F);
  zf_ku : cis_ku_sent (CEmit (KWrite (z_cs F))) = false }.

Record cdata_inv (k : cenv) (log : list centry) (s : cstate) (G : cghost) (F : cfin) (L : list centry) : Prop := mkXD {
  xd_log : log = y_pre G ++ z_L1 F ++ z_entry G F :: map CEmit (z_outs G F ++ [KSuccess (z_early F)]) ++ L;
  xd_fin : cfinished k G F;
  xd_ks : exists kk, c_ks s = Some (y_h G, kk) /\
    rel (y_h G) kk (Start, Some (z_tr G F (ccount cis_ku_sent log) (ccount cis_ku_recv log)));
  xd_read : cread_keyed k (y_h G) (y_cipher G) (server_traffic (y_h G) (z_tr G F (ccount cis_ku_sent log) (ccount cis_ku_recv log))) (c_read s);
  xd_state : (c_state s = CEstablished /\
      cwrite_keyed k (y_h G) (y_cipher G) (client_traffic (y_h G) (z_tr G F (ccount cis_ku_sent log) (ccount cis_ku_recv log))) LvAppTraffic (c_write s)) \/
    (c_state s = CWriteSideClosed /\ c_write s = None);
  xd_exporter : c_exporter s = Some (z_exporter G F);
  xd_resumption : c_resumption s = Some (z_resumption G F);
  xd_server : g_server (c_neg s) = z_server F;
  xd_alpn : calpn k s;
  xd_ech : cn_ech (y_cn G) <> None -> q_ech (y_Q G) = true;
  xd_success : ccount cis_success log = 1%nat }.

Inductive cphase (k : cenv) (log : list centry) (s : cstate) : Prop :=
| CPInit : s = c_init -> log = [] -> cphase k log s
| CPAwait A : await k log s A -> cphase k log s
| CPHs G L : cpast k log G L -> cfixed s G -> chs_inv k log s G L -> cphase k log s
| CPData G F L L' : cpast k log G L -> cfixed s G -> cdata_inv k log s G F L' -> cphase k log s
| CPClosing : c_state s = CWriteSideClosed -> c_write s = None -> no_success log -> (exists w, In (CCall w JAppClose) log) -> cphase k log s
| CPEnd : cterminal s -> c_state s = CCrash \/ c_write s = None -> cphase k log s.

(** ** Extending the log *)
Lemma cpast_ext k log G L X : cpast k log G L -> cpast k (log ++ X) G (L ++ X).
Proof. intros [P1 P2 P3 P4 P5]. constructor; try assumption. rewrite P1, <- app_assoc. reflexivity. Qed.
Lemma cpresented_ext k cn L X ch : cpresented k cn L ch -> cpresented k cn (L ++ X) ch.
Proof.
  intros (L1 & w & x & m & o & L2 & -> & A). exists L1, w, x, m, o, (L2 ++ X). split; [|exact A]. rewrite <- app_assoc. reflexivity.
Qed.
Lemma server_authenticated_ext k v h hs L0 L X c : server_authenticated k v h hs L0 L c -> server_authenticated k v h hs L0 (L ++ X) c.
Proof.
  intros (L1 & w1 & x & m & o1 & L2 & w2 & cv & o2 & L3 & leaf & rest & sg & T & -> & A).
  exists L1, w1, x, m, o1, L2, w2, cv, o2, (L3 ++ X), leaf, rest, sg, T. split; [|exact A]. rewrite <- !app_assoc. cbn. rewrite <- !app_assoc. reflexivity.
Qed.
Lemma cauthed_ext k G L X c : cauthed k G L c -> cauthed k G (L ++ X) c.
Proof.
  intros [A|(A & c0 & B & C)]; [left; exact A|right]. split; [exact A|]. exists c0. split; [exact B|]. apply server_authenticated_ext, C.
Qed.
(** The parts of the state the invariants look at, reading and writing excepted. *)
Definition cframe (s : cstate) :=
  (c_state s, c_hctx s, c_ks s, c_secrets s, c_hello s, c_neg s, c_ech s, c_chain s, (c_exporter s, c_resumption s)).
Definition cread_like (s s' : cstate) : Prop :=
  c_read s' = c_read s \/ exists r r', c_read s = Some r /\ c_read s' = Some r' /\ layer_key (ev_layer r') = layer_key (ev_layer r).
Definition cwrite_like (s s' : cstate) : Prop :=
  c_write s' = c_write s \/ exists lv w w', c_write s = Some (WEnc lv w) /\ c_write s' = Some (WEnc lv w') /\ ws_aead w' = ws_aead w.
Lemma cread_like_keyed s s' k h c sec : cread_like s s' -> cread_keyed k h c sec (c_read s) -> cread_keyed k h c sec (c_read s').
Proof.
  intros [->|(r & r' & E1 & E2 & K)] H; [exact H|]. rewrite E1 in H. rewrite E2. eapply cread_keyed_key; eassumption.
Qed.
Lemma cwrite_like_keyed s s' k h c sec lv : cwrite_like s s' -> cwrite_keyed k h c sec lv (c_write s) -> cwrite_keyed k h c sec lv (c_write s').
Proof.
  intros [->|(lv' & w & w' & E1 & E2 & K)] (ws & A & B); [exists ws; auto|]. rewrite E1 in A. injection A as -> ->. exists w'. rewrite E2, K. auto.
Qed.
Lemma cwrite_like_none s s' : cwrite_like s s' -> c_write s = None -> c_write s' = None.
Proof. intros [->|(lv' & w & w' & E1 & E2 & K)] H; congruence. Qed.
Lemma cfixed_frame s s' G : cfixed s G -> c_hello s' = c_hello s -> c_neg s' = c_neg s -> c_ech s' = c_ech s -> cfixed s' G.
Proof. intros [A B C D E F H] E1 E2 E3. constructor; rewrite ?E1, ?E2, ?E3; assumption. Qed.
Lemma chs_ext k log s s' G L X : chs_inv k log s G L -> forallb cquiet X = true -> cframe s' = cframe s -> cread_like s s' -> cwrite_like s s' ->
  chs_inv k (log ++ X) s' G (L ++ X).
Proof.
  intros [I1 I2 I3 I4 I5 I6 I7 I8 I9] HX F R W. unfold cframe in F.
  assert (F1 : c_state s' = c_state s) by congruence. assert (F2 : c_hctx s' = c_hctx s) by congruence.
  assert (F3 : c_ks s' = c_ks s) by congruence. assert (F4 : c_secrets s' = c_secrets s) by congruence.
  assert (F5 : c_neg s' = c_neg s) by congruence. assert (F6 : c_chain s' = c_chain s) by congruence.
  assert (F7 : c_exporter s' = c_exporter s) by congruence. assert (F8 : c_resumption s' = c_resumption s) by congruence. clear F.
  constructor; rewrite ?F2, ?F3, ?F4, ?F5, ?F7, ?F8; auto.
  - destruct I1 as (hc & A & B & C). exists hc. split; [exact A|]. split; [exact B|]. apply ctrans_quiet; assumption.
  - eapply cread_like_keyed; eassumption.
  - eapply cwrite_like_keyed; eassumption.
  - apply no_success_app; [exact I6|apply quiet_no_success, HX].
  - unfold calpn in *. rewrite F1, F5, F6. destruct (c_state s); try exact I9.
    + destruct I9 as (A & B & ch & C & D). split; [exact A|]. split; [exact B|]. exists ch. split; [exact C|]. apply cpresented_ext, D.
    + destruct I9 as (A & B). split; [exact A|]. apply cauthed_ext, B.
Qed.
Lemma cdata_ext k log s s' G F L X : cdata_inv k log s G F L -> no_success X -> cframe s' = cframe s -> cread_like s s' -> cwrite_like s s' ->
  cdata_inv k (log ++ X) s' G F (L ++ X).
Proof.
  intros [I1 I2 I3 I4 I5 I6 I7 I8 I9 I10 I11] (X1 & X2 & X3) Fr R W. unfold cframe in Fr.
  assert (F1 : c_state s' = c_state s) by congruence. assert (F3 : c_ks s' = c_ks s) by congruence.
  assert (F5 : c_neg s' = c_neg s) by congruence. 
  assert (F7 : c_exporter s' = c_exporter s) by congruence. assert (F8 : c_resumption s' = c_resumption s) by congruence. clear Fr.
  unfold calpn in *.
  constructor; rewrite ?ccount_app, ?X1, ?X2, ?X3, ?Nat.add_0_r; unfold calpn; rewrite ?F1, ?F3, ?F5, ?F7, ?F8; auto.
  - rewrite I1, <- !app_assoc. cbn [app]. rewrite <- !app_assoc. reflexivity.
  - eapply cread_like_keyed; eassumption.
  - destruct I5 as [[A B]|[A B]]; [left|right]; (split; [exact A|]); [eapply cwrite_like_keyed; eassumption|eapply cwrite_like_none; eassumption].
Qed.
