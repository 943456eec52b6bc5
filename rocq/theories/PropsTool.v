(** * PropsTool: C90 (names), C91 (ports and hosts), C92 (command lines), C93 (ECH configurations and extensions as text), C94 (client contexts) *)
From Coq Require Import Strings.String Strings.Byte Lia.
From Verif Require Import Base Codec CodecSpec Handshake HandshakeSpec HandshakeProofs Extensions ExtensionsSpec ExtensionsProofs HkdfProofs HexLog PropsHexLog DcPem PropsDcPem PropsEchConfig EchCrypt KexObj PropsKexObj Crash Str Tool.
Open Scope N_scope.
Open Scope list_scope.

(** ** C90: names *)
Lemma parseOf_In t s v : NoDup (map fst t) -> (parseOf t s = Ok v <-> In (s, v) t).
Proof.
  unfold parseOf. induction t as [|[s' v'] t IH]; intros N; cbn [List.find fst].
  - split; [discriminate|intros []].
  - inversion_clear N as [|? ? N1 N2]. destruct (bytes_eqb s s') eqn:E.
    + apply bytes_eqb_eq in E. subst s'. split; [intros [= ->]; left; reflexivity|]. intros [[= ->]|H]; [reflexivity|]. exfalso. apply N1. apply (in_map fst) in H. exact H.
    + rewrite (IH N2). split; [right; assumption|]. intros [[= <- <-]|H]; [|exact H]. rewrite (proj2 (bytes_eqb_eq _ _) eq_refl) in E. discriminate E.
Qed.
Fixpoint nodupb (l : list bytes) : bool := match l with [] => true | x :: r => negb (existsb (bytes_eqb x) r) && nodupb r end.
Lemma nodupb_NoDup l : nodupb l = true -> NoDup l.
Proof.
  induction l as [|x r IH]; intros H; [constructor|]. cbn in H. apply andb_true_iff in H. destruct H as [H1 H2]. constructor; [|exact (IH H2)]. intros Hi.
  apply negb_true_iff in H1. rewrite (proj2 (existsb_exists _ _)) in H1; [discriminate|]. exists x. split; [exact Hi|apply bytes_eqb_eq; reflexivity].
Qed.
(** The four kinds of names, their maps and their printed names *)
Inductive names : list (bytes * N) -> list (bytes * N) -> Prop :=
  | n_cipher : names cipherMap cipherStrings
  | n_scheme : names schemeMap schemeStrings
  | n_group : names groupMap groupStrings
  | n_algo : names algoMap algoStrings.
(** A name is parsed exactly when it is one of the map's, byte for byte, to the value that the map gives it; any other text is refused. *)
Theorem C90_parse m p s v : names m p -> (parseOf m s = Ok v <-> In (s, v) m).
Proof. intros H. apply parseOf_In, nodupb_NoDup. destruct H; vm_compute; reflexivity. Qed.
Theorem C90_refused m p s : names m p -> ~ In s (map fst m) -> parseOf m s = fail.
Proof.
  intros H N. destruct (parseOf m s) as [v|e] eqn:E; [exfalso; apply N; apply (C90_parse m p s v H) in E; apply (in_map fst) in E; exact E|].
  unfold parseOf in E. destruct (List.find _ m) as [[? ?]|]; congruence.
Qed.
(** Every parsed name is the one printed for its value, and every value that has a name for the parser is parsed back from what is printed for it. *)
Theorem C90_roundtrip m p s v : names m p -> parseOf m s = Ok v -> toStringOf p v = s.
Proof.
  intros H E. apply (C90_parse m p s v H) in E. assert (A : forallb (fun q => bytes_eqb (toStringOf p (snd q)) (fst q)) m = true) by (destruct H; vm_compute; reflexivity).
  rewrite forallb_forall in A. apply A in E. apply bytes_eqb_eq in E. exact E.
Qed.
Theorem C90_printed m p v : names m p -> In v (map snd m) -> parseOf m (toStringOf p v) = Ok v.
Proof.
  intros H Hi. apply in_map_iff in Hi. destruct Hi as ([s w] & <- & Hi). cbn [snd]. rewrite <- (C90_parse m p s w H) in Hi. rewrite (C90_roundtrip m p s w H Hi). exact Hi.
Qed.
(** The standards' names, by their values in the registries, RFC 8446 B.4, 4.2.3, 4.2.7, RFC 8879 7.3 and draft-ietf-tls-ecdhe-mlkem, are all known, to the parser and in print. *)
Inductive registered : list (bytes * N) -> list (bytes * N) -> bytes -> N -> Prop :=
  | r_aes128 : registered cipherMap cipherStrings (str "TLS_AES_128_GCM_SHA256") 0x1301
  | r_aes256 : registered cipherMap cipherStrings (str "TLS_AES_256_GCM_SHA384") 0x1302
  | r_chacha : registered cipherMap cipherStrings (str "TLS_CHACHA20_POLY1305_SHA256") 0x1303
  | r_ecdsa c h v : In (c, h, v) [("256", "256", 0x0403); ("384", "384", 0x0503); ("521", "512", 0x0603)]%string -> registered schemeMap schemeStrings (str ("ecdsa_secp" ++ c ++ "r1_sha" ++ h)) v
  | r_pss h v : In (h, v) [("256", 0x0804); ("384", 0x0805); ("512", 0x0806)]%string -> registered schemeMap schemeStrings (str ("rsa_pss_sha" ++ h)) v
  | r_ed25519 : registered schemeMap schemeStrings (str "ed25519") 0x0807
  | r_ed448 : registered schemeMap schemeStrings (str "ed448") 0x0808
  | r_secp c v : In (c, v) [("256", 23); ("384", 24); ("521", 25)]%string -> registered groupMap groupStrings (str ("secp" ++ c ++ "r1")) v
  | r_x25519 : registered groupMap groupStrings (str "x25519") 29
  | r_mlkem c v : In (c, v) [("512", 0x0200); ("768", 0x0201); ("1024", 0x0202)]%string -> registered groupMap groupStrings (str ("MLKEM" ++ c)) v
  | r_hybrid : registered groupMap groupStrings (str "X25519MLKEM768") 0x11ec
  | r_zlib : registered algoMap algoStrings (str "zlib") 1
  | r_brotli : registered algoMap algoStrings (str "brotli") 2
  | r_zstd : registered algoMap algoStrings (str "zstd") 3.
Theorem C90_registered m p s v : registered m p s v -> parseOf m s = Ok v /\ toStringOf p v = s.
Proof.
  destruct 1 as [| | |c h v H|h v H| | |c v H| |c v H| | | |]; cbn [In] in H || idtac; repeat match goal with H : _ \/ _ |- _ => destruct H as [H|H] | H : False |- _ => destruct H | H : (_, _) = (_, _) |- _ => injection H; clear H; intros; subst end;
    split; vm_compute; reflexivity.
Qed.
(** Different values are printed differently: a value without a name is printed as its four hexadecimal digits, which are nobody's name. *)
Lemma toString_cases p v : (exists s, List.find (fun q : bytes * N => snd q =? v) p = Some (s, v) /\ toStringOf p v = s /\ In (s, v) p) \/ (toStringOf p v = hexlify (be 2 v) /\ ~ In v (map snd p)).
Proof.
  unfold toStringOf. destruct (List.find _ p) as [[s w]|] eqn:E.
  - left. pose proof (List.find_some _ _ E) as (A & B). apply N.eqb_eq in B. cbn in B. subst. exists s. auto.
  - right. split; [reflexivity|]. intros H. apply in_map_iff in H. destruct H as ([s w] & <- & H). pose proof (List.find_none _ _ E _ H) as B. cbn in B. rewrite N.eqb_refl in B. discriminate B.
Qed.
Theorem C90_distinct m p v w : names m p -> v < 65536 -> w < 65536 -> toStringOf p v = toStringOf p w -> v = w.
Proof.
  intros H Lv Lw E.
  assert (Nd : forall s a b, In (s, a) p -> In (s, b) p -> a = b).
  { intros s a b Ha Hb. assert (N : NoDup (map fst p)) by (apply nodupb_NoDup; destruct H; vm_compute; reflexivity).
    rewrite <- (parseOf_In p s a N) in Ha. rewrite <- (parseOf_In p s b N) in Hb. congruence. }
  assert (Hx : forall s a x, In (s, a) p -> s <> hexlify (be 2 x)).
  { intros s a x Hi ->. assert (A : forallb (fun q => negb ((blen (fst q) =? 4) && forallb (fun c => existsb (byte_eqb c) (str "0123456789abcdef")) (fst q))) p = true) by (destruct H; vm_compute; reflexivity).
    rewrite forallb_forall in A. apply A in Hi. cbn [fst] in Hi. apply negb_true_iff in Hi. destruct (C83_hexlify (be 2 x)) as (_ & _ & Ln & B). rewrite Ln, be_blen in Hi. change (2 * N.of_nat 2 =? 4) with true in Hi. cbn [andb] in Hi.
    rewrite (proj2 (forallb_forall _ _)) in Hi; [discriminate|]. intros c Hc. apply B in Hc.
    assert (D : forallb (fun c => existsb (byte_eqb c) (str "0123456789abcdef")) (map fst (firstn 16 PropsHexLog.digits)) = true) by (vm_compute; reflexivity).
    rewrite forallb_forall in D. exact (D c Hc). }
  destruct (toString_cases p v) as [(s & _ & Ev & Iv)|[Ev _]]; destruct (toString_cases p w) as [(s' & _ & Ew & Iw)|[Ew _]].
  - apply (Nd s); congruence.
  - exfalso. apply (Hx s v w Iv). congruence.
  - exfalso. apply (Hx s' w v Iw). congruence.
  - rewrite Ev, Ew in E. apply C83_injective in E. apply (f_equal unbe) in E. rewrite !unbe_be in E by (change (256 ^ N.of_nat 2) with 65536; lia). exact E.
Qed.
(** Refuted: that what is printed for a value that has a printed name is parsed back. *)
Theorem C90_not_parsed_back : forall m p v, names m p -> v < 65536 -> (parseOf m (toStringOf p v) = Ok v <-> In v (map snd m)).
Proof.
  intros m p v H L. split; [|apply (C90_printed m p v H)]. intros E. apply (C90_parse m p _ v H) in E. apply (in_map snd) in E. exact E.
Qed.
Example C90_batch : map (fun v => parseOf schemeMap (toStringOf schemeStrings v)) [0xfe00; 0xfe03; 0x0401] = [fail; fail; fail] /\ map (fun v => parseOf groupMap (toStringOf groupStrings v)) [30; 4587; 23] = [fail; fail; Ok 23].
Proof. split; vm_compute; reflexivity. Qed.

(** Lists of names *)
Fixpoint join (sep : byte) (l : list bytes) : bytes := match l with [] => [] | [p] => p | p :: r => p ++ sep :: join sep r end.
Lemma splitOn_spec sep s : splitOn sep s <> [] /\ (forall p, In p (splitOn sep s) -> ~ In sep p) /\ join sep (splitOn sep s) = s.
Proof.
  induction s as [|b r (IH1 & IH2 & IH3)]; cbn [splitOn].
  - split; [discriminate|]. split; [intros p [<-|[]] []|reflexivity].
  - destruct (splitOn sep r) as [|p ps] eqn:Es; [congruence|]. destruct (byte_eqb b sep) eqn:E.
    + apply byte_eqb_eq in E. subst b. split; [discriminate|]. split; [intros q [<-|Hq]; [intros []|exact (IH2 q Hq)]|]. cbn [join app]. f_equal. exact IH3.
    + split; [discriminate|]. split.
      * intros q [<-|Hq]; [|apply IH2; right; exact Hq]. intros [->|Hi]; [rewrite (proj2 (byte_eqb_eq _ _) eq_refl) in E; discriminate|]. exact (IH2 p (or_introl eq_refl) Hi).
      * destruct ps; cbn [join app] in *; f_equal; exact IH3.
Qed.
Lemma splitOn_join sep l : l <> [] -> (forall p, In p l -> ~ In sep p) -> splitOn sep (join sep l) = l.
Proof.
  intros N H. destruct l as [|p l]; [congruence|]. clear N. revert p H. induction l as [|q l IH]; intros p H.
  - cbn [join]. assert (Hp := H p (or_introl eq_refl)). clear H. induction p as [|b p IHp]; [reflexivity|]. cbn [splitOn]. destruct (byte_eqb b sep) eqn:E; [apply byte_eqb_eq in E; exfalso; apply Hp; left; congruence|].
    rewrite IHp; [reflexivity|]. intros Hi. apply Hp. right. exact Hi.
  - change (join sep (p :: q :: l)) with (p ++ sep :: join sep (q :: l)). assert (Hp := H p (or_introl eq_refl)). assert (IHl := IH q (fun x Hx => H x (or_intror Hx))). clear IH H.
    induction p as [|b p IHp]; cbn [app splitOn].
    + rewrite (proj2 (byte_eqb_eq _ _) eq_refl), IHl. reflexivity.
    + destruct (byte_eqb b sep) eqn:E; [apply byte_eqb_eq in E; exfalso; apply Hp; left; congruence|]. rewrite IHp; [reflexivity|]. intros Hi. apply Hp. right. exact Hi.
Qed.
Lemma parseAll_ok t l vs : parseAll t l = Ok vs <-> Forall2 (fun s v => parseOf t s = Ok v) l vs.
Proof.
  revert vs. induction l as [|s l IH]; intros vs; cbn [parseAll].
  - split; [intros [= <-]; constructor|intros H; inversion H; reflexivity].
  - destruct (parseOf t s) as [v|e] eqn:E.
    + split.
      * intros H. apply bind_Ok in H. destruct H as (x & Hx & [= <-]). constructor; [exact E|]. exact (proj1 (IH _) Hx).
      * intros H. inversion H; subst. rewrite (proj2 (IH _) H4). cbn [bind]. congruence.
    + split; [discriminate|]. intros H. inversion H; subst. congruence.
Qed.
(** A list is accepted exactly when it is names of the map joined by the separator, to their values in that order; the empty text, an empty piece, a blank or a name
    not in the map throw. *)
Theorem C90_list m p sep s vs : names m p -> (splitParse m sep s = Ok vs <->
  exists ns, ns <> [] /\ s = join sep ns /\ (forall n, In n ns -> ~ In sep n) /\ Forall2 (fun n v => In (n, v) m) ns vs).
Proof.
  intros H. unfold splitParse. rewrite parseAll_ok. destruct (splitOn_spec sep s) as (A & B & C).
  assert (F : forall ns, Forall2 (fun n v => parseOf m n = Ok v) ns vs <-> Forall2 (fun n v => In (n, v) m) ns vs).
  { intros ns. split; (induction 1 as [|n v ns' vs' X _ IH]; constructor; [apply (C90_parse m p n v H); exact X|exact IH]). }
  rewrite F. split.
  - intros X. exists (splitOn sep s). auto.
  - intros (ns & N & -> & D & X). rewrite splitOn_join; assumption.
Qed.
Theorem C90_list_throws m sep s : (exists vs, splitParse m sep s = Ok vs) \/ splitParse m sep s = Err EThrow.
Proof.
  unfold splitParse. induction (splitOn sep s) as [|q l IH]; cbn [parseAll]; [left; eexists; reflexivity|]. destruct (parseOf m q); [|right; reflexivity].
  destruct IH as [(vs & ->)| ->]; cbn [bind]; [left; eexists; reflexivity|right; reflexivity].
Qed.
Example C90_example : splitParse cipherMap x3a (str "TLS_AES_128_GCM_SHA256:TLS_CHACHA20_POLY1305_SHA256") = Ok [0x1301; 0x1303] /\ splitParse cipherMap x2c (str "TLS_AES_128_GCM_SHA256,") = Err EThrow.
Proof. split; vm_compute; reflexivity. Qed.

(** ** C91: ports and hosts *)
(** Decimal numbers, most significant digit first; leading zeros are allowed *)
Inductive number : bytes -> N -> Prop :=
  | number_one d : d < 10 -> number [n2b (48 + d)] d
  | number_more s n d : number s n -> d < 10 -> number (s ++ [n2b (48 + d)]) (10 * n + d).
Definition is_digit (b : byte) : Prop := 48 <= b2n b <= 57.
Lemma digit_some b d : digit b = Some d -> d < 10 /\ b = n2b (48 + d).
Proof. unfold digit. destruct ((48 <=? b2n b) && (b2n b <=? 57)) eqn:E; [|discriminate]. intros [= <-]. split; [lia|]. replace (48 + (b2n b - 48)) with (b2n b) by lia. symmetry. apply n2b_b2n. Qed.
Lemma digit_of d : d < 10 -> digit (n2b (48 + d)) = Some d.
Proof. intros H. unfold digit. rewrite b2n_n2b by lia. destruct ((48 <=? 48 + d) && (48 + d <=? 57)) eqn:E; [f_equal; lia|lia]. Qed.
Definition text_of (ds : list N) : bytes := map (fun d => n2b (48 + d)) ds.
Lemma digits_split s : exists rest, s = text_of (Tool.digits s) ++ rest /\ (forall b r, rest = b :: r -> ~ is_digit b) /\ Forall (fun d => d < 10) (Tool.digits s).
Proof.
  induction s as [|b s (rest & IH & H & F)]; cbn [Tool.digits].
  - exists []. split; [reflexivity|]. split; [discriminate|constructor].
  - destruct (digit b) as [d|] eqn:E.
    + destruct (digit_some _ _ E) as [L ->]. exists rest. split; [cbn [text_of map app]; f_equal; exact IH|]. split; [exact H|constructor; assumption].
    + exists (b :: s). split; [reflexivity|]. split; [|constructor]. intros x r [= <- <-]. unfold is_digit. unfold digit in E. destruct ((48 <=? b2n b) && (b2n b <=? 57)) eqn:E'; [discriminate|lia].
Qed.
Lemma digits_app ds rest : Forall (fun d => d < 10) ds -> (forall b r, rest = b :: r -> ~ is_digit b) -> Tool.digits (text_of ds ++ rest) = ds.
Proof.
  intros F H. induction F as [|d ds L F IH]; cbn [text_of map app].
  - destruct rest as [|b r]; [reflexivity|]. cbn [Tool.digits]. specialize (H b r eq_refl). unfold digit. unfold is_digit in H. destruct ((48 <=? b2n b) && (b2n b <=? 57)) eqn:E; [lia|reflexivity].
  - cbn [Tool.digits]. rewrite digit_of by exact L. f_equal. exact IH.
Qed.
Lemma value_snoc ds d : value (ds ++ [d]) = 10 * value ds + d.
Proof. unfold value. rewrite fold_left_app. reflexivity. Qed.
Lemma number_value s n : number s n <-> exists ds, ds <> [] /\ s = text_of ds /\ Forall (fun d => d < 10) ds /\ n = value ds.
Proof.
  split.
  - induction 1 as [d L|s n d H (ds & N & -> & F & ->) L].
    + exists [d]. split; [discriminate|]. split; [reflexivity|]. split; [constructor; [exact L|constructor]|]. unfold value. cbn. lia.
    + exists (ds ++ [d]). split; [destruct ds; discriminate|]. split; [unfold text_of; rewrite map_app; reflexivity|]. split; [apply Forall_app; auto|]. rewrite value_snoc. reflexivity.
  - intros (ds & N & -> & F & ->). induction ds as [|d ds IH] using rev_ind; [congruence|]. apply Forall_app in F. destruct F as [F1 F2]. inversion_clear F2 as [|? ? L _].
    destruct ds as [|d' ds].
    + cbn. unfold value. cbn. constructor. exact L.
    + rewrite value_snoc. unfold text_of. rewrite map_app. constructor; [|exact L]. apply IH; [discriminate|exact F1].
Qed.
Definition space (b : byte) : Prop := 9 <= b2n b <= 13 \/ b2n b = 32.
Lemma space_isspace b : isspace b = true <-> space b.
Proof. unfold isspace, space. cbv zeta. lia. Qed.
Lemma skipSpace_spec s : exists sp, s = sp ++ skipSpace s /\ Forall space sp /\ (forall b r, skipSpace s = b :: r -> ~ space b).
Proof.
  induction s as [|b s (sp & IH & F & H)]; cbn [skipSpace].
  - exists []. split; [reflexivity|]. split; [constructor|discriminate].
  - destruct (isspace b) eqn:E.
    + exists (b :: sp). split; [cbn; f_equal; exact IH|]. split; [constructor; [apply space_isspace; exact E|exact F]|exact H].
    + exists []. split; [reflexivity|]. split; [constructor|]. intros x r [= <- <-]. rewrite <- space_isspace. congruence.
Qed.
Lemma skipSpace_app sp r : Forall space sp -> (forall b q, r = b :: q -> ~ space b) -> skipSpace (sp ++ r) = r.
Proof.
  intros F H. induction F as [|b sp Hb F IH]; cbn [app].
  - destruct r as [|b q]; [reflexivity|]. cbn [skipSpace]. specialize (H b q eq_refl). rewrite <- space_isspace in H. destruct (isspace b); [exfalso; apply H; reflexivity|reflexivity].
  - cbn [skipSpace]. rewrite (proj2 (space_isspace b) Hb). exact IH.
Qed.
(** What a text of a number means: spaces, perhaps a sign, a number below 2^64 whose negative is taken modulo 2^64, and whatever follows its last digit *)
Definition signed (sign : bytes) (n v : N) : Prop := ((sign = [] \/ sign = [x2b]) /\ v = n) \/ (sign = [x2d] /\ (v + n) mod 2 ^ 64 = 0 /\ v < 2 ^ 64).
Definition means (s : bytes) (v : N) : Prop :=
  exists sp sign ds rest n, s = sp ++ sign ++ ds ++ rest /\ Forall space sp /\ number ds n /\ (forall b r, rest = b :: r -> ~ is_digit b) /\ n < 2 ^ 64 /\ signed sign n v.
Lemma text_of_head ds r b q : text_of ds ++ r = b :: q -> ds <> [] -> Forall (fun d => d < 10) ds -> 48 <= b2n b <= 57.
Proof. destruct ds as [|d ds]; [congruence|]. cbn [text_of map app]. intros [= <- _] _ F. inversion_clear F as [|? ? L _]. rewrite b2n_n2b by lia. lia. Qed.
Lemma stoul_means s v : stoul s = Ok v <-> means s v.
Proof.
  unfold stoul, means. split.
  - destruct (skipSpace_spec s) as (sp & Es & F & _). intros H.
    assert (X : exists sign s2 neg, skipSpace s = sign ++ s2 /\ (neg = true /\ sign = [x2d] \/ neg = false /\ (sign = [] \/ sign = [x2b])) /\
      match Tool.digits s2 with [] => Err EThrow | l => let v0 := value l in if 2 ^ 64 - 1 <? v0 then Err EThrow else Ok (if neg then (2 ^ 64 - v0) mod 2 ^ 64 else v0) end = Ok v).
    { destruct (skipSpace s) as [|b r]; [exists [], [], false; split; [reflexivity|]; split; [auto|exact H]|].
      destruct (byte_eqb b x2d) eqn:E1; [apply byte_eqb_eq in E1; subst; exists [x2d], r, true; split; [reflexivity|]; split; [auto|exact H]|].
      destruct (byte_eqb b x2b) eqn:E2; [apply byte_eqb_eq in E2; subst; exists [x2b], r, false; split; [reflexivity|]; split; [auto|exact H]|].
      exists [], (b :: r), false. split; [reflexivity|]. split; [auto|exact H]. }
    clear H. destruct X as (sign & s2 & neg & E & Hs & H). destruct (digits_split s2) as (rest & E2 & Hr & Fd).
    destruct (Tool.digits s2) as [|d ds] eqn:Ed; [discriminate H|]. rewrite <- Ed in *. cbv zeta in H.
    destruct (2 ^ 64 - 1 <? value (Tool.digits s2)) eqn:Ev; [discriminate H|]. apply N.ltb_ge in Ev. apply (f_equal (fun r => match r with Ok x => x | Err _ => 0 end)) in H.
    assert (Hn : value (Tool.digits s2) < 2 ^ 64) by (revert Ev; generalize (value (Tool.digits s2)); change (2 ^ 64) with 18446744073709551616; lia).
    exists sp, sign, (text_of (Tool.digits s2)), rest, (value (Tool.digits s2)).
    split; [rewrite <- E2, <- E; exact Es|]. split; [exact F|]. split; [apply number_value; exists (Tool.digits s2); split; [congruence|auto]|]. split; [exact Hr|]. split; [exact Hn|].
    unfold signed. destruct Hs as [[-> ->]|[-> Hs]]; [right|left; auto]. split; [reflexivity|]. revert H Hn. generalize (value (Tool.digits s2)). change (2 ^ 64) with 18446744073709551616. intros k H Hn. lia.
  - intros (sp & sign & dt & rest & n & -> & F & Hn & Hr & Ln & Hs). apply number_value in Hn. destruct Hn as (ds & N & -> & Fd & ->).
    rewrite skipSpace_app; [|exact F|].
    2:{ intros b q Eb. destruct Hs as [[[->| ->] _]|[-> _]]; cbn [app] in Eb.
        - pose proof (text_of_head _ _ _ _ Eb N Fd). unfold space. lia.
        - injection Eb as <- _. unfold space. change (b2n x2b) with 43. lia.
        - injection Eb as <- _. unfold space. change (b2n x2d) with 45. lia. }
    assert (K : forall neg, (neg = true /\ sign = [x2d] \/ neg = false /\ (sign = [] \/ sign = [x2b])) ->
      match Tool.digits (text_of ds ++ rest) with [] => Err EThrow | l => let v0 := value l in if 2 ^ 64 - 1 <? v0 then Err EThrow else Ok (if neg : bool then (2 ^ 64 - v0) mod 2 ^ 64 else v0) end = Ok v).
    { intros neg Hg. rewrite digits_app by assumption. destruct ds as [|d0 ds0]; [congruence|]. set (ds := d0 :: ds0) in *. cbv zeta.
      destruct (2 ^ 64 - 1 <? value ds) eqn:Ev; [exfalso; apply N.ltb_lt in Ev; revert Ev Ln; generalize (value ds); change (2 ^ 64) with 18446744073709551616; lia|]. f_equal. clear Ev.
      destruct Hg as [[-> ->]|[-> Hg]].
      - destruct Hs as [[[Q|Q] _]|(_ & Hs & Hv)]; [discriminate Q|discriminate Q|]. revert Hs Hv Ln. generalize (value ds). change (2 ^ 64) with 18446744073709551616. intros k Hs Hv Lk. lia.
      - destruct Hs as [[_ ->]|(-> & _)]; [reflexivity|]. destruct Hg; discriminate. }
    destruct Hs as [[[->| ->] _]|[-> _]]; cbn [app].
    + destruct (text_of ds ++ rest) as [|b q] eqn:Eb; [destruct ds; [congruence|discriminate Eb]|]. pose proof (text_of_head _ _ _ _ Eb N Fd) as Hb.
      destruct (byte_eqb b x2d) eqn:E1; [apply byte_eqb_eq in E1; subst b; change (b2n x2d) with 45 in Hb; lia|].
      destruct (byte_eqb b x2b) eqn:E2; [apply byte_eqb_eq in E2; subst b; change (b2n x2b) with 43 in Hb; lia|]. apply (K false). auto.
    + change (byte_eqb x2b x2d) with false. change (byte_eqb x2b x2b) with true. cbv iota. apply (K false). auto.
    + change (byte_eqb x2d x2d) with true. cbv iota. apply (K true). auto.
Qed.
(** A port is accepted exactly when the text means a number up to 65535, which is 0 only for a listening side; anything else throws. *)
Theorem C91_port s serverSide p : portFromString s serverSide = Ok p <-> means s p /\ p <= 65535 /\ (p = 0 -> serverSide = true).
Proof.
  rewrite <- stoul_means. unfold portFromString. destruct (stoul s) as [v|e]; cbn [bind]; [|split; [discriminate|intros [? _]; discriminate]].
  destruct (N.leb_spec v 65535).
  - destruct (N.eqb_spec v 0); destruct serverSide; cbn [negb andb]; (split; [try discriminate; intros [= <-]; repeat split; auto; congruence|]);
      intros ([= <-] & _ & Z); try reflexivity. specialize (Z e). discriminate Z.
  - split; [discriminate|]. intros ([= <-] & ? & _). lia.
Qed.
Theorem C91_port_throws s serverSide : (exists p, portFromString s serverSide = Ok p) \/ portFromString s serverSide = Err EThrow.
Proof.
  unfold portFromString. destruct (stoul s) as [v|e] eqn:E; cbn [bind].
  - destruct (v <=? 65535); [|right; reflexivity]. destruct ((v =? 0) && negb serverSide); [right; reflexivity|left; eexists; reflexivity].
  - right. unfold stoul in E. destruct (match skipSpace s with b :: r => _ | [] => _ end) as [neg s2]. destruct (Tool.digits s2); [congruence|]. cbv zeta in E. destruct (2 ^ 64 - 1 <? _); congruence.
Qed.
(** Digits alone mean their number. *)
Theorem C91_plain s n serverSide : number s n -> n <= 65535 -> (n = 0 -> serverSide = true) -> portFromString s serverSide = Ok n.
Proof.
  intros H L Z. apply C91_port. split; [|auto]. exists [], [], s, [], n. rewrite app_nil_r. split; [reflexivity|]. split; [constructor|]. split; [exact H|]. split; [discriminate|].
  split; [change (2 ^ 64) with 18446744073709551616; lia|]. left. auto.
Qed.
(** Refuted: that only digits are a port. *)
Example C91_lax : portFromString (str "443abc") false = Ok 443 /\ portFromString (str " +443") false = Ok 443 /\ portFromString (str "-18446744073709551615") false = Ok 1 /\
  portFromString (str "65536") false = Err EThrow /\ portFromString (str "0") false = Err EThrow /\ portFromString (str "0") true = Ok 0.
Proof. repeat split; vm_compute; reflexivity. Qed.

Lemma rfind_some c s i : rfind c s = Some i -> exists a b, s = a ++ c :: b /\ blen a = i /\ ~ In c b.
Proof.
  revert i. induction s as [|x s IH]; intros i H; [discriminate H|]. cbn [rfind] in H. destruct (rfind c s) as [k|] eqn:E.
  - injection H as <-. destruct (IH k eq_refl) as (a & b & -> & L & N). exists (x :: a), b. split; [reflexivity|]. split; [rewrite blen_cons; lia|exact N].
  - destruct (byte_eqb x c) eqn:Ex; [|discriminate H]. injection H as <-. apply byte_eqb_eq in Ex. subst x. exists [], s. split; [reflexivity|]. split; [reflexivity|].
    intros Hi. clear -E Hi. induction s as [|y s IH]; [destruct Hi|]. cbn [rfind] in E. destruct (rfind c s); [discriminate|]. destruct (byte_eqb y c) eqn:Ey; [discriminate|]. destruct Hi as [->|Hi]; [|exact (IH eq_refl Hi)].
    rewrite (proj2 (byte_eqb_eq _ _) eq_refl) in Ey. discriminate.
Qed.
Lemma rfind_none c s : rfind c s = None <-> ~ In c s.
Proof.
  induction s as [|y s IH]; cbn [rfind]; [split; [intros _ []|reflexivity]|]. destruct (rfind c s).
  - split; [discriminate|]. intros H. exfalso. assert (K : ~ ~ In c s) by (intros Q; apply IH in Q; discriminate). apply K. intros Q. apply H. right. exact Q.
  - destruct (byte_eqb y c) eqn:E.
    + split; [discriminate|]. intros H. exfalso. apply H. left. apply byte_eqb_eq in E. exact E.
    + split; [|reflexivity]. intros _ [->|Hi]; [rewrite (proj2 (byte_eqb_eq _ _) eq_refl) in E; discriminate|]. exact (proj1 IH eq_refl Hi).
Qed.
Lemma rfind_at c a b : ~ In c b -> rfind c (a ++ c :: b) = Some (blen a).
Proof.
  intros N. induction a as [|x a IH]; cbn [app rfind].
  - rewrite (proj2 (rfind_none c b) N), (proj2 (byte_eqb_eq c c) eq_refl). reflexivity.
  - rewrite IH. f_equal. rewrite blen_cons. lia.
Qed.
Lemma substr_mid a m b n : blen m = n -> substr (a ++ m ++ b) (blen a) n = Ok m.
Proof.
  intros <-. unfold substr. rewrite !blen_app. destruct (_ <? _) eqn:E; [lia|]. f_equal. rewrite dropN_app by reflexivity. rewrite N.min_l by lia. apply takeN_app. reflexivity.
Qed.
Lemma substr_rest a b : blen (a ++ b) < 2 ^ 62 -> substr (a ++ b) (blen a) (size_t (-1)) = Ok b.
Proof.
  intros L. unfold substr. rewrite !blen_app in *. destruct (_ <? _) eqn:E; [lia|]. f_equal. rewrite dropN_app by reflexivity. change (size_t (-1)) with 18446744073709551615. change (2 ^ 62) with 4611686018427387904 in L.
  rewrite N.min_r by lia. replace (blen a + blen b - blen a) with (blen b) by lia. rewrite <- (app_nil_r b) at 2. apply takeN_app. reflexivity.
Qed.
(** An address is accepted exactly when it is a nonempty host without colons, a colon and a port for connecting to, or a host with colons in square brackets, a colon
    and such a port; the brackets are not part of the host.  Anything else throws. *)
Definition address (s h port : bytes) : Prop :=
  ~ In x3a port /\ ((s = h ++ x3a :: port /\ h <> [] /\ ~ In x3a h) \/ (s = x5b :: h ++ x5d :: x3a :: port /\ In x3a h)).
Theorem C91_host s h p : blen s < 2 ^ 62 -> (hostPortFromString s = Ok (h, p) <-> exists port, address s h port /\ portFromString port false = Ok p).
Proof.
  intros L. unfold hostPortFromString. destruct (rfind x3a s) as [i|] eqn:E.
  2:{ split; [discriminate|]. rewrite rfind_none in E. intros (port & (_ & [(-> & _)|(-> & _)]) & _); exfalso; apply E.
      - apply in_or_app. right. left. reflexivity.
      - right. apply in_or_app. right. right. left. reflexivity. }
  apply rfind_some in E. destruct E as (a & port & Es & La & Np).
  assert (Uniq : forall h' port', s = h' ++ x3a :: port' -> ~ In x3a port' -> h' = a /\ port' = port).
  { intros h' port' E' N'. rewrite E' in Es. pose proof (f_equal (rfind x3a) Es) as Q. rewrite !rfind_at in Q by assumption. injection Q as Q. apply app_inj_len in Es; [|congruence]. destruct Es as (-> & [= ->]). auto. }
  assert (A : forall port0 h0, address s h0 port0 -> port0 = port /\ ((h0 = a /\ h0 <> [] /\ ~ In x3a h0) \/ (a = x5b :: h0 ++ [x5d] /\ In x3a h0))).
  { intros port0 h0 (N0 & [(E0 & Hh & Hn)|(E0 & Hh)]).
    - destruct (Uniq _ _ E0 N0) as (-> & ->). auto.
    - destruct (Uniq (x5b :: h0 ++ [x5d]) port0) as (<- & ->); [cbn [app]; rewrite <- app_assoc; exact E0|exact N0|]. auto. }
  assert (Rest : substr s (i + 1) (size_t (-1)) = Ok port).
  { rewrite Es. replace (a ++ x3a :: port) with ((a ++ [x3a]) ++ port) by (rewrite <- app_assoc; reflexivity). replace (i + 1) with (blen (a ++ [x3a])) by (rewrite blen_app, La; reflexivity). apply substr_rest. rewrite <- app_assoc. cbn [app]. rewrite <- Es. exact L. }
  assert (Ta : takeN i s = a) by (rewrite Es; apply takeN_app; congruence).
  destruct (N.eqb_spec i 0) as [I0|I0].
  - (* nothing before the colon *)
    assert (a = []) by (destruct a; [reflexivity|]; rewrite blen_cons in La; lia). clear Ta. subst a. cbn [app] in Es.
    split; intros H0.
    + exfalso. pose proof (rfind_at x3a [] port Np) as R. cbn [app] in R. rewrite Es, R in H0. change (byte_eqb x3a x5b) with false in H0. cbn [negb orb] in H0. destruct (dropN (i - 1) (x3a :: port)) eqn:Ed; [|discriminate H0].
      subst i. discriminate Ed.
    + exfalso. destruct H0 as (port0 & H0 & _). apply A in H0. destruct H0 as (_ & [(-> & H & _)|(H & _)]); [congruence|discriminate H].
  - rewrite Ta. destruct (rfind x3a a) as [j|] eqn:Ej.
    + apply rfind_some in Ej. destruct Ej as (u & w & Ea & Lu & Nw). assert (In x3a a) by (rewrite Ea; apply in_or_app; right; left; reflexivity).
      destruct a as [|f a']; [destruct u; discriminate Ea|]. rewrite Es. cbn [app].
      destruct (exists_last (l := f :: a') ltac:(discriminate)) as (a0 & e & Ee).
      assert (D : dropN (i - 1) (f :: a' ++ x3a :: port) = e :: x3a :: port).
      { change (f :: a' ++ x3a :: port) with ((f :: a') ++ x3a :: port). rewrite Ee, <- app_assoc. cbn [app]. apply dropN_app. rewrite Ee, blen_app in La. change (blen [e]) with 1 in La. lia. }
      rewrite D. change (f :: a' ++ x3a :: port) with ((f :: a') ++ x3a :: port). rewrite <- Es.
      destruct (negb (byte_eqb f x5b) || negb (byte_eqb e x5d)) eqn:B; cbn [bind].
      * split; [discriminate|]. intros (port0 & H0 & _). exfalso. apply A in H0. destruct H0 as (_ & [(-> & _ & Hn)|(Hn & _)]); [exact (Hn H)|].
        injection Hn as -> Hn. rewrite Hn in Ee. change (x5b :: h ++ [x5d]) with ((x5b :: h) ++ [x5d]) in Ee. apply app_inj_tail in Ee. destruct Ee as (_ & <-). cbn in B. discriminate B.
      * apply orb_false_iff in B. destruct B as (B1 & B2). apply negb_false_iff, byte_eqb_eq in B1. apply negb_false_iff, byte_eqb_eq in B2. subst f e.
        destruct a0 as [|g h0]; [cbn [app] in Ee; injection Ee as Ee1 Ee2; discriminate Ee1|]. injection Ee as <- ->.
        assert (Ih : In x3a h0).
        { destruct H as [H|H]; [discriminate H|]. apply in_app_or in H. destruct H as [H|[H|[]]]; [exact H|discriminate H]. }
        assert (S1 : substr s 1 (i - 2) = Ok h0).
        { rewrite Es. cbn [app]. rewrite <- app_assoc. change 1 with (blen [x5b]). change (x5b :: h0 ++ [x5d] ++ x3a :: port) with ([x5b] ++ h0 ++ [x5d] ++ x3a :: port). apply substr_mid. rewrite blen_cons, blen_app in La. change (blen [x5d]) with 1 in La. lia. }
        rewrite S1. cbn [bind]. rewrite Rest. cbn [bind]. split.
        -- intros Q. apply bind_Ok in Q. destruct Q as (p' & Hp & [= <- <-]). exists port. split; [|exact Hp]. split; [exact Np|right]. split; [|exact Ih]. rewrite Es. cbn [app]. rewrite <- app_assoc. reflexivity.
        -- intros (port0 & H0 & Hp). apply A in H0. destruct H0 as (-> & [(-> & _ & Hn)|(Hn & _)]); [exfalso; exact (Hn H)|]. injection Hn as Hn. apply app_inj_tail in Hn. destruct Hn as (-> & _). rewrite Hp. reflexivity.
    + rewrite rfind_none in Ej. cbn [bind].
      assert (S1 : substr s 0 i = Ok a) by (rewrite Es; exact (substr_mid [] a (x3a :: port) i La)). rewrite S1. cbn [bind]. rewrite Rest. cbn [bind].
      assert (a <> []) by (intros ->; apply I0; rewrite <- La; reflexivity). split.
      * intros Q. apply bind_Ok in Q. destruct Q as (p' & Hp & [= <- <-]). exists port. split; [|exact Hp]. split; [exact Np|left]. auto.
      * intros (port0 & H0 & Hp). apply A in H0. destruct H0 as (-> & [(-> & _)|(-> & Hi)]); [rewrite Hp; reflexivity|]. exfalso. apply Ej. right. apply in_or_app. left. exact Hi.
Qed.
Example C91_address : hostPortFromString (str "example.com:443") = Ok (str "example.com", 443) /\ hostPortFromString (str "[2001:db8::1]:8443") = Ok (str "2001:db8::1", 8443) /\
  hostPortFromString (str "2001:db8::1") = Err EThrow /\ hostPortFromString (str ":443") = Err EThrow /\ hostPortFromString (str "[localhost]:443") = Ok (str "[localhost]", 443) /\ hostPortFromString (str "a:0") = Err EThrow.
Proof. repeat split; vm_compute; reflexivity. Qed.
Theorem C91_host_throws s : (exists r, hostPortFromString s = Ok r) \/ hostPortFromString s = Err EThrow.
Proof.
  unfold hostPortFromString. destruct (rfind x3a s) as [i|] eqn:E; [|right; reflexivity]. apply rfind_some in E. destruct E as (a & b & Es & La & _).
  assert (K : forall st ln, (exists r, (host <- substr s st ln ;; rest <- substr s (i + 1) (size_t (-1)) ;; port <- portFromString rest false ;; Ok (host, port)) = Ok r) \/
    (host <- substr s st ln ;; rest <- substr s (i + 1) (size_t (-1)) ;; port <- portFromString rest false ;; Ok (host, port)) = Err EThrow).
  { intros st ln. unfold substr. destruct (blen s <? st); [right; reflexivity|]. cbn [bind]. destruct (blen s <? i + 1); [right; reflexivity|]. cbn [bind].
    match goal with |- context [portFromString ?x false] => destruct (C91_port_throws x false) as [(p & ->)| ->] end; cbn [bind]; [left; eexists; reflexivity|right; reflexivity]. }
  destruct (rfind x3a _); [|apply K]. destruct s as [|f s']; [destruct a; discriminate Es|]. destruct (dropN (i - 1) (f :: s')) as [|e r] eqn:D.
  - exfalso. apply (f_equal (@blen _)) in D. rewrite Es in D. unfold dropN in D. unfold blen in *. rewrite skipn_length, app_length in D. cbn [List.length] in D. lia.
  - destruct (negb (byte_eqb f x5b) || negb (byte_eqb e x5d)); [right; reflexivity|]. cbn [bind]. apply K.
Qed.

(** ** C92: command lines *)
(** The arguments of which nothing is made: each with the argument after it *)
Definition ignored (a : bytes) : Prop := a = str "-v" \/ a = str "-vmodule".
(** A complete command line and the handler calls it stands for *)
Inductive cmdline (H : bytes -> option bool) : list bytes -> list (bytes * bytes) -> Prop :=
  | c_end : cmdline H [] []
  | c_ignored a x r c : ignored a -> cmdline H r c -> cmdline H (a :: x :: r) c
  | c_flag a r c : ~ ignored a -> H a = Some false -> cmdline H r c -> cmdline H (a :: r) ((a, []) :: c)
  | c_option a x r c : ~ ignored a -> H a = Some true -> cmdline H r c -> cmdline H (a :: x :: r) ((a, x) :: c).
Lemma ignored_b a : bytes_eqb a (str "-v") || bytes_eqb a (str "-vmodule") = true <-> ignored a.
Proof. unfold ignored. rewrite orb_true_iff, !bytes_eqb_eq. reflexivity. Qed.
Lemma parseArgs_complete H pre c post : cmdline H pre c -> parseArgs H (pre ++ post) = (c ++ fst (parseArgs H post), snd (parseArgs H post)).
Proof.
  induction 1 as [|a x r c I C IH|a r c N E C IH|a x r c N E C IH]; cbn [app parseArgs].
  - destruct (parseArgs H post); reflexivity.
  - rewrite (proj2 (ignored_b a) I). exact IH.
  - rewrite <- ignored_b in N. destruct (bytes_eqb a (str "-v") || bytes_eqb a (str "-vmodule")); [congruence|]. rewrite E, IH. reflexivity.
  - rewrite <- ignored_b in N. destruct (bytes_eqb a (str "-v") || bytes_eqb a (str "-vmodule")); [congruence|]. rewrite E, IH. reflexivity.
Qed.
(** How a command line can end: completely, with an ignored argument that has nothing after it, with an option without its parameter, or at an unknown argument *)
Inductive ending (H : bytes -> option bool) : list bytes -> N -> Prop :=
  | e_end : ending H [] 0
  | e_ignored a : ignored a -> ending H [a] 0
  | e_missing a : ~ ignored a -> H a = Some true -> ending H [a] 1
  | e_unknown a r : ~ ignored a -> H a = None -> ending H (a :: r) 1.
Lemma parseArgs_ending H post e : ending H post e -> parseArgs H post = ([], e).
Proof.
  destruct 1 as [|a I|a N E|a r N E]; cbn [parseArgs]; try reflexivity.
  - rewrite (proj2 (ignored_b a) I). reflexivity.
  - rewrite <- ignored_b in N. destruct (bytes_eqb a (str "-v") || bytes_eqb a (str "-vmodule")); [congruence|]. rewrite E. reflexivity.
  - rewrite <- ignored_b in N. destruct (bytes_eqb a (str "-v") || bytes_eqb a (str "-vmodule")); [congruence|]. rewrite E. reflexivity.
Qed.
Lemma parseArgs_split H l : exists pre post c e, l = pre ++ post /\ cmdline H pre c /\ ending H post e.
Proof.
  remember (List.length l) as n eqn:Hn. assert (L : (List.length l <= n)%nat) by lia. clear Hn. revert l L. induction n as [|n IH]; intros l L.
  - destruct l; [|cbn in L; lia]. exists [], [], [], 0. repeat (split; [constructor|]). constructor.
  - destruct l as [|a r]; [exists [], [], [], 0; repeat (split; [constructor|]); constructor|]. cbn [List.length] in L.
    destruct (bytes_eqb a (str "-v") || bytes_eqb a (str "-vmodule")) eqn:Ei.
    + apply ignored_b in Ei. destruct r as [|x r]; [exists [], [a], [], 0; split; [reflexivity|]; split; constructor; exact Ei|].
      destruct (IH r ltac:(cbn in L; lia)) as (pre & post & c & e & -> & C & E). exists (a :: x :: pre), post, c, e. split; [reflexivity|]. split; [constructor; assumption|exact E].
    + assert (N : ~ ignored a) by (rewrite <- ignored_b; congruence). destruct (H a) as [[|]|] eqn:Ea.
      * destruct r as [|x r]; [exists [], [a], [], 1; split; [reflexivity|]; split; constructor; assumption|].
        destruct (IH r ltac:(cbn in L; lia)) as (pre & post & c & e & -> & C & E). exists (a :: x :: pre), post, ((a, x) :: c), e. split; [reflexivity|]. split; [constructor; assumption|exact E].
      * destruct (IH r ltac:(lia)) as (pre & post & c & e & -> & C & E). exists (a :: pre), post, ((a, []) :: c), e. split; [reflexivity|]. split; [constructor; assumption|exact E].
      * exists [], (a :: r), [], 1. split; [reflexivity|]. split; constructor; assumption.
Qed.
(** The handlers called, in which order, with which parameters, and the value returned: those of the longest complete command line that the arguments from the third on
    start with, and 0 exactly when nothing but perhaps one ignored argument is left of them. *)
Theorem C92_arguments H argv c e : parseArguments H argv = (c, e) <->
  exists pre post, skipn 2 argv = pre ++ post /\ cmdline H pre c /\ ending H post e.
Proof.
  unfold parseArguments. destruct (parseArgs_split H (skipn 2 argv)) as (pre & post & c' & e' & E & C & En). split.
  - intros P. exists pre, post. rewrite E, (parseArgs_complete _ _ _ _ C), (parseArgs_ending _ _ _ En) in P. cbn [fst snd] in P. rewrite app_nil_r in P. injection P as <- <-. auto.
  - intros (pre' & post' & E' & C' & En'). rewrite E', (parseArgs_complete _ _ _ _ C'), (parseArgs_ending _ _ _ En'). cbn [fst snd]. rewrite app_nil_r. reflexivity.
Qed.
(** Every call is of an argument that has a handler, which is none of the ignored ones, with the argument after it or with nothing. *)
Theorem C92_calls H argv c e a x : parseArguments H argv = (c, e) -> In (a, x) c ->
  ~ ignored a /\ exists pre r, skipn 2 argv = pre ++ a :: r /\ ((H a = Some false /\ x = []) \/ (H a = Some true /\ exists r', r = x :: r')).
Proof.
  intros P Hi. apply C92_arguments in P. destruct P as (pre & post & -> & C & _). induction C as [|b y r c I C IH|b r c N E C IH|b y r c N E C IH].
  - destruct Hi.
  - destruct (IH Hi) as (A & p & q & B & D). split; [exact A|]. exists (b :: y :: p), q. split; [cbn; rewrite B; reflexivity|exact D].
  - destruct Hi as [[= <- <-]|Hi]; [split; [exact N|]; exists [], (r ++ post); auto|]. destruct (IH Hi) as (A & p & q & B & D). split; [exact A|]. exists (b :: p), q. split; [cbn; rewrite B; reflexivity|exact D].
  - destruct Hi as [[= <- <-]|Hi]; [split; [exact N|]; exists [], (y :: r ++ post); split; [reflexivity|]; right; eauto|]. destruct (IH Hi) as (A & p & q & B & D). split; [exact A|]. exists (b :: y :: p), q. split; [cbn; rewrite B; reflexivity|exact D].
Qed.
(** Refuted: that an argument after -v that has a handler is handled. *)
Definition exH (a : bytes) : option bool := if bytes_eqb a (str "-accept") then Some true else if bytes_eqb a (str "-loop") then Some false else None.
Example C92_met : parseArguments exH (map str ["fizz"; "server"; "-accept"; "443"; "-loop"]%string) = ([(str "-accept", str "443"); (str "-loop", [])], 0) /\
  parseArguments exH (map str ["fizz"; "server"; "-v"; "-loop"]%string) = ([], 0) /\ parseArguments exH (map str ["fizz"; "server"; "-loop"; "-accept"]%string) = ([(str "-loop", [])], 1) /\
  parseArguments exH (map str ["fizz"; "server"; "-x"; "-loop"]%string) = ([], 1).
Proof. repeat split; vm_compute; reflexivity. Qed.

(** ** C93: ECH configurations and extensions *)
Definition blank (b : byte) : Prop := b = x20 \/ b = x0a \/ b = x0d \/ b = x09.
Lemma wspace_blank b : wspace b = true <-> blank b.
Proof. unfold wspace, blank. rewrite !orb_true_iff, !byte_eqb_eq. tauto. Qed.
Lemma ltrim_app ws r : Forall blank ws -> (forall b q, r = b :: q -> ~ blank b) -> ltrim (ws ++ r) = r.
Proof.
  intros F H. induction F as [|b ws Hb F IH]; cbn [app].
  - destruct r as [|b q]; [reflexivity|]. cbn [ltrim]. specialize (H b q eq_refl). rewrite <- wspace_blank in H. destruct (wspace b); [exfalso; apply H; reflexivity|reflexivity].
  - cbn [ltrim]. rewrite (proj2 (wspace_blank b) Hb). exact IH.
Qed.
Lemma trim_app w1 m w2 : Forall blank w1 -> Forall blank w2 -> Forall (fun b => ~ blank b) m -> trim (w1 ++ m ++ w2) = m.
Proof.
  intros F1 F2 Fm. unfold trim. destruct m as [|x m].
  - cbn [app]. assert (E : forall w, Forall blank w -> ltrim w = []) by (intros w F; rewrite <- (app_nil_r w); apply ltrim_app; [exact F|discriminate]).
    rewrite (E (w1 ++ w2)) by (apply Forall_app; auto). reflexivity.
  - rewrite ltrim_app; [|exact F1|]. 2:{ intros b q [= <- _]. inversion_clear Fm; assumption. }
    rewrite rev_app_distr. rewrite ltrim_app; [apply rev_involutive|apply Forall_rev; exact F2|]. intros b q Eb. apply Forall_rev in Fm. rewrite Eb in Fm. inversion_clear Fm; assumption.
Qed.
(** Base64 of anything, with blanks around it, is decoded to just that; what can be decoded besides is C81_base64's. *)
Theorem C93_text b w1 w2 : Forall blank w1 -> Forall blank w2 -> base64Decode (trim (w1 ++ base64Encode b ++ w2)) = Ok b.
Proof.
  intros F1 F2. rewrite trim_app; [apply base64_roundtrip|exact F1|exact F2|]. eapply Forall_impl; [|apply base64_plain]. intros c (A & _) B. revert A. destruct B as [->|[->|[->| ->]]]; discriminate.
Qed.
(** The configurations of a list that are of the supported version, in order; each has to hold a configuration with a name, after which anything may follow *)
Inductive kept : list (N * buf) -> list echcfg -> Prop :=
  | k_nil : kept [] []
  | k_other v d l cs : v <> 65037 -> kept l cs -> kept ((v, d) :: l) cs
  | k_one c junk l cs : wf_cfg c = true -> fit_cfg c = true -> ec_name c <> [] -> kept l cs -> kept ((65037, Some (w_cfg c ++ junk)) :: l) (c :: cs).
Lemma dec_cfg c junk : wf_cfg c = true -> fit_cfg c = true -> ec_name c <> [] -> decode_cfg (w_cfg c ++ junk) = Ok (c, junk).
Proof. intros W F N. rewrite (C47_config_roundtrip c (w_cfg c) junk W); [destruct (ec_name c); [congruence|reflexivity]|]. apply (C47_encode c _ W). auto. Qed.
Lemma supported_kept l cs : Forall (fun c => snd c <> None) l -> (supportedConfigs l = Ok cs <-> kept l cs).
Proof.
  intros F. revert cs. induction F as [|[v d] l Hd F IH]; intros cs; cbn [supportedConfigs].
  - split; [intros [= <-]; constructor|intros K; inversion K; reflexivity].
  - cbn [snd] in Hd. destruct d as [d|]; [clear Hd|congruence]. unfold parseSupportedECHConfig. cbn [fst snd]. destruct (N.eqb_spec v 65037) as [->|Nv].
    + destruct (decode_cfg d) as [[c junk]|e] eqn:E; cbn [bind].
      * pose proof (C47_config_canonical _ _ _ E) as (W & Fc & Nn & Ed). split.
        -- intros H. apply bind_Ok in H. destruct H as (cs' & H & [= <-]). rewrite Ed. apply k_one; try assumption. exact (proj1 (IH _) H).
        -- clear Ed. intros K. inversion K as [|? ? ? ? Nv K'|c' junk' ? cs' W' F' N' K' E1]; subst; [congruence|]. rewrite (proj2 (IH _) K'). cbn [bind].
           pose proof (eq_trans (eq_sym E) (dec_cfg c' junk' W' F' N')) as D. injection D as -> _. reflexivity.
      * split; [discriminate|]. intros K. exfalso. inversion K as [|? ? ? ? Nv K'|c' junk' ? cs' W' F' N' K' E1]; subst; [congruence|].
        pose proof (eq_trans (eq_sym E) (dec_cfg c' junk' W' F' N')) as D. discriminate D.
    + cbn [bind]. split.
      * intros H. apply bind_Ok in H. destruct H as (cs' & H & [= <-]). apply k_other; [exact Nv|]. exact (proj1 (IH _) H).
      * intros K. inversion K as [|? ? ? ? Nv' K'|]; subst; [|congruence]. rewrite (proj2 (IH _) K'). reflexivity.
Qed.
(** A text is accepted exactly when it decodes to a list of configurations, after which anything may follow, whose supported ones are well formed; the result is those, and
    nothing when there are none. *)
Definition config_list (l : list (N * buf)) : Prop := forallb (wf_nb 2) l = true /\ fit_list 2 (w_nb 2) fit_nb l = true.
Theorem C93_configs s r : parseECHConfigsBase64 s = Ok r <->
  exists l junk cs, base64Decode (trim s) = Ok (tls_list 2 (w_nb 2) l ++ junk) /\ config_list l /\ kept l cs /\ r = match cs with [] => None | _ => Some cs end.
Proof.
  assert (Nn : forall l, config_list l -> Forall (fun c : N * buf => snd c <> None) l).
  { intros l (W & _). rewrite forallb_forall in W. apply Forall_forall. intros c Hc. apply W in Hc. unfold wf_nb in Hc. apply andb_true_iff in Hc. destruct Hc as (_ & Hc). destruct (snd c); [discriminate|discriminate Hc]. }
  unfold parseECHConfigsBase64, decodeConfigList. split.
  - intros H. apply bind_Ok in H. destruct H as (b & Hb & H). apply bind_Ok in H. destruct H as (l & Hl & H). apply bind_Ok in H. destruct H as (cs & Hc & [= <-]).
    apply bind_Ok in Hl. destruct Hl as ([[l' n] junk] & Hl & [= ->]). pose proof (law_canon _ _ _ _ (L_nbs 2 ltac:(lia)) b l n junk Hl) as (W & F & Eb & _).
    exists l, junk, cs. split; [rewrite <- Eb; exact Hb|]. split; [split; assumption|]. split; [|reflexivity]. apply supported_kept; [apply Nn; split; assumption|exact Hc].
  - intros (l & junk & cs & Hb & (W & F) & K & ->). rewrite Hb. cbn [bind]. pose proof (law_rt _ _ _ _ (L_nbs 2 ltac:(lia)) l junk W F) as R. cbn [c_vec c_rd] in R.
    unfold c_ech_config. rewrite R. cbn [bind]. rewrite (proj2 (supported_kept l cs (Nn l (conj W F))) K). reflexivity.
Qed.
(** What configured servers publish is read back: all of it, in order. *)
Theorem C93_published cs w1 w2 : Forall blank w1 -> Forall blank w2 -> (forall c, In c cs -> wf_cfg c = true /\ fit_cfg c = true /\ ec_name c <> []) -> cs <> [] ->
  let l := map (fun c => (65037, Some (w_cfg c))) cs in fit_list 2 (w_nb 2) fit_nb l = true ->
  parseECHConfigsBase64 (w1 ++ base64Encode (tls_list 2 (w_nb 2) l) ++ w2) = Ok (Some cs).
Proof.
  intros F1 F2 H N l F. apply C93_configs. exists l, [], cs. rewrite app_nil_r. split; [apply C93_text; assumption|]. split.
  - split; [|exact F]. apply forallb_forall. intros x Hx. apply in_map_iff in Hx. destruct Hx as (c & <- & _). reflexivity.
  - split; [|destruct cs; [congruence|reflexivity]]. clear N F. subst l. induction cs as [|c cs IH]; [constructor|]. cbn [map]. rewrite <- (app_nil_r (w_cfg c)). destruct (H c (or_introl eq_refl)) as (A & B & C).
    apply k_one; try assumption. apply IH. intros x Hx. apply H. right. exact Hx.
Qed.
(** Extensions are read exactly when the text is hexadecimal of their encodings one after another, below 65536 bytes; anything else throws, and the check that nothing is
    left cannot fail. *)
Theorem C93_extensions s l : getExtensions s = Ok l <-> exists b, hex_of s b /\ b = concat (map w_ext l) /\ blen b < 65536 /\ wf_exts l = true /\ forallb (fun e => ofits 2 (ext_data e)) l = true.
Proof.
  unfold getExtensions. split.
  - intros H. apply bind_Ok in H. destruct H as (b & Hb & H). assert (Hx : hex_of s b) by (apply C83_unhexlify; destruct (unhexlify s) as [|[]]; try discriminate Hb; exact Hb). clear Hb.
    apply bind_Ok in H. destruct H as (w & Hw & H). cbn [write_buf] in Hw. unfold write_len in Hw. change (lw_max W16) with 65536 in Hw. destruct (N.ltb_spec (blen b) 65536) as [Lb|]; [|discriminate Hw].
    cbn [bind throwing] in Hw. injection Hw as <-. apply bind_Ok in H. destruct H as ([l' r] & Hl & H). destruct r; [|discriminate H]. injection H as <-.
    change (throwing (read_exts (be (lw_nat W16) (blen b) ++ b)) = Ok (l', [])) in Hl.
    destruct (read_exts (be (lw_nat W16) (blen b) ++ b)) as [y|[]] eqn:E; try discriminate Hl. cbn [throwing] in Hl. injection Hl as ->. apply read_exts_inv in E. destruct E as (W & F & E). rewrite app_nil_r in E.
    unfold w_exts, tls_list, tls_vec in E. apply app_inj_len in E; [|rewrite !be_blen; reflexivity]. destruct E as (_ & E). exists b. unfold fit_exts in F. apply andb_true_iff in F. tauto.
  - intros (b & Hx & -> & Lb & W & F). rewrite (proj2 (C83_unhexlify _ _) Hx). cbn [throwing bind write_buf]. unfold write_len. change (lw_max W16) with 65536. rewrite (proj2 (N.ltb_lt _ _) Lb). cbn [bind throwing].
    change (be (lw_nat W16) (blen (concat (map w_ext l))) ++ concat (map w_ext l)) with (w_exts l). destruct (w_exts l) as [|x q] eqn:E.
    { exfalso. apply (f_equal (@blen _)) in E. unfold w_exts, tls_list, tls_vec in E. rewrite blen_app, be_blen in E. change (N.of_nat 2) with 2 in E. change (@blen byte []) with 0 in E. lia. }
    rewrite <- E. pose proof (read_exts_ok l [] W) as R. rewrite app_nil_r in R. rewrite R; [reflexivity|]. unfold fit_exts. rewrite F. cbn [andb]. unfold fits_len. apply N.ltb_lt. exact Lb.
Qed.
Lemma throwing_safe {A} (r : res A) : safe r -> (exists x, throwing r = Ok x /\ r = Ok x) \/ throwing r = Err EThrow.
Proof. destruct r as [x|[]]; cbn; intros S; try contradiction; eauto. Qed.
Theorem C93_extensions_throw s : (exists l, getExtensions s = Ok l) \/ getExtensions s = Err EThrow.
Proof.
  unfold getExtensions. destruct (unhexlify s) as [b|e] eqn:Eu.
  2:{ right. assert (E : unhexlify s = fail) by (apply C83_refused; intros b Hb; apply C83_unhexlify in Hb; congruence). rewrite Eu in E. injection E as ->. reflexivity. }
  cbn [throwing bind write_buf]. unfold write_len. destruct (blen b <? lw_max W16) eqn:Lb; [|right; reflexivity]. cbn [bind throwing].
  destruct (be (lw_nat W16) (blen b) ++ b) as [|x q] eqn:Ew; [left; eexists; reflexivity|]. rewrite <- Ew.
  destruct (throwing_safe _ (safe_read_exts (be (lw_nat W16) (blen b) ++ b))) as [([l r] & -> & E)| ->]; [|right; reflexivity]. cbn [bind]. left. exists l.
  apply read_exts_inv in E. destruct E as (_ & F & E). unfold w_exts, tls_list, tls_vec in E. rewrite <- app_assoc in E. apply app_inj_len in E; [|rewrite !be_blen; reflexivity]. destruct E as (E1 & E2).
  assert (Q : blen b = blen (concat (map w_ext l))).
  { apply (f_equal unbe) in E1. unfold fit_exts in F. apply andb_true_iff in F. destruct F as (_ & F). unfold fits_len in F. apply N.ltb_lt in F. apply N.ltb_lt in Lb. change (lw_max W16) with 65536 in Lb.
    rewrite unbe_be in E1 by (change (256 ^ N.of_nat (lw_nat W16)) with 65536; exact Lb). rewrite unbe_be in E1 by exact F. exact E1. }
  destruct r; [reflexivity|]. exfalso. rewrite E2, blen_app, blen_cons in Q. lia.
Qed.
Definition exCfg : echcfg := mkEchCfg 65 32 (Some (repeat x07 32)) [(1, 1)] 64 (str "public.example") [].
Definition exList : list (N * buf) := [(65036, Some [x01]); (65037, Some (w_cfg exCfg))].
Example C93_met : let l := exList in
  config_list l /\ kept l [exCfg] /\ parseECHConfigsBase64 (str "  " ++ base64Encode (tls_list 2 (w_nb 2) l) ++ [x0a]) = Ok (Some [exCfg]) /\
  parseECHConfigsBase64 (base64Encode (tls_list 2 (w_nb 2) [(65036, Some [x01])])) = Ok None /\ getExtensions (str "002a0001ffFF010000") = Ok [mkExt 42 (Some [xff]); mkExt 65281 (Some [])] /\ getExtensions (str "002a") = Err EThrow.
Proof.
  split; [split; vm_compute; reflexivity|]. split; [unfold exList; apply k_other; [discriminate|]; rewrite <- (app_nil_r (w_cfg exCfg)); apply k_one; [vm_compute; reflexivity|vm_compute; reflexivity|discriminate|constructor]|].
  split; [vm_compute; reflexivity|]. split; [vm_compute; reflexivity|]. split; vm_compute; reflexivity.
Qed.

(** ** C94: client contexts *)
Lemma allOk_iff {A} (f : A -> res unit) l : allOk f l = Ok tt <-> forall x, In x l -> f x = Ok tt.
Proof.
  induction l as [|x l IH]; cbn [allOk]; [split; [intros _ ? []|reflexivity]|]. destruct (f x) as [[]|e] eqn:E; cbn [bind].
  - rewrite IH. split; [intros H y [<-|Hy]; auto|intros H y Hy; apply H; right; exact Hy].
  - split; [discriminate|]. intros H. rewrite (H x (or_introl eq_refl)) in E. discriminate E.
Qed.
(** A context is valid exactly when every cipher it offers can be made, every group is one that key exchanges are made for, and every default share is one of the groups. *)
Theorem C94_validate L aead ciphers groups shares : validate L aead ciphers groups shares = Ok tt <->
  (forall c, In c ciphers -> aead c = Ok tt) /\ (forall g, In g groups -> exists k, group_kind L g k) /\ (forall g, In g shares -> In g groups).
Proof.
  unfold validate. rewrite <- allOk_iff.
  assert (G : allOk (fun g => _ <- makeKeyExchange L g RClient ;; Ok tt) groups = Ok tt <-> forall g, In g groups -> exists k, group_kind L g k).
  { rewrite allOk_iff. split; intros H g Hg; specialize (H g Hg).
    - apply bind_Ok in H. destruct H as (k & Hk & _). exact (proj1 (C87_groups L g RClient) (ex_intro _ k Hk)).
    - destruct (proj2 (C87_groups L g RClient) H) as (k & ->). reflexivity. }
  assert (S : allOk (fun s => if existsb (N.eqb s) groups then Ok tt else fail) shares = Ok tt <-> forall g, In g shares -> In g groups).
  { rewrite allOk_iff. split; intros H g Hg; specialize (H g Hg).
    - destruct (existsb (N.eqb g) groups) eqn:E; [|discriminate H]. apply existsb_exists in E. destruct E as (x & Hx & E). apply N.eqb_eq in E. subst. exact Hx.
    - rewrite (proj2 (existsb_exists _ _)); [reflexivity|]. exists g. split; [exact H|apply N.eqb_refl]. }
  rewrite <- G, <- S. destruct (allOk aead ciphers) as [[]|e]; cbn [bind]; [|split; [discriminate|intros (H & _); discriminate H]].
  destruct (allOk _ groups) as [[]|e]; cbn [bind]; [tauto|]. split; [discriminate|intros (_ & H & _); discriminate H].
Qed.
(** So in a handshake of a valid context no share that it sends, and none that a server may ask for among its groups, fails for want of a key exchange. *)
Theorem C94_shares L aead ciphers groups shares : validate L aead ciphers groups shares = Ok tt -> forall g, In g shares \/ In g groups -> exists k, makeKeyExchange L g RClient = Ok k.
Proof. intros H g Hg. apply C94_validate in H. destruct H as (_ & G & S). apply C87_groups. apply G. destruct Hg; auto. Qed.
(** Its failures are the maker's, or the error of an unsupported share. *)
Theorem C94_refused L aead ciphers groups shares : (exists g, In g shares /\ ~ In g groups) -> exists e, validate L aead ciphers groups shares = Err e.
Proof.
  intros (g & Hs & Hg). destruct (validate L aead ciphers groups shares) as [[]|e] eqn:E; [|exists e; reflexivity]. exfalso. apply C94_validate in E. destruct E as (_ & _ & S). exact (Hg (S g Hs)).
Qed.
Example C94_met : let L := mkLibs (mkOssl (fun _ _ => None) (fun _ _ => None) (fun _ _ _ => None) (fun _ _ => false)) (mkSodium (fun _ => []) (fun _ _ => None)) None in
  let aead c := if c =? 0x1301 then Ok tt else fail in
  validate L aead [0x1301] [29; 23] [29] = Ok tt /\ validate L aead [0x1301] [23] [29] = fail /\ validate L aead [0x1301; 0x1302] [29] [29] = fail /\ (exists e, validate L aead [0x1301] [29; 4588] [29] = Err e).
Proof. repeat split; try reflexivity. eexists. vm_compute. reflexivity. Qed.
