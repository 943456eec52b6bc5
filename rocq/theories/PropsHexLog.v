(** * C83: hexadecimal text; C84: key logs *)
From Coq Require Import Strings.String Strings.Byte.
From Verif Require Import Base KeySched HexLog.
Open Scope N_scope.
Open Scope list_scope.

(** ** Specification *)
(** The value of a hexadecimal digit, in either case *)
Definition digits : list (byte * N) :=
  [(x30, 0); (x31, 1); (x32, 2); (x33, 3); (x34, 4); (x35, 5); (x36, 6); (x37, 7); (x38, 8); (x39, 9);
   (x61, 10); (x62, 11); (x63, 12); (x64, 13); (x65, 14); (x66, 15); (x41, 10); (x42, 11); (x43, 12); (x44, 13); (x45, 14); (x46, 15)].
(** [s] is a hexadecimal text of [b] *)
Inductive hex_of : bytes -> bytes -> Prop :=
| hex_nil : hex_of [] []
| hex_cons h l x y s b : In (h, x) digits -> In (l, y) digits -> hex_of s b -> hex_of (h :: l :: s) (n2b (16 * x + y) :: b).

(** ** Proofs *)
Lemma table_iff a n : n < 16 -> (kHexTable a = n <-> In (a, n) digits).
Proof.
  intros H. split.
  - assert (A : forallb (fun k => let a := n2b (N.of_nat k) in (kHexTable a =? 16) || existsb (fun d => Byte.eqb (fst d) a && (snd d =? kHexTable a)) digits) (seq 0 256) = true) by (vm_compute; reflexivity).
    rewrite forallb_forall in A. specialize (A (N.to_nat (b2n a)) ltac:(apply in_seq; pose proof (b2n_bound a); lia)). rewrite N2Nat.id, n2b_b2n in A. cbv zeta in A. intros <-.
    apply orb_true_iff in A. destruct A as [A|A]; [apply N.eqb_eq in A; lia|]. apply existsb_exists in A. destruct A as ((c & m) & Hi & A). cbn [fst snd] in A. apply andb_true_iff in A. destruct A as (A & B).
    apply Byte.byte_dec_bl in A. apply N.eqb_eq in B. subst. exact Hi.
  - intros Hi. assert (A : forallb (fun d => kHexTable (fst d) =? snd d) digits = true) by (vm_compute; reflexivity). rewrite forallb_forall in A. specialize (A _ Hi). apply N.eqb_eq in A. exact A.
Qed.
Lemma digit_bound a n : In (a, n) digits -> n < 16.
Proof. intros Hi. assert (A : forallb (fun d => snd d <? 16) digits = true) by (vm_compute; reflexivity). rewrite forallb_forall in A. specialize (A _ Hi). apply N.ltb_lt in A. exact A. Qed.
Lemma table_bound a : kHexTable a <= 16.
Proof. unfold kHexTable. pose proof (b2n_bound a). repeat match goal with |- context [if ?c then _ else _] => destruct c eqn:? end; lia. Qed.
Lemma lor_all : forallb (fun p => let '(x, y) := p in Bool.eqb (N.land (N.lor (N.of_nat x) (N.of_nat y)) 16 =? 0) ((N.of_nat x <? 16) && (N.of_nat y <? 16))) (list_prod (seq 0 17) (seq 0 17)) = true.
Proof. vm_compute. reflexivity. Qed.
Lemma lor_bit x y : x <= 16 -> y <= 16 -> (N.land (N.lor x y) 16 =? 0) = (x <? 16) && (y <? 16).
Proof.
  intros Hx Hy. pose proof lor_all as A. rewrite forallb_forall in A. specialize (A (N.to_nat x, N.to_nat y) ltac:(apply in_prod; apply in_seq; lia)). cbv beta iota in A. rewrite !N2Nat.id in A.
  apply Bool.eqb_prop in A. exact A.
Qed.
Lemma list2_ind (P : bytes -> Prop) : P [] -> (forall a, P [a]) -> (forall a b r, P r -> P (a :: b :: r)) -> forall l, P l.
Proof. intros H0 H1 H2. fix F 1. intros [|a [|b r]]; [exact H0|apply H1|apply H2, F]. Qed.
Lemma shl4 h : N.shiftl h 4 = 16 * h.
Proof. rewrite N.shiftl_mul_pow2. change (2 ^ 4) with 16. lia. Qed.
Lemma unhex_sound s b : blen s mod 2 = 0 -> unhexPairs s = Ok b -> hex_of s b.
Proof.
  revert b. induction s as [|a|a c r IH] using list2_ind; intros b He H.
  - injection H as <-. constructor.
  - rewrite blen_cons, blen_nil in He. discriminate He.
  - cbn [unhexPairs] in H. rewrite lor_bit in H by apply table_bound. destruct ((kHexTable a <? 16) && (kHexTable c <? 16)) eqn:E; [|discriminate]. cbn [negb] in H.
    apply andb_true_iff in E. destruct E as (E1 & E2). apply N.ltb_lt in E1, E2. apply bind_Ok in H. destruct H as (x & Hx & H). injection H as <-.
    rewrite N.mod_small by (rewrite shl4; lia). rewrite shl4. constructor; [apply table_iff; auto|apply table_iff; auto|]. apply IH; [|exact Hx]. rewrite !blen_cons in He. lia.
Qed.
Lemma unhex_complete s b : hex_of s b -> unhexPairs s = Ok b /\ blen s mod 2 = 0.
Proof.
  induction 1 as [|h l x y s b Hh Hl _ (IH1 & IH2)]; [split; reflexivity|]. split; [|rewrite !blen_cons; lia]. cbn [unhexPairs]. pose proof (digit_bound _ _ Hh) as B1. pose proof (digit_bound _ _ Hl) as B2.
  rewrite (proj2 (table_iff h x B1) Hh), (proj2 (table_iff l y B2) Hl). rewrite lor_bit by lia. rewrite (proj2 (N.ltb_lt x 16) B1), (proj2 (N.ltb_lt y 16) B2). cbn [andb negb]. rewrite IH1. cbn [bind].
  rewrite N.mod_small by (rewrite shl4; lia). rewrite shl4. reflexivity.
Qed.
(** Text is decoded exactly when it is pairs of hexadecimal digits of either case, and to the bytes it is a text of; anything else is an error. *)
Theorem C83_unhexlify s b : unhexlify s = Ok b <-> hex_of s b.
Proof.
  unfold unhexlify. split.
  - destruct (N.eqb_spec (blen s mod 2) 0); [|discriminate]. cbn [negb]. apply unhex_sound. assumption.
  - intros H. apply unhex_complete in H. destruct H as (H1 & H2). rewrite H2. exact H1.
Qed.
Theorem C83_refused s : (forall b, ~ hex_of s b) -> unhexlify s = fail.
Proof.
  intros H. destruct (unhexlify s) as [b|e] eqn:E; [exfalso; apply (H b), C83_unhexlify, E|]. unfold unhexlify in E. destruct (negb (_ =? 0)); [congruence|]. clear H. rewrite <- E. clear -E. revert e E.
  induction s as [|a|a c r IH] using list2_ind; intros e E; try discriminate E. cbn [unhexPairs] in *. destruct (negb (_ =? 0)); [reflexivity|]. destruct (unhexPairs r) as [x|e'] eqn:Er; [discriminate E|].
  cbn [bind] in *. apply (IH e' eq_refl).
Qed.
Lemma hexDigit_in n : n < 16 -> In (hexDigit n, n) digits.
Proof.
  intros H. assert (A : forallb (fun k => existsb (fun d => Byte.eqb (fst d) (hexDigit (N.of_nat k)) && (snd d =? N.of_nat k)) (firstn 16 digits)) (seq 0 16) = true) by (vm_compute; reflexivity).
  rewrite forallb_forall in A. specialize (A (N.to_nat n) ltac:(apply in_seq; lia)). rewrite N2Nat.id in A. apply existsb_exists in A. destruct A as ((c & m) & Hi & A). cbn [fst snd] in A.
  apply andb_true_iff in A. destruct A as (A & B). apply Byte.byte_dec_bl in A. apply N.eqb_eq in B. subst. rewrite <- (firstn_skipn 16 digits). apply in_or_app. left. exact Hi.
Qed.
Lemma nibbles x : N.land (N.shiftr (b2n x) 4) 15 < 16 /\ N.land (b2n x) 15 < 16 /\ 16 * N.land (N.shiftr (b2n x) 4) 15 + N.land (b2n x) 15 = b2n x.
Proof.
  change 15 with (N.ones 4). rewrite !N.land_ones, N.shiftr_div_pow2. change (2 ^ 4) with 16. pose proof (b2n_bound x). lia.
Qed.
(** What is written is lowercase text of the bytes, two characters each; it decodes to them, so different bytes have different texts. *)
Theorem C83_hexlify b : hex_of (hexlify b) b /\ unhexlify (hexlify b) = Ok b /\ blen (hexlify b) = 2 * blen b /\
  forall c, In c (hexlify b) -> In c (map fst (firstn 16 digits)).
Proof.
  assert (H : hex_of (hexlify b) b).
  { induction b as [|x b IH]; [constructor|]. cbn [hexlify]. destruct (nibbles x) as (A & B & C). assert (E : x :: b = n2b (16 * N.land (N.shiftr (b2n x) 4) 15 + N.land (b2n x) 15) :: b) by (rewrite C, n2b_b2n; reflexivity). rewrite E. constructor; try apply hexDigit_in; assumption. }
  split; [exact H|]. split; [apply C83_unhexlify, H|]. split.
  - clear. induction b as [|x b IH]; [reflexivity|]. cbn [hexlify]. rewrite !blen_cons, IH. lia.
  - clear. induction b as [|x b IH]; intros c Hc; [destruct Hc|]. cbn [hexlify] in Hc.
    assert (A : forallb (fun k => existsb (fun d => Byte.eqb d (hexDigit (N.of_nat k))) (map fst (firstn 16 digits))) (seq 0 16) = true) by (vm_compute; reflexivity).
    rewrite forallb_forall in A. destruct (nibbles x) as (B1 & B2 & _).
    destruct Hc as [<-|[<-|Hc]]; [| |apply IH; exact Hc].
    + specialize (A (N.to_nat (N.land (N.shiftr (b2n x) 4) 15)) ltac:(apply in_seq; lia)). rewrite N2Nat.id in A. apply existsb_exists in A. destruct A as (d & Hd & A). apply Byte.byte_dec_bl in A. rewrite <- A. exact Hd.
    + specialize (A (N.to_nat (N.land (b2n x) 15)) ltac:(apply in_seq; lia)). rewrite N2Nat.id in A. apply existsb_exists in A. destruct A as (d & Hd & A). apply Byte.byte_dec_bl in A. rewrite <- A. exact Hd.
Qed.
Theorem C83_injective a b : hexlify a = hexlify b -> a = b.
Proof. intros H. destruct (C83_hexlify a) as (_ & A & _). destruct (C83_hexlify b) as (_ & B & _). rewrite H in A. congruence. Qed.
Theorem C83_met : hexlify [x00; x9f; xff] = txt "009fff" /\ unhexlify (txt "009FfF") = Ok [x00; x9f; xff] /\ unhexlify (txt "009") = fail /\ unhexlify (txt "0g") = fail /\ unhexlify (txt "+1") = fail.
Proof. vm_compute. repeat split. Qed.

(** ** C84: key logs *)
(** Only the secrets of the format are given a label, each its own; binder keys, the resumption master secret and ECH acceptance secrets never are. *)
Theorem C84_labels s t l : secretToNSSLabel s = Some l ->
  (secretToNSSLabel t = Some l -> t = s) /\
  labelToString l = match s with
    | STEarly ClientEarlyTraffic => txt "CLIENT_EARLY_TRAFFIC_SECRET" | STEarly EarlyExporter => txt "EARLY_EXPORTER_SECRET"
    | STHandshake ClientHandshakeTraffic => txt "CLIENT_HANDSHAKE_TRAFFIC_SECRET" | STHandshake ServerHandshakeTraffic => txt "SERVER_HANDSHAKE_TRAFFIC_SECRET"
    | STApp ClientAppTraffic => txt "CLIENT_TRAFFIC_SECRET_0" | STApp ServerAppTraffic => txt "SERVER_TRAFFIC_SECRET_0"
    | STMaster ExporterMaster => txt "EXPORTER_SECRET"
    | _ => [] end.
Proof.
  destruct s as [[]|[]|[]|[]]; cbn [secretToNSSLabel]; intros H; try discriminate H; assert (Hl := f_equal (fun o => match o with Some x => x | None => L_RSA end) H); cbn beta iota in Hl; subst l;
    (split; [destruct t as [[]|[]|[]|[]]; cbn [secretToNSSLabel]; intros E; try discriminate E; reflexivity|reflexivity]).
Qed.
Theorem C84_never : forall s, In s [STEarly ExternalPskBinder; STEarly ResumptionPskBinder; STMaster ResumptionMaster; STHandshake EchAcceptH] -> secretToNSSLabel s = None.
Proof. intros s [<-|[<-|[<-|[<-|[]]]]]; reflexivity. Qed.
(** The log of any sequence of writes says exactly what was written: two logs with the same text are of the same labels, randoms and secrets, in order. *)
Definition entry := (bytes * nsslabel * bytes)%type.
Fixpoint log_of (file : bytes) (l : list entry) : bytes := match l with [] => file | (r, n, s) :: t => log_of (write file r n s) t end.
Lemma sep_unique (c : byte) a b x y : ~ In c a -> ~ In c b -> a ++ c :: x = b ++ c :: y -> a = b /\ x = y.
Proof.
  revert b. induction a as [|p a IH]; intros [|q b] Ha Hb H.
  - injection H as H. auto.
  - injection H as -> H. exfalso. apply Hb. left. reflexivity.
  - injection H as -> H. exfalso. apply Ha. left. reflexivity.
  - injection H as -> H. destruct (IH b (fun E => Ha (or_intror E)) (fun E => Hb (or_intror E)) H) as (-> & ->). auto.
Qed.
Lemma hex_no c b : In c [x20; x0a] -> ~ In c (hexlify b).
Proof. intros Hc H. destruct (C83_hexlify b) as (_ & _ & _ & A). apply A in H. cbn in H, Hc. intuition (subst; discriminate). Qed.
Lemma label_no l : ~ In x20 (labelToString l).
Proof. destruct l; vm_compute; intuition discriminate. Qed.
Lemma label_inj a b : labelToString a = labelToString b -> a = b.
Proof. destruct a, b; intros H; try reflexivity; vm_compute in H; discriminate H. Qed.
Lemma log_of_app f l : log_of f l = f ++ flat_map (fun e => let '(r, n, s) := e in generateLogLine r n s) l.
Proof.
  revert f. induction l as [|((r & n) & s) l IH]; intros f; cbn [log_of flat_map]; [rewrite app_nil_r; reflexivity|]. rewrite IH. unfold write. rewrite <- app_assoc. reflexivity.
Qed.
Lemma line_unique r n s x r' n' s' x' : generateLogLine r n s ++ x = generateLogLine r' n' s' ++ x' -> (r, n, s, x) = (r', n', s', x').
Proof.
  unfold generateLogLine. rewrite <- !app_assoc. cbn [app]. intros H. apply sep_unique in H; try apply label_no. destruct H as (Hl & H). apply label_inj in Hl. subst n'.
  rewrite <- ?app_assoc in H. cbn [app] in H. apply sep_unique in H; try (apply hex_no; cbn; auto). destruct H as (Hr & H). apply C83_injective in Hr. subst r'.
  rewrite <- ?app_assoc in H. cbn [app] in H. apply sep_unique in H; try (apply hex_no; cbn; auto). destruct H as (Hs & ->). apply C83_injective in Hs. subst s'. reflexivity.
Qed.
Theorem C84_log_injective file l l' : log_of file l = log_of file l' -> l = l'.
Proof.
  rewrite !log_of_app. intros H. apply app_inv_head in H. revert l' H. induction l as [|((r & n) & s) l IH]; intros [|((r' & n') & s') l'] H; cbn [flat_map] in H.
  - reflexivity.
  - destruct n'; discriminate H.
  - destruct n; discriminate H.
  - apply line_unique in H. injection H as -> -> -> H. apply IH in H. subst. reflexivity.
Qed.
(** Each write adds one line, of the format: label, a space, the random in hexadecimal, a space, the secret in hexadecimal. *)
Theorem C84_line file r n s : exists a b, write file r n s = file ++ labelToString n ++ txt " " ++ a ++ txt " " ++ b ++ [x0a] /\ hex_of a r /\ hex_of b s /\
  blen a = 2 * blen r /\ blen b = 2 * blen s /\ ~ In x0a (labelToString n ++ txt " " ++ a ++ txt " " ++ b).
Proof.
  exists (hexlify r), (hexlify s). destruct (C83_hexlify r) as (R1 & _ & R2 & _). destruct (C83_hexlify s) as (S1 & _ & S2 & _). repeat (split; [first [reflexivity|assumption]|]).
  intros H. repeat (apply in_app_or in H; destruct H as [H|H]).
  - destruct n; vm_compute in H; intuition discriminate.
  - cbn in H. intuition discriminate.
  - revert H. apply hex_no. cbn. auto.
  - cbn in H. intuition discriminate.
  - revert H. apply hex_no. cbn. auto.
Qed.
Theorem C84_met : log_of [] [([x01; xab], L_CLIENT_TRAFFIC_SECRET_0, [xff]); ([x02; x00], L_EXPORTER_SECRET, [])] =
  txt "CLIENT_TRAFFIC_SECRET_0 01ab ff" ++ [x0a] ++ txt "EXPORTER_SECRET 0200 " ++ [x0a] /\ secretToNSSLabel (STApp ClientAppTraffic) = Some L_CLIENT_TRAFFIC_SECRET_0.
Proof. vm_compute. split; reflexivity. Qed.
