(** * C69: application writes through the write queue *)
From Verif Require Import Base AsyncWrite.
Open Scope N_scope.

(** ** Specification *)
(** The write an event is about, and the events of the log about write [w]. *)
Definition about (e : wev) : N := match e with WCall w _ _ _ | WPush w _ _ | WLow w _ | WOk w _ | WErr w _ _ => w end.
Definition sel (w : N) (L : list wev) : list wev := filter (fun e => about e =? w) L.
(** The bytes of [w] handed down, the number of pieces, of good and bad reports from below, and of outcomes. *)
Definition bytes_of (l : list wev) : bytes := concat (map (fun e => match e with WPush _ b _ => b | _ => [] end) l).
Definition is_push (e : wev) : bool := match e with WPush _ _ _ => true | _ => false end.
Definition is_low (ok : bool) (e : wev) : bool := match e with WLow _ o => Bool.eqb o ok | _ => false end.
Definition is_outcome (e : wev) : bool := match e with WOk _ _ | WErr _ _ _ => true | _ => false end.
Definition is_call (e : wev) : bool := match e with WCall _ _ _ _ => true | _ => false end.
Definition count (f : wev -> bool) (l : list wev) : nat := length (filter f l).
Definition pushed (w : N) (L : list wev) : bytes := bytes_of (sel w L).
Definition pieces (w : N) (L : list wev) : nat := count is_push (sel w L).
Definition reports (ok : bool) (w : N) (L : list wev) : nat := count (is_low ok) (sel w L).
Definition outcomes (w : N) (L : list wev) : nat := count is_outcome (sel w L).
(** Whether an event may follow the events [L]. *)
Definition wlegal (L : list wev) (e : wev) : Prop :=
  match e with
  | WCall w _ _ _ => w = N.of_nat (count is_call L)
  | WPush w b f => exists cb d f0 rest, In (WCall w cb d f0) L /\
      (* the next bytes of the write: all of them at once, or at most 128 KiB; corked as long as more are to follow *)
      d = pushed w L ++ b ++ rest /\ (b = d \/ blen b <= 131072) /\ f = (match rest with [] => f0 | _ => N.lor f0 1 end) /\
      (* it is not over, and every earlier piece has been written *)
      outcomes w L = 0%nat /\ pieces w L = reports true w L /\
      (* everything written before has been handed down, or has failed; nothing written later has been *)
      (forall w' cb' d' f', w' < w -> In (WCall w' cb' d' f') L -> pushed w' L = d' \/ exists c n, In (WErr w' c n) L) /\
      (forall w', w < w' -> pieces w' L = 0%nat) /\
      (* no queued write before it has failed since it was called *)
      (forall A w0 c n B, L = A ++ WErr w0 c (Some n) :: B -> In (WCall w cb d f0) A -> w <= w0)
  | WLow w ok => (reports true w L + reports false w L < pieces w L)%nat
  | WOk w cb => exists d f, In (WCall w cb d f) L /\ outcomes w L = 0%nat /\ pushed w L = d /\ pieces w L = reports true w L
  | WErr w cb n => (exists d f, In (WCall w cb d f) L) /\ outcomes w L = 0%nat /\
      match n with Some k => k = blen (pushed w L) | None => reports false w L = 1%nat end
  end.
Definition wlegal_log (L : list wev) : Prop := forall L1 e L2, L = L1 ++ e :: L2 -> wlegal L1 e.
(** The bytes of writes that are not over and have not been handed down. *)
Definition unsent (L : list wev) : N :=
  fold_right N.add 0 (map (fun e => match e with WCall w _ d _ => if Nat.eqb (outcomes w L) 0 then blen d - blen (pushed w L) else 0 | _ => 0 end) L).
Definition is_req (t : target) : bool := match t with TReq _ => true | _ => false end.

(** ** Logs *)
Lemma sel_app w L M : sel w (L ++ M) = sel w L ++ sel w M. Proof. apply filter_app. Qed.
Lemma sel_snoc w L e : sel w (L ++ [e]) = sel w L ++ (if about e =? w then [e] else []).
Proof. rewrite sel_app. f_equal. Qed.
Lemma sel_other w L e : about e <> w -> sel w (L ++ [e]) = sel w L.
Proof. intros H. rewrite sel_snoc. apply N.eqb_neq in H. rewrite H. apply app_nil_r. Qed.
Lemma sel_same w L e : about e = w -> sel w (L ++ [e]) = sel w L ++ [e].
Proof. intros H. rewrite sel_snoc. apply N.eqb_eq in H. rewrite H. reflexivity. Qed.
Lemma sel_In w L e : In e (sel w L) <-> In e L /\ about e = w.
Proof. unfold sel. rewrite filter_In, N.eqb_eq. reflexivity. Qed.
Lemma count_snoc f l e : count f (l ++ [e]) = (count f l + if f e then 1 else 0)%nat.
Proof. unfold count. rewrite filter_app, app_length. cbn [filter]. destruct (f e); reflexivity. Qed.
Lemma bytes_snoc l e : bytes_of (l ++ [e]) = bytes_of l ++ match e with WPush _ b _ => b | _ => [] end.
Proof. unfold bytes_of. rewrite map_app, concat_app. cbn [map concat]. rewrite app_nil_r. reflexivity. Qed.
Lemma wlegal_snoc L e : wlegal_log L -> wlegal L e -> wlegal_log (L ++ [e]).
Proof.
  intros H He L1 x L2 E. destruct L2 as [|y L2] using rev_ind.
  - apply app_inj_tail in E. destruct E as [-> ->]. exact He.
  - clear IHL2. rewrite app_comm_cons, app_assoc in E. apply app_inj_tail in E. destruct E as [E _]. eapply H, E.
Qed.

(** ** The invariant *)
(** What the log says of a queued write, of one given directly to the layer below, and of one that is over. *)
Definition Qreq (r : req) (out : bool) (es : list wev) : Prop :=
  exists d es', es = WCall (r_w r) (r_cb r) d (r_flags r) :: es' /\ count is_call es' = 0%nat /\ d = bytes_of es ++ r_data r /\ r_written r = blen (bytes_of es) /\
    count is_outcome es = 0%nat /\ count (is_low false) es = 0%nat /\ count is_push es = (count (is_low true) es + if out then 1 else 0)%nat.
Definition Quser (w : N) (cb : bool) (es : list wev) : Prop :=
  exists d f es', es = WCall w cb d f :: es' /\ count is_call es' = 0%nat /\ bytes_of es = d /\
    count is_outcome es = 0%nat /\ count (is_low false) es = 0%nat /\ count (is_low true) es = 0%nat /\ count is_push es = 1%nat.
Definition Qdone (w : N) (es : list wev) : Prop :=
  exists cb d f es', es = WCall w cb d f :: es' /\ count is_call es' = 0%nat /\ count is_outcome es = 1%nat /\
    (bytes_of es = d \/ exists c n, In (WErr w c n) es).
Definition clean (w : N) (L : list wev) : Prop :=
  forall A w0 c n B cb d f, L = A ++ WErr w0 c (Some n) :: B -> In (WCall w cb d f) A -> w <= w0.

Fixpoint links (l : list (N * req)) : Prop := match l with [] => True | (p, r) :: l' => r_next r = option_map fst (hd_error l') /\ links l' end.
Fixpoint contig (n k : N) (l : list (N * req)) : Prop := match l with [] => k = n | (p, r) :: l' => r_w r = k /\ contig n (k + 1) l' end.
Definition last_addr (l : list (N * req)) : option N := option_map fst (hd_error (rev l)).
Definition total (l : list (N * req)) : N := fold_right N.add 0 (map (fun x => blen (r_data (snd x))) l).
Definition users (l : list target) : list N := flat_map (fun t => match t with TUser w _ => [w] | TReq _ => [] end) l.
Definition reqs (l : list target) : list N := flat_map (fun t => match t with TUser _ _ => [] | TReq p => [p] end) l.
Definition errs (l : list frame) : list N := flat_map (fun f => match f with FErr (Some n) => [n] | _ => [] end) l.
Definition succs (l : list frame) : list (option N) := flat_map (fun f => match f with FSucc n => [n] | _ => [] end) l.

Record core (s : wq) (k : N) (c : list (N * req)) : Prop := mkCore {
  c_heap : forall p r, wq_heap s p = Some r <-> In (p, r) c;
  c_nodup : NoDup (map fst c);
  c_links : links c;
  c_contig : contig (wq_n s) k c;
  c_tail : wq_alive s = true -> wq_tail s = last_addr c;
  c_base : forall p r, In (p, r) c -> if wq_alive s then r_base r = true else r_next r = None -> r_base r = false;
  c_calls : wq_n s = N.of_nat (count is_call (wq_log s));
  c_none : forall w, wq_n s <= w -> sel w (wq_log s) = [];
  c_tl : forall p r, In (p, r) (tl c) -> Qreq r false (sel (r_w r) (wq_log s)) /\ count is_push (sel (r_w r) (wq_log s)) = 0%nat;
  c_user : forall w cb, In (TUser w cb) (wq_out s) -> w < k /\ Quser w cb (sel w (wq_log s));
  c_unodup : NoDup (users (wq_out s));
  c_done : forall w, w < k -> ~ In w (users (wq_out s)) -> Qdone w (sel w (wq_log s));
  c_whole : wq_whole s = true -> forall p r, In (p, r) c -> r_written r = 0 \/ r_data r = [];
  c_legal : wlegal_log (wq_log s);
  c_dead : wq_alive s = false -> forallb may_die (wq_stack s) = true }.
Definition all_clean (s : wq) (c : list (N * req)) : Prop := (forall p r, In (p, r) c -> clean (r_w r) (wq_log s)) /\
  (wq_alive s = true -> forall p r, In (p, r) c -> r_next r = None -> r_chain r = total c mod 2 ^ 64).
Definition mode (s : wq) (c : list (N * req)) : Prop :=
  match c with
  | [] => reqs (wq_out s) = [] /\ wq_pending s = None /\ errs (wq_stack s) = []
  | (h, r) :: _ =>
      (reqs (wq_out s) = [h] /\ wq_pending s = None /\ errs (wq_stack s) = [] /\ Qreq r true (sel (r_w r) (wq_log s)) /\ all_clean s c) \/
      (reqs (wq_out s) = [] /\ wq_pending s = Some h /\ errs (wq_stack s) = [] /\ Qreq r false (sel (r_w r) (wq_log s)) /\ count is_push (sel (r_w r) (wq_log s)) = 0%nat /\
       all_clean s c /\ hd_error (succs (wq_stack s)) = Some (Some h)) \/
      (reqs (wq_out s) = [] /\ wq_pending s = None /\ errs (wq_stack s) = [h] /\ Qreq r false (sel (r_w r) (wq_log s)) /\ count is_push (sel (r_w r) (wq_log s)) = 0%nat)
  end.
Definition winv (s : wq) : Prop := exists k c, core s k c /\ mode s c.

(** ** Heaps and chains *)
Lemma hset_repl h c a p r0 b r1 : (forall q r, h q = Some r <-> In (q, r) c) -> NoDup (map fst c) -> c = a ++ (p, r0) :: b ->
  forall q r, hset h p (Some r1) q = Some r <-> In (q, r) (a ++ (p, r1) :: b).
Proof.
  intros H N -> q r. rewrite map_app in N. cbn [map fst] in N. apply NoDup_remove in N. destruct N as [_ N]. unfold hset. destruct (N.eqb_spec q p) as [->|E].
  - split; [intros [= ->]; apply in_or_app; right; left; reflexivity|]. intros Hin. apply in_app_or in Hin.
    assert (X : ~ (In (p, r) a \/ In (p, r) b)).
    { intros X. apply N. apply in_or_app. destruct X as [X|X]; [left|right]; apply (in_map fst) in X; exact X. }
    destruct Hin as [Hin|[Hin|Hin]]; [tauto| |tauto]. congruence.
  - rewrite H, !in_app_iff. cbn [In]. split; (intros [X|[X|X]]; [tauto| |tauto]); exfalso; congruence.
Qed.
Lemma hset_del h p r0 b : (forall q r, h q = Some r <-> In (q, r) ((p, r0) :: b)) -> NoDup (p :: map fst b) -> forall q r, hset h p None q = Some r <-> In (q, r) b.
Proof.
  intros H N q r. inversion N as [|? ? N1 N2]; subst. unfold hset. destruct (N.eqb_spec q p) as [->|E].
  - split; [discriminate|]. intros X. apply (in_map fst) in X. exfalso. apply N1. exact X.
  - rewrite H. cbn [In]. split; [intros [X|X]; [congruence|exact X]|tauto].
Qed.
Lemma hset_add h c p r1 : (forall q r, h q = Some r <-> In (q, r) c) -> h p = None -> forall q r, hset h p (Some r1) q = Some r <-> In (q, r) (c ++ [(p, r1)]).
Proof.
  intros H N q r. unfold hset. rewrite in_app_iff. cbn [In]. destruct (N.eqb_spec q p) as [->|E].
  - split; [intros [= ->]; tauto|]. intros [X|[X|[]]]; [apply H in X; congruence|congruence].
  - rewrite H. split; [tauto|]. intros [X|[X|[]]]; [exact X|congruence].
Qed.
Lemma hset_same h p r1 r2 q : hset (hset h p r1) p r2 q = hset h p r2 q. Proof. unfold hset. destruct (q =? p); reflexivity. Qed.
Lemma links_repl a p r0 r1 b : r_next r1 = r_next r0 -> links (a ++ (p, r0) :: b) -> links (a ++ (p, r1) :: b).
Proof.
  intros E. induction a as [|[q r] a IH]; cbn [app links]; intros [H1 H2].
  - split; [congruence|exact H2].
  - split; [|apply IH, H2]. rewrite H1. destruct a as [|[? ?] ?]; reflexivity.
Qed.
Lemma contig_repl n k a p r0 r1 b : r_w r1 = r_w r0 -> contig n k (a ++ (p, r0) :: b) -> contig n k (a ++ (p, r1) :: b).
Proof. intros E. revert k. induction a as [|[q r] a IH]; cbn [app contig]; intros k [H1 H2]; (split; [congruence|]); [exact H2|apply IH, H2]. Qed.
Lemma contig_le n k c : contig n k c -> k <= n.
Proof. revert k. induction c as [|[p r] c IH]; cbn [contig]; intros k H; [lia|]. destruct H as [_ H]. specialize (IH _ H). lia. Qed.
Lemma contig_in n k c w : contig n k c -> k <= w -> w < n -> exists p r, In (p, r) c /\ r_w r = w.
Proof.
  revert k. induction c as [|[p r] c IH]; cbn [contig]; intros k H H1 H2; [lia|]. destruct H as [H H3]. destruct (N.eq_dec w k) as [->|E].
  - exists p, r. split; [left; reflexivity|exact H].
  - destruct (IH _ H3 ltac:(lia) H2) as (q & r' & A & B). exists q, r'. split; [right; exact A|exact B].
Qed.
Lemma contig_w n k c p r : contig n k c -> In (p, r) c -> k <= r_w r /\ r_w r < n.
Proof.
  revert k. induction c as [|[q r'] c IH]; cbn [contig]; intros k H Hin; [destruct Hin|]. destruct H as [H H3]. pose proof (contig_le _ _ _ H3) as X. destruct Hin as [Hin|Hin].
  - injection Hin as -> ->. lia.
  - destruct (IH _ H3 Hin). lia.
Qed.
Lemma contig_snoc n k c p r : contig n k c -> r_w r = n -> contig (n + 1) k (c ++ [(p, r)]).
Proof. revert k. induction c as [|[q r'] c IH]; cbn [contig app]; intros k H E; [subst k; auto|]. destruct H as [H H3]. split; [exact H|apply IH; assumption]. Qed.
Lemma last_snoc c p r : last_addr (c ++ [(p, r)]) = Some p.
Proof. unfold last_addr. rewrite rev_app_distr. reflexivity. Qed.
Lemma chain_end (c : list (N * req)) : c = [] \/ exists c' p r, c = c' ++ [(p, r)].
Proof. destruct c as [|x c] using rev_ind; [left; reflexivity|]. right. destruct x as [p r]. eauto. Qed.
Lemma links_end c p r : links (c ++ [(p, r)]) -> r_next r = None.
Proof. induction c as [|[q r'] c IH]; cbn [app links]; intros [H1 H2]; [exact H1|apply IH, H2]. Qed.
Lemma links_last c p r : links c -> In (p, r) c -> NoDup (map fst c) -> r_next r = None -> last_addr c = Some p.
Proof.
  induction c as [|[q r'] c IH]; [intros _ []|]. cbn [links]. intros [H1 H2] Hin N E. destruct Hin as [Hin|Hin].
  - injection Hin as -> ->. rewrite E in H1. destruct c as [|[? ?] ?]; [reflexivity|discriminate].
  - cbn [map fst] in N. inversion N; subst. specialize (IH H2 Hin H4 E). unfold last_addr in *. cbn [rev]. destruct (rev c) as [|x l]; [discriminate|]. exact IH.
Qed.
Lemma total_snoc c p r : total (c ++ [(p, r)]) = total c + blen (r_data r).
Proof. unfold total. rewrite map_app, fold_right_app. cbn [map fold_right snd]. induction (map _ c) as [|x l IH]; cbn [fold_right]; [lia|]. rewrite IH. lia. Qed.
Lemma total_repl a p r0 r1 b : blen (r_data r0) + total (a ++ (p, r1) :: b) = blen (r_data r1) + total (a ++ (p, r0) :: b).
Proof. unfold total. rewrite !map_app, !fold_right_app. cbn [map fold_right snd]. induction (map _ a) as [|x l IH]; cbn [fold_right]; lia. Qed.
Lemma sub_mod x y : y <= x -> (x mod 2 ^ 64 + 2 ^ 64 - y mod 2 ^ 64) mod 2 ^ 64 = (x - y) mod 2 ^ 64.
Proof.
  intros H. set (M := 2 ^ 64). assert (HM : M <> 0) by (unfold M; discriminate). pose proof (N.mod_lt y M HM) as B1.
  assert (E : (x - y) + M + M * (y / M) = (x mod M + M - y mod M) + M * (x / M)).
  { pose proof (N.div_mod x M HM). pose proof (N.div_mod y M HM). lia. }
  transitivity (((x - y) + M + M * (y / M)) mod M).
  - rewrite E, (N.mul_comm M (x / M)), N.mod_add by exact HM. reflexivity.
  - rewrite (N.mul_comm M (y / M)), N.mod_add by exact HM. replace (x - y + M) with (x - y + 1 * M) by lia. apply N.mod_add, HM.
Qed.
Lemma drop1_users t l : users (drop1 t l) = match t with TUser w _ => (fix d l := match l with [] => [] | x :: r => if w =? x then r else x :: d r end) (users l) | TReq _ => users l end.
Proof.
  induction l as [|x l IH]; [destruct t; reflexivity|]. destruct t as [w cb|p], x as [w' cb'|p']; cbn [drop1 teq users flat_map app].
  - destruct (w =? w') eqn:E; [reflexivity|]. cbn [users flat_map app] in *. f_equal. exact IH.
  - exact IH.
  - f_equal. exact IH.
  - destruct (p =? p'); [reflexivity|exact IH].
Qed.
Lemma drop1_reqs_user w cb l : reqs (drop1 (TUser w cb) l) = reqs l.
Proof. induction l as [|[w' cb'|p'] l IH]; cbn [drop1 teq reqs flat_map app]; [reflexivity| |f_equal; exact IH]. destruct (w =? w'); [reflexivity|exact IH]. Qed.
Lemma drop1_reqs p l : reqs l = [p] -> reqs (drop1 (TReq p) l) = [].
Proof.
  induction l as [|[w' cb'|p'] l IH]; cbn [drop1 teq reqs flat_map app]; intros H; [discriminate|apply IH, H|].
  injection H as -> H. rewrite N.eqb_refl. exact H.
Qed.
Lemma reqs_in p l : In (TReq p) l <-> In p (reqs l).
Proof.
  unfold reqs. rewrite in_flat_map. split; [intros H; exists (TReq p); split; [exact H|left; reflexivity]|].
  intros (t & H & X). destruct t; [destruct X|]. destruct X as [<-|[]]. exact H.
Qed.
Lemma users_in w l : In w (users l) <-> exists cb, In (TUser w cb) l.
Proof.
  unfold users. rewrite in_flat_map. split.
  - intros (t & H & X). destruct t; [|destruct X]. destruct X as [->|[]]. eauto.
  - intros (cb & H). exists (TUser w cb). split; [exact H|left; reflexivity].
Qed.

(** ** Handing down a piece *)
Lemma call_in L w cb d f es' : sel w L = WCall w cb d f :: es' -> In (WCall w cb d f) L.
Proof. intros E. apply (sel_In w). rewrite E. left. reflexivity. Qed.
Lemma call_unique L w cb d f es' cb' d' f' : sel w L = WCall w cb d f :: es' -> count is_call es' = 0%nat -> In (WCall w cb' d' f') L -> cb' = cb /\ d' = d /\ f' = f.
Proof.
  intros E H Hin. assert (X : In (WCall w cb' d' f') (sel w L)) by (apply sel_In; auto). rewrite E in X. destruct X as [X|X]; [injection X as <- <- <-; auto|].
  exfalso. unfold count in H. assert (Y : In (WCall w cb' d' f') (filter is_call es')) by (apply filter_In; auto). destruct (filter is_call es'); [destruct Y|discriminate].
Qed.
Lemma before_full s k c w cb d f : core s k c -> w < k -> In (WCall w cb d f) (wq_log s) -> pushed w (wq_log s) = d \/ exists c n, In (WErr w c n) (wq_log s).
Proof.
  intros C H Hin. destruct (in_dec N.eq_dec w (users (wq_out s))) as [U|U].
  - apply users_in in U. destruct U as (cb' & U). destruct (c_user _ _ _ C _ _ U) as (_ & d' & f' & es' & E & Ec & Eb & _).
    destruct (call_unique _ _ _ _ _ _ _ _ _ E Ec Hin) as (-> & -> & ->). left. exact Eb.
  - destruct (c_done _ _ _ C _ H U) as (cb' & d' & f' & es' & E & Ec & _ & [X|(c0 & n & X)]).
    + destruct (call_unique _ _ _ _ _ _ _ _ _ E Ec Hin) as (-> & -> & ->). left. exact X.
    + right. exists c0, n. apply sel_In in X. apply X.
Qed.
Lemma after_none s k p r l w : core s k ((p, r) :: l) -> r_w r < w -> pieces w (wq_log s) = 0%nat.
Proof.
  intros C H. unfold pieces. destruct (N.ltb_spec w (wq_n s)) as [A|A].
  - pose proof (c_contig _ _ _ C) as G. cbn [contig] in G. destruct G as [G1 G2]. destruct (contig_in _ _ _ w G2 ltac:(lia) A) as (q & r' & Hin & <-).
    apply (c_tl _ _ _ C q r'). exact Hin.
  - rewrite (c_none _ _ _ C) by exact A. reflexivity.
Qed.
Lemma push_legal s k p r l buf rest : core s k ((p, r) :: l) -> Qreq r false (sel (r_w r) (wq_log s)) -> clean (r_w r) (wq_log s) ->
  r_data r = buf ++ rest -> (buf = r_data r /\ r_written r = 0) \/ blen buf <= 131072 ->
  wlegal (wq_log s) (WPush (r_w r) buf (match rest with [] => r_flags r | _ => N.lor (r_flags r) CORK end)).
Proof.
  intros C (d & es' & E & Ec & Ed & Ew & E0 & E1 & E2) Hc Eb Hb. cbn [wlegal].
  exists (r_cb r), d, (r_flags r), rest. split; [eapply call_in, E|]. unfold pushed, outcomes, pieces, reports.
  split; [rewrite Ed, Eb; reflexivity|]. split.
  { destruct Hb as [(-> & Hb)|Hb]; [left|right; exact Hb]. rewrite Hb in Ew. symmetry in Ew. apply blen_0 in Ew. rewrite Ew in Ed. symmetry. exact Ed. }
  split; [reflexivity|]. split; [exact E0|]. split; [rewrite E2; lia|].
  pose proof (c_contig _ _ _ C) as G. cbn [contig] in G. destruct G as [G1 G2]. split; [|split].
  - intros w' cb' d' f' Hw Hin. eapply before_full; [exact C|lia|exact Hin].
  - intros w' Hw. eapply after_none; eassumption.
  - intros A w0 c n B EL Hin. eapply Hc; eassumption.
Qed.
(** [c'] is [c] up to the fields data, written and chain; its head is [(p, r')]. *)
Definition same_frame (x y : N * req) : Prop := fst x = fst y /\ r_w (snd x) = r_w (snd y) /\ r_cb (snd x) = r_cb (snd y) /\ r_base (snd x) = r_base (snd y) /\
  r_next (snd x) = r_next (snd y) /\ r_flags (snd x) = r_flags (snd y).
Lemma same_refl x : same_frame x x. Proof. repeat split. Qed.
Lemma frame_fst c c' : Forall2 same_frame c c' -> map fst c' = map fst c.
Proof. induction 1 as [|x y c c' H]; [reflexivity|]. cbn [map]. destruct H as (H & _). congruence. Qed.
Lemma frame_hd c c' : Forall2 same_frame c c' -> option_map fst (hd_error c') = option_map fst (hd_error c).
Proof. intros [|x y a b (H & _) _]; cbn [hd_error option_map]; congruence. Qed.
Lemma frame_links c c' : Forall2 same_frame c c' -> links c -> links c'.
Proof.
  induction 1 as [|[p r] [q r'] c c' (H & _ & _ & _ & H4 & _) F IH]; [auto|]. cbn [links fst snd] in *. intros [H1 H2]. split; [|apply IH, H2].
  rewrite <- H4, H1. symmetry. apply frame_hd, F.
Qed.
Lemma frame_contig c c' n : Forall2 same_frame c c' -> forall k, contig n k c -> contig n k c'.
Proof. induction 1 as [|[p r] [q r'] c c' (H & H2 & _) F IH]; intros k G; [exact G|]. cbn [contig fst snd] in *. destruct G as [G1 G2]. split; [congruence|apply IH, G2]. Qed.
Lemma frame_last c c' : Forall2 same_frame c c' -> last_addr c' = last_addr c.
Proof.
  intros F. unfold last_addr. assert (X : map fst (rev c') = map fst (rev c)) by (rewrite !map_rev; f_equal; apply frame_fst, F).
  destruct (rev c) as [|x l], (rev c') as [|y l']; try discriminate X; [reflexivity|]. cbn [map] in X. cbn [hd_error option_map]. congruence.
Qed.
Lemma frame_in c c' q r : Forall2 same_frame c c' -> In (q, r) c' -> exists r0, In (q, r0) c /\ same_frame (q, r0) (q, r).
Proof.
  induction 1 as [|[p0 r0] [q' r'] c c' H F IH]; [intros []|]. intros [X|X].
  - injection X as -> ->. destruct H as (H & H'). cbn [fst] in H. subst p0. exists r0. split; [left; reflexivity|]. split; [reflexivity|exact H'].
  - destruct (IH X) as (r1 & A & B). exists r1. split; [right; exact A|exact B].
Qed.
Lemma Qreq_frame r r' o es : r_w r = r_w r' -> r_cb r = r_cb r' -> r_flags r = r_flags r' -> r_data r = r_data r' -> r_written r = r_written r' -> Qreq r o es -> Qreq r' o es.
Proof. intros A B C D E (d & es' & H). exists d, es'. rewrite <- A, <- B, <- C, <- D, <- E. exact H. Qed.
Lemma clean_snoc w L e : (forall w0 c n, e <> WErr w0 c (Some n)) -> clean w L -> clean w (L ++ [e]).
Proof.
  intros H C A w0 c n B cb d f E Hin. destruct B as [|y B] using rev_ind; [apply app_inj_tail in E; destruct E as [_ ->]; exfalso; eapply H; reflexivity|].
  clear IHB. rewrite app_comm_cons, app_assoc in E. apply app_inj_tail in E. destruct E as [-> _]. eapply C; [reflexivity|exact Hin].
Qed.
Lemma Qreq_push r r' es buf rest fl : Qreq r false es -> r_data r = buf ++ rest -> r_w r' = r_w r -> r_cb r' = r_cb r -> r_flags r' = r_flags r -> r_data r' = rest ->
  r_written r' = r_written r + blen buf -> Qreq r' true (es ++ [WPush (r_w r) buf fl]).
Proof.
  intros (d & es' & E & Ec & Ed & Ew & E0 & E1 & E2) Eb A B C D F. exists d, (es' ++ [WPush (r_w r) buf fl]). rewrite A, B, C, D, F, !bytes_snoc, !count_snoc. cbn [is_call is_outcome is_low is_push].
  split; [rewrite E; reflexivity|]. split; [rewrite Ec; reflexivity|]. split; [rewrite Ed, Eb, <- app_assoc; reflexivity|]. split; [rewrite blen_app; lia|].
  split; [lia|]. split; [lia|]. rewrite E2. lia.
Qed.
Lemma start_inv s k p r l : core s k ((p, r) :: l) -> wq_alive s = true -> reqs (wq_out s) = [] -> wq_pending s = None -> errs (wq_stack s) = [] ->
  Qreq r false (sel (r_w r) (wq_log s)) -> all_clean s ((p, r) :: l) ->
  exists s', startWriting s p = Ok s' /\ winv s'.
Proof.
  intros C Ha Ho Hp He HQ (Hcl & c_sum). unfold startWriting, base. assert (Ep : obj s p = Ok r).
  { unfold obj. assert (X : wq_heap s p = Some r) by (apply (c_heap _ _ _ C); left; reflexivity). rewrite X. reflexivity. }
  rewrite Ep, Ha. cbn [bind].
  assert (Hs : exists buf rest, split (wq_whole s) (r_data r) = (buf, rest) /\ r_data r = buf ++ rest /\ ((buf = r_data r /\ r_written r = 0) \/ blen buf <= 131072) /\ (wq_whole s = true -> rest = [])).
  { unfold split. destruct (wq_whole s) eqn:W.
    - exists (r_data r), []. split; [reflexivity|]. split; [rewrite app_nil_r; reflexivity|]. split; [|reflexivity].
      destruct (c_whole _ _ _ C W p r) as [X|X]; [left; reflexivity|left; auto|right; rewrite X; unfold blen; cbn; lia].
    - eexists _, _. split; [reflexivity|]. split; [symmetry; apply takeN_dropN|]. split; [|discriminate]. right. rewrite blen_takeN. unfold kPartialWriteThreshold. lia. }
  destruct Hs as (buf & rest & Es & Ed & Hb & Hr). rewrite Es. cbn [bind]. cbv zeta.
  assert (Hbase : r_base r = true). { pose proof (c_base _ _ _ C p r ltac:(left; reflexivity)) as X. rewrite Ha in X. exact X. }
  rewrite Hbase. cbn [bind]. change (wq_tail (put s p _)) with (wq_tail s). rewrite (c_tail _ _ _ C Ha).
  set (r1 := mkReq (r_w r) (r_cb r) true rest (r_next r) (r_written r + blen buf) (r_flags r) (r_chain r)).
  pose proof (push_legal _ _ _ _ _ _ _ C HQ (Hcl _ _ ltac:(left; reflexivity)) Ed Hb) as Hl.
  set (fl := match rest with [] => r_flags r | _ :: _ => N.lor (r_flags r) CORK end) in *.
  assert (Hc1 : hset (wq_heap s) p (Some r1) p = Some r1) by (unfold hset; rewrite N.eqb_refl; reflexivity).
  pose proof (hset_repl (wq_heap s) ((p, r) :: l) [] p r l r1 (c_heap _ _ _ C) (c_nodup _ _ _ C) eq_refl) as Hh1. cbn [app] in Hh1.
  (* the chain afterwards *)
  assert (Ht : exists t rt c', last_addr ((p, r) :: l) = Some t /\ obj (put s p (Some r1)) t = Ok rt /\
     let rt' := mkReq (r_w rt) (r_cb rt) (r_base rt) (r_data rt) (r_next rt) (r_written rt) (r_flags rt) ((r_chain rt + 2 ^ 64 - blen buf mod 2 ^ 64) mod 2 ^ 64) in
     (forall q x, hset (hset (wq_heap s) p (Some r1)) t (Some rt') q = Some x <-> In (q, x) c') /\
     Forall2 same_frame ((p, r) :: l) c' /\ total c' = total ((p, r) :: l) - blen buf /\ blen buf <= total ((p, r) :: l) /\
     (exists r2 l2, c' = (p, r2) :: l2 /\ r_data r2 = rest /\ r_written r2 = r_written r + blen buf /\ forall q x, In (q, x) l2 -> exists x0, In (q, x0) l /\ r_w x0 = r_w x /\ r_cb x0 = r_cb x /\ r_flags x0 = r_flags x /\ r_data x0 = r_data x /\ r_written x0 = r_written x) /\
     (forall q x, In (q, x) c' -> r_next x = None -> r_chain x = total c' mod 2 ^ 64)).
  { assert (Hn : NoDup (map fst ((p, r1) :: l))) by exact (c_nodup _ _ _ C).
    assert (Hlk : links ((p, r1) :: l)) by exact (links_repl [] p r r1 l eq_refl (c_links _ _ _ C)).
    assert (Htot : total ((p, r1) :: l) = total ((p, r) :: l) - blen buf /\ blen buf <= total ((p, r) :: l)).
    { unfold total. cbn [map fold_right snd]. change (r_data r1) with rest. rewrite Ed, blen_app. lia. }
    destruct Htot as [Htot Hle].
    assert (G : forall a t rt0 rt, (p, r) :: l = a ++ [(t, rt0)] -> forall c1, (p, r1) :: l = c1 -> c1 = removelast c1 ++ [(t, rt)] -> r_chain rt = r_chain rt0 -> r_next rt = None ->
      let rt' := mkReq (r_w rt) (r_cb rt) (r_base rt) (r_data rt) (r_next rt) (r_written rt) (r_flags rt) ((r_chain rt + 2 ^ 64 - blen buf mod 2 ^ 64) mod 2 ^ 64) in
      forall q x, In (q, x) (removelast c1 ++ [(t, rt')]) -> r_next x = None -> r_chain x = total (removelast c1 ++ [(t, rt')]) mod 2 ^ 64).
    { intros a t rt0 rt E c1 E1 E2 E3 E4 rt' q x Hin Hx.
      assert (Tt : total (removelast c1 ++ [(t, rt')]) = total c1) by (rewrite total_snoc; unfold rt'; cbn [r_data]; rewrite E2 at 2; rewrite total_snoc; reflexivity).
      assert (X : r_chain rt' = total (removelast c1 ++ [(t, rt')]) mod 2 ^ 64).
      { rewrite Tt, <- E1, Htot. unfold rt'. cbn [r_chain]. rewrite E3.
        rewrite (c_sum Ha t rt0); [apply sub_mod, Hle|rewrite E; apply in_or_app; right; left; reflexivity|].
        apply (links_end a t). rewrite <- E. apply C. }
      apply in_app_or in Hin. destruct Hin as [Hin|[Hin|[]]]; [|injection Hin as <- <-; exact X].
      exfalso. assert (Hl1 : links c1) by (rewrite <- E1; exact Hlk). assert (Hn1 : NoDup (map fst c1)) by (rewrite <- E1; exact Hn).
      assert (Hin1 : In (q, x) c1) by (rewrite E2; apply in_or_app; left; exact Hin).
      pose proof (links_last _ _ _ Hl1 Hin1 Hn1 Hx) as Y. rewrite E2, last_snoc in Y. injection Y as <-.
      rewrite E2, map_app in Hn1. apply NoDup_remove_2 in Hn1. rewrite app_nil_r in Hn1. apply Hn1. apply (in_map fst) in Hin. exact Hin. }
    destruct (chain_end l) as [->|(l' & t & rt & ->)].
    - set (rt' := mkReq (r_w r1) (r_cb r1) (r_base r1) (r_data r1) (r_next r1) (r_written r1) (r_flags r1) ((r_chain r1 + 2 ^ 64 - blen buf mod 2 ^ 64) mod 2 ^ 64)).
      exists p, r1, [(p, rt')]. split; [reflexivity|]. split; [unfold obj, put; cbn [wq_heap]; rewrite Hc1; reflexivity|]. cbv zeta. fold rt'.
      split; [intros q x; rewrite hset_same; apply (hset_repl (wq_heap s) [(p, r)] [] p r [] rt' (c_heap _ _ _ C) (c_nodup _ _ _ C) eq_refl)|].
      split; [constructor; [repeat split; exact Hbase|constructor]|].
      split; [unfold total in *; cbn [map fold_right snd] in *; exact Htot|]. split; [exact Hle|].
      split; [exists rt', []; repeat split; intros q x []|].
      apply (G [] p r r1 eq_refl [(p, r1)] eq_refl eq_refl eq_refl). destruct Hlk as [Hlk _]. exact Hlk.
    - set (rt' := mkReq (r_w rt) (r_cb rt) (r_base rt) (r_data rt) (r_next rt) (r_written rt) (r_flags rt) ((r_chain rt + 2 ^ 64 - blen buf mod 2 ^ 64) mod 2 ^ 64)).
      exists t, rt, ((p, r1) :: l' ++ [(t, rt')]). split; [apply (last_snoc ((p, r) :: l'))|].
      assert (Htp : hset (wq_heap s) p (Some r1) t = Some rt) by (apply Hh1; right; apply in_or_app; right; left; reflexivity).
      split; [unfold obj, put; cbn [wq_heap]; rewrite Htp; reflexivity|]. cbv zeta. fold rt'.
      split; [exact (hset_repl (hset (wq_heap s) p (Some r1)) ((p, r1) :: l' ++ [(t, rt)]) ((p, r1) :: l') t rt [] rt' Hh1 Hn eq_refl)|].
      split. { constructor; [repeat split; exact Hbase|]. apply Forall2_app; [|constructor; [repeat split|constructor]]. clear. induction l'; constructor; [apply same_refl|assumption]. }
      split. { rewrite <- Htot. change ((p, r1) :: l' ++ [(t, rt')]) with (((p, r1) :: l') ++ [(t, rt')]). change ((p, r1) :: l' ++ [(t, rt)]) with (((p, r1) :: l') ++ [(t, rt)]). rewrite !total_snoc. reflexivity. }
      split; [exact Hle|]. split.
      { exists r1, (l' ++ [(t, rt')]). split; [reflexivity|]. split; [reflexivity|]. split; [reflexivity|]. intros q x Hin. apply in_app_or in Hin. destruct Hin as [Hin|[Hin|[]]].
        - exists x. split; [apply in_or_app; left; exact Hin|auto].
        - injection Hin as <- <-. exists rt. split; [apply in_or_app; right; left; reflexivity|auto 10]. }
      assert (Er : removelast ((p, r1) :: l' ++ [(t, rt)]) = (p, r1) :: l') by (change ((p, r1) :: l' ++ [(t, rt)]) with (((p, r1) :: l') ++ [(t, rt)]); apply removelast_last).
      pose proof (G ((p, r) :: l') t rt rt eq_refl ((p, r1) :: l' ++ [(t, rt)]) eq_refl) as G'. rewrite Er in G'. apply G'; [reflexivity|reflexivity|]. apply (links_end ((p, r1) :: l') t). exact Hlk. }
  destruct Ht as (t & rt & c' & Et & Eo & Ht). cbv zeta in Ht. rewrite Et. cbn [bind]. fold r1. rewrite Eo. cbn [bind]. destruct Ht as (Hh & HF & Htot & _ & (r2 & l2 & Ec' & Ed2 & Ew2 & Hl2) & Hsum).
  match goal with |- exists s', Ok ?x = Ok s' /\ _ => exists x; split; [reflexivity|];
    assert (F1 : wq_heap x = hset (hset (wq_heap s) p (Some r1)) t (Some (mkReq (r_w rt) (r_cb rt) (r_base rt) (r_data rt) (r_next rt) (r_written rt) (r_flags rt) ((r_chain rt + 2 ^ 64 - blen buf mod 2 ^ 64) mod 2 ^ 64)))) by reflexivity;
    assert (F2 : wq_tail x = wq_tail s) by reflexivity; assert (F3 : wq_pending x = wq_pending s) by reflexivity; assert (F4 : wq_whole x = wq_whole s) by reflexivity;
    assert (F5 : wq_alive x = wq_alive s) by reflexivity; assert (F6 : wq_n x = wq_n s) by reflexivity; assert (F7 : wq_out x = TReq p :: wq_out s) by reflexivity;
    assert (F8 : wq_stack x = FLow :: wq_stack s) by reflexivity; assert (F9 : wq_log x = wq_log s ++ [WPush (r_w r) buf fl]) by reflexivity; generalize dependent x
  end. intros s' F1 F2 F3 F4 F5 F6 F7 F8 F9. exists k, c'.
  assert (Hwr : r_w r2 = r_w r /\ r_cb r2 = r_cb r /\ r_flags r2 = r_flags r). { rewrite Ec' in HF. inversion HF as [|? ? ? ? X]; subst. destruct X as (_ & X1 & X2 & _ & _ & X3). cbn [snd] in *. auto. }
  destruct Hwr as (W1 & W2 & W3).
  pose proof (c_contig _ _ _ C) as G. cbn [contig] in G. destruct G as [G1 G2].
  assert (Ho1 : forall w, w <> r_w r -> sel w (wq_log s ++ [WPush (r_w r) buf fl]) = sel w (wq_log s)) by (intros w Hne; apply sel_other; cbn [about]; congruence).
  split; [split|]; rewrite ?F1, ?F2, ?F3, ?F4, ?F5, ?F6, ?F7, ?F8, ?F9.
  - exact Hh.
  - rewrite (frame_fst _ _ HF). apply C.
  - apply (frame_links _ _ HF), C.
  - apply (frame_contig _ _ _ HF), C.
  - intros _. rewrite (frame_last _ _ HF). apply (c_tail _ _ _ C Ha).
  - intros q x Hin. destruct (frame_in _ _ _ _ HF Hin) as (x0 & Hin0 & (_ & _ & _ & B & B2 & _)). cbn [snd] in *. rewrite Ha. pose proof (c_base _ _ _ C q x0 Hin0) as X. rewrite Ha in X. congruence.
  - rewrite count_snoc. cbn [is_call]. rewrite (c_calls _ _ _ C) at 1. lia.
  - intros w Hw'. rewrite Ho1; [apply (c_none _ _ _ C _ Hw')|]. pose proof (contig_le _ _ _ G2). lia.
  - rewrite Ec'. cbn [tl]. intros q x Hin. destruct (Hl2 _ _ Hin) as (x0 & Hin0 & X1 & X2 & X3 & X4 & X5). rewrite Ho1.
    + destruct (c_tl _ _ _ C q x0 Hin0) as (Y1 & Y2). rewrite <- X1. split; [eapply Qreq_frame; [exact X1|exact X2|exact X3|exact X4|exact X5|exact Y1]|exact Y2].
    + rewrite <- X1. destruct (contig_w _ _ _ _ _ G2 Hin0). lia.
  - intros w cb [X|X]; [discriminate|]. destruct (c_user _ _ _ C _ _ X) as (Y1 & Y2). split; [exact Y1|]. rewrite Ho1 by lia. exact Y2.
  - cbn [users flat_map app]. apply C.
  - cbn [users flat_map app]. intros w Hw' Hu. rewrite Ho1 by lia. apply (c_done _ _ _ C _ Hw' Hu).
  - intros W q x Hin. rewrite Ec' in Hin. destruct Hin as [Hin|Hin].
    + injection Hin as <- <-. right. rewrite Ed2. apply Hr, W.
    + destruct (Hl2 _ _ Hin) as (x0 & Hin0 & _ & _ & _ & X4 & X5). rewrite <- X4, <- X5. apply (c_whole _ _ _ C W q). right. exact Hin0.
  - apply wlegal_snoc; [apply C|exact Hl].
  - rewrite Ha. discriminate.
  - rewrite Ec'. cbn [mode]. left. rewrite F3, F7, F8, F9. cbn [reqs flat_map app errs]. fold (reqs (wq_out s)). fold (errs (wq_stack s)). rewrite Ho.
    split; [reflexivity|]. split; [exact Hp|]. split; [exact He|]. split.
    + rewrite W1, sel_same by reflexivity. eapply Qreq_push; try eassumption.
    + split; [|intros _; rewrite <- Ec'; exact Hsum]. intros q x Hin. rewrite F9. apply clean_snoc; [discriminate|]. rewrite <- Ec' in Hin. destruct (frame_in _ _ _ _ HF Hin) as (x0 & Hin0 & (_ & B & _)). cbn [snd] in B. rewrite <- B. apply (Hcl _ _ Hin0).
Qed.

(** ** Other steps *)
Lemma core_ext s s' k c : core s k c -> (forall q, wq_heap s' q = wq_heap s q) -> wq_tail s' = wq_tail s -> wq_whole s' = wq_whole s -> wq_alive s' = wq_alive s -> wq_n s' = wq_n s ->
  wq_log s' = wq_log s \/ (exists p r l e, c = (p, r) :: l /\ about e = r_w r /\ is_call e = false /\ wlegal (wq_log s) e /\ wq_log s' = wq_log s ++ [e]) ->
  (forall w cb, In (TUser w cb) (wq_out s') -> In (TUser w cb) (wq_out s)) -> users (wq_out s') = users (wq_out s) ->
  (wq_alive s = false -> forallb may_die (wq_stack s') = true) -> core s' k c.
Proof.
  intros C E1 E2 E3 E4 E5 EL EU EU2 ED.
  assert (Hsel : forall w, (forall p r l, c = (p, r) :: l -> w <> r_w r) -> sel w (wq_log s') = sel w (wq_log s)).
  { intros w Hne. destruct EL as [->|(p & r & l & e & Ec & Ea & _ & _ & ->)]; [reflexivity|]. apply sel_other. rewrite Ea. intros <-. eapply Hne; [exact Ec|reflexivity]. }
  assert (Hk : forall p r l, c = (p, r) :: l -> r_w r = k /\ contig (wq_n s) (k + 1) l) by (intros p r l ->; exact (c_contig _ _ _ C)).
  split; rewrite ?E2, ?E3, ?E4, ?E5.
  - intros p r. rewrite E1. apply C.
  - apply C.
  - apply C.
  - apply C.
  - apply C.
  - apply C.
  - destruct EL as [->|(p & r & l & e & _ & _ & Ec & _ & ->)]; [apply C|]. rewrite count_snoc, Ec. rewrite (c_calls _ _ _ C). lia.
  - intros w Hw. rewrite Hsel; [apply (c_none _ _ _ C _ Hw)|]. intros p r l Ec. destruct (Hk _ _ _ Ec) as [<- G]. apply contig_le in G. lia.
  - intros p r Hin. rewrite Hsel; [apply (c_tl _ _ _ C _ _ Hin)|]. intros p0 r0 l Ec. destruct (Hk _ _ _ Ec) as [<- G]. rewrite Ec in Hin. destruct (contig_w _ _ _ _ _ G Hin). lia.
  - intros w cb Hin. destruct (c_user _ _ _ C _ _ (EU _ _ Hin)) as [A B]. split; [exact A|]. rewrite Hsel; [exact B|]. intros p r l Ec. destruct (Hk _ _ _ Ec) as [<- G]. lia.
  - rewrite EU2. apply C.
  - rewrite EU2. intros w Hw Hu. rewrite Hsel; [apply (c_done _ _ _ C _ Hw Hu)|]. intros p r l Ec. destruct (Hk _ _ _ Ec) as [<- G]. lia.
  - apply C.
  - destruct EL as [->|(p & r & l & e & _ & _ & _ & Hl & ->)]; [apply C|]. apply wlegal_snoc; [apply C|exact Hl].
  - exact ED.
Qed.
Definition Qlive (r : req) (es : list wev) : Prop :=
  exists d es', es = WCall (r_w r) (r_cb r) d (r_flags r) :: es' /\ count is_call es' = 0%nat /\ d = bytes_of es ++ r_data r /\ r_written r = blen (bytes_of es) /\ count is_outcome es = 0%nat.
Lemma Qreq_live r o es : Qreq r o es -> Qlive r es.
Proof. intros (d & es' & A & B & C & D & E & _). exists d, es'. auto. Qed.
Lemma no_user s k c w : core s k c -> k <= w -> ~ In w (users (wq_out s)).
Proof. intros C H X. apply users_in in X. destruct X as (cb & X). apply (c_user _ _ _ C) in X. lia. Qed.

(** Removing the head of the chain with an outcome. *)
Lemma core_remove s s' k p r l e : core s k ((p, r) :: l) -> Qlive r (sel (r_w r) (wq_log s)) ->
  about e = r_w r -> is_call e = false -> is_outcome e = true -> wlegal (wq_log s) e -> (match e with WPush _ _ _ => false | _ => true end = true) -> (r_data r = [] \/ exists c n, e = WErr (r_w r) c n) ->
  (forall q, wq_heap s' q = hset (wq_heap s) p None q) -> (wq_alive s = true -> wq_tail s' = match l with [] => None | _ => wq_tail s end) ->
  wq_whole s' = wq_whole s -> wq_alive s' = wq_alive s -> wq_n s' = wq_n s -> wq_log s' = wq_log s ++ [e] -> wq_out s' = wq_out s ->
  (wq_alive s = false -> forallb may_die (wq_stack s') = true) -> core s' (k + 1) l.
Proof.
  intros C HQ Ea Ec Eo Hl Hnp Hd E1 E2 E3 E4 E5 EL EO ED.
  pose proof (c_contig _ _ _ C) as G. cbn [contig] in G. destruct G as [G1 G2].
  assert (Hsel : forall w, w <> r_w r -> sel w (wq_log s') = sel w (wq_log s)) by (intros w Hne; rewrite EL; apply sel_other; congruence).
  pose proof (c_nodup _ _ _ C) as Nd. cbn [map fst] in Nd.
  split; rewrite ?E3, ?E4, ?E5, ?EO.
  - intros q x. rewrite E1. apply (hset_del (wq_heap s) p r l); [apply C|exact Nd].
  - inversion Nd; assumption.
  - apply (c_links _ _ _ C).
  - exact G2.
  - intros Ha. rewrite (E2 Ha), (c_tail _ _ _ C Ha). destruct l as [|y l]; [reflexivity|]. destruct (chain_end (y :: l)) as [X|(l' & t & rt & X)]; [discriminate|]. rewrite X, last_snoc. apply (last_snoc ((p, r) :: l')).
  - intros q x Hin. apply (c_base _ _ _ C q x). right. exact Hin.
  - rewrite EL, count_snoc, Ec, (c_calls _ _ _ C). lia.
  - intros w Hw. rewrite Hsel; [apply (c_none _ _ _ C _ Hw)|]. apply contig_le in G2. lia.
  - intros q x Hin. assert (Hin' : In (q, x) l) by (destruct l; [destruct Hin|right; exact Hin]). rewrite Hsel; [apply (c_tl _ _ _ C _ _ Hin')|]. destruct (contig_w _ _ _ _ _ G2 Hin'). lia.
  - intros w cb Hin. destruct (c_user _ _ _ C _ _ Hin) as [A B]. split; [lia|]. rewrite Hsel by lia. exact B.
  - apply C.
  - intros w Hw Hu. destruct (N.eq_dec w (r_w r)) as [->|Hne].
    + destruct HQ as (d & es' & A & B & D & F & H). rewrite EL, sel_same by exact Ea. exists (r_cb r), d, (r_flags r), (es' ++ [e]). rewrite !count_snoc, bytes_snoc, Ec, Eo, B, H.
      split; [rewrite A; reflexivity|]. split; [reflexivity|]. split; [reflexivity|]. destruct Hd as [Hd|(c0 & n0 & Hd)]; [left|right; exists c0, n0; rewrite Hd; apply in_or_app; right; left; reflexivity].
      rewrite Hd, app_nil_r in D. rewrite D. destruct e; try discriminate; apply app_nil_r.
    + rewrite Hsel by exact Hne. apply (c_done _ _ _ C); [lia|exact Hu].
  - intros W q x Hin. apply (c_whole _ _ _ C W q x). right. exact Hin.
  - rewrite EL. apply wlegal_snoc; [apply C|exact Hl].
  - exact ED.
Qed.
(** advanceOnBase on the head. *)
Lemma advance_ok s k p r l : core s k ((p, r) :: l) ->
  exists s', advanceOnBase s p = Ok s' /\ wq_heap s' = wq_heap s /\ (wq_alive s = true -> wq_tail s' = match l with [] => None | _ => wq_tail s end) /\ wq_pending s' = wq_pending s /\
    wq_whole s' = wq_whole s /\ wq_alive s' = wq_alive s /\ wq_n s' = wq_n s /\ wq_out s' = wq_out s /\ wq_stack s' = wq_stack s /\ wq_log s' = wq_log s.
Proof.
  intros C. unfold advanceOnBase, obj, base. assert (X : wq_heap s p = Some r) by (apply (c_heap _ _ _ C); left; reflexivity). rewrite X. cbn [bind].
  destruct (c_links _ _ _ C) as [Hn _]. destruct l as [|[q x] l]; cbn [hd_error option_map fst] in Hn; rewrite Hn.
  - pose proof (c_base _ _ _ C p r ltac:(left; reflexivity)) as B. destruct (wq_alive s) eqn:Ha.
    + rewrite B. cbn [bind]. rewrite (c_tail _ _ _ C Ha). cbn [last_addr rev app hd_error option_map fst]. rewrite N.eqb_refl. eexists. split; [reflexivity|]. cbn. rewrite Ha. auto 12.
    + rewrite (B Hn). exists s. rewrite Ha. split; [reflexivity|]. split; [reflexivity|]. split; [discriminate|]. auto 12.
  - exists s. split; [reflexivity|]. auto 12.
Qed.
Lemma err_inv s k p r l : core s k ((p, r) :: l) -> reqs (wq_out s) = [] -> wq_pending s = None -> errs (wq_stack s) = [] -> Qlive r (sel (r_w r) (wq_log s)) ->
  exists s', reqErr s p = Ok s' /\ winv s'.
Proof.
  intros C Ho Hp He HQ. unfold reqErr, obj. assert (X : wq_heap s p = Some r) by (apply (c_heap _ _ _ C); left; reflexivity). rewrite X. cbn [bind].
  destruct (advance_ok _ _ _ _ _ C) as (s1 & -> & A1 & A2 & A3 & A4 & A5 & A6 & A7 & A8 & A9). cbn [bind].
  eexists. split; [reflexivity|]. exists (k + 1), l. destruct (c_links _ _ _ C) as [Hn _].
  assert (Hl : wlegal (wq_log s) (WErr (r_w r) (r_cb r) (Some (r_written r)))).
  { destruct HQ as (d & es' & B1 & B2 & B3 & B4 & B5). split; [exists d, (r_flags r); eapply call_in, B1|]. split; [exact B5|exact B4]. }
  split.
  - apply (core_remove s _ k p r l (WErr (r_w r) (r_cb r) (Some (r_written r))) C HQ eq_refl eq_refl eq_refl Hl eq_refl);
      unfold enter, say, put; cbn [wq_heap wq_tail wq_pending wq_whole wq_alive wq_n wq_out wq_stack wq_log]; rewrite ?A4, ?A5, ?A6, ?A7, ?A8, ?A9; try reflexivity.
    + right. eauto.
    + intros q. rewrite A1. reflexivity.
    + exact A2.
    + intros Hd. cbn [forallb may_die]. apply (c_dead _ _ _ C Hd).
  - assert (Hsel : forall q x, In (q, x) l -> sel (r_w x) (wq_log s ++ [WErr (r_w r) (r_cb r) (Some (r_written r))]) = sel (r_w x) (wq_log s)).
    { intros q x Hin. apply sel_other. cbn [about]. pose proof (c_contig _ _ _ C) as G. cbn [contig] in G. destruct G as [G1 G2]. destruct (contig_w _ _ _ _ _ G2 Hin). lia. }
    destruct l as [|[q x] l]; cbn [hd_error option_map fst] in Hn; cbn [mode]; unfold enter, say, put; cbn [wq_heap wq_tail wq_pending wq_whole wq_alive wq_n wq_out wq_stack wq_log]; rewrite ?A3, ?A7, ?A8, ?A9, Hn; cbn [errs flat_map app]; fold (errs (wq_stack s)); rewrite He.
    + auto.
    + right. right. rewrite (Hsel q x) by (left; reflexivity). destruct (c_tl _ _ _ C q x ltac:(left; reflexivity)) as (Y1 & Y2). auto.
Qed.
Lemma success_inv s k p r l : core s k ((p, r) :: l) -> wq_alive s = true -> reqs (wq_out s) = [] -> wq_pending s = None -> errs (wq_stack s) = [] ->
  Qreq r false (sel (r_w r) (wq_log s)) -> all_clean s ((p, r) :: l) -> exists s', reqSuccess s p = Ok s' /\ winv s'.
Proof.
  intros C Ha Ho Hp He HQ Hcl. unfold reqSuccess, obj. assert (X : wq_heap s p = Some r) by (apply (c_heap _ _ _ C); left; reflexivity). rewrite X. cbn [bind].
  destruct (r_data r) as [|x d] eqn:Ed; [|eapply start_inv; eassumption].
  destruct (advance_ok _ _ _ _ _ C) as (s1 & -> & A1 & A2 & A3 & A4 & A5 & A6 & A7 & A8 & A9). cbn [bind]. unfold base, put at 1. cbn [wq_alive]. rewrite A5, Ha. cbn [bind].
  change (wq_pending (put s1 p None)) with (wq_pending s1). rewrite A3, Hp.
  eexists. split; [reflexivity|]. exists (k + 1), l. destruct (c_links _ _ _ C) as [Hn _].
  assert (Hl : wlegal (wq_log s) (WOk (r_w r) (r_cb r))).
  { destruct HQ as (d & es' & B1 & B2 & B3 & B4 & B5 & B6 & B7). exists d, (r_flags r). split; [eapply call_in, B1|]. split; [exact B5|]. split; [rewrite Ed, app_nil_r in B3; symmetry; exact B3|]. unfold pieces, reports. lia. }
  split.
  - apply (core_remove s _ k p r l (WOk (r_w r) (r_cb r)) C (Qreq_live _ _ _ HQ) eq_refl eq_refl eq_refl Hl eq_refl);
      unfold enter, say, set_pending, put; cbn [wq_heap wq_tail wq_pending wq_whole wq_alive wq_n wq_out wq_stack wq_log]; rewrite ?A4, ?A5, ?A6, ?A7, ?A8, ?A9; try reflexivity.
    + left. exact Ed.
    + intros q. rewrite A1. reflexivity.
    + exact A2.
    + rewrite Ha. discriminate.
  - assert (Hsel : forall q x, In (q, x) l -> sel (r_w x) (wq_log s ++ [WOk (r_w r) (r_cb r)]) = sel (r_w x) (wq_log s)).
    { intros q x Hin. apply sel_other. cbn [about]. pose proof (c_contig _ _ _ C) as G. cbn [contig] in G. destruct G as [G1 G2]. destruct (contig_w _ _ _ _ _ G2 Hin). lia. }
    destruct l as [|[q x] l]; cbn [hd_error option_map fst] in Hn; cbn [mode]; unfold enter, say, set_pending, put; cbn [wq_heap wq_tail wq_pending wq_whole wq_alive wq_n wq_out wq_stack wq_log]; rewrite ?A3, ?A7, ?A8, ?A9, Hn; cbn [errs succs flat_map app]; fold (errs (wq_stack s)); rewrite He.
    + auto.
    + right. left. rewrite (Hsel q x) by (left; reflexivity). destruct (c_tl _ _ _ C q x ltac:(left; reflexivity)) as (Y1 & Y2). split; [exact Ho|]. split; [reflexivity|]. split; [reflexivity|]. split; [exact Y1|]. split; [exact Y2|].
      split; [|reflexivity]. destruct Hcl as (Hc & Hs). split; cbn [wq_log wq_alive].
      * intros q' x' Hin. apply clean_snoc; [discriminate|]. apply (Hc q' x'). right. exact Hin.
      * intros _ q' x' Hin Hx. rewrite (Hs Ha q' x'); [|right; exact Hin|exact Hx]. unfold total. cbn [map fold_right snd]. rewrite Ed. reflexivity.
Qed.
(** Changes that matter neither to the chain nor to the log. *)
Lemma clean_ext s s' c : wq_log s' = wq_log s -> wq_alive s' = wq_alive s -> all_clean s c -> all_clean s' c.
Proof. unfold all_clean. intros -> ->. auto. Qed.
Lemma mode_ext s s' c : mode s c -> reqs (wq_out s') = reqs (wq_out s) -> wq_pending s' = wq_pending s -> errs (wq_stack s') = errs (wq_stack s) -> succs (wq_stack s') = succs (wq_stack s) ->
  (forall p r, In (p, r) c -> sel (r_w r) (wq_log s') = sel (r_w r) (wq_log s)) -> (all_clean s c -> all_clean s' c) -> mode s' c.
Proof.
  intros M E1 E2 E3 E4 E5 E6. destruct c as [|[h r] c]; cbn [mode] in *; rewrite E1, E2, E3; [exact M|]. rewrite E4, (E5 h r) by (left; reflexivity). tauto.
Qed.
Lemma quiet s s' k c : core s k c -> mode s c -> (forall q, wq_heap s' q = wq_heap s q) -> wq_tail s' = wq_tail s -> wq_whole s' = wq_whole s -> wq_alive s' = wq_alive s -> wq_n s' = wq_n s ->
  wq_log s' = wq_log s -> wq_out s' = wq_out s -> wq_pending s' = wq_pending s -> errs (wq_stack s') = errs (wq_stack s) -> succs (wq_stack s') = succs (wq_stack s) ->
  (wq_alive s = false -> forallb may_die (wq_stack s') = true) -> core s' k c /\ mode s' c.
Proof.
  intros C M E1 E2 E3 E4 E5 EL EO EP Ee Es ED. split.
  - eapply core_ext; try eassumption; [left; exact EL|rewrite EO; auto|rewrite EO; reflexivity].
  - eapply mode_ext; try eassumption; [rewrite EO; reflexivity|rewrite EL; reflexivity|apply clean_ext; assumption].
Qed.
Lemma dead_tail stk f : forallb may_die (f :: stk) = true -> forallb may_die stk = true.
Proof. cbn [forallb]. intros H. apply andb_true_iff in H. apply H. Qed.

Lemma fail_inv s : wq_alive s = true -> winv s -> exists s', failPending s = Ok s' /\ winv s'.
Proof.
  intros Ha (k & c & C & M). unfold failPending. cbv zeta. change (wq_pending (enter s FAfter)) with (wq_pending s).
  destruct (quiet s (enter s FAfter) k c C M) as (C1 & M1); try reflexivity; [intros; congruence|].
  remember (wq_pending s) as pe eqn:Ep. symmetry in Ep. destruct pe as [q|]; [|exists (enter s FAfter); split; [reflexivity|]; exists k, c; auto].
  assert (Hc : exists r l, c = (q, r) :: l /\ reqs (wq_out s) = [] /\ errs (wq_stack s) = [] /\ Qreq r false (sel (r_w r) (wq_log s))).
  { destruct c as [|[h r] l]; cbn [mode] in M; [destruct M as (_ & M & _); congruence|].
    destruct M as [(_ & M & _)|[(M1' & M2 & M3 & M4 & _)|(_ & M & _)]]; [congruence| |congruence].
    exists r, l. rewrite Ep in M2. injection M2 as ->. auto. }
  destruct Hc as (r & l & -> & Ho & He & HQ). apply (err_inv _ k q r l); [|exact Ho|reflexivity|exact He|eapply Qreq_live, HQ].
  eapply core_ext; [exact C1|reflexivity..|left; reflexivity|auto|reflexivity|]. intros X. change (wq_alive s = false) in X. congruence.
Qed.
Lemma drop1_in t u l : In u (drop1 t l) -> In u l.
Proof. induction l as [|x l IH]; cbn [drop1]; [auto|]. destruct (teq t x); [right; assumption|]. intros [H|H]; [left; exact H|right; apply IH, H]. Qed.
Lemma report_inv s p ok : winv s -> In (TReq p) (wq_out s) -> wq_alive s = true \/ ok = false -> exists s', wstep s (MReport (TReq p) ok) = Ok s' /\ winv s'.
Proof.
  intros (k & c & C & M) Hin Ha. cbn [wstep]. cbv zeta. apply reqs_in in Hin.
  assert (Hc : exists r l, c = (p, r) :: l /\ reqs (wq_out s) = [p] /\ wq_pending s = None /\ errs (wq_stack s) = [] /\ Qreq r true (sel (r_w r) (wq_log s)) /\ all_clean s c).
  { destruct c as [|[h r] l]; cbn [mode] in M; [destruct M as (M & _); rewrite M in Hin; destruct Hin|].
    destruct M as [(M1 & M2 & M3 & M4 & M5)|[(M1 & _)|(M1 & _)]]; [|rewrite M1 in Hin; destruct Hin..]. exists r, l. rewrite M1 in Hin. destruct Hin as [->|[]]. auto 10. }
  destruct Hc as (r & l & -> & Ho & Hp & He & HQ & Hcl).
  assert (X : wq_heap s p = Some r) by (apply (c_heap _ _ _ C); left; reflexivity). unfold obj. change (wq_heap (release s (TReq p)) p) with (wq_heap s p). rewrite X. cbn [bind].
  set (s1 := say (release s (TReq p)) (WLow (r_w r) ok)).
  pose proof HQ as (d & es' & B1 & B2 & B3 & B4 & B5 & B6 & B7).
  assert (C1 : core s1 k ((p, r) :: l)).
  { eapply core_ext; [exact C|reflexivity..| | | |].
    - right. exists p, r, l, (WLow (r_w r) ok). split; [reflexivity|]. split; [reflexivity|]. split; [reflexivity|]. split; [|reflexivity].
      cbn [wlegal]. unfold reports, pieces. lia.
    - intros w cb Hw. cbn [s1 say release wq_out] in Hw. apply drop1_in in Hw. exact Hw.
    - cbn [s1 say release wq_out]. apply drop1_users.
    - apply (c_dead _ _ _ C). }
  assert (Ho1 : reqs (wq_out s1) = []) by (apply drop1_reqs, Ho).
  assert (Es : sel (r_w r) (wq_log s1) = sel (r_w r) (wq_log s) ++ [WLow (r_w r) ok]) by (apply sel_same; reflexivity).
  destruct ok.
  - destruct Ha as [Ha|]; [|discriminate]. apply (success_inv _ k p r l); try assumption.
    + rewrite Es. exists d, (es' ++ [WLow (r_w r) true]). rewrite !count_snoc, bytes_snoc, app_nil_r. cbn [is_call is_outcome is_low is_push Bool.eqb].
      split; [rewrite B1; reflexivity|]. split; [lia|]. split; [exact B3|]. split; [exact B4|]. split; [lia|]. split; [lia|]. lia.
    + destruct Hcl as (H1 & H2). split; [|exact H2]. intros q x Hq. apply clean_snoc; [discriminate|]. eapply H1, Hq.
  - apply (err_inv _ k p r l); try assumption. rewrite Es. exists d, (es' ++ [WLow (r_w r) false]). rewrite !count_snoc, bytes_snoc, app_nil_r. cbn [is_call is_outcome].
    split; [rewrite B1; reflexivity|]. split; [lia|]. split; [exact B3|]. split; [exact B4|]. lia.
Qed.
Lemma user_report_inv s w cb ok : winv s -> In (TUser w cb) (wq_out s) -> exists s', wstep s (MReport (TUser w cb) ok) = Ok s' /\ winv s'.
Proof.
  intros (k & c & C & M) Hin. cbn [wstep]. cbv zeta. eexists. split; [reflexivity|]. exists k, c.
  destruct (c_user _ _ _ C _ _ Hin) as (Hw & d & f & es' & B1 & B2 & B3 & B4 & B5 & B6 & B7).
  set (e1 := WLow w ok). set (e2 := if ok then WOk w cb else WErr w cb None).
  assert (A1 : about e1 = w) by reflexivity. assert (A2 : about e2 = w) by (destruct ok; reflexivity).
  assert (Hsel : forall w', w' <> w -> sel w' ((wq_log s ++ [e1]) ++ [e2]) = sel w' (wq_log s)) by (intros w' Hne; rewrite sel_other, sel_other by congruence; reflexivity).
  assert (Hsw : sel w ((wq_log s ++ [e1]) ++ [e2]) = (sel w (wq_log s) ++ [e1]) ++ [e2]) by (rewrite !sel_same by assumption; reflexivity).
  assert (Hs1 : sel w (wq_log s ++ [e1]) = sel w (wq_log s) ++ [e1]) by (apply sel_same, A1).
  assert (Hch : forall p r, In (p, r) c -> w <> r_w r) by (intros p r Hc; destruct (contig_w _ _ _ _ _ (c_contig _ _ _ C) Hc); lia).
  pose proof (drop1_users (TUser w cb) (wq_out s)) as Hu. cbv beta iota in Hu.
  set (dr := fix d0 (l : list N) : list N := match l with [] => [] | x :: r => if w =? x then r else x :: d0 r end) in Hu.
  assert (Hdr : forall x l, NoDup l -> (In x (dr l) <-> In x l /\ x <> w) /\ NoDup (dr l)).
  { intros x l. revert x. induction l as [|y l IH]; intros x N; [split; [split; [intros []|intros ([] & _)]|exact N]|]. apply NoDup_cons_iff in N. destruct N as [N1 N2]. cbn [dr]. destruct (N.eqb_spec w y) as [<-|Ne].
    - split; [|exact N2]. cbn [In]. split; [intros Hx; split; [right; exact Hx|intros ->; contradiction]|]. intros ([->|Hx] & Hne); [congruence|exact Hx].
    - destruct (IH x N2) as (I1 & I2). split; [|constructor; [|exact I2]].
      + cbn [In]. rewrite I1. split; [intros [->|(? & ?)]; [split; [left; reflexivity|congruence]|tauto]|tauto].
      + intros Hy. apply (IH y N2) in Hy. tauto. }
  split.
  - split; unfold enter, say, release; cbn [wq_heap wq_tail wq_pending wq_whole wq_alive wq_n wq_out wq_stack wq_log]; fold e1 e2.
    + apply C.
    + apply C.
    + apply C.
    + apply C.
    + apply C.
    + apply C.
    + rewrite !count_snoc. unfold e2. destruct ok; cbn [is_call e1]; rewrite (c_calls _ _ _ C); lia.
    + intros w' Hw'. rewrite Hsel; [apply (c_none _ _ _ C _ Hw')|]. pose proof (contig_le _ _ _ (c_contig _ _ _ C)). lia.
    + intros p r Hp. rewrite Hsel; [apply (c_tl _ _ _ C _ _ Hp)|]. assert (In (p, r) c) by (destruct c; [destruct Hp|right; exact Hp]). intros E. eapply Hch; [eassumption|congruence].
    + intros w' cb' Hw'. assert (Hw2 : In w' (users (drop1 (TUser w cb) (wq_out s)))) by (apply users_in; eauto). rewrite Hu in Hw2. apply Hdr in Hw2; [|apply C].
      apply drop1_in in Hw'. destruct (c_user _ _ _ C _ _ Hw') as (D1 & D2). split; [exact D1|]. rewrite Hsel by tauto. exact D2.
    + rewrite Hu. apply (Hdr 0 _ (c_unodup _ _ _ C)).
    + rewrite Hu. intros w' Hw' Hnu. destruct (N.eq_dec w' w) as [->|Hne].
      * rewrite Hsw. exists cb, d, f, ((es' ++ [e1]) ++ [e2]). rewrite !count_snoc, !bytes_snoc.
        split; [rewrite B1; reflexivity|]. split; [unfold e2; destruct ok; cbn [is_call e1]; lia|]. split; [unfold e2; destruct ok; cbn [is_outcome e1]; lia|]. left.
        unfold e2. destruct ok; cbn [e1]; rewrite !app_nil_r; exact B3.
      * rewrite Hsel by exact Hne. apply (c_done _ _ _ C _ Hw'). intros Hx. apply Hnu. apply Hdr; [apply C|auto].
    + apply C.
    + apply wlegal_snoc; [apply wlegal_snoc; [apply C|]|].
      * cbn [wlegal e1]. unfold reports, pieces. lia.
      * unfold e2. destruct ok; cbn [wlegal].
        -- exists d, f. split; [apply in_or_app; left; eapply call_in, B1|]. unfold outcomes, pushed, pieces, reports. rewrite Hs1, !count_snoc, bytes_snoc, app_nil_r. cbn [is_outcome e1 is_push is_low Bool.eqb].
           split; [lia|]. split; [exact B3|]. lia.
        -- split; [exists d, f; apply in_or_app; left; eapply call_in, B1|]. unfold outcomes, reports. rewrite Hs1, !count_snoc. cbn [is_outcome e1 is_low Bool.eqb]. lia.
    + cbn [forallb may_die]. apply (c_dead _ _ _ C).
  - eapply mode_ext; [exact M|..]; unfold enter, say, release; cbn [wq_heap wq_tail wq_pending wq_whole wq_alive wq_n wq_out wq_stack wq_log]; fold e1 e2; try reflexivity.
    + apply drop1_reqs_user.
    + intros p r Hp. apply Hsel. intros E. eapply Hch; [exact Hp|congruence].
    + intros (H1 & H2). split; [|exact H2]. cbn [wq_log]. intros p r Hp. apply clean_snoc; [unfold e2; destruct ok; discriminate|]. apply clean_snoc; [discriminate|]. eapply H1, Hp.
Qed.
Lemma links_snoc c t rt rt' a R : links (c ++ [(t, rt)]) -> r_next rt' = Some a -> r_next R = None -> links ((c ++ [(t, rt')]) ++ [(a, R)]).
Proof.
  intros H E1 E2. induction c as [|[q x] c IH]; cbn [app links] in *; destruct H as [H1 H2].
  - split; [exact E1|]. split; [exact E2|exact Logic.I].
  - split; [|apply IH, H2]. rewrite H1. destruct c as [|[? ?] ?]; reflexivity.
Qed.
Lemma clean_call w L cb d f : (forall cb d f, ~ In (WCall w cb d f) L) -> clean w (L ++ [WCall w cb d f]).
Proof.
  intros H A w0 c n B cb' d' f' E Hin. exfalso. destruct B as [|y B] using rev_ind; [apply app_inj_tail in E; destruct E as [_ E]; discriminate|].
  clear IHB. rewrite app_comm_cons, app_assoc in E. apply app_inj_tail in E. destruct E as [-> _]. eapply H, in_or_app. left. exact Hin.
Qed.
Lemma sel_none_call w L cb d f : sel w L = [] -> ~ In (WCall w cb d f) L.
Proof. intros E H. assert (X : In (WCall w cb d f) (sel w L)) by (apply sel_In; auto). rewrite E in X. destruct X. Qed.
Lemma nodup_snoc {A} (l : list A) a : NoDup l -> ~ In a l -> NoDup (l ++ [a]).
Proof. intros N H. apply (NoDup_Add (Add_app a l [])). rewrite app_nil_r. auto. Qed.
Lemma append_inv s k c' t rt cb data flags addr : core s k (c' ++ [(t, rt)]) -> mode s (c' ++ [(t, rt)]) -> wq_alive s = true -> wq_heap s addr = None ->
  exists s', (let w := wq_n s in
    let s0 := mkWq (wq_heap s) (wq_tail s) (wq_pending s) (wq_whole s) (wq_alive s) (w + 1) (wq_out s) (wq_stack s) (wq_log s ++ [WCall w cb data flags]) in
    let s1 := put s0 addr (Some (mkReq w cb true data None 0 flags (blen data))) in
    let s2 := put s1 t (Some (mkReq (r_w rt) (r_cb rt) (r_base rt) (r_data rt) (Some addr) (r_written rt) (r_flags rt) 0)) in
    set_tail (put s2 addr (Some (mkReq w cb true data None 0 flags ((blen data + r_chain rt) mod 2 ^ 64)))) (Some addr)) = s' /\ winv s'.
Proof.
  intros C M Ha Hfresh. cbv zeta. set (R := mkReq (wq_n s) cb true data None 0 flags ((blen data + r_chain rt) mod 2 ^ 64)).
  set (rt' := mkReq (r_w rt) (r_cb rt) (r_base rt) (r_data rt) (Some addr) (r_written rt) (r_flags rt) 0). set (e := WCall (wq_n s) cb data flags).
  match goal with |- exists s', ?x = s' /\ _ => exists x; split; [reflexivity|];
    assert (F1 : forall q, wq_heap x q = hset (hset (wq_heap s) t (Some rt')) addr (Some R) q)
      by (intros q; unfold set_tail, put; cbn [wq_heap]; unfold hset; destruct (q =? addr); reflexivity);
    assert (F2 : wq_tail x = Some addr) by reflexivity; assert (F3 : wq_pending x = wq_pending s) by reflexivity; assert (F4 : wq_whole x = wq_whole s) by reflexivity;
    assert (F5 : wq_alive x = wq_alive s) by reflexivity; assert (F6 : wq_n x = wq_n s + 1) by reflexivity; assert (F7 : wq_out x = wq_out s) by reflexivity;
    assert (F8 : wq_stack x = wq_stack s) by reflexivity; assert (F9 : wq_log x = wq_log s ++ [e]) by reflexivity; generalize dependent x
  end. intros s' F1 F2 F3 F4 F5 F6 F7 F8 F9.
  set (c := c' ++ [(t, rt)]) in *. set (cn := (c' ++ [(t, rt')]) ++ [(addr, R)]).
  pose proof (c_none _ _ _ C (wq_n s) ltac:(lia)) as Hnone.
  assert (Hsel : forall w, w <> wq_n s -> sel w (wq_log s ++ [e]) = sel w (wq_log s)) by (intros w Hne; apply sel_other; cbn [about e]; congruence).
  assert (Hseln : sel (wq_n s) (wq_log s ++ [e]) = [e]) by (rewrite sel_same, Hnone by reflexivity; reflexivity).
  assert (Hne : t <> addr). { intros ->. assert (wq_heap s addr = Some rt) by (apply (c_heap _ _ _ C); apply in_or_app; right; left; reflexivity). congruence. }
  assert (Hold : forall q x, In (q, x) cn -> (q = addr /\ x = R) \/ exists x0, In (q, x0) c /\ r_w x0 = r_w x /\ r_cb x0 = r_cb x /\ r_flags x0 = r_flags x /\ r_data x0 = r_data x /\ r_written x0 = r_written x /\ r_base x0 = r_base x).
  { intros q x H. apply in_app_or in H. destruct H as [H|[H|[]]]; [|injection H as <- <-; left; auto]. right. apply in_app_or in H. destruct H as [H|[H|[]]].
    - exists x. split; [apply in_or_app; left; exact H|auto 10].
    - injection H as <- <-. exists rt. split; [apply in_or_app; right; left; reflexivity|]. repeat split. }
  assert (Hold2 : forall q x, In (q, x) c -> r_w x <> wq_n s) by (intros q x H; destruct (contig_w _ _ _ _ _ (c_contig _ _ _ C) H); lia).
  assert (HlkR : links cn) by (apply (links_snoc c' t rt rt' addr R); [apply C|reflexivity|reflexivity]).
  assert (Hnd : NoDup (map fst cn)).
  { unfold cn. rewrite map_app. assert (E : map fst (c' ++ [(t, rt')]) = map fst c) by (unfold c; rewrite !map_app; reflexivity). rewrite E. cbn [map fst].
    apply nodup_snoc; [apply C|]. intros H. apply in_map_iff in H. destruct H as ([q x] & E1 & H). cbn [fst] in E1. subst q. apply (c_heap _ _ _ C) in H. congruence. }
  assert (Hheap : forall q x, wq_heap s' q = Some x <-> In (q, x) cn).
  { intros q x. rewrite F1. apply hset_add.
    - exact (hset_repl (wq_heap s) c c' t rt [] rt' (c_heap _ _ _ C) (c_nodup _ _ _ C) eq_refl).
    - unfold hset. destruct (N.eqb_spec addr t); [congruence|exact Hfresh]. }
  assert (Hlast : forall q x, In (q, x) cn -> r_next x = None -> x = R).
  { intros q x H Hx. pose proof (links_last _ _ _ HlkR H Hnd Hx) as Y. unfold cn in Y. rewrite last_snoc in Y. injection Y as <-. apply Hheap in H.
    assert (H2 : wq_heap s' addr = Some R) by (apply Hheap; apply in_or_app; right; left; reflexivity). congruence. }
  assert (HQR : Qreq R false [e]).
  { exists data, []. cbn [R r_w r_cb r_flags r_data r_written]. cbv. auto 10. }
  exists k, cn. split; [split|].
  - exact Hheap.
  - exact Hnd.
  - exact HlkR.
  - rewrite F6. apply contig_snoc; [|reflexivity]. apply (contig_repl _ _ c' t rt rt' []); [reflexivity|apply C].
  - intros _. rewrite F2. unfold cn. rewrite last_snoc. reflexivity.
  - rewrite F5, Ha. intros q x H. destruct (Hold _ _ H) as [(-> & ->)|(x0 & H0 & _ & _ & _ & _ & _ & Hb)]; [reflexivity|]. pose proof (c_base _ _ _ C _ _ H0) as X. rewrite Ha in X. congruence.
  - rewrite F6, F9, count_snoc. cbn [is_call e]. rewrite (c_calls _ _ _ C). lia.
  - rewrite F6, F9. intros w Hw. rewrite Hsel by lia. apply (c_none _ _ _ C). lia.
  - intros q x H. rewrite F9. assert (Htl : (q = addr /\ x = R) \/ exists x0, In (q, x0) (tl c) /\ r_w x0 = r_w x /\ r_cb x0 = r_cb x /\ r_flags x0 = r_flags x /\ r_data x0 = r_data x /\ r_written x0 = r_written x).
    { unfold cn, c in *. destruct c' as [|y c']; cbn [app tl] in *.
      - destruct H as [H|[]]. injection H as <- <-. left. auto.
      - apply in_app_or in H. destruct H as [H|[H|[]]]; [|injection H as <- <-; left; auto]. right. apply in_app_or in H. destruct H as [H|[H|[]]].
        + exists x. split; [apply in_or_app; left; exact H|auto 10].
        + injection H as <- <-. exists rt. split; [apply in_or_app; right; left; reflexivity|]. repeat split. }
    destruct Htl as [(-> & ->)|(x0 & H0 & X1 & X2 & X3 & X4 & X5)].
    + change (r_w R) with (wq_n s). rewrite Hseln. split; [exact HQR|reflexivity].
    + assert (Hc : In (q, x0) c) by (destruct c; [destruct H0|right; exact H0]). rewrite <- X1, Hsel by (eapply Hold2, Hc).
      destruct (c_tl _ _ _ C _ _ H0) as (Y1 & Y2). split; [|exact Y2]. eapply Qreq_frame; eassumption.
  - rewrite F7, F9. intros w cb' H. destruct (c_user _ _ _ C _ _ H) as (Y1 & Y2). split; [exact Y1|]. rewrite Hsel; [exact Y2|]. pose proof (contig_le _ _ _ (c_contig _ _ _ C)). lia.
  - rewrite F7. apply C.
  - rewrite F7, F9. intros w Hw Hu. rewrite Hsel; [apply (c_done _ _ _ C _ Hw Hu)|]. pose proof (contig_le _ _ _ (c_contig _ _ _ C)). lia.
  - rewrite F4. intros W q x H. destruct (Hold _ _ H) as [(-> & ->)|(x0 & H0 & _ & _ & _ & X4 & X5 & _)]; [left; reflexivity|]. rewrite <- X4, <- X5. apply (c_whole _ _ _ C W q x0 H0).
  - rewrite F9. apply wlegal_snoc; [apply C|]. cbn [wlegal e]. apply C.
  - rewrite F5, Ha. discriminate.
  - assert (Hcl : all_clean s c -> all_clean s' cn).
    { intros (H1 & H2). split.
      - rewrite F9. intros q x H. destruct (Hold _ _ H) as [(-> & ->)|(x0 & H0 & X1 & _)].
        + change (r_w R) with (wq_n s). apply clean_call. intros. apply sel_none_call, Hnone.
        + rewrite <- X1. apply clean_snoc; [discriminate|]. eapply H1, H0.
      - intros _ q x H Hx. rewrite (Hlast _ _ H Hx). unfold cn. rewrite total_snoc. cbn [R r_chain r_data].
        assert (Et : total (c' ++ [(t, rt')]) = total c) by (unfold c; rewrite !total_snoc; reflexivity). rewrite Et.
        rewrite (H2 Ha t rt); [|apply in_or_app; right; left; reflexivity|apply (links_end c' t), C].
        rewrite N.add_mod_idemp_r by discriminate. f_equal. lia. }
    assert (Hh : exists h r l r' l', c = (h, r) :: l /\ cn = (h, r') :: l' /\ r_w r = r_w r' /\ r_cb r = r_cb r' /\ r_flags r = r_flags r' /\ r_data r = r_data r' /\ r_written r = r_written r').
    { unfold c, cn. destruct c' as [|[h r] c'']; cbn [app]; [exists t, rt, [], rt', [(addr, R)]|eexists h, r, _, r, _]; repeat split. }
    destruct Hh as (h & r & l & r' & l' & E1 & E2 & X1 & X2 & X3 & X4 & X5). rewrite E2. rewrite E1 in M. cbn [mode] in *. rewrite F3, F7, F8, F9, <- X1.
    rewrite Hsel by (apply (Hold2 h); rewrite E1; left; reflexivity). rewrite <- E1 in M. rewrite <- E2.
    destruct M as [(M1 & M2 & M3 & M4 & M5)|[(M1 & M2 & M3 & M4 & M5 & M6 & M7)|(M1 & M2 & M3 & M4 & M5)]]; [left|right; left|right; right];
      (split; [exact M1|]; split; [exact M2|]; split; [exact M3|]; split; [eapply Qreq_frame; eassumption|]); auto.
Qed.
Lemma mode_nil s : mode s [] -> reqs (wq_out s) = [] /\ wq_pending s = None /\ errs (wq_stack s) = []. Proof. auto. Qed.
(** writeChain with an empty queue: directly. *)
Lemma direct_inv s k cb data flags : core s k [] -> mode s [] -> wq_alive s = true ->
  winv (enter (hold (say (mkWq (wq_heap s) (wq_tail s) (wq_pending s) (wq_whole s) (wq_alive s) (wq_n s + 1) (wq_out s) (wq_stack s) (wq_log s ++ [WCall (wq_n s) cb data flags]))
    (WPush (wq_n s) data flags)) (TUser (wq_n s) cb)) FLow).
Proof.
  intros C M Ha. pose proof (c_contig _ _ _ C) as G. cbn [contig] in G. subst k. set (w := wq_n s) in *. set (e1 := WCall w cb data flags). set (e2 := WPush w data flags).
  pose proof (c_none _ _ _ C w ltac:(lia)) as Hnone.
  assert (Hsel : forall w', w' <> w -> sel w' ((wq_log s ++ [e1]) ++ [e2]) = sel w' (wq_log s)) by (intros w' Hne; rewrite !sel_other by (cbn [about e1 e2]; congruence); reflexivity).
  assert (Hs1 : sel w (wq_log s ++ [e1]) = [e1]) by (rewrite sel_same, Hnone by reflexivity; reflexivity).
  assert (Hs2 : sel w ((wq_log s ++ [e1]) ++ [e2]) = [e1; e2]) by (rewrite sel_same, Hs1 by reflexivity; reflexivity).
  exists (w + 1), []. split; [split|]; unfold enter, hold, say; cbn [wq_heap wq_tail wq_pending wq_whole wq_alive wq_n wq_out wq_stack wq_log]; fold e1 e2.
  - apply C.
  - constructor.
  - exact Logic.I.
  - reflexivity.
  - apply (c_tail _ _ _ C).
  - intros p r [].
  - rewrite !count_snoc. cbn [is_call e1 e2]. unfold w. rewrite (c_calls _ _ _ C). lia.
  - intros w' Hw'. rewrite Hsel by lia. apply (c_none _ _ _ C). fold w. lia.
  - intros p r [].
  - intros w' cb' [H|H].
    + injection H as <- <-. split; [lia|]. rewrite Hs2. exists data, flags, [e2]. split; [reflexivity|]. split; [reflexivity|]. split; [exact (app_nil_r data)|]. repeat split.
    + destruct (c_user _ _ _ C _ _ H) as (Y1 & Y2). split; [lia|]. rewrite Hsel by lia. exact Y2.
  - cbn [users flat_map app]. constructor; [|apply C]. apply (no_user s w []); [exact C|lia].
  - cbn [users flat_map app]. intros w' Hw' Hu. rewrite Hsel by (intros ->; apply Hu; left; reflexivity). apply (c_done _ _ _ C); [|intros H; apply Hu; right; exact H].
    assert (w' <> w) by (intros ->; apply Hu; left; reflexivity). lia.
  - intros W p r [].
  - apply wlegal_snoc; [apply wlegal_snoc; [apply C|]|].
    + cbn [wlegal e1]. apply C.
    + cbn [wlegal e2]. exists cb, data, flags, []. split; [apply in_or_app; right; left; reflexivity|]. unfold pushed, outcomes, pieces, reports. rewrite Hs1, app_nil_r.
      split; [reflexivity|]. split; [left; reflexivity|]. split; [reflexivity|]. split; [reflexivity|]. split; [reflexivity|]. split; [|split].
      * intros w' cb' d' f' Hw' Hin. rewrite sel_other by (cbn [about e1]; lia). apply in_app_or in Hin. destruct Hin as [Hin|[Hin|[]]]; [|injection Hin as <- _ _ _; lia].
        destruct (before_full _ _ _ _ _ _ _ C Hw' Hin) as [X|(c0 & n & X)]; [left; exact X|]. right. exists c0, n. apply in_or_app. left. exact X.
      * intros w' Hw'. rewrite sel_other by (cbn [about e1]; lia). rewrite (c_none _ _ _ C) by (fold w; lia). reflexivity.
      * intros A w0 c0 n B E Hin. exact (clean_call w (wq_log s) cb data flags (fun _ _ _ => sel_none_call _ _ _ _ _ Hnone) A w0 c0 n B cb data flags E Hin).
  - rewrite Ha. discriminate.
  - cbn [mode reqs flat_map app errs]. exact M.
Qed.
(** and queued. *)
Lemma first_core s k cb data flags addr : core s k [] -> mode s [] -> wq_alive s = true ->
  let R := mkReq (wq_n s) cb true data None 0 flags (blen data mod 2 ^ 64) in
  let s1 := set_tail (put (mkWq (wq_heap s) (wq_tail s) (wq_pending s) (wq_whole s) (wq_alive s) (wq_n s + 1) (wq_out s) (wq_stack s) (wq_log s ++ [WCall (wq_n s) cb data flags])) addr (Some R)) (Some addr) in
  core s1 (wq_n s) [(addr, R)] /\ Qreq R false (sel (r_w R) (wq_log s1)) /\ all_clean s1 [(addr, R)].
Proof.
  intros C M Ha R s1. pose proof (c_contig _ _ _ C) as G. cbn [contig] in G. subst k. set (w := wq_n s) in *. set (e1 := WCall w cb data flags).
  pose proof (c_none _ _ _ C w ltac:(lia)) as Hnone.
  assert (Hsel : forall w', w' <> w -> sel w' (wq_log s ++ [e1]) = sel w' (wq_log s)) by (intros w' Hne; rewrite !sel_other by (cbn [about e1]; congruence); reflexivity).
  assert (Hs1 : sel w (wq_log s ++ [e1]) = [e1]) by (rewrite sel_same, Hnone by reflexivity; reflexivity).
  assert (HQR : Qreq R false [e1]) by (exists data, []; cbn [R r_w r_cb r_flags r_data r_written]; cbv; auto 10).
  split; [split|split]; unfold s1, set_tail, put; cbn [wq_heap wq_tail wq_pending wq_whole wq_alive wq_n wq_out wq_stack wq_log]; fold e1.
  - intros q x. unfold hset. cbn [In]. destruct (N.eqb_spec q addr) as [->|Ne].
    + split; [intros [= ->]; left; reflexivity|]. intros [X|[]]. congruence.
    + split; [intros X; apply (c_heap _ _ _ C) in X; destruct X|]. intros [X|[]]. congruence.
  - constructor; [intros []|constructor].
  - split; [reflexivity|exact Logic.I].
  - split; reflexivity.
  - reflexivity.
  - rewrite Ha. intros p r [X|[]]. injection X as <- <-. reflexivity.
  - rewrite !count_snoc. cbn [is_call e1]. unfold w. rewrite (c_calls _ _ _ C). lia.
  - intros w' Hw'. rewrite Hsel by lia. apply (c_none _ _ _ C). fold w. lia.
  - intros p r [].
  - intros w' cb' H. destruct (c_user _ _ _ C _ _ H) as (Y1 & Y2). split; [lia|]. rewrite Hsel by lia. exact Y2.
  - apply C.
  - intros w' Hw' Hu. rewrite Hsel by lia. apply (c_done _ _ _ C _ Hw' Hu).
  - intros W p r [X|[]]. injection X as <- <-. left. reflexivity.
  - apply wlegal_snoc; [apply C|]. cbn [wlegal e1]. apply C.
  - rewrite Ha. discriminate.
  - change (r_w R) with w. rewrite Hs1. exact HQR.
  - split; unfold s1, set_tail, put; cbn [wq_alive wq_log].
    + intros p r [X|[]]. injection X as <- <-. apply clean_call. intros. apply sel_none_call, Hnone.
    + intros _ p r [X|[]] _. injection X as <- <-. cbn [R r_chain]. unfold total. cbn [map fold_right snd r_data]. rewrite N.add_0_r. reflexivity.
Qed.
Lemma write_inv s cb data flags shared buffering early addr : winv s -> wq_alive s = true -> wq_heap s addr = None ->
  exists s', writeChain s cb data flags shared buffering early addr = Ok s' /\ winv s'.
Proof.
  intros (k & c & C & M) Ha Hf. unfold writeChain. cbv zeta. cbn [wq_tail wq_whole]. pose proof (c_tail _ _ _ C Ha) as Ht. rewrite Ht. destruct (chain_end c) as [->|(c' & t & rt & ->)].
  - change (last_addr []) with (@None N) in *. cbv iota beta. match goal with |- context [if ?b then _ else _] => destruct b end.
    + destruct (first_core s k cb data flags addr C M Ha) as (C1 & HQ & Hcl). destruct (mode_nil _ M) as (M1 & M2 & M3). rewrite Ht in C1, HQ, Hcl.
      apply (start_inv _ _ _ _ _ C1); assumption.
    + eexists. split; [reflexivity|]. pose proof (direct_inv s k cb data flags C M Ha) as X. rewrite Ht in X. exact X.
  - rewrite last_snoc in *. cbv iota beta. assert (X : wq_heap s t = Some rt) by (apply (c_heap _ _ _ C); apply in_or_app; right; left; reflexivity).
    unfold obj at 1. cbn [wq_heap]. rewrite X. cbn [bind]. rewrite (links_end c' t rt (c_links _ _ _ C)). cbn [bind].
    destruct (append_inv s k c' t rt cb data flags addr C M Ha Hf) as (s' & E & Hi). cbv zeta in E. rewrite Ht in E. exists s'. rewrite E. auto.
Qed.
Lemma succs_may_die l : forallb may_die l = true -> succs l = [].
Proof. induction l as [|f l IH]; [reflexivity|]. cbn [forallb]. intros H. apply andb_true_iff in H. destruct H as [H1 H2]. destruct f; try discriminate H1; cbn [succs flat_map app]; apply IH, H2. Qed.
Lemma destroy_inv s : winv s -> wq_alive s = true -> forallb may_die (wq_stack s) = true -> exists s', destruct s = Ok s' /\ winv s'.
Proof.
  intros (k & c & C & M) Ha Hd. unfold destruct. cbv zeta. rewrite (c_tail _ _ _ C Ha).
  assert (Hns : forall x, hd_error (succs (wq_stack s)) <> Some x) by (rewrite (succs_may_die _ Hd); discriminate).
  destruct (chain_end c) as [->|(c' & t & rt & ->)].
  - change (last_addr []) with (@None N). eexists. split; [reflexivity|]. exists k, []. split; [|exact M].
    destruct C. split; cbn [wq_heap wq_tail wq_pending wq_whole wq_alive wq_n wq_out wq_stack wq_log]; try assumption; try discriminate; try (intros p r []). intros _. exact Hd.
  - rewrite last_snoc. assert (X : wq_heap s t = Some rt) by (apply (c_heap _ _ _ C); apply in_or_app; right; left; reflexivity). unfold obj. rewrite X. cbn [bind].
    set (rt' := mkReq (r_w rt) (r_cb rt) false (r_data rt) (r_next rt) (r_written rt) (r_flags rt) (r_chain rt)). eexists. split; [reflexivity|].
    set (c := c' ++ [(t, rt)]) in *. set (cn := c' ++ [(t, rt')]).
    assert (Hin : forall q x, In (q, x) cn -> exists x0, In (q, x0) c /\ r_w x0 = r_w x /\ r_cb x0 = r_cb x /\ r_flags x0 = r_flags x /\ r_data x0 = r_data x /\ r_written x0 = r_written x).
    { intros q x H. apply in_app_or in H. destruct H as [H|[H|[]]].
      - exists x. split; [apply in_or_app; left; exact H|auto 10].
      - injection H as <- <-. exists rt. split; [apply in_or_app; right; left; reflexivity|]. repeat split. }
    assert (Hlk : links cn) by (apply (links_repl c' t rt rt' []); [reflexivity|apply C]).
    assert (Hnd : NoDup (map fst cn)) by (unfold cn; rewrite map_app; pose proof (c_nodup _ _ _ C) as X0; unfold c in X0; rewrite map_app in X0; exact X0).
    assert (Hheap : forall q x, hset (wq_heap s) t (Some rt') q = Some x <-> In (q, x) cn) by exact (hset_repl (wq_heap s) c c' t rt [] rt' (c_heap _ _ _ C) (c_nodup _ _ _ C) eq_refl).
    exists k, cn. split; [split|]; unfold put; cbn [wq_heap wq_tail wq_pending wq_whole wq_alive wq_n wq_out wq_stack wq_log].
    + exact Hheap.
    + exact Hnd.
    + exact Hlk.
    + apply (contig_repl _ _ c' t rt rt' []); [reflexivity|apply C].
    + discriminate.
    + intros q x H Hx. pose proof (links_last _ _ _ Hlk H Hnd Hx) as Y. unfold cn in Y. rewrite last_snoc in Y. injection Y as <-. apply Hheap in H.
      unfold hset in H. rewrite N.eqb_refl in H. injection H as <-. reflexivity.
    + apply C.
    + apply C.
    + intros q x H. assert (H' : exists x0, In (q, x0) (tl c) /\ r_w x0 = r_w x /\ r_cb x0 = r_cb x /\ r_flags x0 = r_flags x /\ r_data x0 = r_data x /\ r_written x0 = r_written x).
      { unfold cn, c in *. destruct c' as [|y c']; cbn [app tl] in *; [destruct H|]. apply in_app_or in H. destruct H as [H|[H|[]]].
        - exists x. split; [apply in_or_app; left; exact H|auto 10].
        - injection H as <- <-. exists rt. split; [apply in_or_app; right; left; reflexivity|]. repeat split. }
      destruct H' as (x0 & H0 & X1 & X2 & X3 & X4 & X5). destruct (c_tl _ _ _ C _ _ H0) as (Y1 & Y2). rewrite <- X1. split; [|exact Y2]. eapply Qreq_frame; eassumption.
    + apply C.
    + apply C.
    + apply C.
    + intros W q x H. destruct (Hin _ _ H) as (x0 & H0 & _ & _ & _ & X4 & X5). rewrite <- X4, <- X5. apply (c_whole _ _ _ C W q x0 H0).
    + apply C.
    + intros _. exact Hd.
    + assert (Hcl : all_clean s c -> forall s2, wq_log s2 = wq_log s -> wq_alive s2 = false -> all_clean s2 cn).
      { intros (H1 & _) s2 E1 E2. split; [|rewrite E2; discriminate]. rewrite E1. intros q x H. destruct (Hin _ _ H) as (x0 & H0 & X1 & _). rewrite <- X1. eapply H1, H0. }
      assert (Hh : exists h r l r' l', c = (h, r) :: l /\ cn = (h, r') :: l' /\ r_w r = r_w r' /\ r_cb r = r_cb r' /\ r_flags r = r_flags r' /\ r_data r = r_data r' /\ r_written r = r_written r').
      { unfold c, cn. destruct c' as [|[h r] c'']; cbn [app]; [exists t, rt, [], rt', []|eexists h, r, _, r, _]; repeat split. }
      destruct Hh as (h & r & l & r' & l' & E1 & E2 & X1 & X2 & X3 & X4 & X5). rewrite E2. rewrite E1 in M. cbn [mode] in *. cbn [wq_heap wq_tail wq_pending wq_whole wq_alive wq_n wq_out wq_stack wq_log]. rewrite <- X1. rewrite <- E1 in M. rewrite <- E2.
      destruct M as [(M1 & M2 & M3 & M4 & M5)|[(M1 & M2 & M3 & M4 & M5 & M6 & M7)|(M1 & M2 & M3 & M4 & M5)]]; [left|right; left|right; right];
        (split; [exact M1|]; split; [exact M2|]; split; [exact M3|]; split; [eapply Qreq_frame; eassumption|]).
      * apply Hcl; [exact M5|reflexivity|reflexivity].
      * exfalso. eapply Hns, M7.
      * exact M5.
Qed.
Lemma return_inv s f stk : winv s -> wq_stack s = f :: stk -> exists s', wstep s MReturn = Ok s' /\ winv s'.
Proof.
  intros (k & c & C & M) Es. cbn [wstep]. rewrite Es. cbv zeta.
  assert (Hd : wq_alive s = false -> forallb may_die stk = true) by (intros H; pose proof (c_dead _ _ _ C H) as X; rewrite Es in X; eapply dead_tail, X).
  assert (Hq : errs (f :: stk) = errs stk -> succs (f :: stk) = succs stk -> core (leave s stk) k c /\ mode (leave s stk) c).
  { intros E1 E2. apply (quiet s (leave s stk) k c C M); try reflexivity; unfold leave; cbn [wq_stack]; rewrite ?Es; [symmetry; exact E1|symmetry; exact E2|exact Hd]. }
  assert (C1 : core (leave s stk) k c) by (eapply core_ext; [exact C|reflexivity..|left; reflexivity|auto|reflexivity|exact Hd]).
  destruct f as [| |next|[n|]| |].
  - eexists. split; [reflexivity|]. exists k, c. apply Hq; reflexivity.
  - eexists. split; [reflexivity|]. exists k, c. apply Hq; reflexivity.
  - (* FSucc *)
    assert (Ha : wq_alive s = true). { destruct (wq_alive s) eqn:Ha; [reflexivity|]. pose proof (c_dead _ _ _ C Ha) as X. rewrite Es in X. discriminate. }
    unfold afterSuccess, base. change (wq_alive (leave s stk)) with (wq_alive s). rewrite Ha. cbn [bind]. change (wq_pending (leave s stk)) with (wq_pending s).
    destruct c as [|[h r] l]; cbn [mode] in M.
    + destruct M as (M1 & M2 & M3). rewrite M2. exists (leave s stk). split; [destruct next; reflexivity|]. exists k, []. split; [exact C1|]. cbn [mode leave wq_out wq_pending wq_stack].
      split; [exact M1|]. split; [exact M2|]. rewrite Es in M3. exact M3.
    + destruct M as [(M1 & M2 & M3 & M4 & M5)|[(M1 & M2 & M3 & M4 & M5 & M6 & M7)|(M1 & M2 & M3 & M4 & M5)]].
      * rewrite M2. exists (leave s stk). split; [destruct next; reflexivity|]. exists k, ((h, r) :: l). split; [exact C1|]. cbn [mode leave wq_out wq_pending wq_stack wq_log]. left. rewrite Es in M3.
        split; [exact M1|]. split; [exact M2|]. split; [exact M3|]. split; [exact M4|exact M5].
      * rewrite Es in M7, M3. cbn [succs flat_map app hd_error] in M7. injection M7 as ->. rewrite M2, N.eqb_refl.
        assert (C2 : core (set_pending (leave s stk) None) k ((h, r) :: l)) by (eapply core_ext; [exact C1|reflexivity..|left; reflexivity|auto|reflexivity|exact Hd]).
        apply (start_inv _ _ _ _ _ C2); try assumption. reflexivity.
      * rewrite M2. exists (leave s stk). split; [destruct next; reflexivity|]. exists k, ((h, r) :: l). split; [exact C1|]. cbn [mode leave wq_out wq_pending wq_stack wq_log]. right. right. rewrite Es in M3. auto.
  - (* FErr *) cbv iota beta. destruct c as [|[h r] l]; cbn [mode] in M; rewrite Es in M; cbn [errs flat_map app] in M; [destruct M as (_ & _ & M); discriminate|].
    destruct M as [(_ & _ & M & _)|[(_ & _ & M & _)|(M1 & M2 & M3 & M4 & M5)]]; [discriminate..|]. injection M3 as -> M3. apply (err_inv _ k h r l C1); [exact M1|exact M2|exact M3|eapply Qreq_live, M4].
  - eexists. split; [reflexivity|]. exists k, c. apply Hq; reflexivity.
  - cbv iota beta. apply fail_inv; [|exists k, c; apply Hq; reflexivity]. change (wq_alive s = true). destruct (wq_alive s) eqn:Ha; [reflexivity|]. pose proof (c_dead _ _ _ C Ha) as X. rewrite Es in X. discriminate.
  - eexists. split; [reflexivity|]. exists k, c. apply Hq; reflexivity.
Qed.
Lemma init_inv whole : winv (wq_init whole).
Proof.
  exists 0, []. split; [|cbn; auto]. split; cbn [wq_init wq_heap wq_tail wq_pending wq_whole wq_alive wq_n wq_out wq_stack wq_log]; try reflexivity.
  - split; [discriminate|intros []].
  - constructor.
  - intros p r [].
  - intros p r [].
  - intros w cb [].
  - constructor.
  - intros w H. lia.
  - intros _ p r [].
  - intros L1 e L2 H. destruct L1; discriminate H.
Qed.
Lemma step_inv s m : winv s -> allowed s m -> exists s', wstep s m = Ok s' /\ winv s'.
Proof.
  intros H Hm. destruct m as [cb data flags shared buffering early addr|t ok|reader| |]; cbn [allowed] in Hm.
  - destruct Hm as [Ha Hf]. cbn [wstep]. apply write_inv; assumption.
  - destruct Hm as [Hin Ha]. destruct t as [w cb|p]; [apply user_report_inv; assumption|apply report_inv; assumption].
  - destruct reader; cbn [wstep]; [|apply fail_inv; assumption]. exists (enter s FRead). split; [reflexivity|]. destruct H as (k & c & C & M). exists k, c.
    apply (quiet s (enter s FRead) k c C M); try reflexivity. intros X. congruence.
  - destruct (wq_stack s) as [|f stk] eqn:E; [congruence|]. eapply return_inv, E. exact H.
  - destruct Hm as [Ha Hd]. cbn [wstep]. apply destroy_inv; assumption.
Qed.
Lemma hist_inv whole s : whist whole s -> winv s.
Proof. induction 1 as [|s m s' Hs IH Ha E]; [apply init_inv|]. destruct (step_inv s m IH Ha) as (s2 & E2 & H). congruence. Qed.

(** ** Theorems *)
(** Whatever the user and the layers below do, and however calls nest: every event of every history is legal. *)
Theorem C69_history whole s : whist whole s -> wlegal_log (wq_log s).
Proof. intros H. destruct (hist_inv _ _ H) as (k & c & C & _). apply C. Qed.
(** No check fails and no deleted object is used. *)
Theorem C69_safe whole s m : whist whole s -> allowed s m -> exists s', wstep s m = Ok s'.
Proof. intros H Ha. destruct (step_inv s m (hist_inv _ _ H) Ha) as (s' & E & _). eauto. Qed.
(** When the layers below have reported on everything they hold and all calls have returned, every write has had its one outcome. *)
Theorem C69_done whole s w cb d f : whist whole s -> wq_out s = [] -> wq_stack s = [] -> In (WCall w cb d f) (wq_log s) -> outcomes w (wq_log s) = 1%nat.
Proof.
  intros H Ho Hs Hin. destruct (hist_inv _ _ H) as (k & c & C & M).
  assert (Hc : c = []).
  { destruct c as [|[h r] l]; [reflexivity|]. cbn [mode] in M. rewrite Ho, Hs in M. cbn in M. destruct M as [(M & _)|[(_ & _ & _ & _ & _ & _ & M)|(_ & _ & M & _)]]; discriminate M. }
  subst c. pose proof (c_contig _ _ _ C) as G. cbn [contig] in G. subst k.
  assert (Hw : w < wq_n s). { destruct (N.lt_ge_cases w (wq_n s)) as [X|X]; [exact X|]. apply (c_none _ _ _ C) in X. assert (Y : In (WCall w cb d f) (sel w (wq_log s))) by (apply sel_In; auto). rewrite X in Y. destruct Y. }
  destruct (c_done _ _ _ C w Hw) as (cb' & d' & f' & es' & _ & _ & X & _); [rewrite Ho; intros []|]. exact X.
Qed.
(** At most one piece of queued data is with the layers below. *)
Theorem C69_one whole s : whist whole s -> (length (filter is_req (wq_out s)) <= 1)%nat.
Proof.
  intros H. destruct (hist_inv _ _ H) as (k & c & C & M).
  assert (E : forall l, length (filter is_req l) = length (reqs l)) by (induction l as [|[w cb|p] l IH]; cbn; [reflexivity|exact IH|f_equal; exact IH]).
  rewrite E. destruct c as [|[h r] l]; cbn [mode] in M; [destruct M as (-> & _); cbn; lia|]. destruct M as [(-> & _)|[(-> & _)|(-> & _)]]; cbn; lia.
Qed.

(** *** getAppBytesBuffered *)
Definition cost (L : list wev) (e : wev) : N := match e with WCall w _ d _ => if Nat.eqb (outcomes w L) 0 then blen d - blen (pushed w L) else 0 | _ => 0 end.
Definition nsum (f : wev -> N) (l : list wev) : N := fold_right N.add 0 (map f l).
Lemma nsum_sel f w l : nsum f l = nsum f (sel w l) + nsum f (filter (fun e => negb (about e =? w)) l).
Proof. unfold nsum. induction l as [|e l IH]; [reflexivity|]. cbn [map fold_right sel filter]. rewrite IH. fold (sel w l). destruct (about e =? w); cbn [negb map fold_right]; lia. Qed.
Lemma sel_filter w v l : w <> v -> sel w (filter (fun e => negb (about e =? v)) l) = sel w l.
Proof.
  intros H. unfold sel. induction l as [|e l IH]; [reflexivity|]. cbn [filter]. destruct (N.eqb_spec (about e) v) as [E|E]; cbn [negb filter]; rewrite ?IH; [|reflexivity].
  destruct (N.eqb_spec (about e) w); [congruence|reflexivity].
Qed.
Lemma nsum_all f m : forall l, (forall e, In e l -> about e < N.of_nat m) -> nsum f l = fold_right N.add 0 (map (fun i => nsum f (sel (N.of_nat i) l)) (seq 0 m)).
Proof.
  induction m as [|m IH]; intros l H.
  - destruct l as [|e l]; [reflexivity|]. specialize (H e (or_introl eq_refl)). lia.
  - rewrite (nsum_sel f (N.of_nat m) l), (IH (filter (fun e => negb (about e =? N.of_nat m)) l)).
    + rewrite seq_S, map_app, fold_right_app. cbn [map fold_right Nat.add].
      assert (E : map (fun i => nsum f (sel (N.of_nat i) (filter (fun e => negb (about e =? N.of_nat m)) l))) (seq 0 m) = map (fun i => nsum f (sel (N.of_nat i) l)) (seq 0 m)).
      { apply map_ext_in. intros i Hi. apply in_seq in Hi. rewrite sel_filter by lia. reflexivity. }
      rewrite E. clear E. generalize (map (fun i => nsum f (sel (N.of_nat i) l)) (seq 0 m)) (nsum f (sel (N.of_nat m) l)). intros xs y. induction xs as [|x xs IHx]; cbn [fold_right]; lia.
    + intros e He. apply filter_In in He. destruct He as [He Hb]. specialize (H e He). apply negb_true_iff, N.eqb_neq in Hb. lia.
Qed.
Lemma nsum_call L w cb d f es : count is_call es = 0%nat -> nsum (cost L) (WCall w cb d f :: es) = cost L (WCall w cb d f).
Proof.
  intros H. unfold nsum. cbn [map fold_right]. assert (E : fold_right N.add 0 (map (cost L) es) = 0); [|lia].
  revert H. unfold count. induction es as [|e es IH]; [reflexivity|]. cbn [filter]. destruct e; cbn [is_call length map fold_right cost]; intros H; try discriminate H; rewrite IH by exact H; reflexivity.
Qed.
Lemma unsent_total s k c : core s k c -> (forall h r l, c = (h, r) :: l -> exists o, Qreq r o (sel (r_w r) (wq_log s))) -> unsent (wq_log s) = total c.
Proof.
  intros C Hh. set (L := wq_log s). set (v := fun w => nsum (cost L) (sel w L)).
  assert (Hcall : forall w cb d f es, sel w L = WCall w cb d f :: es -> count is_call es = 0%nat -> v w = if Nat.eqb (count is_outcome (sel w L)) 0 then blen d - blen (bytes_of (sel w L)) else 0).
  { intros w cb d f es E Hc. unfold v. rewrite E at 1. rewrite nsum_call by exact Hc. reflexivity. }
  assert (Hreq : forall p r, In (p, r) c -> v (r_w r) = blen (r_data r)).
  { intros p r Hin. assert (Q : exists o, Qreq r o (sel (r_w r) L)).
    { destruct c as [|[h r0] l]; [destruct Hin|]. destruct Hin as [Hin|Hin]; [injection Hin as -> ->; eapply Hh; reflexivity|]. exists false. apply (c_tl _ _ _ C p r). exact Hin. }
    destruct Q as (o & d & es' & A & B & D & _ & E & _). rewrite (Hcall _ _ _ _ _ A B), E. cbn [Nat.eqb]. rewrite D at 1. rewrite blen_app. lia. }
  assert (Hlow : forall w, w < k -> v w = 0).
  { intros w Hw. destruct (in_dec N.eq_dec w (users (wq_out s))) as [Hu|Hu].
    - apply users_in in Hu. destruct Hu as (cb & Hu). destruct (c_user _ _ _ C _ _ Hu) as (_ & d & f & es' & A & B & D & E & _). rewrite (Hcall _ _ _ _ _ A B). fold L in E, D. rewrite E, D. cbn [Nat.eqb]. lia.
    - destruct (c_done _ _ _ C w Hw Hu) as (cb & d & f & es' & A & B & D & _). rewrite (Hcall _ _ _ _ _ A B). fold L in D. rewrite D. reflexivity. }
  assert (Hab : forall e, In e L -> about e < wq_n s).
  { intros e He. destruct (N.lt_ge_cases (about e) (wq_n s)) as [X|X]; [exact X|]. apply (c_none _ _ _ C) in X. assert (Y : In e (sel (about e) L)) by (apply sel_In; auto). fold L in X. rewrite X in Y. destruct Y. }
  change (unsent L) with (nsum (cost L) L).
  rewrite (nsum_all (cost L) (N.to_nat (wq_n s)) L) by (intros e He; rewrite N2Nat.id; apply Hab, He).
  pose proof (c_contig _ _ _ C) as G. pose proof (contig_le _ _ _ G) as Gl.
  replace (N.to_nat (wq_n s)) with (N.to_nat k + N.to_nat (wq_n s - k))%nat by lia. rewrite seq_app, map_app, fold_right_app.
  assert (E2 : forall (c1 : list (N * req)) k1, contig (wq_n s) k1 c1 -> (forall p r, In (p, r) c1 -> v (r_w r) = blen (r_data r)) ->
      fold_right N.add 0 (map (fun i => v (N.of_nat i)) (seq (N.to_nat k1) (N.to_nat (wq_n s - k1)))) = total c1).
  { induction c1 as [|[p r] c1 IH]; intros k1 H1 H2.
    - cbn [contig] in H1. subst k1. rewrite N.sub_diag. reflexivity.
    - cbn [contig] in H1. destruct H1 as [H1 H3]. pose proof (contig_le _ _ _ H3). replace (N.to_nat (wq_n s - k1)) with (S (N.to_nat (wq_n s - (k1 + 1)))) by lia. cbn [seq map fold_right].
      replace (S (N.to_nat k1)) with (N.to_nat (k1 + 1)) by lia. rewrite (IH _ H3) by (intros q x Hx; eapply H2; right; exact Hx). rewrite N2Nat.id, <- H1, (H2 p r) by (left; reflexivity). reflexivity. }
  cbn [Nat.add]. change (fun i => nsum (cost L) (sel (N.of_nat i) L)) with (fun i => v (N.of_nat i)). rewrite (E2 c k G Hreq).
  assert (E3 : forall m, N.of_nat m <= k -> fold_right N.add (total c) (map (fun i => v (N.of_nat i)) (seq 0 m)) = total c).
  { induction m as [|m IH]; intros Hm; [reflexivity|]. rewrite seq_S, map_app, fold_right_app. cbn [map fold_right Nat.add]. rewrite Hlow by lia. rewrite N.add_0_l. apply IH. lia. }
  apply E3. lia.
Qed.
(** The bytes the queue reports are those of unfinished writes that have not been handed down, except while errors are being delivered. *)
Theorem C69_buffered whole s : whist whole s -> wq_alive s = true -> (forall n, ~ In (FErr (Some n)) (wq_stack s)) -> queueBuffered s = Ok (unsent (wq_log s) mod 2 ^ 64).
Proof.
  intros H Ha Hn. destruct (hist_inv _ _ H) as (k & c & C & M).
  assert (He : errs (wq_stack s) = []).
  { induction (wq_stack s) as [|f l IH]; [reflexivity|]. destruct f as [| | |[n|]| |]; cbn [errs flat_map app]; try (apply IH; intros n0 X; apply (Hn n0); right; exact X). exfalso. apply (Hn n). left. reflexivity. }
  rewrite (unsent_total s k c C).
  - unfold queueBuffered. rewrite (c_tail _ _ _ C Ha). destruct (chain_end c) as [->|(c' & t & rt & Ec)]; [reflexivity|]. rewrite Ec at 1. rewrite last_snoc.
    assert (X : In (t, rt) c) by (rewrite Ec; apply in_or_app; right; left; reflexivity). unfold obj. rewrite (proj2 (c_heap _ _ _ C t rt) X). cbn [bind]. f_equal.
    assert (Hcl : all_clean s c). { destruct c as [|[h r] l]; [destruct X|]. cbn [mode] in M. destruct M as [(_ & _ & _ & _ & M)|[(_ & _ & _ & _ & _ & M & _)|(_ & _ & M & _)]]; [exact M|exact M|congruence]. }
    destruct Hcl as (_ & Hcl). apply (Hcl Ha t rt X). apply (links_end c' t rt). rewrite <- Ec. apply C.
  - intros h r l ->. cbn [mode] in M. destruct M as [(_ & _ & _ & M & _)|[(_ & _ & _ & M & _)|(_ & _ & _ & M & _)]]; eauto.
Qed.

(** *** Large writes are split *)
(** Histories in which every buffer written is shared, and every write is made after the handshake. *)
Definition splittable (m : move) : Prop := match m with MWrite _ _ _ shared _ early _ => shared = true /\ early = false | _ => True end.
Inductive whist_shared (whole : bool) : wq -> Prop :=
| ws_init : whist_shared whole (wq_init whole)
| ws_step s m s' : whist_shared whole s -> allowed s m -> splittable m -> wstep s m = Ok s' -> whist_shared whole s'.
Lemma ws_hist whole s : whist_shared whole s -> whist whole s.
Proof. induction 1 as [|s m s' Hs IH Ha _ E]; [constructor|]. eapply wh_step; eassumption. Qed.
Definition small (s s' : wq) : Prop := wq_whole s' = wq_whole s /\ (wq_whole s = false -> forall w b f, In (WPush w b f) (wq_log s') -> In (WPush w b f) (wq_log s) \/ blen b <= 131072).
Lemma small_refl s s' : wq_whole s' = wq_whole s -> wq_log s' = wq_log s -> small s s'.
Proof. intros E1 E2. split; [exact E1|]. intros _ w b f H. rewrite E2 in H. auto. Qed.
Lemma small_say s s' e : wq_whole s' = wq_whole s -> wq_log s' = wq_log s ++ [e] -> is_push e = false -> small s s'.
Proof. intros E1 E2 He. split; [exact E1|]. intros _ w b f H. rewrite E2 in H. apply in_app_or in H. destruct H as [H|[H|[]]]; [auto|]. subst e. discriminate He. Qed.
Lemma small_trans a b c : small a b -> small b c -> small a c.
Proof. intros [E1 H1] [E2 H2]. split; [congruence|]. intros W w d f H. rewrite E1 in H2. destruct (H2 W w d f H) as [X|X]; [apply H1; assumption|auto]. Qed.
Lemma small_start s p s' : startWriting s p = Ok s' -> small s s'.
Proof.
  unfold startWriting. intros H. apply bind_Ok in H. destruct H as (r & _ & H). apply bind_Ok in H. destruct H as (? & _ & H). destruct (split (wq_whole s) (r_data r)) as [buf rest] eqn:Es. cbv zeta in H.
  apply bind_Ok in H. destruct H as (? & _ & H). apply bind_Ok in H. destruct H as (t & _ & H). apply bind_Ok in H. destruct H as (rt & _ & H). injection H as <-.
  split; [reflexivity|]. intros W w b f Hin. cbn in Hin. apply in_app_or in Hin. destruct Hin as [Hin|[Hin|[]]]; [auto|]. right. injection Hin as _ <- _. unfold split in Es. rewrite W in Es. injection Es as <- _.
  rewrite blen_takeN. unfold kPartialWriteThreshold. lia.
Qed.
Lemma small_adv s p s' : advanceOnBase s p = Ok s' -> small s s'.
Proof.
  unfold advanceOnBase. intros H. apply bind_Ok in H. destruct H as (r & _ & H). destruct (r_next r); [injection H as <-; apply small_refl; reflexivity|]. destruct (r_base r); [|injection H as <-; apply small_refl; reflexivity].
  apply bind_Ok in H. destruct H as (? & _ & H). destruct (wq_tail s) as [t|]; [|discriminate H]. destruct (t =? p); [|discriminate H]. injection H as <-. apply small_refl; reflexivity.
Qed.
Lemma small_err s p s' : reqErr s p = Ok s' -> small s s'.
Proof.
  unfold reqErr. intros H. apply bind_Ok in H. destruct H as (r & _ & H). apply bind_Ok in H. destruct H as (s1 & H1 & H). injection H as <-. eapply small_trans; [eapply small_adv, H1|].
  eapply small_say; reflexivity.
Qed.
Lemma small_fail s s' : failPending s = Ok s' -> small s s'.
Proof.
  unfold failPending. cbv zeta. destruct (wq_pending (enter s FAfter)); intros H; [|injection H as <-; apply small_refl; reflexivity].
  eapply small_trans; [|eapply small_err, H]. apply small_refl; reflexivity.
Qed.
Lemma small_step s m s' : splittable m -> wstep s m = Ok s' -> small s s'.
Proof.
  intros Hm H. destruct m as [cb data flags shared buffering early addr|t ok|reader| |]; cbn [wstep splittable] in *.
  - destruct Hm as [-> ->]. unfold writeChain in H. cbv zeta in H. cbn [wq_tail wq_whole] in H. destruct (wq_tail s) as [t|] eqn:Et.
    + apply bind_Ok in H. destruct H as (rt & _ & H). apply bind_Ok in H. destruct H as (? & _ & H). injection H as <-. eapply small_say; reflexivity.
    + rewrite !andb_true_r in H. destruct (negb (wq_whole s) && (kPartialWriteThreshold <? blen data) || buffering) eqn:En.
      * apply small_start in H. eapply small_trans; [|exact H]. eapply small_say; reflexivity.
      * injection H as <-. split; [reflexivity|]. intros W w b f Hin. cbn in Hin. rewrite W in En. cbn [negb andb] in En. apply orb_false_iff in En. destruct En as [En _]. apply N.ltb_ge in En.
        apply in_app_or in Hin. destruct Hin as [Hin|[Hin|[]]]; [|injection Hin as _ <- _; right; exact En]. apply in_app_or in Hin. destruct Hin as [Hin|[Hin|[]]]; [auto|discriminate Hin].
  - destruct t as [w cb|p].
    + injection H as <-. eapply small_trans; [eapply (small_say s (say (release s (TUser w cb)) (WLow w ok))); reflexivity|]. destruct ok; eapply small_say; reflexivity.
    + apply bind_Ok in H. destruct H as (r & _ & H). set (s1 := say (release s (TReq p)) (WLow (r_w r) ok)) in *. apply (small_trans s s1); [eapply small_say; reflexivity|]. destruct ok; [|eapply small_err, H].
      unfold reqSuccess in H. apply bind_Ok in H. destruct H as (r1 & _ & H). destruct (r_data r1); [|eapply small_start, H]. apply bind_Ok in H. destruct H as (s2 & H2 & H). cbv zeta in H.
      apply bind_Ok in H. destruct H as (? & _ & H). destruct (wq_pending (put s2 p None)); [discriminate H|]. injection H as <-. eapply small_trans; [eapply small_adv, H2|]. eapply small_say; reflexivity.
  - destruct reader; [injection H as <-; apply small_refl; reflexivity|eapply small_fail, H].
  - destruct (wq_stack s) as [|f stk]; [injection H as <-; apply small_refl; reflexivity|]. cbv zeta in H. destruct f as [| |next|[n|]| |]; try (injection H as <-; apply small_refl; reflexivity).
    + unfold afterSuccess in H. apply bind_Ok in H. destruct H as (? & _ & H). destruct next as [n|]; [|injection H as <-; apply small_refl; reflexivity]. cbn [wq_pending leave] in H.
      destruct (wq_pending s) as [q|]; [|injection H as <-; apply small_refl; reflexivity]. destruct (q =? n); [|injection H as <-; apply small_refl; reflexivity]. eapply small_trans; [|eapply small_start, H]. apply small_refl; reflexivity.
    + eapply small_trans; [|eapply small_err, H]. apply small_refl; reflexivity.
    + eapply small_trans; [|eapply small_fail, H]. apply small_refl; reflexivity.
  - unfold destruct in H. cbv zeta in H. destruct (wq_tail s); [|injection H as <-; apply small_refl; reflexivity]. apply bind_Ok in H. destruct H as (r & _ & H). injection H as <-. apply small_refl; reflexivity.
Qed.
(** Then no more than 128 KiB are handed down at a time. *)
Theorem C69_split s w b f : whist_shared false s -> In (WPush w b f) (wq_log s) -> blen b <= 131072.
Proof.
  intros H. assert (G : wq_whole s = false /\ forall w b f, In (WPush w b f) (wq_log s) -> blen b <= 131072); [|destruct G as [_ G]; intros Hin; eapply G, Hin].
  clear w b f. induction H as [|s m s' _ (IH1 & IH2) _ Hm E]; [split; [reflexivity|intros w b f []]|].
  destruct (small_step _ _ _ Hm E) as [S1 S2]. split; [congruence|]. intros w b f Hin. destruct (S2 IH1 w b f Hin) as [X|X]; [eapply IH2, X|exact X].
Qed.
