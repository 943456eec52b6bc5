(** * C30: certificate selection *)
From Verif Require Import Base CertManager CertSpec.
Open Scope N_scope.

(** ** Maps *)
Lemma lookup_update {A} k k' (v : A) l : lookup k (update k' v l) = if bytes_eqb k' k then Some v else lookup k l.
Proof.
  induction l as [|[x y] l IH]; cbn [update lookup]; [reflexivity|].
  destruct (bytes_eqb x k') eqn:E1; cbn [lookup].
  - apply bytes_eqb_eq in E1. subst. destruct (bytes_eqb k' k); reflexivity.
  - rewrite IH. destruct (bytes_eqb k' k) eqn:E2; [|reflexivity]. apply bytes_eqb_eq in E2. subst. rewrite E1. reflexivity.
Qed.
Lemma lookup_app {A} k (a b : list (bytes * A)) : lookup k (a ++ b) = match lookup k a with Some v => Some v | None => lookup k b end.
Proof. induction a as [|[x y] a IH]; [reflexivity|]. cbn [app lookup]. destruct (bytes_eqb x k); [reflexivity|exact IH]. Qed.
Lemma lookupS_app s a b : lookupS s (a ++ b) = match lookupS s a with Some v => Some v | None => lookupS s b end.
Proof. induction a as [|[x y] a IH]; [reflexivity|]. cbn [app lookupS]. destruct (x =? s); [reflexivity|exact IH]. Qed.

Lemma add_schemes_lookup c s : forall ss m, lookupS s (add_schemes c ss m) =
  match lookupS s m with Some x => Some x | None => if existsb (N.eqb s) ss then Some c else None end.
Proof.
  induction ss as [|x ss IH]; intros m; cbn [add_schemes existsb].
  - destruct (lookupS s m); reflexivity.
  - rewrite IH. destruct (lookupS x m) as [y|] eqn:E.
    + destruct (lookupS s m) eqn:E2; [reflexivity|]. destruct (N.eqb_spec s x) as [->|]; [congruence|reflexivity].
    + rewrite lookupS_app. cbn [lookupS]. destruct (lookupS s m); [reflexivity|]. rewrite N.eqb_sym. destruct (s =? x); reflexivity.
Qed.

(** ** The contents of the manager as a function of the history *)
Definition keyOf (i : bytes) : option bytes :=
  match getKeyFromIdent i with
  | None => None
  | Some k => if (match k with [] => true | _ => false end) || bytes_eqb k [dot] || existsb (byte_eqb star) k then None else Some k
  end.
(** the keys under which a certificate is registered: its identities in order, up to the first invalid one *)
Fixpoint keys_upto (l : list bytes) : list bytes :=
  match l with [] => [] | i :: r => match keyOf i with None => [] | Some k => k :: keys_upto r end end.
Definition todo (c : selfcert) : list bytes := sc_ident c :: filter (fun a => negb (bytes_eqb a (sc_ident c))) (sc_alts c).
Definition keys_of (c : selfcert) : list bytes := keys_upto (todo c).
Definition offers (key : bytes) (s : N) (c : selfcert) : bool := existsb (bytes_eqb key) (keys_of c) && existsb (N.eqb s) (sc_schemes c).
Definition certFor (hist : list selfcert) (key : bytes) (s : N) : option selfcert := find (offers key s) hist.

Definition mget (m : cm) (key : bytes) (s : N) : option selfcert :=
  match lookup key (cm_certs m) with None => None | Some sm => lookupS s sm end.

Lemma addIdent_mget m c i m' : addCertIdentity m c i = Some m' ->
  exists k, keyOf i = Some k /\ cm_ident m' = cm_ident m /\ cm_default m' = cm_default m /\
    forall key s, mget m' key s = match mget m key s with Some x => Some x | None => if bytes_eqb key k && existsb (N.eqb s) (sc_schemes c) then Some c else None end.
Proof.
  unfold addCertIdentity, keyOf. destruct (getKeyFromIdent i) as [k|]; [|discriminate].
  destruct ((_ || _ || _)%bool); [discriminate|]. intros E. injection E as <-. exists k. split; [reflexivity|]. split; [reflexivity|]. split; [reflexivity|].
  intros key s. unfold mget. cbn [cm_certs]. rewrite lookup_update.
  destruct (bytes_eqb k key) eqn:Ek.
  - apply bytes_eqb_eq in Ek. subst. rewrite bytes_eqb_refl. rewrite add_schemes_lookup. destruct (lookup key (cm_certs m)); reflexivity.
  - assert (bytes_eqb key k = false) as -> by (apply bytes_eqb_neq; apply bytes_eqb_neq in Ek; congruence). cbn [andb].
    destruct (lookup key (cm_certs m)) as [sm|]; [|reflexivity]. destruct (lookupS s sm); reflexivity.
Qed.
Lemma addIdent_none m c i : addCertIdentity m c i = None <-> keyOf i = None.
Proof. unfold addCertIdentity, keyOf. destruct (getKeyFromIdent i); [|tauto]. destruct ((_ || _ || _)%bool); split; congruence. Qed.

Definition offk (ks : list bytes) (c : selfcert) (key : bytes) (s : N) := existsb (bytes_eqb key) ks && existsb (N.eqb s) (sc_schemes c).
Lemma add_alts_mget c : forall alts m m' b, add_alts m c alts = (m', b) ->
  cm_ident m' = cm_ident m /\ cm_default m' = cm_default m /\
  (b = true <-> length (keys_upto (filter (fun a => negb (bytes_eqb a (sc_ident c))) alts)) = length (filter (fun a => negb (bytes_eqb a (sc_ident c))) alts)) /\
  forall key s, mget m' key s = match mget m key s with Some x => Some x
     | None => if offk (keys_upto (filter (fun a => negb (bytes_eqb a (sc_ident c))) alts)) c key s then Some c else None end.
Proof.
  induction alts as [|a alts IH]; intros m m' b E; cbn [add_alts filter] in *.
  - injection E as <- <-. repeat split; try tauto. intros. cbn. destruct (mget m key s); reflexivity.
  - destruct (bytes_eqb a (sc_ident c)) eqn:Ea; cbn [negb].
    + apply IH, E.
    + cbn [keys_upto]. destruct (addCertIdentity m c a) as [m1|] eqn:E1.
      * destruct (addIdent_mget _ _ _ _ E1) as (k & Ek & I1 & D1 & G1). rewrite Ek. destruct (IH _ _ _ E) as (I2 & D2 & B2 & G2).
        split; [congruence|]. split; [congruence|]. split; [cbn [length]; rewrite B2; lia|].
        intros key s. rewrite G2, G1. destruct (mget m key s); [reflexivity|]. unfold offk. cbn [existsb].
        destruct (bytes_eqb key k), (existsb (N.eqb s) (sc_schemes c)); cbn [andb orb]; rewrite ?andb_false_r; reflexivity.
      * injection E as <- <-. assert (Ek : keyOf a = None) by (apply (addIdent_none m c a), E1). rewrite Ek. repeat split; try discriminate.
        intros key s. cbn. destruct (mget m key s); reflexivity.
Qed.

Lemma addCert_mget m c d m' b : addCert m c d = (m', b) ->
  (forall key s, mget m' key s = match mget m key s with Some x => Some x | None => if offers key s c then Some c else None end) /\
  (b = true <-> length (keys_of c) = length (todo c)) /\
  cm_default m' = (if b && d then match keyOf (sc_ident c) with Some k => k | None => [] end else cm_default m).
Proof.
  unfold addCert, keys_of, todo, offers. cbn [keys_upto]. destruct (addCertIdentity m c (sc_ident c)) as [m1|] eqn:E1.
  - destruct (addIdent_mget _ _ _ _ E1) as (k & Ek & I1 & D1 & G1). unfold keys_of, todo. cbn [keys_upto]. rewrite Ek.
    destruct (add_alts m1 c (sc_alts c)) as [m2 b2] eqn:E2. destruct (add_alts_mget c _ _ _ _ E2) as (I2 & D2 & B2 & G2).
    intros E.
    assert (Ekk : getKeyFromIdent (sc_ident c) = Some k).
    { unfold keyOf in Ek. destruct (getKeyFromIdent (sc_ident c)); [|discriminate]. destruct ((_ || _ || _)%bool); congruence. }
    assert (Hb : b = b2) by (destruct b2; injection E; congruence).
    assert (Hm : cm_certs m' = cm_certs m2) by (destruct b2; injection E as <- _; reflexivity).
    split; [|split].
    + intros key s. unfold mget at 1. rewrite Hm. change (mget m2 key s = match mget m key s with Some x => Some x | None => if existsb (bytes_eqb key) (k :: keys_upto (filter (fun a => negb (bytes_eqb a (sc_ident c))) (sc_alts c))) && existsb (N.eqb s) (sc_schemes c) then Some c else None end).
      rewrite G2, G1. destruct (mget m key s); [reflexivity|]. unfold offk. cbn [existsb].
      destruct (bytes_eqb key k), (existsb (N.eqb s) (sc_schemes c)); cbn [andb orb]; rewrite ?andb_false_r; reflexivity.
    + subst b. cbn [length]. rewrite B2. lia.
    + subst b. destruct b2; injection E as <-; cbn [andb cm_default].
      * rewrite Ekk. destruct d; [reflexivity|congruence].
      * congruence.
  - apply addIdent_none in E1. rewrite E1. intros E. injection E as <- <-. split; [|split].
    + intros key s. unfold offers, keys_of, todo. cbn [keys_upto]. rewrite E1. cbn. destruct (mget m key s); reflexivity.
    + cbn [length]. split; [discriminate|lia].
    + reflexivity.
Qed.

(** the default key: that of the last certificate successfully added as default *)
Definition added_ok (c : selfcert) : bool := Nat.eqb (length (keys_of c)) (length (todo c)).
Definition default_key (hist : list (selfcert * bool)) : bytes :=
  fold_left (fun d x => if added_ok (fst x) && snd x then match keyOf (sc_ident (fst x)) with Some k => k | None => [] end else d) hist [].

Lemma find_app {A} (f : A -> bool) a b : find f (a ++ b) = match find f a with Some x => Some x | None => find f b end.
Proof. induction a as [|x a IH]; [reflexivity|]. cbn [app find]. destruct (f x); [reflexivity|exact IH]. Qed.

Lemma addAll_gen hist : forall m pre d0, cm_default m = d0 -> (forall key s, mget m key s = certFor pre key s) ->
  (forall key s, mget (addAll m hist) key s = certFor (pre ++ map fst hist) key s) /\
  cm_default (addAll m hist) = fold_left (fun d x => if added_ok (fst x) && snd x then match keyOf (sc_ident (fst x)) with Some k => k | None => [] end else d) hist d0.
Proof.
  induction hist as [|[c d] hist IH]; intros m pre d0 HD HG.
  - cbn. rewrite app_nil_r. auto.
  - cbn [addAll fold_left map fst snd]. destruct (addCert m c d) as [m' b] eqn:E. destruct (addCert_mget _ _ _ _ _ E) as (G & B & D).
    specialize (IH m' (pre ++ [c]) (if added_ok c && d then match keyOf (sc_ident c) with Some k => k | None => [] end else d0)).
    rewrite <- app_assoc in IH. apply IH.
    + assert (b = added_ok c) as <- by (unfold added_ok; apply eq_iff_eq_true; rewrite B, Nat.eqb_eq; reflexivity). rewrite D, HD. reflexivity.
    + intros key s. rewrite G, HG. unfold certFor. rewrite find_app. cbn [find]. reflexivity.
Qed.

(** ** Selection as a function of the history *)
(** the first scheme in server order that the peer supports too and for which a certificate is registered *)
Fixpoint first_usable (hist : list selfcert) (key : bytes) (sup peer : list N) : option (selfcert * N) :=
  match sup with
  | [] => None
  | s :: r => if existsb (N.eqb s) peer then
                match certFor hist key s with Some c => Some (c, s) | None => first_usable hist key r peer end
              else first_usable hist key r peer
  end.
Lemma findCert_spec m hist key sup peer : (forall key s, mget m key s = certFor hist key s) -> findCert m key sup peer = first_usable hist key sup peer.
Proof.
  intros H. unfold findCert. specialize (H key). unfold mget in H. destruct (lookup key (cm_certs m)) as [sm|].
  - induction sup as [|s r IH]; [reflexivity|]. cbn [pick first_usable]. rewrite H. destruct (certFor hist key s), (existsb (N.eqb s) peer); auto.
  - induction sup as [|s r IH]; [reflexivity|]. cbn [first_usable]. rewrite <- H. destruct (existsb (N.eqb s) peer); exact IH.
Qed.

Definition select (hist : list (selfcert * bool)) (sni : option bytes) (sup peer : list N) : option (selfcert * N * matchtype) :=
  let cs := map fst hist in
  let tag t o := match o with Some (c, s) => Some (c, s, t) | None => None end in
  let orelse (a b : option (selfcert * N * matchtype)) := match a with Some x => Some x | None => b end in
  let d := tag Default (first_usable cs (default_key hist) sup peer) in
  match sni with
  | None => d
  | Some n => orelse (tag Direct (first_usable cs (toLowerAscii n) sup peer))
              (orelse (match from_dot (toLowerAscii n) with Some w => tag Direct (first_usable cs w sup peer) | None => None end) d)
  end.
(** The answer depends on the certificates and the order they were added in only as [select] says, whatever
    additions failed in between. *)
Theorem C30_select : forall hist sni sup peer, getCert (addAll cm_new hist) sni sup peer = select hist sni sup peer.
Proof.
  intros hist sni sup peer. destruct (addAll_gen hist cm_new [] [] eq_refl) as [HG HD]; [intros; reflexivity|]. cbn [app] in HG.
  unfold getCert, select. unfold default_key. rewrite <- HD.
  rewrite !(findCert_spec _ _ _ _ _ HG). destruct sni as [n|].
  - rewrite !(findCert_spec _ _ _ _ _ HG). destruct (first_usable _ (toLowerAscii n) sup peer) as [[c s]|]; [reflexivity|].
    destruct (from_dot (toLowerAscii n)) as [w|]; [|reflexivity]. rewrite (findCert_spec _ _ _ _ _ HG).
    destruct (first_usable _ w sup peer) as [[c s]|]; reflexivity.
  - reflexivity.
Qed.
Print Assumptions C30_select.

(** ** Soundness in terms of names *)
Lemma lower_ok c : b2n (lower c) = if (65 <=? b2n c) && (b2n c <=? 90) then b2n c + 32 else b2n c.
Proof. unfold lower. destruct (_ && _)%bool eqn:E; [|reflexivity]. rewrite b2n_n2b; [reflexivity|]. apply andb_true_iff in E. rewrite !N.leb_le in E. lia. Qed.
Lemma same_letter_lower a b : same_letter a b <-> lower a = lower b.
Proof.
  unfold same_letter. split.
  - intros H. apply b2n_inj. rewrite !lower_ok. destruct H as [->|[H|H]]; [reflexivity| |];
      destruct (N.leb_spec 65 (b2n a)), (N.leb_spec (b2n a) 90), (N.leb_spec 65 (b2n b)), (N.leb_spec (b2n b) 90); cbn [andb]; lia.
  - intros H. apply (f_equal b2n) in H. rewrite !lower_ok in H.
    destruct (N.leb_spec 65 (b2n a)), (N.leb_spec (b2n a) 90), (N.leb_spec 65 (b2n b)), (N.leb_spec (b2n b) 90); cbn [andb] in H; try (left; apply b2n_inj; lia); try (right; left; lia); right; right; lia.
Qed.
Lemma ci_eq_lower a b : ci_eq a b <-> toLowerAscii a = toLowerAscii b.
Proof.
  unfold ci_eq, toLowerAscii. revert b. induction a as [|x a IH]; intros [|y b]; cbn [map]; split; intros H; try discriminate; try (inversion H; fail); try constructor.
  - inversion H; subst. f_equal; [apply same_letter_lower; assumption|apply IH; assumption].
  - apply same_letter_lower. congruence.
  - apply IH. congruence.
Qed.
Lemma lower_dot c : lower c = dot <-> c = dot.
Proof.
  split; [|intros ->; reflexivity]. intros H. apply (f_equal b2n) in H. rewrite lower_ok in H. apply b2n_inj. change (b2n dot) with 46 in *.
  destruct (N.leb_spec 65 (b2n c)), (N.leb_spec (b2n c) 90); cbn [andb] in H; lia.
Qed.

Lemma from_dot_spec s w : from_dot s = Some w -> exists l r, s = l ++ dot :: r /\ w = dot :: r /\ ~ In dot l.
Proof.
  induction s as [|c s IH]; intros E; cbn [from_dot] in E; [discriminate|]. destruct (byte_eqb c dot) eqn:Ec.
  - apply byte_eqb_eq in Ec. subst. injection E as <-. exists [], s. auto.
  - destruct (IH E) as (l & r & -> & -> & Hn). exists (c :: l), r. split; [reflexivity|]. split; [reflexivity|]. intros [->|H]; [|auto].
    assert (byte_eqb dot dot = true) by (apply byte_eqb_eq; reflexivity). congruence.
Qed.
Lemma from_dot_none s : from_dot s = None -> ~ In dot s.
Proof.
  induction s as [|c s IH]; intros E; cbn [from_dot] in E; [auto|]. destruct (byte_eqb c dot) eqn:Ec; [discriminate|].
  intros [->|H]; [|apply (IH E H)]. assert (byte_eqb dot dot = true) by (apply byte_eqb_eq; reflexivity). congruence.
Qed.

Lemma keys_upto_in k : forall l, In k (keys_upto l) -> exists i, In i l /\ keyOf i = Some k.
Proof.
  induction l as [|i l IH]; intros H; [destruct H|]. cbn [keys_upto] in H. destruct (keyOf i) as [k'|] eqn:E; [|destruct H].
  destruct H as [->|H]; [exists i; cbn; auto|]. destruct (IH H) as (j & Hj & Ej). exists j. cbn. auto.
Qed.
Lemma keys_of_in k c : In k (keys_of c) -> exists i, In i (idents c) /\ keyOf i = Some k.
Proof.
  intros H. destruct (keys_upto_in _ _ H) as (i & Hi & E). exists i. split; [|exact E]. destruct Hi as [<-|Hi]; [left; reflexivity|]. apply filter_In in Hi. right. apply Hi.
Qed.
Lemma keyOf_eq i k : keyOf i = Some k -> getKeyFromIdent i = Some k.
Proof. unfold keyOf. destruct (getKeyFromIdent i); [|discriminate]. destruct ((_ || _ || _)%bool); congruence. Qed.
Lemma existsb_In_bytes k l : existsb (bytes_eqb k) l = true <-> In k l.
Proof. rewrite existsb_exists. split; [intros (x & Hx & E); apply bytes_eqb_eq in E; subst; exact Hx|intros H; exists k; split; [exact H|apply bytes_eqb_refl]]. Qed.
Lemma existsb_In_N s l : existsb (N.eqb s) l = true <-> In s l.
Proof. rewrite existsb_exists. split; [intros (x & Hx & E); apply N.eqb_eq in E; subst; exact Hx|intros H; exists s; split; [exact H|apply N.eqb_refl]]. Qed.

Lemma star_lower_dot : lower star <> dot. Proof. discriminate. Qed.
Lemma in_lower_star l : In star (toLowerAscii l) <-> In star l.
Proof.
  unfold toLowerAscii. rewrite in_map_iff. split; [|intros H; exists star; auto]. intros (x & E & H). assert (x = star) as <-; [|exact H].
  apply (f_equal b2n) in E. rewrite lower_ok in E. apply b2n_inj. change (b2n star) with 42 in *.
  destruct (N.leb_spec 65 (b2n x)), (N.leb_spec (b2n x) 90); cbn [andb] in E; lia.
Qed.
Lemma in_lower_dot l : In dot (toLowerAscii l) <-> In dot l.
Proof.
  unfold toLowerAscii. rewrite in_map_iff. split; [|intros H; exists dot; auto]. intros (x & E & H). apply (proj1 (lower_dot x)) in E. congruence.
Qed.

(** the key of a well-formed identity *)
Lemma wf_key i : wf_ident i -> keyOf i = Some (toLowerAscii (match i with c :: r => if byte_eqb c star then r else i | [] => [] end)).
Proof.
  intros H. unfold keyOf, getKeyFromIdent. destruct H as [[Hs (c & r & -> & Hd)]|(c & r & -> & Hs)].
  - assert (byte_eqb c star = false) as ->. { destruct (byte_eqb c star) eqn:E; [|reflexivity]. apply byte_eqb_eq in E. subst. exfalso. apply Hs. left. reflexivity. }
    assert (existsb (byte_eqb star) (toLowerAscii (c :: r)) = false) as ->.
    { destruct (existsb _ _) eqn:E; [|reflexivity]. apply existsb_exists in E. destruct E as (x & Hx & Ex). apply byte_eqb_eq in Ex. subst x. apply (proj1 (in_lower_star _)) in Hx. contradiction. }
    cbn [toLowerAscii map orb]. destruct (bytes_eqb (lower c :: map lower r) [dot]) eqn:E; [|reflexivity].
    apply bytes_eqb_eq in E. injection E as E _. apply (proj1 (lower_dot c)) in E. contradiction.
  - assert (byte_eqb star star = true) as -> by reflexivity.
    assert (existsb (byte_eqb star) (toLowerAscii (dot :: c :: r)) = false) as ->.
    { destruct (existsb _ _) eqn:E; [|reflexivity]. apply existsb_exists in E. destruct E as (x & Hx & Ex). apply byte_eqb_eq in Ex. subst x. apply (proj1 (in_lower_star _)) in Hx. destruct Hx as [Hx|Hx]; [discriminate|contradiction]. }
    reflexivity.
Qed.

Lemma wf_keys_upto l : Forall wf_ident l -> keys_upto l = map (fun i => match keyOf i with Some k => k | None => [] end) l /\ length (keys_upto l) = length l.
Proof.
  induction 1 as [|i l H1 H2 [IH1 IH2]]; [auto|]. cbn [keys_upto map]. rewrite (wf_key i H1). split; [f_equal; exact IH1|]. cbn [length]. rewrite IH2. reflexivity.
Qed.
Lemma wf_keys c i : wf_cert c -> In i (idents c) -> exists k, keyOf i = Some k /\ In k (keys_of c).
Proof.
  intros Hw Hi. unfold wf_cert in Hw. rewrite Forall_forall in Hw. pose proof (wf_key i (Hw i Hi)) as Ek. eexists. split; [exact Ek|].
  unfold keys_of. assert (Ht : Forall wf_ident (todo c)).
  { rewrite Forall_forall. intros x [<-|Hx]; [apply Hw; left; reflexivity|]. apply filter_In in Hx. apply Hw. right. apply Hx. }
  rewrite (proj1 (wf_keys_upto _ Ht)). apply in_map_iff. exists i. split; [rewrite Ek; reflexivity|].
  destruct Hi as [<-|Hi]; [left; reflexivity|]. unfold todo. destruct (bytes_eqb i (sc_ident c)) eqn:E; [apply bytes_eqb_eq in E; left; congruence|].
  right. apply filter_In. split; [exact Hi|]. rewrite E. reflexivity.
Qed.

(** which well-formed identities are found under the two keys tried for a name *)
Lemma key_exact i n : wf_ident i -> keyOf i = Some (toLowerAscii n) -> covers i n.
Proof.
  intros Hw E. rewrite (wf_key i Hw) in E. destruct Hw as [[Hs (c & r & -> & Hd)]|(c & r & -> & Hs)].
  - destruct (byte_eqb c star) eqn:Ec; [apply byte_eqb_eq in Ec; subst; exfalso; apply Hs; left; reflexivity|]. constructor. apply ci_eq_lower. congruence.
  - change (byte_eqb star star) with true in E. cbv iota in E. assert (E0 : toLowerAscii (dot :: c :: r) = toLowerAscii n) by congruence. clear E. destruct n as [|x n]; [discriminate|]. unfold toLowerAscii in E0. cbn [map] in E0. change (lower dot) with dot in E0.
    assert (E1 : lower x = dot) by congruence. apply (proj1 (lower_dot x)) in E1. subst x. apply (cov_wild (c :: r) [] n); [|auto]. apply ci_eq_lower. unfold toLowerAscii. cbn [map]. change (lower dot) with dot in E0. congruence.
Qed.
Lemma key_wild i n w : wf_ident i -> from_dot (toLowerAscii n) = Some w -> keyOf i = Some w -> covers i n /\ (exists r, i = star :: dot :: r).
Proof.
  intros Hw Ef E. destruct (from_dot_spec _ _ Ef) as (l & r & En & -> & Hl). rewrite (wf_key i Hw) in E.
  unfold toLowerAscii in En. symmetry in En. apply eq_sym in En. apply map_eq_app in En. destruct En as (l' & r' & -> & <- & En). apply map_eq_cons in En. destruct En as (x & n' & -> & Ex & <-).
  apply (proj1 (lower_dot x)) in Ex. subst x.
  destruct Hw as [[Hs (c & q & -> & Hd)]|(c & q & -> & Hs)].
  - destruct (byte_eqb c star) eqn:Ec; [apply byte_eqb_eq in Ec; subst; exfalso; apply Hs; left; reflexivity|]. injection E as E _. apply (proj1 (lower_dot c)) in E. contradiction.
  - change (byte_eqb star star) with true in E. cbv iota in E. split; [|eauto]. apply cov_wild.
    + apply ci_eq_lower. assert (E0 : toLowerAscii (dot :: c :: q) = dot :: map lower n') by congruence. unfold toLowerAscii in *. cbn [map] in *. congruence.
    + intros H. apply Hl. apply (in_lower_dot l'). exact H.
Qed.
Lemma from_dot_app l r : ~ In dot l -> from_dot (l ++ dot :: r) = Some (dot :: r).
Proof.
  induction l as [|c l IH]; intros H; cbn [app from_dot]; [reflexivity|].
  destruct (byte_eqb c dot) eqn:E; [apply byte_eqb_eq in E; subst; exfalso; apply H; left; reflexivity|]. apply IH. intros Hin. apply H. right. exact Hin.
Qed.
Lemma covers_key i n : wf_ident i -> covers i n -> keyOf i = Some (toLowerAscii n) \/ (exists w, from_dot (toLowerAscii n) = Some w /\ keyOf i = Some w).
Proof.
  intros Hw Hc. rewrite (wf_key i Hw). destruct Hc as [i n H|rest label tail H Hn].
  - apply ci_eq_lower in H. destruct Hw as [[Hs (c & q & -> & Hd)]|(c & q & -> & Hs)].
    + left. destruct (byte_eqb c star) eqn:Ec; [apply byte_eqb_eq in Ec; subst; exfalso; apply Hs; left; reflexivity|]. congruence.
    + (* the name itself starts with "*.": the code looks it up as is and then without the first label *)
      right. change (byte_eqb star star) with true. cbv iota. rewrite <- H. eexists. split; [|reflexivity]. reflexivity.
  - right. change (byte_eqb star star) with true. cbv iota. apply ci_eq_lower in H. unfold toLowerAscii in *. rewrite map_app. cbn [map]. change (lower dot) with dot.
    rewrite H. eexists. split; [|reflexivity]. apply from_dot_app. intros Hin. apply Hn. apply (in_lower_dot label). exact Hin.
Qed.

Lemma first_usable_some hist key peer : forall sup c s, first_usable hist key sup peer = Some (c, s) ->
  In c hist /\ In key (keys_of c) /\ In s (sc_schemes c) /\ In s peer /\
  exists before after, sup = before ++ s :: after /\
    (forall s' c', In s' before -> In s' peer -> In c' hist -> In key (keys_of c') -> ~ In s' (sc_schemes c')) /\
    (exists h1 h2, hist = h1 ++ c :: h2 /\ forall c', In c' h1 -> ~ (In key (keys_of c') /\ In s (sc_schemes c'))).
Proof.
  assert (Hfind : forall s c, certFor hist key s = Some c -> exists h1 h2, hist = h1 ++ c :: h2 /\ (forall c', In c' h1 -> ~ (In key (keys_of c') /\ In s (sc_schemes c'))) /\ In key (keys_of c) /\ In s (sc_schemes c)).
  { intros s. unfold certFor. induction hist as [|x l IH]; intros c E; cbn [find] in E; [discriminate|]. destruct (offers key s x) eqn:Eo.
    - injection E as ->. exists [], l. unfold offers in Eo. rewrite andb_true_iff, existsb_In_bytes, existsb_In_N in Eo. cbn. tauto.
    - destruct (IH c E) as (h1 & h2 & -> & Hn & Hk). exists (x :: h1), h2. split; [reflexivity|]. split; [|exact Hk]. intros c' [<-|Hc']; [|apply Hn, Hc'].
      intros [A B]. assert (offers key s x = true); [|congruence]. unfold offers. rewrite andb_true_iff, existsb_In_bytes, existsb_In_N. auto. }
  assert (Hnone : forall s, certFor hist key s = None -> forall c', In c' hist -> In key (keys_of c') -> ~ In s (sc_schemes c')).
  { intros s E c' Hc' Hk Hs. unfold certFor in E. pose proof (find_none _ _ E _ Hc') as G. unfold offers in G. rewrite (proj2 (existsb_In_bytes _ _) Hk), (proj2 (existsb_In_N _ _) Hs) in G. discriminate. }
  induction sup as [|x sup IH]; intros c s E; cbn [first_usable] in E; [discriminate|].
  assert (Hrec : first_usable hist key sup peer = Some (c, s) -> (In x peer -> certFor hist key x = None) ->
    In c hist /\ In key (keys_of c) /\ In s (sc_schemes c) /\ In s peer /\
    exists before after, x :: sup = before ++ s :: after /\
    (forall s' c', In s' before -> In s' peer -> In c' hist -> In key (keys_of c') -> ~ In s' (sc_schemes c')) /\
    (exists h1 h2, hist = h1 ++ c :: h2 /\ forall c', In c' h1 -> ~ (In key (keys_of c') /\ In s (sc_schemes c')))).
  { intros E' Hx. destruct (IH _ _ E') as (A & B & C & D & be & af & -> & F & G). repeat (split; [assumption|]). exists (x :: be), af. split; [reflexivity|]. split; [|exact G].
    intros s' c' [<-|Hs'] Hp; [apply Hnone, Hx, Hp|apply F; assumption]. }
  destruct (existsb (N.eqb x) peer) eqn:Ex.
  - destruct (certFor hist key x) as [c0|] eqn:Ec.
    + injection E as -> ->. destruct (Hfind _ _ Ec) as (h1 & h2 & Eh & Hn & Hk & Hs). split; [rewrite Eh; apply in_elt|]. split; [exact Hk|]. split; [exact Hs|].
      split; [apply existsb_In_N; exact Ex|]. exists [], sup. split; [reflexivity|]. split; [intros s' c' []|]. eauto.
    + apply Hrec; auto.
  - apply Hrec; [exact E|]. intros Hp. apply existsb_In_N in Hp. congruence.
Qed.
Lemma first_usable_none hist key peer : forall sup, first_usable hist key sup peer = None ->
  forall s c, In s sup -> In s peer -> In c hist -> In key (keys_of c) -> ~ In s (sc_schemes c).
Proof.
  induction sup as [|x sup IH]; intros E s c Hs Hp Hc Hk Hn; [destruct Hs|]. cbn [first_usable] in E. destruct Hs as [->|Hs].
  - rewrite (proj2 (existsb_In_N _ _) Hp) in E. destruct (certFor hist key s) eqn:Ec; [discriminate|]. unfold certFor in Ec.
    pose proof (find_none _ _ Ec _ Hc) as G. unfold offers in G. rewrite (proj2 (existsb_In_bytes _ _) Hk), (proj2 (existsb_In_N _ _) Hn) in G. discriminate.
  - apply (fun E' => IH E' s c Hs Hp Hc Hk Hn). destruct (existsb (N.eqb x) peer); [destruct (certFor hist key x); [discriminate|exact E]|exact E].
Qed.

Definition usable (sup peer : list N) (c : selfcert) (s : N) : Prop := In s sup /\ In s peer /\ In s (sc_schemes c).

(** A certificate selected for the requested name covers that name and has a scheme both sides support. *)
Theorem C30_sound : forall hist n sup peer c s, Forall (fun x => wf_cert (fst x)) hist ->
  getCert (addAll cm_new hist) (Some n) sup peer = Some (c, s, Direct) ->
  In c (map fst hist) /\ usable sup peer c s /\ exists i, In i (idents c) /\ covers i n.
Proof.
  intros hist n sup peer c s Hw. rewrite C30_select. unfold select. intros E.
  assert (Hwc : forall c, In c (map fst hist) -> wf_cert c).
  { intros x Hx. apply in_map_iff in Hx. destruct Hx as (y & <- & Hy). rewrite Forall_forall in Hw. apply Hw, Hy. }
  assert (G : forall key, first_usable (map fst hist) key sup peer = Some (c, s) -> (forall i, wf_ident i -> keyOf i = Some key -> covers i n) ->
    In c (map fst hist) /\ usable sup peer c s /\ exists i, In i (idents c) /\ covers i n).
  { intros key Eu Hc. destruct (first_usable_some _ _ _ _ _ _ Eu) as (A & B & C & D & be & af & -> & _). split; [exact A|]. split.
    - repeat split; try assumption. apply in_elt.
    - destruct (keys_of_in _ _ B) as (i & Hi & Ei). exists i. split; [exact Hi|]. apply Hc; [|exact Ei]. pose proof (Hwc c A) as Hx. unfold wf_cert in Hx. rewrite Forall_forall in Hx. apply Hx, Hi. }
  destruct (first_usable (map fst hist) (toLowerAscii n) sup peer) as [[c1 s1]|] eqn:E1.
  - apply (G _ ltac:(rewrite E1; congruence)). intros i Hi Ei. apply key_exact; assumption.
  - destruct (from_dot (toLowerAscii n)) as [w|] eqn:Ef.
    + destruct (first_usable (map fst hist) w sup peer) as [[c2 s2]|] eqn:E2.
      * apply (G w ltac:(congruence)). intros i Hi Ei. eapply key_wild; eassumption.
      * destruct (first_usable (map fst hist) (default_key hist) sup peer) as [[c3 s3]|]; discriminate.
    + destruct (first_usable (map fst hist) (default_key hist) sup peer) as [[c3 s3]|]; discriminate.
Qed.
Print Assumptions C30_sound.

(** If any certificate covering the name is usable, one covering the name is selected: the default is only a
    fallback, and "no certificate" means there was none. *)
Theorem C30_complete : forall hist n sup peer, Forall (fun x => wf_cert (fst x)) hist ->
  (forall c s, getCert (addAll cm_new hist) (Some n) sup peer <> Some (c, s, Direct)) ->
  forall c i s, In c (map fst hist) -> In i (idents c) -> covers i n -> ~ usable sup peer c s.
Proof.
  intros hist n sup peer Hw HN c i s Hc Hi Hcov (U1 & U2 & U3). rewrite C30_select in HN. unfold select in HN.
  assert (Hwc : wf_cert c). { apply in_map_iff in Hc. destruct Hc as (y & <- & Hy). rewrite Forall_forall in Hw. apply Hw, Hy. }
  assert (Hwi : wf_ident i) by (unfold wf_cert in Hwc; rewrite Forall_forall in Hwc; apply Hwc, Hi).
  destruct (wf_keys c i Hwc Hi) as (k & Ek & Hk).
  destruct (first_usable (map fst hist) (toLowerAscii n) sup peer) as [[c1 s1]|] eqn:E1; [apply (HN c1 s1); reflexivity|].
  destruct (covers_key i n Hwi Hcov) as [E|(w & Ef & E)].
  - assert (k = toLowerAscii n) as -> by congruence. exact (first_usable_none _ _ _ _ E1 _ _ U1 U2 Hc Hk U3).
  - rewrite Ef in HN. assert (k = w) as -> by congruence.
    destruct (first_usable (map fst hist) w sup peer) as [[c2 s2]|] eqn:E2; [apply (HN c2 s2); reflexivity|].
    exact (first_usable_none _ _ _ _ E2 _ _ U1 U2 Hc Hk U3).
Qed.
Print Assumptions C30_complete.

(** Exact beats wildcard: if a certificate with the name itself is usable, the selected one has the name itself; its
    scheme is the first in server order for which such a certificate exists, and it is the first such one added. *)
Theorem C30_exact_preferred : forall hist n sup peer c0 i0 s0, Forall (fun x => wf_cert (fst x)) hist ->
  (exists a r, n = a :: r /\ a <> star /\ a <> dot) ->
  In c0 (map fst hist) -> In i0 (idents c0) -> ci_eq i0 n -> usable sup peer c0 s0 ->
  exists c s i before after h1 h2,
    getCert (addAll cm_new hist) (Some n) sup peer = Some (c, s, Direct) /\ In i (idents c) /\ ci_eq i n /\ In s (sc_schemes c) /\ In s peer /\
    sup = before ++ s :: after /\ map fst hist = h1 ++ c :: h2 /\
    (forall s' c' i', In s' before -> In s' peer -> In c' (map fst hist) -> In i' (idents c') -> ci_eq i' n -> ~ In s' (sc_schemes c')) /\
    (forall c' i', In c' h1 -> In i' (idents c') -> ci_eq i' n -> ~ In s (sc_schemes c')).
Proof.
  intros hist n sup peer c0 i0 s0 Hw (a & r & En & Ha1 & Ha2) Hc0 Hi0 He0 (U1 & U2 & U3). rewrite C30_select. unfold select.
  assert (Hwc : forall c, In c (map fst hist) -> wf_cert c).
  { intros x Hx. apply in_map_iff in Hx. destruct Hx as (y & <- & Hy). rewrite Forall_forall in Hw. apply Hw, Hy. }
  assert (Hkey : forall c i, In c (map fst hist) -> In i (idents c) -> ci_eq i n -> In (toLowerAscii n) (keys_of c)).
  { intros c i Hc Hi He. destruct (wf_keys c i (Hwc c Hc) Hi) as (k & Ek & Hk).
    assert (Hwi : wf_ident i) by (pose proof (Hwc c Hc) as Hx; unfold wf_cert in Hx; rewrite Forall_forall in Hx; apply Hx, Hi).
    rewrite (wf_key i Hwi) in Ek. apply ci_eq_lower in He.
    assert (Hns : exists b t, i = b :: t /\ b <> star).
    { destruct i as [|b t]; [rewrite En in He; discriminate|]. exists b, t. split; [reflexivity|]. intros ->. rewrite En in He. unfold toLowerAscii in He. cbn [map] in He.
      assert (Hl : lower star = lower a) by congruence. apply Ha1. apply same_letter_lower in Hl. apply b2n_inj. change (b2n star) with 42 in *.
      destruct Hl as [<-|[[? _]|[? Hl]]]; [reflexivity|change (b2n star) with 42 in *; lia|change (b2n star) with 42 in *; lia]. }
    destruct Hns as (b & t & -> & Hb). destruct (byte_eqb b star) eqn:Eb; [apply byte_eqb_eq in Eb; contradiction|]. rewrite <- He. congruence. }
  destruct (first_usable (map fst hist) (toLowerAscii n) sup peer) as [[c s]|] eqn:E1.
  - destruct (first_usable_some _ _ _ _ _ _ E1) as (A & B & C & D & be & af & Es & F & h1 & h2 & Eh & G).
    destruct (keys_of_in _ _ B) as (i & Hi & Ei).
    assert (Hwi : wf_ident i) by (pose proof (Hwc c A) as Hx; unfold wf_cert in Hx; rewrite Forall_forall in Hx; apply Hx, Hi).
    assert (Hcov : ci_eq i n).
    { rewrite (wf_key i Hwi) in Ei. destruct Hwi as [[Hs (x & q & -> & Hd)]|(x & q & -> & Hs)].
      - destruct (byte_eqb x star) eqn:Ec; [apply byte_eqb_eq in Ec; subst; exfalso; apply Hs; left; reflexivity|]. apply ci_eq_lower. congruence.
      - change (byte_eqb star star) with true in Ei. cbv iota in Ei. rewrite En in Ei. injection Ei as Ei. symmetry in Ei. apply (proj1 (lower_dot a)) in Ei. contradiction. }
    exists c, s, i, be, af, h1, h2. split; [reflexivity|]. repeat (split; [assumption|]). split.
    + intros s' c' i' Hs' Hp Hc' Hi' He'. apply (F s' c'); try assumption. eapply Hkey; eassumption.
    + intros c' i' Hc' Hi' He' Hsc. apply (G c' Hc'). split; [|exact Hsc]. eapply Hkey; [|eassumption|eassumption]. rewrite Eh. apply in_or_app. left. exact Hc'.
  - exfalso. exact (first_usable_none _ _ _ _ E1 _ _ U1 U2 Hc0 (Hkey c0 i0 Hc0 Hi0 He0) U3).
Qed.
Print Assumptions C30_exact_preferred.

(** A default answer comes from a certificate registered under the default's name, with a scheme both sides support. *)
Theorem C30_default : forall hist sni sup peer c s, getCert (addAll cm_new hist) sni sup peer = Some (c, s, Default) ->
  In c (map fst hist) /\ usable sup peer c s /\ In (default_key hist) (keys_of c).
Proof.
  intros hist sni sup peer c s. rewrite C30_select. unfold select. intros E.
  assert (E' : first_usable (map fst hist) (default_key hist) sup peer = Some (c, s)).
  { destruct (first_usable (map fst hist) (default_key hist) sup peer) as [[c3 s3]|]; destruct sni as [n|]; try congruence;
    destruct (first_usable (map fst hist) (toLowerAscii n) sup peer) as [[c1 s1]|]; try congruence;
    destruct (from_dot (toLowerAscii n)) as [w|]; try congruence;
    destruct (first_usable (map fst hist) w sup peer) as [[c2 s2]|]; congruence. }
  destruct (first_usable_some _ _ _ _ _ _ E') as (A & B & C & D & be & af & -> & _). split; [exact A|]. split; [repeat split; try assumption; apply in_elt|exact B].
Qed.
Print Assumptions C30_default.

(** Certificates with malformed identities are not refused, and then the claim is false: "*example.com" (no dot) is
    selected for "example.com", and ".example.com" for "a.example.com". *)
Definition bad1 : selfcert := mkCert 1 (star :: [x65; dot; x63]) [] [0x0403].
Definition bad2 : selfcert := mkCert 2 [dot; x65; dot; x63] [] [0x0403].
Theorem C30_malformed_identity_refuted :
  getCert (addAll cm_new [(bad1, false)]) (Some [x65; dot; x63]) [0x0403] [0x0403] = Some (bad1, 0x0403, Direct) /\
  ~ covers (star :: [x65; dot; x63]) [x65; dot; x63] /\
  getCert (addAll cm_new [(bad2, false)]) (Some [x61; dot; x65; dot; x63]) [0x0403] [0x0403] = Some (bad2, 0x0403, Direct) /\
  ~ covers [dot; x65; dot; x63] [x61; dot; x65; dot; x63].
Proof.
  split; [reflexivity|]. split; [|split; [reflexivity|]].
  - intros H. inversion H; subst. apply ci_eq_lower in H0. discriminate.
  - intros H. inversion H; subst. apply ci_eq_lower in H0. discriminate.
Qed.

(** Example: exact, wildcard and default certificates, a failing addition, preference of schemes *)
Definition c_a : selfcert := mkCert 1 [x61; dot; x63] [star :: [dot; x63]] [0x0804].
Definition c_b : selfcert := mkCert 2 [x41; dot; x43] [] [0x0403; 0x0804].
Definition c_bad : selfcert := mkCert 3 [x62; dot; x63] [[star]; [x7a]] [0x0403].
Definition c_d : selfcert := mkCert 4 [x64; dot; x64] [] [0x0403].
Definition ex_hist := [(c_a, false); (c_b, false); (c_bad, false); (c_d, true)].
Example C30_nonvacuous :
  Forall (fun x => wf_cert (fst x)) [(c_a, false); (c_b, false); (c_d, true)] /\
  map (fun n => option_map (fun x => (sc_id (fst (fst x)), snd (fst x), snd x)) (getCert (addAll cm_new ex_hist) n [0x0403; 0x0804] [0x0804; 0x0403]))
    [Some [x61; dot; x63]; Some [x78; dot; x43]; Some [x7a]; Some [x62; dot; x63]; None] =
    [Some (2, 0x0403, Direct); Some (1, 0x0804, Direct); Some (4, 0x0403, Default); Some (3, 0x0403, Direct); Some (4, 0x0403, Default)].
Proof.
  split; [|vm_compute; reflexivity]. repeat first [apply Forall_nil | apply Forall_cons; unfold wf_cert; cbn [fst]].
  - left. split; [|eexists; eexists; split; [reflexivity|discriminate]]. cbn. intros [H|[H|[H|[]]]]; discriminate.
  - right. eexists; eexists; split; [reflexivity|]. cbn. intros [H|[]]; discriminate.
  - left. split; [|eexists; eexists; split; [reflexivity|discriminate]]. cbn. intros [H|[H|[H|[]]]]; discriminate.
  - left. split; [|eexists; eexists; split; [reflexivity|discriminate]]. cbn. intros [H|[H|[H|[]]]]; discriminate.
Qed.
