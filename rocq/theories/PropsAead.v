(** * Property C78: AEADs over chains of buffers
    The ciphers take their input as a chain of buffers of any sizes, may write over it or into new memory, and call the cryptographic library
    piece by piece, some modes only in whole blocks.  The result must not depend on any of that. *)
From Verif Require Import Base Nonce Hkdf HkdfProofs IOBufUtil PropsIOBuf Record AeadChain AeadChainSpec AeadChainProofs.
Open Scope N_scope.

(** ** The library calls *)
Lemma put_full m o : blen o = blen m -> put m 0 o = o.
Proof. intros H. unfold put. rewrite takeN_0, dropN_all by lia. apply app_nil_r. Qed.
Lemma block_lim : 0 < block_size /\ block_size <= 128 /\ block_size <= int_max.
Proof. unfold block_size, int_max. lia. Qed.
Section Calls.
  Context {St : Type}.
  Variables (k : lkind) (held : St -> N) (u : ulib St).
  Hypothesis HP : pieces u.
  Hypothesis HW : writes k held u.
  Lemma chunk_ok enc s x : blen x <= int_max -> chunk k enc u s x = u_upd u s x.
  Proof.
    intros H. unfold chunk. destruct (N.ltb_spec int_max (blen x)); [lia|]. destruct (enc && (blen x =? 0)) eqn:E; [|destruct k; reflexivity].
    apply andb_prop in E. destruct E as [_ E]. apply N.eqb_eq, blen_0 in E. subst x. destruct HP as (_ & _ & Q0 & _). rewrite Q0. destruct k; reflexivity.
  Qed.
  Lemma ads_ok l : fits l -> forall s, ads u s l = u_ad u s (concat l).
  Proof.
    destruct HP as (A0 & A1 & _). induction 1 as [|x r Hx Hr IH]; intros s; cbn [ads concat]; [symmetry; apply A0|].
    rewrite A1. destruct (N.ltb_spec int_max (blen x)); [lia|]. destruct (u_ad u s x); [apply IH|reflexivity].
  Qed.
  Lemma start_ok iv ad : fits (match ad with Some l => l | None => [] end) ->
    start k u iv ad = match u_init u iv with Some s => u_ad u s (ad_bytes ad) | None => None end.
  Proof.
    intros H. unfold start. destruct (u_init u iv) as [s|]; [|reflexivity]. destruct ad as [l|]; cbn [ad_bytes].
    - destruct k; [apply ads_ok, H|apply ads_ok, H|reflexivity].
    - destruct HP as (A0 & _). rewrite A0. destruct k; reflexivity.
  Qed.
  Lemma start_held iv ad s : start k u iv ad = Some s -> fits (match ad with Some l => l | None => [] end) -> held s = 0.
  Proof.
    intros H Hf. rewrite start_ok in H by exact Hf. destruct (u_init u iv) as [s0|] eqn:E; [|discriminate]. destruct HW as (W0 & W1 & _).
    rewrite (W1 _ _ _ H). apply (W0 _ _ E).
  Qed.
  (** The calls with input, over memory of the right size: as one call. *)
  Lemma runS enc same s mi mo il ol : k <> EvpBlocks ->
    blen mi = sumL il -> blen mo = sumL il -> sumL ol = sumL il -> Forall (fun n => n <= int_max) il -> (same = true -> mi = mo) ->
    match u_upd u s mi with
    | Some (s', o) => exists mi', tbuf (chunk k enc u) same s mi mo il ol = (mi', o, Ok s') /\ blen o = blen mo /\ held s' = held s
    | None => exists mi' mo', tbuf (chunk k enc u) same s mi mo il ol = (mi', mo', fail) /\ blen mo' = blen mo
    end.
  Proof.
    intros Hk H1 H2 H3 Hl Hs. destruct HP as (_ & _ & P0 & P1). destruct HW as (_ & _ & W).
    assert (W' : forall s x s' o, u_upd u s x = Some (s', o) -> held s' = held s /\ blen o = blen x).
    { intros s0 x s' o E. specialize (W _ _ _ _ E). destruct k; [exact W|congruence|exact W]. }
    pose proof (tb_ok (chunk k enc u) same (u_upd u) int_max (chunk_ok enc) P0 P1 (fun s x s' o E => proj2 (W' s x s' o E))
      (length il + length ol + N.to_nat (sumL il)) s mi mo 0 0 il ol (le_n _) ltac:(lia) Hl ltac:(lia) ltac:(lia) ltac:(auto)) as X.
    rewrite <- H1, rd_all, H1 in X. fold (tbuf (chunk k enc u) same s mi mo il ol) in X.
    destruct (u_upd u s mi) as [[s' o]|] eqn:E; [|exact X]. destruct (W' _ _ _ _ E) as [A B]. destruct X as [mi' X]. rewrite put_full in X by lia.
    exists mi'. split; [exact X|]. split; [lia|exact A].
  Qed.
  Lemma runB enc same s mi mo il ol : k = EvpBlocks -> held s = 0 ->
    blen mi = sumL il -> blen mo = sumL il -> sumL ol = sumL il -> Forall (fun n => n <= int_max) il -> (same = true -> mi = mo) ->
    match u_upd u s mi with
    | Some (s', o) => exists mi' ol', tblocks (chunk k enc u) same s mi mo il ol = (mi', put mo 0 o, Ok (s', blen o, ol')) /\
                        blen o + held s' = blen mo /\ held s' < block_size /\ sumL ol' = held s'
    | None => exists mi' mo', tblocks (chunk k enc u) same s mi mo il ol = (mi', mo', fail) /\ blen mo' = blen mo
    end.
  Proof.
    intros Hk Hh H1 H2 H3 Hl Hs. destruct HP as (_ & _ & P0 & P1). destruct HW as (_ & _ & W). destruct block_lim as (B1 & B2 & B3).
    assert (W' : forall s x s' o, u_upd u s x = Some (s', o) -> held s < block_size -> held s' = (held s + blen x) mod block_size /\ blen o = held s + blen x - (held s + blen x) mod block_size).
    { intros s0 x s' o E. specialize (W _ _ _ _ E). rewrite Hk in W. exact W. }
    pose proof (bl_ok (chunk k enc u) same (u_upd u) int_max (chunk_ok enc) P0 P1 held block_size B1 B2 B3 W'
      (N.to_nat (sumL il)) (zeros kMaxBlock) s mi mo 0 0 il ol ltac:(lia) (blen_zeros _) (le_n _)) as X.
    specialize (X ltac:(rewrite Hh, N.add_0_l, H3; apply N.le_sub_l) Hl ltac:(lia) ltac:(lia) ltac:(intros Y; rewrite Hh; auto)).
    rewrite Hh in X. fold (tblocks (chunk k enc u) same s mi mo il ol) in X. rewrite <- H1, rd_all in X.
    destruct (u_upd u s mi) as [[s' o]|] eqn:E; [|exact X]. destruct (W' _ _ _ _ E ltac:(lia)) as [A B]. destruct X as (mi' & ol' & X & Y).
    rewrite N.add_0_l in X. exists mi', ol'. split; [exact X|]. rewrite Hh, N.add_0_l in A, B. pose proof (N.mod_le (blen mi) block_size ltac:(lia)) as M.
    pose proof (N.mod_lt (blen mi) block_size ltac:(lia)) as M'. rewrite A, B, Y, B. split; [lia|]. split; [exact M'|]. lia.
  Qed.
  Lemma place_ok mo op ol w h : sumL ol = h -> blen w = h -> h < block_size -> op + h = blen mo -> place mo op ol h w = Ok (put mo op w).
  Proof.
    intros H1 H2 H3 H4. unfold place. destruct block_lim as (B1 & B2 & B3). destruct (N.leb_spec h (hd 0 ol)) as [X|X].
    - destruct (N.ltb_spec (hd 0 ol) (blen w)); [lia|]. apply poke_put. lia.
    - unfold kMaxBlock. destruct (N.ltb_spec 128 (blen w)); [lia|]. destruct (advance_sumL (blen w) ol ltac:(lia)) as (l' & E & _). rewrite E. cbn [bind]. apply poke_put. lia.
  Qed.
  (** ... and with the last call, which writes [w] *)
  Lemma finB enc same s mi mo il ol s' o : k = EvpBlocks -> held s = 0 ->
    blen mi = sumL il -> blen mo = sumL il -> sumL ol = sumL il -> Forall (fun n => n <= int_max) il -> (same = true -> mi = mo) ->
    u_upd u s mi = Some (s', o) ->
    exists mi' ol', tblocks (chunk k enc u) same s mi mo il ol = (mi', put mo 0 o, Ok (s', blen o, ol')) /\ blen (put mo 0 o) = blen mo /\
      forall w, blen w = held s' -> place (put mo 0 o) (blen o) ol' (sumL il - blen o) w = Ok (o ++ w) /\ blen (o ++ w) = blen mo.
  Proof.
    intros Hk Hh H1 H2 H3 Hl Hs E. pose proof (runB enc same s mi mo il ol Hk Hh H1 H2 H3 Hl Hs) as X. rewrite E in X.
    destruct X as (mi' & ol' & X & A & B & C). exists mi', ol'. split; [exact X|]. split; [apply blen_put; lia|]. intros w Hw.
    replace (sumL il - blen o) with (held s') by lia. rewrite (place_ok _ _ _ _ (held s')) by (try assumption; rewrite blen_put by lia; lia).
    rewrite blen_app. split; [|lia]. f_equal. replace (blen o) with (0 + blen o) by lia. rewrite put_put by lia. apply put_full. rewrite blen_app. lia.
  Qed.
End Calls.

Section EncDec.
  Context {St : Type}.
  Lemma encL_ok k tagLen held (L : elib St) same s mi mo il ol : good_elib k tagLen held L -> held s = 0 ->
    blen mi = sumL il -> blen mo = sumL il -> sumL ol = sumL il -> Forall (fun n => n <= int_max) il -> (same = true -> mi = mo) ->
    match match u_upd (el_u L) s mi with Some (s1, c) => match el_fin L s1 with Some (s2, w) => Some (s2, c ++ w) | None => None end | None => None end with
    | Some (s2, x) => encL k L same s mi mo il ol = (x, Ok s2) /\ blen x = blen mo
    | None => exists m', encL k L same s mi mo il ol = (m', fail) /\ blen m' = blen mo
    end.
  Proof.
    intros (HP & HW & HF & HT) Hh H1 H2 H3 Hl Hs. unfold encL.
    assert (D : k = EvpBlocks \/ k <> EvpBlocks) by (destruct k; [right|left|right]; congruence). destruct D as [D|D].
    - destruct (u_upd (el_u L) s mi) as [[s1 c]|] eqn:E.
      + destruct (finB k held (el_u L) HP HW true same s mi mo il ol s1 c D Hh H1 H2 H3 Hl Hs E) as (mi' & ol' & X & Y & Z). rewrite D in X |- *.
        rewrite X. destruct (el_fin L s1) as [[s2 w]|] eqn:E2; [|eauto]. destruct (Z w (HF _ _ _ E2)) as [Z1 Z2]. rewrite Z1. auto.
      + pose proof (runB k held (el_u L) HP HW true same s mi mo il ol D Hh H1 H2 H3 Hl Hs) as X. rewrite E in X. destruct X as (mi' & mo' & X & Y).
        rewrite D in X |- *. rewrite X. exists mo'. split; [reflexivity|exact Y].
    - pose proof (runS k held (el_u L) HP HW true same s mi mo il ol D H1 H2 H3 Hl Hs) as X.
      replace (match k with EvpBlocks => _ | _ => _ end) with
        (let '(_, m, r) := tbuf (chunk k true (el_u L)) same s mi mo il ol in
         match r with Err e => (m, Err e) | Ok s1 => match el_fin L s1 with None => (m, fail) | Some (s2, w) => if blen w =? 0 then (m, Ok s2) else (m, Err EUB) end end)
        by (destruct k; [reflexivity|congruence|reflexivity]).
      destruct (u_upd (el_u L) s mi) as [[s1 c]|] eqn:E.
      + destruct X as (mi' & X & Y & Z). rewrite X. destruct (el_fin L s1) as [[s2 w]|] eqn:E2; [|eauto]. pose proof (HF _ _ _ E2) as W.
        rewrite Z, Hh in W. rewrite W. cbn [N.eqb]. apply blen_0 in W. subst w. rewrite app_nil_r. auto.
      + destruct X as (mi' & mo' & X & Y). rewrite X. exists mo'. split; [reflexivity|exact Y].
  Qed.
  Lemma decL_ok k held (D : dlib St) same s mi mo il ol tag : good_dlib k held D -> held s = 0 ->
    blen mi = sumL il -> blen mo = sumL il -> sumL ol = sumL il -> Forall (fun n => n <= int_max) il -> (same = true -> mi = mo) ->
    match match u_upd (dl_u D) s mi with Some (s1, c) => match dl_set D s1 tag with Some s2 => Some (match dl_fin D s2 with Some w => Some (c ++ w) | None => None end) | None => None end | None => None end with
    | Some (Some x) => decL k D same s mi mo il ol tag = (x, Ok true) /\ blen x = blen mo
    | Some None => exists m', decL k D same s mi mo il ol tag = (m', Ok false) /\ blen m' = blen mo
    | None => exists m', decL k D same s mi mo il ol tag = (m', fail) /\ blen m' = blen mo
    end.
  Proof.
    intros (HP & HW & HT & HF) Hh H1 H2 H3 Hl Hs. unfold decL.
    assert (K : k = EvpBlocks \/ k <> EvpBlocks) by (destruct k; [right|left|right]; congruence). destruct K as [K|K].
    - destruct (u_upd (dl_u D) s mi) as [[s1 c]|] eqn:E.
      + destruct (finB k held (dl_u D) HP HW false same s mi mo il ol s1 c K Hh H1 H2 H3 Hl Hs E) as (mi' & ol' & X & Y & Z). rewrite K in X |- *.
        rewrite X. destruct (dl_set D s1 tag) as [s2|] eqn:E2; [|eauto]. destruct (dl_fin D s2) as [w|] eqn:E3; [|eauto].
        destruct (Z w) as [Z1 Z2]; [rewrite (HF _ _ E3); apply (HT _ _ _ E2)|]. rewrite Z1. auto.
      + pose proof (runB k held (dl_u D) HP HW false same s mi mo il ol K Hh H1 H2 H3 Hl Hs) as X. rewrite E in X. destruct X as (mi' & mo' & X & Y).
        rewrite K in X |- *. rewrite X. exists mo'. split; [reflexivity|exact Y].
    - pose proof (runS k held (dl_u D) HP HW false same s mi mo il ol K H1 H2 H3 Hl Hs) as X.
      replace (match k with EvpBlocks => _ | _ => _ end) with
        (let '(_, m, r) := tbuf (chunk k false (dl_u D)) same s mi mo il ol in
         match r with
         | Err e => (m, Err e)
         | Ok s1 => match dl_set D s1 tag with
                    | None => (m, fail)
                    | Some s2 => match dl_fin D s2 with None => (m, Ok false) | Some w => if blen w =? 0 then (m, Ok true) else (m, Err EUB) end
                    end
         end)
        by (destruct k; [reflexivity|congruence|reflexivity]).
      destruct (u_upd (dl_u D) s mi) as [[s1 c]|] eqn:E.
      + destruct X as (mi' & X & Y & Z). rewrite X. destruct (dl_set D s1 tag) as [s2|] eqn:E2; [|eauto]. destruct (dl_fin D s2) as [w|] eqn:E3; [|eauto].
        pose proof (HF _ _ E3) as W. rewrite (HT _ _ _ E2), Z, Hh in W. rewrite W. cbn [N.eqb]. apply blen_0 in W. subst w. rewrite app_nil_r. auto.
      + destruct X as (mi' & mo' & X & Y). rewrite X. exists mo'. split; [reflexivity|exact Y].
  Qed.
End EncDec.

(** ** Chains *)
Lemma sum_lens c : sumL (lens c) = blen (flat c).
Proof. induction c as [|b r IH]; [reflexivity|]. unfold lens, flat in *. cbn [map sumL concat]. rewrite IH, blen_app. reflexivity. Qed.
Lemma fits_lens c : fits (map b_data c) -> Forall (fun n => n <= int_max) (lens c).
Proof. unfold fits, lens. induction c as [|b r IH]; intros H; cbn in *; [constructor|]. inversion H; subst. constructor; auto. Qed.
Lemma flat_recut c : forall m, blen m = blen (flat c) -> flat (recut c m) = m.
Proof.
  induction c as [|b r IH]; intros m H; unfold flat in *; cbn [recut map concat b_data] in *; [symmetry; apply blen_0; rewrite H; reflexivity|].
  rewrite blen_app in H. rewrite IH by (rewrite blen_dropN; lia). apply takeN_dropN.
Qed.
(** [m] is memory of the same size, with the same tailrooms. *)
Definition kept_tails (c : chain) (m : list bytes) : Prop := Forall2 (fun b x => exists d, x = d ++ b_tail b /\ blen d = blen (b_data b)) c m.
Lemma recut_tails c : forall m, blen m = blen (flat c) -> kept_tails c (memory (recut c m)).
Proof.
  induction c as [|b r IH]; intros m H; unfold flat, kept_tails, memory in *; cbn [recut map concat b_data b_tail] in *; [constructor|].
  rewrite blen_app in H. constructor; [|apply IH; rewrite blen_dropN; lia]. eexists. split; [reflexivity|]. rewrite blen_takeN. lia.
Qed.
Lemma recut_shape c : forall m, map b_head (recut c m) = map b_head c /\ map b_tail (recut c m) = map b_tail c /\ map b_shared (recut c m) = map b_shared c.
Proof. induction c as [|b r IH]; intros m; cbn; [auto|]. destruct (IH (dropN (blen (b_data b)) m)) as (A & B & C). rewrite A, B, C. auto. Qed.
Lemma recut_last c m : last_tail (recut c m) = last_tail c.
Proof.
  unfold last_tail. assert (E : map b_tail (rev (recut c m)) = map b_tail (rev c)) by (rewrite !map_rev; f_equal; apply recut_shape).
  destruct (rev (recut c m)), (rev c); cbn in E; congruence.
Qed.
Lemma recut_nil c m : c <> [] -> recut c m <> [].
Proof. destruct c; [auto|discriminate]. Qed.
Lemma flat_grow c t : c <> [] -> flat (grow c t) = flat c ++ t.
Proof.
  unfold flat. induction c as [|b r IH]; [congruence|]. intros _. destruct r as [|b' r]; [cbn; rewrite !app_nil_r; reflexivity|].
  change (grow (b :: b' :: r) t) with (b :: grow (b' :: r) t). cbn [map concat] in *. rewrite IH by discriminate. rewrite <- !app_assoc. reflexivity.
Qed.
Lemma flat_app c d : flat (c ++ d) = flat c ++ flat d.
Proof. unfold flat. rewrite map_app, concat_app. reflexivity. Qed.
Lemma last_tail_cons b b' r : last_tail (b :: b' :: r) = last_tail (b' :: r).
Proof. unfold last_tail. change (rev (b :: b' :: r)) with (rev (b' :: r) ++ [b]). destruct (rev (b' :: r)) eqn:E; [|reflexivity]. apply (f_equal (@length iob)) in E. rewrite rev_length in E. discriminate E. Qed.
Lemma grow_shape c t : blen t <= blen (last_tail c) -> map b_head (grow c t) = map b_head c /\ map (@blen byte) (memory (grow c t)) = map (@blen byte) (memory c).
Proof.
  induction c as [|b r IH]; [auto|]. destruct r as [|b' r]; intros H.
  - unfold last_tail in H. cbn in H. unfold memory. cbn. rewrite !blen_app, blen_dropN. split; [reflexivity|]. f_equal. lia.
  - rewrite last_tail_cons in H. destruct (IH H) as [A B]. change (grow (b :: b' :: r) t) with (b :: grow (b' :: r) t). unfold memory in *. cbn [map] in *. rewrite A, B. auto.
Qed.
Lemma blen_junk a n : blen (junk a n) = n.
Proof. unfold junk. rewrite blen_repeat. lia. Qed.

Section Top.
  Context {St : Type}.
  (** A chain may be encrypted if it is allowed to allocate, or may be changed and has room for the tag. *)
  Lemma can_encrypt_eq tagLen o c : can_encrypt tagLen o c = (ao_alloc o || (in_place c o && may_grow c o && (tagLen <=? blen (last_tail c)))).
  Proof. unfold can_encrypt, may_grow, in_place. destruct (ao_buf o), (is_shared c); cbn; rewrite ?andb_true_r, ?orb_false_r, ?orb_true_r; reflexivity. Qed.
  Lemma can_decrypt_eq tagLen o c : can_decrypt tagLen o c = (ao_alloc o || (in_place c o && (tagLen <=? last_len c))).
  Proof. unfold can_decrypt, in_place. destruct (ao_buf o), (is_shared c); reflexivity. Qed.

  (** *** Encryption
      For every layout of the plaintext and associated data, every option and whatever memory the allocator gives: if the options allow it, the result is
      the encryption of the flat bytes; if not, or the library fails, it is an error. *)
Theorem C78_encrypt k tagLen held (L : elib St) headroom o a iv ad c :
    good_elib k tagLen held L -> c <> [] -> fits (map b_data c) -> fits (match ad with Some l => l | None => [] end) -> headroom + blen (flat c) + tagLen < 2 ^ 64 ->
    match seal L iv (ad_bytes ad) (flat c) with
    | Some ct => if can_encrypt tagLen o c then exists mem out, encryptHelper k L tagLen headroom o a iv ad c = (mem, Ok out) /\ flat out = ct
                 else exists mem, encryptHelper k L tagLen headroom o a iv ad c = (mem, fail)
    | None => exists mem, encryptHelper k L tagLen headroom o a iv ad c = (mem, fail)
    end.
  Proof.
    intros G Hc Hf Ha Hlen. pose proof G as (HP & HW & HF & HT). unfold encryptHelper, seal. rewrite (start_ok k held (el_u L) HP HW iv ad Ha).
    assert (Hh : forall s, match u_init (el_u L) iv with Some s => u_ad (el_u L) s (ad_bytes ad) | None => None end = Some s -> held s = 0).
    { intros s E. apply (start_held k held (el_u L) HP HW iv ad); [rewrite (start_ok k held (el_u L) HP HW iv ad Ha); assumption|assumption]. }
    destruct (u_init (el_u L) iv) as [s0|]; [|eauto]. destruct (u_ad (el_u L) s0 (ad_bytes ad)) as [s1|] eqn:E1; [|eauto]. specialize (Hh s1 eq_refl).
    rewrite can_encrypt_eq. destruct (in_place c o) eqn:Ei; cbn [negb andb].
    - (* in place *)
      pose proof (encL_ok k tagLen held L true s1 (flat c) (flat c) (lens c) (lens c) G Hh ltac:(rewrite sum_lens; reflexivity) ltac:(rewrite sum_lens; reflexivity) eq_refl (fits_lens c Hf) ltac:(auto)) as X.
      destruct (u_upd (el_u L) s1 (flat c)) as [[s2 x]|]; [|destruct X as (m' & X & _); rewrite X; cbn; eauto].
      destruct (el_fin L s2) as [[s3 w]|]; [|destruct X as (m' & X & _); rewrite X; cbn; eauto]. destruct X as [X B]. rewrite X.
      unfold add_tag. rewrite recut_last.
      destruct (el_tag L s3) as [t|] eqn:Et.
      + destruct (N.ltb_spec (blen (last_tail c)) tagLen) as [Hr|Hr]; cbn [orb].
        * destruct (N.leb_spec tagLen (blen (last_tail c))); [lia|]. rewrite andb_false_r, orb_false_r. destruct (ao_alloc o); cbn [negb]; [|eauto].
          eexists _, _. split; [reflexivity|]. rewrite flat_app, flat_recut by exact B. unfold flat. cbn. rewrite app_nil_r, <- app_assoc. reflexivity.
        * destruct (N.leb_spec tagLen (blen (last_tail c))); [|lia]. rewrite andb_true_r. destruct (may_grow c o); cbn [negb].
          -- rewrite orb_true_r. eexists _, _. split; [reflexivity|]. rewrite flat_grow by (apply recut_nil, Hc). rewrite flat_recut by exact B. rewrite <- app_assoc. reflexivity.
          -- rewrite orb_false_r. destruct (ao_alloc o); cbn [negb]; [|eauto].
             eexists _, _. split; [reflexivity|]. rewrite flat_app, flat_recut by exact B. unfold flat. cbn. rewrite app_nil_r, <- app_assoc. reflexivity.
      + destruct ((blen (last_tail c) <? tagLen) || negb (may_grow c o)); [destruct (negb (ao_alloc o))|]; eauto.
    - destruct (ao_alloc o) eqn:Eo; cbn [negb].
      2:{ cbn [orb]. destruct (u_upd (el_u L) s1 (flat c)) as [[s2 x]|]; [|eauto]. destruct (el_fin L s2) as [[s3 w]|]; [|eauto]. destruct (el_tag L s3); eauto. }
      destruct (N.leb_spec (2 ^ 64) (headroom + blen (flat c) + tagLen)); [lia|].
      pose proof (encL_ok k tagLen held L false s1 (flat c) (junk a (blen (flat c))) (lens c) [blen (flat c)] G Hh ltac:(rewrite sum_lens; reflexivity)
        ltac:(rewrite blen_junk, sum_lens; reflexivity) ltac:(rewrite sum_lens; cbn; lia) (fits_lens c Hf) ltac:(discriminate)) as X.
      destruct (u_upd (el_u L) s1 (flat c)) as [[s2 x]|]; [|destruct X as (m' & X & _); rewrite X; cbn; eauto].
      destruct (el_fin L s2) as [[s3 w]|]; [|destruct X as (m' & X & _); rewrite X; cbn; eauto]. destruct X as [X B]. rewrite X.
      unfold add_tag, last_tail. cbn [rev app b_tail]. rewrite blen_junk. destruct (N.ltb_spec (tagLen + al_more a) tagLen); [lia|].
      unfold may_grow. rewrite Ei, !orb_true_r. cbn [negb orb]. destruct (el_tag L s3) as [t|] eqn:Et; [|eauto].
      cbn [snd]. eexists _, _. split; [reflexivity|]. unfold flat. cbn. rewrite app_nil_r, <- app_assoc. reflexivity.
  Qed.

  (** *** Decryption *)
  Lemma trim_prefix rc : forall n r' t, trim_rev rc n = Ok (r', t) -> Forall2 (fun x d : bytes => exists y, x = d ++ y) rc r'.
  Proof.
    induction rc as [|x rest IH]; intros n r' t H; cbn [trim_rev] in H.
    - destruct (n =? 0); [|discriminate]. injection H as <- _. constructor.
    - set (u := N.min n (blen x)) in *. assert (P : exists y, x = takeN (blen x - u) x ++ y) by (eexists; symmetry; apply takeN_dropN).
      destruct (n - u =? 0).
      + injection H as <- _. constructor; [exact P|]. clear. induction rest; constructor; auto. exists []. rewrite app_nil_r. reflexivity.
      + destruct (trim_rev rest (n - u)) as [[rest' pre]|] eqn:E; [|discriminate H]. cbn in H. injection H as <- _. constructor; [exact P|apply (IH _ _ _ E)].
  Qed.
  Lemma trimB_prefix l n ds t : trimBytes l n = Ok (ds, t) -> Forall2 (fun x d : bytes => exists y, x = d ++ y) l ds.
  Proof.
    unfold trimBytes. destruct (trim_rev (rev l) n) as [[r t']|] eqn:E; [|discriminate]. cbn. intros H. injection H as <- _.
    apply trim_prefix in E. rewrite <- (rev_involutive l). clear -E. induction E as [|x y l1 l2 H E IH]; cbn [rev]; [constructor|]. apply Forall2_app; [exact IH|constructor; [exact H|constructor]].
  Qed.
  Lemma shorten_facts c : forall ds, Forall2 (fun x d : bytes => exists y, x = d ++ y) (map b_data c) ds ->
    map b_data (shorten c ds) = ds /\ memory (shorten c ds) = memory c /\ map b_shared (shorten c ds) = map b_shared c.
  Proof.
    unfold memory. induction c as [|b r IH]; intros ds H; cbn [map] in H; inversion H; subst; cbn [shorten map b_data b_tail b_shared]; [auto|].
    destruct (IH _ H4) as (A & B & C). rewrite A, B, C. destruct H2 as [z Hz]. repeat split; f_equal. rewrite Hz, dropN_app by reflexivity. rewrite app_assoc. reflexivity.
  Qed.
Theorem C78_decrypt k tagLen held (D : dlib St) o a iv ad c :
    good_dlib k held D -> fits (map b_data c) -> fits (match ad with Some l => l | None => [] end) ->
    match unseal D tagLen iv (ad_bytes ad) (flat c) with
    | Some r => if can_decrypt tagLen o c || (blen (flat c) <? tagLen) then exists mem out, tryDecrypt k D tagLen o a iv ad c = (mem, Ok out) /\ option_map flat out = r
                else exists mem, tryDecrypt k D tagLen o a iv ad c = (mem, fail)
    | None => exists mem, tryDecrypt k D tagLen o a iv ad c = (mem, fail)
    end.
  Proof.
    intros G Hf Ha. pose proof G as (HP & HW & HT & HF). unfold tryDecrypt, unseal. destruct (N.ltb_spec (blen (flat c)) tagLen) as [Hl|Hl].
    { rewrite orb_true_r. eexists _, None. split; reflexivity. }
    rewrite orb_false_r, can_decrypt_eq.
    (* the options *)
    assert (Opt : (if negb (in_place c o) && negb (ao_alloc o) then true else (last_len c <? tagLen) && negb (ao_alloc o)) = negb (ao_alloc o || (in_place c o && (tagLen <=? last_len c)))).
    { destruct (in_place c o), (ao_alloc o); cbn; rewrite ?andb_true_r, ?andb_false_r; try reflexivity. rewrite N.leb_antisym, negb_involutive. reflexivity. }
    set (body := match trimBytes (map b_data c) tagLen with Err e => _ | Ok (ds, tag) => _ end).
    replace (if negb (in_place c o) && negb (ao_alloc o) then _ else _) with (if negb (ao_alloc o || (in_place c o && (tagLen <=? last_len c))) then (memory c, fail) else body)
      by (rewrite <- Opt; destruct (negb (in_place c o) && negb (ao_alloc o)); reflexivity).
    destruct (C18_trimBytes (map b_data c) tagLen Hl) as (ds & tag & Et & Ec & El). unfold body. clear body Opt. rewrite Et.
    destruct (shorten_facts c ds (trimB_prefix _ _ _ _ Et)) as (S1 & S2 & S3). set (c1 := shorten c ds) in *.
    assert (Fc : flat c1 = takeN (blen (flat c) - tagLen) (flat c)).
    { unfold flat at 1. rewrite S1. unfold flat. rewrite <- Ec, blen_app, El. symmetry. apply takeN_app. lia. }
    assert (Tc : tag = dropN (blen (flat c) - tagLen) (flat c)).
    { unfold flat. rewrite <- Ec, blen_app, El. symmetry. apply dropN_app. lia. }
    assert (Hf1 : fits (map b_data c1)).
    { rewrite S1. pose proof (trimB_prefix _ _ _ _ Et) as Q. unfold fits in *. clear -Q Hf. induction Q as [|x d l1 l2 [y ->] Q IH]; [constructor|].
      inversion Hf; subst. rewrite blen_app in *. constructor; [lia|auto]. }
    rewrite <- Fc, <- Tc. unfold decryptHelper. rewrite (start_ok k held (dl_u D) HP HW iv ad Ha).
    assert (Hh : forall s, match u_init (dl_u D) iv with Some s => u_ad (dl_u D) s (ad_bytes ad) | None => None end = Some s -> held s = 0).
    { intros s E. apply (start_held k held (dl_u D) HP HW iv ad); [rewrite (start_ok k held (dl_u D) HP HW iv ad Ha); assumption|assumption]. }
    destruct (ao_alloc o || in_place c o && (tagLen <=? last_len c)) eqn:Eo; cbn [negb].
    2:{ destruct (u_init (dl_u D) iv) as [s0|]; [|eauto]. destruct (u_ad (dl_u D) s0 (ad_bytes ad)) as [s1|]; [|eauto].
        destruct (u_upd (dl_u D) s1 (flat c1)) as [[s2 x]|]; [|eauto]. destruct (dl_set D s2 tag); eauto. }
    destruct (u_init (dl_u D) iv) as [s0|]; [|eauto]. destruct (u_ad (dl_u D) s0 (ad_bytes ad)) as [s1|] eqn:E1; [|eauto]. specialize (Hh s1 eq_refl).
    destruct (in_place c o).
    - pose proof (decL_ok k held D true s1 (flat c1) (flat c1) (lens c1) (lens c1) tag G Hh ltac:(rewrite sum_lens; reflexivity) ltac:(rewrite sum_lens; reflexivity) eq_refl (fits_lens c1 Hf1) ltac:(auto)) as X.
      destruct (u_upd (dl_u D) s1 (flat c1)) as [[s2 x]|]; [|destruct X as (m' & X & _); rewrite X; cbn; eauto].
      destruct (dl_set D s2 tag) as [s3|]; [|destruct X as (m' & X & _); rewrite X; cbn; eauto].
      destruct (dl_fin D s3) as [w|].
      + destruct X as [X B]. rewrite X. cbn. eexists _, _. split; [reflexivity|]. cbn. rewrite flat_recut by exact B. reflexivity.
      + destruct X as (m' & X & B). rewrite X. cbn. eexists _, _. split; reflexivity.
    - pose proof (decL_ok k held D false s1 (flat c1) (junk a (blen (flat c1))) (lens c1) [blen (flat c1)] tag G Hh ltac:(rewrite sum_lens; reflexivity)
        ltac:(rewrite blen_junk, sum_lens; reflexivity) ltac:(rewrite sum_lens; cbn; lia) (fits_lens c1 Hf1) ltac:(discriminate)) as X.
      destruct (u_upd (dl_u D) s1 (flat c1)) as [[s2 x]|]; [|destruct X as (m' & X & _); rewrite X; cbn; eauto].
      destruct (dl_set D s2 tag) as [s3|]; [|destruct X as (m' & X & _); rewrite X; cbn; eauto].
      destruct (dl_fin D s3) as [w|].
      + destruct X as [X B]. rewrite X. cbn. eexists _, _. split; [reflexivity|]. cbn. unfold flat. cbn. rewrite app_nil_r. reflexivity.
      + destruct X as (m' & X & B). rewrite X. cbn. eexists _, _. split; reflexivity.
  Qed.
End Top.

(** ** What happens to the caller's memory, whatever the library does *)
Lemma poke_len m p o m' : poke m p o = Ok m' -> blen m' = blen m.
Proof. unfold poke. destruct (N.ltb_spec (blen m) (p + blen o)); [discriminate|]. intros X. injection X as <-. rewrite !blen_app, blen_takeN, blen_dropN. lia. Qed.
Section Len.
  Context {St : Type}.
  Variable f : St -> bytes -> option (St * bytes).
  Variable same : bool.
  Lemma tb_len : forall fuel s mi mo ip op il ol mi' mo' r, tb f same fuel s mi mo ip op il ol = (mi', mo', r) -> blen mo' = blen mo.
  Proof.
    induction fuel as [|g IH]; intros s mi mo ip op il ol mi' mo' r; destruct il as [|n il]; cbn [tb].
    - intros X. injection X as _ <- _. reflexivity.
    - destruct (n =? 0); [|destruct ol]; intros X; injection X as _ <- _; reflexivity.
    - intros X. injection X as _ <- _. reflexivity.
    - destruct (n =? 0); [apply IH|]. destruct ol as [|c cs]; [intros X; injection X as _ <- _; reflexivity|].
      destruct (f s (rd mi ip (N.min c n))) as [[s' o]|]; [|intros X; injection X as _ <- _; reflexivity].
      destruct (poke mo op o) as [mo1|] eqn:E; [|intros X; injection X as _ <- _; reflexivity]. intros X. rewrite (IH _ _ _ _ _ _ _ _ _ _ X). apply (poke_len _ _ _ _ E).
  Qed.
  Lemma bl_len : forall fuel bs bb s mi mo ip op ib il ol mi' mo' r, bl f same fuel bs bb s mi mo ip op ib il ol = (mi', mo', r) -> blen mo' = blen mo.
  Proof.
    induction fuel as [|g IH]; intros bs bb s mi mo ip op ib il ol mi' mo' r; cbn [bl]; destruct (skip0 il) as [|n rr].
    1-3: intros X; injection X as _ <- _; reflexivity.
    destruct (n + ib <? bs).
    - destruct (f s (rd mi ip n)) as [[s' o]|]; [|intros X; injection X as _ <- _; reflexivity].
      destruct (poke bb 0 o) as [bb'|]; [|intros X; injection X as _ <- _; reflexivity]. apply IH.
    - destruct (hd 0 (skip0 ol) <? bs).
      + destruct (f s (rd mi ip (bs - ib))) as [[s' o]|]; [|intros X; injection X as _ <- _; reflexivity].
        destruct (poke bb 0 o) as [bb'|]; [|intros X; injection X as _ <- _; reflexivity].
        destruct (advance (skip0 ol) bs); [|intros X; injection X as _ <- _; reflexivity].
        destruct (poke mo op (takeN bs bb')) as [mo1|] eqn:E; [|intros X; injection X as _ <- _; reflexivity].
        intros X. rewrite (IH _ _ _ _ _ _ _ _ _ _ _ _ _ X). apply (poke_len _ _ _ _ E).
      + destruct (f s (rd mi ip _)) as [[s' o]|]; [|intros X; injection X as _ <- _; reflexivity].
        destruct (hd 0 (skip0 ol) <? blen o); [intros X; injection X as _ <- _; reflexivity|].
        destruct (advance (skip0 ol) (blen o)); [|intros X; injection X as _ <- _; reflexivity].
        destruct (poke mo op o) as [mo1|] eqn:E; [|intros X; injection X as _ <- _; reflexivity].
        intros X. rewrite (IH _ _ _ _ _ _ _ _ _ _ _ _ _ X). apply (poke_len _ _ _ _ E).
  Qed.
End Len.
Lemma place_len mo op ol nb w m' : place mo op ol nb w = Ok m' -> blen m' = blen mo.
Proof.
  unfold place. destruct (nb <=? hd 0 ol).
  - destruct (hd 0 ol <? blen w); [discriminate|apply poke_len].
  - destruct (kMaxBlock <? blen w); [discriminate|]. destruct (advance ol (blen w)); [|discriminate]. cbn. apply poke_len.
Qed.
Lemma encL_len {St} k (L : elib St) same s mi mo il ol m r : encL k L same s mi mo il ol = (m, r) -> blen m = blen mo.
Proof.
  unfold encL. destruct k.
  1,3: destruct (tbuf _ _ _ _ _ _ _) as [[a b] c] eqn:E; unfold tbuf in E; apply tb_len in E; destruct c as [s1|e]; [|intros X; injection X as <- _; exact E];
    destruct (el_fin L s1) as [[s2 w]|]; [destruct (blen w =? 0)|]; intros X; injection X as <- _; exact E.
  destruct (tblocks _ _ _ _ _ _ _) as [[a b] c] eqn:E. unfold tblocks in E. apply bl_len in E. destruct c as [[[s1 op] ol']|e]; [|intros X; injection X as <- _; exact E].
  destruct (el_fin L s1) as [[s2 w]|]; [|intros X; injection X as <- _; exact E].
  destruct (place b op ol' (sumL il - op) w) as [m'|] eqn:P; intros X; injection X as <- _; [apply place_len in P; lia|exact E].
Qed.
Lemma decL_len {St} k (D : dlib St) same s mi mo il ol tag m r : decL k D same s mi mo il ol tag = (m, r) -> blen m = blen mo.
Proof.
  unfold decL. destruct k.
  1,3: destruct (tbuf _ _ _ _ _ _ _) as [[a b] c] eqn:E; unfold tbuf in E; apply tb_len in E; destruct c as [s1|e]; [|intros X; injection X as <- _; exact E];
    destruct (dl_set D s1 tag) as [s2|]; [destruct (dl_fin D s2) as [w|]; [destruct (blen w =? 0)|]|]; intros X; injection X as <- _; exact E.
  destruct (tblocks _ _ _ _ _ _ _) as [[a b] c] eqn:E. unfold tblocks in E. apply bl_len in E. destruct c as [[[s1 op] ol']|e]; [|intros X; injection X as <- _; exact E].
  destruct (dl_set D s1 tag) as [s2|]; [|intros X; injection X as <- _; exact E]. destruct (dl_fin D s2) as [w|]; [|intros X; injection X as <- _; exact E].
  destruct (place b op ol' (sumL il - op) w) as [m'|] eqn:P; intros X; injection X as <- _; [apply place_len in P; lia|exact E].
Qed.
Lemma kept_refl c : kept_tails c (memory c).
Proof. unfold kept_tails, memory. induction c as [|b r IH]; cbn; constructor; eauto. Qed.
Lemma grow_memory c t : blen t <= blen (last_tail c) -> memory (grow c t) <> [] \/ c = [].
Proof. destruct c as [|b [|b' r]]; [right; reflexivity|left; discriminate|left; discriminate]. Qed.
Lemma memory_len_recut c : forall m, blen m = blen (flat c) -> map (@blen byte) (memory (recut c m)) = map (@blen byte) (memory c).
Proof.
  induction c as [|b r IH]; intros m H; unfold flat, memory in *; cbn [recut map concat b_data b_tail] in *; [reflexivity|].
  rewrite blen_app in H. rewrite IH by (rewrite blen_dropN; lia). rewrite !blen_app, blen_takeN. f_equal. lia.
Qed.

(** *** Encryption and the caller's memory
    A shared chain whose sharing is to be respected is not changed; unless everything is allowed, the memory behind the data of a shared chain is not changed; if
    nothing may be allocated the result is in the caller's buffers.  All of this whether the encryption succeeds or not. *)
Theorem C78_encrypt_memory {St} k (L : elib St) tagLen headroom o a iv ad c mem r :
  encryptHelper k L tagLen headroom o a iv ad c = (mem, r) ->
  (is_shared c = true -> ao_buf o = Respect -> mem = memory c) /\
  (is_shared c = true -> ao_buf o <> AllowFull -> kept_tails c mem) /\
  ((forall s t, el_tag L s = Some t -> blen t = tagLen) -> map (@blen byte) mem = map (@blen byte) (memory c)) /\
  (ao_alloc o = false -> forall out, r = Ok out -> memory out = mem /\ map b_head out = map b_head c /\ length out = length c) /\
  (in_place c o = false -> forall out, r = Ok out -> exists b, out = [b] /\ b_head b = headroom /\ b_shared b = false).
Proof.
  unfold encryptHelper. destruct (start k (el_u L) iv ad) as [s|].
  2:{ intros X. injection X as <- <-. repeat split; intros; try discriminate; try reflexivity. apply kept_refl. }
  destruct (negb (in_place c o) && negb (ao_alloc o)) eqn:E0.
  { intros X. injection X as <- <-. repeat split; intros; try discriminate; try reflexivity. apply kept_refl. }
  destruct (in_place c o) eqn:Ei.
  - destruct (encL k L true s (flat c) (flat c) (lens c) (lens c)) as [m q] eqn:E. apply encL_len in E.
    assert (R : is_shared c = true -> ao_buf o = Respect -> False). { intros S B. unfold in_place in Ei. rewrite S, B in Ei. discriminate Ei. }
    destruct q as [s1|e].
    + unfold add_tag. rewrite recut_last.
      destruct ((blen (last_tail c) <? tagLen) || negb (may_grow c o)) eqn:Eg.
      * assert (Z : forall r0, (memory (recut c m), r0) = (mem, r) -> (ao_alloc o = false -> forall out, r0 <> Ok out) ->
          (is_shared c = true -> ao_buf o = Respect -> mem = memory c) /\ (is_shared c = true -> ao_buf o <> AllowFull -> kept_tails c mem) /\
          ((forall s t, el_tag L s = Some t -> blen t = tagLen) -> map (@blen byte) mem = map (@blen byte) (memory c)) /\
          (ao_alloc o = false -> forall out, r = Ok out -> memory out = mem /\ map b_head out = map b_head c /\ length out = length c) /\
          (true = false -> forall out, r = Ok out -> exists b, out = [b] /\ b_head b = headroom /\ b_shared b = false)).
        { intros r0 X Y. injection X as <- <-. split; [intros; exfalso; eauto|]. split; [intros; apply recut_tails, E|]. split; [intros; apply memory_len_recut, E|].
          split; [intros A out Q; exfalso; apply (Y A _ Q)|discriminate]. }
        destruct (ao_alloc o); cbn [negb]; [destruct (el_tag L s1)|]; intros X; apply (Z _ X); intros A out; discriminate.
      * destruct (el_tag L s1) as [t|] eqn:Et.
        -- intros X. injection X as <- <-. apply orb_false_iff in Eg. destruct Eg as [G1 G2]. apply N.ltb_ge in G1. apply negb_false_iff in G2.
           assert (HH : map b_head (grow (recut c m) t) = map b_head c /\ length (grow (recut c m) t) = length c).
           { assert (U : forall c' : chain, map b_head (grow c' t) = map b_head c').
             { clear. induction c' as [|b r IH]; [reflexivity|]. destruct r as [|b' r]; [reflexivity|]. change (grow (b :: b' :: r) t) with (b :: grow (b' :: r) t). cbn [map] in *. rewrite IH. reflexivity. }
             rewrite U. destruct (recut_shape c m) as (A & _). rewrite A. split; [reflexivity|]. rewrite <- (map_length b_head), U, A, map_length. reflexivity. }
           split; [intros; exfalso; eauto|]. split.
           { intros S B. exfalso. unfold may_grow in G2. rewrite S, Ei in G2. destruct (ao_buf o); [discriminate G2|discriminate G2|congruence]. }
           split.
           { intros T. rewrite (proj2 (grow_shape (recut c m) t ltac:(rewrite recut_last, (T _ _ Et); exact G1))). apply memory_len_recut, E. }
           split; [|discriminate]. intros A out Q. injection Q as <-. tauto.
        -- intros X. injection X as <- <-. split; [intros; exfalso; eauto|]. split; [intros; apply recut_tails, E|]. split; [intros; apply memory_len_recut, E|].
           split; [intros A out Q; discriminate|discriminate].
    + intros X. injection X as <- <-. split; [intros; exfalso; eauto|]. split; [intros; apply recut_tails, E|]. split; [intros; apply memory_len_recut, E|].
      split; [intros A out Q; discriminate|discriminate].
  - cbn [negb andb] in E0. apply negb_false_iff in E0.
    assert (Z : forall r0, (memory c, r0) = (mem, r) -> (forall out, r0 = Ok out -> exists b, out = [b] /\ b_head b = headroom /\ b_shared b = false) ->
      (is_shared c = true -> ao_buf o = Respect -> mem = memory c) /\ (is_shared c = true -> ao_buf o <> AllowFull -> kept_tails c mem) /\
      ((forall s t, el_tag L s = Some t -> blen t = tagLen) -> map (@blen byte) mem = map (@blen byte) (memory c)) /\
      (ao_alloc o = false -> forall out, r = Ok out -> memory out = mem /\ map b_head out = map b_head c /\ length out = length c) /\
      (false = false -> forall out, r = Ok out -> exists b, out = [b] /\ b_head b = headroom /\ b_shared b = false)).
    { intros r0 X Y. injection X as <- <-. split; [reflexivity|]. split; [intros; apply kept_refl|]. split; [reflexivity|]. split; [congruence|]. intros _. exact Y. }
    destruct (2 ^ 64 <=? headroom + blen (flat c) + tagLen); [intros X; apply (Z _ X); discriminate|].
    destruct (encL k L false s (flat c) (junk a (blen (flat c))) (lens c) [blen (flat c)]) as [m [s1|e]]; intros X; apply (Z _ X); [|discriminate].
    unfold add_tag, last_tail. cbn [rev app b_tail]. rewrite blen_junk. destruct (N.ltb_spec (tagLen + al_more a) tagLen); [lia|].
    unfold may_grow. rewrite Ei, !orb_true_r. cbn [negb orb]. destruct (el_tag L s1) as [t|]; cbn [snd]; [|discriminate].
    intros out Q. injection Q as <-. eexists. split; [reflexivity|]. split; reflexivity.
Qed.

(** *** Decryption and the caller's memory: a shared chain whose sharing is to be respected is not changed, nothing behind the data ever is, and without allocation
    the result is in the caller's buffers. *)
Lemma kept_shorten c ds m : Forall2 (fun x d : bytes => exists y, x = d ++ y) (map b_data c) ds -> kept_tails (shorten c ds) m -> kept_tails c m.
Proof.
  unfold kept_tails. revert ds m. induction c as [|b r IH]; intros ds m H K; cbn [map] in H; inversion H; subst; cbn [shorten] in K; inversion K; subst; constructor; eauto.
  destruct H2 as [z Hz]. destruct H3 as (d & A & B). cbn [b_tail b_data] in A, B. rewrite Hz, dropN_app in A by reflexivity. exists (d ++ z). rewrite <- app_assoc. split; [exact A|].
  rewrite Hz, !blen_app. lia.
Qed.
Lemma shorten_heads c ds : length ds = length c -> map b_head (shorten c ds) = map b_head c.
Proof. revert ds. induction c as [|b r IH]; intros [|d ds] H; cbn in *; try discriminate; [reflexivity|]. rewrite IH by lia. reflexivity. Qed.
Theorem C78_decrypt_memory {St} k (D : dlib St) tagLen o a iv ad c mem r :
  tryDecrypt k D tagLen o a iv ad c = (mem, r) ->
  (is_shared c = true -> ao_buf o = Respect -> mem = memory c) /\
  kept_tails c mem /\
  (ao_alloc o = false -> forall out, r = Ok (Some out) -> memory out = mem /\ map b_head out = map b_head c).
Proof.
  unfold tryDecrypt. destruct (blen (flat c) <? tagLen).
  { intros X. injection X as <- <-. repeat split; intros; try discriminate; try reflexivity. apply kept_refl. }
  destruct (negb (in_place c o) && negb (ao_alloc o)) eqn:E0.
  { intros X. injection X as <- <-. repeat split; intros; try discriminate; try reflexivity. apply kept_refl. }
  destruct ((last_len c <? tagLen) && negb (ao_alloc o)).
  { intros X. injection X as <- <-. repeat split; intros; try discriminate; try reflexivity. apply kept_refl. }
  destruct (trimBytes (map b_data c) tagLen) as [[ds tag]|e] eqn:Et.
  2:{ intros X. injection X as <- <-. repeat split; intros; try discriminate; try reflexivity. apply kept_refl. }
  pose proof (trimB_prefix _ _ _ _ Et) as P. destruct (shorten_facts c ds P) as (S1 & S2 & S3).
  assert (Ln : length ds = length c) by (clear -P; revert ds P; induction c as [|b r IH]; intros ds P; inversion P; subst; [reflexivity|cbn; f_equal; apply IH; assumption]).
  unfold decryptHelper. rewrite S2. destruct (start k (dl_u D) iv ad) as [s|].
  2:{ intros X. injection X as <- <-. repeat split; intros; try discriminate; try reflexivity. apply kept_refl. }
  destruct (in_place c o) eqn:Ei.
  - destruct (decL k D true s _ _ _ _ tag) as [m q] eqn:E. apply decL_len in E. intros X. injection X as <- <-.
    split; [intros S B; unfold in_place in Ei; rewrite S, B in Ei; discriminate Ei|]. split; [apply (kept_shorten _ _ _ P), recut_tails, E|].
    intros A out Q. destruct q as [[|]|]; cbn in Q; try discriminate. injection Q as <-. split; [reflexivity|]. destruct (recut_shape (shorten c ds) m) as (U & _). rewrite U. apply shorten_heads, Ln.
  - destruct (decL k D false s _ _ _ _ tag) as [m q]. intros X. injection X as <- <-. split; [reflexivity|]. split; [apply kept_refl|].
    intros A. rewrite A in E0. discriminate E0.
Qed.

(** *** Encryption, any re-cutting of the bytes, decryption *)
Theorem C78_roundtrip {St St'} k k' tagLen held held' (L : elib St) (D : dlib St') headroom o a iv ad ad' c mem out o' a' c' :
  good_elib k tagLen held L -> good_dlib k' held' D ->
  (forall pt ct, seal L iv (ad_bytes ad) pt = Some ct -> unseal D tagLen iv (ad_bytes ad) ct = Some (Some pt)) ->
  fits (map b_data c) -> fits (match ad with Some l => l | None => [] end) -> headroom + blen (flat c) + tagLen < 2 ^ 64 -> c <> [] ->
  fits (map b_data c') -> fits (match ad' with Some l => l | None => [] end) ->
  encryptHelper k L tagLen headroom o a iv ad c = (mem, Ok out) ->
  flat c' = flat out -> ad_bytes ad' = ad_bytes ad -> can_decrypt tagLen o' c' = true ->
  exists mem' p, tryDecrypt k' D tagLen o' a' iv ad' c' = (mem', Ok (Some p)) /\ flat p = flat c.
Proof.
  intros G G' HI F1 F2 Hl Hc F3 F4 E Ef Ea Hcan. pose proof (C78_encrypt k tagLen held L headroom o a iv ad c G Hc F1 F2 Hl) as X. rewrite E in X.
  destruct (seal L iv (ad_bytes ad) (flat c)) as [ct|] eqn:Es; [|destruct X as [? X]; discriminate X].
  destruct (can_encrypt tagLen o c); [|destruct X as [? X]; discriminate X]. destruct X as (? & ? & X & <-). injection X as <- <-.
  pose proof (C78_decrypt k' tagLen held' D o' a' iv ad' c' G' F3 F4) as Y. rewrite Ef, Ea, (HI _ _ Es), Hcan in Y. cbn [orb] in Y.
  destruct Y as (mem' & p & Y & Z). destruct p as [p|]; [|discriminate Z]. injection Z as Z. eauto.
Qed.

(** ** The cipher object *)
(** A key and IV are taken if and only if their lengths are right (and the library takes the key); a refused one leaves the old one in place. *)
Theorem C78_set_key ok ci key iv ci' r : setKey ok ci key iv = (ci', r) ->
  (r = Ok tt <-> blen key = ci_keyLen ci /\ blen iv = ci_ivLen ci /\ ok key = true) /\
  (blen key <> ci_keyLen ci \/ blen iv <> ci_ivLen ci -> ci' = ci) /\
  (r = Ok tt -> ci_key ci' = Some (key, iv)) /\
  ci_kind ci' = ci_kind ci /\ ci_ivLen ci' = ci_ivLen ci /\ ci_keyLen ci' = ci_keyLen ci /\ ci_tagLen ci' = ci_tagLen ci.
Proof.
  unfold setKey. destruct (N.eqb_spec (blen key) (ci_keyLen ci)) as [H1|H1]; cbn [negb].
  2:{ intros X. injection X as <- <-. repeat split; try (intros; discriminate); try (intros; tauto). }
  destruct (N.eqb_spec (blen iv) (ci_ivLen ci)) as [H2|H2]; cbn [negb].
  2:{ intros X. injection X as <- <-. repeat split; try (intros; discriminate); try (intros; tauto). }
  intros X. injection X as <- <-. cbn [ci_key ci_kind ci_ivLen ci_keyLen ci_tagLen].
  destruct (ok key) eqn:E; repeat split; try (intros; discriminate); try (intros; tauto). intros (_ & _ & X). discriminate X.
Qed.
(** Without a key nothing is encrypted or decrypted. *)
Theorem C78_no_key {St} (lib : bytes -> elib St) (dli : bytes -> dlib St) ci o a seq ad c : ci_key ci = None -> 8 <= ci_ivLen ci ->
  encryptSeq lib ci o a seq ad c = (memory c, Err ECheck) /\ decryptSeq dli ci o a seq ad c = (memory c, Err ECheck).
Proof.
  intros H Hi. unfold encryptSeq, decryptSeq, ci_nonce. rewrite H. unfold createIV. destruct (N.ltb_spec (ci_ivLen ci) 8); [lia|].
  unfold xor_checked. rewrite seqpad_len, blen_nil. destruct (N.eqb_spec 0 (N.of_nat (N.to_nat (ci_ivLen ci - 8)) + 8)); [lia|]. split; reflexivity.
Qed.
Definition r_map {A B} (f : A -> B) (r : res A) : res B := match r with Ok x => Ok (f x) | Err e => Err e end.
(** The AEAD that the record layer's model ([Record.aead]) sees: flat bytes, the nonce made from the sequence number. *)
Definition flat_aead {St St'} (lib : bytes -> elib St) (dli : bytes -> dlib St') (ci : cipher) (key iv : bytes) : aead :=
  mkAead (ci_tagLen ci)
    (fun pt ad seq => n <- createIV seq (ci_ivLen ci) iv ;;
       match seal (lib key) n (match ad with Some x => x | None => [] end) pt with Some ct => Ok ct | None => fail end)
    (fun ct ad seq => n <- createIV seq (ci_ivLen ci) iv ;;
       match unseal (dli key) (ci_tagLen ci) n (match ad with Some x => x | None => [] end) ct with
       | Some r => Ok (option_map (fun p => [p]) r) | None => fail end).
(** *** Refinement: with a key set and allocation allowed, the cipher over chains is that AEAD, however the data is cut. *)
Theorem C78_record {St St'} (lib : bytes -> elib St) (dli : bytes -> dlib St') held held' ci key iv o a seq ad c :
  ci_key ci = Some (key, iv) -> ao_alloc o = true ->
  good_elib (ci_kind ci) (ci_tagLen ci) held (lib key) -> good_dlib (ci_kind ci) held' (dli key) ->
  fits (map b_data c) -> fits (match ad with Some l => l | None => [] end) -> ci_headroom ci + blen (flat c) + ci_tagLen ci < 2 ^ 64 ->
  let F := flat_aead lib dli ci key iv in
  (c <> [] -> r_map flat (snd (encryptSeq lib ci o a seq ad c)) = ae_enc F (flat c) (option_map (@concat byte) ad) seq) /\
  r_map (option_map flat) (snd (decryptSeq dli ci o a seq ad c)) = r_map (option_map (@concat byte)) (ae_try F (flat c) (option_map (@concat byte) ad) seq).
Proof.
  intros Hk Ho G G' F1 F2 Hl F. unfold F, flat_aead, encryptSeq, decryptSeq, ci_nonce. rewrite Hk. cbn [ae_enc ae_try].
  destruct (createIV seq (ci_ivLen ci) iv) as [n|e]; [|split; reflexivity]. cbn [bind].
  assert (Ea : match option_map (@concat byte) ad with Some x => x | None => [] end = ad_bytes ad) by (destruct ad; reflexivity). rewrite Ea. split.
  - intros Hc. pose proof (C78_encrypt _ _ held (lib key) (ci_headroom ci) o a n ad c G Hc F1 F2 Hl) as X.
    assert (Hca : can_encrypt (ci_tagLen ci) o c = true) by (unfold can_encrypt; rewrite Ho; reflexivity). rewrite Hca in X.
    destruct (seal (lib key) n (ad_bytes ad) (flat c)) as [ct|]; [destruct X as (mem & out & X & Y); rewrite X; cbn [snd r_map]; rewrite Y; reflexivity|destruct X as (mem & X); rewrite X; reflexivity].
  - pose proof (C78_decrypt _ (ci_tagLen ci) held' (dli key) o a n ad c G' F1 F2) as X.
    assert (Hca : can_decrypt (ci_tagLen ci) o c = true) by (unfold can_decrypt; rewrite Ho; reflexivity). rewrite Hca in X. cbn [orb] in X.
    destruct (unseal (dli key) (ci_tagLen ci) n (ad_bytes ad) (flat c)) as [r|]; [destruct X as (mem & out & X & Y)|destruct X as (mem & X)]; rewrite X; [|reflexivity].
    cbn [snd r_map]. rewrite Y. destruct r as [p|]; cbn; rewrite ?app_nil_r; reflexivity.
Qed.

(** ** Concrete libraries *)
Definition toggle (x : bytes) : bytes := map (fun b => bxor b x55) x.
Definition qtag (n : N) : bytes := repeat x7e (N.to_nat n).
(** A stream cipher: the state has the input so far (and the associated data); its tag has 4 bytes *)
Definition digest (m : bytes) : bytes := be 4 (fold_left (fun acc b => (acc * 257 + Byte.to_N b + 1) mod 4294967296) m 0).
Definition stU : ulib (bytes * bytes) := mkUlib (fun iv => Some ([], [])) (fun s x => Some (fst s ++ x, snd s)) (fun s x => Some ((fst s, snd s ++ toggle x), toggle x)).
Definition stE : elib (bytes * bytes) := mkElib stU (fun s => Some (s, [])) (fun s => Some (digest (fst s ++ snd s))).
Definition stDU : ulib (bytes * bytes * option bytes) :=
  mkUlib (fun iv => Some (([], []), None)) (fun s x => Some ((fst (fst s) ++ x, snd (fst s)), snd s)) (fun s x => Some ((fst (fst s), snd (fst s) ++ x), snd s, toggle x)).
Definition stD : dlib (bytes * bytes * option bytes) :=
  mkDlib stDU (fun s t => Some (fst s, Some t))
    (fun s => match snd s with Some t => if bytes_eqb t (digest (fst (fst s) ++ snd (fst s))) then Some [] else None | None => None end).
Lemma blen_toggle x : blen (toggle x) = blen x.
Proof. unfold toggle, blen. rewrite map_length. reflexivity. Qed.
Lemma toggle_app x y : toggle (x ++ y) = toggle x ++ toggle y.
Proof. apply map_app. Qed.
Example C78_stream_lib : (forall k, k <> EvpBlocks -> good_elib k 4 (fun _ => 0) stE) /\ (forall k, k <> EvpBlocks -> good_dlib k (fun _ => 0) stD).
Proof.
  assert (P1 : pieces (el_u stE)).
  { split; [intros [x y]; cbn; rewrite app_nil_r; reflexivity|]. split; [intros s a b; cbn; rewrite app_assoc; reflexivity|].
    split; [intros [x y]; cbn; rewrite app_nil_r; reflexivity|]. intros s a b. cbn. rewrite toggle_app, app_assoc. reflexivity. }
  assert (P2 : pieces (dl_u stD)).
  { split; [intros [[x y] z]; cbn; rewrite app_nil_r; reflexivity|]. split; [intros s a b; cbn; rewrite app_assoc; reflexivity|].
    split; [intros [[x y] z]; cbn; rewrite app_nil_r; reflexivity|]. intros s a b. cbn. rewrite toggle_app, app_assoc. reflexivity. }
  split; intros k Hk; (split; [assumption|]); (split; [split; [reflexivity|]; split; [reflexivity|]|]).
  - intros s x s' o E. cbn in E. injection E as _ <-. rewrite blen_toggle. destruct k; [auto|congruence|auto].
  - split; [intros s s' w E; injection E as _ <-; reflexivity|]. intros s t E. injection E as <-. unfold digest. rewrite be_blen. reflexivity.
  - intros s x s' o E. cbn in E. injection E as _ <-. rewrite blen_toggle. destruct k; [auto|congruence|auto].
  - split; [reflexivity|]. intros s w. cbn. destruct (snd s); [|discriminate]. destruct (bytes_eqb _ _); [|discriminate]. intros E. injection E as <-. reflexivity.
Qed.
(** A cipher that works in blocks: the bytes not written yet are kept *)
Definition blU : ulib bytes := mkUlib (fun _ => Some []) (fun s x => Some s)
  (fun s x => match x with [] => Some (s, []) | _ => let z := s ++ x in let m := blen z - blen z mod block_size in Some (dropN m z, toggle (takeN m z)) end).
Definition blE : elib bytes := mkElib blU (fun s => Some ([], toggle s)) (fun _ => Some (qtag 4)).
Definition blDU : ulib (bytes * bool) := mkUlib (fun _ => Some ([], false)) (fun s x => Some s)
  (fun s x => match u_upd blU (fst s) x with Some (q, o) => Some (q, snd s, o) | None => None end).
Definition blD : dlib (bytes * bool) := mkDlib blDU (fun s t => Some (fst s, bytes_eqb t (qtag 4))) (fun s => if snd s then Some (toggle (fst s)) else None).
Lemma floor_step p q : let m1 := p - p mod block_size in p <= q ->
  m1 <= q /\ m1 + ((q - m1) - (q - m1) mod block_size) = q - q mod block_size.
Proof.
  cbn. unfold block_size. intros H. pose proof (N.div_mod p 16 ltac:(lia)) as E1. pose proof (N.mod_lt p 16 ltac:(lia)) as E2.
  assert (E3 : p - p mod 16 = 16 * (p / 16)) by lia. rewrite E3. split; [lia|].
  assert (E4 : q mod 16 = (q - 16 * (p / 16)) mod 16).
  { replace q with ((q - 16 * (p / 16)) + (p / 16) * 16) at 1 by lia. apply N.mod_add. lia. }
  rewrite E4. pose proof (N.mod_le (q - 16 * (p / 16)) 16 ltac:(lia)). lia.
Qed.
Lemma blU_pieces : pieces blU.
Proof.
  split; [reflexivity|]. split; [reflexivity|]. split; [reflexivity|]. intros s a b. destruct a as [|a0 a]; [cbn; destruct b; reflexivity|].
  cbn [u_upd blU app]. destruct b as [|b0 b]; [rewrite !app_nil_r; reflexivity|].
  change (a0 :: a ++ b0 :: b) with ((a0 :: a) ++ (b0 :: b)). generalize (a0 :: a) as x. generalize (b0 :: b) as y. intros y x.
  rewrite app_assoc. set (z := s ++ x). destruct (floor_step (blen z) (blen (z ++ y)) ltac:(rewrite blen_app; lia)) as [A B]. cbn zeta in A, B.
  set (m1 := blen z - blen z mod block_size) in *.
  assert (M : m1 <= blen z) by apply N.le_sub_l. clearbody m1 z.
  assert (E : blen (dropN m1 z ++ y) = blen (z ++ y) - m1) by (rewrite !blen_app, blen_dropN; clear -M; lia).
  rewrite E. set (m2 := blen (z ++ y) - m1 - (blen (z ++ y) - m1) mod block_size) in *.
  assert (Ez : dropN m1 z ++ y = dropN m1 (z ++ y)) by (symmetry; apply dropN_app_le; exact M). rewrite Ez, dropN_dropN, B. f_equal. f_equal.
  rewrite <- toggle_app. f_equal. assert (Et : takeN m1 z = takeN m1 (z ++ y)) by (symmetry; apply takeN_app_le; exact M). rewrite Et, <- B.
  change (takeN (m1 + m2) (z ++ y)) with (rd (z ++ y) 0 (m1 + m2)). rewrite rd_split. reflexivity.
Qed.
Lemma blU_writes s x s' o : u_upd blU s x = Some (s', o) -> blen s < block_size ->
  blen s' = (blen s + blen x) mod block_size /\ blen o = blen s + blen x - (blen s + blen x) mod block_size.
Proof.
  cbn [u_upd blU]. destruct x as [|x0 x].
  - intros E H. injection E as <- <-. rewrite blen_nil, N.add_0_r, N.mod_small by exact H. split; lia.
  - intros E H. injection E as <- <-. rewrite blen_toggle, blen_takeN, blen_dropN, !blen_app. set (q := blen s + blen (x0 :: x)).
    pose proof (N.mod_le q block_size ltac:(discriminate)) as Q. revert Q. clearbody q. generalize (q mod block_size). clear. intros n Q. split; lia.
Qed.
Example C78_block_lib : good_elib EvpBlocks 4 (@blen byte) blE /\ good_dlib EvpBlocks (fun s : bytes * bool => blen (fst s)) blD.
Proof.
  split.
  - split; [exact blU_pieces|]. split; [split; [intros iv s E; injection E as <-; reflexivity|]; split; [intros s x s' E; injection E as <-; reflexivity|]|].
    + intros s x s' o E H. apply (blU_writes _ _ _ _ E H).
    + split; [intros s s' w E; injection E as _ <-; apply blen_toggle|]. intros s t E. injection E as <-. reflexivity.
  - split.
    + destruct blU_pieces as (_ & _ & A & B). split; [reflexivity|]. split; [reflexivity|]. split; [intros [q ok]; reflexivity|].
      intros [q ok] a b. unfold blD, blDU. cbn [dl_u u_upd fst snd]. pose proof (B q a b) as X. unfold blU at 1 in X. cbn [u_upd] in X. rewrite (B q a b).
      destruct (u_upd blU q a) as [[q1 o1]|]; [|reflexivity]. cbn [fst snd]. destruct (u_upd blU q1 b) as [[q2 o2]|]; reflexivity.
    + split; [split; [intros iv s E; injection E as <-; reflexivity|]; split; [intros s x s' E; injection E as <-; reflexivity|]|].
      * intros [q ok] x [q' ok'] o E H. unfold blD, blDU in E. cbn [dl_u u_upd fst snd] in E. destruct (u_upd blU q x) as [[q1 o1]|] eqn:Eu; [|discriminate E].
        injection E as <- _ <-. apply (blU_writes _ _ _ _ Eu H).
      * split; [intros s t s' E; injection E as <-; reflexivity|]. intros s w. cbn [dl_fin blD]. destruct (snd s); [|discriminate]. intros E. injection E as <-. apply blen_toggle.
Qed.

(** ** Concrete chains *)
Definition buf_of (n : N) (first : byte) (tail : N) (sh : bool) : iob := mkIob 3 (repeat first (N.to_nat n)) (repeat xee (N.to_nat tail)) sh.
Definition ch1 (sh : bool) : chain := [buf_of 5 x01 0 false; buf_of 0 x02 2 false; buf_of 20 x03 0 sh; buf_of 9 x04 6 false].
Definition al0 : alloc := mkAlloc xcc 7.
Definition sizes (c : chain) : list N := map (fun b => blen (b_data b)) c.
(** In place, with the tag behind the last buffer; decrypted from another cutting into new memory *)
Example C78_in_place : exists mem out,
  encryptHelper EvpBlocks blE 4 10 (mkAo Respect false) al0 [] (Some [[x01]]) (ch1 false) = (mem, Ok out) /\ sizes out = [5; 0; 20; 13] /\ memory out = mem /\
  exists p, snd (tryDecrypt EvpBlocks blD 4 (mkAo Respect true) al0 [] None
    [mkIob 0 (takeN 17 (flat out)) [] true; mkIob 0 (takeN 19 (dropN 17 (flat out))) [] false; mkIob 0 (dropN 36 (flat out)) [] false]) = Ok (Some p) /\ flat p = flat (ch1 false).
Proof. vm_compute. eexists _, _. split; [reflexivity|]. split; [reflexivity|]. split; [reflexivity|]. eexists. split; reflexivity. Qed.
(** A shared buffer: respected, the result is new memory with headroom *)
Example C78_respected : exists out, encryptHelper Evp stE 4 10 (mkAo Respect true) al0 [] (Some [[x01]; [x02]]) (ch1 true) = (memory (ch1 true), Ok out) /\
  sizes out = [38] /\ map b_head out = [10] /\ Some (flat out) = seal stE [] [x01; x02] (flat (ch1 true)).
Proof. vm_compute. eexists. split; [reflexivity|]. split; [reflexivity|]. split; reflexivity. Qed.
Example C78_wrong_tag : snd (tryDecrypt Evp stD 4 (mkAo Respect true) al0 [] (Some [[x01]]) (ch1 false)) = Ok None.
Proof. vm_compute. reflexivity. Qed.
(** *** Findings *)
(** A failed encryption may have overwritten the caller's data: that there is no room for the tag is found out only after encrypting in place. *)
Theorem C78_failed_overwrites_refuted : ~ (forall St k (L : elib St) tagLen headroom o a iv ad c mem e,
  encryptHelper k L tagLen headroom o a iv ad c = (mem, Err e) -> mem = memory c).
Proof.
  intros H. specialize (H _ Evp stE 4 0 (mkAo AllowInPlace false) al0 [] None (ch1 true)
    (fst (encryptHelper Evp stE 4 0 (mkAo AllowInPlace false) al0 [] None (ch1 true))) (EStatus None) ltac:(vm_compute; reflexivity)). vm_compute in H. discriminate H.
Qed.
(** A refused decryption in place leaves what it decrypted in the caller's memory, unauthenticated. *)
Theorem C78_refused_leaves_plaintext_refuted : ~ (forall St k (D : dlib St) tagLen o a iv ad c mem,
  tryDecrypt k D tagLen o a iv ad c = (mem, Ok None) -> mem = memory c).
Proof.
  intros H. specialize (H _ Evp stD 4 (mkAo AllowInPlace false) al0 [] None (ch1 true)
    (fst (tryDecrypt Evp stD 4 (mkAo AllowInPlace false) al0 [] None (ch1 true))) ltac:(vm_compute; reflexivity)). vm_compute in H. discriminate H.
Qed.
(** *** inplaceEncrypt never allocates: what it gives back is the caller's memory, with the tag in the last buffer's tailroom. *)
Theorem C78_inplace {St} (lib : bytes -> elib St) ci a seq ad c mem out :
  inplaceEncrypt lib ci a seq ad c = (mem, Ok out) -> memory out = mem /\ map b_head out = map b_head c /\ length out = length c.
Proof.
  unfold inplaceEncrypt, encryptSeq. destruct (ci_nonce ci seq) as [n|]; [|discriminate]. intros E. destruct (C78_encrypt_memory _ _ _ _ _ _ _ _ _ _ _ E) as (_ & _ & _ & H & _).
  apply (H eq_refl _ eq_refl).
Qed.
Example C78_inplace_ok : exists mem out, inplaceEncrypt (fun _ => stE) (mkCipher Evp 2 12 4 0 (Some ([x01; x02], repeat x09 12))) al0 7 None (ch1 true) = (mem, Ok out) /\ sizes out = [5; 0; 20; 13].
Proof. vm_compute. eexists _, _. split; reflexivity. Qed.
