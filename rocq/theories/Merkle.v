(** * experimental/crypto/MerkleTree.h and BatchSignature.h

    Heights (size_t / uint8_t) are nat, offsets (size_t / int) are N; getPath's uint8_t height counter cannot
    wrap because the int conversions below keep trees under 2^31 leaves. *)
From Verif Require Import Base Codec Hkdf Str.
Open Scope N_scope.

Section Tree.
  Variable h : hashalg.

  (** constructLeafNode :366-377, constructInternalNode :341-359 *)
  Definition leafNode (msg : bytes) : bytes := h_fn h (x00 :: msg).
  Definition internalNode (l r : bytes) : bytes := h_fn h (x01 :: l ++ r).

  (** members :257-264 *)
  Record mtree := mkTree { mt_max : N; mt_next : N; mt_height : nat; mt_map : nat -> N -> option bytes }.
  (** BatchSignatureMerkleTree(maxMsgSize) :284-285, MerkleTree(maxLeavesSize) :70-71 *)
  Definition newTree (maxMsg : N) : mtree := mkTree (2 * maxMsg) 0 0 (fun _ _ => None).

  Definition upd (m : nat -> N -> option bytes) (hh : nat) (o : N) (v : bytes) : nat -> N -> option bytes :=
    fun h' o' => if Nat.eqb h' hh && (o' =? o) then Some v else m h' o'.
  (** F14FastMap::operator[]: a missing key is inserted with a value-initialised (zero) array *)
  Definition at_ (m : nat -> N -> option bytes) (hh : nat) (o : N) : bytes * (nat -> N -> option bytes) :=
    match m hh o with Some v => (v, m) | None => (zeros (h_len h), upd m hh o (zeros (h_len h))) end.

  (** addNode :242-255 *)
  Fixpoint addNode (fuel : nat) (t : mtree) (v : bytes) (hh : nat) (o : N) : res mtree :=
    match fuel with
    | O => Err EFuel
    | S f =>
        let m := upd (mt_map t) hh o v in
        let r := if Nat.ltb (mt_height t) hh then hh else mt_height t in
        if o mod 2 =? 1 then
          let '(l, m1) := at_ m hh (o - 1) in
          let '(rr, m2) := at_ m1 hh o in
          addNode f (mkTree (mt_max t) (mt_next t) r m2) (internalNode l rr) (S hh) (o / 2)
        else Ok (mkTree (mt_max t) (mt_next t) r m)
    end.
  Definition add (t : mtree) (v : bytes) (hh : nat) (o : N) : res mtree := addNode (S (N.size_nat o)) t v hh o.

  (** append :78-87 *)
  Definition append (t : mtree) (msg : bytes) : res (mtree * option N) :=
    if mt_max t <=? mt_next t then Ok (t, None)
    else t' <- add t (leafNode msg) 0 (mt_next t) ;;
         Ok (mkTree (mt_max t') (mt_next t' + 1) (mt_height t') (mt_map t'), Some (mt_next t')).

  (** appendTranscript :300-308 *)
  Definition appendTranscript (t : mtree) (msg rnd : bytes) : res (mtree * option N) :=
    '(t1, i) <- append t msg ;; '(t2, _) <- append t1 rnd ;; Ok (t2, i).
  (** countMessages :313-315 *)
  Definition countMessages (t : mtree) : N := mt_next t / 2.

  (** the loop of finalizeTree :325-332; the bound rootHeight_ is re-read at each iteration *)
  Fixpoint fin_loop (fuel : nat) (t : mtree) (i : nat) (cur : N) : res mtree :=
    match fuel with
    | O => Err EFuel
    | S f =>
        if Nat.ltb i (mt_height t) then
          t' <- (if cur mod 2 =? 0 then
                   let '(v, m) := at_ (mt_map t) i 0 in
                   add (mkTree (mt_max t) (mt_next t) (mt_height t) m) v i (cur + 1)
                 else Ok t) ;;
          fin_loop f t' (S i) (cur / 2)
        else Ok t
    end.
  (** finalizeTree :321-334; the conversion of nextRightmostLeaf_ - 1 to int must not change it *)
  Definition finalizeTree (t : mtree) : res mtree :=
    if 1 <? mt_next t then
      if 2 ^ 31 <? mt_next t then Err EUB
      else fin_loop (S (S (N.size_nat (mt_next t)))) t 0 (mt_next t - 1)
    else Ok t.

  (** getRootValue :106-108, getNodeValue :120-127 *)
  Definition getRootValue (t : mtree) : res bytes :=
    match mt_map t (mt_height t) 0 with Some v => Ok v | None => Err EThrow end.

  (** getPath :139-164, the loop from level [i] with [n] levels to go *)
  Fixpoint path_loop (t : mtree) (n i : nat) (off : N) : res bytes :=
    match n with
    | O => Ok []
    | S n' =>
        let off' := if off mod 2 =? 0 then off + 1 else off - 1 in
        match mt_map t i off' with
        | None => Err EThrow
        | Some v => r <- path_loop t n' (S i) (off' / 2) ;; Ok (v ++ r)
        end
    end.
  Definition getPath (t : mtree) (index : N) : res bytes :=
    _ <- getRootValue t ;; path_loop t (mt_height t) 0 index.

  (** computeRootFromPath :169-193 *)
  Fixpoint compute_loop (n : nat) (v : bytes) (cur : N) (path : bytes) : bytes :=
    match n with
    | O => v
    | S n' =>
        let s := takeN (h_len h) path in
        compute_loop n' (if cur mod 2 =? 0 then internalNode v s else internalNode s v) (cur / 2) (dropN (h_len h) path)
    end.
  Definition computeRootFromPath (msg : bytes) (index : N) (path : bytes) : res bytes :=
    if negb (blen path mod h_len h =? 0) then Err EThrow
    else Ok (compute_loop (N.to_nat (blen path / h_len h)) (leafNode msg) index path).
End Tree.

(** ** BatchSignature.h *)
(** encode :65-80 *)
Definition bs_encode (index : N) (path sig : bytes) : res bytes :=
  a <- write_u 4 index ;; b <- write_buf W16 (Some path) ;; c <- write_buf W16 (Some sig) ;; Ok (a ++ b ++ c).
(** decode :48-60; trailing bytes are ignored *)
Definition bs_decode (inp : bytes) : res (N * bytes * bytes) :=
  '(i, _, r1) <- read_u 4 inp ;;
  '(p, _, r2) <- read_buf W16 r1 ;;
  '(s, _, _) <- read_buf W16 r2 ;;
  Ok (i, match p with Some d => d | None => [] end, match s with Some d => d | None => [] end).
(** encodeToBeSigned :95-117 *)
Definition tbs_prefix : bytes := repeat x20 64 ++ str "TLS batch signature" ++ [x00].
Definition encodeToBeSigned (root : bytes) (scheme : N) : res bytes :=
  s <- write_u 2 scheme ;; Ok (tbs_prefix ++ s ++ root).
