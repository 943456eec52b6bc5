(** * Specification for property C78: AEADs over chains of buffers *)
From Verif Require Import Base AeadChain.
Open Scope N_scope.

(** ** Specification: what the library is expected to do, and the AEAD on flat bytes *)
Section Spec.
  Context {St : Type}.
  (** Associated data and input may be given in pieces, with the same result. *)
  Definition pieces (u : ulib St) : Prop :=
    (forall s, u_ad u s [] = Some s) /\
    (forall s a b, u_ad u s (a ++ b) = match u_ad u s a with Some s1 => u_ad u s1 b | None => None end) /\
    (forall s, u_upd u s [] = Some (s, [])) /\
    (forall s a b, u_upd u s (a ++ b) = match u_upd u s a with
                                        | Some (s1, o1) => match u_upd u s1 b with Some (s2, o2) => Some (s2, o1 ++ o2) | None => None end
                                        | None => None end).
  (** How much is written: a stream cipher writes what it is given; with block operations, whole blocks, [held] bytes being kept.  A context just set up keeps
      nothing, associated data does not change that. *)
  Definition writes (k : lkind) (held : St -> N) (u : ulib St) : Prop :=
    (forall iv s, u_init u iv = Some s -> held s = 0) /\
    (forall s x s', u_ad u s x = Some s' -> held s' = held s) /\
    (forall s x s' o, u_upd u s x = Some (s', o) ->
       match k with
       | EvpBlocks => held s < block_size -> held s' = (held s + blen x) mod block_size /\ blen o = held s + blen x - (held s + blen x) mod block_size
       | _ => held s' = held s /\ blen o = blen x
       end).
  Definition good_elib (k : lkind) (tagLen : N) (held : St -> N) (L : elib St) : Prop :=
    pieces (el_u L) /\ writes k held (el_u L) /\
    (forall s s' w, el_fin L s = Some (s', w) -> blen w = held s) /\ (forall s t, el_tag L s = Some t -> blen t = tagLen).
  Definition good_dlib (k : lkind) (held : St -> N) (D : dlib St) : Prop :=
    pieces (dl_u D) /\ writes k held (dl_u D) /\
    (forall s t s', dl_set D s t = Some s' -> held s' = held s) /\ (forall s w, dl_fin D s = Some w -> blen w = held s).

  (** Encryption and decryption of flat bytes with one call each: nothing if the library reports an error; a decryption that is refused gives [Some None]. *)
  Definition seal (L : elib St) (iv ad pt : bytes) : option bytes :=
    match u_init (el_u L) iv with
    | None => None
    | Some s0 => match u_ad (el_u L) s0 ad with
      | None => None
      | Some s1 => match u_upd (el_u L) s1 pt with
        | None => None
        | Some (s2, c) => match el_fin L s2 with
          | None => None
          | Some (s3, w) => match el_tag L s3 with None => None | Some t => Some (c ++ w ++ t) end
          end
        end
      end
    end.
  Definition unseal (D : dlib St) (tagLen : N) (iv ad ct : bytes) : option (option bytes) :=
    if blen ct <? tagLen then Some None
    else match u_init (dl_u D) iv with
    | None => None
    | Some s0 => match u_ad (dl_u D) s0 ad with
      | None => None
      | Some s1 => match u_upd (dl_u D) s1 (takeN (blen ct - tagLen) ct) with
        | None => None
        | Some (s2, p) => match dl_set D s2 (dropN (blen ct - tagLen) ct) with
          | None => None
          | Some s3 => Some (match dl_fin D s3 with None => None | Some w => Some (p ++ w) end)
          end
        end
      end
    end.
End Spec.
Definition ad_bytes (ad : option (list bytes)) : bytes := match ad with Some l => concat l | None => [] end.
(** No buffer has 2 GiB or more, nor has all of it 2^64 bytes. *)
Definition fits (l : list bytes) : Prop := Forall (fun x => blen x <= int_max) l.
(** The options allow encryption (decryption) of this chain. *)
Definition can_encrypt (tagLen : N) (o : aopts) (c : chain) : bool :=
  ao_alloc o || (match ao_buf o with Respect => negb (is_shared c) | AllowInPlace => negb (is_shared c) | AllowFull => true end && (tagLen <=? blen (last_tail c))).
Definition can_decrypt (tagLen : N) (o : aopts) (c : chain) : bool :=
  ao_alloc o || (match ao_buf o with Respect => negb (is_shared c) | _ => true end && (tagLen <=? last_len c)).

