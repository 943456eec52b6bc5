(** * Specification of the batch tree: levels built bottom-up, an odd level is completed with a copy of its
      first node (draft-ietf-tls-batch-signing; MerkleTree.h:317-320) *)
From Verif Require Import Base.

Section Spec.
  Variable I : bytes -> bytes -> bytes.
  Fixpoint pairs (l : list bytes) : list bytes :=
    match l with
    | a :: b :: r => I a b :: pairs r
    | _ => []
    end.
  Definition even_out (l : list bytes) : list bytes :=
    if Nat.odd (length l) then l ++ firstn 1 l else l.
  (** [Root l k r]: the tree over the nodes [l] has height [k] and root [r]. *)
  Inductive Root : list bytes -> nat -> bytes -> Prop :=
  | Root_one x : Root [x] 0 x
  | Root_up l k r : (2 <= length l)%nat -> Root (pairs (even_out l)) k r -> Root l (S k) r.
End Spec.

(** A collision of the function [f]. *)
Definition collision (f : bytes -> bytes) : Prop := exists x y, x <> y /\ f x = f y.
