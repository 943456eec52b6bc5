(** * Specification side of the ECH properties (draft-ietf-tls-esni-15/18 sections 4-6), independent of EchCrypt.v's loops. *)
From Verif Require Import Base Codec CodecSpec Handshake HandshakeSpec Extensions.

(** [l] is obtained from [m] by deleting elements. *)
Inductive sublist {A} : list A -> list A -> Prop :=
| sub_nil : forall m, sublist [] m
| sub_skip : forall a l m, sublist l m -> sublist l (a :: m)
| sub_keep : forall a l m, sublist l m -> sublist (a :: l) (a :: m).

Definition types (l : list Extension) : list N := map ext_type l.

(** The extensions to be taken from the outer hello form one block [mid] of the inner hello, occur unchanged and in the
    same order in the outer hello, and neither list of extension types has repetitions. 0xfd00 = ech_outer_extensions,
    0xfe0d = encrypted_client_hello. *)
Record compressible (inner outer : list Extension) (outerTypes : list N) : Prop := {
  cp_split : exists pre mid post, inner = pre ++ mid ++ post /\
    (forall e, In e mid -> In (ext_type e) outerTypes) /\
    (forall e, In e (pre ++ post) -> ~ In (ext_type e) outerTypes) /\
    sublist mid outer /\ ~ In 65037 (types mid) /\ blen mid <= 127;
  cp_inner : NoDup (types inner);
  cp_outer : NoDup (types outer);
  cp_marker : ~ In 64768 (types inner) }.

(** Letters, digits and hyphens. *)
Definition ldh_char (b : byte) : Prop :=
  (48 <= b2n b <= 57) \/ (65 <= b2n b <= 90) \/ (97 <= b2n b <= 122) \/ b2n b = 45.
Fixpoint join_dot (l : list bytes) : bytes :=
  match l with [] => [] | [p] => p | p :: r => p ++ x2e :: join_dot r end.
(** a public name: dot-separated non-empty LDH labels *)
Definition public_name (s : bytes) : Prop :=
  exists labels, labels <> [] /\ (forall p, In p labels -> p <> [] /\ forall b, In b p -> ldh_char b) /\ s = join_dot labels.

(** the KDF fizz ties to each HPKE AEAD: AES-128-GCM and ChaCha20-Poly1305 go with HKDF-SHA256, AES-256-GCM with HKDF-SHA384 *)
Definition kdf_of_aead (a : N) : option N :=
  if a =? 1 then Some 1 else if a =? 2 then Some 2 else if a =? 3 then Some 1 else None.
