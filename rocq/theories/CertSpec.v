(** * What a user expects of certificate selection (independent of the manager's maps) *)
From Verif Require Import Base CertManager.
Open Scope N_scope.

(** ASCII case-insensitive equality *)
Definition same_letter (a b : byte) : Prop :=
  a = b \/ (65 <= b2n a <= 90 /\ b2n b = b2n a + 32) \/ (65 <= b2n b <= 90 /\ b2n a = b2n b + 32).
Definition ci_eq (a b : bytes) : Prop := Forall2 same_letter a b.

(** An identity covers a host name if it is that name, or a wildcard for everything but the first label. *)
Inductive covers : bytes -> bytes -> Prop :=
| cov_exact ident n : ci_eq ident n -> covers ident n
| cov_wild rest label tail : ci_eq rest tail -> ~ In dot label -> covers (star :: dot :: rest) (label ++ dot :: tail).

(** Identities as certificates should have them: "*." only in front, no other star, no leading dot. *)
Definition wf_ident (i : bytes) : Prop :=
  ~ In star i /\ (exists c r, i = c :: r /\ c <> dot) \/ exists c r, i = star :: dot :: c :: r /\ ~ In star (c :: r).
Definition idents (c : selfcert) : list bytes := sc_ident c :: sc_alts c.
Definition wf_cert (c : selfcert) : Prop := Forall wf_ident (idents c).
