(** * server/DefaultCertManager.cpp

    A SelfCert is represented by what the manager asks of it: identity, alternative identities and signature schemes,
    plus a tag standing for the object's address. *)
From Verif Require Import Base.
Open Scope N_scope.

Record selfcert := mkCert { sc_id : N; sc_ident : bytes; sc_alts : list bytes; sc_schemes : list N }.
Inductive matchtype := Direct | Default.

(** folly::toLowerAscii *)
Definition lower (c : byte) : byte := let n := b2n c in if (65 <=? n) && (n <=? 90) then n2b (n + 32) else c.
Definition toLowerAscii (s : bytes) : bytes := map lower s.
Definition dot : byte := x2e.
Definition star : byte := x2a.

(** members, DefaultCertManager.h:58-60: maps are association lists in insertion order *)
Record cm := mkCm { cm_certs : list (bytes * list (N * selfcert)); cm_ident : list (bytes * selfcert); cm_default : bytes }.
Definition cm_new : cm := mkCm [] [] [].

Fixpoint lookup {A} (k : bytes) (l : list (bytes * A)) : option A :=
  match l with [] => None | (k', v) :: r => if bytes_eqb k' k then Some v else lookup k r end.
Fixpoint lookupS (s : N) (l : list (N * selfcert)) : option selfcert :=
  match l with [] => None | (s', c) :: r => if s' =? s then Some c else lookupS s r end.
(** operator[] followed by assignment through the reference *)
Fixpoint update {A} (k : bytes) (v : A) (l : list (bytes * A)) : list (bytes * A) :=
  match l with [] => [(k, v)] | (k', v') :: r => if bytes_eqb k' k then (k', v) :: r else (k', v') :: update k v r end.

(** findCert :20-39 *)
Fixpoint pick (m : list (N * selfcert)) (sup peer : list N) : option (selfcert * N) :=
  match sup with
  | [] => None
  | s :: r => match lookupS s m with
              | None => pick m r peer
              | Some c => if existsb (N.eqb s) peer then Some (c, s) else pick m r peer
              end
  end.
Definition findCert (m : cm) (key : bytes) (sup peer : list N) : option (selfcert * N) :=
  match lookup key (cm_certs m) with None => None | Some sm => pick sm sup peer end.

(** key.find_first_of('.') and the suffix from there *)
Fixpoint from_dot (s : bytes) : option bytes :=
  match s with [] => None | c :: r => if byte_eqb c dot then Some s else from_dot r end.

(** getCert(sni, ...) :41-83 *)
Definition getCert (m : cm) (sni : option bytes) (sup peer : list N) : option (selfcert * N * matchtype) :=
  let dflt := match findCert m (cm_default m) sup peer with Some (c, s) => Some (c, s, Default) | None => None end in
  match sni with
  | None => dflt
  | Some n =>
      let key := toLowerAscii n in
      match findCert m key sup peer with
      | Some (c, s) => Some (c, s, Direct)
      | None =>
          match from_dot key with
          | None => dflt
          | Some w => match findCert m w sup peer with Some (c, s) => Some (c, s, Direct) | None => dflt end
          end
      end
  end.

(** getCert(identity) :85-92 *)
Definition getCertIdent (m : cm) (ident : bytes) : option selfcert := lookup ident (cm_ident m).

(** getKeyFromIdent :94-108 *)
Definition getKeyFromIdent (ident : bytes) : option bytes :=
  match ident with
  | [] => None
  | c :: r => Some (toLowerAscii (if byte_eqb c star then r else ident))
  end.

(** the loop of addCertIdentity :121-127 *)
Fixpoint add_schemes (c : selfcert) (ss : list N) (m : list (N * selfcert)) : list (N * selfcert) :=
  match ss with
  | [] => m
  | s :: r => add_schemes c r (match lookupS s m with Some _ => m | None => m ++ [(s, c)] end)
  end.
(** addCertIdentity :110-128; None: an exception, nothing was changed *)
Definition addCertIdentity (m : cm) (c : selfcert) (ident : bytes) : option cm :=
  match getKeyFromIdent ident with
  | None => None
  | Some key =>
      if (match key with [] => true | _ => false end) || bytes_eqb key [dot] || existsb (byte_eqb star) key then None
      else let sm := match lookup key (cm_certs m) with Some x => x | None => [] end in
           Some (mkCm (update key (add_schemes c (sc_schemes c) sm) (cm_certs m)) (cm_ident m) (cm_default m))
  end.

(** the loop over the alternative identities :145-149: final state and whether it ran to the end *)
Fixpoint add_alts (m : cm) (c : selfcert) (alts : list bytes) : cm * bool :=
  match alts with
  | [] => (m, true)
  | a :: r => if bytes_eqb a (sc_ident c) then add_alts m c r
              else match addCertIdentity m c a with None => (m, false) | Some m' => add_alts m' c r end
  end.
(** addCert(cert, defaultCert) :138-158; false: an exception (the object keeps what was added before it) *)
Definition addCert (m : cm) (c : selfcert) (dflt : bool) : cm * bool :=
  match addCertIdentity m c (sc_ident c) with
  | None => (m, false)
  | Some m1 =>
      match add_alts m1 c (sc_alts c) with
      | (m2, false) => (m2, false)
      | (m2, true) =>
          let d := if dflt then match getKeyFromIdent (sc_ident c) with Some k => k | None => cm_default m2 end else cm_default m2 in
          (mkCm (cm_certs m2) (match lookup (sc_ident c) (cm_ident m2) with Some _ => cm_ident m2 | None => cm_ident m2 ++ [(sc_ident c, c)] end) d, true)
      end
  end.

Definition addAll (m : cm) (l : list (selfcert * bool)) : cm := fold_left (fun m x => fst (addCert m (fst x) (snd x))) l m.
(** hasCerts :160-162 *)
Definition hasCerts (m : cm) : bool := match cm_certs m with [] => false | _ => true end.
