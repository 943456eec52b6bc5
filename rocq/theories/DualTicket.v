(** * server/DualTicketCipher.h; client/CertManager.cpp *)
From Verif Require Import Base Hkdf Record Token Ticket.
Open Scope N_scope.

(** ** DualTicketCipher over any two TicketCiphers.
    A TicketCipher is its two functions; a SemiFuture that fails is an [Err]; (Rejected, none) is [Ok None] and (Resumption, state) is
    [Ok (Some state)], as in Ticket.v: the only results of AeadTicketCipher.h:90-112. *)
Record tcipher := mkTc { tc_encrypt : resstate -> res (option (bytes * Z)); tc_decrypt : bytes -> res (option resstate) }.
(** encrypt :27-31; decrypt :33-46 *)
Definition dual (cipher fallback : tcipher) : tcipher :=
  mkTc (tc_encrypt cipher)
       (fun b => r <- tc_decrypt cipher b ;; match r with None => tc_decrypt fallback b | Some s => Ok (Some s) end).
(** An AeadTicketCipher at a moment: its secrets and context strings, policy, the clock and the salt the next encrypt draws *)
Definition aeadCipher (h : hashalg) (gcm : bytes -> bytes -> aead) (mkPeer : bytes -> res cert) (mkIdent : bytes -> cert) (getCert : bytes -> option cert)
  (st : storage) (t : token) (p : policy) (now : Z) (salt : bytes) : tcipher :=
  mkTc (ticket_encrypt h gcm st t p now salt) (ticket_decrypt h gcm mkPeer mkIdent getCert t p now).

(** ** client::CertManager: certs_ is a map from signature scheme to certificate; a SelfCert is any value with its schemes *)
Record scert := mkSc { sc_cert : N; sc_schemes : list N }.
Notation certmap := (list (N * scert)).
Fixpoint cmFind (s : N) (m : certmap) : option scert :=
  match m with [] => None | (k, c) :: r => if s =? k then Some c else cmFind s r end.
Fixpoint cmSet (s : N) (c : scert) (m : certmap) : certmap :=
  match m with [] => [(s, c)] | (k, d) :: r => if s =? k then (k, c) :: r else (k, d) :: cmSet s c r end.
(** addCert(cert, overrideExistingEntry) .cpp:47-62; a null pointer is None (:50-52) *)
Definition addCert (over : bool) (c : option scert) (m : certmap) : certmap :=
  match c with
  | None => m
  | Some x => fold_left (fun m s => match cmFind s m with Some _ => if over then cmSet s x m else m | None => cmSet s x m end) (sc_schemes x) m
  end.
(** getCert :16-37 *)
Fixpoint clientGetCert (m : certmap) (supported peer : list N) : option (scert * N) :=
  match supported with
  | [] => None
  | s :: r => match cmFind s m with
              | Some c => if existsb (N.eqb s) peer then Some (c, s) else clientGetCert m r peer
              | None => clientGetCert m r peer
              end
  end.
(** hasCerts :64-66 *)
Definition hasCerts (m : certmap) : bool := match m with [] => false | _ => true end.
(** A manager after some calls of addCert (false) and addCertAndOverride (true) *)
Definition cmRun (l : list (bool * option scert)) : certmap := fold_left (fun m a => addCert (fst a) (snd a) m) l [].
