(** * protocol/Protocol.h:93-208: which extensions a received message may carry *)
From Verif Require Import Base Handshake.
Open Scope N_scope.

(** ExtensionType, record/Types.h:93-121 *)
Definition et_signature_algorithms : N := 13.
Definition et_pre_shared_key : N := 41.
Definition et_supported_versions : N := 43.
Definition et_cookie : N := 44.
Definition et_psk_key_exchange_modes : N := 45.
Definition et_key_share : N := 51.
Definition et_encrypted_client_hello : N := 0xfe0d.
(** AlertDescription::illegal_parameter, record/Types.h *)
Definition illegal_parameter : N := 47.

(** std::sort on the enum's underlying integers *)
Fixpoint insert (x : N) (l : list N) : list N :=
  match l with [] => [x] | y :: r => if x <=? y then x :: l else y :: insert x r end.
Fixpoint sort (l : list N) : list N := match l with [] => [] | x :: r => insert x (sort r) end.
(** std::unique: drops elements equal to the one kept before; comparing the returned iterator with end() compares lengths *)
Fixpoint unique (l : list N) : list N :=
  match l with
  | x :: r => match r with
              | y :: _ => if x =? y then unique r else x :: unique r
              | [] => [x]
              end
  | [] => []
  end.
(** checkDuplicateExtensions :193-207 *)
Definition checkDuplicateExtensions (exts : list Extension) : res unit :=
  let l := sort (map ext_type exts) in
  if negb (Nat.eqb (length (unique l)) (length l)) then failA illegal_parameter else Ok tt.

Definition mem (x : N) (l : list N) : bool := existsb (N.eqb x) l.
Fixpoint each (ok : N -> bool) (exts : list Extension) : res unit :=
  match exts with [] => Ok tt | e :: r => if ok (ext_type e) then each ok r else failA illegal_parameter end.

(** checkAllowedExtensions(EncryptedExtensions) :93-122 *)
Definition ee_ok (req : list N) (t : N) : bool :=
  if mem t [et_signature_algorithms; et_key_share; et_pre_shared_key; et_psk_key_exchange_modes; et_cookie; et_supported_versions] then false
  else mem t req.
Definition checkEE (exts : list Extension) (req : list N) : res unit :=
  _ <- each (ee_ok req) exts ;; checkDuplicateExtensions exts.
(** checkAllowedExtensions(ServerHello) :124-142 *)
Definition sh_ok (req : list N) (t : N) : bool :=
  negb (negb (mem t req) || (negb (t =? et_key_share) && negb (t =? et_pre_shared_key) && negb (t =? et_supported_versions))).
Definition checkSH (exts : list Extension) (req : list N) : res unit :=
  _ <- each (sh_ok req) exts ;; checkDuplicateExtensions exts.
(** checkAllowedExtensions(HelloRetryRequest) :144-166 *)
Definition hrr_ok (req : list N) (t : N) : bool :=
  negb (negb (t =? et_cookie) && negb (t =? et_key_share) && negb (t =? et_supported_versions) &&
        (negb (t =? et_encrypted_client_hello) || negb (mem t req))).
Definition checkHRR (exts : list Extension) (req : list N) : res unit :=
  _ <- each (hrr_ok req) exts ;; checkDuplicateExtensions exts.
(** checkAllowedExtensions(CertificateEntry) :172-191 *)
Definition checkCertEntry (exts : list Extension) (req : list N) : res unit :=
  if forallb (fun e => mem (ext_type e) req) exts then checkDuplicateExtensions exts else failA illegal_parameter.
