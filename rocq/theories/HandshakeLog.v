(** * Handshake logging (server/HandshakeLogging.cpp)

    Strings are bytes.  The one-byte test extension is taken to be in one buffer. *)
From Verif Require Import Base Codec Handshake Extensions.
Open Scope N_scope.

(** HandshakeLogging, HandshakeLogging.h:21-41 *)
Record hlog := mkHlog {
  g_version : option N; g_versions : list N; g_ciphers : list N; g_extensions : list N; g_record : option N; g_sni : option bytes;
  g_groups : list N; g_shares : option (list N); g_modes : list N; g_schemes : list N; g_compression : list N; g_sid : option bool;
  g_test : option byte; g_alpns : list bytes; g_size : N; g_outer : option bytes; g_random : option bytes }.
Definition hlog_new : hlog := mkHlog None [] [] [] None None [] None [] [] [] None None [] 0 None None.
Definition set_version v (g : hlog) := mkHlog v (g_versions g) (g_ciphers g) (g_extensions g) (g_record g) (g_sni g) (g_groups g) (g_shares g) (g_modes g) (g_schemes g) (g_compression g) (g_sid g) (g_test g) (g_alpns g) (g_size g) (g_outer g) (g_random g).
Definition set_versions v (g : hlog) := mkHlog (g_version g) v (g_ciphers g) (g_extensions g) (g_record g) (g_sni g) (g_groups g) (g_shares g) (g_modes g) (g_schemes g) (g_compression g) (g_sid g) (g_test g) (g_alpns g) (g_size g) (g_outer g) (g_random g).
Definition set_ciphers v (g : hlog) := mkHlog (g_version g) (g_versions g) v (g_extensions g) (g_record g) (g_sni g) (g_groups g) (g_shares g) (g_modes g) (g_schemes g) (g_compression g) (g_sid g) (g_test g) (g_alpns g) (g_size g) (g_outer g) (g_random g).
Definition set_extensions v t (g : hlog) := mkHlog (g_version g) (g_versions g) (g_ciphers g) v (g_record g) (g_sni g) (g_groups g) (g_shares g) (g_modes g) (g_schemes g) (g_compression g) (g_sid g) t (g_alpns g) (g_size g) (g_outer g) (g_random g).
Definition set_record v (g : hlog) := mkHlog (g_version g) (g_versions g) (g_ciphers g) (g_extensions g) v (g_sni g) (g_groups g) (g_shares g) (g_modes g) (g_schemes g) (g_compression g) (g_sid g) (g_test g) (g_alpns g) (g_size g) (g_outer g) (g_random g).
Definition set_sni v (g : hlog) := mkHlog (g_version g) (g_versions g) (g_ciphers g) (g_extensions g) (g_record g) v (g_groups g) (g_shares g) (g_modes g) (g_schemes g) (g_compression g) (g_sid g) (g_test g) (g_alpns g) (g_size g) (g_outer g) (g_random g).
Definition set_groups v (g : hlog) := mkHlog (g_version g) (g_versions g) (g_ciphers g) (g_extensions g) (g_record g) (g_sni g) v (g_shares g) (g_modes g) (g_schemes g) (g_compression g) (g_sid g) (g_test g) (g_alpns g) (g_size g) (g_outer g) (g_random g).
Definition set_shares v (g : hlog) := mkHlog (g_version g) (g_versions g) (g_ciphers g) (g_extensions g) (g_record g) (g_sni g) (g_groups g) v (g_modes g) (g_schemes g) (g_compression g) (g_sid g) (g_test g) (g_alpns g) (g_size g) (g_outer g) (g_random g).
Definition set_modes v (g : hlog) := mkHlog (g_version g) (g_versions g) (g_ciphers g) (g_extensions g) (g_record g) (g_sni g) (g_groups g) (g_shares g) v (g_schemes g) (g_compression g) (g_sid g) (g_test g) (g_alpns g) (g_size g) (g_outer g) (g_random g).
Definition set_schemes v (g : hlog) := mkHlog (g_version g) (g_versions g) (g_ciphers g) (g_extensions g) (g_record g) (g_sni g) (g_groups g) (g_shares g) (g_modes g) v (g_compression g) (g_sid g) (g_test g) (g_alpns g) (g_size g) (g_outer g) (g_random g).
Definition set_compression v (g : hlog) := mkHlog (g_version g) (g_versions g) (g_ciphers g) (g_extensions g) (g_record g) (g_sni g) (g_groups g) (g_shares g) (g_modes g) (g_schemes g) v (g_sid g) (g_test g) (g_alpns g) (g_size g) (g_outer g) (g_random g).
Definition set_sid_random i r (g : hlog) := mkHlog (g_version g) (g_versions g) (g_ciphers g) (g_extensions g) (g_record g) (g_sni g) (g_groups g) (g_shares g) (g_modes g) (g_schemes g) (g_compression g) i (g_test g) (g_alpns g) (g_size g) (g_outer g) r.
Definition set_alpns v (g : hlog) := mkHlog (g_version g) (g_versions g) (g_ciphers g) (g_extensions g) (g_record g) (g_sni g) (g_groups g) (g_shares g) (g_modes g) (g_schemes g) (g_compression g) (g_sid g) (g_test g) v (g_size g) (g_outer g) (g_random g).
Definition set_outer n r (g : hlog) := mkHlog (g_version g) (g_versions g) (g_ciphers g) (g_extensions g) (g_record g) (g_sni g) (g_groups g) (g_shares g) (g_modes g) (g_schemes g) (g_compression g) (g_sid g) (g_test g) (g_alpns g) n r (g_random g).

(** The loop over the extensions :30-38: test_extension is 0xff04 *)
Fixpoint testByte (t : option byte) (l : list Extension) : res (option byte) :=
  match l with
  | [] => Ok t
  | x :: r =>
      if ext_type x =? 65284 then match ext_data x with None => Err EUB | Some [b] => testByte (Some b) r | Some _ => testByte t r end
      else testByte t r
  end.
(** operator-> of a std::unique_ptr *)
Definition deref (b : buf) : res bytes := match b with Some x => Ok x | None => Err EUB end.
Fixpoint derefs (l : list buf) : res (list bytes) := match l with [] => Ok [] | b :: r => d <- deref b ;; ds <- derefs r ;; Ok (d :: ds) end.
(** One getExtension and what is done with it; what was logged before an exception stays *)
Definition field (k : xkind) (exts : list Extension) (use : option tyext -> hlog -> res hlog) (next : hlog -> hlog * res unit) (g : hlog) : hlog * res unit :=
  match getExtension k exts with
  | Err e => (g, Err e)
  | Ok x => match use x g with Err e => (g, Err e) | Ok g' => next g' end
  end.
(** populateFromClientHello :19-96 *)
Definition populate (c : ClientHello) (g : hlog) : hlog * res unit :=
  let exts := ch_extensions c in
  field KSupportedVersions exts (fun x g => Ok (match x with Some (XSupportedVersions l) => set_versions l g | _ => g end)) (fun g =>
  match testByte (g_test g) exts with Err e => (g, Err e) | Ok t =>
  field KProtocolNameList exts (fun x g => match x with Some (XProtocolNameList l) => ns <- derefs l ;; Ok (set_alpns ns g) | _ => Ok g end) (
  field KServerNameList exts (fun x g => match x with Some (XServerNameList ((_, h) :: _)) => d <- deref h ;; Ok (set_sni (Some d) g) | _ => Ok g end) (
  field KSupportedGroups exts (fun x g => Ok (match x with Some (XSupportedGroups l) => set_groups l g | _ => g end)) (
  field KClientKeyShare exts (fun x g => Ok (match x, g_shares g with Some (XClientKeyShare l), None => set_shares (Some (map fst l)) g | _, _ => g end)) (
  field KPskKeyExchangeModes exts (fun x g => Ok (match x with Some (XPskKeyExchangeModes l) => set_modes l g | _ => g end)) (
  field KSignatureAlgorithms exts (fun x g => Ok (match x with Some (XSignatureAlgorithms l) => set_schemes l g | _ => g end)) (
  field KCertCompressionAlgs exts (fun x g => Ok (match x with Some (XCertCompressionAlgs l) => set_compression l g | _ => g end)) (fun g =>
    (set_sid_random (Some (match ch_session_id c with Some (_ :: _) => true | _ => false end)) (Some (ch_random c)) g, Ok tt))))))))
    (set_alpns [] (set_extensions (map ext_type exts) t (set_ciphers (ch_suites c) g)))
  end) (set_version (Some (ch_version c)) g).
(** populateFromPreECHClientHello :98-103; a ClientHello read from the network has its original encoding *)
Definition populatePre (c : ClientHello) (orig : bytes) (g : hlog) : hlog := set_outer (blen orig) (Some (ch_random c)) g.
