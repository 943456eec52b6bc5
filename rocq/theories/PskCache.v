(** * client/PskCache.h, client/SynchronizedLruPskCache.{h,cpp}, and folly/container/EvictingCacheMap.h as far as they use it

    Identities (std::string) are bytes; a CachedPsk is [cpsk] of Client.v; the clock is a parameter of the call that reads it.
    folly::EvictingCacheMap is not in /repo: it is modelled by its documented behaviour (a hash index over an LRU list, the most
    recently used entry first). *)
From Verif Require Import Base PskSer Server Client.
Open Scope N_scope.

(** ** folly::EvictingCacheMap<std::string, CachedPsk>(mapMax), clearSize 1; SynchronizedLruPskCache.h:24,36 *)
Notation entries := (list (bytes * cpsk)).
Record lru := mkLru { lr_max : N; lr_list : entries }.
(** SynchronizedLruPskCache::SynchronizedLruPskCache, .cpp:15-16 *)
Definition emptyLru (mapMax : N) : lru := mkLru mapMax [].
Fixpoint lookup (i : bytes) (l : entries) : option cpsk :=
  match l with [] => None | (j, p) :: r => if bytes_eqb i j then Some p else lookup i r end.
Definition without (i : bytes) (l : entries) : entries := filter (fun e => negb (bytes_eqb i (fst e))) l.
(** find(key): the entry found becomes the most recent *)
Definition lruFind (m : lru) (i : bytes) : option cpsk * lru :=
  match lookup i (lr_list m) with
  | Some p => (Some p, mkLru (lr_max m) ((i, p) :: without i (lr_list m)))
  | None => (None, m)
  end.
(** set(key, value): replaces or inserts, at the front; when a bound is set and exceeded, prune(1) drops the last entry *)
Definition lruSet (m : lru) (i : bytes) (p : cpsk) : lru :=
  let l := (i, p) :: without i (lr_list m) in
  mkLru (lr_max m) (if (0 <? lr_max m) && (lr_max m <? N.of_nat (length l)) then removelast l else l).
(** erase(key) / erase(iterator) *)
Definition lruErase (m : lru) (i : bytes) : lru := mkLru (lr_max m) (without i (lr_list m)).

(** ** One call, in full *)
(** getPsk's test of the entry found, .cpp:23-32 *)
Definition lruCheck (m : lru) (i : bytes) (r : option cpsk) (now : Z) : option cpsk * lru :=
  match r with
  | Some p => if (pk_expire (cp_psk p) <? now)%Z then (None, lruErase m i) else (Some p, m)
  | None => (None, m)
  end.
Inductive pop := OGet (i : bytes) (now : Z) | OPut (i : bytes) (p : cpsk) | ORemove (i : bytes).
(** getPsk .cpp:18-37; putPsk :39-44; removePsk :46-49 *)
Definition lruStep (m : lru) (o : pop) : option cpsk * lru :=
  match o with
  | OGet i now => let '(r, m1) := lruFind m i in lruCheck m1 i r now
  | OPut i p => (None, lruSet m i p)
  | ORemove i => (None, lruErase m i)
  end.
(** A history: each call with what it returned (put and remove return nothing: None) *)
Notation call := (pop * option cpsk)%type.
Fixpoint lruRun (m : lru) (os : list pop) : list call * lru :=
  match os with
  | [] => ([], m)
  | o :: r => let '(a, m1) := lruStep m o in let '(l, m2) := lruRun m1 r in ((o, a) :: l, m2)
  end.

(** ** BasicPskCache, PskCache.h:63-87: an unordered_map *)
Definition basicStep (l : entries) (o : pop) : option cpsk * entries :=
  match o with
  | OGet i _ => (lookup i l, l)                       (* :67-74 *)
  | OPut i p => (None, (i, p) :: without i l)         (* :76-78 *)
  | ORemove i => (None, without i l)                  (* :80-82 *)
  end.
Fixpoint basicRun (l : entries) (os : list pop) : list call * entries :=
  match os with
  | [] => ([], l)
  | o :: r => let '(a, l1) := basicStep l o in let '(h, l2) := basicRun l1 r in ((o, a) :: h, l2)
  end.

(** ** Threads sharing a SynchronizedLruPskCache

    Each function body is cut at every access to the map: cache_.wlock() (.cpp:20,42,47), find (:21), the test of the time and
    erase (:23-32), set (:43), erase (:48), and the return, which releases the lock. *)
Inductive req := RGet (i : bytes) | RPut (i : bytes) (p : cpsk) | RRemove (i : bytes).
Inductive tst := TIdle | TWait (q : req) | TLocked (q : req) | TFound (i : bytes) (r : option cpsk) | TDone (o : pop) (r : option cpsk).
Record conc := mkConc { cc_map : lru; cc_lock : option nat; cc_thread : nat -> tst; cc_returned : list (nat * call) }.
Definition conc0 (mapMax : N) : conc := mkConc (emptyLru mapMax) None (fun _ => TIdle) [].
Definition upd (f : nat -> tst) (t : nat) (x : tst) : nat -> tst := fun u => if Nat.eqb u t then x else f u.
Inductive cstep : conc -> conc -> Prop :=
| CCall c t q : cc_thread c t = TIdle -> cstep c (mkConc (cc_map c) (cc_lock c) (upd (cc_thread c) t (TWait q)) (cc_returned c))
| CLock c t q : cc_thread c t = TWait q -> cc_lock c = None ->
    cstep c (mkConc (cc_map c) (Some t) (upd (cc_thread c) t (TLocked q)) (cc_returned c))
| CFind c t i : cc_thread c t = TLocked (RGet i) ->
    cstep c (mkConc (snd (lruFind (cc_map c) i)) (cc_lock c) (upd (cc_thread c) t (TFound i (fst (lruFind (cc_map c) i)))) (cc_returned c))
| CCheck c t i r now : cc_thread c t = TFound i r ->
    cstep c (mkConc (snd (lruCheck (cc_map c) i r now)) (cc_lock c)
               (upd (cc_thread c) t (TDone (OGet i now) (fst (lruCheck (cc_map c) i r now)))) (cc_returned c))
| CSet c t i p : cc_thread c t = TLocked (RPut i p) ->
    cstep c (mkConc (lruSet (cc_map c) i p) (cc_lock c) (upd (cc_thread c) t (TDone (OPut i p) None)) (cc_returned c))
| CErase c t i : cc_thread c t = TLocked (RRemove i) ->
    cstep c (mkConc (lruErase (cc_map c) i) (cc_lock c) (upd (cc_thread c) t (TDone (ORemove i) None)) (cc_returned c))
| CReturn c t o r : cc_thread c t = TDone o r ->
    cstep c (mkConc (cc_map c) None (upd (cc_thread c) t TIdle) (cc_returned c ++ [(t, (o, r))])).
Inductive creaches (mapMax : N) : conc -> Prop :=
| CR0 : creaches mapMax (conc0 mapMax)
| CRS c d : creaches mapMax c -> cstep c d -> creaches mapMax d.
