(** * AEADs over IOBuf chains: crypto/aead/CryptoUtil.h (encFuncBlocks, decFuncBlocks, encryptHelper, decryptHelper),
    backend/openssl/crypto/aead/OpenSSLEVPCipher.cpp and backend/libaegis/AEGISCipher.cpp.

    The cryptographic library is a set of arbitrary functions that may fail.  A buffer of a chain is its headroom, its data, the
    bytes behind the data (its tailroom) and whether its memory is shared.  Input and output memory are two flat byte sequences, or
    one if the encryption is in place; reads and writes are at positions.  Two buffers of one chain do not overlap. *)
From Verif Require Import Base Nonce Hkdf IOBufUtil.
Open Scope N_scope.

Record iob := mkIob { b_head : N; b_data : bytes; b_tail : bytes; b_shared : bool }.
Notation chain := (list iob).
Definition flat (c : chain) : bytes := concat (map b_data c).
Definition lens (c : chain) : list N := map (fun b => blen (b_data b)) c.
(** The memory of each buffer from its data on *)
Definition memory (c : chain) : list bytes := map (fun b => b_data b ++ b_tail b) c.
Definition is_shared (c : chain) : bool := existsb b_shared c.
(** Aead::BufferOption and Aead::AllocationOption (crypto/aead/Aead.h:31-46) *)
Inductive bufopt := Respect | AllowInPlace | AllowFull.
Record aopts := mkAo { ao_buf : bufopt; ao_alloc : bool }.
Definition is_respect (o : bufopt) : bool := match o with Respect => true | _ => false end.
Definition is_full (o : bufopt) : bool := match o with AllowFull => true | _ => false end.

(** ** The library, with a key set
    A context after initialisation with a nonce; more associated data; more input, with what is written; for encryption, the end (with what
    is written) and the tag; for decryption, setting the expected tag, and the end: nothing if the tag is wrong. *)
Record ulib (St : Type) := mkUlib { u_init : bytes -> option St; u_ad : St -> bytes -> option St; u_upd : St -> bytes -> option (St * bytes) }.
Record elib (St : Type) := mkElib { el_u : ulib St; el_fin : St -> option (St * bytes); el_tag : St -> option bytes }.
Record dlib (St : Type) := mkDlib { dl_u : ulib St; dl_set : St -> bytes -> option St; dl_fin : St -> option bytes }.
Arguments u_init {St}. Arguments u_ad {St}. Arguments u_upd {St}.
Arguments mkUlib {St}. Arguments mkElib {St}. Arguments mkDlib {St}.
Arguments el_u {St}. Arguments el_fin {St}. Arguments el_tag {St}. Arguments dl_u {St}. Arguments dl_set {St}. Arguments dl_fin {St}.
(** OpenSSLEVPCipher with and without operatesInBlocks; AEGISCipher *)
Inductive lkind := Evp | EvpBlocks | Aegis.
Definition int_max : N := 2147483647.
Definition block_size : N := 16.

Section Lib.
  Context {St : Type}.
  (** AeadImpl::init: OpenSSLEVPCipher.cpp:121-147, 217-244; AEGISCipher.cpp:195-219, 277-302 *)
  Fixpoint ads (u : ulib St) (s : St) (l : list bytes) : option St :=
    match l with
    | [] => Some s
    | x :: r => if int_max <? blen x then None else match u_ad u s x with Some s' => ads u s' r | None => None end
    end.
  Definition start (k : lkind) (u : ulib St) (iv : bytes) (ad : option (list bytes)) : option St :=
    match u_init u iv with
    | None => None
    | Some s => match ad, k with
                | None, Aegis => u_ad u s []
                | None, _ => Some s
                | Some l, Aegis => u_ad u s (concat l)
                | Some l, _ => ads u s l
                end
    end.
  (** The function given to transformBuffer or transformBufferBlocks: encFunc :28-46, decFunc :71-87, CryptoUtil.h:58-74 and :123-145,
      AEGISCipher.cpp:227-235, 314-322 *)
  Definition chunk (k : lkind) (enc : bool) (u : ulib St) (s : St) (x : bytes) : option (St * bytes) :=
    match k with
    | Aegis => u_upd u s x
    | _ => if int_max <? blen x then None else if enc && (blen x =? 0) then Some (s, []) else u_upd u s x
    end.

  Section Drive.
    Variable f : St -> bytes -> option (St * bytes).
    Variable same : bool.                       (* input and output are the same chain *)
    (** [n] bytes of [m] from position [p] *)
    Definition rd (m : bytes) (p n : N) : bytes := takeN n (dropN p m).
    (** transformBuffer (IOBufUtil.h:46-73): memory of input and output, positions, lengths of the buffers left.  After a failure [f] is
        not called any more (the lambdas' status), so that the model may stop.  Running out of output wraps around in the code; undefined here. *)
    Fixpoint tb (fuel : nat) (s : St) (mi mo : bytes) (ip op : N) (il ol : list N) : bytes * bytes * res St :=
      match il with
      | [] => (mi, mo, Ok s)
      | n :: r =>
          if n =? 0 then match fuel with O => (mi, mo, Err EFuel) | S g => tb g s mi mo ip op r ol end
          else match ol, fuel with
               | [], _ => (mi, mo, Err EUB)
               | _, O => (mi, mo, Err EFuel)
               | c :: cs, S g =>
                   let sel := N.min c n in
                   match f s (rd mi ip sel) with
                   | None => (mi, mo, fail)
                   | Some (s', o) =>
                       match poke mo op o with
                       | Err e => (mi, mo, Err e)
                       | Ok mo' => tb g s' (if same then mo' else mi) mo' (ip + sel) (op + sel) (n - sel :: r) (if c - sel =? 0 then cs else c - sel :: cs)
                       end
                   end
               end
      end.
    (** transformBufferBlocks (IOBufUtil.h:91-182), as [blocks] in IOBufUtil.v but on memory; the result has the output cursor: its position and
        the room left in the buffers from it on *)
    Fixpoint bl (fuel : nat) (bs : N) (bb : bytes) (s : St) (mi mo : bytes) (ip op ib : N) (il ol : list N) : bytes * bytes * res (St * N * list N) :=
      match skip0 il with
      | [] => (mi, mo, Ok (s, op, ol))
      | n :: r =>
          match fuel with
          | O => (mi, mo, Err EFuel)
          | S g =>
              let ol := skip0 ol in
              let outputLen := hd 0 ol in
              if n + ib <? bs then
                match f s (rd mi ip n) with
                | None => (mi, mo, fail)
                | Some (s', o) =>
                    match poke bb 0 o with
                    | Err e => (mi, mo, Err e)
                    | Ok bb' => bl g bs bb' s' mi mo (ip + n) op (ib + n) r ol
                    end
                end
              else if outputLen <? bs then
                match f s (rd mi ip (bs - ib)) with
                | None => (mi, mo, fail)
                | Some (s', o) =>
                    match poke bb 0 o with
                    | Err e => (mi, mo, Err e)
                    | Ok bb' =>
                        match advance ol bs, poke mo op (takeN bs bb') with
                        | Ok ol', Ok mo' => bl g bs bb' s' (if same then mo' else mi) mo' (ip + (bs - ib)) (op + bs) 0 (n - (bs - ib) :: r) ol'
                        | Err e, _ | _, Err e => (mi, mo, Err e)
                        end
                    end
                end
              else
                let shared := N.min outputLen (n + ib) in
                let nblk := shared - shared mod bs in
                let nt := N.min n ((nblk - ib) + (bs - 1)) in
                match f s (rd mi ip nt) with
                | None => (mi, mo, fail)
                | Some (s', o) =>
                    if outputLen <? blen o then (mi, mo, Err EUB)
                    else match advance ol (blen o), poke mo op o with
                         | Ok ol', Ok mo' => bl g bs bb s' (if same then mo' else mi) mo' (ip + nt) (op + blen o) ((ib + nt) mod bs) (n - nt :: r) ol'
                         | Err e, _ | _, Err e => (mi, mo, Err e)
                         end
                end
          end
      end.
  End Drive.
  Fixpoint sumL (l : list N) : N := match l with [] => 0 | c :: r => c + sumL r end.
  Definition tbuf (f : St -> bytes -> option (St * bytes)) (same : bool) (s : St) (mi mo : bytes) (il ol : list N) : bytes * bytes * res St :=
    tb f same (length il + length ol + N.to_nat (sumL il)) s mi mo 0 0 il ol.
  Definition tblocks (f : St -> bytes -> option (St * bytes)) (same : bool) (s : St) (mi mo : bytes) (il ol : list N) : bytes * bytes * res (St * N * list N) :=
    bl f same (N.to_nat (sumL il)) block_size (zeros kMaxBlock) s mi mo 0 0 0 il ol.
  (** What the last call writes, at the output cursor: CryptoUtil.h:81-98 and :149-164.  [nb]: numBuffered; the cursor is at [op] with [ol] left. *)
  Definition place (mo : bytes) (op : N) (ol : list N) (nb : N) (w : bytes) : res bytes :=
    if nb <=? hd 0 ol then (if hd 0 ol <? blen w then Err EUB else poke mo op w)
    else if kMaxBlock <? blen w then Err EUB
    else _ <- advance ol (blen w) ;; poke mo op w.

  (** AeadImpl::encrypt: encFunc :17-56, encFuncBlocks CryptoUtil.h:108-166, AEGISCipher.cpp:221-249.  Without block operations the last call is
      expected to write nothing. *)
  Definition encL (k : lkind) (L : elib St) (same : bool) (s : St) (mi mo : bytes) (il ol : list N) : bytes * res St :=
    match k with
    | EvpBlocks =>
        let '(_, m, r) := tblocks (chunk k true (el_u L)) same s mi mo il ol in
        match r with
        | Err e => (m, Err e)
        | Ok (s1, op, ol') =>
            match el_fin L s1 with
            | None => (m, fail)
            | Some (s2, w) => match place m op ol' (sumL il - op) w with Ok m' => (m', Ok s2) | Err e => (m, Err e) end
            end
        end
    | _ =>
        let '(_, m, r) := tbuf (chunk k true (el_u L)) same s mi mo il ol in
        match r with
        | Err e => (m, Err e)
        | Ok s1 => match el_fin L s1 with None => (m, fail) | Some (s2, w) => if blen w =? 0 then (m, Ok s2) else (m, Err EUB) end
        end
    end.
  (** AeadImpl::decryptAndFinal: decFunc :58-102, decFuncBlocks CryptoUtil.h:40-99, AEGISCipher.cpp:304-330 *)
  Definition decL (k : lkind) (D : dlib St) (same : bool) (s : St) (mi mo : bytes) (il ol : list N) (tag : bytes) : bytes * res bool :=
    match k with
    | EvpBlocks =>
        let '(_, m, r) := tblocks (chunk k false (dl_u D)) same s mi mo il ol in
        match r with
        | Err e => (m, Err e)
        | Ok (s1, op, ol') =>
            match dl_set D s1 tag with
            | None => (m, fail)
            | Some s2 => match dl_fin D s2 with
                         | None => (m, Ok false)
                         | Some w => match place m op ol' (sumL il - op) w with Ok m' => (m', Ok true) | Err e => (m, Err e) end
                         end
            end
        end
    | _ =>
        let '(_, m, r) := tbuf (chunk k false (dl_u D)) same s mi mo il ol in
        match r with
        | Err e => (m, Err e)
        | Ok s1 => match dl_set D s1 tag with
                   | None => (m, fail)
                   | Some s2 => match dl_fin D s2 with None => (m, Ok false) | Some w => if blen w =? 0 then (m, Ok true) else (m, Err EUB) end
                   end
        end
    end.

  (** The chain after its data was overwritten *)
  Fixpoint recut (c : chain) (m : bytes) : chain :=
    match c with
    | [] => []
    | b :: r => mkIob (b_head b) (takeN (blen (b_data b)) m) (b_tail b) (b_shared b) :: recut r (dropN (blen (b_data b)) m)
    end.
  Definition last_tail (c : chain) : bytes := match rev c with b :: _ => b_tail b | [] => [] end.
  (** append to the last buffer, into its tailroom *)
  Fixpoint grow (c : chain) (t : bytes) : chain :=
    match c with
    | [] => []
    | [b] => [mkIob (b_head b) (b_data b ++ t) (dropN (blen t) (b_tail b)) (b_shared b)]
    | b :: r => b :: grow r t
    end.
  (** IOBuf::create(n): what the memory holds and how much more than [n] it is depends on the allocator *)
  Record alloc := mkAlloc { al_byte : byte; al_more : N }.
  Definition junk (a : alloc) (n : N) : bytes := repeat (al_byte a) (N.to_nat n).

  Definition in_place (c : chain) (o : aopts) : bool := negb (is_shared c) || negb (is_respect (ao_buf o)).
  Definition may_grow (c : chain) (o : aopts) : bool := is_full (ao_buf o) || negb (is_shared c) || negb (in_place c o).
  (** encryptHelper, CryptoUtil.h:242-259, after impl.encrypt *)
  Definition add_tag (L : elib St) (tagLen : N) (o : aopts) (growth : bool) (a : alloc) (c : chain) (s : St) : chain * res chain :=
    if (blen (last_tail c) <? tagLen) || negb growth then
      if negb (ao_alloc o) then (c, fail)
      else match el_tag L s with None => (c, fail) | Some t => (c, Ok (c ++ [mkIob 0 t (junk a (al_more a)) false])) end
    else match el_tag L s with None => (c, fail) | Some t => let c' := grow c t in (c', Ok c') end.
  (** encryptHelper, CryptoUtil.h:184-262, with evpEncrypt (OpenSSLEVPCipher.cpp:104-199) and doEncrypt (AEGISCipher.cpp:183-263): the memory of the caller's buffers after the call, and the result *)
  Definition encryptHelper (k : lkind) (L : elib St) (tagLen headroom : N) (o : aopts) (a : alloc) (iv : bytes) (ad : option (list bytes)) (c : chain)
    : list bytes * res chain :=
    match start k (el_u L) iv ad with
    | None => (memory c, fail)
    | Some s =>
        if negb (in_place c o) && negb (ao_alloc o) then (memory c, fail)
        else if in_place c o then
          let '(m, r) := encL k L true s (flat c) (flat c) (lens c) (lens c) in
          let c1 := recut c m in
          match r with
          | Err e => (memory c1, Err e)
          | Ok s1 => let '(c2, r2) := add_tag L tagLen o (may_grow c o) a c1 s1 in (memory c2, r2)
          end
        else
          let n := blen (flat c) in
          if 2 ^ 64 <=? headroom + n + tagLen then (memory c, fail)
          else
            let '(m, r) := encL k L false s (flat c) (junk a n) (lens c) [n] in
            match r with
            | Err e => (memory c, Err e)
            | Ok s1 => (memory c, snd (add_tag L tagLen o (may_grow c o) a [mkIob headroom m (junk a (tagLen + al_more a)) false] s1))
            end
    end.

  (** trimming the tag off: the chain's data gets shorter, the tailrooms longer *)
  Fixpoint shorten (c : chain) (ds : list bytes) : chain :=
    match c, ds with
    | b :: r, d :: dr => mkIob (b_head b) d (dropN (blen d) (b_data b) ++ b_tail b) (b_shared b) :: shorten r dr
    | _, _ => []
    end.
  Definition last_len (c : chain) : N := match rev c with b :: _ => blen (b_data b) | [] => 0 end.
  (** decryptHelper, CryptoUtil.h:277-312 *)
  Definition decryptHelper (k : lkind) (D : dlib St) (a : alloc) (iv : bytes) (ad : option (list bytes)) (c : chain) (tag : bytes) (inPlace : bool)
    : list bytes * res (option chain) :=
    match start k (dl_u D) iv ad with
    | None => (memory c, fail)
    | Some s =>
        if inPlace then
          let '(m, r) := decL k D true s (flat c) (flat c) (lens c) (lens c) tag in
          let c1 := recut c m in
          (memory c1, ok <- r ;; Ok (if ok : bool then Some c1 else None))
        else
          let n := blen (flat c) in
          let '(m, r) := decL k D false s (flat c) (junk a n) (lens c) [n] tag in
          (memory c, ok <- r ;; Ok (if ok : bool then Some [mkIob 0 m (junk a (al_more a)) false] else None))
    end.
  (** tryDecrypt, OpenSSLEVPCipher.cpp:490-550, AEGISCipher.cpp:455-496 *)
  Definition tryDecrypt (k : lkind) (D : dlib St) (tagLen : N) (o : aopts) (a : alloc) (iv : bytes) (ad : option (list bytes)) (c : chain)
    : list bytes * res (option chain) :=
    if blen (flat c) <? tagLen then (memory c, Ok None)
    else if negb (in_place c o) && negb (ao_alloc o) then (memory c, fail)
    else if (last_len c <? tagLen) && negb (ao_alloc o) then (memory c, fail)
    else match trimBytes (map b_data c) tagLen with        (* a tag within the last buffer is cut off it in the same way *)
         | Err e => (memory c, Err e)
         | Ok (ds, tag) => decryptHelper k D a iv ad (shorten c ds) tag (in_place c o)
         end.

  (** ** The cipher object: setKey (:374-403; AEGISCipher.cpp:366-380); [key] as cached, the IV *)
  Record cipher := mkCipher { ci_kind : lkind; ci_keyLen : N; ci_ivLen : N; ci_tagLen : N; ci_headroom : N; ci_key : option (bytes * bytes) }.
  (** [lib key]: the library with that key; setting a key may fail *)
  Definition setKey (ok : bytes -> bool) (ci : cipher) (key iv : bytes) : cipher * res unit :=
    if negb (blen key =? ci_keyLen ci) then (ci, fail)
    else if negb (blen iv =? ci_ivLen ci) then (ci, fail)
    else (mkCipher (ci_kind ci) (ci_keyLen ci) (ci_ivLen ci) (ci_tagLen ci) (ci_headroom ci) (Some (key, iv)), if ok key then Ok tt else fail).
  (** encrypt :407-416, tryDecrypt :455-497 and the same in AEGISCipher.cpp; without a key trafficIvKey_ is empty *)
  Definition ci_nonce (ci : cipher) (seq : N) : res bytes :=
    createIV seq (ci_ivLen ci) (match ci_key ci with Some (_, iv) => iv | None => [] end).
  Definition encryptSeq (lib : bytes -> elib St) (ci : cipher) (o : aopts) (a : alloc) (seq : N) (ad : option (list bytes)) (c : chain) : list bytes * res chain :=
    match ci_nonce ci seq with
    | Err e => (memory c, Err e)
    | Ok iv => encryptHelper (ci_kind ci) (lib (match ci_key ci with Some (key, _) => key | None => [] end)) (ci_tagLen ci) (ci_headroom ci) o a iv ad c
    end.
  Definition decryptSeq (lib : bytes -> dlib St) (ci : cipher) (o : aopts) (a : alloc) (seq : N) (ad : option (list bytes)) (c : chain) : list bytes * res (option chain) :=
    match ci_nonce ci seq with
    | Err e => (memory c, Err e)
    | Ok iv => tryDecrypt (ci_kind ci) (lib (match ci_key ci with Some (key, _) => key | None => [] end)) (ci_tagLen ci) o a iv ad c
    end.
  (** inplaceEncrypt :419-435, AEGISCipher.cpp:419-435 *)
  Definition inplaceEncrypt (lib : bytes -> elib St) (ci : cipher) := encryptSeq lib ci (mkAo AllowFull false).
End Lib.
