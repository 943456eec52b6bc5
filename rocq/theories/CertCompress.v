(** * compression/{Zlib,Brotli,Zstd}Certificate{Compressor,Decompressor}.cpp, compression/CertDecompressionManager.cpp,
    the certificate message and compressed certificates of an OpenSSLSelfCertImpl

    zlib, brotli and zstd are the functions of [clib]: each either fails (None: any status but success) or gives the bytes written to the output buffer. *)
From Verif Require Import Base Codec Handshake.
Open Scope N_scope.

Record clib := mkClib {
  cl_zcompress : Z -> bytes -> option bytes;                 (* ::compress2 with a level, into compressBound(size) bytes *)
  cl_zuncompress : N -> bytes -> option bytes;               (* ::uncompress into a buffer of that capacity *)
  cl_brbound : N -> N;                                       (* BrotliEncoderMaxCompressedSize *)
  cl_brcompress : Z -> Z -> bytes -> option bytes;           (* BrotliEncoderCompress, level and window *)
  cl_brdecompress : N -> bytes -> option bytes;              (* BrotliDecoderDecompress into that capacity *)
  cl_zscompress : Z -> bytes -> option bytes;                (* ZSTD_compress *)
  cl_zsdecompress : N -> bytes -> option bytes;              (* ZSTD_decompress into that capacity *)
  cl_tailroom : N -> N }.                                    (* IOBuf::create(n)->tailroom(), which may be more than n *)

(** CertificateCompressionAlgorithm, record/Types.h *)
Inductive calg := AZlib | ABrotli | AZstd.
Definition alg_code (a : calg) : N := match a with AZlib => 1 | ABrotli => 2 | AZstd => 3 end.
Definition kMaxCert : N := 131072.                           (* kMaxHandshakeSize, record/Types.h:76 *)

(** ** Compressors *)
Inductive compressor := CZlib (level : Z) | CBrotli (level window : Z) | CZstd (level : Z).
(** getAlgorithm, Zlib .cpp:35-38, Brotli :27-30, Zstd :19-22 *)
Definition c_alg (c : compressor) : calg := match c with CZlib _ => AZlib | CBrotli _ _ => ABrotli | CZstd _ => AZstd end.
(** ZlibCertificateCompressor::create .cpp:18-33; the other two take any level *)
Definition createZlib (level : Z) : res compressor :=
  if negb (level =? -1)%Z && negb ((0 <=? level)%Z && (level <=? 9)%Z) then fail else Ok (CZlib level).
(** brotliCompressImpl .cpp:34-66 *)
Definition brotliCompress (l : clib) (level window : Z) (b : bytes) : res bytes :=
  if cl_brbound l (blen b) =? 0 then fail else match cl_brcompress l level window b with Some c => Ok c | None => fail end.
(** compress: Zlib .cpp:40-73, Brotli :71-81, Zstd :24-53 *)
Definition compress (l : clib) (c : compressor) (m : CertificateMsg) : res CompressedCertificate :=
  raw <- encode_cert m ;;
  out <- match c with
         | CZlib level => match cl_zcompress l level raw with Some o => Ok o | None => fail end
         | CBrotli level window => brotliCompress l level window raw
         | CZstd level => match cl_zscompress l level raw with Some o => Ok o | None => fail end
         end ;;
  Ok (mkCC (alg_code (c_alg c)) (blen raw) (Some out)).

(** ** Decompressors: decompress, Zlib .cpp:20-64, Brotli :39-71, Zstd :20-63; a null message is dereferenced *)
Definition decompress (l : clib) (a : calg) (cc : CompressedCertificate) : res CertificateMsg :=
  if negb (cc_algorithm cc =? alg_code a) then fail
  else if kMaxCert <? cc_uncompressed_length cc then fail
  else match cc_message cc with
  | None => Err EUB
  | Some b =>
      let n := cc_uncompressed_length cc in
      raw <- match a with
             | AZlib => match cl_zuncompress l n b with Some r => Ok r | None => fail end
             | ABrotli => match cl_brdecompress l n b with Some r => Ok r | None => fail end
             | AZstd => match cl_zsdecompress l (cl_tailroom l n) b with Some r => Ok r | None => fail end
             end ;;
      if negb (blen raw =? n) then fail
      else if (match a with AZstd => true | _ => false end) && (blen raw =? 0) then fail
      else decode_all decode_cert raw
  end.

(** ** CertDecompressionManager, .cpp:15-47: a std::map by algorithm (ordered), a later decompressor replaces an earlier one.
    A decompressor is an algorithm with a function. *)
Record decompressor := mkDec { dc_alg : N; dc_run : CompressedCertificate -> res CertificateMsg }.
Fixpoint mapSet {A} (k : N) (v : A) (m : list (N * A)) : list (N * A) :=
  match m with
  | [] => [(k, v)]
  | (j, w) :: r => if k <? j then (k, v) :: m else if k =? j then (k, v) :: r else (j, w) :: mapSet k v r
  end.
Fixpoint mapGet {A} (k : N) (m : list (N * A)) : option A :=
  match m with [] => None | (j, w) :: r => if k =? j then Some w else mapGet k r end.
Definition setDecompressors (ds : list decompressor) : list (N * decompressor) :=
  fold_left (fun m d => mapSet (dc_alg d) d m) ds [].
Definition getSupportedAlgorithms (m : list (N * decompressor)) : list N := map fst m.
Definition getDecompressor (m : list (N * decompressor)) (a : N) : option decompressor := mapGet a m.
Definition stdDecompressor (l : clib) (a : calg) : decompressor := mkDec (alg_code a) (decompress l a).

(** ** OpenSSLSelfCertImpl *)
(** CertUtils::getCertMessage, backend/openssl/certificate/CertUtils.cpp:42-71: each certificate is what i2d_X509 gives *)
Fixpoint certEntries (chain : list (option bytes)) : res (list CertificateEntry) :=
  match chain with
  | [] => Ok []
  | None :: _ => fail
  | Some d :: r => l <- certEntries r ;; Ok (mkCE (Some d) [] :: l)
  end.
Definition getCertMessage (chain : list (option bytes)) (context : buf) : res CertificateMsg :=
  l <- certEntries chain ;; Ok (mkCert context l).
(** create, OpenSSLSelfCertImpl-inl.h:33-62, without the private key: compressedCerts[algorithm] for every compressor *)
Fixpoint compressAll (l : clib) (cs : list compressor) (chain : list (option bytes)) (m : list (N * CompressedCertificate)) : res (list (N * CompressedCertificate)) :=
  match cs with
  | [] => Ok m
  | c :: r => msg <- getCertMessage chain None ;; cc <- compress l c msg ;; compressAll l r chain (mapSet (alg_code (c_alg c)) cc m)
  end.
Definition createSelfCert (l : clib) (cs : list compressor) (chain : list (option bytes)) : res (list (N * CompressedCertificate)) :=
  match chain with [] => fail | _ => compressAll l cs chain [] end.
(** getCompressedCert :84-87: std::map::at throws std::out_of_range *)
Definition getCompressedCert (m : list (N * CompressedCertificate)) (a : N) : res CompressedCertificate :=
  match mapGet a m with Some c => Ok c | None => Err EThrow end.
