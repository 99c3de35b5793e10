(** Model of src/sha2.cpp and include/caligo/sha2.h. *)
From Verif Require Import Base M_MD.

(** sha2.cpp:45-54, [K_256]. *)
Definition K_256 : list Z :=
 [
   0x428a2f98; 0x71374491; 0xb5c0fbcf; 0xe9b5dba5;
   0x3956c25b; 0x59f111f1; 0x923f82a4; 0xab1c5ed5;
   0xd807aa98; 0x12835b01; 0x243185be; 0x550c7dc3;
   0x72be5d74; 0x80deb1fe; 0x9bdc06a7; 0xc19bf174;
   0xe49b69c1; 0xefbe4786; 0x0fc19dc6; 0x240ca1cc;
   0x2de92c6f; 0x4a7484aa; 0x5cb0a9dc; 0x76f988da;
   0x983e5152; 0xa831c66d; 0xb00327c8; 0xbf597fc7;
   0xc6e00bf3; 0xd5a79147; 0x06ca6351; 0x14292967;
   0x27b70a85; 0x2e1b2138; 0x4d2c6dfc; 0x53380d13;
   0x650a7354; 0x766a0abb; 0x81c2c92e; 0x92722c85;
   0xa2bfe8a1; 0xa81a664b; 0xc24b8b70; 0xc76c51a3;
   0xd192e819; 0xd6990624; 0xf40e3585; 0x106aa070;
   0x19a4c116; 0x1e376c08; 0x2748774c; 0x34b0bcb5;
   0x391c0cb3; 0x4ed8aa4a; 0x5b9cca4f; 0x682e6ff3;
   0x748f82ee; 0x78a5636f; 0x84c87814; 0x8cc70208;
   0x90befffa; 0xa4506ceb; 0xbef9a3f7; 0xc67178f2].

(** sha2.cpp:160-181, [K_512]. *)
Definition K_512 : list Z :=
 [
   0x428a2f98d728ae22; 0x7137449123ef65cd; 0xb5c0fbcfec4d3b2f; 0xe9b5dba58189dbbc;
   0x3956c25bf348b538; 0x59f111f1b605d019; 0x923f82a4af194f9b; 0xab1c5ed5da6d8118;
   0xd807aa98a3030242; 0x12835b0145706fbe; 0x243185be4ee4b28c; 0x550c7dc3d5ffb4e2;
   0x72be5d74f27b896f; 0x80deb1fe3b1696b1; 0x9bdc06a725c71235; 0xc19bf174cf692694;
   0xe49b69c19ef14ad2; 0xefbe4786384f25e3; 0x0fc19dc68b8cd5b5; 0x240ca1cc77ac9c65;
   0x2de92c6f592b0275; 0x4a7484aa6ea6e483; 0x5cb0a9dcbd41fbd4; 0x76f988da831153b5;
   0x983e5152ee66dfab; 0xa831c66d2db43210; 0xb00327c898fb213f; 0xbf597fc7beef0ee4;
   0xc6e00bf33da88fc2; 0xd5a79147930aa725; 0x06ca6351e003826f; 0x142929670a0e6e70;
   0x27b70a8546d22ffc; 0x2e1b21385c26c926; 0x4d2c6dfc5ac42aed; 0x53380d139d95b3df;
   0x650a73548baf63de; 0x766a0abb3c77b2a8; 0x81c2c92e47edaee6; 0x92722c851482353b;
   0xa2bfe8a14cf10364; 0xa81a664bbc423001; 0xc24b8b70d0f89791; 0xc76c51a30654be30;
   0xd192e819d6ef5218; 0xd69906245565a910; 0xf40e35855771202a; 0x106aa07032bbd1b8;
   0x19a4c116b8d2d0c8; 0x1e376c085141ab53; 0x2748774cdf8eeb99; 0x34b0bcb5e19b48a8;
   0x391c0cb3c5c95a63; 0x4ed8aa4ae3418acb; 0x5b9cca4f7763e373; 0x682e6ff3d6b2b8a3;
   0x748f82ee5defb2fc; 0x78a5636f43172f60; 0x84c87814a1f0ab72; 0x8cc702081a6439ec;
   0x90befffa23631e28; 0xa4506cebde82bde9; 0xbef9a3f7b2c67915; 0xc67178f2e372532b;
   0xca273eceea26619c; 0xd186b8c721c0c207; 0xeada7dd6cde0eb1e; 0xf57d4f7fee6ed178;
   0x06f067aa72176fba; 0x0a637dc5a2c898a6; 0x113f9804bef90dae; 0x1b710b35131c471b;
   0x28db77f523047d84; 0x32caab7b40c72493; 0x3c9ebe0a15c9bebc; 0x431d67c49c100d4c;
   0x4cc5d4becb3e42b6; 0x597f299cfc657e2a; 0x5fcb6fab3ad6faec; 0x6c44198c4a475817].

(** sha2.cpp:41-43, [rotr32]. *)
Definition rotr32 (v count : Z) : Z := Z.lor (Z.shiftr v count) (w32 (Z.shiftl v (32 - count))).
(** sha2.cpp:155-157, [rotr64]. *)
Definition rotr64 (v count : Z) : Z := Z.lor (Z.shiftr v count) (w64 (Z.shiftl v (64 - count))).

Definition sha2_not (w x : Z) : Z := 2 ^ w - 1 - x.

Definition st8 := (Z * Z * Z * Z * Z * Z * Z * Z)%type.

(** ** SHA2<256> *)

(** sha2.cpp:58-60: word t of the chunk. *)
Definition sha256_word (chunk : list Z) (t : nat) : Z :=
  let at_ j := nth (t * 4 + j) chunk 0 in
  w32 (Z.shiftl (at_ 0%nat) 24 + Z.shiftl (at_ 1%nat) 16 + Z.shiftl (at_ 2%nat) 8 + at_ 3%nat).

(** sha2.cpp:57-63, [W]. *)
Definition sha256_W (chunk : list Z) : list Z :=
  fold_left (fun W t =>
      let w2 := nth (t - 2) W 0 in
      let w15 := nth (t - 15) W 0 in
      W ++ [w32 (Z.lxor (Z.lxor (rotr32 w2 17) (rotr32 w2 19)) (Z.shiftr w2 10)
               + Z.lxor (Z.lxor (rotr32 w15 7) (rotr32 w15 18)) (Z.shiftr w15 3)
               + nth (t - 7) W 0 + nth (t - 16) W 0)])
    (seq 16 48) (map (sha256_word chunk) (seq 0 16)).

(** sha2.cpp:66-77, one round. *)
Definition sha256_round (W : list Z) (s : st8) (t : nat) : st8 :=
  let '(a, b, c, d, e, f, g, h) := s in
  let T1 := w32 (h + Z.lxor (Z.lxor (rotr32 e 6) (rotr32 e 11)) (rotr32 e 25)
                 + Z.lor (Z.land e f) (Z.land (sha2_not 32 e) g) + nth t K_256 0 + nth t W 0) in
  let T2 := w32 (Z.lxor (Z.lxor (rotr32 a 2) (rotr32 a 13)) (rotr32 a 22)
                 + Z.lxor (Z.lxor (Z.land a b) (Z.land a c)) (Z.land b c)) in
  (w32 (T1 + T2), a, b, c, w32 (d + T1), e, f, g).

(** sha2.cpp:56-86, [SHA2<256>::processChunk]. *)
Definition sha256_processChunk (chunk w : list Z) : list Z :=
  match w with
  | [w0; w1; w2; w3; w4; w5; w6; w7] =>
      let '(a, b, c, d, e, f, g, h) :=
        fold_left (sha256_round (sha256_W chunk)) (seq 0 64) (w0, w1, w2, w3, w4, w5, w6, w7) in
      [w32 (w0 + a); w32 (w1 + b); w32 (w2 + c); w32 (w3 + d);
       w32 (w4 + e); w32 (w5 + f); w32 (w6 + g); w32 (w7 + h)]
  | _ => w
  end.

(** sha2.cpp:6-15. *)
Definition sha256_init (garbage : list Z) : hstate :=
  mkH garbage [0x6a09e667; 0xbb67ae85; 0x3c6ef372; 0xa54ff53a; 0x510e527f; 0x9b05688c; 0x1f83d9ab; 0x5be0cd19] 0.

(** sha2.cpp:17-39. *)
Definition sha256_add := md_add 64 sha256_processChunk.

(** sha2.cpp:88-108. *)
Definition sha256_digest (s : hstate) : res (list Z) :=
  do w <- md_final 64 sha256_processChunk 8 true s;
  Ok (out_be 4 w).

(** ** SHA2<512> *)

(** sha2.cpp:183-192. *)
Definition sha512_word (chunk : list Z) (t : nat) : Z :=
  let at_ j := nth (t * 8 + j) chunk 0 in
  w64 (Z.shiftl (at_ 0%nat) 56 + Z.shiftl (at_ 1%nat) 48 + Z.shiftl (at_ 2%nat) 40 + Z.shiftl (at_ 3%nat) 32
     + Z.shiftl (at_ 4%nat) 24 + Z.shiftl (at_ 5%nat) 16 + Z.shiftl (at_ 6%nat) 8 + Z.shiftl (at_ 7%nat) 0).

(** sha2.cpp:182-195. *)
Definition sha512_W (chunk : list Z) : list Z :=
  fold_left (fun W t =>
      let w2 := nth (t - 2) W 0 in
      let w15 := nth (t - 15) W 0 in
      W ++ [w64 (Z.lxor (Z.lxor (rotr64 w2 19) (rotr64 w2 61)) (Z.shiftr w2 6)
               + Z.lxor (Z.lxor (rotr64 w15 1) (rotr64 w15 8)) (Z.shiftr w15 7)
               + nth (t - 7) W 0 + nth (t - 16) W 0)])
    (seq 16 64) (map (sha512_word chunk) (seq 0 16)).

(** sha2.cpp:198-209. *)
Definition sha512_round (W : list Z) (s : st8) (t : nat) : st8 :=
  let '(a, b, c, d, e, f, g, h) := s in
  let T1 := w64 (h + Z.lxor (Z.lxor (rotr64 e 14) (rotr64 e 18)) (rotr64 e 41)
                 + Z.lor (Z.land e f) (Z.land (sha2_not 64 e) g) + nth t K_512 0 + nth t W 0) in
  let T2 := w64 (Z.lxor (Z.lxor (rotr64 a 28) (rotr64 a 34)) (rotr64 a 39)
                 + Z.lxor (Z.lxor (Z.land a b) (Z.land a c)) (Z.land b c)) in
  (w64 (T1 + T2), a, b, c, w64 (d + T1), e, f, g).

(** sha2.cpp:159-218, [SHA2<512>::processChunk]. *)
Definition sha512_processChunk (chunk w : list Z) : list Z :=
  match w with
  | [w0; w1; w2; w3; w4; w5; w6; w7] =>
      let '(a, b, c, d, e, f, g, h) :=
        fold_left (sha512_round (sha512_W chunk)) (seq 0 80) (w0, w1, w2, w3, w4, w5, w6, w7) in
      [w64 (w0 + a); w64 (w1 + b); w64 (w2 + c); w64 (w3 + d);
       w64 (w4 + e); w64 (w5 + f); w64 (w6 + g); w64 (w7 + h)]
  | _ => w
  end.

(** sha2.cpp:120-129. *)
Definition sha512_init (garbage : list Z) : hstate :=
  mkH garbage [0x6a09e667f3bcc908; 0xbb67ae8584caa73b; 0x3c6ef372fe94f82b; 0xa54ff53a5f1d36f1;
               0x510e527fade682d1; 0x9b05688c2b3e6c1f; 0x1f83d9abfb41bd6b; 0x5be0cd19137e2179] 0.

(** sha2.cpp:131-153. *)
Definition sha512_add := md_add 128 sha512_processChunk.

(** sha2.cpp:220-240. *)
Definition sha512_digest (s : hstate) : res (list Z) :=
  do w <- md_final 128 sha512_processChunk 16 true s;
  Ok (out_be 8 w).

(** ** SHA2<224> and SHA2<384>: private derivation, other initial words, truncation *)

(** sha2.cpp:263-272 and sha2.h:47-49: base constructor, then [sha224_override]. *)
Definition sha224_init (garbage : list Z) : hstate :=
  mkH garbage [0xc1059ed8; 0x367cd507; 0x3070dd17; 0xf70e5939; 0xffc00b31; 0x68581511; 0x64f98fa7; 0xbefa4fa4] 0.
(** sha2.h:68: using SHA2<256>::add. *)
Definition sha224_add := sha256_add.
(** sha2.h:60-65: the first 28 bytes of the base digest. *)
Definition sha224_digest (s : hstate) : res (list Z) :=
  do d <- sha256_digest s; slice d 0 28.

(** sha2.cpp:252-261 and sha2.h:110-112. *)
Definition sha384_init (garbage : list Z) : hstate :=
  mkH garbage [0xcbbb9d5dc1059ed8; 0x629a292a367cd507; 0x9159015a3070dd17; 0x152fecd8f70e5939;
               0x67332667ffc00b31; 0x8eb44a8768581511; 0xdb0c2e0d64f98fa7; 0x47b5481dbefa4fa4] 0.
(** sha2.h:131. *)
Definition sha384_add := sha512_add.
(** sha2.h:123-128: the first 48 bytes of the base digest. *)
Definition sha384_digest (s : hstate) : res (list Z) :=
  do d <- sha512_digest s; slice d 0 48.
