(** Model of src/md5.cpp. *)
From Verif Require Import Base M_MD.

(** md5.cpp:13-30, [K]. *)
Definition md5_K : list Z :=
 [
   0xd76aa478; 0xe8c7b756; 0x242070db; 0xc1bdceee;
   0xf57c0faf; 0x4787c62a; 0xa8304613; 0xfd469501;
   0x698098d8; 0x8b44f7af; 0xffff5bb1; 0x895cd7be;
   0x6b901122; 0xfd987193; 0xa679438e; 0x49b40821;
   0xf61e2562; 0xc040b340; 0x265e5a51; 0xe9b6c7aa;
   0xd62f105d; 0x02441453; 0xd8a1e681; 0xe7d3fbc8;
   0x21e1cde6; 0xc33707d6; 0xf4d50d87; 0x455a14ed;
   0xa9e3e905; 0xfcefa3f8; 0x676f02d9; 0x8d2a4c8a;
   0xfffa3942; 0x8771f681; 0x6d9d6122; 0xfde5380c;
   0xa4beea44; 0x4bdecfa9; 0xf6bb4b60; 0xbebfbc70;
   0x289b7ec6; 0xeaa127fa; 0xd4ef3085; 0x04881d05;
   0xd9d4d039; 0xe6db99e5; 0x1fa27cf8; 0xc4ac5665;
   0xf4292244; 0x432aff97; 0xab9423a7; 0xfc93a039;
   0x655b59c3; 0x8f0ccc92; 0xffeff47d; 0x85845dd1;
   0x6fa87e4f; 0xfe2ce6e0; 0xa3014314; 0x4e0811a1;
   0xf7537e82; 0xbd3af235; 0x2ad7d2bb; 0xeb86d391].

(** md5.cpp:32-37, [s]. *)
Definition md5_s : list Z :=
 [
   7; 12; 17; 22; 7; 12; 17; 22; 7; 12; 17; 22; 7; 12; 17; 22;
   5; 9; 14; 20; 5; 9; 14; 20; 5; 9; 14; 20; 5; 9; 14; 20;
   4; 11; 16; 23; 4; 11; 16; 23; 4; 11; 16; 23; 4; 11; 16; 23;
   6; 10; 15; 21; 6; 10; 15; 21; 6; 10; 15; 21; 6; 10; 15; 21].

(** md5.cpp:95-97, [rotate]; every use has 0 < left < 32. *)
Definition md5_rotate (value left : Z) : Z :=
  Z.lxor (w32 (Z.shiftl value left)) (Z.shiftr value (32 - left)).

(** ~x on uint32_t. *)
Definition not32 (x : Z) : Z := 2 ^ 32 - 1 - x.

(** md5.cpp:101-124, one iteration; the chunk index 4*g+3 is below 64 since g < 16. *)
Definition md5_round (chunk : list Z) (st : Z * Z * Z * Z) (i : nat) : Z * Z * Z * Z :=
  let '(a, b, c, d) := st in
  let '(f, g) :=
    if Nat.ltb i 16 then (Z.lor (Z.land b c) (Z.land (not32 b) d), i)
    else if Nat.ltb i 32 then (Z.lor (Z.land d b) (Z.land (not32 d) c), Nat.modulo (5 * i + 1) 16)
    else if Nat.ltb i 48 then (Z.lxor (Z.lxor b c) d, Nat.modulo (3 * i + 5) 16)
    else (Z.lxor c (Z.lor b (not32 d)), Nat.modulo (7 * i) 16) in
  let at_ j := nth (4 * g + j) chunk 0 in
  let msgword := Z.lor (Z.lor (Z.lor (at_ 0%nat) (Z.shiftl (at_ 1%nat) 8)) (Z.shiftl (at_ 2%nat) 16)) (Z.shiftl (at_ 3%nat) 24) in
  let f := w32 (f + a + nth i md5_K 0 + msgword) in
  (d, w32 (b + md5_rotate f (nth i md5_s 0)), b, c).

(** md5.cpp:99-127, [MD5::processChunk]; the object has exactly four words. *)
Definition md5_processChunk (chunk h : list Z) : list Z :=
  match h with
  | [h0; h1; h2; h3] =>
      let '(a, b, c, d) := fold_left (md5_round chunk) (seq 0 64) (h0, h1, h2, h3) in
      [w32 (h0 + a); w32 (h1 + b); w32 (h2 + c); w32 (h3 + d)]
  | _ => h
  end.

(** md5.cpp:6-11, constructor; [garbage] is the indeterminate content of [chunk]. *)
Definition md5_init (garbage : list Z) : hstate :=
  mkH garbage [0x67452301; 0xefcdab89; 0x98badcfe; 0x10325476] 0.

(** md5.cpp:39-61. *)
Definition md5_add := md_add 64 md5_processChunk.

(** md5.cpp:63-83, [operator std::array<uint8_t,16>]. *)
Definition md5_digest (s : hstate) : res (list Z) :=
  do w <- md_final 64 md5_processChunk 8 false s;
  Ok (out_le 4 w).
