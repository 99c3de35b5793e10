(** Model of /repo/include/caligo/aes.h and /repo/src/aes.cpp.

    An __m128i is the list of its 16 bytes in memory order (byte 0 is the least significant).
    The intrinsics follow the operation given in Intel's Intrinsics Guide. *)
From Verif Require Import Base.
Open Scope Z_scope.

(** The S-box of the AESENC and AESKEYGENASSIST instructions. *)
Definition aes_sbox : list Z :=
  [
   0x63; 0x7c; 0x77; 0x7b; 0xf2; 0x6b; 0x6f; 0xc5; 0x30; 0x01; 0x67; 0x2b; 0xfe; 0xd7; 0xab; 0x76;
   0xca; 0x82; 0xc9; 0x7d; 0xfa; 0x59; 0x47; 0xf0; 0xad; 0xd4; 0xa2; 0xaf; 0x9c; 0xa4; 0x72; 0xc0;
   0xb7; 0xfd; 0x93; 0x26; 0x36; 0x3f; 0xf7; 0xcc; 0x34; 0xa5; 0xe5; 0xf1; 0x71; 0xd8; 0x31; 0x15;
   0x04; 0xc7; 0x23; 0xc3; 0x18; 0x96; 0x05; 0x9a; 0x07; 0x12; 0x80; 0xe2; 0xeb; 0x27; 0xb2; 0x75;
   0x09; 0x83; 0x2c; 0x1a; 0x1b; 0x6e; 0x5a; 0xa0; 0x52; 0x3b; 0xd6; 0xb3; 0x29; 0xe3; 0x2f; 0x84;
   0x53; 0xd1; 0x00; 0xed; 0x20; 0xfc; 0xb1; 0x5b; 0x6a; 0xcb; 0xbe; 0x39; 0x4a; 0x4c; 0x58; 0xcf;
   0xd0; 0xef; 0xaa; 0xfb; 0x43; 0x4d; 0x33; 0x85; 0x45; 0xf9; 0x02; 0x7f; 0x50; 0x3c; 0x9f; 0xa8;
   0x51; 0xa3; 0x40; 0x8f; 0x92; 0x9d; 0x38; 0xf5; 0xbc; 0xb6; 0xda; 0x21; 0x10; 0xff; 0xf3; 0xd2;
   0xcd; 0x0c; 0x13; 0xec; 0x5f; 0x97; 0x44; 0x17; 0xc4; 0xa7; 0x7e; 0x3d; 0x64; 0x5d; 0x19; 0x73;
   0x60; 0x81; 0x4f; 0xdc; 0x22; 0x2a; 0x90; 0x88; 0x46; 0xee; 0xb8; 0x14; 0xde; 0x5e; 0x0b; 0xdb;
   0xe0; 0x32; 0x3a; 0x0a; 0x49; 0x06; 0x24; 0x5c; 0xc2; 0xd3; 0xac; 0x62; 0x91; 0x95; 0xe4; 0x79;
   0xe7; 0xc8; 0x37; 0x6d; 0x8d; 0xd5; 0x4e; 0xa9; 0x6c; 0x56; 0xf4; 0xea; 0x65; 0x7a; 0xae; 0x08;
   0xba; 0x78; 0x25; 0x2e; 0x1c; 0xa6; 0xb4; 0xc6; 0xe8; 0xdd; 0x74; 0x1f; 0x4b; 0xbd; 0x8b; 0x8a;
   0x70; 0x3e; 0xb5; 0x66; 0x48; 0x03; 0xf6; 0x0e; 0x61; 0x35; 0x57; 0xb9; 0x86; 0xc1; 0x1d; 0x9e;
   0xe1; 0xf8; 0x98; 0x11; 0x69; 0xd9; 0x8e; 0x94; 0x9b; 0x1e; 0x87; 0xe9; 0xce; 0x55; 0x28; 0xdf;
   0x8c; 0xa1; 0x89; 0x0d; 0xbf; 0xe6; 0x42; 0x68; 0x41; 0x99; 0x2d; 0x0f; 0xb0; 0x54; 0xbb; 0x16
  ].
Definition sub (b : Z) : Z := nth (Z.to_nat b) aes_sbox 0.

(** _mm_slli_si128, _mm_srli_si128: byte shifts. *)
Definition slli_si128 (v : list Z) (k : nat) : list Z := repeat 0 k ++ firstn (16 - k) v.
Definition srli_si128 (v : list Z) (k : nat) : list Z := skipn k v ++ repeat 0 k.
(** 32-bit lane i. *)
Definition dword (v : list Z) (i : nat) : list Z := firstn 4 (skipn (4 * i) v).
(** _mm_shuffle_epi32: lane i of the result is the lane selected by bits 2i+1:2i of imm. *)
Definition shuffle_epi32 (v : list Z) (imm : Z) : list Z :=
  flat_map (fun i => dword v (Z.to_nat ((imm / 4 ^ Z.of_nat i) mod 4))) (seq 0 4).
(** _mm_aeskeygenassist_si128: SubWord of lanes 1 and 3, and RotWord(SubWord) xor rcon. *)
Definition subword (w : list Z) : list Z := map sub w.
Definition rotword (w : list Z) : list Z := match w with a :: t => t ++ [a] | [] => [] end.
Definition aeskeygenassist (v : list Z) (rcon : Z) : list Z :=
  let x1 := subword (dword v 1) in
  let x3 := subword (dword v 3) in
  x1 ++ xorl (rotword x1) [rcon; 0; 0; 0] ++ x3 ++ xorl (rotword x3) [rcon; 0; 0; 0].

(** ShiftRows on the 16 bytes, column after column: byte (row r, column c) is at r + 4 c. *)
Definition shift_rows (v : list Z) : list Z :=
  map (fun i => nth i v 0) [0; 5; 10; 15; 4; 9; 14; 3; 8; 13; 2; 7; 12; 1; 6; 11]%nat.
(** MixColumns, using multiplication by 2 in GF(2^8). *)
Definition xtime (b : Z) : Z := Z.lxor (w8 (2 * b)) (if 128 <=? b then 0x1b else 0).
Definition mix_column (c : list Z) : list Z :=
  match c with
  | [a; b; c; d] =>
      let x2 := xtime in let x3 z := Z.lxor (xtime z) z in
      [ Z.lxor (Z.lxor (Z.lxor (x2 a) (x3 b)) c) d; Z.lxor (Z.lxor (Z.lxor a (x2 b)) (x3 c)) d;
        Z.lxor (Z.lxor (Z.lxor a b) (x2 c)) (x3 d); Z.lxor (Z.lxor (Z.lxor (x3 a) b) c) (x2 d) ]
  | _ => []
  end.
Definition mix_columns (v : list Z) : list Z := flat_map (fun i => mix_column (dword v i)) (seq 0 4).
(** _mm_aesenc_si128, _mm_aesenclast_si128. *)
Definition aesenc (v rk : list Z) : list Z := xorl (mix_columns (map sub (shift_rows v))) rk.
Definition aesenclast (v rk : list Z) : list Z := xorl (map sub (shift_rows v)) rk.

(** aes.cpp:13-18; the round constants 0x01 ... 0x36 are the template's table. *)
Definition roundConstants : list Z := [0x01; 0x02; 0x04; 0x08; 0x10; 0x20; 0x40; 0x80; 0x1B; 0x36].
Definition nextRoundKey (rc : Z) (v : list Z) : list Z :=
  let t := xorl v (srli_si128 (aeskeygenassist v rc) 12) in
  xorl (xorl (xorl t (slli_si128 t 4)) (slli_si128 t 8)) (slli_si128 t 12).
Fixpoint key_chain (rcs : list Z) (k : list Z) : list (list Z) :=
  match rcs with [] => [] | rc :: t => let k' := nextRoundKey rc k in k' :: key_chain t k' end.
(** aes.cpp:20-34.  memcpy of key.size() bytes into the 176-byte array: a longer key overflows;
    from a shorter one the rest of eroundKeys[0] stays indeterminate ([garbage]); a key of more
    than 16 bytes writes round keys that are then overwritten. *)
Definition sched128 (garbage key : list Z) : res (list (list Z)) :=
  if 176 <? zlen key then UB else
  let k0 := firstn 16 (key ++ skipn (length key) garbage) in
  Ok (k0 :: key_chain roundConstants k0).

(** aes.cpp:41-42, ... *)
Definition step_a (rc : Z) (a b : list Z) : list Z :=
  xorl a (xorl (xorl (xorl (slli_si128 a 4) (slli_si128 a 8)) (slli_si128 a 12)) (shuffle_epi32 (aeskeygenassist b rc) 0xff)).
Definition step_b (a b : list Z) : list Z :=
  xorl b (xorl (xorl (xorl (slli_si128 b 4) (slli_si128 b 8)) (slli_si128 b 12)) (shuffle_epi32 (aeskeygenassist a 0) 0xaa)).
Fixpoint key_pairs (rcs : list Z) (a b : list Z) : list (list Z) :=
  match rcs with
  | [] => []
  | [rc] => [step_a rc a b]
  | rc :: t => let a' := step_a rc a b in let b' := step_b a' b in a' :: b' :: key_pairs t a' b'
  end.
(** aes.cpp:36-72: reads 32 bytes whatever the size of the span. *)
Definition sched256 (key : list Z) : res (list (list Z)) :=
  do a <- slice key 0 16;
  do b <- slice key 16 16;
  Ok (a :: b :: key_pairs [0x01; 0x02; 0x04; 0x08; 0x10; 0x20; 0x40] a b).

(** aes.h:26-38, for the round keys eroundKeys[0 .. rounds]. *)
Fixpoint enc_rounds (rks : list (list Z)) (v : list Z) : list Z :=
  match rks with
  | [] => v
  | [rk] => aesenclast v rk
  | rk :: t => enc_rounds t (aesenc v rk)
  end.
Definition AesEncrypt (rks : list (list Z)) (block : list Z) : list Z :=
  match rks with
  | [] => block
  | rk0 :: t => enc_rounds t (xorl block rk0)
  end.
