(** Model of src/sha3.cpp and include/caligo/sha3.h ([size] is the template parameter). *)
From Verif Require Import Base.

(** sha3.cpp:54-61. *)
Definition sha3_RC : list Z :=
 [ 0x0000000000000001; 0x0000000000008082; 0x800000000000808A; 0x8000000080008000;
   0x000000000000808B; 0x0000000080000001; 0x8000000080008081; 0x8000000000008009;
   0x000000000000008A; 0x0000000000000088; 0x0000000080008009; 0x000000008000000A;
   0x000000008000808B; 0x800000000000008B; 0x8000000000008089; 0x8000000000008003;
   0x8000000000008002; 0x8000000000000080; 0x000000000000800A; 0x800000008000000A;
   0x8000000080008081; 0x8000000000008080; 0x0000000080000001; 0x8000000080008008].

Definition lane (s : list Z) (i : nat) : Z := nth i s 0.

(** sha3.cpp:66-70: column parities. *)
Definition theta_c (s : list Z) : list Z :=
  map (fun x => fold_left (fun c y => Z.lxor c (lane s (y * 5 + x))) [0; 1; 2; 3; 4]%nat 0) (seq 0 5).
(** sha3.cpp:72-73. *)
Definition theta_d (c : list Z) : list Z :=
  map (fun x => Z.lxor (Z.lxor (w64 (Z.shiftl (lane c ((x + 1) mod 5)) 1)) (Z.shiftr (lane c ((x + 1) mod 5)) 63)) (lane c ((x + 4) mod 5)))
      (seq 0 5).
(** sha3.cpp:64-81; the loop xors d[x] into the five lanes of column x, each lane once. *)
Definition theta (s : list Z) : list Z :=
  let d := theta_d (theta_c s) in
  map (fun i => Z.lxor (lane s i) (lane d (i mod 5))) (seq 0 25).

(** sha3.cpp:85-107: the in-place assignments s[dst] = (s[src] << l) | (s[src] >> r). *)
Definition rho_pi_steps : list (nat * nat * nat * nat) :=
 [ (3, 18, 21, 43); (18, 17, 15, 49); (17, 11, 10, 54); (11, 7, 6, 58); (7, 10, 3, 61);
   (10, 1, 1, 63); (1, 6, 44, 20); (6, 9, 20, 44); (9, 22, 61, 3); (22, 14, 39, 25);
   (14, 20, 18, 46); (20, 2, 62, 2); (2, 12, 43, 21); (12, 13, 25, 39); (13, 19, 8, 56);
   (19, 23, 56, 8); (23, 15, 41, 23); (15, 4, 27, 37); (4, 24, 14, 50); (24, 21, 2, 62);
   (21, 8, 55, 9); (8, 16, 45, 19); (16, 5, 36, 28)]%nat.
Definition rot64 (v l r : Z) : Z := Z.lor (w64 (Z.shiftl v l)) (Z.shiftr v r).
(** sha3.cpp:84-108 (the detour of t through int64_t preserves the 64 bits). *)
Definition rho_pi (s : list Z) : list Z :=
  let t := rot64 (lane s 3) 28 36 in
  let s := fold_left (fun s '(dst, src, l, r) => upd s dst (rot64 (lane s src) (Z.of_nat l) (Z.of_nat r))) rho_pi_steps s in
  upd s 5 t.

(** sha3.cpp:111-117; rows are read into c before being overwritten. *)
Definition chi (s : list Z) : list Z :=
  map (fun i => let y := (i / 5)%nat in let x := (i mod 5)%nat in
                Z.lxor (lane s (y * 5 + x))
                  (Z.land (2 ^ 64 - 1 - lane s (5 * y + (x + 1) mod 5)) (lane s (5 * y + (x + 2) mod 5))))
      (seq 0 25).
(** sha3.cpp:120. *)
Definition iota (s : list Z) (round : nat) : list Z := upd s 0 (Z.lxor (lane s 0) (nth round sha3_RC 0)).

(** sha3.cpp:53-122, [processChunk]. *)
Definition sha3_processChunk (s : list Z) : list Z :=
  fold_left (fun s round => iota (chi (rho_pi (theta s))) round) (seq 0 24) s.

(** sha3.h:47-48. *)
Record sha3state := mkS3 { s3_s : list Z; s3_len : Z }.

(** sha3.h:14 and sha3.cpp:12: r/8. *)
Definition sha3_rate (size : Z) : Z := (1600 - 2 * size) / 8.

(** sha3.cpp:4-8. *)
Definition sha3_init : sha3state := mkS3 (repeat 0 25) 0.

(** sha3.cpp:16, one byte xored into the state; an index of 25 or more would be UB. *)
Definition sha3_xor (s : list Z) (offset c : Z) : res (list Z) :=
  do v <- getz s (offset / 8);
  setz s (offset / 8) (Z.lxor v (w64 (Z.shiftl c (offset mod 8 * 8)))).

(** sha3.cpp:15-22. *)
Fixpoint sha3_loop (size : Z) (s : list Z) (offset : Z) (data : list Z) : res (list Z) :=
  match data with
  | [] => Ok s
  | c :: t =>
      do s' <- sha3_xor s offset c;
      if offset + 1 =? sha3_rate size then sha3_loop size (sha3_processChunk s') 0 t
      else sha3_loop size s' (offset + 1) t
  end.

(** sha3.cpp:10-24, [add]. *)
Definition sha3_add (size : Z) (o : sha3state) (data : list Z) : res sha3state :=
  do s <- sha3_loop size (s3_s o) (s3_len o mod sha3_rate size) data;
  Ok (mkS3 s (w64 (s3_len o + zlen data))).

(** sha3.cpp:26-39, digest of a copy. *)
Definition sha3_digest (size : Z) (o : sha3state) : res (list Z) :=
  let offset := s3_len o mod sha3_rate size in
  do s1 <- sha3_xor (s3_s o) offset 0x06;
  do v <- getz s1 (sha3_rate size / 8 - 1);
  do s2 <- setz s1 (sha3_rate size / 8 - 1) (Z.lxor v 0x8000000000000000);
  let s3 := sha3_processChunk s2 in
  Ok (map (fun n => w8 (Z.shiftr (lane s3 (n / 8)) (8 * Z.of_nat (n mod 8)))) (seq 0 (Z.to_nat (size / 8)))).
