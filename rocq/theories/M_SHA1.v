(** Model of src/sha1.cpp. *)
From Verif Require Import Base M_MD.

(** sha1.cpp:70-72, [rotate]. *)
Definition sha1_rotate (value left : Z) : Z :=
  Z.lxor (w32 (Z.shiftl value left)) (Z.shiftr value (32 - left)).

Definition sha1_not (x : Z) : Z := 2 ^ 32 - 1 - x.

(** sha1.cpp:76-82: big endian word n of the chunk. *)
Definition sha1_word (chunk : list Z) (n : nat) : Z :=
  fold_left (fun v i => w32 (Z.lor (w32 (Z.shiftl v 8)) (nth (4 * n + i) chunk 0))) [0; 1; 2; 3]%nat 0.

(** sha1.cpp:75-85: the array w, filled in index order. *)
Definition sha1_w (chunk : list Z) : list Z :=
  fold_left (fun w i => w ++ [sha1_rotate (Z.lxor (Z.lxor (Z.lxor (nth (i - 3) w 0) (nth (i - 8) w 0)) (nth (i - 14) w 0)) (nth (i - 16) w 0)) 1])
    (seq 16 64) (map (sha1_word chunk) (seq 0 16)).

Definition sha1_st := (Z * Z * Z * Z * Z)%type.

(** sha1.cpp:87-90, 91-94, 95-98, 99-102: the four loops differ in [f] and the constant. *)
Definition sha1_round (f : Z -> Z -> Z -> Z) (k : Z) (w : list Z) (st : sha1_st) (i : nat) : sha1_st :=
  let '(a, b, c, d, e) := st in
  let t := w32 (sha1_rotate a 5 + f b c d + e + nth i w 0 + k) in
  (t, a, sha1_rotate b 30, c, d).

(** sha1.cpp:74-104, [SHA1::processChunk]. *)
Definition sha1_processChunk (chunk h : list Z) : list Z :=
  match h with
  | [h0; h1; h2; h3; h4] =>
      let w := sha1_w chunk in
      let s := (h0, h1, h2, h3, h4) in
      let s := fold_left (sha1_round (fun b c d => Z.lor (Z.land b c) (Z.land (sha1_not b) d)) 0x5A827999 w) (seq 0 20) s in
      let s := fold_left (sha1_round (fun b c d => Z.lxor (Z.lxor b c) d) 0x6ED9EBA1 w) (seq 20 20) s in
      let s := fold_left (sha1_round (fun b c d => Z.lor (Z.lor (Z.land b c) (Z.land b d)) (Z.land c d)) 0x8F1BBCDC w) (seq 40 20) s in
      let s := fold_left (sha1_round (fun b c d => Z.lxor (Z.lxor b c) d) 0xCA62C1D6 w) (seq 60 20) s in
      let '(a, b, c, d, e) := s in
      [w32 (h0 + a); w32 (h1 + b); w32 (h2 + c); w32 (h3 + d); w32 (h4 + e)]
  | _ => h
  end.

(** sha1.cpp:6-12. *)
Definition sha1_init (garbage : list Z) : hstate :=
  mkH garbage [0x67452301; 0xefcdab89; 0x98badcfe; 0x10325476; 0xc3d2e1f0] 0.

(** sha1.cpp:14-36. *)
Definition sha1_add := md_add 64 sha1_processChunk.

(** sha1.cpp:38-58. *)
Definition sha1_digest (s : hstate) : res (list Z) :=
  do w <- md_final 64 sha1_processChunk 8 true s;
  Ok (out_be 4 w).
