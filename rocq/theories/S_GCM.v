(** NIST SP 800-38D: GCM over a 128-bit block cipher [E] (blocks are lists of 16 bytes). *)
From Verif Require Import Base.
Open Scope Z_scope.

(** 6.3: a block is the bit string x_0 x_1 ... x_127, x_0 the most significant bit of the first
    byte.  As the integer [be_val], x_i is bit 127 - i, and V >> 1 is the halved integer. *)
Definition R : Z := 0xe1 * 2 ^ 120.
Definition halve (V : Z) : Z := if Z.testbit V 0 then Z.lxor (V / 2) R else V / 2.
Fixpoint prod_steps (n : nat) (i : Z) (X Zv V : Z) : Z :=
  match n with
  | O => Zv
  | S k => prod_steps k (i + 1) X (if Z.testbit X (127 - i) then Z.lxor Zv V else Zv) (halve V)
  end.
Definition block_mul (X Y : Z) : Z := prod_steps 128 0 X 0 Y.

(** 6.4: GHASH of a string of whole blocks. *)
Definition GHASH (H : Z) (X : list Z) : Z :=
  fold_left (fun Y b => block_mul (Z.lxor Y (be_val b)) H) (chunks 16 X) 0.

(** 6.2, 6.5: inc_32 and GCTR on a byte string. *)
Definition inc32 (b : list Z) : list Z := firstn 12 b ++ be_bytes 4 ((be_val (skipn 12 b) + 1) mod 2 ^ 32).
Fixpoint gctr_blocks (E : list Z -> list Z) (cb : list Z) (ps : list (list Z)) : list Z :=
  match ps with
  | [] => []
  | p :: t => xorl p (E cb) ++ gctr_blocks E (inc32 cb) t
  end.
Definition GCTR (E : list Z -> list Z) (icb X : list Z) : list Z := gctr_blocks E icb (chunks 16 X).

(** 7.1: authenticated encryption with a 128-bit tag. *)
Definition pad16 (x : list Z) : list Z := repeat 0 (Z.to_nat ((- zlen x) mod 16)).
Definition lengths (A C : list Z) : list Z := be_bytes 8 (8 * zlen A) ++ be_bytes 8 (8 * zlen C).
Definition J0 (H : Z) (iv : list Z) : list Z :=
  if zlen iv =? 12 then iv ++ [0; 0; 0; 1]
  else be_bytes 16 (GHASH H (iv ++ pad16 iv ++ repeat 0 8 ++ be_bytes 8 (8 * zlen iv))).
(** Encryption and tag from a given pre-counter block. *)
Definition seal_from (E : list Z -> list Z) (j0 P A : list Z) : list Z * list Z :=
  let H := be_val (E (repeat 0 16)) in
  let C := GCTR E (inc32 j0) P in
  let S := be_bytes 16 (GHASH H (A ++ pad16 A ++ C ++ pad16 C ++ lengths A C)) in
  (C, GCTR E j0 S).
Definition GCM_AE (E : list Z -> list Z) (iv P A : list Z) : list Z * list Z :=
  seal_from E (J0 (be_val (E (repeat 0 16))) iv) P A.
