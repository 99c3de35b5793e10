(** FIPS 202 at the bit level: Keccak-p[1600, 24], the sponge, SHA3-d. *)
From Verif Require Import Base.
Local Open Scope nat_scope.

(** Section 3.1: state array A[x, y, z], w = 64. *)
Definition state := nat -> nat -> nat -> bool.

(** Section 3.2.1. *)
Definition C (A : state) (x z : nat) : bool :=
  xorb (A x 0 z) (xorb (A x 1 z) (xorb (A x 2 z) (xorb (A x 3 z) (A x 4 z)))).
Definition D (A : state) (x z : nat) : bool :=
  xorb (C A ((x + 4) mod 5) z) (C A ((x + 1) mod 5) ((z + 63) mod 64)).
Definition Theta (A : state) : state := fun x y z => xorb (A x y z) (D A x z).

(** Section 3.2.2: (x, y) starts at (1, 0); step t rotates lane (x, y) by (t+1)(t+2)/2 and
    moves to (y, (2x + 3y) mod 5). *)
Fixpoint rho_walk (n t x y : nat) : list (nat * nat * nat) :=
  match n with
  | 0 => []
  | S k => (x, y, (t + 1) * (t + 2) / 2) :: rho_walk k (S t) y ((2 * x + 3 * y) mod 5)
  end.
Definition rho_offset (x y : nat) : nat :=
  match find (fun '(a, b, _) => Nat.eqb a x && Nat.eqb b y) (rho_walk 24 0 1 0) with
  | Some (_, _, o) => o
  | None => 0          (* lane (0, 0) *)
  end.
Definition Rho (A : state) : state := fun x y z => A x y ((z + 64 - rho_offset x y mod 64) mod 64).

(** Section 3.2.3. *)
Definition Pi (A : state) : state := fun x y z => A ((x + 3 * y) mod 5) x z.

(** Section 3.2.4. *)
Definition Chi (A : state) : state := fun x y z =>
  xorb (A x y z) (xorb (A ((x + 1) mod 5) y z) true && A ((x + 2) mod 5) y z).

(** Section 3.2.5, Algorithm 5: the LFSR; bit strings R[0..8]. *)
Definition lfsr_step (R : list bool) : list bool :=
  let R := false :: R in
  let n i := nth i R false in
  [xorb (n 0) (n 8); n 1; n 2; n 3; xorb (n 4) (n 8); xorb (n 5) (n 8); xorb (n 6) (n 8); n 7].
Definition rc (t : nat) : bool :=
  nth 0 (Nat.iter (t mod 255) lfsr_step [true; false; false; false; false; false; false; false]) false.
(** Algorithm 6: bit z of RC for round ir: z = 2^j - 1 gets rc(j + 7 ir). *)
Definition RC (ir z : nat) : bool :=
  existsb (fun j => Nat.eqb z (2 ^ j - 1) && rc (j + 7 * ir)) (seq 0 7).
Definition Iota (ir : nat) (A : state) : state := fun x y z =>
  if Nat.eqb x 0 && Nat.eqb y 0 then xorb (A x y z) (RC ir z) else A x y z.

(** Section 3.3. *)
Definition Rnd (A : state) (ir : nat) : state := Iota ir (Chi (Pi (Rho (Theta A)))).
Definition keccak_f (A : state) : state := fold_left Rnd (seq 0 24) A.

(** Section 4: SPONGE[f, pad10*1, r]; bit strings are lists, S[64(5y+x)+z] = A[x,y,z]. *)
Definition pad101 (r m : nat) : list bool :=
  [true] ++ repeat false (Z.to_nat ((- Z.of_nat m - 2) mod Z.of_nat r)) ++ [true].
Definition xor_block (A : state) (P : list bool) : state :=
  fun x y z => xorb (A x y z) (nth (64 * (5 * y + x) + z) P false).
Definition absorb (A : state) (P : list bool) : state := keccak_f (xor_block A P).
Definition sponge (r : nat) (N : list bool) : state :=
  fold_left absorb (chunks r (N ++ pad101 r (length N))) (fun _ _ _ => false).

(** Appendix B.1: bytes to bits, least significant bit first. *)
Definition bits_of_byte (b : Z) : list bool := map (fun j => Z.testbit b (Z.of_nat j)) (seq 0 8).
Definition bits_of (m : list Z) : list bool := flat_map bits_of_byte m.
Definition byte_at (A : state) (n : nat) : Z :=
  fold_right (fun (j : nat) (acc : Z) => Z.add (Z.b2z (A ((n / 8) mod 5) (n / 8 / 5) (8 * (n mod 8) + j))) (Z.mul 2 acc)) 0%Z (seq 0 8).

(** Section 6.1: SHA3-d(M) = Keccak[2d](M || 01, d); d <= r, so no further squeezing. *)
Definition sha3 (d : nat) (m : list Z) : list Z :=
  map (byte_at (sponge (1600 - 2 * d) (bits_of m ++ [false; true]))) (seq 0 (d / 8)).
