(** RFC 7748, written on numbers modulo 2^255 - 19. *)
From Verif Require Import Base.
Open Scope Z_scope.

Definition p25519 : Z := 2 ^ 255 - 19.

(** RFC 7748 section 5: decodeScalar25519 on the little-endian number of the 32 bytes: the
    three least significant bits and the most significant bit are cleared, the second most
    significant bit is set. *)
Definition clamp (k : Z) : Z := 2 ^ 254 + 8 * (k / 8 mod 2 ^ 251).
(** decodeUCoordinate: the most significant bit of the last byte is ignored. *)
Definition decode_u (u : Z) : Z := u mod 2 ^ 255.

Definition fadd (a b : Z) : Z := (a + b) mod p25519.
Definition fsub (a b : Z) : Z := (a - b) mod p25519.
Definition fmul (a b : Z) : Z := a * b mod p25519.

(** RFC 7748 section 5, body of the loop after the conditional swap, for the base point [x_1]. *)
Definition rfc_step (x_1 : Z) (s : Z * Z * (Z * Z)) : Z * Z * (Z * Z) :=
  let '(x_2, z_2, (x_3, z_3)) := s in
  let A := fadd x_2 z_2 in
  let AA := fmul A A in
  let B := fsub x_2 z_2 in
  let BB := fmul B B in
  let E := fsub AA BB in
  let C := fadd x_3 z_3 in
  let D := fsub x_3 z_3 in
  let DA := fmul D A in
  let CB := fmul C B in
  let x_3 := fmul (fadd DA CB) (fadd DA CB) in
  let z_3 := fmul x_1 (fmul (fsub DA CB) (fsub DA CB)) in
  let x_2 := fmul AA BB in
  let z_2 := fmul E (fadd AA (fmul 121665 E)) in
  (x_2, z_2, (x_3, z_3)).

Definition cswap (b : bool) (s : Z * Z * (Z * Z)) : Z * Z * (Z * Z) :=
  let '(x_2, z_2, (x_3, z_3)) := s in if b then (x_3, z_3, (x_2, z_2)) else s.

(** For t = bits - 1 down to 0. *)
Fixpoint rfc_loop (n : nat) (k x_1 : Z) (swap : bool) (s : Z * Z * (Z * Z)) : bool * (Z * Z * (Z * Z)) :=
  match n with
  | O => (swap, s)
  | S t => let k_t := Z.testbit k (Z.of_nat t) in
           rfc_loop t k x_1 k_t (rfc_step x_1 (cswap (xorb swap k_t) s))
  end.

(** The function of the RFC on a decoded scalar and a decoded u coordinate. *)
Definition rfc_x25519 (k u : Z) : Z :=
  let '(swap, s) := rfc_loop 255 k u false (1, 0, (u, 1)) in
  let '(x_2, z_2, _) := cswap swap s in
  fmul x_2 (z_2 ^ (p25519 - 2)).

(** X25519 on strings of 32 bytes. *)
Definition rfc_x25519_bytes (k u : list Z) : list Z :=
  le_bytes 32 (rfc_x25519 (clamp (le_val k)) (decode_u (le_val u))).
