(** FIPS 180-4: SHA-224, SHA-256, SHA-384, SHA-512. *)
From Verif Require Import Base S_Word S_MD S_Const.

Definition st := (Z * Z * Z * Z * Z * Z * Z * Z)%type.

(** The parameters in which the 32-bit and 64-bit families differ (sections 4.1.2, 4.1.3). *)
Record variant := mkV {
  vw : Z;                 (* word size in bits *)
  vrounds : nat;
  vS0 : Z -> Z; vS1 : Z -> Z; vs0 : Z -> Z; vs1 : Z -> Z;
  vK : list Z }.

Definition x3 (a b c : Z) := Z.lxor a (Z.lxor b c).

(** Section 4.2.2: K = first 32 bits of the fractional parts of the cube roots of the first
    64 primes. *)
Definition K32 : list Z := map (frac_cbrt 32) (primes_below 312).
Definition V32 : variant := mkV 32 64
  (fun x => x3 (rotr 32 2 x) (rotr 32 13 x) (rotr 32 22 x))
  (fun x => x3 (rotr 32 6 x) (rotr 32 11 x) (rotr 32 25 x))
  (fun x => x3 (rotr 32 7 x) (rotr 32 18 x) (shr 3 x))
  (fun x => x3 (rotr 32 17 x) (rotr 32 19 x) (shr 10 x)) K32.

(** Section 4.2.3: the same for the first 80 primes and 64 bits. *)
Definition K64 : list Z := map (frac_cbrt 64) (primes_below 410).
Definition V64 : variant := mkV 64 80
  (fun x => x3 (rotr 64 28 x) (rotr 64 34 x) (rotr 64 39 x))
  (fun x => x3 (rotr 64 14 x) (rotr 64 18 x) (rotr 64 41 x))
  (fun x => x3 (rotr 64 1 x) (rotr 64 8 x) (shr 7 x))
  (fun x => x3 (rotr 64 19 x) (rotr 64 61 x) (shr 6 x)) K64.

Section Family.
Variable v : variant.
Notation "x [+] y" := (addw (vw v) x y) (at level 50, left associativity).

(** Sections 6.2.2 and 6.4.2, step 1: the message schedule, newest word first. *)
Fixpoint sched (M : list Z) (extra : nat) : list Z :=
  match extra with
  | O => rev M
  | S k => let l := sched M k in
           (vs1 v (nth 1 l 0) [+] nth 6 l 0 [+] vs0 v (nth 14 l 0) [+] nth 15 l 0) :: l
  end.
Definition W (M : list Z) (t : nat) : Z := nth t (rev (sched M (vrounds v - 16))) 0.

(** Steps 3 and 4. *)
Definition round (Wt : nat -> Z) (s : st) (t : nat) : st :=
  let '(a, b, c, d, e, f, g, h) := s in
  let T1 := h [+] vS1 v e [+] Ch (vw v) e f g [+] nth t (vK v) 0 [+] Wt t in
  let T2 := vS0 v a [+] Maj a b c in
  (T1 [+] T2, a, b, c, d [+] T1, e, f, g).

Definition block (s : st) (M : list Z) : st :=
  let '(h0, h1, h2, h3, h4, h5, h6, h7) := s in
  let '(a, b, c, d, e, f, g, h) :=
    fold_left (round (W (words_be (Z.to_nat (vw v / 8)) M))) (seq 0 (vrounds v)) s in
  (a [+] h0, b [+] h1, c [+] h2, d [+] h3, e [+] h4, f [+] h5, g [+] h6, h [+] h7).

Definition st_bytes (s : st) : list Z :=
  let '(h0, h1, h2, h3, h4, h5, h6, h7) := s in
  flat_map (be_bytes (Z.to_nat (vw v / 8))) [h0; h1; h2; h3; h4; h5; h6; h7].
End Family.

(** Section 5.3: initial hash values.  [st_of]: eight words. *)
Definition st_of (l : list Z) : st :=
  let n i := nth i l 0 in (n 0, n 1, n 2, n 3, n 4, n 5, n 6, n 7)%nat.
(** SHA-256, SHA-512: square roots of the first eight primes (2 to 19). *)
Definition iv256 : st := st_of (map (frac_sqrt 32) (primes_below 20)).
Definition iv512 : st := st_of (map (frac_sqrt 64) (primes_below 20)).
(** SHA-384: square roots of the ninth to sixteenth primes (23 to 53); SHA-224: the second
    32 bits of the same fractional parts. *)
Definition iv384 : st := st_of (map (frac_sqrt 64) (skipn 8 (primes_below 54))).
Definition iv224 : st := st_of (map (fun p => frac_sqrt 64 p mod 2 ^ 32) (skipn 8 (primes_below 54))).

Definition sha256 (m : list Z) : list Z :=
  st_bytes V32 (fold_left (block V32) (chunks 64 (pad_be 64 8 m)) iv256).
Definition sha224 (m : list Z) : list Z :=
  firstn 28 (st_bytes V32 (fold_left (block V32) (chunks 64 (pad_be 64 8 m)) iv224)).
Definition sha512 (m : list Z) : list Z :=
  st_bytes V64 (fold_left (block V64) (chunks 128 (pad_be 128 16 m)) iv512).
Definition sha384 (m : list Z) : list Z :=
  firstn 48 (st_bytes V64 (fold_left (block V64) (chunks 128 (pad_be 128 16 m)) iv384)).
