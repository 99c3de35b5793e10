(** Model of /repo/include/caligo/mont.h.

    Simplification: widths K are multiples of 32 bits, K = 32 * n with n words (every width the
    library instantiates is one). *)
From Verif Require Import Base M_Bignum.
Open Scope Z_scope.

Notation bits_of n := (32 * Z.of_nat n).

(** mont.h:13-19: one word; uint32_t arithmetic. *)
Definition newton32 (a r : Z) : Z := w32 (r * w32 (2 - w32 (r * a))).
Definition inverse_word (a : Z) : Z := newton32 a (newton32 a (newton32 a (newton32 a (a mod 4)))).

(** mont.h:6-21.  The template recursion is on the width; [fuel] bounds its depth (the width
    at least halves while it is above one word, so the fuel of [inverse] never runs out). *)
Fixpoint inverse_rec (fuel : nat) (n : nat) (A : list Z) : res (list Z) :=
  if Nat.leb n 1
  then do a <- getz A 0; Ok (of_u32 (bits_of n) (inverse_word a))
  else match fuel with
       | O => Diverge
       | S k =>
           let h := Nat.div (n + 1) 2 in
           do low <- slice_ (bits_of h) 0 A;
           do r0 <- inverse_rec k h low;
           let r := convert (bits_of h) (bits_of n) r0 in
           do ra <- mul (bits_of n) r A;
           do ra0 <- slice_ (bits_of n) 0 ra;
           do p <- mul (bits_of n) r (snd (sub (of_u32 (bits_of n) 2) ra0));
           Ok (convert (2 * bits_of n) (bits_of n) p)
       end.
Definition inverse (n : nat) (A : list Z) : res (list Z) := inverse_rec n n A.

(** mont.h:23-29. *)
Record mstate := MState { mN : list Z; mNinv : list Z; mR1 : list Z; mR2 : list Z; mR3 : list Z }.

(** mont.h:44-52. *)
Definition redc (n : nat) (N Ninv v : list Z) : res (list Z) :=
  do v0 <- slice_ (bits_of n) 0 v;
  do vninv <- mul (bits_of n) v0 Ninv;
  do m <- slice_ (bits_of n) 0 vninv;
  do mn <- mul (bits_of n) m N;
  let '(carry, vmn) := add v mn in
  do t <- slice_ (bits_of n) (bits_of n) vmn;
  Ok (if carry then snd (sub t N) else t).

(** mont.h:30-43: the constructor of MontgomeryState.  REDC(R2MN) converts its argument to
    double width. *)
Definition mont_state (n : nat) (N : list Z) : res mstate :=
  do inv <- inverse n N;
  let Ninv := snd (add (neg inv) (of_u32 (bits_of n) 1)) in
  do R <- set_bit (zero_words (2 * bits_of n + 1)) (2 * bits_of n);
  do R2 <- naive_reduce (bits_of n) (2 * bits_of n + 1) R N;
  do R1 <- redc n N Ninv (convert (bits_of n) (2 * bits_of n) R2);
  do R2R2 <- mul (bits_of n) R2 R2;
  do R3 <- redc n N Ninv R2R2;
  Ok (MState N Ninv R1 R2 R3).

(** mont.h:57-79, 99-105: a MontgomeryValue is its [value]; the state is passed separately. *)
Definition mont_of (n : nat) (st : mstate) (x : list Z) : res (list Z) :=
  do p <- mul (bits_of n) x (mR2 st); redc n (mN st) (mNinv st) p.
Definition mont_add (x y : list Z) : list Z := snd (add x y).
Definition mont_mul (n : nat) (st : mstate) (x y : list Z) : res (list Z) :=
  do p <- mul (bits_of n) y x; redc n (mN st) (mNinv st) p.
Definition mont_square (n : nat) (st : mstate) (x : list Z) : res (list Z) :=
  do p <- square (bits_of n) x; redc n (mN st) (mNinv st) p.
Definition mont_out (n : nat) (st : mstate) (x : list Z) : res (list Z) :=
  redc n (mN st) (mNinv st) (convert (bits_of n) (2 * bits_of n) x).

(** mont.h:80-88: the exponent argument is ignored. *)
Fixpoint squarings (count : nat) (n : nat) (st : mstate) (b : list Z) : res (list Z) :=
  match count with
  | O => Ok b
  | S k => do b' <- mont_square n st b; squarings k n st b'
  end.
Definition mont_exp32 (n : nat) (st : mstate) (x : list Z) (exponent : Z) : res (list Z) :=
  do v <- mont_of n st (of_u32 (bits_of n) 1);
  do b <- squarings 16 n st x;
  mont_mul n st b x.

(** mont.h:89-98. *)
Fixpoint exp_loop (count : nat) (i : Z) (n : nat) (st : mstate) (exponent v b one : list Z) : res (list Z) :=
  match count with
  | O => Ok v
  | S k =>
      do e <- bit exponent i;
      do v' <- mont_mul n st v (if e =? 0 then one else b);
      do b' <- mont_square n st b;
      exp_loop k (i + 1) n st exponent v' b' one
  end.
Definition mont_exp (n : nat) (st : mstate) (x exponent : list Z) : res (list Z) :=
  do one <- mont_of n st (of_u32 (bits_of n) 1);
  exp_loop (Z.to_nat (bits_of n)) 0 n st exponent one x one.
