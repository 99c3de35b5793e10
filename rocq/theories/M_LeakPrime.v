(** What an observer of random_prime.h sees; the record is that of M_Leak.  P_LeakPrime proves that
    the results are those of M_Mont and M_Prime.  Conditions of if are recorded as those of ?: are. *)
From Verif Require Import Base M_Bignum M_Mont M_X25519 M_RSA M_Leak M_Random M_Prime.
Open Scope Z_scope.

(** ** bignum.h *)
(** for (n = start; count times; n++) *)
Fixpoint for_loop_t {A} (count : nat) (start : Z) (body : Z -> A -> traced A) (x : A) : traced A :=
  match count with
  | O => emit [Loop false] x
  | S k => see _ <- emit [Loop true] tt; see x' <- body start x; for_loop_t k (start + 1) body x'
  end.
(** bignum.h:77-84. *)
Definition shl_word_t (words : Z) (v : list Z) : traced (list Z) :=
  let N := zlen v in
  if N <? words then ([], UB) else
  see v <- for_loop_t (Z.to_nat (N - words)) 0 (fun n v => see w <- get_t v (N - n - words - 1); set_t v (N - n - 1) w) v;
  for_loop_t (Z.to_nat words) (N - words) (fun n v => set_t v (N - n - 1) 0) v.
(** bignum.h:85-92: v[N-1-n] is read twice and written. *)
Fixpoint shr1_passes (n : nat) : list event :=
  match n with
  | O => [Loop false]
  | S m => Loop true :: repeat (At (Z.of_nat m)) 3 ++ shr1_passes m
  end.
Definition shr1_t (v : list Z) : traced (list Z) := emit (shr1_passes (length v)) (shr1 v).
(** bignum.h:127-131. *)
Definition neg_t (v : list Z) : traced (list Z) := emit (passes 1 (length v) 0) (neg v).
(** bignum.h:220-222. *)
Definition lt_t (a b : list Z) : traced bool := see r <- sub_t a b; ret (fst r).
(** bignum.h:98-101. *)
Fixpoint normalise_t (fuel : nat) (s : list Z) (shift : Z) : traced (list Z * Z) :=
  see top <- get_t s (zlen s - 1);
  see _ <- emit [Loop (top =? 0)] tt;
  if top =? 0
  then match fuel with
       | O => ([], Diverge)
       | S k => see s' <- shl_word_t 1 s; normalise_t k s' (shift + 1)
       end
  else ret (s, shift).
(** bignum.h:102-106. *)
Fixpoint reduce_loop_t (count : nat) (c s : list Z) : traced (list Z) :=
  match count with
  | O => emit [Loop false] c
  | S k =>
      see _ <- emit [Loop true] tt;
      see r <- sub_t c s;
      see c' <- choose 104 (fst r) c (snd r);
      see s' <- shr1_t s;
      reduce_loop_t k c' s'
  end.
(** bignum.h:93-108. *)
Definition naive_reduce_t (K bits : Z) (this p : list Z) : traced (list Z) :=
  see s <- convert_t K bits p;
  see r <- normalise_t (length this) s 0;
  see c <- reduce_loop_t (Z.to_nat (snd r * 32 + 1)) this (fst r);
  convert_t bits K c.

(** ** mont.h *)
(** mont.h:6-21; the branches are decided by the compiler. *)
Fixpoint inverse_rec_t (fuel : nat) (n : nat) (A : list Z) : traced (list Z) :=
  if Nat.leb n 1
  then see a <- get_t A 0;
       see _ <- emit [Loop true; At 0; Loop true; At 0; Loop true; At 0; Loop true; At 0; Loop false] tt;
       of_u32_t (bits_of n) (inverse_word a)
  else match fuel with
       | O => ([], Diverge)
       | S k =>
           let h := Nat.div (n + 1) 2 in
           see low <- slice_t (bits_of h) 0 A;
           see r0 <- inverse_rec_t k h low;
           see r <- convert_t (bits_of h) (bits_of n) r0;
           see ra <- mul_t (bits_of n) r A;
           see ra0 <- slice_t (bits_of n) 0 ra;
           see two <- of_u32_t (bits_of n) 2;
           see d <- sub_t two ra0;
           see p <- mul_t (bits_of n) r (snd d);
           convert_t (2 * bits_of n) (bits_of n) p
       end.
Definition inverse_t (n : nat) (A : list Z) : traced (list Z) := inverse_rec_t n n A.
(** mont.h:30-43. *)
Definition mont_state_t (n : nat) (N : list Z) : traced mstate :=
  see inv <- inverse_t n N;
  see ng <- neg_t inv;
  see one <- of_u32_t (bits_of n) 1;
  see ni <- add_t ng one;
  let Ninv := snd ni in
  see R <- set_bit_t (zero_words (2 * bits_of n + 1)) (2 * bits_of n);
  see R2 <- naive_reduce_t (bits_of n) (2 * bits_of n + 1) R N;
  see R2w <- convert_t (bits_of n) (2 * bits_of n) R2;
  see R1 <- redc_t n N Ninv R2w;
  see R2R2 <- mul_t (bits_of n) R2 R2;
  see R3 <- redc_t n N Ninv R2R2;
  ret (MState N Ninv R1 R2 R3).

(** ** random_prime.h *)
(** random_prime.h:18-23. *)
Fixpoint witness_loop_t (count : nat) (n : nat) (st : mstate) (x nminusone : list Z) : traced bool :=
  match count with
  | O => emit [Loop false] false
  | S k =>
      see _ <- emit [Loop true] tt;
      see x' <- mont_mul_t n st x x;
      see o <- mont_out_t n st x';
      see e <- eq_t o nminusone;
      see _ <- emit [Choose 20 e] tt;
      if e then ret true else witness_loop_t k n st x' nminusone
  end.
(** random_prime.h:9-26; x is converted to a bignum for each of the two comparisons, the second of
    which is made if the first fails. *)
Definition one_loop_t (n : nat) (st : mstate) (d : list Z) (r a : Z) (nminusone : list Z) : traced bool :=
  see bna <- of_u32_t (bits_of n) (w32 a);
  see b <- mont_of_t n st bna;
  see e <- mont_out_t n st d;
  see x <- mont_exp_t n st b e;
  see o <- mont_out_t n st x;
  see one <- of_u32_t (bits_of n) 1;
  see is1 <- eq_t o one;
  see _ <- emit [Choose 15 is1] tt;
  if is1 then ret true else
  see o <- mont_out_t n st x;
  see ism <- eq_t o nminusone;
  see _ <- emit [Choose 15 ism] tt;
  if ism then ret true else witness_loop_t (Z.to_nat (r - 1)) n st x nminusone.
(** random_prime.h:90-96. *)
Fixpoint split_twos_t (fuel : nat) (r : Z) (d : list Z) : traced (Z * list Z) :=
  see b <- bit_t d 0;
  see _ <- emit [Loop (b =? 0)] tt;
  if b =? 0
  then match fuel with
       | O => ([], Diverge)
       | S f => see d' <- shr1_t d; split_twos_t f (w64 (r + 1)) d'
       end
  else ret (r, d).
(** random_prime.h:99-103. *)
Fixpoint all_bases_t (bases : list Z) (n : nat) (st : mstate) (mgv : list Z) (r : Z) (nminusone : list Z) : traced bool :=
  match bases with
  | [] => emit [Loop false] true
  | a :: rest =>
      see _ <- emit [Loop true] tt;
      see ok <- one_loop_t n st mgv r a nminusone;
      see _ <- emit [Choose 101 (negb ok)] tt;
      if ok then all_bases_t rest n st mgv r nminusone else ret false
  end.
(** random_prime.h:85: std::find compares one entry after the other, up to the first equal one. *)
Fixpoint find_t (n : nat) (num : list Z) (table : list Z) : traced bool :=
  match table with
  | [] => emit [Loop false] false
  | p :: rest =>
      see _ <- emit [Loop true] tt;
      see q <- of_u32_t (bits_of n) (w32 p);
      see e <- eq_t num q;
      see _ <- emit [Choose 85 e] tt;
      if e then ret true else find_t n num rest
  end.
(** random_prime.h:28-104. *)
Definition is_probably_prime_t (n : nat) (num : list Z) : traced bool :=
  see l <- of_u32_t (bits_of n) 7920;
  see small <- lt_t num l;
  see _ <- emit [Choose 84 small] tt;
  if small then find_t n num primes else
  see b <- bit_t num 0;
  see _ <- emit [Choose 89 (b =? 0)] tt;
  if b =? 0 then ret false else
  see one <- of_u32_t (bits_of n) 1;
  see m <- sub_t num one;
  let nminusone := snd m in
  see rd <- split_twos_t (Z.to_nat (bits_of n)) 0 nminusone;
  see st <- mont_state_t n num;
  see mgv <- mont_of_t n st (snd rd);
  all_bases_t primes n st mgv (fst rd) nminusone.
(** random_prime.h:106-115.  Drawing the candidate (random.h) is not recorded: its loops depend on
    the size only. *)
Fixpoint random_prime_t (fuel : nat) (n : nat) (strict : bool) (s : rng) : traced (rng * list Z) :=
  match fuel with
  | O => ([], Diverge)
  | S f =>
      see sc <- ([Loop true], bignum_random (bits_of n) s);
      let '(s', c0) := sc in
      see c1 <- set_bit_t c0 0;
      see c2 <- set_bit_t c1 (bits_of n - 1);
      see c <- (if strict then set_bit_t c2 (bits_of n - 2) else ret c2);
      see ok <- is_probably_prime_t n c;
      see _ <- emit [Choose 113 ok] tt;
      if ok then ret (s', c) else random_prime_t f n strict s'
  end.
