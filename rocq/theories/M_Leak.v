(** What an observer of the running code sees, for bignum.h, x25519.h, mont.h and the private key
    operation of rsa.h.

    README.md:24 expects all implementations to be "side-channel free".  The functions below are
    those of M_Bignum, M_X25519, M_Mont and M_RSA again, and record while they compute:
    - the outcome of every condition of a loop ([Loop]),
    - the outcome of every condition of ?: and of the left operand of && ([Choose], with the line),
    - the index of every array access ([At]).
    P_Leak proves that the results are those of the other models.  Not recorded: copies of whole
    objects (fixed size), constant offsets, and the time an arithmetic instruction takes. *)
From Verif Require Import Base M_Bignum M_X25519 M_Mont M_RSA.
Open Scope Z_scope.

Inductive event := Loop (b : bool) | Choose (line : Z) (b : bool) | At (i : Z).
Definition traced (A : Type) : Type := list event * res A.
Definition ret {A} (a : A) : traced A := ([], Ok a).
Definition emit {A} (es : list event) (a : A) : traced A := (es, Ok a).
Definition tbind {A B} (m : traced A) (f : A -> traced B) : traced B :=
  match snd m with
  | Ok a => let r := f a in (fst m ++ fst r, snd r)
  | Throw => (fst m, Throw)
  | UB => (fst m, UB)
  | Diverge => (fst m, Diverge)
  end.
Notation "'see' x <- a ; b" := (tbind a (fun x => b))
  (at level 200, x pattern, a at level 100, b at level 200, right associativity) : res_scope.

(** v[i], v[i] = x *)
Definition get_t (v : list Z) (i : Z) : traced Z := ([At i], getz v i).
Definition set_t (v : list Z) (i x : Z) : traced (list Z) := ([At i], setz v i x).
(** b ? x : y *)
Definition choose {A} (line : Z) (b : bool) (x y : A) : traced A := emit [Choose line b] (if b then x else y).
(** b && c, where evaluating c has no effect *)
Definition and_also (line : Z) (b c : bool) : traced bool := emit [Choose line b] (b && c).
(** A loop over the [n] words from [i] on which makes [k] accesses at the index in each pass. *)
Fixpoint passes (k n : nat) (i : Z) : list event :=
  match n with
  | O => [Loop false]
  | S m => Loop true :: repeat (At i) k ++ passes k m (i + 1)
  end.

(** ** bignum.h *)
(** bignum.h:23-31. *)
Definition bit_t (v : list Z) (n : Z) : traced Z :=
  see w <- get_t v (n / 32); ret (Z.land (Z.shiftr w (n mod 32)) 1).
Definition set_bit_t (v : list Z) (n : Z) : traced (list Z) :=
  see w <- get_t v (n / 32); set_t v (n / 32) (Z.lor w (w32 (Z.shiftl 1 (n mod 32)))).
Definition clear_bit_t (v : list Z) (n : Z) : traced (list Z) :=
  see w <- get_t v (n / 32); set_t v (n / 32) (w32 (Z.land w (Z.lxor (w64 (Z.shiftl 1 (n mod 32))) 0xffffffffffffffff))).
(** bignum.h:37-42. *)
Definition of_u32_t (bits value : Z) : traced (list Z) := emit [At 0] (of_u32 bits value).
(** bignum.h:43-50. *)
Fixpoint init_words_t (v l : list Z) : traced (list Z) :=
  match l with
  | [] => emit [Loop false] v
  | i :: rest => see _ <- emit [Loop true] tt; see v' <- set_t v (zlen rest) i; init_words_t v' rest
  end.
Definition of_list_t (bits : Z) (l : list Z) : traced (list Z) := init_words_t (zero_words bits) l.
(** bignum.h:65-76; equal widths are a copy. *)
Definition convert_t (K bits : Z) (value : list Z) : traced (list Z) :=
  if K =? bits then ret value else
  let n := Z.min K bits / 32 in
  emit (passes 2 (Z.to_nat n) 0 ++ passes 1 (Z.to_nat (nwords bits) - Z.to_nat n) n) (convert K bits value).
(** bignum.h:109-116. *)
Fixpoint slice_passes (n : nat) (i start : Z) : list event :=
  match n with
  | O => [Loop false]
  | S m => Loop true :: At i :: At (i + start) :: slice_passes m (i + 1) start
  end.
Definition slice_t (K start : Z) (v : list Z) : traced (list Z) :=
  (slice_passes (Z.to_nat (nwords K)) 0 (start / 32), slice_ K start v).
(** bignum.h:152-160 and 170-175. *)
Fixpoint add_from_t (i t : Z) (v rhs : list Z) : traced (bool * list Z) :=
  match v, rhs with
  | x :: v', y :: rhs' =>
      see _ <- emit [Loop true; At i; At i; At i] tt;
      let t := w64 (t + w64 (x + y)) in
      see r <- add_from_t (i + 1) (Z.shiftr t 32) v' rhs';
      ret (fst r, Z.land t 0xffffffff :: snd r)
  | _, _ => emit [Loop false] (negb (t =? 0), [])
  end.
Definition add_t (v rhs : list Z) : traced (bool * list Z) := add_from_t 0 0 v rhs.
(** bignum.h:161-169 and 207-212. *)
Fixpoint sub_from_t (i t : Z) (v rhs : list Z) : traced (bool * list Z) :=
  match v, rhs with
  | x :: v', y :: rhs' =>
      see _ <- emit [Loop true; At i; At i] tt;
      see borrow <- choose 164 (negb (t =? 0)) 1 0;
      see _ <- emit [At i] tt;
      let t := w64 (w64 (x - y) - borrow) in
      see r <- sub_from_t (i + 1) (Z.shiftr t 32) v' rhs';
      ret (fst r, Z.land t 0xffffffff :: snd r)
  | _, _ => emit [Loop false] (negb (t =? 0), [])
  end.
Definition sub_t (v rhs : list Z) : traced (bool * list Z) := sub_from_t 0 0 v rhs.
(** bignum.h:177-188. *)
Definition mul32_t (a : list Z) (b : Z) : traced (list Z) := emit (passes 2 (length a) 0 ++ [At (zlen a)]) (mul32 a b).
(** bignum.h:193-199 for index [i] of the outer loop. *)
Fixpoint row_passes (n : nat) (i j : Z) : list event :=
  match n with
  | O => [Loop false; At (i + j)]
  | S m => [Loop true; At i; At j; At (i + j); At (i + j)] ++ row_passes m i (j + 1)
  end.
Fixpoint mul_rows_t (i : Z) (a b x : list Z) : traced (list Z) :=
  match a with
  | [] => emit [Loop false] x
  | ai :: a' =>
      see _ <- emit [Loop true] tt;
      see x1 <- (row_passes (length b) i 0, mul_row ai b x 0);
      match x1 with
      | [] => ([], UB)
      | lo :: x' => see r <- mul_rows_t (i + 1) a' b x'; ret (lo :: r)
      end
  end.
Definition mul_t (bits : Z) (a b : list Z) : traced (list Z) := mul_rows_t 0 a b (zero_words (2 * bits)).
(** bignum.h:213-222. *)
Definition eq_t (a b : list Z) : traced bool := emit (passes 2 (length a) 0) (eq_ a b).
(** bignum.h:132-151 and 223-231: one loop each for ones, ^, &=, ^=, ^=. *)
Definition ctime_swap_t (doswap : bool) (a b : list Z) : traced (list Z * list Z) :=
  emit (passes 1 (length a) 0 ++ passes 3 (length a) 0 ++ passes 2 (length a) 0 ++ passes 2 (length a) 0 ++ passes 2 (length a) 0)
    (ctime_swap doswap a b).

(** ** x25519.h *)
(** x25519.h:27-34. *)
Definition ec_add_t (a b : list Z) : traced (list Z) :=
  see r <- add_t a b;
  see o <- of_u32_t 256 (w32 (b2u (fst r) * overflow_addition));
  see r2 <- add_t (snd r) o;
  see w <- get_t (snd r2) 0;
  set_t (snd r2) 0 (w32 (w + b2u (fst r2) * overflow_addition)).
(** x25519.h:35-40. *)
Definition ec_mul32_t (a : list Z) (b : Z) : traced (list Z) :=
  see x <- mul32_t a b;
  see x8 <- get_t x 8;
  let ov := w64 (x8 * 38) in
  see lo <- slice_t 256 0 x;
  see hi <- of_list_t 256 [w32 (Z.shiftr ov 32); w32 (Z.land ov 0xffffffff)];
  ec_add_t lo hi.
(** x25519.h:41-48. *)
Definition ec_mul_t (a b : list Z) : traced (list Z) :=
  see x <- mul_t 256 a b;
  see upper <- slice_t 256 256 x;
  see lower <- slice_t 256 0 x;
  see u38 <- mul32_t upper 38;
  see ulow <- slice_t 256 0 u38;
  see u8 <- get_t u38 8;
  see s <- ec_add_t ulow lower;
  see o <- of_u32_t 256 (w32 (u8 * 38));
  ec_add_t s o.
(** x25519.h:49-55. *)
Definition ec_sub_t (a b : list Z) : traced (list Z) :=
  see r <- sub_t a b;
  let uf := fst r in
  see m1 <- choose 52 uf modulus zero;
  see r1 <- add_t (snd r) m1;
  see c2 <- and_also 53 uf (negb (fst r1));
  see m2 <- choose 53 c2 modulus zero;
  see r2 <- add_t (snd r1) m2;
  see c3 <- and_also 54 uf (negb (fst r1));
  see c4 <- and_also 54 c3 (negb (fst r2));
  see m3 <- choose 54 c4 modulus zero;
  see r3 <- add_t (snd r2) m3;
  ret (snd r3).
(** x25519.h:71-78. *)
Definition applyModulus_t (v : list Z) : traced (list Z) :=
  see r <- sub_t v modulus;
  see m <- choose 74 (fst r) modulus zero;
  see r2 <- add_t (snd r) m;
  see r3 <- sub_t (snd r2) modulus;
  see m2 <- choose 76 (fst r3) modulus zero;
  see r4 <- add_t (snd r3) m2;
  ret (snd r4).
(** x25519.h:79-85. *)
Definition normalize_t (v : list Z) : traced (list Z) :=
  see v <- clear_bit_t v 0;
  see v <- clear_bit_t v 1;
  see v <- clear_bit_t v 2;
  see v <- set_bit_t v 254;
  clear_bit_t v 255.
(** x25519.h:90-110. *)
Definition ec_square_t (v : list Z) : traced (list Z) := ec_mul_t v v.
Fixpoint squares_t (n : nat) (v : list Z) : traced (list Z) :=
  match n with
  | O => ret v
  | S k => see w <- ec_square_t v; squares_t k w
  end.
Definition ec_inverse_t (z : list Z) : traced (list Z) :=
  see z2 <- ec_square_t z;
  see z4 <- ec_square_t z2;
  see z8 <- ec_square_t z4;
  see z9 <- ec_mul_t z8 z;
  see z11 <- ec_mul_t z9 z2;
  see z22 <- ec_square_t z11;
  see z31 <- ec_mul_t z22 z9;
  see z2_10_5 <- squares_t 5 z31;
  see z2_10_0 <- ec_mul_t z2_10_5 z31;
  see z2_15_5 <- squares_t 5 z2_10_0;
  see z2_15_0 <- ec_mul_t z2_15_5 z31;
  see t <- squares_t 15 z2_15_0;
  see z2_30_0 <- ec_mul_t t z2_15_0;
  see t <- squares_t 30 z2_30_0;
  see z2_60_0 <- ec_mul_t t z2_30_0;
  see t <- squares_t 60 z2_60_0;
  see z2_120_0 <- ec_mul_t t z2_60_0;
  see t <- squares_t 120 z2_120_0;
  see z2_240_0 <- ec_mul_t t z2_120_0;
  see t <- squares_t 15 z2_240_0;
  see t <- ec_mul_t t z2_15_5;
  ec_mul_t t z11.
(** x25519.h:130-149; swap ^= k_t and swap = k_t are assignments of a bool. *)
Definition ladder_step_t (k u : list Z) (t : Z) (s : state) : traced state :=
  let '(x_2, z_2, x_3, z_3, swap) := s in
  see kt <- bit_t k t;
  let k_t := negb (kt =? 0) in
  let swap := xorb swap k_t in
  see x <- ctime_swap_t swap x_2 x_3;
  see z <- ctime_swap_t swap z_2 z_3;
  see A <- ec_add_t (fst x) (fst z);
  see AA <- ec_square_t A;
  see B <- ec_sub_t (fst x) (fst z);
  see BB <- ec_square_t B;
  see E <- ec_sub_t AA BB;
  see C <- ec_add_t (snd x) (snd z);
  see D <- ec_sub_t (snd x) (snd z);
  see DA <- ec_mul_t D A;
  see CB <- ec_mul_t C B;
  see sum <- ec_add_t DA CB;
  see x_3 <- ec_square_t sum;
  see d <- ec_sub_t DA CB;
  see dd <- ec_square_t d;
  see z_3 <- ec_mul_t u dd;
  see x_2 <- ec_mul_t AA BB;
  see e <- ec_mul32_t E 121665;
  see ae <- ec_add_t AA e;
  see z_2 <- ec_mul_t E ae;
  ret (x_2, z_2, x_3, z_3, k_t).
Fixpoint ladder_t (n : nat) (k u : list Z) (s : state) : traced state :=
  match n with
  | O => emit [Loop false] s
  | S t => see _ <- emit [Loop true] tt; see s' <- ladder_step_t k u (Z.of_nat t) s; ladder_t t k u s'
  end.
(** x25519.h:121-156. *)
Definition X25519_t (k u : list Z) : traced (list Z) :=
  see k <- normalize_t k;
  see one <- of_list_t 256 [1];
  see nul <- of_list_t 256 [0];
  see s <- ladder_t 256 k u (one, nul, u, one, false);
  let '(x_2, z_2, x_3, z_3, swap) := s in
  see x <- ctime_swap_t swap x_2 x_3;
  see z <- ctime_swap_t swap z_2 z_3;
  see i <- ec_inverse_t (fst z);
  see rv <- ec_mul_t (fst x) i;
  applyModulus_t rv.

(** ** mont.h and rsa.h *)
(** mont.h:44-52. *)
Definition redc_t (n : nat) (N Ninv v : list Z) : traced (list Z) :=
  see v0 <- slice_t (bits_of n) 0 v;
  see vninv <- mul_t (bits_of n) v0 Ninv;
  see m <- slice_t (bits_of n) 0 vninv;
  see mn <- mul_t (bits_of n) m N;
  see vmn <- add_t v mn;
  see t <- slice_t (bits_of n) (bits_of n) (snd vmn);
  see t2 <- sub_t t N;
  choose 51 (fst vmn) (snd t2) t.
(** mont.h:60-64, 70-79, 99-101. *)
Definition mont_of_t (n : nat) (st : mstate) (x : list Z) : traced (list Z) :=
  see p <- mul_t (bits_of n) x (mR2 st); redc_t n (mN st) (mNinv st) p.
Definition mont_mul_t (n : nat) (st : mstate) (x y : list Z) : traced (list Z) :=
  see p <- mul_t (bits_of n) y x; redc_t n (mN st) (mNinv st) p.
Definition mont_square_t (n : nat) (st : mstate) (x : list Z) : traced (list Z) :=
  see p <- mul_t (bits_of n) x x; redc_t n (mN st) (mNinv st) p.
Definition mont_out_t (n : nat) (st : mstate) (x : list Z) : traced (list Z) :=
  see v <- convert_t (bits_of n) (2 * bits_of n) x; redc_t n (mN st) (mNinv st) v.
(** mont.h:89-98. *)
Fixpoint exp_loop_t (count : nat) (i : Z) (n : nat) (st : mstate) (exponent v b one : list Z) : traced (list Z) :=
  match count with
  | O => emit [Loop false] v
  | S k =>
      see _ <- emit [Loop true] tt;
      see e <- bit_t exponent i;
      see factor <- choose 94 (negb (e =? 0)) b one;
      see v' <- mont_mul_t n st v factor;
      see b' <- mont_square_t n st b;
      exp_loop_t k (i + 1) n st exponent v' b' one
  end.
Definition mont_exp_t (n : nat) (st : mstate) (x exponent : list Z) : traced (list Z) :=
  see u <- of_u32_t (bits_of n) 1;
  see one <- mont_of_t n st u;
  exp_loop_t (Z.to_nat (bits_of n)) 0 n st exponent one x one.
(** rsa.h:142-144. *)
Definition rsadp_t (n : nat) (k : privkey) (m : list Z) : traced (list Z) :=
  see v <- mont_of_t n (priv_s k) m; see r <- mont_exp_t n (priv_s k) v (priv_d k); mont_out_t n (priv_s k) r.
