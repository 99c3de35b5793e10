(** Model of /repo/include/caligo/x25519.h.

    An [ec_value] is its member [v], a bignum<256>: eight words, least significant first. *)
From Verif Require Import Base M_Bignum.
Open Scope Z_scope.

(** x25519.h:12-14 (the initialiser list names the most significant word first). *)
Definition modulus : list Z :=
  [0xFFFFFFED; 0xFFFFFFFF; 0xFFFFFFFF; 0xFFFFFFFF; 0xFFFFFFFF; 0xFFFFFFFF; 0xFFFFFFFF; 0x7FFFFFFF].
Definition zero : list Z := [0; 0; 0; 0; 0; 0; 0; 0].
Definition overflow_addition : Z := 38.

(** A bool used in arithmetic. *)
Definition b2u (b : bool) : Z := if b then 1 else 0.

(** x25519.h:27-34. *)
Definition ec_add (a b : list Z) : res (list Z) :=
  let '(overflow, value) := add a b in
  let '(ov2, v2) := add value (of_u32 256 (w32 (b2u overflow * overflow_addition))) in
  do w <- getz v2 0;
  setz v2 0 (w32 (w + b2u ov2 * overflow_addition)).

(** x25519.h:35-40: multiplication by a uint32_t. *)
Definition ec_mul32 (a : list Z) (b : Z) : res (list Z) :=
  let x := mul32 a b in
  do x8 <- getz x 8;
  let ov := w64 (x8 * 38) in
  do lo <- slice_ 256 0 x;
  do hi <- of_list 256 [w32 (Z.shiftr ov 32); w32 (Z.land ov 0xffffffff)];
  ec_add lo hi.

(** x25519.h:41-48. *)
Definition ec_mul (a b : list Z) : res (list Z) :=
  do x <- mul 256 a b;
  do upper <- slice_ 256 256 x;
  do lower <- slice_ 256 0 x;
  let u38 := mul32 upper 38 in
  do ulow <- slice_ 256 0 u38;
  do u8 <- getz u38 8;
  do s <- ec_add ulow lower;
  ec_add s (of_u32 256 (w32 (u8 * 38))).

(** x25519.h:49-55. *)
Definition ec_sub (a b : list Z) : list Z :=
  let '(uf, v) := sub a b in
  let '(ov1, v2) := add v (if uf then modulus else zero) in
  let '(ov2, v3) := add v2 (if uf && negb ov1 then modulus else zero) in
  snd (add v3 (if uf && negb ov1 && negb ov2 then modulus else zero)).

(** x25519.h:71-78. *)
Definition applyModulus (v : list Z) : list Z :=
  let '(uf, nv) := sub v modulus in
  let '(_, nv2) := add nv (if uf then modulus else zero) in
  let '(uf2, nv3) := sub nv2 modulus in
  let '(_, nv4) := add nv3 (if uf2 then modulus else zero) in
  nv4.

(** x25519.h:21 (the member operator!=, chosen when the left operand is not const). *)
Definition ec_ne (a b : list Z) : bool := negb (eq_ a b).
(** x25519.h:56-62. *)
Definition ec_eq (a b : list Z) : bool := eq_ (applyModulus a) (applyModulus b).
(** x25519.h:63-69. *)
Definition ec_lt (a b : list Z) : bool := lt_ (applyModulus a) (applyModulus b).

(** x25519.h:79-85. *)
Definition normalize (v : list Z) : res (list Z) :=
  do v <- clear_bit v 0;
  do v <- clear_bit v 1;
  do v <- clear_bit v 2;
  do v <- set_bit v 254;
  clear_bit v 255.

(** x25519.h:90-92. *)
Definition ec_square (v : list Z) : res (list Z) := ec_mul v v.
(** v.square().square()... with [n] calls. *)
Fixpoint squares (n : nat) (v : list Z) : res (list Z) :=
  match n with
  | O => Ok v
  | S k => do w <- ec_square v; squares k w
  end.

(** x25519.h:93-110. *)
Definition inverse (z : list Z) : res (list Z) :=
  do z2 <- ec_square z;
  do z4 <- ec_square z2;
  do z8 <- ec_square z4;
  do z9 <- ec_mul z8 z;
  do z11 <- ec_mul z9 z2;
  do z22 <- ec_square z11;
  do z31 <- ec_mul z22 z9;
  do z2_10_5 <- squares 5 z31;
  do z2_10_0 <- ec_mul z2_10_5 z31;
  do z2_15_5 <- squares 5 z2_10_0;
  do z2_15_0 <- ec_mul z2_15_5 z31;
  do t <- squares 15 z2_15_0;
  do z2_30_0 <- ec_mul t z2_15_0;
  do t <- squares 30 z2_30_0;
  do z2_60_0 <- ec_mul t z2_30_0;
  do t <- squares 60 z2_60_0;
  do z2_120_0 <- ec_mul t z2_60_0;
  do t <- squares 120 z2_120_0;
  do z2_240_0 <- ec_mul t z2_120_0;
  do t <- squares 15 z2_240_0;
  do t <- ec_mul t z2_15_5;
  ec_mul t z11.

(** The variables of the loop: x_2, z_2, x_3, z_3, swap. *)
Definition state : Type := list Z * list Z * list Z * list Z * bool.

(** x25519.h:131-148: one pass of the loop. *)
Definition ladder_step (k u : list Z) (t : Z) (s : state) : res state :=
  let '(x_2, z_2, x_3, z_3, swap) := s in
  do kt <- bit k t;
  let k_t := negb (kt =? 0) in
  let swap := xorb swap k_t in
  let '(x_2, x_3) := ctime_swap swap x_2 x_3 in
  let '(z_2, z_3) := ctime_swap swap z_2 z_3 in
  let swap := k_t in
  do A <- ec_add x_2 z_2;
  do AA <- ec_square A;
  let B := ec_sub x_2 z_2 in
  do BB <- ec_square B;
  let E := ec_sub AA BB in
  do C <- ec_add x_3 z_3;
  let D := ec_sub x_3 z_3 in
  do DA <- ec_mul D A;
  do CB <- ec_mul C B;
  do sum <- ec_add DA CB;
  do x_3 <- ec_square sum;
  do dd <- ec_square (ec_sub DA CB);
  do z_3 <- ec_mul u dd;
  do x_2 <- ec_mul AA BB;
  do e <- ec_mul32 E 121665;
  do ae <- ec_add AA e;
  do z_2 <- ec_mul E ae;
  Ok (x_2, z_2, x_3, z_3, swap).

(** x25519.h:130: for (size_t t = n; t --> 0;). *)
Fixpoint ladder (n : nat) (k u : list Z) (s : state) : res state :=
  match n with
  | O => Ok s
  | S t => do s' <- ladder_step k u (Z.of_nat t) s; ladder t k u s'
  end.

(** x25519.h:121-156. *)
Definition X25519 (k u : list Z) : res (list Z) :=
  do k <- normalize k;
  do one <- of_list 256 [1];
  do nul <- of_list 256 [0];
  do s <- ladder 256 k u (one, nul, u, one, false);
  let '(x_2, z_2, x_3, z_3, swap) := s in
  let '(x_2, x_3) := ctime_swap swap x_2 x_3 in
  let '(z_2, z_3) := ctime_swap swap z_2 z_3 in
  do i <- inverse z_2;
  do rv <- ec_mul x_2 i;
  Ok (applyModulus rv).

(** x25519.h:114-118, after [r] has been drawn from bignum<256>::random(). *)
Definition random_private_key (r : list Z) : res (list Z) := normalize r.

(** Bytes in, bytes out: ec_value(bignum<256>(span)) of both arguments, as_bytes() of the
    result (x25519.h:24-26, bignum.h:58-64, 117-126). *)
Definition x25519_bytes (k u : list Z) : res (list Z) :=
  do kv <- of_bytes 256 k;
  do uv <- of_bytes 256 u;
  do r <- X25519 kv uv;
  Ok (as_bytes r).
