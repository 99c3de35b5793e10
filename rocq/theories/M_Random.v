(** Model of /repo/include/caligo/random.h and /repo/src/random.cpp, and of bignum::random. *)
From Verif Require Import Base M_Bignum.
Open Scope Z_scope.

(** random.cpp:5, random.h:21: the two pieces of state.  [tests] is [testValues] with its back
    element first; [cval] is the static of generate_random_value. *)
Record rng := Rng { tests : list Z; cval : Z }.
(** random.h:19-21. *)
Definition lcg_A : Z := 6364136223846793005.
Definition lcg_C : Z := 1442695040888963407.
(** random.cpp:5, random.h:21: the state at program start. *)
Definition fresh_rng : rng := Rng [] 0xa9782365ba09625b.

(** random.h:27, 32: one step, uint64_t arithmetic. *)
Definition lcg (c : Z) : Z := w64 (w64 (c * lcg_A) + lcg_C).

(** random.h:12-35 without PLATFORM_HAS_RDSEED (no build file defines it). *)
Definition generate_random_value (s : rng) : Z * rng :=
  match tests s with
  | v :: rest => (v, Rng rest (cval s))
  | [] =>
      let c1 := lcg (cval s) in
      let rv := Z.land c1 0xffffffff00000000 in
      let c2 := lcg c1 in
      (Z.lor rv (Z.land (Z.shiftr c2 32) 0xffffffff), Rng [] c2)
  end.

(** random.h:37-41, std::span<uint64_t>: one value per element. *)
Fixpoint fill64_loop (fuel : nat) (n : Z) (s : rng) (target : list Z) : res (rng * list Z) :=
  if n <? zlen target
  then match fuel with
       | O => Diverge
       | S f =>
           let '(value, s') := generate_random_value s in
           do target' <- setz target n value;
           fill64_loop f (n + 1) s' target'
       end
  else Ok (s, target).
Definition generate_random64 (s : rng) (target : list Z) : res (rng * list Z) :=
  fill64_loop (length target) 0 s target.

(** random.h:43-74: the loops over uint32_t, uint16_t and uint8_t differ only in the number
    [per] of elements per value and in their width [w]. *)
Fixpoint fill_inner (left : nat) (i n w value : Z) (target : list Z) : res (list Z) :=
  match left with
  | O => Ok target
  | S k =>
      if i + n =? zlen target then Ok target
      else do target' <- setz target (i + n) (Z.land value (2 ^ w - 1));
           fill_inner k (i + 1) n w (Z.shiftr value w) target'
  end.
Fixpoint fill_loop (fuel : nat) (per : nat) (w n : Z) (s : rng) (target : list Z) : res (rng * list Z) :=
  if n <? zlen target
  then match fuel with
       | O => Diverge
       | S f =>
           let '(value, s') := generate_random_value s in
           do target' <- fill_inner per 0 n w value target;
           fill_loop f per w (n + Z.of_nat per) s' target'
       end
  else Ok (s, target).
Definition generate_random32 (s : rng) (target : list Z) := fill_loop (length target) 2 32 0 s target.
Definition generate_random16 (s : rng) (target : list Z) := fill_loop (length target) 4 16 0 s target.
Definition generate_random8 (s : rng) (target : list Z) := fill_loop (length target) 8 8 0 s target.

(** bignum.h:241-246: bignum<Bits>::random(). *)
Definition bignum_random (bits : Z) (s : rng) : res (rng * list Z) := generate_random32 s (zero_words bits).
