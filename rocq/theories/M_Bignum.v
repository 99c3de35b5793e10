(** Model of /repo/include/caligo/bignum.h.

    A [bignum<Bits>] is its array [v] of (Bits+31)/32 words, least significant word first.
    The template argument is passed explicitly where the code uses it for more than the
    number of words.  uint32_t values are numbers in [0, 2^32). *)
From Coq Require Import Ascii String.
From Verif Require Import Base.
Open Scope Z_scope.

(** bignum.h:14. *)
Definition nwords (bits : Z) : Z := (bits + 31) / 32.

(** v{} (bignum.h:38, 44, ...): all words zero. *)
Definition zero_words (bits : Z) : list Z := repeat 0 (Z.to_nat (nwords bits)).

(** bignum.h:23-25. *)
Definition bit (v : list Z) (n : Z) : res Z :=
  do w <- getz v (n / 32); Ok (Z.land (Z.shiftr w (n mod 32)) 1).
(** bignum.h:26-28. *)
Definition set_bit (v : list Z) (n : Z) : res (list Z) :=
  do w <- getz v (n / 32); setz v (n / 32) (Z.lor w (w32 (Z.shiftl 1 (n mod 32)))).
(** bignum.h:29-31; 1UL has 64 bits, the result is stored in 32. *)
Definition clear_bit (v : list Z) (n : Z) : res (list Z) :=
  do w <- getz v (n / 32); setz v (n / 32) (w32 (Z.land w (Z.lxor (w64 (Z.shiftl 1 (n mod 32))) 0xffffffffffffffff))).

(** bignum.h:32-42: operator= and constructor from uint32_t. *)
Definition of_u32 (bits value : Z) : list Z := upd (zero_words bits) 0 value.

(** bignum.h:43-50: most significant word first; v[list.size() - n++ - 1] = i. *)
Fixpoint init_words (v l : list Z) : res (list Z) :=
  match l with
  | [] => Ok v
  | i :: rest => do v' <- setz v (zlen rest) i; init_words v' rest
  end.
Definition of_list (bits : Z) (l : list Z) : res (list Z) := init_words (zero_words bits) l.

(** bignum.h:51-57: N words of the span, most significant first (no size check). *)
Definition of_words (bits : Z) (data : list Z) : res (list Z) :=
  do ws <- slice data 0 (nwords bits); Ok (rev ws).

(** bignum.h:58-64: least significant byte first; bytes beyond the width are ignored. *)
Fixpoint or_bytes (n : Z) (v data : list Z) : res (list Z) :=
  match data with
  | [] => Ok v
  | b :: rest =>
      if n <? zlen v * 4
      then do w <- getz v (n / 4);
           do v' <- setz v (n / 4) (Z.lor w (w32 (Z.shiftl b ((8 * n) mod 32))));
           or_bytes (n + 1) v' rest
      else Ok v
  end.
Definition of_bytes (bits : Z) (data : list Z) : res (list Z) := or_bytes 0 (zero_words bits) data.

(** bignum.h:65-76: conversion from bignum<K> to bignum<Bits>.  For K <> Bits; with K = Bits
    the implicit copy constructor is used instead. *)
Definition convert (K bits : Z) (value : list Z) : list Z :=
  if K =? bits then value else
  let n := Z.to_nat (Z.min K bits / 32) in
  firstn n value ++ repeat 0 (Z.to_nat (nwords bits) - n).

(** for (n = start; count times; n++) *)
Fixpoint for_loop {A} (count : nat) (start : Z) (body : Z -> A -> res A) (x : A) : res A :=
  match count with
  | O => Ok x
  | S k => do x' <- body start x; for_loop k (start + 1) body x'
  end.

(** bignum.h:77-84.  N-words is computed in size_t: for words > N it wraps and the first
    loop runs out of the array. *)
Definition shl_word (words : Z) (v : list Z) : res (list Z) :=
  let N := zlen v in
  if N <? words then UB else
  do v <- for_loop (Z.to_nat (N - words)) 0 (fun n v => do w <- getz v (N - n - words - 1); setz v (N - n - 1) w) v;
  for_loop (Z.to_nat words) (N - words) (fun n v => setz v (N - n - 1) 0) v.

(** bignum.h:85-92: from the most significant word down. *)
Fixpoint shr1_from (top : list Z) (b : Z) : list Z :=
  match top with
  | [] => []
  | w :: rest => Z.lor (Z.shiftr w 1) b :: shr1_from rest (w32 (Z.shiftl w 31))
  end.
Definition shr1 (v : list Z) : list Z := rev (shr1_from (rev v) 0).

(** bignum.h:152-160: carry out and sum. *)
Fixpoint add_from (t : Z) (v rhs : list Z) : bool * list Z :=
  match v, rhs with
  | x :: v', y :: rhs' =>
      let t := w64 (t + w64 (x + y)) in
      let '(c, r) := add_from (Z.shiftr t 32) v' rhs' in
      (c, Z.land t 0xffffffff :: r)
  | _, _ => (negb (t =? 0), [])
  end.
Definition add (v rhs : list Z) : bool * list Z := add_from 0 v rhs.

(** bignum.h:161-169. *)
Fixpoint sub_from (t : Z) (v rhs : list Z) : bool * list Z :=
  match v, rhs with
  | x :: v', y :: rhs' =>
      let t := w64 (w64 (x - y) - (if t =? 0 then 0 else 1)) in
      let '(c, r) := sub_from (Z.shiftr t 32) v' rhs' in
      (c, Z.land t 0xffffffff :: r)
  | _, _ => (negb (t =? 0), [])
  end.
Definition sub (v rhs : list Z) : bool * list Z := sub_from 0 v rhs.

(** bignum.h:177-188: bignum<Bits+32> from bignum<Bits> * uint32_t. *)
Fixpoint mul32_from (t : Z) (a : list Z) (b : Z) : list Z :=
  match a with
  | [] => [Z.land t 0xffffffff]
  | x :: a' => let t := w64 (t + w64 (x * b)) in Z.land t 0xffffffff :: mul32_from (Z.shiftr t 32) a' b
  end.
Definition mul32 (a : list Z) (b : Z) : list Z := mul32_from 0 a b.

(** bignum.h:193-199, one pass of the outer loop: [x] is the result array from index i on. *)
Fixpoint mul_row (ai : Z) (b x : list Z) (t : Z) : res (list Z) :=
  match b, x with
  | [], _ :: x' => Ok (Z.land t 0xffffffff :: x')
  | bj :: b', xj :: x' =>
      let t := w64 (t + w64 (w64 (ai * bj) + xj)) in
      do r <- mul_row ai b' x' (Z.shiftr t 32); Ok (Z.land t 0xffffffff :: r)
  | _, [] => UB
  end.
(** bignum.h:192-200: each pass finishes word i of the result. *)
Fixpoint mul_rows (a b x : list Z) : res (list Z) :=
  match a with
  | [] => Ok x
  | ai :: a' =>
      do x1 <- mul_row ai b x 0;
      match x1 with
      | [] => UB
      | lo :: x' => do r <- mul_rows a' b x'; Ok (lo :: r)
      end
  end.
(** bignum.h:189-202: bignum<2*Bits> from two bignum<Bits>. *)
Definition mul (bits : Z) (a b : list Z) : res (list Z) := mul_rows a b (zero_words (2 * bits)).
(** bignum.h:203-206. *)
Definition square (bits : Z) (a : list Z) : res (list Z) := mul bits a a.

(** bignum.h:213-219. *)
Fixpoint diff_words (r : Z) (a b : list Z) : Z :=
  match a, b with
  | x :: a', y :: b' => diff_words (Z.lor r (Z.lxor x y)) a' b'
  | _, _ => r
  end.
Definition eq_ (a b : list Z) : bool := diff_words 0 a b =? 0.
(** bignum.h:220-222. *)
Definition lt_ (a b : list Z) : bool := fst (sub a b).

(** bignum.h:127-151. *)
Definition neg (v : list Z) : list Z := map (fun e => Z.lxor e 0xffffffff) v.
Definition xor_ (a b : list Z) : list Z := map2 Z.lxor a b.
Definition and_ (a b : list Z) : list Z := map2 Z.land a b.

(** bignum.h:223-231: the new a and b. *)
Definition ctime_swap (doswap : bool) (a b : list Z) : list Z * list Z :=
  let ones := map (fun _ => w32 (0xffffffff * (if doswap then 1 else 0))) a in
  let ones := and_ ones (xor_ a b) in
  (xor_ a ones, xor_ b ones).

(** bignum.h:109-116. *)
Definition slice_ (K start : Z) (v : list Z) : res (list Z) := slice v (start / 32) (nwords K).

(** bignum.h:117-126. *)
Definition as_bytes (v : list Z) : list Z :=
  concat (map (fun w => [Z.land w 255; Z.land (Z.shiftr w 8) 255; Z.land (Z.shiftr w 16) 255; Z.land (Z.shiftr w 24) 255]) v).

(** bignum.h:98-101: shift up by whole words until the top word is not zero.  A zero value
    stays zero under shl_word, so that the loop never ends; after N shifts the value is zero.
    Result: the shifted value and the number of shifts. *)
Fixpoint normalise (fuel : nat) (s : list Z) (shift : Z) : res (list Z * Z) :=
  do top <- getz s (zlen s - 1);
  if top =? 0
  then match fuel with
       | O => Diverge
       | S k => do s' <- shl_word 1 s; normalise k s' (shift + 1)
       end
  else Ok (s, shift).

(** bignum.h:102-106: [count] passes of the subtract-and-shift loop. *)
Fixpoint reduce_loop (count : nat) (c s : list Z) : list Z :=
  match count with
  | O => c
  | S k => let '(overflow, c2) := sub c s in reduce_loop k (if overflow then c else c2) (shr1 s)
  end.

(** bignum.h:93-108: this is bignum<Bits>, p and the result are bignum<K>. *)
Definition naive_reduce (K bits : Z) (this p : list Z) : res (list Z) :=
  do r <- normalise (length this) (convert K bits p) 0;
  Ok (convert bits K (reduce_loop (Z.to_nat (snd r * 32 + 1)) this (fst r))).

(** bignum.h:232-240: "%08X " for each word from the top, the last blank removed. *)
Definition hexdigit (d : Z) : Z := if d <? 10 then 48 + d else 55 + d.
Definition hex8 (w : Z) : list Z :=
  map (fun k => hexdigit (Z.land (Z.shiftr w (4 * k)) 15)) [7; 6; 5; 4; 3; 2; 1; 0].
Fixpoint words_text (l : list Z) : list Z :=
  match l with
  | [] => []
  | [w] => hex8 w
  | w :: rest => hex8 w ++ [32] ++ words_text rest
  end.
Definition to_string (v : list Z) : list Z := words_text (rev v).
