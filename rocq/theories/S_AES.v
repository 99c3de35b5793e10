(** FIPS-197: AES.  States and words as in the standard. *)
From Verif Require Import Base.
Open Scope Z_scope.

(** 4.2: GF(2^8) modulo m(x) = x^8 + x^4 + x^3 + x + 1; polynomials are bytes. *)
Fixpoint times (n : nat) (a b : Z) : Z :=       (* product of polynomials, b of degree < n *)
  match n with
  | O => 0
  | S k => Z.lxor (times k a b) (if Z.testbit b (Z.of_nat k) then a * 2 ^ Z.of_nat k else 0)
  end.
Fixpoint reduce (n : nat) (z : Z) : Z :=        (* remove the powers x^(8+n-1), ..., x^8 *)
  match n with
  | O => z
  | S k => reduce k (if Z.testbit z (8 + Z.of_nat k) then Z.lxor z (0x11b * 2 ^ Z.of_nat k) else z)
  end.
Definition gf (a b : Z) : Z := reduce 7 (times 8 a b).
(** x^254 is the multiplicative inverse of x, and 0 for 0. *)
Fixpoint gfpow (x : Z) (n : positive) : Z :=
  match n with
  | xH => x
  | xO m => let y := gfpow x m in gf y y
  | xI m => let y := gfpow x m in gf x (gf y y)
  end.
Definition gfinv (x : Z) : Z := gfpow x 254.
(** 5.1.1: the affine transformation. *)
Definition affine (b : Z) : Z :=
  fold_left (fun acc i =>
    let bit j := Z.testbit b (j mod 8) in
    if xorb (xorb (xorb (xorb (xorb (bit i) (bit (i + 4))) (bit (i + 5))) (bit (i + 6))) (bit (i + 7))) (Z.testbit 0x63 i)
    then acc + 2 ^ i else acc) [0; 1; 2; 3; 4; 5; 6; 7] 0.
Definition S_box (x : Z) : Z := affine (gfinv x).

(** 3.4: s[r, c] = in[r + 4 c]; here a state is the function (r, c) -> byte. *)
Definition state := nat -> nat -> Z.
Definition of_block (b : list Z) : state := fun r c => nth (r + 4 * c) b 0.
Definition to_block (s : state) : list Z := flat_map (fun c => map (fun r => s r c) (seq 0 4)) (seq 0 4).
Definition SubBytes (s : state) : state := fun r c => S_box (s r c).
Definition ShiftRows (s : state) : state := fun r c => s r ((c + r) mod 4)%nat.
(** 5.1.3: each column, as a polynomial over GF(2^8), times {03}x^3 + {01}x^2 + {01}x + {02} modulo x^4 + 1. *)
Definition mixcoef (k : nat) : Z := nth k [0x02; 0x01; 0x01; 0x03] 0.
Definition MixColumns (s : state) : state := fun r c =>
  fold_left Z.lxor (map (fun j => gf (mixcoef ((r + 4 - j) mod 4)) (s j c)) (seq 0 4)) 0.
Definition AddRoundKey (w : list (list Z)) (round : nat) (s : state) : state :=
  fun r c => Z.lxor (s r c) (nth r (nth (4 * round + c) w []) 0).

(** 5.2: key expansion; words are lists of four bytes. *)
Definition SubWord (w : list Z) : list Z := map S_box w.
Definition RotWord (w : list Z) : list Z := tl w ++ [hd 0 w].
Fixpoint xpow (n : nat) : Z := match n with O => 1 | S k => gf 2 (xpow k) end.
Definition Rcon (j : nat) : list Z := [xpow (j - 1); 0; 0; 0].
Definition next_word (Nk : nat) (w : list (list Z)) : list Z :=
  let i := length w in
  let temp := nth (i - 1) w [] in
  let temp := if (i mod Nk =? 0)%nat then xorl (SubWord (RotWord temp)) (Rcon (i / Nk))
              else if (6 <? Nk)%nat && (i mod Nk =? 4)%nat then SubWord temp else temp in
  xorl (nth (i - Nk) w []) temp.
Fixpoint expand (Nk n : nat) (w : list (list Z)) : list (list Z) :=
  match n with O => w | S k => expand Nk k (w ++ [next_word Nk w]) end.
Definition KeyExpansion (Nk Nr : nat) (key : list Z) : list (list Z) :=
  expand Nk (4 * (Nr + 1) - Nk) (map (fun i => firstn 4 (skipn (4 * i) key)) (seq 0 Nk)).

(** 5.1: the cipher. *)
Fixpoint rounds (w : list (list Z)) (n : nat) (s : state) : state :=   (* rounds 1 .. n *)
  match n with
  | O => s
  | S k => AddRoundKey w n (MixColumns (ShiftRows (SubBytes (rounds w k s))))
  end.
Definition Cipher (Nk : nat) (key inp : list Z) : list Z :=
  let Nr := (Nk + 6)%nat in
  let w := KeyExpansion Nk Nr key in
  to_block (AddRoundKey w Nr (ShiftRows (SubBytes (rounds w (Nr - 1) (AddRoundKey w 0 (of_block inp)))))).
