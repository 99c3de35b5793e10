(** Arithmetic definitions of the word operations used by the specifications
    (FIPS 180-4 section 3.2, RFC 1321 section 2, RFC 8439): [w] is the word size. *)
From Verif Require Import Base.

Definition compl (w x : Z) : Z := 2 ^ w - 1 - x.
Definition rotl (w n x : Z) : Z := (x * 2 ^ n) mod 2 ^ w + x / 2 ^ (w - n).
Definition rotr (w n x : Z) : Z := x / 2 ^ n + (x mod 2 ^ n) * 2 ^ (w - n).
Definition shr (n x : Z) : Z := x / 2 ^ n.
Definition addw (w x y : Z) : Z := (x + y) mod 2 ^ w.
Definition Ch (w x y z : Z) : Z := Z.lxor (Z.land x y) (Z.land (compl w x) z).
Definition Parity (x y z : Z) : Z := Z.lxor (Z.lxor x y) z.
Definition Maj (x y z : Z) : Z := Z.lxor (Z.lxor (Z.land x y) (Z.land x z)) (Z.land y z).

(** A word of size [w]. *)
Definition word (w x : Z) : Prop := 0 <= x < 2 ^ w.
