(** What a bignum means: its words are the base 2^32 digits of a number. *)
From Verif Require Import Base.
Open Scope Z_scope.

(** The number represented by words, least significant first. *)
Fixpoint val (l : list Z) : Z :=
  match l with
  | [] => 0
  | w :: rest => w + 2 ^ 32 * val rest
  end.

(** [n] words, each a uint32_t. *)
Definition bn (n : nat) (l : list Z) : Prop := length l = n /\ Forall (fun w => 0 <= w < 2 ^ 32) l.

(** Hexadecimal text of [digits] digits, upper case, most significant digit first. *)
Definition upper_hex (d : Z) : Z := nth (Z.to_nat d) [48; 49; 50; 51; 52; 53; 54; 55; 56; 57; 65; 66; 67; 68; 69; 70] 0.
Fixpoint hex_text (digits : nat) (x : Z) : list Z :=
  match digits with
  | O => []
  | S k => hex_text k (x / 16) ++ [upper_hex (x mod 16)]
  end.
