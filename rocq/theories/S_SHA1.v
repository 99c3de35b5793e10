(** FIPS 180-4: SHA-1. *)
From Verif Require Import Base S_Word S_MD S_Const.

(** Section 4.1.1 and 4.2.1; the constants are floor(2^30 * sqrt(2, 3, 5, 10)). *)
Definition ft (t : nat) (x y z : Z) : Z :=
  if Nat.ltb t 20 then Ch 32 x y z
  else if Nat.ltb t 40 then Parity x y z
  else if Nat.ltb t 60 then Maj x y z else Parity x y z.
Definition Kt (t : nat) : Z :=
  Z.sqrt ((if Nat.ltb t 20 then 2 else if Nat.ltb t 40 then 3 else if Nat.ltb t 60 then 5 else 10) * 2 ^ 60).

(** Section 6.1.2 step 1: message schedule, newest word first. *)
Fixpoint sched (M : list Z) (extra : nat) : list Z :=
  match extra with
  | O => rev M
  | S k => let l := sched M k in
           rotl 32 1 (Z.lxor (nth 2 l 0) (Z.lxor (nth 7 l 0) (Z.lxor (nth 13 l 0) (nth 15 l 0)))) :: l
  end.
Definition W (M : list Z) (t : nat) : Z := nth t (rev (sched M 64)) 0.

Definition st := (Z * Z * Z * Z * Z)%type.
Definition round (Wt : nat -> Z) (s : st) (t : nat) : st :=
  let '(a, b, c, d, e) := s in
  let T := addw 32 (addw 32 (addw 32 (addw 32 (rotl 32 5 a) (ft t b c d)) e) (Kt t)) (Wt t) in
  (T, a, rotl 32 30 b, c, d).

Definition block (h : st) (M : list Z) : st :=
  let '(h0, h1, h2, h3, h4) := h in
  let '(a, b, c, d, e) := fold_left (round (W (words_be 4 M))) (seq 0 80) h in
  (addw 32 a h0, addw 32 b h1, addw 32 c h2, addw 32 d h3, addw 32 e h4).

(** Section 5.3.1. *)
Definition init : st :=
  (le_val [0x01; 0x23; 0x45; 0x67], le_val [0x89; 0xab; 0xcd; 0xef],
   le_val [0xfe; 0xdc; 0xba; 0x98], le_val [0x76; 0x54; 0x32; 0x10],
   le_val [0xf0; 0xe1; 0xd2; 0xc3]).

Definition sha1 (m : list Z) : list Z :=
  let '(a, b, c, d, e) := fold_left block (chunks 64 (pad_be 64 8 m)) init in
  be_bytes 4 a ++ be_bytes 4 b ++ be_bytes 4 c ++ be_bytes 4 d ++ be_bytes 4 e.
