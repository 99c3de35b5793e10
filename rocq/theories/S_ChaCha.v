(** ChaCha20 as defined by RFC 8439 sections 2.1 - 2.4. *)
From Verif Require Import Base S_Word.

(** Section 2.1. *)
Definition quarter (q : Z * Z * Z * Z) : Z * Z * Z * Z :=
  let '(a, b, c, d) := q in
  let a := addw 32 a b in let d := rotl 32 16 (Z.lxor d a) in
  let c := addw 32 c d in let b := rotl 32 12 (Z.lxor b c) in
  let a := addw 32 a b in let d := rotl 32 8 (Z.lxor d a) in
  let c := addw 32 c d in let b := rotl 32 7 (Z.lxor b c) in
  (a, b, c, d).

(** Section 2.2: QUARTERROUND(x, y, z, w) on a state of sixteen words. *)
Definition quarterround (x y z w : nat) (s : list Z) : list Z :=
  let '(a, b, c, d) := quarter (nth x s 0, nth y s 0, nth z s 0, nth w s 0) in
  upd (upd (upd (upd s x a) y b) z c) w d.

(** Section 2.3. *)
Definition inner_block (s : list Z) : list Z :=
  let s := quarterround 0 4 8 12 s in
  let s := quarterround 1 5 9 13 s in
  let s := quarterround 2 6 10 14 s in
  let s := quarterround 3 7 11 15 s in
  let s := quarterround 0 5 10 15 s in
  let s := quarterround 1 6 11 12 s in
  let s := quarterround 2 7 8 13 s in
  quarterround 3 4 9 14 s.

Definition words_le (l : list Z) : list Z := map le_val (chunks 4 l).

Definition initial_state (key : list Z) (counter : Z) (nonce : list Z) : list Z :=
  [0x61707865; 0x3320646e; 0x79622d32; 0x6b206574] ++ words_le key ++ [counter] ++ words_le nonce.

Definition chacha20_block (key : list Z) (counter : Z) (nonce : list Z) : list Z :=
  let s := initial_state key counter nonce in
  let w := Nat.iter 10 inner_block s in
  concat (map (le_bytes 4) (map2 (addw 32) w s)).

(** Section 2.4.1: the j-th 64-byte piece is XORed with the block for counter + j. *)
Fixpoint encrypt_blocks (key : list Z) (counter : Z) (nonce : list Z) (pieces : list (list Z)) : list Z :=
  match pieces with
  | [] => []
  | p :: rest => xorl p (chacha20_block key counter nonce) ++ encrypt_blocks key (counter + 1) nonce rest
  end.
Definition chacha20_encrypt (key : list Z) (counter : Z) (nonce plaintext : list Z) : list Z :=
  encrypt_blocks key counter nonce (chunks 64 plaintext).
