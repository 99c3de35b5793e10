(** RFC 8017: MGF1 (B.2.1), EMSA-PSS (9.1), EMSA-PKCS1-v1_5 (9.2). *)
From Verif Require Import Base S_Hash.
Open Scope Z_scope.

(** I2OSP and OS2IP are [be_bytes] and [be_val]. *)

(** B.2.1: the first L bytes of H(seed | 0) | H(seed | 1) | ..., counters of four bytes. *)
Definition mgf1 (H : list Z -> list Z) (hLen : Z) (seed : list Z) (L : Z) : list Z :=
  let N := Z.to_nat ((L + hLen - 1) / hLen) in
  firstn (Z.to_nat L) (flat_map (fun i => H (seed ++ be_bytes 4 (Z.of_nat i))) (seq 0 N)).

(** 9.1.1 for emBits = 8 * emLen - 1: one leftmost bit is cleared. *)
Definition clear_top (l : list Z) : list Z :=
  match l with [] => [] | x :: r => x mod 128 :: r end.
Definition emsa_pss (H : list Z -> list Z) (hLen : Z) (mHash salt : list Z) (emLen : Z) : list Z :=
  let hm := H (repeat 0 8 ++ mHash ++ salt) in
  let db := repeat 0 (Z.to_nat (emLen - zlen salt - hLen - 2)) ++ [1] ++ salt in
  clear_top (xorl db (mgf1 H hLen hm (emLen - hLen - 1))) ++ hm ++ [0xbc].

(** 9.2: 00 01 FF...FF 00 T with T the DigestInfo. *)
Definition emsa_pkcs1 (T : list Z) (emLen : Z) : list Z :=
  [0; 1] ++ repeat 255 (Z.to_nat (emLen - zlen T - 3)) ++ [0] ++ T.

(** X.690: definite length in the minimal form. *)
Fixpoint minimal_be (fuel : nat) (n : Z) : list Z :=
  match fuel with
  | O => []
  | S k => if n =? 0 then [] else minimal_be k (n / 256) ++ [n mod 256]
  end.
Definition der_length (n : Z) : list Z :=
  if n <? 128 then [n] else let b := minimal_be 8 n in (128 + zlen b) :: b.
Definition der_sequence (content : list Z) : list Z := 0x30 :: der_length (zlen content) ++ content.
