(** CRC-32 (IEEE 802.3), bit-serial reflected definition. *)
From Verif Require Import Base.

(** One clock of the reflected shift register with feedback polynomial 0xEDB88320
    (x^32+x^26+x^23+x^22+x^16+x^12+x^11+x^10+x^8+x^7+x^5+x^4+x^2+x+1). *)
Definition clock (s : Z) (bit : bool) : Z :=
  let x := Z.lxor s (Z.b2z bit) in
  if Z.odd x then Z.lxor (x / 2) 0xEDB88320 else x / 2.

(** Bits of a message, least significant bit of each byte first. *)
Definition byte_bits (b : Z) : list bool := map (fun i => Z.testbit b (Z.of_nat i)) (seq 0 8).
Definition msg_bits (m : list Z) : list bool := flat_map byte_bits m.

Definition crc32 (m : list Z) : Z :=
  Z.lxor (fold_left clock (msg_bits m) 0xFFFFFFFF) 0xFFFFFFFF.
