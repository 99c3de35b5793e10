(** Merkle-Damgaard padding as written in the standards, and histories of a hash object. *)
From Verif Require Import Base.

(** FIPS 180-4 section 5.1 / RFC 1321 section 3.1-3.2, for byte messages: append the bit 1
    (byte 0x80), then the least number of zero bytes that makes message, marker and an
    [L]-byte length field fill whole blocks of [B] bytes, then the length in bits. *)
Definition zero_bytes (B L len : Z) : nat := Z.to_nat ((- (len + 1 + L)) mod B).
Definition pad_be (B : Z) (L : nat) (m : list Z) : list Z :=
  m ++ [0x80] ++ repeat 0 (zero_bytes B (Z.of_nat L) (zlen m)) ++ be_bytes L (8 * zlen m).
Definition pad_le (B : Z) (L : nat) (m : list Z) : list Z :=
  m ++ [0x80] ++ repeat 0 (zero_bytes B (Z.of_nat L) (zlen m)) ++ le_bytes L (8 * zlen m).

(** The words of a block: [sz] bytes each, big or little endian. *)
Definition words_be (sz : nat) (block : list Z) : list Z := map be_val (chunks sz block).
Definition words_le (sz : nat) (block : list Z) : list Z := map le_val (chunks sz block).

(** The padding fills whole blocks. *)
Lemma zero_bytes_fills B L len : 0 < B -> 0 <= L -> 0 <= len ->
  (B | len + 1 + Z.of_nat (zero_bytes B L len) + L) /\ Z.of_nat (zero_bytes B L len) < B.
Proof.
  intros HB HL Hlen; unfold zero_bytes.
  pose proof (Z.mod_pos_bound (- (len + 1 + L)) B HB) as R.
  rewrite Z2Nat.id by lia; split; [|lia].
  exists (- (- (len + 1 + L) / B)).
  pose proof (Z.div_mod (- (len + 1 + L)) B ltac:(lia)); nia.
Qed.

(** A history of a hash object: bytes are added or the digest is read. *)
Inductive hop := HAdd (d : list Z) | HRead.

(** What an observer of an ideal hash object for [H] sees. *)
Fixpoint ideal_run (H : list Z -> list Z) (sofar : list Z) (ops : list hop) : list (list Z) :=
  match ops with
  | [] => []
  | HAdd d :: t => ideal_run H (sofar ++ d) t
  | HRead :: t => H sofar :: ideal_run H sofar t
  end.

Fixpoint added (ops : list hop) : list Z :=
  match ops with
  | [] => []
  | HAdd d :: t => d ++ added t
  | HRead :: t => added t
  end.

(** A real object with [add] and a const [digest]. *)
Fixpoint obj_run {St} (add : St -> list Z -> res St) (digest : St -> res (list Z))
    (s : St) (ops : list hop) : res (list (list Z)) :=
  match ops with
  | [] => Ok []
  | HAdd d :: t => do s' <- add s d; obj_run add digest s' t
  | HRead :: t => do x <- digest s; do r <- obj_run add digest s t; Ok (x :: r)
  end.
