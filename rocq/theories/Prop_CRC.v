(** Property theorems for CRC-32 (C05, C06). *)
From Verif Require Import Base BaseP M_CRC S_CRC P_CRC.

(** C05: any split into add() calls gives the big-endian IEEE 802.3 CRC-32. *)
Theorem C05_crc32_is_ieee : forall pieces : list (list Z), Forall bytes pieces ->
  crc_digest (fold_left crc_add pieces crc_init) = be_bytes 4 (crc32 (concat pieces)).
Proof. exact crc_stream. Qed.
Print Assumptions C05_crc32_is_ieee.

(** "123456789" has the published check value 0xCBF43926. *)
Example C05_case : crc_digest (fold_left crc_add [[49; 50; 51]; []; [52; 53; 54; 55; 56; 57]] crc_init)
  = [0xcb; 0xf4; 0x39; 0x26] /\ crc32 [49; 50; 51; 52; 53; 54; 55; 56; 57] = 0xcbf43926.
Proof. split; vm_compute; reflexivity. Qed.

(** C06: messages that differ only inside 32 consecutive bits have different CRCs. *)
Theorem C06_crc32_detects_bursts : forall (m1 m2 : list Z) (pre w1 w2 post : list bool),
  bytes m1 -> bytes m2 ->
  msg_bits m1 = pre ++ w1 ++ post -> msg_bits m2 = pre ++ w2 ++ post ->
  length w1 = length w2 -> (length w1 <= 32)%nat -> w1 <> w2 ->
  crc_digest (crc_add crc_init m1) <> crc_digest (crc_add crc_init m2).
Proof. exact crc_digest_burst. Qed.
Print Assumptions C06_crc32_detects_bursts.

Example C06_case : msg_bits [1; 2; 3] = msg_bits [1] ++ msg_bits [2] ++ msg_bits [3] /\
  msg_bits [1; 7; 3] = msg_bits [1] ++ msg_bits [7] ++ msg_bits [3] /\ msg_bits [2] <> msg_bits [7].
Proof. vm_compute; repeat split; discriminate. Qed.
