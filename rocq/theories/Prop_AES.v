(** Property theorems for AES (C24, C25). *)
From Verif Require Import Base BaseP S_AES M_AES P_AES.
Open Scope Z_scope.

(** ** C24 *)
Theorem C24_aes128 : forall garbage key block, length key = 16%nat -> bytes key -> length block = 16%nat -> bytes block ->
  exists rks, sched128 garbage key = Ok rks /\ AesEncrypt rks block = Cipher 4 key block.
Proof.
  intros garbage key b LK BK LB BB. destruct (sched128_ok garbage key LK BK) as (rks & E & L & F & W). exists rks; split; [exact E|].
  unfold Cipher. apply (AesEncrypt_ok rks (KeyExpansion 4 10 key) b 10 F); [split; assumption | exact L | lia | exact W].
Qed.
Print Assumptions C24_aes128.
Theorem C24_aes256 : forall key block, length key = 32%nat -> bytes key -> length block = 16%nat -> bytes block ->
  exists rks, sched256 key = Ok rks /\ AesEncrypt rks block = Cipher 8 key block.
Proof.
  intros key b LK BK LB BB. destruct (sched256_ok key LK BK) as (rks & E & L & F & W). exists rks; split; [exact E|].
  unfold Cipher. apply (AesEncrypt_ok rks (KeyExpansion 8 14 key) b 14 F); [split; assumption | exact L | lia | exact W].
Qed.
Print Assumptions C24_aes256.
(** The round keys are the expanded key. *)
Theorem C24_key_expansion128 : forall garbage key, length key = 16%nat -> bytes key ->
  exists rks, sched128 garbage key = Ok rks /\ length rks = 11%nat /\
    forall n c, (n < 11)%nat -> (c < 4)%nat -> firstn 4 (skipn (4 * c) (nth n rks [])) = nth (4 * n + c) (KeyExpansion 4 10 key) [].
Proof.
  intros garbage key LK BK. destruct (sched128_ok garbage key LK BK) as (rks & E & L & F & W). exists rks; split; [exact E|]; split; [exact L|].
  intros n c Hn Hc. rewrite W by lia. reflexivity.
Qed.
Print Assumptions C24_key_expansion128.
Theorem C24_key_expansion256 : forall key, length key = 32%nat -> bytes key ->
  exists rks, sched256 key = Ok rks /\ length rks = 15%nat /\
    forall n c, (n < 15)%nat -> (c < 4)%nat -> firstn 4 (skipn (4 * c) (nth n rks [])) = nth (4 * n + c) (KeyExpansion 8 14 key) [].
Proof.
  intros key LK BK. destruct (sched256_ok key LK BK) as (rks & E & L & F & W). exists rks; split; [exact E|]; split; [exact L|].
  intros n c Hn Hc. rewrite W by lia. reflexivity.
Qed.
Print Assumptions C24_key_expansion256.
(** The specification's S-box inverse is an inverse. *)
Theorem C24_field_inverse : forall b, 0 <= b < 256 -> b <> 0 -> gf b (gfinv b) = 1.
Proof. exact gfinv_ok. Qed.
Print Assumptions C24_field_inverse.
(** Keys of the wrong size are not rejected: the memory accesses leave the buffers. *)
Theorem C24_short_key256 : forall key, zlen key < 32 -> sched256 key = UB.
Proof.
  intros key H. unfold sched256, slice. destruct ((0 <=? 0) && (0 <=? 16) && (0 + 16 <=? zlen key)); [|reflexivity]. cbn [bind].
  replace (16 + 16 <=? zlen key) with false by lia. reflexivity.
Qed.
Print Assumptions C24_short_key256.
Theorem C24_long_key128 : forall garbage key, 176 < zlen key -> sched128 garbage key = UB.
Proof. intros garbage key H. unfold sched128. replace (176 <? zlen key) with true by lia. reflexivity. Qed.
Print Assumptions C24_long_key128.
(** FIPS-197 appendix C.1 and C.3. *)
Definition fips_key (n : nat) : list Z := map Z.of_nat (seq 0 n).
Definition fips_block : list Z := [0x00; 0x11; 0x22; 0x33; 0x44; 0x55; 0x66; 0x77; 0x88; 0x99; 0xaa; 0xbb; 0xcc; 0xdd; 0xee; 0xff].
Example C24_case128 : (do rks <- sched128 [] (fips_key 16); Ok (AesEncrypt rks fips_block)) =
  Ok [0x69; 0xc4; 0xe0; 0xd8; 0x6a; 0x7b; 0x04; 0x30; 0xd8; 0xcd; 0xb7; 0x80; 0x70; 0xb4; 0xc5; 0x5a].
Proof. vm_compute; reflexivity. Qed.
Example C24_case256 : (do rks <- sched256 (fips_key 32); Ok (AesEncrypt rks fips_block)) =
  Ok [0x8e; 0xa2; 0xb7; 0xca; 0x51; 0x67; 0x45; 0xbf; 0xea; 0xfc; 0x49; 0x90; 0x4b; 0x49; 0x60; 0x89].
Proof. vm_compute; reflexivity. Qed.

(** ** C25 *)
Definition permutation_of_blocks (f : list Z -> list Z) : Prop :=
  (forall v, length v = 16%nat -> bytes v -> length (f v) = 16%nat /\ bytes (f v)) /\
  (forall u v, length u = 16%nat -> bytes u -> length v = 16%nat -> bytes v -> f u = f v -> u = v) /\
  (forall c, length c = 16%nat -> bytes c -> exists v, length v = 16%nat /\ bytes v /\ f v = c).
Lemma blocks_permutation rks : Forall block rks -> permutation_of_blocks (AesEncrypt rks).
Proof.
  intros F. split; [|split].
  - intros v L B. apply AesDecrypt_ok; [exact F | split; assumption].
  - intros u v Lu Bu Lv Bv E. destruct (AesDecrypt_ok rks u F (conj Lu Bu)) as [<- _]. rewrite E. apply AesDecrypt_ok; [exact F | split; assumption].
  - intros c L B. destruct (AesEncrypt_Decrypt rks c F (conj L B)) as [E [L' B']]. exists (AesDecrypt rks c); auto.
Qed.
Theorem C25_permutation128 : forall garbage key, length key = 16%nat -> bytes key ->
  exists rks, sched128 garbage key = Ok rks /\ permutation_of_blocks (AesEncrypt rks).
Proof. intros garbage key LK BK. destruct (sched128_ok garbage key LK BK) as (rks & E & _ & F & _). exists rks; split; [exact E | apply blocks_permutation, F]. Qed.
Print Assumptions C25_permutation128.
Theorem C25_permutation256 : forall key, length key = 32%nat -> bytes key ->
  exists rks, sched256 key = Ok rks /\ permutation_of_blocks (AesEncrypt rks).
Proof. intros key LK BK. destruct (sched256_ok key LK BK) as (rks & E & _ & F & _). exists rks; split; [exact E | apply blocks_permutation, F]. Qed.
Print Assumptions C25_permutation256.
Example C25_case : length (fips_key 16) = 16%nat /\ bytes (fips_key 16) /\ length (fips_key 32) = 32%nat /\ bytes (fips_key 32).
Proof. split; [reflexivity|]. split; [apply bytesb_iff; reflexivity|]. split; [reflexivity | apply bytesb_iff; reflexivity]. Qed.
