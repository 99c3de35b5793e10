(** C15: the constant tables have the origin the standards give them. *)
From Coq Require Import Reals Znumtheory.
From Verif Require Import Base BaseP S_Word S_Const P_Const P_Sine.
From Verif Require M_MD M_MD5 S_MD5 M_SHA1 M_SHA2 S_SHA2 P_SHA2 M_SHA3 S_SHA3 P_SHA3.
Open Scope Z_scope.

(** The lists of primes used below are exactly the primes, in increasing order. *)
Theorem C15_primes : forall n, increasing (primes_below n) /\
  (forall p, In p (primes_below n) <-> prime p /\ p < Z.of_nat n).
Proof. intros n; split; [apply primes_below_inc | apply primes_below_spec]. Qed.
Print Assumptions C15_primes.

Lemma primes_small n : (n <= 4096)%nat -> forall i, 0 <= nth i (primes_below n) 0 < 4096.
Proof.
  intros Hn i; destruct (nth_in_or_default i (primes_below n) 0) as [H|H]; [|rewrite H; lia].
  apply primes_below_spec in H; destruct H as [HP HL]; pose proof (prime_ge_2 _ HP); lia.
Qed.

(** SHA-256 and SHA-512 round constants: first 32/64 bits of the fractional parts of the cube
    roots of the first 64/80 primes. *)
Theorem C15_sha256_K : length M_SHA2.K_256 = 64%nat /\ length (primes_below 312) = 64%nat /\
  forall i, (i < 64)%nat -> root_bits 3 32 (nth i (primes_below 312) 0) (nth i M_SHA2.K_256 0).
Proof.
  rewrite P_SHA2.K256_eq; unfold S_SHA2.K32.
  assert (L : length (primes_below 312) = 64%nat) by (vm_compute; reflexivity).
  rewrite map_length; split; [exact L|]; split; [exact L|]; intros i Hi.
  rewrite (nth_indep (map (frac_cbrt 32) _) 0 (frac_cbrt 32 0)) by (rewrite map_length, L; exact Hi).
  rewrite map_nth; apply frac_cbrt_bits; [lia | apply primes_small; lia].
Qed.
Print Assumptions C15_sha256_K.

Theorem C15_sha512_K : length M_SHA2.K_512 = 80%nat /\ length (primes_below 410) = 80%nat /\
  forall i, (i < 80)%nat -> root_bits 3 64 (nth i (primes_below 410) 0) (nth i M_SHA2.K_512 0).
Proof.
  rewrite P_SHA2.K512_eq; unfold S_SHA2.K64.
  assert (L : length (primes_below 410) = 80%nat) by (vm_compute; reflexivity).
  rewrite map_length; split; [exact L|]; split; [exact L|]; intros i Hi.
  rewrite (nth_indep (map (frac_cbrt 64) _) 0 (frac_cbrt 64 0)) by (rewrite map_length, L; exact Hi).
  rewrite map_nth; apply frac_cbrt_bits; [lia | apply primes_small; lia].
Qed.
Print Assumptions C15_sha512_K.

(** Initial values: square roots of the first eight primes (SHA-256, SHA-512), of the ninth to
    sixteenth (SHA-384), and the second 32 bits of the latter (SHA-224). *)
Theorem C15_sha2_iv : forall g i, (i < 8)%nat ->
  root_bits 2 32 (nth i (primes_below 54) 0) (nth i (M_MD.h_words (M_SHA2.sha256_init g)) 0) /\
  root_bits 2 64 (nth i (primes_below 54) 0) (nth i (M_MD.h_words (M_SHA2.sha512_init g)) 0) /\
  root_bits 2 64 (nth (8 + i) (primes_below 54) 0) (nth i (M_MD.h_words (M_SHA2.sha384_init g)) 0) /\
  (exists v, root_bits 2 64 (nth (8 + i) (primes_below 54) 0) v /\
             nth i (M_MD.h_words (M_SHA2.sha224_init g)) 0 = v mod 2 ^ 32).
Proof.
  intros g i Hi.
  assert (E : nth i (M_MD.h_words (M_SHA2.sha256_init g)) 0 = frac_sqrt 32 (nth i (primes_below 54) 0) /\
              nth i (M_MD.h_words (M_SHA2.sha512_init g)) 0 = frac_sqrt 64 (nth i (primes_below 54) 0) /\
              nth i (M_MD.h_words (M_SHA2.sha384_init g)) 0 = frac_sqrt 64 (nth (8 + i) (primes_below 54) 0) /\
              nth i (M_MD.h_words (M_SHA2.sha224_init g)) 0 = frac_sqrt 64 (nth (8 + i) (primes_below 54) 0) mod 2 ^ 32).
  { do 8 (destruct i as [|i]; [repeat split; vm_compute; reflexivity|]); lia. }
  destruct E as (E1 & E2 & E3 & E4); rewrite E1, E2, E3, E4.
  pose proof (primes_small 54 ltac:(lia) i); pose proof (primes_small 54 ltac:(lia) (8 + i)).
  split; [apply frac_sqrt_bits; lia|]; split; [apply frac_sqrt_bits; lia|]; split; [apply frac_sqrt_bits; lia|].
  eexists; split; [apply frac_sqrt_bits; lia | reflexivity].
Qed.
Print Assumptions C15_sha2_iv.

Example C15_case : nth 0 M_SHA2.K_256 0 = 0x428a2f98 /\ nth 0 (primes_below 312) 0 = 2
  /\ (0x1428a2f98 ^ 3 <= 2 * 2 ^ 96 < 0x1428a2f99 ^ 3).
Proof. vm_compute; repeat split; discriminate. Qed.

(** Keccak round constants: the LFSR of FIPS 202 algorithm 5. *)
Theorem C15_keccak_RC : forall ir z, (ir < 24)%nat -> (z < 64)%nat ->
  Z.testbit (nth ir M_SHA3.sha3_RC 0) (Z.of_nat z) = S_SHA3.RC ir z.
Proof. exact P_SHA3.sha3_RC_spec. Qed.
Print Assumptions C15_keccak_RC.

(** Keccak rotation offsets and lane order: the in-place walk moves lane (x + 3y mod 5, x) to
    (x, y), rotated left by the offset of FIPS 202 algorithm 2. *)
Theorem C15_keccak_rho_pi : forall s x y z, length s = 25%nat -> Forall (word 64) s ->
  (x < 5)%nat -> (y < 5)%nat -> (z < 64)%nat ->
  Z.testbit (M_SHA3.lane (M_SHA3.rho_pi s) (5 * y + x)) (Z.of_nat z)
  = Z.testbit (M_SHA3.lane s (5 * x + (x + 3 * y) mod 5))
      (Z.of_nat ((z + 64 - S_SHA3.rho_offset ((x + 3 * y) mod 5) x mod 64) mod 64)).
Proof.
  intros s x y z L F Hx Hy Hz.
  rewrite (P_SHA3.rho_pi_lane s (5 * y + x) _ _ L ltac:(lia) (P_SHA3.rp_tbl_spec x y Hx Hy)).
  apply P_SHA3.rp_lane_bit; [exact F | | exact Hz].
  exact (P_SHA3.rp_tbl_lt _ _ _ (P_SHA3.rp_tbl_spec x y Hx Hy)).
Qed.
Print Assumptions C15_keccak_rho_pi.

(** MD5 sine table: T[i] = floor(2^32 |sin i|), i = 1 .. 64 in radians. *)
Theorem C15_md5_sines : forall i, (i < 64)%nat ->
  (IZR (nth i M_MD5.md5_K 0%Z) <= IZR (2 ^ 32) * Rabs (sin (INR (S i))) < IZR (nth i M_MD5.md5_K 0%Z) + 1)%R.
Proof. apply table_fits_ok; vm_compute; reflexivity. Qed.
Print Assumptions C15_md5_sines.

