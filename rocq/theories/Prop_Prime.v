(** Property theorems for the primality test and prime generation (C54 - C56). *)
From Coq Require Import Znumtheory.
From Verif Require Import Base BaseP S_Bignum S_Prime M_Bignum P_Bignum M_Mont P_Mont M_Random P_Random M_Prime P_Fermat P_Prime P_MR.
Open Scope Z_scope.

(** ** C54 *)
(** What the answer means: for a number from 7920 on, that it is odd and passes the strong
    test for each of the first 1000 primes; it is always given. *)
Theorem C54_meaning : forall n num, (0 < n)%nat -> bits_of n < 2 ^ 64 -> bn n num -> 7920 <= val num ->
  exists b, is_probably_prime n num = Ok b /\
    (b = true <-> Z.odd (val num) = true /\ forall p, prime p -> p <= 7919 -> strong_probable_prime (val num) p).
Proof.
  intros n num Hn HB Hnum L. destruct (Z.odd (val num)) eqn:O.
  - destruct (large_ok n num Hn HB Hnum L O) as (b & E & H). exists b; split; [exact E|]. rewrite H. split.
    + intros K; split; [reflexivity|]. intros p P Lp. apply K, table_exact; [lia | exact P].
    + intros [_ K] a I. apply K; [apply table_exact; [|exact I] | ]; pose proof primes_bound a I; lia.
  - exists false; split; [apply even_ok; assumption|]. split; [discriminate | intros [C _]; discriminate C].
Qed.
Print Assumptions C54_meaning.
Theorem C54_primes_accepted : forall n num, (0 < n)%nat -> bits_of n < 2 ^ 64 -> bn n num -> prime (val num) -> is_probably_prime n num = Ok true.
Proof.
  intros n num Hn HB Hnum P. destruct (Z.lt_ge_cases (val num) 7920) as [L|L].
  - rewrite small_ok by assumption. f_equal. apply existsb_exists. exists (val num); split; [apply table_exact; [lia | exact P] | apply Z.eqb_refl].
  - destruct (C54_meaning n num Hn HB Hnum L) as (b & E & H). rewrite E. f_equal. apply H. split.
    + destruct (Z.odd (val num)) eqn:O; [reflexivity|exfalso]. assert (D2 : (2 | val num)) by (apply Z.mod_divide; [lia | rewrite Zmod_odd, O; reflexivity]).
      apply prime_div_prime in D2; [lia | exact prime_2 | exact P].
    + intros p Pp Lp. apply prime_strong; [exact P | lia|]. intros D. pose proof (prime_ge_2 p Pp). apply Z.divide_pos_le in D; lia.
Qed.
Print Assumptions C54_primes_accepted.

Lemma prime_65537 : prime 65537. Proof. apply (prime_trial 65537 257); [lia | change (Z.of_nat 257) with 257; lia | vm_compute; reflexivity]. Qed.
Example C54_case : is_probably_prime 2 [65537; 0] = Ok true.
Proof. apply C54_primes_accepted; [lia | lia | split; [reflexivity | repeat constructor; lia] | exact prime_65537]. Qed.

(** ** C55 *)
Theorem C55_small_factor : forall n num q, (0 < n)%nat -> bits_of n < 2 ^ 64 -> bn n num -> prime q -> q <= 7919 -> (q | val num) -> val num <> q ->
  is_probably_prime n num = Ok false.
Proof.
  intros n num q Hn HB Hnum P L D N. pose proof (prime_ge_2 q P) as Q2. destruct (Z.lt_ge_cases (val num) 7920) as [S|S].
  - rewrite small_ok by assumption. f_equal. destruct (existsb (Z.eqb (val num)) primes) eqn:E; [exfalso|reflexivity].
    apply existsb_exists in E. destruct E as (x & I & E). apply Z.eqb_eq in E; subst x. apply table_prime in I. apply prime_div_prime in D; [congruence | exact P | exact I].
  - destruct (C54_meaning n num Hn HB Hnum S) as (b & E & H). rewrite E. destruct b; [exfalso|reflexivity]. destruct (proj1 H eq_refl) as [_ K].
    apply (base_divides (val num) q); [lia | lia | exact D | apply K; assumption].
Qed.
Print Assumptions C55_small_factor.
(** The answer is exact below the square of the first prime that is not in the table. *)
Theorem C55_exact : forall n num, (0 < n)%nat -> bits_of n < 2 ^ 64 -> bn n num -> val num < 7927 * 7927 ->
  exists b, is_probably_prime n num = Ok b /\ (b = true <-> prime (val num)).
Proof.
  intros n num Hn HB Hnum L. destruct (prime_dec (val num)) as [P|NP]; [exists true; split; [apply C54_primes_accepted; assumption | tauto]|].
  exists false. split; [|split; [discriminate | contradiction]]. destruct (Z.lt_ge_cases (val num) 7920) as [S|S].
  - rewrite small_ok by assumption. f_equal. destruct (existsb (Z.eqb (val num)) primes) eqn:E; [exfalso|reflexivity].
    apply existsb_exists in E. destruct E as (x & I & E). apply Z.eqb_eq in E; subst x. apply NP, table_prime, I.
  - destruct (small_factor (val num) ltac:(lia) NP) as (q & Pq & Dq & Sq). pose proof (prime_ge_2 q Pq).
    assert (Lq : q < 7927) by nia. apply (C55_small_factor n num q Hn HB Hnum Pq); [|exact Dq | intros E; apply NP; rewrite E; exact Pq].
    apply (table_exact q Lq) in Pq. apply primes_bound in Pq. lia.
Qed.
Print Assumptions C55_exact.
(** 3215031751 = 151 * 751 * 28351 passes the strong test for the bases 2, 3, 5 and 7. *)
Example C55_case : is_probably_prime 1 [3215031751] = Ok false /\ is_probably_prime 1 [7920 * 7920 - 1] = Ok false.
Proof.
  split.
  - apply (C55_small_factor 1 [3215031751] 751); [lia | lia | split; [reflexivity | repeat constructor; lia] | | lia | exists 4281001; reflexivity | cbn [val]; lia].
    apply (prime_trial 751 28); [lia | lia | vm_compute; reflexivity].
  - apply (C55_small_factor 1 [7920 * 7920 - 1] 7919); [lia | lia | split; [reflexivity | repeat constructor; lia] | | lia | exists 7921; reflexivity | cbn [val]; lia].
    apply (prime_trial 7919 90); [lia | change (Z.of_nat 90) with 90; lia | vm_compute; reflexivity].
Qed.

(** ** C56 *)
Lemma set_bit_bits n l i : bn n l -> 0 <= i < 32 * Z.of_nat n ->
  exists r, set_bit l i = Ok r /\ bn n r /\ forall j, 0 <= j -> Z.testbit (val r) j = Z.testbit (val l) j || (j =? i).
Proof.
  intros Hl Hi. destruct (set_bit_ok n l i Hl Hi) as (r & E & Hr & V). exists r; split; [exact E|]; split; [exact Hr|]. intros j Hj. rewrite V, Z.lor_spec, Z.pow2_bits_eqb by lia. rewrite Z.eqb_sym; reflexivity.
Qed.
Lemma fill_bn n s : exists s' c, bignum_random (bits_of n) s = Ok (s', c) /\ bn n c.
Proof.
  unfold bignum_random, zero_words. rewrite nwords_mult, Nat2Z.id. destruct (fill_ok 2 32 s (repeat 0 n) ltac:(lia) ltac:(lia)) as (out & E & L & N).
  eexists; exists out; split; [exact E|]. rewrite repeat_length in *. split; [exact L|]. apply Forall_forall. intros x I. apply (In_nth _ _ 0) in I. destruct I as (j & Hj & <-).
  rewrite N by lia. apply Z.mod_pos_bound; lia.
Qed.
(** Whatever is returned, whenever something is: a number of the full width that is odd, has
    its two top bits set in strict mode, and that the primality test accepts. *)
Theorem C56_result : forall fuel n strict s s' p, (0 < n)%nat -> random_prime fuel n strict s = Ok (s', p) ->
  bn n p /\ Z.odd (val p) = true /\ 2 ^ (bits_of n - 1) <= val p < 2 ^ bits_of n /\
  (strict = true -> 3 * 2 ^ (bits_of n - 2) <= val p) /\ is_probably_prime n p = Ok true.
Proof.
  intros fuel n strict s s' p Hn. revert s. induction fuel as [|f IH]; intros s E; [discriminate E|]. cbn [random_prime] in E.
  destruct (fill_bn n s) as (s1 & c0 & E0 & H0). rewrite E0 in E; cbn [bind] in E.
  destruct (set_bit_bits n c0 0 H0 ltac:(lia)) as (c1 & E1 & H1 & B1). rewrite E1 in E; cbn [bind] in E.
  destruct (set_bit_bits n c1 (bits_of n - 1) H1 ltac:(lia)) as (c2 & E2 & H2 & B2). rewrite E2 in E; cbn [bind] in E.
  assert (K : exists c, (if strict then set_bit c2 (bits_of n - 2) else Ok c2) = Ok c /\ bn n c /\ Z.testbit (val c) 0 = true /\ Z.testbit (val c) (bits_of n - 1) = true /\ (strict = true -> Z.testbit (val c) (bits_of n - 2) = true)).
  { destruct strict.
    - destruct (set_bit_bits n c2 (bits_of n - 2) H2 ltac:(lia)) as (c3 & E3 & H3 & B3). exists c3. split; [exact E3|]; split; [exact H3|].
      rewrite !B3, !B2, !B1 by lia. rewrite !Z.eqb_refl, !orb_true_r. repeat split.
    - exists c2. split; [reflexivity|]; split; [exact H2|]. rewrite !B2, !B1 by lia. rewrite !Z.eqb_refl, !orb_true_r. repeat split. discriminate. }
  destruct K as (c & E3 & Hc & T0 & T1 & T2). rewrite E3 in E; cbn [bind] in E. destruct (is_probably_prime n c) as [[]| | |] eqn:EP; cbn [bind] in E; try discriminate E; [|apply (IH s1 E)].
  injection E as _ <-. split; [exact Hc|]. split; [rewrite <- Z.bit0_odd; exact T0|]. pose proof (bn_range _ _ Hc) as R. split; [|split; [|exact EP]].
  - split; [|apply R]. destruct (Z.lt_ge_cases (val c) (2 ^ (bits_of n - 1))) as [L|L]; [exfalso|exact L]. rewrite (testbit_high (val c) (bits_of n - 1)) in T1 by lia. discriminate T1.
  - intros S. specialize (T2 S). clear - R T1 T2 Hn.
    set (b := bits_of n) in *. assert (Hb : 2 <= b) by (unfold b; lia). clearbody b.
    destruct (Z.lt_ge_cases (val c) (3 * 2 ^ (b - 2))) as [L|L]; [exfalso|exact L].
    assert (P1 : 2 ^ (b - 1) = 2 * 2 ^ (b - 2)) by (rewrite <- Z.pow_succ_r by lia; f_equal; lia).
    destruct (Z.lt_ge_cases (val c) (2 ^ (b - 1))) as [L1|L1]; [rewrite (testbit_high (val c) (b - 1)) in T1 by lia; discriminate T1|].
    rewrite Z.testbit_odd, Z.shiftr_div_pow2 in T2 by lia. pose proof (Z.pow_pos_nonneg 2 (b - 2) ltac:(lia) ltac:(lia)).
    replace (val c / 2 ^ (b - 2)) with 2 in T2 by (apply Z.div_unique with (val c - 2 * 2 ^ (b - 2)); lia). discriminate T2.
Qed.
Print Assumptions C56_result.
(** So no returned number has a factor below 7920. *)
Theorem C56_no_small_factor : forall fuel n strict s s' p q, (0 < n)%nat -> bits_of n < 2 ^ 64 -> random_prime fuel n strict s = Ok (s', p) ->
  prime q -> q <= 7919 -> ~ (q | val p).
Proof.
  intros fuel n strict s s' p q Hn HB E Pq Lq D. destruct (C56_result fuel n strict s s' p Hn E) as (Hp & _ & [R _] & _ & T).
  assert (2 ^ 31 <= 2 ^ (bits_of n - 1)) by (apply Z.pow_le_mono_r; lia).
  rewrite (C55_small_factor n p q Hn HB Hp Pq Lq D ltac:(lia)) in T. discriminate T.
Qed.
Print Assumptions C56_no_small_factor.
(** Two strict primes multiply to a modulus of the full double width. *)
Theorem C56_strict_product : forall f1 f2 n s1 s1' s2 s2' p q, (0 < n)%nat ->
  random_prime f1 n true s1 = Ok (s1', p) -> random_prime f2 n true s2 = Ok (s2', q) ->
  2 ^ (2 * bits_of n - 1) <= val p * val q < 2 ^ (2 * bits_of n).
Proof.
  intros f1 f2 n s1 s1' s2 s2' p q Hn E1 E2. destruct (C56_result _ _ _ _ _ _ Hn E1) as (_ & _ & [_ U1] & L1 & _), (C56_result _ _ _ _ _ _ Hn E2) as (_ & _ & [_ U2] & L2 & _).
  specialize (L1 eq_refl); specialize (L2 eq_refl). set (b := bits_of n) in *. assert (Hb : 2 <= b) by (unfold b; lia). clearbody b.
  replace (2 * b - 1) with (3 + (b - 2) + (b - 2)) by ring. rewrite !Z.pow_add_r by lia. replace (2 * b) with (b + b) by ring. rewrite Z.pow_add_r by lia. change (2 ^ 3) with 8.
  pose proof (Z.pow_pos_nonneg 2 (b - 2) ltac:(lia) ltac:(lia)). pose proof (Z.pow_pos_nonneg 2 b ltac:(lia) ltac:(lia)). split; [nia|]. apply Z.mul_lt_mono_nonneg; nia.
Qed.
Print Assumptions C56_strict_product.

(** The first 32-bit prime of every process: the fifth candidate.  The test is not run here;
    its answers follow from the theorems above. *)
Definition first_prime : Z := 2555471531.
Lemma first_prime_prime : prime first_prime.
Proof.
  apply (pocklington first_prime [(219731, 2)]).
  - cbn [map fst]. constructor; [|constructor]. apply (prime_trial 219731 470); [lia | change (Z.of_nat 470) with 470; lia | vm_compute; reflexivity].
  - repeat constructor; cbn [In map fst]; intuition lia.
  - vm_compute; reflexivity.
Qed.
Theorem C52_prime_refuted : exists s, random_prime 5 1 false fresh_rng = Ok (s, [first_prime]).
Proof.
  assert (R : forall c q, 0 <= c < 2 ^ 32 -> prime q -> q <= 7919 -> (q | c) -> c <> q -> is_probably_prime 1 [c] = Ok false).
  { intros c q Hc P L D N. apply (C55_small_factor 1 [c] q); try assumption; [lia | lia | split; [reflexivity | repeat constructor; lia] | cbn [val]; rewrite Z.add_0_r; exact D | cbn [val]; lia]. }
  assert (P3 : prime 3) by (apply (prime_trial 3 2); [lia | lia | reflexivity]). assert (P7 : prime 7) by (apply (prime_trial 7 3); [lia | lia | reflexivity]).
  pose proof (R 4160036503 7 ltac:(lia) P7 ltac:(lia) ltac:(exists (4160036503 / 7); reflexivity) ltac:(lia)) as R1.
  pose proof (R 4267047861 3 ltac:(lia) P3 ltac:(lia) ltac:(exists (4267047861 / 3); reflexivity) ltac:(lia)) as R2.
  pose proof (R 3282940551 3 ltac:(lia) P3 ltac:(lia) ltac:(exists (3282940551 / 3); reflexivity) ltac:(lia)) as R3.
  pose proof (R 3248458923 3 ltac:(lia) P3 ltac:(lia) ltac:(exists (3248458923 / 3); reflexivity) ltac:(lia)) as R4.
  assert (R5 : is_probably_prime 1 [first_prime] = Ok true).
  { apply C54_primes_accepted; [lia | lia | split; [reflexivity | repeat constructor; unfold first_prime; lia] | cbn [val]; rewrite Z.add_0_r; exact first_prime_prime]. }
  assert (STEP : forall f s s1 c, (do sc <- bignum_random (bits_of 1) s; let '(s', c0) := sc in do c1 <- set_bit c0 0; do c2 <- set_bit c1 (bits_of 1 - 1); Ok (s', c2)) = Ok (s1, c) ->
    random_prime (S f) 1 false s = (do ok <- is_probably_prime 1 c; if ok then Ok (s1, c) else random_prime f 1 false s1)).
  { intros f s s1 c E. cbn [random_prime]. destruct (bignum_random (bits_of 1) s) as [[s' c0]| | |]; cbn [bind] in E |- *; try discriminate E.
    destruct (set_bit c0 0) as [c1| | |]; cbn [bind] in E |- *; try discriminate E. destruct (set_bit c1 (bits_of 1 - 1)) as [c2| | |]; cbn [bind] in E |- *; try discriminate E.
    injection E as -> ->. reflexivity. }
  eexists. erewrite STEP by (vm_compute; reflexivity). rewrite R1; cbn [bind]. erewrite STEP by (vm_compute; reflexivity). rewrite R2; cbn [bind].
  erewrite STEP by (vm_compute; reflexivity). rewrite R3; cbn [bind]. erewrite STEP by (vm_compute; reflexivity). rewrite R4; cbn [bind].
  erewrite STEP by (vm_compute; reflexivity). change 2555471531 with first_prime. rewrite R5; cbn [bind]. reflexivity.
Qed.
Print Assumptions C52_prime_refuted.
Example C56_case : exists s p, random_prime 5 1 false fresh_rng = Ok (s, p) /\ Z.odd (val p) = true /\ 2 ^ 31 <= val p.
Proof. destruct C52_prime_refuted as [s E]. exists s, [first_prime]; split; [exact E|]; split; [reflexivity | unfold first_prime; cbn [val]; lia]. Qed.
