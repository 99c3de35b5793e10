(** Property C140: the primes one program generates are different. *)
From Coq Require Import Znumtheory.
From Verif Require Import Base BaseP S_Bignum M_Bignum P_Bignum M_Mont P_Mont M_Random P_Random Prop_Random Prop_Predict M_Prime P_Prime Prop_Prime M_X25519 Prop_X25519 Prop_Space.
Open Scope Z_scope.

(** Bit 32 j + i of a bignum is bit i of word j. *)
Lemma word_bit n l : bn n l -> forall j i, 0 <= i < 32 -> (j < n)%nat -> Z.testbit (val l) (32 * Z.of_nat j + i) = Z.testbit (nth j l 0) i.
Proof.
  intros B j i I J. rewrite (val_testbit n) by (exact B || lia). replace ((32 * Z.of_nat j + i) / 32) with (Z.of_nat j) by (apply Z.div_unique with i; lia).
  replace ((32 * Z.of_nat j + i) mod 32) with i by (apply Z.mod_unique with (Z.of_nat j); lia). rewrite Nat2Z.id. reflexivity.
Qed.
(** The candidate drawn in state s has the bits of the values drawn. *)
Lemma candidate_bits n s s' c : bignum_random (bits_of n) s = Ok (s', c) -> bn n c /\ s' = after (calls n 2) s /\
  forall k i, 0 <= i < 64 -> 64 * Z.of_nat k + i < bits_of n -> Z.testbit (val c) (64 * Z.of_nat k + i) = Z.testbit (value k s) i.
Proof.
  intros G. destruct (fill_bn n s) as (s1 & c1 & G1 & B). rewrite G in G1. injection G1 as <- <-. split; [exact B|]. unfold bignum_random, zero_words in G. rewrite nwords_mult, Nat2Z.id in G.
  destruct (C51_fill s (repeat 0 n)) as (_ & _ & (o & E & LO & F) & _). rewrite G in E. injection E as Es <-. rewrite repeat_length in *. split; [exact Es|].
  intros k i I H. assert (W : exists j i', 0 <= i' < 32 /\ (j < 2)%nat /\ i = 32 * Z.of_nat j + i').
  { destruct (Z.lt_ge_cases i 32); [exists 0%nat, i | exists 1%nat, (i - 32)]; repeat split; lia. }
  destruct W as (j & i' & I' & J & ->). replace (64 * Z.of_nat k + (32 * Z.of_nat j + i')) with (32 * Z.of_nat (k * 2 + j) + i') by lia. rewrite (word_bit n c B) by lia. rewrite F by lia.
  replace ((k * 2 + j) / 2)%nat with k by (apply Nat.div_unique with j; lia). replace ((k * 2 + j) mod 2)%nat with j by (apply Nat.mod_unique with k; lia).
  rewrite Z.mod_pow2_bits_low, Z.div_pow2_bits by lia. f_equal. lia.
Qed.
(** What is returned has them too, but for the lowest bit and the two highest. *)
Lemma prime_bits n strict : (0 < n)%nat -> forall fuel s s' p, random_prime fuel n strict s = Ok (s', p) -> exists j, (j < fuel)%nat /\ s' = after (S j * calls n 2) s /\
  forall k i, 0 <= i < 64 -> 1 <= 64 * Z.of_nat k + i < bits_of n - 2 -> Z.testbit (val p) (64 * Z.of_nat k + i) = Z.testbit (value k (after (j * calls n 2) s)) i.
Proof.
  intros Hn. induction fuel as [|f IH]; intros s s' p E; [discriminate E|]. cbn [random_prime] in E.
  destruct (bignum_random (bits_of n) s) as [[s1 c0]| | |] eqn:E0; cbn [bind] in E; try discriminate E. destruct (candidate_bits _ _ _ _ E0) as (H0 & S1 & B0).
  destruct (set_bit_bits n c0 0 H0 ltac:(lia)) as (c1 & E1 & H1 & B1). rewrite E1 in E; cbn [bind] in E.
  destruct (set_bit_bits n c1 (bits_of n - 1) H1 ltac:(lia)) as (c2 & E2 & H2 & B2). rewrite E2 in E; cbn [bind] in E.
  assert (K : exists c, (if strict then set_bit c2 (bits_of n - 2) else Ok c2) = Ok c /\ forall i, 1 <= i < bits_of n - 2 -> Z.testbit (val c) i = Z.testbit (val c0) i).
  { assert (B12 : forall i, 1 <= i < bits_of n - 2 -> Z.testbit (val c2) i = Z.testbit (val c0) i) by (intros i I; rewrite B2, B1 by lia; replace (i =? 0) with false by lia; replace (i =? bits_of n - 1) with false by lia; rewrite !orb_false_r; reflexivity).
    destruct strict; [|exists c2; split; [reflexivity | exact B12]]. destruct (set_bit_bits n c2 (bits_of n - 2) H2 ltac:(lia)) as (c3 & E3 & H3 & B3). exists c3. split; [exact E3|].
    intros i I. rewrite B3, B12 by lia. replace (i =? bits_of n - 2) with false by lia. apply orb_false_r. }
  destruct K as (c & E3 & B3). rewrite E3 in E; cbn [bind] in E. destruct (is_probably_prime n c) as [[]| | |]; cbn [bind] in E; try discriminate E.
  - injection E as <- <-. exists 0%nat. split; [lia|]. split; [rewrite Nat.mul_1_l; exact S1|]. intros k i I H. rewrite B3, B0 by lia. reflexivity.
  - destruct (IH s1 s' p E) as (j & J & S' & B). exists (S j). split; [lia|]. subst s1. unfold after in *. rewrite <- iter_add in S'. split; [rewrite S'; reflexivity|].
    intros k i I H. rewrite B by assumption. unfold value, after. rewrite <- !iter_add. rewrite (Nat.add_assoc (calls n 2)). reflexivity.
Qed.

(** No two successive values come again within 2^63 draws. *)
Lemma never_again s a b k : seeded s -> (a < b)%nat -> Z.of_nat b - Z.of_nat a < 2 ^ 63 ->
  value k (after a s) = value k (after b s) -> value (S k) (after a s) = value (S k) (after b s) -> False.
Proof.
  intros [T R] AB D V0 V1. set (A := after a s) in *. set (B := after b s) in *. destruct (after_state a s T) as [TA CA]. fold A in TA, CA. destruct (after_state b s T) as [TB CB]. fold B in TB, CB.
  assert (ST : after k A = after k B).
  { destruct (after_state k A TA) as [T1 C1]. destruct (after_state k B TB) as [T2 C2].
    assert (RR : forall j x, 0 <= x < 2 ^ 64 -> 0 <= iter j lcg x < 2 ^ 64) by (intros j x X; apply iter_lcg_range, X).
    assert (SV : forall r, value 1 (after k r) = value (S k) r) by (intros r; unfold value, after; rewrite <- iter_add, Nat.add_1_r; reflexivity).
    apply C131_determined; [exact T1 | exact T2 | rewrite C1, CA; apply RR, RR, R | rewrite C2, CB; apply RR, RR, R | exact V0 | rewrite !SV; f_equal; exact V1]. }
  apply (f_equal cval) in ST. rewrite (proj2 (after_state k A TA)), (proj2 (after_state k B TB)), CA, CB in ST. rewrite <- !iter_add in ST. apply (proj1 (C53_period _ R)) in ST.
  assert (M : (2 * (Z.of_nat b - Z.of_nat a)) mod 2 ^ 64 = 0).
  { replace (2 * (Z.of_nat b - Z.of_nat a)) with (Z.of_nat (2 * b + 2 * k) - Z.of_nat (2 * a + 2 * k)) by lia. rewrite Zminus_mod, ST, Z.sub_diag. reflexivity. }
  rewrite Z.mod_small in M; lia.
Qed.
Lemma same_value k A B : tests A = [] -> tests B = [] -> (forall i, 0 <= i < 64 -> Z.testbit (value k A) i = Z.testbit (value k B) i) -> value k A = value k B.
Proof.
  intros TA TB H. apply Z.bits_inj'. intros i I. destruct (Z.lt_ge_cases i 64) as [L|L]; [apply H; lia|].
  rewrite <- (Z.mod_small (value k A) (2 ^ 64)), <- (Z.mod_small (value k B) (2 ^ 64)) by (apply value_range; assumption). rewrite !Z.mod_pow2_bits_high by lia. reflexivity.
Qed.

(** Two random numbers of 192 bits or more drawn from one generator, with m other values drawn between, differ in their bits
    64 to 191, so X25519 private keys made from them are different; ... *)
Theorem C140_numbers : forall n s s1 s2 m x y, (6 <= n)%nat -> seeded s -> bignum_random (bits_of n) s = Ok (s1, x) -> bignum_random (bits_of n) (after m s1) = Ok (s2, y) ->
  Z.of_nat m + Z.of_nat (calls n 2) < 2 ^ 63 -> (val x / 2 ^ 64) mod 2 ^ 128 <> (val y / 2 ^ 64) mod 2 ^ 128.
Proof.
  intros n s s1 s2 m x y Hn S X Y HM E. destruct (candidate_bits _ _ _ _ X) as (_ & S1 & BX). destruct (candidate_bits _ _ _ _ Y) as (_ & _ & BY). pose proof S as [T _].
  set (C := calls n 2) in *. assert (HC : (1 <= C)%nat) by (unfold C, calls; apply Nat.div_le_lower_bound; lia). clearbody C.
  assert (AS : after m s1 = after (C + m) s) by (rewrite S1; unfold after; rewrite <- iter_add; reflexivity). rewrite AS in BY.
  assert (V : forall k, (k = 1 \/ k = 2)%nat -> value k (after 0 s) = value k (after (C + m) s)).
  { intros k K. apply same_value; [exact T | apply after_state, T|]. intros i I. change (after 0 s) with s. rewrite <- BX, <- BY by lia.
    apply (f_equal (fun z => Z.testbit z (64 * Z.of_nat k + i - 64))) in E. rewrite !Z.mod_pow2_bits_low, !Z.div_pow2_bits in E by lia. replace (64 * Z.of_nat k + i - 64 + 64) with (64 * Z.of_nat k + i) in E by lia. exact E. }
  apply (never_again s 0 (C + m) 1 S); [lia | lia | apply V; lia | apply V; lia].
Qed.
Print Assumptions C140_numbers.
Theorem C140_private_keys : forall s s1 s2 m r r' k k', seeded s -> bignum_random 256 s = Ok (s1, r) -> bignum_random 256 (after m s1) = Ok (s2, r') ->
  random_private_key r = Ok k -> random_private_key r' = Ok k' -> Z.of_nat m + 4 < 2 ^ 63 -> val k <> val k'.
Proof.
  intros s s1 s2 m r r' k k' S X Y K K' HM E. change 256 with (bits_of 8) in X, Y. destruct (candidate_bits _ _ _ _ X) as (B & _). destruct (candidate_bits _ _ _ _ Y) as (B' & _).
  apply (C140_numbers 8 s s1 s2 m r r' ltac:(lia) S X Y HM). destruct (proj1 (C80_keys r r r r B B B B)) as (k1 & E1 & _ & _ & _ & H1 & _). rewrite K in E1. injection E1 as <-.
  destruct (proj1 (C80_keys r' r' r' r' B' B' B' B')) as (k2 & E2 & _ & _ & _ & H2 & _). rewrite K' in E2. injection E2 as <-.
  apply Z.bits_inj'. intros i I. destruct (Z.lt_ge_cases i 128) as [L|L]; [|rewrite !Z.mod_pow2_bits_high by lia; reflexivity].
  rewrite !Z.mod_pow2_bits_low, !Z.div_pow2_bits by lia. rewrite <- H1, <- H2 by lia. rewrite E. reflexivity.
Qed.
Print Assumptions C140_private_keys.
(** ... so do two primes, of 224 bits or more, however many candidates are tried. *)
Theorem C140_different : forall fuel fuel' n strict strict' s s1 s2 m p q, (7 <= n)%nat -> seeded s ->
  random_prime fuel n strict s = Ok (s1, p) -> random_prime fuel' n strict' (after m s1) = Ok (s2, q) ->
  Z.of_nat m + Z.of_nat fuel' * Z.of_nat (calls n 2) < 2 ^ 63 -> p <> q.
Proof.
  intros fuel fuel' n strict strict' s s1 s2 m p q Hn [T R] HP HQ HM E. subst q.
  destruct (prime_bits n strict ltac:(lia) fuel s s1 p HP) as (j & J & S1 & BP). destruct (prime_bits n strict' ltac:(lia) fuel' (after m s1) s2 p HQ) as (j' & J' & _ & BQ).
  set (C := calls n 2) in *. assert (HC : (1 <= C)%nat) by (unfold C, calls; apply Nat.div_le_lower_bound; lia). clearbody C.
  set (A := after (j * C) s) in *. set (B := after (j' * C) (after m s1)) in *.
  assert (BS : B = after (S j * C + m + j' * C) s) by (unfold B; rewrite S1; unfold after; rewrite <- !iter_add, Nat.add_assoc; reflexivity).
  destruct (after_state (j * C) s T) as [TA _]. fold A in TA. destruct (after_state (S j * C + m + j' * C) s T) as [TB _]. rewrite <- BS in TB.
  assert (V : forall k, (k = 1 \/ k = 2)%nat -> value k A = value k B) by (intros k K; apply same_value; [exact TA | exact TB|]; intros i I; rewrite <- BP, <- BQ by lia; reflexivity).
  rewrite BS in V. apply (never_again s (j * C) (S j * C + m + j' * C) 1 (conj T R)); [nia | nia | apply V; lia | apply V; lia].
Qed.
Print Assumptions C140_different.
(** So keys made from such primes have two different factors, and no two keys share one. *)
Corollary C140_coprime : forall fuel fuel' n strict strict' s s1 s2 m p q, (7 <= n)%nat -> seeded s ->
  random_prime fuel n strict s = Ok (s1, p) -> random_prime fuel' n strict' (after m s1) = Ok (s2, q) ->
  Z.of_nat m + Z.of_nat fuel' * Z.of_nat (calls n 2) < 2 ^ 63 -> prime (val p) -> prime (val q) -> Z.gcd (val p) (val q) = 1.
Proof.
  intros fuel fuel' n strict strict' s s1 s2 m p q Hn S HP HQ HM PP PQ. pose proof (C140_different _ _ _ _ _ _ _ _ _ _ _ Hn S HP HQ HM) as NE.
  destruct (C56_result fuel n strict s s1 p ltac:(lia) HP) as (Bp & _). destruct (C56_result fuel' n strict' (after m s1) s2 q ltac:(lia) HQ) as (Bq & _).
  apply Zgcd_1_rel_prime, prime_rel_prime; [exact PP|]. intros D. apply NE, (val_inj n); [exact Bp | exact Bq|]. apply prime_div_prime; assumption.
Qed.
Print Assumptions C140_coprime.
(** The numbers of two draws, and room for 2^20 candidates of 1024 bits.  That a call returns a prime is shown for 32 bits (C52_prime_refuted); for
    224 bits it is not computed here. *)
Definition number (s : rng) : list Z := match bignum_random 192 s with Ok (_, x) => x | _ => [] end.
Example C140_case : seeded fresh_rng /\ (exists s1, bignum_random 192 fresh_rng = Ok (s1, number fresh_rng) /\ exists s2, bignum_random 192 (after 2 s1) = Ok (s2, number (after 5 fresh_rng)) /\ number fresh_rng <> number (after 5 fresh_rng)) /\
  Z.of_nat 2 + Z.of_nat (calls 6 2) < 2 ^ 63 /\ 2 ^ 20 * Z.of_nat (calls 32 2) < 2 ^ 63.
Proof.
  split; [split; [reflexivity | cbn [fresh_rng cval]; lia]|]. split; [|split; vm_compute; reflexivity].
  eexists. split; [vm_compute; reflexivity|]. eexists. split; [vm_compute; reflexivity | vm_compute; discriminate].
Qed.
