(** Property theorems for the random generator (C51 - C53). *)
From Verif Require Import Base BaseP S_Bignum M_Bignum P_Bignum M_Random P_Random.
Open Scope Z_scope.

(** ** C51 *)
(** [after k s] is the state after k draws, [value k s] the k-th value drawn.  A container of
    w-bit elements, [per] of them per 64-bit value: element j is the (j mod per)-th w-bit digit
    of value j / per, and the draws stop with the value that holds the last element. *)
Definition filled (per : nat) (w : Z) (s : rng) (target : list Z) (r : res (rng * list Z)) : Prop :=
  exists out, r = Ok (after (calls (length target) per) s, out) /\ length out = length target /\
    forall j, (j < length target)%nat -> nth j out 0 = (value (j / per) s / 2 ^ (w * Z.of_nat (j mod per))) mod 2 ^ w.
Theorem C51_fill : forall s target,
  filled 8 8 s target (generate_random8 s target) /\ filled 4 16 s target (generate_random16 s target) /\ filled 2 32 s target (generate_random32 s target) /\
  generate_random64 s target = Ok (after (length target) s, map (fun k => value k s) (seq 0 (length target))).
Proof.
  intros s target. repeat split; [apply (fill_ok 8 8); lia | apply (fill_ok 4 16); lia | apply (fill_ok 2 32); lia|].
  apply (fill64_ok (length target) 0 s [] target eq_refl (Nat.le_refl _)).
Qed.
Print Assumptions C51_fill.
(** Nothing of the old content survives. *)
Theorem C51_independent : forall s t1 t2, length t1 = length t2 ->
  generate_random8 s t1 = generate_random8 s t2 /\ generate_random16 s t1 = generate_random16 s t2 /\
  generate_random32 s t1 = generate_random32 s t2 /\ generate_random64 s t1 = generate_random64 s t2.
Proof.
  intros s t1 t2 L. destruct (C51_fill s t1) as (A8 & A16 & A32 & A64), (C51_fill s t2) as (B8 & B16 & B32 & B64).
  assert (K : forall per w r1 r2, filled per w s t1 r1 -> filled per w s t2 r2 -> r1 = r2).
  { intros per w r1 r2 (o1 & -> & L1 & E1) (o2 & -> & L2 & E2). rewrite L. do 2 f_equal. apply nth_ext with 0 0; [congruence|]. intros j Hj. rewrite E1, E2 by lia; reflexivity. }
  split; [eapply K; eassumption|]; split; [eapply K; eassumption|]; split; [eapply K; eassumption|]. rewrite A64, B64, L; reflexivity.
Qed.
Print Assumptions C51_independent.
(** Values queued for tests are used first, last in first out; five bytes take one value. *)
Example C51_case : generate_random8 (Rng [0x0807060504030201; 7] 5) [0; 0; 0; 0; 0] = Ok (Rng [7] 5, [1; 2; 3; 4; 5]) /\
  generate_random16 (Rng [0x0807060504030201; 9] 5) [0; 0; 0; 0; 0] = Ok (Rng [] 5, [0x0201; 0x0403; 0x0605; 0x0807; 9]).
Proof. split; vm_compute; reflexivity. Qed.

(** ** C52 *)
(** Finding: nothing that differs between two runs enters the generator.  A first key of 16
    bytes is the same in every process, whatever the container held. *)
Definition first_key : list Z := [150; 30; 245; 119; 83; 66; 83; 81; 180; 251; 85; 126; 213; 168; 31; 228].
Theorem C52_unpredictable_refuted : forall target, length target = 16%nat ->
  exists s, generate_random8 fresh_rng target = Ok (s, first_key).
Proof. intros target L. destruct (C51_independent fresh_rng target (repeat 0 16) L) as (-> & _). eexists. vm_compute. reflexivity. Qed.
Print Assumptions C52_unpredictable_refuted.
(** The state can also be run backwards: whoever learns it knows every value drawn before. *)
Definition lcg_back (c : Z) : Z := (13877824140714322085 * (c - 1442695040888963407)) mod 2 ^ 64.
Theorem C52_backwards_refuted : forall c, 0 <= c < 2 ^ 64 -> lcg_back (lcg c) = c.
Proof.
  intros c Hc. unfold lcg_back. rewrite lcg_aff. unfold aff. rewrite Z.mul_mod, Zminus_mod, Z.mod_mod, <- Zminus_mod, <- Z.mul_mod by lia.
  replace (13877824140714322085 * (lcg_A * c + lcg_C - 1442695040888963407)) with (c + (4787856489426250814 * c) * 2 ^ 64).
  - rewrite Z.mod_add by lia. apply Z.mod_small; exact Hc.
  - unfold lcg_A, lcg_C. ring.
Qed.
Print Assumptions C52_backwards_refuted.
Example C52_case : exists s, generate_random64 fresh_rng [0; 0] = Ok (s, [0x5153425377f51e96; 0xe41fa8d57e55fbb4]) /\ lcg_back (lcg (cval fresh_rng)) = cval fresh_rng.
Proof. eexists; split; vm_compute; reflexivity. Qed.

(** ** C53 *)
(** The internal state repeats exactly after 2^64 steps, and reaches every 64-bit value. *)
Theorem C53_period : forall c, 0 <= c < 2 ^ 64 ->
  (forall k j, iter k lcg c = iter j lcg c <-> Z.of_nat k mod 2 ^ 64 = Z.of_nat j mod 2 ^ 64) /\
  (forall y, 0 <= y < 2 ^ 64 -> exists k, 0 <= k < 2 ^ 64 /\ iter (Z.to_nat k) lcg c = y).
Proof. intros c Hc; split; [intros; apply lcg_iff, Hc | intros; apply lcg_reach; assumption]. Qed.
Print Assumptions C53_period.

Lemma after_state : forall k s, tests s = [] -> tests (after k s) = [] /\ cval (after k s) = iter (2 * k) lcg (cval s).
Proof.
  induction k as [|k IH]; intros s T; [split; [exact T | reflexivity]|]. rewrite after_S. unfold generate_random_value. rewrite T. cbn [snd].
  destruct (IH (Rng [] (lcg (lcg (cval s)))) eq_refl) as [IH1 IH2]. split; [exact IH1|]. rewrite IH2. replace (2 * S k)%nat with (S (S (2 * k))) by lia. reflexivity.
Qed.
Lemma value_state k s : tests s = [] -> value k s = fst (generate_random_value (Rng [] (iter (2 * k) lcg (cval s)))).
Proof.
  intros T. unfold value. destruct (after_state k s T) as [A B]. destruct (after k s) as [ts c]; cbn [tests cval] in *. subst; reflexivity.
Qed.
Lemma top_bit k s : tests s = [] -> Z.testbit (value k s) 63 = Z.testbit (iter (2 * k + 1) lcg (cval s)) 63.
Proof.
  intros T. rewrite value_state by exact T. unfold generate_random_value; cbn [tests cval fst]. rewrite Z.lor_spec, !Z.land_spec.
  replace (Z.testbit 0xffffffff 63) with false by reflexivity. replace (Z.testbit 0xffffffff00000000 63) with true by reflexivity.
  rewrite andb_true_r, andb_false_r, orb_false_r. rewrite iter_add. reflexivity.
Qed.
(** Each call makes two steps, so the values themselves repeat exactly after 2^63 calls. *)
Theorem C53_values : forall s, tests s = [] -> 0 <= cval s < 2 ^ 64 -> forall p,
  (forall k, value (k + p) s = value k s) <-> Z.of_nat p mod 2 ^ 63 = 0.
Proof.
  intros s T Hc. assert (FULL : forall q k, value (k + q * 2 ^ 63) s = value k s).
  { intros q k. rewrite !value_state by exact T. do 3 f_equal. apply lcg_iff; [exact Hc|]. rewrite !Nat2Z.inj_mul, Nat2Z.inj_add, Nat2Z.inj_mul, pow_nat.
    change (Z.of_nat 63) with 63; change (Z.of_nat 2) with 2. replace (2 * (Z.of_nat k + Z.of_nat q * 2 ^ 63)) with (2 * Z.of_nat k + Z.of_nat q * 2 ^ 64) by lia. apply Z.mod_add; lia. }
  assert (HALF : forall k, value (k + 2 ^ 62) s <> value k s).
  { intros k E. apply (f_equal (fun v => Z.testbit v 63)) in E. rewrite !top_bit in E by exact T.
    replace (2 * (k + 2 ^ 62) + 1)%nat with ((2 * k + 1) + Z.to_nat (2 ^ 63))%nat in E.
    2:{ apply Nat2Z.inj. rewrite !Nat2Z.inj_add, !Nat2Z.inj_mul, Nat2Z.inj_add, Z2Nat.id, pow_nat by lia. change (Z.of_nat 62) with 62; change (Z.of_nat 2) with 2. lia. }
    rewrite iter_add, lcg_half in E by (apply iter_lcg_range, Hc). set (z := iter (2 * k + 1) lcg (cval s)) in *.
    assert (Hz : 0 <= z < 2 ^ 64) by (apply iter_lcg_range, Hc). clearbody z.
    rewrite !Z.testbit_odd, !Z.shiftr_div_pow2 in E by lia. destruct (Z.lt_ge_cases z (2 ^ 63)) as [C|C].
    - rewrite (Z.mod_small (z + 2 ^ 63)) in E by lia. replace (z + 2 ^ 63) with (z + 1 * 2 ^ 63) in E by ring. rewrite Z.div_add, (Z.div_small z) in E by lia. discriminate E.
    - replace ((z + 2 ^ 63) mod 2 ^ 64) with (z - 2 ^ 63) in E by (apply Z.mod_unique with 1; lia). rewrite (Z.div_small (z - 2 ^ 63)) in E by lia.
      replace (z / 2 ^ 63) with 1 in E by (apply Z.div_unique with (z - 2 ^ 63); lia). discriminate E. }
  intros p. split.
  - intros P. destruct p as [|p]; [reflexivity|]. destruct (twos_nat (S p) ltac:(lia)) as (j & c & E). destruct (Nat.le_gt_cases 63 j) as [C|C].
    + rewrite E, Nat2Z.inj_mul, pow_nat. replace (Z.of_nat j) with (63 + (Z.of_nat j - 63)) by lia. rewrite Z.pow_add_r by lia.
      replace (Z.of_nat (2 * c + 1) * (2 ^ 63 * 2 ^ (Z.of_nat j - 63))) with (Z.of_nat (2 * c + 1) * 2 ^ (Z.of_nat j - 63) * 2 ^ 63) by ring. apply Z.mod_mul; lia.
    + exfalso. assert (MULT : forall m k, value (k + m * S p) s = value k s).
      { induction m as [|m IH]; intros k; [f_equal; lia|]. replace (k + S m * S p)%nat with ((k + m * S p) + S p)%nat by lia. rewrite P. apply IH. }
      apply (HALF 0%nat). rewrite <- (MULT (2 ^ (62 - j))%nat 0%nat). rewrite <- (FULL c (0 + 2 ^ 62)%nat). f_equal. rewrite E.
      replace (2 ^ (62 - j) * ((2 * c + 1) * 2 ^ j))%nat with ((2 * c + 1) * (2 ^ ((62 - j) + j)))%nat by (rewrite Nat.pow_add_r; lia).
      replace (62 - j + j)%nat with 62%nat by lia. replace (2 ^ 63)%nat with (2 * 2 ^ 62)%nat by (rewrite <- Nat.pow_succ_r'; reflexivity). set (P62 := (2 ^ 62)%nat). clearbody P62. lia.
  - intros M k. apply Z.mod_divide in M; [|lia]. destruct M as [q M]. assert (0 <= q) by lia.
    replace p with (Z.to_nat q * 2 ^ 63)%nat; [apply FULL|]. apply Nat2Z.inj. rewrite Nat2Z.inj_mul, pow_nat, Z2Nat.id by lia. change (Z.of_nat 63) with 63. lia.
Qed.
Print Assumptions C53_values.
Example C53_case : tests fresh_rng = [] /\ 0 <= cval fresh_rng < 2 ^ 64 /\ iter 3 lcg (cval fresh_rng) <> cval fresh_rng.
Proof. split; [reflexivity|]; split; [split; vm_compute; congruence | vm_compute; discriminate]. Qed.
