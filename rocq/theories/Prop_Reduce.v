(** Property C44 again: what naive_reduce returns for every number and modulus. *)
From Verif Require Import Base BaseP S_Bignum M_Bignum P_Bignum.
Open Scope Z_scope.

Lemma reduce_loop_val n p : 0 < p -> forall k c s, bn n c -> bn n s -> val s = p * 2 ^ Z.of_nat k ->
  bn n (reduce_loop (S k) c s) /\ val (reduce_loop (S k) c s) = val c - p * Z.min (val c / p) (2 ^ (Z.of_nat k + 1) - 1).
Proof.
  intros Hp; induction k as [|k IH]; intros c s Hc Hs VS; cbn [reduce_loop];
    pose proof (sub_val n c s Hc Hs) as H; destruct (sub c s) as [o c2]; cbn [fst snd] in H; destruct H as (H2 & V2 & O);
    pose proof (bn_range n c Hc) as Rc; pose proof (bn_range n s Hs) as Rs.
  - change (2 ^ Z.of_nat 0) with 1 in VS. change (2 ^ (Z.of_nat 0 + 1) - 1) with 1. cbn [reduce_loop]. destruct (Z.ltb_spec (val c) (val s)) as [L|L]; rewrite O.
    + split; [exact Hc|]. rewrite Z.div_small by lia. lia.
    + split; [exact H2|]. rewrite V2, Z.mod_small by lia. rewrite Z.min_r by (apply Z.div_le_lower_bound; lia). lia.
  - replace (Z.of_nat (S k)) with (Z.of_nat k + 1) in * by lia. destruct (shr1_ok n s Hs) as [H3 V3].
    rewrite (Z.pow_add_r 2 (Z.of_nat k + 1) 1) by lia. set (q := 2 ^ (Z.of_nat k + 1)) in *. change (2 ^ 1) with 2.
    assert (QE : q = 2 ^ Z.of_nat k * 2) by (unfold q; rewrite Z.pow_add_r by lia; reflexivity). assert (Q0 : 0 < q) by (unfold q; apply Z.pow_pos_nonneg; lia).
    assert (V3' : val (shr1 s) = p * 2 ^ Z.of_nat k) by (rewrite V3, VS, QE, Z.mul_assoc; apply Z.div_mul; lia).
    destruct (Z.ltb_spec (val c) (val s)) as [L|L]; rewrite O.
    + destruct (IH c (shr1 s) Hc H3 V3') as [H4 V4]. split; [exact H4|]. cbn [reduce_loop] in V4. rewrite V4.
      assert (D : val c / p < q) by (apply Z.div_lt_upper_bound; lia). rewrite !Z.min_l by lia. reflexivity.
    + rewrite Z.mod_small in V2 by lia. destruct (IH c2 (shr1 s) H2 H3 V3') as [H4 V4]. split; [exact H4|]. cbn [reduce_loop] in V4. rewrite V4, V2, VS.
      replace (val c - p * q) with (val c + (- q) * p) by ring. rewrite Z.div_add by lia. assert (D : q <= val c / p) by (apply Z.div_le_lower_bound; lia).
      replace (Z.min (val c / p) (q * 2 - 1)) with (Z.min (val c / p + - q) (q - 1) + q) by lia. ring.
Qed.

(** The number of 32-bit words a number needs. *)
Definition words_needed (x : Z) : Z := Z.log2 x / 32 + 1.
(** One multiple of the modulus is taken off per bit position, starting from the modulus moved up by
    as many words as fit.  So the quotient is cut off at 2^(32 s + 1) - 1, s being that number of words. *)
Theorem C44_exactly : forall k n this p, bn n this -> bn k p -> (k <= n)%nat -> 0 < val p ->
  exists r, naive_reduce (32 * Z.of_nat k) (32 * Z.of_nat n) this p = Ok r /\ bn k r /\
    let s := Z.of_nat n - words_needed (val p) in
    val r = (val this - val p * Z.min (val this / val p) (2 ^ (32 * s + 1) - 1)) mod 2 ^ (32 * Z.of_nat k).
Proof.
  intros k n this p Ht Hp HK HP. cbv zeta. unfold naive_reduce. rewrite (bn_length n this Ht). assert (HN : nwords (32 * Z.of_nat n) = Z.of_nat n) by apply nwords_mult.
  destruct (convert_up k (32 * Z.of_nat n) n p Hp HN ltac:(lia)) as [Hc VC]. pose proof (bn_range k p Hp) as RP.
  destruct n as [|n]; [assert (k = 0%nat) by lia; subst k; change (2 ^ (32 * Z.of_nat 0)) with 1 in RP; lia|].
  destruct (normalise_ok n (S n) (convert (32 * Z.of_nat k) (32 * Z.of_nat (S n)) p) 0 Hc) as (j & s & E & Hs & VS & G).
  { rewrite VC. pose proof (pow_S n). pose proof (pow_pos n). nia. }
  rewrite E; cbn [bind fst snd]. rewrite VC in VS.
  replace (Z.to_nat ((0 + Z.of_nat j) * 32 + 1)) with (S (32 * j)) by lia.
  destruct (reduce_loop_val (S n) (val p) HP (32 * j) this s Ht Hs) as [Hr VR]; [rewrite VS; do 2 f_equal; lia|].
  destruct (convert_down k (32 * Z.of_nat (S n)) (S n) _ Hr HN ltac:(lia)) as [Hd VD]. eexists; split; [reflexivity|]; split; [exact Hd|]. rewrite VD, VR. do 5 f_equal.
  assert (J : Z.log2 (val p) / 32 = Z.of_nat n - Z.of_nat j).
  { pose proof (bn_range _ _ Hs) as RS. rewrite VS in G, RS. assert (L : Z.log2 (val p * 2 ^ (32 * Z.of_nat j)) = 32 * Z.of_nat j + Z.log2 (val p)) by (rewrite Z.log2_mul_pow2 by lia; reflexivity).
    assert (L1 : 32 * Z.of_nat n <= Z.log2 (val p * 2 ^ (32 * Z.of_nat j))) by (apply Z.log2_le_pow2; lia).
    assert (L2 : Z.log2 (val p * 2 ^ (32 * Z.of_nat j)) < 32 * Z.of_nat (S n)) by (apply Z.log2_lt_pow2; lia). rewrite L in L1, L2.
    symmetry. apply Z.div_unique with (Z.log2 (val p) - 32 * (Z.of_nat n - Z.of_nat j)); lia. }
  unfold words_needed. rewrite J. f_equal. lia.
Qed.
Print Assumptions C44_exactly.
(** So the remainder is right for every number below 2^(32 s + 1) times the modulus ... *)
Theorem C44_right : forall k n this p, bn n this -> bn k p -> (k <= n)%nat -> 0 < val p -> val this < 2 ^ (32 * (Z.of_nat n - words_needed (val p)) + 1) * val p ->
  exists r, naive_reduce (32 * Z.of_nat k) (32 * Z.of_nat n) this p = Ok r /\ val r = val this mod val p.
Proof.
  intros k n this p Ht Hp HK HP L. destruct (C44_exactly k n this p Ht Hp HK HP) as (r & E & _ & V). cbv zeta in V. exists r. split; [exact E|]. rewrite V. assert (D : val this / val p < 2 ^ (32 * (Z.of_nat n - words_needed (val p)) + 1)) by (apply Z.div_lt_upper_bound; lia).
  rewrite Z.min_l by lia. rewrite <- Z.mod_eq by lia. pose proof (Z.mod_pos_bound (val this) (val p) HP). pose proof (bn_range k p Hp). apply Z.mod_small. lia.
Qed.
(** ... and above, whenever the result fits its width, too large by a positive multiple of it. *)
Theorem C44_wrong : forall k n this p, bn n this -> bn k p -> (k <= n)%nat -> 0 < val p -> let m := 2 ^ (32 * (Z.of_nat n - words_needed (val p)) + 1) in m * val p <= val this -> val this - val p * (m - 1) < 2 ^ (32 * Z.of_nat k) ->
  exists r, naive_reduce (32 * Z.of_nat k) (32 * Z.of_nat n) this p = Ok r /\ val r = val this - val p * (m - 1) /\ val p <= val r.
Proof.
  intros k n this p Ht Hp HK HP m L F. destruct (C44_exactly k n this p Ht Hp HK HP) as (r & E & _ & V). cbv zeta in V. fold m in V. exists r. split; [exact E|].
  assert (D : m <= val this / val p) by (apply Z.div_le_lower_bound; lia). rewrite Z.min_r, Z.mod_small in V by lia. split; [exact V | lia].
Qed.
Print Assumptions C44_wrong.
Example C44_exact_case : bn 2 [0xffffffff; 0xffffffff] /\ bn 1 [3] /\ naive_reduce 32 64 [0xffffffff; 0xffffffff] [3] = Ok [2] /\ (2 ^ 64 - 1 - 3 * Z.min ((2 ^ 64 - 1) / 3) (2 ^ (32 * (2 - words_needed 3) + 1) - 1)) mod 2 ^ 32 = 2 /\ (2 ^ 64 - 1) mod 3 = 0.
Proof. repeat split; repeat constructor; vm_compute; congruence. Qed.
