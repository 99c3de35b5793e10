(** Carry-less arithmetic modulo x^128 + x^7 + x^2 + x + 1, and the multiplication of ghash.h. *)
From Coq Require Import Btauto.
From Verif Require Import Base BaseP M_GCM S_GCM.
Open Scope Z_scope.

Ltac bits := apply Z.bits_inj'; intros ?i ?Hi.
Ltac bxor := apply Z.bits_inj'; intros i _; rewrite ?Z.lxor_spec;
  repeat match goal with |- context [Z.testbit ?a ?i] => let b := fresh "b" in set (b := Z.testbit a i); clearbody b end; btauto.

(** * Carry-less products *)
Lemma clmul_lxor_l n a a' b : clmul n (Z.lxor a a') b = Z.lxor (clmul n a b) (clmul n a' b).
Proof.
  induction n as [|n IH]; [reflexivity|]; cbn [clmul]; rewrite IH, Z.lxor_spec.
  destruct (Z.testbit a (Z.of_nat n)), (Z.testbit a' (Z.of_nat n)); cbn [xorb]; rewrite ?Z.lxor_0_r; try reflexivity; bxor.
Qed.
Lemma clmul_lxor_r n a b b' : clmul n a (Z.lxor b b') = Z.lxor (clmul n a b) (clmul n a b').
Proof.
  induction n as [|n IH]; [reflexivity|]; cbn [clmul]; rewrite IH.
  destruct (Z.testbit a (Z.of_nat n)); rewrite ?Z.lxor_0_r; [rewrite Z.shiftl_lxor; bxor | reflexivity].
Qed.
Lemma clmul_shiftl_r n a b k : 0 <= k -> clmul n a (Z.shiftl b k) = Z.shiftl (clmul n a b) k.
Proof.
  intros Hk; induction n as [|n IH]; [cbn [clmul]; rewrite Z.shiftl_0_l; reflexivity|]; cbn [clmul]; rewrite IH, Z.shiftl_lxor; f_equal.
  destruct (Z.testbit a (Z.of_nat n)); [rewrite !Z.shiftl_shiftl by lia; f_equal; lia | rewrite Z.shiftl_0_l; reflexivity].
Qed.
Lemma clmul_0_l n b : clmul n 0 b = 0.
Proof. induction n as [|n IH]; [reflexivity|]; cbn [clmul]; rewrite IH, Z.testbit_0_l; reflexivity. Qed.
Lemma clmul_0_r n a : clmul n a 0 = 0.
Proof. induction n as [|n IH]; [reflexivity|]; cbn [clmul]; rewrite IH, Z.shiftl_0_l; destruct (Z.testbit a _); reflexivity. Qed.
Lemma clmul_extend k n a b : 0 <= a < 2 ^ Z.of_nat n -> clmul (k + n) a b = clmul n a b.
Proof.
  intros H; induction k as [|k IH]; [reflexivity|]; cbn [clmul plus]; rewrite IH.
  rewrite (testbit_high a (Z.of_nat n)) by lia; apply Z.lxor_0_r.
Qed.
Lemma clmul_more n m a b : 0 <= a < 2 ^ Z.of_nat n -> (n <= m)%nat -> clmul m a b = clmul n a b.
Proof. intros H L; replace m with ((m - n) + n)%nat by lia; apply clmul_extend; exact H. Qed.
Lemma clmul_shiftl_l n k a b : clmul (k + n) (Z.shiftl a (Z.of_nat k)) b = Z.shiftl (clmul n a b) (Z.of_nat k).
Proof.
  induction n as [|n IH].
  - cbn [clmul]; rewrite Z.shiftl_0_l, Nat.add_0_r.
    enough (H : forall j, (j <= k)%nat -> clmul j (Z.shiftl a (Z.of_nat k)) b = 0) by (apply H; lia).
    induction j as [|j IH]; intros L; [reflexivity|]; cbn [clmul]; rewrite IH by lia.
    rewrite Z.shiftl_spec, Z.testbit_neg_r by lia; reflexivity.
  - rewrite Nat.add_succ_r; cbn [clmul]; rewrite IH, Z.shiftl_lxor; f_equal.
    rewrite Z.shiftl_spec by lia; replace (Z.of_nat (k + n) - Z.of_nat k) with (Z.of_nat n) by lia.
    destruct (Z.testbit a (Z.of_nat n)); [rewrite Z.shiftl_shiftl by lia; f_equal; lia | rewrite Z.shiftl_0_l; reflexivity].
Qed.
Lemma shiftl_range b m k : 0 <= k -> 0 <= m -> 0 <= b < 2 ^ m -> 0 <= Z.shiftl b k < 2 ^ (m + k).
Proof. intros Hk Hm H; rewrite Z.shiftl_mul_pow2, Z.pow_add_r by lia; pose proof (Z.pow_pos_nonneg 2 k); nia. Qed.
Lemma clmul_range n m a b : 0 <= m -> 0 <= b < 2 ^ m -> (0 < n)%nat -> 0 <= clmul n a b < 2 ^ (Z.of_nat n + m - 1).
Proof.
  intros Hm H; induction n as [|n IH]; intros Hn; [lia|]; cbn [clmul].
  replace (Z.of_nat (S n) + m - 1) with (m + Z.of_nat n) by lia.
  apply lxor_range; [lia| |].
  - destruct n as [|n]; [cbn [clmul]; pose proof (Z.pow_pos_nonneg 2 (m + Z.of_nat 0)); lia|].
    specialize (IH ltac:(lia)); assert (2 ^ (Z.of_nat (S n) + m - 1) <= 2 ^ (m + Z.of_nat (S n))) by (apply Z.pow_le_mono_r; lia); lia.
  - destruct (Z.testbit a (Z.of_nat n)); [apply shiftl_range; lia|]; pose proof (Z.pow_pos_nonneg 2 (m + Z.of_nat n)); lia.
Qed.
Lemma clmul_nonneg n a b : 0 <= b -> 0 <= clmul n a b.
Proof.
  intros H; induction n as [|n IH]; [cbn; lia|]; cbn [clmul]; apply Z.lxor_nonneg; split; intros _; [|exact IH].
  destruct (Z.testbit a _); [apply Z.shiftl_nonneg; exact H | lia].
Qed.
Lemma clmul_1 n a : 0 <= a < 2 ^ Z.of_nat n -> clmul n a 1 = a.
Proof.
  enough (H : forall n a i, 0 <= i -> Z.testbit (clmul n a 1) i = (i <? Z.of_nat n) && Z.testbit a i).
  { intros Ha; bits; rewrite H by exact Hi; destruct (Z.ltb_spec i (Z.of_nat n)); [reflexivity|]; symmetry; apply (testbit_high a (Z.of_nat n)); lia. }
  clear n a; induction n as [|n IH]; intros a i Hi; cbn [clmul].
  - rewrite Z.testbit_0_l; destruct (Z.ltb_spec i (Z.of_nat 0)); [lia | reflexivity].
  - rewrite Z.lxor_spec, IH by exact Hi; destruct (Z.eq_dec i (Z.of_nat n)) as [->|D].
    + rewrite Z.ltb_irrefl; destruct (Z.ltb_spec (Z.of_nat n) (Z.of_nat (S n))); [|lia].
      destruct (Z.testbit a (Z.of_nat n)); [rewrite Z.shiftl_spec, Z.sub_diag by lia; reflexivity | rewrite Z.testbit_0_l; reflexivity].
    + replace (Z.testbit (if Z.testbit a (Z.of_nat n) then Z.shiftl 1 (Z.of_nat n) else 0) i) with false.
      * rewrite xorb_false_r; destruct (Z.ltb_spec i (Z.of_nat n)), (Z.ltb_spec i (Z.of_nat (S n))); try reflexivity; lia.
      * destruct (Z.testbit a (Z.of_nat n)); [|symmetry; apply Z.testbit_0_l].
        rewrite Z.shiftl_1_l, Z.pow2_bits_false by lia; reflexivity.
Qed.
Lemma clmul_pow2 n a k : 0 <= k -> 0 <= a < 2 ^ Z.of_nat n -> clmul n a (Z.shiftl 1 k) = Z.shiftl a k.
Proof. intros Hk Ha; rewrite clmul_shiftl_r, clmul_1 by assumption; reflexivity. Qed.

(** * Multiples of the modulus *)
Definition pol : Z := 0x100000000000000000000000000000087.
Lemma pol_xor : pol = Z.lxor (Z.shiftl 1 128) (Z.lxor (Z.lxor (Z.lxor (Z.shiftl 1 0) (Z.shiftl 1 1)) (Z.shiftl 1 2)) (Z.shiftl 1 7)).
Proof. reflexivity. Qed.
Lemma pol_range : 0 <= pol < 2 ^ 129.
Proof. split; [discriminate | reflexivity]. Qed.
Lemma pol_128 : Z.testbit pol 128 = true. Proof. reflexivity. Qed.
Opaque pol.
Definition multiple (z : Z) : Prop := exists n q, 0 <= q < 2 ^ Z.of_nat n /\ z = clmul n q pol.

Lemma multiple_0 : multiple 0.
Proof. exists O, 0; cbn; lia. Qed.
Lemma multiple_lxor a b : multiple a -> multiple b -> multiple (Z.lxor a b).
Proof.
  intros (n & q & Hq & ->) (m & r & Hr & ->); exists (Nat.max n m), (Z.lxor q r); split.
  - apply lxor_range; [lia| |];
      [assert (2 ^ Z.of_nat n <= 2 ^ Z.of_nat (Nat.max n m)) by (apply Z.pow_le_mono_r; lia); lia |
       assert (2 ^ Z.of_nat m <= 2 ^ Z.of_nat (Nat.max n m)) by (apply Z.pow_le_mono_r; lia); lia].
  - rewrite clmul_lxor_l, (clmul_more n (Nat.max n m) q), (clmul_more m (Nat.max n m) r) by (assumption || lia); reflexivity.
Qed.
Lemma multiple_shiftl a k : multiple a -> multiple (Z.shiftl a (Z.of_nat k)).
Proof.
  intros (n & q & Hq & ->); exists (k + n)%nat, (Z.shiftl q (Z.of_nat k)); split.
  - rewrite Nat2Z.inj_add, Z.add_comm; apply shiftl_range; lia.
  - symmetry; apply clmul_shiftl_l.
Qed.
Lemma multiple_small z : multiple z -> 0 <= z < 2 ^ 128 -> z = 0.
Proof.
  intros (n & q & Hq & ->); revert q Hq; induction n as [|n IH]; intros q Hq; [reflexivity|].
  intros Hz; cbn [clmul] in Hz |- *; destruct (Z.testbit q (Z.of_nat n)) eqn:T.
  - exfalso; apply (f_equal (fun z => Z.testbit z (Z.of_nat n + 128))) in Hz || idtac.
    assert (F : Z.testbit (Z.lxor (clmul n q pol) (Z.shiftl pol (Z.of_nat n))) (Z.of_nat n + 128) = true).
    { rewrite Z.lxor_spec, Z.shiftl_spec by lia; replace (Z.of_nat n + 128 - Z.of_nat n) with 128 by lia; rewrite pol_128.
      destruct n as [|n]; [cbn [clmul]; rewrite Z.testbit_0_l; reflexivity|].
      pose proof (clmul_range (S n) 129 q pol ltac:(lia) pol_range ltac:(lia)) as Rg.
      rewrite (testbit_high _ _ _ Rg) by lia; reflexivity. }
    rewrite (testbit_high _ 128) in F by (exact Hz || lia); discriminate F.
  - rewrite Z.lxor_0_r in Hz |- *; apply IH; [|exact Hz].
    split; [lia|]; apply bits_bounded; [lia|lia|]; intros i Hi.
    destruct (Z.eq_dec i (Z.of_nat n)) as [->|D]; [exact T|].
    apply (testbit_high q (Z.of_nat (S n))); lia.
Qed.
Definition congr (a b : Z) : Prop := multiple (Z.lxor a b).
Lemma congr_refl a : congr a a.
Proof. unfold congr; rewrite Z.lxor_nilpotent; apply multiple_0. Qed.
Lemma congr_sym a b : congr a b -> congr b a.
Proof. unfold congr; rewrite Z.lxor_comm; tauto. Qed.
Lemma congr_trans a b c : congr a b -> congr b c -> congr a c.
Proof. unfold congr; intros H1 H2; replace (Z.lxor a c) with (Z.lxor (Z.lxor a b) (Z.lxor b c)) by bxor; apply multiple_lxor; assumption. Qed.
Lemma congr_lxor a b c d : congr a b -> congr c d -> congr (Z.lxor a c) (Z.lxor b d).
Proof. unfold congr; intros H1 H2; replace (Z.lxor (Z.lxor a c) (Z.lxor b d)) with (Z.lxor (Z.lxor a b) (Z.lxor c d)) by bxor; apply multiple_lxor; assumption. Qed.
Lemma congr_shiftl1 a b : congr a b -> congr (Z.shiftl a 1) (Z.shiftl b 1).
Proof. unfold congr; intros H; rewrite <- Z.shiftl_lxor; apply (multiple_shiftl _ 1 H). Qed.
Lemma congr_eq a b : 0 <= a < 2 ^ 128 -> 0 <= b < 2 ^ 128 -> congr a b -> a = b.
Proof. intros Ha Hb H; apply Z.lxor_eq; apply multiple_small; [exact H|]; apply lxor_range; lia. Qed.
Lemma multiple_pol n q : 0 <= q < 2 ^ Z.of_nat n -> multiple (clmul n q pol).
Proof. intros H; exists n, q; split; [exact H | reflexivity]. Qed.

(** * The schoolbook multiplication of the standard, with bits mirrored *)
Definition xt (v : Z) : Z := if Z.testbit v 127 then Z.lxor (Z.shiftl v 1) pol else Z.shiftl v 1.
Fixpoint steps (n : nat) (i : Z) (a acc v : Z) : Z :=
  match n with O => acc | S k => steps k (i + 1) a (if Z.testbit a i then Z.lxor acc v else acc) (xt v) end.
Lemma xt_range v : 0 <= v < 2 ^ 128 -> 0 <= xt v < 2 ^ 128.
Proof.
  intros H; unfold xt; destruct (Z.testbit v 127) eqn:T.
  - assert (R1 : 0 <= Z.lxor (Z.shiftl v 1) pol < 2 ^ 129) by (apply lxor_range; [lia| apply (shiftl_range v 128 1); lia | apply pol_range]).
    split; [apply R1|]; apply bits_bounded; [lia | apply R1 |]; intros i Hi; destruct (Z.eq_dec i 128) as [->|D].
    + rewrite Z.lxor_spec, Z.shiftl_spec by lia; replace (128 - 1) with 127 by lia; rewrite T, pol_128; reflexivity.
    + apply (testbit_high _ 129); [exact R1 | lia].
  - assert (R1 : 0 <= Z.shiftl v 1 < 2 ^ 129) by (apply (shiftl_range v 128 1); lia).
    split; [apply R1|]; apply bits_bounded; [lia | apply R1 |]; intros i Hi; destruct (Z.eq_dec i 128) as [->|D].
    + rewrite Z.shiftl_spec by lia; replace (128 - 1) with 127 by lia; exact T.
    + apply (testbit_high _ 129); [exact R1 | lia].
Qed.
Lemma xt_congr v : congr (Z.shiftl v 1) (xt v).
Proof.
  unfold xt; destruct (Z.testbit v 127); [|apply congr_refl].
  unfold congr; replace (Z.lxor (Z.shiftl v 1) (Z.lxor (Z.shiftl v 1) pol)) with (Z.lxor pol 0) by (rewrite Z.lxor_0_r; bxor).
  rewrite Z.lxor_0_r; exists 1%nat, 1; split; [cbn; lia|]; cbn [clmul]; rewrite Z.lxor_0_l; symmetry; apply Z.shiftl_0_r.
Qed.
Lemma steps_congr n : forall i a b acc v, 0 <= v < 2 ^ 128 -> 0 <= acc < 2 ^ 128 ->
  congr acc (clmul i a b) -> congr v (Z.shiftl b (Z.of_nat i)) ->
  0 <= steps n (Z.of_nat i) a acc v < 2 ^ 128 /\ congr (steps n (Z.of_nat i) a acc v) (clmul (n + i) a b).
Proof.
  induction n as [|n IH]; intros i a b acc v Hv Hacc H1 H2; cbn [steps plus]; [split; assumption|].
  replace (Z.of_nat i + 1) with (Z.of_nat (S i)) by lia.
  replace (S (n + i)) with (n + S i)%nat by lia; apply IH.
  - apply xt_range; exact Hv.
  - destruct (Z.testbit a (Z.of_nat i)); [apply lxor_range; lia | exact Hacc].
  - cbn [clmul]; destruct (Z.testbit a (Z.of_nat i)); [apply congr_lxor; assumption | rewrite Z.lxor_0_r; exact H1].
  - apply congr_trans with (Z.shiftl v 1); [apply congr_sym, xt_congr|].
    replace (Z.shiftl b (Z.of_nat (S i))) with (Z.shiftl (Z.shiftl b (Z.of_nat i)) 1) by (rewrite Z.shiftl_shiftl by lia; f_equal; lia).
    apply congr_shiftl1; exact H2.
Qed.
Lemma steps_spec a b : 0 <= b < 2 ^ 128 -> 0 <= steps 128 0 a 0 b < 2 ^ 128 /\ congr (steps 128 0 a 0 b) (clmul 128 a b).
Proof.
  intros Hb; apply (steps_congr 128 0 a b 0 b Hb); [lia | apply congr_refl |].
  rewrite Z.shiftl_0_r; apply congr_refl.
Qed.

(** * Lanes as bits *)
Lemma testbit_join w x y i : 0 <= w -> 0 <= x < 2 ^ w -> 0 <= i -> Z.testbit (x + 2 ^ w * y) i = if i <? w then Z.testbit x i else Z.testbit y (i - w).
Proof.
  intros Hw Hx Hi; destruct (Z.ltb_spec i w) as [L|L].
  - rewrite <- (Z.mod_pow2_bits_low (x + 2 ^ w * y) w i) by lia.
    rewrite (Z.mul_comm (2 ^ w)), Z.mod_add by (apply Z.pow_nonzero; lia).
    apply Z.mod_pow2_bits_low; lia.
  - replace i with ((i - w) + w) at 1 by lia.
    rewrite <- Z.div_pow2_bits by lia.
    rewrite (Z.mul_comm (2 ^ w)), Z.div_add, Z.div_small by (lia || apply Z.pow_nonzero; lia); reflexivity.
Qed.
Lemma lane_range w v i : 0 <= w -> 0 <= lane w v i < 2 ^ w.
Proof. intros; unfold lane; apply Z.mod_pos_bound, Z.pow_pos_nonneg; lia. Qed.
Lemma lane_testbit w v i k : 0 <= w -> 0 <= i -> 0 <= k -> Z.testbit (lane w v i) k = (k <? w) && Z.testbit v (w * i + k).
Proof.
  intros; unfold lane; destruct (Z.ltb_spec k w).
  - rewrite Z.mod_pow2_bits_low, Z.div_pow2_bits by nia; rewrite Z.add_comm; reflexivity.
  - rewrite Z.mod_pow2_bits_high by lia; reflexivity.
Qed.
Lemma lanes64_testbit f v i : (forall x, 0 <= x < 2 ^ 64 -> 0 <= f x < 2 ^ 64) -> 0 <= i < 128 ->
  Z.testbit (lanes64 f v) i = Z.testbit (f (lane 64 v (i / 64))) (i mod 64).
Proof.
  intros F Hi; unfold lanes64; rewrite testbit_join by (try lia; apply F, lane_range; lia).
  destruct (Z.ltb_spec i 64).
  - rewrite Z.div_small, Z.mod_small by lia; reflexivity.
  - replace (i / 64) with 1 by (apply (Z.div_unique i 64 1 (i - 64)); lia).
    replace (i mod 64) with (i - 64) by (apply (Z.mod_unique i 64 1 (i - 64)); lia); reflexivity.
Qed.
Lemma join4_testbit x0 x1 x2 x3 i : 0 <= x0 < 2 ^ 32 -> 0 <= x1 < 2 ^ 32 -> 0 <= x2 < 2 ^ 32 -> 0 <= i < 128 ->
  Z.testbit (x0 + 2 ^ 32 * x1 + 2 ^ 64 * x2 + 2 ^ 96 * x3) i =
  Z.testbit (nth (Z.to_nat (i / 32)) [x0; x1; x2; x3] 0) (i mod 32).
Proof.
  intros H0 H1 H2 Hi; replace (x0 + 2 ^ 32 * x1 + 2 ^ 64 * x2 + 2 ^ 96 * x3) with (x0 + 2 ^ 32 * (x1 + 2 ^ 32 * (x2 + 2 ^ 32 * x3))) by ring.
  rewrite testbit_join by lia; destruct (Z.ltb_spec i 32).
  { rewrite Z.div_small, Z.mod_small by lia; reflexivity. }
  rewrite testbit_join by lia; destruct (Z.ltb_spec (i - 32) 32).
  { replace (i / 32) with 1 by (apply (Z.div_unique i 32 1 (i - 32)); lia).
    replace (i mod 32) with (i - 32) by (apply (Z.mod_unique i 32 1 (i - 32)); lia); reflexivity. }
  rewrite testbit_join by lia; destruct (Z.ltb_spec (i - 32 - 32) 32).
  { replace (i / 32) with 2 by (apply (Z.div_unique i 32 2 (i - 64)); lia).
    replace (i mod 32) with (i - 32 - 32) by (apply (Z.mod_unique i 32 2 (i - 32 - 32)); lia); reflexivity. }
  replace (i / 32) with 3 by (apply (Z.div_unique i 32 3 (i - 96)); lia).
  replace (i mod 32) with (i - 32 - 32 - 32) by (apply (Z.mod_unique i 32 3 (i - 32 - 32 - 32)); lia); reflexivity.
Qed.
Lemma join4_range x0 x1 x2 x3 : 0 <= x0 < 2 ^ 32 -> 0 <= x1 < 2 ^ 32 -> 0 <= x2 < 2 ^ 32 -> 0 <= x3 < 2 ^ 32 ->
  0 <= x0 + 2 ^ 32 * x1 + 2 ^ 64 * x2 + 2 ^ 96 * x3 < 2 ^ 128.
Proof. intros; lia. Qed.
Lemma nth_lanes (f : Z -> Z) i : 0 <= i < 128 -> nth (Z.to_nat (i / 32)) [f 0; f 1; f 2; f 3] 0 = f (i / 32).
Proof.
  intros Hi; assert (C : i / 32 = 0 \/ i / 32 = 1 \/ i / 32 = 2 \/ i / 32 = 3) by (pose proof (Z.div_mod i 32 ltac:(lia)); pose proof (Z.mod_pos_bound i 32 ltac:(lia)); lia).
  destruct C as [->|[->|[->| ->]]]; reflexivity.
Qed.
Lemma lanes32_testbit f v i : (forall x, 0 <= x < 2 ^ 32 -> 0 <= f x < 2 ^ 32) -> 0 <= i < 128 ->
  Z.testbit (lanes32 f v) i = Z.testbit (f (lane 32 v (i / 32))) (i mod 32).
Proof.
  intros F Hi; unfold lanes32; rewrite join4_testbit by (try lia; apply F, lane_range; lia).
  rewrite (nth_lanes (fun j => f (lane 32 v j)) i Hi); reflexivity.
Qed.
Lemma lanes32_range f v : (forall x, 0 <= x < 2 ^ 32 -> 0 <= f x < 2 ^ 32) -> 0 <= lanes32 f v < 2 ^ 128.
Proof. intros F; apply join4_range; apply F, lane_range; lia. Qed.
Lemma shr_range x k : 0 <= k -> 0 <= x < 2 ^ 32 -> 0 <= Z.shiftr x k < 2 ^ 32.
Proof. intros Hk Hx; rewrite Z.shiftr_div_pow2 by lia; pose proof (Z.pow_pos_nonneg 2 k); split; [apply Z.div_pos; lia|]; apply Z.le_lt_trans with x; [apply Z.div_le_upper_bound; nia | lia]. Qed.
Lemma srli_testbit v k i : 0 <= k -> 0 <= i < 128 -> Z.testbit (srli_epi32 v k) i = (i mod 32 + k <? 32) && Z.testbit v (i + k).
Proof.
  intros Hk Hi; pose proof (Z.mod_pos_bound i 32 ltac:(lia)); pose proof (Z.div_mod i 32 ltac:(lia)).
  assert (0 <= i / 32) by (apply Z.div_pos; lia).
  unfold srli_epi32; rewrite lanes32_testbit by (try lia; intros; apply shr_range; lia).
  rewrite Z.shiftr_spec, lane_testbit by lia; do 2 f_equal; lia.
Qed.
Lemma slli_testbit v k i : 0 <= k -> 0 <= i < 128 -> Z.testbit (slli_epi32 v k) i = (k <=? i mod 32) && Z.testbit v (i - k).
Proof.
  intros Hk Hi; pose proof (Z.mod_pos_bound i 32 ltac:(lia)); pose proof (Z.div_mod i 32 ltac:(lia)).
  assert (0 <= i / 32) by (apply Z.div_pos; lia).
  unfold slli_epi32; rewrite lanes32_testbit by (try lia; intros; apply Z.mod_pos_bound; lia).
  rewrite Z.mod_pow2_bits_low, Z.shiftl_spec by lia; destruct (Z.leb_spec k (i mod 32)) as [L|L].
  - rewrite lane_testbit by lia; destruct (Z.ltb_spec (i mod 32 - k) 32); [|lia]; cbn [andb]; f_equal; lia.
  - rewrite Z.testbit_neg_r by lia; reflexivity.
Qed.
Lemma rot_testbit v i : 0 <= i < 128 -> Z.testbit (shuffle32 v 0x93) i = Z.testbit v (if i <? 32 then i + 96 else i - 32).
Proof.
  intros Hi; pose proof (Z.mod_pos_bound i 32 ltac:(lia)); pose proof (Z.div_mod i 32 ltac:(lia)).
  assert (0 <= i / 32) by (apply Z.div_pos; lia).
  unfold shuffle32; rewrite join4_testbit by (try lia; apply lane_range; lia).
  change (0x93 mod 4) with 3; change ((0x93 / 4) mod 4) with 0; change ((0x93 / 16) mod 4) with 1; change ((0x93 / 64) mod 4) with 2.
  pose proof (nth_lanes (fun j => lane 32 v (if j =? 0 then 3 else j - 1)) i Hi) as N; cbn [Z.eqb] in N.
  change (1 - 1) with 0 in N; change (2 - 1) with 1 in N; change (3 - 1) with 2 in N; rewrite N.
  destruct (Z.ltb_spec i 32).
  - rewrite Z.div_small, Z.mod_small by lia; rewrite Z.eqb_refl, lane_testbit by lia; destruct (Z.ltb_spec i 32); [|lia]; cbn [andb]; f_equal; lia.
  - destruct (Z.eqb_spec (i / 32) 0); [lia|]; rewrite lane_testbit by lia.
    destruct (Z.ltb_spec (i mod 32) 32); [|lia]; cbn [andb]; f_equal; lia.
Qed.

(** * The reduction of galoisMultiply *)
(** The reduction after the product: [t0] low, [t1] high half. *)
Definition over (t : Z) : Z := Z.lxor (Z.lxor (Z.shiftr t 127) (Z.shiftr t 126)) (Z.shiftr t 121).
Definition reduce (tmp3 tmp6 : Z) : Z :=
  let tmp8 := shuffle32 (Z.lxor (Z.lxor (srli_epi32 tmp6 31) (srli_epi32 tmp6 30)) (srli_epi32 tmp6 25)) 0x93 in
  let tmp3 := Z.lxor tmp3 (andnot128 0xffffffff tmp8) in
  let tmp6 := Z.lxor tmp6 (Z.land 0xffffffff tmp8) in
  Z.lxor (Z.lxor (Z.lxor (Z.lxor tmp3 tmp6) (slli_epi32 tmp6 1)) (slli_epi32 tmp6 2)) (slli_epi32 tmp6 7).
Lemma andnot_testbit v i : 0 <= i < 128 -> Z.testbit (andnot128 0xffffffff v) i = negb (i <? 32) && Z.testbit v i.
Proof.
  intros Hi; unfold andnot128; rewrite Z.land_spec; f_equal.
  change (2 ^ 128 - 1 - 0xffffffff) with (Z.shiftl (2 ^ 96 - 1) 32); rewrite Z.shiftl_spec by lia.
  destruct (Z.ltb_spec i 32); [rewrite Z.testbit_neg_r by lia; reflexivity|].
  rewrite ones_testbit by lia; destruct (Z.ltb_spec (i - 32) 96); [reflexivity | lia].
Qed.
Lemma mask_testbit v i : 0 <= i -> Z.testbit (Z.land 0xffffffff v) i = (i <? 32) && Z.testbit v i.
Proof. intros Hi; rewrite Z.land_spec; f_equal; change 0xffffffff with (2 ^ 32 - 1); apply ones_testbit; lia. Qed.
Lemma over_testbit t i : 0 <= i -> Z.testbit (over t) i = xorb (xorb (Z.testbit t (i + 127)) (Z.testbit t (i + 126))) (Z.testbit t (i + 121)).
Proof. intros Hi; unfold over; rewrite !Z.lxor_spec, !Z.shiftr_spec by lia; reflexivity. Qed.
Definition mul135 (t : Z) : Z := Z.lxor (Z.lxor (Z.lxor t (Z.shiftl t 1)) (Z.shiftl t 2)) (Z.shiftl t 7).
Lemma mul135_testbit t i : 0 <= i -> Z.testbit (mul135 t) i =
  xorb (xorb (xorb (Z.testbit t i) (Z.testbit t (i - 1))) (Z.testbit t (i - 2))) (Z.testbit t (i - 7)).
Proof. intros Hi; unfold mul135; rewrite !Z.lxor_spec, !Z.shiftl_spec by lia; reflexivity. Qed.

Definition carries (t : Z) : Z := Z.lxor (Z.lxor (srli_epi32 t 31) (srli_epi32 t 30)) (srli_epi32 t 25).
Lemma carries_testbit t i : 0 <= t < 2 ^ 128 -> 0 <= i < 128 -> Z.testbit (shuffle32 (carries t) 0x93) i =
  if i <? 32 then Z.testbit (over t) i
  else xorb (xorb ((i mod 32 <? 1) && Z.testbit t (i - 1)) ((i mod 32 <? 2) && Z.testbit t (i - 2))) ((i mod 32 <? 7) && Z.testbit t (i - 7)).
Proof.
  intros Ht Hi; rewrite rot_testbit by exact Hi; pose proof (Z.mod_pos_bound i 32 ltac:(lia)); pose proof (Z.div_mod i 32 ltac:(lia)).
  unfold carries; destruct (Z.ltb_spec i 32) as [L|L].
  - rewrite !Z.lxor_spec, !srli_testbit by lia.
    replace ((i + 96) mod 32) with i by (apply (Z.mod_unique (i + 96) 32 3 i); lia).
    rewrite over_testbit by lia.
    assert (Q : forall k, 25 <= k <= 31 -> (i + k <? 32) && Z.testbit t (i + 96 + k) = Z.testbit t (i + (96 + k))).
    { intros k Hk; rewrite Z.add_assoc; destruct (Z.ltb_spec (i + k) 32); [reflexivity|]; symmetry; apply (testbit_high t 128); lia. }
    rewrite !Q by lia; reflexivity.
  - rewrite !Z.lxor_spec, !srli_testbit by lia.
    replace ((i - 32) mod 32) with (i mod 32) by (rewrite <- (Z.mod_add (i - 32) 1 32) by lia; f_equal; lia).
    assert (Q : forall k, 1 <= k <= 7 -> (i mod 32 + (32 - k) <? 32) && Z.testbit t (i - 32 + (32 - k)) = (i mod 32 <? k) && Z.testbit t (i - k)).
    { intros k Hk; f_equal; [|f_equal; lia]; destruct (Z.ltb_spec (i mod 32 + (32 - k)) 32), (Z.ltb_spec (i mod 32) k); lia || reflexivity. }
    rewrite <- (Q 1), <- (Q 2), <- (Q 7) by lia; reflexivity.
Qed.
Lemma over_range t : 0 <= t < 2 ^ 128 -> 0 <= over t < 2 ^ 7.
Proof.
  intros H; assert (P : 0 <= over t) by (unfold over; repeat (apply Z.lxor_nonneg; split; intros _); apply Z.shiftr_nonneg; lia).
  split; [exact P|]; apply bits_bounded; [lia | exact P |]; intros i Hi.
  rewrite over_testbit by lia; rewrite !(testbit_high t 128) by lia; reflexivity.
Qed.
Lemma mul135_over_range t : 0 <= t < 2 ^ 128 -> 0 <= mul135 (over t) < 2 ^ 128.
Proof.
  intros H; pose proof (over_range t H) as HO.
  assert (S7 : forall k, 0 <= k <= 7 -> 0 <= Z.shiftl (over t) k < 2 ^ 128).
  { intros k Hk; pose proof (shiftl_range (over t) 7 k ltac:(lia) ltac:(lia) HO); assert (2 ^ (7 + k) <= 2 ^ 128) by (apply Z.pow_le_mono_r; lia); lia. }
  pose proof (S7 0 ltac:(lia)) as S0; rewrite Z.shiftl_0_r in S0.
  unfold mul135; do 3 (apply lxor_range; [lia| |apply S7; lia]); exact S0.
Qed.
Lemma reduce_eq t0 t1 : 0 <= t0 < 2 ^ 128 -> 0 <= t1 < 2 ^ 128 ->
  reduce t0 t1 = Z.lxor (Z.lxor t0 ((mul135 t1) mod 2 ^ 128)) (mul135 (over t1)).
Proof.
  intros H0 H1; pose proof (over_range t1 H1) as HO.
  assert (S32 : forall v k, 0 <= slli_epi32 v k < 2 ^ 128) by (intros; apply lanes32_range; intros; apply Z.mod_pos_bound; lia).
  assert (SH : forall v, 0 <= shuffle32 v 0x93 < 2 ^ 128) by (intros; apply join4_range; apply lane_range; lia).
  set (w := Z.land 0xffffffff (shuffle32 (carries t1) 0x93)).
  assert (W : forall i, 0 <= i < 128 -> Z.testbit w i = Z.testbit (over t1) i).
  { intros i Hi; unfold w; rewrite mask_testbit, carries_testbit by (assumption || lia).
    destruct (Z.ltb_spec i 32); [reflexivity|]; cbn [andb]; symmetry; apply (testbit_high _ 7); lia. }
  assert (WO : w = over t1).
  { assert (0 <= w < 2 ^ 128) by (unfold w; apply land_range; [lia | lia | apply SH]).
    bits; destruct (Z.ltb_spec i 128); [apply W; lia|]; rewrite (testbit_high w 128), (testbit_high (over t1) 7) by lia; reflexivity. }
  assert (T1 : 0 <= Z.lxor t1 w < 2 ^ 128) by (rewrite WO; apply lxor_range; [lia | lia |]; lia).
  assert (M1 : 0 <= mul135 (over t1) < 2 ^ 128) by (apply mul135_over_range; exact H1).
  assert (L1 : 0 <= reduce t0 t1 < 2 ^ 128).
  { unfold reduce; cbv zeta; fold (carries t1); fold w; repeat apply lxor_range; try lia; try apply S32.
    unfold andnot128; apply land_range; [lia | split; [discriminate | reflexivity] | apply SH]. }
  bits; destruct (Z.ltb_spec i 128) as [L|L].
  2:{ rewrite (testbit_high _ 128 i L1), Z.lxor_spec by lia; symmetry; rewrite (testbit_high (mul135 (over t1)) 128) by lia.
      rewrite Z.lxor_spec, (testbit_high t0 128), Z.mod_pow2_bits_high by lia; reflexivity. }
  unfold reduce; cbv zeta; fold (carries t1); fold w; rewrite !Z.lxor_spec, !slli_testbit, andnot_testbit, carries_testbit by (assumption || lia).
  rewrite Z.mod_pow2_bits_low, !mul135_testbit, !Z.lxor_spec by lia; rewrite WO.
  pose proof (Z.mod_pos_bound i 32 ltac:(lia)); pose proof (Z.div_mod i 32 ltac:(lia)).
  assert (OV : forall k, 0 <= k <= 7 -> (k <=? i mod 32) && Z.testbit (over t1) (i - k) = Z.testbit (over t1) (i - k)).
  { intros k Hk; destruct (Z.leb_spec k (i mod 32)); [reflexivity|]; symmetry; destruct (Z.ltb_spec i k); [apply Z.testbit_neg_r; lia|].
    apply (testbit_high _ 7); [exact HO|]; assert (i <> i mod 32) by lia; assert (i / 32 <> 0) by lia; assert (0 <= i / 32) by (apply Z.div_pos; lia); lia. }
  assert (OA : forall k b c, andb b (xorb c (Z.testbit (over t1) k)) = xorb (b && c) (b && Z.testbit (over t1) k)) by (intros; btauto).
  rewrite !OA, !OV by lia.
  assert (CA : forall k, 0 <= k <= 7 -> (k <=? i mod 32) && Z.testbit t1 (i - k) = xorb (Z.testbit t1 (i - k)) (negb (i <? 32) && ((i mod 32 <? k) && Z.testbit t1 (i - k)))).
  { intros k Hk; destruct (Z.leb_spec k (i mod 32)), (Z.ltb_spec (i mod 32) k), (Z.ltb_spec i 32); try lia; cbn [andb negb]; try btauto.
    rewrite Z.testbit_neg_r; [reflexivity|]; rewrite Z.mod_small in * by lia; lia. }
  rewrite !CA by lia; destruct (Z.ltb_spec i 32); cbn [negb andb];
  repeat match goal with |- context [Z.testbit ?a ?i] => let b := fresh "b" in set (b := Z.testbit a i); clearbody b end;
  repeat match goal with |- context [i mod 32 <? ?k] => let b := fresh "b" in set (b := i mod 32 <? k); clearbody b end; btauto.
Qed.
Lemma clmul_pol n t : 0 <= t < 2 ^ Z.of_nat n -> clmul n t pol = Z.lxor (Z.shiftl t 128) (mul135 t).
Proof. intros H; rewrite pol_xor, !clmul_lxor_r, !clmul_pow2 by (lia || exact H); rewrite Z.shiftl_0_r; reflexivity. Qed.
Lemma split_128 m : 0 <= m -> m = Z.lxor (m mod 2 ^ 128) (Z.shiftl (Z.shiftr m 128) 128).
Proof.
  intros Hm; bits; rewrite Z.lxor_spec; destruct (Z.ltb_spec i 128).
  - rewrite Z.mod_pow2_bits_low, Z.shiftl_spec, (Z.testbit_neg_r _ (i - 128)) by lia; btauto.
  - rewrite Z.mod_pow2_bits_high, Z.shiftl_spec, Z.shiftr_spec by lia; replace (i - 128 + 128) with i by lia; btauto.
Qed.
Lemma mul135_over t : 0 <= t < 2 ^ 128 -> Z.shiftr (mul135 t) 128 = over t.
Proof.
  intros H; bits; rewrite Z.shiftr_spec, mul135_testbit, over_testbit by lia.
  rewrite (testbit_high t 128 (i + 128)) by lia.
  replace (i + 128 - 1) with (i + 127) by lia; replace (i + 128 - 2) with (i + 126) by lia; replace (i + 128 - 7) with (i + 121) by lia; btauto.
Qed.
Lemma mul135_nonneg t : 0 <= t -> 0 <= mul135 t.
Proof. intros H; unfold mul135; repeat (apply Z.lxor_nonneg; split; intros _); try (apply Z.shiftl_nonneg); exact H. Qed.
Lemma reduce_congr t0 t1 : 0 <= t0 < 2 ^ 128 -> 0 <= t1 < 2 ^ 128 ->
  0 <= reduce t0 t1 < 2 ^ 128 /\ congr (reduce t0 t1) (Z.lxor t0 (Z.shiftl t1 128)).
Proof.
  intros H0 H1; rewrite reduce_eq by assumption; pose proof (over_range t1 H1) as HO; split.
  - apply lxor_range; [lia| apply lxor_range; [lia | lia | apply Z.mod_pos_bound; lia] |].
    apply mul135_over_range; exact H1.
  - unfold congr.
    pose proof (multiple_lxor _ _ (multiple_pol 128 t1 H1) (multiple_pol 7 (over t1) HO)) as M.
    rewrite (clmul_pol 128 t1 H1), (clmul_pol 7 (over t1) HO) in M.
    replace (Z.lxor (Z.lxor (Z.lxor t0 (mul135 t1 mod 2 ^ 128)) (mul135 (over t1))) (Z.lxor t0 (Z.shiftl t1 128)))
      with (Z.lxor (Z.lxor (Z.shiftl t1 128) (mul135 t1)) (Z.lxor (Z.shiftl (over t1) 128) (mul135 (over t1)))); [exact M|].
    rewrite (split_128 (mul135 t1)) at 1 by (apply mul135_nonneg; lia); rewrite (mul135_over t1 H1); bxor.
Qed.

(** * Karatsuba *)
Lemma lanes_split v : 0 <= v < 2 ^ 128 -> v = Z.lxor (lane 64 v 0) (Z.shiftl (lane 64 v 1) 64).
Proof.
  intros H; bits; rewrite Z.lxor_spec, Z.shiftl_spec, lane_testbit by lia; destruct (Z.ltb_spec i 64).
  - rewrite (Z.testbit_neg_r _ (i - 64)), xorb_false_r by lia; cbn [andb]; f_equal; lia.
  - rewrite lane_testbit by lia; replace (64 * 1 + (i - 64)) with i by lia; destruct (Z.ltb_spec (i - 64) 64); cbn [andb]; [btauto|].
    rewrite (testbit_high v 128) by lia; reflexivity.
Qed.
Lemma swap_lane v : 0 <= v < 2 ^ 128 -> lane 64 (Z.lxor (shuffle32 v 78) v) 0 = Z.lxor (lane 64 v 1) (lane 64 v 0).
Proof.
  intros H; bits; rewrite Z.lxor_spec, !lane_testbit, Z.lxor_spec by lia.
  destruct (Z.ltb_spec i 64); [|reflexivity]; cbn [andb]; f_equal.
  unfold shuffle32; rewrite join4_testbit by (try lia; apply lane_range; lia).
  change (78 mod 4) with 2; change ((78 / 4) mod 4) with 3; change ((78 / 16) mod 4) with 0; change ((78 / 64) mod 4) with 1.
  pose proof (nth_lanes (fun j => lane 32 v (if j <? 2 then j + 2 else j - 2)) (64 * 0 + i) ltac:(lia)) as N; cbn [Z.ltb Z.compare Pos.compare Pos.compare_cont] in N.
  change (0 + 2) with 2 in N; change (1 + 2) with 3 in N; change (2 - 2) with 0 in N; change (3 - 2) with 1 in N; rewrite N; clear N.
  change (64 * 0 + i) with i; pose proof (Z.mod_pos_bound i 32 ltac:(lia)); pose proof (Z.div_mod i 32 ltac:(lia)).
  destruct (Z.ltb_spec (i / 32) 2); [|lia]; assert (0 <= i / 32) by (apply Z.div_pos; lia); rewrite lane_testbit by lia.
  destruct (Z.ltb_spec (i mod 32) 32); [|lia]; cbn [andb]; f_equal; lia.
Qed.
Theorem galois_congr a b : 0 <= a < 2 ^ 128 -> 0 <= b < 2 ^ 128 ->
  0 <= galoisMultiply a b < 2 ^ 128 /\ congr (galoisMultiply a b) (clmul 128 a b).
Proof.
  intros Ha Hb; set (a0 := lane 64 a 0); set (a1 := lane 64 a 1); set (b0 := lane 64 b 0); set (b1 := lane 64 b 1).
  assert (A0 : 0 <= a0 < 2 ^ 64) by (apply lane_range; lia); assert (A1 : 0 <= a1 < 2 ^ 64) by (apply lane_range; lia).
  assert (B0 : 0 <= b0 < 2 ^ 64) by (apply lane_range; lia); assert (B1 : 0 <= b1 < 2 ^ 64) by (apply lane_range; lia).
  set (lo := clmul 64 a0 b0); set (hi := clmul 64 a1 b1).
  set (mid := Z.lxor (Z.lxor (clmul 64 (Z.lxor a1 a0) (Z.lxor b1 b0)) lo) hi).
  assert (Mid : mid = Z.lxor (clmul 64 a0 b1) (clmul 64 a1 b0)).
  { unfold mid; rewrite clmul_lxor_l, !clmul_lxor_r; fold lo; fold hi; bxor. }
  assert (R : forall x y, 0 <= y < 2 ^ 64 -> 0 <= clmul 64 x y < 2 ^ 127) by (intros x y Hy; exact (clmul_range 64 64 x y ltac:(lia) Hy ltac:(lia))).
  assert (RM : 0 <= mid < 2 ^ 127) by (rewrite Mid; apply lxor_range; [lia | apply R; assumption | apply R; assumption]).
  assert (Rlo : 0 <= lo < 2 ^ 127) by (apply R; assumption); assert (Rhi : 0 <= hi < 2 ^ 127) by (apply R; assumption).
  set (t0 := Z.lxor lo (slli128 mid 8)); set (t1 := Z.lxor hi (srli128 mid 8)).
  assert (E : galoisMultiply a b = reduce t0 t1).
  { unfold galoisMultiply, reduce, t0, t1, mid, clmulepi64; cbv zeta.
    change (0x00 mod 2) with 0; change ((0x00 / 16) mod 2) with 0; change (0x11 mod 2) with 1; change ((0x11 / 16) mod 2) with 1.
    rewrite !swap_lane by assumption; reflexivity. }
  assert (T0 : 0 <= t0 < 2 ^ 128) by (unfold t0, slli128; apply lxor_range; [lia | lia | apply Z.mod_pos_bound; lia]).
  assert (T1 : 0 <= t1 < 2 ^ 128).
  { unfold t1, srli128; apply lxor_range; [lia | lia |]; rewrite Z.shiftr_div_pow2 by lia; split; [apply Z.div_pos; lia|]; apply Z.div_lt_upper_bound; lia. }
  destruct (reduce_congr t0 t1 T0 T1) as [Rr Rc]; rewrite E; split; [exact Rr|].
  replace (clmul 128 a b) with (Z.lxor t0 (Z.shiftl t1 128)); [exact Rc|].
  rewrite (lanes_split a Ha), (lanes_split b Hb) at 1; fold a0; fold a1; fold b0; fold b1.
  rewrite (clmul_lxor_l 128).
  rewrite (clmul_more 64 128 a0) by (assumption || lia).
  change (Z.shiftl a1 64) with (Z.shiftl a1 (Z.of_nat 64)); change 128%nat with (64 + 64)%nat; rewrite clmul_shiftl_l.
  rewrite !clmul_lxor_r, !clmul_shiftl_r by lia; fold lo; fold hi.
  change (Z.of_nat 64) with 64; rewrite Z.shiftl_lxor, Z.shiftl_shiftl by lia; change (64 + 64) with 128.
  assert (Q : Z.lxor (slli128 mid 8) (Z.shiftl (srli128 mid 8) 128) = Z.shiftl mid 64).
  { unfold slli128, srli128; change (8 * 8) with 64; etransitivity; [|symmetry; apply split_128; apply Z.shiftl_nonneg; lia]; do 2 f_equal.
    bits; rewrite !Z.shiftr_spec, Z.shiftl_spec by lia; f_equal; lia. }
  unfold t0, t1; rewrite Z.shiftl_lxor; transitivity (Z.lxor (Z.lxor lo (Z.shiftl hi 128)) (Z.shiftl mid 64)); [rewrite <- Q; bxor|].
  rewrite Mid, Z.shiftl_lxor; bxor.
Qed.
