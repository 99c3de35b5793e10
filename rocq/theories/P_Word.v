From Verif Require Import Base BaseP S_Word.

Lemma compl_word w x : 0 <= w -> word w x -> word w (compl w x).
Proof. unfold word, compl; lia. Qed.
Lemma compl_lxor w x : 0 <= w -> word w x -> compl w x = Z.lxor x (2 ^ w - 1).
Proof.
  intros Hw Hx; unfold compl.
  rewrite Z.sub_nocarry_ldiff.
  - apply Z.bits_inj'; intros i Hi; rewrite Z.ldiff_spec, Z.lxor_spec, ones_testbit by assumption.
    destruct (Z.ltb_spec i w) as [H|H]; [destruct (Z.testbit x i); reflexivity|].
    rewrite (testbit_high x w) by assumption; reflexivity.
  - apply Z.bits_inj'; intros i Hi; rewrite Z.ldiff_spec, ones_testbit, Z.bits_0 by assumption.
    destruct (Z.ltb_spec i w) as [H|H]; [apply andb_false_r|].
    rewrite (testbit_high x w) by assumption; reflexivity.
Qed.
Lemma compl_testbit w x i : 0 <= w -> word w x -> 0 <= i ->
  Z.testbit (compl w x) i = (i <? w) && negb (Z.testbit x i).
Proof.
  intros Hw Hx Hi; rewrite compl_lxor, Z.lxor_spec, ones_testbit by assumption.
  destruct (Z.ltb_spec i w) as [H|H]; [destruct (Z.testbit x i); reflexivity|].
  rewrite (testbit_high x w) by assumption; reflexivity.
Qed.

Lemma addw_word w x y : 0 <= w -> word w (addw w x y).
Proof. intros; unfold addw, word; apply Z.mod_pos_bound, Z.pow_pos_nonneg; lia. Qed.

Lemma shl_mod w n x : 0 <= n <= w -> (x * 2 ^ n) mod 2 ^ w = (x mod 2 ^ (w - n)) * 2 ^ n.
Proof.
  intros H; replace (2 ^ w) with (2 ^ (w - n) * 2 ^ n) by (rewrite <- Z.pow_add_r by lia; f_equal; lia).
  apply Z.mul_mod_distr_r; apply Z.pow_nonzero; lia.
Qed.

Lemma rotl_hi w n x : 0 <= n <= w -> word w x -> 0 <= x / 2 ^ (w - n) < 2 ^ n.
Proof.
  intros H Hx; unfold word in Hx; assert (0 < 2 ^ (w - n)) by (apply Z.pow_pos_nonneg; lia).
  split; [apply Z.div_pos; lia|]; apply Z.div_lt_upper_bound; [lia|].
  rewrite <- Z.pow_add_r by lia; replace (w - n + n) with w by lia; lia.
Qed.

Lemma rotl_word w n x : 0 <= n <= w -> word w x -> word w (rotl w n x).
Proof.
  intros H Hx; unfold rotl; rewrite shl_mod by assumption; pose proof (rotl_hi w n x H Hx) as R.
  assert (M : 0 <= x mod 2 ^ (w - n) < 2 ^ (w - n)) by (apply Z.mod_pos_bound, Z.pow_pos_nonneg; lia).
  unfold word; replace (2 ^ w) with (2 ^ (w - n) * 2 ^ n) by (rewrite <- Z.pow_add_r by lia; f_equal; lia).
  nia.
Qed.

Lemma rotl_lxor w n x : 0 <= n <= w -> word w x ->
  Z.lxor ((Z.shiftl x n) mod 2 ^ w) (Z.shiftr x (w - n)) = rotl w n x.
Proof.
  intros H Hx; unfold rotl; rewrite Z.shiftl_mul_pow2, Z.shiftr_div_pow2 by lia.
  rewrite shl_mod by assumption; apply lxor_disjoint_add; [lia | apply Z.mod_pos_bound, Z.pow_pos_nonneg; lia | apply rotl_hi; assumption].
Qed.
Lemma rotl_lor w n x : 0 <= n <= w -> word w x ->
  Z.lor ((Z.shiftl x n) mod 2 ^ w) (Z.shiftr x (w - n)) = rotl w n x.
Proof.
  intros H Hx; unfold rotl; rewrite Z.shiftl_mul_pow2, Z.shiftr_div_pow2 by lia.
  rewrite shl_mod by assumption; apply lor_disjoint_add; [lia | apply Z.mod_pos_bound, Z.pow_pos_nonneg; lia | apply rotl_hi; assumption].
Qed.
Lemma rotr_lor w n x : 0 <= n <= w -> word w x ->
  Z.lor (Z.shiftr x n) ((Z.shiftl x (w - n)) mod 2 ^ w) = rotr w n x.
Proof.
  intros H Hx; unfold rotr; rewrite Z.shiftl_mul_pow2, Z.shiftr_div_pow2 by lia.
  rewrite shl_mod by lia; replace (w - (w - n)) with n by lia.
  rewrite Z.lor_comm, lor_disjoint_add; [lia | lia | apply Z.mod_pos_bound, Z.pow_pos_nonneg; lia |].
  pose proof (rotl_hi w (w - n) x ltac:(lia) Hx) as R; replace (w - (w - n)) with n in R by lia; exact R.
Qed.
Lemma rotr_word w n x : 0 <= n <= w -> word w x -> word w (rotr w n x).
Proof.
  intros H Hx; pose proof (rotl_hi w (w - n) x ltac:(lia) Hx) as R; replace (w - (w - n)) with n in R by lia.
  assert (M : 0 <= x mod 2 ^ n < 2 ^ n) by (apply Z.mod_pos_bound, Z.pow_pos_nonneg; lia).
  unfold word, rotr; replace (2 ^ w) with (2 ^ n * 2 ^ (w - n)) by (rewrite <- Z.pow_add_r by lia; f_equal; lia).
  nia.
Qed.
Lemma shr_word w n x : 0 <= n <= w -> word w x -> word w (shr n x).
Proof.
  intros H Hx; unfold word, shr in *; assert (1 <= 2 ^ n) by (apply (Z.pow_le_mono_r 2 0 n); lia).
  split; [apply Z.div_pos; lia | apply Z.div_lt_upper_bound; nia].
Qed.

Lemma lxor_word w x y : 0 <= w -> word w x -> word w y -> word w (Z.lxor x y).
Proof. intros; apply lxor_range; assumption. Qed.
Lemma land_word w x y : 0 <= w -> word w x -> word w y -> word w (Z.land x y).
Proof. intros; apply land_range; assumption. Qed.
Lemma lor_word w x y : 0 <= w -> word w x -> word w y -> word w (Z.lor x y).
Proof. intros; apply lor_range; assumption. Qed.

Ltac bitwise :=
  apply Z.bits_inj'; intros i Hi;
  repeat (rewrite ?Z.lor_spec, ?Z.lxor_spec, ?Z.land_spec);
  rewrite ?compl_testbit by (assumption || lia);
  repeat match goal with |- context [Z.testbit ?a i] => destruct (Z.testbit a i) end;
  repeat match goal with |- context [i <? ?a] => destruct (i <? a) end; reflexivity.

Lemma ch_or w x y z : 0 <= w -> word w x -> word w y -> word w z ->
  Z.lor (Z.land x y) (Z.land (compl w x) z) = Ch w x y z.
Proof. intros; unfold Ch; bitwise. Qed.
Lemma maj_or x y z :
  Z.lor (Z.lor (Z.land x y) (Z.land x z)) (Z.land y z) = Maj x y z.
Proof. unfold Maj; bitwise. Qed.

Lemma Ch_word w x y z : 0 <= w -> word w x -> word w y -> word w z -> word w (Ch w x y z).
Proof. intros; unfold Ch; apply lxor_word; [assumption| |]; apply land_word; auto using compl_word. Qed.
Lemma Maj_word w x y z : 0 <= w -> word w x -> word w y -> word w z -> word w (Maj x y z).
Proof. intros; unfold Maj; repeat apply lxor_word; auto using land_word. Qed.
Lemma Parity_word w x y z : 0 <= w -> word w x -> word w y -> word w z -> word w (Parity x y z).
Proof. intros; unfold Parity; repeat apply lxor_word; auto. Qed.

Lemma addw3 w a b c : addw w (addw w a b) c = (a + b + c) mod 2 ^ w.
Proof. unfold addw; apply Zplus_mod_idemp_l. Qed.
Lemma addw4 w a b c d : addw w (addw w (addw w a b) c) d = (a + b + c + d) mod 2 ^ w.
Proof. unfold addw at 1; rewrite addw3; apply Zplus_mod_idemp_l. Qed.
Lemma addw5 w a b c d e : addw w (addw w (addw w (addw w a b) c) d) e = (a + b + c + d + e) mod 2 ^ w.
Proof. unfold addw at 1; rewrite addw4; apply Zplus_mod_idemp_l. Qed.
Lemma mod_word w x : 0 <= w -> word w (x mod 2 ^ w).
Proof. intros; apply Z.mod_pos_bound, Z.pow_pos_nonneg; lia. Qed.
