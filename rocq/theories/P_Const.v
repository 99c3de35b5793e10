(** The constant tables against their mathematical definitions. *)
From Coq Require Import Znumtheory.
From Verif Require Import Base BaseP S_Const.
Open Scope Z_scope.

Lemma is_prime_nat_spec n : is_prime_nat n = true <-> prime (Z.of_nat n).
Proof.
  unfold is_prime_nat; rewrite andb_true_iff, Nat.leb_le, forallb_forall; split.
  - intros [H2 HF]; apply prime_alt; split; [lia|].
    intros d Hd [q Hq].
    assert (Hin : In (Z.to_nat d) (seq 2 (n - 2))) by (apply in_seq; lia).
    specialize (HF _ Hin); apply negb_true_iff, Nat.eqb_neq in HF; apply HF.
    apply Nat.mod_divide; [lia|]; exists (Z.to_nat q); nia.
  - intros HP; pose proof HP as HP'; apply prime_alt in HP'; destruct HP' as [H1 HF].
    split; [lia|]; intros d Hd; apply in_seq in Hd; apply negb_true_iff, Nat.eqb_neq; intros C.
    apply Nat.mod_divide in C; [|lia]; destruct C as [q Hq].
    apply (HF (Z.of_nat d)); [lia|]; exists (Z.of_nat q); nia.
Qed.

Lemma primes_below_spec n p : In p (primes_below n) <-> prime p /\ p < Z.of_nat n.
Proof.
  unfold primes_below; rewrite in_map_iff; split.
  - intros (k & <- & Hk); apply filter_In in Hk; destruct Hk as [Hs Hp].
    apply in_seq in Hs; apply is_prime_nat_spec in Hp; split; [exact Hp | lia].
  - intros [HP HL]; pose proof (prime_ge_2 p HP); exists (Z.to_nat p); split; [lia|].
    apply filter_In; split; [apply in_seq; lia|]; apply is_prime_nat_spec; rewrite Z2Nat.id by lia; exact HP.
Qed.

(** Increasing order, so position i holds the (i+1)-th prime. *)
Definition increasing (l : list Z) : Prop := forall i j, (i < j < length l)%nat -> nth i l 0 < nth j l 0.
Lemma filter_seq_inc (f : nat -> bool) k : forall s, forall i j, (i < j < length (filter f (seq s k)))%nat ->
  (nth i (filter f (seq s k)) 0 < nth j (filter f (seq s k)) 0)%nat.
Proof.
  induction k as [|k IH]; intros s i j H; cbn [seq filter length] in *; [lia|].
  destruct (f s); cbn [length] in H.
  - destruct j as [|j]; [lia|]; destruct i as [|i]; cbn [nth]; [|apply IH; lia].
    assert (Hin : In (nth j (filter f (seq (S s) k)) 0%nat) (filter f (seq (S s) k))) by (apply nth_In; lia).
    apply filter_In in Hin; destruct Hin as [Hin _]; apply in_seq in Hin; lia.
  - apply IH; exact H.
Qed.
Lemma primes_below_inc n : increasing (primes_below n).
Proof.
  unfold increasing, primes_below; intros i j H; rewrite map_length in H.
  change 0 with (Z.of_nat 0); rewrite !map_nth; apply inj_lt, filter_seq_inc; exact H.
Qed.

(** [v] is the first [w] bits of the fractional part of the k-th root of p:
    floor(2^w * p^(1/k)) = whole * 2^w + v. *)
Definition root_bits (k w p v : Z) : Prop :=
  0 <= v < 2 ^ w /\ exists whole, 0 <= whole /\ (whole * 2 ^ w + v) ^ k <= p * 2 ^ (k * w) < (whole * 2 ^ w + v + 1) ^ k.

Lemma frac_sqrt_bits w p : 0 < w -> 0 <= p -> root_bits 2 w p (frac_sqrt w p).
Proof.
  intros Hw Hp; unfold root_bits, frac_sqrt.
  assert (P : 0 < 2 ^ w) by (apply Z.pow_pos_nonneg; lia).
  assert (P2 : 0 < 2 ^ (2 * w)) by (apply Z.pow_pos_nonneg; lia).
  set (n := p * 2 ^ (2 * w)); assert (Hn : 0 <= n) by (unfold n; nia); clearbody n.
  pose proof (Z.sqrt_spec n Hn) as S; pose proof (Z.sqrt_nonneg n).
  split; [apply Z.mod_pos_bound; lia|]; exists (Z.sqrt n / 2 ^ w).
  split; [apply Z.div_pos; lia|].
  replace (Z.sqrt n / 2 ^ w * 2 ^ w + Z.sqrt n mod 2 ^ w) with (Z.sqrt n)
    by (rewrite (Z.div_mod (Z.sqrt n) (2 ^ w)) at 1 by lia; lia).
  rewrite !Z.pow_2_r; unfold Z.succ in S; lia.
Qed.

Lemma frac_cbrt_bits w p : 0 < w -> 0 <= p < 4096 -> root_bits 3 w p (frac_cbrt w p).
Proof.
  intros Hw Hp; unfold root_bits, frac_cbrt.
  assert (P : 0 < 2 ^ w) by (apply Z.pow_pos_nonneg; lia).
  assert (Hn : 0 <= p * 2 ^ (3 * w) < (2 ^ Z.of_nat (Z.to_nat (w + 4))) ^ 3).
  { rewrite Z2Nat.id by lia; rewrite <- Z.pow_mul_r by lia.
    replace ((w + 4) * 3) with (12 + 3 * w) by lia; rewrite Z.pow_add_r by lia; change (2 ^ 12) with 4096.
    assert (0 < 2 ^ (3 * w)) by (apply Z.pow_pos_nonneg; lia); nia. }
  pose proof (icbrt_spec _ _ Hn) as S; set (r := icbrt _ _) in *.
  assert (Hr : 0 <= r).
  { destruct (Z.neg_nonneg_cases r) as [N|N]; [exfalso|exact N].
    assert (E : (r + 1) ^ 3 <= 0).
    { replace ((r + 1) ^ 3) with ((r + 1) * ((r + 1) * (r + 1))) by ring.
      assert (0 <= (r + 1) * (r + 1)) by nia; nia. }
    destruct S as [_ S]; destruct Hn as [Hn _]; revert S Hn E; generalize ((r + 1) ^ 3) (p * 2 ^ (3 * w)); lia. }
  split; [apply Z.mod_pos_bound; lia|]; exists (r / 2 ^ w).
  split; [apply Z.div_pos; lia|].
  replace (r / 2 ^ w * 2 ^ w + r mod 2 ^ w) with r
    by (rewrite (Z.div_mod r (2 ^ w)) at 1 by lia; lia).
  exact S.
Qed.
