(** The sine table of MD5: floor(2^32 |sin i|) for i = 1 .. 64, by rational enclosures of
    sin 1 and cos 1 (alternating series) carried along with the angle addition formulas. *)
From Coq Require Import Reals Lra.
From Verif Require Import Base.
Open Scope Z_scope.

(** Taylor sums at 1 over a common denominator. *)
Fixpoint sN (n : nat) : Z := match n with O => 1 | S k => sN k * ((2 * Z.of_nat k + 2) * (2 * Z.of_nat k + 3)) + (-1) ^ Z.of_nat (S k) end.
Fixpoint sF (n : nat) : Z := match n with O => 1 | S k => sF k * ((2 * Z.of_nat k + 2) * (2 * Z.of_nat k + 3)) end.
Fixpoint cN (n : nat) : Z := match n with O => 1 | S k => cN k * ((2 * Z.of_nat k + 1) * (2 * Z.of_nat k + 2)) + (-1) ^ Z.of_nat (S k) end.
Fixpoint cF (n : nat) : Z := match n with O => 1 | S k => cF k * ((2 * Z.of_nat k + 1) * (2 * Z.of_nat k + 2)) end.

Lemma sF_fact n : IZR (sF n) = INR (fact (2 * n + 1)).
Proof.
  induction n as [|n IH]; [reflexivity|].
  replace (2 * S n + 1)%nat with (S (S (2 * n + 1))) by lia.
  rewrite !fact_simpl, !mult_INR, <- IH.
  cbn [sF]; rewrite !mult_IZR, !plus_IZR, !mult_IZR, !S_INR, plus_INR, mult_INR, <- INR_IZR_INZ.
  simpl (INR 2); simpl (INR 1); ring.
Qed.
Lemma cF_fact n : IZR (cF n) = INR (fact (2 * n)).
Proof.
  induction n as [|n IH]; [reflexivity|].
  replace (2 * S n)%nat with (S (S (2 * n))) by lia.
  rewrite !fact_simpl, !mult_INR, <- IH.
  cbn [cF]; rewrite !mult_IZR, !plus_IZR, !mult_IZR, !S_INR, mult_INR, <- INR_IZR_INZ.
  simpl (INR 2); ring.
Qed.
Lemma sF_nz n : IZR (sF n) <> 0%R. Proof. rewrite sF_fact; apply INR_fact_neq_0. Qed.
Lemma cF_nz n : IZR (cF n) <> 0%R. Proof. rewrite cF_fact; apply INR_fact_neq_0. Qed.

Lemma pow_m1 n : IZR ((-1) ^ Z.of_nat n) = ((-1) ^ n)%R.
Proof. rewrite <- pow_IZR; reflexivity. Qed.

Lemma sin_approx_1 n : sin_approx 1 n = (IZR (sN n) / IZR (sF n))%R.
Proof.
  unfold sin_approx; induction n as [|n IH].
  - cbn [sum_f_R0 sN sF]; unfold sin_term; simpl; field.
  - cbn [sum_f_R0]; rewrite IH; unfold sin_term; rewrite pow1, <- sF_fact.
    pose proof (sF_nz n) as A; pose proof (sF_nz (S n)) as B.
    replace (IZR (sN (S n))) with (IZR (sN n) * (IZR (sF (S n)) / IZR (sF n)) + (-1) ^ (S n))%R.
    + field; auto.
    + cbn [sN sF]; rewrite plus_IZR, pow_m1, !(mult_IZR _ (_ * _)); field; exact A.
Qed.
Lemma cos_approx_1 n : cos_approx 1 n = (IZR (cN n) / IZR (cF n))%R.
Proof.
  unfold cos_approx; induction n as [|n IH].
  - cbn [sum_f_R0 cN cF]; unfold cos_term; simpl; field.
  - cbn [sum_f_R0]; rewrite IH; unfold cos_term; rewrite pow1, <- cF_fact.
    pose proof (cF_nz n) as A; pose proof (cF_nz (S n)) as B.
    replace (IZR (cN (S n))) with (IZR (cN n) * (IZR (cF (S n)) / IZR (cF n)) + (-1) ^ (S n))%R.
    + field; auto.
    + cbn [cN cF]; rewrite plus_IZR, pow_m1, !(mult_IZR _ (_ * _)); field; exact A.
Qed.

(** ** Scaled integer enclosures *)
Definition P2 : Z := 1267650600228229401496703205376. (* 2^100 *)
Definition encl (x : R) (lo hi : Z) : Prop := (IZR lo <= x * IZR P2 <= IZR hi)%R.

Lemma P2_pos : (0 < IZR P2)%R. Proof. apply IZR_lt; reflexivity. Qed.

Lemma encl_frac x n d n' d' : (0 < d)%Z -> (0 < d')%Z ->
  (IZR n / IZR d <= x <= IZR n' / IZR d')%R -> encl x (n * P2 / d) (n' * P2 / d' + 1).
Proof.
  intros Hd Hd' [L U]; pose proof P2_pos as PP; unfold encl.
  apply IZR_lt in Hd as Rd; apply IZR_lt in Hd' as Rd'.
  split.
  - apply Rle_trans with (IZR n / IZR d * IZR P2)%R; [|apply Rmult_le_compat_r; lra].
    apply (Rmult_le_reg_r (IZR d)); [exact Rd|].
    replace (IZR n / IZR d * IZR P2 * IZR d)%R with (IZR (n * P2)) by (rewrite mult_IZR; field; lra).
    rewrite <- mult_IZR; apply IZR_le; rewrite Z.mul_comm; apply Z.mul_div_le; exact Hd.
  - apply Rle_trans with (IZR n' / IZR d' * IZR P2)%R; [apply Rmult_le_compat_r; lra|].
    apply (Rmult_le_reg_r (IZR d')); [exact Rd'|].
    replace (IZR n' / IZR d' * IZR P2 * IZR d')%R with (IZR (n' * P2)) by (rewrite mult_IZR; field; lra).
    rewrite <- mult_IZR; apply IZR_le.
    pose proof (Z.div_mod (n' * P2) d' ltac:(lia)); pose proof (Z.mod_pos_bound (n' * P2) d' Hd'); nia.
Qed.

Definition mul_i (a b : Z * Z) : Z * Z :=
  let p := fst a * fst b in let q := fst a * snd b in let r := snd a * fst b in let s := snd a * snd b in
  (Z.min (Z.min p q) (Z.min r s) / P2, Z.max (Z.max p q) (Z.max r s) / P2 + 1).
Definition encl' (x : R) (a : Z * Z) : Prop := encl x (fst a) (snd a).

Lemma prod_bounds (a b c d x y : R) : (a <= x <= b -> c <= y <= d ->
  Rmin (Rmin (a * c) (a * d)) (Rmin (b * c) (b * d)) <= x * y <= Rmax (Rmax (a * c) (a * d)) (Rmax (b * c) (b * d)))%R.
Proof.
  intros Hx Hy.
  assert (L : (Rmin (a * y) (b * y) <= x * y <= Rmax (a * y) (b * y))%R).
  { destruct (Rle_dec 0 y).
    - assert (a * y <= x * y <= b * y)%R by nra.
      pose proof (Rmin_l (a * y) (b * y)); pose proof (Rmax_r (a * y) (b * y)); lra.
    - assert (b * y <= x * y <= a * y)%R by nra.
      pose proof (Rmin_r (a * y) (b * y)); pose proof (Rmax_l (a * y) (b * y)); lra. }
  assert (M : forall k, (Rmin (k * c) (k * d) <= k * y <= Rmax (k * c) (k * d))%R).
  { intros k; destruct (Rle_dec 0 k).
    - assert (k * c <= k * y <= k * d)%R by nra.
      pose proof (Rmin_l (k * c) (k * d)); pose proof (Rmax_r (k * c) (k * d)); lra.
    - assert (k * d <= k * y <= k * c)%R by nra.
      pose proof (Rmin_r (k * c) (k * d)); pose proof (Rmax_l (k * c) (k * d)); lra. }
  pose proof (M a) as Ma; pose proof (M b) as Mb.
  revert L Ma Mb; unfold Rmin, Rmax; repeat (destruct (Rle_dec _ _)); intros; lra.
Qed.

Lemma IZR_min a b : IZR (Z.min a b) = Rmin (IZR a) (IZR b).
Proof. unfold Rmin; destruct (Rle_dec (IZR a) (IZR b)) as [H|H].
  - apply le_IZR in H; rewrite Z.min_l by exact H; reflexivity.
  - rewrite Z.min_r; [reflexivity|]; destruct (Z.le_gt_cases b a); [assumption|]; exfalso; apply H, IZR_le; lia.
Qed.
Lemma IZR_max a b : IZR (Z.max a b) = Rmax (IZR a) (IZR b).
Proof. unfold Rmax; destruct (Rle_dec (IZR a) (IZR b)) as [H|H].
  - apply le_IZR in H; rewrite Z.max_r by exact H; reflexivity.
  - rewrite Z.max_l; [reflexivity|]; destruct (Z.le_gt_cases b a); [assumption|]; exfalso; apply H, IZR_le; lia.
Qed.

Lemma mul_i_ok x y a b : encl' x a -> encl' y b -> encl' (x * y) (mul_i a b).
Proof.
  unfold encl', encl, mul_i; cbn [fst snd]; intros Hx Hy; pose proof P2_pos as PP.
  pose proof (prod_bounds _ _ _ _ _ _ Hx Hy) as [L U].
  rewrite <- !mult_IZR, <- !IZR_min in L; rewrite <- !mult_IZR, <- !IZR_max in U.
  replace (x * IZR P2 * (y * IZR P2))%R with (x * y * IZR P2 * IZR P2)%R in L, U by ring.
  assert (PZ : (0 < P2)%Z) by reflexivity.
  split; apply (Rmult_le_reg_r (IZR P2)); try exact PP.
  - apply Rle_trans with (2 := L); rewrite <- mult_IZR; apply IZR_le; rewrite Z.mul_comm; apply Z.mul_div_le; exact PZ.
  - apply Rle_trans with (1 := U); rewrite <- mult_IZR; apply IZR_le.
    match goal with |- (?m <= _)%Z => set (M := m) end.
    pose proof (Z.div_mod M P2 ltac:(lia)); pose proof (Z.mod_pos_bound M P2 PZ); nia.
Qed.
Definition add_i (a b : Z * Z) : Z * Z := (fst a + fst b, snd a + snd b).
Definition sub_i (a b : Z * Z) : Z * Z := (fst a - snd b, snd a - fst b).
Lemma add_i_ok x y a b : encl' x a -> encl' y b -> encl' (x + y) (add_i a b).
Proof. unfold encl', encl, add_i; cbn [fst snd]; rewrite !plus_IZR; intros; lra. Qed.
Lemma sub_i_ok x y a b : encl' x a -> encl' y b -> encl' (x - y) (sub_i a b).
Proof. unfold encl', encl, sub_i; cbn [fst snd]; rewrite !minus_IZR; intros; lra. Qed.

(** sin 1 and cos 1. *)
Definition s1 : Z * Z := (1066691198966369310635496214684, 1066691198966369310635496214685).
Definition c1 : Z * Z := (684914542338443705542701930870, 684914542338443705542701930871).
Lemma s1_eq : s1 = (sN 15 * P2 / sF 15, sN 16 * P2 / sF 16 + 1). Proof. vm_compute; reflexivity. Qed.
Lemma c1_eq : c1 = (cN 15 * P2 / cF 15, cN 16 * P2 / cF 16 + 1). Proof. vm_compute; reflexivity. Qed.
Lemma one_lt_pi2 : (1 <= PI / 2)%R.
Proof. pose proof PI2_1; lra. Qed.
Lemma s1_ok : encl' (sin 1) s1.
Proof.
  rewrite s1_eq; apply encl_frac; [reflexivity|reflexivity|]; rewrite <- !sin_approx_1.
  pose proof one_lt_pi2; change 15%nat with (2 * 7 + 1)%nat; change 16%nat with (2 * (7 + 1))%nat; apply sin_bound; lra.
Qed.
Lemma c1_ok : encl' (cos 1) c1.
Proof.
  rewrite c1_eq; apply encl_frac; [reflexivity|reflexivity|]; rewrite <- !cos_approx_1.
  pose proof one_lt_pi2; change 15%nat with (2 * 7 + 1)%nat; change 16%nat with (2 * (7 + 1))%nat; apply cos_bound; lra.
Qed.

(** Enclosures of sin n and cos n. *)
Fixpoint sc (n : nat) : (Z * Z) * (Z * Z) :=
  match n with
  | O => (s1, c1)
  | S k => let '(s, c) := sc k in
           (add_i (mul_i s c1) (mul_i c s1), sub_i (mul_i c c1) (mul_i s s1))
  end.
Lemma sc_ok n : encl' (sin (INR (S n))) (fst (sc n)) /\ encl' (cos (INR (S n))) (snd (sc n)).
Proof.
  induction n as [|n [Is Ic]].
  - cbn [sc fst snd INR]; split; [apply s1_ok | apply c1_ok].
  - rewrite (S_INR (S n)), sin_plus, cos_plus; cbn [sc]; destruct (sc n) as [s c]; cbn [fst snd] in *.
    split; [apply add_i_ok | apply sub_i_ok]; apply mul_i_ok; auto using s1_ok, c1_ok.
Qed.

(** Does the enclosure show floor(2^32 |sin|) = t? *)
Definition fits (a : Z * Z) (t : Z) : bool :=
  let ok lo hi := (t * 2 ^ 68 <=? lo) && (hi <? (t + 1) * 2 ^ 68) in
  ((0 <=? fst a) && ok (fst a) (snd a)) || ((snd a <? 0) && ok (- snd a) (- fst a)).
Lemma fits_ok x a t : encl' x a -> fits a t = true ->
  (IZR t <= IZR (2 ^ 32) * Rabs x < IZR t + 1)%R.
Proof.
  intros [L U] H; unfold fits in H.
  assert (EP : IZR P2 = (IZR (2 ^ 32) * IZR (2 ^ 68))%R) by (rewrite <- mult_IZR; reflexivity).
  assert (P68 : (0 < IZR (2 ^ 68))%R) by (apply IZR_lt; reflexivity).
  assert (P32 : (0 < IZR (2 ^ 32))%R) by (apply IZR_lt; reflexivity).
  pose proof P2_pos as PP.
  apply orb_true_iff in H; destruct H as [H|H]; apply andb_true_iff in H; destruct H as [Hs H];
    apply andb_true_iff in H; destruct H as [H1 H2]; apply Z.leb_le in H1; apply Z.ltb_lt in H2;
    apply IZR_le in H1; apply IZR_lt in H2; rewrite mult_IZR in H1; rewrite mult_IZR, plus_IZR in H2.
  - apply Z.leb_le, IZR_le in Hs.
    assert (0 <= x)%R by (apply (Rmult_le_reg_r (IZR P2)); [exact PP | lra]).
    rewrite Rabs_right by lra; rewrite EP in L, U.
    split; [apply (Rmult_le_reg_r (IZR (2 ^ 68))) | apply (Rmult_lt_reg_r (IZR (2 ^ 68)))]; try exact P68; lra.
  - apply Z.ltb_lt, IZR_lt in Hs.
    assert (x < 0)%R by (apply (Rmult_lt_reg_r (IZR P2)); [exact PP | lra]).
    rewrite Rabs_left by lra; rewrite EP in L, U; rewrite opp_IZR in H1, H2.
    split; [apply (Rmult_le_reg_r (IZR (2 ^ 68))) | apply (Rmult_lt_reg_r (IZR (2 ^ 68)))]; try exact P68; lra.
Qed.

Definition sc_next (p : (Z * Z) * (Z * Z)) : (Z * Z) * (Z * Z) :=
  let '(s, c) := p in (add_i (mul_i s c1) (mul_i c s1), sub_i (mul_i c c1) (mul_i s s1)).
Fixpoint walk (p : (Z * Z) * (Z * Z)) (T : list Z) : bool :=
  match T with
  | [] => true
  | t :: r => fits (fst p) t && walk (sc_next p) r
  end.
Lemma walk_ok T : forall k, walk (sc k) T = true -> forall i, (i < length T)%nat -> fits (fst (sc (k + i))) (nth i T 0) = true.
Proof.
  induction T as [|t T IH]; intros k H i Hi; [cbn in Hi; lia|].
  cbn [walk] in H; apply andb_true_iff in H; destruct H as [H1 H2].
  destruct i as [|i]; [rewrite Nat.add_0_r; exact H1|].
  cbn [nth]; replace (k + S i)%nat with (S k + i)%nat by lia; apply IH; [exact H2 | cbn in Hi; lia].
Qed.
Definition table_fits (T : list Z) : bool := Nat.eqb (length T) 64 && walk (s1, c1) T.
Lemma table_fits_ok T : table_fits T = true -> forall i, (i < 64)%nat ->
  (IZR (nth i T 0%Z) <= IZR (2 ^ 32) * Rabs (sin (INR (S i))) < IZR (nth i T 0%Z) + 1)%R.
Proof.
  intros H i Hi; apply andb_true_iff in H; destruct H as [L H]; apply Nat.eqb_eq in L.
  apply (fits_ok _ (fst (sc i))); [apply sc_ok|]; apply (walk_ok T 0 H i); rewrite L; exact Hi.
Qed.
