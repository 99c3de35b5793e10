(** The permutation of FIPS 202 can be undone. *)
From Verif Require Import Base BaseP S_SHA3.
Local Open Scope nat_scope.

Definition same (A B : state) : Prop := forall x y z, x < 5 -> y < 5 -> z < 64 -> A x y z = B x y z.

(** Theta: the column parities of a difference that Theta hides obey f = f(+4) + f(+1) turned, which
    squares six times to the same without the turn, and then leaves only zero. *)
Lemma double (f : nat -> nat -> bool) a b k : (forall x z, f x z = xorb (f (x + a) z) (f (x + b) (z + k))) ->
  forall x z, f x z = xorb (f (x + 2 * a) z) (f (x + 2 * b) (z + 2 * k)).
Proof.
  intros H x z. rewrite (H x z), (H (x + a) z), (H (x + b) (z + k)).
  replace (x + a + a) with (x + 2 * a) by lia. replace (x + b + b) with (x + 2 * b) by lia. replace (z + k + k) with (z + 2 * k) by lia. replace (x + b + a) with (x + a + b) by lia.
  destruct (f (x + 2 * a) z), (f (x + a + b) (z + k)), (f (x + 2 * b) (z + 2 * k)); reflexivity.
Qed.
Lemma parity_zero (f : nat -> nat -> bool) : (forall x z, f x z = f (x mod 5) (z mod 64)) -> (forall x z, f x z = xorb (f (x + 4) z) (f (x + 1) (z + 63))) -> forall x z, f x z = false.
Proof.
  intros P H x z. do 6 (let H2 := fresh in pose proof (double _ _ _ _ H) as H2; clear H; rename H2 into H). pose proof (double _ _ _ _ H) as H'.
  assert (W : forall u, f (u + 5) z = f u z) by (intros u; rewrite (P (u + 5)), (P u); f_equal; replace (u + 5) with (u + 1 * 5) by lia; apply Nat.mod_add; lia).
  assert (MD : forall a b q, a = b + q * 5 -> a mod 5 = b mod 5) by (intros a b q ->; apply Nat.mod_add; lia).
  assert (ME : forall a b q, a = b + q * 64 -> a mod 64 = b mod 64) by (intros a b q ->; apply Nat.mod_add; lia).
  assert (M : forall x z, f x z = xorb (f (x + 1) z) (f (x + 4) z)).
  { intros u v. rewrite (H u v). f_equal; (etransitivity; [apply P|]; symmetry; etransitivity; [apply P|]; symmetry; f_equal).
    - apply (MD _ _ 51). lia.
    - apply (MD _ _ 12). lia.
    - apply (ME _ _ 63). lia. }
  assert (M' : forall x z, f x z = xorb (f (x + 2) z) (f (x + 3) z)).
  { intros u v. rewrite (H' u v). f_equal; (etransitivity; [apply P|]; symmetry; etransitivity; [apply P|]; symmetry; f_equal).
    - apply (MD _ _ 102). lia.
    - apply (MD _ _ 25). lia.
    - apply (ME _ _ 126). lia. }
  clear H H' P MD ME.
  pose proof (M x z) as E0. pose proof (M (x + 1) z) as E1. pose proof (M (x + 2) z) as E2. pose proof (M (x + 3) z) as E3. pose proof (M (x + 4) z) as E4. pose proof (M' x z) as F0. pose proof (M' (x + 1) z) as F1.
  rewrite <- ?Nat.add_assoc in *. cbn [Nat.add] in *.
  assert (A8 : x + 8 = x + 3 + 5) by (clear; lia). assert (A7 : x + 7 = x + 2 + 5) by (clear; lia). assert (A6 : x + 6 = x + 1 + 5) by (clear; lia). clear M M'. rewrite W in E1. rewrite A6, W in E2. rewrite A7, W in E3. rewrite A8, !W in E4.
  destruct (f x z), (f (x + 1) z), (f (x + 2) z), (f (x + 3) z), (f (x + 4) z); cbn [xorb] in *; congruence.
Qed.
Lemma Theta_inj A B : same (Theta A) (Theta B) -> same A B.
Proof.
  intros H. set (d := fun x y z => xorb (A x y z) (B x y z)).
  assert (L : forall x z, xorb (C A x z) (C B x z) = C d x z).
  { intros x z. unfold C, d. destruct (A x 0 z), (A x 1 z), (A x 2 z), (A x 3 z), (A x 4 z), (B x 0 z), (B x 1 z), (B x 2 z), (B x 3 z), (B x 4 z); reflexivity. }
  assert (E : forall x y z, x < 5 -> y < 5 -> z < 64 -> d x y z = D d x z).
  { intros x y z X Y Z. specialize (H x y z X Y Z). unfold Theta, D in *. rewrite <- !L. unfold d.
    destruct (A x y z), (B x y z), (C A ((x + 4) mod 5) z), (C B ((x + 4) mod 5) z), (C A ((x + 1) mod 5) ((z + 63) mod 64)), (C B ((x + 1) mod 5) ((z + 63) mod 64)); cbn [xorb] in *; congruence. }
  set (f := fun x z => C d (x mod 5) (z mod 64)).
  assert (F : forall x z, f x z = false).
  { apply parity_zero.
    - intros x z. unfold f. rewrite !Nat.mod_mod by lia. reflexivity.
    - intros x z. unfold f at 1. assert (X : x mod 5 < 5) by (apply Nat.mod_upper_bound; lia). assert (Z : z mod 64 < 64) by (apply Nat.mod_upper_bound; lia).
      unfold C at 1. rewrite (E _ 0 _ X), (E _ 1 _ X), (E _ 2 _ X), (E _ 3 _ X), (E _ 4 _ X) by (try exact Z; lia). unfold D, f.
      rewrite !(Nat.add_mod_idemp_l) by lia. destruct (C d ((x + 4) mod 5) (z mod 64)), (C d ((x + 1) mod 5) ((z + 63) mod 64)); reflexivity. }
  intros x y z X Y Z. specialize (E x y z X Y Z). unfold D in E. pose proof (F (x + 4) z) as F1. pose proof (F (x + 1) (z + 63)) as F2. unfold f in F1, F2. rewrite (Nat.mod_small z 64 Z) in F1. rewrite F1, F2 in E.
  unfold d in E. destruct (A x y z), (B x y z); cbn [xorb] in *; congruence.
Qed.
Lemma Rho_inj A B : same (Rho A) (Rho B) -> same A B.
Proof.
  intros H x y z X Y Z. set (o := rho_offset x y mod 64). assert (O : o < 64) by (apply Nat.mod_upper_bound; lia).
  specialize (H x y ((z + o) mod 64) X Y ltac:(apply Nat.mod_upper_bound; lia)). unfold Rho in H. fold o in H.
  replace (((z + o) mod 64 + 64 - o) mod 64) with z in H; [exact H|].
  destruct (Nat.lt_ge_cases (z + o) 64) as [L|L].
  - rewrite (Nat.mod_small (z + o)) by exact L. replace (z + o + 64 - o) with (z + 1 * 64) by lia. rewrite Nat.mod_add by lia. symmetry; apply Nat.mod_small, Z.
  - replace ((z + o) mod 64) with (z + o - 64) by (replace (z + o) with (z + o - 64 + 1 * 64) at 2 by lia; rewrite Nat.mod_add by lia; symmetry; apply Nat.mod_small; lia).
    replace (z + o - 64 + 64 - o) with z by lia. symmetry; apply Nat.mod_small, Z.
Qed.
Lemma below5 (P : nat -> Prop) : P 0 -> P 1 -> P 2 -> P 3 -> P 4 -> forall x, x < 5 -> P x.
Proof. intros. do 5 (destruct x as [|x]; [assumption|]). lia. Qed.
Lemma Pi_inj A B : same (Pi A) (Pi B) -> same A B.
Proof.
  intros H x y z X Y Z. specialize (H y ((2 * x + 3 * y) mod 5) z Y ltac:(apply Nat.mod_upper_bound; lia) Z). unfold Pi in H.
  replace ((y + 3 * ((2 * x + 3 * y) mod 5)) mod 5) with x in H; [exact H|]. clear - X Y.
  assert (K : forall x, x < 5 -> forall y, y < 5 -> x = (y + 3 * ((2 * x + 3 * y) mod 5)) mod 5) by (apply (below5 (fun x => forall y, y < 5 -> x = (y + 3 * ((2 * x + 3 * y) mod 5)) mod 5)); apply below5; reflexivity).
  apply K; assumption.
Qed.
(** One row of Chi and its inverse. *)
Definition un (a b c d e : bool) : bool := xorb a (negb b && xorb c (negb d && e)).
Lemma Chi_inj A B : same (Chi A) (Chi B) -> same A B.
Proof.
  assert (U : forall A x y z, x < 5 -> A x y z = let R := fun k => Chi A ((x + k) mod 5) y z in un (R 0) (R 1) (R 2) (R 3) (R 4)).
  { intros S x y z. revert x. apply below5; cbv zeta; unfold Chi, un; cbn [Nat.add Nat.modulo Nat.divmod fst snd Nat.sub]; destruct (S 0 y z), (S 1 y z), (S 2 y z), (S 3 y z), (S 4 y z); reflexivity. }
  intros H x y z X Y Z. rewrite (U A), (U B) by exact X. cbv beta zeta. assert (M : forall k, (x + k) mod 5 < 5) by (intros k; apply Nat.mod_upper_bound; lia). rewrite (H _ y z (M 0) Y Z), (H _ y z (M 1) Y Z), (H _ y z (M 2) Y Z), (H _ y z (M 3) Y Z), (H _ y z (M 4) Y Z). reflexivity.
Qed.
Lemma Iota_inj ir A B : same (Iota ir A) (Iota ir B) -> same A B.
Proof. intros H x y z X Y Z. specialize (H x y z X Y Z). unfold Iota in H. destruct (Nat.eqb x 0 && Nat.eqb y 0); [|exact H]. destruct (A x y z), (B x y z), (RC ir z); cbn [xorb] in *; congruence. Qed.
Theorem keccak_inj A B : same (keccak_f A) (keccak_f B) -> same A B.
Proof.
  unfold keccak_f. generalize (seq 0 24). intros l. revert A B. induction l as [|ir l IH]; intros A B H; [exact H|]. cbn [fold_left] in H. apply IH in H. unfold Rnd in H. apply Theta_inj, Rho_inj, Pi_inj, Chi_inj, (Iota_inj ir), H.
Qed.
