(** Multiples of the base point of X25519. *)
From Coq Require Import Znumtheory Field.
From Verif Require Import Base BaseP S_X25519 P_Prime25519 P_F25519 P_Ladder P_Edwards P_DH P_Order.
Open Scope Z_scope.
Local Open Scope F_scope.

Lemma u9_ne : inF 9 <> F0. Proof. intros H. apply (f_equal fz) in H. vm_compute in H. discriminate H. Qed.
Lemma ucoord_pm e y : ucoord e y <> F0 -> (1 - y)%F <> F0 /\ (1 + y)%F <> F0.
Proof.
  intros H. split; intros E; apply H; unfold ucoord; rewrite E; [rewrite Finv_0; ring | ring].
Qed.
Lemma ell_pos : (0 < ell)%Z. Proof. reflexivity. Qed.

Section Order.
Variables e d : F.
Hypothesis NS : forall s, (s * s)%F <> d.
Hypothesis C : curve e d.
Variable B : F * F.
Hypothesis HB : on d B.
Hypothesis UB : ucoord e (snd B) = inF 9.
Notation mult n := (nmul d (Z.to_nat n) B).

Lemma y1_zero P : on d P -> (1 - snd P)%F = F0 -> P = ezero.
Proof.
  intros HP Y. apply F_sub0 in Y. symmetry in Y. destruct P as [x y]. cbn [snd] in Y. subst y. unfold on in HP; cbn [fst snd] in HP. unfold ezero. apply pair_eq; [|reflexivity].
  assert (T : ((x * x) * (1 - d))%F = F0) by (transitivity ((x * x + 1 * 1) - (1 + d * (x * x) * (1 * 1)))%F; [ring | rewrite HP; ring]).
  apply F_integral in T. destruct T as [T|T]; [apply F_integral in T; tauto | destruct (d_ne1 d NS T)].
Qed.
Lemma mult_check n k : (0 <= k < 2 ^ Z.of_nat n)%Z -> z_of (nloop n k 9 false (1, 0, (9, 1))%Z) = 0%Z -> mult k = ezero.
Proof.
  intros Hk K.
  assert (U : ucoord e (snd B) <> F0) by (rewrite UB; exact u9_ne). destruct (ucoord_pm _ _ U) as [B1 B2].
  assert (R0 : Rep d e B (fswap false (1, 0, (ucoord e (snd B), 1))%F) 0).
  { split.
    - cbn [nmul ezero snd]. pose proof (Finv_l (1 + 1)%F F_two) as Hh. exists (e * Finv (1 + 1))%F. split; [apply F_mul_ne; [exact (e_ne d e C) | apply Finv_ne; exact F_two]|].
      split; [|ring]. transitivity ((e * e) * (Finv (1 + 1) * (1 + 1)))%F; [rewrite Hh, (e_sq d e C); ring | ring].
    - rewrite nmul_1. exists (Finv (1 - snd B)). split; [apply Finv_ne, B1|]. split; [unfold ucoord; ring | symmetry; apply Finv_l, B1]. }
  apply (rep_loop d NS e C B HB B1 B2 n k) in R0; [|lia]. cbv zeta in R0. rewrite UB in R0.
  assert (E0 : (1, 0, (inF 9, 1))%F = toF (1, 0, (9, 1))%Z) by reflexivity. rewrite E0, toF_nloop in R0. cbn [fst snd] in R0. rewrite <- toF_swap in R0.
  unfold z_of in K. set (r := nloop n k 9 false (1, 0, (9, 1))%Z) in *. clearbody r.
  destruct (cswap (fst r) (snd r)) as [[x2 z2] [x3 z3]]. cbn [toF] in R0. destruct R0 as [(l & Hl & _ & Hz) _].
  rewrite Nat.mul_0_l, Nat.add_0_l in Hz. rewrite Z.mod_small in Hz by exact Hk.
  assert (Z0 : inF z2 = F0) by (apply inF_eq; rewrite K; reflexivity). rewrite Z0 in Hz. symmetry in Hz. apply F_integral in Hz. destruct Hz as [Hz|Hz]; [contradiction|].
  apply y1_zero; [apply nmul_on; assumption | exact Hz].
Qed.
Lemma mult_ell : mult ell = ezero.
Proof. refine (mult_check 253 ell _ ell_check). split; [discriminate | reflexivity]. Qed.
Lemma B_ne : B <> ezero.
Proof. intros E. apply u9_ne. rewrite <- UB, E. unfold ucoord, ezero; cbn [snd]. assert (Z : (1 - 1)%F = F0) by ring. rewrite Z, Finv_0. ring. Qed.
Lemma mult_mul m n : (0 <= m)%Z -> (0 <= n)%Z -> nmul d (Z.to_nat m) (mult n) = mult (m * n).
Proof. intros Hm Hn. rewrite Z2Nat.inj_mul, (nmul_mul d NS) by assumption. reflexivity. Qed.
Lemma mult_add m n : (0 <= m)%Z -> (0 <= n)%Z -> mult (m + n) = eadd d (mult m) (mult n).
Proof. intros Hm Hn. rewrite Z2Nat.inj_add, (nmul_add d NS) by assumption. reflexivity. Qed.
Lemma mult_period m n : (0 <= m)%Z -> (0 <= n)%Z -> mult (m + n * ell) = mult m.
Proof.
  intros Hm Hn. pose proof ell_pos. rewrite mult_add by nia. rewrite <- (mult_mul n ell), mult_ell, nmul_zero by lia. apply eadd_0_r.
Qed.
Theorem mult_zero n : (0 <= n)%Z -> mult n = ezero <-> (ell | n)%Z.
Proof.
  intros Hn. pose proof ell_pos as EP. split.
  - intros H. destruct (Zdivide_dec ell n) as [D|ND]; [exact D|exfalso].
    assert (G : rel_prime n ell) by (apply rel_prime_sym, prime_rel_prime; [exact prime_ell | exact ND]).
    apply rel_prime_bezout in G. destruct G as [a b G]. set (a' := (a mod ell)%Z). assert (A0 : (0 <= a' < ell)%Z) by (apply Z.mod_pos_bound, EP).
    assert (E : exists t, (a' * n = 1 + t * ell /\ 0 <= t)%Z).
    { exists (- b - (a / ell) * n)%Z. assert (Q : (a' * n = 1 + (- b - (a / ell) * n) * ell)%Z) by (unfold a'; rewrite Zmod_eq_full by lia; lia).
      split; [exact Q|]. assert (1 < ell)%Z by reflexivity. assert (0 <= a' * n)%Z by nia. set (t := (- b - a / ell * n)%Z) in *. clearbody t a'. clear - Q H0 H1. nia. }
    destruct E as (t & E & Ht). pose proof (mult_mul a' n ltac:(lia) Hn) as M. rewrite H, nmul_zero, E, mult_period in M by lia.
    change (Z.to_nat 1) with 1%nat in M. rewrite nmul_1 in M. exact (B_ne (eq_sym M)).
  - intros [t ->]. assert (0 <= t)%Z by nia. pose proof (mult_period 0 t ltac:(lia) H) as M. rewrite Z.add_0_l in M. exact M.
Qed.
Lemma torsion_zero P : torsion2 P -> eadd d P P = ezero.
Proof. intros [X Y]. apply two_torsion; assumption. Qed.
Lemma u_zero n : (0 <= n)%Z -> ucoord e (snd (mult n)) = F0 -> (ell | n)%Z.
Proof.
  intros Hn U. assert (T : mult (2 * n) = ezero).
  { replace (2 * n)%Z with (n + n)%Z by lia. rewrite mult_add by assumption. apply torsion_zero. apply (u_torsion d NS e C); [apply nmul_on; assumption | exact U]. }
  apply mult_zero in T; [|lia]. apply prime_mult in T; [|exact prime_ell]. destruct T as [T|T]; [|exact T]. apply Z.divide_pos_le in T; [|lia]. discriminate T || (vm_compute in T; destruct (T eq_refl)).
Qed.
Lemma u_inj P Q : on d P -> on d Q -> ucoord e (snd P) = ucoord e (snd Q) -> ucoord e (snd P) <> F0 -> P = Q \/ P = eneg Q.
Proof.
  intros HP HQ U N. pose proof N as N'. rewrite U in N'. destruct (ucoord_pm _ _ N) as [P1 _], (ucoord_pm _ _ N') as [Q1 _].
  destruct P as [x y], Q as [x' y']. cbn [snd] in *. unfold on in HP, HQ; cbn [fst snd] in HP, HQ.
  assert (Y : y = y').
  { unfold ucoord in U. apply F_sub0. assert (T : ((1 + 1) * (y - y'))%F = F0); [|apply F_integral in T; destruct T as [T|T]; [destruct (F_two T) | exact T]].
    assert (E : ((1 + y) * (1 - y'))%F = ((1 + y') * (1 - y))%F).
    { apply (F_cancel e); [exact (e_ne d e C)|]. transitivity ((e * (1 + y) * (Finv (1 - y) * (1 - y))) * (1 - y'))%F; [rewrite Finv_l by exact P1; ring|].
      transitivity ((e * (1 + y) * Finv (1 - y)) * ((1 - y) * (1 - y')))%F; [ring|]. rewrite U.
      transitivity ((e * (1 + y') * (Finv (1 - y') * (1 - y'))) * (1 - y))%F; [ring|]. rewrite Finv_l by exact Q1. ring. }
    transitivity ((1 + y) * (1 - y') - (1 + y') * (1 - y))%F; [ring | rewrite E; ring]. }
  subst y'. assert (X : (x * x)%F = (x' * x')%F).
  { apply (F_cancel (1 - d * (y * y))); [apply y_ne; exact NS|]. transitivity (1 - y * y)%F.
    - transitivity ((x * x + y * y) - d * (x * x) * (y * y) - y * y)%F; [ring | rewrite HP; ring].
    - symmetry. transitivity ((x' * x' + y * y) - d * (x' * x') * (y * y) - y * y)%F; [ring | rewrite HQ; ring]. }
  assert (T : ((x - x') * (x + x'))%F = F0) by (transitivity (x * x - x' * x')%F; [ring | rewrite X; ring]).
  apply F_integral in T. destruct T as [T|T]; [left; apply F_sub0 in T; rewrite T; reflexivity | right].
  unfold eneg; cbn [fst snd]. apply pair_eq; [|reflexivity]. transitivity ((x + x') - x')%F; [ring | rewrite T; ring].
Qed.
Lemma eneg_mult n : (0 <= n)%Z -> eadd d (mult n) (eneg (mult n)) = ezero.
Proof. intros Hn. apply eadd_neg; [exact NS|]. apply nmul_on; assumption. Qed.
(** Equal coordinates: the multiples are equal or opposite. *)
Theorem u_equal m n : (0 <= m)%Z -> (0 <= n)%Z -> ~ (ell | m)%Z ->
  ucoord e (snd (mult m)) = ucoord e (snd (mult n)) -> (ell | m - n)%Z \/ (ell | m + n)%Z.
Proof.
  intros Hm Hn NM U. pose proof ell_pos as EP.
  destruct (u_inj (mult m) (mult n)) as [E|E]; try assumption; try (apply nmul_on; assumption).
  - intros Z. apply NM, u_zero; assumption.
  - left. (* m + n' with n' = (ell - 1) n *)
    assert (Z : mult (m + (ell - 1) * n) = ezero).
    { rewrite mult_add by nia. rewrite E, <- mult_add by nia. apply mult_zero; [nia|]. exists n. ring. }
    apply mult_zero in Z; [|nia]. destruct Z as [t Z]. exists (t - n)%Z. nia.
  - right. assert (Z : mult (m + n) = ezero) by (rewrite mult_add, E, eadd_comm by assumption; apply eneg_mult; assumption).
    apply mult_zero in Z; [exact Z | lia].
Qed.
Lemma eneg_u P : snd (eneg P) = snd P. Proof. destruct P; reflexivity. Qed.
(** ... and conversely. *)
Theorem equal_u m n : (0 <= m)%Z -> (0 <= n)%Z -> (ell | m - n)%Z \/ (ell | m + n)%Z -> ucoord e (snd (mult m)) = ucoord e (snd (mult n)).
Proof.
  intros Hm Hn H. pose proof ell_pos as EP. f_equal. destruct H as [[t H]|[t H]].
  - f_equal. destruct (Z.le_ge_cases 0 t) as [T|T].
    + replace m with (n + t * ell)%Z by lia. apply mult_period; assumption.
    + replace n with (m + (- t) * ell)%Z by lia. symmetry. apply mult_period; lia.
  - rewrite <- (eneg_u (mult n)). f_equal.
    assert (Z : eadd d (mult m) (mult n) = ezero) by (rewrite <- mult_add by assumption; apply mult_zero; [lia | exists t; lia]).
    assert (O1 : on d (mult m)) by (apply nmul_on; assumption). assert (O2 : on d (mult n)) by (apply nmul_on; assumption).
    transitivity (eadd d (mult m) (eadd d (mult n) (eneg (mult n)))); [rewrite eneg_mult by exact Hn; symmetry; apply eadd_0_r|].
    rewrite <- (eadd_assoc d NS), Z, eadd_0_l by (try assumption; apply eneg_on; assumption). reflexivity.
Qed.
End Order.
