(** Property theorems for Montgomery arithmetic (C46 - C50). *)
From Verif Require Import Base BaseP S_Bignum M_Bignum P_Bignum M_Mont P_Mont.
Open Scope Z_scope.

(** Uses of the interface: into Montgomery form, operate, and back. *)
Definition modexp (n : nat) (N x e : list Z) : res (list Z) :=
  do st <- mont_state n N; do v <- mont_of n st x; do r <- mont_exp n st v e; mont_out n st r.
Definition modexp32 (n : nat) (N x : list Z) (e : Z) : res (list Z) :=
  do st <- mont_state n N; do v <- mont_of n st x; do r <- mont_exp32 n st v e; mont_out n st r.
Definition modmul (n : nat) (N x y : list Z) : res (list Z) :=
  do st <- mont_state n N; do v <- mont_of n st x; do w <- mont_of n st y; do r <- mont_mul n st v w; mont_out n st r.
Definition modadd (n : nat) (N x y : list Z) : res (list Z) :=
  do st <- mont_state n N; do v <- mont_of n st x; do w <- mont_of n st y; mont_out n st (mont_add v w).
Definition modround (n : nat) (N x : list Z) : res (list Z) :=
  do st <- mont_state n N; do v <- mont_of n st x; mont_out n st v.

(** ** C46 *)
Theorem C46_parameters : forall n N, (0 < n)%nat -> bn n N -> Z.odd (val N) = true ->
  exists st, mont_state n N = Ok st /\ mN st = N /\
    let R := 2 ^ (32 * Z.of_nat n) in
    (val N * val (mNinv st)) mod R = R - 1 /\ 0 <= val (mNinv st) < R /\
    val (mR1 st) mod val N = R mod val N /\ val (mR2 st) = R ^ 2 mod val N /\ val (mR3 st) mod val N = R ^ 3 mod val N.
Proof.
  intros n N Hn HN HO. rewrite Zodd_mod in HO; apply Zeq_bool_eq in HO.
  destruct (mont_state_ok n N Hn HN HO) as (st & E & EN & G). exists st; split; [exact E|]; split; [exact EN|]; cbv zeta.
  pose proof (pow_pos n) as P. pose proof (good_pos _ _ _ G) as NP.
  split; [|split; [apply bn_range, (g_Ninv _ _ _ G)|split; [|split]]].
  - pose proof (g_inv _ _ _ G) as [k D]. symmetry; apply Z.mod_unique with (k - 1); [left; lia | lia].
  - apply divide_mod; [lia | apply (g_R1v _ _ _ G)].
  - rewrite (g_R2v _ _ _ G), Z.pow_2_r; reflexivity.
  - apply divide_mod; [lia|]. rewrite (Z.pow_succ_r _ 2), Z.pow_2_r, Z.mul_assoc by lia. apply (g_R3v _ _ _ G).
Qed.
Print Assumptions C46_parameters.
Example C46_case : mont_state 2 [0x89abcdef; 0x01234567] <> Diverge /\
  (exists st, mont_state 1 [7] = Ok st /\ mR2 st = [2] /\ mNinv st = [0x49249249]).
Proof. split; [vm_compute; discriminate | eexists; split; [vm_compute; reflexivity | split; reflexivity]]. Qed.

(** ** C47 *)
(** What reading back gives for a result congruent to [a]: the remainder, except that a zero
    remainder may be given as N itself. *)
Definition reads (n : nat) (N a : Z) (r : list Z) : Prop :=
  bn n r /\ (val r = a mod N \/ (val r = N /\ a mod N = 0)).

Lemma reads_intro n st N x a : good n st N -> rep n N x a -> exists t, mont_out n st x = Ok t /\ reads n N a t.
Proof.
  intros G H. pose proof (good_pos _ _ _ G) as NP. destruct (mont_out_ok n st N x a G H) as (t & E & Ht & M & B1 & B2).
  exists t; split; [exact E|]; split; [exact Ht|]. destruct (Z.eq_dec (val t) N) as [C|C]; [right; split; [exact C | tauto] | left].
  rewrite <- M; symmetry; apply Z.mod_small; lia.
Qed.
Theorem C47_exponentiation : forall n N x e, (0 < n)%nat -> bn n N -> Z.odd (val N) = true -> bn n x -> bn n e ->
  exists r, modexp n N x e = Ok r /\ reads n (val N) (val x ^ val e) r.
Proof.
  intros n N x e Hn HN HO Hx He. rewrite Zodd_mod in HO; apply Zeq_bool_eq in HO. unfold modexp.
  destruct (mont_state_ok n N Hn HN HO) as (st & E & _ & G). rewrite E; cbn [bind]; clear E.
  destruct (mont_of_ok n st _ x G Hx) as (v & E & Hv). rewrite E; cbn [bind]; clear E.
  destruct (mont_exp_ok n st _ v _ e G Hv He) as (r & E & Hr). rewrite E; cbn [bind]; clear E.
  apply (reads_intro _ _ _ _ _ G Hr).
Qed.
Print Assumptions C47_exponentiation.
(** Exact whenever the power is not a multiple of N, as for every base coprime to N. *)
Theorem C47_exact : forall n N x e, (0 < n)%nat -> bn n N -> Z.odd (val N) = true -> bn n x -> bn n e ->
  (val x ^ val e) mod val N <> 0 ->
  exists r, modexp n N x e = Ok r /\ bn n r /\ val r = (val x ^ val e) mod val N.
Proof.
  intros n N x e Hn HN HO Hx He H0; destruct (C47_exponentiation n N x e Hn HN HO Hx He) as (r & E & Hr & [V|[_ V]]); [eauto | contradiction].
Qed.
Print Assumptions C47_exact.
Theorem C47_multiplication : forall n N x y, (0 < n)%nat -> bn n N -> Z.odd (val N) = true -> bn n x -> bn n y ->
  exists r, modmul n N x y = Ok r /\ reads n (val N) (val x * val y) r.
Proof.
  intros n N x y Hn HN HO Hx Hy. rewrite Zodd_mod in HO; apply Zeq_bool_eq in HO. unfold modmul.
  destruct (mont_state_ok n N Hn HN HO) as (st & E & _ & G). rewrite E; cbn [bind]; clear E.
  destruct (mont_of_ok n st _ x G Hx) as (v & E & Hv). rewrite E; cbn [bind]; clear E.
  destruct (mont_of_ok n st _ y G Hy) as (w & E & Hw). rewrite E; cbn [bind]; clear E.
  destruct (mont_mul_ok n st _ v w _ _ G Hv Hw) as (r & E & Hr). rewrite E; cbn [bind]; clear E.
  apply (reads_intro _ _ _ _ _ G Hr).
Qed.
Print Assumptions C47_multiplication.
(** Finding: even moduli are not rejected and give wrong answers (3^2 mod 10 is not 9 below). *)
Theorem C47_even_modulus_refuted : exists N x e, bn 1 N /\ bn 1 x /\ bn 1 e /\
  exists r, modexp 1 N x e = Ok r /\ val r mod val N <> (val x ^ val e) mod val N.
Proof.
  exists [10], [3], [2]. repeat split; try (repeat constructor; vm_compute; discriminate || reflexivity).
  eexists; split; [vm_compute; reflexivity | vm_compute; discriminate].
Qed.
Print Assumptions C47_even_modulus_refuted.
Example C47_case : modexp 1 [101] [7] [10] = Ok [65] /\ 7 ^ 10 mod 101 = 65.
Proof. repeat split; vm_compute; reflexivity. Qed.

(** ** C48 *)
Definition always_reduced : Prop := forall n N x, (0 < n)%nat -> bn n N -> Z.odd (val N) = true -> bn n x ->
  forall r, modround n N x = Ok r -> val r < val N.
Theorem C48_reduced_refuted : ~ always_reduced.
Proof.
  intros H. assert (W : [9] = [9] -> val [9] < val [9]); [|specialize (W eq_refl); vm_compute in W; discriminate W].
  intros _; apply (H 1%nat [9] [9]); try (split; [reflexivity|]); try (repeat constructor; vm_compute; discriminate || reflexivity).
Qed.
Print Assumptions C48_reduced_refuted.
(** Also from reduced inputs: 3^2 mod 9 is given as 9. *)
Theorem C48_power_refuted : modexp 1 [9] [3] [2] = Ok [9].
Proof. vm_compute; reflexivity. Qed.
Print Assumptions C48_power_refuted.
(** Partial: the only unreduced answer is N, for a value that is not zero but a multiple of N. *)
Theorem C48_reduced_partial : forall n N x, (0 < n)%nat -> bn n N -> Z.odd (val N) = true -> bn n x ->
  exists r, modround n N x = Ok r /\ reads n (val N) (val x) r /\ (val x < val N -> val r = val x).
Proof.
  intros n N x Hn HN HO Hx. rewrite Zodd_mod in HO; apply Zeq_bool_eq in HO. unfold modround, mont_of.
  destruct (mont_state_ok n N Hn HN HO) as (st & E & EN & G). rewrite E; cbn [bind]; clear E.
  destruct (mont_of_ok n st _ x G Hx) as (v & E & Hv). unfold mont_of in E. rewrite E; cbn [bind].
  destruct (reads_intro _ _ _ _ _ G Hv) as (r & E2 & Hr). exists r; split; [exact E2|]; split; [exact Hr|].
  intros L. pose proof (bn_range _ _ Hx) as Bx. destruct Hr as [Hr [V|[V V0]]]; [rewrite V; apply Z.mod_small; lia|].
  rewrite Z.mod_small in V0 by lia. pose proof (good_pos _ _ _ G) as NP.
  (* x = 0: the Montgomery form is 0 as well, so the answer is not N *)
  exfalso. destruct (mont_out_ok n st _ v _ G Hv) as (t & E3 & _ & _ & _ & B2). rewrite E2 in E3; injection E3 as <-.
  apply B2 in V; destruct V as [_ V]; apply V; clear - G Hn HN Hx E V0 NP EN.
  destruct (mul_ok n x _ Hx (g_R2 _ _ _ G)) as (p & Ep & Hp & Vp). rewrite Ep in E; cbn [bind] in E. rewrite V0, Z.mul_0_l in Vp.
  pose proof (g_inv _ _ _ G) as GI; rewrite <- (g_val _ _ _ G) in GI.
  destruct (redc_ok n _ _ p (g_n _ _ _ G) (g_N _ _ _ G) (g_Ninv _ _ _ G) Hp GI) as (t & m & Et & Ht & Hm & Q & Vt).
  rewrite E in Et; injection Et as <-. rewrite Vp, (g_val _ _ _ G), Z.add_0_l in *. set (q := m * val N / Rn n) in *.
  assert (D : (Rn n | m)).
  { apply Znumtheory.Gauss with (val N); [exists q; lia | apply Znumtheory.rel_prime_sym, odd_coprime, (g_odd _ _ _ G)]. }
  pose proof (pow_pos n) as P. destruct D as [k D]. assert (m = 0) by (rewrite D in Hm; assert (k = 0) by nia; lia).
  assert (Q0 : q = 0) by (subst q; rewrite H; reflexivity). rewrite Vt, Q0. replace (0 <? Rn n) with true by lia; reflexivity.
Qed.
Print Assumptions C48_reduced_partial.
Example C48_case : modround 1 [101] [100] = Ok [100] /\ modround 1 [101] [202] = Ok [101].
Proof. split; vm_compute; reflexivity. Qed.

(** ** C49 *)
Definition addition_right : Prop := forall n N x y, (0 < n)%nat -> bn n N -> Z.odd (val N) = true -> bn n x -> bn n y ->
  exists r, modadd n N x y = Ok r /\ val r mod val N = (val x + val y) mod val N.
Theorem C49_addition_refuted : ~ addition_right.
Proof.
  intros H. destruct (H 1%nat [0xfffffff1] [0x7fffffff] [0x7fffffff]) as (r & E & V); try reflexivity; try lia;
    try (split; [reflexivity|]; repeat constructor; vm_compute; discriminate || reflexivity).
  vm_compute in E; injection E as <-; vm_compute in V; discriminate V.
Qed.
Print Assumptions C49_addition_refuted.
(** Partial: right when the two Montgomery forms add up without carry. *)
Theorem C49_addition_partial : forall n st N x y a b, good n st N -> rep n N x a -> rep n N y b ->
  val x + val y < 2 ^ (32 * Z.of_nat n) -> exists r, mont_out n st (mont_add x y) = Ok r /\ reads n N (a + b) r.
Proof.
  intros n st N x y a b G [Hx Dx] [Hy Dy] L. apply (reads_intro n st); [exact G|].
  destruct (add_val n x y Hx Hy) as (H & V & _). split; [exact H|]. unfold mont_add; rewrite V.
  pose proof (bn_range _ _ Hx); pose proof (bn_range _ _ Hy). rewrite Z.mod_small by lia.
  replace (val x + val y - (a + b) * Rn n) with (val x - a * Rn n + (val y - b * Rn n)) by ring. apply Z.divide_add_r; assumption.
Qed.
Print Assumptions C49_addition_partial.
Example C49_case : modadd 1 [101] [70] [60] = Ok [29].
Proof. vm_compute; reflexivity. Qed.

(** ** C50 *)
Definition exp32_right : Prop := forall n N x e, (0 < n)%nat -> bn n N -> Z.odd (val N) = true -> bn n x -> 0 <= e < 2 ^ 32 ->
  exists r, modexp32 n N x e = Ok r /\ val r mod val N = (val x ^ e) mod val N.
Theorem C50_exp32_refuted : ~ exp32_right.
Proof.
  intros H. destruct (H 1%nat [101] [7] 3) as (r & E & V); try reflexivity; try lia;
    try (split; [reflexivity|]; repeat constructor; vm_compute; discriminate || reflexivity).
  vm_compute in E; injection E as <-; vm_compute in V; discriminate V.
Qed.
Print Assumptions C50_exp32_refuted.
(** Partial: the exponent is taken to be 65537 whatever was passed. *)
Theorem C50_exp32_partial : forall n N x e, (0 < n)%nat -> bn n N -> Z.odd (val N) = true -> bn n x ->
  exists r, modexp32 n N x e = Ok r /\ reads n (val N) (val x ^ 65537) r.
Proof.
  intros n N x e Hn HN HO Hx. rewrite Zodd_mod in HO; apply Zeq_bool_eq in HO. unfold modexp32.
  destruct (mont_state_ok n N Hn HN HO) as (st & E & _ & G). rewrite E; cbn [bind]; clear E.
  destruct (mont_of_ok n st _ x G Hx) as (v & E & Hv). rewrite E; cbn [bind]; clear E.
  destruct (mont_exp32_ok n st _ v _ e G Hv) as (r & E & Hr). rewrite E; cbn [bind]; clear E.
  apply (reads_intro _ _ _ _ _ G Hr).
Qed.
Print Assumptions C50_exp32_partial.
Example C50_case : modexp32 1 [101] [7] 65537 = Ok [35] /\ modexp32 1 [101] [7] 3 = Ok [35] /\ 7 ^ 37 mod 101 = 35.
Proof. repeat split; vm_compute; reflexivity. Qed.
