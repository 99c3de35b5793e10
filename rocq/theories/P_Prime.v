(** Modular powers that can be computed, and Pocklington's criterion for primes. *)
From Coq Require Import Znumtheory.
From Verif Require Import Base BaseP P_Fermat.
Open Scope Z_scope.

Fixpoint powm (N x : Z) (e : positive) : Z :=
  match e with
  | xH => x mod N
  | xO f => powm N (x * x mod N) f
  | xI f => x * powm N (x * x mod N) f mod N
  end.
Lemma powm_ok N : 0 < N -> forall e x, powm N x e = x ^ Zpos e mod N.
Proof.
  intros HN; assert (K : forall x k, 0 <= k -> (x * x mod N) ^ k mod N = x ^ (2 * k) mod N).
  { intros x k Hk. rewrite Z.pow_mul_r, Z.pow_2_r by lia. apply pow_mod_eq; [exact HN | apply Z.mod_mod; lia]. }
  induction e as [e IH|e IH|]; intros x; cbn [powm].
  - rewrite IH, K by lia. rewrite Z.mul_mod_idemp_r by lia. rewrite (Pos2Z.inj_xI e), Z.pow_add_r, Z.pow_1_r, Z.mul_comm by lia. reflexivity.
  - rewrite IH, K by lia. reflexivity.
  - rewrite Z.pow_1_r; reflexivity.
Qed.

Lemma prime_factor n : 1 < n -> exists p, prime p /\ (p | n).
Proof.
  intros H. assert (0 <= n) as H0 by lia. revert H. pattern n; apply Z_lt_induction; [|exact H0]. intros x IH Hx.
  destruct (prime_dec x) as [P|P]; [exists x; split; [exact P | apply Z.divide_refl]|].
  destruct (not_prime_divide x Hx P) as (y & Hy & Dy). destruct (IH y ltac:(lia) ltac:(lia)) as (p & Pp & Dp). exists p; split; [exact Pp | eapply Z.divide_trans; eassumption].
Qed.
Lemma small_factor n : 1 < n -> ~ prime n -> exists p, prime p /\ (p | n) /\ p * p <= n.
Proof.
  intros H P. destruct (not_prime_divide n H P) as (y & Hy & [k Dy]).
  assert (Hk : 1 < k) by nia. destruct (Z.le_gt_cases y k) as [C|C].
  - destruct (prime_factor y ltac:(lia)) as (p & Pp & Dp). exists p; split; [exact Pp|]; split; [eapply Z.divide_trans; [exact Dp | exists k; exact Dy]|].
    apply Z.divide_pos_le in Dp; [|lia]. pose proof (prime_ge_2 p Pp). nia.
  - destruct (prime_factor k Hk) as (p & Pp & Dp). exists p; split; [exact Pp|]; split; [eapply Z.divide_trans; [exact Dp | exists y; lia]|].
    apply Z.divide_pos_le in Dp; [|lia]. pose proof (prime_ge_2 p Pp). nia.
Qed.

Lemma pock_step n q a R p : 0 < n -> prime q -> prime p -> (p | n) -> 0 <= R -> n - 1 = q * R -> a ^ (n - 1) mod n = 1 mod n -> Z.gcd (a ^ R - 1) n = 1 -> (q | p - 1).
Proof.
  intros Hn Pq Pp Dp HR EN F G. pose proof (prime_ge_2 q Pq) as Q2. pose proof (prime_ge_2 p Pp) as P2.
  destruct (Zdivide_dec q (p - 1)) as [D|ND]; [exact D|exfalso].
  set (b := a ^ R). assert (B1 : ~ (p | b - 1)).
  { intros D. assert (D1 : (p | 1)) by (rewrite <- G; apply Z.gcd_greatest; assumption). apply Z.divide_1_r_nonneg in D1; lia. }
  assert (BQ : b ^ q mod p = 1 mod p).
  { unfold b. rewrite <- Z.pow_mul_r by lia. replace (R * q) with (n - 1) by lia.
    assert (D : (n | a ^ (n - 1) - 1)). { apply Z.mod_divide; [lia|]. rewrite Zminus_mod, F, <- Zminus_mod. reflexivity. }
    assert (D2 : (p | a ^ (n - 1) - 1)) by (eapply Z.divide_trans; eassumption). apply Z.mod_divide in D2; [|lia].
    replace (a ^ (n - 1)) with (a ^ (n - 1) - 1 + 1) by ring. rewrite Z.add_mod, D2, Z.add_0_l, Z.mod_mod by lia. reflexivity. }
  assert (BP : ~ (p | b)).
  { intros D. assert (E : b ^ q mod p = 0).
    { apply Z.mod_divide; [lia|]. replace q with (1 + (q - 1)) by lia. rewrite Z.pow_add_r, Z.pow_1_r by lia. apply Z.divide_mul_l, D. }
    rewrite E, Z.mod_small in BQ by lia. discriminate BQ. }
  destruct (Z.eq_dec p 2) as [C|C].
  { subst p. apply B1. apply Z.mod_divide; [lia|]. destruct (Z.eq_dec (b mod 2) 0) as [C|C]; [exfalso; apply BP, Z.mod_divide; lia|].
    pose proof (Z.mod_pos_bound b 2 ltac:(lia)). rewrite Zminus_mod. replace (b mod 2) with 1 by lia. reflexivity. }
  assert (RP : rel_prime q (p - 1)) by (apply prime_rel_prime; assumption).
  destruct (rel_prime_bezout _ _ RP) as [u v UV].
  set (u' := u mod (p - 1)). assert (M : (u' * q) mod (p - 1) = 1).
  { unfold u'. rewrite Z.mul_mod_idemp_l by lia. replace (u * q) with (1 + (- v) * (p - 1)) by lia. rewrite Z.mod_add by lia. apply Z.mod_small; lia. }
  pose proof (Z.mod_pos_bound u (p - 1) ltac:(lia)) as U'. fold u' in U'. pose proof (Z.div_mod (u' * q) (p - 1) ltac:(lia)) as DM. rewrite M in DM.
  set (t := u' * q / (p - 1)) in *. assert (0 <= u' * q) by (apply Z.mul_nonneg_nonneg; lia). assert (0 <= t) by (apply Z.div_pos; lia).
  apply B1. apply Z.mod_divide; [lia|].
  assert (E1 : b ^ (u' * q) mod p = 1 mod p).
  { rewrite Z.mul_comm, Z.pow_mul_r by lia. rewrite (pow_mod_eq p (b ^ q) 1 u' ltac:(lia) BQ). rewrite Z.pow_1_l by lia; reflexivity. }
  assert (E2 : b ^ (u' * q) mod p = b mod p).
  { rewrite DM. replace ((p - 1) * t + 1) with ((p - 1) * t + 1) by ring. assert (0 <= (p - 1) * t) by (apply Z.mul_nonneg_nonneg; lia). rewrite Z.pow_add_r, Z.pow_1_r, Z.pow_mul_r by lia.
    rewrite Z.mul_mod by lia. pose proof (fermat p b Pp BP) as FB. rewrite (pow_mod_eq p (b ^ (p - 1)) 1 t ltac:(lia)); [|rewrite FB, Z.mod_small by lia; reflexivity].
    rewrite Z.pow_1_l by lia. rewrite <- Z.mul_mod, Z.mul_1_l by lia. reflexivity. }
  rewrite Zminus_mod, <- E2, E1, <- Zminus_mod. reflexivity.
Qed.

Lemma prods_divide l x : Forall prime l -> NoDup l -> (forall q, In q l -> (q | x)) -> (prods l | x).
Proof.
  intros HP HN; induction HN as [|q l Hq HN IH]; intros HD; [exists x; unfold prods; cbn [fold_right]; ring|].
  inversion_clear HP as [|? ? Pq Pl]. unfold prods; cbn [fold_right]; fold (prods l).
  assert (D1 : (prods l | x)) by (apply IH; [exact Pl | intros; apply HD; right; assumption]).
  assert (D2 : (q | x)) by (apply HD; left; reflexivity). destruct D1 as [k D1].
  assert (RP : rel_prime q (prods l)).
  { apply prime_rel_prime; [exact Pq|]. apply prime_prods; [exact Pq|]. intros y Hy D. rewrite Forall_forall in Pl.
    apply prime_div_prime in D; [subst y; contradiction | exact Pq | apply Pl, Hy]. }
  rewrite D1 in D2. rewrite Z.mul_comm in D2. apply Gauss in D2; [|exact RP]. destruct D2 as [j ->]. exists j; lia.
Qed.

(** The criterion, with one base per prime factor; everything but the primality of the
    factors is decided by computation. *)
Definition pock_check (n : Z) (qas : list (Z * Z)) : bool :=
  (1 <? n) && (n <? (prods (map fst qas) + 1) * (prods (map fst qas) + 1)) &&
  forallb (fun qa => let '(q, a) := qa in
    ((n - 1) mod q =? 0) && (0 <? (n - 1) / q) && (powm n a (Z.to_pos (n - 1)) =? 1) && (Z.gcd (powm n a (Z.to_pos ((n - 1) / q)) - 1) n =? 1)) qas.
Lemma gcd_mod_l x n : 0 < n -> Z.gcd (x mod n - 1) n = Z.gcd (x - 1) n.
Proof.
  intros H. rewrite (Z.gcd_comm _ n), (Z.gcd_comm _ n). rewrite <- (Z.gcd_mod (x mod n - 1) n), <- (Z.gcd_mod (x - 1) n) by lia.
  f_equal. rewrite (Zminus_mod (x mod n)), Z.mod_mod, <- Zminus_mod by lia. reflexivity.
Qed.
Theorem pocklington n qas : Forall prime (map fst qas) -> NoDup (map fst qas) -> pock_check n qas = true -> prime n.
Proof.
  intros HP HN C. unfold pock_check in C. apply andb_prop in C; destruct C as [C C3]. apply andb_prop in C; destruct C as [C1 C2].
  apply Z.ltb_lt in C1; apply Z.ltb_lt in C2. destruct (prime_dec n) as [P|NP]; [exact P|exfalso].
  destruct (small_factor n C1 NP) as (p & Pp & Dp & Sp). pose proof (prime_ge_2 p Pp) as P2.
  set (F := prods (map fst qas)) in *. assert (D : (F | p - 1)).
  { apply prods_divide; [exact HP | exact HN|]. intros q Hq. apply in_map_iff in Hq; destruct Hq as ([q' a] & E & Hq); cbn [fst] in E; subst q'.
    rewrite forallb_forall in C3. specialize (C3 _ Hq). cbv beta iota in C3. rewrite !andb_true_iff in C3. destruct C3 as [[[E1 E2] E3] E4].
    apply Z.eqb_eq in E1, E3, E4; apply Z.ltb_lt in E2. rewrite powm_ok in E3, E4 by lia. rewrite Z2Pos.id in E3, E4 by lia. rewrite gcd_mod_l in E4 by lia.
    assert (Pq : prime q). { rewrite Forall_forall in HP; apply HP. apply in_map_iff; exists (q, a); auto. }
    assert (ER : n - 1 = q * ((n - 1) / q)).
    { pose proof (prime_ge_2 q Pq). pose proof (Z.div_mod (n - 1) q ltac:(lia)) as DM. rewrite E1, Z.add_0_r in DM. exact DM. }
    refine (pock_step n q a ((n - 1) / q) p _ Pq Pp Dp _ ER _ E4); [clear - C1; lia | clear - E2; lia |].
    rewrite E3. symmetry; apply Z.mod_small. clear - C1; lia. }
  apply Z.divide_pos_le in D; [|lia]. assert (0 <= F).
  { unfold F. clear - HP. induction HP as [|q l Pq _ IH]; [cbn; lia|]. unfold prods in *; cbn [fold_right]. apply prime_ge_2 in Pq. nia. }
  clear - D C2 Sp P2 H. nia.
Qed.

(** Small primes by trial. *)
Lemma prime_small p : 1 < p -> forallb (fun k => Z.gcd (Z.of_nat k) p =? 1) (seq 1 (Z.to_nat (p - 1))) = true -> prime p.
Proof.
  intros H F. apply prime_intro; [exact H|]. intros k Hk. apply Zgcd_1_rel_prime. rewrite forallb_forall in F.
  specialize (F (Z.to_nat k) ltac:(apply in_seq; lia)). rewrite Z2Nat.id in F by lia. apply Z.eqb_eq; exact F.
Qed.
(** Trial division up to the square root. *)
Lemma prime_trial p r : 1 < p -> p < Z.of_nat r * Z.of_nat r -> forallb (fun k => negb (p mod (Z.of_nat k) =? 0)) (seq 2 (r - 2)) = true -> prime p.
Proof.
  intros H R F. destruct (prime_dec p) as [P|NP]; [exact P|exfalso]. destruct (small_factor p H NP) as (q & Pq & Dq & Sq).
  pose proof (prime_ge_2 q Pq). rewrite forallb_forall in F. specialize (F (Z.to_nat q) ltac:(apply in_seq; nia)). rewrite Z2Nat.id in F by lia.
  apply Z.mod_divide in Dq; [|lia]. rewrite Dq in F; discriminate F.
Qed.
