(** Number theory used by the RSA, primality and curve proofs: Fermat's little theorem and
    the correctness of the RSA exponents. *)
From Coq Require Import Znumtheory Permutation.
From Verif Require Import Base BaseP.
Open Scope Z_scope.

Definition prods (l : list Z) : Z := fold_right Z.mul 1 l.
Lemma prods_perm l1 l2 : Permutation l1 l2 -> prods l1 = prods l2.
Proof. induction 1; unfold prods in *; cbn [fold_right]; try congruence; try lia. Qed.
Lemma prods_map_mul a l : prods (map (fun i => a * i) l) = a ^ zlen l * prods l.
Proof.
  induction l as [|x l IH]; [reflexivity|]. cbn [map]; unfold prods in *; cbn [fold_right]. rewrite IH, zlen_cons.
  rewrite Z.pow_add_r, Z.pow_1_r by (unfold zlen; lia). ring.
Qed.
Lemma prods_map_mod p l : 0 < p -> prods (map (fun x => x mod p) l) mod p = prods l mod p.
Proof.
  intros Hp; induction l as [|x l IH]; [reflexivity|]. cbn [map]; unfold prods in *; cbn [fold_right].
  rewrite <- Z.mul_mod_idemp_r, IH, Z.mul_mod_idemp_r, Z.mul_mod_idemp_l by lia; reflexivity.
Qed.
Lemma prime_prods p l : prime p -> (forall x, In x l -> ~ (p | x)) -> ~ (p | prods l).
Proof.
  intros Hp; induction l as [|x l IH]; intros H D.
  - apply prime_ge_2 in Hp. apply Z.divide_1_r_nonneg in D; lia.
  - cbn in D. apply prime_mult in D; [|exact Hp]. destruct D as [D|D]; [apply (H x); [left; reflexivity | exact D]|].
    apply IH; [intros y Hy; apply H; right; exact Hy | exact D].
Qed.

(** 1 .. p-1 *)
Definition residues (p : Z) : list Z := map Z.of_nat (seq 1 (Z.to_nat (p - 1))).
Lemma in_residues p x : 1 <= p -> In x (residues p) <-> 1 <= x < p.
Proof.
  intros Hp; unfold residues; rewrite in_map_iff; split.
  - intros (k & <- & Hk); apply in_seq in Hk; lia.
  - intros H; exists (Z.to_nat x); split; [lia | apply in_seq; lia].
Qed.
Lemma residues_nodup p : NoDup (residues p).
Proof. apply FinFun.Injective_map_NoDup; [intros x y; apply Nat2Z.inj | apply seq_NoDup]. Qed.
Lemma NoDup_map_inj {A B} (f : A -> B) l : (forall x y, In x l -> In y l -> f x = f y -> x = y) -> NoDup l -> NoDup (map f l).
Proof.
  intros H N; induction N as [|x l Hx N IH]; cbn [map]; constructor.
  - intros I; apply in_map_iff in I; destruct I as (y & E & Hy). apply Hx. rewrite (H x y); [exact Hy | left; reflexivity | right; exact Hy | symmetry; exact E].
  - apply IH; intros y z Hy Hz; apply H; right; assumption.
Qed.
Lemma not_div_small p x : 1 <= x < p -> ~ (p | x).
Proof. intros H D; apply Z.divide_pos_le in D; lia. Qed.

Theorem fermat p a : prime p -> ~ (p | a) -> a ^ (p - 1) mod p = 1.
Proof.
  intros Hp Ha. pose proof (prime_ge_2 p Hp) as P2.
  set (f := fun i => (a * i) mod p).
  assert (PM : Permutation (map f (residues p)) (residues p)).
  { apply NoDup_Permutation_bis.
    - apply NoDup_map_inj; [|apply residues_nodup]. intros x y Hx Hy E. apply in_residues in Hx, Hy; try lia.
      unfold f in E. assert (D : (p | a * (x - y))).
      { exists (a * x / p - a * y / p). pose proof (Z.div_mod (a * x) p ltac:(lia)). pose proof (Z.div_mod (a * y) p ltac:(lia)). nia. }
      apply prime_mult in D; [|exact Hp]. destruct D as [D|D]; [contradiction|].
      destruct (Z.lt_trichotomy x y) as [L|[L|L]]; [|exact L|].
      + exfalso; apply (not_div_small p (y - x)); [lia|]. replace (y - x) with (- (x - y)) by ring. apply Z.divide_opp_r, D.
      + exfalso; apply (not_div_small p (x - y)); [lia | exact D].
    - rewrite map_length; lia.
    - intros y Hy; apply in_map_iff in Hy; destruct Hy as (x & <- & Hx). apply in_residues in Hx; [|lia]. apply in_residues; [lia|].
      unfold f; pose proof (Z.mod_pos_bound (a * x) p ltac:(lia)). assert ((a * x) mod p <> 0); [|lia].
      intros E; apply Z.mod_divide in E; [|lia]. apply prime_mult in E; [|exact Hp]. destruct E as [E|E]; [contradiction | apply (not_div_small p x); assumption]. }
  apply prods_perm in PM. set (P := prods (residues p)) in *.
  assert (E : (a ^ (p - 1) * P) mod p = P mod p).
  { transitivity (prods (map f (residues p)) mod p); [|rewrite PM; reflexivity].
    unfold f. rewrite <- (map_map (fun i => a * i) (fun x => x mod p)), prods_map_mod, prods_map_mul by lia.
    unfold zlen, P, residues; rewrite map_length, seq_length, Z2Nat.id by lia. reflexivity. }
  assert (D : (p | P * (a ^ (p - 1) - 1))).
  { exists (a ^ (p - 1) * P / p - P / p). pose proof (Z.div_mod (a ^ (p - 1) * P) p ltac:(lia)). pose proof (Z.div_mod P p ltac:(lia)). nia. }
  apply prime_mult in D; [|exact Hp]. destruct D as [D|D].
  - exfalso; apply (prime_prods p (residues p)); [exact Hp | | exact D]. intros x Hx; apply in_residues in Hx; [|lia]; apply not_div_small; exact Hx.
  - destruct D as [k D]. replace (a ^ (p - 1)) with (1 + k * p) by lia. rewrite Z.mod_add by lia. apply Z.mod_small; lia.
Qed.

(** Powers of a depend on the exponent modulo p - 1 only. *)
Lemma pow_mod_eq p a b k : 0 < p -> a mod p = b mod p -> (a ^ k) mod p = (b ^ k) mod p.
Proof.
  intros Hp E. destruct (Z.le_gt_cases 0 k) as [Hk|Hk]; [|rewrite !Z.pow_neg_r by exact Hk; reflexivity].
  revert k Hk; apply natlike_ind; [reflexivity|]. intros k Hk IH. rewrite !Z.pow_succ_r by exact Hk.
  rewrite <- Z.mul_mod_idemp_l, E, Z.mul_mod_idemp_l, <- Z.mul_mod_idemp_r, IH, Z.mul_mod_idemp_r by lia; reflexivity.
Qed.
Lemma fermat_exp p a k : prime p -> 0 <= k -> (p | a ^ (1 + k * (p - 1)) - a).
Proof.
  intros Hp Hk. pose proof (prime_ge_2 p Hp) as P2.
  destruct (Zdivide_dec p a) as [D|D].
  - apply Z.divide_sub_r; [|exact D]. rewrite Z.pow_add_r, Z.pow_1_r by nia. apply Z.divide_mul_l, D.
  - rewrite Z.pow_add_r, Z.pow_1_r, (Z.mul_comm k), Z.pow_mul_r by nia.
    replace (a * (a ^ (p - 1)) ^ k - a) with (a * ((a ^ (p - 1)) ^ k - 1)) by ring. apply Z.divide_mul_r.
    assert (E : ((a ^ (p - 1)) ^ k) mod p = 1).
    { rewrite (pow_mod_eq p _ 1) by (try lia; rewrite fermat by assumption; symmetry; apply Z.mod_small; lia).
      rewrite Z.pow_1_l by exact Hk. apply Z.mod_small; lia. }
    exists ((a ^ (p - 1)) ^ k / p). pose proof (Z.div_mod ((a ^ (p - 1)) ^ k) p ltac:(lia)). lia.
Qed.

(** RSA: raising to e*d is the identity modulo p*q when e*d = 1 modulo lcm(p-1, q-1). *)
Theorem rsa_exponents p q m x : prime p -> prime q -> p <> q -> 0 < x -> (x - 1) mod Z.lcm (p - 1) (q - 1) = 0 ->
  (p * q | m ^ x - m).
Proof.
  intros Hp Hq N HX E. pose proof (prime_ge_2 p Hp); pose proof (prime_ge_2 q Hq).
  apply Z.mod_divide in E.
  2:{ intros L; apply Z.lcm_eq_0 in L; lia. }
  assert (A : forall r, prime r -> (r - 1 | Z.lcm (p - 1) (q - 1)) -> (r | m ^ x - m)).
  { intros r Hr D. pose proof (prime_ge_2 r Hr). destruct (Z.divide_trans _ _ _ D E) as [k K]. replace x with (1 + k * (r - 1)) by lia. apply fermat_exp; [exact Hr | nia]. }
  pose proof (A p Hp (Z.divide_lcm_l _ _)) as [u U]. pose proof (A q Hq (Z.divide_lcm_r _ _)) as Dq.
  rewrite U in Dq. rewrite Z.mul_comm in Dq. apply prime_mult in Dq; [|exact Hq]. rewrite U. destruct Dq as [Dq|[v V]].
  - exfalso; apply prime_div_prime in Dq; [apply N; symmetry; exact Dq | exact Hq | exact Hp].
  - exists v; rewrite V; ring.
Qed.
