(** Constants of the standards defined by their mathematical origin. *)
From Verif Require Import Base.

(** Integer cube root by bisection: largest r in [lo, lo + 2^k) with r^3 <= n. *)
Fixpoint icbrt_go (k : nat) (lo n : Z) : Z :=
  match k with
  | O => lo
  | S k' => let mid := lo + 2 ^ Z.of_nat k' in
            if mid ^ 3 <=? n then icbrt_go k' mid n else icbrt_go k' lo n
  end.
Definition icbrt (k : nat) (n : Z) : Z := icbrt_go k 0 n.

Lemma icbrt_go_spec k : forall lo n, 0 <= lo -> lo ^ 3 <= n < (lo + 2 ^ Z.of_nat k) ^ 3 ->
  icbrt_go k lo n ^ 3 <= n < (icbrt_go k lo n + 1) ^ 3.
Proof.
  induction k as [|k IH]; intros lo n Hlo.
  - cbn [icbrt_go]; change (2 ^ Z.of_nat 0) with 1; auto.
  - cbn [icbrt_go]; assert (He : 0 < 2 ^ Z.of_nat k) by (apply Z.pow_pos_nonneg; lia).
    replace (lo + 2 ^ Z.of_nat (S k)) with (lo + 2 ^ Z.of_nat k + 2 ^ Z.of_nat k)
      by (rewrite Nat2Z.inj_succ, Z.pow_succ_r by lia; lia).
    set (e := 2 ^ Z.of_nat k) in *; clearbody e; assert (Hle : 0 <= lo + e) by lia; intros [H1 H2].
    destruct (Z.leb_spec ((lo + e) ^ 3) n) as [C|C]; apply IH; try split; assumption.
Qed.

(** [icbrt k n] is the integer cube root of every n below 2^(3k). *)
Lemma icbrt_spec k n : 0 <= n < (2 ^ Z.of_nat k) ^ 3 -> icbrt k n ^ 3 <= n < (icbrt k n + 1) ^ 3.
Proof. intros H; unfold icbrt; apply icbrt_go_spec; [lia|]; rewrite Z.add_0_l; destruct H; split; assumption. Qed.

(** First [w] bits of the fractional part of the cube root / square root of [p]:
    floor(2^w * p^(1/3)) mod 2^w and floor(2^w * p^(1/2)) mod 2^w.  (k = w + 4 bits
    suffice for p < 4096.) *)
Definition frac_cbrt (w p : Z) : Z := icbrt (Z.to_nat (w + 4)) (p * 2 ^ (3 * w)) mod 2 ^ w.
Definition frac_sqrt (w p : Z) : Z := Z.sqrt (p * 2 ^ (2 * w)) mod 2 ^ w.

(** The primes below n, by trial division. *)
Definition is_prime_nat (n : nat) : bool :=
  (Nat.leb 2 n) && forallb (fun d => negb (Nat.eqb (n mod d) 0)) (seq 2 (n - 2)).
Definition primes_below (n : nat) : list Z := map Z.of_nat (filter is_prime_nat (seq 0 n)).
