(** The prime field of 2^255 - 19 elements as a Coq type, for ring and field. *)
From Coq Require Import Znumtheory Eqdep_dec Field.
From Verif Require Import Base BaseP P_Fermat P_Prime S_X25519 P_Prime25519.
Open Scope Z_scope.

Local Notation p := p25519.
Record F : Type := mkF { fz : Z; fok : fz mod p = fz }.
Lemma F_eq x y : fz x = fz y -> x = y.
Proof.
  destruct x as [x Hx], y as [y Hy]; cbn [fz]; intros ->. f_equal. apply UIP_dec, Z.eq_dec.
Qed.
Lemma inF_ok x : (x mod p) mod p = x mod p. Proof. apply Zmod_mod. Qed.
Definition inF (x : Z) : F := mkF (x mod p) (inF_ok x).
Lemma inF_eq x y : inF x = inF y <-> x mod p = y mod p.
Proof. split; [intros H; exact (f_equal fz H) | intros H; apply F_eq; exact H]. Qed.
Lemma inF_fz x : inF (fz x) = x.
Proof. apply F_eq; cbn [fz inF]. apply fok. Qed.
Lemma fz_range x : 0 <= fz x < p.
Proof. rewrite <- (fok x). apply Z.mod_pos_bound. reflexivity. Qed.

Definition Fadd (x y : F) : F := inF (fz x + fz y).
Definition Fsub (x y : F) : F := inF (fz x - fz y).
Definition Fmul (x y : F) : F := inF (fz x * fz y).
Definition Fopp (x : F) : F := inF (- fz x).
Definition F0 : F := inF 0.
Definition F1 : F := inF 1.
(** x ^ (p - 2). *)
Definition Finv (x : F) : F := inF (fz x ^ (p - 2)).
Definition Fdiv (x y : F) : F := Fmul x (Finv y).

Lemma inF_mod x : inF (x mod p) = inF x.
Proof. apply inF_eq, Zmod_mod. Qed.
Lemma inF_add x y : inF (x + y) = Fadd (inF x) (inF y).
Proof. apply inF_eq. cbn [fz inF]. apply Zplus_mod. Qed.
Lemma inF_sub x y : inF (x - y) = Fsub (inF x) (inF y).
Proof. apply inF_eq. cbn [fz inF]. apply Zminus_mod. Qed.
Lemma inF_mul x y : inF (x * y) = Fmul (inF x) (inF y).
Proof. apply inF_eq. cbn [fz inF]. apply Zmult_mod. Qed.
Lemma inF_opp x : inF (- x) = Fopp (inF x).
Proof. apply inF_eq. cbn [fz inF]. rewrite <- (Z.sub_0_l x), Zminus_mod, <- (Z.sub_0_l (x mod p)). rewrite Zminus_mod_idemp_l. reflexivity. Qed.
Lemma inF_pow_eq x y k : inF x = inF y -> inF (x ^ k) = inF (y ^ k).
Proof. intros H; apply inF_eq. apply pow_mod_eq; [reflexivity | apply inF_eq; exact H]. Qed.

Lemma F_ring : ring_theory F0 F1 Fadd Fmul Fsub Fopp eq.
Proof.
  assert (K : forall x, exists a, x = inF a) by (intros x; exists (fz x); symmetry; apply inF_fz).
  split; intros;
    repeat match goal with x : F |- _ => let a := fresh "a" in destruct (K x) as [a ->] end; unfold F0, F1; repeat rewrite <- ?inF_opp, <- ?inF_mul, <- ?inF_add, <- ?inF_sub; f_equal; ring.
Qed.
Add Ring Fring : F_ring.
Lemma F1_F0 : F1 <> F0.
Proof. intros H. apply (f_equal fz) in H. discriminate H. Qed.
Lemma Finv_l x : x <> F0 -> Fmul (Finv x) x = F1.
Proof.
  intros Hx. unfold Finv. rewrite <- (inF_fz x) at 2. rewrite <- inF_mul. apply F_eq. unfold F1. cbn [fz inF].
  assert (ND : ~ (p | fz x)).
  { intros D. apply Hx. apply F_eq. cbn [F0 fz inF]. pose proof (fz_range x) as R. change (0 mod p) with 0.
    destruct (Z.eq_dec (fz x) 0) as [E|NE]; [exact E|]. apply Z.divide_pos_le in D; lia. }
  pose proof (fermat p (fz x) prime_25519 ND) as FM. change (1 mod p) with 1. rewrite <- FM. f_equal.
  set (P := p). assert (HP : 2 < P) by reflexivity. clearbody P. replace (P - 1) with (P - 2 + 1) by lia. rewrite Z.pow_add_r, Z.pow_1_r by lia. reflexivity.
Qed.
Lemma F_field : field_theory F0 F1 Fadd Fmul Fsub Fopp Fdiv Finv eq.
Proof. split; [exact F_ring | exact F1_F0 | reflexivity | exact Finv_l]. Qed.
Add Field Ffield : F_field.

Declare Scope F_scope.
Delimit Scope F_scope with F.
Infix "+" := Fadd : F_scope.
Infix "-" := Fsub : F_scope.
Infix "*" := Fmul : F_scope.
Infix "/" := Fdiv : F_scope.
Notation "- x" := (Fopp x) : F_scope.
Notation "0" := F0 : F_scope.
Notation "1" := F1 : F_scope.
Bind Scope F_scope with F.

Lemma F_dec (x y : F) : {x = y} + {x <> y}.
Proof. destruct (Z.eq_dec (fz x) (fz y)) as [E|E]; [left; apply F_eq; exact E | right; intros H; apply E; rewrite H; reflexivity]. Qed.
Lemma F_integral (x y : F) : (x * y)%F = F0 -> x = F0 \/ y = F0.
Proof.
  intros H. destruct (F_dec x F0) as [E|E]; [left; exact E | right].
  replace y with (Finv x * (x * y))%F; [rewrite H; ring|]. replace (Finv x * (x * y))%F with ((Finv x * x) * y)%F by ring. rewrite Finv_l by exact E. ring.
Qed.
Lemma F_mul_ne (x y : F) : x <> F0 -> y <> F0 -> (x * y)%F <> F0.
Proof. intros Hx Hy H; apply F_integral in H; tauto. Qed.
Lemma Finv_0 : Finv F0 = F0.
Proof.
  unfold Finv. apply inF_eq. replace (fz F0) with 0 by reflexivity. set (e := p - 2). assert (He : 0 < e) by reflexivity. clearbody e. rewrite Z.pow_0_l by exact He. reflexivity.
Qed.
Lemma Finv_ne (x : F) : x <> F0 -> Finv x <> F0.
Proof. intros Hx H. apply F1_F0. rewrite <- (Finv_l x Hx), H. ring. Qed.
