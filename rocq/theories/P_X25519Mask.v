(** X25519 of the scalar 2^254 and u = -19 is not 0: 254 doublings, evaluated. *)
From Coq Require Import Znumtheory Field.
From Verif Require Import Base BaseP S_X25519 P_Prime25519 P_F25519 P_Ladder.
Open Scope Z_scope.

Local Notation p := p25519.
Definition fdbl (q : F * F) : F * F :=
  let '(x, z) := q in
  let AA := ((x + z) * (x + z))%F in let BB := ((x - z) * (x - z))%F in let E := (AA - BB)%F in
  ((AA * BB)%F, (E * (AA + inF 121665 * E))%F).
Fixpoint fdbls (n : nat) (q : F * F) : F * F := match n with O => q | S k => fdbls k (fdbl q) end.
Lemma floop_dbl k x1 n : (forall i, 0 <= i < Z.of_nat n -> Z.testbit k i = false) -> forall s, 
  fst (floop n k x1 false s) = false /\ fst (snd (floop n k x1 false s)) = fdbls n (fst s).
Proof.
  induction n as [|n IH]; intros Hk [[x2 z2] [x3 z3]]; [split; reflexivity|]. cbn [floop]. rewrite Hk by lia. cbn [xorb fswap].
  apply (IH ltac:(intros i Hi; apply Hk; lia) (fstep x1 (x2, z2, (x3, z3)))).
Qed.
Lemma pow_out n k u : Z.testbit k (Z.of_nat (S n)) = true -> (forall i, 0 <= i < Z.of_nat (S n) -> Z.testbit k i = false) ->
  fout (floop (S (S n)) k u false (1, 0, (u, 1))%F) =
  let '(x, z) := fdbls (S n) ((1 + 1 + 1 + 1) * u * u, (1 + 1 + 1 + 1) * u)%F in (x * Finv z)%F.
Proof.
  intros K1 K0. cbn [floop]. rewrite K1, (K0 (Z.of_nat n)) by lia. cbn [xorb fswap]. 
  assert (Q : exists x y, fstep u (u, 1, (1, 0))%F = (x, y, ((1 + 1 + 1 + 1) * u * u, (1 + 1 + 1 + 1) * u))%F).
  { eexists; eexists. unfold fstep. apply quad; [reflexivity | reflexivity | ring | ring]. }
  destruct Q as (x & y & ->). cbn [fswap].
  destruct (floop_dbl k u n ltac:(intros i Hi; apply K0; lia) (fstep u ((1 + 1 + 1 + 1) * u * u, (1 + 1 + 1 + 1) * u, (x, y))%F)) as [E1 E2].
  unfold fout. rewrite E1. cbn [fdbls]. unfold fdbl. unfold fstep in E1, E2 |- *. cbn [fst] in E2. rewrite <- E2.
  destruct (snd (floop n k u false _)) as [[x2 z2] [x3 z3]]. reflexivity.
Qed.
Lemma pow254_out u : fout (floop 255 (2 ^ 254) u false (1, 0, (u, 1))%F) =
  let '(x, z) := fdbls 254 ((1 + 1 + 1 + 1) * u * u, (1 + 1 + 1 + 1) * u)%F in (x * Finv z)%F.
Proof.
  apply (pow_out 253); [reflexivity|]. intros i Hi; rewrite Z.pow2_bits_eqb by lia; apply Z.eqb_neq; lia.
Qed.

(** The same doublings on numbers, of either sign. *)
Definition mulz (x y : Z) : Z := let m := x * y in match m with Zneg _ => - fold255 (fold255 (- m)) | _ => fold255 (fold255 m) end.
Definition ndbl (q : Z * Z) : Z * Z :=
  let '(x, z) := q in
  let s := x + z in let AA := mulz s s in let E := 4 * mulz x z in
  (mulz AA (AA - E), mulz E (AA + 121665 * E)).
Fixpoint ndbls (n : nat) (q : Z * Z) : Z * Z := match n with O => q | S k => ndbls k (ndbl q) end.
Lemma inF_fold x : 0 <= x -> inF (fold255 (fold255 x)) = inF x.
Proof. intros Hx; apply inF_eq. destruct (fold255_ok x Hx) as [H0 H]. destruct (fold255_ok _ H0) as [_ K]. rewrite K; exact H. Qed.
Lemma inF_mulz x y : inF (mulz x y) = (inF x * inF y)%F.
Proof.
  unfold mulz. rewrite <- inF_mul. set (m := x * y). clearbody m. destruct m as [|m|m]; [reflexivity | apply inF_fold; lia |].
  rewrite inF_opp, inF_fold by lia. rewrite <- inF_opp. f_equal.
Qed.
Definition toF2 (q : Z * Z) : F * F := (inF (fst q), inF (snd q)).
Lemma inF_4 : inF 4 = (1 + 1 + 1 + 1)%F. Proof. apply F_eq; vm_compute; reflexivity. Qed.
Lemma ndbl_ok q : toF2 (ndbl q) = fdbl (toF2 q).
Proof.
  destruct q as [x z]. unfold ndbl, toF2, fdbl. cbn [fst snd]. rewrite !inF_mulz, ?inF_add, ?inF_sub, ?inF_mul, ?inF_mulz, ?inF_add, inF_4.
  f_equal; ring.
Qed.
Lemma ndbls_ok n : forall q, toF2 (ndbls n q) = fdbls n (toF2 q).
Proof. induction n as [|n IH]; intros q; [reflexivity|]. cbn [ndbls fdbls]. rewrite IH, ndbl_ok. reflexivity. Qed.

Definition mask_check (n : nat) (q : Z * Z) : bool := let '(x, z) := ndbls n q in negb (x mod p =? 0) && negb (z mod p =? 0).
Lemma mask_check_ok : mask_check 254 (4 * 19 * 19, - 4 * 19) = true.
Proof. vm_compute; reflexivity. Qed.
Lemma mask_sound n q : mask_check n q = true -> (let '(x, z) := fdbls n (toF2 q) in (x * Finv z)%F) <> F0.
Proof.
  unfold mask_check. rewrite <- ndbls_ok. destruct (ndbls n q) as [x z]. unfold toF2. cbn [fst snd]. intros C H.
  apply andb_prop in C; destruct C as [C1 C2]. apply negb_true_iff, Z.eqb_neq in C1, C2. apply F_integral in H. destruct H as [H|H].
  - apply C1. apply (proj1 (inF_eq x 0)) in H. exact H.
  - destruct (F_dec (inF z) F0) as [Z0|Z0]; [apply C2; apply (proj1 (inF_eq z 0)) in Z0; exact Z0|]. exact (Finv_ne _ Z0 H).
Qed.
Lemma mask_start : ((1 + 1 + 1 + 1) * inF (p - 19) * inF (p - 19), (1 + 1 + 1 + 1) * inF (p - 19))%F = toF2 (4 * 19 * 19, - 4 * 19).
Proof. apply f_equal2; apply F_eq; vm_compute; reflexivity. Qed.
Theorem mask_nonzero : rfc_x25519 (2 ^ 254) (p - 19) <> 0.
Proof.
  pose proof (mask_sound _ _ mask_check_ok) as C. rewrite <- mask_start, <- pow254_out, <- rfc_F in C. intros H. apply C. rewrite H. reflexivity.
Qed.
