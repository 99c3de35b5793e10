(** The Montgomery ladder computes multiples on the curves of P_Edwards, and every u coordinate
    belongs to a point of one of two such curves. *)
From Coq Require Import Znumtheory Field.
From Verif Require Import Base BaseP S_X25519 P_Fermat P_Prime25519 P_F25519 P_Ladder P_Edwards.
Open Scope Z_scope.
Local Open Scope F_scope.

Definition a24 : F := inF 121665.

Section Multiples.
Variable d : F.
Hypothesis d_ns : forall s : F, (s * s)%F <> d.
Notation on := (on d). Notation eadd := (eadd d).

Fixpoint nmul (n : nat) (P : F * F) : F * F := match n with O => ezero | S k => eadd P (nmul k P) end.
Lemma nmul_on n P : on P -> on (nmul n P).
Proof. intros H; induction n as [|n IH]; [apply ezero_on | apply eadd_on; assumption]. Qed.
Lemma nmul_add m n P : on P -> nmul (m + n) P = eadd (nmul m P) (nmul n P).
Proof.
  intros H; induction m as [|m IH]; cbn [nmul Nat.add]; [symmetry; apply eadd_0_l|]. rewrite IH.
  symmetry; apply eadd_assoc; try assumption; apply nmul_on, H.
Qed.
Lemma nmul_mul m n P : on P -> nmul (m * n) P = nmul m (nmul n P).
Proof. intros H; induction m as [|m IH]; cbn [nmul Nat.mul]; [reflexivity|]. rewrite nmul_add, IH by exact H. reflexivity. Qed.
Lemma nmul_swap m n P : on P -> nmul m (nmul n P) = nmul n (nmul m P).
Proof. intros H. rewrite <- !nmul_mul by exact H. f_equal. lia. Qed.
Lemma nmul_1 P : nmul 1 P = P. Proof. cbn [nmul]. apply eadd_0_r. Qed.
Lemma nmul_zero n : nmul n ezero = ezero.
Proof. induction n as [|n IH]; [reflexivity|]. cbn [nmul]. rewrite IH. apply eadd_0_r. Qed.
Lemma nmul_diff m P : on P -> eadd (nmul (S m) P) (eneg (nmul m P)) = P.
Proof.
  intros H. pose proof (nmul_on m P H) as M. cbn [nmul]. rewrite eadd_assoc, eadd_neg, eadd_0_r by (try assumption; apply eneg_on; assumption). reflexivity.
Qed.

(** ** The ladder *)
Variable e : F.
Hypothesis He : (e = 1 /\ ((1 + a24) * (1 - d))%F = F1) \/ (e = (- (1))%F /\ (a24 * (1 - d))%F = (- (1))%F).

(** (X : Z) stands for the point with ordinate y. *)
Definition proj (X Z y : F) : Prop := exists l : F, l <> F0 /\ X = (l * (e * (1 + y)))%F /\ Z = (l * (1 - y))%F.
Definition ucoord (y : F) : F := (e * (1 + y) * Finv (1 - y))%F.
Lemma e_sq : (e * e)%F = F1. Proof. destruct He as [[-> _]|[-> _]]; ring. Qed.
Lemma e_ne : e <> F0. Proof. intros H. apply F1_F0. rewrite <- e_sq, H. ring. Qed.
Lemma proj_u X Z y : proj X Z y -> (X * Finv Z)%F = ucoord y.
Proof.
  intros (l & Hl & -> & ->). rewrite Finv_mul. unfold ucoord. transitivity ((Finv l * l) * (e * (1 + y) * Finv (1 - y)))%F; [ring|]. rewrite Finv_l by exact Hl. ring.
Qed.

Lemma on_zero x y E : E = (1 - d * (x * x) * (y * y))%F -> on (x, y) -> (E + (y * y - x * x))%F = ((1 + 1) * (1 - x * x))%F /\ (E - (y * y - x * x))%F = ((1 + 1) * (1 - y * y))%F.
Proof.
  intros -> H. unfold P_Edwards.on in H; cbn [fst snd] in H.
  assert (Q : (d * (x * x) * (y * y))%F = (x * x + y * y - 1)%F) by (rewrite H; ring). rewrite Q. split; ring.
Qed.
Lemma on_x x y : on (x, y) -> ((1 - x * x) * (1 - d * (y * y)))%F = ((1 - d) * (y * y))%F.
Proof.
  intros H. unfold P_Edwards.on in H; cbn [fst snd] in H. transitivity (1 + d * (x * x) * (y * y) - x * x - d * (y * y))%F; [ring|]. rewrite <- H. ring.
Qed.
Lemma two_pow : ((1 + 1) * (1 + 1) * (1 + 1))%F <> F0. Proof. repeat apply F_mul_ne; exact F_two. Qed.

Lemma double X Z P : on P -> proj X Z (snd P) ->
  let AA := ((X + Z) * (X + Z))%F in let BB := ((X - Z) * (X - Z))%F in let E := (AA - BB)%F in
  proj (AA * BB) (E * (AA + inF 121665 * E)) (snd (eadd P P)).
Proof.
  intros H (l & Hl & EX & EZ). cbv zeta. subst X Z. fold a24. destruct (complete d d_ns P P H H) as [_ N]. destruct P as [x y].
  unfold P_Edwards.eadd, den in *; cbn [fst snd] in *. set (E0 := (1 - d * (x * x) * (y * y))%F) in *.
  pose proof (Finv_l E0 N) as J. destruct (on_zero x y E0 eq_refl H) as [S1 S2]. pose proof (on_x x y H) as S3. set (M := (1 - d * (y * y))%F) in *.
  assert (HM : M <> F0) by (apply y_ne; exact d_ns). pose proof (eq_refl M) as EM. unfold M at 2 in EM.
  set (w := (y * y - x * x)%F) in *. set (j := Finv E0) in *.
  assert (T1 : forall c, (c * E0 * (1 + w * j))%F = (c * ((1 + 1) * (1 - x * x)))%F) by (intros c; rewrite <- S1; transitivity (c * (E0 + w * (j * E0)))%F; [ring | rewrite J; ring]).
  assert (T2 : forall c, (c * E0 * (1 - w * j))%F = (c * ((1 + 1) * (1 - y * y)))%F) by (intros c; rewrite <- S2; transitivity (c * (E0 - w * (j * E0)))%F; [ring | rewrite J; ring]).
  clearbody M E0 w j. clear S1 S2 J.
  unfold proj. destruct He as [[Ee K]|[Ee K]]; rewrite Ee.
  - exists (((1 + 1) * (1 + 1) * (1 + 1)) * (l * l * l * l) * M * (1 + a24) * E0)%F. split; [|split].
    + repeat apply F_mul_ne; try assumption; try exact F_two. intros Q. apply F1_F0. rewrite <- K, Q. ring.
    + transitivity ((1 + 1) * (1 + 1) * (1 + 1) * (1 + 1) * (l * l * l * l) * (y * y))%F; [ring|].
      transitivity (((1 + 1) * (1 + 1) * (1 + 1)) * (l * l * l * l) * M * (1 + a24) * E0 * (1 + w * j))%F; [|ring]. rewrite T1.
      transitivity ((1 + 1) * (1 + 1) * (1 + 1) * (1 + 1) * (l * l * l * l) * ((1 + a24) * ((1 - x * x) * M)))%F; [|ring]. rewrite S3.
      transitivity ((1 + 1) * (1 + 1) * (1 + 1) * (1 + 1) * (l * l * l * l) * (((1 + a24) * (1 - d)) * (y * y)))%F; [|ring]. rewrite K. ring.
    + rewrite T2. rewrite EM.
      transitivity ((1 + 1) * (1 + 1) * (1 + 1) * (1 + 1) * (l * l * l * l) * (1 - y * y) * (1 + a24 * (1 - y * y)))%F; [ring|].
      transitivity ((1 + 1) * (1 + 1) * (1 + 1) * (1 + 1) * (l * l * l * l) * (1 - y * y) * ((1 + a24) * (1 - y * y) + ((1 + a24) * (1 - d)) * (y * y)))%F; [rewrite K; ring|]. ring.
  - exists (((1 + 1) * (1 + 1) * (1 + 1)) * (l * l * l * l) * M * a24 * E0)%F. split; [|split].
    + repeat apply F_mul_ne; try assumption; try exact F_two. intros Q. apply F1_F0. transitivity (- (- (1)))%F; [ring|]. rewrite <- K, Q. ring.
    + transitivity ((1 + 1) * (1 + 1) * (1 + 1) * (1 + 1) * (l * l * l * l) * (y * y))%F; [ring|].
      transitivity (- (((1 + 1) * (1 + 1) * (1 + 1)) * (l * l * l * l) * M * a24 * E0 * (1 + w * j)))%F; [|ring]. rewrite T1.
      transitivity (- ((1 + 1) * (1 + 1) * (1 + 1) * (1 + 1) * (l * l * l * l) * (a24 * ((1 - x * x) * M))))%F; [|ring]. rewrite S3.
      transitivity (- ((1 + 1) * (1 + 1) * (1 + 1) * (1 + 1) * (l * l * l * l) * ((a24 * (1 - d)) * (y * y))))%F; [|ring]. rewrite K. ring.
    + rewrite T2. rewrite EM.
      transitivity ((1 + 1) * (1 + 1) * (1 + 1) * (1 + 1) * (l * l * l * l) * (1 - y * y) * (a24 * (1 - y * y) - y * y))%F; [ring|].
      transitivity ((1 + 1) * (1 + 1) * (1 + 1) * (1 + 1) * (l * l * l * l) * (1 - y * y) * (a24 * (1 - y * y) + (a24 * (1 - d)) * (y * y)))%F; [rewrite K; ring|]. ring.
Qed.

Lemma diff_poly c x1 y1 x2 y2 : (c * d)%F = F1 ->
  (x1 * x1 * y1 * y1)%F = (c * (x1 * x1) + c * (y1 * y1) - c)%F -> (x2 * x2 * y2 * y2)%F = (c * (x2 * x2) + c * (y2 * y2) - c)%F ->
  let t := (d * (x1 * x2) * (y1 * y2))%F in
  ((1 - t + (y1 * y2 - x1 * x2)) * (1 + t + (y1 * y2 + x1 * x2)) * ((y2 - y1) * (y2 - y1)))%F
  = ((1 - t - (y1 * y2 - x1 * x2)) * (1 + t - (y1 * y2 + x1 * x2)) * ((y1 + y2) * (y1 + y2)))%F.
Proof. intros Hc H1 H2 t. unfold t. ring [Hc H1 H2]. Qed.

Lemma diff_add (u yB X1 Z1 X2 Z2 : F) (P Q : F * F) : on P -> on Q -> proj X1 Z1 (snd P) -> proj X2 Z2 (snd Q) ->
  (yB * (1 + den d P Q))%F = (snd P * snd Q + fst P * fst Q)%F -> (1 - yB)%F <> F0 -> (1 + yB)%F <> F0 -> (u * (1 - yB))%F = (e * (1 + yB))%F ->
  let DA := ((X2 - Z2) * (X1 + Z1))%F in let CB := ((X2 + Z2) * (X1 - Z1))%F in
  proj ((DA + CB) * (DA + CB)) (u * ((DA - CB) * (DA - CB))) (snd (eadd P Q)).
Proof.
  intros HP HQ (l & Hl & -> & ->) (m & Hm & -> & ->) EB NB NB' Hu. cbv zeta.
  destruct (complete d d_ns P Q HP HQ) as [N1 N2]. assert (Hc : (Finv d * d)%F = F1) by (apply Finv_l, d_ne, d_ns).
  destruct P as [x1 y1], Q as [x2 y2].
  pose proof (diff_poly (Finv d) x1 y1 x2 y2 Hc (on_rule d x1 y1 _ Hc HP) (on_rule d x2 y2 _ Hc HQ)) as Y. cbv zeta in Y.
  unfold P_Edwards.eadd. cbn [fst snd]. unfold P_Edwards.on in HP, HQ. unfold den in *. cbn [fst snd] in *.
  set (t := (d * (x1 * x2) * (y1 * y2))%F) in *. set (yS := ((y1 * y2 - x1 * x2) * Finv (1 - t))%F).
  assert (ES : (yS * (1 - t))%F = (y1 * y2 - x1 * x2)%F) by (unfold yS; transitivity ((y1 * y2 - x1 * x2) * (Finv (1 - t) * (1 - t)))%F; [ring | rewrite Finv_l by exact N2; ring]).
  assert (ET : t = (d * (x1 * x2) * (y1 * y2))%F) by reflexivity. clearbody yS t.
  set (w := ((1 + 1) * (1 + 1) * (1 + 1) * (1 + 1) * (l * l) * (m * m))%F).
  assert (W : w <> F0) by (unfold w; repeat apply F_mul_ne; try assumption; exact F_two).
  (* the two coordinates *)
  match goal with |- proj ?a ?b _ => set (x3 := a); set (z3 := b) end.
  assert (E3 : x3 = (w * ((y1 + y2) * (y1 + y2)))%F) by (unfold x3, w; destruct He as [[Ee _]|[Ee _]]; rewrite Ee; ring).
  assert (F3 : z3 = (u * (w * ((y2 - y1) * (y2 - y1))))%F) by (unfold z3, w; destruct He as [[Ee _]|[Ee _]]; rewrite Ee; ring).
  clearbody x3 z3 w.
  rewrite <- ES, <- EB in Y.
  assert (Y' : ((1 + yS) * (1 + yB) * ((y2 - y1) * (y2 - y1)))%F = ((1 - yS) * (1 - yB) * ((y1 + y2) * (y1 + y2)))%F).
  { apply (F_cancel ((1 - t) * (1 + t))); [apply F_mul_ne; assumption|]. etransitivity; [etransitivity; [|exact Y]|]; ring. }
  assert (R : (e * z3 * (1 + yS))%F = (x3 * (1 - yS))%F).
  { apply (F_cancel (1 - yB)); [exact NB|]. rewrite E3, F3. transitivity (w * e * (u * (1 - yB)) * (1 + yS) * ((y2 - y1) * (y2 - y1)))%F; [ring|]. rewrite Hu.
    transitivity (w * (e * e) * ((1 + yS) * (1 + yB) * ((y2 - y1) * (y2 - y1))))%F; [ring|]. rewrite Y', e_sq. ring. }
  pose proof (Finv_l (1 + 1)%F F_two) as Hh. set (h := Finv (1 + 1)%F) in *. clearbody h.
  exists ((e * x3 + z3) * h)%F. split; [|split].
  - intros Q. assert (Hx : x3 = F0 /\ z3 = F0).
    { assert (Hs : (e * x3 + z3)%F = F0) by (transitivity (((e * x3 + z3) * h) * (1 + 1))%F; [transitivity ((h * (1 + 1)) * (e * x3 + z3))%F; [rewrite Hh; ring | ring] | rewrite Q; ring]).
      assert (Zz : z3 = (- (e * x3))%F) by (transitivity ((e * x3 + z3) - e * x3)%F; [ring | rewrite Hs; ring]).
      assert (X0 : x3 = F0).
      { assert (T : ((1 + 1) * x3)%F = F0); [|apply F_integral in T; destruct T as [T|T]; [destruct (F_two T) | exact T]].
        transitivity (x3 * (1 - yS) + x3 * (1 + yS))%F; [ring|]. rewrite <- R, Zz. transitivity (x3 * (1 + yS) - (e * e) * (x3 * (1 + yS)))%F; [ring|]. rewrite e_sq. ring. }
      split; [exact X0|]. rewrite Zz, X0. ring. }
    destruct Hx as [X0 Z0]. rewrite E3 in X0. rewrite F3 in Z0.
    assert (Hu0 : u <> F0). { intros U0. apply (F_mul_ne e (1 + yB) (e_ne) NB'). rewrite <- Hu, U0. ring. }
    apply F_integral in X0. destruct X0 as [X0|X0]; [contradiction|]. assert (A1 : (y1 + y2)%F = F0) by (apply F_integral in X0; tauto).
    apply F_integral in Z0. destruct Z0 as [Z0|Z0]; [contradiction|]. apply F_integral in Z0. destruct Z0 as [Z0|Z0]; [contradiction|]. assert (A2 : (y2 - y1)%F = F0) by (apply F_integral in Z0; tauto).
    assert (Y2 : y2 = F0). { assert (T : ((1 + 1) * y2)%F = F0) by (transitivity ((y1 + y2) + (y2 - y1))%F; [ring | rewrite A1, A2; ring]). apply F_integral in T. destruct T as [T|T]; [destruct (F_two T) | exact T]. }
    assert (Y1 : y1 = F0) by (transitivity ((y1 + y2) - y2)%F; [ring | rewrite A1, Y2; ring]).
    subst y1 y2. assert (EB' : yB = (x1 * x2)%F) by (transitivity (yB * (1 + d * (x1 * x2) * (0 * 0)))%F; [ring | rewrite <- ET, EB; ring]).
    assert (B2 : ((1 - yB) * (1 + yB))%F = F0).
    { rewrite EB'. transitivity (1 - (x1 * x1 + 0 * 0) * (x2 * x2 + 0 * 0))%F; [ring|]. rewrite HP, HQ. ring. }
    apply F_integral in B2. tauto.
  - transitivity (h * ((e * e) * (x3 * (1 + yS)) + e * z3 * (1 + yS)))%F; [|ring]. rewrite R, e_sq. transitivity ((h * (1 + 1)) * x3)%F; [rewrite Hh; ring | ring].
  - assert (R' : (e * (x3 * (1 - yS)))%F = (z3 * (1 + yS))%F) by (rewrite <- R; transitivity ((e * e) * (z3 * (1 + yS)))%F; [ring | rewrite e_sq; ring]).
    transitivity (h * (e * (x3 * (1 - yS)) + z3 * (1 - yS)))%F; [|ring]. rewrite R'. transitivity ((h * (1 + 1)) * z3)%F; [rewrite Hh; ring | ring].
Qed.

(** The ordinate of the difference of two neighbouring multiples. *)
Lemma diff_y P Q B : on P -> on Q -> eadd Q (eneg P) = B -> (snd B * (1 + den d P Q))%F = (snd P * snd Q + fst P * fst Q)%F.
Proof.
  intros HP HQ <-. destruct (complete d d_ns P Q HP HQ) as [N _]. destruct P as [x1 y1], Q as [x2 y2]. unfold P_Edwards.eadd, eneg, den in *; cbn [fst snd] in *.
  replace (1 - d * (x2 * - x1) * (y2 * y1))%F with (1 + d * (x1 * x2) * (y1 * y2))%F by ring.
  transitivity ((y1 * y2 + x1 * x2) * (Finv (1 + d * (x1 * x2) * (y1 * y2)) * (1 + d * (x1 * x2) * (y1 * y2))))%F; [ring|]. rewrite Finv_l by exact N. ring.
Qed.
Lemma den_comm P Q : den d P Q = den d Q P. Proof. unfold den. ring. Qed.

Section Base.
Variable B : F * F.
Hypothesis HB : on B.
Hypothesis B1 : (1 - snd B)%F <> F0.
Hypothesis B2 : (1 + snd B)%F <> F0.
Definition Rep (s : fst_) (m : nat) : Prop :=
  let '(x2, z2, (x3, z3)) := s in proj x2 z2 (snd (nmul m B)) /\ proj x3 z3 (snd (nmul (S m) B)).
Lemma u_base : (ucoord (snd B) * (1 - snd B))%F = (e * (1 + snd B))%F.
Proof. unfold ucoord. transitivity (e * (1 + snd B) * (Finv (1 - snd B) * (1 - snd B)))%F; [ring|]. rewrite Finv_l by exact B1. ring. Qed.
Lemma nmul_double m : eadd (nmul m B) (nmul m B) = nmul (2 * m) B.
Proof. rewrite <- nmul_add by exact HB. f_equal. lia. Qed.
Lemma rep_step sw b s m : Rep (fswap sw s) m ->
  Rep (fswap b (fstep (ucoord (snd B)) (fswap (xorb sw b) s))) (2 * m + (if b then 1 else 0)).
Proof.
  assert (SW : fswap (xorb sw b) s = fswap b (fswap sw s)) by (destruct s as [[x2 z2] [x3 z3]], sw, b; reflexivity). rewrite SW. clear SW.
  destruct (fswap sw s) as [[x2 z2] [x3 z3]]. intros [R2 R3].
  pose proof (nmul_on m B HB) as O2. pose proof (nmul_on (S m) B HB) as O3.
  pose proof (diff_y _ _ _ O2 O3 (nmul_diff m B HB)) as EY.
  assert (ES : eadd (nmul m B) (nmul (S m) B) = nmul (2 * m + 1) B) by (rewrite <- nmul_add by exact HB; f_equal; lia).
  destruct b; cbn [fswap fstep]; split.
  - replace (2 * m + 1)%nat with (2 * m + 1)%nat by reflexivity. rewrite <- ES, (eadd_comm d).
    apply (diff_add (ucoord (snd B)) (snd B) x3 z3 x2 z2 (nmul (S m) B) (nmul m B)); try assumption; [|exact u_base].
    rewrite den_comm, EY. ring.
  - replace (S (2 * m + 1)) with (2 * S m)%nat by lia. rewrite <- nmul_double. exact (double x3 z3 (nmul (S m) B) O3 R3).
  - replace (2 * m + 0)%nat with (2 * m)%nat by lia. rewrite <- nmul_double. exact (double x2 z2 (nmul m B) O2 R2).
  - replace (S (2 * m + 0)) with (2 * m + 1)%nat by lia. rewrite <- ES.
    apply (diff_add (ucoord (snd B)) (snd B) x2 z2 x3 z3 (nmul m B) (nmul (S m) B)); try assumption. exact u_base.
Qed.
Lemma rep_loop n k : (0 <= k)%Z -> forall sw s m, Rep (fswap sw s) m ->
  let r := floop n k (ucoord (snd B)) sw s in Rep (fswap (fst r) (snd r)) (m * 2 ^ n + Z.to_nat (k mod 2 ^ Z.of_nat n))%nat.
Proof.
  intros Hk; induction n as [|n IH]; intros sw s m H; cbv zeta.
  - cbn [floop fst snd]. rewrite Z.mod_1_r. cbn [Z.to_nat]. replace (m * 2 ^ 0 + 0)%nat with m by (cbn; lia). exact H.
  - cbn [floop]. apply (rep_step sw (Z.testbit k (Z.of_nat n))) in H. apply IH in H. cbv zeta in H.
    replace (m * 2 ^ S n + Z.to_nat (k mod 2 ^ Z.of_nat (S n)))%nat with ((2 * m + (if Z.testbit k (Z.of_nat n) then 1 else 0)) * 2 ^ n + Z.to_nat (k mod 2 ^ Z.of_nat n))%nat; [exact H|].
    assert (Q : (k mod 2 ^ Z.of_nat (S n) = Z.b2z (Z.testbit k (Z.of_nat n)) * 2 ^ Z.of_nat n + k mod 2 ^ Z.of_nat n)%Z).
    { rewrite Nat2Z.inj_succ, Z.pow_succ_r by lia. rewrite (Z.mul_comm 2), Z.rem_mul_r by lia. rewrite Z.testbit_spec' by lia. lia. }
    rewrite Q. pose proof (Z.mod_pos_bound k (2 ^ Z.of_nat n) ltac:(lia)) as Bd. rewrite Z2Nat.inj_add by (try lia; destruct (Z.testbit k (Z.of_nat n)); cbn [Z.b2z]; lia).
    rewrite Z2Nat.inj_mul by (try lia; destruct (Z.testbit k (Z.of_nat n)); cbn [Z.b2z]; lia).
    replace (Z.to_nat (2 ^ Z.of_nat n)) with (2 ^ n)%nat by (rewrite <- (Nat2Z.id (2 ^ n)), Nat2Z.inj_pow; reflexivity).
    cbn [Nat.pow]. destruct (Z.testbit k (Z.of_nat n)); cbn [Z.b2z]; [change (Z.to_nat 1) with 1%nat | change (Z.to_nat 0) with 0%nat]; nia.
Qed.
Lemma ladder_base k : (0 <= k < 2 ^ 255)%Z ->
  fout (floop 255 k (ucoord (snd B)) false (1, 0, (ucoord (snd B), 1))%F) = ucoord (snd (nmul (Z.to_nat k) B)).
Proof.
  intros Hk. assert (R0 : Rep (fswap false (1, 0, (ucoord (snd B), 1))%F) 0).
  { split.
    - cbn [nmul ezero snd]. pose proof (Finv_l (1 + 1)%F F_two) as Hh. exists (e * Finv (1 + 1))%F. split; [apply F_mul_ne; [exact e_ne | apply Finv_ne; exact F_two]|].
      split; [|ring]. transitivity ((e * e) * (Finv (1 + 1) * (1 + 1)))%F; [rewrite Hh, e_sq; ring | ring].
    - rewrite nmul_1. exists (Finv (1 - snd B)). split; [apply Finv_ne, B1|]. split; [unfold ucoord; ring | symmetry; apply Finv_l, B1]. }
  apply (rep_loop 255 k ltac:(lia)) in R0. cbv zeta in R0. unfold fout. destruct (fswap _ _) as [[x2 z2] [x3 z3]]. destruct R0 as [R0 _].
  change (Z.of_nat 255) with 255%Z in R0. rewrite Z.mod_small in R0 by exact Hk. rewrite Nat.mul_0_l, Nat.add_0_l in R0. apply proj_u in R0. exact R0.
Qed.
End Base.

Lemma two_torsion B : fst B = F0 -> (snd B * snd B)%F = F1 -> eadd B B = ezero.
Proof.
  destruct B as [x y]; cbn [fst snd]. intros -> Y. unfold P_Edwards.eadd, den, ezero; cbn [fst snd].
  assert (D1 : (1 + d * (0 * 0) * (y * y))%F = F1) by ring. assert (D2 : (1 - d * (0 * 0) * (y * y))%F = F1) by ring. rewrite D1, D2, Y.
  apply pair_eq; [transitivity ((0 * y + y * 0))%F; [apply F_div1 | ring] | transitivity (1 - 0 * 0)%F; [apply F_div1 | ring]].
Qed.
(** Also for the points whose u coordinate is 0, when the scalar is even. *)
Lemma ladder_mul k B : on B -> (0 <= k < 2 ^ 255)%Z -> (k mod 2 = 0)%Z ->
  fout (floop 255 k (ucoord (snd B)) false (1, 0, (ucoord (snd B), 1))%F) = ucoord (snd (nmul (Z.to_nat k) B)).
Proof.
  intros HB Hk Ev. destruct (F_dec (1 - snd B) F0) as [E1|E1]; [|destruct (F_dec (1 + snd B) F0) as [E2|E2]; [|apply ladder_base; assumption]].
  all: assert (U : ucoord (snd B) = F0) by (unfold ucoord; first [rewrite E1, Finv_0; ring | rewrite E2; ring]).
  all: rewrite U, zero_out.
  all: assert (Y : (snd B * snd B)%F = F1) by (transitivity (1 - (1 - snd B) * (1 + snd B))%F; [ring | first [rewrite E1 | rewrite E2]; ring]).
  all: assert (X : fst B = F0) by (
    unfold P_Edwards.on in HB; rewrite Y in HB; assert (T : ((fst B * fst B) * (1 - d))%F = F0) by (transitivity ((fst B * fst B + 1) - (1 + d * (fst B * fst B) * 1))%F; [ring | rewrite HB; ring]);
    apply F_integral in T; destruct T as [T|T]; [apply F_integral in T; tauto | destruct (d_ne1 d d_ns T)]).
  all: pose proof (two_torsion B X Y) as DB.
  all: assert (K : Z.to_nat k = (Z.to_nat (k / 2) * 2)%nat) by (pose proof (Z.div_mod k 2 ltac:(lia)); rewrite Ev in *; lia).
  all: rewrite K, nmul_mul by exact HB; cbn [nmul]; rewrite eadd_0_r, DB, nmul_zero; unfold ucoord, ezero; cbn [snd]; replace (1 - 1)%F with F0 by ring; rewrite Finv_0; ring.
Qed.
End Multiples.

(** * Squares *)
Definition half : Z := (p25519 - 1) / 2.
Definition Fpow (x : F) (n : Z) : F := inF (fz x ^ n).
Lemma Fpow_mul x y n : Fpow (x * y)%F n = (Fpow x n * Fpow y n)%F.
Proof.
  unfold Fpow. rewrite <- inF_mul, <- Z.pow_mul_l. apply inF_pow_eq. rewrite inF_fz. unfold Fmul. reflexivity.
Qed.
Lemma Fpow_add x m n : (0 <= m)%Z -> (0 <= n)%Z -> Fpow x (m + n) = (Fpow x m * Fpow x n)%F.
Proof. intros. unfold Fpow. rewrite <- inF_mul, Z.pow_add_r by assumption. reflexivity. Qed.
Lemma Fpow_1 x : Fpow x 1 = x. Proof. unfold Fpow. rewrite Z.pow_1_r. apply inF_fz. Qed.
Lemma Fpow_fermat x : x <> F0 -> Fpow x (p25519 - 1) = F1.
Proof.
  intros H. rewrite <- (Finv_l x H). assert (E : (p25519 - 1 = (p25519 - 2) + 1)%Z) by (set (P := p25519); clearbody P; lia).
  rewrite E, Fpow_add by (vm_compute; discriminate). rewrite Fpow_1. reflexivity.
Qed.
Lemma half_two : (half + half = p25519 - 1)%Z. Proof. vm_compute; reflexivity. Qed.
Lemma half_nonneg : (0 <= half)%Z. Proof. vm_compute; discriminate. Qed.
Lemma square_roots_1 (x : F) : (x * x)%F = F1 -> x = F1 \/ x = (- (1))%F.
Proof.
  intros H. assert (E : ((x - 1) * (x + 1))%F = F0) by (transitivity (x * x - 1)%F; [ring | rewrite H; ring]).
  apply F_integral in E. destruct E as [E|E]; [left; apply F_sub0, E | right]. transitivity ((x + 1) - 1)%F; [ring | rewrite E; ring].
Qed.
Lemma euler_pm x : x <> F0 -> Fpow x half = F1 \/ Fpow x half = (- (1))%F.
Proof. intros H. apply square_roots_1. rewrite <- Fpow_add, half_two by exact half_nonneg. apply Fpow_fermat, H. Qed.
Lemma euler_square s : s <> F0 -> Fpow (s * s)%F half = F1.
Proof. intros H. rewrite Fpow_mul, <- Fpow_add, half_two by exact half_nonneg. apply Fpow_fermat, H. Qed.
Lemma m1_ne : (- (1))%F <> F1.
Proof. intros H. apply F_two. transitivity (1 - - (1))%F; [ring | rewrite H; ring]. Qed.
(** p is 5 modulo 8: a root of x is x^((p+3)/8), if need be times a root of -1. *)
Definition im : F := inF 19681161376707505956807079304988542015446066515923890162744021073123829784752.
Lemma im_sq : (im * im)%F = (- (1))%F.
Proof. apply F_eq. vm_compute. reflexivity. Qed.
Definition quarter : Z := (p25519 - 1) / 4.
Definition eighth : Z := (p25519 + 3) / 8.
Lemma square_of x : Fpow x half = F1 -> exists s, (s * s)%F = x.
Proof.
  intros H. assert (Q : Fpow x quarter = F1 \/ Fpow x quarter = (- (1))%F).
  { apply square_roots_1. rewrite <- Fpow_add by (vm_compute; discriminate). replace (quarter + quarter)%Z with half by (vm_compute; reflexivity). exact H. }
  set (r := Fpow x eighth). assert (R : (r * r)%F = (x * Fpow x quarter)%F).
  { unfold r. rewrite <- (Fpow_1 x) at 3. rewrite <- !Fpow_add by (vm_compute; discriminate). f_equal. }
  clearbody r. destruct Q as [Q|Q]; rewrite Q in R.
  - exists r. rewrite R. ring.
  - exists (r * im)%F. transitivity ((r * r) * (im * im))%F; [ring|]. rewrite R, im_sq. ring.
Qed.

Definition A1 : F := (1 + a24)%F.
Lemma a24_ne : a24 <> F0. Proof. intros H. apply (f_equal fz) in H. vm_compute in H. discriminate H. Qed.
Lemma A1_ne : A1 <> F0. Proof. intros H. apply (f_equal fz) in H. vm_compute in H. discriminate H. Qed.
Definition half_pos : positive := 28948022309329048855892746252171976963317496166410141009864396001978282409974.
Lemma half_pos_ok : half = Zpos half_pos. Proof. vm_compute; reflexivity. Qed.
Definition NN : Z := 14802493890.
Lemma N_powZ : (power mulp NN half_pos mod p25519 = (- 1) mod p25519)%Z.
Proof. vm_compute. reflexivity. Qed.
Lemma NN_eq : (a24 * A1)%F = inF NN. Proof. apply F_eq; vm_compute; reflexivity. Qed.
Lemma N_pow : Fpow (a24 * A1)%F half = (- (1))%F.
Proof.
  destruct (power_ok p25519 mulp eq_refl mulp_ok NN half_pos ltac:(discriminate)) as [_ P].
  transitivity (inF (- 1)); [|apply F_eq; vm_compute; reflexivity]. rewrite NN_eq. unfold Fpow.
  transitivity (inF (NN ^ half)); [apply inF_pow_eq, inF_fz|]. apply inF_eq. rewrite half_pos_ok, <- P. exact N_powZ.
Qed.
Lemma N_nonsquare s : (s * s)%F <> (a24 * A1)%F.
Proof.
  intros H. apply m1_ne. rewrite <- N_pow, <- H. apply euler_square. intros ->. apply (F_mul_ne _ _ a24_ne A1_ne). rewrite <- H. ring.
Qed.

Definition d1 : F := (a24 * Finv A1)%F.
Definition d2 : F := (A1 * Finv a24)%F.
Lemma d1_ns s : (s * s)%F <> d1.
Proof.
  intros H. apply (N_nonsquare (s * A1)). transitivity ((s * s) * A1 * A1)%F; [ring|]. rewrite H. unfold d1.
  transitivity (a24 * A1 * (Finv A1 * A1))%F; [ring|]. rewrite Finv_l by exact A1_ne. ring.
Qed.
Lemma d2_ns s : (s * s)%F <> d2.
Proof.
  intros H. apply (N_nonsquare (s * a24)). transitivity ((s * s) * a24 * a24)%F; [ring|]. rewrite H. unfold d2.
  transitivity (a24 * A1 * (Finv a24 * a24))%F; [ring|]. rewrite Finv_l by exact a24_ne. ring.
Qed.
Definition curve (e d : F) : Prop := (e = 1 /\ ((1 + a24) * (1 - d))%F = F1) \/ (e = (- (1))%F /\ (a24 * (1 - d))%F = (- (1))%F).
Lemma curve1 : curve 1 d1.
Proof.
  left. split; [reflexivity|]. unfold d1. change (1 + a24)%F with A1. transitivity (A1 - a24 * (Finv A1 * A1))%F; [ring|]. rewrite Finv_l by exact A1_ne. unfold A1. ring.
Qed.
Lemma curve2 : curve (- (1)) d2.
Proof.
  right. split; [reflexivity|]. unfold d2. transitivity (a24 - A1 * (Finv a24 * a24))%F; [ring|]. rewrite Finv_l by exact a24_ne. unfold A1. ring.
Qed.
Definition qq (u : F) : F := (A1 * ((u + 1) * (u + 1)) - a24 * ((u - 1) * (u - 1)))%F.
Lemma qq_ne u : qq u <> F0.
Proof.
  intros H. destruct (F_dec (u - 1) F0) as [E|E].
  - assert (U : u = F1) by (apply F_sub0, E). unfold qq in H. rewrite U in H. apply (F_mul_ne _ _ A1_ne (F_mul_ne _ _ F_two F_two)). rewrite <- H. ring.
  - apply (N_nonsquare (A1 * (u + 1) * Finv (u - 1))).
    transitivity ((A1 * ((u + 1) * (u + 1))) * A1 * (Finv (u - 1) * Finv (u - 1)))%F; [ring|].
    assert (Q : (A1 * ((u + 1) * (u + 1)))%F = (a24 * ((u - 1) * (u - 1)))%F) by (apply F_sub0; exact H). rewrite Q.
    transitivity (a24 * A1 * ((Finv (u - 1) * (u - 1)) * (Finv (u - 1) * (u - 1))))%F; [ring|]. rewrite Finv_l by exact E. ring.
Qed.
Lemma one_square a b : a <> F0 -> b <> F0 -> (forall s, (s * s)%F <> (a * b)%F) -> (exists s, (s * s)%F = a) \/ (exists s, (s * s)%F = b).
Proof.
  intros Ha Hb N. destruct (euler_pm a Ha) as [E|E]; [left; apply square_of, E|]. destruct (euler_pm b Hb) as [E'|E']; [right; apply square_of, E'|].
  exfalso. destruct (square_of (a * b)) as [s Hs]; [|exact (N s Hs)]. rewrite Fpow_mul, E, E'. ring.
Qed.
(** Every u belongs to a point of one of the two curves. *)
Lemma lift u : exists e d B, (forall s, (s * s)%F <> d) /\ curve e d /\ on d B /\ ucoord e (snd B) = u.
Proof.
  destruct (F_dec u F0) as [U0|U0]; [|destruct (F_dec (u - 1) F0) as [V|V]; [|destruct (F_dec (u + 1) F0) as [W|W]]].
  - exists F1, d1, (F0, (- (1))%F). split; [exact d1_ns|]. split; [exact curve1|]. split; [unfold on; cbn [fst snd]; ring|]. cbn [snd]. unfold ucoord. rewrite U0. ring.
  - exists F1, d1, (F1, F0). split; [exact d1_ns|]. split; [exact curve1|]. split; [unfold on; cbn [fst snd]; ring|]. cbn [snd]. unfold ucoord.
    replace (1 - 0)%F with F1 by ring. rewrite F_div1. rewrite (F_sub0 _ _ V). ring.
  - exists (- (1))%F, d2, (F1, F0). split; [exact d2_ns|]. split; [exact curve2|]. split; [unfold on; cbn [fst snd]; ring|]. cbn [snd]. unfold ucoord.
    replace (1 - 0)%F with F1 by ring. rewrite F_div1. symmetry. transitivity ((u + 1) - 1)%F; [ring | rewrite W; ring].
  - pose proof (qq_ne u) as Q. set (q := qq u) in *.
    destruct (one_square (u * A1 * q) (u * a24 * q)) as [[r Hr]|[r Hr]].
    + repeat apply F_mul_ne; try assumption; exact A1_ne.
    + repeat apply F_mul_ne; try assumption; exact a24_ne.
    + intros s Hs. assert (G : (u * q)%F <> F0) by (apply F_mul_ne; assumption). pose proof (Finv_l _ G) as GI. set (g := Finv (u * q)) in *. clearbody g.
      apply (N_nonsquare (s * g)). transitivity ((s * s) * (g * g))%F; [ring|]. rewrite Hs.
      transitivity (a24 * A1 * ((g * (u * q)) * (g * (u * q))))%F; [ring|]. rewrite GI. ring.
    + set (v := Finv (u + 1)). assert (Hv : (v * (u + 1))%F = F1) by (apply Finv_l, W).
      set (w := Finv q). assert (Hw : (w * q)%F = F1) by (apply Finv_l, Q). pose proof (Finv_l _ A1_ne) as HA.
      exists F1, d1, ((1 + 1) * r * w, (u - 1) * v)%F. split; [exact d1_ns|]. split; [exact curve1|]. split.
      * unfold on, d1; cbn [fst snd]. apply (F_cancel ((u + 1) * (u + 1))); [apply F_mul_ne; exact W|].
        apply (F_cancel q); [exact Q|].
        set (a := a24) in *. set (b := Finv A1) in *. set (c := A1) in *.
        assert (EQ : q = (c * ((u + 1) * (u + 1)) - a * ((u - 1) * (u - 1)))%F) by reflexivity. clearbody v w b q.
        assert (V2 : forall z : F, ((u + 1) * (u + 1) * (z * (v * v)))%F = z) by (intros z; transitivity ((v * (u + 1)) * (v * (u + 1)) * z)%F; [ring | rewrite Hv; ring]).
        assert (W2 : (q * ((r * r) * (w * w)))%F = (u * c)%F) by (rewrite Hr; transitivity (u * c * ((w * q) * (w * q)))%F; [ring | rewrite Hw; ring]).
        transitivity ((1 + 1) * (1 + 1) * ((u + 1) * (u + 1)) * (q * ((r * r) * (w * w))) + q * ((u + 1) * (u + 1) * (((u - 1) * (u - 1)) * (v * v))))%F; [ring|].
        transitivity (q * ((u + 1) * (u + 1)) + a * b * ((1 + 1) * (1 + 1)) * (q * ((r * r) * (w * w))) * ((u + 1) * (u + 1) * (((u - 1) * (u - 1)) * (v * v))))%F; [|ring].
        rewrite W2, !V2. rewrite EQ. transitivity (c * ((u + 1) * (u + 1)) * ((1 + u) * (1 + u)) - a * ((u - 1) * (u - 1)) * ((u - 1) * (u - 1)))%F; [ring|].
        transitivity ((c * ((u + 1) * (u + 1)) - a * ((u - 1) * (u - 1))) * ((u + 1) * (u + 1)) + a * (b * c) * ((1 + 1) * (1 + 1)) * u * ((u - 1) * (u - 1)))%F; [|ring].
        rewrite HA. ring.
      * cbn [snd]. unfold ucoord. clearbody v w q.
        replace (1 - (u - 1) * v)%F with ((1 + 1) * v)%F by (transitivity (v * (u + 1) - (u - 1) * v)%F; [ring | rewrite Hv; ring]).
        replace (1 + (u - 1) * v)%F with (u * ((1 + 1) * v))%F by (transitivity (v * (u + 1) + (u - 1) * v)%F; [ring | rewrite Hv; ring]).
        assert (N : ((1 + 1) * v)%F <> F0) by (apply F_mul_ne; [exact F_two|]; intros Z; apply F1_F0; rewrite <- Hv, Z; ring).
        transitivity (u * (Finv ((1 + 1) * v) * ((1 + 1) * v)))%F; [ring|]. rewrite Finv_l by exact N. ring.
    + set (v := Finv (u - 1)). assert (Hv : (v * (u - 1))%F = F1) by (apply Finv_l, V).
      set (w := Finv q). assert (Hw : (w * q)%F = F1) by (apply Finv_l, Q). pose proof (Finv_l _ a24_ne) as HA.
      exists (- (1))%F, d2, ((1 + 1) * r * w, (u + 1) * v)%F. split; [exact d2_ns|]. split; [exact curve2|]. split.
      * unfold on, d2; cbn [fst snd]. apply (F_cancel ((u - 1) * (u - 1))); [apply F_mul_ne; exact V|].
        apply (F_cancel q); [exact Q|].
        set (c := A1) in *. set (b := Finv a24) in *. set (a := a24) in *.
        assert (EQ : q = (c * ((u + 1) * (u + 1)) - a * ((u - 1) * (u - 1)))%F) by reflexivity. clearbody v w b q.
        assert (V2 : forall z : F, ((u - 1) * (u - 1) * (z * (v * v)))%F = z) by (intros z; transitivity ((v * (u - 1)) * (v * (u - 1)) * z)%F; [ring | rewrite Hv; ring]).
        assert (W2 : (q * ((r * r) * (w * w)))%F = (u * a)%F) by (rewrite Hr; transitivity (u * a * ((w * q) * (w * q)))%F; [ring | rewrite Hw; ring]).
        transitivity ((1 + 1) * (1 + 1) * ((u - 1) * (u - 1)) * (q * ((r * r) * (w * w))) + q * ((u - 1) * (u - 1) * (((u + 1) * (u + 1)) * (v * v))))%F; [ring|].
        transitivity (q * ((u - 1) * (u - 1)) + c * b * ((1 + 1) * (1 + 1)) * (q * ((r * r) * (w * w))) * ((u - 1) * (u - 1) * (((u + 1) * (u + 1)) * (v * v))))%F; [|ring].
        rewrite W2, !V2. rewrite EQ.
        transitivity (q * ((u - 1) * (u - 1)) + c * (b * a) * ((1 + 1) * (1 + 1)) * u * ((u + 1) * (u + 1)))%F; [|rewrite EQ; ring].
        rewrite HA, EQ. ring.
      * cbn [snd]. unfold ucoord. clearbody v w q.
        replace (1 - (u + 1) * v)%F with (- ((1 + 1) * v))%F by (transitivity (v * (u - 1) - (u + 1) * v)%F; [ring | rewrite Hv; ring]).
        replace (1 + (u + 1) * v)%F with (u * ((1 + 1) * v))%F by (transitivity (v * (u - 1) + (u + 1) * v)%F; [ring | rewrite Hv; ring]).
        assert (N : (- ((1 + 1) * v))%F <> F0) by (intros Z; apply (F_mul_ne (1 + 1) v F_two); [intros Z'; apply F1_F0; rewrite <- Hv, Z'; ring|]; transitivity (- - ((1 + 1) * v))%F; [ring | rewrite Z; ring]).
        transitivity (u * (Finv (- ((1 + 1) * v)) * (- ((1 + 1) * v))))%F; [ring|]. rewrite Finv_l by exact N. ring.
Qed.

(** * Scalars commute *)
Definition mulu (k : Z) (u : F) : F := fout (floop 255 k u false (1, 0, (u, 1))%F).
Theorem mulu_comm j k u : (0 <= j < 2 ^ 255)%Z -> (0 <= k < 2 ^ 255)%Z -> (j mod 2 = 0)%Z -> (k mod 2 = 0)%Z -> mulu j (mulu k u) = mulu k (mulu j u).
Proof.
  intros Hj Hk Ej Ek. destruct (lift u) as (e & d & B & NS & C & HB & <-). unfold mulu.
  rewrite (ladder_mul d NS e C k B HB Hk Ek), (ladder_mul d NS e C j B HB Hj Ej).
  rewrite (ladder_mul d NS e C j _ (nmul_on d NS _ B HB) Hj Ej), (ladder_mul d NS e C k _ (nmul_on d NS _ B HB) Hk Ek).
  rewrite (nmul_swap d NS) by exact HB. reflexivity.
Qed.

(** * Points of small order *)
Definition dbl (q : F * F) : F * F :=
  let '(X, Z) := q in
  let AA := ((X + Z) * (X + Z))%F in let BB := ((X - Z) * (X - Z))%F in let E := (AA - BB)%F in
  (AA * BB, E * (AA + inF 121665 * E))%F.
Definition torsion2 (P : F * F) : Prop := fst P = F0 /\ (snd P * snd P)%F = F1.
Lemma torsion2_add d P Q : torsion2 P -> torsion2 Q -> torsion2 (eadd d P Q).
Proof.
  destruct P as [x y], Q as [x' y']; unfold torsion2, eadd, den; cbn [fst snd]. intros [-> Y] [-> Y'].
  assert (D1 : (1 + d * (0 * 0) * (y * y'))%F = F1) by ring. assert (D2 : (1 - d * (0 * 0) * (y * y'))%F = F1) by ring. rewrite D1, D2.
  assert (I : Finv 1%F = F1) by (transitivity (F1 * Finv 1)%F; [ring | apply F_div1]). set (i := Finv 1%F) in *. clearbody i. rewrite I.
  split; [ring|]. transitivity ((y * y) * (y' * y'))%F; [ring | rewrite Y, Y'; ring].
Qed.
Lemma u_torsion d (NS : forall s, (s * s)%F <> d) e (C : curve e d) P : on d P -> ucoord e (snd P) = F0 -> torsion2 P.
Proof.
  intros HP U. assert (Y : (snd P * snd P)%F = F1).
    { unfold ucoord in U. apply F_integral in U. transitivity (1 - (1 - snd P) * (1 + snd P))%F; [ring|].
      destruct U as [U|U].
      - apply F_integral in U. destruct U as [U|U]; [destruct (e_ne d e C U) | rewrite U; ring].
      - destruct (F_dec (1 - snd P) F0) as [N|N]; [rewrite N; ring | destruct (Finv_ne _ N U)]. }
    split; [|exact Y]. unfold on in HP; rewrite Y in HP. assert (T : ((fst P * fst P) * (1 - d))%F = F0) by (transitivity ((fst P * fst P + 1) - (1 + d * (fst P * fst P) * 1))%F; [ring | rewrite HP; ring]).
    apply F_integral in T; destruct T as [T|T]; [apply F_integral in T; tauto | destruct (d_ne1 d NS T)].
Qed.
Lemma torsion_u d (NS : forall s, (s * s)%F <> d) e (C : curve e d) n P : on d P -> ucoord e (snd P) = F0 -> ucoord e (snd (nmul d n P)) = F0.
Proof.
  intros HP U. pose proof (u_torsion d NS e C P HP U) as T.
  assert (TN : torsion2 (nmul d n P)).
  { clear U. induction n as [|n IH]; [split; cbn [nmul ezero fst snd]; [reflexivity | ring] | cbn [nmul]; apply torsion2_add; assumption]. }
  destruct TN as [_ Y]. apply square_roots_1 in Y. unfold ucoord. destruct Y as [-> | ->].
  - assert (Z : (1 - 1)%F = F0) by ring. rewrite Z, Finv_0. ring.
  - ring.
Qed.
Lemma mulu_small j u : (0 <= j)%Z -> (8 * j < 2 ^ 255)%Z -> (fst (dbl (dbl (dbl (u, F1)))) * snd (dbl (dbl (dbl (u, F1)))))%F = F0 -> mulu (8 * j) u = F0.
Proof.
  intros Hj Hk Z. destruct (lift u) as (e & d & B & NS & C & HB & Eu).
  assert (K2 : ((8 * j) mod 2 = 0)%Z) by (replace (8 * j)%Z with (4 * j * 2)%Z by lia; apply Z.mod_mul; lia).
  destruct (F_dec (1 - snd B) F0) as [N|N].
  { assert (U0 : u = F0) by (rewrite <- Eu; unfold ucoord; rewrite N, Finv_0; ring). rewrite U0. unfold mulu. apply zero_out. }
  assert (P0 : proj e u 1 (snd B)).
  { exists (Finv (1 - snd B)). split; [apply Finv_ne, N|]. split; [rewrite <- Eu; unfold ucoord; ring | symmetry; apply Finv_l, N]. }
  assert (D : forall q P, on d P -> proj e (fst q) (snd q) (snd P) -> proj e (fst (dbl q)) (snd (dbl q)) (snd (eadd d P P))).
  { intros [X Y] P HP R. exact (double d NS e C X Y P HP R). }
  pose proof (eadd_on d NS B B HB HB) as O2. pose proof (eadd_on d NS _ _ O2 O2) as O4. pose proof (eadd_on d NS _ _ O4 O4) as O8.
  apply (D (u, F1) B HB) in P0. apply (D _ _ O2) in P0. apply (D _ _ O4) in P0.
  set (Q := eadd d (eadd d (eadd d B B) (eadd d B B)) (eadd d (eadd d B B) (eadd d B B))) in *.
  assert (E8 : nmul d 8 B = Q).
  { unfold Q. replace (eadd d B B) with (nmul d 2 B) by (cbn [nmul]; rewrite eadd_0_r; reflexivity).
    rewrite <- !(nmul_add d NS) by exact HB. reflexivity. }
  assert (Z8 : ucoord e (snd Q) = F0).
  { rewrite <- (proj_u e _ _ _ P0). apply F_integral in Z. destruct Z as [Z|Z]; rewrite Z; [ring | rewrite Finv_0; ring]. }
  rewrite <- Eu. unfold mulu. rewrite (ladder_mul d NS e C (8 * j) B HB) by (assumption || lia).
  rewrite Z2Nat.inj_mul, Nat.mul_comm, (nmul_mul d NS) by (assumption || lia). change (Z.to_nat 8) with 8%nat. rewrite E8.
  apply (torsion_u d NS e C); assumption.
Qed.
