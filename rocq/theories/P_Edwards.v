(** The curves x^2 + y^2 = 1 + d x^2 y^2 over the field of 2^255 - 19 elements, for d that is
    not a square: the addition law is complete, and the points form a commutative group. *)
From Coq Require Import Znumtheory Field.
From Verif Require Import Base BaseP S_X25519 P_F25519.
Open Scope Z_scope.
Local Open Scope F_scope.

Lemma F_two : (1 + 1)%F <> F0. Proof. intros H. apply (f_equal fz) in H. discriminate H. Qed.
Lemma F_sub0 (x y : F) : (x - y)%F = F0 -> x = y.
Proof. intros H. replace x with ((x - y) + y)%F by ring. rewrite H. ring. Qed.
Lemma F_cancel (x y z : F) : x <> F0 -> (x * y)%F = (x * z)%F -> y = z.
Proof.
  intros Hx H. apply F_sub0. assert (E : (x * (y - z))%F = F0) by (replace (x * (y - z))%F with (x * y - x * z)%F by ring; rewrite H; ring).
  apply F_integral in E. destruct E; [contradiction | assumption].
Qed.
Lemma F_div_eq (a b x y : F) : b <> F0 -> y <> F0 -> (a * y)%F = (x * b)%F -> (a * Finv b)%F = (x * Finv y)%F.
Proof.
  intros Hb Hy H. apply (F_cancel (b * y)); [apply F_mul_ne; assumption|].
  transitivity ((Finv b * b) * (a * y))%F; [ring|]. transitivity ((Finv y * y) * (x * b))%F; [|ring]. rewrite !Finv_l by assumption. rewrite H. reflexivity.
Qed.

Section Curve.
Variable d : F.
Hypothesis d_ns : forall s : F, (s * s)%F <> d.

Definition on (P : F * F) : Prop := (fst P * fst P + snd P * snd P)%F = (1 + d * (fst P * fst P) * (snd P * snd P))%F.
Definition den (P Q : F * F) : F := (d * (fst P * fst Q) * (snd P * snd Q))%F.
Definition eadd (P Q : F * F) : F * F :=
  (((fst P * snd Q + snd P * fst Q) * Finv (1 + den P Q))%F, ((snd P * snd Q - fst P * fst Q) * Finv (1 - den P Q))%F).
Definition eneg (P : F * F) : F * F := ((- fst P)%F, snd P).
Definition ezero : F * F := (0, 1)%F.

Lemma d_ne : d <> F0. Proof. intros H. apply (d_ns F0). rewrite H. ring. Qed.
Lemma d_ne1 : (1 - d)%F <> F0. Proof. intros H. apply (d_ns F1). apply F_sub0 in H. rewrite <- H. ring. Qed.
Lemma sq_ne (a b : F) : b <> F0 -> (a * a)%F <> (d * (b * b))%F.
Proof.
  intros Hb H. apply (d_ns (a * Finv b)). transitivity ((a * a) * (Finv b * Finv b))%F; [ring|]. rewrite H.
  transitivity (d * (Finv b * b) * (Finv b * b))%F; [ring|]. rewrite Finv_l by exact Hb. ring.
Qed.
Lemma y_ne (y : F) : (1 - d * (y * y))%F <> F0.
Proof.
  intros H. apply F_sub0 in H. destruct (F_dec y F0) as [->|Hy]; [apply F1_F0; rewrite H; ring|].
  apply (sq_ne F1 y Hy). transitivity F1; [ring | exact H].
Qed.

(** Completeness. *)
Lemma complete_sq (e x1 y1 x2 y2 : F) : (e * e)%F = F1 -> on (x1, y1) -> on (x2, y2) -> (d * (x1 * x2) * (y1 * y2))%F <> e.
Proof.
  intros He H1 H2 H. unfold on in *; cbn [fst snd] in *.
  assert (N : (x1 * y1)%F <> F0).
  { intros Z. apply F1_F0. rewrite <- He, <- H. transitivity ((x1 * y1) * (d * x2 * y2 * (d * (x1 * x2) * (y1 * y2))))%F; [ring|]. rewrite Z. ring. }
  assert (K : (x1 * x1 + y1 * y1)%F = (d * ((x1 * y1) * (x1 * y1)) * (x2 * x2 + y2 * y2))%F).
  { rewrite H1, H2. transitivity (e * e + d * (x1 * x1) * (y1 * y1))%F; [rewrite He; reflexivity|]. rewrite <- H at 1 2. ring. }
  assert (S1 : ((x1 + e * y1) * (x1 + e * y1))%F = (d * ((x1 * y1 * (x2 + y2)) * (x1 * y1 * (x2 + y2))))%F).
  { transitivity (x1 * x1 + (e * e) * (y1 * y1) + (1 + 1) * (x1 * y1) * e)%F; [ring|]. rewrite He. transitivity ((x1 * x1 + y1 * y1) + (1 + 1) * (x1 * y1) * e)%F; [ring|].
    rewrite K. rewrite <- H. ring. }
  assert (S2 : ((x1 - e * y1) * (x1 - e * y1))%F = (d * ((x1 * y1 * (x2 - y2)) * (x1 * y1 * (x2 - y2))))%F).
  { transitivity (x1 * x1 + (e * e) * (y1 * y1) - (1 + 1) * (x1 * y1) * e)%F; [ring|]. rewrite He. transitivity ((x1 * x1 + y1 * y1) - (1 + 1) * (x1 * y1) * e)%F; [ring|].
    rewrite K. rewrite <- H. ring. }
  assert (P1 : (x2 + y2)%F = F0). { destruct (F_dec (x2 + y2) F0) as [E|E]; [exact E|]. exfalso. apply (sq_ne _ _ (F_mul_ne _ _ N E) S1). }
  assert (P2 : (x2 - y2)%F = F0). { destruct (F_dec (x2 - y2) F0) as [E|E]; [exact E|]. exfalso. apply (sq_ne _ _ (F_mul_ne _ _ N E) S2). }
  assert (X : x2 = F0). { assert (T : ((1 + 1) * x2)%F = F0) by (transitivity ((x2 + y2) + (x2 - y2))%F; [ring | rewrite P1, P2; ring]). apply F_integral in T. destruct T as [T|T]; [destruct (F_two T) | exact T]. }
  apply F1_F0. rewrite <- He, <- H, X. ring.
Qed.
Lemma complete (P Q : F * F) : on P -> on Q -> (1 + den P Q)%F <> F0 /\ (1 - den P Q)%F <> F0.
Proof.
  destruct P as [x1 y1], Q as [x2 y2]. intros H1 H2. unfold den; cbn [fst snd]. split; intros H.
  - apply (complete_sq (- (1))%F x1 y1 x2 y2); [ring | exact H1 | exact H2|]. transitivity ((1 + d * (x1 * x2) * (y1 * y2)) - 1)%F; [ring | rewrite H; ring].
  - apply (complete_sq 1%F x1 y1 x2 y2); [ring | exact H1 | exact H2|]. transitivity (1 - (1 - d * (x1 * x2) * (y1 * y2)))%F; [ring | rewrite H; ring].
Qed.

(** The curve equation as a rewriting rule. *)
Lemma on_rule x y c : (c * d)%F = F1 -> on (x, y) -> (x * x * y * y)%F = (c * (x * x) + c * (y * y) - c)%F.
Proof.
  intros Hc H. unfold on in H; cbn [fst snd] in H. transitivity ((c * d) * (x * x * y * y))%F; [rewrite Hc; ring|].
  transitivity (c * ((1 + d * (x * x) * (y * y)) - 1))%F; [ring|]. rewrite <- H. ring.
Qed.
Lemma on_frac nx ny D E : D <> F0 -> E <> F0 ->
  (nx * nx * (E * E) + ny * ny * (D * D))%F = (D * D * (E * E) + d * (nx * nx) * (ny * ny))%F -> on ((nx * Finv D)%F, (ny * Finv E)%F).
Proof.
  intros HD HE H. unfold on; cbn [fst snd]. apply (F_cancel (D * D * (E * E))); [repeat apply F_mul_ne; assumption|].
  transitivity (nx * nx * (E * E) * ((Finv D * D) * (Finv D * D)) + ny * ny * (D * D) * ((Finv E * E) * (Finv E * E)))%F; [ring|].
  transitivity (D * D * (E * E) + d * (nx * nx) * (ny * ny) * ((Finv D * D) * (Finv D * D)) * ((Finv E * E) * (Finv E * E)))%F; [|ring].
  rewrite !Finv_l by assumption. transitivity (nx * nx * (E * E) + ny * ny * (D * D))%F; [ring|]. rewrite H. ring.
Qed.
Lemma closed_poly c x1 y1 x2 y2 : (c * d)%F = F1 ->
  (x1 * x1 * y1 * y1)%F = (c * (x1 * x1) + c * (y1 * y1) - c)%F -> (x2 * x2 * y2 * y2)%F = (c * (x2 * x2) + c * (y2 * y2) - c)%F ->
  let nx := (x1 * y2 + y1 * x2)%F in let ny := (y1 * y2 - x1 * x2)%F in let t := (d * (x1 * x2) * (y1 * y2))%F in
  (nx * nx * ((1 - t) * (1 - t)) + ny * ny * ((1 + t) * (1 + t)))%F = ((1 + t) * (1 + t) * ((1 - t) * (1 - t)) + d * (nx * nx) * (ny * ny))%F.
Proof. intros Hc H1 H2 nx ny t. unfold nx, ny, t. ring [Hc H1 H2]. Qed.

Lemma eadd_on P Q : on P -> on Q -> on (eadd P Q).
Proof.
  intros H1 H2. destruct (complete P Q H1 H2) as [N1 N2]. destruct P as [x1 y1], Q as [x2 y2].
  assert (Hc : (Finv d * d)%F = F1) by (apply Finv_l, d_ne).
  apply on_frac; [exact N1 | exact N2|]. unfold den; cbn [fst snd].
  exact (closed_poly (Finv d) x1 y1 x2 y2 Hc (on_rule x1 y1 _ Hc H1) (on_rule x2 y2 _ Hc H2)).
Qed.
Lemma eneg_on P : on P -> on (eneg P).
Proof. destruct P as [x y]. unfold on, eneg; cbn [fst snd]. intros H. transitivity (x * x + y * y)%F; [ring|]. rewrite H. ring. Qed.
Lemma ezero_on : on ezero. Proof. unfold on, ezero; cbn [fst snd]. ring. Qed.
Lemma F_div1 (x : F) : (x * Finv 1)%F = x.
Proof. assert (E : Finv 1%F = F1); [|rewrite E; ring]. transitivity (Finv 1 * F1)%F; [ring|]. apply Finv_l, F1_F0. Qed.
Lemma pair_eq (a b c e : F) : a = c -> b = e -> (a, b) = (c, e). Proof. intros -> ->; reflexivity. Qed.
Lemma eadd_comm P Q : eadd P Q = eadd Q P.
Proof.
  destruct P as [x1 y1], Q as [x2 y2]. unfold eadd, den; cbn [fst snd].
  replace (d * (x2 * x1) * (y2 * y1))%F with (d * (x1 * x2) * (y1 * y2))%F by ring. apply pair_eq; ring.
Qed.
Lemma eadd_0_r P : eadd P ezero = P.
Proof.
  destruct P as [x y]. unfold eadd, den, ezero; cbn [fst snd]. replace (1 + d * (x * 0) * (y * 1))%F with F1 by ring.
  replace (1 - d * (x * 0) * (y * 1))%F with F1 by ring. apply pair_eq; rewrite F_div1; ring.
Qed.
Lemma eadd_0_l P : eadd ezero P = P. Proof. rewrite eadd_comm. apply eadd_0_r. Qed.
Lemma eadd_neg P : on P -> eadd P (eneg P) = ezero.
Proof.
  intros H. destruct (complete P (eneg P) H (eneg_on P H)) as [_ N]. destruct P as [x y]. unfold eadd, ezero. apply pair_eq; unfold den, eneg in *; cbn [fst snd] in *; [ring|].
  replace (y * y - x * - x)%F with (1 - d * (x * - x) * (y * y))%F.
  - transitivity (Finv (1 - d * (x * - x) * (y * y)) * (1 - d * (x * - x) * (y * y)))%F; [ring|]. apply Finv_l, N.
  - unfold on in H; cbn [fst snd] in H. transitivity (1 + d * (x * x) * (y * y))%F; [ring|]. rewrite <- H. ring.
Qed.

(** Associativity: both sides over the common denominators. *)
Section Assoc.
Variables c x1 y1 x2 y2 x3 y3 : F.
Hypothesis Hc : (c * d)%F = F1.
Hypothesis R1 : (x1 * x1 * y1 * y1)%F = (c * (x1 * x1) + c * (y1 * y1) - c)%F.
Hypothesis R2 : (x2 * x2 * y2 * y2)%F = (c * (x2 * x2) + c * (y2 * y2) - c)%F.
Hypothesis R3 : (x3 * x3 * y3 * y3)%F = (c * (x3 * x3) + c * (y3 * y3) - c)%F.
Let s := (d * (x1 * x2) * (y1 * y2))%F.
Let t := (d * (x2 * x3) * (y2 * y3))%F.
Let ax := (x1 * y2 + y1 * x2)%F.
Let ay := (y1 * y2 - x1 * x2)%F.
Let bx := (x2 * y3 + y2 * x3)%F.
Let by_ := (y2 * y3 - x2 * x3)%F.
Lemma assoc_x : ((ax * y3 * (1 - s) + ay * x3 * (1 + s)) * ((1 + t) * (1 - t) + d * (x1 * y1) * (bx * by_)))%F
  = ((x1 * by_ * (1 + t) + y1 * bx * (1 - t)) * ((1 + s) * (1 - s) + d * (x3 * y3) * (ax * ay)))%F.
Proof. unfold s, t, ax, ay, bx, by_. ring [Hc R1 R2 R3]. Qed.
Lemma assoc_y : ((ay * y3 * (1 + s) - ax * x3 * (1 - s)) * ((1 + t) * (1 - t) - d * (x1 * y1) * (bx * by_)))%F
  = ((y1 * by_ * (1 + t) - x1 * bx * (1 - t)) * ((1 + s) * (1 - s) - d * (x3 * y3) * (ax * ay)))%F.
Proof. unfold s, t, ax, ay, bx, by_. ring [Hc R1 R2 R3]. Qed.
End Assoc.

Lemma frac_x a b x y D E : D <> F0 -> E <> F0 -> (1 + d * ((a * Finv D) * x) * ((b * Finv E) * y))%F <> F0 ->
  (D * E + d * (x * y) * (a * b))%F <> F0 /\
  (((a * Finv D) * y + (b * Finv E) * x) * Finv (1 + d * ((a * Finv D) * x) * ((b * Finv E) * y)))%F
  = ((a * y * E + b * x * D) * Finv (D * E + d * (x * y) * (a * b)))%F.
Proof.
  intros HD HE N. pose proof (Finv_l D HD) as I. pose proof (Finv_l E HE) as J. set (i := Finv D) in *. set (j := Finv E) in *. clearbody i j.
  assert (Q : (D * E + d * (x * y) * (a * b))%F <> F0).
  { intros H. apply N. apply (F_cancel (D * E)); [apply F_mul_ne; assumption|]. transitivity (D * E + d * (x * y) * (a * b))%F; [|rewrite H; ring]. ring [I J]. }
  split; [exact Q|]. apply F_div_eq; [exact N | exact Q|]. ring [I J].
Qed.
Lemma frac_y a b x y D E : D <> F0 -> E <> F0 -> (1 - d * ((a * Finv D) * x) * ((b * Finv E) * y))%F <> F0 ->
  (D * E - d * (x * y) * (a * b))%F <> F0 /\
  (((b * Finv E) * y - (a * Finv D) * x) * Finv (1 - d * ((a * Finv D) * x) * ((b * Finv E) * y)))%F
  = ((b * y * D - a * x * E) * Finv (D * E - d * (x * y) * (a * b)))%F.
Proof.
  intros HD HE N. pose proof (Finv_l D HD) as I. pose proof (Finv_l E HE) as J. set (i := Finv D) in *. set (j := Finv E) in *. clearbody i j.
  assert (Q : (D * E - d * (x * y) * (a * b))%F <> F0).
  { intros H. apply N. apply (F_cancel (D * E)); [apply F_mul_ne; assumption|]. transitivity (D * E - d * (x * y) * (a * b))%F; [|rewrite H; ring]. ring [I J]. }
  split; [exact Q|]. apply F_div_eq; [exact N | exact Q|]. ring [I J].
Qed.
Theorem eadd_assoc P Q R : on P -> on Q -> on R -> eadd (eadd P Q) R = eadd P (eadd Q R).
Proof.
  intros H1 H2 H3. rewrite (eadd_comm P (eadd Q R)).
  destruct (complete P Q H1 H2) as [D1 E1]. destruct (complete Q R H2 H3) as [D2 E2].
  destruct (complete (eadd P Q) R (eadd_on P Q H1 H2) H3) as [A1 A2]. destruct (complete (eadd Q R) P (eadd_on Q R H2 H3) H1) as [B1 B2].
  destruct P as [x1 y1], Q as [x2 y2], R as [x3 y3]. 
  assert (Hc : (Finv d * d)%F = F1) by (apply Finv_l, d_ne).
  pose proof (on_rule x1 y1 _ Hc H1) as R1. pose proof (on_rule x2 y2 _ Hc H2) as R2. pose proof (on_rule x3 y3 _ Hc H3) as R3.
  unfold eadd in A1, A2, B1, B2. unfold den in *. cbn [fst snd] in *.
  unfold eadd at 1 3. unfold den. unfold eadd. cbn [fst snd]. unfold den. cbn [fst snd].
  destruct (frac_x _ _ _ _ _ _ D1 E1 A1) as [N1 ->]. destruct (frac_y _ _ _ _ _ _ D1 E1 A2) as [N2 ->].
  destruct (frac_x _ _ _ _ _ _ D2 E2 B1) as [N3 ->]. destruct (frac_y _ _ _ _ _ _ D2 E2 B2) as [N4 ->].
  pose proof (assoc_x _ x1 y1 x2 y2 x3 y3 Hc R1 R2 R3) as X. pose proof (assoc_y _ x1 y1 x2 y2 x3 y3 Hc R1 R2 R3) as Y. cbv zeta in X, Y.
  apply pair_eq; apply F_div_eq; try assumption.
  - etransitivity; [etransitivity; [|exact X]|]; ring.
  - etransitivity; [etransitivity; [|exact Y]|]; ring.
Qed.
End Curve.
