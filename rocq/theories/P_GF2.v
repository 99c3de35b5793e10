(** Shift registers with feedback as multiplication by x in GF(2)[x] modulo a polynomial, in the
    bit-reversed representation of CRC-32 and GCM: the element 1 is the top bit, multiplying by x
    shifts right. *)
From Coq Require Import Znumtheory.
From Verif Require Import Base BaseP.
Open Scope Z_scope.

Lemma lxor_swap a b c d : Z.lxor (Z.lxor a b) (Z.lxor c d) = Z.lxor (Z.lxor a c) (Z.lxor b d).
Proof. apply Z.bits_inj'; intros i Hi; rewrite !Z.lxor_spec; destruct (Z.testbit a i), (Z.testbit b i), (Z.testbit c i), (Z.testbit d i); reflexivity. Qed.

Lemma NoDup_map_in {A B} (f : A -> B) l : (forall a b, In a l -> In b l -> f a = f b -> a = b) -> NoDup l -> NoDup (map f l).
Proof.
  intros Inj ND; induction ND as [|a l N ND IH]; cbn [map]; constructor.
  - intros I; apply in_map_iff in I; destruct I as (b & E & I); apply N; rewrite (Inj a b); [exact I | left; reflexivity | right; exact I | symmetry; exact E].
  - apply IH; intros x y Ix Iy; apply Inj; right; assumption.
Qed.
Section GF.
Variables (w : nat) (R : Z).
Hypothesis Hw : (0 < w)%nat.
Hypothesis HR : 2 ^ (Z.of_nat w - 1) <= R < 2 ^ Z.of_nat w.

Definition rng (x : Z) : Prop := 0 <= x < 2 ^ Z.of_nat w.
Definition gT (V : Z) : Z := if Z.testbit V 0 then Z.lxor (V / 2) R else V / 2.
Definition one : Z := 2 ^ (Z.of_nat w - 1).
Fixpoint gsum (n : nat) (i X V : Z) : Z :=
  match n with O => 0 | S k => Z.lxor (if Z.testbit X (Z.of_nat w - 1 - i) then V else 0) (gsum k (i + 1) X (gT V)) end.
Definition gmul (X Y : Z) : Z := gsum w 0 X Y.

Lemma R_rng : rng R.
Proof. unfold rng; pose proof (Z.pow_pos_nonneg 2 (Z.of_nat w - 1) ltac:(lia) ltac:(lia)); lia. Qed.
Lemma rng_lxor a b : rng a -> rng b -> rng (Z.lxor a b).
Proof. intros; apply lxor_range; [lia | assumption | assumption]. Qed.
Lemma rng_0 : rng 0.
Proof. unfold rng; pose proof (Z.pow_pos_nonneg 2 (Z.of_nat w) ltac:(lia) ltac:(lia)); lia. Qed.
Lemma rng_one : rng one.
Proof.
  unfold rng, one; split; [apply Z.pow_nonneg; lia | apply Z.pow_lt_mono_r; lia].
Qed.
Lemma gT_lxor a b : gT (Z.lxor a b) = Z.lxor (gT a) (gT b).
Proof.
  unfold gT; rewrite Z.lxor_spec.
  assert (D : Z.lxor a b / 2 = Z.lxor (a / 2) (b / 2)) by (change 2 with (2 ^ 1); rewrite <- !Z.shiftr_div_pow2 by lia; apply Z.shiftr_lxor).
  rewrite D; apply Z.bits_inj'; intros i Hi.
  destruct (Z.testbit a 0), (Z.testbit b 0); cbn [xorb]; rewrite !Z.lxor_spec;
  destruct (Z.testbit (a / 2) i), (Z.testbit (b / 2) i), (Z.testbit R i); reflexivity.
Qed.
Lemma gT_0 : gT 0 = 0. Proof. reflexivity. Qed.
Lemma half_rng x : rng x -> 0 <= x / 2 < 2 ^ (Z.of_nat w - 1).
Proof.
  intros [H1 H2]; replace (Z.of_nat w) with (1 + (Z.of_nat w - 1)) in H2 by lia; rewrite Z.pow_add_r, Z.pow_1_r in H2 by lia.
  split; [apply Z.div_pos; lia | apply Z.div_lt_upper_bound; lia].
Qed.
Lemma gT_rng x : rng x -> rng (gT x).
Proof.
  intros H; pose proof (half_rng x H) as H2.
  assert (rng (x / 2)) by (unfold rng; pose proof (Z.pow_lt_mono_r 2 (Z.of_nat w - 1) (Z.of_nat w) ltac:(lia) ltac:(lia) ltac:(lia)); lia).
  unfold gT; destruct (Z.testbit x 0); [apply rng_lxor; [assumption | apply R_rng] | assumption].
Qed.
Lemma top_bit x : 2 ^ (Z.of_nat w - 1) <= x < 2 ^ Z.of_nat w -> Z.testbit x (Z.of_nat w - 1) = true.
Proof.
  intros H; apply Z.testbit_true; [lia|].
  assert (x / 2 ^ (Z.of_nat w - 1) = 1); [|rewrite H0; reflexivity].
  pose proof (Z.pow_pos_nonneg 2 (Z.of_nat w - 1) ltac:(lia) ltac:(lia)).
  assert (P2 : 2 ^ Z.of_nat w = 2 * 2 ^ (Z.of_nat w - 1)) by (rewrite <- Z.pow_succ_r by lia; f_equal; lia).
  apply Z.le_antisymm; [apply Z.lt_succ_r, Z.div_lt_upper_bound; lia | apply Z.div_le_lower_bound; lia].
Qed.
Lemma gT_zero x : rng x -> gT x = 0 -> x = 0.
Proof.
  intros H E; pose proof (half_rng x H) as H2; unfold gT in E; destruct (Z.testbit x 0) eqn:B.
  - apply Z.lxor_eq in E; lia.
  - rewrite Z.testbit_0_l in B || idtac; rewrite Z.bit0_odd in B; pose proof (Zodd_mod x); rewrite Zmod_odd in *; rewrite B in *.
    pose proof (Z.div_mod x 2 ltac:(lia)); rewrite Zmod_odd, B in *; lia.
Qed.
Lemma gT_inj x y : rng x -> rng y -> gT x = gT y -> x = y.
Proof. intros Hx Hy E; apply Z.lxor_eq, gT_zero; [apply rng_lxor; assumption|]; rewrite gT_lxor, E; apply Z.lxor_nilpotent. Qed.

Lemma gsum_rng n : forall i X V, rng V -> rng (gsum n i X V).
Proof.
  induction n as [|n IH]; intros i X V H; cbn [gsum]; [apply rng_0|]; apply rng_lxor; [destruct (Z.testbit _ _); [exact H | apply rng_0] | apply IH, gT_rng, H].
Qed.
Lemma gsum_lxor_r n : forall i X V V', gsum n i X (Z.lxor V V') = Z.lxor (gsum n i X V) (gsum n i X V').
Proof.
  induction n as [|n IH]; intros i X V V'; cbn [gsum]; [reflexivity|]; rewrite gT_lxor, IH, lxor_swap; f_equal; destruct (Z.testbit _ _); reflexivity.
Qed.
Lemma gsum_lxor_l n : forall i X X' V, gsum n i (Z.lxor X X') V = Z.lxor (gsum n i X V) (gsum n i X' V).
Proof.
  induction n as [|n IH]; intros i X X' V; cbn [gsum]; [reflexivity|]; rewrite IH, lxor_swap; f_equal; rewrite Z.lxor_spec.
  destruct (Z.testbit X _), (Z.testbit X' _); cbn [xorb]; rewrite ?Z.lxor_nilpotent, ?Z.lxor_0_r, ?Z.lxor_0_l; reflexivity.
Qed.
Lemma gsum_T n : forall i X V, gsum n i X (gT V) = gT (gsum n i X V).
Proof.
  induction n as [|n IH]; intros i X V; cbn [gsum]; [symmetry; apply gT_0|]; rewrite IH, gT_lxor; f_equal; destruct (Z.testbit _ _); [reflexivity | symmetry; apply gT_0].
Qed.
Lemma gsum_0_r n : forall i X, gsum n i X 0 = 0.
Proof. induction n as [|n IH]; intros i X; cbn [gsum]; [reflexivity|]; rewrite gT_0, IH; destruct (Z.testbit _ _); reflexivity. Qed.
(** Any additive map that commutes with [gT] can be moved inside. *)
Lemma gsum_map (f : Z -> Z) : (forall a b, f (Z.lxor a b) = Z.lxor (f a) (f b)) -> (forall a, f (gT a) = gT (f a)) -> f 0 = 0 ->
  forall n i X V, f (gsum n i X V) = gsum n i X (f V).
Proof.
  intros Fx FT F0; induction n as [|n IH]; intros i X V; cbn [gsum]; [exact F0|]; rewrite Fx, IH, FT; f_equal; destruct (Z.testbit _ _); [reflexivity | exact F0].
Qed.
Lemma gT_pow2 k : 0 < k -> gT (2 ^ k) = 2 ^ (k - 1).
Proof.
  intros H; unfold gT; rewrite Z.pow2_bits_false by lia; replace k with (1 + (k - 1)) at 1 by lia.
  rewrite Z.pow_add_r, Z.pow_1_r, Z.mul_comm, Z.div_mul by lia; reflexivity.
Qed.
Lemma gsum_pow2 n : forall i X k, 0 <= i -> Z.of_nat n = Z.of_nat w - i -> k = Z.of_nat w - 1 - i -> (n = O \/ gsum n i X (2 ^ k) = X mod 2 ^ Z.of_nat n).
Proof.
  induction n as [|n IH]; intros i X k Hi Hn Hk; [left; reflexivity|right]; cbn [gsum]; rewrite <- Hk.
  assert (Q : Z.lxor (if Z.testbit X k then 2 ^ k else 0) (X mod 2 ^ Z.of_nat n) = X mod 2 ^ Z.of_nat (S n)).
  { replace k with (Z.of_nat n) by lia; apply Z.bits_inj'; intros j Hj; rewrite Z.lxor_spec.
    replace (Z.testbit (if Z.testbit X (Z.of_nat n) then 2 ^ Z.of_nat n else 0) j) with (if j =? Z.of_nat n then Z.testbit X j else false).
    2:{ destruct (Z.eqb_spec j (Z.of_nat n)) as [->|D]; destruct (Z.testbit X (Z.of_nat n)); rewrite ?Z.pow2_bits_true, ?Z.pow2_bits_false, ?Z.bits_0 by lia; reflexivity. }
    rewrite !Z.testbit_mod_pow2 by lia; destruct (Z.eqb_spec j (Z.of_nat n)), (Z.ltb_spec j (Z.of_nat n)), (Z.ltb_spec j (Z.of_nat (S n))); try lia; cbn [andb]; rewrite ?xorb_false_r, ?xorb_false_l; reflexivity. }
  destruct n as [|n].
  - cbn [gsum]; rewrite Z.lxor_0_r in *; rewrite <- Q; cbn [Z.of_nat]; rewrite Z.pow_0_r, Z.mod_1_r, Z.lxor_0_r; reflexivity.
  - rewrite gT_pow2 by lia; destruct (IH (i + 1) X (k - 1) ltac:(lia) ltac:(lia) ltac:(lia)) as [C|C]; [discriminate|]; rewrite C; exact Q.
Qed.
Lemma gmul_one_r X : rng X -> gmul X one = X.
Proof.
  intros H; destruct (gsum_pow2 w 0 X (Z.of_nat w - 1) ltac:(lia) ltac:(lia) ltac:(lia)) as [C|C]; [lia|].
  unfold gmul, one; rewrite C; apply Z.mod_small; exact H.
Qed.
Lemma gmul_rng X Y : rng Y -> rng (gmul X Y).
Proof. apply gsum_rng. Qed.
Lemma gmul_lxor_l X X' Y : gmul (Z.lxor X X') Y = Z.lxor (gmul X Y) (gmul X' Y).
Proof. apply gsum_lxor_l. Qed.
Lemma gmul_lxor_r X Y Y' : gmul X (Z.lxor Y Y') = Z.lxor (gmul X Y) (gmul X Y').
Proof. apply gsum_lxor_r. Qed.
Lemma gmul_0_r X : gmul X 0 = 0.
Proof. apply gsum_0_r. Qed.
Lemma gmul_T X Y : gmul X (gT Y) = gT (gmul X Y).
Proof. apply gsum_T. Qed.
Lemma gmul_map f : (forall a b, f (Z.lxor a b) = Z.lxor (f a) (f b)) -> (forall a, f (gT a) = gT (f a)) -> f 0 = 0 ->
  forall X V, f (gmul X V) = gmul X (f V).
Proof. intros; apply gsum_map; assumption. Qed.
Lemma gmul_comm X Y : rng X -> rng Y -> gmul X Y = gmul Y X.
Proof.
  intros HX HY; transitivity (gmul X (gmul Y one)); [rewrite gmul_one_r by exact HY; reflexivity|].
  rewrite (gmul_map (gmul X)); [rewrite gmul_one_r by exact HX; reflexivity | apply gmul_lxor_r | apply gmul_T | apply gmul_0_r].
Qed.
Lemma gmul_left_comm X Y V : gmul X (gmul Y V) = gmul Y (gmul X V).
Proof. apply (gmul_map (gmul X)); [apply gmul_lxor_r | apply gmul_T | apply gmul_0_r]. Qed.
Lemma gmul_assoc X Y V : rng X -> rng Y -> rng V -> gmul X (gmul Y V) = gmul (gmul X Y) V.
Proof.
  intros HX HY HV; rewrite (gmul_comm Y V), (gmul_left_comm X V Y) by assumption; apply gmul_comm; [exact HV | apply gmul_rng, HY].
Qed.
Lemma gmul_0_l X : rng X -> gmul 0 X = 0.
Proof. intros H; rewrite gmul_comm by (apply rng_0 || exact H); apply gmul_0_r. Qed.
Lemma gmul_one_l X : rng X -> gmul one X = X.
Proof. intros H; rewrite gmul_comm by (apply rng_one || exact H); apply gmul_one_r, H. Qed.

(** ** Powers of x *)
Definition gx (k : Z) : Z := Nat.iter (Z.to_nat k) gT one.
Lemma iter_T_mul n Y : rng Y -> Nat.iter n gT Y = gmul Y (Nat.iter n gT one).
Proof.
  intros H; induction n as [|n IH]; cbn [Nat.iter nat_rect]; [symmetry; apply gmul_one_r, H|].
  unfold Nat.iter in *; cbn [nat_rect]; rewrite IH, gmul_T; reflexivity.
Qed.
Lemma gx_rng k : rng (gx k).
Proof. unfold gx; induction (Z.to_nat k) as [|n IH]; [apply rng_one | apply gT_rng, IH]. Qed.
Lemma gx_succ k : 0 <= k -> gx (k + 1) = gT (gx k).
Proof. intros H; unfold gx; replace (Z.to_nat (k + 1)) with (S (Z.to_nat k)) by lia; reflexivity. Qed.
Lemma gx_add a b : 0 <= a -> 0 <= b -> gx (a + b) = gmul (gx a) (gx b).
Proof.
  intros Ha Hb; unfold gx at 1 3; rewrite <- iter_T_mul by apply gx_rng; unfold gx; rewrite Z2Nat.inj_add by lia.
  rewrite Nat.add_comm; unfold Nat.iter; rewrite nat_rect_plus; reflexivity.
Qed.
Lemma gx_0 : gx 0 = one. Proof. reflexivity. Qed.
Lemma gx_nonzero k : gx k <> 0.
Proof.
  unfold gx; induction (Z.to_nat k) as [|n IH]; [unfold one; cbn; apply Z.pow_nonzero; lia|].
  intros E; apply IH, gT_zero; [|exact E]; clear - Hw HR; induction n as [|n IH]; [apply rng_one | apply gT_rng, IH].
Qed.
Lemma gx_cancel a b : 0 <= a -> 0 <= b -> gx (a + b) = gx a -> gx b = one.
Proof.
  intros Ha Hb; unfold gx; rewrite Z2Nat.inj_add by lia; induction (Z.to_nat a) as [|n IH]; [exact (fun E => E)|].
  intros E; apply IH; apply gT_inj; [| |exact E].
  - clear - Hw HR; induction (n + Z.to_nat b)%nat as [|m IH]; [apply rng_one | apply gT_rng, IH].
  - clear - Hw HR; induction n as [|m IH]; [apply rng_one | apply gT_rng, IH].
Qed.
Lemma gx_mult a b : 0 <= a -> 0 <= b -> gx b = one -> gx (a * b) = one.
Proof.
  intros Ha Hb E; revert a Ha; apply natlike_ind; [reflexivity|]; intros a Ha IH.
  replace (Z.succ a * b) with (a * b + b) by lia; rewrite gx_add, IH, E by nia; apply gmul_one_r, rng_one.
Qed.
Lemma gx_mod a b : 0 <= a -> 0 < b -> gx a = one -> gx b = one -> gx (a mod b) = one.
Proof.
  intros Ha Hb Ea Eb; pose proof (Z.div_mod a b ltac:(lia)) as D; pose proof (Z.mod_pos_bound a b Hb) as M; pose proof (Z.div_pos a b Ha Hb) as Q.
  apply (gx_cancel (a / b * b)); [nia | lia|]; replace (a / b * b + a mod b) with a by lia.
  rewrite Ea, gx_mult; [reflexivity | assumption | lia | assumption].
Qed.
Lemma gx_gcd b : 0 <= b -> forall a, 0 <= a -> gx a = one -> gx b = one -> gx (Z.gcd a b) = one.
Proof.
  intros Hb; revert b Hb; apply (Zlt_0_ind (fun b => forall a, 0 <= a -> gx a = one -> gx b = one -> gx (Z.gcd a b) = one)).
  intros b IH Hb a Ha Ea Eb; destruct (Z.eq_dec b 0) as [->|D]; [rewrite Z.gcd_0_r, Z.abs_eq by lia; exact Ea|].
  rewrite Z.gcd_comm, <- Z.gcd_mod, Z.gcd_comm by lia; apply IH; [apply Z.mod_pos_bound; lia | exact Hb | exact Eb | apply gx_mod; lia || assumption].
Qed.
Definition prodl (l : list Z) : Z := fold_right Z.mul 1 l.
Lemma some_prime_divides l : Forall prime l -> forall m, 1 < m -> (m | prodl l) -> exists q, In q l /\ (q | m).
Proof.
  intros F m Hm; induction l as [|q l IH]; cbn [prodl fold_right]; intros D.
  - apply Z.divide_1_r_nonneg in D; lia.
  - inversion_clear F as [|? ? Pq Fl]; destruct (Zdivide_dec q m) as [Y|N]; [exists q; split; [left; reflexivity | exact Y]|].
    destruct IH as (q' & I & D'); [exact Fl | | exists q'; split; [right; exact I | exact D']].
    apply (Gauss m q); [exact D|]; apply rel_prime_sym, prime_rel_prime; assumption.
Qed.
(** The order of x from the factorisation of an exponent. *)
Lemma order_x n qs : 0 < n -> prodl qs = n -> Forall prime qs -> gx n = one -> (forall q, In q qs -> gx (n / q) <> one) ->
  forall k, 0 < k < n -> gx k <> one.
Proof.
  intros Hn P F En Eq k Hk Ek; pose proof (gx_gcd n ltac:(lia) k ltac:(lia) Ek En) as G.
  pose proof (Z.gcd_divide_r k n) as [m Dn]; pose proof (Z.gcd_divide_l k n) as Dk; pose proof (Z.gcd_nonneg k n).
  set (g := Z.gcd k n) in *; assert (g <> 0) by (intros Z0; rewrite Z0 in Dn; lia); apply Z.divide_pos_le in Dk; [|lia].
  assert (1 < m) by nia.
  destruct (some_prime_divides qs F m ltac:(lia)) as (q & I & [c Dq]); [rewrite P, Dn; apply Z.divide_factor_l|].
  rewrite Forall_forall in F; pose proof (prime_ge_2 q (F q I)); assert (0 < c) by nia.
  apply (Eq q I); replace (n / q) with (c * g); [apply gx_mult; lia || assumption|].
  rewrite Dn, Dq; replace (c * q * g) with (c * g * q) by ring; rewrite Z.div_mul by lia; reflexivity.
Qed.

(** When the order is maximal every nonzero element is a power of x, so products of nonzero
    elements are nonzero. *)
Section Max.
Let n := 2 ^ Z.of_nat w - 1.
Hypothesis Hn : gx n = one.
Hypothesis Hord : forall k, 0 < k < n -> gx k <> one.
Lemma n_pos : 0 < n.
Proof. unfold n; pose proof (Z.pow_lt_mono_r 2 0 (Z.of_nat w) ltac:(lia) ltac:(lia) ltac:(lia)); lia. Qed.
Lemma powers_distinct i j : 0 <= i < n -> 0 <= j < n -> gx i = gx j -> i = j.
Proof.
  assert (Q : forall i j, 0 <= i < n -> 0 <= j < n -> i <= j -> gx i = gx j -> i = j).
  { clear i j; intros i j Hi Hj L E; destruct (Z.eq_dec i j) as [|D]; [assumption | exfalso].
    apply (Hord (j - i)); [lia|]; apply (gx_cancel i); [lia | lia|]; rewrite E; f_equal; lia. }
  intros Hi Hj E; destruct (Z.le_ge_cases i j); [apply Q; assumption | symmetry; apply Q; try assumption; symmetry; exact E].
Qed.
Lemma all_powers X : rng X -> X <> 0 -> exists k, 0 <= k < n /\ X = gx k.
Proof.
  intros HX D; pose proof n_pos as Np; remember (Z.to_nat n) as N eqn:EN; assert (ZN : Z.of_nat N = n) by lia; clear EN.
  pose (l := map (fun i => gx (Z.of_nat i)) (seq 0 N)); pose (l' := map Z.of_nat (seq 1 N)).
  assert (ND : NoDup l).
  { apply NoDup_map_in; [|apply seq_NoDup]; intros a b Ia Ib E; apply in_seq in Ia, Ib; apply powers_distinct in E; lia. }
  assert (IN : incl l l').
  { intros v I; apply in_map_iff in I; destruct I as (i & <- & I); apply in_map_iff; exists (Z.to_nat (gx (Z.of_nat i))).
    pose proof (gx_rng (Z.of_nat i)) as [H1 H2]; pose proof (gx_nonzero (Z.of_nat i)); split; [lia | apply in_seq; unfold n in *; lia]. }
  assert (IN2 : incl l' l).
  { apply NoDup_length_incl; [exact ND | unfold l, l'; rewrite !map_length, !seq_length; lia | exact IN]. }
  assert (IX : In X l').
  { apply in_map_iff; exists (Z.to_nat X); destruct HX; split; [lia | apply in_seq; unfold n in *; lia]. }
  apply IN2, in_map_iff in IX; destruct IX as (i & <- & I); apply in_seq in I; exists (Z.of_nat i); split; [lia | reflexivity].
Qed.
Lemma gmul_integral X Y : rng X -> rng Y -> gmul X Y = 0 -> X = 0 \/ Y = 0.
Proof.
  intros HX HY E; destruct (Z.eq_dec X 0) as [|D]; [left; assumption | right].
  destruct (all_powers X HX D) as (k & Hk & ->).
  assert (gmul (gx (n - k)) (gmul (gx k) Y) = Y) as <-; [|rewrite E; apply gmul_0_r].
  rewrite gmul_assoc, <- gx_add by (apply gx_rng || assumption || lia); replace (n - k + k) with n by lia; rewrite Hn; apply gmul_one_l, HY.
Qed.

(** ** Polynomials over the field: a nonzero polynomial has fewer roots than coefficients *)
Definition ev (H : Z) (l : list Z) : Z := fold_left (fun y b => Z.lxor (gmul y H) b) l 0.
Fixpoint quo (r y : Z) (l : list Z) : list Z :=
  match l with [] => [] | b :: t => Z.lxor (gmul y r) b :: quo r (Z.lxor (gmul y r) b) t end.
Definition evf (H y : Z) (l : list Z) : Z := fold_left (fun y b => Z.lxor (gmul y H) b) l y.
Lemma evf_rng H l : rng H -> Forall rng l -> forall y, rng y -> rng (evf H y l).
Proof.
  intros HH F; induction F as [|b l Hb F IH]; intros y Hy; cbn [evf fold_left]; [exact Hy|]; apply IH, rng_lxor; [apply gmul_rng, HH | exact Hb].
Qed.
Lemma quo_rng r l : rng r -> Forall rng l -> forall y, rng y -> Forall rng (quo r y l).
Proof.
  intros Hr F; induction F as [|b l Hb F IH]; intros y Hy; cbn [quo]; constructor; [| apply IH]; apply rng_lxor; try apply gmul_rng; assumption.
Qed.
Lemma quo_length r l : forall y, length (quo r y l) = length l.
Proof. induction l as [|b l IH]; intros y; cbn [quo length]; [reflexivity | rewrite IH; reflexivity]. Qed.
(** Synthetic division: dropping the last value of [y :: quo r y l] gives the quotient. *)
Lemma divide r H l : rng r -> rng H -> Forall rng l -> forall y z, rng y -> rng z ->
  Z.lxor (evf H (Z.lxor (gmul (Z.lxor H r) z) y) l) (evf r y l) = gmul (Z.lxor H r) (evf H z (removelast (y :: quo r y l))).
Proof.
  intros Hr HH F; induction F as [|b l Hb F IH]; intros y z Hy Hz.
  - cbn [evf fold_left quo removelast]; rewrite Z.lxor_assoc, Z.lxor_nilpotent, Z.lxor_0_r; reflexivity.
  - cbn [quo]; set (y' := Z.lxor (gmul y r) b); change (removelast (y :: y' :: quo r y' l)) with (y :: removelast (y' :: quo r y' l)).
    assert (Hy' : rng y') by (apply rng_lxor; [apply gmul_rng, Hr | exact Hb]).
    change (evf H z (y :: ?l)) with (evf H (Z.lxor (gmul z H) y) l).
    change (evf H ?a (b :: l)) with (evf H (Z.lxor (gmul a H) b) l); change (evf r y (b :: l)) with (evf r y' l).
    assert (Hz' : rng (Z.lxor (gmul z H) y)) by (apply rng_lxor; [apply gmul_rng, HH | exact Hy]).
    assert (HD : rng (Z.lxor H r)) by (apply rng_lxor; assumption).
    rewrite <- (IH y' _ Hy' Hz'); f_equal; f_equal; unfold y'; rewrite <- Z.lxor_assoc; f_equal.
    rewrite gmul_lxor_l, gmul_lxor_r, Z.lxor_assoc; f_equal.
    + rewrite <- gmul_assoc by assumption; reflexivity.
    + rewrite (gmul_comm (Z.lxor H r) y), gmul_lxor_r by assumption; rewrite Z.lxor_assoc, Z.lxor_nilpotent, Z.lxor_0_r; reflexivity.
Qed.
Definition zeros (l : list Z) : Prop := Forall (fun b => b = 0) l.
Lemma quo_zeros r l : rng r -> forall y, y = 0 -> zeros (quo r y l) -> zeros l.
Proof.
  intros Hr; induction l as [|b l IH]; intros y -> Z0; [constructor|]; cbn [quo] in Z0; inversion_clear Z0 as [|? ? Z1 Z2].
  rewrite gmul_0_l, Z.lxor_0_l in * by exact Hr; constructor; [exact Z1|]; apply (IH b Z1 Z2).
Qed.
Lemma removelast_last_zeros (l : list Z) d : l <> [] -> zeros (removelast l) -> last l d = 0 -> zeros l.
Proof. intros D Z0 L; rewrite (app_removelast_last d D); apply Forall_app; split; [exact Z0 | constructor; [exact L | constructor]]. Qed.
Lemma quo_last r l : forall y, last (y :: quo r y l) 0 = evf r y l.
Proof.
  induction l as [|b l IH]; intros y; [reflexivity|]; cbn [quo]; set (y' := Z.lxor (gmul y r) b); change (last (y :: y' :: ?q) 0) with (last (y' :: q) 0); rewrite IH; reflexivity.
Qed.
Theorem few_roots : forall rs l, Forall rng l -> ~ zeros l -> NoDup rs -> (forall r, In r rs -> rng r /\ ev r l = 0) -> (length rs < length l)%nat.
Proof.
  induction rs as [|r rs IH]; intros l F NZ ND HR0.
  - destruct l; [exfalso; apply NZ; constructor | cbn; lia].
  - inversion_clear ND as [|? ? N1 N2]; destruct (HR0 r (or_introl eq_refl)) as [Hr Er].
    destruct l as [|a l]; [exfalso; apply NZ; constructor|]; inversion_clear F as [|? ? Ha Fl].
    assert (Ev : forall H, rng H -> ev H (a :: l) = evf H a l).
    { intros H HH; unfold ev; cbn [fold_left]; rewrite gmul_0_l, Z.lxor_0_l by exact HH; reflexivity. }
    rewrite Ev in Er by exact Hr; set (q := removelast (a :: quo r a l)).
    assert (Lq : length q = length l).
    { unfold q; rewrite removelast_firstn_len, firstn_length; cbn [length]; rewrite quo_length; lia. }
    assert (Fq : Forall rng q).
    { unfold q; rewrite removelast_firstn_len; apply Forall_forall; intros v I; assert (I' : In v (a :: quo r a l)) by (rewrite <- (firstn_skipn (pred (length (a :: quo r a l)))); apply in_or_app; left; exact I).
      destruct I' as [<-|I']; [exact Ha|]; pose proof (quo_rng r l Hr Fl a Ha) as Q; rewrite Forall_forall in Q; apply Q, I'. }
    assert (NQ : ~ zeros q).
    { intros Z0; apply NZ; assert (ZZ : zeros (a :: quo r a l)) by (apply (removelast_last_zeros _ 0); [discriminate | exact Z0 | rewrite quo_last; exact Er]).
      inversion_clear ZZ as [|? ? Z1 Z2]; constructor; [exact Z1 | apply (quo_zeros r l Hr a Z1 Z2)]. }
    pose proof (IH q Fq NQ N2) as L; cbn [length]; rewrite <- Lq; apply -> Nat.succ_lt_mono; apply L.
    intros r' I; destruct (HR0 r' (or_intror I)) as [Hr' Er']; split; [exact Hr'|]; rewrite Ev in Er' by exact Hr'.
    pose proof (divide r r' l Hr Hr' Fl a 0 Ha rng_0) as D; rewrite gmul_0_r, Z.lxor_0_l, Er', Er in D; cbn [Z.lxor] in D; symmetry in D.
    apply gmul_integral in D; [| apply rng_lxor; assumption | apply evf_rng; [assumption | exact Fq | apply rng_0]].
    destruct D as [D|D]; [|exact D]; apply Z.lxor_eq in D; subst r'; contradiction.
Qed.
(** Horner's rule in the form of GHASH. *)
Definition gh (H Y : Z) (l : list Z) : Z := fold_left (fun Y b => gmul (Z.lxor Y b) H) l Y.
Lemma gh_cons H Y b l : gh H Y (b :: l) = gh H (gmul (Z.lxor Y b) H) l.
Proof. reflexivity. Qed.
Lemma gh_nil H Y : gh H Y [] = Y.
Proof. reflexivity. Qed.
Lemma gh_evf H l : rng H -> Forall rng l -> forall y, rng y -> gh H (gmul y H) l = gmul (evf H y l) H.
Proof.
  intros HH F; induction F as [|b l Hb F IH]; intros y Hy; [reflexivity|].
  change (gh H (gmul y H) (b :: l)) with (gh H (gmul (Z.lxor (gmul y H) b) H) l); change (evf H y (b :: l)) with (evf H (Z.lxor (gmul y H) b) l).
  apply IH, rng_lxor; [apply gmul_rng, HH | exact Hb].
Qed.
Lemma evf_app H a b : forall y, evf H y (a ++ b) = evf H (evf H y a) b.
Proof. intros y; unfold evf; apply fold_left_app. Qed.
Lemma gh_ev H l : rng H -> Forall rng l -> gh H 0 l = ev H (l ++ [0]).
Proof.
  intros HH F; change (ev H (l ++ [0])) with (evf H 0 (l ++ [0])); rewrite evf_app.
  change (evf H (evf H 0 l) [0]) with (Z.lxor (gmul (evf H 0 l) H) 0); rewrite Z.lxor_0_r, <- (gh_evf H l HH F 0 rng_0), gmul_0_l by exact HH; reflexivity.
Qed.
Fixpoint xor2 (a b : list Z) : list Z := match a, b with x :: s, y :: t => Z.lxor x y :: xor2 s t | _, _ => [] end.
Lemma evf_xor H a : forall b y z, rng H -> length a = length b -> evf H (Z.lxor y z) (xor2 a b) = Z.lxor (evf H y a) (evf H z b).
Proof.
  induction a as [|x a IH]; intros [|c b] y z HH L; cbn [length] in L; try discriminate; [reflexivity|].
  cbn [xor2]; change (evf H ?y (?x :: ?l)) with (evf H (Z.lxor (gmul y H) x) l); rewrite <- IH by (assumption || lia).
  f_equal; rewrite gmul_lxor_l; apply lxor_swap.
Qed.
Lemma evf_zeros H k l : rng H -> evf H 0 (repeat 0 k ++ l) = evf H 0 l.
Proof.
  intros HH; induction k as [|k IH]; [reflexivity|]; cbn [repeat app]; change (evf H ?y (?x :: ?l)) with (evf H (Z.lxor (gmul y H) x) l).
  rewrite gmul_0_l by exact HH; exact IH.
Qed.
Lemma xor2_length a : forall b, length (xor2 a b) = Nat.min (length a) (length b).
Proof. induction a as [|x a IH]; intros [|y b]; cbn [xor2 length Nat.min]; try reflexivity; rewrite IH; reflexivity. Qed.
Lemma xor2_rng a : forall b, Forall rng a -> Forall rng b -> Forall rng (xor2 a b).
Proof.
  induction a as [|x a IH]; intros [|y b] Fa Fb; cbn [xor2]; try constructor; inversion_clear Fa; inversion_clear Fb; [apply rng_lxor | apply IH]; assumption.
Qed.
Lemma xor2_zeros a : forall b, length a = length b -> zeros (xor2 a b) -> a = b.
Proof.
  induction a as [|x a IH]; intros [|y b] L Z0; cbn [length xor2] in *; try discriminate; [reflexivity|]; inversion_clear Z0 as [|? ? Z1 Z2].
  apply Z.lxor_eq in Z1; subst y; f_equal; apply IH; [lia | exact Z2].
Qed.
(** Two different coefficient lists, aligned at the constant end, take values with a given
    difference at few points. *)
Definition aligned (m : nat) (l : list Z) : list Z := repeat 0 (m - length l) ++ l.
Theorem few_collisions l l' d Hs : Forall rng l -> Forall rng l' -> rng d -> NoDup Hs ->
  (forall H, In H Hs -> rng H /\ Z.lxor (gh H 0 l) (gh H 0 l') = d) ->
  aligned (Nat.max (length l) (length l')) l <> aligned (Nat.max (length l) (length l')) l' -> (length Hs <= Nat.max (length l) (length l'))%nat.
Proof.
  intros F F' Hd ND HH D; set (m := Nat.max (length l) (length l')) in *; set (p := aligned m l) in *; set (p' := aligned m l') in *.
  assert (Lp : length p = m) by (unfold p, aligned; rewrite app_length, repeat_length; lia).
  assert (Lp' : length p' = m) by (unfold p', aligned; rewrite app_length, repeat_length; lia).
  assert (Fz : forall n, Forall rng (repeat 0 n)) by (intros k; apply Forall_forall; intros v I; apply repeat_spec in I; subst v; apply rng_0).
  set (q := xor2 p p' ++ [d]).
  assert (Lq : length q = S m) by (unfold q; rewrite app_length, xor2_length, Lp, Lp'; cbn [length]; lia).
  apply Nat.lt_succ_r; rewrite <- Lq; apply few_roots.
  - apply Forall_app; split; [apply xor2_rng; apply Forall_app; split; try apply Fz; assumption | constructor; [exact Hd | constructor]].
  - intros Z0; apply Forall_app in Z0; destruct Z0 as [Z0 _]; apply xor2_zeros in Z0; [contradiction | lia].
  - exact ND.
  - intros H I; destruct (HH H I) as [HR0 E]; split; [exact HR0|]; rewrite !gh_ev in E by assumption.
    change (ev H ?x) with (evf H 0 x) in *; unfold q; rewrite evf_app; rewrite (evf_app H l'), (evf_app H l) in E.
    change (evf H ?y [?b]) with (Z.lxor (gmul y H) b) in *; rewrite !Z.lxor_0_r in E.
    change (evf H 0 (xor2 p p')) with (evf H (Z.lxor 0 0) (xor2 p p')); rewrite evf_xor by (assumption || lia).
    unfold p, p', aligned; rewrite !evf_zeros by assumption; rewrite gmul_lxor_l, E; apply Z.lxor_nilpotent.
Qed.
End Max.

(** Fast evaluation of a power: Horner's rule from the least significant bit. *)
Definition dT (V : Z) : Z := if Z.odd V then Z.lxor (Z.div2 V) R else Z.div2 V.
Lemma dT_gT V : dT V = gT V.
Proof. unfold dT, gT; rewrite Z.bit0_odd, Z.div2_div; reflexivity. Qed.
Fixpoint hmul (n : nat) (X acc Y : Z) : Z :=
  match n with O => acc | S k => hmul k (Z.div2 X) (if Z.odd X then Z.lxor (dT acc) Y else dT acc) Y end.
Lemma gsum_snoc n : forall i X V, gsum (S n) i X V = Z.lxor (gsum n i X V) (if Z.testbit X (Z.of_nat w - 1 - i - Z.of_nat n) then Nat.iter n gT V else 0).
Proof.
  induction n as [|n IH]; intros i X V.
  - cbn [gsum Nat.iter nat_rect]; rewrite Z.lxor_0_r, Z.lxor_0_l, Z.sub_0_r; reflexivity.
  - change (gsum (S (S n)) i X V) with (Z.lxor (if Z.testbit X (Z.of_nat w - 1 - i) then V else 0) (gsum (S n) (i + 1) X (gT V))).
    rewrite IH; cbn [gsum]; rewrite Z.lxor_assoc; f_equal; f_equal; replace (Z.of_nat w - 1 - (i + 1) - Z.of_nat n) with (Z.of_nat w - 1 - i - Z.of_nat (S n)) by lia.
    destruct (Z.testbit _ _); [|reflexivity]; clear; induction n as [|n IH]; [reflexivity|]; cbn [Nat.iter nat_rect] in *; unfold Nat.iter in *; cbn [nat_rect] in *; rewrite IH; reflexivity.
Qed.
Lemma hmul_gsum n : forall k X acc Y, Z.of_nat n + Z.of_nat k = Z.of_nat w ->
  hmul n (Z.shiftr X (Z.of_nat k)) acc Y = Z.lxor (Nat.iter n gT acc) (gsum n 0 X Y).
Proof.
  assert (L : forall m a b, Nat.iter m gT (Z.lxor a b) = Z.lxor (Nat.iter m gT a) (Nat.iter m gT b)).
  { intros m a b; induction m as [|m IH]; [reflexivity|]; unfold Nat.iter in *; cbn [nat_rect]; rewrite IH; apply gT_lxor. }
  assert (Sw : forall m a, Nat.iter (S m) gT a = Nat.iter m gT (gT a)).
  { intros m a; induction m as [|m IH]; [reflexivity|]; unfold Nat.iter in *; cbn [nat_rect] in *; rewrite IH; reflexivity. }
  induction n as [|n IH]; intros k X acc Y Hk; [cbn [hmul gsum Nat.iter nat_rect]; symmetry; apply Z.lxor_0_r|].
  cbn [hmul]; rewrite Z.div2_spec, Z.shiftr_shiftr by lia; replace (Z.of_nat k + 1) with (Z.of_nat (S k)) by lia; rewrite IH by lia.
  rewrite gsum_snoc, Sw; replace (Z.of_nat w - 1 - 0 - Z.of_nat n) with (Z.of_nat k) by lia.
  rewrite <- Z.bit0_odd, Z.shiftr_spec, Z.add_0_l by lia; destruct (Z.testbit X (Z.of_nat k)).
  - rewrite L, dT_gT, Z.lxor_assoc; f_equal; apply Z.lxor_comm.
  - rewrite dT_gT, Z.lxor_0_r; reflexivity.
Qed.
Lemma hmul_ok X Y : hmul w X 0 Y = gmul X Y.
Proof.
  pose proof (hmul_gsum w 0 X 0 Y ltac:(lia)) as E; rewrite Z.shiftr_0_r in E; rewrite E; unfold gmul.
  replace (Nat.iter w gT 0) with 0; [apply Z.lxor_0_l|]; generalize w; clear; intros m; induction m as [|m IH]; [reflexivity|]; unfold Nat.iter in *; cbn [nat_rect]; rewrite <- IH; reflexivity.
Qed.
Fixpoint fx (p : positive) : Z :=
  match p with
  | xH => gT one
  | xO q => let v := fx q in hmul w v 0 v
  | xI q => let v := fx q in dT (hmul w v 0 v)
  end.
Lemma fx_ok p : fx p = gx (Zpos p).
Proof.
  induction p as [p IH|p IH|]; cbn [fx]; rewrite ?dT_gT, ?hmul_ok; [| |reflexivity].
  - rewrite IH, <- gx_add, <- gx_succ by lia; f_equal; lia.
  - rewrite IH, <- gx_add by lia; f_equal; lia.
Qed.
End GF.
