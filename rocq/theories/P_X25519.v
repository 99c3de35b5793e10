(** Proofs about the field operations of x25519.h. *)
From Verif Require Import Base BaseP S_Bignum M_Bignum P_Bignum S_X25519 M_X25519.
Open Scope Z_scope.

Local Notation p := p25519.
Local Notation W := (2 ^ 256).
Lemma p_pos : 0 < p. Proof. reflexivity. Qed.
Lemma W_p : W = 2 * p + 38. Proof. reflexivity. Qed.
Lemma p_big : 2 ^ 254 < p. Proof. reflexivity. Qed.

(** The words [a] represent the residue [x]. *)
Definition rep (a : list Z) (x : Z) : Prop := bn 8 a /\ val a mod p = x mod p.

Lemma mod_add_p x k : (x + k * p) mod p = x mod p.
Proof. apply Z_mod_plus_full. Qed.
Lemma mul_mod_eq a a' b b' : a mod p = a' mod p -> b mod p = b' mod p -> (a * b) mod p = (a' * b') mod p.
Proof. intros Ea Eb. rewrite (Zmult_mod a b), Ea, Eb, <- Zmult_mod. reflexivity. Qed.
Lemma add_mod_eq a a' b b' : a mod p = a' mod p -> b mod p = b' mod p -> (a + b) mod p = (a' + b') mod p.
Proof. intros Ea Eb. rewrite (Zplus_mod a b), Ea, Eb, <- Zplus_mod. reflexivity. Qed.
Lemma sub_mod_eq a a' b b' : a mod p = a' mod p -> b mod p = b' mod p -> (a - b) mod p = (a' - b') mod p.
Proof. intros Ea Eb. rewrite (Zminus_mod a b), Ea, Eb, <- Zminus_mod. reflexivity. Qed.
Lemma mod_p_mod x : (x mod p) mod p = x mod p.
Proof. apply Zmod_mod. Qed.
Lemma bn8 a : bn 8 a -> 0 <= val a < W.
Proof. intros H; exact (bn_range 8 a H). Qed.
Lemma add8 a b : bn 8 a -> bn 8 b ->
  bn 8 (snd (add a b)) /\ val (snd (add a b)) = (val a + val b) mod W /\ fst (add a b) = (W <=? val a + val b).
Proof. intros Ha Hb; exact (add_val 8 a b Ha Hb). Qed.
Lemma sub8 a b : bn 8 a -> bn 8 b ->
  bn 8 (snd (sub a b)) /\ val (snd (sub a b)) = (val a - val b) mod W /\ fst (sub a b) = (val a <? val b).
Proof. intros Ha Hb; exact (sub_val 8 a b Ha Hb). Qed.
Lemma modulus_ok : bn 8 modulus /\ val modulus = p.
Proof. split; [split; [reflexivity | repeat constructor; lia] | reflexivity]. Qed.
Lemma zero_ok : bn 8 zero /\ val zero = 0.
Proof. split; [split; [reflexivity | repeat constructor; lia] | reflexivity]. Qed.

(** Sums and differences in 256 bits, by cases on the carry. *)
Lemma add_cases a b : bn 8 a -> bn 8 b -> exists c r, add a b = (c, r) /\ bn 8 r /\
  ((c = true /\ val r = val a + val b - W) \/ (c = false /\ val r = val a + val b)).
Proof.
  intros Ha Hb; pose proof (add_ok 8 a b Ha Hb) as H; destruct (add a b) as [c r]; destruct H as [Hr E].
  exists c, r; split; [reflexivity|]; split; [exact Hr|]. change (2 ^ (32 * Z.of_nat 8)) with W in E. destruct c; [left | right]; split; trivial; lia.
Qed.
Lemma sub_cases a b : bn 8 a -> bn 8 b -> exists c r, sub a b = (c, r) /\ bn 8 r /\
  ((c = true /\ val r = val a - val b + W) \/ (c = false /\ val r = val a - val b)).
Proof.
  intros Ha Hb; pose proof (sub_from_ok 8 0 a b Ha Hb ltac:(lia)) as H; unfold sub; destruct (sub_from 0 a b) as [c r]; destruct H as [Hr E].
  exists c, r; split; [reflexivity|]; split; [exact Hr|]. change (2 ^ (32 * Z.of_nat 8)) with W in E. cbn [Z.eqb] in E. destruct c; [left | right]; split; trivial; lia.
Qed.

(** ** Addition *)
Lemma setw0 a x : bn 8 a -> val a + x < 2 ^ 32 -> 0 <= x -> exists r, (do w <- getz a 0; setz a 0 (w32 (w + x))) = Ok r /\ bn 8 r /\ val r = val a + x.
Proof.
  intros Ha Hx Hx0; apply bn_S in Ha; destruct Ha as (w & t & -> & Hw & Ht). rewrite val_cons in *.
  pose proof (bn_range 7 t Ht) as [T0 _].
  rewrite (getz_nth _ 0 0) by (unfold zlen; cbn [length]; lia). cbn [Z.to_nat nth bind].
  rewrite setz_ok by (unfold zlen; cbn [length]; lia). eexists; split; [reflexivity|]. unfold w32; rewrite Z.mod_small by lia.
  change (upd (w :: t) (Z.to_nat 0) (w + x)) with ((w + x) :: t). split; [apply bn_cons; split; [lia | exact Ht]|].
  rewrite val_cons; lia.
Qed.
Lemma setw0_id a : bn 8 a -> exists r, (do w <- getz a 0; setz a 0 (w32 (w + 0))) = Ok r /\ bn 8 r /\ val r = val a.
Proof.
  intros Ha; apply bn_S in Ha; destruct Ha as (w & t & -> & Hw & Ht).
  rewrite (getz_nth _ 0 0) by (unfold zlen; cbn [length]; lia). cbn [Z.to_nat nth bind].
  rewrite setz_ok by (unfold zlen; cbn [length]; lia). eexists; split; [reflexivity|]. rewrite Z.add_0_r. unfold w32; rewrite Z.mod_small by lia.
  change (upd (w :: t) (Z.to_nat 0) w) with (w :: t). split; [apply bn_cons; split; assumption | reflexivity].
Qed.
Lemma ec_add_val a b : bn 8 a -> bn 8 b -> exists r j, ec_add a b = Ok r /\ bn 8 r /\ val r = val a + val b - j * W + j * 38.
Proof.
  intros Ha Hb; unfold ec_add. destruct (add_cases a b Ha Hb) as (c & v & -> & Hv & Ev).
  pose proof (bn8 a Ha) as Ra; pose proof (bn8 b Hb) as Rb; pose proof (bn8 v Hv) as Rv.
  assert (Hw : 0 <= w32 (b2u c * overflow_addition) < 2 ^ 32) by (apply Z.mod_pos_bound; lia).
  destruct (of_u32_ok 8 _ Hw ltac:(lia)) as [Hu Eu]. change (32 * Z.of_nat 8) with 256 in Hu, Eu.
  destruct (add_cases v _ Hv Hu) as (c2 & v2 & -> & Hv2 & Ev2). pose proof (bn8 v2 Hv2) as Rv2. rewrite Eu in Ev2. clear Eu Hu Hw.
  destruct Ev as [[-> Ev]|[-> Ev]], Ev2 as [[-> Ev2]|[-> Ev2]];
    [ change (w32 (b2u true * overflow_addition)) with 38 in Ev2
    | change (w32 (b2u true * overflow_addition)) with 38 in Ev2
    | change (w32 (b2u false * overflow_addition)) with 0 in Ev2; exfalso; lia
    | change (w32 (b2u false * overflow_addition)) with 0 in Ev2 ]; [change (b2u true * overflow_addition) with 38 | change (b2u false * overflow_addition) with 0 ..].
  - destruct (setw0 v2 38 Hv2 ltac:(lia) ltac:(lia)) as (r & -> & Hr & Er). exists r, 2; split; [reflexivity|]; split; [exact Hr | lia].
  - destruct (setw0_id v2 Hv2) as (r & -> & Hr & Er). exists r, 1; split; [reflexivity|]; split; [exact Hr | lia].
  - destruct (setw0_id v2 Hv2) as (r & -> & Hr & Er). exists r, 0; split; [reflexivity|]; split; [exact Hr | lia].
Qed.
Lemma ec_add_ok a b x y : rep a x -> rep b y -> exists r, ec_add a b = Ok r /\ rep r (fadd x y).
Proof.
  intros [Ha Ex] [Hb Ey]. destruct (ec_add_val a b Ha Hb) as (r & j & E & Hr & V). exists r; split; [exact E|]; split; [exact Hr|].
  unfold fadd. rewrite mod_p_mod, <- (add_mod_eq _ _ _ _ Ex Ey), V, W_p. replace (val a + val b - j * (2 * p + 38) + j * 38) with (val a + val b + (- (2 * j)) * p) by ring. apply mod_add_p.
Qed.

(** ** Subtraction *)
Lemma sel_ok (c : bool) : bn 8 (if c then modulus else zero) /\ val (if c then modulus else zero) = if c then p else 0.
Proof. destruct c; [apply modulus_ok | apply zero_ok]. Qed.
Lemma ec_sub_val a b : bn 8 a -> bn 8 b -> bn 8 (ec_sub a b) /\ exists j, val (ec_sub a b) = val a - val b + j * p.
Proof.
  intros Ha Hb; unfold ec_sub. destruct (sub_cases a b Ha Hb) as (uf & v & -> & Hv & Ev).
  pose proof (bn8 a Ha) as Ra; pose proof (bn8 b Hb) as Rb; pose proof (bn8 v Hv) as Rv. pose proof W_p as WP. pose proof p_pos as PP.
  destruct (sel_ok uf) as [H1 E1]. destruct (add_cases v _ Hv H1) as (ov1 & v2 & -> & Hv2 & Ev2). rewrite E1 in Ev2. pose proof (bn8 v2 Hv2) as Rv2.
  destruct (sel_ok (uf && negb ov1)) as [H2 E2]. destruct (add_cases v2 _ Hv2 H2) as (ov2 & v3 & -> & Hv3 & Ev3). rewrite E2 in Ev3. pose proof (bn8 v3 Hv3) as Rv3.
  destruct (sel_ok (uf && negb ov1 && negb ov2)) as [H3 E3]. destruct (add_cases v3 _ Hv3 H3) as (ov3 & v4 & -> & Hv4 & Ev4). rewrite E3 in Ev4. pose proof (bn8 v4 Hv4) as Rv4.
  cbn [snd]. clear E1 E2 E3 H1 H2 H3. split; [exact Hv4|]. 
  set (P := p) in *. set (W' := W) in *. clearbody P. 
  assert (H38 : W' = 2 * P + 38) by exact WP. assert (P2 : 100 < P) by (assert (W' = 2^256) by reflexivity; lia). clearbody W'.
  destruct Ev as [[-> Ev]|[-> Ev]], Ev2 as [[-> Ev2]|[-> Ev2]], Ev3 as [[-> Ev3]|[-> Ev3]], Ev4 as [[-> Ev4]|[-> Ev4]]; cbn [andb negb] in *; try (exfalso; lia);
  first [ exists 0; lia | exists 1; lia | exists 2; lia | exists 3; lia ].
Qed.
Lemma ec_sub_ok a b x y : rep a x -> rep b y -> rep (ec_sub a b) (fsub x y).
Proof.
  intros [Ha Ex] [Hb Ey]. destruct (ec_sub_val a b Ha Hb) as (Hr & j & V). split; [exact Hr|].
  unfold fsub. rewrite mod_p_mod, <- (sub_mod_eq _ _ _ _ Ex Ey), V. apply mod_add_p.
Qed.

(** ** Reduction and comparison *)
Lemma applyModulus_ok a : bn 8 a -> bn 8 (applyModulus a) /\ val (applyModulus a) = val a mod p.
Proof.
  intros Ha; unfold applyModulus. destruct modulus_ok as [HM EM].
  destruct (sub_cases a _ Ha HM) as (uf & v & -> & Hv & Ev). destruct (sel_ok uf) as [H1 E1].
  destruct (add_cases v _ Hv H1) as (o1 & v2 & -> & Hv2 & Ev2). destruct (sub_cases v2 _ Hv2 HM) as (uf2 & v3 & -> & Hv3 & Ev3).
  destruct (sel_ok uf2) as [H2 E2]. destruct (add_cases v3 _ Hv3 H2) as (o2 & v4 & -> & Hv4 & Ev4).
  rewrite EM in Ev, Ev3. rewrite E1 in Ev2. rewrite E2 in Ev4.
  pose proof (bn8 a Ha) as Ra; pose proof (bn8 v Hv) as Rv; pose proof (bn8 v2 Hv2) as Rv2; pose proof (bn8 v3 Hv3) as Rv3; pose proof (bn8 v4 Hv4) as Rv4.
  clear E1 E2 EM HM H1 H2. split; [exact Hv4|].
  pose proof W_p as WP. set (P := p) in *. set (W' := W) in *.
  assert (P2 : 100 < P) by (assert (W' = 2^256) by reflexivity; lia). clearbody P W'.
  destruct Ev as [[-> Ev]|[-> Ev]], Ev2 as [[-> Ev2]|[-> Ev2]], Ev3 as [[-> Ev3]|[-> Ev3]], Ev4 as [[-> Ev4]|[-> Ev4]]; try (exfalso; lia);
  first [ apply Z.mod_unique with 0; lia | apply Z.mod_unique with 1; lia | apply Z.mod_unique with 2; lia ].
Qed.
Lemma ec_eq_ok a b : bn 8 a -> bn 8 b -> ec_eq a b = (val a mod p =? val b mod p).
Proof.
  intros Ha Hb; unfold ec_eq. destruct (applyModulus_ok a Ha) as [Ha' <-], (applyModulus_ok b Hb) as [Hb' <-]. apply (eq_ok 8); assumption.
Qed.
Lemma ec_lt_ok a b : bn 8 a -> bn 8 b -> ec_lt a b = (val a mod p <? val b mod p).
Proof.
  intros Ha Hb; unfold ec_lt. destruct (applyModulus_ok a Ha) as [Ha' <-], (applyModulus_ok b Hb) as [Hb' <-]. apply (lt_ok 8); assumption.
Qed.

(** ** Multiplication *)
Lemma getz8 n a : bn (S n) a -> getz a (Z.of_nat n) = Ok (val a / 2 ^ (32 * Z.of_nat n)).
Proof.
  intros Ha. rewrite <- (val_skipn (S n) n a Ha) by lia.
  rewrite (getz_nth _ _ 0) by (rewrite (bn_zlen _ _ Ha); lia). rewrite Nat2Z.id. f_equal.
  pose proof (bn_length _ _ Ha) as L. pose proof (firstn_skipn n a) as F.
  assert (LS : length (skipn n a) = 1%nat) by (rewrite skipn_length; lia).
  destruct (skipn n a) as [|w [|? ?]]; cbn in LS; try lia. rewrite <- F, app_nth2; rewrite firstn_length_le by lia; [|lia].
  rewrite Nat.sub_diag. cbn [nth val]. lia.
Qed.
Lemma getz9 a : bn 9 a -> getz a 8 = Ok (val a / W).
Proof. intros Ha; exact (getz8 8 a Ha). Qed.
Lemma slice8_lo n a : bn (8 + n) a -> exists r, slice_ 256 0 a = Ok r /\ bn 8 r /\ val r = val a mod W.
Proof.
  intros Ha. destruct (slice_ok (8 + n) 8 0 a Ha ltac:(lia)) as (r & E & Hr & V). exists r; split; [exact E|]; split; [exact Hr|].
  rewrite V. change (2 ^ (32 * Z.of_nat 0)) with 1. rewrite Z.div_1_r. reflexivity.
Qed.
Lemma slice8_hi a : bn 16 a -> exists r, slice_ 256 256 a = Ok r /\ bn 8 r /\ val r = val a / W.
Proof.
  intros Ha. destruct (slice_ok 16 8 8 a Ha ltac:(lia)) as (r & E & Hr & V). exists r; split; [exact E|]; split; [exact Hr|].
  rewrite V. apply Z.mod_small. pose proof (bn_range 16 a Ha) as R. change (2 ^ (32 * Z.of_nat 8)) with W. change (2 ^ (32 * Z.of_nat 16)) with (W * W) in R.
  split; [apply Z.div_pos; lia | apply Z.div_lt_upper_bound; lia].
Qed.
Lemma ec_mul32_val a b : bn 8 a -> 0 <= b < 2 ^ 32 -> exists r j, ec_mul32 a b = Ok r /\ bn 8 r /\ val r = val a * b + j * p.
Proof.
  intros Ha Hb; unfold ec_mul32. destruct (mul32_ok 8 a b Ha Hb) as [Hx Ex]. set (X := mul32 a b) in *. clearbody X.
  rewrite (getz9 X Hx). cbn [bind].
  destruct (slice8_lo 1 X Hx) as (lo & -> & Hlo & Elo). cbn [bind].
  pose proof (bn_range 9 X Hx) as RX. change (2 ^ (32 * Z.of_nat 9)) with (W * 2 ^ 32) in RX.
  assert (R8 : 0 <= val X / W < 2 ^ 32) by (split; [apply Z.div_pos; lia | apply Z.div_lt_upper_bound; lia]).
  unfold w64; rewrite (Z.mod_small (val X / W * 38)) by lia. set (ov := val X / W * 38) in *.
  assert (Hov : 0 <= ov < 2 ^ 38) by lia.
  rewrite land32, shr32. unfold w32. pose proof (Z.mod_pos_bound ov (2 ^ 32) ltac:(lia)) as M1.
  pose proof (Z.mod_pos_bound (ov / 2 ^ 32) (2 ^ 32) ltac:(lia)) as M2. rewrite Z.mod_mod by lia.
  destruct (of_list_ok 8 [(ov / 2 ^ 32) mod 2 ^ 32; ov mod 2 ^ 32]) as (hi & Eh & Hhi & Vh); [repeat constructor; lia | cbn; lia |].
  change (32 * Z.of_nat 8) with 256 in Eh. rewrite Eh. cbn [bind].
  assert (Vhi : val hi = ov).
  { rewrite Vh. cbn [rev app val]. rewrite Z.mul_0_r, Z.add_0_r. rewrite (Z.mod_small (ov / 2 ^ 32)); [pose proof (Z.div_mod ov (2 ^ 32) ltac:(lia)); lia|].
    split; [apply Z.div_pos; lia | apply Z.div_lt_upper_bound; lia]. }
  destruct (ec_add_val lo hi Hlo Hhi) as (r & j & E & Hr & V). rewrite <- Ex. clear Ex. pose proof (Z.div_mod (val X) W ltac:(lia)) as D.
  exists r, (- (2 * (val X / W)) - 2 * j); split; [exact E|]; split; [exact Hr|]. rewrite V, Vhi, Elo. unfold ov. clear - D.
  set (q := val X / W) in *. set (m := val X mod W) in *. rewrite D, W_p. ring.
Qed.
Lemma ec_mul32_ok a b x : rep a x -> 0 <= b < 2 ^ 32 -> exists r, ec_mul32 a b = Ok r /\ rep r (fmul b x).
Proof.
  intros [Ha Ex] Hb. destruct (ec_mul32_val a b Ha Hb) as (r & j & E & Hr & V). exists r; split; [exact E|]; split; [exact Hr|].
  unfold fmul. rewrite mod_p_mod, (Z.mul_comm b), <- (mul_mod_eq _ _ b b Ex eq_refl), V. apply mod_add_p.
Qed.
Lemma ec_mul_val a b : bn 8 a -> bn 8 b -> exists r j, ec_mul a b = Ok r /\ bn 8 r /\ val r = val a * val b + j * p.
Proof.
  intros Ha Hb; unfold ec_mul. destruct (mul_ok 8 a b Ha Hb) as (X & E & HX & EX). change (32 * Z.of_nat 8) with 256 in E. rewrite E; cbn [bind]. clear E.
  destruct (slice8_hi X HX) as (up & -> & Hup & Eup). cbn [bind]. destruct (slice8_lo 8 X HX) as (low & -> & Hlow & Elow). cbn [bind].
  destruct (mul32_ok 8 up 38 Hup ltac:(lia)) as [Hu Eu]. set (U := mul32 up 38) in *. clearbody U.
  destruct (slice8_lo 1 U Hu) as (ul & -> & Hul & Eul). cbn [bind]. rewrite (getz9 U Hu). cbn [bind].
  destruct (ec_add_val ul low Hul Hlow) as (s & j1 & -> & Hs & Es). cbn [bind].
  pose proof (bn8 up Hup) as Rup.
  assert (RU : 0 <= val U / W < 38) by (rewrite Eu; split; [apply Z.div_pos; lia | apply Z.div_lt_upper_bound; lia]).
  unfold w32; rewrite Z.mod_small by lia.
  destruct (of_u32_ok 8 (val U / W * 38) ltac:(lia) ltac:(lia)) as [H8 E8]. change (32 * Z.of_nat 8) with 256 in H8, E8.
  destruct (ec_add_val s _ Hs H8) as (r & j & E & Hr & V). rewrite <- EX. clear EX.
  pose proof (Z.div_mod (val X) W ltac:(lia)) as D. pose proof (Z.div_mod (val U) W ltac:(lia)) as D2. rewrite <- Eup in D.
  exists r, (- (2 * val up) - 2 * (val U / W) - 2 * j1 - 2 * j); split; [exact E|]; split; [exact Hr|].
  rewrite V, E8, Es, Eul, Elow. clear - D D2 Eu.
  set (q := val U / W) in *. set (m := val U mod W) in *. set (l := val X mod W) in *.
  assert (D3 : m = val up * 38 - W * q) by lia. clear D2. rewrite D3, D, W_p. ring.
Qed.
Lemma ec_mul_ok a b x y : rep a x -> rep b y -> exists r, ec_mul a b = Ok r /\ rep r (fmul x y).
Proof.
  intros [Ha Ex] [Hb Ey]. destruct (ec_mul_val a b Ha Hb) as (r & j & E & Hr & V). exists r; split; [exact E|]; split; [exact Hr|].
  unfold fmul. rewrite mod_p_mod, <- (mul_mod_eq _ _ _ _ Ex Ey), V. apply mod_add_p.
Qed.

(** ** Squaring chains and inversion *)
Lemma rep_eq a x y : rep a x -> x mod p = y mod p -> rep a y.
Proof. intros [Ha E] H; split; [exact Ha | rewrite E; exact H]. Qed.
Lemma ec_square_ok a x : rep a x -> exists r, ec_square a = Ok r /\ rep r (x * x).
Proof. intros H; destruct (ec_mul_ok a a x x H H) as (r & E & R). exists r; split; [exact E|]. apply (rep_eq _ _ _ R). apply mod_p_mod. Qed.
Lemma mul_pow a b x i j : 0 <= i -> 0 <= j -> rep a (x ^ i) -> rep b (x ^ j) -> exists r, ec_mul a b = Ok r /\ rep r (x ^ (i + j)).
Proof.
  intros Hi Hj Ha Hb; destruct (ec_mul_ok a b _ _ Ha Hb) as (r & E & R). exists r; split; [exact E|].
  apply (rep_eq _ _ _ R). unfold fmul. rewrite mod_p_mod, Z.pow_add_r by assumption. reflexivity.
Qed.
Lemma square_pow a x i : 0 <= i -> rep a (x ^ i) -> exists r, ec_square a = Ok r /\ rep r (x ^ (2 * i)).
Proof. intros Hi Ha. replace (2 * i) with (i + i) by lia. apply (mul_pow a a x i i); assumption. Qed.
Lemma squares_pow n x : forall a i, 0 <= i -> rep a (x ^ i) -> exists r, squares n a = Ok r /\ rep r (x ^ (2 ^ Z.of_nat n * i)).
Proof.
  induction n as [|n IH]; intros a i Hi Ha; cbn [squares].
  - exists a; split; [reflexivity|]. change (2 ^ Z.of_nat 0) with 1. rewrite Z.mul_1_l. exact Ha.
  - destruct (square_pow a x i Hi Ha) as (b & -> & Hb). cbn [bind]. destruct (IH b (2 * i) ltac:(lia) Hb) as (r & E & R). exists r; split; [exact E|].
    replace (2 ^ Z.of_nat (S n) * i) with (2 ^ Z.of_nat n * (2 * i)); [exact R|]. rewrite Nat2Z.inj_succ, Z.pow_succ_r by lia. ring.
Qed.
(** Exponents are kept behind a definition: nothing may try to evaluate x ^ (2 ^ 240 - 1). *)
Definition repw (a : list Z) (x e : Z) : Prop := rep a (x ^ e).
Lemma msq a x i k : repw a x i -> 0 <= i -> k = 2 * i -> exists r, ec_square a = Ok r /\ repw r x k.
Proof. intros Ha Hi ->. exact (square_pow a x i Hi Ha). Qed.
Lemma msqs n a x i k : repw a x i -> 0 <= i -> k = 2 ^ Z.of_nat n * i -> exists r, squares n a = Ok r /\ repw r x k.
Proof. intros Ha Hi ->. exact (squares_pow n x a i Hi Ha). Qed.
Lemma mmul a b x i j k : repw a x i -> repw b x j -> 0 <= i -> 0 <= j -> k = i + j -> exists r, ec_mul a b = Ok r /\ repw r x k.
Proof. intros Ha Hb Hi Hj ->. exact (mul_pow a b x i j Hi Hj Ha Hb). Qed.
Ltac nn := let H := fresh in intros H; discriminate H.
Ltac sq H k := let r := fresh "v" in let R := fresh "R" in let E := fresh "E" in destruct (msq _ _ _ k H ltac:(nn) eq_refl) as (r & E & R); rewrite E; cbn [bind]; clear E.
Ltac sqs n H k := let r := fresh "v" in let R := fresh "R" in let E := fresh "E" in destruct (msqs n _ _ _ k H ltac:(nn) eq_refl) as (r & E & R); rewrite E; cbn [bind]; clear E.
Ltac ml H K k := let r := fresh "v" in let R := fresh "R" in let E := fresh "E" in destruct (mmul _ _ _ _ _ k H K ltac:(nn) ltac:(nn) eq_refl) as (r & E & R); rewrite E; cbn [bind]; clear E.
Lemma inverse_ok a x : rep a x -> exists r, inverse a = Ok r /\ rep r (x ^ (p - 2)).
Proof.
  intros Hx. assert (H1 : repw a x 1) by (unfold repw; rewrite Z.pow_1_r; exact Hx). clear Hx. unfold inverse.
  sq H1 2. sq R 4. sq R0 8. ml R1 H1 9. ml R2 R 11. sq R3 22. ml R4 R2 31.
  sqs 5%nat R5 992. ml R6 R5 1023. sqs 5%nat R7 32736. ml R8 R5 32767.
  sqs 15%nat R9 (2 ^ 30 - 2 ^ 15). ml R10 R9 (2 ^ 30 - 1).
  sqs 30%nat R11 (2 ^ 60 - 2 ^ 30). ml R12 R11 (2 ^ 60 - 1).
  sqs 60%nat R13 (2 ^ 120 - 2 ^ 60). ml R14 R13 (2 ^ 120 - 1).
  sqs 120%nat R15 (2 ^ 240 - 2 ^ 120). ml R16 R15 (2 ^ 240 - 1).
  sqs 15%nat R17 (2 ^ 255 - 2 ^ 15). ml R18 R8 (2 ^ 255 - 32).
  destruct (mmul _ _ _ _ _ (p - 2) R19 R3 ltac:(nn) ltac:(nn) eq_refl) as (r & E & K).
  exists r; split; [exact E | exact K].
Qed.
