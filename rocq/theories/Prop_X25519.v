(** Properties C64, C65, C67 and C80: Curve25519 field arithmetic and X25519. *)
From Coq Require Import Znumtheory.
From Verif Require Import Base BaseP S_Bignum M_Bignum P_Bignum S_X25519 M_X25519 P_X25519 P_Prime25519 P_F25519 P_Ladder P_X25519Mask.
Open Scope Z_scope.

(** ** C64: the operations are those of the integers modulo 2^255 - 19, for operands in any
    256-bit representation. *)
Definition congruent (x y : Z) : Prop := (2 ^ 255 - 19 | x - y).
Lemma congruent_iff x y : congruent x y <-> x mod p25519 = y mod p25519.
Proof.
  unfold congruent. change (2 ^ 255 - 19) with p25519. split.
  - intros [k H]. replace x with (y + k * p25519) by lia. apply Z_mod_plus_full.
  - intros H. apply Z.mod_divide; [discriminate|]. rewrite Zminus_mod, H, Z.sub_diag. reflexivity.
Qed.
Lemma rep_self a : bn 8 a -> rep a (val a). Proof. intros H; split; [exact H | reflexivity]. Qed.
Lemma rep_cong a x : rep a x <-> bn 8 a /\ congruent (val a) x.
Proof. unfold rep. rewrite congruent_iff. reflexivity. Qed.
Theorem C64_field a b w : bn 8 a -> bn 8 b -> 0 <= w < 2 ^ 32 ->
  (exists r, ec_add a b = Ok r /\ bn 8 r /\ congruent (val r) (val a + val b)) /\
  (bn 8 (ec_sub a b) /\ congruent (val (ec_sub a b)) (val a - val b)) /\
  (exists r, ec_mul a b = Ok r /\ bn 8 r /\ congruent (val r) (val a * val b)) /\
  (exists r, ec_square a = Ok r /\ bn 8 r /\ congruent (val r) (val a ^ 2)) /\
  (exists r, ec_mul32 a w = Ok r /\ bn 8 r /\ congruent (val r) (val a * w)) /\
  (exists r, inverse a = Ok r /\ bn 8 r /\
     (~ congruent (val a) 0 -> congruent (val a * val r) 1) /\ (congruent (val a) 0 -> congruent (val r) 0)) /\
  (ec_eq a b = true <-> congruent (val a) (val b)) /\
  (exists x y, congruent (val a) x /\ congruent (val b) y /\ 0 <= x < 2 ^ 255 - 19 /\ 0 <= y < 2 ^ 255 - 19 /\ ec_lt a b = (x <? y)) /\
  (bn 8 (applyModulus a) /\ 0 <= val (applyModulus a) < 2 ^ 255 - 19 /\ congruent (val (applyModulus a)) (val a)).
Proof.
  intros Ha Hb Hw. pose proof (rep_self a Ha) as Ra. pose proof (rep_self b Hb) as Rb. refine (conj _ (conj _ (conj _ (conj _ (conj _ (conj _ (conj _ (conj _ _)))))))).
  - destruct (ec_add_ok a b _ _ Ra Rb) as (r & E & R). apply rep_cong in R. destruct R as [Hr C]. exists r; split; [exact E|]; split; [exact Hr|].
    apply congruent_iff in C. apply congruent_iff. rewrite C. apply mod_p_mod.
  - split; [apply (ec_sub_val a b Ha Hb)|]. pose proof (ec_sub_ok a b _ _ Ra Rb) as R. apply congruent_iff. destruct R as [_ C]. rewrite C. apply mod_p_mod.
  - destruct (ec_mul_ok a b _ _ Ra Rb) as (r & E & R). apply rep_cong in R. destruct R as [Hr C]. exists r; split; [exact E|]; split; [exact Hr|].
    apply congruent_iff in C. apply congruent_iff. rewrite C. apply mod_p_mod.
  - destruct (ec_square_ok a _ Ra) as (r & E & R). apply rep_cong in R. destruct R as [Hr C]. exists r; split; [exact E|]; split; [exact Hr|].
    rewrite Z.pow_2_r. exact C.
  - destruct (ec_mul32_ok a w _ Ra Hw) as (r & E & R). apply rep_cong in R. destruct R as [Hr C]. exists r; split; [exact E|]; split; [exact Hr|].
    apply congruent_iff in C. apply congruent_iff. rewrite C, Z.mul_comm. apply mod_p_mod.
  - destruct (repF_inverse a (inF (val a))) as (r & E & Hr & Er); [split; [exact Ha | reflexivity]|]. exists r; split; [exact E|]; split; [exact Hr|].
    assert (Z0 : congruent (val a) 0 <-> inF (val a) = F0) by (rewrite congruent_iff; symmetry; apply inF_eq). split.
    + intros N. apply congruent_iff. apply (proj1 (inF_eq _ _)). rewrite inF_mul, Er.
      transitivity (Fmul (Finv (inF (val a))) (inF (val a))); [apply F_eq; cbn [fz Fmul inF]; f_equal; apply Z.mul_comm|]. apply Finv_l. intros H; apply N, Z0, H.
    + intros H. apply Z0 in H. apply congruent_iff. apply (proj1 (inF_eq _ _)). rewrite Er, H. exact Finv_0.
  - rewrite (ec_eq_ok a b Ha Hb), Z.eqb_eq, congruent_iff. reflexivity.
  - exists (val a mod p25519), (val b mod p25519). assert (P : 0 < p25519) by reflexivity.
    split; [apply congruent_iff; symmetry; apply mod_p_mod|]. split; [apply congruent_iff; symmetry; apply mod_p_mod|].
    split; [apply Z.mod_pos_bound, P|]. split; [apply Z.mod_pos_bound, P|]. apply ec_lt_ok; assumption.
  - destruct (applyModulus_ok a Ha) as [H ->]. split; [exact H|]. split; [apply Z.mod_pos_bound; reflexivity | apply congruent_iff, mod_p_mod].
Qed.
Print Assumptions C64_field.
(** Two operands whose sum wraps twice. *)
Definition all_ones : list Z := repeat 0xffffffff 8.
Example C64_case : bn 8 all_ones /\ ec_add all_ones all_ones = Ok [74; 0; 0; 0; 0; 0; 0; 0] /\
  ec_mul all_ones all_ones = Ok [37 * 37; 0; 0; 0; 0; 0; 0; 0] /\ ec_sub zero all_ones = [0xFFFFFFC8; 0xFFFFFFFF; 0xFFFFFFFF; 0xFFFFFFFF; 0xFFFFFFFF; 0xFFFFFFFF; 0xFFFFFFFF; 0x7FFFFFFF].
Proof. split; [split; [reflexivity | repeat constructor; lia]|]. vm_compute; repeat split. Qed.

(** ** C65: X25519 on 32-byte strings. *)
Lemma le_val_bound l : bytes l -> length l = 32%nat -> 0 <= le_val l < 2 ^ 256.
Proof. intros H L. pose proof (le_val_range l H) as R. unfold zlen in R. rewrite L in R. exact R. Qed.
Lemma x25519_bytes_ok k u : bytes k -> bytes u -> length k = 32%nat -> length u = 32%nat ->
  x25519_bytes k u = Ok (le_bytes 32 (rfc_x25519 (clamp (le_val k)) (le_val u))).
Proof.
  intros Hk Hu Lk Lu. unfold x25519_bytes.
  destruct (of_bytes_ok 8 k Hk) as (kv & E & Bk & Vk). change (32 * Z.of_nat 8) with 256 in E. rewrite E. cbn [bind]. clear E.
  destruct (of_bytes_ok 8 u Hu) as (uv & E & Bu & Vu). change (32 * Z.of_nat 8) with 256 in E. rewrite E. cbn [bind]. clear E.
  rewrite firstn_all2 in Vk, Vu by lia. destruct (X25519_ok kv uv Bk Bu) as (r & -> & Br & Vr). cbn [bind]. f_equal.
  destruct (as_bytes_ok 8 r Br) as (B1 & B2 & B3). rewrite <- Vk, <- Vu, <- Vr, <- B3. pose proof (le_bytes_val (as_bytes r) B1) as Q. rewrite B2 in Q. symmetry; exact Q.
Qed.
(** With the top bit of u clear the result is that of the RFC; the top three and the lowest
    scalar bits are masked as required; the result is always fully reduced. *)
Theorem C65_x25519_partial k u : bytes k -> bytes u -> length k = 32%nat -> length u = 32%nat -> le_val u < 2 ^ 255 ->
  x25519_bytes k u = Ok (rfc_x25519_bytes k u).
Proof.
  intros Hk Hu Lk Lu T. rewrite x25519_bytes_ok by assumption. unfold rfc_x25519_bytes, decode_u. rewrite (Z.mod_small (le_val u)); [reflexivity|].
  pose proof (le_val_bound u Hu Lu). lia.
Qed.
Print Assumptions C65_x25519_partial.
(** For every u coordinate, also with the top bit set: the function is total, reads u as a
    number modulo p without masking, and returns a reduced coordinate. *)
Theorem C65_total k u : bytes k -> bytes u -> length k = 32%nat -> length u = 32%nat ->
  exists r, x25519_bytes k u = Ok r /\ bytes r /\ length r = 32%nat /\ 0 <= le_val r < 2 ^ 255 - 19 /\
    le_val r = rfc_x25519 (clamp (le_val k)) (le_val u mod (2 ^ 255 - 19)).
Proof.
  intros Hk Hu Lk Lu. pose proof (rfc_range (clamp (le_val k)) (le_val u)) as R. eexists; split; [apply x25519_bytes_ok; assumption|].
  split; [apply le_bytes_bytes|]. split; [apply le_bytes_length|]. rewrite le_val_bytes by (change (256 ^ Z.of_nat 32) with (2 ^ 256); change p25519 with (2 ^ 255 - 19) in R; lia). split; [exact R|]. apply rfc_mod. symmetry; apply mod_p_mod.
Qed.
Print Assumptions C65_total.
(** The RFC requires the top bit of u to be ignored; the code does not ignore it. *)
Definition top_u : list Z := 0xda :: repeat 0xff 31.
Definition k0 : list Z := repeat 0 32.
Theorem C65_x25519_refuted : exists k u, bytes k /\ bytes u /\ length k = 32%nat /\ length u = 32%nat /\
  x25519_bytes k u = Ok (repeat 0 32) /\ rfc_x25519_bytes k u <> repeat 0 32.
Proof.
  exists k0, top_u. assert (Hk : bytes k0) by (apply bytesb_iff; reflexivity). assert (Hu : bytes top_u) by (apply bytesb_iff; reflexivity).
  split; [exact Hk|]. split; [exact Hu|]. split; [reflexivity|]. split; [reflexivity|].
  assert (Ek : clamp (le_val k0) = 2 ^ 254) by (vm_compute; reflexivity). split.
  - rewrite x25519_bytes_ok by (assumption || reflexivity). rewrite (rfc_mod _ (le_val top_u) 0) by (vm_compute; reflexivity).
    assert (E0 : rfc_x25519 (clamp (le_val k0)) 0 = 0); [|rewrite E0; reflexivity].
    assert (Q : inF (rfc_x25519 (clamp (le_val k0)) 0) = inF 0) by (rewrite rfc_F; apply (zero_out 254)).
    apply inF_eq in Q. rewrite !Z.mod_small in Q by (first [apply rfc_range | split; [discriminate | reflexivity]]). exact Q.
  - unfold rfc_x25519_bytes. rewrite Ek. replace (decode_u (le_val top_u)) with (p25519 - 19) by (vm_compute; reflexivity). intros H. apply mask_nonzero.
    apply (f_equal le_val) in H.
    pose proof (rfc_range (2 ^ 254) (p25519 - 19)) as R. rewrite le_val_bytes in H; [exact H|]. change (256 ^ Z.of_nat 32) with (2 ^ 256). set (x := rfc_x25519 (2 ^ 254) (p25519 - 19)) in *. clearbody x. change p25519 with (2 ^ 255 - 19) in R. lia.
Qed.
Print Assumptions C65_x25519_refuted.
(** Meeting the hypotheses: the base point 9. *)
Example C65_case : bytes (9 :: repeat 0 31) /\ le_val (9 :: repeat 0 31) < 2 ^ 255 /\ exists r, x25519_bytes k0 (9 :: repeat 0 31) = Ok r.
Proof.
  assert (Hu : bytes (9 :: repeat 0 31)) by (apply bytesb_iff; reflexivity). split; [exact Hu|]. split; [reflexivity|].
  assert (Hk : bytes k0) by (apply bytesb_iff; reflexivity).
  eexists. apply C65_x25519_partial; [exact Hk | exact Hu | reflexivity | reflexivity | reflexivity].
Qed.

(** ** C67: == compares modulo p, != compares representations. *)
Theorem C67_complement_refuted : exists a b, bn 8 a /\ bn 8 b /\ ec_eq a b = true /\ ec_ne a b = true.
Proof. exists modulus, zero. split; [apply modulus_ok|]. split; [apply zero_ok|]. vm_compute; auto. Qed.
Print Assumptions C67_complement_refuted.
(** For reduced values, such as the results of X25519, the two are complementary; in general
    a != b is false only for equal values. *)
Theorem C67_complement_partial a b : bn 8 a -> bn 8 b ->
  (ec_ne a b = false -> ec_eq a b = true) /\
  (val a < 2 ^ 255 - 19 -> val b < 2 ^ 255 - 19 -> ec_ne a b = negb (ec_eq a b)).
Proof.
  intros Ha Hb. rewrite (ec_eq_ok a b Ha Hb). unfold ec_ne. rewrite (eq_ok 8 a b Ha Hb). split.
  - intros H. apply negb_false_iff, Z.eqb_eq in H. rewrite H. apply Z.eqb_refl.
  - intros La Lb. pose proof (bn8 a Ha); pose proof (bn8 b Hb). rewrite !Z.mod_small by (change p25519 with (2 ^ 255 - 19); lia). reflexivity.
Qed.
Print Assumptions C67_complement_partial.
Example C67_case : bn 8 [5; 0; 0; 0; 0; 0; 0; 0] /\ val [5; 0; 0; 0; 0; 0; 0; 0] < 2 ^ 255 - 19 /\ ec_ne [5; 0; 0; 0; 0; 0; 0; 0] zero = true /\ ec_eq [5; 0; 0; 0; 0; 0; 0; 0] zero = false.
Proof. split; [split; [reflexivity | repeat constructor; lia]|]. vm_compute; repeat split. Qed.

(** ** C80: private keys.  A generated key has the clamped form, whatever was drawn, and the
    bits that clamping fixes never influence a result. *)
Theorem C80_keys r k k' u : bn 8 r -> bn 8 k -> bn 8 k' -> bn 8 u ->
  (exists key, random_private_key r = Ok key /\ bn 8 key /\ val key mod 8 = 0 /\ 2 ^ 254 <= val key < 2 ^ 255 /\
     (forall i, 3 <= i < 254 -> Z.testbit (val key) i = Z.testbit (val r) i) /\ X25519 key u = X25519 r u) /\
  ((forall i, 3 <= i < 254 -> Z.testbit (val k) i = Z.testbit (val k') i) -> X25519 k u = X25519 k' u).
Proof.
  intros Hr Hk Hk' Hu.
  assert (KEY : forall a b, bn 8 a -> bn 8 b -> clamp (val a) = clamp (val b) -> X25519 a u = X25519 b u).
  { intros a b Ha Hb E. destruct (X25519_ok a u Ha Hu) as (x & -> & Bx & Vx), (X25519_ok b u Hb Hu) as (y & -> & By & Vy).
    f_equal. apply (val_inj 8); try assumption. rewrite Vx, Vy, E. reflexivity. }
  split.
  - destruct (normalize_ok r Hr) as (key & E & Bk & Vk). exists key. split; [exact E|]. split; [exact Bk|]. pose proof (bn8 r Hr) as Rr. rewrite Vk.
    split; [unfold clamp; rewrite (Z.mul_comm 8), Z.add_comm, <- Z.add_mod_idemp_l, Z.mod_mul by lia; reflexivity|].
    split; [apply clamp_range|]. split.
    + intros i Hi. rewrite clamp_bit by lia. destruct (Z.eqb_spec i 254); [lia|]. destruct (Z.ltb_spec i 3); [lia|]. destruct (Z.ltb_spec 254 i); [lia|]. reflexivity.
    + apply KEY; [exact Bk | exact Hr|]. rewrite Vk. unfold clamp. f_equal. f_equal. set (y := val r / 8 mod 2 ^ 251).
      assert (Hy : 0 <= y < 2 ^ 251) by (apply Z.mod_pos_bound; lia). replace (2 ^ 254 + 8 * y) with ((2 ^ 251 + y) * 8) by lia. rewrite Z.div_mul by lia.
      replace (2 ^ 251 + y) with (y + 1 * 2 ^ 251) by lia. rewrite Z.mod_add by lia. apply Z.mod_small; exact Hy.
  - intros H. apply KEY; try assumption. pose proof (bn8 k Hk) as R1. pose proof (bn8 k' Hk') as R2.
    apply (bits_eq 256); [pose proof (clamp_range (val k)); lia | pose proof (clamp_range (val k')); lia |]. intros i Hi. rewrite !clamp_bit by lia.
    destruct (Z.eqb_spec i 254); [reflexivity|]. destruct (Z.ltb_spec i 3); [reflexivity|]. destruct (Z.ltb_spec 254 i); [reflexivity|]. cbn [orb]. apply H; lia.
Qed.
Print Assumptions C80_keys.
Example C80_case : bn 8 all_ones /\ random_private_key all_ones = Ok [0xfffffff8; 0xffffffff; 0xffffffff; 0xffffffff; 0xffffffff; 0xffffffff; 0xffffffff; 0x7fffffff].
Proof. split; [split; [reflexivity | repeat constructor; lia]|]. vm_compute; reflexivity. Qed.
