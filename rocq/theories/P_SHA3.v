From Verif Require Import Base BaseP S_Word P_Word M_MD P_MD P_MDS M_SHA3 S_SHA3.

Definition rep (s : list Z) (A : state) : Prop :=
  length s = 25%nat /\ Forall (word 64) s /\
  forall x y z, (x < 5)%nat -> (y < 5)%nat -> (z < 64)%nat -> Z.testbit (lane s (5 * y + x)) (Z.of_nat z) = A x y z.

Lemma lane_word s i : Forall (word 64) s -> word 64 (lane s i).
Proof.
  intros HF; unfold lane; destruct (Nat.lt_ge_cases i (length s)) as [H|H].
  - rewrite Forall_forall in HF; apply HF, nth_In; exact H.
  - rewrite nth_overflow by exact H; unfold word; lia.
Qed.

Lemma nth_map_seq {A} (f : nat -> A) n i d : (i < n)%nat -> nth i (map f (seq 0 n)) d = f i.
Proof. intros H; rewrite (nth_indep _ d (f 0%nat)) by (rewrite map_length, seq_length; exact H).
  rewrite map_nth, seq_nth by exact H; reflexivity. Qed.

Lemma Forall_map_seq (P : Z -> Prop) f n : (forall i, (i < n)%nat -> P (f i)) -> Forall P (map f (seq 0 n)).
Proof. intros H; apply Forall_map, Forall_forall; intros i Hi; apply in_seq in Hi; apply H; lia. Qed.

Lemma testbit_rot64 v l z : word 64 v -> (0 < l < 64)%nat -> (z < 64)%nat ->
  Z.testbit (rot64 v (Z.of_nat l) (Z.of_nat (64 - l))) (Z.of_nat z) = Z.testbit v (Z.of_nat ((z + 64 - l) mod 64)).
Proof.
  intros Hv Hl Hz; unfold rot64, w64; rewrite Z.lor_spec.
  rewrite Z.mod_pow2_bits_low, Z.shiftl_spec, Z.shiftr_spec by lia.
  destruct (Nat.lt_ge_cases z l) as [H|H].
  - rewrite (Z.testbit_neg_r v) by lia; cbn [orb]; f_equal.
    rewrite Nat.mod_small by lia; lia.
  - rewrite (testbit_high v 64 (Z.of_nat z + _)) by (assumption || lia); rewrite orb_false_r; f_equal.
    replace (z + 64 - l)%nat with (z - l + 1 * 64)%nat by lia; rewrite Nat.mod_add, Nat.mod_small by lia; lia.
Qed.
Lemma rot64_word v l : word 64 v -> (0 < l < 64)%nat -> word 64 (rot64 v (Z.of_nat l) (Z.of_nat (64 - l))).
Proof.
  intros Hv Hl; unfold rot64, w64.
  replace (Z.of_nat (64 - l)) with (64 - Z.of_nat l) by lia.
  rewrite rotl_lor by (assumption || lia); apply rotl_word; (assumption || lia).
Qed.

(** ** theta *)
Lemma rep_lane s A x y z : rep s A -> (x < 5)%nat -> (y < 5)%nat -> (z < 64)%nat ->
  Z.testbit (lane s (y * 5 + x)) (Z.of_nat z) = A x y z.
Proof. intros (_ & _ & H) ? ? ?; rewrite Nat.mul_comm; apply H; assumption. Qed.

Lemma theta_c_spec s A x z : rep s A -> (x < 5)%nat -> (z < 64)%nat ->
  Z.testbit (lane (theta_c s) x) (Z.of_nat z) = C A x z /\ word 64 (lane (theta_c s) x).
Proof.
  intros HR Hx Hz; unfold theta_c, lane at 1 3; rewrite nth_map_seq by exact Hx; cbn [fold_left]; split.
  - rewrite !Z.lxor_spec, Z.bits_0, !(rep_lane s A) by (assumption || lia); unfold C.
    destruct (A x 0%nat z), (A x 1%nat z), (A x 2%nat z), (A x 3%nat z), (A x 4%nat z); reflexivity.
  - destruct HR as (_ & HF & _).
    repeat apply lxor_word; try lia; try (apply lane_word; assumption); unfold word; lia.
Qed.

Lemma theta_d_spec s A x z : rep s A -> (x < 5)%nat -> (z < 64)%nat ->
  Z.testbit (lane (theta_d (theta_c s)) x) (Z.of_nat z) = D A x z /\ word 64 (lane (theta_d (theta_c s)) x).
Proof.
  intros HR Hx Hz; unfold theta_d, lane at 1 5; rewrite nth_map_seq by exact Hx.
  assert (H1 : ((x + 1) mod 5 < 5)%nat) by lia; assert (H4 : ((x + 4) mod 5 < 5)%nat) by lia.
  set (c1 := lane (theta_c s) ((x + 1) mod 5)).
  assert (W1 : word 64 c1) by (apply (theta_c_spec s A _ 0%nat HR H1); lia).
  assert (E : Z.lxor (w64 (Z.shiftl c1 1)) (Z.shiftr c1 63) = rot64 c1 (Z.of_nat 1) (Z.of_nat (64 - 1))).
  { change (Z.of_nat (64 - 1)) with (64 - 1); change (Z.of_nat 1) with 1; unfold rot64, w64.
    rewrite rotl_lor by (assumption || lia); apply rotl_lxor; (assumption || lia). }
  rewrite E, Z.lxor_spec, testbit_rot64 by (assumption || lia); split.
  - unfold D; destruct (theta_c_spec s A ((x + 4) mod 5) z HR H4 Hz) as [-> _].
    replace (z + 64 - 1)%nat with (z + 63)%nat by lia.
    destruct (theta_c_spec s A ((x + 1) mod 5) ((z + 63) mod 64) HR H1 ltac:(lia)) as [E1 _]; fold c1 in E1; rewrite E1.
    apply xorb_comm.
  - apply lxor_word; [lia | apply rot64_word; (assumption || lia)|].
    apply (theta_c_spec s A _ 0%nat HR H4); lia.
Qed.

Lemma theta_rep s A : rep s A -> rep (theta s) (Theta A).
Proof.
  intros HR; unfold theta; split; [rewrite map_length; apply seq_length|]; split.
  - apply Forall_map_seq; intros i Hi; apply lxor_word; [lia | apply lane_word; apply HR|].
    apply (theta_d_spec s A _ 0%nat HR); lia.
  - intros x y z Hx Hy Hz; unfold lane at 1; rewrite nth_map_seq by lia.
    rewrite Z.lxor_spec; unfold Theta; f_equal; [apply HR; assumption|].
    replace ((5 * y + x) mod 5)%nat with x by lia.
    apply (theta_d_spec s A x z HR); assumption.
Qed.

(** ** rho and pi *)
Lemma list25 (s : list Z) : length s = 25%nat -> exists a0 a1 a2 a3 a4 a5 a6 a7 a8 a9 a10 a11 a12 a13 a14 a15 a16 a17 a18 a19 a20 a21 a22 a23 a24,
  s = [a0; a1; a2; a3; a4; a5; a6; a7; a8; a9; a10; a11; a12; a13; a14; a15; a16; a17; a18; a19; a20; a21; a22; a23; a24].
Proof.
  intros H; do 25 (destruct s as [|? s]; [discriminate H|]); destruct s; [|discriminate H].
  repeat eexists.
Qed.

(** Lane i after the in-place walk comes from lane src, rotated by l. *)
Definition rp_tbl : list (nat * nat) :=
   [(0,0); (6,44); (12,43); (18,21); (24,14);
    (3,28); (9,20); (10,3); (16,45); (22,61);
    (1,1); (7,6); (13,25); (19,8); (20,18);
    (4,27); (5,36); (11,10); (17,15); (23,56);
    (2,62); (8,55); (14,39); (15,41); (21,2)]%nat.
Definition rp_lane (s : list Z) (e : nat * nat) : Z :=
  if Nat.eqb (snd e) 0 then lane s (fst e) else rot64 (lane s (fst e)) (Z.of_nat (snd e)) (Z.of_nat (64 - snd e)).

Lemma rho_pi_lanes s : length s = 25%nat -> rho_pi s = map (rp_lane s) rp_tbl.
Proof.
  intros H; destruct (list25 s H) as (a0 & a1 & a2 & a3 & a4 & a5 & a6 & a7 & a8 & a9 & a10 & a11 & a12 & a13 & a14 & a15 & a16 & a17 & a18 & a19 & a20 & a21 & a22 & a23 & a24 & ->).
  cbv [rho_pi rho_pi_steps fold_left upd lane nth firstn skipn app map Nat.eqb Nat.sub Z.of_nat Pos.of_succ_nat Pos.succ rp_tbl rp_lane fst snd]; reflexivity.
Qed.

(** The table is the composition of the FIPS rho offsets and the pi permutation. *)
Lemma rp_tbl_spec x y : (x < 5)%nat -> (y < 5)%nat ->
  nth (5 * y + x) rp_tbl (0, 0)%nat = (5 * x + (x + 3 * y) mod 5, rho_offset ((x + 3 * y) mod 5) x mod 64)%nat.
Proof.
  intros Hx Hy.
  assert (E : forallb (fun x => forallb (fun y =>
     let e := nth (5 * y + x) rp_tbl (0, 0)%nat in
     Nat.eqb (fst e) (5 * x + (x + 3 * y) mod 5) && Nat.eqb (snd e) (rho_offset ((x + 3 * y) mod 5) x mod 64)) (seq 0 5)) (seq 0 5) = true)
    by (vm_compute; reflexivity).
  rewrite forallb_forall in E; specialize (E x ltac:(apply in_seq; lia)); cbv beta in E.
  rewrite forallb_forall in E; specialize (E y ltac:(apply in_seq; lia)); cbv zeta in E.
  apply andb_true_iff in E; destruct E as [E1 E2]; apply Nat.eqb_eq in E1, E2.
  rewrite (surjective_pairing (nth _ _ _)), E1, E2; reflexivity.
Qed.

Lemma rho_pi_lane s n src l : length s = 25%nat -> (n < 25)%nat -> nth n rp_tbl (0, 0)%nat = (src, l) ->
  lane (rho_pi s) n = rp_lane s (src, l).
Proof.
  intros H Hn E; rewrite rho_pi_lanes by assumption; unfold lane.
  rewrite (nth_indep _ 0 (rp_lane s (0, 0)%nat)) by (rewrite map_length; exact Hn).
  rewrite map_nth, E; reflexivity.
Qed.

Lemma rp_tbl_lt n src l : nth n rp_tbl (0, 0)%nat = (src, l) -> (l < 64)%nat.
Proof.
  intros E; destruct (Nat.lt_ge_cases n (length rp_tbl)) as [H|H].
  - assert (F : forallb (fun e => Nat.ltb (snd e) 64) rp_tbl = true) by (vm_compute; reflexivity).
    rewrite forallb_forall in F; specialize (F _ (nth_In rp_tbl (0, 0)%nat H)); rewrite E in F.
    apply Nat.ltb_lt; exact F.
  - rewrite nth_overflow in E by exact H; injection E as <- <-; lia.
Qed.

Lemma rp_lane_word s src l : Forall (word 64) s -> (l < 64)%nat -> word 64 (rp_lane s (src, l)).
Proof.
  intros HF Hl; unfold rp_lane; cbn [fst snd].
  destruct (Nat.eqb_spec l 0); [apply lane_word; assumption|].
  apply rot64_word; [apply lane_word; assumption | lia].
Qed.
Lemma rp_lane_bit s src l z : Forall (word 64) s -> (l < 64)%nat -> (z < 64)%nat ->
  Z.testbit (rp_lane s (src, l)) (Z.of_nat z) = Z.testbit (lane s src) (Z.of_nat ((z + 64 - l) mod 64)).
Proof.
  intros HF Hl Hz; unfold rp_lane; cbn [fst snd].
  destruct (Nat.eqb_spec l 0) as [->|].
  - replace ((z + 64 - 0) mod 64)%nat with z by lia; reflexivity.
  - apply testbit_rot64; [apply lane_word; assumption | lia | assumption].
Qed.

Lemma rho_pi_rep s A : rep s A -> rep (rho_pi s) (Pi (Rho A)).
Proof.
  intros HR; pose proof HR as (L & HF & HB).
  split; [rewrite rho_pi_lanes by assumption; apply map_length|]; split.
  - rewrite rho_pi_lanes by assumption; apply Forall_map, Forall_forall; intros [src l] He.
    apply (In_nth _ _ (0, 0)%nat) in He; destruct He as (n & _ & E).
    apply rp_lane_word; [assumption | apply (rp_tbl_lt n src); exact E].
  - intros x y z Hx Hy Hz; pose proof (rp_tbl_spec x y Hx Hy) as E.
    rewrite (rho_pi_lane s (5 * y + x) _ _ L ltac:(lia) E).
    rewrite rp_lane_bit by (try assumption; apply (rp_tbl_lt _ _ _ E)).
    unfold Pi, Rho; apply HB; [apply Nat.mod_upper_bound; discriminate | assumption | apply Nat.mod_upper_bound; discriminate].
Qed.

(** ** chi and iota *)
Lemma chi_rep s A : rep s A -> rep (chi s) (Chi A).
Proof.
  intros HR; pose proof HR as (L & HF & HB); unfold chi; split; [rewrite map_length; apply seq_length|]; split.
  - apply Forall_map_seq; intros i Hi; apply lxor_word; [lia | apply lane_word; assumption|].
    apply land_word; [lia | apply (compl_word 64); [lia | apply lane_word; assumption] | apply lane_word; assumption].
  - intros x y z Hx Hy Hz; unfold lane at 1; rewrite nth_map_seq by lia; cbv zeta.
    replace ((5 * y + x) / 5)%nat with y by lia; replace ((5 * y + x) mod 5)%nat with x by lia.
    rewrite Z.lxor_spec, Z.land_spec; fold (compl 64 (lane s (5 * y + (x + 1) mod 5))).
    rewrite compl_testbit by (try (apply lane_word; assumption); lia).
    rewrite (rep_lane s A), !HB by (assumption || lia); unfold Chi.
    replace (Z.of_nat z <? 64) with true by lia; cbn [andb]; rewrite xorb_true_r; reflexivity.
Qed.

Lemma sha3_RC_spec ir z : (ir < 24)%nat -> (z < 64)%nat -> Z.testbit (nth ir sha3_RC 0) (Z.of_nat z) = RC ir z.
Proof.
  intros Hi Hz.
  assert (E : forallb (fun ir => forallb (fun z => Bool.eqb (Z.testbit (nth ir sha3_RC 0) (Z.of_nat z)) (RC ir z)) (seq 0 64)) (seq 0 24) = true)
    by (vm_compute; reflexivity).
  rewrite forallb_forall in E; specialize (E ir ltac:(apply in_seq; lia)); cbv beta in E.
  rewrite forallb_forall in E; specialize (E z ltac:(apply in_seq; lia)); apply eqb_prop; exact E.
Qed.
Lemma sha3_RC_word ir : word 64 (nth ir sha3_RC 0).
Proof.
  apply (lane_word sha3_RC ir), Forall_forall.
  assert (E : forallb (fun x => (0 <=? x) && (x <? 2 ^ 64)) sha3_RC = true) by (vm_compute; reflexivity).
  rewrite forallb_forall in E; intros x Hx; specialize (E x Hx); unfold word; lia.
Qed.

Lemma upd_Forall {A} (P : A -> Prop) l i v : Forall P l -> P v -> Forall P (upd l i v).
Proof.
  intros HF Hv; unfold upd; apply Forall_app; split; [apply Forall_firstn; assumption|].
  pose proof (Forall_skipn P i l HF) as H; destruct (skipn i l) as [|x t]; [constructor|].
  inversion H; constructor; assumption.
Qed.

Lemma iota_rep s A ir : (ir < 24)%nat -> rep s A -> rep (iota s ir) (Iota ir A).
Proof.
  intros Hir HR; pose proof HR as (L & HF & HB); unfold iota; split; [rewrite upd_length; assumption|]; split.
  - apply upd_Forall; [assumption|]; apply lxor_word; [lia | apply lane_word; assumption | apply sha3_RC_word].
  - intros x y z Hx Hy Hz; unfold lane at 1; rewrite nth_upd by lia; unfold Iota.
    destruct x as [|x], y as [|y]; cbn [Nat.eqb andb];
      try (rewrite (proj2 (Nat.eqb_neq _ _)) by lia; apply HB; assumption).
    change (5 * 0 + 0)%nat with 0%nat; cbn [Nat.eqb]; rewrite Z.lxor_spec, sha3_RC_spec by assumption.
    f_equal; apply (HB 0%nat 0%nat z); assumption.
Qed.

Lemma processChunk_rep s A : rep s A -> rep (sha3_processChunk s) (keccak_f A).
Proof.
  intros HR; unfold sha3_processChunk, keccak_f.
  apply (fold_left_sim rep); [|assumption].
  intros a b ir Hin Hab; apply in_seq in Hin; unfold Rnd.
  apply iota_rep; [lia|]; apply chi_rep, rho_pi_rep, theta_rep; assumption.
Qed.
