(** The sponge: absorbing bytes, padding, output. *)
From Verif Require Import Base BaseP S_Word P_Word M_MD P_MD P_MDS M_SHA3 S_SHA3 P_SHA3.

Definition bitof (l : list Z) (i : nat) : bool := Z.testbit (nth (i / 8) l 0) (Z.of_nat (i mod 8)).

Lemma bits_of_length l : length (bits_of l) = (8 * length l)%nat.
Proof. unfold bits_of; induction l as [|b l IH]; [reflexivity|]; cbn [flat_map]; rewrite app_length, IH; cbn [length bits_of_byte map seq]; lia. Qed.
Lemma bits_of_app l m : bits_of (l ++ m) = bits_of l ++ bits_of m.
Proof. apply flat_map_app. Qed.
Lemma bits_of_nth l : forall i, nth i (bits_of l) false = bitof l i.
Proof.
  induction l as [|b l IH]; intros i.
  - unfold bitof; destruct i; cbn [bits_of flat_map nth]; destruct (_ / 8)%nat; cbn [nth]; rewrite ?Z.bits_0; reflexivity.
  - cbn [bits_of flat_map]; fold (bits_of l).
    destruct (Nat.lt_ge_cases i 8) as [H|H].
    + rewrite app_nth1 by exact H; unfold bits_of_byte; rewrite nth_map_seq by exact H; unfold bitof.
      rewrite Nat.div_small, Nat.mod_small by exact H; reflexivity.
    + rewrite app_nth2 by exact H; change (length (bits_of_byte b)) with 8%nat; rewrite IH; unfold bitof.
      replace (i / 8)%nat with (S ((i - 8) / 8)) by lia; cbn [nth]; do 2 f_equal; lia.
Qed.

Lemma bitof_over l i : (length l <= i / 8)%nat -> bitof l i = false.
Proof. intros H; unfold bitof; rewrite nth_overflow by exact H; apply Z.bits_0. Qed.
Lemma bitof_snoc l c i : bitof (l ++ [c]) i =
  if Nat.eqb (i / 8) (length l) then Z.testbit c (Z.of_nat (i mod 8)) else bitof l i.
Proof.
  unfold bitof; destruct (Nat.eqb_spec (i / 8) (length l)) as [E|E].
  - rewrite app_nth2 by lia; rewrite E, Nat.sub_diag; reflexivity.
  - destruct (Nat.lt_ge_cases (i / 8) (length l)) as [H|H].
    + rewrite app_nth1 by exact H; reflexivity.
    + rewrite !nth_overflow; [reflexivity | lia | rewrite app_length; cbn [length]; lia].
Qed.

Lemma rep_ext s A A' : rep s A -> (forall x y z, (x < 5)%nat -> (y < 5)%nat -> (z < 64)%nat -> A x y z = A' x y z) -> rep s A'.
Proof. intros (L & F & B) E; split; [assumption|]; split; [assumption|]; intros; rewrite B by assumption; apply E; assumption. Qed.

Lemma testbit_byte_shift c k z : byte c -> (k < 8)%nat -> (z < 64)%nat ->
  Z.testbit (w64 (Z.shiftl c (Z.of_nat k * 8))) (Z.of_nat z)
  = if Nat.eqb (z / 8) k then Z.testbit c (Z.of_nat (z mod 8)) else false.
Proof.
  intros Hc Hk Hz; unfold w64; rewrite Z.mod_pow2_bits_low, Z.shiftl_spec by lia.
  destruct (Nat.eqb_spec (z / 8) k) as [E|E]; [f_equal; lia|].
  destruct (Nat.lt_ge_cases (z / 8) k) as [H|H]; [apply Z.testbit_neg_r; lia|].
  apply (testbit_high c 8); [exact Hc | lia].
Qed.

Lemma getz_ok {A} (l : list A) i d : 0 <= i < zlen l -> getz l i = Ok (nth (Z.to_nat i) l d).
Proof.
  intros H; unfold getz; rewrite (proj2 (Z.leb_le 0 i)) by lia.
  rewrite (nth_error_nth' l d) by (unfold zlen in H; lia); reflexivity.
Qed.
Lemma setz_ok {A} (l : list A) i v : 0 <= i < zlen l -> setz l i v = Ok (upd l (Z.to_nat i) v).
Proof. intros H; unfold setz; rewrite (proj2 (Z.leb_le 0 i)), (proj2 (Z.ltb_lt i _)) by lia; reflexivity. Qed.

Lemma sha3_xor_rep s A part c : rep s (xor_block A (bits_of part)) -> (length part < 200)%nat -> byte c ->
  exists s', sha3_xor s (zlen part) c = Ok s' /\ rep s' (xor_block A (bits_of (part ++ [c]))).
Proof.
  intros (L & F & B) Hp Hc; unfold sha3_xor.
  set (o := length part) in *; assert (Eo : zlen part / 8 = Z.of_nat (o / 8)) by (unfold zlen; fold o; lia).
  assert (Em : zlen part mod 8 = Z.of_nat (o mod 8)) by (unfold zlen; fold o; lia).
  assert (Hr : 0 <= zlen part / 8 < zlen s) by (rewrite Eo; unfold zlen; rewrite L; lia).
  rewrite (getz_ok s _ 0) by assumption; cbn [bind]; rewrite setz_ok by assumption; rewrite Eo, Em, Nat2Z.id.
  eexists; split; [reflexivity|]; split; [rewrite upd_length; exact L|]; split.
  - apply upd_Forall; [assumption|]; apply lxor_word; [lia | apply (lane_word s); assumption | apply mod_word; lia].
  - intros x y z Hx Hy Hz; unfold lane; rewrite nth_upd by lia.
    unfold xor_block; rewrite bits_of_nth, bitof_snoc; fold o.
    specialize (B x y z Hx Hy Hz); unfold xor_block in B; rewrite bits_of_nth in B.
    set (i := (64 * (5 * y + x) + z)%nat) in *.
    assert (Ei : (i / 8 = 8 * (5 * y + x) + z / 8)%nat) by (unfold i; lia).
    assert (Ej : (i mod 8 = z mod 8)%nat) by (unfold i; lia).
    destruct (Nat.eqb_spec (5 * y + x) (o / 8)) as [En|En].
    + rewrite Z.lxor_spec, testbit_byte_shift by (assumption || lia).
      unfold lane in B; rewrite En in B; rewrite B.
      destruct (Nat.eqb_spec (z / 8) (o mod 8)) as [Ez|Ez].
      * rewrite (proj2 (Nat.eqb_eq (i / 8) o)) by lia; rewrite Ej.
        rewrite bitof_over by (fold o; lia); rewrite xorb_false_r; reflexivity.
      * rewrite (proj2 (Nat.eqb_neq (i / 8) o)) by lia; rewrite xorb_false_r; reflexivity.
    + rewrite (proj2 (Nat.eqb_neq (i / 8) o)) by lia; exact B.
Qed.

Section Sponge.
Variable size : Z.
Hypothesis size_ok : size = 224 \/ size = 256 \/ size = 384 \/ size = 512.
Let R : Z := sha3_rate size.
Let Rn : nat := Z.to_nat R.

Lemma R_facts : R = 144 \/ R = 136 \/ R = 104 \/ R = 72.
Proof. unfold R, sha3_rate; destruct size_ok as [->|[->|[->| ->]]]; vm_compute; auto. Qed.
Lemma R_pos : 0 < R. Proof. pose proof R_facts; lia. Qed.

Definition zeroA : state := fun _ _ _ => false.
Definition absb (A : state) (c : list Z) : state := absorb A (bits_of c).
Definition Abs (m : list Z) : state := fold_left absb (chunks Rn (full R m)) zeroA.

Lemma full_app m d : full R (m ++ d) = full R m ++ full R (rem R m ++ d) /\ rem R (m ++ d) = rem R (rem R m ++ d).
Proof.
  destruct (comp_app R (fun _ w => w) R_pos [] m d) as [_ E]; split; [|exact E].
  apply (app_inv_tail (rem R (m ++ d))); rewrite full_rem.
  rewrite E, <- app_assoc, full_rem, app_assoc, full_rem; reflexivity.
Qed.

Lemma full_mult m : exists k, length (full R m) = (k * Rn)%nat.
Proof. rewrite (full_length R (fun _ w => w) R_pos); exists (length m / Rn)%nat; reflexivity. Qed.

Lemma Abs_app m d : Abs (m ++ d) = fold_left absb (chunks Rn (full R (rem R m ++ d))) (Abs m).
Proof.
  unfold Abs; destruct (full_app m d) as [-> _]; destruct (full_mult m) as [k Hk].
  rewrite (chunks_app_mult Rn k) by (try exact Hk; unfold Rn; pose proof R_pos; lia).
  apply fold_left_app.
Qed.

Definition Inv3 (s : list Z) (m : list Z) : Prop := rep s (xor_block (Abs m) (bits_of (rem R m))).

Lemma Inv3_init : Inv3 (repeat 0 25) [].
Proof.
  unfold Inv3, Abs; rewrite full_small, rem_small by (cbn; pose proof R_pos; lia); cbn [chunks chunks_fuel length fold_left bits_of flat_map].
  split; [reflexivity|]; split.
  - apply Forall_forall; intros x Hx; apply repeat_spec in Hx; subst; unfold word; lia.
  - intros x y z _ _ _; unfold xor_block, zeroA, lane; rewrite nth_repeat, Z.bits_0.
    destruct (64 * (5 * y + x) + z)%nat; reflexivity.
Qed.

Lemma absorb_ext_rep s A P : rep s (xor_block A P) -> rep (sha3_processChunk s) (absorb A P).
Proof. apply processChunk_rep. Qed.

Lemma sha3_loop_ok data : forall s m, Inv3 s m -> bytes data ->
  exists s', sha3_loop size s (zlen (rem R m)) data = Ok s' /\ Inv3 s' (m ++ data).
Proof.
  induction data as [|c data IH]; intros s m HI HB.
  - exists s; rewrite app_nil_r; auto.
  - apply bytes_cons in HB; destruct HB as [Hc HB]; cbn [sha3_loop]; fold R.
    pose proof R_facts as RF; pose proof R_pos as RP.
    pose proof (rem_length_lt R (fun _ w => w) R_pos m) as Hr; fold Rn in Hr.
    assert (HRn : Z.of_nat Rn = R) by (unfold Rn; lia).
    destruct (sha3_xor_rep s (Abs m) (rem R m) c HI) as (s1 & E1 & R1); [lia | assumption |].
    rewrite E1; cbn [bind].
    replace (m ++ c :: data) with ((m ++ [c]) ++ data) by (rewrite <- app_assoc; reflexivity).
    destruct (full_app m [c]) as [_ ER].
    destruct (Z.eqb_spec (zlen (rem R m) + 1) R) as [E|E].
    + assert (L1 : length (rem R m ++ [c]) = Rn) by (rewrite app_length; cbn [length]; unfold zlen in E; lia).
      assert (F1 : full R (rem R m ++ [c]) = rem R m ++ [c]).
      { unfold full, nfull; fold Rn; rewrite L1, Nat.div_same, Nat.mul_1_l by lia; rewrite <- L1; apply firstn_all. }
      assert (M1 : rem R (m ++ [c]) = []).
      { rewrite ER; unfold rem at 1, nfull; fold Rn; rewrite L1, Nat.div_same, Nat.mul_1_l by lia.
        apply skipn_all2; lia. }
      assert (I1 : Inv3 (sha3_processChunk s1) (m ++ [c])).
      { unfold Inv3; rewrite M1, Abs_app, F1.
        rewrite chunks_step by (try lia; intros X; apply (f_equal (@length Z)) in X; rewrite L1 in X; cbn [length] in X; lia).
        rewrite firstn_all2, skipn_all2, chunks_nil by lia; cbn [fold_left].
        eapply rep_ext; [apply (absorb_ext_rep _ _ _ R1)|].
        intros x y z _ _ _; unfold xor_block, absb; cbn [bits_of flat_map].
        destruct (64 * (5 * y + x) + z)%nat; cbn [nth]; rewrite xorb_false_r; reflexivity. }
      replace 0 with (zlen (rem R (m ++ [c]))) by (rewrite M1; reflexivity).
      apply IH; assumption.
    + assert (L1 : (length (rem R m ++ [c]) < Rn)%nat) by (rewrite app_length; cbn [length]; unfold zlen in E; lia).
      assert (M1 : rem R (m ++ [c]) = rem R m ++ [c]) by (rewrite ER; apply rem_small; exact L1).
      assert (I1 : Inv3 s1 (m ++ [c])).
      { unfold Inv3; rewrite M1, Abs_app, full_small by exact L1; exact R1. }
      replace (zlen (rem R m) + 1) with (zlen (rem R (m ++ [c]))) by (rewrite M1, zlen_app; reflexivity).
      apply IH; assumption.
Qed.

Definition InvS (o : sha3state) (m : list Z) : Prop := s3_len o = zlen m /\ Inv3 (s3_s o) m.

Lemma rem_zlen m : zlen m mod R = zlen (rem R m).
Proof. rewrite (zlen_mod R (fun _ w => w) R_pos); reflexivity. Qed.

Lemma sha3_add_ok o m d : InvS o m -> bytes d -> zlen (m ++ d) < 2 ^ 64 ->
  exists o', sha3_add size o d = Ok o' /\ InvS o' (m ++ d).
Proof.
  intros [Hl HI] HB Hlt; unfold sha3_add; fold R; rewrite Hl, rem_zlen.
  destruct (sha3_loop_ok d _ m HI HB) as (s' & E & I'); rewrite E; cbn [bind].
  eexists; split; [reflexivity|]; split; [|exact I']; cbn [s3_len].
  rewrite <- zlen_app; apply w64_small; pose proof (zlen_nonneg (m ++ d)); lia.
Qed.

(** ** Padding *)
Definition pad8 (q : nat) : list Z :=
  match q with
  | 0%nat => [] | 1%nat => [0x86] | S (S k) => 0x06 :: repeat 0 k ++ [0x80]
  end.
Lemma bits_of_zeros k : bits_of (repeat 0 k) = repeat false (8 * k).
Proof.
  induction k as [|k IH]; [reflexivity|].
  replace (8 * S k)%nat with (8 + 8 * k)%nat by lia; rewrite repeat_app, <- IH; reflexivity.
Qed.
Lemma pad8_bits q : (0 < q)%nat -> bits_of (pad8 q) = [false; true; true] ++ repeat false (8 * q - 4) ++ [true].
Proof.
  intros Hq; destruct q as [|[|k]]; [lia | reflexivity|].
  unfold pad8; change (0x06 :: repeat 0 k ++ [0x80]) with ([0x06] ++ repeat 0 k ++ [0x80]).
  rewrite !bits_of_app, bits_of_zeros.
  replace (8 * S (S k) - 4)%nat with (5 + (8 * k + 7))%nat by lia.
  rewrite !repeat_app, <- !app_assoc; reflexivity.
Qed.
Lemma pad8_length q : length (pad8 q) = q.
Proof. destruct q as [|[|k]]; [reflexivity | reflexivity |]; cbn [pad8 length]; rewrite app_length, repeat_length; cbn [length]; lia. Qed.

Lemma spec_padding m : let q := (Rn - length (rem R m))%nat in
  (bits_of m ++ [false; true]) ++ pad101 (Z.to_nat (8 * R)) (length (bits_of m ++ [false; true])) = bits_of (m ++ pad8 q).
Proof.
  intros q; pose proof R_pos as RP; pose proof (rem_length_lt R (fun _ w => w) R_pos m) as Hr; fold Rn in Hr.
  assert (Hq : (0 < q <= Rn)%nat) by (unfold q; lia).
  rewrite bits_of_app, (pad8_bits q) by lia.
  unfold pad101; rewrite <- app_assoc; cbn [app]; do 5 f_equal; f_equal.
  rewrite app_length, bits_of_length; cbn [length].
  pose proof (rem_zlen m) as RZ; unfold zlen in RZ.
  assert (HRn : Z.of_nat Rn = R) by (unfold Rn; lia).
  pose proof (Z.div_mod (Z.of_nat (length m)) R ltac:(lia)) as DM.
  rewrite Z2Nat.id by lia.
  symmetry; apply Nat2Z.inj; rewrite Z2Nat.id by (apply Z.mod_pos_bound; lia).
  apply Z.mod_unique with (q := - (Z.of_nat (length m) / R) - 1); unfold q in *; [lia|].
  rewrite RZ in DM; nia.
Qed.

Lemma chunks_bits n k : forall l : list Z, (0 < n)%nat -> length l = (k * n)%nat ->
  chunks (8 * n) (bits_of l) = map bits_of (chunks n l).
Proof.
  induction k as [|k IH]; intros l Hn Hl.
  - destruct l; [reflexivity | cbn in Hl; lia].
  - assert (Hne : l <> []) by (intros ->; cbn in Hl; lia).
    rewrite (chunks_step n l Hn Hne); cbn [map].
    rewrite <- IH by (try assumption; rewrite skipn_length; lia).
    rewrite <- (firstn_skipn n l) at 1; rewrite bits_of_app.
    apply chunks_app_full; [lia | rewrite bits_of_length, firstn_length; lia].
Qed.

Lemma fold_left_map {A B C} (f : A -> B -> A) (g : C -> B) l a : fold_left f (map g l) a = fold_left (fun a c => f a (g c)) l a.
Proof. revert a; induction l; intros; cbn [map fold_left]; auto. Qed.

Lemma sponge_spec m : let q := (Rn - length (rem R m))%nat in
  sponge (Z.to_nat (8 * R)) (bits_of m ++ [false; true]) = absorb (Abs m) (bits_of (rem R m ++ pad8 q)).
Proof.
  intros q; unfold sponge; pose proof R_pos as RP; pose proof (rem_length_lt R (fun _ w => w) R_pos m) as Hr; fold Rn in Hr.
  rewrite spec_padding; fold q.
  assert (L1 : length (rem R m ++ pad8 q) = Rn) by (rewrite app_length, pad8_length; unfold q; lia).
  destruct (full_mult m) as [k Hk].
  assert (Em : m ++ pad8 q = full R m ++ (rem R m ++ pad8 q)) by (rewrite app_assoc, full_rem; reflexivity).
  replace (Z.to_nat (8 * R)) with (8 * Rn)%nat by (unfold Rn; lia).
  rewrite (chunks_bits Rn (k + 1)) by (try (rewrite Em, app_length, Hk, L1); lia).
  rewrite fold_left_map; change (fun (a : state) c => absorb a (bits_of c)) with absb.
  rewrite Em, (chunks_app_mult Rn k) by (try exact Hk; lia); rewrite fold_left_app.
  rewrite (chunks_step Rn (rem R m ++ pad8 q)) by (try lia; intros X; rewrite X in L1; cbn [length] in L1; lia).
  rewrite firstn_all2, skipn_all2, chunks_nil by lia; reflexivity.
Qed.

Lemma pad8_bitof l q i : (0 < q)%nat ->
  bitof (l ++ pad8 q) i = xorb (bitof (l ++ [0x06]) i) (Nat.eqb i (8 * (length l + q) - 1)).
Proof.
  intros Hq; destruct q as [|[|k]]; [lia| |].
  - cbn [pad8]; rewrite !bitof_snoc.
    destruct (Nat.eqb_spec (i / 8) (length l)) as [E|E].
    + assert (Hm : (i mod 8 < 8)%nat) by lia.
      replace (Nat.eqb i (8 * (length l + 1) - 1)) with (Nat.eqb (i mod 8) 7)
        by (destruct (Nat.eqb_spec (i mod 8) 7), (Nat.eqb_spec i (8 * (length l + 1) - 1)); (reflexivity || lia)).
      remember (i mod 8)%nat as j eqn:Ej; clear Ej E.
      do 8 (destruct j as [|j]; [reflexivity|]); lia.
    + replace (Nat.eqb i (8 * (length l + 1) - 1)) with false
        by (symmetry; apply Nat.eqb_neq; lia); rewrite xorb_false_r; reflexivity.
  - cbn [pad8]; change (l ++ 0x06 :: repeat 0 k ++ [0x80]) with (l ++ [0x06] ++ repeat 0 k ++ [0x80]).
    rewrite !app_assoc, bitof_snoc, !app_length, repeat_length; cbn [length].
    set (l6 := l ++ [0x06]); assert (L6 : length l6 = (length l + 1)%nat) by (unfold l6; rewrite app_length; reflexivity).
    assert (Z0 : bitof (l6 ++ repeat 0 k) i = bitof l6 i).
    { unfold bitof; destruct (Nat.lt_ge_cases (i / 8) (length l6)) as [H|H].
      - rewrite app_nth1 by exact H; reflexivity.
      - rewrite app_nth2 by exact H; rewrite nth_repeat, (nth_overflow l6) by exact H; reflexivity. }
    destruct (Nat.eqb_spec (i / 8) (length l + 1 + k)) as [E|E].
    + rewrite (bitof_over l6) by lia; rewrite xorb_false_l.
      replace (Nat.eqb i (8 * (length l + S (S k)) - 1)) with (Nat.eqb (i mod 8) 7)
        by (destruct (Nat.eqb_spec (i mod 8) 7), (Nat.eqb_spec i (8 * (length l + S (S k)) - 1)); (reflexivity || lia)).
      assert (Hm : (i mod 8 < 8)%nat) by lia.
      remember (i mod 8)%nat as j eqn:Ej; clear Ej E.
      do 8 (destruct j as [|j]; [reflexivity|]); lia.
    + rewrite Z0; replace (Nat.eqb i (8 * (length l + S (S k)) - 1)) with false
        by (symmetry; apply Nat.eqb_neq; lia); rewrite xorb_false_r; reflexivity.
Qed.

(** ** Output *)
Lemma low_bits n : forall v, fold_right (fun (j : nat) acc => Z.b2z (Z.testbit v (Z.of_nat j)) + 2 * acc) 0 (seq 0 n) = v mod 2 ^ Z.of_nat n.
Proof.
  induction n as [|n IH]; intros v; [rewrite Z.mod_1_r; reflexivity|].
  cbn [seq fold_right]; rewrite <- seq_shift.
  replace (fold_right (fun (j : nat) (acc : Z) => Z.b2z (Z.testbit v (Z.of_nat j)) + 2 * acc) 0 (map S (seq 0 n)))
    with (fold_right (fun (j : nat) (acc : Z) => Z.b2z (Z.testbit (v / 2) (Z.of_nat j)) + 2 * acc) 0 (seq 0 n)).
  - rewrite IH, Nat2Z.inj_succ, Z.pow_succ_r by lia.
    rewrite Z.rem_mul_r by (try apply Z.pow_pos_nonneg; lia).
    change (Z.of_nat 0) with 0; rewrite Z.bit0_mod; reflexivity.
  - generalize (seq 0 n) as l; induction l as [|j l IHl]; [reflexivity|]; cbn [map fold_right]; rewrite IHl.
    rewrite Nat2Z.inj_succ; do 2 f_equal.
    rewrite <- Z.div2_div, Z.div2_spec, Z.shiftr_spec by lia; f_equal; lia.
Qed.

Lemma byte_at_rep s A n : rep s A -> (n < 200)%nat ->
  w8 (Z.shiftr (lane s (n / 8)) (8 * Z.of_nat (n mod 8))) = byte_at A n.
Proof.
  intros (_ & _ & B) Hn; unfold byte_at, w8; change 256 with (2 ^ Z.of_nat 8).
  rewrite <- low_bits.
  assert (G : forall l, Forall (fun j => (j < 8)%nat) l ->
    fold_right (fun (j : nat) acc => Z.b2z (Z.testbit (Z.shiftr (lane s (n / 8)) (8 * Z.of_nat (n mod 8))) (Z.of_nat j)) + 2 * acc) 0 l
    = fold_right (fun (j : nat) acc => Z.b2z (A ((n / 8) mod 5) (n / 8 / 5) (8 * (n mod 8) + j))%nat + 2 * acc) 0 l).
  { induction 1 as [|j l Hj _ IH]; [reflexivity|]; cbn [fold_right]; rewrite IH; do 2 f_equal.
    rewrite Z.shiftr_spec by lia.
    rewrite <- (B ((n / 8) mod 5) (n / 8 / 5) (8 * (n mod 8) + j))%nat by lia.
    f_equal; [f_equal; lia | lia]. }
  apply G; repeat constructor.
Qed.

Lemma lane_top_rep s A P : rep s (xor_block A P) -> let n := (Z.to_nat (R / 8 - 1)) in
  rep (upd s n (Z.lxor (lane s n) 0x8000000000000000)) (fun x y z => xorb (xor_block A P x y z) (Nat.eqb (64 * (5 * y + x) + z) (8 * Rn - 1))).
Proof.
  intros (L & F & B) n; pose proof R_facts as RF.
  assert (Hn : (n < 25)%nat) by (unfold n; lia).
  split; [rewrite upd_length; exact L|]; split.
  - apply upd_Forall; [assumption|]; apply lxor_word; [lia | apply lane_word; assumption | unfold word; lia].
  - intros x y z Hx Hy Hz; unfold lane at 1; rewrite nth_upd by lia; specialize (B x y z Hx Hy Hz).
    destruct (Nat.eqb_spec (5 * y + x) n) as [E|E].
    + rewrite <- E, Z.lxor_spec, B; f_equal.
      change 0x8000000000000000 with (2 ^ 63).
      destruct (Nat.eqb_spec (64 * (5 * y + x) + z) (8 * Rn - 1)) as [E2|E2].
      * replace (Z.of_nat z) with 63 by (unfold n, Rn in *; lia); reflexivity.
      * apply Z.pow2_bits_false; unfold n, Rn in *; lia.
    + fold (lane s (5 * y + x)); rewrite B.
      rewrite (proj2 (Nat.eqb_neq (64 * (5 * y + x) + z) (8 * Rn - 1))) by (unfold n, Rn in *; lia).
      rewrite xorb_false_r; reflexivity.
Qed.

Lemma sha3_digest_ok o m : InvS o m -> sha3_digest size o = Ok (sha3 (Z.to_nat size) m).
Proof.
  intros [Hl HI]; unfold sha3_digest; fold R; rewrite Hl, rem_zlen.
  pose proof R_facts as RF; pose proof (rem_length_lt R (fun _ w => w) R_pos m) as Hr; fold Rn in Hr.
  destruct (sha3_xor_rep (s3_s o) (Abs m) (rem R m) 0x06 HI) as (s1 & E1 & R1);
    [unfold Rn in Hr; lia | unfold byte; lia |].
  rewrite E1; cbn [bind].
  assert (L1 : zlen s1 = 25) by (unfold zlen; destruct R1 as [-> _]; reflexivity).
  rewrite (getz_ok s1 _ 0) by lia; cbn [bind]; rewrite setz_ok by lia; cbn [bind]; f_equal.
  pose proof (lane_top_rep s1 (Abs m) _ R1) as R2; cbv zeta in R2.
  set (q := (Rn - length (rem R m))%nat).
  assert (R3 : rep (upd s1 (Z.to_nat (R / 8 - 1)) (Z.lxor (lane s1 (Z.to_nat (R / 8 - 1))) 0x8000000000000000))
                   (xor_block (Abs m) (bits_of (rem R m ++ pad8 q)))).
  { eapply rep_ext; [exact R2|]; intros x y z _ _ _; unfold xor_block; rewrite !bits_of_nth.
    rewrite (pad8_bitof (rem R m) q) by (unfold q; lia).
    rewrite xorb_assoc; do 3 f_equal; unfold q; lia. }
  apply processChunk_rep in R3; fold (absorb (Abs m) (bits_of (rem R m ++ pad8 q))) in R3.
  unfold sha3.
  replace (1600 - 2 * Z.to_nat size)%nat with (Z.to_nat (8 * R))
    by (unfold R, sha3_rate; destruct size_ok as [Hs|[Hs|[Hs|Hs]]]; rewrite Hs; reflexivity).
  rewrite sponge_spec; fold q.
  replace (Z.to_nat (size / 8)) with (Z.to_nat size / 8)%nat by (destruct size_ok as [Hs|[Hs|[Hs|Hs]]]; rewrite Hs; reflexivity).
  apply map_ext_in; intros n Hn; apply in_seq in Hn.
  apply byte_at_rep; [exact R3|].
  destruct size_ok as [Hs|[Hs|[Hs|Hs]]]; rewrite Hs in Hn; lia.
Qed.
End Sponge.
