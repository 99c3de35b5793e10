From Verif Require Import Base BaseP M_CRC S_CRC.

Definition T (x : Z) : Z := if Z.odd x then Z.lxor (x / 2) 0xEDB88320 else x / 2.

Lemma clock_T s b : clock s b = T (Z.lxor s (Z.b2z b)).
Proof. reflexivity. Qed.

Lemma T_lin x y : T (Z.lxor x y) = Z.lxor (T x) (T y).
Proof.
  unfold T.
  assert (O : Z.odd (Z.lxor x y) = xorb (Z.odd x) (Z.odd y)) by (rewrite <- !Z.bit0_odd; apply Z.lxor_spec).
  assert (D : Z.lxor x y / 2 = Z.lxor (x / 2) (y / 2))
    by (change 2 with (2 ^ 1); rewrite <- !Z.shiftr_div_pow2 by lia; apply Z.shiftr_lxor).
  rewrite O, D; set (p := 0xEDB88320); destruct (Z.odd x), (Z.odd y); cbn [xorb].
  - rewrite <- Z.lxor_assoc, (Z.lxor_assoc (x / 2) p), (Z.lxor_comm p (y / 2)), Z.lxor_assoc.
    rewrite Z.lxor_assoc, Z.lxor_nilpotent, Z.lxor_0_r; reflexivity.
  - rewrite !Z.lxor_assoc; f_equal; apply Z.lxor_comm.
  - rewrite Z.lxor_assoc; reflexivity.
  - reflexivity.
Qed.

Lemma T_double y : T (2 * y) = y.
Proof. unfold T; rewrite Z.odd_mul; cbn [Z.odd andb]; rewrite Z.mul_comm, Z.div_mul by lia; reflexivity. Qed.

Fixpoint Tn (n : nat) (x : Z) : Z := match n with O => x | S k => Tn k (T x) end.
Lemma Tn_lin n x y : Tn n (Z.lxor x y) = Z.lxor (Tn n x) (Tn n y).
Proof. revert x y; induction n as [|n IH]; intros x y; cbn [Tn]; [reflexivity | rewrite T_lin; apply IH]. Qed.
Lemma Tn_pow n y : Tn n (2 ^ Z.of_nat n * y) = y.
Proof.
  induction n as [|n IH]; cbn [Tn]; [lia|].
  replace (2 ^ Z.of_nat (S n) * y) with (2 * (2 ^ Z.of_nat n * y))
    by (replace (Z.of_nat (S n)) with (Z.of_nat n + 1) by lia; rewrite Z.pow_add_r by lia; lia).
  rewrite T_double; apply IH.
Qed.
Lemma Tn_plus n m x : Tn (n + m) x = Tn m (Tn n x).
Proof. revert x; induction n as [|n IH]; intros x; cbn [Tn Nat.add]; auto. Qed.

Lemma T_range x : 0 <= x < 2 ^ 32 -> 0 <= T x < 2 ^ 32.
Proof.
  intros H; unfold T; destruct (Z.odd x).
  - apply lxor_range; [lia | | lia]; zdm.
  - zdm.
Qed.
Lemma Tn_range n x : 0 <= x < 2 ^ 32 -> 0 <= Tn n x < 2 ^ 32.
Proof. revert x; induction n as [|n IH]; intros x H; cbn [Tn]; auto using T_range. Qed.

Lemma T_bit31 x : 0 <= x < 2 ^ 32 -> Z.testbit (T x) 31 = Z.odd x.
Proof.
  intros H; unfold T.
  assert (B : Z.testbit (x / 2) 31 = false) by (apply (testbit_high _ 31); zdm).
  destruct (Z.odd x); [|exact B].
  rewrite Z.lxor_spec, B; reflexivity.
Qed.
Lemma T_zero x : 0 <= x < 2 ^ 32 -> T x = 0 -> x = 0.
Proof.
  intros H E; pose proof (T_bit31 x H) as B; rewrite E, Z.bits_0 in B.
  unfold T in E; rewrite <- B in E.
  pose proof (Z.odd_spec x); pose proof (Zodd_mod x) as M.
  assert (x mod 2 = 0) by (rewrite Zmod_odd, <- B; reflexivity); zdm.
Qed.
Lemma Tn_zero n x : 0 <= x < 2 ^ 32 -> Tn n x = 0 -> x = 0.
Proof. revert x; induction n as [|n IH]; intros x H E; cbn [Tn] in E; auto using T_zero, T_range. Qed.
Lemma Tn_inj n x y : 0 <= x < 2 ^ 32 -> 0 <= y < 2 ^ 32 -> Tn n x = Tn n y -> x = y.
Proof.
  intros Hx Hy E; apply Z.lxor_eq, (Tn_zero n); [apply lxor_range; lia|].
  rewrite Tn_lin, E; apply Z.lxor_nilpotent.
Qed.

Fixpoint bval (l : list bool) : Z := match l with [] => 0 | b :: t => Z.b2z b + 2 * bval t end.
Lemma bval_range l : 0 <= bval l < 2 ^ zlen l.
Proof.
  induction l as [|b l IH]; cbn [bval]; [cbn; lia|].
  rewrite zlen_cons, Z.pow_add_r by (pose proof (zlen_nonneg l); lia); destruct b; cbn [Z.b2z]; lia.
Qed.
Lemma bval_inj l m : length l = length m -> bval l = bval m -> l = m.
Proof.
  revert m; induction l as [|a l IH]; intros [|b m] H E; cbn [length bval] in *; try congruence.
  destruct a, b; cbn [Z.b2z] in E; try lia; f_equal; apply IH; lia.
Qed.

Lemma b2z_double b v : Z.b2z b + 2 * v = Z.lxor (Z.b2z b) (2 * v).
Proof.
  rewrite Z.add_comm, Z.lxor_comm, (Z.mul_comm 2); change (v * 2) with (v * 2 ^ 1).
  rewrite <- Z.add_nocarry_lxor; [reflexivity|].
  apply Z.bits_inj'; intros i Hi; rewrite Z.land_spec, Z.bits_0.
  destruct (Z.lt_ge_cases i 1) as [H|H]; [rewrite Z.mul_pow2_bits_low by assumption; reflexivity|].
  destruct b; cbn [Z.b2z]; [|rewrite Z.bits_0; apply andb_false_r].
  rewrite (testbit_high 1 1) by lia; apply andb_false_r.
Qed.

Lemma fold_clock l s : fold_left clock l s = Tn (length l) (Z.lxor s (bval l)).
Proof.
  revert s; induction l as [|b l IH]; intros s; cbn [fold_left length Tn bval].
  - rewrite Z.lxor_0_r; reflexivity.
  - rewrite IH, clock_T, b2z_double; f_equal.
    rewrite <- Z.lxor_assoc, (T_lin (Z.lxor s (Z.b2z b))), T_double; reflexivity.
Qed.

Lemma byte_bits_val b : byte b -> bval (byte_bits b) = b.
Proof.
  intros H.
  assert (G : forallb (fun b => bval (byte_bits b) =? b) (map Z.of_nat (seq 0 256)) = true) by (vm_compute; reflexivity).
  rewrite forallb_forall in G; apply Z.eqb_eq, G, in_map_iff; exists (Z.to_nat b).
  unfold byte in H; split; [lia | apply in_seq; lia].
Qed.

Lemma table_T lo : byte lo -> nth (Z.to_nat lo) crcTable 0 = Tn 8 lo.
Proof.
  intros H.
  assert (G : forallb (fun b => nth (Z.to_nat b) crcTable 0 =? Tn 8 b) (map Z.of_nat (seq 0 256)) = true) by (vm_compute; reflexivity).
  rewrite forallb_forall in G; apply Z.eqb_eq, G, in_map_iff; exists (Z.to_nat lo).
  unfold byte in H; split; [lia | apply in_seq; lia].
Qed.

Lemma crc_step_clock h b : 0 <= h -> byte b -> crc_step h b = fold_left clock (byte_bits b) h.
Proof.
  intros Hh Hb; rewrite fold_clock, byte_bits_val by assumption; unfold crc_step.
  change (length (byte_bits b)) with 8%nat.
  change 0xFF with 255; rewrite land_0xff; set (x := Z.lxor h b).
  assert (Hx : 0 <= x) by (apply Z.lxor_nonneg; unfold byte in Hb; lia).
  assert (E : x = Z.lxor (2 ^ Z.of_nat 8 * (x / 256)) (x mod 256)).
  { change (2 ^ Z.of_nat 8) with (2 ^ 8); rewrite (Z.mul_comm (2 ^ 8)), lxor_disjoint_add by zdm.
    change (2 ^ 8) with 256; rewrite Z.mul_comm; apply Z.div_mod; lia. }
  rewrite E at 2; rewrite Tn_lin, Tn_pow, table_T by (apply Z.mod_pos_bound; lia).
  f_equal; rewrite Z.shiftr_div_pow2 by lia; unfold x.
  change 256 with (2 ^ 8); rewrite <- !Z.shiftr_div_pow2, Z.shiftr_lxor by lia.
  rewrite (Z.shiftr_div_pow2 b 8), (Z.div_small b) by (unfold byte in Hb; lia); rewrite Z.lxor_0_r; reflexivity.
Qed.

Lemma clock_range s b : 0 <= s < 2 ^ 32 -> 0 <= clock s b < 2 ^ 32.
Proof. intros H; rewrite clock_T; apply T_range, lxor_range; destruct b; cbn [Z.b2z]; lia. Qed.
Lemma fold_clock_range l s : 0 <= s < 2 ^ 32 -> 0 <= fold_left clock l s < 2 ^ 32.
Proof. revert s; induction l as [|b l IH]; intros s H; cbn [fold_left]; auto using clock_range. Qed.

Lemma crc_add_clock m h : 0 <= h < 2 ^ 32 -> bytes m -> crc_add h m = fold_left clock (msg_bits m) h.
Proof.
  revert h; induction m as [|b m IH]; intros h Hh H; [reflexivity|].
  apply bytes_cons in H; destruct H as [Hb Hm]; unfold crc_add, msg_bits in *; cbn [fold_left flat_map].
  rewrite fold_left_app, crc_step_clock by (auto; lia); apply IH; auto using fold_clock_range.
Qed.

Lemma crc_add_pieces ps h : fold_left crc_add ps h = crc_add h (concat ps).
Proof.
  revert h; induction ps as [|p ps IH]; intros h; cbn [fold_left concat]; [reflexivity|].
  rewrite IH; unfold crc_add; rewrite fold_left_app; reflexivity.
Qed.

Lemma crc_digest_be h : 0 <= h < 2 ^ 32 -> crc_digest h = be_bytes 4 (Z.lxor h 0xFFFFFFFF).
Proof.
  intros H; unfold crc_digest, be_bytes; cbn [map le_bytes rev app].
  change 0xFF with 255; rewrite !land_0xff, !Z.shiftr_div_pow2 by lia.
  set (x := Z.lxor h 0xFFFFFFFF); assert (Hx : 0 <= x < 2 ^ 32) by (apply lxor_range; lia).
  clearbody x; f_equal; try zdm; f_equal; try zdm; f_equal; try zdm; f_equal; zdm.
Qed.

Lemma crc_stream pieces : Forall bytes pieces ->
  crc_digest (fold_left crc_add pieces crc_init) = be_bytes 4 (crc32 (concat pieces)).
Proof.
  intros H; rewrite crc_add_pieces.
  assert (Hb : bytes (concat pieces)).
  { induction H as [|p ps Hp Hps IH]; cbn [concat]; [constructor | apply bytes_app; auto]. }
  rewrite crc_add_clock by (auto; unfold crc_init; lia).
  rewrite crc_digest_be by (apply fold_clock_range; unfold crc_init; lia); reflexivity.
Qed.

Lemma crc32_range m : 0 <= crc32 m < 2 ^ 32.
Proof. unfold crc32; apply lxor_range; [lia | | lia]; apply fold_clock_range; lia. Qed.

Lemma lxor_cancel_r a b c : Z.lxor a c = Z.lxor b c -> a = b.
Proof.
  intros E; rewrite <- (Z.lxor_0_r a), <- (Z.lxor_0_r b), <- (Z.lxor_nilpotent c), <- !Z.lxor_assoc, E; reflexivity.
Qed.

Lemma crc32_burst m1 m2 pre w1 w2 post :
  msg_bits m1 = pre ++ w1 ++ post -> msg_bits m2 = pre ++ w2 ++ post ->
  length w1 = length w2 -> (length w1 <= 32)%nat -> w1 <> w2 -> crc32 m1 <> crc32 m2.
Proof.
  intros E1 E2 L L32 N E; unfold crc32 in E; apply lxor_cancel_r in E.
  rewrite E1, E2, !fold_left_app in E.
  set (s := fold_left clock pre 0xFFFFFFFF) in E.
  assert (Hs : 0 <= s < 2 ^ 32) by (apply fold_clock_range; lia).
  assert (R1 : forall w, (length w <= 32)%nat -> 0 <= bval w < 2 ^ 32).
  { intros w Hw; pose proof (bval_range w) as B.
    assert (2 ^ zlen w <= 2 ^ 32) by (apply Z.pow_le_mono_r; unfold zlen; lia); lia. }
  rewrite !(fold_clock post) in E.
  assert (G : fold_left clock w1 s = fold_left clock w2 s).
  { set (c := bval post) in *.
    rewrite !Tn_lin in E; apply lxor_cancel_r in E.
    apply Tn_inj in E; auto using fold_clock_range. }
  rewrite !fold_clock, L in G; apply Tn_inj in G.
  - apply N, bval_inj; [exact L|].
    rewrite (Z.lxor_comm s (bval w1)), (Z.lxor_comm s (bval w2)) in G; apply lxor_cancel_r in G; exact G.
  - apply lxor_range; try lia; apply R1; lia.
  - apply lxor_range; try lia; apply R1; lia.
Qed.

Lemma crc_digest_burst m1 m2 pre w1 w2 post : bytes m1 -> bytes m2 ->
  msg_bits m1 = pre ++ w1 ++ post -> msg_bits m2 = pre ++ w2 ++ post ->
  length w1 = length w2 -> (length w1 <= 32)%nat -> w1 <> w2 ->
  crc_digest (crc_add crc_init m1) <> crc_digest (crc_add crc_init m2).
Proof.
  intros B1 B2 E1 E2 L L32 N E.
  pose proof (crc_stream [m1] (Forall_cons _ B1 (Forall_nil _))) as C1.
  pose proof (crc_stream [m2] (Forall_cons _ B2 (Forall_nil _))) as C2.
  cbn [fold_left concat] in C1, C2; rewrite app_nil_r in C1, C2; rewrite C1, C2 in E.
  apply (f_equal be_val) in E; rewrite !be_val_bytes in E by apply crc32_range.
  exact (crc32_burst m1 m2 pre w1 w2 post E1 E2 L L32 N E).
Qed.
