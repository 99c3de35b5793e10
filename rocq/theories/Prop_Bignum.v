(** Property theorems for the big integers (C39 - C45, C79).
    [bn n l]: l is the word array of a bignum<32*n>; [val l] is its number. *)
From Verif Require Import Base BaseP S_Bignum M_Bignum P_Bignum.
Open Scope Z_scope.

(** ** C39 *)
Theorem C39_add : forall n a b, bn n a -> bn n b ->
  bn n (snd (add a b)) /\ val (snd (add a b)) = (val a + val b) mod 2 ^ (32 * Z.of_nat n)
  /\ (fst (add a b) = true <-> 2 ^ (32 * Z.of_nat n) <= val a + val b).
Proof.
  intros n a b Ha Hb; destruct (add_val n a b Ha Hb) as (H & V & C); rewrite C; repeat split; try apply H; try exact V; lia.
Qed.
Print Assumptions C39_add.
Theorem C39_sub : forall n a b, bn n a -> bn n b ->
  bn n (snd (sub a b)) /\ val (snd (sub a b)) = (val a - val b) mod 2 ^ (32 * Z.of_nat n)
  /\ (fst (sub a b) = true <-> val a < val b).
Proof.
  intros n a b Ha Hb; destruct (sub_val n a b Ha Hb) as (H & V & C); rewrite C; repeat split; try apply H; try exact V; lia.
Qed.
Print Assumptions C39_sub.
Theorem C39_mul : forall n a b, bn n a -> bn n b ->
  exists r, mul (32 * Z.of_nat n) a b = Ok r /\ bn (2 * n) r /\ val r = val a * val b.
Proof.
  intros n a b Ha Hb; destruct (mul_ok n a b Ha Hb) as (r & E & H & V); exists r.
  replace (2 * n)%nat with (n + n)%nat by lia; auto.
Qed.
Print Assumptions C39_mul.
Theorem C39_mul_word : forall n a w, bn n a -> 0 <= w < 2 ^ 32 -> bn (S n) (mul32 a w) /\ val (mul32 a w) = val a * w.
Proof. exact mul32_ok. Qed.
Print Assumptions C39_mul_word.
(** Finding: at widths that are not multiples of 32 bits the product is written past the result. *)
Theorem C39_mul_odd_width_refuted : exists a b, bn (Z.to_nat (nwords 33)) a /\ bn (Z.to_nat (nwords 33)) b /\ mul 33 a b = UB.
Proof. exists [1; 1], [1; 1]; repeat split; repeat constructor; vm_compute; discriminate || reflexivity. Qed.
Print Assumptions C39_mul_odd_width_refuted.
Example C39_case : add [0xffffffff; 0xffffffff] [1; 0] = (true, [0; 0])
  /\ sub [0; 0] [1; 0] = (true, [0xffffffff; 0xffffffff])
  /\ mul 64 [0xffffffff; 0xffffffff] [0xffffffff; 0xffffffff] = Ok [1; 0; 0xfffffffe; 0xffffffff].
Proof. repeat split. Qed.

(** ** C40 *)
Theorem C40_order : forall n a b, bn n a -> bn n b ->
  (lt_ a b = true <-> val a < val b) /\ (eq_ a b = true <-> val a = val b).
Proof. intros n a b Ha Hb; rewrite (lt_ok n), (eq_ok n) by assumption; rewrite Z.ltb_lt, Z.eqb_eq; split; reflexivity. Qed.
Print Assumptions C40_order.
Example C40_case : lt_ [5; 1] [4; 2] = true /\ lt_ [4; 2] [5; 1] = false /\ eq_ [5; 1] [5; 1] = true.
Proof. repeat split. Qed.

(** ** C41 *)
Theorem C41_bytes : forall n data, bytes data -> length data = (4 * n)%nat ->
  exists r, of_bytes (32 * Z.of_nat n) data = Ok r /\ bn n r /\ val r = le_val data /\ as_bytes r = data.
Proof.
  intros n data HD HL; destruct (of_bytes_ok n data HD) as (r & E & H & V); exists r; split; [exact E|]; split; [exact H|].
  rewrite <- HL, firstn_all in V; split; [exact V|].
  destruct (as_bytes_ok n r H) as (HB & LB & VB).
  rewrite <- (le_bytes_val (as_bytes r) HB), <- (le_bytes_val data HD), LB, VB, V, HL; reflexivity.
Qed.
Print Assumptions C41_bytes.
(** Shorter strings are zero extended, longer ones cut. *)
Theorem C41_any_length : forall n data, bytes data ->
  exists r, of_bytes (32 * Z.of_nat n) data = Ok r /\ bn n r /\ val r = le_val data mod 2 ^ (32 * Z.of_nat n).
Proof.
  intros n data HD; destruct (of_bytes_ok n data HD) as (r & E & H & V); exists r; split; [exact E|]; split; [exact H|].
  rewrite V. rewrite <- (firstn_skipn (4 * n) data) at 2. rewrite le_val_app.
  assert (P : 2 ^ (32 * Z.of_nat n) = 256 ^ Z.of_nat (4 * n)) by (change 256 with (2 ^ 8); rewrite <- Z.pow_mul_r by lia; f_equal; lia).
  destruct (Nat.le_gt_cases (4 * n) (length data)) as [C|C].
  - replace (zlen (firstn (4 * n) data)) with (Z.of_nat (4 * n)) by (unfold zlen; rewrite firstn_length_le by exact C; reflexivity).
    rewrite P, Z.mul_comm, Z.mod_add by (apply Z.pow_nonzero; lia). symmetry; apply Z.mod_small.
    pose proof (le_val_range (firstn (4 * n) data) (bytes_firstn _ _ HD)) as R. unfold zlen in R; rewrite firstn_length_le in R by exact C; exact R.
  - rewrite skipn_all2 by lia; cbn [le_val]; rewrite Z.mul_0_r, Z.add_0_r; symmetry; apply Z.mod_small.
    pose proof (bn_range n r H); lia.
Qed.
Print Assumptions C41_any_length.
Theorem C41_as_bytes : forall n l, bn n l -> as_bytes l = le_bytes (4 * n) (val l).
Proof.
  intros n l H; destruct (as_bytes_ok n l H) as (HB & LB & VB); rewrite <- (le_bytes_val _ HB), LB, VB; reflexivity.
Qed.
Print Assumptions C41_as_bytes.
(** Word lists are most significant word first; more words than the width holds are written
    out of bounds. *)
Theorem C41_word_lists : forall n l, Forall (fun w => 0 <= w < 2 ^ 32) l -> (length l <= n)%nat ->
  exists r, of_list (32 * Z.of_nat n) l = Ok r /\ bn n r /\ val r = fold_left (fun x w => x * 2 ^ 32 + w) l 0.
Proof.
  intros n l HF HL; destruct (of_list_ok n l HF HL) as (r & E & H & V); exists r; split; [exact E|]; split; [exact H|].
  rewrite V; clear. induction l as [|w l IH] using rev_ind; [reflexivity|].
  rewrite rev_app_distr, fold_left_app; cbn [rev app fold_left]. rewrite val_cons, IH; ring.
Qed.
Print Assumptions C41_word_lists.
Theorem C41_too_many_words_refuted : exists l, Forall (fun w => 0 <= w < 2 ^ 32) l /\ of_list 32 l = UB.
Proof. exists [1; 2]; split; [repeat constructor; vm_compute; discriminate || reflexivity | reflexivity]. Qed.
Print Assumptions C41_too_many_words_refuted.
Example C41_case : of_bytes 64 [1; 2; 3; 4; 5; 6; 7; 8] = Ok [0x04030201; 0x08070605]
  /\ as_bytes [0x04030201; 0x08070605] = [1; 2; 3; 4; 5; 6; 7; 8] /\ of_list 64 [1; 2] = Ok [2; 1].
Proof. repeat split. Qed.

(** ** C42 *)
Theorem C42_shifts : forall n l, bn n l ->
  (bn n (shr1 l) /\ val (shr1 l) = val l / 2) /\
  (forall w, 0 <= w <= Z.of_nat n -> exists r, shl_word w l = Ok r /\ bn n r /\ val r = (val l * 2 ^ (32 * w)) mod 2 ^ (32 * Z.of_nat n)).
Proof. intros n l H; split; [apply shr1_ok, H | intros w Hw; apply shl_word_ok; assumption]. Qed.
Print Assumptions C42_shifts.
Theorem C42_bits : forall n l i, bn n l -> 0 <= i < 32 * Z.of_nat n ->
  bit l i = Ok (if Z.testbit (val l) i then 1 else 0) /\
  (exists r, set_bit l i = Ok r /\ bn n r /\ forall j, 0 <= j -> Z.testbit (val r) j = (j =? i) || Z.testbit (val l) j) /\
  (exists r, clear_bit l i = Ok r /\ bn n r /\ forall j, 0 <= j -> Z.testbit (val r) j = negb (j =? i) && Z.testbit (val l) j).
Proof.
  intros n l i H Hi; split; [|split].
  - rewrite (bit_ok n) by assumption; destruct (Z.testbit (val l) i); reflexivity.
  - destruct (set_bit_ok n l i H Hi) as (r & E & Hr & V); exists r; split; [exact E|]; split; [exact Hr|].
    intros j Hj; rewrite V, Z.lor_spec, Z.pow2_bits_eqb by lia. rewrite orb_comm, Z.eqb_sym; reflexivity.
  - destruct (clear_bit_ok n l i H Hi) as (r & E & Hr & V); exists r; split; [exact E|]; split; [exact Hr|].
    intros j Hj; rewrite V, Z.ldiff_spec, Z.pow2_bits_eqb by lia. rewrite andb_comm, Z.eqb_sym; reflexivity.
Qed.
Print Assumptions C42_bits.
Theorem C42_complement : forall n l, bn n l -> bn n (neg l) /\ val (neg l) = 2 ^ (32 * Z.of_nat n) - 1 - val l.
Proof. exact neg_ok. Qed.
Print Assumptions C42_complement.
Theorem C42_slice : forall n k s l, bn n l -> (s + k <= n)%nat ->
  exists r, slice_ (32 * Z.of_nat k) (32 * Z.of_nat s) l = Ok r /\ bn k r /\
    val r = (val l / 2 ^ (32 * Z.of_nat s)) mod 2 ^ (32 * Z.of_nat k).
Proof. exact slice_ok. Qed.
Print Assumptions C42_slice.
Example C42_case : shr1 [1; 3] = [0x80000000; 1] /\ shl_word 1 [7; 9] = Ok [0; 7] /\ bit [0; 4] 34 = Ok 1
  /\ set_bit [0; 0] 63 = Ok [0; 0x80000000] /\ clear_bit [0; 0x80000001] 63 = Ok [0; 1].
Proof. repeat split. Qed.

(** ** C43 *)
Definition conversion_right (K bits : Z) : Prop := forall l, bn (Z.to_nat (nwords K)) l -> val l < 2 ^ K ->
  bn (Z.to_nat (nwords bits)) (convert K bits l) /\ val (convert K bits l) = val l mod 2 ^ bits.
Theorem C43_widths_refuted : ~ conversion_right 33 64 /\ ~ conversion_right 64 33.
Proof.
  split; intros H.
  - destruct (H [1; 1]) as [_ E]; [split; [reflexivity | repeat constructor; vm_compute; discriminate || reflexivity] | reflexivity | discriminate E].
  - destruct (H [1; 1]) as [_ E]; [split; [reflexivity | repeat constructor; vm_compute; discriminate || reflexivity] | reflexivity | discriminate E].
Qed.
Print Assumptions C43_widths_refuted.
Theorem C43_widths_partial : forall n m, conversion_right (32 * Z.of_nat n) (32 * Z.of_nat m).
Proof. intros n m l H _; rewrite !nwords_mult, !Nat2Z.id in *; apply convert_ok, H. Qed.
Print Assumptions C43_widths_partial.
(** Also right: widening to, and narrowing from, any width at least as large. *)
Theorem C43_unequal_partial : forall k bits, 32 * Z.of_nat k <= bits ->
  conversion_right (32 * Z.of_nat k) bits /\ conversion_right bits (32 * Z.of_nat k).
Proof.
  intros k bits H.
  assert (HN : nwords bits = Z.of_nat (Z.to_nat (nwords bits))) by (rewrite Z2Nat.id; [reflexivity | apply Z.div_pos; lia]).
  split; intros l HL HV.
  - rewrite nwords_mult, Nat2Z.id in HL. destruct (convert_up k bits _ l HL HN H) as [H1 V]; split; [exact H1|].
    rewrite V; symmetry; apply Z.mod_small. pose proof (bn_range k l HL). assert (2 ^ (32 * Z.of_nat k) <= 2 ^ bits) by (apply Z.pow_le_mono_r; lia). lia.
  - rewrite nwords_mult, Nat2Z.id; apply (convert_down k bits _ l HL HN H).
Qed.
Print Assumptions C43_unequal_partial.
Example C43_case : convert 64 96 [1; 2] = [1; 2; 0] /\ convert 96 32 [1; 2; 3] = [1] /\ convert 33 64 [1; 1] = [1; 0].
Proof. repeat split. Qed.

(** ** C44 *)
Definition reduce_right (n k : nat) : Prop := forall this p, bn n this -> bn k p -> 0 < val p ->
  exists r, naive_reduce (32 * Z.of_nat k) (32 * Z.of_nat n) this p = Ok r /\ val r = val this mod val p.
(** Witness: (2^64 - 1) mod 3 is 0. *)
Theorem C44_reduce_refuted : ~ reduce_right 2 1.
Proof.
  intros H; destruct (H [0xffffffff; 0xffffffff] [3]) as (r & E & V);
    try (split; [reflexivity | repeat constructor; vm_compute; discriminate || reflexivity]); [reflexivity|].
  vm_compute in E. injection E as <-; vm_compute in V; discriminate V.
Qed.
Print Assumptions C44_reduce_refuted.
(** Partial: right whenever the number is below twice the modulus shifted up to fill the top
    word (one subtraction per bit position can then not fall behind). *)
Theorem C44_reduce_partial : forall k n bits this p, bn n this -> bn k p -> nwords bits = Z.of_nat n -> 32 * Z.of_nat k <= bits ->
  (0 < n)%nat -> 0 < val p ->
  (forall j, 2 ^ (32 * Z.of_nat (n - 1)) <= val p * 2 ^ (32 * Z.of_nat j) < 2 ^ (32 * Z.of_nat n) ->
     val this < 2 * (val p * 2 ^ (32 * Z.of_nat j))) ->
  exists r, naive_reduce (32 * Z.of_nat k) bits this p = Ok r /\ bn k r /\ val r = val this mod val p.
Proof.
  intros k n bits this p Ht Hp HN HB H0 HP HC; apply (naive_reduce_ok k n); try assumption.
  intros s0 (j & -> & R); apply HC, R.
Qed.
Print Assumptions C44_reduce_partial.
(** In particular for any number that leaves the top word of its width clear, whatever the modulus. *)
Theorem C44_reduce_clear_top_partial : forall k n bits this p, bn n this -> bn k p -> nwords bits = Z.of_nat n -> 32 * Z.of_nat k <= bits ->
  (0 < n)%nat -> 0 < val p -> val this <= 2 ^ (32 * Z.of_nat (n - 1)) ->
  exists r, naive_reduce (32 * Z.of_nat k) bits this p = Ok r /\ bn k r /\ val r = val this mod val p.
Proof.
  intros k n bits this p Ht Hp HN HB H0 HP HT; apply C44_reduce_partial with n; try assumption.
  intros j [J1 J2]. pose proof (pow_pos (n - 1)). lia.
Qed.
Print Assumptions C44_reduce_clear_top_partial.
(** A zero modulus never returns. *)
Theorem C44_zero_diverges : forall k n bits this p, bn n this -> bn k p -> nwords bits = Z.of_nat n -> 32 * Z.of_nat k <= bits ->
  (0 < n)%nat -> val p = 0 -> naive_reduce (32 * Z.of_nat k) bits this p = Diverge.
Proof. exact naive_reduce_zero. Qed.
Print Assumptions C44_zero_diverges.
Example C44_case : naive_reduce 32 96 [5; 7; 0] [10] = Ok [7] /\ 5 + 7 * 2 ^ 32 = 10 * 3006477107 + 7.
Proof. split; vm_compute; reflexivity. Qed.

(** ** C45 *)
Theorem C45_swap : forall n d a b, bn n a -> bn n b -> ctime_swap d a b = if d then (b, a) else (a, b).
Proof. exact ctime_swap_ok. Qed.
Print Assumptions C45_swap.
Example C45_case : ctime_swap true [1; 2] [3; 4] = ([3; 4], [1; 2]) /\ ctime_swap false [1; 2] [3; 4] = ([1; 2], [3; 4]).
Proof. split; reflexivity. Qed.

(** ** C79 *)
(** Without its blanks the text is the hexadecimal numeral; with the terminator it fits in the
    buffer of 10 * N characters. *)
Theorem C79_text : forall n l, bn n l ->
  filter (fun c => negb (c =? 32)) (to_string l) = hex_text (8 * n) (val l)
  /\ (0 < n -> length (to_string l) + 2 <= 10 * n)%nat.
Proof.
  intros n l H; unfold to_string; destruct (words_text_ok n (rev l)) as [E L]; [rewrite rev_involutive; exact H|].
  rewrite rev_involutive in E; split; [exact E | lia].
Qed.
Print Assumptions C79_text.
Example C79_case : to_string [0xdeadbeef; 1] = [48;48;48;48;48;48;48;49; 32; 68;69;65;68;66;69;69;70].
Proof. reflexivity. Qed.
