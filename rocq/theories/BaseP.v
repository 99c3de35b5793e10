(** Lemmas about [Base]. *)
From Verif Require Import Base.

(** Linear arithmetic with division/modulo by literals (and literal powers of two). *)
Ltac eval_pow2 :=
  repeat match goal with
  | |- context [Z.pow 2 ?n] => is_ground n; let v := eval vm_compute in (2 ^ n) in change (2 ^ n) with v
  | H : context [Z.pow 2 ?n] |- _ => is_ground n; let v := eval vm_compute in (2 ^ n) in change (2 ^ n) with v in H
  end.
Ltac zdm := eval_pow2; Z.div_mod_to_equations; lia.

Lemma zlen_nonneg {A} (l : list A) : 0 <= zlen l.
Proof. unfold zlen; lia. Qed.
Lemma zlen_app {A} (l m : list A) : zlen (l ++ m) = zlen l + zlen m.
Proof. unfold zlen; rewrite app_length; lia. Qed.
Lemma zlen_nil {A} : zlen (@nil A) = 0. Proof. reflexivity. Qed.
Lemma zlen_cons {A} (x : A) l : zlen (x :: l) = 1 + zlen l.
Proof. unfold zlen; cbn [length]; lia. Qed.
Lemma zlen_to_nat {A} (l : list A) : Z.to_nat (zlen l) = length l.
Proof. unfold zlen; lia. Qed.

Lemma bytes_app l m : bytes (l ++ m) <-> bytes l /\ bytes m.
Proof. unfold bytes; apply Forall_app. Qed.
Lemma bytes_nil : bytes []. Proof. constructor. Qed.
Lemma bytes_cons b l : bytes (b :: l) <-> byte b /\ bytes l.
Proof. unfold bytes; split; intros H; [inversion H; auto | constructor; tauto]. Qed.
Lemma bytesb_iff l : bytesb l = true <-> bytes l.
Proof.
  unfold bytesb, bytes; rewrite forallb_forall, Forall_forall.
  split; intros H x Hx; specialize (H x Hx); unfold byteb, byte in *; lia.
Qed.
Lemma Forall_firstn {A} (P : A -> Prop) n l : Forall P l -> Forall P (firstn n l).
Proof.
  revert n; induction l as [|x l IH]; intros [|n] H; cbn [firstn]; try constructor; inversion H; auto.
Qed.
Lemma Forall_skipn {A} (P : A -> Prop) n l : Forall P l -> Forall P (skipn n l).
Proof.
  revert n; induction l as [|x l IH]; intros [|n] H; cbn [skipn]; auto; inversion H; auto.
Qed.
Lemma bytes_firstn n l : bytes l -> bytes (firstn n l).
Proof. apply Forall_firstn. Qed.
Lemma bytes_skipn n l : bytes l -> bytes (skipn n l).
Proof. apply Forall_skipn. Qed.
Lemma bytes_rev l : bytes l -> bytes (rev l).
Proof. unfold bytes; apply Forall_rev. Qed.
Lemma bytes_repeat b n : byte b -> bytes (repeat b n).
Proof. intros H; unfold bytes; induction n; cbn [repeat]; constructor; auto. Qed.
Lemma bytes_nth l i : bytes l -> byte (nth i l 0).
Proof.
  intros H; destruct (Nat.lt_ge_cases i (length l)) as [Hi|Hi].
  - unfold bytes in H; rewrite Forall_forall in H; apply H, nth_In; exact Hi.
  - rewrite nth_overflow by exact Hi; unfold byte; lia.
Qed.

Lemma w32_range z : 0 <= w32 z < 2 ^ 32.
Proof. unfold w32; apply Z.mod_pos_bound; lia. Qed.
Lemma w64_range z : 0 <= w64 z < 2 ^ 64.
Proof. unfold w64; apply Z.mod_pos_bound; lia. Qed.
Lemma w32_small z : 0 <= z < 2 ^ 32 -> w32 z = z.
Proof. intros; unfold w32; apply Z.mod_small; assumption. Qed.
Lemma w64_small z : 0 <= z < 2 ^ 64 -> w64 z = z.
Proof. intros; unfold w64; apply Z.mod_small; assumption. Qed.
Lemma w8_range z : byte (w8 z).
Proof. unfold w8, byte; apply Z.mod_pos_bound; lia. Qed.

(** ** Bits *)
Lemma testbit_high x n i : 0 <= x < 2 ^ n -> n <= i -> Z.testbit x i = false.
Proof.
  intros [H0 H] Hi.
  destruct (Z.eq_dec x 0) as [->|Hx]; [apply Z.bits_0|].
  apply Z.bits_above_log2; [assumption|].
  apply Z.lt_le_trans with n; [apply Z.log2_lt_pow2; lia | assumption].
Qed.

Lemma bits_bounded x n : 0 <= n -> 0 <= x -> (forall i, n <= i -> Z.testbit x i = false) -> x < 2 ^ n.
Proof.
  intros Hn Hx H.
  destruct (Z.eq_dec x 0) as [->|Hx0]; [apply Z.pow_pos_nonneg; lia|].
  apply Z.log2_lt_pow2; [lia|].
  destruct (Z.lt_ge_cases (Z.log2 x) n) as [Hl|Hl]; [assumption|].
  specialize (H _ Hl); rewrite Z.bit_log2 in H by lia; discriminate.
Qed.

Lemma lxor_range n a b : 0 <= n -> 0 <= a < 2 ^ n -> 0 <= b < 2 ^ n -> 0 <= Z.lxor a b < 2 ^ n.
Proof.
  intros Hn Ha Hb; assert (H0 : 0 <= Z.lxor a b) by (apply Z.lxor_nonneg; lia).
  split; [assumption|]; apply bits_bounded; auto.
  intros i Hi; rewrite Z.lxor_spec, (testbit_high a n), (testbit_high b n); auto.
Qed.
Lemma lor_range n a b : 0 <= n -> 0 <= a < 2 ^ n -> 0 <= b < 2 ^ n -> 0 <= Z.lor a b < 2 ^ n.
Proof.
  intros Hn Ha Hb; assert (H0 : 0 <= Z.lor a b) by (apply Z.lor_nonneg; lia).
  split; [assumption|]; apply bits_bounded; auto.
  intros i Hi; rewrite Z.lor_spec, (testbit_high a n), (testbit_high b n); auto.
Qed.
Lemma land_range n a b : 0 <= n -> 0 <= a < 2 ^ n -> 0 <= b < 2 ^ n -> 0 <= Z.land a b < 2 ^ n.
Proof.
  intros Hn Ha Hb; assert (H0 : 0 <= Z.land a b) by (apply Z.land_nonneg; lia).
  split; [assumption|]; apply bits_bounded; auto.
  intros i Hi; rewrite Z.land_spec, (testbit_high a n), (testbit_high b n); auto.
Qed.

(** [lor]/[lxor] of values with disjoint bits is addition. *)
Lemma lor_disjoint_add k a b : 0 <= k -> 0 <= a -> 0 <= b < 2 ^ k -> Z.lor (a * 2 ^ k) b = a * 2 ^ k + b.
Proof.
  intros Hk Ha Hb; rewrite <- Z.lxor_lor, <- Z.add_nocarry_lxor; [reflexivity| |];
  apply Z.bits_inj'; intros i Hi; rewrite Z.land_spec, Z.bits_0;
  (destruct (Z.lt_ge_cases i k) as [H|H];
   [rewrite Z.mul_pow2_bits_low by assumption; reflexivity
   | rewrite (testbit_high b k) by assumption; apply andb_false_r]).
Qed.
Lemma lxor_disjoint_add k a b : 0 <= k -> 0 <= a -> 0 <= b < 2 ^ k -> Z.lxor (a * 2 ^ k) b = a * 2 ^ k + b.
Proof.
  intros Hk Ha Hb; rewrite <- Z.add_nocarry_lxor; [reflexivity|].
  apply Z.bits_inj'; intros i Hi; rewrite Z.land_spec, Z.bits_0;
  (destruct (Z.lt_ge_cases i k) as [H|H];
   [rewrite Z.mul_pow2_bits_low by assumption; reflexivity
   | rewrite (testbit_high b k) by assumption; apply andb_false_r]).
Qed.

Lemma land_ones_mod a n : 0 <= n -> Z.land a (2 ^ n - 1) = a mod 2 ^ n.
Proof. intros Hn; replace (2 ^ n - 1) with (Z.ones n) by (rewrite Z.ones_equiv; lia); apply Z.land_ones; assumption. Qed.

Lemma land_0xff a : Z.land a 255 = a mod 256.
Proof. exact (land_ones_mod a 8 ltac:(lia)). Qed.

Lemma ones_testbit n i : 0 <= n -> 0 <= i -> Z.testbit (2 ^ n - 1) i = (i <? n).
Proof.
  intros Hn Hi; replace (2 ^ n - 1) with (Z.ones n) by (rewrite Z.ones_equiv; lia).
  destruct (Z.ltb_spec i n).
  - apply Z.ones_spec_low; lia.
  - apply Z.ones_spec_high; lia.
Qed.

(** ** Lists *)
Lemma le_bytes_length n z : length (le_bytes n z) = n.
Proof. revert z; induction n; intros; cbn [le_bytes length]; auto. Qed.
Lemma be_bytes_length n z : length (be_bytes n z) = n.
Proof. unfold be_bytes; rewrite rev_length; apply le_bytes_length. Qed.
Lemma le_bytes_bytes n z : bytes (le_bytes n z).
Proof. revert z; induction n as [|n IH]; intros z; cbn [le_bytes]; [apply bytes_nil|]; apply bytes_cons; split; [apply Z.mod_pos_bound; lia | apply IH]. Qed.
Lemma be_bytes_bytes n z : bytes (be_bytes n z).
Proof. apply bytes_rev, le_bytes_bytes. Qed.

Lemma le_val_bytes n z : 0 <= z < 256 ^ Z.of_nat n -> le_val (le_bytes n z) = z.
Proof.
  revert z; induction n as [|n IH]; intros z Hz; cbn [le_bytes le_val].
  - change (256 ^ Z.of_nat 0) with 1 in Hz; lia.
  - replace (Z.of_nat (S n)) with (Z.of_nat n + 1) in Hz by lia; rewrite Z.pow_add_r in Hz by lia.
    rewrite IH; [pose proof (Z.div_mod z 256); lia|].
    split; [apply Z.div_pos; lia | apply Z.div_lt_upper_bound; lia].
Qed.
Lemma le_val_range l : bytes l -> 0 <= le_val l < 256 ^ zlen l.
Proof.
  induction l as [|b l IH]; intros H; cbn [le_val].
  - cbv; split; congruence.
  - apply bytes_cons in H; destruct H as [Hb Hl]; specialize (IH Hl).
    rewrite zlen_cons, Z.pow_add_r by (pose proof (zlen_nonneg l); lia).
    unfold byte in Hb; lia.
Qed.
Lemma le_bytes_val l : bytes l -> le_bytes (length l) (le_val l) = l.
Proof.
  induction l as [|b l IH]; intros H; cbn [le_val length le_bytes]; [reflexivity|].
  apply bytes_cons in H; destruct H as [Hb Hl]; unfold byte in Hb; f_equal.
  - rewrite Z.mul_comm, Z.mod_add by lia; apply Z.mod_small; lia.
  - rewrite Z.mul_comm, Z.div_add by lia; rewrite (Z.div_small b) by lia; apply IH, Hl.
Qed.
Lemma le_val_app l m : le_val (l ++ m) = le_val l + 256 ^ zlen l * le_val m.
Proof.
  induction l as [|b l IH]; cbn [le_val app].
  - change (256 ^ zlen (@nil Z)) with 1; lia.
  - rewrite IH, zlen_cons, Z.pow_add_r by (pose proof (zlen_nonneg l); lia); lia.
Qed.
Lemma be_val_app l m : be_val (l ++ m) = be_val l * 256 ^ zlen m + be_val m.
Proof.
  unfold be_val; rewrite fold_left_app; generalize (fold_left (fun a b => 256 * a + b) l 0).
  clear l; induction m as [|b m IH] using rev_ind; intros a.
  - change (256 ^ zlen (@nil Z)) with 1; cbn [fold_left]; lia.
  - rewrite !fold_left_app; cbn [fold_left]; rewrite IH, zlen_app, Z.pow_add_r by (pose proof (zlen_nonneg m); unfold zlen; cbn; lia).
    change (zlen [b]) with 1; lia.
Qed.
Lemma be_val_rev l : be_val (rev l) = le_val l.
Proof.
  induction l as [|b l IH]; [reflexivity|]; cbn [rev le_val]; rewrite be_val_app, IH.
  change (zlen [b]) with 1; change (be_val [b]) with (256 * 0 + b); lia.
Qed.
Lemma be_val_range l : bytes l -> 0 <= be_val l < 256 ^ zlen l.
Proof.
  intros H; rewrite <- (rev_involutive l), be_val_rev.
  replace (zlen (rev (rev l))) with (zlen (rev l)) by (unfold zlen; rewrite !rev_length; reflexivity).
  apply le_val_range, bytes_rev, H.
Qed.
Lemma be_val_bytes n z : 0 <= z < 256 ^ Z.of_nat n -> be_val (be_bytes n z) = z.
Proof. intros; unfold be_bytes; rewrite be_val_rev; apply le_val_bytes; assumption. Qed.
Lemma be_bytes_val l : bytes l -> be_bytes (length l) (be_val l) = l.
Proof.
  intros H; unfold be_bytes; rewrite <- (rev_involutive l) at 2; rewrite be_val_rev.
  rewrite <- rev_length, le_bytes_val, rev_involutive; auto using bytes_rev.
Qed.

Lemma upd_length {A} (l : list A) i v : length (upd l i v) = length l.
Proof.
  unfold upd; rewrite app_length, firstn_length.
  destruct (skipn i l) as [|x t] eqn:E; pose proof (skipn_length i l) as H; rewrite E in H; cbn [length] in *; lia.
Qed.
Lemma nth_upd {A} (l : list A) i j v d : (i < length l)%nat ->
  nth j (upd l i v) d = if Nat.eqb j i then v else nth j l d.
Proof.
  unfold upd; revert i j; induction l as [|x l IH]; intros i j Hi; cbn [length] in Hi; [lia|].
  destruct i as [|i], j as [|j]; cbn; try reflexivity.
  apply IH; lia.
Qed.

Lemma chunks_fuel_enough {A} f n (l : list A) : (0 < n)%nat -> (length l <= f)%nat ->
  chunks_fuel f n l = chunks n l.
Proof.
  intros Hn; unfold chunks.
  assert (G : forall g f l, (length l <= f)%nat -> (length l <= g)%nat ->
              @chunks_fuel A f n l = chunks_fuel g n l).
  { induction g as [|g IH]; intros f' l' Hf Hg.
    - destruct l'; [destruct f'; reflexivity | cbn in Hg; lia].
    - destruct f' as [|f'].
      + destruct l'; [reflexivity | cbn in Hf; lia].
      + destruct l' as [|x l']; [reflexivity|].
        cbn [chunks_fuel]; f_equal; apply IH; rewrite skipn_length; cbn [length] in *; lia. }
  intros Hf; apply G; lia.
Qed.
Lemma chunks_nil {A} n : @chunks A n [] = []. Proof. reflexivity. Qed.
Lemma chunks_step {A} n (l : list A) : (0 < n)%nat -> l <> [] ->
  chunks n l = firstn n l :: chunks n (skipn n l).
Proof.
  intros Hn Hl; unfold chunks at 1; destruct l as [|x l]; [congruence|].
  cbn [length chunks_fuel]; f_equal; apply chunks_fuel_enough; [assumption|].
  rewrite skipn_length; cbn [length]; lia.
Qed.
Lemma chunks_app_full {A} n (a l : list A) : (0 < n)%nat -> length a = n ->
  chunks n (a ++ l) = a :: chunks n l.
Proof.
  intros Hn Ha; rewrite chunks_step; [| assumption | destruct a; cbn in *; [lia | congruence]].
  rewrite <- Ha, firstn_app, Nat.sub_diag, firstn_all, firstn_O, app_nil_r.
  rewrite skipn_app, Nat.sub_diag, skipn_all, skipn_O; reflexivity.
Qed.
Lemma chunks_app_mult {A} n k (a l : list A) : (0 < n)%nat -> length a = (k * n)%nat ->
  chunks n (a ++ l) = chunks n a ++ chunks n l.
Proof.
  intros Hn; revert a; induction k as [|k IH]; intros a Ha.
  - destruct a; [reflexivity | cbn in Ha; lia].
  - assert (E : a = firstn n a ++ skipn n a) by (symmetry; apply firstn_skipn).
    assert (Hf : length (firstn n a) = n) by (rewrite firstn_length; lia).
    rewrite E, <- app_assoc, (chunks_app_full n (firstn n a) (skipn n a ++ l)) by assumption.
    rewrite (chunks_app_full n (firstn n a) (skipn n a)) by assumption.
    cbn [app]; f_equal; apply IH; rewrite skipn_length; lia.
Qed.
Lemma chunks_concat {A} n (l : list A) : (0 < n)%nat -> concat (chunks n l) = l.
Proof.
  intros Hn; remember (length l) as m eqn:Hm; revert l Hm.
  induction m as [m IH] using lt_wf_ind; intros l Hm.
  destruct l as [|x l]; [reflexivity|].
  rewrite chunks_step by (auto; congruence); cbn [concat].
  rewrite IH with (m := length (skipn n (x :: l))); auto.
  - apply firstn_skipn.
  - rewrite skipn_length; cbn [length] in *; lia.
Qed.
Lemma chunks_lengths {A} n k (l : list A) : (0 < n)%nat -> length l = (k * n)%nat ->
  Forall (fun c => length c = n) (chunks n l) /\ length (chunks n l) = k.
Proof.
  intros Hn; revert l; induction k as [|k IH]; intros l Hl.
  - destruct l; [split; [constructor | reflexivity] | cbn in Hl; lia].
  - rewrite chunks_step by (try assumption; intros ->; cbn in Hl; lia).
    destruct (IH (skipn n l)) as [H1 H2]; [rewrite skipn_length; lia|].
    split; [constructor; [rewrite firstn_length; lia | assumption] | cbn [length]; lia].
Qed.
Lemma Forall_chunks {A} (P : A -> Prop) n l : (0 < n)%nat -> Forall P l -> Forall (Forall P) (chunks n l).
Proof.
  intros Hn; remember (length l) as m eqn:Hm; revert l Hm.
  induction m as [m IH] using lt_wf_ind; intros l Hm H.
  destruct l as [|x l]; [constructor|].
  rewrite chunks_step by (auto; congruence); constructor; [apply Forall_firstn; assumption|].
  eapply IH; [| reflexivity | apply Forall_skipn; assumption].
  rewrite skipn_length; cbn [length] in *; lia.
Qed.

Lemma map2_length {A B C} (f : A -> B -> C) l m : length (map2 f l m) = Nat.min (length l) (length m).
Proof. revert m; induction l as [|x l IH]; intros [|y m]; cbn; auto. Qed.
Lemma xorl_length a b : length (xorl a b) = Nat.min (length a) (length b).
Proof. apply map2_length. Qed.
Lemma lxor_byte a b : byte a -> byte b -> byte (Z.lxor a b).
Proof. exact (lxor_range 8 a b ltac:(lia)). Qed.
Lemma bytes_xorl a b : bytes a -> bytes b -> bytes (xorl a b).
Proof.
  revert b; induction a as [|x a IH]; intros [|y b] Ha Hb; cbn; try constructor;
  apply bytes_cons in Ha; apply bytes_cons in Hb; [apply lxor_byte; tauto | apply IH; tauto].
Qed.
Lemma xorl_cancel a b : (length a <= length b)%nat -> xorl (xorl a b) b = a.
Proof.
  revert b; induction a as [|x a IH]; intros [|y b] H; cbn in *; try reflexivity; [lia|].
  f_equal; [rewrite Z.lxor_assoc, Z.lxor_nilpotent, Z.lxor_0_r; reflexivity | apply IH; lia].
Qed.
Lemma xorl_app a b c d : length a = length c -> xorl (a ++ b) (c ++ d) = xorl a c ++ xorl b d.
Proof.
  revert c; induction a as [|x a IH]; intros [|y c] H; cbn in *; try congruence; try reflexivity.
  f_equal; apply IH; congruence.
Qed.

Lemma slice_ok {A} (l : list A) off len : 0 <= off -> 0 <= len -> off + len <= zlen l ->
  slice l off len = Ok (firstn (Z.to_nat len) (skipn (Z.to_nat off) l)).
Proof.
  intros; unfold slice.
  replace ((0 <=? off) && (0 <=? len) && (off + len <=? zlen l)) with true by lia; reflexivity.
Qed.
Lemma blit_ok {A} (dst src : list A) off : 0 <= off -> off + zlen src <= zlen dst ->
  blit dst off src = Ok (firstn (Z.to_nat off) dst ++ src ++ skipn (Z.to_nat off + length src) dst).
Proof.
  intros; unfold blit.
  replace ((0 <=? off) && (off + zlen src <=? zlen dst)) with true by lia; reflexivity.
Qed.
