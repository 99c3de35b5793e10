(** Proofs about the bignum model. *)
From Verif Require Import Base BaseP S_Word P_Word S_Bignum M_Bignum.
Open Scope Z_scope.

Local Notation B := (2 ^ 32).
Local Notation wd := (fun w => 0 <= w < 2 ^ 32).

(** ** The value function *)
Lemma val_cons w l : val (w :: l) = w + B * val l. Proof. reflexivity. Qed.
Lemma val_nonneg l : Forall wd l -> 0 <= val l.
Proof. induction 1; [cbn; lia|]; rewrite val_cons; nia. Qed.
Lemma pow_S n : 2 ^ (32 * Z.of_nat (S n)) = B * 2 ^ (32 * Z.of_nat n).
Proof. replace (32 * Z.of_nat (S n)) with (32 + 32 * Z.of_nat n) by lia; apply Z.pow_add_r; lia. Qed.
Lemma pow_pos n : 0 < 2 ^ (32 * Z.of_nat n). Proof. apply Z.pow_pos_nonneg; lia. Qed.
Lemma val_bound l : Forall wd l -> val l < 2 ^ (32 * Z.of_nat (length l)).
Proof.
  induction 1 as [|w l Hw Hl IH]; [cbn; lia|]. cbn [length]; rewrite pow_S, val_cons. nia.
Qed.
Lemma bn_range n l : bn n l -> 0 <= val l < 2 ^ (32 * Z.of_nat n).
Proof. intros [<- H]; split; [apply val_nonneg, H | apply val_bound, H]. Qed.
Lemma bn_cons n w l : bn (S n) (w :: l) <-> 0 <= w < B /\ bn n l.
Proof.
  unfold bn; cbn [length]; split; intros H.
  - destruct H as [HL HF]; inversion_clear HF; repeat split; try assumption; lia.
  - destruct H as [Hw [HL HF]]; split; [lia | constructor; assumption].
Qed.
Lemma bn_nil l : bn 0 l -> l = []. Proof. intros [H _]; destruct l; [reflexivity | discriminate H]. Qed.
Lemma bn_S n l : bn (S n) l -> exists w r, l = w :: r /\ 0 <= w < B /\ bn n r.
Proof.
  intros H; destruct l as [|w r]; [destruct H; discriminate|]. apply bn_cons in H; destruct H; eauto 6.
Qed.
Lemma val_inj n : forall a b, bn n a -> bn n b -> val a = val b -> a = b.
Proof.
  induction n as [|n IH]; intros a b Ha Hb E.
  - apply bn_nil in Ha, Hb; subst; reflexivity.
  - apply bn_S in Ha, Hb; destruct Ha as (x & a' & -> & Hx & Ha), Hb as (y & b' & -> & Hy & Hb).
    rewrite !val_cons in E.
    assert (x = y) by (apply (f_equal (fun z => z mod B)) in E; rewrite !(Z.mul_comm B), !Z.mod_add, !Z.mod_small in E by lia; exact E).
    subst y; f_equal; apply IH; [assumption..|]. lia.
Qed.
Lemma val_app a b : val (a ++ b) = val a + 2 ^ (32 * Z.of_nat (length a)) * val b.
Proof.
  induction a as [|w a IH]; [cbn [app length val]; change (2 ^ (32 * Z.of_nat 0)) with 1; lia|].
  cbn [app length]; rewrite !val_cons, IH, pow_S; ring.
Qed.
Lemma val_repeat0 n : val (repeat 0 n) = 0.
Proof. induction n as [|n IH]; [reflexivity|]; cbn [repeat]; rewrite val_cons, IH; reflexivity. Qed.
Lemma bn_repeat0 n : bn n (repeat 0 n).
Proof. split; [apply repeat_length|]. apply Forall_forall; intros x H; apply repeat_spec in H; lia. Qed.
Lemma bn_app n m a b : bn n a -> bn m b -> bn (n + m) (a ++ b).
Proof. intros [<- Ha] [<- Hb]; split; [apply app_length | apply Forall_app; split; assumption]. Qed.
Lemma bn_firstn n k l : bn n l -> (k <= n)%nat -> bn k (firstn k l).
Proof. intros [<- H] Hk; split; [apply firstn_length_le; exact Hk | apply Forall_firstn, H]. Qed.
Lemma bn_skipn n k l : bn n l -> bn (n - k) (skipn k l).
Proof. intros [<- H]; split; [apply skipn_length | apply Forall_skipn, H]. Qed.
Lemma val_split n k l : bn n l -> (k <= n)%nat -> val l = val (firstn k l) + 2 ^ (32 * Z.of_nat k) * val (skipn k l).
Proof.
  intros [H _] Hk; rewrite <- (firstn_skipn k l) at 1. rewrite val_app, firstn_length_le by lia; reflexivity.
Qed.
Lemma val_firstn n k l : bn n l -> (k <= n)%nat -> val (firstn k l) = val l mod 2 ^ (32 * Z.of_nat k).
Proof.
  intros H Hk; rewrite (val_split n k l H Hk), Z.mul_comm, Z.mod_add by (pose proof (pow_pos k); lia).
  symmetry; apply Z.mod_small, bn_range. eapply bn_firstn; eassumption.
Qed.
Lemma val_skipn n k l : bn n l -> (k <= n)%nat -> val (skipn k l) = val l / 2 ^ (32 * Z.of_nat k).
Proof.
  intros H Hk; rewrite (val_split n k l H Hk), Z.mul_comm, Z.div_add by (pose proof (pow_pos k); lia).
  rewrite Z.div_small; [lia|]. apply bn_range; eapply bn_firstn; eassumption.
Qed.
Lemma bn_length n l : bn n l -> length l = n. Proof. intros [H _]; exact H. Qed.
Lemma bn_zlen n l : bn n l -> zlen l = Z.of_nat n. Proof. intros [H _]; unfold zlen; congruence. Qed.

(** ** Addition and subtraction *)
Lemma land32 t : Z.land t 0xffffffff = t mod B.
Proof. apply (land_ones_mod t 32); lia. Qed.
Lemma shr32 t : Z.shiftr t 32 = t / B. Proof. apply Z.shiftr_div_pow2; lia. Qed.

Lemma add_from_ok n : forall t a b, bn n a -> bn n b -> 0 <= t <= 1 ->
  let '(c, r) := add_from t a b in
  bn n r /\ val r + 2 ^ (32 * Z.of_nat n) * (if c then 1 else 0) = t + val a + val b.
Proof.
  induction n as [|n IH]; intros t a b Ha Hb Ht.
  - apply bn_nil in Ha, Hb; subst a b; cbn [add_from]. split; [apply bn_repeat0 with (n := O)|].
    change (2 ^ (32 * Z.of_nat 0)) with 1; cbn [val]. destruct (Z.eqb_spec t 0); cbn; lia.
  - apply bn_S in Ha, Hb; destruct Ha as (x & a' & -> & Hx & Ha), Hb as (y & b' & -> & Hy & Hb).
    cbn [add_from]; unfold w64; rewrite (Z.mod_small (x + y)) by lia; rewrite Z.mod_small by lia.
    rewrite shr32, land32. set (s := t + (x + y)) in *.
    pose proof (Z.div_mod s B ltac:(lia)) as D; pose proof (Z.mod_pos_bound s B ltac:(lia)) as M.
    assert (Hc : 0 <= s / B <= 1).
    { split; [apply Z.div_pos; lia|]. assert (s / B < 2) by (apply Z.div_lt_upper_bound; lia). lia. }
    specialize (IH (s / B) a' b' Ha Hb Hc); destruct (add_from (s / B) a' b') as [c r]; destruct IH as [Hr E].
    split; [apply bn_cons; split; assumption|]. rewrite !val_cons, pow_S. 
    replace (s mod B + B * val r + B * 2 ^ (32 * Z.of_nat n) * (if c then 1 else 0))
      with (s mod B + B * (val r + 2 ^ (32 * Z.of_nat n) * (if c then 1 else 0))) by ring.
    rewrite E; unfold s in *; lia.
Qed.
Lemma add_ok n a b : bn n a -> bn n b ->
  let '(c, r) := add a b in bn n r /\ val r + 2 ^ (32 * Z.of_nat n) * (if c then 1 else 0) = val a + val b.
Proof. intros Ha Hb; apply (add_from_ok n 0 a b Ha Hb ltac:(lia)). Qed.
Lemma add_val n a b : bn n a -> bn n b ->
  bn n (snd (add a b)) /\ val (snd (add a b)) = (val a + val b) mod 2 ^ (32 * Z.of_nat n)
  /\ fst (add a b) = (2 ^ (32 * Z.of_nat n) <=? val a + val b).
Proof.
  intros Ha Hb; pose proof (add_ok n a b Ha Hb) as H; destruct (add a b) as [c r]; destruct H as [Hr E]; cbn [fst snd].
  pose proof (bn_range n r Hr) as R; split; [exact Hr|].
  destruct c; split.
  - apply Z.mod_unique with 1; lia.
  - lia.
  - apply Z.mod_unique with 0; lia.
  - lia.
Qed.

Lemma sub_from_ok n : forall t a b, bn n a -> bn n b -> 0 <= t ->
  let '(c, r) := sub_from t a b in
  bn n r /\ val r - 2 ^ (32 * Z.of_nat n) * (if c then 1 else 0) = val a - val b - (if t =? 0 then 0 else 1).
Proof.
  induction n as [|n IH]; intros t a b Ha Hb Ht.
  - apply bn_nil in Ha, Hb; subst a b; cbn [sub_from]. split; [apply bn_repeat0 with (n := O)|].
    change (2 ^ (32 * Z.of_nat 0)) with 1; cbn [val]. destruct (Z.eqb_spec t 0); cbn; lia.
  - apply bn_S in Ha, Hb; destruct Ha as (x & a' & -> & Hx & Ha), Hb as (y & b' & -> & Hy & Hb).
    cbn [sub_from]; set (k := if t =? 0 then 0 else 1).
    assert (Hk : 0 <= k <= 1) by (unfold k; destruct (t =? 0); lia).
    unfold w64; rewrite Zminus_mod_idemp_l. set (s := (x - y - k) mod 2 ^ 64).
    assert (SS : (x - y - k < 0 /\ s = x - y - k + 2 ^ 64) \/ (0 <= x - y - k /\ s = x - y - k)).
    { destruct (Z.lt_ge_cases (x - y - k) 0); [left | right]; split; try assumption; symmetry; [apply Z.mod_unique with (-1) | apply Z.mod_unique with 0]; lia. }
    rewrite shr32, land32.
    pose proof (Z.div_mod s B ltac:(lia)) as D; pose proof (Z.mod_pos_bound s B ltac:(lia)) as M.
    assert (Q : (x - y - k < 0 /\ s / B = B - 1) \/ (0 <= x - y - k /\ s / B = 0)).
    { destruct SS as [[S1 S2]|[S1 S2]]; [left|right]; split; try exact S1.
      - symmetry; apply Z.div_unique with (x - y - k + B); lia.
      - apply Z.div_small; lia. }
    specialize (IH (s / B) a' b' Ha Hb ltac:(lia)); destruct (sub_from (s / B) a' b') as [c r]; destruct IH as [Hr E].
    split; [apply bn_cons; split; assumption|]. rewrite !val_cons, pow_S.
    replace (s mod B + B * val r - B * 2 ^ (32 * Z.of_nat n) * (if c then 1 else 0))
      with (s mod B + B * (val r - 2 ^ (32 * Z.of_nat n) * (if c then 1 else 0))) by ring.
    rewrite E. destruct Q as [[Q1 Q2]|[Q1 Q2]]; rewrite Q2 in *.
    + destruct (Z.eqb_spec (B - 1) 0); lia.
    + cbn [Z.eqb]; lia.
Qed.
Lemma sub_val n a b : bn n a -> bn n b ->
  bn n (snd (sub a b)) /\ val (snd (sub a b)) = (val a - val b) mod 2 ^ (32 * Z.of_nat n)
  /\ fst (sub a b) = (val a <? val b).
Proof.
  intros Ha Hb; pose proof (sub_from_ok n 0 a b Ha Hb ltac:(lia)) as H; unfold sub.
  destruct (sub_from 0 a b) as [c r]; destruct H as [Hr E]; cbn [fst snd Z.eqb] in *.
  pose proof (bn_range n r Hr) as R; split; [exact Hr|].
  destruct c; split.
  - apply Z.mod_unique with (-1); lia.
  - lia.
  - apply Z.mod_unique with 0; lia.
  - lia.
Qed.

(** ** Multiplication *)
Lemma mul32_from_ok n : forall t a b, bn n a -> 0 <= b < B -> 0 <= t < B ->
  bn (S n) (mul32_from t a b) /\ val (mul32_from t a b) = t + val a * b.
Proof.
  induction n as [|n IH]; intros t a b Ha Hb Ht.
  - apply bn_nil in Ha; subst a; cbn [mul32_from]; rewrite land32, Z.mod_small by lia.
    split; [|cbn [val]; lia]. split; [reflexivity | repeat constructor; lia].
  - apply bn_S in Ha; destruct Ha as (x & a' & -> & Hx & Ha); cbn [mul32_from]; unfold w64.
    rewrite (Z.mod_small (x * b)) by nia; rewrite Z.mod_small by nia; rewrite shr32, land32.
    set (s := t + x * b). assert (Hs : 0 <= s < B * B) by (unfold s; nia).
    pose proof (Z.div_mod s B ltac:(lia)) as D; pose proof (Z.mod_pos_bound s B ltac:(lia)) as M.
    destruct (IH (s / B) a' b Ha Hb) as [Hr E]; [split; [apply Z.div_pos; lia | apply Z.div_lt_upper_bound; lia]|].
    split; [apply bn_cons; split; assumption|]. rewrite !val_cons, E. unfold s in *; nia.
Qed.
Lemma mul32_ok n a b : bn n a -> 0 <= b < B -> bn (S n) (mul32 a b) /\ val (mul32 a b) = val a * b.
Proof. intros Ha Hb; destruct (mul32_from_ok n 0 a b Ha Hb ltac:(lia)) as [H E]; split; [exact H | unfold mul32; rewrite E; lia]. Qed.

Lemma mul_row_ok ai : 0 <= ai < B -> forall n m b x t, bn n b -> bn (n + S m) x -> 0 <= t < B ->
  exists r, mul_row ai b x t = Ok r /\ bn (n + S m) r /\ skipn (S n) r = skipn (S n) x /\
    val r + 2 ^ (32 * Z.of_nat n) * val (firstn 1 (skipn n x)) = val x + ai * val b + t.
Proof.
  intros Hai; induction n as [|n IH]; intros m b x t Hb Hx Ht.
  - apply bn_nil in Hb; subst b; apply bn_S in Hx; destruct Hx as (x0 & x' & -> & H0 & Hx); cbn [mul_row].
    rewrite land32, Z.mod_small by lia; eexists; split; [reflexivity|]; split; [apply bn_cons; split; assumption|].
    split; [reflexivity|].
    change (2 ^ (32 * Z.of_nat 0)) with 1; cbn [skipn firstn val]; lia.
  - apply bn_S in Hb; destruct Hb as (y & b' & -> & Hy & Hb).
    apply bn_S in Hx; destruct Hx as (x0 & x' & -> & H0 & Hx); cbn [mul_row]; unfold w64.
    rewrite (Z.mod_small (ai * y)) by nia; rewrite (Z.mod_small (ai * y + x0)) by nia; rewrite Z.mod_small by nia.
    rewrite shr32, land32. set (s := t + (ai * y + x0)).
    assert (Hs : 0 <= s < B * B) by (unfold s; nia).
    pose proof (Z.div_mod s B ltac:(lia)) as D; pose proof (Z.mod_pos_bound s B ltac:(lia)) as M.
    destruct (IH m b' x' (s / B) Hb Hx) as (r & E & Hr & SK & V);
      [split; [apply Z.div_pos; lia | apply Z.div_lt_upper_bound; lia]|].
    rewrite E; cbn [bind]; eexists; split; [reflexivity|]; split; [apply bn_cons; split; assumption|].
    split; [exact SK|].
    change (skipn (S n) (x0 :: x')) with (skipn n x'); rewrite !val_cons, pow_S.
    replace (s mod B + B * val r + B * 2 ^ (32 * Z.of_nat n) * val (firstn 1 (skipn n x')))
      with (s mod B + B * (val r + 2 ^ (32 * Z.of_nat n) * val (firstn 1 (skipn n x')))) by ring.
    rewrite V. clear - D; unfold s in *; nia.
Qed.

Lemma skipn_S_tl {A} n (l : list A) : skipn (S n) l = tl (skipn n l).
Proof. revert l; induction n as [|n IH]; intros [|x l]; try reflexivity. change (skipn (S n) l = tl (skipn n l)); apply IH. Qed.

(** The words from index i + N on are still zero when pass i starts. *)
Lemma mul_rows_ok n : forall k m a b x, bn k a -> bn n b -> bn (n + k + m) x -> Forall (fun w => w = 0) (skipn n x) ->
  exists r, mul_rows a b x = Ok r /\ bn (n + k + m) r /\ val r = val x + val a * val b.
Proof.
  induction k as [|k IH]; intros m a b x Ha Hb Hx HZ.
  - apply bn_nil in Ha; subst a; cbn [mul_rows]; eexists; split; [reflexivity|]; split; [exact Hx|]; cbn; lia.
  - apply bn_S in Ha; destruct Ha as (ai & a' & -> & Hai & Ha); cbn [mul_rows].
    destruct (mul_row_ok ai Hai n (k + m) b x 0 Hb) as (r & E & Hr & SK & V);
      [replace (n + S (k + m))%nat with (n + S k + m)%nat by lia; exact Hx | lia |].
    rewrite E; cbn [bind].
    replace (n + S (k + m))%nat with (S (n + k + m)) in Hr by lia.
    destruct (bn_S _ _ Hr) as (lo & x' & -> & Hlo & Hx').
    assert (HF : val (firstn 1 (skipn n x)) = 0).
    { destruct (skipn n x) as [|w ?]; [reflexivity|]. inversion_clear HZ; subst; reflexivity. }
    rewrite HF, Z.mul_0_r, Z.add_0_r in V.
    assert (HZ' : Forall (fun w => w = 0) (skipn n x')).
    { change (skipn n x') with (skipn (S n) (lo :: x')); rewrite SK, skipn_S_tl.
      destruct (skipn n x); [constructor | inversion_clear HZ; assumption]. }
    destruct (IH m a' b x' Ha Hb Hx' HZ') as (r & E' & Hr' & V').
    rewrite E'; cbn [bind]; eexists; split; [reflexivity|]. 
    replace (n + S k + m)%nat with (S (n + k + m)) by lia.
    split; [apply bn_cons; split; assumption|].
    rewrite !val_cons in *; rewrite V'. nia.
Qed.

Lemma nwords_mult k : nwords (32 * k) = k.
Proof. unfold nwords; symmetry; apply Z.div_unique with 31; lia. Qed.

(** For widths that are multiples of 32 bits the product is exact. *)
Lemma mul_ok n a b : bn n a -> bn n b ->
  exists r, mul (32 * Z.of_nat n) a b = Ok r /\ bn (n + n) r /\ val r = val a * val b.
Proof.
  intros Ha Hb; unfold mul, zero_words.
  replace (2 * (32 * Z.of_nat n)) with (32 * Z.of_nat (n + n)) by lia; rewrite nwords_mult, Nat2Z.id.
  destruct (mul_rows_ok n n 0 a b (repeat 0 (n + n)) Ha Hb) as (r & E & Hr & V).
  - replace (n + n + 0)%nat with (n + n)%nat by lia; apply bn_repeat0.
  - apply Forall_skipn, Forall_forall; intros x H; apply repeat_spec in H; exact H.
  - rewrite val_repeat0 in V; replace (n + n + 0)%nat with (n + n)%nat in Hr by lia; eauto.
Qed.

(** ** Comparison *)
Lemma lt_ok n a b : bn n a -> bn n b -> lt_ a b = (val a <? val b).
Proof. intros Ha Hb; apply (sub_val n a b Ha Hb). Qed.
Lemma diff_words_ok n : forall r a b, bn n a -> bn n b -> 0 <= r -> (diff_words r a b = 0 <-> r = 0 /\ a = b).
Proof.
  induction n as [|n IH]; intros r a b Ha Hb Hr.
  - apply bn_nil in Ha, Hb; subst; cbn; tauto.
  - apply bn_S in Ha, Hb; destruct Ha as (x & a' & -> & Hx & Ha), Hb as (y & b' & -> & Hy & Hb).
    cbn [diff_words]; rewrite (IH _ a' b' Ha Hb).
    2: { apply Z.lor_nonneg; split; [exact Hr|]. apply (lxor_range 32); lia. }
    rewrite Z.lor_eq_0_iff, Z.lxor_eq_0_iff. split.
    + intros [[-> ->] ->]; split; reflexivity.
    + intros [-> E]; injection E as -> ->; repeat split; reflexivity.
Qed.
Lemma eq_ok n a b : bn n a -> bn n b -> eq_ a b = (val a =? val b).
Proof.
  intros Ha Hb; unfold eq_; apply eq_true_iff_eq; rewrite !Z.eqb_eq, (diff_words_ok n 0 a b Ha Hb) by lia.
  split; [intros [_ ->]; reflexivity | intros E; split; [reflexivity | apply (val_inj n); assumption]].
Qed.

(** ** Bits *)
Lemma val_testbit n : forall l i, bn n l -> 0 <= i < 32 * Z.of_nat n ->
  Z.testbit (val l) i = Z.testbit (nth (Z.to_nat (i / 32)) l 0) (i mod 32).
Proof.
  induction n as [|n IH]; intros l i Hl Hi; [lia|].
  apply bn_S in Hl; destruct Hl as (w & r & -> & Hw & Hr); rewrite val_cons.
  assert (E : w + B * val r = Z.lxor (val r * B) w).
  { rewrite (lxor_disjoint_add 32) by (try lia; apply (bn_range n r Hr)); lia. }
  rewrite E, Z.lxor_spec. destruct (Z.lt_ge_cases i 32) as [C|C].
  - rewrite Z.div_small, Z.mod_small by lia; rewrite Z.mul_pow2_bits_low by lia; cbn; destruct (Z.testbit w i); reflexivity.
  - rewrite (testbit_high w 32 i) by lia. rewrite Z.mul_pow2_bits by lia.
    rewrite (IH r (i - 32) Hr ltac:(lia)). rewrite xorb_false_r.
    assert (D : i / 32 = (i - 32) / 32 + 1) by (replace i with (i - 32 + 1 * 32) at 1 by lia; apply Z.div_add; lia).
    assert (M : i mod 32 = (i - 32) mod 32) by (replace i with (i - 32 + 1 * 32) at 1 by lia; apply Z.mod_add; lia).
    rewrite D, M. pose proof (Z.div_pos (i - 32) 32 ltac:(lia) ltac:(lia)).
    replace (Z.to_nat ((i - 32) / 32 + 1)) with (S (Z.to_nat ((i - 32) / 32))) by lia. reflexivity.
Qed.
Lemma getz_nth {A} (l : list A) i d : 0 <= i < zlen l -> getz l i = Ok (nth (Z.to_nat i) l d).
Proof.
  intros H; unfold getz, zlen in *; replace (0 <=? i) with true by lia.
  rewrite (nth_error_nth' l d) by lia; reflexivity.
Qed.
Lemma getz_out {A} (l : list A) i : ~ (0 <= i < zlen l) -> getz l i = UB.
Proof.
  intros H; unfold getz, zlen in *; destruct (Z.leb_spec 0 i); [|reflexivity].
  rewrite (proj2 (nth_error_None l (Z.to_nat i))) by lia; reflexivity.
Qed.
Lemma setz_ok {A} (l : list A) i v : 0 <= i < zlen l -> setz l i v = Ok (upd l (Z.to_nat i) v).
Proof. intros H; unfold setz; replace ((0 <=? i) && (i <? zlen l)) with true by lia; reflexivity. Qed.
Lemma idx32 n i : 0 <= i < 32 * Z.of_nat n -> 0 <= i / 32 < Z.of_nat n.
Proof. intros H; split; [apply Z.div_pos; lia | apply Z.div_lt_upper_bound; lia]. Qed.
Lemma bit_ok n l i : bn n l -> 0 <= i < 32 * Z.of_nat n -> bit l i = Ok (Z.b2z (Z.testbit (val l) i)).
Proof.
  intros Hl Hi; unfold bit; rewrite (getz_nth l (i / 32) 0) by (rewrite (bn_zlen n l Hl); apply idx32; exact Hi).
  cbn [bind]; f_equal; rewrite (val_testbit n) by assumption.
  rewrite (land_ones_mod _ 1) by lia. rewrite Z.testbit_spec', Z.shiftr_div_pow2 by (apply Z.mod_pos_bound; lia).
  reflexivity.
Qed.
Lemma bn_upd n l i w : bn n l -> 0 <= w < B -> bn n (upd l i w).
Proof.
  intros [HL HF] Hw; split; [rewrite upd_length; exact HL|]. unfold upd; apply Forall_app; split; [apply Forall_firstn, HF|].
  pose proof (Forall_skipn _ i l HF) as K; destruct (skipn i l); [constructor|]. inversion_clear K; constructor; assumption.
Qed.
Lemma bn_nth n l i : bn n l -> 0 <= nth i l 0 < B.
Proof.
  intros [HL HF]; destruct (Nat.lt_ge_cases i (length l)) as [C|C].
  - apply (proj1 (Forall_nth _ l) HF i 0 C).
  - rewrite nth_overflow by exact C; lia.
Qed.
(** Changing one word. *)
Lemma bits_upd n l k w i : bn n l -> 0 <= w < B -> (k < n)%nat -> 0 <= i < 32 * Z.of_nat n ->
  Z.testbit (val (upd l k w)) i = if i / 32 =? Z.of_nat k then Z.testbit w (i mod 32) else Z.testbit (val l) i.
Proof.
  intros Hl Hw Hk Hi; rewrite (val_testbit n) by (try apply bn_upd; assumption).
  rewrite nth_upd by (rewrite (bn_length n l Hl); exact Hk). pose proof (idx32 n i Hi).
  destruct (Z.eqb_spec (i / 32) (Z.of_nat k)) as [E|E].
  - rewrite E, Nat2Z.id, Nat.eqb_refl; reflexivity.
  - replace (Nat.eqb _ _) with false by (symmetry; apply Nat.eqb_neq; lia). symmetry; apply (val_testbit n); assumption.
Qed.
Lemma bits_eq n x y : 0 <= x < 2 ^ n -> 0 <= y < 2 ^ n -> (forall i, 0 <= i < n -> Z.testbit x i = Z.testbit y i) -> x = y.
Proof.
  intros Hx Hy H; apply Z.bits_inj'; intros i Hi; destruct (Z.lt_ge_cases i n); [apply H; lia|].
  rewrite !(testbit_high _ n) by assumption; reflexivity.
Qed.
Lemma set_bit_ok n l i : bn n l -> 0 <= i < 32 * Z.of_nat n ->
  exists r, set_bit l i = Ok r /\ bn n r /\ val r = Z.lor (val l) (2 ^ i).
Proof.
  intros Hl Hi; unfold set_bit; pose proof (idx32 n i Hi) as ID; pose proof (Z.mod_pos_bound i 32 ltac:(lia)) as M.
  rewrite (getz_nth l (i / 32) 0) by (rewrite (bn_zlen n l Hl); exact ID); cbn [bind].
  rewrite setz_ok by (rewrite (bn_zlen n l Hl); exact ID); eexists; split; [reflexivity|].
  rewrite Z.shiftl_mul_pow2, Z.mul_1_l by lia.
  assert (P : 0 < 2 ^ (i mod 32) < B) by (split; [apply Z.pow_pos_nonneg; lia | apply Z.pow_lt_mono_r; lia]).
  unfold w32; rewrite (Z.mod_small (2 ^ (i mod 32))) by lia.
  assert (W : 0 <= Z.lor (nth (Z.to_nat (i / 32)) l 0) (2 ^ (i mod 32)) < B).
  { apply (lor_range 32); [lia | apply (bn_nth n), Hl | lia]. }
  split; [apply bn_upd; assumption|].
  pose proof (bn_range n _ (bn_upd n l (Z.to_nat (i / 32)) _ Hl W)) as R1; pose proof (bn_range n l Hl) as R2.
  apply (bits_eq (32 * Z.of_nat n)); [exact R1| |].
  - apply lor_range; [lia | exact R2|]. split; [apply Z.pow_nonneg; lia | apply Z.pow_lt_mono_r; lia].
  - intros j Hj; rewrite (bits_upd n) by (try assumption; lia). rewrite Z.lor_spec, Z.pow2_bits_eqb by lia.
    rewrite Z2Nat.id by lia. rewrite Z.lor_spec, Z.pow2_bits_eqb by lia.
    pose proof (Z.div_mod i 32 ltac:(lia)) as D1; pose proof (Z.div_mod j 32 ltac:(lia)) as D2.
    destruct (Z.eqb_spec (j / 32) (i / 32)) as [E|E].
    + rewrite (val_testbit n l j Hl Hj), E. f_equal. apply eq_true_iff_eq; rewrite !Z.eqb_eq; lia.
    + replace (i =? j) with false; [rewrite orb_false_r; reflexivity|]. symmetry; apply Z.eqb_neq; intros ->; lia.
Qed.
Lemma clear_bit_ok n l i : bn n l -> 0 <= i < 32 * Z.of_nat n ->
  exists r, clear_bit l i = Ok r /\ bn n r /\ val r = Z.ldiff (val l) (2 ^ i).
Proof.
  intros Hl Hi; unfold clear_bit; pose proof (idx32 n i Hi) as ID; pose proof (Z.mod_pos_bound i 32 ltac:(lia)) as M.
  rewrite (getz_nth l (i / 32) 0) by (rewrite (bn_zlen n l Hl); exact ID); cbn [bind].
  rewrite setz_ok by (rewrite (bn_zlen n l Hl); exact ID); eexists; split; [reflexivity|].
  rewrite Z.shiftl_mul_pow2, Z.mul_1_l by lia.
  assert (P : 0 < 2 ^ (i mod 32) < B) by (split; [apply Z.pow_pos_nonneg; lia | apply Z.pow_lt_mono_r; lia]).
  unfold w64; rewrite (Z.mod_small (2 ^ (i mod 32))) by lia.
  set (w := w32 _). assert (W : 0 <= w < B) by apply w32_range.
  split; [apply bn_upd; assumption|].
  pose proof (bn_range n _ (bn_upd n l (Z.to_nat (i / 32)) _ Hl W)) as R1; pose proof (bn_range n l Hl) as R2.
  apply (bits_eq (32 * Z.of_nat n)); [exact R1| |].
  - split; [apply Z.ldiff_nonneg; lia|]. apply bits_bounded; [lia | apply Z.ldiff_nonneg; lia|].
    intros j Hj; rewrite Z.ldiff_spec, (testbit_high (val l) (32 * Z.of_nat n)) by assumption; reflexivity.
  - intros j Hj; rewrite (bits_upd n) by (try assumption; lia). rewrite Z.ldiff_spec, Z.pow2_bits_eqb by lia.
    rewrite Z2Nat.id by lia.
    pose proof (Z.div_mod i 32 ltac:(lia)) as D1; pose proof (Z.div_mod j 32 ltac:(lia)) as D2.
    pose proof (Z.mod_pos_bound j 32 ltac:(lia)) as M2.
    destruct (Z.eqb_spec (j / 32) (i / 32)) as [E|E].
    + rewrite (val_testbit n l j Hl Hj), E. unfold w, w32; rewrite Z.mod_pow2_bits_low by lia.
      rewrite Z.land_spec, Z.lxor_spec, Z.pow2_bits_eqb by lia.
      change 0xffffffffffffffff with (2 ^ 64 - 1); rewrite (ones_testbit 64 (j mod 32)) by lia. replace (j mod 32 <? 64) with true by lia.
      f_equal. rewrite xorb_true_r; f_equal. apply eq_true_iff_eq; rewrite !Z.eqb_eq; lia.
    + replace (i =? j) with false; [rewrite andb_true_r; reflexivity|]. symmetry; apply Z.eqb_neq; intros ->; lia.
Qed.

(** ** Shifts *)
Lemma shr1_from_ok n : forall top b, bn n (rev top) -> (b = 0 \/ b = 2 ^ 31) ->
  bn n (rev (shr1_from top b))
  /\ val (rev (shr1_from top b)) = (val (rev top) + (if b =? 0 then 0 else 1) * 2 ^ (32 * Z.of_nat n)) / 2.
Proof.
  induction n as [|n IH]; intros top b Ht Hb.
  - assert (top = []) by (apply bn_nil in Ht; apply (f_equal (@rev Z)) in Ht; rewrite rev_involutive in Ht; exact Ht).
    subst top; split; [apply bn_repeat0 with (n := O)|]; cbn [shr1_from rev val]. change (2 ^ (32 * Z.of_nat 0)) with 1.
    destruct (b =? 0); reflexivity.
  - destruct top as [|w top]; [destruct Ht; discriminate|]. cbn [rev] in Ht.
    assert (Ht' : bn n (rev top) /\ 0 <= w < B).
    { destruct Ht as [HL HF]; rewrite app_length in HL; cbn [length] in HL; apply Forall_app in HF; destruct HF as [HF1 HF2].
      inversion_clear HF2; split; [split; [lia|assumption] | assumption]. }
    destruct Ht' as [Hr Hw]. cbn [shr1_from rev].
    assert (N : w32 (Z.shiftl w 31) = (w mod 2) * 2 ^ 31).
    { unfold w32; rewrite Z.shiftl_mul_pow2 by lia. change (2 ^ 32) with (2 * 2 ^ 31).
      rewrite Zmult_mod_distr_r; reflexivity. }
    pose proof (Z.mod_pos_bound w 2 ltac:(lia)) as M2; pose proof (Z.div_mod w 2 ltac:(lia)) as D2.
    rewrite N. destruct (IH top (w mod 2 * 2 ^ 31) Hr) as [H1 E1].
    { destruct (Z.eq_dec (w mod 2) 0) as [->|]; [left; reflexivity | right; replace (w mod 2) with 1 by lia; reflexivity]. }
    assert (O : Z.lor (Z.shiftr w 1) b = w / 2 + b).
    { rewrite Z.shiftr_div_pow2 by lia; change (2 ^ 1) with 2. destruct Hb as [->| ->]; [rewrite Z.lor_0_r; lia|].
      rewrite Z.lor_comm. change (2 ^ 31) with (1 * 2 ^ 31) at 1; rewrite lor_disjoint_add; lia. }
    rewrite O. split.
    + replace (S n) with (n + 1)%nat by lia; apply bn_app; [exact H1|]. split; [reflexivity|]. repeat constructor; lia.
    + rewrite !val_app, (bn_length n _ H1), (bn_length n _ Hr), E1; cbn [val].
      set (P := 2 ^ (32 * Z.of_nat n)); set (V := val (rev top)).
      rewrite pow_S; fold P.
      replace (V + P * (w + B * 0) + (if b =? 0 then 0 else 1) * (B * P))
        with (V + w mod 2 * P + (P * (w / 2 + (if b =? 0 then 0 else 1) * 2 ^ 31)) * 2) by nia.
      rewrite Z.div_add by lia.
      replace (if w mod 2 * 2 ^ 31 =? 0 then 0 else 1) with (w mod 2) by (destruct (Z.eqb_spec (w mod 2 * 2 ^ 31) 0); lia).
      replace ((if b =? 0 then 0 else 1) * 2 ^ 31) with b by (destruct Hb as [-> | ->]; reflexivity). nia.
Qed.
Lemma bn_rev n l : bn n l -> bn n (rev l).
Proof. intros [HL HF]; split; [rewrite rev_length; exact HL | apply Forall_rev; exact HF]. Qed.
Lemma shr1_ok n l : bn n l -> bn n (shr1 l) /\ val (shr1 l) = val l / 2.
Proof.
  intros H; unfold shr1; destruct (shr1_from_ok n (rev l) 0) as [H1 E]; [rewrite rev_involutive; exact H | left; reflexivity|].
  rewrite rev_involutive in E; split; [exact H1|]. rewrite E; cbn [Z.eqb]; f_equal; lia.
Qed.

Lemma nth_upd_nat {A} (l : list A) i j v d : (i < length l)%nat -> nth j (upd l i v) d = if Nat.eqb j i then v else nth j l d.
Proof. apply nth_upd. Qed.
(** First loop of shl_word: after k passes the k top words are those from [words] below. *)
Lemma shl_loop1 words v0 : 0 <= words <= zlen v0 -> forall k j v,
  (Z.of_nat j + Z.of_nat k <= zlen v0 - words) -> zlen v = zlen v0 ->
  (forall i, 0 <= i < zlen v0 -> nth (Z.to_nat i) v 0 =
     if zlen v0 - Z.of_nat j <=? i then nth (Z.to_nat (i - words)) v0 0 else nth (Z.to_nat i) v0 0) ->
  exists r, for_loop k (Z.of_nat j) (fun n v => do w <- getz v (zlen v0 - n - words - 1); setz v (zlen v0 - n - 1) w) v = Ok r
    /\ zlen r = zlen v0
    /\ (forall i, 0 <= i < zlen v0 -> nth (Z.to_nat i) r 0 =
         if zlen v0 - Z.of_nat (j + k) <=? i then nth (Z.to_nat (i - words)) v0 0 else nth (Z.to_nat i) v0 0).
Proof.
  intros Hw; induction k as [|k IH]; intros j v HB HL HI; cbn [for_loop].
  - exists v; rewrite Nat.add_0_r; auto.
  - rewrite (getz_nth v _ 0) by lia; cbn [bind]; rewrite setz_ok by lia; cbn [bind].
    replace (Z.of_nat j + 1) with (Z.of_nat (S j)) by lia.
    destruct (IH (S j) (upd v (Z.to_nat (zlen v0 - Z.of_nat j - 1)) (nth (Z.to_nat (zlen v0 - Z.of_nat j - words - 1)) v 0)))
      as (r & E & L & H).
    + lia.
    + unfold zlen in *; rewrite upd_length; lia.
    + intros i Hi; rewrite nth_upd by (unfold zlen in *; lia).
      destruct (Nat.eqb_spec (Z.to_nat i) (Z.to_nat (zlen v0 - Z.of_nat j - 1))) as [C|C].
      * replace (zlen v0 - Z.of_nat (S j) <=? i) with true by lia. rewrite HI by lia.
        destruct (Z.leb_spec (zlen v0 - Z.of_nat j) (zlen v0 - Z.of_nat j - words - 1)); [lia|]. f_equal; lia.
      * rewrite HI by lia. destruct (Z.leb_spec (zlen v0 - Z.of_nat j) i), (Z.leb_spec (zlen v0 - Z.of_nat (S j)) i); try lia; reflexivity.
    + rewrite E; exists r; split; [reflexivity|]; split; [exact L|].
      intros i Hi; rewrite H by exact Hi. replace (S j + k)%nat with (j + S k)%nat by lia. reflexivity.
Qed.
Lemma shl_loop2 N : forall k j v, zlen v = N -> Z.of_nat k + j = N -> 0 <= j ->
  exists r, for_loop k j (fun n v => setz v (N - n - 1) 0) v = Ok r /\ zlen r = N
    /\ (forall i, 0 <= i < N -> nth (Z.to_nat i) r 0 = if i <? Z.of_nat k then 0 else nth (Z.to_nat i) v 0).
Proof.
  induction k as [|k IH]; intros j v HL HB Hj; cbn [for_loop].
  - exists v; split; [reflexivity|]; split; [exact HL|]. intros i Hi; replace (i <? Z.of_nat 0) with false by lia; reflexivity.
  - rewrite setz_ok by lia; cbn [bind].
    destruct (IH (j + 1) (upd v (Z.to_nat (N - j - 1)) 0)) as (r & E & L & H); [unfold zlen in *; rewrite upd_length; lia | lia | lia|].
    exists r; split; [exact E|]; split; [exact L|]. intros i Hi; rewrite H by exact Hi.
    rewrite nth_upd by (unfold zlen in *; lia).
    destruct (Z.ltb_spec i (Z.of_nat k)), (Z.ltb_spec i (Z.of_nat (S k))); try lia; try reflexivity.
    + replace (Nat.eqb _ _) with true by (symmetry; apply Nat.eqb_eq; lia); reflexivity.
    + replace (Nat.eqb _ _) with false by (symmetry; apply Nat.eqb_neq; lia); reflexivity.
Qed.
Lemma shl_word_list w v : 0 <= w <= zlen v ->
  shl_word w v = Ok (repeat 0 (Z.to_nat w) ++ firstn (Z.to_nat (zlen v - w)) v).
Proof.
  intros Hw; unfold shl_word; replace (zlen v <? w) with false by lia.
  destruct (shl_loop1 w v Hw (Z.to_nat (zlen v - w)) 0 v) as (r1 & E1 & L1 & H1); [lia | reflexivity | |].
  { intros i Hi; destruct (Z.leb_spec (zlen v - Z.of_nat 0) i); [lia | reflexivity]. }
  change (Z.of_nat 0) with 0 in E1; rewrite E1; cbn [bind].
  destruct (shl_loop2 (zlen v) (Z.to_nat w) (zlen v - w) r1 L1) as (r2 & E2 & L2 & H2); [lia | lia|].
  rewrite E2; f_equal. apply nth_ext with 0 0.
  - rewrite app_length, repeat_length, firstn_length; unfold zlen in *; lia.
  - intros k Hk. assert (HK : 0 <= Z.of_nat k < zlen v) by (unfold zlen in *; lia).
    specialize (H2 (Z.of_nat k) HK); rewrite Nat2Z.id in H2; rewrite H2; clear H2.
    specialize (H1 (Z.of_nat k) HK); rewrite Nat2Z.id in H1.
    destruct (Z.ltb_spec (Z.of_nat k) (Z.of_nat (Z.to_nat w))) as [C|C].
    + rewrite app_nth1 by (rewrite repeat_length; lia). rewrite nth_repeat; reflexivity.
    + rewrite app_nth2 by (rewrite repeat_length; lia). rewrite repeat_length, H1.
      replace (zlen v - Z.of_nat (0 + Z.to_nat (zlen v - w)) <=? Z.of_nat k) with true by lia.
      replace (Z.to_nat (Z.of_nat k - w)) with (k - Z.to_nat w)%nat by lia.
      rewrite <- (firstn_skipn (Z.to_nat (zlen v - w)) v) at 1. apply app_nth1. rewrite firstn_length; unfold zlen in *; lia.
Qed.
Lemma shl_word_ok n w l : bn n l -> 0 <= w <= Z.of_nat n ->
  exists r, shl_word w l = Ok r /\ bn n r /\ val r = (val l * 2 ^ (32 * w)) mod 2 ^ (32 * Z.of_nat n).
Proof.
  intros Hl Hw; rewrite shl_word_list by (rewrite (bn_zlen n l Hl); exact Hw); rewrite (bn_zlen n l Hl).
  eexists; split; [reflexivity|]. 
  assert (H1 : bn (Z.to_nat (Z.of_nat n - w)) (firstn (Z.to_nat (Z.of_nat n - w)) l)) by (apply (bn_firstn n); [exact Hl | lia]).
  split.
  - replace n with (Z.to_nat w + Z.to_nat (Z.of_nat n - w))%nat at 1 by lia. apply bn_app; [apply bn_repeat0 | exact H1].
  - rewrite val_app, val_repeat0, repeat_length, (val_firstn n) by (try exact Hl; lia).
    rewrite !Z2Nat.id by lia.
    replace (32 * Z.of_nat n) with (32 * (Z.of_nat n - w) + 32 * w) by lia.
    rewrite Z.pow_add_r by lia. rewrite Zmult_mod_distr_r. lia.
Qed.

(** ** Conversions *)
Lemma convert_ok n m l : bn n l ->
  bn m (convert (32 * Z.of_nat n) (32 * Z.of_nat m) l) /\
  val (convert (32 * Z.of_nat n) (32 * Z.of_nat m) l) = val l mod 2 ^ (32 * Z.of_nat m).
Proof.
  intros Hl; unfold convert. destruct (Z.eqb_spec (32 * Z.of_nat n) (32 * Z.of_nat m)) as [E|E].
  - assert (n = m) by lia; subst m; split; [exact Hl|]. symmetry; apply Z.mod_small, bn_range, Hl.
  - rewrite nwords_mult, Nat2Z.id.
    assert (D : Z.to_nat (Z.min (32 * Z.of_nat n) (32 * Z.of_nat m) / 32) = Nat.min n m).
    { replace (Z.min (32 * Z.of_nat n) (32 * Z.of_nat m)) with (Z.of_nat (Nat.min n m) * 32) by lia.
      rewrite Z.div_mul by lia; apply Nat2Z.id. }
    rewrite D; split.
    + replace m with (Nat.min n m + (m - Nat.min n m))%nat at 1 by lia.
      apply bn_app; [apply (bn_firstn n); [exact Hl | lia] | apply bn_repeat0].
    + rewrite val_app, val_repeat0, Z.mul_0_r, Z.add_0_r, (val_firstn n) by (try exact Hl; lia).
      destruct (Nat.min_spec n m) as [[H ->]|[H ->]]; [|reflexivity].
      pose proof (bn_range n l Hl) as R. rewrite !Z.mod_small; [reflexivity | | exact R].
      split; [lia|]. eapply Z.lt_le_trans; [apply R|]. apply Z.pow_le_mono_r; lia.
Qed.
Lemma of_u32_ok n w : 0 <= w < B -> (0 < n)%nat -> bn n (of_u32 (32 * Z.of_nat n) w) /\ val (of_u32 (32 * Z.of_nat n) w) = w.
Proof.
  intros Hw Hn; unfold of_u32, zero_words; rewrite nwords_mult, Nat2Z.id.
  split; [apply bn_upd; [apply bn_repeat0 | exact Hw]|]. destruct n as [|n]; [lia|].
  cbn [repeat upd firstn skipn app]. unfold upd; cbn [firstn skipn app]; rewrite val_cons, val_repeat0; lia.
Qed.
Lemma slice_ok n k s l : bn n l -> (s + k <= n)%nat ->
  exists r, slice_ (32 * Z.of_nat k) (32 * Z.of_nat s) l = Ok r /\ bn k r /\
    val r = (val l / 2 ^ (32 * Z.of_nat s)) mod 2 ^ (32 * Z.of_nat k).
Proof.
  intros Hl H; unfold slice_; rewrite nwords_mult. replace (32 * Z.of_nat s / 32) with (Z.of_nat s) by (rewrite Z.mul_comm, Z.div_mul; lia).
  rewrite BaseP.slice_ok by (rewrite ?(bn_zlen n l Hl); lia); rewrite !Nat2Z.id; eexists; split; [reflexivity|].
  pose proof (bn_skipn n s l Hl) as Hs. split; [apply (bn_firstn (n - s)); [exact Hs | lia]|].
  rewrite (val_firstn (n - s)) by (try exact Hs; lia). rewrite (val_skipn n) by (try exact Hl; lia). reflexivity.
Qed.

(** ** Bytes *)
Lemma val_le_val l : Forall wd l -> val l = le_val (concat (map (le_bytes 4) l)).
Proof.
  induction 1 as [|w l Hw Hl IH]; [reflexivity|]; cbn [map concat]; rewrite val_cons, le_val_app, <- IH.
  rewrite le_val_bytes by exact Hw. f_equal.
Qed.
Lemma as_bytes_le l : as_bytes l = concat (map (le_bytes 4) l).
Proof.
  unfold as_bytes; f_equal; apply map_ext; intros w; cbn [le_bytes].
  rewrite !land_0xff, !Z.shiftr_div_pow2, !Z.div_div by lia; reflexivity.
Qed.
Lemma as_bytes_ok n l : bn n l -> bytes (as_bytes l) /\ length (as_bytes l) = (4 * n)%nat /\ le_val (as_bytes l) = val l.
Proof.
  intros [HL HF]; rewrite as_bytes_le; split; [|split].
  - clear; induction l as [|w l IH]; [constructor|]; cbn [map concat]; apply bytes_app; split; [apply le_bytes_bytes | exact IH].
  - clear HF; revert n HL; induction l as [|w l IH]; intros n HL; cbn [map concat length] in *; [lia|].
    rewrite app_length, le_bytes_length; destruct n; [lia|]. rewrite (IH n) by lia; lia.
  - symmetry; apply val_le_val, HF.
Qed.
Lemma or_bytes_ok n : forall data v k, bn n v -> bytes data -> 0 <= k -> val v < 256 ^ k -> k <= 4 * Z.of_nat n ->
  exists r, or_bytes k v data = Ok r /\ bn n r /\ val r = val v + 256 ^ k * le_val (firstn (Z.to_nat (4 * Z.of_nat n - k)) data).
Proof.
  induction data as [|b data IH]; intros v k Hv HD Hk HV HB.
  - exists v; rewrite firstn_nil; cbn [or_bytes le_val]; rewrite Z.mul_0_r, Z.add_0_r; auto.
  - cbn [or_bytes]; rewrite (bn_zlen n v Hv). apply bytes_cons in HD; destruct HD as [Hb HD]; unfold byte in Hb.
    destruct (Z.ltb_spec k (Z.of_nat n * 4)) as [C|C].
    + assert (Q : 0 <= k / 4 < Z.of_nat n) by (split; [apply Z.div_pos; lia | apply Z.div_lt_upper_bound; lia]).
      rewrite (getz_nth v (k / 4) 0) by (rewrite (bn_zlen n v Hv); lia); cbn [bind].
      rewrite setz_ok by (rewrite (bn_zlen n v Hv); lia); cbn [bind].
      set (j := (8 * k) mod 32). assert (Hj : j = 8 * (k mod 4)) by (unfold j; change 32 with (8 * 4); apply Zmult_mod_distr_l).
      pose proof (Z.mod_pos_bound k 4 ltac:(lia)) as M4; pose proof (Z.div_mod k 4 ltac:(lia)) as D4.
      assert (PJ : 0 < 2 ^ j) by (apply Z.pow_pos_nonneg; lia).
      assert (SH : w32 (Z.shiftl b j) = b * 2 ^ j).
      { rewrite Z.shiftl_mul_pow2 by lia; apply w32_small. split; [nia|].
        assert (2 ^ j <= 2 ^ 24) by (apply Z.pow_le_mono_r; lia). nia. }
      rewrite SH.
      (* the word has nothing above bit j yet *)
      assert (HW : nth (Z.to_nat (k / 4)) v 0 < 2 ^ j /\ val v = val (firstn (Z.to_nat (k / 4)) v) + 2 ^ (32 * (k / 4)) * nth (Z.to_nat (k / 4)) v 0).
      { pose proof (val_split n (Z.to_nat (k / 4)) v Hv ltac:(lia)) as VS; rewrite Z2Nat.id in VS by lia.
        pose proof (bn_skipn n (Z.to_nat (k / 4)) v Hv) as Hs.
        destruct (n - Z.to_nat (k / 4))%nat as [|m] eqn:Em; [lia|]. apply bn_S in Hs; destruct Hs as (w & r & Es & Hw & Hr).
        assert (EN : nth (Z.to_nat (k / 4)) v 0 = w).
        { rewrite <- (firstn_skipn (Z.to_nat (k / 4)) v) at 1. rewrite app_nth2; rewrite firstn_length_le by (rewrite (bn_length n v Hv); lia); [|lia].
          rewrite Nat.sub_diag, Es; reflexivity. }
        rewrite EN. rewrite Es, val_cons in VS.
        pose proof (bn_range _ _ (bn_firstn n (Z.to_nat (k / 4)) v Hv ltac:(lia))) as RF; rewrite Z2Nat.id in RF by lia.
        pose proof (bn_range _ _ Hr) as RR.
        assert (PK : 256 ^ k = 2 ^ (32 * (k / 4)) * 2 ^ j).
        { rewrite <- Z.pow_add_r by lia. change 256 with (2 ^ 8); rewrite <- Z.pow_mul_r by lia. f_equal; lia. }
        assert (P32 : 0 < 2 ^ (32 * (k / 4))) by (apply Z.pow_pos_nonneg; lia).
        assert (LT : w + B * val r < 2 ^ j) by nia.
        assert (JB : 2 ^ j <= 2 ^ 24) by (apply Z.pow_le_mono_r; lia).
        assert (R0 : val r = 0) by nia. rewrite R0 in *; split; lia. }
      destruct HW as [HW VE]. set (w0 := nth (Z.to_nat (k / 4)) v 0) in *.
      assert (W0 : 0 <= w0 < B) by (apply (bn_nth n), Hv).
      assert (LO : Z.lor w0 (b * 2 ^ j) = w0 + b * 2 ^ j).
      { rewrite Z.lor_comm, lor_disjoint_add by lia; lia. }
      rewrite LO. assert (JB : 2 ^ j <= 2 ^ 24) by (apply Z.pow_le_mono_r; lia).
      assert (WW : 0 <= w0 + b * 2 ^ j < B) by nia.
      set (v' := upd v (Z.to_nat (k / 4)) (w0 + b * 2 ^ j)).
      assert (Hv' : bn n v') by (apply bn_upd; assumption).
      assert (PK : 256 ^ k = 2 ^ (32 * (k / 4)) * 2 ^ j).
      { rewrite <- Z.pow_add_r by lia. change 256 with (2 ^ 8); rewrite <- Z.pow_mul_r by lia. f_equal; lia. }
      assert (VV : val v' = val v + 256 ^ k * b).
      { unfold v', upd. pose proof (bn_skipn n (Z.to_nat (k / 4)) v Hv) as Hs.
        destruct (n - Z.to_nat (k / 4))%nat as [|m] eqn:Em; [lia|]. apply bn_S in Hs; destruct Hs as (w & r & Es & Hw & Hr).
        assert (EN : w0 = w).
        { unfold w0; rewrite <- (firstn_skipn (Z.to_nat (k / 4)) v) at 1. rewrite app_nth2; rewrite firstn_length_le by (rewrite (bn_length n v Hv); lia); [|lia].
          rewrite Nat.sub_diag, Es; reflexivity. }
        rewrite (val_split n (Z.to_nat (k / 4)) v Hv) by lia. rewrite Es, val_app, !val_cons.
        rewrite firstn_length_le by (rewrite (bn_length n v Hv); lia). rewrite Z2Nat.id by lia. rewrite EN, PK; ring. }
      destruct (IH v' (k + 1) Hv' HD) as (r & E & Hr & V); [lia | | lia |].
      { rewrite VV. replace (256 ^ (k + 1)) with (256 * 256 ^ k) by (rewrite Z.pow_add_r by lia; lia). nia. }
      exists r; split; [exact E|]; split; [exact Hr|]. rewrite V, VV.
      replace (Z.to_nat (4 * Z.of_nat n - k)) with (S (Z.to_nat (4 * Z.of_nat n - (k + 1)))) by lia.
      cbn [firstn le_val]. rewrite (Z.pow_add_r 256 k 1) by lia. ring.
    + exists v; split; [reflexivity|]; split; [exact Hv|].
      replace (Z.to_nat (4 * Z.of_nat n - k)) with O by lia. cbn [firstn le_val]; lia.
Qed.
Lemma of_bytes_ok n data : bytes data ->
  exists r, of_bytes (32 * Z.of_nat n) data = Ok r /\ bn n r /\ val r = le_val (firstn (4 * n) data).
Proof.
  intros HD; unfold of_bytes, zero_words; rewrite nwords_mult, Nat2Z.id.
  destruct (or_bytes_ok n data (repeat 0 n) 0 (bn_repeat0 n) HD) as (r & E & Hr & V); try lia.
  - rewrite val_repeat0; lia.
  - exists r; split; [exact E|]; split; [exact Hr|]. rewrite V, val_repeat0.
    replace (Z.to_nat (4 * Z.of_nat n - 0)) with (4 * n)%nat by lia. rewrite Z.pow_0_r; lia.
Qed.
Lemma init_words_ok n : forall l v, bn n v -> Forall wd l -> (length l <= n)%nat -> 
  exists r, init_words v l = Ok r /\ bn n r /\ r = rev l ++ skipn (length l) v.
Proof.
  induction l as [|w l IH]; intros v Hv HF HL; [exists v; auto|]; cbn [init_words length] in *.
  rewrite setz_ok by (rewrite (bn_zlen n v Hv); unfold zlen; lia); cbn [bind].
  inversion_clear HF as [|? ? Hw HF']. 
  destruct (IH (upd v (Z.to_nat (zlen l)) w)) as (r & E & Hr & V); [apply bn_upd; assumption | assumption | lia|].
  exists r; split; [exact E|]; split; [exact Hr|]. rewrite V; cbn [rev]; rewrite <- app_assoc; f_equal.
  unfold zlen; rewrite Nat2Z.id; unfold upd.
  pose proof (bn_length n v Hv) as LV.
  assert (LF : length (firstn (length l) v) = length l) by (apply firstn_length_le; lia).
  rewrite skipn_app, LF, Nat.sub_diag, skipn_all2 by lia. cbn [app]; rewrite skipn_O.
  rewrite skipn_S_tl. assert (NZ : skipn (length l) v <> []).
  { intros Q; apply (f_equal (@length Z)) in Q; rewrite skipn_length in Q; cbn in Q; lia. }
  destruct (skipn (length l) v); [contradiction | reflexivity].
Qed.
Lemma of_list_ok n l : Forall wd l -> (length l <= n)%nat ->
  exists r, of_list (32 * Z.of_nat n) l = Ok r /\ bn n r /\ val r = val (rev l).
Proof.
  intros HF HL; unfold of_list, zero_words; rewrite nwords_mult, Nat2Z.id.
  destruct (init_words_ok n l (repeat 0 n) (bn_repeat0 n) HF HL) as (r & E & Hr & V).
  exists r; split; [exact E|]; split; [exact Hr|]. rewrite V, val_app.
  assert (Z0 : forall k m, val (skipn k (repeat 0 m)) = 0).
  { induction k as [|k IH]; intros m; [apply val_repeat0|]. destruct m; [reflexivity | apply IH]. }
  rewrite Z0; lia.
Qed.
Lemma of_words_ok n data : Forall wd data -> (n <= length data)%nat ->
  exists r, of_words (32 * Z.of_nat n) data = Ok r /\ bn n r /\ r = rev (firstn n data).
Proof.
  intros HF HL; unfold of_words; rewrite nwords_mult, BaseP.slice_ok by (unfold zlen; lia).
  rewrite Nat2Z.id; change (Z.to_nat 0) with O; cbn [skipn bind]; eexists; split; [reflexivity|]; split; [|reflexivity].
  split; [rewrite rev_length, firstn_length_le by exact HL; reflexivity | apply Forall_rev, Forall_firstn, HF].
Qed.

(** ** Complement, swap *)
Lemma neg_ok n l : bn n l -> bn n (neg l) /\ val (neg l) = 2 ^ (32 * Z.of_nat n) - 1 - val l.
Proof.
  revert l; induction n as [|n IH]; intros l Hl.
  - apply bn_nil in Hl; subst l; split; [apply bn_repeat0 with (n := O) | reflexivity].
  - apply bn_S in Hl; destruct Hl as (w & r & -> & Hw & Hr); destruct (IH r Hr) as [H1 E].
    unfold neg in *; cbn [map]. 
    assert (X : Z.lxor w 0xffffffff = B - 1 - w).
    { change 0xffffffff with (2 ^ 32 - 1). rewrite <- (compl_lxor 32 w) by (try lia; exact Hw). reflexivity. }
    rewrite X; split; [apply bn_cons; split; [lia | exact H1]|]. rewrite !val_cons, E, pow_S; lia.
Qed.
Lemma ctime_swap_ok n d a b : bn n a -> bn n b -> ctime_swap d a b = if d then (b, a) else (a, b).
Proof.
  revert a b; induction n as [|n IH]; intros a b Ha Hb.
  - apply bn_nil in Ha, Hb; subst; destruct d; reflexivity.
  - apply bn_S in Ha, Hb; destruct Ha as (x & a' & -> & Hx & Ha), Hb as (y & b' & -> & Hy & Hb).
    specialize (IH a' b' Ha Hb); unfold ctime_swap, and_, xor_ in *.
    assert (MK : w32 (0xffffffff * (if d then 1 else 0)) = if d then 2 ^ 32 - 1 else 0) by (destruct d; reflexivity).
    rewrite MK in *; clear MK; cbn [map map2] in *.
    assert (XR : 0 <= Z.lxor x y < B) by (apply (lxor_range 32); lia).
    destruct d; apply pair_equal_spec in IH; destruct IH as [I1 I2]; rewrite I1, I2.
    + rewrite Z.land_comm, land_ones_mod, Z.mod_small by lia.
      rewrite <- !Z.lxor_assoc, Z.lxor_nilpotent, Z.lxor_0_l.
      rewrite (Z.lxor_comm y x), Z.lxor_assoc, Z.lxor_nilpotent, Z.lxor_0_r; reflexivity.
    + rewrite Z.land_0_l, !Z.lxor_0_r; reflexivity.
Qed.

(** ** naive_reduce *)
Lemma top_word n l : bn (S n) l -> exists top, getz l (zlen l - 1) = Ok top /\ (top = 0 <-> val l < 2 ^ (32 * Z.of_nat n)) /\ 0 <= top.
Proof.
  intros Hl; rewrite (bn_zlen _ l Hl). exists (nth n l 0).
  rewrite (getz_nth l _ 0) by (rewrite (bn_zlen _ l Hl); lia). replace (Z.to_nat (Z.of_nat (S n) - 1)) with n by lia.
  split; [reflexivity|].
  pose proof (bn_skipn _ n l Hl) as Hs. replace (S n - n)%nat with 1%nat in Hs by lia.
  apply bn_S in Hs; destruct Hs as (w & r & Es & Hw & Hr); apply bn_nil in Hr; subst r.
  assert (EN : nth n l 0 = w).
  { rewrite <- (firstn_skipn n l) at 1. rewrite app_nth2; rewrite firstn_length_le by (rewrite (bn_length _ l Hl); lia); [|lia].
    rewrite Nat.sub_diag, Es; reflexivity. }
  rewrite EN; split; [|lia]. rewrite (val_split _ n l Hl) by lia. rewrite Es; cbn [val].
  pose proof (bn_range _ _ (bn_firstn _ n l Hl ltac:(lia))) as R. pose proof (pow_pos n). nia.
Qed.
Lemma normalise_ok n : forall fuel s sh, bn (S n) s -> 2 ^ (32 * Z.of_nat n) <= val s * 2 ^ (32 * Z.of_nat fuel) ->
  exists k r, normalise fuel s sh = Ok (r, sh + Z.of_nat k) /\ bn (S n) r /\ val r = val s * 2 ^ (32 * Z.of_nat k)
    /\ 2 ^ (32 * Z.of_nat n) <= val r.
Proof.
  induction fuel as [|fuel IH]; intros s sh Hs HF; cbn [normalise];
    destruct (top_word n s Hs) as (top & E & T & TP); rewrite E; cbn [bind].
  - change (2 ^ (32 * Z.of_nat 0)) with 1 in HF. destruct (Z.eqb_spec top 0) as [C|C]; [apply T in C; lia|].
    exists O, s; change (2 ^ (32 * Z.of_nat 0)) with 1; rewrite Z.add_0_r; repeat split; try apply Hs; lia.
  - destruct (Z.eqb_spec top 0) as [C|C].
    + apply T in C. destruct (shl_word_ok (S n) 1 s Hs ltac:(lia)) as (s' & E' & Hs' & V'); rewrite E'; cbn [bind].
      pose proof (bn_range _ _ Hs) as R.
      rewrite Z.mod_small in V' by (change (32 * 1) with 32; rewrite pow_S; nia).
      destruct (IH s' (sh + 1) Hs') as (k & r & E2 & Hr & V & G); [rewrite V'; rewrite pow_S in HF; change (32 * 1) with 32; nia|].
      exists (S k), r; rewrite E2; split; [f_equal; f_equal; lia|]; split; [exact Hr|]; split; [|exact G].
      rewrite V, V', pow_S; change (32 * 1) with 32; ring.
    + assert (2 ^ (32 * Z.of_nat n) <= val s) by (destruct (Z.lt_ge_cases (val s) (2 ^ (32 * Z.of_nat n))) as [D|D]; [apply T in D; lia | exact D]).
      exists O, s; change (2 ^ (32 * Z.of_nat 0)) with 1; rewrite Z.add_0_r; repeat split; try apply Hs; lia.
Qed.
Lemma normalise_zero n : forall fuel s sh, bn (S n) s -> val s = 0 -> normalise fuel s sh = Diverge.
Proof.
  induction fuel as [|fuel IH]; intros s sh Hs HV; cbn [normalise];
    destruct (top_word n s Hs) as (top & E & T & TP); rewrite E; cbn [bind];
    replace top with 0 by (symmetry; apply T; rewrite HV; apply pow_pos); cbn [Z.eqb]; [reflexivity|].
  destruct (shl_word_ok (S n) 1 s Hs ltac:(lia)) as (s' & E' & Hs' & V'); rewrite E'; cbn [bind].
  apply IH; [exact Hs'|]. rewrite V', HV, Z.mul_0_l; apply Z.mod_0_l. pose proof (pow_pos (S n)); lia.
Qed.
Lemma reduce_loop_ok n p : 0 < p -> forall k c s, bn n c -> bn n s -> val s = p * 2 ^ Z.of_nat k -> val c < 2 * val s ->
  bn n (reduce_loop (S k) c s) /\ val (reduce_loop (S k) c s) = val c mod p.
Proof.
  intros Hp; induction k as [|k IH]; intros c s Hc Hs VS HC; cbn [reduce_loop];
    pose proof (sub_val n c s Hc Hs) as H; destruct (sub c s) as [o c2]; cbn [fst snd] in H; destruct H as (H2 & V2 & O);
    pose proof (bn_range n c Hc) as Rc; pose proof (bn_range n s Hs) as Rs.
  - change (2 ^ Z.of_nat 0) with 1 in VS; cbn [reduce_loop]. destruct (Z.ltb_spec (val c) (val s)) as [L|L]; rewrite O.
    + split; [exact Hc|]. symmetry; apply Z.mod_small; lia.
    + split; [exact H2|]. rewrite V2, Z.mod_small by lia. apply Z.mod_unique with 1; lia.
  - replace (Z.of_nat (S k)) with (Z.of_nat k + 1) in VS by lia. rewrite Z.pow_add_r in VS by lia. change (2 ^ 1) with 2 in VS.
    destruct (shr1_ok n s Hs) as [H3 V3].
    assert (V3' : val (shr1 s) = p * 2 ^ Z.of_nat k) by (rewrite V3, VS, Z.mul_assoc; apply Z.div_mul; lia).
    destruct (Z.ltb_spec (val c) (val s)) as [L|L]; rewrite O.
    + apply (IH c (shr1 s) Hc H3 V3'). lia.
    + rewrite Z.mod_small in V2 by lia.
      destruct (IH c2 (shr1 s) H2 H3 V3' ltac:(lia)) as [H4 V4]; split; [exact H4|]. cbn [reduce_loop] in V4. rewrite V4, V2, VS.
      replace (val c - p * (2 ^ Z.of_nat k * 2)) with (val c + (- (2 ^ Z.of_nat k * 2)) * p) by ring. apply Z.mod_add; lia.
Qed.

Lemma convert_up k bits n l : bn k l -> nwords bits = Z.of_nat n -> 32 * Z.of_nat k <= bits ->
  bn n (convert (32 * Z.of_nat k) bits l) /\ val (convert (32 * Z.of_nat k) bits l) = val l.
Proof.
  intros Hl HN HB; unfold convert. destruct (Z.eqb_spec (32 * Z.of_nat k) bits) as [E|E].
  - subst bits; rewrite nwords_mult in HN; assert (k = n) by lia; subst n; split; [exact Hl | reflexivity].
  - rewrite HN, Nat2Z.id. rewrite Z.min_l by lia. replace (32 * Z.of_nat k / 32) with (Z.of_nat k) by (apply Z.div_unique with 0; lia); rewrite Nat2Z.id.
    assert (k <= n)%nat by (unfold nwords in HN; assert (Z.of_nat k <= (bits + 31) / 32) by (apply Z.div_le_lower_bound; lia); lia).
    split.
    + replace n with (k + (n - k))%nat at 1 by lia. apply bn_app; [apply (bn_firstn k); [exact Hl | lia] | apply bn_repeat0].
    + rewrite val_app, val_repeat0, Z.mul_0_r, Z.add_0_r, firstn_all2 by (rewrite (bn_length k l Hl); lia). reflexivity.
Qed.
Lemma convert_down k bits n l : bn n l -> nwords bits = Z.of_nat n -> 32 * Z.of_nat k <= bits ->
  bn k (convert bits (32 * Z.of_nat k) l) /\ val (convert bits (32 * Z.of_nat k) l) = val l mod 2 ^ (32 * Z.of_nat k).
Proof.
  intros Hl HN HB; unfold convert. destruct (Z.eqb_spec bits (32 * Z.of_nat k)) as [E|E].
  - subst bits; rewrite nwords_mult in HN; assert (k = n) by lia; subst n; split; [exact Hl|]. symmetry; apply Z.mod_small, bn_range, Hl.
  - rewrite nwords_mult, Nat2Z.id, Z.min_r by lia. replace (32 * Z.of_nat k / 32) with (Z.of_nat k) by (apply Z.div_unique with 0; lia); rewrite Nat2Z.id.
    rewrite Nat.sub_diag; cbn [repeat]; rewrite app_nil_r.
    assert (k <= n)%nat by (unfold nwords in HN; assert (Z.of_nat k <= (bits + 31) / 32) by (apply Z.div_le_lower_bound; lia); lia).
    split; [apply (bn_firstn n); [exact Hl | lia] | apply (val_firstn n); [exact Hl | lia]].
Qed.

(** The scaled modulus the loop starts with: p shifted up by whole words until the top word of
    the n-word number is not zero. *)
Definition scaled (n : nat) (p s0 : Z) : Prop :=
  exists k, s0 = p * 2 ^ (32 * Z.of_nat k) /\ 2 ^ (32 * Z.of_nat (n - 1)) <= s0 < 2 ^ (32 * Z.of_nat n).
Lemma naive_reduce_ok k n bits this p : bn n this -> bn k p -> nwords bits = Z.of_nat n -> 32 * Z.of_nat k <= bits ->
  (0 < n)%nat -> 0 < val p -> (forall s0, scaled n (val p) s0 -> val this < 2 * s0) ->
  exists r, naive_reduce (32 * Z.of_nat k) bits this p = Ok r /\ bn k r /\ val r = val this mod val p.
Proof.
  intros Ht Hp HN HB H0 HP HC; unfold naive_reduce. rewrite (bn_length n this Ht).
  destruct (convert_up k bits n p Hp HN HB) as [Hc VC].
  destruct n as [|n]; [lia|].
  destruct (normalise_ok n (S n) (convert (32 * Z.of_nat k) bits p) 0 Hc) as (j & s & E & Hs & VS & G).
  { rewrite VC. pose proof (pow_S n). pose proof (pow_pos n). nia. }
  rewrite E; cbn [bind fst snd]. rewrite VC in VS.
  assert (L : val this < 2 * val s).
  { apply HC; exists j; split; [exact VS|]. replace (S n - 1)%nat with n by lia. split; [exact G | apply bn_range, Hs]. }
  replace (Z.to_nat ((0 + Z.of_nat j) * 32 + 1)) with (S (32 * j)) by lia.
  destruct (reduce_loop_ok (S n) (val p) HP (32 * j) this s Ht Hs) as [Hr VR]; [rewrite VS; do 2 f_equal; lia | exact L|].
  destruct (convert_down k bits (S n) _ Hr HN HB) as [Hd VD].
  eexists; split; [reflexivity|]; split; [exact Hd|]. rewrite VD, VR. apply Z.mod_small.
  pose proof (Z.mod_pos_bound (val this) (val p) HP); pose proof (bn_range k p Hp); lia.
Qed.
Lemma naive_reduce_zero k n bits this p : bn n this -> bn k p -> nwords bits = Z.of_nat n -> 32 * Z.of_nat k <= bits ->
  (0 < n)%nat -> val p = 0 -> naive_reduce (32 * Z.of_nat k) bits this p = Diverge.
Proof.
  intros Ht Hp HN HB H0 HP; unfold naive_reduce; rewrite (bn_length n this Ht).
  destruct (convert_up k bits n p Hp HN HB) as [Hc VC]. destruct n as [|n]; [lia|].
  rewrite (normalise_zero n) by (try exact Hc; congruence). reflexivity.
Qed.

(** ** Text *)
Lemma hexdigit_ok d : 0 <= d < 16 -> hexdigit d = upper_hex d.
Proof.
  intros H; assert (E : Forall (fun k => hexdigit (Z.of_nat k) = upper_hex (Z.of_nat k)) (seq 0 16)) by (repeat constructor).
  rewrite Forall_forall in E; specialize (E (Z.to_nat d)); rewrite Z2Nat.id in E by lia; apply E, in_seq; lia.
Qed.
Lemma hex8_ok w : hex8 w = hex_text 8 w.
Proof.
  unfold hex8; cbn [map hex_text app].
  assert (E : forall k, 0 <= k -> hexdigit (Z.land (Z.shiftr w (4 * k)) 15) = upper_hex (w / 16 ^ k mod 16)).
  { intros k Hk. rewrite (land_ones_mod _ 4) by lia. rewrite hexdigit_ok by (apply Z.mod_pos_bound; lia).
    rewrite Z.shiftr_div_pow2, Z.pow_mul_r by lia; reflexivity. }
  rewrite !E by lia. rewrite Z.pow_0_r, Z.div_1_r. rewrite !Z.div_div by lia. reflexivity.
Qed.
Lemma hex_text_app a b : forall x, hex_text (a + b) x = hex_text a (x / 16 ^ Z.of_nat b) ++ hex_text b x.
Proof.
  induction b as [|b IH]; intros x.
  - rewrite Nat.add_0_r; cbn [hex_text Z.of_nat]. rewrite Z.pow_0_r, Z.div_1_r, app_nil_r; reflexivity.
  - rewrite Nat.add_succ_r; cbn [hex_text]. rewrite IH, Z.div_div by (try lia; apply Z.pow_pos_nonneg; lia).
    replace (Z.of_nat (S b)) with (1 + Z.of_nat b) by lia. rewrite Z.pow_add_r by lia. rewrite <- app_assoc; reflexivity.
Qed.
Lemma hex_text_mod b : forall x, hex_text b x = hex_text b (x mod 16 ^ Z.of_nat b).
Proof.
  induction b as [|b IH]; intros x; [reflexivity|]; cbn [hex_text].
  assert (P : 0 < 16 ^ Z.of_nat b) by (apply Z.pow_pos_nonneg; lia).
  replace (16 ^ Z.of_nat (S b)) with (16 * 16 ^ Z.of_nat b) by (replace (Z.of_nat (S b)) with (1 + Z.of_nat b) by lia; rewrite Z.pow_add_r by lia; reflexivity).
  rewrite Z.rem_mul_r by lia. rewrite (Z.mul_comm 16), Z.mod_add, Z.div_add by lia.
  rewrite (Z.div_small (x mod 16)), Z.mod_mod, Z.add_0_l by (try lia; apply Z.mod_pos_bound; lia).
  rewrite <- IH; reflexivity.
Qed.
Lemma hex_text_length b : forall x, length (hex_text b x) = b.
Proof. induction b as [|b IH]; intros x; [reflexivity|]; cbn [hex_text]; rewrite app_length, IH; cbn; lia. Qed.
Definition not_blank (c : Z) : bool := negb (c =? 32).
Lemma hex_text_blank b : forall x, filter not_blank (hex_text b x) = hex_text b x.
Proof.
  induction b as [|b IH]; intros x; [reflexivity|]; cbn [hex_text]; rewrite filter_app, IH; f_equal.
  pose proof (Z.mod_pos_bound x 16 ltac:(lia)) as M. rewrite <- (hexdigit_ok _ M). unfold hexdigit, filter, not_blank.
  destruct (x mod 16 <? 10) eqn:C; [replace (48 + x mod 16 =? 32) with false by lia | replace (55 + x mod 16 =? 32) with false by lia]; reflexivity.
Qed.
Lemma words_text_ok n : forall l, bn n (rev l) -> filter not_blank (words_text l) = hex_text (8 * n) (val (rev l))
  /\ (0 < n -> length (words_text l) + 1 = 9 * n)%nat.
Proof.
  induction n as [|n IH]; intros l Hl.
  - apply bn_nil in Hl; apply (f_equal (@rev Z)) in Hl; rewrite rev_involutive in Hl; subst l; split; [reflexivity | lia].
  - destruct l as [|w l]; [destruct Hl; discriminate|]. cbn [rev] in *.
    assert (Hr : bn n (rev l) /\ 0 <= w < B).
    { destruct Hl as [HL HF]; rewrite app_length in HL; cbn [length] in HL; apply Forall_app in HF; destruct HF as [HF1 HF2].
      inversion_clear HF2; split; [split; [lia|assumption] | assumption]. }
    destruct Hr as [Hr Hw]; destruct (IH l Hr) as [E1 E2].
    assert (T : hex_text (8 * S n) (val (rev l ++ [w])) = hex8 w ++ hex_text (8 * n) (val (rev l))).
    { rewrite val_app, (bn_length n _ Hr); cbn [val]. rewrite Z.mul_0_r, Z.add_0_r.
      replace (8 * S n)%nat with (8 + 8 * n)%nat by lia. rewrite hex_text_app.
      assert (P : 16 ^ Z.of_nat (8 * n) = 2 ^ (32 * Z.of_nat n)).
      { change 16 with (2 ^ 4); rewrite <- Z.pow_mul_r by lia; f_equal; lia. }
      pose proof (bn_range n _ Hr) as R.
      rewrite hex8_ok. f_equal.
      - f_equal; rewrite P, Z.mul_comm, Z.div_add, Z.div_small by lia; lia.
      - rewrite hex_text_mod, P, Z.mul_comm, Z.mod_add, Z.mod_small by lia; reflexivity. }
    rewrite T. destruct l as [|w' l'].
    + assert (n = O) by (destruct Hr as [HL _]; cbn in HL; lia); subst n.
      cbn [words_text rev hex_text Nat.mul]. rewrite app_nil_r. rewrite hex8_ok, hex_text_blank, hex_text_length. split; [reflexivity|lia].
    + assert (0 < n)%nat by (destruct Hr as [HL _]; rewrite rev_length in HL; cbn [length] in HL; lia).
      change (words_text (w :: w' :: l')) with (hex8 w ++ [32] ++ words_text (w' :: l')).
      rewrite !filter_app, E1, hex8_ok, hex_text_blank, !app_length, hex_text_length. split; [reflexivity | cbn [length]; lia].
Qed.
