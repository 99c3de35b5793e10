(** The CRC-32 register as multiplication by x: the order of x, and sums of few powers of x. *)
From Coq Require Import Znumtheory.
From Verif Require Import Base BaseP M_CRC S_CRC P_CRC P_Prime P_Prime25519 P_GF2.
Open Scope Z_scope.

Notation P32 := 0xEDB88320.
Lemma w32pos : (0 < 32)%nat. Proof. lia. Qed.
Lemma P32_top : 2 ^ (Z.of_nat 32 - 1) <= P32 < 2 ^ Z.of_nat 32.
Proof. vm_compute; intuition discriminate. Qed.
Lemma T_gT x : T x = gT P32 x.
Proof. unfold T, gT; rewrite Z.bit0_odd; reflexivity. Qed.
Lemma Tn_iter n : forall x, Tn n x = Nat.iter n (gT P32) x.
Proof.
  induction n as [|n IH]; intros x; [reflexivity|]; cbn [Tn]; rewrite IH, T_gT.
  clear IH; induction n as [|n IH]; [reflexivity|]; unfold Nat.iter in *; cbn [nat_rect] in *; rewrite IH; reflexivity.
Qed.
(** The last bit is x^31. *)
Lemma Tn_one n : Tn n 1 = gx 32 P32 (31 + Z.of_nat n).
Proof.
  rewrite Tn_iter; unfold gx; replace (Z.to_nat (31 + Z.of_nat n)) with (n + 31)%nat by lia.
  unfold Nat.iter; rewrite nat_rect_plus; f_equal.
Qed.
Definition factors32 : list Z := [3; 5; 17; 257; 65537].
Lemma factors32_prime : Forall prime factors32.
Proof.
  constructor; [apply (prime_trial _ 2); vm_compute; reflexivity|].
  constructor; [apply (prime_trial _ 3); vm_compute; reflexivity|].
  constructor; [apply (prime_trial _ 5); vm_compute; reflexivity|].
  constructor; [apply (prime_trial _ 17); vm_compute; reflexivity|].
  constructor; [apply (prime_trial _ 257); vm_compute; reflexivity | constructor].
Qed.
Definition fast32 (k : Z) : Z := match k with Zpos p => fx 32 P32 p | _ => 0 end.
Lemma fast32_ok k : 0 < k -> fast32 k = gx 32 P32 k.
Proof. destruct k as [|p|p]; intros H; try lia; apply fx_ok; [exact w32pos | exact P32_top]. Qed.
Definition n32 : Z := 2 ^ 32 - 1.
Lemma full32 : gx 32 P32 n32 = one 32.
Proof. rewrite <- fast32_ok by reflexivity; vm_compute; reflexivity. Qed.
Lemma order32 k : 0 < k < n32 -> gx 32 P32 k <> one 32.
Proof.
  apply (order_x 32 P32 w32pos P32_top n32 factors32); [reflexivity | reflexivity | exact factors32_prime | exact full32|].
  assert (C : forallb (fun q => negb (fast32 (n32 / q) =? one 32)) factors32 = true) by (vm_compute; reflexivity).
  intros q I; rewrite forallb_forall in C; specialize (C q I); rewrite fast32_ok in C.
  - apply negb_true_iff, Z.eqb_neq in C; exact C.
  - clear - I; repeat (destruct I as [<-|I]; [reflexivity|]); destruct I.
Qed.
(** x^k = 1 exactly for the multiples of 2^32 - 1. *)
Lemma power_one k : 0 <= k -> gx 32 P32 k = one 32 <-> (n32 | k).
Proof.
  intros Hk; split.
  - intros E; apply Z.mod_divide; [discriminate|]; pose proof (Z.mod_pos_bound k n32 ltac:(reflexivity)) as M.
    destruct (Z.eq_dec (k mod n32) 0) as [|D]; [assumption|]; exfalso; apply (order32 (k mod n32)); [lia|].
    apply gx_mod; [exact w32pos | exact P32_top | exact Hk | reflexivity | exact E | exact full32].
  - intros [c ->]; apply gx_mult; [exact w32pos | exact P32_top | unfold n32 in Hk; lia | discriminate | exact full32].
Qed.

(** A set of numbers as a binary tree over the bits, least significant first. *)
Inductive tree := Leaf | Node (b : bool) (l r : tree).
Fixpoint ins (p : positive) (t : tree) : tree :=
  match p, t with
  | xH, Leaf => Node true Leaf Leaf
  | xH, Node _ l r => Node true l r
  | xO q, Leaf => Node false (ins q Leaf) Leaf
  | xO q, Node b l r => Node b (ins q l) r
  | xI q, Leaf => Node false Leaf (ins q Leaf)
  | xI q, Node b l r => Node b l (ins q r)
  end.
Fixpoint mem (p : positive) (t : tree) : bool :=
  match t with
  | Leaf => false
  | Node b l r => match p with xH => b | xO q => mem q l | xI q => mem q r end
  end.
Lemma mem_ins p : forall t, mem p (ins p t) = true.
Proof. induction p as [p IH|p IH|]; intros [|b l r]; cbn [ins mem]; try apply IH; reflexivity. Qed.
Lemma mem_keep p : forall q t, mem q t = true -> mem q (ins p t) = true.
Proof.
  induction p as [p IH|p IH|]; intros q [|b l r] M; destruct q as [q|q|]; cbn [mem] in M; try discriminate; cbn [ins mem]; try assumption; try reflexivity; apply IH, M.
Qed.
Definition insz (v : Z) (t : tree) : tree := match v with Zpos p => ins p t | _ => t end.
Definition memz (v : Z) (t : tree) : bool := match v with Zpos p => mem p t | _ => true end.
(** The first powers of x, starting from [v]. *)
Fixpoint fill (n : nat) (v : Z) (t : tree) : tree := match n with O => t | S k => fill k (dT P32 v) (insz v t) end.
Fixpoint free (n : nat) (v : Z) (t : tree) : bool := match n with O => true | S k => if memz (Z.lxor (2 ^ 31) v) t then false else free k (dT P32 v) t end.
Lemma fill_keep n q : forall v t, memz q t = true -> memz q (fill n v t) = true.
Proof.
  induction n as [|n IH]; intros v t M; cbn [fill]; [exact M|]; apply IH; destruct v as [|p|p], q as [|q|q]; cbn [insz memz] in *; try assumption; apply mem_keep, M.
Qed.
Lemma fill_in n : forall k c t, 0 <= c -> c <= k < c + Z.of_nat n -> memz (gx 32 P32 k) (fill n (gx 32 P32 c) t) = true.
Proof.
  induction n as [|n IH]; intros k c t Hc Hk; [lia|]; cbn [fill]; rewrite dT_gT, <- gx_succ by lia.
  destruct (Z.eq_dec k c) as [->|D]; [|apply IH; lia]; apply fill_keep; destruct (gx 32 P32 c) as [|p|p]; cbn [insz memz]; try reflexivity; apply mem_ins.
Qed.
Lemma free_out n : forall k c t, 0 <= c -> c <= k < c + Z.of_nat n -> free n (gx 32 P32 c) t = true -> memz (Z.lxor (2 ^ 31) (gx 32 P32 k)) t = false.
Proof.
  induction n as [|n IH]; intros k c t Hc Hk F; [lia|]; cbn [free] in F; destruct (memz _ t) eqn:M; [discriminate|].
  rewrite dT_gT, <- gx_succ in F by lia; destruct (Z.eq_dec k c) as [->|D]; [exact M | apply (IH k (c + 1)); lia || exact F].
Qed.
(** No sum of three different powers below x^91639 vanishes. *)
Definition span : Z := 91639.
Lemma no_three : free (Z.to_nat (span - 1)) (gT P32 (2 ^ 31)) (fill (Z.to_nat span) (2 ^ 31) Leaf) = true.
Proof. vm_compute; reflexivity. Qed.
Lemma three_powers p q : 0 < p < span -> 0 <= q < span -> Z.lxor (one 32) (gx 32 P32 p) <> gx 32 P32 q.
Proof.
  intros Hp Hq E; pose proof no_three as F; change (gT P32 (2 ^ 31)) with (gx 32 P32 1) in F.
  pose proof (free_out (Z.to_nat (span - 1)) p 1 (fill (Z.to_nat span) (2 ^ 31) Leaf) ltac:(lia) ltac:(lia) F) as M.
  pose proof (fill_in (Z.to_nat span) q 0 Leaf ltac:(lia) ltac:(lia)) as I; rewrite <- E in I.
  change (one 32) with (2 ^ 31) in I; change (gx 32 P32 0) with (2 ^ 31) in I; rewrite M in I; discriminate.
Qed.

(** * Bit lists that bring the register from zero back to zero *)
Definition cnt (l : list bool) : nat := length (filter (fun b => b) l).
Lemma cnt_app a b : cnt (a ++ b) = (cnt a + cnt b)%nat.
Proof. unfold cnt; rewrite filter_app, app_length; reflexivity. Qed.
Lemma peel l : l = repeat false (length l) \/ exists n t, l = repeat false n ++ true :: t.
Proof.
  induction l as [|b l IH]; [left; reflexivity|]; destruct b; [right; exists O, l; reflexivity|].
  destruct IH as [E|(n & t & ->)]; [left; cbn [length repeat]; rewrite <- E; reflexivity | right; exists (S n), t; reflexivity].
Qed.
Lemma clock_falses n : forall s, fold_left clock (repeat false n) s = Tn n s.
Proof. induction n as [|n IH]; intros s; [reflexivity|]; cbn [repeat fold_left Tn]; rewrite IH, clock_T; cbn [Z.b2z]; rewrite Z.lxor_0_r; reflexivity. Qed.
Lemma clock_first n t s : fold_left clock (repeat false n ++ true :: t) s = fold_left clock t (T (Z.lxor (Tn n s) 1)).
Proof. rewrite fold_left_app, clock_falses; cbn [fold_left]; rewrite clock_T; reflexivity. Qed.
Lemma cnt_falses n : cnt (repeat false n) = O.
Proof. induction n as [|n IH]; [reflexivity | exact IH]. Qed.
Lemma cnt_first n t : cnt (repeat false n ++ true :: t) = S (cnt t).
Proof. rewrite cnt_app, cnt_falses; reflexivity. Qed.
Lemma T_Tn n x : T (Tn n x) = Tn (S n) x.
Proof. cbn [Tn]; revert x; induction n as [|n IH]; intros x; cbn [Tn]; [reflexivity | apply IH]. Qed.
Lemma Tn_one32 : 1 = Tn 31 (one 32).
Proof. vm_compute; reflexivity. Qed.
Lemma Tn_gx n : Tn n (one 32) = gx 32 P32 (Z.of_nat n).
Proof. rewrite Tn_iter; unfold gx; rewrite Nat2Z.id; reflexivity. Qed.
Lemma Tn_comm n m x : Tn n (Tn m x) = Tn m (Tn n x).
Proof. rewrite <- !Tn_plus, Nat.add_comm; reflexivity. Qed.
Lemma one_small : 0 <= 1 < 2 ^ 32. Proof. lia. Qed.
Lemma T0 : T 0 = 0. Proof. reflexivity. Qed.
Lemma Tn0 n : Tn n 0 = 0. Proof. induction n as [|n IH]; [reflexivity | exact IH]. Qed.
Theorem few_bits L : fold_left clock L 0 = 0 -> zlen L <= span -> cnt L = O \/ (4 <= cnt L)%nat.
Proof.
  intros E HL; destruct (peel L) as [EL|(n1 & L1 & ->)]; [left; rewrite EL; apply cnt_falses|].
  right; rewrite cnt_first; rewrite clock_first, Tn0, Z.lxor_0_l in E; change (T 1) with (Tn 1 1) in E.
  pose proof one_small as O1.
  destruct (peel L1) as [E1|(n2 & L2 & ->)].
  { exfalso; rewrite E1, clock_falses in E; apply Tn_zero in E; [|apply Tn_range, O1]; apply Tn_zero in E; [lia | exact O1]. }
  rewrite cnt_first; rewrite clock_first, <- Tn_plus in E; replace (1 + n2)%nat with (S n2) in E by lia.
  assert (Rg : forall k, 0 <= Z.lxor (Tn k 1) 1 < 2 ^ 32) by (intros k; apply lxor_range; [lia | apply Tn_range, O1 | exact O1]).
  rewrite zlen_app, zlen_cons, zlen_app, zlen_cons in HL; unfold zlen in HL; rewrite !repeat_length in HL.
  destruct (peel L2) as [E2|(n3 & L3 & ->)].
  { exfalso; rewrite E2, clock_falses in E; apply Tn_zero in E; [|apply T_range, Rg]; apply T_zero in E; [|apply Rg]; apply Z.lxor_eq in E.
    rewrite Tn_one in E; change 1 with (gx 32 P32 31) in E; apply (order32 (Z.of_nat (S n2))); [unfold span, n32 in *; lia|].
    apply (gx_cancel 32 P32 w32pos P32_top 31); [lia | lia | exact E]. }
  rewrite cnt_first; rewrite clock_first in E.
  rewrite !app_length in HL; cbn [length] in HL; rewrite repeat_length in HL.
  destruct (peel L3) as [E3|(n4 & L4 & ->)]; [|rewrite cnt_first; lia].
  exfalso; rewrite E3, clock_falses in E; apply Tn_zero in E.
  2:{ apply T_range, lxor_range; [lia | apply Tn_range, T_range, Rg | exact O1]. }
  apply T_zero in E; [|apply lxor_range; [lia | apply Tn_range, T_range, Rg | exact O1]].
  change (T (Z.lxor (Tn (S n2) 1) 1)) with (Tn 1 (Z.lxor (Tn (S n2) 1) 1)) in E; rewrite <- Tn_plus, Tn_lin, <- Tn_plus in E.
  replace (1 + n3)%nat with (S n3) in E by lia.
  assert (E' : Tn 31 (Z.lxor (Z.lxor (Tn (S n2 + S n3) (one 32)) (Tn (S n3) (one 32))) (one 32)) = 0).
  { rewrite 2 Tn_lin, (Tn_comm 31 (S n2 + S n3)), (Tn_comm 31 (S n3)), <- Tn_one32; exact E. }
  clear E; rename E' into E.
  apply Tn_zero in E; rewrite !Tn_gx in *.
  - apply Z.lxor_eq in E; apply (three_powers (Z.of_nat (S n3)) (Z.of_nat (S n2 + S n3))); [unfold span in *; lia | unfold span in *; lia|].
    rewrite <- E, Z.lxor_assoc, Z.lxor_nilpotent, Z.lxor_0_r; reflexivity.
  - apply lxor_range; [lia | apply lxor_range; [lia | |] | vm_compute; intuition discriminate]; rewrite <- Tn_gx; apply Tn_range; vm_compute; intuition discriminate.
Qed.
