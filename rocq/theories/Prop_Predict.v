(** Property C131: who sees some random values, whatever the seed, knows all later ones. *)
From Verif Require Import Base BaseP S_Bignum M_Bignum P_Bignum M_Random P_Random Prop_Random.
Open Scope Z_scope.

(** A value shows the upper halves of two successive states. *)
Lemma value_halves c : fst (generate_random_value (Rng [] c)) = lcg c / 2 ^ 32 * 2 ^ 32 + lcg (lcg c) / 2 ^ 32.
Proof.
  unfold generate_random_value. cbn [tests cval fst]. pose proof (lcg_range c) as R1. pose proof (lcg_range (lcg c)) as R2. set (a := lcg c) in *. set (b := lcg a) in *. clearbody a b.
  assert (H2 : Z.land (Z.shiftr b 32) 0xffffffff = b / 2 ^ 32).
  { rewrite Z.shiftr_div_pow2 by lia. change 0xffffffff with (Z.ones 32). rewrite Z.land_ones by lia. apply Z.mod_small. split; [apply Z.div_pos; lia | apply Z.div_lt_upper_bound; lia]. }
  assert (H1 : Z.land a 0xffffffff00000000 = Z.shiftl (a / 2 ^ 32) 32).
  { rewrite <- Z.shiftr_div_pow2 by lia. apply Z.bits_inj'. intros i Hi. rewrite Z.land_spec, Z.shiftl_spec by lia. change 0xffffffff00000000 with (Z.shiftl (Z.ones 32) 32). rewrite Z.shiftl_spec by lia.
    destruct (Z.lt_ge_cases i 32) as [C|C]; [rewrite !(Z.testbit_neg_r _ (i - 32)) by lia; apply andb_false_r|]. rewrite Z.shiftr_spec by lia. replace (i - 32 + 32) with i by lia. rewrite Z.testbit_ones_nonneg by lia.
    destruct (Z.ltb_spec (i - 32) 32) as [D|D]; [apply andb_true_r|]. rewrite andb_false_r. symmetry. rewrite <- (Z.mod_small a (2 ^ 64)) by exact R1. apply Z.mod_pow2_bits_high. lia. }
  rewrite H1, H2. rewrite <- Z.shiftl_mul_pow2 by lia. rewrite Z.add_nocarry_lxor, Z.lxor_lor; [reflexivity| |];
  (apply Z.bits_inj'; intros i Hi; rewrite Z.land_spec, Z.bits_0, Z.shiftl_spec by lia; destruct (Z.lt_ge_cases i 32) as [C|C]; [rewrite Z.testbit_neg_r by lia; reflexivity|];
   replace (Z.testbit (b / 2 ^ 32) i) with false; [apply andb_false_r|]; symmetry; rewrite <- (Z.mod_small (b / 2 ^ 32) (2 ^ 32)) by (split; [apply Z.div_pos; lia | apply Z.div_lt_upper_bound; lia]); apply Z.mod_pow2_bits_high; lia).
Qed.
Lemma halves_value c c' : fst (generate_random_value (Rng [] c)) = fst (generate_random_value (Rng [] c')) -> lcg c / 2 ^ 32 = lcg c' / 2 ^ 32 /\ lcg (lcg c) / 2 ^ 32 = lcg (lcg c') / 2 ^ 32.
Proof.
  rewrite !value_halves. pose proof (lcg_range (lcg c)) as R. pose proof (lcg_range (lcg c')) as R'. set (x := lcg c / 2 ^ 32). set (x' := lcg c' / 2 ^ 32). 
  assert (H : forall b, 0 <= b < 2 ^ 64 -> 0 <= b / 2 ^ 32 < 2 ^ 32) by (intros b B; split; [apply Z.div_pos; lia | apply Z.div_lt_upper_bound; lia]). apply H in R, R'. clearbody x x'. lia.
Qed.
Lemma close a b : a / 2 ^ 32 = b / 2 ^ 32 -> - 2 ^ 32 < a - b < 2 ^ 32.
Proof. intros E. pose proof (Z.div_mod a (2 ^ 32) ltac:(lia)). pose proof (Z.div_mod b (2 ^ 32) ltac:(lia)). pose proof (Z.mod_pos_bound a (2 ^ 32) ltac:(lia)). pose proof (Z.mod_pos_bound b (2 ^ 32) ltac:(lia)). lia. Qed.
Lemma lcg_steps c : exists q, lcg c = lcg_A * c + lcg_C - 2 ^ 64 * q.
Proof. rewrite lcg_aff. unfold aff. exists ((c * lcg_A + lcg_C) / 2 ^ 64). pose proof (Z.div_mod (c * lcg_A + lcg_C) (2 ^ 64) ltac:(lia)). lia. Qed.
(** The differences of two successive states form a lattice with the reduced basis (-2627121436, 1381628436), (2316313811, 5803484695);
    only one pair of its vectors is as short as the hidden halves. *)
Lemma short_vectors x k : - 2 ^ 32 < x < 2 ^ 32 -> - 2 ^ 32 < lcg_A * x + 2 ^ 64 * k < 2 ^ 32 ->
  (x = 0 /\ k = 0) \/ (x = -2627121436 /\ lcg_A * x + 2 ^ 64 * k = 1381628436) \/ (x = 2627121436 /\ lcg_A * x + 2 ^ 64 * k = -1381628436).
Proof.
  unfold lcg_A. intros Hx Hy. set (b := 906358251 * x + 2627121436 * k). set (a := 2316313811 * k + 799129460 * x).
  assert (B : 2 ^ 64 * b = 1381628436 * x + 2627121436 * (6364136223846793005 * x + 2 ^ 64 * k)) by (unfold b; lia).
  assert (A : 2 ^ 64 * a = 2316313811 * (6364136223846793005 * x + 2 ^ 64 * k) - 5803484695 * x) by (unfold a; lia).
  assert (X : x = - 2627121436 * a + 2316313811 * b) by (unfold a, b; lia). assert (b = 0) by lia. assert (-1 <= a <= 1) by lia. clearbody a b. subst b.
  assert (E : a = -1 \/ a = 0 \/ a = 1) by lia. destruct E as [->|[->| ->]]; lia.
Qed.
Lemma value_next c : value 1 (Rng [] c) / 2 ^ 32 = lcg (lcg (lcg c)) / 2 ^ 32.
Proof.
  rewrite value_state by reflexivity. rewrite value_halves. change (iter (2 * 1) lcg (cval (Rng [] c))) with (lcg (lcg c)). pose proof (lcg_range (lcg (lcg (lcg c)))) as B.
  set (a := lcg (lcg (lcg c))) in *. set (b := lcg a) in *. clearbody a b. rewrite Z.div_add_l by lia. rewrite (Z.div_small (b / 2 ^ 32)) by (split; [apply Z.div_pos; lia | apply Z.div_lt_upper_bound; lia]). lia.
Qed.
(** One value leaves two candidates at most, ... *)
Theorem C131_one : forall s s', tests s = [] -> tests s' = [] -> value 0 s = value 0 s' ->
  lcg (cval s) - lcg (cval s') = 0 \/ lcg (cval s) - lcg (cval s') = 2627121436 \/ lcg (cval s) - lcg (cval s') = -2627121436.
Proof.
  intros [ts c] [ts' c'] T T'. cbn [tests cval] in *. subst ts ts'. intros V. unfold value, after, iter in V. apply halves_value in V as [H1 H2].
  apply close in H1, H2. destruct (lcg_steps (lcg c)) as [q Q]. destruct (lcg_steps (lcg c')) as [q' Q']. rewrite Q, Q' in H2. set (x := lcg c) in *. set (x' := lcg c') in *.
  destruct (short_vectors (x - x') (q' - q) H1) as [[H _]|[[H _]|[H _]]]; unfold lcg_A in *; lia.
Qed.
(** ... and the upper half of the next settles which. *)
Theorem C131_determined : forall s s', tests s = [] -> tests s' = [] -> 0 <= cval s < 2 ^ 64 -> 0 <= cval s' < 2 ^ 64 ->
  value 0 s = value 0 s' -> value 1 s / 2 ^ 32 = value 1 s' / 2 ^ 32 -> s = s'.
Proof.
  intros [ts c] [ts' c'] T T' R R'. cbn [tests cval] in *. subst ts ts'. intros V0 V1. unfold value, after, iter in V0. apply halves_value in V0 as [H1 H2].
  rewrite !value_next in V1. rename V1 into H3. apply close in H1, H2, H3.
  assert (E : lcg c = lcg c').
  { destruct (lcg_steps (lcg c)) as [q Q]. destruct (lcg_steps (lcg c')) as [q' Q']. destruct (lcg_steps (lcg (lcg c))) as [p P]. destruct (lcg_steps (lcg (lcg c'))) as [p' P']. rewrite P, P' in H3. rewrite Q, Q' in H2, H3.
    set (x := lcg c) in *. set (x' := lcg c') in *. clearbody x x'.
    assert (S : - 2 ^ 32 < lcg_A * (x - x') + 2 ^ 64 * (q' - q) < 2 ^ 32) by lia. unfold lcg_A, lcg_C in *. destruct (short_vectors (x - x') (q' - q) H1 S) as [[H _]|[[H Y]|[H Y]]]; unfold lcg_A in *; [lia | exfalso; lia..]. }
  f_equal. rewrite !lcg_aff in E. rewrite <- (Z.mod_small c (2 ^ 64)), <- (Z.mod_small c' (2 ^ 64)) by assumption. apply aff_cancel; [lia | reflexivity | exact E].
Qed.
Print Assumptions C131_one.
Print Assumptions C131_determined.
(** So sixteen bytes from the generator, such as half of a TLS random, determine its state: *)
Lemma same_bytes v v' : 0 <= v < 2 ^ 64 -> 0 <= v' < 2 ^ 64 -> (forall i, (i < 8)%nat -> (v / 2 ^ (8 * Z.of_nat i)) mod 2 ^ 8 = (v' / 2 ^ (8 * Z.of_nat i)) mod 2 ^ 8) -> v = v'.
Proof.
  intros R R' H. apply Z.bits_inj'. intros i Hi. destruct (Z.lt_ge_cases i 64) as [C|C].
  - specialize (H (Z.to_nat (i / 8))). rewrite Z2Nat.id in H by (apply Z.div_pos; lia). assert (L : (Z.to_nat (i / 8) < 8)%nat) by (apply Nat2Z.inj_lt; rewrite Z2Nat.id by (apply Z.div_pos; lia); apply Z.div_lt_upper_bound; lia).
    specialize (H L). apply (f_equal (fun z => Z.testbit z (i mod 8))) in H. pose proof (Z.mod_pos_bound i 8 ltac:(lia)). pose proof (Z.div_pos i 8 Hi ltac:(lia)). pose proof (Z.div_mod i 8 ltac:(lia)).
    rewrite !Z.mod_pow2_bits_low, !Z.div_pow2_bits in H by lia. replace (i mod 8 + 8 * (i / 8)) with i in H by lia. exact H.
  - rewrite <- (Z.mod_small v (2 ^ 64)), <- (Z.mod_small v' (2 ^ 64)) by assumption. rewrite !Z.mod_pow2_bits_high by lia. reflexivity.
Qed.
Lemma value_range k s : tests s = [] -> 0 <= value k s < 2 ^ 64.
Proof.
  intros T. rewrite value_state by exact T. rewrite value_halves. set (c := iter _ _ _). assert (H : forall b, 0 <= b < 2 ^ 64 -> 0 <= b / 2 ^ 32 < 2 ^ 32) by (intros b B; split; [apply Z.div_pos; lia | apply Z.div_lt_upper_bound; lia]).
  pose proof (H _ (lcg_range c)). pose proof (H _ (lcg_range (lcg c))). lia.
Qed.
Theorem C131_bytes : forall s s' target target' t t' out, tests s = [] -> tests s' = [] -> 0 <= cval s < 2 ^ 64 -> 0 <= cval s' < 2 ^ 64 -> length target = 16%nat -> length target' = 16%nat ->
  generate_random8 s target = Ok (t, out) -> generate_random8 s' target' = Ok (t', out) -> s = s' /\ t = t'.
Proof.
  intros s s' target target' t t' out T T' R R' L L' G G'.
  destruct (C51_fill s target) as [(o & E & _ & F) _]. destruct (C51_fill s' target') as [(o' & E' & _ & F') _]. rewrite G in E. rewrite G' in E'.
  injection E as Et Eo. injection E' as Et' Eo'. rewrite <- Eo in F. rewrite <- Eo' in F'. rewrite L in F, Et. rewrite L' in F', Et'.
  assert (V : forall k, (k < 2)%nat -> value k s = value k s').
  { intros k K. apply same_bytes; [apply value_range, T | apply value_range, T'|]. intros i I. specialize (F (k * 8 + i)%nat ltac:(lia)). specialize (F' (k * 8 + i)%nat ltac:(lia)).
    replace ((k * 8 + i) / 8)%nat with k in F, F' by (apply Nat.div_unique with i; lia). replace ((k * 8 + i) mod 8)%nat with i in F, F' by (apply Nat.mod_unique with k; lia). congruence. }
  assert (S : s = s') by (apply C131_determined; try assumption; [apply V; lia | f_equal; apply V; lia]). split; [exact S|]. rewrite Et, Et', S. reflexivity.
Qed.
(** ... there is a function from those bytes to the state, and with it to all later bytes, keys, salts and primes, for every seed. *)
Lemma found {A} (f : A -> bool) l x : In x l -> f x = true -> exists y, find f l = Some y /\ f y = true.
Proof. intros I F. destruct (find f l) as [y|] eqn:E; [exists y; split; [reflexivity | apply (find_some _ _ E)]|]. rewrite (find_none _ _ E x I) in F. discriminate F. Qed.
Lemma in_range n c : 0 <= c < n -> In c (map Z.of_nat (seq 0 (Z.to_nat n))).
Proof. intros H. apply in_map_iff. exists (Z.to_nat c). split; [apply Z2Nat.id; lia|]. apply in_seq. lia. Qed.
Theorem C131_predict_refuted : exists predict : list Z -> rng, forall s target t out, tests s = [] -> 0 <= cval s < 2 ^ 64 -> length target = 16%nat ->
  generate_random8 s target = Ok (t, out) -> predict out = t.
Proof.
  set (hit := fun out c => (0 <=? c) && (c <? 2 ^ 64) && match generate_random8 (Rng [] c) (repeat 0 16) with Ok (_, o) => list_eqb o out | _ => false end).
  exists (fun out => match find (hit out) (map Z.of_nat (seq 0 (Z.to_nat (2 ^ 64)))) with Some c => after 2 (Rng [] c) | None => fresh_rng end).
  intros [ts c] target t out T R L G. cbn [tests cval] in *. subst ts.
  assert (G0 : generate_random8 (Rng [] c) (repeat 0 16) = Ok (t, out)) by (rewrite <- G; apply (proj1 (C51_independent (Rng [] c) (repeat 0 16) target (eq_trans (repeat_length 0 16) (eq_sym L))))).
  assert (HIT : hit out c = true) by (unfold hit; rewrite G0, (proj2 (list_eqb_eq out out) eq_refl), (proj2 (Z.leb_le 0 c) (proj1 R)), (proj2 (Z.ltb_lt c (2 ^ 64)) (proj2 R)); reflexivity).
  destruct (found (hit out) _ c (in_range _ c R) HIT) as (y & -> & HY). unfold hit in HY. apply andb_true_iff in HY as [RY HY]. apply andb_true_iff in RY as [RY1 RY2]. apply Z.leb_le in RY1. apply Z.ltb_lt in RY2.
  destruct (generate_random8 (Rng [] y) (repeat 0 16)) as [[t' o]| | |] eqn:GY; try discriminate HY. apply list_eqb_eq in HY. subst o.
  destruct (C131_bytes (Rng [] y) (Rng [] c) (repeat 0 16) (repeat 0 16) t' t out eq_refl eq_refl (conj RY1 RY2) R (repeat_length _ _) (repeat_length _ _) GY G0) as [E _]. rewrite E.
  destruct (C51_fill (Rng [] c) (repeat 0 16)) as [(o & E1 & _) _]. rewrite G0 in E1. injection E1 as -> _. reflexivity.
Qed.
Print Assumptions C131_bytes.
Print Assumptions C131_predict_refuted.
(** Two states with the same first value exist, so the second is needed. *)
Example C131_case : let s := Rng [] 17437166598339548353 in let s' := Rng [] 14647949936141425613 in
  tests s = [] /\ 0 <= cval s < 2 ^ 64 /\ 0 <= cval s' < 2 ^ 64 /\ value 0 s = value 0 s' /\ value 1 s <> value 1 s' /\
  exists t out, generate_random8 s (repeat 0 16) = Ok (t, out).
Proof.
  intros s s'. split; [reflexivity|]. split; [split; vm_compute; (reflexivity || discriminate)|]. split; [split; vm_compute; (reflexivity || discriminate)|].
  split; [vm_compute; reflexivity|]. split; [intros E; vm_compute in E; discriminate E|]. eexists _, _. vm_compute. reflexivity.
Qed.
