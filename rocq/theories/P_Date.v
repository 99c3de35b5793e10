(** Proofs about certificate times. *)
From Verif Require Import Base BaseP P_Bignum S_RSA M_RSA P_RSA S_X509 M_X509 P_X509.
Open Scope Z_scope.

Lemma two_val n : 0 <= n < 100 -> exists a b, two_digits n = [a; b] /\ digitb a = true /\ digitb b = true /\ (a - 48) * 10 + b - 48 = n.
Proof.
  intros Hn. exists (48 + n / 10), (48 + n mod 10). split; [reflexivity|]. pose proof (Z.div_mod n 10 ltac:(lia)). pose proof (Z.mod_pos_bound n 10 ltac:(lia)).
  assert (0 <= n / 10 < 10) by (split; [apply Z.div_pos; lia | apply Z.div_lt_upper_bound; lia]). unfold digitb. lia.
Qed.

(** The closed form of the code against the sums of the calendar: years 1970 to 2099. *)
Definition code_days (k month : Z) : Z :=
  k * 365 + (nth (Z.to_nat (month - 1)) daysInMonth 0 + (Z.quot (k + 1) 4 + (if (Z.rem k 4 =? 2) && (2 <? month) then 1 else 0))).
Definition spec_days (k month : Z) : Z :=
  sum_from year_days 1970 (Z.to_nat k) + sum_from (month_days (1970 + k)) 1 (Z.to_nat (month - 1)).
Fixpoint year_table (n : nat) (y acc : Z) : list Z :=
  match n with O => [] | S k => acc :: year_table k (y + 1) (acc + year_days y) end.
Lemma sum_from_S f a n : sum_from f a (S n) = f a + sum_from f (a + 1) n.
Proof.
  unfold sum_from. cbn [seq map fold_right]. rewrite Z.add_0_r. f_equal. rewrite <- seq_shift, map_map. f_equal. apply map_ext. intros i. f_equal. lia.
Qed.
Lemma year_table_nth : forall n y acc i, (i < n)%nat -> nth i (year_table n y acc) 0 = acc + sum_from year_days y i.
Proof.
  induction n as [|n IH]; intros y acc i Hi; [lia|]. cbn [year_table]. destruct i as [|i]; [cbn [nth]; cbn; lia|]. cbn [nth]. rewrite IH by lia. rewrite sum_from_S. lia.
Qed.
Definition months := [1; 2; 3; 4; 5; 6; 7; 8; 9; 10; 11; 12].
Definition days_check (n : nat) (tbl : list Z) : bool :=
  forallb (fun i => let k := Z.of_nat i in let y := nth i tbl 0 in forallb (fun m => code_days k m =? y + sum_from (month_days (1970 + k)) 1 (Z.to_nat (m - 1))) months) (seq 0 n).
Lemma days_checked n k m : days_check n (year_table n 1970 0) = true -> 0 <= k < Z.of_nat n -> 1 <= m <= 12 -> code_days k m = spec_days k m.
Proof.
  intros C Hk Hm. unfold days_check in C. rewrite forallb_forall in C.
  specialize (C (Z.to_nat k) ltac:(apply in_seq; lia)). cbv zeta in C. rewrite forallb_forall in C.
  specialize (C m ltac:(unfold months; cbn [In]; lia)). apply Z.eqb_eq in C. rewrite year_table_nth in C by lia. rewrite Z2Nat.id, Z.add_0_l in C by lia. exact C.
Qed.
Lemma days_check_ok : days_check 130 (year_table 130 1970 0) = true. Proof. vm_compute; reflexivity. Qed.
Lemma days_agree k m : 0 <= k < 130 -> 1 <= m <= 12 -> code_days k m = spec_days k m.
Proof. exact (days_checked 130 k m days_check_ok). Qed.

Definition date_chars (d : date) : list Z := two_digits (d_year d / 100) ++ two_digits (d_year d mod 100) ++ after_year d.
Definition date_tail (c : list Z) (v' : view) : res (Z * view) :=
  if negb (forallb digitb c) then Ok (0, v') else
  do c0 <- getz c 0; do c1 <- getz c 1; do c2 <- getz c 2; do c3 <- getz c 3;
  let year := (c0 - 48) * 1000 + (c1 - 48) * 100 + (c2 - 48) * 10 + (c3 - 48) - 1970 in
  do month <- two c 4;
  if (month <=? 0) || (12 <? month) then Ok (0, v') else
  do day <- two c 6;
  do hours <- two c 8;
  do minutes <- (if 12 <=? zlen c then two c 10 else Ok 0);
  do seconds <- (if 14 <=? zlen c then two c 12 else Ok 0);
  let leapdays := Z.quot (year + 1) 4 + (if (Z.rem year 4 =? 2) && (2 <? month) then 1 else 0) in
  do dm <- getz daysInMonth (month - 1);
  Ok (w64 ((year * 365 + (dm + day - 1 + leapdays)) * 86400 + hours * 3600 + minutes * 60 + seconds), v').
Lemma month_days_range y m : 28 <= month_days y m <= 31.
Proof. unfold month_days. destruct (m =? 2), (leap y), ((m =? 4) || (m =? 6) || (m =? 9) || (m =? 11)); lia. Qed.
Lemma sum_from_le f B : (forall i, 0 <= f i <= B) -> forall n a, 0 <= sum_from f a n <= B * Z.of_nat n.
Proof.
  intros H. induction n as [|n IH]; intros a; [cbn; lia|]. rewrite sum_from_S. specialize (IH (a + 1)). specialize (H a). lia.
Qed.
Lemma year_days_range y : 0 <= year_days y <= 372.
Proof. unfold year_days. pose proof (sum_from_le (month_days y) 31 ltac:(intros i; pose proof (month_days_range y i); lia) 12 1). lia. Qed.
Lemma spec_days_range k m : 0 <= k < 8030 -> 1 <= m <= 12 -> 0 <= spec_days k m <= 372 * 8030 + 372.
Proof.
  intros Hk Hm. unfold spec_days. pose proof (sum_from_le year_days 372 year_days_range (Z.to_nat k) 1970).
  pose proof (sum_from_le (month_days (1970 + k)) 31 ltac:(intros i; pose proof (month_days_range (1970 + k) i); lia) (Z.to_nat (m - 1)) 1). lia.
Qed.
Lemma posix_days d : 1970 <= d_year d -> posix d = (spec_days (d_year d - 1970) (d_month d) + (d_day d - 1)) * 86400 + d_hour d * 3600 + d_min d * 60 + d_sec d.
Proof. intros H. unfold posix, spec_days. replace (1970 + (d_year d - 1970)) with (d_year d) by lia. reflexivity. Qed.

(** What the code needs of a date: a month, a day and two digits for the rest. *)
Definition two_digit_fields (d : date) : Prop :=
  1 <= d_month d <= 12 /\ 1 <= d_day d < 100 /\ 0 <= d_hour d < 100 /\ 0 <= d_min d < 100 /\ 0 <= d_sec d < 100.
Lemma valid_fields d : valid_date d -> two_digit_fields d.
Proof. intros (Hm & Hd & Hh & Hi & Hs). pose proof (month_days_range (d_year d) (d_month d)). unfold two_digit_fields. lia. Qed.
Lemma date_tail_ok d v' : two_digit_fields d -> 1970 <= d_year d <= 2099 -> date_tail (removelast (date_chars d)) v' = Ok (posix d, v').
Proof.
  intros (Hm & Hd & Hh & Hi & Hs) Hy. unfold date_chars, after_year.
  pose proof (Z.div_mod (d_year d) 100 ltac:(lia)) as DY. pose proof (Z.mod_pos_bound (d_year d) 100 ltac:(lia)).
  assert (0 <= d_year d / 100 < 100) by (split; [apply Z.div_pos; lia | apply Z.div_lt_upper_bound; lia]).
  pose proof (two_val (d_year d / 100) ltac:(lia)) as T0.
  pose proof (two_val (d_year d mod 100) ltac:(lia)) as T1.
  pose proof (two_val (d_month d) ltac:(lia)) as T2.
  pose proof (two_val (d_day d) ltac:(lia)) as T3.
  pose proof (two_val (d_hour d) ltac:(lia)) as T4.
  pose proof (two_val (d_min d) ltac:(lia)) as T5.
  pose proof (two_val (d_sec d) ltac:(lia)) as T6.
  destruct T0 as (a0 & a1 & E1 & A0 & A1 & V1).
  destruct T1 as (a2 & a3 & E2 & A2 & A3 & V2).
  destruct T2 as (a4 & a5 & E3 & A4 & A5 & V3).
  destruct T3 as (a6 & a7 & E4 & A6 & A7 & V4).
  destruct T4 as (a8 & a9 & E5 & A8 & A9 & V5).
  destruct T5 as (b0 & b1 & E6 & B0 & B1 & V6).
  destruct T6 as (b2 & b3 & E7 & B2 & B3 & V7).
  rewrite E1, E2, E3, E4, E5, E6, E7. cbn [app removelast]. unfold date_tail. cbn [forallb]. rewrite A0, A1, A2, A3, A4, A5, A6, A7, A8, A9, B0, B1, B2, B3. clear A0 A1 A2 A3 A4 A5 A6 A7 A8 A9 B0 B1 B2 B3. cbn [andb negb].
  unfold two. unfold getz at 1 2 3 4 5 6 7 8 9 10 11 12 13 14.
  change (zlen [a0; a1; a2; a3; a4; a5; a6; a7; a8; a9; b0; b1; b2; b3]) with 14.
  change (0 <=? 0) with true; change (0 <=? 1) with true; change (0 <=? 2) with true; change (0 <=? 3) with true; change (0 <=? 4) with true; change (4 + 1) with 5;
  change (0 <=? 5) with true; change (0 <=? 6) with true; change (6 + 1) with 7; change (0 <=? 7) with true; change (0 <=? 8) with true; change (8 + 1) with 9; change (0 <=? 9) with true;
  change (0 <=? 10) with true; change (10 + 1) with 11; change (0 <=? 11) with true; change (0 <=? 12) with true; change (12 + 1) with 13; change (0 <=? 13) with true.
  change (12 <=? 14) with true; change (14 <=? 14) with true.
  change (Z.to_nat 0) with 0%nat; change (Z.to_nat 1) with 1%nat; change (Z.to_nat 2) with 2%nat; change (Z.to_nat 3) with 3%nat; change (Z.to_nat 4) with 4%nat; change (Z.to_nat 5) with 5%nat; change (Z.to_nat 6) with 6%nat;
  change (Z.to_nat 7) with 7%nat; change (Z.to_nat 8) with 8%nat; change (Z.to_nat 9) with 9%nat; change (Z.to_nat 10) with 10%nat; change (Z.to_nat 11) with 11%nat; change (Z.to_nat 12) with 12%nat; change (Z.to_nat 13) with 13%nat.
  cbn [nth_error bind]. rewrite V3, V4, V5, V6, V7.
  replace ((a0 - 48) * 1000 + (a1 - 48) * 100 + (a2 - 48) * 10 + (a3 - 48) - 1970) with (d_year d - 1970) by lia.
  destruct (Z.leb_spec (d_month d) 0); [lia|]. destruct (Z.ltb_spec 12 (d_month d)); [lia|]. cbn [orb].
  rewrite (getz_nth _ _ 0) by (change (zlen daysInMonth) with 12; lia). cbn [bind]. f_equal. f_equal.
  pose proof (days_agree (d_year d - 1970) (d_month d) ltac:(lia) Hm) as DA. pose proof (spec_days_range (d_year d - 1970) (d_month d) ltac:(lia) Hm) as SR.
  rewrite posix_days by lia. unfold code_days in DA. rewrite w64_small by lia. lia.
Qed.
Lemma after_year_length d : zlen (after_year d) = 11. Proof. reflexivity. Qed.
Lemma last_date d l : getz (l ++ after_year d) (zlen (l ++ after_year d) - 1) = Ok 90.
Proof.
  unfold after_year. rewrite !app_assoc. apply getz_cur'. rewrite !zlen_app. change (zlen [90]) with 1. lia.
Qed.
Lemma parse_generalized_fields d pre post rest : two_digit_fields d -> 1970 <= d_year d <= 2099 ->
  parse_date (cur pre (generalized_time d ++ post) rest) = Ok (posix d, cur (pre ++ generalized_time d) post rest).
Proof.
  intros Hv Hy. unfold parse_date, generalized_time. rewrite read_tlv by reflexivity. cbn [bind s_data].
  rewrite app_assoc, last_date. cbn [bind]. change (negb (90 =? 90)) with false. cbv iota. change (24 =? id_utctime) with false. change (24 =? id_generalizedtime) with true. cbv iota. cbn [bind].
  rewrite <- app_assoc. exact (date_tail_ok d _ Hv Hy).
Qed.
Lemma parse_utc_fields d pre post rest : two_digit_fields d -> 1970 <= d_year d <= 2049 ->
  parse_date (cur pre (utc_time d ++ post) rest) = Ok (posix d, cur (pre ++ utc_time d) post rest).
Proof.
  intros Hv Hy. unfold parse_date, utc_time. rewrite read_tlv by reflexivity. cbn [bind s_data]. rewrite last_date. cbn [bind]. change (negb (90 =? 90)) with false. cbv iota.
  change (23 =? id_utctime) with true. cbv iota. unfold two_digits at 1. cbn [app]. unfold getz at 1. change (0 <=? 0) with true. change (Z.to_nat 0) with 0%nat. cbn [nth_error bind].
  assert (DC : (if 53 <=? 48 + d_year d mod 100 / 10 then [49; 57] else [50; 48]) = two_digits (d_year d / 100)).
  { destruct (Z.lt_ge_cases (d_year d) 2000).
    - assert (E : d_year d / 100 = 19) by (symmetry; apply (Z.div_unique _ _ _ (d_year d - 1900)); lia). assert (E' : d_year d mod 100 = d_year d - 1900) by (symmetry; apply (Z.mod_unique _ _ 19); lia).
      rewrite E, E'. assert (7 <= (d_year d - 1900) / 10) by (apply Z.div_le_lower_bound; lia). destruct (Z.leb_spec 53 (48 + (d_year d - 1900) / 10)); [reflexivity | lia].
    - assert (E : d_year d / 100 = 20) by (symmetry; apply (Z.div_unique _ _ _ (d_year d - 2000)); lia). assert (E' : d_year d mod 100 = d_year d - 2000) by (symmetry; apply (Z.mod_unique _ _ 20); lia).
      rewrite E, E'. assert ((d_year d - 2000) / 10 < 5) by (apply Z.div_lt_upper_bound; lia). destruct (Z.leb_spec 53 (48 + (d_year d - 2000) / 10)); [lia | reflexivity]. }
  rewrite DC. exact (date_tail_ok d _ Hv ltac:(lia)).
Qed.
Lemma parse_time_fields d pre post rest : two_digit_fields d -> 1970 <= d_year d <= 2099 ->
  parse_date (cur pre (time_of d ++ post) rest) = Ok (posix d, cur (pre ++ time_of d) post rest).
Proof.
  intros Hv Hy. unfold time_of. destruct ((1950 <=? d_year d) && (d_year d <? 2050)) eqn:E; [apply parse_utc_fields; [exact Hv | lia] | apply parse_generalized_fields; assumption].
Qed.
Lemma parse_generalized d pre post rest : valid_date d -> 1970 <= d_year d <= 2099 ->
  parse_date (cur pre (generalized_time d ++ post) rest) = Ok (posix d, cur (pre ++ generalized_time d) post rest).
Proof. intros Hv. apply parse_generalized_fields, valid_fields, Hv. Qed.
Lemma parse_time d pre post rest : valid_date d -> 1970 <= d_year d <= 2099 ->
  parse_date (cur pre (time_of d ++ post) rest) = Ok (posix d, cur (pre ++ time_of d) post rest).
Proof. intros Hv. apply parse_time_fields, valid_fields, Hv. Qed.

(** Order. *)
Lemma sum_from_snoc f a n : sum_from f a (S n) = sum_from f a n + f (a + Z.of_nat n).
Proof.
  revert a. induction n as [|n IH]; intros a; [cbn; lia|]. rewrite sum_from_S, IH, (sum_from_S f a n). replace (a + 1 + Z.of_nat n) with (a + Z.of_nat (S n)) by lia. lia.
Qed.
Lemma sum_from_mono f a n k : (forall i, 0 <= f i) -> sum_from f a n <= sum_from f a (n + k).
Proof.
  intros H. induction k as [|k IH]; [rewrite Nat.add_0_r; lia|]. rewrite Nat.add_succ_r, sum_from_snoc. specialize (H (a + Z.of_nat (n + k))). lia.
Qed.
Lemma month_sum y m m' : 1 <= m -> m < m' -> sum_from (month_days y) 1 (Z.to_nat (m - 1)) + month_days y m <= sum_from (month_days y) 1 (Z.to_nat (m' - 1)).
Proof.
  intros H1 H2. replace (Z.to_nat (m' - 1)) with (S (Z.to_nat (m - 1)) + Z.to_nat (m' - m - 1))%nat by lia.
  pose proof (sum_from_mono (month_days y) 1 (S (Z.to_nat (m - 1))) (Z.to_nat (m' - m - 1)) ltac:(intros i; pose proof (month_days_range y i); lia)) as M.
  rewrite sum_from_snoc in M. replace (1 + Z.of_nat (Z.to_nat (m - 1))) with m in M by lia. lia.
Qed.
Lemma year_sum y y' : 1970 <= y -> y < y' -> sum_from year_days 1970 (Z.to_nat (y - 1970)) + year_days y <= sum_from year_days 1970 (Z.to_nat (y' - 1970)).
Proof.
  intros H1 H2. replace (Z.to_nat (y' - 1970)) with (S (Z.to_nat (y - 1970)) + Z.to_nat (y' - y - 1))%nat by lia.
  pose proof (sum_from_mono year_days 1970 (S (Z.to_nat (y - 1970))) (Z.to_nat (y' - y - 1)) ltac:(intros i; apply year_days_range)) as M.
  rewrite sum_from_snoc in M. replace (1970 + Z.of_nat (Z.to_nat (y - 1970))) with y in M by lia. lia.
Qed.
Lemma posix_order a b : valid_date a -> valid_date b -> 1970 <= d_year a -> before a b -> posix a < posix b.
Proof.
  intros (Am & Ad & Ah & Ai & As) (Bm & Bd & Bh & Bi & Bs) Hy HB. unfold posix. unfold before in HB.
  destruct HB as [HB|[Ey HB]].
  { pose proof (year_sum _ _ Hy HB) as Y. pose proof (month_sum (d_year a) (d_month a) 13 ltac:(lia) ltac:(lia)) as M.
    change (Z.to_nat (13 - 1)) with 12%nat in M. fold (year_days (d_year a)) in M.
    pose proof (sum_from_le (month_days (d_year b)) 31 ltac:(intros i; pose proof (month_days_range (d_year b) i); lia) (Z.to_nat (d_month b - 1)) 1). lia. }
  rewrite <- Ey in *. destruct HB as [HB|[Em HB]].
  { pose proof (month_sum (d_year a) _ _ ltac:(apply Am) HB). lia. }
  rewrite <- Em in *. lia.
Qed.
