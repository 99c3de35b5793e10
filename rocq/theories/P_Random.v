(** The generator: period of the internal state, and the filling loops. *)
From Verif Require Import Base BaseP S_Bignum M_Bignum P_Bignum M_Random.
Open Scope Z_scope.

(** ** The recurrence, without wraps *)
Definition aff (x : Z) : Z := lcg_A * x + lcg_C.
Fixpoint iter {A} (k : nat) (f : A -> A) (x : A) : A := match k with O => x | S j => iter j f (f x) end.
Lemma iter_add {A} (f : A -> A) : forall a b x, iter (a + b) f x = iter b f (iter a f x).
Proof. induction a as [|a IH]; intros b x; [reflexivity | apply IH]. Qed.
Lemma iter_S {A} (f : A -> A) : forall a x, iter (S a) f x = f (iter a f x).
Proof. induction a as [|a IH]; intros x; [reflexivity|]. cbn [iter]. rewrite <- IH. reflexivity. Qed.

Lemma lcg_aff c : lcg c = aff c mod 2 ^ 64.
Proof. unfold lcg, aff, w64. rewrite Z.add_mod_idemp_l by lia. f_equal; ring. Qed.
Lemma lcg_range c : 0 <= lcg c < 2 ^ 64. Proof. rewrite lcg_aff; apply Z.mod_pos_bound; lia. Qed.
Lemma aff_mod m x : 0 < m -> aff (x mod m) mod m = aff x mod m.
Proof. intros H; unfold aff. rewrite Z.add_mod, Z.mul_mod_idemp_r, <- Z.add_mod by lia. reflexivity. Qed.
Lemma iter_lcg : forall k c, iter k lcg c mod 2 ^ 64 = iter k aff c mod 2 ^ 64.
Proof. induction k as [|k IH]; intros c; [reflexivity|]. rewrite !iter_S, lcg_aff, Z.mod_mod by lia. rewrite <- (aff_mod _ (iter k lcg c)), IH, aff_mod by lia. reflexivity. Qed.
Lemma iter_lcg_range k c : 0 <= c < 2 ^ 64 -> 0 <= iter k lcg c < 2 ^ 64.
Proof. intros H; destruct k as [|k]; [exact H|]. rewrite iter_S; apply lcg_range. Qed.

(** 2^j steps are x -> a x + b with a = 1 modulo 2^(j+2) and b = 2^j modulo 2^(j+1). *)
Lemma powers : forall j, exists a b, (forall x, iter (2 ^ j)%nat aff x = a * x + b) /\
  (2 ^ (Z.of_nat j + 2) | a - 1) /\ exists u, b = 2 ^ Z.of_nat j * (2 * u + 1).
Proof.
  induction j as [|j (a & b & E & [v Da] & u & Db)].
  - exists lcg_A, lcg_C. split; [reflexivity|]. split; [exists ((lcg_A - 1) / 4); vm_compute; reflexivity | exists ((lcg_C - 1) / 2); vm_compute; reflexivity].
  - exists (a * a), ((a + 1) * b). split; [intros x; replace (2 ^ S j)%nat with (2 ^ j + 2 ^ j)%nat by (cbn [Nat.pow]; lia); rewrite iter_add, !E; ring|].
    rewrite Nat2Z.inj_succ. set (J := Z.of_nat j) in *. assert (HJ : 0 <= J) by (unfold J; lia). clearbody J. clear E.
    rewrite Z.pow_add_r in Da by lia. change (2 ^ 2) with 4 in Da. unfold Z.succ. rewrite !Z.pow_add_r by lia. change (2 ^ 1) with 2; change (2 ^ 2) with 4. split.
    + exists (v * (2 * v * 2 ^ J + 1)). replace (a * a - 1) with ((a - 1) * ((a - 1) + 2)) by ring. rewrite Da. ring.
    + exists (v * 2 ^ J * (2 * u + 1) + u). rewrite Db. replace (a + 1) with ((a - 1) + 2) by ring. rewrite Da. ring.
Qed.
Lemma step_pow j x : iter (2 ^ j)%nat aff x mod 2 ^ (Z.of_nat j + 1) = (x + 2 ^ Z.of_nat j) mod 2 ^ (Z.of_nat j + 1).
Proof.
  destruct (powers j) as (a & b & E & [v Da] & u & Db). rewrite E. set (J := Z.of_nat j) in *. assert (0 <= J) by (unfold J; lia). clearbody J.
  rewrite Z.pow_add_r in Da by lia. change (2 ^ 2) with 4 in Da. rewrite Z.pow_add_r by lia. change (2 ^ 1) with 2.
  replace (a * x + b) with (x + 2 ^ J + (2 * v * x + u) * (2 ^ J * 2)) by (replace a with (1 + (a - 1)) by ring; rewrite Da, Db; ring).
  apply Z.mod_add. pose proof (Z.pow_pos_nonneg 2 J ltac:(lia) ltac:(lia)); lia.
Qed.
Lemma step_full j x : iter (2 ^ j)%nat aff x mod 2 ^ Z.of_nat j = x mod 2 ^ Z.of_nat j.
Proof.
  destruct (powers j) as (a & b & E & [v Da] & u & Db). rewrite E. set (J := Z.of_nat j) in *. assert (0 <= J) by (unfold J; lia). clearbody J.
  rewrite Z.pow_add_r in Da by lia. change (2 ^ 2) with 4 in Da.
  replace (a * x + b) with (x + (4 * v * x + 2 * u + 1) * 2 ^ J) by (replace a with (1 + (a - 1)) by ring; rewrite Da, Db; ring).
  apply Z.mod_add. pose proof (Z.pow_pos_nonneg 2 J ltac:(lia) ltac:(lia)); lia.
Qed.
(** Every residue is reached within 2^m steps. *)
Lemma reach x y : forall m, exists k, (k < 2 ^ m)%nat /\ iter k aff x mod 2 ^ Z.of_nat m = y mod 2 ^ Z.of_nat m.
Proof.
  induction m as [|m (k & L & E)]; [exists O; split; [cbn; lia | change (2 ^ Z.of_nat 0) with 1; rewrite !Z.mod_1_r; reflexivity]|].
  pose proof (step_pow m (iter k aff x)) as SP. rewrite <- iter_add in SP.
  set (P := 2 ^ Z.of_nat m) in *. assert (HP : 0 < P) by (apply Z.pow_pos_nonneg; lia).
  replace (2 ^ Z.of_nat (S m)) with (2 * P) by (unfold P; rewrite Nat2Z.inj_succ, Z.pow_succ_r by lia; reflexivity).
  replace (2 ^ (Z.of_nat m + 1)) with (2 * P) in SP by (unfold P; rewrite Z.pow_add_r, Z.pow_1_r by lia; ring).
  set (z := iter k aff x) in *. assert (D : exists q, z = y + P * q).
  { exists (z / P - y / P). pose proof (Z.div_mod z P ltac:(lia)). pose proof (Z.div_mod y P ltac:(lia)). rewrite E in *. lia. }
  destruct D as [q D]. destruct (Z.odd q) eqn:O.
  - exists (k + 2 ^ m)%nat. split; [cbn [Nat.pow]; lia|]. rewrite SP, D. rewrite Zodd_bool_iff, Zodd_ex_iff in O. destruct O as [t ->].
    replace (y + P * (2 * t + 1) + P) with (y + (t + 1) * (2 * P)) by ring. apply Z.mod_add; lia.
  - exists k. split; [cbn [Nat.pow]; lia|]. fold z. rewrite D. assert (EV : Z.even q = true) by (rewrite <- Z.negb_odd, O; reflexivity). rewrite Zeven_bool_iff, Zeven_ex_iff in EV. destruct EV as [t ->].
    replace (y + P * (2 * t)) with (y + t * (2 * P)) by ring. apply Z.mod_add; lia.
Qed.
(** Multiples of 2^j steps, modulo 2^(j+1). *)
Lemma step_mult j : forall c x, iter (c * 2 ^ j)%nat aff x mod 2 ^ (Z.of_nat j + 1) = (x + Z.of_nat c * 2 ^ Z.of_nat j) mod 2 ^ (Z.of_nat j + 1).
Proof.
  induction c as [|c IH]; intros x; [cbn [Nat.mul iter]; f_equal; lia|]. cbn [Nat.mul]. rewrite iter_add, IH, Nat2Z.inj_succ.
  assert (P : 0 < 2 ^ (Z.of_nat j + 1)) by (apply Z.pow_pos_nonneg; lia).
  rewrite <- Z.add_mod_idemp_l, step_pow, Z.add_mod_idemp_l by lia. f_equal; ring.
Qed.
Lemma twos_nat : forall k, (0 < k)%nat -> exists j c, k = ((2 * c + 1) * 2 ^ j)%nat.
Proof.
  intros k. induction k as [k IH] using lt_wf_ind. intros H. destruct (Nat.Even_or_Odd k) as [[m E]|[m E]].
  - destruct (IH m ltac:(lia) ltac:(lia)) as (j & c & V). exists (S j), c. cbn [Nat.pow]. lia.
  - exists O, m. cbn [Nat.pow]. lia.
Qed.
Lemma no_return m k x : (0 < k)%nat -> iter k aff x mod 2 ^ Z.of_nat m = x mod 2 ^ Z.of_nat m -> Nat.divide (2 ^ m) k.
Proof.
  intros K E. destruct (twos_nat k K) as (j & c & ->). destruct (Nat.le_gt_cases m j) as [C|C].
  - exists ((2 * c + 1) * 2 ^ (j - m))%nat. rewrite <- Nat.mul_assoc, <- Nat.pow_add_r. do 2 f_equal. lia.
  - exfalso. pose proof (step_mult j (2 * c + 1) x) as SP.
    assert (D : forall z, z mod 2 ^ Z.of_nat m mod 2 ^ (Z.of_nat j + 1) = z mod 2 ^ (Z.of_nat j + 1)).
    { intros z. symmetry. apply Znumtheory.Zmod_div_mod; try (apply Z.pow_pos_nonneg; lia). exists (2 ^ (Z.of_nat m - Z.of_nat j - 1)). rewrite <- Z.pow_add_r by lia. f_equal; lia. }
    rewrite <- D, E, D in SP. set (P := 2 ^ Z.of_nat j) in *. assert (HP : 0 < P) by (apply Z.pow_pos_nonneg; lia).
    replace (2 ^ (Z.of_nat j + 1)) with (2 * P) in SP by (unfold P; rewrite Z.pow_add_r, Z.pow_1_r by lia; ring).
    assert (Q : (2 * P | Z.of_nat (2 * c + 1) * P)).
    { replace (Z.of_nat (2 * c + 1) * P) with (x + Z.of_nat (2 * c + 1) * P - x) by ring. apply Z.mod_divide; [clear - HP; lia|]. rewrite Zminus_mod, <- SP, Z.sub_diag. apply Z.mod_0_l; clear - HP; lia. }
    destruct Q as [q Q]. rewrite Nat2Z.inj_add, Nat2Z.inj_mul in Q. change (Z.of_nat 2) with 2 in Q; change (Z.of_nat 1) with 1 in Q. clear - Q HP. assert (2 * q = 2 * Z.of_nat c + 1) by (apply (Z.mul_reg_r _ _ P); lia). lia.
Qed.
Lemma full_return m q x : iter (q * 2 ^ m)%nat aff x mod 2 ^ Z.of_nat m = x mod 2 ^ Z.of_nat m.
Proof. induction q as [|q IH] in x |- *; [reflexivity|]. cbn [Nat.mul]. rewrite iter_add, IH. apply step_full. Qed.

(** The same with integer counts. *)
Lemma pow_nat m : Z.of_nat (2 ^ m) = 2 ^ Z.of_nat m.
Proof. rewrite Nat2Z.inj_pow. reflexivity. Qed.
Lemma aff_return m k x : iter k aff x mod 2 ^ Z.of_nat m = x mod 2 ^ Z.of_nat m <-> Z.of_nat k mod 2 ^ Z.of_nat m = 0.
Proof.
  assert (P : 0 < 2 ^ Z.of_nat m) by (apply Z.pow_pos_nonneg; lia). split; intros H.
  - destruct k as [|k]; [apply Z.mod_0_l; lia|]. apply no_return in H; [|lia]. destruct H as [q ->]. rewrite Nat2Z.inj_mul, pow_nat. apply Z.mod_mul; lia.
  - apply Z.mod_divide in H; [|lia]. destruct H as [q H]. assert (0 <= q) by nia.
    replace k with (Z.to_nat q * 2 ^ m)%nat; [apply full_return|]. apply Nat2Z.inj. rewrite Nat2Z.inj_mul, pow_nat, Z2Nat.id by lia. lia.
Qed.
Lemma aff_cancel m x y : 0 < m -> Z.gcd lcg_A m = 1 -> aff x mod m = aff y mod m -> x mod m = y mod m.
Proof.
  intros M G E. assert (D : (m | lcg_A * (x - y))).
  { replace (lcg_A * (x - y)) with (aff x - aff y) by (unfold aff; ring). apply Z.mod_divide; [lia|]. rewrite Zminus_mod, E, Z.sub_diag. apply Z.mod_0_l; lia. }
  apply Z.gauss in D; [|rewrite Z.gcd_comm; exact G]. destruct D as [q D]. replace x with (y + q * m) by lia. apply Z.mod_add; lia.
Qed.
Lemma lcg_iff c k j : 0 <= c < 2 ^ 64 -> (iter k lcg c = iter j lcg c <-> Z.of_nat k mod 2 ^ 64 = Z.of_nat j mod 2 ^ 64).
Proof.
  intros Hc. assert (W : forall a b, (a <= b)%nat -> (iter a lcg c = iter b lcg c <-> Z.of_nat a mod 2 ^ 64 = Z.of_nat b mod 2 ^ 64)).
  { intros a b L. set (d := (b - a)%nat). replace b with (a + d)%nat by lia. rewrite iter_add. set (z := iter a lcg c).
    assert (Hz : 0 <= z < 2 ^ 64) by (apply iter_lcg_range, Hc). assert (Hd : 0 <= iter d lcg z < 2 ^ 64) by (apply iter_lcg_range, Hz).
    pose proof (aff_return 64 d z) as R. change (Z.of_nat 64) with 64 in R. rewrite <- iter_lcg, !Z.mod_small in R by assumption.
    rewrite Nat2Z.inj_add. split; intros E.
    - symmetry in E; apply R in E. rewrite Z.add_mod, E, Z.add_0_r, Z.mod_mod by lia. reflexivity.
    - symmetry; apply R. apply Z.mod_divide; [lia|]. replace (Z.of_nat d) with (Z.of_nat a + Z.of_nat d - Z.of_nat a) by ring. apply Z.mod_divide; [lia|]. rewrite Zminus_mod, <- E, Z.sub_diag. reflexivity. }
  destruct (Nat.le_ge_cases k j) as [C|C]; [apply W, C|]. specialize (W j k C). split; intros E; symmetry; apply W; symmetry; exact E.
Qed.
Lemma lcg_reach c y : 0 <= c < 2 ^ 64 -> 0 <= y < 2 ^ 64 -> exists k, 0 <= k < 2 ^ 64 /\ iter (Z.to_nat k) lcg c = y.
Proof.
  intros Hc Hy. destruct (reach c y 64) as (k & L & E). apply Nat2Z.inj_lt in L. rewrite pow_nat in L. change (Z.of_nat 64) with 64 in *.
  exists (Z.of_nat k). rewrite Nat2Z.id. split; [lia|]. rewrite <- iter_lcg, !Z.mod_small in E; [exact E | exact Hy | apply iter_lcg_range, Hc].
Qed.
(** Half a period turns the top bit. *)
Lemma lcg_half c : 0 <= c < 2 ^ 64 -> iter (Z.to_nat (2 ^ 63)) lcg c = (c + 2 ^ 63) mod 2 ^ 64.
Proof.
  intros Hc. pose proof (step_pow 63 c) as S. change (Z.of_nat 63 + 1) with 64 in S. change (Z.of_nat 63) with 63 in S.
  replace (2 ^ 63)%nat with (Z.to_nat (2 ^ 63)) in S by (apply Nat2Z.inj; rewrite pow_nat, Z2Nat.id by lia; reflexivity).
  rewrite <- iter_lcg, (Z.mod_small (iter _ _ _)) in S; [exact S | apply iter_lcg_range, Hc].
Qed.

(** ** Filling *)
(** The state after [k] calls, and the value call number [k] returns. *)
Definition after (k : nat) (s : rng) : rng := iter k (fun s => snd (generate_random_value s)) s.
Definition value (k : nat) (s : rng) : Z := fst (generate_random_value (after k s)).
Lemma after_S k s : after (S k) s = after k (snd (generate_random_value s)). Proof. reflexivity. Qed.
Lemma value_S k s : value (S k) s = value k (snd (generate_random_value s)). Proof. reflexivity. Qed.

Fixpoint piece (per : nat) (w v : Z) : list Z :=
  match per with O => [] | S k => v mod 2 ^ w :: piece k w (v / 2 ^ w) end.
Lemma piece_length per w : forall v, length (piece per w v) = per.
Proof. induction per as [|k IH]; intros v; cbn [piece length]; [reflexivity | rewrite IH; reflexivity]. Qed.
Lemma piece_nth w : 0 <= w -> forall per v i, (i < per)%nat -> nth i (piece per w v) 0 = (v / 2 ^ (w * Z.of_nat i)) mod 2 ^ w.
Proof.
  intros Hw; induction per as [|k IH]; intros v i Hi; [lia|]. destruct i as [|i]; cbn [piece nth]; [rewrite Z.mul_0_r, Z.pow_0_r, Z.div_1_r; reflexivity|].
  rewrite IH by lia. rewrite Z.div_div by (apply Z.pow_nonzero || apply Z.pow_pos_nonneg; lia). rewrite <- Z.pow_add_r by lia. do 3 f_equal. lia.
Qed.

Lemma set_at (pre : list Z) x t v : setz (pre ++ x :: t) (zlen pre) v = Ok (pre ++ v :: t).
Proof.
  rewrite setz_ok by (rewrite zlen_app, zlen_cons; pose proof (zlen_nonneg pre); pose proof (zlen_nonneg t); lia). f_equal. rewrite zlen_to_nat. unfold upd.
  induction pre as [|a p IH]; [reflexivity|]. cbn [app length firstn skipn]. rewrite IH; reflexivity.
Qed.
Lemma fill_inner_ok w : 0 <= w -> forall left i n v pre rest, zlen pre = i + n ->
  fill_inner left i n w v (pre ++ rest) = Ok (pre ++ firstn (length rest) (piece left w v) ++ skipn left rest).
Proof.
  intros Hw; induction left as [|k IH]; intros i n v pre rest E; cbn [fill_inner piece].
  - rewrite firstn_nil. reflexivity.
  - destruct rest as [|x t].
    + rewrite app_nil_r. replace (i + n =? zlen pre) with true by lia. cbn [length firstn skipn]. rewrite app_nil_r; reflexivity.
    + replace (i + n =? zlen (pre ++ x :: t)) with false by (rewrite zlen_app, zlen_cons; pose proof (zlen_nonneg t); lia).
      rewrite <- E, set_at; cbn [bind]. rewrite land_ones_mod, Z.shiftr_div_pow2 by exact Hw. cbn [length firstn skipn].
      replace (pre ++ v mod 2 ^ w :: t) with ((pre ++ [v mod 2 ^ w]) ++ t) by (rewrite <- app_assoc; reflexivity).
      rewrite IH by (rewrite zlen_app, zlen_cons, zlen_nil; lia). rewrite <- app_assoc. reflexivity.
Qed.

Fixpoint stream (count : nat) (per : nat) (w : Z) (s : rng) : list Z :=
  match count with
  | O => []
  | S k => piece per w (fst (generate_random_value s)) ++ stream k per w (snd (generate_random_value s))
  end.
Lemma stream_nth w per : 0 <= w -> (0 < per)%nat -> forall count s j, (j < count * per)%nat ->
  nth j (stream count per w s) 0 = (value (j / per) s / 2 ^ (w * Z.of_nat (j mod per))) mod 2 ^ w.
Proof.
  intros Hw Hp; induction count as [|k IH]; intros s j Hj; [lia|]. cbn [stream]. destruct (Nat.lt_ge_cases j per) as [C|C].
  - rewrite app_nth1 by (rewrite piece_length; exact C). rewrite piece_nth by assumption. rewrite Nat.div_small, Nat.mod_small by exact C. reflexivity.
  - rewrite app_nth2 by (rewrite piece_length; exact C). rewrite piece_length, IH by (cbn [Nat.mul] in Hj; lia).
    replace j with ((j - per) + 1 * per)%nat at 3 4 by lia. rewrite Nat.div_add, Nat.mod_add, Nat.add_1_r by lia. reflexivity.
Qed.
Definition calls (len per : nat) : nat := ((len + per - 1) / per)%nat.
Lemma calls_0 per : (0 < per)%nat -> calls 0 per = 0%nat. Proof. intros; unfold calls. apply Nat.div_small. lia. Qed.
Lemma calls_S len per : (0 < per)%nat -> (0 < len)%nat -> calls len per = S (calls (len - per) per).
Proof.
  intros Hp Hl; unfold calls. destruct (Nat.le_gt_cases len per) as [C|C].
  - replace (len - per + per - 1)%nat with (per - 1)%nat by lia. rewrite (Nat.div_small (per - 1)) by lia. symmetry; apply Nat.div_unique with (len - 1)%nat; lia.
  - replace (len + per - 1)%nat with (len - per + per - 1 + 1 * per)%nat by lia. rewrite Nat.div_add by lia. lia.
Qed.
Lemma fill_loop_ok per w : 0 <= w -> (0 < per)%nat -> forall fuel n s pre rest, zlen pre = n \/ (rest = [] /\ zlen pre <= n) -> (length rest <= fuel)%nat ->
  fill_loop fuel per w n s (pre ++ rest) = Ok (after (calls (length rest) per) s, pre ++ firstn (length rest) (stream (calls (length rest) per) per w s)).
Proof.
  intros Hw Hp; induction fuel as [|f IH]; intros n s pre rest E L; destruct rest as [|x t]; cbn [length] in L; try lia.
  - cbn [fill_loop length]. rewrite calls_0 by exact Hp. rewrite app_nil_r. replace (n <? zlen pre) with false by (destruct E as [E|[_ E]]; lia). cbn [firstn]. rewrite app_nil_r; reflexivity.
  - cbn [fill_loop length]. rewrite calls_0 by exact Hp. rewrite app_nil_r. replace (n <? zlen pre) with false by (destruct E as [E|[_ E]]; lia). cbn [firstn]. rewrite app_nil_r; reflexivity.
  - destruct E as [E|[E _]]; [|discriminate E]. cbn [fill_loop]. replace (n <? zlen (pre ++ x :: t)) with true by (rewrite zlen_app, zlen_cons; pose proof (zlen_nonneg t); lia).
    set (rest := x :: t) in *. assert (LR : (0 < length rest)%nat) by (cbn [rest length]; lia). assert (LF : (length rest <= S f)%nat) by (cbn [rest length]; lia). clearbody rest.
    rewrite (calls_S (length rest) per Hp LR). rewrite after_S. cbn [stream]. destruct (generate_random_value s) as [v s'] eqn:G. cbn [fst snd].
    rewrite (fill_inner_ok w Hw) by lia. cbn [bind]. rewrite app_assoc.
    assert (LP : length (firstn (length rest) (piece per w v)) = Nat.min (length rest) per) by (rewrite firstn_length, piece_length; reflexivity).
    rewrite IH.
    + rewrite skipn_length, <- app_assoc. do 3 f_equal. rewrite firstn_app, piece_length. reflexivity.
    + rewrite zlen_app. unfold zlen at 2 4. rewrite LP. destruct (Nat.le_gt_cases per (length rest)) as [C|C]; [left; lia | right; split; [apply skipn_all2; lia | lia]].
    + rewrite skipn_length; lia.
Qed.
Theorem fill_ok per w s target : 0 <= w -> (0 < per)%nat ->
  exists out, fill_loop (length target) per w 0 s target = Ok (after (calls (length target) per) s, out) /\ length out = length target /\
    forall j, (j < length target)%nat -> nth j out 0 = (value (j / per) s / 2 ^ (w * Z.of_nat (j mod per))) mod 2 ^ w.
Proof.
  intros Hw Hp. pose proof (fill_loop_ok per w Hw Hp (length target) 0 s [] target (or_introl eq_refl) (Nat.le_refl _)) as E. cbn [app] in E.
  assert (LS : forall count s, length (stream count per w s) = (count * per)%nat) by (induction count as [|k IH]; intros; cbn [stream]; [reflexivity | rewrite app_length, piece_length, IH; lia]).
  assert (LC : (length target <= calls (length target) per * per)%nat).
  { unfold calls. pose proof (Nat.div_mod (length target + per - 1) per ltac:(lia)). pose proof (Nat.mod_upper_bound (length target + per - 1) per ltac:(lia)). lia. }
  eexists; split; [exact E|]; split; [rewrite firstn_length, LS; lia|]. intros j Hj. rewrite <- (stream_nth w per Hw Hp (calls (length target) per)) by lia.
  set (l := stream _ _ _ _). clearbody l. clear - Hj. revert j Hj l. induction (length target) as [|m IH]; intros j Hj l; [lia|]. destruct l as [|x l]; [destruct j; reflexivity|]. destruct j; [reflexivity|]. cbn [firstn nth]. apply IH; lia.
Qed.
Lemma fill64_ok : forall fuel n s pre rest, zlen pre = n -> (length rest <= fuel)%nat ->
  fill64_loop fuel n s (pre ++ rest) = Ok (after (length rest) s, pre ++ map (fun k => value k s) (seq 0 (length rest))).
Proof.
  induction fuel as [|f IH]; intros n s pre rest E L; destruct rest as [|x t]; cbn [length] in L; try lia; cbn [fill64_loop].
  - rewrite app_nil_r. replace (n <? zlen pre) with false by lia. cbn [length seq map]. rewrite app_nil_r; reflexivity.
  - rewrite app_nil_r. replace (n <? zlen pre) with false by lia. cbn [length seq map]. rewrite app_nil_r; reflexivity.
  - replace (n <? zlen (pre ++ x :: t)) with true by (rewrite zlen_app, zlen_cons; pose proof (zlen_nonneg t); lia). cbn [length]. rewrite after_S.
    cbn [seq map]. rewrite <- seq_shift, map_map. unfold value at 1. change (after 0 s) with s. erewrite map_ext; [|intros k; apply value_S].
    destruct (generate_random_value s) as [v s'] eqn:G. cbn [fst snd]. rewrite <- E, set_at; cbn [bind].
    replace (pre ++ v :: t) with ((pre ++ [v]) ++ t) by (rewrite <- app_assoc; reflexivity).
    rewrite IH by (rewrite ?zlen_app, ?zlen_cons, ?zlen_nil; lia). rewrite <- app_assoc. reflexivity.
Qed.
