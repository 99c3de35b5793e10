(** Property C105: threads that draw random values. *)
From Verif Require Import Base BaseP M_Random P_Random M_Threads.
Open Scope Z_scope.

(** A schedule in which calls do not overlap: each thread makes all its steps in turn. *)
Definition in_turn (order : list nat) : list nat := flat_map (fun t => repeat t 7) order.
(** [n] threads about to call. *)
Definition idle (n : nat) : list place := repeat Start n.

Lemma nth_error_upd {A} (l : list A) i j v : (i < length l)%nat -> nth_error (upd l i v) j = if Nat.eqb j i then Some v else nth_error l j.
Proof.
  intros H. destruct (Nat.lt_ge_cases j (length l)) as [L|L].
  - rewrite (nth_error_nth' (upd l i v) v) by (rewrite upd_length; exact L). rewrite nth_upd by exact H. rewrite (nth_error_nth' l v L). destruct (Nat.eqb j i); reflexivity.
  - rewrite (proj2 (nth_error_None (upd l i v) j)) by (rewrite upd_length; exact L). destruct (Nat.eqb_spec j i); [lia|]. symmetry. apply nth_error_None. exact L.
Qed.
Lemma upd_upd {A} (l : list A) i v w : upd (upd l i v) i w = upd l i w.
Proof.
  destruct (Nat.lt_ge_cases i (length l)) as [L|L].
  - apply (nth_ext _ _ v v); [rewrite !upd_length; reflexivity|]. intros j _. rewrite !nth_upd by (rewrite ?upd_length; exact L). destruct (Nat.eqb j i); reflexivity.
  - assert (E : forall x : A, upd l i x = l) by (intros x; unfold upd; rewrite skipn_all2, app_nil_r, firstn_all2 by lia; reflexivity). rewrite !E. reflexivity.
Qed.
Lemma run_app a b s ts : run (a ++ b) s ts = do r <- run a s ts; run b (fst r) (snd r).
Proof.
  revert s ts. induction a as [|t a IH]; intros s ts; [reflexivity|]. cbn [app run]. destruct (nth_error ts t) as [p|]; [|apply IH]. destruct (step s p) as [[s' p']| | |]; [apply IH | reflexivity..].
Qed.
Lemma run_step t rest s ts p s' p' : nth_error ts t = Some p -> step s p = Ok (s', p') -> run (t :: rest) s ts = run rest s' (upd ts t p').
Proof. intros E1 E2. cbn [run]. rewrite E1, E2. reflexivity. Qed.
Lemma nth_error_self {A} (l : list A) i v : (i < length l)%nat -> nth_error (upd l i v) i = Some v.
Proof. intros H. rewrite nth_error_upd, Nat.eqb_refl by exact H. reflexivity. Qed.

(** One call on its own does what the sequential model of generate_random_value does. *)
Theorem C105_alone : forall s ts t, nth_error ts t = Some Start -> let r := generate_random_value s in run (repeat t 7) s ts = Ok (snd r, upd ts t (Done (fst r))).
Proof.
  intros s ts t E. cbv zeta. assert (L : (t < length ts)%nat) by (apply nth_error_Some; congruence). unfold generate_random_value. destruct s as [tv c]. cbn [tests cval]. destruct tv as [|v tv]; cbn [repeat].
  - rewrite (run_step t _ _ _ Start _ _ E eq_refl). cbn [step tests].
    repeat (erewrite run_step; [|apply nth_error_self; exact L | reflexivity]; rewrite upd_upd). cbn [run tests cval fst snd]. reflexivity.
  - rewrite (run_step t _ _ _ Start _ _ E eq_refl). cbn [step tests].
    repeat (erewrite run_step; [|apply nth_error_self; exact L | reflexivity]; rewrite upd_upd). cbn [run tests cval fst snd]. reflexivity.
Qed.
Print Assumptions C105_alone.
(** Calls which do not overlap share out the values of the one sequence: none is lost or given twice. *)
Theorem C105_in_turn_partial : forall s n order, NoDup order -> Forall (fun t => (t < n)%nat) order ->
  exists s' ts, run (in_turn order) s (idle n) = Ok (s', ts) /\ s' = after (length order) s /\ forall i, (i < length order)%nat -> nth_error ts (nth i order O) = Some (Done (value i s)).
Proof.
  intros s n order ND F.
  assert (G : forall order s ts, NoDup order -> Forall (fun t => nth_error ts t = Some Start) order ->
    exists s' ts', run (in_turn order) s ts = Ok (s', ts') /\ s' = after (length order) s /\ (forall i, (i < length order)%nat -> nth_error ts' (nth i order O) = Some (Done (value i s))) /\ forall t, ~ In t order -> nth_error ts' t = nth_error ts t).
  { clear. induction order as [|t order IH]; intros s ts ND F; [exists s, ts; split; [reflexivity|]; split; [reflexivity|]; split; [intros i H; cbn [length] in H; lia | reflexivity]|].
    inversion ND as [|? ? N1 N2]; subst. inversion F as [|? ? F1 F2]; subst. assert (L : (t < length ts)%nat) by (apply nth_error_Some; congruence). unfold in_turn. cbn [flat_map]. rewrite run_app, (C105_alone s ts t F1). cbn [bind fst snd].
    destruct (IH (snd (generate_random_value s)) (upd ts t (Done (fst (generate_random_value s)))) N2) as (s' & ts' & R & S1 & V & O).
    { rewrite Forall_forall in *. intros u U. rewrite nth_error_upd by exact L. destruct (Nat.eqb_spec u t); [subst u; contradiction | apply F2, U]. }
    exists s', ts'. split; [exact R|]. split; [exact S1|]. split.
    - intros [|i] H; cbn [nth length] in *; [rewrite O by exact N1; apply nth_error_self, L | rewrite V by lia; reflexivity].
    - intros u U. rewrite O by (intros K; apply U; right; exact K). rewrite nth_error_upd by exact L. destruct (Nat.eqb_spec u t); [subst u; exfalso; apply U; left; reflexivity | reflexivity]. }
  destruct (G order s (idle n) ND) as (s' & ts & R & E & V & _); [|exists s', ts; auto].
  eapply Forall_impl; [|exact F]. intros t H. unfold idle. rewrite (nth_error_nth' _ Start) by (rewrite repeat_length; exact H). f_equal. apply nth_repeat.
Qed.
Print Assumptions C105_in_turn_partial.

(** Finding: two calls that run in step return the same value, in every state of the generator. *)
Definition in_step : list nat := flat_map (fun _ => [0; 1]%nat) (seq 0 7).
Theorem C105_same_value_refuted : forall s, tests s = [] -> run in_step s (idle 2) = Ok (after 1 s, [Done (value 0 s); Done (value 0 s)]).
Proof. intros [tv c] H. cbn [tests] in H. subst tv. reflexivity. Qed.
Print Assumptions C105_same_value_refuted.
Lemma same (s t : rng) (p q : place) : Ok (s, p) = Ok (t, q) -> s = t.
Proof. intros H. exact (f_equal (fun r => match r with Ok (a, _) => a | _ => s end) H). Qed.
(** What a step is said to access is what it depends on and changes. *)
Theorem C105_accesses : forall s s' p, match access p with
  | Some (TestValues, w) => (tests s = tests s' -> match step s p, step s' p with Ok (t, q), Ok (t', q') => q = q' /\ tests t = tests t' /\ cval t = cval s | UB, UB => True | _, _ => False end) /\
      (w = false -> forall t q, step s p = Ok (t, q) -> t = s)
  | Some (Cval, w) => (cval s = cval s' -> match step s p, step s' p with Ok (t, q), Ok (t', q') => q = q' /\ cval t = cval t' /\ tests t = tests s | _, _ => False end) /\
      (w = false -> forall t q, step s p = Ok (t, q) -> t = s)
  | None => step s p = Ok (s, p)
  end.
Proof.
  intros [tv c] [tv' c'] p. destruct p; cbn [access step tests cval].
  1, 2: split; [intros <-; destruct tv; auto | intros _ t q; destruct tv; intros H; inversion H; reflexivity].
  - split; [intros <-; destruct tv; auto | discriminate].
  - split; [intros <-; repeat split | intros _ t q H; exact (eq_sym (same _ _ _ _ H))].
  - split; [intros _; repeat split | discriminate].
  - split; [intros <-; repeat split | intros _ t q H; exact (eq_sym (same _ _ _ _ H))].
  - split; [intros <-; repeat split | intros _ t q H; exact (eq_sym (same _ _ _ _ H))].
  - split; [intros _; repeat split | discriminate].
  - split; [intros <-; repeat split | intros _ t q H; exact (eq_sym (same _ _ _ _ H))].
  - reflexivity.
Qed.
Print Assumptions C105_accesses.
(** Finding: a schedule leads to one thread about to write cval and another about to read it, and
    another schedule to the same for the queued test values, which in C++ is undefined. *)
Theorem C105_race_refuted : forall s, exists schedule s' p q l, run schedule s (idle 2) = Ok (s', [p; q]) /\ access p = Some (l, true) /\ access q = Some (l, false) /\
  (tests s = [] -> l = Cval) /\ (tests s <> [] -> l = TestValues).
Proof.
  intros [[|v tv] c]; [exists [0; 0; 1]%nat | exists [0; 0; 1]%nat]; do 4 eexists; (split; [reflexivity|]); (split; [reflexivity|]); (split; [reflexivity|]); cbn [tests]; split; congruence.
Qed.
Print Assumptions C105_race_refuted.
(** Finding: with one value queued for tests the second of two threads reads the last element of an
    empty vector, or, when both read it first, gets the same value and removes from an empty vector. *)
Theorem C105_pop_refuted : forall v c, run [0; 1; 0; 0; 1]%nat (Rng [v] c) (idle 2) = UB /\
  run [0; 1; 0; 1]%nat (Rng [v] c) (idle 2) = Ok (Rng [v] c, [Pop v; Pop v]) /\ run [0; 1; 0; 1; 0; 1]%nat (Rng [v] c) (idle 2) = UB.
Proof. intros v c. split; [reflexivity|]. split; reflexivity. Qed.
Print Assumptions C105_pop_refuted.
Example C105_case : run in_step fresh_rng (idle 2) = Ok (after 1 fresh_rng, [Done 0x5153425377f51e96; Done 0x5153425377f51e96]) /\
  run (in_turn [1; 0]%nat) fresh_rng (idle 2) = Ok (after 2 fresh_rng, [Done 0xe41fa8d57e55fbb4; Done 0x5153425377f51e96]).
Proof. split; vm_compute; reflexivity. Qed.
