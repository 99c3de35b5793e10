(** Collisions of an iterated hash function come from its compression function. *)
From Verif Require Import Base BaseP S_Word S_MD.

(** The pairs of chaining value and block given to the compression function. *)
Fixpoint steps {St} (comp : St -> list Z -> St) (s : St) (bs : list (list Z)) : list (St * list Z) :=
  match bs with [] => [] | b :: t => (s, b) :: steps comp (comp s b) t end.

Section Iterated.
Variable St : Type.
Variable comp : St -> list Z -> St.
Hypothesis dec : forall x y : St * list Z, {x = y} + {x <> y}.
Notation run := (fold_left comp).
Notation steps := (steps comp).
Definition ap (x : St * list Z) : St := comp (fst x) (snd x).

Lemma steps_app s a b : steps s (a ++ b) = steps s a ++ steps (run a s) b.
Proof. revert s; induction a as [|x a IH]; intros s; [reflexivity|]; cbn [app P_MDC.steps fold_left]; rewrite IH; reflexivity. Qed.
Lemma steps_snd s bs x : In x (steps s bs) -> In (snd x) bs.
Proof. revert s; induction bs as [|b bs IH]; intros s; [intros []|]; cbn [P_MDC.steps]; intros [<-|I]; [left; reflexivity | right; apply (IH _ I)]. Qed.
Lemma same_count bs : forall bs' s s', length bs = length bs' -> run bs s = run bs' s' ->
  (s = s' /\ bs = bs') \/ exists x y, In x (steps s bs) /\ In y (steps s' bs') /\ x <> y /\ ap x = ap y.
Proof.
  induction bs as [|b bs IH]; intros [|b' bs'] s s' L E; try discriminate L; [left; split; [exact E | reflexivity]|].
  cbn [fold_left P_MDC.steps length] in *.
  destruct (IH bs' (comp s b) (comp s' b') ltac:(lia) E) as [[E1 ->]|(x & y & Ix & Iy & N & C)].
  - destruct (dec (s, b) (s', b')) as [D|D]; [left; injection D as -> ->; split; reflexivity|right].
    exists (s, b), (s', b'); split; [left; reflexivity|]; split; [left; reflexivity|]; split; [exact D | exact E1].
  - right; exists x, y; split; [right; exact Ix|]; split; [right; exact Iy|]; split; assumption.
Qed.

Variables (B L : nat) (field : Z -> list Z).
Hypothesis HB : (L < B)%nat.
Hypothesis field_length : forall n, length (field n) = L.
Hypothesis field_inj : forall a b, 0 <= a < 2 ^ 64 -> 0 <= b < 2 ^ 64 -> field a = field b -> a = b.
Definition padm (m : list Z) : list Z := m ++ [0x80] ++ repeat 0 (zero_bytes (Z.of_nat B) (Z.of_nat L) (zlen m)) ++ field (8 * zlen m).

(** Whole blocks, the last one ending in the length field. *)
Lemma padm_count m : exists k, length (padm m) = (S k * B)%nat /\ forall m', zlen m' = zlen m -> length (padm m') = (S k * B)%nat.
Proof.
  destruct (zero_bytes_fills (Z.of_nat B) (Z.of_nat L) (zlen m) ltac:(lia) ltac:(lia) (zlen_nonneg m)) as [[k D] _].
  assert (Q : forall m', zlen m' = zlen m -> Z.of_nat (length (padm m')) = k * Z.of_nat B).
  { intros m' E; rewrite <- D, <- E; unfold padm; rewrite !app_length, repeat_length, field_length; cbn [length]; unfold zlen; lia. }
  pose proof (zlen_nonneg m); assert (K : 0 < k) by nia; exists (Z.to_nat (k - 1)).
  assert (P : forall m', zlen m' = zlen m -> length (padm m') = (S (Z.to_nat (k - 1)) * B)%nat) by (intros m' E; pose proof (Q m' E); nia).
  split; [apply P; reflexivity | exact P].
Qed.
Lemma padm_blocks m : exists bs b p, chunks B (padm m) = bs ++ [b] /\ length b = B /\ b = p ++ field (8 * zlen m).
Proof.
  destruct (padm_count m) as (k & K & _). destruct (chunks_lengths B (S k) (padm m) ltac:(lia) K) as [F N].
  destruct (exists_last (l := chunks B (padm m))) as (bs & b & E); [intros E; rewrite E in N; discriminate N|].
  rewrite E in F; apply Forall_app in F; destruct F as [_ F]; inversion F as [|? ? Lb _]; subst.
  exists bs, b, (firstn (B - L) b); split; [exact E|]; split; [exact Lb|].
  assert (P : padm m = concat bs ++ b) by (rewrite <- (chunks_concat B (padm m)) by lia; rewrite E, concat_app; cbn [concat]; rewrite app_nil_r; reflexivity).
  rewrite <- (firstn_skipn (B - L) b) at 1; f_equal.
  rewrite <- (firstn_skipn (length b - L) b), app_assoc in P; unfold padm in P; rewrite !app_assoc in P.
  assert (Q : skipn (length b - L) b = field (8 * zlen m)).
  { apply (f_equal (@rev Z)) in P; rewrite !rev_app_distr in P; apply (f_equal (firstn L)) in P.
    rewrite !firstn_app, !rev_length, skipn_length, field_length in P.
    replace (L - L)%nat with 0%nat in P by lia; replace (L - (length b - (length b - L)))%nat with 0%nat in P by lia; cbn [firstn] in P.
    rewrite !app_nil_r, !firstn_all2 in P by (rewrite rev_length, ?skipn_length, ?field_length; lia).
    apply (f_equal (@rev Z)) in P; rewrite !rev_involutive in P; symmetry; exact P. }
  rewrite <- Q, Lb; reflexivity.
Qed.
Lemma padm_inj m m' : zlen m = zlen m' -> padm m = padm m' -> m = m'.
Proof.
  intros ZL E; assert (T : forall (a r : list Z) n, length a = n -> firstn n (a ++ r) = a).
  { clear; intros a r n <-; rewrite firstn_app, Nat.sub_diag, firstn_all; apply app_nil_r. }
  apply (f_equal (firstn (length m))) in E; unfold padm in E; rewrite !T in E by (unfold zlen in ZL; lia); exact E.
Qed.

(** What the padding adds depends on the length only. *)
Definition added_pad (n : Z) : list Z := [0x80] ++ repeat 0 (zero_bytes (Z.of_nat B) (Z.of_nat L) n) ++ field (8 * n).
Lemma padm_added m : padm m = m ++ added_pad (zlen m). Proof. reflexivity. Qed.
Lemma run_last m s0 : exists s b, run (chunks B (padm m)) s0 = comp s b.
Proof. destruct (padm_blocks m) as (bs & b & p & E & _); exists (run bs s0), b; rewrite E, fold_left_app; reflexivity. Qed.
Lemma run_extended m x s0 : run (chunks B (padm (m ++ added_pad (zlen m) ++ x))) s0 =
  run (chunks B (x ++ added_pad (zlen m + zlen (added_pad (zlen m)) + zlen x))) (run (chunks B (padm m)) s0).
Proof.
  destruct (padm_count m) as (k & K & _). rewrite (padm_added (m ++ _ ++ _)), !app_assoc, <- (padm_added m), <- app_assoc.
  rewrite (chunks_app_mult B (S k)) by (lia || exact K); rewrite fold_left_app; do 5 f_equal; rewrite padm_added, !zlen_app; lia.
Qed.

Variable out : St -> list Z.
Theorem collision s0 m m' : zlen m < 2 ^ 61 -> zlen m' < 2 ^ 61 -> m <> m' ->
  out (run (chunks B (padm m)) s0) = out (run (chunks B (padm m')) s0) ->
  exists x y, In x (steps s0 (chunks B (padm m))) /\ In y (steps s0 (chunks B (padm m'))) /\ x <> y /\ out (ap x) = out (ap y) /\
    length (snd x) = B /\ length (snd y) = B.
Proof.
  intros Hm Hm' D E.
  assert (Ls : forall m x, In x (steps s0 (chunks B (padm m))) -> length (snd x) = B).
  { clear m m' Hm Hm' D E; intros m x I; apply steps_snd in I; destruct (padm_count m) as (k & K & _).
    destruct (chunks_lengths B (S k) (padm m) ltac:(lia) K) as [F _]; rewrite Forall_forall in F; apply F, I. }
  assert (G : exists x y, In x (steps s0 (chunks B (padm m))) /\ In y (steps s0 (chunks B (padm m'))) /\ x <> y /\ out (ap x) = out (ap y)).
  2: { destruct G as (x & y & Ix & Iy & N & O); exists x, y; repeat split; try assumption; [apply (Ls m), Ix | apply (Ls m'), Iy]. }
  clear Ls; destruct (padm_blocks m) as (bs & b & p & Eb & Lb & Fb), (padm_blocks m') as (bs' & b' & p' & Eb' & Lb' & Fb').
  set (x := (run bs s0, b)); set (y := (run bs' s0, b')).
  assert (Ix : In x (steps s0 (chunks B (padm m)))) by (rewrite Eb, steps_app; apply in_or_app; right; left; reflexivity).
  assert (Iy : In y (steps s0 (chunks B (padm m')))) by (rewrite Eb', steps_app; apply in_or_app; right; left; reflexivity).
  assert (O : out (ap x) = out (ap y)).
  { unfold ap, x, y; cbn [fst snd]; rewrite Eb, Eb', !fold_left_app in E; exact E. }
  destruct (dec x y) as [Q|Q]; [|exists x, y; repeat split; assumption].
  unfold x, y in Q; injection Q as Q1 Q2.
  assert (ZL : zlen m = zlen m').
  { assert (Lp : length p = length p') by (apply (f_equal (@length Z)) in Fb, Fb'; rewrite app_length, field_length in Fb, Fb'; lia).
    rewrite Fb, Fb' in Q2; apply (f_equal (skipn (length p))) in Q2; rewrite skipn_app, skipn_all, Nat.sub_diag, Lp, skipn_app, skipn_all, Nat.sub_diag in Q2; cbn [skipn app] in Q2.
    apply field_inj in Q2; pose proof (zlen_nonneg m); pose proof (zlen_nonneg m'); lia. }
  destruct (padm_count m) as (k & K & K'). pose proof (K' m' (eq_sym ZL)) as K2.
  destruct (chunks_lengths B (S k) (padm m) ltac:(lia) K) as [_ N1], (chunks_lengths B (S k) (padm m') ltac:(lia) K2) as [_ N2].
  rewrite Eb, app_length in N1; rewrite Eb', app_length in N2; cbn [length] in N1, N2.
  destruct (same_count bs bs' s0 s0 ltac:(lia) Q1) as [[_ Q]|(x' & y' & Ix' & Iy' & N & C)].
  - exfalso; apply D; apply padm_inj; [exact ZL|]. rewrite <- (chunks_concat B (padm m)), <- (chunks_concat B (padm m')) by lia. rewrite Eb, Eb', Q, Q2; reflexivity.
  - exists x', y'; split; [rewrite Eb, steps_app; apply in_or_app; left; exact Ix'|]; split; [rewrite Eb', steps_app; apply in_or_app; left; exact Iy'|].
    split; [exact N | rewrite C; reflexivity].
Qed.
End Iterated.
