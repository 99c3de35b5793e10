(** Property C106: the SHA-3 permutation is one, and what a collision of SHA-3 digests gives. *)
From Verif Require Import Base BaseP S_Word P_Word M_SHA3 S_SHA3 P_SHA3 P_Keccak S_Hash P_Hash M_Hash Prop_Hash Prop_CRC3.
From Coq Require Import FinFun.
Open Scope Z_scope.

(** ** The permutation *)
(** The state of an object: 25 words of 64 bits. *)
Definition state_ok (s : list Z) : Prop := length s = 25%nat /\ Forall (word 64) s.
Definition bits (s : list Z) : state := fun x y z => Z.testbit (lane s (5 * y + x)) (Z.of_nat z).
Lemma bits_rep s : state_ok s -> rep s (bits s).
Proof. intros [L F]. split; [exact L|]. split; [exact F|]. reflexivity. Qed.
Lemma rep_inj s t A B : rep s A -> rep t B -> same A B -> s = t.
Proof.
  intros (L & F & H) (L' & F' & H') S0. apply nth_ext with 0 0; [congruence|]. intros i Hi. rewrite L in Hi. change (lane s i = lane t i).
  pose proof (Nat.div_mod i 5 ltac:(lia)) as E. pose proof (Nat.mod_upper_bound i 5 ltac:(lia)) as M. assert (D : (i / 5 < 5)%nat) by (apply Nat.div_lt_upper_bound; lia). rewrite E.
  apply Z.bits_inj'. intros j Hj. destruct (Z.lt_ge_cases j 64) as [J|J].
  - rewrite <- (Z2Nat.id j) by exact Hj. rewrite H, H' by lia. apply S0; lia.
  - rewrite !(testbit_high _ 64) by first [lia | apply lane_word; assumption]. reflexivity.
Qed.
Lemma process_ok s : state_ok s -> state_ok (sha3_processChunk s).
Proof. intros H. destruct (processChunk_rep s _ (bits_rep s H)) as (L & F & _). split; assumption. Qed.
Lemma process_inj s t : state_ok s -> state_ok t -> sha3_processChunk s = sha3_processChunk t -> s = t.
Proof.
  intros Hs Ht E. apply (rep_inj s t (bits s) (bits t)); try (apply bits_rep; assumption). apply keccak_inj.
  destruct (processChunk_rep s _ (bits_rep s Hs)) as (_ & _ & H), (processChunk_rep t _ (bits_rep t Ht)) as (_ & _ & H').
  intros x y z X Y Z. rewrite <- H, <- H', E by assumption. reflexivity.
Qed.
(** Words as one number, to count. *)
Fixpoint pack (l : list Z) : Z := match l with [] => 0 | x :: l' => x + 2 ^ 64 * pack l' end.
Fixpoint unpack (n : nat) (z : Z) : list Z := match n with O => [] | S k => z mod 2 ^ 64 :: unpack k (z / 2 ^ 64) end.
Lemma pow64_S n : 2 ^ (64 * Z.of_nat (S n)) = 2 ^ 64 * 2 ^ (64 * Z.of_nat n).
Proof. rewrite <- Z.pow_add_r by lia. f_equal. lia. Qed.
Lemma pack_range l : Forall (word 64) l -> 0 <= pack l < 2 ^ (64 * Z.of_nat (length l)).
Proof. induction 1 as [|x l X F IH]; [cbn; lia|]. cbn [pack length]. rewrite pow64_S. unfold word in X. nia. Qed.
Lemma unpack_pack l : Forall (word 64) l -> unpack (length l) (pack l) = l.
Proof.
  induction 1 as [|x l X F IH]; [reflexivity|]. cbn [pack length unpack]. unfold word in X. rewrite (Z.mul_comm (2 ^ 64)), Z.mod_add, Z.mod_small, Z.div_add, Z.div_small, Z.add_0_l, IH by lia. reflexivity.
Qed.
Lemma unpack_ok n : forall z, length (unpack n z) = n /\ Forall (word 64) (unpack n z).
Proof. induction n as [|n IH]; intros z; [split; [reflexivity | constructor]|]. destruct (IH (z / 2 ^ 64)) as [L F]. cbn [unpack length]. split; [congruence|]. constructor; [unfold word; apply Z.mod_pos_bound; lia | exact F]. Qed.
Lemma pack_unpack n : forall z, 0 <= z < 2 ^ (64 * Z.of_nat n) -> pack (unpack n z) = z.
Proof.
  induction n as [|n IH]; intros z H; [change (2 ^ (64 * Z.of_nat 0)) with 1 in H; cbn [unpack pack]; lia|]. cbn [unpack pack]. rewrite pow64_S in H. rewrite IH by (split; [apply Z.div_pos; lia | apply Z.div_lt_upper_bound; lia]).
  pose proof (Z.div_mod z (2 ^ 64) ltac:(lia)). lia.
Qed.
Lemma unpack25 s : state_ok s -> unpack 25 (pack s) = s.
Proof. intros [L F]. rewrite <- L. apply unpack_pack, F. Qed.
(** Each state is reached from exactly one state. *)
Theorem C106_permutation : forall t, state_ok t -> exists s, state_ok s /\ sha3_processChunk s = t /\ forall s', state_ok s' -> sha3_processChunk s' = t -> s' = s.
Proof.
  intros t Ht. set (f := fun z => pack (sha3_processChunk (unpack 25 z))). assert (U : forall z, state_ok (unpack 25 z)) by (intros z; exact (unpack_ok 25 z)).
  destruct (finite_onto (2 ^ (64 * Z.of_nat 25)) f) with (z := pack t) as (x & _ & E).
  - intros x _. unfold f. destruct (process_ok _ (U x)) as [L F]. rewrite <- L. apply pack_range, F.
  - intros x y Hx Hy E. unfold f in E. apply (f_equal (unpack 25)) in E. rewrite !unpack25 in E by apply process_ok, U. apply process_inj in E; try apply U.
    rewrite <- (pack_unpack 25 x Hx), <- (pack_unpack 25 y Hy), E. reflexivity.
  - destruct Ht as [L F]. rewrite <- L. apply pack_range, F.
  - exists (unpack 25 x). assert (P : sha3_processChunk (unpack 25 x) = t).
    { unfold f in E. apply (f_equal (unpack 25)) in E. rewrite !unpack25 in E by first [exact Ht | apply process_ok, U]. exact E. }
    split; [apply U|]. split; [exact P|]. intros s' Hs' E'. apply process_inj; [exact Hs' | apply U | congruence].
Qed.
Print Assumptions C106_permutation.

(** ** What a collision gives *)
(** The padded message in blocks, and the state after some blocks (FIPS 202, algorithm 8). *)
Definition blocks (d : nat) (m : list Z) : list (list bool) :=
  chunks (1600 - 2 * d) ((bits_of m ++ [false; true]) ++ pad101 (1600 - 2 * d) (length (bits_of m ++ [false; true]))).
Definition after (bs : list (list bool)) : state := fold_left absorb bs (fun _ _ _ => false).
(** Two states agree on the bits whose positions satisfy P. *)
Definition agree (P : nat -> Prop) (A B : state) : Prop :=
  forall x y z, (x < 5)%nat -> (y < 5)%nat -> (z < 64)%nat -> P (64 * (5 * y + x) + z)%nat -> A x y z = B x y z.

Lemma sponge_after d m : sponge (1600 - 2 * d) (bits_of m ++ [false; true]) = after (blocks d m).
Proof. reflexivity. Qed.
Lemma same_dec A B : {same A B} + {~ same A B}.
Proof.
  destruct (Forall_dec (fun p : nat * nat * nat => A (fst (fst p)) (snd (fst p)) (snd p) = B (fst (fst p)) (snd (fst p)) (snd p)) (fun p => Bool.bool_dec _ _) (list_prod (list_prod (seq 0 5) (seq 0 5)) (seq 0 64))) as [F|F]; rewrite Forall_forall in F.
  - left. intros x y z X Y Z. apply (F (x, y, z)). apply in_prod; [apply in_prod|]; apply in_seq; lia.
  - right. intros H. apply F. intros [[x y] z] I. apply in_prod_iff in I as [I I3]. apply in_prod_iff in I as [I1 I2]. apply in_seq in I1, I2, I3. cbn [fst snd]. apply H; lia.
Qed.

Lemma byte_at_bits A B n : byte_at A n = byte_at B n -> forall j, (j < 8)%nat ->
  A ((n / 8) mod 5)%nat (n / 8 / 5)%nat (8 * (n mod 8) + j)%nat = B ((n / 8) mod 5)%nat (n / 8 / 5)%nat (8 * (n mod 8) + j)%nat.
Proof.
  unfold byte_at. set (f := fun j => A ((n / 8) mod 5)%nat (n / 8 / 5)%nat (8 * (n mod 8) + j)%nat). set (g := fun j => B ((n / 8) mod 5)%nat (n / 8 / 5)%nat (8 * (n mod 8) + j)%nat).
  assert (G : forall l, fold_right (fun (j : nat) acc => Z.b2z (f j) + 2 * acc) 0 l = fold_right (fun (j : nat) acc => Z.b2z (g j) + 2 * acc) 0 l -> forall j, In j l -> f j = g j).
  { induction l as [|a l IH]; intros E j I; [destruct I|]. cbn [fold_right] in E.
    destruct I as [<-|I]; [|apply IH; [|exact I]]; destruct (f a), (g a); cbn [Z.b2z] in E; first [reflexivity | lia]. }
  intros E j J. apply (G (seq 0 8)); [exact E | apply in_seq; lia].
Qed.
Lemma digest_bits d A B : (d mod 8 = 0)%nat -> map (byte_at A) (seq 0 (d / 8)) = map (byte_at B) (seq 0 (d / 8)) -> agree (fun p => p < d)%nat A B.
Proof.
  intros D E x y z X Y Z P. set (p := (64 * (5 * y + x) + z)%nat) in *.
  assert (Q : byte_at A (p / 8) = byte_at B (p / 8)).
  { pose proof (Nat.div_mod d 8 ltac:(lia)). assert (p / 8 < d / 8)%nat by (apply Nat.div_lt_upper_bound; lia).
    assert (N : forall C, nth (p / 8) (map (byte_at C) (seq 0 (d / 8))) (byte_at C 0) = byte_at C (p / 8)) by (intros C; rewrite map_nth, seq_nth by assumption; reflexivity).
    assert (L : length (map (byte_at A) (seq 0 (d / 8))) = (d / 8)%nat) by (rewrite map_length, seq_length; reflexivity).
    rewrite <- (N A), <- (N B), E. apply nth_indep. rewrite <- E, L. assumption. }
  pose proof (byte_at_bits A B (p / 8) Q (p mod 8) ltac:(apply Nat.mod_upper_bound; lia)) as R.
  assert (E1 : (p / 8 / 8 = 5 * y + x)%nat) by (rewrite Nat.div_div by lia; change (8 * 8)%nat with 64%nat; unfold p; symmetry; apply (Nat.div_unique _ 64 _ z); lia).
  assert (E2 : (8 * (p / 8 mod 8) + p mod 8 = z)%nat).
  { pose proof (Nat.div_mod p 8 ltac:(lia)). pose proof (Nat.div_mod (p / 8) 8 ltac:(lia)). rewrite E1 in *. lia. }
  assert (E3 : ((5 * y + x) mod 5 = x)%nat) by (symmetry; apply (Nat.mod_unique _ 5 y); lia).
  assert (E4 : ((5 * y + x) / 5 = y)%nat) by (symmetry; apply (Nat.div_unique _ 5 _ x); lia).
  rewrite E1, E2, E3, E4 in R. exact R.
Qed.

(** Bits to bytes and the padding lose nothing. *)
Lemma bits_of_byte_inj a b : byte a -> byte b -> bits_of_byte a = bits_of_byte b -> a = b.
Proof.
  intros Ha Hb E. apply Z.bits_inj'. intros j Hj. destruct (Z.lt_ge_cases j 8) as [J|J].
  - apply (f_equal (fun l => nth (Z.to_nat j) l false)) in E. unfold bits_of_byte in E.
    rewrite !(nth_indep _ false (Z.testbit a (Z.of_nat 0))) in E by (rewrite map_length, seq_length; lia).
    rewrite (map_nth (fun j => Z.testbit a (Z.of_nat j))) in E. rewrite (nth_indep _ _ (Z.testbit b (Z.of_nat 0))), (map_nth (fun j => Z.testbit b (Z.of_nat j))) in E by (rewrite map_length, seq_length; lia).
    rewrite seq_nth in E by lia. rewrite Nat.add_0_l, Z2Nat.id in E by lia. exact E.
  - unfold byte in *. rewrite !Z.bits_above_log2; try lia; destruct (Z.eq_dec a 0) as [->|], (Z.eq_dec b 0) as [->|]; cbn [Z.log2]; try lia; apply Z.log2_lt_pow2; try lia; (eapply Z.lt_le_trans; [|apply (Z.pow_le_mono_r 2 8 j)]; lia).
Qed.
Lemma bits_of_inj m m' : bytes m -> bytes m' -> bits_of m = bits_of m' -> m = m'.
Proof.
  intros H. revert m'. induction H as [|a m A F IH]; intros m' H' E; destruct H' as [|b m' B F']; try reflexivity; try discriminate E.
  cbn [bits_of flat_map] in E. pose proof (f_equal (firstn 8) E) as E1. pose proof (f_equal (skipn 8) E) as E2. f_equal; [apply bits_of_byte_inj; assumption | apply IH; [assumption | exact E2]].
Qed.
Lemma strip k : forall k' (x x' : list bool), repeat false k ++ true :: x = repeat false k' ++ true :: x' -> x = x'.
Proof. induction k as [|k IH]; intros [|k'] x x' E; cbn [repeat app] in E; try discriminate E; injection E as E; [exact E | apply (IH k'), E]. Qed.
Lemma rev_repeat' (b : bool) n : rev (repeat b n) = repeat b n.
Proof. induction n as [|n IH]; [reflexivity|]. cbn [repeat rev]. rewrite IH. symmetry. apply (repeat_cons n b). Qed.
Lemma pad_inj r N N' : N ++ pad101 r (length N) = N' ++ pad101 r (length N') -> N = N'.
Proof.
  unfold pad101. intros E. apply (f_equal (@rev bool)) in E. rewrite !rev_app_distr, !rev_repeat' in E. cbn [rev app] in E. injection E as E. rewrite <- !app_assoc in E. cbn [app] in E. apply strip in E.
  rewrite <- (rev_involutive N), E. apply rev_involutive.
Qed.
Lemma blocks_inj d m m' : (2 * d < 1600)%nat -> bytes m -> bytes m' -> blocks d m = blocks d m' -> m = m'.
Proof.
  intros D B B' E. unfold blocks in E. apply (f_equal (@concat bool)) in E. rewrite !chunks_concat in E by lia. apply pad_inj in E. apply app_inv_tail in E. apply bits_of_inj; assumption.
Qed.
Lemma blocks_full d m : (2 * d < 1600)%nat -> Forall (fun c => length c = 1600 - 2 * d)%nat (blocks d m) /\ blocks d m <> [].
Proof.
  intros D. unfold blocks. set (N := bits_of m ++ [false; true]). set (r := (1600 - 2 * d)%nat). assert (R : (0 < r)%nat) by lia.
  assert (L : exists k, length (N ++ pad101 r (length N)) = (k * r)%nat).
  { unfold pad101. rewrite !app_length, repeat_length. cbn [length]. set (n := length N). exists (Z.to_nat ((Z.of_nat n + 2 + (- Z.of_nat n - 2) mod Z.of_nat r) / Z.of_nat r)).
    pose proof (Z.mod_pos_bound (- Z.of_nat n - 2) (Z.of_nat r) ltac:(lia)) as Q. pose proof (Z.div_mod (- Z.of_nat n - 2) (Z.of_nat r) ltac:(lia)) as V.
    set (q := (- Z.of_nat n - 2) / Z.of_nat r) in *. set (s := (- Z.of_nat n - 2) mod Z.of_nat r) in *.
    replace (Z.of_nat n + 2 + s) with (- q * Z.of_nat r) by lia. rewrite Z.div_mul by lia. apply Nat2Z.inj. rewrite Nat2Z.inj_mul, !Nat2Z.inj_add, !Z2Nat.id by nia. lia. }
  destruct L as [k L]. destruct (chunks_lengths r k _ R L) as [F K]. split; [exact F|]. intros E. rewrite E in K. cbn in K. subst k. unfold pad101 in L. rewrite !app_length in L. cbn [length] in L. lia.
Qed.
Lemma after_snoc bs b : after (bs ++ [b]) = keccak_f (xor_block (after bs) b).
Proof. unfold after. rewrite fold_left_app. reflexivity. Qed.

(** If two padded messages reach the same state, then their blocks before the last differ and already
    lead to states that agree on the capacity. *)
Lemma same_state d m m' : (2 * d < 1600)%nat -> bytes m -> bytes m' -> m <> m' -> same (after (blocks d m)) (after (blocks d m')) ->
  removelast (blocks d m) <> removelast (blocks d m') /\ agree (fun p => 1600 - 2 * d <= p)%nat (after (removelast (blocks d m))) (after (removelast (blocks d m'))).
Proof.
  intros D B B' N S0. destruct (blocks_full d m D) as [F NE], (blocks_full d m' D) as [F' NE'].
  pose proof (blocks_inj d m m' D B B') as I. set (r := (1600 - 2 * d)%nat) in *. set (bs := blocks d m) in *. set (bs' := blocks d m') in *. clearbody bs bs'.
  pose proof (app_removelast_last [] NE) as E. pose proof (app_removelast_last [] NE') as E'. set (P := removelast bs) in *. set (P' := removelast bs') in *. set (b := last bs []) in *. set (b' := last bs' []) in *. clearbody P P' b b'. subst bs bs'.
  apply Forall_app in F as [_ F], F' as [_ F']. apply Forall_inv in F, F'. rewrite !after_snoc in S0. apply keccak_inj in S0. split.
  - intros <-. apply N, I. f_equal. f_equal. apply nth_ext with false false; [congruence|]. intros i Hi.
    assert (Hi' : (i < 1600)%nat) by lia.
    pose proof (Nat.div_mod i 64 ltac:(lia)) as V1. pose proof (Nat.mod_upper_bound i 64 ltac:(lia)) as M1. pose proof (Nat.div_mod (i / 64) 5 ltac:(lia)) as V2. pose proof (Nat.mod_upper_bound (i / 64) 5 ltac:(lia)) as M2.
    assert (i / 64 < 25)%nat by (apply Nat.div_lt_upper_bound; lia). assert (i / 64 / 5 < 5)%nat by (apply Nat.div_lt_upper_bound; lia).
    pose proof (S0 (i / 64 mod 5)%nat (i / 64 / 5)%nat (i mod 64)%nat M2 ltac:(assumption) M1) as Q. unfold xor_block in Q. rewrite <- V2, <- V1 in Q.
    destruct (after P _ _ _), (nth i b false), (nth i b' false); cbn in Q; congruence.
  - intros x y z X Y Z Hp. pose proof (S0 x y z X Y Z) as Q. unfold xor_block in Q. rewrite !nth_overflow, !Bool.xorb_false_r in Q by lia. exact Q.
Qed.

Definition variant (a : alg) : option nat := match a with ASHA3_224 => Some 224%nat | ASHA3_256 => Some 256%nat | ASHA3_384 => Some 384%nat | ASHA3_512 => Some 512%nat | _ => None end.
Lemma variant_hash a d m : variant a = Some d -> bytes m -> zlen m < 2 ^ 64 -> h_hash a [] [m] = Ok (sha3 d m).
Proof. intros V B L. destruct (C14_sha3_is_fips202 m B L) as (H1 & H2 & H3 & H4). destruct a; try discriminate V; injection V as <-; assumption. Qed.
Lemma variant_size a d : variant a = Some d -> (2 * d < 1600 /\ d mod 8 = 0)%nat.
Proof. intros V. destruct a; try discriminate V; injection V as <-; split; try reflexivity; lia. Qed.

(** Two different messages with the same SHA-3 digest: either the states after all blocks differ and
    agree on the bits given out, or the blocks before the last differ and the states after them agree on
    the bits no block can touch. *)
Theorem C106_collision : forall a d m m', variant a = Some d -> bytes m -> bytes m' -> zlen m < 2 ^ 64 -> zlen m' < 2 ^ 64 -> m <> m' ->
  h_hash a [] [m] = h_hash a [] [m'] ->
  (~ same (after (blocks d m)) (after (blocks d m')) /\ agree (fun p => p < d)%nat (after (blocks d m)) (after (blocks d m'))) \/
  (removelast (blocks d m) <> removelast (blocks d m') /\ agree (fun p => 1600 - 2 * d <= p)%nat (after (removelast (blocks d m))) (after (removelast (blocks d m')))).
Proof.
  intros a d m m' V B B' L L' N E. destruct (variant_size a d V) as [D D8]. rewrite !(variant_hash a d) in E by assumption. injection E as E.
  destruct (same_dec (after (blocks d m)) (after (blocks d m'))) as [S0|S0]; [right; apply same_state; assumption|left].
  split; [exact S0|]. apply digest_bits; [exact D8 | exact E].
Qed.
Print Assumptions C106_collision.

(** A block is all a short message fills, and blocks that differ in the last one only lead to different
    states: what collides then is the part given out. *)
Theorem C106_last_block : forall a d m m', variant a = Some d -> bytes m -> bytes m' -> m <> m' -> removelast (blocks d m) = removelast (blocks d m') ->
  ~ same (after (blocks d m)) (after (blocks d m')).
Proof. intros a d m m' V B B' N E S0. destruct (variant_size a d V) as [D _]. destruct (same_state d m m' D B B' N S0) as [R _]. contradiction. Qed.
Print Assumptions C106_last_block.

(** Collisions exist, as for every function to digests; so the hypotheses of [C106_collision] are met. *)
Lemma dup_or_not (f : Z -> Z) l : NoDup l -> NoDup (map f l) \/ exists x y, In x l /\ In y l /\ x <> y /\ f x = f y.
Proof.
  induction 1 as [|x l X N IH]; [left; constructor|]. destruct IH as [IH | (u & v & U & V & H)]; [|right; exists u, v; split; [right; exact U|]; split; [right; exact V | exact H]].
  destruct (in_dec Z.eq_dec (f x) (map f l)) as [I|I]; [right | left; constructor; assumption].
  apply in_map_iff in I as (y & E & Y). exists x, y. split; [left; reflexivity|]. split; [right; exact Y|]. split; [intros ->; contradiction | congruence].
Qed.
Lemma pigeons (N M : Z) (f : Z -> Z) : 0 <= M < N -> (forall x, 0 <= x < N -> 0 <= f x < M) -> exists x y, 0 <= x < N /\ 0 <= y < N /\ x <> y /\ f x = f y.
Proof.
  intros HM R. set (up := fun n => map Z.of_nat (seq 0 (Z.to_nat n))). assert (IN : forall n x, In x (up n) <-> 0 <= x < n).
  { intros n x. unfold up. rewrite in_map_iff. split; [intros (k & <- & K); apply in_seq in K; lia | intros H; exists (Z.to_nat x); split; [lia | apply in_seq; lia]]. }
  assert (ND : NoDup (up N)) by (apply Injective_map_NoDup; [intros a b; apply Nat2Z.inj | apply seq_NoDup]).
  destruct (dup_or_not f (up N) ND) as [D | (x & y & X & Y & H)].
  - exfalso. assert (L : (length (map f (up N)) <= length (up M))%nat) by (apply NoDup_incl_length; [exact D|]; intros z I; apply in_map_iff in I as (x & <- & X); apply IN, R, IN, X).
    unfold up in L. rewrite !map_length, !seq_length in L. lia.
  - exists x, y. split; [apply IN, X|]. split; [apply IN, Y | exact H].
Qed.
Lemma spec_size_pos a : 0 < spec_size a < 2 ^ 32.
Proof. destruct a; cbn; lia. Qed.
Theorem C106_exists : forall a d, variant a = Some d -> exists m m', bytes m /\ bytes m' /\ zlen m = spec_size a + 1 /\ zlen m' = spec_size a + 1 /\ m <> m' /\ h_hash a [] [m] = h_hash a [] [m'].
Proof.
  intros a d V. pose proof (spec_size_pos a) as HS. set (n := Z.to_nat (spec_size a + 1)). assert (Hn : Z.of_nat n = spec_size a + 1) by (unfold n; lia).
  destruct (pigeons (256 ^ Z.of_nat n) (256 ^ spec_size a) (fun x => be_val (spec_hash a (be_bytes n x)))) as (x & y & X & Y & NE & E).
  - rewrite Hn. split; [apply Z.pow_nonneg; lia | apply Z.pow_lt_mono_r; lia].
  - intros x _. rewrite <- (spec_hash_length a (be_bytes n x)). apply be_val_range, spec_hash_bytes.
  - exists (be_bytes n x), (be_bytes n y). assert (Z : forall u, zlen (be_bytes n u) = spec_size a + 1) by (intros u; unfold zlen; rewrite be_bytes_length; exact Hn).
    split; [apply be_bytes_bytes|]. split; [apply be_bytes_bytes|]. split; [apply Z|]. split; [apply Z|]. split.
    + intros Q. apply NE. rewrite <- (be_val_bytes n x X), <- (be_val_bytes n y Y), Q. reflexivity.
    + assert (G : forall u, h_hash a [] [be_bytes n u] = Ok (spec_hash a (be_bytes n u))).
      { intros u. rewrite (variant_hash a d) by first [exact V | apply be_bytes_bytes | rewrite Z; lia]. destruct a; try discriminate V; injection V as <-; reflexivity. }
      rewrite !G. f_equal. pose proof (be_bytes_val _ (spec_hash_bytes a (be_bytes n x))) as R1. pose proof (be_bytes_val _ (spec_hash_bytes a (be_bytes n y))) as R2.
      rewrite <- R1, <- R2. cbv beta in E. rewrite E. f_equal. pose proof (spec_hash_length a (be_bytes n x)). pose proof (spec_hash_length a (be_bytes n y)). unfold zlen in *. lia.
Qed.
Print Assumptions C106_exists.

(** Meeting the hypotheses: a state of 25 words; a collision exists for SHA3-256; and two messages of
    three blocks that differ in the last block only. *)
Example C106_case : state_ok (map (fun k => (Z.of_nat k * 0x9e3779b97f4a7c15) mod 2 ^ 64) (seq 0 25)) /\
  (exists m m', bytes m /\ bytes m' /\ zlen m = 33 /\ zlen m' = 33 /\ m <> m' /\ h_hash ASHA3_256 [] [m] = h_hash ASHA3_256 [] [m']) /\
  length (blocks 256 (repeat 7 300)) = 3%nat /\ removelast (blocks 256 (repeat 7 300)) = removelast (blocks 256 (repeat 7 299)) /\ repeat 7 300 <> repeat 7 299.
Proof.
  split; [split; [reflexivity | apply Forall_forall; intros x I; apply in_map_iff in I as (k & <- & _); unfold word; apply Z.mod_pos_bound; lia]|].
  split; [exact (C106_exists ASHA3_256 256%nat eq_refl)|]. split; [vm_compute; reflexivity|]. split; [vm_compute; reflexivity | intros E; apply (f_equal (@length Z)) in E; discriminate E].
Qed.
