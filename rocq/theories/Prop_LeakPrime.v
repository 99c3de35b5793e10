(** Property C112: what generating a prime shows about it. *)
From Coq Require Import Znumtheory.
From Verif Require Import Base BaseP M_Hash M_HKDF S_Bignum M_Bignum P_Bignum M_X25519 M_Mont P_Mont M_RSA P_RSA M_Leak P_Leak Prop_Leak M_Random P_Random M_Prime P_MR Prop_Prime M_LeakPrime P_LeakPrime.
Open Scope Z_scope.

Theorem C112_same_result : forall fuel n strict s, snd (random_prime_t fuel n strict s) = random_prime fuel n strict s.
Proof. exact random_prime_t_value. Qed.

(** The observer: the outcomes of the choice of mont.h:94, in order; of the last K of them, the
    first is taken as the least significant digit. *)
Fixpoint choices (l : list event) : list bool :=
  match l with
  | [] => []
  | Choose 94 b :: l' => b :: choices l'
  | _ :: l' => choices l'
  end.
Fixpoint number (l : list bool) : Z := match l with [] => 0 | b :: l' => Z.b2z b + 2 * number l' end.
Definition last_of {A} (k : nat) (l : list A) : list A := skipn (length l - k) l.
(** What the observer computes from them: the odd number, shifted up to K bits, and one. *)
Definition observed (K : nat) (l : list event) : Z :=
  let d := number (last_of K (choices l)) in d * 2 ^ (Z.of_nat K - 1 - Z.log2 d) + 1.

Lemma choices_app a b : choices (a ++ b) = choices a ++ choices b.
Proof.
  induction a as [|e a IH]; [reflexivity|]. destruct e as [x|n x|i]; cbn [app choices]; try exact IH.
  destruct n as [|p|p]; try exact IH. repeat (destruct p; try exact IH). cbn [app]. rewrite IH. reflexivity.
Qed.
Lemma spelled_choices l : spelled l = number (choices l).
Proof.
  induction l as [|e l IH]; [reflexivity|]. destruct e as [x|n x|i]; cbn [spelled choices]; try exact IH.
  destruct n as [|p|p]; try exact IH. repeat (destruct p; try exact IH). cbn [number]. rewrite IH. reflexivity.
Qed.
(** No choice of mont.h:94. *)
Definition silent {A} (m : traced A) : Prop := choices (fst m) = [].
Lemma number_app a b : number (a ++ b) = number a + 2 ^ zlen a * number b.
Proof.
  induction a as [|x a IH]; [unfold zlen; cbn [length app number]; change (2 ^ Z.of_nat 0) with 1; lia|]. cbn [app number]. rewrite IH, zlen_cons.
  rewrite Z.pow_add_r by (pose proof (zlen_nonneg a); lia). change (2 ^ 1) with 2. ring.
Qed.
Lemma number_range l : 0 <= number l < 2 ^ zlen l.
Proof.
  induction l as [|x l IH]; [split; reflexivity|]. cbn [number]. rewrite zlen_cons, Z.pow_add_r by (pose proof (zlen_nonneg l); lia). change (2 ^ 1) with 2. destruct x; cbn [Z.b2z]; lia.
Qed.
Lemma quiet_silent {A} (m : traced A) : quiet m -> silent m.
Proof.
  intros Q. specialize (Q [Choose 94 true]). rewrite !spelled_choices, choices_app, number_app in Q. cbn [choices number Z.b2z] in Q. unfold silent.
  destruct (choices (fst m)) as [|x l]; [reflexivity|exfalso]. pose proof (number_range (x :: l)) as R. rewrite zlen_cons, Z.pow_add_r in * by (pose proof (zlen_nonneg l); lia).
  pose proof (Z.pow_pos_nonneg 2 (zlen l) ltac:(lia) (zlen_nonneg l)). change (2 ^ 1) with 2 in *. lia.
Qed.
Lemma silent_bind {A B} (m : traced A) (f : A -> traced B) : silent m -> (forall a, silent (f a)) -> silent (tbind m f).
Proof. intros H1 H2. unfold silent, tbind in *. destruct (snd m) as [a| | |]; cbv zeta; cbn [fst]; [|exact H1..]. rewrite choices_app, H1. apply H2. Qed.
Lemma silent_if {A} (b : bool) (m m' : traced A) : silent m -> silent m' -> silent (if b then m else m').
Proof. destruct b; auto. Qed.
Lemma silent_nil {A} (r : res A) : silent ([], r). Proof. reflexivity. Qed.
Ltac silent_events := reflexivity.
Lemma silent_get v i : silent (get_t v i). Proof. reflexivity. Qed.
Lemma silent_set v i x : silent (set_t v i x). Proof. reflexivity. Qed.
Lemma silent_passes {A} k n i (r : res A) : silent (passes k n i, r). Proof. apply quiet_silent, quiet_passes. Qed.
Lemma silent_for {A} (body : Z -> A -> traced A) : (forall n x, silent (body n x)) -> forall c s x, silent (for_loop_t c s body x).
Proof. intros H. induction c as [|c IH]; intros s x; [reflexivity|]. cbn [for_loop_t]. apply silent_bind; [reflexivity|]. intros _. apply silent_bind; [apply H|]. intros; apply IH. Qed.
Lemma silent_shl w v : silent (shl_word_t w v).
Proof.
  unfold shl_word_t. cbv zeta. apply silent_if; [reflexivity|]. apply silent_bind; [|intros v1]; apply silent_for; intros n x; [apply silent_bind; [|intros ?]|]; reflexivity.
Qed.
Lemma silent_shr1 v : silent (shr1_t v).
Proof. unfold shr1_t, silent, emit. cbn [fst]. generalize (length v). induction n as [|n IH]; [reflexivity|]. cbn [shr1_passes repeat app choices]. exact IH. Qed.
Lemma silent_normalise : forall fuel s sh, silent (normalise_t fuel s sh).
Proof.
  induction fuel as [|k IH]; intros s sh; cbn [normalise_t]; (apply silent_bind; [reflexivity|]); intros top; (apply silent_bind; [reflexivity|]); intros _; (apply silent_if; [|reflexivity]); [reflexivity|].
  apply silent_bind; [apply silent_shl | intros; apply IH].
Qed.
Lemma silent_sub v r : silent (sub_t v r). Proof. apply quiet_silent, quiet_sub. Qed.
Lemma silent_add v r : silent (add_t v r). Proof. apply quiet_silent, quiet_add. Qed.
Lemma silent_mul b v r : silent (mul_t b v r). Proof. apply quiet_silent, quiet_mul. Qed.
Lemma silent_slice k s v : silent (slice_t k s v). Proof. apply quiet_silent, quiet_slice. Qed.
Lemma silent_redc n N I0 v : silent (redc_t n N I0 v). Proof. apply quiet_silent, quiet_redc. Qed.
Lemma silent_out n st x : silent (mont_out_t n st x). Proof. apply quiet_silent, quiet_mont_out. Qed.
Lemma silent_of n st x : silent (mont_of_t n st x). Proof. apply quiet_silent, quiet_mont_of. Qed.
Lemma silent_mmul n st x y : silent (mont_mul_t n st x y). Proof. apply quiet_silent, quiet_mont_mul. Qed.
Lemma silent_convert k b v : silent (convert_t k b v).
Proof. unfold convert_t. apply silent_if; [reflexivity|]. cbv zeta. unfold silent, emit. cbn [fst]. rewrite choices_app. pose proof (fun k n i => silent_passes k n i (Ok tt)) as Q. unfold silent in Q. cbn [fst] in Q. rewrite !Q. reflexivity. Qed.
Lemma silent_eq a b : silent (eq_t a b). Proof. apply silent_passes. Qed.
Lemma silent_bit v i : silent (bit_t v i). Proof. apply silent_bind; [reflexivity | intros; reflexivity]. Qed.
Lemma silent_set_bit v i : silent (set_bit_t v i). Proof. apply silent_bind; [reflexivity | intros; reflexivity]. Qed.
Lemma silent_reduce : forall c x s, silent (reduce_loop_t c x s).
Proof.
  induction c as [|c IH]; intros x s; [reflexivity|]. cbn [reduce_loop_t]. apply silent_bind; [reflexivity|]. intros _. apply silent_bind; [apply silent_sub|]. intros r. apply silent_bind; [reflexivity|]. intros c'.
  apply silent_bind; [apply silent_shr1 | intros; apply IH].
Qed.
Ltac sil := first [apply silent_slice | apply silent_convert | apply silent_mul | apply silent_sub | apply silent_add | apply silent_redc | apply silent_out | apply silent_of | apply silent_mmul | apply silent_eq | apply silent_bit | apply silent_set_bit | apply silent_normalise | apply silent_reduce | apply silent_shr1 | apply silent_passes | reflexivity].
Ltac sils := repeat (apply silent_bind; [sil|]; intros ?); try sil.
Lemma silent_naive K b t p : silent (naive_reduce_t K b t p). Proof. unfold naive_reduce_t. sils. Qed.
Lemma silent_inverse : forall fuel n A, silent (inverse_rec_t fuel n A).
Proof.
  induction fuel as [|k IH]; intros n A; cbn [inverse_rec_t]; (apply silent_if; [sils|]); [reflexivity|]. cbv zeta. apply silent_bind; [sil|]. intros low. apply silent_bind; [apply IH|]. intros r0. sils.
Qed.
Lemma silent_state n N : silent (mont_state_t n N).
Proof.
  unfold mont_state_t. apply silent_bind; [apply silent_inverse|]. intros inv. apply silent_bind; [apply silent_passes|]. intros ng. apply silent_bind; [sil|]. intros one. apply silent_bind; [sil|]. intros ni. cbv zeta.
  apply silent_bind; [sil|]. intros R. apply silent_bind; [apply silent_naive|]. intros R2. sils.
Qed.
Lemma silent_witness n st m : forall count x, silent (witness_loop_t count n st x m).
Proof.
  induction count as [|k IH]; intros x; [reflexivity|]. cbn [witness_loop_t]. apply silent_bind; [sil|]. intros _. apply silent_bind; [sil|]. intros x'. apply silent_bind; [sil|]. intros o. apply silent_bind; [sil|]. intros e.
  apply silent_bind; [sil|]. intros _. apply silent_if; [reflexivity | apply IH].
Qed.
Lemma silent_split : forall fuel r d, silent (split_twos_t fuel r d).
Proof.
  induction fuel as [|k IH]; intros r d; cbn [split_twos_t]; (apply silent_bind; [sil|]); intros b; (apply silent_bind; [sil|]); intros _; (apply silent_if; [|reflexivity]); [reflexivity|]. apply silent_bind; [sil|]. intros; apply IH.
Qed.

(** The digits of a number, from the least significant on. *)
Definition digits (x : Z) (i : Z) (k : nat) : list bool := map (fun j => Z.testbit x (i + Z.of_nat j)) (seq 0 k).
Lemma digits_S x i k : digits x i (S k) = Z.testbit x i :: digits x (i + 1) k.
Proof. unfold digits. cbn [seq map]. rewrite Z.add_0_r. f_equal. rewrite <- seq_shift, map_map. apply map_ext. intros j. f_equal. lia. Qed.
Lemma number_digits x : forall k i, 0 <= i -> number (digits x i k) = x / 2 ^ i mod 2 ^ Z.of_nat k.
Proof.
  induction k as [|k IH]; intros i Hi; [cbn; rewrite Z.mod_1_r; reflexivity|]. rewrite digits_S. cbn [number]. rewrite IH by lia.
  rewrite Nat2Z.inj_succ, Z.pow_succ_r, Z.pow_add_r, <- Z.div_div by lia. change (2 ^ 1) with 2. rewrite Z.rem_mul_r by lia. f_equal. rewrite <- Z.testbit_spec' by exact Hi. reflexivity.
Qed.
Lemma bind_seen {A B} (m : traced A) (f : A -> traced B) r : snd (tbind m f) = Ok r -> exists a, snd m = Ok a /\ choices (fst (tbind m f)) = choices (fst m) ++ choices (fst (f a)) /\ snd (f a) = Ok r.
Proof. intros H. apply bind_ok in H. destruct H as (a & E & T & H). exists a. rewrite T, choices_app. auto. Qed.
Lemma exp_choices n st e one : bn n e -> forall count i v b r, 0 <= i -> i + Z.of_nat count <= bits_of n -> snd (exp_loop_t count i n st e v b one) = Ok r ->
  choices (fst (exp_loop_t count i n st e v b one)) = digits (val e) i count.
Proof.
  intros He. induction count as [|c IH]; intros i v b r Hi HC H; [reflexivity|]. cbn [exp_loop_t] in *. rewrite digits_S.
  apply bind_seen in H. destruct H as (a0 & _ & -> & H). apply bind_seen in H. destruct H as (bt & B & -> & H). apply bind_seen in H. destruct H as (f & _ & -> & H).
  apply bind_seen in H. destruct H as (v' & _ & -> & H). apply bind_seen in H. destruct H as (b' & _ & -> & H).
  rewrite bit_t_value, (bit_ok n e i He ltac:(lia)) in B. injection B as <-. rewrite silent_bit, silent_mmul. rewrite (quiet_silent _ (quiet_mont_square n st b)), (IH (i + 1) v' b' r ltac:(lia) ltac:(lia) H).
  destruct (Z.testbit (val e) i); reflexivity.
Qed.
(** Each base shows the exponent. *)
Lemma one_loop_choices n st d md r a m N b : good n st N -> bn n d -> 0 < val d < N -> rep n N md (val d) -> snd (one_loop_t n st md r a m) = Ok b -> choices (fst (one_loop_t n st md r a m)) = digits (val d) 0 (Z.to_nat (bits_of n)).
Proof.
  intros G Hd Bd Hmd H. destruct (mont_out_ok n st N md _ G Hmd) as (e & E & Hee & M & B1 & B2).
  assert (Ve : val e = val d). { rewrite (Z.mod_small (val d)) in M by lia. destruct (Z.eq_dec (val e) N) as [C|C]; [rewrite C, Z.mod_same in M by lia; lia | rewrite Z.mod_small in M by lia; exact M]. }
  unfold one_loop_t in *. apply bind_seen in H. destruct H as (a0 & _ & -> & H). apply bind_seen in H. destruct H as (b0 & _ & -> & H). apply bind_seen in H. destruct H as (e' & Ee & -> & H).
  rewrite mont_out_t_value, E in Ee. injection Ee as <-. apply bind_seen in H. destruct H as (x & Ex & -> & H). rewrite silent_of, silent_out. cbn [of_u32_t emit fst choices app].
  assert (T : choices (fst (mont_exp_t n st b0 e)) = digits (val d) 0 (Z.to_nat (bits_of n))).
  { unfold mont_exp_t in *. apply bind_seen in Ex. destruct Ex as (u & _ & -> & Ex). apply bind_seen in Ex. destruct Ex as (one & _ & -> & Ex). rewrite silent_of. cbn [of_u32_t emit fst choices app].
    rewrite <- Ve. apply (exp_choices n st e one Hee) with x; [lia | lia | exact Ex]. }
  rewrite T. rewrite <- (app_nil_r (digits _ _ _)) at 2. f_equal. clear. apply silent_bind; [sil|]. intros o. apply silent_bind; [sil|]. intros one. apply silent_bind; [sil|]. intros is1. apply silent_bind; [sil|]. intros _.
  apply silent_if; [reflexivity|]. apply silent_bind; [sil|]. intros o2. apply silent_bind; [sil|]. intros ism. apply silent_bind; [sil|]. intros _. apply silent_if; [reflexivity | apply silent_witness].
Qed.
Lemma last_app {A} k (a b : list A) : length b = k -> last_of k (a ++ b) = b.
Proof. intros <-. unfold last_of. rewrite app_length. replace (length a + length b - length b)%nat with (length a + 0)%nat by lia. rewrite skipn_app, Nat.add_0_r, Nat.sub_diag, skipn_all. reflexivity. Qed.
Lemma bases_choices n st d md r m N : good n st N -> bn n d -> 0 < val d < N -> rep n N md (val d) -> forall bases b, bases <> [] -> snd (all_bases_t bases n st md r m) = Ok b ->
  exists pre, choices (fst (all_bases_t bases n st md r m)) = pre ++ digits (val d) 0 (Z.to_nat (bits_of n)).
Proof.
  intros G Hd Bd Hmd. induction bases as [|a l IH]; intros b NE H; [congruence|]. clear NE. cbn [all_bases_t] in *. apply bind_seen in H. destruct H as (a0 & _ & -> & H).
  apply bind_seen in H. destruct H as (ok & E & -> & H). apply bind_seen in H. destruct H as (a1 & _ & -> & H). rewrite (one_loop_choices n st d md r a m N ok G Hd Bd Hmd E). cbn [emit fst choices app].
  destruct ok.
  - destruct l as [|a2 l]; [exists []; cbn [all_bases_t emit fst choices app]; apply app_nil_r|]. destruct (IH b ltac:(discriminate) H) as (pre & P). rewrite P. exists (digits (val d) 0 (Z.to_nat (bits_of n)) ++ pre). apply app_assoc.
  - exists []. cbn [ret emit fst choices app]. apply app_nil_r.
Qed.
Lemma ok_inj {A} (a b : A) : Ok a = Ok b -> a = b.
Proof. congruence. Qed.
Lemma prime_choices n num b : (0 < n)%nat -> bits_of n < 2 ^ 64 -> bn n num -> Z.odd (val num) = true -> 2 ^ (bits_of n - 1) <= val num -> snd (is_probably_prime_t n num) = Ok b ->
  exists pre d k, choices (fst (is_probably_prime_t n num)) = pre ++ digits d 0 (Z.to_nat (bits_of n)) /\ 0 < d < 2 ^ bits_of n /\ 0 <= k /\ val num - 1 = 2 ^ k * d.
Proof.
  intros Hn HB Hnum O L0 H. assert (L : 7920 <= val num) by (apply Z.le_trans with (2 ^ (bits_of n - 1)); [|exact L0]; apply Z.le_trans with (2 ^ 31); [lia | apply Z.pow_le_mono_r; lia]).
  unfold is_probably_prime_t, lt_t in *. apply bind_seen in H. destruct H as (l7 & E & -> & H). apply ok_inj in E; symmetry in E; subst. apply bind_seen in H. destruct H as (small & E & -> & H). unfold tbind in E; rewrite sub_t_value in E; cbv zeta iota in E; cbn [ret emit snd] in E. apply ok_inj in E; symmetry in E; subst.
  apply bind_seen in H. destruct H as (a0 & _ & -> & H). rewrite (silent_bind (sub_t num _) (fun r => ret (fst r)) (silent_sub _ _) (fun r => eq_refl)). cbn [of_u32_t emit fst choices app].
  destruct (of_u32_ok n 7920 ltac:(lia) Hn) as [H7 V7]. change (fst (sub num (of_u32 (bits_of n) 7920))) with (lt_ num (of_u32 (bits_of n) 7920)) in *. rewrite (lt_ok n _ _ Hnum H7), V7 in *.
  replace (val num <? 7920) with false in * by lia. cbv iota in *.
  apply bind_seen in H. destruct H as (bt & E & -> & H). rewrite bit_t_value, (bit_ok n num 0 Hnum) in E by lia. rewrite Z.bit0_odd, O in E. apply ok_inj in E; symmetry in E; subst. rewrite silent_bit. apply bind_seen in H. destruct H as (a1 & _ & -> & H).
  change (Z.b2z true =? 0) with false in *. cbv iota in *. apply bind_seen in H. destruct H as (one & E & -> & H). apply ok_inj in E; symmetry in E; subst. apply bind_seen in H. destruct H as (w2 & E & -> & H). rewrite sub_t_value in E. apply ok_inj in E; symmetry in E; subst. cbv zeta in *.
  destruct (of_u32_ok n 1 ltac:(lia) Hn) as [H1 V1]. destruct (sub_val n num _ Hnum H1) as (Hw & Vw & _). pose proof (bn_range _ _ Hnum) as R. rewrite V1, Z.mod_small in Vw by lia. rewrite silent_sub.
  set (w := snd (sub num (of_u32 (bits_of n) 1))) in *. clearbody w.
  destruct (split_twos_ok n Hn (Z.to_nat (bits_of n)) 0 w Hw ltac:(lia) ltac:(rewrite Z2Nat.id by lia; lia) ltac:(lia) ltac:(rewrite Z2Nat.id by lia; lia)) as (k & d & E & Hk & Hd & V & Od).
  apply bind_seen in H. destruct H as (rd & E' & -> & H). rewrite split_twos_t_value, E in E'. apply ok_inj in E'; symmetry in E'; subst. clear E. cbn [fst snd] in *. rewrite silent_split.
  apply bind_seen in H. destruct H as (st' & E' & -> & H). rewrite silent_state. destruct (mont_state_ok n num Hn Hnum) as (st & E & _ & G); [rewrite Zmod_odd, O; reflexivity|].
  rewrite mont_state_t_value, E in E'. apply ok_inj in E'; symmetry in E'; subst. clear E. apply bind_seen in H. destruct H as (md' & E' & -> & H). rewrite silent_of. destruct (mont_of_ok n st _ d G Hd) as (md & E & Hmd).
  rewrite mont_of_t_value, E in E'. apply ok_inj in E'; symmetry in E'; subst. clear E. pose proof (bn_range _ _ Hd) as Rd. assert (D0 : val d <> 0) by (intros Z0; rewrite Z0 in Od; discriminate Od).
  assert (DL : val d < val num) by (pose proof (Z.pow_pos_nonneg 2 k ltac:(lia) Hk); nia).
  destruct (bases_choices n st d md (0 + k) w (val num) G Hd ltac:(lia) Hmd primes b ltac:(discriminate) H) as (pre & P). exists pre, (val d), k. rewrite P. cbn [of_u32_t emit fst choices app]. split; [reflexivity|]. split; [lia|]. split; [exact Hk | lia].
Qed.
(** Whoever sees the choices of mont.h:94 knows the prime. *)
Theorem C112_prime : forall fuel n strict s s' p, (0 < n)%nat -> bits_of n < 2 ^ 64 -> random_prime fuel n strict s = Ok (s', p) -> observed (Z.to_nat (bits_of n)) (fst (random_prime_t fuel n strict s)) = val p.
Proof.
  intros fuel n strict s s' p Hn HB H. destruct (C56_result _ _ _ _ _ _ Hn H) as (Hp & Op & [Lp Up] & _ & _). rewrite <- random_prime_t_value in H.
  assert (K : exists pre d k, choices (fst (random_prime_t fuel n strict s)) = pre ++ digits d 0 (Z.to_nat (bits_of n)) /\ 0 < d < 2 ^ bits_of n /\ 0 <= k /\ val p - 1 = 2 ^ k * d).
  { revert s H. induction fuel as [|f IH]; intros s H; [discriminate H|]. cbn [random_prime_t] in *. apply bind_seen in H. destruct H as ([s1 c0] & _ & -> & H). apply bind_seen in H. destruct H as (c1 & _ & -> & H).
    apply bind_seen in H. destruct H as (c2 & _ & -> & H). apply bind_seen in H. destruct H as (c & _ & -> & H). apply bind_seen in H. destruct H as (ok & E & -> & H). apply bind_seen in H. destruct H as (a0 & _ & -> & H).
    destruct ok.
    - apply ok_inj in H. injection H as _ ->. destruct (prime_choices n p true Hn HB Hp Op Lp E) as (pre & d & k & P & D). rewrite P. cbn [ret emit fst choices]. rewrite app_nil_r, !app_assoc. eexists _, d, k. split; [reflexivity | exact D].
    - destruct (IH s1 H) as (pre & d & k & P & D). rewrite P, !app_assoc. eexists _, d, k. split; [reflexivity | exact D]. }
  destruct K as (pre & d & k & P & Rd & Hk & V). unfold observed. rewrite P, last_app by (unfold digits; rewrite map_length, seq_length; reflexivity). rewrite number_digits, Z2Nat.id by lia. cbv zeta. change (2 ^ 0) with 1. rewrite Z.div_1_r, Z.mod_small by lia.
  assert (LG : Z.log2 (val p - 1) = bits_of n - 1).
  { apply Z.log2_unique; [lia|]. replace (Z.succ (bits_of n - 1)) with (bits_of n) by lia. split; [|lia].
    destruct (Z.eq_dec (val p) (2 ^ (bits_of n - 1))) as [C|C]; [exfalso|lia]. rewrite C, Z.odd_pow in Op by lia. discriminate Op. }
  rewrite V, Z.mul_comm, Z.log2_mul_pow2 in LG by lia. replace (bits_of n - 1 - Z.log2 d) with k by lia. lia.
Qed.
Print Assumptions C112_prime.
(** The claim that what is done does not depend on the prime is false, for every size. *)
Theorem C112_prime_refuted : exists look : nat -> list event -> Z, forall fuel n strict s s' p, (0 < n)%nat -> bits_of n < 2 ^ 64 -> random_prime fuel n strict s = Ok (s', p) ->
  look (Z.to_nat (bits_of n)) (fst (random_prime_t fuel n strict s)) = val p.
Proof. exists observed. exact C112_prime. Qed.
Print Assumptions C112_prime_refuted.

(** Two sources of random bytes that lead to different primes are told apart. *)
Corollary C112_told_apart : forall fuel n strict s1 s2 s1' s2' p1 p2, (0 < n)%nat -> bits_of n < 2 ^ 64 -> random_prime fuel n strict s1 = Ok (s1', p1) -> random_prime fuel n strict s2 = Ok (s2', p2) ->
  fst (random_prime_t fuel n strict s1) = fst (random_prime_t fuel n strict s2) -> val p1 = val p2.
Proof. intros * Hn HB H1 H2 E. rewrite <- (C112_prime _ _ _ _ _ _ Hn HB H1), <- (C112_prime _ _ _ _ _ _ Hn HB H2), E. reflexivity. Qed.

Example C112_case : (exists s, random_prime 5 1 false fresh_rng = Ok (s, [first_prime])) /\ observed 32 (fst (random_prime_t 5 1 false fresh_rng)) = first_prime.
Proof.
  destruct C52_prime_refuted as [s E]. split; [exists s; exact E|]. change 32%nat with (Z.to_nat (bits_of 1)). rewrite (C112_prime 5 1 false fresh_rng s [first_prime]); [apply Z.add_0_r | lia | reflexivity | exact E].
Qed.
(** What is looked at in a record, by itself: 13 = 1101, shifted to eight bits, and one. *)
Example C112_observed : observed 8 [Choose 94 false; Loop true; Choose 94 true; Choose 15 true; Choose 94 false; Choose 94 true; At 3; Choose 94 true; Choose 94 false; Choose 94 false; Choose 94 false; Choose 94 false] = 209.
Proof. reflexivity. Qed.
