(** Proofs about M_LeakPrime: its results are those of the other models. *)
From Verif Require Import Base BaseP M_Bignum P_Bignum M_Mont M_X25519 M_RSA M_Leak P_Leak M_Random M_Prime M_LeakPrime.
Open Scope Z_scope.

Lemma for_loop_t_value {A} (body : Z -> A -> traced A) (body' : Z -> A -> res A) : (forall n x, snd (body n x) = body' n x) ->
  forall count start x, snd (for_loop_t count start body x) = for_loop count start body' x.
Proof. intros H. induction count as [|k IH]; intros start x; [reflexivity|]. cbn [for_loop_t for_loop]. unfold emit. repeat (rewrite snd_tbind; cbn [snd bind]). rewrite H. apply bind_ext. intros; apply IH. Qed.
Lemma shl_word_t_value w v : snd (shl_word_t w v) = shl_word w v.
Proof.
  unfold shl_word_t, shl_word. cbv zeta. destruct (zlen v <? w); [reflexivity|]. rewrite snd_tbind.
  rewrite (for_loop_t_value _ (fun n v0 => do w0 <- getz v0 (zlen v - n - w - 1); setz v0 (zlen v - n - 1) w0)) by (intros; rewrite snd_tbind; reflexivity).
  apply bind_ext; intros v'. apply for_loop_t_value. reflexivity.
Qed.
Lemma normalise_t_value : forall fuel s sh, snd (normalise_t fuel s sh) = normalise fuel s sh.
Proof.
  induction fuel as [|k IH]; intros s sh; cbn [normalise_t normalise]; rewrite snd_tbind; cbn [get_t snd]; apply bind_ext; intros top; rewrite snd_tbind; cbn [emit snd bind]; destruct (top =? 0); try reflexivity.
  rewrite snd_tbind, shl_word_t_value. apply bind_ext; intros s'. apply IH.
Qed.
Lemma reduce_loop_t_value : forall count c s, snd (reduce_loop_t count c s) = Ok (reduce_loop count c s).
Proof.
  induction count as [|k IH]; intros c s; [reflexivity|]. cbn [reduce_loop_t reduce_loop]. rewrite snd_tbind. cbn [emit snd bind]. rewrite snd_tbind, sub_t_value. cbn [bind]. destruct (sub c s) as [o c2]. cbn [fst snd].
  rewrite snd_tbind. cbn [choose emit snd bind]. rewrite snd_tbind. cbn [shr1_t emit snd bind]. apply IH.
Qed.
Lemma naive_reduce_t_value K bits t p : snd (naive_reduce_t K bits t p) = naive_reduce K bits t p.
Proof.
  unfold naive_reduce_t, naive_reduce. rewrite snd_tbind, convert_t_value. cbn [bind]. rewrite snd_tbind, normalise_t_value. apply bind_ext; intros r. rewrite snd_tbind, reduce_loop_t_value. cbn [bind]. apply convert_t_value.
Qed.
Lemma inverse_rec_t_value : forall fuel n A, snd (inverse_rec_t fuel n A) = inverse_rec fuel n A.
Proof.
  induction fuel as [|k IH]; intros n A; cbn [inverse_rec_t inverse_rec]; (destruct (Nat.leb n 1); [rewrite snd_tbind; cbn [get_t snd]; apply bind_ext; intros a; rewrite snd_tbind; reflexivity|]); [reflexivity|].
  cbv zeta. rewrite snd_tbind. cbn [slice_t snd]. apply bind_ext; intros low. rewrite snd_tbind, IH. apply bind_ext; intros r0. rewrite snd_tbind, convert_t_value. cbn [bind].
  rewrite snd_tbind, mul_t_value. apply bind_ext; intros ra. rewrite snd_tbind. cbn [slice_t snd]. apply bind_ext; intros ra0. rewrite snd_tbind. cbn [of_u32_t emit snd bind]. rewrite snd_tbind, sub_t_value. cbn [bind].
  rewrite snd_tbind, mul_t_value. apply bind_ext; intros p. apply convert_t_value.
Qed.
Lemma mont_state_t_value n N : snd (mont_state_t n N) = mont_state n N.
Proof.
  unfold mont_state_t, mont_state, inverse_t, inverse. rewrite snd_tbind, inverse_rec_t_value. apply bind_ext; intros inv. rewrite snd_tbind. cbn [neg_t emit snd bind]. rewrite snd_tbind. cbn [of_u32_t emit snd bind].
  rewrite snd_tbind, add_t_value. cbn [bind]. cbv zeta. rewrite snd_tbind, set_bit_t_value. apply bind_ext; intros R. rewrite snd_tbind, naive_reduce_t_value. apply bind_ext; intros R2.
  rewrite snd_tbind, convert_t_value. cbn [bind]. rewrite snd_tbind, redc_t_value. apply bind_ext; intros R1. rewrite snd_tbind, mul_t_value. apply bind_ext; intros R22. rewrite snd_tbind, redc_t_value. apply bind_ext; reflexivity.
Qed.
Lemma witness_loop_t_value : forall count n st x m, snd (witness_loop_t count n st x m) = witness_loop count n st x m.
Proof.
  induction count as [|k IH]; intros n st x m; [reflexivity|]. cbn [witness_loop_t witness_loop]. rewrite snd_tbind. cbn [emit snd bind]. rewrite snd_tbind, mont_mul_t_value. apply bind_ext; intros x'.
  rewrite snd_tbind, mont_out_t_value. apply bind_ext; intros o. rewrite snd_tbind. cbn [eq_t emit snd bind]. rewrite snd_tbind. cbn [emit snd bind]. destruct (eq_ o m); [reflexivity | apply IH].
Qed.
Lemma one_loop_t_value n st d r a m : snd (one_loop_t n st d r a m) = one_loop n st d r a m.
Proof.
  unfold one_loop_t, one_loop. rewrite snd_tbind. cbn [of_u32_t emit snd bind]. rewrite snd_tbind, mont_of_t_value. apply bind_ext; intros b. rewrite snd_tbind, mont_out_t_value. apply bind_ext; intros e.
  rewrite snd_tbind, mont_exp_t_value. apply bind_ext; intros x. rewrite snd_tbind, mont_out_t_value. destruct (mont_out n st x) as [o| | |] eqn:EO; cbn [bind]; try reflexivity.
  rewrite snd_tbind. cbn [of_u32_t emit snd bind]. rewrite snd_tbind. cbn [eq_t emit snd bind]. rewrite snd_tbind. cbn [emit snd bind]. destruct (eq_ o _); cbn [orb]; [reflexivity|].
  rewrite snd_tbind, mont_out_t_value, EO. cbn [bind]. rewrite snd_tbind. cbn [eq_t emit snd bind]. rewrite snd_tbind. cbn [emit snd bind]. destruct (eq_ o m); [reflexivity | apply witness_loop_t_value].
Qed.
Lemma split_twos_t_value : forall fuel r d, snd (split_twos_t fuel r d) = split_twos fuel r d.
Proof.
  induction fuel as [|k IH]; intros r d; cbn [split_twos_t split_twos]; rewrite snd_tbind, bit_t_value; apply bind_ext; intros b; rewrite snd_tbind; cbn [emit snd bind]; destruct (b =? 0); try reflexivity.
  rewrite snd_tbind. cbn [shr1_t emit snd bind]. apply IH.
Qed.
Lemma all_bases_t_value : forall bases n st mgv r m, snd (all_bases_t bases n st mgv r m) = all_bases bases n st mgv r m.
Proof.
  induction bases as [|a l IH]; intros n st mgv r m; [reflexivity|]. cbn [all_bases_t all_bases]. rewrite snd_tbind. cbn [emit snd bind]. rewrite snd_tbind, one_loop_t_value. apply bind_ext; intros ok.
  rewrite snd_tbind. cbn [emit snd bind]. destruct ok; [apply IH | reflexivity].
Qed.
Lemma find_t_value n num : forall l, snd (find_t n num l) = Ok (existsb (fun p => eq_ num (of_u32 (bits_of n) (w32 p))) l).
Proof.
  induction l as [|p l IH]; [reflexivity|]. cbn [find_t existsb]. rewrite snd_tbind. cbn [emit snd bind]. rewrite snd_tbind. cbn [of_u32_t emit snd bind]. rewrite snd_tbind. cbn [eq_t emit snd bind]. rewrite snd_tbind. cbn [emit snd bind].
  destruct (eq_ num _); [reflexivity | exact IH].
Qed.
Theorem is_probably_prime_t_value n num : snd (is_probably_prime_t n num) = is_probably_prime n num.
Proof.
  unfold is_probably_prime_t, is_probably_prime, lt_t. rewrite snd_tbind. cbn [of_u32_t emit snd bind]. rewrite snd_tbind, snd_tbind, sub_t_value. cbn [bind ret emit snd]. rewrite snd_tbind. cbn [emit snd bind].
  change (fst (sub num ?x)) with (lt_ num x). destruct (lt_ num _); [apply find_t_value|]. rewrite snd_tbind, bit_t_value. apply bind_ext; intros b. rewrite snd_tbind. cbn [emit snd bind]. destruct (b =? 0); [reflexivity|].
  rewrite snd_tbind. cbn [of_u32_t emit snd bind]. rewrite snd_tbind, sub_t_value. cbn [bind]. cbv zeta. rewrite snd_tbind, split_twos_t_value. apply bind_ext; intros [r d]. cbn [fst snd].
  rewrite snd_tbind, mont_state_t_value. apply bind_ext; intros st. rewrite snd_tbind, mont_of_t_value. apply bind_ext; intros mgv. apply all_bases_t_value.
Qed.
Theorem random_prime_t_value : forall fuel n strict s, snd (random_prime_t fuel n strict s) = random_prime fuel n strict s.
Proof.
  induction fuel as [|f IH]; intros n strict s; [reflexivity|]. cbn [random_prime_t random_prime]. rewrite snd_tbind. cbn [snd]. apply bind_ext; intros [s' c0]. rewrite snd_tbind, set_bit_t_value. apply bind_ext; intros c1.
  rewrite snd_tbind, set_bit_t_value. apply bind_ext; intros c2. rewrite snd_tbind.
  assert (E : snd (match strict return traced (list Z) with true => set_bit_t c2 (bits_of n - 2) | false => ret c2 end) = if strict then set_bit c2 (bits_of n - 2) else Ok c2) by (destruct strict; [apply set_bit_t_value | reflexivity]). rewrite E.
  apply bind_ext; intros c. rewrite snd_tbind, is_probably_prime_t_value. apply bind_ext; intros ok. rewrite snd_tbind. cbn [emit snd bind]. destruct ok; [reflexivity | apply IH].
Qed.
