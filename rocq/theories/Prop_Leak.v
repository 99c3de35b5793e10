(** Properties C102 and C103: what the running code shows about its secrets.  The record of M_Leak
    lists loop conditions, array indices and the conditions of ?: and &&. *)
From Verif Require Import Base BaseP M_Hash M_HKDF S_Bignum M_Bignum P_Bignum M_X25519 M_Mont P_Mont M_RSA P_RSA M_Leak P_Leak.
Open Scope Z_scope.

(** Two observers: one sees everything, the other no choices of ?: and &&. *)
Definition everything : event -> bool := fun _ => true.
Definition no_choices (e : event) : bool := match e with Choose _ _ => false | _ => true end.
Definition seen {A} (ob : event -> bool) (m : traced A) : list event := filter ob (fst m).
Lemma filter_all : forall l, filter everything l = l.
Proof. induction l as [|x l IH]; [reflexivity|]. cbn [filter everything]. rewrite IH. reflexivity. Qed.
Lemma alike_all {A} (m m' : traced A) Q : alike everything m m' Q -> fst m = fst m'.
Proof. intros [H _]. rewrite !filter_all in H. exact H. Qed.
Definition words8 (a : list Z) : Prop := length a = 8%nat.

(** ** C102: X25519 *)
(** The recording functions compute what the model of the code computes. *)
Theorem C102_same_result : forall k u, snd (X25519_t k u) = X25519 k u.
Proof. exact X25519_t_value. Qed.
(** Addition, multiplication, squaring and inversion in the field, the conditional exchange and the
    clamping show nothing about their operands. *)
Theorem C102_field : forall a b c d, words8 a -> words8 b -> words8 c -> words8 d ->
  fst (ec_add_t a b) = fst (ec_add_t c d) /\ fst (ec_mul_t a b) = fst (ec_mul_t c d) /\ (forall x y, fst (ec_mul32_t a x) = fst (ec_mul32_t c y)) /\ fst (ec_square_t a) = fst (ec_square_t c) /\
  fst (ec_inverse_t a) = fst (ec_inverse_t c) /\ (forall s s', fst (ctime_swap_t s a b) = fst (ctime_swap_t s' c d)) /\ fst (normalize_t a) = fst (normalize_t c).
Proof.
  intros a b c d HA HB HC HD. assert (W1 : wide 8 a c) by (split; assumption). assert (W2 : wide 8 b d) by (split; assumption).
  repeat split; intros; eapply alike_all; first [apply ec_add_alike; assumption | apply ec_mul_alike; assumption | apply ec_mul32_alike; assumption | apply ec_inverse_alike; assumption | apply (ctime_swap_alike _ 8); assumption | apply normalize_alike; assumption].
Qed.
Print Assumptions C102_field.
(** The whole of X25519: nothing about the private key nor the coordinate, but for choices. *)
Theorem C102_loops_partial : forall k u k' u', words8 k -> words8 u -> words8 k' -> words8 u' -> seen no_choices (X25519_t k u) = seen no_choices (X25519_t k' u').
Proof. intros k u k' u' H1 H2 H3 H4. apply (X25519_alike no_choices (fun _ _ => eq_refl) k k' u u'); split; assumption. Qed.
Print Assumptions C102_loops_partial.

(** The choices depend on the private key. *)
Definition prefix (l l' : list event) : Prop := exists r, l' = l ++ r.
Lemma prefix_bind {A B C} (m : traced A) (f : A -> traced B) (f' : A -> traced C) : (forall a, prefix (fst (f a)) (fst (f' a))) -> prefix (fst (tbind m f)) (fst (tbind m f')).
Proof.
  intros H. unfold tbind. destruct (snd m) as [a| | |]; [|exists []; rewrite app_nil_r; reflexivity..]. cbv zeta. cbn [fst]. destruct (H a) as [r E]. exists r. rewrite E, app_assoc. reflexivity.
Qed.
Lemma prefix_bind' {A B} (m : traced A) (f : A -> traced B) : prefix (fst m) (fst (tbind m f)).
Proof. unfold tbind. destruct (snd m) as [a| | |]; [|exists []; rewrite app_nil_r; reflexivity..]. cbv zeta. cbn [fst]. exists (fst (f a)). reflexivity. Qed.
Lemma prefix_trans a b c : prefix a b -> prefix b c -> prefix a c.
Proof. intros [r ->] [q ->]. exists (r ++ q). rewrite app_assoc. reflexivity. Qed.
(** The start of X25519, up to the bit 253 of the private key. *)
Definition begins (k u : list Z) : traced state :=
  see k <- normalize_t k; see one <- of_list_t 256 [1]; see nul <- of_list_t 256 [0];
  see _ <- emit [Loop true] tt; see s <- ladder_step_t k u 255 (one, nul, u, one, false);
  see _ <- emit [Loop true] tt; see s <- ladder_step_t k u 254 s;
  see _ <- emit [Loop true] tt; ladder_step_t k u 253 s.
Lemma begins_prefix k u : prefix (fst (begins k u)) (fst (X25519_t k u)).
Proof.
  unfold begins, X25519_t. apply prefix_bind; intros k'. apply prefix_bind; intros one. apply prefix_bind; intros nul.
  apply (prefix_trans _ (fst (ladder_t 256 k' u (one, nul, u, one, false)))); [|apply prefix_bind'].
  change 256%nat with (S (S (S 253))). cbn [ladder_t]. change (Z.of_nat (S (S 253))) with 255. change (Z.of_nat (S 253)) with 254. change (Z.of_nat 253) with 253. generalize 253%nat. intros n.
  apply prefix_bind; intros _. apply prefix_bind; intros s. apply prefix_bind; intros _. apply prefix_bind; intros s'. apply prefix_bind; intros _. apply prefix_bind'.
Qed.
Lemma prefix_nth l l' i x : prefix l l' -> nth_error l i = Some x -> nth_error l' i = Some x.
Proof. intros [r ->] H. rewrite nth_error_app1; [exact H|]. apply nth_error_Some. congruence. Qed.
Definition key1 : list Z := [0; 0; 0; 0; 0; 0; 0; 2 ^ 30].
Definition key2 : list Z := [0; 0; 0; 0; 0; 0; 0; 2 ^ 30 + 2 ^ 29].
Definition base9 : list Z := [9; 0; 0; 0; 0; 0; 0; 0].
Theorem C102_side_channel_refuted : exists k k' u, words8 k /\ words8 k' /\ words8 u /\ seen everything (X25519_t k u) <> seen everything (X25519_t k' u).
Proof.
  exists key1, key2, base9. split; [reflexivity|]. split; [reflexivity|]. split; [reflexivity|]. unfold seen. rewrite !filter_all. intros E.
  set (i := Z.to_nat 13955). assert (H1 : nth_error (fst (begins key1 base9)) i = Some (Choose 164 false)) by (vm_compute; reflexivity).
  assert (H2 : nth_error (fst (begins key2 base9)) i = Some (Choose 164 true)) by (vm_compute; reflexivity).
  apply (prefix_nth _ _ _ _ (begins_prefix _ _)) in H1. apply (prefix_nth _ _ _ _ (begins_prefix _ _)) in H2. rewrite E, H2 in H1. discriminate H1.
Qed.
Print Assumptions C102_side_channel_refuted.

(** ** C103: the RSA private key operation *)
(** The key as the constructor makes it. *)
Definition a_key (w : nat) (N d : list Z) (k : privkey) : Prop :=
  (0 < w)%nat /\ 32 * Z.of_nat w < 2 ^ 64 /\ bn w N /\ Z.odd (val N) = true /\ bn w d /\ rsa_private_key w N d = Ok k.
Lemma a_key_good w N d k : a_key w N d k -> good w (priv_s k) (val N) /\ priv_d k = d.
Proof. intros (Hw & LW & HN & HO & HD & E). destruct (private_key_ok w N d Hw LW HN HO HD) as (k' & E' & G & D & _). rewrite E in E'. injection E' as <-. split; assumption. Qed.
Theorem C103_same_result : forall w k m, snd (rsadp_t w k m) = rsadp w k m.
Proof. exact rsadp_t_value. Qed.
(** The loops and the indices say nothing about the message, the modulus and the exponent. *)
Theorem C103_loops_partial : forall w N d k N' d' k' m m', a_key w N d k -> a_key w N' d' k' -> bn w m -> bn w m' -> seen no_choices (rsadp_t w k m) = seen no_choices (rsadp_t w k' m').
Proof.
  intros w N d k N' d' k' m m' K K' Hm Hm'. pose proof (a_key_good _ _ _ _ K) as [G D]. pose proof (a_key_good _ _ _ _ K') as [G' D']. destruct K as (Hw & _ & _ & _ & Hd & _). destruct K' as (_ & _ & _ & _ & Hd' & _).
  apply (rsadp_alike no_choices (fun _ _ => eq_refl) w k k' m m' Hw).
  - repeat split; eapply bn_length; first [apply (g_N _ _ _ G) | apply (g_N _ _ _ G') | apply (g_Ninv _ _ _ G) | apply (g_Ninv _ _ _ G') | apply (g_R2 _ _ _ G) | apply (g_R2 _ _ _ G')].
  - rewrite D, D'. split; eapply bn_length; eassumption.
  - split; eapply bn_length; eassumption.
Qed.
Print Assumptions C103_loops_partial.

(** What the choices of mont.h:94 spell, the first one being the least significant digit. *)
Fixpoint spelled (l : list event) : Z :=
  match l with
  | [] => 0
  | Choose 94 b :: l' => Z.b2z b + 2 * spelled l'
  | _ :: l' => spelled l'
  end.
Definition is_94 (e : event) : bool := match e with Choose 94 _ => true | _ => false end.
Definition quiet {A} (m : traced A) : Prop := forall l, spelled (fst m ++ l) = spelled l.
Lemma quiet_bind {A B} (m : traced A) (f : A -> traced B) : quiet m -> (forall a, quiet (f a)) -> quiet (tbind m f).
Proof.
  intros H1 H2. unfold quiet, tbind in *. destruct (snd m) as [a| | |]; cbn [fst]; [|exact H1..]. cbv zeta. cbn [fst]. intros l. rewrite <- app_assoc, H1. apply H2.
Qed.
Lemma quiet_ret {A} (a : A) : quiet (ret a). Proof. intros l. reflexivity. Qed.
Lemma quiet_at {A} i (r : res A) : quiet ([At i], r). Proof. intros l. reflexivity. Qed.
Lemma quiet_res {A B} t (r : res A) (r' : res B) : quiet (t, r) -> quiet (t, r'). Proof. intros H. exact H. Qed.
Lemma quiet_app {A} a b (r : res A) : quiet (a, r) -> quiet (b, r) -> quiet (a ++ b, r).
Proof. intros H1 H2 l. unfold quiet in *. cbn [fst] in *. rewrite <- app_assoc, H1. apply H2. Qed.
Lemma quiet_cons {A} e t (r : res A) : is_94 e = false -> quiet (t, r) -> quiet (e :: t, r).
Proof.
  intros H1 H2 l. unfold quiet in H2. cbn [fst] in *. cbn [app]. destruct e as [b|n b|i]; cbn [spelled]; [apply H2 | | apply H2].
  destruct (Z.eq_dec n 94) as [->|D]; [discriminate H1|]. rewrite <- (H2 l). destruct n as [|p|p]; try reflexivity. repeat (destruct p; try reflexivity). exfalso; apply D; reflexivity.
Qed.
Lemma quiet_nil {A} (r : res A) : quiet ([], r). Proof. intros l. reflexivity. Qed.
Lemma quiet_choose {A} n b (x y : A) : n <> 94 -> quiet (choose n b x y).
Proof. intros H. apply quiet_cons; [|apply quiet_nil]. cbn [is_94]. destruct n as [|p|p]; try reflexivity. repeat (destruct p; try reflexivity). exfalso; apply H; reflexivity. Qed.
Lemma quiet_repeat {A} i k (r : res A) : quiet (repeat (At i) k, r).
Proof. induction k as [|k IH]; [apply quiet_nil|]. apply quiet_cons; [reflexivity | exact IH]. Qed.
Lemma quiet_passes {A} k (r : res A) : forall n i, quiet (passes k n i, r).
Proof. induction n as [|n IH]; intros i; cbn [passes]; (apply quiet_cons; [reflexivity|]); [apply quiet_nil|]. apply quiet_app; [apply quiet_repeat | apply IH]. Qed.
Lemma quiet_row {A} (r : res A) i : forall n j, quiet (row_passes n i j, r).
Proof. induction n as [|n IH]; intros j; cbn [row_passes]; [apply quiet_cons, quiet_cons, quiet_nil; reflexivity|]. apply quiet_app; [repeat (apply quiet_cons; [reflexivity|]); apply quiet_nil | apply IH]. Qed.
Lemma quiet_slice K start v : quiet (slice_t K start v).
Proof.
  unfold slice_t. generalize (slice_ K start v). intros r. generalize (Z.to_nat (nwords K)). intros n. generalize 0. induction n as [|n IH]; intros i; cbn [slice_passes]; repeat (apply quiet_cons; [reflexivity|]); [apply quiet_nil | apply IH].
Qed.
Lemma quiet_bit v i : quiet (bit_t v i). Proof. apply quiet_bind; [apply quiet_at | intros; apply quiet_ret]. Qed.
Ltac quiet_events := unfold emit; repeat (apply quiet_cons; [reflexivity|]); apply quiet_nil.
Lemma quiet_add v r : quiet (add_t v r).
Proof.
  unfold add_t. generalize 0 at 1. generalize 0. revert r. induction v as [|x v IH]; intros [|y r] t i; cbn [add_from_t]; try quiet_events. apply quiet_bind; [quiet_events|]. intros _. apply quiet_bind; [apply IH | intros; apply quiet_ret].
Qed.
Lemma quiet_sub v r : quiet (sub_t v r).
Proof.
  unfold sub_t. generalize 0 at 1. generalize 0. revert r. induction v as [|x v IH]; intros [|y r] t i; cbn [sub_from_t]; try quiet_events. apply quiet_bind; [quiet_events|]. intros _.
  apply quiet_bind; [apply quiet_choose; lia|]. intros bo. apply quiet_bind; [quiet_events|]. intros _. apply quiet_bind; [apply IH | intros; apply quiet_ret].
Qed.
Lemma quiet_mul bits a b : quiet (mul_t bits a b).
Proof.
  unfold mul_t. generalize (zero_words (2 * bits)). generalize 0. induction a as [|x a IH]; intros i v; cbn [mul_rows_t]; [quiet_events|]. apply quiet_bind; [quiet_events|]. intros _.
  apply quiet_bind; [apply quiet_row|]. intros [|lo v']; [apply quiet_nil|]. apply quiet_bind; [apply IH | intros; apply quiet_ret].
Qed.
Lemma quiet_redc n N I0 v : quiet (redc_t n N I0 v).
Proof.
  unfold redc_t. repeat (apply quiet_bind; [first [apply quiet_slice | apply quiet_mul | apply quiet_add | apply quiet_sub] | intros ?]). apply quiet_choose. lia.
Qed.
Lemma quiet_mont_of n st x : quiet (mont_of_t n st x). Proof. apply quiet_bind; [apply quiet_mul | intros; apply quiet_redc]. Qed.
Lemma quiet_mont_mul n st x y : quiet (mont_mul_t n st x y). Proof. apply quiet_bind; [apply quiet_mul | intros; apply quiet_redc]. Qed.
Lemma quiet_mont_square n st x : quiet (mont_square_t n st x). Proof. apply quiet_bind; [apply quiet_mul | intros; apply quiet_redc]. Qed.
Lemma quiet_mont_out n st x : quiet (mont_out_t n st x).
Proof. apply quiet_bind; [|intros; apply quiet_redc]. unfold convert_t. destruct (_ =? _); [apply quiet_ret|]. apply quiet_app; apply quiet_passes. Qed.
Lemma bind_ok {A B} (m : traced A) (f : A -> traced B) r : snd (tbind m f) = Ok r -> exists a, snd m = Ok a /\ fst (tbind m f) = fst m ++ fst (f a) /\ snd (f a) = Ok r.
Proof. unfold tbind. destruct (snd m) as [a| | |]; cbv zeta; cbn [fst snd]; intros H; try discriminate H. exists a. auto. Qed.
Lemma exp_spells n st e one : bn n e -> forall count i v b r l, 0 <= i -> i + Z.of_nat count <= bits_of n -> spelled l = 0 ->
  snd (exp_loop_t count i n st e v b one) = Ok r -> spelled (fst (exp_loop_t count i n st e v b one) ++ l) = val e / 2 ^ i mod 2 ^ Z.of_nat count.
Proof.
  intros He. induction count as [|c IH]; intros i v b r l Hi HC HL H.
  - cbn [exp_loop_t]. cbn [emit fst app]. cbn [spelled]. rewrite HL. change (2 ^ Z.of_nat 0) with 1. rewrite Z.mod_1_r. reflexivity.
  - cbn [exp_loop_t] in *. apply bind_ok in H. destruct H as (a0 & _ & -> & H). apply bind_ok in H. destruct H as (bt & B & -> & H). apply bind_ok in H. destruct H as (f & _ & -> & H).
    apply bind_ok in H. destruct H as (v' & _ & -> & H). apply bind_ok in H. destruct H as (b' & _ & -> & H).
    rewrite bit_t_value, (bit_ok n e i He ltac:(lia)) in B. injection B as <-.
    rewrite <- !app_assoc. change (spelled (fst (emit [Loop true] tt) ++ ?t)) with (spelled t). rewrite quiet_bit.
    change (spelled (fst (choose 94 ?c b one) ++ ?t)) with (Z.b2z c + 2 * spelled t).
    rewrite quiet_mont_mul, quiet_mont_square, (IH (i + 1) v' b' r l ltac:(lia) ltac:(lia) HL H).
    rewrite Nat2Z.inj_succ, Z.pow_succ_r, Z.pow_add_r, <- Z.div_div by lia. change (2 ^ 1) with 2. rewrite Z.rem_mul_r by lia. f_equal.
    rewrite <- Z.testbit_spec' by exact Hi. destruct (Z.testbit (val e) i); reflexivity.
Qed.
(** Reading the choices of one run gives the private exponent. *)
Theorem C103_exponent : forall w N d k m, a_key w N d k -> bn w m -> spelled (fst (rsadp_t w k m)) = val d.
Proof.
  intros w N d k m K Hm. pose proof (a_key_good _ _ _ _ K) as [G D]. destruct K as (Hw & _ & _ & _ & Hd & _). rewrite <- D in Hd.
  destruct (rsadp_ok w k (val N) m G Hd Hm) as (r & E & _). rewrite <- rsadp_t_value in E. unfold rsadp_t in E |- *.
  apply bind_ok in E. destruct E as (v & _ & -> & E). apply bind_ok in E. destruct E as (x & E & -> & _). rewrite quiet_mont_of. unfold mont_exp_t in E |- *.
  apply bind_ok in E. destruct E as (u & _ & -> & E). apply bind_ok in E. destruct E as (one & _ & -> & E). rewrite <- !app_assoc. change (spelled (fst (of_u32_t ?b ?x) ++ ?t)) with (spelled t). rewrite quiet_mont_of.
  rewrite (exp_spells w (priv_s k) (priv_d k) one Hd (Z.to_nat (bits_of w)) 0 one v x (fst (mont_out_t w (priv_s k) x)) ltac:(lia) ltac:(lia)); [| |exact E].
  - rewrite Z2Nat.id by lia. change (2 ^ 0) with 1. rewrite Z.div_1_r, D. apply Z.mod_small. rewrite <- D. apply bn_range in Hd. exact Hd.
  - pose proof (quiet_mont_out w (priv_s k) x []) as Q. rewrite app_nil_r in Q. exact Q.
Qed.
Print Assumptions C103_exponent.
(** So no two private exponents look alike, whatever the messages. *)
Theorem C103_side_channel_refuted : forall w N d k N' d' k' m m', a_key w N d k -> a_key w N' d' k' -> bn w m -> bn w m' -> val d <> val d' -> seen everything (rsadp_t w k m) <> seen everything (rsadp_t w k' m').
Proof.
  intros w N d k N' d' k' m m' K K' Hm Hm' D E. unfold seen in E. rewrite !filter_all in E. apply D. rewrite <- (C103_exponent w N d k m K Hm), <- (C103_exponent w N' d' k' m' K' Hm'), E. reflexivity.
Qed.
Print Assumptions C103_side_channel_refuted.
(** A modulus of 12 bits with two exponents which undo 17 and 7. *)
Definition small_key (d : Z) : privkey := match rsa_private_key 1 [3233] [d] with Ok k => k | _ => Priv (MState [] [] [] [] []) [] [] 0 end.
Lemma small_ok d : 0 <= d < 2 ^ 32 -> a_key 1 [3233] [d] (small_key d).
Proof.
  intros H. assert (B : bn 1 [d]) by (split; [reflexivity | repeat constructor; apply H]). assert (BN : bn 1 [3233]) by (split; [reflexivity | repeat constructor; lia]).
  destruct (private_key_ok 1 [3233] [d] ltac:(lia) ltac:(lia) BN eq_refl B) as (k & E & _). unfold a_key, small_key. rewrite E. repeat split; try apply B; try apply BN; lia.
Qed.
Example C103_case : seen everything (rsadp_t 1 (small_key 2753) [65]) <> seen everything (rsadp_t 1 (small_key 1783) [65]) /\ seen no_choices (rsadp_t 1 (small_key 2753) [65]) = seen no_choices (rsadp_t 1 (small_key 1783) [42])
  /\ spelled (fst (rsadp_t 1 (small_key 2753) [65])) = 2753 /\ length (seen no_choices (rsadp_t 1 (small_key 2753) [65])) = 3615%nat.
Proof.
  assert (B : forall x, 0 <= x < 2 ^ 32 -> bn 1 [x]) by (intros x H; split; [reflexivity | repeat constructor; apply H]).
  split; [apply (C103_side_channel_refuted 1 [3233] [2753] _ [3233] [1783]); first [apply small_ok; lia | apply B; lia | vm_compute; discriminate]|].
  split; [apply (C103_loops_partial 1 [3233] [2753] _ [3233] [1783]); first [apply small_ok; lia | apply B; lia]|].
  split; vm_compute; reflexivity.
Qed.
Example C102_case : words8 key1 /\ words8 key2 /\ words8 base9 /\ key1 <> key2 /\ fst (ec_mul_t key1 base9) = fst (ec_mul_t key2 key1) /\ length (fst (ec_mul_t key1 base9)) = 586%nat.
Proof.
  split; [reflexivity|]. split; [reflexivity|]. split; [reflexivity|]. split; [discriminate|]. split; [|vm_compute; reflexivity].
  destruct (C102_field key1 base9 key2 key1 eq_refl eq_refl eq_refl eq_refl) as (_ & H & _). exact H.
Qed.
